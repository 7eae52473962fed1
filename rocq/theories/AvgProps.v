(** * Band averaging and spectra: C24 - C27 *)

From Coq Require Import Reals ZArith List Bool Lra Lia.
From Coquelicot Require Import Complex.
From Verif Require Import Num XR Spec XRFacts Engine Cpx DFT RSum FourierSpec EngineProps SpectralModel TimeProps
  TimeProps2 SeriesProps FourierFacts FourierProps.
Import ListNotations.
Open Scope R_scope.

(** [z] is [q] rounded to the nearest integer, halves to even *)
Definition rounds_to (q : R) (z : Z) : Prop :=
  Rabs (q - IZR z) <= 1/2 /\ (Rabs (q - IZR z) = 1/2 -> Z.Even z).
(** the number of fine bands per averaged band: round(df / first step), at least 1; df = 0 asks for none *)
Definition averaging_factor (f : list R) (df : R) (r : nat) : Prop :=
  (df = 0 /\ r = 1%nat) \/
  (df <> 0 /\ exists z, rounds_to (df / step f) z /\ Z.of_nat r = Z.max z 1).
(** mean of the i-th block of r consecutive values *)
Definition block_mean (r : nat) (v : list R) (i : nat) : R :=
  Rmean (map (fun j => nth (i * r + j) v 0) (seq 0 r)).

Lemma nrint_F q : exists z, nrint (N:=NX) (Fin q) = Fin (IZR z) /\ rounds_to q z.
Proof.
  unfold nrint. cbn [nfloor NX xfloor]. assert (H := Rfloor_spec q). set (z := Rfloor q) in *.
  rewrite !fin_ofZ, fin_sub, fin_lit by lra. rewrite !fin_ltb.
  destruct (Rltb_spec (q - IZR z) (1 / 2)).
  - exists z. split; [reflexivity|]. unfold rounds_to. rewrite Rabs_pos_eq by lra. split; [lra|]. intros; lra.
  - destruct (Rltb_spec (1/2) (q - IZR z)).
    + exists (z + 1)%Z. split; [reflexivity|]. unfold rounds_to. rewrite plus_IZR, Rabs_left by lra. split; [lra|]. intros; lra.
    + assert (q - IZR z = 1/2) by lra. destruct (Z.even z) eqn:E.
      * exists z. split; [reflexivity|]. unfold rounds_to. rewrite Rabs_pos_eq by lra. split; [lra|]. intros _. apply Z.even_spec; auto.
      * exists (z + 1)%Z. split; [reflexivity|]. unfold rounds_to. rewrite plus_IZR, Rabs_left by lra. split; [lra|]. intros _.
        apply Z.even_spec. rewrite Z.even_add, E. reflexivity.
Qed.
Lemma rounds_unique q z z' : rounds_to q z -> rounds_to q z' -> z = z'.
Proof.
  intros [A1 A2] [B1 B2].
  assert (D : Rabs (IZR z - IZR z') <= 1).
  { replace (IZR z - IZR z') with ((q - IZR z') - (q - IZR z)) by ring.
    eapply Rle_trans; [apply Rabs_triang|]. rewrite Rabs_Ropp. lra. }
  rewrite <- minus_IZR, <- abs_IZR in D. apply le_IZR in D.
  destruct (Z.eq_dec z z'); auto. exfalso.
  assert (HD : Rabs (IZR z - IZR z') = 1) by (rewrite <- minus_IZR, <- abs_IZR; f_equal; lia).
  assert (HH : Rabs (IZR z - IZR z') <= Rabs (q - IZR z') + Rabs (q - IZR z)).
  { replace (IZR z - IZR z') with ((q - IZR z') + - (q - IZR z)) by ring.
    eapply Rle_trans; [apply Rabs_triang|]. rewrite Rabs_Ropp. lra. }
  destruct (A2 ltac:(lra)) as [a Ha]. destruct (B2 ltac:(lra)) as [b Hb]. lia.
Qed.

Lemma factor_exists f df : exists r, averaging_factor f df r.
Proof.
  destruct (Req_dec df 0); [exists 1%nat; left; auto|].
  destruct (nrint_F (df / step f)) as (z & _ & Hz). exists (Z.to_nat (Z.max z 1)). right. split; [auto|].
  exists z. split; [auto|lia].
Qed.
Lemma factor_pos f df r : averaging_factor f df r -> (1 <= r)%nat.
Proof. intros [[_ ->]|[_ (z & _ & H)]]; lia. Qed.

Lemma avg_factor_F f df r : (2 <= length f)%nat -> step f <> 0 -> averaging_factor f df r ->
  avg_factor (F f) (Fin df) = Ok (Fin (INR r)).
Proof.
  intros H2 Hs Hr. unfold avg_factor. rewrite fin_0, fin_eqb. destruct (Reqb_spec df 0) as [E|E]; cbn [negb].
  - rewrite bind_Ok. unfold pymax2. rewrite fin_1, fin_ltb, Rltb_false by lra.
    destruct Hr as [[_ ->]|[D _]]; [reflexivity|contradiction].
  - rewrite !idx_F by lia. rewrite !bind_Ok, fin_sub. fold (step f). rewrite fin_div by auto.
    destruct Hr as [[D _]|[_ (z & Hz & Hr)]]; [contradiction|].
    destruct (nrint_F (df / step f)) as (z' & -> & Hz'). assert (z' = z) by (eapply rounds_unique; eauto). subst z'.
    unfold pymax2. rewrite fin_1, fin_ltb. rewrite INR_IZR_INZ, Hr.
    destruct (Rltb_spec (IZR z) 1) as [L|L].
    + apply lt_IZR in L. rewrite Z.max_r by lia. reflexivity.
    + rewrite Z.max_l; [reflexivity|]. apply le_IZR. lra.
Qed.
Lemma int_trunc_nat k : int_trunc (N:=NX) (Fin (INR k)) = Ok (Z.of_nat k).
Proof.
  unfold int_trunc. rewrite fin_0, fin_ltb, Rltb_false by (assert (H := pos_INR k); lra).
  apply fin_floor_nat; [apply pos_INR|]. split; lra.
Qed.
Lemma slice_block (v : list R) i r : ((i + 1) * r <= length v)%nat ->
  slice (i * r) ((i + 1) * r) v = map (fun j => nth (i * r + j) v 0) (seq 0 r).
Proof.
  intros H. apply (nth_ext' _ _ 0); [rewrite slice_length, map_length, seq_length; lia|].
  intros k Hk. rewrite slice_length in Hk by lia. rewrite slice_nth by lia.
  rewrite (map_seq_nth (fun j => nth (i * r + j) v 0)) by lia. reflexivity.
Qed.
Lemma avg_block_F r v i : (1 <= r)%nat -> ((i + 1) * r <= length v)%nat ->
  avg_block (Fin (INR r)) (F v) i = Ok (Fin (block_mean r v i)).
Proof.
  intros Hr Hi. unfold avg_block. rewrite !fin_ofnat, !fin_mul, <- !mult_INR, !int_trunc_nat, !bind_Ok.
  rewrite !Nat2Z.id, F_slice, slice_block by auto. rewrite nmean_F; [reflexivity|].
  destruct r; [lia|discriminate].
Qed.
Lemma floor_div n r : (1 <= r)%nat -> floor_is (INR n / INR r) (n / r).
Proof.
  intros Hr. assert (Hp : 0 < INR r) by (apply lt_0_INR; lia).
  assert (D := Nat.div_mod n r ltac:(lia)). assert (M := Nat.mod_upper_bound n r ltac:(lia)).
  assert (E : INR n = INR r * INR (n / r) + INR (n mod r)) by (rewrite <- mult_INR, <- plus_INR; f_equal; exact D).
  assert (0 <= INR (n mod r)) by apply pos_INR. assert (INR (n mod r) < INR r) by (apply lt_INR; auto).
  split; apply Rmult_le_reg_r with (INR r) || apply Rmult_lt_reg_r with (INR r); auto;
    unfold Rdiv; rewrite Rmult_assoc, Rinv_l by lra; lra.
Qed.

Lemma averaging_eq f s df r af as_ :
  (2 <= length f)%nat -> step f <> 0 -> length s = length f -> averaging_factor f df r ->
  holds_vector (F f) af -> holds_vector (F s) as_ ->
  frequency_averaging af as_ (Fin df)
  = Ok (F (map (block_mean r f) (seq 0 (length f / r))), F (map (block_mean r s) (seq 0 (length f / r)))).
Proof.
  intros H2 Hs Hl Hr Hf Hss. assert (Hr1 := factor_pos _ _ _ Hr).
  assert (Nf : F f <> []) by (apply F_ne; intros ->; cbn in H2; lia).
  assert (Ns : F s <> []) by (apply F_ne; intros ->; cbn in Hl; lia).
  destruct (hv_convert _ _ Nf Hf) as (k1 & K1 & E1). destruct (hv_convert _ _ Ns Hss) as (k2 & K2 & E2).
  unfold frequency_averaging. rewrite E1, E2. cbn [fst snd].
  assert (Nat.ltb 1 k1 = false) as -> by (apply Nat.ltb_ge; lia).
  assert (Nat.ltb 1 k2 = false) as -> by (apply Nat.ltb_ge; lia). cbn [orb].
  rewrite !as_list_vec, !bind_Ok, (avg_factor_F f df r) by auto. rewrite bind_Ok, F_length, fin_ofnat.
  assert (Hp : 0 < INR r) by (apply lt_0_INR; lia).
  rewrite fin_div by lra. rewrite (fin_floor_nat _ (length f / r)).
  - rewrite bind_Ok, Nat2Z.id, idx_F, bind_Ok by lia.
    assert (Hb : forall v i, length v = length f -> In i (seq 0 (length f / r)) ->
              avg_block (Fin (INR r)) (F v) i = Ok (Fin (block_mean r v i))).
    { intros v i Hv Hi. apply in_seq in Hi. apply avg_block_F; auto. rewrite Hv.
      assert (r * (length f / r) <= length f)%nat by (apply Nat.mul_div_le; lia). nia. }
    rewrite (mapM_Ok _ (fun i => Fin (block_mean r f i))) by (intros; apply Hb; auto). rewrite bind_Ok.
    rewrite (mapM_Ok _ (fun i => Fin (block_mean r s i))) by (intros; apply Hb; auto). rewrite bind_Ok.
    unfold F. rewrite !map_map. reflexivity.
  - apply Rmult_le_pos; [apply pos_INR|]. left. apply Rinv_0_lt_compat. auto.
  - apply floor_div. auto.
Qed.

(** ** C24 Band averaging *)

Theorem C24_blocks (f s : list R) (df : R) (af as_ : arraylike NX) :
  (2 <= length f)%nat -> step f <> 0 -> length s = length f ->
  holds_vector (F f) af -> holds_vector (F s) as_ ->
  exists r fc sc, averaging_factor f df r /\ (1 <= r)%nat
    /\ frequency_averaging af as_ (Fin df) = Ok (F fc, F sc)
    /\ length fc = (length f / r)%nat /\ length sc = (length f / r)%nat
    /\ forall i, (i < length f / r)%nat -> nth i fc 0 = block_mean r f i /\ nth i sc 0 = block_mean r s i.
Proof.
  intros H2 Hs Hl Hf Hss. destruct (factor_exists f df) as (r & Hr). assert (Hr1 := factor_pos _ _ _ Hr).
  exists r. eexists _, _. split; [exact Hr|]. split; [auto|]. split; [apply averaging_eq; eauto|].
  rewrite !map_length, seq_length. split; [auto|]. split; [auto|].
  intros i Hi. rewrite !map_seq_nth by auto. auto.
Qed.
Lemma block_mean_1 v i : block_mean 1 v i = nth i v 0.
Proof. unfold block_mean, Rmean, Rsum. cbn. rewrite Nat.mul_1_r, Nat.add_0_r. field. Qed.
(** without a requested resolution nothing is averaged *)
Theorem C24_identity (f s : list R) (af as_ : arraylike NX) :
  (2 <= length f)%nat -> step f <> 0 -> length s = length f ->
  holds_vector (F f) af -> holds_vector (F s) as_ ->
  frequency_averaging af as_ (Fin 0) = Ok (F f, F s).
Proof.
  intros H2 Hs Hl Hf Hss. rewrite (averaging_eq f s 0 1) by (auto; left; auto).
  rewrite Nat.div_1_r.
  assert (E : forall v, length v = length f -> map (block_mean 1 v) (seq 0 (length f)) = v).
  { intros v Hv. apply (nth_ext' _ _ 0); [rewrite map_length, seq_length; auto|].
    intros i Hi. rewrite map_length, seq_length in Hi. rewrite map_seq_nth by auto. apply block_mean_1. }
  rewrite !E by auto. reflexivity.
Qed.
Lemma block_mean_RS r v i : block_mean r v i = RS r (fun j => nth (i * r + j) v 0) / INR r.
Proof. unfold block_mean, Rmean, RS. rewrite map_length, seq_length. reflexivity. Qed.
Lemma block_sum r v m : (1 <= r)%nat ->
  RS m (fun i => block_mean r v i * INR r) = RS (m * r) (fun k => nth k v 0).
Proof.
  intros Hr. assert (INR r <> 0) by (apply not_0_INR; lia).
  induction m; [reflexivity|]. rewrite RS_S, IHm. cbn [Nat.mul]. rewrite (Nat.add_comm r), RS_add. f_equal.
  rewrite block_mean_RS. field. auto.
Qed.
(** the variance over the covered range is conserved: averaged density times the averaged band width r*df0 adds up
    to fine density times df0 over the first r*floor(n/r) fine bands *)
Theorem C24_variance_conserved (f s : list R) (df : R) (af as_ : arraylike NX) :
  (2 <= length f)%nat -> step f <> 0 -> length s = length f ->
  holds_vector (F f) af -> holds_vector (F s) as_ ->
  exists r fc sc, averaging_factor f df r /\ frequency_averaging af as_ (Fin df) = Ok (F fc, F sc)
    /\ Rsum (map (fun v => v * (INR r * step f)) sc)
       = Rsum (map (fun v => v * step f) (firstn (length f / r * r) s)).
Proof.
  intros H2 Hs Hl Hf Hss. destruct (factor_exists f df) as (r & Hr). assert (Hr1 := factor_pos _ _ _ Hr).
  exists r. eexists _, _. split; [exact Hr|]. split; [apply averaging_eq; eauto|].
  assert (Hle : (length f / r * r <= length s)%nat) by (rewrite Hl, Nat.mul_comm; apply Nat.mul_div_le; lia).
  rewrite map_map. fold (RS (length f / r) (fun i => block_mean r s i * (INR r * step f))).
  rewrite (RS_ext _ _ (fun i => step f * (block_mean r s i * INR r))) by (intros; ring).
  rewrite RS_scal, block_sum by auto. rewrite (Rsum_map_RS _ _ 0), firstn_length, Nat.min_l by auto.
  rewrite <- RS_scal. apply RS_ext. intros k Hk. rewrite firstn_nth by auto. ring.
Qed.
(** averaging keeps bounds, in particular non-negativity *)
Theorem C24_bounds (f s : list R) (df lo hi : R) (af as_ : arraylike NX) :
  (2 <= length f)%nat -> step f <> 0 -> length s = length f ->
  holds_vector (F f) af -> holds_vector (F s) as_ ->
  (forall v, In v s -> lo <= v <= hi) ->
  exists fc sc, frequency_averaging af as_ (Fin df) = Ok (F fc, F sc) /\ forall v, In v sc -> lo <= v <= hi.
Proof.
  intros H2 Hs Hl Hf Hss Hb. destruct (factor_exists f df) as (r & Hr). assert (Hr1 := factor_pos _ _ _ Hr).
  eexists _, _. split; [apply averaging_eq; eauto|].
  intros v Hv. apply in_map_iff in Hv as (i & <- & Hi). apply in_seq in Hi.
  assert (r * (length f / r) <= length f)%nat by (apply Nat.mul_div_le; lia).
  unfold block_mean. apply Rmean_bounds; [destruct r; [lia|discriminate]|].
  intros x Hx. apply in_map_iff in Hx as (j & <- & Hj). apply in_seq in Hj. apply Hb, nth_In. nia.
Qed.
(** averaging a uniform axis gives a uniform axis with step r*df0, starting in the middle of the first r bands *)
Theorem C24_uniform_axis (f0 df0 df : R) (s : list R) (as_ : arraylike NX) :
  (2 <= length s)%nat -> 0 < df0 -> holds_vector (F s) as_ ->
  exists r fc sc, averaging_factor (axis f0 df0 (length s)) df r
    /\ frequency_averaging (Arr (vec (F (axis f0 df0 (length s))))) as_ (Fin df) = Ok (F fc, F sc)
    /\ fc = axis (f0 + INR (r - 1) / 2 * df0) (INR r * df0) (length s / r).
Proof.
  intros H2 Hd Hss. set (f := axis f0 df0 (length s)).
  assert (Lf : length f = length s) by apply axis_length.
  assert (Es : step f = df0) by (unfold step, f; rewrite !axis_nth by lia; change (INR 1) with 1; change (INR 0) with 0; ring).
  destruct (factor_exists f df) as (r & Hr). assert (Hr1 := factor_pos _ _ _ Hr).
  exists r. eexists _, _. split; [exact Hr|]. split.
  { apply averaging_eq; [rewrite Lf; exact H2|rewrite Es; lra|symmetry; exact Lf|exact Hr|constructor|exact Hss]. }
  rewrite Lf. unfold axis at 1. apply map_ext_in. intros i Hi. apply in_seq in Hi.
  assert (Hle : (r * (length s / r) <= length s)%nat) by (apply Nat.mul_div_le; lia).
  rewrite block_mean_RS. assert (Hp : 0 < INR r) by (apply lt_0_INR; lia).
  rewrite (RS_ext r _ (fun j => (f0 + INR (i * r) * df0) + df0 * INR j)).
  - rewrite RS_plus, RS_const, RS_scal.
    assert (G : forall n, RS n INR = INR n * (INR n - 1) / 2).
    { induction n; [rewrite RS_0; cbn; field|]. rewrite RS_S, IHn, S_INR. field. }
    rewrite G, mult_INR, minus_INR by lia. change (INR 1) with 1. field. lra.
  - intros j Hj. unfold f. rewrite axis_nth by nia. rewrite plus_INR. ring.
Qed.
Example C24_witness : (2 <= length ([0; 0.1; 0.2; 0.3]%R : list R))%nat /\ averaging_factor (axis 0 (1/10) 4) (2/10) 2.
Proof.
  split; [cbn; lia|]. right. split; [lra|]. exists 2%Z. split; [|reflexivity].
  unfold step, rounds_to. rewrite !axis_nth by lia. change (INR 1) with 1. change (INR 0) with 0.
  replace (2 / 10 / (0 + 1 * (1 / 10) - (0 + 0 * (1 / 10))) - 2) with 0 by field.
  rewrite Rabs_R0. split; [lra|]. intros; lra.
Qed.
(** unequal lengths are not checked: densities shorter than the axis give NaN bands, no error *)
Theorem C24_length_check_refuted :
  ~ (forall (f s : list R) (df : NX), (2 <= length f)%nat -> length s <> length f ->
       exists e, frequency_averaging (Arr (vec (F f))) (Arr (vec (F s))) df = Raise e).
Proof.
  intros H. destruct (H [0; 1; 2] [5; 5] (Fin 0)) as (e & E); [cbn; lia|cbn; lia|].
  unfold frequency_averaging in E. rewrite !vec_convert in E. cbn [fst snd] in E.
  change (Nat.ltb 1 0) with false in E. cbn [orb] in E. rewrite !as_list_vec, !bind_Ok in E.
  rewrite (avg_factor_F [0; 1; 2] 0 1) in E; [|cbn; lia|unfold step; cbn; lra|left; auto].
  rewrite bind_Ok, F_length, fin_ofnat, fin_div in E by (cbn; lra).
  rewrite (fin_floor_nat _ 3) in E; [|cbn; lra|split; cbn; lra]. rewrite bind_Ok in E.
  change (Z.to_nat (Z.of_nat 3)) with 3%nat in E. rewrite idx_F, bind_Ok in E by (cbn; lia).
  rewrite (mapM_Ok _ (fun i => Fin (block_mean 1 [0; 1; 2] i))) in E.
  2:{ intros i Hi. apply in_seq in Hi. apply avg_block_F; cbn; lia. }
  rewrite bind_Ok in E.
  rewrite (mapM_Ok _ (fun i => nmean (N:=NX) (slice i (i + 1) (F [5; 5])))) in E; [discriminate|].
  intros i Hi. unfold avg_block. rewrite !fin_ofnat, !fin_mul, <- !mult_INR, !int_trunc_nat, !bind_Ok.
  rewrite !Nat2Z.id, !Nat.mul_1_r. reflexivity.
Qed.
