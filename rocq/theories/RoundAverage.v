(** * C95: band averaging and coherence in binary64.
    How many bands are joined, how far the averages are from the exact ones, and how far above 1 a computed coherence can be. *)

From Coq Require Import Reals ZArith String List Bool Lra Lia Psatz.
From Flocq Require Import Core.
From Coquelicot Require Import Complex.
From Verif Require Import SumOrder Num XR Spec XRFacts RoundNum Engine EngineProps Cpx SpectralModel DFT FourierSpec FourierFacts FourierProps
  RSum AvgProps SeriesProps DensityProps RoundProps RoundSpec RoundAccuracy RoundChain RoundRecord RoundSynth.
From Verif Require TimeProps RoundDisper.
Import ListNotations.
Open Scope R_scope.

Section AnyOrder.
Context {So : summation} {Lm : libm}.

(** ** The number of bands that are joined *)
Lemma nrint_NB q : is_float q -> Rabs q <= bpow radix2 52 -> exists z, nrint (N:=NB) (Fin q) = Fin (IZR z) /\ (0 <= q -> rounds_to q z) /\ (q < 0 -> (z <= 0)%Z).
Proof.
  intros Fq Hq. unfold nrint. change (nfloor (n:=NB) (Fin q)) with (Some (Rfloor q)). cbn match. assert (H := Rfloor_spec q). set (z := Rfloor q) in *. clearbody z.
  replace (bpow radix2 52) with 4503599627370496 in Hq by (cbn; lra). apply Rabs_le_inv in Hq.
  assert (Zb : (- 2 ^ 53 < z /\ z < 2 ^ 53)%Z) by (split; apply lt_IZR; [change (IZR (- 2 ^ 53)) with (-9007199254740992)|change (IZR (2 ^ 53)) with 9007199254740992]; lra).
  rewrite !nb_ofZ by lia. rewrite nb_sub. unfold lit. rewrite !nb_ofZ by (cbn; lia). rewrite nb_div by lra. change (IZR 1 / IZR 2) with (1 / 2).
  assert (Eh : rnd (1 / 2) = 1 / 2) by (apply rnd_id; replace (1 / 2) with (IZR 1 * bpow radix2 (-1)) by (cbn; lra); apply float_scaled; cbn; lia). rewrite Eh. rewrite !nb_ltb.
  destruct (Rle_lt_dec 0 q) as [P|Ng].
  - assert (Ex : rnd (q - IZR z) = q - IZR z).
    { destruct (Z.eq_dec z 0) as [->|Nz]; [rewrite Rminus_0_r; apply rnd_id, Fq|]. assert (1 <= z)%Z by (assert (-1 < z)%Z by (apply lt_IZR; lra); lia). apply IZR_le in H0.
      apply rnd_id. apply Sterbenz.sterbenz; [apply FLT_exp_valid; reflexivity|apply FLT_exp_monotone|exact Fq|apply float_Z; lia|lra]. }
    rewrite Ex. destruct (Rltb_spec (q - IZR z) (1 / 2)).
    + exists z. split; [reflexivity|]. split; [|lra]. intros _. unfold rounds_to. rewrite Rabs_pos_eq by lra. split; [lra|]. intros; lra.
    + destruct (Rltb_spec (1/2) (q - IZR z)).
      * exists (z + 1)%Z. split; [reflexivity|]. split; [|lra]. intros _. unfold rounds_to. rewrite plus_IZR, Rabs_left by lra. split; [lra|]. intros; lra.
      * assert (q - IZR z = 1/2) by lra. destruct (Z.even z) eqn:E.
        -- exists z. split; [reflexivity|]. split; [|lra]. intros _. unfold rounds_to. rewrite Rabs_pos_eq by lra. split; [lra|]. intros _. apply Z.even_spec; auto.
        -- exists (z + 1)%Z. split; [reflexivity|]. split; [|lra]. intros _. unfold rounds_to. rewrite plus_IZR, Rabs_left by lra. split; [lra|]. intros _.
           apply Z.even_spec. rewrite Z.even_add, E. reflexivity.
  - assert (Zn : (z < 0)%Z) by (apply lt_IZR; lra).
    destruct (Rltb _ _); [exists z; split; [reflexivity|split; [lra|lia]]|]. destruct (Rltb _ _); [exists (z + 1)%Z; split; [reflexivity|split; [lra|lia]]|].
    destruct (Z.even z); [exists z|exists (z + 1)%Z]; (split; [reflexivity|split; [lra|lia]]).
Qed.
(** the quotient of which the factor is the rounded value, as computed *)
Definition quotient (f : list R) (df : R) : R := rnd (df / rnd (nth 1 f 0 - nth 0 f 0)).
Definition factor_NB (f : list R) (df : R) (r : nat) : Prop :=
  (df = 0 /\ r = 1%nat) \/ (df <> 0 /\ exists z, rounds_to (quotient f df) z /\ Z.of_nat r = Z.max z 1).
Lemma avg_factor_NB f df : (2 <= length f)%nat -> rnd (nth 1 f 0 - nth 0 f 0) <> 0 -> Rabs (quotient f df) <= bpow radix2 52 ->
  exists r, factor_NB f df r /\ (1 <= r)%nat /\ (Z.of_nat r <= 2 ^ 53)%Z /\ avg_factor (N:=NB) (F f) (Fin df) = Ok (Fin (INR r)).
Proof.
  intros H2 Hs Hq. unfold avg_factor. rewrite nb_0. change (neqb (n:=NB) (Fin df) (Fin 0)) with (Reqb df 0). destruct (Reqb_spec df 0) as [E|E]; cbn [negb].
  - exists 1%nat. split; [left; auto|]. split; [lia|]. split; [cbn; lia|]. rewrite bind_Ok. unfold pymax2. rewrite nb_1, nb_ltb, Rltb_false by lra. reflexivity.
  - assert (I1 : idx (A := car NB) (F f) 1 = Ok (Fin (nth 1 f 0))) by (apply (idx_F f 1); lia).
    assert (I0 : idx (A := car NB) (F f) 0 = Ok (Fin (nth 0 f 0))) by (apply (idx_F f 0); lia).
    rewrite I1, bind_Ok, I0, !bind_Ok, nb_sub, nb_div by exact Hs. fold (quotient f df).
    destruct (nrint_NB (quotient f df) (rnd_float _) Hq) as (z & -> & Zp & Zn). exists (Z.to_nat (Z.max z 1)).
    assert (Hz : exists w, rounds_to (quotient f df) w /\ Z.max w 1 = Z.max z 1).
    { destruct (Rle_lt_dec 0 (quotient f df)) as [P|P]; [exists z; auto|]. destruct (nrint_F (quotient f df)) as (w & _ & Hw). exists w. split; [exact Hw|].
      destruct Hw as [Hw _]. apply Rabs_le_inv in Hw. assert (w < 1)%Z by (apply lt_IZR; lra). specialize (Zn P). lia. }
    destruct Hz as (w & Hw & Ew). assert (Eq := nrint_NB (quotient f df) (rnd_float _) Hq).
    assert (Zb : (z <= 2 ^ 53)%Z).
    { destruct (Rle_lt_dec 0 (quotient f df)) as [P|P]; [|specialize (Zn P); lia]. destruct (Zp P) as [A _]. apply Rabs_le_inv in A.
      replace (bpow radix2 52) with 4503599627370496 in Hq by (cbn; lra). apply Rabs_le_inv in Hq. apply le_IZR. change (IZR (2 ^ 53)) with 9007199254740992. lra. }
    split; [right; split; [exact E|]; exists w; split; [exact Hw|]; rewrite Z2Nat.id by lia; lia|]. split; [lia|]. split; [rewrite Z2Nat.id by lia; lia|].
    unfold pymax2. rewrite nb_1, nb_ltb. apply f_equal. rewrite INR_IZR_INZ, Z2Nat.id by lia.
    destruct (Rltb_spec (IZR z) 1) as [L|L]; [apply lt_IZR in L; rewrite Z.max_r by lia; reflexivity|rewrite Z.max_l; [reflexivity|apply le_IZR; lra]].
Qed.
(** the factor is the one of exact arithmetic when the quotient is not within rounding of a half *)
Theorem C95_factor f df r : 0 < df -> bpow radix2 (-900) <= nth 1 f 0 - nth 0 f 0 -> bpow radix2 (-1000) <= df / (nth 1 f 0 - nth 0 f 0) ->
  (forall k : Z, df / (nth 1 f 0 - nth 0 f 0) * / 2 ^ 51 < Rabs (df / (nth 1 f 0 - nth 0 f 0) - (IZR k + 1 / 2))) -> factor_NB f df r <-> averaging_factor f df r.
Proof.
  intros Hd Hs HQ Hk. unfold factor_NB, averaging_factor, quotient. assert (Es : step f = nth 1 f 0 - nth 0 f 0) by reflexivity. rewrite Es. clear Es.
  set (st := nth 1 f 0 - nth 0 f 0) in *. set (Q := df / st) in *. assert (U := u53_val).
  assert (Ps : 0 < st) by (assert (P := b_pos (-900)); lra). assert (PQ : 0 < Q) by (assert (P := b_pos (-1000)); lra).
  assert (R0 : rel 1 st (rnd st)) by (apply rel_rnd; [lia|right; eapply Rle_trans; [|exact Hs]; apply bpow_le; lia|apply rel_refl]).
  assert (R1 : rel 3 Q (rnd (df / rnd st))).
  { apply rel_rnd; [lia|right; eapply Rle_trans; [|exact HQ]; apply bpow_le; lia|]. apply (rel_div 0 1); [lra|exact Ps|apply rel_refl|exact R0]. }
  set (q := rnd (df / rnd st)) in *. assert (A := rel_abs 3 Q q ltac:(lia) ltac:(lra) R1). replace (INR 3) with 3 in A by (cbn; lra).
  assert (A' : Rabs (q - Q) <= Q * / 2 ^ 51) by (eapply Rle_trans; [exact A|]; rewrite U; lra).
  assert (K : forall z, rounds_to q z <-> rounds_to Q z).
  { clear - A' Hk PQ. intros z. unfold rounds_to. assert (H1 := Hk z). assert (H2 := Hk (z - 1)%Z). rewrite minus_IZR in H2. set (e := Q * / 2 ^ 51) in *.
    assert (Pe : 0 < e) by (apply Rmult_lt_0_compat; lra). clearbody e.
    assert (D1 : Q < IZR z + 1 / 2 - e \/ IZR z + 1 / 2 + e < Q) by (revert H1; unfold Rabs; destruct (Rcase_abs _); intros; lra).
    assert (D2 : Q < IZR z - 1 / 2 - e \/ IZR z - 1 / 2 + e < Q) by (revert H2; unfold Rabs; destruct (Rcase_abs _); intros; lra).
    apply Rabs_le_inv in A'. split; intros [B _]; apply Rabs_le_inv in B.
    - assert (C : Rabs (Q - IZR z) < 1 / 2) by (apply Rabs_def1; lra). split; [lra|intros; lra].
    - assert (C : Rabs (q - IZR z) < 1 / 2) by (apply Rabs_def1; lra). split; [lra|intros; lra]. }
  split; (intros [[E _]|[E (z & Hz & Hr)]]; [lra|right; split; [exact E|]; exists z; split; [apply K, Hz|exact Hr]]).
Qed.

(** ** Averages *)
Definition blockl (r : nat) (v : list R) (i : nat) : list R := map (fun j => nth (i * r + j) v 0) (seq 0 r).
Definition bmean (r : nat) (v : list R) (i : nat) : R := rnd (fsum (blockl r v i) / INR r).
Lemma int_trunc_NB k : int_trunc (N:=NB) (Fin (INR k)) = Ok (Z.of_nat k).
Proof.
  unfold int_trunc. rewrite nb_0, nb_ltb, Rltb_false by (assert (H := pos_INR k); lra). unfold int_floor. change (nfloor (n:=NB) (Fin ?r)) with (Some (Rfloor r)). cbn match.
  rewrite (Rfloor_unique _ (Z.of_nat k)); [reflexivity|]. rewrite <- INR_IZR_INZ. lra.
Qed.
Lemma avg_block_NB r v i : (1 <= r)%nat -> ((i + 1) * r <= length v)%nat -> (Z.of_nat (length v) <= 2 ^ 50)%Z -> avg_block (N:=NB) (Fin (INR r)) (F v) i = Ok (Fin (bmean r v i)).
Proof.
  intros Hr Hi Hv. unfold avg_block. rewrite !nb_ofnat by nia. rewrite !nb_mul, <- !mult_INR.
  assert (Ex : forall k, (k <= length v)%nat -> rnd (INR k) = INR k) by (intros k Hk; rewrite INR_IZR_INZ; apply rnd_id, float_Z; lia).
  rewrite !Ex by nia. rewrite !int_trunc_NB, !bind_Ok, !Nat2Z.id. apply f_equal.
  assert (Es : slice (A := car NB) (i * r) ((i + 1) * r) (F v) = F (blockl r v i)).
  { etransitivity; [apply (F_slice (i * r) ((i + 1) * r) v)|]. rewrite slice_block by exact Hi. reflexivity. }
  rewrite Es. unfold nmean. rewrite nb_sum. assert (Lb : length (blockl r v i) = r) by (unfold blockl; rewrite map_length, seq_length; reflexivity).
  change (@length (car NB) (F (blockl r v i))) with (@length xr (F (blockl r v i))). rewrite F_length, Lb, nb_ofnat by nia. rewrite nb_div by (apply not_0_INR; lia). reflexivity.
Qed.
Lemma floor_div_NB n r : (1 <= r)%nat -> (1 <= n)%nat -> (Z.of_nat n <= 2 ^ 50)%Z -> (Z.of_nat r <= 2 ^ 53)%Z -> Rfloor (rnd (INR n / INR r)) = Z.of_nat (n / r).
Proof.
  intros Hr Hn Hn' Hr'. assert (U := u53_val). assert (P1 : 1 <= INR r) by (apply (le_INR 1); exact Hr). assert (N1 : 1 <= INR n) by (apply (le_INR 1); exact Hn).
  assert (N2 : INR n <= 1125899906842624) by (rewrite INR_IZR_INZ; apply (IZR_le _ (2 ^ 50)); exact Hn').
  assert (D := Nat.div_mod n r ltac:(lia)). assert (M := Nat.mod_upper_bound n r ltac:(lia)). assert (Hk : (r * (n / r) <= n)%nat) by lia. assert (Hk' : (n + 1 <= r * (n / r + 1))%nat) by nia.
  apply le_INR in Hk, Hk'. rewrite mult_INR in Hk, Hk'. rewrite !plus_INR in Hk'. cbn [INR] in Hk'. assert (Kn : (n / r <= n)%nat) by (apply Nat.div_le_upper_bound; nia).
  set (k := (n / r)%nat) in *. clearbody k. assert (Eq : INR n / INR r * INR r = INR n) by (field; lra).
  apply Rfloor_unique. rewrite <- INR_IZR_INZ. split.
  - apply rnd_ge_float; [rewrite INR_IZR_INZ; apply float_Z; lia|]. apply Rmult_le_reg_r with (INR r); [lra|]. rewrite Eq. lra.
  - assert (Q : bpow radix2 (-1020) <= INR n / INR r).
    { apply Rmult_le_reg_r with (INR r); [lra|]. rewrite Eq. assert (P53 : INR r <= 9007199254740992) by (rewrite INR_IZR_INZ; apply (IZR_le _ (2 ^ 53)); exact Hr').
      assert (bpow radix2 (-1020) <= bpow radix2 (-60)) by (apply bpow_le; lia). replace (bpow radix2 (-60)) with (/ 1152921504606846976) in H by (cbn; lra). assert (P0 := b_pos (-1020)).
      apply Rle_trans with (/ 1152921504606846976 * INR r); [apply Rmult_le_compat_r; lra|lra]. }
    destruct (rnd_rel _ Q) as [_ R]. fold u53 in R. eapply Rle_lt_trans; [exact R|]. apply Rmult_lt_reg_r with (INR r); [lra|].
    replace (INR n / INR r * (1 + u53) * INR r) with (INR n / INR r * INR r * (1 + u53)) by ring. rewrite Eq, U. lra.
Qed.
Lemma averaging_NB f s df af as_ : (2 <= length f)%nat -> (Z.of_nat (length f) <= 2 ^ 50)%Z -> length s = length f ->
  rnd (nth 1 f 0 - nth 0 f 0) <> 0 -> Rabs (quotient f df) <= bpow radix2 52 -> holds_vector (F f) af -> holds_vector (F s) as_ ->
  forall r, factor_NB f df r -> (1 <= r)%nat
    /\ frequency_averaging (N:=NB) af as_ (Fin df) = Ok (F (map (bmean r f) (seq 0 (length f / r))), F (map (bmean r s) (seq 0 (length f / r)))).
Proof.
  intros H2 Hn Hl Hst Hq Hf Hss r0 Hr0. destruct (avg_factor_NB f df H2 Hst Hq) as (r & Hr & Hr1 & Hrb & Er).
  assert (r0 = r) as ->.
  { destruct Hr0 as [[E ->]|[E (z & Hz & Ez)]], Hr as [[E' ->]|[E' (z' & Hz' & Ez')]]; try contradiction; [reflexivity|]. rewrite (rounds_unique _ _ _ Hz Hz') in Ez. lia. }
  split; [exact Hr1|].
  assert (Nf : F f <> []) by (destruct f; [cbn in H2; lia|discriminate]). assert (Ns : F s <> []) by (destruct s; [cbn in Hl; lia|discriminate]).
  destruct (@hv_convert (car NB) (F f) af Nf Hf) as (k1 & K1 & E1). destruct (@hv_convert (car NB) (F s) as_ Ns Hss) as (k2 & K2 & E2).
  unfold frequency_averaging. rewrite E1, E2. cbn [fst snd].
  assert (Nat.ltb 1 k1 = false) as -> by (apply Nat.ltb_ge; lia). assert (Nat.ltb 1 k2 = false) as -> by (apply Nat.ltb_ge; lia). cbn [orb].
  rewrite !TimeProps.as_list_vec, !bind_Ok, Er, bind_Ok. change (@length (car NB) (F f)) with (@length xr (F f)). rewrite F_length, nb_ofnat by lia.
  rewrite nb_div by (apply not_0_INR; lia). unfold int_floor. change (nfloor (n:=NB) (Fin ?r)) with (Some (Rfloor r)). cbn match. rewrite bind_Ok, floor_div_NB by lia. rewrite Nat2Z.id.
  assert (I0 : idx (A := car NB) (F s) 0 = Ok (Fin (nth 0 s 0))) by (apply (idx_F s 0); lia). rewrite I0, bind_Ok.
  assert (Hle : (r * (length f / r) <= length f)%nat) by (apply Nat.mul_div_le; lia).
  assert (Hb : forall v i, length v = length f -> In i (seq 0 (length f / r)) -> avg_block (N:=NB) (Fin (INR r)) (F v) i = Ok (Fin (bmean r v i))).
  { intros v i Hv Hi. apply in_seq in Hi. apply avg_block_NB; [exact Hr1|rewrite Hv; nia|rewrite Hv; exact Hn]. }
  rewrite (mapM_Ok _ (fun i => Fin (bmean r f i))) by (intros; apply Hb; auto). rewrite bind_Ok.
  rewrite (mapM_Ok _ (fun i => Fin (bmean r s i))) by (intros; apply Hb; auto). rewrite bind_Ok.
  unfold F. rewrite !map_map. reflexivity.
Qed.
Lemma bmean_rel r v v' k i : (1 <= r)%nat -> (Z.of_nat (k + r) <= 2 ^ 39)%Z ->
  (forall j, (j < r)%nat -> (nth (i * r + j) v 0 = 0 \/ bpow radix2 (-950) <= nth (i * r + j) v 0) /\ rel k (nth (i * r + j) v 0) (nth (i * r + j) v' 0)) ->
  rel (S (k + r)) (block_mean r v i) (bmean r v' i) /\ (block_mean r v i = 0 \/ bpow radix2 (-1000) <= block_mean r v i).
Proof.
  intros Hr Hk H. assert (P1 : 1 <= INR r) by (apply (le_INR 1); exact Hr). assert (Lb : forall v, length (blockl r v i) = r) by (intros; unfold blockl; rewrite map_length, seq_length; reflexivity).
  assert (Nb : forall v j, (j < r)%nat -> nth j (blockl r v i) 0 = nth (i * r + j) v 0) by (intros w j Hj; unfold blockl; rewrite map_seq_nth by exact Hj; reflexivity).
  assert (B950 : bpow radix2 (-1010) <= bpow radix2 (-950)) by (apply bpow_le; lia). assert (P950 := b_pos (-950)).
  destruct (fsum_rel_terms k (blockl r v i) (blockl r v' i)) as [T R].
  - rewrite Lb. lia.
  - rewrite !Lb. reflexivity.
  - intros j Hj. rewrite Lb in Hj. rewrite !Nb by exact Hj. destruct (H j Hj) as [A B]. split; [|exact B]. destruct A as [A|A]; [left; exact A|right; lra].
  - rewrite Lb in R.
    assert (Bm : block_mean r v i = Rsum (blockl r v i) / INR r).
    { unfold block_mean, Rmean. fold (blockl r v i). rewrite Lb. reflexivity. }
    assert (S : Rsum (blockl r v i) = 0 \/ bpow radix2 (-950) <= Rsum (blockl r v i)).
    { assert (G : forall l, (forall w, In w l -> w = 0 \/ bpow radix2 (-950) <= w) -> Rsum l = 0 \/ bpow radix2 (-950) <= Rsum l).
      { induction l as [|w l IH]; intros Hw; [left; reflexivity|]. change (Rsum (w :: l)) with (w + Rsum l). destruct (Hw w (or_introl eq_refl)) as [->|A], IH as [B|B]; try (intros y Hy; apply Hw; right; exact Hy); [left|right|right|right]; lra. }
      apply G. intros w Hw. apply in_map_iff in Hw as (j & <- & Hj). apply in_seq in Hj. apply H. lia. }
    assert (S' : block_mean r v i = 0 \/ bpow radix2 (-1000) <= block_mean r v i).
    { rewrite Bm. destruct S as [->|S]; [left; unfold Rdiv; ring|right].
      assert (R40 : INR r <= bpow radix2 40) by (replace (bpow radix2 40) with (IZR (2 ^ 40)) by (cbn; lra); rewrite INR_IZR_INZ; apply IZR_le; lia).
      apply Rmult_le_reg_r with (INR r); [lra|]. unfold Rdiv. rewrite Rmult_assoc, Rinv_l, Rmult_1_r by lra. eapply Rle_trans; [|exact S].
      apply Rle_trans with (bpow radix2 (-1000) * bpow radix2 40); [apply Rmult_le_compat_l; [apply Rlt_le, b_pos|exact R40]|]. rewrite <- bpow_plus. apply bpow_le. lia. }
    split; [|exact S']. unfold bmean. apply rel_rnd; [lia| |].
    + destruct S' as [E|E]; [left; exact E|right]. eapply Rle_trans; [apply bpow_le|exact E]. lia.
    + rewrite Bm. replace (k + r)%nat with (k + r + 2 * 0)%nat by lia. apply rel_div; [apply thr_nonneg, T|lra|exact R|apply rel_refl].
Qed.

(** (a) the averages of frequencies and densities that are zero or not tiny *)
Theorem C95_averages f s df (af as_ : arraylike NB) : (2 <= length f)%nat -> (Z.of_nat (length f) <= 2 ^ 38)%Z -> length s = length f ->
  rnd (nth 1 f 0 - nth 0 f 0) <> 0 -> Rabs (quotient f df) <= bpow radix2 52 ->
  (forall v, In v f \/ In v s -> v = 0 \/ bpow radix2 (-900) <= v) -> holds_vector (F f) af -> holds_vector (F s) as_ ->
  exists r fc sc, factor_NB f df r /\ (1 <= r)%nat /\ frequency_averaging (N:=NB) af as_ (Fin df) = Ok (F fc, F sc)
    /\ length fc = (length f / r)%nat /\ length sc = (length f / r)%nat
    /\ forall i, (i < length f / r)%nat ->
         Rabs (nth i fc 0 - block_mean r f i) <= (INR r + 1) / 2 ^ 52 * block_mean r f i
      /\ Rabs (nth i sc 0 - block_mean r s i) <= (INR r + 1) / 2 ^ 52 * block_mean r s i.
Proof.
  intros H2 Hn Hl Hst Hq Hv Hf Hss. destruct (avg_factor_NB f df H2 Hst Hq) as (r & Hr & Hr1 & Hrb & Er).
  destruct (averaging_NB f s df af as_ H2 ltac:(lia) Hl Hst Hq Hf Hss r Hr) as [_ E].
  exists r. eexists _, _. split; [exact Hr|]. split; [exact Hr1|]. split; [exact E|]. rewrite !map_length, !seq_length. split; [reflexivity|]. split; [reflexivity|].
  intros i Hi. assert (Hle : (r * (length f / r) <= length f)%nat) by (apply Nat.mul_div_le; lia). assert (U := u53_val). assert (Pr := pos_INR r).
  assert (B : bpow radix2 (-950) <= bpow radix2 (-900)) by (apply bpow_le; lia).
  assert (G : forall v, length v = length f -> (forall w, In w v -> w = 0 \/ bpow radix2 (-900) <= w) -> Rabs (bmean r v i - block_mean r v i) <= (INR r + 1) / 2 ^ 52 * block_mean r v i).
  { intros v Lv Hw. destruct (bmean_rel r v v 0 i Hr1 ltac:(nia)) as [RR SS].
    { intros j Hj. split; [|apply rel_refl]. destruct (Hw (nth (i * r + j) v 0)) as [A|A]; [apply nth_In; nia|left; exact A|right; lra]. }
    assert (P0 : 0 <= block_mean r v i) by (destruct SS as [->|SS]; [lra|assert (P := b_pos (-1000)); lra]).
    assert (A := rel_abs (S (0 + r)) _ _ ltac:(nia) P0 RR). eapply Rle_trans; [exact A|]. rewrite S_INR. cbn [Nat.add]. apply Rmult_le_compat_r; [exact P0|]. rewrite U. lra. }
  rewrite !map_seq_nth by exact Hi. split; apply G; auto.
Qed.

(** ** Coherence *)
Definition part_ok (v : R) : Prop := v = 0 \/ bpow radix2 (-200) <= Rabs v.
Definition parts_ok (z : C) : Prop := part_ok (fst z) /\ part_ok (snd z).
(** |z * conj w| as computed: the rounded root of the rounded sum of the squares of the rounded parts *)
Definition cross_re (z w : C) : R := rnd (rnd (fst z * fst w) + rnd (snd z * snd w)).
Definition cross_im (z w : C) : R := rnd (rnd (snd z * fst w) - rnd (fst z * snd w)).
Definition cross (z w : C) : R := rnd (sqrt (rnd (rnd (cross_re z w * cross_re z w) + rnd (cross_im z w * cross_im z w)))).
Lemma rnd_nonneg x : 0 <= x -> 0 <= rnd x. Proof. intros H. apply rnd_ge_float; [apply float_0|exact H]. Qed.
Lemma rnd_sq_nonneg x : 0 <= rnd (x * x). Proof. apply rnd_nonneg, Rle_0_sqr. Qed.
Lemma cross_NB z w : cabs (N:=NB) (cmul (N:=NB) (FC z) (cconj (N:=NB) (FC w))) = Fin (cross z w).
Proof.
  destruct z as [a b], w as [c d]. unfold cabs, cmul, cconj, FC, cre, cim. cbn [fst snd].
  change (nopp (n:=NB) (Fin d)) with (Fin (- d)). rewrite !nb_mul, nb_sub, !nb_add, !nb_mul, nb_add.
  replace (b * - d) with (- (b * d)) by ring. replace (a * - d) with (- (a * d)) by ring. rewrite !rnd_opp.
  replace (rnd (a * c) - - rnd (b * d)) with (rnd (a * c) + rnd (b * d)) by ring. replace (- rnd (a * d) + rnd (b * c)) with (rnd (b * c) - rnd (a * d)) by ring.
  rewrite RoundDisper.nb_sqrt; [reflexivity|]. apply rnd_nonneg. apply Rplus_le_le_0_compat; apply rnd_sq_nonneg.
Qed.
Lemma rnd_up x b : x <= b -> thr b -> rnd x <= b * (1 + u53).
Proof. intros H T. destruct (rel_rnd 0 b b ltac:(lia) T (rel_refl b)) as [_ A]. cbn [pow] in A. assert (B := rnd_le _ _ H). lra. Qed.
Lemma rnd_down x b : b <= x -> thr b -> b * (1 - u53) <= rnd x.
Proof. intros H T. destruct (rel_rnd 0 b b ltac:(lia) T (rel_refl b)) as [A _]. cbn [pow] in A. assert (B := rnd_le _ _ H). lra. Qed.
Lemma rnd_close x : thr (Rabs x) -> Rabs (rnd x - x) <= u53 * Rabs x.
Proof.
  intros T. destruct (rel_rnd 0 _ _ ltac:(lia) T (rel_refl _)) as [A B]. cbn [pow] in A, B. revert T A B.
  unfold Rabs at 1 2 3 4 5 7. destruct (Rcase_abs x) as [N|P]; [rewrite rnd_opp|]; intros _ A B; apply Rabs_le; lra.
Qed.
Lemma rnd_abs_up x b : Rabs x <= b -> thr b -> Rabs (rnd x) <= b * (1 + u53).
Proof. intros H T. apply Rabs_le_inv in H. apply Rabs_le. split; [|apply rnd_up; [lra|exact T]]. assert (A := rnd_up (- x) b ltac:(lra) T). rewrite rnd_opp in A. lra. Qed.
Lemma part_mul a c : part_ok a -> part_ok c -> a * c = 0 \/ bpow radix2 (-400) <= Rabs (a * c).
Proof.
  intros [->|A] [->|C]; [left; ring..|right]. rewrite Rabs_mult. replace (bpow radix2 (-400)) with (bpow radix2 (-200) * bpow radix2 (-200)) by (rewrite <- bpow_plus; reflexivity).
  assert (P := b_pos (-200)). apply Rmult_le_compat; lra.
Qed.
Lemma big_thr e x : (-1010 <= e)%Z -> x = 0 \/ bpow radix2 e <= Rabs x -> thr (Rabs x).
Proof. intros He [->|A]; [left; apply Rabs_R0|right]. eapply Rle_trans; [apply bpow_le|exact A]. exact He. Qed.
Lemma parts_sq z : parts_ok z -> sq z = 0 \/ bpow radix2 (-400) <= sq z.
Proof.
  destruct z as [a b]. intros [A B]. cbn [fst snd] in *. unfold sq. cbn [fst snd]. assert (Pa := Rle_0_sqr a). assert (Pb := Rle_0_sqr b). unfold Rsqr in Pa, Pb.
  destruct (part_mul a a A A) as [E|E]; [|right; rewrite Rabs_pos_eq in E by exact Pa; lra].
  destruct (part_mul b b B B) as [E'|E']; [left; lra|right; rewrite Rabs_pos_eq in E' by exact Pb; lra].
Qed.
Lemma amp_sq z : 0 <= amp z /\ amp z * amp z = sq z.
Proof. unfold amp. split; [apply sqrt_pos|]. apply sqrt_sqrt. unfold sq. assert (A := Rle_0_sqr (fst z)). assert (B := Rle_0_sqr (snd z)). unfold Rsqr in *. lra. Qed.
Lemma parts_amp z : parts_ok z -> amp z = 0 \/ bpow radix2 (-200) <= amp z.
Proof.
  intros H. destruct (amp_sq z) as [P E]. destruct (parts_sq z H) as [Z|Z]; [left; rewrite Z in E; nra|right].
  apply Rnot_lt_le. intros L. assert (Q := b_pos (-200)). replace (bpow radix2 (-400)) with (bpow radix2 (-200) * bpow radix2 (-200)) in Z by (rewrite <- bpow_plus; reflexivity). nra.
Qed.
Lemma cross_up z w : parts_ok z -> parts_ok w -> cross z w <= amp z * amp w * (1 + u53) ^ 6.
Proof.
  intros Hz Hw. assert (U := u53_val). assert (Pu : 0 < u53) by (rewrite U; lra). destruct (amp_sq z) as [Az Ez], (amp_sq w) as [Aw Ew].
  assert (Tm : amp z * amp w = 0 \/ bpow radix2 (-400) <= amp z * amp w).
  { destruct (parts_amp z Hz) as [->|A]; [left; ring|]. destruct (parts_amp w Hw) as [->|B]; [left; ring|right].
    replace (bpow radix2 (-400)) with (bpow radix2 (-200) * bpow radix2 (-200)) by (rewrite <- bpow_plus; reflexivity). assert (P := b_pos (-200)). apply Rmult_le_compat; lra. }
  assert (Em : (amp z * amp w) * (amp z * amp w) = sq z * sq w) by (rewrite <- Ez, <- Ew; ring). assert (Pm : 0 <= amp z * amp w) by (apply Rmult_le_pos; assumption).
  set (m := amp z * amp w) in *. clearbody m. clear Ez Ew Az Aw. unfold cross, cross_re, cross_im. destruct z as [a b], w as [c d]. destruct Hz as [Ha Hb], Hw as [Hc Hd]. unfold sq in Em. cbn [fst snd] in *.
  set (p := a * c + b * d). set (q := b * c - a * d). assert (Epq : p * p + q * q = m * m) by (rewrite Em; unfold p, q; ring).
  assert (Cl : forall x y, part_ok x -> part_ok y -> Rabs (rnd (x * y) - x * y) <= u53 * Rabs (x * y)) by (intros x y Hx Hy; apply rnd_close, (big_thr (-400)); [lia|apply part_mul; assumption]).
  assert (Cac := Cl a c Ha Hc). assert (Cbd := Cl b d Hb Hd). assert (Cbc := Cl b c Hb Hc). assert (Cad := Cl a d Ha Hd). clear Cl.
  (* |a c| + |b d| <= m and |b c| + |a d| <= m *)
  assert (Sq : forall v, v * v <= m * m -> v <= m) by (intros v Hv; nra).
  assert (B1 : Rabs (a * c) + Rabs (b * d) <= m).
  { apply Sq. rewrite Em, !Rabs_mult. replace (a * a) with (Rabs a * Rabs a) by (rewrite <- Rabs_mult; apply Rabs_pos_eq, Rle_0_sqr). replace (b * b) with (Rabs b * Rabs b) by (rewrite <- Rabs_mult; apply Rabs_pos_eq, Rle_0_sqr).
    replace (c * c) with (Rabs c * Rabs c) by (rewrite <- Rabs_mult; apply Rabs_pos_eq, Rle_0_sqr). replace (d * d) with (Rabs d * Rabs d) by (rewrite <- Rabs_mult; apply Rabs_pos_eq, Rle_0_sqr).
    assert (H := Rle_0_sqr (Rabs a * Rabs d - Rabs b * Rabs c)). unfold Rsqr in H. lra. }
  assert (B2 : Rabs (b * c) + Rabs (a * d) <= m).
  { apply Sq. rewrite Em, !Rabs_mult. replace (a * a) with (Rabs a * Rabs a) by (rewrite <- Rabs_mult; apply Rabs_pos_eq, Rle_0_sqr). replace (b * b) with (Rabs b * Rabs b) by (rewrite <- Rabs_mult; apply Rabs_pos_eq, Rle_0_sqr).
    replace (c * c) with (Rabs c * Rabs c) by (rewrite <- Rabs_mult; apply Rabs_pos_eq, Rle_0_sqr). replace (d * d) with (Rabs d * Rabs d) by (rewrite <- Rabs_mult; apply Rabs_pos_eq, Rle_0_sqr).
    assert (H := Rle_0_sqr (Rabs a * Rabs c - Rabs b * Rabs d)). unfold Rsqr in H. lra. }
  assert (Pp : Rabs p <= m) by (apply Sq; rewrite <- Rabs_mult, Rabs_pos_eq by apply Rle_0_sqr; assert (H := Rle_0_sqr q); unfold Rsqr in H; lra).
  assert (Pq : Rabs q <= m) by (apply Sq; rewrite <- Rabs_mult, Rabs_pos_eq by apply Rle_0_sqr; assert (H := Rle_0_sqr p); unfold Rsqr in H; lra).
  set (k1 := Rabs p + u53 * m). set (k2 := Rabs q + u53 * m).
  assert (A1 : Rabs (rnd (a * c) + rnd (b * d)) <= k1).
  { replace (rnd (a * c) + rnd (b * d)) with (p + ((rnd (a * c) - a * c) + (rnd (b * d) - b * d))) by (unfold p; ring). eapply Rle_trans; [apply Rabs_triang|]. unfold k1. apply Rplus_le_compat_l.
    eapply Rle_trans; [apply Rabs_triang|]. apply Rle_trans with (u53 * (Rabs (a * c) + Rabs (b * d))); [lra|]. apply Rmult_le_compat_l; [lra|exact B1]. }
  assert (A2 : Rabs (rnd (b * c) - rnd (a * d)) <= k2).
  { replace (rnd (b * c) - rnd (a * d)) with (q + ((rnd (b * c) - b * c) + - (rnd (a * d) - a * d))) by (unfold q; ring). eapply Rle_trans; [apply Rabs_triang|]. unfold k2. apply Rplus_le_compat_l.
    eapply Rle_trans; [apply Rabs_triang|]. rewrite Rabs_Ropp. apply Rle_trans with (u53 * (Rabs (b * c) + Rabs (a * d))); [lra|]. apply Rmult_le_compat_l; [lra|exact B2]. }
  clear Cac Cbd Cbc Cad B1 B2. set (x1 := rnd (a * c) + rnd (b * d)) in *. set (x2 := rnd (b * c) - rnd (a * d)) in *. clearbody x1 x2.
  assert (Kk : forall v, 0 <= v -> v <= m -> thr (v + u53 * m) /\ thr ((v + u53 * m) * (1 + u53) * ((v + u53 * m) * (1 + u53)))).
  { intros v Pv Hv. destruct Tm as [->|Tm].
    - assert (v = 0) as -> by lra. replace (0 + u53 * 0) with 0 by ring. split; left; ring.
    - assert (L : bpow radix2 (-453) <= v + u53 * m).
      { replace (bpow radix2 (-453)) with (u53 * bpow radix2 (-400)) by (unfold u53; rewrite <- bpow_plus; reflexivity). apply Rmult_le_compat_l with (r := u53) in Tm; lra. }
      assert (P := b_pos (-453)). split; right; [eapply Rle_trans; [apply bpow_le|exact L]; lia|].
      apply Rle_trans with (bpow radix2 (-453) * bpow radix2 (-453)); [rewrite <- bpow_plus; apply bpow_le; lia|]. set (y := v + u53 * m) in *. clearbody y. apply Rmult_le_compat; nra. }
  destruct (Kk (Rabs p) (Rabs_pos p) Pp) as [T1 T1'], (Kk (Rabs q) (Rabs_pos q) Pq) as [T2 T2']. fold k1 in T1, T1'. fold k2 in T2, T2'.
  assert (D1 := rnd_abs_up x1 k1 A1 T1). assert (D2 := rnd_abs_up x2 k2 A2 T2). set (r1 := rnd x1) in *. set (r2 := rnd x2) in *. clearbody r1 r2.
  assert (Sq' : forall v w, Rabs v <= w -> v * v <= w * w).
  { intros v w H. rewrite <- (Rabs_pos_eq (v * v)) by apply Rle_0_sqr. rewrite Rabs_mult. apply Rmult_le_compat; try apply Rabs_pos; exact H. }
  assert (E1 := rnd_up _ _ (Sq' _ _ D1) T1'). assert (E2 := rnd_up _ _ (Sq' _ _ D2) T2').
  assert (K0 : k1 * k1 + k2 * k2 <= m * m * (1 + u53) ^ 5).
  { assert (K : k1 * k1 + k2 * k2 <= m * m * (1 + 5 * u53)).
    { unfold k1, k2. assert (Ep : Rabs p * Rabs p = p * p) by (rewrite <- Rabs_mult; apply Rabs_pos_eq, Rle_0_sqr). assert (Eq : Rabs q * Rabs q = q * q) by (rewrite <- Rabs_mult; apply Rabs_pos_eq, Rle_0_sqr).
      replace ((Rabs p + u53 * m) * (Rabs p + u53 * m) + (Rabs q + u53 * m) * (Rabs q + u53 * m)) with (Rabs p * Rabs p + Rabs q * Rabs q + 2 * u53 * m * (Rabs p + Rabs q) + 2 * u53 * u53 * (m * m)) by ring.
      rewrite Ep, Eq, Epq. assert (H1 : 2 * u53 * m * (Rabs p + Rabs q) <= 2 * u53 * m * (m + m)) by (apply Rmult_le_compat_l; [apply Rmult_le_pos; lra|lra]).
      assert (Pmm : 0 <= m * m) by (apply Rle_0_sqr). assert (H2 : 2 * u53 * u53 * (m * m) <= u53 * (m * m)) by (apply Rmult_le_compat_r; [exact Pmm|rewrite U; lra]).
      replace (2 * u53 * m * (m + m)) with (4 * u53 * (m * m)) in H1 by ring. lra. }
    eapply Rle_trans; [exact K|]. apply Rmult_le_compat_l; [apply Rle_0_sqr|]. assert (B := hi_bern 5). cbn [INR] in B. lra. }
  set (g := 1 + u53) in *. assert (Pg : 0 < g) by (unfold g; lra).
  assert (F1 : rnd (r1 * r1) + rnd (r2 * r2) <= m * m * g ^ 8).
  { apply Rle_trans with ((k1 * k1 + k2 * k2) * g ^ 3); [replace ((k1 * k1 + k2 * k2) * g ^ 3) with (k1 * g * (k1 * g) * g + k2 * g * (k2 * g) * g) by ring; lra|].
    replace (m * m * g ^ 8) with (m * m * g ^ 5 * g ^ 3) by ring. apply Rmult_le_compat_r; [apply pow_le; lra|exact K0]. }
  assert (Tg : forall k e, (-1000 <= e)%Z -> m = 0 \/ bpow radix2 e <= m * m -> thr (m * m * g ^ k)).
  { intros k e He [->|H]; [left; ring|right]. eapply Rle_trans; [apply bpow_le|]. 2: apply Rle_trans with (m * m * 1); [rewrite Rmult_1_r; exact H|apply Rmult_le_compat_l; [apply Rle_0_sqr|apply hi_1]]. lia. }
  assert (Tmm : m = 0 \/ bpow radix2 (-800) <= m * m).
  { destruct Tm as [->|Tm]; [left; reflexivity|right]. replace (bpow radix2 (-800)) with (bpow radix2 (-400) * bpow radix2 (-400)) by (rewrite <- bpow_plus; reflexivity). assert (P := b_pos (-400)). apply Rmult_le_compat; lra. }
  assert (G := rnd_up _ _ F1 (Tg 8%nat (-800)%Z ltac:(lia) Tmm)). fold g in G.
  assert (G' : sqrt (rnd (rnd (r1 * r1) + rnd (r2 * r2))) <= m * g ^ 5).
  { assert (Pmg : 0 <= m * g ^ 5) by (apply Rmult_le_pos; [exact Pm|apply pow_le; lra]). rewrite <- (sqrt_square (m * g ^ 5)) by exact Pmg. apply sqrt_le_1_alt. eapply Rle_trans; [exact G|].
    replace (m * m * g ^ 8 * g) with (m * m * g ^ 9 * 1) by ring. replace (m * g ^ 5 * (m * g ^ 5)) with (m * m * g ^ 9 * g) by ring. apply Rmult_le_compat_l; [apply Rmult_le_pos; [apply Rle_0_sqr|apply pow_le; lra]|unfold g; lra]. }
  assert (T5 : thr (m * g ^ 5)).
  { destruct Tm as [->|Tm]; [left; ring|right]. eapply Rle_trans; [|apply Rle_trans with (m * 1); [rewrite Rmult_1_r; exact Tm|apply Rmult_le_compat_l; [exact Pm|apply hi_1]]]. apply bpow_le. lia. }
  assert (Z := rnd_up _ _ G' T5). fold g in Z. replace (m * g ^ 6) with (m * g ^ 5 * g) by ring. exact Z.
Qed.
Lemma cross_lo z w : parts_ok z -> parts_ok w -> amp z * amp w * (1 - u53) ^ 12 <= cross z w.
Proof.
  intros Hz Hw. assert (U := u53_val). assert (Pu : 0 < u53) by (rewrite U; lra). destruct (amp_sq z) as [Az Ez], (amp_sq w) as [Aw Ew].
  assert (Tm : amp z * amp w = 0 \/ bpow radix2 (-400) <= amp z * amp w).
  { destruct (parts_amp z Hz) as [->|A]; [left; ring|]. destruct (parts_amp w Hw) as [->|B]; [left; ring|right].
    replace (bpow radix2 (-400)) with (bpow radix2 (-200) * bpow radix2 (-200)) by (rewrite <- bpow_plus; reflexivity). assert (P := b_pos (-200)). apply Rmult_le_compat; lra. }
  destruct Tm as [E|Tm]; [rewrite E, Rmult_0_l; apply rnd_nonneg, sqrt_pos|].
  assert (Em : (amp z * amp w) * (amp z * amp w) = sq z * sq w) by (rewrite <- Ez, <- Ew; ring). assert (Pm : 0 <= amp z * amp w) by (apply Rmult_le_pos; assumption).
  set (m := amp z * amp w) in *. clearbody m. clear Ez Ew Az Aw. unfold cross, cross_re, cross_im. destruct z as [a b], w as [c d]. destruct Hz as [Ha Hb], Hw as [Hc Hd]. unfold sq in Em. cbn [fst snd] in *.
  set (p := a * c + b * d). set (q := b * c - a * d). assert (Epq : p * p + q * q = m * m) by (rewrite Em; unfold p, q; ring).
  assert (Cl : forall x y, part_ok x -> part_ok y -> Rabs (rnd (x * y) - x * y) <= u53 * Rabs (x * y)) by (intros x y Hx Hy; apply rnd_close, (big_thr (-400)); [lia|apply part_mul; assumption]).
  assert (Cac := Cl a c Ha Hc). assert (Cbd := Cl b d Hb Hd). assert (Cbc := Cl b c Hb Hc). assert (Cad := Cl a d Ha Hd). clear Cl.
  assert (Sq : forall v, v * v <= m * m -> v <= m) by (intros v Hv; nra). assert (Ab : forall v, Rabs v * Rabs v = v * v) by (intros v; rewrite <- Rabs_mult; apply Rabs_pos_eq, Rle_0_sqr).
  assert (B1 : Rabs (a * c) + Rabs (b * d) <= m) by (apply Sq; rewrite Em, !Rabs_mult, <- (Ab a), <- (Ab b), <- (Ab c), <- (Ab d); assert (H := Rle_0_sqr (Rabs a * Rabs d - Rabs b * Rabs c)); unfold Rsqr in H; lra).
  assert (B2 : Rabs (b * c) + Rabs (a * d) <= m) by (apply Sq; rewrite Em, !Rabs_mult, <- (Ab a), <- (Ab b), <- (Ab c), <- (Ab d); assert (H := Rle_0_sqr (Rabs a * Rabs c - Rabs b * Rabs d)); unfold Rsqr in H; lra).
  assert (Pp : Rabs p <= m) by (apply Sq; rewrite Ab; assert (H := Rle_0_sqr q); unfold Rsqr in H; lra).
  assert (Pq : Rabs q <= m) by (apply Sq; rewrite Ab; assert (H := Rle_0_sqr p); unfold Rsqr in H; lra).
  assert (A1 : Rabs (rnd (a * c) + rnd (b * d) - p) <= u53 * m).
  { replace (rnd (a * c) + rnd (b * d) - p) with ((rnd (a * c) - a * c) + (rnd (b * d) - b * d)) by (unfold p; ring).
    eapply Rle_trans; [apply Rabs_triang|]. apply Rle_trans with (u53 * (Rabs (a * c) + Rabs (b * d))); [lra|]. apply Rmult_le_compat_l; [lra|exact B1]. }
  assert (A2 : Rabs (rnd (b * c) - rnd (a * d) - q) <= u53 * m).
  { replace (rnd (b * c) - rnd (a * d) - q) with ((rnd (b * c) - b * c) + - (rnd (a * d) - a * d)) by (unfold q; ring).
    eapply Rle_trans; [apply Rabs_triang|]. rewrite Rabs_Ropp. apply Rle_trans with (u53 * (Rabs (b * c) + Rabs (a * d))); [lra|]. apply Rmult_le_compat_l; [lra|exact B2]. }
  clear Cac Cbd Cbc Cad B1 B2 Em. clearbody p q. set (x1 := rnd (a * c) + rnd (b * d)) in *. set (x2 := rnd (b * c) - rnd (a * d)) in *. clearbody x1 x2. clear a b c d Ha Hb Hc Hd.
  set (t := bpow radix2 (-1020)). assert (Pt : 0 < t) by apply b_pos.
  assert (Tt : t <= u53 * m /\ t <= / 2 * (m * m)).
  { assert (L1 : t <= u53 * bpow radix2 (-400)) by (unfold u53, t; rewrite <- bpow_plus; apply bpow_le; lia).
    assert (L2 : t <= / 2 * (bpow radix2 (-400) * bpow radix2 (-400))) by (replace (/ 2) with (bpow radix2 (-1)) by (cbn; lra); unfold t; rewrite <- !bpow_plus; apply bpow_le; lia).
    assert (P := b_pos (-400)). split; [eapply Rle_trans; [exact L1|]; apply Rmult_le_compat_l; lra|eapply Rle_trans; [exact L2|]; apply Rmult_le_compat_l; [lra|apply Rmult_le_compat; lra]]. }
  destruct Tt as [Tt1 Tt2].
  assert (D : forall x p, Rabs (x - p) <= u53 * m -> Rabs p <= m -> p * p - 6 * u53 * (m * m) <= rnd x * rnd x /\ rnd x * rnd x <= 2 * (m * m)).
  { clear - Pu U Tt1 Pm Pt. intros x p H Hp. assert (R := rnd_abs x). fold t in R. assert (Hx : Rabs x <= Rabs p + u53 * m) by (replace x with (p + (x - p)) by ring; eapply Rle_trans; [apply Rabs_triang|lra]).
    assert (E : Rabs (rnd x - p) <= 3 * (u53 * m)).
    { replace (rnd x - p) with ((rnd x - x) + (x - p)) by ring. eapply Rle_trans; [apply Rabs_triang|]. assert (H1 : Rabs x + t <= m * (1 + 2 * u53)) by lra.
      assert (H2 : u53 * (Rabs x + t) <= u53 * (m * (1 + 2 * u53))) by (apply Rmult_le_compat_l; lra). assert (H3 : u53 * (m * (1 + 2 * u53)) <= 2 * (u53 * m)). { replace (u53 * (m * (1 + 2 * u53))) with ((u53 * m) * (1 + 2 * u53)) by ring. replace (2 * (u53 * m)) with ((u53 * m) * 2) by ring. apply Rmult_le_compat_l; [apply Rmult_le_pos; lra|rewrite U; lra]. } lra. }
    set (e := rnd x - p) in *. replace (rnd x) with (p + e) by (unfold e; ring). clearbody e. assert (Pe : Rabs p * Rabs e <= m * (3 * (u53 * m))) by (apply Rmult_le_compat; try apply Rabs_pos; assumption).
    rewrite <- Rabs_mult in Pe. assert (Ee := Rle_0_sqr e). unfold Rsqr in Ee. assert (Pe' := Rabs_le_inv _ _ Pe).
    assert (Pp : p * p <= m * m) by (rewrite <- (Rabs_pos_eq (p * p)) by apply Rle_0_sqr; rewrite Rabs_mult; apply Rmult_le_compat; try apply Rabs_pos; exact Hp).
    assert (E2 : e * e <= (3 * (u53 * m)) * (3 * (u53 * m))) by (rewrite <- (Rabs_pos_eq (e * e)) by exact Ee; rewrite Rabs_mult; apply Rmult_le_compat; try apply Rabs_pos; exact E).
    assert (Q : (3 * (u53 * m)) * (3 * (u53 * m)) + 2 * (m * (3 * (u53 * m))) <= m * m).
    { replace ((3 * (u53 * m)) * (3 * (u53 * m)) + 2 * (m * (3 * (u53 * m)))) with ((m * m) * (9 * u53 * u53 + 6 * u53)) by ring. rewrite <- (Rmult_1_r (m * m)) at 2. apply Rmult_le_compat_l; [apply Rle_0_sqr|rewrite U; lra]. }
    split; lra. }
  destruct (D x1 p A1 Pp) as [D1 D1'], (D x2 q A2 Pq) as [D2 D2']. clear D. assert (N1 := Rle_0_sqr (rnd x1)). assert (N2 := Rle_0_sqr (rnd x2)). unfold Rsqr in N1, N2.
  set (s1 := rnd x1 * rnd x1) in *. set (s2 := rnd x2 * rnd x2) in *. clearbody s1 s2.
  assert (R1 := rnd_abs s1). assert (R2 := rnd_abs s2). fold t in R1, R2. rewrite (Rabs_pos_eq s1) in R1 by exact N1. rewrite (Rabs_pos_eq s2) in R2 by exact N2. apply Rabs_le_inv in R1, R2.
  set (g := 1 - u53). assert (Pg : 0 < g < 1) by (unfold g; rewrite U; lra).
  assert (Pmm : 0 <= m * m) by apply Rle_0_sqr.
  assert (H : m * m * (1 - 18 * u53) <= rnd s1 + rnd s2).
  { assert (K : u53 * (s1 + s2 + 2 * t) <= u53 * (5 * (m * m))) by (apply Rmult_le_compat_l; lra). lra. }
  assert (G20 : m * m * g ^ 20 <= rnd s1 + rnd s2).
  { eapply Rle_trans; [|exact H]. apply Rmult_le_compat_l; [exact Pmm|]. assert (Ld := lo_down 20). fold g in Ld. replace (INR 20) with 20 in Ld by (cbn; lra). rewrite U in *. lra. }
  assert (Big : forall k, (k <= 100)%nat -> / 2 <= g ^ k).
  { intros k Hk. assert (B := lo_bern k). fold g in B. assert (INR k <= 100) by (replace 100 with (INR 100) by (cbn; lra); apply le_INR, Hk). eapply Rle_trans; [|exact B]. rewrite U. lra. }
  assert (P400 := b_pos (-400)). assert (Mm : bpow radix2 (-800) <= m * m) by (replace (bpow radix2 (-800)) with (bpow radix2 (-400) * bpow radix2 (-400)) by (rewrite <- bpow_plus; reflexivity); apply Rmult_le_compat; lra).
  assert (G21 : m * m * g ^ 21 <= rnd (rnd s1 + rnd s2)).
  { replace (m * m * g ^ 21) with (m * m * g ^ 20 * g) by ring. apply rnd_down; [exact G20|right]. apply Rle_trans with (bpow radix2 (-800) * / 2).
    - replace (/ 2) with (bpow radix2 (-1)) by (cbn; lra). rewrite <- bpow_plus. apply bpow_le. lia.
    - apply Rmult_le_compat; [apply Rlt_le, b_pos|lra|exact Mm|apply Big; lia]. }
  assert (G11 : m * g ^ 11 <= sqrt (rnd (rnd s1 + rnd s2))).
  { assert (Pmg : 0 <= m * g ^ 11) by (apply Rmult_le_pos; [exact Pm|apply pow_le; lra]). rewrite <- (sqrt_square (m * g ^ 11)) by exact Pmg. apply sqrt_le_1_alt. eapply Rle_trans; [|exact G21].
    replace (m * g ^ 11 * (m * g ^ 11)) with (m * m * g ^ 21 * g) by ring. rewrite <- (Rmult_1_r (m * m * g ^ 21)) at 2. apply Rmult_le_compat_l; [apply Rmult_le_pos; [exact Pmm|apply pow_le; lra]|lra]. }
  replace (m * g ^ 12) with (m * g ^ 11 * g) by ring. apply rnd_down; [exact G11|right]. apply Rle_trans with (bpow radix2 (-400) * / 2).
  - replace (/ 2) with (bpow radix2 (-1)) by (cbn; lra). rewrite <- bpow_plus. apply bpow_le. lia.
  - apply Rmult_le_compat; [apply Rlt_le, b_pos|lra|exact Tm|apply Big; lia].
Qed.
Lemma cross_rel z w : parts_ok z -> parts_ok w -> rel 12 (amp z * amp w) (cross z w).
Proof.
  intros Hz Hw. split; [apply cross_lo; assumption|]. eapply Rle_trans; [apply cross_up; assumption|]. apply Rmult_le_compat_l; [apply Rmult_le_pos; apply amp_sq|].
  apply Rle_pow; [assert (U := u53_val); lra|lia].
Qed.
Definition crosses (X Y : list C) : list R := map2 cross X Y.
Lemma crosses_length X Y : length X = length Y -> length (crosses X Y) = length X.
Proof. intros. unfold crosses. rewrite map2_length. lia. Qed.
Lemma bmap2_NB X Y : length X = length Y -> bmap2 (fun a b : cpx NB => cabs (N:=NB) (cmul (N:=NB) a (cconj (N:=NB) b))) (FCs X) (FCs Y) = Ok (F (crosses X Y)).
Proof.
  intros Hl. unfold bmap2. change (@length (cpx NB) (FCs X)) with (@length (cpx NX) (FCs X)). change (@length (cpx NB) (FCs Y)) with (@length (cpx NX) (FCs Y)).
  rewrite !FCs_length, Hl, Nat.eqb_refl. f_equal. unfold crosses. clear Hl.
  revert Y; induction X as [|a X IH]; intros [|b Y]; try reflexivity.
  cbn [FCs map map2]. change (map FC X) with (FCs X). change (map FC Y) with (FCs Y). rewrite cross_NB, IH. reflexivity.
Qed.
(** the smallest value of a divisor, 1e-10, as a binary64 number *)
Definition lim10 : R := rnd (1 / 10000000000).
Lemma lim10_rel : rel 1 (1 / 10000000000) lim10 /\ / 20000000000 <= lim10.
Proof.
  assert (U := u53_val). assert (R : rel 1 (1 / 10000000000) lim10).
  { apply rel_rnd; [lia| |apply rel_refl]. right. apply Rle_trans with (bpow radix2 (-40)); [apply bpow_le; lia|]. replace (bpow radix2 (-40)) with (/ 1099511627776) by (cbn; lra). lra. }
  split; [exact R|]. destruct R as [R _]. cbn [pow] in R. rewrite U in R. lra.
Qed.
Lemma clamp_NB l : clamp_small (N:=NB) (F l) = F (map (fun v => Rmax v lim10) l).
Proof.
  unfold clamp_small, F. rewrite !map_map. apply map_ext. intros v. unfold lit. rewrite !nb_ofZ by (cbn; lia). rewrite nb_div by lra.
  change (IZR 1 / IZR 10000000000) with (1 / 10000000000). fold lim10. rewrite nb_ltb. destruct (Rltb_spec v lim10); [rewrite Rmax_right by lra|rewrite Rmax_left by lra]; reflexivity.
Qed.
(** one coherence as computed *)
Definition cohb (r : nat) (X Y : list C) (i : nat) : R :=
  rnd (rnd (bmean r (crosses X Y) i * bmean r (crosses X Y) i) / rnd (Rmax (bmean r (crosses X X) i) lim10 * Rmax (bmean r (crosses Y Y) i) lim10)).
Lemma floor_prod_pos a b : 0 < rnd (Rmax a lim10 * Rmax b lim10).
Proof.
  destruct lim10_rel as [_ L]. assert (A := Rmax_r a lim10). assert (B := Rmax_r b lim10).
  assert (D : / 20000000000 * / 20000000000 <= Rmax a lim10 * Rmax b lim10) by (apply Rmult_le_compat; lra).
  assert (U := u53_val). assert (E := rnd_down _ _ D). assert (T : thr (/ 20000000000 * / 20000000000)).
  { right. apply Rle_trans with (bpow radix2 (-40) * bpow radix2 (-40)); [rewrite <- bpow_plus; apply bpow_le; lia|]. replace (bpow radix2 (-40)) with (/ 1099511627776) by (cbn; lra). lra. }
  specialize (E T). rewrite U in E. lra.
Qed.
Lemma coherence_NB f X Y df af : (2 <= length f)%nat -> (Z.of_nat (length f) <= 2 ^ 50)%Z -> length X = length f -> length Y = length f ->
  rnd (nth 1 f 0 - nth 0 f 0) <> 0 -> Rabs (quotient f df) <= bpow radix2 52 -> holds_vector (F f) af ->
  forall r, factor_NB f df r -> (1 <= r)%nat
    /\ coherence (N:=NB) af (FCs X) (FCs Y) (Fin df) = Ok (F (map (bmean r f) (seq 0 (length f / r))), F (map (cohb r X Y) (seq 0 (length f / r)))).
Proof.
  intros H2 Hn HX HY Hst Hq Hf r Hr.
  assert (Av : forall s, length s = length f -> (1 <= r)%nat /\ frequency_averaging (N:=NB) af (@Arr (car NB) (@vec (car NB) (F s))) (Fin df) = Ok (F (map (bmean r f) (seq 0 (length f / r))), F (map (bmean r s) (seq 0 (length f / r))))).
  { intros s Hs. apply (averaging_NB f s df); auto. apply (@hv_flat (car NB)). }
  split; [apply (Av f eq_refl)|]. unfold coherence. rewrite !bmap2_NB by lia. rewrite !bind_Ok.
  rewrite (proj2 (Av (crosses X X) ltac:(rewrite crosses_length; lia))), bind_Ok. rewrite (proj2 (Av (crosses Y Y) ltac:(rewrite crosses_length; lia))), bind_Ok.
  rewrite (proj2 (Av (crosses X Y) ltac:(rewrite crosses_length; lia))), bind_Ok. cbn match. rewrite !clamp_NB.
  assert (B : forall (g : car NB -> car NB -> car NB) (u v w : nat -> R) l, (forall i, g (Fin (u i)) (Fin (v i)) = Fin (w i)) -> bmap2 g (F (map u l)) (F (map v l)) = Ok (F (map w l))).
  { intros g u v w l H. unfold bmap2. change (@length (car NB) (F (map u l))) with (@length xr (F (map u l))). change (@length (car NB) (F (map v l))) with (@length xr (F (map v l))).
    rewrite !F_length, !map_length, Nat.eqb_refl. f_equal. induction l as [|i l IH]; [reflexivity|]. cbn [map F map2]. change (map Fin) with F. rewrite H. f_equal. exact IH. }
  rewrite !map_map. rewrite (B _ _ _ (fun i => rnd (Rmax (bmean r (crosses X X) i) lim10 * Rmax (bmean r (crosses Y Y) i) lim10))) by (intros i; apply nb_mul). rewrite bind_Ok.
  rewrite (B _ _ _ (cohb r X Y)); [reflexivity|]. intros i. rewrite nb_mul, nb_div; [reflexivity|]. apply Rgt_not_eq, floor_prod_pos.
Qed.
(** every part is zero or of a size between 2^-100 and 2^100 *)
Definition mid_part (v : R) : Prop := v = 0 \/ bpow radix2 (-100) <= Rabs v <= bpow radix2 100.
Definition mid (z : C) : Prop := mid_part (fst z) /\ mid_part (snd z).
Lemma mid_ok z : mid z -> parts_ok z.
Proof. assert (P : bpow radix2 (-200) <= bpow radix2 (-100)) by (apply bpow_le; lia). intros [[A|A] [B|B]]; split; [left|left|left|right|right|left|right|right]; lra. Qed.
Lemma mid_sq z : mid z -> (sq z = 0 \/ bpow radix2 (-200) <= sq z) /\ sq z <= bpow radix2 201.
Proof.
  assert (G : forall v, mid_part v -> (v * v = 0 \/ bpow radix2 (-200) <= v * v) /\ 0 <= v * v <= bpow radix2 200).
  { intros v [->|[A B]]; [split; [left; ring|rewrite Rmult_0_l; split; [lra|apply bpow_ge_0]]|]. assert (P := b_pos (-100)). replace (v * v) with (Rabs v * Rabs v) by (rewrite <- Rabs_mult; apply Rabs_pos_eq, Rle_0_sqr).
    replace (bpow radix2 (-200)) with (bpow radix2 (-100) * bpow radix2 (-100)) by (rewrite <- bpow_plus; reflexivity). replace (bpow radix2 200) with (bpow radix2 100 * bpow radix2 100) by (rewrite <- bpow_plus; reflexivity).
    split; [right; apply Rmult_le_compat; lra|split; [apply Rmult_le_pos; lra|apply Rmult_le_compat; lra]]. }
  intros [A B]. destruct (G _ A) as [A1 A2], (G _ B) as [B1 B2]. unfold sq. replace (bpow radix2 201) with (2 * bpow radix2 200) by (replace 2 with (bpow radix2 1) by reflexivity; rewrite <- bpow_plus; reflexivity).
  split; [|lra]. destruct A1 as [A1|A1], B1 as [B1|B1]; [left|right|right|right]; lra.
Qed.
Lemma mid_amp z : mid z -> amp z = 0 \/ bpow radix2 (-100) <= amp z.
Proof.
  intros H. destruct (amp_sq z) as [P E]. destruct (mid_sq z H) as [[Z|Z] _]; [left; rewrite Z in E; nra|right].
  apply Rnot_lt_le. intros L. assert (Q := b_pos (-100)). replace (bpow radix2 (-200)) with (bpow radix2 (-100) * bpow radix2 (-100)) in Z by (rewrite <- bpow_plus; reflexivity). nra.
Qed.
Lemma rel_max k a b c d : 0 <= a -> 0 <= c -> rel k a b -> rel k c d -> rel k (Rmax a c) (Rmax b d).
Proof.
  intros Pa Pc [A1 A2] [C1 C2]. assert (L := lo_pos k). assert (H := hi_1 k). split.
  - unfold Rmax at 1. destruct (Rle_dec a c); [eapply Rle_trans; [exact C1|apply Rmax_r]|eapply Rle_trans; [exact A1|apply Rmax_l]].
  - apply Rmax_lub; [eapply Rle_trans; [exact A2|]|eapply Rle_trans; [exact C2|]]; (apply Rmult_le_compat_r; [lra|]); [apply Rmax_l|apply Rmax_r].
Qed.
Lemma block_big e r v i : (1 <= r)%nat -> (Z.of_nat r <= 2 ^ 40)%Z -> (forall j, (j < r)%nat -> nth (i * r + j) v 0 = 0 \/ bpow radix2 e <= nth (i * r + j) v 0) ->
  block_mean r v i = 0 \/ bpow radix2 (e - 40) <= block_mean r v i.
Proof.
  intros Hr Hk H. assert (P1 : 1 <= INR r) by (apply (le_INR 1); exact Hr). assert (Pe := b_pos e).
  assert (Bm : block_mean r v i = Rsum (blockl r v i) / INR r) by (unfold block_mean, Rmean; fold (blockl r v i); unfold blockl; rewrite map_length, seq_length; reflexivity).
  assert (S0 : Rsum (blockl r v i) = 0 \/ bpow radix2 e <= Rsum (blockl r v i)).
  { assert (G : forall l, (forall w, In w l -> w = 0 \/ bpow radix2 e <= w) -> Rsum l = 0 \/ bpow radix2 e <= Rsum l).
    { induction l as [|w l IH]; intros Hw; [left; reflexivity|]. change (Rsum (w :: l)) with (w + Rsum l). destruct (Hw w (or_introl eq_refl)) as [->|A], IH as [B|B]; try (intros y Hy; apply Hw; right; exact Hy); [left|right|right|right]; lra. }
    apply G. intros w Hw. apply in_map_iff in Hw as (j & <- & Hj). apply in_seq in Hj. apply H. lia. }
  rewrite Bm. destruct S0 as [->|S0]; [left; unfold Rdiv; ring|right].
  assert (R40 : INR r <= bpow radix2 40) by (replace (bpow radix2 40) with (IZR (2 ^ 40)) by (cbn; lra); rewrite INR_IZR_INZ; apply IZR_le; lia).
  apply Rmult_le_reg_r with (INR r); [lra|]. unfold Rdiv. rewrite Rmult_assoc, Rinv_l, Rmult_1_r by lra. eapply Rle_trans; [|exact S0].
  apply Rle_trans with (bpow radix2 (e - 40) * bpow radix2 40); [apply Rmult_le_compat_l; [apply Rlt_le, b_pos|exact R40]|]. rewrite <- bpow_plus. apply bpow_le. lia.
Qed.
Lemma block_up b r v i : (1 <= r)%nat -> (forall j, (j < r)%nat -> nth (i * r + j) v 0 <= b) -> block_mean r v i <= b.
Proof.
  intros Hr H. assert (P1 : 1 <= INR r) by (apply (le_INR 1); exact Hr).
  assert (Bm : block_mean r v i = Rsum (blockl r v i) / INR r) by (unfold block_mean, Rmean; fold (blockl r v i); unfold blockl; rewrite map_length, seq_length; reflexivity). rewrite Bm.
  assert (G : forall l, (forall w, In w l -> w <= b) -> Rsum l <= INR (length l) * b).
  { induction l as [|w l IH]; intros Hw; [cbn; lra|]. change (Rsum (w :: l)) with (w + Rsum l). cbn [length]. rewrite S_INR. assert (A := Hw w (or_introl eq_refl)). specialize (IH ltac:(intros y Hy; apply Hw; right; exact Hy)). lra. }
  apply Rmult_le_reg_r with (INR r); [lra|]. unfold Rdiv. rewrite Rmult_assoc, Rinv_l, Rmult_1_r by lra. replace r with (length (blockl r v i)) at 2 by (unfold blockl; rewrite map_length, seq_length; reflexivity).
  rewrite Rmult_comm. apply G. intros w Hw. apply in_map_iff in Hw as (j & <- & Hj). apply in_seq in Hj. apply H. lia.
Qed.
Lemma block_cross r X Y i n : (1 <= r)%nat -> (Z.of_nat r <= 2 ^ 38)%Z -> length X = n -> length Y = n -> (i < n / r)%nat -> (forall z, In z X \/ In z Y -> mid z) ->
  rel (13 + r) (block_mean r (prods X Y) i) (bmean r (crosses X Y) i) /\ (block_mean r (prods X Y) i = 0 \/ bpow radix2 (-240) <= block_mean r (prods X Y) i).
Proof.
  intros Hr Hk HX HY Hi Hm. assert (Hle : (r * (n / r) <= n)%nat) by (apply Nat.mul_div_le; lia).
  assert (Ix : forall j, (j < r)%nat -> (i * r + j < n)%nat) by (intros; nia).
  assert (T : forall j, (j < r)%nat -> nth (i * r + j) (prods X Y) 0 = 0 \/ bpow radix2 (-200) <= nth (i * r + j) (prods X Y) 0).
  { intros j Hj. specialize (Ix j Hj). rewrite prods_nth by lia. destruct (mid_amp (nth (i * r + j) X (RtoC 0))) as [->|A]; [apply Hm; left; apply nth_In; lia|left; ring|].
    destruct (mid_amp (nth (i * r + j) Y (RtoC 0))) as [->|B]; [apply Hm; right; apply nth_In; lia|left; ring|right].
    replace (bpow radix2 (-200)) with (bpow radix2 (-100) * bpow radix2 (-100)) by (rewrite <- bpow_plus; reflexivity). assert (P := b_pos (-100)). apply Rmult_le_compat; lra. }
  split; [|apply (block_big (-200)); [exact Hr|lia|exact T]].
  change (13 + r)%nat with (S (12 + r)). apply bmean_rel; [exact Hr|lia|]. intros j Hj. split.
  - destruct (T j Hj) as [E|E]; [left; exact E|right; eapply Rle_trans; [apply bpow_le|exact E]; lia].
  - specialize (Ix j Hj). rewrite prods_nth by lia. unfold crosses. rewrite (map2_nth _ _ _ _ (RtoC 0) (RtoC 0)) by lia.
    apply cross_rel; apply mid_ok, Hm; [left|right]; apply nth_In; lia.
Qed.
Lemma cohb_rel r X Y i n : (1 <= r)%nat -> (Z.of_nat r <= 2 ^ 36)%Z -> length X = n -> length Y = n -> (i < n / r)%nat -> (forall z, In z X \/ In z Y -> mid z) ->
  rel (6 * r + 82) (coh r X Y i) (cohb r X Y i).
Proof.
  intros Hr Hk HX HY Hi Hm. assert (Hle : (r * (n / r) <= n)%nat) by (apply Nat.mul_div_le; lia).
  destruct (block_cross r X Y i n Hr ltac:(lia) HX HY Hi Hm) as [Rc Tc].
  assert (HX' : forall z, In z X \/ In z X -> mid z) by (intros z [H|H]; apply Hm; left; exact H). assert (HY' : forall z, In z Y \/ In z Y -> mid z) by (intros z [H|H]; apply Hm; right; exact H).
  destruct (block_cross r X X i n Hr ltac:(lia) HX HX Hi HX') as [Ra Ta]. destruct (block_cross r Y Y i n Hr ltac:(lia) HY HY Hi HY') as [Rb Tb].
  assert (Up : forall Z, length Z = n -> (forall z, In z Z -> mid z) -> block_mean r (prods Z Z) i <= bpow radix2 201).
  { intros Z HZ HM. apply block_up; [exact Hr|]. intros j Hj. rewrite prods_nth by nia. rewrite (proj2 (amp_sq _)). apply mid_sq, HM, nth_In. nia. }
  assert (Ua := Up X HX ltac:(auto)). assert (Ub := Up Y HY ltac:(auto)). clear Up. unfold coh, cohb. destruct lim10_rel as [Rl Ll].
  assert (P240 := b_pos (-240)). assert (L10 : 0 <= 1 / 10000000000) by lra. assert (P201 : 1 / 10000000000 <= bpow radix2 201) by (apply Rle_trans with (bpow radix2 0); [cbn; lra|apply bpow_le; lia]).
  set (c := block_mean r (prods X Y) i) in *. set (a := block_mean r (prods X X) i) in *. set (b := block_mean r (prods Y Y) i) in *.
  set (c' := bmean r (crosses X Y) i) in *. set (a' := bmean r (crosses X X) i) in *. set (b' := bmean r (crosses Y Y) i) in *. clearbody a b c a' b' c'.
  assert (Pa : 0 <= a) by lra. assert (Pb : 0 <= b) by lra. assert (Pc : 0 <= c) by lra. set (K := (13 + r)%nat) in *.
  assert (Wl : rel K (1 / 10000000000) lim10) by (apply (rel_weaken 1); [exact L10|lia|exact Rl]).
  assert (Qa : rel K (floor10 a) (Rmax a' lim10)) by (apply rel_max; assumption). assert (Qb : rel K (floor10 b) (Rmax b' lim10)) by (apply rel_max; assumption).
  assert (Fa := Rmax_r a (1 / 10000000000)). assert (Fb := Rmax_r b (1 / 10000000000)). assert (Ga : floor10 a <= bpow radix2 201) by (apply Rmax_lub; assumption). assert (Gb : floor10 b <= bpow radix2 201) by (apply Rmax_lub; assumption).
  fold (floor10 a) in Fa. fold (floor10 b) in Fb. set (fa := floor10 a) in *. set (fb := floor10 b) in *. clearbody fa fb. clear Ua Ub.
  assert (Tcc : c * c = 0 \/ bpow radix2 (-480) <= c * c).
  { destruct Tc as [->|Tc]; [left; ring|right]. replace (bpow radix2 (-480)) with (bpow radix2 (-240) * bpow radix2 (-240)) by (rewrite <- bpow_plus; reflexivity). apply Rmult_le_compat; lra. }
  assert (Rcc : rel (S (K + K)) (c * c) (rnd (c' * c'))).
  { apply rel_rnd; [lia| |apply rel_mul; assumption]. destruct Tcc as [E|E]; [left; exact E|right; eapply Rle_trans; [apply bpow_le|exact E]; lia]. }
  assert (Pab : 1 / 10000000000 * (1 / 10000000000) <= fa * fb) by (apply Rmult_le_compat; lra).
  assert (Rab : rel (S (K + K)) (fa * fb) (rnd (Rmax a' lim10 * Rmax b' lim10))).
  { apply rel_rnd; [lia| |apply rel_mul; try assumption; lra]. right. eapply Rle_trans; [|exact Pab]. apply Rle_trans with (bpow radix2 (-40) * bpow radix2 (-40)); [rewrite <- bpow_plus; apply bpow_le; lia|].
    replace (bpow radix2 (-40)) with (/ 1099511627776) by (cbn; lra). lra. }
  assert (Pfab : 0 < fa * fb) by lra.
  replace (6 * r + 82)%nat with (S (S (K + K) + 2 * S (K + K))) by lia. apply rel_rnd; [lia| |apply rel_div; [apply Rle_0_sqr|exact Pfab|exact Rcc|exact Rab]].
  destruct Tcc as [E|E]; [left; rewrite E; unfold Rdiv; ring|right]. apply Rmult_le_reg_r with (fa * fb); [exact Pfab|]. unfold Rdiv. rewrite Rmult_assoc, Rinv_l, Rmult_1_r by lra.
  eapply Rle_trans; [|exact E]. apply Rle_trans with (bpow radix2 (-1010) * (bpow radix2 201 * bpow radix2 201)); [apply Rmult_le_compat_l; [apply bpow_ge_0|apply Rmult_le_compat; lra]|]. rewrite <- !bpow_plus. apply bpow_le. lia.
Qed.

(** (c) every computed coherence is close to the exact one, so it is in [0, 1] but for rounding *)
Theorem C95_coherence f X Y df (af : arraylike NB) : (2 <= length f)%nat -> (Z.of_nat (length f) <= 2 ^ 36)%Z -> length X = length f -> length Y = length f ->
  rnd (nth 1 f 0 - nth 0 f 0) <> 0 -> Rabs (quotient f df) <= bpow radix2 52 -> (forall z, In z X \/ In z Y -> mid z) -> holds_vector (F f) af ->
  exists r fc co, factor_NB f df r /\ (1 <= r)%nat /\ coherence (N:=NB) af (FCs X) (FCs Y) (Fin df) = Ok (F fc, F co)
    /\ length fc = (length f / r)%nat /\ length co = (length f / r)%nat
    /\ forall i, (i < length f / r)%nat ->
         Rabs (nth i co 0 - coh r X Y i) <= (INR r + 14) / 2 ^ 50 * coh r X Y i /\ 0 <= nth i co 0 <= 1 + (INR r + 14) / 2 ^ 50.
Proof.
  intros H2 Hn HX HY Hst Hq Hm Hf. destruct (avg_factor_NB f df H2 Hst Hq) as (r & Hr & Hr1 & Hrb & Er).
  destruct (coherence_NB f X Y df af H2 ltac:(lia) HX HY Hst Hq Hf r Hr) as [_ E].
  exists r. eexists _, _. split; [exact Hr|]. split; [exact Hr1|]. split; [exact E|]. rewrite !map_length, !seq_length. split; [reflexivity|]. split; [reflexivity|].
  intros i Hi. rewrite map_seq_nth by exact Hi. assert (Hrn : (r <= length f)%nat) by (destruct (Nat.le_gt_cases r (length f)) as [|L]; [assumption|rewrite Nat.div_small in Hi by exact L; lia]).
  assert (CR := coh_range r X Y f i Hr1 HX HY Hi). assert (Rl := cohb_rel r X Y i (length f) Hr1 ltac:(lia) HX HY Hi Hm).
  assert (A := rel_abs (6 * r + 82) _ _ ltac:(lia) (proj1 CR) Rl). assert (U := u53_val). assert (Pr := pos_INR r). assert (Nn := rel_nonneg _ _ _ (proj1 CR) Rl).
  assert (B : Rabs (cohb r X Y i - coh r X Y i) <= (INR r + 14) / 2 ^ 50 * coh r X Y i).
  { eapply Rle_trans; [exact A|]. apply Rmult_le_compat_r; [apply CR|]. rewrite plus_INR, mult_INR, U. replace (INR 6) with 6 by (cbn; lra). replace (INR 82) with 82 by (cbn; lra). lra. }
  split; [exact B|]. split; [exact Nn|]. assert (D : (INR r + 14) / 2 ^ 50 * coh r X Y i <= (INR r + 14) / 2 ^ 50 * 1) by (apply Rmult_le_compat_l; lra).
  apply Rabs_le_inv in B. lra.
Qed.
Lemma bmean_one v i : is_float (nth i v 0) -> bmean 1 v i = nth i v 0.
Proof.
  intros H. unfold bmean, blockl. cbn [seq map]. replace (i * 1 + 0)%nat with i by lia. rewrite fsum_one. replace (nth i v 0 / INR 1) with (nth i v 0) by (cbn [INR]; field). apply rnd_id, H.
Qed.
Lemma cross_float z w : is_float (cross z w). Proof. apply rnd_float. Qed.
(** (d) a computed coherence can exceed 1: the amplitudes 1+i and 1, no averaging *)
Theorem C95_above_one_refuted :
  let f := [0; 1] in let X := [(1, 1); (1, 0)] in let Y := [(1, 0); (1, 0)] in
  (forall z, In z X \/ In z Y -> mid z)
  /\ coherence (N:=NB) (Arr (vec (F f))) (FCs X) (FCs Y) (Fin 0) = Ok (F [0; 1], F [1 + / 2 ^ 52; 1]).
Proof.
  cbv zeta. assert (M1 : mid_part 1). { right. rewrite Rabs_R1. split; [change 1 with (bpow radix2 0); apply bpow_le; lia|change 1 with (bpow radix2 0); apply bpow_le; lia]. }
  assert (M0 : mid_part 0) by (left; reflexivity).
  split. { intros z [[<-|[<-|[]]]|[<-|[<-|[]]]]; split; cbn [fst snd]; assumption. }
  assert (F1 : is_float 1) by (apply (float_Z 1); cbn; lia). assert (F2 : is_float 2) by (apply (float_Z 2); cbn; lia). assert (F4 : is_float 4) by (apply (float_Z 4); cbn; lia).
  assert (R0 : rnd 0 = 0) by apply rnd_id, float_0. assert (R1 : rnd 1 = 1) by apply rnd_id, F1. assert (R2 : rnd 2 = 2) by apply rnd_id, F2. assert (R4 : rnd 4 = 4) by apply rnd_id, F4.
  assert (Hst : rnd (nth 1 [0; 1] 0 - nth 0 [0; 1] 0) <> 0) by (cbn [nth]; rewrite Rminus_0_r, R1; lra).
  assert (Hq : Rabs (quotient [0; 1] 0) <= bpow radix2 52) by (unfold quotient; cbn [nth]; rewrite Rminus_0_r, R1; unfold Rdiv; rewrite Rmult_0_l, R0, Rabs_R0; apply bpow_ge_0).
  destruct (coherence_NB [0; 1] [(1, 1); (1, 0)] [(1, 0); (1, 0)] 0 (Arr (vec (F [0; 1]))) ltac:(cbn; lia) ltac:(cbn; lia) eq_refl eq_refl Hst Hq (@hv_flat (car NB) (F [0; 1])) 1%nat ltac:(left; auto)) as [_ E].
  assert (E' : coherence (N:=NB) (Arr (vec (F [0; 1]))) (FCs [(1, 1); (1, 0)]) (FCs [(1, 0); (1, 0)]) (Fin 0) = Ok (F (map (bmean 1 [0; 1]) (seq 0 2)), F (map (cohb 1 [(1, 1); (1, 0)] [(1, 0); (1, 0)]) (seq 0 2)))) by exact E.
  rewrite E'. clear E E'. cbn [seq map].
  rewrite !bmean_one by (cbn [nth]; first [apply float_0|exact F1]). cbn [nth].
  (* the absolute values of the products *)
  set (s := 6369051672525773 * / 4503599627370496).
  assert (C11 : cross (1, 1) (1, 0) = s).
  { unfold cross, cross_re, cross_im. cbn [fst snd]. repeat (progress (rewrite ?Rmult_1_l, ?Rmult_0_r, ?Rmult_0_l, ?R0, ?R1, ?Rplus_0_r, ?Rminus_0_r)). replace (1 + 1) with 2 by ring. rewrite R2.
    unfold s. replace (/ 4503599627370496) with (bpow radix2 (1 - 53)) by (cbn; lra). apply (rnd_at 1 6369051672525773); [lia| |].
    - rewrite Rabs_pos_eq by apply sqrt_pos. change (bpow radix2 (1 - 1)) with 1. change (bpow radix2 1) with 2. split; [rewrite <- sqrt_1 at 1; apply sqrt_le_1_alt; lra|].
      replace 2 with (sqrt 4) at 2 by (replace 4 with (2 * 2) by ring; apply sqrt_square; lra). apply sqrt_lt_1_alt. lra.
    - change (bpow radix2 (53 - 1)) with 4503599627370496. assert (Lo : 12738103345051545 / 9007199254740992 < sqrt 2).
      { rewrite <- (sqrt_square (12738103345051545 / 9007199254740992)) by lra. apply sqrt_lt_1_alt. split; [apply Rle_0_sqr|lra]. }
      assert (Hi : sqrt 2 < 12738103345051547 / 9007199254740992).
      { rewrite <- (sqrt_square (12738103345051547 / 9007199254740992)) by lra. apply sqrt_lt_1_alt. lra. }
      apply Rabs_def1; lra. }
  assert (C10 : cross (1, 0) (1, 0) = 1).
  { unfold cross, cross_re, cross_im. cbn [fst snd]. repeat (progress (rewrite ?Rmult_1_l, ?Rmult_0_r, ?Rmult_0_l, ?R0, ?R1, ?Rplus_0_r, ?Rminus_0_r)). rewrite sqrt_1. exact R1. }
  assert (Cxx : cross (1, 1) (1, 1) = 2).
  { unfold cross, cross_re, cross_im. cbn [fst snd]. rewrite !Rmult_1_l, R1, Rminus_diag_eq by reflexivity. rewrite R0, Rmult_0_l, R0, Rplus_0_r. replace (1 + 1) with 2 by ring. rewrite R2. replace (2 * 2) with 4 by ring.
    rewrite R4, R4. replace (sqrt 4) with 2; [exact R2|]. replace 4 with (2 * 2) by ring. symmetry. apply sqrt_square. lra. }
  assert (Lm10 : lim10 <= 1) by (apply rnd_le_float; [exact F1|lra]).
  unfold cohb. rewrite !bmean_one by (cbn [crosses map2 nth]; apply cross_float). cbn [crosses map2 nth]. rewrite C11, C10, Cxx, !Rmax_left by lra.
  assert (Ss : rnd (s * s) = IZR 4503599627370497 * bpow radix2 (2 - 53)).
  { unfold s. apply rnd_at; [lia| |].
    - change (bpow radix2 (2 - 1)) with 2. change (bpow radix2 2) with 4. rewrite Rabs_pos_eq by lra. lra.
    - change (bpow radix2 (53 - 2)) with 2251799813685248. apply Rabs_def1; lra. }
  rewrite Ss. replace (bpow radix2 (2 - 53)) with (/ 2251799813685248) by (cbn; lra). repeat (progress (rewrite ?Rmult_1_l, ?Rmult_1_r, ?R1, ?R2)).
  replace (1 / 1) with 1 by field. rewrite R1. replace (4503599627370497 * / 2251799813685248 / 2) with (IZR 4503599627370497 * bpow radix2 (-52)) by (cbn; lra).
  rewrite (rnd_id (IZR _ * _)) by (apply float_scaled; cbn; lia). replace (IZR 4503599627370497 * bpow radix2 (-52)) with (1 + / 2 ^ 52) by (cbn; lra). reflexivity.
Qed.
(** the number of joined bands can differ from that of exact arithmetic on the same binary64 numbers: a step of 0.1 and
    0.75 asked for; 0.75 divided by that step is a little below 7.5, the computed quotient is 7.5, which goes to 8 *)
Theorem C95_factor_half_refuted : let f := [0; rnd (1 / 10)] in factor_NB f (3 / 4) 8 /\ averaging_factor f (3 / 4) 7.
Proof.
  cbv zeta. assert (E : rnd (1 / 10) = 3602879701896397 * / 36028797018963968).
  { replace (/ 36028797018963968) with (bpow radix2 (-3 + 1 - 53)) by (cbn; lra). change (-3 + 1 - 53)%Z with (-3 + 1 - 53)%Z.
    replace (3602879701896397 * bpow radix2 (-3 + 1 - 53)) with (IZR 7205759403792794 * bpow radix2 (-3 - 53)) by (cbn; lra). apply rnd_at; [lia| |]; cbn; [rewrite Rabs_pos_eq by lra; lra|apply Rabs_def1; lra]. }
  assert (Q : rnd (3 / 4 / rnd (rnd (1 / 10) - 0)) = 15 / 2).
  { rewrite Rminus_0_r, (rnd_id (rnd _)) by apply rnd_float. rewrite E. replace (15 / 2) with (IZR 8444249301319680 * bpow radix2 (3 - 53)) by (cbn; lra).
    apply rnd_at; [lia| |]; cbn; [rewrite Rabs_pos_eq by lra; lra|apply Rabs_def1; lra]. }
  split; right; (split; [lra|]).
  - exists 8%Z. unfold quotient. cbn [nth]. rewrite Q. split; [|reflexivity]. split; [apply Rabs_le; lra|]. intros _. exists 4%Z. reflexivity.
  - exists 7%Z. unfold step. cbn [nth]. rewrite Rminus_0_r, E. split; [|reflexivity]. split; [apply Rabs_le; lra|]. intros H. exfalso. rewrite Rabs_pos_eq in H; lra.
Qed.
(** the hypotheses are met *)
Example C95_witness :
  let f := [0; / 4; / 2; 3 / 4] in let X := [(1, 2); (0, -3); (/ 8, 0); (5, 5)] in
  (2 <= length f)%nat /\ rnd (nth 1 f 0 - nth 0 f 0) <> 0 /\ Rabs (quotient f (/ 2)) <= bpow radix2 52 /\ factor_NB f (/ 2) 2
  /\ (forall v, In v f \/ In v [1; 2; 0; 4] -> v = 0 \/ bpow radix2 (-900) <= v) /\ (forall z, In z X \/ In z X -> mid z)
  /\ (forall k : Z, / 2 / (nth 1 f 0 - nth 0 f 0) * / 2 ^ 51 < Rabs (/ 2 / (nth 1 f 0 - nth 0 f 0) - (IZR k + 1 / 2))).
Proof.
  cbv zeta. cbn [nth length]. assert (Rq : rnd (/ 4 - 0) = / 4) by (rewrite Rminus_0_r; apply rnd_id; replace (/ 4) with (IZR 1 * bpow radix2 (-2)) by (cbn; lra); apply float_scaled; cbn; lia).
  assert (R2 : rnd 2 = 2) by (apply rnd_id, (float_Z 2); cbn; lia).
  assert (Q : quotient [0; / 4; / 2; 3 / 4] (/ 2) = 2) by (unfold quotient; cbn [nth]; rewrite Rq; replace (/ 2 / / 4) with 2 by field; exact R2).
  split; [lia|]. split; [rewrite Rq; lra|]. split; [rewrite Q, Rabs_pos_eq by lra; cbn; lra|].
  split. { right. split; [lra|]. exists 2%Z. rewrite Q. split; [|reflexivity]. split; [rewrite Rminus_diag_eq, Rabs_R0 by reflexivity; lra|intros _; exists 1%Z; reflexivity]. }
  assert (B : bpow radix2 (-900) <= / 4) by (replace (/ 4) with (bpow radix2 (-2)) by (cbn; lra); apply bpow_le; lia).
  split. { intros v [[<-|[<-|[<-|[<-|[]]]]]|[<-|[<-|[<-|[<-|[]]]]]]; first [left; reflexivity|right; lra]. }
  split.
  { assert (G : forall v, v = 0 \/ / 8 <= Rabs v <= 8 -> mid_part v).
    { intros v [->|H]; [left; reflexivity|right]. assert (A1 : bpow radix2 (-100) <= / 8) by (replace (/ 8) with (bpow radix2 (-3)) by (cbn; lra); apply bpow_le; lia).
      assert (A2 : 8 <= bpow radix2 100) by (change 8 with (bpow radix2 3); apply bpow_le; lia). lra. }
    assert (M : forall z, In z [(1, 2); (0, -3); (/ 8, 0); (5, 5)] -> mid z).
    { intros z [<-|[<-|[<-|[<-|[]]]]]; split; apply G; cbn [fst snd]; first [left; reflexivity|right; unfold Rabs; destruct (Rcase_abs _); lra]. }
    intros z [H|H]; apply M, H. }
  intros k. replace (/ 2 / (/ 4 - 0)) with 2 by field. assert (H : (k <= 1 \/ 2 <= k)%Z) by lia. destruct H as [H|H]; apply IZR_le in H; [rewrite Rabs_pos_eq by lra|rewrite Rabs_left by lra]; lra.
Qed.
End AnyOrder.
