(** * C77 (continued): from the record to the spectrum and Hm0 in binary64 *)

From Coq Require Import Reals ZArith String List Bool Lra Lia.
From Flocq Require Import Core.
From Verif Require Import SumOrder Num XR Engine Cpx SpectralModel WaveModel SpectrumModel SeriesModel Spec XRFacts TimeSpec EngineProps TimeProps
  RoundNum RoundProps RoundWave RoundSpec.
Import ListNotations.
Open Scope R_scope.

Section AnyOrder.
Context {So : summation} {Lm : libm}.

(** ** Block averages *)

Lemma nb_nrint q : exists z, nrint (N:=NB) (Fin q) = Fin (rnd (IZR z)).
Proof.
  unfold nrint. cbn [nfloor NB xfloor]. set (z := Rfloor q).
  destruct (nltb _ _); [exists z; reflexivity|]. destruct (nltb _ _); [exists (z + 1)%Z; reflexivity|].
  destruct (Z.even z); [exists z; reflexivity|exists (z + 1)%Z; reflexivity].
Qed.
(** the averaging factor: a whole number, or too large for any array *)
Definition factor_ok (v : R) : Prop := (exists L : nat, (1 <= L)%nat /\ (Z.of_nat L <= 2 ^ 53)%Z /\ v = INR L) \/ 9007199254740992 <= v.
Lemma avg_factor_NB (f : list R) (d : R) : (2 <= length f)%nat -> rnd (nth 1 f 0 - nth 0 f 0) <> 0 ->
  exists v, avg_factor (N:=NB) (F f) (Fin d) = Ok (Fin v) /\ factor_ok v.
Proof.
  intros H2 Hs. unfold avg_factor. rewrite nb_0, nb_eqb.
  assert (One : factor_ok 1) by (left; exists 1%nat; repeat split; [lia|lia]).
  destruct (Reqb d 0); cbn [negb].
  - rewrite bind_Ok, nb_1. exists 1. split; [|exact One]. unfold pymax2. rewrite nb_ltb, Rltb_false by lra. reflexivity.
  - rewrite !idx_F by lia. rewrite !bind_Ok, nb_sub, nb_div by exact Hs.
    destruct (nb_nrint (rnd (d / rnd (nth 1 f 0 - nth 0 f 0)))) as (z & ->). rewrite nb_1. unfold pymax2. rewrite nb_ltb.
    destruct (Rltb_spec (rnd (IZR z)) 1) as [C|C]; [exists 1; split; [reflexivity|exact One]|].
    exists (rnd (IZR z)). split; [reflexivity|].
    destruct (Z_le_gt_dec z (2 ^ 53)) as [Q|Q].
    + destruct (Z_le_gt_dec 1 z) as [P|P].
      * left. exists (Z.to_nat z). rewrite Z2Nat.id by lia. split; [lia|]. split; [lia|].
        rewrite rnd_id by (apply float_Z; lia). rewrite INR_IZR_INZ, Z2Nat.id by lia. reflexivity.
      * exfalso. assert (rnd (IZR z) <= 0) by (apply rnd_le_float; [apply float_0|apply IZR_le; lia]). lra.
    + right. apply rnd_ge_float; [apply (float_Z 9007199254740992); cbn; lia|]. apply IZR_le. lia.
Qed.

Lemma floor_div (n L : nat) : (1 <= n)%nat -> (Z.of_nat n <= 2 ^ 50)%Z -> (1 <= L)%nat ->
  floor_is (rnd (INR n / INR L)) (n / L).
Proof.
  intros H1 Hn HL. assert (DM := Nat.div_mod n L ltac:(lia)). assert (MB := Nat.mod_upper_bound n L ltac:(lia)).
  set (q := (n / L)%nat) in *. set (r := (n mod L)%nat) in *.
  assert (PL : 0 < INR L) by (apply lt_0_INR; lia). assert (PI : 0 < / INR L) by (apply Rinv_0_lt_compat, PL).
  assert (E : INR n = INR L * INR q + INR r) by (rewrite <- mult_INR, <- plus_INR; f_equal; exact DM).
  assert (Er : 0 <= INR r <= INR L - 1).
  { split; [apply pos_INR|]. replace (INR L - 1) with (INR (L - 1)) by (rewrite minus_INR by lia; reflexivity). apply le_INR. lia. }
  assert (N50 : INR n <= 1125899906842624) by (rewrite INR_IZR_INZ; apply IZR_le; lia).
  assert (N1 : 1 <= INR n) by (apply (le_INR 1); lia).
  assert (X : INR n / INR L = INR q + INR r * / INR L) by (rewrite E; field; lra).
  assert (Rl : INR r * / INR L <= 1 - / INR L).
  { apply Rmult_le_reg_r with (INR L); [exact PL|]. rewrite Rmult_assoc, Rinv_l, Rmult_minus_distr_r, Rinv_l by lra. lra. }
  assert (Rp : 0 <= INR r * / INR L) by (apply Rmult_le_pos; lra).
  assert (Fq : is_float (INR q)).
  { rewrite INR_IZR_INZ. apply float_Z. assert (q <= n)%nat by (unfold q; apply Nat.div_le_upper_bound; nia). lia. }
  split; [apply rnd_ge_float; [exact Fq|lra]|].
  assert (B : bpow radix2 (-1020) <= INR n / INR L \/ INR n / INR L < bpow radix2 (-1020)) by (destruct (Rle_or_lt (bpow radix2 (-1020)) (INR n / INR L)); auto).
  destruct B as [B|B].
  - destruct (rnd_rel _ B) as [_ U]. replace (bpow radix2 (-53)) with (/ 9007199254740992) in U by (cbn; lra).
    eapply Rle_lt_trans; [exact U|]. rewrite Rmult_plus_distr_l, Rmult_1_r.
    assert (INR n / INR L * / 9007199254740992 < / INR L); [|lra].
    unfold Rdiv. rewrite (Rmult_comm (INR n)), Rmult_assoc. rewrite <- (Rmult_1_r (/ INR L)) at 2. apply Rmult_lt_compat_l; [exact PI|]. lra.
  - apply Rle_lt_trans with (bpow radix2 (-1020)); [apply rnd_le_float; [apply float_bpow; lia|lra]|].
    assert (0 <= INR q) by apply pos_INR. apply Rlt_le_trans with 1; [|lra].
    change 1 with (bpow radix2 0). apply bpow_lt. lia.
Qed.
Lemma floor_small (n : nat) v : (Z.of_nat n <= 2 ^ 50)%Z -> 9007199254740992 <= v -> floor_is (rnd (INR n / v)) 0.
Proof.
  intros Hn Hv. assert (N50 : INR n <= 1125899906842624) by (rewrite INR_IZR_INZ; apply IZR_le; lia). assert (P := pos_INR n).
  assert (I : 0 < / v) by (apply Rinv_0_lt_compat; lra).
  split.
  - apply rnd_ge_float; [apply float_0|]. apply Rmult_le_pos; lra.
  - cbn [INR]. apply Rle_lt_trans with (bpow radix2 (-1)); [|cbn; lra].
    apply rnd_le_float; [apply float_bpow; lia|]. apply div_le; [lra|]. cbn. lra.
Qed.
Lemma floor_INR k : floor_is (INR k) k. Proof. split; lra. Qed.
Lemma nb_index i L : (Z.of_nat (i * L) <= 2 ^ 50)%Z -> (Z.of_nat i <= 2 ^ 50)%Z ->
  int_trunc (N:=NB) (nmul (n:=NB) (nofnat (N:=NB) i) (Fin (INR L))) = Ok (Z.of_nat (i * L)).
Proof.
  intros H Hi. rewrite nb_ofnat by lia. rewrite nb_mul. rewrite <- mult_INR.
  rewrite rnd_id by (rewrite INR_IZR_INZ; apply float_Z; lia). unfold int_trunc. rewrite nb_0, nb_ltb.
  rewrite Rltb_false by apply pos_INR. apply nb_floor; [apply pos_INR|apply floor_INR].
Qed.
(** the computed mean of block i *)
Definition fmean (l : list R) : R := rnd (fsum l / INR (length l)).
Definition blk (L : nat) (l : list R) (i : nat) : list R := slice (i * L) ((i + 1) * L) l.
Lemma nb_mean l : l <> [] -> (Z.of_nat (length l) <= 2 ^ 53)%Z -> nmean (N:=NB) (F l) = Fin (fmean l).
Proof.
  intros Hn Hl. unfold nmean. rewrite nb_sum, F_length, nb_ofnat by exact Hl. apply nb_div. apply not_0_INR. destruct l; [contradiction|discriminate].
Qed.
Lemma blk_length L l i : ((i + 1) * L <= length l)%nat -> length (blk L l i) = L.
Proof. intros H. unfold blk. rewrite slice_length, Nat.min_l by exact H. nia. Qed.
Lemma avg_block_NB (L : nat) (l : list R) i : (1 <= L)%nat -> (Z.of_nat (length l) <= 2 ^ 50)%Z -> ((i + 1) * L <= length l)%nat ->
  avg_block (N:=NB) (Fin (INR L)) (F l) i = Ok (Fin (fmean (blk L l i))).
Proof.
  intros HL Hn Hi. unfold avg_block. assert (i * L <= (i + 1) * L)%nat by nia. assert (i + 1 <= (i + 1) * L)%nat by nia.
  assert (L <= (i + 1) * L)%nat by nia.
  rewrite !nb_index by lia. rewrite !bind_Ok, !Nat2Z.id, F_slice. f_equal.
  assert (Lb := blk_length L l i Hi). change (slice (i * L) ((i + 1) * L) l) with (blk L l i).
  apply nb_mean; [|rewrite Lb; lia]. intros E. rewrite E in Lb. cbn in Lb. lia.
Qed.

(** averaging as computed: c blocks of L values *)
Lemma averaging_NB (f s : list R) (d : R) (af as_ : arraylike (car NB)) :
  holds_vector (F f) af -> holds_vector (F s) as_ -> length s = length f -> (2 <= length f)%nat ->
  (Z.of_nat (length f) <= 2 ^ 50)%Z -> rnd (nth 1 f 0 - nth 0 f 0) <> 0 ->
  exists v c L, avg_factor (N:=NB) (F f) (Fin d) = Ok (Fin v) /\ (1 <= L)%nat /\ (c * L <= length f)%nat
    /\ (v = INR L /\ c = (length f / L)%nat \/ c = O /\ 9007199254740992 <= v)
    /\ frequency_averaging (N:=NB) af as_ (Fin d)
       = Ok (F (map (fun i => fmean (blk L f i)) (seq 0 c)), F (map (fun i => fmean (blk L s i)) (seq 0 c))).
Proof.
  intros Haf Has Ls H2 Hn Hs.
  assert (Nf : F f <> []) by (destruct f; [cbn in H2; lia|discriminate]).
  assert (Ns : F s <> []) by (destruct s; [cbn in Ls; lia|discriminate]).
  destruct (@hv_convert (car NB) (F f) af Nf Haf) as (kf & Hkf & Ef). destruct (@hv_convert (car NB) (F s) as_ Ns Has) as (ks & Hks & Es).
  unfold frequency_averaging. rewrite Ef, Es. cbn [fst snd].
  destruct (Nat.ltb_spec 1 kf); [lia|]. destruct (Nat.ltb_spec 1 ks); [lia|]. cbn [orb]. rewrite !as_list_vec, !bind_Ok.
  destruct (avg_factor_NB f d H2 Hs) as (v & Ev & Hv). rewrite Ev, bind_Ok, F_length.
  rewrite nb_ofnat by lia.
  assert (Is : @idx (car NB) (F s) 0 = Ok (Fin (nth 0 s 0))) by (apply idx_F; lia).
  destruct Hv as [(L & HL & HL' & ->)|Hv].
  - exists (INR L), (length f / L)%nat, L. assert (PL : 0 < INR L) by (apply lt_0_INR; lia).
    assert (CL : (length f / L * L <= length f)%nat) by (rewrite Nat.mul_comm; apply Nat.mul_div_le; lia).
    split; [reflexivity|]. split; [exact HL|]. split; [exact CL|]. split; [left; auto|].
    rewrite nb_div by lra. rewrite (nb_floor _ (length f / L)); [|apply rnd_nonneg; apply Rmult_le_pos; [apply pos_INR|apply Rlt_le, Rinv_0_lt_compat, PL]|apply floor_div; lia].
    rewrite bind_Ok, Nat2Z.id. rewrite Is, bind_Ok.
    rewrite (mapM_Ok _ (fun i => Fin (fmean (blk L f i)))).
    2:{ intros i Hi. apply in_seq in Hi. apply avg_block_NB; auto. nia. }
    rewrite bind_Ok. rewrite (mapM_Ok _ (fun i => Fin (fmean (blk L s i)))).
    2:{ intros i Hi. apply in_seq in Hi. apply avg_block_NB; [auto|lia|]. rewrite Ls. nia. }
    rewrite bind_Ok. unfold F. rewrite !map_map. reflexivity.
  - exists v, O, 1%nat. split; [reflexivity|]. split; [lia|]. split; [lia|]. split; [right; auto|].
    rewrite nb_div by lra. rewrite (nb_floor _ 0); [|apply rnd_nonneg; apply Rmult_le_pos; [apply pos_INR|apply Rlt_le, Rinv_0_lt_compat; lra]|apply floor_small; auto].
    rewrite bind_Ok. rewrite Is, bind_Ok. reflexivity.
Qed.
Lemma fsum_nonneg l : nonneg l -> 0 <= fsum l.
Proof. intros H. apply (fsum_ind (fun v => 0 <= v)); [lra|exact H|]. intros a b Ha Hb. apply rnd_nonneg. lra. Qed.
Lemma fmean_nonneg l : nonneg l -> 0 <= fmean l.
Proof.
  intros H. unfold fmean. apply rnd_nonneg. destruct l as [|a l]; [cbn; unfold Rdiv; rewrite Rmult_0_l; lra|].
  apply Rmult_le_pos; [apply fsum_nonneg, H|]. apply Rlt_le, Rinv_0_lt_compat, lt_0_INR. cbn. lia.
Qed.
Lemma blk_nonneg L l i : nonneg l -> nonneg (blk L l i).
Proof. intros H v Hv. apply H. unfold blk, slice in Hv. apply firstn_In in Hv. eapply skipn_In, Hv. Qed.

(** ** Densities *)

(** a complex binary64 value, not infinite or nan *)
Definition finite_c (z : cpx NB) : Prop := exists a b, z = (Fin a, Fin b).
Lemma var_dens_NB (df n : R) (X : cpx NB) : 0 < rnd (rnd (df * n) * n) -> finite_c X ->
  exists v, var_dens (N:=NB) (Fin df) (Fin n) X = Fin v /\ is_float v /\ 0 <= v.
Proof.
  intros Hd (a & b & ->). unfold var_dens, cdivr, cmul, cscale, cconj, cre, cim. cbn [fst snd].
  rewrite nb_ofZ by (cbn; lia). rewrite !nb_mul.
  change (nopp (n:=NB) (Fin b)) with (Fin (- b)). rewrite !nb_mul, nb_sub, nb_div by lra.
  eexists; split; [reflexivity|]. split; [apply rnd_float|]. apply rnd_nonneg, Rmult_le_pos; [|apply Rlt_le, Rinv_0_lt_compat, Hd].
  apply rnd_nonneg.
  assert (Sg : forall r, 0 <= rnd (2 * r) * r).
  { intros r. destruct (Rle_or_lt 0 r) as [P|P].
    - apply Rmult_le_pos; [apply rnd_nonneg; lra|lra].
    - assert (rnd (2 * r) <= 0) by (apply rnd_le_float; [apply float_0|lra]). nra. }
  assert (A : 0 <= rnd (rnd (2 * a) * a)) by (apply rnd_nonneg, Sg).
  assert (B : rnd (rnd (2 * b) * - b) <= 0) by (apply rnd_le_float; [apply float_0|specialize (Sg b); nra]). lra.
Qed.
Lemma var_dens_list (df n : R) (X : list (cpx NB)) : 0 < rnd (rnd (df * n) * n) -> (forall z, In z X -> finite_c z) ->
  exists s, map (var_dens (N:=NB) (Fin df) (Fin n)) X = F s /\ length s = length X /\ floats s /\ nonneg s.
Proof.
  intros Hd. induction X as [|z X IH]; intros H.
  - exists []. repeat split; intros v [].
  - destruct IH as (s & E & L & Fs & Ps); [intros w Hw; apply H; right; exact Hw|].
    destruct (var_dens_NB df n z Hd (H z (or_introl eq_refl))) as (v & Ev & Fv & Pv).
    exists (v :: s). split; [cbn [map]; rewrite E, Ev; reflexivity|]. split; [cbn; lia|].
    split; intros w [<-|Hw]; auto.
Qed.

(** (b) densities from Fourier coefficients: whatever (finite) coefficients the transform returned *)
Theorem C77_densities (f : list R) (X : list (cpx NB)) (af : arraylike (car NB)) (aX : arraylike (cpx NB)) (Ntime : Z) (d : R)
  (fc sc : list (car NB)) :
  floats f -> f <> [] -> (Z.of_nat (length f) <= 2 ^ 50)%Z -> (1 <= Ntime <= 2 ^ 50)%Z ->
  holds_vector (F f) af -> holds_vector X aX -> X <> [] -> (forall z, In z X -> finite_c z) ->
  compute_spectrum_freq_series (N:=NB) af aX Ntime (Fin d) = Ok (fc, sc) ->
  exists f' s', fc = F f' /\ sc = F s' /\ length s' = length f' /\ floats s' /\ forall v, In v s' -> 0 <= v.
Proof.
  intros Ff Hf0 Hn HN Haf HaX NX_ HX. unfold compute_spectrum_freq_series. intros H1.
  destruct f as [|f0 f]; [contradiction|].
  assert (Nf : F (f0 :: f) <> []) by discriminate.
  destruct (@hv_convert (car NB) (F (f0 :: f)) af Nf Haf) as (kf & Hkf & Ef). destruct (@hv_convert (cpx NB) X aX NX_ HaX) as (ks & Hks & Es).
  rewrite Ef, Es in H1. cbn [fst snd] in H1.
  destruct (Nat.ltb_spec 1 kf); [lia|]. destruct (Nat.ltb_spec 1 ks); [lia|]. cbn [orb] in H1. rewrite !as_list_vec, bind_Ok in H1.
  set (l := f0 :: f) in *.
  apply bind_inv in H1. destruct H1 as (mono & Hmono & H1). destruct mono; cbn [negb] in H1; [|discriminate H1].
  assert (H2 : (2 <= length l)%nat).
  { unfold l in *. destruct f; [|cbn; lia]. exfalso. discriminate Hmono. }
  destruct (check_NB l H2) as (b & Eb & Hb). change (monotonic_increasing_constant_step (N:=NB) (F l) = Ok true) in Hmono.
  rewrite Hmono in Eb. apply Ok_inj in Eb. assert (St := proj1 Hb (eq_sym Eb) 0%nat ltac:(lia)). destruct St as [St _]. clear Hb Eb b.
  rewrite F_length in H1. destruct (Nat.eqb_spec (length l) (length X)) as [Lx|]; cbn [negb] in H1; [|discriminate H1].
  rewrite bind_Ok in H1. rewrite !idx_F in H1 by lia. rewrite !bind_Ok in H1. cbv zeta in H1. rewrite nb_sub in H1.
  rewrite nb_ofZ in H1 by lia. set (df := rnd (nth 1 l 0 - nth 0 l 0)) in *.
  assert (N1 : 1 <= IZR Ntime) by (apply IZR_le; lia).
  assert (Pd : 0 < rnd (rnd (df * IZR Ntime) * IZR Ntime)).
  { apply Rlt_le_trans with df; [exact St|]. assert (df <= rnd (df * IZR Ntime)) by (apply rnd_ge_float; [apply rnd_float|nra]).
    apply rnd_ge_float; [apply rnd_float|]. nra. }
  destruct (var_dens_list df (IZR Ntime) X Pd HX) as (s & Esd & Lsd & Fs & Ps). rewrite Esd in H1.
  destruct (averaging_NB l s d (Arr (vec (F l))) (Arr (vec (F s)))) as (v & c & L & _ & HL & Hc & _ & Eavg).
  - constructor.
  - constructor.
  - lia.
  - lia.
  - exact Hn.
  - fold df. lra.
  - pose proof (eq_trans (eq_sym Eavg) H1) as E. injection E as <- <-. eexists _, _. split; [reflexivity|]. split; [reflexivity|].
    rewrite !map_length. split; [reflexivity|]. split; intros w Hw; apply in_map_iff in Hw; destruct Hw as (i & <- & _).
    + apply rnd_float.
    + apply fmean_nonneg, blk_nonneg, Ps.
Qed.

(** ** The frequency axis of a record *)

Lemma csum_finite (l : list (cpx NB)) : (forall z, In z l -> finite_c z) -> finite_c (csum (N:=NB) l).
Proof.
  induction l as [|z l IH]; intros H.
  - exists 0, 0. cbn [csum fold_right]. unfold c0. rewrite nb_0. reflexivity.
  - destruct IH as (a & b & E); [intros w Hw; apply H; right; exact Hw|]. destruct (H z (or_introl eq_refl)) as (a' & b' & ->).
    change (csum (N:=NB) ((Fin a', Fin b') :: l)) with (cadd (N:=NB) (Fin a', Fin b') (csum (N:=NB) l)). rewrite E.
    unfold cadd, cre, cim. cbn [fst snd]. rewrite !nb_add. eexists _, _. reflexivity.
Qed.
Lemma map2_In {A B C} (g : A -> B -> C) l l' z : In z (map2 g l l') -> exists a b, In a l /\ In b l' /\ z = g a b.
Proof.
  revert l'. induction l as [|a l IH]; intros [|b l'] H; try contradiction. destruct H as [<-|H].
  - exists a, b. cbn. auto.
  - destruct (IH _ H) as (a' & b' & ? & ? & ->). exists a', b'. cbn. auto.
Qed.
Lemma fft_finite (x : list R) z : In z (fft (N:=NB) (map (cofr (N:=NB)) (F x))) -> finite_c z.
Proof.
  intros Hz. unfold fft in Hz. apply in_map_iff in Hz. destruct Hz as (k & <- & Hk). apply in_seq in Hk.
  unfold dft_coef. apply csum_finite. intros w Hw. apply map2_In in Hw. destruct Hw as (j & xj & Hj & Hx & ->).
  apply in_seq in Hj. rewrite !map_length, F_length in *. apply in_map_iff in Hx. destruct Hx as (r & <- & Hr).
  apply in_map_iff in Hr. destruct Hr as (r' & <- & _).
  unfold twiddle. rewrite nb_ofZ by (cbn; lia).
  change (nofnat (N:=NB) ?a) with (Fin (rnd (IZR (Z.of_nat a)))).
  change (npi (n:=NB)) with (Fin (rnd PI)). rewrite !nb_mul.
  rewrite nb_div.
  2:{ apply Rgt_not_eq, Rlt_le_trans with 1; [lra|]. apply rnd_ge_float; [apply float_1|]. apply IZR_le. rewrite ?map_length, ?F_length. lia. }
  unfold cexpi, cofr, cmul, cre, cim. cbn [fst snd].
  change (ncos (n:=NB) (Fin ?a)) with (Fin (l_cos Lm a)). change (nsin (n:=NB) (Fin ?a)) with (Fin (l_sin Lm a)).
  rewrite nb_0, !nb_mul, nb_sub, nb_add. eexists _, _. reflexivity.
Qed.

(** k D as computed *)
Definition fk (D : R) (k : nat) : R := rnd (INR k * D).
Definition fax (n : nat) (D : R) : list R := map (fk D) (seq 0 n).
Lemma fk_bounds D k : bpow radix2 (-1000) <= D -> (k = O /\ fk D k = 0) \/ (bpow radix2 (-1000) <= fk D k /\ INR k * D * (1 - u53) <= fk D k <= INR k * D * (1 + u53)).
Proof.
  intros HD. destruct k as [|k].
  - left. split; [reflexivity|]. unfold fk. cbn [INR]. rewrite Rmult_0_l. apply rnd_id, float_0.
  - right. assert (P := b_pos (-1000)). assert (K : 1 <= INR (S k)) by (apply (le_INR 1); lia).
    assert (B : bpow radix2 (-1000) <= INR (S k) * D) by nra.
    split; [apply rnd_ge_float; [apply float_bpow; lia|exact B]|].
    destruct (rnd_rel (INR (S k) * D)) as [A1 A2]; [eapply Rle_trans; [|exact B]; apply bpow_le; lia|]. split; assumption.
Qed.
Lemma Rsum_seq (D : R) (L a : nat) : Rsum (map (fun k => INR k * D) (seq a L)) = (INR L * INR a + INR L * (INR L - 1) / 2) * D.
Proof.
  revert a. induction L as [|L IH]; intros a; [cbn; lra|]. cbn [seq map].
  change (Rsum (INR a * D :: map (fun k => INR k * D) (seq (S a) L))) with (INR a * D + Rsum (map (fun k => INR k * D) (seq (S a) L))).
  rewrite IH, !S_INR. field.
Qed.
Lemma Rsum_fk D L : bpow radix2 (-1000) <= D -> forall a,
  Rsum (map (fun k => INR k * D) (seq a L)) * (1 - u53) <= Rsum (map (fk D) (seq a L)) <= Rsum (map (fun k => INR k * D) (seq a L)) * (1 + u53).
Proof.
  intros HD. induction L as [|L IH]; intros a; [cbn; lra|]. cbn [seq map].
  change (Rsum (INR a * D :: map (fun k => INR k * D) (seq (S a) L))) with (INR a * D + Rsum (map (fun k => INR k * D) (seq (S a) L))).
  change (Rsum (fk D a :: map (fk D) (seq (S a) L))) with (fk D a + Rsum (map (fk D) (seq (S a) L))).
  specialize (IH (S a)). destruct (fk_bounds D a HD) as [[-> ->]|[_ B]]; [cbn [INR]; lra|lra].
Qed.
Lemma fsum_rel (z : R) (l : list R) : INR (length l) <= 2 ^ 50 -> bpow radix2 (-1020) <= z -> (forall v, In v l -> v = 0 \/ z <= v) ->
  0 <= Rsum l /\ Rsum l * (1 - INR (length l) * u53) <= fsum l <= Rsum l * (1 + INR (length l) * (2 * u53)).
Proof. apply fsum_zero_or. Qed.
Lemma blk_fax n D L i : ((i + 1) * L <= n)%nat -> blk L (fax n D) i = map (fk D) (seq (i * L) L).
Proof.
  intros H. apply nth_ext' with 0.
  - rewrite blk_length by (unfold fax; rewrite map_length, seq_length; exact H). rewrite map_length, seq_length. reflexivity.
  - intros k Hk. rewrite blk_length in Hk by (unfold fax; rewrite map_length, seq_length; exact H).
    unfold blk. rewrite slice_nth by nia. unfold fax.
    rewrite !(nth_indep _ 0 (fk D 0)) by (rewrite map_length, seq_length; nia). rewrite !map_nth, !seq_nth by nia. reflexivity.
Qed.
(** centre of block i *)
Definition centre (D : R) (L i : nat) : R := (INR i * INR L + (INR L - 1) / 2) * D.
Lemma fmean_fax n D L i : bpow radix2 (-900) <= D -> (1 <= L)%nat -> (Z.of_nat L <= 2 ^ 40)%Z -> ((i + 1) * L <= n)%nat ->
  let v := fmean (blk L (fax n D) i) in
  (centre D L i = 0 /\ v = 0 \/ D / 2 <= centre D L i) /\ Rabs (v - centre D L i) <= centre D L i * (8 * INR L * u53).
Proof.
  intros HD HL HL' Hi. rewrite blk_fax by exact Hi. cbv zeta. assert (PD := b_pos (-900)).
  assert (HD' : bpow radix2 (-1000) <= D) by (eapply Rle_trans; [apply bpow_le|exact HD]; lia).
  unfold fmean. rewrite map_length, seq_length.
  assert (L1 : 1 <= INR L) by (apply (le_INR 1); lia). assert (L40 : INR L <= 1099511627776) by (rewrite INR_IZR_INZ; apply IZR_le; lia).
  assert (U := u53_val). assert (Pi := pos_INR i).
  set (l := map (fk D) (seq (i * L) L)). assert (Ll : length l = L) by (unfold l; rewrite map_length, seq_length; reflexivity).
  destruct (fsum_rel (bpow radix2 (-1000)) l) as (S0 & B1 & B2).
  { rewrite Ll. lra. } { apply bpow_le. lia. }
  { intros v Hv. unfold l in Hv. apply in_map_iff in Hv. destruct Hv as (k & <- & _). destruct (fk_bounds D k HD') as [[_ E]|[E _]]; auto. }
  rewrite Ll in B1, B2. assert (Rk := Rsum_fk D L HD' (i * L)). fold l in Rk. rewrite Rsum_seq, mult_INR in Rk.
  assert (Ec : (INR L * (INR i * INR L) + INR L * (INR L - 1) / 2) * D = INR L * centre D L i) by (unfold centre; field).
  rewrite Ec in Rk. clear Ec.
  assert (Hc : centre D L i = 0 /\ i = O /\ L = 1%nat \/ D / 2 <= centre D L i).
  { unfold centre. destruct i as [|i].
    - destruct L as [|[|L']]; [lia| |].
      + left. split; [cbn; lra|auto].
      + right. cbn [INR]. assert (2 <= INR (S (S L'))) by (apply (le_INR 2); lia).
        change (match L' with 0%nat => 1 | S _ => INR L' + 1 end + 1) with (INR (S (S L'))). nra.
    - right. rewrite S_INR in *. assert (0 <= INR i) by apply pos_INR.
      replace (D / 2) with (1 / 2 * D) by field. apply Rmult_le_compat_r; [lra|]. nra. }
  set (c := centre D L i) in *. clearbody c. set (s := fsum l) in *.
  destruct Hc as [(Hc & Hi0 & HL0)|Hc].
  - assert (s = 0) as -> by (rewrite Hc, Rmult_0_r in Rk; assert (Rsum l = 0) as E by lra; rewrite E in B1, B2; lra).
    assert (Z : rnd (0 / INR L) = 0) by (unfold Rdiv; rewrite Rmult_0_l; apply rnd_id, float_0). rewrite Z, Hc.
    split; [left; auto|]. rewrite Rminus_0_r, Rabs_R0. lra.
  - split; [right; exact Hc|].
    assert (Lc : 0 < INR L * c) by (apply Rmult_lt_0_compat; lra).
    assert (Nu : INR L * u53 <= / 8192) by (rewrite U; lra). assert (U0 : 0 < u53 <= / 8192) by (rewrite U; lra).
    assert (Sl : INR L * c * (1 - 2 * INR L * u53) <= s).
    { eapply Rle_trans; [|exact B1]. apply Rle_trans with (INR L * c * (1 - u53) * (1 - INR L * u53)); [|apply Rmult_le_compat_r; lra].
      replace (INR L * c * (1 - u53) * (1 - INR L * u53)) with (INR L * c * ((1 - u53) * (1 - INR L * u53))) by ring.
      apply Rmult_le_compat_l; [lra|]. nra. }
    assert (Sh : s <= INR L * c * (1 + 4 * INR L * u53)).
    { eapply Rle_trans; [exact B2|]. apply Rle_trans with (INR L * c * (1 + u53) * (1 + INR L * (2 * u53))); [apply Rmult_le_compat_r; [nra|lra]|].
      replace (INR L * c * (1 + u53) * (1 + INR L * (2 * u53))) with (INR L * c * ((1 + u53) * (1 + INR L * (2 * u53)))) by ring.
      apply Rmult_le_compat_l; [lra|]. nra. }
    assert (Q1 : c * (1 - 2 * INR L * u53) <= s / INR L) by (apply le_div; [lra|]; lra).
    assert (Q2 : s / INR L <= c * (1 + 4 * INR L * u53)) by (apply div_le; [lra|]; lra).
    assert (Q0 : bpow radix2 (-1020) <= c * (1 - 2 * INR L * u53)).
    { apply Rle_trans with (bpow radix2 (-900) / 4).
      - change (-1020)%Z with (-120 + -900)%Z. rewrite bpow_plus. assert (bpow radix2 (-120) <= bpow radix2 (-2)) by (apply bpow_le; lia).
        replace (bpow radix2 (-2)) with (/ 4) in * by (cbn; lra). nra.
      - assert (K : 1 / 2 <= 1 - 2 * INR L * u53) by lra. nra. }
    destruct (rnd_in _ _ (s / INR L) Q0 (conj Q1 Q2)) as [A1 A2].
    assert (C0 : 0 < c) by lra. assert (Uw : u53 <= INR L * u53) by nra.
    replace (8 * INR L * u53) with (8 * (INR L * u53)) by ring.
    replace (2 * INR L * u53) with (2 * (INR L * u53)) in A1 by ring. replace (4 * INR L * u53) with (4 * (INR L * u53)) in A2 by ring.
    set (w := INR L * u53) in *. clearbody w. clear - C0 Uw Nu U0 A1 A2.
    assert (T1 : c * (1 - 8 * w) <= c * (1 - 2 * w) * (1 - u53)) by (rewrite Rmult_assoc; apply Rmult_le_compat_l; [lra|nra]).
    assert (T2 : c * (1 + 4 * w) * (1 + u53) <= c * (1 + 8 * w)) by (rewrite Rmult_assoc; apply Rmult_le_compat_l; [lra|nra]).
    apply Rabs_le. lra.
Qed.

Definition favg (n : nat) (D : R) (L c : nat) : list R := map (fun i => fmean (blk L (fax n D) i)) (seq 0 c).
Lemma favg_nth n D L c i : (i < c)%nat -> nth i (favg n D L c) 0 = fmean (blk L (fax n D) i).
Proof.
  intros Hi. unfold favg. set (g := fun i => fmean (blk L (fax n D) i)).
  rewrite (nth_indep _ 0 (g 0%nat)) by (rewrite map_length, seq_length; exact Hi).
  rewrite map_nth, seq_nth by exact Hi. reflexivity.
Qed.
Lemma favg_length n D L c : length (favg n D L c) = c.
Proof. unfold favg. rewrite map_length, seq_length. reflexivity. Qed.
Lemma centre_step D L i : centre D L (S i) = centre D L i + INR L * D.
Proof. unfold centre. rewrite S_INR. ring. Qed.
Lemma centre_le n D L c i : 0 <= D -> (1 <= L)%nat -> (i < c)%nat -> (c * L <= n)%nat -> 0 <= centre D L i <= INR n * D.
Proof.
  intros HD HL Hi Hc. assert (Pi := pos_INR i). assert (L1 : 1 <= INR L) by (apply (le_INR 1); lia). unfold centre.
  assert (K : INR (i * L + L) <= INR n) by (apply le_INR; nia). rewrite plus_INR, mult_INR in K. split.
  - apply Rmult_le_pos; [nra|exact HD].
  - apply Rmult_le_compat_r; [exact HD|]. lra.
Qed.
Lemma favg_axis n D L c : bpow radix2 (-60) <= D <= bpow radix2 40 -> (1 <= L)%nat -> (2 <= c)%nat -> (c * L <= n)%nat ->
  (Z.of_nat n <= 2 ^ 30)%Z -> freq_axis_fl (INR L * D) (favg n D L c).
Proof.
  intros [D1 D2] HL Hc HcL Hn. assert (PD := b_pos (-60)). assert (D0 : 0 <= D) by lra.
  assert (D900 : bpow radix2 (-900) <= D) by (eapply Rle_trans; [apply bpow_le|exact D1]; lia).
  assert (Ln : (L <= n)%nat) by nia. assert (L1 : 1 <= INR L) by (apply (le_INR 1); lia).
  assert (N30 : INR n <= 1073741824) by (rewrite INR_IZR_INZ; apply IZR_le; lia).
  assert (L30 : INR L <= 1073741824) by (apply Rle_trans with (INR n); [apply le_INR, Ln|exact N30]).
  assert (U := u53_val). assert (B40 : bpow radix2 40 = 1099511627776) by (cbn; lra).
  assert (V : forall i, (i < c)%nat -> (centre D L i = 0 /\ fmean (blk L (fax n D) i) = 0 \/ D / 2 <= centre D L i)
     /\ Rabs (fmean (blk L (fax n D) i) - centre D L i) <= centre D L i * (8 * INR L * u53)).
  { intros i Hi. apply fmean_fax; auto; [lia|nia]. }
  assert (E : forall i, (i < c)%nat -> centre D L i * (8 * INR L * u53) <= INR L * D / 1000000 /\ centre D L i * (8 * INR L * u53) <= centre D L i / 1000).
  { intros i Hi. destruct (centre_le n D L c i D0 HL Hi HcL) as [C0 C1]. split.
    - apply Rle_trans with (INR n * D * (8 * INR L * u53)); [apply Rmult_le_compat_r; [rewrite U; lra|exact C1]|].
      replace (INR n * D * (8 * INR L * u53)) with (INR L * D * (INR n * (8 * u53))) by ring. unfold Rdiv.
      apply Rmult_le_compat_l; [apply Rmult_le_pos; lra|]. rewrite U. lra.
    - unfold Rdiv. apply Rmult_le_compat_l; [exact C0|]. rewrite U. lra. }
  constructor.
  - intros v Hv. unfold favg in Hv. apply in_map_iff in Hv. destruct Hv as (i & <- & _). apply rnd_float.
  - rewrite favg_length. exact Hc.
  - split.
    + apply Rle_trans with (1 * D); [rewrite Rmult_1_l; eapply Rle_trans; [apply bpow_le|exact D1]; lia|apply Rmult_le_compat_r; lra].
    + apply Rle_trans with (bpow radix2 30 * bpow radix2 40); [apply Rmult_le_compat; [lra|lra|cbn; lra|lra]|].
      rewrite <- bpow_plus. apply bpow_le. lia.
  - intros i Hi. rewrite favg_length in Hi. rewrite !favg_nth by lia.
    destruct (V i ltac:(lia)) as [_ A]. destruct (V (S i) ltac:(lia)) as [_ B]. destruct (E i ltac:(lia)) as [EA _]. destruct (E (S i) ltac:(lia)) as [EB _].
    rewrite centre_step in B, EB. apply Rabs_le_inv in A, B. apply Rabs_le.
    set (a := centre D L i * (8 * INR L * u53)) in *. set (b := (centre D L i + INR L * D) * (8 * INR L * u53)) in *.
    assert (0 <= INR L * D) by (apply Rmult_le_pos; lra). lra.
  - rewrite favg_nth by lia. destruct (V 0%nat ltac:(lia)) as [[[_ Z]|H] A]; [left; exact Z|right].
    destruct (E 0%nat ltac:(lia)) as [_ EA]. apply Rabs_le_inv in A.
    apply Rle_trans with (D / 4); [|lra]. apply Rle_trans with (bpow radix2 (-60) / 4); [|lra].
    change (-100)%Z with (-40 + -60)%Z. rewrite bpow_plus. replace (bpow radix2 (-40)) with (/ 1099511627776) by (cbn; lra). lra.
  - intros v Hv. apply (In_nth _ _ 0) in Hv. destruct Hv as (i & Hi & <-). rewrite favg_length in Hi. rewrite favg_nth by exact Hi.
    destruct (V i Hi) as [_ A]. destruct (E i Hi) as [_ EA]. apply Rabs_le_inv in A.
    destruct (centre_le n D L c i D0 HL Hi HcL) as [C0 C1].
    apply Rle_trans with (bpow radix2 31 * bpow radix2 40); [|rewrite <- bpow_plus; apply bpow_le; lia].
    assert (INR n * D <= 1073741824 * bpow radix2 40) by (apply Rmult_le_compat; [apply pos_INR|lra|lra|lra]).
    replace (bpow radix2 31) with 2147483648 by (cbn; lra). lra.
Qed.
Lemma favg_accepted n D L c : bpow radix2 (-60) <= D <= bpow radix2 40 -> (1 <= L)%nat -> (2 <= c)%nat -> (c * L <= n)%nat ->
  (Z.of_nat n <= 2 ^ 30)%Z -> / 2 ^ 30 <= INR L * D <= 2 ^ 16 -> INR n * D * INR L <= 2 ^ 15 ->
  monotonic_increasing_constant_step (N:=NB) (F (favg n D L c)) = Ok true.
Proof.
  intros [D1 D2] HL Hc HcL Hn Hh Hb. assert (PD := b_pos (-60)). assert (D0 : 0 <= D) by lra.
  assert (D900 : bpow radix2 (-900) <= D) by (eapply Rle_trans; [apply bpow_le|exact D1]; lia).
  apply (C60_near_uniform_accepted _ (centre D L 0) (INR L * D)).
  - rewrite favg_length. exact Hc.
  - exact Hh.
  - intros i Hi. rewrite favg_length in Hi. rewrite favg_nth by exact Hi.
    destruct (fmean_fax n D L i D900 HL ltac:(nia) ltac:(nia)) as [_ A].
    replace (centre D L 0 + INR i * (INR L * D)) with (centre D L i) by (unfold centre; cbn [INR]; ring).
    eapply Rle_trans; [exact A|]. destruct (centre_le n D L c i D0 HL Hi HcL) as [C0 C1]. assert (U := u53_val).
    assert (L1 : 1 <= INR L) by (apply (le_INR 1); lia).
    apply Rle_trans with (INR n * D * (8 * INR L * u53)); [apply Rmult_le_compat_r; [rewrite U; lra|exact C1]|].
    replace (INR n * D * (8 * INR L * u53)) with (INR n * D * INR L * (8 * u53)) by ring. rewrite U. lra.
Qed.

(** the frequency step of a record of n samples, as computed *)
Definition fdf (t : list R) : R := rnd (1 / rnd (INR (length t) * rnd (nth 1 t 0 - nth 0 t 0))).
Lemma nyquist_NB (t x : list R) : length x = length t -> (2 <= length t)%nat -> (Z.of_nat (length t) <= 2 ^ 50)%Z ->
  rnd (INR (length t) * rnd (nth 1 t 0 - nth 0 t 0)) <> 0 ->
  monotonic_increasing_constant_step (N:=NB) (F t) = Ok true ->
  time2freq_nyquist (N:=NB) (Arr (vec (F t))) (Arr (vec (F x)))
  = Ok (F (fax (length t / 2 + 1) (fdf t)), slice 0 (length t / 2 + 1) (fft (N:=NB) (map (cofr (N:=NB)) (F x))), Nat.odd (length t)).
Proof.
  intros Lx H2 Hn HT Hmono.
  assert (Nt : F t <> []) by (destruct t; [cbn in H2; lia|discriminate]).
  assert (Nx : F x <> []) by (destruct x; [cbn in Lx; lia|discriminate]).
  destruct (@hv_convert (car NB) (F t) (Arr (vec (F t))) Nt (hv_flat _)) as (kt & Hkt & Et).
  destruct (@hv_convert (car NB) (F x) (Arr (vec (F x))) Nx (hv_flat _)) as (kx & Hkx & Ex).
  assert (T2F : time2freq (N:=NB) (Arr (vec (F t))) (Arr (vec (F x))) = Ok (F (fax (length t) (fdf t)), fft (N:=NB) (map (cofr (N:=NB)) (F x)))).
  { unfold time2freq. rewrite Et, Ex. cbn [fst snd].
    destruct (Nat.ltb_spec 1 kt); [lia|]. destruct (Nat.ltb_spec 1 kx); [lia|]. cbn [orb]. rewrite !as_list_vec, bind_Ok.
    rewrite Hmono, bind_Ok. cbn [negb]. rewrite !F_length, Lx, Nat.eqb_refl. cbn [negb]. rewrite bind_Ok, !idx_F, !bind_Ok by lia.
    cbv zeta. rewrite nb_sub, nb_ofnat, nb_mul by lia. rewrite nb_1, nb_div by exact HT. f_equal. f_equal.
    unfold fax, F. rewrite map_map. apply map_ext_in. intros k Hk. apply in_seq in Hk. rewrite nb_ofnat by lia. rewrite nb_mul. reflexivity. }
  unfold time2freq_nyquist. rewrite Et, Ex. cbn [fst snd].
  destruct (Nat.ltb_spec 1 kt); [lia|]. destruct (Nat.ltb_spec 1 kx); [lia|]. cbn [orb]. rewrite !as_list_vec, bind_Ok.
  rewrite Hmono, bind_Ok. cbn [negb]. rewrite !F_length, Lx, Nat.eqb_refl. cbn [negb].
  etransitivity; [apply (f_equal (fun r => bind r _) T2F)|]. rewrite bind_Ok. rewrite F_slice. do 3 f_equal.
  assert (Hh : (length t / 2 + 1 <= length t)%nat).
  { assert (D := Nat.div_mod (length t) 2 ltac:(lia)). assert (M := Nat.mod_upper_bound (length t) 2 ltac:(lia)). lia. }
  unfold fax, slice. rewrite Nat.sub_0_r. cbn [skipn]. rewrite firstn_map. f_equal. f_equal.
  replace (length t) with (length t / 2 + 1 + (length t - (length t / 2 + 1)))%nat at 2 by lia.
  rewrite seq_app, firstn_app, seq_length, Nat.sub_diag, firstn_O, app_nil_r. rewrite <- (seq_length (length t / 2 + 1) 0) at 1. apply firstn_all.
Qed.
Lemma fdf_bounds (t : list R) : (1 <= length t)%nat -> (Z.of_nat (length t) <= 2 ^ 30)%Z ->
  bpow radix2 (-20) <= rnd (nth 1 t 0 - nth 0 t 0) <= bpow radix2 20 ->
  0 < rnd (INR (length t) * rnd (nth 1 t 0 - nth 0 t 0)) /\ bpow radix2 (-50) <= fdf t <= bpow radix2 20.
Proof.
  intros H1 Hn [A B]. set (dt := rnd (nth 1 t 0 - nth 0 t 0)) in *. unfold fdf. fold dt.
  assert (N1 : 1 <= INR (length t)) by (apply (le_INR 1); lia).
  assert (N30 : INR (length t) <= bpow radix2 30) by (replace (bpow radix2 30) with 1073741824 by (cbn; lra); rewrite INR_IZR_INZ; apply IZR_le; lia).
  assert (P := b_pos (-20)). set (T := rnd (INR (length t) * dt)).
  assert (T1 : bpow radix2 (-20) <= T) by (apply rnd_ge_float; [apply float_bpow; lia|nra]).
  assert (T2 : T <= bpow radix2 50).
  { apply rnd_le_float; [apply float_bpow; lia|]. change 50%Z with (30 + 20)%Z. rewrite bpow_plus. apply Rmult_le_compat; lra. }
  split; [lra|]. split.
  - apply rnd_ge_float; [apply float_bpow; lia|]. apply le_div; [lra|].
    apply Rle_trans with (bpow radix2 (-50) * bpow radix2 50); [apply Rmult_le_compat_l; [apply Rlt_le, b_pos|exact T2]|].
    rewrite <- bpow_plus. cbn. lra.
  - apply rnd_le_float; [apply float_bpow; lia|]. apply div_le; [lra|].
    apply Rle_trans with (bpow radix2 20 * bpow radix2 (-20)); [rewrite <- bpow_plus; cbn; lra|].
    apply Rmult_le_compat_l; [apply Rlt_le, b_pos|exact T1].
Qed.

(** the spectrum of a record as computed: block averages of the axis k/T and of non-negative densities *)
Lemma spectrum_NB (t x : list R) (d : R) : length x = length t -> (2 <= length t)%nat -> (Z.of_nat (length t) <= 2 ^ 30)%Z ->
  bpow radix2 (-20) <= rnd (nth 1 t 0 - nth 0 t 0) <= bpow radix2 20 ->
  monotonic_increasing_constant_step (N:=NB) (F t) = Ok true ->
  let m := (length t / 2 + 1)%nat in
  exists v c L s, avg_factor (N:=NB) (F (fax m (fdf t))) (Fin d) = Ok (Fin v) /\ (1 <= L)%nat /\ (c * L <= m)%nat
    /\ (v = INR L /\ c = (m / L)%nat \/ c = O /\ 9007199254740992 <= v)
    /\ length s = c /\ floats s /\ nonneg s
    /\ compute_spectrum_time_series (N:=NB) (Arr (vec (F t))) (Arr (vec (F x))) (Fin d) = Ok (F (favg m (fdf t) L c), F s).
Proof.
  intros Lx H2 Hn Hdt Hmono m. destruct (fdf_bounds t ltac:(lia) Hn Hdt) as (HT & D1 & D2). set (D := fdf t) in *.
  assert (PD := b_pos (-50)).
  assert (Hm : (2 <= m <= length t)%nat).
  { unfold m. assert (DM := Nat.div_mod (length t) 2 ltac:(lia)). assert (M := Nat.mod_upper_bound (length t) 2 ltac:(lia)). lia. }
  assert (F0 : nth 0 (fax m D) 0 = 0).
  { unfold fax. destruct m; [lia|]. cbn [seq map nth]. unfold fk. cbn [INR]. rewrite Rmult_0_l. apply rnd_id, float_0. }
  assert (F1 : nth 1 (fax m D) 0 = D).
  { unfold fax. destruct m as [|[|k]]; [lia|lia|]. cbn [seq map nth]. unfold fk. change (INR 1) with 1. rewrite Rmult_1_l.
    apply rnd_id. unfold D, fdf. apply rnd_float. }
  assert (Lf : length (fax m D) = m) by (unfold fax; rewrite map_length, seq_length; reflexivity).
  assert (Fd : is_float D) by (unfold D, fdf; apply rnd_float).
  assert (Dd : rnd (D - 0) = D) by (rewrite Rminus_0_r; apply rnd_id, Fd).
  assert (N1 : 1 <= INR (length t)) by (apply (le_INR 1); lia).
  destruct (var_dens_list D (INR (length t)) (slice 0 m (fft (N:=NB) (map (cofr (N:=NB)) (F x))))) as (sf & Esf & Lsf & Fsf & Psf).
  { apply Rlt_le_trans with D; [lra|]. assert (D <= rnd (D * INR (length t))) by (apply rnd_ge_float; [exact Fd|nra]).
    apply rnd_ge_float; [exact Fd|]. nra. }
  { intros z Hz. unfold slice in Hz. apply firstn_In in Hz. apply skipn_In in Hz. apply (fft_finite x), Hz. }
  assert (Ls : length sf = length (fax m D)).
  { rewrite Lsf, Lf, slice_length. unfold fft. rewrite !map_length, seq_length, F_length. lia. }
  destruct (averaging_NB (fax m D) sf d (Arr (vec (F (fax m D)))) (Arr (vec (F sf)))) as (v & c & L & Ev & HL & Hc & Hcase & Eavg).
  - constructor.
  - constructor.
  - exact Ls.
  - lia.
  - lia.
  - rewrite F0, F1, Dd. lra.
  - rewrite Lf in Hc, Hcase.
    exists v, c, L, (map (fun i => fmean (blk L sf i)) (seq 0 c)). split; [exact Ev|]. split; [exact HL|]. split; [exact Hc|]. split; [exact Hcase|].
    split; [rewrite map_length, seq_length; reflexivity|]. split; [|split].
    + intros w Hw. apply in_map_iff in Hw. destruct Hw as (i & <- & _). apply rnd_float.
    + intros w Hw. apply in_map_iff in Hw. destruct Hw as (i & <- & _). apply fmean_nonneg, blk_nonneg, Psf.
    + unfold compute_spectrum_time_series. fold m D in Eavg.
      assert (NQ := nyquist_NB t x Lx H2 ltac:(lia) ltac:(lra) Hmono). fold m D in NQ.
      etransitivity; [apply (f_equal (fun r => bind r _) NQ)|]. rewrite bind_Ok. rewrite !idx_F, !bind_Ok by lia.
      cbv zeta. rewrite F0, F1, nb_sub, Dd.
      assert (Al : alen (@Arr (car NB) (vec (F t))) = length t) by (unfold alen; cbn; rewrite F_length; reflexivity).
      etransitivity; [|exact Eavg]. rewrite <- Esf. rewrite <- nb_ofnat by lia. rewrite <- Al. reflexivity.
Qed.

(** Hm0 with the default limits, on any accepted axis: returns a number, not below zero *)
Lemma Hm0_default_NB h (f s : list R) (sp : spec NB) : freq_axis_fl h f -> length s = length f -> floats s -> nonneg s ->
  monotonic_increasing_constant_step (N:=NB) (F f) = Ok true -> s_f sp = F f -> s_S sp = F s ->
  exists r, get_Hm0 (N:=NB) (Fin (-1)) (Fin (-1)) sp = (set_Hm0 (N:=NB) (Fin r) sp, Ok (Fin r)) /\ 0 <= r.
Proof.
  intros Hf Ls Fs Ps Hmono Ef Es. assert (T := fa_two _ _ Hf).
  assert (Nf : F f <> []) by (destruct f; [cbn in T; lia|discriminate]).
  assert (Ns : F s <> []) by (destruct s; [cbn in Ls; lia|discriminate]).
  set (fl := nth (length f - 1) f 0). assert (P0 := fa_first h f Hf). assert (Pl := fa_nonneg h f Hf (length f - 1) ltac:(lia)). fold fl in Pl.
  assert (Flim : set_flim (N:=NB) (F f) (Fin (-1)) (Fin (-1)) = Ok (Fin (nth 0 f 0), Fin fl)).
  { unfold set_flim. rewrite nb_opp1, nb_eqb, Reqb_true by reflexivity. rewrite idx_F, bind_Ok by lia.
    rewrite (@idx_last_nth (car NB) _ (Fin 0) Nf), F_length, F_nth. reflexivity. }
  assert (M : exists r, compute_moment (N:=NB) (Arr (vec (F f))) (Arr (vec (F s))) 0 (Fin (nth 0 f 0)) (Fin fl) = Ok (Fin r)).
  { destruct (@hv_convert (car NB) (F f) (Arr (vec (F f))) Nf (hv_flat _)) as (kf & Hkf & Evf).
    destruct (@hv_convert (car NB) (F s) (Arr (vec (F s))) Ns (hv_flat _)) as (ks & Hks & Evs).
    unfold compute_moment. rewrite Evf, Evs. cbn [fst snd].
    destruct (Nat.ltb_spec 1 kf); [lia|]. destruct (Nat.ltb_spec 1 ks); [lia|]. cbn [orb]. rewrite !as_list_vec, bind_Ok.
    rewrite Hmono, bind_Ok. cbn [negb]. rewrite !F_length, Ls, Nat.eqb_refl. cbn [negb]. rewrite bind_Ok.
    rewrite idx_F, bind_Ok by lia. cbv zeta. unfold drop_zero. change (Z.ltb 0 0) with false. cbn [andb].
    rewrite nb_opp1, !nb_eqb, !Reqb_false by lra. cbn [orb].
    rewrite idx_F, bind_Ok by lia. rewrite (@idx_last_nth (car NB) _ (Fin 0) Nf), F_length, F_nth, bind_Ok. fold fl.
    rewrite nb_leb, Rleb_true by lra.
    assert (I : forall w, approx_array_index (N:=NB) (F f) (Fin w) = argmin (N:=NX) (F (map (fun a => Rabs (rnd (a - w))) f))).
    { intros w. unfold approx_array_index. change (argmin (N:=NB)) with (argmin (N:=NX)). f_equal. unfold F. rewrite !map_map. reflexivity. }
    assert (Nm : forall w, map (fun a => Rabs (rnd (a - w))) f <> []) by (intros w; destruct f; [cbn in T; lia|discriminate]).
    rewrite !I. destruct (argmin_spec _ (Nm (nth 0 f 0))) as (i & -> & Hi & _ & Hfirst). destruct (argmin_spec _ (Nm fl)) as (j & -> & Hj & _).
    rewrite !bind_Ok. rewrite map_length in Hi, Hj.
    assert (i = 0%nat) as ->.
    { destruct i; [reflexivity|]. exfalso. specialize (Hfirst 0%nat ltac:(lia)).
      destruct f as [|a l]; [cbn in T; lia|]. cbn [map nth] in Hfirst. rewrite Rminus_diag_eq, (rnd_id 0), Rabs_R0 in Hfirst; auto using float_0.
      match type of Hfirst with ?q < 0 => assert (0 <= q) end; [|lra].
      cbn in Hi. rewrite (nth_indep _ 0 ((fun b => Rabs (rnd (b - a))) 0)) by (rewrite map_length; lia). rewrite (map_nth (fun b => Rabs (rnd (b - a)))). apply Rabs_pos. }
    set (g := map2 _ _ _).
    assert (Eg : g = F (wg f 0 s)).
    { assert (K := integrand_NB h f Hf 0 s Ls). exact K. }
    rewrite Eg. unfold simpson_slice. rewrite !F_slice.
    assert (Lw : length (wg f 0 s) = length f) by (rewrite wg_length by exact Ls; reflexivity).
    destruct (simpson_NB h (slice 0 (j + 1) f) (slice 0 (j + 1) (wg f 0 s))) as (r & Er & _).
    - exact (fa_sane' h f Hf).
    - intros k Hk. rewrite slice_length in Hk. rewrite !slice_nth by lia. apply (fa_near h f Hf). lia.
    - intros a Ha. apply (wg_floats f 0 s Ls). unfold slice in Ha. apply firstn_In in Ha. eapply skipn_In, Ha.
    - intros a Ha. apply (wg_nonneg h f Hf 0 s Ls Ps). unfold slice in Ha. apply firstn_In in Ha. eapply skipn_In, Ha.
    - rewrite !slice_length, Lw. reflexivity.
    - intros E. assert (Lz : length (slice 0 (j + 1) f) = 0%nat) by (rewrite E; reflexivity). rewrite slice_length in Lz. lia.
    - exists r. exact Er. }
  destruct M as (r & Er). destruct (C77_moments h f s (Arr (vec (F f))) (Arr (vec (F s))) 0 (nth 0 f 0) fl (Fin r) Hf Ls Fs Ps ltac:(lia) (hv_flat _) (hv_flat _) Er) as (r' & E' & Pr).
  injection E' as ->.
  exists (rnd (4 * rnd (sqrt r'))). split; [|apply rnd_nonneg, Rmult_le_pos; [lra|apply rnd_nonneg, sqrt_pos]].
  unfold get_Hm0, getter, mbind, mget, mlift, mset. rewrite Ef, Es.
  assert (V : v_Hm0 (N:=NB) (F f) (F s) (Fin (-1)) (Fin (-1)) = Ok (Fin (rnd (4 * rnd (sqrt r'))))).
  { unfold v_Hm0. rewrite Flim, bind_Ok. unfold v_moment. etransitivity; [apply (f_equal (fun z => bind z _) Er)|]. rewrite bind_Ok. f_equal.
    rewrite nb_ofZ by (cbn; lia). change (nsqrt (n:=NB) (Fin r')) with (xround (xsqrt (Fin r'))). cbn [xsqrt]. destruct (Rlt_dec r' 0); [lra|].
    cbn [xround]. apply nb_mul. }
  rewrite V. reflexivity.
Qed.
(** ... and with any finite limits, if a value is returned *)
Lemma Hm0_limits_NB h (f s : list R) (sp sp' : spec NB) fmin fmax v : freq_axis_fl h f -> length s = length f -> floats s -> nonneg s ->
  s_f sp = F f -> s_S sp = F s -> get_Hm0 (N:=NB) (Fin fmin) (Fin fmax) sp = (sp', Ok v) -> exists r, v = Fin r /\ 0 <= r.
Proof.
  intros Hf Ls Fs Ps Ef Es. unfold get_Hm0, getter, mbind, mget, mlift, mset. rewrite Ef, Es.
  destruct (v_Hm0 (N:=NB) (F f) (F s) (Fin fmin) (Fin fmax)) as [w|] eqn:V; [|discriminate]. intros E.
  assert (w = v) as -> by congruence. clear E. unfold v_Hm0 in V. apply bind_inv in V. destruct V as ([a b] & Hl & V).
  assert (Fin_ab : exists a' b', a = Fin a' /\ b = Fin b').
  { unfold set_flim in Hl. assert (T := fa_two _ _ Hf).
    assert (Nf : F f <> []) by (destruct f; [cbn in T; lia|discriminate]).
    rewrite idx_F in Hl by lia. rewrite (@idx_last_nth (car NB) _ (Fin 0) Nf), F_length, F_nth in Hl.
    destruct (neqb _ _); rewrite bind_Ok in Hl; destruct (neqb _ _); rewrite bind_Ok in Hl; injection Hl as <- <-; eauto. }
  destruct Fin_ab as (a' & b' & -> & ->). apply bind_inv in V. destruct V as (m0 & Hm & V).
  apply (C77_moments h f s (Arr (vec (F f))) (Arr (vec (F s))) 0 a' b' m0 Hf Ls Fs Ps ltac:(lia) (hv_flat _) (hv_flat _)) in Hm.
  destruct Hm as (r & -> & Pr). apply Ok_inj in V. rewrite nb_ofZ in V by (cbn; lia).
  change (nsqrt (n:=NB) (Fin r)) with (xround (xsqrt (Fin r))) in V. cbn [xsqrt] in V. destruct (Rlt_dec r 0); [lra|].
  cbn [xround] in V. rewrite nb_mul in V. exists (rnd (4 * rnd (sqrt r))). split; [auto|].
  apply rnd_nonneg, Rmult_le_pos; [lra|apply rnd_nonneg, sqrt_pos].
Qed.

Lemma series_fields_NB (t x : list R) (se : series NB) : t <> [] -> x <> [] ->
  series_init (N:=NB) (Arr (vec (F t))) (Arr (vec (F x))) = Ok se -> se_t se = F t /\ se_x se = F x /\ length x = length t.
Proof.
  intros Nt Nx H. assert (Nt' : F t <> []) by (destruct t; [contradiction|discriminate]). assert (Nx' : F x <> []) by (destruct x; [contradiction|discriminate]).
  destruct (@hv_convert (car NB) (F t) (Arr (vec (F t))) Nt' (hv_flat _)) as (kt & _ & Et).
  destruct (@hv_convert (car NB) (F x) (Arr (vec (F x))) Nx' (hv_flat _)) as (kx & _ & Ex).
  unfold series_init in H. rewrite Et, Ex in H. cbn [fst snd] in H. rewrite !F_length in H.
  destruct (Nat.eqb_spec (length t) (length x)) as [L|]; cbn [negb] in H; [|discriminate H].
  rewrite !as_list_vec, bind_Ok in H. destruct (negb _); [discriminate H|]. rewrite bind_Ok in H.
  apply bind_inv in H. destruct H as ([[ws tc] q] & _ & H). apply Ok_inj in H. subst se. cbn. auto.
Qed.
Lemma check_of_spectrum (t x : list R) d r : (2 <= length t)%nat -> length x = length t ->
  compute_spectrum_time_series (N:=NB) (Arr (vec (F t))) (Arr (vec (F x))) (Fin d) = Ok r ->
  monotonic_increasing_constant_step (N:=NB) (F t) = Ok true.
Proof.
  intros H2 Lx H. unfold compute_spectrum_time_series in H. apply bind_inv in H. destruct H as (q & H & _).
  assert (Nt' : F t <> []) by (destruct t; [cbn in H2; lia|discriminate]). assert (Nx' : F x <> []) by (destruct x; [cbn in Lx; lia|discriminate]).
  destruct (@hv_convert (car NB) (F t) (Arr (vec (F t))) Nt' (hv_flat _)) as (kt & Kt & Et).
  destruct (@hv_convert (car NB) (F x) (Arr (vec (F x))) Nx' (hv_flat _)) as (kx & Kx & Ex).
  unfold time2freq_nyquist in H. rewrite Et, Ex in H. cbn [fst snd] in H.
  destruct (Nat.ltb_spec 1 kt); [lia|]. destruct (Nat.ltb_spec 1 kx); [lia|]. cbn [orb] in H. rewrite !as_list_vec, bind_Ok in H.
  apply bind_inv in H. destruct H as (mono & E & H). destruct mono; [exact E|discriminate H].
Qed.
Lemma spectrum_fields_NB (f s : list R) (sp : spec NB) : f <> [] -> s <> [] ->
  spectrum_init (N:=NB) (Arr (vec (F f))) (Arr (vec (F s))) = Ok sp ->
  s_f sp = F f /\ s_S sp = F s /\ length s = length f /\ monotonic_increasing_constant_step (N:=NB) (F f) = Ok true.
Proof.
  intros Nf Ns H. assert (Nf' : F f <> []) by (destruct f; [contradiction|discriminate]). assert (Ns' : F s <> []) by (destruct s; [contradiction|discriminate]).
  destruct (@hv_convert (car NB) (F f) (Arr (vec (F f))) Nf' (hv_flat _)) as (kf & _ & Ef).
  destruct (@hv_convert (car NB) (F s) (Arr (vec (F s))) Ns' (hv_flat _)) as (ks & _ & Es).
  unfold spectrum_init in H. rewrite Ef, Es in H. cbn [fst snd] in H. rewrite !as_list_vec, bind_Ok in H.
  apply bind_inv in H. destruct H as (mono & E & H). destruct mono; cbn [negb] in H; [|discriminate H].
  rewrite !F_length in H. destruct (Nat.eqb_spec (length f) (length s)) as [L|]; cbn [negb] in H; [|discriminate H].
  rewrite bind_Ok in H. apply Ok_inj in H. subst sp. cbn. auto.
Qed.

Lemma spectrum_ok_NB (f s : list R) : (2 <= length f)%nat -> length s = length f ->
  monotonic_increasing_constant_step (N:=NB) (F f) = Ok true ->
  spectrum_init (N:=NB) (Arr (vec (F f))) (Arr (vec (F s))) = Ok (fresh (N:=NB) (F f) (F s)).
Proof.
  intros H2 Ls Ck. assert (Nf' : F f <> []) by (destruct f; [cbn in H2; lia|discriminate]). assert (Ns' : F s <> []) by (destruct s; [cbn in Ls; lia|discriminate]).
  destruct (@hv_convert (car NB) (F f) (Arr (vec (F f))) Nf' (hv_flat _)) as (kf & _ & Ef).
  destruct (@hv_convert (car NB) (F s) (Arr (vec (F s))) Ns' (hv_flat _)) as (ks & _ & Es).
  unfold spectrum_init. rewrite Ef, Es. cbn [fst snd]. rewrite !as_list_vec, bind_Ok, Ck, bind_Ok. cbn [negb].
  rewrite !F_length, Ls, Nat.eqb_refl. reflexivity.
Qed.

(** (c) a record of up to 2^30 samples, sampled every 2^-20 to 2^20 seconds: every spectrum get_spectrum_raw returns has finite,
    non-negative densities, get_Hm0() returns a finite non-negative number for it, and so does get_Hm0 with other finite limits
    whenever it returns at all *)
Theorem C77_record (t x : list R) (d : R) (se : series NB) (sp : spec NB) :
  (2 <= length t)%nat -> x <> [] -> (Z.of_nat (length t) <= 2 ^ 30)%Z ->
  bpow radix2 (-20) <= rnd (nth 1 t 0 - nth 0 t 0) <= bpow radix2 20 ->
  series_init (N:=NB) (Arr (vec (F t))) (Arr (vec (F x))) = Ok se ->
  series_spectrum_raw (N:=NB) se (Fin d) = Ok sp ->
  (exists f s, s_f sp = F f /\ s_S sp = F s /\ length s = length f /\ floats s /\ forall v, In v s -> 0 <= v)
  /\ (exists r, get_Hm0 (N:=NB) (Fin (-1)) (Fin (-1)) sp = (set_Hm0 (N:=NB) (Fin r) sp, Ok (Fin r)) /\ 0 <= r)
  /\ (forall fmin fmax sp' v, get_Hm0 (N:=NB) (Fin fmin) (Fin fmax) sp = (sp', Ok v) -> exists r, v = Fin r /\ 0 <= r).
Proof.
  intros H2 Nx Hn Hdt Hse Hsp. assert (Nt : t <> []) by (destruct t; [cbn in H2; lia|discriminate]).
  destruct (series_fields_NB t x se Nt Nx Hse) as (Et & Ex & Lx).
  unfold series_spectrum_raw in Hsp. rewrite Et, Ex in Hsp. apply bind_inv in Hsp. destruct Hsp as ([fc sc] & Hs & Hsp).
  assert (Hmono := check_of_spectrum t x d _ H2 Lx Hs).
  destruct (spectrum_NB t x d Lx H2 Hn Hdt Hmono) as (v & c & L & s & _ & HL & Hc & _ & Ls & Fs & Ps & E).
  assert (E' := eq_trans (eq_sym E) Hs). injection E' as <- <-. clear E Hs.
  destruct (fdf_bounds t ltac:(lia) Hn Hdt) as (_ & D1 & D2). set (D := fdf t) in *. set (m := (length t / 2 + 1)%nat) in *.
  assert (Lf : length (favg m D L c) = c) by apply favg_length.
  destruct c as [|c']; [destruct s; [|discriminate Ls]; discriminate Hsp|]. set (c := S c') in *.
  assert (Nf : favg m D L c <> []) by (intros Q; rewrite Q in Lf; discriminate).
  assert (Ns : s <> []) by (intros Q; rewrite Q in Ls; discriminate).
  destruct (spectrum_fields_NB (favg m D L c) s sp Nf Ns Hsp) as (Ef & Es & Lfs & Ck).
  assert (C2 : (2 <= c)%nat).
  { destruct c' as [|c'']; [|unfold c; lia]. exfalso. unfold c in *. destruct (favg m D L 1) as [|a [|b l]]; try discriminate Lf. discriminate Ck. }
  assert (Hm : (m <= length t)%nat).
  { unfold m. assert (DM := Nat.div_mod (length t) 2 ltac:(lia)). assert (M := Nat.mod_upper_bound (length t) 2 ltac:(lia)). lia. }
  assert (HA : freq_axis_fl (INR L * D) (favg m D L c)).
  { apply favg_axis; auto; [|lia]. split; [eapply Rle_trans; [apply bpow_le|exact D1]; lia|eapply Rle_trans; [exact D2|apply bpow_le; lia]]. }
  split; [|split].
  - exists (favg m D L c), s. split; [auto|]. split; [auto|]. split; [lia|]. auto.
  - apply (Hm0_default_NB (INR L * D) (favg m D L c) s); auto.
  - intros fmin fmax sp' v' Hv. apply (Hm0_limits_NB (INR L * D) (favg m D L c) s sp sp' fmin fmax v'); auto.
Qed.

(** (d) and without averaging such a spectrum is returned for every record on an axis that passes the check, whatever the elevations,
    if the sampling frequency is at most 2^14 and the record at most 2^28 seconds long *)
Theorem C77_spectrum_returned (t x : list R) (se : series NB) :
  (2 <= length t)%nat -> x <> [] -> (Z.of_nat (length t) <= 2 ^ 30)%Z ->
  bpow radix2 (-14) <= rnd (nth 1 t 0 - nth 0 t 0) <= bpow radix2 20 ->
  INR (length t) * rnd (nth 1 t 0 - nth 0 t 0) <= bpow radix2 28 ->
  series_init (N:=NB) (Arr (vec (F t))) (Arr (vec (F x))) = Ok se ->
  monotonic_increasing_constant_step (N:=NB) (F t) = Ok true ->
  exists sp, series_spectrum_raw (N:=NB) se (Fin 0) = Ok sp.
Proof.
  intros H2 Nx Hn Hdt HT Hse Hmono. assert (Nt : t <> []) by (destruct t; [cbn in H2; lia|discriminate]).
  destruct (series_fields_NB t x se Nt Nx Hse) as (Et & Ex & Lx).
  assert (Hdt' : bpow radix2 (-20) <= rnd (nth 1 t 0 - nth 0 t 0) <= bpow radix2 20).
  { split; [|apply Hdt]. eapply Rle_trans; [apply bpow_le|apply Hdt]. lia. }
  destruct (spectrum_NB t x 0 Lx H2 Hn Hdt' Hmono) as (v & c & L & s & Ev & HL & Hc & Hcase & Ls & Fs & Ps & E).
  destruct (fdf_bounds t ltac:(lia) Hn Hdt') as (HT0 & D1 & D2).
  set (dt := rnd (nth 1 t 0 - nth 0 t 0)) in *. set (m := (length t / 2 + 1)%nat) in *.
  assert (V1 : v = 1).
  { unfold avg_factor in Ev. rewrite nb_0, nb_eqb, Reqb_true in Ev by reflexivity. cbn [negb] in Ev. rewrite bind_Ok, nb_1 in Ev.
    unfold pymax2 in Ev. rewrite nb_ltb, Rltb_false in Ev by lra. injection Ev as <-. reflexivity. }
  destruct Hcase as [[Hv Hcm]|[_ Hv]]; [|exfalso; lra].
  assert (L = 1%nat) as -> by (apply INR_eq; rewrite <- Hv, V1; reflexivity). rewrite Nat.div_1_r in Hcm. subst c.
  assert (Hm : (2 <= m <= length t)%nat /\ (m <= length t / 2 + 1)%nat).
  { unfold m. assert (DM := Nat.div_mod (length t) 2 ltac:(lia)). assert (M := Nat.mod_upper_bound (length t) 2 ltac:(lia)). lia. }
  assert (P14 := b_pos (-14)). assert (N2 : 2 <= INR (length t)) by (apply (le_INR 2); lia).
  assert (Dlow : bpow radix2 (-28) <= fdf t).
  { unfold fdf. fold dt. apply rnd_ge_float; [apply float_bpow; lia|]. apply le_div; [exact HT0|].
    apply Rle_trans with (bpow radix2 (-28) * bpow radix2 28); [|rewrite <- bpow_plus; cbn; lra].
    apply Rmult_le_compat_l; [apply Rlt_le, b_pos|]. apply rnd_le_float; [apply float_bpow; lia|exact HT]. }
  assert (Dup : INR (length t) * fdf t <= 2 ^ 15 /\ fdf t <= bpow radix2 13).
  { unfold fdf. fold dt. set (T := rnd (INR (length t) * dt)) in *. assert (U := u53_val).
    assert (B28 : bpow radix2 (-1020) <= INR (length t) * dt).
    { apply Rle_trans with (bpow radix2 (-14)); [apply bpow_le; lia|]. nra. }
    destruct (rnd_rel _ B28) as [T1 _]. fold T u53 in T1.
    assert (Tlow : INR (length t) * bpow radix2 (-15) <= T).
    { eapply Rle_trans; [|exact T1]. replace (bpow radix2 (-15)) with (bpow radix2 (-14) * (1 / 2)) by (cbn; lra). rewrite U.
      assert (INR (length t) * bpow radix2 (-14) <= INR (length t) * dt) by (apply Rmult_le_compat_l; lra). nra. }
    assert (T1' : bpow radix2 (-13) <= T).
    { unfold T. apply rnd_ge_float; [apply float_bpow; lia|]. change (-13)%Z with (1 + -14)%Z. rewrite bpow_plus.
      replace (bpow radix2 1) with 2 by (cbn; lra). apply Rmult_le_compat; lra. }
    split.
    - assert (K : rnd (1 / T) <= / T * (1 + u53)).
      { destruct (rnd_rel (1 / T)) as [_ K]; [|fold u53 in K; unfold Rdiv in K; rewrite Rmult_1_l in K; unfold Rdiv; rewrite Rmult_1_l; exact K].
        apply le_div; [exact HT0|]. assert (T <= bpow radix2 28) by (apply rnd_le_float; [apply float_bpow; lia|exact HT]).
        apply Rle_trans with (bpow radix2 (-1020) * bpow radix2 28); [apply Rmult_le_compat_l; [apply Rlt_le, b_pos|auto]|].
        rewrite <- bpow_plus. change 1 with (bpow radix2 0). apply bpow_le. lia. }
      assert (Tn : INR (length t) * (1 - u53) * bpow radix2 (-14) <= T).
      { eapply Rle_trans; [|exact T1]. rewrite U.
        assert (INR (length t) * bpow radix2 (-14) <= INR (length t) * dt) by (apply Rmult_le_compat_l; lra). nra. }
      apply Rle_trans with (INR (length t) * (/ T * (1 + u53))); [apply Rmult_le_compat_l; lra|].
      replace (INR (length t) * (/ T * (1 + u53))) with (INR (length t) * (1 + u53) / T) by (field; lra).
      apply div_le; [exact HT0|]. replace (bpow radix2 (-14)) with (/ 16384) in Tn by (cbn; lra). rewrite U in *. lra.
    - apply rnd_le_float; [apply float_bpow; lia|]. apply div_le; [exact HT0|].
      apply Rle_trans with (bpow radix2 13 * bpow radix2 (-13)); [rewrite <- bpow_plus; cbn; lra|].
      apply Rmult_le_compat_l; [apply Rlt_le, b_pos|exact T1']. }
  set (D := fdf t) in *. assert (PD := b_pos (-28)).
  assert (Ck : monotonic_increasing_constant_step (N:=NB) (F (favg m D 1 m)) = Ok true).
  { apply favg_accepted; try lia.
    - split; [eapply Rle_trans; [apply bpow_le|exact Dlow]; lia|eapply Rle_trans; [exact D2|apply bpow_le; lia]].
    - change (INR 1) with 1. rewrite Rmult_1_l. split.
      + eapply Rle_trans; [|exact Dlow]. rewrite inv_pow. apply bpow_le. cbn. lia.
      + replace (bpow radix2 13) with 8192 in Dup by (cbn; lra). lra.
    - change (INR 1) with 1. rewrite Rmult_1_r. apply Rle_trans with (INR (length t) * D); [|apply Dup].
      apply Rmult_le_compat_r; [lra|]. apply le_INR. lia. }
  assert (Lf : length (favg m D 1 m) = m) by apply favg_length.
  exists (fresh (N:=NB) (F (favg m D 1 m)) (F s)). unfold series_spectrum_raw. rewrite Et, Ex.
  etransitivity; [apply (f_equal (fun r => bind r _) E)|]. rewrite bind_Ok.
  apply (spectrum_ok_NB (favg m D 1 m) s); [lia|lia|exact Ck].
Qed.

(** ** The whole chain, starting from the samples *)

Lemma fsum_mono (l l' : list R) : length l = length l' -> (forall i, (i < length l)%nat -> nth i l 0 <= nth i l' 0) -> fsum l <= fsum l'.
Proof.
  intros L H. destruct l as [|v l0]; [destruct l'; [lra|discriminate L]|]. set (l := v :: l0) in *. assert (Nl : l <> []) by discriminate. clearbody l.
  assert (Nl' : l' <> []) by (intros ->; destruct l; [auto|discriminate L]). rewrite !fsum_tval, <- L by assumption.
  assert (K : forall i, In i (leaves (order So (length l))) -> (i < length l)%nat) by (intros i; apply leaf_in; exact Nl).
  revert K. generalize (order So (length l)). intros t. induction t as [i|a IHa b IHb]; intros K; [apply H, K; left; reflexivity|].
  change (rnd (tval l a + tval l b) <= rnd (tval l' a + tval l' b)). apply rnd_le.
  assert (tval l a <= tval l' a) by (apply IHa; intros i Hi; apply K, in_or_app; auto).
  assert (tval l b <= tval l' b) by (apply IHb; intros i Hi; apply K, in_or_app; auto). lra.
Qed.
Lemma Rsum_repeat n b : Rsum (repeat b n) = INR n * b.
Proof. induction n as [|n IH]; [cbn; lra|]. cbn [repeat]. change (Rsum (b :: repeat b n)) with (b + Rsum (repeat b n)). rewrite IH, S_INR. lra. Qed.
Lemma nth_repeat' (n i : nat) (b : R) : (i < n)%nat -> nth i (repeat b n) 0 = b.
Proof. revert i. induction n as [|n IH]; intros i Hi; [lia|]. destruct i; [reflexivity|]. cbn. apply IH. lia. Qed.
(** the computed mean of values between a and b *)
Lemma fmean_in (l : list R) a b : l <> [] -> (Z.of_nat (length l) <= 2 ^ 30)%Z -> bpow radix2 (-900) <= b ->
  (forall v, In v l -> a <= v <= b) ->
  (bpow radix2 (-900) <= a -> a * (1 - / 1000) <= fmean l) /\ fmean l <= b * (1 + / 1000).
Proof.
  intros Hne Hn Hb Hv. assert (Ln : (0 < length l)%nat) by (destruct l; [contradiction|cbn; lia]).
  assert (N1 : 1 <= INR (length l)) by (apply (le_INR 1); lia).
  assert (N30 : INR (length l) <= 1073741824) by (rewrite INR_IZR_INZ; apply IZR_le; lia).
  assert (U := u53_val).
  assert (Rep : forall c, bpow radix2 (-900) <= c ->
     INR (length l) * c * (1 - / 4000000) <= fsum (repeat c (length l)) <= INR (length l) * c * (1 + / 4000000)).
  { intros c Hc. assert (Pc := b_pos (-900)). destruct (fsum_rel c (repeat c (length l))) as (_ & B1 & B2).
    - rewrite repeat_length. lra.
    - eapply Rle_trans; [apply bpow_le|exact Hc]. lia.
    - intros v Hr. apply repeat_spec in Hr. subst v. right. lra.
    - rewrite repeat_length, Rsum_repeat in B1, B2. assert (P : 0 <= INR (length l) * c) by (apply Rmult_le_pos; lra). split.
      + eapply Rle_trans; [|exact B1]. apply Rmult_le_compat_l; [exact P|]. rewrite U. lra.
      + eapply Rle_trans; [exact B2|]. apply Rmult_le_compat_l; [exact P|]. rewrite U. lra. }
  split.
  - intros Ha. assert (Pa := b_pos (-900)). destruct (Rep a Ha) as [B1 _].
    assert (M : fsum (repeat a (length l)) <= fsum l).
    { apply fsum_mono; [apply repeat_length|]. intros i Hi. rewrite repeat_length in Hi. rewrite nth_repeat' by exact Hi. apply Hv, nth_In, Hi. }
    unfold fmean. assert (Q : a * (1 - / 4000000) <= fsum l / INR (length l)).
    { apply le_div; [lra|]. eapply Rle_trans; [|exact M]. lra. }
    destruct (rnd_in (a * (1 - / 4000000)) (fsum l / INR (length l)) (fsum l / INR (length l))) as [A _].
    + assert (bpow radix2 (-1020) <= bpow radix2 (-901)) by (apply bpow_le; lia). change (-900)%Z with (1 + -901)%Z in Ha. rewrite bpow_plus in Ha.
      replace (bpow radix2 1) with 2 in Ha by (cbn; lra). assert (P := b_pos (-901)). lra.
    + lra.
    + rewrite U in A. lra.
  - destruct (Rep b Hb) as [_ B2]. assert (Pb := b_pos (-900)).
    assert (M : fsum l <= fsum (repeat b (length l))).
    { apply fsum_mono; [symmetry; apply repeat_length|]. intros i Hi. rewrite nth_repeat' by exact Hi. apply Hv, nth_In, Hi. }
    unfold fmean. assert (Q : fsum l / INR (length l) <= b * (1 + / 4000000)) by (apply div_le; lra).
    eapply Rle_trans; [apply rnd_le, Q|].
    destruct (rnd_rel (b * (1 + / 4000000))) as [_ A].
    + apply Rle_trans with (bpow radix2 (-900)); [apply bpow_le; lia|lra].
    + fold u53 in A. rewrite U in A. lra.
Qed.
(** the acceptance test of the Series constructor, as computed *)
Lemma series_check_NB (t : list R) t0 dt e : (2 <= length t)%nat -> (Z.of_nat (length t) <= 2 ^ 30)%Z ->
  nearly_uniform t t0 dt e -> 0 <= e <= dt / 1024 -> bpow radix2 (-90) <= dt <= bpow radix2 8 ->
  nltb (n:=NB) (nvar (N:=NB) (ndiff (N:=NB) (F t))) (nmean (N:=NB) (map (fun d => ndiv (n:=NB) d (nofZ (n:=NB) 100)) (ndiff (N:=NB) (F t)))) = true.
Proof.
  intros H2 Hn Hu He [Hd1 Hd2]. assert (P90 := b_pos (-90)). assert (U := u53_val). rewrite nb_diff.
  set (l := map rnd (Rdiff t)). assert (Ll : length l = (length t - 1)%nat) by (unfold l; rewrite map_length, Rdiff_length; reflexivity).
  assert (B900 : forall c, / 4194304 <= c -> bpow radix2 (-900) <= c * dt).
  { intros c Hc. apply Rle_trans with (/ 4194304 * dt); [|apply Rmult_le_compat_r; lra].
    apply Rle_trans with (/ 4194304 * bpow radix2 (-90)); [|apply Rmult_le_compat_l; lra].
    replace (/ 4194304) with (bpow radix2 (-22)) by (cbn; lra). rewrite <- bpow_plus. apply bpow_le. lia. }
  assert (B1020 : forall c, / 4194304 <= c -> bpow radix2 (-1020) <= c * dt).
  { intros c Hc. eapply Rle_trans; [|apply B900, Hc]. apply bpow_le. lia. }
  assert (Hv : forall v, In v l -> 499 / 500 * dt <= v <= 501 / 500 * dt).
  { intros v Hv. unfold l in Hv. apply in_map_iff in Hv. destruct Hv as (w & <- & Hw). apply (In_nth _ _ 0) in Hw.
    destruct Hw as (i & Hi & <-). rewrite Rdiff_length in Hi. rewrite Rdiff_nth by lia.
    destruct (nearly_step t t0 dt e i Hu ltac:(lia)) as [S1 S2].
    destruct (rnd_in (511 / 512 * dt) (513 / 512 * dt) (nth (S i) t 0 - nth i t 0)) as [A1 A2]; [apply B1020; lra|lra|].
    rewrite U in A1, A2. lra. }
  assert (Nl : l <> []) by (destruct l; [cbn in Ll; lia|discriminate]).
  assert (Nl' : (Z.of_nat (length l) <= 2 ^ 30)%Z) by lia.
  destruct (fmean_in l (499 / 500 * dt) (501 / 500 * dt) Nl Nl' ltac:(apply B900; lra) Hv) as [M1 M2].
  specialize (M1 ltac:(apply B900; lra)).
  (* right-hand side *)
  assert (E100 : map (fun d => ndiv (n:=NB) d (nofZ (n:=NB) 100)) (F l) = F (map (fun v => rnd (v / 100)) l)).
  { unfold F. rewrite !map_map. apply map_ext. intros v. rewrite nb_ofZ by (cbn; lia). apply nb_div. lra. }
  etransitivity; [apply (f_equal (fun z => nltb (n:=NB) _ (nmean (N:=NB) z)) E100)|].
  rewrite nb_mean; [|destruct l; [contradiction|discriminate]|rewrite map_length; lia].
  set (l2 := map (fun v => rnd (v / 100)) l).
  assert (Hv2 : forall v, In v l2 -> 99 / 10000 * dt <= v <= 101 / 10000 * dt).
  { intros v H. unfold l2 in H. apply in_map_iff in H. destruct H as (w & <- & Hw). destruct (Hv w Hw) as [W1 W2].
    destruct (rnd_in (995 / 100000 * dt) (1005 / 100000 * dt) (w / 100)) as [A1 A2]; [apply B1020; lra|lra|]. rewrite U in A1, A2. lra. }
  destruct (fmean_in l2 (99 / 10000 * dt) (101 / 10000 * dt)) as [R1 _].
  { unfold l2. destruct l; [contradiction|discriminate]. } { unfold l2. rewrite map_length. exact Nl'. } { apply B900; lra. } { exact Hv2. }
  specialize (R1 ltac:(apply B900; lra)).
  (* left-hand side *)
  unfold nvar. rewrite nb_mean by (auto; lia). set (mu := fmean l) in *.
  assert (Esq : map (fun x : car NB => nmul (n:=NB) (nsub (n:=NB) x (Fin mu)) (nsub (n:=NB) x (Fin mu))) (F l) = F (map (fun v => rnd (rnd (v - mu) * rnd (v - mu))) l)).
  { unfold F. rewrite !map_map. apply map_ext. intros v. rewrite nb_sub, nb_mul. reflexivity. }
  etransitivity; [apply (f_equal (fun z => nltb (n:=NB) (nmean (N:=NB) z) _) Esq)|].
  rewrite nb_mean; [|destruct l; [contradiction|discriminate]|rewrite map_length; lia].
  set (l3 := map (fun v => rnd (rnd (v - mu) * rnd (v - mu))) l).
  assert (DD : bpow radix2 (-180) <= dt * dt) by (change (-180)%Z with (-90 + -90)%Z; rewrite bpow_plus; apply Rmult_le_compat; lra).
  assert (D0 : 0 < dt * dt) by nra.
  assert (B3 : bpow radix2 (-900) <= / 30000 * (dt * dt)).
  { apply Rle_trans with (/ 32768 * bpow radix2 (-180)); [|apply Rmult_le_compat; try lra; apply Rlt_le, b_pos].
    replace (/ 32768) with (bpow radix2 (-15)) by (cbn; lra). rewrite <- bpow_plus. apply bpow_le. lia. }
  assert (Hv3 : forall v, In v l3 -> 0 <= v <= / 30000 * (dt * dt)).
  { intros v H. unfold l3 in H. apply in_map_iff in H. destruct H as (w & <- & Hw). destruct (Hv w Hw) as [W1 W2].
    assert (Dv : Rabs (rnd (w - mu)) <= 1 / 190 * dt).
    { assert (Up : rnd (1 / 195 * dt) <= 1 / 190 * dt).
      { destruct (rnd_rel (1 / 195 * dt)) as [_ A]; [apply B1020; lra|]. fold u53 in A. rewrite U in A. lra. }
      apply Rabs_le. split.
      - apply Rle_trans with (- rnd (1 / 195 * dt)); [lra|]. rewrite <- rnd_opp. apply rnd_le. lra.
      - eapply Rle_trans; [|exact Up]. apply rnd_le. lra. }
    apply Rabs_le_inv in Dv. split; [apply rnd_nonneg; nra|].
    apply Rle_trans with (rnd (/ 32000 * (dt * dt))); [apply rnd_le; nra|].
    destruct (rnd_rel (/ 32000 * (dt * dt))) as [_ A].
    - apply Rle_trans with (/ 32768 * bpow radix2 (-180)); [|apply Rmult_le_compat; try lra; apply Rlt_le, b_pos].
      replace (/ 32768) with (bpow radix2 (-15)) by (cbn; lra). rewrite <- bpow_plus. apply bpow_le. lia.
    - fold u53 in A. rewrite U in A. lra. }
  destruct (fmean_in l3 0 (/ 30000 * (dt * dt))) as [_ L3].
  { unfold l3. destruct l; [contradiction|discriminate]. } { unfold l3. rewrite map_length. exact Nl'. } { exact B3. } { exact Hv3. }
  rewrite nb_ltb. apply Rltb_true. replace (bpow radix2 8) with 256 in Hd2 by (cbn; lra).
  assert (dt * dt <= 256 * dt) by (apply Rmult_le_compat_r; lra). lra.
Qed.

(** (e) the constructor accepts every record on such an axis *)
Theorem C77_series_accepted (t x : list R) (t0 dt e : R) :
  floats t -> floats x -> length t = length x -> (2 <= length x)%nat -> (Z.of_nat (length t) <= 2 ^ 30)%Z ->
  nearly_uniform t t0 dt e -> 0 <= e <= dt / 1024 -> bpow radix2 (-90) <= dt <= bpow radix2 8 ->
  (forall v, In v x -> v = 0 \/ / 2 ^ 900 <= Rabs v) ->
  exists se, series_init (N:=NB) (Arr (vec (F t))) (Arr (vec (F x))) = Ok se.
Proof.
  intros Ft Fx Ltx H2 Hn Hu He Hd Hx.
  assert (Nt' : F t <> []) by (destruct t; [cbn in Ltx; lia|discriminate]). assert (Nx' : F x <> []) by (destruct x; [cbn in H2; lia|discriminate]).
  destruct (@hv_convert (car NB) (F t) (Arr (vec (F t))) Nt' (hv_flat _)) as (kt & _ & Et).
  destruct (@hv_convert (car NB) (F x) (Arr (vec (F x))) Nx' (hv_flat _)) as (kx & _ & Ex).
  unfold series_init. rewrite Et, Ex. cbn [fst snd]. rewrite !F_length, Ltx, Nat.eqb_refl. cbn [negb]. rewrite !as_list_vec, bind_Ok.
  rewrite (series_check_NB t t0 dt e) by (auto; lia). cbn [negb]. rewrite bind_Ok. cbv zeta.
  assert (Nm : names "down"%string Down) by (unfold names; cbn; auto).
  assert (Hd90 : / 2 ^ 90 <= dt) by (rewrite inv_pow; apply Hd).
  destruct (C62_never_fails t x t0 dt e "down"%string Down Nm Ft Fx Ltx H2 Hu ltac:(lra) Hd90 Hx) as (is & tau & tc & ws & _ & _ & E1 & _ & _ & E2 & _).
  assert (Ex0 : map (fun v : car NB => nsub (n:=NB) v (n0 (N:=NB))) (F x) = F x).
  { unfold F. rewrite map_map. apply map_ext_in. intros v Hv. rewrite nb_0, nb_sub, Rminus_0_r, rnd_id; auto. }
  assert (Cr : series_crossings (N:=NB) (F t) (F x) "down"%string (n0 (N:=NB)) = Ok (Z.of_nat (length is - 1), tc)).
  { unfold series_crossings. assert (Z : neqb (n:=NB) (n0 (N:=NB)) (n0 (N:=NB)) = true) by (rewrite nb_0, nb_eqb; apply Reqb_true; reflexivity).
    rewrite Z. cbn [negb]. rewrite bind_Ok. rewrite Ex0. exact E1. }
  assert (Iw : exists r, individual_waves (N:=NB) (F t) (F x) "down"%string (n0 (N:=NB)) (n0 (N:=NB)) = Ok r).
  { unfold individual_waves. rewrite Cr, bind_Ok. eexists. etransitivity; [apply (f_equal (fun z => bind z _) E2)|]. reflexivity. }
  destruct Iw as ([[ws' tc'] q] & Iw). eexists. etransitivity; [apply (f_equal (fun z => bind z _) Iw)|]. reflexivity.
Qed.

(** (f) hence Series(t, x).get_spectrum_raw(0).get_Hm0() evaluates to a finite number, not below zero, in binary64 *)
Theorem C77_whole_chain (t x : list R) (t0 dt : R) :
  floats t -> floats x -> length t = length x -> (2 <= length x)%nat -> (Z.of_nat (length t) <= 2 ^ 30)%Z ->
  nearly_uniform t t0 dt (/ 2 ^ 35) -> bpow radix2 (-13) <= dt <= bpow radix2 8 -> INR (length t) * dt <= bpow radix2 27 ->
  (forall v, In v x -> v = 0 \/ / 2 ^ 900 <= Rabs v) ->
  exists se sp r, series_init (N:=NB) (Arr (vec (F t))) (Arr (vec (F x))) = Ok se
    /\ series_spectrum_raw (N:=NB) se (Fin 0) = Ok sp
    /\ (exists f s, s_f sp = F f /\ s_S sp = F s /\ length s = length f /\ length f = (length t / 2 + 1)%nat /\ forall v, In v s -> 0 <= v)
    /\ get_Hm0 (N:=NB) (Fin (-1)) (Fin (-1)) sp = (set_Hm0 (N:=NB) (Fin r) sp, Ok (Fin r)) /\ 0 <= r.
Proof.
  intros Ft Fx Ltx H2 Hn Hu Hd HT Hx. assert (P13 := b_pos (-13)). assert (U := u53_val).
  assert (B13 : bpow radix2 (-13) = / 8192) by (cbn; lra). assert (B8 : bpow radix2 8 = 256) by (cbn; lra).
  destruct (C77_series_accepted t x t0 dt (/ 2 ^ 35)) as (se & Hse); auto.
  { split; [lra|]. lra. }
  { split; [|apply Hd]. apply Rle_trans with (bpow radix2 (-13)); [apply bpow_le; lia|lra]. }
  assert (Ck : monotonic_increasing_constant_step (N:=NB) (F t) = Ok true).
  { apply (C60_near_uniform_accepted t t0 dt); [lia|lra|]. intros i Hi. apply Hu, Hi. }
  assert (S1 := nearly_step t t0 dt (/ 2 ^ 35) 0 Hu ltac:(lia)).
  destruct (rnd_in (dt * (1 - / 2 ^ 20)) (dt * (1 + / 2 ^ 20)) (nth 1 t 0 - nth 0 t 0)) as [A1 A2].
  { apply Rle_trans with (bpow radix2 (-14)); [apply bpow_le; lia|]. replace (bpow radix2 (-14)) with (/ 16384) by (cbn; lra). nra. }
  { split; nra. }
  set (d1 := rnd (nth 1 t 0 - nth 0 t 0)) in *.
  assert (D1 : dt * (1 - / 2 ^ 19) <= d1 <= dt * (1 + / 2 ^ 19)) by (rewrite U in A1, A2; split; nra).
  assert (Nx : x <> []) by (destruct x; [cbn in H2; lia|discriminate]).
  assert (Hd1 : bpow radix2 (-14) <= d1 <= bpow radix2 20).
  { replace (bpow radix2 (-14)) with (/ 16384) by (cbn; lra). replace (bpow radix2 20) with 1048576 by (cbn; lra). nra. }
  destruct (C77_spectrum_returned t x se) as (sp & Hsp); auto; try lia.
  { fold d1. replace (bpow radix2 28) with (2 * bpow radix2 27) by (change 28%Z with (1 + 27)%Z; rewrite bpow_plus; cbn; lra).
    assert (0 <= INR (length t) * dt) by (apply Rmult_le_pos; [apply pos_INR|lra]).
    apply Rle_trans with (INR (length t) * (dt * (1 + / 2 ^ 19))); [apply Rmult_le_compat_l; [apply pos_INR|apply D1]|]. nra. }
  destruct (C77_record t x 0 se sp) as ((f & s & Ef & Es & Ls & _ & Ps) & (r & Er & Pr) & _); auto; try lia.
  { fold d1. split; [|apply Hd1]. eapply Rle_trans; [apply bpow_le|apply Hd1]. lia. }
  exists se, sp, r. split; [auto|]. split; [auto|]. split; [|auto].
  exists f, s. split; [auto|]. split; [auto|]. split; [auto|]. split; [|auto].
  assert (Nt : t <> []) by (destruct t; [cbn in Ltx; lia|discriminate]).
  destruct (series_fields_NB t x se Nt Nx Hse) as (Et & Exx & Lx).
  assert (Hd1' : bpow radix2 (-20) <= d1 <= bpow radix2 20) by (split; [eapply Rle_trans; [apply bpow_le|apply Hd1]; lia|apply Hd1]).
  destruct (spectrum_NB t x 0 Lx ltac:(lia) Hn Hd1' Ck) as (v & c & L & s' & Ev & HL & Hc & Hcase & Ls' & Fs' & Ps' & E).
  unfold avg_factor in Ev. rewrite nb_0, nb_eqb, Reqb_true in Ev by reflexivity. cbn [negb] in Ev. rewrite bind_Ok, nb_1 in Ev.
  unfold pymax2 in Ev. rewrite nb_ltb, Rltb_false in Ev by lra. injection Ev as <-.
  destruct Hcase as [[Hv Hcm]|[_ Hv]]; [|exfalso; lra].
  assert (L = 1%nat) as -> by (apply INR_eq; rewrite <- Hv; reflexivity). rewrite Nat.div_1_r in Hcm. subst c.
  unfold series_spectrum_raw in Hsp. rewrite Et, Exx in Hsp. assert (Hsp' := eq_trans (eq_sym (f_equal (fun z => bind z _) E)) Hsp). rewrite bind_Ok in Hsp'.
  assert (Nf : favg (length t / 2 + 1) (fdf t) 1 (length t / 2 + 1) <> []).
  { intros Q. assert (LQ := favg_length (length t / 2 + 1) (fdf t) 1 (length t / 2 + 1)). rewrite Q in LQ. cbn in LQ. lia. }
  assert (Ns : s' <> []) by (intros Q; rewrite Q in Ls'; cbn in Ls'; lia).
  destruct (spectrum_fields_NB _ s' sp Nf Ns Hsp') as (Ef' & _). rewrite Ef in Ef'. apply F_inj in Ef'. rewrite Ef'. apply favg_length.
Qed.

(** the hypotheses are met: 0.1 s sampling as computed, elevations -1.5, 2^-60, -1.5, 1; and a small spectrum *)
Example C77_witness :
  (exists t x, floats t /\ floats x /\ length t = length x /\ (2 <= length x)%nat /\ (Z.of_nat (length t) <= 2 ^ 30)%Z
    /\ nearly_uniform t 0 (1 / 10) (/ 2 ^ 35) /\ bpow radix2 (-13) <= 1 / 10 <= bpow radix2 8 /\ INR (length t) * (1 / 10) <= bpow radix2 27
    /\ (forall v, In v x -> v = 0 \/ / 2 ^ 900 <= Rabs v) /\ nth 1 t 0 <> 1 / 10)
  /\ freq_axis_fl 1 [0; 1; 2; 3] /\ floats [0; 3; 1; 0] /\ nonneg [0; 3; 1; 0].
Proof.
  split.
  - exists t_ex, x_ex. destruct ex_hyps as (_ & H2 & H3 & H4 & H5 & H6 & _ & _ & H9).
    split; [exact H2|]. split; [exact H3|]. split; [exact H4|]. split; [exact H5|]. split; [cbn; lia|]. split.
    { intros i Hi. eapply Rle_trans; [apply H6, Hi|]. apply Rinv_le_contravar; [apply pow_lt; lra|apply Rle_pow; [lra|lia]]. }
    split; [cbn; lra|]. split; [cbn; lra|]. split; [exact H9|]. cbn [nth t_ex]. rewrite D10_val. lra.
  - split; [|split].
    + assert (F4 : forall v, In v [0; 1; 2; 3] -> is_float v /\ v <= bpow radix2 100).
      { assert (B : bpow radix2 2 <= bpow radix2 100) by (apply bpow_le; lia). replace (bpow radix2 2) with 4 in B by (cbn; lra).
        intros v [<-|[<-|[<-|[<-|[]]]]]; (split; [|lra]).
        - apply float_0. - apply float_1. - apply (float_Z 2); cbn; lia. - apply (float_Z 3); cbn; lia. }
      constructor.
      * intros v Hv. apply F4, Hv.
      * cbn. lia.
      * change 1 with (bpow radix2 0). split; apply bpow_le; lia.
      * intros [|[|[|i]]] Hi; cbn in Hi; try lia; cbn [nth]; apply Rabs_le; lra.
      * left. reflexivity.
      * intros v Hv. apply F4, Hv.
    + intros v [<-|[<-|[<-|[<-|[]]]]]; [apply float_0|apply (float_Z 3); cbn; lia|apply float_1|apply float_0].
    + intros v [<-|[<-|[<-|[<-|[]]]]]; lra.
Qed.
End AnyOrder.
