(** * Welch wrapper, asymmetry and call histories of a Series: C31, C52, C53 *)

From Coq Require Import Reals ZArith String List Bool Lra Lia.
From Coquelicot Require Import Complex.
From Verif Require Import Num XR Spec XRFacts Engine Cpx DFT RSum FourierSpec TimeModel SpectralModel SpectrumModel SeriesModel
  EngineProps TimeProps TimeProps2 SeriesProps FourierFacts FourierProps AvgProps DensityProps BandProps.
Import ListNotations.
Open Scope R_scope.

(** ** C31 What the Welch routine is given *)

(** zero means "not set" *)
Definition option_of (z : Z) : option Z := if Z.eq_dec z 0 then None else Some z.

Lemma none_if_zero_eq z : none_if_zero z = option_of z.
Proof. unfold none_if_zero, option_of. destruct (Z.eqb_spec z 0), (Z.eq_dec z 0); auto; lia. Qed.

Section Welch.
  Variable welch : list NX -> NX -> string -> option Z -> option Z -> option Z -> res (list NX * list NX).

  Theorem C31_wrapper (x : list NX) (dt : R) (nperseg noverlap nfft : Z) (window : string) : dt <> 0 ->
    compute_spectrum_welch_wrapper welch x (Fin dt) nperseg noverlap nfft window
    = welch x (Fin (1 / dt)) window (option_of nperseg) (option_of noverlap) (option_of nfft).
  Proof.
    intros Hd. unfold compute_spectrum_welch_wrapper. change (n1 (N:=NX)) with (Fin 1). rewrite fin_div by auto.
    rewrite !none_if_zero_eq. reflexivity.
  Qed.
  (** get_spectrum with a desired resolution: segments of 1/(dt df) samples (rounded, half to even) that overlap by half *)
  Lemma round_int_F q : exists z, round_int (N:=NX) (Fin q) = Ok z /\ rounds_to q z.
  Proof.
    destruct (nrint_F q) as (z & E & Hz). exists z. split; [|auto]. unfold round_int. rewrite E.
    cbn. rewrite (Rfloor_unique _ z) by lra. reflexivity.
  Qed.
  Theorem C31_desired_resolution (s : series NX) (dt df : R) (nperseg noverlap nfft : Z) (window : string) :
    se_dt s = Fin dt -> 0 < dt -> 0 < df ->
    exists seg ov : Z,
      rounds_to (1 / (dt * df)) seg /\ rounds_to (IZR seg / 2) ov
      /\ (0 <= ov <= seg)%Z /\ (1 <= seg -> ov < seg)%Z
      /\ series_spectrum welch s nperseg noverlap nfft window (Fin df) true
         = bind (welch (se_x s) (Fin (1 / dt)) window (option_of seg) (option_of ov) (option_of nfft))
                (fun fS => spectrum_init (Arr (vec (fst fS))) (Arr (vec (snd fS)))).
  Proof.
    intros Ed Hdt Hdf. unfold series_spectrum, spectrum_segments. rewrite Ed. change (n1 (N:=NX)) with (Fin 1).
    rewrite !fin_div by lra. replace (1 / dt / df) with (1 / (dt * df)) by (field; lra).
    destruct (round_int_F (1 / (dt * df))) as (seg & -> & Hseg). rewrite bind_Ok, !fin_ofZ, fin_div by lra.
    destruct (round_int_F (IZR seg / 2)) as (ov & -> & Hov). rewrite !bind_Ok.
    assert (P : 0 < 1 / (dt * df)) by (apply Rdiv_lt_0_compat; nra).
    assert (S0 : (0 <= seg)%Z).
    { destruct Hseg as [A _]. apply Rabs_def2b in A || (apply Rcomplements.Rabs_le_between in A).
      assert (IZR (-1) < IZR seg) by lra. apply lt_IZR in H. lia. }
    assert (O0 : IZR seg - 1 <= 2 * IZR ov <= IZR seg + 1).
    { destruct Hov as [A _]. apply Rcomplements.Rabs_le_between in A. lra. }
    assert (O1 : (seg - 1 <= 2 * ov <= seg + 1)%Z).
    { split; apply le_IZR; rewrite ?minus_IZR, ?plus_IZR, ?mult_IZR; lra. }
    exists seg, ov. split; [auto|]. split; [auto|].
    assert (Hov1 : (seg = 1 -> ov = 0)%Z).
    { intros ->. destruct Hov as [A B]. assert (C : (ov = 0 \/ ov = 1)%Z) by lia. destruct C as [C|C]; subst ov; [auto|].
      destruct B as [q Hq]; [|lia]. rewrite Rabs_left; lra. }
    assert (Hov0 : (seg = 0 -> ov = 0)%Z) by lia.
    split; [lia|]. split; [lia|].
    rewrite C31_wrapper by lra. destruct (welch _ _ _ _ _ _) as [[f D]|e]; reflexivity.
  Qed.
  Theorem C31_explicit_segments (s : series NX) (dt : R) (nperseg noverlap nfft : Z) (window : string) (df : NX) :
    se_dt s = Fin dt -> dt <> 0 ->
    series_spectrum welch s nperseg noverlap nfft window df false
    = bind (welch (se_x s) (Fin (1 / dt)) window (option_of nperseg) (option_of noverlap) (option_of nfft))
           (fun fS => spectrum_init (Arr (vec (fst fS))) (Arr (vec (snd fS)))).
  Proof.
    intros Ed Hdt. unfold series_spectrum. rewrite bind_Ok, Ed, C31_wrapper by auto.
    destruct (welch _ _ _ _ _ _) as [[f D]|e]; reflexivity.
  Qed.
End Welch.
Example C31_witness : 0 < 1/2 /\ 0 < 2/25 /\ rounds_to (1 / (1/2 * (2/25))) 25 /\ rounds_to (25 / 2) 12.
Proof.
  split; [lra|]. split; [lra|].
  replace (1 / (1/2 * (2/25))) with 25 by field. unfold rounds_to. split.
  - replace (25 - 25) with 0 by lra. rewrite Rabs_R0. split; [lra|]. intros H. exfalso. lra.
  - replace (25/2 - 12) with (1/2) by lra. rewrite Rabs_pos_eq by lra. split; [lra|]. intros _. exists 6%Z. reflexivity.
Qed.

(** ** C52 Asymmetry *)

(** weights of the analytic signal *)
Definition hw (n k : nat) : R :=
  if Nat.eqb k 0 then 1 else if Nat.even n && Nat.eqb k (n / 2) then 1 else if Nat.ltb k ((n + 1) / 2) then 2 else 0.
(** the Hilbert transform of a signal: imaginary part of the inverse transform of the weighted coefficients *)
Definition Him (x : list R) (l : nat) : R := snd (IDF (length x) (fun k => RtoC (hw (length x) k) * coef x k)%C l).

Lemma hilbert_F x : hilbert (N:=NX) (F x)
  = FCs (map (IDF (length x) (fun k => RtoC (hw (length x) k) * coef x k)%C) (seq 0 (length x))).
Proof.
  unfold hilbert. rewrite fft_F, F_length.
  assert (E : map2 (fun k z => cscale (hilbert_h (N:=NX) (length x) k) z) (seq 0 (length x)) (FCs (coefs x (length x)))
              = FCs (map (fun k => RtoC (hw (length x) k) * coef x k)%C (seq 0 (length x)))).
  { replace (seq 0 (length x)) with (seq 0 (length (FCs (coefs x (length x))))) at 1 by (rewrite FCs_length, coefs_length; auto).
    rewrite (map2_seq _ _ (FC (RtoC 0))). rewrite FCs_length, coefs_length. unfold FCs at 2. rewrite map_map. apply map_ext_in.
    intros k Hk. apply in_seq in Hk. rewrite nth_FCs, coefs_nth by lia.
    replace (hilbert_h (N:=NX) (length x) k) with (Fin (hw (length x) k)); [apply fc_scale|].
    unfold hilbert_h, hw. destruct (Nat.eqb k 0); [reflexivity|]. destruct (_ && _); [reflexivity|].
    destruct (Nat.ltb _ _); reflexivity. }
  rewrite E, ifft_FC, map_length, seq_length. f_equal. apply map_ext_in. intros l Hl.
  apply IDF_ext. intros j Hj. rewrite map_seq_nth by auto. reflexivity.
Qed.
(** third moment of the Hilbert transform *)
Definition Hm3 (x : list R) : R := Rmean (map (fun l => Him x l ^ 3) (seq 0 (length x))).
Lemma asymmetry_F x : x <> [] -> 0 < Rvar x -> asymmetry (N:=NX) (F x) = Fin (Hm3 x / Rpower (Rvar x) (3/2)).
Proof.
  intros Hne Hv. unfold asymmetry. rewrite hilbert_F, nmean_F by auto.
  rewrite (F_map (fun v => (v - Rmean x) * (v - Rmean x))) by reflexivity.
  replace (map (fun z => npowZ (cim z) 3) _) with (F (map (fun l => Him x l ^ 3) (seq 0 (length x)))).
  2:{ unfold FCs, F. rewrite !map_map. apply map_ext. intros l. unfold FC, cim. cbn [snd]. exact (npowZ_3 _). }
  rewrite !nmean_F.
  2:{ intros E. apply map_eq_nil in E. contradiction. }
  2:{ intros E. apply map_eq_nil in E. destruct x; [contradiction|discriminate]. }
  change (Rmean (map (fun v => (v - Rmean x) * (v - Rmean x)) x)) with (Rvar x).
  rewrite fin_lit by lra. replace (15 / 10) with (3/2) by lra. rewrite fin_pow by auto.
  rewrite fin_div; [reflexivity|]. unfold Rpower. assert (E := exp_pos (3/2 * ln (Rvar x))). lra.
Qed.

Lemma coef_affine x a b k : (k < length x)%nat ->
  coef (map (fun v => a * v + b) x) k = (RtoC a * coef x k + (if Nat.eqb k 0 then RtoC (INR (length x) * b) else RtoC 0))%C.
Proof.
  intros Hk. unfold coef. rewrite map_length.
  assert (Hn : INR (length x) <> 0) by (apply not_0_INR; lia).
  rewrite (Csum_ext _ _ (fun j => RtoC a * (RtoC (nth j x 0) * ei (- (2 * PI * INR (j * k) / INR (length x))))
     + RtoC b * (tw (-1) (length x) j k * tw 1 (length x) j 0))%C).
  - rewrite Csum_plus, !Csum_scal. f_equal.
    rewrite (Csum_ext _ _ (fun j => tw (-1) (length x) k j * tw 1 (length x) j 0)%C) by (intros; rewrite (tw_sym (-1)); reflexivity).
    rewrite ortho by lia. destruct (Nat.eq_dec k 0), (Nat.eqb_spec k 0); try lia.
    + rewrite RtoC_mult. ring.
    + ring.
  - intros j Hj. rewrite (nth_indep _ 0 (a * 0 + b)) by (rewrite map_length; auto).
    rewrite (map_nth (fun v => a * v + b)). rewrite (tw_sym 1), tw_0, RtoC_plus, RtoC_mult.
    replace (tw (-1) (length x) j k) with (ei (- (2 * PI * INR (j * k) / INR (length x)))).
    + ring.
    + unfold tw. f_equal. field. auto.
Qed.
Lemma Him_affine x a b l : (l < length x)%nat -> Him (map (fun v => a * v + b) x) l = a * Him x l.
Proof.
  intros Hl. unfold Him. rewrite map_length. set (n := length x) in *.
  assert (E : IDF n (fun k => RtoC (hw n k) * coef (map (fun v => (a * v + b)%R) x) k)%C l
            = (RtoC a * IDF n (fun k => RtoC (hw n k) * coef x k)%C l + RtoC b)%C).
  { unfold IDF.
    rewrite (Csum_ext _ _ (fun k => RtoC a * (RtoC (hw n k) * coef x k * tw 1 n k l)
        + (if Nat.eqb k 0 then RtoC (INR n * b) else RtoC 0) * tw 1 n k l)%C).
    - rewrite Csum_plus, Csum_scal. rewrite (Csum_single n (fun k => (if Nat.eqb k 0 then RtoC (INR n * b) else RtoC 0) * tw 1 n k l)%C 0).
      + cbn [Nat.eqb]. rewrite tw_0, RtoC_mult.
        replace (/ INR n * (a * Csum n (fun k => hw n k * coef x k * tw 1 n k l) + INR n * b * 1))%C
          with (a * (/ INR n * Csum n (fun k => hw n k * coef x k * tw 1 n k l)) + (/ INR n * INR n) * b)%C by ring.
        rewrite inv_n by lia. ring.
      + lia.
      + intros j Hj Hj0. destruct (Nat.eqb_spec j 0); [lia|]. ring.
    - intros k Hk. rewrite coef_affine by auto. fold n. destruct (Nat.eqb_spec k 0) as [->|].
      + unfold hw. cbn [Nat.eqb]. ring.
      + ring. }
  rewrite E. cbn. ring.
Qed.
Lemma Hm3_affine x a b : Hm3 (map (fun v => a * v + b) x) = a ^ 3 * Hm3 x.
Proof.
  unfold Hm3. rewrite map_length, <- (Rmean_scale (a ^ 3)), map_map. f_equal. apply map_ext_in. intros l Hl.
  apply in_seq in Hl. rewrite Him_affine by lia. ring.
Qed.
(** adding a constant and scaling by a positive factor leave the asymmetry unchanged, mirroring changes its sign *)
Theorem C52_asymmetry_invariance (x : list R) (a b : R) : x <> [] -> 0 < Rvar x ->
  (0 < a -> asymmetry (N:=NX) (F (map (fun v => a * v + b) x)) = asymmetry (N:=NX) (F x))
  /\ asymmetry (N:=NX) (F (map (fun v => - v) x)) = nopp (n:=NX) (asymmetry (N:=NX) (F x)).
Proof.
  intros Hne Hv. assert (Hne' : forall g : R -> R, map g x <> []) by (intros g E; apply map_eq_nil in E; contradiction).
  split.
  - intros Ha. rewrite !asymmetry_F; auto; [|rewrite Rvar_affine by auto; apply Rmult_lt_0_compat; [nra|exact Hv]]. rewrite Rvar_affine, Hm3_affine by auto. f_equal.
    rewrite <- Rpower_mult_distr by nra.
    assert (Rpower (a * a) (3/2) = a ^ 3) as ->.
    { replace (a * a) with (Rpower a 2). 2:{ replace 2 with (INR 2) by (cbn; lra). rewrite Rpower_pow by auto. ring. }
      rewrite Rpower_mult. replace (2 * (3/2)) with (INR 3) by (cbn; lra). rewrite Rpower_pow; auto. }
    assert (0 < Rpower (Rvar x) (3/2)) by (unfold Rpower; apply exp_pos). field. split; nra.
  - rewrite (map_ext (fun v => - v) (fun v => (-1) * v + 0)) by (intros; ring).
    rewrite !asymmetry_F; auto; [|rewrite Rvar_affine by auto; lra]. rewrite Rvar_affine, Hm3_affine by auto.
    replace (-1 * -1 * Rvar x) with (Rvar x) by ring. rewrite fin_opp. f_equal. field.
    unfold Rpower. assert (E := exp_pos (3/2 * ln (Rvar x))). lra.
Qed.

(** playing the signal backwards changes the sign of the asymmetry *)
Lemma coef_rev x k : (0 < length x)%nat -> coef (rev x) k = (tw 1 (length x) 1 k * Cconj (coef x k))%C.
Proof.
  intros Hn. assert (INR (length x) <> 0) by (apply not_0_INR; lia). unfold coef. rewrite rev_length, Csum_rev, Csum_conj, <- Csum_scal. apply Csum_ext. intros j Hj.
  rewrite rev_nth by lia. replace (length x - S (length x - 1 - j))%nat with j by lia.
  rewrite Cconj_mult, <- ei_opp, Ropp_involutive. unfold tw.
  replace (Cconj (RtoC (nth j x 0))) with (RtoC (nth j x 0)) by (apply C_eq; cbn; ring).
  replace (- (2 * PI * INR ((length x - 1 - j) * k) / INR (length x)))
    with (1 * 2 * PI * INR (1 * k) / INR (length x) + 2 * PI * INR (j * k) / INR (length x) + - (2 * PI * INR k)).
  - rewrite !ei_plus, (ei_opp (2 * PI * INR k)), ei_period. replace (Cconj (RtoC 1)) with (RtoC 1) by (apply C_eq; cbn; ring). ring.
  - replace (length x - 1 - j)%nat with (length x - (j + 1))%nat by lia.
    rewrite !mult_INR, minus_INR, plus_INR by lia. cbn [INR]. field. auto.
Qed.
Lemma Him_rev x l : (l < length x)%nat -> Him (rev x) l = - Him x (length x - 1 - l).
Proof.
  intros Hl. unfold Him. rewrite rev_length. set (n := length x) in *. assert (Hn : INR n <> 0) by (apply not_0_INR; lia).
  assert (E : IDF n (fun k => RtoC (hw n k) * coef (rev x) k)%C l
            = Cconj (IDF n (fun k => RtoC (hw n k) * coef x k)%C (n - 1 - l))).
  { unfold IDF. rewrite Cconj_mult, Csum_conj. f_equal; [rewrite <- RtoC_inv by auto; apply C_eq; cbn; ring|].
    apply Csum_ext. intros k Hk. rewrite coef_rev by (fold n; lia). fold n. rewrite !Cconj_mult, tw_conj.
    replace (Cconj (RtoC (hw n k))) with (RtoC (hw n k)) by (apply C_eq; cbn; ring).
    replace (tw (-1) n k (n - 1 - l)) with (tw 1 n 1 k * tw 1 n k l)%C; [ring|].
    replace (n - 1 - l)%nat with (n - (l + 1))%nat by lia. rewrite tw_mirror by lia.
    unfold tw. rewrite <- ei_plus. f_equal. rewrite !mult_INR, plus_INR. cbn [INR]. field. auto. }
  rewrite E. reflexivity.
Qed.
Lemma Rmean_rev l : Rmean (rev l) = Rmean l.
Proof.
  unfold Rmean. rewrite rev_length. f_equal. induction l as [|a l IH]; [reflexivity|]. cbn [rev]. rewrite Rsum_app, IH, !Rsum_cons. change (Rsum []) with 0. lra.
Qed.
Theorem C52_time_reversal (x : list R) : x <> [] -> 0 < Rvar x ->
  asymmetry (N:=NX) (F (rev x)) = nopp (n:=NX) (asymmetry (N:=NX) (F x)).
Proof.
  intros Hne Hv. assert (V : Rvar (rev x) = Rvar x).
  { unfold Rvar. rewrite (Rmean_rev x), map_rev. apply Rmean_rev. }
  rewrite !asymmetry_F; auto; [|intros E; apply (f_equal (@rev R)) in E; rewrite rev_involutive in E; contradiction|rewrite V; auto].
  rewrite V, fin_opp. f_equal. replace (Hm3 (rev x)) with (- Hm3 x); [unfold Rdiv; ring|].
  unfold Hm3. rewrite rev_length. rewrite <- (Rmean_rev (map (fun l => Him (rev x) l ^ 3) _)), <- map_rev.
  replace (- Rmean (map (fun l => Him x l ^ 3) (seq 0 (length x))))
    with (Rmean (map (fun v => (-1) * v) (map (fun l => Him x l ^ 3) (seq 0 (length x))))) by (rewrite Rmean_scale; ring).
  f_equal. apply (nth_ext' _ _ 0); [rewrite !map_length, rev_length; auto|].
  intros i Hi. rewrite !map_length, seq_length in Hi. rewrite map_map, map_seq_nth by auto.
  rewrite (nth_indep _ 0 ((fun l => Him (rev x) l ^ 3) 0%nat)) by (rewrite map_length, rev_length, seq_length; auto).
  rewrite (map_nth (fun l => Him (rev x) l ^ 3)), rev_nth by (rewrite seq_length; auto). rewrite seq_length, seq_nth by lia.
  rewrite Him_rev by lia. replace (length x - 1 - (0 + (length x - S i)))%nat with i by lia. ring.
Qed.
(** the analytic signal is the signal plus i times its Hilbert transform *)
Theorem C52_analytic_real_part (x : list R) (l : nat) : (l < length x)%nat ->
  exists z : C, nth l (hilbert (N:=NX) (F x)) c0 = FC z /\ fst z = nth l x 0.
Proof.
  intros Hl. set (n := length x) in *. rewrite hilbert_F. fold n. rewrite fc_0, nth_FCs, map_seq_nth by auto.
  eexists. split; [reflexivity|]. assert (Hn : 0 < INR n) by (apply lt_0_INR; lia).
  assert (W : forall k, (1 <= k < n)%nat -> hw n k + hw n (n - k) = 2).
  { intros k Hk. unfold hw. destruct (Nat.eqb_spec k 0), (Nat.eqb_spec (n - k) 0); try lia.
    destruct (Nat.even n) eqn:E.
    - apply Nat.even_spec in E as [h Eh]. replace (n / 2)%nat with h by (rewrite Eh, Nat.mul_comm, Nat.div_mul; lia).
      replace ((n + 1) / 2)%nat with h.
      2:{ rewrite Eh, Nat.mul_comm, Nat.div_add_l by lia. change (1 / 2)%nat with 0%nat. lia. }
      cbn [andb]. destruct (Nat.eqb_spec k h), (Nat.eqb_spec (n - k) h); try lia; [lra|].
      destruct (Nat.ltb_spec k h), (Nat.ltb_spec (n - k) h); try lia; lra.
    - assert (O : Nat.odd n = true) by (rewrite <- Nat.negb_even, E; auto). apply half_odd in O. set (h := (n / 2)%nat) in *.
      replace ((n + 1) / 2)%nat with (h + 1)%nat.
      2:{ replace (n + 1)%nat with ((h + 1) * 2)%nat by lia. rewrite Nat.div_mul; lia. }
      cbn [andb]. destruct (Nat.ltb_spec k (h + 1)), (Nat.ltb_spec (n - k) (h + 1)); try lia; lra. }
  assert (I := IDF_coef x l Hl). fold n in I. apply (f_equal fst) in I. cbn [fst RtoC] in I. rewrite <- I.
  assert (Hf : forall X, fst (IDF n X l) = / INR n * RS n (fun k => fst (X k * tw 1 n k l)%C)).
  { intros X. unfold IDF. rewrite <- RtoC_inv by lra. rewrite <- Csum_fst. generalize (Csum n (fun k => X k * tw 1 n k l)%C).
    intros z. cbn. ring. }
  rewrite !Hf. f_equal. destruct n as [|q] eqn:En; [lia|]. rewrite !RS_shift.
  set (c := fun k => fst (coef x k * tw 1 (S q) k l)%C).
  assert (Hsym : forall k, (k < q)%nat -> c (S (q - 1 - k)) = c (S k)).
  { intros k Hk. unfold c. replace (S (q - 1 - k)) with (S q - S k)%nat by lia. rewrite <- En. unfold n.
    rewrite coef_hermitian by (unfold n in *; lia).
    rewrite (tw_sym 1 _ (length x - S k)), tw_mirror' by (unfold n in *; lia).
    rewrite <- tw_conj, (tw_sym 1 _ l), <- Cconj_mult. reflexivity. }
  f_equal.
  - rewrite coefs_nth by lia. unfold hw. cbn [Nat.eqb]. f_equal. ring.
  - rewrite (RS_ext q (fun k => fst (nth (S k) (coefs x (S q)) (RtoC 0) * tw 1 (S q) (S k) l)%C) (fun k => c (S k)))
      by (intros; unfold c; rewrite coefs_nth by lia; reflexivity).
    rewrite (RS_ext q _ (fun k => hw (S q) (S k) * c (S k))).
    2:{ intros k Hk. unfold c. generalize (coef x (S k)) (tw 1 (S q) (S k) l). intros z w. cbn. ring. }
    apply Rmult_eq_reg_l with 2; [|lra]. rewrite <- (RS_scal q 2 (fun k => c (S k))).
    replace (2 * RS q (fun k => hw (S q) (S k) * c (S k)))
      with (RS q (fun k => hw (S q) (S k) * c (S k)) + RS q (fun k => hw (S q) (S k) * c (S k))) by ring.
    rewrite (RS_rev q (fun k => hw (S q) (S k) * c (S k))) at 2. rewrite <- RS_plus. apply RS_ext. intros k Hk.
    cbv beta. rewrite Hsym by auto. rewrite <- (W (S k)) by lia. replace (S q - S k)%nat with (S (q - 1 - k)) by lia. ring.
Qed.
Example C52_witness : ([0; 1; 5] : list R) <> [] /\ 0 < Rvar [0; 1; 5].
Proof. split; [discriminate|]. unfold Rvar, Rmean, Rsum; cbn. lra. Qed.

(** ** C53 A Series keeps its signal, whatever is called *)

Section History.
  Variable argsort : list NX -> list nat.
  Notation step := (series_step argsort).
  Notation run := (series_run argsort).

  Theorem C53_signal_untouched (cs : list (series_call NX)) (s : series NX) :
    se_t (run cs s) = se_t s /\ se_x (run cs s) = se_x s /\ se_nt (run cs s) = se_nt s /\ se_dt (run cs s) = se_dt s.
  Proof.
    revert s; induction cs as [|c cs IH]; intros s; [auto|]. cbn [series_run fold_left]. change (fold_left _ cs ?u) with (run cs u).
    destruct (IH (step c s)) as (-> & -> & -> & ->). destruct c as [c|ty fc mw]; [auto|]. unfold series_step, series_determine.
    destruct (individual_waves _ _ _ _ _) as [[[ws tc] tall]|e]; auto.
  Qed.
  (** so every analysis gives the same answer after any history as before *)
  Theorem C53_answers_history_independent (cs : list (series_call NX)) (s : series NX) :
    (forall ty fc mw, snd (series_determine (run cs s) ty fc mw) = snd (series_determine s ty fc mw))
    /\ (forall ty, series_get_crossing (run cs s) ty = series_get_crossing s ty)
    /\ series_max (run cs s) = series_max s /\ series_min (run cs s) = series_min s
    /\ series_mean (run cs s) = series_mean s /\ series_var (run cs s) = series_var s
    /\ series_skewness (run cs s) = series_skewness s /\ series_asymmetry (run cs s) = series_asymmetry s
    /\ series_fourier (run cs s) = series_fourier s
    /\ (forall df, series_spectrum_raw (run cs s) df = series_spectrum_raw s df)
    /\ (forall lo hi, series_bandpass (run cs s) lo hi = series_bandpass s lo hi).
  Proof.
    destruct (C53_signal_untouched cs s) as (Et & Ex & En & Ed).
    unfold series_determine, series_get_crossing, series_max, series_min, series_mean, series_var, series_skewness,
      series_asymmetry, series_fourier, series_spectrum_raw, series_bandpass. rewrite Et, Ex, En, Ed.
    repeat split. intros ty fc mw. destruct (individual_waves _ _ _ _ _) as [[[ws tc] tall]|e]; reflexivity.
  Qed.
  (** and a new wave analysis that succeeds puts the object in the same state, whatever happened before *)
  Theorem C53_reanalysis_resets (cs : list (series_call NX)) (s : series NX) ty fc mw r :
    snd (series_determine s ty fc mw) = Ok r ->
    fst (series_determine (run cs s) ty fc mw) = fst (series_determine s ty fc mw).
  Proof.
    destruct (C53_signal_untouched cs s) as (Et & Ex & En & Ed). unfold series_determine. rewrite Et, Ex, En, Ed.
    destruct (individual_waves _ _ _ _ _) as [[[ws tc] tall]|e]; [reflexivity|discriminate].
  Qed.
  (** in particular the default analysis restores the object as it was constructed *)
  Theorem C53_default_restores (cs : list (series_call NX)) (at_ ax : arraylike NX) s :
    series_init at_ ax = Ok s -> fst (series_determine (run cs s) "down" (Fin 0) (Fin 0)) = s.
  Proof.
    intros H. assert (E : fst (series_determine s "down" (Fin 0) (Fin 0)) = s /\ exists r, snd (series_determine s "down" (Fin 0) (Fin 0)) = Ok r).
    { unfold series_init in H. destruct (convert_to_vector at_) as [t1 tS]. destruct (convert_to_vector ax) as [x1 xS].
      destruct (negb _); [discriminate|]. apply bind_inv in H as (t & Ht & H). destruct (negb _); [discriminate|].
      apply bind_inv in H as (x & Hx & H). apply bind_inv in H as ([[ws tc] tall] & Hi & H). apply Ok_inj in H. subst s.
      unfold series_determine. cbn [se_t se_x se_nt se_dt]. change (Fin 0) with (n0 (N:=NX)). rewrite Hi. cbn [fst snd].
      split; [reflexivity|]. eauto. }
    destruct E as [E [r Hr]]. rewrite (C53_reanalysis_resets cs s _ _ _ r Hr). exact E.
  Qed.
End History.
Example C53_witness : exists s, series_init (Arr (vec (F (axis 0 (1/2) 5)))) (Arr (vec (F [1; -1; 2; -2; 1]))) = Ok s.
Proof.
  destruct (C16_uniform_accepted 0 (1/2) [1; -1; 2; -2; 1] (Arr (vec (F (axis 0 (1/2) 5)))) (Arr (vec (F [1; -1; 2; -2; 1]))))
    as (s & tc & ws & H & _); [lra|cbn; lia|constructor|constructor|eauto].
Qed.
