(** * Properties of the Fourier routines of core_spectral.py: C20 - C23 *)

From Coq Require Import Reals ZArith List Bool Lra Lia.
From Coquelicot Require Import Complex.
From Verif Require Import Num XR Spec XRFacts Engine Cpx DFT FourierSpec EngineProps SpectralModel TimeProps FourierFacts.
Import ListNotations.
Open Scope R_scope.

(** ** C20 Frequency axis of the transforms *)

Theorem C20_time2freq (t x : list R) (at_ ax : arraylike NX) :
  good_axis t -> length x = length t -> holds_vector (F t) at_ -> holds_vector (F x) ax ->
  exists f X, time2freq at_ ax = Ok (F f, FCs X)
    /\ length f = length t /\ length X = length t
    /\ forall k, (k < length t)%nat ->
         nth k f 0 = INR k / (INR (length t) * (nth 1 t 0 - nth 0 t 0))
         /\ nth k X (RtoC 0) = coef x k.
Proof.
  intros Hg Hl Ht Hx. rewrite (time2freq_F t x at_ ax) by auto.
  eexists _, _. split; [reflexivity|]. rewrite freqs_length, coefs_length, Hl. split; [auto|]. split; [auto|].
  intros k Hk. rewrite freqs_nth, coefs_nth by auto. split; reflexivity.
Qed.

Theorem C20_time2freq_nyquist (t x : list R) (at_ ax : arraylike NX) :
  good_axis t -> length x = length t -> holds_vector (F t) at_ -> holds_vector (F x) ax ->
  exists f X isOdd, time2freq_nyquist at_ ax = Ok (F f, FCs X, isOdd)
    /\ length f = (length t / 2 + 1)%nat /\ length X = (length t / 2 + 1)%nat
    /\ (isOdd = true <-> Nat.Odd (length t))
    /\ forall k, (k <= length t / 2)%nat ->
         nth k f 0 = INR k / (INR (length t) * (nth 1 t 0 - nth 0 t 0))
         /\ nth k X (RtoC 0) = coef x k.
Proof.
  intros Hg Hl Ht Hx. rewrite (nyquist_F t x at_ ax) by auto.
  eexists _, _, _. split; [reflexivity|]. rewrite freqs_length, coefs_length, Hl. split; [auto|]. split; [auto|].
  split; [apply Nat.odd_spec|].
  intros k Hk. rewrite freqs_nth, coefs_nth by (unfold nnyq; lia). split; reflexivity.
Qed.

Definition spectral_failures (at_ ax : arraylike NX) (e : err) : Prop :=
  time2freq at_ ax = Raise e
  /\ time2freq_nyquist at_ ax = Raise e
  /\ (forall df, compute_spectrum_time_series at_ ax df = Raise e)
  /\ (forall flow fhigh, bandpassfilter at_ ax flow fhigh = Raise e).

Lemma nyq_failures at_ ax e : time2freq_nyquist at_ ax = Raise e -> time2freq at_ ax = Raise e ->
  spectral_failures at_ ax e.
Proof.
  intros H1 H2. split; [auto|]. split; [auto|]. split; intros; unfold compute_spectrum_time_series, bandpassfilter;
    rewrite H1; reflexivity.
Qed.

(** unequal lengths *)
Theorem C20_length_mismatch_rejected (t : list R) (x : list NX) (at_ ax : arraylike NX) :
  good_axis t -> x <> [] -> length x <> length t -> holds_vector (F t) at_ -> holds_vector x ax ->
  spectral_failures at_ ax ValueError.
Proof.
  intros Hg Nx Hl Ht Hx. assert (H2 := proj1 Hg).
  assert (Nt : F t <> []) by (apply F_ne; intros ->; cbn in H2; lia).
  destruct (hv_convert _ _ Nt Ht) as (k1 & K1 & E1). destruct (hv_convert _ _ Nx Hx) as (k2 & K2 & E2).
  assert (Nat.ltb 1 k1 = false) as L1 by (apply Nat.ltb_ge; lia).
  assert (Nat.ltb 1 k2 = false) as L2 by (apply Nat.ltb_ge; lia).
  assert (L3 : Nat.eqb (length t) (length x) = false) by (apply Nat.eqb_neq; lia).
  apply nyq_failures; unfold time2freq_nyquist, time2freq; rewrite E1, E2; cbn [fst snd]; rewrite L1, L2; cbn [orb];
    rewrite as_list_vec, bind_Ok, good_mono, bind_Ok, F_length, L3 by auto; reflexivity.
Qed.
(** rejected axes: not increasing, or with a step that grows too much (C02) *)
Theorem C20_bad_axis_rejected (t : list R) (x : list NX) (at_ ax : arraylike NX) :
  (2 <= length t)%nat -> ~ good_axis t -> x <> [] -> holds_vector (F t) at_ -> holds_vector x ax ->
  spectral_failures at_ ax ValueError.
Proof.
  intros H2 Hg Nx Ht Hx.
  assert (Nt : F t <> []) by (apply F_ne; intros ->; cbn in H2; lia).
  assert (Em : monotonic_increasing_constant_step (F t) = Ok false).
  { destruct (C02_accepts_iff t H2) as ([] & E & Hb); [|exact E]. exfalso. apply Hg. split; [auto|]. apply Hb. auto. }
  destruct (hv_convert _ _ Nt Ht) as (k1 & K1 & E1). destruct (hv_convert _ _ Nx Hx) as (k2 & K2 & E2).
  assert (Nat.ltb 1 k1 = false) as L1 by (apply Nat.ltb_ge; lia).
  assert (Nat.ltb 1 k2 = false) as L2 by (apply Nat.ltb_ge; lia).
  apply nyq_failures; unfold time2freq_nyquist, time2freq; rewrite E1, E2; cbn [fst snd]; rewrite L1, L2; cbn [orb];
    rewrite as_list_vec, bind_Ok, Em, bind_Ok; reflexivity.
Qed.
Example C20_witness : good_axis [0; 0.5; 1] /\ ~ good_axis [0; 1; 1].
Proof.
  split.
  - replace [0; 0.5; 1] with (axis 0 0.5 3) by (cbn; repeat f_equal; lra). apply axis_good; [lia|lra].
  - intros [_ H]. specialize (H 1%nat ltac:(cbn; lia)). cbn in H. lra.
Qed.

(** ** C21 Fourier round trip *)

Lemma IDF_coef x l : (l < length x)%nat ->
  IDF (length x) (fun k => nth k (coefs x (length x)) (RtoC 0)) l = RtoC (nth l x 0).
Proof.
  intros Hl. rewrite (IDF_ext _ _ (DF (length x) (fun j => RtoC (nth j x 0)))).
  - apply (DFT_inversion (length x) (fun j => RtoC (nth j x 0))). auto.
  - intros k Hk. rewrite coefs_nth, coef_DF by auto. reflexivity.
Qed.
Theorem C21_round_trip (t x : list R) (at_ ax : arraylike NX) :
  good_axis t -> length x = length t -> holds_vector (F t) at_ -> holds_vector (F x) ax ->
  exists f X, time2freq at_ ax = Ok (f, X) /\ freq2time (Arr (vec X)) = Ok (F x).
Proof.
  intros Hg Hl Ht Hx. assert (H2 := proj1 Hg). rewrite (time2freq_F t x at_ ax) by auto.
  eexists _, _. split; [reflexivity|].
  rewrite (freq2time_FC (coefs x (length x))) by
    (try constructor; intros E; apply (f_equal (@length C)) in E; rewrite coefs_length in E; cbn in E; lia).
  rewrite coefs_length. do 2 f_equal. apply (nth_ext' _ _ 0); [rewrite map_length, seq_length; auto|].
  intros l Hll. rewrite map_length, seq_length in Hll. rewrite map_seq_nth, IDF_coef by auto. reflexivity.
Qed.
(** the other way round: any list of coefficients is the spectrum of its inverse transform, when that is real *)
Theorem C21_inverse_round_trip (t : list R) (X : list C) (at_ : arraylike NX) :
  good_axis t -> length X = length t -> holds_vector (F t) at_ ->
  snd (nth 0 X (RtoC 0)) = 0 ->
  (forall k, (1 <= k < length X)%nat -> nth (length X - k) X (RtoC 0) = Cconj (nth k X (RtoC 0))) ->
  exists x f, freq2time (Arr (vec (FCs X))) = Ok (F x) /\ time2freq at_ (Arr (vec (F x))) = Ok (f, FCs X).
Proof.
  intros Hg Hl Ht H0 HH. assert (H2 := proj1 Hg).
  rewrite (freq2time_FC X) by (try constructor; intros ->; cbn in Hl; lia).
  set (x := map _ (seq 0 (length X))). exists x.
  assert (Lx : length x = length t) by (unfold x; rewrite map_length, seq_length; auto).
  rewrite (time2freq_F t x at_) by (auto; constructor). eexists. split; [reflexivity|].
  f_equal. f_equal. f_equal. apply (nth_ext' _ _ (RtoC 0)); [rewrite coefs_length; lia|].
  intros k Hk. rewrite coefs_length in Hk. rewrite coefs_nth, coef_DF by auto. rewrite Lx, <- Hl.
  rewrite (DF_ext _ _ (IDF (length X) (fun j => nth j X (RtoC 0)))); [apply DFT_inversion'; lia|].
  intros j Hj. unfold x. rewrite map_seq_nth by auto.
  apply C_eq; [reflexivity|]. cbn. symmetry. apply IDF_real; auto; lia.
Qed.

Lemma coef_linear (x y : list R) a b k : length x = length y ->
  coef (map2 (fun u v => a * u + b * v) x y) k = (RtoC a * coef x k + RtoC b * coef y k)%C.
Proof.
  intros Hl. unfold coef. rewrite map2_length, <- Hl, Nat.min_id. rewrite <- !Csum_scal, <- Csum_plus. apply Csum_ext. intros j Hj.
  rewrite (map2_nth _ x y j 0 0 0) by lia. rewrite RtoC_plus, !RtoC_mult. ring.
Qed.
Theorem C21_linear (t x y : list R) (a b : R) (at_ : arraylike NX) :
  good_axis t -> length x = length t -> length y = length t -> holds_vector (F t) at_ ->
  exists f X Y,
    time2freq at_ (Arr (vec (F x))) = Ok (f, FCs X)
    /\ time2freq at_ (Arr (vec (F y))) = Ok (f, FCs Y)
    /\ time2freq at_ (Arr (vec (F (map2 (fun u v => a * u + b * v) x y))))
       = Ok (f, FCs (map2 (fun u v => RtoC a * u + RtoC b * v)%C X Y)).
Proof.
  intros Hg Hx Hy Ht. assert (Lm : length (map2 (fun u v => a * u + b * v) x y) = length t) by (rewrite map2_length; lia).
  eexists _, (coefs x (length t)), (coefs y (length t)).
  rewrite (time2freq_F t x at_ (Arr (vec (F x)))) by (auto; constructor).
  rewrite (time2freq_F t y at_ (Arr (vec (F y)))) by (auto; constructor).
  rewrite (time2freq_F t (map2 (fun u v => a * u + b * v) x y) at_ (Arr (vec (F (map2 (fun u v => a * u + b * v) x y))))) by (auto; constructor).
  rewrite Lm, Hx, Hy.
  split; [reflexivity|]. split; [reflexivity|]. f_equal. f_equal. f_equal.
  apply (nth_ext' _ _ (RtoC 0)); [rewrite map2_length, !coefs_length, Nat.min_id; auto|].
  intros k Hk. rewrite coefs_length in Hk. rewrite (map2_nth _ _ _ k (RtoC 0) (RtoC 0)) by (rewrite coefs_length; auto).
  rewrite !coefs_nth by auto. apply coef_linear. lia.
Qed.
Example C21_witness : good_axis (axis 3 (1/10) 7) /\ length [1; -2; 3; 0; 5; 1; 2] = length (axis 3 (1/10) 7).
Proof. split; [apply axis_good; [lia|lra]|]. reflexivity. Qed.

(** ** C23 Unfolding gives a Hermitian spectrum *)

Theorem C23_unfold (f : list R) (X : list (cpx NX)) (af : arraylike NX) (aX : arraylike (cpx NX)) (isOdd : bool) :
  (2 <= length f)%nat -> length X = length f -> holds_vector (F f) af -> holds_vector X aX ->
  exists g Z, unfold_spectrum af aX isOdd = Ok (F g, Z)
    /\ let n := (2 * (length f - 1) + (if isOdd then 1 else 0))%nat in
       length g = n /\ length Z = n
       /\ (forall k, (k < n)%nat -> nth k g 0 = INR k * (nth 1 f 0 - nth 0 f 0))
       (* the given coefficients are kept, up to and for odd length including the last *)
       /\ (forall k, (k < length f - 1)%nat -> nth k Z c0 = nth k X c0)
       /\ (isOdd = true -> nth (length f - 1) Z c0 = nth (length f - 1) X c0)
       (* the Nyquist coefficient of an even spectrum is replaced by its conjugate *)
       /\ (isOdd = false -> nth (length f - 1) Z c0 = cconj (nth (length f - 1) X c0))
       (* all others are mirrored *)
       /\ (forall k, (1 <= k < n)%nat -> (n <> 2 * k)%nat -> nth (n - k) Z c0 = cconj (nth k Z c0)).
Proof.
  intros H2 Hl Hf HX. destruct (unfold_eq f X af aX isOdd H2 Hl Hf HX) as (Z & E & LZ & Z1 & Z2).
  exists (freqs (step f) ((length f - 1) * 2 + b2n isOdd)), Z. split; [exact E|]. cbn zeta.
  fold (b2n isOdd). set (n := ((length f - 1) * 2 + b2n isOdd)%nat) in *.
  replace (2 * (length f - 1) + b2n isOdd)%nat with n by (unfold n; lia).
  split; [apply freqs_length|]. split; [exact LZ|]. split; [intros k Hk; rewrite freqs_nth by auto; reflexivity|].
  split; [intros k Hk; apply Z1; lia|].
  split; [intros Ho; apply Z1; rewrite Ho; cbn; lia|].
  split.
  { intros Ho. rewrite Z2 by (rewrite LZ; unfold n; rewrite Ho; cbn [b2n]; lia). rewrite LZ. f_equal. f_equal.
    unfold n; rewrite Ho; cbn [b2n]; lia. }
  intros k Hk Hnk. assert (Hb : (b2n isOdd <= 1)%nat) by (destruct isOdd; cbn; lia).
  destruct (Nat.lt_ge_cases k (length f - 1 + b2n isOdd)) as [H|H].
  - destruct (Nat.lt_ge_cases (n - k) (length f - 1 + b2n isOdd)) as [H'|H']; [unfold n in *; lia|].
    rewrite (Z1 k) by auto. rewrite (Z2 (n - k)%nat) by lia. rewrite LZ. f_equal. f_equal. lia.
  - rewrite (Z2 k) by lia. rewrite LZ, (Z1 (n - k)%nat) by (unfold n in *; lia). rewrite conj_conj. reflexivity.
Qed.
(** so "the spectrum is kept" fails at Nyquist: a non-real Nyquist coefficient is changed *)
Theorem C23_nyquist_kept_refuted :
  ~ (forall (f : list R) (X Z : list (cpx NX)) g isOdd k,
       (2 <= length f)%nat -> length X = length f -> (k < length f)%nat ->
       unfold_spectrum (Arr (vec (F f))) (Arr (vec X)) isOdd = Ok (g, Z) -> nth k Z c0 = nth k X c0).
Proof.
  intros H. destruct (C23_unfold [0; 1] (FCs [(0, 0); (0, 1)]) _ _ false ltac:(cbn; lia) eq_refl (hv_flat _) (hv_flat _))
    as (g & Z & E & _ & _ & _ & _ & _ & HN & _).
  specialize (H [0; 1] (FCs [(0, 0); (0, 1)]) Z _ false 1%nat ltac:(cbn; lia) eq_refl ltac:(cbn; lia) E).
  specialize (HN eq_refl). cbn [length Nat.sub] in HN. rewrite H in HN. cbn in HN. injection HN as HN. lra.
Qed.
Example C23_witness : (2 <= length ([0; 0.1; 0.2]%R : list R))%nat
  /\ holds_vector (FCs [(1, 0); (2, 1); (0, 3)]) (Arr (vec (FCs [(1, 0); (2, 1); (0, 3)]))).
Proof. split; [cbn; lia|constructor]. Qed.

(** ** C22 Folded Fourier round trip *)

Lemma unfold_nyquist t x : good_axis t -> length x = length t ->
  unfold_spectrum (Arr (vec (F (freqs (dfreq t) (nnyq (length x)))))) (Arr (vec (FCs (coefs x (nnyq (length x))))))
                  (Nat.odd (length x))
  = Ok (F (freqs (dfreq t) (length t)), FCs (coefs x (length x))).
Proof.
  intros Hg Hl. assert (H2 := proj1 Hg). assert (Hq := nnyq_le (length x) ltac:(lia)).
  rewrite unfold_FC by (rewrite ?coefs_length, ?freqs_length; lia).
  rewrite freqs_length, nnyq_total, step_freqs by lia. rewrite <- Hl. f_equal. f_equal. f_equal.
  apply (nth_ext' _ _ (RtoC 0)); [rewrite map_length, seq_length, coefs_length; auto|].
  intros k Hk. rewrite map_length, seq_length in Hk. rewrite map_seq_nth, (coefs_nth x (length x) k) by auto.
  assert (Ht := nnyq_total (length x) ltac:(lia)).
  destruct (Nat.ltb_spec k (nnyq (length x) - 1 + b2n (Nat.odd (length x)))).
  - rewrite coefs_nth; auto. destruct (Nat.odd (length x)); cbn in *; lia.
  - rewrite coefs_nth by (destruct (Nat.odd (length x)); cbn in *; lia).
    rewrite <- coef_hermitian by lia. f_equal. lia.
Qed.
Theorem C22_round_trip (t x : list R) (at_ ax : arraylike NX) :
  good_axis t -> length x = length t -> holds_vector (F t) at_ -> holds_vector (F x) ax ->
  exists f X isOdd g Z,
    time2freq_nyquist at_ ax = Ok (f, X, isOdd)
    /\ unfold_spectrum (Arr (vec f)) (Arr (vec X)) isOdd = Ok (g, Z)
    /\ time2freq at_ ax = Ok (g, Z)
    /\ freq2time (Arr (vec Z)) = Ok (F x).
Proof.
  intros Hg Hl Ht Hx. rewrite (nyquist_F t x at_ ax) by auto.
  eexists _, _, _, _, _. split; [reflexivity|]. split; [apply unfold_nyquist; auto|].
  rewrite (time2freq_F t x at_ ax) by auto. split; [reflexivity|].
  destruct (C21_round_trip t x at_ ax Hg Hl Ht Hx) as (f & X & E & R).
  rewrite (time2freq_F t x at_ ax) in E by auto. apply Ok_inj in E. injection E as _ <-. exact R.
Qed.
Example C22_witness : good_axis (axis 0 2 4) /\ good_axis (axis 0 2 5).
Proof. split; apply axis_good; lia || lra. Qed.
