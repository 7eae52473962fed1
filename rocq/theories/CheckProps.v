(** * Input checks of the remaining entry points: C82 *)

From Coq Require Import String Reals ZArith List Bool Lra Lia.
From Verif Require Import Num XR Spec XRFacts Engine Cpx FourierSpec EngineProps TimeModel SpectralModel WaveModel TimeProps
  FourierFacts.
Import ListNotations.
Open Scope R_scope.

(** the axis is usable: only finite numbers, strictly increasing, no step exceeding the first by the tolerance *)
Definition usable_axis (f : list xr) : Prop := exists r, f = F r /\ good_axis r.

(** the same exception [e] from every function that takes an axis and a second vector *)
Definition all_reject (f s : arraylike NX) (x : arraylike (cpx NX)) (e : err) : Prop :=
     (forall m fmin fmax, compute_moment f s m fmin fmax = Raise e)
  /\ (forall fmin fmax, compute_spectrum_params f s fmin fmax = Raise e)
  /\ time2freq f s = Raise e
  /\ time2freq_nyquist f s = Raise e
  /\ (forall df, compute_spectrum_time_series f s df = Raise e)
  /\ (forall flow fhigh, bandpassfilter f s flow fhigh = Raise e)
  /\ (forall n df, compute_spectrum_freq_series f x n df = Raise e).

Lemma mono_false (f : list xr) : (2 <= length f)%nat -> ~ usable_axis f -> monotonic_increasing_constant_step (N:=NX) f = Ok false.
Proof.
  intros H2 Hu. assert (exists b, monotonic_increasing_constant_step (N:=NX) f = Ok b) as (b & Hb).
  { unfold monotonic_increasing_constant_step. destruct f as [|a [|b l]]; cbn in H2; try lia. cbn. eauto. }
  destruct b; [|exact Hb]. contradiction Hu. destruct (C02_accepted_finite f Hb) as (r & -> & _ & L).
  exists r. split; [reflexivity|]. rewrite F_length in H2. destruct (C02_accepts_iff r L) as (b & Eb & Ib).
  rewrite Hb in Eb. apply Ok_inj in Eb. split; [auto|]. apply Ib. auto.
Qed.
Lemma usable_mono (f : list xr) : usable_axis f -> monotonic_increasing_constant_step (N:=NX) f = Ok true.
Proof. intros (r & -> & H). apply good_mono; auto. Qed.

Section Vectors.
  Variables (lf ls : list xr) (lx : list (cpx NX)) (f s : arraylike NX) (x : arraylike (cpx NX)).
  Variables (k1 k2 k3 : nat).
  Hypothesis (K1 : (k1 <= 1)%nat) (K2 : (k2 <= 1)%nat) (K3 : (k3 <= 1)%nat).
  Hypothesis (E1 : convert_to_vector f = (vec lf, (length lf, k1))).
  Hypothesis (E2 : convert_to_vector s = (vec ls, (length ls, k2))).
  Hypothesis (E3 : convert_to_vector x = (vec lx, (length lx, k3))).

  Lemma reject_mono e : (monotonic_increasing_constant_step (N:=NX) lf = Raise e
      \/ (monotonic_increasing_constant_step (N:=NX) lf = Ok false /\ e = ValueError)) -> all_reject f s x e.
  Proof.
    intros H. assert (L1 : Nat.ltb 1 k1 = false) by (apply Nat.ltb_ge; lia).
    assert (L2 : Nat.ltb 1 k2 = false) by (apply Nat.ltb_ge; lia). assert (L3 : Nat.ltb 1 k3 = false) by (apply Nat.ltb_ge; lia).
    assert (N : time2freq_nyquist f s = Raise e).
    { unfold time2freq_nyquist. rewrite E1, E2; cbn [fst snd]; rewrite L1, L2. cbn [orb]. rewrite as_list_vec, bind_Ok.
      destruct H as [->|[-> ->]]; reflexivity. }
    assert (B : forall fl fh, bandpassfilter f s fl fh = Raise e) by (intros; unfold bandpassfilter; rewrite N; reflexivity).
    assert (C : forall df, compute_spectrum_time_series f s df = Raise e) by (intros; unfold compute_spectrum_time_series; rewrite N; reflexivity).
    split; [intros; unfold compute_moment|split; [intros; unfold compute_spectrum_params|split; [unfold time2freq|
     split; [exact N|split; [exact C|split; [exact B|intros; unfold compute_spectrum_freq_series]]]]]];
    rewrite E1, ?E2, ?E3; cbn [fst snd]; rewrite L1, ?L2, ?L3; cbn [orb]; rewrite as_list_vec, bind_Ok;
    destruct H as [->|[-> ->]]; reflexivity.
  Qed.
  Lemma reject_length : monotonic_increasing_constant_step (N:=NX) lf = Ok true ->
    length ls <> length lf -> length lx <> length lf -> all_reject f s x ValueError.
  Proof.
    intros H Hs Hx. assert (L1 : Nat.ltb 1 k1 = false) by (apply Nat.ltb_ge; lia).
    assert (L2 : Nat.ltb 1 k2 = false) by (apply Nat.ltb_ge; lia). assert (L3 : Nat.ltb 1 k3 = false) by (apply Nat.ltb_ge; lia).
    assert (Es : Nat.eqb (length lf) (length ls) = false) by (apply Nat.eqb_neq; auto).
    assert (Ex : Nat.eqb (length lf) (length lx) = false) by (apply Nat.eqb_neq; auto).
    assert (N : time2freq_nyquist f s = Raise ValueError).
    { unfold time2freq_nyquist. rewrite E1, E2; cbn [fst snd]; rewrite L1, L2. cbn [orb]. rewrite as_list_vec, bind_Ok, H, bind_Ok.
      cbn [negb]. rewrite Es. reflexivity. }
    assert (B : forall fl fh, bandpassfilter f s fl fh = Raise ValueError) by (intros; unfold bandpassfilter; rewrite N; reflexivity).
    assert (C : forall df, compute_spectrum_time_series f s df = Raise ValueError)
      by (intros; unfold compute_spectrum_time_series; rewrite N; reflexivity).
    split; [intros; unfold compute_moment|split; [intros; unfold compute_spectrum_params|split; [unfold time2freq|
     split; [exact N|split; [exact C|split; [exact B|intros; unfold compute_spectrum_freq_series]]]]]];
    rewrite E1, ?E2, ?E3; cbn [fst snd]; rewrite L1, ?L2, ?L3; cbn [orb]; rewrite as_list_vec, bind_Ok, H, bind_Ok;
    cbn [negb]; rewrite ?Es, ?Ex; reflexivity.
  Qed.
End Vectors.

(** an unusable axis of two or more points is a ValueError everywhere, whatever the other arguments *)
Theorem C82_bad_axis (lf ls : list xr) (lx : list (cpx NX)) (f s : arraylike NX) (x : arraylike (cpx NX)) :
  (2 <= length lf)%nat -> ~ usable_axis lf -> ls <> [] -> lx <> [] ->
  holds_vector lf f -> holds_vector ls s -> holds_vector lx x ->
  all_reject f s x ValueError.
Proof.
  intros H2 Hu Ns Nx Hf Hs Hx. assert (Nf : lf <> []) by (intros ->; cbn in H2; lia).
  destruct (hv_convert _ _ Nf Hf) as (k1 & K1 & E1). destruct (hv_convert _ _ Ns Hs) as (k2 & K2 & E2).
  destruct (hv_convert _ _ Nx Hx) as (k3 & K3 & E3).
  apply (reject_mono lf ls lx f s x k1 k2 k3 K1 K2 K3 E1 E2 E3). right. split; [apply mono_false; auto|reflexivity].
Qed.
(** so are unequal lengths *)
Theorem C82_unequal_lengths (lf ls : list xr) (lx : list (cpx NX)) (f s : arraylike NX) (x : arraylike (cpx NX)) :
  (2 <= length lf)%nat -> ls <> [] -> lx <> [] -> length ls <> length lf -> length lx <> length lf ->
  holds_vector lf f -> holds_vector ls s -> holds_vector lx x ->
  all_reject f s x ValueError.
Proof.
  intros H2 Ns Nx Ls Lx Hf Hs Hx. assert (Nf : lf <> []) by (intros ->; cbn in H2; lia).
  destruct (hv_convert _ _ Nf Hf) as (k1 & K1 & E1). destruct (hv_convert _ _ Ns Hs) as (k2 & K2 & E2).
  destruct (hv_convert _ _ Nx Hx) as (k3 & K3 & E3).
  assert (exists b, monotonic_increasing_constant_step (N:=NX) lf = Ok b) as ([] & Hb).
  { unfold monotonic_increasing_constant_step. destruct lf as [|a [|b l]]; cbn in H2; try lia. cbn. eauto. }
  - apply (reject_length lf ls lx f s x k1 k2 k3); auto.
  - apply (reject_mono lf ls lx f s x k1 k2 k3 K1 K2 K3 E1 E2 E3). auto.
Qed.
(** an axis of one point fails with an IndexError, also when the other vector is too long *)
Theorem C82_one_point (v : xr) (ls : list xr) (lx : list (cpx NX)) (f s : arraylike NX) (x : arraylike (cpx NX)) :
  ls <> [] -> lx <> [] -> holds_vector [v] f -> holds_vector ls s -> holds_vector lx x ->
  all_reject f s x IndexError.
Proof.
  intros Ns Nx Hf Hs Hx. assert (Nf : [v] <> []) by discriminate.
  destruct (hv_convert _ _ Nf Hf) as (k1 & K1 & E1). destruct (hv_convert _ _ Ns Hs) as (k2 & K2 & E2).
  destruct (hv_convert _ _ Nx Hx) as (k3 & K3 & E3).
  apply (reject_mono [v] ls lx f s x k1 k2 k3 K1 K2 K3 E1 E2 E3). left. reflexivity.
Qed.
(** and that is all: a usable axis and a vector of its length are transformed *)
Theorem C82_accepted_iff (lf : list xr) (ls : list R) (f s : arraylike NX) :
  (2 <= length lf)%nat -> ls <> [] -> holds_vector lf f -> holds_vector (F ls) s ->
  ((exists r, time2freq f s = Ok r) <-> usable_axis lf /\ length ls = length lf)
  /\ ((exists r, time2freq_nyquist f s = Ok r) <-> usable_axis lf /\ length ls = length lf).
Proof.
  intros H2 Ns Hf Hs. assert (Ns' : F ls <> []) by (apply F_ne; auto). set (dummy := [@c0 NX]).
  assert (R : forall A (g : res A), (~ (usable_axis lf /\ length ls = length lf) -> g = Raise ValueError) ->
    (forall r, lf = F r -> good_axis r -> length ls = length r -> exists v, g = Ok v) ->
    ((exists v, g = Ok v) <-> usable_axis lf /\ length ls = length lf)).
  { intros A g H1 H3. split.
    - intros (v & Ev). destruct (Classical_Prop.classic (usable_axis lf /\ length ls = length lf)) as [|Hn]; [auto|].
      rewrite (H1 Hn) in Ev. discriminate.
    - intros ((r & -> & G) & L). apply (H3 r); auto. rewrite L, F_length. reflexivity. }
  assert (J : ~ (usable_axis lf /\ length ls = length lf) -> time2freq f s = Raise ValueError /\ time2freq_nyquist f s = Raise ValueError).
  { intros Hn. destruct (Classical_Prop.classic (usable_axis lf)) as [Hu|Hu].
    - assert (L : length ls <> length lf) by (intros E; apply Hn; auto).
      assert (Q := C82_unequal_lengths lf (F ls) (repeat (@c0 NX) (S (length lf))) f s
                     (Arr (vec (repeat (@c0 NX) (S (length lf)))))).
      destruct Q as (_ & _ & A & B & _); auto; try discriminate; try (rewrite F_length; auto); [rewrite repeat_length; lia|constructor].
    - destruct (C82_bad_axis lf (F ls) dummy f s (Arr (vec dummy))) as (_ & _ & A & B & _); auto; [discriminate|constructor]. }
  split; apply R; try (intros Hn; apply J; exact Hn); intros r -> G L.
  - eexists. apply time2freq_F; eauto.
  - eexists. apply nyquist_F; eauto.
Qed.
(** the peak routine does not look at the axis: only the lengths are checked *)
Theorem C82_tps (lf ls : list xr) (f s : arraylike NX) :
  lf <> [] -> ls <> [] -> length ls <> length lf -> holds_vector lf f -> holds_vector ls s ->
  compute_tps f s = Raise ValueError.
Proof.
  intros Nf Ns L Hf Hs. destruct (@hv_convert (car NX) _ _ Nf Hf) as (k1 & K1 & E1). destruct (@hv_convert (car NX) _ _ Ns Hs) as (k2 & K2 & E2).
  unfold compute_tps. rewrite E1, E2. cbn [fst snd].
  replace (Nat.ltb 1 k1) with false by (symmetry; apply Nat.ltb_ge; lia).
  replace (Nat.ltb 1 k2) with false by (symmetry; apply Nat.ltb_ge; lia). cbn [orb].
  rewrite as_list_vec, !bind_Ok. cbn [negb]. destruct (Nat.eqb_spec (@length (car NX) lf) (@length (car NX) ls)); [exfalso; apply L; symmetry; assumption|]. reflexivity.
Qed.

(** ** The time-domain functions *)
Theorem C82_zero_crossing (t x : arraylike NX) (s : string) :
  not_1d t \/ not_1d x -> determine_zero_crossing t x s = Raise ValueError.
Proof.
  intros H. unfold determine_zero_crossing. destruct H as [H|H]; rewrite (not_1d_false _ H); [reflexivity|].
  destruct (is1darray (convert_to_array_type t)); reflexivity.
Qed.
Theorem C82_highest (h t : arraylike NX) (p : xr) : not_1d h \/ not_1d t -> highest_waves_params h t p = Raise ValueError.
Proof.
  intros H. unfold highest_waves_params. destruct H as [H|H]; rewrite (not_1d_false _ H); [reflexivity|].
  destruct (is1darray (convert_to_array_type h)); reflexivity.
Qed.
Theorem C82_exceedance (h : arraylike NX) (p : xr) : not_1d h -> exceedance_wave_height h p = Raise ValueError.
Proof. intros H. unfold exceedance_wave_height. rewrite (not_1d_false _ H). reflexivity. Qed.
(** individual waves: without crossings no check is made and there are no waves; otherwise all three must be
    1-D and the signal as long as its time axis *)
Theorem C82_individual_waves (c t x : arraylike NX) :
  (asize (convert_to_array_type c) = 0%nat -> determine_params_individual_waves c t x = Ok [])
  /\ (asize (convert_to_array_type c) <> 0%nat -> not_1d c \/ not_1d t \/ not_1d x ->
      determine_params_individual_waves c t x = Raise ValueError)
  /\ (forall lc lt lx, c = Arr (vec lc) -> t = Arr (vec lt) -> x = Arr (vec lx) -> lc <> [] -> length lt <> length lx ->
      determine_params_individual_waves c t x = Raise ValueError).
Proof.
  unfold determine_params_individual_waves. split; [intros ->; reflexivity|]. split.
  - intros H. apply Nat.eqb_neq in H. rewrite H. intros [H1|[H1|H1]]; rewrite (not_1d_false _ H1); [reflexivity| |];
    destruct (is1darray (convert_to_array_type c)); try reflexivity; destruct (is1darray (convert_to_array_type t)); reflexivity.
  - intros lc lt lx -> -> -> Hc Hl. cbn [convert_to_array_type]. rewrite asize_vec.
    destruct (Nat.eqb_spec (length lc) 0); [destruct lc; [congruence|discriminate]|].
    destruct (is1darray (vec lc)); [|reflexivity]. destruct (is1darray (vec lt)); [|reflexivity].
    destruct (is1darray (vec lx)); [|reflexivity]. cbn [negb]. rewrite !as_list_vec, !bind_Ok.
    replace (Nat.eqb (length lt) (length lx)) with false by (symmetry; apply Nat.eqb_neq; auto). reflexivity.
Qed.

(** ** Synthesis: a two-column frequency or density array *)
Theorem C82_synthesis (RS : Type) (rng_seed : Z -> RS) (rng_rand : RS -> nat -> list NX * RS) (rs : RS)
        (f s : arraylike NX) (tInit tEnd dt : xr) (seed : Z) :
  is_matrix f \/ is_matrix s ->
  spectrum2timeseries RS rng_seed rng_rand rs f s tInit tEnd dt seed = Raise ValueError.
Proof.
  intros H. unfold spectrum2timeseries.
  destruct (convert_to_vector f) as [f1 [n1 m1]] eqn:E1. destruct (convert_to_vector s) as [s1 [n2 m2]] eqn:E2. cbn [snd].
  replace (Nat.ltb 1 m1 || Nat.ltb 1 m2)%bool with true; [reflexivity|]. symmetry.
  destruct H as [H|H]; destruct (matrix_convert _ H) as (? & ? & ? & Hm & E); rewrite E in *.
  - injection E1; intros; subst. rewrite gt1 by auto. reflexivity.
  - injection E2; intros; subst. rewrite (gt1 m2) by auto. apply orb_true_r.
Qed.

(** and so are times that are not all finite (np.arange cannot count the samples) *)
Definition is_finite (v : xr) : Prop := exists r, v = Fin r.
Theorem C82_synthesis_times (RS : Type) (rng_seed : Z -> RS) (rng_rand : RS -> nat -> list NX * RS) (rs : RS)
        (lf ls : list xr) (f s : arraylike NX) (tInit tEnd dt : xr) (seed : Z) :
  lf <> [] -> ls <> [] -> length ls = length lf -> holds_vector lf f -> holds_vector ls s ->
  dt <> Fin 0 -> ~ (is_finite tInit /\ is_finite tEnd /\ is_finite dt) ->
  spectrum2timeseries RS rng_seed rng_rand rs f s tInit tEnd dt seed = Raise ValueError.
Proof.
  intros Nf Ns L Hf Hs Nd H. destruct (@hv_convert (car NX) _ _ Nf Hf) as (k1 & K1 & E1). destruct (@hv_convert (car NX) _ _ Ns Hs) as (k2 & K2 & E2).
  unfold spectrum2timeseries. rewrite E1, E2. cbn [fst snd].
  replace (Nat.ltb 1 k1) with false by (symmetry; apply Nat.ltb_ge; lia).
  replace (Nat.ltb 1 k2) with false by (symmetry; apply Nat.ltb_ge; lia). cbn [orb].
  replace (Nat.eqb (@length (car NX) lf) (@length (car NX) ls)) with true by (symmetry; apply Nat.eqb_eq; symmetry; exact L). cbn [negb].
  rewrite as_list_vec, bind_Ok.
  assert (A : np_arange (N:=NX) tInit (nadd (n:=NX) tEnd dt) dt = Raise ValueError).
  { unfold np_arange. replace (neqb (n:=NX) dt (n0 (N:=NX))) with false.
    2:{ symmetry. destruct dt as [d| | |]; try reflexivity. rewrite fin_0, fin_eqb. destruct (Reqb_spec d 0); [congruence|reflexivity]. }
    replace (nceil (N:=NX) (ndiv (n:=NX) (nsub (n:=NX) (nadd (n:=NX) tEnd dt) tInit) dt)) with (@None Z); [reflexivity|]. symmetry.
    destruct tInit as [a| | |], tEnd as [b| | |], dt as [d| | |]; try reflexivity;
    try (exfalso; apply H; unfold is_finite; split; [|split]; eexists; reflexivity);
    cbn; destruct (Reqb_spec d 0); try congruence; destruct (Rlt_dec d 0); reflexivity. }
  rewrite A. reflexivity.
Qed.
(** freq2time of an empty list of components is a ValueError *)
Theorem C82_no_components : freq2time (N:=NX) (Arr (vec [])) = Raise ValueError.
Proof. reflexivity. Qed.

Example C82_witness :
  ~ usable_axis (F [0; 1; 1]) /\ ~ usable_axis [Fin 0; Fin 1; NaN] /\ usable_axis (F (axis 0 (1/2) 4))
  /\ not_1d (Arr (mkArr [2; 2]%nat (F [1; 2; 3; 4]))) /\ is_matrix (Arr (mkArr [2; 2]%nat (F [1; 2; 3; 4]))).
Proof.
  split; [|split; [|split; [|split]]].
  - intros (r & E & G). apply F_inj in E. subst r. destruct G as [_ G]. specialize (G 1%nat ltac:(cbn; lia)). cbn in G. lra.
  - intros (r & E & G). destruct r as [|a [|b [|c r]]]; discriminate.
  - exists (axis 0 (1/2) 4). split; [reflexivity|]. apply axis_good; [lia|lra].
  - exists (mkArr [2; 2]%nat (F [1; 2; 3; 4])). split; [reflexivity|]. right. exists 2%nat, 2%nat. reflexivity.
  - exists 2%nat, 2%nat, (F [1; 2; 3; 4]). split; [lia|]. split; [lia|]. reflexivity.
Qed.
