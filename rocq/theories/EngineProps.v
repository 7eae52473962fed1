(** * Properties of core_engine.py: C01, C02, C03 *)

From Coq Require Import Reals ZArith String List Bool Lra Lia.
From Verif Require Import Num XR Spec XRFacts Engine Cpx TimeModel SpectralModel WaveModel
  DisperModel DecompModel SpectrumModel SeriesModel.
Import ListNotations.
Open Scope R_scope.

(** ** C01 Array input normalisation *)

(** [x] is one of the accepted ways to pass the 1-D values [l] *)
Inductive holds_vector {A} (l : list A) : arraylike A -> Prop :=
| hv_flat : holds_vector l (Arr (vec l))
| hv_column : holds_vector l (Arr (colvec l))
| hv_scalar v : l = [v] -> holds_vector l (Scalar v).
(** [x] is a 2-D array with n >= 1 rows and m >= 2 columns *)
Definition is_matrix {A} (x : arraylike A) : Prop :=
  exists n m d, (1 <= n)%nat /\ (2 <= m)%nat /\ x = Arr (mkArr [n; m] d).

Lemma asize_vec {A} (l : list A) : asize (vec l) = length l.
Proof. unfold asize, vec; cbn. lia. Qed.
Lemma asize_col {A} (l : list A) : asize (colvec l) = length l.
Proof. unfold asize, colvec; cbn. lia. Qed.

Theorem C01_convert_to_vector {A} (l : list A) (x : arraylike A) :
  l <> [] -> holds_vector l x ->
  fst (convert_to_vector x) = vec l /\ fst (snd (convert_to_vector x)) = length l
  /\ (snd (snd (convert_to_vector x)) <= 1)%nat.
Proof.
  intros Hne H. assert (Hl : (0 < length l)%nat) by (destruct l; [congruence|cbn; lia]).
  destruct H as [| |v ->].
  - unfold convert_to_vector; cbn [convert_to_array_type]. unfold size_. rewrite asize_vec.
    destruct (Nat.eqb_spec (length l) 0); [lia|]. cbn. auto.
  - unfold convert_to_vector; cbn [convert_to_array_type]. unfold size_. rewrite asize_col.
    destruct (Nat.eqb_spec (length l) 0); [lia|]. cbn [snd colvec shape fst Nat.eqb data]. auto.
  - cbn. auto.
Qed.

Theorem C01_matrix_untouched {A} (x : arraylike A) :
  is_matrix x -> Arr (fst (convert_to_vector x)) = x /\ (2 <= snd (snd (convert_to_vector x)))%nat.
Proof.
  intros (n & m & d & Hn & Hm & ->). unfold convert_to_vector; cbn [convert_to_array_type].
  unfold size_, asize; cbn [shape fold_right].
  destruct (Nat.eqb_spec (n * (m * 1)) 0); [nia|]. cbn [snd fst].
  destruct (Nat.eqb_spec m 1); [lia|]. auto.
Qed.

Lemma hv_convert {A} (l : list A) x : l <> [] -> holds_vector l x ->
  exists k, (k <= 1)%nat /\ convert_to_vector x = (vec l, (length l, k)).
Proof.
  intros Hne H. destruct (C01_convert_to_vector l x Hne H) as (H1 & H2 & H3).
  destruct (convert_to_vector x) as [a [p q]]; cbn in *. subst. eauto.
Qed.
Lemma matrix_convert {A} (x : arraylike A) : is_matrix x ->
  exists a n m, (2 <= m)%nat /\ convert_to_vector x = (a, (n, m)).
Proof.
  intros H. destruct (C01_matrix_untouched x H) as (_ & H2).
  destruct (convert_to_vector x) as [a [p q]]; cbn in *. eauto.
Qed.

Ltac norm_hv :=
  repeat match goal with
  | H : holds_vector ?l ?x, Hn : ?l <> [] |- _ =>
      let k := fresh "k" in let Hk := fresh "Hk" in let E := fresh "E" in
      destruct (hv_convert l x Hn H) as (k & Hk & E);
      assert (Nat.ltb 1 k = false) by (apply Nat.ltb_ge; lia);
      let k' := fresh "k" in let Hk' := fresh "Hk" in let E' := fresh "E" in
      destruct (hv_convert l (Arr (vec l)) Hn (hv_flat l)) as (k' & Hk' & E');
      assert (Nat.ltb 1 k' = false) by (apply Nat.ltb_ge; lia);
      clear H
  end.
Ltac use_eqs := repeat match goal with E : convert_to_vector _ = _ |- _ => rewrite E in *; clear E end;
  cbn [fst snd] in *; repeat match goal with E : Nat.ltb 1 _ = false |- _ => rewrite E in *; clear E end;
  cbn [orb]; try reflexivity.

Lemma hv_alen {A} (l : list A) x : holds_vector l x -> alen x = length l.
Proof. intros [| |v ->]; reflexivity. Qed.

(** every function that normalises its input treats the three forms alike *)
Theorem C01_interchangeable_wave (lf ls : list NX) (f s : arraylike NX) :
  lf <> [] -> ls <> [] -> holds_vector lf f -> holds_vector ls s ->
  (forall m fmin fmax,
     compute_moment f s m fmin fmax = compute_moment (Arr (vec lf)) (Arr (vec ls)) m fmin fmax)
  /\ (forall fmin fmax,
     compute_spectrum_params f s fmin fmax
     = compute_spectrum_params (Arr (vec lf)) (Arr (vec ls)) fmin fmax)
  /\ compute_tps f s = compute_tps (Arr (vec lf)) (Arr (vec ls))
  /\ tpd f s = tpd (Arr (vec lf)) (Arr (vec ls))
  /\ (forall fp hm0 g l, create_spectrum_jonswap f fp hm0 g l
                         = create_spectrum_jonswap (Arr (vec lf)) fp hm0 g l)
  /\ (forall fp hm0 g l, create_spectrum_piersonmoskowitz f fp hm0 g l
                         = create_spectrum_piersonmoskowitz (Arr (vec lf)) fp hm0 g l)
  /\ spectrum_init f s = spectrum_init (Arr (vec lf)) (Arr (vec ls))
  /\ series_init f s = series_init (Arr (vec lf)) (Arr (vec ls))
  /\ wh_init f s = wh_init (Arr (vec lf)) (Arr (vec ls)).
Proof.
  intros Hf Hs HF HS. norm_hv.
  repeat split; intros.
  - unfold compute_moment. use_eqs.
  - unfold compute_spectrum_params. rewrite E, E0, E1, E2. cbn [fst snd]. rewrite H, H0, H1, H2. reflexivity.
  - unfold compute_tps. use_eqs.
  - unfold tpd. rewrite E, E0, E1, E2. reflexivity.
  - unfold create_spectrum_jonswap. use_eqs.
  - unfold create_spectrum_piersonmoskowitz. rewrite E1, E2 || rewrite E, E0. reflexivity.
  - unfold spectrum_init. use_eqs.
  - unfold series_init. use_eqs.
  - unfold wh_init. use_eqs.
Qed.

Theorem C01_interchangeable_spectral (lf ls : list NX) (lx : list (cpx NX))
        (f s : arraylike NX) (x : arraylike (cpx NX)) :
  lf <> [] -> ls <> [] -> lx <> [] ->
  holds_vector lf f -> holds_vector ls s -> holds_vector lx x ->
  (forall df, frequency_averaging f s df = frequency_averaging (Arr (vec lf)) (Arr (vec ls)) df)
  /\ (forall b, unfold_spectrum f x b = unfold_spectrum (Arr (vec lf)) (Arr (vec lx)) b)
  /\ freq2time x = freq2time (Arr (vec lx))
  /\ time2freq f s = time2freq (Arr (vec lf)) (Arr (vec ls))
  /\ time2freq_nyquist f s = time2freq_nyquist (Arr (vec lf)) (Arr (vec ls))
  /\ (forall df, compute_spectrum_time_series f s df
                 = compute_spectrum_time_series (Arr (vec lf)) (Arr (vec ls)) df)
  /\ (forall n df, compute_spectrum_freq_series f x n df
                 = compute_spectrum_freq_series (Arr (vec lf)) (Arr (vec lx)) n df)
  /\ (forall fl fh, bandpassfilter f s fl fh = bandpassfilter (Arr (vec lf)) (Arr (vec ls)) fl fh).
Proof.
  intros Hf Hs Hx HF HS HX.
  assert (HA : alen f = alen (Arr (vec lf))) by (rewrite (hv_alen lf); auto).
  norm_hv.
  assert (Hny : time2freq_nyquist f s = time2freq_nyquist (Arr (vec lf)) (Arr (vec ls))).
  { unfold time2freq_nyquist. use_eqs. }
  repeat split; intros; auto.
  - unfold frequency_averaging. use_eqs.
  - unfold unfold_spectrum. use_eqs.
  - unfold freq2time. use_eqs.
  - unfold time2freq. use_eqs.
  - unfold compute_spectrum_time_series. rewrite Hny, HA. reflexivity.
  - unfold compute_spectrum_freq_series. use_eqs.
  - unfold bandpassfilter. rewrite Hny. reflexivity.
Qed.

Ltac matrix_reject :=
  match goal with H : is_matrix _ |- _ =>
      let Hm := fresh in let E := fresh in
      destruct (matrix_convert _ H) as (? & ? & m0 & Hm & E);
      rewrite ?E; 
      assert (Nat.ltb 1 m0 = true) as -> by (apply Nat.ltb_lt; lia) || idtac
  end.
Lemma gt1 m : (2 <= m)%nat -> Nat.ltb 1 m = true. Proof. intros; apply Nat.ltb_lt; lia. Qed.

(** arrays with two or more columns are rejected, in either argument *)
Theorem C01_matrix_rejected (f s : arraylike NX) (x : arraylike (cpx NX)) :
  is_matrix f \/ is_matrix s ->
  (forall m fmin fmax, compute_moment f s m fmin fmax = Raise ValueError)
  /\ (forall fmin fmax, compute_spectrum_params f s fmin fmax = Raise ValueError)
  /\ compute_tps f s = Raise ValueError
  /\ (forall df, frequency_averaging f s df = Raise ValueError)
  /\ time2freq f s = Raise ValueError
  /\ time2freq_nyquist f s = Raise ValueError
  /\ (forall df, compute_spectrum_time_series f s df = Raise ValueError)
  /\ (forall fl fh, bandpassfilter f s fl fh = Raise ValueError).
Proof.
  intros H.
  assert (HH : exists f1 n1 m1 s1 n2 m2, convert_to_vector f = (f1, (n1, m1))
            /\ convert_to_vector s = (s1, (n2, m2)) /\ (Nat.ltb 1 m1 || Nat.ltb 1 m2 = true)%bool).
  { destruct (convert_to_vector f) as [f1 [n1 m1]] eqn:E1.
    destruct (convert_to_vector s) as [s1 [n2 m2]] eqn:E2.
    exists f1, n1, m1, s1, n2, m2. repeat split; auto.
    destruct H as [H|H]; destruct (matrix_convert _ H) as (? & ? & ? & Hm & E); rewrite E in *.
    - injection E1; intros; subst. rewrite gt1 by auto. reflexivity.
    - injection E2; intros; subst. rewrite (gt1 m2) by auto. apply orb_true_r. }
  destruct HH as (f1 & n1 & m1 & s1 & n2 & m2 & E1 & E2 & E).
  assert (Hny : time2freq_nyquist f s = Raise ValueError).
  { unfold time2freq_nyquist. rewrite E1, E2. cbn [snd]. rewrite E. reflexivity. }
  repeat split; intros; auto.
  - unfold compute_moment. rewrite E1, E2. cbn [snd]. rewrite E. reflexivity.
  - unfold compute_spectrum_params. rewrite E1, E2. cbn [snd]. rewrite E. reflexivity.
  - unfold compute_tps. rewrite E1, E2. cbn [snd]. rewrite E. reflexivity.
  - unfold frequency_averaging. rewrite E1, E2. cbn [snd]. rewrite E. reflexivity.
  - unfold time2freq. rewrite E1, E2. cbn [snd]. rewrite E. reflexivity.
  - unfold compute_spectrum_time_series. rewrite Hny. reflexivity.
  - unfold bandpassfilter. rewrite Hny. reflexivity.
Qed.
Theorem C01_matrix_rejected_complex (f : arraylike NX) (x : arraylike (cpx NX)) :
  is_matrix f \/ is_matrix x ->
  (forall b, unfold_spectrum f x b = Raise ValueError)
  /\ (forall n df, compute_spectrum_freq_series f x n df = Raise ValueError)
  /\ (is_matrix x -> freq2time x = Raise ValueError)
  /\ (is_matrix f -> forall fp hm0 g l, create_spectrum_jonswap f fp hm0 g l = Raise ValueError
                                       /\ create_spectrum_piersonmoskowitz f fp hm0 g l = Raise ValueError).
Proof.
  intros H.
  assert (HH : exists f1 n1 m1 s1 n2 m2, convert_to_vector f = (f1, (n1, m1))
            /\ convert_to_vector x = (s1, (n2, m2)) /\ (Nat.ltb 1 m1 || Nat.ltb 1 m2 = true)%bool).
  { destruct (convert_to_vector f) as [f1 [n1 m1]] eqn:E1.
    destruct (convert_to_vector x) as [s1 [n2 m2]] eqn:E2.
    exists f1, n1, m1, s1, n2, m2. repeat split; auto.
    destruct H as [H|H]; destruct (matrix_convert _ H) as (? & ? & ? & Hm & E); rewrite E in *.
    - injection E1; intros; subst. rewrite gt1 by auto. reflexivity.
    - injection E2; intros; subst. rewrite (gt1 m2) by auto. apply orb_true_r. }
  destruct HH as (f1 & n1 & m1 & s1 & n2 & m2 & E1 & E2 & E).
  repeat split; intros; auto.
  - unfold unfold_spectrum. rewrite E1, E2. cbn [snd]. rewrite E. reflexivity.
  - unfold compute_spectrum_freq_series. rewrite E1, E2. cbn [snd]. rewrite E. reflexivity.
  - unfold freq2time. destruct (matrix_convert _ H0) as (? & ? & ? & Hm & E3). rewrite E3. cbn [snd].
    rewrite gt1 by auto. reflexivity.
  - unfold create_spectrum_jonswap. destruct (matrix_convert _ H0) as (? & ? & ? & Hm & E3). rewrite E3. cbn [snd].
    rewrite gt1 by auto. destruct (Nat.eqb _ 0); reflexivity.
  - assert (U := proj1 (C01_matrix_untouched f H0)). unfold create_spectrum_piersonmoskowitz. destruct (convert_to_vector f) as [g1 q] eqn:Eg.
    cbn [fst] in U. rewrite U. unfold create_spectrum_jonswap. destruct (matrix_convert _ H0) as (? & ? & ? & Hm & E3). rewrite E3. cbn [snd].
    rewrite gt1 by auto. destruct (Nat.eqb _ 0); reflexivity.
Qed.

(** the exception: spectrum2timeseries does not treat an (n,1) density like a flat one *)
Theorem C01_column_density_refuted (rs : unit) (rng_seed : Z -> unit)
        (rng_rand : unit -> nat -> list NX * unit) :
  exists lf ls : list NX, ls <> [] /\
    (forall r, spectrum2timeseries unit rng_seed rng_rand rs (Arr (vec lf)) (Arr (colvec ls))
                 (Fin 0) (Fin 1) (Fin 1) (-1) <> Ok r)
    /\ holds_vector ls (Arr (colvec ls)).
Proof.
  exists (F [0; 1]), (F [1; 1]). split; [discriminate|]. split; [|constructor].
  intros r. unfold spectrum2timeseries.
  cbn [convert_to_vector convert_to_array_type vec colvec size_ asize shape fold_right F map length Nat.mul Nat.add Nat.eqb fst snd data as_list bind].
  change (Nat.ltb 1 0 || Nat.ltb 1 1)%bool with false. cbn [negb].
  destruct (np_arange (Fin 0) _ _); [|discriminate]. cbn [bind].
  match goal with |- (if ?c then _ else _) <> _ => destruct c end; [discriminate|].
  match goal with |- bind ?m _ <> _ => destruct m end; [|discriminate]. cbn [bind]. discriminate.
Qed.

Example C01_witness : holds_vector (F [1; 2; 3]) (Arr (colvec (F [1; 2; 3])))
  /\ is_matrix (Arr (mkArr [2; 2]%nat (F [1; 2; 3; 4]))).
Proof. split; [constructor|]. exists 2%nat, 2%nat, (F [1;2;3;4]). repeat split; lia. Qed.

(** ** C02 Uniform-axis validation *)

Lemma forallb_F_iff (p : xr -> bool) l :
  forallb p (F l) = true <-> forall i, (i < length l)%nat -> p (Fin (nth i l 0)) = true.
Proof.
  rewrite forallb_forall. split.
  - intros H i Hi. apply H. rewrite <- F_nth. apply nth_In. rewrite F_length; auto.
  - intros H x Hx. unfold F in Hx. apply in_map_iff in Hx as (r & <- & Hr).
    apply (In_nth _ _ 0) in Hr as (i & Hi & <-). auto.
Qed.
Lemma uniform_tol_fin : uniform_tol (N:=NX) = Fin (1000000 / 2 ^ 52).
Proof. unfold uniform_tol. rewrite fin_lit; [|apply not_0_IZR; discriminate]. f_equal. f_equal.
  change (2 ^ 52)%Z with 4503599627370496%Z. lra. Qed.

(** exact characterisation of the accepted finite axes *)
Theorem C02_accepts_iff (l : list R) :
  (2 <= length l)%nat ->
  exists b, monotonic_increasing_constant_step (F l) = Ok b
  /\ (b = true <->
      forall i, (S i < length l)%nat ->
        nth i l 0 < nth (S i) l 0
        /\ nth (S i) l 0 - nth i l 0 < (nth 1 l 0 - nth 0 l 0) + 1000000 / 2 ^ 52).
Proof.
  intros H. unfold monotonic_increasing_constant_step. rewrite ndiff_F, idx_F by (rewrite Rdiff_length; lia).
  rewrite bind_Ok. eexists; split; [reflexivity|].
  rewrite Rdiff_nth by lia.
  rewrite andb_true_iff, !forallb_F_iff, Rdiff_length. split.
  - intros [H1 H2] i Hi. specialize (H1 i ltac:(lia)). specialize (H2 i ltac:(lia)).
    rewrite Rdiff_nth in H1, H2 by lia. rewrite fin_0, fin_ltb in H1.
    rewrite uniform_tol_fin, fin_sub, fin_ltb in H2.
    destruct (Rltb_spec 0 (nth (S i) l 0 - nth i l 0)); [|discriminate].
    match type of H2 with Rltb ?a ?b = true => destruct (Rltb_spec a b); [|discriminate] end.
    split; lra.
  - intros H1. split; intros i Hi; destruct (H1 i ltac:(lia)) as [Ha Hb]; rewrite Rdiff_nth by lia.
    + rewrite fin_0, fin_ltb. apply Rltb_true. lra.
    + rewrite uniform_tol_fin, fin_sub, fin_ltb. apply Rltb_true. lra.
Qed.

Theorem C02_uniform_accepted (t0 dt : R) (n : nat) :
  (2 <= n)%nat -> 0 < dt -> monotonic_increasing_constant_step (F (axis t0 dt n)) = Ok true.
Proof.
  intros Hn Hdt. destruct (C02_accepts_iff (axis t0 dt n)) as (b & -> & Hb); [rewrite axis_length; auto|].
  f_equal. apply Hb. intros i Hi. rewrite axis_length in Hi.
  rewrite !axis_nth by lia. rewrite S_INR. change (INR 1) with 1. change (INR 0) with 0.
  assert (0 < 1000000 / 2 ^ 52) by (apply Rdiv_lt_0_compat; [lra|apply pow_lt; lra]). split; lra.
Qed.
Theorem C02_non_increasing_rejected (l : list R) :
  (2 <= length l)%nat -> ~ increasing l -> monotonic_increasing_constant_step (F l) = Ok false.
Proof.
  intros Hn Hi. destruct (C02_accepts_iff l Hn) as (b & -> & Hb). f_equal.
  destruct b; [|reflexivity]. exfalso. apply Hi.
  assert (H := proj1 Hb eq_refl). clear -H.
  intros i j Hij. assert (exists d, j = (i + S d)%nat) as (d & ->) by (exists (j - i - 1)%nat; lia).
  induction d.
  - replace (i + 1)%nat with (S i) in * by lia. apply H; lia.
  - apply Rlt_trans with (nth (i + S d) l 0); [apply IHd; lia|].
    replace (i + S (S d))%nat with (S (i + S d)) in * by lia. apply H; lia.
Qed.
(** accepted axes, whatever they contain, contain only finite numbers and are strictly increasing *)
Theorem C02_accepted_finite (l : list xr) :
  monotonic_increasing_constant_step (N:=NX) l = Ok true ->
  exists r, l = F r /\ increasing r /\ (2 <= length r)%nat.
Proof.
  intros H. unfold monotonic_increasing_constant_step in H.
  apply bind_inv in H as (d0 & Hd0 & H). apply Ok_inj in H.
  apply andb_true_iff in H as [H1 H2].
  rewrite forallb_forall in H1, H2.
  assert (Hfin : forall d, In d (ndiff (N:=NX) l) -> exists r, d = Fin r).
  { intros d Hd. assert (A := H1 d Hd). assert (B := H2 d Hd).
    assert (Hd0' : In d0 (ndiff (N:=NX) l)).
    { apply (idx_inv _ _ _ (Fin 0)) in Hd0 as [Hlt ->]. apply nth_In; auto. }
    assert (A0 := H1 d0 Hd0'). assert (B0 := H2 d0 Hd0'). rewrite uniform_tol_fin in B, B0.
    destruct d as [r| | |]; eauto; destruct d0; cbn in *; discriminate. }
  assert (Hall : (2 <= length l)%nat /\ forall v, In v l -> exists r, v = Fin r).
  { clear H1 H2. assert (Hne : ndiff (N:=NX) l <> []) by (intros E; rewrite E in Hd0; discriminate).
    clear Hd0. destruct l as [|x l]; [contradiction|].
    revert x Hfin Hne; induction l as [|y l IH]; intros x Hfin Hne; [contradiction|].
    assert (Hxy : exists r, nsub (n:=NX) y x = Fin r) by (apply Hfin; left; reflexivity).
    assert (Hx : exists r, x = Fin r) by (destruct Hxy as (r & Hr); destruct x; eauto; destruct y; discriminate).
    assert (Hy : exists r, y = Fin r) by (destruct Hxy as (r & Hr); destruct y; eauto; destruct x; discriminate).
    split; [cbn; lia|].
    destruct l as [|z l]; [intros v [<-|[<-|[]]]; auto|].
    destruct (IH y) as [_ IH2].
    - intros d Hd. apply Hfin. right. exact Hd.
    - discriminate.
    - intros v [<-|Hv]; auto. }
  destruct Hall as [Hlen Hall].
  assert (exists r, l = F r) as (r & ->).
  { clear -Hall. induction l as [|x l IH]; [exists []; reflexivity|].
    destruct (Hall x (or_introl eq_refl)) as (a & ->).
    destruct IH as (r & ->); [intros; apply Hall; right; auto|]. exists (a :: r); reflexivity. }
  exists r. rewrite F_length in Hlen. split; [reflexivity|]. split; [|auto].
  destruct (C02_accepts_iff r Hlen) as (b & Hb1 & Hb2).
  unfold monotonic_increasing_constant_step in Hb1. rewrite Hd0, bind_Ok in Hb1. apply Ok_inj in Hb1.
  assert (b = true) as -> by (rewrite <- Hb1; apply andb_true_iff; split; apply forallb_forall; auto).
  assert (HH := proj1 Hb2 eq_refl). clear -HH. rename HH into H.
  intros i j Hij. assert (exists d, j = (i + S d)%nat) as (d & ->) by (exists (j - i - 1)%nat; lia).
  induction d.
  - replace (i + 1)%nat with (S i) in * by lia. apply H; lia.
  - apply Rlt_trans with (nth (i + S d) r 0); [apply IHd; lia|].
    replace (i + S (S d))%nat with (S (i + S d)) in * by lia. apply H; lia.
Qed.
Theorem C02_short_axis (l : list xr) :
  (length l < 2)%nat -> monotonic_increasing_constant_step (N:=NX) l = Raise IndexError.
Proof. destruct l as [|x [|y l]]; cbn; intros; try reflexivity; lia. Qed.

(** "it should also reject every axis whose step is not constant" is false: shrinking steps pass *)
Theorem C02_nonuniform_rejected_refuted :
  ~ (forall l : list R, (2 <= length l)%nat ->
       (exists i, (S i < length l)%nat
          /\ Rabs ((nth (S i) l 0 - nth i l 0) - (nth 1 l 0 - nth 0 l 0)) > 1000000 / 2 ^ 52) ->
       monotonic_increasing_constant_step (F l) = Ok false).
Proof.
  intros H. specialize (H [0; 1; 3/2] ltac:(cbn; lia)).
  destruct (C02_accepts_iff [0; 1; 3/2] ltac:(cbn; lia)) as (b & Hb & Hiff).
  assert (Ht : 0 < 1000000 / 2 ^ 52 < 1/4) by (split; lra).
  assert (b = true).
  { apply Hiff. intros i Hi. cbn [length] in Hi. destruct i as [|[|]]; [| |lia]; cbn [nth]; lra. }
  subst. rewrite Hb in H. enough (Ok true = Ok false) by discriminate. apply H.
  exists 1%nat. split; [cbn; lia|]. cbn [nth]. rewrite Rabs_left; lra.
Qed.
Example C02_witness : (2 <= 5)%nat /\ 0 < 1/10 /\ (2 <= length [0; 1; 1])%nat /\ ~ increasing [0; 1; 1].
Proof.
  repeat split; try lra; cbn; try lia. intros H. specialize (H 1%nat 2%nat ltac:(cbn; lia)). cbn in H. lra.
Qed.

(** ** C03 Nearest-index lookup *)

Lemma argmin_from_spec (l : list R) : forall k best bv,
  exists i, argmin_from (N:=NX) k best (Fin bv) (F l) = i
   /\ ((i = best /\ forall j, (j < length l)%nat -> bv <= nth j l 0)
       \/ (exists j, i = (k + j)%nat /\ (j < length l)%nat /\ nth j l 0 < bv
             /\ (forall m, (m < length l)%nat -> nth j l 0 <= nth m l 0)
             /\ (forall m, (m < j)%nat -> nth j l 0 < nth m l 0))).
Proof.
  induction l as [|x l IH]; intros k best bv; cbn [F map argmin_from].
  - eexists; split; [reflexivity|]. left; split; [reflexivity|]. cbn; lia.
  - rewrite !fin_nan. cbn [orb]. rewrite fin_ltb. destruct (Rltb_spec x bv) as [Hlt|Hge].
    + destruct (IH (S k) k x) as (i & Ei & Hi). change (map Fin l) with (F l). rewrite Ei. eexists; split; [reflexivity|].
      right. destruct Hi as [[-> Hmin]|(j & -> & Hj & Hjx & Hmin & Hfirst)].
      * exists 0%nat. split; [lia|]. cbn [nth length]. repeat split; try lia; auto.
        intros [|m] Hm; [cbn; lra|]. apply Hmin; lia.
      * exists (S j). cbn [nth length]. repeat split; try lia; try lra.
        -- intros [|m] Hm; [cbn; lra|]. apply Hmin; lia.
        -- intros [|m] Hm; [cbn; lra|]. apply Hfirst; lia.
    + apply Rnot_lt_le in Hge. destruct (IH (S k) best bv) as (i & Ei & Hi). change (map Fin l) with (F l).
      rewrite Ei. eexists; split; [reflexivity|].
      destruct Hi as [[-> Hmin]|(j & -> & Hj & Hjx & Hmin & Hfirst)].
      * left. split; [reflexivity|]. intros [|j] Hj; cbn in *; [lra|]. apply Hmin; lia.
      * right. exists (S j). cbn [nth length]. repeat split; try lia; try lra.
        -- intros [|m] Hm; [cbn; lra|]. apply Hmin; lia.
        -- intros [|m] Hm; [cbn; lra|]. apply Hfirst; lia.
Qed.
Lemma argmin_spec (l : list R) : l <> [] ->
  exists i, argmin (F l) = Ok i /\ (i < length l)%nat
   /\ (forall m, (m < length l)%nat -> nth i l 0 <= nth m l 0)
   /\ (forall m, (m < i)%nat -> nth i l 0 < nth m l 0).
Proof.
  destruct l as [|x l]; intros H; [contradiction|]. unfold argmin. cbn [F map]. fold (F l).
  destruct (argmin_from_spec l 1 0 x) as (i & -> & Hi). eexists; split; [reflexivity|].
  destruct Hi as [[-> Hmin]|(j & -> & Hj & Hjx & Hmin & Hfirst)]; cbn [nth length Nat.add].
  - repeat split; try lia. intros [|m] Hm; [cbn; lra|]. apply Hmin; lia.
  - repeat split; try lia.
    + intros [|m] Hm; [cbn; lra|]. apply Hmin; lia.
    + intros [|m] Hm; [cbn; lra|]. apply Hfirst; lia.
Qed.

Theorem C03_nearest_index (l : list R) (v : R) :
  l <> [] ->
  exists i, approx_array_index (F l) (Fin v) = Ok i /\ (i < length l)%nat
   /\ (forall m, (m < length l)%nat -> Rabs (nth i l 0 - v) <= Rabs (nth m l 0 - v))
   /\ (forall m, (m < i)%nat -> Rabs (nth i l 0 - v) < Rabs (nth m l 0 - v)).
Proof.
  intros H. unfold approx_array_index. rewrite (F_map (fun a => Rabs (a - v))) by reflexivity.
  destruct (argmin_spec (map (fun a => Rabs (a - v)) l)) as (i & Ei & Hi & Hmin & Hfirst).
  { destruct l; [contradiction|discriminate]. }
  rewrite map_length in *. exists i. split; [exact Ei|]. split; [exact Hi|].
  assert (Hn : forall m, (m < length l)%nat -> nth m (map (fun a => Rabs (a - v)) l) 0 = Rabs (nth m l 0 - v)).
  { intros m Hm. rewrite (nth_indep _ 0 ((fun a => Rabs (a - v)) 0)) by (rewrite map_length; auto).
    rewrite (map_nth (fun a => Rabs (a - v))). reflexivity. }
  split; intros m Hm.
  - specialize (Hmin m Hm). rewrite !Hn in Hmin; auto.
  - specialize (Hfirst m Hm). rewrite !Hn in Hfirst; auto. lia.
Qed.
Theorem C03_fails_only_when_empty (l : list xr) (v : xr) :
  (exists e, approx_array_index (N:=NX) l v = Raise e) <-> l = [].
Proof.
  unfold approx_array_index, argmin. destruct l; cbn; split; intros H; try discriminate; eauto.
  destruct H as (e & H). discriminate.
Qed.
Theorem C03_empty (v : xr) : approx_array_index (N:=NX) [] v = Raise ValueError.
Proof. reflexivity. Qed.
Example C03_witness : [1; 2; 3] <> [] :> list R. Proof. discriminate. Qed.
