(** * C85: objects, and the arrays of the caller they are made from

    A Series, WaveHeights or Spectrum keeps the caller's 1-D arrays as they are (no copy), and copies
    everything else it is given.  So a later assignment of the caller to such an array shows in the
    object, but only in the attributes that are that array: the waves of a Series and the parameters
    stored by a Spectrum stay what they were.  No method ever writes to an array of the caller - also
    not sort(), which gives the object arrays of its own. *)

From Coq Require Import ZArith String List Bool Arith Lia Reals Lra.
From Verif Require Import Num XR Engine Cpx TimeModel SpectralModel WaveModel DisperModel DecompModel
  SpectrumModel SeriesModel Spec XRFacts HeapModel HeapObj HeapSpec HeapObjSpec HeapFacts HeapProps HeapDecomp HeapClaims
  HeapHist EngineProps SeriesProps HeightProps.
Import ListNotations.
Local Open Scope nat_scope.

Section Objects.
  Context {N : Num}.
  Local Notation mem := (mem N).

  Lemma vref_vector (m : mem) r : vref m r -> exists l, vector_of Real m r l.
  Proof. intro K. exists (read Real m r). now apply is_vec_vector. Qed.
  Lemma vector_vref (m : mem) r l : vector_of Real m r l -> vref m r.
  Proof. intro K. apply is_vec_vref with l. now apply vector_is_vec. Qed.
  Lemma own_new (M m : mem) r : own M m r -> length (bufs Real M) <= r_buf r /\ exists l, vector_of Real m r l.
  Proof. intros (H & K). split; [exact H|now apply vref_vector]. Qed.

  (** an array that did not exist in memory [m] *)
  Definition is_new (m : mem) (r : ref) : Prop := length (bufs Real m) <= r_buf r.

  (** *** Series *)
  (** the constructor, series.py:317-340: same object or exception as the value model; nothing of the
      caller is written; a 1-D array is kept, all else copied; the wave heights, the wave periods and
      the crossings are three new arrays *)
  Theorem C85_series_made (m : mem) (time0 x0 : pyarg N) :
    valid_arg Real m time0 -> valid_arg Real m x0 ->
    ends_as m (h_series_init time0 x0) (series_init (argval Real m time0) (argval Real m x0))
      (fun m' o s => hs_view m' o = s /\ kept_or_new m time0 (hs_t o) /\ kept_or_new m x0 (hs_x o) /\
         Forall (is_new m) [hw_h (hs_wh o); hw_t (hs_wh o); hs_tCross o] /\
         NoDup (map r_buf [hw_h (hs_wh o); hw_t (hs_wh o); hs_tCross o])).
  Proof.
    intros Vt Vx. eapply delivers_ends; [|apply series_init_dv; now apply valid_arg_ok].
    intros m' o s (V & S1 & S2 & (H1 & H2 & (H3 & _) & (H4 & _) & (H5 & _)) & ND).
    split; [exact V|]. split; [exact (source_kept _ _ _ _ (vref_shape _ _ H1) S1)|].
    split; [exact (source_kept _ _ _ _ (vref_shape _ _ H2) S2)|]. split; [|exact ND]. unfold is_new. cbn [bufs]. auto.
  Qed.

  (** every later history: assignments of the caller to the elements of any arrays it had when it
      made the object, and calls of methods, in any order.  The object is then what [series_event]
      says; the caller's memory is what the caller wrote; and each further wave statistic is the one
      of that value *)
  Theorem C85_series_history (argsort : list N -> list nat) (m m1 : mem) (time0 x0 : pyarg N) o
          (history : list (event N (series_call N))) M s m2 o2 :
    valid_arg Real m time0 -> valid_arg Real m x0 ->
    h_series_init time0 x0 m = (m1, Ok o) ->
    Forall (callers m) history ->
    run (series_event argsort time0 x0) history (m, hs_view m1 o) = (M, s) ->
    run (h_series_event argsort) history (m1, o) = (m2, o2) ->
    hs_view m2 o2 = s /\ untouched M m2 /\ hs_t o2 = hs_t o /\ hs_x o2 = hs_x o /\
    forall c, snd (h_wh_call argsort c (hs_wh o2) m2) = snd (v_wh_call argsort c (se_wh s)).
  Proof.
    intros Vt Vx Q C RM Rm. apply valid_arg_ok in Vt, Vx.
    pose proof (series_init_dv m time0 x0 Vt Vx) as K. unfold delivers in K. rewrite Q in K.
    destruct (series_init _ _) as [s0|e]; [|destruct K; contradiction].
    destruct K as (E & V & S1 & S2 & Hh & _).
    assert (Fo : follows time0 x0 m (hs_view m1 o) m1 o).
    { split; [exact E|]. split; [exact Vt|]. split; [exact Vx|]. split; [exact Hh|]. split; [reflexivity|].
      destruct Hh as (H1 & H2 & _).
      split; [exact (source_kept _ _ _ _ (vref_shape _ _ H1) S1)|exact (source_kept _ _ _ _ (vref_shape _ _ H2) S2)]. }
    pose proof (series_history_follows argsort time0 x0 history m (hs_view m1 o) m1 o C Fo) as K.
    rewrite RM, Rm in K. destruct K as ((E2 & _ & _ & _ & V2 & _) & Et & Ex).
    split; [exact V2|]. split; [now apply ext_untouched|]. split; [exact Et|]. split; [exact Ex|].
    intro c. pose proof (sim_call argsort c m2 (hs_wh o2)) as K. destruct (h_wh_call argsort c (hs_wh o2) m2) as [[m3 o3] r3].
    cbv zeta in K. destruct K as (_ & _ & R & _). cbn [snd]. rewrite R, <- V2. reflexivity.
  Qed.

  (** what the history does not touch: whatever is written and called, the number of samples and the
      time step stay, and without a new determination of the waves so do the crossings; writes alone
      leave the waves too *)
  Theorem C85_writes_leave_the_waves (argsort : list N -> list nat) (time0 x0 : pyarg N)
          (history : list (event N (series_call N))) (M M' : mem) s s' :
    run (series_event argsort time0 x0) history (M, s) = (M', s') ->
    se_nt s' = se_nt s /\ se_dt s' = se_dt s /\
    (Forall (fun e => match e with Call (SDetermine _ _ _) => False | _ => True end) history -> se_tCross s' = se_tCross s) /\
    (Forall (fun e => match e with Call _ => False | _ => True end) history -> se_wh s' = se_wh s).
  Proof.
    revert M s. induction history as [|e es IH]; intros M s Q.
    - cbn in Q. inversion Q; subst. auto.
    - rewrite run_cons in Q. destruct (series_event argsort time0 x0 e (M, s)) as [M1 s1] eqn:Q1.
      destruct (IH M1 s1 Q) as (A1 & A2 & A3 & A4). clear IH Q.
      destruct e as [A d b i v|[c|ty fc mw]]; cbn [series_event] in Q1; inversion Q1; subst; clear Q1; cbn in A1, A2, A3, A4.
      + split; [exact A1|]. split; [exact A2|]. split; intro F; inversion F; auto.
      + split; [exact A1|]. split; [exact A2|]. split; intro F; inversion F; [auto|contradiction].
      + unfold series_determine in *. destruct (individual_waves _ _ ty fc mw) as [[[ws tc] tall]|e]; cbn in *;
        (split; [exact A1|]; split; [exact A2|]; split; intro F; inversion F; contradiction).
  Qed.

  (** _determine_individual_waves hands back the very arrays the object keeps as its wave heights
      and wave periods (series.py:588-596) *)
  Theorem C85_determine_returns_the_objects_arrays (m : mem) (o : hseries N) ty fc mw m' o' rH rT rAC rAT rTC rTT rc :
    (exists t, vector_of Real m (hs_t o) t) -> (exists x, vector_of Real m (hs_x o) x) ->
    h_series_determine ty fc mw o m = (m', o', Ok (rH, rT, rAC, rAT, rTC, rTT, rc)) ->
    hw_h (hs_wh o') = rH /\ hw_t (hs_wh o') = rT /\ hs_t o' = hs_t o /\ hs_x o' = hs_x o /\
    untouched m m' /\ Forall (is_new m) [rH; rT; rAC; rAT; rTC; rTT; hs_tCross o'; rc] /\
    NoDup (map r_buf [rH; rT; rAC; rAT; rTC; rTT; hs_tCross o'; rc]).
  Proof.
    intros (t & Vt) (x & Vx) Q. apply vector_is_vec in Vt, Vx. unfold h_series_determine in Q.
    pose proof (individual_waves_dv m (hs_t o) (hs_x o) t x ty fc mw Vt Vx) as K. unfold delivers in K.
    unfold hbind at 1 in Q. destruct (h_individual_waves (hs_t o) (hs_x o) ty fc mw m) as [m1 [r1|e]]; [|discriminate].
    destruct (individual_waves t x ty fc mw) as [[[ws kept] tc]|e']; [|destruct K; contradiction].
    destruct r1 as [[[[[[[r1 r2] r3] r4] r5] r6] r7] r8].
    destruct K as (E1 & KH & KT & KAC & KAT & KTC & KTT & KK & KC & ND).
    pose proof (new_is_vec Real _ _ _ _ KH) as IH. pose proof (new_is_vec Real _ _ _ _ KT) as IT.
    unfold hbind in Q. rewrite (wh_init_vec _ _ _ _ _ IH IT) in Q. cbn [hret] in Q. inversion Q; subst. clear Q.
    cbn [hs_wh hw_h hw_t hs_t hs_x hs_tCross]. split; [reflexivity|]. split; [reflexivity|]. split; [reflexivity|].
    split; [reflexivity|]. split; [now apply ext_untouched|]. split; [|exact ND].
    repeat (constructor; [first [apply KH|apply KT|apply KAC|apply KAT|apply KTC|apply KTT|apply KK|apply KC]|]). constructor.
  Qed.

  (** get_bandpassfilter, series.py:484-499: the filtered series and the original have one time array
      between them, and share nothing else *)
  Theorem C85_bandpass_shares_the_time (m : mem) (o : hseries N) fmin fmax :
    (exists t, vector_of Real m (hs_t o) t) -> (exists x, vector_of Real m (hs_x o) x) ->
    ends_as m (h_series_bandpass o fmin fmax) (series_bandpass (hs_view m o) fmin fmax)
      (fun m' o' s => hs_view m' o' = s /\ hs_t o' = hs_t o /\
         Forall (is_new m) [hs_x o'; hw_h (hs_wh o'); hw_t (hs_wh o'); hs_tCross o'] /\
         NoDup (map r_buf [hs_x o'; hw_h (hs_wh o'); hw_t (hs_wh o'); hs_tCross o'])).
  Proof.
    intros (t & Vt) (x & Vx).
    eapply delivers_ends; [|apply series_bandpass_dv; eapply vector_vref; eassumption].
    intros m' o' s (V & St & (H2 & _) & (_ & _ & (H3 & _) & (H4 & _) & (H5 & _)) & ND).
    split; [exact V|]. split; [exact St|]. split; [|exact ND]. unfold is_new. cbn [bufs]. auto.
  Qed.

  (** decompose_linear_ZS_series, core_wave_decomposition.py:215-287: the incident and the reflected
      series both have the time array of the first series given; their signals are new arrays, not
      shared with each other *)
  Theorem C85_decomposition_shares_the_time (m : mem) (os : list (hseries N)) h rxl rwl (x_loc w_loc : list N) detLim :
    Forall (fun o => (exists t, vector_of Real m (hs_t o) t) /\ exists x, vector_of Real m (hs_x o) x) os ->
    vector_of Real m rxl x_loc -> vector_of Real m rwl w_loc ->
    ends_as m (h_decompose_series os h rxl rwl detLim)
      (decompose_linear_ZS_series (map (hs_view m) os) h x_loc w_loc detLim)
      (fun m' '(oi, or) '(si, sr) =>
         hs_view m' oi = si /\ hs_view m' or = sr /\
         (exists o0 rest, os = o0 :: rest /\ hs_t oi = hs_t o0 /\ hs_t or = hs_t o0) /\
         Forall (is_new m) [hs_x oi; hs_x or; hw_h (hs_wh oi); hw_t (hs_wh oi); hs_tCross oi;
                            hw_h (hs_wh or); hw_t (hs_wh or); hs_tCross or] /\
         NoDup (map r_buf [hs_x oi; hs_x or; hw_h (hs_wh oi); hw_t (hs_wh oi); hs_tCross oi;
                           hw_h (hs_wh or); hw_t (hs_wh or); hs_tCross or])).
  Proof.
    intros Ho Hx Hw.
    eapply delivers_ends; [|apply (decompose_series_dv m os h rxl rwl x_loc w_loc detLim)].
    - intros m' [oi or] [si sr] (V1 & V2 & T1 & T2 & (X1 & _) & (X2 & _) & (_ & _ & (A3 & _) & (A4 & _) & (A5 & _))
                                 & (_ & _ & (B3 & _) & (B4 & _) & (B5 & _)) & ND). cbn [fst snd] in *.
      split; [exact V1|]. split; [exact V2|]. split.
      + destruct os as [|o0 rest]; [discriminate|]. cbn in T1, T2. exists o0, rest. split; [reflexivity|]. split; congruence.
      + split; [|exact ND]. unfold is_new. cbn [bufs]. auto 10.
    - eapply Forall_impl; [|exact Ho]. cbv beta. intros o ((t & Vt) & (x & Vx)). split; eapply vector_vref; eassumption.
    - now apply vector_is_vec.
    - now apply vector_is_vec.
  Qed.

  (** *** WaveHeights *)
  (** the constructor, series.py:29-35, and every later history *)
  Theorem C85_waves_history (argsort : list N -> list nat) (m m1 : mem) (h0 t0 : pyarg N) o
          (history : list (event N (wh_call N))) M w live m2 o2 :
    valid_arg Real m h0 -> valid_arg Real m t0 ->
    h_wh_init h0 t0 m = (m1, Ok o) ->
    hw_view m1 o = wh_init (argval Real m h0) (argval Real m t0) /\ untouched m m1 /\
    (Forall (callers m) history ->
     run (waves_event argsort h0 t0) history (m, hw_view m1 o, true) = (M, w, live) ->
     run (h_waves_event argsort) history (m1, o) = (m2, o2) ->
     hw_view m2 o2 = w /\ untouched M m2 /\
     (live = false -> is_new M (hw_h o2) /\ is_new M (hw_t o2)) /\
     forall c, snd (h_wh_call argsort c o2 m2) = snd (v_wh_call argsort c w)).
  Proof.
    intros Vh Vt Q. apply valid_arg_ok in Vh, Vt.
    pose proof (wh_init_dv m h0 t0 Vh Vt) as K. unfold delivers in K. rewrite Q in K.
    destruct K as (E & V & S1 & S2 & B1 & B2). split; [exact V|]. split; [now apply ext_untouched|].
    intros C RM Rm.
    assert (Fo : follows_wh h0 t0 m (hw_view m1 o) true m1 o).
    { repeat split; auto. }
    pose proof (waves_history_follows argsort h0 t0 history m (hw_view m1 o) true m1 o C Fo) as K.
    rewrite RM, Rm in K. destruct K as (E2 & _ & _ & V2 & _ & _ & W1 & W2).
    split; [exact V2|]. split; [now apply ext_untouched|]. split; [intros ->; auto|].
    intro c. pose proof (sim_call argsort c m2 o2) as K. destruct (h_wh_call argsort c o2 m2) as [[m3 o3] r3].
    cbv zeta in K. destruct K as (_ & _ & R & _). cbn [snd]. rewrite R, V2. reflexivity.
  Qed.

  (** *** Spectrum *)
  (** the constructor, spectrum.py:31-56 *)
  Theorem C85_spectrum_made (m : mem) (f0 s0 : pyarg N) :
    valid_arg Real m f0 -> valid_arg Real m s0 ->
    ends_as m (h_spectrum_init f0 s0) (spectrum_init (argval Real m f0) (argval Real m s0))
      (fun m' o s => hp_view m' o = s /\ kept_or_new m f0 (hp_f o) /\ kept_or_new m s0 (hp_S o)).
  Proof.
    intros Vf Vs. eapply delivers_ends; [|apply spectrum_init_dv; now apply valid_arg_ok].
    intros m' o s (V & S1 & S2 & H1 & H2). split; [exact V|].
    split; [exact (source_kept _ _ _ _ (vref_shape _ _ H1) S1)|exact (source_kept _ _ _ _ (vref_shape _ _ H2) S2)].
  Qed.
  (** every later history *)
  Theorem C85_spectrum_history (m m1 : mem) (f0 s0 : pyarg N) o
          (history : list (event N (spec_call N))) M s m2 o2 :
    valid_arg Real m f0 -> valid_arg Real m s0 ->
    h_spectrum_init f0 s0 m = (m1, Ok o) ->
    Forall (callers m) history ->
    run (spectrum_event f0 s0) history (m, hp_view m1 o) = (M, s) ->
    run h_spectrum_event history (m1, o) = (m2, o2) ->
    hp_view m2 o2 = s /\ untouched M m2 /\ hp_f o2 = hp_f o /\ hp_S o2 = hp_S o /\
    forall c, snd (h_spec_call c o2 m2) = snd (spec_step c s).
  Proof.
    intros Vf Vs Q C RM Rm. apply valid_arg_ok in Vf, Vs.
    pose proof (spectrum_init_dv m f0 s0 Vf Vs) as K. unfold delivers in K. rewrite Q in K.
    destruct (spectrum_init _ _) as [sp|e]; [|destruct K; contradiction].
    destruct K as (E & V & S1 & S2 & H1 & H2).
    assert (Fo : follows_sp f0 s0 m (hp_view m1 o) m1 o).
    { split; [exact E|]. split; [exact Vf|]. split; [exact Vs|]. split; [exact H1|]. split; [exact H2|]. split; [reflexivity|].
      split; [exact (source_kept _ _ _ _ (vref_shape _ _ H1) S1)|exact (source_kept _ _ _ _ (vref_shape _ _ H2) S2)]. }
    pose proof (spectrum_history_follows f0 s0 history m (hp_view m1 o) m1 o C Fo) as K.
    rewrite RM, Rm in K. destruct K as ((E2 & _ & _ & _ & _ & V2 & _) & Ef & ES).
    split; [exact V2|]. split; [now apply ext_untouched|]. split; [exact Ef|]. split; [exact ES|].
    intro c. unfold h_spec_call. rewrite V2. destruct (spec_step c s); reflexivity.
  Qed.

  (** create_spectrum_object_jonswap, core_wavefunctions.py:405-447: the object is made on the
      caller's frequencies, with densities of its own *)
  Theorem C85_jonswap_object (m : mem) (f0 : pyarg N) fp hm0 gammaPeak l_fmax :
    valid_arg Real m f0 ->
    ends_as m (h_create_spectrum_object_jonswap f0 fp hm0 gammaPeak l_fmax)
      (create_spectrum_object_jonswap (argval Real m f0) fp hm0 gammaPeak l_fmax)
      (fun m' o s => hp_view m' o = s /\ kept_or_new m f0 (hp_f o) /\ is_new m (hp_S o)).
  Proof.
    intros Vf. eapply delivers_ends; [|apply jonswap_object_dv; now apply valid_arg_ok].
    intros m' o s (V & S1 & H1 & (H2 & _)). split; [exact V|]. split; [|exact H2].
    exact (source_kept _ _ _ _ (vref_shape _ _ H1) S1).
  Qed.
End Objects.

(** get_spectrum_raw, series.py:452-470: the Spectrum has arrays of its own *)
Theorem C85_raw_spectrum_is_new (m : mem NX) (o : hseries NX) dfDesired :
  (exists t, vector_of Real m (hs_t o) t) -> (exists x, vector_of Real m (hs_x o) x) ->
  ends_as m (h_series_spectrum_raw o dfDesired) (series_spectrum_raw (hs_view m o) dfDesired)
    (fun m' o' s => hp_view m' o' = s /\ is_new m (hp_f o') /\ is_new m (hp_S o') /\ r_buf (hp_f o') <> r_buf (hp_S o')).
Proof.
  intros (t & Vt) (x & Vx).
  eapply delivers_ends; [|apply spectrum_raw_dv; [eapply vector_vref; eassumption..|exact coarse_fits_NX]].
  intros m' o' s (V & (H1 & _) & (H2 & _) & ND). auto.
Qed.
(** get_fourier_comp, series.py:501-523: new arrays *)
Theorem C85_fourier_components_are_new (m : mem NX) (o : hseries NX) :
  (exists t, vector_of Real m (hs_t o) t) -> (exists x, vector_of Real m (hs_x o) x) ->
  ends_as m (h_series_fourier o) (series_fourier (hs_view m o))
    (fun m' '(rf, rX, odd) '(f, X, odd') => new_array Real m m' rf f /\ new_array Complex m m' rX X /\ odd = odd').
Proof.
  intros (t & Vt) (x & Vx). unfold h_series_fourier, series_fourier.
  destruct Vt as (Vt1 & Vt2 & Vt3). destruct Vx as (Vx1 & Vx2 & Vx3).
  pose proof (C84_time2freq_nyquist m (PArr (hs_t o)) (PArr (hs_x o))) as H.
  unfold argval in H. rewrite Vt2, Vt3, Vx2, Vx3 in H. cbn [hs_view se_t se_x]. rewrite Vt3, Vx3. exact (H Vt1 Vx1).
Qed.
(** create_series, spectrum.py:458-478: the Series shares nothing with the Spectrum *)
Theorem C85_created_series_is_new {RS : Type} (rng_seed : Z -> RS) (rng_rand : RS -> nat -> list NX * RS)
        (m : mem NX) rs (o : hspec NX) tstart tend dt :
  (forall r n, length (fst (rng_rand r n)) = n) ->
  (exists f, vector_of Real m (hp_f o) f) -> (exists s, vector_of Real m (hp_S o) s) ->
  ends_as m (h_create_series rng_seed rng_rand rs o tstart tend dt)
    (spectrum_create_series RS rng_seed rng_rand rs (hp_view m o) tstart tend dt)
    (fun m' '(o', r) '(s, r') => hs_view m' o' = s /\ r = r' /\
       Forall (is_new m) [hs_t o'; hs_x o'; hw_h (hs_wh o'); hw_t (hs_wh o'); hs_tCross o'] /\
       NoDup (map r_buf [hs_t o'; hs_x o'; hw_h (hs_wh o'); hw_t (hs_wh o'); hs_tCross o'])).
Proof.
  intros Hr (f & Vf) (s & Vs).
  eapply delivers_ends; [|apply (create_series_dv rng_seed rng_rand m rs o tstart tend dt);
                          [eapply vector_vref; eassumption..|exact synth_fits_NX|exact Hr]].
  intros m' [o' r] [s' r'] (V & R & (T & _) & (X & _) & (_ & _ & (H3 & _) & (H4 & _) & (H5 & _)) & ND). cbn [fst snd] in *.
  split; [exact V|]. split; [exact R|]. split; [|exact ND]. unfold is_new. cbn [bufs]. auto 10.
Qed.

(** *** Witnesses *)
(** a record of four samples held in 1-D arrays: the constructor succeeds and keeps both arrays;
    after the caller has set the first sample to 9 the object's signal begins with 9, and its waves
    are those of the old signal *)
Example C85_witness_series (argsort : list NX -> list nat) :
  let m := mkMem (N:=NX) [F (axis 0 (1/2) 4); F [1; -1; 2; -1]%R] [] in
  let rt := mkRef 0 [0; 1; 2; 3] [4] in
  let rx := mkRef 1 [0; 1; 2; 3] [4] in
  valid_arg Real m (PArr rt) /\ valid_arg Real m (PArr rx) /\
  Forall (callers m) [Write (C:=series_call NX) Real 1 0 (Fin 9)] /\
  exists m1 o m2 o2, h_series_init (PArr rt) (PArr rx) m = (m1, Ok o) /\
    run (h_series_event argsort) [Write Real 1 0 (Fin 9)] (m1, o) = (m2, o2) /\
    hs_t o = rt /\ hs_x o = rx /\
    se_x (hs_view m1 o) = F [1; -1; 2; -1]%R /\ se_x (hs_view m2 o2) = F [9; -1; 2; -1]%R /\
    se_wh (hs_view m2 o2) = se_wh (hs_view m1 o).
Proof.
  intros m rt rx.
  assert (V1 : valid_arg Real m (PArr rt)) by (cbn; unfold array_of; cbn; lia).
  assert (V2 : valid_arg Real m (PArr rx)) by (cbn; unfold array_of; cbn; lia).
  split; [exact V1|]. split; [exact V2|]. split; [repeat constructor; cbn; lia|].
  destruct (record_spectrum 0 (1/2) [1; -1; 2; -1]%R (argval Real m (PArr rt)) (argval Real m (PArr rx))) as (s & Qs & _).
  - lra.
  - cbn. lia.
  - exact (hv_flat _).
  - exact (hv_flat _).
  - destruct (C85_series_made m (PArr rt) (PArr rx) V1 V2) as (m1 & U & [(o & s' & Q & Qs' & V & Kt & Kx & _)|(e & _ & Q)]); [|congruence].
    cbn in Kt, Kx. rewrite Qs in Qs'. assert (SS : s' = s) by congruence. rewrite SS in V. clear SS Qs'.
    destruct (run (h_series_event argsort) [Write Real 1 0 (Fin 9)] (m1, o)) as [m2 o2] eqn:R2.
    destruct (run (series_event argsort (PArr rt) (PArr rx)) [Write Real 1 0 (Fin 9)] (m, hs_view m1 o)) as [M s2] eqn:R1.
    assert (CA : Forall (callers m) [Write (C:=series_call NX) Real 1 0 (Fin 9)]) by (repeat constructor; cbn; lia).
    destruct (C85_series_history argsort m m1 (PArr rt) (PArr rx) o _ M s2 m2 o2 V1 V2 Q CA R1 R2) as (W & _).
    exists m1, o, m2, o2. split; [exact Q|]. split; [exact R2|]. split; [exact Kt|]. split; [exact Kx|].
    apply (f_equal snd) in R1. cbn [run fold_left series_event snd] in R1. rewrite W, <- R1. cbn [se_x se_wh]. split; [|split; [reflexivity|reflexivity]].
    unfold hs_view. cbn [se_x]. rewrite Kx. destruct (U _ Real 1) as (_ & B); [cbn; lia|].
    unfold read. cbn [r_buf rx r_idx]. rewrite B. reflexivity.
Qed.
(** the same signal as a column: it is copied, so the write does not show *)
Example C85_witness_column (argsort : list NX -> list nat) :
  let m := mkMem (N:=NX) [F (axis 0 (1/2) 4); F [1; -1; 2; -1]%R] [] in
  let rt := mkRef 0 [0; 1; 2; 3] [4] in
  let rx := mkRef 1 [0; 1; 2; 3] [4; 1] in
  exists m1 o m2 o2, h_series_init (PArr rt) (PArr rx) m = (m1, Ok o) /\
    run (h_series_event argsort) [Write Real 1 0 (Fin 9)] (m1, o) = (m2, o2) /\
    se_x (hs_view m2 o2) = F [1; -1; 2; -1]%R.
Proof.
  intros m rt rx.
  assert (V1 : valid_arg Real m (PArr rt)) by (cbn; unfold array_of; cbn; lia).
  assert (V2 : valid_arg Real m (PArr rx)) by (cbn; unfold array_of; cbn; lia).
  destruct (C16_uniform_accepted 0 (1/2) [1; -1; 2; -1]%R (argval Real m (PArr rt)) (argval Real m (PArr rx))) as (s & tc & ws & Qs & Et & Ex & _).
  - lra.
  - cbn. lia.
  - exact (hv_flat _).
  - exact (hv_column _).
  - destruct (C85_series_made m (PArr rt) (PArr rx) V1 V2) as (m1 & U & [(o & s' & Q & Qs' & V & Kt & Kx & _)|(e & _ & Q)]); [|congruence].
    rewrite Qs in Qs'. assert (SS : s' = s) by congruence. rewrite SS in V. clear SS Qs'.
    destruct (run (h_series_event argsort) [Write Real 1 0 (Fin 9)] (m1, o)) as [m2 o2] eqn:R2.
    destruct (run (series_event argsort (PArr rt) (PArr rx)) [Write Real 1 0 (Fin 9)] (m, hs_view m1 o)) as [M s2] eqn:R1.
    assert (CA : Forall (callers m) [Write (C:=series_call NX) Real 1 0 (Fin 9)]) by (repeat constructor; cbn; lia).
    destruct (C85_series_history argsort m m1 (PArr rt) (PArr rx) o _ M s2 m2 o2 V1 V2 Q CA R1 R2) as (W & _).
    exists m1, o, m2, o2. split; [exact Q|]. split; [exact R2|].
    apply (f_equal snd) in R1. cbn [run fold_left series_event snd] in R1. rewrite W, <- R1. cbn [se_x]. change (se_x (hs_view m1 o) = F [1; -1; 2; -1]%R).
    rewrite V. exact Ex.
Qed.
(** wave heights 3, 1, 2 in an array of the caller: a write before the first sort shows, one after
    it does not; and the caller's array has not been sorted *)
Example C85_witness_sort :
  let argsort := fun _ : list NX => [1; 0; 2] in
  let m := mkMem (N:=NX) [[Fin 3; Fin 1; Fin 2]; [Fin 7; Fin 8; Fin 9]] [] in
  let rh := mkRef 0 [0; 1; 2] [3] in
  let rt := mkRef 1 [0; 1; 2] [3] in
  let '(m2, o2) := run (h_waves_event argsort)
        [Write Real 0 2 (Fin 6); Call WSort; Write Real 0 0 (Fin 5)] (m, mkHWH rh rt 3) in
  h_wh_init (PArr rh) (PArr rt) m = (m, Ok (mkHWH rh rt 3)) /\
  data (wh_h (hw_view m2 o2)) = [Fin 6; Fin 3; Fin 1] /\ data (wh_t (hw_view m2 o2)) = [Fin 9; Fin 7; Fin 8] /\
  read Real m2 rh = [Fin 5; Fin 1; Fin 6].
Proof. cbn. repeat split. Qed.
