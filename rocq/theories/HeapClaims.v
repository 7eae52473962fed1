(** * C84: no toolbox function changes an array it was given

    For every function of the toolbox that assigns to (part of) an array: run on any memory and any
    arguments - numbers, lists or arrays of the caller, also overlapping views of one buffer - it
    gives exactly the result or exception of the value model, all buffers of the caller are as
    before, and the arrays it returns are in new buffers. *)

From Coq Require Import ZArith String List Bool Arith Lia Reals Lra.
From Verif Require Import Num XR Engine Cpx TimeModel SpectralModel WaveModel DisperModel DecompModel
  SpectrumModel SeriesModel XRFacts SynthProps HeapModel HeapSpec HeapFacts HeapProps HeapDecomp.
Import ListNotations.
Local Open Scope nat_scope.

Section Bridge.
  Context {N : Num}.
  Local Notation cpx := (cpx N).
  Local Notation mem := (mem N).

  Lemma ext_untouched (m m' : mem) : ext m m' -> untouched m m'.
  Proof.
    intros (er & ec & ->) A d b Hb. destruct d; cbn in *; rewrite app_length; split; try lia; now apply app_nth1.
  Qed.
  Lemma valid_arg_ok {A} (d : dtype N A) m p : valid_arg d m p -> arg_ok d m p.
  Proof. destruct p; cbn; auto. Qed.
  Lemma vector_is_vec {A} (d : dtype N A) m r l : vector_of d m r l -> is_vec d m r l.
  Proof.
    intros ((H1 & H2) & Sh & R). split; [exact H1|]. split; [|auto].
    rewrite H2, Sh. cbn. lia.
  Qed.
  Lemma is_vec_vector {A} (d : dtype N A) m r l : is_vec d m r l -> vector_of d m r l.
  Proof. intros (H & L & Sh & R). split; [|auto]. split; [exact H|]. rewrite L, Sh. cbn. lia. Qed.
  Lemma new_vec_array {A} (d : dtype N A) m m' r l : new_vec d m m' r l -> new_array d m m' r l.
  Proof.
    intro K. pose proof (is_vec_vector d _ _ _ (new_is_vec d _ _ _ _ K)) as V. destruct K as (H & I & _).
    split; [lia|]. split; [exact V|]. rewrite I. apply seq_NoDup.
  Qed.
  Lemma new_list_array {A} (d : dtype N A) m m' r l : new_list d m m' r l -> new_array0 d m m' r l.
  Proof.
    intros (H & I & Sh & R). split; [exact H|]. split; [|split; [exact Sh|]].
    - unfold read. rewrite I, R. apply map_nth_seq.
    - rewrite I. apply seq_NoDup.
  Qed.
  Lemma delivers_ends {A B} m (p : hp N A) (rel good : mem -> A -> B -> Prop) (v : res B) :
    (forall m' a b, rel m' a b -> good m' a b) -> delivers m m p rel v -> ends_as m p v good.
  Proof.
    unfold delivers, ends_as. destruct (p m) as [m' o]. intros G (E & H).
    exists m'. split; [now apply ext_untouched|].
    destruct o as [a|e], v as [b|e']; try contradiction.
    - left. exists a, b. auto.
    - right. exists e. subst. auto.
  Qed.

  (** *** the two conversions, core_engine.py:10-53 *)
  (** convert_to_vector: a number, a list or an (n,1) array is copied to new storage; any other
      array is handed back itself; nothing else happens to memory *)
  Theorem C84_convert_to_vector {A} (d : dtype N A) m p :
    valid_arg d m p ->
    ends_as m (h_vector d p) (Ok (convert_to_vector (argval d m p)))
      (fun m' '(r, sz) '(a, sz') => sz = sz' /\ array_of d m' r /\
         r_shape r = shape a /\ read d m' r = data a /\
         match p with
         | PArr r0 => if Nat.eqb (snd sz) 1 then length (bufs d m) <= r_buf r else r = r0 /\ m' = m
         | _ => length (bufs d m) <= r_buf r
         end).
  Proof.
    intro V. pose proof (valid_arg_ok d m p V) as H.
    destruct (h_vector_spec d p m H) as (m1 & r & Q & E & O & R).
    exists m1. split; [now apply ext_untouched|]. left.
    exists (r, snd (convert_to_vector (argval d m p))), (convert_to_vector (argval d m p)).
    split; [exact Q|]. split; [reflexivity|].
    destruct (convert_to_vector (argval d m p)) as [a sz] eqn:C. cbn [fst snd] in *.
    split; [reflexivity|]. split; [exact O|]. split; [now rewrite <- R|]. split; [now rewrite <- R|].
    unfold h_vector, hbind in Q.
    destruct (h_array_spec d p m H) as (m2 & r2 & Q2 & E2 & O2 & V2 & P2). rewrite Q2 in Q. cbv zeta in Q.
    assert (Sz : sz = h_size r2).
    { unfold convert_to_vector in C. rewrite <- V2 in C. inversion C. reflexivity. }
    rewrite <- Sz in Q. destruct (Nat.eqb (snd sz) 1) eqn:B.
    - assert (G : length (bufs d m) <= r_buf r).
      { cbn in Q. inversion Q; subst. cbn. now apply ext_len. }
      destruct p; exact G.
    - cbn in Q. inversion Q; subst. destruct p; auto.
  Qed.

  (** *** functions on any numbers (reals with inf/nan, and binary64) *)
  (** unfold_spectrum, core_spectral.py:95-174 *)
  Theorem C84_unfold_spectrum m (f0 : pyarg N) (x0 : pyarg cpx) isOdd :
    valid_arg Real m f0 -> valid_arg Complex m x0 ->
    ends_as m (h_unfold_spectrum f0 x0 isOdd)
      (unfold_spectrum (argval Real m f0) (argval Complex m x0) isOdd)
      (fun m' '(rf, rx) '(f, x) => new_array Real m m' rf f /\ new_array Complex m m' rx x).
  Proof.
    intros Hf Hx. eapply delivers_ends; [|apply unfold_dv; now apply valid_arg_ok].
    intros m' [rf rx] [f x] (K1 & K2). split; now apply new_vec_array.
  Qed.

  (** applybandfilter, core_spectral.py:812-861 *)
  Theorem C84_applybandfilter m rf rx (f : list N) (x : list cpx) flow fhigh :
    vector_of Real m rf f -> vector_of Complex m rx x ->
    ends_as m (h_applybandfilter rf rx flow fhigh) (applybandfilter f x flow fhigh)
      (fun m' r z => new_array Complex m m' r z).
  Proof.
    intros Hf Hx. eapply delivers_ends; [|apply applybandfilter_dv; apply vector_is_vec; eassumption].
    intros m' r z. apply new_vec_array.
  Qed.

  (** bandpassfilter, core_spectral.py:864-955 *)
  Theorem C84_bandpassfilter m (t0 x0 : pyarg N) flow fhigh :
    valid_arg Real m t0 -> valid_arg Real m x0 ->
    ends_as m (h_bandpassfilter t0 x0 flow fhigh)
      (bandpassfilter (argval Real m t0) (argval Real m x0) flow fhigh)
      (fun m' r z => new_array Real m m' r z).
  Proof.
    intros Hf Hx. eapply delivers_ends; [|apply bandpass_dv; now apply valid_arg_ok].
    intros m' r z. apply new_vec_array.
  Qed.

  (** time2freq_nyquist and freq2time, core_spectral.py:382-475 and 242-292 *)
  Theorem C84_time2freq_nyquist m (t0 x0 : pyarg N) :
    valid_arg Real m t0 -> valid_arg Real m x0 ->
    ends_as m (h_time2freq_nyquist t0 x0) (time2freq_nyquist (argval Real m t0) (argval Real m x0))
      (fun m' '(rf, rX, o) '(f, X, o') => new_array Real m m' rf f /\ new_array Complex m m' rX X /\ o = o').
  Proof.
    intros Ht Hx. eapply delivers_ends; [|apply time2freq_nyquist_dv; now apply valid_arg_ok].
    intros m' [[rf rX] o] [[f X] o'] (K1 & K2 & ->). split; [now apply new_vec_array|]. split; [now apply new_vec_array|reflexivity].
  Qed.
  Theorem C84_freq2time m (x0 : pyarg cpx) :
    valid_arg Complex m x0 ->
    ends_as m (h_freq2time x0) (freq2time (argval Complex m x0)) (fun m' r x => new_array Real m m' r x).
  Proof.
    intros Hx. eapply delivers_ends; [|apply freq2time_dv; now apply valid_arg_ok].
    intros m' r z. apply new_vec_array.
  Qed.

  (** determine_params_individual_waves, core_time.py: six different arrays *)
  Theorem C84_individual_waves m (c0 t0 x0 : pyarg N) :
    valid_arg Real m c0 -> valid_arg Real m t0 -> valid_arg Real m x0 ->
    ends_as m (h_determine_params_individual_waves c0 t0 x0)
      (determine_params_individual_waves (argval Real m c0) (argval Real m t0) (argval Real m x0))
      (fun m' '(hW, tW, aC, aT, tC, tT) ws =>
         new_array0 Real m m' hW (map w_h ws) /\ new_array0 Real m m' tW (map w_t ws) /\
         new_array0 Real m m' aC (map w_crest ws) /\ new_array0 Real m m' aT (map w_trough ws) /\
         new_array0 Real m m' tC (map w_tcrest ws) /\ new_array0 Real m m' tT (map w_ttrough ws) /\
         NoDup (map r_buf [hW; tW; aC; aT; tC; tT])).
  Proof.
    intros Hc Ht Hx. eapply delivers_ends; [|apply waves_dv; now apply valid_arg_ok].
    intros m' [[[[[hW tW] aC] aT] tC] tT] ws (K1 & K2 & K3 & K4 & K5 & K6 & ND).
    repeat (split; [now apply new_list_array|]). exact ND.
  Qed.

  (** disper, core_dispersion.py *)
  Theorem C84_disper m (w0 : pyarg N) h g :
    valid_arg Real m w0 ->
    ends_as m (h_disper w0 h g) (disper (argval Real m w0) h g) (fun m' r k => new_array Real m m' r k).
  Proof.
    intros Hw. eapply delivers_ends; [|apply disper_dv; now apply valid_arg_ok].
    intros m' r z. apply new_vec_array.
  Qed.

  (** create_spectrum_jonswap, core_wavefunctions.py:274-402 *)
  Theorem C84_create_spectrum_jonswap m (f0 : pyarg N) fp hm0 gammaPeak l_fmax :
    valid_arg Real m f0 ->
    ends_as m (h_create_spectrum_jonswap f0 fp hm0 gammaPeak l_fmax)
      (create_spectrum_jonswap (argval Real m f0) fp hm0 gammaPeak l_fmax)
      (fun m' r s => new_array Real m m' r s).
  Proof.
    intros Hw. eapply delivers_ends; [|apply jonswap_dv; now apply valid_arg_ok].
    intros m' r z. apply new_vec_array.
  Qed.

  (** decompose_linear_ZS, core_wave_decomposition.py:13-212 *)
  Theorem C84_decompose_linear_ZS m rt rX rxl rwl (t x_loc w_loc : list N) h detLim :
    vector_of Real m rt t -> array_of Real m rX -> vector_of Real m rxl x_loc -> vector_of Real m rwl w_loc ->
    ends_as m (h_decompose_linear_ZS rt rX h rxl rwl detLim)
      (decompose_linear_ZS t (mkArr (r_shape rX) (read Real m rX)) h x_loc w_loc detLim)
      (fun m' '(ri, rr) '(i, r) =>
         new_array Real m m' ri i /\ new_array Real m m' rr r /\ r_buf ri <> r_buf rr).
  Proof.
    intros Ht HX Hx Hw.
    eapply delivers_ends; [|apply decompose_dv; try apply vector_is_vec; eassumption].
    intros m' [ri rr] [i r] (K1 & K2 & D). split; [now apply new_vec_array|]. split; [now apply new_vec_array|exact D].
  Qed.
End Bridge.

(** *** functions whose buffer sizes depend on the numbers *)
Lemma coarse_fits_NX : coarse_fits (N:=NX).
Proof.
  intros f dfDesired nFactor z HF HZ.
  assert (P : exists v : NX, nFactor = pymax2 v n1).
  { unfold avg_factor in HF.
    destruct (negb _) in HF; [|apply Ok_inj in HF; eexists; symmetry; exact HF].
    apply bind_inv in HF. destruct HF as (v & _ & HF). apply Ok_inj in HF. eexists. symmetry. exact HF. }
  destruct P as (v & ->). clear HF. unfold int_floor in HZ.
  destruct (nfloor (n:=NX) (ndiv (nofnat (N:=NX) (length f)) (pymax2 v n1))) as [q|] eqn:Q;
    [|destruct (nisnan _) in HZ; discriminate].
  apply Ok_inj in HZ. subst q.
  assert (K : exists r, ndiv (nofnat (N:=NX) (length f)) (pymax2 v n1) = Fin r /\ (r <= INR (length f))%R).
  { pose proof (pos_INR (length f)) as HP.
    assert (Hn : nofnat (N:=NX) (length f) = Fin (INR (length f))) by apply fin_ofnat.
    rewrite Hn in *. change (n1 (N:=NX)) with (Fin 1) in *.
    destruct v as [a| | |]; unfold pymax2 in *; cbn in Q |- *; try discriminate.
    - destruct (Rltb_spec a 1) as [L|L]; cbn in Q |- *.
      + destruct (Req_EM_T 1 0); [lra|]. eexists. split; [reflexivity|]. lra.
      + destruct (Req_EM_T a 0); [lra|]. eexists. split; [reflexivity|].
        apply Rmult_le_reg_r with a; [lra|]. unfold Rdiv. rewrite Rmult_assoc, Rinv_l by lra. apply Rmult_le_compat_l; [exact HP|exact (Rnot_lt_le _ _ L)].
    - eexists. split; [reflexivity|]. exact HP.
    - destruct (Req_EM_T 1 0); [lra|]. eexists. split; [reflexivity|]. lra. }
  destruct K as (r & E & Hr). rewrite E in Q. cbn in Q. inversion Q as [Q']. clear Q.
  assert (IZR z <= INR (length f))%R.
  { subst z. destruct (base_Int_part r). unfold Rfloor. lra. }
  rewrite INR_IZR_INZ in H. apply le_IZR in H. lia.
Qed.

Lemma synth_fits_NX : synth_fits (N:=NX).
Proof.
  intros tInit tEnd dt t fGen HT M HD dfGen HG.
  assert (FD : exists d, dt = Fin d /\ d <> 0%R).
  { unfold np_arange in HT.
    destruct (neqb dt n0) eqn:Z; [discriminate|].
    destruct (nceil _) as [q|] eqn:C in HT; [|discriminate]. clear HT. unfold nceil in C.
    destruct dt as [d| | |].
    - exists d. split; [reflexivity|]. cbn in Z. destruct (Reqb_spec d 0); [discriminate|assumption].
    - destruct tEnd, tInit; cbn in C; discriminate.
    - destruct tEnd, tInit; cbn in C; discriminate.
    - destruct tEnd, tInit; cbn in C; discriminate. }
  destruct FD as (d & -> & Hd). set (k := (length t + 1) / 2) in M.
  assert (EM : nofnat (N:=NX) M = Fin (INR M)) by apply fin_ofnat.
  rewrite EM in HD. change (Reqb (INR M * d) 0 = false) in HD.
  destruct (Reqb_spec (INR M * d) 0) as [|HD']; [discriminate|]. clear HD. rename HD' into HD.
  assert (HM : 0 < k).
  { destruct k; [|lia]. exfalso. apply HD. unfold M. cbn. lra. }
  assert (EK : INR M = (2 * INR k)%R) by (unfold M; rewrite mult_INR; reflexivity).
  assert (HK : (0 < INR k)%R) by (apply lt_0_INR; exact HM).
  assert (ED : dfGen = Fin (1 / (INR M * d))).
  { unfold dfGen. rewrite EM. change (xdiv (Fin 1) (Fin (INR M * d)) = Fin (1 / (INR M * d))). unfold xdiv. destruct (Req_EM_T (INR M * d) 0); [contradiction|]. reflexivity. }
  rewrite ED in HG.
  assert (L : length fGen = k).
  { unfold np_arange in HG.
    assert (Hdf : (1 / (INR M * d) <> 0)%R).
    { intro Q. apply Rmult_integral in Q. destruct Q as [Q|Q]; [lra|]. revert Q. apply Rinv_neq_0_compat. exact HD. }
    assert (Z : neqb (n:=NX) (Fin (1 / (INR M * d))) n0 = false).
    { change (Reqb (1 / (INR M * d)) 0 = false). destruct (Reqb_spec (1 / (INR M * d)) 0); [contradiction|reflexivity]. }
    rewrite Z in HG. clearbody dfGen. clear HT. clearbody M.
    assert (Q : nsub (n:=NX) (nadd (ndiv n1 (nmul (nofZ (n:=NX) 2) (Fin d))) (ndiv (Fin (1 / (INR M * d))) (nofZ (n:=NX) 2))) (Fin (1 / (INR M * d)))
                = Fin (1 / (2 * d) + 1 / (INR M * d) / 2 - 1 / (INR M * d))).
    { cbn. destruct (Req_EM_T (2 * d) 0); [lra|]. cbn. destruct (Req_EM_T 2 0); [lra|]. reflexivity. }
    rewrite Q in HG. rewrite fin_div in HG by exact Hdf.
    replace ((1 / (2 * d) + 1 / (INR M * d) / 2 - 1 / (INR M * d)) / (1 / (INR M * d)))%R with (INR k - 1 / 2)%R in HG
      by (rewrite EK; field; lra).
    unfold nceil in HG. rewrite fin_opp in HG.
    change (nfloor (n:=NX) (Fin (- (INR k - 1 / 2)))) with (Some (Rfloor (- (INR k - 1 / 2)))) in HG.
    rewrite (Rfloor_unique _ (- Z.of_nat k)) in HG by (rewrite opp_IZR, <- INR_IZR_INZ; lra).
    apply Ok_inj in HG. subst fGen. rewrite map_length, seq_length. lia. }
  rewrite L. unfold M. lia.
Qed.

(** frequency_averaging, core_spectral.py:16-92 *)
Theorem C84_frequency_averaging (m : mem NX) f0 s0 dfDesired :
  valid_arg Real m f0 -> valid_arg Real m s0 ->
  ends_as m (h_frequency_averaging f0 s0 dfDesired)
    (frequency_averaging (argval Real m f0) (argval Real m s0) dfDesired)
    (fun m' '(rf, rs) '(f, s) =>
       new_array Real m m' rf f /\ new_array Real m m' rs s /\ r_buf rf <> r_buf rs).
Proof.
  intros Hf Hs. eapply delivers_ends; [|apply averaging_dv; [now apply valid_arg_ok..|exact coarse_fits_NX]].
  intros m' [rf rs] [f s] (K1 & K2 & D). split; [now apply new_vec_array|]. split; [now apply new_vec_array|exact D].
Qed.

(** coherence, core_spectral.py:177-239 *)
Theorem C84_coherence (m : mem NX) f0 x1 x2 X1 X2 dfDesired :
  valid_arg Real m f0 -> vector_of Complex m x1 X1 -> vector_of Complex m x2 X2 ->
  ends_as m (h_coherence f0 x1 x2 dfDesired) (coherence (argval Real m f0) X1 X2 dfDesired)
    (fun m' '(rf, rc) '(f, c) =>
       new_array Real m m' rf f /\ new_array Real m m' rc c /\ r_buf rf <> r_buf rc).
Proof.
  intros Hf H1 H2.
  eapply delivers_ends; [|apply coherence_dv; [now apply valid_arg_ok|apply vector_is_vec; eassumption..|exact coarse_fits_NX]].
  intros m' [rf rs] [f s] (K1 & K2 & D). split; [now apply new_vec_array|]. split; [now apply new_vec_array|exact D].
Qed.

(** spectrum2timeseries, core_spectral.py:605-709: for any random generator that returns as many
    numbers as asked *)
Theorem C84_spectrum2timeseries {RS : Type} (rng_seed : Z -> RS) (rng_rand : RS -> nat -> list NX * RS)
        (m : mem NX) rs f0 s0 tInit tEnd dt seed :
  (forall r n, length (fst (rng_rand r n)) = n) ->
  valid_arg Real m f0 -> valid_arg Real m s0 ->
  ends_as m (h_spectrum2timeseries rng_seed rng_rand rs f0 s0 tInit tEnd dt seed)
    (spectrum2timeseries RS rng_seed rng_rand rs (argval Real m f0) (argval Real m s0) tInit tEnd dt seed)
    (fun m' '(rt, rx, r) '(t, x, r') =>
       new_array Real m m' rt t /\ new_array Real m m' rx x /\ r_buf rt <> r_buf rx /\ r = r').
Proof.
  intros Hr Hf Hs.
  eapply delivers_ends; [|apply synthesis_dv; [now apply valid_arg_ok..|exact synth_fits_NX|exact Hr]].
  intros m' [[rt rx] r] [[t x] r'] (K1 & K2 & D & ->).
  split; [now apply new_vec_array|]. split; [now apply new_vec_array|]. split; [exact D|reflexivity].
Qed.

(** what [untouched] gives the caller: every array held before the call has the same elements after
    it, whatever view of whatever buffer it is *)
Theorem C84_caller_reads_the_same {N : Num} {A B C} (m : mem N) (p : hp N A) (v : res B) good (d : dtype N C) r :
  ends_as m p v good -> array_of d m r -> read d (fst (p m)) r = read d m r.
Proof.
  intros (m' & U & H) (Hr & _).
  assert (E : fst (p m) = m') by (destruct H as [(a & b & Q & _)|(e & Q & _)]; now rewrite Q).
  rewrite E. unfold read. apply map_ext. intro i. f_equal. now apply (U C d).
Qed.

(** *** Witness: two overlapping views of one buffer *)
(** buffer 0 holds 0, 1, 2, 3, 4; f is its first three elements, x (complex) is read from back to
    front; the call succeeds, and gives arrays in new buffers *)
Example C84_witness_views :
  let m := mkMem (N:=NX) [[Fin 0; Fin 1; Fin 2; Fin 3; Fin 4]] [[(Fin 5, Fin 0); (Fin 6, Fin 1); (Fin 7, Fin 0)]] in
  let rf := mkRef 0 [0; 1; 2] [3] in
  let rg := mkRef 0 [4; 2; 0] [3; 1] in
  let rx := mkRef 0 [2; 1; 0] [3] in
  valid_arg Real m (PArr rf) /\ valid_arg Real m (PArr rg) /\ valid_arg Complex m (PArr rx) /\
  vector_of Real m rf [Fin 0; Fin 1; Fin 2] /\ read Real m rg = [Fin 4; Fin 2; Fin 0] /\
  exists m' r1 r2, h_unfold_spectrum (PArr rg) (PArr rx) false m = (m', Ok (r1, r2)) /\
    r_buf r1 = 2 /\ r_buf r2 = 1 /\
    read Complex m' r2 = [(Fin 7, Fin 0); (Fin 6, Fin 1); (Fin 5, Fin 0); (Fin 6, Fin (- 1))] /\
    nth 0 (mR m') [] = [Fin 0; Fin 1; Fin 2; Fin 3; Fin 4].
Proof.
  cbv zeta. split; [cbn; unfold array_of; cbn; lia|]. split; [cbn; unfold array_of; cbn; lia|].
  split; [cbn; unfold array_of; cbn; lia|]. split; [unfold vector_of, array_of; cbn; repeat split; lia|].
  split; [reflexivity|].
  eexists _, _, _. split; [cbn; reflexivity|]. cbn. repeat split. unfold cconj. cbn. now rewrite Ropp_0.
Qed.
(** and the notion can fail: clamping an array of the caller in place (what coherence does with its
    own arrays) changes what the caller reads *)
Example C84_witness_in_place :
  let m := mkMem (N:=NX) [[Fin 0]] [] in
  ~ untouched m (fst (h_clamp_small (mkRef 0 [0] [1]) m)).
Proof.
  intros m U. specialize (U _ Real 0). cbn in U. destruct U as (_ & U); [lia|].
  unfold h_clamp_small, hbind, hlist, where_ in U. cbn in U.
  destruct (Req_EM_T (IZR 10000000000) 0); cbn in U; [|].
  - exfalso. lra.
  - destruct (Rltb_spec 0 (1 / 10000000000)) as [L|L]; cbn in U.
    + inversion U. lra.
    + lra.
Qed.
