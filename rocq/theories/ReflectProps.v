(** * Reflection analysis with the objects: gauge Series -> incident and reflected Series -> spectra -> reflection coefficient: C76 *)

From Coq Require Import ZArith Reals String List Bool Lra Lia.
From Coquelicot Require Import Complex.
From Verif Require Import Num XR Engine Cpx SpectralModel WaveModel DisperModel DecompModel SpectrumModel SeriesModel Spec XRFacts RSum DFT FourierSpec EngineProps
  TimeProps TimeProps3 SeriesProps FourierFacts FourierProps BandProps DensityProps AvgProps SimpsonFacts MomentProps PeakProps ParamProps GetterProps
  DisperProps DecompSpec DecompProps DecompClaims DecompChecks SpecSym HeightProps UnitProps.
Import ListNotations.
Open Scope R_scope.

(** the Series a user makes of the surface elevation recorded at position X *)
Definition gauge_series (t : list R) (elevation : R -> R -> R) (X : R) (s : series NX) : Prop :=
  exists at_ ax, holds_vector (F t) at_ /\ holds_vector (F (map (fun time => elevation time X) t)) ax /\ series_init at_ ax = Ok s.

(** a signal of harmonics, in either direction, at position 0 *)
Lemma one_way (t0 dt : R) (n M : nat) (k A P Q : nat -> R) : 0 < dt -> (0 < n)%nat ->
  let om m := 2 * PI * (INR m / (INR n * dt)) * t0 in
     map (fun time => wave_field n M dt k A P (fun _ => 0) Q time 0) (axis t0 dt n) = harmonics n M A (fun m => om m + P m)
  /\ map (fun time => wave_field n M dt k (fun _ => 0) P A Q time 0) (axis t0 dt n) = harmonics n M A (fun m => om m + Q m).
Proof.
  intros Hdt Hn om. assert (Hn' : INR n <> 0) by (apply not_0_INR; lia).
  assert (G : forall g ph, (forall time, g time = RS M (fun i => A (S i) * cos (2 * PI * (INR (S i) / (INR n * dt)) * time + ph (S i)))) ->
    map g (axis t0 dt n) = harmonics n M A (fun m => om m + ph m)).
  { intros g ph Hg. apply (nth_ext' _ _ 0); [rewrite map_length, axis_length, harmonics_length; auto|].
    intros l Hl. rewrite map_length, axis_length in Hl. unfold harmonics. rewrite map_seq_nth by auto.
    rewrite (nth_indep _ 0 (g 0)) by (rewrite map_length, axis_length; auto). rewrite (map_nth g), axis_nth, Hg by auto.
    apply RS_ext. intros i Hi. do 2 f_equal. unfold om. rewrite mult_INR. field. lra. }
  split; apply G; intros time; unfold wave_field; apply RS_ext; intros i Hi; cbv zeta; rewrite Rmult_0_l, ?Rplus_0_r, ?Rplus_0_l; do 2 f_equal; ring.
Qed.
(** energy of every bin of a signal of harmonics *)
Lemma harmonics_periodogram (t : list R) (n M : nat) (a p : nat -> R) (mu : nat) :
  good_axis t -> length t = n -> (2 * M < n)%nat -> (mu <= n / 2)%nat ->
  periodogram (step t) (harmonics n M a p) mu = (if Nat.eqb mu 0 || Nat.ltb M mu then 0 else a mu ^ 2 / 2) * (INR n * step t).
Proof.
  intros Hg Lt HM Hmu. assert (Hn : INR n <> 0) by (apply not_0_INR; lia).
  unfold periodogram. rewrite harmonics_length, coef_harmonics by auto. destruct (Nat.eqb mu 0 || Nat.ltb M mu).
  - rewrite Cmod_0. ring.
  - rewrite <- sq_Cmod. unfold sq, ei, RtoC. cbn. assert (E := sin2_cos2 (p mu)). unfold Rsqr in E. field_simplify; [|auto].
    replace (cos (p mu) ^ 2) with (1 - sin (p mu) ^ 2) by nra. field. auto.
Qed.

(** the two Series that come back, and their spectra: each Fourier frequency m/(n dt) carries the energy a_m^2/2 of the incident
    component in the one and b_m^2/2 of the reflected component in the other, and no other frequency carries any *)
Theorem C76_spectra (t0 dt : R) (n M : nat) (x w : list R) (h detLim : R) (k a p b q : nat -> R) (ss : list (series NX)) :
  let t := axis t0 dt n in
  let elevation time X := wave_field n M dt k a p b q time (X - nth 0 x 0) in
  Forall2 (gauge_series t elevation) x ss ->
  accepted t (map (fun X => map (fun time => elevation time X) t) x) x w ->
  0 < dt -> (2 * M < n)%nat -> 0 < h -> 0 <= detLim -> wave_numbers t h k ->
  (forall m, (1 <= m <= M)%nat -> retained detLim w x (k m)) ->
  exists si sr f Si Sr,
    decompose_linear_ZS_series ss (Fin h) (F x) (F w) (Fin detLim) = Ok (si, sr)
    /\ se_t si = F t /\ se_x si = F (map (fun time => wave_field n M dt k a p (fun _ => 0) q time 0) t)
    /\ se_t sr = F t /\ se_x sr = F (map (fun time => wave_field n M dt k (fun _ => 0) p b q time 0) t)
    /\ series_spectrum_raw si (Fin 0) = Ok (fresh (N:=NX) (F f) (F Si))
    /\ series_spectrum_raw sr (Fin 0) = Ok (fresh (N:=NX) (F f) (F Sr))
    /\ length f = (n / 2 + 1)%nat /\ length Si = length f /\ length Sr = length f
    /\ forall m, (m < length f)%nat ->
         nth m f 0 = INR m / (INR n * dt)
         /\ nth m Si 0 = (if Nat.eqb m 0 || Nat.ltb M m then 0 else a m ^ 2 / 2) * (INR n * dt)
         /\ nth m Sr 0 = (if Nat.eqb m 0 || Nat.ltb M m then 0 else b m ^ 2 / 2) * (INR n * dt).
Proof.
  intros t elevation HS HA Hdt HM Hh HL HK HR.
  assert (Lt : length t = n) by apply axis_length. assert (Hg := acc_axis _ _ _ _ HA). assert (H2 := proj1 Hg). rewrite Lt in H2.
  set (sigs := map (fun X => map (fun time => elevation time X) t) x) in *.
  assert (HSig : forall s, In s sigs -> length s = length t) by apply (acc_sig _ _ _ _ HA).
  assert (Lx : length x = length sigs) by apply (acc_x _ _ _ _ HA). assert (Hx2 := acc_gauges _ _ _ _ HA).
  assert (Hh0 : length (hd [] sigs) = n).
  { destruct sigs as [|s0 sg]; cbn in Hx2; [lia|]. cbn. rewrite (HSig s0 (or_introl eq_refl)). auto. }
  (* what the constructed gauges hold *)
  assert (One : forall X s, gauge_series t elevation X s -> se_t s = F t /\ se_x s = F (map (fun time => elevation time X) t)).
  { intros X s (at_ & ax & Ht & Hx & E). assert (L : length (map (fun time => elevation time X) t) = n) by (rewrite map_length; auto).
    destruct (C16_uniform_accepted t0 dt (map (fun time => elevation time X) t) at_ ax) as (s' & tc & ws & E' & Et & Ex & _); auto; try (rewrite L; auto; fail).
    rewrite E in E'. apply Ok_inj in E'. subst s'. rewrite L in Et. auto. }
  assert (Hold : holds_signals (length t) ss sigs).
  { split; [|exact HSig]. unfold sigs. clearbody elevation. clear -HS One. induction HS as [|X s xs ss' G H IH]; [reflexivity|]. cbn [map]. rewrite (proj2 (One X s G)), IH. reflexivity. }
  assert (Hhd : forall s, hd_error ss = Some s -> se_t s = F t).
  { intros s E. clearbody elevation. clear -HS One E. destruct HS as [|X s' xs ss' G H]; [discriminate|]. cbn in E. injection E as <-. apply (One X s' G). }
  destruct (C49_uniform t0 dt ss sigs x w h detLim) as (i & r & si & sr & E1 & E2 & T1 & X1 & T2 & X2); auto; try (rewrite Hh0; auto; fail).
  rewrite Hh0 in *. fold t in T1, T2, E1.
  assert (E3 := C46_plane_waves t0 dt n M x w h detLim k a p b q HA Hdt HM Hh HL HK HR). cbv zeta in E3. fold t in E3.
  assert (QI : F i = F (map (fun time => wave_field n M dt k a p (fun _ => 0) q time 0) t)
            /\ F r = F (map (fun time => wave_field n M dt k (fun _ => 0) p b q time 0) t)).
  { change (map (fun X => map (fun time => wave_field n M dt k a p b q time (X - nth 0 x 0)) t) x) with sigs in E3. rewrite E1 in E3. apply Ok_inj in E3.
    split; [exact (f_equal fst E3)|exact (f_equal snd E3)]. }
  destruct QI as [QI QR]. apply F_inj in QI, QR. subst i r.
  assert (Hst : step t = dt) by (unfold step, t; rewrite !axis_nth by lia; cbn; ring).
  assert (Hdf : dfreq t = / (INR n * dt)) by (unfold dfreq; rewrite Lt, Hst; reflexivity).
  assert (Hn : INR n <> 0) by (apply not_0_INR; lia).
  assert (Spec : forall s y, se_t s = F t -> se_x s = F y -> length y = n ->
     series_spectrum_raw s (Fin 0) = Ok (fresh (N:=NX) (F (freqs (dfreq t) (nnyq n))) (F (fine_density t y)))).
  { intros s y Et Ex Ly. destruct (record_spectrum t0 dt y (Arr (vec (F t))) (Arr (vec (F y)))) as (s' & I & R); auto; try lia; try apply hv_flat.
    - rewrite Ly. apply hv_flat.
    - rewrite Ly in R. fold t in R. rewrite <- R. unfold series_spectrum_raw. rewrite Et, Ex.
      destruct (C16_uniform_accepted t0 dt y (Arr (vec (F t))) (Arr (vec (F y)))) as (s2 & tc & ws & I' & Et' & Ex' & _); auto; try lia; try apply hv_flat;
        [rewrite Ly; apply hv_flat|]. rewrite I in I'. apply Ok_inj in I'. subst s2. rewrite Et', Ex', Ly. reflexivity. }
  destruct (one_way t0 dt n M k a p q Hdt ltac:(lia)) as [O1 _]. destruct (one_way t0 dt n M k b p q Hdt ltac:(lia)) as [_ O2]. fold t in O1, O2.
  exists si, sr, (freqs (dfreq t) (nnyq n)), (fine_density t (map (fun time => wave_field n M dt k a p (fun _ => 0) q time 0) t)), (fine_density t (map (fun time => wave_field n M dt k (fun _ => 0) p b q time 0) t)).
  split; [exact E2|]. split; [exact T1|]. split; [exact X1|]. split; [exact T2|]. split; [exact X2|].
  split; [apply Spec; auto; rewrite map_length; auto|]. split; [apply Spec; auto; rewrite map_length; auto|].
  rewrite freqs_length, !fine_length, !map_length, Lt. split; [reflexivity|]. split; [reflexivity|]. split; [reflexivity|].
  intros m Hm. split; [rewrite freqs_nth by auto; rewrite Hdf; reflexivity|].
  assert (Hm2 : (m <= n / 2)%nat) by (unfold nnyq in Hm; lia).
  rewrite O1, O2. rewrite !fine_nth by (rewrite harmonics_length; auto).
  rewrite !dens_periodogram by (auto; rewrite harmonics_length; auto). rewrite !harmonics_periodogram by auto. rewrite Hst. auto.
Qed.

(** the significant wave height of a spectrum whose densities are c^2 times as large is c times as large, in every band *)
Lemma height_times (f s : list R) (c hm : R) (fmin fmax : xr) : freq_axis f -> length s = length f ->
  snd (get_Hm0 fmin fmax (fresh (N:=NX) (F f) (F s))) = Ok (Fin hm) ->
  snd (get_Hm0 fmin fmax (fresh (N:=NX) (F f) (F (times (c ^ 2) s)))) = Ok (Fin (Rabs c * hm)).
Proof.
  intros Hf Hl E. unfold get_Hm0 in *. rewrite (getter_value _ _ fmin fmax _ f s) in E by reflexivity.
  rewrite (getter_value _ _ fmin fmax _ f (times (c ^ 2) s)) by reflexivity. unfold v_Hm0 in *.
  apply bind_inv in E as ([lo hi] & -> & E). rewrite bind_Ok. apply bind_inv in E as (m0 & E0 & E). apply Ok_inj in E.
  assert (M0 : exists v, m0 = Fin v /\ 0 <= v).
  { clear E0. destruct m0 as [v| | |].
    - exists v. split; auto. destruct (Rle_dec 0 v); auto. exfalso. assert (X : v < 0) by lra. revert E. 
      rewrite (proj2 (sqrt_root (Fin v)) X). discriminate.
    - exfalso. revert E. cbn. unfold xinf_times. destruct (Rlt_dec 0 4); [discriminate|]; destruct (Rlt_dec 4 0); discriminate.
    - exfalso. revert E. cbn. discriminate.
    - exfalso. revert E. cbn. discriminate. }
  destruct M0 as (v & -> & Hv). rewrite fin_sqrt, fin_ofZ, fin_mul in E by auto. apply fin_inj in E.
  unfold v_moment in *.
  assert (E1 := C32_linear f s s 0 (c ^ 2) 0 lo hi v v Hf Hl Hl E0 E0).
  replace (map2 (fun x y => c ^ 2 * x + 0 * y) s s) with (times (c ^ 2) s) in E1.
  2:{ apply (nth_ext' _ _ 0); [rewrite map2_length, times_length; lia|]. intros j Hj. rewrite times_length in Hj.
      rewrite times_nth, (map2_nth _ _ _ _ 0 0 0) by auto. ring. }
  rewrite E1, bind_Ok. replace (c ^ 2 * v + 0 * v) with (c ^ 2 * v) by ring.
  assert (P : 0 <= c ^ 2) by apply pow2_ge_0.
  rewrite fin_sqrt, fin_ofZ, fin_mul by (apply Rmult_le_pos; auto). do 2 f_equal. rewrite sqrt_mult by auto.
  rewrite <- Rsqr_pow2, sqrt_Rsqr_abs, <- E. ring.
Qed.

(** a reflector that reflects the fraction Kr of every component (with whatever phases): at every resolution and in every band the
    significant wave height of the reflected Series is |Kr| times that of the incident Series *)
Theorem C76_coefficient (t0 dt Kr : R) (n M : nat) (x w : list R) (h detLim : R) (k a p q : nat -> R) (ss : list (series NX)) :
  let t := axis t0 dt n in
  let elevation time X := wave_field n M dt k a p (fun m => Kr * a m) q time (X - nth 0 x 0) in
  Forall2 (gauge_series t elevation) x ss ->
  accepted t (map (fun X => map (fun time => elevation time X) t) x) x w ->
  0 < dt -> (2 * M < n)%nat -> 0 < h -> 0 <= detLim -> wave_numbers t h k ->
  (forall m, (1 <= m <= M)%nat -> retained detLim w x (k m)) ->
  exists si sr, decompose_linear_ZS_series ss (Fin h) (F x) (F w) (Fin detLim) = Ok (si, sr)
    /\ forall (df : R) (spi : spec NX), series_spectrum_raw si (Fin df) = Ok spi ->
       exists spr, series_spectrum_raw sr (Fin df) = Ok spr
       /\ forall (fmin fmax : xr) (hm : R), snd (get_Hm0 fmin fmax spi) = Ok (Fin hm) -> snd (get_Hm0 fmin fmax spr) = Ok (Fin (Rabs Kr * hm)).
Proof.
  intros t elevation HS HA Hdt HM Hh HL HK HR.
  destruct (C76_spectra t0 dt n M x w h detLim k a p (fun m => Kr * a m) q ss HS HA Hdt HM Hh HL HK HR)
    as (si & sr & _ & _ & _ & E & T1 & X1 & T2 & X2 & _). fold t in T1, X1, T2, X2.
  exists si, sr. split; [exact E|]. clear HS. intros df spi Es.
  assert (Lt : length t = n) by apply axis_length. assert (Hg := acc_axis _ _ _ _ HA). assert (H2 := proj1 Hg). rewrite Lt in H2.
  destruct (one_way t0 dt n M k a p q Hdt ltac:(lia)) as [O1 _]. destruct (one_way t0 dt n M k (fun m => Kr * a m) p q Hdt ltac:(lia)) as [_ O2].
  fold t in O1, O2. rewrite O1 in X1. rewrite O2 in X2. unfold series_spectrum_raw in *. rewrite T1, X1 in Es. rewrite T2, X2.
  set (yi := harmonics n M a _) in *. set (yr := harmonics n M (fun m => Kr * a m) _) in *.
  assert (Li : length yi = length t) by (rewrite Lt; apply harmonics_length). assert (Lr : length yr = length t) by (rewrite Lt; apply harmonics_length).
  destruct (spectrum_rel t yi yr df (Arr (vec (F t))) (Arr (vec (F yi))) (Arr (vec (F yr)))) as (r & f & S & S' & E1 & E2 & Hr & L & L' & V);
    auto; try apply hv_flat.
  destruct (C58_density t yi df (Arr (vec (F t))) (Arr (vec (F yi)))) as (r' & f' & S2 & _ & Hr' & E1' & Lf & LS & VF); auto; try apply hv_flat.
  rewrite E1 in E1'. apply Ok_inj in E1'. assert (Ff := f_equal fst E1'). assert (FS := f_equal snd E1'). cbn [fst snd] in Ff, FS. apply F_inj in Ff, FS. subst f' S2.
  rewrite E1, bind_Ok in Es. rewrite E2, bind_Ok.
  assert (S' = times (Kr ^ 2) S) as ->.
  { apply (nth_ext' _ _ 0); [rewrite times_length; auto|]. intros i Hi. rewrite L' in Hi. destruct (V i Hi) as (V1 & V2 & B).
    rewrite times_nth, V1, V2, <- Rmean_scale, map_map. f_equal. apply map_ext_in. intros j Hj. apply in_seq in Hj.
    unfold yi in B. rewrite harmonics_length in B.
    unfold yi, yr. rewrite !harmonics_periodogram by (auto; lia). destruct (_ || _); [ring|]. unfold Rdiv. ring. }
  assert (Fresh : good_axis f /\ spi = fresh (N:=NX) (F f) (F S)).
  { unfold spectrum_init in Es. rewrite !vec_convert in Es. cbn [fst snd] in Es. rewrite as_list_vec, bind_Ok in Es.
    destruct (le_lt_dec 2 (length f)) as [G2|G2].
    - destruct (C02_accepts_iff f G2) as (b & Eb & Hb). rewrite Eb, bind_Ok in Es. destruct b; [|discriminate]. cbn [negb] in Es.
      rewrite !F_length in Es. replace (length S) with (length f) in Es by lia. rewrite Nat.eqb_refl, as_list_vec, bind_Ok in Es. cbn [negb] in Es. apply Ok_inj in Es.
      split; [split; auto; apply Hb; auto|auto].
    - rewrite C02_short_axis in Es by (rewrite F_length; auto). discriminate. }
  destruct Fresh as [GA ->].
  assert (SN : times (Kr ^ 2) S <> []) by (intros Z; apply (f_equal (@length _)) in Z; rewrite times_length in Z; destruct GA; cbn in Z; lia).
  destruct (C63_object f (times (Kr ^ 2) S) (Arr (vec (F f))) (Arr (vec (F (times (Kr ^ 2) S)))) (proj1 GA) SN (hv_flat _) (hv_flat _)) as [O3 _].
  eexists. split; [apply O3; auto; rewrite times_length; lia|].
  intros fmin fmax hm. apply height_times; [|lia]. split; [exact GA|].
  assert (Q : (0 < length f)%nat) by (destruct GA; lia). rewrite Lf in Q. rewrite (proj1 (VF 0%nat Q)).
  apply Rmean_nonneg. intros v Hv. apply in_map_iff in Hv. destruct Hv as (j & <- & _).
  assert (Hd := dfreq_pos t Hg). apply Rmult_le_pos; [apply pos_INR|]. unfold dfreq in Hd. rewrite Li. lra.
Qed.

(** two gauges a quarter wave length apart, 5 m of water, an incident wave of amplitude 2 and a reflection coefficient 1/2 *)
Example C76_witness : exists x k ss,
  let t := axis 0 1 8 in
  let elevation time X := wave_field 8 1 1 k (fun _ => 2) (fun _ => 0) (fun m => 1 / 2 * (fun _ => 2) m) (fun _ => 1) time (X - nth 0 x 0) in
  Forall2 (gauge_series t elevation) x ss
  /\ accepted t (map (fun X => map (fun time => elevation time X) t) x) x [1; 1]
  /\ wave_numbers t 5 k /\ (forall m, (1 <= m <= 1)%nat -> retained (125 / 1000) [1; 1] x (k m)).
Proof.
  set (t := axis 0 1 8). set (k := wavenr t 5). assert (G : good_axis t) by (apply axis_good; [lia|lra]).
  assert (K := wavenr_pos t 5 1 G ltac:(lra) ltac:(cbn; lia)). fold k in K.
  assert (P := PI_RGT_0). assert (X : 0 < PI / 2 / k 1%nat) by (apply Rdiv_lt_0_compat; lra).
  set (x := [0; PI / 2 / k 1%nat]).
  set (el := fun time X => wave_field 8 1 1 k (fun _ => 2) (fun _ => 0) (fun m => 1 / 2 * (fun _ => 2) m) (fun _ => 1) time (X - nth 0 x 0)).
  assert (E : forall Y, exists s, gauge_series t el Y s).
  { intros Y. destruct (C16_uniform_accepted 0 1 (map (fun time => el time Y) t) (Arr (vec (F t))) (Arr (vec (F (map (fun time => el time Y) t))))) as (s & tc & ws & E & _);
      try lra; try (rewrite map_length; cbn; lia); try (rewrite ?map_length; apply hv_flat).
    exists s. eexists _, _. split; [apply hv_flat|]. split; [apply hv_flat|exact E]. }
  destruct (E 0) as [s0 E0]. destruct (E (PI / 2 / k 1%nat)) as [s1 E1].
  exists x, k, [s0; s1]. cbv zeta. fold t el. split; [|split; [|split]].
  - repeat constructor; assumption.
  - constructor; auto; try (cbn; lia).
    + intros s Hs. apply in_map_iff in Hs. destruct Hs as (v & <- & _). apply map_length.
    + intros i j Hij. cbn [length x] in Hij. assert (i = 0%nat /\ j = 1%nat) as [-> ->] by lia. cbn. lra.
    + left. intros v [<-|[<-|[]]]; lra.
    + cbn. lra.
  - apply wn_exists. lra.
  - intros m Hm. assert (m = 1%nat) as -> by lia. unfold retained, separation. subst x. cbn [length]. rewrite !RS_S, !RS_0. cbn [nth].
    replace (k 1%nat * (PI / 2 / k 1%nat - 0)) with (PI / 2) by (field; lra). rewrite sin_PI2. unfold Rsqr. rewrite Rabs_pos_eq; lra.
Qed.
