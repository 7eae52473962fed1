(** * Values returned by the getters of a Spectrum object (C63) and the split at a cut-off frequency (C64) *)

From Coq Require Import Reals ZArith List Bool Lra Lia.
From Coquelicot Require Import Coquelicot.
From Verif Require Import Num XR Spec XRFacts RSum Engine EngineProps FourierSpec TimeProps TimeProps3 SeriesProps FourierFacts BandProps
  WaveModel SpectrumModel SimpsonFacts MomentProps PeakProps ParamProps.
Import ListNotations.
Open Scope R_scope.

(** [q] is the floating-point quotient of two finite numbers, division by zero included *)
Definition quotient (a b : R) (q : xr) : Prop :=
  (b <> 0 -> q = Fin (a / b)) /\ (b = 0 -> (0 < a -> q = PInf) /\ (a < 0 -> q = NInf) /\ (a = 0 -> q = NaN)).
(** [q] is the floating-point square root of [v] *)
Definition root (v q : xr) : Prop :=
  match v with
  | Fin r => (0 <= r -> q = Fin (sqrt r)) /\ (r < 0 -> q = NaN)
  | PInf => q = PInf | NInf => q = NaN | NaN => q = NaN
  end.

Lemma div_quotient a b : quotient a b (ndiv (n:=NX) (Fin a) (Fin b)).
Proof.
  split; [intros H; apply fin_div; auto|]. intros ->. cbn. destruct (Req_EM_T 0 0); [|lra]. unfold xinf_times.
  repeat split; intros H; destruct (Rlt_dec 0 a); try lra; try reflexivity; destruct (Rlt_dec a 0); try lra; reflexivity.
Qed.
Lemma sqrt_root (v : xr) : root v (nsqrt (n:=NX) v).
Proof.
  destruct v as [r| | |]; try reflexivity. split; intros H; [apply fin_sqrt; auto|].
  cbn. destruct (Rlt_dec r 0); [reflexivity|lra].
Qed.

(** ** C63: every getter returns the quantity of its name, whatever was asked of the object before *)
Theorem C63_getters (f s : list R) (fmin fmax hi : xr) (lo : R) (sp : spec NX) :
  s_f sp = F f -> s_S sp = F s ->
  freq_axis f -> length s = length f -> lower_limit f fmin (Fin lo) -> upper_limit f fmax hi ->
  (exists k, in_band f (Fin lo) hi k) ->
  exists m_1 m0 m1 m2 q T,
     moment f s (-1) (Fin lo) hi = Ok (Fin m_1) /\ moment f s 0 (Fin lo) hi = Ok (Fin m0)
  /\ moment f s 1 (Fin lo) hi = Ok (Fin m1) /\ moment f s 2 (Fin lo) hi = Ok (Fin m2)
  /\ (0 <= m0 -> snd (get_Hm0 fmin fmax sp) = Ok (Fin (4 * sqrt m0)))
  /\ (m0 < 0 -> snd (get_Hm0 fmin fmax sp) = Ok NaN)
  /\ (exists t, quotient m_1 m0 t /\ snd (get_Tmm10 fmin fmax sp) = Ok t)
  /\ (exists t, quotient m0 m1 t /\ snd (get_Tm01 fmin fmax sp) = Ok t)
  /\ quotient m0 m2 q /\ root q T /\ snd (get_Tm02 fmin fmax sp) = Ok T.
Proof.
  intros Ef Es Hf Hl Hlo Hhi [k Hk]. destruct (band_limits f lo hi k Hf Hk) as [N2 Hle].
  assert (Hne : f <> []) by (intros ->; destruct Hf as [[A _] _]; cbn in A; lia).
  assert (N1 : lo <> -1).
  { destruct Hlo as [[_ E]|[N E]]; [|intros ->; auto]. apply fin_inj in E. destruct Hf as [_ H0]. lra. }
  destruct (moment_finite f s (-1) lo hi Hf Hl N1 N2 Hle) as [m_1 E_1]; [lia|].
  destruct (moment_finite f s 0 lo hi Hf Hl N1 N2 Hle) as [m0 E0]; [lia|].
  destruct (moment_finite f s 1 lo hi Hf Hl N1 N2 Hle) as [m1 E1]; [lia|].
  destruct (moment_finite f s 2 lo hi Hf Hl N1 N2 Hle) as [m2 E2]; [lia|].
  exists m_1, m0, m1, m2, (ndiv (n:=NX) (Fin m0) (Fin m2)), (nsqrt (n:=NX) (ndiv (n:=NX) (Fin m0) (Fin m2))).
  do 4 (split; [assumption|]).
  unfold get_Hm0, get_Tmm10, get_Tm01, get_Tm02. rewrite !(getter_value _ _ fmin fmax sp f s) by auto.
  unfold v_Hm0, v_Tmm10, v_Tm01, v_Tm02. rewrite (set_flim_F f fmin fmax (Fin lo) hi) by auto. rewrite !bind_Ok.
  unfold v_moment. rewrite E_1, E0, E1, E2, !bind_Ok.
  split; [intros H; rewrite fin_sqrt, fin_ofZ, fin_mul by auto; reflexivity|].
  split; [intros H; rewrite (proj2 (sqrt_root (Fin m0)) H); reflexivity|].
  split; [eexists; split; [apply div_quotient|reflexivity]|].
  split; [eexists; split; [apply div_quotient|reflexivity]|].
  split; [apply div_quotient|]. split; [apply sqrt_root|reflexivity].
Qed.
(** with an explicit cut-off the band variants are the getters over that band *)
Theorem C63_explicit_band (sp : spec NX) (fmin fmax fc : xr) : fc <> Fin (-1) ->
     snd (get_Hm0_HF fc fmax sp) = snd (get_Hm0 fc fmax sp) /\ snd (get_Hm0_LF fmin fc sp) = snd (get_Hm0 fmin fc sp)
  /\ snd (get_Tmm10_HF fc fmax sp) = snd (get_Tmm10 fc fmax sp) /\ snd (get_Tmm10_LF fmin fc sp) = snd (get_Tmm10 fmin fc sp).
Proof.
  intros H.
  assert (D : default_cutoff (N:=NX) fc = mret fc).
  { unfold default_cutoff. change (nopp (n:=NX) n1) with (Fin (-1)).
    destruct (neqb (n:=NX) fc (Fin (-1))) eqn:E; [apply neqb_m1 in E; contradiction|reflexivity]. }
  unfold get_Hm0_HF, get_Hm0_LF, get_Tmm10_HF, get_Tmm10_LF. rewrite D. unfold mbind, mret.
  unfold get_Hm0, get_Tmm10, getter, mbind, mget, mlift, mset.
  destruct (v_Hm0 _ _ fc fmax), (v_Hm0 _ _ fmin fc), (v_Tmm10 _ _ fc fmax), (v_Tmm10 _ _ fmin fc); repeat split.
Qed.
(** ... and they agree with compute_spectrum_params whenever it reports a wave height *)
Theorem C63_parameters_agree (f s : list R) (fmin fmax hi : xr) (lo : R) (sp : spec NX) p :
  s_f sp = F f -> s_S sp = F s ->
  freq_axis f -> length s = length f -> lower_limit f fmin (Fin lo) -> upper_limit f fmax hi ->
  (exists k, in_band f (Fin lo) hi k) ->
  parameters f s fmin fmax = Ok p -> p_hm0 p <> NaN ->
     snd (get_Hm0 fmin fmax sp) = Ok (p_hm0 p) /\ snd (get_Tmm10 fmin fmax sp) = Ok (p_tmm10 p)
  /\ snd (get_Tm01 fmin fmax sp) = Ok (p_tm01 p) /\ snd (get_Tm02 fmin fmax sp) = Ok (p_tm02 p)
  /\ snd (get_Tp fmin fmax sp) = Ok (p_tp p) /\ snd (get_Tps fmin fmax sp) = Ok (p_tps p).
Proof.
  intros Ef Es Hf Hl Hlo Hhi Hb Ep Np.
  assert (Hne : f <> []) by (intros ->; destruct Hf as [[A _] _]; cbn in A; lia).
  rewrite (params_unfold f s fmin fmax (Fin lo) hi) in Ep by auto.
  unfold get_Hm0, get_Tmm10, get_Tm01, get_Tm02, get_Tp, get_Tps. rewrite !(getter_value _ _ fmin fmax sp f s) by auto.
  apply bind_inv in Ep as (m_1 & E_1 & Ep). apply bind_inv in Ep as (m0 & E0 & Ep).
  apply bind_inv in Ep as (m1 & E1 & Ep). apply bind_inv in Ep as (m2 & E2 & Ep). cbv zeta in Ep.
  destruct (_ || _).
  - apply Ok_inj in Ep. subst p. contradiction Np. reflexivity.
  - apply bind_inv in Ep as (Tp & Etp & Ep). apply bind_inv in Ep as (Tps & Etps & Ep). apply Ok_inj in Ep. subst p.
    cbn [p_hm0 p_tmm10 p_tm01 p_tm02 p_tp p_tps].
    unfold v_Hm0, v_Tmm10, v_Tm01, v_Tm02. rewrite (set_flim_F f fmin fmax (Fin lo) hi) by auto. rewrite !bind_Ok.
    unfold v_moment. rewrite E_1, E0, E1, E2, !bind_Ok. auto 10.
Qed.

(** the constructor *)
Theorem C63_object (f s : list R) (af as_ : arraylike NX) :
  (2 <= length f)%nat -> s <> [] -> holds_vector (F f) af -> holds_vector (F s) as_ ->
     (good_axis f -> length s = length f -> spectrum_init af as_ = Ok (fresh (N:=NX) (F f) (F s)))
  /\ (~ good_axis f \/ length s <> length f -> spectrum_init af as_ = Raise AssertionError).
Proof.
  intros L2 Hs Ha Hb. assert (Hf : F f <> []) by (intros E; apply (f_equal (@length _)) in E; rewrite F_length in E; cbn in E; lia).
  assert (Hs' : F s <> []) by (apply F_ne; auto).
  destruct (C01_interchangeable_wave (F f) (F s) af as_ Hf Hs' Ha Hb) as (_ & _ & _ & _ & _ & _ & -> & _).
  unfold spectrum_init. rewrite !vec_convert. cbn [fst snd]. rewrite as_list_vec, bind_Ok.
  destruct (C02_accepts_iff f L2) as (b & -> & Hb'). rewrite bind_Ok, !F_length. split.
  - intros Hg Hl. rewrite (proj2 Hb' (proj2 Hg)), Hl, Nat.eqb_refl. cbn [negb]. rewrite as_list_vec. reflexivity.
  - intros H. destruct b; [|reflexivity]. cbn [negb]. assert (G := proj1 Hb' eq_refl).
    destruct H as [H|H]; [contradiction H; split; auto|].
    destruct (Nat.eqb_spec (length f) (length s)); [congruence|]. reflexivity.
Qed.
Example C63_witness : let f := axis 0 1 5 in let s := [0; 1; 0; 0; 0] in
  freq_axis f /\ length s = length f /\ lower_limit f (Fin (-1)) (Fin (nth 0 f 0)) /\ upper_limit f (Fin (-1)) (Fin (last_of f))
  /\ (exists k, in_band f (Fin (nth 0 f 0)) (Fin (last_of f)) k)
  /\ exists v, moment f s 0 (Fin (-1)) (Fin (-1)) = Ok (Fin v) /\ 1 <= v.
Proof.
  cbv zeta. assert (Hf : freq_axis (axis 0 1 5)) by (apply axis_freq; lra || lia). split; [auto|]. split; [reflexivity|].
  split; [left; auto|]. split; [left; auto|]. split.
  - exists 0%nat. apply whole_band; [apply good_increasing, Hf|]. rewrite axis_length. lia.
  - apply C34_witness.
Qed.

(** ** C64: energy below and above a cut-off *)
Lemma rbasic_split n : forall (a a' b b' : list R) p q, (length a <= n)%nat -> Nat.even (length a) = true -> length a' = length a -> length b' = length b ->
  rbasic (a ++ p :: b) (a' ++ q :: b') = rbasic (a ++ [p]) (a' ++ [q]) + rbasic (p :: b) (q :: b').
Proof.
  induction n as [n IH] using lt_wf_ind. intros a a' b b' p q Hn He La Lb.
  destruct a as [|a0 [|a1 a]]; destruct a' as [|c0 [|c1 c]]; cbn [length] in *; try lia; try discriminate.
  - cbn [app]. change (rbasic [p] [q]) with 0. ring.
  - assert (IH' := IH (n - 2)%nat ltac:(lia) a c b b' p q ltac:(lia) He ltac:(lia) Lb).
    assert (E : forall l l' u u', (l = [] <-> l' = []) -> 
       rbasic (a0 :: a1 :: l ++ u :: b) (c0 :: c1 :: l' ++ u' :: b')
       = rpanel a0 a1 (hd 0 (l ++ [u])) c0 c1 (hd 0 (l' ++ [u'])) + rbasic (l ++ u :: b) (l' ++ u' :: b')).
    { intros l l' u u' Hll. destruct l, l'; try reflexivity; exfalso; destruct Hll as [H1 H2]; first [discriminate (H1 eq_refl)|discriminate (H2 eq_refl)]. }
    assert (E' : forall l l' u u', (l = [] <-> l' = []) -> 
       rbasic (a0 :: a1 :: l ++ [u]) (c0 :: c1 :: l' ++ [u'])
       = rpanel a0 a1 (hd 0 (l ++ [u])) c0 c1 (hd 0 (l' ++ [u'])) + rbasic (l ++ [u]) (l' ++ [u'])).
    { intros l l' u u' Hll. destruct l, l'; try reflexivity; exfalso; destruct Hll as [H1 H2]; first [discriminate (H1 eq_refl)|discriminate (H2 eq_refl)]. }
    assert (Hac : a = [] <-> c = []) by (destruct a, c; cbn in La; split; intros; try reflexivity; try discriminate; lia).
    cbn [app]. rewrite E, E' by auto. rewrite IH'. ring.
Qed.
Lemma rsimp_split (a a' b b' : list R) p q : Nat.even (length a) = true -> length a' = length a -> length b' = length b ->
  (a = [] \/ length b <> 1%nat) ->
  rsimp (a ++ p :: b) (a' ++ q :: b') = rsimp (a ++ [p]) (a' ++ [q]) + rsimp (p :: b) (q :: b').
Proof.
  intros He La Lb Hab.
  assert (O1 : Nat.odd (length (a ++ [p])) = true).
  { rewrite app_length. cbn [length]. rewrite Nat.add_1_r, Nat.odd_succ. auto. }
  assert (X : rsimp (a ++ [p]) (a' ++ [q]) = rbasic (a ++ [p]) (a' ++ [q])) by (unfold rsimp; rewrite O1; reflexivity).
  rewrite X.
  assert (Op : Nat.odd (length (a ++ p :: b)) = Nat.odd (length (p :: b))).
  { rewrite app_length, Nat.odd_add. unfold Nat.odd at 1. rewrite He. cbn [negb]. apply xorb_false_l. }
  unfold rsimp. rewrite Op. destruct (Nat.odd (length (p :: b))) eqn:O; [apply (rbasic_split (length a)); auto|].
  rewrite (rbasic_split (length a)) by auto. rewrite app_length. cbn [length] in *.
  destruct Hab as [-> |Hb].
  - destruct a'; [|discriminate]. cbn [length app Nat.add]. change (rbasic [p] [q]) with 0. 
    destruct (Nat.eqb (S (length b)) 2) eqn:E2; [|ring]. apply Nat.eqb_eq in E2.
    destruct b as [|b0 [|]]; cbn in E2; try lia. destruct b' as [|b0' [|]]; cbn in Lb; try lia. cbn. ring.
  - assert (Lb3 : (3 <= length b)%nat).
    { destruct b as [|b0 [|b1 [|]]]; cbn in *; try discriminate; try lia. }
    destruct (Nat.eqb_spec (length a + S (length b)) 2); [lia|]. destruct (Nat.eqb_spec (S (length b)) 2); [lia|].
    rewrite !(app_nth2 a), !(app_nth2 a') by lia. rewrite La.
    replace (length a + S (length b) - 3 - length a)%nat with (S (length b) - 3)%nat by lia.
    replace (length a + S (length b) - 2 - length a)%nat with (S (length b) - 2)%nat by lia.
    replace (length a + S (length b) - 1 - length a)%nat with (S (length b) - 1)%nat by lia. ring.
Qed.
Lemma slice_split {A} (l : list A) d i c j : (i <= c)%nat -> (c <= j)%nat -> (j < length l)%nat ->
  slice i (j + 1) l = slice i c l ++ nth c l d :: slice (c + 1) (j + 1) l
  /\ slice i (c + 1) l = slice i c l ++ [nth c l d] /\ slice c (j + 1) l = nth c l d :: slice (c + 1) (j + 1) l.
Proof.
  intros H1 H2 H3.
  assert (P : forall a b, (a <= b)%nat -> (b < length l)%nat -> slice a (b + 1) l = slice a b l ++ [nth b l d]).
  { intros a b Hab Hb. apply (nth_ext' _ _ d); rewrite ?app_length, !slice_length; try (cbn [length]; lia).
    intros k Hk. destruct (Nat.lt_ge_cases k (b - a)) as [L|L].
    - rewrite app_nth1 by (rewrite slice_length; lia). rewrite !slice_nth by lia. reflexivity.
    - rewrite app_nth2 by (rewrite slice_length; lia). rewrite slice_length, slice_nth by lia.
      replace (k - (Nat.min b (length l) - a))%nat with 0%nat by lia. cbn [nth]. f_equal. lia. }
  assert (Q : forall a b, (a <= b)%nat -> (b < length l)%nat -> slice a (b + 1) l = nth a l d :: slice (a + 1) (b + 1) l).
  { intros a b Hab Hb. apply (nth_ext' _ _ d); cbn [length]; rewrite ?slice_length; try lia.
    intros k Hk. rewrite slice_nth by lia. destruct k as [|k]; cbn [nth]; [f_equal; lia|]. rewrite slice_nth by lia. f_equal. lia. }
  split; [|split; [apply P; lia|apply Q; lia]].
  apply (nth_ext' _ _ d); rewrite ?app_length; cbn [length]; rewrite ?slice_length; try lia.
  intros k Hk. rewrite slice_nth by lia. destruct (Nat.lt_ge_cases k (c - i)) as [L|L].
  - rewrite app_nth1 by (rewrite slice_length; lia). rewrite slice_nth by lia. reflexivity.
  - rewrite app_nth2 by (rewrite slice_length; lia). rewrite slice_length.
    destruct (k - (Nat.min c (length l) - i))%nat as [|r] eqn:E; cbn [nth]; [f_equal; lia|]. rewrite slice_nth by lia. f_equal. lia.
Qed.

(** last grid point used for an upper limit *)
Definition upper_index (f : list R) (hi : xr) (j : nat) : Prop :=
  match hi with Fin h => nearest f h j | PInf => S j = length f | _ => False end.

Theorem C64_split (f s : list R) (m : Z) (lo fc : R) (hi : xr) (i c j : nat) :
  freq_axis f -> length s = length f -> (m < 4)%Z -> (0 <= m)%Z \/ 0 < nth 0 f 0 ->
  lo <> -1 -> fc <> -1 -> hi <> Fin (-1) -> lo <= fc -> fc <= last_of f -> ext_le (Fin fc) hi ->
  nearest f lo i -> nearest f fc c -> upper_index f hi j ->
  Nat.even (c - i) = true -> c = i \/ j <> S c ->
  exists a b, moment f s m (Fin lo) (Fin fc) = Ok (Fin a) /\ moment f s m (Fin fc) hi = Ok (Fin b)
              /\ moment f s m (Fin lo) hi = Ok (Fin (a + b)).
Proof.
  intros Hf Hl Hm Hz N1 N2 N3 H1 Hfc H2 Ni Nc Nj He Hcj.
  assert (Hi : increasing f) by (apply good_increasing, Hf).
  assert (Wf : forall l, without_zero m f l = l).
  { intros l. unfold without_zero. destruct (Z.ltb_spec m 0); [|reflexivity]. rewrite Reqb_false; [reflexivity|]. destruct Hz; [lia|lra]. }
  assert (Lw : length (weighted m f s) = length f) by (rewrite g_length, Wf; auto).
  assert (Lf : (0 < length f)%nat) by (destruct Ni; lia).
  assert (Hic : (i <= c)%nat) by (apply (nearest_mono f lo fc); auto).
  (* sum over the grid up to h *)
  assert (Body : forall h jh, h <> -1 -> fc <= h -> h <= last_of f -> nearest f h jh -> c = i \/ jh <> S c ->
     exists a b, moment f s m (Fin lo) (Fin fc) = Ok (Fin a) /\ moment f s m (Fin fc) (Fin h) = Ok (Fin b)
              /\ moment f s m (Fin lo) (Fin h) = Ok (Fin (a + b))).
  { intros h jh Nh Hh Hle Njh Hne.
    destruct (moment_in f s m Hf Hl lo fc N1 N2 (or_introl H1) Hfc) as (i1 & c1 & A1 & A2 & _ & E1).
    destruct (moment_in f s m Hf Hl fc h N2 Nh (or_introl Hh) Hle) as (c2 & j2 & A3 & A4 & _ & E2).
    destruct (moment_in f s m Hf Hl lo h N1 Nh ltac:(left; lra) Hle) as (i3 & j3 & A5 & A6 & _ & E3).
    rewrite !Wf in *.
    assert (i1 = i) as -> by (apply (nearest_unique f lo); auto). assert (i3 = i) as -> by (apply (nearest_unique f lo); auto).
    assert (c1 = c) as -> by (apply (nearest_unique f fc); auto). assert (c2 = c) as -> by (apply (nearest_unique f fc); auto).
    assert (j2 = jh) as -> by (apply (nearest_unique f h); auto). assert (j3 = jh) as -> by (apply (nearest_unique f h); auto).
    assert (Hcj' : (c <= jh)%nat) by (apply (nearest_mono f fc h); auto). assert (Lj : (jh < length f)%nat) by (destruct Njh; auto).
    eexists _, _. split; [exact E1|]. split; [exact E2|]. rewrite E3. do 2 f_equal.
    set (g := weighted m f s) in *.
    destruct (slice_split f 0 i c jh) as (F1 & F2 & F3); try lia. destruct (slice_split g 0 i c jh) as (G1 & G2 & G3); try lia.
    rewrite F1, F2, F3, G1, G2, G3. apply rsimp_split; rewrite ?slice_length; try lia.
    - rewrite Nat.min_l by lia. auto.
    - destruct Hne as [-> |Hne]; [left; apply length_zero_iff_nil; rewrite slice_length; lia|].
      right. rewrite Nat.min_l by lia. lia. }
  destruct hi as [h| | |]; try contradiction.
  - assert (Nh : h <> -1) by (intros ->; auto). cbn in H2, Nj. destruct (Rle_lt_dec h (last_of f)) as [Hh|Hh]; [apply (Body h j); auto|].
    assert (Lt : j = (length f - 1)%nat).
    { apply (nearest_unique f h); auto. split; [lia|]. assert (Z : forall k, (k < length f)%nat -> nth k f 0 <= last_of f).
      { intros k Hk. unfold last_of. destruct (Nat.eq_dec k (length f - 1)) as [->|]; [lra|]. apply Rlt_le, Hi. lia. }
      fold (last_of f). split; intros k Hk.
      - assert (W := Z k Hk). rewrite !Rabs_left1; lra.
      - assert (W := Hi k (length f - 1)%nat ltac:(lia)). fold (last_of f) in W. rewrite !Rabs_left1; lra. }
    subst j. destruct (fq_last f m Hf) as [_ Pl].
    destruct (Body (last_of f) (length f - 1)%nat) as (a & b & E1 & E2 & E3); auto; try lra; [apply nearest_self; auto; lia|].
    destruct (C33_tail_finite f s m lo Hf Hl N1 h) as (b' & Eb' & Et); [lia|auto|].
    destruct (C33_tail_finite f s m fc Hf Hl N2 h) as (b2 & Eb2 & Et2); [lia|auto|].
    rewrite E3 in Eb'. apply Ok_inj, fin_inj in Eb'. rewrite E2 in Eb2. apply Ok_inj, fin_inj in Eb2. subst b' b2.
    eexists _, _. split; [exact E1|]. split; [exact Et2|]. rewrite Et. do 2 f_equal. ring.
  - cbn in Nj. assert (j = (length f - 1)%nat) as -> by lia. destruct (fq_last f m Hf) as [_ Pl].
    destruct (Body (last_of f) (length f - 1)%nat) as (a & b & E1 & E2 & E3); auto; try lra; [apply nearest_self; auto; lia|].
    destruct (C33_tail_infinite f s m lo Hf Hl N1 Hm) as (b' & Eb' & Et & _).
    destruct (C33_tail_infinite f s m fc Hf Hl N2 Hm) as (b2 & Eb2 & Et2 & _).
    rewrite E3 in Eb'. apply Ok_inj, fin_inj in Eb'. rewrite E2 in Eb2. apply Ok_inj, fin_inj in Eb2. subst b' b2.
    eexists _, _. split; [exact E1|]. split; [exact Et2|]. rewrite Et. do 2 f_equal. ring.
Qed.

(** low- and high-frequency wave heights of a Spectrum object, with one explicit cut-off *)
Theorem C64_wave_heights (f0 df lo fc : R) (s : list R) (fmin fmax hi : xr) (i c j : nat) (sp : spec NX) :
  let f := axis f0 df (length s) in
  0 <= f0 -> 0 < df -> (2 <= length s)%nat -> (forall k, (k < length s)%nat -> 0 <= nth k s 0) ->
  s_f sp = F f -> s_S sp = F s ->
  lower_limit f fmin (Fin lo) -> upper_limit f fmax hi -> lo <= fc -> f0 <= fc <= last_of f -> ext_le (Fin fc) hi ->
  nearest f lo i -> nearest f fc c -> upper_index f hi j -> Nat.even (c - i) = true -> c = i \/ j <> S c ->
  exists L H T, snd (get_Hm0_LF fmin (Fin fc) sp) = Ok (Fin L) /\ snd (get_Hm0_HF (Fin fc) fmax sp) = Ok (Fin H)
             /\ snd (get_Hm0 fmin fmax sp) = Ok (Fin T) /\ T ^ 2 = L ^ 2 + H ^ 2.
Proof.
  intros f H0 Hd Hn Hs Ef Es Hlo Hhi H1 Hfc H2 Ni Nc Nj He Hcj.
  assert (Hf : freq_axis f) by (apply axis_freq; auto).
  assert (Hl : length s = length f) by (unfold f; rewrite axis_length; auto).
  assert (Hne : f <> []) by (intros E; rewrite E in Hl; cbn in Hl; lia).
  assert (N2 : fc <> -1) by lra.
  assert (N1 : lo <> -1).
  { destruct Hlo as [[_ E]|[N E]]; [|intros ->; auto]. apply fin_inj in E. destruct Hf as [_ Z0]. lra. }
  assert (N3 : hi <> Fin (-1)) by (intros ->; cbn in H2; lra).
  destruct (C64_split f s 0 lo fc hi i c j Hf Hl) as (a & b & Ea & Eb & Et); auto; try lia; try lra; try (left; lia).
  assert (N2' : Fin fc <> Fin (-1)) by (intros E; apply fin_inj in E; auto).
  assert (Pa : 0 <= a) by (apply (moment_nonneg f0 df s 0 lo (Fin fc)); auto; lia).
  assert (Pb : 0 <= b) by (apply (moment_nonneg f0 df s 0 fc hi); auto; lia).
  destruct (C63_explicit_band sp fmin fmax (Fin fc) N2') as (-> & -> & _).
  exists (4 * sqrt a), (4 * sqrt b), (4 * sqrt (a + b)).
  unfold get_Hm0. rewrite !(getter_value _ _ _ _ sp f s) by auto. unfold v_Hm0, v_moment.
  rewrite (set_flim_F f fmin (Fin fc) (Fin lo) (Fin fc)), (set_flim_F f (Fin fc) fmax (Fin fc) hi), (set_flim_F f fmin fmax (Fin lo) hi);
    auto; try (right; auto).
  rewrite !bind_Ok, Ea, Eb, Et, !bind_Ok, !fin_sqrt, !fin_ofZ, !fin_mul by lra. do 3 (split; [reflexivity|]).
  rewrite !Rpow_mult_distr. rewrite <- !Rsqr_pow2, !Rsqr_sqrt by lra. ring.
Qed.
Lemma axis_0_3 : axis 0 1 4 = [0; 1; 2; 3].
Proof. unfold axis. cbn [seq map INR]. repeat (f_equal; [ring|]). f_equal; ring. Qed.
(** an odd number of steps below the cut-off: the parts do not add up (Simpson's rule pairs the steps from the lower limit) *)
Theorem C64_odd_split_refuted :
  ~ (forall (f s : list R) (lo fc hi a b t : R), freq_axis f -> length s = length f -> nth 0 f 0 <= lo <= fc -> fc <= hi <= last_of f ->
       moment f s 0 (Fin lo) (Fin fc) = Ok (Fin a) -> moment f s 0 (Fin fc) (Fin hi) = Ok (Fin b) -> moment f s 0 (Fin lo) (Fin hi) = Ok (Fin t) ->
       t = a + b).
Proof.
  intros H. set (s := [0; 1; 0; 0]). set (f := axis 0 1 4).
  assert (Hf : freq_axis f) by (apply axis_freq; lra || lia).
  assert (Hl : length s = length f) by reflexivity.
  assert (Hi : increasing f) by (apply good_increasing, Hf).
  assert (X : f = [0; 1; 2; 3]) by apply axis_0_3.
  assert (La : last_of f = 3) by (rewrite X; reflexivity).
  assert (N : forall k, (k < 4)%nat -> nearest f (nth k f 0) k) by (intros k Hk; apply nearest_self; auto).
  assert (N0 := N 0%nat ltac:(lia)). assert (N1 := N 1%nat ltac:(lia)). assert (N3 := N 3%nat ltac:(lia)).
  rewrite X in N0 at 2. rewrite X in N1 at 2. rewrite X in N3 at 2. cbn [nth] in N0, N1, N3.
  destruct (moment_in f s 0 Hf Hl 0 1) as (i1 & c1 & A1 & A2 & _ & E1); try lra.
  destruct (moment_in f s 0 Hf Hl 1 3) as (c2 & j2 & A3 & A4 & _ & E2); try lra.
  destruct (moment_in f s 0 Hf Hl 0 3) as (i3 & j3 & A5 & A6 & _ & E3); try lra.
  change (without_zero 0 f f) with f in *.
  assert (i1 = 0%nat) as -> by (apply (nearest_unique f 0); auto). assert (i3 = 0%nat) as -> by (apply (nearest_unique f 0); auto).
  assert (c1 = 1%nat) as -> by (apply (nearest_unique f 1); auto). assert (c2 = 1%nat) as -> by (apply (nearest_unique f 1); auto).
  assert (j2 = 3%nat) as -> by (apply (nearest_unique f 3); auto). assert (j3 = 3%nat) as -> by (apply (nearest_unique f 3); auto).
  assert (Q := H f s 0 1 3 _ _ _ Hf Hl ltac:(rewrite X; cbn; lra) ltac:(lra) E1 E2 E3). clear - Q X.
  rewrite X in Q. unfold weighted, without_zero, s in Q. cbn [Z.ltb Z.compare andb] in Q.
  unfold rsimp, rbasic, rpanel, rlast in Q. cbn in Q. lra.
Qed.
(** a cut-off beyond the last frequency: the tail from the last frequency on is counted on both sides *)
Theorem C64_beyond_axis_refuted :
  ~ (forall (f s : list R) (lo fc a b t : R), freq_axis f -> length s = length f -> nth 0 f 0 <= lo <= fc ->
       moment f s 0 (Fin lo) (Fin fc) = Ok (Fin a) -> moment f s 0 (Fin fc) PInf = Ok (Fin b) -> moment f s 0 (Fin lo) PInf = Ok (Fin t) ->
       t = a + b).
Proof.
  intros H. set (s := [0; 0; 0; 1]). set (f := axis 0 1 4).
  assert (Hf : freq_axis f) by (apply axis_freq; lra || lia).
  assert (Hl : length s = length f) by reflexivity.
  assert (X : f = [0; 1; 2; 3]) by apply axis_0_3.
  assert (La : last_of f = 3) by (rewrite X; reflexivity).
  assert (Hi : increasing f) by (apply good_increasing, Hf).
  destruct (C33_tail_finite f s 0 0 Hf Hl ltac:(lra) 4) as (u & Eu & E1); [lia|lra|].
  destruct (C33_tail_infinite f s 0 4 Hf Hl ltac:(lra) ltac:(lia)) as (v & Ev & E2 & _).
  destruct (C33_tail_infinite f s 0 0 Hf Hl ltac:(lra) ltac:(lia)) as (w & Ew & E3 & _).
  rewrite Eu in Ew. apply Ok_inj, fin_inj in Ew. subst w.
  assert (Q := H f s 0 4 _ _ _ Hf Hl ltac:(rewrite X; cbn; lra) E1 E2 E3).
  (* nothing on the grid above 4 *)
  assert (v = 0).
  { rewrite La in Ev. destruct (moment_in f s 0 Hf Hl 4 3) as (i & j & Ni & Nj & Hij & E); try lra.
    change (without_zero 0 f f) with f in *. rewrite E in Ev. apply Ok_inj, fin_inj in Ev. subst v.
    assert (i = 3%nat) as ->.
    { destruct Ni as (Li & B & C). rewrite X in Li, B, C. cbn [length] in Li, B.
      assert (B3 := B 3%nat ltac:(lia)). cbn [nth] in B3. destruct i as [|[|[|[|]]]]; [| | |auto|lia]; exfalso;
      revert B3; cbn [nth]; unfold Rabs; repeat destruct (Rcase_abs _); lra. }
    assert (j = 3%nat) as -> by (destruct Nj as [Lj _]; change (length f) with 4%nat in Lj; lia).
    rewrite X. reflexivity. }
  subst v. assert (P : 0 < RInt (tail_integrand 0 (last_of f) (last_of s)) (last_of f) 4).
  { change (last_of s) with 1. rewrite La. rewrite (is_RInt_unique _ _ _ _ (tail_RInt 0 3 1 4 ltac:(lra) ltac:(lra) ltac:(lia))). cbn. change (Pos.to_nat 4) with 4%nat. lra. }
  lra.
Qed.
Example C64_witness : let s := [0; 1; 2; 1; 1] in let f := axis 0 1 (length s) in
  nearest f 0 0 /\ nearest f 2 2 /\ upper_index f PInf 4 /\ Nat.even (2 - 0) = true /\ 4%nat <> 3%nat /\ 2 <= last_of f
  /\ lower_limit f (Fin (-1)) (Fin 0) /\ upper_limit f PInf PInf.
Proof.
  cbv zeta. change (length [0; 1; 2; 1; 1]) with 5%nat.
  assert (Hf : freq_axis (axis 0 1 5)) by (apply axis_freq; lra || lia).
  assert (Hi : increasing (axis 0 1 5)) by (apply good_increasing, Hf).
  assert (A := nearest_self (axis 0 1 5) 0 Hi ltac:(rewrite axis_length; lia)). assert (B := nearest_self (axis 0 1 5) 2 Hi ltac:(rewrite axis_length; lia)).
  rewrite axis_0_4 in *. cbn [nth] in A, B. split; [auto|]. split; [auto|]. split; [reflexivity|]. split; [reflexivity|]. split; [lia|].
  split; [cbn; lra|]. split; [left; split; reflexivity|]. right; split; [discriminate|reflexivity].
Qed.
