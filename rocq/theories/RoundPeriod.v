(** * C79: the spectral getters in binary64.
    On a sane spectrum - finite, non-negative densities on an accepted frequency axis - no getter but get_Tps ever answers with a
    negative number, in whatever order and with whatever limits the getters are called; and with the default limits every one of
    get_Hm0, get_Tmm10, get_Tm01, get_Tm02, get_Tp returns.  For all operations rounded to binary64. *)

From Coq Require Import Reals ZArith String List Bool Lra Lia.
From Flocq Require Import Core.
From Verif Require Import SumOrder Num XR Engine Cpx SpectralModel WaveModel SpectrumModel SeriesModel Spec XRFacts TimeSpec EngineProps TimeProps
  PeakProps RoundNum RoundProps RoundWave RoundSpec RoundChain.
Import ListNotations.
Open Scope R_scope.

Section AnyOrder.
Context {So : summation} {Lm : libm}.

(** ** What is claimed of an answer: not a negative number and not minus infinity *)
Definition not_negative (v : car NB) : Prop := match v with Fin r => 0 <= r | NInf => False | PInf | NaN => True end.

Lemma nn_div a b : not_negative a -> not_negative b -> not_negative (ndiv (n:=NB) a b).
Proof.
  change (ndiv (n:=NB) a b) with (xround (xdiv a b)).
  destruct a as [a| | |], b as [b| | |]; cbn; try tauto; intros Ha Hb.
  - destruct (Req_EM_T b 0) as [->|Nb].
    + unfold xinf_times. repeat destruct (Rlt_dec _ _); cbn; auto. lra.
    + cbn. apply rnd_nonneg, Rmult_le_pos; [exact Ha|]. apply Rlt_le, Rinv_0_lt_compat. lra.
  - apply rnd_nonneg. lra.
  - destruct (Rlt_dec b 0); [lra|exact I].
Qed.
Lemma nn_mul a b : not_negative a -> not_negative b -> not_negative (nmul (n:=NB) a b).
Proof.
  change (nmul (n:=NB) a b) with (xround (xmul a b)).
  destruct a as [a| | |], b as [b| | |]; cbn; try tauto; intros Ha Hb.
  - apply rnd_nonneg, Rmult_le_pos; auto.
  - unfold xinf_times. repeat destruct (Rlt_dec _ _); cbn; auto. lra.
  - unfold xinf_times. repeat destruct (Rlt_dec _ _); cbn; auto. lra.
Qed.
Lemma nn_add a b : not_negative a -> not_negative b -> not_negative (nadd (n:=NB) a b).
Proof.
  change (nadd (n:=NB) a b) with (xround (xadd a b)).
  destruct a as [a| | |], b as [b| | |]; cbn; try tauto; intros Ha Hb. apply rnd_nonneg. lra.
Qed.
Lemma nn_sqrt a : not_negative (nsqrt (n:=NB) a).
Proof.
  change (nsqrt (n:=NB) a) with (xround (xsqrt a)). destruct a as [a| | |]; cbn; auto.
  destruct (Rlt_dec a 0); cbn; [exact I|]. apply rnd_nonneg, sqrt_pos.
Qed.
Lemma nn_square a : not_negative (nmul (n:=NB) a a).
Proof. change (nmul (n:=NB) a a) with (xround (xmul a a)). destruct a as [a| | |]; cbn; auto. apply rnd_nonneg. nra. Qed.
Lemma nn_ofZ z : (0 <= z)%Z -> not_negative (nofZ (n:=NB) z).
Proof. intros Hz. cbn. apply rnd_nonneg. apply IZR_le in Hz. exact Hz. Qed.

(** ** Moments, with limits that may be infinite or not a number *)
Lemma powi_inf e : (e < 0)%Z -> npowi (n:=NB) PInf e = Fin 0.
Proof. intros He. change (npowi (n:=NB)) with (by_pow (l_pow Lm)). destruct e as [|p|p]; try lia. reflexivity. Qed.
Lemma tail_inf a b m v : (-5 <= m <= 3)%Z -> bpow radix2 (-100) <= a <= bpow radix2 100 -> 0 <= b ->
  tail_moment (N:=NB) (Fin a) (Fin b) PInf m = Ok v -> exists r, v = Fin r /\ 0 <= r.
Proof.
  intros Hm Ha Hb. assert (Z := b_pos (-100)). unfold tail_moment. cbv zeta.
  destruct (neqb (n:=NB) PInf (n0 (N:=NB))) eqn:Q; [rewrite nb_0 in Q; discriminate Q|]. cbn [andb].
  destruct (nb_powi a (-5) ltac:(lra) ltac:(lra)) as (-> & _).
  set (e := (m + -5 + 1)%Z). assert (He : (-9 <= e < 0)%Z) by (unfold e; lia). clearbody e.
  destruct (nb_powi a e ltac:(lra) ltac:(lra)) as (-> & Pa). rewrite powi_inf by lia.
  assert (D : 0 < fpowi a (-5)) by (apply fpowi_big; [lra|lia]).
  rewrite nb_div by lra. rewrite nb_ofZ by lia. rewrite nb_div by (apply IZR_neq; lia).
  rewrite nb_sub, nb_mul. intros E. apply Ok_inj in E. eexists; split; [symmetry; exact E|].
  assert (E0 : IZR e < 0) by (apply IZR_lt; lia).
  assert (C0 : 0 <= rnd (b / fpowi a (-5))).
  { apply rnd_nonneg, Rmult_le_pos; [exact Hb|]. apply Rlt_le, Rinv_0_lt_compat, D. }
  assert (C1 : rnd (rnd (b / fpowi a (-5)) / IZR e) <= 0).
  { apply rnd_le_float; [apply float_0|]. assert (I := Rinv_lt_0_compat _ E0). unfold Rdiv at 1. nra. }
  assert (C3 : rnd (0 - fpowi a e) <= 0) by (apply rnd_le_float; [apply float_0|lra]).
  apply rnd_nonneg. nra.
Qed.
Lemma tail_nan a b m v : (-5 <= m <= 3)%Z -> tail_moment (N:=NB) a b NaN m = Ok v -> v = NaN.
Proof.
  intros Hm. unfold tail_moment. cbv zeta. destruct (neqb (n:=NB) NaN (n0 (N:=NB))) eqn:Q; [rewrite nb_0 in Q; discriminate Q|]. cbn [andb].
  set (e := (m + -5 + 1)%Z). assert (He : (e < 0)%Z) by (unfold e; lia). clearbody e. intros E. apply Ok_inj in E. rewrite <- E. clear E.
  set (c := ndiv (n:=NB) _ (nofZ (n:=NB) e)). clearbody c.
  assert (P : npowi (n:=NB) NaN e = NaN) by (change (npowi (n:=NB)) with (by_pow (l_pow Lm)); destruct e; try lia; reflexivity).
  rewrite P. destruct c; reflexivity.
Qed.

Lemma moment_shape h (f s : list R) m (fmin fmax : car NB) (af as_ : arraylike (car NB)) v :
  freq_axis_fl h f -> length s = length f -> floats s -> nonneg s -> (-5 <= m <= 3)%Z ->
  holds_vector (F f) af -> holds_vector (F s) as_ ->
  compute_moment (N:=NB) af as_ m fmin fmax = Ok v -> not_negative v.
Proof.
  intros Hf Ls Fs Ps Hm Haf Has. assert (T := fa_two _ _ Hf).
  assert (Nf : F f <> []) by (destruct f; [cbn in T; lia|discriminate]).
  assert (Ns : F s <> []) by (destruct s; [cbn in Ls; lia|discriminate]).
  destruct (@hv_convert (car NB) (F f) af Nf Haf) as (kf & Hkf & Ef).
  destruct (@hv_convert (car NB) (F s) as_ Ns Has) as (ks & Hks & Es).
  unfold compute_moment. rewrite Ef, Es. cbn [fst snd].
  destruct (Nat.ltb_spec 1 kf); [lia|]. destruct (Nat.ltb_spec 1 ks); [lia|]. cbn [orb]. rewrite !as_list_vec, bind_Ok.
  intros H1. apply bind_inv in H1. destruct H1 as (mono & _ & H1). destruct mono; cbn [negb] in H1; [|discriminate H1].
  rewrite !F_length, Ls, Nat.eqb_refl in H1. cbn [negb] in H1. rewrite bind_Ok in H1.
  rewrite idx_F in H1 by lia. rewrite bind_Ok in H1.
  assert (Dz : forall l : list R, drop_zero (N:=NB) (A:=car NB) m (Fin (nth 0 f 0)) (F l) = F (dz f m l)).
  { clear H1. intros l. unfold drop_zero, dz. rewrite nb_0, nb_eqb. destruct (Z.ltb m 0); [|reflexivity].
    destruct (Reqb (nth 0 f 0) 0); [destruct l|]; reflexivity. }
  cbv zeta in H1. rewrite !Dz in H1. rewrite (integrand_NB h f Hf m s Ls) in H1.
  assert (Fin_nn : forall w, (exists r, w = Fin r /\ 0 <= r) -> not_negative w) by (intros w (r & -> & Hr); exact Hr).
  destruct (neqb _ _ || neqb _ _).
  { assert (W : simpson_slice (N:=NB) 0 (length (dz f m f)) (F (wg f m s)) (F (dz f m f)) = Ok v).
    { unfold simpson_slice. rewrite !slice_all by (rewrite F_length, ?wg_length by exact Ls; lia). exact H1. }
    apply Fin_nn. exact (slice_nonneg h f Hf m s Ls Ps _ _ _ W). }
  apply bind_inv in H1. destruct H1 as (f2 & _ & H1).
  assert (Ne := dz_ne h f Hf m s Ls).
  assert (NeF : F (dz f m f) <> []) by (destruct (dz f m f); [contradiction|discriminate]).
  rewrite (@idx_last_nth (car NB) _ (Fin 0) NeF) in H1. rewrite bind_Ok, F_length, F_nth in H1.
  set (fl := nth (length (dz f m f) - 1) (dz f m f) 0) in *.
  destruct (nleb (n:=NB) fmax (Fin fl)) eqn:Q.
  - apply bind_inv in H1. destruct H1 as (i & _ & H1). apply bind_inv in H1. destruct H1 as (j & _ & H1).
    apply Fin_nn. exact (slice_nonneg h f Hf m s Ls Ps _ _ _ H1).
  - apply bind_inv in H1. destruct H1 as (i & _ & H1). apply bind_inv in H1. destruct H1 as (j & _ & H1).
    apply bind_inv in H1. destruct H1 as (m1 & M1 & H1). apply (slice_nonneg h f Hf m s Ls Ps) in M1.
    apply Fin_nn in M1. apply bind_inv in H1. destruct H1 as (sl & Sl & H1).
    apply (@idx_last_inv (car NB) _ _ (Fin 0)) in Sl. destruct Sl as [NeS ->]. rewrite F_length, F_nth in H1.
    apply bind_inv in H1. destruct H1 as (m2 & M2 & H1). apply Ok_inj in H1. rewrite <- H1. apply nn_add; [exact M1|].
    assert (Lz : (0 < length (dz f m f))%nat) by (destruct (dz f m f); [contradiction|cbn; lia]).
    assert (Bl : bpow radix2 (-100) <= fl <= bpow radix2 100).
    { split; [|apply (fa_top _ _ Hf), (dz_In f m); unfold fl; apply nth_In; lia].
      unfold fl, dz. destruct (_ && _).
      * rewrite tl_nth, tl_length. destruct (fa_big h f Hf (S (length f - 1 - 1)) ltac:(lia)) as [[_ C]|C]; [discriminate|exact C].
      * destruct (fa_big h f Hf (length f - 1) ltac:(lia)) as [[_ C]|C]; [lia|exact C]. }
    assert (Bs : 0 <= nth (length (dz f m s) - 1) (dz f m s) 0) by (apply Ps, (dz_In f m), nth_In; rewrite (dz_length f m s Ls); lia).
    destruct fmax as [c| | |].
    + assert (Hc : fl <= c) by (rewrite nb_leb in Q; destruct (Rleb_spec c fl); [discriminate Q|lra]). apply Fin_nn, (tail_NB _ _ _ _ _ Hm Bl Hc Bs M2).
    + apply Fin_nn, (tail_inf _ _ _ _ Hm Bl Bs M2).
    + discriminate Q.
    + rewrite (tail_nan _ _ _ _ Hm M2). exact I.
Qed.
Lemma v_moment_shape h (f s : list R) m (fmin fmax v : car NB) :
  freq_axis_fl h f -> length s = length f -> floats s -> nonneg s -> (-5 <= m <= 3)%Z ->
  v_moment (N:=NB) m (F f) (F s) fmin fmax = Ok v -> not_negative v.
Proof.
  intros Hf Ls Fs Ps Hm. unfold v_moment. apply (moment_shape h f s); auto; apply hv_flat.
Qed.

(** ** Any sequence of getter calls *)
Definition all_stored (P : car NB -> Prop) (sp : spec NB) : Prop :=
  forall v, In (Some v) [s_Hm0 sp; s_Hm0_HF sp; s_Hm0_LF sp; s_Tp sp; s_Tmm10 sp; s_Tmm10_HF sp; s_Tmm10_LF sp; s_Tm01 sp; s_Tm02 sp;
                         s_s0p sp; s_smm10 sp; s_smm10_HF sp] -> P v.

Section History.
  Variables (h : R) (f s : list R).
  Hypothesis Hf : freq_axis_fl h f.
  Hypothesis Ls : length s = length f.
  Hypothesis Fs : floats s.
  Hypothesis Ps : nonneg s.

  Definition inv (sp : spec NB) : Prop := s_f sp = F f /\ s_S sp = F s /\ all_stored not_negative sp.
  Definition safe (m : meth (car NB)) (Q : car NB -> Prop) : Prop :=
    forall sp, inv sp -> inv (fst (m sp)) /\ forall v, snd (m sp) = Ok v -> Q v.

  Lemma safe_mono m (Q Q' : car NB -> Prop) : (forall v, Q v -> Q' v) -> safe m Q -> safe m Q'.
  Proof. intros I H sp Hi. destruct (H sp Hi) as [A B]. split; auto. Qed.
  Lemma safe_bind (m : meth (car NB)) k Q Q' : safe m Q -> (forall v, Q v -> safe (k v) Q') -> safe (mbind m k) Q'.
  Proof.
    intros Hm Hk sp Hi. destruct (Hm sp Hi) as [A B]. unfold mbind. destruct (m sp) as [sp' [v|e]]; cbn [fst snd] in *.
    - apply (Hk v); auto.
    - split; [auto|discriminate].
  Qed.
  Lemma safe_ret v (Q : car NB -> Prop) : Q v -> safe (mret v) Q.
  Proof. intros Hv sp Hi. split; [exact Hi|]. cbn. intros w E. apply Ok_inj in E. subst. exact Hv. Qed.

  Definition setter (st : car NB -> spec NB -> spec NB) : Prop := forall v sp, not_negative v -> inv sp -> inv (st v sp).
  Lemma some_inj (a b : car NB) : Some a = Some b -> a = b. Proof. intros H. congruence. Qed.
  Ltac pick H := solve [repeat (first [left; exact H|right])].
  Ltac isset := intros v sp Hv (E1 & E2 & Hs); split; [exact E1|split; [exact E2|]]; intros w Hw; cbn [In] in Hw;
    destruct Hw as [Hw|[Hw|[Hw|[Hw|[Hw|[Hw|[Hw|[Hw|[Hw|[Hw|[Hw|[Hw|[]]]]]]]]]]]]]; cbn in Hw;
    first [rewrite <- (some_inj _ _ Hw); exact Hv | apply Hs; pick Hw].
  Lemma set_ok : setter (set_Hm0 (N:=NB)) /\ setter (set_Hm0_HF (N:=NB)) /\ setter (set_Hm0_LF (N:=NB)) /\ setter (set_Tp (N:=NB))
    /\ setter (set_Tmm10 (N:=NB)) /\ setter (set_Tmm10_HF (N:=NB)) /\ setter (set_Tmm10_LF (N:=NB)) /\ setter (set_Tm01 (N:=NB))
    /\ setter (set_Tm02 (N:=NB)) /\ setter (set_s0p (N:=NB)) /\ setter (set_smm10 (N:=NB)) /\ setter (set_smm10_HF (N:=NB)).
  Proof.
    split; [isset|].
    split; [isset|]. split; [isset|]. split; [isset|]. split; [isset|]. split; [isset|]. split; [isset|].
    split; [isset|]. split; [isset|]. split; [isset|]. split; isset. Qed.
  Lemma set_Tps_inv v sp : inv sp -> inv (set_Tps (N:=NB) v sp).
  Proof. intros (E1 & E2 & Hs). split; [exact E1|split; [exact E2|]]. exact Hs. Qed.

  Ltac mom M := eapply (v_moment_shape h f s); [exact Hf|exact Ls|exact Fs|exact Ps| |exact M]; lia.
  Lemma v_ok (a b v : car NB) :
    (v_Hm0 (N:=NB) (F f) (F s) a b = Ok v \/ v_Tmm10 (N:=NB) (F f) (F s) a b = Ok v \/ v_Tm01 (N:=NB) (F f) (F s) a b = Ok v
     \/ v_Tm02 (N:=NB) (F f) (F s) a b = Ok v \/ v_Tp (N:=NB) (F f) (F s) a b = Ok v) -> not_negative v.
  Proof.
    intros [H|[H|[H|[H|H]]]].
    - unfold v_Hm0 in H. apply bind_inv in H. destruct H as ([a' b'] & _ & H). apply bind_inv in H. destruct H as (m0 & M & H).
      apply Ok_inj in H. rewrite <- H. apply nn_mul; [apply nn_ofZ; lia|apply nn_sqrt].
    - unfold v_Tmm10 in H. apply bind_inv in H. destruct H as ([a' b'] & _ & H). apply bind_inv in H. destruct H as (m1 & M1 & H).
      apply bind_inv in H. destruct H as (m0 & M & H). apply Ok_inj in H. rewrite <- H.
      apply nn_div; [mom M1|mom M].
    - unfold v_Tm01 in H. apply bind_inv in H. destruct H as ([a' b'] & _ & H). apply bind_inv in H. destruct H as (m1 & M1 & H).
      apply bind_inv in H. destruct H as (m0 & M & H). apply Ok_inj in H. rewrite <- H.
      apply nn_div; [mom M1|mom M].
    - unfold v_Tm02 in H. apply bind_inv in H. destruct H as ([a' b'] & _ & H). apply bind_inv in H. destruct H as (m1 & M1 & H).
      apply bind_inv in H. destruct H as (m0 & M & H). apply Ok_inj in H. rewrite <- H. apply nn_sqrt.
    - unfold v_Tp in H. apply bind_inv in H. destruct H as ([a' b'] & _ & H). apply bind_inv in H. destruct H as ([fb sb] & B & H).
      unfold band in B. apply bind_inv in B. destruct B as (i & _ & B). apply bind_inv in B. destruct B as (j & _ & B). apply Ok_inj in B.
      unfold peak_period in H. apply bind_inv in H. destruct H as (sm & _ & H). apply bind_inv in H. destruct H as (k & _ & H).
      apply bind_inv in H. destruct H as (fp & Hp & H). apply Ok_inj in H. rewrite <- H. apply nn_div; [rewrite nb_1; cbn; lra|].
      injection B as <- _. rewrite F_slice in Hp. unfold idx in Hp. destruct (nth_error _ k) eqn:Q; [|discriminate]. apply Ok_inj in Hp. subst.
      apply nth_error_In in Q. unfold F in Q. apply in_map_iff in Q. destruct Q as (r & <- & Hr). cbn.
      unfold slice in Hr. apply firstn_In, skipn_In in Hr. apply (In_nth _ _ 0) in Hr. destruct Hr as (q & Hq & <-). apply (fa_nonneg h f Hf q Hq).
  Qed.

  Lemma safe_getter v st a b : setter st -> (forall w, v (F f) (F s) a b = Ok w -> not_negative w) -> safe (getter (N:=NB) v st a b) not_negative.
  Proof.
    intros Hst Hv sp Hi. destruct Hi as (E1 & E2 & Hs). unfold getter, mbind, mget, mlift, mset. rewrite E1, E2.
    destruct (v (F f) (F s) a b) as [w|e] eqn:E; cbn [fst snd].
    - split; [apply Hst; [auto|]; split; auto|]. intros w' Q. apply Ok_inj in Q. subst. auto.
    - split; [split; auto|discriminate].
  Qed.
  Lemma safe_Tps a b : safe (get_Tps (N:=NB) a b) (fun _ => True).
  Proof.
    intros sp Hi. assert (Hi' := Hi). destruct Hi as (E1 & E2 & Hs). unfold get_Tps, getter, mbind, mget, mlift, mset. rewrite E1, E2.
    destruct (v_Tps (N:=NB) (F f) (F s) a b) as [w|e] eqn:E; cbn [fst snd]; (split; [first [exact Hi'|apply set_Tps_inv, Hi']|auto]).
  Qed.
  Lemma safe_ensure g m (Q : car NB -> Prop) : (forall sp v, inv sp -> g sp = Some v -> Q v) -> safe m Q -> safe (ensure (N:=NB) g m) Q.
  Proof.
    intros Hg Hm sp Hi. unfold ensure. destruct (g sp) as [v|] eqn:E; [|apply Hm, Hi]. cbn. split; [exact Hi|].
    intros w Q'. apply Ok_inj in Q'. subst. eauto.
  Qed.
  Lemma safe_attr g (Q : car NB -> Prop) : (forall sp v, inv sp -> g sp = Some v -> Q v) -> safe (attr (N:=NB) g) Q.
  Proof.
    intros Hg sp Hi. unfold attr. cbn. split; [exact Hi|]. destruct (g sp) as [v|] eqn:E; [|discriminate]. intros w Q'. apply Ok_inj in Q'. subst. eauto.
  Qed.
  Ltac stored := let sp := fresh "sp" in let v := fresh "v" in let Hs := fresh "Hs" in let E := fresh "E" in
    intros sp v (_ & _ & Hs) E; apply Hs; pick E.
  Lemma safe_Hm0 a b : safe (get_Hm0 (N:=NB) a b) not_negative.
  Proof. apply safe_getter; [apply set_ok|]. intros w E. apply (v_ok a b). left; exact E. Qed.
  Lemma safe_Tmm10 a b : safe (get_Tmm10 (N:=NB) a b) not_negative.
  Proof. apply safe_getter; [apply set_ok|]. intros w E. apply (v_ok a b). right; left; exact E. Qed.
  Lemma safe_cutoff v : safe (default_cutoff (N:=NB) v) (fun _ => True).
  Proof.
    unfold default_cutoff. destruct (neqb _ _); [|apply safe_ret; exact I]. unfold cutoff.
    apply safe_bind with not_negative; [apply safe_ensure; [stored|apply safe_Tmm10]|]. intros w _.
    apply safe_bind with not_negative; [apply safe_attr; stored|]. intros w' _. apply safe_ret. exact I.
  Qed.
  Lemma safe_set st v : setter st -> not_negative v -> safe (mset (N:=NB) st v) not_negative.
  Proof. intros Hst Hv sp Hi. cbn. split; [apply Hst; auto|]. intros w E. apply Ok_inj in E. subst. exact Hv. Qed.
  Lemma nn_steep (H T g : car NB) : not_negative H -> not_negative g -> not_negative (steepness (N:=NB) H T g).
  Proof.
    intros HH Hg. unfold steepness. apply nn_div.
    - apply nn_mul; [|exact HH]. apply nn_mul; [apply nn_ofZ; lia|]. cbn. apply rnd_nonneg. apply Rlt_le, PI_RGT_0.
    - apply nn_mul; [exact Hg|apply nn_square].
  Qed.

  Definition gravity (c : spec_call NB) : Prop :=
    match c with Cs0p _ _ g | Csmm10 _ _ g | Csmm10_HF _ _ g => not_negative g | _ => True end.
  Definition is_Tps (c : spec_call NB) : Prop := match c with CTps _ _ => True | _ => False end.

  Lemma safe_step c : gravity c -> safe (spec_step (N:=NB) c) (fun v => is_Tps c \/ not_negative v).
  Proof.
    intros Hg. assert (W : forall m, safe m not_negative -> safe m (fun v => is_Tps c \/ not_negative v)) by (intros m; apply safe_mono; auto).
    destruct set_ok as (S1 & S2 & S3 & S4 & S5 & S6 & S7 & S8 & S9 & S10 & S11 & S12).
    destruct c as [a b|a b|a b|a b|a b|a b|a b|a b|a b|a b|a b g|a b g|a b g]; cbn [spec_step gravity is_Tps] in *.
    - apply W, safe_Hm0.
    - apply W. unfold get_Hm0_HF. eapply safe_bind; [apply safe_cutoff|]. intros w _. apply safe_getter; [exact S2|]. intros x E. apply (v_ok w b). left; exact E.
    - apply W. unfold get_Hm0_LF. eapply safe_bind; [apply safe_cutoff|]. intros w _. apply safe_getter; [exact S3|]. intros x E. apply (v_ok a w). left; exact E.
    - eapply safe_mono; [|apply safe_Tps]. auto.
    - apply W. apply safe_getter; [exact S4|]. intros x E. apply (v_ok a b). do 4 right; exact E.
    - apply W, safe_Tmm10.
    - apply W. unfold get_Tmm10_HF. eapply safe_bind; [apply safe_cutoff|]. intros w _. apply safe_getter; [exact S6|]. intros x E. apply (v_ok w b). right; left; exact E.
    - apply W. unfold get_Tmm10_LF. eapply safe_bind; [apply safe_cutoff|]. intros w _. apply safe_getter; [exact S7|]. intros x E. apply (v_ok a w). right; left; exact E.
    - apply W. apply safe_getter; [exact S8|]. intros x E. apply (v_ok a b). do 2 right; left; exact E.
    - apply W. apply safe_getter; [exact S9|]. intros x E. apply (v_ok a b). do 3 right; left; exact E.
    - apply W. unfold get_s0p. eapply safe_bind; [apply safe_ensure; [stored|apply safe_Hm0]|]. intros _ _.
      eapply safe_bind; [apply (safe_ensure _ _ (fun _ => True)); [auto|apply safe_Tps]|]. intros _ _.
      eapply safe_bind; [apply (safe_attr _ not_negative); stored|]. intros H HH.
      eapply safe_bind; [apply (safe_attr _ (fun _ => True)); auto|]. intros T _. apply safe_set; [exact S10|]. apply nn_steep; auto.
    - apply W. unfold get_smm10. eapply safe_bind; [apply safe_ensure; [stored|apply safe_Hm0]|]. intros _ _.
      eapply safe_bind; [apply safe_ensure; [stored|apply safe_Tmm10]|]. intros _ _.
      eapply safe_bind; [apply (safe_attr _ not_negative); stored|]. intros H HH.
      eapply safe_bind; [apply (safe_attr _ not_negative); stored|]. intros T _. apply safe_set; [exact S11|]. apply nn_steep; auto.
    - apply W. unfold get_smm10_HF. eapply safe_bind; [apply (safe_ensure _ _ not_negative); [stored|]|].
      { unfold get_Hm0_HF. eapply safe_bind; [apply safe_cutoff|]. intros w _. apply safe_getter; [exact S2|]. intros x E. apply (v_ok w b). left; exact E. }
      intros _ _. eapply safe_bind; [apply (safe_ensure _ _ not_negative); [stored|]|].
      { unfold get_Tmm10_HF. eapply safe_bind; [apply safe_cutoff|]. intros w _. apply safe_getter; [exact S6|]. intros x E. apply (v_ok w b). right; left; exact E. }
      intros _ _. eapply safe_bind; [apply (safe_attr _ not_negative); stored|]. intros H HH.
      eapply safe_bind; [apply (safe_attr _ not_negative); stored|]. intros T _. apply safe_set; [exact S12|]. apply nn_steep; auto.
  Qed.
  Lemma safe_run cs : (forall c, In c cs -> gravity c) -> forall sp, inv sp -> inv (spec_run (N:=NB) cs sp).
  Proof.
    induction cs as [|c cs IH]; intros Hg sp Hi; [exact Hi|]. cbn [spec_run fold_left]. apply IH.
    - intros c' H. apply Hg. right. exact H.
    - apply (safe_step c); [apply Hg; left; reflexivity|exact Hi].
  Qed.
End History.

(** ** get_Tp: every comparison is exact, so the only rounding is that of the last division *)
Lemma opp1_same : nopp (n:=NB) (n1 (N:=NB)) = nopp (n:=NX) (n1 (N:=NX)).
Proof. rewrite nb_opp1. reflexivity. Qed.
Lemma v_Tp_rounded (f s : list R) (a b : car NB) :
  v_Tp (N:=NB) (F f) (F s) a b = bind (v_Tp (N:=NX) (F f) (F s) a b) (fun v => Ok (xround v)).
Proof.
  unfold v_Tp. assert (E : set_flim (N:=NB) (F f) a b = set_flim (N:=NX) (F f) a b).
  { unfold set_flim. rewrite opp1_same. reflexivity. }
  rewrite E. destruct (set_flim (N:=NX) (F f) a b) as [[a' b']|e]; [|reflexivity]. rewrite !bind_Ok.
  assert (B : band (N:=NB) (F f) (F s) a' b' = band (N:=NX) (F f) (F s) a' b') by reflexivity. rewrite B.
  destruct (band (N:=NX) (F f) (F s) a' b') as [[fb sb]|e]; [|reflexivity]. rewrite !bind_Ok. unfold peak_period.
  assert (P : pymax (N:=NB) sb = pymax (N:=NX) sb) by reflexivity. rewrite P.
  destruct (pymax (N:=NX) sb) as [sm|e]; [|reflexivity]. rewrite !bind_Ok.
  change (where_ (fun v : car NB => neqb (n:=NB) v sm) sb) with (where_ (fun v : car NX => neqb (n:=NX) v sm) sb).
  destruct (rev (where_ _ sb)) as [|i l]; [reflexivity|]. rewrite !bind_Ok.
  assert (I : @idx (car NB) fb i = @idx (car NX) fb i) by reflexivity. rewrite I.
  destruct (@idx (car NX) fb i) as [fp|e]; [|reflexivity]. rewrite !bind_Ok. f_equal. rewrite nb_1. reflexivity.
Qed.

(** ** Moments over the whole axis are returned *)
Lemma moment_default h (f s : list R) m : freq_axis_fl h f -> length s = length f -> floats s -> nonneg s -> (-5 <= m <= 3)%Z ->
  monotonic_increasing_constant_step (N:=NB) (F f) = Ok true ->
  exists r, v_moment (N:=NB) m (F f) (F s) (Fin (nth 0 f 0)) (Fin (nth (length f - 1) f 0)) = Ok (Fin r) /\ 0 <= r.
Proof.
  intros Hf Ls Fs Ps Hm Hmono. assert (T := fa_two _ _ Hf).
  assert (Nf : F f <> []) by (destruct f; [cbn in T; lia|discriminate]).
  assert (Ns : F s <> []) by (destruct s; [cbn in Ls; lia|discriminate]).
  set (fl := nth (length f - 1) f 0). assert (P0 := fa_first h f Hf). assert (Pl := fa_nonneg h f Hf (length f - 1) ltac:(lia)). fold fl in Pl.
  assert (M : exists r, compute_moment (N:=NB) (Arr (vec (F f))) (Arr (vec (F s))) m (Fin (nth 0 f 0)) (Fin fl) = Ok (Fin r)).
  { destruct (@hv_convert (car NB) (F f) (Arr (vec (F f))) Nf (hv_flat _)) as (kf & Hkf & Evf).
    destruct (@hv_convert (car NB) (F s) (Arr (vec (F s))) Ns (hv_flat _)) as (ks & Hks & Evs).
    unfold compute_moment. rewrite Evf, Evs. cbn [fst snd].
    destruct (Nat.ltb_spec 1 kf); [lia|]. destruct (Nat.ltb_spec 1 ks); [lia|]. cbn [orb]. rewrite !as_list_vec, bind_Ok.
    rewrite Hmono, bind_Ok. cbn [negb]. rewrite !F_length, Ls, Nat.eqb_refl. cbn [negb]. rewrite bind_Ok.
    rewrite idx_F, bind_Ok by lia. cbv zeta.
    assert (Dz : forall l : list R, drop_zero (N:=NB) (A:=car NB) m (Fin (nth 0 f 0)) (F l) = F (dz f m l)).
    { intros l. unfold drop_zero, dz. rewrite nb_0, nb_eqb. destruct (Z.ltb m 0); [|reflexivity].
      destruct (Reqb (nth 0 f 0) 0); [destruct l|]; reflexivity. }
    rewrite !Dz. rewrite (integrand_NB h f Hf m s Ls).
    rewrite nb_opp1, !nb_eqb, !(Reqb_false _ (-1)) by lra. cbn [orb].
    rewrite idx_F, bind_Ok by lia.
    assert (Ne := dz_ne h f Hf m s Ls).
    assert (NeF : F (dz f m f) <> []) by (destruct (dz f m f); [contradiction|discriminate]).
    assert (Last : nth (length (dz f m f) - 1) (dz f m f) 0 = fl).
    { unfold fl, dz. destruct (_ && _); [|reflexivity]. rewrite tl_nth, tl_length. f_equal. lia. }
    rewrite (@idx_last_nth (car NB) _ (Fin 0) NeF), F_length, F_nth, bind_Ok, Last.
    rewrite nb_leb, Rleb_true by lra.
    assert (First : (if Z.ltb m 0 && neqb (n:=NB) (Fin (nth 0 f 0)) (n0 (N:=NB)) && neqb (n:=NB) (Fin (nth 0 f 0)) (n0 (N:=NB)) then Fin (nth 1 f 0) else Fin (nth 0 f 0))
                    = Fin (nth 0 (dz f m f) 0)).
    { unfold dz. rewrite nb_0, nb_eqb. destruct (Z.ltb m 0); cbn [andb]; [|reflexivity].
      destruct (Reqb (nth 0 f 0) 0); cbn [andb]; [|reflexivity]. rewrite tl_nth. reflexivity. }
    match goal with |- context [approx_array_index _ ?q] => assert (Eq : q = Fin (nth 0 (dz f m f) 0)) by exact First; rewrite Eq end.
    set (g := dz f m f) in *.
    assert (I : forall w, approx_array_index (N:=NB) (F g) (Fin w) = argmin (N:=NX) (F (map (fun a => Rabs (rnd (a - w))) g))).
    { intros w. unfold approx_array_index. change (argmin (N:=NB)) with (argmin (N:=NX)). f_equal. unfold F. rewrite !map_map. reflexivity. }
    assert (Nm : forall w, map (fun a => Rabs (rnd (a - w))) g <> []) by (intros w; destruct g; [contradiction|discriminate]).
    rewrite !I. destruct (argmin_spec _ (Nm (nth 0 g 0))) as (i & -> & Hi & _ & Hfirst). destruct (argmin_spec _ (Nm fl)) as (j & -> & Hj & _).
    rewrite !bind_Ok. rewrite map_length in Hi, Hj.
    assert (i = 0%nat) as ->.
    { destruct i; [reflexivity|]. exfalso. specialize (Hfirst 0%nat ltac:(lia)). clearbody g.
      destruct g as [|a l]; [contradiction|]. cbn [map nth] in Hfirst. rewrite Rminus_diag_eq, (rnd_id 0), Rabs_R0 in Hfirst; auto using float_0.
      match type of Hfirst with ?q < 0 => assert (0 <= q) end; [|lra].
      cbn in Hi. rewrite (nth_indep _ 0 ((fun b => Rabs (rnd (b - a))) 0)) by (rewrite map_length; lia). rewrite (map_nth (fun b => Rabs (rnd (b - a)))). apply Rabs_pos. }
    unfold simpson_slice. rewrite !F_slice.
    assert (Lw : length (wg f m s) = length g) by (rewrite wg_length by exact Ls; reflexivity).
    destruct (simpson_NB h (slice 0 (j + 1) g) (slice 0 (j + 1) (wg f m s))) as (r & Er & _).
    - exact (fa_sane' h f Hf).
    - intros k Hk. rewrite slice_length in Hk. rewrite !slice_nth by lia. rewrite Nat.add_succ_r. apply (dz_steps h f Hf m s Ls). fold g. lia.
    - intros a Ha. apply (wg_floats f m s Ls). unfold slice in Ha. apply firstn_In in Ha. eapply skipn_In, Ha.
    - intros a Ha. apply (wg_nonneg h f Hf m s Ls Ps). unfold slice in Ha. apply firstn_In in Ha. eapply skipn_In, Ha.
    - rewrite !slice_length, Lw. reflexivity.
    - intros E. assert (Lz : length (slice 0 (j + 1) g) = 0%nat) by (rewrite E; reflexivity). rewrite slice_length in Lz. lia.
    - exists r. exact Er. }
  destruct M as (r & Er). destruct (C77_moments h f s (Arr (vec (F f))) (Arr (vec (F s))) m (nth 0 f 0) fl (Fin r) Hf Ls Fs Ps Hm (hv_flat _) (hv_flat _) Er) as (r' & E' & Pr).
  injection E' as ->. exists r'. split; [exact Er|exact Pr].
Qed.

(** ** C79 *)

(** (a) no getter other than get_Tps ever returns a negative number or minus infinity, whatever was called before with whatever limits
    (numbers, infinities, NaN), g not negative *)
Theorem C79_never_negative (h : R) (f s : list R) (sp : spec NB) (before : list (spec_call NB)) (c : spec_call NB) (v : car NB) :
  freq_axis_fl h f -> s <> [] -> floats s -> nonneg s ->
  spectrum_init (N:=NB) (Arr (vec (F f))) (Arr (vec (F s))) = Ok sp ->
  (forall c', In c' (c :: before) -> gravity c') -> ~ is_Tps c ->
  snd (spec_step (N:=NB) c (spec_run (N:=NB) before sp)) = Ok v -> not_negative v.
Proof.
  intros Hf Ns Fs Ps Hsp Hg Hc Hv. assert (T := fa_two _ _ Hf).
  assert (Nf : f <> []) by (destruct f; [cbn in T; lia|discriminate]).
  destruct (spectrum_fields_NB f s sp Nf Ns Hsp) as (Ef & Es & Ls & Ck).
  assert (Esp : sp = fresh (N:=NB) (F f) (F s)) by (assert (E := spectrum_ok_NB f s T Ls Ck); congruence).
  assert (Hi : inv f s sp).
  { split; [auto|]. split; [auto|]. rewrite Esp. intros w Hw. cbn in Hw. exfalso.
    repeat (destruct Hw as [Hw|Hw]; [discriminate Hw|]). exact Hw. }
  assert (Hr := safe_run h f s Hf Ls Fs Ps before (fun c' H => Hg c' (or_intror H)) sp Hi).
  destruct (safe_step h f s Hf Ls Fs Ps c (Hg c (or_introl eq_refl)) _ Hr) as [_ K]. destruct (K v Hv); [contradiction|auto].
Qed.

(** (b) with the default limits the getters return: get_Hm0 a finite number, the mean periods a number, infinity or NaN *)
Theorem C79_defaults_return (h : R) (f s : list R) (sp : spec NB) :
  freq_axis_fl h f -> s <> [] -> floats s -> nonneg s ->
  spectrum_init (N:=NB) (Arr (vec (F f))) (Arr (vec (F s))) = Ok sp ->
  let returns c v := snd (spec_step (N:=NB) c sp) = Ok v in
  (exists r, returns (CHm0 (N:=NB) (Fin (-1)) (Fin (-1))) (Fin r) /\ 0 <= r)
  /\ (exists v, returns (CTmm10 (N:=NB) (Fin (-1)) (Fin (-1))) v /\ not_negative v)
  /\ (exists v, returns (CTm01 (N:=NB) (Fin (-1)) (Fin (-1))) v /\ not_negative v)
  /\ (exists v, returns (CTm02 (N:=NB) (Fin (-1)) (Fin (-1))) v /\ not_negative v).
Proof.
  intros Hf Ns Fs Ps Hsp returns. assert (T := fa_two _ _ Hf).
  assert (Nf : f <> []) by (destruct f; [cbn in T; lia|discriminate]).
  destruct (spectrum_fields_NB f s sp Nf Ns Hsp) as (Ef & Es & Ls & Ck).
  assert (Nf' : F f <> []) by (destruct f; [contradiction|discriminate]).
  assert (Flim : set_flim (N:=NB) (F f) (Fin (-1)) (Fin (-1)) = Ok (Fin (nth 0 f 0), Fin (nth (length f - 1) f 0))).
  { unfold set_flim. rewrite nb_opp1, nb_eqb, Reqb_true by reflexivity. rewrite idx_F, bind_Ok by lia.
    rewrite (@idx_last_nth (car NB) _ (Fin 0) Nf'), F_length, F_nth. reflexivity. }
  destruct (moment_default h f s (-1) Hf Ls Fs Ps ltac:(lia) Ck) as (m_1 & Em & Pm).
  destruct (moment_default h f s 0 Hf Ls Fs Ps ltac:(lia) Ck) as (m0 & E0 & P0).
  destruct (moment_default h f s 1 Hf Ls Fs Ps ltac:(lia) Ck) as (m1 & E1 & P1).
  destruct (moment_default h f s 2 Hf Ls Fs Ps ltac:(lia) Ck) as (m2 & E2 & P2).
  assert (R : forall v st w, v (F f) (F s) (Fin (-1)) (Fin (-1)) = Ok w -> snd (getter (N:=NB) v st (Fin (-1)) (Fin (-1)) sp) = Ok w).
  { intros v st w E. unfold getter, mbind, mget, mlift, mset. rewrite Ef, Es, E. reflexivity. }
  split; [|split; [|split]].
  - destruct (Hm0_default_NB h f s sp Hf Ls Fs Ps Ck Ef Es) as (r & E & Pr). exists r. split; [|exact Pr]. unfold returns. cbn [spec_step]. rewrite E. reflexivity.
  - exists (ndiv (n:=NB) (Fin m_1) (Fin m0)). split; [|apply nn_div; assumption]. apply R. unfold v_Tmm10. rewrite Flim, bind_Ok, Em, bind_Ok, E0. reflexivity.
  - exists (ndiv (n:=NB) (Fin m0) (Fin m1)). split; [|apply nn_div; assumption]. apply R. unfold v_Tm01. rewrite Flim, bind_Ok, E0, bind_Ok, E1. reflexivity.
  - exists (nsqrt (n:=NB) (ndiv (n:=NB) (Fin m0) (Fin m2))). split; [|apply nn_sqrt]. apply R. unfold v_Tm02. rewrite Flim, bind_Ok, E0, bind_Ok, E2. reflexivity.
Qed.

(** (c) the peak period is the exact reciprocal of the frequency of the (last) largest density in the band, rounded once *)
Theorem C79_peak_period (h : R) (f s : list R) (sp : spec NB) (fmin fmax lo hi : xr) :
  freq_axis_fl h f -> s <> [] ->
  spectrum_init (N:=NB) (Arr (vec (F f))) (Arr (vec (F s))) = Ok sp ->
  lower_limit f fmin lo -> upper_limit f fmax hi -> (exists k, in_band f lo hi k) ->
  exists k, peak_at f s lo hi k
    /\ (nth k f 0 = 0 /\ snd (get_Tp (N:=NB) fmin fmax sp) = Ok PInf
        \/ nth k f 0 <> 0 /\ snd (get_Tp (N:=NB) fmin fmax sp) = Ok (Fin (rnd (1 / nth k f 0))) /\ 0 < rnd (1 / nth k f 0)).
Proof.
  intros Hf Ns Hsp Hlo Hhi Hex. assert (T := fa_two _ _ Hf).
  assert (Nf : f <> []) by (destruct f; [cbn in T; lia|discriminate]).
  destruct (spectrum_fields_NB f s sp Nf Ns Hsp) as (Ef & Es & Ls & Ck).
  assert (Hi : increasing f).
  { intros i j Hij. assert (A := fa_inc h f Hf i j Hij). assert (P := fa_h h f Hf). lra. }
  destruct (band_peak f s lo hi Hi Ls Hex) as (fb & sb & k & Eb & Hp & Ek & _).
  exists k. split; [exact Hp|].
  assert (E : snd (get_Tp (N:=NB) fmin fmax sp) = Ok (xround (recip (nth k f 0)))).
  { unfold get_Tp, getter, mbind, mget, mlift, mset. rewrite Ef, Es. rewrite v_Tp_rounded. unfold v_Tp.
    rewrite (set_flim_F f fmin fmax lo hi) by auto. rewrite bind_Ok, Eb, bind_Ok, Ek. reflexivity. }
  unfold recip in E. destruct (Req_EM_T (nth k f 0) 0) as [Z|Z]; [left; auto|]. right. split; [exact Z|]. split; [exact E|].
  destruct Hp as [[Hk _] _]. assert (Pk := fa_nonneg h f Hf k Hk). assert (Top := fa_top _ _ Hf _ (nth_In f 0 Hk)).
  apply Rlt_le_trans with (bpow radix2 (-100)); [apply b_pos|]. apply rnd_ge_float; [apply float_bpow; lia|].
  apply le_div; [lra|]. apply Rle_trans with (bpow radix2 (-100) * bpow radix2 100).
  - apply Rmult_le_compat_l; [apply Rlt_le, b_pos|exact Top].
  - rewrite <- bpow_plus. cbn. lra.
Qed.

(** (d) the spectra get_spectrum_raw returns for a record are of this kind, so (a)-(c) hold for them *)
Lemma record_axis (t x : list R) (d : R) (se : series NB) (sp : spec NB) :
  (2 <= length t)%nat -> x <> [] -> (Z.of_nat (length t) <= 2 ^ 30)%Z ->
  bpow radix2 (-20) <= rnd (nth 1 t 0 - nth 0 t 0) <= bpow radix2 20 ->
  series_init (N:=NB) (Arr (vec (F t))) (Arr (vec (F x))) = Ok se ->
  series_spectrum_raw (N:=NB) se (Fin d) = Ok sp ->
  exists h f s, freq_axis_fl h f /\ s <> [] /\ floats s /\ nonneg s /\ spectrum_init (N:=NB) (Arr (vec (F f))) (Arr (vec (F s))) = Ok sp.
Proof.
  intros H2 Nx Hn Hdt Hse Hsp. assert (Nt : t <> []) by (destruct t; [cbn in H2; lia|discriminate]).
  destruct (series_fields_NB t x se Nt Nx Hse) as (Et & Ex & Lx).
  unfold series_spectrum_raw in Hsp. rewrite Et, Ex in Hsp. apply bind_inv in Hsp. destruct Hsp as ([fc sc] & Hs & Hsp).
  assert (Hmono := check_of_spectrum t x d _ H2 Lx Hs).
  destruct (spectrum_NB t x d Lx H2 Hn Hdt Hmono) as (v & c & L & s & _ & HL & Hc & _ & Ls & Fs & Ps & E).
  assert (E' := eq_trans (eq_sym E) Hs). injection E' as <- <-. clear E Hs.
  destruct (fdf_bounds t ltac:(lia) Hn Hdt) as (_ & D1 & D2). set (D := fdf t) in *. set (m := (length t / 2 + 1)%nat) in *.
  assert (Lf : length (favg m D L c) = c) by apply favg_length.
  destruct c as [|c']; [destruct s; [|discriminate Ls]; discriminate Hsp|]. set (c := S c') in *.
  assert (Nf : favg m D L c <> []) by (intros Q; rewrite Q in Lf; discriminate).
  assert (Ns : s <> []) by (intros Q; rewrite Q in Ls; discriminate).
  destruct (spectrum_fields_NB (favg m D L c) s sp Nf Ns Hsp) as (Ef & Es & Lfs & Ck).
  assert (C2 : (2 <= c)%nat).
  { destruct c' as [|c'']; [|unfold c; lia]. exfalso. unfold c in *. destruct (favg m D L 1) as [|a [|b l]]; try discriminate Lf. discriminate Ck. }
  assert (Hm : (m <= length t)%nat).
  { unfold m. assert (DM := Nat.div_mod (length t) 2 ltac:(lia)). assert (M := Nat.mod_upper_bound (length t) 2 ltac:(lia)). lia. }
  exists (INR L * D), (favg m D L c), s. split; [|auto].
  apply favg_axis; auto; [|lia]. split; [eapply Rle_trans; [apply bpow_le|exact D1]; lia|eapply Rle_trans; [exact D2|apply bpow_le; lia]].
Qed.
Theorem C79_record (t x : list R) (d : R) (se : series NB) (sp : spec NB) (before : list (spec_call NB)) (c : spec_call NB) (v : car NB) :
  (2 <= length t)%nat -> x <> [] -> (Z.of_nat (length t) <= 2 ^ 30)%Z ->
  bpow radix2 (-20) <= rnd (nth 1 t 0 - nth 0 t 0) <= bpow radix2 20 ->
  series_init (N:=NB) (Arr (vec (F t))) (Arr (vec (F x))) = Ok se ->
  series_spectrum_raw (N:=NB) se (Fin d) = Ok sp ->
  (forall c', In c' (c :: before) -> gravity c') -> ~ is_Tps c ->
  snd (spec_step (N:=NB) c (spec_run (N:=NB) before sp)) = Ok v -> not_negative v.
Proof.
  intros H2 Nx Hn Hdt Hse Hsp. destruct (record_axis t x d se sp H2 Nx Hn Hdt Hse Hsp) as (h & f & s & Hf & Ns & Fs & Ps & E).
  apply (C79_never_negative h f s sp); auto.
Qed.

(** the hypotheses are met: a small spectrum, the answers after a history, and the peak period 1/1 *)
Example C79_witness :
  exists sp, freq_axis_fl 1 [0; 1; 2; 3] /\ floats [0; 3; 1; 0] /\ nonneg [0; 3; 1; 0]
    /\ spectrum_init (N:=NB) (Arr (vec (F [0; 1; 2; 3]))) (Arr (vec (F [0; 3; 1; 0]))) = Ok sp
    /\ gravity (Cs0p (N:=NB) (Fin 0) (Fin 2) (Fin 9.81)) /\ ~ is_Tps (CTp (N:=NB) (Fin (-1)) PInf)
    /\ snd (get_Tp (N:=NB) (Fin (-1)) PInf sp) = Ok (Fin 1).
Proof.
  destruct C77_witness as (_ & Hf & Fs & Ps).
  assert (Ck : monotonic_increasing_constant_step (N:=NB) (F [0; 1; 2; 3]) = Ok true).
  { apply (C60_near_uniform_accepted [0; 1; 2; 3] 0 1); [cbn; lia|lra|]. intros [|[|[|[|i]]]] Hi; cbn in Hi; try lia; cbn [nth INR];
      apply Rabs_le; split; cbn; nra. }
  assert (E := spectrum_ok_NB [0; 1; 2; 3] [0; 3; 1; 0] ltac:(cbn; lia) eq_refl Ck).
  eexists. split; [exact Hf|]. split; [exact Fs|]. split; [exact Ps|]. split; [exact E|]. split; [cbn; lra|]. split; [intros []|].
  destruct (C79_peak_period 1 [0; 1; 2; 3] [0; 3; 1; 0] _ (Fin (-1)) PInf (Fin 0) PInf Hf ltac:(discriminate) E) as (k & Hp & C).
  - left. auto.
  - right. split; [discriminate|reflexivity].
  - exists 1%nat. unfold in_band. cbn. split; [lia|]. split; [lra|exact I].
  - assert (k = 1%nat) as ->.
    { destruct Hp as ([Hk _] & Hmax & _). assert (I1 : in_band [0; 1; 2; 3] (Fin 0) PInf 1) by (unfold in_band; cbn; split; [lia|]; split; [lra|exact I]).
      specialize (Hmax 1%nat I1). destruct k as [|[|[|[|k]]]]; cbn in Hmax, Hk; try lia; try lra. }
    cbn [nth] in C. destruct C as [[C _]|(_ & C & _)]; [lra|]. rewrite C. replace (1 / 1) with 1 by lra. rewrite rnd_id by apply float_1. reflexivity.
Qed.
End AnyOrder.
