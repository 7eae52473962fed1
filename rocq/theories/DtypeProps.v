(** * Integer arrays (C71) *)

From Coq Require Import Reals ZArith List Bool Lra Lia.
From Coquelicot Require Import Coquelicot.
From Verif Require Import Num XR Spec XRFacts RSum Engine EngineProps FourierSpec TimeProps TimeProps3 SeriesProps FourierFacts BandProps
  TimeProps2 AvgProps SpectralModel WaveModel SpectrumModel SimpsonFacts MomentProps PeakProps ParamProps GetterProps DtypeModel.
Import ListNotations.
Open Scope R_scope.

(** the values of an integer array *)
Definition Zs (f : list Z) : list R := map IZR f.
(** [k] is [v] with its fraction dropped: the integer nearest to [v] among those between 0 and [v] *)
Definition fraction_dropped (v : R) (k : Z) : Prop :=
  (0 <= v -> 0 <= IZR k <= v /\ v < IZR k + 1) /\ (v <= 0 -> v <= IZR k <= 0 /\ IZR k - 1 < v).

Notation int_moment f s := (compute_moment_dt true (Arr (vec (F (Zs f)))) (Arr (vec (F s)))).

Lemma trunc_F v : exists k, int_trunc (N:=NX) (Fin v) = Ok k /\ fraction_dropped v k.
Proof.
  unfold int_trunc. rewrite fin_0, fin_ltb. destruct (Rltb_spec v 0).
  - rewrite fin_opp. unfold int_floor. cbn [nfloor NX xfloor]. cbn. exists (- Rfloor (- v))%Z. split; [reflexivity|].
    assert (H := Rfloor_spec (- v)). assert (0 <= Rfloor (- v))%Z.
    { apply Z.lt_succ_r. apply lt_IZR. unfold Z.succ. rewrite plus_IZR. lra. }
    apply IZR_le in H0. split; intros; rewrite opp_IZR; lra.
  - exists (Rfloor v). split; [reflexivity|]. assert (H := Rfloor_spec v). assert (0 <= Rfloor v)%Z.
    { apply Z.lt_succ_r. apply lt_IZR. unfold Z.succ. rewrite plus_IZR. lra. }
    apply IZR_le in H0. split; intros; split; lra.
Qed.
Lemma dropped_unique v k k' : fraction_dropped v k -> fraction_dropped v k' -> k = k'.
Proof.
  intros [A B] [A' B']. destruct (Rle_lt_dec 0 v) as [H|H].
  - specialize (A H). specialize (A' H). assert (k < k' + 1)%Z by (apply lt_IZR; rewrite plus_IZR; lra).
    assert (k' < k + 1)%Z by (apply lt_IZR; rewrite plus_IZR; lra). lia.
  - specialize (B ltac:(lra)). specialize (B' ltac:(lra)). assert (k < k' + 1)%Z by (apply lt_IZR; rewrite plus_IZR; lra).
    assert (k' < k + 1)%Z by (apply lt_IZR; rewrite plus_IZR; lra). lia.
Qed.

Lemma Zs_length f : length (Zs f) = length f. Proof. apply map_length. Qed.

Section Moment.
  Variables (f : list R) (s : list R) (m : Z).
  Hypothesis (Hf : freq_axis f) (Hl : length s = length f).
  Notation dt := (compute_moment_dt true (Arr (vec (F f))) (Arr (vec (F s))) m).
  Lemma dt_negative fmin fmax : (m < 0)%Z -> dt fmin fmax = Raise ValueError.
  Proof.
    intros Hm. destruct Hf as [Hg H0]. assert (H2 := proj1 Hg). unfold compute_moment_dt. rewrite !vec_convert.
    cbn [snd fst Nat.ltb Nat.leb orb]. rewrite as_list_vec, bind_Ok, good_mono, bind_Ok by auto. cbn [negb].
    rewrite !F_length, Hl, Nat.eqb_refl. cbn [negb]. rewrite as_list_vec, bind_Ok, idx_F, bind_Ok by lia.
    rewrite (proj2 (Z.ltb_lt m 0) Hm). reflexivity.
  Qed.
  Lemma dt_inside fmin fmax : (0 <= m)%Z ->
    fmin = Fin (-1) \/ fmax = Fin (-1) \/ nleb (n:=NX) fmax (Fin (last_of f)) = true ->
    dt fmin fmax = moment f s m fmin fmax.
  Proof.
    intros Hm Hin. destruct Hf as [Hg H0]. assert (H2 := proj1 Hg). unfold compute_moment_dt, compute_moment. rewrite !vec_convert.
    cbn [snd fst Nat.ltb Nat.leb orb]. rewrite !as_list_vec, !bind_Ok, !good_mono, !bind_Ok by auto. cbn [negb].
    rewrite !F_length, Hl, Nat.eqb_refl. cbn [negb]. rewrite !idx_F, !bind_Ok by lia.
    rewrite (proj2 (Z.ltb_ge m 0) Hm). cbn [andb]. change (nopp (n:=NX) n1) with (Fin (-1)).
    assert (Ez : forall l, drop_zero (N:=NX) m (Fin (nth 0 f 0)) (F l) = F l).
    { intros l. unfold drop_zero. rewrite (proj2 (Z.ltb_ge m 0) Hm). reflexivity. }
    rewrite !Ez. destruct (_ || _) eqn:Eb; [reflexivity|]. apply orb_false_iff in Eb as [E1 E2].
    destruct Hin as [-> |[-> |Hin]]; [exfalso; cbn in E1; rewrite Reqb_true in E1; auto; discriminate
                                  |exfalso; cbn in E2; rewrite Reqb_true in E2; auto; discriminate|].
    rewrite !(idx_last_nth _ (Fin 0)) by (apply F_ne; intros ->; cbn in H2; lia).
    rewrite !bind_Ok, F_length, F_nth. fold (last_of f). rewrite Hin. reflexivity.
  Qed.
  Lemma dt_beyond lo fmax : (0 <= m)%Z -> lo <> -1 -> fmax <> Fin (-1) -> nleb (n:=NX) fmax (Fin (last_of f)) = false ->
    dt (Fin lo) fmax = Raise ValueError.
  Proof.
    intros Hm N1 N2 Hb. assert (Hf' := Hf). destruct Hf as [Hg H0]. assert (H2 := proj1 Hg). unfold compute_moment_dt. rewrite !vec_convert.
    cbn [snd fst Nat.ltb Nat.leb orb]. rewrite as_list_vec, bind_Ok, good_mono, bind_Ok by auto. cbn [negb].
    rewrite !F_length, Hl, Nat.eqb_refl. cbn [negb]. rewrite as_list_vec, bind_Ok, idx_F, bind_Ok by lia.
    rewrite (proj2 (Z.ltb_ge m 0) Hm). cbn [andb]. change (nopp (n:=NX) n1) with (Fin (-1)).
    assert (Wz : forall l, without_zero m f l = l).
    { intros l. unfold without_zero. rewrite (proj2 (Z.ltb_ge m 0) Hm). reflexivity. }
    assert (Ez : forall l, drop_zero (N:=NX) m (Fin (nth 0 f 0)) (F l) = F l).
    { intros l. unfold drop_zero. rewrite (proj2 (Z.ltb_ge m 0) Hm). reflexivity. }
    rewrite !Ez. assert (Hin := integrand_F f s m Hf' Hl). rewrite !Wz in Hin. rewrite Hin.
    rewrite fin_eqb, Reqb_false by auto. cbn [orb].
    destruct (neqb (n:=NX) fmax (Fin (-1))) eqn:E; [apply neqb_m1 in E; contradiction|].
    assert (Hne : f <> []) by (intros ->; cbn in H2; lia).
    rewrite idx_F, bind_Ok by lia. rewrite (idx_last_nth _ (Fin 0)) by (apply F_ne; auto).
    rewrite !bind_Ok, F_length, F_nth. fold (last_of f). rewrite Hb.
    destruct (nearest_exists f lo Hne) as (i & Ei & Ni). rewrite Ei, bind_Ok.
    destruct (nearest_exists f (last_of f) Hne) as (j & Ej & Nj). rewrite Ej, bind_Ok.
    assert (I := good_increasing f Hg).
    assert (j = (length f - 1)%nat) as -> by (apply (nearest_unique f (last_of f)); auto; apply nearest_self; auto; lia).
    assert (Hi : (i <= length f - 1)%nat) by (destruct Ni; lia).
    assert (Hs := simpson_slice_F f s m Hf' Hl i (length f - 1)). rewrite Wz in Hs. rewrite Hs by lia. rewrite bind_Ok.
    rewrite (idx_last_nth _ (Fin 0)) by (apply F_ne; intros ->; cbn in Hl; lia). rewrite bind_Ok. reflexivity.
  Qed.
End Moment.

(** ** C71 *)

(** compute_moment on an integer frequency axis: a negative order always raises; a non-negative order gives the value
    of the float axis as long as the upper limit does not exceed the last frequency, and raises beyond it (the tail) *)
Theorem C71_moment (f : list Z) (s : list R) (m : Z) (lo : R) (hi : xr) :
  freq_axis (Zs f) -> length s = length f ->
  ((m < 0)%Z -> forall fmin fmax, int_moment f s m fmin fmax = Raise ValueError)
  /\ ((0 <= m)%Z -> lo = -1 \/ hi = Fin (-1) \/ ext_le hi (Fin (last_of (Zs f))) ->
        int_moment f s m (Fin lo) hi = moment (Zs f) s m (Fin lo) hi)
  /\ ((0 <= m)%Z -> lo <> -1 -> hi <> Fin (-1) -> ~ ext_le hi (Fin (last_of (Zs f))) ->
        int_moment f s m (Fin lo) hi = Raise ValueError).
Proof.
  intros Hf Hl. rewrite <- (Zs_length f) in Hl. split; [|split].
  - intros Hm fmin fmax. apply dt_negative; auto.
  - intros Hm Hin. apply dt_inside; auto. destruct Hin as [-> |[-> |H]]; auto. right; right. apply leb_ext. auto.
  - intros Hm N1 N2 Hb. apply dt_beyond; auto. destruct (leb_case hi (Fin (last_of (Zs f)))) as [[_ H]|[H _]]; [contradiction|auto].
Qed.

(** ... so compute_spectrum_params fails on every integer frequency axis, whatever the density and the limits *)
Theorem C71_parameters (f : list Z) (s : list R) (fmin fmax : xr) :
  freq_axis (Zs f) -> length s = length f ->
  compute_spectrum_params_dt true (Arr (vec (F (Zs f)))) (Arr (vec (F s))) fmin fmax = Raise ValueError.
Proof.
  intros Hf Hl. rewrite <- (Zs_length f) in Hl. assert (Hf' := Hf). destruct Hf' as [Hg H0]. assert (H2 := proj1 Hg).
  unfold compute_spectrum_params_dt. rewrite !vec_convert. cbn [snd fst]. change (Nat.ltb 1 0) with false. cbn [orb].
  rewrite as_list_vec, bind_Ok, good_mono, bind_Ok by auto. cbn [negb]. rewrite !F_length, Hl, Nat.eqb_refl. cbn [negb].
  rewrite as_list_vec, bind_Ok, !idx_F, !bind_Ok by lia. rewrite dt_negative by (auto; lia). reflexivity.
Qed.

(** the getters of a Spectrum object with an integer axis: Tmm10, and with it the default split frequency, raise and
    leave the object as it was; Hm0, Tm01 and Tm02 are those of the float axis *)
Theorem C71_getters (f : list Z) (s : list R) (fmin fmax hi : xr) (lo : R) (sp : spec NX) :
  s_f sp = F (Zs f) -> s_S sp = F s ->
  freq_axis (Zs f) -> length s = length f ->
  lower_limit (Zs f) fmin (Fin lo) -> upper_limit (Zs f) fmax hi ->
  get_Tmm10_dt true fmin fmax sp = (sp, Raise ValueError)
  /\ (s_Tmm10 sp = None -> get_Hm0_HF_dt true (Fin (-1)) fmax sp = (sp, Raise ValueError)
                        /\ get_Hm0_LF_dt true fmin (Fin (-1)) sp = (sp, Raise ValueError))
  /\ (ext_le hi (Fin (last_of (Zs f))) ->
        get_Hm0_dt true fmin fmax sp = get_Hm0 fmin fmax sp
        /\ get_Tm01_dt true fmin fmax sp = get_Tm01 fmin fmax sp
        /\ get_Tm02_dt true fmin fmax sp = get_Tm02 fmin fmax sp)
  /\ (~ ext_le hi (Fin (last_of (Zs f))) ->
        get_Hm0_dt true fmin fmax sp = (sp, Raise ValueError)
        /\ get_Tm01_dt true fmin fmax sp = (sp, Raise ValueError)
        /\ get_Tm02_dt true fmin fmax sp = (sp, Raise ValueError)).
Proof.
  intros Ef Es Hf Hl Hlo Hhi. destruct (C71_moment f s 0 lo hi Hf Hl) as (_ & A0 & B0).
  destruct (C71_moment f s 1 lo hi Hf Hl) as (_ & A1 & B1). destruct (C71_moment f s 2 lo hi Hf Hl) as (_ & A2 & B2).
  assert (Hl' := Hl). rewrite <- (Zs_length f) in Hl'.
  assert (Hne : Zs f <> []) by (intros E; destruct Hf as [[A _] _]; rewrite E in A; cbn in A; lia).
  assert (ET : forall v w, get_Tmm10_dt true v w sp = (sp, Raise ValueError)).
  { intros v w. unfold get_Tmm10_dt, getter, mbind, mget, mlift, mset. rewrite Ef, Es. unfold v_Tmm10_dt.
    assert (exists lo', lower_limit (Zs f) v lo') as [l' Hl0].
    { destruct (neqb (n:=NX) v (Fin (-1))) eqn:E; [eexists; left; split; [apply neqb_m1; auto|reflexivity]|].
      exists v. right. split; [|reflexivity]. intros ->. cbn in E. rewrite Reqb_true in E by auto. discriminate. }
    assert (exists hi', upper_limit (Zs f) w hi') as [h' Hh0].
    { destruct (neqb (n:=NX) w (Fin (-1))) eqn:E; [eexists; left; split; [apply neqb_m1; auto|reflexivity]|].
      exists w. right. split; [|reflexivity]. intros ->. cbn in E. rewrite Reqb_true in E by auto. discriminate. }
    rewrite (set_flim_F (Zs f) v w l' h') by auto. rewrite bind_Ok, dt_negative by (auto; lia). reflexivity. }
  split; [apply ET|]. split; [|split].
  - intros HT. unfold get_Hm0_HF_dt, get_Hm0_LF_dt, default_cutoff_dt. change (nopp (n:=NX) n1) with (Fin (-1)).
    rewrite (proj2 (neqb_m1 (Fin (-1))) eq_refl). unfold cutoff_dt. unfold mbind at 1 2 3 4 5 6. unfold ensure. rewrite HT. rewrite ET. split; reflexivity.
  - intros H. unfold get_Hm0_dt, get_Tm01_dt, get_Tm02_dt, get_Hm0, get_Tm01, get_Tm02, getter, mbind, mget, mlift, mset. rewrite Ef, Es.
    unfold v_Hm0_dt, v_Tm01_dt, v_Tm02_dt, v_Hm0, v_Tm01, v_Tm02, v_moment. rewrite (set_flim_F (Zs f) fmin fmax (Fin lo) hi) by auto.
    rewrite !bind_Ok, A0, A1, A2 by (auto || lia). auto.
  - intros H.
    assert (N1 : lo <> -1).
    { destruct Hlo as [[_ E]|[N E]]; [|intros ->; auto]. apply fin_inj in E. destruct Hf as [_ H0]. lra. }
    assert (N2 : hi <> Fin (-1)).
    { destruct Hhi as [[_ E]|[N E]]; [|intros ->; auto]. intros ->. apply fin_inj in E. apply H. cbn. lra. }
    unfold get_Hm0_dt, get_Tm01_dt, get_Tm02_dt, getter, mbind, mget, mlift, mset. rewrite Ef, Es.
    unfold v_Hm0_dt, v_Tm01_dt, v_Tm02_dt. rewrite (set_flim_F (Zs f) fmin fmax (Fin lo) hi) by auto.
    rewrite !bind_Ok, B0 by (auto || lia). auto.
Qed.

Lemma mapM_raise {A B} (k : A -> res B) e l :
  (forall a, In a l -> (exists b, k a = Ok b) \/ k a = Raise e) -> (exists a, In a l /\ k a = Raise e) -> mapM k l = Raise e.
Proof.
  induction l as [|a l IH]; intros H (x & Hx & Ex); [contradiction|]. cbn [mapM].
  destruct (H a (or_introl eq_refl)) as [[b Eb]|Eb]; rewrite Eb; [|reflexivity]. rewrite bind_Ok. rewrite IH; [reflexivity| |].
  - intros y Hy. apply H. right. auto.
  - destruct Hx as [-> |Hx]; [|eauto]. exfalso. congruence.
Qed.

(** no JONSWAP or Pierson-Moskowitz spectrum can be made on an integer axis with a positive frequency *)
Theorem C71_jonswap (f : list Z) (fp hm0 gammaPeak l_fmax : xr) :
  (exists k, In k f /\ (0 < k)%Z) ->
  create_spectrum_jonswap_dt true (Arr (vec (F (Zs f)))) fp hm0 gammaPeak l_fmax = Raise ValueError
  /\ create_spectrum_piersonmoskowitz_dt true (Arr (vec (F (Zs f)))) fp hm0 gammaPeak l_fmax = Raise ValueError.
Proof.
  intros (k & Hk & Hp).
  assert (J : create_spectrum_jonswap_dt true (Arr (vec (F (Zs f)))) fp hm0 gammaPeak l_fmax = Raise ValueError).
  { unfold create_spectrum_jonswap_dt. rewrite !vec_convert. cbn [fst snd]. rewrite F_length, Zs_length.
    assert (L : (0 < length f)%nat) by (destruct f; [contradiction|cbn; lia]).
    rewrite (proj2 (Nat.eqb_neq _ _)) by lia. change (Nat.ltb 1 0) with false. cbv iota.
    rewrite as_list_vec, bind_Ok, idx_F, bind_Ok by (rewrite Zs_length; lia).
    match goal with |- bind ?r _ = _ => destruct r as [y|e] eqn:Ey end.
    2:{ destruct (neqb (n:=NX) l_fmax n0); [discriminate|]. destruct (neqb (n:=NX) l_fmax n1); [discriminate|].
        injection Ey as <-. reflexivity. }
    rewrite bind_Ok. rewrite (mapM_raise _ ValueError); [reflexivity| |].
    - intros a _. unfold jonswap_density_dt. destruct (_ && _); [auto|left; eauto].
    - exists (Fin (IZR k)). split; [unfold F, Zs; rewrite map_map; apply (in_map (fun x => Fin (IZR x))); auto|].
      unfold jonswap_density_dt, spacing1. rewrite fin_lit by lra. rewrite fin_ltb, Rltb_true; [reflexivity|].
      assert (1 <= IZR k) by (apply (IZR_le 1); lia). assert (0 < 2 ^ 52) by lra.
      apply Rlt_le_trans with 1; [|auto]. lra. }
  split; [exact J|]. unfold create_spectrum_piersonmoskowitz_dt. rewrite vec_convert. exact J.
Qed.

(** band averaging of an integer density: each averaged value loses its fraction *)
Theorem C71_averaging (f : list R) (s : list Z) (df : R) (af as_ : arraylike NX) :
  (2 <= length f)%nat -> step f <> 0 -> length s = length f ->
  holds_vector (F f) af -> holds_vector (F (Zs s)) as_ ->
  exists r fc sc, averaging_factor f df r
    /\ frequency_averaging_dt true af as_ (Fin df) = Ok (F fc, F (Zs sc))
    /\ length fc = (length f / r)%nat /\ length sc = (length f / r)%nat
    /\ (forall i, (i < length f / r)%nat ->
          nth i fc 0 = block_mean r f i /\ fraction_dropped (block_mean r (Zs s) i) (nth i sc 0%Z))
    /\ (df = 0 -> fc = f /\ sc = s).
Proof.
  intros H2 Hs Hl Hf Hss. destruct (factor_exists f df) as (r & Hr). assert (Hr1 := factor_pos _ _ _ Hr).
  set (tr := fun v => match int_trunc (N:=NX) (Fin v) with Ok k => k | Raise _ => 0%Z end).
  assert (Ht : forall v, int_trunc (N:=NX) (Fin v) = Ok (tr v) /\ fraction_dropped v (tr v)).
  { intros v. unfold tr. destruct (trunc_F v) as (k & E & D). rewrite E. auto. }
  exists r, (map (block_mean r f) (seq 0 (length f / r))), (map (fun i => tr (block_mean r (Zs s) i)) (seq 0 (length f / r))).
  split; [exact Hr|]. assert (Hl' := Hl). rewrite <- (Zs_length s) in Hl'.
  assert (Nf : F f <> []) by (apply F_ne; intros ->; cbn in H2; lia).
  assert (Ns : F (Zs s) <> []) by (apply F_ne; intros E; rewrite E in Hl'; cbn in Hl'; lia).
  split.
  { destruct (hv_convert _ _ Nf Hf) as (k1 & K1 & E1). destruct (hv_convert _ _ Ns Hss) as (k2 & K2 & E2).
    unfold frequency_averaging_dt. rewrite E1, E2. cbn [fst snd].
    assert (Nat.ltb 1 k1 = false) as -> by (apply Nat.ltb_ge; lia).
    assert (Nat.ltb 1 k2 = false) as -> by (apply Nat.ltb_ge; lia). cbn [orb].
    rewrite !as_list_vec, !bind_Ok, (avg_factor_F f df r) by auto. rewrite bind_Ok, F_length, fin_ofnat.
    assert (Hp : 0 < INR r) by (apply lt_0_INR; lia).
    rewrite fin_div by lra. rewrite (fin_floor_nat _ (length f / r)).
    - rewrite bind_Ok, Nat2Z.id, idx_F, bind_Ok by lia.
      assert (Hb : forall v i, length v = length f -> In i (seq 0 (length f / r)) ->
                avg_block (Fin (INR r)) (F v) i = Ok (Fin (block_mean r v i))).
      { intros v i Hv Hi. apply in_seq in Hi. apply avg_block_F; auto. rewrite Hv.
        assert (r * (length f / r) <= length f)%nat by (apply Nat.mul_div_le; lia). nia. }
      rewrite (mapM_Ok _ (fun i => Fin (block_mean r f i))) by (intros; apply Hb; auto). rewrite bind_Ok.
      rewrite (mapM_Ok _ (fun i => Fin (IZR (tr (block_mean r (Zs s) i))))).
      + rewrite bind_Ok. unfold F, Zs. rewrite !map_map. reflexivity.
      + intros i Hi. rewrite Hb by auto. rewrite bind_Ok. unfold store_as. rewrite (proj1 (Ht _)). reflexivity.
    - apply Rmult_le_pos; [apply pos_INR|]. left. apply Rinv_0_lt_compat. auto.
    - apply floor_div. auto. }
  rewrite !map_length, seq_length. split; [auto|]. split; [auto|]. split.
  - intros i Hi. rewrite !map_seq_nth by auto. split; [auto|apply Ht].
  - intros ->. destruct Hr as [[_ ->]|[N _]]; [|contradiction]. rewrite Nat.div_1_r. split.
    + apply (nth_ext' _ _ 0); [rewrite map_length, seq_length; auto|].
      intros i Hi. rewrite map_length, seq_length in Hi. rewrite map_seq_nth by auto. apply block_mean_1.
    + apply (nth_ext' _ _ 0%Z); [rewrite map_length, seq_length; auto|].
      intros i Hi. rewrite map_length, seq_length in Hi. rewrite map_seq_nth by auto.
      apply (dropped_unique (block_mean 1 (Zs s) i)); [apply Ht|]. rewrite block_mean_1. unfold Zs.
      change 0 with (IZR 0). rewrite map_nth. split; lra.
Qed.

(** averaging an integer density can destroy all of its variance *)
Theorem C71_variance_conserved_refuted :
  ~ (forall (f : list R) (s : list Z) (df : R) r fc sc,
       (2 <= length f)%nat -> 0 < step f -> length s = length f -> averaging_factor f df r ->
       frequency_averaging_dt true (Arr (vec (F f))) (Arr (vec (F (Zs s)))) (Fin df) = Ok (F fc, F (Zs sc)) ->
       Rsum (map (fun v => v * (INR r * step f)) (Zs sc)) = Rsum (map (fun v => v * step f) (firstn (length f / r * r) (Zs s)))).
Proof.
  intros H. set (f := [0; 1; 2; 3]). set (s := [0; 1; 1; 0]%Z).
  assert (S1 : step f = 1) by (unfold step, f; cbn; lra).
  destruct (C71_averaging f s 2 (Arr (vec (F f))) (Arr (vec (F (Zs s))))) as (r & fc & sc & Hr & E & _ & Ls & Hi & _);
    [cbn; lia|rewrite S1; lra|reflexivity|constructor|constructor|].
  assert (r = 2%nat) as ->.
  { destruct Hr as [[A _]|[_ (z & [Hz _] & Ez)]]; [lra|]. rewrite S1 in Hz.
    assert (z = 2)%Z as ->; [|lia]. replace (2 / 1) with 2 in Hz by lra.
    apply Rabs_le_between in Hz. assert (z < 3)%Z by (apply lt_IZR; lra). assert (1 < z)%Z by (apply lt_IZR; lra). lia. }
  assert (F2 : averaging_factor f 2 2).
  { exact Hr. }
  specialize (H f s 2 2%nat fc sc ltac:(cbn; lia) ltac:(rewrite S1; lra) eq_refl F2 E).
  change (length f / 2)%nat with 2%nat in *. destruct sc as [|a [|b [|]]]; cbn [length] in Ls; try discriminate.
  destruct (Hi 0%nat ltac:(lia)) as [_ [A _]]. destruct (Hi 1%nat ltac:(lia)) as [_ [B _]].
  cbn in A, B. unfold block_mean, Rmean in A, B. cbn in A, B.
  specialize (A ltac:(lra)). specialize (B ltac:(lra)).
  assert (a = 0)%Z as -> by (assert (a < 1)%Z by (apply lt_IZR; lra); assert (-1 < a)%Z by (apply lt_IZR; lra); lia).
  assert (b = 0)%Z as -> by (assert (b < 1)%Z by (apply lt_IZR; lra); assert (-1 < b)%Z by (apply lt_IZR; lra); lia).
  rewrite S1 in H. cbn in H. lra.
Qed.

(** ... but never creates any, when no density is negative *)
Theorem C71_variance_not_created (f : list R) (s : list Z) (df : R) (af as_ : arraylike NX) :
  (2 <= length f)%nat -> 0 < step f -> length s = length f ->
  holds_vector (F f) af -> holds_vector (F (Zs s)) as_ -> (forall k, In k s -> (0 <= k)%Z) ->
  exists r fc sc, averaging_factor f df r
    /\ frequency_averaging_dt true af as_ (Fin df) = Ok (F fc, F (Zs sc))
    /\ 0 <= Rsum (map (fun v => v * (INR r * step f)) (Zs sc))
          <= Rsum (map (fun v => v * step f) (firstn (length f / r * r) (Zs s)))
    /\ Rsum (map (fun v => v * step f) (firstn (length f / r * r) (Zs s))) - Rsum (map (fun v => v * (INR r * step f)) (Zs sc))
       <= INR (length f / r) * (INR r * step f).
Proof.
  intros H2 Hs Hl Hf Hss Hp. destruct (C71_averaging f s df af as_) as (r & fc & sc & Hr & E & _ & Ls & Hi & _); auto; [lra|].
  assert (Hr1 := factor_pos _ _ _ Hr). exists r, fc, sc. split; [auto|]. split; [auto|].
  assert (Hl' : length (Zs s) = length f) by (rewrite Zs_length; auto).
  assert (Hle : (length f / r * r <= length (Zs s))%nat) by (rewrite Hl', Nat.mul_comm; apply Nat.mul_div_le; lia).
  assert (Hrp : 0 < INR r) by (apply lt_0_INR; lia).
  assert (Ev : Rsum (map (fun v => v * step f) (firstn (length f / r * r) (Zs s)))
             = RS (length f / r) (fun i => step f * (block_mean r (Zs s) i * INR r))).
  { rewrite RS_scal, block_sum by auto. rewrite (Rsum_map_RS _ _ 0), firstn_length, Nat.min_l by auto.
    rewrite <- RS_scal. apply RS_ext. intros i Hii. rewrite firstn_nth by auto. ring. }
  assert (Es : Rsum (map (fun v => v * (INR r * step f)) (Zs sc)) = RS (length f / r) (fun i => IZR (nth i sc 0%Z) * (INR r * step f))).
  { rewrite (Rsum_map_RS _ _ 0), Zs_length, Ls. apply RS_ext. intros i Hii. unfold Zs. change 0 with (IZR 0). rewrite map_nth. reflexivity. }
  rewrite Ev, Es.
  assert (Hb : forall i, (i < length f / r)%nat -> 0 <= block_mean r (Zs s) i).
  { intros i Hii. unfold block_mean, Rmean. apply Rmult_le_pos.
    - apply Rsum_nonneg. intros x Hx. apply in_map_iff in Hx as (j & <- & _).
      destruct (Nat.lt_ge_cases (i * r + j) (length (Zs s))) as [Hj|Hj]; [|rewrite nth_overflow by auto; lra].
      unfold Zs. change 0 with (IZR 0) at 2. rewrite map_nth. apply (IZR_le 0). apply Hp, nth_In. rewrite Zs_length in Hj. auto.
    - left. apply Rinv_0_lt_compat. rewrite map_length, seq_length. auto. }
  assert (Hd : forall i, (i < length f / r)%nat -> 0 <= IZR (nth i sc 0%Z) <= block_mean r (Zs s) i /\ block_mean r (Zs s) i < IZR (nth i sc 0%Z) + 1).
  { intros i Hii. destruct (Hi i Hii) as [_ [A _]]. apply A, Hb, Hii. }
  assert (Hrs : 0 < INR r * step f) by (apply Rmult_lt_0_compat; auto).
  split; [split|].
  - apply RS_nonneg. intros i Hii. destruct (Hd i Hii). apply Rmult_le_pos; lra.
  - apply RS_le. intros i Hii. destruct (Hd i Hii). nra.
  - rewrite <- (RS_const (length f / r) (INR r * step f)).
    rewrite <- RS_minus. apply RS_le. intros i Hii. destruct (Hd i Hii). nra.
Qed.

(** a concrete case: two bands of an integer density, and an integer axis *)
Lemma C71_witness :
  freq_axis (Zs [0; 1; 2; 3]%Z) /\ length [1; 2; 2; 1] = length [0; 1; 2; 3]%Z
  /\ (exists k, In k [0; 1; 2; 3]%Z /\ (0 < k)%Z) /\ fraction_dropped (5 / 2) 2 /\ fraction_dropped (- (5 / 2)) (-2).
Proof.
  split; [|split; [reflexivity|split; [exists 1%Z; split; [cbn; auto|lia]|split; split; intros; split; lra]]].
  split; [|cbn; lra]. split; [cbn; lia|]. intros i Hi. cbn [length] in Hi. assert (0 < 1000000 / 2 ^ 52) by lra.
  cbn in Hi. destruct i as [|[|[|]]]; [| | |lia]; cbn [nth Zs map]; lra.
Qed.
