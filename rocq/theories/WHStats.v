(** * Values and ordering of the wave-height statistics (series.py, class WaveHeights): C14, C56 *)

From Coq Require Import Reals ZArith String List Bool Lra Lia Permutation.
From Verif Require Import Num XR Spec XRFacts Engine TimeModel TimeSpec EngineProps TimeProps TimeProps2
  TimeProps3 SpectralModel WaveModel SpectrumModel SeriesModel WHProps SeriesProps.
Import ListNotations.
Open Scope R_scope.

(** ** C14: the answers are what the documentation says, after any history.
    [hs] are the wave heights in descending order. *)
Theorem C14_values (argsort : list NX -> list nat) (h t hs : list R) (calls : list (wh_call NX)) :
  is_argsort argsort -> h <> [] -> length h = length t -> Permutation hs h -> descending hs ->
  let s := wh_run argsort calls (new_wh h t) in
  snd (wh_Hrms s) = Ok (Fin (sqrt (Rmean (map (fun v => v * v) h))))
  /\ (exists mx, In mx h /\ (forall v, In v h -> v <= mx) /\ snd (wh_Hmax s) = Ok (Fin mx))
  /\ (forall p k, 0 <= p <= 1 -> floor_is (INR (length h) * p) k ->
      rmap fst (snd (wh_highest argsort (Fin p) s)) = Ok (Fin (if Nat.eqb k 0 then 0 else Rmean (firstn k hs))))
  /\ (forall p k, 0 <= p <= 100 -> floor_is (INR (length h) * p / 100) k ->
      snd (wh_exceedance argsort (Fin p) s) = Ok (Fin (if Nat.eqb k 0 then 0 else nth (k - 1) hs 0))).
Proof.
  intros Hs Hne Hl Ph Dh s.
  assert (H : holds_waves s h t) by (apply C14_waves_preserved; auto).
  assert (Ehs : hs = rev (Rsort h)).
  { apply desc_perm_unique; auto; [apply rev_Rsort_desc|]. rewrite Ph, <- Permutation_rev. symmetry. symmetry. apply Permutation_sym, Rsort_perm. }
  assert (Lr := Permutation_length Ph).
  assert (Hne' : hs <> []) by (intros E; rewrite E in Lr; destruct h; [contradiction|discriminate]).
  destruct H as (h' & t' & Eh & Et & En & L1 & L2 & P).
  assert (H : holds_waves s h t) by (exists h', t'; auto 10).
  assert (P' := heights_perm h t Hl h' t' L1 L2 P).
  assert (Hne1 : h' <> []) by (intros ->; destruct h; [contradiction|discriminate]).
  split; [|split; [|split]].
  - unfold wh_Hrms. cbn [snd]. rewrite Eh. cbn [data vec]. rewrite (F_map (fun x => x * x)) by reflexivity.
    rewrite nmean_F by (intros E; apply map_eq_nil in E; contradiction).
    rewrite (Rmean_perm (map (fun x => x * x) h') (map (fun x => x * x) h)) by (apply Permutation_map; auto).
    rewrite fin_sqrt; [reflexivity|]. assert (Hn := map_eq_nil (fun v : R => v * v) h).
    apply Rmult_le_pos; [|left; apply Rinv_0_lt_compat, lt_0_INR; rewrite map_length; destruct h; [contradiction|cbn; lia]].
    clear. induction h as [|a l IH]; cbn; [lra|]. unfold Rsum in *. cbn. nra.
  - unfold wh_Hmax. cbn [snd]. rewrite Eh. cbn [data vec]. rewrite npmax_F.
    destruct (pymax_F h' Hne1) as (m & -> & I & M). exists m. split; [apply (Permutation_in _ P'); auto|]. split; [|reflexivity].
    intros v Hv. apply M. apply (Permutation_in _ (Permutation_sym P')). auto.
  - intros p k Hp Hk. destruct (highest_answer argsort Hs h t Hne Hl (Fin p) s H) as (t1 & M1 & _ & ->).
    rewrite <- Ehs. rewrite (C10_highest_waves hs t1 p k); auto; try lia; [|rewrite Lr; auto].
    destruct (Nat.eqb k 0); reflexivity.
  - intros p k Hp Hk. unfold wh_exceedance.
    destruct (sort_bind argsort Hs h t Hne Hl (fun _ s0 => (s0, exceedance_wave_height (Arr (wh_h s0)) (Fin p))) s H)
      as (s1 & h1 & t1 & -> & _ & -> & D1 & M1 & N1 & P1).
    cbn [snd wh_h]. assert (h1 = hs) as ->.
    { apply desc_perm_unique; auto. rewrite (heights_perm h t Hl h1 t1), Ph; auto. }
    apply C11_exceedance_value; auto. rewrite Lr. auto.
Qed.

(** ** C56 Ordering of the wave height statistics *)

Lemma Rmean_sq (l : list R) : l <> [] -> Rmean l * Rmean l <= Rmean (map (fun v => v * v) l).
Proof.
  intros Hne. assert (V := Rvar_nonneg l). unfold Rvar in V. set (m := Rmean l) in *.
  assert (Hl : 0 < INR (length l)) by (apply lt_0_INR; destruct l; [contradiction|cbn; lia]).
  assert (E : Rsum (map (fun x => (x - m) * (x - m)) l) = Rsum (map (fun v => v * v) l) - 2 * m * Rsum l + INR (length l) * (m * m)).
  { clearbody m. clear. induction l as [|a l IH]; [cbn; lra|]. cbn [map length]. rewrite S_INR.
    change (Rsum (?a :: ?l)) with (a + Rsum l). rewrite IH. ring. }
  unfold Rmean in V. rewrite map_length, E in V.
  assert (Em : Rsum l = INR (length l) * m) by (unfold m, Rmean; field; lra). rewrite Em in V.
  unfold Rmean at 1. rewrite map_length. 
  replace (m * m) with ((INR (length l) * (m * m)) / INR (length l)) by (field; lra).
  unfold Rdiv. apply Rmult_le_compat_r; [left; apply Rinv_0_lt_compat; auto|].
  assert (V' := Rmult_le_compat_r (INR (length l)) _ _ (Rlt_le _ _ Hl) V). unfold Rdiv in V'.
  rewrite Rmult_assoc, Rinv_l in V' by lra. nra.
Qed.

(** mean, root-mean-square, mean of the highest fraction, exceedance height and maximum, in one object *)
Theorem C56_statistics_order (argsort : list NX -> list nat) (h t : list R) (calls : list (wh_call NX)) (p Hp Tp Hrms Hmax E : R) :
  is_argsort argsort -> h <> [] -> length h = length t -> (forall v, In v h -> 0 <= v) ->
  0 <= p <= 1 -> 1 <= INR (length h) * p ->
  let s := wh_run argsort calls (new_wh h t) in
  snd (wh_highest argsort (Fin p) s) = Ok (Fin Hp, Fin Tp) ->
  snd (wh_Hrms s) = Ok (Fin Hrms) -> snd (wh_Hmax s) = Ok (Fin Hmax) ->
  snd (wh_exceedance argsort (Fin (100 * p)) s) = Ok (Fin E) ->
  Rmean h <= Hrms <= Hmax /\ Rmean h <= Hp <= Hmax /\ 0 <= E <= Hp.
Proof.
  intros Hs Hne Hl Hpos Hp01 Hnp s E1 E2 E3 E4.
  set (hs := rev (Rsort h)).
  assert (Ph : Permutation hs h) by (unfold hs; rewrite <- Permutation_rev; apply Rsort_perm).
  assert (Dh : descending hs) by apply rev_Rsort_desc.
  assert (Lr := Permutation_length Ph).
  assert (Hl0 : (0 < length h)%nat) by (destruct h; [contradiction|cbn; lia]).
  destruct (C14_values argsort h t hs calls Hs Hne Hl Ph Dh) as (V1 & (mx & I & M & V2) & V3 & V4).
  fold s in V1, V2, V3, V4.
  rewrite V1 in E2. apply Ok_inj in E2. injection E2 as E2.
  rewrite V2 in E3. apply Ok_inj in E3. injection E3 as E3.
  destruct (floor_is_exists (INR (length h) * p)) as [k Hk]; [lra|].
  assert (Hk1 : (1 <= k)%nat).
  { destruct Hk as [_ Hk]. rewrite <- S_INR in Hk. assert (1 < INR (S k)) by lra. change 1 with (INR 1) in H. apply INR_lt in H. lia. }
  assert (Hkn : (k <= length h)%nat).
  { destruct Hk as [Hk _]. apply INR_le. assert (N := pos_INR (length h)). nra. }
  specialize (V3 p k Hp01 Hk). rewrite E1 in V3. cbn in V3. destruct (Nat.eqb_spec k 0) as [|_]; [lia|].
  apply Ok_inj in V3. injection V3 as V3.
  assert (Hk' : floor_is (INR (length h) * (100 * p) / 100) k) by (replace (INR (length h) * (100 * p) / 100) with (INR (length h) * p) by lra; exact Hk).
  specialize (V4 (100 * p) k ltac:(lra) Hk'). rewrite E4 in V4. destruct (Nat.eqb_spec k 0) as [|_]; [lia|].
  apply Ok_inj in V4. injection V4 as V4. subst Hrms Hmax Hp E.
  assert (Fne : firstn k hs <> []) by (intros Q; apply (f_equal (@length R)) in Q; rewrite firstn_length in Q; cbn in Q; lia).
  assert (Bh : forall v, In v h -> 0 <= v <= mx) by (intros v Hv; split; auto).
  assert (Bf : forall v, In v (firstn k hs) -> nth (k - 1) hs 0 <= v <= mx).
  { intros v Hv. split; [|apply M, (Permutation_in _ Ph), (firstn_incl k), Hv].
    apply (In_nth _ _ 0) in Hv as (i & Hi & <-). rewrite firstn_length in Hi. rewrite firstn_nth by lia.
    destruct (Nat.eq_dec i (k - 1)) as [->|]; [lra|]. apply Dh; lia. }
  assert (Q := Rmean_bounds _ _ _ Fne Bf).
  assert (Qh := Rmean_bounds _ _ _ Hne Bh).
  assert (Qs : 0 <= Rmean (map (fun v => v * v) h) <= mx * mx).
  { apply Rmean_bounds; [intros Z; apply map_eq_nil in Z; contradiction|].
    intros v Hv. apply in_map_iff in Hv as (u & <- & Hu). specialize (Bh u Hu). split; [nra|nra]. }
  assert (Hm0 : 0 <= mx) by (apply (Bh mx I)).
  split; [split|split; [split|split]].
  - rewrite <- (sqrt_Rsqr (Rmean h)) by lra. apply sqrt_le_1_alt. unfold Rsqr. apply Rmean_sq; auto.
  - rewrite <- (sqrt_Rsqr mx) by lra. apply sqrt_le_1_alt. unfold Rsqr. lra.
  - assert (Z := prefix_mean_mono hs k (length hs) Dh ltac:(lia) ltac:(lia)). rewrite firstn_all in Z.
    rewrite (Rmean_perm _ _ Ph) in Z. exact Z.
  - lra.
  - apply (Bh (nth (k - 1) hs 0)). apply (Permutation_in _ Ph), nth_In. lia.
  - lra.
Qed.
(** H_p does not increase when more waves are taken: H_1/3 <= H_1/10 etc. *)
Theorem C56_highest_order (argsort : list NX -> list nat) (h t : list R) (calls calls' : list (wh_call NX)) (p q Hp Tp Hq Tq : R) :
  is_argsort argsort -> h <> [] -> length h = length t ->
  0 <= p <= q -> q <= 1 -> 1 <= INR (length h) * p ->
  snd (wh_highest argsort (Fin p) (wh_run argsort calls (new_wh h t))) = Ok (Fin Hp, Fin Tp) ->
  snd (wh_highest argsort (Fin q) (wh_run argsort calls' (new_wh h t))) = Ok (Fin Hq, Fin Tq) ->
  Hq <= Hp.
Proof.
  intros Hs Hne Hl Hpq Hq1 Hnp E1 E2.
  set (hs := rev (Rsort h)).
  assert (Ph : Permutation hs h) by (unfold hs; rewrite <- Permutation_rev; apply Rsort_perm).
  assert (Dh : descending hs) by apply rev_Rsort_desc.
  assert (Lr := Permutation_length Ph).
  assert (N := pos_INR (length h)).
  destruct (floor_is_exists (INR (length h) * p)) as [k Hk]; [lra|].
  destruct (floor_is_exists (INR (length h) * q)) as [k' Hk']; [nra|].
  destruct (C14_values argsort h t hs calls Hs Hne Hl Ph Dh) as (_ & _ & V3 & _).
  destruct (C14_values argsort h t hs calls' Hs Hne Hl Ph Dh) as (_ & _ & V3' & _).
  specialize (V3 p k ltac:(lra) Hk). specialize (V3' q k' ltac:(lra) Hk'). rewrite E1 in V3. rewrite E2 in V3'. cbn in V3, V3'.
  assert (Hk1 : (1 <= k)%nat).
  { destruct Hk as [_ Hk]. rewrite <- S_INR in Hk. assert (1 < INR (S k)) by lra. change 1 with (INR 1) in H. apply INR_lt in H. lia. }
  assert (Hkk : (k <= k')%nat).
  { destruct Hk as [Hk _], Hk' as [_ Hk']. rewrite <- S_INR in Hk'. assert (INR k < INR (S k')) by nra. apply INR_lt in H. lia. }
  assert (Hkn : (k' <= length h)%nat).
  { destruct Hk' as [Hk' _]. apply INR_le. nra. }
  destruct (Nat.eqb_spec k 0) as [|_]; [lia|]. destruct (Nat.eqb_spec k' 0) as [|_]; [lia|].
  apply Ok_inj in V3, V3'. injection V3 as ->. injection V3' as ->.
  apply prefix_mean_mono; auto; lia.
Qed.
Example C56_witness : exists Hp Tp, snd (wh_highest stable_argsort (Fin (2/3)) (new_wh [1; 3; 2] [7; 8; 9])) = Ok (Fin Hp, Fin Tp)
  /\ 1 <= INR (length ([1; 3; 2] : list R)) * (2/3) /\ forall v, In v [1; 3; 2] -> 0 <= v.
Proof.
  destruct (highest_answer stable_argsort stable_argsort_is_argsort [1; 3; 2] [7; 8; 9] ltac:(discriminate) eq_refl (Fin (2/3)) _
              (new_wh_holds [1; 3; 2] [7; 8; 9])) as (t1 & L1 & _ & ->).
  assert (P : Permutation (rev (Rsort [1; 3; 2])) [1; 3; 2]) by (rewrite <- Permutation_rev; apply Rsort_perm).
  rewrite (C10_highest_waves _ t1 (2/3) 2).
  - cbn [Nat.eqb]. do 2 eexists. split; [reflexivity|]. split; [cbn; lra|]. intros v [<-|[<-|[<-|[]]]]; lra.
  - intros E. rewrite E in P. apply Permutation_nil in P. discriminate.
  - rewrite L1, (Permutation_length P). reflexivity.
  - apply rev_Rsort_desc.
  - lra.
  - rewrite (Permutation_length P). split; cbn; lra.
Qed.
