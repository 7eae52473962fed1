(** * Symmetries of the wave-by-wave analysis (core_time.py): C57 *)

From Coq Require Import Reals ZArith String List Bool Lra Lia Permutation.
From Verif Require Import Num XR Spec XRFacts Engine TimeModel TimeSpec EngineProps TimeProps TimeProps2
  TimeProps3 SpectralModel WaveModel SpectrumModel SeriesModel WHProps WHStats.
Import ListNotations.
Open Scope R_scope.

Lemma crossing_facts t0 dt (x : list R) s d : names s d -> 0 < dt -> (2 <= length x)%nat ->
  exists n tau, determine_zero_crossing (Arr (vec (F (axis t0 dt (length x))))) (Arr (vec (F x))) s
      = Ok (n, match tau with [] => empty00 | _ => vec (F tau) end)
    /\ waves_sampled (axis t0 dt (length x)) tau.
Proof.
  intros Hn Hdt H2. set (ax := axis t0 dt (length x)).
  assert (Hlax : length ax = length x) by apply axis_length.
  destruct (C07_crossing_times t0 dt x s d Hn Hdt H2) as (is & tau & tc & [As Is] & L & E & D & Inc & T).
  assert (Htc : tc = match tau with [] => empty00 | _ => vec (F tau) end).
  { destruct (zero_crossing_F ax x s d Hn Hlax H2) as (is' & Hall' & E').
    unfold ax in E'. rewrite E in E'. cbn zeta in E'. apply Ok_inj in E'. injection E' as _ E'.
    subst tc. set (tau' := map _ is') in *.
    assert (tau' = tau) by (apply F_inj; rewrite <- D; destruct tau'; reflexivity).
    rewrite H. reflexivity. }
  exists (Z.of_nat (length is - 1)), tau. rewrite <- Htc. split; [exact E|].
  intros k Hk. destruct (T k ltac:(lia)) as [Tk _]. destruct (T (S k) Hk) as [TSk _]. cbn zeta in Tk, TSk.
  set (i := nth k is 0%nat) in *. set (j := nth (S k) is 0%nat) in *.
  assert (Hij : (i < j)%nat) by (apply As; lia).
  assert (Cj : Rcrosses d x j) by (apply Is, nth_In; lia). destruct Cj as [Cj _].
  exists j. rewrite Hlax. split; [lia|]. unfold ax. rewrite axis_nth by lia.
  assert (INR i + 1 <= INR j) by (rewrite <- S_INR; apply le_INR; lia). split; [nra|]. lra.
Qed.

Lemma first_max_unique t x a b v tv v' tv' : increasing t ->
  first_max_on t x a b v tv -> first_max_on t x a b v' tv' -> v = v' /\ tv = tv'.
Proof.
  intros Inc (i & Hi & Hab & -> & -> & M & M1) (j & Hj & Hab' & -> & -> & M' & M1').
  assert (i = j); [|subst; auto].
  destruct (Nat.lt_trichotomy i j) as [H|[H|H]]; auto.
  - specialize (M1' i H Hab). specialize (M j Hj Hab'). lra.
  - specialize (M1 j H Hab'). specialize (M' i Hi Hab). lra.
Qed.
Lemma first_min_unique t x a b v tv v' tv' : increasing t ->
  first_min_on t x a b v tv -> first_min_on t x a b v' tv' -> v = v' /\ tv = tv'.
Proof.
  intros Inc (i & Hi & Hab & -> & -> & M & M1) (j & Hj & Hab' & -> & -> & M' & M1').
  assert (i = j); [|subst; auto].
  destruct (Nat.lt_trichotomy i j) as [H|[H|H]]; auto.
  - specialize (M1' i H Hab). specialize (M j Hj Hab'). lra.
  - specialize (M1 j H Hab'). specialize (M' i Hi Hab). lra.
Qed.
Lemma is_wave_unique t x a b w w' : increasing t -> is_wave t x a b w -> is_wave t x a b w' -> w = w'.
Proof.
  intros Inc (c & tr & tc & tt & -> & H1 & H2) (c' & tr' & tc' & tt' & -> & H1' & H2').
  destruct (first_max_unique _ _ _ _ _ _ _ _ Inc H1 H1') as [-> ->].
  destruct (first_min_unique _ _ _ _ _ _ _ _ Inc H2 H2') as [-> ->]. reflexivity.
Qed.

Definition crossing_array (tau : list R) : arr NX := match tau with [] => empty00 | _ => vec (F tau) end.
Lemma params_F t x tau : increasing t -> length x = length t -> t <> [] -> waves_sampled t tau ->
  exists ws, determine_params_individual_waves (Arr (crossing_array tau)) (Arr (vec (F t))) (Arr (vec (F x))) = Ok ws
    /\ length ws = (length tau - 1)%nat
    /\ forall k, (k < length ws)%nat -> is_wave t x (nth k tau 0) (nth (S k) tau 0) (nth k ws dwave).
Proof.
  intros Inc Hl Ht Hs. destruct tau as [|a tau].
  - exists []. split; [reflexivity|]. split; [reflexivity|]. cbn; lia.
  - destruct (C12_wave_parameters t x (a :: tau) Inc Hl Ht ltac:(discriminate) Hs) as (ws & E & L & W).
    exists ws. split; [exact E|]. split; [exact L|]. intros k Hk. destruct (W k Hk) as (h & c & tr & tc & tt & -> & -> & H1 & H2).
    exists c, tr, tc, tt. auto.
Qed.
Lemma waves_transport t x tau t' x' tau' (g : wave NX -> wave NX) :
  increasing t -> length x = length t -> t <> [] -> waves_sampled t tau ->
  increasing t' -> length x' = length t' -> t' <> [] -> waves_sampled t' tau' -> length tau' = length tau ->
  (forall k w, (S k < length tau)%nat -> is_wave t x (nth k tau 0) (nth (S k) tau 0) w ->
     is_wave t' x' (nth k tau' 0) (nth (S k) tau' 0) (g w)) ->
  exists ws, determine_params_individual_waves (Arr (crossing_array tau)) (Arr (vec (F t))) (Arr (vec (F x))) = Ok ws
    /\ determine_params_individual_waves (Arr (crossing_array tau')) (Arr (vec (F t'))) (Arr (vec (F x'))) = Ok (map g ws).
Proof.
  intros I1 L1 N1 S1 I2 L2 N2 S2 Hl G.
  destruct (params_F t x tau I1 L1 N1 S1) as (ws & E & Lw & W).
  destruct (params_F t' x' tau' I2 L2 N2 S2) as (ws' & E' & Lw' & W').
  exists ws. split; [exact E|]. rewrite E'. f_equal. apply (nth_ext' _ _ dwave); [rewrite map_length; lia|].
  intros k Hk. apply (is_wave_unique t' x' (nth k tau' 0) (nth (S k) tau' 0)); auto.
  rewrite (nth_indep _ dwave (g dwave)) by (rewrite map_length; lia). rewrite (map_nth g). apply G; [lia|]. apply W. lia.
Qed.

(** ** C57 Symmetries of the wave-by-wave analysis *)

(** a wave whose heights are multiplied by c *)
Definition scaled (c : R) (w : wave NX) : wave NX :=
  mkWave (N:=NX) (nmul (n:=NX) (Fin c) (w_h w)) (w_t w) (nmul (n:=NX) (Fin c) (w_crest w)) (nmul (n:=NX) (Fin c) (w_trough w)) (w_tcrest w) (w_ttrough w).
(** a wave turned upside down *)
Definition mirrored (w : wave NX) : wave NX :=
  mkWave (N:=NX) (w_h w) (w_t w) (nopp (n:=NX) (w_trough w)) (nopp (n:=NX) (w_crest w)) (w_ttrough w) (w_tcrest w).
(** a wave that happens a time c later *)
Definition delayed (c : R) (w : wave NX) : wave NX :=
  mkWave (N:=NX) (w_h w) (w_t w) (w_crest w) (w_trough w) (nadd (n:=NX) (Fin c) (w_tcrest w)) (nadd (n:=NX) (Fin c) (w_ttrough w)).

(** the waves of a signal on a uniform axis: crossings followed by the parameters *)
Definition waves_of (t0 dt : R) (x : list R) (s : string) (n : Z) (ws : list (wave NX)) : Prop :=
  exists tc, determine_zero_crossing (Arr (vec (F (axis t0 dt (length x))))) (Arr (vec (F x))) s = Ok (n, tc)
    /\ determine_params_individual_waves (Arr tc) (Arr (vec (F (axis t0 dt (length x))))) (Arr (vec (F x))) = Ok ws.

Lemma axis_ne t0 dt (x : list R) : (2 <= length x)%nat -> axis t0 dt (length x) <> [].
Proof. intros H E. apply (f_equal (@length R)) in E. rewrite axis_length in E. cbn in E. lia. Qed.

Theorem C57_scale (t0 dt : R) (x : list R) (s : string) (d : direction) (c : R) :
  names s d -> 0 < dt -> (2 <= length x)%nat -> 0 < c ->
  exists n ws, waves_of t0 dt x s n ws /\ waves_of t0 dt (map (Rmult c) x) s n (map (scaled c) ws).
Proof.
  intros Hn Hdt H2 Hc. destruct (crossing_facts t0 dt x s d Hn Hdt H2) as (n & tau & E & S1).
  assert (Inc : increasing (axis t0 dt (length x))) by (apply axis_increasing; auto).
  destruct (waves_transport (axis t0 dt (length x)) x tau (axis t0 dt (length x)) (map (Rmult c) x) tau (scaled c))
    as (ws & E1 & E2); auto using axis_ne; try (rewrite ?map_length, axis_length; reflexivity).
  - intros k w _ (cr & tr & tc & tt & -> & (i & Hi & Hab & -> & -> & M & M1) & (j & Hj & Hab' & -> & -> & M' & M1')).
    rewrite axis_length in Hi, Hj.
    exists (c * nth i x 0), (c * nth j x 0), (nth i (axis t0 dt (length x)) 0), (nth j (axis t0 dt (length x)) 0).
    split; [unfold scaled; cbn [w_h w_t w_crest w_trough w_tcrest w_ttrough]; rewrite !fin_mul, Rmult_minus_distr_l; reflexivity|].
    split; [exists i|exists j]; (split; [rewrite axis_length; auto|]); (split; [auto|]); (split; [reflexivity|]);
      (split; [rewrite nth_map_R by auto; reflexivity|]); split; intros l Hl Hlab;
      try (rewrite axis_length in Hl); rewrite nth_map_R by lia.
    + apply Rmult_le_compat_l; [lra|]. apply M; auto. rewrite axis_length; auto.
    + apply Rmult_lt_compat_l; [lra|]. apply M1; auto.
    + apply Rmult_le_compat_l; [lra|]. apply M'; auto. rewrite axis_length; auto.
    + apply Rmult_lt_compat_l; [lra|]. apply M1'; auto.
  - exists n, ws. split; [exists (crossing_array tau); split; [exact E|exact E1]|]. exists (crossing_array tau). rewrite map_length. split; [|exact E2].
    rewrite (C08_scale (axis t0 dt (length x)) x s d c); auto. apply axis_length.
Qed.

Theorem C57_mirror (t0 dt : R) (x : list R) (s s' : string) :
  names s Down -> names s' Up -> 0 < dt -> (2 <= length x)%nat ->
  exists n ws, waves_of t0 dt x s n ws /\ waves_of t0 dt (map Ropp x) s' n (map mirrored ws).
Proof.
  intros Hn Hn' Hdt H2. destruct (crossing_facts t0 dt x s Down Hn Hdt H2) as (n & tau & E & S1).
  assert (Inc : increasing (axis t0 dt (length x))) by (apply axis_increasing; auto).
  destruct (waves_transport (axis t0 dt (length x)) x tau (axis t0 dt (length x)) (map Ropp x) tau mirrored)
    as (ws & E1 & E2); auto using axis_ne; try (rewrite ?map_length, axis_length; reflexivity).
  - intros k w _ (cr & tr & tc & tt & -> & (i & Hi & Hab & -> & -> & M & M1) & (j & Hj & Hab' & -> & -> & M' & M1')).
    rewrite axis_length in Hi, Hj.
    exists (- nth j x 0), (- nth i x 0), (nth j (axis t0 dt (length x)) 0), (nth i (axis t0 dt (length x)) 0).
    split. { unfold mirrored; cbn [w_h w_t w_crest w_trough w_tcrest w_ttrough]. rewrite !fin_opp.
      replace (- nth j x 0 - - nth i x 0) with (nth i x 0 - nth j x 0) by ring. reflexivity. }
    split; [exists j|exists i]; (split; [rewrite axis_length; auto|]); (split; [auto|]); (split; [reflexivity|]);
      (split; [rewrite nth_map_R by auto; reflexivity|]); split; intros l Hl Hlab;
      try (rewrite axis_length in Hl); rewrite nth_map_R by lia.
    + apply Ropp_le_contravar. apply M'; auto. rewrite axis_length; auto.
    + apply Ropp_lt_contravar. apply M1'; auto.
    + apply Ropp_le_contravar. apply M; auto. rewrite axis_length; auto.
    + apply Ropp_lt_contravar. apply M1; auto.
  - exists n, ws. split; [exists (crossing_array tau); split; [exact E|exact E1]|]. exists (crossing_array tau). rewrite map_length. split; [|exact E2].
    rewrite <- (C08_mirror (axis t0 dt (length x)) x s s'); auto. apply axis_length.
Qed.

Theorem C57_shift (t0 dt : R) (x : list R) (s : string) (d : direction) (c : R) :
  names s d -> 0 < dt -> (2 <= length x)%nat ->
  exists n ws, waves_of t0 dt x s n ws /\ waves_of (c + t0) dt x s n (map (delayed c) ws).
Proof.
  intros Hn Hdt H2. destruct (crossing_facts t0 dt x s d Hn Hdt H2) as (n & tau & E & S1).
  destruct (crossing_facts (c + t0) dt x s d Hn Hdt H2) as (n' & tau' & E' & S2).
  assert (Eax : axis (c + t0) dt (length x) = map (Rplus c) (axis t0 dt (length x))).
  { unfold axis. rewrite map_map. apply map_ext. intros; lra. }
  destruct (C08_shift (axis t0 dt (length x)) x s d c Hn (axis_length _ _ _) H2) as (m & tau0 & tc & tc' & F1 & F2 & F3 & F4).
  rewrite F1 in E. apply Ok_inj in E. injection E as -> ->. rewrite Eax, F3 in E'. apply Ok_inj in E'. injection E' as <- ->.
  assert (tau0 = tau) as -> by (apply F_inj; rewrite <- F2; destruct tau; reflexivity).
  assert (tau' = map (Rplus c) tau) as -> by (apply F_inj; rewrite <- F4; destruct tau'; reflexivity).
  assert (Inc : increasing (axis t0 dt (length x))) by (apply axis_increasing; auto).
  assert (Inc' : increasing (axis (c + t0) dt (length x))) by (apply axis_increasing; auto).
  destruct (waves_transport (axis t0 dt (length x)) x tau (axis (c + t0) dt (length x)) x (map (Rplus c) tau) (delayed c))
    as (ws & E1 & E2); auto using axis_ne; try (rewrite ?map_length, ?axis_length; reflexivity).
  - intros k w Hk (cr & tr & tc & tt & -> & (i & Hi & Hab & -> & -> & M & M1) & (j & Hj & Hab' & -> & -> & M' & M1')).
    rewrite axis_length in Hi, Hj.
    assert (An : forall l, (l < length x)%nat -> nth l (axis (c + t0) dt (length x)) 0 = c + nth l (axis t0 dt (length x)) 0).
    { intros l Hl. rewrite !axis_nth by auto. ring. }
    rewrite !nth_map_R by lia.
    exists (nth i x 0), (nth j x 0), (c + nth i (axis t0 dt (length x)) 0), (c + nth j (axis t0 dt (length x)) 0).
    split. { unfold delayed; cbn [w_h w_t w_crest w_trough w_tcrest w_ttrough]. rewrite !fin_add.
      replace (c + nth (S k) tau 0 - (c + nth k tau 0)) with (nth (S k) tau 0 - nth k tau 0) by ring. reflexivity. }
    split; [exists i|exists j]; (split; [rewrite axis_length; auto|]); rewrite An by auto; (split; [lra|]); (split; [reflexivity|]);
      (split; [reflexivity|]); split; intros l Hl Hlab;
      try (rewrite axis_length in Hl); rewrite An in Hlab by lia.
    + apply M; [rewrite axis_length; auto|lra].
    + apply M1; [auto|lra].
    + apply M'; [rewrite axis_length; auto|lra].
    + apply M1'; [auto|lra].
  - exists n, ws. split; [exists (crossing_array tau); split; [exact F1|exact E1]|]. exists (crossing_array (map (Rplus c) tau)). split; [|exact E2].
    rewrite Eax. exact F3.
Qed.
Example C57_witness : names "down" Down /\ 0 < 1/2 /\ (2 <= length ([1; -1; 2; -3; 1]%R))%nat
  /\ exists n ws, waves_of 0 (1/2) [1; -1; 2; -3; 1] "down" n ws /\ n = 1%Z.
Proof.
  split; [reflexivity|]. split; [lra|]. split; [cbn; lia|].
  destruct (C13_analysis_never_fails 0 (1/2) [1; -1; 2; -3; 1] "down" Down eq_refl ltac:(lra) ltac:(cbn; lia)) as (n & tc & ws & E & P & L & _).
  exists n, ws. split; [exists tc; auto|].
  destruct (C07_crossing_times 0 (1/2) [1; -1; 2; -3; 1] "down" Down eq_refl ltac:(lra) ltac:(cbn; lia)) as (is & tau & tc' & A & L' & E' & _).
  cbn zeta in E. rewrite E in E'. apply Ok_inj in E'. injection E' as -> _.
  assert (is = [0; 2]%nat) as ->; [|reflexivity].
  apply (all_crossings_unique Down [1; -1; 2; -3; 1]); auto. split.
  - intros i j H. cbn in H. destruct i as [|[|i]], j as [|[|j]]; cbn; lia.
  - intros i. unfold Rcrosses. cbn [length]. split.
    + intros [<-|[<-|[]]]; cbn; split; try lia; lra.
    + intros [Hi Hx]. destruct i as [|[|[|[|i]]]]; cbn in Hx; try lia; try lra; cbn; auto.
Qed.

(** the statistics scale along *)
Theorem C57_statistics_scale (argsort : list NX -> list nat) (h t : list R) (calls calls' : list (wh_call NX)) (c : R) :
  is_argsort argsort -> h <> [] -> length h = length t -> 0 < c ->
  let s := wh_run argsort calls (new_wh h t) in
  let s' := wh_run argsort calls' (new_wh (map (Rmult c) h) t) in
  (forall v, snd (wh_Hrms s) = Ok (Fin v) -> snd (wh_Hrms s') = Ok (Fin (c * v)))
  /\ (forall v, snd (wh_Hmax s) = Ok (Fin v) -> snd (wh_Hmax s') = Ok (Fin (c * v)))
  /\ (forall p v, 0 <= p <= 1 -> rmap fst (snd (wh_highest argsort (Fin p) s)) = Ok (Fin v) ->
        rmap fst (snd (wh_highest argsort (Fin p) s')) = Ok (Fin (c * v)))
  /\ (forall p v, 0 <= p <= 100 -> snd (wh_exceedance argsort (Fin p) s) = Ok (Fin v) ->
        snd (wh_exceedance argsort (Fin p) s') = Ok (Fin (c * v))).
Proof.
  intros Hs Hne Hl Hc s s'.
  set (hs := rev (Rsort h)).
  assert (Ph : Permutation hs h) by (unfold hs; rewrite <- Permutation_rev; apply Rsort_perm).
  assert (Dh : descending hs) by apply rev_Rsort_desc.
  assert (Lr := Permutation_length Ph).
  assert (Ph' : Permutation (map (Rmult c) hs) (map (Rmult c) h)) by (apply Permutation_map; auto).
  assert (Dh' : descending (map (Rmult c) hs)).
  { intros i j Hij. rewrite map_length in Hij. rewrite !nth_map_R by lia. apply Rmult_le_compat_l; [lra|]. apply Dh; lia. }
  assert (Hne' : map (Rmult c) h <> []) by (intros E; apply map_eq_nil in E; contradiction).
  destruct (C14_values argsort h t hs calls Hs Hne Hl Ph Dh) as (V1 & (mx & I & M & V2) & V3 & V4).
  destruct (C14_values argsort (map (Rmult c) h) t (map (Rmult c) hs) calls' Hs Hne' ltac:(rewrite map_length; auto) Ph' Dh')
    as (V1' & (mx' & I' & M' & V2') & V3' & V4').
  fold s in V1, V2, V3, V4. fold s' in V1', V2', V3', V4'. rewrite map_length in V3', V4'.
  assert (Smul : forall l, Rsum (map (Rmult c) l) = c * Rsum l).
  { clear. induction l as [|a l IH]; cbn; unfold Rsum in *; cbn; [lra|]. rewrite IH. lra. }
  assert (Mmul : forall l, Rmean (map (Rmult c) l) = c * Rmean l).
  { intros l. unfold Rmean. rewrite Smul, map_length. unfold Rdiv. ring. }
  split; [|split; [|split]].
  - intros v Hv. rewrite V1 in Hv. apply Ok_inj in Hv. injection Hv as <-. rewrite V1'. do 2 f_equal.
    replace (map (fun v => v * v) (map (Rmult c) h)) with (map (Rmult c) (map (Rmult c) (map (fun v => v * v) h))).
    + rewrite !Mmul, <- Rmult_assoc. rewrite sqrt_mult_alt by nra. rewrite sqrt_square by lra. reflexivity.
    + rewrite !map_map. apply map_ext. intros; ring.
  - intros v Hv. rewrite V2 in Hv. apply Ok_inj in Hv. injection Hv as <-. rewrite V2'. do 2 f_equal.
    apply Rle_antisym.
    + apply in_map_iff in I' as (u & <- & Hu). apply Rmult_le_compat_l; [lra|]. apply M; auto.
    + apply M'. apply in_map_iff. eauto.
  - intros p v Hp Hv. destruct (floor_is_exists (INR (length h) * p)) as [k Hk]; [apply Rmult_le_pos; [apply pos_INR|lra]|].
    rewrite (V3 p k Hp Hk) in Hv. apply Ok_inj in Hv. injection Hv as <-. rewrite (V3' p k Hp Hk). do 2 f_equal.
    destruct (Nat.eqb k 0); [lra|]. rewrite <- Mmul, firstn_map. reflexivity.
  - intros p v Hp Hv. destruct (floor_is_exists (INR (length h) * p / 100)) as [k Hk].
    { assert (N := pos_INR (length h)). assert (0 <= INR (length h) * p) by (apply Rmult_le_pos; lra). lra. }
    rewrite (V4 p k Hp Hk) in Hv. apply Ok_inj in Hv. injection Hv as <-. rewrite (V4' p k Hp Hk). do 2 f_equal.
    destruct (Nat.eqb_spec k 0); [lra|]. 
    assert (Hkn : (k <= length h)%nat).
    { destruct Hk as [Hk _]. apply INR_le. assert (N := pos_INR (length h)). nra. }
    rewrite nth_map_R by lia. reflexivity.
Qed.
