(** * Change of frequency unit: C66 *)

From Coq Require Import Reals ZArith List Bool Lra Lia.
From Coquelicot Require Import Coquelicot.
From Verif Require Import Num XR Spec XRFacts RSum Engine EngineProps FourierSpec TimeProps TimeProps3 SeriesProps FourierFacts BandProps
  WaveModel SpectrumModel SimpsonFacts MomentProps PeakProps ParamProps.
Import ListNotations.
Open Scope R_scope.

Definition times (c : R) (l : list R) : list R := map (Rmult c) l.
(** the same frequency in the other unit *)
Definition xtimes (c : R) (v : xr) : xr := match v with Fin r => Fin (c * r) | w => w end.
(** the same period in the other unit *)
Definition xdivided (c : R) (v : xr) : xr := match v with Fin r => Fin (r / c) | w => w end.

Lemma times_nth c l k : nth k (times c l) 0 = c * nth k l 0.
Proof. unfold times. replace 0 with (c * 0) at 1 by ring. apply map_nth. Qed.
Lemma times_length c l : length (times c l) = length l. Proof. apply map_length. Qed.
Lemma times_slice c i j l : slice i j (times c l) = times c (slice i j l).
Proof. unfold times, slice. rewrite skipn_map, firstn_map. reflexivity. Qed.
Section Unit.
  Variable c : R.
  Hypothesis Hc : 0 < c.
  Lemma times_inc l : increasing l -> increasing (times c l).
  Proof. intros H i j Hij. rewrite times_length in Hij. rewrite !times_nth. apply Rmult_lt_compat_l; auto. Qed.
  Lemma times_last l : last_of (times c l) = c * last_of l.
  Proof using. unfold last_of. rewrite times_length. apply times_nth. Qed.

  Lemma rpanel_times x0 x1 x2 y0 y1 y2 : x0 < x1 < x2 -> rpanel (c * x0) (c * x1) (c * x2) y0 y1 y2 = c * rpanel x0 x1 x2 y0 y1 y2.
  Proof.
    intros H. unfold rpanel.
    replace (c * x1 - c * x0) with (c * (x1 - x0)) by ring. replace (c * x2 - c * x1) with (c * (x2 - x1)) by ring.
    assert (Pa : 0 < x1 - x0) by lra. assert (Pb : 0 < x2 - x1) by lra. revert Pa Pb. generalize (x1 - x0), (x2 - x1). intros a b Pa Pb.
    field. repeat split; nra.
  Qed.
  Lemma rlast_times x0 x1 x2 y0 y1 y2 : x0 < x1 < x2 -> rlast (c * x0) (c * x1) (c * x2) y0 y1 y2 = c * rlast x0 x1 x2 y0 y1 y2.
  Proof.
    intros H. unfold rlast. 
    replace (c * x1 - c * x0) with (c * (x1 - x0)) by ring. replace (c * x2 - c * x1) with (c * (x2 - x1)) by ring.
    assert (Pa : 0 < x1 - x0) by lra. assert (Pb : 0 < x2 - x1) by lra. revert Pa Pb. generalize (x1 - x0), (x2 - x1). intros a b Pa Pb.
    assert (0 < c * a) by nra. assert (0 < c * b) by nra. field. repeat split; nra.
  Qed.
  Lemma rbasic_times n : forall x y, (length x <= n)%nat -> increasing x -> rbasic (times c x) y = c * rbasic x y.
  Proof.
    induction n as [n IH] using lt_wf_ind. intros x y Hn Hx.
    destruct x as [|x0 [|x1 [|x2 x]]]; try (cbn; ring). destruct y as [|y0 [|y1 [|y2 y]]]; try (cbn; ring).
    change (rpanel (c * x0) (c * x1) (c * x2) y0 y1 y2 + rbasic (times c (x2 :: x)) (y2 :: y)
            = c * (rpanel x0 x1 x2 y0 y1 y2 + rbasic (x2 :: x) (y2 :: y))).
    cbn [length] in Hn. rewrite (IH (n - 2)%nat); [|lia|cbn [length]; lia|apply increasing_tl, increasing_tl in Hx; exact Hx].
    rewrite rpanel_times; [ring|]. split; [apply (Hx 0%nat 1%nat)|apply (Hx 1%nat 2%nat)]; cbn; lia.
  Qed.
  Lemma rsimp_times x y : increasing x -> rsimp (times c x) y = c * rsimp x y.
  Proof.
    intros Hx. unfold rsimp. rewrite times_length. destruct (Nat.odd (length x)) eqn:O; [apply (rbasic_times (length x)); auto|].
    rewrite !times_nth. destruct (Nat.eqb_spec (length x) 2); [ring|]. rewrite (rbasic_times (length x)) by auto.
    destruct (Nat.le_gt_cases 3 (length x)) as [L|L].
    - rewrite rlast_times; [ring|]. split; apply Hx; lia.
    - destruct x as [|x0 [|x1 [|]]]; cbn in *; try lia; try discriminate. unfold rlast. cbn. unfold Rdiv. rewrite !Rmult_0_r, Rminus_eq_0. ring.
  Qed.
  Lemma rsimp_mul (a : R) x y : length x = length y -> rsimp x (times a y) = a * rsimp x y.
  Proof using. clear Hc.
    intros H. assert (E : times a y = lc a 0 y y).
    { apply (nth_ext' _ _ 0); [unfold times; rewrite map_length, lc_length; auto|]. intros k Hk. rewrite lc_nth by auto.
      unfold times. replace 0 with (a * 0) at 1 by ring. rewrite map_nth. ring. }
    rewrite E, rsimp_lin by auto. ring.
  Qed.
  Lemma nearest_times l v i : nearest l v i <-> nearest (times c l) (c * v) i.
  Proof.
    assert (E : forall k, Rabs (nth k (times c l) 0 - c * v) = c * Rabs (nth k l 0 - v)).
    { intros k. rewrite times_nth, <- Rmult_minus_distr_l, Rabs_mult, (Rabs_pos_eq c) by lra. reflexivity. }
    unfold nearest. rewrite times_length. split; intros (A & B & C); (split; [auto|]); split; intros k Hk.
    - rewrite !E. apply Rmult_le_compat_l; [lra|auto].
    - rewrite !E. apply Rmult_lt_compat_l; auto.
    - specialize (B k Hk). rewrite !E in B. apply (Rmult_le_reg_l c); auto.
    - specialize (C k Hk). rewrite !E in C. apply (Rmult_lt_reg_l c); auto.
  Qed.
  Lemma wz_times' m f (l : list R) : without_zero m (times c f) l = without_zero m f l.
  Proof.
    unfold without_zero. rewrite times_nth.
    replace (Reqb (c * nth 0 f 0) 0) with (Reqb (nth 0 f 0) 0); [reflexivity|].
    destruct (Reqb_spec (nth 0 f 0) 0) as [E0|N].
    - rewrite E0, Rmult_0_r, Reqb_true; auto.
    - rewrite Reqb_false; auto. intros E. apply Rmult_integral in E as [|]; lra.
  Qed.
  Lemma wz_times m f l : without_zero m (times c f) (times c l) = times c (without_zero m f l).
  Proof. rewrite wz_times'. unfold without_zero. destruct (_ && _); [|reflexivity]. destruct l; reflexivity. Qed.
  Lemma powerRZ_times x m : 0 < x \/ (0 <= m)%Z -> powerRZ (c * x) m = powerRZ c m * powerRZ x m.
  Proof.
    intros [H|H]; [apply powerRZ_mult; right; nra|]. rewrite !powerRZ_nat by auto. apply Rpow_mult_distr.
  Qed.

  Variables (f s : list R).
  Hypothesis Hf : freq_axis f.
  Hypothesis Hf' : freq_axis (times c f).
  Hypothesis Hl : length s = length f.
  Let Hl' : length s = length (times c f). Proof. rewrite times_length. auto. Qed.

  Lemma weighted_times m : weighted m (times c f) s = times (powerRZ c m) (weighted m f s).
  Proof.
    assert (L := g_length f s m Hl). assert (L' := g_length (times c f) s m Hl'). rewrite wz_times, times_length in L'.
    apply (nth_ext' _ _ 0); [rewrite times_length; lia|]. intros k Hk. rewrite times_nth, !g_nth by (auto; try rewrite wz_times, times_length; lia).
    rewrite wz_times, wz_times', times_nth, powerRZ_times; [ring|].
    destruct (Z.neg_nonneg_cases m) as [N|]; [|auto]. left. assert (Z0 := proj2 Hf). assert (Inc := good_increasing f (proj1 Hf)).
    rewrite L', wz_length in Hk. rewrite wz_nth. destruct (Z.ltb_spec m 0); [|lia]. cbn [andb] in *.
    destruct (Reqb_spec (nth 0 f 0) 0) as [E0|E0].
    - assert (A := Inc 0%nat (k + 1)%nat ltac:(lia)). lra.
    - rewrite Nat.add_0_r. apply Rlt_le_trans with (nth 0 f 0); [lra|]. apply inc_le; auto; lia.
  Qed.
  Lemma moment_times_in m lo h v : 0 <= lo -> lo <= h -> h <= last_of f -> moment f s m (Fin lo) (Fin h) = Ok (Fin v) ->
    moment (times c f) s m (Fin (c * lo)) (Fin (c * h)) = Ok (Fin (powerRZ c (m + 1) * v)).
  Proof.
    intros H0 H1 H2 E. assert (P1 : 0 <= c * lo) by (apply Rmult_le_pos; lra). assert (P2 : c * lo <= c * h) by (apply Rmult_le_compat_l; lra).
    assert (P3 : c * h <= last_of (times c f)) by (rewrite times_last; apply Rmult_le_compat_l; lra).
    destruct (moment_in f s m Hf Hl lo h) as (i & j & Ni & Nj & Hij & E1); try lra.
    destruct (moment_in (times c f) s m Hf' Hl' (c * lo) (c * h)) as (i' & j' & Ni' & Nj' & _ & E2); try lra.
    rewrite E in E1. apply Ok_inj, fin_inj in E1. rewrite wz_times in *. apply nearest_times in Ni', Nj'.
    assert (Inc := fq_inc f m Hf).
    assert (i' = i) as -> by (apply (nearest_unique (without_zero m f f) lo); auto). assert (j' = j) as -> by (apply (nearest_unique (without_zero m f f) h); auto).
    rewrite E2, E1, weighted_times, !times_slice. do 2 f_equal. assert (Lg := g_length f s m Hl).
    rewrite rsimp_times, rsimp_mul; [|rewrite !slice_length; lia|apply slice_inc; auto].
    rewrite powerRZ_add by lra. rewrite powerRZ_1'. ring.
  Qed.
  (** ** C66: the moment of order m carries the unit frequency^(m+1) *)
  Theorem C66_moment m lo hi v : 0 <= lo -> ext_le (Fin lo) hi -> (m < 4)%Z -> moment f s m (Fin lo) hi = Ok (Fin v) ->
    moment (times c f) s m (Fin (c * lo)) (xtimes c hi) = Ok (Fin (powerRZ c (m + 1) * v)).
  Proof.
    intros H0 Hle Hm E. destruct (fq_last f m Hf) as [_ Pl]. assert (P1 : 0 <= c * lo) by (apply Rmult_le_pos; lra).
    assert (N1 : lo <> -1) by lra. assert (N2 : c * lo <> -1) by lra.
    assert (Pc : 0 < powerRZ c (m + 1)) by (apply powerRZ_lt; auto).
    (* the grid part, for any lower limit *)
    assert (Body : forall b b', moment f s m (Fin lo) (Fin (last_of f)) = Ok (Fin b) ->
       moment (times c f) s m (Fin (c * lo)) (Fin (last_of (times c f))) = Ok (Fin b') -> b' = powerRZ c (m + 1) * b).
    { intros b b' Eb Eb'. destruct (Rle_lt_dec lo (last_of f)) as [L|L].
      - rewrite times_last in Eb'. rewrite (moment_times_in m lo (last_of f) b) in Eb' by (auto; lra). apply Ok_inj, fin_inj in Eb'. auto.
      - destruct (moment_in f s m Hf Hl lo (last_of f)) as (i & j & Ni & Nj & Hij & E1); try lra.
        destruct (moment_in (times c f) s m Hf' Hl' (c * lo) (last_of (times c f))) as (i' & j' & Ni' & Nj' & Hij' & E2); try lra;
          try (rewrite times_last; assert (0 < c * last_of f) by nra; lra).
        rewrite Eb in E1. apply Ok_inj, fin_inj in E1. rewrite Eb' in E2. apply Ok_inj, fin_inj in E2. rewrite times_last in Nj'. rewrite wz_times in *.
        apply nearest_times in Ni', Nj'. assert (Inc := fq_inc f m Hf).
        assert (i' = i) as -> by (apply (nearest_unique (without_zero m f f) lo); auto). assert (j' = j) as -> by (apply (nearest_unique (without_zero m f f) (last_of f)); auto).
        rewrite E2, E1, weighted_times, !times_slice. assert (Lg := g_length f s m Hl).
        rewrite rsimp_times, rsimp_mul; [|rewrite !slice_length; lia|apply slice_inc; auto].
        rewrite powerRZ_add by lra. rewrite powerRZ_1'. ring. }
    destruct hi as [h| | |]; try contradiction.
    - cbn in Hle. destruct (Rle_lt_dec h (last_of f)) as [L|L]; [apply moment_times_in; auto|].
      destruct (C33_tail_finite f s m lo Hf Hl N1 h) as (b & Eb & Et); [lia|auto|].
      destruct (C33_tail_finite (times c f) s m (c * lo) Hf' Hl' N2 (c * h)) as (b' & Eb' & Et'); [lia|rewrite times_last; apply Rmult_lt_compat_l; auto|].
      rewrite E in Et. apply Ok_inj, fin_inj in Et. cbn [xtimes]. rewrite Et', Et, (Body b b' Eb Eb'). do 2 f_equal. rewrite times_last.
      assert (Pc' : 0 < c * last_of f) by (apply Rmult_lt_0_compat; auto). assert (c * last_of f <= c * h) by (apply Rmult_le_compat_l; lra).
      rewrite (is_RInt_unique _ _ _ _ (tail_RInt m (last_of f) (last_of s) h Pl ltac:(lra) ltac:(lia))).
      rewrite (is_RInt_unique _ _ _ _ (tail_RInt m (c * last_of f) (last_of s) (c * h) Pc' ltac:(lra) ltac:(lia))).
      rewrite !powerRZ_times by (left; lra). rewrite Rpow_mult_distr. replace (m + 1)%Z with (m - 4 + 5)%Z by lia. rewrite powerRZ_add by lra.
      change (powerRZ c 5) with (c ^ 5). field. apply not_0_IZR. lia.
    - destruct (C33_tail_infinite f s m lo Hf Hl N1 Hm) as (b & Eb & Et & _).
      destruct (C33_tail_infinite (times c f) s m (c * lo) Hf' Hl' N2 Hm) as (b' & Eb' & Et' & _).
      rewrite E in Et. apply Ok_inj, fin_inj in Et. cbn [xtimes]. rewrite Et', Et, (Body b b' Eb Eb'). do 2 f_equal. rewrite times_last.
      rewrite powerRZ_times by (left; auto). field. apply not_0_IZR. lia.
  Qed.
End Unit.

Lemma smoothed_times c f s v : 0 < c -> smoothed_peak f s v -> smoothed_peak (times c f) s (c * v).
Proof.
  intros Hc H. destruct H as [H|i H U|H M0 M1|i j a b d H U Hj T Ha|i j a b d H U Hj T Ha|i H U|i j H Hij U|i j k H Mi Mj Mk U].
  - rewrite <- times_nth. apply SP_one_point. rewrite times_length. auto.
  - rewrite <- times_nth. apply SP_two_points; auto. rewrite times_length. auto.
  - replace (c * ((nth 0 f 0 + nth 1 f 0) / 2)) with ((nth 0 (times c f) 0 + nth 1 (times c f) 0) / 2) by (rewrite !times_nth; field).
    apply SP_two_points_tie; auto. rewrite times_length. auto.
  - replace (c * (- b / (2 * a))) with (- (b / c) / (2 * (a / (c * c)))) by (field; lra).
    apply (SP_parabola _ _ i j (a / (c * c)) (b / c) d); rewrite ?times_length; auto.
    + intros k Hk. rewrite times_nth, <- T by auto. field. lra.
    + assert (0 < / (c * c)) by (apply Rinv_0_lt_compat; nra). unfold Rdiv. nra.
  - rewrite <- times_nth. apply (SP_convex _ _ i j (a / (c * c)) (b / c) d); rewrite ?times_length; auto.
    + intros k Hk. rewrite times_nth, <- T by auto. field. lra.
    + assert (0 < / (c * c)) by (apply Rinv_0_lt_compat; nra). unfold Rdiv. nra.
  - replace (c * ((nth i f 0 + nth (S i) f 0) / 2)) with ((nth i (times c f) 0 + nth (S i) (times c f) 0) / 2) by (rewrite !times_nth; field).
    apply SP_twin; auto. rewrite times_length. auto.
  - rewrite <- times_nth. apply (SP_two_apart _ _ i j); auto. rewrite times_length. auto.
  - rewrite <- times_nth. apply (SP_many _ _ i j k); auto.
Qed.
Lemma recip_times c v : 0 < c -> recip (c * v) = xdivided c (recip v).
Proof.
  intros Hc. unfold recip. destruct (Req_EM_T v 0) as [->|N].
  - rewrite Rmult_0_r. destruct (Req_EM_T 0 0); [reflexivity|lra].
  - destruct (Req_EM_T (c * v) 0) as [E|E]; [apply Rmult_integral in E as [|]; lra|]. cbn. f_equal. field. lra.
Qed.
Lemma in_band_times c f lo hi k : 0 < c -> in_band (times c f) (Fin (c * lo)) (xtimes c hi) k <-> in_band f (Fin lo) hi k.
Proof.
  intros Hc. unfold in_band. rewrite times_length, times_nth. destruct hi as [h| | |]; cbn; split; intros (A & B & D); (split; [auto|]); try tauto;
  split; auto; try (apply Rmult_le_compat_l; lra); try (apply (Rmult_le_reg_l c); auto).
Qed.

(** Hm0 does not depend on the unit of frequency, every period is converted *)
Theorem C66_parameters (c : R) (f s : list R) (fmin fmax fmin' fmax' hi : xr) (lo : R) p p' :
  0 < c -> freq_axis f -> freq_axis (times c f) -> length s = length f -> 0 <= lo ->
  lower_limit f fmin (Fin lo) -> upper_limit f fmax hi ->
  lower_limit (times c f) fmin' (Fin (c * lo)) -> upper_limit (times c f) fmax' (xtimes c hi) ->
  (exists k, in_band f (Fin lo) hi k /\ 1 / 10000000000 <= nth k s 0 /\ 1 / 10000000000 <= / c * nth k s 0) ->
  parameters f s fmin fmax = Ok p -> parameters (times c f) (times (/ c) s) fmin' fmax' = Ok p' ->
     p_hm0 p' = p_hm0 p
  /\ p_tmm10 p' = xdivided c (p_tmm10 p) /\ p_tm01 p' = xdivided c (p_tm01 p) /\ p_tm02 p' = xdivided c (p_tm02 p)
  /\ p_tp p' = xdivided c (p_tp p) /\ p_tps p' = xdivided c (p_tps p).
Proof.
  intros Hc Hf Hf' Hl H0 Hlo Hhi Hlo' Hhi' (e & He & Ee & Ee') Ep Ep'.
  assert (Ic : 0 < / c) by (apply Rinv_0_lt_compat; auto).
  assert (Hb : exists k, in_band f (Fin lo) hi k) by eauto.
  assert (Hb' : exists k, in_band (times c f) (Fin (c * lo)) (xtimes c hi) k) by (exists e; apply in_band_times; auto).
  assert (Hl' : length (times (/ c) s) = length (times c f)) by (rewrite !times_length; auto).
  assert (Hle : ext_le (Fin lo) hi) by (apply (band_limits f lo hi e Hf He)).
  destruct (C34_parameters f s fmin fmax hi lo Hf Hl Hlo Hhi Hb) as (m_1 & m0 & m1 & m2 & q & E_1 & E0 & E1 & E2 & Eq & Hnan & Hval).
  destruct (C34_parameters (times c f) (times (/ c) s) fmin' fmax' (xtimes c hi) (c * lo) Hf' Hl' Hlo' Hhi' Hb')
    as (w_1 & w0 & w1 & w2 & q' & F_1 & F0 & F1 & F2 & Eq' & Hnan' & Hval').
  rewrite Ep in Eq. apply Ok_inj in Eq. subst q. rewrite Ep' in Eq'. apply Ok_inj in Eq'. subst q'.
  assert (Sc : forall m u v, (m < 4)%Z -> moment f s m (Fin lo) hi = Ok (Fin u) ->
     moment (times c f) (times (/ c) s) m (Fin (c * lo)) (xtimes c hi) = Ok (Fin v) -> v = powerRZ c m * u).
  { intros m u v Hm Eu Ev. assert (Hl2 : length s = length (times c f)) by (rewrite times_length; auto).
    assert (E := C66_moment c Hc f s Hf Hf' Hl m lo hi u H0 Hle Hm Eu).
    assert (L := C32_linear (times c f) s s m (/ c) 0 (Fin (c * lo)) (xtimes c hi) _ _ Hf' Hl2 Hl2 E E).
    replace (map2 (fun x y => / c * x + 0 * y) s s) with (times (/ c) s) in L.
    - rewrite Ev in L. apply Ok_inj, fin_inj in L. rewrite L, powerRZ_add, powerRZ_1' by lra. field. lra.
    - apply (nth_ext' _ _ 0); [rewrite map2_length, times_length; lia|]. intros k Hk. rewrite times_length in Hk.
      rewrite times_nth, (map2_nth _ _ _ _ 0 0 0) by auto. ring. }
  assert (w_1 = / c * m_1) as -> by (rewrite (Sc (-1)%Z m_1 w_1) by (auto; lia); change (powerRZ c (-1)) with (/ (c * 1)); rewrite Rmult_1_r; reflexivity).
  assert (w0 = m0) as -> by (rewrite (Sc 0%Z m0 w0) by (auto; lia); change (powerRZ c 0) with 1; ring).
  assert (w1 = c * m1) as -> by (rewrite (Sc 1%Z m1 w1) by (auto; lia); rewrite powerRZ_1'; ring).
  assert (w2 = c * c * m2) as -> by (rewrite (Sc 2%Z m2 w2) by (auto; lia); rewrite powerRZ_2'; ring).
  clear Sc.
  destruct (Rlt_le_dec m0 0) as [G|G].
  { destruct (Hnan (or_introl G)) as (-> & -> & -> & -> & -> & ->). destruct (Hnan' (or_introl G)) as (-> & -> & -> & -> & -> & ->). auto 10. }
  destruct (Rlt_le_dec (4 * sqrt m0) (1 / 1000000)) as [G'|G'].
  { destruct (Hnan (or_intror G')) as (-> & -> & -> & -> & -> & ->). destruct (Hnan' (or_intror G')) as (-> & -> & -> & -> & -> & ->). auto 10. }
  destruct (Hval G G') as (V1 & V2 & V3 & V4 & V5 & V6 & V7). destruct (Hval' G G') as (W1 & W2 & W3 & W4 & W5 & W6 & W7). clear Hnan Hnan' Hval Hval'.
  assert (P0 : 0 < m0) by (destruct (Req_dec m0 0) as [Q|]; [rewrite Q, sqrt_0 in G'; lra|lra]).
  split; [congruence|].
  split; [rewrite V2, W2; cbn; f_equal; field; lra|].
  split.
  { rewrite V3, W3. destruct (Req_EM_T m1 0) as [Z1|N], (Req_EM_T (c * m1) 0) as [M|M]; try reflexivity.
    - exfalso. apply M. rewrite Z1. ring.
    - exfalso. apply Rmult_integral in M as [|]; lra.
    - cbn. f_equal. field. lra. }
  assert (Pcc : 0 < c * c) by nra.
  split.
  { destruct (Rtotal_order m2 0) as [L|[L|L]].
    - rewrite V6, W6; auto. nra.
    - rewrite V5, W5; auto. rewrite L; ring.
    - rewrite V4, W4 by (auto; nra). cbn. f_equal. replace (m0 / (c * c * m2)) with (m0 / m2 * / (c * c)) by (field; lra).
      rewrite sqrt_mult_alt by (apply Rlt_le, Rdiv_lt_0_compat; auto).
      replace (/ (c * c)) with (/ c * / c) by (field; lra). rewrite sqrt_square by lra. reflexivity. }
  set (sp := fresh (N:=NX) (F f) (F s)). set (sp' := fresh (N:=NX) (F (times c f)) (F (times (/ c) s))).
  destruct (V7 sp eq_refl eq_refl) as [Tp Tps]. destruct (W7 sp' eq_refl eq_refl) as [Tp' Tps']. split.
  - destruct (C35_peak_period f s fmin fmax (Fin lo) hi sp eq_refl eq_refl (proj1 Hf) Hl Hlo Hhi Hb) as (k & (A1 & A2 & A3) & X).
    destruct (C35_peak_period _ _ fmin' fmax' (Fin (c * lo)) (xtimes c hi) sp' eq_refl eq_refl (proj1 Hf') Hl' Hlo' Hhi' Hb') as (k' & (B1 & B2 & B3) & X').
    assert (B1' : in_band f (Fin lo) hi k') by (apply (in_band_times c); auto). assert (A1' := proj2 (in_band_times c f lo hi k Hc) A1).
    assert (k' = k) as ->.
    { destruct (Nat.lt_total k k') as [L|[L|L]]; [|auto|].
      - specialize (A3 k' B1' L). specialize (B2 k A1'). rewrite !times_nth in B2. nra.
      - specialize (B3 k A1' L). specialize (A2 k' B1'). rewrite !times_nth in B3. nra. }
    rewrite Tp in X. rewrite Tp' in X'. apply Ok_inj in X, X'. rewrite X, X', times_nth. apply recip_times; auto.
  - destruct (C36_get_Tps f s fmin fmax (Fin lo) hi sp eq_refl eq_refl (proj1 Hf) Hl Hlo Hhi Hb) as (i & j & Hij & Hr & X).
    destruct (C36_get_Tps _ _ fmin' fmax' (Fin (c * lo)) (xtimes c hi) sp' eq_refl eq_refl (proj1 Hf') Hl' Hlo' Hhi' Hb') as (i' & j' & Hij' & Hr' & X').
    assert (Hr2 : forall k, in_band f (Fin lo) hi k <-> (i' <= k <= j')%nat) by (intros k; rewrite <- Hr'; symmetry; apply in_band_times; auto).
    assert (i' = i /\ j' = j) as [-> ->].
    { assert (A := proj2 (Hr i) ltac:(lia)). apply Hr2 in A. assert (B := proj2 (Hr j) ltac:(lia)). apply Hr2 in B.
      assert (A' := proj2 (Hr2 i') ltac:(lia)). apply Hr in A'. assert (B' := proj2 (Hr2 j') ltac:(lia)). apply Hr in B'. lia. }
    assert (Hie := proj1 (Hr e) He). rewrite !times_slice in X'.
    set (fb := slice i (j + 1) f) in *. set (sb := slice i (j + 1) s) in *.
    assert (Lf : length fb = (j + 1 - i)%nat) by (unfold fb; rewrite slice_length; lia).
    assert (Ls : length sb = (j + 1 - i)%nat) by (unfold sb; rewrite slice_length; lia).
    assert (Ib : increasing fb) by (apply slice_inc, good_increasing, Hf). assert (Ib' := times_inc c Hc fb Ib).
    assert (Nf : fb <> []) by (intros E; rewrite E in Lf; cbn in Lf; lia).
    assert (Nf' : times c fb <> []) by (intros E; apply (f_equal (@length R)) in E; rewrite times_length in E; cbn in E; lia).
    assert (Ve : nth (e - i) sb 0 = nth e s 0) by (unfold sb; rewrite slice_nth by lia; f_equal; lia).
    destruct (C36_value fb sb Ib Nf) as (v & Sv & Ev); [lia|exists (e - i)%nat; rewrite Ve; split; [lia|auto]|].
    destruct (C36_value (times c fb) (times (/ c) sb) Ib' Nf') as (w & Sw & Ew); [rewrite !times_length; lia|exists (e - i)%nat; rewrite times_length, times_nth, Ve; split; [lia|auto]|].
    assert (w = c * v) as ->.
    { apply (smoothed_unique (times c fb) (times (/ c) sb)); auto; [rewrite !times_length; lia|].
      apply (smoothed_scaled (/ c) Ic (times c fb) sb). apply smoothed_times; auto. }
    rewrite Ev in X. rewrite Ew in X'. rewrite Tps in X. rewrite Tps' in X'. apply Ok_inj in X, X'. rewrite X, X'. apply recip_times; auto.
Qed.
Example C66_witness : let f := axis 0 (1/10) 5 in let s := [0; 1; 3; 2; 1] in
  freq_axis f /\ freq_axis (times (2 * PI) f) /\ lower_limit f (Fin (-1)) (Fin 0) /\ upper_limit f PInf PInf
  /\ lower_limit (times (2 * PI) f) (Fin (-1)) (Fin (2 * PI * 0)) /\ upper_limit (times (2 * PI) f) PInf (xtimes (2 * PI) PInf)
  /\ (exists k, in_band f (Fin 0) PInf k /\ 1 / 10000000000 <= nth k s 0 /\ 1 / 10000000000 <= / (2 * PI) * nth k s 0).
Proof.
  cbv zeta. assert (P := PI_RGT_0). assert (P4 := PI_4).
  assert (E : times (2 * PI) (axis 0 (1/10) 5) = axis 0 (2 * PI * (1/10)) 5).
  { apply (nth_ext' _ _ 0); [rewrite times_length, !axis_length; auto|]. intros k Hk. rewrite times_length, axis_length in Hk.
    rewrite times_nth, !axis_nth by auto. ring. }
  assert (N0 : forall d, nth 0 (axis 0 d 5) 0 = 0) by (intros d; rewrite axis_nth by lia; cbn; ring).
  split; [apply axis_freq; lra || lia|]. rewrite E. split; [apply axis_freq; lra || lia|].
  split; [left; rewrite N0; auto|]. split; [right; split; [discriminate|auto]|].
  split; [left; rewrite N0, Rmult_0_r; auto|]. split; [right; split; [discriminate|auto]|].
  exists 1%nat. split; [split; [rewrite axis_length; lia|]; rewrite axis_nth by lia; cbn; split; [lra|exact I]|]. cbn [nth]. split; [lra|].
  rewrite Rmult_1_r. apply (Rmult_le_reg_r (2 * PI)); [lra|]. rewrite Rinv_l by lra. lra.
Qed.
