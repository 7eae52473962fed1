(** * Symmetries of the incident/reflected decomposition (core_wave_decomposition.py:13-212): C67 *)

From Coq Require Import ZArith Reals Lra Lia List Bool.
From Coquelicot Require Import Complex.
From Verif Require Import Num XR Engine Cpx SpectralModel DisperModel DecompModel Spec XRFacts DFT FourierSpec RSum EngineProps
  TimeProps TimeProps3 FourierFacts FourierProps DisperProps DecompSpec DecompProps DecompClaims SeriesProps2 SpecSym.
Import ListNotations.
Open Scope R_scope.

(** ** Transport *)
Lemma back_ext n Y Y' : (0 < n)%nat -> (forall m, (m <= n / 2)%nat -> Y m = Y' m) -> back n Y = back n Y'.
Proof.
  intros Hn H. apply coef_determines; rewrite !back_length; auto. intros m Hm. rewrite !coef_back by lia. rewrite H by auto. reflexivity.
Qed.
Lemma Csum_insert p J f g : (p <= J)%nat -> f p = RtoC 0 -> (forall j, (j < p)%nat -> f j = g j) ->
  (forall j, (p <= j < J)%nat -> f (S j) = g j) -> Csum (S J) f = Csum J g.
Proof.
  intros Hp H0 H1 H2. replace (S J) with (p + S (J - p))%nat by lia. rewrite Csum_add, Csum_shift, Nat.add_0_r, H0.
  replace J with (p + (J - p))%nat at 2 by lia. rewrite Csum_add, Cplus_0_l. f_equal; apply Csum_ext; intros j Hj.
  - apply H1. auto.
  - replace (p + S j)%nat with (S (p + j)) by lia. apply H2. lia.
Qed.
Lemma RS_insert p J f g : (p <= J)%nat -> f p = 0 -> (forall j, (j < p)%nat -> f j = g j) ->
  (forall j, (p <= j < J)%nat -> f (S j) = g j) -> RS (S J) f = RS J g.
Proof.
  intros Hp H0 H1 H2. apply RtoC_inj. rewrite <- !RS_C. apply (Csum_insert p); auto; intros; f_equal; auto.
Qed.
(** the separation through the determinant *)
Lemma sep_det w d w' d' k k' J J' : det w d k J = det w' d' k' J' -> sep w d k J = sep w' d' k' J'.
Proof. rewrite !det_real. intros H. apply RtoC_inj in H. lra. Qed.
Lemma separation_det w x w' x' k k' : det (wof w) (dist x) k (length x) = det (wof w') (dist x') k' (length x') ->
  separation w x k = separation w' x' k'.
Proof. intros H. rewrite <- !sepR_eq. apply sep_det. exact H. Qed.

(** ** Weights: only their ratios matter, if the threshold is scaled along *)
Section Weights.
  Variables (w d : nat -> R) (X : nat -> C) (k c : R) (J : nat).
  Let w' j := c * w j.
  Lemma a11_w : a11 w' d k J = (RtoC c * a11 w d k J)%C.
  Proof. unfold a11. rewrite <- Csum_scal. apply Csum_ext. intros. unfold w'. rewrite RtoC_mult. ring. Qed.
  Lemma a22_w : a22 w' d k J = (RtoC c * a22 w d k J)%C.
  Proof. unfold a22. rewrite <- Csum_scal. apply Csum_ext. intros. unfold w'. rewrite RtoC_mult. ring. Qed.
  Lemma b1_w : b1 w' d X k J = (RtoC c * b1 w d X k J)%C.
  Proof. unfold b1. rewrite <- Csum_scal. apply Csum_ext. intros. unfold w'. rewrite RtoC_mult. ring. Qed.
  Lemma b2_w : b2 w' d X k J = (RtoC c * b2 w d X k J)%C.
  Proof. unfold b2. rewrite <- Csum_scal. apply Csum_ext. intros. unfold w'. rewrite RtoC_mult. ring. Qed.
  Lemma W_w : RtoC (W w' J) = (RtoC c * RtoC (W w J))%C.
  Proof. unfold W, w'. rewrite RS_scal, RtoC_mult. reflexivity. Qed.
  Lemma sep_w : sep w' d k J = c * c * sep w d k J.
  Proof. unfold sep, w'. rewrite <- RS_scal. apply RS_ext. intros. rewrite <- RS_scal. apply RS_ext. intros. ring. Qed.
  Lemma sol_w : c <> 0 -> sep w d k J <> 0 -> solI w' d X k J = solI w d X k J /\ solR w' d X k J = solR w d X k J.
  Proof.
    intros Hc Hs. assert (D := det_nz _ _ _ _ Hs). assert (C0 : RtoC c <> RtoC 0) by (intros E; apply RtoC_inj in E; auto).
    unfold solI, solR, det in *. rewrite a11_w, a22_w, b1_w, b2_w, W_w.
    set (D0 := (a11 w d k J * a22 w d k J - RtoC (W w J) * RtoC (W w J))%C) in *.
    replace (RtoC c * a11 w d k J * (RtoC c * a22 w d k J) - RtoC c * RtoC (W w J) * (RtoC c * RtoC (W w J)))%C with (RtoC c * RtoC c * D0)%C
      by (unfold D0; ring).
    split; field; auto.
  Qed.
End Weights.

Theorem C67_weight_ratios (t : list R) (sigs : list (list R)) (x w : list R) (h detLim c : R) :
  accepted t sigs x w -> accepted t sigs x (map (Rmult c) w) -> 0 < c -> 0 < h -> 0 <= detLim ->
  decompose_linear_ZS (N:=NX) (F t) (matrix (length t) sigs) (Fin h) (F x) (F (map (Rmult c) w)) (Fin (c * c * detLim))
  = decompose_linear_ZS (N:=NX) (F t) (matrix (length t) sigs) (Fin h) (F x) (F w) (Fin detLim).
Proof.
  intros HA HA' Hc Hh HL. assert (Hn : (2 <= length t)%nat) by apply (acc_axis _ _ _ _ HA).
  assert (P : 0 < c * c) by nra. rewrite !decompose_F by (auto; nra).
  assert (Wf : forall j, wof (map (Rmult c) w) j = c * wof w j).
  { intros j. unfold wof. replace 0 with (c * 0) at 1 by ring. apply map_nth. }
  assert (Sep : forall k, separation (map (Rmult c) w) x k = c * c * separation w x k).
  { intros k. unfold separation. rewrite <- RS_scal. apply RS_ext. intros i Hi. rewrite <- RS_scal. apply RS_ext. intros j Hj.
    change (nth i (map (Rmult c) w) 0) with (wof (map (Rmult c) w) i). change (nth j (map (Rmult c) w) 0) with (wof (map (Rmult c) w) j).
    rewrite !Wf. unfold wof. ring. }
  assert (G : forall m, Yi t h x (map (Rmult c) w) (c * c * detLim) sigs m = Yi t h x w detLim sigs m
                   /\ Yr t h x (map (Rmult c) w) (c * c * detLim) sigs m = Yr t h x w detLim sigs m).
  { intros m. unfold Yi, Yr. rewrite Sep, Rabs_mult, (Rabs_pos_eq (c * c)) by lra.
    assert (Sw : forall k, sep (wof w) (dist x) k (length x) = separation w x k) by (intros; apply sepR_eq).
    set (k := wavenr t h m).
    destruct (Rltb_spec detLim (Rabs (separation w x k))) as [Q|Q].
    - rewrite Rltb_true by (apply Rmult_lt_compat_l; auto).
      assert (S0 : sep (wof w) (dist x) k (length x) <> 0) by (rewrite Sw; intros E; rewrite E, Rabs_R0 in Q; lra).
      destruct (sol_w (wof w) (dist x) (amp sigs m) k c (length x) ltac:(lra) S0) as [<- <-].
      unfold solI, solR, det, a11, a22, b1, b2, W. 
      rewrite (RS_ext _ (wof (map (Rmult c) w)) (fun j => c * wof w j)) by (intros; apply Wf).
      rewrite (Csum_ext _ (fun j => RtoC (wof (map (Rmult c) w) j) * ei (- (2 * k * dist x j)))%C (fun j => RtoC (c * wof w j) * ei (- (2 * k * dist x j)))%C) by (intros; rewrite Wf; reflexivity).
      rewrite (Csum_ext _ (fun j => RtoC (wof (map (Rmult c) w) j) * ei (2 * k * dist x j))%C (fun j => RtoC (c * wof w j) * ei (2 * k * dist x j))%C) by (intros; rewrite Wf; reflexivity).
      rewrite (Csum_ext _ (fun j => RtoC (wof (map (Rmult c) w) j) * amp sigs m j * ei (- (k * dist x j)))%C (fun j => RtoC (c * wof w j) * amp sigs m j * ei (- (k * dist x j)))%C) by (intros; rewrite Wf; reflexivity).
      rewrite (Csum_ext _ (fun j => RtoC (wof (map (Rmult c) w) j) * amp sigs m j * ei (k * dist x j))%C (fun j => RtoC (c * wof w j) * amp sigs m j * ei (k * dist x j))%C) by (intros; rewrite Wf; reflexivity).
      auto.
    - rewrite Rltb_false by (apply Rmult_le_compat_l; lra). auto. }
  f_equal. f_equal; f_equal; apply back_ext; try lia; intros m _; apply (G m).
Qed.
Lemma Y_same t h x w L sigs m t' h' x' w' sigs' m' :
  a11 (wof w) (dist x) (wavenr t h m) (length x) = a11 (wof w') (dist x') (wavenr t' h' m') (length x') ->
  a22 (wof w) (dist x) (wavenr t h m) (length x) = a22 (wof w') (dist x') (wavenr t' h' m') (length x') ->
  b1 (wof w) (dist x) (amp sigs m) (wavenr t h m) (length x) = b1 (wof w') (dist x') (amp sigs' m') (wavenr t' h' m') (length x') ->
  b2 (wof w) (dist x) (amp sigs m) (wavenr t h m) (length x) = b2 (wof w') (dist x') (amp sigs' m') (wavenr t' h' m') (length x') ->
  W (wof w) (length x) = W (wof w') (length x') ->
  Yi t h x w L sigs m = Yi t' h' x' w' L sigs' m' /\ Yr t h x w L sigs m = Yr t' h' x' w' L sigs' m'.
Proof.
  intros E1 E2 E3 E4 E5. assert (D : det (wof w) (dist x) (wavenr t h m) (length x) = det (wof w') (dist x') (wavenr t' h' m') (length x'))
    by (unfold det; rewrite E1, E2, E5; reflexivity).
  unfold Yi, Yr. rewrite (separation_det _ _ _ _ _ _ D). unfold solI, solR. rewrite D, E1, E2, E3, E4, E5. auto.
Qed.

(** ** A gauge of weight zero (not the first one) does not take part *)
Lemma insert_nth {A} (a b : list A) v d j :
  nth j (a ++ v :: b) d = if Nat.ltb j (length a) then nth j (a ++ b) d else if Nat.eqb j (length a) then v else nth (j - 1) (a ++ b) d.
Proof.
  destruct (Nat.ltb_spec j (length a)); [rewrite !app_nth1 by auto; reflexivity|].
  destruct (Nat.eqb_spec j (length a)) as [->|].
  - rewrite app_nth2, Nat.sub_diag by lia. reflexivity.
  - rewrite !app_nth2 by lia. replace (j - length a)%nat with (S (j - 1 - length a)) by lia. reflexivity.
Qed.
Theorem C67_zero_weight (t : list R) (sa sb : list (list R)) (s : list R) (xa xb wa wb : list R) (v h detLim : R) :
  length xa = length sa -> length wa = length sa -> (1 <= length sa)%nat ->
  accepted t (sa ++ s :: sb) (xa ++ v :: xb) (wa ++ 0 :: wb) -> accepted t (sa ++ sb) (xa ++ xb) (wa ++ wb) -> 0 < h -> 0 <= detLim ->
  decompose_linear_ZS (N:=NX) (F t) (matrix (length t) (sa ++ s :: sb)) (Fin h) (F (xa ++ v :: xb)) (F (wa ++ 0 :: wb)) (Fin detLim)
  = decompose_linear_ZS (N:=NX) (F t) (matrix (length t) (sa ++ sb)) (Fin h) (F (xa ++ xb)) (F (wa ++ wb)) (Fin detLim).
Proof.
  intros Lx Lw H1 HA HA' Hh HL. assert (Hn : (2 <= length t)%nat) by apply (acc_axis _ _ _ _ HA).
  rewrite !decompose_F by auto. set (p := length sa) in *. set (J := length (xa ++ xb)).
  assert (Jx : length (xa ++ v :: xb) = S J) by (unfold J; rewrite !app_length; cbn; lia).
  assert (Hp : (p <= J)%nat) by (unfold J; rewrite app_length; lia).
  assert (W0 : wof (wa ++ 0 :: wb) p = 0) by (unfold wof; rewrite insert_nth, Lw, Nat.ltb_irrefl, Nat.eqb_refl; reflexivity).
  assert (Wl : forall j, (j < p)%nat -> wof (wa ++ 0 :: wb) j = wof (wa ++ wb) j).
  { intros j Hj. unfold wof. rewrite insert_nth, Lw. replace (Nat.ltb j p) with true by (symmetry; apply Nat.ltb_lt; auto). reflexivity. }
  assert (Wr : forall j, (p <= j)%nat -> wof (wa ++ 0 :: wb) (S j) = wof (wa ++ wb) j).
  { intros j Hj. unfold wof. rewrite insert_nth, Lw. replace (Nat.ltb (S j) p) with false by (symmetry; apply Nat.ltb_ge; lia).
    replace (Nat.eqb (S j) p) with false by (symmetry; apply Nat.eqb_neq; lia). f_equal. lia. }
  assert (N0 : nth 0 (xa ++ v :: xb) 0 = nth 0 (xa ++ xb) 0) by (rewrite !app_nth1 by lia; reflexivity).
  assert (Dl : forall j, (j < p)%nat -> dist (xa ++ v :: xb) j = dist (xa ++ xb) j).
  { intros j Hj. unfold dist. rewrite N0, insert_nth, Lx. replace (Nat.ltb j p) with true by (symmetry; apply Nat.ltb_lt; auto). reflexivity. }
  assert (Dr : forall j, (p <= j)%nat -> dist (xa ++ v :: xb) (S j) = dist (xa ++ xb) j).
  { intros j Hj. unfold dist. rewrite N0, insert_nth, Lx. replace (Nat.ltb (S j) p) with false by (symmetry; apply Nat.ltb_ge; lia).
    replace (Nat.eqb (S j) p) with false by (symmetry; apply Nat.eqb_neq; lia). f_equal. f_equal. lia. }
  assert (Al : forall m j, (j < p)%nat -> amp (sa ++ s :: sb) m j = amp (sa ++ sb) m j).
  { intros m j Hj. unfold amp. rewrite insert_nth. fold p. replace (Nat.ltb j p) with true by (symmetry; apply Nat.ltb_lt; auto). reflexivity. }
  assert (Ar : forall m j, (p <= j)%nat -> amp (sa ++ s :: sb) m (S j) = amp (sa ++ sb) m j).
  { intros m j Hj. unfold amp. rewrite insert_nth. fold p. replace (Nat.ltb (S j) p) with false by (symmetry; apply Nat.ltb_ge; lia).
    replace (Nat.eqb (S j) p) with false by (symmetry; apply Nat.eqb_neq; lia). f_equal. f_equal. lia. }
  assert (G : forall m, Yi t h (xa ++ v :: xb) (wa ++ 0 :: wb) detLim (sa ++ s :: sb) m = Yi t h (xa ++ xb) (wa ++ wb) detLim (sa ++ sb) m
                   /\ Yr t h (xa ++ v :: xb) (wa ++ 0 :: wb) detLim (sa ++ s :: sb) m = Yr t h (xa ++ xb) (wa ++ wb) detLim (sa ++ sb) m).
  { intros m. apply Y_same; rewrite Jx; fold J; unfold a11, a22, b1, b2, W; (apply (Csum_insert p) || apply (RS_insert p)); auto;
      try (rewrite W0; ring); intros j Hj; rewrite ?Wl, ?Dl, ?Al by lia; rewrite ?Wr, ?Dr, ?Ar by lia; reflexivity. }
  f_equal. f_equal; f_equal; apply back_ext; try lia; intros m _; apply (G m).
Qed.

(** ** Froude similarity: a model on length scale c^2 and time scale c *)
Lemma nth_scaled (c : R) l j : nth j (map (Rmult c) l) 0 = c * nth j l 0.
Proof. replace 0 with (c * 0) at 1 by ring. apply map_nth. Qed.
Lemma dfreq_scaled c t : c <> 0 -> (2 <= length t)%nat -> step t <> 0 -> dfreq (map (Rmult c) t) = dfreq t / c.
Proof.
  intros Hc H2 Hs. unfold dfreq, step in *. rewrite map_length, !nth_scaled. assert (INR (length t) <> 0) by (apply not_0_INR; lia).
  replace (c * nth 1 t 0 - c * nth 0 t 0) with (c * (nth 1 t 0 - nth 0 t 0)) by ring. field. auto.
Qed.
Lemma rsign_div a c : 0 < c -> rsign (a / c) = rsign a.
Proof.
  intros Hc. destruct (Rtotal_order a 0) as [H|[->|H]].
  - assert (0 < - a / c) by (apply Rdiv_lt_0_compat; lra). assert (a / c = - (- a / c)) by (field; lra).
    unfold rsign. rewrite (Rltb_false 0 (a / c)), (Rltb_false 0 a), (Rltb_true (a / c) 0), (Rltb_true a 0) by lra. reflexivity.
  - unfold Rdiv. rewrite Rmult_0_l. reflexivity.
  - rewrite !rsign_pos by (auto; apply Rdiv_lt_0_compat; auto). reflexivity.
Qed.
Lemma wavenr_froude c t h m : 0 < c -> 0 < h -> good_axis t -> wavenr (map (Rmult c) t) (c * c * h) m = wavenr t h m / (c * c).
Proof.
  intros Hc Hh G. assert (H2 := proj1 G). assert (Hs := good_step t G). unfold wavenr, rk. rewrite dfreq_scaled by (auto; lra).
  replace (2 * PI * (INR m * (dfreq t / c))) with (2 * PI * (INR m * dfreq t) / c) by (field; lra). set (w := 2 * PI * (INR m * dfreq t)).
  rewrite rsign_div by auto. replace (w / c * (w / c) * (c * c * h) / grav) with (w * w * h / grav) by (unfold grav; field; lra).
  field. lra.
Qed.
Theorem C67_froude (t : list R) (sigs : list (list R)) (x w : list R) (h detLim c : R) :
  accepted t sigs x w -> good_axis (map (Rmult c) t) -> 0 < c -> 0 < h -> 0 <= detLim ->
  decompose_linear_ZS (N:=NX) (F (map (Rmult c) t)) (matrix (length t) sigs) (Fin (c * c * h)) (F (map (Rmult (c * c)) x)) (F w) (Fin detLim)
  = decompose_linear_ZS (N:=NX) (F t) (matrix (length t) sigs) (Fin h) (F x) (F w) (Fin detLim).
Proof.
  intros HA HG Hc Hh HL. assert (Gt := acc_axis _ _ _ _ HA). assert (Hn : (2 <= length t)%nat) by apply Gt.
  assert (P : 0 < c * c) by nra. assert (P2 : 0 < c * c * h) by nra.
  assert (HA' : accepted (map (Rmult c) t) sigs (map (Rmult (c * c)) x) w).
  { destruct HA. constructor; auto; rewrite ?map_length; auto. intros i j Hij. rewrite map_length in Hij. rewrite !nth_scaled. apply Rmult_lt_compat_l; auto. }
  replace (length t) with (length (map (Rmult c) t)) at 1 by apply map_length. rewrite !decompose_F by auto. rewrite map_length.
  assert (Kd : forall m j, wavenr (map (Rmult c) t) (c * c * h) m * dist (map (Rmult (c * c)) x) j = wavenr t h m * dist x j).
  { intros m j. rewrite wavenr_froude by auto. unfold dist. rewrite !nth_scaled. field. lra. }
  assert (Kd2 : forall m j, 2 * wavenr (map (Rmult c) t) (c * c * h) m * dist (map (Rmult (c * c)) x) j = 2 * wavenr t h m * dist x j).
  { intros m j. rewrite !(Rmult_assoc 2), Kd. reflexivity. }
  assert (G : forall m, Yi (map (Rmult c) t) (c * c * h) (map (Rmult (c * c)) x) w detLim sigs m = Yi t h x w detLim sigs m
                   /\ Yr (map (Rmult c) t) (c * c * h) (map (Rmult (c * c)) x) w detLim sigs m = Yr t h x w detLim sigs m).
  { intros m. apply Y_same; rewrite map_length; auto; unfold a11, a22, b1, b2; apply Csum_ext; intros j Hj; rewrite ?Kd2, ?Kd; reflexivity. }
  f_equal. f_equal; f_equal; apply back_ext; try lia; intros m _; apply (G m).
Qed.

(** ** The flume seen from the other side *)
Definition mirrored (c : R) (x : list R) : list R := rev (map (fun v => c - v) x).
Lemma mirrored_nth c x j : (j < length x)%nat -> nth j (mirrored c x) 0 = c - nth (length x - 1 - j) x 0.
Proof.
  intros Hj. unfold mirrored. rewrite rev_nth by (rewrite map_length; auto). rewrite map_length.
  rewrite (nth_indep _ 0 (c - 0)) by (rewrite map_length; lia). rewrite (map_nth (fun v => c - v)). do 2 f_equal. lia.
Qed.
Section Mirror.
  Variables (t : list R) (sigs : list (list R)) (x w : list R) (h L c : R).
  Hypothesis HA : accepted t sigs x w.
  Local Notation J := (length x).
  Local Notation x' := (mirrored c x).
  Let D := nth (J - 1) x 0 - nth 0 x 0.
  Lemma mir_len : length x' = J. Proof. unfold mirrored. rewrite rev_length, map_length. reflexivity. Qed.
  Lemma mir_w j : (j < J)%nat -> wof (rev w) j = wof w (J - 1 - j).
  Proof. intros Hj. destruct HA. unfold wof. rewrite rev_nth by lia. f_equal. lia. Qed.
  Lemma mir_amp m j : (j < J)%nat -> amp (rev sigs) m j = amp sigs m (J - 1 - j).
  Proof. intros Hj. destruct HA. unfold amp. rewrite rev_nth by lia. do 2 f_equal. lia. Qed.
  Lemma mir_dist j : (j < J)%nat -> dist x' j = D - dist x (J - 1 - j).
  Proof. intros Hj. unfold dist. rewrite !mirrored_nth by lia. rewrite Nat.sub_0_r. unfold D. ring. Qed.
  Lemma mir_W : W (wof (rev w)) J = W (wof w) J.
  Proof. unfold W. rewrite (RS_rev J (wof w)). apply RS_ext. intros j Hj. apply mir_w. auto. Qed.
  Lemma mir_a11 k : a11 (wof (rev w)) (dist x') k J = (ei (- (2 * k * D)) * a22 (wof w) (dist x) k J)%C.
  Proof.
    unfold a11, a22. rewrite <- Csum_scal, (Csum_rev J (fun _ => _ * (_ * _))%C). apply Csum_ext. intros j Hj. rewrite mir_w, mir_dist by auto.
    replace (- (2 * k * (D - dist x (J - 1 - j)))) with (- (2 * k * D) + 2 * k * dist x (J - 1 - j)) by ring. rewrite ei_plus. ring.
  Qed.
  Lemma mir_a22 k : a22 (wof (rev w)) (dist x') k J = (ei (2 * k * D) * a11 (wof w) (dist x) k J)%C.
  Proof.
    unfold a11, a22. rewrite <- Csum_scal, (Csum_rev J (fun _ => _ * (_ * _))%C). apply Csum_ext. intros j Hj. rewrite mir_w, mir_dist by auto.
    replace (2 * k * (D - dist x (J - 1 - j))) with (2 * k * D + - (2 * k * dist x (J - 1 - j))) by ring. rewrite ei_plus. ring.
  Qed.
  Lemma mir_b1 k m : b1 (wof (rev w)) (dist x') (amp (rev sigs) m) k J = (ei (- (k * D)) * b2 (wof w) (dist x) (amp sigs m) k J)%C.
  Proof.
    unfold b1, b2. rewrite <- Csum_scal, (Csum_rev J (fun _ => _ * (_ * _))%C). apply Csum_ext. intros j Hj. rewrite mir_w, mir_dist, mir_amp by auto.
    replace (- (k * (D - dist x (J - 1 - j)))) with (- (k * D) + k * dist x (J - 1 - j)) by ring. rewrite ei_plus. ring.
  Qed.
  Lemma mir_b2 k m : b2 (wof (rev w)) (dist x') (amp (rev sigs) m) k J = (ei (k * D) * b1 (wof w) (dist x) (amp sigs m) k J)%C.
  Proof.
    unfold b1, b2. rewrite <- Csum_scal, (Csum_rev J (fun _ => _ * (_ * _))%C). apply Csum_ext. intros j Hj. rewrite mir_w, mir_dist, mir_amp by auto.
    replace (k * (D - dist x (J - 1 - j))) with (k * D + - (k * dist x (J - 1 - j))) by ring. rewrite ei_plus. ring.
  Qed.
  Lemma mir_det k : det (wof (rev w)) (dist x') k J = det (wof w) (dist x) k J.
  Proof.
    unfold det. rewrite mir_a11, mir_a22, mir_W.
    replace (ei (- (2 * k * D)) * a22 (wof w) (dist x) k J * (ei (2 * k * D) * a11 (wof w) (dist x) k J))%C
      with ((ei (2 * k * D) * ei (- (2 * k * D))) * (a11 (wof w) (dist x) k J * a22 (wof w) (dist x) k J))%C by ring.
    rewrite ei_inv. ring.
  Qed.
  Lemma mir_Y m : Yi t h x' (rev w) L (rev sigs) m = (Yr t h x w L sigs m * ei (wavenr t h m * D))%C
              /\ Yr t h x' (rev w) L (rev sigs) m = (Yi t h x w L sigs m * ei (- (wavenr t h m * D)))%C.
  Proof.
    set (k := wavenr t h m). unfold Yi, Yr. fold k. 
    rewrite (separation_det (rev w) x' w x k k) by (rewrite mir_len; apply mir_det).
    destruct (Rltb L (Rabs (separation w x k))); [|split; ring].
    unfold solI, solR. rewrite mir_len, mir_det, mir_a11, mir_a22, mir_b1, mir_b2, mir_W.
    replace (2 * k * D) with (k * D + k * D) by ring. replace (- (k * D + k * D)) with (- (k * D) + - (k * D)) by ring. rewrite !ei_plus.
    assert (Q := ei_inv (k * D)). set (u := ei (- (k * D))) in *. set (v := ei (k * D)) in *.
    set (A1 := a11 (wof w) (dist x) k J). set (A2 := a22 (wof w) (dist x) k J). set (B1 := b1 (wof w) (dist x) (amp sigs m) k J). set (B2 := b2 (wof w) (dist x) (amp sigs m) k J).
    unfold Cdiv. split.
    - replace (v * v * A1 * (u * B2) - RtoC (W (wof w) J) * (v * B1))%C with ((v * u) * v * A1 * B2 - RtoC (W (wof w) J) * (v * B1))%C by ring. rewrite Q. ring.
    - replace (- RtoC (W (wof w) J) * (u * B2) + u * u * A2 * (v * B1))%C with (- RtoC (W (wof w) J) * (u * B2) + (v * u) * u * A2 * B1)%C by ring. rewrite Q. ring.
  Qed.
End Mirror.
Theorem C67_mirrored_flume (t : list R) (sigs : list (list R)) (x w : list R) (h detLim c : R) (k : nat -> R) :
  accepted t sigs x w -> 0 < h -> 0 <= detLim -> wave_numbers t h k ->
  exists i r i' r',
    decompose_linear_ZS (N:=NX) (F t) (matrix (length t) sigs) (Fin h) (F x) (F w) (Fin detLim) = Ok (F i, F r)
    /\ decompose_linear_ZS (N:=NX) (F t) (matrix (length t) (rev sigs)) (Fin h) (F (mirrored c x)) (F (rev w)) (Fin detLim) = Ok (F i', F r')
    /\ length i = length t /\ length r = length t /\ length i' = length t /\ length r' = length t
    /\ forall m, (2 * m < length t)%nat -> let D := nth (length x - 1) x 0 - nth 0 x 0 in
         coef i' m = (coef r m * ei (k m * D))%C /\ coef r' m = (coef i m * ei (- (k m * D)))%C.
Proof.
  intros HA Hh HL HK. assert (Hn : (2 <= length t)%nat) by apply (acc_axis _ _ _ _ HA).
  assert (HA' : accepted t (rev sigs) (mirrored c x) (rev w)).
  { pose proof HA as HA0. destruct HA0. constructor; auto; rewrite ?mir_len, ?rev_length; auto.
    - intros s Hs. apply acc_sig. apply in_rev. auto.
    - intros i j Hij. rewrite mir_len in Hij. rewrite !mirrored_nth by lia. specialize (acc_sorted (length x - 1 - j)%nat (length x - 1 - i)%nat ltac:(lia)). lra.
    - destruct acc_weights as [Q|Q]; [left|right]; intros v Hv; apply Q, in_rev; auto.
    - rewrite <- (RS_wof (rev w) (length x)) by (rewrite rev_length; lia). rewrite (mir_W t sigs x w) by auto. rewrite (RS_wof w) by lia. auto. }
  eexists _, _, _, _. split; [apply decompose_F; auto|]. split; [apply decompose_F; auto|]. rewrite !back_length. do 4 (split; [auto|]).
  intros m Hm D. assert (Hm2 : (m <= length t / 2)%nat) by (apply Nat.div_le_lower_bound; lia).
  rewrite !coef_back by lia. replace (Nat.eqb (2 * m) (length t)) with false by (symmetry; apply Nat.eqb_neq; lia). rewrite orb_false_r.
  rewrite (wn_eq t h k m) by auto. destruct (mir_Y t sigs x w h detLim c HA m) as [-> ->]. fold D.
  destruct (Nat.eqb_spec m 0) as [->|]; [|auto]. rewrite wavenr_0, Rmult_0_l, Ropp_0, ei_0, !Cmult_1_r. auto.
Qed.

(** ** Time: rotating the records rotates the answers, playing them backwards swaps incident and reflected waves *)
Definition rotated (r : nat) (s : list R) : list R := skipn r s ++ firstn r s.
Lemma rotated_length r s : length (rotated r s) = length s.
Proof. unfold rotated. rewrite app_length, skipn_length, firstn_length. lia. Qed.
Lemma coef_rotated r : forall s k, (r <= length s)%nat -> coef (rotated r s) k = (tw 1 (length s) r k * coef s k)%C.
Proof.
  induction r; intros s k Hr; [unfold rotated; cbn [skipn firstn]; rewrite app_nil_r, tw_0; ring|].
  destruct s as [|a l]; [cbn in Hr; lia|]. cbn [length] in *.
  assert (E : rotated (S r) (a :: l) = rotated r (l ++ [a])).
  { unfold rotated. cbn [skipn firstn]. rewrite skipn_app, firstn_app. replace (r - length l)%nat with 0%nat by lia. cbn [skipn firstn]. rewrite app_nil_r, <- app_assoc. reflexivity. }
  rewrite E, IHr by (rewrite app_length; cbn; lia). rewrite coef_rot1, app_length. cbn [length]. rewrite Nat.add_1_r, Cmult_assoc. f_equal.
  unfold tw. rewrite <- ei_plus. f_equal. rewrite !mult_INR, (S_INR r). change (INR 1) with 1. unfold Rdiv. ring.
Qed.
Lemma tw_real n r m : m = 0%nat \/ (2 * m = n)%nat -> (0 < n)%nat -> snd (tw 1 n r m) = 0.
Proof.
  intros Hm Hn. unfold tw. rewrite mult_INR. cbn [ei snd]. destruct Hm as [->|Hm].
  - change (INR 0) with 0. rewrite Rmult_0_r, Rmult_0_r. unfold Rdiv. rewrite Rmult_0_l. apply sin_0.
  - assert (E : INR n = 2 * INR m) by (rewrite <- Hm, mult_INR; f_equal; apply INR_IZR_INZ). assert (INR m <> 0) by (apply not_0_INR; lia).
    rewrite E. replace (1 * 2 * PI * (INR r * INR m) / (2 * INR m)) with (INR r * PI) by (field; auto). rewrite INR_IZR_INZ. apply sin_eq_0_1. exists (Z.of_nat r). reflexivity.
Qed.
Lemma b_scaled w d (X X' : nat -> C) k J (u : C) : (forall j, (j < J)%nat -> X' j = u * X j)%C ->
  (b1 w d X' k J = u * b1 w d X k J)%C /\ (b2 w d X' k J = u * b2 w d X k J)%C.
Proof. intros H. unfold b1, b2. rewrite <- !Csum_scal. split; apply Csum_ext; intros j Hj; rewrite H by auto; ring. Qed.
Lemma b_conj w d (X X' : nat -> C) k J (u : C) : (forall j, (j < J)%nat -> X' j = u * Cconj (X j))%C ->
  (b1 w d X' k J = u * Cconj (b2 w d X k J))%C /\ (b2 w d X' k J = u * Cconj (b1 w d X k J))%C.
Proof.
  intros H. unfold b1, b2. rewrite !Csum_conj, <- !Csum_scal. split; apply Csum_ext; intros j Hj; rewrite H by auto; rewrite !Cconj_mult, ?ei_opp.
  - rewrite (Cmult_assoc u). f_equal. replace (Cconj (RtoC (w j))) with (RtoC (w j)) by (apply C_eq; cbn; ring). ring.
  - rewrite (Cmult_assoc u). replace (Cconj (Cconj (ei (k * d j)))) with (ei (k * d j)) by (apply C_eq; cbn; ring). f_equal. replace (Cconj (RtoC (w j))) with (RtoC (w j)) by (apply C_eq; cbn; ring). ring.
Qed.
Lemma accepted_map t sigs x w (f : list R -> list R) : accepted t sigs x w -> (forall s, length (f s) = length s) -> accepted t (map f sigs) x w.
Proof.
  intros [] H. constructor; auto; rewrite ?map_length; auto. intros s Hs. apply in_map_iff in Hs. destruct Hs as (s0 & <- & Hs). rewrite H. auto.
Qed.
Lemma amp_map sigs m (f : list R -> list R) j : f [] = [] -> amp (map f sigs) m j = coef (f (nth j sigs [])) m.
Proof. intros H. unfold amp. rewrite <- H at 1. rewrite map_nth. reflexivity. Qed.
Theorem C67_rotation (t : list R) (sigs : list (list R)) (x w : list R) (h detLim : R) (r : nat) :
  accepted t sigs x w -> 0 < h -> 0 <= detLim -> (r <= length t)%nat ->
  exists i e, decompose_linear_ZS (N:=NX) (F t) (matrix (length t) sigs) (Fin h) (F x) (F w) (Fin detLim) = Ok (F i, F e)
  /\ decompose_linear_ZS (N:=NX) (F t) (matrix (length t) (map (rotated r) sigs)) (Fin h) (F x) (F w) (Fin detLim) = Ok (F (rotated r i), F (rotated r e)).
Proof.
  intros HA Hh HL Hr. assert (Hn : (2 <= length t)%nat) by apply (acc_axis _ _ _ _ HA).
  assert (HA' := accepted_map t sigs x w (rotated r) HA (rotated_length r)).
  eexists _, _. split; [apply decompose_F; auto|]. rewrite decompose_F by auto.
  assert (G : forall m, Yi t h x w detLim (map (rotated r) sigs) m = (tw 1 (length t) r m * Yi t h x w detLim sigs m)%C
                     /\ Yr t h x w detLim (map (rotated r) sigs) m = (tw 1 (length t) r m * Yr t h x w detLim sigs m)%C).
  { intros m. destruct (b_scaled (wof w) (dist x) (amp sigs m) (amp (map (rotated r) sigs) m) (wavenr t h m) (length x) (tw 1 (length t) r m)) as [E1 E2].
    - intros j Hj. destruct HA. assert (Lj : length (nth j sigs []) = length t) by (apply acc_sig, nth_In; lia).
      rewrite amp_map by (destruct r; reflexivity). rewrite coef_rotated, Lj by lia. reflexivity.
    - unfold Yi, Yr, solI, solR. rewrite E1, E2. destruct (Rltb detLim (Rabs (separation w x (wavenr t h m)))); unfold Cdiv; split; ring. }
  f_equal. f_equal; f_equal; (apply coef_determines; rewrite ?rotated_length, !back_length; auto); intros m Hm;
    rewrite coef_rotated, !back_length, !coef_back by (rewrite ?back_length; lia); destruct (G m) as [G1 G2]; rewrite ?G1, ?G2; clear G1 G2;
    (destruct (Nat.eqb m 0 || Nat.eqb (2 * m) (length t)) eqn:B; [|reflexivity]);
    assert (T := tw_real (length t) r m ltac:(apply orb_true_iff in B; destruct B as [B|B]; apply Nat.eqb_eq in B; auto) ltac:(lia));
    apply C_eq; cbn [fst snd Cmult RtoC]; rewrite T; ring.
Qed.
Theorem C67_time_reversal (t : list R) (sigs : list (list R)) (x w : list R) (h detLim : R) :
  accepted t sigs x w -> 0 < h -> 0 <= detLim ->
  exists i e, decompose_linear_ZS (N:=NX) (F t) (matrix (length t) sigs) (Fin h) (F x) (F w) (Fin detLim) = Ok (F i, F e)
  /\ decompose_linear_ZS (N:=NX) (F t) (matrix (length t) (map (@rev R) sigs)) (Fin h) (F x) (F w) (Fin detLim) = Ok (F (rev e), F (rev i)).
Proof.
  intros HA Hh HL. assert (Hn : (2 <= length t)%nat) by apply (acc_axis _ _ _ _ HA).
  assert (HA' := accepted_map t sigs x w (@rev R) HA (@rev_length R)).
  eexists _, _. split; [apply decompose_F; auto|]. rewrite decompose_F by auto.
  assert (G : forall m, Yi t h x w detLim (map (@rev R) sigs) m = (tw 1 (length t) 1 m * Cconj (Yr t h x w detLim sigs m))%C
                     /\ Yr t h x w detLim (map (@rev R) sigs) m = (tw 1 (length t) 1 m * Cconj (Yi t h x w detLim sigs m))%C).
  { intros m. set (u := tw 1 (length t) 1 m). set (k := wavenr t h m).
    destruct (b_conj (wof w) (dist x) (amp sigs m) (amp (map (@rev R) sigs) m) k (length x) u) as [E1 E2].
    - intros j Hj. destruct HA. assert (Lj : length (nth j sigs []) = length t) by (apply acc_sig, nth_In; lia).
      rewrite amp_map by reflexivity. rewrite coef_rev, Lj by lia. reflexivity.
    - unfold Yi, Yr. fold k. destruct (Rltb detLim (Rabs (separation w x k))); [|split; apply C_eq; cbn; ring].
      unfold solI, solR. rewrite E1, E2, a11_conj. rewrite det_real.
      set (A := a22 (wof w) (dist x) k (length x)). set (B1 := b1 _ _ _ _ _). set (B2 := b2 _ _ _ _ _). set (W0 := W _ _). set (S0 := sep _ _ _ _).
      unfold Cdiv. assert (Z : snd (/ RtoC (-4 * S0))%C = 0) by (cbn; unfold Rdiv; ring). set (q := (/ RtoC (-4 * S0))%C) in *.
      clearbody u A B1 B2 W0 q. destruct q as [q1 q2]. cbn in Z. subst q2. split; apply C_eq; cbn; ring. }
  f_equal. f_equal; f_equal; (apply coef_determines; rewrite ?rev_length, !back_length; auto); intros m Hm;
    rewrite coef_rev, !back_length, !coef_back by (rewrite ?back_length; lia); destruct (G m) as [G1 G2]; rewrite ?G1, ?G2; clear G1 G2;
    (destruct (Nat.eqb m 0 || Nat.eqb (2 * m) (length t)) eqn:B; [|reflexivity]);
    assert (T := tw_real (length t) 1 m ltac:(apply orb_true_iff in B; destruct B as [B|B]; apply Nat.eqb_eq in B; auto) ltac:(lia));
    apply C_eq; cbn [fst snd Cmult Cconj RtoC]; rewrite T; ring.
Qed.

(** an accepted set of three records, one of weight zero, and its scaled version *)
Example C67_witness : let t := axis 0 1 4 in let sa := [[1; 2; 0; -1]; [0; 3; 1; -2]] in let s := [5; 5; 1; 0] in
  accepted t (sa ++ s :: []) ([0; 1] ++ 3 :: []) ([1; 1] ++ 0 :: []) /\ accepted t (sa ++ []) ([0; 1] ++ []) ([1; 1] ++ [])
  /\ good_axis (map (Rmult 5) t) /\ accepted t sa [0; 1] (map (Rmult (2 / 3)) [1; 1]).
Proof.
  assert (G : forall c, 0 < c -> good_axis (map (Rmult c) (axis 0 1 4))).
  { intros c Hc. replace (map (Rmult c) (axis 0 1 4)) with (axis 0 c 4); [apply axis_good; [lia|auto]|]. apply (nth_ext' _ _ 0); [rewrite map_length, !axis_length; auto|].
    intros i Hi. rewrite axis_length in Hi. rewrite nth_scaled, !axis_nth by auto. ring. }
  assert (G1 : good_axis (axis 0 1 4)) by (apply axis_good; [lia|lra]).
  cbv zeta. split; [|split; [|split]]; [| |apply G; lra|].
  - constructor; auto; try (cbn; lia).
    + intros s [<-|[<-|[<-|[]]]]; reflexivity.
    + intros i j Hij. cbn [length app] in Hij. destruct i as [|[|]], j as [|[|[|]]]; try lia; cbn; lra.
    + right. intros v [<-|[<-|[<-|[]]]]; lra.
    + cbn. lra.
  - constructor; auto; try (cbn; lia).
    + intros s [<-|[<-|[]]]; reflexivity.
    + intros i j Hij. cbn [length app] in Hij. destruct i as [|], j as [|[|]]; try lia; cbn; lra.
    + right. intros v [<-|[<-|[]]]; lra.
    + cbn. lra.
  - constructor; auto; try (cbn; lia).
    + intros s [<-|[<-|[]]]; reflexivity.
    + intros i j Hij. cbn [length app] in Hij. destruct i as [|], j as [|[|]]; try lia; cbn; lra.
    + right. intros v [<-|[<-|[]]]; lra.
    + cbn. lra.
Qed.
