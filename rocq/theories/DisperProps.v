(** * disper: C43 - C45 *)

From Coq Require Import ZArith Reals Lra Lia List Bool.
From Coquelicot Require Import Coquelicot.
From Verif Require Import Num XR Engine DisperModel Spec XRFacts EngineProps TimeProps TanhFacts ExpBounds DisperStart DisperStep.
Import ListNotations.
Open Scope R_scope.

(** ** Specification *)
(** k is the wave number of radial frequency w in water of depth h: it solves the linear dispersion
    relation and propagates in the direction of w *)
Definition solves (w h g k : R) : Prop := w * w = g * k * tanh (k * h) /\ 0 < w * k.
(** x approximates k with relative error at most e *)
Definition relative_error (e k x : R) : Prop := Rabs (x - k) <= e * Rabs k.

(** ** The exact solution *)
Lemma qth_cont : continuity qth.
Proof. intros x. apply continuity_pt_filterlim, (ex_derive_continuous qth x). eexists. apply qth_derive. Qed.
Lemma qth_0 : qth 0 = 0.
Proof. unfold qth. ring. Qed.
Lemma qth_root T : 0 < T -> exists r, 0 < r /\ qth r = T.
Proof.
  intros H. assert (U : T <= qth (T + 1)).
  { unfold qth. assert (A := one_minus_tanh (T + 1)). assert (B := xe_bound (2 * (T + 1))). destruct em1 as [e0 e1].
    replace (- (2 * (T + 1))) with (-2 * (T + 1)) in B by ring. set (e := exp (-2 * (T + 1))) in *. nra. }
  destruct (IVT_gen qth 0 (T + 1) T qth_cont) as (r & Hr & E).
  - rewrite qth_0. rewrite Rmin_left, Rmax_right by lra. lra.
  - rewrite Rmin_left, Rmax_right in Hr by lra. exists r. split; [|exact E]. destruct (Rle_lt_or_eq_dec 0 r ltac:(lra)) as [L|L]; auto.
    subst r. rewrite qth_0 in E. lra.
Qed.
Lemma qth_inj x y : 0 < x -> 0 < y -> qth x = qth y -> x = y.
Proof.
  intros Hx Hy E. destruct (Rtotal_order x y) as [L|[L|L]]; auto; apply qth_lt in L; lra.
Qed.
Lemma solves_iff w h g k : 0 < h -> 0 < g -> 0 < w * k -> (w * w = g * k * tanh (k * h) <-> qth (Rabs k * h) = w * w * h / g).
Proof.
  intros Hh Hg S. assert (E : qth (Rabs k * h) = k * h * tanh (k * h)).
  { unfold qth. destruct (Rle_or_lt 0 k) as [L|L]; [rewrite Rabs_pos_eq by lra; reflexivity|].
    rewrite Rabs_left by lra. replace (- k * h) with (- (k * h)) by ring. rewrite tanh_odd. ring. }
  rewrite E. split; intros Q.
  - rewrite Q. field. lra.
  - apply (Rmult_eq_reg_r (h / g)); [|apply Rgt_not_eq, Rdiv_lt_0_compat; auto]. replace (w * w * (h / g)) with (w * w * h / g) by (field; lra).
    rewrite <- Q. field. lra.
Qed.
Lemma solves_exists w h g : 0 < h -> 0 < g -> w <> 0 -> exists k, solves w h g k.
Proof.
  intros Hh Hg Hw. assert (W : 0 < w * w) by nra.
  destruct (qth_root (w * w * h / g)) as (r & Hr & E); [apply Rdiv_lt_0_compat; nra|].
  assert (RH : 0 < r / h) by (apply Rdiv_lt_0_compat; auto).
  destruct (Rle_or_lt 0 w) as [L|L].
  - exists (r / h). assert (S : 0 < w * (r / h)) by nra. split; auto. apply solves_iff; auto. rewrite Rabs_pos_eq by lra.
    replace (r / h * h) with r by (field; lra). exact E.
  - exists (- (r / h)). assert (S : 0 < w * - (r / h)) by nra. split; auto. apply solves_iff; auto. rewrite Rabs_Ropp, Rabs_pos_eq by lra.
    replace (r / h * h) with r by (field; lra). exact E.
Qed.
Lemma solves_unique w h g k k' : 0 < h -> 0 < g -> solves w h g k -> solves w h g k' -> k = k'.
Proof.
  intros Hh Hg [E S] [E' S']. rewrite solves_iff in E, E' by auto. rewrite <- E' in E.
  assert (K : k <> 0) by (intros ->; lra). assert (K' : k' <> 0) by (intros ->; lra).
  assert (A := Rabs_pos_lt k K). assert (A' := Rabs_pos_lt k' K').
  apply qth_inj in E; [|nra|nra]. assert (AA : Rabs k = Rabs k') by nra.
  destruct (Rle_or_lt 0 w) as [L|L].
  - rewrite !Rabs_pos_eq in AA by nra. exact AA.
  - rewrite !Rabs_left in AA by nra. lra.
Qed.

(** ** The iteration in real numbers *)
Definition rclamp (T : R) : R := if Rltb T (1 / 100000000) then 1 / 100000000 else T.
Definition rcorr (T q : R) : R :=
  if Rltb (Rabs (fa q * fc T q)) (1 / 100000000 * (fb q * fb q)) then corr_lin T q else corr_quad T q.
Lemma rcorr_cases T q : linear T q /\ rcorr T q = corr_lin T q \/ ~ linear T q /\ rcorr T q = corr_quad T q.
Proof.
  unfold rcorr, linear. destruct (Rltb_spec (Rabs (fa q * fc T q)) (1 / 100000000 * (fb q * fb q))); [left|right]; split; auto; lra.
Qed.
Definition rstep (T q : R) : R := q + rcorr T q.
Definition rq (T : R) : R := rstep T (rstep T (start T)).

Lemma fin_step e r q : 0 < r -> 0 <= e <= 1 / 100 -> within e r q ->
  disper_step (N:=NX) (Fin (qth r)) (Fin q) = Fin (rstep (qth r) q).
Proof.
  intros Hr He H. destruct (residual_small e r q Hr He H) as (Pq & _ & _). assert (B := fb_pos q Pq).
  assert (D := disc_pos e r q Hr He H).
  unfold disper_step. cbv zeta. rewrite !fin_tanh. set (t := tanh q). rewrite !fin_1.
  repeat rewrite ?fin_mul, ?fin_sub, ?fin_add, ?fin_abs.
  change (q * t) with (qth q). 
  change ((1 - qth q) * (1 - t * t)) with (fa q). change (t + q * (1 - t * t)) with (fb q). change (qth q - qth r) with (fc (qth r) q).
  rewrite fin_lit by lra. rewrite !fin_mul, fin_ltb, fin_0, fin_eqb.
  unfold rstep, rcorr. unfold lit. 
  destruct (Rltb_spec (Rabs (fa q * fc (qth r) q)) (1 / 100000000 * (fb q * fb q))) as [L|L].
  - rewrite fin_opp, fin_div by lra. rewrite fin_add. reflexivity.
  - assert (NA : fa q <> 0) by (intros E; apply L; rewrite E, Rmult_0_l, Rabs_R0; nra).
    destruct (Reqb_spec (fa q) 0) as [E|_]; [contradiction|]. cbn [negb].
    rewrite !fin_ofZ, !fin_mul, fin_sub, fin_opp. rewrite fin_sqrt by (change (0 <= disc (qth r) q); nra).
    rewrite fin_add, fin_div by lra. rewrite fin_add. reflexivity.
Qed.

Definition ulp : R := 1 / 100000000000000.   (* 1e-14 *)

Lemma rq_error r : 0 < r ->
  within (1 / 100) r (start (qth r)) /\ within (741 / 1000000000) r (rstep (qth r) (start (qth r))) /\ within ulp r (rq (qth r)).
Proof.
  intros Hr. destruct (start_near r Hr) as [A B].
  assert (W0 : within (1 / 100) r (start (qth r))) by (unfold within; apply Rabs_le; lra).
  assert (W1 := step_error (1 / 100) r _ _ Hr ltac:(lra) W0 (rcorr_cases (qth r) (start (qth r)))). fold (rstep (qth r) (start (qth r))) in W1.
  assert (W1' : within (741 / 1000000000) r (rstep (qth r) (start (qth r)))).
  { unfold within in *. eapply Rle_trans; [exact W1|]. apply Rmult_le_compat_r; lra. }
  split; [exact W0|]. split; [exact W1'|].
  assert (W2 := step_error (741 / 1000000000) r _ _ Hr ltac:(lra) W1' (rcorr_cases (qth r) _)). fold (rstep (qth r) (rstep (qth r) (start (qth r)))) in W2.
  fold (rq (qth r)) in W2. unfold within, ulp in *. eapply Rle_trans; [exact W2|]. apply Rmult_le_compat_r; lra.
Qed.
Lemma rq_pos T : 0 < T -> 0 < rq T.
Proof.
  intros H. destruct (qth_root T H) as (r & Hr & <-). destruct (rq_error r Hr) as (_ & _ & W).
  apply Rabs_le_between in W. unfold ulp in W. lra.
Qed.
Lemma fin_start T : 0 < T -> disper_q0 (N:=NX) (Fin T) = Fin (start T).
Proof.
  intros H. unfold disper_q0, start. rewrite !fin_lit by lra. rewrite (fin_pow T) by auto. rewrite fin_opp, fin_exp, fin_1, fin_sub.
  destruct (inner_pos T) as [I1 _]. rewrite fin_pow by exact I1. rewrite fin_div by (apply Rgt_not_eq, Rpower_pos). reflexivity.
Qed.
Lemma rclamp_pos T : 0 < rclamp T.
Proof. unfold rclamp. destruct (Rltb_spec T (1 / 100000000)); lra. Qed.
Lemma fin_q w h g : 0 < g -> disper_q (N:=NX) (Fin w) (Fin h) (Fin g) = Fin (rq (rclamp (w * w * h / g))).
Proof.
  intros Hg. unfold disper_q. cbv zeta.
  assert (E : disper_w2 (N:=NX) (Fin w) (Fin h) (Fin g) = Fin (rclamp (w * w * h / g))).
  { unfold disper_w2. cbv zeta. rewrite !fin_mul, fin_div by lra. rewrite !fin_lit by lra. rewrite fin_ltb. unfold rclamp. destruct (Rltb _ _); reflexivity. }
  rewrite E. clear E. assert (Ht := rclamp_pos (w * w * h / g)). set (T := rclamp (w * w * h / g)) in *. clearbody T.
  destruct (qth_root T Ht) as (r & Hr & <-). rewrite fin_start by auto. destruct (rq_error r Hr) as (W0 & W1 & _).
  rewrite (fin_step (1 / 100) r) by (auto; lra). rewrite (fin_step (741 / 1000000000) r) by (auto; lra). reflexivity.
Qed.
Definition rsign (w : R) : R := if Rltb 0 w then 1 else if Rltb w 0 then -1 else 0.
Lemma fin_sign w : nsign (N:=NX) (Fin w) = Fin (rsign w).
Proof. unfold nsign, rsign. rewrite fin_nan, fin_0, !fin_ltb, fin_1, fin_opp. destruct (Rltb 0 w), (Rltb w 0); reflexivity. Qed.
Definition rk (h g w : R) : R := rsign w * rq (rclamp (w * w * h / g)) / h.
Lemma fin_k w h g : 0 < h -> 0 < g -> disper_k (N:=NX) (Fin w) (Fin h) (Fin g) = Fin (rk h g w).
Proof.
  intros Hh Hg. unfold disper_k. cbv zeta. rewrite fin_q, fin_sign by auto. rewrite fin_mul, fin_div by lra. rewrite fin_nan. reflexivity.
Qed.
Lemma disper_F ws h g : 0 < h -> 0 < g -> disper (N:=NX) (Arr (vec (F ws))) (Fin h) (Fin g) = Ok (F (map (rk h g) ws)).
Proof.
  intros Hh Hg. unfold disper. cbn [convert_to_array_type]. rewrite as_list_vec, bind_Ok, fin_isinf, fin_0, fin_ltb.
  destruct (Rltb_spec h 0); [lra|]. f_equal. unfold F. rewrite !map_map. apply map_ext. intros w. apply fin_k; auto.
Qed.
Lemma disper_scalar w h g : 0 < h -> 0 < g -> disper (N:=NX) (Scalar (Fin w)) (Fin h) (Fin g) = Ok (F [rk h g w]).
Proof. intros Hh Hg. exact (disper_F [w] h g Hh Hg). Qed.
Lemma rsign_pos w : 0 < w -> rsign w = 1.
Proof. intros H. unfold rsign. rewrite (Rltb_true 0 w); auto. Qed.
Lemma rsign_neg w : w < 0 -> rsign w = -1.
Proof. intros H. unfold rsign. rewrite (Rltb_false 0 w) by lra. rewrite (Rltb_true w 0); auto. Qed.
Lemma rsign_0 : rsign 0 = 0.
Proof. unfold rsign. rewrite (Rltb_false 0 0) by lra. reflexivity. Qed.

(** ** C43: the documented deep- and shallow-water branches always fail *)
Theorem C43_deep_water_refuted (w : arraylike (car NX)) (ws : list (car NX)) (g : car NX) :
  as_list (convert_to_array_type w) = Ok ws -> disper w PInf g = Raise UnboundLocalError.
Proof. intros H. unfold disper. rewrite H. reflexivity. Qed.
Theorem C43_shallow_water_refuted (w : arraylike (car NX)) (ws : list (car NX)) (d : R) (g : car NX) :
  as_list (convert_to_array_type w) = Ok ws -> 0 < d -> disper w (Fin (- d)) g = Raise UnboundLocalError.
Proof.
  intros H Hd. unfold disper. rewrite H, bind_Ok, fin_isinf, fin_0, fin_ltb. rewrite (Rltb_true (- d) 0); [reflexivity|lra].
Qed.
Example C43_witness : disper (N:=NX) (Scalar (Fin 1)) PInf (Fin 9.81) = Raise UnboundLocalError
  /\ disper (N:=NX) (Arr (vec (F [1; 2]))) (Fin (- (5))) (Fin 9.81) = Raise UnboundLocalError.
Proof.
  split; [apply (C43_deep_water_refuted _ [Fin 1]); reflexivity|]. apply (C43_shallow_water_refuted _ (F [1; 2])); [reflexivity|lra].
Qed.

(** ** C44 *)
Theorem C44_structure (h g : R) : 0 < h -> 0 < g -> exists K : R -> R,
  (forall ws, disper (N:=NX) (Arr (vec (F ws))) (Fin h) (Fin g) = Ok (F (map K ws))) /\
  (forall w, disper (N:=NX) (Scalar (Fin w)) (Fin h) (Fin g) = Ok (F [K w])) /\
  K 0 = 0 /\ (forall w, K (- w) = - K w) /\ (forall w, 0 < w -> 0 < K w).
Proof.
  intros Hh Hg. exists (rk h g). split; [|split; [|split; [|split]]].
  - intros ws. apply disper_F; auto.
  - intros w. apply disper_scalar; auto.
  - unfold rk. rewrite rsign_0. unfold Rdiv. ring.
  - intros w. unfold rk. replace (- w * - w) with (w * w) by ring.
    destruct (Rtotal_order w 0) as [L|[->|L]].
    + rewrite (rsign_neg w L), (rsign_pos (- w)) by lra. field. lra.
    + rewrite Ropp_0, rsign_0. field. lra.
    + rewrite (rsign_pos w L), (rsign_neg (- w)) by lra. field. lra.
  - intros w L. unfold rk. rewrite rsign_pos by auto. assert (P := rq_pos _ (rclamp_pos (w * w * h / g))). apply Rdiv_lt_0_compat; lra.
Qed.
(** k h depends on w, h and g only through w^2 h / g (Buckingham) *)
Theorem C44_dimensionless (h g h' g' w w' k k' : R) : 0 < h -> 0 < g -> 0 < h' -> 0 < g' -> 0 < w -> 0 < w' ->
  w * w * h / g = w' * w' * h' / g' ->
  disper (N:=NX) (Scalar (Fin w)) (Fin h) (Fin g) = Ok (F [k]) -> disper (N:=NX) (Scalar (Fin w')) (Fin h') (Fin g') = Ok (F [k']) ->
  k * h = k' * h'.
Proof.
  intros Hh Hg Hh' Hg' Hw Hw' E D D'. rewrite disper_scalar in D, D' by auto. apply Ok_inj, F_inj in D. apply Ok_inj, F_inj in D'.
  assert (A : k = rk h g w) by congruence. assert (A' : k' = rk h' g' w') by congruence. rewrite A, A'.
  unfold rk. rewrite E, !rsign_pos by auto. field. lra.
Qed.
(** the solution of the dispersion relation is a fixed point of each pass *)
Theorem C44_fixed_point (w h g k : R) : 0 < h -> 0 < g -> 0 < w -> solves w h g k ->
  disper_step (N:=NX) (Fin (w * w * h / g)) (Fin (k * h)) = Fin (k * h).
Proof.
  intros Hh Hg Hw [E S]. assert (Hk : 0 < k) by nra. apply solves_iff in E; auto. rewrite Rabs_pos_eq in E by lra.
  rewrite <- E. assert (Hr : 0 < k * h) by nra.
  rewrite (fin_step 0 (k * h)); [|auto|lra|unfold within; rewrite Rminus_eq_0, Rabs_R0; lra].
  f_equal. unfold rstep, rcorr. assert (Z : fc (qth (k * h)) (k * h) = 0) by (unfold fc; ring).
  rewrite Z, Rmult_0_r, Rabs_R0. assert (B := fb_pos (k * h) Hr). rewrite (Rltb_true _ _) by nra.
  unfold corr_lin. rewrite Z. field. lra.
Qed.
(** at zero depth the result is infinite, except for w = 0 *)
Theorem C44_zero_depth (w g : R) : 0 < g ->
  disper (N:=NX) (Scalar (Fin w)) (Fin 0) (Fin g) = Ok [if Rltb 0 w then PInf else if Rltb w 0 then NInf else Fin 0].
Proof.
  intros Hg. change (disper (N:=NX) (Scalar (Fin w)) (Fin 0) (Fin g)) with (disper (N:=NX) (Arr (vec (F [w]))) (Fin 0) (Fin g)).
  unfold disper. cbn [convert_to_array_type]. rewrite as_list_vec, bind_Ok, fin_isinf, fin_0, fin_ltb. rewrite (Rltb_false 0 0) by lra. cbn [map F]. f_equal. f_equal.
  unfold disper_k. cbv zeta. rewrite fin_q, fin_sign, fin_mul by auto.
  assert (P := rq_pos _ (rclamp_pos (w * w * 0 / g))). set (q := rq _) in *. clearbody q.
  unfold rsign. destruct (Rltb_spec 0 w) as [L|L]; [|destruct (Rltb_spec w 0) as [L'|L']].
  - cbn. destruct (Req_EM_T 0 0); [|lra]. unfold xinf_times. destruct (Rlt_dec 0 (1 * q)); [reflexivity|lra].
  - cbn. destruct (Req_EM_T 0 0); [|lra]. unfold xinf_times. destruct (Rlt_dec 0 (-1 * q)); [lra|]. destruct (Rlt_dec (-1 * q) 0); [reflexivity|lra].
  - cbn. destruct (Req_EM_T 0 0); [|lra]. unfold xinf_times. destruct (Rlt_dec 0 (0 * q)); [lra|]. destruct (Rlt_dec (0 * q) 0); [lra|]. reflexivity.
Qed.
Example C44_witness : exists K, disper (N:=NX) (Arr (vec (F [-1; 0; 1]))) (Fin 5) (Fin 9.81) = Ok (F [- K; 0; K]) /\ 0 < K.
Proof.
  destruct (C44_structure 5 9.81 ltac:(lra) ltac:(lra)) as (K & A & _ & Z & O & P). exists (K 1). split; [|apply P; lra].
  rewrite A. cbn [map]. replace (-1) with (- (1)) by ring. rewrite Z, O. reflexivity.
Qed.

(** ** C45 *)
(** above the threshold w^2 h / g >= 1e-8 every returned wave number is within 1e-14 of the exact solution *)
Theorem C45_accuracy (ws ks : list R) (h g : R) : 0 < h -> 0 < g ->
  disper (N:=NX) (Arr (vec (F ws))) (Fin h) (Fin g) = Ok (F ks) ->
  length ks = length ws /\
  forall i, (i < length ws)%nat -> 1 / 100000000 <= nth i ws 0 * nth i ws 0 * h / g ->
    (exists! k, solves (nth i ws 0) h g k) /\
    forall k, solves (nth i ws 0) h g k -> relative_error (1 / 100000000000000) k (nth i ks 0).
Proof.
  intros Hh Hg D. rewrite disper_F in D by auto. apply Ok_inj, F_inj in D. subst ks. rewrite map_length. split; [reflexivity|].
  intros i Hi T. rewrite (nth_indep (map (rk h g) ws) 0 (rk h g 0)) by (rewrite map_length; auto). rewrite map_nth. set (w := nth i ws 0) in *.
  assert (Hw : w <> 0). { intros E. rewrite E in T. unfold Rdiv in T. rewrite !Rmult_0_l in T. lra. }
  split; [destruct (solves_exists w h g Hh Hg Hw) as (k & Sk); exists k; split; [exact Sk|intros k' Sk'; apply (solves_unique w h g); auto]|].
  intros k Sk. destruct Sk as [E S]. apply solves_iff in E; auto.
  assert (Hk : k <> 0) by (intros ->; lra). assert (Ak := Rabs_pos_lt k Hk). assert (Hr : 0 < Rabs k * h) by nra.
  unfold rk, rclamp. rewrite (Rltb_false _ _) by lra. rewrite <- E.
  destruct (rq_error _ Hr) as (_ & _ & W). unfold within, ulp in W. set (r := Rabs k * h) in *. set (q := rq (qth r)) in *.
  unfold relative_error. assert (K : k = rsign w * r / h).
  { unfold r. destruct (Rle_or_lt 0 w) as [L|L].
    - rewrite rsign_pos by nra. rewrite Rabs_pos_eq by nra. field. lra.
    - rewrite rsign_neg by nra. rewrite Rabs_left by nra. field. lra. }
  assert (N : Rabs (rsign w * q / h - k) = Rabs (q - r) / h).
  { rewrite K at 1. replace (rsign w * q / h - rsign w * r / h) with (rsign w * ((q - r) / h)) by (field; lra).
    rewrite Rabs_mult. unfold Rdiv. rewrite Rabs_mult, (Rabs_pos_eq (/ h)) by (left; apply Rinv_0_lt_compat; auto).
    destruct (Rle_or_lt 0 w) as [L|L]; [rewrite rsign_pos by nra|rewrite rsign_neg by nra].
    - rewrite Rabs_R1. ring. - rewrite Rabs_left by lra. ring. }
  rewrite N. apply (Rmult_le_reg_r h); auto. unfold Rdiv at 1. rewrite Rmult_assoc, Rinv_l, Rmult_1_r by lra. unfold r in *. lra.
Qed.
(** below the threshold the result does not depend on w any more *)
Theorem C45_low_frequency (w w' h g : R) : 0 < h -> 0 < g -> 0 < w -> 0 < w' ->
  w * w * h / g < 1 / 100000000 -> w' * w' * h / g < 1 / 100000000 ->
  disper (N:=NX) (Scalar (Fin w)) (Fin h) (Fin g) = disper (N:=NX) (Scalar (Fin w')) (Fin h) (Fin g).
Proof.
  intros Hh Hg Hw Hw' T T'. rewrite !disper_scalar by auto. unfold rk, rclamp. rewrite !(Rltb_true _ _) by auto.
  rewrite !rsign_pos by auto. reflexivity.
Qed.
(** so that, as w tends to 0, the relative error exceeds every bound *)
Theorem C45_low_frequency_refuted (h g M : R) : 0 < h -> 0 < g -> exists w k x,
  0 < w /\ solves w h g k /\ disper (N:=NX) (Scalar (Fin w)) (Fin h) (Fin g) = Ok (F [x]) /\ ~ relative_error M k x.
Proof.
  intros Hh Hg. set (c := rq (1 / 100000000)). assert (C : 0 < c) by (apply rq_pos; lra).
  set (m := Rabs M + 2). assert (Hm : 2 <= m) by (unfold m; assert (A := Rabs_pos M); lra).
  set (r := Rmin (c / m) (1 / 100000)).
  assert (Hr : 0 < r) by (unfold r; apply Rmin_glb_lt; [apply Rdiv_lt_0_compat; lra|lra]).
  assert (R1 : r <= c / m) by apply Rmin_l. assert (R2 : r <= 1 / 100000) by apply Rmin_r.
  assert (Tp : 0 < qth r) by (unfold qth; assert (A := tanh_pos r Hr); nra).
  assert (Tu : qth r < 1 / 100000000) by (unfold qth; assert (A := tanh_le_id r ltac:(lra)); nra).
  assert (G : 0 < g / h * qth r) by (apply Rmult_lt_0_compat; [apply Rdiv_lt_0_compat; auto|auto]).
  set (w := sqrt (g / h * qth r)). assert (Hw : 0 < w) by (apply sqrt_lt_R0; auto).
  assert (W2 : w * w = g / h * qth r) by (apply sqrt_sqrt; lra).
  assert (WT : w * w * h / g = qth r) by (rewrite W2; field; lra).
  assert (RH : 0 < r / h) by (apply Rdiv_lt_0_compat; auto).
  exists w, (r / h), (rk h g w). split; [exact Hw|]. split; [|split; [apply disper_scalar; auto|]].
  - assert (S : 0 < w * (r / h)) by nra. split; [|exact S]. apply solves_iff; auto. rewrite Rabs_pos_eq by lra.
    replace (r / h * h) with r by (field; lra). auto.
  - unfold rk, rclamp. rewrite WT, (Rltb_true _ _) by auto. fold c. rewrite rsign_pos by auto. intros E. unfold relative_error in E.
    rewrite (Rabs_pos_eq (r / h)) in E by lra. assert (L := Rle_abs (1 * c / h - r / h)). assert (L2 := Rle_abs M).
    apply (Rmult_le_compat_r m) in R1; [|lra]. replace (c / m * m) with c in R1 by (field; lra).
    assert (X : 1 * c / h - r / h <= Rabs M * (r / h)) by nra.
    apply (Rmult_le_compat_r h) in X; [|lra]. replace ((1 * c / h - r / h) * h) with (c - r) in X by (field; lra).
    replace (Rabs M * (r / h) * h) with (Rabs M * r) in X by (field; lra). unfold m in R1. lra.
Qed.
Example C45_witness : exists k x, solves 1 5 9.81 k /\ disper (N:=NX) (Scalar (Fin 1)) (Fin 5) (Fin 9.81) = Ok (F [x]) /\ relative_error (1 / 100000000000000) k x.
Proof.
  destruct (C45_accuracy [1] [rk 5 9.81 1] 5 9.81 ltac:(lra) ltac:(lra) (disper_F [1] 5 9.81 ltac:(lra) ltac:(lra))) as [_ A].
  destruct (A 0%nat) as [(k & S & _) R]; cbn [nth length] in *; [lia|lra|]. specialize (R k S). exists k, (rk 5 9.81 1).
  split; [exact S|]. split; [apply disper_scalar; lra|exact R].
Qed.
