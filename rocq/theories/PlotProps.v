(** * The Rayleigh-scaled exceedance plot of WaveHeights (series.py): C55 *)

From Coq Require Import Reals ZArith String List Bool Lra Lia Permutation.
From Verif Require Import Num XR Spec XRFacts Engine TimeModel TimeSpec EngineProps TimeProps TimeProps2
  TimeProps3 SpectralModel WaveModel SpectrumModel SeriesModel WHProps.
Import ListNotations.
Open Scope R_scope.

(** the unit in which heights are plotted *)
Definition height_unit (normalize : bool) (Hs : R) : R := if normalize then Hs else 1.

Lemma rev_seq_nth n j : (j < n)%nat -> nth j (rev (seq 1 n)) 0%nat = (n - j)%nat.
Proof. intros H. rewrite rev_nth by (rewrite seq_length; auto). rewrite seq_length, seq_nth by lia. lia. Qed.

Lemma ratio_ln (a b : R) : 0 < a <= b -> ln (a / b) <= 0.
Proof.
  intros H. rewrite <- ln_1. assert (0 < a / b) by (apply Rdiv_lt_0_compat; lra).
  assert (a / b <= 1) by (apply Rmult_le_reg_r with b; [lra|]; unfold Rdiv; rewrite Rmult_assoc, Rinv_l by lra; lra).
  destruct (Rle_lt_or_eq_dec (a / b) 1) as [Hq|Hq]; auto; [apply Rlt_le, ln_increasing; auto|rewrite Hq; lra].
Qed.

Section Rayleigh.
  Variable argsort : list NX -> list nat.
  Hypothesis Ha : is_argsort argsort.
  Variables h t : list R.
  Hypothesis Hne : h <> [].
  Hypothesis Hl : length h = length t.
  Variable calls : list (wh_call NX).
  Let s := wh_run argsort calls (new_wh h t).
  Variable Hs : R.
  Hypothesis EHs : rmap fst (snd (wh_Hs argsort s)) = Ok (Fin Hs).
  Hypothesis PHs : 0 < Hs.

  (** everything drawn without the Battjes-Groenendijk curve *)
  Definition drawn (b : bool) (xs curve meas : list R) : Prop :=
    exists hs : list R, Permutation hs h /\ descending hs
      /\ length xs = length h /\ length curve = length h /\ length meas = length h
      /\ forall j, (j < length h)%nat ->
           0 <= nth j xs 0 /\ exp (- nth j xs 0 ^ 2) = INR (j + 1) / INR (length h)
           /\ nth j meas 0 = nth j hs 0 / height_unit b Hs
           /\ 0 < nth j curve 0
           /\ exp (- 2 * (nth j curve 0 * height_unit b Hs / Hs) ^ 2) = INR (j + 1) / INR (length h + 1).

  Lemma drawn_data BG b pb wd ct hm0 :
    exists xs curve meas, drawn b xs curve meas
      /\ snd (wh_plot_Rayleigh argsort BG b pb wd ct hm0 s)
         = let! bg := (if pb
                       then if neqb (n:=NX) hm0 (Fin (-1)) then Raise ValueError
                            else let! (hBG, pBG) := BG hm0 (length h) wd ct in
                                 Ok (Some (map (fun p => nsqrt (n:=NX) (nopp (n:=NX) (nln (n:=NX) p))) pBG,
                                           map (fun v => ndiv (n:=NX) v (Fin (height_unit b Hs))) hBG))
                       else Ok None) in
           Ok (F xs, F curve, F meas, bg).
  Proof.
    assert (Hold : holds_waves s h t) by (apply C14_waves_preserved; auto).
    set (n := length h).
    assert (Hn : (0 < n)%nat) by (unfold n; destruct h; [contradiction|cbn; lia]).
    assert (Pn : 0 < INR n) by (apply lt_0_INR; auto).
    assert (Pn1 : 0 < INR (n + 1)) by (apply lt_0_INR; lia).
    unfold wh_plot_Rayleigh.
    (* the normalisation *)
    assert (E1 : exists s1 calls1, s1 = wh_run argsort calls1 (new_wh h t) /\ holds_waves s1 h t
       /\ forall A (k : NX -> wh_meth A),
         wbind (if b then wbind (wh_Hs argsort) (fun ht s0 => (s0, Ok (fst ht))) else fun s0 => (s0, Ok n1)) k s
         = k (Fin (height_unit b Hs)) s1).
    { destruct b.
      - exists (fst (wh_Hs argsort s)), (calls ++ [@WHs NX]).
        assert (E : fst (wh_Hs argsort s) = wh_run argsort (calls ++ [@WHs NX]) (new_wh h t)).
        { unfold wh_run. rewrite fold_left_app. reflexivity. }
        split; [exact E|]. split; [rewrite E; apply C14_waves_preserved; auto|].
        intros A k. unfold wbind. destruct (wh_Hs argsort s) as [s' [[u v]|e]]; [|discriminate].
        cbn in EHs. apply Ok_inj in EHs. subst u. reflexivity.
      - exists s, calls. split; [reflexivity|]. split; [exact Hold|]. intros A k. reflexivity. }
    destruct E1 as (s1 & calls1 & Es1 & H1 & ->).
    assert (N1 : wh_n s1 = n) by (destruct H1 as (? & ? & _ & _ & E & _); exact E).
    cbv zeta. rewrite N1.
    (* the 2% height *)
    assert (EHs1 : rmap fst (snd (wh_Hs argsort s1)) = Ok (Fin Hs)).
    { rewrite <- EHs. rewrite Es1. unfold s.
      destruct (C14_answers_history_independent argsort h t calls1 Ha Hne Hl) as (_ & _ & _ & _ & -> & _).
      destruct (C14_answers_history_independent argsort h t calls Ha Hne Hl) as (_ & _ & _ & _ & -> & _). reflexivity. }
    assert (HH : holds_waves (fst (wh_H2p_Rayleigh argsort s1)) h t) by (apply H2p_step; auto).
    destruct (C50_H2p_Rayleigh argsort h t calls1 Hs Ha Hne Hl) as (H2p & E2 & B2 & X2);
      [rewrite <- Es1; exact EHs1|exact PHs|]. rewrite <- Es1 in E2.
    unfold wbind at 1. destruct (wh_H2p_Rayleigh argsort s1) as [s2 r2]. cbn [snd fst] in E2, HH. subst r2.
    match goal with |- context [wbind (wh_sort argsort) ?k s2] =>
      destruct (sort_bind argsort Ha h t Hne Hl k s2 HH) as (s3 & h' & t' & E3 & _ & -> & D & L1 & L2 & P) end.
    rewrite E3. clear E3. cbn [snd wh_h data vec].
    assert (PU : 0 < height_unit b Hs) by (unfold height_unit; destruct b; lra).
    set (U := height_unit b Hs) in *.
    assert (L02 : ln (2 / 100) < 0) by (rewrite <- ln_1; apply ln_increasing; lra).
    set (xs := map (fun i => sqrt (- ln (INR i / INR n))) (seq 1 n)).
    set (curve := map (fun i => H2p * sqrt (ln (1 - INR i / INR (n + 1)) / ln (2 / 100)) / U) (rev (seq 1 n))).
    set (meas := map (fun v => v / U) h').
    assert (Pone : forall j, (1 <= j <= n)%nat -> 0 < 1 - INR j / INR (n + 1) < 1).
    { intros j Hj. assert (0 < INR j) by (apply lt_0_INR; lia). assert (INR j < INR (n + 1)) by (apply lt_INR; lia).
      assert (0 < INR j / INR (n + 1)) by (apply Rdiv_lt_0_compat; auto).
      assert (INR j / INR (n + 1) < 1); [|lra].
      apply Rmult_lt_reg_r with (INR (n + 1)); auto. unfold Rdiv. rewrite Rmult_assoc, Rinv_l by lra. lra. }
    assert (Lneg : forall j, (1 <= j <= n)%nat -> ln (1 - INR j / INR (n + 1)) < 0).
    { intros j Hj. rewrite <- ln_1. destruct (Pone j Hj). apply ln_increasing; auto. }
    assert (Qpos : forall j, (1 <= j <= n)%nat -> 0 < ln (1 - INR j / INR (n + 1)) / ln (2 / 100)).
    { intros j Hj. specialize (Lneg j Hj).
      replace (ln (1 - INR j / INR (n + 1)) / ln (2 / 100)) with ((- ln (1 - INR j / INR (n + 1))) / (- ln (2/100))) by (field; lra).
      apply Rdiv_lt_0_compat; lra. }
    exists xs, curve, meas. split.
    - exists h'. split; [apply (heights_perm h t Hl h' t'); auto|]. split; [exact D|]. fold n.
      unfold xs, curve, meas. rewrite !map_length, rev_length, seq_length.
      split; [reflexivity|]. split; [reflexivity|]. split; [exact L1|]. intros j Hj.
      fold U. split; [|split; [|split; [|split]]].
      + rewrite (nth_indep _ 0 (sqrt (- ln (INR 0 / INR n)))) by (rewrite map_length, seq_length; auto).
        rewrite (map_nth (fun i => sqrt (- ln (INR i / INR n)))). apply sqrt_pos.
      + rewrite (nth_indep _ 0 (sqrt (- ln (INR 0 / INR n)))) by (rewrite map_length, seq_length; auto).
        rewrite (map_nth (fun i => sqrt (- ln (INR i / INR n)))), seq_nth by auto.
        replace (1 + j)%nat with (j + 1)%nat by lia.
        assert (0 < INR (j + 1) <= INR n) by (split; [apply lt_0_INR; lia|apply le_INR; lia]).
        rewrite <- Rsqr_pow2, Rsqr_sqrt by (assert (Z := ratio_ln (INR (j + 1)) (INR n) ltac:(auto)); lra).
        rewrite Ropp_involutive. apply exp_ln. apply Rdiv_lt_0_compat; lra.
      + rewrite (nth_indep _ 0 (0 / U)) by (rewrite map_length; lia). rewrite (map_nth (fun v => v / U)). reflexivity.
      + rewrite (nth_indep _ 0 ((fun i => H2p * sqrt (ln (1 - INR i / INR (n + 1)) / ln (2 / 100)) / U) 0%nat))
          by (rewrite map_length, rev_length, seq_length; auto).
        rewrite (map_nth (fun i => H2p * sqrt (ln (1 - INR i / INR (n + 1)) / ln (2 / 100)) / U)), rev_seq_nth by auto.
        apply Rdiv_lt_0_compat; auto. apply Rmult_lt_0_compat; [lra|]. apply sqrt_lt_R0, Qpos. lia.
      + rewrite (nth_indep _ 0 ((fun i => H2p * sqrt (ln (1 - INR i / INR (n + 1)) / ln (2 / 100)) / U) 0%nat))
          by (rewrite map_length, rev_length, seq_length; auto).
        rewrite (map_nth (fun i => H2p * sqrt (ln (1 - INR i / INR (n + 1)) / ln (2 / 100)) / U)), rev_seq_nth by auto.
        assert (Q := Qpos (n - j)%nat ltac:(lia)). destruct (Pone (n - j)%nat ltac:(lia)) as [Q1 _].
        set (L := ln (1 - INR (n - j) / INR (n + 1))) in *.
        replace (H2p * sqrt (L / ln (2 / 100)) / U * U / Hs) with (H2p / Hs * sqrt (L / ln (2/100))) by (field; lra).
        rewrite Rpow_mult_distr, <- (Rsqr_pow2 (sqrt (L / ln (2/100)))), Rsqr_sqrt by lra.
        replace (-2 * ((H2p / Hs) ^ 2 * (L / ln (2 / 100)))) with ((-2 * (H2p / Hs) ^ 2) * (L / ln (2 / 100))) by ring.
        assert (E5 : -2 * (H2p / Hs) ^ 2 = ln (2 / 100)) by (rewrite <- X2, ln_exp; reflexivity).
        rewrite E5. replace (ln (2 / 100) * (L / ln (2 / 100))) with L by (field; lra).
        unfold L. rewrite exp_ln by exact Q1. rewrite minus_INR by lia. rewrite !plus_INR. change (INR 1) with 1.
        rewrite plus_INR in Pn1. change (INR 1) with 1 in Pn1. field. lra.
    - change (nopp (n:=NX) n1) with (Fin (-1)).
      assert (EX : map (fun i => nsqrt (n:=NX) (nopp (n:=NX) (nln (n:=NX) (ndiv (n:=NX) (nofnat i) (nofnat n))))) (seq 1 n) = F xs).
      { unfold xs, F. rewrite map_map. apply map_ext_in. intros i Hi. apply in_seq in Hi.
        assert (0 < INR i <= INR n) by (split; [apply lt_0_INR; lia|apply le_INR; lia]).
        rewrite !fin_ofnat, fin_div by lra. rewrite fin_ln by (apply Rdiv_lt_0_compat; lra).
        rewrite fin_opp, fin_sqrt; [reflexivity|]. assert (Z := ratio_ln (INR i) (INR n) ltac:(auto)). lra. }
      assert (EC : map (fun v => ndiv (n:=NX) v (Fin U))
          (map (fun i => nmul (n:=NX) (Fin H2p) (nsqrt (n:=NX) (ndiv (n:=NX)
             (nln (n:=NX) (nsub (n:=NX) n1 (ndiv (n:=NX) (nofnat i) (nofnat (n + 1))))) (nln (n:=NX) (lit 2 100))))) (rev (seq 1 n)))
          = F curve).
      { unfold curve, F. rewrite !map_map. apply map_ext_in. intros i Hi. apply in_rev in Hi. rewrite ?rev_involutive in Hi. apply in_seq in Hi.
        destruct (Pone i ltac:(lia)). assert (Q := Qpos i ltac:(lia)).
        rewrite !fin_ofnat, fin_div by lra. rewrite fin_1, fin_sub, fin_ln by lra. rewrite fin_lit by lra.
        rewrite (fin_ln (2/100)) by lra. rewrite fin_div by lra. rewrite fin_sqrt by lra.
        rewrite fin_mul, fin_div by lra. reflexivity. }
      assert (EM : map (fun v => ndiv (n:=NX) v (Fin U)) (F h') = F meas).
      { unfold meas. rewrite (F_map (fun v => v / U)); [reflexivity|]. intros v. rewrite fin_div by lra. reflexivity. }
      cbv beta. rewrite <- EX, <- EC, <- EM. reflexivity.
  Qed.
End Rayleigh.

(** ** C55 What the Rayleigh plot shows, after any call history *)

(** The x axis is scaled so that the j-th point stands for the exceedance probability (j+1)/n, the
    measured curve shows the j-th highest wave there, and the theoretical curve shows the height that
    the Rayleigh distribution with the measured Hs exceeds with probability (j+1)/(n+1). *)
Theorem C55_rayleigh_plot argsort (h t : list R) (calls : list (wh_call NX)) (Hs : R)
        BG (normalize : bool) (wd ct hm0 : NX) :
  is_argsort argsort -> h <> [] -> length h = length t ->
  let s := wh_run argsort calls (new_wh h t) in
  rmap fst (snd (wh_Hs argsort s)) = Ok (Fin Hs) -> 0 < Hs ->
  exists xs curve meas, drawn h Hs normalize xs curve meas
    /\ snd (wh_plot_Rayleigh argsort BG normalize false wd ct hm0 s) = Ok (F xs, F curve, F meas, None).
Proof.
  intros Ha Hne Hl s E P.
  destruct (drawn_data argsort Ha h t Hne Hl calls Hs E P BG normalize false wd ct hm0) as (xs & curve & meas & H & E').
  exists xs, curve, meas. split; [exact H|]. fold s in E'. rewrite E'. reflexivity.
Qed.
(** with plot_BG the Battjes-Groenendijk curve is added: same axis scaling, heights in the same unit *)
Theorem C55_battjes_groenendijk argsort (h t : list R) (calls : list (wh_call NX)) (Hs : R)
        BG (normalize : bool) (wd ct hm0 : NX) (hb pb : list R) :
  is_argsort argsort -> h <> [] -> length h = length t ->
  let s := wh_run argsort calls (new_wh h t) in
  rmap fst (snd (wh_Hs argsort s)) = Ok (Fin Hs) -> 0 < Hs ->
  hm0 <> Fin (-1) -> BG hm0 (length h) wd ct = Ok (F hb, F pb) -> (forall p, In p pb -> 0 < p <= 1) ->
  exists xs curve meas bx, drawn h Hs normalize xs curve meas
    /\ snd (wh_plot_Rayleigh argsort BG normalize true wd ct hm0 s)
       = Ok (F xs, F curve, F meas, Some (F bx, F (map (fun v => v / height_unit normalize Hs) hb)))
    /\ length bx = length pb
    /\ forall j, (j < length pb)%nat -> 0 <= nth j bx 0 /\ exp (- nth j bx 0 ^ 2) = nth j pb 0.
Proof.
  intros Ha Hne Hl s E P Hh EB Hp.
  destruct (drawn_data argsort Ha h t Hne Hl calls Hs E P BG normalize true wd ct hm0) as (xs & curve & meas & H & E').
  exists xs, curve, meas, (map (fun p => sqrt (- ln p)) pb). split; [exact H|].
  assert (PU : 0 < height_unit normalize Hs) by (unfold height_unit; destruct normalize; lra).
  assert (NL : forall p, In p pb -> 0 <= - ln p).
  { intros p Hi. assert (Z := ratio_ln p 1 ltac:(apply Hp; auto)). replace (p / 1) with p in Z by field. lra. }
  split; [|split].
  - fold s in E'. rewrite E'. destruct (neqb (n:=NX) hm0 (Fin (-1))) eqn:Eq.
    + exfalso. apply Hh. destruct hm0; cbn in Eq; try discriminate. f_equal. unfold Reqb in Eq.
      destruct (Req_EM_T _ _); [auto|discriminate].
    + rewrite EB. rewrite !bind_Ok. do 3 f_equal. f_equal.
      * unfold F. rewrite !map_map. apply map_ext_in. intros p Hi.
        rewrite fin_ln by (apply Hp; auto). rewrite fin_opp, fin_sqrt by auto. reflexivity.
      * rewrite (F_map (fun v => v / height_unit normalize Hs)); [reflexivity|]. intros v. rewrite fin_div by lra. reflexivity.
  - apply map_length.
  - intros j Hj. rewrite (nth_indep _ 0 (sqrt (- ln 0))) by (rewrite map_length; auto).
    rewrite (map_nth (fun p => sqrt (- ln p))). assert (I := nth_In pb 0 Hj). split; [apply sqrt_pos|].
    rewrite <- Rsqr_pow2, Rsqr_sqrt by auto. rewrite Ropp_involutive. apply exp_ln. apply Hp; auto.
Qed.
(** without Hm0 the request for that curve is an error *)
Theorem C55_hm0_required argsort (h t : list R) (calls : list (wh_call NX)) (Hs : R) BG (normalize : bool) (wd ct : NX) :
  is_argsort argsort -> h <> [] -> length h = length t ->
  let s := wh_run argsort calls (new_wh h t) in
  rmap fst (snd (wh_Hs argsort s)) = Ok (Fin Hs) -> 0 < Hs ->
  snd (wh_plot_Rayleigh argsort BG normalize true wd ct (Fin (-1)) s) = Raise ValueError.
Proof.
  intros Ha Hne Hl s E P.
  destruct (drawn_data argsort Ha h t Hne Hl calls Hs E P BG normalize true wd ct (Fin (-1))) as (xs & curve & meas & H & E').
  fold s in E'. rewrite E'. cbn [neqb NX xeqb]. unfold Reqb. destruct (Req_EM_T _ _); [reflexivity|lra].
Qed.
(** the two curves are not drawn on a common scale: the theoretical curve does not pass through the
    Rayleigh distribution at the x position where it is drawn *)
Theorem C55_common_scale_refuted :
  ~ (forall argsort (h t : list R) (Hs : R) BG (wd ct hm0 : NX) xs curve meas,
       is_argsort argsort -> h <> [] -> length h = length t ->
       rmap fst (snd (wh_Hs argsort (new_wh h t))) = Ok (Fin Hs) -> 0 < Hs ->
       snd (wh_plot_Rayleigh argsort BG false false wd ct hm0 (new_wh h t)) = Ok (F xs, F curve, F meas, None) ->
       forall j, (j < length h)%nat -> exp (- 2 * (nth j curve 0 / Hs) ^ 2) = exp (- nth j xs 0 ^ 2)).
Proof.
  intros C.
  assert (E : rmap fst (snd (wh_Hs stable_argsort (wh_run stable_argsort [] (new_wh [1; 3; 2] [7; 8; 9])))) = Ok (Fin 3)).
  { destruct (C14_answers_history_independent stable_argsort [1; 3; 2] [7; 8; 9] [@WHs NX] stable_argsort_is_argsort
                ltac:(discriminate) eq_refl) as (_ & _ & _ & _ & E & _).
    cbn [wh_run fold_left]. rewrite <- E. apply C50_witness. }
  destruct (C55_rayleigh_plot stable_argsort [1; 3; 2] [7; 8; 9] [] 3 (fun _ _ _ _ => Raise ValueError) false
              NaN NaN NaN stable_argsort_is_argsort ltac:(discriminate) eq_refl E ltac:(lra))
    as (xs & curve & meas & (hs & _ & _ & _ & _ & _ & H) & E').
  specialize (C stable_argsort [1; 3; 2] [7; 8; 9] 3 _ _ _ _ xs curve meas stable_argsort_is_argsort ltac:(discriminate) eq_refl E ltac:(lra) E' 2%nat ltac:(cbn; lia)).
  destruct (H 2%nat ltac:(cbn; lia)) as (_ & Hx & _ & _ & Hc). cbn [height_unit] in Hc.
  rewrite Rmult_1_r in Hc. rewrite Hc, Hx in C. cbn in C. lra.
Qed.
Example C55_witness : is_argsort stable_argsort /\ ([1; 3; 2] : list R) <> [] /\
  rmap fst (snd (wh_Hs stable_argsort (wh_run stable_argsort [@WHs NX] (new_wh [1; 3; 2] [7; 8; 9])))) = Ok (Fin 3)
  /\ 0 < 3.
Proof. split; [apply stable_argsort_is_argsort|]. split; [discriminate|]. split; [apply C50_witness|lra]. Qed.
