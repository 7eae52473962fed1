(** * Shape of the parametric spectra on a grid: C65 *)

From Coq Require Import Reals ZArith String List Bool Lra Lia.
From Coquelicot Require Import Coquelicot.
From Verif Require Import Num XR Spec XRFacts RSum Engine EngineProps FourierSpec TimeProps TimeProps3 SeriesProps FourierFacts BandProps
  WaveModel SpectrumModel SeriesModel SimpsonFacts MomentProps PeakProps ParamProps JonswapProps.
Import ListNotations.
Open Scope R_scope.

(** ** The shape rises up to fp and falls after it *)
Lemma lnw_decr a b : 1 <= a -> a < b -> ln b - b < ln a - a.
Proof.
  intros Ha Hb. assert (Pa : 0 < a) by lra. assert (Q : 1 < b / a).
  { apply (Rmult_lt_reg_r a); [lra|]. unfold Rdiv. rewrite Rmult_assoc, Rinv_l by lra. lra. }
  assert (L := ln_lt_sub1 (b / a) ltac:(lra) ltac:(lra)). rewrite ln_div in L by lra.
  assert (b / a - 1 <= b - a).
  { replace (b / a - 1) with ((b - a) / a) by (field; lra). apply (Rmult_le_reg_r a); [lra|]. unfold Rdiv. rewrite Rmult_assoc, Rinv_l by lra. nra. }
  lra.
Qed.
Lemma lnw_incr a b : 0 < a -> a < b -> b <= 1 -> ln a - a < ln b - b.
Proof.
  intros Ha Hb H1. assert (Q : 0 < a / b < 1).
  { split; [apply Rdiv_lt_0_compat; lra|]. apply (Rmult_lt_reg_r b); [lra|]. unfold Rdiv. rewrite Rmult_assoc, Rinv_l by lra. lra. }
  assert (L := ln_lt_sub1 (a / b) ltac:(lra) ltac:(lra)). rewrite ln_div in L by lra.
  assert (b - a <= 1 - a / b).
  { replace (1 - a / b) with ((b - a) / b) by (field; lra). apply (Rmult_le_reg_r b); [lra|]. unfold Rdiv. rewrite Rmult_assoc, Rinv_l by lra. nra. }
  lra.
Qed.
Lemma pm_log fp x : 0 < fp -> 0 < x -> pm_shape fp x = / fp ^ 5 * exp (5 / 4 * (ln ((fp / x) ^ 4) - (fp / x) ^ 4)).
Proof.
  intros Hf Hx. set (u := fp / x). assert (Hu : 0 < u) by (apply Rdiv_lt_0_compat; auto).
  unfold pm_shape. fold u. rewrite (ln_pow u 4 Hu). replace (5 / 4 * (INR 4 * ln u - u ^ 4)) with (5 * ln u + - (5 / 4) * u ^ 4) by (cbn [INR]; lra). rewrite exp_plus.
  replace (5 * ln u) with (INR 5 * ln u) by (cbn; ring). rewrite <- (ln_pow u 5 Hu), exp_ln by (apply pow_lt; auto).
  unfold u. field. lra.
Qed.
Lemma pow4_lt a b : 0 <= a -> a < b -> a ^ 4 < b ^ 4.
Proof. intros Ha Hb. assert (a * a < b * b) by nra. replace (a ^ 4) with ((a * a) * (a * a)) by ring. replace (b ^ 4) with ((b * b) * (b * b)) by ring. nra. Qed.
Lemma ratio_lt fp x y : 0 < fp -> 0 < x -> x < y -> fp / y < fp / x.
Proof. intros Hf Hx Hy. apply Rmult_lt_compat_l; auto. apply Rinv_lt_contravar; [nra|auto]. Qed.
Lemma pm_rising fp x y : 0 < x -> x < y -> y <= fp -> pm_shape fp x < pm_shape fp y.
Proof.
  intros Hx Hy Hf. rewrite !pm_log by lra. apply Rmult_lt_compat_l; [apply Rinv_0_lt_compat, pow_lt; lra|]. apply exp_increasing.
  apply Rmult_lt_compat_l; [lra|]. apply lnw_decr.
  - assert (1 <= fp / y) by (apply (Rmult_le_reg_r y); [lra|]; unfold Rdiv; rewrite Rmult_assoc, Rinv_l by lra; lra).
    replace 1 with (1 ^ 4) by ring. apply pow_incr. lra.
  - apply pow4_lt; [apply Rlt_le, Rdiv_lt_0_compat; lra|]. apply ratio_lt; lra.
Qed.
Lemma pm_falling fp x y : 0 < fp -> fp <= x -> x < y -> pm_shape fp y < pm_shape fp x.
Proof.
  intros Hf Hx Hy. rewrite !pm_log by lra. apply Rmult_lt_compat_l; [apply Rinv_0_lt_compat, pow_lt; lra|]. apply exp_increasing.
  apply Rmult_lt_compat_l; [lra|]. apply lnw_incr.
  - apply pow_lt, Rdiv_lt_0_compat; lra.
  - apply pow4_lt; [apply Rlt_le, Rdiv_lt_0_compat; lra|]. apply ratio_lt; lra.
  - assert (fp / x <= 1) by (apply (Rmult_le_reg_r x); [lra|]; unfold Rdiv; rewrite Rmult_assoc, Rinv_l by lra; lra).
    assert (0 < fp / x) by (apply Rdiv_lt_0_compat; lra). rewrite <- (pow1 4). apply pow_incr. lra.
Qed.
Lemma enh_mono g a b : 1 <= g -> a <= b -> Rpower g (exp a) <= Rpower g (exp b).
Proof.
  intros Hg Hab. unfold Rpower.
  assert (Lg : 0 <= ln g).
  { destruct (Req_dec g 1) as [->|]; [rewrite ln_1; lra|]. left. rewrite <- ln_1. apply ln_increasing; lra. }
  assert (exp a <= exp b) by (destruct Hab as [Q|Q]; [left; apply exp_increasing; auto|rewrite Q; lra]).
  assert (Q : exp a * ln g <= exp b * ln g) by (apply Rmult_le_compat_r; auto).
  destruct Q as [Q|Q]; [left; apply exp_increasing; auto|rewrite Q; lra].
Qed.
Lemma quot_le a b c : 0 < c -> a <= b -> a / c <= b / c.
Proof. intros Hc H. apply Rmult_le_compat_r; [left; apply Rinv_0_lt_compat; auto|auto]. Qed.
Lemma enh_rising fp g x y : 0 < fp -> 1 <= g -> x < y -> y <= fp -> peak_enhancement fp g x <= peak_enhancement fp g y.
Proof.
  intros Hf Hg Hx Hy. unfold peak_enhancement. destruct (Rlt_dec x fp); [|lra]. apply enh_mono; auto.
  destruct (Rlt_dec y fp).
  - apply quot_le; [lra|]. assert (x / fp <= y / fp) by (apply quot_le; lra).
    assert (y / fp <= 1) by (apply (Rmult_le_reg_r fp); [lra|]; unfold Rdiv; rewrite Rmult_assoc, Rinv_l by lra; lra). nra.
  - assert (y = fp) as -> by lra. replace (fp / fp) with 1 by (field; lra).
    replace (- (1 - 1) ^ 2 / (2 * (9 / 100) ^ 2)) with 0 by field.
    assert (0 <= (x / fp - 1) ^ 2) by apply pow2_ge_0.
    apply Rle_trans with (0 / (2 * (7 / 100) ^ 2)); [apply quot_le; lra|lra].
Qed.
Lemma enh_falling fp g x y : 0 < fp -> 1 <= g -> fp <= x -> x < y -> peak_enhancement fp g y <= peak_enhancement fp g x.
Proof.
  intros Hf Hg Hx Hy. unfold peak_enhancement. destruct (Rlt_dec x fp); [lra|]. destruct (Rlt_dec y fp); [lra|]. apply enh_mono; auto.
  apply quot_le; [lra|]. assert (x / fp <= y / fp) by (apply quot_le; lra).
  assert (1 <= x / fp) by (apply (Rmult_le_reg_r fp); [lra|]; unfold Rdiv; rewrite Rmult_assoc, Rinv_l by lra; lra). nra.
Qed.
Lemma enh_pos fp g x : 0 < peak_enhancement fp g x.
Proof. apply exp_pos. Qed.
Lemma jonswap_rising fp g x y : 0 < fp -> 1 <= g -> 0 < x -> x < y -> y <= fp -> jonswap_shape fp g x < jonswap_shape fp g y.
Proof.
  intros Hf Hg Hx Hy Hp. unfold jonswap_shape. assert (A := pm_rising fp x y Hx Hy Hp). assert (B := enh_rising fp g x y Hf Hg Hy Hp).
  assert (C := pm_pos fp x Hx). assert (D := enh_pos fp g y).
  apply Rle_lt_trans with (pm_shape fp x * peak_enhancement fp g y); [apply Rmult_le_compat_l; lra|apply Rmult_lt_compat_r; auto].
Qed.
Lemma jonswap_falling fp g x y : 0 < fp -> 1 <= g -> fp <= x -> x < y -> jonswap_shape fp g y < jonswap_shape fp g x.
Proof.
  intros Hf Hg Hx Hy. unfold jonswap_shape. assert (A := pm_falling fp x y Hf Hx Hy). assert (B := enh_falling fp g x y Hf Hg Hx Hy).
  assert (C := pm_pos fp y ltac:(lra)). assert (D := enh_pos fp g x).
  apply Rle_lt_trans with (pm_shape fp y * peak_enhancement fp g x); [apply Rmult_le_compat_l; lra|apply Rmult_lt_compat_r; auto].
Qed.

(** ** C65 *)
Section C65.
  Variables (f0 df fp g hm0 l : R) (n : nat) (hi : xr).
  Hypothesis H0 : 0 <= f0.
  Hypothesis Hd : 0 < df.
  Hypothesis Hn : (2 <= n)%nat.
  Hypothesis Hp : 0 < fp.
  Hypothesis Hg : 1 <= g.
  Hypothesis Hh : hm0 <> 0.
  Let f := axis f0 df n.
  Hypothesis He : 1 / 2 ^ 52 < last_of f.
  Hypothesis Hu : upper_of f l hi.
  Let Hg0 : 0 < g. Proof. lra. Qed.

  Lemma shape_values : exists K S, 0 < K /\ create_spectrum_jonswap (Arr (vec (F f))) (Fin fp) (Fin hm0) (Fin g) (Fin l) = Ok (F S)
    /\ length S = n /\ forall k, (k < n)%nat -> nth k S 0 = if Rlt_dec (1 / 2 ^ 52) (nth k f 0) then K * jonswap_shape fp g (nth k f 0) else 0.
  Proof.
    destruct (C37_energy f0 df fp g n H0 Hd Hn Hp Hg0 He hm0 l hi Hu) as (K & m0 & E & _ & PK & _). fold f in E.
    exists K. eexists. split; [auto|]. split; [exact E|]. assert (Lf : length f = n) by (unfold f; apply axis_length).
    split; [rewrite map_length; auto|]. intros k Hk.
    set (h := fun x => if Rlt_dec (1 / 2 ^ 52) x then K * jonswap_shape fp g x else 0).
    rewrite (nth_indep _ 0 (h 0)) by (rewrite map_length, Lf; auto). apply (map_nth h).
  Qed.

  (** one hump: the density rises up to the peak frequency and falls after it *)
  Theorem C65_single_peak :
    exists S, create_spectrum_jonswap (Arr (vec (F f))) (Fin fp) (Fin hm0) (Fin g) (Fin l) = Ok (F S) /\ length S = n
    /\ (forall j k, (j < k < n)%nat -> nth k f 0 <= fp -> 1 / 2 ^ 52 < nth k f 0 -> nth j S 0 < nth k S 0)
    /\ (forall j k, (j < k < n)%nat -> fp <= nth j f 0 -> 1 / 2 ^ 52 < nth j f 0 -> nth k S 0 < nth j S 0).
  Proof.
    destruct shape_values as (K & S & PK & E & L & V). exists S. split; [exact E|]. split; [exact L|].
    assert (Inc : increasing f) by (apply axis_increasing; auto). assert (Lf : length f = n) by (unfold f; apply axis_length).
    assert (Eps : 0 < 1 / 2 ^ 52) by (apply Rdiv_lt_0_compat; [lra|apply pow_lt; lra]).
    split; intros j k Hjk Hle Hpos; assert (A := Inc j k ltac:(lia)); rewrite !V by lia.
    - destruct (Rlt_dec _ (nth k f 0)) as [P|]; [|contradiction]. destruct (Rlt_dec _ (nth j f 0)) as [Q|Q].
      + apply Rmult_lt_compat_l; auto. apply jonswap_rising; auto; lra.
      + apply Rmult_lt_0_compat; auto. apply jonswap_pos. lra.
    - destruct (Rlt_dec _ (nth j f 0)) as [P|]; [|contradiction]. destruct (Rlt_dec _ (nth k f 0)) as [Q|Q]; [|lra].
      apply Rmult_lt_compat_l; auto. apply jonswap_falling; auto; lra.
  Qed.

  (** the reported peak period is that of one of the two frequencies around fp *)
  Theorem C65_peak_on_grid : 1 / 2 ^ 52 < fp -> nth 0 f 0 <= fp <= last_of f ->
    forall Sd, create_spectrum_jonswap (Arr (vec (F f))) (Fin fp) (Fin hm0) (Fin g) (Fin l) = Ok (F Sd) ->
    forall sp : spec NX, s_f sp = F f -> s_S sp = F Sd ->
    exists T, snd (get_Tp (Fin (-1)) (Fin (-1)) sp) = Ok (Fin T) /\ 0 < T /\ Rabs (/ T - fp) < df.
  Proof.
    intros Hfp Hin Sd ES sp Ef Es. destruct shape_values as (K & S' & PK & E & L & V).
    rewrite ES in E. apply Ok_inj, F_inj in E. subst S'.
    assert (Inc : increasing f) by (apply axis_increasing; auto). assert (Lf : length f = n) by (unfold f; apply axis_length).
    assert (Eps : 0 < 1 / 2 ^ 52) by (apply Rdiv_lt_0_compat; [lra|apply pow_lt; lra]).
    destruct (C35_default_limits f Sd sp Ef Es) as (k & Hk & Hmax & _ & ->); [apply axis_good; auto|lia|]. rewrite Lf in *.
    assert (Step : forall i, (S i < n)%nat -> nth (S i) f 0 = nth i f 0 + df).
    { intros i Hi. unfold f. rewrite !axis_nth by lia. rewrite S_INR. ring. }
    (* the maximum is positive *)
    assert (Pk : 1 / 2 ^ 52 < nth k f 0).
    { destruct (Rlt_dec (1 / 2 ^ 52) (nth k f 0)) as [P|P]; [auto|exfalso].
      assert (M := Hmax (n - 1)%nat ltac:(lia)). rewrite !V in M by lia. destruct (Rlt_dec _ (nth k f 0)); [contradiction|].
      unfold last_of in He. rewrite Lf in He. destruct (Rlt_dec _ (nth (n - 1) f 0)) as [Q|]; [|contradiction].
      assert (0 < K * jonswap_shape fp g (nth (n - 1) f 0)) by (apply Rmult_lt_0_compat; [auto|apply jonswap_pos; lra]). lra. }
    assert (Val : forall j, (j < n)%nat -> 1 / 2 ^ 52 < nth j f 0 -> jonswap_shape fp g (nth j f 0) <= jonswap_shape fp g (nth k f 0)).
    { intros j Hj Pj. assert (M := Hmax j Hj). rewrite !V in M by lia. destruct (Rlt_dec _ (nth k f 0)); [|contradiction].
      destruct (Rlt_dec _ (nth j f 0)); [|contradiction]. apply (Rmult_le_reg_l K); auto. }
    exists (/ nth k f 0). unfold recip. destruct (Req_EM_T (nth k f 0) 0); [lra|].
    split; [do 2 f_equal; unfold Rdiv; ring|]. split; [apply Rinv_0_lt_compat; lra|]. rewrite Rinv_inv.
    apply Rabs_def1.
    - (* fk < fp + df *)
      destruct (Rlt_le_dec (nth k f 0 - fp) df) as [|Q]; [auto|exfalso].
      destruct k as [|k]; [unfold f in Hin, Q; lra|]. rewrite (Step k) in * by lia.
      assert (M := Val k ltac:(lia) ltac:(lra)).
      assert (W := jonswap_falling fp g (nth k f 0) (nth k f 0 + df) Hp Hg ltac:(lra) ltac:(lra)). lra.
    - destruct (Rlt_le_dec (- df) (nth k f 0 - fp)) as [|Q]; [auto|exfalso].
      assert (Hk1 : (S k < n)%nat).
      { destruct (Nat.eq_dec (S k) n) as [E1|]; [|lia]. unfold last_of in Hin. rewrite Lf in Hin. replace (n - 1)%nat with k in Hin by lia. lra. }
      assert (M := Val (S k) Hk1). rewrite (Step k) in M by auto. specialize (M ltac:(lra)).
      assert (W := jonswap_rising fp g (nth k f 0) (nth k f 0 + df) Hp Hg ltac:(lra) ltac:(lra) ltac:(lra)). lra.
  Qed.

  (** twice the wave height is four times the density *)
  Theorem C65_height_scaling (a : R) : 
    exists S, create_spectrum_jonswap (Arr (vec (F f))) (Fin fp) (Fin hm0) (Fin g) (Fin l) = Ok (F S)
    /\ create_spectrum_jonswap (Arr (vec (F f))) (Fin fp) (Fin (a * hm0)) (Fin g) (Fin l) = Ok (F (map (fun s => a ^ 2 * s) S)).
  Proof.
    assert (Hf : freq_axis f) by (apply axis_freq; auto). assert (H2 := proj1 (proj1 Hf)).
    destruct (unscaled_moment_pos f0 df fp g n H0 Hd Hn Hp He l hi Hu) as (mu & Em & Pm). fold f in Em.
    assert (Q : 0 < sqrt mu) by (apply sqrt_lt_R0; auto).
    assert (V : forall h, create_spectrum_jonswap (Arr (vec (F f))) (Fin fp) (Fin h) (Fin g) (Fin l)
       = Ok (F (map (fun x => unscaled fp g x * (h / (4 * sqrt mu) * (h / (4 * sqrt mu)))) f))).
    { intros h. unfold create_spectrum_jonswap. rewrite vec_convert. cbn [fst snd]. rewrite F_length.
      replace (Nat.eqb (length f) 0) with false by (symmetry; apply Nat.eqb_neq; lia). change (Nat.ltb 1 0) with false.
      rewrite as_list_vec, bind_Ok, idx_F, bind_Ok by lia. fold (last_of f).
      match goal with |- context [bind (if neqb (n:=NX) (Fin l) n0 then ?a else ?b) _] =>
        assert (El : (if neqb (n:=NX) (Fin l) n0 then a else b) = Ok hi) end.
      { rewrite fin_0, fin_1, !fin_eqb. destruct Hu as [[-> ->]|[-> ->]].
        - rewrite Reqb_true by auto. reflexivity.
        - rewrite Reqb_false, Reqb_true by lra. reflexivity. }
      rewrite El, bind_Ok. rewrite idx_F, bind_Ok by lia.
      assert (Ed : map (jonswap_density (Fin fp : car NX) (Fin g)) (F f) = F (map (unscaled fp g) f)).
      { unfold F. rewrite !map_map. apply map_ext. intros x. apply density_F; auto. }
      cbv zeta. rewrite Ed, Em, bind_Ok. rewrite fin_sqrt, fin_ofZ, fin_mul by lra. rewrite fin_div, fin_mul by lra.
      f_equal. unfold F. rewrite !map_map. apply map_ext. intros x. reflexivity. }
    eexists. split; [apply V|]. rewrite V, map_map. do 2 f_equal. apply map_ext. intros x. field. lra.
  Qed.
  (** the Pierson-Moskowitz object is the JONSWAP object with the given peak enhancement *)
  Theorem C65_pierson_moskowitz_object :
    exists S sp, create_spectrum_piersonmoskowitz (Arr (vec (F f))) (Fin fp) (Fin hm0) (Fin g) (Fin l) = Ok (F S)
    /\ create_spectrum_object_piersonmoskowitz (Arr (vec (F f))) (Fin fp) (Fin hm0) (Fin g) (Fin l) = Ok sp
    /\ s_f sp = F f /\ s_S sp = F S
    /\ snd (get_Hm0 (Fin (-1)) hi sp) = Ok (Fin (Rabs hm0)).
  Proof.
    destruct (C37_object f0 df fp g n H0 Hd Hn Hp Hg0 He hm0 l hi Hu) as (S & sp & A & B & C). fold f in A, B, C.
    exists S, sp. split; [|split; [exact B|exact C]].
    rewrite (C38_is_jonswap (Arr (vec (F f))) (Fin fp) (Fin hm0) (Fin g) (Fin l) f); auto.
    - constructor.
    - intros Q. assert (Lf : length f = n) by (unfold f; apply axis_length). rewrite Q in Lf. cbn in Lf. lia.
  Qed.
End C65.
Example C65_witness : let f := axis 0 (1/10) 21 in 1 / 2 ^ 52 < last_of f /\ upper_of f 1 PInf /\ 1 / 2 ^ 52 < 1/3
  /\ nth 0 f 0 <= 1/3 <= last_of f /\ 1 <= 33/10.
Proof.
  cbv zeta. assert (P : 1 / 2 ^ 52 < 1/4) by lra.
  assert (La : last_of (axis 0 (1/10) 21) = 2) by (unfold last_of; rewrite axis_length, axis_nth by lia; cbn [Nat.sub INR]; lra).
  rewrite La, axis_nth by lia. cbn [INR]. repeat split; try lra. right; auto.
Qed.
