(** * Parametric spectra: C37 (JONSWAP), C38 (Pierson-Moskowitz), C39 (TpD) *)

From Coq Require Import Reals ZArith String List Bool Lra Lia.
From Coquelicot Require Import Coquelicot.
From Verif Require Import Num XR Spec XRFacts RSum Engine EngineProps FourierSpec TimeProps TimeProps3 SeriesProps FourierFacts BandProps
  WaveModel SpectrumModel SeriesModel SimpsonFacts MomentProps PeakProps ParamProps.
Import ListNotations.
Open Scope R_scope.

(** ** Specification: the JONSWAP shape (Hasselmann et al. 1973), without energy scale *)
Definition pm_shape (fp x : R) : R := / x ^ 5 * exp (- (5 / 4) * (fp / x) ^ 4).
Definition peak_enhancement (fp gamma x : R) : R :=
  let sigma := if Rlt_dec x fp then 7 / 100 else 9 / 100 in
  Rpower gamma (exp (- (x / fp - 1) ^ 2 / (2 * sigma ^ 2))).
Definition jonswap_shape (fp gamma x : R) : R := pm_shape fp x * peak_enhancement fp gamma x.

Lemma pm_pos fp x : 0 < x -> 0 < pm_shape fp x.
Proof. intros H. apply Rmult_lt_0_compat; [apply Rinv_0_lt_compat, pow_lt; auto|apply exp_pos]. Qed.
Lemma jonswap_pos fp g x : 0 < x -> 0 < jonswap_shape fp g x.
Proof. intros H. apply Rmult_lt_0_compat; [apply pm_pos; auto|apply exp_pos]. Qed.

(** the maximum of the shape is at fp *)
Lemma ln_lt_sub1 u : 0 < u -> u <> 1 -> ln u < u - 1.
Proof.
  intros H N. assert (ln u <> 0).
  { intros E. apply N. rewrite <- (exp_ln u H), E. apply exp_0. }
  assert (A := exp_ineq1 (ln u) H0). rewrite exp_ln in A by auto. lra.
Qed.
Lemma pm_max fp x : 0 < fp -> 0 < x -> x <> fp -> pm_shape fp x < pm_shape fp fp.
Proof.
  intros Hf Hx N. set (u := fp / x).
  assert (Hu : 0 < u) by (apply Rdiv_lt_0_compat; auto).
  assert (Nu : u <> 1). { intros E. apply N. unfold u in E. apply (f_equal (fun q => q * x)) in E. unfold Rdiv in E.
    rewrite Rmult_assoc, Rinv_l in E by lra. lra. }
  assert (E : pm_shape fp x = / fp ^ 5 * exp (5 * ln u - 5 / 4 * u ^ 4)).
  { unfold pm_shape. fold u. replace (5 * ln u - 5 / 4 * u ^ 4) with (5 * ln u + - (5 / 4) * u ^ 4) by ring. rewrite exp_plus.
    replace (5 * ln u) with (INR 5 * ln u) by (cbn; ring). rewrite <- (ln_pow u 5 Hu), exp_ln by (apply pow_lt; auto).
    unfold u. field. lra. }
  assert (E1 : pm_shape fp fp = / fp ^ 5 * exp (- (5 / 4))).
  { unfold pm_shape. replace (fp / fp) with 1 by (field; lra). f_equal. f_equal. ring. }
  rewrite E, E1. apply Rmult_lt_compat_l; [apply Rinv_0_lt_compat, pow_lt; auto|]. apply exp_increasing.
  assert (P4 : 0 < u ^ 4) by (apply pow_lt; auto).
  assert (N4 : u ^ 4 <> 1).
  { intros Q. destruct (Rlt_le_dec u 1) as [L|L].
    - assert (u * u < 1) by nra. assert (u ^ 4 = (u * u) * (u * u)) by ring. assert (0 < u * u) by nra. nra.
    - assert (1 < u) by lra. assert (1 < u * u) by nra. assert (u ^ 4 = (u * u) * (u * u)) by ring. nra. }
  assert (L := ln_lt_sub1 (u ^ 4) P4 N4). rewrite (ln_pow u 4 Hu) in L. cbn [INR] in L. lra.
Qed.
Lemma enhancement_max fp g x : 0 < fp -> 1 <= g -> 0 < x -> peak_enhancement fp g x <= peak_enhancement fp g fp.
Proof.
  intros Hf Hg Hx. unfold peak_enhancement. unfold Rpower.
  assert (Lg : 0 <= ln g).
  { destruct (Req_dec g 1) as [->|]; [rewrite ln_1; lra|]. left. rewrite <- ln_1. apply ln_increasing; lra. }
  assert (Hle : forall s, 0 < s -> exp (- (x / fp - 1) ^ 2 / (2 * s ^ 2)) <= 1).
  { intros s Hs. apply Rle_trans with (exp 0); [|rewrite exp_0; lra]. assert (Q : - (x / fp - 1) ^ 2 / (2 * s ^ 2) <= 0).
    { assert (0 < 2 * s ^ 2) by (assert (0 < s ^ 2) by (apply pow_lt; auto); lra).
      assert (0 <= (x / fp - 1) ^ 2) by apply pow2_ge_0.
      apply Rmult_le_reg_r with (2 * s ^ 2); [auto|]. unfold Rdiv. rewrite Rmult_assoc, Rinv_l by lra. lra. }
    destruct Q as [Q|Q]; [left; apply exp_increasing; auto|rewrite Q; lra]. }
  assert (E1 : (fp / fp - 1) = 0) by (field; lra).
  destruct (Rlt_dec fp fp); [lra|]. rewrite E1. replace (- 0 ^ 2 / (2 * (9 / 100) ^ 2)) with 0 by field. rewrite exp_0.
  assert (Q : exp (- (x / fp - 1) ^ 2 / (2 * (if Rlt_dec x fp then 7 / 100 else 9 / 100) ^ 2)) <= 1)
    by (apply Hle; destruct (Rlt_dec x fp); lra).
  set (e := exp (- (x / fp - 1) ^ 2 / (2 * (if Rlt_dec x fp then 7 / 100 else 9 / 100) ^ 2))) in *.
  assert (e * ln g <= 1 * ln g) by (apply Rmult_le_compat_r; auto).
  destruct H as [H|H]; [left; apply exp_increasing; auto|rewrite H; lra].
Qed.
Lemma jonswap_max fp g x : 0 < fp -> 1 <= g -> 0 < x -> x <> fp -> jonswap_shape fp g x < jonswap_shape fp g fp.
Proof.
  intros Hf Hg Hx N. unfold jonswap_shape. assert (A := pm_max fp x Hf Hx N). assert (B := enhancement_max fp g x Hf Hg Hx).
  assert (C := pm_pos fp x Hx). assert (D : 0 < peak_enhancement fp g fp) by apply exp_pos.
  apply Rle_lt_trans with (pm_shape fp x * peak_enhancement fp g fp); [apply Rmult_le_compat_l; lra|apply Rmult_lt_compat_r; auto].
Qed.

(** ** The code computes C * shape *)
Definition Jc : R := 981 / 100 * (981 / 100) * / (2 * PI) ^ 4.
Lemma Jc_pos : 0 < Jc.
Proof. unfold Jc. assert (0 < 2 * PI) by (assert (P := PI_RGT_0); lra). apply Rmult_lt_0_compat; [lra|]. apply Rinv_0_lt_compat, pow_lt; auto. Qed.
Definition unscaled (fp g x : R) : R := if Rlt_dec (1 / 2 ^ 52) x then Jc * jonswap_shape fp g x else 0.

Lemma density_F fp g x : 0 < fp -> 0 < g -> jonswap_density (N:=NX) (Fin fp) (Fin g) (Fin x) = Fin (unscaled fp g x).
Proof.
  intros Hf Hg. unfold jonswap_density, unscaled. unfold spacing1.
  assert (P52 : IZR (2 ^ 52) = 2 ^ 52) by (rewrite pow_IZR; reflexivity).
  rewrite fin_lit by (rewrite P52; apply pow_nonzero; lra). rewrite P52, fin_ltb.
  destruct (Rltb_spec (1 / 2 ^ 52) x) as [H|H]; destruct (Rlt_dec (1 / 2 ^ 52) x); try lra; [|reflexivity].
  assert (Px : 0 < x) by (assert (0 < 1 / 2 ^ 52) by (apply Rdiv_lt_0_compat; [lra|apply pow_lt; lra]); lra).
  rewrite fin_div by lra. cbv zeta.
  set (sg := if Rlt_dec x fp then 7 / 100 else 9 / 100).
  assert (Es : (if nltb (n:=NX) (Fin x) (Fin fp) then lit 7 100 else lit 9 100) = Fin sg).
  { unfold sg. rewrite fin_ltb. destruct (Rltb_spec x fp), (Rlt_dec x fp); try lra; apply fin_lit; lra. }
  rewrite Es. assert (Ps : 0 < sg) by (unfold sg; destruct (Rlt_dec x fp); lra).
  assert (P2 : 2 * (sg * sg) <> 0) by nra.
  rewrite fin_1, fin_sub, !fin_mul, fin_opp, fin_ofZ, fin_mul, fin_div, fin_exp, fin_pow by auto.
  assert (Ec : jonswap_C (N:=NX) = Fin Jc).
  { unfold jonswap_C. rewrite fin_1, fin_lit, fin_pi, fin_ofZ, !fin_mul, npowi_F by (lra || (left; assert (P := PI_RGT_0); lra)).
    rewrite fin_mul. unfold Jc. f_equal. change (powerRZ (2 * PI) (-4)) with (/ (2 * PI) ^ 4). ring. }
  rewrite Ec. assert (Pr : 0 < x / fp) by (apply Rdiv_lt_0_compat; auto).
  rewrite !npowi_F by (left; lra). rewrite fin_lit, !fin_mul, fin_exp, !fin_mul by lra. f_equal.
  unfold jonswap_shape, pm_shape, peak_enhancement. fold sg.
  change (powerRZ x (-5)) with (/ x ^ 5). change (powerRZ (x / fp) (-4)) with (/ (x / fp) ^ 4).
  replace (- (x / fp - 1) ^ 2 / (2 * sg ^ 2)) with (- ((x / fp - 1) * (x / fp - 1)) / (2 * (sg * sg))) by (field; lra).
  replace (- (5 / 4) * (fp / x) ^ 4) with (-125 / 100 * / (x / fp) ^ 4) by (field; lra). ring.
Qed.

(** integration limits: [f0, f_end] for l_fmax = 0, [f0, inf) for l_fmax = 1 *)
Definition upper_of (f : list R) (l : R) (hi : xr) : Prop := (l = 0 /\ hi = Fin (last_of f)) \/ (l = 1 /\ hi = PInf).

Lemma moment_map_scale f s m lo hi c v : freq_axis f -> length s = length f ->
  moment f s m lo hi = Ok (Fin v) -> moment f (map (fun x => x * c) s) m lo hi = Ok (Fin (c * v)).
Proof.
  intros Hf Hl E. assert (L := C32_linear f s s m c 0 lo hi v v Hf Hl Hl E E).
  replace (map2 (fun x y => c * x + 0 * y) s s) with (map (fun x => x * c) s) in L; [rewrite L; do 2 f_equal; ring|].
  apply (nth_ext' _ _ 0); [rewrite map2_length, map_length; lia|]. intros k Hk. rewrite map_length in Hk.
  rewrite (map2_nth _ _ _ _ 0 0 0) by auto. rewrite (nth_indep _ 0 ((fun x => x * c) 0)) by (rewrite map_length; auto).
  rewrite (map_nth (fun x => x * c)). ring.
Qed.

(** general accepted axis: the scaling works whenever the integral of the shape is positive *)
Theorem C37_energy_general (f : list R) (fp hm0 g l mu : R) (hi : xr) :
  freq_axis f -> 0 < fp -> 0 < g -> upper_of f l hi ->
  moment f (map (unscaled fp g) f) 0 (Fin (nth 0 f 0)) hi = Ok (Fin mu) -> 0 < mu ->
  exists K m0, create_spectrum_jonswap (Arr (vec (F f))) (Fin fp) (Fin hm0) (Fin g) (Fin l)
     = Ok (F (map (fun x => if Rlt_dec (1 / 2 ^ 52) x then K * jonswap_shape fp g x else 0) f))
  /\ 0 <= K /\ (hm0 <> 0 -> 0 < K)
  /\ moment f (map (fun x => if Rlt_dec (1 / 2 ^ 52) x then K * jonswap_shape fp g x else 0) f) 0 (Fin (nth 0 f 0)) hi = Ok (Fin m0)
  /\ 4 * sqrt m0 = Rabs hm0.
Proof.
  intros Hf Hp Hg Hu Em Pm. assert (H2 := proj1 (proj1 Hf)).
  assert (Lm : length (map (unscaled fp g) f) = length f) by apply map_length.
  unfold create_spectrum_jonswap. rewrite vec_convert. cbn [fst snd]. rewrite F_length.
  replace (Nat.eqb (length f) 0) with false by (symmetry; apply Nat.eqb_neq; lia). change (Nat.ltb 1 0) with false.
  rewrite as_list_vec, bind_Ok, idx_F, bind_Ok by lia. fold (last_of f).
  match goal with |- context [bind (if neqb (n:=NX) (Fin l) n0 then ?a else ?b) _] =>
    assert (El : (if neqb (n:=NX) (Fin l) n0 then a else b) = Ok hi) end.
  { rewrite fin_0, fin_1, !fin_eqb. destruct Hu as [[-> ->]|[-> ->]].
    - rewrite Reqb_true by auto. reflexivity.
    - rewrite Reqb_false, Reqb_true by lra. reflexivity. }
  rewrite El, bind_Ok. rewrite idx_F, bind_Ok by lia.
  assert (Ed : map (jonswap_density (Fin fp : car NX) (Fin g)) (F f) = F (map (unscaled fp g) f)).
  { unfold F. rewrite !map_map. apply map_ext. intros x. apply density_F; auto. }
  cbv zeta. rewrite Ed, Em, bind_Ok. rewrite fin_sqrt, fin_ofZ, fin_mul by lra.
  assert (Ps : 0 < sqrt mu) by (apply sqrt_lt_R0; auto). rewrite fin_div, fin_mul by lra.
  set (r := hm0 / (4 * sqrt mu)). set (K := Jc * (r * r)).
  assert (Es : map (fun x => if Rlt_dec (1 / 2 ^ 52) x then K * jonswap_shape fp g x else 0) f = map (fun x => x * (r * r)) (map (unscaled fp g) f)).
  { rewrite map_map. apply map_ext. intros x. unfold unscaled, K. destruct (Rlt_dec _ x); ring. }
  assert (J := Jc_pos). assert (R2 : 0 <= r * r) by nra.
  exists K, (r * r * mu). rewrite Es. split; [|split; [|split; [|split]]].
  - f_equal. unfold F. rewrite !map_map. apply map_ext. intros x. reflexivity.
  - unfold K. apply Rmult_le_pos; lra.
  - intros N. unfold K. apply Rmult_lt_0_compat; auto. assert (r <> 0); [|nra]. unfold r. apply Rmult_integral_contrapositive. split; auto.
    apply Rinv_neq_0_compat. lra.
  - apply moment_map_scale; auto.
  - replace (r * r * mu) with (Rsqr r * mu) by reflexivity. rewrite sqrt_mult by (try apply Rle_0_sqr; lra). rewrite sqrt_Rsqr_abs.
    unfold r. unfold Rdiv. rewrite Rabs_mult, (Rabs_inv (4 * sqrt mu)), (Rabs_pos_eq (4 * sqrt mu)) by lra. field. lra.
Qed.

Section Uniform.
  Variables (f0 df fp g : R) (n : nat).
  Hypothesis H0 : 0 <= f0.
  Hypothesis Hd : 0 < df.
  Hypothesis Hn : (2 <= n)%nat.
  Hypothesis Hp : 0 < fp.
  Hypothesis Hg : 0 < g.
  Let f := axis f0 df n.
  Hypothesis He : 1 / 2 ^ 52 < last_of f.

  Lemma unscaled_nonneg x : 0 <= unscaled fp g x.
  Proof using Hp. clear He f.
    unfold unscaled. destruct (Rlt_dec _ x); [|lra]. assert (0 < 1 / 2 ^ 52) by (apply Rdiv_lt_0_compat; [lra|apply pow_lt; lra]).
    assert (A := jonswap_pos fp g x ltac:(lra)). assert (B := Jc_pos). nra.
  Qed.
  Lemma unscaled_moment_pos l hi : upper_of f l hi ->
    exists mu, moment f (map (unscaled fp g) f) 0 (Fin (nth 0 f 0)) hi = Ok (Fin mu) /\ 0 < mu.
  Proof.
    intros Hu. assert (Hf : freq_axis f) by (apply axis_freq; auto). set (s := map (unscaled fp g) f).
    assert (Ls : length s = length f) by apply map_length. assert (Lf : length f = n) by (unfold f; apply axis_length).
    assert (Hs : forall k, (k < length s)%nat -> nth k s 0 = unscaled fp g (nth k f 0)).
    { intros k Hk. unfold s. rewrite (nth_indep _ 0 (unscaled fp g 0)) by (rewrite Ls in Hk; rewrite map_length; auto). apply map_nth. }
    assert (Hpos : forall k, (k < length s)%nat -> 0 <= nth k s 0) by (intros k Hk; rewrite Hs by auto; apply unscaled_nonneg).
    destruct (fq_last f 0 Hf) as [_ Pl]. assert (Z0 := proj2 Hf).
    assert (N1 : nth 0 f 0 <> -1) by lra.
    (* body *)
    assert (Body : exists b, moment f s 0 (Fin (nth 0 f 0)) (Fin (last_of f)) = Ok (Fin b) /\ 0 < b).
    { rewrite <- (proj1 (C32_default_limits f s 0 (Fin (-1)) Hf Ls)), moment_all by auto. eexists. split; [reflexivity|].
      assert (W : without_zero 0 f f = f) by reflexivity. rewrite W.
      assert (Lg : length (weighted 0 f s) = n) by (rewrite g_length, W; auto).
      assert (Gk : forall k, (k < n)%nat -> nth k (weighted 0 f s) 0 = unscaled fp g (nth k f 0)).
      { intros k Hk. rewrite g_nth by (auto; rewrite W; lia). change (without_zero 0 f s) with s. rewrite Hs by lia. cbn. ring. }
      unfold f at 1. rewrite <- Lg. apply Rlt_le_trans with (df / 3 * nth (n - 1) (weighted 0 f s) 0).
      - rewrite Gk by lia. replace (n - 1)%nat with (length f - 1)%nat by lia. fold (last_of f). unfold unscaled.
        destruct (Rlt_dec _ (last_of f)); [|contradiction]. assert (A := jonswap_pos fp g (last_of f) Pl). assert (B := Jc_pos).
        apply Rmult_lt_0_compat; [lra|nra].
      - apply rsimp_lower; auto; try lia. intros k Hk. rewrite Gk by lia. apply unscaled_nonneg. }
    destruct Body as (b & Eb & Pb). destruct Hu as [[_ ->]|[_ ->]]; [eauto|].
    destruct (C33_tail_infinite f s 0 (nth 0 f 0) Hf Ls N1) as (b' & Eb' & Et & _); [lia|].
    rewrite Eb in Eb'. apply Ok_inj, fin_inj in Eb'. subst b'. eexists. split; [exact Et|].
    assert (0 <= last_of s * powerRZ (last_of f) (0 + 1) / IZR (4 - 0)).
    { apply Rmult_le_pos; [apply Rmult_le_pos|]; [apply Hpos; lia|apply powerRZ_le; auto|]. cbn. lra. }
    lra.
  Qed.

  (** the spectrum carries the requested wave height *)
  Theorem C37_energy (hm0 l : R) (hi : xr) : upper_of f l hi ->
    exists K m0, create_spectrum_jonswap (Arr (vec (F f))) (Fin fp) (Fin hm0) (Fin g) (Fin l)
       = Ok (F (map (fun x => if Rlt_dec (1 / 2 ^ 52) x then K * jonswap_shape fp g x else 0) f))
    /\ 0 <= K /\ (hm0 <> 0 -> 0 < K)
    /\ moment f (map (fun x => if Rlt_dec (1 / 2 ^ 52) x then K * jonswap_shape fp g x else 0) f) 0 (Fin (nth 0 f 0)) hi = Ok (Fin m0)
    /\ 4 * sqrt m0 = Rabs hm0.
  Proof.
    intros Hu. destruct (unscaled_moment_pos l hi Hu) as (mu & E & P).
    apply (C37_energy_general f fp hm0 g l mu hi); auto. apply axis_freq; auto.
  Qed.

  (** no frequency carries more density than fp; if fp is on the axis, it is the only maximum and Tp = 1/fp *)
  Theorem C37_peak (hm0 l : R) (hi : xr) : upper_of f l hi -> 1 <= g -> hm0 <> 0 ->
    exists S top, create_spectrum_jonswap (Arr (vec (F f))) (Fin fp) (Fin hm0) (Fin g) (Fin l) = Ok (F S)
    /\ length S = n /\ 0 < top
    /\ (forall k, (k < n)%nat -> 0 <= nth k S 0 <= top)
    /\ (forall k, (k < n)%nat -> nth k f 0 <= 1 / 2 ^ 52 -> nth k S 0 = 0)
    /\ (forall j, (j < n)%nat -> nth j f 0 = fp -> 1 / 2 ^ 52 < fp ->
          nth j S 0 = top /\ (forall k, (k < n)%nat -> k <> j -> nth k S 0 < nth j S 0)
          /\ forall sp : spec NX, s_f sp = F f -> s_S sp = F S -> snd (get_Tp (Fin (-1)) (Fin (-1)) sp) = Ok (Fin (1 / fp))).
  Proof.
    intros Hu Hg1 Nh. destruct (C37_energy hm0 l hi Hu) as (K & m0 & E & _ & PK & _). specialize (PK Nh).
    set (h := fun x => if Rlt_dec (1 / 2 ^ 52) x then K * jonswap_shape fp g x else 0) in *. set (S := map h f) in *.
    assert (Lf : length f = n) by (unfold f; apply axis_length).
    assert (LS : length S = n) by (unfold S; rewrite map_length; auto).
    assert (NS : forall k, (k < n)%nat -> nth k S 0 = h (nth k f 0)).
    { intros k Hk. unfold S. rewrite (nth_indep _ 0 (h 0)) by (rewrite map_length, Lf; auto). apply map_nth. }
    assert (Eps : 0 < 1 / 2 ^ 52) by (apply Rdiv_lt_0_compat; [lra|apply pow_lt; lra]).
    assert (Jf := jonswap_pos fp g fp Hp).
    exists S, (K * jonswap_shape fp g fp). split; [exact E|]. split; [auto|]. split; [nra|]. split; [|split].
    - intros k Hk. rewrite NS by auto. unfold h. destruct (Rlt_dec (1 / 2 ^ 52) (nth k f 0)) as [L|L]; [|nra].
      assert (A := jonswap_pos fp g (nth k f 0) ltac:(lra)). split; [nra|]. apply Rmult_le_compat_l; [lra|].
      destruct (Req_dec (nth k f 0) fp) as [->|N]; [lra|]. left. apply jonswap_max; auto; lra.
    - intros k Hk L. rewrite NS by auto. unfold h. destruct (Rlt_dec (1 / 2 ^ 52) (nth k f 0)); [lra|reflexivity].
    - intros j Hj Ej L. assert (Vj : nth j S 0 = K * jonswap_shape fp g fp).
      { rewrite NS by auto. unfold h. rewrite Ej. destruct (Rlt_dec (1 / 2 ^ 52) fp); [reflexivity|lra]. }
      assert (Inc : increasing f) by (apply axis_increasing; auto).
      assert (Strict : forall k, (k < n)%nat -> k <> j -> nth k S 0 < nth j S 0).
      { intros k Hk Nk. rewrite Vj, NS by auto. unfold h. destruct (Rlt_dec (1 / 2 ^ 52) (nth k f 0)) as [L'|L']; [|nra].
        apply Rmult_lt_compat_l; auto. apply jonswap_max; auto; [lra|]. rewrite <- Ej. intros Q.
        destruct (Nat.lt_total k j) as [L2|[L2|L2]]; [|contradiction|].
        - assert (A := Inc k j ltac:(lia)). lra.
        - assert (A := Inc j k ltac:(lia)). lra. }
      split; [exact Vj|]. split; [exact Strict|]. intros sp Ef Es.
      destruct (C35_default_limits f S sp Ef Es) as (k & Hk & Hmax & _ & ->); [apply axis_good; auto|lia|].
      assert (k = j) as ->.
      { destruct (Nat.eq_dec k j); [auto|]. specialize (Hmax j ltac:(lia)). specialize (Strict k ltac:(lia) n0). lra. }
      rewrite Ej. unfold recip. destruct (Req_EM_T fp 0); [lra|reflexivity].
  Qed.

  (** the Spectrum object: its Hm0 over the agreed range is the requested wave height *)
  Theorem C37_object (hm0 l : R) (hi : xr) : upper_of f l hi ->
    exists S sp, create_spectrum_jonswap (Arr (vec (F f))) (Fin fp) (Fin hm0) (Fin g) (Fin l) = Ok (F S)
    /\ create_spectrum_object_jonswap (Arr (vec (F f))) (Fin fp) (Fin hm0) (Fin g) (Fin l) = Ok sp
    /\ s_f sp = F f /\ s_S sp = F S
    /\ snd (get_Hm0 (Fin (-1)) hi sp) = Ok (Fin (Rabs hm0)).
  Proof.
    intros Hu. destruct (C37_energy hm0 l hi Hu) as (K & m0 & E & HK & _ & Em & Eh).
    set (S := map (fun x => if Rlt_dec (1 / 2 ^ 52) x then K * jonswap_shape fp g x else 0) f) in *.
    assert (Hf : freq_axis f) by (apply axis_freq; auto).
    assert (Lf : length f = n) by (unfold f; apply axis_length).
    assert (LS : length S = length f) by apply map_length.
    exists S, (fresh (N:=NX) (F f) (F S)). split; [exact E|]. split; [|split; [reflexivity|split; [reflexivity|]]].
    - unfold create_spectrum_object_jonswap. rewrite E, bind_Ok. unfold spectrum_init. rewrite !vec_convert. cbn [fst snd].
      rewrite as_list_vec, bind_Ok, good_mono, bind_Ok by apply Hf. cbn [negb]. rewrite !F_length, LS, Nat.eqb_refl. cbn [negb].
      rewrite as_list_vec, bind_Ok. reflexivity.
    - unfold get_Hm0. rewrite (getter_value v_Hm0 _ _ _ (fresh (N:=NX) (F f) (F S)) f S) by reflexivity. unfold v_Hm0.
      rewrite (set_flim_F f (Fin (-1)) hi (Fin (nth 0 f 0)) hi).
      + rewrite bind_Ok. unfold v_moment. rewrite Em, bind_Ok.
        assert (Pm : 0 <= m0).
        { apply (moment_nonneg f0 df S 0 (nth 0 f 0) hi); auto; try lia; rewrite ?LS, ?Lf; auto.
          - intros k Hk. unfold S. destruct (Nat.lt_ge_cases k n).
            + rewrite (nth_indep _ 0 ((fun x => if Rlt_dec (1 / 2 ^ 52) x then K * jonswap_shape fp g x else 0) 0)) by (rewrite map_length; lia).
              rewrite (map_nth (fun x => if Rlt_dec (1 / 2 ^ 52) x then K * jonswap_shape fp g x else 0)). cbv beta.
              destruct (Rlt_dec _ (nth k f 0)) as [L|]; [|lra].
              assert (0 < 1 / 2 ^ 52) by (apply Rdiv_lt_0_compat; [lra|apply pow_lt; lra]).
              assert (A := jonswap_pos fp g (nth k f 0) ltac:(lra)).
              nra.
            + lia.
          - destruct Hf. lra.
          - destruct Hu as [[_ ->]|[_ ->]]; [|discriminate]. intros Q. apply fin_inj in Q. destruct (fq_last f 0 Hf). lra.
          - destruct Hu as [[_ ->]|[_ ->]]; [|exact I]. cbn. destruct (fq_last f 0 Hf) as [_ P]. apply inc_le; [apply good_increasing, Hf|lia]. }
        rewrite fin_sqrt, fin_ofZ, fin_mul, Eh by auto. reflexivity.
      + intros Q. rewrite Q in Lf. cbn in Lf. lia.
      + left. auto.
      + right. split; [|auto]. destruct Hu as [[_ ->]|[_ ->]]; [|discriminate]. intros Q. apply fin_inj in Q. destruct (fq_last f 0 Hf). lra.
  Qed.
End Uniform.

(** any other l_fmax is rejected *)
Theorem C37_l_fmax (f : list R) (fp hm0 g l : xr) : f <> [] -> l <> Fin 0 -> l <> Fin 1 ->
  create_spectrum_jonswap (N:=NX) (Arr (vec (F f))) fp hm0 g l = Raise ValueError.
Proof.
  intros Hf N0 N1. unfold create_spectrum_jonswap. rewrite vec_convert. cbn [fst snd]. rewrite F_length.
  assert (L : (0 < length f)%nat) by (destruct f; [contradiction|cbn; lia]).
  replace (Nat.eqb (length f) 0) with false by (symmetry; apply Nat.eqb_neq; lia). change (Nat.ltb 1 0) with false.
  rewrite as_list_vec, bind_Ok, idx_F, bind_Ok by lia.
  assert (Q : forall v, l <> Fin v -> neqb (n:=NX) l (Fin v) = false).
  { intros v N. destruct l as [r| | |]; try reflexivity. rewrite fin_eqb, Reqb_false; [reflexivity|]. intros ->. auto. }
  rewrite fin_0, fin_1, !Q by auto. reflexivity.
Qed.
Theorem C37_empty_axis (fp hm0 g l : xr) : create_spectrum_jonswap (N:=NX) (Arr (vec [])) fp hm0 g l = Raise ValueError.
Proof. reflexivity. Qed.
Example C37_witness : 1 / 2 ^ 52 < last_of (axis 0 (1/10) 21) /\ upper_of (axis 0 (1/10) 21) 1 PInf
  /\ nth 5 (axis 0 (1/10) 21) 0 = 1 / 2 /\ (1 <= 33 / 10).
Proof.
  assert (P : 1 / 2 ^ 52 < 1) by lra.
  split; [unfold last_of; rewrite axis_length, axis_nth by lia; cbn [Nat.sub INR]; lra|].
  split; [right; auto|]. split; [rewrite axis_nth by lia; cbn [INR]; field|lra].
Qed.

(** ** C38 *)

(** Pierson-Moskowitz is the JONSWAP function with peak enhancement 1 (the default) *)
Theorem C38_is_jonswap (f : arraylike xr) (fp hm0 g l : xr) (v : list R) : holds_vector (F v) f -> v <> [] ->
  create_spectrum_piersonmoskowitz (N:=NX) f fp hm0 g l = create_spectrum_jonswap (N:=NX) (Arr (vec (F v))) fp hm0 g l.
Proof.
  intros Hv Hn. unfold create_spectrum_piersonmoskowitz. destruct (hv_convert (F v) f (F_ne _ Hn) Hv) as (k & _ & E). rewrite E. reflexivity.
Qed.
Theorem C38_shape (f0 df fp hm0 l : R) (n : nat) (hi : xr) :
  let f := axis f0 df n in
  0 <= f0 -> 0 < df -> (2 <= n)%nat -> 0 < fp -> 1 / 2 ^ 52 < last_of f -> upper_of f l hi ->
  exists K m0, create_spectrum_piersonmoskowitz (Arr (vec (F f))) (Fin fp) (Fin hm0) (Fin 1) (Fin l)
     = Ok (F (map (fun x => if Rlt_dec (1 / 2 ^ 52) x then K * (/ x ^ 5 * exp (- (5 / 4) * (fp / x) ^ 4)) else 0) f))
  /\ 0 <= K
  /\ moment f (map (fun x => if Rlt_dec (1 / 2 ^ 52) x then K * (/ x ^ 5 * exp (- (5 / 4) * (fp / x) ^ 4)) else 0) f) 0 (Fin (nth 0 f 0)) hi = Ok (Fin m0)
  /\ 4 * sqrt m0 = Rabs hm0.
Proof.
  intros f H0 Hd Hn Hp He Hu.
  destruct (C37_energy f0 df fp 1 n H0 Hd Hn Hp ltac:(lra) He hm0 l hi Hu) as (K & m0 & E & HK & _ & Em & Eh).
  assert (Es : forall x, jonswap_shape fp 1 x = / x ^ 5 * exp (- (5 / 4) * (fp / x) ^ 4)).
  { intros x. unfold jonswap_shape, peak_enhancement, Rpower. rewrite ln_1, Rmult_0_r, exp_0. unfold pm_shape. ring. }
  exists K, m0. fold f in E, Em.
  assert (Em' : map (fun x => if Rlt_dec (1 / 2 ^ 52) x then K * jonswap_shape fp 1 x else 0) f
     = map (fun x => if Rlt_dec (1 / 2 ^ 52) x then K * (/ x ^ 5 * exp (- (5 / 4) * (fp / x) ^ 4)) else 0) f).
  { apply map_ext. intros x. rewrite Es. reflexivity. }
  rewrite Em' in E, Em. split; [|split; [auto|split; auto]].
  unfold create_spectrum_piersonmoskowitz. rewrite vec_convert. exact E.
Qed.
Example C38_witness : let f := axis 0 (1/10) 21 in 1 / 2 ^ 52 < last_of f /\ upper_of f 0 (Fin (last_of f)).
Proof.
  cbn zeta. assert (P : 1 / 2 ^ 52 < 1) by lra.
  split; [unfold last_of; rewrite axis_length, axis_nth by lia; cbn [Nat.sub INR]; lra|left; auto].
Qed.

(** ** C39 *)

(** frequency number k belongs to the peak band: at least 64 percent of the largest density *)
Definition peak_band (s : list R) (mx : R) (k : nat) : Prop := (k < length s)%nat /\ 64 / 100 * mx <= nth k s 0.
Definition largest (s : list R) (mx : R) : Prop := In mx s /\ forall x, In x s -> x <= mx.
(** first and last frequency of the peak band *)
Definition band_ends (s : list R) (mx : R) (i j : nat) : Prop :=
  peak_band s mx i /\ peak_band s mx j /\ forall k, peak_band s mx k -> (i <= k <= j)%nat.

Lemma tpd_unfold f s mx i j : freq_axis f -> length s = length f -> largest s mx -> 0 < mx -> band_ends s mx i j ->
  tpd (Arr (vec (F f))) (Arr (vec (F s)))
  = bind (moment f s 0 (Fin (nth i f 0)) (Fin (nth j f 0))) (fun m0 => bind (moment f s 1 (Fin (nth i f 0)) (Fin (nth j f 0))) (fun m1 => Ok (ndiv (n:=NX) m0 m1))).
Proof.
  intros Hf Hl [Hin Hmax] Pm ((Hi & Hi') & (Hj & Hj') & Hb). unfold tpd. rewrite !vec_convert. rewrite as_list_vec, bind_Ok.
  assert (Hns : s <> []) by (intros ->; cbn in Hi; lia).
  destruct (pymax_F s Hns) as (mx' & -> & Hin' & Hmax'). rewrite bind_Ok.
  assert (mx' = mx) as -> by (specialize (Hmax mx' Hin'); specialize (Hmax' mx Hin); lra).
  rewrite as_list_vec, fin_lit, fin_mul by lra. cbv zeta. rewrite bind_Ok.
  set (w := where_ _ (F s)).
  assert (Hw : forall k, In k w <-> peak_band s mx k).
  { intros k. unfold w, peak_band. rewrite (where_In _ _ _ (Fin 0)), F_length, F_nth.
    rewrite fin_div by lra. rewrite fin_leb. split; intros [A B]; (split; [auto|]).
    - destruct (Rleb_spec (8 / 10) (nth k s 0 / (mx * (8 / 10)))) as [L|]; [|discriminate].
      apply (Rmult_le_compat_r (mx * (8 / 10))) in L; [|lra]. replace (nth k s 0 / (mx * (8 / 10)) * (mx * (8 / 10))) with (nth k s 0) in L by (field; lra). lra.
    - apply Rleb_true. apply (Rmult_le_reg_r (mx * (8 / 10))); [lra|].
      replace (nth k s 0 / (mx * (8 / 10)) * (mx * (8 / 10))) with (nth k s 0) by (field; lra). lra. }
  assert (Hwl : forall k, In k w -> (k < length f)%nat) by (intros k Hk; apply Hw in Hk; destruct Hk; lia).
  assert (Inc : increasing f) by (apply good_increasing, Hf).
  rewrite (take_map f w) by auto. rewrite bind_Ok.
  set (tp := map (fun k => nth k f 0) w).
  assert (Ii : In (nth i f 0) tp) by (apply (in_map (fun k => nth k f 0)), Hw; split; auto).
  assert (Ij : In (nth j f 0) tp) by (apply (in_map (fun k => nth k f 0)), Hw; split; auto).
  assert (Nt : tp <> []) by (intros E; rewrite E in Ii; contradiction).
  assert (Bt : forall x, In x tp -> nth i f 0 <= x <= nth j f 0).
  { intros x Hx. apply in_map_iff in Hx as (k & <- & Hk). apply Hw in Hk. assert (Q := Hb k Hk). destruct Hk. split; apply inc_le; auto; lia. }
  destruct (pymin_F tp Nt) as (lo & -> & Hlo & Hlo'). destruct (pymax_F tp Nt) as (hi & -> & Hhi & Hhi'). rewrite !bind_Ok.
  assert (lo = nth i f 0) as -> by (specialize (Hlo' _ Ii); apply Bt in Hlo; lra).
  assert (hi = nth j f 0) as -> by (specialize (Hhi' _ Ij); apply Bt in Hhi; lra).
  reflexivity.
Qed.

Theorem C39_between (f0 df mx : R) (s : list R) (i j : nat) :
  let f := axis f0 df (length s) in
  0 <= f0 -> 0 < df -> (2 <= length s)%nat -> (forall k, (k < length s)%nat -> 0 <= nth k s 0) ->
  largest s mx -> 0 < mx -> band_ends s mx i j -> (i < j)%nat ->
  exists m0 m1, moment f s 0 (Fin (nth i f 0)) (Fin (nth j f 0)) = Ok (Fin m0)
  /\ moment f s 1 (Fin (nth i f 0)) (Fin (nth j f 0)) = Ok (Fin m1)
  /\ tpd (Arr (vec (F f))) (Arr (vec (F s))) = Ok (Fin (m0 / m1))
  /\ 0 < m0 / m1 /\ nth i f 0 <= / (m0 / m1) <= nth j f 0.
Proof.
  intros f H0 Hd Hn Hs Hmx Pm Hb Hij.
  assert (Hf : freq_axis f) by (apply axis_freq; auto).
  assert (Lf : length s = length f) by (unfold f; rewrite axis_length; auto).
  assert (Inc : increasing f) by (apply good_increasing, Hf).
  rewrite (tpd_unfold f s mx i j Hf Lf Hmx Pm Hb).
  destruct Hb as ((Hi & Hi') & (Hj & Hj') & Hb).
  assert (Pi := f_nonneg f Hf i ltac:(lia)). assert (Pj := Inc i j ltac:(lia)).
  assert (Lj : nth j f 0 <= last_of f) by (apply inc_le; auto; lia).
  assert (Mom : forall m, (0 <= m)%Z -> moment f s m (Fin (nth i f 0)) (Fin (nth j f 0)) = Ok (Fin (rsimp (slice i (j + 1) f) (slice i (j + 1) (weighted m f s))))).
  { intros m Hm. assert (W : without_zero m f f = f) by (unfold without_zero; destruct (Z.ltb_spec m 0); [lia|reflexivity]).
    destruct (moment_in f s m Hf Lf (nth i f 0) (nth j f 0)) as (i' & j' & Ni & Nj & _ & E); try lra. rewrite W in *.
    assert (i' = i) as -> by (apply (nearest_unique f (nth i f 0)); auto; apply nearest_self; auto; lia).
    assert (j' = j) as -> by (apply (nearest_unique f (nth j f 0)); auto; apply nearest_self; auto; lia). exact E. }
  rewrite !Mom by lia. rewrite !bind_Ok.
  assert (Wl : forall m, (0 <= m)%Z -> length (weighted m f s) = length f).
  { intros m Hm. rewrite g_length by auto. unfold without_zero; destruct (Z.ltb_spec m 0); [lia|reflexivity]. }
  assert (G0 : forall k, (k < length f)%nat -> nth k (weighted 0 f s) 0 = nth k s 0).
  { intros k Hk. rewrite g_nth by auto. change (without_zero 0 f s) with s. cbn. ring. }
  assert (G1 : forall k, (k < length f)%nat -> nth k (weighted 1 f s) 0 = nth k f 0 * nth k s 0).
  { intros k Hk. rewrite g_nth by auto. change (without_zero 1 f s) with s. change (without_zero 1 f f) with f. rewrite powerRZ_1'. ring. }
  set (x := slice i (j + 1) f). set (y0 := slice i (j + 1) (weighted 0 f s)). set (y1 := slice i (j + 1) (weighted 1 f s)).
  assert (Lx : length x = (j + 1 - i)%nat) by (unfold x; rewrite slice_length; lia).
  assert (L0 : length y0 = (j + 1 - i)%nat) by (unfold y0; rewrite slice_length, Wl by lia; lia).
  assert (L1 : length y1 = (j + 1 - i)%nat) by (unfold y1; rewrite slice_length, Wl by lia; lia).
  assert (Ex : x = axis (f0 + INR i * df) df (j + 1 - i)).
  { unfold x, f. apply slice_axis. unfold f in Lf. lia. }
  assert (Y0 : forall k, (k < j + 1 - i)%nat -> nth k y0 0 = nth (i + k) s 0) by (intros k Hk; unfold y0; rewrite slice_nth by lia; apply G0; lia).
  assert (Y1 : forall k, (k < j + 1 - i)%nat -> nth k y1 0 = nth (i + k) f 0 * nth (i + k) s 0) by (intros k Hk; unfold y1; rewrite slice_nth by lia; apply G1; lia).
  assert (Pos : forall y, length y = (j + 1 - i)%nat -> (forall k, (k < j + 1 - i)%nat -> 0 <= nth k y 0) -> 0 <= rsimp x y).
  { intros y Ly Hy. rewrite Ex, <- Ly. apply rsimp_nonneg; auto. rewrite Ly. auto. }
  assert (M0 : 0 < rsimp x y0).
  { apply Rlt_le_trans with (df / 3 * nth (j - i) y0 0).
    - rewrite Y0 by lia. replace (i + (j - i))%nat with j by lia. apply Rmult_lt_0_compat; lra.
    - rewrite Ex, <- L0. apply rsimp_lower; auto; try lia. rewrite L0. intros k Hk. rewrite Y0 by lia. apply Hs. lia. }
  set (M := rsimp x y0) in *. set (N := rsimp x y1).
  assert (A : nth i f 0 * M <= N).
  { assert (Q : 0 <= rsimp x (lc 1 (- nth i f 0) y1 y0)).
    { apply Pos; [rewrite lc_length; lia|]. intros k Hk. rewrite lc_nth by lia. rewrite Y0, Y1 by lia.
      assert (P := inc_le f i (i + k) Inc ltac:(lia)). assert (P' := Hs (i + k)%nat ltac:(lia)). nra. }
    rewrite rsimp_lin in Q by lia. fold M N in Q. lra. }
  assert (B : N <= nth j f 0 * M).
  { assert (Q : 0 <= rsimp x (lc (-1) (nth j f 0) y1 y0)).
    { apply Pos; [rewrite lc_length; lia|]. intros k Hk. rewrite lc_nth by lia. rewrite Y0, Y1 by lia.
      assert (P := inc_le f (i + k) j Inc ltac:(lia)). assert (P' := Hs (i + k)%nat ltac:(lia)). nra. }
    rewrite rsimp_lin in Q by lia. fold M N in Q. lra. }
  assert (N0 : 0 < N).
  { apply Rlt_le_trans with (df / 3 * nth (j - i) y1 0).
    - rewrite Y1 by lia. replace (i + (j - i))%nat with j by lia. apply Rmult_lt_0_compat; [lra|apply Rmult_lt_0_compat; lra].
    - unfold N. rewrite Ex, <- L1. apply rsimp_lower; auto; try lia. rewrite L1. intros k Hk. rewrite Y1 by lia.
      apply Rmult_le_pos; [apply (f_nonneg f Hf); lia|apply Hs; lia]. }
  exists M, N. split; [reflexivity|]. split; [reflexivity|]. rewrite fin_div by lra. split; [reflexivity|].
  split; [apply Rdiv_lt_0_compat; auto|].
  replace (/ (M / N)) with (N / M) by (field; lra). split.
  - apply (Rmult_le_reg_r M); [auto|]. replace (N / M * M) with N by (field; lra). auto.
  - apply (Rmult_le_reg_r M); [auto|]. replace (N / M * M) with N by (field; lra). auto.
Qed.
(** a peak with no second frequency above 64 percent: 0/0 *)
Theorem C39_single_frequency (f s : list R) (mx : R) (i : nat) :
  freq_axis f -> length s = length f -> largest s mx -> 0 < mx -> band_ends s mx i i ->
  tpd (Arr (vec (F f))) (Arr (vec (F s))) = Ok NaN.
Proof.
  intros Hf Hl Hmx Pm Hb. rewrite (tpd_unfold f s mx i i Hf Hl Hmx Pm Hb). destruct Hb as ((Hi & _) & _).
  assert (Inc : increasing f) by (apply good_increasing, Hf). assert (Pi := f_nonneg f Hf i ltac:(lia)).
  assert (Lj : nth i f 0 <= last_of f) by (apply inc_le; auto; lia).
  assert (Mom : forall m, (0 <= m)%Z -> moment f s m (Fin (nth i f 0)) (Fin (nth i f 0)) = Ok (Fin 0)).
  { intros m Hm. assert (W : without_zero m f f = f) by (unfold without_zero; destruct (Z.ltb_spec m 0); [lia|reflexivity]).
    destruct (moment_in f s m Hf Hl (nth i f 0) (nth i f 0)) as (i' & j' & Ni & Nj & _ & E); try lra. rewrite W in *.
    assert (i' = i) as -> by (apply (nearest_unique f (nth i f 0)); auto; apply nearest_self; auto; lia).
    assert (j' = i) as -> by (apply (nearest_unique f (nth i f 0)); auto; apply nearest_self; auto; lia). rewrite E. do 2 f_equal.
    assert (L : length (slice i (i + 1) f) = 1%nat) by (rewrite slice_length; lia).
    destruct (slice i (i + 1) f) as [|a [|]]; try discriminate L. reflexivity. }
  rewrite !Mom by lia. rewrite !bind_Ok. cbn. destruct (Req_EM_T 0 0); [|lra]. unfold xinf_times. destruct (Rlt_dec 0 0); [lra|]. reflexivity.
Qed.
(** so the claim "1/TpD lies in the peak band" fails for narrow peaks *)
Theorem C39_between_refuted :
  ~ (forall (f0 df mx : R) (s : list R) (i j : nat), 0 <= f0 -> 0 < df -> (2 <= length s)%nat -> (forall k, (k < length s)%nat -> 0 <= nth k s 0) ->
      largest s mx -> 0 < mx -> band_ends s mx i j ->
      exists T, tpd (Arr (vec (F (axis f0 df (length s))))) (Arr (vec (F s))) = Ok (Fin T)).
Proof.
  intros H. set (s := [0; 1; 0]).
  assert (Hs : forall k, (k < length s)%nat -> 0 <= nth k s 0) by (intros k Hk; unfold s in *; cbn [length] in Hk; destruct k as [|[|[|]]]; cbn; lra || lia).
  assert (Hm : largest s 1) by (split; [cbn; auto|]; intros x [<-|[<-|[<-|[]]]]; lra).
  assert (Hb : band_ends s 1 1 1).
  { assert (B : peak_band s 1 1) by (split; cbn; [lia|lra]). split; [auto|]. split; [auto|]. intros k [A C]. unfold s in *. cbn [length] in A.
    destruct k as [|[|[|]]]; cbn in C; lra || lia. }
  destruct (H 0 1 1 s 1%nat 1%nat) as [T E]; auto; try lra; [cbn; lia|].
  rewrite (C39_single_frequency (axis 0 1 (length s)) s 1 1) in E; auto; try lra; [|apply axis_freq; lra || (cbn; lia)].
  apply Ok_inj in E. discriminate E.
Qed.
Example C39_witness : let s := [0; 7; 10; 3] in largest s 10 /\ band_ends s 10 1 2.
Proof.
  cbn zeta. split; [split; [cbn; auto|]; intros x [<-|[<-|[<-|[<-|[]]]]]; lra|].
  split; [split; cbn; [lia|lra]|]. split; [split; cbn; [lia|lra]|]. intros k [A C]. cbn [length] in A.
  destruct k as [|[|[|[|]]]]; cbn in C; lra || lia.
Qed.
