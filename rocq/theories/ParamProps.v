(** * Spectral parameters: C34 *)

From Coq Require Import Reals ZArith List Bool Lra Lia.
From Coquelicot Require Import Coquelicot.
From Verif Require Import Num XR Spec XRFacts RSum Engine EngineProps FourierSpec TimeProps TimeProps3 SeriesProps FourierFacts BandProps
  WaveModel SpectrumModel SimpsonFacts MomentProps PeakProps.
Import ListNotations.
Open Scope R_scope.

Notation parameters f s := (compute_spectrum_params (Arr (vec (F f))) (Arr (vec (F s)))).
Notation all_nan p := (p_hm0 p = NaN /\ p_tp p = NaN /\ p_tps p = NaN /\ p_tmm10 p = NaN /\ p_tm01 p = NaN /\ p_tm02 p = NaN).

(** moments up to order 3 are finite *)
Lemma moment_finite f s m lo hi : freq_axis f -> length s = length f -> lo <> -1 -> hi <> Fin (-1) -> ext_le (Fin lo) hi -> (m < 4)%Z ->
  exists v, moment f s m (Fin lo) hi = Ok (Fin v).
Proof.
  intros Hf Hl N1 N2 Hle Hm. destruct hi as [h| | |]; try contradiction.
  - assert (Nh : h <> -1) by (intros ->; auto).
    destruct (Rle_lt_dec h (last_of f)) as [H|H].
    + destruct (moment_in f s m Hf Hl lo h N1 Nh) as (i & j & _ & _ & _ & ->); auto. eauto.
    + destruct (C33_tail_finite f s m lo Hf Hl N1 h) as (b & _ & ->); [lia|auto|]. eauto.
  - destruct (C33_tail_infinite f s m lo Hf Hl N1 Hm) as (b & _ & -> & _). eauto.
Qed.
Lemma band_limits f lo hi k : freq_axis f -> in_band f (Fin lo) hi k -> hi <> Fin (-1) /\ ext_le (Fin lo) hi.
Proof.
  intros Hf (Hk & A & B). assert (P := f_nonneg f Hf k Hk). split.
  - intros ->. cbn in B. lra.
  - exact (ext_le_trans _ _ _ A B).
Qed.

Lemma params_unfold f s fmin fmax lo hi : freq_axis f -> length s = length f -> lower_limit f fmin lo -> upper_limit f fmax hi ->
  parameters f s fmin fmax =
   bind (moment f s (-1) lo hi) (fun m_1 => bind (moment f s 0 lo hi) (fun m0 => bind (moment f s 1 lo hi) (fun m1 => bind (moment f s 2 lo hi) (fun m2 =>
    let Hm0 := nmul (n:=NX) (nofZ 4) (nsqrt m0) in
    if (nltb (n:=NX) Hm0 (lit 1 1000000)) || nisnan Hm0
    then Ok (mkSparams (N:=NX) NaN NaN NaN NaN NaN NaN)
    else bind (v_Tp (F f) (F s) fmin fmax) (fun Tp => bind (v_Tps (F f) (F s) fmin fmax) (fun Tps =>
      Ok (mkSparams (N:=NX) Hm0 Tp Tps (ndiv (n:=NX) m_1 m0) (ndiv (n:=NX) m0 m1) (nsqrt (ndiv (n:=NX) m0 m2))))))))).
Proof.
  intros Hf Hl Hlo Hhi. destruct Hf as [Hg H0]. assert (H2 := proj1 Hg).
  assert (Hne : f <> []) by (intros ->; cbn in H2; lia).
  unfold v_Tp, v_Tps. rewrite (set_flim_F f fmin fmax lo hi) by auto.
  unfold compute_spectrum_params. rewrite !vec_convert. cbn [snd fst]. change (Nat.ltb 1 0) with false. cbn [orb].
  rewrite as_list_vec, bind_Ok, good_mono, bind_Ok by auto. cbn [negb]. rewrite !F_length, Hl, Nat.eqb_refl. cbn [negb].
  rewrite as_list_vec, bind_Ok, !idx_F, !bind_Ok by lia. change (nopp (n:=NX) n1) with (Fin (-1)). cbv zeta.
  match goal with |- bind (compute_moment _ _ _ ?a ?b) _ = _ => replace a with lo; [replace b with hi|] end.
  3:{ destruct Hlo as [[-> ->]|[N ->]]; [rewrite (proj2 (neqb_m1 _) eq_refl); reflexivity|].
      destruct (neqb (n:=NX) fmin (Fin (-1))) eqn:E; [apply neqb_m1 in E; contradiction|reflexivity]. }
  2:{ destruct Hhi as [[-> ->]|[N ->]]; [rewrite (proj2 (neqb_m1 _) eq_refl); reflexivity|].
      destruct (neqb (n:=NX) fmax (Fin (-1))) eqn:E; [apply neqb_m1 in E; contradiction|reflexivity]. }
  destruct (moment f s (-1) lo hi) as [m_1|]; [|reflexivity]. rewrite !bind_Ok.
  destruct (moment f s 0 lo hi) as [m0|]; [|reflexivity]. rewrite !bind_Ok.
  destruct (moment f s 1 lo hi) as [m1|]; [|reflexivity]. rewrite !bind_Ok.
  destruct (moment f s 2 lo hi) as [m2|]; [|reflexivity]. rewrite !bind_Ok.
  destruct (_ || _); [reflexivity|].
  destruct (band (N:=NX) (F f) (F s) lo hi) as [[fb sb]|]; [|reflexivity]. rewrite !bind_Ok.
  destruct (peak_period fb sb) as [Tp|]; [|reflexivity]. rewrite !bind_Ok.
  destruct (compute_tps _ _) as [Tps|]; reflexivity.
Qed.
Lemma nan_test m0 : (nltb (n:=NX) (nmul (n:=NX) (nofZ 4) (nsqrt (n:=NX) (Fin m0))) (lit 1 1000000)
   || nisnan (n:=NX) (nmul (n:=NX) (nofZ 4) (nsqrt (n:=NX) (Fin m0)))) = true
  <-> m0 < 0 \/ 4 * sqrt m0 < 1 / 1000000.
Proof.
  rewrite fin_lit by lra. destruct (Rlt_le_dec m0 0) as [H|H].
  - split; [intros _; auto|]. intros _. cbn. destruct (Rlt_dec m0 0); [|lra]. reflexivity.
  - rewrite fin_sqrt, fin_ofZ, fin_mul, fin_ltb by auto. cbn [nisnan NX xisnan orb]. split.
    + intros E. right. destruct (Rltb_spec (4 * sqrt m0) (1 / 1000000)); auto. cbn in E. discriminate.
    + intros [|E]; [lra|]. rewrite Rltb_true; auto.
Qed.

(** getters on any object [sp] holding the spectrum agree with compute_spectrum_params *)
Lemma getter_value v st fmin fmax (sp : spec NX) f s : s_f sp = F f -> s_S sp = F s ->
  snd (getter v st fmin fmax sp) = v (F f) (F s) fmin fmax.
Proof. intros Ef Es. unfold getter, mbind, mget, mlift, mset. rewrite Ef, Es. destruct (v _ _ _ _); reflexivity. Qed.

Theorem C34_parameters (f s : list R) (fmin fmax hi : xr) (lo : R) :
  freq_axis f -> length s = length f -> lower_limit f fmin (Fin lo) -> upper_limit f fmax hi ->
  (exists k, in_band f (Fin lo) hi k) ->
  exists m_1 m0 m1 m2 p,
     moment f s (-1) (Fin lo) hi = Ok (Fin m_1) /\ moment f s 0 (Fin lo) hi = Ok (Fin m0)
  /\ moment f s 1 (Fin lo) hi = Ok (Fin m1) /\ moment f s 2 (Fin lo) hi = Ok (Fin m2)
  /\ parameters f s fmin fmax = Ok p
  /\ (m0 < 0 \/ 4 * sqrt m0 < 1 / 1000000 -> all_nan p)
  /\ (0 <= m0 -> 1 / 1000000 <= 4 * sqrt m0 ->
        p_hm0 p = Fin (4 * sqrt m0) /\ p_tmm10 p = Fin (m_1 / m0)
        /\ p_tm01 p = (if Req_EM_T m1 0 then PInf else Fin (m0 / m1))
        /\ (0 < m2 -> p_tm02 p = Fin (sqrt (m0 / m2))) /\ (m2 = 0 -> p_tm02 p = PInf) /\ (m2 < 0 -> p_tm02 p = NaN)
        /\ (forall sp : spec NX, s_f sp = F f -> s_S sp = F s ->
              snd (get_Tp fmin fmax sp) = Ok (p_tp p) /\ snd (get_Tps fmin fmax sp) = Ok (p_tps p))).
Proof.
  intros Hf Hl Hlo Hhi [k Hk]. destruct (band_limits f lo hi k Hf Hk) as [N2 Hle].
  assert (N1 : lo <> -1).
  { destruct Hlo as [[_ E]|[N E]]; [|intros ->; auto]. apply fin_inj in E. destruct Hf as [_ H0]. lra. }
  destruct (moment_finite f s (-1) lo hi Hf Hl N1 N2 Hle) as [m_1 E_1]; [lia|].
  destruct (moment_finite f s 0 lo hi Hf Hl N1 N2 Hle) as [m0 E0]; [lia|].
  destruct (moment_finite f s 1 lo hi Hf Hl N1 N2 Hle) as [m1 E1]; [lia|].
  destruct (moment_finite f s 2 lo hi Hf Hl N1 N2 Hle) as [m2 E2]; [lia|].
  rewrite (params_unfold f s fmin fmax (Fin lo) hi) by auto. rewrite E_1, E0, E1, E2, !bind_Ok. cbv zeta.
  exists m_1, m0, m1, m2.
  destruct (_ || _) eqn:T.
  - apply nan_test in T. eexists. do 5 (split; [reflexivity|]). split; [intros _; repeat split|]. intros A B. lra.
  - assert (T' : ~ (m0 < 0 \/ 4 * sqrt m0 < 1 / 1000000)) by (rewrite <- nan_test; congruence).
    set (sp0 := fresh (N:=NX) (F f) (F s)).
    destruct (C35_peak_period f s fmin fmax (Fin lo) hi sp0 eq_refl eq_refl) as (kp & _ & Etp); auto; [apply Hf|eauto|].
    destruct (C36_get_Tps f s fmin fmax (Fin lo) hi sp0 eq_refl eq_refl) as (i & j & Hij & _ & Etps); auto; [apply Hf|eauto|].
    unfold get_Tp in Etp. rewrite (getter_value v_Tp _ fmin fmax sp0 f s) in Etp by reflexivity.
    unfold get_Tps in Etps. rewrite (getter_value v_Tps _ fmin fmax sp0 f s) in Etps by reflexivity.
    assert (Etps' : exists T, v_Tps (N:=NX) (F f) (F s) fmin fmax = Ok T).
    { rewrite Etps. assert (Hi : increasing f) by (apply good_increasing, Hf).
      set (fb := slice i (j + 1) f). set (sb := slice i (j + 1) s).
      assert (Lf : length fb = (j + 1 - i)%nat) by (unfold fb; rewrite slice_length; lia).
      assert (Ls : length sb = (j + 1 - i)%nat) by (unfold sb; rewrite slice_length; lia).
      assert (Hib : increasing fb) by (apply slice_inc; auto).
      destruct (pymax_F sb) as (mx & _ & Hin & Hmax); [intros E; rewrite E in Ls; cbn in Ls; lia|].
      destruct (Rle_lt_dec (1 / 10000000000) mx) as [G|G].
      - apply (In_nth _ _ 0) in Hin as (q & Hq & <-). destruct (C36_value fb sb Hib) as (v & _ & ->); eauto; try lia.
        intros E; rewrite E in Lf; cbn in Lf; lia.
      - rewrite C36_no_energy; eauto; try lia; [intros E; rewrite E in Ls; cbn in Ls; lia|].
        intros q Hq. apply Rle_lt_trans with (2 := G). apply Hmax, nth_In; auto. }
    destruct Etps' as [T2 Etps']. rewrite Etp, Etps', !bind_Ok. eexists. do 5 (split; [reflexivity|]). split; [tauto|].
    intros A B. cbn [p_hm0 p_tmm10 p_tm01 p_tm02 p_tp p_tps].
    assert (P0 : 0 < m0).
    { destruct (Req_dec m0 0) as [->|]; [|lra]. rewrite sqrt_0 in B. lra. }
    rewrite fin_sqrt, fin_ofZ, fin_mul, fin_div by lra. split; [reflexivity|]. split; [reflexivity|].
    split; [cbn; destruct (Req_EM_T m1 0); [unfold xinf_times; destruct (Rlt_dec 0 m0); [reflexivity|lra]|reflexivity]|]. split.
    { intros P2. rewrite fin_div, fin_sqrt; [reflexivity| |lra]. apply Rlt_le, Rdiv_lt_0_compat; auto. }
    split.
    { intros ->. cbn. destruct (Req_EM_T 0 0); [|lra]. unfold xinf_times. destruct (Rlt_dec 0 m0); [reflexivity|lra]. }
    split.
    { intros P2. rewrite fin_div by lra. assert (m0 / m2 < 0) by (assert (W := Rinv_lt_0_compat m2 P2); unfold Rdiv; nra).
      cbn. destruct (Rlt_dec (m0 / m2) 0); [reflexivity|lra]. }
    intros sp Ef Es. unfold get_Tp, get_Tps. rewrite !(getter_value _ _ fmin fmax sp f s) by auto. auto.
Qed.
(** no frequency within the limits: NaN or an exception *)
Theorem C34_empty_band (f s : list R) (fmin fmax lo hi : xr) p :
  freq_axis f -> length s = length f -> lower_limit f fmin lo -> upper_limit f fmax hi ->
  (forall k, ~ in_band f lo hi k) -> parameters f s fmin fmax = Ok p -> all_nan p.
Proof.
  intros Hf Hl Hlo Hhi Hn. rewrite (params_unfold f s fmin fmax lo hi) by auto. intros E.
  apply bind_inv in E as (m_1 & _ & E). apply bind_inv in E as (m0 & _ & E).
  apply bind_inv in E as (m1 & _ & E). apply bind_inv in E as (m2 & _ & E). cbv zeta in E.
  destruct (_ || _).
  - apply Ok_inj in E. subst p. repeat split.
  - exfalso. destruct (C35_empty_band f s fmin fmax lo hi (fresh (N:=NX) (F f) (F s)) eq_refl eq_refl (proj1 Hf) Hl Hlo Hhi Hn) as [e Ee].
    unfold get_Tp in Ee. rewrite (getter_value v_Tp _ fmin fmax (fresh (N:=NX) (F f) (F s)) f s) in Ee by reflexivity.
    rewrite Ee in E. discriminate E.
Qed.

(** ** Ordering of the periods *)
Lemma powerRZ_1' x : powerRZ x 1 = x. Proof. change (x * 1 = x). ring. Qed.
Lemma powerRZ_2' x : powerRZ x 2 = x * x. Proof. change (x * (x * 1) = x * x). ring. Qed.
Lemma powerRZ_nat x m : (0 <= m)%Z -> powerRZ x m = x ^ Z.to_nat m.
Proof. intros H. destruct m as [|p|p]; [reflexivity|reflexivity|lia]. Qed.
Section Ordering.
  Variables (f0 df : R) (s : list R).
  Hypothesis H0 : 0 <= f0.
  Hypothesis Hd : 0 < df.
  Hypothesis Hn : (2 <= length s)%nat.
  Hypothesis Hs : forall k, (k < length s)%nat -> 0 <= nth k s 0.
  Let f := axis f0 df (length s).

  Lemma wz_id m (l : list R) : (0 <= m)%Z \/ 0 < f0 -> without_zero m f l = l.
  Proof using Hn. clear Hs.
    intros H. unfold without_zero. destruct (Z.ltb_spec m 0); [|reflexivity].
    unfold f. rewrite axis_nth by lia. rewrite Reqb_false; [reflexivity|]. cbn [INR]. destruct H; [lia|lra].
  Qed.
  Lemma weighted_quadratic m (c : R) k : (0 <= m)%Z \/ 0 < f0 -> (k < length s)%nat ->
    nth k (weighted (m + 2) f s) 0 - 2 * c * nth k (weighted (m + 1) f s) 0 + c * c * nth k (weighted m f s) 0
    = powerRZ (nth k f 0) m * (nth k f 0 - c) ^ 2 * nth k s 0.
  Proof.
    intros Hm Hk.
    assert (Hf : freq_axis f) by (apply axis_freq; auto).
    assert (Lf : length s = length f) by (unfold f; rewrite axis_length; auto).
    assert (Wf : forall q l, (m <= q)%Z -> without_zero q f l = l) by (intros q l Hq; apply wz_id; destruct Hm; [left; lia|auto]).
    rewrite !g_nth by (auto; rewrite Wf by lia; lia). rewrite !Wf by lia. set (x := nth k f 0).
    assert (A : powerRZ x (m + 1) = powerRZ x m * x /\ powerRZ x (m + 2) = powerRZ x m * x * x).
    { destruct (Req_dec x 0) as [E|N].
      - assert (0 <= m)%Z.
        { destruct Hm as [|P]; [auto|]. exfalso. unfold x, f in E. rewrite axis_nth in E by lia.
          assert (0 <= INR k * df) by (apply Rmult_le_pos; [apply pos_INR|lra]). lra. }
        rewrite !powerRZ_nat by lia. rewrite !Z2Nat.inj_add by lia. rewrite !pow_add. change (Z.to_nat 1) with 1%nat. change (Z.to_nat 2) with 2%nat. split; ring.
      - rewrite !powerRZ_add by auto. rewrite powerRZ_1', powerRZ_2'. split; ring. }
    destruct A as [-> ->]. ring.
  Qed.

  (** the moments of order m, m+1, m+2 over the same limits *)
  Lemma moments_square m lo hi a b c t : (0 <= m)%Z \/ 0 < f0 -> (m < 2)%Z -> lo <> -1 -> hi <> Fin (-1) -> ext_le (Fin lo) hi ->
    moment f s m (Fin lo) hi = Ok (Fin a) -> moment f s (m + 1) (Fin lo) hi = Ok (Fin b) -> moment f s (m + 2) (Fin lo) hi = Ok (Fin c) ->
    0 <= c - 2 * t * b + t * t * a.
  Proof.
    intros Hm Hm2 N1 N2 Hle.
    assert (Hf : freq_axis f) by (apply axis_freq; auto).
    assert (Lf : length s = length f) by (unfold f; rewrite axis_length; auto).
    assert (Hi : increasing f) by (apply good_increasing, Hf).
    assert (Wf : forall q l, (m <= q)%Z -> without_zero q f l = l) by (intros q l Hq; apply wz_id; destruct Hm; [left; lia|auto]).
    assert (Lw : forall q, (m <= q)%Z -> length (weighted q f s) = length f) by (intros q Hq; rewrite g_length, Wf; auto).
    assert (Pl := fq_last f 0 Hf). destruct Pl as [_ Pl].
    (* the part on the grid *)
    assert (Body : forall h a b c, h <> -1 -> lo <= h \/ last_of f <= h -> h <= last_of f -> moment f s m (Fin lo) (Fin h) = Ok (Fin a) ->
       moment f s (m + 1) (Fin lo) (Fin h) = Ok (Fin b) -> moment f s (m + 2) (Fin lo) (Fin h) = Ok (Fin c) -> 0 <= c - 2 * t * b + t * t * a).
    { clear hi a b c N2 Hle. intros h a b c N2 Hle Hh.
      destruct (moment_in f s m Hf Lf lo h N1 N2 Hle Hh) as (i & j & Ni & Nj & Hij & ->).
      destruct (moment_in f s (m + 1) Hf Lf lo h N1 N2 Hle Hh) as (i1 & j1 & Ni1 & Nj1 & _ & ->).
      destruct (moment_in f s (m + 2) Hf Lf lo h N1 N2 Hle Hh) as (i2 & j2 & Ni2 & Nj2 & _ & ->).
      rewrite !Wf in * by lia.
      assert (i1 = i) as -> by (apply (nearest_unique f lo); auto). assert (i2 = i) as -> by (apply (nearest_unique f lo); auto).
      assert (j1 = j) as -> by (apply (nearest_unique f h); auto). assert (j2 = j) as -> by (apply (nearest_unique f h); auto).
      intros Ea Eb Ec. apply Ok_inj, fin_inj in Ea, Eb, Ec. subst a b c.
      assert (Lj : (j < length f)%nat) by (destruct Nj; auto).
      set (sl := fun q => slice i (j + 1) (weighted q f s)).
      assert (Ls : forall q, (m <= q)%Z -> length (sl q) = (j + 1 - i)%nat) by (intros q Hq; unfold sl; rewrite slice_length, Lw by auto; lia).
      assert (Lx : length (slice i (j + 1) f) = (j + 1 - i)%nat) by (rewrite slice_length; lia).
      set (y := lc 1 (t * t) (lc 1 (-2 * t) (sl (m + 2)%Z) (sl (m + 1)%Z)) (sl m)).
      assert (L1 : length (lc 1 (-2 * t) (sl (m + 2)%Z) (sl (m + 1)%Z)) = (j + 1 - i)%nat) by (rewrite lc_length; rewrite !Ls; auto; lia).
      assert (Ly : length y = (j + 1 - i)%nat) by (unfold y; rewrite lc_length; rewrite L1; auto; rewrite Ls; auto; lia).
      assert (E : rsimp (slice i (j + 1) f) y = rsimp (slice i (j + 1) f) (sl (m + 2)%Z) - 2 * t * rsimp (slice i (j + 1) f) (sl (m + 1)%Z)
                  + t * t * rsimp (slice i (j + 1) f) (sl m)).
      { unfold y. rewrite rsimp_lin by (rewrite ?Lx, ?L1, ?Ls; auto; lia). rewrite rsimp_lin by (rewrite ?Lx, ?Ls; auto; lia). ring. }
      change (0 <= rsimp (slice i (j + 1) f) (sl (m + 2)%Z) - 2 * t * rsimp (slice i (j + 1) f) (sl (m + 1)%Z)
                  + t * t * rsimp (slice i (j + 1) f) (sl m)). rewrite <- E. clear E. unfold f at 1. rewrite slice_axis by (unfold f in Lj; rewrite axis_length in Lj; lia).
      rewrite <- Ly. apply rsimp_nonneg; auto. intros q Hq. rewrite Ly in Hq.
      unfold y. rewrite lc_nth by (rewrite L1, Ls; auto; lia). rewrite lc_nth by (rewrite !Ls; auto; lia). unfold sl. rewrite !slice_nth by lia.
      unfold f in Lj. rewrite axis_length in Lj.
      replace (1 * (1 * nth (i + q) (weighted (m + 2) f s) 0 + -2 * t * nth (i + q) (weighted (m + 1) f s) 0) + t * t * nth (i + q) (weighted m f s) 0)
        with (nth (i + q) (weighted (m + 2) f s) 0 - 2 * t * nth (i + q) (weighted (m + 1) f s) 0 + t * t * nth (i + q) (weighted m f s) 0) by ring.
      rewrite weighted_quadratic by (auto; lia). apply Rmult_le_pos; [apply Rmult_le_pos|apply Hs; lia]; [|apply pow2_ge_0].
      assert (Px : 0 <= nth (i + q) f 0) by (apply (f_nonneg f Hf); unfold f; rewrite axis_length; lia).
      destruct (Z.neg_nonneg_cases m) as [Hneg|Hpos].
      - apply powerRZ_le. destruct Hm as [|P]; [lia|]. unfold f. rewrite axis_nth by lia.
        assert (0 <= INR (i + q) * df) by (apply Rmult_le_pos; [apply pos_INR|lra]). lra.
      - destruct m as [|p|p]; [cbn; lra| |lia]. rewrite powerRZ_pos_eq. apply pow_le. auto. }
    assert (Es : 0 <= last_of s) by (apply Hs; lia).
    (* the tail up to h *)
    set (fe := last_of f) in *. set (se := last_of s) in *.
    assert (Tail : forall h, fe <= h -> 0 <= RInt (tail_integrand (m + 2) fe se) fe h - 2 * t * RInt (tail_integrand (m + 1) fe se) fe h + t * t * RInt (tail_integrand m fe se) fe h).
    { intros h Hh.
      assert (X : forall q, (q < 4)%Z -> is_RInt (tail_integrand q fe se) fe h (RInt (tail_integrand q fe se) fe h)).
      { intros q Hq. assert (T := tail_RInt q fe se h Pl Hh ltac:(lia)). rewrite (is_RInt_unique _ _ _ _ T). exact T. }
      assert (I1 := is_RInt_scal (V:=R_NormedModule) _ _ _ (-2 * t) _ (X (m + 1)%Z ltac:(lia))).
      assert (I2 := is_RInt_scal (V:=R_NormedModule) _ _ _ (t * t) _ (X m ltac:(lia))).
      assert (I3 := is_RInt_plus (V:=R_NormedModule) _ _ _ _ _ _ (X (m + 2)%Z ltac:(lia)) I1).
      assert (I := is_RInt_plus (V:=R_NormedModule) _ _ _ _ _ _ I3 I2). clear I1 I2 I3.
      apply (is_RInt_ge_0 _ _ _ _ Hh) in I.
      - revert I. generalize (RInt (tail_integrand (m + 2) fe se) fe h), (RInt (tail_integrand (m + 1) fe se) fe h), (RInt (tail_integrand m fe se) fe h).
        intros u v w I. unfold plus, scal in I. cbn in I. unfold mult in I. cbn in I. lra.
      - intros x Hx. unfold plus, scal. cbn. unfold mult. cbn. rewrite !tail_alt by lra.
        replace (m + 2 - 5)%Z with (m - 5 + 2)%Z by lia. replace (m + 1 - 5)%Z with (m - 5 + 1)%Z by lia. rewrite !powerRZ_add by lra.
        rewrite powerRZ_1', powerRZ_2'. set (w := powerRZ x (m - 5)).
        assert (0 <= w) by (apply powerRZ_le; lra). assert (0 <= se * fe ^ 5) by (apply Rmult_le_pos; [auto|apply pow_le; lra]).
        match goal with |- 0 <= ?e => replace e with ((se * fe ^ 5) * (w * (x - t) ^ 2)) by ring end.
        apply Rmult_le_pos; [auto|]. apply Rmult_le_pos; [auto|apply pow2_ge_0]. }
    destruct hi as [h| | |]; try contradiction.
    - assert (Nh : h <> -1) by (intros ->; auto). destruct (Rle_lt_dec h fe) as [Hh|Hh]; [apply Body; auto|].
      destruct (C33_tail_finite f s m lo Hf Lf N1 h) as (a' & Ea' & ->); [lia|auto|].
      destruct (C33_tail_finite f s (m + 1) lo Hf Lf N1 h) as (b' & Eb' & ->); [lia|auto|].
      destruct (C33_tail_finite f s (m + 2) lo Hf Lf N1 h) as (c' & Ec' & ->); [lia|auto|].
      assert (B := Body fe a' b' c' ltac:(lra) ltac:(right; lra) ltac:(lra) Ea' Eb' Ec'). assert (T := Tail h ltac:(lra)). fold fe se.
      intros Ea Eb Ec. apply Ok_inj, fin_inj in Ea, Eb, Ec. subst a b c. lra.
    - destruct (C33_tail_infinite f s m lo Hf Lf N1) as (a' & Ea' & -> & La); [lia|].
      destruct (C33_tail_infinite f s (m + 1) lo Hf Lf N1) as (b' & Eb' & -> & Lb); [lia|].
      destruct (C33_tail_infinite f s (m + 2) lo Hf Lf N1) as (c' & Ec' & -> & Lc); [lia|].
      assert (B := Body fe a' b' c' ltac:(lra) ltac:(right; lra) ltac:(lra) Ea' Eb' Ec'). fold fe se in La, Lb, Lc |- *.
      set (ta := se * powerRZ fe (m + 1) / IZR (4 - m)) in *. set (tb := se * powerRZ fe (m + 1 + 1) / IZR (4 - (m + 1))) in *.
      set (tc := se * powerRZ fe (m + 2 + 1) / IZR (4 - (m + 2))) in *.
      assert (T : 0 <= tc - 2 * t * tb + t * t * ta).
      { assert (L : is_lim (fun h => RInt (tail_integrand (m + 2) fe se) fe h - 2 * t * RInt (tail_integrand (m + 1) fe se) fe h + t * t * RInt (tail_integrand m fe se) fe h)
                     p_infty (tc - 2 * t * tb + t * t * ta)).
        { apply is_lim_plus'; [apply is_lim_minus'; [auto|]|].
          - apply (is_lim_scal_l _ (2 * t) p_infty tb). auto.
          - apply (is_lim_scal_l _ (t * t) p_infty ta). auto. }
        assert (Q := fun HQ => is_lim_le_loc (fun _ => 0) _ p_infty 0 _ HQ (is_lim_const 0 p_infty) L). apply Q. exists fe. intros h Hh. apply Tail. lra. }
      intros Ea Eb Ec. apply Ok_inj, fin_inj in Ea, Eb, Ec. subst a b c. lra.
  Qed.
End Ordering.

Lemma tail_nonneg m fe se h : 0 < fe -> 0 <= se -> fe <= h -> (m < 4)%Z -> 0 <= RInt (tail_integrand m fe se) fe h.
Proof.
  intros Hf Hs Hh Hm. apply (is_RInt_ge_0 (tail_integrand m fe se) fe h _ Hh).
  - assert (T := tail_RInt m fe se h Hf Hh ltac:(lia)). rewrite (is_RInt_unique _ _ _ _ T). exact T.
  - intros x Hx. rewrite tail_alt by lra. apply Rmult_le_pos; [|apply powerRZ_le; lra].
    apply Rmult_le_pos; [auto|apply pow_le; lra].
Qed.
(** non-negative densities have non-negative moments, with the tail included *)
Lemma moment_nonneg f0 df s m lo hi v : 0 <= f0 -> 0 < df -> (2 <= length s)%nat -> (forall k, (k < length s)%nat -> 0 <= nth k s 0) ->
  (m < 4)%Z -> lo <> -1 -> hi <> Fin (-1) -> ext_le (Fin lo) hi ->
  moment (axis f0 df (length s)) s m (Fin lo) hi = Ok (Fin v) -> 0 <= v.
Proof.
  intros H0 Hd Hn Hs Hm N1 N2 Hle E. set (f := axis f0 df (length s)) in *.
  assert (Hf : freq_axis f) by (apply axis_freq; auto).
  assert (Lf : length s = length f) by (unfold f; rewrite axis_length; auto).
  destruct (fq_last f 0 Hf) as [_ Pl]. assert (Es : 0 <= last_of s) by (apply Hs; lia).
  assert (Lw : (0 < length (without_zero m f f))%nat) by (assert (W := fq_ne f m Hf); destruct (without_zero m f f); [contradiction|cbn; lia]).
  assert (Body : forall h b, h <> -1 -> lo <= h \/ last_of f <= h -> h <= last_of f -> moment f s m (Fin lo) (Fin h) = Ok (Fin b) -> 0 <= b).
  { intros h b Nh Hl Hh. destruct (moment_in f s m Hf Lf lo h N1 Nh Hl Hh) as (i & j & Ni & Nj & Hij & ->). intros Eb.
    apply Ok_inj, fin_inj in Eb. subst b. apply rsimp_axis_slice; auto. destruct Nj; auto. }
  destruct hi as [h| | |]; try contradiction.
  - assert (Nh : h <> -1) by (intros ->; auto). destruct (Rle_lt_dec h (last_of f)) as [Hh|Hh]; [apply (Body h); auto|].
    destruct (C33_tail_finite f s m lo Hf Lf N1 h) as (b & Eb & Et); [lia|auto|]. rewrite Et in E. apply Ok_inj, fin_inj in E. subst v.
    apply Body in Eb; try lra. assert (T := tail_nonneg m (last_of f) (last_of s) h Pl Es ltac:(lra) Hm). lra.
  - destruct (C33_tail_infinite f s m lo Hf Lf N1 Hm) as (b & Eb & Et & _). rewrite Et in E. apply Ok_inj, fin_inj in E. subst v.
    apply Body in Eb; try lra.
    assert (0 <= last_of s * powerRZ (last_of f) (m + 1) / IZR (4 - m)).
    { apply Rmult_le_pos; [apply Rmult_le_pos; [auto|apply powerRZ_le; auto]|]. apply Rlt_le, Rinv_0_lt_compat. apply (IZR_lt 0). lia. }
    lra.
Qed.

Theorem C34_ordering (f0 df lo : R) (s : list R) (fmin fmax hi : xr) p :
  let f := axis f0 df (length s) in
  0 <= f0 -> 0 < df -> (2 <= length s)%nat -> (forall k, (k < length s)%nat -> 0 <= nth k s 0) ->
  lower_limit f fmin (Fin lo) -> upper_limit f fmax hi -> (exists k, in_band f (Fin lo) hi k) ->
  parameters f s fmin fmax = Ok p -> p_hm0 p <> NaN ->
  ext_le (p_tm02 p) (p_tm01 p) /\ (0 < f0 -> ext_le (p_tm01 p) (p_tmm10 p)).
Proof.
  intros f H0 Hd Hn Hs Hlo Hhi Hb Ep Np.
  assert (Hf : freq_axis f) by (apply axis_freq; auto).
  assert (Lf : length s = length f) by (unfold f; rewrite axis_length; auto).
  destruct (C34_parameters f s fmin fmax hi lo Hf Lf Hlo Hhi Hb) as (m_1 & m0 & m1 & m2 & p' & E_1 & E0 & E1 & E2 & Ep' & Hnan & Hval).
  rewrite Ep in Ep'. apply Ok_inj in Ep'. subst p'.
  destruct Hb as [k Hk]. destruct (band_limits f lo hi k Hf Hk) as [N2 Hle].
  assert (N1 : lo <> -1).
  { destruct Hlo as [[_ E]|[N E]]; [|intros ->; auto]. apply fin_inj in E. destruct Hf as [_ Z0]. lra. }
  destruct (Rlt_le_dec m0 0) as [G|G]; [exfalso; apply Np, Hnan; auto|].
  destruct (Rlt_le_dec (4 * sqrt m0) (1 / 1000000)) as [G'|G']; [exfalso; apply Np, Hnan; auto|].
  destruct (Hval G G') as (_ & Ea & Eb & Ec & Ec' & _).
  assert (P0 : 0 < m0) by (destruct (Req_dec m0 0) as [->|]; [rewrite sqrt_0 in G'; lra|lra]).
  assert (P1 : 0 <= m1) by (apply (moment_nonneg f0 df s 1 lo hi); auto; lia).
  assert (P2 : 0 <= m2) by (apply (moment_nonneg f0 df s 2 lo hi); auto; lia).
  assert (Q : m1 * m1 <= m0 * m2).
  { assert (S := fun t => moments_square f0 df s H0 Hd Hn Hs 0 lo hi m0 m1 m2 t (or_introl (Z.le_refl 0)) ltac:(lia) N1 N2 Hle E0 E1 E2).
    specialize (S (m1 / m0)). apply (Rmult_le_compat_l m0) in S; [|lra].
    replace (m0 * (m2 - 2 * (m1 / m0) * m1 + m1 / m0 * (m1 / m0) * m0)) with (m0 * m2 - m1 * m1) in S by (field; lra). lra. }
  rewrite Eb. split.
  - destruct (Req_EM_T m1 0) as [->|Nm].
    + destruct (Req_dec m2 0) as [->|]; [rewrite Ec' by auto; exact I|]. rewrite Ec by lra. exact I.
    + assert (Q1 : 0 < m1) by lra. assert (Q2 : 0 < m2) by (destruct (Req_dec m2 0) as [E'|]; [rewrite E' in Q; nra|lra]). rewrite Ec by auto. cbn.
      rewrite <- (sqrt_pow2 (m0 / m1)) by (apply Rlt_le, Rdiv_lt_0_compat; auto). apply sqrt_le_1_alt.
      replace ((m0 / m1) ^ 2) with (m0 * m0 / (m1 * m1)) by (field; lra).
      assert (Q3 : 0 < m1 * m1) by (apply Rmult_lt_0_compat; auto).
      apply (Rmult_le_reg_r (m2 * (m1 * m1))); [apply Rmult_lt_0_compat; auto|].
      replace (m0 / m2 * (m2 * (m1 * m1))) with (m0 * (m1 * m1)) by (field; lra).
      replace (m0 * m0 / (m1 * m1) * (m2 * (m1 * m1))) with (m0 * (m0 * m2)) by (field; lra). apply Rmult_le_compat_l; [lra|auto].
  - intros Pf. rewrite Ea.
    assert (P_1 : 0 <= m_1) by (apply (moment_nonneg f0 df s (-1) lo hi); auto; lia).
    assert (Q' : m0 * m0 <= m_1 * m1).
    { assert (S := fun t => moments_square f0 df s H0 Hd Hn Hs (-1) lo hi m_1 m0 m1 t (or_intror Pf) ltac:(lia) N1 N2 Hle E_1 E0 E1).
      destruct (Req_dec m_1 0) as [->|Nm].
      - specialize (S ((m1 + 1) / m0)). replace (m1 - 2 * ((m1 + 1) / m0) * m0 + (m1 + 1) / m0 * ((m1 + 1) / m0) * 0) with (- m1 - 2) in S by (field; lra). lra.
      - specialize (S (m0 / m_1)). apply (Rmult_le_compat_l m_1) in S; [|lra].
        replace (m_1 * (m1 - 2 * (m0 / m_1) * m0 + m0 / m_1 * (m0 / m_1) * m_1)) with (m_1 * m1 - m0 * m0) in S by (field; lra). lra. }
    destruct (Req_EM_T m1 0) as [->|Nm]; [exfalso; nra|]. cbn.
    apply (Rmult_le_reg_r (m0 * m1)); [nra|].
    replace (m0 / m1 * (m0 * m1)) with (m0 * m0) by (field; lra). replace (m_1 / m0 * (m0 * m1)) with (m_1 * m1) by (field; lra). auto.
Qed.
(** with a zero frequency on the axis the order of Tm01 and Tm-1,0 can be reversed: order -1 leaves out that frequency *)
Lemma axis_0_4 : axis 0 1 5 = [0; 1; 2; 3; 4].
Proof. unfold axis. cbn [seq map INR]. repeat (f_equal; [ring|]). f_equal; ring. Qed.
Theorem C34_ordering_with_zero_refuted :
  ~ (forall (f0 df : R) (s : list R) p, 0 <= f0 -> 0 < df -> (2 <= length s)%nat -> (forall k, (k < length s)%nat -> 0 <= nth k s 0) ->
       parameters (axis f0 df (length s)) s (Fin (-1)) (Fin (-1)) = Ok p -> p_hm0 p <> NaN -> ext_le (p_tm01 p) (p_tmm10 p)).
Proof.
  intros H. set (s := [0; 1; 0; 0; 0]). set (f := axis 0 1 (length s)).
  assert (Hf : freq_axis f) by (apply axis_freq; lra || (cbn; lia)).
  assert (Lf : length s = length f) by reflexivity.
  assert (Lo : lower_limit f (Fin (-1)) (Fin (nth 0 f 0))) by (left; auto).
  assert (Hi : upper_limit f (Fin (-1)) (Fin (last_of f))) by (left; auto).
  destruct (C34_parameters f s (Fin (-1)) (Fin (-1)) (Fin (last_of f)) (nth 0 f 0) Hf Lf Lo Hi) as (m_1 & m0 & m1 & m2 & p & E_1 & E0 & E1 & _ & Ep & _ & Hv).
  { exists 0%nat. apply whole_band; [apply good_increasing, Hf|]. rewrite <- Lf. cbn; lia. }
  rewrite <- (proj1 (C32_default_limits f s (-1) (Fin (-1)) Hf Lf)), moment_all in E_1 by auto.
  rewrite <- (proj1 (C32_default_limits f s 0 (Fin (-1)) Hf Lf)), moment_all in E0 by auto.
  rewrite <- (proj1 (C32_default_limits f s 1 (Fin (-1)) Hf Lf)), moment_all in E1 by auto.
  apply Ok_inj, fin_inj in E_1, E0, E1.
  assert (X : f = [0; 1; 2; 3; 4]) by apply axis_0_4. 
  assert (V_1 : m_1 = 1 / 3).
  { rewrite <- E_1, X. unfold weighted, without_zero. cbn [nth Z.ltb Z.compare andb]. rewrite Reqb_true by auto.
    unfold s. unfold rsimp, rbasic, rpanel, rlast. cbn. change (Pos.to_nat 1) with 1%nat. field. }
  assert (V0 : m0 = 4 / 3).
  { rewrite <- E0, X. unfold weighted, without_zero. cbn [Z.ltb Z.compare andb].
    unfold s. unfold rsimp, rbasic, rpanel, rlast. cbn. change (Pos.to_nat 1) with 1%nat. field. }
  assert (V1 : m1 = 4 / 3).
  { rewrite <- E1, X. unfold weighted, without_zero. cbn [Z.ltb Z.compare andb].
    unfold s. unfold rsimp, rbasic, rpanel, rlast. cbn. change (Pos.to_nat 1) with 1%nat. field. }
  assert (S1 : 1 <= sqrt m0) by (rewrite <- sqrt_1, V0; apply sqrt_le_1_alt; lra).
  destruct Hv as (Eh & Ea & Eb & _); [lra|lra|].
  specialize (H 0 1 s p ltac:(lra) ltac:(lra) ltac:(cbn; lia)).
  assert (Q : ext_le (p_tm01 p) (p_tmm10 p)).
  { apply H; auto; [|rewrite Eh; discriminate]. intros k Hk. unfold s in *. cbn [length] in Hk.
    destruct k as [|[|[|[|[|]]]]]; cbn; lra || lia. }
  rewrite Eb, Ea in Q. destruct (Req_EM_T m1 0); [lra|]. cbn in Q. rewrite V_1, V0, V1 in Q.
  replace (4 / 3 / (4 / 3)) with 1 in Q by field. replace (1 / 3 / (4 / 3)) with (1 / 4) in Q by field. lra.
Qed.

(** limits that lie strictly between two frequencies: the moments are computed over the nearest frequencies, but the call fails *)
Theorem C34_narrow_band_refuted :
  ~ (forall (f s : list R) (fmin fmax : R), freq_axis f -> length s = length f -> 0 <= fmin < fmax -> fmax <= last_of f ->
       exists p, parameters f s (Fin fmin) (Fin fmax) = Ok p).
Proof.
  intros H. set (f := axis 0 1 3). set (s := [1; 1; 1]).
  assert (Hf : freq_axis f) by (apply axis_freq; lra || lia).
  assert (Lf : length s = length f) by reflexivity.
  assert (X : f = [0; 1; 2]) by (unfold f, axis; cbn [seq map INR]; repeat (f_equal; [ring|]); f_equal; ring).
  assert (La : last_of f = 2) by (rewrite X; reflexivity).
  destruct (H f s (4/10) (6/10) Hf Lf) as [p Ep]; [lra|lra|].
  assert (Lo : lower_limit f (Fin (4/10)) (Fin (4/10))) by (right; split; [intros E; apply fin_inj in E; lra|auto]).
  assert (Hi : upper_limit f (Fin (6/10)) (Fin (6/10))) by (right; split; [intros E; apply fin_inj in E; lra|auto]).
  assert (Nan : all_nan p).
  { apply (C34_empty_band f s (Fin (4/10)) (Fin (6/10)) (Fin (4/10)) (Fin (6/10)) p Hf Lf Lo Hi); auto.
    intros k (Hk & A & B). rewrite X in *. cbn [length] in Hk. destruct k as [|[|[|]]]; cbn in *; lra || lia. }
  rewrite (params_unfold f s _ _ (Fin (4/10)) (Fin (6/10))) in Ep by auto.
  destruct (moment_finite f s (-1) (4/10) (Fin (6/10))) as [m_1 E_1]; auto; try lra; try lia; [intros E; apply fin_inj in E; lra|cbn; lra|].
  destruct (moment_finite f s 1 (4/10) (Fin (6/10))) as [m1 E1]; auto; try lra; try lia; [intros E; apply fin_inj in E; lra|cbn; lra|].
  destruct (moment_finite f s 2 (4/10) (Fin (6/10))) as [m2 E2]; auto; try lra; try lia; [intros E; apply fin_inj in E; lra|cbn; lra|].
  destruct (moment_in f s 0 Hf Lf (4/10) (6/10)) as (i & j & Ni & Nj & _ & E0); try lra.
  change (without_zero 0 f f) with f in *.
  assert (Inc : increasing f) by (apply good_increasing, Hf).
  assert (i = 0%nat) as ->.
  { apply (nearest_unique f (4/10)); auto. rewrite X. split; [cbn; lia|]. split; [|lia]. intros k Hk. cbn [length] in Hk.
    destruct k as [|[|[|]]]; [| | |lia]; cbn; unfold Rabs; repeat destruct (Rcase_abs _); lra. }
  assert (j = 1%nat) as ->.
  { apply (nearest_unique f (6/10)); auto. rewrite X. split; [cbn; lia|]. split; intros k Hk; [cbn [length] in Hk|].
    - destruct k as [|[|[|]]]; [| | |lia]; cbn; unfold Rabs; repeat destruct (Rcase_abs _); lra.
    - destruct k as [|]; [|lia]; cbn; unfold Rabs; repeat destruct (Rcase_abs _); lra. }
  assert (V : rsimp (slice 0 (1 + 1) f) (slice 0 (1 + 1) (weighted 0 f s)) = 1).
  { rewrite X. unfold weighted, without_zero, s. cbn [Z.ltb Z.compare andb]. unfold rsimp. cbn. field. }
  rewrite V in E0. rewrite E_1, E0, E1, E2, !bind_Ok in Ep. cbv zeta in Ep.
  match type of Ep with (if ?b then _ else _) = _ => destruct b eqn:T end.
  - apply nan_test in T. rewrite sqrt_1 in T. lra.
  - apply bind_inv in Ep as (Tp & _ & Ep). apply bind_inv in Ep as (Tps & _ & Ep). apply Ok_inj in Ep. subst p.
    destruct Nan as [Nh _]. cbn [p_hm0] in Nh. rewrite fin_sqrt, fin_ofZ, fin_mul in Nh by lra. discriminate Nh.
Qed.

(** ** Scaling of the spectrum *)
Section Scale.
  Variables (c : R).
  Hypothesis Hc : 0 < c.
  Definition scaled (s : list R) : list R := map (Rmult c) s.
  Lemma scaled_nth s k : nth k (scaled s) 0 = c * nth k s 0.
  Proof using. clear Hc. unfold scaled. replace 0 with (c * 0) at 1 by ring. apply map_nth. Qed.
  Lemma scaled_length s : length (scaled s) = length s. Proof using. apply map_length. Qed.
  Lemma scaled_max s k : is_max (scaled s) k <-> is_max s k.
  Proof.
    unfold is_max. rewrite scaled_length. split; intros [A B]; (split; [auto|]); intros j Hj; specialize (B j Hj);
    rewrite ?scaled_nth in *; nra.
  Qed.
  Lemma smoothed_scaled f s v : smoothed_peak f s v -> smoothed_peak f (scaled s) v.
  Proof.
    intros H. destruct H as [H|i H U|H M0 M1|i j a b d H U Hj T Ha|i j a b d H U Hj T Ha|i H U|i j H Hij U|i j k H Mi Mj Mk U].
    - apply SP_one_point; auto.
    - apply SP_two_points; auto. intros j. rewrite scaled_max. auto.
    - apply SP_two_points_tie; auto; apply scaled_max; auto.
    - replace (- b / (2 * a)) with (- (c * b) / (2 * (c * a))) by (field; lra).
      apply (SP_parabola _ _ i j (c * a) (c * b) (c * d)); auto; [intros k; rewrite scaled_max; auto| |nra].
      intros k Hk. rewrite scaled_nth, <- T by auto. ring.
    - apply (SP_convex _ _ i j (c * a) (c * b) (c * d)); auto; [intros k; rewrite scaled_max; auto| |nra].
      intros k Hk. rewrite scaled_nth, <- T by auto. ring.
    - apply SP_twin; auto. intros k. rewrite scaled_max. auto.
    - apply (SP_two_apart _ _ i j); auto. intros k. rewrite scaled_max. auto.
    - apply (SP_many _ _ i j k); auto; try (apply scaled_max; auto). intros l Hl. apply U, scaled_max; auto.
  Qed.
End Scale.
(** the smoothed peak frequency is a function of the spectrum *)
Ltac gather := repeat match goal with
  | U : forall k, is_max ?s k <-> k = ?i |- _ =>
      assert (is_max s i) by (apply U; auto); assert (forall k, is_max s k -> k = i) by (intros; apply U; auto); clear U
  | U : forall k, is_max ?s k <-> k = ?i \/ k = ?j |- _ =>
      assert (is_max s i) by (apply U; auto); assert (is_max s j) by (apply U; auto);
      assert (forall k, is_max s k -> k = i \/ k = j) by (intros; apply U; auto); clear U
  end.
Ltac spec := repeat match goal with
  | M : is_max ?s ?i |- _ => lazymatch goal with H : (i < length s)%nat |- _ => fail | _ => assert (i < length s)%nat by (apply M) end
  | M : is_max ?s ?i, U : forall k, is_max ?s k -> @?P k |- _ =>
      let T := eval cbv beta in (P i) in
      lazymatch goal with H : T |- _ => fail | _ => assert T by (apply U; auto) end
  end.
Lemma smoothed_unique f s v w : increasing f -> length s = length f -> smoothed_peak f s v -> smoothed_peak f s w -> v = w.
Proof.
  intros Hi Hl H1 H2.
  assert (FC : forall i j i' j', (3 <= length f)%nat -> i = i' -> fit_centre (length f) i j -> fit_centre (length f) i' j' -> j = j').
  { intros i j i' j' L -> A B. unfold fit_centre in *. lia. }
  assert (R3 : forall i j, (3 <= length f)%nat -> fit_centre (length f) i j -> (1 <= j)%nat /\ (S j < length f)%nat).
  { intros i j L A. unfold fit_centre in *. lia. }
  destruct H1 as [H|i H U|H M0 M1|i j a b d H U Hj T Ha|i j a b d H U Hj T Ha|i H U|i j H Hij U|i j k H Mi Mj Mk U];
  inversion H2 as [H'|i' H' U'|H' M0' M1'|i' j' a' b' d' H' U' Hj' T' Ha'|i' j' a' b' d' H' U' Hj' T' Ha'|i' H' U'|i' j' H' Hij' U'|i' j' k' H' Mi' Mj' Mk' U'];
  subst; try lia; try reflexivity; gather; spec.
  all: try (exfalso; lia).
  all: try (assert (i' = i) as -> by lia); try reflexivity.
  - assert (j' = j) as -> by (apply (FC i _ i); auto). destruct (R3 i j H Hj) as [Q1 Q2].
    destruct (through_unique f s j a b d a' b' d' Hi Q1 Q2 T T') as [-> ->]. reflexivity.
  - assert (j' = j) as -> by (apply (FC i _ i); auto). destruct (R3 i j H Hj) as [Q1 Q2].
    destruct (through_unique f s j a b d a' b' d' Hi Q1 Q2 T T') as [-> ->]. lra.
  - assert (j' = j) as -> by (apply (FC i _ i); auto). destruct (R3 i j H Hj) as [Q1 Q2].
    destruct (through_unique f s j a b d a' b' d' Hi Q1 Q2 T T') as [-> ->]. lra.
  - assert (j' = j) as -> by lia. reflexivity.
Qed.

Theorem C34_scaling (f s : list R) (c lo : R) (fmin fmax hi : xr) p p' :
  0 < c -> freq_axis f -> length s = length f -> lower_limit f fmin (Fin lo) -> upper_limit f fmax hi ->
  parameters f s fmin fmax = Ok p -> parameters f (map (Rmult c) s) fmin fmax = Ok p' ->
  p_hm0 p <> NaN -> p_hm0 p' <> NaN ->
  (exists k, in_band f (Fin lo) hi k /\ 1 / 10000000000 <= nth k s 0 /\ 1 / 10000000000 <= c * nth k s 0) ->
  (exists h, p_hm0 p = Fin h /\ p_hm0 p' = Fin (sqrt c * h))
  /\ p_tmm10 p' = p_tmm10 p /\ p_tm01 p' = p_tm01 p /\ p_tm02 p' = p_tm02 p /\ p_tp p' = p_tp p /\ p_tps p' = p_tps p.
Proof.
  intros Hc Hf Hl Hlo Hhi Ep Ep' Np Np' (e & He & Ee & Ee'). change (map (Rmult c) s) with (scaled c s) in *.
  assert (Hl' : length (scaled c s) = length f) by (rewrite scaled_length; auto).
  assert (Hb : exists k, in_band f (Fin lo) hi k) by eauto.
  destruct (C34_parameters f s fmin fmax hi lo Hf Hl Hlo Hhi Hb) as (m_1 & m0 & m1 & m2 & q & E_1 & E0 & E1 & E2 & Eq & Hnan & Hval).
  destruct (C34_parameters f (scaled c s) fmin fmax hi lo Hf Hl' Hlo Hhi Hb) as (w_1 & w0 & w1 & w2 & q' & F_1 & F0 & F1 & F2 & Eq' & Hnan' & Hval').
  rewrite Ep in Eq. apply Ok_inj in Eq. subst q. rewrite Ep' in Eq'. apply Ok_inj in Eq'. subst q'.
  assert (Sc : forall m u v, moment f s m (Fin lo) hi = Ok (Fin u) -> moment f (scaled c s) m (Fin lo) hi = Ok (Fin v) -> v = c * u).
  { intros m u v Eu Ev. assert (L := C32_linear f s s m c 0 (Fin lo) hi u u Hf Hl Hl Eu Eu).
    replace (map2 (fun x y => c * x + 0 * y) s s) with (scaled c s) in L.
    - rewrite Ev in L. apply Ok_inj, fin_inj in L. lra.
    - apply (nth_ext' _ _ 0); [rewrite map2_length, scaled_length; lia|]. intros k Hk. rewrite scaled_length in Hk.
      rewrite scaled_nth, (map2_nth _ _ _ _ 0 0 0) by auto. ring. }
  assert (w_1 = c * m_1) as -> by (apply (Sc (-1)%Z); auto). assert (w0 = c * m0) as -> by (apply (Sc 0%Z); auto).
  assert (w1 = c * m1) as -> by (apply (Sc 1%Z); auto). assert (w2 = c * m2) as -> by (apply (Sc 2%Z); auto).
  destruct (Rlt_le_dec m0 0) as [G|G]; [exfalso; apply Np, Hnan; auto|].
  destruct (Rlt_le_dec (4 * sqrt m0) (1 / 1000000)) as [G'|G']; [exfalso; apply Np, Hnan; auto|].
  destruct (Rlt_le_dec (c * m0) 0) as [G2|G2]; [exfalso; apply Np', Hnan'; auto|].
  destruct (Rlt_le_dec (4 * sqrt (c * m0)) (1 / 1000000)) as [G2'|G2']; [exfalso; apply Np', Hnan'; auto|].
  destruct (Hval G G') as (V1 & V2 & V3 & V4 & V5 & V6 & V7). destruct (Hval' G2 G2') as (W1 & W2 & W3 & W4 & W5 & W6 & W7).
  assert (P0 : 0 < m0) by (destruct (Req_dec m0 0) as [->|]; [rewrite sqrt_0 in G'; lra|lra]).
  split; [exists (4 * sqrt m0); split; [auto|]; rewrite W1, sqrt_mult by lra; f_equal; ring|].
  split; [rewrite V2, W2; f_equal; field; lra|].
  split.
  { rewrite V3, W3. destruct (Req_EM_T m1 0) as [Z1|N], (Req_EM_T (c * m1) 0) as [M|M]; try reflexivity.
    - exfalso. apply M. rewrite Z1. ring.
    - exfalso. apply Rmult_integral in M as [|]; lra.
    - f_equal. field. lra. }
  split.
  { destruct (Rtotal_order m2 0) as [L|[L|L]].
    - rewrite V6, W6; auto. nra.
    - rewrite V5, W5; auto. rewrite L; ring.
    - rewrite V4, W4 by (auto; nra). do 2 f_equal. field. lra. }
  set (sp := fresh (N:=NX) (F f) (F s)). set (sp' := fresh (N:=NX) (F f) (F (scaled c s))).
  destruct (V7 sp eq_refl eq_refl) as [Tp Tps]. destruct (W7 sp' eq_refl eq_refl) as [Tp' Tps']. split.
  - destruct (C35_peak_period f s fmin fmax (Fin lo) hi sp eq_refl eq_refl (proj1 Hf) Hl Hlo Hhi Hb) as (k & (A1 & A2 & A3) & X).
    destruct (C35_peak_period f (scaled c s) fmin fmax (Fin lo) hi sp' eq_refl eq_refl (proj1 Hf) Hl' Hlo Hhi Hb) as (k' & (B1 & B2 & B3) & X').
    assert (k' = k) as ->.
    { destruct (Nat.lt_total k k') as [L|[L|L]]; [|auto|].
      - specialize (A3 k' B1 L). specialize (B2 k A1). rewrite !scaled_nth in B2. nra.
      - specialize (B3 k A1 L). specialize (A2 k' B1). rewrite !scaled_nth in B3. nra. }
    rewrite Tp in X. rewrite Tp' in X'. apply Ok_inj in X, X'. congruence.
  - destruct (C36_get_Tps f s fmin fmax (Fin lo) hi sp eq_refl eq_refl (proj1 Hf) Hl Hlo Hhi Hb) as (i & j & Hij & Hr & X).
    destruct (C36_get_Tps f (scaled c s) fmin fmax (Fin lo) hi sp' eq_refl eq_refl (proj1 Hf) Hl' Hlo Hhi Hb) as (i' & j' & Hij' & Hr' & X').
    assert (i' = i /\ j' = j) as [-> ->].
    { assert (A := proj2 (Hr i) ltac:(lia)). apply Hr' in A. assert (B := proj2 (Hr j) ltac:(lia)). apply Hr' in B.
      assert (A' := proj2 (Hr' i') ltac:(lia)). apply Hr in A'. assert (B' := proj2 (Hr' j') ltac:(lia)). apply Hr in B'. lia. }
    assert (Hie := proj1 (Hr e) He).
    set (fb := slice i (j + 1) f) in *. set (sb := slice i (j + 1) s) in *.
    assert (Esb : slice i (j + 1) (scaled c s) = scaled c sb).
    { unfold sb, scaled, slice. rewrite skipn_map, firstn_map. reflexivity. }
    rewrite Esb in X'.
    assert (Lf : length fb = (j + 1 - i)%nat) by (unfold fb; rewrite slice_length; lia).
    assert (Ls : length sb = (j + 1 - i)%nat) by (unfold sb; rewrite slice_length; lia).
    assert (Ib : increasing fb) by (apply slice_inc, good_increasing, Hf).
    assert (Nf : fb <> []) by (intros E; rewrite E in Lf; cbn in Lf; lia).
    assert (Ve : nth (e - i) sb 0 = nth e s 0) by (unfold sb; rewrite slice_nth by lia; f_equal; lia).
    destruct (C36_value fb sb Ib Nf) as (v & Sv & Ev); [lia|exists (e - i)%nat; rewrite Ve; split; [lia|auto]|].
    destruct (C36_value fb (scaled c sb) Ib Nf) as (w & Sw & Ew); [rewrite scaled_length; lia|exists (e - i)%nat; rewrite scaled_length, scaled_nth, Ve; split; [lia|auto]|].
    assert (w = v) as -> by (apply (smoothed_unique fb (scaled c sb)); auto; [rewrite scaled_length; lia|apply smoothed_scaled; auto]).
    rewrite Ev in X. rewrite Ew in X'. rewrite Tps in X. rewrite Tps' in X'. apply Ok_inj in X, X'. congruence.
Qed.

Example C34_witness : freq_axis (axis 0 1 5) /\ lower_limit (axis 0 1 5) (Fin (-1)) (Fin 0)
  /\ upper_limit (axis 0 1 5) PInf PInf /\ in_band (axis 0 1 5) (Fin 0) PInf 1
  /\ exists v, moment (axis 0 1 5) [0; 1; 0; 0; 0] 0 (Fin (-1)) (Fin (-1)) = Ok (Fin v) /\ 1 <= v.
Proof.
  split; [apply axis_freq; lra || lia|]. rewrite axis_0_4. split; [left; split; reflexivity|].
  split; [right; split; [discriminate|reflexivity]|]. split; [split; [cbn; lia|split; cbn; [lra|exact I]]|].
  rewrite moment_all by (auto; rewrite <- axis_0_4; apply axis_freq; lra || lia). eexists. split; [reflexivity|].
  unfold weighted, without_zero. cbn [Z.ltb Z.compare andb]. unfold rsimp, rbasic, rpanel, rlast. cbn. lra.
Qed.

(** the relation of C36 determines the smoothed peak frequency *)
Theorem C36_peak_unique f s v w : increasing f -> length s = length f -> smoothed_peak f s v -> smoothed_peak f s w -> v = w.
Proof. exact (smoothed_unique f s v w). Qed.
