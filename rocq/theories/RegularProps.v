(** * Wave-by-wave analysis of a sampled regular (sinusoidal) wave (C72) *)

From Coq Require Import Reals ZArith String List Bool Lra Lia Permutation.
From Coquelicot Require Import Coquelicot.
From Verif Require Import Num XR Spec XRFacts Engine EngineProps TimeModel TimeSpec TimeProps TimeProps2 TimeProps3 SeriesModel SeriesProps
  WHProps WHStats.
Import ListNotations.
Open Scope R_scope.

(** samples of A sin(w t + p) *)
Definition sine (A w p : R) (t : list R) : list R := map (fun s => A * sin (w * s + p)) t.
(** the times at which A sin(w t + p) goes through zero in the given direction, numbered by the integers *)
Definition zero_time (d : direction) (w p : R) (m : Z) : R :=
  (2 * PI * IZR m + match d with Up => 0 | Down => PI end - p) / w.

(** ** Sines *)
Lemma sin_per x (m : Z) : sin (x + 2 * PI * IZR m) = sin x.
Proof.
  destruct (Z_le_gt_dec 0 m) as [H|H].
  - replace m with (Z.of_nat (Z.to_nat m)) by lia. rewrite <- INR_IZR_INZ.
    replace (x + 2 * PI * INR (Z.to_nat m)) with (x + 2 * INR (Z.to_nat m) * PI) by ring. apply sin_period.
  - assert (exists n, m = - Z.of_nat n)%Z as [n ->] by (exists (Z.to_nat (- m)); lia). rewrite opp_IZR, <- INR_IZR_INZ.
    rewrite <- (sin_period (x + 2 * PI * - INR n) n). f_equal. ring.
Qed.
Definition zph (d : direction) (m : Z) : R := 2 * PI * IZR m + match d with Up => 0 | Down => PI end.

Lemma floor_exists x : exists m : Z, IZR m <= x < IZR m + 1.
Proof. exists (up x - 1)%Z. rewrite minus_IZR. destruct (archimed x). lra. Qed.
Lemma period_exists x : exists m : Z, 2 * PI * IZR m <= x < 2 * PI * IZR m + 2 * PI.
Proof.
  assert (P := PI_RGT_0). destruct (floor_exists (x / (2 * PI))) as [m [A B]]. exists m.
  assert (E : x = 2 * PI * (x / (2 * PI))) by (field; lra). split.
  - rewrite E at 1. apply Rmult_le_compat_l; lra.
  - rewrite E at 1. replace (2 * PI * IZR m + 2 * PI) with (2 * PI * (IZR m + 1)) by ring. apply Rmult_lt_compat_l; lra.
Qed.
Lemma down_phase a b : a < b < a + PI -> (0 <= sin a /\ sin b < 0) <-> exists m, a <= zph Down m < b.
Proof.
  intros H. assert (P := PI_RGT_0). unfold zph. split.
  - intros [A B]. destruct (period_exists a) as [m [L U]]. exists m.
    assert (Ea : sin a = sin (a - 2 * PI * IZR m)) by (rewrite <- (sin_per (a - 2 * PI * IZR m) m); f_equal; ring).
    assert (Eb : sin b = sin (b - 2 * PI * IZR m)) by (rewrite <- (sin_per (b - 2 * PI * IZR m) m); f_equal; ring).
    rewrite Ea in A. rewrite Eb in B. set (a' := a - 2 * PI * IZR m) in *. set (b' := b - 2 * PI * IZR m) in *.
    assert (a' <= PI) by (destruct (Rle_lt_dec a' PI); [auto|]; assert (sin a' < 0) by (apply sin_lt_0; unfold a' in *; lra); lra).
    assert (PI < b') by (destruct (Rle_lt_dec b' PI); [|auto]; assert (0 <= sin b') by (apply sin_ge_0; unfold b' in *; lra); lra).
    unfold a', b' in *. lra.
  - intros (m & L & U).
    assert (Ea : sin a = sin (a - 2 * PI * IZR m)) by (rewrite <- (sin_per (a - 2 * PI * IZR m) m); f_equal; ring).
    assert (Eb : sin b = sin (b - 2 * PI * IZR m)) by (rewrite <- (sin_per (b - 2 * PI * IZR m) m); f_equal; ring).
    rewrite Ea, Eb. split; [apply sin_ge_0; lra|apply sin_lt_0; lra].
Qed.
Lemma up_phase a b : a < b < a + PI -> (sin a <= 0 /\ 0 < sin b) <-> exists m, a <= zph Up m < b.
Proof.
  intros H. assert (D := down_phase (a + PI) (b + PI) ltac:(lra)). rewrite !neg_sin in D. unfold zph in *.
  split.
  - intros [A B]. destruct (proj1 D) as (m & L & U); [lra|]. exists m. lra.
  - intros (m & L & U). destruct (proj2 D) as [A B]; [exists m; lra|]. lra.
Qed.

(** sin y / y decreases on (0, pi) *)
Lemma sinc_decreasing u v : 0 < u <= v -> v <= PI -> u * sin v <= v * sin u.
Proof.
  intros [Hu Huv] Hv. destruct (Req_dec u v) as [->|N]; [lra|].
  destruct (MVT_cor2 sin cos 0 u Hu) as (c1 & E1 & H1); [intros; apply derivable_pt_lim_sin|].
  destruct (MVT_cor2 sin cos u v ltac:(lra)) as (c2 & E2 & H2); [intros; apply derivable_pt_lim_sin|].
  rewrite sin_0 in E1. assert (C : cos c2 <= cos c1) by (left; apply cos_decreasing_1; lra).
  assert (Eu : sin u = cos c1 * u) by lra. assert (Ev : sin v = cos c1 * u + cos c2 * (v - u)) by lra.
  assert (Hp : cos c2 * (u * (v - u)) <= cos c1 * (u * (v - u))) by (apply Rmult_le_compat_r; [apply Rmult_le_pos; lra|auto]).
  rewrite Eu, Ev. lra.
Qed.
(** error of the linear interpolation of a sine zero *)
Lemma secant_error u v : 0 <= u -> 0 < v -> u + v < PI ->
  Rabs ((v * sin u - u * sin v) / (sin u + sin v)) <= (u + v) / 4 * ((u + v) / sin (u + v) - 1).
Proof.
  intros Hu Hv Hs. assert (S0 : 0 < sin (u + v)) by (apply sin_gt_0; lra).
  assert (S1 : 0 < sin v) by (apply sin_gt_0; lra). assert (S2 : 0 <= sin u) by (apply sin_ge_0; lra).
  assert (Hq : 1 <= (u + v) / sin (u + v)).
  { apply Rmult_le_reg_r with (sin (u + v)); auto. unfold Rdiv. rewrite Rmult_assoc, Rinv_l by lra.
    assert (sin (u + v) < u + v) by (apply sin_lt_x; lra). lra. }
  destruct (Req_dec u 0) as [->|Nu].
  { rewrite sin_0. replace ((v * 0 - 0 * sin v) / (0 + sin v)) with 0 by (field; lra). rewrite Rabs_R0.
    rewrite Rplus_0_l in *. apply Rmult_le_pos; lra. }
  assert (Hu' : 0 < u) by lra. assert (S2' : 0 < sin u) by (apply sin_gt_0; lra).
  (* wlog by symmetry of the final estimate *)
  assert (K : forall a b, 0 < a <= b -> a + b < PI -> 0 < sin a -> 0 < sin b -> 0 < sin (a + b) ->
      0 <= (b * sin a - a * sin b) / (sin a + sin b) <= (a + b) / 4 * ((a + b) / sin (a + b) - 1)).
  { clear. intros a b Hab Hs Sa Sb Ss. assert (D1 := sinc_decreasing a b Hab ltac:(lra)).
    assert (D2 := sinc_decreasing b (a + b) ltac:(lra) ltac:(lra)).
    assert (La : sin a < a) by (apply sin_lt_x; lra).
    split; [apply Rmult_le_pos; [lra|left; apply Rinv_0_lt_compat; lra]|].
    apply Rmult_le_reg_r with (sin a + sin b); [lra|]. unfold Rdiv at 1. rewrite Rmult_assoc, Rinv_l by lra. rewrite Rmult_1_r.
    (* q = sin b / b *)
    set (q := sin b / b). assert (Eb : sin b = q * b) by (unfold q; field; lra).
    assert (Hq : 0 < q) by (unfold q; apply Rdiv_lt_0_compat; lra).
    assert (L1 : q * (a + b) <= sin a + sin b).
    { assert (q * a <= sin a); [|lra]. apply Rmult_le_reg_r with b; [lra|]. unfold q. replace (sin b / b * a * b) with (a * sin b) by (field; lra). lra. }
    assert (L2 : (a + b) / sin (a + b) >= 1 / q).
    { unfold q. replace (1 / (sin b / b)) with (b / sin b) by (field; lra). apply Rle_ge.
      apply Rmult_le_reg_r with (sin b * sin (a + b)); [apply Rmult_lt_0_compat; lra|].
      replace (b / sin b * (sin b * sin (a + b))) with (b * sin (a + b)) by (field; lra).
      replace ((a + b) / sin (a + b) * (sin b * sin (a + b))) with ((a + b) * sin b) by (field; lra). lra. }
    assert (Hq1 : q <= 1).
    { unfold q. apply Rmult_le_reg_r with b; [lra|]. unfold Rdiv. rewrite Rmult_assoc, Rinv_l by lra.
      assert (sin b < b) by (apply sin_lt_x; lra). lra. }
    assert (L3 : b * sin a - a * sin b <= a * b * (1 - q)) by (rewrite Eb; nra).
    assert (L4 : a * b <= (a + b) * (a + b) / 4) by (assert (0 <= (a - b) * (a - b)) by nra; lra).
    apply Rle_trans with ((a + b) * (a + b) / 4 * (1 - q)).
    { eapply Rle_trans; [exact L3|]. apply Rmult_le_compat_r; lra. }
    replace ((a + b) * (a + b) / 4 * (1 - q)) with ((a + b) / 4 * (1 / q - 1) * (q * (a + b))) by (field; lra).
    apply Rmult_le_compat; [|apply Rmult_le_pos; lra| |auto].
    - apply Rmult_le_pos; [lra|]. assert (1 <= 1 / q); [|lra]. apply Rmult_le_reg_r with q; [auto|]. unfold Rdiv. rewrite Rmult_assoc, Rinv_l by lra. lra.
    - apply Rmult_le_compat_l; lra. }
  destruct (Rle_lt_dec u v) as [H|H].
  - rewrite Rabs_pos_eq; apply K; auto; lra.
  - replace ((v * sin u - u * sin v) / (sin u + sin v)) with (- ((u * sin v - v * sin u) / (sin v + sin u))) by (field; lra).
    rewrite Rabs_Ropp. replace (u + v) with (v + u) in * by ring. rewrite Rabs_pos_eq; apply K; auto; lra.
Qed.

(** ** Crossings of the samples and zeros of the sine *)
Section Regular.
  Variables (t0 dt A w p : R) (n : nat) (d : direction).
  Hypothesis (Hdt : 0 < dt) (HA : 0 < A) (Hw : 0 < w) (Hnyq : w * dt < PI).
  Let x := sine A w p (axis t0 dt n).
  Let Th (k : nat) := w * (t0 + INR k * dt) + p.
  Lemma x_length : length x = n. Proof. unfold x, sine. rewrite map_length. apply axis_length. Qed.
  Lemma x_nth k : (k < n)%nat -> nth k x 0 = A * sin (Th k).
  Proof.
    intros H. unfold x, sine. rewrite (nth_indep _ 0 ((fun s => A * sin (w * s + p)) 0)) by (rewrite map_length, axis_length; auto).
    rewrite (map_nth (fun s => A * sin (w * s + p))), axis_nth by auto. reflexivity.
  Qed.
  Lemma Th_S k : Th (S k) = Th k + w * dt. Proof. unfold Th. rewrite S_INR. ring. Qed.
  Lemma Th_le i j : (i <= j)%nat -> Th i <= Th j.
  Proof.
    intros H. unfold Th. apply Rplus_le_compat_r, Rmult_le_compat_l; [lra|]. apply Rplus_le_compat_l, Rmult_le_compat_r; [lra|]. apply le_INR; auto.
  Qed.
  Lemma Th_lt_inv i j : Th i < Th j -> (i < j)%nat.
  Proof. intros H. destruct (Nat.lt_ge_cases i j); auto. assert (D := Th_le j i H0). lra. Qed.
  Lemma wdt_pos : 0 < w * dt. Proof. apply Rmult_lt_0_compat; auto. Qed.

  Lemma crosses_phase i : Rcrosses d x i <-> (S i < n)%nat /\ exists m, Th i <= zph d m < Th (S i).
  Proof.
    unfold Rcrosses. rewrite x_length. assert (P := wdt_pos). split; intros [H H']; (split; [exact H|]); rewrite !x_nth in * by lia.
    - assert (B : Th i < Th (S i) < Th i + PI) by (rewrite Th_S; lra). destruct d.
      + apply (up_phase _ _ B). split; [destruct H' as [H' _]|destruct H' as [_ H']].
        * destruct (Rle_lt_dec (sin (Th i)) 0); [auto|]. assert (0 < A * sin (Th i)) by (apply Rmult_lt_0_compat; auto). lra.
        * destruct (Rle_lt_dec (sin (Th (S i))) 0); [|auto]. assert (A * sin (Th (S i)) <= 0) by nra. lra.
      + apply (down_phase _ _ B). split; [destruct H' as [H' _]|destruct H' as [_ H']].
        * destruct (Rle_lt_dec 0 (sin (Th i))); [auto|]. assert (A * sin (Th i) < 0) by nra. lra.
        * destruct (Rle_lt_dec 0 (sin (Th (S i)))); [|auto]. assert (0 <= A * sin (Th (S i))) by (apply Rmult_le_pos; lra). lra.
    - assert (B : Th i < Th (S i) < Th i + PI) by (rewrite Th_S; lra). destruct d.
      + apply (up_phase _ _ B) in H'. split; [nra|]. apply Rmult_lt_0_compat; lra.
      + apply (down_phase _ _ B) in H'. split; [apply Rmult_le_pos; lra|]. nra.
  Qed.
  Lemma bracket v a b : (a < b)%nat -> Th a <= v < Th b -> exists i, (a <= i < b)%nat /\ Th i <= v < Th (S i).
  Proof.
    induction b as [|b IH]; intros H Hv; [lia|]. destruct (Rle_lt_dec (Th b) v) as [L|L].
    - exists b. split; [lia|lra].
    - assert (a < b)%nat by (apply Th_lt_inv; lra). destruct (IH H0) as (i & Hi & Hv'); [lra|]. exists i. split; [lia|auto].
  Qed.
  Lemma zph_S m : zph d (m + 1) = zph d m + 2 * PI. Proof. unfold zph. rewrite plus_IZR. ring. Qed.
  Lemma zph_lt m m' : zph d m < zph d m' <-> (m < m')%Z.
  Proof.
    assert (P := PI_RGT_0). unfold zph. split; intros H.
    - apply lt_IZR. apply Rmult_lt_reg_l with (2 * PI); lra.
    - apply IZR_lt in H. apply (Rmult_lt_compat_l (2 * PI)) in H; lra.
  Qed.
  Lemma zph_le m m' : (m <= m')%Z -> zph d m <= zph d m'.
  Proof. intros H. destruct (Z.eq_dec m m') as [->|N]; [lra|]. left. apply zph_lt. lia. Qed.

  Lemma ascending_gap (is : list nat) k i : ascending is -> (S k < length is)%nat -> (nth k is 0 < i < nth (S k) is 0)%nat -> ~ In i is.
  Proof.
    intros Ha Hk Hi Hin. apply (In_nth _ _ 0%nat) in Hin as (j & Hj & E).
    destruct (Nat.lt_trichotomy j k) as [L|[->|L]].
    - assert (Q := Ha j k ltac:(lia)). lia.
    - lia.
    - destruct (Nat.eq_dec j (S k)) as [->|N]; [lia|]. assert (Q := Ha (S k) j ltac:(lia)). lia.
  Qed.

  Section List_.
    Variables (is : list nat).
    Hypothesis Hall : all_crossings d x is.
    Lemma is_phase k : (k < length is)%nat -> (S (nth k is 0) < n)%nat /\ exists m, Th (nth k is 0%nat) <= zph d m < Th (S (nth k is 0%nat)).
    Proof. intros H. apply crosses_phase, Hall, nth_In. auto. Qed.
    Lemma consecutive : is <> [] -> exists m0, forall k, (k < length is)%nat -> Th (nth k is 0%nat) <= zph d (m0 + Z.of_nat k) < Th (S (nth k is 0%nat)).
    Proof.
      intros Hne. assert (L0 : (0 < length is)%nat) by (destruct is; [contradiction|cbn; lia]).
      destruct (is_phase 0 L0) as (_ & m0 & H0). exists m0. induction k as [|k IH]; intros Hk.
      - rewrite Z.add_0_r. exact H0.
      - specialize (IH ltac:(lia)). destruct (is_phase (S k) Hk) as (Ln & m & Hm).
        assert (Lt : (nth k is 0 < nth (S k) is 0)%nat) by (apply Hall; lia).
        assert (T := Th_le (S (nth k is 0%nat)) (nth (S k) is 0%nat) Lt).
        assert (Hmm : (m0 + Z.of_nat k < m)%Z) by (apply zph_lt; lra).
        replace (m0 + Z.of_nat (S k))%Z with (m0 + Z.of_nat k + 1)%Z by lia.
        destruct (Z.eq_dec m (m0 + Z.of_nat k + 1)) as [<-|N]; [exact Hm|]. exfalso.
        assert (Z1 : zph d (m0 + Z.of_nat k + 1) < zph d m) by (apply zph_lt; lia).
        assert (Z2 := zph_S (m0 + Z.of_nat k)). assert (P := PI_RGT_0). assert (Q := wdt_pos).
        assert (zph d (m0 + Z.of_nat k + 1) + 2 * PI <= zph d m) by (rewrite <- zph_S; apply zph_le; lia).
        rewrite Th_S in *.
        destruct (bracket (zph d (m0 + Z.of_nat k + 1)) (S (nth k is 0%nat)) (nth (S k) is 0%nat)) as (i & Hi & Hb).
        + apply Th_lt_inv. rewrite Th_S. lra.
        + rewrite Th_S. lra.
        + apply (ascending_gap is k i (proj1 Hall) Hk ltac:(lia)). apply Hall, crosses_phase. split; [lia|]. eauto.
    Qed.
    Lemma complete_ m0 : (forall k, (k < length is)%nat -> Th (nth k is 0%nat) <= zph d (m0 + Z.of_nat k) < Th (S (nth k is 0%nat))) ->
      forall m, (0 < n)%nat -> (Th 0 <= zph d m < Th (n - 1) <-> exists k, (k < length is)%nat /\ m = (m0 + Z.of_nat k)%Z).
    Proof.
      intros H m Hn. split.
      - intros Hm. destruct (bracket (zph d m) 0 (n - 1)) as (i & Hi & Hb); [apply Th_lt_inv; lra|auto|].
        assert (Hin : In i is) by (apply Hall, crosses_phase; split; [lia|eauto]).
        apply (In_nth _ _ 0%nat) in Hin as (k & Hk & E). exists k. split; [auto|]. specialize (H k Hk). rewrite E in H.
        assert (P := PI_RGT_0). rewrite Th_S in *.
        destruct (Z.lt_trichotomy m (m0 + Z.of_nat k)) as [L|[L|L]]; auto; exfalso.
        + assert (zph d (m + 1) <= zph d (m0 + Z.of_nat k)) by (apply zph_le; lia). rewrite zph_S in *. lra.
        + assert (zph d (m0 + Z.of_nat k + 1) <= zph d m) by (apply zph_le; lia). rewrite zph_S in *. lra.
      - intros (k & Hk & ->). destruct (is_phase k Hk) as [L _]. specialize (H k Hk).
        assert (A1 := Th_le 0 (nth k is 0%nat) ltac:(lia)). assert (A2 := Th_le (S (nth k is 0%nat)) (n - 1) ltac:(lia)). lra.
    Qed.
  End List_.
  Lemma zero_time_phase m : zph d m = w * zero_time d w p m + p.
  Proof. unfold zph, zero_time. field. lra. Qed.
  Lemma phase_time_le k m : Th k <= zph d m <-> t0 + INR k * dt <= zero_time d w p m.
  Proof. rewrite zero_time_phase. unfold Th. split; intros H; [apply Rmult_le_reg_l with w; lra|apply (Rmult_le_compat_l w) in H; lra]. Qed.
  Lemma phase_time_lt k m : zph d m < Th k <-> zero_time d w p m < t0 + INR k * dt.
  Proof. rewrite zero_time_phase. unfold Th. split; intros H; [apply Rmult_lt_reg_l with w; lra|apply (Rmult_lt_compat_l w) in H; lra]. Qed.

  (** the interpolated crossing is close to the zero of the sine in the same sample interval *)
  Definition timing_error : R := dt / 4 * (w * dt / sin (w * dt) - 1).
  Lemma crossing_accuracy i m tau : (S i < n)%nat -> Th i <= zph d m < Th (S i) ->
    nth i x 0 + (nth (S i) x 0 - nth i x 0) * ((tau - (t0 + INR i * dt)) / dt) = 0 ->
    Rabs (tau - zero_time d w p m) <= timing_error.
  Proof.
    intros Hi Hm E. rewrite !x_nth in E by lia. set (u := zph d m - Th i). set (v := Th (S i) - zph d m).
    assert (Huv : u + v = w * dt) by (unfold u, v; rewrite Th_S; ring).
    set (l := (tau - (t0 + INR i * dt)) / dt) in *.
    assert (Hu : 0 <= u) by (unfold u; lra). assert (Hv : 0 < v) by (unfold v; lra).
    assert (S1 : 0 < sin v) by (apply sin_gt_0; lra). assert (S2 : 0 <= sin u) by (apply sin_ge_0; lra).
    assert (El : sin u = (sin u + sin v) * l).
    { destruct d.
      - assert (Ea : sin (Th i) = - sin u).
        { replace (Th i) with (- u + 2 * PI * IZR m) by (unfold u, zph; ring). rewrite sin_per. apply sin_neg. }
        assert (Eb : sin (Th (S i)) = sin v).
        { replace (Th (S i)) with (v + 2 * PI * IZR m) by (unfold v, zph; ring). apply sin_per. }
        rewrite Ea, Eb in E. apply Rmult_eq_reg_l with A; [|lra]. lra.
      - assert (Ea : sin (Th i) = sin u).
        { replace (Th i) with (PI - u + 2 * PI * IZR m) by (unfold u, zph; ring). rewrite sin_per. apply sin_PI_x. }
        assert (Eb : sin (Th (S i)) = - sin v).
        { replace (Th (S i)) with (v + PI + 2 * PI * IZR m) by (unfold v, zph; ring). rewrite sin_per. apply neg_sin. }
        rewrite Ea, Eb in E. apply Rmult_eq_reg_l with A; [|lra]. lra. }
    assert (Et : tau - zero_time d w p m = (v * sin u - u * sin v) / (sin u + sin v) / w).
    { assert (Etau : tau = t0 + INR i * dt + l * dt) by (unfold l; field; lra). rewrite Etau. clearbody l.
      assert (Eu : u = w * (zero_time d w p m - (t0 + INR i * dt))) by (unfold u; rewrite zero_time_phase; unfold Th; ring).
      assert (Elv : l = sin u / (sin u + sin v)) by (apply Rmult_eq_reg_l with (sin u + sin v); [|lra]; rewrite <- El; field; lra).
      assert (Ez : zero_time d w p m = t0 + INR i * dt + u / w) by (rewrite Eu; field; lra). rewrite Ez, Elv.
      assert (Ed : dt = (u + v) / w) by (rewrite Huv; field; lra). clearbody u v.
      replace (t0 + INR i * dt + sin u / (sin u + sin v) * dt - (t0 + INR i * dt + u / w)) with (sin u / (sin u + sin v) * dt - u / w) by ring.
      rewrite Ed. field. lra. }
    rewrite Et. unfold Rdiv at 1. rewrite Rabs_mult, (Rabs_pos_eq (/ w)) by (left; apply Rinv_0_lt_compat; auto).
    assert (B := secant_error u v Hu Hv ltac:(lra)). rewrite Huv in B.
    apply Rle_trans with (w * dt / 4 * (w * dt / sin (w * dt) - 1) * / w).
    - apply Rmult_le_compat_r; [left; apply Rinv_0_lt_compat; auto|exact B].
    - unfold timing_error. right. field. split; [|lra]. assert (0 < sin (w * dt)) by (apply sin_gt_0; [apply wdt_pos|auto]). lra.
  Qed.

  (** a sample within half a step of any time covered by the record *)
  Lemma near_sample v : (0 < n)%nat -> Th 0 <= v <= Th (n - 1) -> exists j, (j < n)%nat /\ Rabs (Th j - v) <= w * dt / 2.
  Proof.
    intros Hn [H1 H2]. assert (P := wdt_pos). destruct (Rle_lt_or_eq_dec _ _ H2) as [L|L].
    - destruct (bracket v 0 (n - 1)) as (i & Hi & Hb); [apply Th_lt_inv; lra|lra|]. rewrite Th_S in Hb.
      destruct (Rle_lt_dec (v - Th i) (w * dt / 2)) as [Q|Q].
      + exists i. split; [lia|]. rewrite Rabs_left1 by lra. lra.
      + exists (S i). split; [lia|]. rewrite Th_S, Rabs_pos_eq by lra. lra.
    - exists (n - 1)%nat. split; [lia|]. rewrite <- L, Rminus_eq_0, Rabs_R0. lra.
  Qed.
End Regular.

(** ** C72 *)

(** the crossings found are, one for one, the zeros of the sine in the record, each located within [timing_error] *)
Theorem C72_crossings (t0 dt A w p : R) (n : nat) (s : string) (d : direction) :
  names s d -> 0 < dt -> (2 <= n)%nat -> 0 < A -> 0 < w -> w * dt < PI ->
  let t := axis t0 dt n in
  exists (m0 : Z) (tau : list R) (tc : arr NX),
    determine_zero_crossing (Arr (vec (F t))) (Arr (vec (F (sine A w p t)))) s = Ok (Z.of_nat (length tau - 1), tc)
    /\ data tc = F tau
    /\ (forall k, (k < length tau)%nat ->
          Rabs (nth k tau 0 - zero_time d w p (m0 + Z.of_nat k)) <= dt / 4 * (w * dt / sin (w * dt) - 1)
          /\ Rabs (nth k tau 0 - zero_time d w p (m0 + Z.of_nat k)) < dt)
    /\ (forall m, t0 <= zero_time d w p m < t0 + INR (n - 1) * dt
                  <-> exists k, (k < length tau)%nat /\ m = (m0 + Z.of_nat k)%Z).
Proof.
  intros Hn Hdt H2 HA Hw Hq t. set (x := sine A w p t).
  assert (Lx : length x = n) by apply x_length.
  destruct (C07_crossing_times t0 dt x s d Hn Hdt ltac:(lia)) as (is & tau & tc & Hall & L & E & D & Inc & T).
  rewrite Lx in E. fold t in E. unfold x, t in Hall.
  assert (Hc : exists m0, forall k, (k < length is)%nat ->
     w * (t0 + INR (nth k is 0%nat) * dt) + p <= zph d (m0 + Z.of_nat k) < w * (t0 + INR (S (nth k is 0%nat)) * dt) + p).
  { destruct is as [|a l]; [exists 0%Z; intros k Hk; cbn in Hk; lia|]. apply (consecutive t0 dt A w p n d Hdt HA Hw Hq _ Hall). discriminate. }
  destruct Hc as [m0 Hm0]. exists m0, tau, tc. split; [rewrite L; exact E|]. split; [exact D|]. split.
  - intros k Hk. destruct (T k Hk) as [Tk Lin]. assert (Hk' : (k < length is)%nat) by lia.
    destruct (is_phase t0 dt A w p n d Hdt HA Hw Hq is Hall k Hk') as [Ln _]. split.
    + apply (crossing_accuracy t0 dt A w p n d Hdt HA Hw Hq (nth k is 0%nat)); auto.
    + destruct (Hm0 k Hk') as [P1 P2].
      apply (phase_time_le t0 dt w p d Hw) in P1. apply (phase_time_lt t0 dt w p d Hw) in P2. rewrite S_INR in P2.
      apply Rabs_lt_between. lra.
  - intros m. rewrite L. rewrite <- (complete_ t0 dt A w p n d Hdt HA Hw Hq is Hall m0 Hm0 m ltac:(lia)).
    rewrite phase_time_le, phase_time_lt by auto. cbn [INR]. replace (t0 + 0 * dt) with t0 by ring. tauto.
Qed.

Lemma phase_crest d : exists k, match d with Up => 0 | Down => PI end + (match d with Up => PI / 2 | Down => 3 * PI / 2 end) = PI / 2 + 2 * PI * IZR k.
Proof. destruct d; [exists 0%Z|exists 1%Z]; lra. Qed.
(** within half a step of a crest (trough) of the sine the samples are within cos(w dt / 2) of the amplitude *)
Lemma near_crest A th m e : 0 < A -> 0 <= e <= PI -> Rabs (th - (PI / 2 + 2 * PI * IZR m)) <= e -> A * cos e <= A * sin th.
Proof.
  intros HA He H. apply Rmult_le_compat_l; [lra|]. set (y := th - (PI / 2 + 2 * PI * IZR m)) in *.
  replace th with (y + PI / 2 + 2 * PI * IZR m) by (unfold y; ring). rewrite sin_per.
  replace (y + PI / 2) with (PI / 2 + y) by ring. rewrite <- cos_sin.
  unfold Rabs in H. destruct (Rcase_abs y) as [Hy|Hy].
  - rewrite <- (cos_neg y). apply cos_decr_1; lra.
  - apply cos_decr_1; lra.
Qed.
Lemma near_trough A th m e : 0 < A -> 0 <= e <= PI -> Rabs (th - (- (PI / 2) + 2 * PI * IZR m)) <= e -> A * sin th <= - (A * cos e).
Proof.
  intros HA He H. assert (Q := near_crest A (- th) (- m) e HA He). rewrite sin_neg, opp_IZR in Q.
  assert (A * cos e <= A * - sin th); [|lra]. apply Q. rewrite <- Rabs_Ropp.
  replace (- (- th - (PI / 2 + 2 * PI * - IZR m))) with (th - (- (PI / 2) + 2 * PI * IZR m)) by ring. auto.
Qed.

Theorem C72_waves (t0 dt A w p : R) (n : nat) (s : string) (d : direction) :
  names s d -> 0 < dt -> (2 <= n)%nat -> 0 < A -> 0 < w -> w * dt < PI ->
  let t := axis t0 dt n in
  let period := 2 * PI / w in
  exists tc ws,
    determine_zero_crossing (Arr (vec (F t))) (Arr (vec (F (sine A w p t)))) s = Ok (Z.of_nat (length ws), tc)
    /\ determine_params_individual_waves (Arr tc) (Arr (vec (F t))) (Arr (vec (F (sine A w p t)))) = Ok ws
    /\ INR (length ws) * period < INR (n - 1) * dt < INR (length ws + 2) * period
    /\ forall wv, In wv ws ->
         exists h T crest trough tcr ttr,
           wv = mkWave (Fin h) (Fin T) (Fin crest) (Fin trough) (Fin tcr) (Fin ttr)
           /\ A * cos (w * dt / 2) <= crest <= A
           /\ - A <= trough <= - (A * cos (w * dt / 2))
           /\ 2 * A * cos (w * dt / 2) <= h <= 2 * A
           /\ Rabs (T - period) <= dt / 2 * (w * dt / sin (w * dt) - 1).
Proof.
  intros Hn Hdt H2 HA Hw Hq t period. assert (PP := PI_RGT_0). assert (Hwd : 0 < w * dt) by (apply Rmult_lt_0_compat; auto).
  set (x := sine A w p t). assert (Lx : length x = n) by apply x_length.
  assert (Hper : 0 < period) by (unfold period; apply Rdiv_lt_0_compat; lra).
  destruct (C07_crossing_times t0 dt x s d Hn Hdt ltac:(lia)) as (is & tau & tc & Hall & L & E & D & Inc & T).
  rewrite Lx in E. fold t in E. assert (Hall' := Hall). unfold x, t in Hall'.
  assert (Hc : exists m0, forall k, (k < length is)%nat ->
     w * (t0 + INR (nth k is 0%nat) * dt) + p <= zph d (m0 + Z.of_nat k) < w * (t0 + INR (S (nth k is 0%nat)) * dt) + p).
  { destruct is as [|a l]; [exists 0%Z; intros k Hk; cbn in Hk; lia|]. apply (consecutive t0 dt A w p n d Hdt HA Hw Hq _ Hall'). discriminate. }
  destruct Hc as [m0 Hm0].
  assert (Hcomp := complete_ t0 dt A w p n d Hdt HA Hw Hq is Hall' m0 Hm0).
  assert (Zs : forall m k, zero_time d w p (m + k) = zero_time d w p m + IZR k * period).
  { intros m k. unfold zero_time, period. rewrite plus_IZR. field. lra. }
  (* number of waves *)
  assert (Hcount : INR (length tau - 1) * period < INR (n - 1) * dt < INR (length tau - 1 + 2) * period).
  { rewrite L. assert (Hn1 : 0 < INR (n - 1) * dt) by (apply Rmult_lt_0_compat; [apply lt_0_INR; lia|auto]).
    assert (Hcm : forall m, t0 <= zero_time d w p m < t0 + INR (n - 1) * dt <-> exists k, (k < length is)%nat /\ m = (m0 + Z.of_nat k)%Z).
    { intros m. rewrite <- (Hcomp m ltac:(lia)). rewrite phase_time_le, phase_time_lt by auto. cbn [INR]. replace (t0 + 0 * dt) with t0 by ring. tauto. }
    destruct is as [|a l] eqn:Eis.
    - cbn [length Nat.sub Nat.add INR]. split; [lra|].
      destruct (floor_exists ((t0 - zero_time d w p 0) / period)) as [q [Q1 Q2]].
      assert (Z1 := Zs 0%Z (q + 1)%Z). rewrite Z.add_0_l, plus_IZR in Z1.
      assert (Ev : t0 - zero_time d w p 0 = (t0 - zero_time d w p 0) / period * period) by (field; lra).
      set (r := (t0 - zero_time d w p 0) / period) in *.
      apply (Rmult_le_compat_r period) in Q1; [|lra]. apply (Rmult_lt_compat_r period) in Q2; [|lra].
      destruct (Rlt_le_dec (zero_time d w p (q + 1)) (t0 + INR (n - 1) * dt)) as [H|H].
      + destruct (proj1 (Hcm (q + 1)%Z)) as (k & Hk & _); [lra|cbn in Hk; lia].
      + lra.
    - rewrite <- Eis in *. assert (Lp : (0 < length is)%nat) by (rewrite Eis; cbn; lia). set (K := length is) in *.
      assert (F1 := proj2 (Hcm m0) (ex_intro _ 0%nat (conj Lp (eq_sym (Z.add_0_r m0))))).
      assert (F2 : t0 <= zero_time d w p (m0 + Z.of_nat (K - 1)) < t0 + INR (n - 1) * dt) by (apply Hcm; exists (K - 1)%nat; split; [lia|reflexivity]).
      rewrite Zs, <- INR_IZR_INZ in F2. split; [lra|].
      assert (G1 : zero_time d w p (m0 + -1) < t0).
      { rewrite Zs. destruct (Rlt_le_dec (zero_time d w p m0 + -1 * period) t0) as [|H]; auto. exfalso.
        destruct (proj1 (Hcm (m0 + -1)%Z)) as (k & _ & Ek); [rewrite Zs; lra|lia]. }
      assert (G2 : t0 + INR (n - 1) * dt <= zero_time d w p (m0 + Z.of_nat K)).
      { destruct (Rle_lt_dec (t0 + INR (n - 1) * dt) (zero_time d w p (m0 + Z.of_nat K))) as [|H]; auto. exfalso.
        destruct (proj1 (Hcm (m0 + Z.of_nat K)%Z)) as (k & Hk & Ek); [|lia].
        split; [|auto]. rewrite Zs, <- INR_IZR_INZ. assert (0 <= INR K * period) by (apply Rmult_le_pos; [apply pos_INR|lra]). lra. }
      rewrite Zs in G1. rewrite Zs, <- INR_IZR_INZ in G2. replace (K - 1 + 2)%nat with (K + 1)%nat by lia. rewrite plus_INR. cbn [INR]. lra. }
  set (ax := axis t0 dt n) in *. change t with ax in E |- *.
  assert (Hinc : increasing ax) by (apply axis_increasing; auto).
  assert (Hlax : length ax = n) by apply axis_length.
  assert (Htc : tc = match tau with [] => empty00 | _ => vec (F tau) end).
  { destruct (zero_crossing_F ax x s d Hn ltac:(lia) ltac:(lia)) as (is' & _ & E').
    rewrite E in E'. cbn zeta in E'. apply Ok_inj in E'. injection E' as _ E'.
    subst tc. set (tau' := map _ is') in *.
    assert (tau' = tau) as -> by (apply F_inj; rewrite <- D; destruct tau'; reflexivity). reflexivity. }
  destruct tau as [|a tau].
  - exists tc, []. destruct is; [|discriminate]. split; [exact E|]. subst tc. split; [reflexivity|].
    split; [exact Hcount|]. intros wv [].
  - rewrite Htc in *. clear Htc. set (ta := a :: tau) in *.
    assert (HS : forall k, (k < length ta)%nat -> (S (nth k is 0) < n)%nat /\ t0 + INR (nth k is 0%nat) * dt <= nth k ta 0 < t0 + INR (S (nth k is 0%nat)) * dt).
    { intros k Hk. split; [apply (is_phase t0 dt A w p n d Hdt HA Hw Hq is Hall'); lia|]. destruct (T k Hk) as [Tk _]. cbn zeta in Tk. rewrite S_INR. lra. }
    (* a sample whose phase lies between the two zeros lies in the wave *)
    assert (Hin : forall k j, (S k < length ta)%nat -> (j < n)%nat ->
       zph d (m0 + Z.of_nat k) < w * (t0 + INR j * dt) + p < zph d (m0 + Z.of_nat k) + 2 * PI ->
       nth k ta 0 <= nth j ax 0 <= nth (S k) ta 0).
    { intros k j Hk Hj [B1 B2]. destruct (Hm0 k ltac:(lia)) as [M1 M2]. destruct (Hm0 (S k) ltac:(lia)) as [M3 M4].
      replace (m0 + Z.of_nat (S k))%Z with (m0 + Z.of_nat k + 1)%Z in * by lia. rewrite (zph_S d) in *.
      destruct (HS k ltac:(lia)) as [_ S1]. destruct (HS (S k) Hk) as [_ S2].
      assert (I1 : (nth k is 0 < j)%nat) by (apply (Th_lt_inv t0 dt w p Hdt Hw); lra).
      assert (I2 : (j < S (nth (S k) is 0))%nat) by (apply (Th_lt_inv t0 dt w p Hdt Hw); lra).
      unfold ax. rewrite axis_nth by auto.
      assert (J1 : INR (S (nth k is 0%nat)) * dt <= INR j * dt) by (apply Rmult_le_compat_r; [lra|apply le_INR; lia]).
      assert (J2 : INR j * dt <= INR (nth (S k) is 0%nat) * dt) by (apply Rmult_le_compat_r; [lra|apply le_INR; lia]). lra. }
    (* each wave contains a sample near its crest and one near its trough *)
    assert (Hnear : forall k c, (S k < length ta)%nat -> PI / 2 <= c <= 3 * PI / 2 ->
       exists j, (j < n)%nat /\ Rabs (w * (t0 + INR j * dt) + p - (zph d (m0 + Z.of_nat k) + c)) <= w * dt / 2
                 /\ nth k ta 0 <= nth j ax 0 <= nth (S k) ta 0).
    { intros k c Hk Hcr. destruct (Hm0 k ltac:(lia)) as [M1 M2]. destruct (Hm0 (S k) ltac:(lia)) as [M3 M4].
      replace (m0 + Z.of_nat (S k))%Z with (m0 + Z.of_nat k + 1)%Z in * by lia. rewrite (zph_S d) in *.
      destruct (near_sample t0 dt w p n Hdt Hw (zph d (m0 + Z.of_nat k) + c)) as (j & Hj & B); [lia| |].
      - assert (R1 := Th_le t0 dt w p Hdt Hw 0 (nth k is 0%nat) ltac:(lia)). cbv beta in R1.
        destruct (HS (S k) Hk) as [Ln _]. assert (R2 := Th_le t0 dt w p Hdt Hw (S (nth (S k) is 0%nat)) (n - 1) ltac:(lia)). cbv beta in R2.
        cbv beta. lra.
      - exists j. split; [auto|]. cbv beta in B. split; [auto|]. apply Hin; auto. apply Rabs_le_between in B. lra. }
    destruct (C12_wave_parameters ax x ta Hinc ltac:(lia)) as (ws & Ew & Lw & W).
    + intros Eq. rewrite Eq in Hlax. cbn in Hlax. lia.
    + discriminate.
    + intros k Hk. destruct (Hnear k PI Hk ltac:(lra)) as (j & Hj & _ & B). exists j. split; [lia|auto].
    + exists (vec (F ta)), ws. split; [rewrite E, Lw, L; reflexivity|]. split; [exact Ew|].
      split; [rewrite Lw; exact Hcount|].
      intros wv Hwv. apply (In_nth _ _ dwave) in Hwv as (k & Hk & <-).
      destruct (W k Hk) as (h & c & tr & tcr & ttr & -> & Eh & Hmax & Hmin).
      exists h, (nth (S k) ta 0 - nth k ta 0), c, tr, tcr, ttr. split; [reflexivity|].
      destruct Hmax as (ip & Lp & _ & _ & Ep & Hmax & _). destruct Hmin as (iq & Lq & _ & _ & Eq & Hmin & _).
      assert (Hk' : (S k < length ta)%nat) by lia.
      assert (Xn : forall j, (j < n)%nat -> nth j x 0 = A * sin (w * (t0 + INR j * dt) + p)) by (intros j Hj; apply x_nth; auto).
      assert (Crest : A * cos (w * dt / 2) <= c).
      { destruct (phase_crest d) as [q Hq'].
        destruct (Hnear k (match d with Up => PI / 2 | Down => 3 * PI / 2 end) Hk') as (j & Hj & B & I); [destruct d; lra|].
        eapply Rle_trans; [|apply (Hmax j); [lia|exact I]]. rewrite Xn by auto.
        apply (near_crest A _ (m0 + Z.of_nat k + q)); [auto|lra|]. eapply Rle_trans; [right|exact B]. f_equal.
        unfold zph. rewrite !plus_IZR. lra. }
      assert (Trough : tr <= - (A * cos (w * dt / 2))).
      { destruct (Hnear k (match d with Up => 3 * PI / 2 | Down => PI / 2 end) Hk') as (j & Hj & B & I); [destruct d; lra|].
        eapply Rle_trans; [apply (Hmin j); [lia|exact I]|]. rewrite Xn by auto.
        apply (near_trough A _ (m0 + Z.of_nat k + 1)); [auto|lra|]. eapply Rle_trans; [right|exact B]. f_equal.
        unfold zph. rewrite !plus_IZR. destruct d; lra. }
      assert (c <= A) by (rewrite Ep, Xn by lia; assert (Sb := SIN_bound (w * (t0 + INR ip * dt) + p)); nra).
      assert (- A <= tr) by (rewrite Eq, Xn by lia; assert (Sb := SIN_bound (w * (t0 + INR iq * dt) + p)); nra).
      split; [lra|]. split; [lra|]. split; [lra|].
      assert (C1 : Rabs (nth k ta 0 - zero_time d w p (m0 + Z.of_nat k)) <= dt / 4 * (w * dt / sin (w * dt) - 1)).
      { destruct (T k ltac:(lia)) as [_ Lin]. apply (crossing_accuracy t0 dt A w p n d Hdt HA Hw Hq (nth k is 0%nat)); auto; [apply HS; lia|apply Hm0; lia]. }
      assert (C2 : Rabs (nth (S k) ta 0 - zero_time d w p (m0 + Z.of_nat (S k))) <= dt / 4 * (w * dt / sin (w * dt) - 1)).
      { destruct (T (S k) Hk') as [_ Lin]. apply (crossing_accuracy t0 dt A w p n d Hdt HA Hw Hq (nth (S k) is 0%nat)); auto; [apply HS; lia|apply Hm0; lia]. }
      replace (m0 + Z.of_nat (S k))%Z with (m0 + Z.of_nat k + 1)%Z in C2 by lia. rewrite Zs in C2.
      apply Rabs_le_between in C1. apply Rabs_le_between in C2. apply Rabs_le_between. lra.
Qed.

(** the wave statistics of a regular wave, whatever was asked of the object before *)
Theorem C72_statistics (argsort : list NX -> list nat) (t0 dt A w p : R) (n : nat) (s : string) (d : direction) (calls : list (wh_call NX)) :
  is_argsort argsort -> names s d -> 0 < dt -> (2 <= n)%nat -> 0 < A -> 0 < w -> w * dt < PI ->
  2 * (2 * PI / w) <= INR (n - 1) * dt ->
  let t := axis t0 dt n in
  exists tc ws h T,
    determine_zero_crossing (Arr (vec (F t))) (Arr (vec (F (sine A w p t)))) s = Ok (Z.of_nat (length ws), tc)
    /\ determine_params_individual_waves (Arr tc) (Arr (vec (F t))) (Arr (vec (F (sine A w p t)))) = Ok ws
    /\ (1 <= length ws)%nat /\ map w_h ws = F h /\ map w_t ws = F T
    /\ let o := wh_run argsort calls (new_wh h T) in
       (exists Hrms, snd (wh_Hrms o) = Ok (Fin Hrms) /\ 2 * A * cos (w * dt / 2) <= Hrms <= 2 * A)
       /\ (exists Hmax, snd (wh_Hmax o) = Ok (Fin Hmax) /\ 2 * A * cos (w * dt / 2) <= Hmax <= 2 * A)
       /\ (forall frac, 0 <= frac <= 1 -> 1 <= INR (length ws) * frac ->
             exists Hf, rmap fst (snd (wh_highest argsort (Fin frac) o)) = Ok (Fin Hf) /\ 2 * A * cos (w * dt / 2) <= Hf <= 2 * A)
       /\ Rabs (Rmean T - 2 * PI / w) <= dt / 2 * (w * dt / sin (w * dt) - 1).
Proof.
  intros Hs Hn Hdt H2 HA Hw Hq Hlong t. assert (PP := PI_RGT_0). assert (Hwd : 0 < w * dt) by (apply Rmult_lt_0_compat; auto).
  destruct (C72_waves t0 dt A w p n s d Hn Hdt H2 HA Hw Hq) as (tc & ws & E1 & E2 & Hc & Hall). fold t in E1, E2.
  set (per := 2 * PI / w) in *. assert (Hper : 0 < per) by (unfold per; apply Rdiv_lt_0_compat; lra).
  set (lo := 2 * A * cos (w * dt / 2)) in *. set (B := dt / 2 * (w * dt / sin (w * dt) - 1)) in *.
  assert (L1 : (1 <= length ws)%nat).
  { destruct ws; [|cbn; lia]. cbn in Hc. lra. }
  set (val := fun v : xr => match v with Fin r => r | _ => 0 end).
  exists tc, ws, (map (fun x => val (w_h x)) ws), (map (fun x => val (w_t x)) ws).
  split; [exact E1|]. split; [exact E2|]. split; [exact L1|].
  split; [unfold F; rewrite map_map; apply map_ext_in; intros x Hx; destruct (Hall x Hx) as (? & ? & ? & ? & ? & ? & -> & _); reflexivity|].
  split; [unfold F; rewrite map_map; apply map_ext_in; intros x Hx; destruct (Hall x Hx) as (? & ? & ? & ? & ? & ? & -> & _); reflexivity|].
  set (h := map (fun x => val (w_h x)) ws). set (T := map (fun x => val (w_t x)) ws). intros o.
  assert (Hh : forall v, In v h -> lo <= v <= 2 * A).
  { intros v Hv. apply in_map_iff in Hv as (x & <- & Hx). destruct (Hall x Hx) as (hh & ? & ? & ? & ? & ? & -> & _ & _ & Q & _). exact Q. }
  assert (HT : forall v, In v T -> per - B <= v <= per + B).
  { intros v Hv. apply in_map_iff in Hv as (x & <- & Hx). destruct (Hall x Hx) as (? & TT & ? & ? & ? & ? & -> & _ & _ & _ & Q). cbn.
    apply Rabs_le_between in Q. lra. }
  assert (Lh : length h = length ws) by apply map_length. assert (LT : length T = length ws) by apply map_length.
  assert (Nh : h <> []) by (intros Q; rewrite Q in Lh; cbn in Lh; lia). assert (NT : T <> []) by (intros Q; rewrite Q in LT; cbn in LT; lia).
  assert (Plo : 0 < lo).
  { unfold lo. apply Rmult_lt_0_compat; [lra|]. apply cos_gt_0; lra. }
  set (hs := rev (Rsort h)).
  assert (Ph : Permutation hs h) by (unfold hs; rewrite <- Permutation_rev; apply Rsort_perm).
  assert (Dh : descending hs) by apply rev_Rsort_desc.
  destruct (C14_values argsort h T hs calls Hs Nh ltac:(lia) Ph Dh) as (V1 & (mx & M1 & _ & V2) & V3 & _). fold o in V1, V2, V3.
  assert (Hsq : lo * lo <= Rmean (map (fun v => v * v) h) <= 2 * A * (2 * A)).
  { apply Rmean_bounds; [intros Q; apply map_eq_nil in Q; contradiction|]. intros v Hv. apply in_map_iff in Hv as (z & <- & Hz). specialize (Hh z Hz).
    split; apply Rmult_le_compat; lra. }
  split; [|split; [|split]].
  - eexists. split; [exact V1|]. split.
    + rewrite <- (sqrt_square lo) by lra. apply sqrt_le_1_alt. lra.
    + rewrite <- (sqrt_square (2 * A)) by lra. apply sqrt_le_1_alt. lra.
  - exists mx. split; [exact V2|]. auto.
  - intros frac Hf1 Hf2. destruct (floor_is_exists (INR (length h) * frac)) as [k Hk].
    { apply Rmult_le_pos; [apply pos_INR|lra]. }
    eexists. split; [apply (V3 frac k Hf1 Hk)|]. rewrite Lh in Hk.
    destruct k as [|k]; [unfold floor_is in Hk; change (INR 0) with 0 in Hk; lra|]. cbn [Nat.eqb]. apply Rmean_bounds.
    + destruct hs as [|b hs'] eqn:Ehs; [|discriminate]. apply Permutation_length in Ph. cbn in Ph. lia.
    + intros v Hv. apply Hh, (Permutation_in _ Ph). rewrite <- (firstn_skipn (S k) hs). apply in_or_app. auto.
  - assert (Q := Rmean_bounds T (per - B) (per + B) NT HT). apply Rabs_le_between. lra.
Qed.

(** with at least twelve samples per period: heights within 4 %, crossing times within dt/80, periods within dt/40 *)
Lemma PI_lt_315 : PI < 315 / 100.
Proof.
  assert (P := PI_RGT_0). assert (P4 := PI_4). destruct (Rlt_le_dec PI (315 / 100)) as [|H]; auto. exfalso.
  set (y := PI / 6). assert (Hy : 525 / 1000 <= y <= 2 / 3) by (unfold y; lra).
  destruct (sin_bound y 0 ltac:(lra) ltac:(unfold y; lra)) as [Lo _].
  unfold y in Lo at 2. rewrite sin_PI6 in Lo. unfold sin_approx in Lo. cbn in Lo. unfold sin_term in Lo. cbn in Lo. fold y in Lo.
  assert (E : y - y * y * y / 6 <= 1 / 2) by lra. clear Lo.
  assert (0 <= (y - 525 / 1000) * (1 - (y * y + y * (525 / 1000) + 525 / 1000 * (525 / 1000)) / 6)).
  { apply Rmult_le_pos; [lra|]. assert (y * y <= 4 / 9) by nra. lra. }
  nra.
Qed.
Theorem C72_twelve_samples (dt w : R) : 0 < dt -> 0 < w -> 12 * dt <= 2 * PI / w ->
  w * dt < PI
  /\ dt / 4 * (w * dt / sin (w * dt) - 1) < dt / 80
  /\ dt / 2 * (w * dt / sin (w * dt) - 1) < dt / 40
  /\ 96 / 100 < cos (w * dt / 2).
Proof.
  intros Hdt Hw H. assert (P := PI_RGT_0). assert (P3 := PI_lt_315). assert (Hwd : 0 < w * dt) by (apply Rmult_lt_0_compat; auto).
  assert (H6 : w * dt <= PI / 6).
  { apply (Rmult_le_compat_r w) in H; [|lra]. replace (2 * PI / w * w) with (2 * PI) in H by (field; lra). lra. }
  assert (S0 : 0 < sin (w * dt)) by (apply sin_gt_0; lra).
  assert (D := sinc_decreasing (w * dt) (PI / 6) ltac:(lra) ltac:(lra)). rewrite sin_PI6 in D.
  assert (Q : w * dt / sin (w * dt) <= PI / 3).
  { apply Rmult_le_reg_r with (sin (w * dt)); auto. unfold Rdiv at 1. rewrite Rmult_assoc, Rinv_l by lra. lra. }
  assert (Q' : w * dt / sin (w * dt) - 1 < 1 / 20) by lra.
  split; [lra|]. split; [|split].
  - replace (dt / 80) with (dt / 4 * (1 / 20)) by lra. apply Rmult_lt_compat_l; lra.
  - replace (dt / 40) with (dt / 2 * (1 / 20)) by lra. apply Rmult_lt_compat_l; lra.
  - set (y := w * dt / 2). assert (Hy : 0 <= y <= 2625 / 10000) by (unfold y; lra).
    assert (P2 := PI2_3_2). destruct (cos_bound y 0 ltac:(lra) ltac:(lra)) as [Lo _]. unfold cos_approx in Lo. cbn in Lo. unfold cos_term in Lo. cbn in Lo.
    assert (y * y <= 2625 / 10000 * (2625 / 10000)) by (apply Rmult_le_compat; lra). lra.
Qed.
(** sampling too slowly loses waves: below two samples per period the crossings no longer correspond to zeros *)
Theorem C72_slow_sampling_refuted :
  ~ (forall (t0 dt A w p : R) (n : nat), 0 < dt -> (2 <= n)%nat -> 0 < A -> 0 < w ->
       exists tc ws,
         determine_zero_crossing (Arr (vec (F (axis t0 dt n)))) (Arr (vec (F (sine A w p (axis t0 dt n))))) "down"
           = Ok (Z.of_nat (length ws), tc)
         /\ determine_params_individual_waves (Arr tc) (Arr (vec (F (axis t0 dt n)))) (Arr (vec (F (sine A w p (axis t0 dt n))))) = Ok ws
         /\ INR (n - 1) * dt < INR (length ws + 2) * (2 * PI / w)).
Proof.
  intros H. assert (P := PI_RGT_0).
  (* one sample per period, always at the crest: no wave is seen *)
  destruct (H 0 1 1 (2 * PI) (PI / 2) 4%nat ltac:(lra) ltac:(lia) ltac:(lra) ltac:(lra)) as (tc & ws & E & _ & B).
  assert (Ex : sine 1 (2 * PI) (PI / 2) (axis 0 1 4) = repeat 1 4).
  { apply (nth_ext' _ _ 0); [rewrite x_length, repeat_length; auto|]. intros i Hi. rewrite x_length in Hi.
    rewrite (x_nth 0 1 1 (2 * PI) (PI / 2) 4) by auto. cbv beta.
    replace (2 * PI * (0 + INR i * 1) + PI / 2) with (PI / 2 + 2 * PI * IZR (Z.of_nat i)) by (rewrite <- INR_IZR_INZ; ring).
    rewrite sin_per, sin_PI2. destruct i as [|[|[|[|]]]]; cbn; lra || lia. }
  rewrite Ex in E.
  destruct (zero_crossing_F (axis 0 1 4) (repeat 1 4) "down" Down eq_refl) as (is & [_ Hall] & E'); [reflexivity|cbn; lia|].
  assert (is = []) as ->.
  { destruct is as [|i is]; auto. exfalso. destruct (proj1 (Hall i) (or_introl eq_refl)) as [Hi Hc]. cbn [repeat length] in Hi, Hc.
    destruct i as [|[|[|]]]; cbn in Hc; lra || lia. }
  cbn zeta in E'. rewrite E in E'. apply Ok_inj in E'. injection E' as E' _. cbn in E'.
  assert (length ws = 0)%nat as E0 by lia. rewrite E0 in B. cbn [Nat.sub Nat.add INR] in B.
  replace (2 * PI / (2 * PI)) with 1 in B by (field; lra). lra.
Qed.
(** a concrete case: 2 m high waves of 10 s, sampled at 2 Hz for two minutes *)
Lemma C72_witness :
  0 < 1 / 2 /\ 0 < 2 * PI / 10 /\ 2 * PI / 10 * (1 / 2) < PI /\ 2 * (2 * PI / (2 * PI / 10)) <= INR (241 - 1) * (1 / 2)
  /\ 12 * (1 / 2) <= 2 * PI / (2 * PI / 10).
Proof.
  assert (P := PI_RGT_0). replace (2 * PI / (2 * PI / 10)) with 10 by (field; lra).
  rewrite INR_IZR_INZ. change (IZR (Z.of_nat (241 - 1))) with 240. repeat split; lra.
Qed.
