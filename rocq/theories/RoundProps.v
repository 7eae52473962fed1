(** * The axis check and the wave selection in binary64 arithmetic: C60, C61 *)

From Coq Require Import Reals ZArith List Bool Lra Lia Permutation.
From Flocq Require Import Core Relative.
From Verif Require Import SumOrder Num XR Spec XRFacts RoundNum Engine EngineProps TimeModel TimeSpec TimeProps TimeProps2.
Import ListNotations.
Open Scope R_scope.

Section AnyOrder.
Context {So : summation} {Lm : libm}.

(** ** C60 Rounded axes *)

Definition tol : R := 1000000 / 4503599627370496.
Lemma nb_tol : uniform_tol (N:=NB) = Fin tol.
Proof.
  unfold uniform_tol, lit. change (2 ^ 52)%Z with 4503599627370496%Z.
  rewrite !nb_ofZ by (cbn; lia). rewrite nb_div by lra. f_equal. apply rnd_id.
  unfold tol. replace (1000000 / 4503599627370496) with (IZR 1000000 * bpow radix2 (-52)) by (cbn; lra).
  apply float_scaled; cbn; lia.
Qed.
Lemma check_NB (l : list R) : (2 <= length l)%nat ->
  exists b, monotonic_increasing_constant_step (N:=NB) (F l) = Ok b
  /\ (b = true <->
      forall i, (S i < length l)%nat ->
        0 < rnd (nth (S i) l 0 - nth i l 0)
        /\ rnd (rnd (nth (S i) l 0 - nth i l 0) - rnd (nth 1 l 0 - nth 0 l 0)) < tol).
Proof.
  intros H. unfold monotonic_increasing_constant_step. rewrite nb_diff.
  assert (L : length (map rnd (Rdiff l)) = (length l - 1)%nat) by (rewrite map_length, Rdiff_length; reflexivity).
  assert (V : forall i, (S i < length l)%nat -> nth i (map rnd (Rdiff l)) 0 = rnd (nth (S i) l 0 - nth i l 0)).
  { intros i Hi. rewrite (nth_indep _ 0 (rnd 0)) by lia. rewrite map_nth, Rdiff_nth by auto. reflexivity. }
  rewrite idx_F by lia. rewrite bind_Ok. eexists; split; [reflexivity|]. rewrite V by lia.
  rewrite andb_true_iff, !forallb_F_iff, L. split.
  - intros [H1 H2] i Hi. specialize (H1 i ltac:(lia)). specialize (H2 i ltac:(lia)). rewrite V in H1, H2 by lia.
    rewrite nb_0, nb_ltb in H1. rewrite nb_tol, nb_sub, nb_ltb in H2.
    match type of H1 with Rltb ?a ?b = true => destruct (Rltb_spec a b); [|discriminate] end.
    match type of H2 with Rltb ?a ?b = true => destruct (Rltb_spec a b); [|discriminate] end. auto.
  - intros H1. split; intros i Hi; destruct (H1 i ltac:(lia)) as [Ha Hb]; rewrite V by lia.
    + rewrite nb_0, nb_ltb. apply Rltb_true. exact Ha.
    + rewrite nb_tol, nb_sub, nb_ltb. apply Rltb_true. exact Hb.
Qed.

(** an axis whose points are within 2^-35 (about 3e-11) of a uniform one passes the check as computed *)
Theorem C60_near_uniform_accepted (t : list R) (t0 dt : R) :
  (2 <= length t)%nat -> / 2 ^ 30 <= dt <= 2 ^ 16 ->
  (forall i, (i < length t)%nat -> Rabs (nth i t 0 - (t0 + INR i * dt)) <= / 2 ^ 35) ->
  monotonic_increasing_constant_step (N:=NB) (F t) = Ok true.
Proof.
  intros H2 Hd Hn. destruct (check_NB t H2) as (b & -> & Hb). f_equal. apply Hb. clear Hb b.
  assert (D : forall i, (S i < length t)%nat ->
     dt - 2 * / 2 ^ 35 <= nth (S i) t 0 - nth i t 0 <= dt + 2 * / 2 ^ 35
     /\ Rabs (rnd (nth (S i) t 0 - nth i t 0) - (nth (S i) t 0 - nth i t 0)) <= / 2 ^ 37).
  { intros i Hi. assert (A := Hn i ltac:(lia)). assert (B := Hn (S i) Hi). rewrite S_INR in B.
    apply Rabs_le_inv in A, B. assert (C : dt - 2 * / 2 ^ 35 <= nth (S i) t 0 - nth i t 0 <= dt + 2 * / 2 ^ 35) by lra.
    split; [exact C|]. replace (/ 2 ^ 37) with (bpow radix2 (17 - 54)) by (cbn; lra). apply rnd_err; [lia|].
    replace (bpow radix2 17) with 131072 by (cbn; lra). apply Rabs_le. lra. }
  intros i Hi. destruct (D i Hi) as [D1 D2]. destruct (D 0%nat ltac:(lia)) as [E1 E2].
  apply Rabs_le_inv in D2, E2. split; [lra|].
  apply Rle_lt_trans with (IZR 3 * bpow radix2 (-34)).
  - apply rnd_le_float; [apply float_scaled; cbn; lia|]. replace (bpow radix2 (-34)) with (/ 2 ^ 34) by (cbn; lra). lra.
  - unfold tol. replace (bpow radix2 (-34)) with (/ 17179869184) by (cbn; lra). lra.
Qed.
(** in particular the axis t0 + i*dt as it is computed in binary64, for records of up to 2^17 seconds (36 hours) *)
Theorem C60_computed_axis_accepted (t0 dt : R) (n : nat) :
  (2 <= n)%nat -> / 2 ^ 30 <= dt <= 2 ^ 16 -> Rabs t0 + INR n * dt <= 2 ^ 17 ->
  monotonic_increasing_constant_step (N:=NB) (F (map (fun i => rnd (t0 + rnd (INR i * dt))) (seq 0 n))) = Ok true.
Proof.
  intros H2 Hd Hb. apply (C60_near_uniform_accepted _ t0 dt); [rewrite map_length, seq_length; auto|auto|].
  rewrite map_length, seq_length. intros i Hi. rewrite (nth_indep _ 0 ((fun i => rnd (t0 + rnd (INR i * dt))) 0%nat)) by (rewrite map_length, seq_length; auto).
  rewrite (map_nth (fun i => rnd (t0 + rnd (INR i * dt)))), seq_nth by auto. cbn [plus].
  assert (P : 0 <= INR i * dt <= INR n * dt).
  { split; [apply Rmult_le_pos; [apply pos_INR|lra]|]. apply Rmult_le_compat_r; [lra|]. apply le_INR. lia. }
  assert (T := Rabs_pos t0).
  assert (A : Rabs (rnd (INR i * dt) - INR i * dt) <= / 2 ^ 37).
  { replace (/ 2 ^ 37) with (bpow radix2 (17 - 54)) by (cbn; lra). apply rnd_err; [lia|].
    replace (bpow radix2 17) with (2 ^ 17) by (cbn; lra). apply Rabs_le. lra. }
  assert (A' := A). apply Rabs_le_inv in A'. assert (T' := Rle_abs t0). assert (T'' := Rle_abs (- t0)). rewrite Rabs_Ropp in T''.
  assert (B : Rabs (rnd (t0 + rnd (INR i * dt)) - (t0 + rnd (INR i * dt))) <= / 2 ^ 36).
  { replace (/ 2 ^ 36) with (bpow radix2 (18 - 54)) by (cbn; lra). apply rnd_err; [lia|].
    replace (bpow radix2 18) with (2 ^ 18) by (cbn; lra). apply Rabs_le. lra. }
  apply Rabs_le_inv in B. apply Rabs_le. lra.
Qed.
Example C60_witness : (2 <= 1000)%nat /\ / 2 ^ 30 <= 1/10 <= 2 ^ 16 /\ Rabs (-50) + INR 1000 * (1/10) <= 2 ^ 17.
Proof. split; [lia|]. split; [lra|]. rewrite Rabs_left by lra. rewrite INR_IZR_INZ. replace (Z.of_nat 1000) with 1000%Z by reflexivity. lra. Qed.

(** Far from zero the correctly rounded points of a uniform axis are rejected: time stamps in seconds around 2^30
    (like Unix time) with a step of 0.1 s *)
Lemma rnd_30 (v : R) (m : Z) : 0 <= v <= 1 -> Rabs (v * 4194304 - IZR m) < / 2 ->
  rnd (2 ^ 30 + v) = IZR (4503599627370496 + m) * bpow radix2 (-22).
Proof.
  intros Hv Hm. unfold rnd, round, F2R. cbn [Fnum Fexp].
  assert (Mg : mag radix2 (2 ^ 30 + v) = 31%Z :> Z).
  { apply mag_unique. rewrite Rabs_pos_eq by lra. replace (bpow radix2 (31 - 1)) with (2 ^ 30) by (cbn; lra).
    replace (bpow radix2 31) with (2 ^ 31) by (cbn; lra). lra. }
  unfold scaled_mantissa, cexp. rewrite Mg. change (fexp64 31) with (-22)%Z. f_equal. f_equal.
  apply Znearest_imp. replace (bpow radix2 (- -22)) with 4194304 by (cbn; lra).
  rewrite plus_IZR. replace ((2 ^ 30 + v) * 4194304 - (4503599627370496 + IZR m)) with (v * 4194304 - IZR m) by lra. exact Hm.
Qed.
Theorem C60_unix_time_rejected_refuted :
  ~ (forall (t0 dt : R) (n : nat), (2 <= n)%nat -> 0 < dt ->
       monotonic_increasing_constant_step (N:=NB) (F (map rnd (axis t0 dt n))) = Ok true).
Proof.
  intros H. specialize (H (2 ^ 30) (1/10) 3%nat ltac:(lia) ltac:(lra)).
  destruct (check_NB (map rnd (axis (2 ^ 30) (1/10) 3)) ltac:(cbn; lia)) as (b & E & Hb).
  rewrite E in H. apply Ok_inj in H. apply (proj1 Hb) with (i := 1%nat) in H; [|cbn; lia]. destruct H as [_ H].
  assert (N0 : nth 0 (map rnd (axis (2 ^ 30) (1/10) 3)) 0 = IZR (4503599627370496 + 0) * bpow radix2 (-22)).
  { change (nth 0 (map rnd (axis (2 ^ 30) (1/10) 3)) 0) with (rnd (2 ^ 30 + INR 0 * (1/10))).
    apply rnd_30; [cbn; lra|]. apply Rabs_lt; cbn; lra. }
  assert (N1 : nth 1 (map rnd (axis (2 ^ 30) (1/10) 3)) 0 = IZR (4503599627370496 + 419430) * bpow radix2 (-22)).
  { change (nth 1 (map rnd (axis (2 ^ 30) (1/10) 3)) 0) with (rnd (2 ^ 30 + INR 1 * (1/10))).
    apply rnd_30; [cbn; lra|]. apply Rabs_lt; cbn; lra. }
  assert (N2 : nth 2 (map rnd (axis (2 ^ 30) (1/10) 3)) 0 = IZR (4503599627370496 + 838861) * bpow radix2 (-22)).
  { change (nth 2 (map rnd (axis (2 ^ 30) (1/10) 3)) 0) with (rnd (2 ^ 30 + INR 2 * (1/10))).
    apply rnd_30; [cbn; lra|]. apply Rabs_lt; cbn; lra. }
  rewrite N0, N1, N2 in H. rewrite <- !Rmult_minus_distr_r, <- !minus_IZR in H. cbn [Z.add Z.sub Z.opp Z.pos_sub Pos.add] in H.
  rewrite (rnd_id (IZR _ * _)) in H by (apply float_scaled; cbn; lia).
  rewrite (rnd_id (IZR _ * _)) in H by (apply float_scaled; cbn; lia).
  rewrite <- Rmult_minus_distr_r, <- minus_IZR in H.
  rewrite rnd_id in H by (apply float_scaled; cbn; lia).
  unfold tol in H. replace (bpow radix2 (-22)) with (/ 4194304) in H by (cbn; lra).
  cbn in H. lra.
Qed.

(** ** C61 Which waves are selected, and the error of their means *)

Lemma nb_ofnat n : (Z.of_nat n <= 2 ^ 53)%Z -> nofnat (N:=NB) n = Fin (INR n).
Proof. intros H. unfold nofnat. rewrite nb_ofZ by lia. rewrite <- INR_IZR_INZ. reflexivity. Qed.
Lemma nb_sorted l : all_eq (N:=NB) (F l) (rev (np_sort (N:=NB) (F l))) = true <-> descending l.
Proof. exact (sorted_check l). Qed.
Lemma nb_floor r k : 0 <= r -> floor_is r k -> int_floor (N:=NB) (Fin r) = Ok (Z.of_nat k).
Proof. exact (fin_floor_nat r k). Qed.

(** the rounded third *)
Definition third : R := rnd (1 / 3).
Lemma third_val : third = IZR 6004799503160661 * bpow radix2 (-54).
Proof.
  unfold third, rnd, round, F2R. cbn [Fnum Fexp].
  assert (Mg : mag radix2 (1/3) = (-1)%Z :> Z).
  { apply mag_unique. rewrite Rabs_pos_eq by lra. cbn. lra. }
  unfold scaled_mantissa, cexp. rewrite Mg. change (fexp64 (-1)) with (-54)%Z. f_equal. f_equal.
  apply Znearest_imp. replace (bpow radix2 (- -54)) with 18014398509481984 by (cbn; lra).
  apply Rabs_lt. lra.
Qed.
Lemma third_eq : third = (1 - bpow radix2 (-54)) / 3.
Proof. rewrite third_val. replace (bpow radix2 (-54)) with (/ 18014398509481984) by (cbn; lra). lra. Qed.

(** a positive integer times (1 - 2^-54) rounds to the integer *)
Lemma rnd_int_down (m : Z) : (0 < m)%Z -> (m < 2 ^ 53)%Z -> rnd (IZR m * (1 - bpow radix2 (-54))) = IZR m.
Proof.
  intros Hm Hm'. assert (P : 0 < IZR m) by (apply IZR_lt in Hm; exact Hm).
  set (e := (Z.log2_up m)%Z). assert (He : (0 <= e <= 53)%Z).
  { split; [apply Z.log2_up_nonneg|]. unfold e. rewrite <- (Z.log2_up_pow2 53) by lia. apply Z.log2_up_le_mono. lia. }
  assert (Hb : (m <= 2 ^ e)%Z) by (destruct (Z.eq_dec m 1) as [->|]; [cbn; lia|apply Z.log2_up_spec; lia]).
  assert (Ha : (2 ^ e < 2 * m)%Z).
  { destruct (Z.eq_dec m 1) as [->|]; [cbn; lia|]. assert (K := Z.log2_up_spec m ltac:(lia)). fold e in K.
    assert (0 < e)%Z by (apply Z.log2_up_pos; lia). replace e with (Z.succ (Z.pred e)) by lia. rewrite Z.pow_succ_r by lia. lia. }
  assert (B2 : IZR m <= bpow radix2 e) by (rewrite <- (IZR_Zpower radix2) by lia; apply IZR_le; exact Hb).
  assert (B1 : bpow radix2 (e - 1) < IZR m).
  { apply IZR_lt in Ha. rewrite mult_IZR in Ha. change (2 ^ e)%Z with (Zpower radix2 e) in Ha.
    rewrite (IZR_Zpower radix2) in Ha by lia. replace e with (1 + (e - 1))%Z in Ha by lia. rewrite bpow_plus in Ha.
    change (bpow radix2 1) with 2 in Ha. lra. }
  set (u := bpow radix2 (-54)). assert (U : u = / 18014398509481984) by (unfold u; cbn; lra).
  unfold rnd, round, F2R. cbn [Fnum Fexp].
  (* the integer below: 2^(e-1) + 1 <= m unless m = 1 *)
  assert (Mg : mag radix2 (IZR m * (1 - u)) = e :> Z).
  { apply mag_unique. rewrite Rabs_pos_eq by (apply Rmult_le_pos; lra). split.
    - destruct (Z.eq_dec m 1) as [E|].
      + assert (e = 0%Z) as -> by (unfold e; rewrite E; reflexivity). rewrite E. cbn. lra.
      + assert (1 <= e)%Z by (assert (0 < e)%Z by (apply Z.log2_up_pos; lia); lia).
        assert (I : (2 ^ (e - 1) + 1 <= m)%Z).
        { replace e with (Z.succ (e - 1)) in Ha by lia. rewrite Z.pow_succ_r in Ha by lia. lia. }
        apply IZR_le in I. rewrite plus_IZR in I. change (2 ^ (e - 1))%Z with (Zpower radix2 (e - 1)) in I.
        rewrite (IZR_Zpower radix2) in I by lia.
        assert (IZR m * u <= 1); [|lra]. rewrite U.
        assert (M : IZR m <= IZR (2 ^ 53)) by (apply IZR_le; lia). change (2 ^ 53)%Z with 9007199254740992%Z in M. lra.
    - apply Rlt_le_trans with (IZR m); [|exact B2]. rewrite U. lra. }
  unfold scaled_mantissa, cexp. rewrite Mg. unfold fexp64, FLT_exp. rewrite Z.max_l by lia.
  assert (X : IZR m = IZR (m * 2 ^ (53 - e)) * bpow radix2 (e - 53)).
  { rewrite mult_IZR. change (2 ^ (53 - e))%Z with (Zpower radix2 (53 - e)). rewrite (IZR_Zpower radix2) by lia.
    rewrite Rmult_assoc, <- bpow_plus. replace (53 - e + (e - 53))%Z with 0%Z by lia. cbn [bpow]. lra. }
  set (M := (m * 2 ^ (53 - e))%Z) in *.
  assert (MB : (2 ^ 52 < M <= 2 ^ 53)%Z).
  { assert (W : (2 ^ 53 = 2 ^ e * 2 ^ (53 - e))%Z) by (rewrite <- Z.pow_add_r by lia; f_equal; lia).
    assert (0 < 2 ^ (53 - e))%Z by (apply Z.pow_pos_nonneg; lia). unfold M.
    change (2 ^ 53)%Z with (2 * 2 ^ 52)%Z in W |- *. nia. }
  assert (Y : IZR m * (1 - u) * bpow radix2 (- (e - 53)) = IZR M - IZR M * u).
  { rewrite X at 1. replace (IZR M * bpow radix2 (e - 53) * (1 - u) * bpow radix2 (- (e - 53)))
      with (IZR M * (1 - u) * (bpow radix2 (e - 53) * bpow radix2 (- (e - 53)))) by ring.
    rewrite <- bpow_plus. replace (e - 53 + - (e - 53))%Z with 0%Z by lia. cbn [bpow]. lra. }
  rewrite Y. rewrite X at 1. f_equal. f_equal.
  destruct MB as [M1 M2]. apply IZR_lt in M1. assert (M3 := IZR_le _ _ M2). change (2 ^ 52)%Z with 4503599627370496%Z in M1.
  change (2 ^ 53)%Z with 9007199254740992%Z in M3. destruct (Z.eq_dec M (2 ^ 53)) as [E|E].
  - (* the tie *)
    rewrite E, U. change (2 ^ 53)%Z with 9007199254740992%Z.
    replace (9007199254740992 - 9007199254740992 * / 18014398509481984) with (IZR 9007199254740991 + / 2) by lra.
    unfold Znearest. assert (Fl : Zfloor (IZR 9007199254740991 + / 2) = 9007199254740991%Z).
    { apply Zfloor_imp. rewrite plus_IZR. lra. }
    rewrite Fl. replace (IZR 9007199254740991 + / 2 - IZR 9007199254740991) with (/ 2) by lra.
    rewrite Rcompare_Eq by reflexivity. cbn [Z.even negb]. rewrite Zceil_floor_neq; rewrite Fl; [reflexivity|lra].
  - apply Znearest_imp. assert (Ml : (M < 2 ^ 53)%Z) by lia. apply IZR_lt in Ml. change (2 ^ 53)%Z with 9007199254740992%Z in Ml.
    rewrite U. apply Rabs_lt. lra.
Qed.

(** 1/3 of n waves, computed in binary64, is exactly n div 3 *)
Lemma third_count (n : nat) : (Z.of_nat n <= 2 ^ 50)%Z -> floor_is (rnd (INR n * third)) (n / 3).
Proof.
  intros Hn. assert (D := Nat.div_mod n 3 ltac:(lia)). assert (Md := Nat.mod_upper_bound n 3 ltac:(lia)).
  set (m := (n / 3)%nat) in *. set (s := (n mod 3)%nat) in *.
  assert (NR : INR n = 3 * INR m + INR s) by (rewrite D, plus_INR, mult_INR; cbn; lra).
  assert (Bm : INR m <= 2 ^ 50).
  { rewrite INR_IZR_INZ. replace (2 ^ 50) with (IZR (2 ^ 50)%Z) by (cbn; lra). apply IZR_le. lia. }
  assert (Bs : INR s <= 2) by (change 2 with (INR 2) ; apply le_INR; lia). assert (Ps := pos_INR s). assert (Pm := pos_INR m).
  assert (U : bpow radix2 (-54) = / 18014398509481984) by (cbn; lra).
  assert (V : INR n * third = INR m * (1 - bpow radix2 (-54)) + INR s * (1 - bpow radix2 (-54)) / 3).
  { rewrite third_eq, NR. field. }
  assert (E : Rabs (rnd (INR n * third) - INR n * third) <= / 8).
  { replace (/ 8) with (bpow radix2 (51 - 54)) by (cbn; lra). apply rnd_err; [lia|].
    replace (bpow radix2 51) with (2 ^ 51) by (cbn; lra). rewrite V, U. apply Rabs_le. lra. }
  apply Rabs_le_inv in E. split.
  - destruct s as [|s'] eqn:Es.
    + rewrite V. change (INR 0) with 0. replace (0 * (1 - bpow radix2 (-54)) / 3) with 0 by lra. rewrite Rplus_0_r.
      destruct (Nat.eq_dec m 0) as [E0|E0].
      * rewrite E0. change (INR 0) with 0. rewrite Rmult_0_l, rnd_id by apply float_0. lra.
      * rewrite INR_IZR_INZ, rnd_int_down by lia. lra.
    + apply rnd_ge_float; [rewrite INR_IZR_INZ; apply float_Z; lia|]. rewrite V, U.
      assert (1 <= INR (S s')) by (rewrite S_INR; assert (K := pos_INR s'); lra). lra.
  - rewrite V, U in E |- *. lra.
Qed.
(** p percent of n waves for a whole percentage p is exactly n p div 100 *)
Lemma percent_count (n p : nat) : (p <= 100)%nat -> (Z.of_nat n <= 2 ^ 45)%Z ->
  floor_is (rnd (rnd (INR n * INR p) / 100)) (n * p / 100).
Proof.
  intros Hp Hn. assert (P : rnd (INR n * INR p) = INR (n * p)).
  { rewrite <- mult_INR. apply rnd_id. rewrite INR_IZR_INZ. apply float_Z. nia. }
  rewrite P. assert (D := Nat.div_mod (n * p) 100 ltac:(lia)). assert (Md := Nat.mod_upper_bound (n * p) 100 ltac:(lia)).
  set (m := (n * p / 100)%nat) in *. set (s := ((n * p) mod 100)%nat) in *.
  assert (NR : INR (n * p) = 100 * INR m + INR s).
  { rewrite D, plus_INR, mult_INR. f_equal. f_equal. rewrite INR_IZR_INZ. reflexivity. }
  assert (Hm : (Z.of_nat m <= 2 ^ 45)%Z) by nia.
  assert (Bm : INR m <= 2 ^ 45).
  { rewrite INR_IZR_INZ. replace (2 ^ 45) with (IZR (2 ^ 45)%Z) by (cbn; lra). apply IZR_le. exact Hm. }
  assert (Bs : INR s <= 99) by (replace 99 with (INR 99) by (rewrite INR_IZR_INZ; reflexivity); apply le_INR; lia).
  assert (Ps := pos_INR s). assert (Pm := pos_INR m). rewrite NR.
  assert (E : Rabs (rnd ((100 * INR m + INR s) / 100) - (100 * INR m + INR s) / 100) <= / 256).
  { replace (/ 256) with (bpow radix2 (46 - 54)) by (cbn; lra). apply rnd_err; [lia|].
    replace (bpow radix2 46) with (2 ^ 46) by (cbn; lra). apply Rabs_le. lra. }
  apply Rabs_le_inv in E. split; [|lra].
  apply rnd_ge_float; [rewrite INR_IZR_INZ; apply float_Z; lia|lra].
Qed.

Lemma nb_highest (h t : list R) (p : R) (k : nat) :
  h <> [] -> length t = length h -> descending h -> 0 <= p <= 1 -> (Z.of_nat (length h) <= 2 ^ 53)%Z ->
  floor_is (rnd (INR (length h) * p)) k ->
  highest_waves_params (N:=NB) (Arr (vec (F h))) (Arr (vec (F t))) (Fin p)
  = Ok (if Nat.eqb k 0 then (Fin 0, Fin 0) else (nmean (N:=NB) (F (firstn k h)), nmean (N:=NB) (F (firstn k t)))).
Proof.
  intros Hne Hlen Hd Hp Hn Hk. unfold highest_waves_params; cbn [convert_to_array_type].
  assert (Hne' : t <> []) by (destruct t; [destruct h; [contradiction|discriminate]|discriminate]).
  rewrite !is1darray_vec by (apply F_ne; auto). cbn [negb].
  rewrite !as_list_vec, !bind_Ok. change (@length NB (F h)) with (@length xr (F h)). change (@length NB (F t)) with (@length xr (F t)). rewrite !F_length.
  rewrite Hlen, Nat.eqb_refl. cbn [negb].
  rewrite nb_0, nb_1, !nb_ltb, (Rltb_false p 0), (Rltb_false 1 p) by lra. cbn [orb].
  destruct (Nat.ltb_spec (length h) 1); [destruct h; [contradiction|cbn in *; lia]|].
  rewrite (proj2 (nb_sorted h) Hd). cbn [negb].
  rewrite nb_ofnat, nb_mul by exact Hn.
  assert (H0 : 0 <= rnd (INR (length h) * p)).
  { apply rnd_ge_float; [apply float_0|]. apply Rmult_le_pos; [apply pos_INR|lra]. }
  rewrite (nb_floor _ k H0 Hk), bind_Ok.
  destruct (Nat.eqb_spec k 0) as [->|Hk0]; [reflexivity|].
  destruct (Z.ltb_spec 0 (Z.of_nat k)); [|lia]. rewrite Nat2Z.id.
  unfold slice. rewrite Nat.sub_0_r. cbn [skipn]. unfold F. rewrite !firstn_map. reflexivity.
Qed.

(** H_{1/3}, T_{1/3}: the number of averaged waves is exactly n div 3 *)
Theorem C61_significant_waves (h t : list R) :
  h <> [] -> length t = length h -> descending h -> (Z.of_nat (length h) <= 2 ^ 50)%Z ->
  highest_waves_params (N:=NB) (Arr (vec (F h))) (Arr (vec (F t))) (ndiv (n:=NB) (n1 (N:=NB)) (nofZ (n:=NB) 3))
  = Ok (if Nat.ltb (length h) 3 then (Fin 0, Fin 0)
        else (nmean (N:=NB) (F (firstn (length h / 3) h)), nmean (N:=NB) (F (firstn (length h / 3) t)))).
Proof.
  intros Hne Hl Hd Hn. rewrite nb_1, nb_ofZ, nb_div by (cbn; lia || lra). fold third.
  rewrite (nb_highest h t third (length h / 3)); auto.
  - f_equal. destruct (Nat.ltb_spec (length h) 3).
    + rewrite Nat.div_small by auto. reflexivity.
    + destruct (Nat.eqb_spec (length h / 3) 0) as [E|]; [|reflexivity].
      apply Nat.div_small_iff in E; lia.
  - rewrite third_eq. replace (bpow radix2 (-54)) with (/ 18014398509481984) by (cbn; lra). lra.
  - lia.
  - apply third_count, Hn.
Qed.

(** the exceedance height for a whole percentage p is the (n p div 100)-th wave, as in exact arithmetic *)
Theorem C61_exceedance (h : list R) (p : nat) :
  h <> [] -> descending h -> (p <= 100)%nat -> (Z.of_nat (length h) <= 2 ^ 45)%Z ->
  exceedance_wave_height (N:=NB) (Arr (vec (F h))) (Fin (INR p))
  = Ok (Fin (if Nat.ltb (length h * p) 100 then 0 else nth (length h * p / 100 - 1) h 0)).
Proof.
  intros Hne Hd Hp Hn. unfold exceedance_wave_height; cbn [convert_to_array_type].
  assert (P1 : 0 <= INR p) by apply pos_INR.
  assert (P2 : INR p <= 100) by (replace 100 with (INR 100) by (rewrite INR_IZR_INZ; reflexivity); apply le_INR, Hp).
  rewrite !is1darray_vec by (apply F_ne; auto). cbn [negb]. rewrite as_list_vec, bind_Ok. change (@length NB (F h)) with (@length xr (F h)). rewrite !F_length.
  rewrite nb_0, nb_ofZ, !nb_ltb, (Rltb_false (INR p) 0), (Rltb_false 100 (INR p)) by (cbn; lia || lra). cbn [orb].
  destruct (Nat.ltb_spec (length h) 1); [destruct h; [contradiction|cbn in *; lia]|].
  rewrite (proj2 (nb_sorted h) Hd). cbn [negb].
  rewrite nb_ofnat, nb_mul, nb_div by (lia || lra).
  assert (H0 : 0 <= rnd (rnd (INR (length h) * INR p) / 100)).
  { apply rnd_ge_float; [apply float_0|]. apply Rmult_le_pos; [|lra]. apply rnd_ge_float; [apply float_0|].
    apply Rmult_le_pos; apply pos_INR. }
  rewrite (nb_floor _ _ H0 (percent_count _ _ Hp Hn)), bind_Ok.
  set (k := (length h * p / 100)%nat).
  destruct (Nat.ltb_spec (length h * p) 100) as [L|L].
  - assert (k = 0%nat) as -> by (apply Nat.div_small, L). reflexivity.
  - assert (1 <= k)%nat by (unfold k; apply Nat.div_le_lower_bound; lia).
    assert (k <= length h)%nat by (unfold k; apply Nat.div_le_upper_bound; nia).
    destruct (Z.ltb_spec (Z.of_nat k - 1) 0); [lia|]. rewrite (idx_F (h)) by lia. do 3 f_equal. lia.
Qed.

(** the computed mean of k positive values differs from their mean by a relative error of at most (k+1) 2^-52 *)
Definition fsum (l : list R) : R := sum_by (order So) (fun a b => rnd (a + b)) 0 l.
Lemma nb_sum (l : list R) : nsum (N:=NB) (F l) = Fin (fsum l).
Proof.
  change (nsum (N:=NB) (F l)) with (sum_by (order So) (fun a b => xround (xadd a b)) (Fin 0) (F l)). unfold sum_by, fsum, sum_by.
  destruct l as [|v l]; [reflexivity|]. set (k := v :: l). change (F k) with (Fin v :: F l). cbv iota.
  change (Fin v :: F l) with (F k). rewrite F_length. generalize (order So (length k)). intros t.
  induction t as [i|a IHa b IHb]; cbn [teval]; [apply F_nth|]. rewrite IHa, IHb. reflexivity.
Qed.
Lemma inv_pow n : / 2 ^ n = bpow radix2 (- Z.of_nat n).
Proof. rewrite bpow_opp. f_equal. rewrite <- (IZR_Zpower_nat radix2), Zpower_nat_Z. rewrite pow_IZR. reflexivity. Qed.
Lemma rnd_rel r : bpow radix2 (-1020) <= r -> r * (1 - bpow radix2 (-53)) <= rnd r <= r * (1 + bpow radix2 (-53)).
Proof.
  intros H. assert (Z0 := bpow_gt_0 radix2 (-1020)).
  assert (K : Rabs (rnd r - r) <= / 2 * bpow radix2 (- (53) + 1) * Rabs r).
  { apply (relative_error_N_FLT radix2 (-1074) 53 eq_refl). rewrite Rabs_pos_eq by (eapply Rle_trans; [apply Rlt_le, Z0|exact H]).
    apply Rle_trans with (bpow radix2 (-1020)); [apply bpow_le; lia|exact H]. }
  replace (/ 2 * bpow radix2 (- (53) + 1)) with (bpow radix2 (-53)) in K.
  - rewrite (Rabs_pos_eq r) in K by (eapply Rle_trans; [apply Rlt_le, Z0|exact H]). apply Rabs_le_inv in K.
    clear H Z0. set (u := bpow radix2 (-53)) in *. lra.
  - change (- (53) + 1)%Z with (1 + -53)%Z. rewrite bpow_plus. change (bpow radix2 1) with 2. lra.
Qed.
(** a tree of additions: relative error, for values that are 0 or not tiny *)
Definition tiny : R := bpow radix2 (-1020).
Definition tsum (l : list R) (t : tree) : R := Rsum (map (fun i => nth i l 0) (leaves t)).
Definition tval (l : list R) (t : tree) : R := teval (fun a b => rnd (a + b)) 0 l t.
Lemma leaves_pos t : (1 <= length (leaves t))%nat.
Proof. induction t as [i|a IHa b IHb]; cbn [leaves]; [cbn; lia|rewrite app_length; lia]. Qed.
Lemma Rsum_app a b : Rsum (a ++ b) = Rsum a + Rsum b.
Proof. induction a as [|v a IH]; [change (Rsum ([] ++ b)) with (Rsum b); change (Rsum []) with 0; lra|]. change (Rsum ((v :: a) ++ b)) with (v + Rsum (a ++ b)). change (Rsum (v :: a)) with (v + Rsum a). lra. Qed.
Lemma tree_rel (l : list R) (t : tree) : INR (length (leaves t)) <= 2 ^ 50 ->
  (forall i, In i (leaves t) -> nth i l 0 = 0 \/ tiny <= nth i l 0) ->
  let m := INR (length (leaves t)) in let u := bpow radix2 (-53) in
  (tsum l t = 0 /\ tval l t = 0 \/ tiny <= tval l t /\ tiny <= tsum l t)
  /\ tsum l t * (1 - m * u) <= tval l t <= tsum l t * (1 + m * (2 * u)).
Proof.
  cbv zeta. set (u := bpow radix2 (-53)). assert (U : u = / 9007199254740992) by (unfold u; cbn; lra).
  assert (Z0 : 0 < tiny) by apply bpow_gt_0. assert (Uu : 0 < u < 1/8) by (rewrite U; lra).
  induction t as [i|a IHa b IHb]; intros Hn Hp.
  - unfold tsum, tval. cbn [leaves map teval length]. change (INR 1) with 1. change (Rsum [nth i l 0]) with (nth i l 0 + 0).
    destruct (Hp i (or_introl eq_refl)) as [->|H]; [split; [left|]; lra|].
    split; [right; lra|]. assert (0 <= nth i l 0 * u) by (apply Rmult_le_pos; lra). lra.
  - cbn [leaves] in Hn, Hp. unfold tsum in *. cbn [leaves]. rewrite map_app, Rsum_app. rewrite app_length, plus_INR in *.
    assert (P1 := le_INR _ _ (leaves_pos a)). assert (P2 := le_INR _ _ (leaves_pos b)). change (INR 1) with 1 in P1, P2.
    destruct IHa as (A0 & A1 & A2); [lra|intros i Hi; apply Hp, in_or_app; auto|].
    destruct IHb as (B0 & B1 & B2); [lra|intros i Hi; apply Hp, in_or_app; auto|].
    change (tval l (Node a b)) with (rnd (tval l a + tval l b)).
    set (S1 := Rsum (map (fun i => nth i l 0) (leaves a))) in *. set (S2 := Rsum (map (fun i => nth i l 0) (leaves b))) in *.
    set (m1 := INR (length (leaves a))) in *. set (m2 := INR (length (leaves b))) in *. set (e1 := tval l a) in *. set (e2 := tval l b) in *.
    clearbody S1 S2 m1 m2 e1 e2.
    assert (M1 : m1 * u <= / 8) by (rewrite U; lra). assert (M2 : m2 * u <= / 8) by (rewrite U; lra).
    assert (C : S1 + S2 = 0 /\ e1 + e2 = 0 /\ S1 = 0 /\ S2 = 0 \/ tiny <= e1 + e2 /\ tiny <= S1 + S2 /\ 0 <= S1 /\ 0 <= S2).
    { destruct A0 as [[]|[]], B0 as [[]|[]]; [left|right|right|right]; lra. }
    destruct C as [(C1 & C2 & C3 & C4)|(C1 & C2 & C3 & C4)].
    + rewrite C2, C1. rewrite rnd_id by apply float_0. split; [left; lra|lra].
    + split; [right; split; [|lra]; apply rnd_ge_float; [apply float_bpow; lia|exact C1]|].
      assert (B := rnd_rel (e1 + e2) C1). fold u in B. destruct B as [R1 R2].
      assert (Q1 : 0 <= S1 * u) by (apply Rmult_le_pos; lra). assert (Q2 : 0 <= S2 * u) by (apply Rmult_le_pos; lra).
      assert (Q3 : 0 <= S1 * u * (m2 - 1)) by (apply Rmult_le_pos; lra). assert (Q4 : 0 <= S2 * u * (m1 - 1)) by (apply Rmult_le_pos; lra).
      assert (Q5 : 0 <= S1 * u * (m1 * u)) by (apply Rmult_le_pos; [lra|apply Rmult_le_pos; lra]).
      assert (Q6 : 0 <= S2 * u * (m2 * u)) by (apply Rmult_le_pos; [lra|apply Rmult_le_pos; lra]).
      split.
      * eapply Rle_trans; [|exact R1].
        apply Rle_trans with ((S1 * (1 - m1 * u) + S2 * (1 - m2 * u)) * (1 - u)); [|apply Rmult_le_compat_r; lra]. lra.
      * eapply Rle_trans; [exact R2|].
        apply Rle_trans with ((S1 * (1 + m1 * (2 * u)) + S2 * (1 + m2 * (2 * u))) * (1 + u)); [apply Rmult_le_compat_r; lra|].
        assert (Q7 : 0 <= S1 * u * (1 - 2 * (m1 * u))) by (apply Rmult_le_pos; lra).
        assert (Q8 : 0 <= S2 * u * (1 - 2 * (m2 * u))) by (apply Rmult_le_pos; lra). lra.
Qed.
Lemma Rsum_perm (a b : list R) : Permutation a b -> Rsum a = Rsum b.
Proof. induction 1; cbn in *; unfold Rsum in *; cbn; lra. Qed.
Lemma tsum_order (l : list R) : l <> [] -> tsum l (order So (length l)) = Rsum l.
Proof.
  intros H. unfold tsum. assert (0 < length l)%nat by (destruct l; [contradiction|cbn; lia]).
  rewrite (Rsum_perm _ (map (fun i => nth i l 0) (seq 0 (length l)))).
  - f_equal. apply (nth_ext' _ _ 0); [rewrite map_length, seq_length; reflexivity|]. intros k Hk. rewrite map_length, seq_length in Hk.
    rewrite map_seq_nth by exact Hk. reflexivity.
  - apply Permutation_map, order_ok. exact H0.
Qed.
Lemma leaves_order (l : list R) : l <> [] -> length (leaves (order So (length l))) = length l.
Proof.
  intros H. assert (0 < length l)%nat by (destruct l; [contradiction|cbn; lia]).
  rewrite (Permutation_length (order_ok So _ H0)). apply seq_length.
Qed.
Lemma leaf_in (l : list R) i : l <> [] -> In i (leaves (order So (length l))) -> (i < length l)%nat.
Proof.
  intros H Hi. assert (0 < length l)%nat by (destruct l; [contradiction|cbn; lia]).
  apply (Permutation_in _ (order_ok So _ H0)), in_seq in Hi. lia.
Qed.
Lemma fsum_tval (l : list R) : l <> [] -> fsum l = tval l (order So (length l)).
Proof. destruct l; [contradiction|reflexivity]. Qed.
(** a property of the values that the rounded addition keeps is one of the computed sum *)
Lemma fsum_ind (P : R -> Prop) (l : list R) : P 0 -> (forall v, In v l -> P v) -> (forall a b, P a -> P b -> P (rnd (a + b))) -> P (fsum l).
Proof.
  intros P0 Pl Pa. destruct l as [|v l]; [exact P0|]. set (k := v :: l) in *. assert (Nk : k <> []) by discriminate. rewrite fsum_tval by exact Nk.
  assert (K : forall i, In i (leaves (order So (length k))) -> P (nth i k 0)) by (intros i Hi; apply Pl, nth_In, leaf_in; auto).
  revert K. generalize (order So (length k)). clearbody k. intros t.
  induction t as [i|a IHa b IHb]; intros K; [apply K; left; reflexivity|].
  apply Pa; [apply IHa|apply IHb]; intros i Hi; apply K, in_or_app; auto.
Qed.
Lemma fsum_zero_or (z : R) (l : list R) : INR (length l) <= 2 ^ 50 -> bpow radix2 (-1020) <= z -> (forall v, In v l -> v = 0 \/ z <= v) ->
  0 <= Rsum l /\ Rsum l * (1 - INR (length l) * bpow radix2 (-53)) <= fsum l <= Rsum l * (1 + INR (length l) * (2 * bpow radix2 (-53))).
Proof.
  intros Hn Hz Hp. destruct l as [|v l]; [cbn; lra|]. set (k := v :: l) in *. assert (Nk : k <> []) by discriminate. clearbody k.
  destruct (tree_rel k (order So (length k))) as (A & B).
  - rewrite leaves_order by exact Nk. exact Hn.
  - intros i Hi. destruct (Hp (nth i k 0)) as [E|E]; [apply nth_In, leaf_in; auto|left; exact E|right]. unfold tiny. lra.
  - rewrite leaves_order, tsum_order, <- fsum_tval in B by exact Nk. split; [|exact B].
    rewrite tsum_order in A by exact Nk. assert (Z0 : 0 < tiny) by apply bpow_gt_0. destruct A as [[]|[]]; lra.
Qed.
Lemma fsum_bounds (z : R) (l : list R) : INR (length l) <= 2 ^ 50 -> bpow radix2 (-1020) <= z -> (forall v, In v l -> z <= v) ->
  (l <> [] -> z <= Rsum l)
  /\ Rsum l * (1 - INR (length l) * bpow radix2 (-53)) <= fsum l <= Rsum l * (1 + INR (length l) * bpow radix2 (-52)).
Proof.
  intros Hn Hz Hp. assert (U2 : bpow radix2 (-52) = 2 * bpow radix2 (-53)) by (change (-52)%Z with (1 + -53)%Z; rewrite bpow_plus; reflexivity).
  split; [|rewrite U2; apply (fsum_zero_or z); auto].
  assert (Z0 : 0 < z) by (eapply Rlt_le_trans; [apply bpow_gt_0|exact Hz]). clear - Hp Z0.
  induction l as [|a l IH]; [contradiction|]. intros _. change (Rsum (a :: l)) with (a + Rsum l). assert (z <= a) by (apply Hp; left; reflexivity).
  destruct l as [|b l]; [cbn; lra|]. assert (z <= Rsum (b :: l)); [|lra]. apply IH; [|discriminate]. intros v Hv. apply Hp. right. exact Hv.
Qed.
Theorem C61_mean_error (l : list R) :
  l <> [] -> INR (length l) <= 2 ^ 50 -> (forall v, In v l -> / 2 ^ 900 <= v) ->
  exists m, nmean (N:=NB) (F l) = Fin m
  /\ Rabs (m - Rmean l) <= INR (S (length l)) * / 2 ^ 52 * Rmean l.
Proof.
  intros Hne Hn Hp. rewrite (inv_pow 900) in Hp. change (- Z.of_nat 900)%Z with (-900)%Z in Hp.
  destruct (fsum_bounds (bpow radix2 (-900)) l Hn ltac:(apply bpow_le; lia) Hp) as (Hs & Hlo & Hhi). specialize (Hs Hne). clear Hp.
  assert (L1 : 1 <= INR (length l)).
  { destruct l; [contradiction|]. cbn [length]. rewrite S_INR. assert (K := pos_INR (length l)). lra. }
  assert (L2 : (Z.of_nat (length l) <= 2 ^ 53)%Z).
  { apply le_IZR. rewrite <- INR_IZR_INZ. change (2 ^ 53)%Z with 9007199254740992%Z. lra. }
  exists (rnd (fsum l / INR (length l))). split.
  { unfold nmean. rewrite nb_sum. change (@length NB (F l)) with (@length xr (F l)). rewrite F_length, nb_ofnat, nb_div by (auto; lra). reflexivity. }
  assert (Q : bpow radix2 (-1020) <= bpow radix2 (-900) * (bpow radix2 (-50) * bpow radix2 (-1))).
  { rewrite <- !bpow_plus. apply bpow_le. lia. }
  assert (Z0 := bpow_gt_0 radix2 (-900)). set (z := bpow radix2 (-900)) in *. clearbody z.
  assert (R := rnd_rel (fsum l / INR (length l))). set (q := bpow radix2 (-1020)) in *. clearbody q.
  replace (bpow radix2 (-50)) with (/ 2 ^ 50) in Q by (rewrite (inv_pow 50); reflexivity). change (bpow radix2 (-1)) with (/ 2) in Q.
  set (u := bpow radix2 (-53)) in *. assert (U2 : bpow radix2 (-52) = 2 * u) by (unfold u; change (-52)%Z with (1 + -53)%Z; rewrite bpow_plus; reflexivity).
  assert (U : u = / 9007199254740992) by (unfold u; cbn; lra). replace (/ 2 ^ 52) with (2 * u) by (rewrite U; lra).
  rewrite U2 in Hhi. unfold Rmean. rewrite S_INR. set (n := INR (length l)) in *. set (S := Rsum l) in *.
  assert (Nu : 0 <= n * u <= / 8) by (rewrite U; lra). assert (Uu : 0 < u < / 8) by (rewrite U; lra).
  assert (D : S / n * (1 - n * u) <= fsum l / n <= S / n * (1 + n * (2 * u))).
  { split; unfold Rdiv; rewrite (Rmult_assoc S), (Rmult_comm (/ n)), <- Rmult_assoc; apply Rmult_le_compat_r;
      try (apply Rlt_le, Rinv_0_lt_compat; lra); assumption. }
  assert (M0 : z * / 2 ^ 50 <= S / n).
  { apply Rmult_le_compat; [lra|apply Rlt_le, Rinv_0_lt_compat; lra|exact Hs|]. apply Rinv_le_contravar; lra. }
  assert (P0 : 0 < z * / 2 ^ 50) by (apply Rmult_lt_0_compat; lra).
  set (m := S / n) in *. set (g := fsum l / n) in *.
  assert (G : q <= g).
  { apply Rle_trans with (m * (1 - n * u)); [|apply D]. apply Rle_trans with (m * / 2); [|apply Rmult_le_compat_l; lra]. lra. }
  specialize (R G). assert (m0 : 0 < m) by lra. clear Q M0 G. clearbody m g u. clear U U2 Hlo Hhi Hs.
  assert (K1 : m * (1 - n * u) * (1 - u) <= rnd g) by (eapply Rle_trans; [apply Rmult_le_compat_r; [lra|apply D]|apply R]).
  assert (K2 : rnd g <= m * (1 + n * (2 * u)) * (1 + u)) by (eapply Rle_trans; [apply R|apply Rmult_le_compat_r; [lra|apply D]]).
  assert (A1 : 0 <= m * u) by (apply Rmult_le_pos; lra). assert (A2 : 0 <= m * u * (n * u)) by (apply Rmult_le_pos; lra).
  assert (A3 : m * u * (n * u) <= m * u * / 8) by (apply Rmult_le_compat_l; lra).
  assert (A4 : 0 <= m * (n * u)) by (apply Rmult_le_pos; lra).
  apply Rabs_le. nra.
Qed.

(** the significant wave height as computed: within (n/3 + 1) 2^-52 relative of the mean of the n/3 highest *)
Theorem C61_significant_height_error (h t : list R) :
  (3 <= length h)%nat -> length t = length h -> descending h -> INR (length h) <= 2 ^ 50 ->
  (forall v, In v h -> / 2 ^ 900 <= v) -> (forall v, In v t -> / 2 ^ 900 <= v) ->
  exists Hs Ts,
    highest_waves_params (N:=NB) (Arr (vec (F h))) (Arr (vec (F t))) (ndiv (n:=NB) (n1 (N:=NB)) (nofZ (n:=NB) 3)) = Ok (Fin Hs, Fin Ts)
    /\ Rabs (Hs - Rmean (firstn (length h / 3) h)) <= INR (S (length h / 3)) * / 2 ^ 52 * Rmean (firstn (length h / 3) h)
    /\ Rabs (Ts - Rmean (firstn (length h / 3) t)) <= INR (S (length h / 3)) * / 2 ^ 52 * Rmean (firstn (length h / 3) t).
Proof.
  intros H3 Hl Hd Hn Ph Pt. set (k := (length h / 3)%nat).
  assert (K1 : (1 <= k)%nat) by (unfold k; apply Nat.div_le_lower_bound; lia).
  assert (K2 : (k <= length h)%nat) by (unfold k; apply Nat.div_le_upper_bound; lia).
  assert (Lh : length (firstn k h) = k) by (rewrite firstn_length; lia).
  assert (Lt : length (firstn k t) = k) by (rewrite firstn_length; lia).
  assert (Nk : INR k <= 2 ^ 50) by (eapply Rle_trans; [apply le_INR, K2|exact Hn]).
  assert (In1 : forall l v, In v (firstn k l) -> In v (l : list R)).
  { intros l v Hv. rewrite <- (firstn_skipn k l). apply in_or_app; left; exact Hv. }
  destruct (C61_mean_error (firstn k h)) as (Hs & EH & BH).
  { intros E. rewrite E in Lh. cbn [length] in Lh. clear - Lh K1. lia. } { rewrite Lh. exact Nk. } { intros v Hv. apply Ph, In1, Hv. }
  destruct (C61_mean_error (firstn k t)) as (Ts & ET & BT).
  { intros E. rewrite E in Lt. cbn [length] in Lt. clear - Lt K1. lia. } { rewrite Lt. exact Nk. } { intros v Hv. apply Pt, In1, Hv. }
  exists Hs, Ts. rewrite Lh in BH. rewrite Lt in BT. split; [|split; assumption].
  rewrite C61_significant_waves; auto.
  - destruct (Nat.ltb_spec (length h) 3); [lia|]. fold k. rewrite EH, ET. reflexivity.
  - destruct h; [cbn in H3; lia|discriminate].
  - apply le_IZR. rewrite <- INR_IZR_INZ. replace (IZR (2 ^ 50)) with (2 ^ 50) by (cbn; lra). exact Hn.
Qed.

(** Deviation: a percentage given as a decimal fraction can lose a wave.  The highest 29 % of 100 waves are 29 waves, but
    100 * 0.29 is 28.999999999999996 in binary64, so 28 are averaged. *)
Lemma rnd_29 : rnd (29 / 100) = IZR 5224175567749775 * bpow radix2 (-54).
Proof.
  unfold rnd, round, F2R. cbn [Fnum Fexp].
  assert (Mg : mag radix2 (29/100) = (-1)%Z :> Z) by (apply mag_unique; rewrite Rabs_pos_eq by lra; cbn; lra).
  unfold scaled_mantissa, cexp. rewrite Mg. change (fexp64 (-1)) with (-54)%Z. f_equal. f_equal.
  apply Znearest_imp. replace (bpow radix2 (- -54)) with 18014398509481984 by (cbn; lra). apply Rabs_lt. lra.
Qed.
Lemma rnd_2900 : rnd (100 * rnd (29 / 100)) = IZR 8162774324609023 * bpow radix2 (-48).
Proof.
  rewrite rnd_29. replace (bpow radix2 (-54)) with (/ 18014398509481984) by (cbn; lra).
  unfold rnd, round, F2R. cbn [Fnum Fexp].
  set (v := 100 * (5224175567749775 * / 18014398509481984)).
  assert (Mg : mag radix2 v = 5%Z :> Z) by (apply mag_unique; rewrite Rabs_pos_eq by (unfold v; lra); cbn; unfold v; lra).
  unfold scaled_mantissa, cexp. rewrite Mg. change (fexp64 5) with (-48)%Z. f_equal. f_equal.
  apply Znearest_imp. replace (bpow radix2 (- -48)) with 281474976710656 by (cbn; lra). apply Rabs_lt. unfold v. lra.
Qed.
Lemma fsum_zeros n : fsum (repeat 0 n) = 0.
Proof.
  apply (fsum_ind (fun v => v = 0)); [reflexivity|intros v Hv; apply (repeat_spec _ _ _ Hv)|].
  intros a b -> ->. rewrite Rplus_0_r. apply rnd_id, float_0.
Qed.
Lemma Rsum_zeros n : Rsum (repeat 0 n) = 0.
Proof. induction n as [|n IH]; [reflexivity|]. cbn [repeat]. change (Rsum (0 :: repeat 0 n)) with (0 + Rsum (repeat 0 n)). lra. Qed.
Theorem C61_decimal_fraction_refuted :
  ~ (forall (h t : list R) (d : nat) (H T : R),
       length h = 100%nat -> length t = 100%nat -> descending h -> (1 <= d <= 100)%nat ->
       highest_waves_params (N:=NB) (Arr (vec (F h))) (Arr (vec (F t))) (Fin (rnd (INR d / 100))) = Ok (Fin H, Fin T) ->
       Rabs (T - Rmean (firstn d t)) <= 1 / 2).
Proof.
  intros C. set (h := repeat 1 100). set (t := (repeat 0 28 ++ repeat 29 72)%R).
  assert (D : descending h).
  { intros i j Hij. unfold h in *. rewrite repeat_length in Hij. rewrite !(nth_indep (repeat 1 100) 0 1) by (rewrite repeat_length; lia). rewrite !nth_repeat. lra. }
  assert (I29 : INR 29 = 29) by (rewrite INR_IZR_INZ; reflexivity).
  assert (E : highest_waves_params (N:=NB) (Arr (vec (F h))) (Arr (vec (F t))) (Fin (rnd (INR 29 / 100)))
              = Ok (nmean (N:=NB) (F (firstn 28 h)), nmean (N:=NB) (F (firstn 28 t)))).
  { rewrite I29, (nb_highest h t _ 28); [reflexivity|discriminate|reflexivity|exact D| |cbn; lia|].
    - rewrite rnd_29. cbn. lra.
    - replace (INR (length h)) with 100 by (unfold h; rewrite repeat_length, INR_IZR_INZ; reflexivity).
      rewrite rnd_2900. replace (bpow radix2 (-48)) with (/ 281474976710656) by (cbn; lra).
      split; [replace (INR 28) with 28 by (rewrite INR_IZR_INZ; reflexivity); lra|replace (INR 28) with 28 by (rewrite INR_IZR_INZ; reflexivity); lra]. }
  destruct (C61_mean_error (firstn 28 h)) as (H & EH & _).
  { discriminate. } { replace (INR (length (firstn 28 h))) with 28 by (rewrite INR_IZR_INZ; reflexivity). lra. }
  { intros v Hv. assert (v = 1) as -> by (apply (repeat_spec 100); rewrite <- (firstn_skipn 28 (repeat 1 100)); apply in_or_app; left; exact Hv).
    rewrite <- Rinv_1. apply Rinv_le_contravar; [lra|]. apply pow_R1_Rle. lra. }
  assert (ET : nmean (N:=NB) (F (firstn 28 t)) = Fin 0).
  { change (firstn 28 t) with (repeat 0 28). unfold nmean. rewrite nb_sum, fsum_zeros.
    change (@length NB (F (repeat 0 28))) with 28%nat. rewrite nb_ofnat by (cbn; lia).
    replace (INR 28) with 28 by (rewrite INR_IZR_INZ; reflexivity). rewrite nb_div by lra. f_equal.
    replace (0 / 28) with 0 by lra. apply rnd_id, float_0. }
  rewrite EH, ET in E. specialize (C h t 29%nat H 0 eq_refl eq_refl D ltac:(lia) E).
  change (firstn 29 t) with (repeat 0 28 ++ [29])%R in C. unfold Rmean in C. rewrite Rsum_app, Rsum_zeros in C.
  change (length (repeat 0 28 ++ [29])) with 29%nat in C. rewrite I29 in C. cbn [Rsum fold_right] in C.
  replace (0 - (0 + (29 + 0)) / 29) with (- (1)) in C by lra. rewrite Rabs_Ropp, Rabs_R1 in C. lra.
Qed.
Example C61_witness : (3 <= length [4; 3; 2; 1])%nat /\ descending [4; 3; 2; 1] /\ (forall v, In v [4; 3; 2; 1] -> / 2 ^ 900 <= v).
Proof.
  split; [cbn; lia|]. split.
  - intros i j Hij. cbn [length] in Hij. destruct i as [|[|[|[|]]]], j as [|[|[|[|]]]]; try lia; cbn; lra.
  - intros v Hv. apply Rle_trans with 1.
    + rewrite <- Rinv_1. apply Rinv_le_contravar; [lra|]. apply pow_R1_Rle. lra.
    + cbn in Hv. destruct Hv as [<-|[<-|[<-|[<-|[]]]]]; lra.
Qed.
End AnyOrder.

(** The order of the additions does change the computed mean, so the quantification over it is not idle; numpy's pairwise order is one of them *)
Theorem C61_order_matters {Lm : libm} : exists (l : list R) (m1 m2 : R), floats l /\
  nmean (N:=@NB numpy_order Lm) (F l) = Fin m1 /\ nmean (N:=@NB right_to_left Lm) (F l) = Fin m2 /\ m1 < m2.
Proof.
  set (b := 9007199254740992). set (l := [b; 3/4; 3/4; 0] : list R).
  assert (R0 : forall d, 0 <= d < 1 -> rnd (b + d) = b).
  { intros d Hd. unfold rnd, round, F2R. cbn [Fnum Fexp].
    assert (Mg : mag radix2 (b + d) = 54%Z :> Z) by (apply mag_unique; rewrite Rabs_pos_eq by (unfold b; lra); cbn; unfold b; lra).
    unfold scaled_mantissa, cexp. rewrite Mg. change (fexp64 54) with 1%Z.
    replace (ZnearestE ((b + d) * bpow radix2 (- (1)))) with 4503599627370496%Z.
    - unfold b. cbn. lra.
    - symmetry. apply Znearest_imp. change (bpow radix2 (- (1))) with (/ 2). apply Rabs_lt. unfold b. lra. }
  assert (R1 : rnd (b + 3/2) = b + 2).
  { unfold rnd, round, F2R. cbn [Fnum Fexp].
    assert (Mg : mag radix2 (b + 3/2) = 54%Z :> Z) by (apply mag_unique; rewrite Rabs_pos_eq by (unfold b; lra); cbn; unfold b; lra).
    unfold scaled_mantissa, cexp. rewrite Mg. change (fexp64 54) with 1%Z.
    replace (ZnearestE ((b + 3/2) * bpow radix2 (- (1)))) with 4503599627370497%Z.
    - unfold b. cbn. lra.
    - symmetry. apply Znearest_imp. change (bpow radix2 (- (1))) with (/ 2). apply Rabs_lt. unfold b. lra. }
  assert (F3 : is_float (3/4)).
  { replace (3/4) with (3 * bpow radix2 (-2)) by (cbn; lra). apply (float_scaled 3); [cbn; lia|lia]. }
  assert (F2 : is_float (3/2)).
  { replace (3/2) with (3 * bpow radix2 (-1)) by (cbn; lra). apply (float_scaled 3); [cbn; lia|lia]. }
  assert (Fb : is_float b) by (apply (float_Z 9007199254740992); cbn; lia).
  assert (Fb2 : is_float (b + 2)) by (rewrite <- R1; apply rnd_float).
  exists l, (b / 4), ((b + 2) / 4). split; [|split; [|split]].
  - intros v [<-|[<-|[<-|[<-|[]]]]]; auto. apply float_0.
  - unfold nmean. rewrite nb_sum. replace (@fsum numpy_order l) with b.
    + rewrite nb_ofnat by (cbn; lia). change (length (F l)) with 4%nat. replace (INR 4) with 4 by (cbn; lra). rewrite nb_div by lra. f_equal.
      apply rnd_id. replace (b / 4) with 2251799813685248 by (unfold b; lra). apply (float_Z 2251799813685248); cbn; lia.
    + symmetry. change (@fsum numpy_order l) with (rnd (rnd (rnd (b + 3/4) + 3/4) + 0)).
      rewrite (R0 (3/4)) by lra. rewrite (R0 (3/4)) by lra. apply (R0 0). lra.
  - unfold nmean. rewrite nb_sum. replace (@fsum right_to_left l) with (b + 2).
    + rewrite nb_ofnat by (cbn; lia). change (length (F l)) with 4%nat. replace (INR 4) with 4 by (cbn; lra). rewrite nb_div by lra. f_equal.
      apply rnd_id. replace ((b + 2) / 4) with (4503599627370497 * bpow radix2 (-1)) by (unfold b; cbn; lra). apply (float_scaled 4503599627370497); cbn; lia.
    + symmetry. change (@fsum right_to_left l) with (rnd (b + rnd (3/4 + rnd (3/4 + 0)))).
      rewrite Rplus_0_r, (rnd_id (3/4)) by exact F3. replace (3/4 + 3/4) with (3/2) by lra. rewrite (rnd_id (3/2)) by exact F2. exact R1.
  - lra.
Qed.
