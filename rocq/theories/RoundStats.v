(** * C90: the waves found in binary64 are those of exact arithmetic.
    The same record analysed exactly and with every operation rounded: when no crossing is closer to a sample than the rounding of
    the times can move it, both runs find the same waves, with the same crests and troughs at the same instants; every wave height is
    the exact one rounded once, the statistics follow it closely, and the crossing times are off by a few units of rounding. *)

From Coq Require Import Reals ZArith String List Bool Lra Lia Permutation.
From Flocq Require Import Core.
From Verif Require Import SumOrder Num XR Spec XRFacts RoundNum Engine EngineProps TimeModel TimeSpec TimeProps TimeProps2 TimeProps3
  SpectralModel WaveModel SpectrumModel SeriesModel SeriesProps WHProps WHStats RoundProps RoundWave RoundSpec RoundChain RoundAccuracy RoundDisper.
Import ListNotations.
Open Scope R_scope.

Section AnyOrder.
Context {So : summation} {Lm : libm}.

(** ** One crossing time *)
Lemma offset_error w A D : bpow radix2 (-92) <= w -> bpow radix2 (-900) <= A -> A <= D ->
  Rabs (rnd (rnd (rnd w * A) / rnd D) - w * A / D) <= 6 * u53 * w.
Proof.
  intros Hw HA HD. assert (Z92 := b_pos (-92)). assert (Z900 := b_pos (-900)). assert (U := u53_val).
  assert (T1 : thr w) by (right; apply Rle_trans with (bpow radix2 (-92)); [apply bpow_le; lia|exact Hw]).
  assert (T2 : thr (w * A)).
  { right. apply Rle_trans with (bpow radix2 (-92) * bpow radix2 (-900)); [rewrite <- bpow_plus; apply bpow_le; lia|]. apply Rmult_le_compat; lra. }
  assert (T3 : thr D) by (right; apply Rle_trans with (bpow radix2 (-900)); [apply bpow_le; lia|lra]).
  assert (R1 := rel_rnd 0 w w ltac:(cbn; lia) T1 (rel_refl w)).
  assert (R2 := rel_mul 1 0 w (rnd w) A A ltac:(lra) ltac:(lra) R1 (rel_refl A)).
  assert (R3 := rel_rnd 1 _ _ ltac:(cbn; lia) T2 R2).
  assert (R4 := rel_rnd 0 D D ltac:(cbn; lia) T3 (rel_refl D)).
  assert (R5 := rel_div 2 1 (w * A) (rnd (rnd w * A)) D (rnd D) (thr_nonneg _ T2) ltac:(lra) R3 R4). cbn [Nat.add Nat.mul] in R5.
  assert (Q : 0 <= w * A / D <= w).
  { split; [apply Rmult_le_pos; [apply Rmult_le_pos; lra|apply Rlt_le, Rinv_0_lt_compat; lra]|]. apply div_le; [lra|]. apply Rmult_le_compat_l; lra. }
  set (q := w * A / D) in *. set (r := rnd (rnd w * A) / rnd D) in *.
  assert (E := rel_abs 4 _ _ ltac:(cbn; lia) (proj1 Q) R5). replace (INR 4) with 4 in E by (cbn; lra).
  assert (B := rnd_abs r). apply Rabs_le_inv in E. assert (Pr : 0 <= r) by (rewrite U in E; lra). rewrite (Rabs_pos_eq r Pr) in B. apply Rabs_le_inv in B.
  assert (W20 : bpow radix2 (-1020) <= / 1000 * w).
  { apply Rle_trans with (bpow radix2 (-10) * bpow radix2 (-92)); [rewrite <- bpow_plus; apply bpow_le; lia|]. replace (bpow radix2 (-10)) with (/ 1024) by (cbn; lra). lra. }
  apply Rabs_le. rewrite U in *. lra.
Qed.

(** the crossing time in exact arithmetic *)
Definition ex_cross (w ti a b : R) : R := ti + w * a / (a - b).

Lemma cross_error d w ti a b : is_float ti -> bpow radix2 (-92) <= w -> a = 0 \/ bpow radix2 (-900) <= Rabs a ->
  match d with Up => a <= 0 < b | Down => 0 <= a /\ b < 0 end ->
  Rabs (fl_cross (rnd w) ti a b - ex_cross w ti a b) <= u53 * (Rabs (ex_cross w ti a b) + 8 * w)
  /\ (a = 0 -> fl_cross (rnd w) ti a b = ti /\ ex_cross w ti a b = ti)
  /\ ex_cross w ti a b = ti + w * (Rabs a / Rabs (a - b)) /\ w * (Rabs a / Rabs (a - b)) + w * (Rabs b / Rabs (a - b)) = w.
Proof.
  intros Fi Hw Ha Hd. assert (U := u53_val). assert (Z92 := b_pos (-92)).
  assert (D0 : 0 < Rabs (a - b)) by (apply Rabs_pos_lt; destruct d; lra).
  assert (AB : Rabs (a - b) = Rabs a + Rabs b).
  { destruct d.
    - rewrite (Rabs_left1 (a - b)), (Rabs_left1 a), (Rabs_pos_eq b) by lra. lra.
    - rewrite (Rabs_pos_eq (a - b)), (Rabs_pos_eq a), (Rabs_left1 b) by lra. lra. }
  assert (Eq : w * a / (a - b) = w * (Rabs a / Rabs (a - b))).
  { destruct d.
    - rewrite (Rabs_left1 (a - b)), (Rabs_left1 a) by lra. field. lra.
    - rewrite (Rabs_pos_eq (a - b)), (Rabs_pos_eq a) by lra. field. lra. }
  assert (Z0 : a = 0 -> fl_cross (rnd w) ti a b = ti /\ ex_cross w ti a b = ti).
  { intros ->. unfold fl_cross, ex_cross. rewrite !Rmult_0_r, (rnd_id 0) by apply float_0. replace (0 / rnd (0 - b)) with 0 by (unfold Rdiv; ring).
    replace (0 / (0 - b)) with 0 by (unfold Rdiv; ring). rewrite (rnd_id 0), Rplus_0_r, (rnd_id ti) by (apply float_0 || exact Fi). split; reflexivity. }
  split; [|split; [|split]].
  - destruct Ha as [->|Ha].
    { destruct (Z0 eq_refl) as [-> ->]. rewrite Rminus_diag_eq, Rabs_R0 by reflexivity. assert (P := Rabs_pos ti). rewrite U. lra. }
    assert (Eq' : rnd (rnd w * a) / rnd (a - b) = rnd (rnd w * Rabs a) / rnd (Rabs (a - b))).
    { destruct d.
      - rewrite (Rabs_left1 (a - b)), (Rabs_left1 a) by lra. replace (rnd w * - a) with (- (rnd w * a)) by ring. rewrite !rnd_opp. unfold Rdiv. rewrite Rinv_opp. ring.
      - rewrite (Rabs_pos_eq (a - b)), (Rabs_pos_eq a) by lra. reflexivity. }
    unfold fl_cross, ex_cross. rewrite Eq', Eq. assert (O := offset_error w (Rabs a) (Rabs (a - b)) Hw Ha ltac:(assert (P := Rabs_pos b); lra)).
    replace (w * Rabs a / Rabs (a - b)) with (w * (Rabs a / Rabs (a - b))) in O by (unfold Rdiv; ring).
    set (q' := rnd (rnd (rnd w * Rabs a) / rnd (Rabs (a - b)))) in *. set (q := w * (Rabs a / Rabs (a - b))) in *.
    assert (B := rnd_abs (ti + q')). assert (W20 : bpow radix2 (-1020) <= / 1000 * w).
    { apply Rle_trans with (bpow radix2 (-10) * bpow radix2 (-92)); [rewrite <- bpow_plus; apply bpow_le; lia|]. replace (bpow radix2 (-10)) with (/ 1024) by (cbn; lra). lra. }
    assert (T : Rabs (ti + q') <= Rabs (ti + q) + Rabs (q' - q)) by (replace (ti + q') with ((ti + q) + (q' - q)) by ring; apply Rabs_triang).
    replace (rnd (ti + q') - (ti + q)) with ((rnd (ti + q') - (ti + q')) + (q' - q)) by ring.
    eapply Rle_trans; [apply Rabs_triang|]. rewrite U in *. lra.
  - exact Z0.
  - unfold ex_cross. rewrite Eq. reflexivity.
  - rewrite AB. field. rewrite <- AB. lra.
Qed.

Lemma first_max_unique t x a b a' b' v tv v' tv' :
  (forall j, (j < length t)%nat -> (a <= nth j t 0 <= b <-> a' <= nth j t 0 <= b')) ->
  first_max_on t x a b v tv -> first_max_on t x a' b' v' tv' -> v = v' /\ tv = tv'.
Proof.
  intros W (i & Hi & Ri & -> & -> & M & F) (i' & Hi' & Ri' & -> & -> & M' & F').
  assert (A := M i' Hi' (proj2 (W i' Hi') Ri')). assert (B := M' i Hi (proj1 (W i Hi) Ri)). split; [lra|]. f_equal.
  destruct (Nat.lt_trichotomy i i') as [L|[L|L]]; [|exact L|].
  - assert (C := F' i L (proj1 (W i Hi) Ri)). lra.
  - assert (C := F i' L (proj2 (W i' Hi') Ri')). lra.
Qed.
Lemma first_min_unique t x a b a' b' v tv v' tv' :
  (forall j, (j < length t)%nat -> (a <= nth j t 0 <= b <-> a' <= nth j t 0 <= b')) ->
  first_min_on t x a b v tv -> first_min_on t x a' b' v' tv' -> v = v' /\ tv = tv'.
Proof.
  intros W (i & Hi & Ri & -> & -> & M & F) (i' & Hi' & Ri' & -> & -> & M' & F').
  assert (A := M i' Hi' (proj2 (W i' Hi') Ri')). assert (B := M' i Hi (proj1 (W i Hi) Ri)). split; [lra|]. f_equal.
  destruct (Nat.lt_trichotomy i i') as [L|[L|L]]; [|exact L|].
  - assert (C := F' i L (proj1 (W i Hi) Ri)). lra.
  - assert (C := F i' L (proj2 (W i' Hi') Ri')). lra.
Qed.

Lemma params_of_waves {N : Num} (t x c : list N) ws : t <> [] -> x <> [] -> length t = length x -> all_waves t x c = Ok ws ->
  determine_params_individual_waves (Arr (match c with [] => empty00 | _ => vec c end)) (Arr (vec t)) (Arr (vec x)) = Ok ws.
Proof.
  intros Nt Nx Hl E. destruct c as [|c0 c].
  - cbn in E. rewrite <- E. reflexivity.
  - unfold determine_params_individual_waves; cbn [convert_to_array_type]. rewrite asize_vec. cbn [length Nat.eqb].
    rewrite !is1darray_vec by (assumption || discriminate). cbn [negb]. rewrite !as_list_vec, !bind_Ok, Hl, Nat.eqb_refl. cbn [negb]. exact E.
Qed.

(** ** The record *)

(** No crossing is closer to a sample than the rounding of the times can move it: the exact crossing time of a sign change after sample i,
    [c] = t_i + (t_1 - t_0) x_i / (x_i - x_(i+1)), lies after t_i (unless the signal is 0 there) and before t_(i+1), by more than
    the margin (|c| + 8 (t_1 - t_0)) / 2^53. *)
Definition step_of (t : list R) : R := nth 1 t 0 - nth 0 t 0.
Definition crossing_at (t x : list R) (i : nat) : R := nth i t 0 + step_of t * nth i x 0 / (nth i x 0 - nth (S i) x 0).
Definition time_error (t : list R) (c : R) : R := (Rabs c + 8 * step_of t) / 2 ^ 53.
Definition clear_of_samples (d : direction) (t x : list R) : Prop := forall i, Rcrosses d x i ->
  (nth i x 0 = 0 \/ nth i t 0 + time_error t (crossing_at t x i) < crossing_at t x i)
  /\ crossing_at t x i + time_error t (crossing_at t x i) < nth (S i) t 0.

Lemma mono_le t i j : increasing t -> (i <= j)%nat -> (j < length t)%nat -> nth i t 0 <= nth j t 0.
Proof. intros Hi H1 H2. destruct (Nat.eq_dec i j) as [->|]; [lra|]. left. apply Hi. lia. Qed.

Lemma time_error_u t c : time_error t c = u53 * (Rabs c + 8 * step_of t).
Proof. unfold time_error. rewrite u53_val. field. Qed.

Theorem C90_same_waves (t x : list R) (s : string) (d : direction) :
  names s d -> floats t -> floats x -> length t = length x -> (2 <= length x)%nat -> increasing t -> / 2 ^ 92 <= step_of t ->
  (forall v, In v x -> v = 0 \/ / 2 ^ 900 <= Rabs v) -> clear_of_samples d t x ->
  exists is cX cB aX aB wsX wsB,
    all_crossings d x is /\ length cX = length is /\ length cB = length is
    /\ determine_zero_crossing (N:=NX) (Arr (vec (F t))) (Arr (vec (F x))) s = Ok (Z.of_nat (length is - 1), aX) /\ data aX = F cX
    /\ determine_zero_crossing (N:=NB) (Arr (vec (F t))) (Arr (vec (F x))) s = Ok (Z.of_nat (length is - 1), aB) /\ data aB = F cB
    /\ (forall k, (k < length is)%nat -> nth k cX 0 = crossing_at t x (nth k is 0%nat)
          /\ Rabs (nth k cB 0 - nth k cX 0) <= time_error t (nth k cX 0))
    /\ determine_params_individual_waves (N:=NX) (Arr aX) (Arr (vec (F t))) (Arr (vec (F x))) = Ok wsX
    /\ determine_params_individual_waves (N:=NB) (Arr aB) (Arr (vec (F t))) (Arr (vec (F x))) = Ok wsB
    /\ length wsX = (length is - 1)%nat /\ length wsB = (length is - 1)%nat
    /\ forall k, (k < length is - 1)%nat ->
         exists h TX TB crest trough tcr ttr,
           nth k wsX dwave = mkWave (N:=NX) (Fin h) (Fin TX) (Fin crest) (Fin trough) (Fin tcr) (Fin ttr)
           /\ nth k wsB dwaveB = mkWave (N:=NB) (Fin (rnd h)) (Fin TB) (Fin crest) (Fin trough) (Fin tcr) (Fin ttr)
           /\ h = crest - trough /\ (forall m, (forall v, In v x -> v = 0 \/ m <= Rabs v) -> m <= h) /\ Rabs (rnd h - h) <= h / 2 ^ 53
           /\ TX = nth (S k) cX 0 - nth k cX 0 /\ 0 < TX
           /\ Rabs (TB - TX) <= 3 * (time_error t (nth k cX 0) + time_error t (nth (S k) cX 0)).
Proof.
  intros Hn Ft Fx Hl H2 Inc Hw Hx Clr. rewrite (inv_pow 92) in Hw. change (- Z.of_nat 92)%Z with (-92)%Z in Hw.
  assert (Hx' : forall v, In v x -> v = 0 \/ bpow radix2 (-900) <= Rabs v) by (rewrite (inv_pow 900) in Hx; exact Hx).
  assert (Z92 := b_pos (-92)). assert (Z900 := b_pos (-900)). assert (U := u53_val).
  destruct (zero_crossing_F t x s d Hn Hl H2) as (is & Hall & EX). destruct (zero_crossing_NB t x s d Hn Hl H2 Fx) as (is' & Hall' & EB).
  assert (Eis : is' = is) by exact (all_crossings_unique d x is' is Hall' Hall). subst is'. fold (step_of t) in EX, EB. set (w := step_of t) in *.
  set (cX := map (fun i => nth i t 0 + w * nth i x 0 / (nth i x 0 - nth (i + 1) x 0)) is) in *.
  set (cB := map (fun i => fl_cross (rnd w) (nth i t 0) (nth i x 0) (nth (i + 1) x 0)) is) in *.
  assert (LX : length cX = length is) by apply map_length. assert (LB : length cB = length is) by apply map_length.
  assert (VX : forall k, (k < length is)%nat -> nth k cX 0 = crossing_at t x (nth k is 0%nat)).
  { intros k Hk. unfold cX. rewrite (nth_indep _ 0 ((fun i => nth i t 0 + w * nth i x 0 / (nth i x 0 - nth (i + 1) x 0)) 0%nat)) by (rewrite map_length; exact Hk).
    rewrite (map_nth (fun i => nth i t 0 + w * nth i x 0 / (nth i x 0 - nth (i + 1) x 0))). rewrite Nat.add_1_r. reflexivity. }
  assert (VB : forall k, (k < length is)%nat -> nth k cB 0 = fl_cross (rnd w) (nth (nth k is 0%nat) t 0) (nth (nth k is 0%nat) x 0) (nth (S (nth k is 0%nat)) x 0)).
  { intros k Hk. unfold cB. rewrite (nth_indep _ 0 ((fun i => fl_cross (rnd w) (nth i t 0) (nth i x 0) (nth (i + 1) x 0)) 0%nat)) by (rewrite map_length; exact Hk).
    rewrite (map_nth (fun i => fl_cross (rnd w) (nth i t 0) (nth i x 0) (nth (i + 1) x 0))). rewrite Nat.add_1_r. reflexivity. }
  assert (Cr : forall k, (k < length is)%nat -> Rcrosses d x (nth k is 0%nat)) by (intros k Hk; apply (proj2 Hall), nth_In, Hk).
  (* position of both computed times among the samples *)
  assert (Pos : forall k, (k < length is)%nat -> let i := nth k is 0%nat in
     Rabs (nth k cB 0 - nth k cX 0) <= time_error t (nth k cX 0)
     /\ nth k cX 0 < nth (S i) t 0 /\ nth k cB 0 < nth (S i) t 0
     /\ (nth k cX 0 = nth i t 0 /\ nth k cB 0 = nth i t 0 \/ nth i t 0 < nth k cX 0 /\ nth i t 0 < nth k cB 0)).
  { intros k Hk i. assert (C := Cr k Hk). fold i in C. destruct (Clr i C) as [K1 K2].
    rewrite (VX k Hk), (VB k Hk). fold i. destruct C as [Hi C].
    destruct (cross_error d w (nth i t 0) (nth i x 0) (nth (S i) x 0)) as (E1 & E2 & E3 & _); auto.
    { apply Ft, nth_In. lia. } { apply Hx', nth_In. lia. }
    change (ex_cross w (nth i t 0) (nth i x 0) (nth (S i) x 0)) with (crossing_at t x i) in *. rewrite time_error_u in *. fold w in K1, K2 |- *.
    set (c := crossing_at t x i) in *. set (b := fl_cross _ _ _ _) in *. assert (A := E1). apply Rabs_le_inv in A.
    assert (M : 0 <= u53 * (Rabs c + 8 * w)) by (apply Rmult_le_pos; [rewrite U; lra|]; assert (P := Rabs_pos c); lra).
    split; [exact E1|]. split; [lra|]. split; [lra|].
    destruct K1 as [K1|K1]; [left; destruct (E2 K1); auto|right; lra]. }
  assert (Sep : forall k, (S k < length is)%nat -> (S (nth k is 0%nat) < nth (S k) is 0%nat)%nat /\ (S (nth (S k) is 0%nat) < length t)%nat).
  { intros k Hk. assert (Ck := Cr k ltac:(lia)). assert (Cj := Cr (S k) Hk). assert (A := proj1 Hall k (S k) ltac:(lia)).
    split; [|destruct Cj; lia]. destruct (Nat.eq_dec (nth (S k) is 0%nat) (S (nth k is 0%nat))) as [Ej|]; [|lia].
    destruct Ck as [_ Ck]. destruct Cj as [_ Cj]. rewrite Ej in Cj. destruct d; lra. }
  (* the same samples in both windows *)
  assert (After : forall k j, (k < length is)%nat -> (j < length t)%nat -> (nth k cX 0 <= nth j t 0 <-> nth k cB 0 <= nth j t 0)).
  { intros k j Hk Hj. destruct (Pos k Hk) as (_ & P1 & P2 & P3). set (i := nth k is 0%nat) in *. destruct (Cr k Hk) as [Hi _]. fold i in Hi.
    destruct (le_lt_dec (S i) j) as [L|L]; [assert (M := mono_le t (S i) j Inc L Hj); split; lra|].
    destruct (Nat.eq_dec j i) as [->|Nj]; [destruct P3; split; lra|].
    assert (M : nth j t 0 < nth i t 0) by (apply Inc; lia). destruct P3; split; lra. }
  assert (Before : forall k j, (k < length is)%nat -> (j < length t)%nat -> (nth j t 0 <= nth k cX 0 <-> nth j t 0 <= nth k cB 0)).
  { intros k j Hk Hj. destruct (Pos k Hk) as (_ & P1 & P2 & P3). set (i := nth k is 0%nat) in *. destruct (Cr k Hk) as [Hi _]. fold i in Hi.
    destruct (le_lt_dec (S i) j) as [L|L]; [assert (M := mono_le t (S i) j Inc L Hj); split; lra|].
    assert (M := mono_le t j i Inc ltac:(lia) ltac:(lia)). destruct P3; split; lra. }
  assert (Win : forall k, (S k < length is)%nat -> nth k cX 0 <= nth (S (nth k is 0%nat)) t 0 <= nth (S k) cX 0 /\ nth k cX 0 <= nth (nth (S k) is 0%nat) t 0 <= nth (S k) cX 0).
  { intros k Hk. destruct (Sep k Hk) as [S1 S2]. destruct (Pos k ltac:(lia)) as (_ & P1 & _). destruct (Pos (S k) Hk) as (_ & _ & _ & P3).
    assert (M := mono_le t (S (nth k is 0%nat)) (nth (S k) is 0%nat) Inc ltac:(lia) ltac:(lia)). destruct P3; lra. }
  assert (SX : waves_sampled t cX).
  { intros k Hk. rewrite LX in Hk. exists (nth (S k) is 0%nat). split; [destruct (Sep k Hk); lia|]. apply Win, Hk. }
  assert (SB : waves_sampled t cB).
  { intros k Hk. rewrite LB in Hk. exists (nth (S k) is 0%nat). destruct (Sep k Hk). split; [lia|]. destruct (Win k Hk) as [_ [W1 W2]].
    split; [apply (After k); auto; lia|apply (Before (S k)); auto; lia]. }
  destruct (all_waves_F t x cX Inc (eq_sym Hl) SX) as (wsX & WX & LwX & IX). destruct (all_waves_NB t x cB Inc (eq_sym Hl) SB) as (wsB & WB & LwB & IB).
  exists is, cX, cB, (match cX with [] => empty00 | _ => vec (F cX) end), (match cB with [] => empty00 | _ => vec (F cB) end), wsX, wsB.
  split; [exact Hall|]. split; [exact LX|]. split; [exact LB|]. split; [exact EX|]. split; [destruct cX; reflexivity|]. split; [exact EB|]. split; [destruct cB; reflexivity|].
  split; [intros k Hk; split; [apply VX, Hk|apply Pos, Hk]|].
  split; [|split; [|split; [lia|split; [lia|]]]].
  - assert (Nt : F t <> []) by (destruct t; [cbn in Hl; lia|discriminate]). assert (Nx : F x <> []) by (destruct x; [cbn in H2; lia|discriminate]).
    assert (G := params_of_waves (N:=NX) (F t) (F x) (F cX) wsX Nt Nx ltac:(rewrite !F_length; exact Hl) WX). destruct cX; exact G.
  - assert (Nt : F t <> []) by (destruct t; [cbn in Hl; lia|discriminate]). assert (Nx : F x <> []) by (destruct x; [cbn in H2; lia|discriminate]).
    assert (G := params_of_waves (N:=NB) (F t) (F x) (F cB) wsB Nt Nx ltac:(rewrite !F_length; exact Hl) WB). destruct cB; exact G.
  - intros k Hk. destruct (IX k ltac:(lia)) as (c & tr & tcr & ttr & Ek & Mx & Mn). destruct (IB k ltac:(lia)) as (c' & tr' & tcr' & ttr' & Ek' & Mx' & Mn').
    assert (W : forall j, (j < length t)%nat -> (nth k cX 0 <= nth j t 0 <= nth (S k) cX 0 <-> nth k cB 0 <= nth j t 0 <= nth (S k) cB 0)).
    { intros j Hj. assert (A := After k j ltac:(lia) Hj). assert (B := Before (S k) j ltac:(lia) Hj). tauto. }
    destruct (first_max_unique _ _ _ _ _ _ _ _ _ _ W Mx Mx') as [<- <-]. destruct (first_min_unique _ _ _ _ _ _ _ _ _ _ W Mn Mn') as [<- <-].
    exists (c - tr), (nth (S k) cX 0 - nth k cX 0), (rnd (nth (S k) cB 0 - nth k cB 0)), c, tr, tcr, ttr.
    split; [exact Ek|]. split; [exact Ek'|]. split; [reflexivity|].
    assert (Gen : forall m, (forall v, In v x -> v = 0 \/ m <= Rabs v) -> m <= c - tr).
    { intros m Hm. destruct (Sep k ltac:(lia)) as [S1 S2]. destruct (Win k ltac:(lia)) as [Wa Wb].
      destruct Mx as (_ & _ & _ & _ & _ & Mx & _). destruct Mn as (_ & _ & _ & _ & _ & Mn & _).
      assert (A1 := Mx (S (nth k is 0%nat)) ltac:(lia) Wa). assert (A2 := Mn (S (nth k is 0%nat)) ltac:(lia) Wa).
      assert (B1 := Mx (nth (S k) is 0%nat) ltac:(lia) Wb). assert (B2 := Mn (nth (S k) is 0%nat) ltac:(lia) Wb).
      destruct (Cr k ltac:(lia)) as [Q1 Q]. destruct (Cr (S k) ltac:(lia)) as [_ Q']. assert (V := Hm (nth (S (nth k is 0%nat)) x 0) ltac:(apply nth_In; lia)).
      destruct d; [rewrite Rabs_pos_eq in V by lra|rewrite Rabs_left1 in V by lra]; lra. }
    assert (Big := Gen _ Hx'). split; [exact Gen|]. split.
    { assert (R := rnd_rel (c - tr) ltac:(eapply Rle_trans; [apply bpow_le|exact Big]; lia)). fold u53 in R. rewrite U in R. apply Rabs_le. lra. }
    split; [reflexivity|]. assert (Pk := Pos k ltac:(lia)). assert (Pk' := Pos (S k) ltac:(lia)). cbv zeta in Pk, Pk'. destruct Pk as (E1 & _). destruct Pk' as (E2 & _ & _ & P3).
    assert (Pt : 0 < nth (S k) cX 0 - nth k cX 0).
    { destruct (Win k ltac:(lia)) as [Wa Wb]. destruct (Pos k ltac:(lia)) as (_ & Lt & _). lra. }
    split; [exact Pt|].
    rewrite !time_error_u in *. fold w in E1, E2 |- *. set (ck := nth k cX 0) in *. set (cl := nth (S k) cX 0) in *. set (bk := nth k cB 0) in *. set (bl := nth (S k) cB 0) in *.
    assert (B := rnd_abs (bl - bk)). apply Rabs_le_inv in E1, E2.
    assert (Bb : Rabs (bl - bk) <= (Rabs ck + Rabs cl) + u53 * (Rabs ck + 8 * w) + u53 * (Rabs cl + 8 * w)).
    { assert (A1 := Rle_abs cl). assert (A2 := Rle_abs (- ck)). rewrite Rabs_Ropp in A2. assert (A3 := Rabs_pos ck). assert (A4 := Rabs_pos cl). apply Rabs_le.
      assert (M1 : 0 <= u53 * (Rabs ck + 8 * w)) by (apply Rmult_le_pos; [rewrite U|]; lra). assert (M2 : 0 <= u53 * (Rabs cl + 8 * w)) by (apply Rmult_le_pos; [rewrite U|]; lra). lra. }
    assert (W20 : bpow radix2 (-1020) <= / 1000 * w).
    { apply Rle_trans with (bpow radix2 (-10) * bpow radix2 (-92)); [rewrite <- bpow_plus; apply bpow_le; lia|]. replace (bpow radix2 (-10)) with (/ 1024) by (cbn; lra). lra. }
    apply Rabs_le_inv in B. assert (A3 := Rabs_pos ck). assert (A4 := Rabs_pos cl). apply Rabs_le. rewrite U in *. lra.
Qed.

(** ** The statistics *)
Lemma Rmean_close (f g : R -> R) (e : R) (l : list R) : (forall v, In v l -> Rabs (g v - f v) <= e * f v) ->
  Rabs (Rmean (map g l) - Rmean (map f l)) <= e * Rmean (map f l).
Proof.
  intros H. assert (S : Rabs (Rsum (map g l) - Rsum (map f l)) <= e * Rsum (map f l)).
  { induction l as [|a l IH]; [cbn; rewrite Rminus_diag_eq, Rabs_R0 by reflexivity; lra|]. cbn [map]. change (Rsum (?u :: ?v)) with (u + Rsum v).
    change (Rsum (g a :: map g l)) with (g a + Rsum (map g l)). change (Rsum (f a :: map f l)) with (f a + Rsum (map f l)).
    assert (A := H a (or_introl eq_refl)). specialize (IH (fun v Hv => H v (or_intror Hv))).
    replace (g a + Rsum (map g l) - (f a + Rsum (map f l))) with ((g a - f a) + (Rsum (map g l) - Rsum (map f l))) by ring.
    eapply Rle_trans; [apply Rabs_triang|lra]. }
  unfold Rmean. rewrite !map_length. destruct (Nat.eq_dec (length l) 0) as [Z|Z].
  - rewrite Z. cbn. unfold Rdiv. rewrite Rinv_0, !Rmult_0_r, Rminus_diag_eq, Rabs_R0 by reflexivity. lra.
  - assert (P : 0 < INR (length l)) by (apply lt_0_INR; lia).
    replace (Rsum (map g l) / INR (length l) - Rsum (map f l) / INR (length l)) with ((Rsum (map g l) - Rsum (map f l)) * / INR (length l)) by (field; lra).
    rewrite Rabs_mult, (Rabs_pos_eq (/ _)) by (apply Rlt_le, Rinv_0_lt_compat, P).
    apply Rle_trans with (e * Rsum (map f l) * / INR (length l)); [apply Rmult_le_compat_r; [apply Rlt_le, Rinv_0_lt_compat, P|exact S]|]. right. field. lra.
Qed.

Lemma descending_map_rnd l : descending l -> descending (map rnd l).
Proof.
  intros H i j Hij. rewrite map_length in Hij. rewrite !(nth_indep _ 0 (rnd 0)) by (rewrite map_length; lia). rewrite !map_nth. apply rnd_le, H, Hij.
Qed.
Lemma firstn_In {A} k (l : list A) v : In v (firstn k l) -> In v l.
Proof. intros H. rewrite <- (firstn_skipn k l). apply in_or_app. left. exact H. Qed.

Lemma div_floor n d : (0 < d)%nat -> floor_is (INR n * (1 / INR d)) (n / d).
Proof.
  intros Hd. assert (E := Nat.div_mod n d ltac:(lia)). assert (M := Nat.mod_upper_bound n d ltac:(lia)). set (q := (n / d)%nat) in *. set (r := (n mod d)%nat) in *.
  assert (P : 0 < INR d) by (apply lt_0_INR; lia). rewrite E, plus_INR, mult_INR. assert (R0 := pos_INR r). apply lt_INR in M.
  replace ((INR d * INR q + INR r) * (1 / INR d)) with (INR q + INR r / INR d) by (field; lra).
  assert (B : 0 <= INR r / INR d < 1) by (split; [apply Rmult_le_pos; [lra|apply Rlt_le, Rinv_0_lt_compat, P]|apply Rmult_lt_reg_r with (INR d); [exact P|]; unfold Rdiv; rewrite Rmult_assoc, Rinv_l; lra]).
  unfold floor_is. lra.
Qed.
Lemma Rmean_nonneg l : (forall v, In v l -> 0 <= v) -> 0 <= Rmean l.
Proof.
  intros H. unfold Rmean. destruct l as [|a l]; [cbn; unfold Rdiv; rewrite Rmult_0_l; lra|]. apply Rmult_le_pos; [|apply Rlt_le, Rinv_0_lt_compat, lt_0_INR; cbn; lia].
  induction (a :: l) as [|c r IH]; [cbn; lra|]. change (Rsum (c :: r)) with (c + Rsum r). assert (0 <= c) by (apply H; left; reflexivity). assert (0 <= Rsum r) by (apply IH; intros v Hv; apply H; right; exact Hv). lra.
Qed.
Lemma chain_error k b m a : INR k <= 2 ^ 45 -> 0 <= a -> Rabs (b - m) <= INR (S k) * / 2 ^ 52 * m -> Rabs (m - a) <= u53 * a ->
  Rabs (b - a) <= INR (k + 2) / 2 ^ 52 * a.
Proof.
  intros Hk Ha A B. assert (U := u53_val). apply Rabs_le_inv in B. rewrite S_INR in A. assert (K0 := pos_INR k). rewrite plus_INR. replace (INR 2) with 2 by (cbn; lra).
  replace (b - a) with ((b - m) + (m - a)) by ring. eapply Rle_trans; [apply Rabs_triang|].
  assert (M : 0 <= m <= a * (1 + u53)) by (rewrite U in *; lra).
  assert (C : (INR k + 1) * / 2 ^ 52 * m <= (INR k + 1) * / 2 ^ 52 * (a * (1 + u53))) by (apply Rmult_le_compat_l; [apply Rmult_le_pos; lra|lra]).
  assert (D : (INR k + 1) * u53 <= / 2) by (rewrite U; lra).
  assert (E : (INR k + 1) * / 2 ^ 52 * (a * u53) <= / 2 * / 2 ^ 52 * a).
  { replace ((INR k + 1) * / 2 ^ 52 * (a * u53)) with ((INR k + 1) * u53 * (/ 2 ^ 52 * a)) by ring. replace (/ 2 * / 2 ^ 52 * a) with (/ 2 * (/ 2 ^ 52 * a)) by ring. apply Rmult_le_compat_r; [apply Rmult_le_pos; lra|exact D]. }
  assert (G : Rabs (m - a) <= / 2 * / 2 ^ 52 * a) by (apply Rabs_le; rewrite U in B; lra). lra.
Qed.

Lemma Rmean_low z l : l <> [] -> (forall v, In v l -> z <= v) -> z <= Rmean l.
Proof.
  intros Hne H. assert (P : 0 < INR (length l)) by (apply lt_0_INR; destruct l; [contradiction|cbn; lia]).
  unfold Rmean. apply le_div; [exact P|]. clear Hne P. induction l as [|a l IH]; [cbn; lra|]. change (Rsum (a :: l)) with (a + Rsum l). cbn [length]. rewrite S_INR.
  assert (A := H a (or_introl eq_refl)). assert (B := IH (fun v Hv => H v (or_intror Hv))). lra.
Qed.
Lemma rms_error n m m1 M : INR n <= 2 ^ 45 -> bpow radix2 (-880) <= M -> Rabs (m - m1) <= INR (S n) * / 2 ^ 52 * m1 -> Rabs (m1 - M) <= 4 * u53 * M ->
  0 <= m /\ Rabs (rnd (sqrt m) - sqrt M) <= INR (n + 4) / 2 ^ 52 * sqrt M.
Proof.
  intros Hn HM A B. assert (Z := b_pos (-880)). assert (U := u53_val). assert (I0 := pos_INR n). rewrite S_INR in A. apply Rabs_le_inv in B.
  set (e := (INR n + 3) * (2 * u53) + u53 / 2).
  assert (E1 : 0 <= e <= / 100) by (unfold e; rewrite U; lra).
  assert (M1 : 0 <= m1 <= M * (1 + 4 * u53)) by (rewrite U in *; lra).
  assert (Am : Rabs (m - M) <= e * M).
  { replace (m - M) with ((m - m1) + (m1 - M)) by ring. eapply Rle_trans; [apply Rabs_triang|].
    assert (C : (INR n + 1) * / 2 ^ 52 * m1 <= (INR n + 1) * / 2 ^ 52 * (M * (1 + 4 * u53))) by (apply Rmult_le_compat_l; [apply Rmult_le_pos; lra|lra]).
    assert (D : (INR n + 1) * / 2 ^ 52 * (4 * u53) <= u53 / 2) by (rewrite U; lra).
    assert (E : (INR n + 1) * / 2 ^ 52 * (4 * u53) * M <= u53 / 2 * M) by (apply Rmult_le_compat_r; lra).
    assert (G : Rabs (m1 - M) <= 4 * u53 * M) by (apply Rabs_le; lra). unfold e. replace (/ 2 ^ 52) with (2 * u53) in * by (rewrite U; lra). lra. }
  apply Rabs_le_inv in Am. assert (Pm : M / 2 <= m) by nra. split; [lra|].
  assert (S0 : 0 < sqrt M) by (apply sqrt_lt_R0; lra). assert (Sm : sqrt M * sqrt M = M) by (apply sqrt_sqrt; lra). assert (Sq : sqrt m * sqrt m = m) by (apply sqrt_sqrt; lra). assert (S1 := sqrt_pos m).
  assert (Sd : Rabs (sqrt m - sqrt M) <= e * sqrt M).
  { assert (F : (sqrt m - sqrt M) * (sqrt m + sqrt M) = m - M).
    { transitivity (sqrt m * sqrt m - sqrt M * sqrt M); [ring|]. rewrite Sm, Sq. reflexivity. }
    assert (Q : 0 <= e * sqrt M * sqrt m) by (apply Rmult_le_pos; [apply Rmult_le_pos; lra|lra]).
    assert (G1 : - (e * sqrt M) * (sqrt m + sqrt M) = - (e * sqrt M * sqrt m) - e * (sqrt M * sqrt M)) by ring.
    assert (G2 : e * sqrt M * (sqrt m + sqrt M) = e * sqrt M * sqrt m + e * (sqrt M * sqrt M)) by ring. rewrite Sm in G1, G2.
    apply Rabs_le. split; (apply Rmult_le_reg_r with (sqrt m + sqrt M); [lra|]); rewrite F; [rewrite G1|rewrite G2]; lra. }
  assert (T : bpow radix2 (-1020) <= sqrt m).
  { apply Rle_trans with (bpow radix2 (-441)); [apply bpow_le; lia|]. rewrite <- (sqrt_Rsqr (bpow radix2 (-441))) by apply Rlt_le, b_pos. apply sqrt_le_1_alt. unfold Rsqr. rewrite <- bpow_plus.
    change (-441 + -441)%Z with (-2 + -880)%Z. rewrite bpow_plus. replace (bpow radix2 (-2)) with (/ 4) by (cbn; lra). lra. }
  assert (R := rnd_rel _ T). fold u53 in R. apply Rabs_le_inv in Sd. rewrite plus_INR. replace (INR 4) with 4 by (cbn; lra).
  assert (Es : e * sqrt M = INR n * sqrt M * (2 * u53) + 13 / 2 * u53 * sqrt M) by (unfold e; field).
  assert (En : INR n * sqrt M * u53 <= / 200 * sqrt M).
  { replace (INR n * sqrt M * u53) with ((INR n * u53) * sqrt M) by ring. apply Rmult_le_compat_r; [lra|]. rewrite U. lra. }
  replace ((INR n + 4) / 2 ^ 52 * sqrt M) with (INR n * sqrt M * (2 * u53) + 8 * u53 * sqrt M) by (rewrite U; field).
  assert (0 <= INR n * sqrt M) by (apply Rmult_le_pos; lra). apply Rabs_le. rewrite Es in Sd. set (y := INR n * sqrt M) in *. rewrite U in *. lra.
Qed.

(** A WaveHeights object with the exact heights [h] and one with the same heights rounded, as [C90_same_waves] delivers them *)
Definition new_whB (h t : list R) : waveheights NB := wh_init (N:=NB) (Arr (vec (F h))) (Arr (vec (F t))).

(** what the statistics of two objects, exact [sX] and rounded [sB], of [n] waves have to do with each other *)
Definition statistics_close (argsort : list xr -> list nat) (n : nat) (sX : waveheights NX) (sB : waveheights NB) : Prop :=
  (exists m, snd (wh_Hmax sX) = Ok (Fin m) /\ snd (wh_Hmax sB) = Ok (Fin (rnd m)))
  /\ (exists a TX b TB, snd (wh_Hs (N:=NX) argsort sX) = Ok (Fin a, TX) /\ snd (wh_Hs (N:=NB) argsort sB) = Ok (Fin b, TB)
       /\ Rabs (b - a) <= INR (n / 3 + 2) / 2 ^ 52 * a)
  /\ (forall p, (p <= 100)%nat -> exists a, snd (wh_exceedance (N:=NX) argsort (Fin (INR p)) sX) = Ok (Fin a)
       /\ snd (wh_exceedance (N:=NB) argsort (Fin (INR p)) sB) = Ok (Fin (rnd a)))
  /\ (exists a b, snd (wh_Hrms sX) = Ok (Fin a) /\ snd (wh_Hrms sB) = Ok (Fin b)
       /\ Rabs (b - a) <= INR (n + 4) / 2 ^ 52 * a).

Theorem C90_statistics (argsort : list xr -> list nat) (h tX tB : list R) :
  is_argsort argsort -> h <> [] -> length tX = length h -> length tB = length h -> INR (length h) <= 2 ^ 45 ->
  (forall v, In v h -> / 2 ^ 440 <= v) ->
  statistics_close argsort (length h) (new_wh h tX) (new_whB (map rnd h) tB).
Proof.
  intros Ha Hne LX LB Hn Big. unfold statistics_close. set (sX := new_wh h tX). set (sB := new_whB (map rnd h) tB). set (hs := rev (Rsort h)).
  assert (P : Permutation hs h) by (unfold hs; rewrite <- Permutation_rev; apply Rsort_perm). assert (D : descending hs) by apply rev_Rsort_desc.
  destruct (C14_values argsort h tX hs [] Ha Hne (eq_sym LX) P D) as (V1 & (mx & I1 & I2 & V2) & V3 & V4). cbn [wh_run fold_left] in V1, V2, V3, V4. fold sX in V1, V2, V3, V4.
  set (hB := map rnd h) in *. assert (NeB : hB <> []) by (unfold hB; destruct h; [contradiction|discriminate]).
  assert (LhB : length hB = length h) by apply map_length.
  assert (EB : sB = mkWH (N:=NB) (vec (F hB)) (vec (F tB)) (length h)).
  { unfold sB, new_whB, wh_init. rewrite !vec_convert. f_equal. cbn. rewrite F_length. exact LhB. }
  destruct (C04_sorted_same_waves argsort hB tB Ha NeB ltac:(lia)) as (h' & t' & Es & D' & L1 & L2 & P').
  assert (Eh : h' = map rnd hs).
  { apply desc_perm_unique; [exact D'|apply descending_map_rnd, D|].
    transitivity hB; [|unfold hB; apply Permutation_map; symmetry; exact P].
    apply (heights_perm hB tB ltac:(lia) h' t' L1 L2 P'). }
  assert (Ls : length hs = length h) by (apply Permutation_length; exact P).
  assert (U := u53_val). assert (I0 := pos_INR (length h)). assert (L0 : (0 < length h)%nat) by (destruct h; [contradiction|cbn; lia]).
  assert (Bg : forall v, In v h -> bpow radix2 (-440) <= v) by (intros v Hv; specialize (Big v Hv); rewrite (inv_pow 440) in Big; exact Big).
  assert (Z440 := b_pos (-440)).
  assert (Rd : forall v, In v h -> Rabs (rnd v - v) <= u53 * v /\ bpow radix2 (-440) <= rnd v).
  { intros v Hv. assert (B := Bg v Hv). assert (R := rnd_rel v ltac:(apply Rle_trans with (bpow radix2 (-440)); [apply bpow_le; lia|exact B])). fold u53 in R.
    split; [apply Rabs_le; rewrite U in *; lra|]. apply rnd_ge_float; [apply float_bpow; lia|exact B]. }
  assert (Srt : wh_sort (N:=NB) argsort sB = (mkWH (N:=NB) (vec (F h')) (vec (F t')) (length h), Ok tt)).
  { unfold wh_sort. rewrite EB. cbn [wh_h wh_t wh_n]. change (sort_wave_params (N:=NB) argsort) with (sort_wave_params (N:=NX) argsort).
    etransitivity; [exact (f_equal (fun z => match z with Ok (a, b) => _ | Raise e => _ end) Es)|]. reflexivity. }
  assert (Zn : (Z.of_nat (length h') <= 2 ^ 45)%Z).
  { rewrite L1, LhB. apply le_IZR. rewrite <- INR_IZR_INZ. replace (IZR (2 ^ 45)) with (2 ^ 45) by (cbn; lra). exact Hn. }
  assert (Ne' : h' <> []) by (rewrite Eh; destruct hs; [cbn in Ls; lia|discriminate]).
  split; [|split; [|split]].
  - exists mx. split; [exact V2|]. rewrite EB. cbn [wh_Hmax snd wh_h data vec]. change (npmax (N:=NB) (F hB)) with (npmax (N:=NX) (F hB)). rewrite npmax_F.
    destruct (pymax_F hB NeB) as (m & -> & J1 & J2). do 2 f_equal. apply Rle_antisym.
    + apply in_map_iff in J1. destruct J1 as (v & <- & Hv). apply rnd_le, I2, Hv.
    + apply J2. apply in_map, I1.
  - set (k := (length h / 3)%nat).
    assert (Fk : floor_is (INR (length h) * (1 / 3)) k) by (replace 3 with (INR 3) at 1 by (cbn; lra); apply (div_floor (length h) 3); lia).
    assert (Q := V3 (1 / 3) k ltac:(lra) Fk).
    assert (E13 : ndiv (n:=NX) (n1 (N:=NX)) (nofZ (n:=NX) 3) = Fin (1 / 3)) by (rewrite fin_1, fin_ofZ, fin_div by lra; reflexivity).
    unfold wh_Hs. rewrite E13. destruct (snd (wh_highest (N:=NX) argsort (Fin (1 / 3)) sX)) as [[a0 TX]|e] eqn:EX; [|discriminate Q].
    cbn [rmap fst] in Q. apply Ok_inj in Q. subst a0.
    assert (EHB : snd (wh_highest (N:=NB) argsort (ndiv (n:=NB) (n1 (N:=NB)) (nofZ (n:=NB) 3)) sB)
            = highest_waves_params (N:=NB) (Arr (vec (F h'))) (Arr (vec (F t'))) (ndiv (n:=NB) (n1 (N:=NB)) (nofZ (n:=NB) 3))).
    { unfold wh_highest, wbind. rewrite Srt. reflexivity. }
    rewrite EHB, (C61_significant_waves h' t' Ne' ltac:(lia) D') by lia. rewrite L1, LhB. fold k.
    destruct (Nat.ltb_spec (length h) 3) as [L3|L3].
    + assert (k0 : k = 0%nat) by (unfold k; apply Nat.div_small; lia). rewrite k0. cbn [Nat.eqb].
      exists 0, TX, 0, (Fin 0). split; [reflexivity|]. split; [reflexivity|]. rewrite Rminus_0_r, Rabs_R0. lra.
    + assert (K1 : (1 <= k)%nat) by (unfold k; apply Nat.div_le_lower_bound; lia). assert (K2 : (k <= length h)%nat) by (unfold k; apply Nat.div_le_upper_bound; lia).
      replace (Nat.eqb k 0) with false by (symmetry; apply Nat.eqb_neq; lia). set (l := firstn k hs).
      assert (Ll : length l = k) by (unfold l; rewrite firstn_length; lia).
      assert (Il : forall v, In v l -> In v h) by (intros v Hv; apply (Permutation_in _ P), (firstn_In k), Hv).
      assert (Ef : firstn k h' = map rnd l) by (rewrite Eh; unfold l; apply firstn_map). rewrite Ef.
      assert (Ik : INR k <= 2 ^ 45) by (eapply Rle_trans; [apply le_INR, K2|exact Hn]).
      destruct (C61_mean_error (map rnd l)) as (b & Eb & Ab).
      { intros E. apply map_eq_nil in E. rewrite E in Ll. change (0%nat = k) in Ll. clear - Ll K1. lia. }
      { rewrite map_length, Ll. assert (2 ^ 45 <= 2 ^ 50) by lra. lra. }
      { intros v Hv. apply in_map_iff in Hv. destruct Hv as (w & <- & Hw). rewrite (inv_pow 900). apply Rle_trans with (bpow radix2 (-440)); [apply bpow_le; lia|]. apply Rd, Il, Hw. }
      exists (Rmean l), TX, b, (nmean (N:=NB) (F (firstn k t'))). split; [reflexivity|]. split; [exact (f_equal (fun z => Ok (z, nmean (N:=NB) (F (firstn k t')))) Eb)|].
      rewrite map_length, Ll in Ab. assert (C := Rmean_close (fun v => v) rnd u53 l (fun v Hv => proj1 (Rd v (Il v Hv)))). rewrite map_id in C.
      assert (Pm : 0 <= Rmean l) by (apply Rmean_nonneg; intros v Hv; assert (B := Bg v (Il v Hv)); lra).
      apply (chain_error k b (Rmean (map rnd l)) (Rmean l)); auto.
  - intros p Hp. set (k := (length h * p / 100)%nat).
    assert (Fk : floor_is (INR (length h) * INR p / 100) k).
    { rewrite <- mult_INR. replace (INR (length h * p) / 100) with (INR (length h * p) * (1 / INR 100)) by (rewrite (INR_IZR_INZ 100); cbn; field). apply (div_floor (length h * p) 100); lia. }
    assert (P2 : 0 <= INR p <= 100) by (split; [apply pos_INR|]; replace 100 with (INR 100) by (rewrite INR_IZR_INZ; reflexivity); apply le_INR, Hp).
    rewrite (V4 (INR p) k P2 Fk). eexists. split; [reflexivity|].
    assert (EHB : snd (wh_exceedance (N:=NB) argsort (Fin (INR p)) sB) = exceedance_wave_height (N:=NB) (Arr (vec (F h'))) (Fin (INR p))).
    { unfold wh_exceedance, wbind. rewrite Srt. reflexivity. }
    rewrite EHB, (C61_exceedance h' p Ne' D' Hp Zn). rewrite L1, LhB. do 2 f_equal. fold k.
    destruct (Nat.ltb_spec (length h * p) 100) as [L|L].
    + assert (k0 : k = 0%nat) by (unfold k; apply Nat.div_small; lia). rewrite k0. cbn [Nat.eqb]. symmetry. apply rnd_id, float_0.
    + assert (K1 : (1 <= k)%nat) by (unfold k; apply Nat.div_le_lower_bound; lia).
      assert (K2 : (k <= length h)%nat) by (unfold k; apply Nat.div_le_upper_bound; [lia|]; rewrite (Nat.mul_comm 100); apply Nat.mul_le_mono_l, Hp).
      replace (Nat.eqb k 0) with false by (symmetry; apply Nat.eqb_neq; lia). rewrite Eh. rewrite (nth_indep _ 0 (rnd 0)) by (rewrite map_length; lia). apply map_nth.
  - exists (sqrt (Rmean (map (fun v => v * v) h))). set (l := map (fun v => rnd (rnd v * rnd v)) h).
    assert (Sq : forall v, In v h -> Rabs (rnd (rnd v * rnd v) - v * v) <= 4 * u53 * (v * v) /\ bpow radix2 (-880) <= rnd (rnd v * rnd v)).
    { intros v Hv. destruct (Rd v Hv) as [A B]. assert (B0 := Bg v Hv).
      assert (E : bpow radix2 (-880) <= rnd v * rnd v) by (change (-880)%Z with (-440 + -440)%Z; rewrite bpow_plus; apply Rmult_le_compat; lra).
      split; [|apply rnd_ge_float; [apply float_bpow; lia|exact E]].
      assert (R := rnd_rel (rnd v * rnd v) ltac:(apply Rle_trans with (bpow radix2 (-880)); [apply bpow_le; lia|exact E])). fold u53 in R.
      apply Rabs_le_inv in A. assert (S1 : v * v * ((1 - u53) * (1 - u53)) <= rnd v * rnd v).
      { replace (v * v * ((1 - u53) * (1 - u53))) with ((v * (1 - u53)) * (v * (1 - u53))) by ring. apply Rmult_le_compat; try (rewrite U in *; lra). all: apply Rmult_le_pos; rewrite ?U; lra. }
      assert (S2 : rnd v * rnd v <= v * v * ((1 + u53) * (1 + u53))).
      { replace (v * v * ((1 + u53) * (1 + u53))) with ((v * (1 + u53)) * (v * (1 + u53))) by ring. apply Rmult_le_compat; rewrite U in *; lra. }
      assert (V0 : 0 <= v * v) by (apply Rmult_le_pos; lra). apply Rabs_le. rewrite U in *. lra. }
    assert (Ne2 : l <> []) by (unfold l; destruct h; [contradiction|discriminate]).
    destruct (C61_mean_error l) as (m & Em & Am).
    { exact Ne2. } { unfold l. rewrite map_length. assert (2 ^ 45 <= 2 ^ 50) by lra. lra. }
    { intros v Hv. apply in_map_iff in Hv. destruct Hv as (w & <- & Hw). rewrite (inv_pow 900). apply Rle_trans with (bpow radix2 (-880)); [apply bpow_le; lia|]. apply Sq, Hw. }
    assert (C := Rmean_close (fun v => v * v) (fun v => rnd (rnd v * rnd v)) (4 * u53) h (fun v Hv => proj1 (Sq v Hv))). fold l in C.
    set (M := Rmean (map (fun v => v * v) h)) in *. unfold l in Am at 2. rewrite map_length in Am.
    assert (PM : bpow radix2 (-880) <= M).
    { apply Rmean_low; [destruct h; [contradiction|discriminate]|]. intros v Hv. apply in_map_iff in Hv. destruct Hv as (w & <- & Hw). assert (B := Bg w Hw).
      change (-880)%Z with (-440 + -440)%Z. rewrite bpow_plus. apply Rmult_le_compat; lra. }
    destruct (rms_error (length h) m (Rmean l) M Hn PM Am C) as [Pm Er].
    exists (rnd (sqrt m)). split; [exact V1|]. split; [|exact Er].
    rewrite EB. cbn [wh_Hrms snd wh_h data vec]. assert (Ek : map (fun v : NB => nmul (n:=NB) v v) (F hB) = F l).
    { unfold F, l, hB. rewrite !map_map. reflexivity. }
    rewrite Ek, Em. f_equal. apply RoundDisper.nb_sqrt, Pm.
Qed.

(** ** The Series object *)
Lemma where_none_any {A} (f : A -> bool) l : (forall v, In v l -> f v = false) -> where_ f l = [].
Proof.
  unfold where_. generalize 0%nat. induction l as [|a l IH]; intros k H; [reflexivity|]. cbn. rewrite (H a (or_introl eq_refl)). apply IH. intros v Hv. apply H. right. exact Hv.
Qed.
Lemma Fin_list (l : list xr) (d : xr) (P : R -> Prop) : (forall k, (k < length l)%nat -> exists v, nth k l d = Fin v /\ P v) -> exists r, l = F r /\ (forall v, In v r -> P v).
Proof.
  induction l as [|a l IH]; intros H; [exists []; split; [reflexivity|intros v []]|].
  destruct (H 0%nat ltac:(cbn; lia)) as (v & E & Pv). cbn in E. destruct IH as (r & -> & Hr).
  { intros k Hk. apply (H (S k)). cbn. lia. }
  exists (v :: r). split; [rewrite E; reflexivity|]. intros w [<-|Hw]; auto.
Qed.

Lemma series_waves {N : Num} (t x : list N) se nw tc ws : series_init (Arr (vec t)) (Arr (vec x)) = Ok se -> neqb (n:=N) n0 n0 = true -> map (fun v => nsub (n:=N) v n0) x = x ->
  determine_zero_crossing (Arr (vec t)) (Arr (vec x)) "down" = Ok (nw, tc) -> determine_params_individual_waves (Arr tc) (Arr (vec t)) (Arr (vec x)) = Ok ws ->
  (forall w, In w ws -> nltb (n:=N) (w_h w) n0 = false) -> se_wh se = wh_of_waves ws.
Proof.
  intros E Z X0 E1 E2 Hw. unfold series_init in E. rewrite !vec_convert in E. cbn [fst] in E.
  destruct (negb (length t =? length x)%nat); [discriminate|]. rewrite !as_list_vec, !bind_Ok in E. destruct (negb _) in E; [discriminate|].
  unfold individual_waves, series_crossings in E. rewrite Z in E. cbn [negb] in E. rewrite !bind_Ok, X0, E1, bind_Ok, E2, bind_Ok, (where_none_any _ _ Hw), !delete_nil, bind_Ok in E.
  apply Ok_inj in E. rewrite <- E. reflexivity.
Qed.

Theorem C90_series (t x : list R) (sX : series NX) (sB : series NB) :
  floats t -> floats x -> increasing t -> / 2 ^ 92 <= step_of t ->
  (forall v, In v x -> v = 0 \/ / 2 ^ 440 <= Rabs v) -> length t = length x -> (2 <= length x)%nat -> clear_of_samples Down t x ->
  series_init (N:=NX) (Arr (vec (F t))) (Arr (vec (F x))) = Ok sX -> series_init (N:=NB) (Arr (vec (F t))) (Arr (vec (F x))) = Ok sB ->
  exists h TX TB, se_wh sX = new_wh h TX /\ se_wh sB = new_whB (map rnd h) TB /\ length TX = length h /\ length TB = length h
    /\ (forall v, In v h -> / 2 ^ 440 <= v)
    /\ forall argsort, is_argsort argsort -> (0 < length h)%nat -> INR (length h) <= 2 ^ 45 -> statistics_close argsort (length h) (se_wh sX) (se_wh sB).
Proof.
  intros Ft Fx Inc Hw Hx Hl H2 Clr EX EB.
  assert (Hx9 : forall v, In v x -> v = 0 \/ / 2 ^ 900 <= Rabs v).
  { intros v Hv. destruct (Hx v Hv) as [Z|L]; [left; exact Z|right]. eapply Rle_trans; [|exact L]. rewrite (inv_pow 900), (inv_pow 440). apply bpow_le. lia. }
  destruct (C90_same_waves t x "down"%string Down eq_refl Ft Fx Hl H2 Inc Hw Hx9 Clr) as (is & cX & cB & aX & aB & wsX & wsB & _ & _ & _ & ZX & _ & ZB & _ & _ & PX & PB & LwX & LwB & W).
  destruct (Fin_list (map w_h wsX) (Fin 0) (fun v => / 2 ^ 440 <= v)) as (h & Eh & Hh).
  { intros k Hk. rewrite map_length in Hk. destruct (W k ltac:(lia)) as (v & TX & TB & cr & tr & tc & tt & Q & _ & _ & G & _). exists v. split; [|apply G, Hx].
    rewrite (nth_indep _ (Fin 0) (w_h (dwave : wave NX))) by (rewrite map_length; lia). rewrite (map_nth w_h), Q. reflexivity. }
  destruct (Fin_list (map w_t wsX) (Fin 0) (fun _ => True)) as (TX & ETX & _).
  { intros k Hk. rewrite map_length in Hk. destruct (W k ltac:(lia)) as (v & TX & TB & cr & tr & tc & tt & Q & _). exists TX. split; [|exact I].
    rewrite (nth_indep _ (Fin 0) (w_t (dwave : wave NX))) by (rewrite map_length; lia). rewrite (map_nth w_t), Q. reflexivity. }
  destruct (Fin_list (map w_t wsB) (Fin 0) (fun _ => True)) as (TB & ETB & _).
  { intros k Hk. rewrite map_length in Hk. destruct (W k ltac:(lia)) as (v & TX' & TB & cr & tr & tc & tt & _ & Q & _). exists TB. split; [|exact I].
    rewrite (nth_indep _ (Fin 0) (w_t (dwaveB : wave NB))) by (rewrite map_length; lia). rewrite (map_nth (w_t (N:=NB))), Q. reflexivity. }
  assert (Lh : length h = length wsX) by (apply (f_equal (@length _)) in Eh; rewrite map_length, F_length in Eh; auto).
  assert (Lt : length TX = length h) by (apply (f_equal (@length _)) in ETX; rewrite map_length, F_length in ETX; lia).
  assert (LtB : length TB = length h) by (apply (f_equal (@length _)) in ETB; rewrite map_length, F_length in ETB; lia).
  assert (EhB : map (w_h (N:=NB)) wsB = F (map rnd h)).
  { apply (nth_ext _ _ (w_h (dwaveB : wave NB)) (Fin 0)); [rewrite F_length, !map_length; lia|]. intros k Hk. rewrite map_length in Hk. rewrite (map_nth (w_h (N:=NB))).
    destruct (W k ltac:(lia)) as (v & TX' & TB' & cr & tr & tc & tt & Q1 & Q2 & _). rewrite Q2. cbn [w_h].
    assert (A : nth k (F h) (Fin 0) = Fin v) by (rewrite <- Eh, (nth_indep _ (Fin 0) (w_h (dwave : wave NX))), (map_nth w_h), Q1 by (rewrite map_length; lia); reflexivity).
    rewrite F_nth_lt in A by lia. injection A as A. rewrite F_nth_lt by (rewrite map_length; lia). f_equal. rewrite (nth_indep _ 0 (rnd 0)) by (rewrite map_length; lia). rewrite map_nth, A. reflexivity. }
  assert (SX : se_wh sX = new_wh h TX).
  { rewrite (series_waves (N:=NX) (F t) (F x) sX (Z.of_nat (length is - 1)) aX wsX EX); auto.
    - unfold wh_of_waves, new_wh. rewrite Eh, ETX. reflexivity.
    - rewrite fin_0, fin_eqb. apply Reqb_true. reflexivity.
    - apply map_sub0.
    - intros w Iw. assert (Q : In (w_h w) (F h)) by (rewrite <- Eh; apply in_map, Iw). apply in_map_iff in Q. destruct Q as (v & <- & Iv). rewrite fin_0, fin_ltb. apply Rltb_false.
      assert (A := Hh v Iv). rewrite (inv_pow 440) in A. assert (B := b_pos (- Z.of_nat 440)). lra. }
  assert (SB : se_wh sB = new_whB (map rnd h) TB).
  { rewrite (series_waves (N:=NB) (F t) (F x) sB (Z.of_nat (length is - 1)) aB wsB EB); auto.
    - unfold wh_of_waves, new_whB. rewrite EhB, ETB. reflexivity.
    - rewrite nb_0, nb_eqb. apply Reqb_true. reflexivity.
    - unfold F. rewrite map_map. apply map_ext_in. intros v Hv. rewrite nb_0, nb_sub, Rminus_0_r, rnd_id; auto.
    - intros w Iw. assert (Q : In (w_h w) (F (map rnd h))) by (rewrite <- EhB; apply in_map, Iw). apply in_map_iff in Q. destruct Q as (v & <- & Iv). rewrite nb_0, nb_ltb. apply Rltb_false.
      apply in_map_iff in Iv. destruct Iv as (v' & <- & Iv). assert (A := Hh v' Iv). rewrite (inv_pow 440) in A. assert (B := b_pos (- Z.of_nat 440)).
      rewrite <- (rnd_id 0) by apply float_0. apply rnd_le. lra. }
  exists h, TX, TB. split; [exact SX|]. split; [exact SB|]. split; [exact Lt|]. split; [exact LtB|]. split; [exact Hh|].
  intros argsort Ha L0 Ln. rewrite SX, SB. apply C90_statistics; auto. intros ->. cbn in L0. lia.
Qed.

(** The hypotheses hold of six samples with down-crossings at 1/4, 8/3 and 25/6 (the last two are not binary64 numbers): two waves *)
Definition t6 : list R := [0; 1; 2; 3; 4; 5].
Definition x6 : list R := [1; -3; 2; -1; 1; -5].
Lemma x6_crossings : all_crossings Down x6 [0; 2; 4]%nat.
Proof.
  split; [intros i j [H1 H2]; cbn in H2; destruct i as [|[|[|]]]; destruct j as [|[|[|]]]; cbn; try lia|].
  intros i. split.
  - intros [<-|[<-|[<-|[]]]]; (split; [cbn; lia|cbn; lra]).
  - intros [H C]. cbn in H. destruct i as [|[|[|[|[|i]]]]]; cbn in C; try lia; try lra; cbn; auto.
Qed.
Example C90_witness : names "down" Down /\ floats t6 /\ floats x6 /\ length t6 = length x6 /\ (2 <= length x6)%nat /\ increasing t6 /\ / 2 ^ 92 <= step_of t6
  /\ (forall v, In v x6 -> v = 0 \/ / 2 ^ 440 <= Rabs v) /\ clear_of_samples Down t6 x6
  /\ exists sX sB, series_init (N:=NX) (Arr (vec (F t6))) (Arr (vec (F x6))) = Ok sX /\ series_init (N:=NB) (Arr (vec (F t6))) (Arr (vec (F x6))) = Ok sB
       /\ wh_n (se_wh sX) = 2%nat.
Proof.
  assert (Fl : forall z, (Z.abs z <= 2 ^ 53)%Z -> is_float (IZR z)) by (intros z Hz; apply float_Z; exact Hz).
  assert (Ft : floats t6) by (intros v [<-|[<-|[<-|[<-|[<-|[<-|[]]]]]]]; apply Fl; cbn; lia).
  assert (Fx : floats x6) by (intros v [<-|[<-|[<-|[<-|[<-|[<-|[]]]]]]]; apply Fl; cbn; lia).
  assert (Inc : increasing t6) by (intros i j [H1 H2]; cbn in H2; destruct i as [|[|[|[|[|[|]]]]]]; destruct j as [|[|[|[|[|[|]]]]]]; cbn; try lia; lra).
  assert (St : step_of t6 = 1) by (unfold step_of; cbn; lra).
  assert (S92 : / 2 ^ 92 <= step_of t6) by (rewrite St; rewrite <- Rinv_1; apply Rinv_le_contravar; [lra|apply pow_R1_Rle; lra]).
  assert (Hx : forall k v, In v x6 -> v = 0 \/ / 2 ^ k <= Rabs v).
  { intros k v Hv. right. apply Rle_trans with 1; [rewrite <- Rinv_1; apply Rinv_le_contravar; [lra|apply pow_R1_Rle; lra]|].
    destruct Hv as [<-|[<-|[<-|[<-|[<-|[<-|[]]]]]]]; unfold Rabs; destruct (Rcase_abs _); lra. }
  assert (Clr : clear_of_samples Down t6 x6).
  { intros i C. apply (proj2 x6_crossings) in C. destruct C as [<-|[<-|[<-|[]]]]; unfold time_error, crossing_at; rewrite St; unfold t6, x6; cbn [nth];
    rewrite Rabs_pos_eq by lra; lra. }
  split; [reflexivity|]. split; [exact Ft|]. split; [exact Fx|]. split; [reflexivity|]. split; [cbn; lia|]. split; [exact Inc|]. split; [exact S92|]. split; [apply Hx|]. split; [exact Clr|].
  assert (Ax : t6 = axis 0 1 (length x6)) by (unfold t6, axis, x6; cbn [length seq map INR]; repeat (apply f_equal2; [lra|]); reflexivity).
  destruct (C16_uniform_accepted 0 1 x6 (Arr (vec (F t6))) (Arr (vec (F x6))) ltac:(lra) ltac:(cbn; lia)) as (sX & tc & ws & EX & _ & _ & _ & _ & Zc & _ & (_ & _ & Sn) & _).
  { rewrite <- Ax. apply hv_flat. } { apply hv_flat. }
  rewrite <- Ax in Zc.
  destruct (C77_series_accepted t6 x6 0 1 0 Ft Fx eq_refl ltac:(cbn; lia) ltac:(cbn; lia)) as (sB & EB); [|lra| |apply Hx|].
  { intros i Hi. rewrite Ax. unfold axis. rewrite (nth_indep _ 0 ((fun k => 0 + INR k * 1) 0%nat)) by (rewrite map_length, seq_length; exact Hi).
    rewrite (map_nth (fun k => 0 + INR k * 1)), seq_nth by exact Hi. cbn [Nat.add]. rewrite Rminus_diag_eq, Rabs_R0 by reflexivity. lra. }
  { split; [change 1 with (bpow radix2 0); apply bpow_le; lia|cbn; lra]. }
  exists sX, sB. split; [exact EX|]. split; [exact EB|]. rewrite Sn.
  destruct (C90_same_waves t6 x6 "down"%string Down eq_refl Ft Fx eq_refl ltac:(cbn; lia) Inc S92 (Hx 900%nat) Clr) as (is & _ & _ & aX & _ & _ & _ & Al & _ & _ & ZX & _).
  rewrite (all_crossings_unique Down x6 is [0; 2; 4]%nat Al x6_crossings) in ZX. rewrite ZX in Zc. apply Ok_inj in Zc. injection Zc as Zc _. cbn in Zc. lia.
Qed.
End AnyOrder.
