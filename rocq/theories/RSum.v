(** * Finite sums of reals indexed by 0..n-1 *)

From Coq Require Import Reals ZArith List Bool Lra Lia.
From Coquelicot Require Import Complex.
From Verif Require Import Num XR Spec XRFacts DFT.
Import ListNotations.
Open Scope R_scope.

Definition RS (n : nat) (g : nat -> R) : R := Rsum (map g (seq 0 n)).
Lemma RS_0 g : RS 0 g = 0. Proof. reflexivity. Qed.
Lemma RS_S n g : RS (S n) g = RS n g + g n.
Proof. unfold RS. rewrite seq_S, map_app, Rsum_app. unfold Rsum at 2. cbn. lra. Qed.
Lemma RS_ext n g h : (forall k, (k < n)%nat -> g k = h k) -> RS n g = RS n h.
Proof. intros H. induction n; [reflexivity|]. rewrite !RS_S, IHn, H by auto. reflexivity. Qed.
Lemma RS_plus n g h : RS n (fun k => g k + h k) = RS n g + RS n h.
Proof. induction n; [rewrite !RS_0; ring|]. rewrite !RS_S, IHn. ring. Qed.
Lemma RS_minus n g h : RS n (fun k => g k - h k) = RS n g - RS n h.
Proof. induction n; [rewrite !RS_0; ring|]. rewrite !RS_S, IHn. ring. Qed.
Lemma RS_scal n c g : RS n (fun k => c * g k) = c * RS n g.
Proof. induction n; [rewrite !RS_0; ring|]. rewrite !RS_S, IHn. ring. Qed.
Lemma RS_const n c : RS n (fun _ => c) = INR n * c.
Proof. induction n; [rewrite RS_0; cbn; ring|]. rewrite RS_S, IHn, S_INR. ring. Qed.
Lemma RS_zero n g : (forall k, (k < n)%nat -> g k = 0) -> RS n g = 0.
Proof. intros H. rewrite (RS_ext n g (fun _ => 0)) by auto. rewrite RS_const. ring. Qed.
Lemma RS_add n m g : RS (n + m) g = RS n g + RS m (fun k => g (n + k)%nat).
Proof. induction m; [rewrite Nat.add_0_r, RS_0; ring|]. rewrite Nat.add_succ_r, !RS_S, IHm. ring. Qed.
Lemma RS_shift n g : RS (S n) g = g 0%nat + RS n (fun k => g (S k)).
Proof. replace (S n) with (1 + n)%nat by lia. rewrite RS_add, RS_S, RS_0. cbn. ring. Qed.
Lemma RS_rev n g : RS n g = RS n (fun k => g (n - 1 - k)%nat).
Proof.
  revert g; induction n; intros g; [reflexivity|]. rewrite RS_S, (RS_shift n (fun k => g (S n - 1 - k)%nat)), IHn.
  replace (S n - 1 - 0)%nat with n by lia.
  rewrite (RS_ext n (fun k => g (S n - 1 - S k)%nat) (fun k => g (n - 1 - k)%nat)) by (intros; f_equal; lia). ring.
Qed.
Lemma RS_le n g h : (forall k, (k < n)%nat -> g k <= h k) -> RS n g <= RS n h.
Proof.
  intros H. induction n; [rewrite !RS_0; lra|]. rewrite !RS_S. assert (g n <= h n) by auto.
  assert (RS n g <= RS n h) by auto. lra.
Qed.
Lemma RS_nonneg n g : (forall k, (k < n)%nat -> 0 <= g k) -> 0 <= RS n g.
Proof. intros H. replace 0 with (RS n (fun _ => 0)) by (rewrite RS_const; ring). apply RS_le. auto. Qed.
Lemma RS_pos n g : (0 < n)%nat -> (forall k, (k < n)%nat -> 0 < g k) -> 0 < RS n g.
Proof.
  intros Hn H. destruct n; [lia|]. rewrite RS_S. assert (0 < g n) by auto.
  assert (0 <= RS n g) by (apply RS_nonneg; intros; left; auto). lra.
Qed.
Lemma RS_term n g k : (k < n)%nat -> (forall j, (j < n)%nat -> 0 <= g j) -> g k <= RS n g.
Proof.
  induction n; intros Hk H; [lia|]. rewrite RS_S. assert (0 <= g n) by auto.
  assert (0 <= RS n g) by (apply RS_nonneg; auto). destruct (Nat.eq_dec k n) as [->|]; [lra|].
  assert (g k <= RS n g) by (apply IHn; auto; lia). lra.
Qed.
Lemma RS_swap n m g : RS n (fun i => RS m (fun j => g i j)) = RS m (fun j => RS n (fun i => g i j)).
Proof.
  induction n; [rewrite RS_0; symmetry; apply RS_zero; intros; apply RS_0|].
  rewrite RS_S, IHn, <- RS_plus. apply RS_ext. intros. rewrite RS_S. reflexivity.
Qed.
Lemma RS_C n g : Csum n (fun k => RtoC (g k)) = RtoC (RS n g).
Proof. induction n; [reflexivity|]. rewrite Csum_S, RS_S, IHn, RtoC_plus. reflexivity. Qed.
Lemma Csum_fst n f : fst (Csum n f) = RS n (fun k => fst (f k)).
Proof. apply Csum_re. Qed.
Lemma Csum_snd n f : snd (Csum n f) = RS n (fun k => snd (f k)).
Proof. apply Csum_im. Qed.
Lemma Rsum_RS l : Rsum l = RS (length l) (fun k => nth k l 0).
Proof.
  unfold RS. f_equal. apply (nth_ext' _ _ 0); [rewrite map_length, seq_length; auto|].
  intros i Hi. rewrite (map_seq_nth (fun k => nth k l 0)) by auto. reflexivity.
Qed.
Lemma Rsum_map_RS {A} (g : A -> R) (l : list A) d : Rsum (map g l) = RS (length l) (fun k => g (nth k l d)).
Proof.
  rewrite Rsum_RS, map_length. apply RS_ext. intros k Hk. rewrite (nth_indep _ 0 (g d)) by (rewrite map_length; auto).
  apply map_nth.
Qed.
(** Cauchy-Schwarz *)
Lemma RS_CS n a b : (RS n (fun k => a k * b k)) ^ 2 <= RS n (fun k => a k ^ 2) * RS n (fun k => b k ^ 2).
Proof.
  assert (Q : forall s, 0 <= RS n (fun k => (a k - s * b k) ^ 2)) by (intros; apply RS_nonneg; intros; apply pow2_ge_0).
  assert (E : forall s, RS n (fun k => (a k - s * b k) ^ 2)
     = RS n (fun k => a k ^ 2) - 2 * s * RS n (fun k => a k * b k) + s ^ 2 * RS n (fun k => b k ^ 2)).
  { intros s. rewrite <- !RS_scal, <- RS_minus, <- RS_plus. apply RS_ext. intros. ring. }
  set (A := RS n (fun k => a k ^ 2)) in *. set (B := RS n (fun k => b k ^ 2)) in *. set (P := RS n (fun k => a k * b k)) in *.
  assert (HB : 0 <= B) by (apply RS_nonneg; intros; apply pow2_ge_0).
  assert (HA : 0 <= A) by (apply RS_nonneg; intros; apply pow2_ge_0).
  destruct (Req_dec B 0) as [E0|N0].
  - assert (P = 0); [|subst; rewrite H, E0; nra].
    unfold P. apply RS_zero. intros k Hk.
    assert (b k ^ 2 <= B) by (apply (RS_term n (fun k => b k ^ 2)); auto; intros; apply pow2_ge_0).
    assert (0 <= b k ^ 2) by apply pow2_ge_0. assert (b k = 0) by nra. rewrite H1. ring.
  - assert (H := Q (P / B)). rewrite E in H.
    replace (A - 2 * (P / B) * P + (P / B) ^ 2 * B) with ((A * B - P ^ 2) / B) in H by (field; lra).
    assert (0 < B) by lra. assert (0 <= (A * B - P ^ 2) / B * B) by (apply Rmult_le_pos; lra).
    unfold Rdiv in H1. rewrite Rmult_assoc, Rinv_l in H1 by lra. lra.
Qed.
