(** * Orders of summation

    np.sum and np.mean add up an array in an order that depends on its length (pairwise summation).  In rounded arithmetic
    the order matters.  A summation fixes, for every length, a binary tree whose leaves are the positions of the array,
    each exactly once; the theorems about rounded arithmetic (C60-C62, C77, C79-C81) hold for every summation. *)

From Coq Require Import List Arith Lia Permutation.
Import ListNotations.

Inductive tree := Leaf (i : nat) | Node (a b : tree).
Fixpoint leaves (t : tree) : list nat := match t with Leaf i => [i] | Node a b => leaves a ++ leaves b end.
Record summation := mkSummation {
  order : nat -> tree;
  order_ok : forall n, (0 < n)%nat -> Permutation (leaves (order n)) (seq 0 n)
}.
(** the value of a tree; [d] is not used for the trees of a summation *)
Fixpoint teval {A} (add : A -> A -> A) (d : A) (l : list A) (t : tree) : A :=
  match t with Leaf i => nth i l d | Node a b => add (teval add d l a) (teval add d l b) end.
Definition sum_by {A} (tr : nat -> tree) (add : A -> A -> A) (zero : A) (l : list A) : A :=
  match l with [] => zero | _ => teval add zero l (tr (length l)) end.

(** ** One element after the other *)
Fixpoint chain (acc : tree) (i k : nat) : tree :=
  match k with 0 => acc | S k' => chain (Node acc (Leaf i)) (S i) k' end.
Lemma chain_leaves k : forall acc i, leaves (chain acc i k) = leaves acc ++ seq i k.
Proof. induction k as [|k IH]; intros acc i; cbn; [rewrite app_nil_r; reflexivity|]. rewrite IH. cbn. rewrite <- app_assoc. reflexivity. Qed.
Definition left_to_right : summation.
Proof.
  refine (mkSummation (fun n => chain (Leaf 0) 1 (n - 1)) _). intros n Hn. rewrite chain_leaves. cbn [leaves].
  destruct n; [lia|]. cbn [seq Nat.sub app]. rewrite Nat.sub_0_r. apply Permutation_refl.
Defined.

Fixpoint rchain (i k : nat) : tree := match k with 0 => Leaf i | S k' => Node (Leaf i) (rchain (S i) k') end.
Lemma rchain_leaves k : forall i, leaves (rchain i k) = seq i (S k).
Proof. induction k as [|k IH]; intros i; [reflexivity|]. cbn [rchain leaves]. rewrite IH. reflexivity. Qed.
Definition right_to_left : summation.
Proof.
  refine (mkSummation (fun n => rchain 0 (n - 1)) _). intros n Hn. rewrite rchain_leaves. replace (S (n - 1)) with n by lia. apply Permutation_refl.
Defined.

(** ** numpy's pairwise summation (numpy/core/src/umath/loops_utils.h.src, DOUBLE_pairwise_sum): fewer than 8 elements one after
    the other; up to 128 elements in eight interleaved partial sums, added in pairs, and the rest one after the other;
    more elements in two halves, the first a multiple of 8 long *)
Fixpoint stride (acc : tree) (i q : nat) : tree :=
  match q with 0 => acc | S q' => stride (Node acc (Leaf i)) (i + 8) q' end.
Definition block (o n : nat) : tree :=
  let q := n / 8 in
  let r k := stride (Leaf (o + k)) (o + k + 8) (q - 1) in
  let res := Node (Node (Node (r 0) (r 1)) (Node (r 2) (r 3))) (Node (Node (r 4) (r 5)) (Node (r 6) (r 7))) in
  chain res (o + 8 * q) (n mod 8).
Fixpoint pairwise (fuel o n : nat) : tree :=
  match fuel with
  | 0 => chain (Leaf o) (S o) (n - 1)
  | S fuel' =>
      if Nat.ltb n 8 then chain (Leaf o) (S o) (n - 1)
      else if Nat.leb n 128 then block o n
      else let n2 := n / 2 - (n / 2) mod 8 in Node (pairwise fuel' o n2) (pairwise fuel' (o + n2) (n - n2))
  end.

Lemma stride_leaves q : forall acc i, leaves (stride acc i q) = leaves acc ++ map (fun j => i + 8 * j) (seq 0 q).
Proof.
  induction q as [|q IH]; intros acc i; [cbn; rewrite app_nil_r; reflexivity|]. cbn [stride]. rewrite IH. cbn [leaves seq map].
  rewrite <- app_assoc. cbn [app]. f_equal. f_equal; [lia|]. rewrite <- seq_shift, map_map. apply map_ext. intros j. lia.
Qed.
Lemma perm_step {A B} (s : A -> list B) (e : A -> B) ks :
  Permutation (flat_map (fun k => s k ++ [e k]) ks) (flat_map s ks ++ map e ks).
Proof.
  induction ks as [|k ks IH]; [apply Permutation_refl|]. cbn [flat_map map].
  rewrite <- !app_assoc. apply Permutation_app_head. cbn [app].
  apply Permutation_trans with (e k :: (flat_map s ks ++ map e ks)); [constructor; exact IH|]. apply Permutation_middle.
Qed.
Lemma interleaved o q : Permutation (flat_map (fun k => map (fun j => o + k + 8 * j) (seq 0 q)) (seq 0 8)) (seq o (8 * q)).
Proof.
  induction q as [|q IH]; [apply Permutation_refl|].
  apply Permutation_trans with (flat_map (fun k => map (fun j => o + k + 8 * j) (seq 0 q) ++ [o + k + 8 * q]) (seq 0 8)).
  - erewrite flat_map_ext; [apply Permutation_refl|]. intros k. rewrite seq_S, map_app. reflexivity.
  - eapply Permutation_trans; [apply (perm_step (fun k => map (fun j => o + k + 8 * j) (seq 0 q)) (fun k => o + k + 8 * q))|].
    replace (8 * S q) with (8 * q + 8) by lia. rewrite seq_app. apply Permutation_app; [exact IH|].
    cbn [seq map]. repeat (apply Permutation_refl || (match goal with |- Permutation (?a :: _) (?b :: _) => replace b with a by lia end; apply perm_skip)).
Qed.
Lemma block_leaves o n : 8 <= n -> Permutation (leaves (block o n)) (seq o n).
Proof.
  intros Hn. unfold block. rewrite chain_leaves. set (q := n / 8). assert (Hq : 1 <= q) by (apply (Nat.div_le_mono 8 n 8); lia).
  assert (En : n = 8 * q + n mod 8) by (apply Nat.div_mod; lia). rewrite En at 2. rewrite seq_app. apply Permutation_app_tail.
  eapply Permutation_trans; [|apply interleaved].
  assert (R : forall k, leaves (stride (Leaf (o + k)) (o + k + 8) (q - 1)) = map (fun j => o + k + 8 * j) (seq 0 q)).
  { intros k. rewrite stride_leaves. destruct q as [|q']; [lia|]. cbn [Nat.sub leaves seq map app]. rewrite Nat.sub_0_r. f_equal; [lia|].
    rewrite <- seq_shift, map_map. apply map_ext. intros j. lia. }
  cbn [leaves]. rewrite !R. cbn [seq flat_map]. rewrite app_nil_r, <- !app_assoc. apply Permutation_refl.
Qed.
Lemma pairwise_leaves fuel : forall o n, 0 < n -> Permutation (leaves (pairwise fuel o n)) (seq o n).
Proof.
  assert (B : forall o n, 0 < n -> leaves (chain (Leaf o) (S o) (n - 1)) = seq o n).
  { intros o n Hn. rewrite chain_leaves. destruct n; [lia|]. cbn [Nat.sub leaves seq app]. rewrite Nat.sub_0_r. reflexivity. }
  induction fuel as [|fuel IH]; intros o n Hn; cbn [pairwise]; [rewrite B by exact Hn; apply Permutation_refl|].
  destruct (Nat.ltb_spec n 8); [rewrite B by exact Hn; apply Permutation_refl|].
  destruct (Nat.leb_spec n 128); [apply block_leaves; lia|].
  assert (H2 : 64 <= n / 2) by (apply (Nat.div_le_mono 128 n 2); lia). assert (Hm := Nat.mod_upper_bound (n / 2) 8 ltac:(lia)).
  assert (Hh : 2 * (n / 2) <= n) by (apply Nat.mul_div_le; lia).
  set (n2 := n / 2 - (n / 2) mod 8) in *. assert (0 < n2 < n) by lia. cbn [leaves].
  replace (seq o n) with (seq o n2 ++ seq (o + n2) (n - n2)) by (rewrite <- seq_app; f_equal; lia).
  apply Permutation_app; apply IH; lia.
Qed.
Definition numpy_order : summation :=
  mkSummation (fun n => pairwise n 0 n) (fun n Hn => pairwise_leaves n 0 n Hn).
