(** * Properties of core_time.py, continued: C09 - C13 *)

From Coq Require Import Reals ZArith String List Bool Lra Lia Permutation Sorted.
From Verif Require Import Num XR Spec XRFacts Engine TimeModel TimeSpec EngineProps TimeProps.
Import ListNotations.
Open Scope R_scope.

(** ** C09 Up- and down-crossings alternate *)

Definition flip (d : direction) : direction := match d with Up => Down | Down => Up end.

(** discrete intermediate value theorem for samples *)
Lemma exists_crossing_down x i j :
  (i < j < length x)%nat -> 0 <= nth i x 0 -> nth j x 0 < 0 ->
  exists k, (i <= k < j)%nat /\ Rcrosses Down x k.
Proof.
  intros Hij Hi Hj. remember (j - i)%nat as n eqn:En.
  revert i Hij Hi En. induction n as [|n IH]; intros i Hij Hi En; [lia|].
  destruct (Rlt_le_dec (nth (S i) x 0) 0) as [Hn|Hp].
  - exists i. split; [lia|]. split; [lia|]. lra.
  - destruct (Nat.eq_dec (S i) j); [subst; lra|].
    destruct (IH (S i)) as (k & Hk & Hc); auto; try lia. exists k. split; [lia|auto].
Qed.
Lemma exists_crossing_up x i j :
  (i < j < length x)%nat -> nth i x 0 <= 0 -> 0 < nth j x 0 ->
  exists k, (i <= k < j)%nat /\ Rcrosses Up x k.
Proof.
  intros Hij Hi Hj. remember (j - i)%nat as n eqn:En.
  revert i Hij Hi En. induction n as [|n IH]; intros i Hij Hi En; [lia|].
  destruct (Rlt_le_dec 0 (nth (S i) x 0)) as [Hn|Hp].
  - exists i. split; [lia|]. split; [lia|]. lra.
  - destruct (Nat.eq_dec (S i) j); [subst; lra|].
    destruct (IH (S i)) as (k & Hk & Hc); auto; try lia. exists k. split; [lia|auto].
Qed.

(** the strict sign a sample must have for a crossing of the other kind *)
Definition opposite (d : direction) (v : R) : Prop := match d with Up => v < 0 | Down => 0 < v end.

(** at the level of sample pairs *)
Lemma between_idx d x i j :
  (i < j)%nat -> Rcrosses d x i -> Rcrosses d x j ->
  ((exists k, (i < k < j)%nat /\ Rcrosses (flip d) x k)
   <-> exists l, (i < l <= j)%nat /\ opposite d (nth l x 0)).
Proof.
  intros Hij [Hi Ci] [Hj Cj]. split.
  - intros (k & Hk & Lk & Ck). exists (S k). split; [lia|]. destruct d; cbn in *; lra.
  - intros (l & Hl & Cl). assert (S i <> l) by (intros <-; destruct d; cbn in *; lra).
    destruct d; cbn [opposite flip] in *.
    + destruct (exists_crossing_down x (S i) l) as (k & Hk & Ck); try lia; try lra. exists k. split; [lia|auto].
    + destruct (exists_crossing_up x (S i) l) as (k & Hk & Ck); try lia; try lra. exists k. split; [lia|auto].
Qed.
Lemma alternate_idx d x i j :
  (forall k, (i < k <= j)%nat -> nth k x 0 <> 0) ->
  (i < j)%nat -> Rcrosses d x i -> Rcrosses d x j ->
  (forall k, (i < k < j)%nat -> ~ Rcrosses d x k) ->
  exists k, (i < k < j)%nat /\ Rcrosses (flip d) x k
       /\ forall k', (i < k' < j)%nat -> Rcrosses (flip d) x k' -> k' = k.
Proof.
  intros Hnz Hij Ci Cj Hno.
  destruct (proj2 (between_idx d x i j Hij Ci Cj)) as (k & Hk & Ck).
  { exists j. split; [lia|]. destruct (Rdichotomy _ _ (Hnz j ltac:(lia))) as [Z|Z]; destruct Cj as [_ Cj]; destruct d; cbn in *; lra. }
  exists k. split; [exact Hk|]. split; [exact Ck|]. intros k' Hk' Ck'.
  assert (Hgen : forall p q, (i < p < q)%nat -> (q < j)%nat -> Rcrosses (flip d) x p -> Rcrosses (flip d) x q -> False).
  { intros p q Hp Hq [L1 C1] [L2 C2].
    assert (Hpq : S p <> q) by (intros <-; destruct d; cbn [flip] in *; lra).
    destruct (Rdichotomy _ _ (Hnz q ltac:(lia))) as [Z|Z]; destruct d; cbn [flip] in *; try lra.
    - destruct (exists_crossing_down x (S p) q) as (m & Hm & Cm); [lia|lra|lra|]. apply (Hno m); auto; lia.
    - destruct (exists_crossing_up x (S p) q) as (m & Hm & Cm); [lia|lra|lra|]. apply (Hno m); auto; lia. }
  destruct (Nat.lt_total k' k) as [Hlt|[E|Hlt]]; auto; exfalso.
  - apply (Hgen k' k); auto; lia.
  - apply (Hgen k k'); auto; lia.
Qed.

(** crossing times returned for direction [s] on the axis of [x] *)
Definition crossing_times (t0 dt : R) (x : list R) (s : string) (tau : list R) : Prop :=
  exists n tc, determine_zero_crossing (Arr (vec (F (axis t0 dt (length x))))) (Arr (vec (F x))) s = Ok (n, tc)
    /\ data tc = F tau.

(** between the k-th and the next crossing there is exactly one of the other kind *)
Definition exactly_one_between (tau tau' : list R) (k : nat) : Prop :=
  exists m, (m < length tau')%nat /\ nth k tau 0 < nth m tau' 0 < nth (S k) tau 0
    /\ forall m', (m' < length tau')%nat -> nth k tau 0 < nth m' tau' 0 < nth (S k) tau 0 -> m' = m.

Section Between.
  Variables (t0 dt : R) (x : list R) (s s' : string) (d : direction) (tau tau' : list R) (k : nat).
  Hypothesis Hdt : 0 < dt.
  Hypothesis H2 : (2 <= length x)%nat.
  Hypothesis Hs : names s d.
  Hypothesis Hs' : names s' (flip d).
  Hypothesis Ht : crossing_times t0 dt x s tau.
  Hypothesis Ht' : crossing_times t0 dt x s' tau'.
  Hypothesis Hk : (S k < length tau)%nat.

  (** the sample pairs behind the crossing times *)
  Lemma between_pairs : exists is is' : list nat,
    all_crossings d x is /\ length tau = length is
    /\ all_crossings (flip d) x is' /\ length tau' = length is'
    /\ (nth k is 0 < nth (S k) is 0)%nat
    /\ Rcrosses d x (nth k is 0%nat) /\ Rcrosses d x (nth (S k) is 0%nat)
    /\ (forall j, (nth k is 0 < j < nth (S k) is 0)%nat -> ~ Rcrosses d x j)
    /\ (forall m, (m < length tau')%nat ->
            nth k tau 0 < nth m tau' 0 < nth (S k) tau 0 <-> (nth k is 0 < nth m is' 0 < nth (S k) is 0)%nat)
    /\ (forall l, (l < length x)%nat ->
            nth k tau 0 < t0 + INR l * dt <= nth (S k) tau 0 <-> (nth k is 0 < l <= nth (S k) is 0)%nat).
  Proof.
    destruct Ht as (n1 & tc1 & E1 & D1), Ht' as (n2 & tc2 & E2 & D2).
    destruct (C07_crossing_times t0 dt x s d Hs Hdt H2) as (is & ta & tc & [As Is] & Ls & E & D & Inc & T).
    rewrite E in E1. injection E1 as _ <-. rewrite D in D1. apply F_inj in D1. subst ta.
    destruct (C07_crossing_times t0 dt x s' (flip d) Hs' Hdt H2) as (is' & ta' & tc' & [As' Is'] & Ls' & E' & D' & Inc' & T').
    rewrite E' in E2. injection E2 as _ <-. rewrite D' in D2. apply F_inj in D2. subst ta'.
    destruct (T k ltac:(lia)) as [Tk _]. destruct (T (S k) ltac:(lia)) as [TSk ZSk]. cbn zeta in Tk, TSk.
    assert (Ck : Rcrosses d x (nth k is 0%nat)) by (apply Is, nth_In; lia).
    assert (CSk : Rcrosses d x (nth (S k) is 0%nat)) by (apply Is, nth_In; lia).
    assert (Hmono : forall a b, (a < b)%nat -> INR a * dt + dt <= INR b * dt).
    { intros a b Hab. assert (INR a + 1 <= INR b) by (rewrite <- S_INR; apply le_INR; lia). nra. }
    exists is, is'. split; [split; auto|]. split; [exact Ls|]. split; [split; auto|]. split; [exact Ls'|].
    split; [apply As; lia|]. split; [exact Ck|]. split; [exact CSk|]. split; [|split].
    - intros j Hj Cj. apply Is in Cj. apply (In_nth _ _ 0%nat) in Cj as (p & Hp & <-).
      assert (k < p)%nat.
      { destruct (Nat.lt_total k p) as [|[->|Hc]]; [auto|lia|]. assert (A := As p k ltac:(lia)). lia. }
      assert (p < S k)%nat; [|lia].
      destruct (Nat.lt_total p (S k)) as [|[->|Hc]]; [auto|lia|]. assert (A := As (S k) p ltac:(lia)). lia.
    - intros m Hm. destruct (T' m Hm) as [Tm Zm]. cbn zeta in Tm.
      assert (Cm : Rcrosses (flip d) x (nth m is' 0%nat)) by (apply Is', nth_In; lia).
      assert (Hd1 : (nth k is 0 <> nth m is' 0)%nat).
      { intros Eq. rewrite <- Eq in Cm. destruct Ck as [B1 C1], Cm as [_ C2]. destruct d; cbn in C2; lra. }
      assert (Hd2 : (nth (S k) is 0 <> nth m is' 0)%nat).
      { intros Eq. rewrite <- Eq in Cm. destruct CSk as [B1 C1], Cm as [_ C2]. destruct d; cbn in C2; lra. }
      split.
      + intros [L1 L2]. split.
        * destruct (Nat.lt_total (nth k is 0%nat) (nth m is' 0%nat)) as [|[|Hc]]; [auto|contradiction|].
          apply Hmono in Hc. lra.
        * destruct (Nat.lt_total (nth m is' 0%nat) (nth (S k) is 0%nat)) as [|[|Hc]]; [auto|congruence|].
          apply Hmono in Hc. lra.
      + intros [L1 L2]. apply Hmono in L1. apply Hmono in L2. lra.
    - intros l Hl. split.
      + intros [L1 L2]. split.
        * destruct (Nat.lt_total (nth k is 0%nat) l) as [|[Eq|Hc]]; [auto|rewrite <- Eq in L1; lra|].
          apply Hmono in Hc. lra.
        * destruct (Nat.lt_total l (nth (S k) is 0%nat)) as [|[Eq|Hc]]; [lia|lia|].
          apply Hmono in Hc. lra.
      + intros [L1 L2]. apply Hmono in L1. split; [lra|].
        assert (INR l <= INR (nth (S k) is 0%nat)) by (apply le_INR; lia). nra.
  Qed.
End Between.

(** Between two successive crossings of one kind there is exactly one of the other kind, provided no
    sample recorded after the first and up to the second crossing is exactly zero. *)
Theorem C09_alternate (t0 dt : R) (x : list R) s s' d tau tau' k :
  0 < dt -> (2 <= length x)%nat -> names s d -> names s' (flip d) ->
  crossing_times t0 dt x s tau -> crossing_times t0 dt x s' tau' ->
  (S k < length tau)%nat ->
  (forall l, (l < length x)%nat -> nth k tau 0 < t0 + INR l * dt <= nth (S k) tau 0 -> nth l x 0 <> 0) ->
  exactly_one_between tau tau' k.
Proof.
  intros Hdt H2 Hs Hs' Ht Ht' Hk Hnz.
  destruct (between_pairs t0 dt x s s' d tau tau' k Hdt H2 Hs Hs' Ht Ht' Hk)
    as (is & is' & [As Is] & Ls & [As' Is'] & Ls' & Hlt & Ck & CSk & Hno & strict & samples).
  assert (Hnz' : forall l, (nth k is 0 < l <= nth (S k) is 0)%nat -> nth l x 0 <> 0).
  { intros l Hl. assert (l < length x)%nat by (destruct CSk; lia). apply Hnz; [auto|]. apply samples; auto. }
  destruct (alternate_idx d x _ _ Hnz' Hlt Ck CSk Hno) as (j & Hj & Cj & Uj).
  apply Is' in Cj. apply (In_nth _ _ 0%nat) in Cj as (m & Hm & <-).
  exists m. split; [lia|]. split; [apply strict; [lia|auto]|].
  intros m' Hm' Hb. apply strict in Hb; [|auto].
  assert (Eq : nth m' is' 0%nat = nth m is' 0%nat).
  { apply Uj; [auto|]. apply Is', nth_In; lia. }
  destruct (Nat.lt_total m' m) as [Hc|[|Hc]]; auto.
  - assert (A := As' m' m ltac:(lia)). lia.
  - assert (A := As' m m' ltac:(lia)). lia.
Qed.
(** Whatever the signal: there is one at all exactly when the signal has strictly the other sign
    somewhere in between. *)
Theorem C09_some_between_iff (t0 dt : R) (x : list R) s s' d tau tau' k :
  0 < dt -> (2 <= length x)%nat -> names s d -> names s' (flip d) ->
  crossing_times t0 dt x s tau -> crossing_times t0 dt x s' tau' ->
  (S k < length tau)%nat ->
  ((exists m, (m < length tau')%nat /\ nth k tau 0 < nth m tau' 0 < nth (S k) tau 0)
   <-> exists l, (l < length x)%nat /\ nth k tau 0 < t0 + INR l * dt <= nth (S k) tau 0
         /\ match d with Up => nth l x 0 < 0 | Down => 0 < nth l x 0 end).
Proof.
  intros Hdt H2 Hs Hs' Ht Ht' Hk.
  destruct (between_pairs t0 dt x s s' d tau tau' k Hdt H2 Hs Hs' Ht Ht' Hk)
    as (is & is' & [As Is] & Ls & [As' Is'] & Ls' & Hlt & Ck & CSk & Hno & strict & samples).
  assert (B := between_idx d x _ _ Hlt Ck CSk). split.
  - intros (m & Hm & Hb). apply strict in Hb; [|auto].
    destruct (proj1 B) as (l & Hl & Cl).
    { exists (nth m is' 0%nat). split; [exact Hb|]. apply Is', nth_In; lia. }
    exists l. assert (l < length x)%nat by (destruct CSk; lia). split; [auto|]. split; [apply samples; auto|exact Cl].
  - intros (l & Hl & Hb & Cl). apply samples in Hb; [|auto].
    destruct (proj2 B) as (j & Hj & Cj); [exists l; auto|].
    apply Is' in Cj. apply (In_nth _ _ 0%nat) in Cj as (m & Hm & <-).
    exists m. split; [lia|]. apply strict; [lia|auto].
Qed.
Example C09_witness : (forall k, (k < length ([1; -2; 3; -1]%R : list R))%nat -> nth k [1; -2; 3; -1] 0 <> 0)
  /\ exists tau tau', crossing_times 0 1 [1; -2; 3; -1] "down" tau /\ crossing_times 0 1 [1; -2; 3; -1] "up" tau'
       /\ (1 < length tau)%nat.
Proof.
  split.
  - intros k Hk. cbn in Hk. destruct k as [|[|[|[|k]]]]; cbn; try lra. lia.
  - set (x := [1; -2; 3; -1] : list R). assert (H2 : (2 <= length x)%nat) by (cbn; lia).
    destruct (C07_crossing_times 0 1 x "down" Down eq_refl ltac:(lra) H2) as (is & ta & tc & [As Is] & Ls & E & D & _ & _).
    destruct (C07_crossing_times 0 1 x "up" Up eq_refl ltac:(lra) H2) as (is' & ta' & tc' & _ & _ & E' & D' & _ & _).
    exists ta, ta'. split; [exists (Z.of_nat (length is - 1)), tc; auto|].
    split; [exists (Z.of_nat (length is' - 1)), tc'; auto|]. rewrite Ls.
    assert (I0 : In 0%nat is) by (apply Is; split; [cbn; lia|cbn; lra]).
    assert (I2 : In 2%nat is) by (apply Is; split; [cbn; lia|cbn; lra]).
    destruct is as [|a [|b is]]; [destruct I0| |cbn; lia]. destruct I0 as [->|[]]. destruct I2 as [|[]]. discriminate.
Qed.

(** without the proviso the claim is false: on a signal touching zero, two up-crossings can follow each other *)
Theorem C09_alternate_refuted :
  ~ (forall t0 dt x s s' d tau tau' k, 0 < dt -> (2 <= length x)%nat -> names s d -> names s' (flip d) ->
       crossing_times t0 dt x s tau -> crossing_times t0 dt x s' tau' -> (S k < length tau)%nat ->
       exactly_one_between tau tau' k).
Proof.
  intros H. set (x := [-1; 1; 0; 1] : list R).
  assert (H2 : (2 <= length x)%nat) by (cbn; lia).
  specialize (H 0 1 x "up"%string "down"%string Up).
  destruct (C07_crossing_times 0 1 x "up" Up eq_refl ltac:(lra) H2) as (is & ta & tc & [As Is] & Ls & E & D & _ & _).
  destruct (C07_crossing_times 0 1 x "down" Down eq_refl ltac:(lra) H2) as (is' & ta' & tc' & [As' Is'] & Ls' & E' & D' & _ & _).
  specialize (fun k => H ta ta' k ltac:(lra) H2 eq_refl eq_refl (ex_intro _ _ (ex_intro _ _ (conj E D))) (ex_intro _ _ (ex_intro _ _ (conj E' D')))).
  assert (I0 : In 0%nat is) by (apply Is; split; [cbn; lia|cbn; lra]).
  assert (I2 : In 2%nat is) by (apply Is; split; [cbn; lia|cbn; lra]).
  assert (N' : is' = []).
  { destruct is' as [|i is']; auto. assert (Hi : Rcrosses Down x i) by (apply Is'; left; auto).
    destruct Hi as [Li Ci]. cbn in Li. destruct i as [|[|[|i]]]; cbn in Ci; lra || lia. }
  assert (Hl : (1 < length is)%nat).
  { destruct is as [|a [|b is]]; [destruct I0| |cbn; lia]. destruct I0 as [->|[]]. destruct I2 as [|[]]. discriminate. }
  destruct (H 0%nat ltac:(lia)) as (m & Hm & _). rewrite Ls', N' in Hm. cbn in Hm. lia.
Qed.

(** ** C10 Highest-fraction means *)

Fixpoint Rins (x : R) (l : list R) : list R :=
  match l with [] => [x] | y :: l' => if Rleb x y then x :: l else y :: Rins x l' end.
Definition Rsort (l : list R) : list R := fold_right Rins [] l.
Lemma np_sort_F l : np_sort (N:=NX) (F l) = F (Rsort l).
Proof.
  induction l as [|a l IH]; [reflexivity|].
  change (np_sort (N:=NX) (F (a :: l))) with (insert_sorted (N:=NX) (Fin a) (np_sort (N:=NX) (F l))).
  rewrite IH. change (Rsort (a :: l)) with (Rins a (Rsort l)). generalize (Rsort l). clear.
  induction l as [|b l IH]; [reflexivity|].
  change (insert_sorted (N:=NX) (Fin a) (F (b :: l)))
    with (if Rleb a b then F (a :: b :: l) else Fin b :: insert_sorted (N:=NX) (Fin a) (F l)).
  rewrite IH. cbn [Rins]. destruct (Rleb a b); reflexivity.
Qed.
Definition ascendingR (l : list R) : Prop := forall i j, (i < j < length l)%nat -> nth i l 0 <= nth j l 0.
Lemma Rins_perm x l : Permutation (Rins x l) (x :: l).
Proof.
  induction l as [|y l IH]; cbn [Rins]; [reflexivity|].
  destruct (Rleb x y); [reflexivity|]. rewrite IH. apply perm_swap.
Qed.
Lemma Rsort_perm l : Permutation (Rsort l) l.
Proof. induction l; cbn; [reflexivity|]. fold (Rsort l). rewrite Rins_perm, IHl. reflexivity. Qed.
Lemma asc_cons x l : ascendingR (x :: l) <-> (forall y, In y l -> x <= y) /\ ascendingR l.
Proof.
  split.
  - intros H. split.
    + intros y Hy. apply (In_nth _ _ 0) in Hy as (k & Hk & <-). apply (H 0%nat (S k)). cbn; lia.
    + intros i j Hij. apply (H (S i) (S j)). cbn; lia.
  - intros [H1 H2] i j Hij. destruct j; [lia|]. cbn [length] in Hij. destruct i; cbn [nth].
    + apply H1, nth_In. lia.
    + apply H2. lia.
Qed.
Lemma Rins_asc x l : ascendingR l -> ascendingR (Rins x l).
Proof.
  induction l as [|y l IH]; intros H; cbn [Rins].
  - apply asc_cons. split; [intros ? []|]. intros i j Hij; cbn in Hij; lia.
  - apply asc_cons in H as [H1 H2]. destruct (Rleb_spec x y) as [Hle|Hgt].
    + apply asc_cons. split; [|apply asc_cons; auto]. intros z [<-|Hz]; auto. specialize (H1 z Hz). lra.
    + apply asc_cons. split; auto. intros z Hz. apply (Permutation_in _ (Rins_perm x l)) in Hz.
      destruct Hz as [<-|Hz]; auto. lra.
Qed.
Lemma Rsort_asc l : ascendingR (Rsort l).
Proof. induction l; cbn; [intros i j H; cbn in H; lia|]. apply Rins_asc; auto. Qed.
Lemma asc_perm_unique l l' : ascendingR l -> ascendingR l' -> Permutation l l' -> l = l'.
Proof.
  revert l'; induction l as [|x l IH]; intros l' A A' P.
  - apply Permutation_nil in P. auto.
  - destruct l' as [|y l']; [apply Permutation_sym, Permutation_nil in P; discriminate|].
    apply asc_cons in A as [A1 A2]. apply asc_cons in A' as [A1' A2'].
    assert (x = y).
    { assert (Hx : In x (y :: l')) by (apply (Permutation_in _ P); left; auto).
      assert (Hy : In y (x :: l)) by (apply (Permutation_in _ (Permutation_sym P)); left; auto).
      destruct Hx as [|Hx]; auto. destruct Hy as [|Hy]; auto. specialize (A1 y Hy). specialize (A1' x Hx). lra. }
    subst y. f_equal. apply IH; auto. apply (Permutation_cons_inv P).
Qed.
Lemma descending_rev l : descending l <-> ascendingR (rev l).
Proof.
  split.
  - intros H i j Hij. rewrite rev_length in Hij. rewrite !rev_nth by lia. apply H. lia.
  - intros H i j Hij. specialize (H (length l - S j)%nat (length l - S i)%nat).
    rewrite rev_length, !rev_nth in H by lia.
    replace (length l - S (length l - S j))%nat with j in H by lia.
    replace (length l - S (length l - S i))%nat with i in H by lia. apply H. lia.
Qed.
Lemma rev_Rsort_desc l : descending (rev (Rsort l)).
Proof. apply descending_rev. rewrite rev_involutive. apply Rsort_asc. Qed.
Lemma desc_perm_unique l l' : descending l -> descending l' -> Permutation l l' -> l = l'.
Proof.
  intros D D' P. apply descending_rev in D. apply descending_rev in D'.
  rewrite <- (rev_involutive l), <- (rev_involutive l'). f_equal. apply asc_perm_unique; auto.
  rewrite <- !Permutation_rev. auto.
Qed.
Lemma descending_iff_sorted l : descending l <-> l = rev (Rsort l).
Proof.
  split; intros H.
  - apply desc_perm_unique; auto; [apply rev_Rsort_desc|]. rewrite <- Permutation_rev. symmetry. apply Rsort_perm.
  - rewrite H. apply rev_Rsort_desc.
Qed.
Lemma all_eq_F l l' : length l = length l' -> (all_eq (N:=NX) (F l) (F l') = true <-> l = l').
Proof.
  unfold all_eq. revert l'; induction l as [|a l IH]; intros [|b l'] H; try discriminate; [cbn; tauto|].
  injection H as H. cbn [F map map2 forallb]. rewrite andb_true_iff, fin_eqb.
  change (map Fin l) with (F l). change (map Fin l') with (F l'). rewrite (IH l' H).
  split.
  - intros [H1 ->]. destruct (Reqb_spec a b); [congruence|discriminate].
  - intros E; injection E as -> ->. split; auto. apply Reqb_true; auto.
Qed.
Lemma sorted_check l : all_eq (N:=NX) (F l) (rev (np_sort (N:=NX) (F l))) = true <-> descending l.
Proof.
  rewrite np_sort_F, <- F_rev, all_eq_F, descending_iff_sorted; [reflexivity|].
  rewrite rev_length. symmetry. apply Permutation_length, Rsort_perm.
Qed.

Lemma fin_floor_nat r k : 0 <= r -> floor_is r k -> int_floor (N:=NX) (Fin r) = Ok (Z.of_nat k).
Proof. intros H1 H2. unfold int_floor. cbn. f_equal. apply floor_is_Rfloor; auto. Qed.

Theorem C10_highest_waves (h t : list R) (p : R) (k : nat) :
  h <> [] -> length t = length h -> descending h -> 0 <= p <= 1 ->
  floor_is (INR (length h) * p) k ->
  highest_waves_params (Arr (vec (F h))) (Arr (vec (F t))) (Fin p)
  = Ok (if Nat.eqb k 0 then (Fin 0, Fin 0) else (Fin (Rmean (firstn k h)), Fin (Rmean (firstn k t)))).
Proof.
  intros Hne Hlen Hd Hp Hk. unfold highest_waves_params; cbn [convert_to_array_type].
  assert (Hne' : t <> []) by (destruct t; [destruct h; [contradiction|discriminate]|discriminate]).
  rewrite !is1darray_vec by (apply F_ne; auto). cbn [negb]. rewrite !as_list_vec, !bind_Ok, !F_length.
  rewrite Hlen, Nat.eqb_refl. cbn [negb].
  rewrite fin_0, fin_1, !fin_ltb, (Rltb_false p 0), (Rltb_false 1 p) by lra. cbn [orb].
  destruct (Nat.ltb_spec (length h) 1); [destruct h; [contradiction|cbn in *; lia]|].
  rewrite (proj2 (sorted_check h) Hd). cbn [negb].
  rewrite fin_ofnat, fin_mul.
  assert (H0 : 0 <= INR (length h) * p) by (apply Rmult_le_pos; [apply pos_INR|lra]).
  rewrite (fin_floor_nat _ k H0 Hk), bind_Ok.
  destruct (Nat.eqb_spec k 0) as [->|Hk0]; [reflexivity|].
  destruct (Z.ltb_spec 0 (Z.of_nat k)); [|lia].
  rewrite Nat2Z.id, !F_slice. unfold slice. cbn [skipn]. rewrite Nat.sub_0_r.
  assert (firstn k h <> []) by (destruct h, k; try contradiction; try lia; discriminate).
  assert (firstn k t <> []) by (destruct t, k; try contradiction; try lia; discriminate).
  rewrite !nmean_F by auto. reflexivity.
Qed.
Lemma floor_le_len n p k : 0 <= p <= 1 -> floor_is (INR n * p) k -> (k <= n)%nat.
Proof.
  intros Hp [H1 _]. apply INR_le. assert (0 <= INR n) by apply pos_INR. nra.
Qed.

(** bounds and monotonicity *)
Lemma Rsum_bounds l lo hi : (forall x, In x l -> lo <= x <= hi) -> INR (length l) * lo <= Rsum l <= INR (length l) * hi.
Proof.
  induction l as [|a l IH]; intros H; [cbn; lra|].
  change (Rsum (a :: l)) with (a + Rsum l). cbn [length]. rewrite S_INR.
  assert (Ha := H a (or_introl eq_refl)). assert (IH' := IH (fun x Hx => H x (or_intror Hx))). lra.
Qed.
Lemma Rmean_bounds l lo hi : l <> [] -> (forall x, In x l -> lo <= x <= hi) -> lo <= Rmean l <= hi.
Proof.
  intros Hne H. unfold Rmean. assert (Hl : 0 < INR (length l)) by (apply lt_0_INR; destruct l; [contradiction|cbn; lia]).
  assert (B := Rsum_bounds l lo hi H). split.
  - apply Rmult_le_reg_r with (INR (length l)); auto. unfold Rdiv. rewrite Rmult_assoc, Rinv_l by lra. lra.
  - apply Rmult_le_reg_r with (INR (length l)); auto. unfold Rdiv. rewrite Rmult_assoc, Rinv_l by lra. lra.
Qed.
Lemma firstn_incl {A} k (l : list A) x : In x (firstn k l) -> In x l.
Proof. intros H. rewrite <- (firstn_skipn k l). apply in_or_app. auto. Qed.
(** prefix means of a descending list decrease *)
Lemma prefix_mean_mono h k k' : descending h -> (0 < k <= k')%nat -> (k' <= length h)%nat ->
  Rmean (firstn k' h) <= Rmean (firstn k h).
Proof.
  intros Hd Hk Hk'.
  set (v := nth (k - 1) h 0).
  assert (L1 : length (firstn k h) = k) by (rewrite firstn_length; lia).
  assert (L2 : length (firstn k' h) = k') by (rewrite firstn_length; lia).
  assert (S1 : INR k * v <= Rsum (firstn k h)).
  { rewrite <- L1. assert (B := Rsum_bounds (firstn k h) v (nth 0 h 0)).
    rewrite L1 in *. apply B. intros x Hx. apply (In_nth _ _ 0) in Hx as (i & Hi & <-).
    rewrite L1 in Hi. rewrite firstn_nth by lia.
    split.
    - unfold v. destruct (Nat.eq_dec i (k - 1)) as [->|]; [lra|]. apply Hd; lia.
    - destruct (Nat.eq_dec i 0) as [->|]; [lra|]. apply Hd; lia. }
  assert (S2 : Rsum (firstn k' h) <= Rsum (firstn k h) + INR (k' - k) * v).
  { replace (firstn k' h) with (firstn k h ++ slice k k' h).
    - rewrite Rsum_app. assert (L3 : length (slice k k' h) = (k' - k)%nat) by (rewrite slice_length; lia).
      assert (B := Rsum_bounds (slice k k' h) (nth (length h - 1) h 0) v). rewrite L3 in B.
      enough (Rsum (slice k k' h) <= INR (k' - k) * v) by lra. apply B.
      intros x Hx. apply (In_nth _ _ 0) in Hx as (i & Hi & <-). rewrite L3 in Hi.
      rewrite slice_nth by lia. split.
      + destruct (Nat.eq_dec (k + i) (length h - 1)) as [->|]; [lra|]. apply Hd; lia.
      + unfold v. apply Hd; lia.
    - apply firstn_slice; lia. }
  unfold Rmean. rewrite L1, L2.
  assert (P1 : 0 < INR k) by (apply lt_0_INR; lia).
  assert (P2 : 0 < INR k') by (apply lt_0_INR; lia).
  assert (D : INR (k' - k) = INR k' - INR k) by (apply minus_INR; lia).
  assert (P3 : 0 <= INR k' - INR k) by (rewrite <- D; apply pos_INR).
  rewrite D in S2.
  apply Rmult_le_reg_r with (INR k * INR k'); [nra|].
  replace (Rsum (firstn k' h) / INR k' * (INR k * INR k')) with (Rsum (firstn k' h) * INR k) by (field; lra).
  replace (Rsum (firstn k h) / INR k * (INR k * INR k')) with (Rsum (firstn k h) * INR k') by (field; lra).
  nra.
Qed.

(** height of highest_waves_params *)
Definition highest_is (h t : list R) (p H T : R) : Prop :=
  highest_waves_params (Arr (vec (F h))) (Arr (vec (F t))) (Fin p) = Ok (Fin H, Fin T).

Theorem C10_bounds (h t : list R) (p H T lo hi : R) :
  h <> [] -> length t = length h -> descending h -> 0 <= p <= 1 -> 1 <= INR (length h) * p ->
  (forall x, In x h -> lo <= x <= hi) -> highest_is h t p H T ->
  lo <= H <= hi /\ Rmean h <= H.
Proof.
  intros Hne Hlen Hd Hp H1 Hb HH. unfold highest_is in HH.
  destruct (floor_is_exists (INR (length h) * p)) as (k & Hk); [lra|].
  assert (Hk0 : (0 < k)%nat).
  { destruct k; [|lia]. destruct Hk as [_ Hk]. cbn in Hk. lra. }
  assert (Hkn := floor_le_len _ _ _ Hp Hk).
  rewrite (C10_highest_waves h t p k) in HH by auto.
  destruct (Nat.eqb_spec k 0); [lia|]. injection HH as <- _.
  split.
  - apply Rmean_bounds; [destruct h, k; try contradiction; try lia; discriminate|].
    intros x Hx. apply Hb. eapply firstn_incl; eauto.
  - replace h with (firstn (length h) h) at 1 by apply firstn_all.
    apply prefix_mean_mono; auto; lia.
Qed.
Theorem C10_non_increasing_in_p (h t : list R) (p p' H T H' T' : R) :
  h <> [] -> length t = length h -> descending h -> 0 <= p <= p' -> p' <= 1 -> 1 <= INR (length h) * p ->
  highest_is h t p H T -> highest_is h t p' H' T' -> H' <= H.
Proof.
  intros Hne Hlen Hd Hp Hp' H1 HH HH'. unfold highest_is in *.
  assert (HN : 0 <= INR (length h)) by apply pos_INR.
  destruct (floor_is_exists (INR (length h) * p)) as (k & Hk); [lra|].
  destruct (floor_is_exists (INR (length h) * p')) as (k' & Hk'); [nra|].
  assert (Hk0 : (0 < k)%nat).
  { destruct k; [|lia]. destruct Hk as [_ Hk]. cbn in Hk. lra. }
  assert (Hkn' := floor_le_len _ p' _ ltac:(lra) Hk').
  assert (Hkk : (k <= k')%nat).
  { destruct Hk as [Hk _], Hk' as [_ Hk']. assert (INR k < INR (S k')) by (rewrite S_INR; nra).
    apply INR_lt in H0. lia. }
  rewrite (C10_highest_waves h t p k) in HH by (auto; lra).
  rewrite (C10_highest_waves h t p' k') in HH' by (auto; lra).
  destruct (Nat.eqb_spec k 0); [lia|]. destruct (Nat.eqb_spec k' 0); [lia|].
  injection HH as <- _. injection HH' as <- _. apply prefix_mean_mono; auto.
Qed.
(** without the restriction to p selecting at least one wave the height can increase with p: 0, then h *)
Theorem C10_non_increasing_at_zero_refuted :
  ~ (forall h t p p' H T H' T', h <> [] -> length t = length h -> descending h -> 0 <= p <= p' -> p' <= 1 ->
       highest_is h t p H T -> highest_is h t p' H' T' -> H' <= H).
Proof.
  intros C. assert (D : descending [1]) by (intros i j Hij; cbn in Hij; lia).
  specialize (C [1] [1] 0 1 0 0 1 1 ltac:(discriminate) eq_refl D ltac:(lra) ltac:(lra)).
  enough (1 <= 0) by lra. apply C; unfold highest_is.
  - rewrite (C10_highest_waves [1] [1] 0 0); auto; try discriminate; try lra. split; cbn; lra.
  - rewrite (C10_highest_waves [1] [1] 1 1); auto; try discriminate; try lra.
    + cbn. do 2 f_equal; f_equal; unfold Rmean, Rsum; cbn; field.
    + split; cbn; lra.
Qed.
Theorem C10_p_out_of_range_rejected (h t : list NX) (p : NX) :
  (forall r, p = Fin r -> r < 0 \/ 1 < r) ->
  highest_waves_params (Arr (vec h)) (Arr (vec t)) p = Raise ValueError.
Proof.
  intros Hp. unfold highest_waves_params; cbn [convert_to_array_type].
  destruct (is1darray (vec h)) eqn:Eh; [|reflexivity]. destruct (is1darray (vec t)); [|reflexivity].
  cbn [negb]. rewrite !as_list_vec, !bind_Ok. destruct (Nat.eqb _ _); [|reflexivity]. cbn [negb].
  destruct p as [r| | |].
  - rewrite fin_0, fin_1, !fin_ltb. destruct (Hp r eq_refl).
    + rewrite (Rltb_true r 0) by auto. reflexivity.
    + rewrite (Rltb_true 1 r) by auto. rewrite orb_true_r. reflexivity.
  - reflexivity.
  - reflexivity.
  - cbn [nltb NX xltb n0 n1 nofZ orb].
    destruct (Nat.ltb_spec (length h) 1).
    { destruct h; [discriminate|cbn in *; lia]. }
    destruct (all_eq h _); [|reflexivity]. cbn [negb].
    rewrite fin_ofnat. reflexivity.
Qed.
Theorem C10_unsorted_rejected (h t : list R) (p : R) :
  h <> [] -> ~ descending h -> highest_waves_params (Arr (vec (F h))) (Arr (vec (F t))) (Fin p) = Raise ValueError.
Proof.
  intros Hne Hd. unfold highest_waves_params; cbn [convert_to_array_type].
  destruct (is1darray (vec (F h))); [|reflexivity]. destruct (is1darray (vec (F t))); [|reflexivity].
  cbn [negb]. rewrite !as_list_vec, !bind_Ok. destruct (Nat.eqb _ _); [|reflexivity]. cbn [negb].
  destruct (_ || _)%bool; [reflexivity|]. rewrite F_length.
  destruct (Nat.ltb_spec (length h) 1); [destruct h; [contradiction|cbn in *; lia]|].
  destruct (all_eq (F h) (rev (np_sort (F h)))) eqn:E; [|reflexivity].
  exfalso. apply Hd, sorted_check. exact E.
Qed.
Theorem C10_length_mismatch_rejected (h t : list NX) (p : NX) :
  length h <> length t -> highest_waves_params (Arr (vec h)) (Arr (vec t)) p = Raise ValueError.
Proof.
  intros H. unfold highest_waves_params; cbn [convert_to_array_type].
  destruct (is1darray (vec h)); [|reflexivity]. destruct (is1darray (vec t)); [|reflexivity].
  cbn [negb]. rewrite !as_list_vec, !bind_Ok. rewrite (proj2 (Nat.eqb_neq (length t) (length h))); [reflexivity|congruence].
Qed.
Example C10_witness : [3; 2; 1] <> [] /\ descending [3; 2; 1] /\ floor_is (INR 3 * (2/3)) 2 /\ 1 <= INR 3 * (2/3).
Proof.
  split; [discriminate|]. split.
  - intros i j H. cbn in H. destruct i as [|[|[|i]]], j as [|[|[|j]]]; cbn; try lra; lia.
  - unfold floor_is. cbn. split; lra.
Qed.

(** ** C11 Exceedance wave height *)

Theorem C11_exceedance_value (h : list R) (p : R) (k : nat) :
  h <> [] -> descending h -> 0 <= p <= 100 -> floor_is (INR (length h) * p / 100) k ->
  exceedance_wave_height (Arr (vec (F h))) (Fin p)
  = Ok (Fin (if Nat.eqb k 0 then 0 else nth (k - 1) h 0)).
Proof.
  intros Hne Hd Hp Hk. unfold exceedance_wave_height; cbn [convert_to_array_type].
  rewrite !is1darray_vec by (apply F_ne; auto). cbn [negb]. rewrite !as_list_vec, !bind_Ok, !F_length.
  rewrite fin_0, fin_ofZ, !fin_ltb, (Rltb_false p 0), (Rltb_false 100 p) by lra. cbn [orb].
  destruct (Nat.ltb_spec (length h) 1); [destruct h; [contradiction|cbn in *; lia]|].
  rewrite (proj2 (sorted_check h) Hd). cbn [negb].
  rewrite fin_ofnat, fin_mul, fin_div by lra.
  assert (HN : 0 <= INR (length h)) by apply pos_INR.
  assert (H0 : 0 <= INR (length h) * p / 100) by (unfold Rdiv; nra).
  rewrite (fin_floor_nat _ k H0 Hk), bind_Ok.
  destruct (Nat.eqb_spec k 0) as [->|Hk0]; [reflexivity|].
  destruct (Z.ltb_spec (Z.of_nat k - 1) 0); [lia|].
  rewrite idx_F.
  - do 3 f_equal. lia.
  - assert (k <= length h)%nat; [|lia]. apply INR_le. destruct Hk as [Hk _]. nra.
Qed.

Lemma filter_length_le {A} (p : A -> bool) l : (length (filter p l) <= length l)%nat.
Proof. induction l; cbn; [lia|]. destruct (p a); cbn; lia. Qed.
Lemma count_ge_prefix h k v : descending h -> (k < length h)%nat -> nth k h 0 = v -> (S k <= count_ge h v)%nat.
Proof.
  intros Hd Hk Hv. unfold count_ge. rewrite <- (firstn_skipn (S k) h), filter_app, app_length.
  enough (E : length (filter (fun x => Rleb v x) (firstn (S k) h)) = S k) by lia.
  assert (L : length (firstn (S k) h) = S k) by (rewrite firstn_length; lia).
  rewrite <- L at 2. f_equal.
  assert (Hall : forall l : list R, (forall x, In x l -> v <= x) -> filter (fun x => Rleb v x) l = l).
  { induction l as [|a l IH]; intros H; [reflexivity|]. cbn. rewrite Rleb_true by (apply H; left; auto).
    f_equal. apply IH. intros; apply H; right; auto. }
  apply Hall. intros x Hx. apply (In_nth _ _ 0) in Hx as (i & Hi & <-). rewrite L in Hi.
  assert (E2 : nth i (firstn (S k) h) 0 = nth i h 0) by (apply firstn_nth; lia).
  rewrite E2, <- Hv. destruct (Nat.eq_dec i k) as [->|]; [lra|]. apply Hd; lia.
Qed.
Lemma count_gt_prefix h k v : descending h -> (k < length h)%nat -> nth k h 0 = v -> (count_gt h v <= k)%nat.
Proof.
  intros Hd Hk Hv. unfold count_gt. rewrite <- (firstn_skipn k h), filter_app, app_length.
  assert (E : filter (fun x => Rltb v x) (skipn k h) = []).
  { assert (Hall : forall l : list R, (forall x, In x l -> x <= v) -> filter (fun x => Rltb v x) l = []).
    { induction l as [|a l IH]; intros H; [reflexivity|]. cbn. rewrite Rltb_false by (apply H; left; auto).
      apply IH. intros; apply H; right; auto. }
    apply Hall. intros x Hx. apply (In_nth _ _ 0) in Hx as (i & Hi & <-). rewrite skipn_length in Hi.
    assert (E2 : nth i (skipn k h) 0 = nth (k + i) h 0) by apply skipn_nth.
    rewrite E2, <- Hv. destruct i; [rewrite Nat.add_0_r; lra|]. apply Hd; lia. }
  rewrite E. cbn. assert (H := filter_length_le (fun x => Rltb v x) (firstn k h)). rewrite firstn_length in H. lia.
Qed.

Definition exceedance_is (h : list R) (p v : R) : Prop :=
  exceedance_wave_height (Arr (vec (F h))) (Fin p) = Ok (Fin v).

Theorem C11_exceedance_meaning (h : list R) (p v : R) :
  h <> [] -> descending h -> 0 <= p <= 100 -> 1 <= INR (length h) * p / 100 -> exceedance_is h p v ->
  In v h
  /\ (forall k, floor_is (INR (length h) * p / 100) k -> (k <= count_ge h v)%nat)
  /\ INR (count_gt h v) <= p / 100 * INR (length h).
Proof.
  intros Hne Hd Hp H1 HH. unfold exceedance_is in HH.
  assert (HN : 0 <= INR (length h)) by apply pos_INR.
  destruct (floor_is_exists (INR (length h) * p / 100)) as (k & Hk); [lra|].
  rewrite (C11_exceedance_value h p k) in HH by auto. apply Ok_inj, fin_inj in HH.
  assert (Hk0 : (0 < k)%nat).
  { destruct k; [|lia]. destruct Hk as [_ Hk]. cbn in Hk. lra. }
  destruct (Nat.eqb_spec k 0); [lia|].
  assert (Hkn : (k <= length h)%nat).
  { apply INR_le. destruct Hk as [Hk _]. nra. }
  split; [|split].
  - subst v. apply nth_In. lia.
  - intros k' Hk'. rewrite (floor_is_unique _ _ _ Hk' Hk).
    assert (C := count_ge_prefix h (k - 1) v Hd ltac:(lia) HH). lia.
  - assert (C := count_gt_prefix h (k - 1) v Hd ltac:(lia) HH).
    apply le_INR in C. rewrite minus_INR in C by lia. cbn in C. destruct Hk as [Hk _]. lra.
Qed.
Theorem C11_small_sample_zero (h : list R) (p : R) :
  h <> [] -> descending h -> 0 <= p <= 100 -> INR (length h) * p / 100 < 1 -> exceedance_is h p 0.
Proof.
  intros Hne Hd Hp H1. unfold exceedance_is.
  assert (HN : 0 <= INR (length h)) by apply pos_INR.
  rewrite (C11_exceedance_value h p 0) by (auto; split; cbn; unfold Rdiv in *; nra). reflexivity.
Qed.
Theorem C11_non_increasing_in_p (h : list R) (p p' v v' : R) :
  h <> [] -> descending h -> 0 <= p <= p' -> p' <= 100 -> 1 <= INR (length h) * p / 100 ->
  exceedance_is h p v -> exceedance_is h p' v' -> v' <= v.
Proof.
  intros Hne Hd Hp Hp' H1 HH HH'. unfold exceedance_is in *.
  assert (HN : 0 <= INR (length h)) by apply pos_INR.
  destruct (floor_is_exists (INR (length h) * p / 100)) as (k & Hk); [lra|].
  destruct (floor_is_exists (INR (length h) * p' / 100)) as (k' & Hk'); [nra|].
  rewrite (C11_exceedance_value h p k) in HH by (auto; lra). apply Ok_inj, fin_inj in HH.
  rewrite (C11_exceedance_value h p' k') in HH' by (auto; lra). apply Ok_inj, fin_inj in HH'.
  assert (Hk0 : (0 < k)%nat).
  { destruct k; [|lia]. destruct Hk as [_ Hk]. cbn in Hk. lra. }
  assert (Hkk : (k <= k')%nat).
  { destruct Hk as [Hk _], Hk' as [_ Hk']. assert (INR k < INR (S k')) by (rewrite S_INR; nra).
    apply INR_lt in H. lia. }
  assert (Hkn : (k' <= length h)%nat).
  { apply INR_le. destruct Hk' as [Hk' _]. nra. }
  destruct (Nat.eqb_spec k 0); [lia|]. destruct (Nat.eqb_spec k' 0); [lia|]. subst.
  destruct (Nat.eq_dec k k') as [->|]; [lra|]. apply Hd; lia.
Qed.
Theorem C11_p_out_of_range_rejected (h : list NX) (p : NX) :
  (forall r, p = Fin r -> r < 0 \/ 100 < r) ->
  exceedance_wave_height (Arr (vec h)) p = Raise ValueError.
Proof.
  intros Hp. unfold exceedance_wave_height; cbn [convert_to_array_type].
  destruct (is1darray (vec h)) eqn:Eh; [|reflexivity].
  cbn [negb]. rewrite !as_list_vec, !bind_Ok.
  destruct p as [r| | |].
  - rewrite fin_0, fin_ofZ, !fin_ltb. destruct (Hp r eq_refl).
    + rewrite (Rltb_true r 0) by auto. rewrite orb_true_r. reflexivity.
    + rewrite (Rltb_true 100 r) by auto. reflexivity.
  - reflexivity.
  - reflexivity.
  - cbn [nltb NX xltb n0 n1 nofZ orb].
    destruct (Nat.ltb_spec (length h) 1).
    { destruct h; [discriminate|cbn in *; lia]. }
    destruct (all_eq h _); [|reflexivity]. cbn [negb].
    rewrite fin_ofnat. reflexivity.
Qed.
Theorem C11_unsorted_rejected (h : list R) (p : NX) :
  h <> [] -> ~ descending h -> exceedance_wave_height (Arr (vec (F h))) p = Raise ValueError.
Proof.
  intros Hne Hd. unfold exceedance_wave_height; cbn [convert_to_array_type].
  destruct (is1darray (vec (F h))); [|reflexivity].
  cbn [negb]. rewrite !as_list_vec, !bind_Ok.
  destruct (_ || _)%bool; [reflexivity|]. rewrite F_length.
  destruct (Nat.ltb_spec (length h) 1); [destruct h; [contradiction|cbn in *; lia]|].
  destruct (all_eq (F h) (rev (np_sort (F h)))) eqn:E; [|reflexivity].
  exfalso. apply Hd, sorted_check. exact E.
Qed.
Example C11_witness : descending [3; 2; 1] /\ 0 <= 70 <= 100 /\ 1 <= INR 3 * 70 / 100.
Proof. split; [apply C10_witness|]. cbn. lra. Qed.
