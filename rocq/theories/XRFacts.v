(** * Facts about the ideal-float instance: on finite values it is real arithmetic *)

From Coq Require Import Reals ZArith List Bool Lra Lia.
From Verif Require Import Num XR Spec.
Import ListNotations.
Open Scope R_scope.

Lemma Rltb_spec x y : reflect (x < y) (Rltb x y).
Proof. unfold Rltb; destruct (Rlt_dec x y); constructor; assumption. Qed.
Lemma Rleb_spec x y : reflect (x <= y) (Rleb x y).
Proof. unfold Rleb; destruct (Rle_dec x y); constructor; assumption. Qed.
Lemma Reqb_spec x y : reflect (x = y) (Reqb x y).
Proof. unfold Reqb; destruct (Req_EM_T x y); constructor; assumption. Qed.
Lemma Rltb_true x y : x < y -> Rltb x y = true.
Proof. intros; destruct (Rltb_spec x y); auto. Qed.
Lemma Rltb_false x y : y <= x -> Rltb x y = false.
Proof. intros; destruct (Rltb_spec x y); auto; lra. Qed.
Lemma Rleb_true x y : x <= y -> Rleb x y = true.
Proof. intros; destruct (Rleb_spec x y); auto. Qed.
Lemma Rleb_false x y : y < x -> Rleb x y = false.
Proof. intros; destruct (Rleb_spec x y); auto; lra. Qed.
Lemma Reqb_true x y : x = y -> Reqb x y = true.
Proof. intros; destruct (Reqb_spec x y); auto; contradiction. Qed.
Lemma Reqb_false x y : x <> y -> Reqb x y = false.
Proof. intros; destruct (Reqb_spec x y); auto; contradiction. Qed.

(** Rewriting the model's operations on finite values *)
Lemma fin_add a b : nadd (n:=NX) (Fin a) (Fin b) = Fin (a + b). Proof. reflexivity. Qed.
Lemma fin_sub a b : nsub (n:=NX) (Fin a) (Fin b) = Fin (a - b). Proof. reflexivity. Qed.
Lemma fin_mul a b : nmul (n:=NX) (Fin a) (Fin b) = Fin (a * b). Proof. reflexivity. Qed.
Lemma fin_opp a : nopp (n:=NX) (Fin a) = Fin (- a). Proof. reflexivity. Qed.
Lemma fin_abs a : nabs (n:=NX) (Fin a) = Fin (Rabs a). Proof. reflexivity. Qed.
Lemma fin_div a b : b <> 0 -> ndiv (n:=NX) (Fin a) (Fin b) = Fin (a / b).
Proof. intros H; cbn; destruct (Req_EM_T b 0); [contradiction|reflexivity]. Qed.
Lemma fin_sqrt a : 0 <= a -> nsqrt (n:=NX) (Fin a) = Fin (sqrt a).
Proof. intros H; cbn; destruct (Rlt_dec a 0); [lra|reflexivity]. Qed.
Lemma fin_ltb a b : nltb (n:=NX) (Fin a) (Fin b) = Rltb a b. Proof. reflexivity. Qed.
Lemma fin_leb a b : nleb (n:=NX) (Fin a) (Fin b) = Rleb a b. Proof. reflexivity. Qed.
Lemma fin_eqb a b : neqb (n:=NX) (Fin a) (Fin b) = Reqb a b. Proof. reflexivity. Qed.
Lemma fin_ofZ z : nofZ (n:=NX) z = Fin (IZR z). Proof. reflexivity. Qed.
Lemma fin_0 : n0 (N:=NX) = Fin 0. Proof. reflexivity. Qed.
Lemma fin_1 : n1 (N:=NX) = Fin 1. Proof. reflexivity. Qed.
Lemma fin_nan a : nisnan (n:=NX) (Fin a) = false. Proof. reflexivity. Qed.
Lemma fin_isinf a : nisinf (n:=NX) (Fin a) = false. Proof. reflexivity. Qed.
Lemma fin_ofnat k : nofnat (N:=NX) k = Fin (INR k).
Proof. unfold nofnat. rewrite fin_ofZ, INR_IZR_INZ. reflexivity. Qed.
Lemma fin_lit p q : IZR q <> 0 -> lit (N:=NX) p q = Fin (IZR p / IZR q).
Proof. intros; unfold lit; rewrite !fin_ofZ, fin_div; auto. Qed.
Lemma fin_powN a k : pow_mul (Fin 1) xmul (Fin a) k = Fin (a ^ k).
Proof. induction k; cbn [pow_mul]; [reflexivity|]. rewrite IHk. reflexivity. Qed.
Lemma npowi_F x m : (x <> 0 \/ (0 <= m)%Z) -> npowi (n:=NX) (Fin x) m = Fin (powerRZ x m).
Proof.
  intros H. change (npowi (n:=NX)) with (powZ_mul (Fin 1) xmul xdiv). destruct m as [|p|p]; [reflexivity| |].
  - unfold powZ_mul. rewrite fin_powN. reflexivity.
  - unfold powZ_mul. rewrite fin_powN. destruct H as [H|H]; [|exfalso; lia].
    change (xdiv (Fin 1) (Fin (x ^ Pos.to_nat p))) with (ndiv (n:=NX) (Fin 1) (Fin (x ^ Pos.to_nat p))).
    rewrite fin_div by (apply pow_nonzero; auto). f_equal. cbn. unfold Rdiv. ring.
Qed.
Lemma npowZ_F x m : (x <> 0 \/ (0 <= m)%Z) -> npowZ (N:=NX) (Fin x) m = Fin (powerRZ x m).
Proof.
  intros H. assert (G := npowi_F x m H). destruct m as [|p|p].
  - reflexivity.
  - destruct p as [p|[p|p|]|]; try exact G.
    + unfold npowZ. rewrite fin_mul. f_equal. change (powerRZ x 2) with (x ^ 2). ring.
    + unfold npowZ. f_equal. change (powerRZ x 1) with (x ^ 1). ring.
  - destruct p as [p|p|]; try exact G. unfold npowZ. destruct H as [H|H]; [|exfalso; lia].
    rewrite fin_1, fin_div by exact H. f_equal. change (powerRZ x (-1)) with (/ x ^ 1). field. exact H.
Qed.
Lemma npowZ_3 x : npowZ (N:=NX) (Fin x) 3 = Fin (x ^ 3).
Proof. rewrite npowZ_F by (right; lia). reflexivity. Qed.
Lemma fin_exp a : nexp (n:=NX) (Fin a) = Fin (exp a). Proof. reflexivity. Qed.
Lemma fin_cos a : ncos (n:=NX) (Fin a) = Fin (cos a). Proof. reflexivity. Qed.
Lemma fin_sin a : nsin (n:=NX) (Fin a) = Fin (sin a). Proof. reflexivity. Qed.
Lemma fin_tanh a : ntanh (n:=NX) (Fin a) = Fin (tanh a). Proof. reflexivity. Qed.
Lemma fin_ln a : 0 < a -> nln (n:=NX) (Fin a) = Fin (ln a).
Proof. intros; cbn; destruct (Rlt_dec 0 a); [reflexivity|contradiction]. Qed.
Lemma fin_pow a b : 0 < a -> npow (n:=NX) (Fin a) (Fin b) = Fin (Rpower a b).
Proof.
  intros; cbn; destruct (Req_EM_T b 0) as [->|].
  - rewrite Rpower_O; auto.
  - destruct (Rlt_dec 0 a); [reflexivity|contradiction].
Qed.
Lemma fin_pi : npi (n:=NX) = Fin PI. Proof. reflexivity. Qed.

Lemma fin_inj a b : Fin a = Fin b -> a = b.
Proof. intros H; injection H; auto. Qed.
Lemma F_inj l l' : F l = F l' -> l = l'.
Proof.
  revert l'; induction l as [|a l IH]; intros [|b l'] H; try discriminate; auto.
  injection H; intros; subst; f_equal; auto.
Qed.
Lemma F_length l : length (F l) = length l. Proof. apply map_length. Qed.
Lemma F_nth i l d : nth i (F l) (Fin d) = Fin (nth i l d). Proof. apply map_nth. Qed.
Lemma F_nth_lt i l d : (i < length l)%nat -> nth i (F l) d = Fin (nth i l 0).
Proof. intros; rewrite (nth_indep _ d (Fin 0)) by (rewrite F_length; auto). apply F_nth. Qed.
Lemma F_app l l' : F (l ++ l') = F l ++ F l'. Proof. apply map_app. Qed.
Lemma F_rev l : F (rev l) = rev (F l). Proof. apply map_rev. Qed.
Lemma F_cons a l : F (a :: l) = Fin a :: F l. Proof. reflexivity. Qed.
Lemma F_firstn k l : firstn k (F l) = F (firstn k l). Proof. apply firstn_map. Qed.
Lemma F_skipn k l : skipn k (F l) = F (skipn k l). Proof. apply skipn_map. Qed.
Lemma F_slice i j l : slice i j (F l) = F (slice i j l).
Proof. unfold slice. rewrite F_skipn, F_firstn. reflexivity. Qed.
Lemma F_map (g : R -> R) (g' : xr -> xr) l : (forall r, g' (Fin r) = Fin (g r)) -> map g' (F l) = F (map g l).
Proof. intros H; unfold F; rewrite !map_map; apply map_ext; auto. Qed.
Lemma F_map_in (g : R -> R) (g' : xr -> xr) l :
  (forall r, In r l -> g' (Fin r) = Fin (g r)) -> map g' (F l) = F (map g l).
Proof. intros H; unfold F; rewrite !map_map; apply map_ext_in; auto. Qed.
Lemma idx_F l i : (i < length l)%nat -> idx (F l) i = Ok (Fin (nth i l 0)).
Proof.
  intros H. unfold idx. assert (H' : (i < length (F l))%nat) by (rewrite F_length; auto).
  rewrite (nth_error_nth' (F l) (Fin 0) H'), F_nth. reflexivity.
Qed.

(** sums *)
Lemma nsum_F l : nsum (N:=NX) (F l) = Fin (Rsum l).
Proof.
  induction l; [reflexivity|].
  change (nsum (N:=NX) (F (a :: l))) with (nadd (n:=NX) (Fin a) (nsum (N:=NX) (F l))).
  rewrite IHl. reflexivity.
Qed.
Lemma Rsum_app l l' : Rsum (l ++ l') = Rsum l + Rsum l'.
Proof.
  induction l; cbn [app]; [unfold Rsum; cbn; lra|].
  change (Rsum (a :: l ++ l')) with (a + Rsum (l ++ l')). change (Rsum (a :: l)) with (a + Rsum l).
  rewrite IHl. lra.
Qed.
Lemma Rsum_cons a l : Rsum (a :: l) = a + Rsum l. Proof. reflexivity. Qed.
Lemma INR_pos n : (0 < n)%nat -> 0 < INR n. Proof. apply lt_0_INR. Qed.
Lemma nmean_F l : l <> [] -> nmean (N:=NX) (F l) = Fin (Rmean l).
Proof.
  intros H. unfold nmean. rewrite nsum_F, F_length, fin_ofnat.
  rewrite fin_div; [reflexivity|]. destruct l; [contradiction|]. apply not_0_INR; cbn; lia.
Qed.
Lemma nvar_F l : l <> [] -> nvar (N:=NX) (F l) = Fin (Rvar l).
Proof.
  intros H. unfold nvar. rewrite nmean_F by auto.
  rewrite (F_map (fun x => (x - Rmean l) * (x - Rmean l))) by reflexivity.
  rewrite nmean_F; [reflexivity|]. destruct l; [contradiction|]; discriminate.
Qed.

(** real differences *)
Fixpoint Rdiff (l : list R) : list R :=
  match l with
  | x :: ((y :: _) as l') => (y - x) :: Rdiff l'
  | _ => []
  end.
Lemma ndiff_F l : ndiff (N:=NX) (F l) = F (Rdiff l).
Proof.
  induction l as [|x [|y l] IH]; try reflexivity.
  change (ndiff (N:=NX) (F (x :: y :: l))) with (Fin (y - x) :: ndiff (N:=NX) (F (y :: l))).
  rewrite IH. reflexivity.
Qed.
Lemma Rdiff_length l : length (Rdiff l) = (length l - 1)%nat.
Proof.
  induction l as [|x [|y l] IH]; try reflexivity.
  change (Rdiff (x :: y :: l)) with ((y - x) :: Rdiff (y :: l)). cbn [length] in *. rewrite IH. lia.
Qed.
Lemma Rdiff_nth l i : (S i < length l)%nat -> nth i (Rdiff l) 0 = nth (S i) l 0 - nth i l 0.
Proof.
  revert i; induction l as [|x [|y l] IH]; intros i H; cbn [length] in H; try lia.
  change (Rdiff (x :: y :: l)) with ((y - x) :: Rdiff (y :: l)).
  destruct i; [reflexivity|]. cbn [nth]. rewrite IH by (cbn [length]; lia). reflexivity.
Qed.

(** generic facts on the exception monad *)
Lemma bind_Ok {A B} (a : A) (k : A -> res B) : bind (Ok a) k = k a. Proof. reflexivity. Qed.
Lemma bind_Raise {A B} e (k : A -> res B) : bind (Raise e) k = Raise e. Proof. reflexivity. Qed.
Lemma Ok_inj {A} (a b : A) : Ok a = Ok b -> a = b. Proof. congruence. Qed.
Lemma bind_inv {A B} (m : res A) (k : A -> res B) b :
  bind m k = Ok b -> exists a, m = Ok a /\ k a = Ok b.
Proof. destruct m; cbn; intros H; [eauto|discriminate]. Qed.
Lemma mapM_Ok {A B} (k : A -> res B) (g : A -> B) l :
  (forall a, In a l -> k a = Ok (g a)) -> mapM k l = Ok (map g l).
Proof.
  induction l as [|a l IH]; intros H; [reflexivity|]. cbn.
  rewrite H by (left; auto). cbn. rewrite IH by (intros; apply H; right; auto). reflexivity.
Qed.
Lemma mapM_length {A B} (k : A -> res B) l l' : mapM k l = Ok l' -> length l' = length l.
Proof.
  revert l'; induction l as [|a l IH]; intros l' H; cbn in H.
  - injection H; intros <-; reflexivity.
  - apply bind_inv in H as (b & _ & H). apply bind_inv in H as (bs & Hb & H).
    injection H; intros <-; cbn; f_equal; auto.
Qed.
Lemma idx_nth {A} (l : list A) i d : (i < length l)%nat -> idx l i = Ok (nth i l d).
Proof. intros H; unfold idx. rewrite (nth_error_nth' l d H). reflexivity. Qed.
Lemma idx_inv {A} (l : list A) i x d : idx l i = Ok x -> (i < length l)%nat /\ x = nth i l d.
Proof.
  unfold idx; destruct (nth_error l i) eqn:E; intros H; [|discriminate].
  injection H; intros ->. split; [apply nth_error_Some; congruence|].
  symmetry; apply nth_error_nth; auto.
Qed.
Lemma idx_last_nth {A} (l : list A) d : l <> [] -> idx_last l = Ok (nth (length l - 1) l d).
Proof.
  intros H. unfold idx_last. destruct (exists_last H) as (l' & a & ->).
  rewrite rev_app_distr. cbn. rewrite app_length. cbn.
  rewrite app_nth2 by lia. replace (length l' + 1 - 1 - length l')%nat with 0%nat by lia. reflexivity.
Qed.
Lemma idx_last_inv {A} (l : list A) x d : idx_last l = Ok x -> l <> [] /\ x = nth (length l - 1) l d.
Proof.
  intros H. assert (l <> []) by (intros ->; discriminate). split; auto.
  rewrite (idx_last_nth l d) in H by auto. congruence.
Qed.

(** where_ : positions of the entries satisfying a predicate *)
Lemma where_from_In {A} (p : A -> bool) l k i d :
  In i (where_from k p l) <-> (k <= i)%nat /\ (i < k + length l)%nat /\ p (nth (i - k) l d) = true.
Proof.
  revert k; induction l as [|x l IH]; intros k; cbn.
  - split; [tauto|lia].
  - destruct (p x) eqn:Hp; cbn; rewrite IH; split.
    + intros [<-|(H1 & H2 & H3)].
      * rewrite Nat.sub_diag. repeat split; auto; lia.
      * repeat split; try lia. destruct (i - k)%nat as [|m] eqn:E; [lia|].
        replace (i - S k)%nat with m in H3 by lia. auto.
    + intros (H1 & H2 & H3). destruct (Nat.eq_dec i k); [left; auto|right].
      repeat split; try lia. destruct (i - k)%nat as [|m] eqn:E; [lia|].
      replace (i - S k)%nat with m by lia. auto.
    + intros (H1 & H2 & H3). repeat split; try lia. destruct (i - k)%nat as [|m] eqn:E; [lia|].
      replace (i - S k)%nat with m in H3 by lia. auto.
    + intros (H1 & H2 & H3). destruct (i - k)%nat as [|m] eqn:E.
      * congruence.
      * repeat split; try lia. replace (i - S k)%nat with m by lia. auto.
Qed.
Lemma where_In {A} (p : A -> bool) l i d :
  In i (where_ p l) <-> (i < length l)%nat /\ p (nth i l d) = true.
Proof. unfold where_. rewrite (where_from_In _ _ _ _ d), Nat.sub_0_r. cbn. intuition lia. Qed.
Definition ascending_nat (l : list nat) : Prop := forall i j, (i < j < length l)%nat -> (nth i l 0 < nth j l 0)%nat.
Lemma where_from_asc {A} (p : A -> bool) l k : ascending_nat (where_from k p l).
Proof.
  revert k; induction l as [|x l IH]; intros k i j H; cbn in *; [lia|].
  destruct (p x); cbn in H; [|apply IH; auto].
  destruct j; [lia|]. cbn [nth]. destruct i.
  - cbn. assert (Hin : In (nth j (where_from (S k) p l) 0%nat) (where_from (S k) p l)) by (apply nth_In; lia).
    apply (where_from_In _ _ _ _ x) in Hin. lia.
  - apply IH; lia.
Qed.
Lemma where_asc {A} (p : A -> bool) l : ascending_nat (where_ p l).
Proof. apply where_from_asc. Qed.
(** first and last position *)
Lemma where_first {A} (p : A -> bool) l d :
  (exists i, (i < length l)%nat /\ p (nth i l d) = true) ->
  exists i, idx (where_ p l) 0 = Ok i /\ (i < length l)%nat /\ p (nth i l d) = true
            /\ forall j, (j < i)%nat -> p (nth j l d) = false.
Proof.
  intros (i0 & H1 & H2).
  assert (Hin : In i0 (where_ p l)) by (apply (where_In _ _ _ d); auto).
  destruct (where_ p l) as [|i w] eqn:E; [contradiction|].
  exists i. split; [reflexivity|].
  assert (Hi : In i (where_ p l)) by (rewrite E; left; auto).
  apply (where_In _ _ _ d) in Hi as (Hi1 & Hi2). repeat split; auto.
  intros j Hj. destruct (p (nth j l d)) eqn:Hp; auto.
  assert (Hjin : In j (where_ p l)) by (apply (where_In _ _ _ d); split; [lia|auto]).
  rewrite E in Hjin. destruct Hjin as [<-|Hjin]; [lia|].
  apply (In_nth _ _ 0%nat) in Hjin as (m & Hm & Hnm).
  assert (Ha := where_asc p l). rewrite E in Ha. specialize (Ha 0%nat (S m)). cbn in Ha. rewrite Hnm in Ha. lia.
Qed.
Lemma where_last {A} (p : A -> bool) l d :
  (exists i, (i < length l)%nat /\ p (nth i l d) = true) ->
  exists i, idx_last (where_ p l) = Ok i /\ (i < length l)%nat /\ p (nth i l d) = true
            /\ forall j, (i < j < length l)%nat -> p (nth j l d) = false.
Proof.
  intros (i0 & H1 & H2).
  assert (Hin : In i0 (where_ p l)) by (apply (where_In _ _ _ d); auto).
  assert (Hne : where_ p l <> []) by (intros E; rewrite E in Hin; contradiction).
  rewrite (idx_last_nth _ 0%nat Hne). eexists; split; [reflexivity|].
  assert (Hl : (0 < length (where_ p l))%nat) by (destruct (where_ p l); [congruence|cbn; lia]).
  assert (Hi : In (nth (length (where_ p l) - 1) (where_ p l) 0%nat) (where_ p l)) by (apply nth_In; lia).
  apply (where_In _ _ _ d) in Hi as (Hi1 & Hi2). repeat split; auto.
  intros j Hj. destruct (p (nth j l d)) eqn:Hp; auto.
  assert (Hjin : In j (where_ p l)) by (apply (where_In _ _ _ d); split; [lia|auto]).
  apply (In_nth _ _ 0%nat) in Hjin as (m & Hm & Hnm).
  destruct (Nat.eq_dec m (length (where_ p l) - 1)) as [->|]; [lia|].
  assert (Ha := where_asc p l m (length (where_ p l) - 1)%nat). lia.
Qed.
Lemma where_none {A} (p : A -> bool) l d :
  (forall i, (i < length l)%nat -> p (nth i l d) = false) -> where_ p l = [].
Proof.
  intros H. destruct (where_ p l) as [|i w] eqn:E; auto.
  assert (Hi : In i (where_ p l)) by (rewrite E; left; auto).
  apply (where_In _ _ _ d) in Hi as (Hi1 & Hi2). rewrite H in Hi2; [discriminate|auto].
Qed.

(** slices *)
Lemma slice_length {A} i j (l : list A) : length (slice i j l) = (Nat.min j (length l) - i)%nat.
Proof. unfold slice. rewrite firstn_length, skipn_length. lia. Qed.
Lemma slice_nth {A} i j (l : list A) k d : (k < j - i)%nat -> nth k (slice i j l) d = nth (i + k) l d.
Proof.
  unfold slice; intros H.
  revert l k H; induction i; intros l k H.
  - cbn [skipn Nat.add]. replace (j - 0)%nat with j in * by lia.
    revert l k H; induction j; intros l k H; [lia|].
    destruct l, k; cbn; auto. apply IHj. lia.
  - destruct l; cbn [skipn].
    + rewrite firstn_nil. destruct k; reflexivity.
    + cbn [Nat.add nth]. replace (j - S i)%nat with ((j - 1) - i)%nat in * by lia.
      revert IHi. intros _. 
      clear -H. revert l k H. generalize (j - 1)%nat as m. induction i; intros m l k H.
      * cbn [skipn Nat.add]. replace (m - 0)%nat with m in * by lia.
        revert l k H; induction m; intros l k H; [lia|]. destruct l, k; cbn; auto. apply IHm; lia.
      * destruct l; cbn [skipn]; [rewrite firstn_nil; destruct k; reflexivity|].
        cbn [Nat.add nth]. replace (m - S i)%nat with ((m - 1) - i)%nat in * by lia. apply IHi; auto.
Qed.
Lemma slice_all {A} (l : list A) n : (length l <= n)%nat -> slice 0 n l = l.
Proof. intros; unfold slice; cbn; rewrite Nat.sub_0_r. apply firstn_all2; auto. Qed.

Lemma firstn_nth {A} k (l : list A) i d : (i < k)%nat -> nth i (firstn k l) d = nth i l d.
Proof.
  intros H. assert (E := slice_nth 0 k l i d ltac:(lia)). unfold slice in E. cbn [skipn Nat.add] in E.
  rewrite Nat.sub_0_r in E. exact E.
Qed.
Lemma skipn_nth {A} k (l : list A) i d : nth i (skipn k l) d = nth (k + i) l d.
Proof.
  revert l; induction k; intros l; [reflexivity|]. destruct l; [destruct i; reflexivity|]. cbn. apply IHk.
Qed.
Lemma firstn_slice {A} k k' (l : list A) : (k <= k')%nat -> firstn k l ++ slice k k' l = firstn k' l.
Proof.
  intros H. unfold slice. assert (exists d, k' = k + d)%nat as (d & ->) by (exists (k' - k)%nat; lia).
  replace (k + d - k)%nat with d by lia. clear H. revert l; induction k; intros l; [reflexivity|].
  destruct l; [destruct d; reflexivity|]. cbn [firstn app skipn Nat.add]. f_equal. apply IHk.
Qed.

(** map2 *)
Lemma map2_length {A B C} (op : A -> B -> C) l l' : length (map2 op l l') = Nat.min (length l) (length l').
Proof. revert l'; induction l; intros [|b l']; cbn; auto. Qed.
Lemma map2_nth {A B C} (op : A -> B -> C) l l' i a b c :
  (i < length l)%nat -> (i < length l')%nat -> nth i (map2 op l l') c = op (nth i l a) (nth i l' b).
Proof. revert l' i; induction l; intros [|b' l'] i H H'; cbn in *; try lia. destruct i; auto. apply IHl; lia. Qed.
Lemma map2_F (op : R -> R -> R) (op' : xr -> xr -> xr) l l' :
  (forall a b, op' (Fin a) (Fin b) = Fin (op a b)) -> map2 op' (F l) (F l') = F (map2 op l l').
Proof. intros H; revert l'; induction l; intros [|b l']; cbn; auto. rewrite H. f_equal. apply IHl. Qed.

(** list extensionality by nth *)
Lemma nth_ext' {A} (l l' : list A) d : length l = length l' ->
  (forall i, (i < length l)%nat -> nth i l d = nth i l' d) -> l = l'.
Proof. intros; apply (nth_ext _ _ d d); auto. Qed.

(** Rfloor *)
Lemma Rfloor_spec r : IZR (Rfloor r) <= r < IZR (Rfloor r) + 1.
Proof. unfold Rfloor. destruct (base_Int_part r). lra. Qed.
Lemma Rfloor_unique r z : IZR z <= r < IZR z + 1 -> Rfloor r = z.
Proof.
  intros H. destruct (Rfloor_spec r).
  assert (IZR (Rfloor r) < IZR (z + 1)) by (rewrite plus_IZR; lra).
  assert (IZR z < IZR (Rfloor r + 1)) by (rewrite plus_IZR; lra).
  apply lt_IZR in H2. apply lt_IZR in H3. lia.
Qed.
Lemma floor_is_Rfloor r k : 0 <= r -> floor_is r k <-> Rfloor r = Z.of_nat k.
Proof.
  unfold floor_is. rewrite INR_IZR_INZ. split.
  - intros; apply Rfloor_unique; auto.
  - intros E. assert (H1 := Rfloor_spec r). rewrite E in H1. auto.
Qed.
Lemma floor_is_exists r : 0 <= r -> exists k, floor_is r k.
Proof.
  intros H. exists (Z.to_nat (Rfloor r)). apply floor_is_Rfloor; auto.
  destruct (Rfloor_spec r). assert (IZR (-1) < IZR (Rfloor r)) by lra. apply lt_IZR in H2. lia.
Qed.
Lemma floor_is_unique r k k' : floor_is r k -> floor_is r k' -> k = k'.
Proof.
  unfold floor_is; intros. assert (INR k < INR (k' + 1)) by (rewrite plus_INR; cbn; lra).
  assert (INR k' < INR (k + 1)) by (rewrite plus_INR; cbn; lra).
  apply INR_lt in H1. apply INR_lt in H2. lia.
Qed.

(** axis *)
Lemma axis_length t0 dt n : length (axis t0 dt n) = n.
Proof. unfold axis. rewrite map_length, seq_length. reflexivity. Qed.
Lemma map_seq_nth {A} (g : nat -> A) n k d : (k < n)%nat -> nth k (map g (seq 0 n)) d = g k.
Proof.
  intros. rewrite (nth_indep _ d (g 0%nat)) by (rewrite map_length, seq_length; auto).
  rewrite (map_nth g), seq_nth; auto.
Qed.
Lemma axis_nth t0 dt n k : (k < n)%nat -> nth k (axis t0 dt n) 0 = t0 + INR k * dt.
Proof. intros. unfold axis. rewrite map_seq_nth; auto. Qed.
Lemma axis_increasing t0 dt n : 0 < dt -> increasing (axis t0 dt n).
Proof.
  intros Hdt i j H. rewrite axis_length in H. rewrite !axis_nth by lia.
  assert (INR i < INR j) by (apply lt_INR; lia). nra.
Qed.
