(** * Facts about the memory model of HeapModel.v (helper lemmas for HeapProps.v and HeapObj.v) *)

From Coq Require Import ZArith String List Bool Arith Lia.
From Verif Require Import Num Engine Cpx TimeModel SpectralModel WaveModel DisperModel DecompModel
  SpectrumModel SeriesModel HeapModel.
Import ListNotations.

Section HeapFacts.
  Context {N : Num}.
  Local Notation cpx := (cpx N).
  Local Notation mem := (mem N).

  (** m with new buffers behind the old ones *)
  Definition grow (m : mem) (er : list (list N)) (ec : list (list cpx)) : mem :=
    mkMem (mR m ++ er) (mC m ++ ec).
  Definition ext (m m' : mem) : Prop := exists er ec, m' = grow m er ec.

  Lemma grow_nil m : grow m [] [] = m.
  Proof. unfold grow. rewrite !app_nil_r. now destruct m. Qed.
  Lemma grow_grow m a b c d : grow (grow m a b) c d = grow m (a ++ c) (b ++ d).
  Proof. unfold grow. cbn. now rewrite !app_assoc. Qed.
  Lemma ext_refl m : ext m m.
  Proof. exists [], []. now rewrite grow_nil. Qed.
  Lemma ext_grow m er ec : ext m (grow m er ec).
  Proof. now exists er, ec. Qed.
  Lemma ext_trans m1 m2 m3 : ext m1 m2 -> ext m2 m3 -> ext m1 m3.
  Proof.
    intros (a & b & ->) (c & d & ->). rewrite grow_grow. apply ext_grow.
  Qed.
  Lemma ext_len {A} (d : dtype N A) m m' : ext m m' -> length (bufs d m) <= length (bufs d m').
  Proof. intros (a & b & ->). destruct d; cbn; rewrite app_length; lia. Qed.

  (** the parts of a reference that must hold for it to be an array of the caller *)
  Definition prod (sh : list nat) : nat := fold_right Nat.mul 1 sh.
  Definition ref_ok {A} (d : dtype N A) (m : mem) (r : ref) : Prop :=
    r_buf r < length (bufs d m) /\ length (r_idx r) = prod (r_shape r).
  Definition arg_ok {A} (d : dtype N A) (m : mem) (p : pyarg A) : Prop :=
    match p with
    | PScalar _ => True
    | PList a => wf_arr a
    | PArr r => ref_ok d m r
    end.

  Lemma read_ext {A} (d : dtype N A) m m' r :
    ext m m' -> r_buf r < length (bufs d m) -> read d m' r = read d m r.
  Proof.
    intros (a & b & ->) Hr. unfold read.
    apply map_ext. intro i. f_equal.
    destruct d; cbn in *; now rewrite app_nth1 by exact Hr.
  Qed.
  Lemma ref_ok_ext {A} (d : dtype N A) m m' r : ext m m' -> ref_ok d m r -> ref_ok d m' r.
  Proof. intros E (H1 & H2). split; [|exact H2]. pose proof (ext_len d _ _ E). lia. Qed.
  Lemma arg_ok_ext {A} (d : dtype N A) m m' p : ext m m' -> arg_ok d m p -> arg_ok d m' p.
  Proof. intros E. destruct p; cbn; auto. now apply ref_ok_ext. Qed.
  Lemma argval_ext {A} (d : dtype N A) m m' p : ext m m' -> arg_ok d m p -> argval d m' p = argval d m p.
  Proof.
    intros E. destruct p; cbn; auto. intros (H & _). now rewrite (read_ext d m m' r E H).
  Qed.
  Lemma read_length {A} (d : dtype N A) m r : length (read d m r) = length (r_idx r).
  Proof. unfold read. now rewrite map_length. Qed.

  (** *** outcome of a computation: memory only grown (from [m0]), and the outcome related to a value *)
  Definition delivers {A B} (m0 m : mem) (p : hp N A) (rel : mem -> A -> B -> Prop) (r : res B) : Prop :=
    let (m', o) := p m in
    ext m0 m' /\ match o, r with
                 | Ok a, Ok b => rel m' a b
                 | Raise e, Raise e' => e = e'
                 | _, _ => False
                 end.

  Lemma dv_base {A B} m0 m1 m (p : hp N A) (rel : mem -> A -> B -> Prop) r :
    ext m0 m1 -> delivers m1 m p rel r -> delivers m0 m p rel r.
  Proof.
    unfold delivers. destruct (p m) as [m' o]. intros E (E' & H). split; [|exact H].
    now apply ext_trans with m1.
  Qed.
  Lemma dv_weaken {A B} m0 m (p : hp N A) (rel rel' : mem -> A -> B -> Prop) r :
    (forall m' a b, ext m0 m' -> rel m' a b -> rel' m' a b) ->
    delivers m0 m p rel r -> delivers m0 m p rel' r.
  Proof.
    unfold delivers. destruct (p m) as [m' o]. intros H (E & K). split; [exact E|].
    destruct o, r; auto.
  Qed.
  Lemma dv_bind {A B C D} m0 m (p : hp N A) (k : A -> hp N C) rel rel' (r : res B) (k' : B -> res D) :
    delivers m0 m p rel r ->
    (forall m' a b, ext m0 m' -> rel m' a b -> r = Ok b -> delivers m0 m' (k a) rel' (k' b)) ->
    delivers m0 m (hbind p k) rel' (bind r k').
  Proof.
    unfold delivers, hbind. destruct (p m) as [m' o]. intros (E & H) K.
    destruct o as [a|e], r as [b|e']; cbn; try contradiction.
    - now apply K.
    - now split.
  Qed.
  Lemma dv_call {A B C D} m0 m (p : hp N A) (k : A -> hp N C) rel rel' (r : res B) (k' : B -> res D) :
    ext m0 m ->
    delivers m m p rel r ->
    (forall m' a b, ext m m' -> rel m' a b -> r = Ok b -> delivers m0 m' (k a) rel' (k' b)) ->
    delivers m0 m (hbind p k) rel' (bind r k').
  Proof.
    unfold delivers, hbind. destruct (p m) as [m' o]. intros E0 (E & H) K.
    destruct o as [a|e], r as [b|e']; cbn; try contradiction.
    - now apply K.
    - split; [now apply ext_trans with m|assumption].
  Qed.
  Lemma dv_call_ok {A B C D} m0 m (p : hp N A) (k : A -> hp N C) (rel : mem -> A -> B -> Prop) (rel' : mem -> C -> D -> Prop) b r :
    delivers m m p rel (Ok b) ->
    (forall m' a, ext m m' -> rel m' a b -> delivers m0 m' (k a) rel' r) ->
    delivers m0 m (hbind p k) rel' r.
  Proof.
    unfold delivers, hbind. destruct (p m) as [m' o]. intros (E & H) K.
    destruct o as [a|e]; [|contradiction]. now apply K.
  Qed.
  Lemma dv_lift {A C D} m0 m (r : res A) (k : A -> hp N C) rel' (k' : A -> res D) :
    ext m0 m ->
    (forall a, r = Ok a -> delivers m0 m (k a) rel' (k' a)) ->
    delivers m0 m (hbind (hlift r) k) rel' (bind r k').
  Proof.
    intros E K. destruct r as [a|e]; cbn.
    - now apply K.
    - unfold delivers, hbind. cbn. now split.
  Qed.
  Lemma dv_ret {A B} m0 m (a : A) (b : B) (rel : mem -> A -> B -> Prop) :
    ext m0 m -> rel m a b -> delivers m0 m (hret a) rel (Ok b).
  Proof. intros E H. unfold delivers. cbn. now split. Qed.
  Lemma dv_raise {A B} m0 m e (rel : mem -> A -> B -> Prop) :
    ext m0 m -> delivers m0 m (hlift (Raise e)) rel (Raise e).
  Proof. intros E. unfold delivers. cbn. now split. Qed.
  (** a step that keeps memory and gives a known value *)
  Lemma dv_step {A C D} m0 m m1 (p : hp N A) a (k : A -> hp N C) rel (r : res D) :
    p m = (m1, Ok a) -> delivers m0 m1 (k a) rel r -> delivers m0 m (hbind p k) rel r.
  Proof. unfold delivers, hbind. intros ->. auto. Qed.
  Lemma dv_eq {A B} m0 m m' (p : hp N A) a (b : B) (rel : mem -> A -> B -> Prop) :
    p m = (m', Ok a) -> ext m0 m' -> rel m' a b -> delivers m0 m p rel (Ok b).
  Proof. unfold delivers. intros ->. auto. Qed.
  Lemma dv_eq_raise {A B} m0 m m' (p : hp N A) e (rel : mem -> A -> B -> Prop) :
    p m = (m', Raise e) -> ext m0 m' -> delivers m0 m p rel (Raise e).
  Proof. unfold delivers. intros ->. auto. Qed.

  Lemma dv_step_raise {A C D} m0 m m1 (p : hp N A) e (k : A -> hp N C) (rel : mem -> C -> D -> Prop) :
    p m = (m1, Raise e) -> ext m0 m1 -> delivers m0 m (hbind p k) rel (Raise e).
  Proof. unfold delivers, hbind. intros ->. auto. Qed.

  (** reading *)
  Lemma hlist_run {A} (d : dtype N A) m r l :
    as_list (mkArr (r_shape r) (read d m r)) = Ok l -> hlist d r m = (m, Ok l).
  Proof. unfold hlist. now intros ->. Qed.
  Lemma dv_list {A C D} (d : dtype N A) m0 m r v (k : list A -> hp N C) rel (k' : list A -> res D) :
    ext m0 m -> mkArr (r_shape r) (read d m r) = v ->
    (forall l, as_list v = Ok l -> delivers m0 m (k l) rel (k' l)) ->
    delivers m0 m (hbind (hlist d r) k) rel (bind (as_list v) k').
  Proof.
    intros E <- H. unfold hlist.
    destruct (as_list (mkArr (r_shape r) (read d m r))) as [l|e] eqn:Q; cbn [bind].
    - specialize (H l eq_refl). unfold delivers, hbind in *. rewrite Q. exact H.
    - unfold delivers, hbind. rewrite Q. now split.
  Qed.

  (** *** new arrays on top of a memory *)
  (** the k-th new buffer as a 1-D array of n elements *)
  Definition fresh_at {A} (d : dtype N A) (m : mem) (k n : nat) : ref :=
    mkRef (length (bufs d m) + k) (seq 0 n) [n].

  Lemma map_nth_seq {A} (l : list A) (dflt : A) : map (fun i => nth i l dflt) (seq 0 (length l)) = l.
  Proof.
    apply nth_ext with (d := dflt) (d' := dflt).
    - now rewrite map_length, seq_length.
    - intros i Hi. rewrite map_length, seq_length in Hi.
      rewrite (nth_indep _ dflt (nth 0 l dflt)) by (now rewrite map_length, seq_length).
      rewrite (map_nth (fun i => nth i l dflt)), seq_nth by exact Hi. reflexivity.
  Qed.

  Lemma read_fresh_R m er ec k n :
    k < length er -> length (nth k er []) = n -> read Real (grow m er ec) (fresh_at Real m k n) = nth k er [].
  Proof.
    intros Hk Hn. unfold read, fresh_at. cbn [r_buf r_idx bufs mR grow].
    rewrite app_nth2 by lia. replace (length (mR m) + k - length (mR m)) with k by lia.
    rewrite <- Hn. apply map_nth_seq.
  Qed.
  Lemma read_fresh_C m er ec k n :
    k < length ec -> length (nth k ec []) = n -> read Complex (grow m er ec) (fresh_at Complex m k n) = nth k ec [].
  Proof.
    intros Hk Hn. unfold read, fresh_at. cbn [r_buf r_idx bufs mC grow].
    rewrite app_nth2 by lia. replace (length (mC m) + k - length (mC m)) with k by lia.
    rewrite <- Hn. apply map_nth_seq.
  Qed.

  Lemma hvec_R m er ec l :
    hvec Real l (grow m er ec) = (grow m (er ++ [l]) ec, Ok (fresh_at Real m (length er) (length l))).
  Proof.
    unfold hvec, hnew, fresh_at, grow. cbn. now rewrite app_length, app_assoc.
  Qed.
  Lemma hvec_C m er ec l :
    hvec Complex l (grow m er ec) = (grow m er (ec ++ [l]), Ok (fresh_at Complex m (length ec) (length l))).
  Proof.
    unfold hvec, hnew, fresh_at, grow. cbn. now rewrite app_length, app_assoc.
  Qed.

  Lemma upd_length {A} i (v : A) l : length (upd i v l) = length l.
  Proof. revert i. induction l as [|x l IH]; intros [|i]; cbn; auto. Qed.
  Lemma upd_nth {A} i j (v d : A) l : i < length l -> nth j (upd i v l) d = if Nat.eqb i j then v else nth j l d.
  Proof.
    revert i j. induction l as [|x l IH]; intros i j H; [cbn in H; lia|].
    destruct i as [|i], j as [|j]; cbn; auto. cbn in H. apply IH. lia.
  Qed.
  Lemma upd_app2 {A} k (v : A) l l' : upd (length l + k) v (l ++ l') = l ++ upd k v l'.
  Proof. induction l as [|x l IH]; cbn; [reflexivity|]. now rewrite IH. Qed.
  Lemma upd_head {A} (a : list A) x v b : upd (length a) v (a ++ x :: b) = a ++ v :: b.
  Proof. induction a as [|y a IH]; cbn; [reflexivity|]. now rewrite IH. Qed.

  Lemma hstore_R m er ec k n i v :
    i < n ->
    hstore Real (fresh_at Real m k n) i v (grow m er ec) = (grow m (upd k (upd i v (nth k er [])) er) ec, Ok tt).
  Proof.
    intros Hi. unfold hstore, fresh_at. cbn [r_buf r_idx].
    assert (Q : nth_error (seq 0 n) i = Some i).
    { rewrite (nth_error_nth' _ 0) by (now rewrite seq_length). now rewrite seq_nth by exact Hi. }
    rewrite Q. unfold poke. cbn [bufs set_bufs mR mC grow]. unfold grow.
    rewrite app_nth2 by lia. replace (length (mR m) + k - length (mR m)) with k by lia.
    now rewrite upd_app2.
  Qed.
  Lemma hstore_C m er ec k n i v :
    i < n ->
    hstore Complex (fresh_at Complex m k n) i v (grow m er ec) = (grow m er (upd k (upd i v (nth k ec [])) ec), Ok tt).
  Proof.
    intros Hi. unfold hstore, fresh_at. cbn [r_buf r_idx].
    assert (Q : nth_error (seq 0 n) i = Some i).
    { rewrite (nth_error_nth' _ 0) by (now rewrite seq_length). now rewrite seq_nth by exact Hi. }
    rewrite Q. unfold poke. cbn [bufs set_bufs mR mC grow]. unfold grow.
    rewrite app_nth2 by lia. replace (length (mC m) + k - length (mC m)) with k by lia.
    now rewrite upd_app2.
  Qed.

  (** several elements *)
  Fixpoint upds {A} (ivs : list (nat * A)) (l : list A) : list A :=
    match ivs with
    | [] => l
    | (i, v) :: ivs' => upds ivs' (upd i v l)
    end.
  Lemma upds_length {A} (ivs : list (nat * A)) l : length (upds ivs l) = length l.
  Proof. revert l. induction ivs as [|[i v] ivs IH]; intro l; cbn; [reflexivity|]. now rewrite IH, upd_length. Qed.
  Lemma upd_same {A} k (l : list (list A)) : upd k (nth k l []) l = l.
  Proof. revert k. induction l as [|x l IH]; intros [|k]; cbn; auto. now rewrite IH. Qed.
  Lemma upd_upd {A} k (a b : A) l : upd k b (upd k a l) = upd k b l.
  Proof. revert k. induction l as [|x l IH]; intros [|k]; cbn; auto. now rewrite IH. Qed.
  Lemma hstores_R m ec k n ivs : forall er,
    k < length er -> Forall (fun iv => fst iv < n) ivs ->
    hstores Real (fresh_at Real m k n) ivs (grow m er ec) = (grow m (upd k (upds ivs (nth k er [])) er) ec, Ok tt).
  Proof.
    induction ivs as [|[i v] ivs IH]; intros er Hk H.
    - cbn. now rewrite upd_same.
    - inversion H as [|? ? Hi Hr]; subst. cbn [hstores]. unfold hbind.
      rewrite hstore_R by exact Hi. rewrite IH by (rewrite ?upd_length; assumption).
      f_equal. f_equal. rewrite upd_nth by exact Hk. rewrite Nat.eqb_refl. cbn [upds]. now rewrite upd_upd.
  Qed.
  Lemma hstores_C m er k n ivs : forall ec,
    k < length ec -> Forall (fun iv => fst iv < n) ivs ->
    hstores Complex (fresh_at Complex m k n) ivs (grow m er ec) = (grow m er (upd k (upds ivs (nth k ec [])) ec), Ok tt).
  Proof.
    induction ivs as [|[i v] ivs IH]; intros ec Hk H.
    - cbn. now rewrite upd_same.
    - inversion H as [|? ? Hi Hr]; subst. cbn [hstores]. unfold hbind.
      rewrite hstore_C by exact Hi. rewrite IH by (rewrite ?upd_length; assumption).
      f_equal. f_equal. rewrite upd_nth by exact Hk. rewrite Nat.eqb_refl. cbn [upds]. now rewrite upd_upd.
  Qed.

  (** what a batch of assignments leaves at a position *)
  Lemma upds_other {A} (ivs : list (nat * A)) (d : A) j : forall l,
    Forall (fun iv => fst iv < length l) ivs ->
    ~ In j (map fst ivs) -> nth j (upds ivs l) d = nth j l d.
  Proof.
    induction ivs as [|[i v] ivs IH]; intros l H Hj; cbn; [reflexivity|].
    inversion H as [|? ? Hi Hr]; subst. cbn in Hi, Hj.
    rewrite IH.
    - rewrite upd_nth by exact Hi. destruct (Nat.eqb_spec i j); [exfalso; auto|reflexivity].
    - eapply Forall_impl; [|exact Hr]. intros iv. now rewrite upd_length.
    - auto.
  Qed.
  Lemma upds_at {A} (ivs : list (nat * A)) (d : A) i v : forall l,
    Forall (fun iv => fst iv < length l) ivs -> NoDup (map fst ivs) ->
    In (i, v) ivs -> nth i (upds ivs l) d = v.
  Proof.
    induction ivs as [|[i0 v0] ivs IH]; intros l H ND Hin; [destruct Hin|].
    inversion H as [|? ? Hi Hr]; subst. cbn in Hi. cbn [map fst] in ND. inversion ND as [|? ? Hn ND']; subst.
    assert (Hr' : Forall (fun iv => fst iv < length (upd i0 v0 l)) ivs)
      by (eapply Forall_impl; [|exact Hr]; intros iv; now rewrite upd_length).
    cbn. destruct Hin as [E|Hin].
    - inversion E; subst. rewrite upds_other; [|exact Hr'|exact Hn].
      rewrite upd_nth by exact Hi. now rewrite Nat.eqb_refl.
    - now apply IH.
  Qed.

  (** *** loops *)
  Lemma hfor_ok (St : nat -> mem) (body : nat -> hp N unit) lo n :
    (forall k, lo <= k < lo + n -> body k (St k) = (St (S k), Ok tt)) ->
    hfor (seq lo n) body (St lo) = (St (lo + n), Ok tt).
  Proof.
    revert lo. induction n as [|n IH]; intros lo H; cbn.
    - now rewrite Nat.add_0_r.
    - unfold hbind. rewrite (H lo) by lia. rewrite IH by (intros k Hk; apply H; lia).
      f_equal. f_equal. lia.
  Qed.
  (** a loop whose k-th pass produces g k, or fails with it *)
  Lemma hfor_mapM {B} (m0 : mem) (g : nat -> res B) (St : list B -> mem) (body : nat -> hp N unit) :
    forall n lo acc,
    (forall k bs, lo <= k < lo + n -> length bs = length acc + (k - lo) ->
       match g k with
       | Ok b => body k (St bs) = (St (bs ++ [b]), Ok tt)
       | Raise e => exists m', body k (St bs) = (m', Raise e) /\ ext m0 m'
       end) ->
    match mapM g (seq lo n) with
    | Ok bs => hfor (seq lo n) body (St acc) = (St (acc ++ bs), Ok tt)
    | Raise e => exists m', hfor (seq lo n) body (St acc) = (m', Raise e) /\ ext m0 m'
    end.
  Proof.
    induction n as [|n IH]; intros lo acc H; cbn.
    - now rewrite app_nil_r.
    - pose proof (H lo acc ltac:(lia) ltac:(lia)) as H0. unfold hbind.
      destruct (g lo) as [b|e]; cbn.
      + rewrite H0. specialize (IH (S lo) (acc ++ [b])).
        assert (K : forall k bs, S lo <= k < S lo + n -> length bs = length (acc ++ [b]) + (k - S lo) ->
                   match g k with
                   | Ok b => body k (St bs) = (St (bs ++ [b]), Ok tt)
                   | Raise e => exists m', body k (St bs) = (m', Raise e) /\ ext m0 m'
                   end).
        { intros k bs Hk Hl. apply H; [lia|]. rewrite app_length in Hl. cbn in Hl. lia. }
        specialize (IH K). destruct (mapM g (seq (S lo) n)) as [bs|e]; cbn.
        * rewrite IH. now rewrite <- app_assoc.
        * exact IH.
      + destruct H0 as (m' & -> & E). now exists m'.
  Qed.
End HeapFacts.
