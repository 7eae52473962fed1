(** * Properties of core_time.py: C04 - C08, C10 - C13 *)

From Coq Require Import Reals ZArith String List Bool Lra Lia Permutation.
From Verif Require Import Num XR Spec XRFacts Engine TimeModel TimeSpec EngineProps.
Import ListNotations.
Open Scope R_scope.

(** ** Auxiliary *)
Lemma is1darray_vec {A} (l : list A) : l <> [] -> is1darray (vec l) = true.
Proof.
  intros H. unfold is1darray, size_. rewrite asize_vec.
  destruct l; [contradiction|]. reflexivity.
Qed.
Lemma is1darray_empty {A} : is1darray (vec (@nil A)) = false. Proof. reflexivity. Qed.
Lemma as_list_vec {A} (l : list A) : as_list (vec l) = Ok l. Proof. reflexivity. Qed.
Lemma F_ne l : l <> [] -> F l <> []. Proof. destruct l; [contradiction|discriminate]. Qed.

Lemma take_map (l : list R) (is : list nat) :
  (forall i, In i is -> (i < length l)%nat) ->
  take (F l) is = Ok (F (map (fun i => nth i l 0) is)).
Proof.
  intros H. unfold take. rewrite (mapM_Ok _ (fun i => Fin (nth i l 0))).
  - unfold F. rewrite map_map. reflexivity.
  - intros i Hi. apply idx_F. auto.
Qed.
Lemma combine_map_map {A B C} (g : A -> B) (k : A -> C) l :
  combine (map g l) (map k l) = map (fun a => (g a, k a)) l.
Proof. induction l; cbn; congruence. Qed.
Lemma combine_nth_seq (h t : list R) : length h = length t ->
  map (fun i => (nth i h 0, nth i t 0)) (seq 0 (length h)) = combine h t.
Proof.
  intros H. apply (nth_ext' _ _ (0, 0)).
  - rewrite map_length, seq_length, combine_length. lia.
  - intros i Hi. rewrite map_length, seq_length in Hi. rewrite map_seq_nth by auto.
    rewrite combine_nth; auto.
Qed.

(** ** C04 Wave sorting *)

Theorem C04_sorted_same_waves (argsort : list NX -> list nat) (h t : list R) :
  is_argsort argsort -> h <> [] -> length h = length t ->
  exists h' t',
    sort_wave_params argsort (Arr (vec (F h))) (Arr (vec (F t))) = Ok (F h', F t')
    /\ descending h'
    /\ length h' = length h /\ length t' = length t
    /\ Permutation (combine h' t') (combine h t).
Proof.
  intros Ha Hne Hlen. destruct (Ha h) as [Hp Hs].
  assert (Hne' : t <> []) by (destruct t; [destruct h; [contradiction|discriminate]|discriminate]).
  assert (Hl : length (argsort (F h)) = length h).
  { rewrite (Permutation_length Hp), seq_length. reflexivity. }
  assert (Hin : forall i, In i (rev (argsort (F h))) -> (i < length h)%nat).
  { intros i Hi. apply in_rev in Hi. apply (Permutation_in _ Hp) in Hi. apply in_seq in Hi. lia. }
  exists (map (fun i => nth i h 0) (rev (argsort (F h)))), (map (fun i => nth i t 0) (rev (argsort (F h)))).
  split; [|split; [|split; [|split]]].
  - unfold sort_wave_params; cbn [convert_to_array_type].
    rewrite !is1darray_vec by (apply F_ne; auto). cbn [negb]. rewrite !as_list_vec, !bind_Ok, !F_length.
    rewrite Hlen, Nat.eqb_refl. cbn [negb].
    destruct (Nat.ltb_spec (length t) 1); [destruct t; [contradiction|cbn in *; lia]|].
    rewrite take_map by auto. rewrite bind_Ok, take_map by (intros; rewrite <- Hlen; auto). reflexivity.
  - intros i j Hij. rewrite map_length, rev_length, Hl in Hij.
    assert (Hm : forall k, (k < length h)%nat ->
       nth k (map (fun i => nth i h 0) (rev (argsort (F h)))) 0
       = nth (nth (length h - S k) (argsort (F h)) 0%nat) h 0).
    { intros k Hk. rewrite (nth_indep _ 0 ((fun i => nth i h 0) 0%nat)) by (rewrite map_length, rev_length; lia).
      rewrite (map_nth (fun i => nth i h 0)), rev_nth by lia. rewrite Hl. reflexivity. }
    rewrite !Hm by lia. apply Hs. lia.
  - rewrite map_length, rev_length. auto.
  - rewrite map_length, rev_length. lia.
  - rewrite combine_map_map, <- (combine_nth_seq h t Hlen). apply Permutation_map.
    rewrite <- Permutation_rev. exact Hp.
Qed.

(** the contract is satisfiable: insertion sort on positions *)
Fixpoint ins_idx (l : list NX) (i : nat) (is : list nat) : list nat :=
  match is with
  | [] => [i]
  | j :: is' => if nleb (nth i l nnan) (nth j l nnan) then i :: is else j :: ins_idx l i is'
  end.
Definition stable_argsort (l : list NX) : list nat :=
  fold_right (ins_idx l) [] (seq 0 (length l)).
Lemma ins_idx_perm l i is : Permutation (ins_idx l i is) (i :: is).
Proof.
  induction is as [|j is IH]; cbn [ins_idx]; [reflexivity|].
  destruct (nleb _ _); [reflexivity|]. rewrite IH. apply perm_swap.
Qed.
Definition chain (l : list R) (is : list nat) : Prop :=
  forall a b, (a < b < length is)%nat -> nth (nth a is 0%nat) l 0 <= nth (nth b is 0%nat) l 0.
Lemma ins_idx_chain l i is :
  (i < length l)%nat -> (forall j, In j is -> (j < length l)%nat) -> chain l is -> chain l (ins_idx (F l) i is).
Proof.
  induction is as [|j is IH]; intros Hi Hin Hc; cbn [ins_idx].
  - intros a b H; cbn in H; lia.
  - assert (Hj : (j < length l)%nat) by (apply Hin; left; auto).
    rewrite !F_nth_lt, fin_leb by auto.
    destruct (Rleb_spec (nth i l 0) (nth j l 0)) as [Hle|Hgt].
    + intros a b H. destruct b; [lia|]. destruct a; cbn [nth].
      * destruct b as [|b]; cbn [nth]; [auto|]. cbn [length] in H.
        assert (HH := Hc 0%nat (S b) ltac:(cbn [length]; lia)). cbn [nth] in HH.
        eapply Rle_trans; [exact Hle|exact HH].
      * apply (Hc a b). cbn [length] in *. lia.
    + apply Rnot_le_lt in Hgt.
      assert (Hc' : chain l is).
      { intros a b H. apply (Hc (S a) (S b)). cbn; lia. }
      specialize (IH Hi (fun k Hk => Hin k (or_intror Hk)) Hc').
      intros a b H. destruct b; [lia|]. cbn [length] in H. destruct a; cbn [nth].
      * assert (Hb : In (nth b (ins_idx (F l) i is) 0%nat) (ins_idx (F l) i is)) by (apply nth_In; lia).
        apply (Permutation_in _ (ins_idx_perm (F l) i is)) in Hb. destruct Hb as [<-|Hb]; [lra|].
        apply (In_nth _ _ 0%nat) in Hb as (m & Hm & <-). apply (Hc 0%nat (S m)). cbn; lia.
      * apply IH. lia.
Qed.
Theorem stable_argsort_is_argsort : is_argsort stable_argsort.
Proof.
  intros l. unfold stable_argsort. rewrite F_length.
  assert (H : forall is, (forall j, In j is -> (j < length l)%nat) ->
     Permutation (fold_right (ins_idx (F l)) [] is) is /\ chain l (fold_right (ins_idx (F l)) [] is)).
  { induction is as [|i is IH]; intros Hin; cbn [fold_right].
    - split; [reflexivity|]. intros a b H; cbn in H; lia.
    - destruct IH as [P C]; [intros; apply Hin; right; auto|]. split.
      + rewrite ins_idx_perm, P. reflexivity.
      + apply ins_idx_chain; auto.
        * apply Hin; left; auto.
        * intros j Hj. apply Hin. right. apply (Permutation_in _ P). auto. }
  destruct (H (seq 0 (length l))) as [P C].
  { intros j Hj. apply in_seq in Hj. lia. }
  split; [exact P|]. intros i j Hij. apply C. rewrite (Permutation_length P), seq_length. auto.
Qed.
Example C04_witness : is_argsort stable_argsort /\ [2; 2; 1] <> [] /\ length [2; 2; 1] = length [5; 6; 7].
Proof. split; [apply stable_argsort_is_argsort|]. split; [discriminate|reflexivity]. Qed.

(** ** C05 Sorting input validation and the no-wave case *)

(** [x] is not a non-empty 1-D array *)
Definition not_1d {A} (x : arraylike A) : Prop :=
  exists a, x = Arr a /\ (asize a = 0%nat \/ exists n m, shape a = [n; m]).
Lemma not_1d_is1d {A} (x : arraylike A) : not_1d x -> is1darray (convert_to_array_type x) = false
  \/ exists n, shape (convert_to_array_type x) = [n; 0%nat].
Proof.
  intros (a & -> & H). cbn. unfold is1darray, size_. destruct H as [->|(n & m & Hs)].
  - left; reflexivity.
  - destruct (Nat.eqb (asize a) 0); [left; reflexivity|]. rewrite Hs. cbn.
    destruct m; [right; eauto|]. left. destruct (negb (n =? 0)%nat); reflexivity.
Qed.
Lemma not_1d_false {A} (x : arraylike A) : not_1d x -> is1darray (convert_to_array_type x) = false.
Proof.
  intros H. destruct (not_1d_is1d x H) as [|[n Hn]]; auto.
  unfold is1darray, size_. replace (asize (convert_to_array_type x)) with 0%nat; [reflexivity|].
  unfold asize. rewrite Hn. cbn. lia.
Qed.

Theorem C05_not_1d_rejected argsort (h t : arraylike NX) :
  not_1d h \/ not_1d t -> sort_wave_params argsort h t = Raise ValueError.
Proof.
  intros H. unfold sort_wave_params. destruct H as [H|H]; rewrite (not_1d_false _ H).
  - reflexivity.
  - destruct (is1darray (convert_to_array_type h)); reflexivity.
Qed.
Theorem C05_length_mismatch_rejected argsort (h t : list NX) :
  length h <> length t -> sort_wave_params argsort (Arr (vec h)) (Arr (vec t)) = Raise ValueError.
Proof.
  intros H. unfold sort_wave_params; cbn [convert_to_array_type].
  destruct (is1darray (vec h)); [|reflexivity]. destruct (is1darray (vec t)); [|reflexivity].
  cbn [negb]. rewrite !as_list_vec, !bind_Ok. rewrite (proj2 (Nat.eqb_neq _ _) H). reflexivity.
Qed.
(** zero waves: the code comment promises empty arrays, the code raises *)
Theorem C05_no_waves_refuted :
  ~ (forall argsort : list NX -> list nat,
       sort_wave_params argsort (Arr (vec [])) (Arr (vec [])) = Ok ([], [])).
Proof. intros H. specialize (H stable_argsort). cbn in H. discriminate. Qed.
Theorem C05_no_waves_raises (argsort : list NX -> list nat) :
  sort_wave_params argsort (Arr (vec [])) (Arr (vec [])) = Raise ValueError.
Proof. reflexivity. Qed.
Example C05_witness : not_1d (Arr (mkArr [2; 2]%nat (F [1; 2; 3; 4]))) /\ not_1d (Arr (@empty00 NX)).
Proof.
  split.
  - exists (mkArr [2; 2]%nat (F [1; 2; 3; 4])). split; [reflexivity|]. right. exists 2%nat, 2%nat. reflexivity.
  - exists empty00. split; [reflexivity|]. left; reflexivity.
Qed.

(** ** C06 Zero-crossing completeness and count *)

Definition bcross (d : direction) : xr -> xr -> bool :=
  match d with Up => is_up (N:=NX) | Down => is_down (N:=NX) end.
Lemma is_up_iff a b : is_up (N:=NX) a b = true <-> nonpos a /\ pos b.
Proof.
  unfold is_up. rewrite andb_true_iff. split; intros [H1 H2]; split.
  - destruct a; cbn in *; auto; try discriminate. destruct (Rleb_spec r 0); [auto|discriminate].
  - destruct b; cbn in *; auto; try discriminate. destruct (Rltb_spec 0 r); [auto|discriminate].
  - destruct a; cbn in *; auto; try tauto. apply Rleb_true; auto.
  - destruct b; cbn in *; auto; try tauto. apply Rltb_true; auto.
Qed.
Lemma is_down_iff a b : is_down (N:=NX) a b = true <-> nonneg a /\ neg b.
Proof.
  unfold is_down. rewrite andb_true_iff. split; intros [H1 H2]; split.
  - destruct a; cbn in *; auto; try discriminate. destruct (Rleb_spec 0 r); [auto|discriminate].
  - destruct b; cbn in *; auto; try discriminate. destruct (Rltb_spec r 0); [auto|discriminate].
  - destruct a; cbn in *; auto; try tauto. apply Rleb_true; auto.
  - destruct b; cbn in *; auto; try tauto. apply Rltb_true; auto.
Qed.

Definition cross_idx (d : direction) (x : list xr) : list nat :=
  filter (fun i => bcross d (nth i x NaN) (nth (i + 1) x NaN)) (seq 0 (length x - 1)).

Lemma filter_seq_ascending (p : nat -> bool) n : forall s, ascending (filter p (seq s n))
   /\ forall i, In i (filter p (seq s n)) -> (s <= i)%nat.
Proof.
  induction n as [|n IH]; intros s; cbn [seq filter].
  - split; [intros i j H; cbn in H; lia|intros i []].
  - destruct (IH (S s)) as [H1 H2]. destruct (p s).
    + split.
      * intros i j H. cbn [length] in H. destruct j; [lia|]. cbn [nth]. destruct i.
        -- assert (In (nth j (filter p (seq (S s) n)) 0%nat) (filter p (seq (S s) n))) by (apply nth_In; lia).
           apply H2 in H0. lia.
        -- apply H1. lia.
      * intros i [<-|Hi]; [lia|]. apply H2 in Hi. lia.
    + split; [auto|]. intros i Hi. apply H2 in Hi. lia.
Qed.
Lemma cross_idx_spec d x :
  ascending (cross_idx d x) /\ forall i, In i (cross_idx d x) <-> crosses d x i.
Proof.
  split; [apply filter_seq_ascending|]. intros i. unfold cross_idx. rewrite filter_In, in_seq.
  unfold crosses. rewrite <- (Nat.add_1_r i). destruct d; cbn [bcross].
  - rewrite is_up_iff. intuition lia.
  - rewrite is_down_iff. intuition lia.
Qed.

Lemma zc_fold p dt t x is acc :
  fold_left (zc_step (N:=NX) p dt t x) is acc
  = ((fst acc + Z.of_nat (length (filter (fun i => p (nth i x NaN) (nth (i + 1) x NaN)) is)))%Z,
     snd acc ++ map (fun i => crossing_time dt (nth i t NaN) (nth i x NaN) (nth (i + 1) x NaN))
                    (filter (fun i => p (nth i x NaN) (nth (i + 1) x NaN)) is)).
Proof.
  revert acc; induction is as [|i is IH]; intros acc; cbn [fold_left].
  - cbn. rewrite app_nil_r, Z.add_0_r. destruct acc; reflexivity.
  - rewrite IH. clear IH. cbn [filter]. unfold zc_step.
    change (nnan (n:=NX)) with NaN.
    destruct (p (nth i x NaN) (nth (i + 1) x NaN)).
    + cbn [fst snd map length]. f_equal; [lia|]. rewrite <- app_assoc. reflexivity.
    + reflexivity.
Qed.

Lemma zero_crossing_eq (t x : list NX) (s : string) d :
  names s d -> length t = length x -> (2 <= length x)%nat ->
  determine_zero_crossing (Arr (vec t)) (Arr (vec x)) s
  = let tc := map (fun i => crossing_time (nsub (nth 1 t NaN) (nth 0 t NaN))
                              (nth i t NaN) (nth i x NaN) (nth (i + 1) x NaN)) (cross_idx d x) in
    Ok (Z.of_nat (length (cross_idx d x) - 1), match tc with [] => empty00 | _ => vec tc end).
Proof.
  intros Hn Hlen H2. unfold determine_zero_crossing; cbn [convert_to_array_type].
  rewrite !is1darray_vec by (intros E; subst; cbn in *; lia). cbn [negb].
  rewrite !as_list_vec, !bind_Ok, Hlen, Nat.eqb_refl. cbn [negb].
  rewrite !(idx_nth _ _ NaN) by (cbn in *; lia). rewrite !bind_Ok.
  assert (E : (if (lower s =? "up")%string then Ok is_up else
               if (lower s =? "down")%string then Ok is_down else Raise ValueError) = Ok (bcross d)).
  { destruct d; cbn in Hn; rewrite Hn; reflexivity. }
  rewrite E, bind_Ok. unfold zc_loop. rewrite Hlen, zc_fold. cbn [fst snd].
  change (filter (fun i => bcross d (nth i x NaN) (nth (i + 1) x NaN)) (seq 0 (length x - 1))) with (cross_idx d x).
  cbn zeta. cbn [app].
  assert (E2 : (if (-1 + Z.of_nat (length (cross_idx d x)) =? -1)%Z then 0%Z else (-1 + Z.of_nat (length (cross_idx d x)))%Z)
          = Z.of_nat (length (cross_idx d x) - 1)).
  { destruct (Z.eqb_spec (-1 + Z.of_nat (length (cross_idx d x))) (-1)); lia. }
  rewrite E2. reflexivity.
Qed.

Theorem C06_exactly_the_crossings (t x : list NX) (s : string) (d : direction) :
  names s d -> length t = length x -> (2 <= length x)%nat ->
  exists (is : list nat) (tc : arr NX),
    ascending is /\ (forall i, In i is <-> crosses d x i)
    /\ determine_zero_crossing (Arr (vec t)) (Arr (vec x)) s = Ok (Z.of_nat (length is - 1), tc)
    /\ length (data tc) = length is
    /\ (shape tc = [length is] \/ (is = [] /\ shape tc = [0; 0]%nat)).
Proof.
  intros Hn Hlen H2. destruct (cross_idx_spec d x) as [H1 H3].
  rewrite (zero_crossing_eq t x s d Hn Hlen H2).
  eexists (cross_idx d x), _. split; [exact H1|]. split; [exact H3|]. split; [reflexivity|].
  destruct (cross_idx d x) as [|i is]; cbn [map]; [auto|].
  unfold vec; cbn [data shape length map]. rewrite map_length. auto.
Qed.
Theorem C06_case_insensitive (t x : arraylike NX) (s s' : string) :
  lower s = lower s' -> determine_zero_crossing t x s = determine_zero_crossing t x s'.
Proof. intros H. unfold determine_zero_crossing. rewrite H. reflexivity. Qed.
Theorem C06_other_strings_rejected (t x : list NX) (s : string) :
  lower s <> "up"%string -> lower s <> "down"%string -> length t = length x -> (2 <= length x)%nat ->
  determine_zero_crossing (Arr (vec t)) (Arr (vec x)) s = Raise ValueError.
Proof.
  intros Hu Hd Hlen H2. unfold determine_zero_crossing; cbn [convert_to_array_type].
  rewrite !is1darray_vec by (intros E; subst; cbn in *; lia). cbn [negb].
  rewrite !as_list_vec, !bind_Ok, Hlen, Nat.eqb_refl. cbn [negb].
  rewrite !(idx_nth _ _ NaN) by (cbn in *; lia). rewrite !bind_Ok.
  destruct (String.eqb_spec (lower s) "up"); [contradiction|].
  destruct (String.eqb_spec (lower s) "down"); [contradiction|]. reflexivity.
Qed.
Theorem C06_length_mismatch_rejected (t x : list NX) (s : string) :
  length t <> length x -> determine_zero_crossing (Arr (vec t)) (Arr (vec x)) s = Raise ValueError.
Proof.
  intros H. unfold determine_zero_crossing; cbn [convert_to_array_type].
  destruct (is1darray (vec t)); [|reflexivity]. destruct (is1darray (vec x)); [|reflexivity].
  cbn [negb]. rewrite !as_list_vec, !bind_Ok. rewrite (proj2 (Nat.eqb_neq _ _) H). reflexivity.
Qed.
Example C06_witness : names "DoWn" Down /\ names "uP" Up /\ crosses Down (Fin 1 :: NInf :: NaN :: nil) 0
  /\ lower "left" <> "up"%string.
Proof. repeat split; cbn; try lia; try lra; discriminate. Qed.

(** ** C07 Zero-crossing time *)

Lemma crosses_F d x i : crosses d (F x) i <-> Rcrosses d x i.
Proof.
  unfold crosses, Rcrosses. rewrite F_length. split; intros [H H']; split; auto;
    rewrite !F_nth_lt in * by lia; destruct d; exact H'.
Qed.

(** time at which the straight line through (ta, a) and (tb, b) is zero *)
Lemma crossing_time_F dt ti a b : a <> b ->
  crossing_time (N:=NX) (Fin dt) (Fin ti) (Fin a) (Fin b) = Fin (ti + dt * a / (a - b)).
Proof. intros H. unfold crossing_time. rewrite fin_sub, fin_mul, fin_div by lra. reflexivity. Qed.

Lemma Rcrosses_ne d x i : Rcrosses d x i -> nth i x 0 <> nth (i + 1) x 0.
Proof. rewrite Nat.add_1_r. intros [_ H]; destruct d; lra. Qed.

(** what determine_zero_crossing computes on finite data: the general form *)
Lemma zero_crossing_F (t x : list R) (s : string) d :
  names s d -> length t = length x -> (2 <= length x)%nat ->
  exists is, all_crossings d x is /\
   determine_zero_crossing (Arr (vec (F t))) (Arr (vec (F x))) s
   = let tc := map (fun i => nth i t 0 + (nth 1 t 0 - nth 0 t 0) * nth i x 0 / (nth i x 0 - nth (i + 1) x 0)) is in
     Ok (Z.of_nat (length is - 1), match tc with [] => empty00 | _ => vec (F tc) end).
Proof.
  intros Hn Hlen H2. destruct (cross_idx_spec d (F x)) as [H1 H3].
  exists (cross_idx d (F x)). split.
  - split; [exact H1|]. intros i. rewrite H3. apply crosses_F.
  - rewrite (zero_crossing_eq (F t) (F x) s d Hn) by (rewrite !F_length; auto).
    cbn zeta. f_equal. f_equal.
    assert (E : map (fun i => crossing_time (nsub (n:=NX) (nth 1 (F t) NaN) (nth 0 (F t) NaN)) (nth i (F t) NaN)
                                (nth i (F x) NaN) (nth (i + 1) (F x) NaN)) (cross_idx d (F x))
            = F (map (fun i => nth i t 0 + (nth 1 t 0 - nth 0 t 0) * nth i x 0 / (nth i x 0 - nth (i + 1) x 0))
                     (cross_idx d (F x)))).
    { unfold F at 7. rewrite map_map. apply map_ext_in. intros i Hi. apply H3, crosses_F in Hi.
      assert (Hi' := Rcrosses_ne _ _ _ Hi). destruct Hi as [Hi _].
      rewrite !F_nth_lt by lia. rewrite fin_sub. apply crossing_time_F. auto. }
    rewrite E. destruct (cross_idx d (F x)); reflexivity.
Qed.

Lemma crossing_ratio d x i : Rcrosses d x i ->
  0 <= nth i x 0 / (nth i x 0 - nth (S i) x 0) < 1.
Proof.
  intros [_ H]. destruct d.
  - set (a := nth i x 0) in *. set (b := nth (S i) x 0) in *.
    assert (Hp : 0 < / (b - a)) by (apply Rinv_0_lt_compat; lra).
    assert (E : a / (a - b) = - a * / (b - a)) by (field; lra).
    rewrite E. split; [nra|]. apply Rmult_lt_reg_r with (b - a); [lra|]. rewrite Rmult_assoc, Rinv_l by lra. lra.
  - set (a := nth i x 0) in *. set (b := nth (S i) x 0) in *.
    assert (Hp : 0 < / (a - b)) by (apply Rinv_0_lt_compat; lra).
    unfold Rdiv. split; [nra|]. apply Rmult_lt_reg_r with (a - b); [lra|]. rewrite Rmult_assoc, Rinv_l by lra. lra.
Qed.

Theorem C07_crossing_times (t0 dt : R) (x : list R) (s : string) (d : direction) :
  names s d -> 0 < dt -> (2 <= length x)%nat ->
  exists (is : list nat) (tau : list R) (tc : arr NX),
    all_crossings d x is /\ length tau = length is
    /\ determine_zero_crossing (Arr (vec (F (axis t0 dt (length x))))) (Arr (vec (F x))) s
       = Ok (Z.of_nat (length is - 1), tc)
    /\ data tc = F tau
    /\ increasing tau
    /\ forall k, (k < length tau)%nat ->
         let i := nth k is 0%nat in
         let ti := t0 + INR i * dt in
         ti <= nth k tau 0 < ti + dt
         /\ nth i x 0 + (nth (S i) x 0 - nth i x 0) * ((nth k tau 0 - ti) / dt) = 0.
Proof.
  intros Hn Hdt H2.
  destruct (zero_crossing_F (axis t0 dt (length x)) x s d Hn) as (is & Hall & Heq);
    [apply axis_length|auto|].
  cbn zeta in Heq.
  set (tau := map _ is) in Heq.
  eexists is, tau, _. split; [exact Hall|]. split; [apply map_length|]. split; [exact Heq|].
  split; [destruct tau; reflexivity|].
  assert (Hk : forall k, (k < length tau)%nat ->
         let i := nth k is 0%nat in
         let ti := t0 + INR i * dt in
         Rcrosses d x i /\
         ti <= nth k tau 0 < ti + dt
         /\ nth i x 0 + (nth (S i) x 0 - nth i x 0) * ((nth k tau 0 - ti) / dt) = 0).
  { intros k Hk i ti. unfold tau in Hk. rewrite map_length in Hk.
    assert (Hi : Rcrosses d x i) by (apply Hall; apply nth_In; auto).
    split; [exact Hi|].
    assert (Ht : nth k tau 0 = ti + dt * (nth i x 0 / (nth i x 0 - nth (S i) x 0))).
    { unfold tau. rewrite (nth_indep _ 0 ((fun i => nth i (axis t0 dt (length x)) 0 +
          (nth 1 (axis t0 dt (length x)) 0 - nth 0 (axis t0 dt (length x)) 0) * nth i x 0 / (nth i x 0 - nth (i + 1) x 0)) 0%nat))
        by (rewrite map_length; auto).
      rewrite (map_nth (fun i => nth i (axis t0 dt (length x)) 0 +
          (nth 1 (axis t0 dt (length x)) 0 - nth 0 (axis t0 dt (length x)) 0) * nth i x 0 / (nth i x 0 - nth (i + 1) x 0))).
      fold i. rewrite !axis_nth by (try lia; destruct Hi; lia). rewrite Nat.add_1_r. change (INR 1) with 1. change (INR 0) with 0.
      unfold ti, Rdiv. ring. }
    assert (Hr := crossing_ratio _ _ _ Hi).
    assert (Hne := Rcrosses_ne _ _ _ Hi). rewrite Nat.add_1_r in Hne.
    rewrite Ht. split; [nra|]. field. lra. }
  split.
  - intros k l Hkl. destruct (Hk k ltac:(lia)) as (_ & Hk1 & _). destruct (Hk l ltac:(lia)) as (_ & Hl1 & _).
    assert (Hlt : (nth k is 0 < nth l is 0)%nat).
    { apply (proj1 Hall). unfold tau in Hkl. rewrite map_length in Hkl. auto. }
    assert (INR (nth k is 0%nat) + 1 <= INR (nth l is 0%nat)).
    { rewrite <- S_INR. apply le_INR. lia. }
    nra.
  - intros k Hkk. apply Hk. auto.
Qed.
Example C07_witness : names "down" Down /\ 0 < 1/2 /\ (2 <= length ([1; -1; 2; -1] : list R)%R)%nat
  /\ all_crossings Down [1; -1; 2; -1] [0; 2]%nat.
Proof.
  repeat split; try lra; cbn; try lia.
  - intros i j H. cbn in H. assert (i = 0 /\ j = 1)%nat as [-> ->] by lia. cbn; lia.
  - destruct H as [<-|[<-|[]]]; lia.
  - destruct H as [<-|[<-|[]]]; cbn; lra.
  - destruct H as [<-|[<-|[]]]; cbn; lra.
  - intros [H1 H2]. cbn in H1. destruct i as [|[|[|i]]]; cbn in H2; auto; try lra; lia.
Qed.

(** ** C08 Zero-crossing invariances *)

Lemma all_crossings_unique d x is is' : all_crossings d x is -> all_crossings d x is' -> is = is'.
Proof.
  intros [A1 I1] [A2 I2].
  assert (HH : forall l l' : list nat, ascending l -> ascending l' -> (forall i, In i l <-> In i l') -> l = l').
  { clear. induction l as [|a l IH]; intros l' A A' H.
    - destruct l' as [|b l']; auto. exfalso. apply (proj2 (H b)). left; auto.
    - destruct l' as [|b l']; [exfalso; apply (proj1 (H a)); left; auto|].
      assert (Hmin : forall (c : nat) m, ascending (c :: m) -> forall i, In i m -> (c < i)%nat).
      { intros c m Hm i Hi. apply (In_nth _ _ 0%nat) in Hi as (k & Hk & <-).
        apply (Hm 0%nat (S k)). cbn; lia. }
      assert (a = b).
      { assert (Ha := proj1 (H a) (or_introl eq_refl)). assert (Hb := proj2 (H b) (or_introl eq_refl)).
        destruct Ha as [|Ha]; auto. destruct Hb as [|Hb]; auto.
        apply (Hmin _ _ A') in Ha. apply (Hmin _ _ A) in Hb. lia. }
      subst b. f_equal. apply IH.
      + intros i j Hij. apply (A (S i) (S j)). cbn; lia.
      + intros i j Hij. apply (A' (S i) (S j)). cbn; lia.
      + intros i. split; intros Hi.
        * assert (Hai := Hmin _ _ A _ Hi). destruct (proj1 (H i) (or_intror Hi)); [lia|auto].
        * assert (Hai := Hmin _ _ A' _ Hi). destruct (proj2 (H i) (or_intror Hi)); [lia|auto]. }
  apply HH; auto. intros i. rewrite I1, I2. reflexivity.
Qed.
Lemma nth_map_R (g : R -> R) l i : (i < length l)%nat -> nth i (map g l) 0 = g (nth i l 0).
Proof.
  intros. rewrite (nth_indep _ 0 (g 0)) by (rewrite map_length; auto). apply map_nth.
Qed.

Theorem C08_mirror (t x : list R) (s s' : string) :
  names s Down -> names s' Up -> length t = length x -> (2 <= length x)%nat ->
  determine_zero_crossing (Arr (vec (F t))) (Arr (vec (F x))) s
  = determine_zero_crossing (Arr (vec (F t))) (Arr (vec (F (map Ropp x)))) s'.
Proof.
  intros Hs Hs' Hlen H2.
  destruct (zero_crossing_F t x s Down Hs Hlen H2) as (is & H1 & E1).
  destruct (zero_crossing_F t (map Ropp x) s' Up Hs') as (is' & H1' & E2); [rewrite map_length; auto|rewrite map_length; auto|].
  assert (is' = is).
  { apply (all_crossings_unique Up (map Ropp x)); auto. destruct H1 as [A I]. split; [exact A|].
    intros i. rewrite I. unfold Rcrosses. rewrite map_length. split; intros [Hi H]; split; auto;
    rewrite !nth_map_R in * by lia; lra. }
  subst is'. rewrite E1, E2. cbn zeta. f_equal. f_equal.
  assert (E : map (fun i => nth i t 0 + (nth 1 t 0 - nth 0 t 0) * nth i (map Ropp x) 0 / (nth i (map Ropp x) 0 - nth (i + 1) (map Ropp x) 0)) is
          = map (fun i => nth i t 0 + (nth 1 t 0 - nth 0 t 0) * nth i x 0 / (nth i x 0 - nth (i + 1) x 0)) is).
  { apply map_ext_in. intros i Hi. apply H1 in Hi. assert (Hne := Rcrosses_ne _ _ _ Hi). destruct Hi as [Hi _].
    rewrite !nth_map_R by lia. field. lra. }
  rewrite E. reflexivity.
Qed.
Theorem C08_scale (t x : list R) (s : string) (d : direction) (c : R) :
  names s d -> 0 < c -> length t = length x -> (2 <= length x)%nat ->
  determine_zero_crossing (Arr (vec (F t))) (Arr (vec (F (map (Rmult c) x)))) s
  = determine_zero_crossing (Arr (vec (F t))) (Arr (vec (F x))) s.
Proof.
  intros Hs Hc Hlen H2.
  destruct (zero_crossing_F t x s d Hs Hlen H2) as (is & H1 & E1).
  destruct (zero_crossing_F t (map (Rmult c) x) s d Hs) as (is' & H1' & E2); [rewrite map_length; auto|rewrite map_length; auto|].
  assert (is' = is).
  { apply (all_crossings_unique d (map (Rmult c) x)); auto. destruct H1 as [A I]. split; [exact A|].
    intros i. rewrite I. unfold Rcrosses. rewrite map_length. split; intros [Hi H]; split; auto;
    rewrite !nth_map_R in * by lia; destruct d; nra. }
  subst is'. rewrite E1, E2. cbn zeta. f_equal. f_equal.
  assert (E : map (fun i => nth i t 0 + (nth 1 t 0 - nth 0 t 0) * nth i (map (Rmult c) x) 0 / (nth i (map (Rmult c) x) 0 - nth (i + 1) (map (Rmult c) x) 0)) is
          = map (fun i => nth i t 0 + (nth 1 t 0 - nth 0 t 0) * nth i x 0 / (nth i x 0 - nth (i + 1) x 0)) is).
  { apply map_ext_in. intros i Hi. apply H1 in Hi. assert (Hne := Rcrosses_ne _ _ _ Hi). destruct Hi as [Hi _].
    rewrite !nth_map_R by lia. rewrite <- Rmult_minus_distr_l. field. split; [lra|]. lra. }
  rewrite E. reflexivity.
Qed.
Theorem C08_shift (t x : list R) (s : string) (d : direction) (c : R) :
  names s d -> length t = length x -> (2 <= length x)%nat ->
  exists n tau tc tc',
    determine_zero_crossing (Arr (vec (F t))) (Arr (vec (F x))) s = Ok (n, tc) /\ data tc = F tau
    /\ determine_zero_crossing (Arr (vec (F (map (Rplus c) t)))) (Arr (vec (F x))) s = Ok (n, tc')
    /\ data tc' = F (map (Rplus c) tau).
Proof.
  intros Hs Hlen H2.
  destruct (zero_crossing_F t x s d Hs Hlen H2) as (is & H1 & E1).
  destruct (zero_crossing_F (map (Rplus c) t) x s d Hs) as (is' & H1' & E2); [rewrite map_length; auto|auto|].
  assert (is' = is) by (apply (all_crossings_unique d x); auto).
  subst is'. cbn zeta in E1, E2. rewrite E1, E2.
  eexists _, (map _ is), _, _. split; [reflexivity|]. split; [destruct is; reflexivity|]. split; [reflexivity|].
  transitivity (F (map (fun i => nth i (map (Rplus c) t) 0 + (nth 1 (map (Rplus c) t) 0 - nth 0 (map (Rplus c) t) 0) * nth i x 0 / (nth i x 0 - nth (i + 1) x 0)) is)).
  { destruct is; reflexivity. }
  f_equal. rewrite map_map. apply map_ext_in. intros i Hi. apply H1 in Hi.
  assert (Hne := Rcrosses_ne _ _ _ Hi). destruct Hi as [Hi _].
  rewrite !nth_map_R by lia. field. lra.
Qed.
Example C08_witness : names "down" Down /\ names "up" Up /\ 0 < 2
  /\ length (axis 0 1 4) = length [1; -1; 2; -1] /\ (2 <= length ([1; -1; 2; -1] : list R)%R)%nat.
Proof. repeat split; try lra; cbn; lia. Qed.
