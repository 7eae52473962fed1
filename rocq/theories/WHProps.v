(** * Properties of the class WaveHeights (series.py): C14, C15, C50, C51 *)

From Coq Require Import Reals ZArith String List Bool Lra Lia Permutation.
From Verif Require Import Num XR Spec XRFacts Engine TimeModel TimeSpec EngineProps TimeProps TimeProps2
  TimeProps3 SpectralModel WaveModel SpectrumModel SeriesModel.
Import ListNotations.
Open Scope R_scope.

(** the float 1.0 / 3.0 that get_Hs passes (series.py:87) *)
Definition third : NX := (n1 (N:=NX) / nofZ (n:=NX) 3)%num.

(** a fresh WaveHeights object *)
Definition new_wh (h t : list R) : waveheights NX := wh_init (Arr (vec (F h))) (Arr (vec (F t))).

(** [s] holds exactly the waves (h_i, t_i), in some order *)
Definition holds_waves (s : waveheights NX) (h t : list R) : Prop :=
  exists h' t', wh_h s = vec (F h') /\ wh_t s = vec (F t') /\ wh_n s = length h
   /\ length h' = length h /\ length t' = length t
   /\ Permutation (combine h' t') (combine h t).

Lemma new_wh_eq h t : new_wh h t = mkWH (vec (F h)) (vec (F t)) (length h).
Proof.
  unfold new_wh, wh_init.
  assert (E : forall l : list NX, fst (convert_to_vector (Arr (vec l))) = vec l).
  { intros l. unfold convert_to_vector; cbn [convert_to_array_type]. unfold size_.
    destruct (Nat.eqb (asize (vec l)) 0); reflexivity. }
  assert (E1 := E (F h)). assert (E2 := E (F t)).
  destruct (convert_to_vector (Arr (vec (F h)))) as [a ?], (convert_to_vector (Arr (vec (F t)))) as [b ?].
  cbn in E1, E2. subst. unfold alen; cbn. rewrite F_length. reflexivity.
Qed.
Lemma new_wh_holds h t : holds_waves (new_wh h t) h t.
Proof. exists h, t. rewrite new_wh_eq. cbn. auto 10. Qed.

Section History.
  Variable argsort : list NX -> list nat.
  Hypothesis Hsort : is_argsort argsort.
  Variables h t : list R.
  Hypothesis Hne : h <> [].
  Hypothesis Hlen : length h = length t.

  Lemma sort_step s : holds_waves s h t ->
    exists h' t', wh_sort argsort s = (mkWH (vec (F h')) (vec (F t')) (length h), Ok tt)
      /\ descending h' /\ length h' = length h /\ length t' = length t
      /\ Permutation (combine h' t') (combine h t).
  Proof.
    intros (h0 & t0 & Eh & Et & En & L1 & L2 & P).
    assert (N0 : h0 <> []) by (destruct h0; [destruct h; [contradiction|discriminate]|discriminate]).
    destruct (C04_sorted_same_waves argsort h0 t0 Hsort N0 ltac:(lia)) as (h' & t' & E & D & L3 & L4 & P').
    exists h', t'. unfold wh_sort. rewrite Eh, Et, E, En. split; [reflexivity|]. split; [exact D|].
    split; [lia|]. split; [lia|]. rewrite P', P. reflexivity.
  Qed.
  Lemma sorted_holds h' t' : length h' = length h -> length t' = length t ->
    Permutation (combine h' t') (combine h t) -> holds_waves (mkWH (vec (F h')) (vec (F t')) (length h)) h t.
  Proof. intros. exists h', t'. cbn. auto 10. Qed.

  Lemma sort_bind {A} (k : unit -> wh_meth A) s : holds_waves s h t ->
    exists s' h' t', wbind (wh_sort argsort) k s = k tt s' /\ holds_waves s' h t
      /\ s' = mkWH (vec (F h')) (vec (F t')) (length h) /\ descending h' /\ length h' = length h /\ length t' = length t
      /\ Permutation (combine h' t') (combine h t).
  Proof.
    intros H. destruct (sort_step s H) as (h' & t' & E & D & L1 & L2 & P).
    exists (mkWH (vec (F h')) (vec (F t')) (length h)), h', t'. unfold wbind. rewrite E.
    split; [reflexivity|]. split; [apply sorted_holds; auto|]. auto 10.
  Qed.

  Lemma highest_step p s : holds_waves s h t -> holds_waves (fst (wh_highest argsort p s)) h t.
  Proof.
    intros H. unfold wh_highest.
    destruct (sort_bind (fun _ s0 => (s0, highest_waves_params (Arr (wh_h s0)) (Arr (wh_t s0)) p)) s H)
      as (s' & h' & t' & -> & H' & _). exact H'.
  Qed.
  Lemma H2p_step s : holds_waves s h t -> holds_waves (fst (wh_H2p_Rayleigh argsort s)) h t.
  Proof.
    intros H. unfold wh_H2p_Rayleigh, wbind. assert (HH := highest_step third s H).
    change (wh_highest argsort third s) with (wh_Hs argsort s) in HH.
    destruct (wh_Hs argsort s) as [s' [ht|e]]; exact HH.
  Qed.

  Lemma Rayleigh_step BG b pb wd ct hm0 s :
    holds_waves s h t -> holds_waves (fst (wh_plot_Rayleigh argsort BG b pb wd ct hm0 s)) h t.
  Proof.
    intros H. unfold wh_plot_Rayleigh.
    match goal with |- context [wbind ?m ?k s] =>
      assert (G : forall Hn s0, holds_waves s0 h t -> holds_waves (fst (k Hn s0)) h t);
      [|assert (G1 : holds_waves (fst (m s)) h t)] end.
    - intros Hn s0 H0. cbv beta zeta.
      match goal with |- context [wbind (wh_H2p_Rayleigh argsort) ?k s0] =>
        change (wbind (wh_H2p_Rayleigh argsort) k s0) with
          (match wh_H2p_Rayleigh argsort s0 with (s', Ok a) => k a s' | (s', Raise e) => (s', Raise e) end) end.
      assert (HH := H2p_step s0 H0). destruct (wh_H2p_Rayleigh argsort s0) as [s1 [v|e]]; [|exact HH].
      cbn [fst] in HH.
      match goal with |- context [wbind (wh_sort argsort) ?k s1] =>
        destruct (sort_bind k s1 HH) as (s' & ? & ? & -> & H' & _) end. exact H'.
    - destruct b; [|exact H]. unfold wbind.
      assert (HH := highest_step third s H).
      change (wh_highest argsort third s) with (wh_Hs argsort s) in HH.
      destruct (wh_Hs argsort s) as [s1 [ht|e]]; exact HH.
    - unfold wbind at 1. destruct (if b then _ else _) as [s1 [v|e]]; [|exact G1]. apply G. exact G1.
  Qed.
  Lemma step_holds c s : holds_waves s h t -> holds_waves (wh_step argsort c s) h t.
  Proof.
    intros H. destruct c; cbn [wh_step]; try exact H.
    - destruct (sort_step s H) as (h' & t' & E & D & L1 & L2 & P). rewrite E. apply sorted_holds; auto.
    - apply highest_step; auto.
    - apply H2p_step; auto.
    - unfold wh_exceedance.
      match goal with |- context [wbind (wh_sort argsort) ?k s] =>
        destruct (sort_bind k s H) as (s' & ? & ? & -> & H' & _) end. exact H'.
    - apply highest_step; auto.
    - unfold wh_plot_exceedance.
      match goal with |- context [wbind (wh_sort argsort) ?k s] =>
        destruct (sort_bind k s H) as (s' & ? & ? & -> & H' & _) end. exact H'.
    - apply Rayleigh_step; auto.
  Qed.
  Lemma run_holds cs s : holds_waves s h t -> holds_waves (wh_run argsort cs s) h t.
  Proof.
    revert s; induction cs as [|c cs IH]; intros s H; [exact H|]. cbn. apply IH, step_holds, H.
  Qed.

  (** heights of an object that holds the waves are a permutation of h *)
  Lemma fst_combine (a b : list R) : length a = length b -> map fst (combine a b) = a.
  Proof. revert b; induction a; intros [|b0 b] H; cbn; try discriminate; auto. f_equal. auto. Qed.
  Lemma snd_combine (a b : list R) : length a = length b -> map snd (combine a b) = b.
  Proof. revert b; induction a; intros [|b0 b] H; cbn; try discriminate; auto. f_equal. auto. Qed.
  Lemma heights_perm h' t' : length h' = length h -> length t' = length t ->
    Permutation (combine h' t') (combine h t) -> Permutation h' h.
  Proof.
    intros L1 L2 P. rewrite <- (fst_combine h' t') by lia. rewrite <- (fst_combine h t) by lia.
    apply Permutation_map. exact P.
  Qed.

  (** height part of highest_waves_params does not look at the periods *)
  Lemma highest_height (l u v : list NX) p : length u = length v ->
    rmap fst (highest_waves_params (Arr (vec l)) (Arr (vec u)) p)
    = rmap fst (highest_waves_params (Arr (vec l)) (Arr (vec v)) p).
  Proof.
    intros E. unfold highest_waves_params; cbn [convert_to_array_type].
    destruct (is1darray (vec l)); [|reflexivity]. cbn [negb].
    replace (is1darray (vec u)) with (is1darray (vec v)).
    2:{ destruct u, v; cbn in E; try discriminate; [reflexivity|]. rewrite !is1darray_vec by discriminate. reflexivity. }
    destruct (is1darray (vec v)); [|reflexivity]. cbn [negb]. rewrite !as_list_vec, !bind_Ok, E.
    destruct (Nat.eqb _ _); [|reflexivity]. cbn [negb].
    destruct (_ || _)%bool; [reflexivity|]. destruct (Nat.ltb _ _); [reflexivity|].
    destruct (all_eq _ _); [|reflexivity]. cbn [negb]. destruct (int_floor _); [|reflexivity]. rewrite !bind_Ok.
    destruct (Z.ltb _ _); reflexivity.
  Qed.

  Lemma highest_answer p s : holds_waves s h t ->
    exists t', length t' = length t /\ Permutation (combine (rev (Rsort h)) t') (combine h t) /\
      snd (wh_highest argsort p s) = highest_waves_params (Arr (vec (F (rev (Rsort h))))) (Arr (vec (F t'))) p.
  Proof.
    intros H. unfold wh_highest.
    destruct (sort_bind (fun _ s0 => (s0, highest_waves_params (Arr (wh_h s0)) (Arr (wh_t s0)) p)) s H)
      as (s' & h' & t' & -> & H' & -> & D & L1 & L2 & P).
    assert (h' = rev (Rsort h)).
    { apply desc_perm_unique; auto; [apply rev_Rsort_desc|]. rewrite (heights_perm h' t') by auto.
      rewrite <- Permutation_rev. symmetry. apply Rsort_perm. }
    subst h'. exists t'. auto.
  Qed.
End History.

(** ** C14 WaveHeights answers do not depend on call history *)

Theorem C14_waves_preserved (argsort : list NX -> list nat) (h t : list R) (calls : list (wh_call NX)) :
  is_argsort argsort -> h <> [] -> length h = length t ->
  holds_waves (wh_run argsort calls (new_wh h t)) h t.
Proof. intros Hs Hne Hl. apply run_holds; auto. apply new_wh_holds. Qed.

Lemma Permutation_F l l' : Permutation l l' -> Permutation (F l) (F l').
Proof. apply Permutation_map. Qed.
Lemma Rsum_perm l l' : Permutation l l' -> Rsum l = Rsum l'.
Proof. induction 1; cbn; unfold Rsum in *; cbn; lra. Qed.
Lemma Rmean_perm l l' : Permutation l l' -> Rmean l = Rmean l'.
Proof. intros P. unfold Rmean. rewrite (Rsum_perm _ _ P), (Permutation_length P). reflexivity. Qed.

Lemma existsb_nan_F l : existsb (nisnan (n:=NX)) (F l) = false.
Proof. induction l; [reflexivity|]. exact IHl. Qed.
Lemma npmax_F l : npmax (N:=NX) (F l) = pymax (N:=NX) (F l).
Proof. unfold npmax. rewrite existsb_nan_F. reflexivity. Qed.
Lemma npmin_F l : npmin (N:=NX) (F l) = pymin (N:=NX) (F l).
Proof. unfold npmin. rewrite existsb_nan_F. reflexivity. Qed.
Lemma pymax_perm l l' : l <> [] -> Permutation l l' -> pymax (N:=NX) (F l) = pymax (N:=NX) (F l').
Proof.
  intros Hne P. assert (Hne' : l' <> []) by (intros ->; apply Permutation_sym, Permutation_nil in P; contradiction).
  destruct (pymax_F l Hne) as (m & -> & I & M). destruct (pymax_F l' Hne') as (m' & -> & I' & M').
  do 2 f_equal. apply Rle_antisym.
  - apply M'. apply (Permutation_in _ P). auto.
  - apply M. apply (Permutation_in _ (Permutation_sym P)). auto.
Qed.

(** the answer of a call, as opposed to its effect on the object; for highest_waves the height *)
Theorem C14_answers_history_independent (argsort : list NX -> list nat) (h t : list R) (calls : list (wh_call NX)) :
  is_argsort argsort -> h <> [] -> length h = length t ->
  let s := wh_run argsort calls (new_wh h t) in
  wh_n s = length h
  /\ snd (wh_Hrms s) = snd (wh_Hrms (new_wh h t))
  /\ snd (wh_Hmax s) = snd (wh_Hmax (new_wh h t))
  /\ (forall p, rmap fst (snd (wh_highest argsort p s)) = rmap fst (snd (wh_highest argsort p (new_wh h t))))
  /\ rmap fst (snd (wh_Hs argsort s)) = rmap fst (snd (wh_Hs argsort (new_wh h t)))
  /\ snd (wh_H2p_Rayleigh argsort s) = snd (wh_H2p_Rayleigh argsort (new_wh h t))
  /\ (forall p, snd (wh_exceedance argsort p s) = snd (wh_exceedance argsort p (new_wh h t))).
Proof.
  intros Hs Hne Hl s.
  assert (H : holds_waves s h t) by (apply C14_waves_preserved; auto).
  assert (H0 : holds_waves (new_wh h t) h t) by apply new_wh_holds.
  assert (Hhigh : forall p, rmap fst (snd (wh_highest argsort p s)) = rmap fst (snd (wh_highest argsort p (new_wh h t)))).
  { intros p. destruct (highest_answer argsort Hs h t Hne Hl p s H) as (t1 & L1 & _ & ->).
    destruct (highest_answer argsort Hs h t Hne Hl p _ H0) as (t2 & L2 & _ & ->).
    apply highest_height. rewrite !F_length. lia. }
  destruct H as (h' & t' & Eh & Et & En & L1 & L2 & P).
  assert (P' := heights_perm h t Hl h' t' L1 L2 P).
  assert (Hne' : h' <> []) by (intros ->; destruct h; [contradiction|discriminate]).
  split; [exact En|]. split; [|split; [|split; [|split; [|split]]]].
  - unfold wh_Hrms. cbn [snd]. rewrite Eh, new_wh_eq. cbn [wh_h data vec].
    rewrite !(F_map (fun x => x * x)) by reflexivity.
    rewrite !nmean_F by (intros E; apply map_eq_nil in E; contradiction).
    rewrite (Rmean_perm (map (fun x => x * x) h') (map (fun x => x * x) h)) by (apply Permutation_map; auto). reflexivity.
  - unfold wh_Hmax. cbn [snd]. rewrite Eh, new_wh_eq. cbn [wh_h data vec]. rewrite !npmax_F.
    apply pymax_perm; auto.
  - exact Hhigh.
  - apply Hhigh.
  - unfold wh_H2p_Rayleigh, wbind. assert (E := Hhigh third).
    change (wh_highest argsort third) with (wh_Hs argsort) in E.
    destruct (wh_Hs argsort s) as [s1 [r1|e1]], (wh_Hs argsort (new_wh h t)) as [s2 [r2|e2]]; cbn in E; try discriminate.
    + apply Ok_inj in E. destruct r1 as [a1 b1], r2 as [a2 b2]. cbn in E. subst a2. reflexivity.
    + injection E as ->. reflexivity.
  - intros p. unfold wh_exceedance.
    assert (H : holds_waves s h t) by (exists h', t'; auto 10).
    destruct (sort_bind argsort Hs h t Hne Hl (fun _ s0 => (s0, exceedance_wave_height (Arr (wh_h s0)) p)) s H)
      as (s1 & h1 & t1 & -> & _ & -> & D1 & M1 & N1 & P1).
    destruct (sort_bind argsort Hs h t Hne Hl (fun _ s0 => (s0, exceedance_wave_height (Arr (wh_h s0)) p)) _ H0)
      as (s2 & h2 & t2 & -> & _ & -> & D2 & M2 & N2 & P2).
    cbn [snd wh_h]. assert (h1 = h2) as ->; [|reflexivity].
    apply desc_perm_unique; auto. rewrite (heights_perm h t Hl h1 t1), (heights_perm h t Hl h2 t2); auto.
Qed.

(** Hs is what its documentation says: the mean of the highest third of the waves *)
Theorem C14_Hs_meaning (argsort : list NX -> list nat) (h t : list R) (calls : list (wh_call NX)) (k : nat) :
  is_argsort argsort -> h <> [] -> length h = length t -> floor_is (INR (length h) / 3) k ->
  exists hs : list R, Permutation hs h /\ descending hs /\
    rmap fst (snd (wh_Hs argsort (wh_run argsort calls (new_wh h t))))
    = Ok (Fin (if Nat.eqb k 0 then 0 else Rmean (firstn k hs))).
Proof.
  intros Hs Hne Hl Hk. exists (rev (Rsort h)).
  assert (P : Permutation (rev (Rsort h)) h) by (rewrite <- Permutation_rev; apply Rsort_perm).
  split; [exact P|]. split; [apply rev_Rsort_desc|].
  assert (H : holds_waves (wh_run argsort calls (new_wh h t)) h t) by (apply C14_waves_preserved; auto).
  change (wh_Hs argsort) with (wh_highest argsort third). destruct (highest_answer argsort Hs h t Hne Hl third _ H) as (t1 & L1 & _ & ->).
  unfold third; rewrite fin_1, fin_ofZ, fin_div by lra.
  assert (Lr : length (rev (Rsort h)) = length h) by (apply Permutation_length; exact P).
  rewrite (C10_highest_waves _ t1 (1/3) k).
  - destruct (Nat.eqb k 0); reflexivity.
  - intros E. apply (f_equal (@length R)) in E. rewrite Lr in E. destruct h; [contradiction|discriminate].
  - rewrite Lr. lia.
  - apply rev_Rsort_desc.
  - lra.
  - rewrite Lr. replace (INR (length h) * (1/3)) with (INR (length h) / 3) by lra. exact Hk.
Qed.
Example C14_witness : is_argsort stable_argsort /\ [1; 3; 2] <> [] /\ length [1; 3; 2] = length [7; 8; 9]
  /\ floor_is (INR 3 / 3) 1.
Proof. split; [apply stable_argsort_is_argsort|]. split; [discriminate|]. split; [reflexivity|]. split; cbn; lra. Qed.

(** ** C15 Ts does not depend on call history *)

Lemma NoDup_pairing (a t1 t2 : list R) : NoDup a -> length a = length t1 -> length a = length t2 ->
  Permutation (combine a t1) (combine a t2) -> t1 = t2.
Proof.
  intros ND L1 L2 P. apply (nth_ext' _ _ 0); [lia|]. intros i Hi.
  assert (Hin : In (nth i a 0, nth i t1 0) (combine a t2)).
  { apply (Permutation_in _ P). rewrite <- combine_nth by auto. apply nth_In. rewrite combine_length. lia. }
  apply (In_nth _ _ (0, 0)) in Hin as (j & Hj & E). rewrite combine_length in Hj. rewrite combine_nth in E by auto.
  injection E as E1 E2. rewrite (NoDup_nth a 0) in ND.
  assert (j = i) by (apply ND; auto; lia). subst. auto.
Qed.

(** the waves above a gap in the sorted heights do not depend on how ties are ordered *)
Lemma filter_above (a t : list R) (c : R) (k : nat) : length a = length t -> (k <= length a)%nat ->
  (forall i, (i < k)%nat -> c <= nth i a 0) -> (forall i, (k <= i < length a)%nat -> nth i a 0 < c) ->
  filter (fun q => Rleb c (fst q)) (combine a t) = firstn k (combine a t).
Proof.
  revert t k. induction a as [|x a IH]; intros [|y t] k L Hk H1 H2; cbn in L; try discriminate.
  - destruct k; reflexivity.
  - cbn [combine filter fst]. destruct k as [|k].
    + rewrite Rleb_false by (apply (H2 0%nat); cbn; lia).
      rewrite (IH t 0%nat); [reflexivity|lia|lia|lia|]. intros i Hi. apply (H2 (S i)). cbn; lia.
    + rewrite Rleb_true by (apply (H1 0%nat); lia). cbn [firstn]. f_equal.
      apply IH; [lia|cbn in Hk; lia| |]; intros i Hi; [apply (H1 (S i))|apply (H2 (S i))]; cbn; lia.
Qed.
Lemma filter_perm {A} (f : A -> bool) l l' : Permutation l l' -> Permutation (filter f l) (filter f l').
Proof.
  induction 1; cbn; auto.
  - destruct (f x); auto.
  - destruct (f x), (f y); auto. constructor.
  - etransitivity; eauto.
Qed.
Lemma gap_pairing (a t1 t2 : list R) (k : nat) : descending a -> length a = length t1 -> length a = length t2 ->
  (k <= length a)%nat -> ((0 < k < length a)%nat -> nth k a 0 < nth (k - 1) a 0) ->
  Permutation (combine a t1) (combine a t2) -> Permutation (firstn k t1) (firstn k t2).
Proof.
  intros D L1 L2 Hk G P.
  assert (S1 : forall t : list R, length a = length t -> firstn k t = map snd (firstn k (combine a t))).
  { intros t L. rewrite combine_firstn. rewrite snd_combine; [reflexivity|]. rewrite !firstn_length. lia. }
  rewrite (S1 t1 L1), (S1 t2 L2). apply Permutation_map.
  destruct (Nat.eq_dec k 0) as [->|K0]; [cbn; auto|].
  assert (A1 : forall i, (i < k)%nat -> nth (k - 1) a 0 <= nth i a 0).
  { intros i Hi. destruct (Nat.eq_dec i (k - 1)) as [->|]; [lra|]. apply D. lia. }
  assert (A2 : forall i, (k <= i < length a)%nat -> nth i a 0 < nth (k - 1) a 0).
  { intros i Hi. apply Rle_lt_trans with (nth k a 0); [|apply G; lia].
    destruct (Nat.eq_dec i k) as [->|]; [lra|]. apply D. lia. }
  rewrite <- (filter_above a t1 _ k L1 Hk A1 A2), <- (filter_above a t2 _ k L2 Hk A1 A2).
  apply filter_perm, P.
Qed.

(** The mean period of the highest waves is the same after any history, whenever the set of the
    floor(n*p) highest waves is determined, i.e. the lowest wave of the set is strictly higher than the
    highest wave outside it. *)
Theorem C15_Ts (argsort : list NX -> list nat) (h t hs : list R) (calls : list (wh_call NX)) (p : R) (k : nat) :
  is_argsort argsort -> h <> [] -> length h = length t -> 0 <= p <= 1 ->
  floor_is (INR (length h) * p) k ->
  Permutation hs h -> descending hs -> ((0 < k < length h)%nat -> nth k hs 0 < nth (k - 1) hs 0) ->
  snd (wh_highest argsort (Fin p) (wh_run argsort calls (new_wh h t)))
  = snd (wh_highest argsort (Fin p) (new_wh h t)).
Proof.
  intros Hs Hne Hl Hp Hk Ph Dh G.
  assert (H : holds_waves (wh_run argsort calls (new_wh h t)) h t) by (apply C14_waves_preserved; auto).
  destruct (highest_answer argsort Hs h t Hne Hl (Fin p) _ H) as (t1 & L1 & P1 & ->).
  destruct (highest_answer argsort Hs h t Hne Hl (Fin p) _ (new_wh_holds h t)) as (t2 & L2 & P2 & ->).
  assert (P : Permutation (rev (Rsort h)) h) by (rewrite <- Permutation_rev; apply Rsort_perm).
  assert (Lr := Permutation_length P).
  assert (hs = rev (Rsort h)) by (apply desc_perm_unique; auto; [apply rev_Rsort_desc|rewrite Ph, P; reflexivity]).
  subst hs.
  assert (Hne' : rev (Rsort h) <> []) by (intros E; rewrite E in Lr; destruct h; [contradiction|discriminate]).
  assert (Hkn : (k <= length h)%nat).
  { destruct Hk as [Hk _]. apply INR_le. apply Rle_trans with (1 := Hk). assert (N := pos_INR (length h)). nra. }
  rewrite !(C10_highest_waves _ _ p k) by (auto using rev_Rsort_desc; try (rewrite Lr; auto; lia)).
  destruct (Nat.eqb k 0); [reflexivity|]. do 3 f_equal. apply Rmean_perm.
  apply (gap_pairing (rev (Rsort h))); try lia; auto using rev_Rsort_desc.
  - intros Hc. apply G. lia.
  - rewrite P1, P2. reflexivity.
Qed.
(** in particular for pairwise different heights; this also covers rejected p *)
Theorem C15_Ts_distinct (argsort : list NX -> list nat) (h t : list R) (calls : list (wh_call NX)) (p : NX) :
  is_argsort argsort -> h <> [] -> length h = length t -> NoDup h ->
  snd (wh_highest argsort p (wh_run argsort calls (new_wh h t)))
  = snd (wh_highest argsort p (new_wh h t)).
Proof.
  intros Hs Hne Hl ND.
  assert (H : holds_waves (wh_run argsort calls (new_wh h t)) h t) by (apply C14_waves_preserved; auto).
  destruct (highest_answer argsort Hs h t Hne Hl p _ H) as (t1 & L1 & P1 & ->).
  destruct (highest_answer argsort Hs h t Hne Hl p _ (new_wh_holds h t)) as (t2 & L2 & P2 & ->).
  assert (P : Permutation (rev (Rsort h)) h) by (rewrite <- Permutation_rev; apply Rsort_perm).
  assert (Lr := Permutation_length P).
  assert (t1 = t2) as ->; [|reflexivity].
  apply (NoDup_pairing (rev (Rsort h))); try lia.
  - apply (Permutation_NoDup (Permutation_sym P) ND).
  - rewrite P1, P2. reflexivity.
Qed.
Example C15_witness : NoDup [1; 3; 2] /\ floor_is (INR 4 * (1/2)) 2 /\ descending [3; 3; 2; 2]
  /\ ((0 < 2 < length [3; 3; 2; 2])%nat -> nth 2 [3; 3; 2; 2] 0 < nth (2 - 1) [3; 3; 2; 2] 0).
Proof.
  split; [repeat constructor; cbn; intuition lra|]. split; [split; cbn; lra|]. split; [|cbn; lra].
  intros i j Hij. cbn in Hij. destruct i as [|[|[|[|i]]]], j as [|[|[|[|j]]]]; cbn; try lra; lia.
Qed.

(** with the stable sort, asking twice for Hs of three equal waves gives two different Ts *)
Lemma argsort_222 : stable_argsort (F [2; 2; 2]) = [0; 1; 2]%nat.
Proof.
  unfold stable_argsort. cbn [F map length seq fold_right ins_idx nth].
  repeat (cbn [ins_idx nth]; rewrite !fin_leb, !Rleb_true by lra). reflexivity.
Qed.
Theorem C15_Ts_refuted :
  ~ (forall (argsort : list NX -> list nat) (h t : list R) (calls : list (wh_call NX)),
       is_argsort argsort -> h <> [] -> length h = length t ->
       snd (wh_Hs argsort (wh_run argsort calls (new_wh h t))) = snd (wh_Hs argsort (new_wh h t))).
Proof.
  intros H. specialize (H stable_argsort [2; 2; 2] [1; 2; 3] [@WHs NX] stable_argsort_is_argsort
                          ltac:(discriminate) eq_refl).
  assert (D : descending [2; 2; 2]).
  { intros i j Hij. cbn in Hij. destruct i as [|[|[|i]]], j as [|[|[|j]]]; cbn; try lra; lia. }
  assert (S1 : forall a b c n, wh_sort stable_argsort (mkWH (vec (F [2; 2; 2])) (vec (F [a; b; c])) n)
                 = (mkWH (vec (F [2; 2; 2])) (vec (F [c; b; a])) n, Ok tt)).
  { intros a b c n. unfold wh_sort, sort_wave_params. cbn [wh_h wh_t convert_to_array_type].
    change (is1darray (vec (F [2; 2; 2]))) with true. change (is1darray (vec (F [a; b; c]))) with true.
    cbn [negb]. rewrite !as_list_vec, !bind_Ok. rewrite argsort_222. reflexivity. }
  assert (V : forall a b c, highest_waves_params (Arr (vec (F [2; 2; 2]))) (Arr (vec (F [a; b; c]))) third
              = Ok (Fin 2, Fin a)).
  { intros a b c. unfold third; rewrite fin_1, fin_ofZ, fin_div by lra.
    rewrite (C10_highest_waves _ _ (1/3) 1); auto; try discriminate; try lra.
    - cbn [Nat.eqb firstn]. unfold Rmean, Rsum; cbn. do 2 f_equal; f_equal; field.
    - split; cbn; lra. }
  rewrite new_wh_eq in H. cbn [wh_run fold_left wh_step] in H. unfold wh_Hs, wh_highest, wbind in H.
  rewrite !S1 in H. cbn [fst snd wh_h wh_t wh_n] in H.
  rewrite S1 in H. cbn [snd wh_h wh_t] in H. rewrite !V in H. apply Ok_inj in H. injection H as H. lra.
Qed.

(** ** C50 The 2% Rayleigh wave height *)
Theorem C50_H2p_Rayleigh (argsort : list NX -> list nat) (h t : list R) (calls : list (wh_call NX)) (Hs : R) :
  is_argsort argsort -> h <> [] -> length h = length t ->
  let s := wh_run argsort calls (new_wh h t) in
  rmap fst (snd (wh_Hs argsort s)) = Ok (Fin Hs) -> 0 < Hs ->
  exists H2p, snd (wh_H2p_Rayleigh argsort s) = Ok (Fin H2p) /\ Hs < H2p
    /\ exp (- 2 * (H2p / Hs) ^ 2) = 2 / 100.
Proof.
  intros Ha Hne Hl s E Hpos. unfold wh_H2p_Rayleigh, wbind.
  destruct (wh_Hs argsort s) as [s1 [[v w]|e]]; [|discriminate]. cbn in E. apply Ok_inj in E. subst v.
  cbn [fst snd]. unfold rayleigh_ppf. rewrite fin_lit by lra. rewrite fin_1, !fin_ofZ, fin_sub.
  assert (S2 : 0 < sqrt 2) by (apply sqrt_lt_R0; lra).
  rewrite (fin_sqrt 2) by lra. rewrite fin_ln by lra.
  replace (1 - 98 / 100) with (2/100) by lra.
  assert (Hln : ln (2/100) < -3).
  { rewrite <- (ln_exp (-3)). apply ln_increasing; [lra|].
    replace (-3) with (-(3)) by lra. rewrite exp_Ropp. assert (exp 3 < 30).
    { replace 3 with (1 + 1 + 1) by lra. rewrite !exp_plus. assert (E1 := exp_le_3). assert (E0 := exp_pos 1).
      assert (exp 1 * exp 1 <= 3 * 3) by (apply Rmult_le_compat; lra).
      assert (exp 1 * exp 1 * exp 1 <= 3 * 3 * 3) by (apply Rmult_le_compat; try lra; nra). lra. }
    assert (0 < exp 3) by apply exp_pos.
    apply Rmult_lt_reg_r with (exp 3); auto. rewrite Rinv_l by lra. lra. }
  set (L := ln (2/100)) in *. rewrite fin_mul, fin_sqrt by lra. rewrite fin_div by lra.
  rewrite !fin_mul, fin_div by lra.
  eexists. split; [reflexivity|].
  assert (Q : forall y, Hs * (1 / sqrt 2 * y) / sqrt 2 = Hs * y / 2).
  { intros y. assert (sqrt 2 * sqrt 2 = 2) by (apply sqrt_sqrt; lra). 
    replace (Hs * (1 / sqrt 2 * y) / sqrt 2) with (Hs * y / (sqrt 2 * sqrt 2)) by (field; lra). rewrite H. reflexivity. }
  rewrite Q. split.
  - assert (2 < sqrt (-2 * L)).
    { rewrite <- (sqrt_square 2) at 1 by lra. apply sqrt_lt_1; lra. }
    nra.
  - replace (Hs * sqrt (-2 * L) / 2 / Hs) with (sqrt (-2 * L) / 2) by (field; lra).
    replace (-2 * (sqrt (-2 * L) / 2) ^ 2) with (- (sqrt (-2 * L) * sqrt (-2 * L)) / 2) by field.
    rewrite sqrt_sqrt by lra. replace (- (-2 * L) / 2) with L by field. unfold L. apply exp_ln. lra.
Qed.

Example C50_witness :
  rmap fst (snd (wh_Hs stable_argsort (wh_run stable_argsort [@WHs NX] (new_wh [1; 3; 2] [7; 8; 9])))) = Ok (Fin 3).
Proof.
  destruct (C14_Hs_meaning stable_argsort [1; 3; 2] [7; 8; 9] [@WHs NX] 1 stable_argsort_is_argsort
              ltac:(discriminate) eq_refl) as (hs & P & D & ->).
  { split; cbn; lra. }
  cbn [Nat.eqb].
  assert (hs = [3; 2; 1]) as ->.
  { apply desc_perm_unique; auto.
    - intros i j Hij. cbn in Hij. destruct i as [|[|[|i]]], j as [|[|[|j]]]; cbn; try lra; lia.
    - rewrite P. rewrite (perm_swap 3 1). apply perm_skip. apply perm_swap. }
  do 2 f_equal. unfold Rmean, Rsum; cbn. field.
Qed.

(** ** C51 Plotted exceedance probabilities *)

Definition plotted (argsort : list NX -> list nat) (h t : list R) (hs ps : list R) : Prop :=
  snd (wh_plot_exceedance argsort (new_wh h t)) = Ok (F hs, F ps).

(** what is plotted: the sorted heights against i/(n-1), i = 0..n-1 *)
Theorem C51_plotted_points (argsort : list NX -> list nat) (h t : list R) :
  is_argsort argsort -> (2 <= length h)%nat -> length h = length t ->
  exists hs ps, plotted argsort h t hs ps
    /\ Permutation hs h /\ descending hs /\ length ps = length h
    /\ forall i, (i < length h)%nat -> nth i ps 0 = INR i / INR (length h - 1).
Proof.
  intros Hs H2 Hl. assert (Hne : h <> []) by (intros ->; cbn in H2; lia).
  unfold plotted, wh_plot_exceedance.
  match goal with |- context [wbind _ ?k _] =>
    destruct (sort_bind argsort Hs h t Hne Hl k (new_wh h t) (new_wh_holds h t)) as (s' & h' & t' & E & _ & -> & D & L1 & L2 & P) end.
  rewrite E. cbn [snd wh_h wh_n data vec].
  set (n := length h) in *.
  exists h', (map (fun i => INR i * (INR n / INR (n - 1)) / INR n) (seq 0 n)).
  assert (Pn : 0 < INR n) by (apply lt_0_INR; lia).
  assert (Pn1 : 0 < INR (n - 1)) by (apply lt_0_INR; lia).
  split; [|split; [|split; [exact D|split]]].
  - do 2 f_equal. unfold linspace0. destruct n as [|[|m]] eqn:En; try lia.
    rewrite !fin_ofnat. rewrite map_map. unfold F. rewrite map_map. apply map_ext. intros i.
    rewrite fin_ofnat. replace (S (S m) - 1)%nat with (S m) in * by lia.
    rewrite fin_div by lra. rewrite fin_mul, fin_div by lra. reflexivity.
  - apply (heights_perm h t Hl h' t'); auto.
  - rewrite map_length, seq_length. reflexivity.
  - intros i Hi. rewrite map_seq_nth by auto. field. lra.
Qed.
(** one wave is plotted at probability 0 *)
Theorem C51_plotted_one_wave (argsort : list NX -> list nat) (H T : R) : is_argsort argsort -> plotted argsort [H] [T] [H] [0].
Proof.
  intros Hs. assert (Hne : [H] <> []) by discriminate. unfold plotted, wh_plot_exceedance.
  match goal with |- context [wbind _ ?k _] =>
    destruct (sort_bind argsort Hs [H] [T] Hne eq_refl k (new_wh [H] [T]) (new_wh_holds [H] [T])) as (s' & h' & t' & E & _ & -> & D & L1 & L2 & P) end.
  rewrite E. cbn [snd wh_h wh_n data vec]. assert (Ph := heights_perm [H] [T] eq_refl h' t' L1 L2 P). apply Permutation_sym, Permutation_length_1_inv in Ph. rewrite Ph.
  cbn [length linspace0 map]. do 2 f_equal. unfold F. cbn [map]. rewrite fin_0, fin_ofnat, fin_div by (cbn; lra). do 2 f_equal. cbn [INR]. field.
Qed.
(** "the probability plotted for a height is the fraction of waves at least that high" is false:
    the highest wave is plotted at probability zero *)
Theorem C51_plotted_probability_refuted :
  ~ (forall argsort h t hs ps, is_argsort argsort -> (2 <= length h)%nat -> length h = length t ->
       plotted argsort h t hs ps ->
       forall i, (i < length h)%nat -> nth i ps 0 = INR (count_ge h (nth i hs 0)) / INR (length h)).
Proof.
  intros C.
  destruct (C51_plotted_points stable_argsort [2; 1] [1; 1] stable_argsort_is_argsort ltac:(cbn; lia) eq_refl)
    as (hs & ps & Hp & P & D & L & Hv).
  specialize (C stable_argsort [2; 1] [1; 1] hs ps stable_argsort_is_argsort ltac:(cbn; lia) eq_refl Hp 0%nat ltac:(cbn; lia)).
  rewrite (Hv 0%nat ltac:(cbn; lia)) in C.
  assert (Hin : In (nth 0 hs 0) [2; 1]).
  { apply (Permutation_in _ P). apply nth_In. rewrite (Permutation_length P). cbn; lia. }
  assert (Hc : (0 < count_ge ([2; 1]%R : list R) (nth 0 hs 0%R))%nat).
  { unfold count_ge. assert (In (nth 0 hs 0) (filter (fun x => Rleb (nth 0 hs 0) x) [2; 1])).
    { apply filter_In. split; auto. apply Rleb_true; lra. }
    destruct (filter _ _); [contradiction|cbn; lia]. }
  apply lt_0_INR in Hc.
  assert (0 < INR (count_ge [2; 1] (nth 0 hs 0)) / INR (length [2; 1])).
  { apply Rdiv_lt_0_compat; [exact Hc|cbn; lra]. }
  assert (INR 0 / INR (length [2; 1] - 1) = 0) by (cbn; unfold Rdiv; lra). lra.
Qed.
Example C51_witness : exists hs ps, plotted stable_argsort [1; 3; 2] [7; 8; 9] hs ps /\ nth 1 ps 0 = 1 / 2.
Proof.
  destruct (C51_plotted_points stable_argsort [1; 3; 2] [7; 8; 9] stable_argsort_is_argsort ltac:(cbn; lia) eq_refl)
    as (hs & ps & Hp & _ & _ & _ & Hv).
  exists hs, ps. split; [exact Hp|]. rewrite (Hv 1%nat) by (cbn; lia). cbn. lra.
Qed.
