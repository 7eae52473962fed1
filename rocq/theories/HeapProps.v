(** * Lemmas for C84 (HeapClaims.v): each in-place function of HeapModel.v computes what the value
      model says, on memory that only grows *)

From Coq Require Import ZArith String List Bool Arith Lia Reals Lra FinFun.
From Verif Require Import Num XR Engine Cpx TimeModel SpectralModel WaveModel DisperModel DecompModel
  SpectrumModel SeriesModel XRFacts HeapModel HeapFacts.
Import ListNotations.
Local Open Scope nat_scope.

Section HeapProps.
  Context {N : Num}.
  Local Notation cpx := (cpx N).
  Local Notation mem := (mem N).

  (** [r] is a 1-D array with elements [l]; it is the whole of a buffer that did not exist in [m] *)
  Definition new_vec {A} (d : dtype N A) (m m' : mem) (r : ref) (l : list A) : Prop :=
    length (bufs d m) <= r_buf r < length (bufs d m') /\
    r_idx r = seq 0 (length l) /\ r_shape r = [length l] /\ nth (r_buf r) (bufs d m') [] = l.
  Lemma new_vec_read {A} (d : dtype N A) m m' r l : new_vec d m m' r l -> read d m' r = l.
  Proof.
    intros (_ & K1 & _ & K3). unfold read. rewrite K1, K3. apply map_nth_seq.
  Qed.

  Lemma new_vec_base {A} (d : dtype N A) m0 m m' r l : ext m0 m -> new_vec d m m' r l -> new_vec d m0 m' r l.
  Proof. intros E (H & K). split; [|exact K]. pose proof (ext_len d _ _ E). lia. Qed.
  Lemma new_vec_ext {A} (d : dtype N A) m m' m'' r l : ext m' m'' -> new_vec d m m' r l -> new_vec d m m'' r l.
  Proof.
    intros E (H & K1 & K2 & K3). pose proof (ext_len d _ _ E). repeat split; auto; try lia.
    destruct E as (a & b & ->). rewrite <- K3. destruct d; cbn in *; apply app_nth1; lia.
  Qed.
  Lemma new_vec_ok {A} (d : dtype N A) m m' r l : new_vec d m m' r l -> ref_ok d m' r.
  Proof. intros (H & K1 & K2 & K3). split; [lia|]. rewrite K1, K2, seq_length. cbn. lia. Qed.
  Lemma new_vec_arg {A} (d : dtype N A) m m' r l : new_vec d m m' r l -> argval d m' (PArr r) = Arr (vec l).
  Proof. intros K. pose proof (new_vec_read d _ _ _ _ K) as Q. destruct K as (H & K1 & K2 & K3). cbn. now rewrite K2, Q. Qed.
  Lemma new_vec_list {A} (d : dtype N A) m m' r l : new_vec d m m' r l -> hlist d r m' = (m', Ok l).
  Proof.
    intros K. pose proof (new_vec_read d _ _ _ _ K) as Q. destruct K as (H & K1 & K2 & K3).
    apply hlist_run. now rewrite K2, Q.
  Qed.

  Lemma fresh_new_R m0 m er ec k n l : ext m0 m -> k < length er -> nth k er [] = l -> length l = n ->
    new_vec Real m0 (grow m er ec) (fresh_at Real m k n) l.
  Proof.
    intros E Hk Hl Hn. pose proof (ext_len Real _ _ E) as EL. cbn [bufs] in EL. subst n.
    split; [|split; [|split]]; cbn [fresh_at r_buf r_idx r_shape bufs grow mR]; auto.
    - rewrite app_length. lia.
    - rewrite app_nth2 by lia. rewrite <- Hl. f_equal. lia.
  Qed.
  Lemma fresh_new_C m0 m er ec k n l : ext m0 m -> k < length ec -> nth k ec [] = l -> length l = n ->
    new_vec Complex m0 (grow m er ec) (fresh_at Complex m k n) l.
  Proof.
    intros E Hk Hl Hn. pose proof (ext_len Complex _ _ E) as EL. cbn [bufs] in EL. subst n.
    split; [|split; [|split]]; cbn [fresh_at r_buf r_idx r_shape bufs grow mC]; auto.
    - rewrite app_length. lia.
    - rewrite app_nth2 by lia. rewrite <- Hl. f_equal. lia.
  Qed.

  Lemma hvec_new {A} (d : dtype N A) m l :
    exists m1 r, hvec d l m = (m1, Ok r) /\ ext m m1 /\ new_vec d m m1 r l.
  Proof.
    destruct d.
    - pose proof (hvec_R m [] [] l) as Q. rewrite grow_nil in Q. rewrite Q.
      eexists _, _. split; [reflexivity|]. split; [apply ext_grow|].
      split; [cbn; rewrite app_length; cbn; lia|]. split; [reflexivity|]. split; [reflexivity|].
      cbn. rewrite app_nth2 by lia. now replace (length (mR m) + 0 - length (mR m)) with 0 by lia.
    - pose proof (hvec_C m [] [] l) as Q. rewrite grow_nil in Q. rewrite Q.
      eexists _, _. split; [reflexivity|]. split; [apply ext_grow|].
      split; [cbn; rewrite app_length; cbn; lia|]. split; [reflexivity|]. split; [reflexivity|].
      cbn. rewrite app_nth2 by lia. now replace (length (mC m) + 0 - length (mC m)) with 0 by lia.
  Qed.
  Lemma dv_vec {A} (d : dtype N A) m0 m l :
    ext m0 m -> delivers m0 m (hvec d l) (fun m' r v => new_vec d m0 m' r v) (Ok l).
  Proof.
    intro E. destruct (hvec_new d m l) as (m1 & r & Q & E1 & H).
    apply dv_eq with m1 r; [exact Q|now apply ext_trans with m|]. now apply new_vec_base with m.
  Qed.

  (** convert_to_array_type / convert_to_vector *)
  Lemma h_array_spec {A} (d : dtype N A) p m :
    arg_ok d m p ->
    exists m1 r, h_array d p m = (m1, Ok r) /\ ext m m1 /\ ref_ok d m1 r /\
      mkArr (r_shape r) (read d m1 r) = convert_to_array_type (argval d m p) /\
      match p with PArr r0 => r = r0 /\ m1 = m | _ => length (bufs d m) <= r_buf r end.
  Proof.
    destruct p as [x|a|r0]; intro H.
    - destruct (hvec_new d m [x]) as (m1 & r & Q & E & K). exists m1, r. cbn.
      split; [exact Q|]. split; [exact E|]. split; [now apply new_vec_ok in K|].
      pose proof (new_vec_read d _ _ _ _ K) as KR.
      destruct K as (K0 & K1 & K2 & K3). rewrite K2, KR. split; [reflexivity|lia].
    - cbn. destruct a as [sh l]. cbn in H. unfold wf_arr, asize in H. cbn in H.
      eexists _, _. split; [reflexivity|]. cbn [r_shape r_idx r_buf].
      assert (E : ext m (set_bufs d (bufs d m ++ [l]) m)).
      { destruct d; [exists [l], []|exists [], [l]]; unfold grow; cbn; now rewrite app_nil_r. }
      split; [exact E|]. split.
      { split; cbn; [|rewrite seq_length; exact H]. destruct d; cbn; rewrite app_length; cbn; lia. }
      split; [|lia]. f_equal. unfold read. cbn.
      destruct d; cbn; rewrite app_nth2 by lia; rewrite Nat.sub_diag; cbn; apply map_nth_seq.
    - exists m, r0. cbn. split; [reflexivity|]. split; [apply ext_refl|]. split; [exact H|]. auto.
  Qed.

  Lemma h_size_val {A} r (l : list A) : h_size r = size_ (mkArr (r_shape r) l).
  Proof. reflexivity. Qed.

  Lemma h_vector_spec {A} (d : dtype N A) p m :
    arg_ok d m p ->
    exists m1 r, h_vector d p m = (m1, Ok (r, snd (convert_to_vector (argval d m p)))) /\ ext m m1 /\
      ref_ok d m1 r /\ mkArr (r_shape r) (read d m1 r) = fst (convert_to_vector (argval d m p)).
  Proof.
    intro H. destruct (h_array_spec d p m H) as (m1 & r & Q & E & O & V & _).
    unfold h_vector, hbind. rewrite Q. unfold convert_to_vector. rewrite <- V. cbn zeta.
    rewrite (h_size_val r (read d m1 r)).
    destruct (Nat.eqb (snd (size_ (mkArr (r_shape r) (read d m1 r)))) 1) eqn:B; cbn [fst snd].
    - unfold hread. unfold hret. unfold hnew.
      eexists _, _. split; [reflexivity|].
      assert (E1 : ext m1 (set_bufs d (bufs d m1 ++ [read d m1 r]) m1)).
      { destruct d; [exists [read Real m1 r], []|exists [], [read Complex m1 r]]; unfold grow; cbn; now rewrite app_nil_r. }
      split; [now apply ext_trans with m1|]. split.
      { split; cbn.
        - destruct d; cbn; rewrite app_length; cbn; lia.
        - rewrite seq_length, read_length. destruct O as (_ & O). rewrite O. unfold prod. lia. }
      cbn. f_equal. unfold read at 1. cbn.
      destruct d; cbn; rewrite app_nth2 by lia; rewrite Nat.sub_diag; cbn; apply map_nth_seq.
    - exists m1, r. auto.
  Qed.

  (** converting twice is converting once; only the column flag is lost *)
  Lemma convert_again {A} (p : arraylike A) :
    convert_to_vector (Arr (fst (convert_to_vector p))) =
      (fst (convert_to_vector p),
       (fst (snd (convert_to_vector p)),
        if Nat.eqb (snd (snd (convert_to_vector p))) 1 then 0 else snd (snd (convert_to_vector p)))).
  Proof.
    unfold convert_to_vector. set (a := convert_to_array_type p). clearbody a.
    cbn [fst snd convert_to_array_type].
    destruct (Nat.eqb (snd (size_ a)) 1) eqn:B; cbn [convert_to_array_type].
    - assert (Q : size_ (mkArr [asize a] (data a)) = (fst (size_ a), 0)).
      { destruct a as [sh l]. unfold size_, asize in *. cbn in *.
        destruct (Nat.eqb (fold_right Nat.mul 1 sh) 0) eqn:Z; cbn in B; [discriminate|].
        rewrite Nat.mul_1_r, Z.
        destruct sh as [|n [|k [|? ?]]]; cbn in *; try discriminate.
        apply Nat.eqb_eq in B. subst k. f_equal. lia. }
      rewrite Q. cbn. reflexivity.
    - rewrite B. now destruct (size_ a).
  Qed.

  Lemma arg_wf {A} (d : dtype N A) m p : arg_ok d m p -> wf_arr (convert_to_array_type (argval d m p)).
  Proof.
    destruct p as [x|a|r]; cbn; auto.
    - intros _. reflexivity.
    - intros (_ & H). unfold wf_arr, asize. cbn. now rewrite read_length.
  Qed.
  Lemma converted_len {A} (p : arraylike A) l :
    wf_arr (convert_to_array_type p) -> as_list (fst (convert_to_vector p)) = Ok l ->
    fst (snd (convert_to_vector p)) = length l /\ fst (convert_to_vector p) = vec l.
  Proof.
    unfold convert_to_vector. set (a := convert_to_array_type p). clearbody a.
    cbn [fst snd]. intros W. unfold wf_arr, asize in W. destruct a as [sh l0]. unfold size_, asize.
    cbn in *. destruct (Nat.eqb (fold_right Nat.mul 1 sh) 0) eqn:Z; cbn.
    - apply Nat.eqb_eq in Z. rewrite Z in W. destruct sh as [|n [|? ?]]; cbn; try discriminate.
      intro Q. injection Q as <-. cbn in Z. rewrite W. split; [reflexivity|].
      unfold vec. rewrite W. f_equal. f_equal. lia.
    - destruct sh as [|n [|k [|? ?]]]; cbn; try discriminate.
      + intro Q. injection Q as <-. cbn in W. unfold vec. rewrite W. split; [lia|]. f_equal. f_equal. lia.
      + destruct (Nat.eqb_spec k 1); cbn; [|discriminate].
        intro Q. injection Q as <-. cbn in W. unfold vec. rewrite W. split; [lia|]. reflexivity.
  Qed.

  Lemma mapM_factor {A B C} (bd : A -> res B) (h : B -> C) l :
    mapM (fun k => let! b := bd k in Ok (h b)) l = let! bs := mapM bd l in Ok (map h bs).
  Proof.
    induction l as [|a l IH]; cbn; [reflexivity|].
    destruct (bd a) as [b|e]; cbn; [|reflexivity]. rewrite IH.
    now destruct (mapM bd l).
  Qed.
  Lemma mapM_ext {A B} (g h : A -> res B) l : (forall a, g a = h a) -> mapM g l = mapM h l.
  Proof. intro H. induction l as [|a l IH]; cbn; [reflexivity|]. now rewrite H, IH. Qed.
  Lemma mapM_length {A B} (g : A -> res B) l bs : mapM g l = Ok bs -> length bs = length l.
  Proof.
    revert bs. induction l as [|a l IH]; cbn; intros bs H; [now injection H as <-|].
    destruct (g a); cbn in H; [|discriminate]. destruct (mapM g l); cbn in H; [|discriminate].
    injection H as <-. cbn. f_equal. now apply IH.
  Qed.
  Lemma repeat_split {A} (z : A) n k : k < n -> repeat z (n - k) = z :: repeat z (n - S k).
  Proof. intro H. replace (n - k) with (S (n - S k)) by lia. reflexivity. Qed.
  Lemma upd_fill {A} (a : list A) z v n : length a < n ->
    upd (length a) v (a ++ repeat z (n - length a)) = (a ++ [v]) ++ repeat z (n - length (a ++ [v])).
  Proof.
    intro H. rewrite repeat_split by exact H. rewrite upd_head. rewrite <- app_assoc. cbn.
    rewrite app_length. cbn. repeat f_equal. lia.
  Qed.

  (** *** frequency_averaging, on any numbers for which the block means fit in the new array *)
  Definition coarse_fits : Prop :=
    forall (f : list N) dfDesired nFactor z,
      avg_factor f dfDesired = Ok nFactor -> int_floor (ndiv (nofnat (length f)) nFactor) = Ok z ->
      Z.to_nat z <= length f.

  Lemma averaging_dv m f0 s0 dfDesired :
    arg_ok Real m f0 -> arg_ok Real m s0 -> coarse_fits ->
    delivers m m (h_frequency_averaging f0 s0 dfDesired)
      (fun m' '(rf, rs) '(f, s) =>
         new_vec Real m m' rf f /\ new_vec Real m m' rs s /\ r_buf rf <> r_buf rs)
      (frequency_averaging (argval Real m f0) (argval Real m s0) dfDesired).
  Proof.
    intros Hf Hs Hfit. unfold h_frequency_averaging.
    destruct (h_vector_spec Real f0 m Hf) as (m1 & rf & Q1 & E1 & O1 & V1).
    apply dv_step with m1 (rf, snd (convert_to_vector (argval Real m f0))); [exact Q1|].
    destruct (h_vector_spec Real s0 m1 (arg_ok_ext Real _ _ _ E1 Hs)) as (m2 & rs & Q2 & E2 & O2 & V2).
    rewrite (argval_ext Real _ _ _ E1 Hs) in Q2, V2.
    apply dv_step with m2 (rs, snd (convert_to_vector (argval Real m s0))); [exact Q2|].
    assert (E : ext m m2) by now apply ext_trans with m1.
    pose proof (fun l => converted_len (argval Real m f0) l (arg_wf Real m f0 Hf)) as Lenf.
    unfold frequency_averaging.
    destruct (convert_to_vector (argval Real m f0)) as [f1 fSize] eqn:Cf.
    destruct (convert_to_vector (argval Real m s0)) as [s1 sSize] eqn:Cs.
    cbn [fst snd] in *.
    destruct (Nat.ltb 1 (snd fSize) || Nat.ltb 1 (snd sSize)) eqn:G; [now apply dv_raise|].
    assert (V1' : mkArr (r_shape rf) (read Real m2 rf) = f1).
    { rewrite (read_ext Real m1 m2 rf E2) by apply O1. exact V1. }
    apply dv_list; [exact E|exact V1'|]. intros f Lf.
    apply dv_list; [exact E|exact V2|]. intros s Ls.
    apply dv_lift; [exact E|]. intros nFactor HF.
    apply dv_lift; [exact E|]. intros z Hz.
    destruct (Lenf f Lf) as (Lf' & _). rewrite Lf' in Hz.
    pose proof (Hfit f _ _ _ HF Hz) as Hn. set (n := Z.to_nat z) in *. clearbody n.
    assert (Ln : length (slice 0 n f) = n).
    { unfold slice. rewrite firstn_length. cbn. lia. }
    rewrite Ln.
    pose proof (hvec_R m2 [] [] (repeat n0 n)) as A1. rewrite grow_nil in A1. cbn [app length] in A1.
    eapply dv_step; [exact A1|]. rewrite repeat_length.
    apply dv_lift; [apply ext_trans with m2; [exact E|apply ext_grow]|]. intros s00 Hs0.
    pose proof (hvec_R m2 [repeat n0 n] [] (repeat n0 n)) as A2. cbn [app length] in A2.
    eapply dv_step; [exact A2|]. rewrite repeat_length.
    set (bd := fun k => let! lo := int_trunc (nmul (nofnat k) nFactor) in
                        let! hi := int_trunc (nmul (nofnat (k + 1)) nFactor) in Ok (lo, hi)).
    set (mf := fun b : Z * Z => nmean (slice (Z.to_nat (fst b)) (Z.to_nat (snd b)) f)).
    set (ms := fun b : Z * Z => nmean (slice (Z.to_nat (fst b)) (Z.to_nat (snd b)) s)).
    assert (QF : forall v l, mapM (avg_block nFactor v) l =
      let! bs := mapM bd l in Ok (map (fun b : Z * Z => nmean (slice (Z.to_nat (fst b)) (Z.to_nat (snd b)) v)) bs)).
    { intros v l. rewrite <- mapM_factor. apply mapM_ext. intro k. unfold avg_block, bd.
      destruct (int_trunc (nmul (nofnat k) nFactor)); cbn; [|reflexivity].
      now destruct (int_trunc (nmul (nofnat (k + 1)) nFactor)). }
    rewrite (QF f), (QF s). clear QF.
    set (St := fun bs : list (Z * Z) =>
           grow m2 [map mf bs ++ repeat n0 (n - length bs); map ms bs ++ repeat n0 (n - length bs)] []).
    pose proof (fun l bs => mapM_length bd l bs) as ML.
    pose proof (@hfor_mapM N _ m bd St (fun iFreq =>
      do! ilow := hlift (int_trunc (nmul (nofnat iFreq) nFactor)) in
      do! ihigh := hlift (int_trunc (nmul (nofnat (iFreq + 1)) nFactor)) in
      do! f := hlist Real rf in
      do! _ := hstore Real (fresh_at Real m2 0 n) iFreq (nmean (slice (Z.to_nat ilow) (Z.to_nat ihigh) f)) in
      do! s := hlist Real rs in
      hstore Real (fresh_at Real m2 1 n) iFreq (nmean (slice (Z.to_nat ilow) (Z.to_nat ihigh) s))) n 0 []) as Loop.
    match type of Loop with ?P -> _ => assert (HP : P) end.
    { intros k bs Hk Hl. cbn [length] in Hl. rewrite Nat.sub_0_r in Hl. cbn [Nat.add] in Hl. unfold bd.
      assert (EX : ext m (St bs)) by (apply ext_trans with m2; [exact E|apply ext_grow]).
      unfold hbind, hlift.
      destruct (int_trunc (nmul (nofnat k) nFactor)) as [lo|e]; cbn [bind]; [|now exists (St bs)].
      destruct (int_trunc (nmul (nofnat (k + 1)) nFactor)) as [hi|e]; cbn [bind]; [|now exists (St bs)].
      assert (RF : forall er, hlist Real rf (grow m2 er []) = (grow m2 er [], Ok f)).
      { intro er. apply hlist_run.
        rewrite (read_ext Real m2) by (apply ext_grow || (pose proof (ext_len Real _ _ E2); destruct O1; lia)).
        rewrite V1'. exact Lf. }
      assert (RS : forall er, hlist Real rs (grow m2 er []) = (grow m2 er [], Ok s)).
      { intro er. apply hlist_run. rewrite (read_ext Real m2) by (apply ext_grow || apply O2).
        rewrite V2. exact Ls. }
      unfold St. rewrite RF. rewrite hstore_R by lia. rewrite RS. rewrite hstore_R by lia.
      cbn [nth upd]. f_equal. unfold grow. f_equal. f_equal.
      rewrite !map_app. cbn [map].
      pose proof (upd_fill (map mf bs) n0 (mf (lo, hi)) n) as U1.
      pose proof (upd_fill (map ms bs) n0 (ms (lo, hi)) n) as U2.
      rewrite !app_length, !map_length in U1, U2. rewrite Hl in *. rewrite app_length. rewrite Hl.
      cbn [length] in *. rewrite <- U1 by lia. rewrite <- U2 by lia. reflexivity. }
    specialize (Loop HP). clear HP.
    destruct (mapM bd (seq 0 n)) as [bs|e] eqn:MB; cbn [bind].
    - eapply dv_step; [|].
      + unfold St in Loop. cbn [length map app] in Loop. rewrite Nat.sub_0_r in Loop. exact Loop.
      + specialize (ML _ _ MB). rewrite seq_length in ML.
        apply dv_ret.
        * apply ext_trans with m2; [exact E|apply ext_grow].
        * unfold St. rewrite ML, Nat.sub_diag. cbn [repeat]. rewrite !app_nil_r.
          split; [|split].
          -- apply fresh_new_R; [exact E|cbn; lia|reflexivity|rewrite map_length; exact ML].
          -- apply fresh_new_R; [exact E|cbn; lia|reflexivity|rewrite map_length; exact ML].
          -- cbn. lia.
    - destruct Loop as (m' & L & EL). unfold St in L. cbn [length map app] in L. rewrite Nat.sub_0_r in L.
      eapply dv_step_raise; [exact L|exact EL].
  Qed.

  (** *** slices of new arrays *)
  Lemma upd_split {A} i (v : A) l : i < length l -> upd i v l = firstn i l ++ v :: skipn (S i) l.
  Proof.
    revert i. induction l as [|x l IH]; intros [|i] H; cbn in *; try lia; auto.
    f_equal. rewrite IH by lia. reflexivity.
  Qed.
  Lemma skipn_add {A} a : forall b (l : list A), skipn a (skipn b l) = skipn (b + a) l.
  Proof.
    intro b. induction b as [|b IH]; intro l; cbn; [reflexivity|].
    destruct l; cbn; [now destruct a|]. apply IH.
  Qed.
  Lemma upds_seq {A} (vs : list A) : forall i l, i + length vs <= length l ->
    upds (combine (seq i (length vs)) vs) l = firstn i l ++ vs ++ skipn (i + length vs) l.
  Proof.
    induction vs as [|v vs IH]; intros i l H; cbn [length seq combine upds].
    - rewrite Nat.add_0_r. cbn. now rewrite firstn_skipn.
    - cbn [length] in H. rewrite IH by (rewrite upd_length; lia).
      rewrite upd_split by lia.
      assert (L1 : length (firstn i l) = i) by (rewrite firstn_length; lia).
      rewrite firstn_app, skipn_app, L1.
      replace (S i - i) with 1 by lia. rewrite firstn_all2 by (rewrite L1; lia). cbn [firstn].
      rewrite skipn_all2 by (rewrite L1; lia). cbn [app].
      replace (S i + length vs - i) with (S (length vs)) by lia.
      change (skipn (S (length vs)) (v :: skipn (S i) l)) with (skipn (length vs) (skipn (S i) l)).
      rewrite skipn_add, <- app_assoc. cbn [app]. do 2 f_equal. f_equal. f_equal. lia.
  Qed.
  Lemma slice_seq_length i j n : length (slice i j (seq 0 n)) = Nat.min (j - i) (n - i).
  Proof. unfold slice. rewrite firstn_length, skipn_length, seq_length. reflexivity. Qed.
  Lemma fit_length {A} n (src vs : list A) : fit n src = Ok vs -> length vs = n.
  Proof.
    unfold fit. destruct (Nat.eqb_spec (length src) n) as [E|E].
    - intro H. injection H as <-. exact E.
    - destruct src as [|v [|? ?]]; try discriminate. intro H. injection H as <-. apply repeat_length.
  Qed.
  Lemma fit_same {A} n (src : list A) : length src = n -> fit n src = Ok src.
  Proof. intro H. unfold fit. now rewrite H, Nat.eqb_refl. Qed.

  Lemma hstore_slice_C (m : mem) er ec k n i j src vs :
    k < length ec -> length (nth k ec []) = n -> j <= n -> i <= j -> fit (j - i) src = Ok vs ->
    hstore_slice Complex (fresh_at Complex m k n) i j src (grow m er ec) =
      (grow m er (upd k (firstn i (nth k ec []) ++ vs ++ skipn j (nth k ec [])) ec), Ok tt).
  Proof.
    intros Hk Hl Hj Hi Hf. unfold hstore_slice. cbn [fresh_at r_idx]. rewrite slice_seq_length.
    replace (Nat.min (j - i) (n - i)) with (j - i) by lia.
    unfold hbind at 1, hlift. rewrite Hf.
    pose proof (fit_length _ _ _ Hf) as Lv. rewrite <- Lv.
    rewrite hstores_C; [|exact Hk|].
    - rewrite upds_seq by (rewrite Hl; lia). replace (i + length vs) with j by lia. reflexivity.
    - rewrite Forall_forall. intros [a v] Hin. apply in_combine_l in Hin. rewrite in_seq in Hin. cbn. lia.
  Qed.
  Lemma hstore_slice_C_raise (m : mem) er ec k n i j src e :
    j <= n -> i <= j -> fit (j - i) src = Raise e ->
    hstore_slice Complex (fresh_at Complex m k n) i j src (grow m er ec) = (grow m er ec, Raise e).
  Proof.
    intros Hj Hi Hf. unfold hstore_slice. cbn [fresh_at r_idx]. rewrite slice_seq_length.
    replace (Nat.min (j - i) (n - i)) with (j - i) by lia.
    unfold hbind at 1, hlift. now rewrite Hf.
  Qed.

  Lemma hlist_fresh_C (m : mem) er ec k n l : k < length ec -> nth k ec [] = l -> length l = n ->
    hlist Complex (fresh_at Complex m k n) (grow m er ec) = (grow m er ec, Ok l).
  Proof.
    intros Hk Hl Hn. apply hlist_run. rewrite read_fresh_C by (rewrite ?Hl; auto). now rewrite Hl.
  Qed.
  Lemma hlist_fresh_R (m : mem) er ec k n l : k < length er -> nth k er [] = l -> length l = n ->
    hlist Real (fresh_at Real m k n) (grow m er ec) = (grow m er ec, Ok l).
  Proof.
    intros Hk Hl Hn. apply hlist_run. rewrite read_fresh_R by (rewrite ?Hl; auto). now rewrite Hl.
  Qed.

  (** the 1-D array [r] of a memory read later *)
  Lemma hlist_later {A} (d : dtype N A) m m' r v l :
    ext m m' -> r_buf r < length (bufs d m) -> mkArr (r_shape r) (read d m r) = v -> as_list v = Ok l ->
    hlist d r m' = (m', Ok l).
  Proof.
    intros E O V L. apply hlist_run. rewrite (read_ext d m m' r E O). now rewrite V.
  Qed.

  (** two array arguments, converted *)
  Lemma two_vectors {A B C D} (d1 : dtype N A) (d2 : dtype N B) p1 p2 m
        (k : ref -> nat * nat -> ref -> nat * nat -> hp N C) (rel : mem -> C -> D -> Prop)
        (k' : arr A -> nat * nat -> arr B -> nat * nat -> res D) :
    arg_ok d1 m p1 -> arg_ok d2 m p2 ->
    (forall m2 r1 r2,
       ext m m2 -> ref_ok d1 m2 r1 -> ref_ok d2 m2 r2 ->
       mkArr (r_shape r1) (read d1 m2 r1) = fst (convert_to_vector (argval d1 m p1)) ->
       mkArr (r_shape r2) (read d2 m2 r2) = fst (convert_to_vector (argval d2 m p2)) ->
       delivers m m2 (k r1 (snd (convert_to_vector (argval d1 m p1))) r2 (snd (convert_to_vector (argval d2 m p2)))) rel
         (k' (fst (convert_to_vector (argval d1 m p1))) (snd (convert_to_vector (argval d1 m p1)))
             (fst (convert_to_vector (argval d2 m p2))) (snd (convert_to_vector (argval d2 m p2))))) ->
    delivers m m (do! (r1, z1) := h_vector d1 p1 in do! (r2, z2) := h_vector d2 p2 in k r1 z1 r2 z2) rel
      (let '(a1, z1) := convert_to_vector (argval d1 m p1) in
       let '(a2, z2) := convert_to_vector (argval d2 m p2) in k' a1 z1 a2 z2).
  Proof.
    intros H1 H2 K.
    destruct (h_vector_spec d1 p1 m H1) as (m1 & r1 & Q1 & E1 & O1 & V1).
    eapply dv_step; [exact Q1|].
    destruct (h_vector_spec d2 p2 m1 (arg_ok_ext d2 _ _ _ E1 H2)) as (m2 & r2 & Q2 & E2 & O2 & V2).
    rewrite (argval_ext d2 _ _ _ E1 H2) in Q2, V2.
    eapply dv_step; [exact Q2|].
    specialize (K m2 r1 r2).
    destruct (convert_to_vector (argval d1 m p1)) as [a1 z1].
    destruct (convert_to_vector (argval d2 m p2)) as [a2 z2]. cbn [fst snd] in *.
    apply K; auto.
    - now apply ext_trans with m1.
    - now apply ref_ok_ext with m1.
    - rewrite (read_ext d1 m1 m2 r1 E2) by apply O1. exact V1.
  Qed.

  Lemma unfold_dv m f0 x0 isOdd :
    arg_ok Real m f0 -> arg_ok Complex m x0 ->
    delivers m m (h_unfold_spectrum f0 x0 isOdd)
      (fun m' '(rf, rx) '(f, x) => new_vec Real m m' rf f /\ new_vec Complex m m' rx x)
      (unfold_spectrum (argval Real m f0) (argval Complex m x0) isOdd).
  Proof.
    intros Hf Hx. unfold h_unfold_spectrum, unfold_spectrum.
    pose proof (fun l => converted_len (argval Real m f0) l (arg_wf Real m f0 Hf)) as Lenf.
    apply (two_vectors Real Complex); [exact Hf|exact Hx|].
    intros m2 rf rx E O1 O2 V1 V2.
    destruct (convert_to_vector (argval Real m f0)) as [f1 fSize].
    destruct (convert_to_vector (argval Complex m x0)) as [x1 xSize]. cbn [fst snd] in *.
    destruct (Nat.ltb 1 (snd fSize) || Nat.ltb 1 (snd xSize)) eqn:G; [now apply dv_raise|].
    apply dv_list; [exact E|exact V1|]. intros f Lf.
    apply dv_list; [exact E|exact V2|]. intros x Lx.
    apply dv_lift; [exact E|]. intros fb Hb.
    apply dv_lift; [exact E|]. intros fa Ha.
    destruct (Lenf f Lf) as (Lf' & _). rewrite Lf'.
    assert (Hn : 2 <= length f).
    { unfold idx in Hb. destruct (nth_error f 1) eqn:Q; [|discriminate].
      assert (K : nth_error f 1 <> None) by congruence. apply nth_error_Some in K. lia. }
    set (n := length f) in *. clearbody n.
    set (odd := if isOdd then 1 else 0). assert (Ho : odd <= 1) by (unfold odd; destruct isOdd; lia).
    clearbody odd. set (nT := (n - 1) * 2 + odd).
    set (fT := map (fun k => nmul (nofnat k) (nsub fb fa)) (seq 0 nT)).
    pose proof (hvec_R m2 [] [] fT) as A1. rewrite grow_nil in A1. cbn [app length] in A1.
    eapply dv_step; [exact A1|].
    pose proof (hvec_C m2 [fT] [] (repeat c0 nT)) as A2. cbn [app length] in A2.
    eapply dv_step; [exact A2|]. rewrite repeat_length.
    eapply dv_step; [apply (hlist_later Complex m2) with (v := x1) (l := x); [apply ext_grow|apply O2|exact V2|exact Lx]|].
    assert (EX : forall er ec, ext m (grow m2 er ec))
      by (intros; apply ext_trans with m2; [exact E|apply ext_grow]).
    destruct (fit n (slice 0 n x)) as [head|e] eqn:F; cbn [bind].
    2:{ eapply dv_step_raise; [|apply EX]. apply hstore_slice_C_raise; [lia|lia|]. rewrite Nat.sub_0_r. exact F. }
    pose proof (fit_length _ _ _ F) as Lh.
    eapply dv_step.
    { apply hstore_slice_C with (vs := head); cbn [nth length]; rewrite ?repeat_length; try lia.
      rewrite Nat.sub_0_r. exact F. }
    cbn [nth upd firstn app].
    set (buf := head ++ skipn n (repeat c0 nT)).
    assert (Lb : length buf = nT).
    { unfold buf. rewrite app_length, skipn_length, repeat_length, Lh. lia. }
    eapply dv_step; [apply hlist_fresh_C; [cbn; lia|reflexivity|exact Lb]|]. cbn [nth].
    assert (Ls : slice 1 n buf = slice 1 n head).
    { unfold slice, buf. rewrite skipn_app, firstn_app. rewrite skipn_length, Lh, Nat.sub_diag.
      cbn [firstn]. now rewrite app_nil_r. }
    rewrite Ls.
    set (tail := rev (map cconj (slice 1 n head))).
    assert (Lt : length tail = n - 1).
    { unfold tail. rewrite rev_length, map_length. unfold slice. rewrite firstn_length, skipn_length, Lh. lia. }
    eapply dv_step.
    { apply hstore_slice_C with (vs := tail); cbn [nth length]; try lia. apply fit_same. lia. }
    cbn [nth upd].
    assert (Q : firstn (n - 1 + odd) buf ++ tail ++ skipn nT buf = firstn (n - 1 + odd) head ++ tail).
    { rewrite skipn_all2 by lia. rewrite app_nil_r. f_equal. unfold buf. rewrite firstn_app.
      replace (n - 1 + odd - length head) with 0 by lia. cbn [firstn]. now rewrite app_nil_r. }
    rewrite Q. apply dv_ret; [apply EX|]. split.
    - apply fresh_new_R; [exact E|cbn; lia|reflexivity|]. reflexivity.
    - apply fresh_new_C; [exact E|cbn; lia|reflexivity|]. rewrite app_length, firstn_length. lia.
  Qed.

  Lemma freq2time_converted (p : arraylike cpx) : freq2time (Arr (fst (convert_to_vector p))) = freq2time p.
  Proof.
    unfold freq2time. rewrite convert_again. destruct (convert_to_vector p) as [a [n k]]. cbn [fst snd].
    destruct (Nat.eqb_spec k 1) as [->|]; reflexivity.
  Qed.
  Lemma freq2time_dv m x0 :
    arg_ok Complex m x0 ->
    delivers m m (h_freq2time x0) (fun m' r v => new_vec Real m m' r v) (freq2time (argval Complex m x0)).
  Proof.
    intro H. unfold h_freq2time.
    destruct (h_vector_spec Complex x0 m H) as (m1 & r & Q & E & O & V).
    eapply dv_step; [exact Q|]. eapply dv_step; [reflexivity|].
    rewrite V, freq2time_converted.
    destruct (freq2time (argval Complex m x0)) as [y|e].
    - eapply dv_step; [reflexivity|]. now apply dv_vec.
    - eapply dv_step_raise; [reflexivity|exact E].
  Qed.

  Lemma time2freq_converted (p q : arraylike N) : time2freq_nyquist (Arr (fst (convert_to_vector p))) (Arr (fst (convert_to_vector q))) = time2freq_nyquist p q.
  Proof.
    unfold time2freq_nyquist. rewrite !convert_again.
    destruct (convert_to_vector p) as [a [n k]]. destruct (convert_to_vector q) as [b [n' k']]. cbn [fst snd].
    destruct (Nat.eqb_spec k 1) as [->|], (Nat.eqb_spec k' 1) as [->|]; reflexivity.
  Qed.
  Lemma time2freq_nyquist_dv m t0 x0 :
    arg_ok Real m t0 -> arg_ok Real m x0 ->
    delivers m m (h_time2freq_nyquist t0 x0)
      (fun m' '(rf, rX, o) '(f, X, o') => new_vec Real m m' rf f /\ new_vec Complex m m' rX X /\ o = o')
      (time2freq_nyquist (argval Real m t0) (argval Real m x0)).
  Proof.
    intros Ht Hx. unfold h_time2freq_nyquist. rewrite <- time2freq_converted.
    match goal with |- delivers _ _ _ ?rel ?R =>
      assert (Q : R = let '(a1, z1) := convert_to_vector (argval Real m t0) in
                      let '(a2, z2) := convert_to_vector (argval Real m x0) in
                      time2freq_nyquist (Arr a1) (Arr a2))
    end.
    { destruct (convert_to_vector (argval Real m t0)). now destruct (convert_to_vector (argval Real m x0)). }
    rewrite Q. clear Q.
    apply (two_vectors Real Real t0 x0 m
             (fun rt _ rx _ =>
                do! t := hread Real rt in
                do! x := hread Real rx in
                do! (f, X, isOdd) := hlift (time2freq_nyquist (Arr (mkArr (r_shape rt) t)) (Arr (mkArr (r_shape rx) x))) in
                do! rf := hvec Real f in
                do! rX := hvec Complex X in
                hret (rf, rX, isOdd))
             _ (fun a1 _ a2 _ => time2freq_nyquist (Arr a1) (Arr a2))); [exact Ht|exact Hx|].
    intros m2 rt rx E O1 O2 V1 V2.
    eapply dv_step; [reflexivity|]. eapply dv_step; [reflexivity|]. rewrite V1, V2.
    destruct (time2freq_nyquist _ _) as [[[f X] o]|e]; [|eapply dv_step_raise; [reflexivity|exact E]].
    eapply dv_step; [reflexivity|]. cbn beta iota.
    destruct (hvec_new Real m2 f) as (m3 & rf & Q3 & E3 & K3).
    eapply dv_step; [exact Q3|].
    destruct (hvec_new Complex m3 X) as (m4 & rX & Q4 & E4 & K4).
    eapply dv_step; [exact Q4|].
    assert (E23 : ext m m3) by now apply ext_trans with m2.
    apply dv_ret; [now apply ext_trans with m3|].
    split; [|split; [|reflexivity]].
    - apply new_vec_ext with m3; [exact E4|]. now apply new_vec_base with m2.
    - now apply new_vec_base with m3.
  Qed.

  (** *** applybandfilter *)
  (** a 1-D array of the caller *)
  Definition is_vec {A} (d : dtype N A) (m : mem) (r : ref) (l : list A) : Prop :=
    r_buf r < length (bufs d m) /\ length (r_idx r) = length l /\ r_shape r = [length l] /\ read d m r = l.
  Lemma new_is_vec {A} (d : dtype N A) m m' r l : new_vec d m m' r l -> is_vec d m' r l.
  Proof.
    intros K. pose proof (new_vec_read d _ _ _ _ K) as KR.
    destruct K as (H & K1 & K2 & K3). split; [lia|]. split; [now rewrite K1, seq_length|]. auto.
  Qed.
  Lemma is_vec_ext {A} (d : dtype N A) m m' r l : ext m m' -> is_vec d m r l -> is_vec d m' r l.
  Proof.
    intros E (H & K1 & K2 & K3). pose proof (ext_len d _ _ E). split; [lia|]. split; [auto|]. split; [auto|].
    now rewrite (read_ext d m m' r E H).
  Qed.
  Lemma is_vec_list {A} (d : dtype N A) m r l : is_vec d m r l -> hlist d r m = (m, Ok l).
  Proof. intros (H & K1 & K2 & K3). apply hlist_run. now rewrite K2, K3. Qed.
  Lemma is_vec_ok {A} (d : dtype N A) m r l : is_vec d m r l -> ref_ok d m r.
  Proof. intros (H & K1 & K2 & K3). split; [exact H|]. rewrite K1, K2. unfold prod. cbn. lia. Qed.
  Lemma is_vec_arg {A} (d : dtype N A) m r l : is_vec d m r l -> argval d m (PArr r) = Arr (vec l).
  Proof. intros (H & K1 & K2 & K3). cbn. now rewrite K2, K3. Qed.

  Lemma slice_len {A} i j (l : list A) : length (slice i j l) = Nat.min (j - i) (length l - i).
  Proof. unfold slice. now rewrite firstn_length, skipn_length. Qed.

  Lemma nth_firstn_repeat {A} (z : A) k i n : nth k (firstn i (repeat z n)) z = z.
  Proof. revert k i. induction n as [|n IH]; intros [|k] [|i]; cbn; auto. Qed.
  Lemma nth_skipn_repeat {A} (z : A) k i n : nth k (skipn i (repeat z n)) z = z.
  Proof. revert i. induction n as [|n IH]; intros [|i]; cbn; try (now destruct k); auto. destruct k; [reflexivity|]. apply nth_repeat. Qed.
  Lemma band_fill (x : list cpx) i j n :
    length x = n ->
    upds (combine (seq i (Nat.min (j - i) (n - i))) (slice i j x)) (repeat c0 n) =
    map2 (fun k z => if Nat.leb i k && Nat.ltb k j then z else c0) (seq 0 n) x.
  Proof.
    intro Hx.
    assert (L : length (slice i j x) = Nat.min (j - i) (n - i)) by (rewrite slice_len, Hx; reflexivity).
    assert (Z : length (map2 (fun k z => if Nat.leb i k && Nat.ltb k j then z else c0) (seq 0 n) x) = n).
    { rewrite map2_length, seq_length. lia. }
    destruct (Nat.le_gt_cases i n) as [Hi|Hi].
    - rewrite <- L. rewrite upds_seq by (rewrite repeat_length, L; lia). rewrite L.
      apply nth_ext with (d := c0) (d' := c0).
      + rewrite !app_length, firstn_length, skipn_length, repeat_length, L, Z. lia.
      + intros k Hk. rewrite !app_length, firstn_length, skipn_length, repeat_length, L in Hk.
        rewrite map2_nth with (a := 0) (b := c0) by (rewrite ?seq_length; lia).
        rewrite seq_nth by lia. cbn [Nat.add].
        destruct (Nat.leb_spec i k).
        * rewrite app_nth2 by (rewrite firstn_length, repeat_length; lia).
          rewrite firstn_length, repeat_length. replace (Nat.min i n) with i by lia.
          destruct (Nat.ltb_spec k j); cbn [andb].
          -- rewrite app_nth1 by (rewrite L; lia).
             rewrite slice_nth by lia. f_equal. lia.
          -- rewrite app_nth2 by (rewrite L; lia). apply nth_skipn_repeat.
        * cbn [andb]. rewrite app_nth1 by (rewrite firstn_length, repeat_length; lia).
          apply nth_firstn_repeat.
    - replace (Nat.min (j - i) (n - i)) with 0 by lia. cbn [seq combine upds].
      apply nth_ext with (d := c0) (d' := c0); [now rewrite repeat_length|].
      intros k Hk. rewrite repeat_length in Hk.
      rewrite map2_nth with (a := 0) (b := c0) by (rewrite ?seq_length; lia).
      rewrite seq_nth by lia. cbn [Nat.add]. destruct (Nat.leb_spec i k); [lia|]. cbn [andb].
      apply nth_repeat.
  Qed.

  Lemma applybandfilter_dv m rf rx f x flow fhigh :
    is_vec Real m rf f -> is_vec Complex m rx x ->
    delivers m m (h_applybandfilter rf rx flow fhigh)
      (fun m' r z => new_vec Complex m m' r z) (applybandfilter f x flow fhigh).
  Proof.
    intros Hf Hx. unfold h_applybandfilter, applybandfilter.
    eapply dv_step; [exact (is_vec_list Real _ _ _ Hf)|].
    eapply dv_step; [exact (is_vec_list Complex _ _ _ Hx)|].
    pose proof (ext_refl m) as E.
    apply dv_lift; [exact E|]. intros ffirst H0.
    apply dv_lift; [exact E|]. intros flast H1.
    assert (K : forall (c1 c2 : bool) (a b : nat) (r : res nat),
      (if c1 then hret a else if c2 then hret b else do! i := hlift r in hret (i + 1)) =
      hlift (N:=N) (if c1 then Ok a else if c2 then Ok b else let! i := r in Ok (i + 1))).
    { intros [] [] a b [v|e]; reflexivity. }
    rewrite K. clear K.
    apply dv_lift; [exact E|]. intros ilow H2.
    assert (K : forall (c1 c2 : bool) (a b : nat) (r : res nat),
      (if c1 then hret a else if c2 then hret b else hlift r) =
      hlift (N:=N) (if c1 then Ok a else if c2 then Ok b else r)).
    { intros [] [] a b [v|e]; reflexivity. }
    rewrite K. clear K.
    apply dv_lift; [exact E|]. intros ihigh H3.
    pose proof (hvec_C m [] [] (repeat c0 (length x))) as A1. rewrite grow_nil in A1. cbn [app length] in A1.
    eapply dv_step; [exact A1|]. rewrite repeat_length.
    eapply dv_step; [exact (is_vec_list Complex _ _ _ (is_vec_ext Complex _ _ _ _ (ext_grow m [] _) Hx))|].
    unfold hstore_slice. cbn [fresh_at r_idx]. rewrite slice_seq_length.
    rewrite fit_same by apply slice_len.
    eapply dv_step.
    { unfold hbind at 1, hlift.
      rewrite hstores_C; [reflexivity|cbn; lia|].
      rewrite Forall_forall. intros [a v] Hin. apply in_combine_l in Hin. rewrite in_seq in Hin. cbn. lia. }
    cbn [nth upd]. rewrite band_fill by reflexivity.
    apply dv_ret; [apply ext_grow|].
    apply fresh_new_C; [exact E|cbn; lia|reflexivity|]. rewrite map2_length, seq_length. lia.
  Qed.

  (** *** bandpassfilter *)
  Lemma bandpass_dv m t0 x0 flow fhigh :
    arg_ok Real m t0 -> arg_ok Real m x0 ->
    delivers m m (h_bandpassfilter t0 x0 flow fhigh)
      (fun m' r v => new_vec Real m m' r v)
      (bandpassfilter (argval Real m t0) (argval Real m x0) flow fhigh).
  Proof.
    intros Ht Hx. unfold h_bandpassfilter, bandpassfilter.
    eapply dv_call; [apply ext_refl|now apply time2freq_nyquist_dv|].
    intros m1 [[rf rX] o] [[f X] o'] E1 (K1 & K2 & <-) _.
    eapply dv_call; [exact E1|eapply applybandfilter_dv; eapply new_is_vec; eassumption|].
    intros m2 rz z E2 K3 _.
    pose proof (is_vec_ext Real _ _ _ _ E2 (new_is_vec Real _ _ _ _ K1)) as Vf.
    pose proof (new_is_vec Complex _ _ _ _ K3) as Vz.
    pose proof (unfold_dv m2 (PArr rf) (PArr rz) o (is_vec_ok Real _ _ _ Vf) (is_vec_ok Complex _ _ _ Vz)) as U.
    rewrite (is_vec_arg Real _ _ _ Vf), (is_vec_arg Complex _ _ _ Vz) in U.
    assert (E12 : ext m m2) by now apply ext_trans with m1.
    eapply dv_call; [exact E12|exact U|].
    intros m3 [rU1 rU] [u1 u] E3 (_ & K4) _.
    assert (E13 : ext m m3) by now apply ext_trans with m2.
    pose proof (new_is_vec Complex _ _ _ _ K4) as Vu.
    pose proof (freq2time_dv m3 (PArr rU) (is_vec_ok Complex _ _ _ Vu)) as T.
    rewrite (is_vec_arg Complex _ _ _ Vu) in T.
    apply dv_base with m3; [exact E13|].
    eapply dv_weaken; [|exact T]. intros m4 r v E4 K. now apply new_vec_base with m3.
  Qed.

  (** *** spectrum2timeseries, for numbers on which the generated frequencies are half the samples *)
  Definition synth_fits : Prop :=
    forall (tInit tEnd dt : N) t fGen,
      np_arange tInit (nadd tEnd dt) dt = Ok t ->
      let nTimeEven := 2 * ((length t + 1) / 2) in
      neqb (nmul (nofnat nTimeEven) dt) n0 = false ->
      let dfGen := ndiv n1 (nmul (nofnat nTimeEven) dt) in
      np_arange dfGen (nadd (ndiv n1 (nmul (nofZ 2) dt)) (ndiv dfGen (nofZ 2))) dfGen = Ok fGen ->
      0 < length fGen /\ 2 * length fGen = nTimeEven.

  Lemma synthesis_dv {RS : Type} (rng_seed : Z -> RS) (rng_rand : RS -> nat -> list N * RS) m rs f0 s0 tInit tEnd dt seed :
    arg_ok Real m f0 -> arg_ok Real m s0 ->
    synth_fits -> (forall r n, length (fst (rng_rand r n)) = n) ->
    delivers m m (h_spectrum2timeseries rng_seed rng_rand rs f0 s0 tInit tEnd dt seed)
      (fun m' '(rt, rx, r) '(t, x, r') =>
         new_vec Real m m' rt t /\ new_vec Real m m' rx x /\ r_buf rt <> r_buf rx /\ r = r')
      (spectrum2timeseries RS rng_seed rng_rand rs (argval Real m f0) (argval Real m s0) tInit tEnd dt seed).
  Proof.
    intros Hf Hs Hfit Hrand. unfold h_spectrum2timeseries, spectrum2timeseries.
    assert (As : forall m', ext m m' -> argval Real m' s0 = argval Real m s0)
      by (intros; now apply argval_ext).
    apply (two_vectors Real Real); [exact Hf|exact Hs|].
    intros m2 rf rs0 E O1 O2 V1 V2.
    destruct (convert_to_vector (argval Real m f0)) as [f1 fSize].
    destruct (convert_to_vector (argval Real m s0)) as [s1 sSize]. cbn [fst snd] in *.
    destruct (Nat.ltb 1 (snd fSize) || Nat.ltb 1 (snd sSize)) eqn:G; [now apply dv_raise|].
    destruct (negb (Nat.eqb (fst fSize) (fst sSize))) eqn:G2; [now apply dv_raise|].
    apply dv_list; [exact E|exact V1|]. intros f Lf.
    apply dv_lift; [exact E|]. intros t Ht.
    pose proof (hvec_R m2 [] [] t) as A1. rewrite grow_nil in A1. cbn [app length] in A1.
    eapply dv_step; [exact A1|].
    assert (EX : forall er ec, ext m (grow m2 er ec))
      by (intros; apply ext_trans with m2; [exact E|apply ext_grow]).
    cbn zeta. set (nTE := 2 * ((length t + 1) / 2)).
    destruct (neqb (nmul (nofnat nTE) dt) n0) eqn:G3; [apply dv_raise, EX|].
    apply dv_lift; [apply EX|]. intros fGen Hg.
    destruct (Hfit tInit tEnd dt t fGen Ht G3 Hg) as (Z0 & HnF). fold nTE in HnF.
    clearbody nTE. set (nF := length fGen) in *.
    eapply dv_step; [reflexivity|]. rewrite As by apply EX.
    apply dv_lift; [apply EX|]. intros s Lsv.
    apply dv_lift; [apply EX|]. intros sGen HsG.
    destruct (Z.ltb 4294967295 seed); [apply dv_raise, EX|].
    pose proof (Hrand (if Z.leb 0 seed then rng_seed seed else rs) nF) as Hu.
    destruct (rng_rand (if Z.leb 0 seed then rng_seed seed else rs) nF) as [u rs'] eqn:U. cbn [fst] in Hu.
    match goal with |- context [map2 ?op ?a ?p] => set (comp := map2 op a p) end.
    assert (Lc : length comp = nF).
    { unfold comp. rewrite map2_length, !map_length, Hu. rewrite (mapM_length _ _ _ HsG). fold nF. lia. }
    clearbody comp.
    pose proof (hvec_C m2 [t] [] (repeat c0 nTE)) as A2. cbn [app length] in A2.
    eapply dv_step; [exact A2|]. rewrite repeat_length.
    assert (LX : length (firstn nF (c0 :: comp) ++ rev (map cconj comp)) = nTE).
    { rewrite app_length, firstn_length, rev_length, map_length. cbn [length]. lia. }
    rewrite LX, Nat.eqb_refl. cbn [negb].
    eapply dv_step.
    { apply hstore_slice_C with (vs := comp); cbn [nth length]; rewrite ?repeat_length; try lia.
      apply fit_same. lia. }
    cbn [nth upd].
    assert (Q1 : firstn 1 (repeat c0 nTE) = [c0 (N:=N)]).
    { destruct nTE; [lia|]. reflexivity. }
    rewrite Q1. clear Q1. cbn [app].
    set (buf := c0 :: comp ++ skipn (nF + 1) (repeat c0 nTE)).
    assert (Lb : length buf = nTE).
    { unfold buf. cbn [length]. rewrite app_length, skipn_length, repeat_length. lia. }
    eapply dv_step; [apply hlist_fresh_C; [cbn; lia|reflexivity|exact Lb]|]. cbn [nth].
    assert (Q2 : slice 1 (nF + 1) buf = comp).
    { unfold slice, buf. cbn [skipn]. replace (nF + 1 - 1) with (length comp) by lia.
      rewrite firstn_app, firstn_all, Nat.sub_diag. cbn [firstn]. apply app_nil_r. }
    rewrite Q2.
    eapply dv_step.
    { apply hstore_slice_C with (vs := rev (map cconj comp)); cbn [nth length]; rewrite ?repeat_length; try lia.
      apply fit_same. rewrite rev_length, map_length. lia. }
    cbn [nth upd].
    assert (Q3 : firstn nF buf ++ rev (map cconj comp) ++ skipn nTE buf =
                 firstn nF (c0 :: comp) ++ rev (map cconj comp)).
    { rewrite skipn_all2 by lia. rewrite app_nil_r. f_equal. unfold buf.
      change (c0 :: comp ++ skipn (nF + 1) (repeat c0 nTE)) with ((c0 :: comp) ++ skipn (nF + 1) (repeat c0 nTE)).
      rewrite firstn_app. cbn [length]. replace (nF - S (length comp)) with 0 by lia. cbn [firstn]. apply app_nil_r. }
    rewrite Q3.
    eapply dv_step; [apply hlist_fresh_C; [cbn; lia|reflexivity|exact LX]|]. cbn [nth].
    match goal with |- context [hvec Real ?l] => set (xT := l) end.
    pose proof (hvec_R m2 [t] [firstn nF (c0 :: comp) ++ rev (map cconj comp)] xT) as A3. cbn [app length] in A3.
    eapply dv_step; [exact A3|].
    apply dv_ret; [apply EX|]. split; [|split; [|split]].
    - apply fresh_new_R; [exact E|cbn; lia|reflexivity|reflexivity].
    - apply fresh_new_R; [exact E|cbn; lia|reflexivity|reflexivity].
    - cbn. lia.
    - reflexivity.
  Qed.

  (** *** assignment to the elements that satisfy a condition *)
  Lemma where_from_in {A} (p : A -> bool) (d : A) l : forall k i,
    In i (where_from k p l) <-> k <= i < k + length l /\ p (nth (i - k) l d) = true.
  Proof.
    induction l as [|x l IH]; intros k i; cbn [where_from].
    - cbn. split; [intros []|lia].
    - assert (Q : In i (where_from (S k) p l) <-> k < i < k + length (x :: l) /\ p (nth (i - k) (x :: l) d) = true).
      { rewrite IH. cbn [length]. split; intros (H1 & H2); (split; [lia|]).
        - replace (i - k) with (S (i - S k)) by lia. exact H2.
        - replace (i - k) with (S (i - S k)) in H2 by lia. exact H2. }
      destruct (p x) eqn:P; cbn [In]; rewrite Q; clear Q.
      + split.
        * intros [<-|(H1 & H2)]; [|split; [lia|exact H2]].
          rewrite Nat.sub_diag. cbn [length nth]. split; [lia|exact P].
        * intros (H1 & H2). destruct (Nat.eq_dec k i); [now left|]. right. split; [lia|exact H2].
      + split; intros (H1 & H2); (split; [|exact H2]); [lia|].
        destruct (Nat.eq_dec k i) as [->|]; [|lia].
        rewrite Nat.sub_diag in H2. cbn in H2. congruence.
  Qed.
  Lemma where_in {A} (p : A -> bool) (d : A) l i : In i (where_ p l) <-> i < length l /\ p (nth i l d) = true.
  Proof.
    unfold where_. rewrite (where_from_in p d). rewrite Nat.sub_0_r. cbn. intuition lia.
  Qed.
  Lemma where_nodup {A} (p : A -> bool) l : NoDup (where_ p l).
  Proof.
    unfold where_. generalize 0. induction l as [|x l IH]; intro k; cbn; [constructor|].
    destruct (p x); [|apply IH]. constructor; [|apply IH].
    rewrite (where_from_in p x). lia.
  Qed.
  Lemma nth_map_seq {A} (h : nat -> A) n i d : i < n -> nth i (map h (seq 0 n)) d = h i.
  Proof.
    intro Hi. rewrite (nth_indep _ d (h 0)) by (rewrite map_length, seq_length; exact Hi).
    rewrite map_nth, seq_nth by exact Hi. reflexivity.
  Qed.
  Lemma upds_where {A B} (p : B -> bool) (L : list B) (dB : B) (g : nat -> A) (d : A) buf n :
    length L = n -> length buf = n ->
    upds (map (fun i => (i, g i)) (where_ p L)) buf =
    map (fun i => if p (nth i L dB) then g i else nth i buf d) (seq 0 n).
  Proof.
    intros HL Hb.
    assert (FA : Forall (fun iv : nat * A => fst iv < length buf) (map (fun i => (i, g i)) (where_ p L))).
    { rewrite Forall_forall. intros [i v] Hin. rewrite in_map_iff in Hin. destruct Hin as (j & Q & Hj).
      injection Q as -> _. rewrite (where_in p dB) in Hj. cbn. lia. }
    apply nth_ext with (d := d) (d' := d).
    { rewrite upds_length, map_length, seq_length. exact Hb. }
    intros i Hi. rewrite upds_length, Hb in Hi.
    rewrite nth_map_seq by exact Hi.
    assert (MF : map fst (map (fun i => (i, g i)) (where_ p L)) = where_ p L).
    { rewrite map_map. cbn. apply map_id. }
    destruct (p (nth i L dB)) eqn:P.
    - apply upds_at; [exact FA|rewrite MF; apply where_nodup|].
      apply in_map_iff. exists i. split; [reflexivity|]. apply (where_in p dB). split; [lia|exact P].
    - apply upds_other; [exact FA|]. rewrite MF, (where_in p dB). intros (_ & Q). congruence.
  Qed.
  Lemma where_bound {A} (p : A -> bool) (d : A) (l : list A) (v : nat -> A) n : length l = n ->
    Forall (fun iv : nat * A => fst iv < n) (map (fun i => (i, v i)) (where_ p l)).
  Proof.
    intro Hn. rewrite Forall_forall. intros [i w] Hin. apply in_map_iff in Hin. destruct Hin as (j & Q & Hj).
    injection Q as -> _. apply (where_in p d) in Hj. cbn. lia.
  Qed.
  Lemma map_seq_nth' {A B} (h : A -> B) (d : A) l : map (fun i => h (nth i l d)) (seq 0 (length l)) = map h l.
  Proof.
    rewrite <- (map_map (fun i => nth i l d) h). f_equal. apply map_nth_seq.
  Qed.

  (** *** assignments to a new array, wherever it is *)
  Lemma hstores_new_R m0 m r l ivs :
    ext m0 m -> new_vec Real m0 m r l -> Forall (fun iv => fst iv < length l) ivs ->
    exists m', hstores Real r ivs m = (m', Ok tt) /\ ext m0 m' /\ new_vec Real m0 m' r (upds ivs l) /\
      (forall r' l', r_buf r' <> r_buf r -> new_vec Real m0 m r' l' -> new_vec Real m0 m' r' l') /\
      (forall r' l', new_vec Complex m0 m r' l' -> new_vec Complex m0 m' r' l').
  Proof.
    intros (er & ec & ->) (H & K1 & K2 & K3) FA. cbn [bufs grow mR] in H, K3. rewrite app_length in H.
    set (k := r_buf r - length (mR m0)).
    assert (Hr : r = fresh_at Real m0 k (length l)).
    { destruct r as [b i s]. cbn in *. unfold fresh_at. cbn. subst i s.
      replace (length (mR m0) + (b - length (mR m0))) with b by lia. reflexivity. }
    assert (Hk : k < length er) by (unfold k; lia).
    assert (Hl : nth k er [] = l).
    { rewrite <- K3. rewrite app_nth2 by lia. reflexivity. }
    rewrite Hr. rewrite hstores_R by assumption. rewrite Hl.
    eexists. split; [reflexivity|]. split; [apply ext_grow|]. split; [|split].
    - apply fresh_new_R; [apply ext_refl|now rewrite upd_length| |apply upds_length].
      rewrite upd_nth by exact Hk. now rewrite Nat.eqb_refl.
    - intros r' l' Hne (J & J1 & J2 & J3). cbn [fresh_at r_buf bufs] in Hne. cbn [bufs grow mR] in J, J3.
      rewrite app_length in J.
      split; [|split; [exact J1|split; [exact J2|]]]; cbn [bufs grow mR].
      + rewrite app_length, upd_length. lia.
      + rewrite app_nth2 in J3 |- * by lia. rewrite upd_nth by exact Hk.
        destruct (Nat.eqb_spec k (r_buf r' - length (mR m0))); [lia|exact J3].
    - intros r' l' J. exact J.
  Qed.

  (** *** coherence *)
  Lemma clamp_run m0 m r l :
    ext m0 m -> new_vec Real m0 m r l ->
    exists m', h_clamp_small r m = (m', Ok tt) /\ ext m0 m' /\ new_vec Real m0 m' r (clamp_small l) /\
      (forall r' l', r_buf r' <> r_buf r -> new_vec Real m0 m r' l' -> new_vec Real m0 m' r' l').
  Proof.
    intros E K. unfold h_clamp_small.
    destruct (hstores_new_R m0 m r l (map (fun i => (i, lit 1 10000000000)) (where_ (fun v => nltb v (lit 1 10000000000)) l)) E K)
      as (m' & Q & E' & K' & O & _).
    { apply (where_bound _ n0). reflexivity. }
    exists m'. unfold hbind at 1. rewrite (new_vec_list Real _ _ _ _ K). cbn zeta. rewrite Q.
    split; [reflexivity|]. split; [exact E'|]. split; [|exact O].
    rewrite (upds_where _ l n0 (fun _ => lit 1 10000000000) n0 l (length l) eq_refl eq_refl) in K'.
    unfold clamp_small.
    rewrite <- (map_seq_nth' (fun v => if nltb v (lit 1 10000000000) then lit 1 10000000000 else v) n0 l).
    exact K'.
  Qed.

  Lemma coherence_dv m f0 x1 x2 X1 X2 dfDesired :
    arg_ok Real m f0 -> is_vec Complex m x1 X1 -> is_vec Complex m x2 X2 -> coarse_fits ->
    delivers m m (h_coherence f0 x1 x2 dfDesired)
      (fun m' '(rf, rc) '(f, c) =>
         new_vec Real m m' rf f /\ new_vec Real m m' rc c /\ r_buf rf <> r_buf rc)
      (coherence (argval Real m f0) X1 X2 dfDesired).
  Proof.
    intros Hf H1 H2 Fits. unfold h_coherence, coherence.
    eapply dv_step; [exact (is_vec_list Complex _ _ _ H1)|].
    eapply dv_step; [exact (is_vec_list Complex _ _ _ H2)|].
    apply dv_lift; [apply ext_refl|]. intros S11 Q11.
    destruct (hvec_new Real m S11) as (m1 & r11 & P1 & E1 & N1). eapply dv_step; [exact P1|].
    apply dv_lift; [exact E1|]. intros S22 Q22.
    destruct (hvec_new Real m1 S22) as (m2 & r22 & P2 & E2 & N2). eapply dv_step; [exact P2|].
    assert (E02 : ext m m2) by now apply ext_trans with m1.
    apply dv_lift; [exact E02|]. intros S12 Q12.
    destruct (hvec_new Real m2 S12) as (m3 & r12 & P3 & E3 & N3). eapply dv_step; [exact P3|].
    assert (E03 : ext m m3) by now apply ext_trans with m2.
    assert (E13 : ext m1 m3) by now apply ext_trans with m2.
    pose proof (is_vec_ext Real _ _ _ _ E13 (new_is_vec Real _ _ _ _ N1)) as V1.
    pose proof (is_vec_ext Real _ _ _ _ E3 (new_is_vec Real _ _ _ _ N2)) as V2.
    pose proof (new_is_vec Real _ _ _ _ N3) as V3.
    assert (Avg : forall m' r l, ext m m' -> is_vec Real m' r l ->
      delivers m' m' (h_frequency_averaging f0 (PArr r) dfDesired)
        (fun m'' '(rf, rs) '(f, s) =>
           new_vec Real m' m'' rf f /\ new_vec Real m' m'' rs s /\ r_buf rf <> r_buf rs)
        (frequency_averaging (argval Real m f0) (Arr (vec l)) dfDesired)).
    { intros m' r l E V. rewrite <- (argval_ext Real m m' f0 E Hf), <- (is_vec_arg Real _ _ _ V).
      apply averaging_dv; [now apply arg_ok_ext with m|apply (is_vec_ok Real _ _ _ V)|exact Fits]. }
    eapply dv_call; [exact E03|exact (Avg m3 r11 S11 E03 V1)|].
    intros m4 [g1 b11] [a1 B11] E4 (J1 & J2 & J3) _.
    assert (E04 : ext m m4) by now apply ext_trans with m3.
    eapply dv_call; [exact E04|exact (Avg m4 r22 S22 E04 (is_vec_ext Real _ _ _ _ E4 V2))|].
    intros m5 [g2 b22] [a2 B22] E5 (K1 & K2 & K3) _.
    assert (E05 : ext m m5) by now apply ext_trans with m4.
    assert (E35 : ext m3 m5) by now apply ext_trans with m4.
    eapply dv_call; [exact E05|exact (Avg m5 r12 S12 E05 (is_vec_ext Real _ _ _ _ E35 V3))|].
    intros m6 [fc b12] [a3 B12] E6 (L1 & L2 & L3) _.
    assert (E06 : ext m m6) by now apply ext_trans with m5.
    assert (E46 : ext m4 m6) by now apply ext_trans with m5.
    assert (D1 : r_buf b22 <> r_buf b11) by (destruct J2 as (J & _), K2 as (K & _); lia).
    assert (D2 : r_buf b12 <> r_buf b11).
    { destruct J2 as (J & _), L2 as (L & _). pose proof (ext_len Real _ _ E5). lia. }
    assert (D3 : r_buf b12 <> r_buf b22) by (destruct K2 as (J & _), L2 as (L & _); lia).
    assert (D4 : r_buf fc <> r_buf b11).
    { destruct J2 as (J & _), L1 as (L & _). pose proof (ext_len Real _ _ E5). lia. }
    assert (D5 : r_buf fc <> r_buf b22) by (destruct K2 as (J & _), L1 as (L & _); lia).
    assert (M11 : new_vec Real m m6 b11 B11).
    { apply new_vec_base with m3; [exact E03|]. now apply new_vec_ext with m4. }
    assert (M22 : new_vec Real m m6 b22 B22).
    { apply new_vec_base with m4; [exact E04|]. now apply new_vec_ext with m5. }
    assert (M12 : new_vec Real m m6 b12 B12) by now apply new_vec_base with m5.
    assert (Mfc : new_vec Real m m6 fc a3) by now apply new_vec_base with m5.
    destruct (clamp_run m m6 b11 B11 E06 M11) as (m7 & C1 & E7 & N11 & O1).
    eapply dv_step; [exact C1|].
    destruct (clamp_run m m7 b22 B22 E7 (O1 _ _ D1 M22)) as (m8 & C2 & E8 & N22 & O2).
    eapply dv_step; [exact C2|].
    eapply dv_step; [exact (new_vec_list Real _ _ _ _ (O2 _ _ (not_eq_sym D1) N11))|].
    eapply dv_step; [exact (new_vec_list Real _ _ _ _ N22)|].
    eapply dv_step; [exact (new_vec_list Real _ _ _ _ (O2 _ _ D3 (O1 _ _ D2 M12)))|].
    apply dv_lift; [exact E8|]. intros den Qd.
    apply dv_lift; [exact E8|]. intros coh2 Qc.
    destruct (hvec_new Real m8 coh2) as (m9 & rc & P9 & E9 & N9). eapply dv_step; [exact P9|].
    pose proof (O2 _ _ D5 (O1 _ _ D4 Mfc)) as Mf8.
    apply dv_ret; [now apply ext_trans with m8|]. split; [|split].
    - now apply new_vec_ext with m8.
    - now apply new_vec_base with m8.
    - destruct Mf8 as (J & _), N9 as (J' & _). lia.
  Qed.

  (** *** determine_params_individual_waves *)
  (** as [new_vec], or an empty (0,0) array: the result when there is no crossing (core_time.py:465-473) *)
  Definition new_list {A} (d : dtype N A) (m m' : mem) (r : ref) (l : list A) : Prop :=
    length (bufs d m) <= r_buf r < length (bufs d m') /\
    r_idx r = seq 0 (length l) /\ (r_shape r = [length l] \/ l = [] /\ r_shape r = [0; 0]) /\
    nth (r_buf r) (bufs d m') [] = l.
  Lemma new_vec_new_list {A} (d : dtype N A) m m' r l : new_vec d m m' r l -> new_list d m m' r l.
  Proof. intros (H & K1 & K2 & K3). split; [exact H|]. auto. Qed.

  Definition cross_wave (t x tC : list N) (k : nat) : res (wave N) :=
    let! a := idx tC k in let! b := idx tC (k + 1) in one_wave t x a b.
  Lemma mapM_shift {B} (g : nat -> res B) n : forall lo, mapM g (seq (S lo) n) = mapM (fun k => g (S k)) (seq lo n).
  Proof. induction n as [|n IH]; intro lo; cbn; [reflexivity|]. now rewrite IH. Qed.
  Lemma all_waves_mapM t x tC : all_waves t x tC = mapM (cross_wave t x tC) (seq 0 (length tC - 1)).
  Proof.
    induction tC as [|a [|b tC] IH]; [reflexivity|reflexivity|].
    change (all_waves t x (a :: b :: tC)) with
      (let! w := one_wave t x a b in let! ws := all_waves t x (b :: tC) in Ok (w :: ws)).
    rewrite IH. cbn [length]. replace (S (S (length tC)) - 1) with (S (length tC)) by lia.
    replace (S (length tC) - 1) with (length tC) by lia. cbn [seq mapM].
    rewrite mapM_shift. reflexivity.
  Qed.

  Definition six (ws : list (wave N)) (n : nat) : list (list N) :=
    map (fun g : wave N -> N => map g ws ++ repeat n0 (n - length ws))
        [w_t; w_h; w_crest; w_trough; w_tcrest; w_ttrough].

  Lemma fill_one (g : wave N -> N) ws w n k : length ws = k -> k < n ->
    upd k (g w) (map g ws ++ repeat n0 (n - k)) = map g (ws ++ [w]) ++ repeat n0 (n - length (ws ++ [w])).
  Proof.
    intros Hl Hk. pose proof (upd_fill (map g ws) n0 (g w) n) as U.
    rewrite app_length, map_length, Hl in U. rewrite U by exact Hk.
    rewrite map_app, app_length, Hl. reflexivity.
  Qed.

  Lemma waves_dv m c0 t0 x0 :
    arg_ok Real m c0 -> arg_ok Real m t0 -> arg_ok Real m x0 ->
    delivers m m (h_determine_params_individual_waves c0 t0 x0)
      (fun m' '(hW, tW, aC, aT, tC, tT) ws =>
         new_list Real m m' hW (map w_h ws) /\ new_list Real m m' tW (map w_t ws) /\
         new_list Real m m' aC (map w_crest ws) /\ new_list Real m m' aT (map w_trough ws) /\
         new_list Real m m' tC (map w_tcrest ws) /\ new_list Real m m' tT (map w_ttrough ws) /\
         NoDup (map r_buf [hW; tW; aC; aT; tC; tT]))
      (determine_params_individual_waves (argval Real m c0) (argval Real m t0) (argval Real m x0)).
  Proof.
    intros Hc Ht Hx. unfold h_determine_params_individual_waves, determine_params_individual_waves.
    destruct (h_array_spec Real c0 m Hc) as (m1 & rc & Q1 & E1 & O1 & V1 & _). eapply dv_step; [exact Q1|].
    destruct (h_array_spec Real t0 m1 (arg_ok_ext Real _ _ _ E1 Ht)) as (m2 & rt & Q2 & E2 & O2 & V2 & _).
    rewrite (argval_ext Real _ _ _ E1 Ht) in V2. eapply dv_step; [exact Q2|].
    assert (E02 : ext m m2) by now apply ext_trans with m1.
    destruct (h_array_spec Real x0 m2 (arg_ok_ext Real _ _ _ E02 Hx)) as (m3 & rx & Q3 & E3 & O3 & V3 & _).
    rewrite (argval_ext Real _ _ _ E02 Hx) in V3. eapply dv_step; [exact Q3|].
    assert (E03 : ext m m3) by now apply ext_trans with m2.
    assert (E13 : ext m1 m3) by now apply ext_trans with m2.
    rewrite <- (read_ext Real m1 m3 rc E13) in V1 by apply O1.
    rewrite <- (read_ext Real m2 m3 rt E3) in V2 by apply O2.
    apply (ref_ok_ext Real _ _ _ E13) in O1. apply (ref_ok_ext Real _ _ _ E3) in O2.
    set (tc1 := convert_to_array_type (argval Real m c0)) in *.
    set (t1 := convert_to_array_type (argval Real m t0)) in *.
    set (x1 := convert_to_array_type (argval Real m x0)) in *.
    clearbody tc1 t1 x1. cbn zeta.
    assert (Sc : asize tc1 = fold_right Nat.mul 1 (r_shape rc)) by (rewrite <- V1; reflexivity).
    assert (Ic : is1darray tc1 = is1darray (mkArr (r_shape rc) (@nil unit))) by (rewrite <- V1; reflexivity).
    assert (It : is1darray t1 = is1darray (mkArr (r_shape rt) (@nil unit))) by (rewrite <- V2; reflexivity).
    assert (Ix : is1darray x1 = is1darray (mkArr (r_shape rx) (@nil unit))) by (rewrite <- V3; reflexivity).
    rewrite Sc, Ic, It, Ix.
    destruct (Nat.eqb (fold_right Nat.mul 1 (r_shape rc)) 0) eqn:Z0.
    - unfold delivers, hbind, hnew, hret. cbn [set_bufs bufs mR mC].
      split.
      { apply ext_trans with m3; [exact E03|]. exists [[]; []; []; []; []; []], []. unfold grow.
        rewrite <- !app_assoc. cbn [app]. now rewrite app_nil_r. }
      pose proof (ext_len Real _ _ E03) as EL. cbn [bufs] in EL.
      assert (NN : forall b, length (mR m3) <= b ->
                nth b ((((((mR m3 ++ [[]]) ++ [[]]) ++ [[]]) ++ [[]]) ++ [[]]) ++ [[]]) [] = []).
      { intros b Hb. rewrite <- !app_assoc. rewrite app_nth2 by exact Hb. cbn [app].
        apply (nth_repeat (@nil N) 6). }
      cbn [map r_buf]. unfold new_list. cbn [r_buf r_idx r_shape length seq bufs mR].
      rewrite !app_length. cbn [length].
      do 6 (split; [split; [lia|split; [reflexivity|split; [right; auto|apply NN; lia]]]|]).
      repeat constructor; cbn [In]; lia.
    - destruct (negb (is1darray (mkArr (r_shape rc) (@nil unit)))); [now apply dv_raise|].
      destruct (negb (is1darray (mkArr (r_shape rt) (@nil unit)))); [now apply dv_raise|].
      destruct (negb (is1darray (mkArr (r_shape rx) (@nil unit)))); [now apply dv_raise|].
      apply dv_list; [exact E03|exact V1|]. intros tCross Lc.
      apply dv_list; [exact E03|exact V2|]. intros t Lt.
      apply dv_list; [exact E03|exact V3|]. intros x Lx.
      destruct (negb (Nat.eqb (length t) (length x))); [now apply dv_raise|].
      rewrite all_waves_mapM. set (n := length tCross - 1). clearbody n.
      pose proof (hvec_R m3 [] [] (repeat n0 n)) as A. rewrite grow_nil in A. cbn [app length] in A.
      eapply dv_step; [exact A|clear A].
      do 5 (match goal with |- delivers _ (grow m3 ?er []) _ _ _ =>
              pose proof (hvec_R m3 er [] (repeat n0 n)) as A; cbn [app length] in A;
              eapply dv_step; [exact A|clear A] end).
      rewrite repeat_length.
      assert (EX : forall er ec, ext m (grow m3 er ec))
        by (intros; apply ext_trans with m3; [exact E03|apply ext_grow]).
      set (St := fun ws => grow m3 (six ws n) []).
      match goal with |- delivers _ _ (hbind (hfor _ ?body) _) _ _ =>
        pose proof (@hfor_mapM N _ m (cross_wave t x tCross) St body n 0 []) as Loop end.
      match type of Loop with ?P -> _ => assert (HP : P) end.
      { intros k ws Hk Hl. cbn [length] in Hl. rewrite Nat.sub_0_r in Hl. cbn [Nat.add] in Hl, Hk.
        assert (RC : forall er, hlist Real rc (grow m3 er []) = (grow m3 er [], Ok tCross))
          by (intro er; apply (hlist_later Real m3) with (v := tc1) (l := tCross); [apply ext_grow|apply O1|exact V1|exact Lc]).
        assert (RT : forall er, hlist Real rt (grow m3 er []) = (grow m3 er [], Ok t))
          by (intro er; apply (hlist_later Real m3) with (v := t1) (l := t); [apply ext_grow|apply O2|exact V2|exact Lt]).
        assert (RX : forall er, hlist Real rx (grow m3 er []) = (grow m3 er [], Ok x))
          by (intro er; apply (hlist_later Real m3) with (v := x1) (l := x); [apply ext_grow|apply O3|exact V3|exact Lx]).
        unfold cross_wave, one_wave, hbind, hlift. unfold St. rewrite RC, RT, RX.
        destruct (idx tCross k) as [a|e]; cbn [bind]; [|eexists; split; [reflexivity|apply EX]].
        destruct (idx tCross (k + 1)) as [b|e]; cbn [bind]; [|eexists; split; [reflexivity|apply EX]].
        destruct (idx (where_ (fun v => nleb a v) t) 0) as [iI|e]; cbn [bind]; [|eexists; split; [reflexivity|apply EX]].
        destruct (idx_last (where_ (fun v => nleb v b) t)) as [iE|e]; cbn [bind]; [|eexists; split; [reflexivity|apply EX]].
        set (tI := slice iI (iE + 1) t). set (xI := slice iI (iE + 1) x). cbn zeta.
        destruct (pymax xI) as [mx|e]; cbn [bind]; [|eexists; split; [reflexivity|apply EX]].
        destruct (idx (where_ (fun v => neqb v mx) xI) 0) as [iM|e]; cbn [bind]; [|eexists; split; [reflexivity|apply EX]].
        destruct (pymin xI) as [mn|e]; cbn [bind]; [|eexists; split; [reflexivity|apply EX]].
        destruct (idx (where_ (fun v => neqb v mn) xI) 0) as [im|e]; cbn [bind]; [|eexists; split; [reflexivity|apply EX]].
        destruct (idx xI iM) as [cr|e]; cbn [bind]; [|eexists; split; [reflexivity|apply EX]].
        destruct (idx xI im) as [tr|e]; cbn [bind]; [|eexists; split; [reflexivity|apply EX]].
        destruct (idx tI iM) as [tcr|e]; cbn [bind]; [|eexists; split; [reflexivity|apply EX]].
        destruct (idx tI im) as [ttr|e]; cbn [bind]; [|eexists; split; [reflexivity|apply EX]].
        set (w := mkWave (nsub cr tr) (nsub b a) cr tr tcr ttr).
        unfold six. cbn [map].
        rewrite hstore_R by lia. cbn [nth upd].
        rewrite hstore_R by lia. cbn [nth upd].
        rewrite hstore_R by lia. cbn [nth upd].
        rewrite hstore_R by lia. cbn [nth upd].
        rewrite hstore_R by lia. cbn [nth upd].
        rewrite Hl. assert (Hkn : k < n) by lia.
        rewrite (fill_one w_t ws w n k Hl Hkn : upd k (nsub b a) _ = _).
        rewrite (fill_one w_crest ws w n k Hl Hkn : upd k cr _ = _).
        rewrite (fill_one w_trough ws w n k Hl Hkn : upd k tr _ = _).
        rewrite (fill_one w_tcrest ws w n k Hl Hkn : upd k tcr _ = _).
        rewrite (fill_one w_ttrough ws w n k Hl Hkn : upd k ttr _ = _).
        assert (LW : forall g : wave N -> N, length (map g (ws ++ [w]) ++ repeat n0 (n - length (ws ++ [w]))) = n).
        { intro g. rewrite app_length, map_length, repeat_length, app_length. cbn. lia. }
        assert (IW : forall g : wave N -> N, idx (map g (ws ++ [w]) ++ repeat n0 (n - length (ws ++ [w]))) k = Ok (g w)).
        { intro g. unfold idx. rewrite map_app, <- app_assoc. rewrite nth_error_app2 by (rewrite map_length; lia).
          rewrite map_length, Hl, Nat.sub_diag. reflexivity. }
        rewrite (hlist_fresh_R m3 _ _ 2 n (map w_crest (ws ++ [w]) ++ repeat n0 (n - length (ws ++ [w])))) by (try exact (LW w_crest); try reflexivity; cbn; lia).
        rewrite (hlist_fresh_R m3 _ _ 3 n (map w_trough (ws ++ [w]) ++ repeat n0 (n - length (ws ++ [w])))) by (try exact (LW w_trough); try reflexivity; cbn; lia).
        cbn [nth]. rewrite !IW. rewrite hstore_R by lia. cbn [nth upd].
        rewrite (fill_one w_h ws w n k Hl Hkn : upd k (nsub (w_crest w) (w_trough w)) _ = _).
        reflexivity. }
      specialize (Loop HP). clear HP.
      destruct (mapM (cross_wave t x tCross) (seq 0 n)) as [ws|e] eqn:MB.
      + unfold St, six in Loop. cbn [length map app] in Loop. rewrite Nat.sub_0_r in Loop.
        eapply dv_step; [exact Loop|].
        pose proof (mapM_length _ _ _ MB) as ML. rewrite seq_length in ML.
        rewrite ML, Nat.sub_diag. cbn [repeat]. rewrite !app_nil_r.
        apply dv_ret; [apply EX|].
        do 6 (split; [apply new_vec_new_list, fresh_new_R; [exact E03|cbn; lia|reflexivity|now rewrite map_length]|]).
        cbn. repeat constructor; cbn [In]; lia.
      + destruct Loop as (m' & L & EL). unfold St, six in L. cbn [length map app] in L. rewrite Nat.sub_0_r in L.
        eapply dv_step_raise; [exact L|exact EL].
  Qed.

  (** *** disper *)
  Lemma map2_maps {I A B C} (op : A -> B -> C) (f : I -> A) (g : I -> B) l :
    map2 op (map f l) (map g l) = map (fun i => op (f i) (g i)) l.
  Proof. induction l; cbn; congruence. Qed.
  Lemma combine_maps {I A B} (f : I -> A) (g : I -> B) l :
    combine (map f l) (map g l) = map (fun i => (f i, g i)) l.
  Proof. induction l; cbn; congruence. Qed.
  Lemma combine_self {I A} (f : I -> A) l : combine l (map f l) = map (fun i => (i, f i)) l.
  Proof. induction l; cbn; congruence. Qed.
  Lemma take_map {A} (f : nat -> A) n is : (forall i, In i is -> i < n) -> take (map f (seq 0 n)) is = Ok (map f is).
  Proof.
    intro H. unfold take. induction is as [|i is IH]; cbn; [reflexivity|].
    assert (Q : idx (map f (seq 0 n)) i = Ok (f i)).
    { unfold idx. rewrite (nth_error_nth' _ (f 0)) by (rewrite map_length, seq_length; apply H; now left).
      rewrite nth_map_seq by (apply H; now left). reflexivity. }
    rewrite Q. cbn. rewrite IH by (intros j Hj; apply H; now right). reflexivity.
  Qed.
  Lemma upds_where_seq {A B} (p : B -> bool) (F : nat -> B) (g : nat -> A) (buf : nat -> A) n :
    upds (map (fun i => (i, g i)) (where_ p (map F (seq 0 n)))) (map buf (seq 0 n)) =
    map (fun i => if p (F i) then g i else buf i) (seq 0 n).
  Proof.
    rewrite (upds_where p (map F (seq 0 n)) (F 0) g (buf 0) (map buf (seq 0 n)) n) by now rewrite map_length, seq_length.
    apply map_ext_in. intros i Hi. apply in_seq in Hi. rewrite !nth_map_seq by lia. reflexivity.
  Qed.
  Lemma where_seq_bound {B} (p : B -> bool) (F : nat -> B) n i : In i (where_ p (map F (seq 0 n))) -> i < n.
  Proof. intro H. apply (where_in p (F 0)) in H. rewrite map_length, seq_length in H. lia. Qed.
  Lemma as_map_seq {A} (l : list A) d n : length l = n -> exists f : nat -> A, l = map f (seq 0 n) /\ forall i, f i = nth i l d.
  Proof. intro H. exists (fun i => nth i l d). split; [|reflexivity]. subst n. now rewrite map_nth_seq. Qed.
  Lemma repeat_as_map {A} (z : A) n : repeat z n = map (fun _ => z) (seq 0 n).
  Proof. generalize 0. induction n as [|n IH]; intro k; cbn; [reflexivity|]. now rewrite <- IH. Qed.

  Lemma pass_dv m rw2 rq w2 q :
    is_vec Real m rw2 w2 -> is_vec Real m rq q -> length w2 = length q ->
    delivers m m (h_disper_pass rw2 rq) (fun m' r v => new_vec Real m m' r v) (Ok (map2 disper_step w2 q)).
  Proof.
    intros Hw Hq HL. unfold h_disper_pass.
    eapply dv_step; [exact (is_vec_list Real _ _ _ Hw)|].
    eapply dv_step; [exact (is_vec_list Real _ _ _ Hq)|].
    set (n := length q) in *.
    destruct (as_map_seq q n0 n eq_refl) as (qf & Eq & _).
    destruct (as_map_seq w2 n0 n HL) as (wf & Ew & _).
    clear Hw Hq. clearbody n. subst q w2. cbn zeta.
    rewrite !map_map, !map2_maps.
    set (a := fun i => nmul (nsub n1 (nmul (qf i) (ntanh (qf i)))) (nsub n1 (nmul (ntanh (qf i)) (ntanh (qf i))))).
    set (b := fun i => nadd (ntanh (qf i)) (nmul (qf i) (nsub n1 (nmul (ntanh (qf i)) (ntanh (qf i)))))).
    set (c := fun i => nsub (nmul (qf i) (ntanh (qf i))) (wf i)).
    rewrite combine_maps.
    set (p1 := fun v : N => negb (neqb v n0)).
    set (p2 := fun p : N * N => nltb (nabs (fst p)) (nmul (lit 1 100000000) (nmul (snd p) (snd p)))).
    pose proof (hvec_R m [] [] (repeat n0 n)) as A1. rewrite grow_nil in A1. cbn [app length] in A1.
    eapply dv_step; [exact A1|]. rewrite repeat_length, repeat_as_map.
    set (iq := where_ p1 (map a (seq 0 n))).
    assert (Biq : forall i, In i iq -> i < n) by (intros i; apply where_seq_bound).
    rewrite !take_map by exact Biq.
    do 3 (eapply dv_step; [reflexivity|]). rewrite !map2_maps, combine_self.
    eapply dv_step.
    { apply hstores_R; [cbn; lia|]. rewrite Forall_forall. intros [i v] Hin. apply in_map_iff in Hin.
      destruct Hin as (j & Q & Hj). injection Q as -> _. cbn. now apply Biq. }
    cbn [nth upd]. unfold iq at 1. rewrite upds_where_seq.
    eapply dv_step; [apply hlist_fresh_R; [cbn; lia|reflexivity|cbn; rewrite map_length, seq_length; reflexivity]|].
    cbn [nth]. rewrite take_map by exact Biq.
    eapply dv_step; [reflexivity|]. rewrite map_map, !map2_maps, combine_self.
    eapply dv_step.
    { apply hstores_R; [cbn; lia|]. rewrite Forall_forall. intros [i v] Hin. apply in_map_iff in Hin.
      destruct Hin as (j & Q & Hj). injection Q as -> _. cbn. now apply Biq. }
    cbn [nth upd]. unfold iq. rewrite upds_where_seq. clear iq Biq.
    set (iq := where_ p2 (map (fun i => (nmul (a i) (c i), b i)) (seq 0 n))).
    assert (Biq : forall i, In i iq -> i < n) by (intros i; apply where_seq_bound).
    rewrite !take_map by exact Biq.
    do 2 (eapply dv_step; [reflexivity|]). rewrite !map2_maps, combine_self.
    eapply dv_step.
    { apply hstores_R; [cbn; lia|]. rewrite Forall_forall. intros [i v] Hin. apply in_map_iff in Hin.
      destruct Hin as (j & Q & Hj). injection Q as -> _. cbn. now apply Biq. }
    cbn [nth upd]. unfold iq. rewrite upds_where_seq. clear iq Biq.
    eapply dv_step; [apply hlist_fresh_R; [cbn; lia|reflexivity|cbn; rewrite map_length, seq_length; reflexivity]|].
    cbn [nth]. rewrite map2_maps.
    match goal with |- delivers _ _ (hvec _ ?l) _ (Ok ?l') => assert (Q : l = l') end.
    { apply map_ext. intro i. unfold disper_step, p1, p2, a, b, c. cbn [fst snd].
      destruct (negb (neqb (nmul (nsub n1 (nmul (qf i) (ntanh (qf i)))) (nsub n1 (nmul (ntanh (qf i)) (ntanh (qf i))))) n0));
        reflexivity. }
    rewrite Q. apply dv_vec. apply ext_grow.
  Qed.

  Lemma disper_dv m w0 h g :
    arg_ok Real m w0 ->
    delivers m m (h_disper w0 h g) (fun m' r k => new_vec Real m m' r k) (disper (argval Real m w0) h g).
  Proof.
    intro Hw. unfold h_disper, disper.
    destruct (h_array_spec Real w0 m Hw) as (m1 & rw & Q1 & E1 & O1 & V1 & _). eapply dv_step; [exact Q1|].
    cbn zeta.
    apply dv_list; [exact E1|exact V1|]. intros w Lw.
    destruct (nisinf h); [now apply dv_raise|].
    destruct (nltb h n0); [now apply dv_raise|].
    pose proof (hvec_R m1 [] [] (map (fun w => ndiv (nmul (nmul w w) h) g) w)) as A1. rewrite grow_nil in A1. cbn [app length] in A1.
    eapply dv_step; [exact A1|]. rewrite map_length.
    eapply dv_step; [apply hlist_fresh_R; [cbn; lia|reflexivity|cbn; apply map_length]|]. cbn [nth].
    set (n := length w) in *.
    destruct (as_map_seq w n0 n eq_refl) as (wf & Ew & _).
    rewrite Ew. rewrite map_map.
    set (z := fun i => ndiv (nmul (nmul (wf i) (wf i)) h) g).
    eapply dv_step.
    { apply hstores_R; [cbn; lia|]. rewrite Forall_forall. intros [i v] Hin. apply in_map_iff in Hin.
      destruct Hin as (j & Q & Hj). injection Q as -> _. cbn. apply where_seq_bound in Hj. exact Hj. }
    cbn [nth upd]. rewrite (upds_where_seq (fun v => nltb v (lit 1 100000000)) z (fun _ => lit 1 100000000) z n).
    assert (QW : map (fun i => if nltb (z i) (lit 1 100000000) then lit 1 100000000 else z i) (seq 0 n)
                 = map (fun i => disper_w2 (wf i) h g) (seq 0 n)) by reflexivity.
    rewrite QW. clear QW z.
    set (W2 := map (fun i => disper_w2 (wf i) h g) (seq 0 n)).
    assert (L2 : length W2 = n) by (unfold W2; now rewrite map_length, seq_length).
    eapply dv_step; [apply hlist_fresh_R; [cbn; lia|reflexivity|exact L2]|]. cbn [nth].
    pose proof (hvec_R m1 [W2] [] (map disper_q0 W2)) as A2. cbn [app length] in A2.
    eapply dv_step; [exact A2|]. rewrite map_length, L2.
    set (m2 := grow m1 [W2; map disper_q0 W2] []).
    assert (E12 : ext m1 m2) by apply ext_grow.
    assert (E02 : ext m m2) by now apply ext_trans with m1.
    assert (V2 : is_vec Real m2 (fresh_at Real m1 0 n) W2).
    { apply (new_is_vec Real m1). apply fresh_new_R; [apply ext_refl|cbn; lia|reflexivity|exact L2]. }
    assert (Vq : is_vec Real m2 (fresh_at Real m1 1 n) (map disper_q0 W2)).
    { apply (new_is_vec Real m1). apply fresh_new_R; [apply ext_refl|cbn; lia|reflexivity|now rewrite map_length]. }
    clearbody m2.
    eapply dv_call_ok; [apply (pass_dv m2 _ _ W2 _ V2 Vq); now rewrite map_length|].
    intros m3 rq1 E3 N3. cbn beta in N3.
    assert (E03 : ext m m3) by now apply ext_trans with m2.
    pose proof (is_vec_ext Real _ _ _ _ E3 V2) as V2'.
    eapply dv_call_ok; [apply (pass_dv m3 _ _ W2 _ V2' (new_is_vec Real _ _ _ _ N3));
                        rewrite map2_length, map_length; lia|].
    intros m4 rq2 E4 N4. cbn beta in N4.
    assert (E04 : ext m m4) by now apply ext_trans with m3.
    assert (E14 : ext m1 m4) by (apply ext_trans with m2; [exact E12|now apply ext_trans with m3]).
    eapply dv_step; [exact (new_vec_list Real _ _ _ _ N4)|].
    eapply dv_step; [apply (hlist_later Real m1) with (v := convert_to_array_type (argval Real m w0)) (l := w);
                     [exact E14|apply O1|exact V1|exact Lw]|].
    rewrite Ew. unfold W2. rewrite !map_map, !map2_maps.
    set (kf := fun i => ndiv (nmul (nsign (wf i)) (disper_step (disper_w2 (wf i) h g)
                 (disper_step (disper_w2 (wf i) h g) (disper_q0 (disper_w2 (wf i) h g))))) h).
    pose proof (hvec_R m4 [] [] (map kf (seq 0 n))) as A3. rewrite grow_nil in A3. cbn [app length] in A3.
    eapply dv_step; [exact A3|]. rewrite map_length, seq_length.
    eapply dv_step; [apply hlist_fresh_R; [cbn; lia|reflexivity|cbn; now rewrite map_length, seq_length]|]. cbn [nth].
    assert (RP : forall l : list nat, combine l (repeat n0 (length l)) = map (fun i => (i, (fun _ => n0 (N:=N)) i)) l).
    { induction l; cbn; congruence. }
    rewrite RP. clear RP.
    eapply dv_step.
    { apply hstores_R; [cbn; lia|]. rewrite Forall_forall. intros [i v] Hin. apply in_map_iff in Hin.
      destruct Hin as (j & Q & Hj). injection Q as -> _. cbn. apply where_seq_bound in Hj. exact Hj. }
    cbn [nth upd]. rewrite upds_where_seq.
    apply dv_ret; [apply ext_trans with m4; [exact E04|apply ext_grow]|].
    apply fresh_new_R; [exact E04|cbn; lia| |now rewrite map_length, seq_length].
    reflexivity.
  Qed.

  (** *** create_spectrum_jonswap *)
  Lemma idx_Ok {A} (l : list A) i d : i < length l -> idx l i = Ok (nth i l d).
  Proof. intro H. unfold idx. now rewrite (nth_error_nth' _ d) by exact H. Qed.
  Lemma firstn_snoc {A} (l : list A) k d : k < length l -> firstn (S k) l = firstn k l ++ [nth k l d].
  Proof.
    revert k. induction l as [|x l IH]; intros [|k] H; cbn in *; try lia; auto.
    rewrite IH by lia. reflexivity.
  Qed.

  Lemma jonswap_dv m f0 fp hm0 gammaPeak l_fmax :
    arg_ok Real m f0 ->
    delivers m m (h_create_spectrum_jonswap f0 fp hm0 gammaPeak l_fmax)
      (fun m' r s => new_vec Real m m' r s) (create_spectrum_jonswap (argval Real m f0) fp hm0 gammaPeak l_fmax).
  Proof.
    intro Hf. unfold h_create_spectrum_jonswap, create_spectrum_jonswap.
    destruct (h_vector_spec Real f0 m Hf) as (m1 & rf & Q1 & E & O & V). eapply dv_step; [exact Q1|].
    pose proof (fun l => converted_len (argval Real m f0) l (arg_wf Real m f0 Hf)) as Lenf.
    destruct (convert_to_vector (argval Real m f0)) as [f1 fSize]. cbn [fst snd] in *. cbn zeta.
    destruct (Nat.eqb (fst fSize) 0); [now apply dv_raise|].
    destruct (Nat.ltb 1 (snd fSize)); [now apply dv_raise|].
    apply dv_list; [exact E|exact V|]. intros f Lf.
    destruct (Lenf f Lf) as (Lf' & Vf). rewrite Lf'.
    apply dv_lift; [exact E|]. intros flast Hl.
    apply dv_lift; [exact E|]. intros fmax Hm.
    pose proof (hvec_R m1 [] [] (repeat n0 (length f))) as A1. rewrite grow_nil in A1. cbn [app length] in A1.
    eapply dv_step; [exact A1|]. rewrite repeat_length.
    set (n := length f) in *.
    assert (RF : forall er, hlist Real rf (grow m1 er []) = (grow m1 er [], Ok f))
      by (intro er; apply (hlist_later Real m1) with (v := f1) (l := f); [apply ext_grow|apply O|exact V|exact Lf]).
    set (dens := jonswap_density fp gammaPeak).
    set (St := fun k => grow m1 [map dens (firstn k f) ++ repeat n0 (n - k)] []).
    match goal with |- delivers _ _ (hbind (hfor _ ?body) _) _ _ =>
      pose proof (hfor_ok St body 0 n) as Loop end.
    match type of Loop with ?P -> _ => assert (HP : P) end.
    { intros k Hk. cbn [Nat.add] in Hk. unfold hbind, hlift. unfold St at 1. rewrite RF.
      rewrite (idx_Ok f k n0) by (fold n; lia).
      set (fi := nth k f n0).
      assert (F1 : firstn (S k) f = firstn k f ++ [fi]) by (apply firstn_snoc; fold n; lia).
      assert (L1 : length (map dens (firstn k f)) = k) by (rewrite map_length, firstn_length; fold n; lia).
      unfold St. rewrite F1, map_app. cbn [map].
      destruct (nltb spacing1 fi) eqn:S1.
      - rewrite hstore_R by lia. cbn [nth upd].
        assert (D : forall v, dens fi = v -> upd k v (map dens (firstn k f) ++ repeat n0 (n - k)) = (map dens (firstn k f) ++ [dens fi]) ++ repeat n0 (n - S k)).
        { intros v <-. pose proof (upd_fill (map dens (firstn k f)) n0 (dens fi) n) as U.
          rewrite app_length, L1 in U. rewrite U by lia. cbn [length]. do 2 f_equal. lia. }
        rewrite D; [reflexivity|]. unfold dens, jonswap_density. rewrite S1. reflexivity.
      - unfold hret. do 3 f_equal. unfold dens at 3, jonswap_density. rewrite S1.
        rewrite repeat_split by lia. now rewrite <- app_assoc. }
    specialize (Loop HP). clear HP. unfold St in Loop. cbn [firstn map app Nat.add] in Loop. rewrite Nat.sub_0_r in Loop.
    eapply dv_step; [exact Loop|].
    rewrite Nat.sub_diag. cbn [repeat]. rewrite app_nil_r. unfold n at 1. rewrite firstn_all.
    assert (EX : forall er ec, ext m (grow m1 er ec))
      by (intros; apply ext_trans with m1; [exact E|apply ext_grow]).
    eapply dv_step; [apply RF|].
    eapply dv_step; [apply hlist_fresh_R; [cbn; lia|reflexivity|cbn; now rewrite map_length]|]. cbn [nth].
    apply dv_lift; [apply EX|]. intros ff Hff.
    rewrite Vf. apply dv_lift; [apply EX|]. intros m00 Hm0.
    apply dv_vec. apply EX.
  Qed.

  (** *** decompose_linear_ZS *)
  Lemma zs_freq_solve detLim wsum k (gs : list (N * N * cpx)) :
    zs_freq detLim wsum k gs = match zs_solve detLim wsum k gs with Some p => p | None => (c0, c0) end.
  Proof. unfold zs_freq, zs_solve. cbn zeta. now destruct (nltb detLim _). Qed.

  Lemma hfor_mapM_rel {B} (m0 : mem) (g : nat -> res B) (P : list B -> mem -> Prop) (body : nat -> hp N unit) :
    forall n lo acc m,
    (forall k bs m, lo <= k < lo + n -> length bs = length acc + (k - lo) -> P bs m ->
       match g k with
       | Ok b => exists m', body k m = (m', Ok tt) /\ P (bs ++ [b]) m'
       | Raise e => exists m', body k m = (m', Raise e) /\ ext m0 m'
       end) ->
    P acc m ->
    match mapM g (seq lo n) with
    | Ok bs => exists m', hfor (seq lo n) body m = (m', Ok tt) /\ P (acc ++ bs) m'
    | Raise e => exists m', hfor (seq lo n) body m = (m', Raise e) /\ ext m0 m'
    end.
  Proof.
    induction n as [|n IH]; intros lo acc m H Pm; cbn.
    - rewrite app_nil_r. now exists m.
    - pose proof (H lo acc m ltac:(lia) ltac:(lia) Pm) as H0. unfold hbind.
      destruct (g lo) as [b|e]; cbn.
      + destruct H0 as (m1 & -> & P1). specialize (IH (S lo) (acc ++ [b]) m1).
        assert (K : forall k bs m, S lo <= k < S lo + n -> length bs = length (acc ++ [b]) + (k - S lo) -> P bs m ->
                   match g k with
                   | Ok b => exists m', body k m = (m', Ok tt) /\ P (bs ++ [b]) m'
                   | Raise e => exists m', body k m = (m', Raise e) /\ ext m0 m'
                   end).
        { intros k bs m2 Hk Hl. apply H; [lia|]. rewrite app_length in Hl. cbn in Hl. lia. }
        specialize (IH K P1). destruct (mapM g (seq (S lo) n)) as [bs|e]; cbn.
        * rewrite <- app_assoc in IH. exact IH.
        * exact IH.
      + destruct H0 as (m' & -> & E). now exists m'.
  Qed.

  (** assignments through any view of a new complex buffer *)
  Lemma hstores_at_C (m : mem) er r k ivs : forall ec,
    r_buf r = length (mC m) + k -> k < length ec -> Forall (fun iv => fst iv < length (r_idx r)) ivs ->
    hstores Complex r ivs (grow m er ec) =
      (grow m er (upd k (upds (map (fun iv => (nth (fst iv) (r_idx r) 0, snd iv)) ivs) (nth k ec [])) ec), Ok tt).
  Proof.
    induction ivs as [|[i v] ivs IH]; intros ec Hr Hk H.
    - cbn. now rewrite upd_same.
    - inversion H as [|? ? Hi Hrest]; subst. cbn [hstores]. unfold hbind, hstore. cbn [fst] in Hi.
      rewrite (nth_error_nth' _ 0) by exact Hi.
      assert (Q : poke Complex (r_buf r) (nth i (r_idx r) 0) v (grow m er ec)
                  = grow m er (upd k (upd (nth i (r_idx r) 0) v (nth k ec [])) ec)).
      { unfold poke. cbn [bufs set_bufs mR mC grow]. unfold grow. rewrite Hr.
        rewrite app_nth2 by lia. replace (length (mC m) + k - length (mC m)) with k by lia.
        now rewrite upd_app2. }
      rewrite Q. rewrite IH by (rewrite ?upd_length; assumption).
      f_equal. f_equal. rewrite upd_nth by exact Hk. rewrite Nat.eqb_refl. cbn [upds map fst snd]. now rewrite upd_upd.
  Qed.

  (** a matrix filled column by column *)
  Definition flat (Nf Nloc : nat) (Xs : list (list cpx)) : list cpx :=
    map (fun p => nth (p / Nloc) (nth (p mod Nloc) Xs []) c0) (seq 0 (Nf * Nloc)).
  Lemma flat_length Nf Nloc Xs : length (flat Nf Nloc Xs) = Nf * Nloc.
  Proof. unfold flat. now rewrite map_length, seq_length. Qed.
  Lemma flat_nth Nf Nloc Xs i l : i < Nf -> l < Nloc -> nth (i * Nloc + l) (flat Nf Nloc Xs) c0 = nth i (nth l Xs []) c0.
  Proof.
    intros Hi Hl. unfold flat. rewrite nth_map_seq by nia.
    rewrite Nat.add_comm, Nat.div_add, Nat.mod_add by lia.
    rewrite Nat.div_small, Nat.mod_small by exact Hl. reflexivity.
  Qed.
  Lemma flat_nil Nf Nloc : flat Nf Nloc [] = repeat c0 (Nf * Nloc).
  Proof.
    rewrite repeat_as_map. unfold flat. apply map_ext. intro p.
    replace (nth (p mod Nloc) (@nil (list cpx)) []) with (@nil cpx) by now destruct (p mod Nloc).
    now destruct (p / Nloc).
  Qed.
  Lemma flat_snoc Nf Nloc Xs X :
    length Xs < Nloc -> length X = Nf ->
    upds (map (fun iv => (nth (fst iv) (map (fun i => nth (i * Nloc + length Xs) (seq 0 (Nf * Nloc)) 0) (seq 0 Nf)) 0, snd iv))
              (combine (seq 0 Nf) X)) (flat Nf Nloc Xs) = flat Nf Nloc (Xs ++ [X]).
  Proof.
    intros Hj HX. set (j := length Xs).
    assert (Q : map (fun iv => (nth (fst iv) (map (fun i => nth (i * Nloc + j) (seq 0 (Nf * Nloc)) 0) (seq 0 Nf)) 0, snd iv))
              (combine (seq 0 Nf) X) = map (fun i => (i * Nloc + j, nth i X c0)) (seq 0 Nf)).
    { destruct (as_map_seq X c0 Nf HX) as (g & EX & Hg). rewrite EX at 1. rewrite combine_self, map_map. cbn [fst snd].
      apply map_ext_in. intros i Hi. apply in_seq in Hi. rewrite Hg. rewrite nth_map_seq by lia.
      rewrite seq_nth by (fold j in Hj; nia). reflexivity. }
    rewrite Q. clear Q.
    assert (MF : map fst (map (fun i => (i * Nloc + j, nth i X c0)) (seq 0 Nf)) = map (fun i => i * Nloc + j) (seq 0 Nf)).
    { now rewrite map_map. }
    assert (FA : Forall (fun iv : nat * cpx => fst iv < length (flat Nf Nloc Xs)) (map (fun i => (i * Nloc + j, nth i X c0)) (seq 0 Nf))).
    { rewrite Forall_forall. intros iv Hin. apply in_map_iff in Hin. destruct Hin as (i & <- & Hi). apply in_seq in Hi.
      cbn. rewrite flat_length. fold j in Hj. nia. }
    assert (ND : NoDup (map (fun i => i * Nloc + j) (seq 0 Nf))).
    { apply FinFun.Injective_map_NoDup; [|apply seq_NoDup]. intros a b H. fold j in Hj. nia. }
    apply nth_ext with (d := c0) (d' := c0).
    { now rewrite upds_length, !flat_length. }
    intros p Hp. rewrite upds_length, flat_length in Hp.
    fold j in Hj.
    assert (Hp2 : p = p / Nloc * Nloc + p mod Nloc) by (rewrite Nat.mul_comm; apply Nat.div_mod; lia).
    assert (Hm : p mod Nloc < Nloc) by (apply Nat.mod_upper_bound; lia).
    assert (Hd : p / Nloc < Nf) by (apply Nat.div_lt_upper_bound; lia).
    set (i := p / Nloc) in *. set (l := p mod Nloc) in *. clearbody i l. subst p.
    rewrite (flat_nth Nf Nloc (Xs ++ [X])) by assumption.
    destruct (Nat.eq_dec l j) as [->|Hl].
    - rewrite upds_at with (v := nth i X c0); [|exact FA|rewrite MF; exact ND|].
      + unfold j. rewrite app_nth2, Nat.sub_diag by lia. reflexivity.
      + apply in_map_iff. exists i. split; [reflexivity|]. apply in_seq. lia.
    - rewrite upds_other; [|exact FA|].
      + rewrite flat_nth by assumption. f_equal.
        destruct (Nat.lt_ge_cases l j) as [H|H].
        * now rewrite app_nth1 by exact H.
        * rewrite !nth_overflow; [reflexivity|rewrite app_length; cbn [length]; fold j; lia|exact H].
      + rewrite MF. rewrite in_map_iff. intros (a & Q & _). apply Hl.
        apply (f_equal (fun z => z mod Nloc)) in Q. rewrite !(Nat.add_comm (_ * Nloc)), !Nat.mod_add, !Nat.mod_small in Q by lia.
        now symmetry.
  Qed.

  Lemma vec_vector {A} (l : list A) : convert_to_vector (Arr (vec l)) = (vec l, (length l, 0)).
  Proof.
    unfold convert_to_vector; cbn [convert_to_array_type]. unfold size_, asize. cbn [shape vec fold_right].
    destruct l; reflexivity.
  Qed.
  (** time2freq_nyquist on equally long 1-D arrays: whether it succeeds, and the frequencies, depend
      on the time axis only *)
  Lemma nyquist_cases (t : list N) :
    (exists e, forall x, length x = length t -> time2freq_nyquist (Arr (vec t)) (Arr (vec x)) = Raise e) \/
    (exists f, forall x, length x = length t ->
       exists X, time2freq_nyquist (Arr (vec t)) (Arr (vec x)) = Ok (f, X, Nat.odd (length t)) /\ length X = length f).
  Proof.
    assert (Q : exists e, forall x, length x = length t ->
      time2freq_nyquist (Arr (vec t)) (Arr (vec x)) =
        (let! mono := monotonic_increasing_constant_step t in
         raise_if negb mono with ValueError ;;
         let! tb := idx t 1 in let! ta := idx t 0 in
         Ok (slice 0 (Nat.div (length t) 2 + 1) (e tb ta), slice 0 (Nat.div (length t) 2 + 1) (fft (map cofr x)), Nat.odd (length t)))
      /\ forall tb ta, length (e tb ta) = length (fft (map cofr x))).
    { exists (fun tb ta => map (fun k => nmul (nofnat k) (ndiv n1 (nmul (nofnat (length t)) (nsub tb ta)))) (seq 0 (length t))).
      intros x Hx. split.
      - unfold time2freq_nyquist, time2freq. rewrite !vec_vector. cbn [fst snd]. rewrite Hx, Nat.eqb_refl. cbn [Nat.ltb Nat.leb orb negb].
        change (as_list (vec t)) with (Ok t). change (as_list (vec x)) with (Ok x). cbn [bind].
        destruct (monotonic_increasing_constant_step t) as [[|]|e]; cbn [bind negb]; try reflexivity.
        destruct (idx t 1); cbn [bind]; [|reflexivity]. destruct (idx t 0); reflexivity.
      - intros. rewrite map_length, seq_length. unfold fft. now rewrite ?map_length, ?seq_length, ?map_length. }
    destruct Q as (e & Q).
    destruct (monotonic_increasing_constant_step t) as [[|]|er]; cbn [bind negb] in Q.
    - destruct (idx t 1) as [tb|er]; cbn [bind negb] in Q.
      + destruct (idx t 0) as [ta|er]; cbn [bind negb] in Q.
        * right. exists (slice 0 (Nat.div (length t) 2 + 1) (e tb ta)). intros x Hx. destruct (Q x Hx) as (-> & L).
          eexists. split; [reflexivity|]. now rewrite !slice_len, L.
        * left. exists er. intros x Hx. apply Q, Hx.
      + left. exists er. intros x Hx. apply Q, Hx.
    - left. exists ValueError. intros x Hx. apply Q, Hx.
    - left. exists er. intros x Hx. apply Q, Hx.
  Qed.
End HeapProps.
