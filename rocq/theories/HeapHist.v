(** * Lemmas for C85 (HeapObjProps.v): constructors and methods of the objects of HeapObj.v *)

From Coq Require Import ZArith String List Bool Arith Lia.
From Verif Require Import Num Engine Cpx TimeModel SpectralModel WaveModel DisperModel DecompModel
  SpectrumModel SeriesModel HeapModel HeapObj HeapObjSpec HeapFacts HeapProps HeapDecomp.
Import ListNotations.
Local Open Scope nat_scope.

Section HeapHist.
  Context {N : Num}.
  Local Notation cpx := (cpx N).
  Local Notation mem := (mem N).
  Local Notation hp := (hp N).

  (** where a converted argument lives: a number, a list or a column is copied, any other array is kept *)
  Definition is_column (r : ref) : bool := Nat.eqb (snd (h_size r)) 1.
  Definition source {A} (d : dtype N A) (m : mem) (p : pyarg A) (r : ref) : Prop :=
    match p with
    | PArr r0 => if is_column r0 then length (bufs d m) <= r_buf r else r = r0
    | _ => length (bufs d m) <= r_buf r
    end.
  Lemma source_base {A} (d : dtype N A) m0 m p r : ext m0 m -> source d m p r -> source d m0 p r.
  Proof. intros E. pose proof (ext_len d _ _ E). destruct p; cbn; try lia. destruct (is_column r0); [lia|auto]. Qed.

  Lemma h_vector_src {A} (d : dtype N A) p m :
    arg_ok d m p ->
    exists m1 r, h_vector d p m = (m1, Ok (r, snd (convert_to_vector (argval d m p)))) /\ ext m m1 /\
      ref_ok d m1 r /\ mkArr (r_shape r) (read d m1 r) = fst (convert_to_vector (argval d m p)) /\
      source d m p r.
  Proof.
    intro H. destruct (h_vector_spec d p m H) as (m1 & r & Q & E & O & R).
    exists m1, r. split; [exact Q|]. split; [exact E|]. split; [exact O|]. split; [exact R|].
    unfold h_vector, hbind in Q.
    destruct (h_array_spec d p m H) as (m2 & r2 & Q2 & E2 & O2 & V2 & P2). rewrite Q2 in Q. cbv zeta in Q.
    fold (is_column r2) in Q. destruct (is_column r2) eqn:B.
    - assert (G : length (bufs d m) <= r_buf r).
      { cbn in Q. inversion Q; subst. cbn. now apply ext_len. }
      destruct p; cbn; auto. destruct P2 as (<- & _). now rewrite B.
    - cbn in Q. inversion Q; subst. destruct p; cbn; auto. destruct P2 as (<- & _). now rewrite B.
  Qed.
  Lemma vec_not_column r n : r_shape r = [n] -> is_column r = false.
  Proof. intro Sh. unfold is_column, h_size, size_. rewrite Sh. cbn. destruct (Nat.eqb _ 0); reflexivity. Qed.
  Lemma h_vector_vec {A} (d : dtype N A) m r l :
    is_vec d m r l -> h_vector d (PArr r) m = (m, Ok (r, (length l, 0))).
  Proof.
    intros (H & L & Sh & R). unfold h_vector, hbind, h_array, hret. cbv zeta.
    assert (Z : h_size r = (length l, 0)).
    { unfold h_size, size_, asize. cbn [shape]. rewrite Sh. cbn [fold_right]. destruct (length l * 1 =? 0) eqn:B; [|reflexivity].
      apply Nat.eqb_eq in B. replace (length l) with 0 by lia. reflexivity. }
    rewrite Z. reflexivity.
  Qed.
  Lemma as_list_is_vec {A} (d : dtype N A) m r v l :
    ref_ok d m r -> mkArr (r_shape r) (read d m r) = v -> as_list v = Ok l -> is_vec d m r l.
  Proof.
    intros (H & L) <- Q. unfold as_list in Q. cbn in Q. destruct (r_shape r) as [|n [|? ?]] eqn:Sh; try discriminate.
    assert (Q' : read d m r = l) by congruence. cbn in L.
    assert (LL : length (r_idx r) = length l) by (rewrite <- Q'; symmetry; apply read_length).
    split; [exact H|]. split; [exact LL|]. split; [|exact Q']. rewrite Sh. f_equal. lia.
  Qed.
  Lemma wh_init_vec m rh rt (h t : list N) :
    is_vec Real m rh h -> is_vec Real m rt t ->
    h_wh_init (PArr rh) (PArr rt) m = (m, Ok (mkHWH rh rt (length h))).
  Proof.
    intros Hh Ht. unfold h_wh_init, hbind. rewrite (h_vector_vec Real _ _ _ Hh), (h_vector_vec Real _ _ _ Ht).
    destruct Hh as (_ & _ & Sh & _). unfold hret, h_len. now rewrite Sh.
  Qed.

  (** np.delete and np.where act on the list of waves as on each of its arrays *)
  Lemma where_map {A B} (g : A -> B) (p : B -> bool) l : where_ p (map g l) = where_ (fun a => p (g a)) l.
  Proof.
    unfold where_. generalize 0 as k. induction l as [|a l IH]; intro k; cbn; [reflexivity|].
    rewrite IH. reflexivity.
  Qed.
  Lemma delete_map {A B} (g : A -> B) is l : delete_idx is (map g l) = map g (delete_idx is l).
  Proof.
    unfold delete_idx. rewrite map_length. generalize 0 as k. induction l as [|a l IH]; intro k; [reflexivity|].
    cbn [length seq combine map filter fst]. destruct (negb (existsb (Nat.eqb k) is)); cbn [map snd]; now rewrite IH.
  Qed.

  Lemma crossings_wf (t x : arraylike N) ty n tc : determine_zero_crossing t x ty = Ok (n, tc) -> wf_arr tc.
  Proof.
    unfold determine_zero_crossing. cbv zeta. intro Q.
    destruct (negb _) in Q; [discriminate|]. destruct (negb _) in Q; [discriminate|].
    destruct (as_list _) as [tl|] in Q; [|discriminate]. cbn [bind] in Q.
    destruct (as_list _) as [xl|] in Q; [|discriminate]. cbn [bind] in Q.
    destruct (negb _) in Q; [discriminate|].
    destruct (idx tl 1) in Q; [|discriminate]. cbn [bind] in Q.
    destruct (idx tl 0) in Q; [|discriminate]. cbn [bind] in Q.
    destruct (if String.eqb (lower ty) "up" then _ else _) as [cr|] in Q; [|discriminate]. cbn [bind] in Q.
    destruct (zc_loop cr _ tl xl) as [nw tC] in Q. apply (f_equal (fun r => match r with Ok p => snd p | Raise _ => tc end)) in Q.
    cbn in Q. subst tc. destruct tC as [|c tC]; [reflexivity|]. unfold wf_arr, asize, vec. cbn. lia.
  Qed.

  Lemma series_crossings_dv (m : mem) rt rx (t x : list N) ty fc :
    is_vec Real m rt t -> is_vec Real m rx x ->
    delivers m m (h_series_crossings rt rx ty fc)
      (fun (m' : mem) (rc : ref) (p : Z * arr N) =>
         length (mR m) <= r_buf rc /\ ref_ok Real m' rc /\ arr_at m' rc = snd p)
      (series_crossings t x ty fc).
  Proof.
    intros Ht Hx. unfold h_series_crossings, series_crossings.
    eapply dv_step; [exact (is_vec_list Real _ _ _ Ht)|]. cbv beta.
    assert (K1 : delivers m m
      (if negb (neqb fc n0)
       then do! rlow := h_bandpassfilter (PArr rt) (PArr rx) n0 fc in
            do! x := hlist Real rx in
            do! low := hlist Real rlow in
            do! d := hlift (bmap2 nsub x low) in
            hvec Real d
       else do! x := hlist Real rx in hvec Real (map (fun v => nsub v n0) x))
      (fun m' r v => new_vec Real m m' r v)
      (if negb (neqb fc n0)
       then let! low := bandpassfilter (Arr (vec t)) (Arr (vec x)) n0 fc in bmap2 nsub x low
       else Ok (map (fun v => nsub v n0) x))).
    { destruct (negb (neqb fc n0)).
      - pose proof (bandpass_dv m (PArr rt) (PArr rx) n0 fc (is_vec_ok Real _ _ _ Ht) (is_vec_ok Real _ _ _ Hx)) as KB.
        rewrite (is_vec_arg Real _ _ _ Ht), (is_vec_arg Real _ _ _ Hx) in KB.
        apply (dv_call m m _ _ _ _ _ _ (ext_refl m) KB). intros m1 rlow low E1 Kl _.
        eapply dv_step; [exact (is_vec_list Real _ _ _ (is_vec_ext Real _ _ _ _ E1 Hx))|].
        eapply dv_step; [exact (new_vec_list Real _ _ _ _ Kl)|].
        destruct (bmap2 nsub x low) as [d|e].
        + eapply dv_step; [reflexivity|]. apply dv_vec. exact E1.
        + eapply dv_step_raise; [reflexivity|exact E1].
      - eapply dv_step; [exact (is_vec_list Real _ _ _ Hx)|]. apply dv_vec, ext_refl. }
    apply (dv_call m m _ _ _ _ _ _ (ext_refl m) K1). intros m1 rxr xr E1 Kx _.
    eapply dv_step; [exact (new_vec_list Real _ _ _ _ Kx)|].
    destruct (determine_zero_crossing _ _ ty) as [[n tc]|e] eqn:QC; [|eapply dv_step_raise; [reflexivity|exact E1]].
    eapply dv_step; [reflexivity|]. cbv beta iota.
    destruct tc as [sh l]. pose proof (crossings_wf _ _ _ _ _ QC) as W. unfold wf_arr, asize in W. cbn in W.
    destruct (h_array_spec Real (PList (mkArr sh l)) m1 W) as (m2 & rc & Q2 & E2 & O2 & V2 & P2).
    cbn [h_array shape data] in Q2. eapply dv_eq; [exact Q2|now apply ext_trans with m1|].
    split; [|split; [exact O2|exact V2]]. pose proof (ext_len Real _ _ E1) as L. cbn [bufs] in *. lia.
  Qed.
  Lemma new_list_read {A} (d : dtype N A) (m m1 m2 : mem) r l :
    new_list d m m1 r l -> ext m1 m2 -> read d m2 r = l.
  Proof.
    intros (H & K1 & _ & K3) E. rewrite (read_ext d m1 m2 r E) by apply H. unfold read. rewrite K1, K3. apply map_nth_seq.
  Qed.
  Lemma individual_waves_dv (m : mem) rt rx (t x : list N) ty fc mw :
    is_vec Real m rt t -> is_vec Real m rx x ->
    delivers m m (h_individual_waves rt rx ty fc mw)
      (fun (m' : mem) (a : ref * ref * ref * ref * ref * ref * ref * ref) (b : list (wave N) * list N * arr N) =>
         let '(rH, rT, rAC, rAT, rTC, rTT, rkept, rc) := a in
         let '(ws, kept, tc) := b in
         new_vec Real m m' rH (map w_h ws) /\ new_vec Real m m' rT (map w_t ws) /\
         new_vec Real m m' rAC (map w_crest ws) /\ new_vec Real m m' rAT (map w_trough ws) /\
         new_vec Real m m' rTC (map w_tcrest ws) /\ new_vec Real m m' rTT (map w_ttrough ws) /\
         new_vec Real m m' rkept kept /\
         (length (mR m) <= r_buf rc /\ ref_ok Real m' rc /\ arr_at m' rc = tc) /\
         NoDup (map r_buf [rH; rT; rAC; rAT; rTC; rTT; rkept; rc]))
      (individual_waves t x ty fc mw).
  Proof.
    intros Ht Hx. unfold h_individual_waves, individual_waves.
    apply (dv_call m m _ _ _ _ _ _ (ext_refl m) (series_crossings_dv m rt rx t x ty fc Ht Hx)).
    intros m1 rc [n tc] E1 (Lc & Oc & Vc) _. cbn [snd] in Vc. cbv beta iota.
    pose proof (waves_dv m1 (PArr rc) (PArr rt) (PArr rx) Oc (is_vec_ok Real _ _ _ (is_vec_ext Real _ _ _ _ E1 Ht))
                  (is_vec_ok Real _ _ _ (is_vec_ext Real _ _ _ _ E1 Hx))) as KW.
    rewrite (is_vec_arg Real _ _ _ (is_vec_ext Real _ _ _ _ E1 Ht)),
            (is_vec_arg Real _ _ _ (is_vec_ext Real _ _ _ _ E1 Hx)) in KW.
    change (argval Real m1 (PArr rc)) with (Arr (arr_at m1 rc)) in KW. rewrite Vc in KW.
    apply (dv_call m m1 _ _ _ _ _ _ E1 KW). clear KW.
    intros m2 [[[[[rH rT] rAC] rAT] rTC] rTT] ws E2 (KH & KT & KAC & KAT & KTC & KTT & _) _.
    cbv beta iota.
    assert (E02 : ext m m2) by now apply ext_trans with m1.
    assert (Rc : read Real m2 rc = data tc).
    { rewrite (read_ext Real m1 m2 rc E2) by apply Oc. rewrite <- Vc. reflexivity. }
    rewrite <- (grow_nil m2).
    set (f := where_ (fun w => nltb (w_h w) mw) ws).
    assert (RR : forall (g : wave N -> N) r er ec, new_list Real m1 m2 r (map g ws) ->
      hread Real r (grow m2 er ec) = (grow m2 er ec, Ok (map g ws))).
    { intros g r er ec K. unfold hread. now rewrite (new_list_read Real _ _ _ _ _ K (ext_grow m2 er ec)). }
    eapply dv_step; [exact (RR w_h _ _ _ KH)|]. cbv beta zeta. rewrite where_map. fold f.
    eapply dv_step; [exact (f_equal (fun l => (grow m2 [] [], Ok l))
                              (eq_trans (f_equal (fun mm => read Real mm rc) (grow_nil m2)) Rc))|].
    eapply dv_step; [apply hvec_R|]. eapply dv_step; [apply hvec_R|].
    eapply dv_step; [exact (RR w_t _ _ _ KT)|]. eapply dv_step; [apply hvec_R|].
    eapply dv_step; [exact (RR w_crest _ _ _ KAC)|]. eapply dv_step; [apply hvec_R|].
    eapply dv_step; [exact (RR w_trough _ _ _ KAT)|]. eapply dv_step; [apply hvec_R|].
    eapply dv_step; [exact (RR w_tcrest _ _ _ KTC)|]. eapply dv_step; [apply hvec_R|].
    eapply dv_step; [exact (RR w_ttrough _ _ _ KTT)|]. eapply dv_step; [apply hvec_R|].
    cbn [app length]. rewrite !delete_map, !map_length.
    apply dv_ret; [apply ext_trans with m2; [exact E02|apply ext_grow]|].
    cbv beta iota.
    repeat match goal with |- new_vec _ _ _ _ _ /\ _ => split; [apply fresh_new_R; cbn; [exact E02|lia|reflexivity|now rewrite ?map_length]|] end.
    split.
    { split; [exact Lc|]. split.
      - apply (ref_ok_ext Real m1); [|exact Oc]. apply ext_trans with m2; [exact E2|apply ext_grow].
      - rewrite <- Vc. unfold arr_at. f_equal. apply (read_ext Real m1); [|apply Oc].
        apply ext_trans with m2; [exact E2|apply ext_grow]. }
    assert (B : r_buf rc < length (mR m2)).
    { pose proof (ext_len Real _ _ E2) as L. destruct Oc as (Oc & _). cbn [bufs] in *. lia. }
    cbn [map r_buf fresh_at bufs]. repeat constructor; cbn; lia.
  Qed.

  (** *** overwriting an array of the caller *)
  Lemma upd_app_l {A} b (v : A) l k : b < length l -> upd b v (l ++ k) = upd b v l ++ k.
  Proof. revert b. induction l as [|a l IH]; intros [|b] H; cbn in *; try lia; [reflexivity|]. rewrite IH by lia. reflexivity. Qed.
  Lemma poke_ext {A} (d : dtype N A) (M m : mem) b i v :
    ext M m -> b < length (bufs d M) -> ext (poke d b i v M) (poke d b i v m).
  Proof.
    intros (er & ec & ->) H. exists er, ec. unfold poke, grow.
    destruct d; cbn in *; rewrite app_nth1 by exact H; rewrite upd_app_l by exact H; reflexivity.
  Qed.
  Lemma upd_len {A} b (v : A) l : length (upd b v l) = length l.
  Proof. revert b. induction l as [|a l IH]; intros [|b]; cbn; auto. Qed.
  Lemma poke_len {A B} (d : dtype N A) (e : dtype N B) (m : mem) b i v : length (bufs e (poke d b i v m)) = length (bufs e m).
  Proof. destruct d, e; cbn; rewrite ?upd_len; reflexivity. Qed.
  Lemma nth_upd_other {A} b c (v dflt : A) l : b <> c -> nth c (upd b v l) dflt = nth c l dflt.
  Proof. revert b c. induction l as [|a l IH]; intros [|b] [|c] H; cbn; auto; try congruence. Qed.
  Lemma poke_read {A B} (d : dtype N A) (e : dtype N B) (M m : mem) b i v r :
    ext M m -> b < length (bufs d M) -> length (bufs e M) <= r_buf r -> read e (poke d b i v m) r = read e m r.
  Proof.
    intros E H L. unfold read. apply map_ext. intro k. f_equal.
    destruct d, e; cbn in *; try reflexivity; rewrite nth_upd_other by lia; reflexivity.
  Qed.

  (** *** a 1-D array, whatever its elements *)
  Definition vref (m : mem) (r : ref) : Prop := is_vec Real m r (read Real m r).
  Lemma is_vec_vref m r l : is_vec Real m r l -> vref m r.
  Proof. intros K. unfold vref. destruct K as (H & L & Sh & R). now rewrite R. Qed.
  Lemma vref_ext m m' r : ext m m' -> vref m r -> vref m' r.
  Proof. intros E K. apply is_vec_vref with (read Real m r). now apply (is_vec_ext Real m). Qed.
  Lemma vref_poke {A} (d : dtype N A) m r b i v : vref m r -> vref (poke d b i v m) r.
  Proof.
    intros (H & L & Sh & _). split; [now rewrite poke_len|]. rewrite read_length in *. auto.
  Qed.
  Definition own (M m : mem) (r : ref) : Prop := length (mR M) <= r_buf r /\ vref m r.
  Lemma own_ext M m m' r : ext m m' -> own M m r -> own M m' r.
  Proof. intros E (H & K). split; [exact H|now apply (vref_ext m)]. Qed.
  Lemma own_base M0 M m r : ext M0 M -> own M m r -> own M0 m r.
  Proof. intros E (H & K). split; [|exact K]. pose proof (ext_len Real _ _ E) as L. cbn [bufs] in L. lia. Qed.
  Lemma new_own M m r l : new_vec Real M m r l -> own M m r.
  Proof. intros K. split; [exact (proj1 (proj1 K))|]. apply is_vec_vref with l. now apply (new_is_vec Real M). Qed.
  Lemma read_own_ext M m m' r : ext m m' -> own M m r -> read Real m' r = read Real m r.
  Proof. intros E (_ & (H & _)). now apply read_ext. Qed.

  (** *** WaveHeights: every method on memory does what the value model does *)
  Section WH.
    Variable argsort : list N -> list nat.
    Definition sim {A} (p : hmeth N hwh A) (f : wh_meth A) (mv : waveheights N -> bool) : Prop :=
      forall m o, let '(m', o', r) := p o m in
        let s := hw_view m o in
        ext m m' /\ hw_view m' o' = fst (f s) /\ r = snd (f s) /\
        if mv s then (own m m' (hw_h o') /\ own m m' (hw_t o')) else (m' = m /\ o' = o).
    Lemma sim_eval {A} (g : waveheights N -> res A) : sim (h_wh_eval g) (fun s => (s, g s)) (fun _ => false).
    Proof. intros m o. cbn. repeat split. apply ext_refl. Qed.
    Lemma sim_bind {A B} (p : hmeth N hwh A) f mv (k : A -> hmeth N hwh B) g mvk :
      sim p f mv -> (forall a, sim (k a) (g a) (mvk a)) ->
      sim (hmbind p k) (wbind f g)
        (fun s => mv s || match snd (f s) with Ok a => mvk a (fst (f s)) | Raise _ => false end).
    Proof.
      intros Hp Hk m o. specialize (Hp m o). unfold hmbind, wbind. destruct (p o m) as [[m1 o1] r1]. cbv zeta in *.
      destruct Hp as (E1 & V1 & R1 & K1). destruct (f (hw_view m o)) as [s1 a1] eqn:Qf. cbn [fst snd] in *. subst r1 s1.
      destruct a1 as [a|e]; [|repeat split; auto; now rewrite orb_false_r].
      specialize (Hk a m1 o1). destruct (k a o1 m1) as [[m2 o2] r2]. cbv zeta in Hk.
      destruct Hk as (E2 & V2 & R2 & K2). split; [now apply ext_trans with m1|]. split; [exact V2|]. split; [exact R2|].
      destruct (mv (hw_view m o)); cbn [orb].
      - destruct (mvk a (hw_view m1 o1)).
        + destruct K2 as (K2 & K2'). split; now apply own_base with m1.
        + destruct K2 as (-> & ->). exact K1.
      - destruct K1 as (-> & ->). exact K2.
    Qed.
    Lemma sim_mv {A} (p : hmeth N hwh A) f mv mv' : (forall s, mv s = mv' s) -> sim p f mv -> sim p f mv'.
    Proof. intros Q H m o. specialize (H m o). destruct (p o m) as [[m1 o1] r1]. cbv zeta in *. now rewrite <- Q. Qed.

    Definition sorts_ok (s : waveheights N) : bool := match snd (wh_sort argsort s) with Ok _ => true | Raise _ => false end.
    Lemma sim_sort : sim (h_wh_sort argsort) (wh_sort argsort) sorts_ok.
    Proof.
      intros m o. unfold h_wh_sort, sorts_ok, wh_sort. change (wh_h (hw_view m o)) with (arr_at m (hw_h o)).
      change (wh_t (hw_view m o)) with (arr_at m (hw_t o)).
      destruct (sort_wave_params argsort _ _) as [[h t]|e]; [|cbn; repeat split; apply ext_refl].
      destruct (hvec_new Real m h) as (m1 & rh & Q1 & E1 & K1). destruct (hvec_new Real m1 t) as (m2 & rt & Q2 & E2 & K2).
      unfold hbind, hret. rewrite Q1, Q2. cbn [fst snd]. apply (new_vec_ext Real _ _ _ _ _ E2) in K1.
      split; [now apply ext_trans with m1|].
      assert (V : forall r l mm, new_vec Real mm m2 r l -> arr_at m2 r = vec l).
      { intros r l mm K. pose proof (new_vec_read Real _ _ _ _ K) as R. destruct K as (_ & _ & Sh & _).
        unfold arr_at, vec. now rewrite R, Sh. }
      split; [unfold hw_view; cbn [hw_h hw_t hw_n wh_n]; now rewrite (V _ _ _ K1), (V _ _ _ K2)|].
      split; [reflexivity|]. split; [exact (new_own _ _ _ _ K1)|]. apply own_base with m1; [exact E1|exact (new_own _ _ _ _ K2)].
    Qed.
    Definition sorting (c : wh_call N) : bool := match c with WHrms | WHmax => false | _ => true end.
    Lemma sim_highest p : sim (h_wh_highest argsort p) (wh_highest argsort p) sorts_ok.
    Proof.
      eapply sim_mv; [|apply (sim_bind _ _ _ _ _ (fun _ _ => false) sim_sort); intro u; apply sim_eval].
      intro s. unfold sorts_ok. destruct (wh_sort argsort s) as [? [|]]; reflexivity.
    Qed.
    Lemma sim_exceedance p : sim (h_wh_exceedance argsort p) (wh_exceedance argsort p) sorts_ok.
    Proof.
      eapply sim_mv; [|apply (sim_bind _ _ _ _ _ (fun _ _ => false) sim_sort); intro u; apply sim_eval].
      intro s. unfold sorts_ok. destruct (wh_sort argsort s) as [? [|]]; reflexivity.
    Qed.
    Lemma sim_plot_exc : sim (h_wh_plot_exceedance argsort) (wh_plot_exceedance argsort) sorts_ok.
    Proof.
      eapply sim_mv; [|apply (sim_bind _ _ _ _ _ (fun _ _ => false) sim_sort); intro u; apply sim_eval].
      intro s. unfold sorts_ok. destruct (wh_sort argsort s) as [? [|]]; reflexivity.
    Qed.
    Lemma highest_fails p s : sorts_ok s = false -> exists e, snd (wh_highest argsort p s) = Raise e.
    Proof. unfold sorts_ok, wh_highest, wbind. destruct (wh_sort argsort s) as [? [|]]; cbn; [discriminate|eauto]. Qed.
    Lemma sim_H2p : sim (h_wh_H2p_Rayleigh argsort) (wh_H2p_Rayleigh argsort) sorts_ok.
    Proof.
      eapply sim_mv; [|apply (sim_bind _ _ _ _ _ (fun _ _ => false) (sim_highest _)); intro u].
      2: exact (sim_eval (fun _ => Ok _)).
      intro s. cbv beta. now destruct (sorts_ok s), (snd (wh_highest argsort _ s)).
    Qed.
    Lemma sim_plot_Rayleigh BG b pb d c hm0 :
      sim (h_wh_plot_Rayleigh argsort BG b pb d c hm0) (wh_plot_Rayleigh argsort BG b pb d c hm0) sorts_ok.
    Proof.
      set (tailh := fun (n : nat) (Hn : N) => hmbind (h_wh_H2p_Rayleigh argsort) (fun H2p =>
          let theo := map (fun i => nmul H2p (nsqrt (ndiv (nln (nsub n1 (ndiv (nofnat i) (nofnat (n + 1))))) (nln (lit 2 100)))))
                          (rev (seq 1 n)) in
          hmbind (h_wh_sort argsort) (fun _ => h_wh_eval (fun s =>
            let! bg :=
              (if pb
               then if neqb hm0 (nopp n1) then Raise ValueError
                    else let! (hBG, pBG) := BG hm0 n d c in
                         Ok (Some (map (fun p => nsqrt (nopp (nln p))) pBG, map (fun v => ndiv v Hn) hBG))
               else Ok None) in
            Ok (map (fun i => @nsqrt N (nopp (nln (ndiv (nofnat i) (nofnat n))))) (seq 1 n),
                map (fun v => ndiv v Hn) theo, map (fun v => ndiv v Hn) (data (wh_h s)), bg))))).
      set (tailv := fun (n : nat) (Hn : N) => wbind (wh_H2p_Rayleigh argsort) (fun H2p =>
          let theo := map (fun i => nmul H2p (nsqrt (ndiv (nln (nsub n1 (ndiv (nofnat i) (nofnat (n + 1))))) (nln (lit 2 100)))))
                          (rev (seq 1 n)) in
          wbind (wh_sort argsort) (fun _ s => (s,
            let! bg :=
              (if pb
               then if neqb hm0 (nopp n1) then Raise ValueError
                    else let! (hBG, pBG) := BG hm0 n d c in
                         Ok (Some (map (fun p => nsqrt (nopp (nln p))) pBG, map (fun v => ndiv v Hn) hBG))
               else Ok None) in
            Ok (map (fun i => @nsqrt N (nopp (nln (ndiv (nofnat i) (nofnat n))))) (seq 1 n),
                map (fun v => ndiv v Hn) theo, map (fun v => ndiv v Hn) (data (wh_h s)), bg))))).
      assert (T : forall n Hn, sim (tailh n Hn) (tailv n Hn) sorts_ok).
      { intros n Hn. eapply sim_mv; [|apply (sim_bind _ _ _ _ _ (fun H2p s => sorts_ok s || match snd (wh_sort argsort s) with Ok _ => false | Raise _ => false end) sim_H2p)].
        - intro s. cbv beta. destruct (sorts_ok s) eqn:Sk; [reflexivity|]. cbn [orb].
          unfold wh_H2p_Rayleigh, wbind. destruct (highest_fails (ndiv n1 (nofZ 3)) s Sk) as (e & Qe). unfold wh_Hs.
          destruct (wh_highest argsort _ s) as [s1 r1]. cbn in Qe. subst r1. reflexivity.
        - intro H2p. apply (sim_bind _ _ _ _ _ (fun _ _ => false) sim_sort). intro u. apply sim_eval. }
      assert (T' : forall Hn, sim (fun o => tailh (hw_n o) Hn o) (fun s => tailv (wh_n s) Hn s) sorts_ok).
      { intros Hn m o. exact (T (hw_n o) Hn m o). }
      destruct b.
      - change (sim (hmbind (hmbind (h_wh_Hs argsort) (fun ht => h_wh_eval (fun _ => Ok (fst ht)))) (fun Hn o => tailh (hw_n o) Hn o))
                    (wbind (wbind (wh_Hs argsort) (fun ht s => (s, Ok (fst ht)))) (fun Hn s => tailv (wh_n s) Hn s)) sorts_ok).
        eapply sim_mv; [|apply (sim_bind _ _ _ _ _ (fun Hn s => sorts_ok s)
           (sim_bind _ _ _ _ _ (fun _ _ => false) (sim_highest _) (fun ht => sim_eval (fun _ => Ok (fst ht)))) T')].
        intro s. cbv beta. destruct (sorts_ok s) eqn:Sk; [reflexivity|]. cbn [orb].
        destruct (highest_fails (ndiv n1 (nofZ 3)) s Sk) as (e & Qe). unfold wbind. unfold wh_Hs in *.
        destruct (wh_highest argsort _ s) as [s1 r1]. cbn in Qe. subst r1. reflexivity.
      - change (sim (hmbind (h_wh_eval (fun _ => Ok n1)) (fun Hn o => tailh (hw_n o) Hn o))
                    (wbind (fun s => (s, Ok n1)) (fun Hn s => tailv (wh_n s) Hn s)) sorts_ok).
        eapply sim_mv; [|apply (sim_bind _ _ _ _ _ (fun Hn s => sorts_ok s) (sim_eval (fun _ => Ok n1)) T')].
        intro s. reflexivity.
    Qed.
    Definition renews (c : wh_call N) (s : waveheights N) : bool := sorting c && sorts_ok s.
    Lemma sim_call c : sim (h_wh_call argsort c) (v_wh_call argsort c) (renews c).
    Proof.
      destruct c.
      - exact sim_sort.
      - exact (sim_eval _).
      - exact (sim_eval _).
      - exact (sim_highest _).
      - exact sim_H2p.
      - exact (sim_exceedance _).
      - exact (sim_highest _).
      - exact sim_plot_exc.
      - exact (sim_plot_Rayleigh _ _ _ _ _ _).
    Qed.
    Lemma call_step c s : fst (v_wh_call argsort c s) = wh_step argsort c s.
    Proof. now destruct c. Qed.
  End WH.

  (** *** Series *)
  Lemma vec_arr_at (m : mem) r l : is_vec Real m r l -> arr_at m r = vec l.
  Proof. intros (_ & _ & Sh & R). unfold arr_at, vec. now rewrite Sh, R. Qed.
  Lemma waves_object (m : mem) rh rt (ws : list (wave N)) :
    is_vec Real m rh (map w_h ws) -> is_vec Real m rt (map w_t ws) ->
    hw_view m (mkHWH rh rt (length (map w_h ws))) = wh_of_waves ws.
  Proof.
    intros Hh Ht. unfold hw_view, wh_of_waves, wh_init. rewrite !vec_vector. cbn [hw_h hw_t hw_n].
    now rewrite (vec_arr_at _ _ _ Hh), (vec_arr_at _ _ _ Ht).
  Qed.
  (** what an object holds: its own arrays are newer than [M] *)
  Definition holds (M m : mem) (o : hseries N) : Prop :=
    vref m (hs_t o) /\ vref m (hs_x o) /\ own M m (hw_h (hs_wh o)) /\ own M m (hw_t (hs_wh o)) /\ own M m (hs_tCross o).
  Lemma series_init_dv (m : mem) (time0 x0 : pyarg N) :
    arg_ok Real m time0 -> arg_ok Real m x0 ->
    delivers m m (h_series_init time0 x0)
      (fun (m' : mem) (o : hseries N) (s : series N) =>
         hs_view m' o = s /\ source Real m time0 (hs_t o) /\ source Real m x0 (hs_x o) /\ holds m m' o /\
         NoDup (map r_buf [hw_h (hs_wh o); hw_t (hs_wh o); hs_tCross o]))
      (series_init (argval Real m time0) (argval Real m x0)).
  Proof.
    intros At Ax. unfold h_series_init, series_init.
    destruct (h_vector_src Real time0 m At) as (m1 & rt & Q1 & E1 & O1 & V1 & S1). eapply dv_step; [exact Q1|].
    pose proof (arg_ok_ext Real _ _ _ E1 Ax) as Ax1.
    destruct (h_vector_src Real x0 m1 Ax1) as (m2 & rx & Q2 & E2 & O2 & V2 & S2).
    rewrite (argval_ext Real _ _ _ E1 Ax) in V2, Q2. apply (source_base Real m) in S2; [|exact E1].
    destruct (convert_to_vector (argval Real m time0)) as [t1 tS]. destruct (convert_to_vector (argval Real m x0)) as [x1 xS].
    cbn [fst snd] in *. cbv beta iota. eapply dv_step; [exact Q2|]. cbv beta iota.
    assert (E02 : ext m m2) by now apply ext_trans with m1.
    destruct (negb (Nat.eqb (fst tS) (fst xS))).
    { eapply dv_eq_raise; [reflexivity|exact E02]. }
    rewrite <- (read_ext Real m1 m2 rt E2) in V1 by apply O1. apply (ref_ok_ext Real _ _ _ E2) in O1.
    apply (dv_list Real m m2 rt t1 _ _ _ E02 V1). intros t Qt. pose proof (as_list_is_vec Real _ _ _ _ O1 V1 Qt) as It.
    destruct (negb _).
    { eapply dv_eq_raise; [reflexivity|exact E02]. }
    apply (dv_list Real m m2 rx x1 _ _ _ E02 V2). intros x Qx. pose proof (as_list_is_vec Real _ _ _ _ O2 V2 Qx) as Ix.
    cbv zeta.
    apply (dv_call m m2 _ _ _ _ _ _ E02 (individual_waves_dv m2 rt rx t x _ _ _ It Ix)).
    intros m3 [[[[[[[rH rT] rAC] rAT] rTC] rTT] rkept] rc] [[ws kept] tc] E3 (KH & KT & _ & _ & _ & _ & KK & _ & ND) _.
    cbv beta iota.
    assert (E03 : ext m m3) by now apply ext_trans with m2.
    pose proof (new_is_vec Real _ _ _ _ KH) as IH. pose proof (new_is_vec Real _ _ _ _ KT) as IT.
    eapply dv_step; [exact (wh_init_vec _ _ _ _ _ IH IT)|].
    eapply dv_step; [exact (wh_init_vec _ _ _ _ _ IH IT)|].
    apply dv_ret; [exact E03|]. cbn [hs_t hs_x hs_wh hw_h hw_t hs_tCross].
    split; [|split; [exact S1|split; [exact S2|split]]].
    - unfold hs_view. cbn [hs_t hs_x hs_nt hs_dt hs_wh hs_tCross]. f_equal.
      + apply (is_vec_ext Real _ _ _ _ E3 It).
      + apply (is_vec_ext Real _ _ _ _ E3 Ix).
      + now apply waves_object.
      + apply (new_is_vec Real _ _ _ _ KK).
    - split; [exact (is_vec_vref _ _ _ (is_vec_ext Real _ _ _ _ E3 It))|].
      split; [exact (is_vec_vref _ _ _ (is_vec_ext Real _ _ _ _ E3 Ix))|].
      split; [exact (new_own _ _ _ _ (new_vec_base Real _ _ _ _ _ E02 KH))|].
      split; [exact (new_own _ _ _ _ (new_vec_base Real _ _ _ _ _ E02 KT))|].
      exact (new_own _ _ _ _ (new_vec_base Real _ _ _ _ _ E02 KK)).
    - cbn in ND |- *. inversion ND as [|? ? N1 N2]; subst. inversion N2 as [|? ? N3 N4]; subst.
      repeat constructor; cbn in *; tauto.
  Qed.

  Lemma series_determine_dv (M m : mem) (o : hseries N) ty fc mw :
    ext M m -> holds M m o ->
    let '(m', o', r) := h_series_determine ty fc mw o m in
    let '(s', v) := series_determine (hs_view m o) ty fc mw in
    ext m m' /\ hs_view m' o' = s' /\ holds M m' o' /\ hs_t o' = hs_t o /\ hs_x o' = hs_x o /\
    match r, v with
    | Raise e, Raise e' => e = e' /\ o' = o
    | Ok (rH, rT, rAC, rAT, rTC, rTT, rc), Ok (ws, tc) =>
        new_vec Real m m' rH (map w_h ws) /\ new_vec Real m m' rT (map w_t ws) /\
        new_vec Real m m' rAC (map w_crest ws) /\ new_vec Real m m' rAT (map w_trough ws) /\
        new_vec Real m m' rTC (map w_tcrest ws) /\ new_vec Real m m' rTT (map w_ttrough ws) /\
        (length (mR m) <= r_buf rc /\ ref_ok Real m' rc /\ arr_at m' rc = tc) /\
        NoDup (map r_buf [rH; rT; rAC; rAT; rTC; rTT; hs_tCross o'; rc]) /\
        hw_h (hs_wh o') = rH /\ hw_t (hs_wh o') = rT
    | _, _ => False
    end.
  Proof.
    intros E (Vt & Vx & Vh & Vw & Vc). unfold h_series_determine, series_determine.
    pose proof (individual_waves_dv m (hs_t o) (hs_x o) _ _ ty fc mw Vt Vx) as K. unfold delivers in K.
    change (se_t (hs_view m o)) with (read Real m (hs_t o)). change (se_x (hs_view m o)) with (read Real m (hs_x o)).
    unfold hbind at 1. destruct (h_individual_waves (hs_t o) (hs_x o) ty fc mw m) as [m1 r1].
    destruct (individual_waves _ _ ty fc mw) as [[[ws kept] tc]|e'].
    - destruct r1 as [[[[[[[[rH rT] rAC] rAT] rTC] rTT] rkept] rc]|e]; [|tauto].
      destruct K as (E1 & KH & KT & KAC & KAT & KTC & KTT & KK & KC & ND).
      pose proof (new_is_vec Real _ _ _ _ KH) as IH. pose proof (new_is_vec Real _ _ _ _ KT) as IT.
      unfold hbind. rewrite (wh_init_vec _ _ _ _ _ IH IT). cbn [hret hs_t hs_x hs_wh hs_tCross hw_h hw_t].
      split; [exact E1|]. split.
      { unfold hs_view. cbn [hs_t hs_x hs_nt hs_dt hs_wh hs_tCross]. f_equal.
        - apply read_ext; [exact E1|apply Vt].
        - apply read_ext; [exact E1|apply Vx].
        - now apply waves_object.
        - apply (new_is_vec Real _ _ _ _ KK). }
      split.
      { split; [now apply (vref_ext m)|]. split; [now apply (vref_ext m)|]. cbn [hs_wh hw_h hw_t hs_tCross].
        split; [exact (new_own _ _ _ _ (new_vec_base Real _ _ _ _ _ E KH))|].
        split; [exact (new_own _ _ _ _ (new_vec_base Real _ _ _ _ _ E KT))|].
        exact (new_own _ _ _ _ (new_vec_base Real _ _ _ _ _ E KK)). }
      repeat split; auto; try apply KH; try apply KT; try apply KAC; try apply KAT; try apply KTC; try apply KTT; try apply KC.
    - destruct r1 as [a|e]; [tauto|]. destruct K as (E1 & ->).
      split; [exact E1|]. split.
      { unfold hs_view, hw_view, arr_at. rewrite !(read_ext Real m m1) by (exact E1 || apply Vt || apply Vx || apply Vh || apply Vw || apply Vc).
        reflexivity. }
      split; [|auto]. split; [now apply (vref_ext m)|]. split; [now apply (vref_ext m)|].
      split; [now apply (own_ext M m)|]. split; now apply (own_ext M m).
  Qed.

  (** *** histories *)
  Lemma source_kept (M : mem) p r n : r_shape r = [n] -> source Real M p r -> kept_or_new M p r.
  Proof.
    intros Sh. unfold source, kept_or_new, keeps. destruct p as [v|a|r0]; auto.
    destruct (is_column r0) eqn:B.
    - intro H. destruct (r_shape r0) as [|k [|? ?]] eqn:S0; auto. exfalso.
      rewrite (vec_not_column r0 k S0) in B. discriminate.
    - intros ->. now rewrite Sh.
  Qed.
  Lemma vref_shape m r : vref m r -> r_shape r = [length (read Real m r)].
  Proof. intros K. apply K. Qed.
  (** where an attribute lives, and what a write does to it *)
  Lemma kept_read_poke {A} (d : dtype N A) (M m : mem) b i v p r :
    ext M m -> b < length (bufs d M) -> arg_ok Real M p -> kept_or_new M p r ->
    read Real (poke d b i v m) r = refresh p (poke d b i v M) (read Real m r).
  Proof.
    intros E H Ap K. unfold kept_or_new, refresh in *. destruct (keeps p) as [r0|] eqn:Q.
    - subst r0. unfold keeps in Q. destruct p as [w|a|r1]; try discriminate.
      assert (r1 = r) by (destruct (r_shape r1) as [|? [|? ?]]; congruence). subst r1.
      apply read_ext; [now apply poke_ext|]. rewrite poke_len. apply Ap.
    - now apply poke_read with M.
  Qed.
  Lemma kept_base (M M' : mem) p r : length (mR M) = length (mR M') -> kept_or_new M p r -> kept_or_new M' p r.
  Proof. intros L. unfold kept_or_new. cbn [bufs]. now rewrite L. Qed.
  Lemma arg_poke {A} (d : dtype N A) (M : mem) b i v p : arg_ok Real M p -> arg_ok Real (poke d b i v M) p.
  Proof. destruct p as [w|a|r]; cbn [arg_ok]; auto. intros (H & K). split; [now rewrite poke_len|exact K]. Qed.
  Lemma own_poke {A} (d : dtype N A) (M m : mem) b i v r :
    ext M m -> b < length (bufs d M) -> own M m r ->
    own (poke d b i v M) (poke d b i v m) r /\ read Real (poke d b i v m) r = read Real m r.
  Proof.
    intros E H (L & K). split; [|now apply poke_read with M].
    split; [change (mR ?x) with (bufs Real x); rewrite poke_len; exact L|now apply vref_poke].
  Qed.

  Lemma run_cons {E St} (step : E -> St -> St) e es s : run step (e :: es) s = run step es (step e s).
  Proof. reflexivity. Qed.
  Section Histories.
    Variable argsort : list N -> list nat.
    (** Series *)
    Definition follows (time0 x0 : pyarg N) (M : mem) (s : series N) (m : mem) (o : hseries N) : Prop :=
      ext M m /\ arg_ok Real M time0 /\ arg_ok Real M x0 /\ holds M m o /\ hs_view m o = s /\
      kept_or_new M time0 (hs_t o) /\ kept_or_new M x0 (hs_x o).
    Lemma series_event_follows time0 x0 M s m o e :
      callers M e -> follows time0 x0 M s m o ->
      let '(M', s') := series_event argsort time0 x0 e (M, s) in
      let '(m', o') := h_series_event argsort e (m, o) in
      follows time0 x0 M' s' m' o' /\ hs_t o' = hs_t o /\ hs_x o' = hs_x o.
    Proof.
      intros C (E & At & Ax & Hh & Vs & Kt & Kx). destruct e as [A d b i v|c]; cbn [series_event h_series_event].
      - cbn [callers] in C. split; [|auto]. destruct Hh as (H1 & H2 & H3 & H4 & H5).
        destruct (own_poke d M m b i v _ E C H3) as (H3' & R3). destruct (own_poke d M m b i v _ E C H4) as (H4' & R4).
        destruct (own_poke d M m b i v _ E C H5) as (H5' & R5).
        split; [now apply poke_ext|]. split; [now apply arg_poke|]. split; [now apply arg_poke|].
        split; [repeat split; try apply H3'; try apply H4'; try apply H5'; now apply vref_poke|].
        split.
        + rewrite <- Vs. unfold hs_view. cbn [se_t se_x se_nt se_dt se_wh se_tCross].
          rewrite (kept_read_poke d M m b i v time0 (hs_t o)) by auto.
          rewrite (kept_read_poke d M m b i v x0 (hs_x o)) by auto.
          unfold hw_view, arr_at. rewrite R3, R4, R5. reflexivity.
        + assert (L : length (mR M) = length (mR (poke d b i v M))).
          { change (length (bufs Real M) = length (bufs Real (poke d b i v M))). now rewrite poke_len. }
          split; now apply (kept_base M).
      - destruct c as [c|ty fc mw]; cbn [h_series_step series_step].
        + pose proof (sim_call argsort c m (hs_wh o)) as K. destruct (h_wh_call argsort c (hs_wh o) m) as [[m1 w1] r1].
          cbv zeta in K. destruct K as (E1 & V1 & _ & K1). cbn [hs_t hs_x]. split; [|auto].
          destruct Hh as (H1 & H2 & H3 & H4 & H5).
          split; [now apply ext_trans with m|]. split; [exact At|]. split; [exact Ax|]. split.
          { split; [now apply (vref_ext m)|]. split; [now apply (vref_ext m)|]. cbn [hs_wh hs_tCross].
            destruct (renews argsort c (hw_view m (hs_wh o))).
            - destruct K1 as (K1 & K2). split; [now apply own_base with m|]. split; [now apply own_base with m|now apply (own_ext M m)].
            - destruct K1 as (-> & ->). auto. }
          split; [|auto]. rewrite <- Vs. unfold hs_view. cbn [hs_t hs_x hs_nt hs_dt hs_wh hs_tCross se_t se_x se_nt se_dt se_wh se_tCross].
          rewrite V1, call_step. rewrite !(read_ext Real m m1) by (exact E1 || apply H1 || apply H2 || apply H5). reflexivity.
        + pose proof (series_determine_dv M m o ty fc mw E Hh) as K.
          destruct (h_series_determine ty fc mw o m) as [[m1 o1] r1]. rewrite Vs in K.
          destruct (series_determine s ty fc mw) as [s1 v1]. destruct K as (E1 & V1 & H1 & Et & Ex & _). cbn [fst].
          split; [|auto]. split; [now apply ext_trans with m|]. split; [exact At|]. split; [exact Ax|].
          split; [exact H1|]. split; [exact V1|]. rewrite Et, Ex. auto.
    Qed.
    Lemma callers_step {C} time0 x0 (M : mem) s e (es : list (event N C)) (e0 : event N (series_call N)) : 
      e0 = e -> Forall (callers M) es -> Forall (callers (fst (series_event argsort time0 x0 e (M, s)))) es.
    Proof.
      intros _. apply Forall_impl. intros [B d' b' i' v'|c']; cbn; auto. intro H.
      destruct e as [A d b i v|c]; cbn [series_event fst]; [now rewrite poke_len|exact H].
    Qed.
    Lemma series_history_follows time0 x0 es M s m o :
      Forall (callers M) es -> follows time0 x0 M s m o ->
      let '(M', s') := run (series_event argsort time0 x0) es (M, s) in
      let '(m', o') := run (h_series_event argsort) es (m, o) in
      follows time0 x0 M' s' m' o' /\ hs_t o' = hs_t o /\ hs_x o' = hs_x o.
    Proof.
      revert M s m o. induction es as [|e es IH]; intros M s m o Ce Fo; [cbn; auto|].
      inversion Ce as [|? ? C1 C2]; subst.
      pose proof (series_event_follows time0 x0 M s m o e C1 Fo) as K.
      apply (callers_step time0 x0 M s e es e eq_refl) in C2. rewrite !run_cons.
      destruct (series_event argsort time0 x0 e (M, s)) as [M1 s1]. destruct (h_series_event argsort e (m, o)) as [m1 o1].
      destruct K as (K & <- & <-). exact (IH M1 s1 m1 o1 C2 K).
    Qed.

    (** WaveHeights *)
    Lemma column_shape r : is_column r = match r_shape r with [S _; 1] => true | _ => false end.
    Proof.
      unfold is_column, h_size, size_, asize. cbn [shape]. destruct (r_shape r) as [|a [|b [|c l]]]; cbn [fold_right].
      - reflexivity.
      - destruct (a * 1 =? 0), a; reflexivity.
      - rewrite Nat.mul_1_r. destruct a as [|a]; [reflexivity|]. destruct b as [|[|b]].
        + now rewrite Nat.mul_0_r.
        + reflexivity.
        + reflexivity.
      - destruct (_ =? 0); destruct a, b as [|[|?]]; reflexivity.
    Qed.
    Definition wh_source (M : mem) (live : bool) (p : pyarg N) (r : ref) : Prop :=
      if live then source Real M p r else length (mR M) <= r_buf r.
    Definition follows_wh (h0 t0 : pyarg N) (M : mem) (w : waveheights N) (live : bool) (m : mem) (o : hwh) : Prop :=
      ext M m /\ arg_ok Real M h0 /\ arg_ok Real M t0 /\ hw_view m o = w /\
      r_buf (hw_h o) < length (mR m) /\ r_buf (hw_t o) < length (mR m) /\
      wh_source M live h0 (hw_h o) /\ wh_source M live t0 (hw_t o).
    Lemma arr_at_poke {A} (d : dtype N A) (M m : mem) b i v live p r :
      ext M m -> b < length (bufs d M) -> arg_ok Real M p -> wh_source M live p r ->
      arr_at (poke d b i v m) r = (if live then refresh_arr p (poke d b i v M) (arr_at m r) else arr_at m r).
    Proof.
      intros E H Ap K. unfold wh_source in K. destruct live.
      - unfold source in K. unfold refresh_arr. destruct p as [w|a|r0]; try (unfold arr_at; now rewrite (poke_read d Real M)).
        rewrite column_shape in K. 
        assert (G : r = r0 -> arr_at (poke d b i v m) r = mkArr (r_shape r0) (read Real (poke d b i v M) r0)).
        { intros ->. unfold arr_at. f_equal. apply read_ext; [now apply poke_ext|]. rewrite poke_len. apply Ap. }
        destruct (r_shape r0) as [|k [|k' [|? ?]]]; auto; destruct k; auto; try (destruct k' as [|[|k']]; auto).
        unfold arr_at; now rewrite (poke_read d Real M).
      - unfold arr_at. now rewrite (poke_read d Real M).
    Qed.
    Lemma source_len {A} (d : dtype N A) (M M' : mem) p r :
      length (bufs d M) = length (bufs d M') -> source d M p r -> source d M' p r.
    Proof. intros L. unfold source. now rewrite L. Qed.
    Lemma waves_event_follows h0 t0 M w live m o e :
      callers M e -> follows_wh h0 t0 M w live m o ->
      let '(M', w', live') := waves_event argsort h0 t0 e (M, w, live) in
      let '(m', o') := h_waves_event argsort e (m, o) in
      follows_wh h0 t0 M' w' live' m' o'.
    Proof.
      intros C (E & Ah & At & Vw & Bh & Bt & Sh & St). destruct e as [A d b i v|c]; cbn [waves_event h_waves_event].
      - cbn [callers] in C. split; [now apply poke_ext|]. split; [now apply arg_poke|]. split; [now apply arg_poke|].
        assert (LL : forall x : mem, length (mR (poke d b i v x)) = length (mR x)) by (intro x; exact (poke_len d Real x b i v)).
        split.
        { unfold hw_view. rewrite (arr_at_poke d M m b i v live h0), (arr_at_poke d M m b i v live t0) by auto.
          rewrite <- Vw. destruct live; reflexivity. }
        rewrite LL. split; [exact Bh|]. split; [exact Bt|].
        unfold wh_source in *. destruct live; rewrite ?LL; [|auto].
        split; (eapply source_len; [|eassumption]); now rewrite poke_len.
      - pose proof (sim_call argsort c m o) as K. destruct (h_wh_call argsort c o m) as [[m1 o1] r1]. cbn [fst]. cbv zeta in K.
        destruct K as (E1 & V1 & _ & K1). rewrite Vw in *. rewrite call_step in V1.
        assert (RN : renews argsort c w = sorted_by argsort c w) by (destruct c; reflexivity).
        rewrite RN in K1.
        split; [now apply ext_trans with m|]. split; [exact Ah|]. split; [exact At|]. split; [exact V1|].
        destruct (sorted_by argsort c w).
        + rewrite andb_false_r. destruct K1 as (K1 & K2). cbn [wh_source].
          split; [apply K1|]. split; [apply K2|].
          pose proof (own_base _ _ _ _ E K1) as (L1 & _). pose proof (own_base _ _ _ _ E K2) as (L2 & _). auto.
        + rewrite andb_true_r. destruct K1 as (-> & ->). auto.
    Qed.
    Lemma waves_history_follows h0 t0 es M w live m o :
      Forall (callers M) es -> follows_wh h0 t0 M w live m o ->
      let '(M', w', live') := run (waves_event argsort h0 t0) es (M, w, live) in
      let '(m', o') := run (h_waves_event argsort) es (m, o) in
      follows_wh h0 t0 M' w' live' m' o'.
    Proof.
      revert M w live m o. induction es as [|e es IH]; intros M w live m o Ce Fo; [cbn; auto|].
      inversion Ce as [|? ? C1 C2]; subst.
      pose proof (waves_event_follows h0 t0 M w live m o e C1 Fo) as K. rewrite !run_cons.
      assert (C3 : Forall (callers (fst (fst (waves_event argsort h0 t0 e (M, w, live))))) es).
      { revert C2. apply Forall_impl. intros [B d' b' i' v'|c']; cbn; auto. intro H.
        destruct e as [A d b i v|c]; cbn [waves_event fst]; [now rewrite poke_len|exact H]. }
      destruct (waves_event argsort h0 t0 e (M, w, live)) as [[M1 w1] l1]. destruct (h_waves_event argsort e (m, o)) as [m1 o1].
      exact (IH M1 w1 l1 m1 o1 C3 K).
    Qed.
  End Histories.

  (** Spectrum *)
  Definition follows_sp (f0 s0 : pyarg N) (M : mem) (s : spec N) (m : mem) (o : hspec N) : Prop :=
    ext M m /\ arg_ok Real M f0 /\ arg_ok Real M s0 /\ vref m (hp_f o) /\ vref m (hp_S o) /\ hp_view m o = s /\
    kept_or_new M f0 (hp_f o) /\ kept_or_new M s0 (hp_S o).
  Lemma step_data c (s : spec N) : s_f (fst (spec_step c s)) = s_f s /\ s_S (fst (spec_step c s)) = s_S s.
  Proof.
    assert (G : forall v st a b (q : spec N), (forall x q', s_f (st x q') = s_f q' /\ s_S (st x q') = s_S q') ->
       s_f (fst (getter v st a b q)) = s_f q /\ s_S (fst (getter v st a b q)) = s_S q).
    { intros v st a b q Hst. unfold getter, mbind, mget, mlift, mset. destruct (v _ _ a b); cbn; auto. }
    assert (C : forall (v : car N) (q : spec N), s_f (fst (default_cutoff v q)) = s_f q /\ s_S (fst (default_cutoff v q)) = s_S q).
    { intros v q. unfold default_cutoff, cutoff. destruct (neqb v _); [|cbn; auto]. unfold mbind, ensure, attr, mret.
      destruct (s_Tmm10 q) eqn:E; [cbn; rewrite E; cbn; auto|].
      assert (W := G v_Tmm10 set_Tmm10 (nopp (n:=N) n1) (nopp (n:=N) n1) q ltac:(intros; cbn; auto)). fold (get_Tmm10 (N:=N)) in W.
      destruct (get_Tmm10 _ _ q) as [q' [x|e]]; cbn in *; [destruct (s_Tmm10 q'); auto|auto]. }
    assert (B : forall m (k : car N -> meth (N:=N) (car N)) (q : spec N), (s_f (fst (m q)) = s_f q /\ s_S (fst (m q)) = s_S q) ->
       (forall x q', s_f (fst (k x q')) = s_f q' /\ s_S (fst (k x q')) = s_S q') -> s_f (fst (mbind m k q)) = s_f q /\ s_S (fst (mbind m k q)) = s_S q).
    { intros m k q Hm Hk. unfold mbind. destruct (m q) as [q' [x|e]]; cbn in *; [|auto]. destruct (Hk x q'). destruct Hm. split; congruence. }
    assert (En : forall g m (q : spec N), (s_f (fst (m q)) = s_f q /\ s_S (fst (m q)) = s_S q) -> s_f (fst (ensure g m q)) = s_f q /\ s_S (fst (ensure g m q)) = s_S q).
    { intros g m q Hm. unfold ensure. destruct (g q); cbn; auto. }
    assert (HF : forall v st a b (q : spec N), (forall x q', s_f (st x q') = s_f q' /\ s_S (st x q') = s_S q') ->
       s_f (fst (mbind (default_cutoff a) (fun a' => getter v st a' b) q)) = s_f q /\ s_S (fst (mbind (default_cutoff a) (fun a' => getter v st a' b) q)) = s_S q).
    { intros. apply B; [apply C|]. intros; apply G; auto. }
    destruct c; cbn [spec_step]; try (apply G; intros; cbn; auto); try (apply HF; intros; cbn; auto);
      try (apply B; [apply C|]; intros; apply G; intros; cbn; auto).
    all: apply B; [apply En; try (apply G; intros; cbn; auto); try (apply HF; intros; cbn; auto)|intros; 
         apply B; [apply En; try (apply G; intros; cbn; auto); try (apply HF; intros; cbn; auto)|intros; 
         apply B; [cbn; auto|intros; apply B; [cbn; auto|intros; cbn; auto]]]].
  Qed.
  Lemma spectrum_event_follows f0 s0 M s m o e :
    callers M e -> follows_sp f0 s0 M s m o ->
    let '(M', s') := spectrum_event f0 s0 e (M, s) in
    let '(m', o') := h_spectrum_event e (m, o) in
    follows_sp f0 s0 M' s' m' o' /\ hp_f o' = hp_f o /\ hp_S o' = hp_S o.
  Proof.
    intros C (E & Af & As & Vf & VS & Vs & Kf & KS). destruct e as [A d b i v|c]; cbn [spectrum_event h_spectrum_event].
    - cbn [callers] in C. split; [|auto].
      split; [now apply poke_ext|]. split; [now apply arg_poke|]. split; [now apply arg_poke|].
      split; [now apply vref_poke|]. split; [now apply vref_poke|]. split.
      + rewrite <- Vs. unfold hp_view.
        rewrite (kept_read_poke d M m b i v f0 (hp_f o)) by auto.
        rewrite (kept_read_poke d M m b i v s0 (hp_S o)) by auto. reflexivity.
      + assert (L : length (mR M) = length (mR (poke d b i v M))).
        { change (length (bufs Real M) = length (bufs Real (poke d b i v M))). now rewrite poke_len. }
        split; now apply (kept_base M).
    - unfold h_spec_call. destruct (step_data c (hp_view m o)) as (Q1 & Q2). rewrite Vs in *.
      destruct (spec_step c s) as [s1 r1]. cbn [fst] in *. split; [|auto].
      split; [exact E|]. split; [exact Af|]. split; [exact As|]. split; [exact Vf|]. split; [exact VS|]. split; [|auto].
      unfold hp_view. cbn [hp_f hp_S hp_attr].
      assert (R1 : read Real m (hp_f o) = s_f s1) by (rewrite Q1, <- Vs; reflexivity).
      assert (R2 : read Real m (hp_S o) = s_S s1) by (rewrite Q2, <- Vs; reflexivity).
      rewrite R1, R2. destruct s1; reflexivity.
  Qed.
  Lemma spectrum_history_follows f0 s0 es M s m o :
    Forall (callers M) es -> follows_sp f0 s0 M s m o ->
    let '(M', s') := run (spectrum_event f0 s0) es (M, s) in
    let '(m', o') := run h_spectrum_event es (m, o) in
    follows_sp f0 s0 M' s' m' o' /\ hp_f o' = hp_f o /\ hp_S o' = hp_S o.
  Proof.
    revert M s m o. induction es as [|e es IH]; intros M s m o Ce Fo; [cbn; auto|].
    inversion Ce as [|? ? C1 C2]; subst.
    pose proof (spectrum_event_follows f0 s0 M s m o e C1 Fo) as K. rewrite !run_cons.
    assert (C3 : Forall (callers (fst (spectrum_event f0 s0 e (M, s)))) es).
    { revert C2. apply Forall_impl. intros [B d' b' i' v'|c']; cbn; auto. intro H.
      destruct e as [A d b i v|c]; cbn [spectrum_event fst]; [now rewrite poke_len|exact H]. }
    destruct (spectrum_event f0 s0 e (M, s)) as [M1 s1]. destruct (h_spectrum_event e (m, o)) as [m1 o1].
    destruct K as (K & <- & <-). exact (IH M1 s1 m1 o1 C3 K).
  Qed.

  Lemma spectrum_init_dv (m : mem) (f0 s0 : pyarg N) :
    arg_ok Real m f0 -> arg_ok Real m s0 ->
    delivers m m (h_spectrum_init f0 s0)
      (fun (m' : mem) (o : hspec N) (s : spec N) =>
         hp_view m' o = s /\ source Real m f0 (hp_f o) /\ source Real m s0 (hp_S o) /\ vref m' (hp_f o) /\ vref m' (hp_S o))
      (spectrum_init (argval Real m f0) (argval Real m s0)).
  Proof.
    intros Af As. unfold h_spectrum_init, spectrum_init.
    destruct (h_vector_src Real f0 m Af) as (m1 & rf & Q1 & E1 & O1 & V1 & S1). eapply dv_step; [exact Q1|].
    pose proof (arg_ok_ext Real _ _ _ E1 As) as As1.
    destruct (h_vector_src Real s0 m1 As1) as (m2 & rs & Q2 & E2 & O2 & V2 & S2).
    rewrite (argval_ext Real _ _ _ E1 As) in V2, Q2. apply (source_base Real m) in S2; [|exact E1].
    destruct (convert_to_vector (argval Real m f0)) as [f1 fS]. destruct (convert_to_vector (argval Real m s0)) as [s1 sS].
    cbn [fst snd] in *. cbv beta iota. eapply dv_step; [exact Q2|]. cbv beta iota.
    assert (E02 : ext m m2) by now apply ext_trans with m1.
    rewrite <- (read_ext Real m1 m2 rf E2) in V1 by apply O1. apply (ref_ok_ext Real _ _ _ E2) in O1.
    apply (dv_list Real m m2 rf f1 _ _ _ E02 V1). intros f Qf. pose proof (as_list_is_vec Real _ _ _ _ O1 V1 Qf) as If.
    apply dv_lift; [exact E02|]. intros mono _.
    destruct (negb mono); [eapply dv_eq_raise; [reflexivity|exact E02]|].
    destruct (negb _); [eapply dv_eq_raise; [reflexivity|exact E02]|].
    apply (dv_list Real m m2 rs s1 _ _ _ E02 V2). intros x Qx. pose proof (as_list_is_vec Real _ _ _ _ O2 V2 Qx) as Is.
    apply dv_ret; [exact E02|]. cbn [hp_f hp_S].
    split; [|split; [exact S1|split; [exact S2|split; eapply is_vec_vref; eassumption]]].
    unfold hp_view. cbn [hp_f hp_S hp_attr].
    replace (read Real m2 rf) with f by (symmetry; apply If). replace (read Real m2 rs) with x by (symmetry; apply Is). reflexivity.
  Qed.

  Lemma wh_init_dv (m : mem) (h0 t0 : pyarg N) :
    arg_ok Real m h0 -> arg_ok Real m t0 ->
    delivers m m (h_wh_init h0 t0)
      (fun (m' : mem) (o : hwh) (w : waveheights N) =>
         hw_view m' o = w /\ source Real m h0 (hw_h o) /\ source Real m t0 (hw_t o) /\
         r_buf (hw_h o) < length (mR m') /\ r_buf (hw_t o) < length (mR m'))
      (Ok (wh_init (argval Real m h0) (argval Real m t0))).
  Proof.
    intros Ah At. unfold h_wh_init, wh_init.
    destruct (h_vector_src Real h0 m Ah) as (m1 & rh & Q1 & E1 & O1 & V1 & S1). eapply dv_step; [exact Q1|].
    pose proof (arg_ok_ext Real _ _ _ E1 At) as At1.
    destruct (h_vector_src Real t0 m1 At1) as (m2 & rt & Q2 & E2 & O2 & V2 & S2).
    rewrite (argval_ext Real _ _ _ E1 At) in V2, Q2. apply (source_base Real m) in S2; [|exact E1].
    destruct (convert_to_vector (argval Real m h0)) as [h1 hS]. destruct (convert_to_vector (argval Real m t0)) as [t1 tS].
    cbn [fst snd] in *. cbv beta iota. eapply dv_step; [exact Q2|]. cbv beta iota.
    assert (E02 : ext m m2) by now apply ext_trans with m1.
    rewrite <- (read_ext Real m1 m2 rh E2) in V1 by apply O1. apply (ref_ok_ext Real _ _ _ E2) in O1.
    apply dv_ret; [exact E02|]. cbn [hw_h hw_t]. split; [|split; [exact S1|split; [exact S2|split; [apply O1|apply O2]]]].
    unfold hw_view. cbn [hw_h hw_t hw_n]. unfold arr_at. rewrite V1, V2. f_equal. rewrite <- V1. reflexivity.
  Qed.

  (** *** functions that make objects *)
  Lemma series_bandpass_dv (m : mem) (o : hseries N) fmin fmax :
    vref m (hs_t o) -> vref m (hs_x o) ->
    delivers m m (h_series_bandpass o fmin fmax)
      (fun (m' : mem) (o' : hseries N) (s : series N) =>
         hs_view m' o' = s /\ hs_t o' = hs_t o /\ own m m' (hs_x o') /\ holds m m' o' /\
         NoDup (map r_buf [hs_x o'; hw_h (hs_wh o'); hw_t (hs_wh o'); hs_tCross o']))
      (series_bandpass (hs_view m o) fmin fmax).
  Proof.
    intros Vt Vx. unfold h_series_bandpass, series_bandpass.
    change (se_t (hs_view m o)) with (read Real m (hs_t o)). change (se_x (hs_view m o)) with (read Real m (hs_x o)).
    pose proof (bandpass_dv m (PArr (hs_t o)) (PArr (hs_x o)) fmin fmax (is_vec_ok Real _ _ _ Vt) (is_vec_ok Real _ _ _ Vx)) as KB.
    rewrite (is_vec_arg Real _ _ _ Vt), (is_vec_arg Real _ _ _ Vx) in KB.
    apply (dv_call m m _ _ _ _ _ _ (ext_refl m) KB). intros m1 ry y E1 Ky _.
    pose proof (is_vec_ext Real _ _ _ _ E1 Vt) as It. pose proof (new_is_vec Real _ _ _ _ Ky) as Iy.
    pose proof (series_init_dv m1 (PArr (hs_t o)) (PArr ry) (is_vec_ok Real _ _ _ It) (is_vec_ok Real _ _ _ Iy)) as KS.
    rewrite (is_vec_arg Real _ _ _ It), (is_vec_arg Real _ _ _ Iy) in KS.
    apply (dv_base m m1 m1 _ _ _ E1). revert KS. apply dv_weaken.
    intros m2 o' s _ (V & S1 & S2 & Hh & ND). cbn [source] in S1, S2.
    rewrite (vec_not_column _ _ (vref_shape _ _ Vt)) in S1.
    assert (Sy : r_shape ry = [length y]) by apply Iy.
    rewrite (vec_not_column _ _ Sy) in S2. subst ry.
    split; [exact V|]. split; [exact S1|].
    destruct Hh as (H1 & H2 & H3 & H4 & H5).
    split; [split; [apply Ky|exact H2]|]. split.
    { repeat split; try apply H1; try apply H2; try apply H3; try apply H4; try apply H5;
      pose proof (ext_len Real _ _ E1) as LE; cbn [bufs] in LE;
      destruct H3 as (H3 & _), H4 as (H4 & _), H5 as (H5 & _); lia. }
    assert (By : r_buf (hs_x o') < length (mR m1)) by apply Iy.
    cbn [map]. constructor; [|exact ND]. cbn [In]. destruct H3 as (H3 & _), H4 as (H4 & _), H5 as (H5 & _). lia.
  Qed.

  Lemma compute_spectrum_dv (m : mem) (t0 x0 : pyarg N) n dfD :
    arg_ok Real m t0 -> arg_ok Real m x0 -> coarse_fits (N:=N) -> alen (argval Real m t0) = n ->
    delivers m m (h_compute_spectrum_time_series t0 x0 n dfD)
      (fun (m' : mem) (a : ref * ref) (b : list N * list N) =>
         new_vec Real m m' (fst a) (fst b) /\ new_vec Real m m' (snd a) (snd b) /\ r_buf (fst a) <> r_buf (snd a))
      (compute_spectrum_time_series (argval Real m t0) (argval Real m x0) dfD).
  Proof.
    intros At Ax CF Al. unfold h_compute_spectrum_time_series, compute_spectrum_time_series. rewrite Al.
    apply (dv_call m m _ _ _ _ _ _ (ext_refl m) (time2freq_nyquist_dv m t0 x0 At Ax)).
    intros m1 [[rf rX] o] [[f X] o'] E1 (Kf & KX & _) _. cbv beta iota.
    eapply dv_step; [exact (new_vec_list Real _ _ _ _ Kf)|].
    apply dv_lift; [exact E1|]. intros fb _. apply dv_lift; [exact E1|]. intros fa _. cbv zeta.
    eapply dv_step; [exact (new_vec_list Complex _ _ _ _ KX)|].
    set (sf := map (var_dens (nsub fb fa) (nofnat n)) X).
    destruct (hvec_new Real m1 sf) as (m2 & rs & Q2 & E2 & Ks).
    eapply dv_step; [exact Q2|].
    assert (E02 : ext m m2) by now apply ext_trans with m1.
    apply (new_vec_ext Real _ _ _ _ _ E2) in Kf.
    pose proof (averaging_dv m2 (PArr rf) (PArr rs) dfD (new_vec_ok Real _ _ _ _ Kf) (new_vec_ok Real _ _ _ _ Ks) CF) as KA.
    rewrite (new_vec_arg Real _ _ _ _ Kf), (new_vec_arg Real _ _ _ _ Ks) in KA.
    apply (dv_base m m2 m2 _ _ _ E02). revert KA. apply dv_weaken.
    intros m3 [ra rb] [a b] _ (K1 & K2 & K3). cbn [fst snd].
    split; [now apply new_vec_base with m2|]. split; [now apply new_vec_base with m2|exact K3].
  Qed.
  Lemma alen_vec (l : list N) : alen (Arr (vec l)) = length l.
  Proof. reflexivity. Qed.
  Lemma spectrum_raw_dv (m : mem) (o : hseries N) dfD :
    vref m (hs_t o) -> vref m (hs_x o) -> coarse_fits (N:=N) ->
    delivers m m (h_series_spectrum_raw o dfD)
      (fun (m' : mem) (o' : hspec N) (s : spec N) =>
         hp_view m' o' = s /\ own m m' (hp_f o') /\ own m m' (hp_S o') /\ r_buf (hp_f o') <> r_buf (hp_S o'))
      (series_spectrum_raw (hs_view m o) dfD).
  Proof.
    intros Vt Vx CF. unfold h_series_spectrum_raw, series_spectrum_raw.
    change (se_t (hs_view m o)) with (read Real m (hs_t o)). change (se_x (hs_view m o)) with (read Real m (hs_x o)).
    assert (Hn : h_len (hs_t o) = length (read Real m (hs_t o))) by (unfold h_len; now rewrite (vref_shape _ _ Vt)).
    pose proof (compute_spectrum_dv m (PArr (hs_t o)) (PArr (hs_x o)) (h_len (hs_t o)) dfD
                  (is_vec_ok Real _ _ _ Vt) (is_vec_ok Real _ _ _ Vx) CF) as KB.
    rewrite (is_vec_arg Real _ _ _ Vt), (is_vec_arg Real _ _ _ Vx) in KB. specialize (KB (eq_sym Hn)).
    apply (dv_call m m _ _ _ _ _ _ (ext_refl m) KB). intros m1 [rf rs] [f s] E1 (Kf & Ks & ND) _. cbn [fst snd] in *.
    cbv beta iota.
    pose proof (spectrum_init_dv m1 (PArr rf) (PArr rs) (new_vec_ok Real _ _ _ _ Kf) (new_vec_ok Real _ _ _ _ Ks)) as KS.
    rewrite (new_vec_arg Real _ _ _ _ Kf), (new_vec_arg Real _ _ _ _ Ks) in KS.
    apply (dv_base m m1 m1 _ _ _ E1). revert KS. apply dv_weaken.
    intros m2 o' sp E2 (V & S1 & S2 & V1 & V2). cbn [source] in S1, S2.
    assert (Sf : r_shape rf = [length f]) by apply Kf. assert (Ss : r_shape rs = [length s]) by apply Ks.
    rewrite (vec_not_column _ _ Sf) in S1. rewrite (vec_not_column _ _ Ss) in S2. subst rf rs.
    split; [exact V|]. split; [split; [apply Kf|exact V1]|]. split; [split; [apply Ks|exact V2]|exact ND].
  Qed.

  Lemma create_series_dv {RS : Type} (rng_seed : Z -> RS) (rng_rand : RS -> nat -> list N * RS) (m : mem) rs (o : hspec N) ts te dt :
    vref m (hp_f o) -> vref m (hp_S o) -> synth_fits (N:=N) -> (forall r n, length (fst (rng_rand r n)) = n) ->
    delivers m m (h_create_series rng_seed rng_rand rs o ts te dt)
      (fun (m' : mem) (a : hseries N * RS) (b : series N * RS) =>
         hs_view m' (fst a) = fst b /\ snd a = snd b /\ own m m' (hs_t (fst a)) /\ own m m' (hs_x (fst a)) /\ holds m m' (fst a) /\
         NoDup (map r_buf [hs_t (fst a); hs_x (fst a); hw_h (hs_wh (fst a)); hw_t (hs_wh (fst a)); hs_tCross (fst a)]))
      (spectrum_create_series RS rng_seed rng_rand rs (hp_view m o) ts te dt).
  Proof.
    intros Vf VS SF RF. unfold h_create_series, spectrum_create_series, spectrum2timeseries_object.
    change (s_f (hp_view m o)) with (read Real m (hp_f o)). change (s_S (hp_view m o)) with (read Real m (hp_S o)).
    pose proof (synthesis_dv rng_seed rng_rand m rs (PArr (hp_f o)) (PArr (hp_S o)) ts te dt (-1)
                  (is_vec_ok Real _ _ _ Vf) (is_vec_ok Real _ _ _ VS) SF RF) as KB.
    rewrite (is_vec_arg Real _ _ _ Vf), (is_vec_arg Real _ _ _ VS) in KB.
    apply (dv_call m m _ _ _ _ _ _ (ext_refl m) KB). intros m1 [[rt rx] r1] [[t x] r2] E1 (Kt & Kx & ND & <-) _.
    cbv beta iota.
    pose proof (series_init_dv m1 (PArr rt) (PArr rx) (new_vec_ok Real _ _ _ _ Kt) (new_vec_ok Real _ _ _ _ Kx)) as KS.
    rewrite (new_vec_arg Real _ _ _ _ Kt), (new_vec_arg Real _ _ _ _ Kx) in KS.
    apply (dv_call m m1 _ _ _ _ _ _ E1 KS). intros m2 o' s E2 (V & S1 & S2 & Hh & NDw) _. cbn [source] in S1, S2.
    assert (St : r_shape rt = [length t]) by apply Kt. assert (Sx : r_shape rx = [length x]) by apply Kx.
    rewrite (vec_not_column _ _ St) in S1. rewrite (vec_not_column _ _ Sx) in S2. subst rt rx.
    assert (E02 : ext m m2) by now apply ext_trans with m1.
    apply dv_ret; [exact E02|]. cbn [fst snd].
    destruct Hh as (H1 & H2 & H3 & H4 & H5). split; [exact V|]. split; [reflexivity|].
    split; [split; [apply Kt|exact H1]|]. split; [split; [apply Kx|exact H2]|]. split.
    { split; [exact H1|]. split; [exact H2|]. split; [now apply own_base with m1|]. split; now apply own_base with m1. }
    assert (Bt : r_buf (hs_t o') < length (mR m1)) by apply Kt. assert (Bx : r_buf (hs_x o') < length (mR m1)) by apply Kx.
    destruct H3 as (H3 & _), H4 as (H4 & _), H5 as (H5 & _).
    cbn [map]. constructor; [cbn [In]; lia|]. constructor; [cbn [In]; lia|exact NDw].
  Qed.

  Lemma jonswap_object_dv (m : mem) (f0 : pyarg N) fp hm0 gp lf :
    arg_ok Real m f0 ->
    delivers m m (h_create_spectrum_object_jonswap f0 fp hm0 gp lf)
      (fun (m' : mem) (o' : hspec N) (s : spec N) =>
         hp_view m' o' = s /\ source Real m f0 (hp_f o') /\ vref m' (hp_f o') /\ own m m' (hp_S o'))
      (create_spectrum_object_jonswap (argval Real m f0) fp hm0 gp lf).
  Proof.
    intros Af. unfold h_create_spectrum_object_jonswap, create_spectrum_object_jonswap.
    apply (dv_call m m _ _ _ _ _ _ (ext_refl m) (jonswap_dv m f0 fp hm0 gp lf Af)). intros m1 rs s E1 Ks _.
    pose proof (spectrum_init_dv m1 f0 (PArr rs) (arg_ok_ext Real _ _ _ E1 Af) (new_vec_ok Real _ _ _ _ Ks)) as KS.
    rewrite (argval_ext Real _ _ _ E1 Af), (new_vec_arg Real _ _ _ _ Ks) in KS.
    apply (dv_base m m1 m1 _ _ _ E1). revert KS. apply dv_weaken.
    intros m2 o' sp E2 (V & S1 & S2 & V1 & V2). cbn [source] in S2.
    assert (Ss : r_shape rs = [length s]) by apply Ks. rewrite (vec_not_column _ _ Ss) in S2. subst rs.
    split; [exact V|]. split; [now apply (source_base Real m m1)|]. split; [exact V1|]. split; [apply Ks|exact V2].
  Qed.

  (** *** decompose_linear_ZS_series *)
  Lemma nth_flat_seq {A} (g : nat -> list A) w d n : (forall i, length (g i) = w) ->
    forall s k l, k < n -> l < w -> nth (k * w + l) (flat_map g (seq s n)) d = nth l (g (s + k)) d.
  Proof.
    intros W. induction n as [|n IH]; intros s k l Hk Hl; [lia|]. cbn [seq flat_map].
    destruct k as [|k].
    - rewrite Nat.mul_0_l, Nat.add_0_l, Nat.add_0_r. apply app_nth1. now rewrite W.
    - rewrite app_nth2 by (rewrite W; cbn; lia). rewrite W. replace (S k * w + l - w) with (k * w + l) by (cbn; lia).
      rewrite IH by lia. f_equal. f_equal. lia.
  Qed.
  Lemma flat_seq_length {A} (g : nat -> list A) w n : (forall i, length (g i) = w) -> forall s, length (flat_map g (seq s n)) = n * w.
  Proof. intros W. induction n as [|n IH]; intro s; cbn; [reflexivity|]. now rewrite app_length, IH, W. Qed.
  Lemma rows_length nt (cols : list (list N)) : length (rows_of nt cols) = nt * length cols.
  Proof. unfold rows_of. apply flat_seq_length. intro i. apply map_length. Qed.
  Lemma rows_nth nt (cols : list (list N)) k l : k < nt -> l < length cols ->
    nth (k * length cols + l) (rows_of nt cols) n0 = nth k (nth l cols []) n0.
  Proof.
    intros Hk Hl. unfold rows_of. rewrite (nth_flat_seq _ (length cols)); [|intro i; apply map_length|exact Hk|exact Hl].
    cbn [Nat.add]. rewrite (nth_indep (map _ _) n0 ((fun c => nth k c n0) [])) by now rewrite map_length.
    exact (map_nth (fun c => nth k c n0) cols [] l).
  Qed.
  Lemma rows_store nt nloc (cols : list (list N)) c i : length cols = nloc -> i < nloc -> length c = nt ->
    upds (map (fun iv => (nth (fst iv) (map (fun k => nth (k * nloc + i) (seq 0 (nt * nloc)) 0) (seq 0 nt)) 0, snd iv))
              (combine (seq 0 nt) c)) (rows_of nt cols) = rows_of nt (firstn i cols ++ c :: skipn (S i) cols).
  Proof.
    intros Hc Hi HX.
    assert (Q : map (fun iv => (nth (fst iv) (map (fun k => nth (k * nloc + i) (seq 0 (nt * nloc)) 0) (seq 0 nt)) 0, snd iv))
              (combine (seq 0 nt) c) = map (fun k => (k * nloc + i, nth k c n0)) (seq 0 nt)).
    { destruct (as_map_seq c n0 nt HX) as (g & EX & Hg). rewrite EX at 1. rewrite combine_self, map_map. cbn [fst snd].
      apply map_ext_in. intros k Hk. apply in_seq in Hk. rewrite Hg. rewrite nth_map_seq by lia.
      rewrite seq_nth by nia. reflexivity. }
    rewrite Q. clear Q.
    assert (MF : map fst (map (fun k => (k * nloc + i, nth k c n0)) (seq 0 nt)) = map (fun k => k * nloc + i) (seq 0 nt)).
    { now rewrite map_map. }
    assert (FA : Forall (fun iv : nat * N => fst iv < length (rows_of nt cols)) (map (fun k => (k * nloc + i, nth k c n0)) (seq 0 nt))).
    { rewrite Forall_forall. intros iv Hin. apply in_map_iff in Hin. destruct Hin as (k & <- & Hk). apply in_seq in Hk.
      cbn. rewrite rows_length. nia. }
    assert (ND : NoDup (map (fun k => k * nloc + i) (seq 0 nt))).
    { apply FinFun.Injective_map_NoDup; [|apply seq_NoDup]. intros a b H. nia. }
    assert (L' : length (firstn i cols ++ c :: skipn (S i) cols) = nloc).
    { rewrite app_length, firstn_length. cbn [length]. rewrite skipn_length. lia. }
    apply nth_ext with (d := n0) (d' := n0).
    { now rewrite upds_length, !rows_length, L', Hc. }
    intros p Hp. rewrite upds_length, rows_length, Hc in Hp.
    assert (Hp2 : p = p / nloc * nloc + p mod nloc) by (rewrite Nat.mul_comm; apply Nat.div_mod; lia).
    assert (Hm : p mod nloc < nloc) by (apply Nat.mod_upper_bound; lia).
    assert (Hd : p / nloc < nt) by (apply Nat.div_lt_upper_bound; lia).
    set (k := p / nloc) in *. set (l := p mod nloc) in *. clearbody k l. subst p.
    assert (R : nth (k * nloc + l) (rows_of nt (firstn i cols ++ c :: skipn (S i) cols)) n0
                = nth k (nth l (firstn i cols ++ c :: skipn (S i) cols) []) n0).
    { rewrite <- L' at 1. apply rows_nth; [exact Hd|lia]. }
    rewrite R. assert (Lf : length (firstn i cols) = i) by (rewrite firstn_length; lia).
    destruct (Nat.eq_dec l i) as [->|Hl].
    - rewrite upds_at with (v := nth k c n0); [|exact FA|rewrite MF; exact ND|].
      + rewrite app_nth2 by lia. rewrite Lf, Nat.sub_diag. reflexivity.
      + apply in_map_iff. exists k. split; [reflexivity|]. apply in_seq. lia.
    - rewrite upds_other; [|exact FA|].
      + rewrite <- Hc at 1. rewrite rows_nth by (rewrite ?Hc; assumption). f_equal.
        destruct (Nat.lt_ge_cases l i) as [H|H].
        * rewrite app_nth1 by lia. rewrite <- (firstn_skipn i cols) at 1. now rewrite app_nth1 by lia.
        * rewrite app_nth2 by lia. rewrite Lf. destruct (l - i) as [|q] eqn:Eq; [lia|]. cbn [nth].
          rewrite <- (firstn_skipn (S i) cols) at 1. rewrite app_nth2 by (rewrite firstn_length; lia).
          f_equal. rewrite firstn_length. lia.
      + rewrite MF. rewrite in_map_iff. intros (a & Q & _). apply Hl.
        apply (f_equal (fun z => z mod nloc)) in Q. rewrite !(Nat.add_comm (_ * nloc)), !Nat.mod_add, !Nat.mod_small in Q by lia.
        now symmetry.
  Qed.
  Lemma hstores_at_R (m : mem) ec r k ivs : forall er,
    r_buf r = length (mR m) + k -> k < length er -> Forall (fun iv => fst iv < length (r_idx r)) ivs ->
    hstores Real r ivs (grow m er ec) =
      (grow m (upd k (upds (map (fun iv => (nth (fst iv) (r_idx r) 0, snd iv)) ivs) (nth k er [])) er) ec, Ok tt).
  Proof.
    induction ivs as [|[i v] ivs IH]; intros er Hr Hk H.
    - cbn. now rewrite upd_same.
    - inversion H as [|? ? Hi Hrest]; subst. cbn [hstores]. unfold hbind, hstore. cbn [fst] in Hi.
      rewrite (nth_error_nth' _ 0) by exact Hi.
      assert (Q : poke Real (r_buf r) (nth i (r_idx r) 0) v (grow m er ec)
                  = grow m (upd k (upd (nth i (r_idx r) 0) v (nth k er [])) er) ec).
      { unfold poke. cbn [bufs set_bufs mR mC grow]. unfold grow. rewrite Hr.
        rewrite app_nth2 by lia. replace (length (mR m) + k - length (mR m)) with k by lia.
        now rewrite upd_app2. }
      rewrite Q. rewrite IH by (rewrite ?upd_length; assumption).
      f_equal. f_equal. rewrite upd_nth by exact Hk. rewrite Nat.eqb_refl. cbn [upds map fst snd]. now rewrite upd_upd.
  Qed.

  Lemma stack_dv (m : mem) nt nloc (os : list (hseries N)) : Forall (fun o => vref m (hs_x o)) os ->
    forall i cols, length cols = nloc ->
    exists m', ext m m' /\
      match stack_columns nt nloc i cols (map (hs_view m) os) with
      | Ok cols' => m' = grow m [rows_of nt cols'] [] /\ length cols' = nloc /\
          h_stack (mkRef (length (mR m)) (seq 0 (nt * nloc)) [nt; nloc]) nt nloc i os (grow m [rows_of nt cols] []) = (m', Ok tt)
      | Raise e =>
          h_stack (mkRef (length (mR m)) (seq 0 (nt * nloc)) [nt; nloc]) nt nloc i os (grow m [rows_of nt cols] []) = (m', Raise e)
      end.
  Proof.
    induction os as [|o os IH]; intros Ho i cols Hc; cbn [map stack_columns h_stack].
    - exists (grow m [rows_of nt cols] []). split; [apply ext_grow|]. auto.
    - inversion Ho as [|? ? H1 H2]; subst x l. destruct (Nat.ltb_spec i nloc) as [Hi|Hi]; cbn [negb].
      2:{ exists (grow m [rows_of nt cols] []). split; [apply ext_grow|reflexivity]. }
      assert (RO : read Real (grow m [rows_of nt cols] []) (hs_x o) = read Real m (hs_x o)) by (apply read_ext; [apply ext_grow|apply H1]).
      unfold hbind at 1. unfold hread. rewrite ?RO.
      change (se_x (hs_view m o)) with (read Real m (hs_x o)).
      unfold hbind at 1. unfold hstore_slice, hbind. cbn [r_idx col_view].
      rewrite slice_len, map_length, seq_length. replace (Nat.min (nt - 0) (nt - 0)) with nt by lia.
      rewrite ?RO. destruct (fit nt (read Real m (hs_x o))) as [c|e] eqn:Qf; cbn [hlift bind].
      2:{ exists (grow m [rows_of nt cols] []). split; [apply ext_grow|reflexivity]. }
      pose proof (fit_length _ _ _ Qf) as Lc.
      erewrite (hstores_at_R m [] _ 0).
      + cbn [r_idx col_view nth upd].
        rewrite (rows_store nt nloc cols c i Hc Hi Lc).
        apply IH; [exact H2|]. rewrite app_length, firstn_length. cbn [length]. rewrite skipn_length. lia.
      + cbn. lia.
      + cbn. lia.
      + cbn [r_idx col_view]. rewrite map_length, seq_length. rewrite Forall_forall. intros [k v] Hin.
        apply in_combine_l in Hin. apply in_seq in Hin. cbn. lia.
  Qed.
  Lemma nth_repeat_any {A} (v : A) p n : nth p (repeat v n) v = v.
  Proof. revert p. induction n as [|n IH]; intros [|p]; cbn; auto. Qed.
  Lemma nth_repeat_in {A} (v d : A) p n : p < n -> nth p (repeat v n) d = v.
  Proof. revert p. induction n as [|n IH]; intros [|p] H; cbn; auto; try lia. apply IH. lia. Qed.
  Lemma rows_zero nt nloc : rows_of nt (repeat (repeat n0 nt) nloc) = repeat (n0 (N:=N)) (nt * nloc).
  Proof.
    set (cols := repeat (repeat (n0 (N:=N)) nt) nloc). assert (Lc : length cols = nloc) by apply repeat_length.
    apply nth_ext with (d := n0) (d' := n0).
    { now rewrite rows_length, repeat_length, Lc. }
    intros p Hp. rewrite rows_length, Lc in Hp. rewrite nth_repeat_any.
    assert (Hp2 : p = p / nloc * nloc + p mod nloc) by (rewrite Nat.mul_comm; apply Nat.div_mod; lia).
    assert (Hm : p mod nloc < nloc) by (apply Nat.mod_upper_bound; lia).
    assert (Hd : p / nloc < nt) by (apply Nat.div_lt_upper_bound; lia).
    set (k := p / nloc) in *. set (l := p mod nloc) in *. clearbody k l. subst p. rewrite <- Lc at 1.
    rewrite rows_nth by (rewrite ?Lc; assumption). unfold cols. rewrite nth_repeat_in by exact Hm. apply nth_repeat_any.
  Qed.

  Lemma decompose_series_dv (m : mem) (os : list (hseries N)) h rxl rwl (x_loc w_loc : list N) detLim :
    Forall (fun o => vref m (hs_t o) /\ vref m (hs_x o)) os -> is_vec Real m rxl x_loc -> is_vec Real m rwl w_loc ->
    delivers m m (h_decompose_series os h rxl rwl detLim)
      (fun (m' : mem) (a : hseries N * hseries N) (b : series N * series N) =>
         hs_view m' (fst a) = fst b /\ hs_view m' (snd a) = snd b /\
         Some (hs_t (fst a)) = option_map hs_t (hd_error os) /\ Some (hs_t (snd a)) = option_map hs_t (hd_error os) /\
         own m m' (hs_x (fst a)) /\ own m m' (hs_x (snd a)) /\ holds m m' (fst a) /\ holds m m' (snd a) /\
         NoDup (map r_buf [hs_x (fst a); hs_x (snd a); hw_h (hs_wh (fst a)); hw_t (hs_wh (fst a)); hs_tCross (fst a);
                           hw_h (hs_wh (snd a)); hw_t (hs_wh (snd a)); hs_tCross (snd a)]))
      (decompose_linear_ZS_series (map (hs_view m) os) h x_loc w_loc detLim).
  Proof.
    intros Ho Hx Hw. unfold h_decompose_series, decompose_linear_ZS_series.
    destruct os as [|o0 os']; [cbn [map]; apply dv_raise, ext_refl|]. cbn [map hd_error option_map].
    set (os := o0 :: os') in *.
    change (hs_view m o0 :: map (hs_view m) os') with (map (hs_view m) os).
    assert (Vt : vref m (hs_t o0)) by (unfold os in Ho; inversion Ho as [|? ? Q1 Q2]; apply Q1).
    change (se_t (hs_view m o0)) with (read Real m (hs_t o0)). cbv zeta.
    set (t := read Real m (hs_t o0)) in *.
    assert (Hn : h_len (hs_t o0) = length t) by (unfold h_len; now rewrite (vref_shape _ _ Vt)).
    rewrite Hn. set (nt := length t).
    eapply dv_step; [exact (is_vec_list Real _ _ _ Hx)|]. set (nloc := length x_loc).
    set (rX := mkRef (length (mR m)) (seq 0 (nt * nloc)) [nt; nloc]).
    assert (QX : hnew Real [nt; nloc] (repeat n0 (nt * nloc)) m = (grow m [rows_of nt (repeat (repeat n0 nt) nloc)] [], Ok rX)).
    { unfold hnew. rewrite rows_zero. unfold rX, grow. cbn. rewrite repeat_length, app_nil_r. reflexivity. }
    eapply dv_step; [exact QX|].
    assert (Hox : Forall (fun o => vref m (hs_x o)) os) by (eapply Forall_impl; [|exact Ho]; intros o HH; apply HH).
    destruct (stack_dv m nt nloc os Hox 0 (repeat (repeat n0 nt) nloc) (repeat_length _ _)) as (m1 & E1 & K1).
    fold rX in K1. destruct (stack_columns nt nloc 0 _ _) as [cols|e].
    2:{ eapply dv_step_raise; [exact K1|exact E1]. }
    destruct K1 as (Em1 & Lc & Q1). eapply dv_step; [exact Q1|]. cbn [bind].
    assert (LX : length (rows_of nt cols) = nt * nloc) by now rewrite rows_length, Lc.
    assert (OX : ref_ok Real m1 rX).
    { split; [rewrite Em1; cbn; rewrite app_length; cbn; lia|]. cbn. rewrite seq_length. lia. }
    assert (RX : read Real m1 rX = rows_of nt cols).
    { rewrite Em1. unfold read. cbn [r_buf r_idx rX bufs grow mR]. rewrite app_nth2, Nat.sub_diag by lia. cbn [nth].
      rewrite <- LX. apply map_nth_seq. }
    pose proof (decompose_dv m1 (hs_t o0) rX rxl rwl t x_loc w_loc h detLim (is_vec_ext Real _ _ _ _ E1 Vt) OX
                  (is_vec_ext Real _ _ _ _ E1 Hx) (is_vec_ext Real _ _ _ _ E1 Hw)) as KD.
    rewrite RX in KD. change (r_shape rX) with [nt; nloc] in KD.
    apply (dv_call m m1 _ _ _ _ _ _ E1 KD). clear KD. intros m2 [ri rr] [xi xr] E2 (Ki & Kr & ND) _. cbv beta iota.
    assert (E02 : ext m m2) by now apply ext_trans with m1.
    pose proof (is_vec_ext Real _ _ _ _ E02 Vt) as It2. fold t in It2.
    pose proof (series_init_dv m2 (PArr (hs_t o0)) (PArr ri) (is_vec_ok Real _ _ _ It2) (new_vec_ok Real _ _ _ _ Ki)) as KS.
    rewrite (is_vec_arg Real _ _ _ It2), (new_vec_arg Real _ _ _ _ Ki) in KS.
    apply (dv_call m m2 _ _ _ _ _ _ E02 KS). clear KS. intros m3 si vi E3 (V3 & S1 & S2 & H3 & ND3) _. cbn [source] in S1, S2.
    assert (Si : r_shape ri = [length xi]) by apply Ki. assert (Sr : r_shape rr = [length xr]) by apply Kr.
    rewrite (vec_not_column _ _ (vref_shape _ _ Vt)) in S1. rewrite (vec_not_column _ _ Si) in S2.
    assert (E03 : ext m m3) by now apply ext_trans with m2.
    pose proof (is_vec_ext Real _ _ _ _ E3 It2) as It3. pose proof (new_vec_ext Real _ _ _ _ _ E3 Kr) as Kr3.
    pose proof (series_init_dv m3 (PArr (hs_t o0)) (PArr rr) (is_vec_ok Real _ _ _ It3) (new_vec_ok Real _ _ _ _ Kr3)) as KS.
    rewrite (is_vec_arg Real _ _ _ It3), (new_vec_arg Real _ _ _ _ Kr3) in KS.
    apply (dv_call m m3 _ _ _ _ _ _ E03 KS). clear KS. intros m4 sr vr E4 (V4 & S3 & S4 & H4 & ND4) _. cbn [source] in S3, S4.
    rewrite (vec_not_column _ _ (vref_shape _ _ Vt)) in S3. rewrite (vec_not_column _ _ Sr) in S4.
    assert (E04 : ext m m4) by now apply ext_trans with m3.
    apply dv_ret; [exact E04|]. cbn [fst snd].
    assert (HR : forall r, vref m3 r -> read Real m4 r = read Real m3 r) by (intros r Hr; apply read_ext; [exact E4|apply Hr]).
    destruct H3 as (A1 & A2 & A3 & A4 & A5). destruct H4 as (B1 & B2 & B3 & B4 & B5).
    assert (V34 : hs_view m4 si = hs_view m3 si).
    { unfold hs_view, hw_view, arr_at. rewrite !HR by (exact A1 || exact A2 || apply A3 || apply A4 || apply A5). reflexivity. }
    assert (E24 : ext m2 m4) by now apply ext_trans with m3.
    subst ri rr.
    split; [now rewrite V34|]. split; [exact V4|]. split; [now rewrite S1|]. split; [now rewrite S3|].
    assert (O1 : own m m4 (hs_x si)).
    { apply own_base with m1; [exact E1|]. split; [apply Ki|now apply (vref_ext m3)]. }
    assert (O2 : own m m4 (hs_x sr)).
    { apply own_base with m1; [exact E1|]. split; [apply Kr|exact B2]. }
    split; [exact O1|]. split; [exact O2|].
    assert (W : forall r, own m2 m3 r -> own m m4 r).
    { intros r Hr. apply own_base with m2; [exact E02|]. now apply (own_ext m2 m3). }
    assert (W' : forall r, own m3 m4 r -> own m m4 r).
    { intros r Hr. now apply own_base with m3. }
    split; [split; [now apply (vref_ext m3)|split; [now apply (vref_ext m3)|auto]]|].
    split; [split; [exact B1|split; [exact B2|auto]]|].
    assert (C1 : r_buf (hs_x si) < length (mR m2)) by apply Ki. assert (C2 : r_buf (hs_x sr) < length (mR m2)) by apply Kr.
    assert (D : forall r, own m2 m3 r -> length (mR m2) <= r_buf r < length (mR m3)).
    { intros r (L1 & (L2 & _)). auto. }
    assert (D' : forall r, own m3 m4 r -> length (mR m3) <= r_buf r) by (intros r (L1 & _); exact L1).
    pose proof (D _ A3) as P1. pose proof (D _ A4) as P2. pose proof (D _ A5) as P3.
    pose proof (D' _ B3) as P4. pose proof (D' _ B4) as P5. pose proof (D' _ B5) as P6.
    pose proof (ext_len Real _ _ E3) as L3. cbn [bufs] in L3. cbn [map].
    constructor; [cbn [In]; lia|]. constructor; [cbn [In]; lia|].
    cbn [map] in ND3, ND4. inversion ND3 as [|? ? N1 N2]; subst. inversion N2 as [|? ? N3 N4]; subst. cbn [In] in N1, N3.
    constructor; [cbn [In]; lia|]. constructor; [cbn [In]; lia|]. constructor; [cbn [In]; lia|exact ND4].
  Qed.
End HeapHist.
