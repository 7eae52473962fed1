(** * C84, wave decomposition: decompose_linear_ZS on memory (helper of HeapClaims.v) *)

From Coq Require Import ZArith String List Bool Arith Lia.
From Verif Require Import Num Engine Cpx TimeModel SpectralModel WaveModel DisperModel DecompModel
  SpectrumModel SeriesModel HeapModel HeapFacts HeapProps.
Import ListNotations.
Local Open Scope nat_scope.

Section HeapDecomp.
  Context {N : Num}.
  Local Notation cpx := (cpx N).
  Local Notation mem := (mem N).

  Lemma col_ok {A} (d : dtype N A) m r n k j : ref_ok d m r -> ref_ok d m (col_view n k j r).
  Proof. intros (H & _). split; [exact H|]. cbn. rewrite map_length, seq_length. lia. Qed.
  Lemma col_read {A} (d : dtype N A) m r n k j : ref_ok d m r -> r_shape r = [n; k] -> j < k ->
    read d m (col_view n k j r) = column (zero d) (read d m r) n k j.
  Proof.
    intros (H & L) E Hj. rewrite E in L. cbn in L. unfold read, column, col_view. cbn [r_buf r_idx].
    rewrite map_map. apply map_ext_in. intros i Hi. apply in_seq in Hi.
    set (F := fun i => nth i (nth (r_buf r) (bufs d m) []) (zero d)).
    change (F (nth (i * k + j) (r_idx r) 0) = nth (i * k + j) (map F (r_idx r)) (zero d)).
    rewrite (nth_indep _ (zero d) (F 0)) by (rewrite map_length; nia).
    now rewrite (map_nth F).
  Qed.
  Lemma column_length {A} (z : A) l n k j : length (column z l n k j) = n.
  Proof. unfold column. now rewrite map_length, seq_length. Qed.

  Lemma store_col (m : mem) er ec Nf Nl (Xs : list (list cpx)) X :
    length Xs < Nl -> length X = Nf ->
    hstore_slice Complex (col_view Nf Nl (length Xs) (mkRef (length (mC m)) (seq 0 (Nf * Nl)) [Nf; Nl])) 0 Nf X
      (grow m er (flat Nf Nl Xs :: ec)) = (grow m er (flat Nf Nl (Xs ++ [X]) :: ec), Ok tt).
  Proof.
    intros Hj HX. unfold hstore_slice, hbind. cbn [r_idx col_view].
    rewrite slice_len, map_length, seq_length. replace (Nat.min (Nf - 0) (Nf - 0)) with Nf by lia.
    rewrite fit_same by exact HX. cbn [hlift].
    erewrite (hstores_at_C m er _ 0).
    - cbn [r_idx nth upd]. do 2 f_equal. f_equal. etransitivity; [|apply flat_snoc; eassumption]. reflexivity.
    - cbn. lia.
    - cbn. lia.
    - cbn [r_idx col_view]. rewrite map_length, seq_length. rewrite Forall_forall. intros [i v] Hin.
      apply in_combine_l in Hin. apply in_seq in Hin. cbn. lia.
  Qed.

  Lemma map2_map_r {A B C I} (op : A -> B -> C) (f : I -> B) (l : list A) (l' : list I) :
    map2 op l (map f l') = map2 (fun a i => op a (f i)) l l'.
  Proof. revert l'. induction l as [|a l IH]; intros [|i l']; cbn; auto. now rewrite IH. Qed.
  Lemma map2_ext_in {A B C} (op op' : A -> B -> C) (l : list A) (l' : list B) :
    (forall a b, In b l' -> op a b = op' a b) -> map2 op l l' = map2 op' l l'.
  Proof.
    revert l'. induction l as [|a l IH]; intros [|b l'] H; cbn; auto.
    rewrite H by now left. f_equal. apply IH. intros; apply H; now right.
  Qed.
  Lemma mapM_all {A B} (g : A -> res B) (h : A -> B) l :
    (forall a, In a l -> g a = Ok (h a)) -> mapM g l = Ok (map h l).
  Proof.
    induction l as [|a l IH]; intro H; cbn; [reflexivity|]. rewrite H by now left. cbn.
    rewrite IH by (intros; apply H; now right). reflexivity.
  Qed.

  (** the distances to the first gauge, filled in one by one *)
  Lemma distances_run (m : mem) rxl (x_loc : list N) x0 :
    is_vec Real m rxl x_loc -> idx x_loc 0 = Ok x0 -> 1 < length x_loc ->
    let D := n0 :: map (fun x => nsub x x0) (tl x_loc) in
    hfor (seq 1 (length x_loc - 1)) (fun iloc =>
          do! xl := hlist Real rxl in
          do! xi := hlift (idx xl iloc) in
          do! x0 := hlift (idx xl 0) in
          hstore Real (fresh_at Real m 0 (length x_loc)) iloc (nsub xi x0)) (grow m [repeat n0 (length x_loc)] []) =
      (grow m [D] [], Ok tt).
  Proof.
    intros Hx H0 Hn D. set (n := length x_loc) in *.
    assert (LD : length D = n).
    { unfold D. cbn [length]. rewrite map_length. destruct x_loc; cbn in *; lia. }
    set (St := fun k => grow m [firstn k D ++ repeat n0 (n - k)] []).
    assert (E1 : grow m [repeat n0 n] [] = St 1).
    { unfold St. f_equal. f_equal. unfold D. cbn [firstn app]. destruct n; [lia|]. cbn. now rewrite Nat.sub_0_r. }
    assert (E2 : grow m [D] [] = St (1 + (n - 1))).
    { unfold St. replace (1 + (n - 1)) with n by lia. rewrite Nat.sub_diag. cbn [repeat]. rewrite app_nil_r.
      now rewrite firstn_all2 by lia. }
    rewrite E1, E2. apply hfor_ok. intros k Hk.
    assert (Hv : is_vec Real (St k) rxl x_loc) by (apply is_vec_ext with m; [apply ext_grow|exact Hx]).
    unfold hbind. rewrite (is_vec_list Real _ _ _ Hv).
    assert (Ix : idx x_loc k = Ok (nth k x_loc n0)) by (apply idx_Ok; lia).
    rewrite Ix, H0. cbn [hlift]. unfold St at 1. rewrite hstore_R by (fold n; lia). cbn [nth upd]. unfold St. f_equal. f_equal. f_equal.
    rewrite (firstn_snoc D k n0) by lia.
    rewrite (repeat_split n0 n k) by lia.
    assert (LF : length (firstn k D) = k) by (rewrite firstn_length; lia).
    rewrite <- LF at 1. rewrite upd_head. rewrite <- app_assoc. cbn [app]. f_equal. f_equal.
    unfold D. destruct k; [lia|]. cbn [nth]. destruct x_loc as [|y x_loc]; [cbn in Hn; lia|]. cbn [tl nth].
    rewrite (nth_indep (map _ _) n0 (nsub n0 x0)) by (rewrite map_length; cbn in *; lia).
    now rewrite (map_nth (fun x => nsub x x0)).
  Qed.

  (** the Fourier coefficients of the other gauges, stored column by column *)
  Lemma columns_run (m m0 : mem) rt rX t Nt Nl f (XX : nat -> list cpx) er ec :
    is_vec Real m rt t -> ref_ok Real m rX -> r_shape rX = [Nt; Nl] -> Nt = length t -> 1 < Nl ->
    ext m0 m ->
    (forall j, j < Nl -> exists o, time2freq_nyquist (Arr (vec t)) (Arr (vec (column n0 (read Real m rX) Nt Nl j)))
                        = Ok (f, XX j, o) /\ length (XX j) = length f) ->
    exists er' ec',
    hfor (seq 1 (Nl - 1)) (fun iloc =>
          do! (_, rXi, _) := h_time2freq_nyquist (PArr rt) (PArr (col_view Nt Nl iloc rX)) in
          do! Xi := hlist Complex rXi in
          hstore_slice Complex (col_view (length f) Nl iloc (mkRef (length (mC m)) (seq 0 (length f * Nl)) [length f; Nl])) 0 (length f) Xi)
      (grow m er (flat (length f) Nl [XX 0] :: ec))
    = (grow m er' (flat (length f) Nl (map XX (seq 0 Nl)) :: ec'), Ok tt).
  Proof.
    intros Ht HX Hs Hn Hl E0 HT. set (Nf := length f).
    pose proof (hfor_mapM_rel m (fun k => Ok (XX k))
      (fun Xs m' => exists er ec, m' = grow m er (flat Nf Nl Xs :: ec))
      (fun iloc =>
          do! (_, rXi, _) := h_time2freq_nyquist (PArr rt) (PArr (col_view Nt Nl iloc rX)) in
          do! Xi := hlist Complex rXi in
          hstore_slice Complex (col_view Nf Nl iloc (mkRef (length (mC m)) (seq 0 (Nf * Nl)) [Nf; Nl])) 0 Nf Xi)
      (Nl - 1) 1 [XX 0] (grow m er (flat Nf Nl [XX 0] :: ec))) as K.
    rewrite (mapM_all _ XX) in K by auto.
    cbv beta iota in K. destruct K as (m' & Q & a & b & ->).
    - intros k Xs m' Hk Hl' (a & b & ->). cbn [length] in Hl'.
      set (mm := grow m a (flat Nf Nl Xs :: b)).
      assert (E : ext m mm) by apply ext_grow.
      pose proof (is_vec_ext Real _ _ _ _ E Ht) as Ht'.
      pose proof (ref_ok_ext Real _ _ _ E HX) as HX'.
      pose proof (time2freq_nyquist_dv mm (PArr rt) (PArr (col_view Nt Nl k rX)) (is_vec_ok Real _ _ _ Ht') (col_ok Real _ _ _ _ _ HX')) as K.
      rewrite (is_vec_arg Real _ _ _ Ht') in K. cbn [argval] in K.
      rewrite col_read in K by (auto; lia). rewrite (read_ext Real m mm rX E) in K by apply HX.
      change (mkArr (r_shape (col_view Nt Nl k rX)) (column (zero Real) (read Real m rX) Nt Nl k))
        with (mkArr [Nt] (column (zero Real) (read Real m rX) Nt Nl k)) in K.
      destruct (HT k ltac:(lia)) as (o & HT1 & HT2). unfold vec in HT1 at 2. rewrite column_length in HT1.
      cbn [zero] in K. rewrite HT1 in K. unfold delivers in K. unfold hbind at 1.
      destruct (h_time2freq_nyquist (PArr rt) (PArr (col_view Nt Nl k rX)) mm) as [m2 [[[rf rXi] o2]|e]]; [|destruct K; contradiction].
      destruct K as ((a2 & b2 & Em) & _ & Kx & _).
      unfold hbind. rewrite (new_vec_list Complex _ _ _ _ Kx). subst m2. unfold mm. rewrite grow_grow. cbn [app].
      pose proof (store_col m (a ++ a2) (b ++ b2) Nf Nl Xs (XX k) ltac:(lia) HT2) as SC.
      replace (length Xs) with k in SC by lia. rewrite SC. eexists. split; [reflexivity|]. eexists _, _. reflexivity.
    - eexists _, _. reflexivity.
    - exists a, b. fold Nf. rewrite Q. do 4 f_equal. destruct Nl; [lia|]. cbn. now rewrite Nat.sub_0_r.
  Qed.

  Lemma upd_at {A} j (a : list A) x v b : length a = j -> upd j v (a ++ x :: b) = a ++ v :: b.
  Proof. intros <-. apply upd_head. Qed.
  (** the solutions of the 2x2 systems, stored frequency by frequency *)
  Lemma solve_run (m : mem) rwl rd rk rF (w_loc d k : list N) (F : list cpx) (sol : nat -> cpx * cpx)
 detLim wsum Nf Nl :
    is_vec Real m rwl w_loc -> is_vec Real m rd d -> is_vec Real m rk k ->
    r_buf rF < length (mC m) -> read Complex m rF = F ->
    (forall i, i < Nf -> sol i = zs_freq detLim wsum (nth i k nnan)
        (map2 (fun wd iloc => (wd, nth (i * Nl + iloc) F c0)) (combine w_loc d) (seq 0 Nl))) ->
    hfor (seq 0 Nf) (fun ifreq =>
          do! w_loc := hlist Real rwl in
          do! d := hlist Real rd in
          do! k := hlist Real rk in
          do! F := hread Complex rF in
          let gs := map2 (fun wd iloc => (wd, nth (ifreq * Nl + iloc) F c0))
                         (combine w_loc d) (seq 0 Nl) in
          match zs_solve detLim wsum (nth ifreq k nnan) gs with
          | Some (a, b) =>
              do! _ := hstore Complex (fresh_at Complex m 0 Nf) ifreq a in
              hstore Complex (fresh_at Complex m 1 Nf) ifreq b
          | None => hret tt
          end) (grow m [] [repeat c0 Nf; repeat c0 Nf]) =
      (grow m [] [map fst (map sol (seq 0 Nf)); map snd (map sol (seq 0 Nf))], Ok tt).
  Proof.
    intros Hw Hd Hk HF RF Hsol.
    set (St := fun j => grow m [] [map fst (map sol (seq 0 j)) ++ repeat c0 (Nf - j);
                                   map snd (map sol (seq 0 j)) ++ repeat c0 (Nf - j)]).
    assert (E1 : grow m [] [repeat c0 Nf; repeat c0 Nf] = St 0).
    { unfold St. cbn [seq map app]. now rewrite Nat.sub_0_r. }
    assert (E2 : grow m [] [map fst (map sol (seq 0 Nf)); map snd (map sol (seq 0 Nf))] = St (0 + Nf)).
    { unfold St. cbn [plus]. rewrite Nat.sub_diag. cbn [repeat]. now rewrite !app_nil_r. }
    rewrite E1, E2. apply hfor_ok. intros j Hj.
    assert (E : ext m (St j)) by apply ext_grow.
    unfold hbind. rewrite (is_vec_list Real _ _ _ (is_vec_ext Real _ _ _ _ E Hw)).
    rewrite (is_vec_list Real _ _ _ (is_vec_ext Real _ _ _ _ E Hd)).
    rewrite (is_vec_list Real _ _ _ (is_vec_ext Real _ _ _ _ E Hk)).
    unfold hread. rewrite (read_ext Complex m (St j) rF E HF), RF.
    pose proof (Hsol j ltac:(lia)) as S1. rewrite zs_freq_solve in S1.
    assert (Sj : forall (g : cpx * cpx -> cpx), map g (map sol (seq 0 (S j))) ++ repeat c0 (Nf - S j)
                 = map g (map sol (seq 0 j)) ++ g (sol j) :: repeat c0 (Nf - S j)).
    { intro g. rewrite seq_S, !map_app, <- app_assoc. reflexivity. }
    assert (Lj : forall (g : cpx * cpx -> cpx), length (map g (map sol (seq 0 j))) = j)
      by (intro g; now rewrite !map_length, seq_length).
    replace (St (S j)) with (grow m [] [map fst (map sol (seq 0 j)) ++ fst (sol j) :: repeat c0 (Nf - S j); map snd (map sol (seq 0 j)) ++ snd (sol j) :: repeat c0 (Nf - S j)]) by (unfold St; now rewrite !Sj).
    destruct (zs_solve detLim wsum (nth j k nnan) _) as [[a b]|].
    - unfold St at 1. rewrite hstore_C by lia. cbn [nth upd]. rewrite hstore_C by lia. cbn [nth upd].
      rewrite !(repeat_split c0 Nf j) by lia.
      rewrite !upd_at by apply Lj. now rewrite S1.
    - unfold hret, St. rewrite !(repeat_split c0 Nf j) by lia. now rewrite S1.
  Qed.

  Lemma colval {A} (d : dtype N A) m r l : is_vec d m r l -> argval d m (PArr (as_column r)) = Arr (colvec l).
  Proof. intros (H & L & Sh & R). cbn. unfold colvec. now rewrite L, <- R. Qed.
  Lemma colok {A} (d : dtype N A) m r l : is_vec d m r l -> ref_ok d m (as_column r).
  Proof. intros (H & L & Sh & R). split; [exact H|]. cbn. lia. Qed.

  Lemma decompose_dv m rt rX rxl rwl (t x_loc w_loc : list N) h detLim :
    is_vec Real m rt t -> ref_ok Real m rX -> is_vec Real m rxl x_loc -> is_vec Real m rwl w_loc ->
    delivers m m (h_decompose_linear_ZS rt rX h rxl rwl detLim)
      (fun m' '(ri, rr) '(i, r) => new_vec Real m m' ri i /\ new_vec Real m m' rr r /\ r_buf ri <> r_buf rr)
      (decompose_linear_ZS t (mkArr (r_shape rX) (read Real m rX)) h x_loc w_loc detLim).
  Proof.
    intros Ht HX Hx Hw. unfold h_decompose_linear_ZS, decompose_linear_ZS. cbn [shape data].
    destruct (r_shape rX) as [|Nt [|Nl [|? ?]]] eqn:Sh; try (apply dv_raise, ext_refl).
    eapply dv_step; [exact (is_vec_list Real _ _ _ Ht)|].
    eapply dv_step; [exact (is_vec_list Real _ _ _ Hx)|].
    eapply dv_step; [exact (is_vec_list Real _ _ _ Hw)|]. cbv beta.
    destruct (Nat.eqb_spec Nl (length x_loc)) as [EN|]; cbn [negb]; [|apply dv_raise, ext_refl].
    destruct (negb (Nat.eqb (length x_loc) (length w_loc))); [apply dv_raise, ext_refl|].
    destruct (Nat.ltb_spec 1 Nl) as [HN|]; cbn [negb]; [|apply dv_raise, ext_refl].
    destruct (Nat.eqb_spec Nt (length t)) as [ET|]; cbn [negb]; [|apply dv_raise, ext_refl].
    apply dv_lift; [apply ext_refl|]. intros wmin _.
    apply dv_lift; [apply ext_refl|]. intros wmax _.
    destruct (negb ((n0 <? wmin) || (wmax <=? n1))%num); [apply dv_raise, ext_refl|].
    destruct (negb (n1 <? nsum w_loc)%num); [apply dv_raise, ext_refl|].
    apply dv_lift; [apply ext_refl|]. intros dmin _.
    destruct (negb (n0 <? dmin)%num); [apply dv_raise, ext_refl|]. cbv zeta.
    pose proof (hvec_R m [] [] (repeat n0 Nl)) as Q. rewrite grow_nil in Q. cbn [app length] in Q.
    rewrite repeat_length in Q. eapply dv_step; [exact Q|]. clear Q.
    destruct (idx x_loc 0) as [x0|e] eqn:I0; [|destruct x_loc; [cbn in EN; lia|discriminate]].
    cbn [bind]. rewrite EN.
    eapply dv_step; [apply distances_run with (x0 := x0); auto; lia|].
    rewrite <- EN. set (D := n0 :: map (fun x => nsub x x0) (tl x_loc)). set (m2 := grow m [D] []).
    assert (LD : length D = Nl).
    { unfold D. cbn [length]. rewrite map_length. destruct x_loc; cbn in *; lia. }
    assert (E2 : ext m m2) by apply ext_grow.
    assert (Hd : is_vec Real m2 (fresh_at Real m 0 Nl) D).
    { apply new_is_vec with m. apply fresh_new_R; [apply ext_refl|cbn; lia|reflexivity|exact LD]. }
    pose proof (is_vec_ext Real _ _ _ _ E2 Ht) as Ht2.
    pose proof (ref_ok_ext Real _ _ _ E2 HX) as HX2.
    assert (RX2 : read Real m2 rX = read Real m rX) by (apply read_ext; [exact E2|apply HX]).
    pose proof (time2freq_nyquist_dv m2 (PArr rt) (PArr (col_view Nt Nl 0 rX)) (is_vec_ok Real _ _ _ Ht2) (col_ok Real _ _ _ _ _ HX2)) as K.
    rewrite (is_vec_arg Real _ _ _ Ht2) in K. cbn [argval] in K.
    rewrite col_read in K by (auto; lia). rewrite RX2 in K. cbn [zero] in K.
    assert (VC : forall j, vec (column n0 (read Real m rX) Nt Nl j) = mkArr [Nt] (column n0 (read Real m rX) Nt Nl j)).
    { intro j. unfold vec. now rewrite column_length. }
    change (mkArr (r_shape (col_view Nt Nl 0 rX)) (column n0 (read Real m rX) Nt Nl 0))
      with (mkArr [Nt] (column n0 (read Real m rX) Nt Nl 0)) in K. rewrite <- VC in K.
    destruct (nyquist_cases t) as [(e & HT)|(f & HT)].
    { rewrite HT in K by (now rewrite column_length). unfold delivers in K.
      assert (QM : mapM (fun x => time2freq_nyquist (Arr (vec t)) (Arr (vec x)))
                     (map (column n0 (read Real m rX) Nt Nl) (seq 0 Nl)) = Raise e).
      { destruct Nl; [lia|]. cbn [seq map mapM]. now rewrite HT by (now rewrite column_length). }
      rewrite QM. cbn [bind].
      destruct (h_time2freq_nyquist (PArr rt) (PArr (col_view Nt Nl 0 rX)) m2) as [m3 [a|e']] eqn:QH; destruct K as (E3 & K); [contradiction|].
      subst e'. eapply dv_step_raise; [exact QH|]. now apply ext_trans with m2. }
    set (XX := fun j => match time2freq_nyquist (Arr (vec t)) (Arr (vec (column n0 (read Real m rX) Nt Nl j))) with
                        | Ok (_, X, _) => X | Raise _ => [] end).
    assert (HXX : forall j, time2freq_nyquist (Arr (vec t)) (Arr (vec (column n0 (read Real m rX) Nt Nl j)))
                   = Ok (f, XX j, Nat.odd (length t)) /\ length (XX j) = length f).
    { intro j. unfold XX. destruct (HT (column n0 (read Real m rX) Nt Nl j)) as (X & -> & L); [now rewrite column_length|]. auto. }
    assert (QM : mapM (fun x => time2freq_nyquist (Arr (vec t)) (Arr (vec x)))
                   (map (column n0 (read Real m rX) Nt Nl) (seq 0 Nl))
                 = Ok (map (fun j => (f, XX j, Nat.odd (length t))) (seq 0 Nl))).
    { clear - HXX. induction (seq 0 Nl) as [|j l IH]; [reflexivity|]. cbn [map mapM].
      destruct (HXX j) as (-> & _). cbn [bind]. now rewrite IH. }
    rewrite QM. clear QM. cbn [bind].
    assert (I1 : idx (map (fun j => (f, XX j, Nat.odd (length t))) (seq 0 Nl)) 0 = Ok (f, XX 0, Nat.odd (length t))).
    { destruct Nl; [lia|]. reflexivity. }
    rewrite I1. clear I1. cbn [bind]. rewrite map_map. cbn [fst snd].
    destruct (HXX 0) as (H0 & L0). rewrite H0 in K. unfold delivers in K.
    destruct (h_time2freq_nyquist (PArr rt) (PArr (col_view Nt Nl 0 rX)) m2) as [m3 [[[rf rX1] o]|e']] eqn:QH; destruct K as (E3 & K); [|contradiction].
    destruct K as (Kf & KX & ->).
    eapply dv_step; [exact QH|]. clear QH. cbv beta iota.
    eapply dv_step; [exact (new_vec_list Real _ _ _ _ Kf)|]. cbv zeta.
    set (Nf := length f) in *.
    eapply dv_step; [unfold hnew; reflexivity|]. rewrite repeat_length. cbn [bufs set_bufs].
    assert (G3 : mkMem (mR m3) (mC m3 ++ [repeat c0 (Nf * Nl)]) = grow m3 [] [flat Nf Nl []]).
    { unfold grow. now rewrite app_nil_r, flat_nil. }
    fold Nf. rewrite ?G3. clear G3.
    assert (E34 : forall er ec, ext m3 (grow m3 er ec)) by (intros; apply ext_grow).
    eapply dv_step; [exact (is_vec_list Complex _ _ _ (is_vec_ext Complex _ _ _ _ (E34 _ _) (new_is_vec Complex _ _ _ _ KX)))|].
    eapply dv_step; [apply (store_col m3 [] [] Nf Nl [] (XX 0)); [cbn; lia|exact L0]|]. cbn [app].
    pose proof (is_vec_ext Real _ _ _ _ E3 Ht2) as Ht3.
    pose proof (ref_ok_ext Real _ _ _ E3 HX2) as HX3.
    assert (RX3 : read Real m3 rX = read Real m rX) by (rewrite <- RX2; apply read_ext; [exact E3|apply HX2]).
    destruct (columns_run m3 m3 rt rX t Nt Nl f XX [] [] Ht3 HX3 Sh ET HN (ext_refl _)) as (er & ec & Q).
    { intros j Hj. rewrite RX3. eexists. apply HXX. }
    eapply dv_step; [exact Q|]. clear Q. fold Nf.
    set (m4 := grow m3 er (flat Nf Nl (map XX (seq 0 Nl)) :: ec)).
    assert (E4 : ext m3 m4) by apply ext_grow.
    assert (Hf4 : is_vec Real m4 rf f) by (apply is_vec_ext with m3; [exact E4|]; now apply new_is_vec with m2).
    assert (RF4 : read Complex m4 (mkRef (length (mC m3)) (seq 0 (Nf * Nl)) [Nf; Nl]) = flat Nf Nl (map XX (seq 0 Nl))).
    { unfold read, m4. cbn [r_buf r_idx bufs mC grow]. rewrite app_nth2, Nat.sub_diag by lia. cbn [nth].
      rewrite <- (flat_length Nf Nl (map XX (seq 0 Nl))). apply map_nth_seq. }
    assert (B4 : length (mC m3) < length (mC m4)) by (cbn; rewrite app_length; cbn; lia).
    eapply dv_step; [exact (is_vec_list Real _ _ _ Hf4)|].
    destruct (hvec_new Real m4 (map (fun v => (nofZ 2 * npi * v)%num) f)) as (m5 & rw & Q & E5 & Kw).
    eapply dv_step; [exact Q|]. clear Q.
    assert (E05 : ext m m5).
    { apply ext_trans with m2; [exact E2|]. apply ext_trans with m3; [exact E3|]. now apply ext_trans with m4. }
    pose proof (disper_dv m5 (PArr rw) h (lit 981 100) (new_vec_ok Real _ _ _ _ Kw)) as KD.
    rewrite (new_vec_arg Real _ _ _ _ Kw) in KD.
    apply (dv_call m m5 _ _ _ _ _ _ E05 KD). clear KD.
    intros m6 rk k E6 Kk _.
    assert (E46 : ext m4 m6) by now apply ext_trans with m5.
    assert (E36 : ext m3 m6) by now apply ext_trans with m4.
    assert (E26 : ext m2 m6) by now apply ext_trans with m3.
    assert (E06 : ext m m6) by now apply ext_trans with m2.
    rewrite L0. fold Nf.
    pose proof (hvec_C m6 [] [] (repeat c0 Nf)) as Q. rewrite grow_nil in Q. cbn [app length] in Q. rewrite repeat_length in Q.
    eapply dv_step; [exact Q|]. clear Q.
    pose proof (hvec_C m6 [] [repeat c0 Nf] (repeat c0 Nf)) as Q. cbn [app length] in Q. rewrite repeat_length in Q.
    eapply dv_step; [exact Q|]. clear Q.
    set (per_freq := fun ifreq => zs_freq detLim (nsum w_loc) (nth ifreq k nnan)
            (map2 (fun wd X => (wd, nth ifreq X c0)) (combine w_loc D) (map XX (seq 0 Nl)))).
    set (IR := map per_freq (seq 0 Nf)).
    eapply dv_step.
    { apply (solve_run m6 rwl (fresh_at Real m 0 Nl) rk _ w_loc D k (flat Nf Nl (map XX (seq 0 Nl))) per_freq).
      - now apply is_vec_ext with m.
      - now apply is_vec_ext with m2.
      - now apply new_is_vec with m5.
      - cbn [r_buf]. pose proof (ext_len Complex _ _ E46) as L. cbn [bufs] in L. lia.
      - rewrite (read_ext Complex m4 m6); [exact RF4|exact E46|exact B4].
      - intros i Hi. unfold per_freq. f_equal. rewrite map2_map_r. apply map2_ext_in. intros wd l Hl. apply in_seq in Hl.
        f_equal. rewrite flat_nth by lia. now rewrite nth_map_seq by lia. }
    fold IR. set (m7 := grow m6 [] [map fst IR; map snd IR]).
    assert (E7 : ext m6 m7) by apply ext_grow.
    assert (LI : length IR = Nf) by (unfold IR; now rewrite map_length, seq_length).
    assert (KI : is_vec Complex m7 (fresh_at Complex m6 0 Nf) (map fst IR)).
    { apply new_is_vec with m6. apply fresh_new_C; [apply ext_refl|cbn; lia|reflexivity|now rewrite map_length]. }
    assert (KR : is_vec Complex m7 (fresh_at Complex m6 1 Nf) (map snd IR)).
    { apply new_is_vec with m6. apply fresh_new_C; [apply ext_refl|cbn; lia|reflexivity|now rewrite map_length]. }
    assert (Hf7 : is_vec Real m7 rf f) by (apply is_vec_ext with m4; [now apply ext_trans with m6|exact Hf4]).
    assert (E07 : ext m m7) by now apply ext_trans with m6.
    pose proof (unfold_dv m7 (PArr (as_column rf)) (PArr (as_column (fresh_at Complex m6 0 Nf))) (Nat.odd (length t))
                 (colok Real _ _ _ Hf7) (colok Complex _ _ _ KI)) as KU.
    rewrite (colval Real _ _ _ Hf7), (colval Complex _ _ _ KI) in KU.
    apply (dv_call m m7 _ _ _ _ _ _ E07 KU). clear KU.
    intros m8 [? rI] [? xI] E8 (_ & KxI) _. cbv beta iota.
    assert (Hf8 : is_vec Real m8 rf f) by now apply is_vec_ext with m7.
    assert (KR8 : is_vec Complex m8 (fresh_at Complex m6 1 Nf) (map snd IR)) by now apply is_vec_ext with m7.
    assert (E08 : ext m m8) by now apply ext_trans with m7.
    pose proof (unfold_dv m8 (PArr (as_column rf)) (PArr (as_column (fresh_at Complex m6 1 Nf))) (Nat.odd (length t))
                 (colok Real _ _ _ Hf8) (colok Complex _ _ _ KR8)) as KU.
    rewrite (colval Real _ _ _ Hf8), (colval Complex _ _ _ KR8) in KU.
    apply (dv_call m m8 _ _ _ _ _ _ E08 KU). clear KU.
    intros m9 [? rR] [? xR] E9 (_ & KxR) _. cbv beta iota.
    assert (E09 : ext m m9) by now apply ext_trans with m8.
    pose proof (is_vec_ext Complex _ _ _ _ E9 (new_is_vec Complex _ _ _ _ KxI)) as KxI9.
    pose proof (freq2time_dv m9 (PArr rI) (is_vec_ok Complex _ _ _ KxI9)) as KF.
    rewrite (is_vec_arg Complex _ _ _ KxI9) in KF.
    apply (dv_call m m9 _ _ _ _ _ _ E09 KF). clear KF.
    intros m10 ri i E10 Ki _.
    assert (E010 : ext m m10) by now apply ext_trans with m9.
    pose proof (is_vec_ext Complex _ _ _ _ E10 (new_is_vec Complex _ _ _ _ KxR)) as KxR10.
    pose proof (freq2time_dv m10 (PArr rR) (is_vec_ok Complex _ _ _ KxR10)) as KF.
    rewrite (is_vec_arg Complex _ _ _ KxR10) in KF.
    apply (dv_call m m10 _ _ _ _ _ _ E010 KF). clear KF.
    intros m11 rr xr E11 Kr _.
    apply dv_ret; [now apply ext_trans with m10|].
    split; [|split].
    - apply new_vec_ext with m10; [exact E11|]. now apply new_vec_base with m9.
    - now apply new_vec_base with m10.
    - destruct Ki as (Ki & _), Kr as (Kr & _). lia.
  Qed.
End HeapDecomp.
