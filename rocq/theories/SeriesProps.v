(** * Properties of the class Series (series.py): C16 - C19 *)

From Coq Require Import Reals ZArith String List Bool Lra Lia Permutation.
From Verif Require Import Num XR Spec XRFacts Engine Cpx TimeModel TimeSpec EngineProps TimeProps TimeProps2
  TimeProps3 SpectralModel WaveModel SpectrumModel SeriesModel WHProps.
Import ListNotations.
Open Scope R_scope.

(** ** Deleting the positions of a mask *)

Lemma delete_from {A} (p : A -> bool) (is : list nat) (l : list A) d : forall k,
  (forall i, (i < length l)%nat -> existsb (Nat.eqb (k + i)) is = p (nth i l d)) ->
  map snd (filter (fun q => negb (existsb (Nat.eqb (fst q)) is)) (combine (seq k (length l)) l))
  = filter (fun a => negb (p a)) l.
Proof.
  induction l as [|a l IH]; intros k H; [reflexivity|]. cbn [length seq combine filter fst].
  assert (H0 := H 0%nat ltac:(cbn; lia)). rewrite Nat.add_0_r in H0. cbn [nth] in H0. rewrite H0.
  assert (IH' := IH (S k)). 
  destruct (p a); cbn [negb map snd]; [|f_equal]; apply IH'; intros i Hi;
    replace (S k + i)%nat with (k + S i)%nat by lia; apply (H (S i)); cbn; lia.
Qed.
Lemma delete_where {A} (p : A -> bool) (l : list A) (d : A) :
  delete_idx (where_ p l) l = filter (fun a => negb (p a)) l.
Proof.
  unfold delete_idx. apply (delete_from p _ l d). intros i Hi. cbn [plus].
  destruct (p (nth i l d)) eqn:E.
  - apply existsb_exists. exists i. split; [|apply Nat.eqb_refl]. apply (where_In p l i d). auto.
  - apply not_true_iff_false. intros H. apply existsb_exists in H as (j & Hj & Ej).
    apply Nat.eqb_eq in Ej. subst j. apply (where_In p l i d) in Hj as [_ Hj]. congruence.
Qed.
Lemma delete_nil {A} (l : list A) : delete_idx [] l = l.
Proof.
  unfold delete_idx. cbn [existsb negb]. generalize 0%nat. induction l as [|a l IH]; intros k; [reflexivity|].
  cbn. f_equal. apply IH.
Qed.

(** the wave arrays stored for a list of waves *)
Definition stored_waves (wh : waveheights NX) (ws : list (wave NX)) : Prop :=
  wh_h wh = vec (map w_h ws) /\ wh_t wh = vec (map w_t ws) /\ wh_n wh = length ws.

Lemma vec_convert {A} (l : list A) : convert_to_vector (Arr (vec l)) = (vec l, (length l, 0%nat)).
Proof.
  unfold convert_to_vector; cbn [convert_to_array_type]. unfold size_. rewrite asize_vec.
  destruct l; reflexivity.
Qed.
Lemma wh_of_waves_stored ws : stored_waves (wh_of_waves ws) ws.
Proof.
  unfold wh_of_waves, wh_init, stored_waves. rewrite !vec_convert. cbn. rewrite map_length. auto.
Qed.

Lemma sub0 (v : NX) : nsub (n:=NX) v (Fin 0) = v.
Proof. destruct v; cbn; auto. f_equal. lra. Qed.
Lemma map_sub0 (x : list NX) : map (fun v => nsub (n:=NX) v n0) x = x.
Proof. induction x; [reflexivity|]. cbn [map]. rewrite IHx, fin_0, sub0. reflexivity. Qed.

(** ** C17 The minimum_wave filter *)

(** [w] is at least [m] high (nothing is below a NaN limit, and a NaN height is below nothing) *)
Definition below (m : NX) (w : wave NX) : bool := nltb (n:=NX) (w_h w) m.

(** For any series, direction and filter settings for which the analysis returns waves [all] *)
Theorem C17_minimum_wave (s : series NX) (typeCross : string) (fcutoff m : NX)
    (n : Z) (tc : arr NX) (all : list (wave NX)) :
  series_crossings (se_t s) (se_x s) typeCross fcutoff = Ok (n, tc) ->
  determine_params_individual_waves (Arr tc) (Arr (vec (se_t s))) (Arr (vec (se_x s))) = Ok all ->
  exists s' kept,
    series_determine s typeCross fcutoff m = (s', Ok (kept, tc))
    /\ kept = filter (fun w => negb (below m w)) all
    /\ stored_waves (se_wh s') kept
    /\ se_t s' = se_t s /\ se_x s' = se_x s /\ se_nt s' = se_nt s /\ se_dt s' = se_dt s.
Proof.
  intros Hc Hw. unfold series_determine, individual_waves. rewrite Hc, bind_Ok, Hw, bind_Ok.
  rewrite (delete_where _ _ dwave). eexists _, _. split; [reflexivity|]. split; [reflexivity|].
  cbn. split; [apply wh_of_waves_stored|]. auto.
Qed.
Lemma all_waves_length (t x tau : list NX) ws : all_waves t x tau = Ok ws -> (length ws <= length tau)%nat.
Proof.
  revert ws; induction tau as [|a tau IH]; intros ws H; cbn in H; [apply Ok_inj in H; subst; cbn; lia|].
  destruct tau as [|b tau]; [apply Ok_inj in H; subst; cbn; lia|].
  apply bind_inv in H as (w & _ & H). apply bind_inv in H as (ws' & H' & H). apply Ok_inj in H. subst ws.
  apply IH in H'. cbn [length] in *. lia.
Qed.
Lemma params_length (tc : arr NX) (t x : arraylike NX) ws :
  determine_params_individual_waves (Arr tc) t x = Ok ws -> (length ws <= length (data tc))%nat.
Proof.
  unfold determine_params_individual_waves. cbn [convert_to_array_type]. destruct (Nat.eqb _ 0).
  - intros H. apply Ok_inj in H. subst. cbn. lia.
  - destruct (negb _); [discriminate|]. destruct (negb _); [discriminate|]. destruct (negb _); [discriminate|].
    intros H. apply bind_inv in H as (tau & Ht & H). apply bind_inv in H as (t' & _ & H). apply bind_inv in H as (x' & _ & H).
    destruct (negb _); [discriminate|]. apply all_waves_length in H.
    unfold as_list in Ht. destruct (shape tc) as [|? [|? ?]]; try discriminate. apply Ok_inj in Ht. subst tau. exact H.
Qed.
(** the crossing times the object keeps: the start of every kept wave, then the crossings beyond the last wave *)
Theorem C17_stored_crossings (s : series NX) (typeCross : string) (fcutoff m : NX)
    (n : Z) (tc : arr NX) (all : list (wave NX)) :
  series_crossings (se_t s) (se_x s) typeCross fcutoff = Ok (n, tc) ->
  determine_params_individual_waves (Arr tc) (Arr (vec (se_t s))) (Arr (vec (se_x s))) = Ok all ->
  se_tCross (fst (series_determine s typeCross fcutoff m))
  = map fst (filter (fun q => negb (below m (snd q))) (combine (data tc) all)) ++ skipn (length all) (data tc).
Proof.
  intros Hc Hw. assert (Hl := params_length _ _ _ _ Hw).
  unfold series_determine, individual_waves. rewrite Hc, bind_Ok, Hw, bind_Ok. cbn [fst se_tCross].
  change (fun w => nltb (w_h w) m) with (below m).
  unfold delete_idx. assert (K : forall i, existsb (Nat.eqb i) (where_ (below m) all) = (Nat.ltb i (length all) && below m (nth i all dwave))%bool).
  { intros i. apply eq_true_iff_eq. rewrite existsb_exists, andb_true_iff, Nat.ltb_lt. split.
    - intros (j & Hj & Ej). apply Nat.eqb_eq in Ej. subst j. apply (where_In (below m) all i dwave) in Hj. exact Hj.
    - intros H. exists i. split; [|apply Nat.eqb_refl]. apply (where_In (below m) all i dwave). exact H. }
  generalize (data tc) Hl. clear - K. intros l Hl.
  assert (G : forall (ws : list (wave NX)) (l : list NX) k, (length ws <= length l)%nat ->
    (forall i, existsb (Nat.eqb (k + i)) (where_ (below m) all) = (Nat.ltb i (length ws) && below m (nth i ws dwave))%bool) ->
    map snd (filter (fun q => negb (existsb (Nat.eqb (fst q)) (where_ (below m) all))) (combine (seq k (length l)) l))
    = map fst (filter (fun q => negb (below m (snd q))) (combine l ws)) ++ skipn (length ws) l).
  { clear. induction ws as [|w ws IH]; intros l k Hl K.
    - cbn [skipn length]. replace (combine l (@nil (wave NX))) with (@nil (NX * wave NX)) by (destruct l; reflexivity). cbn [filter map app].
      revert k K Hl. induction l as [|a l IHl]; intros k K Hl; [reflexivity|]. cbn [length seq combine filter fst].
      assert (K0 := K 0%nat). rewrite Nat.add_0_r in K0. rewrite K0. cbn. f_equal. apply IHl; [|cbn; lia].
      intros i. replace (S k + i)%nat with (k + S i)%nat by lia. apply (K (S i)).
    - destruct l as [|a l]; [cbn in Hl; lia|]. cbn [length seq combine filter fst snd skipn].
      assert (K0 := K 0%nat). rewrite Nat.add_0_r in K0. rewrite K0. cbn [length Nat.ltb Nat.leb andb nth].
      assert (E := IH l (S k) (le_S_n _ _ Hl)).
      assert (K1 : forall i, existsb (Nat.eqb (S k + i)) (where_ (below m) all) = (Nat.ltb i (length ws) && below m (nth i ws dwave))%bool).
      { intros i. replace (S k + i)%nat with (k + S i)%nat by lia. exact (K (S i)). }
      specialize (E K1). destruct (below m w); cbn [negb map fst snd app]; rewrite E; reflexivity. }
  apply G; auto.
Qed.
(** when the analysis of the crossings raises, so does the method and the object keeps its waves *)
Theorem C17_failure_keeps_object (s : series NX) (typeCross : string) (fcutoff m : NX) (e : err) :
  snd (series_determine s typeCross fcutoff m) = Raise e -> fst (series_determine s typeCross fcutoff m) = s.
Proof.
  unfold series_determine. destruct (individual_waves _ _ _ _ _) as [[[ws tcs] tall]|e']; [discriminate|reflexivity].
Qed.

(** the analysis of a finite signal on a uniform axis, all settings but fcutoff *)
Theorem C17_uniform (t0 dt : R) (x : list R) (s : series NX) (typeCross : string) (d : direction) (m : R) :
  names typeCross d -> 0 < dt -> (2 <= length x)%nat ->
  se_t s = F (axis t0 dt (length x)) -> se_x s = F x ->
  exists all tc s' kept,
    determine_zero_crossing (Arr (vec (se_t s))) (Arr (vec (se_x s))) typeCross = Ok (Z.of_nat (length all), tc)
    /\ determine_params_individual_waves (Arr tc) (Arr (vec (se_t s))) (Arr (vec (se_x s))) = Ok all
    /\ series_determine s typeCross n0 (Fin m) = (s', Ok (kept, tc))
    /\ stored_waves (se_wh s') kept
    /\ kept = filter (fun w => match w_h w with Fin h => Rleb m h | _ => false end) all
    /\ (m <= 0 -> kept = all).
Proof.
  intros Hn Hdt H2 Et Ex.
  destruct (C13_analysis_never_fails t0 dt x typeCross d Hn Hdt H2) as (nw & tc & all & E1 & E2 & Ln & Hall).
  cbn zeta in *. subst nw. exists all, tc.
  assert (Hc : series_crossings (se_t s) (se_x s) typeCross n0 = Ok (Z.of_nat (length all), tc)).
  { unfold series_crossings. rewrite fin_0, fin_eqb, Reqb_true by auto. cbn [negb]. rewrite bind_Ok.
    rewrite <- fin_0, map_sub0, Et, Ex. exact E1. }
  rewrite Et, Ex in *.
  destruct (C17_minimum_wave s typeCross n0 (Fin m) (Z.of_nat (length all)) tc all) as (s' & kept & D & K & St & _).
  { rewrite Et, Ex. exact Hc. }
  { rewrite Et, Ex. exact E2. }
  exists s', kept. split; [exact E1|]. split; [exact E2|]. split; [exact D|]. split; [exact St|].
  assert (K' : kept = filter (fun w => match w_h w with Fin h => Rleb m h | _ => false end) all).
  { rewrite K. apply filter_ext_in. intros w Hw. destruct (Hall w Hw) as (h & T & a & b & c & e & -> & _).
    unfold below. cbn [w_h]. rewrite fin_ltb. destruct (Rltb_spec h m), (Rleb_spec m h); auto; lra. }
  split; [exact K'|]. intros Hm. rewrite K'.
  assert (G : forall l, (forall w, In w l -> In w all) ->
     filter (fun w => match w_h w with Fin h => Rleb m h | _ => false end) l = l).
  { induction l as [|w l IH]; intros Hl; [reflexivity|]. cbn [filter].
    destruct (Hall w (Hl w (or_introl eq_refl))) as (h & T & a & b & c & e & -> & Hh & _). cbn [w_h].
    rewrite Rleb_true by lra. f_equal. apply IH. intros w Hw. apply Hl. right. exact Hw. }
  apply G. auto.
Qed.
Example C17_witness : names "up" Up /\ 0 < 0.5 /\ (2 <= length ([1; -1; 1]%R : list R))%nat.
Proof. split; [reflexivity|]. split; [lra|cbn; lia]. Qed.

(** ** C16 Construction of a Series *)

Theorem C16_length_mismatch_rejected (lt lx : list NX) (t x : arraylike NX) :
  lt <> [] -> lx <> [] -> holds_vector lt t -> holds_vector lx x -> length lt <> length lx ->
  series_init t x = Raise AssertionError.
Proof.
  intros N1 N2 H1 H2 D. destruct (hv_convert lt t N1 H1) as (k1 & _ & E1).
  destruct (hv_convert lx x N2 H2) as (k2 & _ & E2). unfold series_init. rewrite E1, E2. cbn [fst].
  destruct (Nat.eqb_spec (length lt) (length lx)); [contradiction|]. reflexivity.
Qed.

(** the mean and the variance of the time steps decide *)
Theorem C16_axis_check (t x : list R) :
  (2 <= length t)%nat -> length x = length t ->
  ~ (Rvar (Rdiff t) < Rmean (Rdiff t) / 100) ->
  series_init (Arr (vec (F t))) (Arr (vec (F x))) = Raise AssertionError.
Proof.
  intros H2 Hl H. unfold series_init. rewrite !vec_convert. cbn [fst]. rewrite !F_length, Hl, Nat.eqb_refl. cbn [negb].
  rewrite as_list_vec, bind_Ok, ndiff_F.
  assert (Hne : Rdiff t <> []) by (intros E; apply (f_equal (@length R)) in E; rewrite Rdiff_length in E; cbn in E; lia).
  rewrite nvar_F by auto.
  rewrite (F_map (fun d => d / 100)) by (intros; rewrite fin_ofZ, fin_div by lra; reflexivity).
  rewrite nmean_F by (intros E; apply map_eq_nil in E; contradiction). rewrite fin_ltb.
  assert (Rmean (map (fun d => d / 100) (Rdiff t)) = Rmean (Rdiff t) / 100).
  { unfold Rmean. rewrite map_length. assert (forall l, Rsum (map (fun d => d / 100) l) = Rsum l / 100) as ->.
    { induction l; unfold Rsum in *; cbn; lra. }
    field. apply not_0_INR. rewrite Rdiff_length. lia. }
  rewrite Rltb_false by lra. reflexivity.
Qed.

Lemma Rsum_Rdiff t : (1 <= length t)%nat -> Rsum (Rdiff t) = nth (length t - 1) t 0 - nth 0 t 0.
Proof.
  induction t as [|a [|b t] IH]; intros H; cbn [length] in H; [lia|cbn; unfold Rsum; cbn; lra|].
  change (Rdiff (a :: b :: t)) with ((b - a) :: Rdiff (b :: t)). rewrite Rsum_cons, IH by (cbn; lia).
  cbn [length nth]. replace (S (S (length t)) - 1)%nat with (S (S (length t) - 1)) by lia. cbn [nth]. lra.
Qed.
Lemma Rsum_nonneg l : (forall x, In x l -> 0 <= x) -> 0 <= Rsum l.
Proof.
  induction l as [|a l IH]; intros H; [unfold Rsum; cbn; lra|]. rewrite Rsum_cons.
  assert (0 <= a) by (apply H; left; auto). assert (0 <= Rsum l) by (apply IH; intros; apply H; right; auto). lra.
Qed.
Lemma Rmean_nonneg l : (forall x, In x l -> 0 <= x) -> 0 <= Rmean l.
Proof.
  intros H. unfold Rmean. apply Rsum_nonneg in H. destruct l as [|a l]; [unfold Rsum; cbn; unfold Rdiv; lra|].
  assert (0 < INR (length (a :: l))) by (apply lt_0_INR; cbn; lia).
  apply Rmult_le_pos; [auto|]. left. apply Rinv_0_lt_compat. auto.
Qed.
Lemma Rvar_nonneg l : 0 <= Rvar l.
Proof. apply Rmean_nonneg. intros x H. apply in_map_iff in H as (y & <- & _). apply Rle_0_sqr. Qed.

(** an axis that does not end later than it starts is rejected *)
Theorem C16_not_advancing_rejected (t x : list R) :
  (2 <= length t)%nat -> length x = length t ->
  nth (length t - 1) t 0 <= nth 0 t 0 ->
  series_init (Arr (vec (F t))) (Arr (vec (F x))) = Raise AssertionError.
Proof.
  intros H2 Hl H. apply C16_axis_check; auto. assert (V := Rvar_nonneg (Rdiff t)).
  assert (Rmean (Rdiff t) <= 0); [|lra].
  unfold Rmean. rewrite Rsum_Rdiff by lia.
  assert (0 < INR (length (Rdiff t))) by (apply lt_0_INR; rewrite Rdiff_length; lia).
  apply Rmult_le_reg_r with (INR (length (Rdiff t))); auto. unfold Rdiv. rewrite Rmult_assoc, Rinv_l; lra.
Qed.
(** a single sample, or none, is rejected: there is no time step *)
Theorem C16_single_sample_rejected (t x : list NX) :
  (length t <= 1)%nat -> length x = length t ->
  series_init (Arr (vec t)) (Arr (vec x)) = Raise AssertionError.
Proof.
  intros H Hl. unfold series_init. rewrite !vec_convert. cbn [fst]. rewrite Hl, Nat.eqb_refl. cbn [negb].
  rewrite as_list_vec, bind_Ok. assert (ndiff t = []) as ->.
  { destruct t as [|a [|b t]]; auto. cbn in H; lia. }
  assert (E : nvar (N:=NX) [] = NaN).
  { unfold nvar, nmean, nsum. cbn [nsumf NX map length fold_right]. rewrite fin_ofnat. cbn.
    unfold xinf_times. destruct (Req_EM_T 0 0); [|lra].
    destruct (Rlt_dec 0 0); [lra|]. reflexivity. }
  rewrite E. reflexivity.
Qed.

Lemma axis_Rdiff t0 dt n : Rdiff (axis t0 dt n) = repeat dt (n - 1).
Proof.
  apply (nth_ext' _ _ 0); [rewrite Rdiff_length, axis_length, repeat_length; auto|].
  intros i Hi. rewrite Rdiff_length, axis_length in Hi. rewrite Rdiff_nth by (rewrite axis_length; lia).
  rewrite !axis_nth by lia. rewrite S_INR.
  assert (forall m k, (k < m)%nat -> nth k (repeat dt m) 0 = dt) as ->; [|lra|lia].
  induction m; intros [|k] Hk; cbn; try lia; auto. apply IHm. lia.
Qed.
Lemma Rsum_repeat c n : Rsum (repeat c n) = INR n * c.
Proof. induction n; [unfold Rsum; cbn; lra|]. cbn [repeat]. rewrite Rsum_cons, IHn, S_INR. lra. Qed.
Lemma Rmean_repeat c n : (0 < n)%nat -> Rmean (repeat c n) = c.
Proof.
  intros. unfold Rmean. rewrite Rsum_repeat, repeat_length. field. apply not_0_INR. lia.
Qed.
Lemma Rvar_repeat c n : (0 < n)%nat -> Rvar (repeat c n) = 0.
Proof.
  intros H. unfold Rvar. rewrite Rmean_repeat by auto.
  replace (map (fun x => (x - c) * (x - c)) (repeat c n)) with (repeat 0 n).
  - apply Rmean_repeat; auto.
  - clear H. induction n; [reflexivity|]. cbn. rewrite <- IHn. f_equal. lra.
Qed.

(** a uniform, increasing axis is accepted: the object holds the samples, the step, and the waves of the
    down-crossing analysis of the signal *)
Theorem C16_uniform_accepted (t0 dt : R) (x : list R) (at_ ax : arraylike NX) :
  0 < dt -> (2 <= length x)%nat ->
  let t := F (axis t0 dt (length x)) in
  holds_vector t at_ -> holds_vector (F x) ax ->
  exists s tc ws,
    series_init at_ ax = Ok s
    /\ se_t s = t /\ se_x s = F x /\ se_nt s = length x /\ se_dt s = Fin dt
    /\ determine_zero_crossing (Arr (vec t)) (Arr (vec (F x))) "down" = Ok (Z.of_nat (length ws), tc)
    /\ determine_params_individual_waves (Arr tc) (Arr (vec t)) (Arr (vec (F x))) = Ok ws
    /\ stored_waves (se_wh s) ws
    /\ se_tCross s = data tc.
Proof.
  intros Hdt H2 t Ht Hx.
  assert (Nx : F x <> []) by (destruct x; [cbn in H2; lia|discriminate]).
  assert (Lt : length t = length x) by (unfold t; rewrite F_length; apply axis_length).
  assert (Nt : t <> []) by (intros E; rewrite E in Lt; cbn in Lt; lia).
  destruct (hv_convert t at_ Nt Ht) as (k1 & _ & E1). destruct (hv_convert _ ax Nx Hx) as (k2 & _ & E2).
  destruct (C13_analysis_never_fails t0 dt x "down" Down eq_refl Hdt H2) as (nw & tc & ws & Z1 & W1 & Ln & Hall).
  cbn zeta in *. subst nw. fold t in Z1, W1.
  unfold series_init. rewrite E1, E2. cbn [fst]. rewrite F_length, Lt, Nat.eqb_refl. cbn [negb].
  rewrite as_list_vec, bind_Ok.
  assert (Ed : ndiff (N:=NX) t = F (repeat dt (length x - 1))) by (unfold t; rewrite ndiff_F, axis_Rdiff; reflexivity).
  rewrite Ed. assert (Hn1 : (0 < length x - 1)%nat) by lia.
  assert (Nr : forall c, repeat c (length x - 1) <> ([] : list R)) by (intros c E; apply (f_equal (@length R)) in E; rewrite repeat_length in E; cbn in E; lia).
  rewrite nvar_F, Rvar_repeat by auto.
  rewrite (F_map (fun d => d / 100)) by (intros; rewrite fin_ofZ, fin_div by lra; reflexivity).
  assert (Em : map (fun d => d / 100) (repeat dt (length x - 1)) = repeat (dt / 100) (length x - 1)).
  { generalize (length x - 1)%nat. induction n; [reflexivity|]. cbn. rewrite IHn. reflexivity. }
  rewrite Em, nmean_F, Rmean_repeat, fin_ltb by auto. rewrite Rltb_true by lra. cbn [negb].
  rewrite as_list_vec, bind_Ok, nmean_F, Rmean_repeat by auto.
  unfold individual_waves, series_crossings. rewrite fin_0, fin_eqb, Reqb_true by auto. cbn [negb]. rewrite bind_Ok.
  rewrite <- fin_0, map_sub0, Z1, bind_Ok, W1, bind_Ok.
  assert (Ew : where_ (fun w => nltb (n:=NX) (w_h w) n0) ws = []).
  { apply (where_none _ _ dwave). intros i Hi.
    destruct (Hall (nth i ws dwave) (nth_In _ _ Hi)) as (h & T & a & b & c & e & -> & Hh & _).
    cbn [w_h]. rewrite fin_0, fin_ltb. apply Rltb_false. lra. }
  rewrite Ew, !delete_nil, bind_Ok.
  eexists _, tc, ws. split; [reflexivity|]. cbn [se_t se_x se_nt se_dt se_wh se_tCross].
  split; [reflexivity|]. split; [reflexivity|]. split; [exact Lt|]. split; [reflexivity|].
  split; [reflexivity|]. split; [exact W1|]. split; [apply wh_of_waves_stored|reflexivity].
Qed.
Example C16_witness : 0 < 0.1 /\ (2 <= length ([0.3; -1; 2]%R : list R))%nat
  /\ holds_vector (F [0.3; -1; 2]) (Arr (vec (F [0.3; -1; 2]))).
Proof. split; [lra|]. split; [cbn; lia|constructor]. Qed.

(** "axes that are not increasing are rejected" is false: the check compares the variance of the steps
    (unit s^2) with a hundredth of their mean (unit s), so a jumble of milliseconds passes *)
Theorem C16_non_increasing_rejected_refuted :
  ~ (forall t x : list R, (2 <= length t)%nat -> length x = length t -> ~ increasing t ->
       exists e, series_init (Arr (vec (F t))) (Arr (vec (F x))) = Raise e).
Proof.
  intros H. destruct (H [0; 0.001; 0.0008] [1; 1; 1]) as (e & E); [cbn; lia|reflexivity| |].
  { intros I. specialize (I 1%nat 2%nat ltac:(cbn; lia)). cbn in I. lra. }
  unfold series_init in E. rewrite !vec_convert in E. cbn [fst] in E. rewrite !F_length in E.
  cbn [length Nat.eqb] in E.
  cbn [negb] in E. rewrite as_list_vec, bind_Ok, ndiff_F in E.
  change (Rdiff [0; 0.001; 0.0008]) with [0.001 - 0; 0.0008 - 0.001] in E.
  rewrite nvar_F in E by discriminate.
  rewrite (F_map (fun d => d / 100)) in E by (intros; rewrite fin_ofZ, fin_div by lra; reflexivity).
  rewrite nmean_F in E by discriminate. rewrite fin_ltb in E.
  rewrite Rltb_true in E; [|unfold Rvar, Rmean, Rsum; cbn; lra]. cbn [negb] in E.
  rewrite as_list_vec, bind_Ok in E.
  unfold individual_waves, series_crossings in E. rewrite fin_0, fin_eqb, Reqb_true in E by auto. cbn [negb] in E.
  rewrite bind_Ok, <- fin_0, map_sub0 in E.
  destruct (zero_crossing_F [0; 0.001; 0.0008] [1; 1; 1] "down" Down eq_refl eq_refl ltac:(cbn; lia)) as (is & Hc & Ez).
  assert (is = []).
  { destruct is as [|i is]; auto. exfalso. destruct Hc as [_ Hc]. destruct (proj1 (Hc i) (or_introl eq_refl)) as (L & P & Q).
    destruct i as [|[|i]]; cbn in *; try lra; lia. }
  subst is. cbn zeta in Ez. cbn [map length] in Ez.
  change (vec (F [0; 0.001; 0.0008])) with (vec (A:=NX) (F [0; 0.001; 0.0008])) in E.
  rewrite Ez, bind_Ok in E. cbn in E. discriminate.
Qed.

(** ** C18 A Series without waves *)

(** the signal has at most one down-crossing *)
Definition no_down_waves (x : list R) : Prop :=
  forall i j, Rcrosses Down x i -> Rcrosses Down x j -> i = j.

Theorem C18_no_waves_raises (argsort : list NX -> list nat) (t0 dt : R) (x : list R) (p : NX) :
  0 < dt -> (2 <= length x)%nat -> no_down_waves x ->
  exists s, series_init (Arr (vec (F (axis t0 dt (length x))))) (Arr (vec (F x))) = Ok s
    /\ wh_n (se_wh s) = 0%nat
    /\ snd (wh_Hs argsort (se_wh s)) = Raise ValueError
    /\ snd (wh_highest argsort p (se_wh s)) = Raise ValueError
    /\ snd (wh_exceedance argsort p (se_wh s)) = Raise ValueError
    /\ snd (wh_H2p_Rayleigh argsort (se_wh s)) = Raise ValueError
    /\ snd (wh_Hmax (se_wh s)) = Raise ValueError
    /\ snd (wh_Hrms (se_wh s)) = Ok NaN.
Proof.
  intros Hdt H2 Hno.
  destruct (C16_uniform_accepted t0 dt x _ _ Hdt H2 (hv_flat _) (hv_flat _))
    as (s & tc & ws & E & _ & _ & _ & _ & Z1 & W1 & (S1 & S2 & S3) & _).
  exists s. split; [exact E|].
  assert (Hws : ws = []).
  { destruct (C06_exactly_the_crossings (F (axis t0 dt (length x))) (F x) "down" Down eq_refl) as (is & tc' & As & Is & Z2 & _).
    { rewrite !F_length. apply axis_length. }
    { rewrite F_length. auto. }
    assert (Zc : Z.of_nat (length ws) = Z.of_nat (length is - 1)).
    { change (F (axis t0 dt (length x))) with (F (axis t0 dt (length x)) : list NX) in Z1. rewrite Z2 in Z1.
      apply Ok_inj in Z1. injection Z1 as Zc _. auto. }
    assert (length is <= 1)%nat.
    { destruct is as [|i [|j is]]; cbn; try lia. exfalso.
      assert (i < j)%nat by (apply (As 0%nat 1%nat); cbn; lia).
      assert (C : forall k, In k (i :: j :: is) -> Rcrosses Down x k).
      { intros k Hk. apply Is in Hk. destruct Hk as (L & P & Q). rewrite F_length in L. split; [auto|].
        rewrite !F_nth_lt in P, Q by lia. auto. }
      specialize (Hno i j (C i (or_introl eq_refl)) (C j (or_intror (or_introl eq_refl)))). lia. }
    destruct ws; auto. cbn in Zc. lia. }
  subst ws. cbn [map length] in *. split; [exact S3|].
  assert (Es : forall A (k : unit -> wh_meth A), wbind (wh_sort argsort) k (se_wh s) = (se_wh s, Raise ValueError)).
  { intros A k. unfold wbind, wh_sort, sort_wave_params. rewrite S1, S2. reflexivity. }
  assert (Eh : forall q, wh_highest argsort q (se_wh s) = (se_wh s, Raise ValueError)) by (intros; apply Es).
  split; [unfold wh_Hs; rewrite Eh; reflexivity|]. split; [rewrite Eh; reflexivity|].
  split; [unfold wh_exceedance; rewrite Es; reflexivity|].
  split; [unfold wh_H2p_Rayleigh, wbind, wh_Hs; rewrite Eh; reflexivity|].
  unfold wh_Hmax, wh_Hrms. rewrite S1. split; [reflexivity|]. cbn [snd data vec map].
  unfold nmean, nsum. cbn [nsumf NX map length fold_right]. rewrite fin_ofnat. cbn.
  unfold xinf_times. destruct (Req_EM_T 0 0); [|lra]. destruct (Rlt_dec 0 0); [lra|]. reflexivity.
Qed.
Lemma no_waves_const n c : 0 < c -> no_down_waves (repeat c n).
Proof.
  intros Hc i j (Hi & _ & Hn) _. exfalso. rewrite repeat_length in Hi.
  assert (nth (S i) (repeat c n) 0 = c).
  { rewrite (nth_indep _ 0 c) by (rewrite repeat_length; auto). apply nth_repeat. }
  lra.
Qed.
Example C18_witness : no_down_waves [1; 1; 1].
Proof. apply (no_waves_const 3 1). lra. Qed.

(** "get_Hs of a Series without waves is (0, 0)" is false *)
Theorem C18_no_waves_zero_refuted :
  ~ (forall argsort t0 dt x s, 0 < dt -> (2 <= length x)%nat -> no_down_waves x ->
       series_init (Arr (vec (F (axis t0 dt (length x))))) (Arr (vec (F x))) = Ok s ->
       snd (wh_Hs argsort (se_wh s)) = Ok (Fin 0, Fin 0)).
Proof.
  intros H. destruct (C18_no_waves_raises stable_argsort 0 1 [1; 1; 1] (Fin 0)) as (s & E & _ & Hs & _);
    [lra|cbn; lia|exact C18_witness|].
  specialize (H stable_argsort 0 1 [1; 1; 1] s ltac:(lra) ltac:(cbn; lia) C18_witness E).
  rewrite H in Hs. discriminate.
Qed.

(** ** C19 Signal statistics *)

Lemma series_stat_F x : x <> [] -> nmean (N:=NX) (F x) = Fin (Rmean x) /\ nvar (N:=NX) (F x) = Fin (Rvar x).
Proof. intros; split; [apply nmean_F|apply nvar_F]; auto. Qed.

Theorem C19_order (s : series NX) (x : list R) : se_x s = F x -> x <> [] ->
  exists mn mx me va, series_min s = Ok (Fin mn) /\ series_max s = Ok (Fin mx)
    /\ series_mean s = Fin me /\ series_var s = Fin va
    /\ (forall v, In v x -> mn <= v <= mx) /\ In mn x /\ In mx x
    /\ mn <= me <= mx /\ me = Rmean x /\ 0 <= va /\ va = Rvar x.
Proof.
  intros E Hne. unfold series_min, series_max, series_mean, series_var. rewrite E, npmin_F, npmax_F.
  destruct (pymin_F x Hne) as (mn & -> & Imn & Mmn). destruct (pymax_F x Hne) as (mx & -> & Imx & Mmx).
  rewrite nmean_F, nvar_F by auto. exists mn, mx, (Rmean x), (Rvar x). repeat (split; [reflexivity|]).
  split; [intros v Hv; split; auto|]. split; [auto|]. split; [auto|].
  split; [apply Rmean_bounds; auto|]. split; [auto|]. split; [apply Rvar_nonneg|auto].
Qed.

(** skewness of a signal: third central moment over the 3/2-th power of the second *)
Definition Rm3 (x : list R) : R := Rmean (map (fun v => (v - Rmean x) ^ 3) x).
Lemma skewness_F x : x <> [] ->
  skewness (N:=NX) (F x) = if Rltb 0 (Rvar x) then Fin (Rm3 x / Rpower (Rvar x) (3/2)) else NaN.
Proof.
  intros Hne. unfold skewness. rewrite nmean_F by auto.
  rewrite (F_map (fun v => (v - Rmean x) ^ 3)) by (intros; rewrite fin_sub; apply npowZ_3).
  rewrite (F_map (fun v => (v - Rmean x) * (v - Rmean x))) by reflexivity.
  rewrite !nmean_F by (intros E; apply map_eq_nil in E; contradiction).
  change (Rmean (map (fun v => (v - Rmean x) * (v - Rmean x)) x)) with (Rvar x).
  rewrite fin_lit by lra. fold (Rm3 x). replace (15 / 10) with (3/2) by lra.
  assert (V := Rvar_nonneg x). destruct (Rltb_spec 0 (Rvar x)).
  - rewrite fin_pow by auto. rewrite fin_div; auto. unfold Rpower. assert (E := exp_pos (3/2 * ln (Rvar x))). lra.
  - assert (E0 : Rvar x = 0) by lra.
    assert (Hall : forall v, In v x -> v = Rmean x).
    { intros v Hv. unfold Rvar, Rmean at 1 in E0. rewrite map_length in E0.
      assert (Hn : 0 < INR (length x)) by (apply lt_0_INR; destruct x; [contradiction|cbn; lia]).
      assert (S0 : Rsum (map (fun y => (y - Rmean x) * (y - Rmean x)) x) = 0).
      { apply Rmult_eq_reg_r with (/ INR (length x)); [|apply Rinv_neq_0_compat; lra]. unfold Rdiv in E0. lra. }
      assert (G : forall l, Rsum (map (fun y => (y - Rmean x) * (y - Rmean x)) l) = 0 -> In v l -> v = Rmean x).
      { induction l as [|a l IH]; intros Hs Hi; [contradiction Hi|]; destruct Hi as [->|Hi]; cbn [map] in Hs; rewrite Rsum_cons in Hs;
        assert (0 <= Rsum (map (fun y => (y - Rmean x) * (y - Rmean x)) l))
          by (apply Rsum_nonneg; intros z Hz; apply in_map_iff in Hz as (y & <- & _); apply Rle_0_sqr).
        - assert (0 <= (v - Rmean x) * (v - Rmean x)) by apply Rle_0_sqr.
          assert ((v - Rmean x) * (v - Rmean x) = 0) by lra. nra.
        - assert (0 <= (a - Rmean x) * (a - Rmean x)) by apply Rle_0_sqr. apply IH; auto. lra. }
      apply (G x); auto. }
    assert (E3 : Rm3 x = 0).
    { unfold Rm3. assert (map (fun v => (v - Rmean x) ^ 3) x = repeat 0 (length x)) as ->.
      { assert (G : forall l, (forall v, In v l -> v = Rmean x) -> map (fun v => (v - Rmean x) ^ 3) l = repeat 0 (length l)).
        { induction l as [|a l IH]; intros Hl; [reflexivity|]. cbn [map length repeat]. rewrite IH by (intros; apply Hl; right; auto).
          f_equal. rewrite (Hl a (or_introl eq_refl)). ring. }
        apply G; auto. }
      apply Rmean_repeat. destruct x; [contradiction|cbn; lia]. }
    rewrite E0, E3. cbn. destruct (Req_EM_T (3/2) 0); [lra|]. destruct (Rlt_dec 0 0); [lra|].
    destruct (Req_EM_T 0 0); [|lra]. destruct (Rlt_dec 0 (3/2)); [|lra].
    destruct (Req_EM_T 0 0); [|lra]. unfold xinf_times. destruct (Rlt_dec 0 0); [lra|]. reflexivity.
Qed.
Theorem C19_skewness_value (x : list R) : x <> [] ->
  (0 < Rvar x -> skewness (N:=NX) (F x) = Fin (Rm3 x / Rpower (Rvar x) (3/2)))
  /\ (Rvar x = 0 -> skewness (N:=NX) (F x) = NaN).
Proof.
  intros Hne. rewrite skewness_F by auto. split; intros H; [rewrite Rltb_true by auto|rewrite Rltb_false by lra]; reflexivity.
Qed.

Lemma Rsum_affine a b l : Rsum (map (fun v => a * v + b) l) = a * Rsum l + INR (length l) * b.
Proof.
  induction l as [|v l IH]; [unfold Rsum; cbn; lra|]. cbn [map]. rewrite !Rsum_cons, IH. cbn [length]. rewrite S_INR. lra.
Qed.
Lemma Rmean_affine a b l : l <> [] -> Rmean (map (fun v => a * v + b) l) = a * Rmean l + b.
Proof.
  intros H. unfold Rmean. rewrite Rsum_affine, map_length. field. apply not_0_INR. destruct l; [contradiction|cbn; lia].
Qed.
Lemma Rmean_scale a l : Rmean (map (fun v => a * v) l) = a * Rmean l.
Proof.
  unfold Rmean. rewrite map_length. assert (Rsum (map (fun v => a * v) l) = a * Rsum l) as ->; [|unfold Rdiv; ring].
  induction l as [|v l IH]; [unfold Rsum; cbn; lra|]. cbn [map]. rewrite !Rsum_cons, IH. lra.
Qed.
Lemma Rvar_affine a b l : l <> [] -> Rvar (map (fun v => a * v + b) l) = a * a * Rvar l.
Proof.
  intros H. unfold Rvar. rewrite Rmean_affine by auto. rewrite map_map.
  rewrite <- (Rmean_scale (a * a)), map_map. f_equal. apply map_ext. intros; ring.
Qed.
Lemma Rm3_affine a b l : l <> [] -> Rm3 (map (fun v => a * v + b) l) = a ^ 3 * Rm3 l.
Proof.
  intros H. unfold Rm3. rewrite Rmean_affine by auto. rewrite map_map.
  rewrite <- (Rmean_scale (a ^ 3)), map_map. f_equal. apply map_ext. intros; ring.
Qed.
(** adding a constant and scaling by a positive factor leave the skewness unchanged (NaN for a constant
    signal), mirroring changes its sign *)
Theorem C19_skewness_invariance (x : list R) (a b : R) : x <> [] ->
  (0 < a -> skewness (N:=NX) (F (map (fun v => a * v + b) x)) = skewness (N:=NX) (F x))
  /\ skewness (N:=NX) (F (map (fun v => - v) x)) = nopp (n:=NX) (skewness (N:=NX) (F x)).
Proof.
  intros Hne. assert (Hne' : forall g : R -> R, map g x <> []) by (intros g E; apply map_eq_nil in E; contradiction).
  split.
  - intros Ha. rewrite !skewness_F by auto. rewrite Rvar_affine, Rm3_affine by auto.
    assert (V := Rvar_nonneg x). destruct (Rltb_spec 0 (Rvar x)) as [Hv|Hv].
    + rewrite Rltb_true by (apply Rmult_lt_0_compat; nra). f_equal.
      rewrite <- Rpower_mult_distr by nra.
      assert (Rpower (a * a) (3/2) = a ^ 3) as ->.
      { replace (a * a) with (Rpower a 2). 2:{ replace 2 with (INR 2) by (cbn; lra). rewrite Rpower_pow by auto. ring. }
        rewrite Rpower_mult. replace (2 * (3/2)) with (INR 3) by (cbn; lra). rewrite Rpower_pow; auto. }
      assert (0 < Rpower (Rvar x) (3/2)) by (unfold Rpower; apply exp_pos). field. split; nra.
    + rewrite Rltb_false; auto. assert (Rvar x = 0) by lra. rewrite H. lra.
  - rewrite (map_ext (fun v => - v) (fun v => (-1) * v + 0)) by (intros; ring).
    rewrite !skewness_F by auto. rewrite Rvar_affine, Rm3_affine by auto. replace (-1 * -1 * Rvar x) with (Rvar x) by ring.
    destruct (Rltb 0 (Rvar x)); [|reflexivity]. rewrite fin_opp. f_equal. field.
    unfold Rpower. assert (E := exp_pos (3/2 * ln (Rvar x))). lra.
Qed.
(** mean and variance under the same transformations *)
Theorem C19_mean_var_affine (x : list R) (a b : R) : x <> [] ->
  nmean (N:=NX) (F (map (fun v => a * v + b) x)) = Fin (a * Rmean x + b)
  /\ nvar (N:=NX) (F (map (fun v => a * v + b) x)) = Fin (a * a * Rvar x).
Proof.
  intros Hne. assert (map (fun v => a * v + b) x <> []) by (intros E; apply map_eq_nil in E; contradiction).
  rewrite nmean_F, nvar_F, Rmean_affine, Rvar_affine by auto. auto.
Qed.
Example C19_witness : 0 < Rvar [0; 1; 5] /\ Rm3 [0; 1; 5] = 6.
Proof. unfold Rvar, Rm3, Rmean, Rsum; cbn. lra. Qed.
