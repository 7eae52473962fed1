(** * Incident/reflected decomposition: input checks (C47) and the Series wrapper (C49) *)

From Coq Require Import ZArith Reals Lra Lia String List Bool.
From Coquelicot Require Import Complex.
From Verif Require Import Num XR Engine Cpx SpectralModel DisperModel DecompModel WaveModel SeriesModel Spec XRFacts DFT FourierSpec RSum EngineProps
  TimeProps TimeProps3 SeriesProps FourierFacts FourierProps DisperProps DecompSpec DecompProps DecompClaims.
Import ListNotations.
Open Scope R_scope.

(** ** Code that does not raise AssertionError *)
Definition na {A} (m : res A) : Prop := m <> Raise AssertionError.
Lemma na_Ok {A} (a : A) : na (Ok a). Proof. discriminate. Qed.
Lemma na_bind {A B} (m : res A) (k : A -> res B) : na m -> (forall a, na (k a)) -> na (bind m k).
Proof. intros Hm Hk. destruct m as [a|e]; cbn; [apply Hk|]. intros E. apply Hm. injection E as ->. reflexivity. Qed.
Lemma na_if {A} (c : bool) e (k : res A) : e <> AssertionError -> na k -> na (if c then Raise e else k).
Proof. intros He Hk. destruct c; auto. intros E. injection E as E. auto. Qed.
Lemma na_idx {A} (l : list A) i : na (idx l i).
Proof. unfold idx. destruct (nth_error l i); discriminate. Qed.
Lemma na_as_list {A} (x : arr A) : na (as_list x).
Proof. unfold as_list. destruct (shape x) as [|? [|? ?]]; discriminate. Qed.
Lemma na_mapM {A B} (k : A -> res B) l : (forall a, na (k a)) -> na (mapM k l).
Proof.
  intros H. induction l as [|a l IH]; [discriminate|]. cbn [mapM]. apply na_bind; auto. intros b. apply na_bind; auto. intros. discriminate.
Qed.
Lemma na_fit {A} n (l : list A) : na (fit n l).
Proof. unfold fit. destruct (Nat.eqb (length l) n); [discriminate|]. destruct l as [|? [|? ?]]; discriminate. Qed.
Ltac na_tac := repeat first
  [ apply na_Ok | apply na_idx | apply na_as_list | apply na_fit | apply na_if; [discriminate|] | apply na_bind; [|intros]
  | match goal with |- na (let '(_, _) := ?p in _) => destruct p end | discriminate ].
Lemma na_mono (l : list NX) : na (monotonic_increasing_constant_step l).
Proof. unfold monotonic_increasing_constant_step. na_tac. Qed.
Lemma na_nyq (t x : arraylike NX) : na (time2freq_nyquist t x).
Proof.
  unfold time2freq_nyquist, time2freq. repeat first [apply na_mono | na_tac].
Qed.
Lemma na_disper (w : arraylike NX) h g : na (disper w h g).
Proof. unfold disper. apply na_bind; [apply na_as_list|]. intros l. destruct (nisinf h); [discriminate|]. destruct (nltb h n0); discriminate. Qed.
Lemma na_unfold (f : arraylike NX) X o : na (unfold_spectrum f X o).
Proof. unfold unfold_spectrum. na_tac. Qed.
Lemma na_freq2time (X : arraylike (cpx NX)) : na (freq2time X).
Proof. unfold freq2time. na_tac. Qed.

(** ** C47 *)
(** what is checked *)
Definition checks (ntime nloc : nat) (t x w : list R) : Prop :=
  nloc = length x /\ nloc = length w /\ (2 <= nloc)%nat /\ ntime = length t
  /\ ((forall v, In v w -> 0 < v) \/ (forall v, In v w -> v <= 1)) /\ 1 < Rsum w /\ increasing x.
Lemma increasing_diff x : (forall v, In v (Rdiff x) -> 0 < v) -> increasing x.
Proof.
  intros H i j [Hij Hj]. induction Hij as [|j Hij IH].
  - assert (0 < nth i (Rdiff x) 0) by (apply H, nth_In; rewrite Rdiff_length; lia). rewrite Rdiff_nth in H0 by lia. lra.
  - assert (0 < nth j (Rdiff x) 0) by (apply H, nth_In; rewrite Rdiff_length; lia). rewrite Rdiff_nth in H0 by lia. specialize (IH ltac:(lia)). lra.
Qed.

Theorem C47_assertion_iff (ntime nloc : nat) (d : list NX) (t x w : list R) (h detLim : NX) :
  decompose_linear_ZS (N:=NX) (F t) (mkArr [ntime; nloc] d) h (F x) (F w) detLim = Raise AssertionError
  <-> ~ checks ntime nloc t x w.
Proof.
  unfold decompose_linear_ZS. cbn [shape]. rewrite !F_length.
  destruct (Nat.eqb_spec nloc (length x)) as [E1|E1]; cbn [negb]; [|split; [intros _ (C & _); auto|auto]].
  destruct (Nat.eqb_spec (length x) (length w)) as [E2|E2]; cbn [negb]; [|split; [intros _ (C1 & C2 & _); congruence|auto]].
  destruct (Nat.ltb_spec 1 nloc) as [E3|E3]; cbn [negb]; [|split; [intros _ (C1 & C2 & C3 & _); lia|auto]].
  destruct (Nat.eqb_spec ntime (length t)) as [E4|E4]; cbn [negb]; [|split; [intros _ (C1 & C2 & C3 & C4 & _); auto|auto]].
  assert (Wn : w <> []) by (intros ->; cbn in E2; lia). assert (Dn : Rdiff x <> []) by (intros E; apply (f_equal (@length R)) in E; rewrite Rdiff_length in E; cbn in E; lia).
  destruct (pymin_F w Wn) as (mn & -> & I1 & M1). destruct (pymax_F w Wn) as (mx & -> & I2 & M2). rewrite !bind_Ok.
  rewrite fin_0, fin_1, fin_ltb, fin_leb.
  assert (WI : Rltb 0 mn || Rleb mx 1 = true <-> (forall v, In v w -> 0 < v) \/ (forall v, In v w -> v <= 1)).
  { rewrite orb_true_iff. split; intros [H|H].
    - left. intros v Hv. apply M1 in Hv. destruct (Rltb_spec 0 mn); [lra|discriminate].
    - right. intros v Hv. apply M2 in Hv. destruct (Rleb_spec mx 1); [lra|discriminate].
    - left. apply Rltb_true. auto.
    - right. apply H in I2. destruct (Rleb_spec mx 1); auto; lra. }
  destruct (Rltb 0 mn || Rleb mx 1) eqn:B; cbn [negb].
  2:{ split; auto. intros _ (_ & _ & _ & _ & C & _). apply WI in C. discriminate. }
  cbv zeta. rewrite nsum_F, fin_ltb. destruct (Rltb_spec 1 (Rsum w)) as [E5|E5]; cbn [negb].
  2:{ split; auto. intros _ (_ & _ & _ & _ & _ & C & _). lra. }
  rewrite ndiff_F. destruct (pymin_F (Rdiff x) Dn) as (dm & -> & I3 & M3). rewrite bind_Ok, fin_ltb.
  destruct (Rltb_spec 0 dm) as [E6|E6]; cbn [negb].
  2:{ split; auto. intros _ (_ & _ & _ & _ & _ & _ & C). apply (Rdiff_pos x C) in I3. lra. }
  split.
  - match goal with |- ?m = _ -> _ => intros E; exfalso; cut (na m); [intros Q; apply Q, E|]; clear E end.
    apply na_bind; [apply na_idx|intros]. apply na_bind; [apply na_mapM; intros; apply na_nyq|intros].
    apply na_bind; [apply na_idx|intros [[f' X'] o']]. apply na_bind; [apply na_disper|intros].
    apply na_bind; [apply na_unfold|intros [? ?]]. apply na_bind; [apply na_unfold|intros [? ?]].
    apply na_bind; [apply na_freq2time|intros]. apply na_bind; [apply na_freq2time|intros]. apply na_Ok.
  - intros C. exfalso. apply C. unfold checks. repeat split; auto; try lia; [apply WI; auto|].
    apply increasing_diff. intros v Hv. apply M3 in Hv. lra.
Qed.
(** an array that is not two-dimensional *)
Theorem C47_not_2d (A : arr NX) (t x w : list NX) (h detLim : NX) : length (shape A) <> 2%nat ->
  decompose_linear_ZS (N:=NX) t A h x w detLim = Raise ValueError.
Proof. intros H. unfold decompose_linear_ZS. destruct (shape A) as [|a [|b [|c l]]]; try reflexivity. cbn in H. lia. Qed.
(** and with an accepted axis, positive depth and detLim >= 0, passing the checks is all it takes *)
Theorem C47_passing (d t x w : list R) (nloc : nat) (h detLim : R) : checks (length t) nloc t x w -> good_axis t ->
  length d = (length t * nloc)%nat -> 0 < h -> 0 <= detLim ->
  exists i r, decompose_linear_ZS (N:=NX) (F t) (mkArr [length t; nloc] (F d)) (Fin h) (F x) (F w) (Fin detLim) = Ok (F i, F r)
    /\ length i = length t /\ length r = length t.
Proof.
  intros (C1 & C2 & C3 & _ & C4 & C5 & C6) G Ld Hh HL. assert (H2 := proj1 G).
  set (sigs := map (fun j => map (fun i => nth (i * nloc + j) d 0) (seq 0 (length t))) (seq 0 nloc)).
  assert (Ls : length sigs = nloc) by (unfold sigs; rewrite map_length, seq_length; auto).
  assert (Sj : forall j, (j < nloc)%nat -> nth j sigs [] = map (fun i => nth (i * nloc + j) d 0) (seq 0 (length t))).
  { intros j Hj. unfold sigs. apply (map_seq_nth (fun j => map (fun i => nth (i * nloc + j) d 0) (seq 0 (length t)))). auto. }
  assert (EM : mkArr [length t; nloc] (F d) = matrix (length t) sigs).
  { unfold matrix. rewrite Ls. f_equal. f_equal. apply (nth_ext' _ _ 0).
    - rewrite Ld. assert (FM : forall l : list nat, length (flat_map (fun i => map (fun s => nth i s 0) sigs) l) = (length l * nloc)%nat).
      { induction l; [reflexivity|]. cbn [flat_map length]. rewrite app_length, map_length, IHl, Ls. lia. }
      rewrite FM, seq_length. reflexivity.
    - intros q Hq. rewrite Ld in Hq. assert (Hn : nloc <> 0%nat) by lia. rewrite (Nat.div_mod q nloc Hn). rewrite (Nat.mul_comm nloc).
      assert (Hr := Nat.mod_upper_bound q nloc Hn). assert (Hd : (q / nloc < length t)%nat) by (apply Nat.div_lt_upper_bound; lia).
      rewrite (flat_map_nth (seq 0 (length t)) _ nloc) by (auto; rewrite ?seq_length; auto; intros; rewrite map_length; auto).
      rewrite seq_nth by auto. cbn [Nat.add]. rewrite (nth_indep (map _ sigs) 0 (nth (q / nloc) [] 0)) by (rewrite map_length, Ls; auto).
      rewrite (map_nth (fun s => nth (q / nloc) s 0)). rewrite Sj by auto. symmetry. apply (map_seq_nth (fun i => nth (i * nloc + q mod nloc) d 0)). auto. }
  rewrite EM. assert (HA : accepted t sigs x w).
  { constructor; auto; try lia. intros s Hs. apply (In_nth _ _ []) in Hs. destruct Hs as (j & Hj & <-). rewrite Sj by lia. rewrite map_length, seq_length. auto. }
  rewrite decompose_F by auto. eexists _, _. split; [reflexivity|]. rewrite !back_length. auto.
Qed.
(** an axis that is not increasing with a constant step *)
Theorem C47_bad_axis (d : list NX) (t x w : list R) (nloc : nat) (h detLim : NX) : checks (length t) nloc t x w -> (2 <= length t)%nat -> ~ good_axis t ->
  decompose_linear_ZS (N:=NX) (F t) (mkArr [length t; nloc] d) h (F x) (F w) detLim = Raise ValueError.
Proof.
  intros C H2 G. assert (NA := proj1 (C47_assertion_iff (length t) nloc d t x w h detLim)).
  pose proof C as (C1 & C2 & C3 & _ & C4 & C5 & C6).
  assert (Wn : w <> []) by (intros ->; cbn in C2; lia). assert (Dn : Rdiff x <> []) by (intros E; apply (f_equal (@length R)) in E; rewrite Rdiff_length in E; cbn in E; lia).
  unfold decompose_linear_ZS in *. cbn [shape] in *. rewrite !F_length, <- C1, <- C2, !Nat.eqb_refl in *. cbn [negb] in *.
  replace (Nat.ltb 1 nloc) with true in * by (symmetry; apply Nat.ltb_lt; lia). cbn [negb] in *.
  destruct (pymin_F w Wn) as (mn & Emn & I1 & M1). destruct (pymax_F w Wn) as (mx & Emx & I2 & M2). rewrite Emn, Emx, !bind_Ok in *.
  destruct (negb (nltb (n:=NX) n0 (Fin mn) || nleb (n:=NX) (Fin mx) n1)); [exfalso; apply NA; auto|].
  cbv zeta in *. destruct (negb (nltb (n:=NX) n1 (nsum (F w)))); [exfalso; apply NA; auto|].
  rewrite ndiff_F in *. destruct (pymin_F (Rdiff x) Dn) as (dm & Edm & I3 & M3). rewrite Edm, bind_Ok in *.
  destruct (negb (nltb (n:=NX) n0 (Fin dm))); [exfalso; apply NA; auto|]. clear NA.
  rewrite idx_F by lia. rewrite bind_Ok. cbn [data]. destruct nloc as [|nl]; [lia|]. cbn [seq map mapM].
  set (c := column _ _ _ _ 0). assert (Lc : length c = length t) by (unfold c, column; rewrite map_length, seq_length; auto).
  assert (Nc : c <> []) by (intros E; rewrite E in Lc; cbn in Lc; lia).
  destruct (C20_bad_axis_rejected t c (Arr (vec (F t))) (Arr (vec c)) H2 G Nc (hv_flat _) (hv_flat _)) as (E & E' & _).
  first [rewrite E | rewrite E']. reflexivity.
Qed.
(** the documented restrictions "weights between 0 and 1" and "sum of the weights at least two" are not what is checked *)
Theorem C47_weight_range_refuted :
  (exists t x w nloc, checks (length t) nloc t x w /\ good_axis t /\ exists v, In v w /\ 1 < v)
  /\ (exists t x w nloc, checks (length t) nloc t x w /\ good_axis t /\ exists v, In v w /\ v < 0)
  /\ (exists t x w nloc, checks (length t) nloc t x w /\ good_axis t /\ Rsum w < 2).
Proof.
  assert (G : good_axis (axis 0 1 4)) by (apply axis_good; [lia|lra]).
  assert (I2 : increasing [0; 1]) by (intros i j H; cbn [length] in H; assert (i = 0%nat /\ j = 1%nat) as [-> ->] by lia; cbn; lra).
  assert (I3 : increasing [0; 1; 2]).
  { intros i j H. cbn [length] in H. assert (i = 0%nat /\ j = 1%nat \/ i = 0%nat /\ j = 2%nat \/ i = 1%nat /\ j = 2%nat) as [[-> ->]|[[-> ->]|[-> ->]]] by lia; cbn; lra. }
  split; [|split].
  - exists (axis 0 1 4), [0; 1], [5; 5], 2%nat. split; [|split; auto; exists 5; split; [left; auto|lra]].
    repeat split; auto; [left; intros v [<-|[<-|[]]]; lra|cbn; lra].
  - exists (axis 0 1 4), [0; 1; 2], [-1 / 2; 1; 1], 3%nat. split; [|split; auto; exists (-1 / 2); split; [left; auto|lra]].
    repeat split; auto; [right; intros v [<-|[<-|[<-|[]]]]; lra|cbn; lra].
  - exists (axis 0 1 4), [0; 1], [3 / 4; 3 / 4], 2%nat. split; [|split; auto; cbn; lra].
    repeat split; auto; [left; intros v [<-|[<-|[]]]; lra|cbn; lra].
Qed.
Example C47_witness : ~ checks 4 2 (axis 0 1 4) [1; 0] [1; 1] /\ checks 4 2 (axis 0 1 4) [0; 1] [1; 1].
Proof.
  split.
  - intros (_ & _ & _ & _ & _ & _ & C). specialize (C 0%nat 1%nat ltac:(cbn; lia)). cbn in C. lra.
  - repeat split; auto; [left; intros v [<-|[<-|[]]]; lra|cbn; lra|].
    intros i j H; cbn [length] in H; assert (i = 0%nat /\ j = 1%nat) as [-> ->] by lia; cbn; lra.
Qed.

(** ** C49 The Series wrapper *)
(** the series hold these signals, all with as many samples as there are times *)
Definition holds_signals (n : nat) (ss : list (series NX)) (sigs : list (list R)) : Prop :=
  map (fun s => se_x s) ss = map F sigs /\ forall s, In s sigs -> length s = n.

Lemma skipn_skipn' {A} : forall a b (l : list A), skipn a (skipn b l) = skipn (b + a) l.
Proof. intros a b. induction b; intros l; [reflexivity|]. destruct l; [destruct a; reflexivity|]. cbn. apply IHb. Qed.
Lemma stack_F n nloc : forall ss sigs i cols, holds_signals n ss sigs -> length cols = nloc -> (i + length ss <= nloc)%nat ->
  stack_columns n nloc i cols ss = Ok (firstn i cols ++ map F sigs ++ skipn (i + length ss) cols).
Proof.
  induction ss as [|s ss IH]; intros sigs i cols [H1 H2] Lc Hi; destruct sigs as [|g sigs]; try discriminate.
  - cbn [stack_columns map app length]. rewrite Nat.add_0_r, firstn_skipn. reflexivity.
  - cbn [map] in H1. injection H1 as E1 E2. cbn [length] in Hi. cbn [stack_columns].
    replace (Nat.ltb i nloc) with true by (symmetry; apply Nat.ltb_lt; lia). cbn [negb].
    assert (Lg : length (F g) = n) by (rewrite F_length; apply H2; left; auto).
    unfold fit. rewrite E1, Lg, Nat.eqb_refl, bind_Ok.
    assert (Lf : length (firstn i cols) = i) by (rewrite firstn_length; lia).
    rewrite (IH sigs).
    + f_equal. rewrite firstn_app, Lf. replace (S i - i)%nat with 1%nat by lia. rewrite firstn_all2 by lia. cbn [firstn].
      rewrite <- app_assoc. cbn [app map]. f_equal. f_equal. f_equal.
      rewrite skipn_app, Lf. rewrite skipn_all2 by (rewrite Lf; lia). cbn [app]. replace (S i + length ss - i)%nat with (S (length ss)) by lia.
      rewrite skipn_cons, skipn_skipn'. f_equal. cbn [length]. lia.
    + split; auto. intros; apply H2; right; auto.
    + rewrite app_length, Lf. cbn [length]. rewrite skipn_length. lia.
    + lia.
Qed.
Lemma skipn_repeat {A} (a : A) : forall k n, skipn k (repeat a n) = repeat a (n - k).
Proof. induction k; intros n; [rewrite Nat.sub_0_r; reflexivity|]. destruct n; [reflexivity|]. cbn. apply IHk. Qed.
Lemma rows_matrix n sigs : mkArr [n; length sigs] (rows_of (N:=NX) n (map F sigs)) = matrix n sigs.
Proof.
  unfold matrix, rows_of. f_equal. generalize (seq 0 n). induction l as [|i l IH]; [reflexivity|]. cbn [flat_map].
  unfold F in *. rewrite map_app, <- IH. f_equal. rewrite !map_map. apply map_ext. intros s. apply (map_nth Fin s 0 i).
Qed.

(** [k] gauges for which no series is given are taken to be flat *)
Theorem C49_same_as_core (ss : list (series NX)) (sigs : list (list R)) (t : list NX) (h : NX) (x w : list NX) (detLim : NX) :
  ss <> [] -> (forall s, hd_error ss = Some s -> se_t s = t) -> holds_signals (length t) ss sigs -> (length ss <= length x)%nat ->
  decompose_linear_ZS_series ss h x w detLim
  = let! (i, r) := decompose_linear_ZS (N:=NX) t (matrix (length t) (sigs ++ repeat (repeat 0 (length t)) (length x - length ss))) h x w detLim in
    let! si := series_init (Arr (vec t)) (Arr (vec i)) in
    let! sr := series_init (Arr (vec t)) (Arr (vec r)) in
    Ok (si, sr).
Proof.
  intros Hne Ht HS Hl. destruct ss as [|s0 ss]; [contradiction|]. unfold decompose_linear_ZS_series.
  rewrite (Ht s0 eq_refl). cbv zeta.
  rewrite (stack_F (length t) (length x) (s0 :: ss) sigs 0) by (auto; rewrite repeat_length; auto). rewrite bind_Ok. cbn [firstn app Nat.add].
  rewrite skipn_repeat. assert (Lss : length sigs = length (s0 :: ss)).
  { destruct HS as [E _]. apply (f_equal (@length _)) in E. rewrite !map_length in E. auto. }
  replace (map F sigs ++ repeat (repeat n0 (length t)) (length x - length (s0 :: ss)))
    with (map F (sigs ++ repeat (repeat 0 (length t)) (length x - length (s0 :: ss)))).
  - assert (Ll : length (sigs ++ repeat (repeat 0 (length t)) (length x - length (s0 :: ss))) = length x) by (rewrite app_length, repeat_length; lia).
    rewrite <- Ll at 1. rewrite rows_matrix. reflexivity.
  - rewrite map_app. f_equal. generalize (length x - length (s0 :: ss))%nat. induction n as [|n IH]; [reflexivity|].
    cbn [repeat map]. rewrite IH. f_equal. clear. induction (length t) as [|m IHm]; [reflexivity|]. cbn [repeat]. unfold F in *. cbn [map]. rewrite IHm. reflexivity.
Qed.
(** more series than gauges *)
Theorem C49_too_many (ss : list (series NX)) (sigs : list (list R)) (t : list NX) (h : NX) (x w : list NX) (detLim : NX) :
  (forall s, hd_error ss = Some s -> se_t s = t) -> holds_signals (length t) ss sigs -> (length x < length ss)%nat ->
  decompose_linear_ZS_series ss h x w detLim = Raise IndexError.
Proof.
  intros Ht [HS1 HS2] Hl. destruct ss as [|s0 ss]; [cbn in Hl; lia|]. unfold decompose_linear_ZS_series. rewrite (Ht s0 eq_refl). cbv zeta.
  assert (G : forall l sg i cols, map (fun s => se_x s) l = map F sg -> (forall s, In s sg -> length s = length t) -> (length x < i + length l)%nat ->
     (i <= length x)%nat -> stack_columns (length t) (length x) i cols l = Raise IndexError).
  { induction l as [|s l IH]; intros sg i cols E HL Hi Hi'; cbn [length] in Hi; [lia|]. destruct sg as [|g sg]; [discriminate|]. cbn [map] in E. injection E as E1 E2.
    cbn [stack_columns]. destruct (Nat.ltb_spec i (length x)) as [Q|Q]; cbn [negb]; [|reflexivity].
    unfold fit. rewrite E1, F_length, (HL g (or_introl eq_refl)), Nat.eqb_refl, bind_Ok. apply (IH sg); auto; try lia. intros; apply HL; right; auto. }
  rewrite (G _ sigs) by (auto; lia). reflexivity.
Qed.
Theorem C49_no_series (h : NX) (x w : list NX) (detLim : NX) :
  decompose_linear_ZS_series (N:=NX) [] h x w detLim = Raise UnboundLocalError.
Proof. reflexivity. Qed.
(** a series with another number of samples than the first (and more than one) *)
Theorem C49_length_mismatch (ss1 ss2 : list (series NX)) (sigs1 : list (list R)) (s : series NX) (t : list NX) (h : NX) (x w : list NX) (detLim : NX) :
  (forall s0, hd_error (ss1 ++ s :: ss2) = Some s0 -> se_t s0 = t) -> holds_signals (length t) ss1 sigs1 ->
  length (se_x s) <> length t -> length (se_x s) <> 1%nat -> (length ss1 < length x)%nat ->
  decompose_linear_ZS_series (ss1 ++ s :: ss2) h x w detLim = Raise ValueError.
Proof.
  intros Ht [HS1 HS2] Hs Hs1 Hl. unfold decompose_linear_ZS_series.
  destruct (ss1 ++ s :: ss2) as [|s0 ss] eqn:E; [destruct ss1; discriminate|]. rewrite (Ht s0 eq_refl). cbv zeta. rewrite <- E. clear E Ht.
  assert (G : forall l sg i cols, map (fun s => se_x s) l = map F sg -> (forall s, In s sg -> length s = length t) -> (i + length l < length x)%nat ->
     stack_columns (length t) (length x) i cols (l ++ s :: ss2) = Raise ValueError).
  { induction l as [|q l IH]; intros sg i cols E HL Hi; cbn [length] in Hi; destruct sg as [|g sg]; try discriminate; cbn [app stack_columns];
      (replace (Nat.ltb i (length x)) with true by (symmetry; apply Nat.ltb_lt; lia)); cbn [negb]; unfold fit.
    - destruct (Nat.eqb_spec (length (se_x s)) (length t)); [contradiction|]. destruct (se_x s) as [|? [|? ?]]; try reflexivity. exfalso. apply Hs1. reflexivity.
    - cbn [map] in E. injection E as E1 E2. rewrite E1, F_length, (HL g (or_introl eq_refl)), Nat.eqb_refl, bind_Ok.
      apply (IH sg); auto; try lia. intros; apply HL; right; auto. }
  rewrite (G _ sigs1) by (auto; lia). reflexivity.
Qed.
(** on a uniform axis the result is two Series with the decomposed signals on the same axis *)
Theorem C49_uniform (t0 dt : R) (ss : list (series NX)) (sigs : list (list R)) (x w : list R) (h detLim : R) :
  let t := axis t0 dt (length (hd [] sigs)) in
  (forall s, hd_error ss = Some s -> se_t s = F t) -> holds_signals (length t) ss sigs -> 0 < dt -> accepted t sigs x w -> 0 < h -> 0 <= detLim ->
  exists i r si sr,
    decompose_linear_ZS (N:=NX) (F t) (matrix (length t) sigs) (Fin h) (F x) (F w) (Fin detLim) = Ok (F i, F r)
    /\ decompose_linear_ZS_series ss (Fin h) (F x) (F w) (Fin detLim) = Ok (si, sr)
    /\ se_t si = F t /\ se_x si = F i /\ se_t sr = F t /\ se_x sr = F r.
Proof.
  intros t Ht HS Hdt HA Hh HL. assert (H2 := proj1 (acc_axis _ _ _ _ HA)).
  assert (Lss : length sigs = length ss). { destruct HS as [E _]. apply (f_equal (@length _)) in E. rewrite !map_length in E. auto. }
  assert (Lx : length ss = length x) by (rewrite (acc_x _ _ _ _ HA); auto).
  destruct (C46_mean_discarded t sigs x w h detLim HA Hh HL) as (i & r & E & Li & Lr & _).
  set (n := length (hd [] sigs)) in *. assert (Ln : length t = n) by apply axis_length.
  destruct (C16_uniform_accepted t0 dt i (Arr (vec (F t))) (Arr (vec (F i)))) as (si & tci & wsi & I1 & I2 & I3 & _); auto; try lia;
    [rewrite Li, Ln; apply hv_flat|apply hv_flat|].
  destruct (C16_uniform_accepted t0 dt r (Arr (vec (F t))) (Arr (vec (F r)))) as (sr & tcr & wsr & R1 & R2 & R3 & _); auto; try lia;
    [rewrite Lr, Ln; apply hv_flat|apply hv_flat|].
  rewrite Li, Ln in I2. rewrite Lr, Ln in R2.
  exists i, r, si, sr. split; [exact E|]. split; [|auto].
  rewrite (C49_same_as_core ss sigs (F t)); rewrite ?F_length; auto.
  - rewrite Lx, Nat.sub_diag. cbn [repeat]. rewrite app_nil_r, E, bind_Ok, I1, bind_Ok, R1. reflexivity.
  - intros ->. destruct HA. cbn in *. lia.
  - lia.
Qed.
(** "a number of series different from the number of gauges is rejected" is false: missing gauges count as flat signals *)
Theorem C49_too_few_rejected_refuted :
  ~ (forall (ss : list (series NX)) (x w : list R) (h detLim : R), (length ss < length x)%nat ->
       exists e, decompose_linear_ZS_series ss (Fin h) (F x) (F w) (Fin detLim) = Raise e).
Proof.
  intros H. set (t := axis 0 1 2). set (s1 := mkSeries (F t) (F [1; -1]) 2 (Fin 1 : NX) (wh_of_waves []) []).
  destruct (H [s1] [0; 1] [1; 1] 5 (1 / 8) ltac:(cbn; lia)) as (e & E).
  rewrite (C49_same_as_core [s1] [[1; -1]] (F t)) in E.
  2: discriminate. 2: intros s Q; injection Q as <-; reflexivity. 2: split; [reflexivity|intros s [<-|[]]; reflexivity]. 2: cbn; lia.
  assert (HA : accepted t [[1; -1]; [0; 0]] [0; 1] [1; 1]).
  { constructor; try (cbn; lia).
    - apply axis_good; [lia|lra].
    - intros s [<-|[<-|[]]]; reflexivity.
    - intros i j Hij. cbn [length] in Hij. assert (i = 0%nat /\ j = 1%nat) as [-> ->] by lia. cbn. lra.
    - left. intros v [<-|[<-|[]]]; lra.
    - cbn. lra. }
  destruct (C46_mean_discarded t _ _ _ 5 (1 / 8) HA ltac:(lra) ltac:(lra)) as (i & r & EE & Li & Lr & _).
  destruct (C16_uniform_accepted 0 1 i (Arr (vec (F t))) (Arr (vec (F i)))) as (si & tci & wsi & I1 & _); try lra; try (rewrite Li; cbn; lia);
    [rewrite Li; apply hv_flat|apply hv_flat|].
  destruct (C16_uniform_accepted 0 1 r (Arr (vec (F t))) (Arr (vec (F r)))) as (sr & tcr & wsr & R1 & _); try lra; try (rewrite Lr; cbn; lia);
    [rewrite Lr; apply hv_flat|apply hv_flat|].
  change (length (F t)) with (length t) in E. change ([[1; -1]] ++ repeat (repeat 0 (length t)) (length (F [0; 1]) - length [s1])) with [[1; -1]; [0; 0]] in E.
  rewrite EE, bind_Ok, I1, bind_Ok, R1 in E. discriminate.
Qed.
Example C49_witness : let t := axis 0 1 2 in
  holds_signals (length t) [mkSeries (F t) (F [1; -1]) 2 (Fin 1 : NX) (wh_of_waves []) []] [[1; -1]].
Proof. split; [reflexivity|intros s [<-|[]]; reflexivity]. Qed.
