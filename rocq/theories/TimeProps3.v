(** * Properties of core_time.py, continued: C12, C13 *)

From Coq Require Import Reals ZArith String List Bool Lra Lia Permutation.
From Verif Require Import Num XR Spec XRFacts Engine TimeModel TimeSpec EngineProps TimeProps TimeProps2.
Import ListNotations.
Open Scope R_scope.

(** Python max / min on finite values *)
Lemma fold_pymax_F l : forall a, exists m, fold_left (pymax2 (N:=NX)) (F l) (Fin a) = Fin m
   /\ In m (a :: l) /\ forall x, In x (a :: l) -> x <= m.
Proof.
  induction l as [|b l IH]; intros a; [exists a; split; [reflexivity|]; split; [left; auto|]; intros x [<-|[]]; lra|].
  cbn [F map fold_left]. unfold pymax2 at 2. rewrite fin_ltb. change (map Fin l) with (F l).
  destruct (Rltb_spec a b).
  - destruct (IH b) as (m & E & Hin & Hmax). exists m. split; [exact E|]. split; [right; auto|].
    intros x [<-|Hx]; [|auto]. specialize (Hmax b (or_introl eq_refl)). lra.
  - destruct (IH a) as (m & E & Hin & Hmax). exists m. split; [exact E|]. split.
    + destruct Hin; [left; auto|right; right; auto].
    + intros x [<-|[<-|Hx]]; [apply Hmax; left; auto| |apply Hmax; right; auto].
      specialize (Hmax a (or_introl eq_refl)). lra.
Qed.
Lemma fold_pymin_F l : forall a, exists m, fold_left (pymin2 (N:=NX)) (F l) (Fin a) = Fin m
   /\ In m (a :: l) /\ forall x, In x (a :: l) -> m <= x.
Proof.
  induction l as [|b l IH]; intros a; [exists a; split; [reflexivity|]; split; [left; auto|]; intros x [<-|[]]; lra|].
  cbn [F map fold_left]. unfold pymin2 at 2. rewrite fin_ltb. change (map Fin l) with (F l).
  destruct (Rltb_spec b a).
  - destruct (IH b) as (m & E & Hin & Hmax). exists m. split; [exact E|]. split; [right; auto|].
    intros x [<-|Hx]; [|auto]. specialize (Hmax b (or_introl eq_refl)). lra.
  - destruct (IH a) as (m & E & Hin & Hmax). exists m. split; [exact E|]. split.
    + destruct Hin; [left; auto|right; right; auto].
    + intros x [<-|[<-|Hx]]; [apply Hmax; left; auto| |apply Hmax; right; auto].
      specialize (Hmax a (or_introl eq_refl)). lra.
Qed.
Lemma pymax_F l : l <> [] -> exists m, pymax (N:=NX) (F l) = Ok (Fin m) /\ In m l /\ forall x, In x l -> x <= m.
Proof.
  destruct l as [|a l]; intros H; [contradiction|]. cbn [F map pymax]. change (map Fin l) with (F l).
  destruct (fold_pymax_F l a) as (m & -> & H1 & H2). eauto.
Qed.
Lemma pymin_F l : l <> [] -> exists m, pymin (N:=NX) (F l) = Ok (Fin m) /\ In m l /\ forall x, In x l -> m <= x.
Proof.
  destruct l as [|a l]; intros H; [contradiction|]. cbn [F map pymin]. change (map Fin l) with (F l).
  destruct (fold_pymin_F l a) as (m & -> & H1 & H2). eauto.
Qed.

(** first position of a value that occurs *)
Lemma where_eq_first l m : In m l ->
  exists i, idx (where_ (fun v => neqb (n:=NX) v (Fin m)) (F l)) 0 = Ok i /\ (i < length l)%nat /\ nth i l 0 = m
   /\ forall j, (j < i)%nat -> nth j l 0 <> m.
Proof.
  intros H. apply (In_nth _ _ 0) in H as (k & Hk & Ek).
  destruct (where_first (fun v => neqb (n:=NX) v (Fin m)) (F l) (Fin 0)) as (i & Ei & Hi & Pi & Fi).
  { exists k. rewrite F_length, F_nth, fin_eqb, Ek. split; [auto|]. apply Reqb_true; auto. }
  rewrite F_length in Hi. exists i. split; [exact Ei|]. split; [auto|].
  rewrite F_nth, fin_eqb in Pi. split.
  - destruct (Reqb_spec (nth i l 0) m); [auto|discriminate].
  - intros j Hj E. specialize (Fi j Hj). rewrite F_nth, fin_eqb in Fi. rewrite Reqb_true in Fi; auto. discriminate.
Qed.

(** a wave with finite fields *)
Definition is_wave (t x : list R) (a b : R) (w : wave NX) : Prop :=
  exists crest trough tc tt,
    w = mkWave (Fin (crest - trough)) (Fin (b - a)) (Fin crest) (Fin trough) (Fin tc) (Fin tt)
    /\ first_max_on t x a b crest tc /\ first_min_on t x a b trough tt.

Lemma one_wave_F t x a b :
  increasing t -> length x = length t ->
  (exists i, (i < length t)%nat /\ a <= nth i t 0 <= b) ->
  exists w, one_wave (N:=NX) (F t) (F x) (Fin a) (Fin b) = Ok w /\ is_wave t x a b w.
Proof.
  intros Hinc Hlen (i0 & Hi0 & Hab). unfold one_wave.
  assert (Hmono : forall i j, (i <= j)%nat -> (j < length t)%nat -> nth i t 0 <= nth j t 0).
  { intros i j H1 H2. destruct (Nat.eq_dec i j) as [->|]; [lra|]. left. apply Hinc. lia. }
  destruct (where_first (fun v => nleb (n:=NX) (Fin a) v) (F t) (Fin 0)) as (i & Ei & Hi & Pi & Fi).
  { exists i0. rewrite F_length, F_nth, fin_leb. split; [auto|]. apply Rleb_true; lra. }
  rewrite Ei, bind_Ok.
  destruct (where_last (fun v => nleb (n:=NX) v (Fin b)) (F t) (Fin 0)) as (j & Ej & Hj & Pj & Lj).
  { exists i0. rewrite F_length, F_nth, fin_leb. split; [auto|]. apply Rleb_true; lra. }
  rewrite Ej, bind_Ok. rewrite F_length in *.
  rewrite F_nth, fin_leb in Pi, Pj.
  destruct (Rleb_spec a (nth i t 0)) as [Hai|]; [|discriminate].
  destruct (Rleb_spec (nth j t 0) b) as [Hbj|]; [|discriminate].
  assert (Fi' : forall k, (k < i)%nat -> nth k t 0 < a).
  { intros k Hk. specialize (Fi k Hk). rewrite F_nth, fin_leb in Fi. destruct (Rleb_spec a (nth k t 0)); [discriminate|lra]. }
  assert (Lj' : forall k, (j < k < length t)%nat -> b < nth k t 0).
  { intros k Hk. specialize (Lj k Hk). rewrite F_nth, fin_leb in Lj. destruct (Rleb_spec (nth k t 0) b); [discriminate|lra]. }
  assert (Hi0i : (i <= i0)%nat).
  { destruct (Nat.le_gt_cases i i0); auto. specialize (Fi' i0 H). lra. }
  assert (Hi0j : (i0 <= j)%nat).
  { destruct (Nat.le_gt_cases i0 j); auto. specialize (Lj' i0 ltac:(lia)). lra. }
  assert (Hrange : forall k, (k < length t)%nat -> (a <= nth k t 0 <= b <-> (i <= k <= j)%nat)).
  { intros k Hk. split.
    - intros [H1 H2]. split.
      + destruct (Nat.le_gt_cases i k); auto. specialize (Fi' k H). lra.
      + destruct (Nat.le_gt_cases k j); auto. specialize (Lj' k ltac:(lia)). lra.
    - intros [H1 H2]. split.
      + apply Rle_trans with (nth i t 0); auto.
      + apply Rle_trans with (nth j t 0); auto. }
  rewrite !F_slice. set (tI := slice i (j + 1) t). set (xI := slice i (j + 1) x).
  assert (LtI : length tI = (j + 1 - i)%nat) by (unfold tI; rewrite slice_length; lia).
  assert (LxI : length xI = (j + 1 - i)%nat) by (unfold xI; rewrite slice_length; lia).
  assert (NtI : forall k, (k < j + 1 - i)%nat -> nth k tI 0 = nth (i + k) t 0).
  { intros k Hk. unfold tI. apply slice_nth. lia. }
  assert (NxI : forall k, (k < j + 1 - i)%nat -> nth k xI 0 = nth (i + k) x 0).
  { intros k Hk. unfold xI. apply slice_nth. lia. }
  assert (Hne : xI <> []) by (intros E; rewrite E in LxI; cbn in LxI; lia).
  destruct (pymax_F xI Hne) as (mx & -> & Imx & Mmx). rewrite bind_Ok.
  destruct (where_eq_first xI mx Imx) as (p & -> & Hp & Vp & Fp). rewrite bind_Ok.
  destruct (pymin_F xI Hne) as (mn & -> & Imn & Mmn). rewrite bind_Ok.
  destruct (where_eq_first xI mn Imn) as (q & -> & Hq & Vq & Fq). rewrite bind_Ok.
  rewrite !idx_F by lia. rewrite !bind_Ok, !fin_sub, Vp, Vq, !NtI by lia.
  eexists; split; [reflexivity|].
  exists mx, mn, (nth (i + p) t 0), (nth (i + q) t 0). split; [reflexivity|]. split.
  - exists (i + p)%nat. split; [lia|]. split; [apply Hrange; lia|]. split; [reflexivity|].
    split; [rewrite <- NxI by lia; auto|]. split.
    + intros k Hk Hr. apply Hrange in Hr; [|auto]. replace k with (i + (k - i))%nat by lia.
      rewrite <- NxI by lia. apply Mmx, nth_In. lia.
    + intros k Hk Hr. apply Hrange in Hr; [|lia]. replace k with (i + (k - i))%nat by lia.
      rewrite <- NxI by lia. specialize (Fp (k - i)%nat ltac:(lia)).
      assert (nth (k - i) xI 0 <= mx) by (apply Mmx, nth_In; lia). lra.
  - exists (i + q)%nat. split; [lia|]. split; [apply Hrange; lia|]. split; [reflexivity|].
    split; [rewrite <- NxI by lia; auto|]. split.
    + intros k Hk Hr. apply Hrange in Hr; [|auto]. replace k with (i + (k - i))%nat by lia.
      rewrite <- NxI by lia. apply Mmn, nth_In. lia.
    + intros k Hk Hr. apply Hrange in Hr; [|lia]. replace k with (i + (k - i))%nat by lia.
      rewrite <- NxI by lia. specialize (Fq (k - i)%nat ltac:(lia)).
      assert (mn <= nth (k - i) xI 0) by (apply Mmn, nth_In; lia). lra.
Qed.

Definition dwave : wave NX := mkWave (N:=NX) NaN NaN NaN NaN NaN NaN.
(** every wave interval contains a sample *)
Definition waves_sampled (t tau : list R) : Prop :=
  forall k, (S k < length tau)%nat -> exists i, (i < length t)%nat /\ nth k tau 0 <= nth i t 0 <= nth (S k) tau 0.

Lemma all_waves_F t x tau :
  increasing t -> length x = length t -> waves_sampled t tau ->
  exists ws, all_waves (N:=NX) (F t) (F x) (F tau) = Ok ws /\ length ws = (length tau - 1)%nat
   /\ forall k, (k < length ws)%nat -> is_wave t x (nth k tau 0) (nth (S k) tau 0) (nth k ws dwave).
Proof.
  intros Hinc Hlen. induction tau as [|a [|b tau] IH]; intros Hs.
  - exists []. split; [reflexivity|]. split; [reflexivity|]. cbn; lia.
  - exists []. split; [reflexivity|]. split; [reflexivity|]. cbn; lia.
  - change (all_waves (N:=NX) (F t) (F x) (F (a :: b :: tau))) with
      (bind (one_wave (N:=NX) (F t) (F x) (Fin a) (Fin b)) (fun w =>
       bind (all_waves (N:=NX) (F t) (F x) (F (b :: tau))) (fun ws => Ok (w :: ws)))).
    destruct (one_wave_F t x a b Hinc Hlen) as (w & -> & Hw).
    { destruct (Hs 0%nat) as (i & Hi); [cbn; lia|]. exists i. exact Hi. }
    rewrite bind_Ok. destruct IH as (ws & -> & Hl & Hws).
    { intros k Hk. destruct (Hs (S k)) as (i & Hi); [cbn in *; lia|]. exists i. exact Hi. }
    rewrite bind_Ok. exists (w :: ws). split; [reflexivity|]. cbn [length] in *. split; [lia|].
    intros [|k] Hk; [exact Hw|]. apply Hws. lia.
Qed.

(** ** C12 Individual wave parameters *)
Theorem C12_wave_parameters (t x tau : list R) :
  increasing t -> length x = length t -> t <> [] -> tau <> [] -> waves_sampled t tau ->
  exists ws,
    determine_params_individual_waves (Arr (vec (F tau))) (Arr (vec (F t))) (Arr (vec (F x))) = Ok ws
    /\ length ws = (length tau - 1)%nat
    /\ forall k, (k < length ws)%nat ->
         exists height crest trough tcrest ttrough,
           nth k ws dwave = mkWave (Fin height) (Fin (nth (S k) tau 0 - nth k tau 0))
                                   (Fin crest) (Fin trough) (Fin tcrest) (Fin ttrough)
           /\ height = crest - trough
           /\ first_max_on t x (nth k tau 0) (nth (S k) tau 0) crest tcrest
           /\ first_min_on t x (nth k tau 0) (nth (S k) tau 0) trough ttrough.
Proof.
  intros Hinc Hlen Hnt Hntau Hs.
  assert (Hnx : x <> []) by (destruct x; [destruct t; [contradiction|discriminate]|discriminate]).
  destruct (all_waves_F t x tau Hinc Hlen Hs) as (ws & E & L & W).
  exists ws. split; [|split; [exact L|]].
  - unfold determine_params_individual_waves; cbn [convert_to_array_type]. rewrite asize_vec, F_length.
    destruct (Nat.eqb_spec (length tau) 0); [destruct tau; [contradiction|discriminate]|].
    rewrite !is1darray_vec by (apply F_ne; auto). cbn [negb]. rewrite !as_list_vec, !bind_Ok, !F_length.
    rewrite Hlen, Nat.eqb_refl. cbn [negb]. exact E.
  - intros k Hk. destruct (W k Hk) as (c & tr & tc & tt & Ew & H1 & H2).
    exists (c - tr), c, tr, tc, tt. auto.
Qed.
(** periods add up to the total span *)
Lemma telescoping tau : tau <> [] ->
  Rsum (map (fun k => nth (S k) tau 0 - nth k tau 0) (seq 0 (length tau - 1)))
  = nth (length tau - 1) tau 0 - nth 0 tau 0.
Proof.
  intros H. destruct tau as [|a tau]; [contradiction|]. clear H. revert a.
  induction tau as [|b tau IH]; intros a; [cbn; lra|].
  cbn [length]. replace (S (S (length tau)) - 1)%nat with (S (length tau)) by lia.
  cbn [seq map]. rewrite <- seq_shift, map_map. rewrite Rsum_cons.
  specialize (IH b). cbn [length] in IH. replace (S (length tau) - 1)%nat with (length tau) in IH by lia.
  replace (map (fun k => nth (S (S k)) (a :: b :: tau) 0 - nth (S k) (a :: b :: tau) 0) (seq 0 (length tau)))
    with (map (fun k => nth (S k) (b :: tau) 0 - nth k (b :: tau) 0) (seq 0 (length tau)))
    by reflexivity.
  rewrite IH. cbn [nth]. lra.
Qed.
Theorem C12_periods_add_up (t x tau : list R) ws :
  increasing t -> length x = length t -> t <> [] -> tau <> [] -> waves_sampled t tau ->
  determine_params_individual_waves (Arr (vec (F tau))) (Arr (vec (F t))) (Arr (vec (F x))) = Ok ws ->
  nsum (map w_t ws) = Fin (nth (length tau - 1) tau 0 - nth 0 tau 0).
Proof.
  intros Hinc Hlen Hnt Hntau Hs E.
  destruct (C12_wave_parameters t x tau Hinc Hlen Hnt Hntau Hs) as (ws' & E' & L & W).
  rewrite E in E'. apply Ok_inj in E'. subst ws'.
  replace (map w_t ws) with (F (map (fun k => nth (S k) tau 0 - nth k tau 0) (seq 0 (length tau - 1)))).
  - rewrite nsum_F, telescoping; auto.
  - apply (nth_ext' _ _ (Fin 0)).
    + rewrite F_length, !map_length, seq_length. auto.
    + intros k Hk. rewrite F_length, map_length, seq_length in Hk.
      rewrite F_nth. rewrite map_seq_nth by auto.
      rewrite (nth_indep _ (Fin 0) (w_t dwave)) by (rewrite map_length; lia). rewrite (map_nth w_t).
      destruct (W k ltac:(lia)) as (? & ? & ? & ? & ? & -> & _). reflexivity.
Qed.
(** no crossing information at all: no waves *)
Theorem C12_no_crossings (t x : arraylike NX) :
  determine_params_individual_waves (Arr empty00) t x = Ok [].
Proof. reflexivity. Qed.
Example C12_witness : increasing [0; 1; 2; 3] /\ waves_sampled [0; 1; 2; 3] [1/2; 5/2].
Proof.
  split.
  - intros i j H. cbn in H. destruct i as [|[|[|[|i]]]], j as [|[|[|[|j]]]]; cbn; try lra; lia.
  - intros k Hk. cbn in Hk. assert (k = 0)%nat as -> by lia. exists 1%nat. cbn. split; [lia|lra].
Qed.

(** ** C13 Wave-by-wave analysis never fails and yields genuine waves *)

Theorem C13_analysis_never_fails (t0 dt : R) (x : list R) (s : string) (d : direction) :
  names s d -> 0 < dt -> (2 <= length x)%nat ->
  let t := Arr (vec (F (axis t0 dt (length x)))) in
  exists nWave tCross ws,
    determine_zero_crossing t (Arr (vec (F x))) s = Ok (nWave, tCross)
    /\ determine_params_individual_waves (Arr tCross) t (Arr (vec (F x))) = Ok ws
    /\ Z.of_nat (length ws) = nWave
    /\ forall w, In w ws ->
         exists h T crest trough tc tt,
           w = mkWave (Fin h) (Fin T) (Fin crest) (Fin trough) (Fin tc) (Fin tt)
           /\ 0 < h /\ 0 < T
           /\ match d with Down => trough < 0 <= crest | Up => trough <= 0 < crest end.
Proof.
  intros Hn Hdt H2 t. unfold t.
  destruct (C07_crossing_times t0 dt x s d Hn Hdt H2) as (is & tau & tc & [As Is] & L & E & D & Inc & T).
  set (ax := axis t0 dt (length x)) in *.
  assert (Hinc : increasing ax) by (apply axis_increasing; auto).
  assert (Hlax : length ax = length x) by apply axis_length.
  (* the shape of tCross *)
  assert (Htc : tc = match tau with [] => empty00 | _ => vec (F tau) end).
  { destruct (zero_crossing_F ax x s d Hn Hlax H2) as (is' & Hall' & E').
    rewrite E in E'. cbn zeta in E'. apply Ok_inj in E'. injection E' as _ E'.
    subst tc. set (tau' := map _ is') in *.
    assert (tau' = tau).
    { apply F_inj. rewrite <- D. destruct tau'; reflexivity. }
    rewrite H. reflexivity. }
  destruct tau as [|a tau].
  - exists (Z.of_nat (length is - 1)), tc, []. split; [exact E|]. subst tc. split; [reflexivity|].
    destruct is; [|discriminate]. split; [reflexivity|]. intros w [].
  - rewrite Htc in *. clear Htc. set (ta := a :: tau) in *.
    (* neighbouring crossings enclose the samples i+1 .. j *)
    assert (Henc : forall k, (S k < length ta)%nat ->
       let i := nth k is 0%nat in let j := nth (S k) is 0%nat in
       (S i < j)%nat /\ (S j < length x)%nat /\ Rcrosses d x i /\ Rcrosses d x j
       /\ nth k ta 0 < nth (S i) ax 0 <= nth (S k) ta 0 /\ nth k ta 0 < nth j ax 0 <= nth (S k) ta 0).
    { intros k Hk i j. destruct (T k ltac:(lia)) as [Tk _]. destruct (T (S k) Hk) as [TSk _].
      fold i in Tk. fold j in TSk.
      assert (Ci : Rcrosses d x i) by (apply Is, nth_In; lia).
      assert (Cj : Rcrosses d x j) by (apply Is, nth_In; lia).
      assert (Hij : (i < j)%nat) by (apply As; lia).
      assert (Hij' : (S i <> j)%nat).
      { intros Eq. destruct Ci as [_ Ci], Cj as [_ Cj]. rewrite <- Eq in Cj. destruct d; lra. }
      assert (Lj : (S j < length x)%nat) by apply Cj.
      unfold ax. rewrite !axis_nth by lia. rewrite S_INR.
      assert (INR i + 2 <= INR j).
      { replace (INR i + 2) with (INR (i + 2)) by (rewrite plus_INR; cbn; lra). apply le_INR. lia. }
      assert ((INR i + 2) * dt <= INR j * dt) by (apply Rmult_le_compat_r; lra).
      split; [lia|]. split; [lia|]. split; [exact Ci|]. split; [exact Cj|].
      cbn zeta in Tk, TSk. split; lra. }
    destruct (C12_wave_parameters ax x ta Hinc (eq_sym Hlax)) as (ws & Ew & Lw & W).
    + intros Eq. rewrite Eq in Hlax. cbn in Hlax. lia.
    + discriminate.
    + intros k Hk. destruct (Henc k Hk) as (E1 & E2 & _ & _ & E3 & _).
      exists (S (nth k is 0%nat)). rewrite Hlax. split; [lia|]. lra.
    + exists (Z.of_nat (length is - 1)), (vec (F ta)), ws. split; [exact E|]. split; [exact Ew|].
      split; [rewrite Lw, L; reflexivity|].
      intros w Hw. apply (In_nth _ _ dwave) in Hw as (k & Hk & <-).
      destruct (W k Hk) as (h & c & tr & tcr & ttr & -> & Eh & Hmax & Hmin).
      destruct (Henc k ltac:(lia)) as (E1 & E2 & Ci & Cj & R1 & R2).
      set (i := nth k is 0%nat) in *. set (j := nth (S k) is 0%nat) in *.
      exists h, (nth (S k) ta 0 - nth k ta 0), c, tr, tcr, ttr. split; [reflexivity|].
      destruct Hmax as (p & _ & _ & _ & _ & Hmax & _). destruct Hmin as (q & _ & _ & _ & _ & Hmin & _).
      assert (M1 := Hmax (S i) ltac:(lia) ltac:(lra)). assert (M2 := Hmax j ltac:(lia) ltac:(lra)).
      assert (N1 := Hmin (S i) ltac:(lia) ltac:(lra)). assert (N2 := Hmin j ltac:(lia) ltac:(lra)).
      assert (Incs := Inc k (S k) ltac:(lia)).
      destruct Ci as [_ Ci], Cj as [_ Cj]. subst h. destruct d; split; lra.
Qed.
Example C13_witness : names "down" Down /\ 0 < 1/10 /\ (2 <= length ([1; -1; 2; -1; 0]%R : list R))%nat.
Proof. repeat split; cbn; lra || lia. Qed.
