(** * Splitting, extending, refining and reversing a record (core_time.py): C86 *)

From Coq Require Import Reals ZArith String List Bool Lra Lia Permutation.
From Verif Require Import Num XR Spec XRFacts Engine TimeModel TimeSpec EngineProps TimeProps TimeProps2
  TimeProps3 SpectralModel WaveModel SpectrumModel SeriesModel WHProps WHStats SeriesProps WaveSym.
Import ListNotations.
Open Scope R_scope.

(** the whole wave-by-wave analysis of a record x sampled every dt from t0: number of waves,
    crossing times and waves *)
Definition analysed (t0 dt : R) (x : list R) (s : string) (n : Z) (tau : list R) (ws : list (wave NX)) : Prop :=
  determine_zero_crossing (Arr (vec (F (axis t0 dt (length x))))) (Arr (vec (F x))) s = Ok (n, crossing_array tau)
  /\ determine_params_individual_waves (Arr (crossing_array tau)) (Arr (vec (F (axis t0 dt (length x)))))
       (Arr (vec (F x))) = Ok ws.

(** the time of the crossing between samples i and i+1 *)
Definition ctime (t0 dt : R) (x : list R) (i : nat) : R :=
  t0 + INR i * dt + dt * (nth i x 0 / (nth i x 0 - nth (S i) x 0)).

Lemma ctime_bounds t0 dt x d i : 0 < dt -> Rcrosses d x i ->
  t0 + INR i * dt <= ctime t0 dt x i < t0 + INR i * dt + dt.
Proof. intros Hdt C. pose proof (crossing_ratio d x i C). unfold ctime. nra. Qed.

Lemma ctimes_sampled t0 dt x d is : 0 < dt -> all_crossings d x is ->
  waves_sampled (axis t0 dt (length x)) (map (ctime t0 dt x) is).
Proof.
  intros Hdt [As Is] k Hk. rewrite map_length in Hk.
  assert (Hn : forall l, (l < length is)%nat -> nth l (map (ctime t0 dt x) is) 0 = ctime t0 dt x (nth l is 0%nat)).
  { intros l Hl. rewrite (nth_indep _ 0 (ctime t0 dt x 0%nat)) by (rewrite map_length; auto). apply map_nth. }
  rewrite !Hn by lia.
  set (i := nth k is 0%nat). set (j := nth (S k) is 0%nat).
  assert (Ci : Rcrosses d x i) by (apply Is, nth_In; lia).
  assert (Cj : Rcrosses d x j) by (apply Is, nth_In; lia).
  assert (Hij : (i < j)%nat) by (apply As; lia).
  pose proof (ctime_bounds t0 dt x d i Hdt Ci). pose proof (ctime_bounds t0 dt x d j Hdt Cj).
  destruct Cj as [Cj _]. exists j. rewrite axis_length. split; [lia|]. rewrite axis_nth by lia.
  assert (INR i + 1 <= INR j) by (rewrite <- S_INR; apply le_INR; lia). nra.
Qed.

Lemma analysed_elim t0 dt x s d : names s d -> 0 < dt -> (2 <= length x)%nat ->
  exists is ws, all_crossings d x is
    /\ analysed t0 dt x s (Z.of_nat (length is - 1)) (map (ctime t0 dt x) is) ws
    /\ length ws = (length is - 1)%nat
    /\ forall k, (k < length ws)%nat ->
         is_wave (axis t0 dt (length x)) x (ctime t0 dt x (nth k is 0%nat)) (ctime t0 dt x (nth (S k) is 0%nat)) (nth k ws dwave).
Proof.
  intros Hn Hdt H2.
  destruct (zero_crossing_F (axis t0 dt (length x)) x s d Hn (axis_length _ _ _) H2) as (is & Hall & E).
  cbn zeta in E.
  set (tau0 := map _ is) in E.
  assert (Et : tau0 = map (ctime t0 dt x) is).
  { apply map_ext_in. intros i Hi. apply (proj2 Hall) in Hi. pose proof Hi as [Hi' _].
    rewrite !axis_nth by lia. unfold ctime. rewrite (Nat.add_1_r i). change (INR 1) with 1. change (INR 0) with 0.
    replace (t0 + 1 * dt - (t0 + 0 * dt)) with dt by ring. unfold Rdiv. ring. }
  rewrite Et in E. clear tau0 Et.
  destruct (params_F (axis t0 dt (length x)) x (map (ctime t0 dt x) is)) as (ws & E2 & L & W).
  - apply axis_increasing; auto.
  - symmetry; apply axis_length.
  - apply axis_ne; auto.
  - apply (ctimes_sampled t0 dt x d); auto.
  - rewrite map_length in L. exists is, ws. split; [exact Hall|]. split; [split; [exact E|exact E2]|]. split; [exact L|].
    intros k Hk. specialize (W k Hk).
    assert (Hn' : forall l, (l < length is)%nat -> nth l (map (ctime t0 dt x) is) 0 = ctime t0 dt x (nth l is 0%nat)).
    { intros l Hl. rewrite (nth_indep _ 0 (ctime t0 dt x 0%nat)) by (rewrite map_length; auto). apply map_nth. }
    rewrite !Hn' in W by lia. exact W.
Qed.

(** the analysis of a record is determined by its crossings and waves *)
Lemma analysed_unique t0 dt x s n tau ws n' tau' ws' :
  analysed t0 dt x s n tau ws -> analysed t0 dt x s n' tau' ws' -> n = n' /\ tau = tau' /\ ws = ws'.
Proof.
  intros [E1 E2] [E1' E2']. rewrite E1 in E1'. apply Ok_inj in E1'. injection E1' as -> E.
  assert (D : forall l, data (crossing_array l) = F l) by (intros [|? ?]; reflexivity).
  assert (tau = tau') as -> by (apply F_inj; rewrite <- !D, E; reflexivity).
  rewrite E2 in E2'. apply Ok_inj in E2'. auto.
Qed.

(** ** Splitting a record at a sample that belongs to both parts *)
Lemma split_nth1 a v b i : (i <= length a)%nat -> nth i (a ++ v :: b) 0 = nth i (a ++ [v]) (0 : R).
Proof.
  intros H. destruct (Nat.lt_ge_cases i (length a)) as [L|L].
  - rewrite !app_nth1 by lia. reflexivity.
  - rewrite !app_nth2 by lia. replace (i - length a)%nat with 0%nat by lia. reflexivity.
Qed.
Lemma split_nth2 a v b i : nth (length a + i) (a ++ v :: b) 0 = nth i (v :: b) (0 : R).
Proof. rewrite app_nth2 by lia. f_equal. lia. Qed.

Lemma split_crosses1 d a v b i : (i < length a)%nat -> Rcrosses d (a ++ v :: b) i <-> Rcrosses d (a ++ [v]) i.
Proof.
  intros H. unfold Rcrosses. rewrite (split_nth1 a v b i), (split_nth1 a v b (S i)) by lia. rewrite !app_length. cbn [length].
  split; intros [_ C]; (split; [lia|exact C]).
Qed.
Lemma split_crosses2 d a v b i : Rcrosses d (a ++ v :: b) (length a + i) <-> Rcrosses d (v :: b) i.
Proof.
  unfold Rcrosses. rewrite <- Nat.add_succ_r. rewrite (split_nth2 a v b i), (split_nth2 a v b (S i)), app_length.
  split; intros [L C]; (split; [lia|exact C]).
Qed.

Lemma nth_app_l {A} (l l' : list A) i d : (i < length l)%nat -> nth i (l ++ l') d = nth i l d.
Proof. apply app_nth1. Qed.

Lemma split_crossings d a v b is1 is2 :
  all_crossings d (a ++ [v]) is1 -> all_crossings d (v :: b) is2 ->
  all_crossings d (a ++ v :: b) (is1 ++ map (fun i => (length a + i)%nat) is2).
Proof.
  intros [A1 I1] [A2 I2].
  assert (B1 : forall i, In i is1 -> (i < length a)%nat).
  { intros i Hi. apply I1 in Hi. destruct Hi as [Hi _]. rewrite app_length in Hi. cbn in Hi. lia. }
  split.
  - intros i j Hij. rewrite app_length, map_length in Hij.
    assert (N2 : forall l, (l < length is2)%nat -> nth l (map (fun i => (length a + i)%nat) is2) 0%nat = (length a + nth l is2 0%nat)%nat).
    { intros l Hl. rewrite (nth_indep _ 0%nat (length a + 0)%nat) by (rewrite map_length; auto).
      apply (map_nth (fun i => (length a + i)%nat)). }
    destruct (Nat.lt_ge_cases j (length is1)) as [Lj|Lj].
    + rewrite !app_nth1 by lia. apply A1. lia.
    + rewrite (app_nth2 _ _ _ Lj), N2 by lia. destruct (Nat.lt_ge_cases i (length is1)) as [Li|Li].
      * rewrite app_nth1 by lia. specialize (B1 _ (nth_In is1 0%nat Li)). lia.
      * rewrite app_nth2 by lia. rewrite N2 by lia. specialize (A2 (i - length is1)%nat (j - length is1)%nat). lia.
  - intros i. rewrite in_app_iff, in_map_iff. split.
    + intros [H|(j & <- & H)].
      * apply split_crosses1; [auto|]. apply I1; auto.
      * apply split_crosses2. apply I2; auto.
    + intros C. destruct (Nat.lt_ge_cases i (length a)) as [L|L].
      * left. apply I1. apply split_crosses1 in C; auto.
      * right. exists (i - length a)%nat. split; [lia|]. apply I2. apply (split_crosses2 d a v b).
        replace (length a + (i - length a))%nat with i by lia. exact C.
Qed.

Lemma split_ctime1 t0 dt a v b i : (i < length a)%nat -> ctime t0 dt (a ++ v :: b) i = ctime t0 dt (a ++ [v]) i.
Proof. intros H. unfold ctime. rewrite (split_nth1 a v b i), (split_nth1 a v b (S i)) by lia. reflexivity. Qed.
Lemma split_ctime2 t0 dt a v b i : ctime t0 dt (a ++ v :: b) (length a + i) = ctime (t0 + INR (length a) * dt) dt (v :: b) i.
Proof. unfold ctime. rewrite <- Nat.add_succ_r, (split_nth2 a v b i), (split_nth2 a v b (S i)), plus_INR. ring. Qed.

(** samples of one record that are, in the same order, the samples of another between a and b *)
Definition same_window (t x t' x' : list R) (a b : R) (p : nat -> nat) : Prop :=
  (forall i j, (p i < p j)%nat -> (i < j)%nat)
  /\ (forall i, (i < length t)%nat -> a <= nth i t 0 <= b ->
        (p i < length t')%nat /\ nth (p i) t' 0 = nth i t 0 /\ nth (p i) x' 0 = nth i x 0)
  /\ (forall j, (j < length t')%nat -> a <= nth j t' 0 <= b ->
        exists i, (i < length t)%nat /\ p i = j /\ a <= nth i t 0 <= b).
Lemma window_wave t x t' x' a b p w : same_window t x t' x' a b p -> is_wave t x a b w -> is_wave t' x' a b w.
Proof.
  intros (Mo & P1 & P2) (cr & tr & tc & tt & -> & (i & Hi & Hab & -> & -> & M & M1) & (j & Hj & Hab' & -> & -> & M' & M1')).
  destruct (P1 i Hi Hab) as (Qi & Ti & Xi). destruct (P1 j Hj Hab') as (Qj & Tj & Xj).
  exists (nth i x 0), (nth j x 0), (nth i t 0), (nth j t 0). split; [reflexivity|]. split.
  - exists (p i). rewrite Ti, Xi. split; [auto|]. split; [auto|]. split; [auto|]. split; [auto|]. split.
    + intros l Hl Hlab. destruct (P2 l Hl Hlab) as (l0 & Hl0 & <- & Hab0). destruct (P1 l0 Hl0 Hab0) as (_ & _ & ->). auto.
    + intros l Hl Hlab. destruct (P2 l ltac:(lia) Hlab) as (l0 & Hl0 & <- & Hab0). destruct (P1 l0 Hl0 Hab0) as (_ & _ & ->).
      apply M1; auto.
  - exists (p j). rewrite Tj, Xj. split; [auto|]. split; [auto|]. split; [auto|]. split; [auto|]. split.
    + intros l Hl Hlab. destruct (P2 l Hl Hlab) as (l0 & Hl0 & <- & Hab0). destruct (P1 l0 Hl0 Hab0) as (_ & _ & ->). auto.
    + intros l Hl Hlab. destruct (P2 l ltac:(lia) Hlab) as (l0 & Hl0 & <- & Hab0). destruct (P1 l0 Hl0 Hab0) as (_ & _ & ->).
      apply M1'; auto.
Qed.

Lemma split_window1 t0 dt a v b lo hi : 0 < dt -> hi < t0 + INR (length a) * dt ->
  same_window (axis t0 dt (length (a ++ [v]))) (a ++ [v]) (axis t0 dt (length (a ++ v :: b))) (a ++ v :: b) lo hi (fun i => i).
Proof.
  intros Hdt Hhi. unfold same_window. rewrite !axis_length, !app_length. cbn [length].
  assert (B : forall i, t0 + INR i * dt <= hi -> (i < length a)%nat).
  { intros i Hi. apply INR_lt. nra. }
  split; [auto|]. split.
  - intros i Hi Hab. rewrite axis_nth in * by lia. specialize (B i ltac:(lra)).
    rewrite axis_nth by lia. repeat split; [lia|]. apply split_nth1. lia.
  - intros j Hj Hab. rewrite axis_nth in * by lia. specialize (B j ltac:(lra)). exists j. rewrite axis_nth by lia.
    repeat split; try lra; lia.
Qed.
Lemma split_window2 t0 dt a v b lo hi : 0 < dt -> t0 + INR (length a) * dt <= lo ->
  same_window (axis (t0 + INR (length a) * dt) dt (length (v :: b))) (v :: b) (axis t0 dt (length (a ++ v :: b))) (a ++ v :: b) lo hi
    (fun i => (length a + i)%nat).
Proof.
  intros Hdt Hlo. unfold same_window. rewrite !axis_length, !app_length.
  split; [lia|]. split.
  - intros i Hi Hab. rewrite axis_nth in * by lia. rewrite axis_nth by lia.
    split; [lia|]. split; [rewrite plus_INR; ring|]. apply split_nth2.
  - intros j Hj Hab. rewrite axis_nth in Hab by lia.
    assert (length a <= j)%nat.
    { destruct (Nat.lt_ge_cases j (length a)) as [L|L]; [|exact L]. apply lt_INR in L. nra. }
    exists (j - length a)%nat. split; [lia|]. split; [lia|]. rewrite axis_nth by lia. rewrite minus_INR by lia.
    replace (t0 + INR (length a) * dt + (INR j - INR (length a)) * dt) with (t0 + INR j * dt) by ring. exact Hab.
Qed.

(** ** C86 *)

(** A record cut at a sample v that belongs to both parts: the crossings are those of the parts, one
    after the other; the waves of each part are waves of the record; the wave between the last
    crossing of the first part and the first of the second is the only one that no part has *)
Theorem C86_split (t0 dt : R) (a : list R) (v : R) (b : list R) (s : string) (d : direction) :
  names s d -> 0 < dt -> a <> [] -> b <> [] ->
  exists n tau1 tau2 ws ws1 ws2 n1 n2,
    analysed t0 dt (a ++ v :: b) s n (tau1 ++ tau2) ws
    /\ analysed t0 dt (a ++ [v]) s n1 tau1 ws1
    /\ analysed (t0 + INR (length a) * dt) dt (v :: b) s n2 tau2 ws2
    /\ ws1 = firstn (length tau1 - 1) ws
    /\ ws2 = skipn (length tau1) ws
    /\ n = Z.of_nat (length (tau1 ++ tau2) - 1)
    /\ length ws = (length (tau1 ++ tau2) - 1)%nat.
Proof.
  intros Hn Hdt Ha Hb.
  assert (La : (0 < length a)%nat) by (destruct a; [contradiction|cbn; lia]).
  assert (Lb : (0 < length b)%nat) by (destruct b; [contradiction|cbn; lia]).
  destruct (analysed_elim t0 dt (a ++ v :: b) s d Hn Hdt) as (is & ws & C & A & L & W); [rewrite app_length; cbn; lia|].
  destruct (analysed_elim t0 dt (a ++ [v]) s d Hn Hdt) as (is1 & ws1 & C1 & A1 & L1 & W1); [rewrite app_length; cbn; lia|].
  destruct (analysed_elim (t0 + INR (length a) * dt) dt (v :: b) s d Hn Hdt) as (is2 & ws2 & C2 & A2 & L2 & W2); [cbn; lia|].
  assert (is = is1 ++ map (fun i => (length a + i)%nat) is2) as ->.
  { apply (all_crossings_unique d (a ++ v :: b)); auto. apply split_crossings; auto. }
  assert (B1 : forall i, In i is1 -> (i < length a)%nat).
  { intros i Hi. apply C1 in Hi. destruct Hi as [Hi _]. rewrite app_length in Hi. cbn in Hi. lia. }
  assert (Et : map (ctime t0 dt (a ++ v :: b)) (is1 ++ map (fun i => (length a + i)%nat) is2)
    = map (ctime t0 dt (a ++ [v])) is1 ++ map (ctime (t0 + INR (length a) * dt) dt (v :: b)) is2).
  { rewrite map_app, map_map. f_equal; apply map_ext_in; intros i Hi; [apply split_ctime1; auto|apply split_ctime2]. }
  rewrite Et in A. rewrite app_length, map_length in L.
  assert (N2 : forall l, (l < length is2)%nat -> nth (length is1 + l) (is1 ++ map (fun i => (length a + i)%nat) is2) 0%nat = (length a + nth l is2 0%nat)%nat).
  { intros l Hl. rewrite app_nth2_plus. rewrite (nth_indep _ 0%nat (length a + 0)%nat) by (rewrite map_length; auto).
    apply (map_nth (fun i => (length a + i)%nat)). }
  assert (Hax : forall t0 n, increasing (axis t0 dt n)) by (intros; apply axis_increasing; auto).
  eexists _, _, _, ws, ws1, ws2, _, _. split; [exact A|]. split; [exact A1|]. split; [exact A2|].
  rewrite !app_length, !map_length.
  split.
  { apply (nth_ext' _ _ dwave); [rewrite firstn_length; lia|]. intros k Hk. rewrite firstn_nth by lia.
    eapply is_wave_unique; [apply Hax| |apply W; lia].
    rewrite !app_nth1 by lia. rewrite (split_ctime1 t0 dt a v b (nth k is1 0%nat)), (split_ctime1 t0 dt a v b (nth (S k) is1 0%nat)) by (apply B1, nth_In; lia).
    eapply window_wave; [|apply W1; exact Hk]. apply split_window1; auto.
    assert (Ck : Rcrosses d (a ++ [v]) (nth (S k) is1 0%nat)) by (apply C1, nth_In; lia).
    pose proof (ctime_bounds t0 dt _ d _ Hdt Ck). destruct Ck as [Ck _]. rewrite app_length in Ck. cbn in Ck.
    assert (INR (nth (S k) is1 0%nat) + 1 <= INR (length a)) by (rewrite <- S_INR; apply le_INR; lia). nra. }
  split; [|split; lia].
  apply (nth_ext' _ _ dwave); [rewrite skipn_length; lia|]. intros k Hk. rewrite skipn_nth.
  eapply is_wave_unique; [apply Hax| |apply W; lia].
  rewrite <- Nat.add_succ_r. rewrite (N2 k), (N2 (S k)) by lia.
  rewrite (split_ctime2 t0 dt a v b (nth k is2 0%nat)), (split_ctime2 t0 dt a v b (nth (S k) is2 0%nat)).
  eapply window_wave; [|apply W2; exact Hk]. apply split_window2; auto.
  assert (Ck : Rcrosses d (v :: b) (nth k is2 0%nat)) by (apply C2, nth_In; lia).
  pose proof (ctime_bounds (t0 + INR (length a) * dt) dt _ d _ Hdt Ck). pose proof (pos_INR (nth k is2 0%nat)). nra.
Qed.

(** appending samples changes no crossing and no wave found so far *)
Theorem C86_extend (t0 dt : R) (x y : list R) (s : string) (d : direction) :
  names s d -> 0 < dt -> (2 <= length x)%nat ->
  exists n tau ws n' tau' ws',
    analysed t0 dt x s n tau ws /\ analysed t0 dt (x ++ y) s n' tau' ws'
    /\ tau = firstn (length tau) tau' /\ ws = firstn (length ws) ws'
    /\ (length tau' <= length tau + length y)%nat /\ (length ws' <= length ws + length y)%nat.
Proof.
  intros Hn Hdt H2. destruct y as [|y0 y].
  - destruct (analysed_elim t0 dt x s d Hn Hdt H2) as (is & ws & C & A & _). rewrite app_nil_r.
    eexists _, _, ws, _, _, ws. split; [exact A|]. split; [exact A|]. rewrite !firstn_all. repeat split; auto; lia.
  - assert (Hx : x <> []) by (destruct x; [cbn in H2; lia|discriminate]).
    destruct (exists_last Hx) as (a & v & ->). rewrite app_length in H2. cbn in H2.
    destruct (C86_split t0 dt a v (y0 :: y) s d Hn Hdt) as (n & tau1 & tau2 & ws & ws1 & ws2 & n1 & n2 & A & A1 & A2 & E1 & E2 & En & El);
      [destruct a; [cbn in H2; lia|discriminate]|discriminate|].
    rewrite app_length in El.
    assert (L2 : (length tau2 <= length (y0 :: y))%nat).
    { destruct (analysed_elim (t0 + INR (length a) * dt) dt (v :: y0 :: y) s d Hn Hdt) as (is & ws0 & C & A0 & _); [cbn; lia|].
      destruct (analysed_unique _ _ _ _ _ _ _ _ _ _ A2 A0) as (_ & -> & _). rewrite map_length.
      destruct C as [As Is].
      assert (ND : NoDup is). { apply (NoDup_nth is 0%nat). intros i j Hi Hj E. destruct (Nat.lt_trichotomy i j) as [H|[H|H]]; auto.
        - specialize (As i j ltac:(lia)). lia. - specialize (As j i ltac:(lia)). lia. }
      rewrite <- (seq_length (length (y0 :: y)) 0). apply NoDup_incl_length; auto.
      intros i Hi. apply Is in Hi. destruct Hi as [Hi _]. apply in_seq. cbn [length] in *. lia. }
    assert (L1 : length ws1 = (length tau1 - 1)%nat) by (rewrite E1, firstn_length; lia).
    exists n1, tau1, ws1, n, (tau1 ++ tau2), ws. rewrite <- app_assoc. cbn [app].
    split; [exact A1|]. split; [exact A|]. rewrite L1. split.
    { rewrite firstn_app, firstn_all, Nat.sub_diag. cbn. rewrite app_nil_r. reflexivity. }
    split; [exact E1|]. rewrite app_length. split; [lia|]. cbn [length] in *. lia.
Qed.

(** ** Linear interpolation between the samples *)
(** m - 1 samples put between every two samples, on the straight line through them *)
Definition refine (m : nat) (x : list R) : list R :=
  map (fun j => let q := (j / m)%nat in nth q x 0 + INR (j mod m) / INR m * (nth (S q) x 0 - nth q x 0))
      (seq 0 ((length x - 1) * m + 1)).

Section Refine.
  Variables (m : nat) (x : list R).
  Hypotheses (Hm : (0 < m)%nat) (H2 : (2 <= length x)%nat).
  Let y := refine m x.
  Lemma refine_length : length y = ((length x - 1) * m + 1)%nat.
  Proof. unfold y, refine. rewrite map_length, seq_length. reflexivity. Qed.
  Lemma refine_at q r : (S q < length x)%nat -> (r <= m)%nat ->
    nth (q * m + r) y 0 = nth q x 0 + INR r / INR m * (nth (S q) x 0 - nth q x 0).
  Proof.
    intros Hq Hr. assert (Im : 0 < INR m) by (apply lt_0_INR; auto).
    assert (Lj : (q * m + r < length y)%nat) by (rewrite refine_length; nia).
    unfold y, refine in *. rewrite map_length, seq_length in Lj.
    set (g := fun j => _). rewrite (nth_indep _ 0 (g 0%nat)) by (rewrite map_length, seq_length; lia).
    rewrite (map_nth g), seq_nth by lia. cbn [plus]. unfold g. clear g.
    destruct (Nat.eq_dec r m) as [->|Hr'].
    - replace (q * m + m)%nat with (S q * m)%nat by lia. rewrite Nat.div_mul, Nat.mod_mul by lia. cbn [INR].
      unfold Rdiv. rewrite Rinv_r by lra. ring.
    - replace ((q * m + r) / m)%nat with q by (rewrite Nat.add_comm, Nat.div_add, (Nat.div_small r m) by lia; lia).
      replace ((q * m + r) mod m)%nat with r by (rewrite Nat.add_comm, Nat.mod_add, (Nat.mod_small r m) by lia; lia). reflexivity.
  Qed.
  Lemma refine_sample i : (i < length x)%nat -> nth (i * m) y 0 = nth i x 0.
  Proof.
    intros Hi. assert (Im : 0 < INR m) by (apply lt_0_INR; auto).
    destruct (Nat.eq_dec (S i) (length x)) as [E|E].
    - replace (i * m)%nat with ((i - 1) * m + m)%nat by nia. rewrite refine_at by lia.
      replace (S (i - 1)) with i by lia. unfold Rdiv. rewrite Rinv_r by lra. ring.
    - replace (i * m)%nat with (i * m + 0)%nat by lia. rewrite refine_at by lia. cbn [INR]. unfold Rdiv. ring.
  Qed.
  (** every index of the fine record but the last lies in the cell of a coarse pair *)
  Lemma refine_cell j : (S j < length y)%nat -> exists q r, j = (q * m + r)%nat /\ (r < m)%nat /\ (S q < length x)%nat.
  Proof.
    intros Hj. rewrite refine_length in Hj. exists (j / m)%nat, (j mod m)%nat.
    pose proof (Nat.div_mod j m ltac:(lia)). pose proof (Nat.mod_upper_bound j m ltac:(lia)).
    split; [lia|]. split; [auto|]. assert (j / m < length x - 1)%nat; [|lia]. apply Nat.div_lt_upper_bound; lia.
  Qed.
  Lemma frac_bounds r : (r <= m)%nat -> 0 <= INR r / INR m <= 1.
  Proof.
    intros Hr. assert (Im : 0 < INR m) by (apply lt_0_INR; auto). apply le_INR in Hr. pose proof (pos_INR r).
    assert (0 < / INR m) by (apply Rinv_0_lt_compat; auto). unfold Rdiv. split; [nra|].
    apply Rmult_le_reg_r with (INR m); auto. rewrite Rmult_assoc, Rinv_l by lra. lra.
  Qed.
  Lemma frac_lt r r' : (r < r')%nat -> INR r / INR m < INR r' / INR m.
  Proof.
    intros Hr. apply lt_INR in Hr. apply Rmult_lt_compat_r; auto. apply Rinv_0_lt_compat, lt_0_INR; auto.
  Qed.

  Lemma refine_crosses_coarse d q r : (r < m)%nat -> (S q < length x)%nat -> Rcrosses d y (q * m + r) -> Rcrosses d x q.
  Proof.
    intros Hr Hq [_ C]. split; [auto|]. replace (S (q * m + r)) with (q * m + S r)%nat in C by lia.
    rewrite !refine_at in C by lia.
    pose proof (frac_bounds r ltac:(lia)). pose proof (frac_bounds (S r) ltac:(lia)). pose proof (frac_lt r (S r) ltac:(lia)).
    set (u := INR r / INR m) in *. set (w := INR (S r) / INR m) in *. clearbody u w.
    set (p := nth q x 0) in *. set (p' := nth (S q) x 0) in *.
    destruct d; split.
    - destruct (Rle_lt_dec p 0) as [L|L]; auto. exfalso. destruct (Rle_lt_dec 0 p'); nra.
    - destruct (Rlt_le_dec 0 p') as [L|L]; auto. exfalso. destruct (Rle_lt_dec p 0); nra.
    - destruct (Rle_lt_dec 0 p) as [L|L]; auto. exfalso. destruct (Rle_lt_dec 0 p'); nra.
    - destruct (Rlt_le_dec p' 0) as [L|L]; auto. exfalso. destruct (Rle_lt_dec 0 p); nra.
  Qed.
  Lemma refine_crosses_fine d q : Rcrosses d x q -> exists r, (r < m)%nat /\ Rcrosses d y (q * m + r).
  Proof.
    intros [Hq C].
    assert (E0 : nth (q * m) y 0 = nth q x 0) by (apply refine_sample; lia).
    assert (E1 : nth (S q * m) y 0 = nth (S q) x 0) by (apply refine_sample; lia).
    assert (L : (q * m < S q * m < length y)%nat) by (rewrite refine_length; nia).
    destruct d.
    - destruct (exists_crossing_up y (q * m) (S q * m)) as (k & Hk & Ck); auto; [lra|lra|].
      exists (k - q * m)%nat. split; [lia|]. replace (q * m + (k - q * m))%nat with k by lia. exact Ck.
    - destruct (exists_crossing_down y (q * m) (S q * m)) as (k & Hk & Ck); auto; [lra|lra|].
      exists (k - q * m)%nat. split; [lia|]. replace (q * m + (k - q * m))%nat with k by lia. exact Ck.
  Qed.
  Lemma refine_crosses_once d q r r' : (r < r' < m)%nat -> (S q < length x)%nat ->
    Rcrosses d y (q * m + r) -> Rcrosses d y (q * m + r') -> False.
  Proof.
    intros Hr Hq [_ C] [_ C']. replace (S (q * m + r)) with (q * m + S r)%nat in C by lia.
    replace (S (q * m + r')) with (q * m + S r')%nat in C' by lia.
    rewrite !refine_at in C, C' by lia.
    pose proof (frac_lt r (S r) ltac:(lia)). pose proof (frac_lt r' (S r') ltac:(lia)).
    assert (INR (S r) / INR m <= INR r' / INR m).
    { apply Rmult_le_compat_r; [left; apply Rinv_0_lt_compat, lt_0_INR; auto|apply le_INR; lia]. }
    set (u := INR r / INR m) in *. set (w := INR (S r) / INR m) in *. set (u' := INR r' / INR m) in *. set (w' := INR (S r') / INR m) in *.
    set (p := nth q x 0) in *. set (p' := nth (S q) x 0) in *. clearbody u w u' w' p p'.
    destruct d; nra.
  Qed.
  Lemma refine_ctime t0 dt d q r : 0 < dt -> (r < m)%nat -> (S q < length x)%nat -> Rcrosses d y (q * m + r) ->
    ctime t0 (dt / INR m) y (q * m + r) = ctime t0 dt x q.
  Proof.
    intros Hdt Hr Hq C. assert (Im : 0 < INR m) by (apply lt_0_INR; auto).
    pose proof (refine_crosses_coarse d q r Hr Hq C) as [_ Cx].
    unfold ctime. replace (S (q * m + r)) with (q * m + S r)%nat by lia. rewrite !refine_at by lia.
    rewrite plus_INR, mult_INR, S_INR.
    set (p := nth q x 0) in *. set (p' := nth (S q) x 0) in *.
    assert (p <> p') by (destruct d; lra).
    replace (p + INR r / INR m * (p' - p) - (p + (INR r + 1) / INR m * (p' - p))) with ((p - p') / INR m) by (field; lra).
    field. lra.
  Qed.
  Lemma refine_crossings d is' : all_crossings d y is' -> all_crossings d x (map (fun j => (j / m)%nat) is').
  Proof.
    intros [As Is].
    assert (Cell : forall j, In j is' -> exists q r, j = (q * m + r)%nat /\ (r < m)%nat /\ (S q < length x)%nat /\ (j / m)%nat = q).
    { intros j Hj. apply Is in Hj. destruct Hj as [Hj _]. destruct (refine_cell j Hj) as (q & r & E & Hr & Hq). exists q, r.
      repeat split; auto. rewrite E, Nat.add_comm, Nat.div_add, (Nat.div_small r m) by lia. lia. }
    split.
    - intros i j Hij. rewrite map_length in Hij.
      assert (Nn : forall l, (l < length is')%nat -> nth l (map (fun j => (j / m)%nat) is') 0%nat = (nth l is' 0 / m)%nat).
      { intros l Hl. rewrite (nth_indep _ 0%nat (0 / m)%nat) by (rewrite map_length; auto). apply (map_nth (fun j => (j / m)%nat)). }
      rewrite !Nn by lia.
      specialize (As i j Hij).
      destruct (Cell (nth i is' 0%nat)) as (q & r & E & Hr & Hq & Eq); [apply nth_In; lia|].
      destruct (Cell (nth j is' 0%nat)) as (q' & r' & E' & Hr' & Hq' & Eq'); [apply nth_In; lia|].
      rewrite Eq, Eq'. destruct (Nat.lt_trichotomy q q') as [L|[L|L]]; auto; exfalso; [|nia].
      rewrite <- L in E'. apply (refine_crosses_once d q r r'); auto; [nia| |].
      + rewrite <- E. apply Is, nth_In. lia.
      + rewrite <- E'. apply Is, nth_In. lia.
    - intros q. rewrite in_map_iff. split.
      + intros (j & Ej & Hj). destruct (Cell j Hj) as (q' & r & E & Hr & Hq & Eq). rewrite Ej in Eq. subst q'.
        apply (refine_crosses_coarse d q r); auto. rewrite <- E. apply Is; auto.
      + intros C. destruct (refine_crosses_fine d q C) as (r & Hr & Cr). exists (q * m + r)%nat. split.
        * rewrite Nat.add_comm, Nat.div_add, (Nat.div_small r m) by lia. lia.
        * apply Is; auto.
  Qed.

  (** a fine sample between two crossings of the same direction: a sample, or between two samples that
      both lie between the crossings, or in one of the two cells with a crossing *)
  Lemma fine_window t0 dt d qa qb j : 0 < dt -> (qa < qb)%nat -> Rcrosses d x qa -> Rcrosses d x qb ->
    let lo := ctime t0 dt x qa in let hi := ctime t0 dt x qb in
    (j < length y)%nat -> lo <= t0 + INR j * (dt / INR m) <= hi ->
    (exists i, (i < length x)%nat /\ j = (i * m)%nat /\ lo <= t0 + INR i * dt <= hi)
    \/ (exists q r, j = (q * m + r)%nat /\ (0 < r < m)%nat /\ (S q < length x)%nat /\ lo <= t0 + INR q * dt <= hi
         /\ lo <= t0 + INR (S q) * dt <= hi)
    \/ (exists r, j = (qa * m + r)%nat /\ (0 < r < m)%nat
         /\ match d with Down => nth (S qa) x 0 < nth j y 0 <= 0 | Up => 0 <= nth j y 0 < nth (S qa) x 0 end)
    \/ (exists r, j = (qb * m + r)%nat /\ (0 < r < m)%nat
         /\ match d with Down => 0 <= nth j y 0 < nth qb x 0 | Up => nth qb x 0 < nth j y 0 <= 0 end).
  Proof.
    intros Hdt Hq Ca Cb lo hi Hj Hw.
    assert (Im : 0 < INR m) by (apply lt_0_INR; auto).
    pose proof (ctime_bounds t0 dt x d qa Hdt Ca) as Ba. pose proof (ctime_bounds t0 dt x d qb Hdt Cb) as Bb.
    fold lo in Ba. fold hi in Bb.
    assert (Iq : INR qa + 1 <= INR qb) by (rewrite <- S_INR; apply le_INR; lia).
    destruct (Nat.eq_dec (j mod m) 0) as [Er|Er].
    { left. exists (j / m)%nat. pose proof (Nat.div_mod j m ltac:(lia)) as E. rewrite Er in E.
      assert (E' : j = (j / m * m)%nat) by lia. rewrite refine_length in Hj. split.
      - apply Nat.div_lt_upper_bound; [lia|]. nia.
      - split; [auto|]. rewrite E' in Hw. rewrite mult_INR in Hw.
        replace (INR (j / m) * INR m * (dt / INR m)) with (INR (j / m) * dt) in Hw by (field; lra). exact Hw. }
    destruct (refine_cell j) as (q & r & Ej & Hr & Hq').
    { rewrite refine_length in *. destruct (Nat.eq_dec (S j) ((length x - 1) * m + 1)) as [E|E]; [|lia].
      exfalso. apply Er. replace j with ((length x - 1) * m)%nat by lia. apply Nat.mod_mul. lia. }
    assert (Hr0 : (0 < r)%nat).
    { destruct r; [|lia]. exfalso. apply Er. rewrite Ej, Nat.add_0_r. apply Nat.mod_mul. lia. }
    assert (Tj : t0 + INR j * (dt / INR m) = t0 + INR q * dt + INR r / INR m * dt).
    { rewrite Ej, plus_INR, mult_INR. field. lra. }
    rewrite Tj in Hw. assert (Yj : nth j y 0 = nth q x 0 + INR r / INR m * (nth (S q) x 0 - nth q x 0)) by (rewrite Ej; apply refine_at; auto; lia).
    pose proof (frac_lt 0 r Hr0) as U0. pose proof (frac_lt r m Hr) as U1. cbn [INR] in U0.
    replace (0 / INR m) with 0 in U0 by (unfold Rdiv; ring). replace (INR m / INR m) with 1 in U1 by (field; lra).
    set (u := INR r / INR m) in *. clearbody u.
    assert (Qa : (qa <= q)%nat).
    { destruct (Nat.lt_ge_cases q qa) as [L|L]; auto. exfalso. assert (INR q + 1 <= INR qa) by (rewrite <- S_INR; apply le_INR; lia). nra. }
    assert (Qb : (q <= qb)%nat).
    { destruct (Nat.lt_ge_cases qb q) as [L|L]; auto. exfalso. assert (INR qb + 1 <= INR q) by (rewrite <- S_INR; apply le_INR; lia). nra. }
    right. destruct (Nat.eq_dec q qb) as [->|Nb].
    - right. right. exists r. split; [auto|]. split; [lia|]. rewrite Yj.
      destruct Cb as [_ Cb]. set (p := nth qb x 0) in *. set (p' := nth (S qb) x 0) in *.
      assert (Hu : u * dt <= dt * (p / (p - p'))) by (unfold hi, ctime in Hw; fold p p' in Hw; lra).
      assert (Hu' : u <= p / (p - p')) by nra.
      destruct d.
      + assert (u * (p' - p) <= - p).
        { replace (p / (p - p')) with (- p / (p' - p)) in Hu' by (field; lra).
          apply (Rmult_le_compat_r (p' - p)) in Hu'; [|lra]. unfold Rdiv in Hu'. rewrite Rmult_assoc, Rinv_l in Hu' by lra. lra. }
        nra.
      + assert (u * (p - p') <= p).
        { apply (Rmult_le_compat_r (p - p')) in Hu'; [|lra]. unfold Rdiv in Hu'. rewrite Rmult_assoc, Rinv_l in Hu' by lra. lra. }
        nra.
    - assert (Iqb : INR (S q) <= INR qb) by (apply le_INR; lia). rewrite S_INR in Iqb.
      destruct (Rle_lt_dec lo (t0 + INR q * dt)) as [Lo|Lo].
      + left. exists q, r. split; [auto|]. split; [lia|]. split; [auto|]. rewrite S_INR. split; nra.
      + assert (q = qa).
        { destruct (Nat.eq_dec q qa) as [E|E]; auto. exfalso. assert (INR qa + 1 <= INR q) by (rewrite <- S_INR; apply le_INR; lia). nra. }
        subst q. right. left. exists r. split; [auto|]. split; [lia|]. rewrite Yj.
        destruct Ca as [_ Ca]. set (p := nth qa x 0) in *. set (p' := nth (S qa) x 0) in *.
        assert (Hu : dt * (p / (p - p')) <= u * dt) by (unfold lo, ctime in Hw; fold p p' in Hw; lra).
        assert (Hu' : p / (p - p') <= u) by nra.
        destruct d.
        * assert (- p <= u * (p' - p)).
          { replace (p / (p - p')) with (- p / (p' - p)) in Hu' by (field; lra).
            apply (Rmult_le_compat_r (p' - p)) in Hu'; [|lra]. unfold Rdiv in Hu'. rewrite Rmult_assoc, Rinv_l in Hu' by lra. lra. }
          nra.
        * assert (p <= u * (p - p')).
          { apply (Rmult_le_compat_r (p - p')) in Hu'; [|lra]. unfold Rdiv in Hu'. rewrite Rmult_assoc, Rinv_l in Hu' by lra. lra. }
          nra.
  Qed.

  Lemma fine_axis t0 dt j : (j < length y)%nat -> nth j (axis t0 (dt / INR m) (length y)) 0 = t0 + INR j * (dt / INR m).
  Proof. intros H. apply axis_nth. exact H. Qed.
  Lemma fine_time t0 dt i : t0 + INR (i * m) * (dt / INR m) = t0 + INR i * dt.
  Proof. rewrite mult_INR. field. assert (0 < INR m) by (apply lt_0_INR; auto). lra. Qed.
  Lemma fine_index i : (i < length x)%nat -> (i * m < length y)%nat.
  Proof. rewrite refine_length. nia. Qed.

  Lemma fine_max t0 dt d qa qb v tv : 0 < dt -> (qa < qb)%nat -> Rcrosses d x qa -> Rcrosses d x qb ->
    let lo := ctime t0 dt x qa in let hi := ctime t0 dt x qb in
    first_max_on (axis t0 dt (length x)) x lo hi v tv ->
    forall v' tv', first_max_on (axis t0 (dt / INR m) (length y)) y lo hi v' tv' ->
      v' = v /\ (v <> 0 -> tv' = tv).
  Proof.
    intros Hdt Hq Ca Cb lo hi (i & Hi & Hab & -> & -> & M & M1) v' tv' Fm.
    rewrite axis_length in Hi. rewrite axis_nth in * by auto.
    assert (M0 : forall l, (l < length x)%nat -> lo <= t0 + INR l * dt <= hi -> nth l x 0 <= nth i x 0).
    { intros l Hl Hlab. apply M; [rewrite axis_length; auto|rewrite axis_nth by auto; auto]. }
    assert (M2 : forall l, (l < i)%nat -> lo <= t0 + INR l * dt <= hi -> nth l x 0 < nth i x 0).
    { intros l Hl Hlab. apply M1; auto. rewrite axis_nth by lia. auto. }
    clear M M1.
    pose proof (ctime_bounds t0 dt x d qa Hdt Ca) as Ba. pose proof (ctime_bounds t0 dt x d qb Hdt Cb) as Bb.
    fold lo in Ba. fold hi in Bb.
    assert (Iq : INR qa + 1 <= INR qb) by (rewrite <- S_INR; apply le_INR; lia).
    assert (Xa : nth (S qa) x 0 <= nth i x 0) by (destruct Ca as [Ca _]; apply M0; [lia|rewrite S_INR; nra]).
    assert (Xb : nth qb x 0 <= nth i x 0) by (destruct Cb as [Cb _]; apply M0; [lia|nra]).
    assert (UB : forall j, (j < length y)%nat -> lo <= t0 + INR j * (dt / INR m) <= hi ->
                 nth j y 0 <= nth i x 0 /\ ((j < i * m)%nat -> nth i x 0 <> 0 -> nth j y 0 < nth i x 0)).
    { intros j Hj Hw. destruct (fine_window t0 dt d qa qb j Hdt Hq Ca Cb Hj Hw) as [(l & Hl & -> & Hlw)|[(q & r & Ej & Hr & Hq' & W1 & W2)|[(r & Ej & Hr & V)|(r & Ej & Hr & V)]]].
      - rewrite refine_sample by auto. split; [auto|]. intros Hlt _. apply M2; auto. nia.
      - rewrite Ej, refine_at by lia. pose proof (M0 q ltac:(lia) W1) as A1. pose proof (M0 (S q) Hq' W2) as A2.
        pose proof (frac_bounds r ltac:(lia)). pose proof (frac_lt r m ltac:(lia)) as U1.
        replace (INR m / INR m) with 1 in U1 by (field; assert (0 < INR m) by (apply lt_0_INR; auto); lra).
        set (u := INR r / INR m) in *. clearbody u. split; [nra|]. intros Hlt _. pose proof (M2 q ltac:(nia) W1). nra.
      - destruct d.
        + split; [lra|]. intros; lra.
        + split; [destruct Cb as [_ Cb]; lra|]. intros _ Nz. destruct Cb as [_ Cb]. lra.
      - destruct d.
        + split; [destruct Ca as [_ Ca]; lra|]. intros _ Nz. destruct Ca as [_ Ca]. lra.
        + split; [lra|]. intros; lra. }
    assert (Fi : (i * m < length y)%nat) by (apply fine_index; auto).
    assert (Fw : lo <= t0 + INR (i * m) * (dt / INR m) <= hi) by (rewrite fine_time; auto).
    assert (Ev : v' = nth i x 0).
    { destruct Fm as (j & Hj & Hjw & _ & -> & Mj & _). rewrite axis_length in Hj. rewrite fine_axis in Hjw by auto.
      apply Rle_antisym; [apply UB; auto|].
      rewrite <- (refine_sample i) by auto. apply Mj; [rewrite axis_length; auto|rewrite fine_axis by auto; exact Fw]. }
    split; [exact Ev|]. intros Nz.
    assert (Fm2 : first_max_on (axis t0 (dt / INR m) (length y)) y lo hi (nth i x 0) (t0 + INR i * dt)).
    { exists (i * m)%nat. rewrite axis_length. split; [auto|]. rewrite fine_axis by auto. split; [exact Fw|].
      split; [symmetry; apply fine_time|]. split; [symmetry; apply refine_sample; auto|]. split.
      - intros j Hj Hjw. rewrite fine_axis in Hjw by auto. apply UB; auto.
      - intros j Hj Hjw. rewrite fine_axis in Hjw by lia. apply UB; auto; lia. }
    eapply first_max_unique; [|exact Fm|exact Fm2].
    apply axis_increasing. apply Rmult_lt_0_compat; auto. apply Rinv_0_lt_compat, lt_0_INR; auto.
  Qed.
  Lemma fine_min t0 dt d qa qb v tv : 0 < dt -> (qa < qb)%nat -> Rcrosses d x qa -> Rcrosses d x qb ->
    let lo := ctime t0 dt x qa in let hi := ctime t0 dt x qb in
    first_min_on (axis t0 dt (length x)) x lo hi v tv ->
    forall v' tv', first_min_on (axis t0 (dt / INR m) (length y)) y lo hi v' tv' ->
      v' = v /\ (v <> 0 -> tv' = tv).
  Proof.
    intros Hdt Hq Ca Cb lo hi (i & Hi & Hab & -> & -> & M & M1) v' tv' Fm.
    rewrite axis_length in Hi. rewrite axis_nth in * by auto.
    assert (M0 : forall l, (l < length x)%nat -> lo <= t0 + INR l * dt <= hi -> nth i x 0 <= nth l x 0).
    { intros l Hl Hlab. apply M; [rewrite axis_length; auto|rewrite axis_nth by auto; auto]. }
    assert (M2 : forall l, (l < i)%nat -> lo <= t0 + INR l * dt <= hi -> nth i x 0 < nth l x 0).
    { intros l Hl Hlab. apply M1; auto. rewrite axis_nth by lia. auto. }
    clear M M1.
    pose proof (ctime_bounds t0 dt x d qa Hdt Ca) as Ba. pose proof (ctime_bounds t0 dt x d qb Hdt Cb) as Bb.
    fold lo in Ba. fold hi in Bb.
    assert (Iq : INR qa + 1 <= INR qb) by (rewrite <- S_INR; apply le_INR; lia).
    assert (Xa : nth i x 0 <= nth (S qa) x 0) by (destruct Ca as [Ca _]; apply M0; [lia|rewrite S_INR; nra]).
    assert (Xb : nth i x 0 <= nth qb x 0) by (destruct Cb as [Cb _]; apply M0; [lia|nra]).
    assert (UB : forall j, (j < length y)%nat -> lo <= t0 + INR j * (dt / INR m) <= hi ->
                 nth i x 0 <= nth j y 0 /\ ((j < i * m)%nat -> nth i x 0 <> 0 -> nth i x 0 < nth j y 0)).
    { intros j Hj Hw. destruct (fine_window t0 dt d qa qb j Hdt Hq Ca Cb Hj Hw) as [(l & Hl & -> & Hlw)|[(q & r & Ej & Hr & Hq' & W1 & W2)|[(r & Ej & Hr & V)|(r & Ej & Hr & V)]]].
      - rewrite refine_sample by auto. split; [auto|]. intros Hlt _. apply M2; auto. nia.
      - rewrite Ej, refine_at by lia. pose proof (M0 q ltac:(lia) W1) as A1. pose proof (M0 (S q) Hq' W2) as A2.
        pose proof (frac_bounds r ltac:(lia)). pose proof (frac_lt r m ltac:(lia)) as U1.
        replace (INR m / INR m) with 1 in U1 by (field; assert (0 < INR m) by (apply lt_0_INR; auto); lra).
        set (u := INR r / INR m) in *. clearbody u. split; [nra|]. intros Hlt _. pose proof (M2 q ltac:(nia) W1). nra.
      - destruct d.
        + split; [destruct Cb as [_ Cb]; lra|]. intros _ Nz. destruct Cb as [_ Cb]. lra.
        + split; [lra|]. intros; lra.
      - destruct d.
        + split; [lra|]. intros; lra.
        + split; [destruct Ca as [_ Ca]; lra|]. intros _ Nz. destruct Ca as [_ Ca]. lra. }
    assert (Fi : (i * m < length y)%nat) by (apply fine_index; auto).
    assert (Fw : lo <= t0 + INR (i * m) * (dt / INR m) <= hi) by (rewrite fine_time; auto).
    assert (Ev : v' = nth i x 0).
    { destruct Fm as (j & Hj & Hjw & _ & -> & Mj & _). rewrite axis_length in Hj. rewrite fine_axis in Hjw by auto.
      apply Rle_antisym; [|apply UB; auto].
      rewrite <- (refine_sample i) by auto. apply Mj; [rewrite axis_length; auto|rewrite fine_axis by auto; exact Fw]. }
    split; [exact Ev|]. intros Nz.
    assert (Fm2 : first_min_on (axis t0 (dt / INR m) (length y)) y lo hi (nth i x 0) (t0 + INR i * dt)).
    { exists (i * m)%nat. rewrite axis_length. split; [auto|]. rewrite fine_axis by auto. split; [exact Fw|].
      split; [symmetry; apply fine_time|]. split; [symmetry; apply refine_sample; auto|]. split.
      - intros j Hj Hjw. rewrite fine_axis in Hjw by auto. apply UB; auto.
      - intros j Hj Hjw. rewrite fine_axis in Hjw by lia. apply UB; auto; lia. }
    eapply first_min_unique; [|exact Fm|exact Fm2].
    apply axis_increasing. apply Rmult_lt_0_compat; auto. apply Rinv_0_lt_compat, lt_0_INR; auto.
  Qed.
End Refine.

(** two waves with the same height, period, crest and trough, and with the same crest (trough) time
    unless the crest (trough) is exactly 0 *)
Definition same_wave (w w' : wave NX) : Prop :=
  w_h w' = w_h w /\ w_t w' = w_t w /\ w_crest w' = w_crest w /\ w_trough w' = w_trough w
  /\ (w_crest w <> Fin 0 -> w_tcrest w' = w_tcrest w) /\ (w_trough w <> Fin 0 -> w_ttrough w' = w_ttrough w).

(** adding linearly interpolated samples changes no crossing time and no wave *)
Theorem C86_refine (t0 dt : R) (x : list R) (m : nat) (s : string) (d : direction) :
  names s d -> 0 < dt -> (2 <= length x)%nat -> (0 < m)%nat ->
  exists n tau ws ws',
    analysed t0 dt x s n tau ws /\ analysed t0 (dt / INR m) (refine m x) s n tau ws'
    /\ Forall2 same_wave ws ws'.
Proof.
  intros Hn Hdt H2 Hm. assert (Im : 0 < INR m) by (apply lt_0_INR; auto).
  assert (Hdt' : 0 < dt / INR m) by (apply Rmult_lt_0_compat; auto; apply Rinv_0_lt_compat; auto).
  destruct (analysed_elim t0 dt x s d Hn Hdt H2) as (is & ws & C & A & L & W).
  destruct (analysed_elim t0 (dt / INR m) (refine m x) s d Hn Hdt') as (is' & ws' & C' & A' & L' & W').
  { rewrite refine_length by auto. nia. }
  pose proof (refine_crossings m x Hm H2 d is' C') as C0.
  assert (E : map (fun j => (j / m)%nat) is' = is) by (apply (all_crossings_unique d x); auto).
  assert (El : length is' = length is) by (rewrite <- E, map_length; reflexivity).
  assert (En : forall k, (k < length is)%nat ->
     nth k is 0%nat = (nth k is' 0 / m)%nat /\ ctime t0 (dt / INR m) (refine m x) (nth k is' 0%nat) = ctime t0 dt x (nth k is 0%nat)).
  { intros k Hk. assert (E1 : nth k is 0%nat = (nth k is' 0 / m)%nat).
    { rewrite <- E. rewrite (nth_indep _ 0%nat (0 / m)%nat) by (rewrite map_length; lia). apply (map_nth (fun j => (j / m)%nat)). }
    split; [exact E1|].
    assert (Ck : Rcrosses d (refine m x) (nth k is' 0%nat)) by (apply C', nth_In; lia).
    destruct (refine_cell m x Hm H2 (nth k is' 0%nat) (proj1 Ck)) as (q & r & Ej & Hr & Hq).
    assert (Eq : (nth k is' 0 / m)%nat = q) by (rewrite Ej, Nat.add_comm, Nat.div_add, (Nat.div_small r m) by lia; lia).
    rewrite E1, Eq. rewrite Ej in *. apply (refine_ctime m x Hm H2 t0 dt d); auto. }
  assert (Et : map (ctime t0 (dt / INR m) (refine m x)) is' = map (ctime t0 dt x) is).
  { apply (nth_ext' _ _ 0); [rewrite !map_length; auto|]. intros k Hk. rewrite map_length in Hk.
    rewrite (nth_indep _ 0 (ctime t0 (dt / INR m) (refine m x) 0%nat)) by (rewrite map_length; auto).
    rewrite (map_nth (ctime t0 (dt / INR m) (refine m x))).
    rewrite (nth_indep _ 0 (ctime t0 dt x 0%nat)) by (rewrite map_length; lia). rewrite (map_nth (ctime t0 dt x)).
    apply En. lia. }
  rewrite Et, El in A'. eexists _, _, ws, ws'. split; [exact A|]. split; [exact A'|].
  assert (Lw : length ws' = length ws) by lia.
  assert (P : forall k, (k < length ws)%nat -> same_wave (nth k ws dwave) (nth k ws' dwave)).
  { intros k Hk. specialize (W k Hk). specialize (W' k ltac:(lia)).
    rewrite (proj2 (En k ltac:(lia))), (proj2 (En (S k) ltac:(lia))) in W'.
    destruct W as (c & tr & tc & tt & -> & X1 & X2). destruct W' as (c' & tr' & tc' & tt' & -> & X1' & X2').
    assert (Ca : Rcrosses d x (nth k is 0%nat)) by (apply C, nth_In; lia).
    assert (Cb : Rcrosses d x (nth (S k) is 0%nat)) by (apply C, nth_In; lia).
    assert (Hab : (nth k is 0 < nth (S k) is 0)%nat) by (apply C; lia).
    destruct (fine_max m x Hm H2 t0 dt d _ _ _ _ Hdt Hab Ca Cb X1 _ _ X1') as [-> T1].
    destruct (fine_min m x Hm H2 t0 dt d _ _ _ _ Hdt Hab Ca Cb X2 _ _ X2') as [-> T2].
    unfold same_wave. cbn [w_h w_t w_crest w_trough w_tcrest w_ttrough]. repeat split; auto; intros Hz; f_equal; [apply T1|apply T2]; congruence. }
  clear - Lw P. revert ws' Lw P. induction ws as [|w ws IH]; intros [|w' ws'] Lw P; cbn in Lw; try lia; constructor.
  - apply (P 0%nat). cbn; lia.
  - apply IH; [lia|]. intros k Hk. apply (P (S k)). cbn; lia.
Qed.

(** ** The record played backwards *)
Section Backwards.
  Variables (t0 dt : R) (x : list R).
  Hypotheses (Hdt : 0 < dt) (H2 : (2 <= length x)%nat) (Hnz : forall i, (i < length x)%nat -> nth i x 0 <> 0).
  Let n := length x.
  Lemma rev_at j : (j < n)%nat -> nth j (rev x) 0 = nth (n - 1 - j) x 0.
  Proof. intros H. rewrite rev_nth by auto. f_equal. unfold n in *. lia. Qed.
  Lemma rev_crosses d i : (S i < n)%nat -> Rcrosses d x i <-> Rcrosses (flip d) (rev x) (n - 2 - i).
  Proof.
    intros Hi. unfold Rcrosses. rewrite rev_length. fold n. replace (S (n - 2 - i)) with (n - 1 - i)%nat by lia.
    rewrite !rev_at by lia. replace (n - 1 - (n - 2 - i))%nat with (S i) by lia. replace (n - 1 - (n - 1 - i))%nat with i by lia.
    pose proof (Hnz i ltac:(unfold n in *; lia)). pose proof (Hnz (S i) Hi).
    destruct d; cbn [flip]; split; intros [? ?]; (split; [lia|lra]).
  Qed.
  Lemma rev_ctime d i : Rcrosses d x i -> ctime t0 dt (rev x) (n - 2 - i) = 2 * t0 + INR (n - 1) * dt - ctime t0 dt x i.
  Proof.
    intros [Hi C]. fold n in Hi. unfold ctime. replace (S (n - 2 - i)) with (n - 1 - i)%nat by lia.
    rewrite !rev_at by lia. replace (n - 1 - (n - 2 - i))%nat with (S i) by lia. replace (n - 1 - (n - 1 - i))%nat with i by lia.
    replace (INR (n - 2 - i)) with (INR (n - 1) - INR i - 1).
    2:{ rewrite !minus_INR by lia. cbn [INR]. ring. }
    set (p := nth i x 0) in *. set (p' := nth (S i) x 0) in *. assert (p <> p') by (destruct d; lra). field. lra.
  Qed.
  Lemma rev_crossings d is : all_crossings d x is ->
    all_crossings (flip d) (rev x) (rev (map (fun i => (n - 2 - i)%nat) is)).
  Proof.
    intros [As Is].
    assert (B : forall i, In i is -> (S i < n)%nat) by (intros i Hi; apply Is in Hi; apply Hi).
    split.
    - intros i j Hij. rewrite rev_length, map_length in Hij. rewrite !rev_nth by (rewrite map_length; lia). rewrite map_length.
      assert (Nn : forall l, (l < length is)%nat -> nth l (map (fun i => (n - 2 - i)%nat) is) 0%nat = (n - 2 - nth l is 0%nat)%nat).
      { intros l Hl. rewrite (nth_indep _ 0%nat (n - 2 - 0)%nat) by (rewrite map_length; auto). apply (map_nth (fun i => (n - 2 - i)%nat)). }
      rewrite !Nn by lia. specialize (As (length is - S j)%nat (length is - S i)%nat ltac:(lia)).
      pose proof (B _ (nth_In is 0%nat (ltac:(lia) : (length is - S i < length is)%nat))).
      lia.
    - intros j. rewrite <- in_rev, in_map_iff. split.
      + intros (i & <- & Hi). apply rev_crosses; auto. apply Is; auto.
      + intros C. assert (Hj : (S j < n)%nat) by (destruct C as [C _]; rewrite rev_length in C; exact C).
        exists (n - 2 - j)%nat. split; [lia|]. apply Is. apply (rev_crosses d (n - 2 - j)); [lia|].
        replace (n - 2 - (n - 2 - j))%nat with j by lia. exact C.
  Qed.
  Lemma rev_extremes lo hi v tv u tu v' tv' u' tu' :
    let c := 2 * t0 + INR (n - 1) * dt in
    first_max_on (axis t0 dt n) x lo hi v tv -> first_min_on (axis t0 dt n) x lo hi u tu ->
    first_max_on (axis t0 dt (length (rev x))) (rev x) (c - hi) (c - lo) v' tv' ->
    first_min_on (axis t0 dt (length (rev x))) (rev x) (c - hi) (c - lo) u' tu' -> v' = v /\ u' = u.
  Proof.
    intros c (i & Hi & Wi & _ & -> & Mi & _) (j & Hj & Wj & _ & -> & Mj & _)
           (i' & Hi' & Wi' & _ & -> & Mi' & _) (j' & Hj' & Wj' & _ & -> & Mj' & _).
    rewrite axis_length in Hi, Hj, Hi', Hj', Mi, Mj, Mi', Mj'. rewrite rev_length in Hi', Hj', Wi', Wj', Mi', Mj'. fold n in Hi, Hj, Hi', Hj', Wi', Wj', Mi, Mj, Mi', Mj'.
    assert (T : forall l, (l < n)%nat -> nth (n - 1 - l) (axis t0 dt n) 0 = c - nth l (axis t0 dt n) 0).
    { intros l Hl. rewrite !axis_nth by lia. unfold c. rewrite !minus_INR by lia. cbn [INR]. ring. }
    assert (T2 : forall l, (l < n)%nat -> nth l (rev x) 0 = nth (n - 1 - l) x 0) by (intros; apply rev_at; auto).
    assert (T3 : forall l, (l < n)%nat -> nth (n - 1 - l) (rev x) 0 = nth l x 0).
    { intros l Hl. rewrite T2 by lia. f_equal. lia. }
    split; apply Rle_antisym.
    - rewrite T2 by auto. apply Mi; [lia|]. rewrite T by auto. lra.
    - rewrite <- (T3 i) by auto. apply Mi'; [lia|]. rewrite T by auto. lra.
    - rewrite <- (T3 j) by auto. apply Mj'; [lia|]. rewrite T by auto. lra.
    - rewrite T2 by auto. apply Mj; [lia|]. rewrite T by auto. lra.
  Qed.
End Backwards.

(** a record without samples equal to 0, played backwards: the waves of the other direction are the
    same waves in reverse order, at the mirrored times *)
Theorem C86_backwards (t0 dt : R) (x : list R) (s s' : string) (d : direction) :
  names s d -> names s' (flip d) -> 0 < dt -> (2 <= length x)%nat -> (forall v, In v x -> v <> 0) ->
  exists n tau ws ws',
    analysed t0 dt x s n tau ws
    /\ analysed t0 dt (rev x) s' n (rev (map (fun v => 2 * t0 + INR (length x - 1) * dt - v) tau)) ws'
    /\ map (w_h (N:=NX)) ws' = rev (map (w_h (N:=NX)) ws) /\ map (w_t (N:=NX)) ws' = rev (map (w_t (N:=NX)) ws)
    /\ map (w_crest (N:=NX)) ws' = rev (map (w_crest (N:=NX)) ws)
    /\ map (w_trough (N:=NX)) ws' = rev (map (w_trough (N:=NX)) ws).
Proof.
  intros Hn Hn' Hdt H2 Hnz0.
  assert (Hnz : forall i, (i < length x)%nat -> nth i x 0 <> 0) by (intros i Hi; apply Hnz0, nth_In; auto).
  destruct (analysed_elim t0 dt x s d Hn Hdt H2) as (is & ws & C & A & L & W).
  destruct (analysed_elim t0 dt (rev x) s' (flip d) Hn' Hdt) as (is' & ws' & C' & A' & L' & W'); [rewrite rev_length; auto|].
  set (n := length x) in *. set (c := 2 * t0 + INR (n - 1) * dt).
  assert (E : is' = rev (map (fun i => (n - 2 - i)%nat) is)).
  { apply (all_crossings_unique (flip d) (rev x)); auto. apply (rev_crossings x H2 Hnz); auto. }
  assert (Et : map (ctime t0 dt (rev x)) is' = rev (map (fun v => c - v) (map (ctime t0 dt x) is))).
  { rewrite E, map_rev, !map_map. f_equal. apply map_ext_in. intros i Hi. apply (rev_ctime t0 dt x H2 d). apply C; auto. }
  assert (El : length is' = length is) by (rewrite E, rev_length, map_length; auto).
  rewrite Et, El in A'. eexists _, _, ws, ws'. split; [exact A|]. split; [exact A'|].
  assert (Lw : length ws' = length ws) by lia.
  assert (Nk : forall k, (k < length is)%nat -> ctime t0 dt (rev x) (nth k is' 0%nat) = c - ctime t0 dt x (nth (length is - 1 - k) is 0%nat)).
  { intros k Hk. rewrite E, rev_nth by (rewrite map_length; auto). rewrite map_length.
    rewrite (nth_indep _ 0%nat (n - 2 - 0)%nat) by (rewrite map_length; lia). rewrite (map_nth (fun i => (n - 2 - i)%nat)).
    replace (length is - S k)%nat with (length is - 1 - k)%nat by lia. apply (rev_ctime t0 dt x H2 d). apply C, nth_In. lia. }
  assert (P : forall k, (k < length ws)%nat ->
    let w := nth (length ws - 1 - k) ws dwave in let w' := nth k ws' dwave in
    w_h w' = w_h w /\ w_t w' = w_t w /\ w_crest w' = w_crest w /\ w_trough w' = w_trough w).
  { intros k Hk w w'. pose proof (W (length ws - 1 - k)%nat ltac:(lia)) as Wk. fold w in Wk. pose proof (W' k ltac:(lia)) as Wk'. fold w' in Wk'.
    rewrite (Nk k), (Nk (S k)) in Wk' by lia.
    replace (length is - 1 - k)%nat with (S (length ws - 1 - k)) in Wk' by lia.
    replace (length is - 1 - S k)%nat with (length ws - 1 - k)%nat in Wk' by lia.
    destruct Wk as (cr & tr & tc & tt & -> & X1 & X2). destruct Wk' as (cr' & tr' & tc' & tt' & -> & X1' & X2').
    destruct (rev_extremes t0 dt x H2 _ _ _ _ _ _ _ _ _ _ X1 X2 X1' X2') as [-> ->].
    cbn [w_h w_t w_crest w_trough]. repeat split; auto. f_equal. ring. }
  assert (G : forall (g : wave NX -> NX), (forall k, (k < length ws)%nat -> g (nth k ws' dwave) = g (nth (length ws - 1 - k) ws dwave)) ->
    map g ws' = rev (map g ws)).
  { intros g Hg. apply (nth_ext' _ _ (g dwave)); [rewrite rev_length, !map_length; auto|]. intros k Hk. rewrite map_length in Hk.
    rewrite rev_nth by (rewrite map_length; lia). rewrite !(map_nth g), map_length. rewrite Hg by lia. do 2 f_equal. lia. }
  repeat split; apply G; intros k Hk; apply (P k Hk).
Qed.

(** ** The same for Series objects *)
(** an object made from a record sampled every dt from t0 *)
Definition series_of (t0 dt : R) (x : list R) (o : series NX) : Prop :=
  series_init (Arr (vec (F (axis t0 dt (length x))))) (Arr (vec (F x))) = Ok o.
Definition heights (o : series NX) : list NX := data (wh_h (se_wh o)).
Definition periods (o : series NX) : list NX := data (wh_t (se_wh o)).

Lemma series_analysed t0 dt x : 0 < dt -> (2 <= length x)%nat ->
  exists o n tau ws, series_of t0 dt x o /\ analysed t0 dt x "down" n tau ws
    /\ se_wh o = mkWH (vec (map w_h ws)) (vec (map w_t ws)) (length ws) /\ se_tCross o = F tau.
Proof.
  intros Hdt H2.
  destruct (C16_uniform_accepted t0 dt x (Arr (vec (F (axis t0 dt (length x))))) (Arr (vec (F x))) Hdt H2
              ltac:(constructor) ltac:(constructor)) as (o & tc & ws & E & _ & _ & _ & _ & Z1 & W1 & (S1 & S2 & S3) & T1).
  destruct (analysed_elim t0 dt x "down" Down eq_refl Hdt H2) as (is & ws' & C & [A1 A2] & _).
  pose proof A1 as A1'. rewrite Z1 in A1'. apply Ok_inj in A1'. injection A1' as _ Etc.
  rewrite Etc in W1. rewrite A2 in W1. apply Ok_inj in W1. rewrite W1 in A2.
  exists o, (Z.of_nat (length is - 1)), (map (ctime t0 dt x) is), ws. split; [exact E|]. split; [split; [exact A1|exact A2]|].
  split; [destruct (se_wh o) as [h t n]; cbn in S1, S2, S3; rewrite S1, S2, S3; reflexivity|].
  rewrite T1, Etc. destruct (map (ctime t0 dt x) is); reflexivity.
Qed.

(** interpolated samples do not change what a Series object knows about its waves, hence no answer of
    any later call on them *)
Theorem C86_series_refine (t0 dt : R) (x : list R) (m : nat) :
  0 < dt -> (2 <= length x)%nat -> (0 < m)%nat ->
  exists o o', series_of t0 dt x o /\ series_of t0 (dt / INR m) (refine m x) o'
    /\ se_wh o' = se_wh o /\ se_tCross o' = se_tCross o.
Proof.
  intros Hdt H2 Hm. assert (Im : 0 < INR m) by (apply lt_0_INR; auto).
  assert (Hdt' : 0 < dt / INR m) by (apply Rmult_lt_0_compat; auto; apply Rinv_0_lt_compat; auto).
  destruct (series_analysed t0 dt x Hdt H2) as (o & n & tau & ws & E & A & Ew & Et).
  destruct (series_analysed t0 (dt / INR m) (refine m x) Hdt') as (o' & n' & tau' & ws' & E' & A' & Ew' & Et').
  { rewrite refine_length by auto. nia. }
  destruct (C86_refine t0 dt x m "down" Down eq_refl Hdt H2 Hm) as (n0 & tau0 & ws0 & ws0' & B & B' & Sw).
  destruct (analysed_unique _ _ _ _ _ _ _ _ _ _ A B) as (-> & -> & ->).
  destruct (analysed_unique _ _ _ _ _ _ _ _ _ _ A' B') as (-> & -> & ->).
  exists o, o'. split; [auto|]. split; [auto|]. rewrite Ew, Ew', Et, Et'. split; [|reflexivity].
  assert (map (w_h (N:=NX)) ws0' = map (w_h (N:=NX)) ws0 /\ map (w_t (N:=NX)) ws0' = map (w_t (N:=NX)) ws0 /\ length ws0' = length ws0)
    as (-> & -> & ->); [|reflexivity].
  clear - Sw. induction Sw as [|w w' l l' (P1 & P2 & _) Sw IH]; [auto|]. destruct IH as (I1 & I2 & I3). repeat split; cbn [map length]; f_equal; auto.
Qed.

(** a record cut in two at a common sample: the objects of the parts hold the first and the last waves
    of the whole, which has one more if both parts have a crossing *)
Theorem C86_series_split (t0 dt : R) (a : list R) (v : R) (b : list R) :
  0 < dt -> a <> [] -> b <> [] ->
  exists o o1 o2 : series NX,
    series_of t0 dt (a ++ v :: b) o /\ series_of t0 dt (a ++ [v]) o1
    /\ series_of (t0 + INR (length a) * dt) dt (v :: b) o2
    /\ se_tCross o = se_tCross o1 ++ se_tCross o2
    /\ heights o1 = firstn (length (se_tCross o1) - 1) (heights o)
    /\ periods o1 = firstn (length (se_tCross o1) - 1) (periods o)
    /\ heights o2 = skipn (length (se_tCross o1)) (heights o)
    /\ periods o2 = skipn (length (se_tCross o1)) (periods o)
    /\ (se_tCross o1 <> [] -> se_tCross o2 <> [] -> wh_n (se_wh o) = (wh_n (se_wh o1) + 1 + wh_n (se_wh o2))%nat).
Proof.
  intros Hdt Ha Hb.
  assert (La : (0 < length a)%nat) by (destruct a; [contradiction|cbn; lia]).
  assert (Lb : (0 < length b)%nat) by (destruct b; [contradiction|cbn; lia]).
  destruct (series_analysed t0 dt (a ++ v :: b) Hdt) as (o & n & tau & ws & E & A & Ew & Et); [rewrite app_length; cbn; lia|].
  destruct (series_analysed t0 dt (a ++ [v]) Hdt) as (o1 & n1 & tau1 & ws1 & E1 & A1 & Ew1 & Et1); [rewrite app_length; cbn; lia|].
  destruct (series_analysed (t0 + INR (length a) * dt) dt (v :: b) Hdt) as (o2 & n2 & tau2 & ws2 & E2 & A2 & Ew2 & Et2); [cbn; lia|].
  destruct (C86_split t0 dt a v b "down" Down eq_refl Hdt Ha Hb) as (m & mu1 & mu2 & us & us1 & us2 & m1 & m2 & B & B1 & B2 & F1 & F2 & _ & Fl).
  destruct (analysed_unique _ _ _ _ _ _ _ _ _ _ A B) as (-> & -> & ->).
  destruct (analysed_unique _ _ _ _ _ _ _ _ _ _ A1 B1) as (-> & -> & ->).
  destruct (analysed_unique _ _ _ _ _ _ _ _ _ _ A2 B2) as (-> & -> & ->).
  exists o, o1, o2. split; [auto|]. split; [auto|]. split; [auto|].
  unfold heights, periods. rewrite Et, Et1, Et2, Ew, Ew1, Ew2, !F_length. cbn [data vec wh_h wh_t wh_n].
  rewrite !firstn_map, !skipn_map. rewrite <- F1, <- F2.
  split; [unfold F; apply map_app|]. repeat (split; [reflexivity|]).
  intros N1 N2. assert (length mu1 <> 0%nat) by (destruct mu1; [contradiction|discriminate]).
  assert (length mu2 <> 0%nat) by (destruct mu2; [contradiction|discriminate]).
  rewrite app_length in Fl. rewrite F1, F2, firstn_length, skipn_length. lia.
Qed.

(** the record played backwards and turned upside down, without samples equal to 0: the same waves in
    reverse order *)
Theorem C86_series_backwards (t0 dt : R) (x : list R) :
  0 < dt -> (2 <= length x)%nat -> (forall v, In v x -> v <> 0) ->
  exists o o' : series NX, series_of t0 dt x o /\ series_of t0 dt (map Ropp (rev x)) o'
    /\ heights o' = rev (heights o) /\ periods o' = rev (periods o) /\ wh_n (se_wh o') = wh_n (se_wh o).
Proof.
  intros Hdt H2 Hnz.
  destruct (series_analysed t0 dt x Hdt H2) as (o & n & tau & ws & E & A & Ew & Et).
  assert (Ly : (2 <= length (map Ropp (rev x)))%nat) by (rewrite map_length, rev_length; auto).
  destruct (series_analysed t0 dt (map Ropp (rev x)) Hdt Ly) as (o' & n' & tau' & ws' & E' & [A1' A2'] & Ew' & Et').
  destruct (C86_backwards t0 dt x "down" "up" Down eq_refl eq_refl Hdt H2 Hnz) as (m & mu & us & us' & B & [B1' B2'] & Gh & Gt & _).
  destruct (analysed_unique _ _ _ _ _ _ _ _ _ _ A B) as (-> & -> & ->).
  destruct (C57_mirror t0 dt (map Ropp (rev x)) "down" "up" eq_refl eq_refl Hdt Ly) as (p & vs & (tc & D1 & D2) & (tc' & D1' & D2')).
  rewrite map_map in D1', D2'. rewrite (map_ext (fun v => - - v) (fun v => v)), map_id in D1', D2' by (intros; lra).
  rewrite A1' in D1. apply Ok_inj in D1. injection D1 as _ <-. rewrite A2' in D2. apply Ok_inj in D2. subst vs.
  rewrite B1' in D1'. apply Ok_inj in D1'. injection D1' as _ <-. rewrite B2' in D2'. apply Ok_inj in D2'. subst us'.
  rewrite map_map in Gh, Gt.
  exists o, o'. split; [auto|]. split; [auto|]. unfold heights, periods. rewrite Ew, Ew'. cbn [data vec wh_h wh_t wh_n].
  split; [exact Gh|]. split; [exact Gt|]. apply (f_equal (@length NX)) in Gh. rewrite rev_length, !map_length in Gh. exact Gh.
Qed.

(** ** Witnesses and limits *)
Lemma crossings_of d x is : ascending is ->
  (forall i, In i is -> Rcrosses d x i) -> (forall i, Rcrosses d x i -> In i is) -> all_crossings d x is.
Proof. intros A B C. split; [exact A|]. intros i. split; auto. Qed.

Ltac cross_list :=
  apply crossings_of;
  [ let i := fresh in let j := fresh in let H := fresh in
    intros i j H; cbn [length] in H; destruct i as [|[|[|i]]], j as [|[|[|j]]]; cbn; lia
  | let i := fresh in let H := fresh in
    intros i H; cbn in H; repeat (destruct H as [<-|H]; [split; [cbn; lia|cbn; lra]|]); contradiction
  | let i := fresh in let H := fresh in let C := fresh in
    intros i [H C]; cbn [length rev app] in H;
    destruct i as [|[|[|[|[|[|[|[|i]]]]]]]]; cbn in C; try lia; try lra; cbn; auto 10 ].

Ltac times := cbn; unfold ctime; cbn [nth INR]; repeat (refine (f_equal2 (@cons R) _ _); [field|]); reflexivity.

(** a record whose two halves have crossings: the parts have 2 and 1 crossings, the whole has 3 and so
    one wave that no part has *)
Example C86_witness_split : exists n tau ws,
  analysed 0 1 ([1; -1; 1] ++ (-1) :: [1; -2; 3]) "down" n tau ws /\ tau = [1/2; 5/2; 4 + 1/3] /\ length ws = 2%nat
  /\ exists n1 ws1 n2 ws2, analysed 0 1 ([1; -1; 1] ++ [-1]) "down" n1 [1/2; 5/2] ws1
     /\ analysed 3 1 (-1 :: [1; -2; 3]) "down" n2 [4 + 1/3] ws2 /\ length ws1 = 1%nat /\ ws2 = [].
Proof.
  destruct (analysed_elim 0 1 ([1; -1; 1] ++ (-1) :: [1; -2; 3]) "down" Down eq_refl Rlt_0_1 ltac:(cbn; lia)) as (is & ws & C & A & L & _).
  destruct (analysed_elim 0 1 ([1; -1; 1] ++ [-1]) "down" Down eq_refl Rlt_0_1 ltac:(cbn; lia)) as (is1 & ws1 & C1 & A1 & L1 & _).
  destruct (analysed_elim 3 1 (-1 :: [1; -2; 3]) "down" Down eq_refl Rlt_0_1 ltac:(cbn; lia)) as (is2 & ws2 & C2 & A2 & L2 & _).
  assert (is = [0; 2; 4]%nat) as -> by (apply (all_crossings_unique _ _ _ _ C); cross_list).
  assert (is1 = [0; 2]%nat) as -> by (apply (all_crossings_unique _ _ _ _ C1); cross_list).
  assert (is2 = [1]%nat) as -> by (apply (all_crossings_unique _ _ _ _ C2); cross_list).
  eexists _, _, ws. split; [exact A|]. split; [times|]. split; [exact L|].
  exists (Z.of_nat (2 - 1)), ws1, (Z.of_nat (1 - 1)), ws2.
  split; [replace [1/2; 5/2] with (map (ctime 0 1 ([1; -1; 1] ++ [-1])) [0; 2]%nat); [exact A1|times]|].
  split; [replace [4 + 1/3] with (map (ctime 3 1 (-1 :: [1; -2; 3])) [1]%nat); [exact A2|times]|].
  split; [exact L1|]. destruct ws2; [auto|discriminate].
Qed.

(** a sample equal to 0 that the signal only touches counts as a crossing in one direction of play and
    not in the other *)
Theorem C86_backwards_touching_refuted :
  exists (x : list R) n tau ws n' tau' ws',
    analysed 0 1 x "down" n tau ws /\ analysed 0 1 (rev x) "up" n' tau' ws' /\ length tau = 2%nat /\ length tau' = 1%nat.
Proof.
  exists [1; -1; 0; -1].
  destruct (analysed_elim 0 1 [1; -1; 0; -1] "down" Down eq_refl Rlt_0_1 ltac:(cbn; lia)) as (is & ws & C & A & _).
  destruct (analysed_elim 0 1 (rev [1; -1; 0; -1]) "up" Up eq_refl Rlt_0_1 ltac:(cbn; lia)) as (is' & ws' & C' & A' & _).
  assert (is = [0; 2]%nat) as -> by (apply (all_crossings_unique _ _ _ _ C); cross_list).
  assert (is' = [2]%nat) as -> by (apply (all_crossings_unique _ _ _ _ C'); cross_list).
  eexists _, _, ws, _, _, ws'. split; [exact A|]. split; [exact A'|]. split; reflexivity.
Qed.

(** the crest time of a wave whose crest is exactly 0 may move to the crossing when samples are added *)
Theorem C86_refine_crest_time_refuted :
  exists (x : list R) n tau ws ws', analysed 0 1 x "down" n tau ws /\ analysed 0 (1 / INR 2) (refine 2 x) "down" n tau ws'
    /\ map (w_tcrest (N:=NX)) ws = [Fin 2] /\ map (w_tcrest (N:=NX)) ws' = [Fin (1/2)].
Proof.
  exists [1; -1; 0; -1]. assert (I2 : INR 2 = 2) by (cbn; lra).
  destruct (C86_refine 0 1 [1; -1; 0; -1] 2 "down" Down eq_refl Rlt_0_1 ltac:(cbn; lia) ltac:(lia)) as (n & tau & ws & ws' & A & A' & _).
  exists n, tau, ws, ws'. split; [exact A|]. split; [exact A'|].
  assert (H2' : (2 <= length (refine 2 [1; -1; 0; -1]%R))%nat) by (cbn; lia).
  destruct (analysed_elim 0 1 [1; -1; 0; -1] "down" Down eq_refl Rlt_0_1 ltac:(cbn; lia)) as (is & vs & C & B & L & W).
  destruct (analysed_elim 0 (1 / INR 2) (refine 2 [1; -1; 0; -1]) "down" Down eq_refl ltac:(rewrite I2; lra) H2') as (is' & vs' & C' & B' & L' & W').
  destruct (analysed_unique _ _ _ _ _ _ _ _ _ _ A B) as (-> & -> & ->).
  destruct (analysed_unique _ _ _ _ _ _ _ _ _ _ A' B') as (_ & Et & ->).
  assert (is = [0; 2]%nat) as -> by (apply (all_crossings_unique _ _ _ _ C); cross_list).
  assert (El : length is' = 2%nat) by (apply (f_equal (@length R)) in Et; rewrite !map_length in Et; cbn in Et; lia).
  assert (Ts : forall k, (k < 2)%nat -> ctime 0 (1 / INR 2) (refine 2 [1; -1; 0; -1]) (nth k is' 0%nat) = nth k [1/2; 2] 0).
  { intros k Hk. apply (f_equal (fun l => nth k l 0)) in Et.
    rewrite (nth_indep (map _ is') 0 (ctime 0 (1 / INR 2) (refine 2 [1; -1; 0; -1]) 0%nat)) in Et by (rewrite map_length; lia).
    rewrite map_nth in Et. rewrite <- Et. destruct k as [|[|k]]; [cbn; unfold ctime; cbn [nth INR]; field|cbn; unfold ctime; cbn [nth INR]; field|lia]. }
  cbn [length] in L. destruct vs as [|w [|]]; try discriminate L. rewrite El in L'. destruct vs' as [|w' [|]]; try discriminate L'.
  specialize (W 0%nat ltac:(cbn; lia)). specialize (W' 0%nat ltac:(cbn; lia)).
  rewrite (Ts 0%nat), (Ts 1%nat) in W' by lia.
  destruct W as (c & tr & tc & tt & E & (i & Hi & Hw & -> & -> & M & M1) & _).
  destruct W' as (c' & tr' & tc' & tt' & E' & (j & Hj & Hw' & -> & -> & M' & M1') & _).
  cbn [nth] in E, E'. rewrite E, E'. cbn [map w_tcrest].
  rewrite axis_length in Hi, Hj. rewrite axis_nth in * by auto.
  assert (R2 : refine 2 [1; -1; 0; -1] = [1; 0; -1; -1/2; 0; -1/2; -1]).
  { cbn. repeat (refine (f_equal2 (@cons R) _ _); [field|]). reflexivity. }
  rewrite R2 in *.
  split; f_equal; f_equal.
  - unfold ctime in Hw, M. cbn [nth] in Hw, M. cbn [INR] in Hw, M.
    destruct i as [|[|[|[|i]]]]; cbn [INR length] in *; try lia; try lra.
    exfalso. specialize (M 2%nat). rewrite axis_length, axis_nth in M by (cbn; lia). cbn in M. specialize (M ltac:(lia) ltac:(lra)). lra.
  - cbn [nth] in Hw', M', M1'. rewrite I2 in *. rewrite axis_nth by auto.
    destruct j as [|[|j]]; [cbn [INR] in Hw'; lra|cbn [INR]; lra|exfalso].
    specialize (M1' 1%nat ltac:(lia)). rewrite axis_nth in M1' by (cbn; lia). cbn [INR nth] in M1'. specialize (M1' ltac:(lra)).
    cbn [length] in Hj. destruct j as [|[|[|[|[|j]]]]]; cbn [nth INR] in M1', Hw'; try lia; lra.
Qed.
