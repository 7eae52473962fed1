(** * Peak period and smoothed peak period: C35, C36 *)

From Coq Require Import Reals ZArith List Bool Lra Lia.
From Coquelicot Require Import Complex.
From Verif Require Import Num XR Spec XRFacts Engine EngineProps FourierSpec TimeProps TimeProps3 SeriesProps FourierFacts BandProps
  WaveModel SpectrumModel SimpsonFacts MomentProps.
Import ListNotations.
Open Scope R_scope.

(** ** C35 *)

(** frequency number [k] lies in the requested band *)
Definition in_band (f : list R) (fmin fmax : xr) (k : nat) : Prop :=
  (k < length f)%nat /\ ext_le fmin (Fin (nth k f 0)) /\ ext_le (Fin (nth k f 0)) fmax.
(** the density is maximal over the band at [k], and later frequencies of the band have smaller densities *)
Definition peak_at (f s : list R) (fmin fmax : xr) (k : nat) : Prop :=
  in_band f fmin fmax k
  /\ (forall j, in_band f fmin fmax j -> nth j s 0 <= nth k s 0)
  /\ (forall j, in_band f fmin fmax j -> (k < j)%nat -> nth j s 0 < nth k s 0).
(** reciprocal; numpy: 1/0 = inf *)
Definition recip (x : R) : xr := if Req_EM_T x 0 then PInf else Fin (1 / x).

Lemma recip_F x : ndiv (n:=NX) (Fin 1) (Fin x) = recip x.
Proof. unfold recip. cbn. destruct (Req_EM_T x 0); [|reflexivity]. unfold xinf_times. destruct (Rlt_dec 0 1); [reflexivity|lra]. Qed.
Lemma inc_le (l : list R) i j : increasing l -> (i <= j < length l)%nat -> nth i l 0 <= nth j l 0.
Proof. intros H Hij. destruct (Nat.eq_dec i j) as [->|]; [lra|]. assert (A := H i j ltac:(lia)). lra. Qed.
Lemma ext_le_trans a b c : ext_le a b -> ext_le b c -> ext_le a c.
Proof. destruct a, b, c; cbn; try tauto; try lra. Qed.
Lemma fin_ext_le a b : a <= b -> ext_le (Fin a) (Fin b). Proof. auto. Qed.

Lemma band_F f s fmin fmax : increasing f -> (exists k, in_band f fmin fmax k) ->
  exists i j, band (N:=NX) (F f) (F s) fmin fmax = Ok (F (slice i (j + 1) f), F (slice i (j + 1) s))
  /\ (i <= j < length f)%nat /\ forall k, in_band f fmin fmax k <-> (i <= k <= j)%nat.
Proof.
  intros Hi (k0 & Hk0 & Hlo & Hhi). unfold band.
  destruct (where_first (fun v => nleb (n:=NX) fmin v) (F f) (Fin 0)) as (i & Ei & Li & Pi & Fi).
  { exists k0. rewrite F_length, F_nth. split; [auto|]. apply leb_ext; auto. }
  destruct (where_last (fun v => nleb (n:=NX) v fmax) (F f) (Fin 0)) as (j & Ej & Lj & Pj & Fj).
  { exists k0. rewrite F_length, F_nth. split; [auto|]. apply leb_ext; auto. }
  rewrite Ei, Ej, !bind_Ok, !F_slice. rewrite F_length in *. rewrite F_nth in Pi, Pj.
  rewrite leb_ext in Pi, Pj.
  exists i, j. split; [reflexivity|].
  assert (Hik : (i <= k0)%nat).
  { destruct (Nat.le_gt_cases i k0); [auto|]. specialize (Fi k0 H). rewrite F_nth in Fi. apply leb_ext in Hlo. congruence. }
  assert (Hjk : (k0 <= j)%nat).
  { destruct (Nat.le_gt_cases k0 j); [auto|]. specialize (Fj k0 ltac:(lia)). rewrite F_nth in Fj. apply leb_ext in Hhi. congruence. }
  split; [lia|]. intros k. split.
  - intros (Hk & A & B). split.
    + destruct (Nat.le_gt_cases i k); [auto|]. specialize (Fi k H). rewrite F_nth in Fi. apply leb_ext in A. congruence.
    + destruct (Nat.le_gt_cases k j); [auto|]. specialize (Fj k ltac:(lia)). rewrite F_nth in Fj. apply leb_ext in B. congruence.
  - intros Hk. split; [lia|]. split.
    + apply (ext_le_trans _ _ _ Pi). apply fin_ext_le, inc_le; auto; lia.
    + apply (ext_le_trans _ (Fin (nth j f 0))); [|auto]. apply fin_ext_le, inc_le; auto; lia.
Qed.
Lemma band_none f s fmin fmax : increasing f -> length s = length f -> (forall k, ~ in_band f fmin fmax k) ->
  (exists e, band (N:=NX) (F f) (F s) fmin fmax = Raise e)
  \/ band (N:=NX) (F f) (F s) fmin fmax = Ok ([], []).
Proof.
  intros Hi Hl Hn. unfold band.
  destruct (idx (where_ (fun v => nleb (n:=NX) fmin v) (F f)) 0) as [i|e] eqn:Ei; [|left; exists e; reflexivity].
  destruct (idx_last (where_ (fun v => nleb (n:=NX) v fmax) (F f))) as [j|e] eqn:Ej; [|left; exists e; reflexivity].
  right. rewrite !bind_Ok. 
  enough (Q : forall l, length l = length f -> slice i (j + 1) (F l) = []) by (rewrite !Q by auto; reflexivity).
  intros l Hll.
  apply (idx_inv _ _ _ 0%nat) in Ei as [Li Ei]. apply (idx_last_inv _ _ 0%nat) in Ej as [Lj Ej].
  assert (Ii : In i (where_ (fun v => nleb (n:=NX) fmin v) (F f))) by (rewrite Ei; apply nth_In; auto).
  assert (Ij : In j (where_ (fun v => nleb (n:=NX) v fmax) (F f))).
  { rewrite Ej; apply nth_In. revert Lj. generalize (where_ (fun v => nleb (n:=NX) v fmax) (F f)). intros [|a r] Q; cbn in *; [congruence|lia]. }
  apply (where_In _ _ _ (Fin 0)) in Ii as [Ai Bi]. apply (where_In _ _ _ (Fin 0)) in Ij as [Aj Bj].
  rewrite F_length in *. rewrite F_nth, leb_ext in Bi, Bj.
  assert (Hji : (j < i)%nat).
  { destruct (Nat.lt_ge_cases j i); [auto|exfalso]. apply (Hn i). split; [auto|]. split; [auto|].
    apply (ext_le_trans _ (Fin (nth j f 0))); [|auto]. apply fin_ext_le, inc_le; auto; lia. }
  rewrite F_slice. replace (slice i (j + 1) l) with (@nil R); [reflexivity|].
  symmetry. apply length_zero_iff_nil. rewrite slice_length. lia.
Qed.
Lemma peak_period_F fb sb : length fb = length sb -> sb <> [] ->
  exists k, peak_period (N:=NX) (F fb) (F sb) = Ok (recip (nth k fb 0)) /\ (k < length sb)%nat
  /\ (forall j, (j < length sb)%nat -> nth j sb 0 <= nth k sb 0)
  /\ (forall j, (k < j < length sb)%nat -> nth j sb 0 < nth k sb 0).
Proof.
  intros Hl Hne. unfold peak_period. destruct (pymax_F sb Hne) as (mx & -> & Hin & Hmax). rewrite bind_Ok.
  apply (In_nth _ _ 0) in Hin as (k0 & Hk0 & Ek0).
  destruct (where_last (fun v => neqb (n:=NX) v (Fin mx)) (F sb) (Fin 0)) as (k & Ek & Lk & Pk & Fk).
  { exists k0. rewrite F_length, F_nth, fin_eqb. split; [auto|]. apply Reqb_true; auto. }
  rewrite F_length in *. rewrite F_nth, fin_eqb in Pk.
  assert (Em : nth k sb 0 = mx) by (destruct (Reqb_spec (nth k sb 0) mx); [auto|discriminate]).
  unfold idx_last in Ek. destruct (rev (where_ _ (F sb))) as [|k' r]; [discriminate|]. apply Ok_inj in Ek. subst k'.
  rewrite bind_Ok, idx_F, bind_Ok by lia. exists k. rewrite fin_1, recip_F. split; [reflexivity|]. split; [auto|].
  assert (A : forall j, (j < length sb)%nat -> nth j sb 0 <= nth k sb 0) by (intros j Hj; rewrite Em; apply Hmax, nth_In; auto).
  split; [auto|]. intros j Hj. specialize (Fk j Hj). rewrite F_nth, fin_eqb in Fk.
  destruct (Reqb_spec (nth j sb 0) mx) as [|N]; [discriminate|]. specialize (A j ltac:(lia)). rewrite Em in *. lra.
Qed.
Lemma band_peak f s fmin fmax : increasing f -> length s = length f -> (exists k, in_band f fmin fmax k) ->
  exists fb sb k, band (N:=NX) (F f) (F s) fmin fmax = Ok (F fb, F sb) /\ peak_at f s fmin fmax k
   /\ peak_period (N:=NX) (F fb) (F sb) = Ok (recip (nth k f 0)) /\ increasing fb /\ length fb = length sb /\ fb <> [].
Proof.
  intros Hi Hl Hex. destruct (band_F f s fmin fmax Hi Hex) as (i & j & E & Hij & Hb).
  set (fb := slice i (j + 1) f) in *. set (sb := slice i (j + 1) s) in *.
  assert (Lf : length fb = (j + 1 - i)%nat) by (unfold fb; rewrite slice_length; lia).
  assert (Ls : length sb = (j + 1 - i)%nat) by (unfold sb; rewrite slice_length; lia).
  destruct (peak_period_F fb sb) as (k & Ek & Hk & Hmax & Hlast); [lia|intros H; rewrite H in Ls; cbn in Ls; lia|].
  rewrite Ls in *.
  assert (Es : forall q, (q < j + 1 - i)%nat -> nth q sb 0 = nth (i + q) s 0) by (intros; apply slice_nth; lia).
  exists fb, sb, (i + k)%nat. split; [exact E|]. split; [|split; [|split; [|split; [lia|]]]].
  - split; [apply Hb; lia|]. split; intros q Hq; apply Hb in Hq.
    + specialize (Hmax (q - i)%nat ltac:(lia)). rewrite !Es in Hmax by lia. replace (i + (q - i))%nat with q in Hmax by lia. auto.
    + intros Hlt. specialize (Hlast (q - i)%nat ltac:(lia)). rewrite !Es in Hlast by lia. replace (i + (q - i))%nat with q in Hlast by lia. auto.
  - rewrite Ek. do 2 f_equal. unfold fb. apply slice_nth. lia.
  - intros a b Hab. unfold fb in *. rewrite !slice_nth by lia. apply Hi. lia.
  - intros H. rewrite H in Lf. cbn in Lf. lia.
Qed.


(** -1 stands for the first (last) frequency *)
Definition lower_limit (f : list R) (v lo : xr) : Prop :=
  (v = Fin (-1) /\ lo = Fin (nth 0 f 0)) \/ (v <> Fin (-1) /\ lo = v).
Definition upper_limit (f : list R) (v hi : xr) : Prop :=
  (v = Fin (-1) /\ hi = Fin (last_of f)) \/ (v <> Fin (-1) /\ hi = v).

Lemma neqb_m1 (v : xr) : neqb (n:=NX) v (Fin (-1)) = true <-> v = Fin (-1).
Proof.
  destruct v as [r| | |]; try (split; discriminate). rewrite fin_eqb. destruct (Reqb_spec r (-1)) as [->|N].
  - split; auto.
  - split; [discriminate|]. intros H. apply fin_inj in H. contradiction.
Qed.
Lemma set_flim_F f v w lo hi : f <> [] -> lower_limit f v lo -> upper_limit f w hi ->
  set_flim (N:=NX) (F f) v w = Ok (lo, hi).
Proof.
  intros Hne Hlo Hhi. unfold set_flim. change (nopp (n:=NX) n1) with (Fin (-1)).
  assert (L : (0 < length f)%nat) by (destruct f; [contradiction|cbn; lia]).
  assert (A : (if neqb (n:=NX) v (Fin (-1)) then idx (F f : list (car NX)) 0 else @Ok (car NX) v) = Ok lo).
  { destruct Hlo as [[-> ->]|[N ->]].
    - rewrite (proj2 (neqb_m1 _) eq_refl). apply idx_F. auto.
    - destruct (neqb (n:=NX) v (Fin (-1))) eqn:E; [|reflexivity]. apply neqb_m1 in E. contradiction. }
  assert (B : (if neqb (n:=NX) w (Fin (-1)) then idx_last (F f : list (car NX)) else @Ok (car NX) w) = Ok hi).
  { destruct Hhi as [[-> ->]|[N ->]].
    - rewrite (proj2 (neqb_m1 _) eq_refl). rewrite (idx_last_nth _ (Fin 0)) by (apply F_ne; auto).
      rewrite F_length, F_nth. reflexivity.
    - destruct (neqb (n:=NX) w (Fin (-1))) eqn:E; [|reflexivity]. apply neqb_m1 in E. contradiction. }
  rewrite A, bind_Ok, B, bind_Ok. reflexivity.
Qed.

(** get_Tp on any spectrum object (whatever is cached in it) *)
Theorem C35_peak_period (f s : list R) (fmin fmax lo hi : xr) (sp : spec NX) :
  s_f sp = F f -> s_S sp = F s -> good_axis f -> length s = length f ->
  lower_limit f fmin lo -> upper_limit f fmax hi -> (exists k, in_band f lo hi k) ->
  exists k, peak_at f s lo hi k /\ snd (get_Tp fmin fmax sp) = Ok (recip (nth k f 0)).
Proof.
  intros Ef Es Hf Hl N1 N2 Hex.
  assert (Hi : increasing f) by (apply good_increasing; auto).
  assert (Hne : f <> []) by (destruct Hf as [H2 _]; intros ->; cbn in H2; lia).
  destruct (band_peak f s lo hi Hi Hl Hex) as (fb & sb & k & Eb & Hp & Ek & _).
  exists k. split; [exact Hp|]. unfold get_Tp, getter, mbind, mget, mlift, mset. rewrite Ef, Es. unfold v_Tp.
  rewrite (set_flim_F f fmin fmax lo hi) by auto. rewrite bind_Ok, Eb, bind_Ok, Ek. reflexivity.
Qed.
(** no frequency inside the limits: an exception *)
Theorem C35_empty_band (f s : list R) (fmin fmax lo hi : xr) (sp : spec NX) :
  s_f sp = F f -> s_S sp = F s -> good_axis f -> length s = length f ->
  lower_limit f fmin lo -> upper_limit f fmax hi -> (forall k, ~ in_band f lo hi k) ->
  exists e, snd (get_Tp fmin fmax sp) = Raise e.
Proof.
  intros Ef Es Hf Hl N1 N2 Hex.
  assert (Hi : increasing f) by (apply good_increasing; auto).
  assert (Hne : f <> []) by (destruct Hf as [H2 _]; intros ->; cbn in H2; lia).
  unfold get_Tp, getter, mbind, mget, mlift, mset. rewrite Ef, Es. unfold v_Tp.
  rewrite (set_flim_F f fmin fmax lo hi) by auto. rewrite bind_Ok.
  destruct (band_none f s lo hi Hi Hl Hex) as [[e E]|E]; rewrite E; [exists e; reflexivity|].
  rewrite bind_Ok. exists ValueError. reflexivity.
Qed.
(** the default limits select every frequency *)
Lemma whole_band f : increasing f -> forall k, (k < length f)%nat -> in_band f (Fin (nth 0 f 0)) (Fin (last_of f)) k.
Proof. intros Hi k Hk. split; [auto|]. unfold last_of. split; apply fin_ext_le, inc_le; auto; lia. Qed.
Corollary C35_default_limits (f s : list R) (sp : spec NX) :
  s_f sp = F f -> s_S sp = F s -> good_axis f -> length s = length f ->
  exists k, (k < length f)%nat /\ (forall j, (j < length f)%nat -> nth j s 0 <= nth k s 0)
   /\ (forall j, (k < j < length f)%nat -> nth j s 0 < nth k s 0)
   /\ snd (get_Tp (Fin (-1)) (Fin (-1)) sp) = Ok (recip (nth k f 0)).
Proof.
  intros Ef Es Hf Hl. assert (Hi : increasing f) by (apply good_increasing; auto). assert (W := whole_band f Hi).
  destruct (C35_peak_period f s (Fin (-1)) (Fin (-1)) (Fin (nth 0 f 0)) (Fin (last_of f)) sp) as (k & (A & B & C) & E); auto.
  - left; auto.
  - left; auto.
  - exists 0%nat. apply W. destruct Hf; lia.
  - exists k. split; [apply A|]. split; [intros; apply B; auto|]. split; [|exact E].
    intros j Hj. apply C; [apply W|]; lia.
Qed.
Example C35_witness : good_axis [0; 1; 2; 3] /\ lower_limit [0; 1; 2; 3] (Fin (1/2)) (Fin (1/2))
  /\ upper_limit [0; 1; 2; 3] (Fin (-1)) (Fin 3)
  /\ in_band [0; 1; 2; 3] (Fin (1/2)) (Fin 3) 2 /\ peak_at [0; 1; 2; 3] [9; 5; 5; 4] (Fin (1/2)) (Fin 3) 2.
Proof.
  assert (B : in_band [0; 1; 2; 3] (Fin (1/2)) (Fin 3) 2) by (split; [cbn; lia|]; cbn; lra).
  split.
  { split; [cbn; lia|]. intros i Hi. cbn [length] in Hi. assert (0 < 1000000 / 2 ^ 52) by lra. destruct i as [|[|[|]]]; [| | |lia]; cbn [nth]; lra. }
  split; [right; split; [intros H; apply fin_inj in H; lra|reflexivity]|].
  split; [left; split; reflexivity|]. split; [exact B|]. split; [exact B|]. split.
  - intros j (L & A & _). cbn [length] in L. destruct j as [|[|[|[|]]]]; cbn in *; lra || lia.
  - intros j (L & A & _) H. cbn [length] in L. destruct j as [|[|[|[|]]]]; cbn in *; lra || lia.
Qed.

(** ** C36 *)

(** position [i] carries the largest density *)
Definition is_max (s : list R) (i : nat) : Prop := (i < length s)%nat /\ forall j, (j < length s)%nat -> nth j s 0 <= nth i s 0.
(** [a x^2 + b x + c] goes through the points number [j-1], [j], [j+1] *)
Definition through (f s : list R) (j : nat) (a b c : R) : Prop :=
  forall k, (j - 1 <= k <= j + 1)%nat -> a * (nth k f 0) ^ 2 + b * nth k f 0 + c = nth k s 0.
(** the middle point of the fit for a maximum at [i]: [i] itself, or its neighbour at the ends of the axis *)
Definition fit_centre (n i j : nat) : Prop :=
  (i = 0%nat /\ j = 1%nat) \/ (i = (n - 1)%nat /\ j = (n - 2)%nat) \/ ((0 < i < n - 1)%nat /\ j = i).

(** the smoothed peak frequency of a spectrum (f, s) *)
Inductive smoothed_peak (f s : list R) : R -> Prop :=
| SP_one_point : length f = 1%nat -> smoothed_peak f s (nth 0 f 0)
| SP_two_points i : length f = 2%nat -> (forall j, is_max s j <-> j = i) -> smoothed_peak f s (nth i f 0)
| SP_two_points_tie : length f = 2%nat -> is_max s 0 -> is_max s 1 -> smoothed_peak f s ((nth 0 f 0 + nth 1 f 0) / 2)
| SP_parabola i j a b c : (3 <= length f)%nat -> (forall k, is_max s k <-> k = i) -> fit_centre (length f) i j ->
    through f s j a b c -> a < 0 -> smoothed_peak f s (- b / (2 * a))
| SP_convex i j a b c : (3 <= length f)%nat -> (forall k, is_max s k <-> k = i) -> fit_centre (length f) i j ->
    through f s j a b c -> 0 <= a -> smoothed_peak f s (nth i f 0)
| SP_twin i : (3 <= length f)%nat -> (forall k, is_max s k <-> k = i \/ k = S i) ->
    smoothed_peak f s ((nth i f 0 + nth (S i) f 0) / 2)
| SP_two_apart i j : (3 <= length f)%nat -> (S i < j)%nat -> (forall k, is_max s k <-> k = i \/ k = j) ->
    smoothed_peak f s (nth i f 0)
| SP_many i j k : (i < j < k)%nat -> is_max s i -> is_max s j -> is_max s k ->
    (forall l, is_max s l -> (l < j)%nat -> l = i) -> smoothed_peak f s (nth j f 0).

Lemma fit_at_F f s j : increasing f -> length s = length f -> (1 <= j)%nat -> (S j < length f)%nat ->
  exists a b c, fit_at (N:=NX) (F f) (F s) j = Ok (Fin a, Fin b) /\ through f s j a b c.
Proof.
  intros Hi Hl H1 H2. unfold fit_at. rewrite !idx_F, !bind_Ok by lia. unfold polyfit2.
  assert (A := Hi (j - 1)%nat j ltac:(lia)). assert (B := Hi j (j + 1)%nat ltac:(lia)).
  set (x0 := nth (j - 1) f 0) in *. set (x1 := nth j f 0) in *. set (x2 := nth (j + 1) f 0) in *.
  set (y0 := nth (j - 1) s 0). set (y1 := nth j s 0). set (y2 := nth (j + 1) s 0).
  rewrite !fin_eqb, !Reqb_false by lra. cbn [orb]. rewrite !fin_sub, !fin_div, !fin_sub, !fin_div, !fin_add, !fin_mul, !fin_sub by lra.
  set (a := ((y2 - y1) / (x2 - x1) - (y1 - y0) / (x1 - x0)) / (x2 - x0)).
  exists a, ((y1 - y0) / (x1 - x0) - a * (x0 + x1)), (y0 - a * x0 ^ 2 - ((y1 - y0) / (x1 - x0) - a * (x0 + x1)) * x0).
  split; [reflexivity|]. intros k Hk. assert (k = (j - 1)%nat \/ k = j \/ k = (j + 1)%nat) as [-> | [-> | ->]] by lia;
  fold x0 x1 x2 y0 y1 y2; unfold a; field; lra.
Qed.
Lemma max_where (s : list R) mx : In mx s -> (forall x, In x s -> x <= mx) ->
  forall k, In k (where_ (fun v => neqb (n:=NX) v (Fin mx)) (F s)) <-> is_max s k.
Proof.
  intros Hin Hmax k. rewrite (where_In _ _ _ (Fin 0)), F_length, F_nth, fin_eqb. unfold is_max.
  apply (In_nth _ _ 0) in Hin as (k0 & Hk0 & <-). split.
  - intros [Hk E]. split; [auto|]. destruct (Reqb_spec (nth k s 0) (nth k0 s 0)) as [->|]; [|discriminate].
    intros j Hj. apply Hmax, nth_In; auto.
  - intros [Hk M]. split; [auto|]. apply Reqb_true. specialize (M k0 Hk0). specialize (Hmax (nth k s 0) (nth_In _ _ Hk)). lra.
Qed.

Theorem C36_value (f s : list R) : increasing f -> f <> [] -> length s = length f ->
  (exists i, (i < length s)%nat /\ 1 / 10000000000 <= nth i s 0) ->
  exists v, smoothed_peak f s v /\ compute_tps (Arr (vec (F f))) (Arr (vec (F s))) = Ok (recip v).
Proof.
  intros Hi Hne Hl (e & He & Ee).
  assert (Hns : s <> []) by (intros ->; cbn in He; lia).
  unfold compute_tps. rewrite !vec_convert. cbn [snd fst]. change (Nat.ltb 1 0) with false. cbn [orb].
  rewrite as_list_vec, !bind_Ok. cbn [negb]. rewrite !F_length, Hl, Nat.eqb_refl. cbn [negb].
  rewrite as_list_vec, bind_Ok. destruct (pymax_F s Hns) as (mx & -> & Hin & Hmax). rewrite bind_Ok.
  assert (Emx : 1 / 10000000000 <= mx) by (apply Rle_trans with (1 := Ee); apply Hmax, nth_In; auto).
  rewrite fin_lit by lra. rewrite fin_ltb, Rltb_false by lra.
  set (w := where_ (fun v => neqb (n:=NX) v (Fin mx)) (F s)).
  assert (Hw : forall k, In k w <-> is_max s k) by (apply max_where; auto).
  assert (Ha : ascending_nat w) by apply where_asc.
  assert (Hwl : forall k, In k w -> (k < length f)%nat) by (intros k Hk; apply Hw in Hk; destruct Hk; lia).
  assert (Hw1 : exists k, In k w).
  { apply (In_nth _ _ 0) in Hin as (k & Hk & <-). exists k. apply Hw. split; [auto|]. intros j Hj. apply Hmax, nth_In; auto. }
  clearbody w. clear Hin Hmax Emx Ee He e.
  destruct (Nat.ltb_spec 2 (length f)) as [H3|H3].
  - destruct w as [|i [|i1 [|i2 w]]].
    + destruct Hw1 as (? & []).
    + (* one maximum *)
      assert (U : forall k, is_max s k <-> k = i) by (intros k; rewrite <- Hw; cbn; intuition).
      assert (Li : (i < length f)%nat) by (apply Hwl; left; auto).
      unfold tps_one_max.
      set (j := if Nat.eqb i 0 then 1%nat else if Nat.eqb i (length f - 1) then (length f - 2)%nat else i).
      assert (Hj : fit_centre (length f) i j).
      { unfold j, fit_centre. destruct (Nat.eqb_spec i 0); [lia|]. destruct (Nat.eqb_spec i (length f - 1)); lia. }
      destruct (fit_at_F f s j Hi Hl) as (a & b & c & -> & Hab); [unfold fit_centre in Hj; lia..|]. rewrite bind_Ok.
      rewrite fin_0, fin_ltb. destruct (Rltb_spec a 0) as [Ha0|Ha0].
      * exists (- b / (2 * a)). split; [apply (SP_parabola _ _ i j a b c); auto|].
        rewrite fin_opp, fin_ofZ, fin_mul, fin_div, bind_Ok, fin_1, recip_F by lra. reflexivity.
      * exists (nth i f 0). split; [apply (SP_convex _ _ i j a b c); auto; lra|].
        rewrite idx_F, bind_Ok, fin_1, recip_F by auto. reflexivity.
    + (* two maxima *)
      assert (U : forall k, is_max s k <-> k = i \/ k = i1) by (intros k; rewrite <- Hw; cbn; intuition).
      assert (Lt : (i < i1)%nat) by (apply (Ha 0%nat 1%nat); cbn; lia).
      assert (Li : (i1 < length f)%nat) by (apply Hwl; right; left; auto).
      unfold tps_two_max. destruct (Nat.eqb_spec (i1 - i) 1) as [E1|N1].
      * assert (i1 = S i) as -> by lia.
        set (j := if Nat.eqb i 0 then 1%nat else if Nat.eqb (S i) (length f - 1) then (length f - 2)%nat else i).
        assert (Hj : (1 <= j /\ S j < length f /\ (j = i \/ (i = 0 /\ j = 1)))%nat).
        { unfold j. destruct (Nat.eqb_spec i 0); [lia|]. destruct (Nat.eqb_spec (S i) (length f - 1)); lia. }
        exists ((nth i f 0 + nth (S i) f 0) / 2). split; [apply SP_twin; auto|].
        destruct (fit_at_F f s j Hi Hl) as (a & b & c & -> & Hab); [lia..|]. rewrite bind_Ok.
        assert (Mi : is_max s i) by (apply U; auto). assert (Mi1 : is_max s (S i)) by (apply U; auto).
        assert (Eq : nth i s 0 = nth (S i) s 0).
        { destruct Mi as [P Q], Mi1 as [P' Q']. specialize (Q _ P'). specialize (Q' _ P). lra. }
        assert (Inc := Hi i (S i) ltac:(lia)).
        (* the third point is lower *)
        set (q := if Nat.eqb i 0 then 2%nat else (i - 1)%nat).
        assert (Hq : (j - 1 <= q <= j + 1)%nat /\ q <> i /\ q <> S i /\ (q < length f)%nat).
        { unfold q. destruct (Nat.eqb_spec i 0); lia. }
        assert (Lq : nth q s 0 < nth i s 0).
        { destruct Mi as [P Q]. assert (L := Q q ltac:(lia)). destruct (Req_dec (nth q s 0) (nth i s 0)) as [E|]; [|lra].
          exfalso. assert (is_max s q) as M; [|apply U in M; lia]. split; [lia|]. intros k Hk. rewrite E. auto. }
        assert (T1 := Hab i ltac:(lia)). assert (T2 := Hab (S i) ltac:(lia)). assert (T3 := Hab q ltac:(lia)).
        assert (Nq : nth q f 0 < nth i f 0 \/ nth (S i) f 0 < nth q f 0).
        { destruct (Nat.lt_ge_cases q i); [left|right]; apply Hi; lia. }
        set (x := nth i f 0) in *. set (y := nth (S i) f 0) in *. set (z := nth q f 0) in *.
        assert (B1 : b = - a * (x + y)).
        { assert ((y - x) * (a * (x + y) + b) = 0) by nra. apply Rmult_integral in H as [H|H]; lra. }
        assert (A0 : a <> 0).
        { intros ->. assert (b = 0) by lra. subst b. nra. }
        rewrite fin_opp, fin_ofZ, fin_mul, fin_div, fin_1, recip_F by lra. do 2 f_equal. rewrite B1. field. auto.
      * exists (nth i f 0). split; [apply (SP_two_apart _ _ i i1); auto; lia|].
        rewrite idx_F, bind_Ok, fin_1, recip_F by lia. reflexivity.
    + (* three or more *)
      exists (nth i1 f 0). split.
      * apply (SP_many _ _ i i1 i2).
        -- split; [apply (Ha 0%nat 1%nat); cbn; lia|apply (Ha 1%nat 2%nat); cbn; lia].
        -- apply Hw; cbn; auto.
        -- apply Hw; cbn; auto.
        -- apply Hw; cbn; auto.
        -- intros l Hml Hlt. apply Hw in Hml. apply (In_nth _ _ 0%nat) in Hml as (q & Hq & <-).
           destruct q as [|[|q]]; [reflexivity|cbn in Hlt; lia|exfalso].
           assert (A := Ha 1%nat (S (S q)) ltac:(lia)). cbn [nth] in A, Hlt. lia.
      * change (idx (i :: i1 :: i2 :: w) 1) with (@Ok nat i1). rewrite bind_Ok, idx_F, bind_Ok, fin_1, recip_F by (apply Hwl; cbn; auto).
        reflexivity.
  - assert (L0 : (0 < length f)%nat) by (destruct f; [contradiction|cbn; lia]).
    destruct (Nat.eqb_spec (length f) 2) as [E2|N2].
    + destruct w as [|i [|i1 w]].
      * destruct Hw1 as (? & []).
      * exists (nth i f 0). split; [apply SP_two_points; auto; intros k; rewrite <- Hw; cbn; intuition|].
        rewrite idx_F, bind_Ok, fin_1, recip_F by (apply Hwl; left; auto). reflexivity.
      * assert (Lt : (i < i1)%nat) by (apply (Ha 0%nat 1%nat); cbn; lia).
        assert (Li : (i1 < length f)%nat) by (apply Hwl; right; left; auto).
        assert (i = 0%nat /\ i1 = 1%nat) as [-> ->] by lia.
        exists ((nth 0 f 0 + nth 1 f 0) / 2). split; [apply SP_two_points_tie; auto; apply Hw; cbn; auto|].
        rewrite !idx_F, !bind_Ok, fin_lit, fin_add, fin_mul, fin_1, recip_F by (lra || lia). do 2 f_equal. field.
    + exists (nth 0 f 0). split; [apply SP_one_point; lia|]. rewrite idx_F, bind_Ok, fin_1, recip_F by lia. reflexivity.
Qed.
(** (almost) no energy *)
Theorem C36_no_energy (f s : list R) : s <> [] -> length s = length f ->
  (forall i, (i < length s)%nat -> nth i s 0 < 1 / 10000000000) ->
  compute_tps (Arr (vec (F f))) (Arr (vec (F s))) = Ok (Fin (-999)).
Proof.
  intros Hns Hl Hlow.
  unfold compute_tps. rewrite !vec_convert. cbn [snd fst]. change (Nat.ltb 1 0) with false. cbn [orb].
  rewrite as_list_vec, !bind_Ok. cbn [negb]. rewrite !F_length, Hl, Nat.eqb_refl. cbn [negb].
  rewrite as_list_vec, bind_Ok. destruct (pymax_F s Hns) as (mx & -> & Hin & Hmax). rewrite bind_Ok.
  apply (In_nth _ _ 0) in Hin as (k & Hk & <-). rewrite fin_lit by lra. rewrite fin_ltb, Rltb_true by (apply Hlow; auto).
  reflexivity.
Qed.

(** the vertex of the parabola through three equidistant points with the highest in the middle *)
Lemma through_unique f s j a b c a' b' c' : increasing f -> (1 <= j)%nat -> (S j < length f)%nat ->
  through f s j a b c -> through f s j a' b' c' -> a = a' /\ b = b'.
Proof.
  intros Hi H1 H2 T T'. assert (A := Hi (j - 1)%nat j ltac:(lia)). assert (B := Hi j (j + 1)%nat ltac:(lia)).
  assert (T0 := T (j - 1)%nat ltac:(lia)). assert (T1 := T j ltac:(lia)). assert (T2 := T (j + 1)%nat ltac:(lia)).
  rewrite <- (T' (j - 1)%nat) in T0 by lia. rewrite <- (T' j) in T1 by lia. rewrite <- (T' (j + 1)%nat) in T2 by lia.
  clear T T'. set (x0 := nth (j - 1) f 0) in *. set (x1 := nth j f 0) in *. set (x2 := nth (j + 1) f 0) in *.
  set (p := a - a') in *. set (q := b - b') in *.
  assert (E1 : (x1 - x0) * (p * (x0 + x1) + q) = 0) by (unfold p, q; nra).
  assert (E2 : (x2 - x1) * (p * (x1 + x2) + q) = 0) by (unfold p, q; nra).
  apply Rmult_integral in E1 as [E1|E1]; [lra|]. apply Rmult_integral in E2 as [E2|E2]; [lra|].
  assert (E3 : p * (x2 - x0) = 0) by lra. apply Rmult_integral in E3 as [E3|E3]; [|lra].
  assert (q = 0) by (rewrite E3 in E1; lra). unfold p, q in *. lra.
Qed.
Lemma smoothed_interior f s i v : increasing f -> length s = length f -> (forall k, is_max s k <-> k = i) -> (0 < i < length f - 1)%nat ->
  smoothed_peak f s v -> exists a b c, through f s i a b c /\ a < 0 /\ v = - b / (2 * a).
Proof.
  intros Hi Hl U Hr Hs.
  assert (C : exists a b c, through f s i a b c).
  { destruct (fit_at_F f s i Hi Hl) as (a & b & c & _ & T); [lia..|]. eauto. }
  destruct C as (a & b & c & T). exists a, b, c. split; [auto|].
  assert (T0 := T (i - 1)%nat ltac:(lia)). assert (T1 := T i ltac:(lia)). assert (T2 := T (i + 1)%nat ltac:(lia)).
  assert (A := Hi (i - 1)%nat i ltac:(lia)). assert (B := Hi i (i + 1)%nat ltac:(lia)).
  assert (Lower : forall q, (q < length s)%nat -> q <> i -> nth q s 0 < nth i s 0).
  { intros q Hq Nq. assert (M : is_max s i) by (apply U; auto). destruct M as [_ M]. assert (L := M q Hq).
    destruct (Req_dec (nth q s 0) (nth i s 0)) as [E|]; [|lra]. exfalso. apply Nq, U. split; [auto|]. intros k Hk. rewrite E. auto. }
  assert (L0 := Lower (i - 1)%nat ltac:(lia) ltac:(lia)). assert (L2 := Lower (i + 1)%nat ltac:(lia) ltac:(lia)).
  assert (Neg : a < 0).
  { rewrite <- T0, <- T1 in L0. rewrite <- T2, <- T1 in L2.
    set (x0 := nth (i - 1) f 0) in *. set (x1 := nth i f 0) in *. set (x2 := nth (i + 1) f 0) in *.
    assert (P1 : 0 < (x1 - x0) * (a * (x0 + x1) + b)) by nra. assert (P2 : (x2 - x1) * (a * (x1 + x2) + b) < 0) by nra.
    assert (Q1 : 0 < a * (x0 + x1) + b) by nra. assert (Q2 : a * (x1 + x2) + b < 0) by nra. nra. }
  split; [exact Neg|].
  assert (One : forall k, is_max s k -> k = i) by (intros k Hk; apply U; auto).
  inversion Hs as [H|i' H H'|H H' H''|i' j' a' b' c' H U' Hc T' Ha'|i' j' a' b' c' H U' Hc T' Ha'|i' H U'|i' j' H H' U'|i' j' k' H M1 M2 M3 H']; subst; try lia.
  - assert (i' = i) as -> by (apply One, U'; auto). assert (j' = i) as -> by (unfold fit_centre in Hc; lia).
    destruct (through_unique f s i a b c a' b' c' Hi) as [-> ->]; auto; lia.
  - assert (i' = i) as -> by (apply One, U'; auto). assert (j' = i) as -> by (unfold fit_centre in Hc; lia).
    destruct (through_unique f s i a b c a' b' c' Hi) as [-> _]; auto; try lia. lra.
  - assert (i' = i) by (apply One, U'; auto). assert (S i' = i) by (apply One, U'; auto). lia.
  - assert (i' = i) by (apply One, U'; auto). assert (j' = i) by (apply One, U'; auto). lia.
  - assert (i' = i) by (apply One; auto). assert (j' = i) by (apply One; auto). lia.
Qed.

(** one interior maximum on a uniform axis: within half a step, and on the parabola's top *)
Theorem C36_within_half_step (f0 df : R) (s : list R) (i : nat) :
  let f := axis f0 df (length s) in
  0 < df -> (forall k, is_max s k <-> k = i) -> (0 < i < length s - 1)%nat -> 1 / 10000000000 <= nth i s 0 ->
  exists v, compute_tps (Arr (vec (F f))) (Arr (vec (F s))) = Ok (recip v) /\ Rabs (v - nth i f 0) < df / 2.
Proof.
  intros f Hd U Hr He.
  assert (Lf : length s = length f) by (unfold f; rewrite axis_length; auto).
  assert (Hi : increasing f) by (apply axis_increasing; auto).
  destruct (C36_value f s Hi) as (v & Hs & E); auto.
  - intros Hn. rewrite Hn in Lf. cbn in Lf. lia.
  - exists i. split; [lia|auto].
  - exists v. split; [auto|].
    destruct (smoothed_interior f s i v) as (a & b & c & T & Neg & ->); auto; [lia|].
    assert (T0 := T (i - 1)%nat ltac:(lia)). assert (T1 := T i ltac:(lia)). assert (T2 := T (i + 1)%nat ltac:(lia)).
    assert (Lower : forall q, (q < length s)%nat -> q <> i -> nth q s 0 < nth i s 0).
    { intros q Hq Nq. assert (M : is_max s i) by (apply U; auto). destruct M as [_ M]. assert (L := M q Hq).
      destruct (Req_dec (nth q s 0) (nth i s 0)) as [E'|]; [|lra]. exfalso. apply Nq, U. split; [auto|]. intros k Hk. rewrite E'. auto. }
    assert (L0 := Lower (i - 1)%nat ltac:(lia) ltac:(lia)). assert (L2 := Lower (i + 1)%nat ltac:(lia) ltac:(lia)).
    rewrite <- T0, <- T1 in L0. rewrite <- T2, <- T1 in L2.
    assert (E0 : nth (i - 1) f 0 = nth i f 0 - df).
    { unfold f. rewrite !axis_nth by lia. replace i with (S (i - 1)) at 2 by lia. rewrite S_INR. lra. }
    assert (E2 : nth (i + 1) f 0 = nth i f 0 + df).
    { unfold f. rewrite !axis_nth by lia. rewrite plus_INR. cbn [INR]. lra. }
    rewrite E0 in L0. rewrite E2 in L2. set (x := nth i f 0) in *.
    assert (P1 : 0 < a * (2 * x - df) + b) by nra. assert (P2 : a * (2 * x + df) + b < 0) by nra.
    replace (- b / (2 * a) - x) with ((b + 2 * a * x) / (-2 * a)) by (field; lra).
    apply Rabs_def1.
    + apply (Rmult_lt_reg_r (-2 * a)); [lra|]. replace ((b + 2 * a * x) / (-2 * a) * (-2 * a)) with (b + 2 * a * x) by (field; lra). nra.
    + apply (Rmult_lt_reg_r (-2 * a)); [lra|]. replace ((b + 2 * a * x) / (-2 * a) * (-2 * a)) with (b + 2 * a * x) by (field; lra). nra.
Qed.
(** exact when the three points around the maximum lie on a parabola with top [p] (any axis) *)
Theorem C36_exact_for_parabola (f s : list R) (i : nat) (A B p : R) :
  increasing f -> length s = length f -> (forall k, is_max s k <-> k = i) -> (0 < i < length f - 1)%nat ->
  1 / 10000000000 <= nth i s 0 -> 0 < B ->
  (forall k, (i - 1 <= k <= i + 1)%nat -> nth k s 0 = A - B * (nth k f 0 - p) ^ 2) ->
  compute_tps (Arr (vec (F f))) (Arr (vec (F s))) = Ok (recip p).
Proof.
  intros Hi Hl U Hr He HB Hp.
  destruct (C36_value f s Hi) as (v & Hs & E); auto.
  - intros ->. cbn in Hr. lia.
  - exists i. split; [lia|auto].
  - rewrite E. do 2 f_equal. destruct (smoothed_interior f s i v) as (a & b & c & T & Neg & ->); auto.
    destruct (through_unique f s i a b c (- B) (2 * B * p) (A - B * p ^ 2)) as [-> ->]; auto; try lia.
    + intros k Hk. rewrite Hp by auto. ring.
    + field. lra.
Qed.
(** so interior peaks on a non-negative axis give a positive period *)
Corollary C36_interior_positive (f0 df : R) (s : list R) (i : nat) :
  let f := axis f0 df (length s) in
  0 < df -> 0 <= f0 -> (forall k, is_max s k <-> k = i) -> (0 < i < length s - 1)%nat -> 1 / 10000000000 <= nth i s 0 ->
  exists T, compute_tps (Arr (vec (F f))) (Arr (vec (F s))) = Ok (Fin T) /\ 0 < T.
Proof.
  intros f Hd H0 U Hr He. destruct (C36_within_half_step f0 df s i Hd U Hr He) as (v & E & Hv).
  assert (P : 0 < v).
  { apply Rabs_def2 in Hv. unfold f in Hv. rewrite axis_nth in Hv by lia.
    assert (1 <= INR i) by (apply (le_INR 1); lia). nra. }
  exists (1 / v). split; [|apply Rdiv_lt_0_compat; lra]. fold f in E. rewrite E. unfold recip. destruct (Req_EM_T v 0); [lra|reflexivity].
Qed.

(** ... but not a maximum at the lower end of the axis *)
Theorem C36_positive_refuted :
  ~ (forall f s : list R, good_axis f -> (forall k, (k < length f)%nat -> 0 < nth k f 0) -> length s = length f ->
       (forall k, (k < length s)%nat -> 0 <= nth k s 0) -> (exists i, (i < length s)%nat /\ 1 <= nth i s 0) ->
       exists T, compute_tps (Arr (vec (F f))) (Arr (vec (F s))) = Ok (Fin T) /\ 0 < T).
Proof.
  intros H.
  assert (Hg : good_axis [1/4; 5/4; 9/4]).
  { split; [cbn; lia|]. intros i Hi. cbn [length] in Hi. assert (0 < 1000000 / 2 ^ 52) by lra. destruct i as [|[|]]; [| |lia]; cbn [nth]; lra. }
  destruct (H [1/4; 5/4; 9/4] [3; 2; 0]) as (T & E & HT); auto.
  - intros k Hk. cbn [length] in Hk. destruct k as [|[|[|]]]; cbn; lra || lia.
  - intros k Hk. cbn [length] in Hk. destruct k as [|[|[|]]]; cbn; lra || lia.
  - exists 0%nat. cbn. split; [lia|lra].
  - assert (U : forall k, is_max [3; 2; 0] k <-> k = 0%nat).
    { intros k. split.
      - intros [A B]. cbn [length] in A. specialize (B 0%nat ltac:(cbn; lia)). destruct k as [|[|[|]]]; cbn in *; lra || lia.
      - intros ->. split; [cbn; lia|]. intros j Hj. cbn [length] in Hj. destruct j as [|[|[|]]]; cbn; lra || lia. }
    destruct (C36_value [1/4; 5/4; 9/4] [3; 2; 0]) as (v & Hs & E'); auto.
    + apply good_increasing; auto.
    + discriminate.
    + exists 0%nat. cbn. split; [lia|lra].
    + rewrite E in E'. apply Ok_inj in E'.
      assert (Tp : through [1/4; 5/4; 9/4] [3; 2; 0] 1 (-1/2) (-1/4) (99/32)).
      { intros k Hk. assert (k = 0 \/ k = 1 \/ k = 2)%nat as [-> | [-> | ->]] by lia; cbn; field. }
      assert (Q : v = - (1/4)).
      { inversion Hs as [H1|i' H1 H'|H1 H' H''|i' j' a' b' c' H1 U' Hc T' Ha'|i' j' a' b' c' H1 U' Hc T' Ha'|i' H1 U'|i' j' H1 H' U'|i' j' k' H1 M1 M2 M3 H']; subst; try (cbn in H1; lia).
        - assert (i' = 0%nat) as -> by (apply U, U'; auto). assert (j' = 1%nat) as -> by (unfold fit_centre in Hc; cbn in Hc; lia).
          destruct (through_unique [1/4; 5/4; 9/4] [3; 2; 0] 1 a' b' c' (-1/2) (-1/4) (99/32)) as [-> ->]; auto; try (cbn; lia); [|lra].
          apply good_increasing; auto.
        - assert (i' = 0%nat) as -> by (apply U, U'; auto). assert (j' = 1%nat) as -> by (unfold fit_centre in Hc; cbn in Hc; lia).
          destruct (through_unique [1/4; 5/4; 9/4] [3; 2; 0] 1 a' b' c' (-1/2) (-1/4) (99/32)) as [-> ->]; auto; try (cbn; lia); [|lra].
          apply good_increasing; auto.
        - assert (i' = 0%nat) by (apply U, U'; auto). assert (S i' = 0%nat) by (apply U, U'; auto). lia.
        - assert (i' = 0%nat) by (apply U, U'; auto). assert (j' = 0%nat) by (apply U, U'; auto). lia.
        - assert (i' = 0%nat) by (apply U; auto). assert (j' = 0%nat) by (apply U; auto). lia. }
      subst v. unfold recip in E'. destruct (Req_EM_T (- (1/4)) 0); [lra|]. apply fin_inj in E'.
      replace (1 / - (1/4)) with (-4) in E' by field. lra.
Qed.
(** ... and axes that are not uniform are not rejected, although the code tries to *)
Theorem C36_axis_check_refuted :
  ~ (forall f s : list R, increasing f -> f <> [] -> length s = length f -> (exists i, (i < length s)%nat /\ 1 <= nth i s 0) ->
       ~ good_axis f -> exists e, compute_tps (Arr (vec (F f))) (Arr (vec (F s))) = Raise e).
Proof.
  intros H.
  assert (Hi : increasing [1; 2; 4]) by (intros i j Hij; cbn [length] in Hij; destruct i as [|[|]], j as [|[|[|]]]; cbn; lra || lia).
  destruct (H [1; 2; 4] [1; 2; 1]) as [e E]; auto.
  - discriminate.
  - exists 0%nat. cbn. split; [lia|lra].
  - intros [_ G]. specialize (G 1%nat ltac:(cbn; lia)). cbn [nth] in G. assert (1000000 / 2 ^ 52 < 1) by lra. lra.
  - destruct (C36_value [1; 2; 4] [1; 2; 1]) as (v & _ & E'); auto; [discriminate| |congruence].
    exists 0%nat. cbn. split; [lia|lra].
Qed.

(** get_Tps applies the same to the frequencies within the limits *)
Theorem C36_get_Tps (f s : list R) (fmin fmax lo hi : xr) (sp : spec NX) :
  s_f sp = F f -> s_S sp = F s -> good_axis f -> length s = length f ->
  lower_limit f fmin lo -> upper_limit f fmax hi -> (exists k, in_band f lo hi k) ->
  exists i j, (i <= j < length f)%nat /\ (forall k, in_band f lo hi k <-> (i <= k <= j)%nat)
  /\ snd (get_Tps fmin fmax sp) = compute_tps (Arr (vec (F (slice i (j + 1) f)))) (Arr (vec (F (slice i (j + 1) s)))).
Proof.
  intros Ef Es Hf Hl N1 N2 Hex.
  assert (Hi : increasing f) by (apply good_increasing; auto).
  assert (Hne : f <> []) by (destruct Hf as [H2 _]; intros ->; cbn in H2; lia).
  destruct (band_F f s lo hi Hi Hex) as (i & j & E & Hij & Hb). exists i, j. split; [auto|]. split; [auto|].
  unfold get_Tps, getter, mbind, mget, mlift, mset. rewrite Ef, Es. unfold v_Tps.
  rewrite (set_flim_F f fmin fmax lo hi) by auto. rewrite bind_Ok, E, bind_Ok.
  destruct (compute_tps _ _); reflexivity.
Qed.
Example C36_witness : let s := [1; 3; 2; 0] in
  (forall k, is_max s k <-> k = 1%nat) /\ (0 < 1 < length s - 1)%nat /\ 1 / 10000000000 <= nth 1 s 0
  /\ (forall k, (0 <= k <= 2)%nat -> nth k s 0 = (73/24) - (3/2) * (nth k (axis 0 1 4) 0 - 7/6) ^ 2).
Proof.
  cbn zeta. split; [|split; [cbn; lia|split; [cbn; lra|]]].
  - intros k. split.
    + intros [A B]. cbn [length] in A. specialize (B 1%nat ltac:(cbn; lia)). destruct k as [|[|[|[|]]]]; cbn in *; lra || lia.
    + intros ->. split; [cbn; lia|]. intros j Hj. cbn [length] in Hj. destruct j as [|[|[|[|]]]]; cbn; lra || lia.
  - intros k Hk. rewrite axis_nth by lia. assert (k = 0 \/ k = 1 \/ k = 2)%nat as [-> | [-> | ->]] by lia; cbn; field.
Qed.
