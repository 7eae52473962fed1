(** * Spectra with missing (NaN) bins: C83 *)

From Coq Require Import Reals ZArith List Bool Lra Lia.
From Verif Require Import Num XR Spec XRFacts Engine EngineProps FourierSpec TimeProps TimeProps3 SeriesProps FourierFacts BandProps
  WaveModel SpectrumModel SimpsonFacts MomentProps PeakProps ParamProps GapProps.
Import ListNotations.
Open Scope R_scope.

(** the number of leading bins a moment of order [m] leaves out: the bin at f = 0 for a negative order *)
Definition left_out (m : Z) (f : list R) : nat := if Z.ltb m 0 && Reqb (nth 0 f 0) 0 then 1 else 0.
(** the density value of bin [k] is missing *)
Definition missing (s : list NX) (k : nat) : Prop := (k < length s)%nat /\ nth k s NaN = NaN.

Notation moment_x f s := (compute_moment (N:=NX) (Arr (vec (F f))) (Arr (vec s))).

(** ** Simpson's rule *)
Lemma panel_nan x0 x1 x2 y0 y1 y2 : y0 = NaN \/ y1 = NaN \/ y2 = NaN -> simpson_panel (N:=NX) x0 x1 x2 y0 y1 y2 = NaN.
Proof.
  unfold simpson_panel. intros [->|[->| ->]]; rewrite ?nan_mul_l, ?nan_add_l, ?nan_add_r, ?nan_add_l; apply nan_mul_r.
Qed.
Lemma basic_nan n : forall (x y : list NX) k, (length y <= n)%nat -> length x = length y -> (3 <= length y)%nat ->
  (S k < length y)%nat \/ ((k < length y)%nat /\ Nat.odd (length y) = true) -> nth k y NaN = NaN -> basic_simpson (N:=NX) x y = NaN.
Proof.
  induction n as [|n IH]; intros x y k Hn Hl H3 Hk E; [lia|].
  destruct y as [|y0 [|y1 [|y2 y]]]; cbn [length] in H3; try lia. destruct x as [|x0 [|x1 [|x2 x]]]; cbn [length] in Hl; try lia.
  change (basic_simpson (N:=NX) (x0 :: x1 :: x2 :: x) (y0 :: y1 :: y2 :: y))
    with (nadd (n:=NX) (simpson_panel (N:=NX) x0 x1 x2 y0 y1 y2) (basic_simpson (N:=NX) (x2 :: x) (y2 :: y))).
  assert (C : y0 = NaN \/ y1 = NaN \/ y2 = NaN \/ (3 <= k)%nat).
  { destruct k as [|[|[|k]]]; cbn [nth] in E; auto. right; right; right. lia. }
  destruct C as [C|[C|[C|C]]]; [rewrite panel_nan by auto; apply nan_add_l..|].
  assert (B : basic_simpson (N:=NX) (x2 :: x) (y2 :: y) = NaN); [|rewrite B; apply nan_add_r].
  destruct k as [|[|k]]; [lia|lia|]. cbn [nth length] in *.
  apply (IH _ _ k); cbn [length]; try lia.
  - change (Nat.odd (S (S (S (length y))))) with (Nat.odd (S (length y))) in Hk. destruct Hk as [Hk|[Hk Ho]]; [lia|].
    destruct (length y) as [|[|q]]; cbn in *; try lia; discriminate.
  - destruct Hk as [Hk|[Hk Ho]]; [left; lia|right; split; [lia|exact Ho]].
  - destruct k; exact E.
Qed.
Lemma simpson_nan (x y : list NX) k : length x = length y -> (2 <= length y)%nat -> (k < length y)%nat -> nth k y NaN = NaN ->
  simpson (N:=NX) y x = Ok NaN.
Proof.
  intros Hl H2 Hk E. unfold simpson. rewrite Hl, Nat.eqb_refl. cbn [negb]. destruct (Nat.odd (length y)) eqn:Ho.
  - f_equal. apply (basic_nan (length y) x y k); auto. destruct (length y) as [|[|[|]]]; cbn in *; try lia; discriminate.
  - assert (Ry : forall q, (q < length y)%nat -> nth q (rev y) NaN = nth (length y - S q) y NaN) by (intros; apply rev_nth; auto).
    assert (Lx : length (rev x) = length y) by (rewrite rev_length; auto). assert (Ly : length (rev y) = length y) by apply rev_length.
    destruct (Nat.eq_dec (length y) 2) as [H|H].
    + destruct (rev x) as [|a [|b [|? ?]]]; cbn [length] in Lx; try lia. rewrite H in Ry. destruct (rev y) as [|c [|d [|? ?]]]; cbn [length] in Ly; try lia.
      f_equal. assert (A := Ry 0%nat ltac:(lia)). assert (B := Ry 1%nat ltac:(lia)). cbn [nth Nat.sub] in A, B. destruct k as [|[|]]; [| |lia].
      * rewrite B, E. rewrite nan_add_r. apply nan_mul_r.
      * rewrite A, E. rewrite nan_add_l. apply nan_mul_r.
    + assert (4 <= length y)%nat by (destruct (length y) as [|[|[|[|]]]]; cbn in *; try lia; discriminate).
      destruct (rev x) as [|a [|b [|c rx]]]; cbn [length] in Lx; try lia.
      assert (A := Ry 0%nat ltac:(lia)).
      destruct (rev y) as [|p [|q [|r ry]]]; cbn [length] in Ly; try lia.
      f_equal. destruct (Nat.eq_dec k (length y - 1)) as [->|Nk].
      * cbn [nth] in A. replace (length y - 1)%nat with (length y - 1)%nat in A by lia. rewrite E in A. subst p.
        unfold cartwright. rewrite nan_mul_r, nan_add_l, nan_sub_l. apply nan_add_r.
      * rewrite (basic_nan (length y) x y k) by (auto; try lia). apply nan_add_l.
Qed.
Lemma simpson_point (a b : NX) : simpson (N:=NX) [b] [a] = Ok (Fin 0). Proof. reflexivity. Qed.
Lemma simpson_total (x y : list NX) : length x = length y -> y <> [] -> exists v, simpson (N:=NX) y x = Ok v.
Proof.
  intros Hl Hy. unfold simpson. rewrite Hl, Nat.eqb_refl. cbn [negb]. destruct (Nat.odd (length y)) eqn:Ho; [eauto|].
  assert (Lx : length (rev x) = length y) by (rewrite rev_length; auto). assert (Ly : length (rev y) = length y) by apply rev_length.
  assert (2 <= length y)%nat by (destruct (length y) as [|[|]] eqn:E; [destruct y; [congruence|discriminate]|discriminate|lia]).
  destruct (rev x) as [|a [|b [|c rx]]]; cbn [length] in Lx; try lia; destruct (rev y) as [|p [|q [|r ry]]]; cbn [length] in Ly; try lia; eauto.
Qed.

Section Axis.
  Variables (f : list R) (m : Z) (s : list NX).
  Hypothesis Hf : freq_axis f.
  Hypothesis Hl : length s = length f.
  Let fq := without_zero m f f.
  Let d := left_out m f.
  Let sq : list NX := if Z.ltb m 0 && Reqb (nth 0 f 0) 0 then tl s else s.
  Let g : list NX := map2 (fun fr sp => nmul (n:=NX) (npowZ (N:=NX) fr m) sp) (F fq) sq.

  Lemma sqx_nth k : nth k sq NaN = nth (k + d) s NaN.
  Proof. unfold sq, d, left_out. destruct (_ && _); [rewrite Nat.add_1_r; destruct s, k; reflexivity|rewrite Nat.add_0_r; reflexivity]. Qed.
  Lemma fqx_length : length fq = (length f - d)%nat.
  Proof. unfold fq, d. rewrite wz_length. reflexivity. Qed.
  Lemma sqx_length : length sq = length fq.
  Proof. rewrite fqx_length, <- Hl. unfold sq, d, left_out. destruct (_ && _); [destruct s; cbn; lia|lia]. Qed.
  Lemma gx_length : length g = length fq.
  Proof. unfold g. rewrite map2_length, F_length, sqx_length. lia. Qed.
  Lemma gx_nth k : (k < length fq)%nat -> nth k g NaN = nmul (n:=NX) (npowZ (N:=NX) (Fin (nth k fq 0)) m) (nth (k + d) s NaN).
  Proof.
    intros Hk. unfold g. rewrite (map2_nth _ _ _ _ (Fin 0) NaN NaN).
    - rewrite F_nth, sqx_nth. reflexivity.
    - rewrite F_length. auto.
    - assert (L := sqx_length). unfold sq, d in *. cbn [car NX] in *. lia.
  Qed.
  Lemma gx_missing k : (k < length fq)%nat -> missing s (k + d) -> nth k g NaN = NaN.
  Proof. intros Hk [_ E]. rewrite gx_nth, E by auto. apply nan_mul_r. Qed.

  Lemma moment_unfold_x (fmin fmax : car NX) :
    moment_x f s m fmin fmax
    = if (neqb (n:=NX) fmin (Fin (-1))) || (neqb (n:=NX) fmax (Fin (-1))) then simpson g (F fq)
      else
        let fmn := if Z.ltb m 0 && Reqb (nth 0 f 0) 0 && neqb (n:=NX) fmin (Fin 0) then Fin (nth 1 f 0) else fmin in
        if nleb (n:=NX) fmax (Fin (last_of f))
        then bind (approx_array_index (F fq) fmn) (fun i => bind (approx_array_index (F fq) fmax) (fun j => simpson_slice i j g (F fq)))
        else bind (approx_array_index (F fq) fmn) (fun i =>
               bind (simpson_slice i (length fq - 1) g (F fq)) (fun m1 =>
               bind (tail_moment (N:=NX) (Fin (last_of f)) (nth (length s - 1) s NaN) fmax m) (fun m2 => Ok (nadd (n:=NX) m1 m2)))).
  Proof.
    destruct Hf as [Hg H0]. assert (H2 := proj1 Hg).
    assert (HfL := fq_last f m Hf). assert (Hne := fq_ne f m Hf). assert (Hinc := fq_inc f m Hf). assert (HsL := sqx_length).
    fold fq in HfL, Hne, Hinc.
    unfold compute_moment. rewrite !vec_convert. cbn [snd fst Nat.ltb Nat.leb orb].
    rewrite as_list_vec, bind_Ok, good_mono, bind_Ok by auto. cbn [negb]. rewrite !F_length.
    replace (Nat.eqb (length f) (length s)) with true by (symmetry; apply Nat.eqb_eq; auto). cbn [negb].
    rewrite as_list_vec, bind_Ok, idx_F, bind_Ok by lia.
    assert (Ez : drop_zero (N:=NX) m (Fin (nth 0 f 0)) (F f) = F fq).
    { unfold drop_zero, fq, without_zero. rewrite fin_0, fin_eqb. destruct (_ && _); [apply F_tl|reflexivity]. }
    assert (Es : drop_zero (N:=NX) m (Fin (nth 0 f 0)) s = sq).
    { unfold drop_zero, sq. rewrite fin_0, fin_eqb. reflexivity. }
    rewrite Ez, Es. fold g.
    change (nopp (n:=NX) n1) with (Fin (-1)).
    destruct (_ || _); [reflexivity|].
    rewrite idx_F, bind_Ok by lia. rewrite (idx_last_nth _ (Fin 0)) by (apply F_ne; auto). rewrite bind_Ok, F_length, F_nth, (proj1 HfL).
    rewrite !fin_0. rewrite fin_eqb. cbv zeta. destruct (nleb _ _); [reflexivity|].
    destruct (approx_array_index (F fq) _) as [i|e]; [|reflexivity]. rewrite !bind_Ok.
    destruct (nearest_exists fq (last_of f) Hne) as (j & Ej & Nj). rewrite Ej, bind_Ok.
    assert (Lq : (0 < length fq)%nat) by (destruct fq; [contradiction|cbn; lia]).
    assert (j = (length fq - 1)%nat) as ->.
    { apply (nearest_unique fq (last_of f)); auto. rewrite <- (proj1 HfL). apply nearest_self; auto. lia. }
    destruct (simpson_slice i _ _ _) as [m1|e]; [|reflexivity]. rewrite !bind_Ok.
    rewrite (idx_last_nth _ NaN).
    - rewrite bind_Ok. assert (Eq : nth (length sq - 1) sq NaN = nth (length s - 1) s NaN).
      { rewrite sqx_nth. rewrite HsL, fqx_length, <- Hl. f_equal. assert (L := fqx_length). lia. }
      exact (f_equal (fun v => bind (tail_moment (N:=NX) (Fin (last_of f)) v fmax m) (fun m2 => Ok (nadd (n:=NX) m1 m2))) Eq).
    - intros E. rewrite E in HsL. cbn in HsL. lia.
  Qed.

  Lemma slice_simpson i j : (i <= j < length fq)%nat ->
    (exists v, simpson_slice (N:=NX) i j g (F fq) = Ok v)
    /\ (forall k, (i <= k <= j)%nat -> (i < j)%nat -> missing s (k + d) -> simpson_slice (N:=NX) i j g (F fq) = Ok NaN)
    /\ (i = j -> simpson_slice (N:=NX) i j g (F fq) = Ok (Fin 0)).
  Proof.
    intros Hij. unfold simpson_slice. assert (Lg := gx_length).
    assert (A : length (slice i (j + 1) (F fq)) = (j + 1 - i)%nat) by (rewrite slice_length, F_length; lia).
    assert (B : length (slice i (j + 1) g) = (j + 1 - i)%nat) by (rewrite slice_length; lia).
    split; [|split].
    - apply simpson_total; [rewrite A, B; reflexivity|]. intros E. rewrite E in B. cbn in B. lia.
    - intros k Hk Hlt Hm. apply (simpson_nan _ _ (k - i)); try (rewrite ?A, ?B; lia).
      rewrite slice_nth by lia. replace (i + (k - i))%nat with k by lia. apply gx_missing; auto; lia.
    - intros ->. destruct (slice j (j + 1) g) as [|a [|? ?]]; cbn [length] in B; try lia.
      destruct (slice j (j + 1) (F fq)) as [|b [|? ?]]; cbn [length] in A; try lia. reflexivity.
  Qed.

  (** the range of grid points that a pair of limits selects *)
  Lemma moment_band (fmin fmax : R) i j : fmin <> -1 -> fmax <> -1 -> fmin <= fmax <= last_of f ->
    nearest fq fmin i -> nearest fq fmax j ->
    (i <= j < length fq)%nat /\ moment_x f s m (Fin fmin) (Fin fmax) = simpson_slice (N:=NX) i j g (F fq).
  Proof.
    intros N1 N2 Hle Hi Hj. assert (Hne := fq_ne f m Hf). assert (Hinc := fq_inc f m Hf). fold fq in Hne, Hinc.
    split; [split; [apply (nearest_mono fq fmin fmax); auto; lra|apply Hj]|].
    rewrite moment_unfold_x, !fin_eqb, !Reqb_false by auto. cbn [orb]. rewrite fin_leb, Rleb_true by apply Hle. cbv zeta.
    replace (if Z.ltb m 0 && Reqb (nth 0 f 0) 0 && Reqb fmin 0 then Fin (nth 1 f 0) else Fin fmin) with (Fin (fminn f m fmin))
      by (unfold fminn; destruct (_ && _ && _); reflexivity).
    destruct (nearest_exists fq (fminn f m fmin) Hne) as (i' & -> & Hi'). destruct (nearest_exists fq fmax Hne) as (j' & -> & Hj').
    rewrite !bind_Ok. apply (fminn_nearest f f m Hf eq_refl) in Hi'. fold fq in Hi'.
    rewrite (nearest_unique fq fmin i' i), (nearest_unique fq fmax j' j) by auto. reflexivity.
  Qed.
  (** a limit beyond the axis *)
  Lemma moment_tail (fmin : R) (fmax : xr) i : fmin <> -1 -> nleb (n:=NX) fmax (Fin (last_of f)) = false -> fmax <> Fin (-1) -> fmax <> Fin 0 ->
    nearest fq fmin i ->
    exists v t, simpson_slice (N:=NX) i (length fq - 1) g (F fq) = Ok v /\ moment_x f s m (Fin fmin) fmax = Ok (nadd (n:=NX) v t).
  Proof.
    intros N1 Hmax N2 N3 Hi. assert (Hne := fq_ne f m Hf). assert (Hinc := fq_inc f m Hf). fold fq in Hne, Hinc.
    rewrite moment_unfold_x, fin_eqb, Reqb_false by auto. cbn [orb].
    destruct (neqb (n:=NX) fmax (Fin (-1))) eqn:E; [apply neqb_m1 in E; contradiction|].
    rewrite Hmax. cbv zeta.
    replace (if Z.ltb m 0 && Reqb (nth 0 f 0) 0 && neqb (n:=NX) (Fin fmin) (Fin 0) then Fin (nth 1 f 0) else Fin fmin) with (Fin (fminn f m fmin))
      by (unfold fminn; rewrite fin_eqb; destruct (_ && _ && _); reflexivity).
    destruct (nearest_exists fq (fminn f m fmin) Hne) as (i' & -> & Hi'). rewrite bind_Ok. apply (fminn_nearest f f m Hf eq_refl) in Hi'. fold fq in Hi'.
    rewrite (nearest_unique fq fmin i' i) by auto.
    destruct (slice_simpson i (length fq - 1)) as ((v & Ev) & _); [destruct Hi; lia|]. rewrite Ev, bind_Ok.
    unfold tail_moment. replace (neqb (n:=NX) fmax n0) with false.
    2:{ symmetry. destruct fmax as [r| | |]; try reflexivity. rewrite fin_0, fin_eqb. apply Reqb_false. congruence. }
    cbn [andb]. rewrite bind_Ok. eauto.
  Qed.
End Axis.

(** ** Moments *)

(** A missing bin between the grid points nearest to the limits makes the moment NaN. *)
Theorem C83_moment (f : list R) (s : list NX) (m : Z) (fmin fmax : R) (i j k : nat) :
  freq_axis f -> length s = length f -> fmin <> -1 -> fmax <> -1 -> fmin <= fmax <= last_of f ->
  nearest (without_zero m f f) fmin i -> nearest (without_zero m f f) fmax j ->
  (i < j)%nat -> (i <= k <= j)%nat -> missing s (k + left_out m f) ->
  moment_x f s m (Fin fmin) (Fin fmax) = Ok NaN.
Proof.
  intros Hf Hl N1 N2 Hle Hi Hj Hlt Hk Hm. destruct (moment_band f m s Hf Hl fmin fmax i j N1 N2 Hle Hi Hj) as [Hij ->].
  destruct (slice_simpson f m s Hl i j Hij) as (_ & A & _). apply (A k); auto.
Qed.
(** One outside that range has no influence: only the bins of the range are read. *)
Theorem C83_moment_outside (f : list R) (s s' : list NX) (m : Z) (fmin fmax : R) (i j : nat) :
  freq_axis f -> length s = length f -> length s' = length f -> fmin <> -1 -> fmax <> -1 -> fmin <= fmax <= last_of f ->
  nearest (without_zero m f f) fmin i -> nearest (without_zero m f f) fmax j ->
  (forall k, (i <= k <= j)%nat -> nth (k + left_out m f) s NaN = nth (k + left_out m f) s' NaN) ->
  moment_x f s m (Fin fmin) (Fin fmax) = moment_x f s' m (Fin fmin) (Fin fmax).
Proof.
  intros Hf Hl Hl' N1 N2 Hle Hi Hj Heq. destruct (moment_band f m s Hf Hl fmin fmax i j N1 N2 Hle Hi Hj) as [Hij ->].
  destruct (moment_band f m s' Hf Hl' fmin fmax i j N1 N2 Hle Hi Hj) as [_ ->]. unfold simpson_slice. f_equal.
  assert (L := gx_length f m s Hl). assert (L' := gx_length f m s' Hl').
  match goal with |- slice _ _ ?a = slice _ _ ?b => set (ga := a) in *; set (gb := b) in * end.
  apply (@nth_ext' (car NX) _ _ NaN); [rewrite !slice_length; rewrite L, L'; reflexivity|]. intros q Hq. rewrite slice_length, L in Hq.
  rewrite (@slice_nth (car NX) _ _ _ _ NaN) by lia. rewrite (@slice_nth (car NX) _ _ _ _ NaN) by lia.
  unfold ga, gb. rewrite (gx_nth f m s Hl), (gx_nth f m s' Hl') by lia. rewrite Heq by lia. reflexivity.
Qed.
(** a band that selects a single grid point integrates to zero even when that bin is missing *)
Theorem C83_moment_point (f : list R) (s : list NX) (m : Z) (fmin fmax : R) (i : nat) :
  freq_axis f -> length s = length f -> fmin <> -1 -> fmax <> -1 -> fmin <= fmax <= last_of f ->
  nearest (without_zero m f f) fmin i -> nearest (without_zero m f f) fmax i ->
  moment_x f s m (Fin fmin) (Fin fmax) = Ok (Fin 0).
Proof.
  intros Hf Hl N1 N2 Hle Hi Hj. destruct (moment_band f m s Hf Hl fmin fmax i i N1 N2 Hle Hi Hj) as [Hij ->].
  apply (slice_simpson f m s Hl i i Hij). reflexivity.
Qed.
(** with an upper limit beyond the axis *)
Theorem C83_moment_tail (f : list R) (s : list NX) (m : Z) (fmin : R) (fmax : xr) (i k : nat) :
  freq_axis f -> length s = length f -> fmin <> -1 -> fmin < last_of f -> (fmax = PInf \/ exists r, fmax = Fin r /\ last_of f < r) ->
  nearest (without_zero m f f) fmin i -> (S i < length (without_zero m f f))%nat ->
  (i <= k)%nat -> missing s (k + left_out m f) ->
  moment_x f s m (Fin fmin) fmax = Ok NaN.
Proof.
  intros Hf Hl N1 Hlt Hmax Hi Hi2 Hk Hm. assert (P := proj2 (fq_last f m Hf)).
  assert (Kd : (k < length (without_zero m f f))%nat) by (rewrite (fqx_length f m); destruct Hm; lia).
  destruct (moment_tail f m s Hf Hl fmin fmax i) as (v & t & Ev & Em); auto.
  - destruct Hmax as [->|(r & -> & Hr)]; [reflexivity|]. rewrite fin_leb. apply Rleb_false. lra.
  - destruct Hmax as [->|(r & -> & Hr)]; [discriminate|]. intros E. apply fin_inj in E. lra.
  - destruct Hmax as [->|(r & -> & Hr)]; [discriminate|]. intros E. apply fin_inj in E. lra.
  - destruct (slice_simpson f m s Hl i (length (without_zero m f f) - 1) ltac:(lia)) as (_ & A & _).
    rewrite (A k) in Ev; auto; try lia. apply Ok_inj in Ev. subst v. rewrite Em. reflexivity.
Qed.
(** default limits: every bin counts, but for the bin at f = 0 of a negative order *)
Theorem C83_moment_default (f : list R) (s : list NX) (m : Z) (fmin fmax : xr) (k : nat) :
  freq_axis f -> length s = length f -> (3 <= length f)%nat -> fmin = Fin (-1) \/ fmax = Fin (-1) ->
  missing s k -> (left_out m f <= k)%nat ->
  moment_x f s m fmin fmax = Ok NaN.
Proof.
  intros Hf Hl H3 Hd Hm Hk. rewrite moment_unfold_x by auto.
  replace (neqb (n:=NX) fmin (Fin (-1)) || neqb (n:=NX) fmax (Fin (-1))) with true
    by (symmetry; apply orb_true_iff; destruct Hd as [-> | ->]; [left|right]; apply neqb_m1; auto).
  assert (Lf := fqx_length f m). assert (Lg := gx_length f m s Hl). assert (B : (left_out m f <= 1)%nat) by (unfold left_out; destruct (_ && _); lia).
  assert (Hk' : (k < length f)%nat) by (destruct Hm; lia).
  apply (simpson_nan _ _ (k - left_out m f)).
  - rewrite Lg, F_length. reflexivity.
  - rewrite Lg. lia.
  - rewrite Lg. lia.
  - apply gx_missing; [auto|lia|]. replace (k - left_out m f + left_out m f)%nat with k by lia. exact Hm.
Qed.

(** ** Getters and parameters *)
Lemma moment_total (f : list R) (s : list NX) (m : Z) (lo hi : R) :
  freq_axis f -> length s = length f -> lo <> -1 -> hi <> -1 -> lo <= hi <= last_of f ->
  exists v, moment_x f s m (Fin lo) (Fin hi) = Ok v.
Proof.
  intros Hf Hl N1 N2 Hle. assert (Hne := fq_ne f m Hf).
  destruct (nearest_exists _ lo Hne) as (i & _ & Hi). destruct (nearest_exists _ hi Hne) as (j & _ & Hj).
  destruct (moment_band f m s Hf Hl lo hi i j N1 N2 Hle Hi Hj) as [Hij ->]. apply (slice_simpson f m s Hl i j Hij).
Qed.
(** Hm0 and the mean periods of a band with a missing bin are NaN, without an exception; compute_spectrum_params returns
    NaN for all six parameters *)
Theorem C83_parameters (f : list R) (s : list NX) (fmin fmax : xr) (lo hi : R) (i j k : nat) (sp : spec NX) :
  s_f sp = F f -> s_S sp = s -> freq_axis f -> length s = length f ->
  lower_limit f fmin (Fin lo) -> upper_limit f fmax (Fin hi) -> lo <= hi <= last_of f ->
  nearest f lo i -> nearest f hi j -> (i < j)%nat -> (i <= k <= j)%nat -> missing s k ->
     snd (get_Hm0 fmin fmax sp) = Ok NaN /\ snd (get_Tmm10 fmin fmax sp) = Ok NaN
  /\ snd (get_Tm01 fmin fmax sp) = Ok NaN /\ snd (get_Tm02 fmin fmax sp) = Ok NaN
  /\ compute_spectrum_params (N:=NX) (Arr (vec (F f))) (Arr (vec s)) fmin fmax = Ok (mkSparams (N:=NX) NaN NaN NaN NaN NaN NaN).
Proof.
  intros Ef Es Hf Hl Hlo Hhi Hle Hi Hj Hlt Hk Hm. assert (Hg := proj1 Hf). assert (H0 := proj2 Hf). assert (H2 := proj1 Hg).
  assert (Hne : f <> []) by (intros ->; cbn in H2; lia).
  assert (P := proj2 (fq_last f 0 Hf)).
  assert (N1 : lo <> -1).
  { destruct Hlo as [[_ E]|[N E]]; [apply fin_inj in E; lra|]. intros ->. apply N. auto. }
  assert (N2 : hi <> -1).
  { destruct Hhi as [[_ E]|[N E]]; [apply fin_inj in E; lra|]. intros ->. apply N. auto. }
  assert (M0 : moment_x f s 0 (Fin lo) (Fin hi) = Ok NaN).
  { apply (C83_moment f s 0 lo hi i j k); auto. cbn. rewrite Nat.add_0_r. exact Hm. }
  destruct (moment_total f s (-1) lo hi) as (a & Ma); auto. destruct (moment_total f s 1 lo hi) as (b & Mb); auto.
  destruct (moment_total f s 2 lo hi) as (c & Mc); auto.
  unfold get_Hm0, get_Tmm10, get_Tm01, get_Tm02, getter, mbind, mget, mlift, mset. rewrite Ef, Es.
  unfold v_Hm0, v_Tmm10, v_Tm01, v_Tm02. rewrite (set_flim_F f fmin fmax (Fin lo) (Fin hi)) by auto. rewrite !bind_Ok.
  unfold v_moment. rewrite M0, Ma, Mb, Mc, !bind_Ok.
  split; [reflexivity|]. split; [destruct a; reflexivity|]. split; [reflexivity|]. split; [reflexivity|].
  unfold compute_spectrum_params. rewrite !vec_convert. cbn [snd fst]. change (Nat.ltb 1 0) with false. cbn [orb].
  rewrite as_list_vec, bind_Ok, good_mono, bind_Ok by auto. cbn [negb]. rewrite !F_length.
  replace (Nat.eqb (length f) (length s)) with true by (symmetry; apply Nat.eqb_eq; auto). cbn [negb].
  rewrite as_list_vec, bind_Ok, !idx_F, !bind_Ok by lia. change (nopp (n:=NX) n1) with (Fin (-1)). cbv zeta.
  match goal with |- bind (compute_moment _ _ _ ?a ?b) _ = _ => replace a with (Fin lo); [replace b with (Fin hi)|] end.
  3:{ destruct Hlo as [[-> ->]|[N E1]]; [rewrite (proj2 (neqb_m1 _) eq_refl); reflexivity|]. subst fmin.
      destruct (neqb (n:=NX) (Fin lo) (Fin (-1))) eqn:E; [apply neqb_m1 in E; contradiction|reflexivity]. }
  2:{ destruct Hhi as [[-> ->]|[N E1]]; [rewrite (proj2 (neqb_m1 _) eq_refl); reflexivity|]. subst fmax.
      destruct (neqb (n:=NX) (Fin hi) (Fin (-1))) eqn:E; [apply neqb_m1 in E; contradiction|reflexivity]. }
  rewrite M0, Ma, Mb, Mc, !bind_Ok. reflexivity.
Qed.
(** in particular for the default limits *)
Corollary C83_parameters_default (f : list R) (s : list NX) (k : nat) (sp : spec NX) :
  s_f sp = F f -> s_S sp = s -> freq_axis f -> length s = length f -> missing s k ->
     snd (get_Hm0 (Fin (-1)) (Fin (-1)) sp) = Ok NaN /\ snd (get_Tmm10 (Fin (-1)) (Fin (-1)) sp) = Ok NaN
  /\ snd (get_Tm01 (Fin (-1)) (Fin (-1)) sp) = Ok NaN /\ snd (get_Tm02 (Fin (-1)) (Fin (-1)) sp) = Ok NaN
  /\ compute_spectrum_params (N:=NX) (Arr (vec (F f))) (Arr (vec s)) (Fin (-1)) (Fin (-1)) = Ok (mkSparams (N:=NX) NaN NaN NaN NaN NaN NaN).
Proof.
  intros Ef Es Hf Hl Hm. assert (H2 := proj1 (proj1 Hf)). assert (Hinc := good_increasing f (proj1 Hf)).
  apply (C83_parameters f s (Fin (-1)) (Fin (-1)) (nth 0 f 0) (last_of f) 0 (length f - 1) k); auto.
  - left. auto.
  - left. auto.
  - split; [|lra]. unfold last_of. apply inc_le; auto. lia.
  - apply nearest_self; auto. lia.
  - apply nearest_self; auto. lia.
  - lia.
  - destruct Hm. lia.
Qed.

(** ** Peak *)

(** bin [k] is the first of the band *)
Definition first_of_band (f : list R) (lo hi : xr) (k : nat) : Prop :=
  in_band f lo hi k /\ forall j, in_band f lo hi j -> (k <= j)%nat.
(** the largest of the values present in the band, at its last occurrence *)
Definition peak_seen (f : list R) (s : list (option R)) (lo hi : xr) (k : nat) : Prop :=
  in_band f lo hi k /\ exists v, seen s k v
  /\ (forall j r, in_band f lo hi j -> seen s j r -> r <= v)
  /\ (forall j r, in_band f lo hi j -> seen s j r -> (k < j)%nat -> r < v).

Lemma band_x f (s : list NX) fmin fmax : increasing f -> (exists k, in_band f fmin fmax k) ->
  exists i j, band (N:=NX) (F f) s fmin fmax = Ok (F (slice i (j + 1) f), slice i (j + 1) s)
  /\ (i <= j < length f)%nat /\ forall k, in_band f fmin fmax k <-> (i <= k <= j)%nat.
Proof.
  intros Hi (k0 & Hk0 & Hlo & Hhi). unfold band.
  destruct (where_first (fun v => nleb (n:=NX) fmin v) (F f) (Fin 0)) as (i & Ei & Li & Pi & Fi).
  { exists k0. rewrite F_length, F_nth. split; [auto|]. apply leb_ext; auto. }
  destruct (where_last (fun v => nleb (n:=NX) v fmax) (F f) (Fin 0)) as (j & Ej & Lj & Pj & Fj).
  { exists k0. rewrite F_length, F_nth. split; [auto|]. apply leb_ext; auto. }
  rewrite Ei, Ej, !bind_Ok, !F_slice. rewrite F_length in *. rewrite F_nth in Pi, Pj.
  rewrite leb_ext in Pi, Pj.
  exists i, j. split; [reflexivity|].
  assert (Hik : (i <= k0)%nat).
  { destruct (Nat.le_gt_cases i k0); [auto|]. specialize (Fi k0 H). rewrite F_nth in Fi. apply leb_ext in Hlo. congruence. }
  assert (Hjk : (k0 <= j)%nat).
  { destruct (Nat.le_gt_cases k0 j); [auto|]. specialize (Fj k0 ltac:(lia)). rewrite F_nth in Fj. apply leb_ext in Hhi. congruence. }
  split; [lia|]. intros k. split.
  - intros (Hk & A & B). split.
    + destruct (Nat.le_gt_cases i k); [auto|]. specialize (Fi k H). rewrite F_nth in Fi. apply leb_ext in A. congruence.
    + destruct (Nat.le_gt_cases k j); [auto|]. specialize (Fj k ltac:(lia)). rewrite F_nth in Fj. apply leb_ext in B. congruence.
  - intros Hk. split; [lia|]. split.
    + apply (ext_le_trans _ _ _ Pi). apply fin_ext_le, inc_le; auto; lia.
    + apply (ext_le_trans _ (Fin (nth j f 0))); [|auto]. apply fin_ext_le, inc_le; auto; lia.
Qed.
Lemma fold_nan l : fold_left (pymax2 (N:=NX)) l NaN = NaN.
Proof. induction l as [|a l IH]; [reflexivity|]. cbn [fold_left]. unfold pymax2 at 2. change (nltb (n:=NX) NaN a) with false. exact IH. Qed.
Lemma where_nan (l : list NX) : where_ (fun v => neqb (n:=NX) v NaN) l = [].
Proof.
  unfold where_. generalize 0%nat as n. induction l as [|a l IH]; intros n; cbn; auto.
  rewrite IH. destruct a; reflexivity.
Qed.

Theorem C83_peak (f : list R) (s : list (option R)) (fmin fmax lo hi : xr) (k0 : nat) (sp : spec NX) :
  s_f sp = F f -> s_S sp = Gp s -> good_axis f -> length s = length f ->
  lower_limit f fmin lo -> upper_limit f fmax hi -> first_of_band f lo hi k0 ->
  (forall r, seen s k0 r -> exists k, peak_seen f s lo hi k /\ snd (get_Tp fmin fmax sp) = Ok (recip (nth k f 0)))
  /\ (missing (Gp s) k0 -> snd (get_Tp fmin fmax sp) = Raise ValueError).
Proof.
  intros Ef Es Hf Hl Hlo Hhi [Hk0 Hfirst]. assert (Hi : increasing f) by (apply good_increasing; auto).
  assert (Hne : f <> []) by (destruct Hf as [H2 _]; intros ->; cbn in H2; lia).
  unfold get_Tp, getter, mbind, mget, mlift, mset. rewrite Ef, Es. unfold v_Tp.
  rewrite (set_flim_F f fmin fmax lo hi) by auto. rewrite bind_Ok.
  destruct (band_x f (Gp s) lo hi Hi (ex_intro _ k0 Hk0)) as (i & j & Eb & Hij & Hb).
  assert (i = k0) as ->.
  { assert (A := proj1 (Hb k0) Hk0). assert (B := Hfirst i (proj2 (Hb i) ltac:(lia))). lia. }
  set (sb := slice k0 (j + 1) s). set (fb := slice k0 (j + 1) f). 
  assert (Eb' : band (N:=NX) (F f) (Gp s) lo hi = Ok (F fb, Gp sb)).
  { etransitivity; [exact Eb|]. unfold sb. rewrite <- Gp_slice. reflexivity. }
  rewrite Eb', bind_Ok. clear Eb Eb'.
  assert (Lf : length fb = (j + 1 - k0)%nat) by (unfold fb; rewrite slice_length; lia).
  assert (Ls : length sb = (j + 1 - k0)%nat) by (unfold sb; rewrite slice_length; lia).
  assert (E0 : nth 0 (Gp sb) NaN = nth k0 (Gp s) NaN).
  { unfold sb. rewrite <- Gp_slice, slice_nth by lia. f_equal. lia. }
  unfold peak_period. split.
  - intros r0 Hr0. apply seen_nth in Hr0. rewrite Hr0 in E0.
    destruct sb as [|[r|] sb'] eqn:Esb; cbn in E0; try discriminate. apply fin_inj in E0. subst r.
    destruct (fold_pymax_Gp sb' r0) as (mx & Emx & Hin & Hmax).
    cbn [Gp map]. fold (Gp sb'). unfold pymax at 1. rewrite Emx, bind_Ok.
    change (Fin r0 :: Gp sb') with (Gp (Some r0 :: sb')). rewrite <- Esb in *. clear Emx.
    apply In_seen in Hin as (q0 & Hq0).
    destruct (where_last (fun v => neqb (n:=NX) v (Fin mx)) (Gp sb) (NaN : car NX)) as (q & Eq & Lq & Pq & Fq).
    { exists q0. split; [rewrite Gp_length; eapply seen_lt; eauto|]. apply seen_nth in Hq0. cbn [car NX] in *. rewrite Hq0. rewrite fin_eqb. apply Reqb_true; auto. }
    rewrite Gp_length in *.
    assert (Sq : seen sb q mx).
    { apply seen_nth. cbn [car NX] in *. destruct (nth q (Gp sb) NaN) as [r| | |] eqn:E; try discriminate. rewrite fin_eqb in Pq.
      destruct (Reqb_spec r mx); [congruence|discriminate]. }
    unfold idx_last in Eq. destruct (rev (@where_ (car NX) _ (Gp sb))) as [|k' rr]; [discriminate|]. apply Ok_inj in Eq. subst k'.
    rewrite bind_Ok, idx_F, bind_Ok by lia. rewrite fin_1, recip_F. exists (k0 + q)%nat. split.
    + split; [apply Hb; lia|]. exists mx. unfold sb in Sq. rewrite seen_slice in Sq by lia. split; [exact Sq|].
      assert (G : forall p r, in_band f lo hi p -> seen s p r -> seen sb (p - k0) r).
      { intros p r Hp Hs. apply Hb in Hp. unfold sb. apply seen_slice; [lia|]. replace (k0 + (p - k0))%nat with p by lia. auto. }
      assert (H : forall p r, in_band f lo hi p -> seen s p r -> r <= mx).
      { intros p r Hp Hs. apply Hmax. apply In_seen. eauto. }
      split; [exact H|]. intros p r Hp Hs Hlt. specialize (H p r Hp Hs).
      destruct (Req_dec r mx) as [->|]; [|lra]. exfalso. assert (Hs' := G p mx Hp Hs). apply Hb in Hp.
      specialize (Fq (p - k0)%nat ltac:(lia)). apply seen_nth in Hs'. cbn [car NX] in *. rewrite Hs', fin_eqb, Reqb_true in Fq by auto. discriminate.
    + rewrite <- (slice_nth k0 (j + 1) f q 0) by lia. reflexivity.
  - intros [_ E]. cbn [car NX] in *. rewrite E in E0. destruct sb as [|[r|] sb'] eqn:Esb; cbn in Ls, E0; try lia; try discriminate.
    cbn [Gp map]. fold (Gp sb'). unfold pymax at 1. rewrite fold_nan, bind_Ok, where_nan. reflexivity.
Qed.
(** the smoothed peak period when the first bin of the band is missing *)
Theorem C83_smoothed_peak (f : list R) (s : list (option R)) (fmin fmax lo hi : xr) (k0 : nat) (sp : spec NX) :
  s_f sp = F f -> s_S sp = Gp s -> good_axis f -> length s = length f ->
  lower_limit f fmin lo -> upper_limit f fmax hi -> first_of_band f lo hi k0 -> missing (Gp s) k0 ->
  (in_band f lo hi (k0 + 2) -> snd (get_Tps fmin fmax sp) = Raise IndexError)
  /\ (in_band f lo hi (k0 + 1) -> ~ in_band f lo hi (k0 + 2) ->
      snd (get_Tps fmin fmax sp) = Ok (recip (1 / 2 * (nth k0 f 0 + nth (k0 + 1) f 0))))
  /\ (~ in_band f lo hi (k0 + 1) -> snd (get_Tps fmin fmax sp) = Ok (recip (nth k0 f 0))).
Proof.
  intros Ef Es Hf Hl Hlo Hhi [Hk0 Hfirst] [_ Hmiss]. assert (Hi : increasing f) by (apply good_increasing; auto).
  assert (Hne : f <> []) by (destruct Hf as [H2 _]; intros ->; cbn in H2; lia).
  unfold get_Tps, getter, mbind, mget, mlift, mset. rewrite Ef, Es. unfold v_Tps.
  rewrite (set_flim_F f fmin fmax lo hi) by auto. rewrite bind_Ok.
  destruct (band_x f (Gp s) lo hi Hi (ex_intro _ k0 Hk0)) as (i & j & Eb & Hij & Hb).
  assert (i = k0) as ->.
  { assert (A := proj1 (Hb k0) Hk0). assert (B := Hfirst i (proj2 (Hb i) ltac:(lia))). lia. }
  set (sb := slice k0 (j + 1) s). set (fb := slice k0 (j + 1) f).
  assert (Eb' : band (N:=NX) (F f) (Gp s) lo hi = Ok (F fb, Gp sb)).
  { etransitivity; [exact Eb|]. unfold sb. rewrite <- Gp_slice. reflexivity. }
  rewrite Eb', bind_Ok. clear Eb Eb'.
  assert (Lf : length fb = (j + 1 - k0)%nat) by (unfold fb; rewrite slice_length; lia).
  assert (Ls : length sb = (j + 1 - k0)%nat) by (unfold sb; rewrite slice_length; lia).
  assert (E0 : nth 0 (Gp sb) NaN = NaN).
  { unfold sb. rewrite <- Gp_slice, slice_nth by lia. cbn [car NX] in Hmiss. rewrite Nat.add_0_r. exact Hmiss. }
  assert (T : compute_tps (N:=NX) (Arr (@vec (car NX) (F fb))) (Arr (@vec (car NX) (Gp sb)))
     = if Nat.ltb 2 (length fb) then Raise IndexError
       else if Nat.eqb (length fb) 2 then Ok (recip (1 / 2 * (nth 0 fb 0 + nth 1 fb 0))) else Ok (recip (nth 0 fb 0))).
  { unfold compute_tps. rewrite !vec_convert. cbn [snd fst]. change (Nat.ltb 1 0) with false. cbn [orb].
    rewrite as_list_vec, !bind_Ok. cbn [negb]. rewrite F_length, Gp_length, Lf, Ls, Nat.eqb_refl. cbn [negb].
    rewrite as_list_vec, bind_Ok. destruct sb as [|[r|] sb'] eqn:Esb; cbn in Ls, E0; try lia; try discriminate.
    cbn [Gp map]. fold (Gp sb'). unfold pymax. rewrite fold_nan, bind_Ok. 
    change (nltb (n:=NX) NaN (lit 1 10000000000)) with false. rewrite where_nan.
    destruct (Nat.ltb_spec 2 (j + 1 - k0)); [reflexivity|]. destruct (Nat.eqb_spec (j + 1 - k0) 2) as [E|E].
    - rewrite !idx_F, !bind_Ok by lia. rewrite fin_lit, fin_add, fin_mul, fin_1, recip_F by lra. reflexivity.
    - rewrite !idx_F, !bind_Ok by lia. rewrite fin_1, recip_F. reflexivity. }
  rewrite T, Lf. split; [|split].
  - intros B. apply Hb in B. destruct (Nat.ltb_spec 2 (j + 1 - k0)); [reflexivity|lia].
  - intros B B2. apply Hb in B. assert (j = (k0 + 1)%nat) as ->.
    { destruct (Nat.le_gt_cases (k0 + 2) j); [exfalso; apply B2, Hb; lia|lia]. }
    replace (k0 + 1 + 1 - k0)%nat with 2%nat by lia. cbn [Nat.ltb Nat.leb Nat.eqb]. unfold fb. rewrite !slice_nth by lia. rewrite Nat.add_0_r. reflexivity.
  - intros B. assert (j = k0) as ->.
    { destruct (Nat.eq_dec j k0); [auto|]. exfalso. apply B, Hb. lia. }
    replace (k0 + 1 - k0)%nat with 1%nat by lia. cbn [Nat.ltb Nat.leb Nat.eqb]. unfold fb. rewrite !slice_nth by lia. rewrite Nat.add_0_r. reflexivity.
Qed.

Example C83_witness :
  let f := axis 0 (1/2) 5 in
  freq_axis f /\ missing (Gp [None; Some 1; Some 3; None; Some 1]) 0 /\ missing (Gp [None; Some 1; Some 3; None; Some 1]) 3
  /\ first_of_band f (Fin (nth 0 f 0)) (Fin (last_of f)) 0 /\ first_of_band f (Fin (1/4)) (Fin (last_of f)) 1
  /\ peak_seen f [None; Some 1; Some 3; None; Some 1] (Fin (1/4)) (Fin (last_of f)) 2
  /\ nearest f (1/2) 1 /\ nearest f (3/2) 3.
Proof.
  cbv zeta. assert (Hf : freq_axis (axis 0 (1/2) 5)) by (apply axis_freq; lra || lia).
  assert (E : axis 0 (1/2) 5 = [0; 1/2; 1; 3/2; 2]) by (cbn; repeat (f_equal; try lra)).
  split; [exact Hf|]. rewrite E in *. unfold last_of. cbn [length Nat.sub nth].
  split; [split; [cbn; lia|reflexivity]|]. split; [split; [cbn; lia|reflexivity]|]. split.
  { split; [|lia]. split; [cbn; lia|]. cbn. lra. }
  assert (B : forall k, in_band [0; 1/2; 1; 3/2; 2] (Fin (1/4)) (Fin 2) k <-> (1 <= k <= 4)%nat).
  { intros k. unfold in_band. cbn [length ext_le]. split.
    - intros (A & C & D). destruct k as [|[|[|[|[|]]]]]; cbn [nth] in *; try lia; lra.
    - intros A. destruct k as [|[|[|[|[|]]]]]; cbn [nth]; try lia; split; try lia; lra. }
  split; [split; [apply B; lia|intros j Hj; apply B in Hj; lia]|].
  split.
  { split; [apply B; lia|]. exists 3. split; [reflexivity|]. split.
    - intros j r Hj Hs. apply B in Hj. unfold seen in Hs. destruct j as [|[|[|[|[|]]]]]; cbn in Hs; try lia; try congruence; injection Hs as <-; lra.
    - intros j r Hj Hs Hlt. apply B in Hj. unfold seen in Hs. destruct j as [|[|[|[|[|]]]]]; cbn in Hs; try lia; try congruence; injection Hs as <-; lra. }
  assert (Hinc := good_increasing _ (proj1 Hf)).
  split; [apply (nearest_self [0; 1/2; 1; 3/2; 2] 1)|apply (nearest_self [0; 1/2; 1; 3/2; 2] 3)]; auto; cbn; lia.
Qed.
