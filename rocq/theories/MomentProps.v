(** * Spectral moments: C32, C33 *)

From Coq Require Import Reals ZArith List Bool Lra Lia.
From Coquelicot Require Import Coquelicot.
From Verif Require Import Num XR Spec XRFacts RSum Engine EngineProps FourierSpec TimeProps SeriesProps FourierFacts WaveModel SimpsonFacts.
Import ListNotations.
Open Scope R_scope.

(** ** Vocabulary *)

(** position [i] of the list [l] is the (first) one nearest to [v] *)
Definition nearest (l : list R) (v : R) (i : nat) : Prop :=
  (i < length l)%nat
  /\ (forall k, (k < length l)%nat -> Rabs (nth i l 0 - v) <= Rabs (nth k l 0 - v))
  /\ (forall k, (k < i)%nat -> Rabs (nth i l 0 - v) < Rabs (nth k l 0 - v)).
(** a list (axis or density) without its first entry if that belongs to frequency 0 and the order is negative *)
Definition without_zero (m : Z) (f l : list R) : list R :=
  if Z.ltb m 0 && Reqb (nth 0 f 0) 0 then tl l else l.
(** f^m S *)
Definition weighted (m : Z) (f s : list R) : list R :=
  map2 (fun a b => powerRZ a m * b) (without_zero m f f) (without_zero m f s).
(** an accepted frequency axis without negative frequencies *)
Definition freq_axis (f : list R) : Prop := good_axis f /\ 0 <= nth 0 f 0.
Definition last_of (f : list R) : R := nth (length f - 1) f 0.

(** ** Facts *)

Lemma powerRZ_pos_eq x p : powerRZ x (Zpos p) = x ^ Pos.to_nat p. Proof. reflexivity. Qed.
Lemma pow_mul_inf k : pow_mul (Fin 1) xmul PInf (S k) = PInf.
Proof.
  induction k.
  - cbn. unfold xinf_times. destruct (Rlt_dec 0 1); [reflexivity|lra].
  - change (pow_mul (Fin 1) xmul PInf (S (S k))) with (xmul PInf (pow_mul (Fin 1) xmul PInf (S k))). rewrite IHk. reflexivity.
Qed.
Lemma npowi_inf_neg m : (m < 0)%Z -> npowi (n:=NX) PInf m = Fin 0.
Proof.
  intros H. change (npowi (n:=NX)) with (powZ_mul (Fin 1) xmul xdiv).
  destruct m as [|p|p]; try lia. unfold powZ_mul. destruct (Pos2Nat.is_succ p) as [k ->]. rewrite pow_mul_inf. reflexivity.
Qed.

Lemma good_increasing f : good_axis f -> increasing f.
Proof.
  intros [H2 H] i j Hij. assert (exists d, j = (i + S d)%nat) as (d & ->) by (exists (j - i - 1)%nat; lia).
  induction d as [|d IH].
  - replace (i + 1)%nat with (S i) in * by lia. apply H; lia.
  - apply Rlt_trans with (nth (i + S d) f 0); [apply IH; lia|].
    replace (i + S (S d))%nat with (S (i + S d)) in * by lia. apply H; lia.
Qed.
Lemma wz_length m f l : length (without_zero m f l) = (length l - (if Z.ltb m 0 && Reqb (nth 0 f 0%R) 0%R then 1 else 0))%nat.
Proof. unfold without_zero. destruct (_ && _); [destruct l; cbn; lia|lia]. Qed.
Lemma wz_nth m f l k d : nth k (without_zero m f l) d = nth (k + (if Z.ltb m 0 && Reqb (nth 0 f 0%R) 0%R then 1 else 0)) l d.
Proof. unfold without_zero. destruct (_ && _); [rewrite Nat.add_1_r; destruct l, k; reflexivity|rewrite Nat.add_0_r; reflexivity]. Qed.
Lemma F_tl l : tl (F l) = F (tl l). Proof. destruct l; reflexivity. Qed.

Section Axis.
  Variables (f s : list R) (m : Z).
  Hypothesis Hf : freq_axis f.
  Hypothesis Hl : length s = length f.
  Let fq := without_zero m f f.
  Let sq := without_zero m f s.
  Let g := weighted m f s.

  Lemma fq_ne : fq <> [].
  Proof using Hf. clear Hl g sq s. destruct Hf as [[H2 _] _]. intros E. assert (L : length fq = 0%nat) by (rewrite E; auto). unfold fq in L. rewrite wz_length in L.
    destruct (_ && _); lia. Qed.
  Lemma fq_inc : increasing fq.
  Proof using Hf. clear Hl g sq s.
    destruct Hf as [Hg _]. apply good_increasing in Hg. intros i j Hij. unfold fq in *. rewrite wz_length in Hij. rewrite !wz_nth.
    apply Hg. destruct (_ && _); lia.
  Qed.
  Lemma sq_length : length sq = length fq.
  Proof. unfold sq, fq. rewrite !wz_length, Hl. reflexivity. Qed.
  Lemma g_length : length g = length fq.
  Proof. unfold g, weighted. rewrite map2_length. fold fq sq. rewrite sq_length. lia. Qed.
  Lemma f_nonneg k : (k < length f)%nat -> 0 <= nth k f 0.
  Proof using Hf. clear Hl g sq s.
    destruct Hf as [Hg H0]. apply good_increasing in Hg. intros Hk. destruct (Nat.eq_dec k 0) as [->|]; auto.
    assert (A := Hg 0%nat k ltac:(lia)). lra.
  Qed.
  Lemma fq_nonneg k : (k < length fq)%nat -> 0 <= nth k fq 0.
  Proof using Hf. clear Hl g sq s. unfold fq. rewrite wz_length, wz_nth. intros Hk. apply f_nonneg. destruct (_ && _); lia. Qed.
  Lemma fq_pos k : (k < length fq)%nat -> (m < 0)%Z -> 0 < nth k fq 0.
  Proof using Hf. clear Hl g sq s.
    unfold fq. rewrite wz_length, wz_nth. intros Hk Hm. replace (Z.ltb m 0) with true in * by (symmetry; apply Z.ltb_lt; auto). cbn [andb] in *.
    destruct Hf as [Hg H0]. apply good_increasing in Hg.
    destruct (Reqb_spec (nth 0 f 0) 0) as [E|N].
    - rewrite <- E at 1. apply Hg. lia.
    - destruct (Nat.eq_dec k 0) as [->|]; [cbn; lra|]. assert (A := Hg 0%nat (k + 0)%nat ltac:(lia)). lra.
  Qed.
  Lemma fq_last : nth (length fq - 1) fq 0 = last_of f /\ 0 < last_of f.
  Proof using Hf. clear Hl g sq s.
    destruct Hf as [[H2 Hg] H0]. split.
    - unfold fq. rewrite wz_length, wz_nth. unfold last_of. f_equal. destruct (_ && _); lia.
    - assert (I := good_increasing f (conj H2 Hg) 0%nat (length f - 1)%nat ltac:(lia)). unfold last_of. lra.
  Qed.
  Lemma g_nth k : (k < length fq)%nat -> nth k g 0 = powerRZ (nth k fq 0) m * nth k sq 0.
  Proof. intros Hk. unfold g, weighted. rewrite (map2_nth _ _ _ _ 0 0 0); auto. fold sq. rewrite sq_length. auto. Qed.

  Lemma integrand_F : map2 (fun fr sp => nmul (n:=NX) (npowZ (N:=NX) fr m) sp) (F fq) (F sq) = F g.
  Proof.
    apply (nth_ext' _ _ (Fin 0)); [rewrite map2_length, !F_length, g_length, sq_length; lia|].
    intros k Hk. rewrite map2_length, !F_length, sq_length in Hk.
    rewrite (map2_nth _ _ _ _ (Fin 0) (Fin 0) (Fin 0)); rewrite ?F_length, ?sq_length; try lia.
    rewrite !F_nth, npowZ_F, fin_mul, g_nth; [reflexivity|lia|].
    destruct (Z.neg_nonneg_cases m); [left|right; auto]. assert (A := fq_pos k ltac:(lia) H). lra.
  Qed.

  (** the slice of an increasing list *)
  Lemma slice_inc (l : list R) i j : increasing l -> increasing (slice i j l).
  Proof using. clear.
    intros H a b Hab. rewrite slice_length in Hab. rewrite !slice_nth by lia. apply H. lia.
  Qed.
  Lemma simpson_slice_F i j : (i <= j < length fq)%nat ->
    simpson_slice (N:=NX) i j (F g) (F fq) = Ok (Fin (rsimp (slice i (j + 1) fq) (slice i (j + 1) g))).
  Proof.
    intros Hij. unfold simpson_slice. rewrite !F_slice. apply simpson_F.
    - intros E. assert (L : length (slice i (j + 1) fq) = 0%nat) by (rewrite E; auto). rewrite slice_length in L. lia.
    - apply slice_inc, fq_inc.
    - rewrite !slice_length, g_length. reflexivity.
  Qed.

  Lemma nearest_exists (l : list R) v : l <> [] -> exists i, approx_array_index (F l) (Fin v) = Ok i /\ nearest l v i.
  Proof using. clear.
    intros H. destruct (C03_nearest_index l v H) as (i & Hi & A & B & C). exists i. split; [auto|]. split; [auto|]. auto.
  Qed.
  Lemma nearest_mono (l : list R) v w i j : increasing l -> nearest l v i -> nearest l w j -> v <= w -> (i <= j)%nat.
  Proof using. clear.
    intros Hi (A & B & C) (A' & B' & C') H. destruct (Nat.le_gt_cases i j) as [|L]; [auto|exfalso].
    specialize (C j L). specialize (B' i A). assert (D := Hi j i ltac:(lia)).
    revert C B'. unfold Rabs. repeat destruct (Rcase_abs _); lra.
  Qed.
  Lemma nearest_self (l : list R) k : increasing l -> (k < length l)%nat -> nearest l (nth k l 0) k.
  Proof using. clear.
    intros Hi Hk. split; [auto|]. rewrite Rminus_eq_0, Rabs_R0. split; intros j Hj; [apply Rabs_pos|].
    assert (A := Hi j k ltac:(lia)). apply Rabs_pos_lt. lra.
  Qed.
  Lemma nearest_unique (l : list R) v i j : increasing l -> nearest l v i -> nearest l v j -> i = j.
  Proof using. clear.
    intros Hi A B. assert (i <= j)%nat by (apply (nearest_mono l v v); auto; lra).
    assert (j <= i)%nat by (apply (nearest_mono l v v); auto; lra). lia.
  Qed.
  Lemma nearest_below (l : list R) v : increasing l -> l <> [] -> v <= nth 0 l 0 -> nearest l v 0.
  Proof using. clear.
    intros Hi Hn Hv. split; [destruct l; [contradiction|cbn; lia]|]. split; [|lia]. intros k Hk.
    destruct (Nat.eq_dec k 0) as [->|]; [lra|]. assert (A := Hi 0%nat k ltac:(lia)).
    rewrite !Rabs_pos_eq; lra.
  Qed.

  (** the lower limit is moved from 0 to the first frequency; this does not change the nearest point *)
  Definition fminn (fmin : R) : R := if Z.ltb m 0 && Reqb (nth 0 f 0) 0 && Reqb fmin 0 then nth 1 f 0 else fmin.
  Lemma fminn_nearest fmin i : nearest fq (fminn fmin) i -> nearest fq fmin i.
  Proof.
    unfold fminn. destruct (Z.ltb m 0 && Reqb (nth 0 f 0) 0) eqn:E; cbn [andb]; [|auto].
    destruct (Reqb_spec fmin 0) as [->|]; [|auto]. intros H.
    assert (Ef : nth 0 fq 0 = nth 1 f 0) by (unfold fq; rewrite wz_nth, E; reflexivity).
    assert (L0 : (0 < length fq)%nat) by (assert (H0 := fq_ne); destruct fq; [contradiction|cbn; lia]).
    rewrite <- Ef in H. assert (i = 0%nat) as -> by (apply (nearest_unique fq (nth 0 fq 0)); auto using fq_inc, nearest_self).
    apply nearest_below; auto using fq_inc, fq_ne. apply fq_nonneg. auto.
  Qed.

  Lemma moment_unfold (fmin fmax : car NX) :
    compute_moment (Arr (vec (F f))) (Arr (vec (F s))) m fmin fmax
    = if (neqb (n:=NX) fmin (Fin (-1))) || (neqb (n:=NX) fmax (Fin (-1))) then simpson (F g) (F fq)
      else
        let fmn := if Z.ltb m 0 && Reqb (nth 0 f 0) 0 && neqb (n:=NX) fmin (Fin 0) then Fin (nth 1 f 0) else fmin in
        if nleb (n:=NX) fmax (Fin (last_of f))
        then bind (approx_array_index (F fq) fmn) (fun i => bind (approx_array_index (F fq) fmax) (fun j => simpson_slice i j (F g) (F fq)))
        else bind (approx_array_index (F fq) fmn) (fun i =>
               bind (simpson_slice i (length fq - 1) (F g) (F fq)) (fun m1 =>
               bind (tail_moment (N:=NX) (Fin (last_of f)) (Fin (last_of s)) fmax m) (fun m2 => Ok (nadd (n:=NX) m1 m2)))).
  Proof.
    destruct Hf as [Hg H0]. assert (H2 := proj1 Hg).
    assert (HgL := g_length). assert (HfL := fq_last). assert (Hin := integrand_F). assert (Hne := fq_ne). assert (Hinc := fq_inc). assert (HsL := sq_length).
    unfold compute_moment. rewrite !vec_convert. cbn [snd fst Nat.ltb Nat.leb orb].
    rewrite as_list_vec, bind_Ok, good_mono, bind_Ok by auto. cbn [negb]. rewrite !F_length, Hl, Nat.eqb_refl. cbn [negb].
    rewrite as_list_vec, bind_Ok, idx_F, bind_Ok by lia.
    assert (Ez : forall l, drop_zero (N:=NX) m (Fin (nth 0 f 0)) (F l) = F (without_zero m f l)).
    { intros l. unfold drop_zero, without_zero. rewrite fin_0, fin_eqb. destruct (_ && _); [apply F_tl|reflexivity]. }
    rewrite !Ez. fold fq sq. rewrite Hin.
    change (nopp (n:=NX) n1) with (Fin (-1)). 
    destruct (_ || _); [reflexivity|].
    rewrite idx_F, bind_Ok by lia. rewrite (idx_last_nth _ (Fin 0)) by (apply F_ne; auto). rewrite bind_Ok, F_length, F_nth, (proj1 HfL).
    rewrite !fin_0. rewrite fin_eqb. cbv zeta. destruct (nleb _ _); [reflexivity|].
    destruct (approx_array_index (F fq) _) as [i|e]; [|reflexivity]. rewrite !bind_Ok.
    destruct (nearest_exists fq (last_of f) Hne) as (j & Ej & Nj). rewrite Ej, bind_Ok.
    assert (Lq : (0 < length fq)%nat) by (destruct fq; [contradiction|cbn; lia]).
    assert (j = (length fq - 1)%nat) as ->.
    { apply (nearest_unique fq (last_of f)); auto. rewrite <- (proj1 HfL). apply nearest_self; auto. lia. }
    destruct (simpson_slice i _ _ _) as [m1|e]; [|reflexivity]. rewrite !bind_Ok.
    rewrite (idx_last_nth _ (Fin 0)).
    - rewrite bind_Ok, F_length, F_nth. replace (nth (length sq - 1) sq 0) with (last_of s); [reflexivity|].
      unfold sq. rewrite wz_length, wz_nth. unfold last_of. f_equal. rewrite Hl. destruct (_ && _); lia.
    - apply F_ne. intros E. rewrite E in HsL. cbn in HsL. lia.
  Qed.

  Lemma moment_all (fmin fmax : car NX) : fmin = Fin (-1) \/ fmax = Fin (-1) ->
    compute_moment (Arr (vec (F f))) (Arr (vec (F s))) m fmin fmax = Ok (Fin (rsimp fq g)).
  Proof.
    intros H. rewrite moment_unfold.
    replace (neqb (n:=NX) fmin (Fin (-1)) || neqb (n:=NX) fmax (Fin (-1))) with true.
    - apply simpson_F; auto using fq_ne, fq_inc. symmetry; apply g_length.
    - symmetry. apply orb_true_iff. destruct H as [-> | ->]; [left|right]; cbn; rewrite Reqb_true; auto.
  Qed.
  Lemma moment_in fmin fmax : fmin <> -1 -> fmax <> -1 -> fmin <= fmax \/ last_of f <= fmax -> fmax <= last_of f ->
    exists i j, nearest fq fmin i /\ nearest fq fmax j /\ (i <= j)%nat
    /\ compute_moment (Arr (vec (F f))) (Arr (vec (F s))) m (Fin fmin) (Fin fmax)
       = Ok (Fin (rsimp (slice i (j + 1) fq) (slice i (j + 1) g))).
  Proof.
    intros N1 N2 Hle Hmax. rewrite moment_unfold, !fin_eqb, !Reqb_false by auto. cbn [orb]. rewrite fin_leb, Rleb_true by auto.
    cbv zeta. 
    replace (if Z.ltb m 0 && Reqb (nth 0 f 0) 0 && Reqb fmin 0 then Fin (nth 1 f 0) else Fin fmin) with (Fin (fminn fmin))
      by (unfold fminn; destruct (_ && _ && _); reflexivity).
    destruct (nearest_exists fq (fminn fmin) fq_ne) as (i & -> & Hi). destruct (nearest_exists fq fmax fq_ne) as (j & -> & Hj).
    rewrite !bind_Ok. apply fminn_nearest in Hi. exists i, j. split; [auto|]. split; [auto|].
    assert (i <= j)%nat.
    { destruct Hle as [Hle|Hle]; [apply (nearest_mono fq fmin fmax); auto using fq_inc|].
      assert (j = (length fq - 1)%nat) as ->; [|destruct Hi; lia].
      assert (Lq : (0 < length fq)%nat) by (destruct Hi; lia).
      apply (nearest_unique fq fmax); auto using fq_inc. replace fmax with (last_of f) by lra. rewrite <- (proj1 fq_last).
      apply nearest_self; [apply fq_inc|lia]. }
    split; [auto|]. apply simpson_slice_F. destruct Hj; lia.
  Qed.
End Axis.

(** ** C32 *)

Notation moment f s := (compute_moment (Arr (vec (F f))) (Arr (vec (F s)))).

Lemma weighted_lc m f a b s1 s2 : length s1 = length s2 -> length s1 = length f ->
  weighted m f (lc a b s1 s2) = lc a b (weighted m f s1) (weighted m f s2).
Proof.
  intros H H'.
  assert (L : forall s, length s = length f -> length (weighted m f s) = length (without_zero m f f)).
  { intros s Hs. unfold weighted. rewrite map2_length, !wz_length, Hs. lia. }
  assert (L0 : length (lc a b s1 s2) = length f) by (rewrite lc_length; auto).
  apply (nth_ext' _ _ 0).
  - rewrite lc_length; rewrite !L; auto; congruence.
  - intros k Hk. rewrite L in Hk by auto. rewrite lc_nth by (rewrite !L; auto; congruence).
    unfold weighted. rewrite wz_length in Hk.
    rewrite !(map2_nth _ _ _ _ 0 0 0) by (rewrite !wz_length; rewrite ?L0; lia).
    rewrite !wz_nth, lc_nth by auto. ring.
Qed.
Lemma slice_lc a b y z i j : length y = length z -> slice i j (lc a b y z) = lc a b (slice i j y) (slice i j z).
Proof.
  intros H. apply (nth_ext' _ _ 0).
  - rewrite lc_length by (rewrite !slice_length, H; auto). rewrite !slice_length, lc_length by auto. reflexivity.
  - intros k Hk. rewrite slice_length in Hk. rewrite lc_nth by (rewrite !slice_length, H; auto).
    rewrite !slice_nth by lia. apply lc_nth; auto.
Qed.
Ltac xinf := do 6 (unfold xinf_times; cbn; try match goal with |- context [Rlt_dec ?a ?b] => destruct (Rlt_dec a b); try lra end); discriminate.
(** the tail is proportional to the last density, or never finite *)
Lemma tail_linear fl fmax m : 0 < fl -> nleb (n:=NX) fmax (Fin fl) = false ->
  (exists K, forall sl, tail_moment (N:=NX) (Fin fl) (Fin sl) fmax m = Ok (Fin (sl * K)))
  \/ (forall sl, exists t, tail_moment (N:=NX) (Fin fl) (Fin sl) fmax m = Ok t /\ forall x y, nadd (n:=NX) (Fin x) t <> Fin y).
Proof.
  intros Hfl Hm. unfold tail_moment. set (e := (m + -5 + 1)%Z).
  assert (E0 : neqb (n:=NX) fmax n0 && Z.ltb e 0 = false).
  { destruct fmax as [r| | |]; try reflexivity. rewrite fin_0, fin_eqb, Reqb_false; [reflexivity|].
    rewrite fin_leb in Hm. destruct (Rleb_spec r fl); [discriminate|]. lra. }
  rewrite E0. rewrite (npowi_F fl (-5)) by (left; lra).
  assert (P5 : 0 < powerRZ fl (-5)) by (apply powerRZ_lt; auto). 
  assert (EC : forall sl, ndiv (n:=NX) (Fin sl) (Fin (powerRZ fl (-5))) = Fin (sl / powerRZ fl (-5))) by (intros; apply fin_div; lra).
  rewrite (npowi_F fl e) by (left; lra).
  destruct (Z.eq_dec e 0) as [Ee|Ne].
  - right. intros sl. rewrite EC, Ee. eexists. split; [reflexivity|]. intros x y.
    cbn. destruct (Req_EM_T 0 0); [|lra]. unfold xinf_times. rewrite Rminus_eq_0. xinf.
  - assert (Ne' : IZR e <> 0) by (apply not_0_IZR; auto).
    assert (ED : forall sl, ndiv (n:=NX) (Fin (sl / powerRZ fl (-5))) (nofZ e) = Fin (sl / powerRZ fl (-5) / IZR e))
      by (intros; rewrite fin_ofZ; apply fin_div; auto).
    destruct fmax as [r| | |].
    + left. exists (/ powerRZ fl (-5) / IZR e * (powerRZ r e - powerRZ fl e)). intros sl. rewrite EC, ED, npowi_F.
      * rewrite fin_sub, fin_mul. do 2 f_equal. field. split; auto; lra.
      * rewrite fin_leb in Hm. destruct (Rleb_spec r fl); [discriminate|]. left; lra.
    + destruct (Z.lt_total e 0) as [Hn|[Hz|Hp]]; [|lia|].
      * left. exists (/ powerRZ fl (-5) / IZR e * (0 - powerRZ fl e)). intros sl. rewrite EC, ED, npowi_inf_neg by auto.
        rewrite fin_sub, fin_mul. do 2 f_equal. field. split; auto; lra.
      * right. intros sl. rewrite EC, ED. replace (npowi (n:=NX) PInf e) with (PInf : car NX).
        2:{ destruct e as [|p|p]; try lia. cbn. destruct (Pos2Nat.is_succ p) as [k ->]. symmetry. apply pow_mul_inf. }
        eexists. split; [reflexivity|]. intros x y. xinf.
    + discriminate.
    + right. intros sl. rewrite EC, ED. destruct e as [|p|p]; [lia| |]; (eexists; split; [reflexivity|]); intros x y;
        change (npowi (n:=NX)) with (powZ_mul (Fin 1) xmul xdiv); unfold powZ_mul; destruct (Pos2Nat.is_succ p) as [k ->]; cbn; discriminate.
Qed.

Theorem C32_linear (f s1 s2 : list R) (m : Z) (a b : R) (fmin fmax : car NX) (v1 v2 : R) :
  freq_axis f -> length s1 = length f -> length s2 = length f ->
  moment f s1 m fmin fmax = Ok (Fin v1) -> moment f s2 m fmin fmax = Ok (Fin v2) ->
  moment f (map2 (fun x y => a * x + b * y) s1 s2) m fmin fmax = Ok (Fin (a * v1 + b * v2)).
Proof.
  intros Hf L1 L2. change (map2 (fun x y => a * x + b * y) s1 s2) with (lc a b s1 s2).
  assert (L12 : length s1 = length s2) by congruence.
  assert (L3 : length (lc a b s1 s2) = length f) by (rewrite lc_length; auto).
  set (fq := without_zero m f f).
  assert (G : forall s, length s = length f -> length (weighted m f s) = length fq) by (intros; apply g_length; auto).
  assert (Hfin : forall (r : res (car NX)) v, r = Ok (Fin v) -> exists w, r = Ok (Fin w)) by eauto.
  rewrite !moment_unfold by auto. fold fq. rewrite (weighted_lc m f a b s1 s2) by auto.
  set (g1 := weighted m f s1). set (g2 := weighted m f s2).
  assert (G1 : length g1 = length fq) by (apply G; auto). assert (G2 : length g2 = length fq) by (apply G; auto).
  destruct (_ || _).
  assert (Nq : fq <> []) by (apply fq_ne; auto). assert (Iq : increasing fq) by (apply fq_inc; auto).
  { rewrite !simpson_F; auto; rewrite ?lc_length; try congruence.
    intros E1 E2. apply Ok_inj, fin_inj in E1, E2. rewrite rsimp_lin by congruence. subst. reflexivity. }
  cbv zeta. set (fmn := if (m <? 0)%Z && Reqb (nth 0 f 0) 0 && neqb (n:=NX) fmin (Fin 0) then Fin (nth 1 f 0) else fmin).
  assert (SS : forall i j u1 u2, simpson_slice (N:=NX) i j (F g1) (F fq) = Ok u1 -> simpson_slice (N:=NX) i j (F g2) (F fq) = Ok u2 ->
    exists w1 w2, u1 = Fin w1 /\ u2 = Fin w2 /\ simpson_slice (N:=NX) i j (F (lc a b g1 g2)) (F fq) = Ok (Fin (a * w1 + b * w2))).
  { intros i j u1 u2. unfold simpson_slice. rewrite !F_slice, slice_lc by congruence.
    destruct (slice i (j + 1) fq) as [|x l] eqn:Es.
    - assert (Z : length (slice i (j + 1) fq) = 0%nat) by (rewrite Es; auto). rewrite slice_length in Z.
      assert (Z1 : slice i (j + 1) g1 = []) by (apply length_zero_iff_nil; rewrite slice_length, G1; auto).
      rewrite Z1. intros E. discriminate E.
    - assert (I : increasing (slice i (j + 1) fq)) by (apply slice_inc, fq_inc; auto).
      assert (Z1 : length (slice i (j + 1) fq) = length (slice i (j + 1) g1)) by (rewrite !slice_length, G1; auto).
      assert (Z2 : length (slice i (j + 1) fq) = length (slice i (j + 1) g2)) by (rewrite !slice_length, G2; auto).
      rewrite Es in *. rewrite !simpson_F; auto; try discriminate; [|rewrite lc_length; congruence].
      intros E1 E2. apply Ok_inj in E1, E2. subst u1 u2. eexists _, _. split; [reflexivity|]. split; [reflexivity|].
      rewrite rsimp_lin by congruence. reflexivity. }
  destruct (nleb fmax (Fin (last_of f))) eqn:El.
  - destruct (approx_array_index (F fq) fmn) as [i|]; [|discriminate]. destruct (approx_array_index (F fq) fmax) as [j|]; [|discriminate].
    rewrite !bind_Ok. intros E1 E2. destruct (SS i j _ _ E1 E2) as (w1 & w2 & A & B & C). apply fin_inj in A, B. subst. exact C.
  - destruct (approx_array_index (F fq) fmn) as [i|]; [|discriminate]. rewrite !bind_Ok.
    intros E1 E2. apply bind_inv in E1 as (u1 & Eu1 & E1). apply bind_inv in E2 as (u2 & Eu2 & E2).
    destruct (SS i _ _ _ Eu1 Eu2) as (w1 & w2 & A & B & C). subst u1 u2. rewrite C, bind_Ok.
    assert (Hfl : 0 < last_of f) by (apply (fq_last f m); auto).
    destruct (tail_linear (last_of f) fmax m Hfl El) as [[K HK]|HN].
    + rewrite HK, bind_Ok in E1, E2 |- *. apply Ok_inj, fin_inj in E1, E2. rewrite fin_add. do 2 f_equal. subst v1 v2.
      unfold last_of at 1. rewrite L3, lc_nth by auto. unfold last_of. rewrite L1, L2. ring.
    + exfalso. destruct (HN (last_of s1)) as (t & Et & Ht). rewrite Et, bind_Ok in E1. apply Ok_inj in E1. exact (Ht _ _ E1).
Qed.

(** exact for parabolas (with two points: for straight lines; with one point: zero) *)
Theorem C32_quadratic_exact (f s : list R) (m : Z) (fmin fmax : R) (i j : nat) (a b c : R) :
  freq_axis f -> length s = length f -> fmin <> -1 -> fmax <> -1 -> fmin <= fmax <= last_of f ->
  let fq := without_zero m f f in
  let sq := without_zero m f s in
  nearest fq fmin i -> nearest fq fmax j ->
  (forall k, (i <= k <= j)%nat -> powerRZ (nth k fq 0) m * nth k sq 0 = a * nth k fq 0 ^ 2 + b * nth k fq 0 + c) ->
  (j = S i -> a = 0) ->
  moment f s m (Fin fmin) (Fin fmax) = Ok (Fin (RInt (fun x => a * x ^ 2 + b * x + c) (nth i fq 0) (nth j fq 0))).
Proof.
  intros Hf Hl N1 N2 [Hle Hmax] fq sq Ni Nj Hq H2.
  destruct (moment_in f s m Hf Hl fmin fmax N1 N2 (or_introl Hle) Hmax) as (i' & j' & Ni' & Nj' & Hij & ->).
  fold fq in Ni', Nj' |- *. assert (I : increasing fq) by (apply fq_inc; auto).
  assert (i' = i) as -> by (apply (nearest_unique fq fmin); auto). assert (j' = j) as -> by (apply (nearest_unique fq fmax); auto).
  assert (Lj : (j < length fq)%nat) by (destruct Nj; auto).
  assert (Lg : length (weighted m f s) = length fq) by (apply g_length; auto).
  assert (Lx : length (slice i (j + 1) fq) = (j + 1 - i)%nat) by (rewrite slice_length; lia).
  replace (slice i (j + 1) (weighted m f s)) with (map (quad a b c) (slice i (j + 1) fq)).
  2:{ apply (nth_ext' _ _ 0); [rewrite map_length, !slice_length, Lg; auto|]. intros k Hk. rewrite map_length, Lx in Hk.
      rewrite map_quad_nth by lia. rewrite !slice_nth by lia. rewrite g_nth by (auto; fold fq; lia). symmetry. apply Hq. lia. }
  rewrite rsimp_quad.
  - rewrite Lx, !slice_nth by lia. replace (i + (j + 1 - i - 1))%nat with j by lia. rewrite Nat.add_0_r.
    do 2 f_equal. symmetry. apply is_RInt_unique, quad_RInt.
  - apply slice_inc; auto.
  - intros E. rewrite E in Lx. cbn in Lx. lia.
  - rewrite Lx. intros E. apply H2. lia.
Qed.

Lemma slice_axis x0 h n i j : (j <= n)%nat -> slice i j (axis x0 h n) = axis (x0 + INR i * h) h (j - i).
Proof.
  intros H. apply (nth_ext' _ _ 0); [rewrite slice_length, !axis_length; lia|]. intros k Hk. rewrite slice_length, axis_length in Hk.
  rewrite slice_nth by lia. rewrite !axis_nth by lia. rewrite plus_INR. ring.
Qed.
Lemma wz_axis m x0 h n : (1 <= n)%nat -> without_zero m (axis x0 h n) (axis x0 h n)
  = if Z.ltb m 0 && Reqb x0 0 then axis (x0 + h) h (n - 1) else axis x0 h n.
Proof.
  intros H. unfold without_zero. rewrite axis_nth by lia. replace (x0 + INR 0 * h) with x0 by (cbn; ring).
  destruct (_ && _); [|reflexivity]. destruct n; [lia|]. unfold axis. cbn [seq map tl]. rewrite <- seq_shift, map_map.
  replace (S n - 1)%nat with n by lia. apply map_ext. intros k. rewrite S_INR. ring.
Qed.
Lemma axis_freq x0 h n : 0 <= x0 -> 0 < h -> (2 <= n)%nat -> freq_axis (axis x0 h n).
Proof. intros H0 Hh Hn. split; [apply axis_good; auto|]. rewrite axis_nth by lia. cbn [INR]. lra. Qed.
Lemma wz_axis' m x0 h n : (2 <= n)%nat -> exists y0 k, without_zero m (axis x0 h n) (axis x0 h n) = axis y0 h k /\ (1 <= k)%nat.
Proof. intros H. rewrite wz_axis by lia. destruct (_ && _); eexists _, _; (split; [reflexivity|lia]). Qed.

Lemma weighted_nonneg m f s : freq_axis f -> length s = length f -> (forall k, (k < length s)%nat -> 0 <= nth k s 0) ->
  forall k, (k < length (weighted m f s))%nat -> 0 <= nth k (weighted m f s) 0.
Proof.
  intros Hf Hl Hs k Hk. rewrite g_length in Hk by auto. rewrite g_nth by auto.
  apply Rmult_le_pos.
  - destruct (Z.neg_nonneg_cases m) as [Hm|Hm].
    + apply powerRZ_le. apply fq_pos; auto.
    + destruct m as [|p|p]; [cbn; lra| |lia]. rewrite powerRZ_pos_eq. apply pow_le. apply fq_nonneg; auto.
  - rewrite wz_nth. rewrite wz_length in Hk. apply Hs. rewrite Hl. destruct (_ && _); lia.
Qed.
Lemma rsimp_axis_slice m x0 h n s i j : 0 <= x0 -> 0 < h -> (2 <= n)%nat -> length s = n ->
  (j < length (without_zero m (axis x0 h n) (axis x0 h n)))%nat ->
  (forall k, (k < n)%nat -> 0 <= nth k s 0) ->
  let f := axis x0 h n in
  0 <= rsimp (slice i (j + 1) (without_zero m f f)) (slice i (j + 1) (weighted m f s)).
Proof.
  intros H0 Hh Hn Hl Hj Hs f. assert (Hf : freq_axis f) by (apply axis_freq; auto).
  assert (Lf : length s = length f) by (unfold f; rewrite axis_length; auto).
  assert (Lg : length (weighted m f s) = length (without_zero m f f)) by (apply g_length; auto).
  assert (P := weighted_nonneg m f s Hf Lf ltac:(intros; apply Hs; lia)).
  destruct (wz_axis' m x0 h n Hn) as (y0 & k & E & Hk). fold f in E, Hj. rewrite E in *. rewrite axis_length in *.
  rewrite slice_axis by lia. set (y := slice i (j + 1) (weighted m f s)).
  replace (j + 1 - i)%nat with (length y) by (unfold y; rewrite slice_length; lia).
  apply rsimp_nonneg; auto. intros q Hq. unfold y in *. rewrite slice_length in Hq. rewrite slice_nth by lia. apply P. lia.
Qed.
(** on a uniform axis a density that is nowhere negative has non-negative moments *)
Theorem C32_nonneg (f0 df : R) (s : list R) (m : Z) (fmin fmax : R) :
  0 <= f0 -> 0 < df -> (2 <= length s)%nat -> (forall k, (k < length s)%nat -> 0 <= nth k s 0) ->
  let f := axis f0 df (length s) in
  fmin = -1 \/ fmax = -1 \/ fmin <= fmax <= last_of f ->
  exists v, moment f s m (Fin fmin) (Fin fmax) = Ok (Fin v) /\ 0 <= v.
Proof.
  intros H0 Hd Hn Hs f Hlim. assert (Hf : freq_axis f) by (apply axis_freq; auto).
  assert (Lf : length s = length f) by (unfold f; rewrite axis_length; auto).
  assert (Lg : length (weighted m f s) = length (without_zero m f f)) by (apply g_length; auto).
  assert (Lw : (0 < length (without_zero m f f))%nat) by (assert (W := fq_ne f m Hf); destruct (without_zero m f f); [contradiction|cbn; lia]).
  destruct (Req_dec fmin (-1)) as [E1|N1]; [|destruct (Req_dec fmax (-1)) as [E2|N2]].
  1,2: eexists; split; [apply moment_all; auto; subst; auto|];
    rewrite <- (slice_all (without_zero m f f) (length (without_zero m f f) - 1 + 1)), <- (slice_all (weighted m f s) (length (without_zero m f f) - 1 + 1)) by lia;
    apply rsimp_axis_slice; auto; fold f; lia.
  destruct Hlim as [|[|[Hle Hmax]]]; try contradiction.
  destruct (moment_in f s m Hf Lf fmin fmax N1 N2 (or_introl Hle) Hmax) as (i & j & Ni & Nj & Hij & ->).
  eexists; split; [reflexivity|]. apply rsimp_axis_slice; auto. destruct Nj; auto.
Qed.
(** ... but the axis check also accepts axes whose steps shrink, where Simpson weights can be negative *)
Theorem C32_nonneg_accepted_axis_refuted :
  ~ (forall f s : list R, freq_axis f -> length s = length f -> (forall k, (k < length s)%nat -> 0 <= nth k s 0) ->
       exists v, moment f s 0 (Fin (-1)) (Fin (-1)) = Ok (Fin v) /\ 0 <= v).
Proof.
  intros H. destruct (H [0; 1; 11/10] [0; 0; 1]) as (v & E & Hv).
  - split; [|cbn; lra]. split; [cbn; lia|]. intros i Hi. cbn [length] in Hi.
    assert (0 < 1000000 / 2 ^ 52) by lra. destruct i as [|[|]]; [| |lia]; cbn [nth]; lra.
  - reflexivity.
  - intros k Hk. cbn [length] in Hk. destruct k as [|[|[|]]]; cbn; try lra; lia.
  - rewrite moment_all in E; auto.
    2:{ split; [|cbn; lra]. split; [cbn; lia|]. intros i Hi. cbn [length] in Hi.
        assert (0 < 1000000 / 2 ^ 52) by lra. destruct i as [|[|]]; [| |lia]; cbn [nth]; lra. }
    apply Ok_inj, fin_inj in E. unfold weighted, without_zero, rsimp, rbasic, rpanel in E. cbn in E. lra.
Qed.

(** limits in the wrong order, with no grid point between them: an error, not a number *)
Theorem C32_crossed_limits (f s : list R) (m : Z) (fmin fmax : R) (i j : nat) :
  freq_axis f -> length s = length f -> fmin <> -1 -> fmax <> -1 -> fmax <= last_of f ->
  nearest (without_zero m f f) fmin i -> nearest (without_zero m f f) fmax j -> (j < i)%nat ->
  moment f s m (Fin fmin) (Fin fmax) = Raise ValueError.
Proof.
  intros Hf Hl N1 N2 Hmax Hi Hj Hij. rewrite (moment_unfold f s m Hf Hl), !fin_eqb, !Reqb_false by auto. cbn [orb]. rewrite fin_leb, Rleb_true by auto. cbv zeta.
  replace (if Z.ltb m 0 && Reqb (nth 0 f 0) 0 && Reqb fmin 0 then Fin (nth 1 f 0) else Fin fmin) with (Fin (fminn f m fmin))
    by (unfold fminn; destruct (_ && _ && _); reflexivity).
  assert (Hne := fq_ne f m Hf). assert (Hinc := fq_inc f m Hf).
  destruct (nearest_exists _ (fminn f m fmin) Hne) as (i' & -> & Hi'). destruct (nearest_exists _ fmax Hne) as (j' & -> & Hj').
  rewrite !bind_Ok. apply (fminn_nearest f s m Hf Hl) in Hi'.
  assert (i' = i) as -> by (apply (nearest_unique _ fmin _ _ Hinc); auto). assert (j' = j) as -> by (apply (nearest_unique _ fmax _ _ Hinc); auto).
  unfold simpson_slice. assert (E : forall A (l : list A), slice i (j + 1) l = []).
  { intros A l. unfold slice. replace (j + 1 - i)%nat with 0%nat by lia. reflexivity. }
  rewrite !E. reflexivity.
Qed.
Example C32_crossed_witness : freq_axis (axis 0 1 4) /\ nearest (without_zero 0 (axis 0 1 4) (axis 0 1 4)) 3 3 /\ nearest (without_zero 0 (axis 0 1 4) (axis 0 1 4)) 1 1 /\ 1 <= last_of (axis 0 1 4).
Proof.
  assert (G : freq_axis (axis 0 1 4)) by (apply axis_freq; lra || lia). assert (Hi := fq_inc (axis 0 1 4) 0 G).
  assert (N : forall k, (k < 4)%nat -> nth k (axis 0 1 4) 0 = INR k) by (intros k Hk; rewrite axis_nth by exact Hk; ring).
  assert (W : without_zero 0 (axis 0 1 4) (axis 0 1 4) = axis 0 1 4) by reflexivity. rewrite W in *.
  split; [exact G|]. split; [|split].
  - assert (A := nearest_self _ 3 Hi ltac:(rewrite axis_length; lia)). rewrite N in A by lia. replace (INR 3) with 3 in A by (cbn; lra). exact A.
  - assert (A := nearest_self _ 1 Hi ltac:(rewrite axis_length; lia)). rewrite N in A by lia. replace (INR 1) with 1 in A by (cbn; lra). exact A.
  - unfold last_of. rewrite axis_length, N by lia. cbn. lra.
Qed.
(** default limits mean the whole axis *)
Theorem C32_default_limits (f s : list R) (m : Z) (v : car NX) :
  freq_axis f -> length s = length f ->
  moment f s m (Fin (-1)) v = moment f s m (Fin (nth 0 f 0)) (Fin (last_of f))
  /\ moment f s m v (Fin (-1)) = moment f s m (Fin (nth 0 f 0)) (Fin (last_of f)).
Proof.
  intros Hf Hl. assert (P := fq_last f m Hf). assert (Z0 : 0 <= nth 0 f 0) by apply Hf.
  destruct (moment_in f s m Hf Hl (nth 0 f 0) (last_of f)) as (i & j & Ni & Nj & Hij & ->); try lra.
  assert (I := fq_inc f m Hf). assert (Hne := fq_ne f m Hf). assert (Lg := g_length f s m Hl).
  set (fq := without_zero m f f) in *.
  assert (i = 0%nat) as ->.
  { apply (nearest_unique fq (nth 0 f 0)); auto. apply nearest_below; auto. unfold fq. rewrite wz_nth.
    destruct (_ && _); [|cbn; lra]. assert (G := good_increasing f (proj1 Hf) 0%nat 1%nat). destruct Hf as [[H2 _] _].
    specialize (G ltac:(lia)). cbn [Nat.add]. lra. }
  assert (j = (length fq - 1)%nat) as ->.
  { apply (nearest_unique fq (last_of f)); auto. rewrite <- (proj1 P). apply nearest_self; auto. destruct Ni; lia. }
  rewrite !slice_all by lia. split; apply moment_all; auto.
Qed.
(** the composite rule itself, on a uniform axis with an odd number of frequencies *)
Theorem C32_composite_rule (f0 df : R) (s : list R) (m : Z) (p : nat) :
  0 < f0 \/ (f0 = 0 /\ (0 <= m)%Z) -> 0 < df -> (1 <= p)%nat -> length s = (2 * p + 1)%nat ->
  let f := axis f0 df (length s) in
  let y k := powerRZ (nth k f 0) m * nth k s 0 in
  moment f s m (Fin (-1)) (Fin (-1))
  = Ok (Fin (df / 3 * RS p (fun q => y (2 * q)%nat + 4 * y (2 * q + 1)%nat + y (2 * q + 2)%nat))).
Proof.
  intros H0 Hd Hp Hl f y.
  assert (Hf : freq_axis f) by (apply axis_freq; auto; [destruct H0 as [|[]]; lra|lia]).
  assert (Lf : length s = length f) by (unfold f; rewrite axis_length; auto).
  assert (E : without_zero m f f = f).
  { unfold without_zero. destruct (Z.ltb_spec m 0); [|reflexivity]. unfold f. rewrite axis_nth by lia. rewrite Reqb_false; [reflexivity|].
    destruct H0 as [|[]]; [cbn; lra|lia]. }
  assert (Es : without_zero m f s = s).
  { unfold without_zero. destruct (Z.ltb_spec m 0); [|reflexivity]. unfold f. rewrite axis_nth by lia. rewrite Reqb_false; [reflexivity|].
    destruct H0 as [|[]]; [cbn; lra|lia]. }
  rewrite moment_all by auto. rewrite E. do 2 f_equal. unfold rsimp.
  assert (Lg : length (weighted m f s) = length s) by (rewrite g_length, E; auto).
  rewrite <- Lf, Hl. replace (Nat.odd (2 * p + 1)) with true by (symmetry; apply Nat.odd_spec; exists p; auto).
  replace f with (axis f0 df (length (weighted m f s))) at 1 by (rewrite Lg; reflexivity).
  rewrite (rbasic_uniform df p p) by (auto; lia). f_equal. apply RS_ext. intros q Hq. unfold y.
  rewrite !g_nth by (auto; rewrite E; lia). rewrite E, Es. reflexivity.
Qed.
Example C32_witness : freq_axis (axis 0 (1/10) 11) /\ nearest (axis 0 (1/10) 11) (29/100) 3
  /\ 0 <= (29/100) <= last_of (axis 0 (1/10) 11).
Proof.
  split; [apply axis_freq; lra || lia|]. split.
  - split; [rewrite axis_length; lia|]. rewrite axis_length.
    assert (E : Rabs (nth 3 (axis 0 (1/10) 11) 0 - 29/100) = 1/100) by (rewrite axis_nth by lia; cbn [INR]; rewrite Rabs_pos_eq; lra).
    rewrite E. split.
    + intros k Hk. rewrite axis_nth by lia. do 11 (destruct k as [|k]; [cbn [INR]; unfold Rabs; destruct (Rcase_abs _); lra|]). lia.
    + intros k Hk. rewrite axis_nth by lia. do 3 (destruct k as [|k]; [cbn [INR]; unfold Rabs; destruct (Rcase_abs _); lra|]). lia.
  - unfold last_of. rewrite axis_length, axis_nth by lia. cbn [Nat.sub INR]. lra.
Qed.

(** ** C33 The high-frequency tail *)

(** integrand of the moment beyond the last frequency [fe]: f^m S(f) with S(f) = S_e (f/f_e)^-5 *)
Definition tail_integrand (m : Z) (fe se x : R) : R := powerRZ x m * (se * powerRZ (x / fe) (-5)).

Lemma tail_alt m fe se x : 0 < fe -> 0 < x -> tail_integrand m fe se x = se * fe ^ 5 * powerRZ x (m - 5).
Proof.
  intros H Hx. unfold tail_integrand. replace (m - 5)%Z with (m + -5)%Z by lia. rewrite powerRZ_add by lra.
  replace (powerRZ (x / fe) (-5)) with (powerRZ x (-5) * fe ^ 5); [ring|].
  change (powerRZ x (-5)) with (/ x ^ 5). change (powerRZ (x / fe) (-5)) with (/ (x / fe) ^ 5). field. lra.
Qed.
Lemma powerRZ_derive e x : 0 < x -> is_derive (fun u => powerRZ u e) x (IZR e * powerRZ x (e - 1)).
Proof.
  intros Hx. apply (is_derive_ext_loc (fun u => Rpower u (IZR e))).
  - exists (mkposreal x Hx). intros y Hy. symmetry. apply powerRZ_Rpower.
    unfold ball in Hy. cbn in Hy. unfold AbsRing_ball, abs, minus, plus, opp in Hy. cbn in Hy.
    apply Rabs_def2 in Hy. lra.
  - rewrite (powerRZ_Rpower x (e - 1)) by auto. rewrite minus_IZR. apply is_derive_Reals, derivable_pt_lim_power. auto.
Qed.
Lemma tail_RInt m fe se b : 0 < fe -> fe <= b -> m <> 4%Z ->
  is_RInt (tail_integrand m fe se) fe b (se * fe ^ 5 / IZR (m - 4) * (powerRZ b (m - 4) - powerRZ fe (m - 4))).
Proof.
  intros Hf Hb Hm. assert (He : IZR (m - 4) <> 0) by (apply not_0_IZR; lia).
  set (G := fun u => se * fe ^ 5 / IZR (m - 4) * powerRZ u (m - 4)).
  replace (se * fe ^ 5 / IZR (m - 4) * (powerRZ b (m - 4) - powerRZ fe (m - 4))) with (minus (G b) (G fe))
    by (unfold G, minus, plus, opp; cbn; ring).
  apply (is_RInt_ext (fun x => se * fe ^ 5 * powerRZ x (m - 5))).
  { intros x. rewrite Rmin_left, Rmax_right by auto. intros Hx. symmetry. apply tail_alt; lra. }
  apply (is_RInt_derive G (fun x => se * fe ^ 5 * powerRZ x (m - 5))); intros x; rewrite Rmin_left, Rmax_right by auto; intros Hx.
  - unfold G. replace (se * fe ^ 5 * powerRZ x (m - 5)) with (se * fe ^ 5 / IZR (m - 4) * (IZR (m - 4) * powerRZ x (m - 4 - 1))).
    + apply is_derive_scal, powerRZ_derive. lra.
    + replace (m - 4 - 1)%Z with (m - 5)%Z by lia. field. auto.
  - apply (ex_derive_continuous (fun x => se * fe ^ 5 * powerRZ x (m - 5))). apply ex_derive_scal. eexists. apply powerRZ_derive. lra.
Qed.
Lemma powerRZ_lim e : (e < 0)%Z -> is_lim (fun b => powerRZ b e) p_infty 0.
Proof.
  intros He. apply (is_lim_le_le_loc (fun _ => 0) (fun b => / b)).
  - exists 1. intros b Hb. split; [apply powerRZ_le; lra|].
    destruct e as [|p|p]; try lia. cbn. destruct (Pos2Nat.is_succ p) as [k ->]. apply Rinv_le_contravar; [lra|].
    cbn. rewrite <- (Rmult_1_r b) at 1. apply Rmult_le_compat_l; [lra|]. apply pow_R1_Rle. lra.
  - apply is_lim_const.
  - apply (is_lim_inv (fun b => b) p_infty p_infty); [apply is_lim_id|discriminate].
Qed.

Section Tail.
  Variables (f s : list R) (m : Z) (fmin : R).
  Hypothesis Hf : freq_axis f.
  Hypothesis Hl : length s = length f.
  Hypothesis Hmin : fmin <> -1.
  Let fe := last_of f.
  Let se := last_of s.

  Lemma moment_beyond (fmax : car NX) : fmax <> Fin (-1) -> nleb (n:=NX) fmax (Fin fe) = false ->
    exists body, moment f s m (Fin fmin) (Fin fe) = Ok (Fin body)
    /\ moment f s m (Fin fmin) fmax = bind (tail_moment (N:=NX) (Fin fe) (Fin se) fmax m) (fun t => Ok (nadd (n:=NX) (Fin body) t)).
  Proof.
    intros Hmax Hgt. assert (P := fq_last f m Hf). fold fe in P.
    destruct (moment_in f s m Hf Hl fmin fe Hmin) as (i & j & Ni & Nj & Hij & E); try (fold fe; lra).
    eexists; split; [exact E|]. rewrite moment_unfold by auto. fold fe se. rewrite Hgt.
    replace (neqb (n:=NX) (Fin fmin) (Fin (-1)) || neqb (n:=NX) fmax (Fin (-1))) with false.
    2:{ symmetry. apply orb_false_iff. split; [rewrite fin_eqb, Reqb_false; auto|].
        destruct fmax as [r| | |]; try reflexivity. rewrite fin_eqb, Reqb_false; [reflexivity|]. congruence. }
    cbv zeta. rewrite fin_eqb.
    replace (if Z.ltb m 0 && Reqb (nth 0 f 0) 0 && Reqb fmin 0 then Fin (nth 1 f 0) else Fin fmin) with (Fin (fminn f m fmin))
      by (unfold fminn; destruct (_ && _ && _); reflexivity).
    assert (Hne := fq_ne f m Hf). assert (Hinc := fq_inc f m Hf).
    destruct (nearest_exists (without_zero m f f) (fminn f m fmin) Hne) as (i' & -> & Hi').
    rewrite bind_Ok. apply (fminn_nearest f s m) in Hi'; auto.
    assert (i' = i) as -> by (apply (nearest_unique _ fmin _ _ Hinc); auto).
    assert (Lq : (0 < length (without_zero m f f))%nat) by (destruct Ni; lia).
    assert (j = (length (without_zero m f f) - 1)%nat) as ->.
    { apply (nearest_unique _ fe _ _ Hinc); auto. rewrite <- (proj1 P). apply nearest_self; auto. lia. }
    rewrite simpson_slice_F by (auto; destruct Ni; lia). reflexivity.
  Qed.

  (** integration beyond the last frequency adds exactly the integral of the f^-5 tail *)
  Theorem C33_tail_finite (fmax : R) : m <> 4%Z -> fe < fmax ->
    exists body, moment f s m (Fin fmin) (Fin fe) = Ok (Fin body)
    /\ moment f s m (Fin fmin) (Fin fmax) = Ok (Fin (body + RInt (tail_integrand m fe se) fe fmax)).
  Proof.
    intros Hm Hgt. assert (P := proj2 (fq_last f m Hf)). fold fe in P.
    destruct (moment_beyond (Fin fmax)) as (body & Eb & E).
    - intros H. apply fin_inj in H. lra.
    - rewrite fin_leb, Rleb_false by auto. reflexivity.
    - exists body. split; [exact Eb|]. rewrite E. unfold tail_moment.
      rewrite fin_0, fin_eqb, Reqb_false by lra. cbn [andb]. rewrite !npowi_F by (left; lra).
      rewrite fin_div by (apply Rgt_not_eq, powerRZ_lt; auto). rewrite fin_ofZ, fin_div by (apply not_0_IZR; lia).
      rewrite fin_sub, fin_mul, bind_Ok, fin_add. do 3 f_equal.
      replace (m + -5 + 1)%Z with (m - 4)%Z by lia.
      rewrite (is_RInt_unique _ _ _ _ (tail_RInt m fe se fmax P (Rlt_le _ _ Hgt) Hm)).
      assert (IZR (m - 4) <> 0) by (apply not_0_IZR; lia).
      replace (powerRZ fe (-5)) with (/ fe ^ 5) by reflexivity. field. split; [auto|]. lra.
  Qed.
  (** up to infinity: the closed form, which is the limit of the finite integrals *)
  Theorem C33_tail_infinite : (m < 4)%Z ->
    exists body, moment f s m (Fin fmin) (Fin fe) = Ok (Fin body)
    /\ moment f s m (Fin fmin) PInf = Ok (Fin (body + se * powerRZ fe (m + 1) / IZR (4 - m)))
    /\ is_lim (fun b => RInt (tail_integrand m fe se) fe b) p_infty (se * powerRZ fe (m + 1) / IZR (4 - m)).
  Proof.
    intros Hm. assert (P := proj2 (fq_last f m Hf)). fold fe in P.
    assert (N4 : IZR (m - 4) <> 0) by (apply not_0_IZR; lia).
    assert (V : se * powerRZ fe (m + 1) / IZR (4 - m) = se * fe ^ 5 / IZR (m - 4) * (0 - powerRZ fe (m - 4))).
    { replace (m + 1)%Z with (m - 4 + 5)%Z by lia. rewrite powerRZ_add by lra.
      replace (powerRZ fe 5) with (fe ^ 5) by reflexivity. replace (IZR (4 - m)) with (- IZR (m - 4)) by (rewrite <- opp_IZR; f_equal; lia).
      field. auto. }
    destruct (moment_beyond PInf) as (body & Eb & E); [discriminate|reflexivity|].
    exists body. split; [exact Eb|]. split.
    - rewrite E. unfold tail_moment.
      change (neqb (n:=NX) PInf n0) with false. cbn [andb]. rewrite (npowi_F fe) by (left; lra).
      rewrite fin_div by (apply Rgt_not_eq, powerRZ_lt; auto). rewrite fin_ofZ, fin_div by (apply not_0_IZR; lia).
      rewrite npowi_inf_neg by lia. rewrite npowi_F by (left; lra). rewrite fin_sub, fin_mul, bind_Ok, fin_add. do 3 f_equal.
      rewrite V. replace (m + -5 + 1)%Z with (m - 4)%Z by lia. replace (powerRZ fe (-5)) with (/ fe ^ 5) by reflexivity.
      field. split; [auto|]. lra.
    - rewrite V.
      apply (is_lim_ext_loc (fun b => se * fe ^ 5 / IZR (m - 4) * (powerRZ b (m - 4) - powerRZ fe (m - 4)))).
      + exists fe. intros b Hb. symmetry. apply is_RInt_unique, tail_RInt; auto; [lra|lia].
      + apply (is_lim_scal_l _ _ p_infty (0 - powerRZ fe (m - 4))).
        apply is_lim_minus'; [apply powerRZ_lim; lia|apply is_lim_const].
  Qed.
  (** the closed form divides by m - 4: for the fourth moment the result is not a number *)
  Theorem C33_order_four (fmax : R) : m = 4%Z -> fe < fmax ->
    moment f s m (Fin fmin) (Fin fmax) = Ok NaN /\ moment f s m (Fin fmin) PInf = Ok NaN.
  Proof.
    intros Hm Hgt. assert (P := proj2 (fq_last f m Hf)). fold fe in P. split.
    - destruct (moment_beyond (Fin fmax)) as (body & Eb & E).
      + intros H. apply fin_inj in H. lra.
      + rewrite fin_leb, Rleb_false by auto. reflexivity.
      + rewrite E. unfold tail_moment. rewrite fin_0, fin_eqb, Reqb_false by lra. cbn [andb]. rewrite Hm.
        rewrite (npowi_F fe (-5)) by (left; lra). rewrite fin_div by (apply Rgt_not_eq, powerRZ_lt; auto).
        generalize (se / powerRZ fe (-5)). intros q. cbn. destruct (Req_EM_T 0 0); [|lra]. rewrite Rminus_eq_0.
        unfold xinf_times. destruct (Rlt_dec 0 q), (Rlt_dec q 0); cbn; unfold xinf_times; destruct (Rlt_dec 0 0); try lra; reflexivity.
    - destruct (moment_beyond PInf) as (body & Eb & E); [discriminate|reflexivity|].
      rewrite E. unfold tail_moment. change (neqb (n:=NX) PInf n0) with false. cbn [andb]. rewrite Hm.
      rewrite (npowi_F fe (-5)) by (left; lra). rewrite fin_div by (apply Rgt_not_eq, powerRZ_lt; auto).
      generalize (se / powerRZ fe (-5)). intros q. cbn. destruct (Req_EM_T 0 0); [|lra]. rewrite Rminus_eq_0.
      unfold xinf_times. destruct (Rlt_dec 0 q), (Rlt_dec q 0); cbn; unfold xinf_times; destruct (Rlt_dec 0 0); try lra; reflexivity.
  Qed.
End Tail.
Example C33_witness : freq_axis (axis 0 (1/10) 11) /\ (0 : R) <> -1 /\ last_of (axis 0 (1/10) 11) < 2.
Proof.
  split; [apply axis_freq; lra || lia|]. split; [lra|]. unfold last_of. rewrite axis_length, axis_nth by lia. cbn [Nat.sub INR]. lra.
Qed.
