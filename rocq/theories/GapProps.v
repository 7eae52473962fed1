(** * Records with gaps (NaN samples): C70 *)

From Coq Require Import Reals ZArith String List Bool Lra Lia.
From Coquelicot Require Import Complex.
From Verif Require Import Num XR Spec XRFacts Engine TimeModel TimeSpec EngineProps TimeProps TimeProps2 TimeProps3 Cpx SpectralModel SeriesModel SeriesProps FourierSpec FourierFacts AvgProps DensityProps.
Import ListNotations.
Open Scope R_scope.

(** a record in which some samples are missing, and how it is handed to the toolbox *)
Definition Gp (x : list (option R)) : list xr := map (fun o => match o with Some r => Fin r | None => NaN end) x.
(** sample i is present and has value r *)
Definition seen (x : list (option R)) (i : nat) (r : R) : Prop := nth_error x i = Some (Some r).
Definition gap_crosses (d : direction) (x : list (option R)) (i : nat) : Prop :=
  exists a b, seen x i a /\ seen x (S i) b /\ match d with Up => a <= 0 < b | Down => 0 <= a /\ b < 0 end.
(** [v] is the maximum of the present samples with time in [a,b], reached first at [tv] *)
Definition first_max_seen (t : list R) (x : list (option R)) (a b v tv : R) : Prop :=
  exists i, seen x i v /\ a <= nth i t 0 <= b /\ tv = nth i t 0
   /\ (forall j r, seen x j r -> a <= nth j t 0 <= b -> r <= v)
   /\ (forall j r, seen x j r -> (j < i)%nat -> a <= nth j t 0 <= b -> r < v).
Definition first_min_seen (t : list R) (x : list (option R)) (a b v tv : R) : Prop :=
  exists i, seen x i v /\ a <= nth i t 0 <= b /\ tv = nth i t 0
   /\ (forall j r, seen x j r -> a <= nth j t 0 <= b -> v <= r)
   /\ (forall j r, seen x j r -> (j < i)%nat -> a <= nth j t 0 <= b -> v < r).

Lemma Gp_length x : length (Gp x) = length x. Proof. apply map_length. Qed.
Lemma seen_lt x i r : seen x i r -> (i < length x)%nat.
Proof. intros H. apply nth_error_Some. unfold seen in H. congruence. Qed.
Lemma Gp_nth x i : nth i (Gp x) NaN = match nth_error x i with Some (Some r) => Fin r | _ => NaN end.
Proof. revert i; induction x as [|[r|] x IH]; intros [|i]; cbn; auto. Qed.
Lemma seen_nth x i r : seen x i r <-> nth i (Gp x) NaN = Fin r.
Proof. rewrite Gp_nth. unfold seen. destruct (nth_error x i) as [[s|]|]; split; intros H; congruence. Qed.
Lemma seen_fun x i r r' : seen x i r -> seen x i r' -> r = r'. Proof. unfold seen. congruence. Qed.
Lemma Gp_cases x i : nth i (Gp x) NaN = NaN \/ exists r, nth i (Gp x) NaN = Fin r /\ seen x i r.
Proof. rewrite Gp_nth. destruct (nth_error x i) as [[r|]|] eqn:E; auto. right. exists r. auto. Qed.
Lemma crosses_Gp d x i : crosses d (Gp x) i <-> gap_crosses d x i.
Proof.
  unfold crosses, gap_crosses. rewrite Gp_length. split.
  - intros [H C]. destruct (Gp_cases x i) as [Ea|(a & Ea & Sa)], (Gp_cases x (S i)) as [Eb|(b & Eb & Sb)]; rewrite Ea, Eb in C; destruct d, C as [C1 C2]; try contradiction;
      exists a, b; auto.
  - intros (a & b & Ha & Hb & C). split; [eapply seen_lt; eauto|]. apply seen_nth in Ha, Hb. rewrite Ha, Hb. destruct d; cbn; lra.
Qed.

Lemma fold_pymax_Gp l : forall a, exists m, fold_left (pymax2 (N:=NX)) (Gp l) (Fin a) = Fin m
   /\ In (Some m) (Some a :: l) /\ forall r, In (Some r) (Some a :: l) -> r <= m.
Proof.
  induction l as [|[b|] l IH]; intros a.
  - exists a. split; [reflexivity|]. split; [left; auto|]. intros q [E|[]]. injection E as ->. lra.
  - cbn [Gp map fold_left]. unfold pymax2 at 2. rewrite fin_ltb. fold (Gp l). destruct (Rltb_spec a b).
    + destruct (IH b) as (m & E & Hin & Hm). exists m. split; [exact E|]. split; [right; auto|].
      intros q [Er|Hx]; [|auto]. injection Er as <-. specialize (Hm b (or_introl eq_refl)). lra.
    + destruct (IH a) as (m & E & Hin & Hm). exists m. split; [exact E|]. split; [destruct Hin; [left; auto|right; right; auto]|].
      intros q [Er|[Er|Hx]]; [apply Hm; left; auto| |apply Hm; right; auto]. injection Er as <-. specialize (Hm a (or_introl eq_refl)). lra.
  - destruct (IH a) as (m & E & Hin & Hm). exists m. split; [exact E|]. split; [destruct Hin; [left; auto|right; right; auto]|].
    intros q [Er|[Er|Hx]]; [apply Hm; left; auto|discriminate|apply Hm; right; auto].
Qed.
Lemma fold_pymin_Gp l : forall a, exists m, fold_left (pymin2 (N:=NX)) (Gp l) (Fin a) = Fin m
   /\ In (Some m) (Some a :: l) /\ forall r, In (Some r) (Some a :: l) -> m <= r.
Proof.
  induction l as [|[b|] l IH]; intros a.
  - exists a. split; [reflexivity|]. split; [left; auto|]. intros q [E|[]]. injection E as ->. lra.
  - cbn [Gp map fold_left]. unfold pymin2 at 2. rewrite fin_ltb. fold (Gp l). destruct (Rltb_spec b a).
    + destruct (IH b) as (m & E & Hin & Hm). exists m. split; [exact E|]. split; [right; auto|].
      intros q [Er|Hx]; [|auto]. injection Er as <-. specialize (Hm b (or_introl eq_refl)). lra.
    + destruct (IH a) as (m & E & Hin & Hm). exists m. split; [exact E|]. split; [destruct Hin; [left; auto|right; right; auto]|].
      intros q [Er|[Er|Hx]]; [apply Hm; left; auto| |apply Hm; right; auto]. injection Er as <-. specialize (Hm a (or_introl eq_refl)). lra.
  - destruct (IH a) as (m & E & Hin & Hm). exists m. split; [exact E|]. split; [destruct Hin; [left; auto|right; right; auto]|].
    intros q [Er|[Er|Hx]]; [apply Hm; left; auto|discriminate|apply Hm; right; auto].
Qed.
Lemma In_seen x r : In (Some r) x <-> exists i, seen x i r.
Proof.
  split; [intros H; apply In_nth_error in H as [i Hi]; exists i; exact Hi|]. intros [i Hi]. eapply nth_error_In; exact Hi.
Qed.
Lemma where_eq_Gp x m : In (Some m) x ->
  exists i, idx (where_ (fun v => neqb (n:=NX) v (Fin m)) (Gp x)) 0 = Ok i /\ seen x i m /\ forall j, (j < i)%nat -> ~ seen x j m.
Proof.
  intros H. apply In_seen in H as (k & Hk). assert (Lk := seen_lt _ _ _ Hk).
  destruct (where_first (A:=xr) (fun v => neqb (n:=NX) v (Fin m)) (Gp x) NaN) as (i & Ei & Hi & Pi & Fi).
  { exists k. rewrite Gp_length. split; [auto|]. apply seen_nth in Hk. rewrite Hk, fin_eqb. apply Reqb_true; auto. }
  exists i. split; [exact Ei|]. split.
  - apply seen_nth. destruct (nth i (Gp x) NaN) as [r| | |] eqn:E; try discriminate. rewrite fin_eqb in Pi. destruct (Reqb_spec r m); [congruence|discriminate].
  - intros j Hj Hs. specialize (Fi j Hj). apply seen_nth in Hs. rewrite Hs, fin_eqb, Reqb_true in Fi by auto. discriminate.
Qed.
Lemma Gp_slice i j x : slice i j (Gp x) = Gp (slice i j x).
Proof. unfold slice, Gp. rewrite skipn_map, firstn_map. reflexivity. Qed.
Lemma nth_error_slice {A} (l : list A) i j k : (k < j - i)%nat -> nth_error (slice i j l) k = nth_error l (i + k).
Proof.
  unfold slice. revert l k. generalize (j - i)%nat as n. intros n l k H.
  rewrite <- (firstn_skipn i l) at 2. destruct (Nat.le_gt_cases i (length l)) as [Hi|Hi].
  - rewrite nth_error_app2; rewrite firstn_length, Nat.min_l by lia; [|lia]. replace (i + k - i)%nat with k by lia.
    revert k H. generalize (skipn i l) as l'. induction n; intros l' k H; [lia|]. destruct l', k; cbn; auto. apply IHn. lia.
  - rewrite skipn_all2 by lia. rewrite firstn_nil, app_nil_r, firstn_all2 by lia.
    destruct k; cbn; symmetry; apply nth_error_None; lia.
Qed.
Lemma seen_slice i j x k r : (k < j - i)%nat -> (seen (slice i j x) k r <-> seen x (i + k) r).
Proof. intros H. unfold seen. rewrite nth_error_slice by auto. reflexivity. Qed.

(** a wave with finite fields, read from the present samples only *)
Definition gap_wave (t : list R) (x : list (option R)) (a b : R) (w : wave NX) : Prop :=
  exists crest trough tc tt,
    w = mkWave (N:=NX) (Fin (crest - trough)) (Fin (b - a)) (Fin crest) (Fin trough) (Fin tc) (Fin tt)
    /\ first_max_seen t x a b crest tc /\ first_min_seen t x a b trough tt.

Lemma one_wave_Gp t x a b i0 r0 :
  increasing t -> length x = length t ->
  (i0 < length t)%nat -> a <= nth i0 t 0 <= b -> (forall k, (k < i0)%nat -> nth k t 0 < a) -> seen x i0 r0 ->
  exists w, one_wave (N:=NX) (F t) (Gp x) (Fin a) (Fin b) = Ok w /\ gap_wave t x a b w.
Proof.
  intros Hinc Hlen Hi0 Hab Hfirst Hr0. unfold one_wave.
  assert (Hmono : forall i j, (i <= j)%nat -> (j < length t)%nat -> nth i t 0 <= nth j t 0).
  { intros i j H1 H2. destruct (Nat.eq_dec i j) as [->|]; [lra|]. left. apply Hinc. lia. }
  destruct (where_first (fun v => nleb (n:=NX) (Fin a) v) (F t) (Fin 0)) as (i & Ei & Hi & Pi & Fi).
  { exists i0. rewrite F_length, F_nth, fin_leb. split; [auto|]. apply Rleb_true; lra. }
  rewrite Ei, bind_Ok.
  destruct (where_last (fun v => nleb (n:=NX) v (Fin b)) (F t) (Fin 0)) as (j & Ej & Hj & Pj & Lj).
  { exists i0. rewrite F_length, F_nth, fin_leb. split; [auto|]. apply Rleb_true; lra. }
  rewrite Ej, bind_Ok. rewrite F_length in *.
  rewrite F_nth, fin_leb in Pi, Pj.
  destruct (Rleb_spec a (nth i t 0)) as [Hai|]; [|discriminate].
  destruct (Rleb_spec (nth j t 0) b) as [Hbj|]; [|discriminate].
  assert (Fi' : forall k, (k < i)%nat -> nth k t 0 < a).
  { intros k Hk. specialize (Fi k Hk). rewrite F_nth, fin_leb in Fi. destruct (Rleb_spec a (nth k t 0)); [discriminate|lra]. }
  assert (Lj' : forall k, (j < k < length t)%nat -> b < nth k t 0).
  { intros k Hk. specialize (Lj k Hk). rewrite F_nth, fin_leb in Lj. destruct (Rleb_spec (nth k t 0) b); [discriminate|lra]. }
  assert (i = i0).
  { destruct (lt_eq_lt_dec i i0) as [[H|H]|H]; auto; [specialize (Hfirst i H)|specialize (Fi' i0 H)]; lra. }
  subst i0.
  assert (Hij : (i <= j)%nat).
  { destruct (Nat.le_gt_cases i j); auto. specialize (Lj' i ltac:(lia)). lra. }
  assert (Hrange : forall k, (k < length t)%nat -> (a <= nth k t 0 <= b <-> (i <= k <= j)%nat)).
  { intros k Hk. split.
    - intros [H1 H2]. split.
      + destruct (Nat.le_gt_cases i k); auto. specialize (Fi' k H). lra.
      + destruct (Nat.le_gt_cases k j); auto. specialize (Lj' k ltac:(lia)). lra.
    - intros [H1 H2]. split.
      + apply Rle_trans with (nth i t 0); auto.
      + apply Rle_trans with (nth j t 0); auto. }
  rewrite F_slice. change (@slice (car NX) i (j + 1) (Gp x)) with (@slice xr i (j + 1) (Gp x)). rewrite (Gp_slice i (j + 1) x). set (tI := slice i (j + 1) t). set (xI := slice i (j + 1) x).
  assert (LtI : length tI = (j + 1 - i)%nat) by (unfold tI; rewrite slice_length; lia).
  assert (LxI : length xI = (j + 1 - i)%nat) by (unfold xI; rewrite slice_length; lia).
  assert (NtI : forall k, (k < j + 1 - i)%nat -> nth k tI 0 = nth (i + k) t 0).
  { intros k Hk. unfold tI. apply slice_nth. lia. }
  assert (NxI : forall k r, (k < j + 1 - i)%nat -> (seen xI k r <-> seen x (i + k) r)) by (intros; apply seen_slice; lia).
  assert (Hhd : exists xr', xI = Some r0 :: xr').
  { assert (S0 : seen xI 0 r0) by (apply NxI; [lia|]; rewrite Nat.add_0_r; auto). unfold seen in S0. destruct xI as [|v xr']; [discriminate|]. exists xr'. cbn in S0. congruence. }
  destruct Hhd as (xr' & Exr).
  assert (Emax : exists m, pymax (N:=NX) (Gp xI) = Ok (Fin m) /\ In (Some m) xI /\ forall r, In (Some r) xI -> r <= m).
  { rewrite Exr. destruct (fold_pymax_Gp xr' r0) as (m & E & H1 & H2). exists m. split; [|auto]. cbn [Gp map pymax]. fold (Gp xr'). rewrite E. reflexivity. }
  assert (Emin : exists m, pymin (N:=NX) (Gp xI) = Ok (Fin m) /\ In (Some m) xI /\ forall r, In (Some r) xI -> m <= r).
  { rewrite Exr. destruct (fold_pymin_Gp xr' r0) as (m & E & H1 & H2). exists m. split; [|auto]. cbn [Gp map pymin]. fold (Gp xr'). rewrite E. reflexivity. }
  destruct Emax as (mx & -> & Imx & Mmx). rewrite bind_Ok.
  destruct (where_eq_Gp xI mx Imx) as (p & -> & Vp & Fp). rewrite bind_Ok.
  destruct Emin as (mn & -> & Imn & Mmn). rewrite bind_Ok.
  destruct (where_eq_Gp xI mn Imn) as (q & -> & Vq & Fq). rewrite bind_Ok.
  assert (Hp := seen_lt _ _ _ Vp). assert (Hq := seen_lt _ _ _ Vq).
  assert (Ip : idx (Gp xI) p = Ok (Fin mx)) by (rewrite (idx_nth _ _ NaN) by (rewrite Gp_length; auto); f_equal; apply seen_nth; auto).
  assert (Iq : idx (Gp xI) q = Ok (Fin mn)) by (rewrite (idx_nth _ _ NaN) by (rewrite Gp_length; auto); f_equal; apply seen_nth; auto).
  change (idx (A:=car NX) (Gp xI) p) with (idx (Gp xI) p). change (idx (A:=car NX) (Gp xI) q) with (idx (Gp xI) q).
  rewrite Ip, Iq, !idx_F by lia. rewrite !bind_Ok, !fin_sub, !NtI by lia.
  eexists; split; [reflexivity|].
  exists mx, mn, (nth (i + p) t 0), (nth (i + q) t 0). split; [reflexivity|]. split.
  - exists (i + p)%nat. split; [apply NxI; auto; lia|]. split; [apply Hrange; lia|]. split; [reflexivity|]. split.
    + intros k r Hk Hr. assert (Lk := seen_lt _ _ _ Hk). apply Hrange in Hr; [|lia]. apply Mmx, In_seen. exists (k - i)%nat. apply NxI; [lia|]. replace (i + (k - i))%nat with k by lia. auto.
    + intros k r Hk Hkp Hr. assert (Lk := seen_lt _ _ _ Hk). apply Hrange in Hr; [|lia].
      assert (Sk : seen xI (k - i) r) by (apply NxI; [lia|]; replace (i + (k - i))%nat with k by lia; auto).
      assert (r <= mx) by (apply Mmx, In_seen; eauto). specialize (Fp (k - i)%nat ltac:(lia)).
      destruct (Req_dec r mx) as [->|]; [contradiction|lra].
  - exists (i + q)%nat. split; [apply NxI; auto; lia|]. split; [apply Hrange; lia|]. split; [reflexivity|]. split.
    + intros k r Hk Hr. assert (Lk := seen_lt _ _ _ Hk). apply Hrange in Hr; [|lia]. apply Mmn, In_seen. exists (k - i)%nat. apply NxI; [lia|]. replace (i + (k - i))%nat with k by lia. auto.
    + intros k r Hk Hkp Hr. assert (Lk := seen_lt _ _ _ Hk). apply Hrange in Hr; [|lia].
      assert (Sk : seen xI (k - i) r) by (apply NxI; [lia|]; replace (i + (k - i))%nat with k by lia; auto).
      assert (mn <= r) by (apply Mmn, In_seen; eauto). specialize (Fq (k - i)%nat ltac:(lia)).
      destruct (Req_dec r mn) as [->|]; [contradiction|lra].
Qed.

Lemma all_waves_Gp t x tau :
  increasing t -> length x = length t ->
  (forall k, (S k < length tau)%nat -> exists i r, (i < length t)%nat /\ nth k tau 0 <= nth i t 0 <= nth (S k) tau 0
      /\ (forall l, (l < i)%nat -> nth l t 0 < nth k tau 0) /\ seen x i r) ->
  exists ws, all_waves (N:=NX) (F t) (Gp x) (F tau) = Ok ws /\ length ws = (length tau - 1)%nat
   /\ forall k, (k < length ws)%nat -> gap_wave t x (nth k tau 0) (nth (S k) tau 0) (nth k ws dwave).
Proof.
  intros Hinc Hlen. induction tau as [|a [|b tau] IH]; intros Hs.
  - exists []. split; [reflexivity|]. split; [reflexivity|]. cbn; lia.
  - exists []. split; [reflexivity|]. split; [reflexivity|]. cbn; lia.
  - change (all_waves (N:=NX) (F t) (Gp x) (F (a :: b :: tau))) with
      (bind (one_wave (N:=NX) (F t) (Gp x) (Fin a) (Fin b)) (fun w =>
       bind (all_waves (N:=NX) (F t) (Gp x) (F (b :: tau))) (fun ws => Ok (w :: ws)))).
    destruct (Hs 0%nat) as (i & r & Hi & H1 & H2 & H3); [cbn; lia|].
    destruct (one_wave_Gp t x a b i r Hinc Hlen Hi H1 H2 H3) as (w & -> & Hw).
    rewrite bind_Ok. destruct IH as (ws & -> & Hl & Hws).
    { intros k Hk. apply (Hs (S k)). cbn in *; lia. }
    rewrite bind_Ok. exists (w :: ws). split; [reflexivity|]. cbn [length] in *. split; [lia|].
    intros [|k] Hk; [exact Hw|]. apply Hws. lia.
Qed.
Definition vl (x : list (option R)) (i : nat) : R := match nth_error x i with Some (Some r) => r | _ => 0 end.
Lemma seen_vl x i r : seen x i r -> vl x i = r. Proof. unfold seen, vl. intros ->. reflexivity. Qed.

(** ** C70 *)
(** crossings: exactly the sign changes between two present neighbouring samples, at the time of the straight line through them *)
Theorem C70_crossings (t0 dt : R) (x : list (option R)) (s : string) (d : direction) :
  names s d -> 0 < dt -> (2 <= length x)%nat ->
  exists (is : list nat) (tau : list R) (tc : arr NX),
    ascending is /\ (forall i, In i is <-> gap_crosses d x i) /\ length tau = length is
    /\ determine_zero_crossing (Arr (vec (F (axis t0 dt (length x))))) (Arr (vec (Gp x))) s = Ok (Z.of_nat (length is - 1), tc)
    /\ tc = match tau with [] => empty00 | _ => vec (F tau) end
    /\ forall k a b, (k < length tau)%nat -> let i := nth k is 0%nat in seen x i a -> seen x (S i) b ->
         let ti := t0 + INR i * dt in
         ti <= nth k tau 0 < ti + dt /\ a + (b - a) * ((nth k tau 0 - ti) / dt) = 0.
Proof.
  intros Hn Hdt H2. destruct (cross_idx_spec d (Gp x)) as [A1 A2].
  set (is := cross_idx d (Gp x)) in *.
  set (tau := map (fun i => t0 + INR i * dt + dt * (vl x i / (vl x i - vl x (S i)))) is).
  exists is, tau, (match tau with [] => empty00 | _ => vec (F tau) end).
  split; [exact A1|]. split; [intros i; rewrite A2; apply crosses_Gp|]. split; [apply map_length|]. 
  split; [|split; [reflexivity|]].
  - assert (Q := zero_crossing_eq (F (axis t0 dt (length x))) (Gp x) s d Hn).
    etransitivity; [apply Q; [rewrite F_length, axis_length; symmetry; apply Gp_length|rewrite Gp_length; auto]|]. fold is. cbn zeta. f_equal. f_equal.
    match goal with |- (match map ?g is with [] => _ | _ => _ end) = _ => assert (E : map g is = F tau) end.
    { unfold tau. match goal with |- _ = F (map ?g is) => change (F (map g is)) with (map Fin (map g is)) end. rewrite map_map. apply map_ext_in. intros i Hi. apply A2, crosses_Gp in Hi.
      destruct Hi as (a & b & Sa & Sb & Hc). assert (Lb := seen_lt _ _ _ Sb).
      rewrite (seen_vl _ _ _ Sa), (seen_vl _ _ _ Sb). apply seen_nth in Sa, Sb. rewrite Nat.add_1_r.
      rewrite !F_nth_lt by (rewrite axis_length; lia). rewrite !axis_nth by lia. 
      change (@nth (car NX) i (Gp x) NaN) with (@nth xr i (Gp x) NaN). change (@nth (car NX) (S i) (Gp x) NaN) with (@nth xr (S i) (Gp x) NaN).
      rewrite Sa, Sb, fin_sub, crossing_time_F by (destruct d; lra). f_equal. change (INR 1) with 1. change (INR 0) with 0.
      field. destruct d; lra. }
    rewrite E. destruct tau; reflexivity.
  - intros k a b Hk i Sa Sb ti. unfold tau in Hk. rewrite map_length in Hk.
    assert (Et : nth k tau 0 = ti + dt * (a / (a - b))).
    { unfold tau. rewrite (nth_indep _ 0 ((fun i => t0 + INR i * dt + dt * (vl x i / (vl x i - vl x (S i)))) 0%nat)) by (rewrite map_length; auto).
      rewrite (map_nth (fun i => t0 + INR i * dt + dt * (vl x i / (vl x i - vl x (S i))))). fold i. rewrite (seen_vl _ _ _ Sa), (seen_vl _ _ _ Sb). reflexivity. }
    assert (Hi : gap_crosses d x i) by (apply crosses_Gp, A2, nth_In; auto).
    destruct Hi as (a' & b' & Sa' & Sb' & Hc). rewrite (seen_fun _ _ _ _ Sa' Sa), (seen_fun _ _ _ _ Sb' Sb) in Hc.
    assert (Rt : 0 <= a / (a - b) < 1).
    { destruct d.
      - assert (Hp : 0 < / (b - a)) by (apply Rinv_0_lt_compat; lra).
        assert (E : a / (a - b) = - a * / (b - a)) by (field; lra).
        rewrite E. split; [nra|]. apply Rmult_lt_reg_r with (b - a); [lra|]. rewrite Rmult_assoc, Rinv_l by lra. lra.
      - assert (Hp : 0 < / (a - b)) by (apply Rinv_0_lt_compat; lra).
        unfold Rdiv. split; [nra|]. apply Rmult_lt_reg_r with (a - b); [lra|]. rewrite Rmult_assoc, Rinv_l by lra. lra. }
    rewrite Et. split; [nra|]. field. destruct d; lra.
Qed.

(** waves: the analysis succeeds; every wave is read from the samples that are present *)
Theorem C70_waves (t0 dt : R) (x : list (option R)) (s : string) (d : direction) :
  names s d -> 0 < dt -> (2 <= length x)%nat ->
  let t := axis t0 dt (length x) in
  exists nWave tCross tau ws,
    determine_zero_crossing (Arr (vec (F t))) (Arr (vec (Gp x))) s = Ok (nWave, tCross)
    /\ data tCross = F tau
    /\ determine_params_individual_waves (Arr tCross) (Arr (vec (F t))) (Arr (vec (Gp x))) = Ok ws
    /\ Z.of_nat (length ws) = nWave /\ length ws = (length tau - 1)%nat
    /\ forall k, (k < length ws)%nat ->
         exists h T crest trough tc tt,
           nth k ws dwave = mkWave (N:=NX) (Fin h) (Fin T) (Fin crest) (Fin trough) (Fin tc) (Fin tt)
           /\ T = nth (S k) tau 0 - nth k tau 0 /\ 0 < T
           /\ h = crest - trough /\ 0 < h
           /\ first_max_seen t x (nth k tau 0) (nth (S k) tau 0) crest tc
           /\ first_min_seen t x (nth k tau 0) (nth (S k) tau 0) trough tt
           /\ match d with Down => trough < 0 <= crest | Up => trough <= 0 < crest end.
Proof.
  intros Hn Hdt H2 t. destruct (C70_crossings t0 dt x s d Hn Hdt H2) as (is & tau & tc & As & Is & L & E & Htc & T).
  fold t in E. assert (Hinc : increasing t) by (apply axis_increasing; auto).
  assert (Lt : length t = length x) by apply axis_length.
  exists (Z.of_nat (length is - 1)), tc, tau.
  assert (D : data tc = F tau) by (rewrite Htc; destruct tau; reflexivity).
  assert (Cr : forall k, (k < length tau)%nat -> let i := nth k is 0%nat in
     exists a b, seen x i a /\ seen x (S i) b /\ (match d with Up => a <= 0 < b | Down => 0 <= a /\ b < 0 end)
       /\ nth i t 0 <= nth k tau 0 < nth (S i) t 0 /\ (nth k tau 0 = nth i t 0 \/ a <> 0)).
  { intros k Hk i. assert (Hi : gap_crosses d x i) by (apply Is, nth_In; lia). destruct Hi as (a & b & Sa & Sb & Hc).
    exists a, b. split; auto. split; auto. split; auto. assert (Lb := seen_lt _ _ _ Sb).
    destruct (T k a b Hk Sa Sb) as [T1 T2]. fold i in T1, T2. unfold t. rewrite !axis_nth by lia. rewrite S_INR. split; [lra|].
    destruct (Req_dec a 0) as [->|]; [left|right; auto]. rewrite Rminus_0_r, Rplus_0_l in T2. apply Rmult_integral in T2 as [T2|T2]; [destruct d; lra|].
    unfold Rdiv in T2. apply Rmult_integral in T2 as [T2|T2]; [lra|]. assert (/ dt <> 0) by (apply Rinv_neq_0_compat; lra). contradiction. }
  assert (Mono : forall i j, (i <= j < length t)%nat -> nth i t 0 <= nth j t 0).
  { intros i j Hij. destruct (Nat.eq_dec i j) as [->|]; [lra|]. left. apply Hinc. lia. }
  assert (Enc : forall k, (S k < length tau)%nat -> let i := nth k is 0%nat in let j := nth (S k) is 0%nat in
     (S i < j)%nat /\ (S j < length x)%nat /\ nth k tau 0 < nth (S i) t 0 <= nth (S k) tau 0 /\ nth k tau 0 < nth j t 0 <= nth (S k) tau 0).
  { intros k Hk i j. destruct (Cr k ltac:(lia)) as (a & b & Sa & Sb & Hc & Hr & _). destruct (Cr (S k) Hk) as (a' & b' & Sa' & Sb' & Hc' & Hr' & _).
    fold i in Sa, Sb, Hr. fold j in Sa', Sb', Hr'.
    assert (Hij : (i < j)%nat) by (apply As; lia).
    assert (S i <> j). { intros Eq. rewrite Eq in Sb. rewrite (seen_fun _ _ _ _ Sb Sa') in Hc. destruct d; lra. }
    assert (Lj := seen_lt _ _ _ Sb'). split; [lia|]. split; [lia|].
    assert (M1 := Mono (S i) j ltac:(lia)). split; lra. }
  destruct (all_waves_Gp t x tau Hinc (eq_sym Lt)) as (ws & Ew & Lw & W).
  { intros k Hk. destruct (Cr k ltac:(lia)) as (a & b & Sa & Sb & Hc & Hr & Hz). destruct (Enc k Hk) as (H5 & H6 & H7 & _).
    set (i := nth k is 0%nat) in *. assert (Li := seen_lt _ _ _ Sa). destruct Hz as [Hz|Hz].
    - exists i, a. split; [lia|]. split; [assert (M := Mono i (S i) ltac:(lia)); lra|]. split; [|exact Sa].
      intros l Hl. rewrite Hz. apply Hinc. lia.
    - exists (S i), b. split; [lia|]. split; [lra|]. split; [|exact Sb].
      intros l Hl. assert (M := Mono l i ltac:(lia)).
      assert (Hs : nth i t 0 < nth k tau 0).
      { destruct (Rle_lt_or_eq_dec _ _ (proj1 Hr)) as [|Eq]; auto. exfalso.
        destruct (T k a b ltac:(lia) Sa Sb) as [_ T2]. fold i in T2. rewrite <- Eq in T2. unfold t in T2. rewrite axis_nth in T2 by lia.
        replace (t0 + INR i * dt - (t0 + INR i * dt)) with 0 in T2 by ring. unfold Rdiv in T2. lra. }
      lra. }
  exists ws. split; [exact E|]. split; [exact D|].
  assert (Lws : length ws = (length tau - 1)%nat) by auto.
  split.
  { rewrite Htc. destruct tau as [|a0 tau]; [destruct ws; [reflexivity|discriminate]|].
    unfold determine_params_individual_waves; cbn [convert_to_array_type]. rewrite asize_vec, F_length. cbn [Nat.eqb length].
    assert (X1 : F t <> []) by (apply F_ne; intros Eq; rewrite Eq in Lt; cbn in Lt; lia).
    assert (X2 : Gp x <> []) by (intros Eq; apply (f_equal (@length xr)) in Eq; rewrite Gp_length in Eq; cbn in Eq; lia).
    assert (X3 : F (a0 :: tau) <> []) by discriminate.
    rewrite !is1darray_vec by auto.
    cbn [negb]. rewrite !as_list_vec, !bind_Ok, F_length, Lt.
    replace (length (A:=car NX) (Gp x)) with (length x) by (symmetry; apply Gp_length). rewrite Nat.eqb_refl. cbn [negb]. exact Ew. }
  split; [rewrite Lws, L; reflexivity|]. split; [auto|].
  intros k Hk. destruct (W k Hk) as (c & tr & tcr & ttr & Eq & Hmax & Hmin).
  exists (c - tr), (nth (S k) tau 0 - nth k tau 0), c, tr, tcr, ttr. split; [exact Eq|]. split; [reflexivity|].
  destruct (Enc k ltac:(lia)) as (E1 & E2 & R1 & R2).
  destruct (Cr k ltac:(lia)) as (a & b & Sa & Sb & Hc & Hr & _). destruct (Cr (S k) ltac:(lia)) as (a' & b' & Sa' & Sb' & Hc' & Hr' & _).
  split; [lra|]. split; [reflexivity|].
  assert (Hmax' := Hmax). assert (Hmin' := Hmin).
  destruct Hmax' as (p & _ & _ & _ & Mx & _). destruct Hmin' as (q & _ & _ & _ & Mn & _).
  assert (M1 := Mx _ _ Sb ltac:(lra)). assert (M2 := Mx _ _ Sa' ltac:(lra)).
  assert (N1 := Mn _ _ Sb ltac:(lra)). assert (N2 := Mn _ _ Sa' ltac:(lra)).
  split; [destruct d; lra|]. split; [auto|]. split; [auto|]. destruct d; lra.
Qed.

(** the object is created, keeps the record as it is and stores those waves *)
Theorem C70_object (t0 dt : R) (x : list (option R)) (at_ ax : arraylike NX) :
  0 < dt -> (2 <= length x)%nat ->
  let t := F (axis t0 dt (length x)) in
  holds_vector t at_ -> holds_vector (Gp x) ax ->
  exists s tc ws,
    series_init at_ ax = Ok s
    /\ se_t s = t /\ se_x s = Gp x /\ se_nt s = length x /\ se_dt s = Fin dt
    /\ determine_zero_crossing (Arr (vec t)) (Arr (vec (Gp x))) "down" = Ok (Z.of_nat (length ws), tc)
    /\ determine_params_individual_waves (Arr tc) (Arr (vec t)) (Arr (vec (Gp x))) = Ok ws
    /\ stored_waves (se_wh s) ws
    /\ se_tCross s = data tc.
Proof.
  intros Hdt H2 t Ht Hx.
  assert (Nx : (Gp x : list (car NX)) <> []) by (destruct x; [cbn in H2; lia|discriminate]).
  assert (Lt : length t = length x) by (unfold t; rewrite F_length; apply axis_length).
  assert (Nt : t <> []) by (intros E; rewrite E in Lt; cbn in Lt; lia).
  destruct (hv_convert t at_ Nt Ht) as (k1 & _ & E1). destruct (hv_convert _ ax Nx Hx) as (k2 & _ & E2).
  destruct (C70_waves t0 dt x "down" Down eq_refl Hdt H2) as (nw & tc & tau & ws & Z1 & _ & W1 & Ln & _ & Hall).
  cbn zeta in *. subst nw. fold t in Z1, W1.
  set (gx := Gp x : list (car NX)) in *. 
  assert (Z1' : determine_zero_crossing (Arr (vec t)) (Arr (vec gx)) "down" = Ok (Z.of_nat (length ws), tc)) by exact Z1.
  assert (W1' : determine_params_individual_waves (Arr tc) (Arr (vec t)) (Arr (vec gx)) = Ok ws) by exact W1.
  unfold series_init. rewrite E1, E2. cbn [fst].
  assert (LG : length gx = length x) by apply Gp_length.
  rewrite LG, Lt, Nat.eqb_refl. cbn [negb].
  rewrite as_list_vec, bind_Ok.
  assert (Ed : ndiff (N:=NX) t = F (repeat dt (length x - 1))) by (unfold t; rewrite ndiff_F, axis_Rdiff; reflexivity).
  rewrite Ed. assert (Hn1 : (0 < length x - 1)%nat) by lia.
  assert (Nr : forall c, repeat c (length x - 1) <> ([] : list R)) by (intros c E; apply (f_equal (@length R)) in E; rewrite repeat_length in E; cbn in E; lia).
  rewrite nvar_F, Rvar_repeat by auto.
  rewrite (F_map (fun d => d / 100)) by (intros; rewrite fin_ofZ, fin_div by lra; reflexivity).
  assert (Em : map (fun d => d / 100) (repeat dt (length x - 1)) = repeat (dt / 100) (length x - 1)).
  { generalize (length x - 1)%nat. induction n; [reflexivity|]. cbn. rewrite IHn. reflexivity. }
  rewrite Em, nmean_F, Rmean_repeat, fin_ltb by auto. rewrite Rltb_true by lra. cbn [negb].
  rewrite as_list_vec, bind_Ok, nmean_F, Rmean_repeat by auto.
  unfold individual_waves, series_crossings. rewrite fin_0, fin_eqb, Reqb_true by auto. cbn [negb]. rewrite bind_Ok.
  rewrite <- fin_0. rewrite map_sub0. rewrite Z1', bind_Ok, W1', bind_Ok.
  assert (Ew : where_ (fun w => nltb (n:=NX) (w_h w) n0) ws = []).
  { apply (where_none _ _ dwave). intros i Hi.
    destruct (Hall i Hi) as (h & T & a & b & c & e & -> & _ & _ & _ & Hh & _).
    cbn [w_h]. rewrite fin_0, fin_ltb. apply Rltb_false. lra. }
  rewrite Ew, !delete_nil, bind_Ok.
  eexists _, tc, ws. split; [reflexivity|]. cbn [se_t se_x se_nt se_dt se_wh se_tCross].
  split; [reflexivity|]. split; [reflexivity|]. split; [exact Lt|]. split; [reflexivity|].
  split; [exact Z1|]. split; [exact W1|]. split; [apply wh_of_waves_stored|reflexivity].
Qed.

(** statistics of the whole record are NaN as soon as one sample is missing *)
Lemma nan_add_l v : nadd (n:=NX) NaN v = NaN. Proof. destruct v; reflexivity. Qed.
Lemma nan_add_r v : nadd (n:=NX) v NaN = NaN. Proof. destruct v; reflexivity. Qed.
Lemma nan_sub_l v : nsub (n:=NX) NaN v = NaN. Proof. destruct v; reflexivity. Qed.
Lemma nan_sub_r v : nsub (n:=NX) v NaN = NaN. Proof. destruct v; reflexivity. Qed.
Lemma nan_mul_l v : nmul (n:=NX) NaN v = NaN. Proof. destruct v; reflexivity. Qed.
Lemma nan_mul_r v : nmul (n:=NX) v NaN = NaN. Proof. destruct v; reflexivity. Qed.
Lemma nan_div_l v : ndiv (n:=NX) NaN v = NaN. Proof. destruct v; reflexivity. Qed.
Lemma nan_sum (l : list NX) : In NaN l -> nsum (N:=NX) l = NaN.
Proof. induction l as [|v l IH]; intros H; [contradiction|]. change (nsum (N:=NX) (v :: l)) with (nadd (n:=NX) v (nsum (N:=NX) l)). destruct H as [->|H]; [apply nan_add_l|]. rewrite IH by auto. apply nan_add_r. Qed.
Lemma nan_mean (l : list NX) : In NaN l -> nmean (N:=NX) l = NaN.
Proof. intros H. unfold nmean. rewrite nan_sum by auto. apply nan_div_l. Qed.
(** ** A time axis with a value that is not a number or infinite is refused (C16) *)
Definition finite_number (v : xr) : Prop := exists r, v = Fin r.
Lemma unfin_sub_l a b : ~ finite_number a -> ~ finite_number (nsub (n:=NX) a b).
Proof. intros H [r E]. destruct a as [a| | |]; [apply H; exists a; reflexivity| | |]; destruct b; discriminate E. Qed.
Lemma unfin_sub_r a b : ~ finite_number b -> ~ finite_number (nsub (n:=NX) a b).
Proof. intros H [r E]. destruct b as [b| | |]; [apply H; exists b; reflexivity| | |]; destruct a; discriminate E. Qed.
Lemma sum_nonfinite (l : list NX) : (exists v, In v l /\ ~ finite_number v) ->
  nsum (N:=NX) l = NaN \/ (nsum (N:=NX) l = PInf /\ In PInf l) \/ (nsum (N:=NX) l = NInf /\ In NInf l).
Proof.
  induction l as [|a l IH]; intros (v & Hv & Nv); [contradiction|].
  change (nsum (N:=NX) (a :: l)) with (nadd (n:=NX) a (nsum (N:=NX) l)).
  assert (S : {w | nsum (N:=NX) l = w}) by (eexists; reflexivity). destruct S as [w Ew]. rewrite Ew in IH |- *.
  assert (L : w = PInf -> In PInf l).
  { clear - Ew. revert w Ew. induction l as [|b l IHl]; intros w Ew Hw; [subst; discriminate Hw|].
    change (nsum (N:=NX) (b :: l)) with (nadd (n:=NX) b (nsum (N:=NX) l)) in Ew. subst w.
    destruct (nsum (N:=NX) l) as [c| | |] eqn:E; destruct b; try discriminate Hw; try (left; reflexivity); right; eapply IHl; reflexivity. }
  assert (M : w = NInf -> In NInf l).
  { clear - Ew. revert w Ew. induction l as [|b l IHl]; intros w Ew Hw; [subst; discriminate Hw|].
    change (nsum (N:=NX) (b :: l)) with (nadd (n:=NX) b (nsum (N:=NX) l)) in Ew. subst w.
    destruct (nsum (N:=NX) l) as [c| | |] eqn:E; destruct b; try discriminate Hw; try (left; reflexivity); right; eapply IHl; reflexivity. }
  assert (W : forall c, w = Fin c -> forall u, In u l -> finite_number u).
  { intros c Ec u Hu. destruct u as [u| | |]; [exists u; reflexivity| | |]; exfalso;
      (destruct IH as [E|[[E _]|[E _]]]; [eexists; split; [exact Hu|]; intros [r E]; discriminate E| | |]; congruence). }
  destruct a as [a| | |]; destruct w as [c| | |]; cbn; auto 6.
  exfalso. apply Nv. destruct Hv as [<-|Hv]; [exists a; reflexivity|]. exact (W c eq_refl v Hv).
Qed.
Lemma diff_nonfinite (t : list NX) i : (2 <= length t)%nat -> (i < length t)%nat -> ~ finite_number (nth i t NaN) ->
  exists v, In v (ndiff (N:=NX) t) /\ ~ finite_number v.
Proof.
  revert i. induction t as [|a t IH]; intros i L Hi H; [cbn in L; lia|]. destruct t as [|b t]; [cbn in L; lia|].
  change (ndiff (N:=NX) (a :: b :: t)) with (nsub (n:=NX) b a :: ndiff (N:=NX) (b :: t)).
  destruct i as [|[|i]].
  - exists (nsub (n:=NX) b a). split; [left; reflexivity|]. apply unfin_sub_r. exact H.
  - exists (nsub (n:=NX) b a). split; [left; reflexivity|]. apply unfin_sub_l. exact H.
  - destruct t as [|c t]; [cbn in Hi; lia|]. destruct (IH (S i)) as (v & Hv & Nv); [cbn; lia|cbn in *; lia|exact H|].
    exists v. split; [right; exact Hv|exact Nv].
Qed.
Lemma inf_div_pos r : 0 < r -> ndiv (n:=NX) PInf (Fin r) = PInf.
Proof. intros H. cbn. unfold xinf_times. repeat destruct (Rlt_dec _ _); try destruct (Req_EM_T _ _); try (exfalso; lra); reflexivity. Qed.
Lemma ninf_div_pos r : 0 < r -> ndiv (n:=NX) NInf (Fin r) = NInf.
Proof. intros H. cbn. unfold xinf_times. repeat destruct (Rlt_dec _ _); try destruct (Req_EM_T _ _); try (exfalso; lra); reflexivity. Qed.
Theorem C16_non_finite_axis_rejected (t x : list NX) (i : nat) :
  length x = length t -> (i < length t)%nat -> ~ finite_number (nth i t NaN) ->
  series_init (Arr (vec t)) (Arr (vec x)) = Raise AssertionError.
Proof.
  intros Hl Hi H. destruct (Nat.le_gt_cases (length t) 1) as [S1|S1]; [apply C16_single_sample_rejected; auto|].
  destruct (diff_nonfinite t i S1 Hi H) as (v & Hv & Nv).
  assert (V : nvar (N:=NX) (ndiff (N:=NX) t) = NaN).
  { unfold nvar. apply nan_mean. unfold nmean. set (d := ndiff (N:=NX) t) in *.
    assert (Pn : 0 < INR (length d)) by (apply lt_0_INR; destruct d; [contradiction|cbn; lia]).
    assert (Q1 : ndiv (n:=NX) PInf (nofnat (N:=NX) (length d)) = PInf).
    { rewrite fin_ofnat. apply inf_div_pos. exact Pn. }
    assert (Q2 : ndiv (n:=NX) NInf (nofnat (N:=NX) (length d)) = NInf).
    { rewrite fin_ofnat. apply ninf_div_pos. exact Pn. }
    destruct (sum_nonfinite d (ex_intro _ v (conj Hv Nv))) as [E|[[E I]|[E I]]]; rewrite E.
    - rewrite nan_div_l. apply in_map_iff. exists v. split; [|exact Hv]. rewrite nan_sub_r. reflexivity.
    - rewrite Q1. apply in_map_iff. exists PInf. split; [reflexivity|exact I].
    - rewrite Q2. apply in_map_iff. exists NInf. split; [reflexivity|exact I]. }
  unfold series_init. rewrite !vec_convert. cbn [fst]. rewrite Hl, Nat.eqb_refl. cbn [negb].
  rewrite as_list_vec, bind_Ok, V. reflexivity.
Qed.
(** a clock that resets: the last time stamp is missing *)
Example C16_non_finite_witness : ~ finite_number (nth 2 [Fin 0; Fin 1; NaN : xr] NaN).
Proof. intros [r E]. discriminate E. Qed.

Lemma nan_In x : In None x -> In NaN (Gp x).
Proof. intros H. apply in_map_iff. exists None. auto. Qed.
Theorem C70_statistics (s : series NX) (x : list (option R)) : se_x s = Gp x -> In None x ->
  series_max s = Ok NaN /\ series_min s = Ok NaN /\ series_mean s = NaN /\ series_var s = NaN /\ series_skewness s = NaN.
Proof.
  intros E H. apply nan_In in H.
  assert (X : existsb (nisnan (n:=NX)) (Gp x) = true) by (apply existsb_exists; exists NaN; auto).
  unfold series_max, series_min, series_mean, series_var, series_skewness, npmax, npmin. rewrite E.
  rewrite X. assert (M := nan_mean _ H). split; [reflexivity|]. split; [reflexivity|]. split; [exact M|]. split.
  - unfold nvar. apply nan_mean. apply in_map_iff. exists NaN. split; [|exact H]. cbv beta. rewrite nan_sub_l. reflexivity.
  - unfold skewness. rewrite nan_mean; [apply nan_div_l|]. apply in_map_iff. exists NaN. split; [|exact H]. cbv beta. rewrite nan_sub_l. reflexivity.
Qed.

(** one missing sample makes the whole spectrum NaN *)
Lemma nan_dft (x : list NX) k : In NaN x -> fst (dft_coef (-1) (map cofr x) k) = NaN.
Proof.
  intros H. unfold dft_coef. rewrite map_length.
  assert (G : forall (n : nat) (js : list nat) (l : list NX), length js = length l -> In NaN l ->
     fst (csum (map2 (fun j xj => cmul xj (twiddle (-1) n j k)) js (map cofr l))) = NaN).
  { intros n js. induction js as [|j js IH]; intros [|v l] Hl Hin; try discriminate; [contradiction|].
    cbn [map map2 csum fold_right]. unfold cadd at 1. cbn [fst cre]. destruct Hin as [->|Hin].
    - unfold cmul at 1. cbn [cre fst cofr]. rewrite nan_mul_l, nan_sub_l. apply nan_add_l.
    - injection Hl as Hl. specialize (IH l Hl Hin). unfold csum in IH. unfold cre. rewrite IH. apply nan_add_r. }
  apply G; [apply seq_length|auto].
Qed.
Lemma nan_var_dens df n z : fst z = NaN -> var_dens (N:=NX) df n z = NaN.
Proof.
  intros H. destruct z as [a b]. cbn [fst] in H. subst a. unfold var_dens, cdivr, cmul, cscale, cre, cim, cconj. cbn [fst snd]. rewrite !nan_mul_r, !nan_sub_l, nan_div_l. reflexivity.
Qed.
Theorem C70_spectrum (t0 dt df : R) (x : list (option R)) :
  0 < dt -> (2 <= length x)%nat -> In None x ->
  exists fc sc, compute_spectrum_time_series (Arr (vec (F (axis t0 dt (length x))))) (Arr (vec (Gp x))) (Fin df) = Ok (F fc, sc)
    /\ length sc = length fc /\ forall v, In v sc -> v = NaN.
Proof.
  intros Hdt H2 Hin. apply nan_In in Hin. set (t := axis t0 dt (length x)).
  assert (Hg : good_axis t) by (apply axis_good; auto). assert (Lt : length t = length x) by apply axis_length.
  set (gx := Gp x : list (car NX)) in *. assert (Lg : length gx = length x) by apply Gp_length.
  assert (Hq := nnyq_le (length x) H2). assert (Hd := dfreq_pos t Hg).
  assert (Hs := good_step t Hg).
  assert (TF : time2freq (Arr (vec (F t))) (Arr (vec gx)) = Ok (F (freqs (dfreq t) (length x)), fft (map cofr gx))).
  { unfold time2freq. rewrite !vec_convert. cbn [fst snd]. change (Nat.ltb 1 0) with false. cbn [orb].
    rewrite as_list_vec, bind_Ok, good_mono, bind_Ok by auto. cbn [negb].
    rewrite !F_length, Lt, Lg, Nat.eqb_refl. cbn [negb]. rewrite as_list_vec, bind_Ok.
    rewrite !idx_F by lia. rewrite !bind_Ok. f_equal. f_equal.
    unfold freqs. unfold F at 1. rewrite map_map. apply map_ext. intros k.
    rewrite !fin_ofnat, fin_1, fin_sub, fin_mul. fold (step t). rewrite fin_div, fin_mul.
    - f_equal. unfold dfreq. rewrite Lt. unfold Rdiv. ring.
    - assert (0 < INR (length x)) by (apply lt_0_INR; lia). nra. }
  assert (NF : time2freq_nyquist (Arr (vec (F t))) (Arr (vec gx))
     = Ok (F (freqs (dfreq t) (nnyq (length x))), slice 0 (nnyq (length x)) (fft (map cofr gx)), Nat.odd (length x))).
  { unfold time2freq_nyquist. rewrite !vec_convert. cbn [fst snd]. change (Nat.ltb 1 0) with false. cbn [orb].
    rewrite as_list_vec, bind_Ok, good_mono, bind_Ok by auto. cbn [negb].
    rewrite !F_length, Lt, Lg, Nat.eqb_refl. cbn [negb]. rewrite TF, bind_Ok. fold (nnyq (length x)).
    rewrite F_slice. unfold freqs at 1. rewrite slice0_map_seq by lia. reflexivity. }
  unfold compute_spectrum_time_series.
  match goal with |- context [time2freq_nyquist ?a ?b] => change (time2freq_nyquist a b) with (time2freq_nyquist (Arr (vec (F t))) (Arr (vec gx))) end.
  rewrite NF, bind_Ok, !idx_F, !bind_Ok by (rewrite freqs_length; lia). 
  set (f := freqs (dfreq t) (nnyq (length x))).
  assert (Lf : length f = nnyq (length x)) by apply freqs_length.
  match goal with |- context [map (var_dens ?a ?b) ?l] => set (S0 := map (var_dens a b) l);
    assert (LS : length S0 = nnyq (length x)); [|assert (AN : forall v, In v S0 -> v = NaN)] end.
  { unfold S0. rewrite map_length, slice_length. unfold fft. rewrite !map_length, seq_length, Lg. lia. }
  { intros v Hv. unfold S0 in Hv. apply in_map_iff in Hv as (z & <- & Hz). apply nan_var_dens.
    unfold slice in Hz. rewrite skipn_O in Hz. apply firstn_incl in Hz. unfold fft in Hz. apply in_map_iff in Hz as (k & <- & _). apply nan_dft. auto. }
  destruct (factor_exists f df) as (r & Hr). assert (Hr1 := factor_pos _ _ _ Hr).
  exists (map (block_mean r f) (seq 0 (length f / r))), (repeat (NaN : car NX) (length f / r)).
  split; [|split; [rewrite map_length, seq_length, repeat_length; auto|intros v Hv; apply repeat_spec in Hv; auto]].
  unfold frequency_averaging. rewrite !vec_convert. cbn [fst snd]. change (Nat.ltb 1 0) with false. cbn [orb].
  rewrite !as_list_vec, !bind_Ok, (avg_factor_F f df r) by (auto; try (rewrite Lf; lia); unfold f; rewrite step_freqs by lia; lra).
  rewrite bind_Ok, F_length, fin_ofnat.
  assert (Hp : 0 < INR r) by (apply lt_0_INR; lia).
  rewrite fin_div by lra. rewrite (fin_floor_nat _ (length f / r)).
  - rewrite bind_Ok, Nat2Z.id. rewrite (idx_nth S0 0 NaN) by lia. rewrite bind_Ok.
    assert (Hb : forall i, In i (seq 0 (length f / r)) -> ((i + 1) * r <= length f)%nat).
    { intros i Hi. apply in_seq in Hi. assert (r * (length f / r) <= length f)%nat by (apply Nat.mul_div_le; lia). nia. }
    rewrite (mapM_Ok _ (fun i => Fin (block_mean r f i))) by (intros; apply avg_block_F; auto). rewrite bind_Ok.
    rewrite (mapM_Ok _ (fun i => NaN)).
    + rewrite bind_Ok. f_equal. f_equal; [unfold F; rewrite map_map; reflexivity|].
      clear. generalize 0%nat as s0, (length f / r)%nat as n. intros s0 n. revert s0. induction n as [|n IH]; intros s0; [reflexivity|]. cbn [seq map repeat]. rewrite IH. reflexivity.
    + intros i Hi. specialize (Hb i Hi). unfold avg_block. rewrite !fin_ofnat, !fin_mul, <- !mult_INR, !int_trunc_nat, !bind_Ok, !Nat2Z.id.
      f_equal. apply nan_mean. assert (Li : (i * r < length S0)%nat) by nia.
      assert (X : In (nth 0 (slice (i * r) ((i + 1) * r) S0) (NaN : car NX)) (slice (i * r) ((i + 1) * r) S0)) by (apply nth_In; rewrite slice_length; nia).
      rewrite slice_nth, Nat.add_0_r in X by nia. assert (Y := AN _ (nth_In S0 (NaN : car NX) Li)). rewrite Y in X. exact X.
  - apply Rmult_le_pos; [apply pos_INR|]. left. apply Rinv_0_lt_compat. auto.
  - apply floor_div. auto.
Qed.
Example C70_witness : let x := [Some 1; Some (-1); None; Some 2; Some 1; Some (-1)] in
  (2 <= length x)%nat /\ In None x /\ gap_crosses Down x 0 /\ gap_crosses Down x 4 /\ ~ gap_crosses Down x 2.
Proof.
  cbn zeta. split; [cbn; lia|]. split; [cbn; auto|]. split; [|split].
  - exists 1, (-1). repeat split; lra.
  - exists 1, (-1). repeat split; lra.
  - intros (a & b & H & _). discriminate.
Qed.
