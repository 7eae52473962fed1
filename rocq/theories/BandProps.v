(** * Band filtering: C28, C29 *)

From Coq Require Import Reals ZArith List Bool Lra Lia.
From Coquelicot Require Import Complex.
From Verif Require Import Num XR Spec XRFacts Engine Cpx DFT RSum FourierSpec EngineProps SpectralModel TimeProps
  TimeProps2 SeriesProps FourierFacts FourierProps AvgProps DensityProps.
Import ListNotations.
Open Scope R_scope.

Lemma Rltb_T x y : Rltb x y = true -> x < y.
Proof. destruct (Rltb_spec x y); [auto|discriminate]. Qed.
Lemma Rltb_F x y : Rltb x y = false -> y <= x.
Proof. destruct (Rltb_spec x y); [discriminate|lra]. Qed.
(** order of the extended reals *)
Definition ext_lt (a b : xr) : Prop :=
  match a, b with
  | Fin x, Fin y => x < y
  | NInf, Fin _ | NInf, PInf | Fin _, PInf => True
  | _, _ => False
  end.
Definition ext_le (a b : xr) : Prop :=
  match a, b with
  | Fin x, Fin y => x <= y
  | NInf, Fin _ | NInf, PInf | Fin _, PInf | NInf, NInf | PInf, PInf => True
  | _, _ => False
  end.
Lemma ltb_ext a b : nltb (n:=NX) a b = true <-> ext_lt a b.
Proof.
  destruct a, b; cbn; try tauto; try (split; [discriminate|tauto]).
  destruct (Rltb_spec r r0); split; intros; auto; try discriminate; lra.
Qed.
Lemma leb_ext a b : nleb (n:=NX) a b = true <-> ext_le a b.
Proof.
  destruct a, b; cbn; try tauto; try (split; [discriminate|tauto]).
  destruct (Rleb_spec r r0); split; intros; auto; try discriminate; lra.
Qed.
Lemma ltb_case a b : (nltb (n:=NX) a b = true /\ ext_lt a b) \/ (nltb (n:=NX) a b = false /\ ~ ext_lt a b).
Proof. assert (H := ltb_ext a b). destruct (nltb a b); [left|right]; intuition. Qed.
Lemma leb_case a b : (nleb (n:=NX) a b = true /\ ext_le a b) \/ (nleb (n:=NX) a b = false /\ ~ ext_le a b).
Proof. assert (H := leb_ext a b). destruct (nleb a b); [left|right]; intuition. Qed.

(** ** C28 Which frequencies the band filter passes *)

(** What the filter really keeps: never the first frequency; nothing if flow reaches the last frequency; and below the
    end of the axis one frequency less than the stated band. *)
Definition passed (f : list R) (flow fhigh : xr) (k : nat) : Prop :=
  let flast := Fin (nth (length f - 1) f 0) in
  (1 <= k)%nat /\ ext_le flow (Fin (nth k f 0)) /\ ext_lt flow flast
  /\ (ext_le flast fhigh \/ ((S k < length f)%nat /\ ext_lt (Fin (nth (S k) f 0)) fhigh)).

Definition filtered (keep : nat -> bool) (X : list C) : list C :=
  map (fun k => if keep k then nth k X (RtoC 0) else RtoC 0) (seq 0 (length X)).

Lemma nth_last_inc f i : increasing f -> (i < length f)%nat -> nth i f 0 <= nth (length f - 1) f 0.
Proof.
  intros H Hi. destruct (Nat.eq_dec i (length f - 1)) as [->|]; [lra|]. left. apply H. lia.
Qed.

Lemma apply_eq ilow ihigh (X : list C) :
  map2 (fun k (z : cpx NX) => if Nat.leb ilow k && Nat.ltb k ihigh then z else c0) (seq 0 (length (FCs X))) (FCs X)
  = FCs (filtered (fun k => Nat.leb ilow k && Nat.ltb k ihigh) X).
Proof.
  rewrite (map2_seq _ _ (FC (RtoC 0))). rewrite FCs_length. unfold FCs at 2, filtered. rewrite map_map. apply map_ext.
  intros k. rewrite nth_FCs. destruct (_ && _); [reflexivity|apply fc_0].
Qed.

Theorem C28_pass_band (f : list R) (X : list C) (flow fhigh : xr) :
  f <> [] -> increasing f -> length X = length f -> flow <> NaN -> fhigh <> NaN ->
  exists keep : nat -> bool,
    applybandfilter (F f) (FCs X) flow fhigh
    = Ok (FCs (map (fun k => if keep k then nth k X (RtoC 0) else RtoC 0) (seq 0 (length X))))
    /\ forall k, (k < length f)%nat -> (keep k = true <-> passed f flow fhigh k).
Proof.
  intros Hne Hinc HX N1 N2. assert (Hl : (0 < length f)%nat) by (destruct f; [contradiction|cbn; lia]).
  unfold applybandfilter. rewrite idx_F, bind_Ok by auto.
  rewrite (idx_last_nth (F f) (Fin 0)), bind_Ok by (apply F_ne; auto). rewrite F_length, F_nth.
  set (fl := nth (length f - 1) f 0). assert (Hfl : forall i, (i < length f)%nat -> nth i f 0 <= fl) by (intros; apply nth_last_inc; auto).
  assert (Hfi : forall i, (i < length f)%nat -> nth 0 f 0 <= nth i f 0).
  { intros i Hi. destruct i; [lra|]. left. apply Hinc. lia. }
  (* lower limit *)
  assert (HL : exists ilow, (if nleb (n:=NX) flow (Fin (nth 0 f 0)) then Ok 1%nat
       else if nleb (n:=NX) (Fin fl) flow then Ok (length f)
       else let! i := idx_last (where_ (fun v => nltb (n:=NX) v flow) (F f)) in Ok (i + 1)%nat) = Ok ilow
     /\ forall k, (k < length f)%nat -> ((ilow <= k)%nat <-> (1 <= k)%nat /\ ext_le flow (Fin (nth k f 0)) /\ ext_lt flow (Fin fl))).
  { destruct (leb_case flow (Fin (nth 0 f 0))) as [[-> H]|[-> H]].
    - exists 1%nat. split; [reflexivity|]. intros k Hk. split; [|intuition]. intros H1. split; [auto|].
      assert (nth 0 f 0 < nth k f 0) by (apply Hinc; lia). assert (nth k f 0 <= fl) by auto.
      destruct flow; cbn in *; try tauto; split; lra.
    - destruct (leb_case (Fin fl) flow) as [[-> H']|[-> H']].
      + exists (length f). split; [reflexivity|]. intros k Hk. split; [lia|]. intros (_ & _ & H3).
        destruct flow; cbn in *; try tauto; lra.
      + destruct flow as [fl'| | |]; cbn in H, H'; try tauto; apply Rnot_le_lt in H; apply Rnot_le_lt in H'.
        destruct (where_last (fun v => nltb (n:=NX) v (Fin fl')) (F f) (Fin 0)) as (i & -> & Hi & Hp & Hq).
        { exists 0%nat. rewrite F_length, F_nth, fin_ltb. split; [auto|]. apply Rltb_true. lra. }
        rewrite bind_Ok. exists (i + 1)%nat. split; [reflexivity|]. rewrite F_length in *.
        rewrite F_nth, fin_ltb in Hp; apply Rltb_T in Hp.
        intros k Hk. cbn. split.
        * intros H1. specialize (Hq k ltac:(lia)). rewrite F_nth, fin_ltb in Hq; apply Rltb_F in Hq. split; [lia|split; lra].
        * intros (H1 & H2 & H3). destruct (Nat.le_gt_cases (i + 1) k); [auto|]. exfalso.
          destruct (Nat.eq_dec k i) as [->|]; [lra|]. assert (nth k f 0 < nth i f 0) by (apply Hinc; lia). lra. }
  destruct HL as (ilow & -> & HL). rewrite bind_Ok.
  assert (HH : exists ihigh, (if nleb (n:=NX) fhigh (Fin (nth 0 f 0)) then Ok 1%nat
       else if nleb (n:=NX) (Fin fl) fhigh then Ok (length f)
       else idx_last (where_ (fun v => nltb (n:=NX) v fhigh) (F f))) = Ok ihigh
     /\ forall k, (1 <= k < length f)%nat -> ((k < ihigh)%nat <->
           ext_le (Fin fl) fhigh \/ ((S k < length f)%nat /\ ext_lt (Fin (nth (S k) f 0)) fhigh))).
  { destruct (leb_case fhigh (Fin (nth 0 f 0))) as [[-> H]|[-> H]].
    - exists 1%nat. split; [reflexivity|]. intros k Hk. split; [lia|].
      assert (nth 0 f 0 < nth k f 0) by (apply Hinc; lia). assert (nth k f 0 <= fl) by (apply Hfl; lia).
      intros [H2|[H2 H3]].
      + destruct fhigh; cbn in *; try tauto; lra.
      + assert (nth 0 f 0 < nth (S k) f 0) by (apply Hinc; lia). destruct fhigh; cbn in *; try tauto; lra.
    - destruct (leb_case (Fin fl) fhigh) as [[-> H']|[-> H']].
      + exists (length f). split; [reflexivity|]. intros k Hk. split; [auto|lia].
      + destruct fhigh as [fh| | |]; cbn in H, H'; try tauto; apply Rnot_le_lt in H; apply Rnot_le_lt in H'.
        destruct (where_last (fun v => nltb (n:=NX) v (Fin fh)) (F f) (Fin 0)) as (i & -> & Hi & Hp & Hq).
        { exists 0%nat. rewrite F_length, F_nth, fin_ltb. split; [auto|]. apply Rltb_true. lra. }
        exists i. split; [reflexivity|]. rewrite F_length in *. rewrite F_nth, fin_ltb in Hp; apply Rltb_T in Hp.
        intros k Hk. cbn. split.
        * intros H1. right. split; [lia|]. destruct (Nat.eq_dec (S k) i) as [->|]; [lra|].
          assert (nth (S k) f 0 < nth i f 0) by (apply Hinc; lia). lra.
        * intros [H1|[H1 H2]]; [lra|]. destruct (Nat.le_gt_cases i k); [|auto]. exfalso.
          specialize (Hq (S k) ltac:(lia)). rewrite F_nth, fin_ltb in Hq; apply Rltb_F in Hq. lra. }
  destruct HH as (ihigh & -> & HH). rewrite bind_Ok.
  exists (fun k => Nat.leb ilow k && Nat.ltb k ihigh). split; [f_equal; apply apply_eq|].
  intros k Hk. rewrite andb_true_iff, Nat.leb_le, Nat.ltb_lt. unfold passed. fold fl. rewrite (HL k Hk). split.
  - intros [(H1 & H2 & H3) H4]. apply HH in H4; [|lia]. tauto.
  - intros (H1 & H2 & H3 & H4). split; [tauto|]. apply HH; auto.
Qed.
(** a NaN limit is an error *)
Theorem C28_nan_limit_rejected (f : list R) (X : list (cpx NX)) (fhigh : xr) : f <> [] ->
  applybandfilter (F f) X NaN fhigh = Raise IndexError.
Proof.
  intros Hne. assert (Hl : (0 < length f)%nat) by (destruct f; [contradiction|cbn; lia]).
  unfold applybandfilter. rewrite idx_F, bind_Ok by auto.
  rewrite (idx_last_nth (F f) (Fin 0)), bind_Ok by (apply F_ne; auto). rewrite F_nth.
  change (nleb (n:=NX) NaN _) with false. change (nleb (n:=NX) (Fin _) NaN) with false.
  rewrite (where_none _ _ (Fin 0)); [reflexivity|]. intros i Hi. rewrite F_nth. reflexivity.
Qed.
(** so the band [flow, fhigh) is not what is passed: the documented meaning fails at the first frequency, at the last
    frequency and just below fhigh *)
Theorem C28_pass_band_refuted :
  ~ (forall (f : list R) (X : list C) (flow fhigh : R) Z, f <> [] -> increasing f -> length X = length f ->
       applybandfilter (F f) (FCs X) (Fin flow) (Fin fhigh) = Ok (FCs Z) ->
       forall k, (k < length f)%nat -> flow <= nth k f 0 < fhigh -> nth k Z (RtoC 0) = nth k X (RtoC 0)).
Proof.
  intros H. set (f := [1; 2; 3; 4]).
  assert (Hi : increasing f).
  { replace f with (axis 1 1 4) by (unfold f; cbn; repeat f_equal; lra). apply axis_increasing. lra. }
  destruct (C28_pass_band f [RtoC 1; RtoC 1; RtoC 1; RtoC 1] (Fin 2) (Fin (7/2))) as (keep & E & K);
    [discriminate|auto|reflexivity|discriminate|discriminate|].
  specialize (H f [RtoC 1; RtoC 1; RtoC 1; RtoC 1] 2 (7/2) _ ltac:(discriminate) Hi eq_refl E 2%nat ltac:(cbn; lia) ltac:(cbn; lra)).
  rewrite map_seq_nth in H by (cbn; lia). destruct (keep 2%nat) eqn:Ek.
  - apply K in Ek; [|cbn; lia]. destruct Ek as (_ & _ & _ & [Ek|[_ Ek]]); cbn in Ek; lra.
  - apply (f_equal fst) in H. cbn in H. lra.
Qed.
Example C28_witness : increasing (axis 0 1 5) /\ passed (axis 0 1 5) (Fin 1) (Fin (7/2)) 2
  /\ ~ passed (axis 0 1 5) (Fin 1) (Fin (7/2)) 3 /\ passed (axis 0 1 5) (Fin 1) PInf 4.
Proof.
  split; [apply axis_increasing; lra|]. unfold passed. cbn. repeat split; try lia; try lra; try (right; split; [lia|lra]); auto;
  try (intros (_ & _ & _ & [H|[_ H]]); lra).
Qed.

(** ** C29 Band-pass filtering of a signal *)

(** In terms of its Fourier coefficients: the filtered signal has the coefficients of the passed frequencies and no
    others (k and n-k are the same frequency). *)
Definition fold_index (n k : nat) : nat := Nat.min k (n - k).

Lemma bandpass_eq t x flow fhigh at_ ax : good_axis t -> length x = length t ->
  holds_vector (F t) at_ -> holds_vector (F x) ax -> flow <> NaN -> fhigh <> NaN ->
  exists (keep : nat -> bool) y, bandpassfilter at_ ax flow fhigh = Ok (F y)
   /\ (forall k, (k < nnyq (length x))%nat -> (keep k = true <-> passed (freqs (dfreq t) (nnyq (length x))) flow fhigh k))
   /\ length y = length x
   /\ forall k, (k < length x)%nat -> coef y k = if keep (fold_index (length x) k) then coef x k else RtoC 0.
Proof.
  intros Hg Hl Ht Hx N1 N2. assert (H2 := proj1 Hg). assert (Hq := nnyq_le (length x) ltac:(lia)).
  assert (Hd := dfreq_pos t Hg). set (n := length x) in *. set (q := nnyq n) in *.
  unfold bandpassfilter. rewrite (nyquist_F t x at_ ax) by auto. fold n q. rewrite bind_Ok.
  destruct (C28_pass_band (freqs (dfreq t) q) (coefs x q) flow fhigh) as (keep & E & K); auto.
  { intros E. apply (f_equal (@length R)) in E. rewrite freqs_length in E. cbn in E. lia. }
  { rewrite freqs_axis. apply axis_increasing. auto. }
  { rewrite coefs_length, freqs_length. reflexivity. }
  rewrite E, bind_Ok. rewrite unfold_FC by (rewrite ?map_length, ?seq_length, ?coefs_length, ?freqs_length; lia).
  rewrite bind_Ok, !freqs_length in *. 
  assert (Tot := nnyq_total n ltac:(lia)). fold q in Tot. rewrite !Tot.
  match goal with |- context [vec (FCs ?u)] => set (U := u) end.
  rewrite (freq2time_FC U) by (try constructor; intros E'; apply (f_equal (@length C)) in E'; unfold U in E'; rewrite map_length, seq_length in E'; cbn in E'; lia).
  assert (LU : length U = n) by (unfold U; rewrite map_length, seq_length; auto). rewrite LU.
  match goal with |- context [Ok (F ?u)] => set (y := u) end.
  assert (Ly : length y = n) by (unfold y; rewrite map_length, seq_length; auto).
  exists keep, y. split; [reflexivity|]. split; [exact K|]. split; [exact Ly|].
  assert (UV : forall k, (k < n)%nat -> nth k U (RtoC 0) = if keep (fold_index n k) then coef x k else RtoC 0).
  { intros k Hk. unfold U. rewrite map_seq_nth by auto. rewrite coefs_length. unfold fold_index.
    assert (Bz : Cconj (RtoC 0) = RtoC 0) by (apply C_eq; cbn; ring).
    destruct (Nat.ltb_spec k (q - 1 + b2n (Nat.odd n))).
    - rewrite map_seq_nth by (destruct (Nat.odd n); cbn in *; lia).
      replace (Nat.min k (n - k)) with k by (destruct (Nat.odd n); cbn in *; lia).
      destruct (keep k); [|reflexivity]. apply coefs_nth. destruct (Nat.odd n); cbn in *; lia.
    - rewrite map_seq_nth by (destruct (Nat.odd n); cbn in *; lia).
      replace (Nat.min k (n - k)) with (n - k)%nat by (destruct (Nat.odd n); cbn in *; lia).
      destruct (keep (n - k)%nat); [|exact Bz]. rewrite coefs_nth by (destruct (Nat.odd n); cbn in *; lia).
      unfold n. rewrite <- coef_hermitian by (unfold n in *; lia). f_equal. unfold n in *. lia. }
  assert (R0 : snd (nth 0 U (RtoC 0)) = 0).
  { rewrite UV by lia. destruct (keep _); [rewrite coef_0|]; reflexivity. }
  assert (HH : forall k, (1 <= k < n)%nat -> nth (n - k) U (RtoC 0) = Cconj (nth k U (RtoC 0))).
  { intros k Hk. rewrite !UV by lia. replace (fold_index n (n - k)) with (fold_index n k) by (unfold fold_index; lia).
    destruct (keep _); [apply coef_hermitian; unfold n in *; lia|apply C_eq; cbn; ring]. }
  intros k Hk. rewrite coef_DF, Ly. rewrite <- UV by auto.
  rewrite <- (DFT_inversion' n (fun j => nth j U (RtoC 0)) k Hk). apply DF_ext. intros j Hj.
  unfold y. rewrite map_seq_nth by auto. apply C_eq; [reflexivity|]. cbn [snd RtoC]. symmetry. apply IDF_real; auto; lia.
Qed.

Lemma fold_lt n k : (2 <= n)%nat -> (k < n)%nat -> (fold_index n k < nnyq n)%nat.
Proof. intros H Hk. unfold fold_index. assert (Tot := nnyq_total n H). unfold b2n in Tot. destruct (Nat.odd _); lia. Qed.

Theorem C29_coefficients (t x : list R) (flow fhigh : xr) (at_ ax : arraylike NX) :
  good_axis t -> length x = length t -> holds_vector (F t) at_ -> holds_vector (F x) ax ->
  flow <> NaN -> fhigh <> NaN ->
  exists y, bandpassfilter at_ ax flow fhigh = Ok (F y) /\ length y = length x
    /\ forall k, (k < length x)%nat ->
         (passed (freqs (dfreq t) (length x / 2 + 1)) flow fhigh (fold_index (length x) k) -> coef y k = coef x k)
         /\ (~ passed (freqs (dfreq t) (length x / 2 + 1)) flow fhigh (fold_index (length x) k) -> coef y k = RtoC 0).
Proof.
  intros Hg Hl Ht Hx N1 N2. destruct (bandpass_eq t x flow fhigh at_ ax) as (keep & y & E & K & Ly & Hc); auto.
  exists y. split; [auto|]. split; [auto|]. intros k Hk. rewrite (Hc k Hk).
  assert (H2 := proj1 Hg). assert (Hb := fold_lt (length x) k ltac:(lia) Hk).
  fold (nnyq (length x)). specialize (K _ Hb). destruct (keep (fold_index (length x) k)); split; intros H; auto.
  - exfalso. apply H, K. auto.
  - apply K in H. discriminate.
Qed.
(** two signals of the same length with the same coefficients are the same *)
Lemma coef_inj x y : length x = length y -> (forall k, (k < length x)%nat -> coef x k = coef y k) -> x = y.
Proof.
  intros Hl H. apply (nth_ext' _ _ 0); auto. intros l Hll.
  assert (E : RtoC (nth l x 0) = RtoC (nth l y 0)).
  { rewrite <- !IDF_coef by lia. rewrite <- Hl. apply IDF_ext. intros k Hk. rewrite !coefs_nth by lia. auto. }
  apply (f_equal fst) in E. exact E.
Qed.
Lemma keep_agree f flow fhigh (k1 k2 : nat -> bool) n :
  (forall k, (k < n)%nat -> (k1 k = true <-> passed f flow fhigh k)) ->
  (forall k, (k < n)%nat -> (k2 k = true <-> passed f flow fhigh k)) ->
  forall k, (k < n)%nat -> k1 k = k2 k.
Proof.
  intros H1 H2 k Hk. specialize (H1 k Hk). specialize (H2 k Hk). destruct (k1 k), (k2 k); auto; exfalso;
  intuition discriminate.
Qed.

(** a x + b y *)
Definition lin (a b : R) (x y : list R) : list R := map2 (fun u v => a * u + b * v) x y.
Theorem C29_linear (t x y : list R) (a b : R) (flow fhigh : xr) (at_ ax ay axy : arraylike NX) :
  good_axis t -> length x = length t -> length y = length t -> flow <> NaN -> fhigh <> NaN ->
  holds_vector (F t) at_ -> holds_vector (F x) ax -> holds_vector (F y) ay -> holds_vector (F (lin a b x y)) axy ->
  exists u v, bandpassfilter at_ ax flow fhigh = Ok (F u) /\ bandpassfilter at_ ay flow fhigh = Ok (F v)
    /\ bandpassfilter at_ axy flow fhigh = Ok (F (lin a b u v)).
Proof.
  intros Hg Lx Ly N1 N2 Ht Hx Hy Hxy. assert (H2 := proj1 Hg).
  assert (Ll : length (lin a b x y) = length t) by (unfold lin; rewrite map2_length; lia).
  destruct (bandpass_eq t x flow fhigh at_ ax) as (k1 & u & E1 & K1 & Lu & C1); auto.
  destruct (bandpass_eq t y flow fhigh at_ ay) as (k2 & v & E2 & K2 & Lv & C2); auto.
  destruct (bandpass_eq t (lin a b x y) flow fhigh at_ axy) as (k3 & w & E3 & K3 & Lw & C3); auto.
  exists u, v. split; [auto|]. split; [auto|]. rewrite E3. do 2 f_equal.
  rewrite Lx in *. rewrite Ly in *. rewrite Ll in *.
  assert (Luv : length (lin a b u v) = length t) by (unfold lin; rewrite map2_length; lia).
  assert (CL : forall p q k, length p = length t -> length q = length t -> coef (lin a b p q) k = (RtoC a * coef p k + RtoC b * coef q k)%C).
  { intros p q k Hp Hq. unfold coef. assert (Lpq : length (lin a b p q) = length t) by (unfold lin; rewrite map2_length; lia).
    rewrite Lpq, Hp, Hq, <- !Csum_scal, <- Csum_plus. apply Csum_ext. intros j Hj.
    unfold lin. rewrite (map2_nth _ _ _ _ 0 0) by lia. rewrite RtoC_plus, !RtoC_mult. ring. }
  apply coef_inj; [lia|]. intros k Hk. rewrite Lw in Hk. rewrite C3, !CL by lia. rewrite C1, C2 by lia.
  assert (Hb := fold_lt _ _ H2 Hk).
  rewrite (keep_agree _ _ _ k1 k3 _ K1 K3) by auto. rewrite (keep_agree _ _ _ k2 k3 _ K2 K3) by auto.
  destruct (k3 _); [reflexivity|]. ring.
Qed.
Theorem C29_idempotent (t x : list R) (flow fhigh : xr) (at_ ax : arraylike NX) :
  good_axis t -> length x = length t -> holds_vector (F t) at_ -> holds_vector (F x) ax -> flow <> NaN -> fhigh <> NaN ->
  exists y, bandpassfilter at_ ax flow fhigh = Ok (F y)
    /\ bandpassfilter at_ (Arr (vec (F y))) flow fhigh = Ok (F y).
Proof.
  intros Hg Lx Ht Hx N1 N2. assert (H2 := proj1 Hg).
  destruct (bandpass_eq t x flow fhigh at_ ax) as (k1 & u & E1 & K1 & Lu & C1); auto.
  destruct (bandpass_eq t u flow fhigh at_ (Arr (vec (F u)))) as (k2 & v & E2 & K2 & Lv & C2); auto; [lia|apply hv_flat|].
  exists u. split; [auto|]. rewrite E2. do 2 f_equal. rewrite Lu in *.
  apply coef_inj; [lia|]. intros k Hk. rewrite Lv in Hk. rewrite C2, C1 by lia.
  assert (Hb := fold_lt (length x) k ltac:(lia) Hk).
  rewrite (keep_agree _ _ _ k1 k2 _ K1 K2) by auto. destruct (k2 _); reflexivity.
Qed.
Theorem C29_zero_mean (t x : list R) (flow fhigh : xr) (at_ ax : arraylike NX) :
  good_axis t -> length x = length t -> holds_vector (F t) at_ -> holds_vector (F x) ax -> flow <> NaN -> fhigh <> NaN ->
  exists y, bandpassfilter at_ ax flow fhigh = Ok (F y) /\ Rmean y = 0.
Proof.
  intros Hg Lx Ht Hx N1 N2. destruct (C29_coefficients t x flow fhigh at_ ax) as (y & E & Ly & Hc); auto.
  assert (H2 := proj1 Hg). exists y. split; [auto|]. specialize (Hc 0%nat ltac:(lia)).
  assert (E0 : coef y 0 = RtoC 0) by (apply (proj2 Hc); intros [H _]; unfold fold_index in H; lia).
  rewrite coef_0 in E0. apply (f_equal fst) in E0. cbn in E0. unfold Rmean. rewrite E0. unfold Rdiv. ring.
Qed.
Theorem C29_energy (t x : list R) (flow fhigh : xr) (at_ ax : arraylike NX) :
  good_axis t -> length x = length t -> holds_vector (F t) at_ -> holds_vector (F x) ax -> flow <> NaN -> fhigh <> NaN ->
  exists y, bandpassfilter at_ ax flow fhigh = Ok (F y)
    /\ Rsum (map (fun v => v ^ 2) y) <= Rsum (map (fun v => v ^ 2) x).
Proof.
  intros Hg Lx Ht Hx N1 N2. destruct (bandpass_eq t x flow fhigh at_ ax) as (keep & y & E & K & Ly & Hc); auto.
  assert (H2 := proj1 Hg). exists y. split; [auto|].
  assert (Px := parseval_R x ltac:(intros ->; cbn in Lx; lia)). assert (Py := parseval_R y ltac:(intros ->; cbn in Ly; lia)).
  rewrite !(Rsum_map_RS _ _ 0). rewrite Ly in *. assert (0 < INR (length x)) by (apply lt_0_INR; lia).
  apply Rmult_le_reg_l with (INR (length x)); auto. rewrite <- Px, <- Py. apply RS_le. intros k Hk. rewrite Hc by auto.
  destruct (keep _); [lra|]. unfold sq. cbn. nra.
Qed.
Example C29_witness : good_axis (axis 0 (1/10) 20) /\ passed (freqs (dfreq (axis 0 (1/10) 20)) (20 / 2 + 1)) (Fin 1) PInf 3.
Proof.
  split; [apply axis_good; [lia|lra]|]. unfold passed. rewrite freqs_length.
  assert (E : dfreq (axis 0 (1/10) 20) = 1 / 2).
  { unfold dfreq. rewrite axis_length. unfold step. rewrite !axis_nth by lia. cbn. field. }
  rewrite E. rewrite !freqs_nth by (cbn; lia). cbn. repeat split; try lia; try lra; left; auto.
Qed.
