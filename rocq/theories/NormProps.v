(** * C92: Hm0 is a norm of the signal, so that a disturbance changes it by at most the Hm0 of the disturbance *)

From Coq Require Import Reals ZArith String List Bool Lra Lia Psatz.
From Coquelicot Require Import Complex.
From Verif Require Import Num XR Spec XRFacts Engine EngineProps RSum Cpx SpectralModel WaveModel SpectrumModel SeriesModel TimeModel TimeProps TimeProps2 SeriesProps DFT FourierSpec FourierFacts FourierProps
  AvgProps DensityProps SimpsonFacts MomentProps PeakProps ParamProps GetterProps SpecSym HeightProps.
Import ListNotations.
Open Scope R_scope.

(** the sum of two signals, sample by sample *)
Definition plus_signal (x y : list R) : list R := map2 Rplus x y.

(** ** From the record to its spectrum *)
Lemma series_fields (t x : list R) (at_ ax : arraylike NX) (se : series NX) : t <> [] -> x <> [] ->
  holds_vector (F t) at_ -> holds_vector (F x) ax -> series_init (N:=NX) at_ ax = Ok se -> se_t se = F t /\ se_x se = F x /\ length x = length t.
Proof.
  intros Nt Nx Ht Hx H. assert (Nt' : F t <> []) by (destruct t; [contradiction|discriminate]). assert (Nx' : F x <> []) by (destruct x; [contradiction|discriminate]).
  destruct (@hv_convert (car NX) (F t) at_ Nt' Ht) as (kt & _ & Et).
  destruct (@hv_convert (car NX) (F x) ax Nx' Hx) as (kx & _ & Ex).
  unfold series_init in H. rewrite Et, Ex in H. cbn [fst snd] in H. rewrite !F_length in H.
  destruct (Nat.eqb_spec (length t) (length x)) as [L|]; cbn [negb] in H; [|discriminate H].
  rewrite !as_list_vec, bind_Ok in H. destruct (negb _); [discriminate H|]. rewrite bind_Ok in H.
  apply bind_inv in H. destruct H as ([[ws tc] q] & _ & H). apply Ok_inj in H. subst se. cbn. auto.
Qed.
Definition avg_axis (t : list R) (r : nat) : list R := axis (INR (r - 1) / 2 * dfreq t) (INR r * dfreq t) (nnyq (length t) / r).
Definition avg_density (t x : list R) (r : nat) : list R := map (fun i => RS r (fun j => periodogram (step t) x (i * r + j)) / INR r) (seq 0 (nnyq (length t) / r)).
Lemma avg_density_length t x r : length (avg_density t x r) = (nnyq (length t) / r)%nat.
Proof. unfold avg_density. rewrite map_length, seq_length. reflexivity. Qed.
Lemma avg_density_nth t x r i : (i < nnyq (length t) / r)%nat -> nth i (avg_density t x r) 0 = RS r (fun j => periodogram (step t) x (i * r + j)) / INR r.
Proof. intros Hi. unfold avg_density. rewrite map_seq_nth by exact Hi. reflexivity. Qed.

Lemma density_form (t x : list R) (df : R) : good_axis t -> length x = length t ->
  exists r, averaging_factor (freqs (dfreq t) (nnyq (length t))) df r /\ (1 <= r)%nat
    /\ compute_spectrum_time_series (N:=NX) (Arr (vec (F t))) (Arr (vec (F x))) (Fin df) = Ok (F (avg_axis t r), F (avg_density t x r)).
Proof.
  intros Hg Hl. assert (H2 := proj1 Hg). assert (Hq := nnyq_le (length x) ltac:(lia)). assert (Hd := dfreq_pos t Hg).
  destruct (C58_density t x df _ _ Hg Hl (hv_flat _) (hv_flat _)) as (r & f & S & A & Hr & E & L1 & L2 & V).
  assert (Ed : dfreq t = / (INR (length x) * step t)) by (unfold dfreq; rewrite Hl; reflexivity). rewrite <- Ed in *.
  change (length x / 2 + 1)%nat with (nnyq (length x)) in *.
  assert (Eb := E). rewrite (spectrum_eq t x) in Eb by (auto using hv_flat).
  destruct (C24_uniform_axis 0 (dfreq t) df (fine_density t x) (Arr (vec (F (fine_density t x)))) ltac:(rewrite fine_length; lia) Hd (hv_flat _)) as (r' & fc & sc & A' & E' & Ef).
  rewrite fine_length in A', E', Ef. rewrite <- freqs_axis in A', E'. assert (r' = r) as -> by (eapply averaging_unique; eauto).
  rewrite E' in Eb. apply Ok_inj in Eb. injection Eb as Eb1 Eb2. apply F_inj in Eb1. subst fc.
  exists r. rewrite Hl in *. split; [exact A|]. split; [exact Hr|]. rewrite E. do 3 f_equal.
  - rewrite Ef. unfold avg_axis. f_equal. ring.
  - apply (nth_ext' _ _ 0); [rewrite avg_density_length; exact L2|]. intros i Hi. rewrite L2 in Hi. rewrite (proj2 (V i Hi)), avg_density_nth by exact Hi.
    unfold Rmean, RS. rewrite map_length, seq_length. reflexivity.
Qed.

(** a spectrum object exists only when at least two bins are left *)
Lemma raw_form (t x : list R) (at_ ax : arraylike NX) (df : R) (s : series NX) (p : spec NX) : good_axis t -> x <> [] -> holds_vector (F t) at_ -> holds_vector (F x) ax ->
  series_init (N:=NX) at_ ax = Ok s -> series_spectrum_raw (N:=NX) s (Fin df) = Ok p ->
  exists r, averaging_factor (freqs (dfreq t) (nnyq (length t))) df r /\ (1 <= r)%nat /\ (2 <= nnyq (length t) / r)%nat /\ p = fresh (N:=NX) (F (avg_axis t r)) (F (avg_density t x r)).
Proof.
  intros Hg Nx Ht Hx Hs Hp. assert (H2 := proj1 Hg). assert (Nt : t <> []) by (destruct t; [cbn in H2; lia|discriminate]).
  destruct (series_fields t x at_ ax s Nt Nx Ht Hx Hs) as (Et & Ex & Hl). unfold series_spectrum_raw in Hp. rewrite Et, Ex in Hp.
  destruct (density_form t x df Hg Hl) as (r & A & Hr & E). rewrite E, bind_Ok in Hp. exists r. split; [exact A|]. split; [exact Hr|].
  assert (La : length (avg_axis t r) = (nnyq (length t) / r)%nat) by apply axis_length.
  assert (L2 : (2 <= nnyq (length t) / r)%nat).
  { destruct (le_lt_dec 2 (nnyq (length t) / r)) as [|Lt]; [assumption|exfalso]. unfold spectrum_init in Hp.
    assert (Ls := avg_density_length t x r). rewrite <- La in Ls. rewrite <- La in Lt. clear - Hp Ls Lt.
    destruct (avg_axis t r) as [|a [|b l]]; [| |cbn in Lt; lia]; destruct (avg_density t x r) as [|c [|d l']]; cbn in Ls; try lia; cbn in Hp; discriminate Hp. }
  split; [exact L2|]. rewrite (proj1 (C63_object (avg_axis t r) (avg_density t x r) _ _ ltac:(lia) ltac:(intros Q; apply (f_equal (@length R)) in Q; rewrite avg_density_length in Q; cbn [length] in Q; lia) (hv_flat _) (hv_flat _))) in Hp.
  - apply Ok_inj in Hp. congruence.
  - apply axis_good; [lia|]. apply Rmult_lt_0_compat; [apply lt_0_INR; lia|apply dfreq_pos, Hg].
  - rewrite avg_density_length, La. reflexivity.
Qed.
Lemma raw_returned (t x : list R) (at_ ax : arraylike NX) (df : R) (s : series NX) (r : nat) : good_axis t -> x <> [] -> holds_vector (F t) at_ -> holds_vector (F x) ax ->
  series_init (N:=NX) at_ ax = Ok s ->
  averaging_factor (freqs (dfreq t) (nnyq (length t))) df r -> (2 <= nnyq (length t) / r)%nat ->
  series_spectrum_raw (N:=NX) s (Fin df) = Ok (fresh (N:=NX) (F (avg_axis t r)) (F (avg_density t x r))).
Proof.
  intros Hg Nx Ht Hx Hs A L2. assert (H2 := proj1 Hg). assert (Nt : t <> []) by (destruct t; [cbn in H2; lia|discriminate]).
  destruct (series_fields t x at_ ax s Nt Nx Ht Hx Hs) as (Et & Ex & Hl). unfold series_spectrum_raw. rewrite Et, Ex.
  destruct (density_form t x df Hg Hl) as (r' & A' & Hr & E). assert (r' = r) as -> by (eapply averaging_unique; eauto). rewrite E, bind_Ok.
  assert (La : length (avg_axis t r) = (nnyq (length t) / r)%nat) by apply axis_length.
  apply (C63_object (avg_axis t r) (avg_density t x r) _ _ ltac:(lia) ltac:(intros Q; apply (f_equal (@length R)) in Q; rewrite avg_density_length in Q; cbn [length] in Q; lia) (hv_flat _) (hv_flat _)).
  - apply axis_good; [lia|]. apply Rmult_lt_0_compat; [apply lt_0_INR; lia|apply dfreq_pos, Hg].
  - rewrite avg_density_length, La. reflexivity.
Qed.

(** ** The inequality *)
Definition young (a b c : R) : Prop := forall l, 0 < l -> c <= (1 + l) * a + (1 + / l) * b.
Lemma young_root a b c : 0 <= a -> 0 <= b -> 0 <= c -> young a b c -> sqrt c <= sqrt a + sqrt b.
Proof.
  intros Ha Hb Hc H. apply le_epsilon. intros e He. assert (Sa := sqrt_pos a). assert (Sb := sqrt_pos b).
  set (A := sqrt a + e / 2). set (B := sqrt b + e / 2). assert (PA : 0 < A) by (unfold A; lra). assert (PB : 0 < B) by (unfold B; lra).
  assert (a <= A ^ 2) by (unfold A; rewrite <- (sqrt_sqrt a Ha) at 1; nra). assert (b <= B ^ 2) by (unfold B; rewrite <- (sqrt_sqrt b Hb) at 1; nra).
  assert (Q := H (B / A) ltac:(apply Rdiv_lt_0_compat; auto)).
  assert (BA : 0 < B / A) by (apply Rdiv_lt_0_compat; auto). assert (AB : 0 < / (B / A)) by (apply Rinv_0_lt_compat; auto).
  assert (Q2 : (1 + B / A) * a <= (1 + B / A) * A ^ 2) by (apply Rmult_le_compat_l; lra).
  assert (Q3 : (1 + / (B / A)) * b <= (1 + / (B / A)) * B ^ 2) by (apply Rmult_le_compat_l; lra).
  assert (Q4 : (1 + B / A) * A ^ 2 + (1 + / (B / A)) * B ^ 2 = (A + B) ^ 2) by (field; lra).
  replace (sqrt a + sqrt b + e) with (A + B) by (unfold A, B; field). rewrite <- (sqrt_pow2 (A + B)) by lra. apply sqrt_le_1; [exact Hc|apply pow2_ge_0|lra].
Qed.
Lemma young_sq p q w : 0 <= p -> 0 <= q -> 0 <= w <= p + q -> young (p ^ 2) (q ^ 2) (w ^ 2).
Proof.
  intros Hp Hq Hw l Hl. apply Rle_trans with ((p + q) ^ 2); [apply pow_incr; exact Hw|].
  assert (E : (1 + l) * p ^ 2 + (1 + / l) * q ^ 2 - (p + q) ^ 2 = / l * (l * p - q) ^ 2) by (field; lra).
  assert (0 <= / l * (l * p - q) ^ 2) by (apply Rmult_le_pos; [left; apply Rinv_0_lt_compat; exact Hl|apply pow2_ge_0]). lra.
Qed.
Lemma young_scal k a b c : 0 <= k -> young a b c -> young (k * a) (k * b) (k * c).
Proof. intros Hk H l Hl. specialize (H l Hl). assert (k * c <= k * ((1 + l) * a + (1 + / l) * b)) by (apply Rmult_le_compat_l; auto). lra. Qed.
Lemma young_RS n a b c : (forall k, (k < n)%nat -> young (a k) (b k) (c k)) -> young (RS n a) (RS n b) (RS n c).
Proof. intros H l Hl. rewrite <- !RS_scal, <- RS_plus. apply RS_le. intros k Hk. apply H; auto. Qed.

(** the densities of a sum of signals *)
Lemma periodogram_nonneg dt x k : 0 < dt -> (0 < length x)%nat -> 0 <= periodogram dt x k.
Proof. intros Hd Hn. unfold periodogram. apply Rmult_le_pos; [|apply pow2_ge_0]. apply Rmult_le_pos; [lra|]. left. apply Rinv_0_lt_compat, lt_0_INR, Hn. Qed.
Lemma avg_nonneg t x r i : good_axis t -> length x = length t -> (1 <= r)%nat -> (i < length (avg_density t x r))%nat -> 0 <= nth i (avg_density t x r) 0.
Proof.
  intros Hg Hl Hr Hi. rewrite avg_density_length in Hi. rewrite avg_density_nth by exact Hi. assert (H2 := proj1 Hg).
  apply Rmult_le_pos; [apply RS_nonneg; intros; apply periodogram_nonneg; [apply good_step, Hg|lia]|left; apply Rinv_0_lt_compat, lt_0_INR; lia].
Qed.
Lemma avg_young t x y z r i : good_axis t -> length x = length t -> length y = length t -> length z = length t -> (1 <= r)%nat ->
  (forall k, Cmod (coef z k) <= Cmod (coef x k) + Cmod (coef y k)) -> (i < nnyq (length t) / r)%nat ->
  young (nth i (avg_density t x r) 0) (nth i (avg_density t y r) 0) (nth i (avg_density t z r) 0).
Proof.
  intros Hg Lx Ly Lz Hr H Hi. rewrite !avg_density_nth by exact Hi. assert (H2 := proj1 Hg). assert (Hd := good_step t Hg).
  assert (K : forall a, a / INR r = / INR r * a) by (intros; unfold Rdiv; ring). rewrite !K. apply young_scal; [left; apply Rinv_0_lt_compat, lt_0_INR; lia|].
  apply young_RS. intros k _. unfold periodogram. rewrite Lx, Ly, Lz. apply young_scal.
  - apply Rmult_le_pos; [lra|]. left. apply Rinv_0_lt_compat, lt_0_INR. lia.
  - apply young_sq; [apply Cmod_ge_0|apply Cmod_ge_0|]. split; [apply Cmod_ge_0|apply H].
Qed.
Lemma coef_plus x y k : length x = length y -> coef (plus_signal x y) k = (coef x k + coef y k)%C.
Proof.
  intros L. assert (E : plus_signal x y = map2 (fun u v => 1 * u + 1 * v) x y).
  { unfold plus_signal. clear. revert y. induction x as [|a x IH]; intros [|b y]; try reflexivity. cbn [map2]. rewrite IH. f_equal. ring. }
  rewrite E, coef_linear by exact L. unfold Cplus, Cmult, RtoC. apply injective_projections; cbn; ring.
Qed.
Lemma Cmod_minus_le (a b : C) : Cmod a <= Cmod (a + b)%C + Cmod b.
Proof. replace a with ((a + b) + (- b))%C at 1 by (unfold Cplus, Copp; apply injective_projections; cbn; ring). eapply Rle_trans; [apply Cmod_triangle|]. rewrite Cmod_opp. lra. Qed.

(** moments respect the inequality *)
Lemma moment_young (f0 df : R) (s1 s2 s3 : list R) (fmin fmax v1 v2 v3 : R) (n : nat) :
  0 <= f0 -> 0 < df -> (2 <= n)%nat -> length s1 = n -> length s2 = n -> length s3 = n ->
  (forall k, (k < n)%nat -> young (nth k s1 0) (nth k s2 0) (nth k s3 0)) ->
  let f := axis f0 df n in fmin <= fmax <= last_of f ->
  moment f s1 0 (Fin fmin) (Fin fmax) = Ok (Fin v1) -> moment f s2 0 (Fin fmin) (Fin fmax) = Ok (Fin v2) -> moment f s3 0 (Fin fmin) (Fin fmax) = Ok (Fin v3) ->
  young v1 v2 v3.
Proof.
  intros H0 Hd Hn L1 L2 L3 Hy f Hlim M1 M2 M3 l Hl. assert (Hf : freq_axis f) by (apply axis_freq; auto). assert (Lf : length f = n) by apply axis_length.
  set (c := map2 (fun x y => (1 + l) * x + (1 + / l) * y) s1 s2).
  assert (Lc : length c = n) by (unfold c; rewrite map2_length, L1, L2, Nat.min_id; reflexivity).
  assert (Mc := C32_linear f s1 s2 0 (1 + l) (1 + / l) (Fin fmin) (Fin fmax) v1 v2 Hf ltac:(congruence) ltac:(congruence) M1 M2). fold c in Mc.
  set (d := map2 (fun x y => 1 * x + -1 * y) c s3).
  assert (Ld : length d = n) by (unfold d; rewrite map2_length, Lc, L3, Nat.min_id; reflexivity).
  assert (Md := C32_linear f c s3 0 1 (-1) (Fin fmin) (Fin fmax) _ v3 Hf ltac:(congruence) ltac:(congruence) Mc M3). fold d in Md.
  destruct (C32_nonneg f0 df d 0 fmin fmax H0 Hd ltac:(lia)) as (v & Ev & Pv).
  - intros k Hk. rewrite Ld in Hk. unfold d. rewrite (map2_nth _ c s3 k 0 0 0) by lia. unfold c. rewrite (map2_nth _ s1 s2 k 0 0 0) by lia.
    assert (Q := Hy k Hk l Hl). lra.
  - rewrite Ld. fold f. auto.
  - rewrite Ld in Ev. fold f in Ev. rewrite Md in Ev. apply Ok_inj, fin_inj in Ev. lra.
Qed.

(** Hm0 of an averaged spectrum *)
Lemma height_value (t x : list R) (r : nat) (fmin fmax lo hi : R) : good_axis t -> length x = length t -> (1 <= r)%nat -> (2 <= nnyq (length t) / r)%nat ->
  lower_limit (avg_axis t r) (Fin fmin) (Fin lo) -> upper_limit (avg_axis t r) (Fin fmax) (Fin hi) -> lo <= hi <= last_of (avg_axis t r) ->
  exists v, 0 <= v /\ moment (avg_axis t r) (avg_density t x r) 0 (Fin lo) (Fin hi) = Ok (Fin v)
    /\ snd (get_Hm0 (N:=NX) (Fin fmin) (Fin fmax) (fresh (N:=NX) (F (avg_axis t r)) (F (avg_density t x r)))) = Ok (Fin (4 * sqrt v)).
Proof.
  intros Hg Hl Hr H2 Hlo Hhi Hlim. assert (Ls := avg_density_length t x r). assert (Hd := dfreq_pos t Hg). assert (Pr : 1 <= INR r) by (apply (le_INR 1); lia).
  assert (P0 : 0 <= INR (r - 1) / 2 * dfreq t) by (apply Rmult_le_pos; [|lra]; assert (0 <= INR (r - 1)) by apply pos_INR; lra).
  destruct (C32_nonneg (INR (r - 1) / 2 * dfreq t) (INR r * dfreq t) (avg_density t x r) 0 lo hi P0 ltac:(nra) ltac:(lia)) as (v & Ev & Pv).
  - intros k Hk. apply avg_nonneg; auto.
  - rewrite Ls. fold (avg_axis t r). auto.
  - rewrite Ls in Ev. fold (avg_axis t r) in Ev. exists v. split; [exact Pv|]. split; [exact Ev|].
    assert (Ne : avg_axis t r <> []) by (intros Q; apply (f_equal (@length R)) in Q; unfold avg_axis in Q; rewrite axis_length in Q; cbn [length] in Q; lia).
    unfold get_Hm0. rewrite (getter_value _ _ (Fin fmin) (Fin fmax) _ (avg_axis t r) (avg_density t x r)) by reflexivity.
    unfold v_Hm0. rewrite (set_flim_F (avg_axis t r) (Fin fmin) (Fin fmax) (Fin lo) (Fin hi)) by auto. rewrite bind_Ok. unfold v_moment. rewrite Ev, bind_Ok.
    rewrite fin_sqrt, fin_ofZ, fin_mul by auto. reflexivity.
Qed.

(** (a) the square root of the density of a sum is at most the sum of the square roots, bin by bin *)
Theorem C92_density (t x y : list R) (df : R) (at_ ax ay az : arraylike NX) (sx sy sz : series NX) (px : spec NX) :
  good_axis t -> x <> [] -> y <> [] ->
  holds_vector (F t) at_ -> holds_vector (F x) ax -> holds_vector (F y) ay -> holds_vector (F (plus_signal x y)) az ->
  series_init at_ ax = Ok sx -> series_init at_ ay = Ok sy -> series_init at_ az = Ok sz ->
  series_spectrum_raw (N:=NX) sx (Fin df) = Ok px ->
  exists f a b c py pz, series_spectrum_raw (N:=NX) sy (Fin df) = Ok py /\ series_spectrum_raw (N:=NX) sz (Fin df) = Ok pz
    /\ s_f px = F f /\ s_f py = F f /\ s_f pz = F f /\ s_S px = F a /\ s_S py = F b /\ s_S pz = F c
    /\ length a = length f /\ length b = length f /\ length c = length f
    /\ forall k, (k < length f)%nat -> 0 <= nth k a 0 /\ 0 <= nth k b 0 /\ 0 <= nth k c 0
         /\ sqrt (nth k c 0) <= sqrt (nth k a 0) + sqrt (nth k b 0) /\ sqrt (nth k a 0) <= sqrt (nth k c 0) + sqrt (nth k b 0).
Proof.
  intros Hg Nx Ny Vt Vx Vy Vz Hx Hy Hz Hp. assert (H2 := proj1 Hg). assert (Nt : t <> []) by (destruct t; [cbn in H2; lia|discriminate]).
  destruct (series_fields t x at_ ax sx Nt Nx Vt Vx Hx) as (_ & _ & Lx). destruct (series_fields t y at_ ay sy Nt Ny Vt Vy Hy) as (_ & _ & Ly).
  assert (Lz : length (plus_signal x y) = length t) by (unfold plus_signal; rewrite map2_length, Lx, Ly, Nat.min_id; reflexivity).
  assert (Nz : plus_signal x y <> []) by (intros Q; rewrite Q in Lz; cbn in Lz; lia).
  destruct (raw_form t x at_ ax df sx px Hg Nx Vt Vx Hx Hp) as (r & A & Hr & L2 & ->).
  exists (avg_axis t r), (avg_density t x r), (avg_density t y r), (avg_density t (plus_signal x y) r). eexists _, _.
  split; [apply (raw_returned t y at_ ay df sy r Hg Ny Vt Vy Hy A L2)|]. split; [apply (raw_returned t (plus_signal x y) at_ az df sz r Hg Nz Vt Vz Hz A L2)|].
  do 6 (split; [reflexivity|]). assert (La : length (avg_axis t r) = (nnyq (length t) / r)%nat) by apply axis_length. rewrite La, !avg_density_length.
  do 3 (split; [reflexivity|]). intros k Hk.
  assert (P : forall v, length v = length t -> 0 <= nth k (avg_density t v r) 0) by (intros v Lv; apply avg_nonneg; auto; rewrite avg_density_length; exact Hk).
  split; [apply P; auto|]. split; [apply P; auto|]. split; [apply P; auto|]. split; (apply young_root; [apply P; auto|apply P; auto|apply P; auto|]).
  - apply avg_young; auto. intros i. rewrite coef_plus by congruence. apply Cmod_triangle.
  - apply avg_young; auto. intros i. rewrite coef_plus by congruence. apply Cmod_minus_le.
Qed.

(** (b) Hm0 obeys the triangle inequality, for every frequency averaging and all limits inside the axis *)
Theorem C92_height (t x y : list R) (df fmin fmax lo hi : R) (at_ ax ay az : arraylike NX) (sx sy sz : series NX) (px : spec NX) (f : list R) :
  good_axis t -> x <> [] -> y <> [] ->
  holds_vector (F t) at_ -> holds_vector (F x) ax -> holds_vector (F y) ay -> holds_vector (F (plus_signal x y)) az ->
  series_init at_ ax = Ok sx -> series_init at_ ay = Ok sy -> series_init at_ az = Ok sz ->
  series_spectrum_raw (N:=NX) sx (Fin df) = Ok px -> s_f px = F f ->
  lower_limit f (Fin fmin) (Fin lo) -> upper_limit f (Fin fmax) (Fin hi) -> lo <= hi <= last_of f ->
  exists py pz hx hy hz, series_spectrum_raw (N:=NX) sy (Fin df) = Ok py /\ series_spectrum_raw (N:=NX) sz (Fin df) = Ok pz
    /\ snd (get_Hm0 (Fin fmin) (Fin fmax) px) = Ok (Fin hx) /\ snd (get_Hm0 (Fin fmin) (Fin fmax) py) = Ok (Fin hy) /\ snd (get_Hm0 (Fin fmin) (Fin fmax) pz) = Ok (Fin hz)
    /\ 0 <= hx /\ 0 <= hy /\ 0 <= hz /\ hz <= hx + hy /\ Rabs (hz - hx) <= hy.
Proof.
  intros Hg Nx Ny Vt Vx Vy Vz Hx Hy Hz Hp Ef Hlo Hhi Hlim. assert (H2 := proj1 Hg). assert (Nt : t <> []) by (destruct t; [cbn in H2; lia|discriminate]).
  destruct (series_fields t x at_ ax sx Nt Nx Vt Vx Hx) as (_ & _ & Lx). destruct (series_fields t y at_ ay sy Nt Ny Vt Vy Hy) as (_ & _ & Ly).
  assert (Lz : length (plus_signal x y) = length t) by (unfold plus_signal; rewrite map2_length, Lx, Ly, Nat.min_id; reflexivity).
  assert (Nz : plus_signal x y <> []) by (intros Q; rewrite Q in Lz; cbn in Lz; lia).
  destruct (raw_form t x at_ ax df sx px Hg Nx Vt Vx Hx Hp) as (r & A & Hr & L2 & ->). cbn [s_f fresh] in Ef. apply F_inj in Ef. subst f.
  destruct (height_value t x r fmin fmax lo hi Hg Lx Hr L2 Hlo Hhi Hlim) as (v1 & P1 & M1 & E1).
  destruct (height_value t y r fmin fmax lo hi Hg Ly Hr L2 Hlo Hhi Hlim) as (v2 & P2 & M2 & E2).
  destruct (height_value t (plus_signal x y) r fmin fmax lo hi Hg Lz Hr L2 Hlo Hhi Hlim) as (v3 & P3 & M3 & E3).
  eexists _, _, (4 * sqrt v1), (4 * sqrt v2), (4 * sqrt v3).
  split; [apply (raw_returned t y at_ ay df sy r Hg Ny Vt Vy Hy A L2)|]. split; [apply (raw_returned t (plus_signal x y) at_ az df sz r Hg Nz Vt Vz Hz A L2)|].
  split; [exact E1|]. split; [exact E2|]. split; [exact E3|].
  assert (S1 := sqrt_pos v1). assert (S2 := sqrt_pos v2). assert (S3 := sqrt_pos v3). do 3 (split; [lra|]).
  assert (Hd := dfreq_pos t Hg). assert (Pr : 1 <= INR r) by (apply (le_INR 1); lia).
  assert (P0 : 0 <= INR (r - 1) / 2 * dfreq t) by (apply Rmult_le_pos; [|lra]; assert (0 <= INR (r - 1)) by apply pos_INR; lra).
  assert (Y1 : young v1 v2 v3).
  { eapply (moment_young (INR (r - 1) / 2 * dfreq t) (INR r * dfreq t) (avg_density t x r) (avg_density t y r) (avg_density t (plus_signal x y) r) lo hi v1 v2 v3 (nnyq (length t) / r)); auto using avg_density_length; [nra|].
    intros k Hk. apply avg_young; auto. intros i. rewrite coef_plus by congruence. apply Cmod_triangle. }
  assert (Y2 : young v3 v2 v1).
  { eapply (moment_young (INR (r - 1) / 2 * dfreq t) (INR r * dfreq t) (avg_density t (plus_signal x y) r) (avg_density t y r) (avg_density t x r) lo hi v3 v2 v1 (nnyq (length t) / r)); auto using avg_density_length; [nra|].
    intros k Hk. apply avg_young; auto. intros i. rewrite coef_plus by congruence. apply Cmod_minus_le. }
  apply young_root in Y1; auto. apply young_root in Y2; auto. split; [lra|]. apply Rabs_le. lra.
Qed.

(** (c) additive noise: with the defaults and on a uniform axis, Hm0 moves by at most 4 sqrt(4/3 var + 2/3 mean^2) of the noise, and so by less than 4.62 times its largest value *)
Theorem C92_noise (t0 dt : R) (x e : list R) (at_ ax az : arraylike NX) :
  0 < dt -> (4 <= length x)%nat -> length e = length x ->
  holds_vector (F (axis t0 dt (length x))) at_ -> holds_vector (F x) ax -> holds_vector (F (plus_signal x e)) az ->
  exists sx sz px pz hx hz, series_init at_ ax = Ok sx /\ series_init at_ az = Ok sz
    /\ series_spectrum_raw (N:=NX) sx (Fin 0) = Ok px /\ series_spectrum_raw (N:=NX) sz (Fin 0) = Ok pz
    /\ snd (get_Hm0 (Fin (-1)) (Fin (-1)) px) = Ok (Fin hx) /\ snd (get_Hm0 (Fin (-1)) (Fin (-1)) pz) = Ok (Fin hz)
    /\ Rabs (hz - hx) <= 4 * sqrt (4 / 3 * Rvar e + 2 / 3 * Rmean e ^ 2)
    /\ forall eps, (forall v, In v e -> Rabs v <= eps) -> Rabs (hz - hx) <= 4 * sqrt (4 / 3) * eps.
Proof.
  intros Hdt H4 Le Vt Vx Vz. set (t := axis t0 dt (length x)) in *. assert (Lt : length t = length x) by apply axis_length.
  assert (Hg : good_axis t) by (apply axis_good; auto; lia). assert (Nx : x <> []) by (destruct x; [cbn in H4; lia|discriminate]). assert (Ne : e <> []) by (destruct e; [rewrite <- Le in H4; cbn in H4; lia|discriminate]).
  assert (Lz : length (plus_signal x e) = length x) by (unfold plus_signal; rewrite map2_length, Le, Nat.min_id; reflexivity).
  destruct (record_spectrum t0 dt x at_ ax Hdt ltac:(lia) Vt Vx) as (sx & Ex & Px).
  assert (Vte := Vt). unfold t in Vte. rewrite <- Le in Vte. destruct (C69_record t0 dt e at_ (Arr (vec (F e))) Hdt ltac:(lia) Vte (hv_flat _)) as (se & pe & he & Ee & Pe & He & Pos & _ & Bnd).
  assert (Vtz := Vt). unfold t in Vtz. rewrite <- Lz in Vtz. destruct (record_spectrum t0 dt (plus_signal x e) at_ az Hdt ltac:(lia) Vtz Vz) as (sz & Ez & Pz).
  fold t in Px. rewrite Lz in Pz. fold t in Pz. set (f := freqs (dfreq t) (nnyq (length x))) in *. assert (Hd := dfreq_pos t Hg). assert (Hn := nnyq_le (length x) ltac:(lia)).
  assert (Hq : (2 <= nnyq (length x))%nat) by (unfold nnyq; assert (Q := Nat.div_le_mono 2 (length x) 2 ltac:(lia) ltac:(lia)); change (2 / 2)%nat with 1%nat in Q; lia).
  assert (Ff : freq_axis f) by (unfold f; rewrite freqs_axis; apply axis_freq; auto; lra).
  assert (Lf : length f = nnyq (length x)) by (unfold f; rewrite freqs_axis; apply axis_length).
  assert (L0 : nth 0 f 0 <= last_of f <= last_of f).
  { split; [|lra]. unfold last_of. rewrite Lf. unfold f. rewrite freqs_axis, !axis_nth by lia. assert (0 <= INR (nnyq (length x) - 1)) by apply pos_INR. change (INR 0) with 0. nra. }
  destruct (C92_height t x e 0 (-1) (-1) (nth 0 f 0) (last_of f) at_ ax (Arr (vec (F e))) az sx se sz _ f Hg Nx Ne Vt Vx (hv_flat _) Vz Ex Ee Ez Px eq_refl ltac:(left; auto) ltac:(left; auto) L0) as (py & pz & hx & hy & hz & Ey & Ez' & Gx & Gy & Gz & P1 & P2 & P3 & _ & D).
  rewrite Pe in Ey. apply Ok_inj in Ey. subst py. rewrite He in Gy. apply Ok_inj, fin_inj in Gy. subst hy.
  assert (E1 : Rabs (hz - hx) <= 4 * sqrt (4 / 3 * Rvar e + 2 / 3 * Rmean e ^ 2)).
  { eapply Rle_trans; [exact D|]. assert (V0 : 0 <= 4 / 3 * Rvar e + 2 / 3 * Rmean e ^ 2) by (assert (0 <= he ^ 2) by apply pow2_ge_0; lra).
    apply Rsqr_incr_0_var; [|assert (Q := sqrt_pos (4 / 3 * Rvar e + 2 / 3 * Rmean e ^ 2)); lra]. unfold Rsqr.
    replace (4 * sqrt (4 / 3 * Rvar e + 2 / 3 * Rmean e ^ 2) * (4 * sqrt (4 / 3 * Rvar e + 2 / 3 * Rmean e ^ 2))) with (16 * (sqrt (4 / 3 * Rvar e + 2 / 3 * Rmean e ^ 2) * sqrt (4 / 3 * Rvar e + 2 / 3 * Rmean e ^ 2))) by ring.
    rewrite sqrt_sqrt by exact V0. lra. }
  exists sx, sz. eexists _, pz, hx, hz. repeat (split; [eassumption|]). intros eps Heps. eapply Rle_trans; [exact E1|].
  assert (Hlen : 0 < INR (length e)) by (apply lt_0_INR; lia).
  assert (P : 0 <= eps) by (destruct e as [|v e']; [contradiction|]; eapply Rle_trans; [apply Rabs_pos|apply (Heps v); left; reflexivity]).
  assert (Sq : Rmean (map (fun v => v * v) e) <= eps * eps).
  { unfold Rmean. rewrite map_length. apply Rmult_le_reg_r with (INR (length e)); [exact Hlen|]. unfold Rdiv. rewrite Rmult_assoc, Rinv_l, Rmult_1_r by lra.
    clear - Heps. induction e as [|v e IH]; [cbn; lra|]. cbn [map Rsum length]. rewrite S_INR. assert (IH' := IH ltac:(intros; apply Heps; right; auto)).
    assert (Q := Heps v (or_introl eq_refl)). assert (v * v <= eps * eps) by (assert (Q1 := Rle_abs v); assert (Q2 := Rle_abs (- v)); rewrite Rabs_Ropp in Q2; nra). unfold Rsum in *; cbn in *. lra. }
  assert (Vr : Rvar e = Rmean (map (fun v => v * v) e) - Rmean e ^ 2).
  { unfold Rvar. set (m := Rmean e). assert (Q : forall l, Rsum (map (fun v => (v - m) * (v - m)) l) = Rsum (map (fun v => v * v) l) - 2 * m * Rsum l + INR (length l) * m ^ 2).
    { induction l as [|v l IH]; [cbn; ring|]. cbn [length]. rewrite S_INR. unfold Rsum in *. cbn in *. rewrite IH. ring. }
    unfold Rmean at 1 2. rewrite !map_length, Q. assert (Em : Rsum e = m * INR (length e)) by (unfold m, Rmean; field; lra). rewrite Em. field. lra. }
  replace (4 * sqrt (4 / 3) * eps) with (4 * (sqrt (4 / 3) * sqrt (eps * eps))) by (rewrite sqrt_square by exact P; ring).
  rewrite <- sqrt_mult by nra. apply Rmult_le_compat_l; [lra|]. apply sqrt_le_1_alt. rewrite Vr. assert (0 <= Rmean e ^ 2) by apply pow2_ge_0. lra.
Qed.

(** (d) the spectrum object exists exactly when the averaging leaves at least two bins *)
Theorem C92_resolution (t x : list R) (df : R) (at_ ax : arraylike NX) (s : series NX) (r : nat) :
  good_axis t -> x <> [] -> holds_vector (F t) at_ -> holds_vector (F x) ax -> series_init at_ ax = Ok s ->
  averaging_factor (freqs (/ (INR (length t) * step t)) (length t / 2 + 1)) df r ->
  (exists p, series_spectrum_raw (N:=NX) s (Fin df) = Ok p) <-> (2 <= (length t / 2 + 1) / r)%nat.
Proof.
  intros Hg Nx Vt Vx Hs A. split.
  - intros (p & Hp). destruct (raw_form t x at_ ax df s p Hg Nx Vt Vx Hs Hp) as (r' & A' & _ & L & _).
    assert (r' = r) as -> by (eapply averaging_unique; [exact A'|exact A]). exact L.
  - intros L. eexists. exact (raw_returned t x at_ ax df s r Hg Nx Vt Vx Hs A L).
Qed.

(** a case that meets the premises: eight samples, a resolution of a quarter (two of the five bins of width 1/8 together), default limits *)
Example C92_witness : let t := axis 0 1 8 in let x := [1; -1; 2; 0; 1; -2; -1; 3] in let y := [0; 1 / 10; 0; -1 / 10; 1 / 5; 0; 0; -1 / 5] in
  good_axis t /\ x <> [] /\ y <> [] /\ nth 3 (plus_signal x y) 0 = -1 / 10
  /\ exists sx sy sz px f, series_init (N:=NX) (Arr (vec (F t))) (Arr (vec (F x))) = Ok sx /\ series_init (N:=NX) (Arr (vec (F t))) (Arr (vec (F y))) = Ok sy
    /\ series_init (N:=NX) (Arr (vec (F t))) (Arr (vec (F (plus_signal x y)))) = Ok sz
    /\ series_spectrum_raw (N:=NX) sx (Fin (1 / 4)) = Ok px /\ s_f px = F f /\ f = [1 / 16; 5 / 16]
    /\ lower_limit f (Fin (-1)) (Fin (nth 0 f 0)) /\ upper_limit f (Fin (-1)) (Fin (last_of f)) /\ nth 0 f 0 <= last_of f <= last_of f.
Proof.
  intros t x y. assert (Hg : good_axis t) by (apply axis_good; [lia|lra]). split; [exact Hg|]. split; [discriminate|]. split; [discriminate|]. split; [unfold plus_signal; cbn; lra|].
  destruct (C16_uniform_accepted 0 1 x (Arr (vec (F t))) (Arr (vec (F x))) ltac:(lra) ltac:(cbn; lia) (hv_flat _) (hv_flat _)) as (sx & _ & _ & Ex & _).
  destruct (C16_uniform_accepted 0 1 y (Arr (vec (F t))) (Arr (vec (F y))) ltac:(lra) ltac:(cbn; lia) (hv_flat _) (hv_flat _)) as (sy & _ & _ & Ey & _).
  destruct (C16_uniform_accepted 0 1 (plus_signal x y) (Arr (vec (F t))) (Arr (vec (F (plus_signal x y)))) ltac:(lra) ltac:(cbn; lia) (hv_flat _) (hv_flat _)) as (sz & _ & _ & Ez & _).
  assert (St : step t = 1) by (unfold step, t; rewrite !axis_nth by lia; cbn; lra). assert (Lt : length t = 8%nat) by reflexivity.
  assert (Ed : dfreq t = 1 / 8) by (unfold dfreq; rewrite St, Lt; cbn; lra).
  assert (A : averaging_factor (freqs (dfreq t) (nnyq (length t))) (1 / 4) 2).
  { right. split; [lra|]. exists 2%Z. split; [|reflexivity]. unfold step. rewrite Ed, Lt. change (nnyq 8) with 5%nat.
    replace (1 / 4 / (nth 1 (freqs (1 / 8) 5) 0 - nth 0 (freqs (1 / 8) 5) 0)) with 2 by (cbn; field). unfold rounds_to. split; [rewrite Rminus_diag_eq, Rabs_R0; lra|]. intros _. exists 1%Z. reflexivity. }
  exists sx, sy, sz. eexists _, (avg_axis t 2). do 3 (split; [assumption|]). split; [apply (raw_returned t x (Arr (vec (F t))) (Arr (vec (F x))) (1 / 4) sx 2 Hg ltac:(discriminate) (hv_flat _) (hv_flat _) Ex A); rewrite Lt; reflexivity|].
  assert (Ea : avg_axis t 2 = [1 / 16; 5 / 16]).
  { unfold avg_axis. rewrite Ed, Lt. change (nnyq 8 / 2)%nat with 2%nat. unfold axis. cbn. f_equal; [lra|]. f_equal. lra. }
  split; [reflexivity|]. split; [exact Ea|]. rewrite Ea. split; [left; auto|]. split; [left; auto|]. cbn. lra.
Qed.
