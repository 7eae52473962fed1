(** * Variance density spectra and coherence: C25 - C27 *)

From Coq Require Import Reals ZArith List Bool Lra Lia.
From Coquelicot Require Import Complex.
From Verif Require Import Num XR Spec XRFacts Engine Cpx DFT RSum FourierSpec EngineProps SpectralModel TimeProps
  TimeProps2 SeriesProps FourierFacts FourierProps AvgProps.
Import ListNotations.
Open Scope R_scope.

(** one-sided density of a coefficient *)
Definition dens (df : R) (n : nat) (z : C) : R := 2 * sq z / (df * INR n * INR n).
Lemma var_dens_F df n z : df <> 0 -> (0 < n)%nat ->
  var_dens (Fin df) (Fin (INR n)) (FC z) = Fin (dens df n z).
Proof.
  intros Hd Hn. assert (INR n <> 0) by (apply not_0_INR; lia).
  unfold var_dens. rewrite fin_ofZ, fc_scale, fc_conj, fc_mul, !fin_mul.
  rewrite fc_divr by (repeat apply Rmult_integral_contrapositive_currified; auto).
  unfold FC, cre. cbn [fst]. f_equal. unfold dens, sq, Rdiv. cbn. ring.
Qed.
Lemma dens_nonneg df n z : 0 < df -> 0 <= dens df n z.
Proof.
  intros Hd. unfold dens, sq. destruct n.
  - cbn. rewrite !Rmult_0_r. unfold Rdiv. rewrite Rinv_0. lra.
  - assert (0 < INR (S n)) by (apply lt_0_INR; lia). apply Rmult_le_pos; [nra|].
    left. apply Rinv_0_lt_compat. repeat apply Rmult_lt_0_compat; auto.
Qed.

(** the un-averaged spectrum of a signal *)
Definition fine_density (t x : list R) : list R := map (dens (dfreq t) (length x)) (coefs x (nnyq (length x))).
Lemma fine_length t x : length (fine_density t x) = nnyq (length x).
Proof. unfold fine_density. rewrite map_length, coefs_length. reflexivity. Qed.
Lemma fine_nth t x k : (k < nnyq (length x))%nat -> nth k (fine_density t x) 0 = dens (dfreq t) (length x) (coef x k).
Proof.
  intros Hk. unfold fine_density. rewrite (nth_indep _ 0 (dens (dfreq t) (length x) (RtoC 0))) by (rewrite map_length, coefs_length; auto).
  rewrite map_nth, coefs_nth by auto. reflexivity.
Qed.

Lemma spectrum_eq t x df at_ ax : good_axis t -> length x = length t ->
  holds_vector (F t) at_ -> holds_vector (F x) ax ->
  compute_spectrum_time_series at_ ax df
  = frequency_averaging (Arr (vec (F (freqs (dfreq t) (nnyq (length x)))))) (Arr (vec (F (fine_density t x)))) df.
Proof.
  intros Hg Hl Ht Hx. assert (H2 := proj1 Hg). assert (Hq := nnyq_le (length x) ltac:(lia)).
  assert (Hd := dfreq_pos t Hg). unfold compute_spectrum_time_series. rewrite (nyquist_F t x at_ ax) by auto.
  rewrite bind_Ok, !idx_F, !bind_Ok by (rewrite freqs_length; lia). rewrite fin_sub.
  fold (step (freqs (dfreq t) (nnyq (length x)))). rewrite step_freqs by lia.
  rewrite (hv_alen (F t) at_) by auto. rewrite F_length, fin_ofnat, <- Hl.
  do 3 f_equal. unfold FCs, F, fine_density. rewrite !map_map. apply map_ext. intros z. apply var_dens_F; [lra|lia].
Qed.

(** ** C25 The spectrum carries the variance of the signal *)

Lemma parseval_R x : x <> [] ->
  RS (length x) (fun k => sq (coef x k)) = INR (length x) * RS (length x) (fun j => nth j x 0 ^ 2).
Proof.
  intros Hne. assert (Hn : (0 < length x)%nat) by (destruct x; [contradiction|cbn; lia]).
  assert (P := Parseval (length x) (fun j => RtoC (nth j x 0)) Hn). rewrite !RS_C in P.
  rewrite <- RtoC_mult in P. apply (f_equal fst) in P. cbn [fst RtoC] in P.
  rewrite (RS_ext _ (fun k => sq (coef x k)) (fun k => sq (DF (length x) (fun j => RtoC (nth j x 0)) k))).
  - rewrite P. f_equal. apply RS_ext. intros k Hk. unfold sq. cbn. ring.
  - intros k Hk. rewrite coef_DF. reflexivity.
Qed.
Lemma coef_0 x : coef x 0 = RtoC (Rsum x).
Proof.
  unfold coef. rewrite (Csum_ext _ _ (fun j => RtoC (nth j x 0))).
  - rewrite RS_C, Rsum_RS. reflexivity.
  - intros j Hj. rewrite Nat.mul_0_r. cbn [INR]. replace (- (2 * PI * 0 / INR (length x))) with 0 by (unfold Rdiv; ring).
    rewrite ei_0. ring.
Qed.
Lemma ei_PI_nat j : ei (- (PI * INR j)) = RtoC ((-1) ^ j).
Proof.
  induction j.
  - cbn. rewrite Rmult_0_r, Ropp_0. apply ei_0.
  - rewrite S_INR. replace (- (PI * (INR j + 1))) with (- (PI * INR j) + - PI) by ring.
    rewrite ei_plus, IHj. apply C_eq; cbn; rewrite cos_neg, sin_neg, cos_PI, sin_PI; ring.
Qed.
Lemma coef_half x m : length x = (2 * m)%nat -> (0 < m)%nat ->
  coef x m = RtoC (RS (length x) (fun j => (-1) ^ j * nth j x 0)).
Proof.
  intros Hl Hm. unfold coef. rewrite <- RS_C. apply Csum_ext. intros j Hj.
  replace (2 * PI * INR (j * m) / INR (length x)) with (PI * INR j).
  - rewrite ei_PI_nat, RtoC_mult. ring.
  - rewrite Hl, !mult_INR. cbn [INR]. field. apply not_0_INR. lia.
Qed.
Lemma sq_coef_mirror x k : (0 < length x)%nat -> (k <= length x)%nat -> sq (coef x (length x - k)) = sq (coef x k).
Proof. intros. rewrite coef_hermitian by auto. unfold sq, Cconj. cbn. ring. Qed.
Lemma Rvar_alt x : x <> [] -> INR (length x) * INR (length x) * Rvar x
   = INR (length x) * RS (length x) (fun j => nth j x 0 ^ 2) - Rsum x ^ 2.
Proof.
  intros Hne. assert (Hn : INR (length x) <> 0) by (apply not_0_INR; destruct x; [contradiction|cbn; lia]).
  unfold Rvar. set (m := Rmean x). unfold Rmean. rewrite map_length, (Rsum_map_RS _ _ 0).
  rewrite (RS_ext _ _ (fun k => nth k x 0 ^ 2 - ((2 * m) * nth k x 0 - m ^ 2))) by (intros; ring).
  rewrite RS_minus, RS_minus, RS_scal, RS_const, <- Rsum_RS.
  assert (E : Rsum x = INR (length x) * m) by (unfold m, Rmean; field; auto). rewrite E. field. auto.
Qed.

(** sum of the density over the positive frequencies times the frequency step *)
Definition energy (f S : list R) : R := Rsum (map (fun v => v * step f) (skipn 1 S)).

Lemma half_sum (g : nat -> R) n : (forall k, (k <= n)%nat -> g (n - k)%nat = g k) ->
  (Nat.odd n = true -> RS n g = g 0%nat + 2 * RS (n / 2) (fun k => g (S k)))
  /\ (Nat.odd n = false -> (2 <= n)%nat -> RS n g = g 0%nat + 2 * RS (n / 2) (fun k => g (S k)) - g (n / 2)%nat).
Proof.
  intros Hs. split.
  - intros Ho. apply half_odd in Ho. set (m := (n / 2)%nat) in *. rewrite Ho at 1.
    replace (2 * m + 1)%nat with (S (m + m)) by lia. rewrite RS_shift, RS_add.
    rewrite (RS_rev m (fun k => g (S (m + k)))).
    rewrite (RS_ext m (fun k => g (S (m + (m - 1 - k)))) (fun k => g (S k))); [ring|].
    intros k Hk. rewrite <- Hs by lia. f_equal. lia.
  - intros Ho H2. apply half_even in Ho. set (m := (n / 2)%nat) in *. rewrite Ho at 1.
    destruct m as [|m]; [lia|]. replace (2 * S m)%nat with (S (S m + m)) by lia. rewrite RS_shift, RS_add.
    rewrite (RS_rev m (fun k => g (S (S m + k)))).
    rewrite (RS_ext m (fun k => g (S (S m + (m - 1 - k)))) (fun k => g (S k))).
    + rewrite !RS_S. ring.
    + intros k Hk. rewrite <- Hs by lia. f_equal. lia.
Qed.

Theorem C25_variance (t x : list R) (at_ ax : arraylike NX) :
  good_axis t -> length x = length t -> holds_vector (F t) at_ -> holds_vector (F x) ax ->
  exists f S, compute_spectrum_time_series at_ ax (Fin 0) = Ok (F f, F S)
    /\ (Nat.Odd (length x) -> energy f S = Rvar x)
    /\ (Nat.Even (length x) ->
          energy f S = Rvar x + (Rsum (map (fun j => (-1) ^ j * nth j x 0) (seq 0 (length x))) / INR (length x)) ^ 2)
    /\ nth 0 S 0 * step f = 2 * Rmean x ^ 2.
Proof.
  intros Hg Hl Ht Hx. assert (H2 := proj1 Hg). assert (Hq := nnyq_le (length x) ltac:(lia)).
  assert (Hd := dfreq_pos t Hg). rewrite (spectrum_eq t x) by auto.
  rewrite (C24_identity (freqs (dfreq t) (nnyq (length x))) (fine_density t x));
    [|rewrite freqs_length; lia|rewrite step_freqs by lia; lra|rewrite freqs_length, fine_length; auto|apply hv_flat|apply hv_flat].
  eexists _, _. split; [reflexivity|].
  assert (Hne : x <> []) by (intros ->; cbn in Hl; lia).
  assert (Hn : 0 < INR (length x)) by (apply lt_0_INR; lia).
  assert (Ee : energy (freqs (dfreq t) (nnyq (length x))) (fine_density t x)
          = 2 / (INR (length x) * INR (length x)) * RS (length x / 2) (fun k => sq (coef x (S k)))).
  { unfold energy. rewrite (Rsum_map_RS _ _ 0), skipn_length, fine_length, step_freqs by lia.
    replace (nnyq (length x) - 1)%nat with (length x / 2)%nat by (unfold nnyq; lia).
    rewrite <- RS_scal. apply RS_ext. intros k Hk. rewrite skipn_nth, fine_nth by (unfold nnyq; lia).
    unfold dens. cbn [plus]. field. lra. }
  rewrite Ee. destruct (half_sum (fun k => sq (coef x k)) (length x)) as [Hodd Heven].
  { intros k Hk. apply sq_coef_mirror; lia. }
  assert (P := parseval_R x Hne). assert (V := Rvar_alt x Hne).
  assert (E0 : sq (coef x 0) = Rsum x ^ 2) by (rewrite coef_0; unfold sq; cbn; ring).
  split; [|split].
  - intros Ho. rewrite <- Nat.odd_spec in Ho. specialize (Hodd Ho). rewrite P, E0 in Hodd.
    apply Rmult_eq_reg_l with (INR (length x) * INR (length x)); [|nra]. rewrite V. rewrite Hodd. field. lra.
  - intros He. assert (Ho : Nat.odd (length x) = false) by (rewrite <- Nat.negb_even; apply Nat.even_spec in He; rewrite He; auto).
    specialize (Heven Ho ltac:(lia)). rewrite P, E0 in Heven.
    assert (Eh := half_even _ Ho).
    rewrite (coef_half x (length x / 2)) in Heven by lia.
    fold (RS (length x) (fun j => (-1) ^ j * nth j x 0)).
    set (A := RS (length x) (fun j => (-1) ^ j * nth j x 0)) in *.
    replace (sq (RtoC A)) with (A ^ 2) in Heven by (unfold sq; cbn; ring).
    apply Rmult_eq_reg_l with (INR (length x) * INR (length x)); [|nra].
    rewrite Rmult_plus_distr_l, V. rewrite Heven. field. lra.
  - rewrite fine_nth, step_freqs by lia. unfold dens. rewrite E0. unfold Rmean. field. lra.
Qed.
(** the Nyquist band of an even-length signal is counted twice *)
Theorem C25_even_variance_refuted :
  ~ (forall t x f S, good_axis t -> length x = length t ->
       compute_spectrum_time_series (Arr (vec (F t))) (Arr (vec (F x))) (Fin 0) = Ok (F f, F S) ->
       energy f S = Rvar x).
Proof.
  intros H. assert (Hg : good_axis (axis 0 1 2)) by (apply axis_good; [lia|lra]).
  destruct (C25_variance (axis 0 1 2) [1; -1] _ _ Hg eq_refl (hv_flat _) (hv_flat _)) as (f & S & E & _ & He & _).
  specialize (H _ [1; -1] f S Hg eq_refl E). rewrite H in He. specialize (He ltac:(exists 1%nat; reflexivity)).
  unfold Rvar, Rmean, Rsum in He. cbn in He. lra.
Qed.
Example C25_witness : good_axis (axis 0 (1/2) 3) /\ Nat.Odd (length [1; 4; 2]).
Proof. split; [apply axis_good; [lia|lra]|exists 1%nat; reflexivity]. Qed.

(** ** C26 Non-negative densities; the two routes agree *)

Theorem C26_nonneg (t x : list R) (df : R) (at_ ax : arraylike NX) :
  good_axis t -> length x = length t -> holds_vector (F t) at_ -> holds_vector (F x) ax ->
  exists f S, compute_spectrum_time_series at_ ax (Fin df) = Ok (F f, F S)
    /\ length f = length S /\ forall v, In v S -> 0 <= v.
Proof.
  intros Hg Hl Ht Hx. assert (H2 := proj1 Hg). assert (Hq := nnyq_le (length x) ltac:(lia)).
  assert (Hd := dfreq_pos t Hg). rewrite (spectrum_eq t x) by auto.
  set (fr := freqs (dfreq t) (nnyq (length x))).
  assert (Lf : length fr = nnyq (length x)) by apply freqs_length.
  destruct (factor_exists fr df) as (r & Hr). assert (Hr1 := factor_pos _ _ _ Hr).
  rewrite (averaging_eq fr (fine_density t x) df r);
    [|lia|unfold fr; rewrite step_freqs by lia; lra|rewrite Lf; apply fine_length|exact Hr|apply hv_flat|apply hv_flat].
  eexists _, _. split; [reflexivity|]. rewrite !map_length. split; [auto|].
  intros v Hv. apply in_map_iff in Hv as (i & <- & Hi). apply in_seq in Hi. unfold block_mean. apply Rmean_nonneg.
  intros y Hy. apply in_map_iff in Hy as (j & <- & Hj). apply in_seq in Hj.
  assert (r * (length fr / r) <= length fr)%nat by (apply Nat.mul_div_le; lia).
  rewrite fine_nth by (rewrite <- Lf; nia). apply dens_nonneg. auto.
Qed.
Theorem C26_routes_agree (t x : list R) (df : NX) (at_ ax : arraylike NX) :
  good_axis t -> length x = length t -> holds_vector (F t) at_ -> holds_vector (F x) ax ->
  exists f X isOdd, time2freq_nyquist at_ ax = Ok (f, X, isOdd)
    /\ compute_spectrum_freq_series (Arr (vec f)) (Arr (vec X)) (Z.of_nat (length x)) df
       = compute_spectrum_time_series at_ ax df.
Proof.
  intros Hg Hl Ht Hx. assert (H2 := proj1 Hg). assert (Hq := nnyq_le (length x) ltac:(lia)).
  assert (Hd := dfreq_pos t Hg). rewrite (nyquist_F t x at_ ax) by auto. eexists _, _, _. split; [reflexivity|].
  rewrite (spectrum_eq t x) by auto. unfold compute_spectrum_freq_series. rewrite !vec_convert. cbn [fst snd].
  change (Nat.ltb 1 0) with false. cbn [orb]. rewrite as_list_vec, bind_Ok.
  rewrite good_mono by (rewrite freqs_axis; apply axis_good; lia || auto). rewrite bind_Ok. cbn [negb].
  rewrite F_length, FCs_length, freqs_length, coefs_length, Nat.eqb_refl. cbn [negb]. rewrite as_list_vec, bind_Ok.
  rewrite !idx_F, !bind_Ok by (rewrite freqs_length; lia). rewrite fin_sub.
  fold (step (freqs (dfreq t) (nnyq (length x)))). rewrite step_freqs by lia. rewrite fin_ofZ, <- INR_IZR_INZ.
  do 3 f_equal. unfold FCs, F, fine_density. rewrite !map_map. apply map_ext. intros z. apply var_dens_F; [lra|lia].
Qed.
Example C26_witness : good_axis (axis 0 (1/2) 6).
Proof. apply axis_good; [lia|lra]. Qed.

(** ** C27 Coherence *)

Lemma cabs_FC a b : cabs (cmul (FC a) (cconj (FC b))) = Fin (sqrt (sq a) * sqrt (sq b)).
Proof.
  rewrite fc_conj, fc_mul. unfold cabs, FC. cbn [cre cim fst snd]. rewrite !fin_mul, fin_add.
  assert (0 <= sq a) by (unfold sq; nra). assert (0 <= sq b) by (unfold sq; nra).
  set (u := (a * Cconj b)%C). assert (E : fst u * fst u + snd u * snd u = sq a * sq b) by (unfold u, sq; cbn; ring).
  rewrite E. rewrite fin_sqrt by (apply Rmult_le_pos; auto). rewrite sqrt_mult by auto. reflexivity.
Qed.
Definition amp (z : C) : R := sqrt (sq z).
Definition prods (X Y : list C) : list R := map2 (fun a b => amp a * amp b) X Y.
Lemma bmap2_abs X Y : length X = length Y ->
  bmap2 (fun a b : cpx NX => cabs (cmul a (cconj b))) (FCs X) (FCs Y) = Ok (F (prods X Y)).
Proof.
  intros Hl. unfold bmap2. rewrite !FCs_length, Hl, Nat.eqb_refl. f_equal. unfold prods. clear Hl.
  revert Y; induction X as [|a X IH]; intros [|b Y]; try reflexivity.
  cbn [FCs map map2]. change (map FC X) with (FCs X). change (map FC Y) with (FCs Y). rewrite cabs_FC, IH. reflexivity.
Qed.
Definition floor10 (v : R) : R := Rmax v (1 / 10000000000).
Lemma clamp_F l : clamp_small (N:=NX) (F l) = F (map floor10 l).
Proof.
  unfold clamp_small. apply F_map. intros r. rewrite fin_lit by lra. rewrite fin_ltb.
  change (IZR 1 / IZR 10000000000) with (1 / 10000000000). unfold floor10.
  destruct (Rltb_spec r (1 / 10000000000)); [rewrite Rmax_right by lra|rewrite Rmax_left by lra]; reflexivity.
Qed.
Lemma prods_length X Y : length X = length Y -> length (prods X Y) = length X.
Proof. intros. unfold prods. rewrite map2_length. lia. Qed.
Lemma prods_nth X Y k : (k < length X)%nat -> length X = length Y ->
  nth k (prods X Y) 0 = amp (nth k X (RtoC 0)) * amp (nth k Y (RtoC 0)).
Proof. intros. unfold prods. rewrite (map2_nth _ _ _ _ (RtoC 0) (RtoC 0)) by lia. reflexivity. Qed.

(** value of one coherence band *)
Definition coh (r : nat) (X Y : list C) (i : nat) : R :=
  block_mean r (prods X Y) i * block_mean r (prods X Y) i
  / (floor10 (block_mean r (prods X X) i) * floor10 (block_mean r (prods Y Y) i)).
Lemma floor10_pos v : 0 < floor10 v.
Proof. unfold floor10. assert (H := Rmax_r v (1 / 10000000000)). lra. Qed.

Lemma coherence_eq f X Y df r af : (2 <= length f)%nat -> step f <> 0 ->
  length X = length f -> length Y = length f -> averaging_factor f df r -> holds_vector (F f) af ->
  coherence af (FCs X) (FCs Y) (Fin df)
  = Ok (F (map (block_mean r f) (seq 0 (length f / r))), F (map (coh r X Y) (seq 0 (length f / r)))).
Proof.
  intros H2 Hs HX HY Hr Hf. unfold coherence. rewrite !bmap2_abs by lia. rewrite !bind_Ok.
  rewrite (averaging_eq f (prods X X) df r) by (auto using hv_flat; rewrite prods_length; lia).
  rewrite (averaging_eq f (prods Y Y) df r) by (auto using hv_flat; rewrite prods_length; lia).
  rewrite (averaging_eq f (prods X Y) df r) by (auto using hv_flat; rewrite prods_length; lia).
  rewrite !bind_Ok, !clamp_F. unfold bmap2 at 1. rewrite !F_length, !map_length, Nat.eqb_refl, bind_Ok.
  rewrite (map2_F Rmult) by reflexivity. unfold bmap2. rewrite !F_length, map2_length, !map_length, Nat.min_id, Nat.eqb_refl, bind_Ok.
  f_equal. f_equal. generalize (seq 0 (length f / r)). induction l as [|i l IH]; [reflexivity|].
  cbn [map map2 F]. change (map Fin) with F in *. f_equal; [|exact IH].
  rewrite fin_mul, fin_div; [reflexivity|]. assert (A := floor10_pos (block_mean r (prods X X) i)).
  assert (B := floor10_pos (block_mean r (prods Y Y) i)). nra.
Qed.

Lemma coh_range r X Y (f : list R) i : (1 <= r)%nat -> length X = length f -> length Y = length f -> (i < length f / r)%nat ->
  0 <= coh r X Y i <= 1.
Proof.
  intros Hr HX HY Hi. assert (Hle : (r * (length f / r) <= length f)%nat) by (apply Nat.mul_div_le; lia).
  unfold coh. assert (A := floor10_pos (block_mean r (prods X X) i)). assert (B := floor10_pos (block_mean r (prods Y Y) i)).
  set (a := block_mean r (prods X X) i) in *. set (b := block_mean r (prods Y Y) i) in *. set (c := block_mean r (prods X Y) i).
  assert (Hc : c * c <= a * b).
  { unfold a, b, c. rewrite !block_mean_RS. assert (Hp : 0 < INR r) by (apply lt_0_INR; lia).
    rewrite (RS_ext r (fun j => nth (i * r + j) (prods X Y) 0) (fun j => amp (nth (i * r + j) X (RtoC 0)) * amp (nth (i * r + j) Y (RtoC 0)))) by (intros; apply prods_nth; nia).
    rewrite (RS_ext r (fun j => nth (i * r + j) (prods X X) 0) (fun j => amp (nth (i * r + j) X (RtoC 0)) ^ 2)) by (intros; rewrite prods_nth by nia; ring).
    rewrite (RS_ext r (fun j => nth (i * r + j) (prods Y Y) 0) (fun j => amp (nth (i * r + j) Y (RtoC 0)) ^ 2)) by (intros; rewrite prods_nth by nia; ring).
    assert (CS := RS_CS r (fun j => amp (nth (i * r + j) X (RtoC 0))) (fun j => amp (nth (i * r + j) Y (RtoC 0)))). cbv beta in CS.
    set (P := RS r (fun j => amp (nth (i * r + j) X (RtoC 0)) * amp (nth (i * r + j) Y (RtoC 0)))) in *.
    set (Q := RS r (fun j => amp (nth (i * r + j) X (RtoC 0)) ^ 2)) in *.
    set (W := RS r (fun j => amp (nth (i * r + j) Y (RtoC 0)) ^ 2)) in *.
    replace (P / INR r * (P / INR r)) with (P ^ 2 / (INR r * INR r)) by (field; lra).
    replace (Q / INR r * (W / INR r)) with (Q * W / (INR r * INR r)) by (field; lra).
    apply Rmult_le_compat_r; [|exact CS]. left. apply Rinv_0_lt_compat. nra. }
  assert (Ha : a <= floor10 a) by apply Rmax_l. assert (Hb : b <= floor10 b) by apply Rmax_l.
  assert (Hp : forall Z, length Z = length f -> 0 <= block_mean r (prods Z Z) i).
  { intros Z HZ. unfold block_mean. apply Rmean_nonneg. intros y Hy. apply in_map_iff in Hy as (j & <- & Hj). apply in_seq in Hj.
    rewrite prods_nth by nia. apply Rle_0_sqr. }
  assert (0 <= a) by (apply Hp; auto). assert (0 <= b) by (apply Hp; auto).
  assert (0 < floor10 a * floor10 b) by nra.
  assert (a * b <= floor10 a * floor10 b) by (apply Rmult_le_compat; auto).
  split.
  - apply Rmult_le_pos; [apply Rle_0_sqr|]. left. apply Rinv_0_lt_compat. auto.
  - apply Rmult_le_reg_r with (floor10 a * floor10 b); auto. unfold Rdiv. rewrite Rmult_assoc, Rinv_l by lra. lra.
Qed.
Theorem C27_range (f : list R) (X Y : list C) (df : R) (af : arraylike NX) :
  (2 <= length f)%nat -> step f <> 0 -> length X = length f -> length Y = length f -> holds_vector (F f) af ->
  exists fc co, coherence af (FCs X) (FCs Y) (Fin df) = Ok (F fc, F co)
    /\ length fc = length co /\ forall v, In v co -> 0 <= v <= 1.
Proof.
  intros H2 Hs HX HY Hf. destruct (factor_exists f df) as (r & Hr). assert (Hr1 := factor_pos _ _ _ Hr).
  eexists _, _. split; [apply coherence_eq; eauto|]. rewrite !map_length. split; [auto|].
  intros v Hv. apply in_map_iff in Hv as (i & <- & Hi). apply in_seq in Hi. apply (coh_range r X Y f); auto; lia.
Qed.
Lemma prods_comm X Y : prods X Y = prods Y X.
Proof. unfold prods. revert Y; induction X as [|a X IH]; intros [|b Y]; cbn; auto. rewrite IH. f_equal. ring. Qed.
Theorem C27_symmetric (f : list R) (X Y : list C) (df : R) (af : arraylike NX) :
  (2 <= length f)%nat -> step f <> 0 -> length X = length f -> length Y = length f -> holds_vector (F f) af ->
  coherence af (FCs X) (FCs Y) (Fin df) = coherence af (FCs Y) (FCs X) (Fin df).
Proof.
  intros H2 Hs HX HY Hf. destruct (factor_exists f df) as (r & Hr). rewrite !(coherence_eq f _ _ df r) by auto.
  f_equal. f_equal. f_equal. apply map_ext. intros i. unfold coh. rewrite (prods_comm X Y). f_equal. ring.
Qed.
(** without averaging the coherence is 1 wherever both signals carry energy *)
Theorem C27_unaveraged_one (f : list R) (X Y : list C) (af : arraylike NX) :
  (2 <= length f)%nat -> step f <> 0 -> length X = length f -> length Y = length f -> holds_vector (F f) af ->
  exists fc co, coherence af (FCs X) (FCs Y) (Fin 0) = Ok (F fc, F co) /\ length co = length f
    /\ forall k, (k < length f)%nat ->
         1 / 10000000000 <= Cmod (nth k X (RtoC 0)) ^ 2 -> 1 / 10000000000 <= Cmod (nth k Y (RtoC 0)) ^ 2 ->
         nth k co 0 = 1.
Proof.
  intros H2 Hs HX HY Hf. rewrite (coherence_eq f X Y 0 1) by (auto; left; auto). rewrite Nat.div_1_r.
  eexists _, _. split; [reflexivity|]. rewrite map_length, seq_length. split; [auto|].
  intros k Hk H3 H4. rewrite map_seq_nth by auto. unfold coh. rewrite !block_mean_1, !prods_nth by lia.
  assert (E : forall z, Cmod z = amp z) by (intros [u v]; unfold Cmod, amp, sq; cbn; f_equal; ring).
  rewrite !E in *. set (a := amp (nth k X (RtoC 0))) in *. set (b := amp (nth k Y (RtoC 0))) in *.
  unfold floor10. rewrite !Rmax_left by lra. field. split; nra.
Qed.
(** the cross spectrum is averaged as absolute values, so phases play no role at all: signals of the same amplitudes
    have the same coherence, whatever their phases *)
Theorem C27_phase_blind (f : list R) (X Y X' Y' : list C) (df : R) (af : arraylike NX) :
  (2 <= length f)%nat -> step f <> 0 ->
  length X = length f -> length Y = length f -> length X' = length f -> length Y' = length f -> holds_vector (F f) af ->
  (forall k, Cmod (nth k X (RtoC 0)) = Cmod (nth k X' (RtoC 0))) ->
  (forall k, Cmod (nth k Y (RtoC 0)) = Cmod (nth k Y' (RtoC 0))) ->
  coherence af (FCs X) (FCs Y) (Fin df) = coherence af (FCs X') (FCs Y') (Fin df).
Proof.
  intros H2 Hs HX HY HX' HY' Hf EX EY. destruct (factor_exists f df) as (r & Hr). rewrite !(coherence_eq f _ _ df r) by auto.
  assert (E : forall z, Cmod z = amp z) by (intros [u v]; unfold Cmod, amp, sq; cbn; f_equal; ring).
  assert (P : forall U V U' V', length U = length f -> length V = length f -> length U' = length f -> length V' = length f ->
     (forall k, Cmod (nth k U (RtoC 0)) = Cmod (nth k U' (RtoC 0))) -> (forall k, Cmod (nth k V (RtoC 0)) = Cmod (nth k V' (RtoC 0))) ->
     prods U V = prods U' V').
  { intros U V U' V' L1 L2 L3 L4 EU EV. apply (nth_ext' _ _ 0); [rewrite !prods_length; lia|].
    intros k Hk. rewrite prods_length in Hk by lia. rewrite !prods_nth by lia. rewrite <- !E, EU, EV. reflexivity. }
  f_equal. f_equal. f_equal. apply map_ext. intros i. unfold coh.
  rewrite (P X Y X' Y'), (P X X X' X'), (P Y Y Y' Y') by auto. reflexivity.
Qed.
Example C27_witness : (2 <= length [0; 1; 2])%nat /\ step [0; 1; 2] <> 0
  /\ length [(1, 1); (2, 0); (0, 3)] = length [0; 1; 2] /\ 1 / 10000000000 <= Cmod (2, 0) ^ 2.
Proof.
  split; [cbn; lia|]. split; [unfold step; cbn; lra|]. split; [reflexivity|].
  unfold Cmod. rewrite pow2_sqrt; cbn; lra.
Qed.
