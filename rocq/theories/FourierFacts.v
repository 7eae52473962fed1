(** * The Fourier routines of the model on finite data *)

From Coq Require Import Reals ZArith List Bool Lra Lia.
From Coquelicot Require Import Complex.
From Verif Require Import Num XR Spec XRFacts Engine Cpx DFT FourierSpec EngineProps SpectralModel TimeProps.
Import ListNotations.
Open Scope R_scope.

Lemma fc_add a b : cadd (FC a) (FC b) = FC (a + b)%C. Proof. reflexivity. Qed.
Lemma fc_sub a b : csub (FC a) (FC b) = FC (a - b)%C. Proof. reflexivity. Qed.
Lemma fc_mul a b : cmul (FC a) (FC b) = FC (a * b)%C. Proof. reflexivity. Qed.
Lemma fc_conj a : cconj (FC a) = FC (Cconj a). Proof. reflexivity. Qed.
Lemma fc_0 : c0 (N:=NX) = FC (RtoC 0). Proof. reflexivity. Qed.
Lemma fc_ofr r : cofr (Fin r) = FC (RtoC r). Proof. reflexivity. Qed.
Lemma fc_expi a : cexpi (Fin a) = FC (ei a). Proof. reflexivity. Qed.
Lemma fc_scale r a : cscale (Fin r) (FC a) = FC (RtoC r * a)%C.
Proof. unfold cscale, FC; cbn. f_equal; f_equal; ring. Qed.
Lemma fc_divr a r : r <> 0 -> cdivr (FC a) (Fin r) = FC (RtoC (/ r) * a)%C.
Proof.
  intros H. unfold cdivr, FC. cbn [cre cim fst snd]. rewrite !fin_div by auto.
  f_equal; f_equal; cbn; unfold Rdiv; ring.
Qed.
Lemma fc_inj a b : FC a = FC b -> a = b.
Proof. intros H. injection H as H1 H2. apply C_eq; auto. Qed.
Lemma csum_FC l : csum (map FC l) = FC (Csl l).
Proof. induction l as [|a l IH]; [reflexivity|]. cbn [map csum fold_right]. unfold csum in IH. rewrite IH. reflexivity. Qed.

Lemma map2_seq {A B} (g : nat -> A -> B) (x : list A) d :
  map2 g (seq 0 (length x)) x = map (fun j => g j (nth j x d)) (seq 0 (length x)).
Proof.
  assert (G : forall k, map2 g (seq k (length x)) x = map (fun j => g j (nth (j - k) x d)) (seq k (length x))).
  { induction x as [|a x IH]; intros k; [reflexivity|]. cbn [length seq map2 map]. f_equal.
    - rewrite Nat.sub_diag. reflexivity.
    - rewrite IH. apply map_ext_in. intros j Hj. apply in_seq in Hj.
      replace (j - k)%nat with (S (j - S k)) by lia. reflexivity. }
  rewrite G. apply map_ext_in. intros j Hj. rewrite Nat.sub_0_r. reflexivity.
Qed.
Lemma nth_FCs l j d : nth j (FCs l) (FC d) = FC (nth j l d). Proof. apply map_nth. Qed.
Lemma FCs_length l : length (FCs l) = length l. Proof. apply map_length. Qed.

Lemma twiddle_FC s n j k : (0 < n)%nat ->
  twiddle s n j k = FC (tw (IZR s) n j k).
Proof.
  intros Hn. unfold twiddle, tw. rewrite !fin_ofnat, fin_pi, fin_ofZ, !fin_mul.
  rewrite fin_div by (apply not_0_INR; lia). rewrite fc_expi. rewrite mult_IZR. reflexivity.
Qed.
Lemma dft_coef_FC s l k : (0 < length l)%nat ->
  dft_coef s (FCs l) k = FC (Csum (length l) (fun j => nth j l (RtoC 0) * tw (IZR s) (length l) j k)%C).
Proof.
  intros Hn. unfold dft_coef. rewrite (map2_seq _ _ (FC (RtoC 0))). rewrite FCs_length.
  rewrite (map_ext _ (fun j => FC (nth j l (RtoC 0) * tw (IZR s) (length l) j k)%C)).
  - rewrite <- (map_map (fun j => (nth j l (RtoC 0) * tw (IZR s) (length l) j k)%C) FC). apply csum_FC.
  - intros j. rewrite nth_FCs, twiddle_FC by auto. apply fc_mul.
Qed.
Lemma fft_FC l : fft (FCs l) = FCs (map (DF (length l) (fun j => nth j l (RtoC 0))) (seq 0 (length l))).
Proof.
  destruct l as [|a l]; [reflexivity|]. unfold fft. rewrite FCs_length. unfold FCs at 2. rewrite map_map. apply map_ext.
  intros k. rewrite dft_coef_FC by (cbn; lia). reflexivity.
Qed.
Lemma ifft_FC l : ifft (FCs l) = FCs (map (IDF (length l) (fun j => nth j l (RtoC 0))) (seq 0 (length l))).
Proof.
  destruct l as [|a l]; [reflexivity|]. unfold ifft. rewrite FCs_length. unfold FCs at 2. rewrite map_map. apply map_ext.
  intros k. rewrite dft_coef_FC by (cbn; lia). rewrite fin_ofnat.
  assert (INR (length (a :: l)) <> 0) by (apply not_0_INR; cbn; lia).
  rewrite fc_divr by auto. unfold IDF. rewrite RtoC_inv by auto. reflexivity.
Qed.
Lemma cofr_F x : map (cofr (N:=NX)) (F x) = FCs (map RtoC x).
Proof. unfold F, FCs. rewrite !map_map. reflexivity. Qed.
Lemma coef_DF x k : coef x k = DF (length x) (fun j => RtoC (nth j x 0)) k.
Proof.
  unfold coef, DF, tw. apply Csum_ext. intros j Hj. f_equal. f_equal. unfold Rdiv. ring.
Qed.
Lemma DF_ext n x y k : (forall j, (j < n)%nat -> x j = y j) -> DF n x k = DF n y k.
Proof. intros H. apply Csum_ext. intros j Hj. rewrite H by auto. reflexivity. Qed.
Lemma IDF_ext n x y k : (forall j, (j < n)%nat -> x j = y j) -> IDF n x k = IDF n y k.
Proof. intros H. unfold IDF. f_equal. apply Csum_ext. intros j Hj. rewrite H by auto. reflexivity. Qed.
Lemma fft_F x : fft (map (cofr (N:=NX)) (F x)) = FCs (coefs x (length x)).
Proof.
  rewrite cofr_F, fft_FC, map_length. unfold coefs. f_equal. apply map_ext_in. intros k Hk. rewrite coef_DF.
  apply DF_ext. intros j Hj. apply (map_nth RtoC x 0 j).
Qed.

Lemma coefs_length x m : length (coefs x m) = m.
Proof. unfold coefs. rewrite map_length, seq_length. reflexivity. Qed.
Lemma coefs_nth x m k : (k < m)%nat -> nth k (coefs x m) (RtoC 0) = coef x k.
Proof. intros. unfold coefs. apply map_seq_nth. auto. Qed.
Lemma freqs_length df m : length (freqs df m) = m.
Proof. unfold freqs. rewrite map_length, seq_length. reflexivity. Qed.
Lemma freqs_nth df m k : (k < m)%nat -> nth k (freqs df m) 0 = INR k * df.
Proof. intros. unfold freqs. apply (map_seq_nth (fun k => INR k * df)). auto. Qed.
Lemma freqs_axis df m : freqs df m = axis 0 df m.
Proof. unfold freqs, axis. apply map_ext. intros. ring. Qed.
Lemma firstn_seq a b s : (a <= b)%nat -> firstn a (seq s b) = seq s a.
Proof.
  revert a s; induction b; intros a s H; destruct a; cbn; auto; [lia|]. f_equal. apply IHb. lia.
Qed.
Lemma slice0_map_seq {A} (g : nat -> A) a b : (a <= b)%nat -> slice 0 a (map g (seq 0 b)) = map g (seq 0 a).
Proof. intros. unfold slice. cbn [skipn]. rewrite Nat.sub_0_r, firstn_map, firstn_seq by auto. reflexivity. Qed.

Lemma good_mono t : good_axis t -> monotonic_increasing_constant_step (F t) = Ok true.
Proof.
  intros [H2 H]. destruct (C02_accepts_iff t H2) as (b & -> & Hb). f_equal. apply Hb. exact H.
Qed.
Lemma good_step t : good_axis t -> 0 < step t.
Proof. intros [H2 H]. unfold step. specialize (H 0%nat ltac:(lia)). lra. Qed.
Lemma axis_good t0 dt n : (2 <= n)%nat -> 0 < dt -> good_axis (axis t0 dt n).
Proof.
  intros Hn Hd. split; [rewrite axis_length; auto|]. intros i Hi. rewrite axis_length in Hi.
  rewrite !axis_nth by lia. rewrite S_INR. change (INR 1) with 1. change (INR 0) with 0.
  assert (0 < 1000000 / 2 ^ 52) by (apply Rdiv_lt_0_compat; [lra|apply pow_lt; lra]). split; lra.
Qed.

(** the frequency step of a signal with n samples *)
Definition dfreq (t : list R) : R := / (INR (length t) * step t).
Lemma dfreq_pos t : good_axis t -> 0 < dfreq t.
Proof.
  intros H. assert (Hs := good_step t H). destruct H as [H2 _]. unfold dfreq. apply Rinv_0_lt_compat, Rmult_lt_0_compat; auto.
  apply lt_0_INR. lia.
Qed.

Lemma time2freq_F t x at_ ax : good_axis t -> length x = length t ->
  holds_vector (F t) at_ -> holds_vector (F x) ax ->
  time2freq at_ ax = Ok (F (freqs (dfreq t) (length t)), FCs (coefs x (length x))).
Proof.
  intros Hg Hl Ht Hx. assert (Hs := good_step t Hg). assert (H2 := proj1 Hg).
  assert (Nt : F t <> []) by (apply F_ne; intros ->; cbn in H2; lia).
  assert (Nx : F x <> []) by (apply F_ne; intros ->; cbn in Hl; lia).
  destruct (hv_convert _ _ Nt Ht) as (k1 & K1 & E1). destruct (hv_convert _ _ Nx Hx) as (k2 & K2 & E2).
  unfold time2freq. rewrite E1, E2. cbn [fst snd].
  assert (Nat.ltb 1 k1 = false) as -> by (apply Nat.ltb_ge; lia).
  assert (Nat.ltb 1 k2 = false) as -> by (apply Nat.ltb_ge; lia). cbn [orb].
  rewrite as_list_vec, bind_Ok, good_mono, bind_Ok by auto. cbn [negb].
  rewrite !F_length, Hl, Nat.eqb_refl. cbn [negb]. rewrite as_list_vec, bind_Ok.
  rewrite !idx_F by lia. rewrite !bind_Ok. fold (step t). rewrite fft_F, Hl. f_equal. f_equal.
  unfold freqs. unfold F at 1. rewrite map_map. apply map_ext. intros k.
  rewrite !fin_ofnat, fin_1, fin_sub, fin_mul. fold (step t). rewrite fin_div, fin_mul.
  - f_equal. unfold dfreq. unfold Rdiv. ring.
  - assert (0 < INR (length t)) by (apply lt_0_INR; lia). nra.
Qed.

(** number of frequencies up to Nyquist *)
Definition nnyq (n : nat) : nat := (n / 2 + 1)%nat.
Lemma nnyq_le n : (2 <= n)%nat -> (2 <= nnyq n <= n)%nat.
Proof.
  intros H. unfold nnyq. assert (n / 2 * 2 <= n)%nat by (rewrite Nat.mul_comm; apply Nat.mul_div_le; lia).
  assert (1 <= n / 2)%nat by (apply Nat.div_le_lower_bound; lia). lia.
Qed.
Lemma nyquist_F t x at_ ax : good_axis t -> length x = length t ->
  holds_vector (F t) at_ -> holds_vector (F x) ax ->
  time2freq_nyquist at_ ax
  = Ok (F (freqs (dfreq t) (nnyq (length x))), FCs (coefs x (nnyq (length x))), Nat.odd (length x)).
Proof.
  intros Hg Hl Ht Hx. assert (H2 := proj1 Hg).
  assert (Nt : F t <> []) by (apply F_ne; intros ->; cbn in H2; lia).
  assert (Nx : F x <> []) by (apply F_ne; intros ->; cbn in Hl; lia).
  destruct (hv_convert _ _ Nt Ht) as (k1 & K1 & E1). destruct (hv_convert _ _ Nx Hx) as (k2 & K2 & E2).
  unfold time2freq_nyquist. rewrite E1, E2. cbn [fst snd].
  assert (Nat.ltb 1 k1 = false) as -> by (apply Nat.ltb_ge; lia).
  assert (Nat.ltb 1 k2 = false) as -> by (apply Nat.ltb_ge; lia). cbn [orb].
  rewrite as_list_vec, bind_Ok, good_mono, bind_Ok by auto. cbn [negb].
  rewrite !F_length, Hl, Nat.eqb_refl. cbn [negb].
  rewrite (time2freq_F t x) by (auto; constructor). rewrite bind_Ok, Hl.
  assert (Hq := nnyq_le (length t) H2). fold (nnyq (length t)).
  rewrite F_slice. unfold FCs. unfold slice at 2. rewrite skipn_O, firstn_map.
  change (firstn (nnyq (length t) - 0) (coefs x (length t))) with (slice 0 (nnyq (length t)) (coefs x (length t))).
  unfold freqs, coefs. rewrite !slice0_map_seq by lia. reflexivity.
Qed.

(** unfolding, for any coefficients (finite or not) *)
Definition b2n (b : bool) : nat := if b then 1 else 0.
Lemma conj_conj (z : cpx NX) : cconj (cconj z) = z.
Proof. destruct z as [a b]. unfold cconj. cbn. destruct b; cbn; auto. rewrite Ropp_involutive. reflexivity. Qed.

Lemma unfold_eq (f : list R) (X : list (cpx NX)) af aX odd :
  (2 <= length f)%nat -> length X = length f -> holds_vector (F f) af -> holds_vector X aX ->
  exists Z, unfold_spectrum af aX odd
      = Ok (F (freqs (step f) ((length f - 1) * 2 + b2n odd)), Z)
    /\ length Z = ((length f - 1) * 2 + b2n odd)%nat
    /\ (forall k, (k < length f - 1 + b2n odd)%nat -> nth k Z c0 = nth k X c0)
    /\ (forall k, (length f - 1 + b2n odd <= k < length Z)%nat -> nth k Z c0 = cconj (nth (length Z - k) X c0)).
Proof.
  intros H2 Hl Hf HX.
  assert (Nf : F f <> []) by (apply F_ne; intros ->; cbn in H2; lia).
  assert (NX' : X <> []) by (intros ->; cbn in Hl; lia).
  destruct (hv_convert _ _ Nf Hf) as (k1 & K1 & E1). destruct (hv_convert _ _ NX' HX) as (k2 & K2 & E2).
  unfold unfold_spectrum. rewrite E1, E2. cbn [fst snd].
  assert (Nat.ltb 1 k1 = false) as -> by (apply Nat.ltb_ge; lia).
  assert (Nat.ltb 1 k2 = false) as -> by (apply Nat.ltb_ge; lia). cbn [orb].
  rewrite !as_list_vec, !bind_Ok, !idx_F, !bind_Ok by lia. rewrite F_length.
  assert (Es : slice 0 (length f) X = X) by (apply slice_all; lia).
  rewrite Es. unfold fit. rewrite Hl, Nat.eqb_refl, bind_Ok.
  fold (b2n odd). set (n := length f) in *. set (o := b2n odd).
  assert (Ho : (o <= 1)%nat) by (unfold o; destruct odd; cbn; lia).
  eexists. split; [f_equal; apply f_equal2; [|reflexivity]|].
  { unfold freqs, F. rewrite map_map. apply map_ext. intros k. rewrite fin_ofnat, fin_sub, fin_mul. reflexivity. }
  assert (Lf : length (firstn (n - 1 + o) X) = (n - 1 + o)%nat) by (rewrite firstn_length; lia).
  assert (Lr : length (rev (map cconj (slice 1 n X))) = (n - 1)%nat) by (rewrite rev_length, map_length, slice_length; lia).
  assert (LZ : length (firstn (n - 1 + o) X ++ rev (map cconj (slice 1 n X))) = ((n - 1) * 2 + o)%nat) by (rewrite app_length; lia).
  split; [exact LZ|]. split.
  - intros k Hk. rewrite app_nth1 by lia. apply firstn_nth. lia.
  - intros k Hk. rewrite LZ in *. rewrite app_nth2 by lia. rewrite Lf, rev_nth by (rewrite map_length, slice_length; lia).
    rewrite map_length, slice_length.
    rewrite (nth_indep _ c0 (cconj c0)) by (rewrite map_length, slice_length; lia).
    rewrite map_nth. f_equal. rewrite slice_nth by lia. f_equal. lia.
Qed.

(** unfolding the folded spectrum of a real signal gives its full spectrum *)
Lemma coef_hermitian x k : (0 < length x)%nat -> (k <= length x)%nat -> coef x (length x - k) = Cconj (coef x k).
Proof. intros. rewrite !coef_DF. apply DF_hermitian; auto. Qed.
Lemma freq2time_FC l aX : l <> [] -> holds_vector (FCs l) aX ->
  freq2time aX = Ok (F (map (fun k => fst (IDF (length l) (fun j => nth j l (RtoC 0)) k)) (seq 0 (length l)))).
Proof.
  intros Hne HX. assert (NX' : FCs l <> []) by (intros E; apply map_eq_nil in E; contradiction).
  destruct (hv_convert _ _ NX' HX) as (k2 & K2 & E2). unfold freq2time. rewrite E2. cbn [fst snd].
  assert (Nat.ltb 1 k2 = false) as -> by (apply Nat.ltb_ge; lia).
  rewrite FCs_length. destruct (Nat.eqb_spec (length l) 0) as [E|]; [destruct l; [contradiction|discriminate]|].
  rewrite as_list_vec, bind_Ok, ifft_FC. f_equal. unfold F, FCs. rewrite !map_map. reflexivity.
Qed.
Lemma half_even n : Nat.odd n = false -> (n = 2 * (n / 2))%nat.
Proof. intros H. assert (E := Nat.div2_odd n). rewrite H in E. cbn in E. rewrite Nat.div2_div in E. lia. Qed.
Lemma half_odd n : Nat.odd n = true -> (n = 2 * (n / 2) + 1)%nat.
Proof. intros H. assert (E := Nat.div2_odd n). rewrite H in E. cbn [Nat.b2n] in E. rewrite Nat.div2_div in E. lia. Qed.
Lemma nnyq_total n : (2 <= n)%nat -> ((nnyq n - 1) * 2 + b2n (Nat.odd n))%nat = n.
Proof.
  intros H. unfold nnyq, b2n. destruct (Nat.odd n) eqn:E; [apply half_odd in E|apply half_even in E]; lia.
Qed.
Lemma step_freqs df m : (2 <= m)%nat -> step (freqs df m) = df.
Proof. intros. unfold step. rewrite !freqs_nth by lia. change (INR 1) with 1. change (INR 0) with 0. ring. Qed.

(** unfolding finite coefficients *)
Lemma unfold_FC f (X : list C) odd : (2 <= length f)%nat -> length X = length f ->
  let n := ((length f - 1) * 2 + b2n odd)%nat in
  unfold_spectrum (Arr (vec (F f))) (Arr (vec (FCs X))) odd
  = Ok (F (freqs (step f) n),
        FCs (map (fun k => if Nat.ltb k (length f - 1 + b2n odd) then nth k X (RtoC 0) else Cconj (nth (n - k) X (RtoC 0)))
                 (seq 0 n))).
Proof.
  intros H2 Hl n. destruct (unfold_eq f (FCs X) (Arr (vec (F f))) (Arr (vec (FCs X))) odd H2) as (Z & -> & LZ & Z1 & Z2);
    [rewrite FCs_length; auto|constructor|constructor|].
  f_equal. f_equal. fold n in LZ. apply (nth_ext' _ _ c0).
  - rewrite FCs_length, map_length, seq_length. exact LZ.
  - intros k Hk. rewrite LZ in *. rewrite fc_0, nth_FCs, map_seq_nth, <- fc_0 by auto.
    destruct (Nat.ltb_spec k (length f - 1 + b2n odd)).
    + rewrite Z1 by auto. rewrite fc_0. apply nth_FCs.
    + rewrite Z2 by lia. rewrite fc_0, nth_FCs. reflexivity.
Qed.
