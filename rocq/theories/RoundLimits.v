(** * C96: integration limits between the frequencies, in binary64.
    The nearest frequency is found from rounded distances; how far from nearest it can be, and the accuracy of moments with any limits. *)

From Coq Require Import Reals ZArith String List Bool Lra Lia.
From Flocq Require Import Core.
From Verif Require RoundSynth.
From Verif Require Import SumOrder Num XR Engine Cpx SpectralModel WaveModel SpectrumModel SeriesModel Spec XRFacts TimeSpec EngineProps TimeProps
  FourierSpec FourierFacts SeriesProps SimpsonFacts MomentProps PeakProps RoundNum RoundProps RoundWave RoundSpec RoundChain RoundPeriod RoundAccuracy.
Import ListNotations.
Open Scope R_scope.

(** entry k of l is clearly the nearest to v: every other is further away by more than the rounding of a distance *)
Definition clearly_nearest (l : list R) (v : R) (k : nat) : Prop :=
  (k < length l)%nat /\ forall j, (j < length l)%nat -> j <> k -> (1 + / 2 ^ 51) * Rabs (nth k l 0 - v) + bpow radix2 (-1000) < Rabs (nth j l 0 - v).

Section AnyOrder.
Context {So : summation} {Lm : libm}.

Lemma index_NB l v : l <> [] -> exists i, approx_array_index (N:=NB) (F l) (Fin v) = Ok i /\ (i < length l)%nat
  /\ (forall j, (j < length l)%nat -> Rabs (rnd (nth i l 0 - v)) <= Rabs (rnd (nth j l 0 - v))) /\ forall j, (j < i)%nat -> Rabs (rnd (nth i l 0 - v)) < Rabs (rnd (nth j l 0 - v)).
Proof.
  intros Hl. assert (E : approx_array_index (N:=NB) (F l) (Fin v) = argmin (N:=NX) (F (map (fun a => Rabs (rnd (a - v))) l))).
  { unfold approx_array_index. change (argmin (N:=NB)) with (argmin (N:=NX)). f_equal. unfold F. rewrite !map_map. reflexivity. }
  assert (Nm : map (fun a => Rabs (rnd (a - v))) l <> []) by (destruct l; [contradiction|discriminate]).
  destruct (argmin_spec _ Nm) as (i & Ei & Hi & Hmin & Hf). rewrite map_length in *. exists i. rewrite E. split; [exact Ei|]. split; [exact Hi|].
  assert (N : forall q, (q < length l)%nat -> nth q (map (fun a => Rabs (rnd (a - v))) l) 0 = Rabs (rnd (nth q l 0 - v))).
  { intros q Hq. rewrite (nth_indep _ 0 ((fun b => Rabs (rnd (b - v))) 0)) by (rewrite map_length; exact Hq). rewrite (map_nth (fun b => Rabs (rnd (b - v)))). reflexivity. }
  split; intros j Hj; [specialize (Hmin j Hj)|specialize (Hf j Hj)]; rewrite !N in * by lia; assumption.
Qed.
Lemma dist_err x : Rabs x * (1 - u53) - bpow radix2 (-1073) <= Rabs (rnd x) <= Rabs x * (1 + u53) + bpow radix2 (-1073).
Proof.
  assert (A := rnd_abs x). replace (u53 * (Rabs x + bpow radix2 (-1020))) with (Rabs x * u53 + bpow radix2 (-1073)) in A by (unfold u53; rewrite (Rmult_plus_distr_l (bpow radix2 (-53))), <- bpow_plus; change (-53 + -1020)%Z with (-1073)%Z; ring).
  assert (B := Rabs_triang_inv (rnd x) x). assert (D := Rabs_triang_inv x (rnd x)). rewrite <- (Rabs_Ropp (x - rnd x)), Ropp_minus_distr in D. lra.
Qed.
(** (a) the entry found is at most the rounding of a distance further away than the nearest, and is the nearest when that is clear *)
Theorem C96_nearest (l : list R) (v : R) : l <> [] -> exists i, approx_array_index (N:=NB) (F l) (Fin v) = Ok i /\ (i < length l)%nat
  /\ (forall j, (j < length l)%nat -> Rabs (nth i l 0 - v) <= (1 + / 2 ^ 51) * Rabs (nth j l 0 - v) + bpow radix2 (-1000))
  /\ (forall k, clearly_nearest l v k -> i = k).
Proof.
  intros Hl. destruct (index_NB l v Hl) as (i & Ei & Hi & Hmin & _). exists i. split; [exact Ei|]. split; [exact Hi|].
  assert (G : forall j, (j < length l)%nat -> Rabs (nth i l 0 - v) <= (1 + / 2 ^ 51) * Rabs (nth j l 0 - v) + bpow radix2 (-1000)).
  { intros j Hj. specialize (Hmin j Hj). destruct (dist_err (nth i l 0 - v)) as [A _]. destruct (dist_err (nth j l 0 - v)) as [_ B]. assert (U := u53_val).
    assert (P := Rabs_pos (nth j l 0 - v)). set (x := Rabs (nth i l 0 - v)) in *. set (y := Rabs (nth j l 0 - v)) in *. clearbody x y.
    assert (T : 4 * bpow radix2 (-1073) <= bpow radix2 (-1000)) by (replace 4 with (bpow radix2 2) by reflexivity; rewrite <- bpow_plus; apply bpow_le; lia). assert (T0 := b_pos (-1073)).
    set (t := bpow radix2 (-1073)) in *. set (T1 := bpow radix2 (-1000)) in *. clearbody t T1. rewrite U in A, B.
    assert (D : x * (1 - / 9007199254740992) <= y * (1 + / 9007199254740992) + 2 * t) by lra. lra. }
  split; [exact G|]. intros k [Hk Ck]. destruct (Nat.eq_dec i k) as [|Ne]; [assumption|exfalso]. specialize (Ck i Hi Ne). specialize (G k Hk). lra.
Qed.
(** without "clearly" it fails: of 0 and 2^-60 the nearest to 1 is 2^-60, but both distances are rounded to 1 and the first entry is taken *)
Theorem C96_nearest_refuted : exists (l : list R) (v : R), floats l /\ is_float v /\ increasing l
  /\ approx_array_index (N:=NX) (F l) (Fin v) = Ok 1%nat /\ approx_array_index (N:=NB) (F l) (Fin v) = Ok 0%nat.
Proof.
  set (t := bpow radix2 (-60)). assert (T : 0 < t <= / 1000) by (unfold t; cbn; lra). exists [0; t], 1.
  split; [intros v [<-|[<-|[]]]; [apply float_0|apply float_bpow; lia]|]. split; [apply float_1|].
  split; [intros [|[|i]] [|[|j]] Hij; cbn in Hij; try lia; cbn [nth]; lra|].
  assert (D : rnd (t - 1) = -1).
  { rewrite (RoundSynth.rnd_at 0 (- 2 ^ 53)); [cbn; lra|lia| |].
    - rewrite Rabs_left by lra. cbn. lra.
    - unfold t. cbn. apply Rabs_def1; lra. }
  assert (D0 : rnd (0 - 1) = -1) by (replace (0 - 1) with (- (1)) by ring; rewrite rnd_opp, (rnd_id 1) by apply float_1; reflexivity).
  split.
  - assert (Ne : map (fun a => Rabs (a - 1)) [0; t] <> []) by discriminate. destruct (argmin_spec _ Ne) as (i & Ei & Hi & Hmin & _).
    assert (E : approx_array_index (N:=NX) (F [0; t]) (Fin 1) = argmin (N:=NX) (F (map (fun a => Rabs (a - 1)) [0; t]))).
    { reflexivity. }
    rewrite E, Ei. f_equal. cbn [map length] in *. specialize (Hmin 1%nat ltac:(lia)). destruct i as [|[|i]]; [exfalso|reflexivity|lia].
    cbn [nth] in Hmin. rewrite !Rabs_left in Hmin by lra. lra.
  - destruct (index_NB [0; t] 1 ltac:(discriminate)) as (i & Ei & Hi & _ & Hlt). rewrite Ei. f_equal. cbn [length] in Hi. destruct i as [|[|i]]; [reflexivity|exfalso|lia].
    specialize (Hlt 0%nat ltac:(lia)). cbn [nth] in Hlt. rewrite D, D0 in Hlt. lra.
Qed.
Lemma clearly_nearest_NX l v k : clearly_nearest l v k -> nearest l v k.
Proof.
  intros [Hk Ck]. split; [exact Hk|]. assert (P := Rabs_pos (nth k l 0 - v)). assert (T := b_pos (-1000)).
  assert (G : forall j, (j < length l)%nat -> j <> k -> Rabs (nth k l 0 - v) < Rabs (nth j l 0 - v)) by (intros j Hj Ne; specialize (Ck j Hj Ne); lra).
  split; intros j Hj.
  - destruct (Nat.eq_dec j k) as [->|Ne]; [lra|]. apply Rlt_le, G; assumption.
  - apply G; lia.
Qed.

Section Limits.
  Variables (h : R) (f s : list R) (m : Z).
  Hypothesis Hf : freq_axis_fl h f.
  Hypothesis Hg : good_axis f.
  Hypothesis Hmono : monotonic_increasing_constant_step (N:=NB) (F f) = Ok true.
  Hypothesis Ls : length s = length f.
  Hypothesis Hm : (-5 <= m <= 3)%Z.
  Variables (fmin fmax : R) (a b : nat).
  Hypothesis (Pmin : 0 < fmin) (Pm : fmin <= fmax).
  Hypothesis (Na : clearly_nearest (without_zero m f f) fmin a).

  Lemma limits_NB_in : fmax <= last_of f -> clearly_nearest (without_zero m f f) fmax b ->
    compute_moment (N:=NB) (Arr (vec (F f))) (Arr (vec (F s))) m (Fin fmin) (Fin fmax) = Ok (Fin (fpart f s m a (b + 1))).
  Proof.
    intros Hlast Nb. assert (T := fa_two _ _ Hf).
    assert (Nf : F f <> []) by (destruct f; [cbn in T; lia|discriminate]).
    assert (Ns : F s <> []) by (destruct s; [cbn in Ls; lia|discriminate]).
    destruct (@hv_convert (car NB) (F f) (Arr (vec (F f))) Nf (hv_flat _)) as (kf & Hkf & Evf).
    destruct (@hv_convert (car NB) (F s) (Arr (vec (F s))) Ns (hv_flat _)) as (ks & Hks & Evs).
    unfold compute_moment. rewrite Evf, Evs. cbn [fst snd].
    destruct (Nat.ltb_spec 1 kf); [lia|]. destruct (Nat.ltb_spec 1 ks); [lia|]. cbn [orb]. rewrite !as_list_vec, bind_Ok.
    rewrite Hmono, bind_Ok. cbn [negb]. rewrite !F_length, Ls, Nat.eqb_refl. cbn [negb]. rewrite bind_Ok.
    rewrite idx_F, bind_Ok by lia. cbv zeta.
    assert (Dz : forall l : list R, drop_zero (N:=NB) (A:=car NB) m (Fin (nth 0 f 0)) (F l) = F (dz f m l)).
    { intros l. unfold drop_zero, dz. rewrite nb_0, nb_eqb. destruct (Z.ltb m 0); [|reflexivity].
      destruct (Reqb (nth 0 f 0) 0); [destruct l|]; reflexivity. }
    rewrite !Dz. rewrite (integrand_NB h f Hf m s Ls).
    rewrite nb_opp1, !nb_eqb, !(Reqb_false _ (-1)) by lra. cbn [orb].
    rewrite idx_F, bind_Ok by lia.
    assert (Ne := dz_ne h f Hf m s Ls).
    assert (NeF : F (dz f m f) <> []) by (destruct (dz f m f); [contradiction|discriminate]).
    assert (Zs : (zskip f m <= 1)%nat) by (unfold zskip; destruct (_ && _); lia).
    rewrite (@idx_last_nth (car NB) _ (Fin 0) NeF), F_length, F_nth, bind_Ok.
    assert (Last : nth (length (dz f m f) - 1) (dz f m f) 0 = nth (length f - 1) f 0).
    { rewrite (dz_nth f m f (length f - 1)) by lia. rewrite dz_len. f_equal. lia. }
    rewrite Last. unfold last_of in Hlast. rewrite nb_leb, Rleb_true by exact Hlast.
    rewrite nb_0, !nb_eqb, (Reqb_false fmin 0) by lra. rewrite andb_false_r.
    change (without_zero m f f) with (dz f m f) in *.
    destruct (C96_nearest (dz f m f) fmin Ne) as (i & Ei & _ & _ & Ui). rewrite Ei, bind_Ok, (Ui a Na).
    destruct (C96_nearest (dz f m f) fmax Ne) as (j & Ej & _ & _ & Uj). rewrite Ej, bind_Ok, (Uj b Nb).
    unfold simpson_slice. rewrite !F_slice. apply simpson_fsimp.
    - intros E. assert (L0 : length (slice a (b + 1) (dz f m f)) = 0%nat) by (rewrite E; reflexivity). rewrite slice_length in L0.
      assert (Hab : (a <= b)%nat); [|destruct Na as [Ha _]; lia].
      apply (nearest_mono (dz f m f) fmin fmax); auto using clearly_nearest_NX.
      intros p q Hpq. rewrite dz_len in Hpq. assert (A := f_inc h f Hf (p + zskip f m)%nat (q + zskip f m)%nat ltac:(lia)).
      rewrite (dz_nth f m f (p + _)), (dz_nth f m f (q + _)) in A by lia. rewrite !Nat.add_sub in A. exact A.
    - rewrite !slice_length, (wg_length f m s Ls). reflexivity.
  Qed.
  Lemma dz_inc : increasing (dz f m f).
  Proof.
    intros p q Hpq. rewrite dz_len in Hpq. assert (A := f_inc h f Hf (p + zskip f m)%nat (q + zskip f m)%nat ltac:(lia)).
    assert (Zs : (zskip f m <= 1)%nat) by (unfold zskip; destruct (_ && _); lia). rewrite (dz_nth f m f (p + _)), (dz_nth f m f (q + _)) in A by lia. rewrite !Nat.add_sub in A. exact A.
  Qed.
  Lemma limits_NX_in : fmax <= last_of f -> clearly_nearest (without_zero m f f) fmax b -> (a <= b)%nat /\
    compute_moment (N:=NX) (Arr (vec (F f))) (Arr (vec (F s))) m (Fin fmin) (Fin fmax) = Ok (Fin (rpart f s m a (b + 1))).
  Proof.
    intros Hlast Nb. assert (Hq : freq_axis f) by (split; [exact Hg|apply (fa_first h f Hf)]).
    destruct (moment_in f s m Hq Ls fmin fmax ltac:(lra) ltac:(lra) ltac:(left; lra) Hlast) as (i & j & Ni & Nj & Hij & ->).
    change (without_zero m f f) with (dz f m f) in *.
    assert (i = a) as -> by (apply (nearest_unique (dz f m f) fmin); auto using dz_inc, clearly_nearest_NX).
    assert (j = b) as -> by (apply (nearest_unique (dz f m f) fmax); auto using dz_inc, clearly_nearest_NX).
    split; [exact Hij|reflexivity].
  Qed.
End Limits.

(** (b) moments between any two limits up to the last frequency, each clearly nearest to one frequency *)
Theorem C96_moments (h : R) (f s : list R) (m : Z) (fmin fmax : R) (a b : nat) :
  freq_axis_fl h f -> good_axis f -> monotonic_increasing_constant_step (N:=NB) (F f) = Ok true ->
  length s = length f -> (forall v, In v s -> density_ok v) -> (Z.of_nat (length f) <= 2 ^ 30)%Z -> (-5 <= m <= 3)%Z ->
  0 < fmin -> fmin <= fmax <= last_of f -> clearly_nearest (without_zero m f f) fmin a -> clearly_nearest (without_zero m f f) fmax b ->
  exists x r,
    compute_moment (N:=NX) (Arr (vec (F f))) (Arr (vec (F s))) m (Fin fmin) (Fin fmax) = Ok (Fin x)
    /\ compute_moment (N:=NB) (Arr (vec (F f))) (Arr (vec (F s))) m (Fin fmin) (Fin fmax) = Ok (Fin r)
    /\ 0 <= x /\ Rabs (r - x) <= accuracy (length f) * x.
Proof.
  intros Hf Hg Ck Ls Ds Hn Hm P0 [P1 P2] Na Nb.
  destruct (limits_NX_in h f s m Hf Hg Ls fmin fmax a b P0 P1 Na P2 Nb) as [Hab EX].
  exists (rpart f s m a (b + 1)), (fpart f s m a (b + 1)). split; [exact EX|]. split; [exact (limits_NB_in h f s m Hf Hg Ck Ls fmin fmax a b P0 P1 Na P2 Nb)|].
  destruct Na as [La _]. change (without_zero m f f) with (dz f m f) in La. split.
  - apply (part_size h f s m Hf Ls Ds Hm); [lia|exact La|exact Hn].
  - rewrite accuracy_eps. apply (part_accuracy h f s m Hf Ls Ds Hm); [lia|exact La|exact Hn].
Qed.
Lemma powerRZ_inv' r (n : positive) : powerRZ r (Zneg n) = / powerRZ r (Zpos n).
Proof. reflexivity. Qed.
Lemma powerRZ_low4 r m : bpow radix2 (-100) <= r <= bpow radix2 100 -> (-4 <= m <= 4)%Z -> bpow radix2 (-400) <= powerRZ r m.
Proof.
  intros Hr Hm. assert (Z := b_pos (-100)). destruct m as [|p|p].
  - cbn [powerRZ]. change 1 with (bpow radix2 0). apply bpow_le. lia.
  - cbn [powerRZ]. apply Rle_trans with (bpow radix2 (-100) ^ Pos.to_nat p); [rewrite bpow_pow; apply bpow_le; lia|]. apply pow_incr. lra.
  - cbn [powerRZ]. apply Rle_trans with (/ (bpow radix2 100 ^ Pos.to_nat p)).
    + rewrite bpow_pow, <- bpow_opp. apply bpow_le. lia.
    + apply Rinv_le_contravar; [apply pow_lt; lra|]. apply pow_incr. lra.
Qed.
(** ** The tail beyond the last frequency *)
(** the exact tail, C/e (f_hi^e - f_last^e) with C = S_last f_last^5 and e = m - 4; P stands for f_hi^e *)
Definition tail_of (a b : R) (e : Z) (P : R) : R := b / powerRZ a (-5) / IZR e * (P - powerRZ a e).
Definition tail_fl (a b : R) (e : Z) (p : R) : R := rnd (rnd (rnd (b / fpowi a (-5)) / IZR e) * rnd (p - fpowi a e)).
Lemma tail_err a b e p P : bpow radix2 (-100) <= a <= bpow radix2 100 -> density_ok b -> (-9 <= e < 0)%Z ->
  0 <= P <= powerRZ a e -> Rabs (p - P) <= 8 * u53 * P ->
  (0 <= tail_of a b e P <= tail_of a b e 0) /\ Rabs (tail_fl a b e p - tail_of a b e P) <= 48 * u53 * tail_of a b e 0
  /\ (tail_of a b e 0 = 0 \/ bpow radix2 (-900) <= tail_of a b e 0).
Proof.
  intros Ha Db He HP Hp. assert (Z0 := b_pos (-100)). assert (Z1 := b_pos (-1000)). assert (Z2 := b_pos (-200)). assert (U := u53_val). assert (Uu := u_pos).
  set (w := IZR (- e)). assert (W : 1 <= w <= 16) by (split; apply IZR_le; lia). assert (We : IZR e = - w) by (unfold w; rewrite opp_IZR; ring).
  assert (A0 := powerRZ_low a e Ha ltac:(lia)). assert (AA := fpowi_acc a e Ha ltac:(lia)). set (A := powerRZ a e) in *.
  assert (F0 := powerRZ_low a (-5) Ha ltac:(lia)). assert (FA := fpowi_acc a (-5) Ha ltac:(lia)). set (G := powerRZ a (-5)) in *.
  set (K := b / G / w). assert (Hb : 0 <= b) by (destruct Db as [->|[Db _]]; lra).
  assert (Q0 : 0 <= b / G) by (apply Rmult_le_pos; [exact Hb|apply Rlt_le, Rinv_0_lt_compat; lra]).
  assert (K0 : 0 <= K) by (apply Rmult_le_pos; [exact Q0|apply Rlt_le, Rinv_0_lt_compat; lra]).
  assert (Tof : forall q, tail_of a b e q = K * (A - q)).
  { intros q. unfold tail_of. fold A G. rewrite We. unfold K. field. split; lra. }
  rewrite !Tof, Rminus_0_r. assert (X0 : 0 <= K * A) by (apply Rmult_le_pos; lra).
  split; [split; [apply Rmult_le_pos; lra|apply Rmult_le_compat_l; lra]|].
  destruct Db as [E|[Bl _]].
  { assert (Kz : K = 0) by (unfold K; rewrite E; unfold Rdiv; ring). rewrite Kz, !Rmult_0_l. split; [|left; reflexivity].
    unfold tail_fl. rewrite E. replace (0 / fpowi a (-5)) with 0 by (unfold Rdiv; ring). rewrite (rnd_id 0) by apply float_0.
    replace (0 / IZR e) with 0 by (unfold Rdiv; ring). rewrite (rnd_id 0) by apply float_0. rewrite Rmult_0_l, (rnd_id 0) by apply float_0. rewrite Rminus_eq_0, Rabs_R0. lra. }
  (* sizes *)
  assert (Gup : G * bpow radix2 (-500) <= 1).
  { unfold G. change (powerRZ a (-5)) with (/ a ^ 5). assert (bpow radix2 (-100) ^ 5 <= a ^ 5) by (apply pow_incr; lra). rewrite bpow_pow in H. change (-100 * Z.of_nat 5)%Z with (-500)%Z in H.
    assert (B5 := b_pos (-500)). assert (P5 : 0 < a ^ 5) by lra. apply (Rmult_le_reg_l (a ^ 5)); [exact P5|]. rewrite <- Rmult_assoc, Rinv_r by lra. lra. }
  assert (Ql : bpow radix2 (-700) <= b / G).
  { apply (Rmult_le_reg_r G); [lra|]. replace (b / G * G) with b by (field; lra). replace (bpow radix2 (-700)) with (bpow radix2 (-200) * bpow radix2 (-500)) by (rewrite <- bpow_plus; reflexivity).
    apply Rle_trans with (bpow radix2 (-200) * 1); [rewrite Rmult_assoc; apply Rmult_le_compat_l; lra|lra]. }
  assert (Kl : bpow radix2 (-704) <= K).
  { unfold K. apply (Rmult_le_reg_r w); [lra|]. replace (b / G / w * w) with (b / G) by (field; lra). apply Rle_trans with (bpow radix2 (-704) * 16); [apply Rmult_le_compat_l; [apply Rlt_le, b_pos|lra]|].
    change 16 with (bpow radix2 4). rewrite <- bpow_plus. exact Ql. }
  assert (Xl : bpow radix2 (-900) <= K * A).
  { assert (E : K * A = b * powerRZ a (e + 5) / w).
    { unfold K, A, G. rewrite powerRZ_add by lra. rewrite (powerRZ_inv' a 5). field. repeat split; try lra; apply powerRZ_NOR; lra. }
    rewrite E. assert (L : bpow radix2 (-400) <= powerRZ a (e + 5)) by (apply powerRZ_low4; [exact Ha|lia]).
    apply (Rmult_le_reg_r w); [lra|]. replace (b * powerRZ a (e + 5) / w * w) with (b * powerRZ a (e + 5)) by (field; lra).
    apply Rle_trans with (bpow radix2 (-900) * 16); [apply Rmult_le_compat_l; [apply Rlt_le, b_pos|lra]|]. change 16 with (bpow radix2 4). rewrite <- bpow_plus.
    apply Rle_trans with (bpow radix2 (-200) * bpow radix2 (-400)); [rewrite <- bpow_plus; apply bpow_le; lia|]. apply Rmult_le_compat; try apply Rlt_le, b_pos; lra. }
  split; [|right; exact Xl].
  (* the factor *)
  assert (R1 : rel 18 (b / G) (b / fpowi a (-5))) by (apply (rel_div 0 9); [exact Hb|lra|apply rel_refl|apply eight_rel; [lra|exact FA]]).
  assert (R2 : rel 19 (b / G) (rnd (b / fpowi a (-5)))) by (apply rel_rnd; [lia|right; eapply Rle_trans; [apply bpow_le|exact Ql]; lia|exact R1]).
  assert (R3 : rel 19 K (rnd (b / fpowi a (-5)) / w)).
  { unfold K. apply (rel_div 19 0); [exact Q0|lra|exact R2|apply rel_refl]. }
  assert (R4 : rel 20 K (rnd (rnd (b / fpowi a (-5)) / w))) by (apply rel_rnd; [lia|right; eapply Rle_trans; [apply bpow_le|exact Kl]; lia|exact R3]).
  apply rel_abs in R4; [|lia|exact K0]. replace (INR 20) with 20 in R4 by (cbn; lra). set (k := rnd (rnd (b / fpowi a (-5)) / w)) in *.
  unfold tail_fl. replace (rnd (b / fpowi a (-5)) / IZR e) with (- (rnd (b / fpowi a (-5)) / w)) by (rewrite We; field; lra). rewrite rnd_opp. fold k.
  replace (p - fpowi a e) with (- (fpowi a e - p)) by ring. rewrite rnd_opp, Rmult_opp_opp.
  set (d := fpowi a e - p). set (D := A - P).
  assert (DA : 0 <= D <= A) by (unfold D; lra).
  assert (Ed : Rabs (d - D) <= 16 * u53 * A).
  { replace (d - D) with ((fpowi a e - A) - (p - P)) by (unfold d, D; ring). unfold Rminus at 1. eapply Rle_trans; [apply Rabs_triang|]. rewrite Rabs_Ropp.
    assert (u53 * P <= u53 * A) by (apply Rmult_le_compat_l; lra). lra. }
  assert (uA0 : 0 <= u53 * A) by (apply Rmult_le_pos; lra). assert (uA : u53 * A <= / 1000000 * A) by (apply Rmult_le_compat_r; lra).
  assert (Sd : Rabs d <= A + 16 * (u53 * A)).
  { replace d with (D + (d - D)) by ring. eapply Rle_trans; [apply Rabs_triang|]. rewrite (Rabs_pos_eq D) by lra. lra. }
  assert (Rd := rnd_abs d). assert (T20 : bpow radix2 (-1020) <= / 1000 * A).
  { apply Rle_trans with (/ 1000 * bpow radix2 (-1000)); [|lra]. replace (bpow radix2 (-1020)) with (bpow radix2 (-20) * bpow radix2 (-1000)) by (rewrite <- bpow_plus; reflexivity).
    apply Rmult_le_compat_r; [lra|]. cbn. lra. }
  assert (Er : Rabs (rnd d - D) <= 171 / 10 * (u53 * A)).
  { replace (rnd d - D) with ((rnd d - d) + (d - D)) by ring. eapply Rle_trans; [apply Rabs_triang|].
    assert (u53 * (Rabs d + bpow radix2 (-1020)) <= u53 * (A + 16 * (/ 1000000 * A) + / 1000 * A)) by (apply Rmult_le_compat_l; lra). lra. }
  assert (Sr : Rabs (rnd d) <= 1001 / 1000 * A).
  { replace (rnd d) with (D + (rnd d - D)) by ring. eapply Rle_trans; [apply Rabs_triang|]. rewrite (Rabs_pos_eq D) by lra. lra. }
  assert (Em : Rabs (k * rnd d - K * D) <= 372 / 10 * (u53 * (K * A))).
  { replace (k * rnd d - K * D) with ((k - K) * rnd d + K * (rnd d - D)) by ring. eapply Rle_trans; [apply Rabs_triang|]. rewrite !Rabs_mult, (Rabs_pos_eq K) by exact K0.
    assert (M1 : Rabs (k - K) * Rabs (rnd d) <= (1001 / 1000 * (20 * u53) * K) * (1001 / 1000 * A)) by (apply Rmult_le_compat; try apply Rabs_pos; assumption).
    assert (M2 : K * Rabs (rnd d - D) <= K * (171 / 10 * (u53 * A))) by (apply Rmult_le_compat_l; assumption).
    assert (M0 : 0 <= u53 * (K * A)) by (apply Rmult_le_pos; lra).
    replace (1001 / 1000 * (20 * u53) * K * (1001 / 1000 * A)) with (20 * (1001 / 1000) * (1001 / 1000) * (u53 * (K * A))) in M1 by ring.
    replace (K * (171 / 10 * (u53 * A))) with (171 / 10 * (u53 * (K * A))) in M2 by ring. lra. }
  set (X := K * A) in *. assert (uX0 : 0 <= u53 * X) by (apply Rmult_le_pos; lra). assert (uX : u53 * X <= / 1000000 * X) by (apply Rmult_le_compat_r; lra).
  assert (KD : 0 <= K * D <= X) by (unfold X; split; [apply Rmult_le_pos; lra|apply Rmult_le_compat_l; lra]).
  set (z := k * rnd d) in *. assert (Sz : Rabs z <= 11 / 10 * X).
  { replace z with (K * D + (z - K * D)) by ring. eapply Rle_trans; [apply Rabs_triang|]. rewrite (Rabs_pos_eq (K * D)) by lra. lra. }
  assert (Rz := rnd_abs z). assert (T20' : bpow radix2 (-1020) <= X) by (eapply Rle_trans; [apply bpow_le|exact Xl]; lia).
  assert (u53 * (Rabs z + bpow radix2 (-1020)) <= u53 * (11 / 10 * X + X)) by (apply Rmult_le_compat_l; lra).
  replace (rnd z - K * D) with ((rnd z - z) + (z - K * D)) by ring. eapply Rle_trans; [apply Rabs_triang|]. lra.
Qed.
(** limits above the last frequency: infinite, or a number; with their powers in exact arithmetic and as computed *)
Definition above (fl : R) (e : Z) (hi : xr) (P p : R) : Prop :=
  hi = PInf /\ P = 0 /\ p = 0 \/ exists c, hi = Fin c /\ fl < c <= bpow radix2 100 /\ P = powerRZ c e /\ p = fpowi c e.
Lemma tail_NX_of a b m hi P p : 0 < a -> (-5 <= m <= 3)%Z -> above a (m - 4) hi P p ->
  tail_moment (N:=NX) (Fin a) (Fin b) hi m = Ok (Fin (tail_of a b (m - 4) P)).
Proof.
  intros Ha Hm H. assert (IZR (m - 4) <> 0) by (apply not_0_IZR; lia). unfold tail_moment, tail_of. replace (m + -5 + 1)%Z with (m - 4)%Z by lia.
  assert (Q : neqb (n:=NX) hi (n0 (N:=NX)) = false).
  { destruct H as [(-> & _)|(c & -> & Hc & _)]; [reflexivity|]. rewrite fin_0, fin_eqb, Reqb_false by lra. reflexivity. }
  rewrite Q. cbn [andb]. rewrite !(npowi_F a) by (left; lra). rewrite fin_div by (apply Rgt_not_eq, powerRZ_lt; auto). rewrite fin_ofZ, fin_div by assumption.
  destruct H as [(-> & -> & _)|(c & -> & Hc & -> & _)].
  - rewrite npowi_inf_neg by lia. rewrite fin_sub, fin_mul. reflexivity.
  - rewrite npowi_F by (left; lra). rewrite fin_sub, fin_mul. reflexivity.
Qed.
Lemma tail_NB_of a b m hi P p : bpow radix2 (-100) <= a <= bpow radix2 100 -> (-5 <= m <= 3)%Z -> above a (m - 4) hi P p ->
  tail_moment (N:=NB) (Fin a) (Fin b) hi m = Ok (Fin (tail_fl a b (m - 4) p)).
Proof.
  intros Ha Hm H. assert (Z := b_pos (-100)). assert (IZR (m - 4) <> 0) by (apply not_0_IZR; lia). unfold tail_moment, tail_fl. replace (m + -5 + 1)%Z with (m - 4)%Z by lia.
  assert (Q : neqb (n:=NB) hi (n0 (N:=NB)) = false).
  { destruct H as [(-> & _)|(c & -> & Hc & _)]; rewrite nb_0; [reflexivity|]. rewrite nb_eqb, Reqb_false by lra. reflexivity. }
  rewrite Q. cbn [andb]. destruct (nb_powi a (-5) ltac:(lra) ltac:(lra)) as (-> & _). destruct (nb_powi a (m - 4) ltac:(lra) ltac:(lra)) as (-> & _).
  assert (D : 0 < fpowi a (-5)) by (apply fpowi_big; [lra|lia]). rewrite nb_div by lra. rewrite nb_ofZ by lia. rewrite nb_div by assumption.
  destruct H as [(-> & _ & ->)|(c & -> & Hc & _ & ->)].
  - rewrite powi_inf by lia. rewrite nb_sub, nb_mul. reflexivity.
  - destruct (nb_powi c (m - 4) ltac:(lra) ltac:(lra)) as (-> & _). rewrite nb_sub, nb_mul. reflexivity.
Qed.
Lemma above_err a e hi P p : bpow radix2 (-100) <= a -> (-9 <= e < 0)%Z -> above a e hi P p -> 0 <= P <= powerRZ a e /\ Rabs (p - P) <= 8 * u53 * P.
Proof.
  intros Ha He [(_ & -> & ->)|(c & _ & Hc & -> & ->)]; assert (Z := b_pos (-100)).
  - split; [split; [lra|apply powerRZ_le; lra]|]. rewrite Rminus_eq_0, Rabs_R0. lra.
  - split; [split; [apply powerRZ_le; lra|]|apply fpowi_acc; [lra|lia]]. destruct e as [|q|q]; try lia. cbn [powerRZ].
    apply Rinv_le_contravar; [apply pow_lt; lra|]. apply pow_incr. lra.
Qed.

Section Beyond.
  Variables (h : R) (f s : list R) (m : Z).
  Hypothesis Hf : freq_axis_fl h f.
  Hypothesis Hg : good_axis f.
  Hypothesis Hmono : monotonic_increasing_constant_step (N:=NB) (F f) = Ok true.
  Hypothesis Ls : length s = length f.
  Hypothesis Hm : (-5 <= m <= 3)%Z.
  Variables (fmin : R) (a : nat).
  Hypothesis (Pmin : 0 < fmin).
  Hypothesis (Na : clearly_nearest (without_zero m f f) fmin a).
  Variables (hi : xr) (P p : R).
  Hypothesis Hi : above (last_of f) (m - 4) hi P p.

  Lemma last_size : bpow radix2 (-100) <= last_of f <= bpow radix2 100.
  Proof.
    assert (T := fa_two _ _ Hf). unfold last_of. split; [|apply (fa_top _ _ Hf), nth_In; lia].
    destruct (fa_big h f Hf (length f - 1) ltac:(lia)) as [[_ C]|C]; [lia|exact C].
  Qed.
  Lemma limits_NX_out :
    compute_moment (N:=NX) (Arr (vec (F f))) (Arr (vec (F s))) m (Fin fmin) hi
    = Ok (Fin (rpart f s m a (length (dz f m f)) + tail_of (last_of f) (last_of s) (m - 4) P)).
  Proof.
    assert (Hq : freq_axis f) by (split; [exact Hg|apply (fa_first h f Hf)]). assert (Lo := proj1 last_size). assert (Z := b_pos (-100)).
    assert (Zs : (zskip f m <= 1)%nat) by (unfold zskip; destruct (_ && _); lia). assert (T := fa_two _ _ Hf).
    destruct (moment_beyond f s m fmin Hq Ls ltac:(lra) hi) as (body & Eb & E).
    - destruct Hi as [(-> & _)|(c & -> & Hc & _)]; [discriminate|]. intros Q. apply fin_inj in Q. lra.
    - destruct Hi as [(-> & _)|(c & -> & Hc & _)]; [reflexivity|]. rewrite fin_leb, Rleb_false by lra. reflexivity.
    - rewrite E, (tail_NX_of _ _ m hi P p) by (auto; lra). rewrite bind_Ok, fin_add. do 3 f_equal.
      destruct (moment_in f s m Hq Ls fmin (last_of f) ltac:(lra) ltac:(lra) ltac:(right; lra) ltac:(lra)) as (i & j & Ni & Nj & Hij & E2).
      rewrite E2 in Eb. apply Ok_inj in Eb. apply fin_inj in Eb. rewrite <- Eb. change (without_zero m f f) with (dz f m f) in *.
      assert (i = a) as -> by (apply (nearest_unique (dz f m f) fmin); eauto using dz_inc, clearly_nearest_NX).
      assert (j = (length (dz f m f) - 1)%nat) as ->.
      { apply (nearest_unique (dz f m f) (last_of f)); eauto using dz_inc.
        assert (El : last_of f = nth (length (dz f m f) - 1) (dz f m f) 0) by (unfold last_of; rewrite (dz_nth f m f (length f - 1)) by lia; rewrite dz_len; f_equal; lia).
        rewrite El. apply nearest_self; [eauto using dz_inc|rewrite dz_len; lia]. }
      replace (length (dz f m f) - 1 + 1)%nat with (length (dz f m f)) by (rewrite dz_len; lia). reflexivity.
  Qed.
  Lemma limits_NB_out :
    compute_moment (N:=NB) (Arr (vec (F f))) (Arr (vec (F s))) m (Fin fmin) hi
    = Ok (Fin (rnd (fpart f s m a (length (dz f m f)) + tail_fl (last_of f) (last_of s) (m - 4) p))).
  Proof.
    assert (T := fa_two _ _ Hf). assert (Lo := last_size). assert (Z := b_pos (-100)).
    assert (Nf : F f <> []) by (destruct f; [cbn in T; lia|discriminate]).
    assert (Ns : F s <> []) by (destruct s; [cbn in Ls; lia|discriminate]).
    destruct (@hv_convert (car NB) (F f) (Arr (vec (F f))) Nf (hv_flat _)) as (kf & Hkf & Evf).
    destruct (@hv_convert (car NB) (F s) (Arr (vec (F s))) Ns (hv_flat _)) as (ks & Hks & Evs).
    unfold compute_moment. rewrite Evf, Evs. cbn [fst snd].
    destruct (Nat.ltb_spec 1 kf); [lia|]. destruct (Nat.ltb_spec 1 ks); [lia|]. cbn [orb]. rewrite !as_list_vec, bind_Ok.
    rewrite Hmono, bind_Ok. cbn [negb]. rewrite !F_length, Ls, Nat.eqb_refl. cbn [negb]. rewrite bind_Ok.
    rewrite idx_F, bind_Ok by lia. cbv zeta.
    assert (Dz : forall l : list R, drop_zero (N:=NB) (A:=car NB) m (Fin (nth 0 f 0)) (F l) = F (dz f m l)).
    { intros l. unfold drop_zero, dz. rewrite nb_0, nb_eqb. destruct (Z.ltb m 0); [|reflexivity].
      destruct (Reqb (nth 0 f 0) 0); [destruct l|]; reflexivity. }
    rewrite !Dz. rewrite (integrand_NB h f Hf m s Ls).
    assert (H1 : neqb (n:=NB) hi (Fin (-1)) = false) by (destruct Hi as [(-> & _)|(c & -> & Hc & _)]; [reflexivity|rewrite nb_eqb; apply Reqb_false; lra]).
    rewrite nb_opp1, H1, !nb_eqb, !(Reqb_false _ (-1)) by lra. cbn [orb].
    rewrite idx_F, bind_Ok by lia.
    assert (Ne := dz_ne h f Hf m s Ls).
    assert (NeF : F (dz f m f) <> []) by (destruct (dz f m f); [contradiction|discriminate]).
    assert (Zs : (zskip f m <= 1)%nat) by (unfold zskip; destruct (_ && _); lia).
    rewrite (@idx_last_nth (car NB) _ (Fin 0) NeF), F_length, F_nth, bind_Ok.
    assert (Last : nth (length (dz f m f) - 1) (dz f m f) 0 = last_of f).
    { unfold last_of. rewrite (dz_nth f m f (length f - 1)) by lia. rewrite dz_len. f_equal. lia. }
    assert (LastS : nth (length (dz f m s) - 1) (dz f m s) 0 = last_of s).
    { unfold last_of. rewrite (dz_nth f m s (length s - 1)) by lia. rewrite dz_len. f_equal. lia. }
    assert (H2 : nleb (n:=NB) hi (Fin (nth (length (dz f m f) - 1) (dz f m f) 0)) = false).
    { rewrite Last. destruct Hi as [(-> & _)|(c & -> & Hc & _)]; [reflexivity|rewrite nb_leb; apply Rleb_false; lra]. }
    rewrite H2. rewrite nb_0, !nb_eqb, (Reqb_false fmin 0) by lra. rewrite andb_false_r.
    change (without_zero m f f) with (dz f m f) in *.
    destruct (C96_nearest (dz f m f) fmin Ne) as (i & Ei & _ & _ & Ui). rewrite Ei, bind_Ok, (Ui a Na).
    assert (Inc : increasing (dz f m f)) by eauto using dz_inc.
    assert (Fl : floats (dz f m f)) by (intros v Hv; apply (fa_floats _ _ Hf), (dz_In f m); exact Hv).
    assert (Lz : (0 < length (dz f m f))%nat) by (rewrite dz_len; lia).
    rewrite (nearest_self_NB (dz f m f)) by (auto; lia). rewrite bind_Ok, Last.
    assert (NeS : F (dz f m s) <> []).
    { intros E. apply (f_equal (@length _)) in E. rewrite F_length, dz_len in E. cbn in E. lia. }
    destruct Na as [La _].
    assert (Es : simpson_slice (N:=NB) a (length (dz f m f) - 1) (F (wg f m s)) (F (dz f m f)) = Ok (Fin (fpart f s m a (length (dz f m f))))).
    { unfold simpson_slice. replace (length (dz f m f) - 1 + 1)%nat with (length (dz f m f)) by lia. rewrite !F_slice. apply simpson_fsimp.
      - intros E. assert (L0 : length (slice a (length (dz f m f)) (dz f m f)) = 0%nat) by (rewrite E; reflexivity). rewrite slice_length in L0. lia.
      - rewrite !slice_length, (wg_length f m s Ls). reflexivity. }
    rewrite Es, bind_Ok. rewrite (@idx_last_nth (car NB) _ (Fin 0) NeS), F_length, F_nth, bind_Ok, LastS.
    rewrite (tail_NB_of _ _ m hi P p) by auto. rewrite bind_Ok, nb_add. reflexivity.
  Qed.
End Beyond.

(** adding the body and the tail *)
Lemma sum_err B fb Tl Ti ft e : 76 * u53 <= e -> e <= / 1000000 -> 0 <= B -> 0 <= Tl <= Ti -> (B = 0 \/ bpow radix2 (-991) <= B) -> (Ti = 0 \/ bpow radix2 (-900) <= Ti) ->
  Rabs (fb - B) <= e * B -> Rabs (ft - Tl) <= 48 * u53 * Ti -> Rabs (rnd (fb + ft) - (B + Tl)) <= (e + 2 * u53) * (B + Ti).
Proof.
  intros He1 He2 HB HT SB ST Hb Ht. assert (U := u53_val). assert (Uu := u_pos). set (z := fb + ft).
  assert (Ez : Rabs (z - (B + Tl)) <= e * (B + Ti)).
  { replace (z - (B + Tl)) with ((fb - B) + (ft - Tl)) by (unfold z; ring). eapply Rle_trans; [apply Rabs_triang|].
    assert (48 * u53 * Ti <= e * Ti) by (apply Rmult_le_compat_r; lra). lra. }
  assert (E6 : e * (B + Ti) <= / 1000000 * (B + Ti)) by (apply Rmult_le_compat_r; lra).
  destruct (Req_dec (B + Ti) 0) as [Q|Q].
  { rewrite Q, Rmult_0_r in *. assert (Z0 : z = 0) by (apply Rabs_le_inv in Ez; lra). rewrite Z0, (rnd_id 0) by apply float_0. replace (B + Tl) with 0 by lra. rewrite Rminus_eq_0, Rabs_R0. lra. }
  assert (Sx : bpow radix2 (-991) <= B + Ti).
  { destruct SB as [SB|SB]; [|lra]. destruct ST as [ST|ST]; [lra|]. assert (bpow radix2 (-991) <= bpow radix2 (-900)) by (apply bpow_le; lia). lra. }
  assert (T20 : bpow radix2 (-1020) <= / 1000 * (B + Ti)).
  { apply Rle_trans with (/ 1000 * bpow radix2 (-991)); [|lra]. replace (bpow radix2 (-1020)) with (bpow radix2 (-29) * bpow radix2 (-991)) by (rewrite <- bpow_plus; reflexivity).
    apply Rmult_le_compat_r; [apply Rlt_le, b_pos|]. cbn. lra. }
  assert (Sz : Rabs z <= 11 / 10 * (B + Ti)).
  { replace z with ((B + Tl) + (z - (B + Tl))) by ring. eapply Rle_trans; [apply Rabs_triang|]. rewrite (Rabs_pos_eq (B + Tl)) by lra. lra. }
  assert (Rz := rnd_abs z). assert (u53 * (Rabs z + bpow radix2 (-1020)) <= u53 * (2 * (B + Ti))) by (apply Rmult_le_compat_l; lra).
  replace (rnd z - (B + Tl)) with ((rnd z - z) + (z - (B + Tl))) by ring. eapply Rle_trans; [apply Rabs_triang|]. lra.
Qed.
(** (c) upper limits above the last frequency, where the f^-5 tail is added: the error is small against the moment up to infinity *)
Theorem C96_tail (h : R) (f s : list R) (m : Z) (fmin : R) (a : nat) (hi : xr) :
  freq_axis_fl h f -> good_axis f -> monotonic_increasing_constant_step (N:=NB) (F f) = Ok true ->
  length s = length f -> (forall v, In v s -> density_ok v) -> (Z.of_nat (length f) <= 2 ^ 30)%Z -> (-5 <= m <= 3)%Z ->
  0 < fmin -> clearly_nearest (without_zero m f f) fmin a -> hi = PInf \/ (exists c, hi = Fin c /\ last_of f < c <= bpow radix2 100) ->
  exists x xinf r,
    compute_moment (N:=NX) (Arr (vec (F f))) (Arr (vec (F s))) m (Fin fmin) hi = Ok (Fin x)
    /\ compute_moment (N:=NX) (Arr (vec (F f))) (Arr (vec (F s))) m (Fin fmin) PInf = Ok (Fin xinf)
    /\ compute_moment (N:=NB) (Arr (vec (F f))) (Arr (vec (F s))) m (Fin fmin) hi = Ok (Fin r)
    /\ 0 <= x <= xinf /\ Rabs (r - x) <= accuracy (S (length f)) * xinf.
Proof.
  intros Hf Hg Ck Ls Ds Hn Hm P0 Na Hhi. assert (La := proj1 Na). change (without_zero m f f) with (dz f m f) in La. assert (Tw := fa_two _ _ Hf).
  assert (A : exists P p, above (last_of f) (m - 4) hi P p) by (destruct Hhi as [->|(c & -> & Hc)]; [exists 0, 0; left; auto|eexists; eexists; right; exists c; eauto]).
  destruct A as (P & p & A). assert (A' : above (last_of f) (m - 4) PInf 0 0) by (left; auto). assert (Lo : bpow radix2 (-100) <= last_of f <= bpow radix2 100) by (eapply last_size; eauto).
  destruct (above_err (last_of f) (m - 4) hi P p (proj1 Lo) ltac:(lia) A) as [HP Hp].
  assert (Dl : density_ok (last_of s)) by (apply Ds; unfold last_of; apply nth_In; lia).
  destruct (tail_err (last_of f) (last_of s) (m - 4) p P Lo Dl ltac:(lia) HP Hp) as (TS & TE & TL).
  destruct (part_size h f s m Hf Ls Ds Hm a (length (dz f m f)) ltac:(lia) La Hn) as [BS BP].
  assert (BA := part_accuracy h f s m Hf Ls Ds Hm a (length (dz f m f)) ltac:(lia) La Hn). assert (ES := eps_small (length f) Hn).
  do 3 eexists. split; [exact (limits_NX_out h f s m Hf Hg Ls Hm fmin a P0 Na hi P p A)|]. split; [exact (limits_NX_out h f s m Hf Hg Ls Hm fmin a P0 Na PInf 0 0 A')|].
  split; [exact (limits_NB_out h f s m Hf Hg Ck Ls Hm fmin a P0 Na hi P p A)|]. split; [lra|].
  assert (EA : accuracy (S (length f)) = eps (length f) + 2 * u53).
  { rewrite <- accuracy_eps. unfold accuracy. rewrite S_INR, u53_val. lra. }
  rewrite EA. apply sum_err; try assumption; try lra.
  destruct BS as [BS|BS]; [left; exact BS|right]. eapply Rle_trans; [apply bpow_le|exact BS]. lia.
Qed.
Lemma shift_nearest f m v k : (0 < k)%nat -> clearly_nearest f v k -> clearly_nearest (without_zero m f f) v (k - zskip f m).
Proof.
  intros K0 [Hk Ck]. change (without_zero m f f) with (dz f m f). assert (Zs : (zskip f m <= 1)%nat) by (unfold zskip; destruct (_ && _); lia). split.
  - rewrite dz_len. lia.
  - intros j Hj Ne. rewrite dz_len in Hj. specialize (Ck (j + zskip f m)%nat ltac:(lia) ltac:(lia)). rewrite (dz_nth f m f k), (dz_nth f m f (j + zskip f m)) in Ck by lia.
    rewrite Nat.add_sub in Ck. exact Ck.
Qed.
(** (d) the spectrum's getters with such limits *)
Theorem C96_getters (h : R) (f s : list R) (spx : spec NX) (spb : spec NB) (fmin fmax : R) (a b : nat) :
  freq_axis_fl h f -> (Z.of_nat (length f) <= 2 ^ 30)%Z -> s <> [] -> (forall v, In v s -> density_ok v) ->
  spectrum_init (N:=NX) (Arr (vec (F f))) (Arr (vec (F s))) = Ok spx ->
  spectrum_init (N:=NB) (Arr (vec (F f))) (Arr (vec (F s))) = Ok spb ->
  0 < fmin -> fmin <= fmax <= last_of f -> clearly_nearest f fmin a -> clearly_nearest f fmax b -> (0 < a)%nat ->
  let d := accuracy (length f) in
  let both gx gb e := exists v w, snd (gx (Fin fmin) (Fin fmax) spx) = Ok v /\ snd (gb (Fin fmin) (Fin fmax) spb) = Ok w /\ agree e v w in
  both (get_Hm0 (N:=NX)) (get_Hm0 (N:=NB)) d
  /\ both (get_Tm02 (N:=NX)) (get_Tm02 (N:=NB)) (2 * d)
  /\ both (get_Tm01 (N:=NX)) (get_Tm01 (N:=NB)) (3 * d)
  /\ both (get_Tmm10 (N:=NX)) (get_Tmm10 (N:=NB)) (3 * d).
Proof.
  intros Hf Hn Ns Ds Hx Hb P0 [P1 P2] Na Nb Ka d. assert (T := fa_two _ _ Hf).
  assert (Nf : f <> []) by (destruct f; [cbn in T; lia|discriminate]).
  destruct (spectrum_fields_NX f s spx T Ns Hx) as (Exf & Exs & Hg).
  destruct (spectrum_fields_NB f s spb Nf Ns Hb) as (Ebf & Ebs & Ls & Ck).
  assert (He := eps_small (length f) Hn). rewrite <- accuracy_eps in He. fold d in He.
  assert (FX : set_flim (N:=NX) (F f) (Fin fmin) (Fin fmax) = Ok (Fin fmin, Fin fmax)).
  { apply set_flim_F.
    - intros E. apply Nf. rewrite E. reflexivity.
    - right. split; [|reflexivity]. intros E. injection E as E. lra.
    - right. split; [|reflexivity]. intros E. injection E as E. lra. }
  assert (FB : set_flim (N:=NB) (F f) (Fin fmin) (Fin fmax) = Ok (Fin fmin, Fin fmax)).
  { rewrite <- FX. unfold set_flim. rewrite nb_opp1. assert (E1 : nopp (n:=NX) (n1 (N:=NX)) = Fin (-1)) by reflexivity. rewrite E1. reflexivity. }
  assert (Kb : (a <= b)%nat) by (apply (nearest_mono f fmin fmax); auto using clearly_nearest_NX, good_increasing).
  apply (getters_acc f s spx spb (Fin fmin) (Fin fmax) (Fin fmin) (Fin fmax) d Exf Exs Ebf Ebs FX FB He).
  intros m Hm. assert (Na' := shift_nearest f m fmin a Ka Na). assert (Nb' := shift_nearest f m fmax b ltac:(lia) Nb).
  destruct (limits_NX_in h f s m Hf Hg Ls fmin fmax _ _ P0 P1 Na' P2 Nb') as [Hab EX].
  do 2 eexists. split; [exact EX|]. split; [exact (limits_NB_in h f s m Hf Hg Ck Ls fmin fmax _ _ P0 P1 Na' P2 Nb')|].
  destruct Na' as [La _]. change (without_zero m f f) with (dz f m f) in La. split.
  - unfold d. rewrite accuracy_eps. apply (part_accuracy h f s m Hf Ls Ds Hm); [lia|exact La|exact Hn].
  - destruct (part_size h f s m Hf Ls Ds Hm (a - zskip f m) (b - zskip f m + 1) ltac:(lia) La Hn) as [S1 [S2 S3]]. split; [exact S1|]. split; [exact S2|]. eapply Rle_trans; [exact S3|]. apply bpow_le. lia.
Qed.
(** (e) the same getters with the upper limit infinite: all the energy above fmin, with the tail *)
Lemma pow_range a k : bpow radix2 (-100) <= a <= bpow radix2 100 -> bpow radix2 (-100 * Z.abs k) <= powerRZ a k <= bpow radix2 (100 * Z.abs k).
Proof.
  intros Ha. assert (Z := b_pos (-100)). assert (G : forall p, bpow radix2 (-100 * Zpos p) <= a ^ Pos.to_nat p <= bpow radix2 (100 * Zpos p)).
  { intros p. split.
    - apply Rle_trans with (bpow radix2 (-100) ^ Pos.to_nat p); [rewrite bpow_pow; apply bpow_le; lia|]. apply pow_incr. lra.
    - apply Rle_trans with (bpow radix2 100 ^ Pos.to_nat p); [apply pow_incr; lra|]. rewrite bpow_pow. apply bpow_le. lia. }
  destruct k as [|p|p]; cbn [powerRZ Z.abs].
  - split; [apply (bpow_le radix2 _ 0); lia|apply (bpow_le radix2 0 _); lia].
  - apply G.
  - destruct (G p) as [A B]. assert (P := b_pos (-100 * Zpos p)). split.
    + replace (-100 * Z.pos p)%Z with (- (100 * Z.pos p))%Z by lia. rewrite bpow_opp. apply Rinv_le_contravar; [lra|exact B].
    + replace (100 * Z.pos p)%Z with (- (-100 * Z.pos p))%Z by lia. rewrite bpow_opp. apply Rinv_le_contravar; [exact P|exact A].
Qed.
Lemma tail_size a b m : bpow radix2 (-100) <= a <= bpow radix2 100 -> density_ok b -> (-5 <= m <= 3)%Z ->
  (tail_of a b (m - 4) 0 = 0 \/ bpow radix2 (-491 - 100 * Z.abs m) <= tail_of a b (m - 4) 0) /\ tail_of a b (m - 4) 0 <= bpow radix2 (300 + 100 * Z.abs m).
Proof.
  intros Ha Db Hm. assert (Z := b_pos (-100)). set (w := IZR (4 - m)). assert (W : 1 <= w <= 16) by (split; apply IZR_le; lia).
  assert (E : tail_of a b (m - 4) 0 = b * powerRZ a (m + 1) / w).
  { unfold tail_of. replace (m + 1)%Z with (m - 4 + 5)%Z by lia. rewrite powerRZ_add by lra. rewrite (powerRZ_inv' a 5). replace (IZR (m - 4)) with (- w) by (unfold w; rewrite !minus_IZR; lra).
    field. repeat split; try lra; apply powerRZ_NOR; lra. }
  rewrite E. destruct (pow_range a (m + 1) Ha) as [L U]. set (q := powerRZ a (m + 1)) in *. assert (P1 := b_pos (-100 * Z.abs (m + 1))). assert (P2 := b_pos (-200)).
  destruct Db as [->|[B1 B2]].
  - replace (0 * q / w) with 0 by (unfold Rdiv; ring). split; [left; reflexivity|apply Rlt_le, b_pos].
  - split.
    + right. apply (Rmult_le_reg_r w); [lra|]. replace (b * q / w * w) with (b * q) by (field; lra). apply Rle_trans with (bpow radix2 (-491 - 100 * Z.abs m) * 16); [apply Rmult_le_compat_l; [apply Rlt_le, b_pos|lra]|].
      change 16 with (bpow radix2 4). rewrite <- bpow_plus. apply Rle_trans with (bpow radix2 (-200) * bpow radix2 (-100 * Z.abs (m + 1))); [rewrite <- bpow_plus; apply bpow_le; lia|]. apply Rmult_le_compat; lra.
    + apply Rle_trans with (b * q); [|apply Rle_trans with (bpow radix2 200 * bpow radix2 (100 * Z.abs (m + 1))); [apply Rmult_le_compat; lra|rewrite <- bpow_plus; apply bpow_le; lia]].
      assert (0 <= b * q) by (apply Rmult_le_pos; lra). apply (Rmult_le_reg_r w); [lra|]. replace (b * q / w * w) with (b * q) by (field; lra). rewrite <- (Rmult_1_r (b * q)) at 1. apply Rmult_le_compat_l; lra.
Qed.
Theorem C96_getters_infinite (h : R) (f s : list R) (spx : spec NX) (spb : spec NB) (fmin : R) (a : nat) :
  freq_axis_fl h f -> (Z.of_nat (length f) < 2 ^ 30)%Z -> s <> [] -> (forall v, In v s -> density_ok v) ->
  spectrum_init (N:=NX) (Arr (vec (F f))) (Arr (vec (F s))) = Ok spx ->
  spectrum_init (N:=NB) (Arr (vec (F f))) (Arr (vec (F s))) = Ok spb ->
  0 < fmin -> clearly_nearest f fmin a -> (0 < a)%nat ->
  let d := accuracy (S (length f)) in
  let both gx gb e := exists v w, snd (gx (Fin fmin) PInf spx) = Ok v /\ snd (gb (Fin fmin) PInf spb) = Ok w /\ agree e v w in
  both (get_Hm0 (N:=NX)) (get_Hm0 (N:=NB)) d
  /\ both (get_Tm02 (N:=NX)) (get_Tm02 (N:=NB)) (2 * d)
  /\ both (get_Tm01 (N:=NX)) (get_Tm01 (N:=NB)) (3 * d)
  /\ both (get_Tmm10 (N:=NX)) (get_Tmm10 (N:=NB)) (3 * d).
Proof.
  intros Hf Hn Ns Ds Hx Hb P0 Na Ka d. assert (T := fa_two _ _ Hf).
  assert (Nf : f <> []) by (destruct f; [cbn in T; lia|discriminate]).
  destruct (spectrum_fields_NX f s spx T Ns Hx) as (Exf & Exs & Hg).
  destruct (spectrum_fields_NB f s spb Nf Ns Hb) as (Ebf & Ebs & Ls & Ck).
  assert (He := eps_small (S (length f)) ltac:(lia)). rewrite <- accuracy_eps in He. fold d in He.
  assert (NfF : F f <> []) by (intros E; apply Nf; destruct f; [reflexivity|discriminate E]).
  assert (FX : set_flim (N:=NX) (F f) (Fin fmin) PInf = Ok (Fin fmin, PInf)).
  { apply set_flim_F.
    - intros E. apply Nf. rewrite E. reflexivity.
    - right. split; [|reflexivity]. intros E. injection E as E. lra.
    - right. split; [|reflexivity]. discriminate. }
  assert (FB : set_flim (N:=NB) (F f) (Fin fmin) PInf = Ok (Fin fmin, PInf)).
  { rewrite <- FX. unfold set_flim. rewrite nb_opp1. assert (E1 : nopp (n:=NX) (n1 (N:=NX)) = Fin (-1)) by reflexivity. rewrite E1. reflexivity. }
  apply (getters_acc f s spx spb (Fin fmin) PInf (Fin fmin) PInf d Exf Exs Ebf Ebs FX FB He).
  intros m Hm. assert (Na' := shift_nearest f m fmin a Ka Na). assert (La := proj1 Na'). change (without_zero m f f) with (dz f m f) in La.
  assert (A' : above (last_of f) (m - 4) PInf 0 0) by (left; auto).
  assert (Lo : bpow radix2 (-100) <= last_of f <= bpow radix2 100) by (eapply last_size; eauto).
  assert (Dl : density_ok (last_of s)) by (apply Ds; unfold last_of; apply nth_In; lia).
  destruct (C96_tail h f s m fmin (a - zskip f m) PInf Hf Hg Ck Ls Ds ltac:(lia) Hm P0 Na' (or_introl eq_refl)) as (x & xi & r & Ex & Exi & Er & Sx & Acc).
  rewrite Ex in Exi. apply Ok_inj, fin_inj in Exi. subst xi. exists x, r. split; [exact Ex|]. split; [exact Er|]. split; [exact Acc|].
  rewrite (limits_NX_out h f s m Hf Hg Ls Hm fmin _ P0 Na' PInf 0 0 A') in Ex. apply Ok_inj, fin_inj in Ex. subst x.
  destruct (part_size h f s m Hf Ls Ds Hm (a - zskip f m) (length (dz f m f)) ltac:(lia) La ltac:(lia)) as [S1 [S2 S3]].
  destruct (tail_size (last_of f) (last_of s) m Lo Dl Hm) as [T1 T2].
  destruct (tail_err (last_of f) (last_of s) (m - 4) 0 0 Lo Dl ltac:(lia)) as ([T3 _] & _); [split; [lra|apply powerRZ_le; assert (Z := b_pos (-100)); lra]|rewrite Rminus_eq_0, Rabs_R0; lra|].
  split; [|split; [lra|]].
  - destruct S1 as [S1|S1]; [rewrite S1, Rplus_0_l; exact T1|right; lra].
  - replace (301 + 100 * Z.abs m)%Z with (1 + (300 + 100 * Z.abs m))%Z by lia. rewrite bpow_plus. change (bpow radix2 1) with 2. lra.
Qed.
Lemma witness_nearest (v : R) (k : nat) : (k < 4)%nat -> INR k < v -> v < INR k + 3 / 8 -> clearly_nearest [0; 1; 2; 3] v k.
Proof.
  assert (B : bpow radix2 (-1000) <= / 8) by (apply (bpow_le radix2 (-1000) (-3)); lia).
  intros Hk V1 V2. split; [exact Hk|]. intros j Hj Ne. cbn [length] in Hj.
  assert (E : forall q, (q < 4)%nat -> nth q [0; 1; 2; 3] 0 = INR q) by (intros [|[|[|[|q]]]] Hq; try lia; cbn; lra). rewrite !E by lia.
  rewrite (Rabs_left (INR k - v)) by lra. assert (D : INR j + 1 <= INR k \/ INR k + 1 <= INR j).
  { destruct (Nat.lt_ge_cases j k) as [L|L]; [left|right]; rewrite <- S_INR; apply le_INR; lia. }
  destruct D as [D|D]; [rewrite Rabs_left by lra|rewrite Rabs_right by lra]; lra.
Qed.
Example C96_witness :
  freq_axis_fl 1 [0; 1; 2; 3] /\ good_axis [0; 1; 2; 3] /\ monotonic_increasing_constant_step (N:=NB) (F [0; 1; 2; 3]) = Ok true
  /\ (forall v, In v [0; 3; 1; 0] -> density_ok v)
  /\ clearly_nearest (without_zero 0 [0; 1; 2; 3] [0; 1; 2; 3]) (9 / 8) 1 /\ clearly_nearest (without_zero 0 [0; 1; 2; 3] [0; 1; 2; 3]) (9 / 4) 2
  /\ compute_moment (N:=NX) (Arr (vec (F [0; 1; 2; 3]))) (Arr (vec (F [0; 3; 1; 0]))) 0 (Fin (9 / 8)) (Fin (9 / 4)) = Ok (Fin 2).
Proof.
  destruct C80_witness as (_ & _ & Hf & Hg & Ck & Ds & _).
  assert (Na : clearly_nearest (without_zero 0 [0; 1; 2; 3] [0; 1; 2; 3]) (9 / 8) 1) by (apply witness_nearest; [lia|cbn; lra|cbn; lra]).
  assert (Nb : clearly_nearest (without_zero 0 [0; 1; 2; 3] [0; 1; 2; 3]) (9 / 4) 2) by (apply witness_nearest; [lia|cbn; lra|cbn; lra]).
  repeat (split; [assumption|]).
  destruct (limits_NX_in 1 [0; 1; 2; 3] [0; 3; 1; 0] 0 Hf Hg eq_refl (9 / 8) (9 / 4) 1 2 ltac:(lra) ltac:(lra) Na ltac:(unfold last_of; cbn; lra) Nb) as [_ E].
  rewrite E. do 2 f_equal. unfold rpart, rsimp, weighted, without_zero, dz, slice. cbn. unfold rlast, rpanel. cbn. lra.
Qed.
Example C96_tail_witness :
  (forall v, In v [0; 3; 1; 1] -> density_ok v) /\ last_of [0; 1; 2; 3] < 5 <= bpow radix2 100
  /\ compute_moment (N:=NX) (Arr (vec (F [0; 1; 2; 3]))) (Arr (vec (F [0; 3; 1; 1]))) 0 (Fin (9 / 8)) PInf = Ok (Fin (8 / 3 + 3 / 4)).
Proof.
  destruct C96_witness as (Hf & Hg & _ & _ & Na & _). split; [|split].
  - intros v Hv. assert (B1 : bpow radix2 (-200) <= 1) by (apply (bpow_le radix2 (-200) 0); lia). assert (B2 : 4 <= bpow radix2 200) by (apply (bpow_le radix2 2 200); lia).
    cbn in Hv. destruct Hv as [<-|[<-|[<-|[<-|[]]]]]; [left; lra|right; lra|right; lra|right; lra].
  - unfold last_of. cbn [length nth Nat.sub]. assert (B : 8 <= bpow radix2 100) by (apply (bpow_le radix2 3 100); lia). lra.
  - rewrite (limits_NX_out 1 [0; 1; 2; 3] [0; 3; 1; 1] 0 Hf Hg eq_refl ltac:(lia) (9 / 8) 1 ltac:(lra) Na PInf 0 0) by (left; auto).
    do 3 f_equal; [unfold rpart, rsimp, weighted, without_zero, dz, slice; cbn; unfold rlast, rpanel; cbn; lra|].
    unfold tail_of, last_of. cbn [length nth Nat.sub]. cbn. change (Pos.to_nat 5) with 5%nat. change (Pos.to_nat 4) with 4%nat. field.
Qed.
End AnyOrder.
