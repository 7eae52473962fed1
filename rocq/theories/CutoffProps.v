(** * Wave-by-wave analysis with a cut-off frequency (series.py, _determine_individual_waves): C59 *)

From Coq Require Import Reals ZArith String List Bool Lra Lia.
From Coquelicot Require Import Complex.
From Verif Require Import Num XR Spec XRFacts Engine Cpx DFT RSum TimeModel TimeSpec EngineProps TimeProps TimeProps2
  TimeProps3 SpectralModel WaveModel SpectrumModel SeriesModel SeriesProps WHProps WHStats WaveSym
  FourierSpec FourierFacts FourierProps BandProps.
Import ListNotations.
Open Scope R_scope.

(** [low] is the part of x in the pass band of bandpassfilter(t, x, 0, fc): Fourier coefficient by Fourier coefficient *)
Definition low_part (dt : R) (fc : xr) (x low : list R) : Prop :=
  length low = length x /\
  forall k, (k < length x)%nat ->
    let f := freqs (/ (INR (length x) * dt)) (length x / 2 + 1) in
    (passed f (Fin 0) fc (fold_index (length x) k) -> coef low k = coef x k)
    /\ (~ passed f (Fin 0) fc (fold_index (length x) k) -> coef low k = RtoC 0).
Definition minus (x y : list R) : list R := map2 Rminus x y.
Lemma minus_length x y : length x = length y -> length (minus x y) = length x.
Proof. intros H. unfold minus. rewrite map2_length. lia. Qed.
Lemma minus_F x y : map2 (nsub (n:=NX)) (F x) (F y) = F (minus x y).
Proof. unfold minus. apply map2_F. reflexivity. Qed.

Lemma low_part_exists t0 dt x fc : 0 < dt -> (2 <= length x)%nat -> fc <> NaN ->
  exists low, bandpassfilter (Arr (vec (F (axis t0 dt (length x))))) (Arr (vec (F x))) (n0 (N:=NX)) fc = Ok (F low)
   /\ low_part dt fc x low.
Proof.
  intros Hd H2 Hf. set (ax := axis t0 dt (length x)).
  assert (Hg : good_axis ax) by (apply axis_good; auto). assert (La : length ax = length x) by apply axis_length.
  destruct (C29_coefficients ax x (Fin 0) fc _ _ Hg (eq_sym La) (hv_flat _) (hv_flat _) ltac:(discriminate) Hf) as (low & E & L & C).
  exists low. rewrite fin_0. split; [exact E|]. split; [exact L|]. cbn zeta.
  replace (/ (INR (length x) * dt)) with (dfreq ax); [exact C|].
  unfold dfreq. rewrite La. do 2 f_equal. unfold step, ax. rewrite !axis_nth by lia. cbn; ring.
Qed.

(** With a cut-off frequency the crossings are those of the signal minus its low-frequency part, while height, crest and
    trough of every wave are read from the signal itself; the analysis never fails *)
Theorem C59_cutoff (t0 dt : R) (x : list R) (s : series NX) (typeCross : string) (d : direction) (fc : xr) (m : R) :
  names typeCross d -> 0 < dt -> (2 <= length x)%nat -> fc <> NaN -> fc <> Fin 0 ->
  se_t s = F (axis t0 dt (length x)) -> se_x s = F x ->
  exists low tau ws s' kept,
    low_part dt fc x low
    /\ determine_zero_crossing (Arr (vec (se_t s))) (Arr (vec (F (minus x low)))) typeCross
       = Ok (Z.of_nat (length ws), crossing_array tau)
    /\ length ws = (length tau - 1)%nat
    /\ (forall k, (k < length ws)%nat ->
          is_wave (axis t0 dt (length x)) x (nth k tau 0) (nth (S k) tau 0) (nth k ws dwave))
    /\ series_determine s typeCross fc (Fin m) = (s', Ok (kept, crossing_array tau))
    /\ stored_waves (se_wh s') kept
    /\ kept = filter (fun w => match w_h w with Fin h => Rleb m h | _ => false end) ws.
Proof.
  intros Hn Hd H2 Hf Hf0 Et Ex. set (ax := axis t0 dt (length x)).
  destruct (low_part_exists t0 dt x fc Hd H2 Hf) as (low & E & LP). fold ax in E.
  assert (Ll := proj1 LP). assert (Lm := minus_length x low (eq_sym Ll)).
  destruct (crossing_facts t0 dt (minus x low) typeCross d Hn Hd ltac:(lia)) as (n & tau & Ec & Hs).
  rewrite Lm in Ec, Hs. fold ax in Ec, Hs. fold (crossing_array tau) in Ec.
  assert (Lax : length ax = length x) by apply axis_length.
  assert (Inc : increasing ax) by (apply axis_increasing; auto).
  assert (Hne : ax <> []) by (intros Eq; rewrite Eq in Lax; cbn in Lax; lia).
  destruct (params_F ax x tau Inc (eq_sym Lax) Hne Hs) as (ws & Ew & Lw & W).
  assert (En : n = Z.of_nat (length ws)).
  { destruct (C07_crossing_times t0 dt (minus x low) typeCross d Hn Hd ltac:(lia)) as (is & tau' & tc & _ & L & E' & D & _).
    rewrite Lm in E'. fold ax in E'. rewrite Ec in E'. apply Ok_inj in E'. injection E' as -> <-. rewrite Lw. do 2 f_equal.
    rewrite <- L. apply (f_equal (@length _)) in D. rewrite F_length in D. rewrite <- D. destruct tau; cbn; [reflexivity|]. rewrite map_length. reflexivity. }
  subst n.
  assert (Hc : series_crossings (se_t s) (se_x s) typeCross fc = Ok (Z.of_nat (length ws), crossing_array tau)).
  { unfold series_crossings. rewrite Et, Ex. fold ax.
    assert (Eb : neqb (n:=NX) fc n0 = false).
    { rewrite fin_0. destruct fc as [r| | |]; try reflexivity. rewrite fin_eqb. apply Reqb_false. intros ->. contradiction. }
    rewrite Eb. cbn [negb]. rewrite E, bind_Ok. unfold bmap2. rewrite !F_length, Ll, Nat.eqb_refl, bind_Ok, minus_F. exact Ec. }
  assert (Ew' : determine_params_individual_waves (Arr (crossing_array tau)) (Arr (vec (se_t s))) (Arr (vec (se_x s))) = Ok ws)
    by (rewrite Et, Ex; exact Ew).
  destruct (C17_minimum_wave s typeCross fc (Fin m) _ _ _ Hc Ew') as (s' & kept & Es & Ek & Hst & _).
  exists low, tau, ws, s', kept. split; [exact LP|]. split; [rewrite Et; exact Ec|]. split; [exact Lw|]. split; [exact W|].
  split; [exact Es|]. split; [exact Hst|]. rewrite Ek. apply filter_ext_in. intros w Hw.
  apply (In_nth _ _ dwave) in Hw as (k & Hk & <-). destruct (W k Hk) as (c & tr & tc & tt & -> & _).
  unfold below. cbn [w_h]. rewrite fin_ltb. destruct (Rle_lt_dec m (c - tr)).
  - rewrite Rltb_false, Rleb_true by lra. reflexivity.
  - rewrite Rltb_true, Rleb_false by lra. reflexivity.
Qed.
Example C59_witness : names "down" Down /\ 0 < 1 /\ (2 <= length [6; 9; 6; -6; -9; -6]%R)%nat /\ Fin (2/5) <> NaN /\ Fin (2/5) <> Fin 0.
Proof. split; [reflexivity|]. split; [lra|]. split; [cbn; lia|]. split; [discriminate|]. intros H. injection H. lra. Qed.

(** a cut-off of at most twice the frequency resolution 1/(n dt) removes nothing *)
Theorem C59_small_cutoff (t0 dt : R) (x : list R) (s : series NX) (typeCross : string) (d : direction) (fc m : R) :
  names typeCross d -> 0 < dt -> (4 <= length x)%nat -> 0 < fc <= 2 / (INR (length x) * dt) ->
  fc < INR (length x / 2) / (INR (length x) * dt) ->
  se_t s = F (axis t0 dt (length x)) -> se_x s = F x ->
  series_determine s typeCross (Fin fc) (Fin m) = series_determine s typeCross (Fin 0) (Fin m).
Proof.
  intros Hn Hd H2 Hf Hlast Et Ex.
  destruct (low_part_exists t0 dt x (Fin fc) Hd ltac:(lia) ltac:(discriminate)) as (low & E & L & C).
  assert (Hnd : 0 < / (INR (length x) * dt)) by (apply Rinv_0_lt_compat, Rmult_lt_0_compat; [apply lt_0_INR; lia|auto]).
  assert (low = repeat 0 (length x)) as ->.
  { apply coef_inj; [rewrite repeat_length; auto|]. intros k Hk. rewrite L in Hk. destruct (C k Hk) as [_ C'].
    rewrite C'.
    - unfold coef. symmetry. apply Csum_zero. intros j Hj. rewrite repeat_length in Hj. rewrite nth_repeat. ring.
    - cbn zeta. unfold passed. rewrite freqs_length. intros (P1 & _ & _ & [P|[P P']]).
      + cbn [ext_le] in P. rewrite freqs_nth in P by lia. replace (length x / 2 + 1 - 1)%nat with (length x / 2)%nat in P by lia. unfold Rdiv in Hlast. lra.
      + cbn [ext_lt] in P'. rewrite freqs_nth in P' by lia. 
        assert (2 <= INR (S (fold_index (length x) k))) by (replace 2 with (INR 2) by (cbn; ring); apply le_INR; lia).
        unfold Rdiv in Hf. nra. }
  unfold series_determine, individual_waves.
  assert (Es : series_crossings (se_t s) (se_x s) typeCross (Fin fc) = series_crossings (se_t s) (se_x s) typeCross (Fin 0)); [|rewrite Es; reflexivity].
  unfold series_crossings. rewrite Et, Ex.
  assert (Eb : neqb (n:=NX) (Fin fc) n0 = false).
  { rewrite fin_0, fin_eqb. apply Reqb_false. lra. }
  assert (Eb0 : neqb (n:=NX) (Fin 0) n0 = true).
  { rewrite fin_0, fin_eqb. apply Reqb_true. reflexivity. }
  rewrite Eb, Eb0. cbn [negb]. rewrite E, bind_Ok, bind_Ok, map_sub0. unfold bmap2. rewrite !F_length, repeat_length, Nat.eqb_refl, bind_Ok, minus_F.
  do 4 f_equal. apply (nth_ext' _ _ 0); [apply minus_length; rewrite repeat_length; auto|].
  intros i Hi. rewrite minus_length in Hi by (rewrite repeat_length; auto). unfold minus. rewrite (map2_nth _ _ _ _ 0 0) by (rewrite ?repeat_length; auto).
  rewrite nth_repeat. ring.
Qed.

(** ** The note "the values of aTrough are always smaller than zero" fails with a cut-off *)

Definition w6 (r : nat) : C :=
  match r with
  | 0%nat => (1, 0) | 1%nat => (1/2, - (sqrt 3 / 2)) | 2%nat => (-(1/2), - (sqrt 3 / 2))
  | 3%nat => (-1, 0) | 4%nat => (-(1/2), sqrt 3 / 2) | _ => (1/2, sqrt 3 / 2)
  end.
Lemma ei_sixth m : ei (- (2 * PI * INR m / INR 6)) = w6 (m mod 6).
Proof.
  assert (Hm := Nat.div_mod m 6 ltac:(lia)). assert (Hb := Nat.mod_upper_bound m 6 ltac:(lia)).
  set (q := (m / 6)%nat) in *. set (r := (m mod 6)%nat) in *. clearbody q r. subst m.
  replace (- (2 * PI * INR (6 * q + r) / INR 6)) with (- (INR r * (PI / 3)) + - (2 * PI * INR q)).
  2:{ rewrite plus_INR, mult_INR. replace (INR 6) with 6 by (cbn; ring). field. }
  rewrite ei_plus, (ei_opp (2 * PI * INR q)), ei_period. replace (Cconj (RtoC 1)) with (RtoC 1) by (apply C_eq; cbn; ring).
  rewrite Cmult_1_r.
  assert (P3 : PI = 3 * (PI / 3)) by field.
  destruct r as [|[|[|[|[|[|r]]]]]]; [..|lia]; unfold ei, w6.
  - cbn [INR]. rewrite Rmult_0_l, Ropp_0, cos_0, sin_0. reflexivity.
  - change (INR 1) with 1. rewrite Rmult_1_l, cos_neg, sin_neg, cos_PI3, sin_PI3. reflexivity.
  - replace (INR 2 * (PI / 3)) with (PI - PI / 3) by (cbn; lra). rewrite cos_neg, sin_neg, Rtrigo_facts.cos_pi_minus, Rtrigo_facts.sin_pi_minus, cos_PI3, sin_PI3. reflexivity.
  - replace (INR 3 * (PI / 3)) with PI by (cbn; lra). rewrite cos_neg, sin_neg, cos_PI, sin_PI, Ropp_0. reflexivity.
  - replace (INR 4 * (PI / 3)) with (PI / 3 + PI) by (cbn; lra). rewrite cos_neg, sin_neg, neg_cos, neg_sin, cos_PI3, sin_PI3, Ropp_involutive. reflexivity.
  - replace (INR 5 * (PI / 3)) with (- (PI / 3) + 2 * PI) by (cbn; lra). rewrite cos_neg, sin_neg.
    rewrite cos_plus, sin_plus, cos_2PI, sin_2PI, cos_neg, sin_neg, cos_PI3, sin_PI3. f_equal; ring.
Qed.
Lemma coef6 a b c d e f k :
  coef [a; b; c; d; e; f] k = (RtoC a * w6 (0 * k mod 6) + RtoC b * w6 (1 * k mod 6) + RtoC c * w6 (2 * k mod 6)
     + RtoC d * w6 (3 * k mod 6) + RtoC e * w6 (4 * k mod 6) + RtoC f * w6 (5 * k mod 6))%C.
Proof.
  unfold coef. change (length [a; b; c; d; e; f]) with 6%nat. rewrite !Csum_S, Csum_0, !ei_sixth. cbn [nth]. ring.
Qed.

Theorem C59_trough_negative_refuted :
  ~ (forall t0 dt x (s s' : series NX) fc m kept tc, 0 < dt -> (2 <= length x)%nat -> 0 < fc ->
       se_t s = F (axis t0 dt (length x)) -> se_x s = F x ->
       series_determine s "down" (Fin fc) (Fin m) = (s', Ok (kept, tc)) ->
       forall w, In w kept -> exists tr, w_trough w = Fin tr /\ tr < 0).
Proof.
  intros H. set (x := [6; 9; 6; -6; -9; -6]).
  set (s := mkSeries (N:=NX) (F (axis 0 1 (length x))) (F x) 6 (Fin 1) (wh_of_waves []) []).
  destruct (C59_cutoff 0 1 x s "down" Down (Fin (2/5)) 0 eq_refl ltac:(lra) ltac:(cbn; lia) ltac:(discriminate)
     ltac:(intros E; injection E; lra) eq_refl eq_refl) as (low & tau & ws & s' & kept & [Ll LP] & Ec & Lw & W & Ed & _ & Ek).
  assert (Elow : low = [5; 10; 5; -5; -10; -5]).
  { apply coef_inj; [exact Ll|]. intros k Hk. rewrite Ll in Hk. change (length x) with 6%nat in Hk.
    destruct (LP k Hk) as [P1 P2]. change (length x) with 6%nat in P1, P2. cbn zeta in P1, P2.
    change (6 / 2 + 1)%nat with 4%nat in *.
    assert (D : forall j, (1 <= j <= 3)%nat -> passed (freqs (/ (INR 6 * 1)) 4) (Fin 0) (Fin (2/5)) j <-> (j = 1)%nat).
    { intros j Hj. unfold passed. rewrite freqs_length. cbn [ext_lt ext_le]. rewrite !(freqs_nth _ _ _) by lia.
      replace (4 - 1)%nat with 3%nat by lia. replace (/ (INR 6 * 1)) with (1/6) by (cbn; field).
      destruct j as [|[|[|[|j]]]]; try lia; split; intros Q; try lia; try (exfalso; cbn in Q; destruct Q as (_ & _ & _ & [Q|[Q Q']]); (lia || lra)).
      cbn. split; [lia|]. split; [lra|]. split; [lra|]. right. split; [lia|]. lra. }
    assert (K : (k = 0 \/ k = 1 \/ k = 2 \/ k = 3 \/ k = 4 \/ k = 5)%nat) by lia.
    rewrite coef6. destruct K as [->|[->|[->|[->|[->| ->]]]]].
    - rewrite P2 by (unfold passed; cbn; lia). apply C_eq; cbn; lra.
    - rewrite P1 by (apply D; cbn; lia). unfold x. rewrite coef6. apply C_eq; cbn; lra.
    - rewrite P2 by (rewrite D; cbn; lia). apply C_eq; cbn; lra.
    - rewrite P2 by (rewrite D; cbn; lia). apply C_eq; cbn; lra.
    - rewrite P2 by (rewrite D; cbn; lia). apply C_eq; cbn; lra.
    - rewrite P1 by (apply D; cbn; lia). unfold x. rewrite coef6. apply C_eq; cbn; lra. }
  assert (Eh : minus x low = [1; -1; 1; -1; 1; -1]) by (subst low; unfold minus, x; cbn [map2]; repeat (apply f_equal2; [lra|]); reflexivity).
  rewrite Eh in Ec. change (se_t s) with (F (axis 0 1 (length [1; -1; 1; -1; 1; -1]))) in Ec.
  destruct (C07_crossing_times 0 1 [1; -1; 1; -1; 1; -1] "down" Down eq_refl ltac:(lra) ltac:(cbn; lia)) as (is & tau' & tc & A & L & E & Dt & _ & T).
  rewrite Ec in E. apply Ok_inj in E. injection E as En Etc.
  assert (Eis : is = [0; 2; 4]%nat).
  { apply (all_crossings_unique Down [1; -1; 1; -1; 1; -1]); auto. split.
    - intros i j Hij. cbn in Hij. destruct i as [|[|[|i]]], j as [|[|[|j]]]; cbn; lia.
    - intros i. unfold Rcrosses. cbn [length]. split.
      + intros [<-|[<-|[<-|[]]]]; cbn; split; try lia; lra.
      + intros [Hi Hx]. destruct i as [|[|[|[|[|i]]]]]; cbn in Hx; try lia; try lra; cbn; auto. }
  subst is. assert (Et : tau = tau').
  { apply F_inj. rewrite <- Dt, <- Etc. destruct tau; reflexivity. }
  subst tau'. change (length [0; 2; 4]%nat) with 3%nat in *.
  assert (T0 := T 0%nat ltac:(lia)). assert (T1 := T 1%nat ltac:(lia)). cbn in T0, T1. clear T.
  assert (nth 0 tau 0 = 1/2) as E0 by lra. assert (nth 1 tau 0 = 5/2) as E1 by lra.
  assert (Lws : length ws = 2%nat) by lia.
  assert (W0 := W 0%nat ltac:(lia)). rewrite E0, E1 in W0. destruct W0 as (c & tr & tcr & ttr & Ew & Hmax & Hmin).
  assert (Htr : 6 <= tr).
  { destruct Hmin as (i & Hi & Hab & _ & -> & _). change (length (axis 0 1 (length x))) with 6%nat in Hi.
    rewrite axis_nth in Hab by exact Hi. unfold x. destruct i as [|[|[|[|[|[|i]]]]]]; cbn in Hab |- *; try lra; lia. }
  assert (Hc : tr <= c).
  { destruct Hmax as (i & Hi & Hab & _ & -> & _). destruct Hmin as (j & Hj & Hab' & _ & -> & M & _). apply M; auto. }
  destruct (H 0 1 x s s' (2/5) 0 kept (crossing_array tau) ltac:(lra) ltac:(cbn; lia) ltac:(lra) eq_refl eq_refl Ed (nth 0 ws dwave)) as (tr' & Etr & Hneg).
  - rewrite Ek. apply filter_In. split; [apply nth_In; lia|]. rewrite Ew. cbn [w_h]. rewrite Rleb_true; [reflexivity|lra].
  - rewrite Ew in Etr. cbn in Etr. injection Etr as ->. lra.
Qed.
