(** * Wave-by-wave analysis in binary64 arithmetic: C62 *)

From Coq Require Import Reals ZArith String List Bool Lra Lia.
From Flocq Require Import Core Relative.
From Verif Require Import SumOrder Num XR Spec XRFacts RoundNum Engine EngineProps TimeModel TimeSpec TimeProps TimeProps2 TimeProps3 RoundProps.
Import ListNotations.
Open Scope R_scope.

Section AnyOrder.
Context {So : summation} {Lm : libm}.

(** ** The model functions at the rounded instance *)

Lemma nb_cross d a b : match d with Up => is_up (N:=NB) a b | Down => is_down (N:=NB) a b end = bcross d a b.
Proof. destruct d; unfold bcross, is_up, is_down; rewrite nb_0, fin_0; reflexivity. Qed.

Lemma zc_fold_NB p dt t x is acc :
  fold_left (zc_step (N:=NB) p dt t x) is acc
  = ((fst acc + Z.of_nat (length (filter (fun i => p (nth i x NaN) (nth (i + 1) x NaN)) is)))%Z,
     snd acc ++ map (fun i => crossing_time (N:=NB) dt (nth i t NaN) (nth i x NaN) (nth (i + 1) x NaN))
                    (filter (fun i => p (nth i x NaN) (nth (i + 1) x NaN)) is)).
Proof.
  revert acc; induction is as [|i is IH]; intros acc; cbn [fold_left].
  - cbn. rewrite app_nil_r, Z.add_0_r. destruct acc; reflexivity.
  - rewrite IH. clear IH. cbn [filter]. unfold zc_step.
    change (nnan (n:=NB)) with NaN.
    destruct (p (nth i x NaN) (nth (i + 1) x NaN)).
    + cbn [fst snd map length]. f_equal; [lia|]. rewrite <- app_assoc. reflexivity.
    + reflexivity.
Qed.

(** crossing time as computed *)
Definition fl_cross (dt ti a b : R) : R := rnd (ti + rnd (rnd (dt * a) / rnd (a - b))).
Lemma crossing_time_NB dt ti a b : rnd (a - b) <> 0 ->
  crossing_time (N:=NB) (Fin dt) (Fin ti) (Fin a) (Fin b) = Fin (fl_cross dt ti a b).
Proof. intros H. unfold crossing_time. rewrite nb_sub, nb_mul, nb_div, nb_add by exact H. reflexivity. Qed.

Lemma rnd_diff_ne a b : is_float a -> is_float b -> a <> b -> rnd (a - b) <> 0.
Proof.
  intros Ha Hb H. destruct (Rtotal_order a b) as [L|[L|L]]; [|contradiction|].
  - assert (K := rnd_diff_pos a b Ha Hb L). replace (a - b) with (- (b - a)) by lra. rewrite rnd_opp. lra.
  - assert (K := rnd_diff_pos b a Hb Ha L). lra.
Qed.

Lemma zero_crossing_NB (t x : list R) (s : string) d :
  names s d -> length t = length x -> (2 <= length x)%nat -> floats x ->
  exists is, all_crossings d x is /\
   determine_zero_crossing (N:=NB) (Arr (vec (F t))) (Arr (vec (F x))) s
   = let tc := map (fun i => fl_cross (rnd (nth 1 t 0 - nth 0 t 0)) (nth i t 0) (nth i x 0) (nth (i + 1) x 0)) is in
     Ok (Z.of_nat (length is - 1), match tc with [] => empty00 | _ => vec (F tc) end).
Proof.
  intros Hn Hlen H2 Hf. destruct (cross_idx_spec d (F x)) as [H1 H3].
  exists (cross_idx d (F x)). assert (H3' : forall i, In i (cross_idx d (F x)) <-> Rcrosses d x i) by (intros i; rewrite H3; apply crosses_F).
  split; [split; [exact H1|exact H3']|].
  unfold determine_zero_crossing; cbn [convert_to_array_type].
  rewrite !is1darray_vec by (apply F_ne; intros E; subst; cbn in *; lia). cbn [negb].
  rewrite !as_list_vec, !bind_Ok. change (@length NB (F t)) with (@length xr (F t)). change (@length NB (F x)) with (@length xr (F x)).
  rewrite !F_length, Hlen, Nat.eqb_refl. cbn [negb].
  assert (I1 : idx (A:=NB) (F t) 1 = Ok (Fin (nth 1 t 0))) by (apply (idx_F t 1); lia).
  assert (I0 : idx (A:=NB) (F t) 0 = Ok (Fin (nth 0 t 0))) by (apply (idx_F t 0); lia).
  rewrite I1, I0, !bind_Ok, nb_sub.
  set (cr := fun a b : NB => match d with Up => is_up (N:=NB) a b | Down => is_down (N:=NB) a b end).
  assert (E : (if (lower s =? "up")%string then Ok (is_up (N:=NB)) else
               if (lower s =? "down")%string then Ok (is_down (N:=NB)) else Raise ValueError) = Ok cr).
  { destruct d; cbn in Hn; rewrite Hn; reflexivity. }
  rewrite E, bind_Ok. unfold zc_loop. change (@length NB (F t)) with (@length xr (F t)). rewrite F_length, Hlen, zc_fold_NB. cbn [fst snd].
  match goal with |- context [filter ?f (seq 0 (length x - 1))] => assert (Fi : filter f (seq 0 (length x - 1)) = cross_idx d (F x)) end.
  { unfold cross_idx. rewrite F_length. apply filter_ext. intros i. apply nb_cross. }
  rewrite Fi. cbn zeta. cbn [app].
  assert (E2 : (if (-1 + Z.of_nat (length (cross_idx d (F x))) =? -1)%Z then 0%Z else (-1 + Z.of_nat (length (cross_idx d (F x))))%Z)
          = Z.of_nat (length (cross_idx d (F x)) - 1)).
  { destruct (Z.eqb_spec (-1 + Z.of_nat (length (cross_idx d (F x)))) (-1)); lia. }
  rewrite E2. f_equal. f_equal.
  match goal with |- match map ?g (cross_idx d (F x)) with _ => _ end = _ => assert (Em : map g (cross_idx d (F x))
     = F (map (fun i => fl_cross (rnd (nth 1 t 0 - nth 0 t 0)) (nth i t 0) (nth i x 0) (nth (i + 1) x 0)) (cross_idx d (F x)))) end.
  { match goal with |- _ = F ?l => change (F l) with (map Fin l) end. rewrite map_map. apply map_ext_in. intros i Hi. apply H3' in Hi. assert (Hne := Rcrosses_ne _ _ _ Hi).
    destruct Hi as [Hi _]. 
    assert (Nt : nth i (F t) NaN = Fin (nth i t 0)) by (apply F_nth_lt; lia).
    assert (Nx : nth i (F x) NaN = Fin (nth i x 0)) by (apply F_nth_lt; lia).
    assert (Ny : nth (i + 1) (F x) NaN = Fin (nth (i + 1) x 0)) by (apply F_nth_lt; lia).
    refine (eq_trans (f_equal3 (fun u v w : xr => crossing_time (N:=NB) (Fin (rnd (nth 1 t 0 - nth 0 t 0))) u v w) Nt Nx Ny) _). cbn beta.
    apply crossing_time_NB. apply rnd_diff_ne; [| |exact Hne]; apply Hf, nth_In; lia. }
  match type of Em with ?l = _ => set (lhs := l) in * end. clearbody lhs. subst lhs.
  match goal with |- context [F ?l] => destruct l; reflexivity end.
Qed.

(** a wave as computed: the extremes are samples, height and period are rounded differences *)
Definition is_wave_fl (t x : list R) (a b : R) (w : wave NB) : Prop :=
  exists crest trough tc tt,
    w = mkWave (N:=NB) (Fin (rnd (crest - trough))) (Fin (rnd (b - a))) (Fin crest) (Fin trough) (Fin tc) (Fin tt)
    /\ first_max_on t x a b crest tc /\ first_min_on t x a b trough tt.

Lemma one_wave_rounded (t x : list xr) (a b : xr) :
  one_wave (N:=NB) t x a b
  = match one_wave (N:=NX) t x a b with
    | Ok w => Ok (mkWave (N:=NB) (nsub (n:=NB) (w_crest w) (w_trough w)) (nsub (n:=NB) b a) (w_crest w) (w_trough w) (w_tcrest w) (w_ttrough w))
    | Raise e => Raise e
    end.
Proof.
  cbv [one_wave pymax pymin pymax2 pymin2 nleb neqb nltb nsub car NB NX].
  repeat match goal with
  | |- bind ?m _ = match bind ?m _ with _ => _ end => destruct m; cbn [bind]; [|reflexivity]
  end. reflexivity.
Qed.
Lemma one_wave_NB t x a b :
  increasing t -> length x = length t ->
  (exists i, (i < length t)%nat /\ a <= nth i t 0 <= b) ->
  exists w, one_wave (N:=NB) (F t) (F x) (Fin a) (Fin b) = Ok w /\ is_wave_fl t x a b w.
Proof.
  intros Hinc Hlen Hs. destruct (one_wave_F t x a b Hinc Hlen Hs) as (w & E & c & tr & tc & tt & -> & H1 & H2).
  rewrite one_wave_rounded, E. cbn [w_crest w_trough w_tcrest w_ttrough]. rewrite !nb_sub.
  eexists; split; [reflexivity|]. exists c, tr, tc, tt. auto.
Qed.
Definition dwaveB : wave NB := mkWave (N:=NB) NaN NaN NaN NaN NaN NaN.
Lemma all_waves_NB t x tau :
  increasing t -> length x = length t -> waves_sampled t tau ->
  exists ws, all_waves (N:=NB) (F t) (F x) (F tau) = Ok ws /\ length ws = (length tau - 1)%nat
   /\ forall k, (k < length ws)%nat -> is_wave_fl t x (nth k tau 0) (nth (S k) tau 0) (nth k ws dwaveB).
Proof.
  intros Hinc Hlen. induction tau as [|a [|b tau] IH]; intros Hs.
  - exists []. split; [reflexivity|]. split; [reflexivity|]. cbn; lia.
  - exists []. split; [reflexivity|]. split; [reflexivity|]. cbn; lia.
  - change (all_waves (N:=NB) (F t) (F x) (F (a :: b :: tau))) with
      (bind (one_wave (N:=NB) (F t) (F x) (Fin a) (Fin b)) (fun w =>
       bind (all_waves (N:=NB) (F t) (F x) (F (b :: tau))) (fun ws => Ok (w :: ws)))).
    destruct (one_wave_NB t x a b Hinc Hlen) as (w & -> & Hw).
    { destruct (Hs 0%nat) as (i & Hi); [cbn; lia|]. exists i. exact Hi. }
    rewrite bind_Ok. destruct IH as (ws & -> & Hl & Hws).
    { intros k Hk. destruct (Hs (S k)) as (i & Hi); [cbn in *; lia|]. exists i. exact Hi. }
    rewrite bind_Ok. exists (w :: ws). split; [reflexivity|]. cbn [length] in *. split; [lia|].
    intros [|k] Hk; [exact Hw|]. apply Hws. lia.
Qed.

(** ** Where the computed crossing lies *)

Lemma rnd_nonneg r : 0 <= r -> 0 <= rnd r.
Proof. apply rnd_ge_float, float_0. Qed.
(** the computed offset of the crossing: between 0 and dt (1 + 2^-51) *)
Lemma offset_bounds dt A D : is_float A -> bpow radix2 (-100) <= dt -> A = 0 \/ bpow radix2 (-900) <= A -> 0 <= A <= D -> 0 < rnd D ->
  0 <= rnd (rnd (dt * A) / rnd D) <= dt * (1 + 2 * bpow radix2 (-52)).
Proof.
  intros HA Hdt HA0 [H0 HD] HP. assert (P100 := bpow_gt_0 radix2 (-100)).
  assert (Hdt0 : 0 < dt) by lra.
  assert (N : 0 <= rnd (dt * A)) by (apply rnd_nonneg, Rmult_le_pos; lra).
  split; [apply rnd_nonneg; apply Rmult_le_pos; [exact N|]; apply Rlt_le, Rinv_0_lt_compat, HP|].
  set (u := bpow radix2 (-53)). assert (U2 : bpow radix2 (-52) = 2 * u) by (unfold u; change (-52)%Z with (1 + -53)%Z; rewrite bpow_plus; reflexivity).
  assert (U : u = / 9007199254740992) by (unfold u; cbn; lra). rewrite U2.
  destruct HA0 as [->|HA0].
  - rewrite Rmult_0_r, (rnd_id 0) by apply float_0. unfold Rdiv. rewrite Rmult_0_l, rnd_id by apply float_0.
    apply Rmult_le_pos; [lra|]. rewrite U. lra.
  - assert (A0 : 0 < A) by (eapply Rlt_le_trans; [apply bpow_gt_0|exact HA0]).
    assert (DA : A <= rnd D) by (apply rnd_ge_float; assumption).
    assert (B : rnd (dt * A) <= dt * A * (1 + u)).
    { apply rnd_rel. apply Rle_trans with (bpow radix2 (-100) * bpow radix2 (-900)).
      - rewrite <- bpow_plus. apply bpow_le. lia.
      - apply Rmult_le_compat; try apply bpow_ge_0; assumption. }
    assert (Q : rnd (dt * A) / rnd D <= dt * (1 + u)).
    { apply Rmult_le_reg_r with (rnd D); [exact HP|]. unfold Rdiv. rewrite Rmult_assoc, Rinv_l, Rmult_1_r by lra.
      eapply Rle_trans; [exact B|]. replace (dt * A * (1 + u)) with (dt * (1 + u) * A) by ring.
      apply Rmult_le_compat_l; [|exact DA]. apply Rmult_le_pos; [lra|]. rewrite U. lra. }
    apply Rle_trans with (rnd (dt * (1 + u))); [apply rnd_le, Q|].
    apply Rle_trans with (dt * (1 + u) * (1 + u)).
    + apply rnd_rel. apply Rle_trans with (bpow radix2 (-100)); [apply bpow_le; lia|].
      apply Rle_trans with dt; [exact Hdt|]. rewrite U. lra.
    + rewrite Rmult_assoc. apply Rmult_le_compat_l; [lra|]. rewrite U. lra.
Qed.

Lemma crossing_bounds (d : direction) (dt ti a b : R) :
  is_float ti -> is_float a -> is_float b -> bpow radix2 (-100) <= dt -> a = 0 \/ bpow radix2 (-900) <= Rabs a ->
  match d with Up => a <= 0 < b | Down => 0 <= a /\ b < 0 end ->
  exists q, fl_cross dt ti a b = rnd (ti + q) /\ 0 <= q <= dt * (1 + 2 * bpow radix2 (-52)).
Proof.
  intros Fi Fa Fb Hdt Ha Hd. eexists; split; [reflexivity|]. destruct d.
  - replace (rnd (dt * a) / rnd (a - b)) with (rnd (dt * - a) / rnd (b - a)).
    + apply offset_bounds; auto.
      * apply generic_format_opp, Fa.
      * destruct Ha as [->|Ha]; [left; lra|right]. rewrite Rabs_left1 in Ha by lra. exact Ha.
      * lra.
      * apply rnd_diff_pos; auto; lra.
    + replace (dt * - a) with (- (dt * a)) by ring. replace (b - a) with (- (a - b)) by ring. rewrite !rnd_opp.
      unfold Rdiv. rewrite Rinv_opp. ring.
  - apply offset_bounds; auto.
    + destruct Ha as [->|Ha]; [left; lra|right]. rewrite Rabs_pos_eq in Ha by lra. exact Ha.
    + lra.
    + apply rnd_diff_pos; auto; lra.
Qed.

(** ** C62 *)

(** [t] is a sampling of step [dt], each point off by at most [e] *)
Definition nearly_uniform (t : list R) (t0 dt e : R) : Prop :=
  forall i, (i < length t)%nat -> Rabs (nth i t 0 - (t0 + INR i * dt)) <= e.

Lemma nearly_step t t0 dt e i : nearly_uniform t t0 dt e -> (S i < length t)%nat ->
  dt - 2 * e <= nth (S i) t 0 - nth i t 0 <= dt + 2 * e.
Proof.
  intros H Hi. assert (A := H i ltac:(lia)). assert (B := H (S i) Hi). rewrite S_INR in B. apply Rabs_le_inv in A, B. lra.
Qed.
Lemma nearly_increasing t t0 dt e : nearly_uniform t t0 dt e -> 2 * e < dt -> increasing t.
Proof.
  intros H He i j Hij. destruct Hij as [Hij Hj]. induction j as [|j IH]; [lia|].
  assert (S := nearly_step t t0 dt e j H Hj). destruct (Nat.eq_dec i j) as [->|]; [lra|].
  specialize (IH ltac:(lia) ltac:(lia)). lra.
Qed.

Lemma crossing_position (t x : list R) t0 dt e d i :
  floats t -> floats x -> length t = length x -> nearly_uniform t t0 dt e -> 0 <= e <= dt / 16 -> bpow radix2 (-90) <= dt ->
  (forall v, In v x -> v = 0 \/ bpow radix2 (-900) <= Rabs v) -> Rcrosses d x i ->
  nth i t 0 <= fl_cross (rnd (nth 1 t 0 - nth 0 t 0)) (nth i t 0) (nth i x 0) (nth (i + 1) x 0)
            <= nth (S i) t 0 + 8 * e + dt * bpow radix2 (-48).
Proof.
  intros Ft Fx Hl Hu He Hdt Hx Hc. destruct Hc as [Hi Hc].
  assert (S0 := nearly_step t t0 dt e 0 Hu ltac:(lia)). assert (Si := nearly_step t t0 dt e i Hu ltac:(lia)).
  set (dc := rnd (nth 1 t 0 - nth 0 t 0)).
  assert (P90 := bpow_gt_0 radix2 (-90)).
  assert (Q90 : bpow radix2 (-1020) <= nth 1 t 0 - nth 0 t 0).
  { apply Rle_trans with (bpow radix2 (-91)); [apply bpow_le; lia|]. change (-91)%Z with (-1 + -90)%Z. rewrite bpow_plus. change (bpow radix2 (-1)) with (/2). lra. }
  assert (Dc := rnd_rel (nth 1 t 0 - nth 0 t 0) Q90). fold dc in Dc.
  set (u := bpow radix2 (-53)) in *. assert (U : u = / 9007199254740992) by (unfold u; cbn; lra).
  assert (U48 : bpow radix2 (-48) = 32 * u) by (unfold u; change (-48)%Z with (5 + -53)%Z; rewrite bpow_plus; reflexivity).
  assert (U52 : bpow radix2 (-52) = 2 * u) by (unfold u; change (-52)%Z with (1 + -53)%Z; rewrite bpow_plus; reflexivity).
  set (w := nth 1 t 0 - nth 0 t 0) in *. set (D1 := nth (S i) t 0 - nth i t 0) in *.
  assert (Fi : is_float (nth i t 0)) by (apply Ft, nth_In; lia).
  assert (Fi' : is_float (nth (S i) t 0)) by (apply Ft, nth_In; lia).
  assert (W0 : 0 < w) by lra.
  assert (Dc2 : dc <= (dt + 2 * e) * (1 + u)) by (eapply Rle_trans; [apply Dc|]; apply Rmult_le_compat_r; [rewrite U; lra|lra]).
  assert (Hdc : bpow radix2 (-100) <= dc).
  { apply Rle_trans with (bpow radix2 (-92)); [apply bpow_le; lia|]. change (-92)%Z with (-2 + -90)%Z. rewrite bpow_plus. change (bpow radix2 (-2)) with (/4).
    eapply Rle_trans; [|apply Dc]. apply Rle_trans with (w * / 2); [lra|]. apply Rmult_le_compat_l; [lra|]. rewrite U; lra. }
  destruct (crossing_bounds d dc (nth i t 0) (nth i x 0) (nth (i + 1) x 0)) as (q & -> & Q1 & Q2); auto.
  { apply Fx, nth_In; lia. } { apply Fx, nth_In; lia. } { apply Hx, nth_In. lia. }
  { rewrite Nat.add_1_r. exact Hc. }
  split; [apply rnd_ge_float; [exact Fi|lra]|].
  rewrite U52 in Q2. rewrite U48.
  assert (Q3 : q <= dt + 2 * e + 6 * u * (dt + 2 * e)).
  { eapply Rle_trans; [exact Q2|]. apply Rle_trans with ((dt + 2 * e) * (1 + u) * (1 + 2 * (2 * u))).
    - apply Rmult_le_compat_r; [rewrite U; lra|exact Dc2].
    - rewrite Rmult_assoc. rewrite U. lra. }
  destruct (Rle_lt_dec (nth i t 0 + q) (nth (S i) t 0)) as [L|L].
  - eapply Rle_trans; [apply rnd_le_float; [exact Fi'|exact L]|]. rewrite U. lra.
  - assert (Ne := rnd_nearest (nth i t 0 + q) _ Fi'). rewrite (Rabs_left (nth (S i) t 0 - _)) in Ne by lra.
    apply Rabs_le_inv in Ne. unfold D1 in Si. rewrite U in *. lra.
Qed.

(** Successive crossings as computed; every wave window contains a sample, so the analysis does not fail. *)
Theorem C62_never_fails (t x : list R) (t0 dt e : R) (s : string) (d : direction) :
  names s d -> floats t -> floats x -> length t = length x -> (2 <= length x)%nat ->
  nearly_uniform t t0 dt e -> 0 <= e <= dt / 16 -> / 2 ^ 90 <= dt ->
  (forall v, In v x -> v = 0 \/ / 2 ^ 900 <= Rabs v) ->
  exists is tau tc ws,
    all_crossings d x is /\ length tau = length is
    /\ determine_zero_crossing (N:=NB) (Arr (vec (F t))) (Arr (vec (F x))) s = Ok (Z.of_nat (length is - 1), tc) /\ data tc = F tau
    /\ (forall k, (k < length is)%nat ->
          nth (nth k is 0%nat) t 0 <= nth k tau 0 <= nth (S (nth k is 0%nat)) t 0 + 8 * e + dt / 2 ^ 48)
    /\ determine_params_individual_waves (N:=NB) (Arr tc) (Arr (vec (F t))) (Arr (vec (F x))) = Ok ws
    /\ length ws = (length is - 1)%nat
    /\ forall k, (k < length ws)%nat ->
         exists h T crest trough tcr ttr,
           nth k ws dwaveB = mkWave (N:=NB) (Fin h) (Fin T) (Fin crest) (Fin trough) (Fin tcr) (Fin ttr)
           /\ h = rnd (crest - trough) /\ T = rnd (nth (S k) tau 0 - nth k tau 0)
           /\ 0 <= h /\ 0 < T
           /\ first_max_on t x (nth k tau 0) (nth (S k) tau 0) crest tcr
           /\ first_min_on t x (nth k tau 0) (nth (S k) tau 0) trough ttr.
Proof.
  intros Hn Ft Fx Hl H2 Hu He Hdt Hx. rewrite (inv_pow 90) in Hdt. change (- Z.of_nat 90)%Z with (-90)%Z in Hdt.
  rewrite (inv_pow 900) in Hx. change (- Z.of_nat 900)%Z with (-900)%Z in Hx.
  assert (P90 := bpow_gt_0 radix2 (-90)).
  destruct (zero_crossing_NB t x s d Hn Hl H2 Fx) as (is & Hall & E).
  set (tau := map (fun i => fl_cross (rnd (nth 1 t 0 - nth 0 t 0)) (nth i t 0) (nth i x 0) (nth (i + 1) x 0)) is) in *.
  assert (Lt : length tau = length is) by (unfold tau; apply map_length).
  assert (Vt : forall k, (k < length is)%nat -> nth k tau 0 = fl_cross (rnd (nth 1 t 0 - nth 0 t 0)) (nth (nth k is 0%nat) t 0) (nth (nth k is 0%nat) x 0) (nth (nth k is 0%nat + 1) x 0)).
  { intros k Hk. unfold tau. rewrite (nth_indep _ 0 ((fun i => fl_cross (rnd (nth 1 t 0 - nth 0 t 0)) (nth i t 0) (nth i x 0) (nth (i + 1) x 0)) 0%nat)) by (rewrite map_length; exact Hk).
    rewrite (map_nth (fun i => fl_cross (rnd (nth 1 t 0 - nth 0 t 0)) (nth i t 0) (nth i x 0) (nth (i + 1) x 0))). reflexivity. }
  assert (Cr : forall k, (k < length is)%nat -> Rcrosses d x (nth k is 0%nat)) by (intros k Hk; apply (proj2 Hall), nth_In, Hk).
  assert (Pos : forall k, (k < length is)%nat -> nth (nth k is 0%nat) t 0 <= nth k tau 0 <= nth (S (nth k is 0%nat)) t 0 + 8 * e + dt * bpow radix2 (-48)).
  { intros k Hk. rewrite (Vt k Hk). apply (crossing_position t x t0 dt e d); auto. }
  assert (U48 : bpow radix2 (-48) = / 281474976710656) by (cbn; lra). rewrite U48 in Pos.
  assert (Inc : increasing t) by (apply (nearly_increasing t t0 dt e Hu); lra).
  assert (Win : forall k, (S k < length is)%nat ->
     nth k tau 0 < nth (nth (S k) is 0%nat) t 0 <= nth (S k) tau 0 /\ (nth (S k) is 0%nat < length t)%nat).
  { intros k Hk. assert (Ck := Cr k ltac:(lia)). assert (Cj := Cr (S k) Hk). assert (A := proj1 Hall k (S k) ltac:(lia)).
    set (i := nth k is 0%nat) in *. set (j := nth (S k) is 0%nat) in *.
    assert (Hij : (S i < j)%nat).
    { destruct (Nat.eq_dec j (S i)) as [Ej|]; [|lia]. destruct Ck as [_ Ck]. destruct Cj as [_ Cj]. rewrite Ej in Cj. destruct d; lra. }
    destruct Cj as [Hj _]. assert (Pk := Pos k ltac:(lia)). assert (Pj := Pos (S k) Hk). fold i in Pk. fold j in Pj.
    assert (St := nearly_step t t0 dt e (S i) Hu ltac:(lia)).
    assert (M : nth (S (S i)) t 0 <= nth j t 0).
    { destruct (Nat.eq_dec j (S (S i))) as [->|]; [lra|]. left. apply Inc. lia. }
    split; [|lia]. split; [lra|apply Pj]. }
  assert (Smp : waves_sampled t tau).
  { intros k Hk. rewrite Lt in Hk. destruct (Win k Hk) as [W1 W2]. exists (nth (S k) is 0%nat). split; [exact W2|lra]. }
  destruct (all_waves_NB t x tau Inc (eq_sym Hl) Smp) as (ws & Ew & Lw & W).
  exists is, tau, (match tau with [] => empty00 | _ => vec (F tau) end), ws.
  split; [exact Hall|]. split; [exact Lt|]. split; [exact E|]. split; [destruct tau; reflexivity|].
  split. { intros k Hk. specialize (Pos k Hk). replace (dt / 2 ^ 48) with (dt * / 281474976710656) by (cbn; lra). exact Pos. }
  split.
  { destruct tau as [|a0 tau'] eqn:Etau.
    - cbn in Ew. rewrite <- Ew. reflexivity.
    - rewrite <- Etau in *. assert (Ne : tau <> []) by (rewrite Etau; discriminate).
      unfold determine_params_individual_waves; cbn [convert_to_array_type]. rewrite asize_vec.
      change (@length NB (F tau)) with (@length xr (F tau)). rewrite F_length.
      destruct (Nat.eqb_spec (length tau) 0); [destruct tau; [contradiction|discriminate]|].
      rewrite !is1darray_vec by (apply F_ne; intros Z; subst; cbn in *; lia || contradiction). cbn [negb].
      rewrite !as_list_vec, !bind_Ok. change (@length NB (F t)) with (@length xr (F t)). change (@length NB (F x)) with (@length xr (F x)).
      rewrite !F_length, Hl, Nat.eqb_refl. cbn [negb]. exact Ew. }
  rewrite Lw, Lt. split; [reflexivity|]. intros k Hk. rewrite Lw, Lt in W. destruct (W k Hk) as (c & tr & tcr & ttr & Ek & Mx & Mn).
  exists (rnd (c - tr)), (rnd (nth (S k) tau 0 - nth k tau 0)), c, tr, tcr, ttr.
  split; [exact Ek|]. split; [reflexivity|]. split; [reflexivity|].
  destruct (Win k ltac:(lia)) as [W1 W2]. split; [|split; [|split; assumption]].
  - apply rnd_nonneg. destruct Mx as (i & Hi & Ri & _ & _ & Mx & _). destruct Mn as (j & Hj & Rj & _ & Ej & _).
    specialize (Mx j Hj Rj). lra.
  - apply rnd_diff_pos; [| |lra]; rewrite Vt by lia; apply rnd_float.
Qed.

(** Deviation: in exact arithmetic every wave has a positive height (C13).  In binary64 the computed crossing can lie
    behind the sample that ends the crossing interval, so that a wave loses its only positive sample.  Here
    t = 0.0, 0.1, 0.2, 0.3 and x = -1.5, 2^-60, -1.5, 1: the first up-crossing is computed as 0.10000000000000002 > 0.1 and
    the wave has height 0 and crest -1.5. *)
Definition D10 : R := IZR 3602879701896397 * bpow radix2 (-55).
Lemma D10_eq : D10 = rnd (1 / 10).
Proof.
  unfold rnd, round, F2R. cbn [Fnum Fexp].
  assert (Mg : mag radix2 (1/10) = (-3)%Z :> Z) by (apply mag_unique; rewrite Rabs_pos_eq by lra; cbn; lra).
  unfold scaled_mantissa, cexp. rewrite Mg. change (fexp64 (-3)) with (-56)%Z.
  assert (Z : ZnearestE (1 / 10 * bpow radix2 (- -56)) = 7205759403792794%Z).
  { apply Znearest_imp. replace (bpow radix2 (- -56)) with 72057594037927936 by (cbn; lra). apply Rabs_lt. lra. }
  rewrite Z. unfold D10. cbn. lra.
Qed.
Definition t_ex : list R := [0; D10; 2 * D10; rnd (3 / 10)].
Definition x_ex : list R := [- (3 / 2); / 2 ^ 60; - (3 / 2); 1].
Lemma D10_val : D10 = 3602879701896397 / 36028797018963968.
Proof. unfold D10. cbn. lra. Qed.
Lemma t3_bounds : 29 / 100 <= rnd (3 / 10) <= 31 / 100 /\ Rabs (rnd (3/10) - 3/10) <= / 2 ^ 54.
Proof.
  assert (E : Rabs (rnd (3/10) - 3/10) <= bpow radix2 (-1 - 54)).
  { apply rnd_err; [lia|]. rewrite Rabs_pos_eq by lra. cbn. lra. }
  replace (bpow radix2 (-1 - 54)) with (/ 2 ^ 55) in E by (cbn; lra). split.
  - apply Rabs_le_inv in E. lra.
  - eapply Rle_trans; [exact E|]. lra.
Qed.
Lemma ex_offset : rnd (rnd (D10 * - (3 / 2)) / rnd (- (3 / 2) - / 2 ^ 60)) = IZR 7205759403792795 * bpow radix2 (-56).
Proof.
  assert (N : rnd (D10 * - (3 / 2)) = - (IZR 5404319552844596 * bpow radix2 (-55))).
  { replace (D10 * - (3 / 2)) with (- (D10 * (3 / 2))) by ring. rewrite rnd_opp. f_equal.
    unfold rnd, round, F2R. cbn [Fnum Fexp].
    assert (Mg : mag radix2 (D10 * (3 / 2)) = (-2)%Z :> Z) by (apply mag_unique; rewrite D10_val, Rabs_pos_eq by lra; cbn; lra).
    unfold scaled_mantissa, cexp. rewrite Mg. change (fexp64 (-2)) with (-55)%Z. f_equal. f_equal.
    replace (D10 * (3 / 2) * bpow radix2 (- -55)) with (IZR 5404319552844595 + / 2) by (rewrite D10_val; cbn; lra).
    unfold Znearest. assert (Fl : Zfloor (IZR 5404319552844595 + / 2) = 5404319552844595%Z) by (apply Zfloor_imp; rewrite plus_IZR; lra).
    rewrite Fl. replace (IZR 5404319552844595 + / 2 - IZR 5404319552844595) with (/ 2) by lra.
    rewrite Rcompare_Eq by reflexivity. cbn [Z.even negb]. rewrite Zceil_floor_neq; rewrite Fl; [reflexivity|lra]. }
  assert (Dn : rnd (- (3 / 2) - / 2 ^ 60) = - (3 / 2)).
  { replace (- (3 / 2) - / 2 ^ 60) with (- (3 / 2 + / 2 ^ 60)) by ring. rewrite rnd_opp. f_equal.
    unfold rnd, round, F2R. cbn [Fnum Fexp].
    assert (Mg : mag radix2 (3 / 2 + / 2 ^ 60) = 1%Z :> Z) by (apply mag_unique; rewrite Rabs_pos_eq by lra; cbn; lra).
    unfold scaled_mantissa, cexp. rewrite Mg. change (fexp64 1) with (-52)%Z.
    assert (Z : ZnearestE ((3 / 2 + / 2 ^ 60) * bpow radix2 (- -52)) = 6755399441055744%Z).
    { apply Znearest_imp. replace (bpow radix2 (- -52)) with 4503599627370496 by (cbn; lra). apply Rabs_lt. lra. }
    rewrite Z. cbn. lra. }
  rewrite N, Dn. set (v := - (IZR 5404319552844596 * bpow radix2 (-55)) / - (3 / 2)).
  assert (V : v = 5404319552844596 * 2 / 3 / 36028797018963968) by (unfold v; replace (bpow radix2 (-55)) with (/ 36028797018963968) by (cbn; lra); field).
  unfold rnd, round, F2R. cbn [Fnum Fexp].
  assert (Mg : mag radix2 v = (-3)%Z :> Z) by (apply mag_unique; rewrite V, Rabs_pos_eq by lra; cbn; lra).
  unfold scaled_mantissa, cexp. rewrite Mg. change (fexp64 (-3)) with (-56)%Z. f_equal. f_equal.
  apply Znearest_imp. replace (bpow radix2 (- -56)) with 72057594037927936 by (cbn; lra). rewrite V. apply Rabs_lt. lra.
Qed.
Lemma ex_hyps : names "up" Up /\ floats t_ex /\ floats x_ex /\ length t_ex = length x_ex /\ (2 <= length x_ex)%nat
  /\ nearly_uniform t_ex 0 (1/10) (/ 2 ^ 54) /\ 0 <= / 2 ^ 54 <= (1/10) / 16 /\ / 2 ^ 90 <= 1/10
  /\ (forall v, In v x_ex -> v = 0 \/ / 2 ^ 900 <= Rabs v).
Proof.
  split; [reflexivity|]. split.
  { intros v Hv. cbn in Hv. destruct Hv as [<-|[<-|[<-|[<-|[]]]]].
    - apply float_0. - rewrite D10_eq. apply rnd_float.
    - replace (2 * D10) with (IZR 3602879701896397 * bpow radix2 (-54)) by (unfold D10; cbn; lra). apply float_scaled; cbn; lia.
    - apply rnd_float. }
  split.
  { intros v Hv. cbn [In x_ex] in Hv. destruct Hv as [<-|[<-|[<-|[<-|[]]]]].
    - replace (- (3 / 2)) with (IZR (-3) * bpow radix2 (-1)) by (cbn; lra). apply float_scaled; cbn; lia.
    - rewrite (inv_pow 60). apply float_bpow. lia.
    - replace (- (3 / 2)) with (IZR (-3) * bpow radix2 (-1)) by (cbn; lra). apply float_scaled; cbn; lia.
    - apply (float_Z 1). cbn; lia. }
  split; [reflexivity|]. split; [cbn; lia|]. split.
  { intros i Hi. cbn [length t_ex] in Hi. unfold t_ex. destruct t3_bounds as [_ T3].
    destruct i as [|[|[|[|i]]]]; [| | | |lia]; cbn [nth].
    - change (INR 0) with 0. rewrite Rabs_right by lra. lra.
    - change (INR 1) with 1. rewrite D10_val. apply Rabs_le. lra.
    - change (INR 2) with 2. rewrite D10_val. apply Rabs_le. lra.
    - replace (INR 3) with 3 by (rewrite INR_IZR_INZ; reflexivity). replace (0 + 3 * (1/10)) with (3/10) by lra. exact T3. }
  split; [lra|]. split; [lra|]. intros v Hv. right.
  apply Rle_trans with (/ 2 ^ 60); [apply Rinv_le_contravar; [apply pow_lt; lra|]; apply Rle_pow; [lra|lia]|].
  cbn [In x_ex] in Hv. destruct Hv as [<-|[<-|[<-|[<-|[]]]]].
  - rewrite Rabs_left by lra. lra. - rewrite Rabs_pos_eq by lra. lra. - rewrite Rabs_left by lra. lra. - rewrite Rabs_pos_eq by lra. lra.
Qed.
Theorem C62_positive_height_refuted :
  ~ (forall (t x : list R) (t0 dt e : R) (s : string) (d : direction) (n : Z) tc ws,
       names s d -> floats t -> floats x -> length t = length x -> (2 <= length x)%nat ->
       nearly_uniform t t0 dt e -> 0 <= e <= dt / 16 -> / 2 ^ 90 <= dt ->
       (forall v, In v x -> v = 0 \/ / 2 ^ 900 <= Rabs v) ->
       determine_zero_crossing (N:=NB) (Arr (vec (F t))) (Arr (vec (F x))) s = Ok (n, tc) ->
       determine_params_individual_waves (N:=NB) (Arr tc) (Arr (vec (F t))) (Arr (vec (F x))) = Ok ws ->
       forall w, In w ws -> exists h, w_h w = Fin h /\ 0 < h).
Proof.
  intros C. destruct ex_hyps as (H1 & H2 & H3 & H4 & H5 & H6 & H7 & H8 & H9).
  destruct (C62_never_fails t_ex x_ex 0 (1/10) (/ 2 ^ 54) "up" Up H1 H2 H3 H4 H5 H6 H7 H8 H9)
    as (is & tau & tc & ws & Hall & Lt & E & Dt & _ & Ew & Lw & W).
  destruct (zero_crossing_NB t_ex x_ex "up" Up H1 H4 H5 H3) as (is' & Hall' & E').
  assert (Ei : is = [0; 2]%nat).
  { apply (all_crossings_unique Up x_ex); [exact Hall|]. split.
    - intros i j Hij. cbn in Hij. destruct i as [|[|]], j as [|[|]]; cbn; lia.
    - intros i. cbn [In]. split.
      + intros [<-|[<-|[]]]; split; cbn [length x_ex]; try lia; cbn [nth x_ex]; lra.
      + intros [Hi Hc]. cbn [length x_ex] in Hi. destruct i as [|[|[|i]]]; [auto| |auto|lia]. cbn [nth x_ex] in Hc. lra. }
  assert (Ei' : is' = is) by (apply (all_crossings_unique Up x_ex); assumption).
  rewrite E in E'. cbn zeta in E'. apply Ok_inj in E'. rewrite Ei', Ei in E'. cbn [map] in E'. injection E' as E'.
  assert (Dt' : tau = [fl_cross (rnd (D10 - 0)) 0 (- (3/2)) (/ 2 ^ 60); fl_cross (rnd (D10 - 0)) (2 * D10) (- (3/2)) 1]).
  { apply F_inj. rewrite <- Dt, E'. reflexivity. }
  clear Dt. rename Dt' into Dt.
  rewrite Ei in Lw. cbn in Lw. destruct ws as [|w [|]]; try discriminate.
  specialize (C t_ex x_ex 0 (1/10) (/ 2 ^ 54) "up"%string Up _ tc [w] H1 H2 H3 H4 H5 H6 H7 H8 H9 E Ew w (or_introl eq_refl)).
  destruct (W 0%nat ltac:(cbn; lia)) as (h & T & c & tr & tcr & ttr & Ek & Eh & _ & _ & _ & Mx & Mn).
  cbn [nth] in Ek. rewrite Ek in C. cbn [w_h] in C. destruct C as (h' & Eh' & Ph). injection Eh' as <-.
  rewrite Dt in Mx, Mn. cbn [nth t_ex x_ex plus] in Mx, Mn.
  set (a := fl_cross (rnd (D10 - 0)) 0 (- (3/2)) (/ 2 ^ 60)) in *. set (b := fl_cross (rnd (D10 - 0)) (2 * D10) (- (3/2)) 1) in *.
  assert (Fd : is_float D10) by (rewrite D10_eq; apply rnd_float).
  assert (Ea : D10 < a).
  { unfold a, fl_cross. rewrite Rminus_0_r, (rnd_id D10) by exact Fd. rewrite ex_offset, Rplus_0_l, rnd_id by (apply float_scaled; cbn; lia).
    rewrite D10_val. cbn. lra. }
  assert (Eb : b < rnd (3/10)).
  { apply Rle_lt_trans with (9/32); [|destruct t3_bounds; lra].
    unfold b, fl_cross. rewrite Rminus_0_r, (rnd_id D10) by exact Fd.
    assert (Q : rnd (rnd (D10 * - (3/2)) / rnd (- (3/2) - 1)) <= 5 / 64).
    { apply rnd_le_float.
      - replace (5 / 64) with (IZR 5 * bpow radix2 (-6)) by (cbn; lra). apply float_scaled; cbn; lia.
      - rewrite (rnd_id (- (3/2) - 1)).
        + assert (L : - (3 / 16) <= rnd (D10 * - (3/2))).
          { apply rnd_ge_float; [|rewrite D10_val; lra]. replace (- (3 / 16)) with (IZR (-3) * bpow radix2 (-4)) by (cbn; lra). apply float_scaled; cbn; lia. }
          replace (rnd (D10 * - (3/2)) / (- (3/2) - 1)) with (- (rnd (D10 * - (3/2)) * (2/5))) by field. lra.
        + replace (- (3/2) - 1) with (IZR (-5) * bpow radix2 (-1)) by (cbn; lra). apply float_scaled; cbn; lia. }
    apply rnd_le_float.
    - replace (9 / 32) with (IZR 9 * bpow radix2 (-5)) by (cbn; lra). apply float_scaled; cbn; lia.
    - rewrite D10_val in *. lra. }
  assert (Only : forall i, (i < 4)%nat -> a <= nth i t_ex 0 <= b -> i = 2%nat).
  { intros i Hi Hr. destruct i as [|[|[|[|i]]]]; [| |reflexivity| |lia]; cbn [nth t_ex] in Hr; [|lra|lra].
    rewrite D10_val in Ea. lra. }
  destruct Mx as (i & Hi & Ri & _ & Ec & _). destruct Mn as (j & Hj & Rj & _ & Et & _).
  apply Only in Ri; [|exact Hi]. apply Only in Rj; [|exact Hj]. subst i j. cbn [nth x_ex] in Ec, Et.
  assert (h = 0); [|lra]. rewrite Eh, Ec, Et. replace (- (3/2) - - (3/2)) with 0 by lra. apply rnd_id, float_0.
Qed.
Example C62_witness : names "up" Up /\ floats t_ex /\ floats x_ex /\ nearly_uniform t_ex 0 (1/10) (/ 2 ^ 54).
Proof. destruct ex_hyps as (H1 & H2 & H3 & _ & _ & H6 & _). auto. Qed.
End AnyOrder.
