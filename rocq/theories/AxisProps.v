(** * C16, continued: axes that are not exactly uniform *)

From Coq Require Import Reals ZArith String List Bool Lra Lia Psatz.
From Verif Require Import SumOrder Num XR Spec XRFacts Engine EngineProps TimeModel TimeSpec TimeProps TimeProps2 TimeProps3 WaveModel SeriesModel WHProps SeriesProps.
Import ListNotations.
Open Scope R_scope.

(** the time axis check of Series: the variance of the steps is below 1 % of their mean *)
Definition axis_accepted (t : list R) : Prop := Rvar (Rdiff t) < Rmean (Rdiff t) / 100.
(** two neighbouring steps are together at least as long as the first step *)
Definition steps_regular (t : list R) : Prop :=
  forall i, (i + 2 < length t)%nat -> nth 1 t 0 - nth 0 t 0 <= nth (i + 2) t 0 - nth i t 0.

(** the crossing analysis does not fail on such an axis *)
Theorem C13_regular_axis (t x : list R) (s : string) (d : direction) :
  names s d -> increasing t -> length t = length x -> (2 <= length x)%nat -> steps_regular t ->
  exists is tau tc ws,
    all_crossings d x is /\ length tau = length is
    /\ determine_zero_crossing (N:=NX) (Arr (vec (F t))) (Arr (vec (F x))) s = Ok (Z.of_nat (length ws), tc) /\ data tc = F tau
    /\ determine_params_individual_waves (N:=NX) (Arr tc) (Arr (vec (F t))) (Arr (vec (F x))) = Ok ws
    /\ length ws = (length is - 1)%nat
    /\ (forall k, (k < length is)%nat -> let i := nth k is 0%nat in nth i t 0 <= nth k tau 0 <= nth i t 0 + (nth 1 t 0 - nth 0 t 0))
    /\ forall k, (k < length ws)%nat ->
         exists h crest trough tcr ttr,
           nth k ws dwave = mkWave (N:=NX) (Fin h) (Fin (nth (S k) tau 0 - nth k tau 0)) (Fin crest) (Fin trough) (Fin tcr) (Fin ttr)
           /\ h = crest - trough /\ 0 <= h /\ 0 <= nth (S k) tau 0 - nth k tau 0
           /\ first_max_on t x (nth k tau 0) (nth (S k) tau 0) crest tcr
           /\ first_min_on t x (nth k tau 0) (nth (S k) tau 0) trough ttr.
Proof.
  intros Hn Inc Hl H2 Hr. destruct (zero_crossing_F t x s d Hn Hl H2) as (is & Hall & E). cbv zeta in E.
  set (w := nth 1 t 0 - nth 0 t 0) in *. assert (Pw : 0 < w) by (unfold w; assert (A := Inc 0%nat 1%nat ltac:(lia)); lra).
  set (c := fun i => nth i t 0 + w * nth i x 0 / (nth i x 0 - nth (i + 1) x 0)) in *. set (tau := map c is) in *.
  assert (Lt : length tau = length is) by (unfold tau; apply map_length).
  assert (Vt : forall k, (k < length is)%nat -> nth k tau 0 = c (nth k is 0%nat)).
  { intros k Hk. unfold tau. rewrite (nth_indep _ 0 (c 0%nat)) by (rewrite map_length; exact Hk). apply map_nth. }
  assert (Cr : forall k, (k < length is)%nat -> Rcrosses d x (nth k is 0%nat)) by (intros k Hk; apply (proj2 Hall), nth_In, Hk).
  assert (Pos : forall k, (k < length is)%nat -> let i := nth k is 0%nat in nth i t 0 <= nth k tau 0 <= nth i t 0 + w).
  { intros k Hk i. rewrite (Vt k Hk). fold i. assert (Ck := Cr k Hk). fold i in Ck. destruct Ck as [_ Ck]. unfold c. replace (i + 1)%nat with (S i) by lia.
    set (a := nth i x 0) in *. set (b := nth (S i) x 0) in *.
    assert (Q : 0 <= w * a / (a - b) <= w); [|lra].
    destruct d.
    - assert (0 < b - a) by lra. replace (w * a / (a - b)) with (w * (- a) / (b - a)) by (field; lra).
      split; [apply Rmult_le_pos; [nra|apply Rlt_le, Rinv_0_lt_compat; lra]|].
      apply Rmult_le_reg_r with (b - a); [lra|]. unfold Rdiv. rewrite Rmult_assoc, Rinv_l by lra. nra.
    - assert (0 < a - b) by lra. split; [apply Rmult_le_pos; [nra|apply Rlt_le, Rinv_0_lt_compat; lra]|].
      apply Rmult_le_reg_r with (a - b); [lra|]. unfold Rdiv. rewrite Rmult_assoc, Rinv_l by lra. nra. }
  assert (Win : forall k, (S k < length is)%nat -> nth k tau 0 <= nth (nth (S k) is 0%nat) t 0 <= nth (S k) tau 0 /\ (nth (S k) is 0%nat < length t)%nat).
  { intros k Hk. assert (Ck := Cr k ltac:(lia)). assert (Cj := Cr (S k) Hk). assert (A := proj1 Hall k (S k) ltac:(lia)).
    assert (Pk := Pos k ltac:(lia)). assert (Pj := Pos (S k) Hk). cbv zeta in Pk, Pj.
    set (i := nth k is 0%nat) in *. set (j := nth (S k) is 0%nat) in *.
    assert (Hij : (S i < j)%nat).
    { destruct (Nat.eq_dec j (S i)) as [Ej|]; [|lia]. destruct Ck as [_ Ck]. destruct Cj as [_ Cj]. rewrite Ej in Cj. destruct d; lra. }
    destruct Cj as [Hj _]. assert (St := Hr i ltac:(lia)). fold w in St.
    assert (M : nth (i + 2) t 0 <= nth j t 0).
    { destruct (Nat.eq_dec j (i + 2)) as [->|]; [lra|]. left. apply Inc. lia. }
    split; [|lia]. split; [lra|apply Pj]. }
  assert (Smp : waves_sampled t tau).
  { intros k Hk. rewrite Lt in Hk. destruct (Win k Hk) as [W1 W2]. exists (nth (S k) is 0%nat). split; [exact W2|lra]. }
  assert (Res : exists ws, determine_params_individual_waves (N:=NX) (Arr (match tau with [] => empty00 | _ => vec (F tau) end)) (Arr (vec (F t))) (Arr (vec (F x))) = Ok ws
     /\ length ws = (length tau - 1)%nat /\ forall k, (k < length ws)%nat -> exists h crest trough tcr ttr,
           nth k ws dwave = mkWave (Fin h) (Fin (nth (S k) tau 0 - nth k tau 0)) (Fin crest) (Fin trough) (Fin tcr) (Fin ttr)
           /\ h = crest - trough /\ first_max_on t x (nth k tau 0) (nth (S k) tau 0) crest tcr /\ first_min_on t x (nth k tau 0) (nth (S k) tau 0) trough ttr).
  { destruct tau as [|a0 tau'] eqn:Et.
    - exists []. split; [reflexivity|]. split; [reflexivity|]. intros k Hk. cbn in Hk. lia.
    - rewrite <- Et in *. destruct (C12_wave_parameters t x tau Inc (eq_sym Hl)) as (ws & E1 & E2 & E3); [destruct t; [cbn in Hl; lia|discriminate]|rewrite Et; discriminate|exact Smp|].
      exists ws. split; [exact E1|]. split; [exact E2|exact E3]. }
  destruct Res as (ws & Ew & Lw & W). rewrite Lt in Lw.
  exists is, tau, (match tau with [] => empty00 | _ => vec (F tau) end), ws. rewrite Lw.
  split; [exact Hall|]. split; [exact Lt|]. split; [exact E|]. split; [destruct tau; reflexivity|]. split; [exact Ew|]. split; [reflexivity|]. split; [exact Pos|].
  intros k Hk. rewrite Lw in W. destruct (W k Hk) as (h & cr & tr & tcr & ttr & Ek & Eh & Mx & Mn). exists h, cr, tr, tcr, ttr.
  split; [exact Ek|]. split; [exact Eh|]. destruct (Win k ltac:(lia)) as [W1 W2]. split; [|split; [lra|split; assumption]].
  destruct Mx as (i & Hi & Ri & _ & _ & Mx & _). destruct Mn as (j & Hj & Rj & _ & Ej & _). specialize (Mx j Hj Rj). lra.
Qed.

(** Series accepts every increasing axis that passes its check and is regular in this sense *)
Theorem C16_regular_accepted (t x : list R) (at_ ax : arraylike NX) :
  increasing t -> length t = length x -> (2 <= length x)%nat -> axis_accepted t -> steps_regular t ->
  holds_vector (F t) at_ -> holds_vector (F x) ax ->
  exists s tc ws,
    series_init at_ ax = Ok s
    /\ se_t s = F t /\ se_x s = F x /\ se_nt s = length x /\ se_dt s = Fin (Rmean (Rdiff t))
    /\ determine_zero_crossing (Arr (vec (F t))) (Arr (vec (F x))) "down" = Ok (Z.of_nat (length ws), tc)
    /\ determine_params_individual_waves (Arr tc) (Arr (vec (F t))) (Arr (vec (F x))) = Ok ws
    /\ stored_waves (se_wh s) ws
    /\ se_tCross s = data tc.
Proof.
  intros Inc Hl H2 Ha Hr Ht Hx.
  assert (Nx : F x <> []) by (destruct x; [cbn in H2; lia|discriminate]).
  assert (Nt : F t <> []) by (destruct t; [cbn in Hl; lia|discriminate]).
  destruct (hv_convert _ at_ Nt Ht) as (k1 & _ & E1). destruct (hv_convert _ ax Nx Hx) as (k2 & _ & E2).
  destruct (C13_regular_axis t x "down" Down eq_refl Inc Hl H2 Hr) as (is & tau & tc & ws & _ & _ & Z1 & _ & W1 & _ & _ & Hall).
  unfold series_init. rewrite E1, E2. cbn [fst]. rewrite !F_length, Hl, Nat.eqb_refl. cbn [negb].
  rewrite as_list_vec, bind_Ok, ndiff_F.
  assert (Hne : Rdiff t <> []) by (intros Q; apply (f_equal (@length R)) in Q; rewrite Rdiff_length in Q; cbn in Q; lia).
  rewrite nvar_F by auto. rewrite (F_map (fun d => d / 100)) by (intros; rewrite fin_ofZ, fin_div by lra; reflexivity).
  rewrite nmean_F by (intros Q; apply map_eq_nil in Q; contradiction). rewrite fin_ltb.
  assert (Em : Rmean (map (fun d => d / 100) (Rdiff t)) = Rmean (Rdiff t) / 100).
  { unfold Rmean. rewrite map_length. assert (Es : forall l, Rsum (map (fun d => d / 100) l) = Rsum l / 100).
    { clear. induction l as [|a l IH]; [unfold Rsum; cbn; lra|]. cbn [map]. rewrite !Rsum_cons, IH. lra. }
    rewrite Es. unfold Rdiv. ring. }
  rewrite Em, Rltb_true by exact Ha. cbn [negb]. rewrite as_list_vec, bind_Ok, nmean_F by auto.
  unfold individual_waves, series_crossings. rewrite fin_0, fin_eqb, Reqb_true by auto. cbn [negb]. rewrite bind_Ok.
  rewrite <- fin_0, map_sub0, Z1, bind_Ok, W1, bind_Ok.
  assert (Ew : where_ (fun w => nltb (n:=NX) (w_h w) n0) ws = []).
  { apply (where_none _ _ dwave). intros i Hi. destruct (Hall i Hi) as (h & a & b & c & e & -> & _ & Hh & _). cbn [w_h]. rewrite fin_0, fin_ltb. apply Rltb_false. lra. }
  rewrite Ew, !delete_nil, bind_Ok.
  eexists _, tc, ws. split; [reflexivity|]. cbn [se_t se_x se_nt se_dt se_wh se_tCross].
  split; [reflexivity|]. split; [reflexivity|]. split; [rewrite ?F_length; first [exact Hl|reflexivity]|]. split; [reflexivity|].
  split; [reflexivity|]. split; [exact W1|]. split; [apply wh_of_waves_stored|reflexivity].
Qed.

Lemma Rabs_le_both a b : Rabs a <= b -> - b <= a <= b.
Proof. intros H. assert (A := Rle_abs a). assert (B := Rle_abs (- a)). rewrite Rabs_Ropp in B. lra. Qed.
(** every sample within [e] of a uniform axis of step [dt] *)
Definition close_to_uniform (t : list R) (t0 dt e : R) : Prop := forall i, (i < length t)%nat -> Rabs (nth i t 0 - (t0 + INR i * dt)) <= e.
Lemma close_step t t0 dt e i : close_to_uniform t t0 dt e -> (S i < length t)%nat -> dt - 2 * e <= nth (S i) t 0 - nth i t 0 <= dt + 2 * e.
Proof. intros H Hi. assert (A := H i ltac:(lia)). assert (B := H (S i) Hi). rewrite S_INR in B. apply Rabs_le_both in A, B. lra. Qed.
Lemma close_increasing t t0 dt e : close_to_uniform t t0 dt e -> 2 * e < dt -> increasing t.
Proof.
  intros H He i j Hij. destruct Hij as [Hij Hj]. induction j as [|j IH]; [lia|].
  assert (S := close_step t t0 dt e j H Hj). destruct (Nat.eq_dec i j) as [->|]; [lra|]. specialize (IH ltac:(lia) ltac:(lia)). lra.
Qed.
Lemma Rvar_within l c e : l <> [] -> (forall v, In v l -> Rabs (v - c) <= e) -> Rvar l <= 4 * e ^ 2 /\ c - e <= Rmean l <= c + e.
Proof.
  intros Hne H. assert (M : c - e <= Rmean l <= c + e) by (apply Rmean_bounds; [exact Hne|]; intros v Hv; specialize (H v Hv); apply Rabs_le_both in H; lra).
  split; [|exact M]. unfold Rvar. apply (Rmean_bounds (map (fun x => (x - Rmean l) * (x - Rmean l)) l) 0 (4 * e ^ 2)).
  - intros Q. apply map_eq_nil in Q. contradiction.
  - intros q Hq. apply in_map_iff in Hq. destruct Hq as (v & <- & Hv). specialize (H v Hv). apply Rabs_le_both in H. assert (0 <= e) by lra.
    assert (A : - (2 * e) <= v - Rmean l <= 2 * e) by lra. set (q := v - Rmean l) in *. assert (B : 0 <= (2 * e - q) * (2 * e + q)) by (apply Rmult_le_pos; lra). assert (C := Rle_0_sqr q). unfold Rsqr in C. split; [exact C|lra].
Qed.
Theorem C16_close_to_uniform_accepted (t x : list R) (t0 dt e : R) (at_ ax : arraylike NX) :
  length t = length x -> (2 <= length x)%nat -> close_to_uniform t t0 dt e -> 0 < dt -> 0 <= e <= dt / 8 -> 2200 * e ^ 2 <= dt ->
  holds_vector (F t) at_ -> holds_vector (F x) ax ->
  exists s tc ws,
    series_init at_ ax = Ok s
    /\ se_t s = F t /\ se_x s = F x /\ se_nt s = length x /\ (exists r, se_dt s = Fin r /\ Rabs (r - dt) <= 2 * e)
    /\ determine_zero_crossing (Arr (vec (F t))) (Arr (vec (F x))) "down" = Ok (Z.of_nat (length ws), tc)
    /\ determine_params_individual_waves (Arr tc) (Arr (vec (F t))) (Arr (vec (F x))) = Ok ws
    /\ stored_waves (se_wh s) ws
    /\ se_tCross s = data tc.
Proof.
  intros Hl H2 Hu Pd He He2 Ht Hx. assert (Inc : increasing t) by (apply (close_increasing t t0 dt e Hu); lra).
  assert (Hne : Rdiff t <> []) by (intros Q; apply (f_equal (@length R)) in Q; rewrite Rdiff_length in Q; cbn in Q; lia).
  assert (St : forall v, In v (Rdiff t) -> Rabs (v - dt) <= 2 * e).
  { intros v Hv. apply (In_nth _ _ 0) in Hv. destruct Hv as (i & Hi & <-). rewrite Rdiff_length in Hi. rewrite Rdiff_nth by lia.
    assert (A := close_step t t0 dt e i Hu ltac:(lia)). apply Rabs_le. lra. }
  destruct (Rvar_within (Rdiff t) dt (2 * e) Hne St) as [V M].
  assert (Ha : axis_accepted t).
  { unfold axis_accepted. apply Rle_lt_trans with (16 * e ^ 2); [nra|]. lra. }
  assert (Hr : steps_regular t).
  { intros i Hi. assert (A := close_step t t0 dt e 0 Hu ltac:(lia)). assert (B := close_step t t0 dt e i Hu ltac:(lia)). assert (C := close_step t t0 dt e (S i) Hu ltac:(lia)).
    replace (i + 2)%nat with (S (S i)) by lia. lra. }
  destruct (C16_regular_accepted t x at_ ax Inc Hl H2 Ha Hr Ht Hx) as (s & tc & ws & E1 & E2 & E3 & E4 & E5 & E6).
  exists s, tc, ws. split; [exact E1|]. split; [exact E2|]. split; [exact E3|]. split; [exact E4|]. split; [|exact E6].
  exists (Rmean (Rdiff t)). split; [exact E5|]. apply Rabs_le. lra.
Qed.

(** Deviation: an increasing axis that passes the check can still make the construction fail: the crossing times are interpolated
    with the first step, here 1 ms, although later steps are 10 us; the window of the first wave then contains no sample and
    Series(t, x) raises IndexError *)
Definition t_fast : list R := [0; 1 / 1000; 101 / 100000; 102 / 100000; 103 / 100000].
Definition x_fast : list R := [-1; 1; -1; 1; -1].
Lemma fast_axis : increasing t_fast /\ axis_accepted t_fast.
Proof.
  split.
  - intros i j [H1 H2]. cbn in H2. destruct i as [|[|[|[|[|]]]]]; destruct j as [|[|[|[|[|]]]]]; cbn; try lia; lra.
  - unfold axis_accepted, Rvar, Rmean, Rsum. cbn. lra.
Qed.
Lemma fast_raises : series_init (N:=NX) (Arr (vec (F t_fast))) (Arr (vec (F x_fast))) = Raise IndexError.
Proof.
  unfold series_init. rewrite !vec_convert. cbn [fst]. rewrite !F_length. change (length t_fast) with 5%nat. change (length x_fast) with 5%nat. cbn [Nat.eqb negb].
  rewrite as_list_vec, bind_Ok, ndiff_F. assert (Hne : Rdiff t_fast <> []) by discriminate. rewrite nvar_F by exact Hne.
  rewrite (F_map (fun d => d / 100)) by (intros; rewrite fin_ofZ, fin_div by lra; reflexivity). rewrite nmean_F by discriminate. rewrite fin_ltb.
  rewrite Rltb_true by (unfold Rvar, Rmean, Rsum; cbn; lra). cbn [negb]. rewrite as_list_vec, bind_Ok.
  unfold individual_waves, series_crossings. rewrite fin_0, fin_eqb, Reqb_true by auto. cbn [negb]. rewrite bind_Ok, <- fin_0, map_sub0.
  destruct (zero_crossing_F t_fast x_fast "down" Down eq_refl eq_refl ltac:(cbn; lia)) as (is & Hc & Ez).
  assert (Ei : is = [1; 3]%nat).
  { apply (all_crossings_unique Down x_fast is [1; 3]%nat Hc). split; [intros i j [H1 H2]; cbn in H2; destruct i as [|[|]]; destruct j as [|[|]]; cbn; try lia|].
    intros i. split.
    - intros [<-|[<-|[]]]; (split; [cbn; lia|cbn; lra]).
    - intros [H C]. cbn in H. destruct i as [|[|[|[|i]]]]; cbn in C; try lia; try lra; cbn; auto. }
  subst is. cbv zeta in Ez. cbn [map length] in Ez. change (vec (F t_fast)) with (vec (A:=NX) (F t_fast)). change (vec (F x_fast)) with (vec (A:=NX) (F x_fast)). rewrite Ez, bind_Ok.
  cbn [t_fast x_fast nth Nat.add]. set (a := 1 / 1000 + _). set (b := 102 / 100000 + _).
  assert (Ha : a = 3 / 2000) by (unfold a; field). clearbody a. subst a.
  assert (Ew : determine_params_individual_waves (N:=NX) (Arr (vec (F [3 / 2000; b]))) (Arr (vec (F t_fast))) (Arr (vec (F x_fast))) = Raise IndexError).
  { unfold determine_params_individual_waves. cbn [convert_to_array_type]. rewrite asize_vec, F_length. cbn [length Nat.eqb].
    rewrite !is1darray_vec by discriminate. cbn [negb]. rewrite !as_list_vec, !bind_Ok, !F_length. change (length t_fast) with 5%nat. change (length x_fast) with 5%nat. cbn [Nat.eqb negb].
    change (all_waves (N:=NX) (F t_fast) (F x_fast) (F [3 / 2000; b])) with (bind (one_wave (N:=NX) (F t_fast) (F x_fast) (Fin (3 / 2000)) (Fin b)) (fun w => bind (all_waves (N:=NX) (F t_fast) (F x_fast) (F [b])) (fun ws => Ok (w :: ws)))).
    assert (E0 : where_ (fun v => nleb (n:=NX) (Fin (3 / 2000)) v) (F t_fast) = []).
    { apply (where_none _ _ (Fin 0)). intros i Hi. rewrite F_length in Hi. rewrite F_nth, fin_leb. apply Rleb_false. cbn in Hi. destruct i as [|[|[|[|[|]]]]]; cbn; try lia; lra. }
    unfold one_wave. rewrite E0. reflexivity. }
  match goal with |- bind (bind ?z _) _ = _ => assert (Ez' : z = Raise IndexError) by exact Ew; rewrite Ez' end. reflexivity.
Qed.
Theorem C16_increasing_accepted_refuted :
  ~ (forall t x : list R, increasing t -> length t = length x -> (2 <= length x)%nat -> axis_accepted t ->
       exists s, series_init (N:=NX) (Arr (vec (F t))) (Arr (vec (F x))) = Ok s).
Proof.
  intros H. destruct fast_axis as [A B]. destruct (H t_fast x_fast A eq_refl ltac:(cbn; lia) B) as (s & E). rewrite fast_raises in E. discriminate.
Qed.

(** the hypotheses are met by an axis that is not uniform: 0, 1, 2.1, 3 *)
Example C16_regular_witness : let t := [0; 1; 21 / 10; 3] in
  increasing t /\ axis_accepted t /\ steps_regular t /\ close_to_uniform [0; 1; 201 / 100; 3] 0 1 (1 / 100) /\ 0 < 1 /\ 0 <= 1 / 100 <= 1 / 8 /\ 2200 * (1 / 100) ^ 2 <= 1 /\ ~ close_to_uniform t 0 1 0.
Proof.
  intros t. split.
  { intros i j [H1 H2]. cbn in H2. destruct i as [|[|[|[|]]]]; destruct j as [|[|[|[|]]]]; cbn; try lia; lra. }
  split; [unfold axis_accepted, Rvar, Rmean, Rsum; cbn; lra|]. split.
  { intros i Hi. cbn in Hi. destruct i as [|[|i]]; cbn; try lia; lra. }
  split. { intros i Hi. cbn in Hi. destruct i as [|[|[|[|i]]]]; try lia; cbn; apply Rabs_le; lra. }
  split; [lra|]. split; [lra|]. split; [lra|]. intros H. specialize (H 2%nat ltac:(cbn; lia)). apply Rabs_le_both in H. cbn in H. lra.
Qed.
