(** * Random-phase synthesis of a signal from a spectrum: C30, C54 *)

From Coq Require Import Reals ZArith List Bool Lra Lia.
From Coquelicot Require Import Complex.
From Verif Require Import Num XR Spec XRFacts Engine Cpx DFT RSum FourierSpec EngineProps SpectralModel TimeProps
  TimeProps2 SeriesProps FourierFacts FourierProps AvgProps DensityProps BandProps.
Import ListNotations.
Open Scope R_scope.

(** [n] is [r] rounded up *)
Definition ceil_is (r : R) (n : nat) : Prop := INR n - 1 < r <= INR n.

(** linear interpolation in a table, zero outside it *)
Definition interpolates (f D : list R) (v s : R) : Prop :=
  (v < nth 0 f 0 /\ s = 0)
  \/ (nth (length f - 1) f 0 < v /\ s = 0)
  \/ (v = nth (length f - 1) f 0 /\ s = nth (length f - 1) D 0)
  \/ exists i, (S i < length f)%nat /\ nth i f 0 <= v < nth (S i) f 0
       /\ s = nth i D 0 + (nth (S i) D 0 - nth i D 0) * ((v - nth i f 0) / (nth (S i) f 0 - nth i f 0)).

Lemma ceil_exists r : 0 < r -> exists n, ceil_is r n.
Proof.
  intros H. destruct (Rfloor_spec (- r)) as [H1 H2]. exists (Z.to_nat (- Rfloor (- r))). unfold ceil_is.
  assert (0 <= - Rfloor (- r))%Z.
  { assert (IZR (Rfloor (- r)) < IZR 0) by lra. apply lt_IZR in H0. lia. }
  rewrite INR_IZR_INZ, Z2Nat.id, opp_IZR by auto. lra.
Qed.
Lemma arange_F a b st n : 0 < st -> ceil_is ((b - a) / st) n ->
  np_arange (N:=NX) (Fin a) (Fin b) (Fin st) = Ok (F (axis a st n)).
Proof.
  intros Hs [H1 H2]. unfold np_arange. change (n0 (N:=NX)) with (Fin 0). rewrite fin_eqb.
  replace (Reqb st 0) with false by (symmetry; destruct (Reqb_spec st 0); auto; lra). cbn [negb].
  rewrite fin_sub, fin_div by lra. unfold nceil. rewrite fin_opp.
  change (nfloor (n:=NX) (Fin (- ((b - a) / st)))) with (Some (Rfloor (- ((b - a) / st)))).
  rewrite (Rfloor_unique _ (- Z.of_nat n)) by (rewrite opp_IZR, <- INR_IZR_INZ; lra).
  rewrite Z.opp_involutive, Nat2Z.id. f_equal. unfold F, axis. rewrite map_map. apply map_ext. intros i.
  destruct i as [|[|i]]; [f_equal; cbn [INR]; ring|rewrite fin_add; f_equal; cbn [INR]; ring|].
  rewrite fin_ofnat, fin_add, fin_sub, fin_mul, fin_add. f_equal. ring.
Qed.

Lemma interp_from_F v xa ya f D : increasing (xa :: f) -> length D = length f -> xa <= v ->
  exists s, interp_from (N:=NX) (Fin v) (Fin xa) (Fin ya) (combine (F f) (F D)) = Fin s
            /\ interpolates (xa :: f) (ya :: D) v s.
Proof.
  revert xa ya D; induction f as [|xb f IH]; intros xa ya D Hi Hl Hv; destruct D as [|yb D]; try discriminate.
  - cbn [F map combine interp_from]. rewrite fin_ltb. destruct (Rltb_spec xa v).
    + exists 0. split; [reflexivity|]. right. left. cbn. lra.
    + exists ya. split; [reflexivity|]. right. right. left. cbn. lra.
  - cbn [F map combine interp_from]. rewrite fin_leb.
    assert (Hab : xa < xb) by (apply (Hi 0%nat 1%nat); cbn; lia).
    destruct (Rleb_spec xb v).
    + destruct (IH xb yb D) as (s & E & I); auto.
      { intros i j Hij. apply (Hi (S i) (S j)). cbn in *. lia. }
      exists s. split; [exact E|]. destruct I as [I|[I|[I|(i & I1 & I2 & I3)]]].
      * cbn in I. lra.
      * right. left. cbn [length] in *. replace (S (length f) - 1)%nat with (length f) in I by lia.
        replace (S (S (length f)) - 1)%nat with (S (length f)) by lia. exact I.
      * right. right. left. cbn [length] in *. replace (S (length f) - 1)%nat with (length f) in I by lia.
        replace (S (S (length f)) - 1)%nat with (S (length f)) by lia. exact I.
      * right. right. right. exists (S i). split; [cbn in *; lia|]. split; [exact I2|exact I3].
    + rewrite !fin_sub, fin_div by lra. rewrite fin_mul, fin_add. eexists. split; [reflexivity|].
      right. right. right. exists 0%nat. split; [cbn; lia|]. split; [cbn; lra|]. cbn. field. lra.
Qed.
Lemma interp_F v f D : f <> [] -> increasing f -> length D = length f ->
  exists s, np_interp (N:=NX) (F f) (F D) (Fin v) = Ok (Fin s) /\ interpolates f D v s.
Proof.
  intros Hne Hi Hl. destruct f as [|xa f]; [contradiction|]. destruct D as [|ya D]; [discriminate|].
  unfold np_interp. cbn [F map combine]. rewrite fin_ltb. destruct (Rltb_spec v xa).
  - exists 0. split; [reflexivity|]. left. cbn. lra.
  - destruct (interp_from_F v xa ya f D) as (s & E & I); auto; [lra|]. exists s. split; [|auto].
    unfold F in E. rewrite E. reflexivity.
Qed.
Lemma interpolates_nonneg f D v s : (forall y, In y D -> 0 <= y) -> length D = length f -> f <> [] ->
  interpolates f D v s -> 0 <= s.
Proof.
  intros Hp Hl Hne I. assert (Hn : (0 < length f)%nat) by (destruct f; [contradiction|cbn; lia]).
  destruct I as [[_ ->]|[[_ ->]|[[_ ->]|(i & I1 & I2 & ->)]]]; try lra.
  - apply Hp, nth_In. lia.
  - assert (0 <= nth i D 0) by (apply Hp, nth_In; lia). assert (0 <= nth (S i) D 0) by (apply Hp, nth_In; lia).
    set (q := (v - nth i f 0) / (nth (S i) f 0 - nth i f 0)).
    assert (0 <= q <= 1).
    { unfold q. split; [apply Rmult_le_pos; [lra|left; apply Rinv_0_lt_compat; lra]|].
      apply Rmult_le_reg_r with (nth (S i) f 0 - nth i f 0); [lra|]. unfold Rdiv. rewrite Rmult_assoc, Rinv_l by lra. lra. }
    nra.
Qed.

Lemma map_nth' {A B} (g : A -> B) l k d d' : (k < length l)%nat -> nth k (map g l) d = g (nth k l d').
Proof. intros. rewrite (nth_indep _ d (g d')) by (rewrite map_length; auto). apply map_nth. Qed.
(** the un-rotated complex component of one frequency *)
Definition component (a p : R) : C := (RtoC (a / 2) * ei p)%C.

Section Synthesis.
  Variables (RT : Type) (rng_seed : Z -> RT) (rng_rand : RT -> nat -> list NX * RT).
  Notation synth := (spectrum2timeseries RT rng_seed rng_rand).

  (** the coefficient list the code builds *)
  Definition Wlist (comp : list C) : list C :=
    firstn (length comp) (RtoC 0 :: comp) ++ rev (map Cconj comp).
  Lemma Wlist_length comp : length (Wlist comp) = (2 * length comp)%nat.
  Proof. unfold Wlist. rewrite app_length, firstn_length, rev_length, map_length. cbn [length]. lia. Qed.
  Lemma Wlist_nth comp k : (k < 2 * length comp)%nat -> nth k (Wlist comp) (RtoC 0)
    = if Nat.eqb k 0 then RtoC 0 else if Nat.ltb k (length comp) then nth (k - 1) comp (RtoC 0)
      else Cconj (nth (2 * length comp - 1 - k) comp (RtoC 0)).
  Proof.
    intros Hk. unfold Wlist. assert (L : length (firstn (length comp) (RtoC 0 :: comp)) = length comp).
    { rewrite firstn_length. cbn [length]. lia. }
    assert (Z : Cconj (RtoC 0) = RtoC 0) by (apply C_eq; cbn; ring).
    destruct (Nat.ltb_spec k (length comp)).
    - rewrite app_nth1 by lia. rewrite firstn_nth by auto. destruct k; [reflexivity|]. cbn [nth Nat.eqb].
      f_equal. lia.
    - destruct (Nat.eqb_spec k 0) as [->|]; [lia|]. rewrite app_nth2 by lia. rewrite L.
      rewrite <- Z at 1. rewrite <- (map_nth Cconj).
      rewrite rev_nth by (rewrite map_length; lia). rewrite map_length, Z. f_equal. lia.
  Qed.

  Lemma W_real comp m l : length comp = m -> (1 <= m)%nat ->
    INR (2 * m) * fst (IDF (2 * m) (fun k => nth k (Wlist comp) (RtoC 0)) l)
    = 2 * RS m (fun k => fst (nth k comp (RtoC 0) * tw 1 (2 * m) (k + 1) l)%C)
      - fst (nth (m - 1) comp (RtoC 0) * tw 1 (2 * m) m l)%C.
  Proof.
    intros Lc Hm. assert (HN : 0 < INR (2 * m)) by (apply lt_0_INR; lia).
    unfold IDF. rewrite <- RtoC_inv by lra.
    replace (INR (2 * m) * fst (RtoC (/ INR (2 * m)) * Csum (2 * m) (fun k => nth k (Wlist comp) (RtoC 0) * tw 1 (2 * m) k l))%C)
      with (fst (Csum (2 * m) (fun k => nth k (Wlist comp) (RtoC 0) * tw 1 (2 * m) k l)%C)).
    2:{ set (z := Csum _ _). clearbody z. set (N := INR (2 * m)) in *. clearbody N. cbn. field. lra. }
    set (c := fun k => fst (nth k comp (RtoC 0) * tw 1 (2 * m) (k + 1) l)%C).
    rewrite Csum_fst. replace (2 * m)%nat with (m + m)%nat at 1 by lia. rewrite RS_add.
    assert (E2 : RS m (fun k => fst (nth (m + k) (Wlist comp) (RtoC 0) * tw 1 (2 * m) (m + k) l)%C) = RS m c).
    { rewrite RS_rev. apply RS_ext. intros k Hk. rewrite Wlist_nth by lia. rewrite Lc.
      destruct (Nat.eqb_spec (m + (m - 1 - k)) 0); [lia|]. destruct (Nat.ltb_spec (m + (m - 1 - k)) m); [lia|].
      replace (2 * m - 1 - (m + (m - 1 - k)))%nat with k by lia.
      replace (m + (m - 1 - k))%nat with (2 * m - (k + 1))%nat by lia.
      rewrite (tw_sym 1 (2 * m) (2 * m - (k + 1))), tw_mirror' by lia. rewrite <- tw_conj, (tw_sym 1 _ l), <- Cconj_mult.
      reflexivity. }
    rewrite E2. destruct m as [|q]; [lia|]. rewrite RS_shift.
    rewrite (RS_ext q (fun k => fst (nth (S k) (Wlist comp) (RtoC 0) * tw 1 (2 * S q) (S k) l)%C) c).
    - rewrite Wlist_nth by lia. cbn [Nat.eqb]. rewrite RS_S. replace (S q - 1)%nat with q by lia.
      unfold c. replace (q + 1)%nat with (S q) by lia. cbn [fst]. 
      replace (fst (RtoC 0 * tw 1 (2 * S q) 0 l)%C) with 0 by (cbn; ring). ring.
    - intros k Hk. rewrite Wlist_nth by lia. rewrite Lc. destruct (Nat.eqb_spec (S k) 0); [lia|].
      destruct (Nat.ltb_spec (S k) (S q)); [|lia]. unfold c. replace (S k - 1)%nat with k by lia.
      replace (k + 1)%nat with (S k) by lia. reflexivity.
  Qed.

  Lemma synth_eq rs f D tInit tEnd dt seed af n u rs' :
    f <> [] -> increasing f -> length D = length f -> (forall y, In y D -> 0 <= y) ->
    0 < dt -> tInit <= tEnd -> (seed <= 4294967295)%Z -> holds_vector (F f) af ->
    ceil_is ((tEnd + dt - tInit) / dt) n ->
    let m := ((n + 1) / 2)%nat in let df := / (INR (2 * m) * dt) in
    rng_rand (if Z.leb 0 seed then rng_seed seed else rs) m = (F u, rs') -> length u = m ->
    (1 <= m)%nat /\ (n <= 2 * m)%nat /\
    exists sg, length sg = m /\ (forall k, (k < m)%nat -> interpolates f D (INR (k + 1) * df) (nth k sg 0) /\ 0 <= nth k sg 0)
      /\ let comp := map (fun k => component (sqrt (2 * nth k sg 0 * df)) (2 * PI * nth k u 0)) (seq 0 m) in
         synth rs af (Arr (vec (F D))) (Fin tInit) (Fin tEnd) (Fin dt) seed
         = Ok (F (axis tInit dt n),
               F (map (fun l => INR (2 * m) * fst (IDF (2 * m) (fun k => nth k (Wlist comp) (RtoC 0)) l)) (seq 0 n)), rs').
  Proof.
    intros Hne Hi Hl Hp Hdt Ht Hseed Hf Hn m df Hr Hu.
    assert (Hr1 : 1 <= (tEnd + dt - tInit) / dt).
    { apply Rmult_le_reg_r with dt; auto. unfold Rdiv. rewrite Rmult_assoc, Rinv_l by lra. lra. }
    assert (Hn1 : (1 <= n)%nat).
    { destruct n; [|lia]. destruct Hn as [_ Hn]. cbn in Hn. lra. }
    assert (Hm : (1 <= m)%nat) by (unfold m; apply Nat.div_le_lower_bound; lia).
    assert (Hnm : (n <= 2 * m)%nat).
    { unfold m. assert (E := Nat.div_mod (n + 1) 2 ltac:(lia)). assert (B := Nat.mod_upper_bound (n + 1) 2 ltac:(lia)). lia. }
    assert (HM : 0 < INR (2 * m)) by (apply lt_0_INR; lia).
    assert (Hdf : 0 < df) by (unfold df; apply Rinv_0_lt_compat; nra).
    split; [auto|]. split; [auto|].
    assert (SG : forall q, exists sg, length sg = q /\ forall k, (k < q)%nat ->
        np_interp (N:=NX) (F f) (F D) (Fin (INR (k + 1) * df)) = Ok (Fin (nth k sg 0))
        /\ interpolates f D (INR (k + 1) * df) (nth k sg 0)).
    { induction q as [|q IH]; [exists []; split; [auto|intros; lia]|].
      destruct IH as (sg & L & G). destruct (interp_F (INR (q + 1) * df) f D Hne Hi Hl) as (s & E & I).
      exists (sg ++ [s]). rewrite app_length. split; [cbn; lia|]. intros k Hk.
      destruct (Nat.eq_dec k q) as [->|].
      - rewrite app_nth2, L, Nat.sub_diag by lia. cbn [nth]. auto.
      - rewrite app_nth1 by lia. apply G. lia. }
    destruct (SG m) as (sg & Lsg & G). clear SG.
    assert (Gp : forall k, (k < m)%nat -> 0 <= nth k sg 0).
    { intros k Hk. destruct (G k Hk) as [_ I]. apply (interpolates_nonneg f D _ _ Hp Hl Hne I). }
    exists sg. split; [auto|]. split; [intros k Hk; split; [apply G; auto|auto]|]. intros comp.
    (* unfold the code *)
    assert (Nf : F f <> []) by (apply F_ne; auto). destruct (hv_convert _ _ Nf Hf) as (k1 & K1 & E1).
    assert (L1 : Nat.ltb 1 k1 = false) by (apply Nat.ltb_ge; lia).
    unfold spectrum2timeseries. rewrite E1, vec_convert. cbn [fst snd]. rewrite L1.
    change (Nat.ltb 1 0) with false. cbn [orb]. rewrite !F_length, Hl, Nat.eqb_refl. cbn [negb].
    rewrite as_list_vec, bind_Ok. rewrite fin_add, (arange_F _ _ _ n), bind_Ok by auto.
    rewrite F_length, axis_length. change (2 * ((n + 1) / 2))%nat with (2 * m)%nat.
    rewrite fin_ofnat, fin_mul. change (n0 (N:=NX)) with (Fin 0). rewrite fin_eqb.
    replace (Reqb (INR (2 * m) * dt) 0) with false by (symmetry; destruct (Reqb_spec (INR (2 * m) * dt) 0); auto; nra).
    cbn match. change (n1 (N:=NX)) with (Fin 1). rewrite fin_div by nra.
    replace (1 / (INR (2 * m) * dt)) with df by (unfold df, Rdiv; ring).
    rewrite !fin_ofZ, fin_mul, fin_div by lra. rewrite fin_div by lra. rewrite fin_add.
    rewrite (arange_F _ _ _ m); [|auto|].
    2:{ unfold ceil_is. replace ((1 / (2 * dt) + df / 2 - df) / df) with (INR m - / 2).
        - lra.
        - unfold df. rewrite mult_INR. cbn [INR]. field. split; [lra|]. apply not_0_INR. lia. }
    rewrite bind_Ok, F_length, axis_length. cbn [shape vec data]. rewrite bind_Ok.
    assert (EI : mapM (np_interp (N:=NX) (F f) (F D)) (F (axis df df m)) = Ok (F sg)).
    { rewrite (mapM_Ok _ (fun v => match np_interp (N:=NX) (F f) (F D) v with Ok s => s | _ => NaN end)).
      2:{ intros v Hv. apply in_map_iff in Hv as (w & <- & _). destruct (interp_F w f D Hne Hi Hl) as (s & -> & _). reflexivity. }
      f_equal. apply (nth_ext' _ _ NaN); [rewrite map_length, !F_length, axis_length; auto|].
      intros k Hk. rewrite map_length, F_length, axis_length in Hk. unfold axis, F at 3. rewrite !map_map, map_seq_nth by auto.
      replace (df + INR k * df) with (INR (k + 1) * df) by (rewrite plus_INR; cbn [INR]; ring).
      destruct (G k Hk) as [-> _]. rewrite (nth_indep _ NaN (Fin 0)) by (rewrite F_length; lia). symmetry. apply F_nth. }
    rewrite EI, bind_Ok. replace (Z.ltb 4294967295 seed) with false by (symmetry; apply Z.ltb_ge; lia).
    rewrite Hr. cbn match.
    match goal with |- context [map2 ?g (map ?h (F sg)) (map ?j (F u))] =>
      assert (EC : map2 g (map h (F sg)) (map j (F u)) = FCs comp) end.
    { rewrite (F_map (fun r => 2 * PI * r) _ u) by (intros r; reflexivity).
      rewrite (F_map_in (fun v => sqrt (2 * v * df))).
      2:{ intros v Hv. rewrite !fin_mul. apply fin_sqrt. apply (In_nth _ _ 0) in Hv as (k & Hk & <-).
          assert (0 <= nth k sg 0) by (apply Gp; lia). apply Rmult_le_pos; lra. }
      apply (nth_ext' _ _ c0).
      - rewrite map2_length, !F_length, !map_length, FCs_length. unfold comp. rewrite map_length, seq_length. lia.
      - intros k Hk. rewrite map2_length, !F_length, !map_length in Hk.
        rewrite (map2_nth _ _ _ _ (Fin 0) (Fin 0)) by (rewrite F_length, map_length; lia).
        rewrite !F_nth. rewrite (map_nth' _ _ _ 0 0), (map_nth' _ _ _ 0 0) by lia.
        rewrite fin_div by lra. rewrite fc_expi, fc_scale, fc_0, nth_FCs. unfold comp. rewrite map_seq_nth by lia. reflexivity. }
    rewrite EC. assert (Lc : length comp = m) by (unfold comp; rewrite map_length, seq_length; auto).
    replace (firstn m (c0 :: FCs comp) ++ rev (map cconj (FCs comp))) with (FCs (Wlist comp)).
    2:{ unfold Wlist, FCs. rewrite map_app, <- firstn_map, map_rev, !map_map, Lc. reflexivity. }
    rewrite FCs_length, Wlist_length, Lc, Nat.eqb_refl. cbn [negb]. rewrite ifft_FC, Wlist_length, Lc.
    f_equal. f_equal. f_equal. unfold FCs. rewrite !map_map. rewrite firstn_map, firstn_seq by auto.
    unfold F. rewrite map_map. apply map_ext. intros l. rewrite fc_scale. unfold FC, cre. cbn [fst]. f_equal.
    cbn. ring.
  Qed.

  Lemma component_fst a p q : fst (component a p * ei q)%C = a / 2 * cos (q + p).
  Proof. unfold component. rewrite cos_plus. cbn. ring. Qed.

  (** ** C30 The generated signal *)
  (** [n] samples are generated; with N = n rounded up to an even number the frequencies are k/(N dt), k = 1 .. N/2, each
      with amplitude sqrt(2 S df) (S interpolated linearly, zero outside the table) and phase 2 pi u_k; the last one
      (the Nyquist frequency) only counts half. *)
  Theorem C30_synthesis rs (f D : list R) tInit tEnd dt seed (af : arraylike NX) n u rs' :
    f <> [] -> increasing f -> length D = length f -> (forall y, In y D -> 0 <= y) ->
    0 < dt -> tInit <= tEnd -> (seed <= 4294967295)%Z -> holds_vector (F f) af ->
    ceil_is ((tEnd - tInit) / dt + 1) n ->
    let m := ((n + 1) / 2)%nat in
    let df := / (INR (2 * m) * dt) in
    rng_rand (if Z.leb 0 seed then rng_seed seed else rs) m = (F u, rs') -> length u = m ->
    exists x sg, synth rs af (Arr (vec (F D))) (Fin tInit) (Fin tEnd) (Fin dt) seed = Ok (F (axis tInit dt n), F x, rs')
      /\ length x = n /\ length sg = m
      /\ (forall k, (k < m)%nat -> interpolates f D (INR (k + 1) * df) (nth k sg 0))
      /\ forall j, (j < n)%nat ->
           nth j x 0 = Rsum (map (fun k => (if Nat.eqb k (m - 1) then 1 / 2 else 1) * sqrt (2 * nth k sg 0 * df)
                                           * cos (2 * PI * (INR (k + 1) * df) * (nth j (axis tInit dt n) 0 - tInit)
                                                  + 2 * PI * nth k u 0)) (seq 0 m)).
  Proof.
    intros Hne Hi Hl Hp Hdt Ht Hs Hf Hn m df Hr Hu.
    replace ((tEnd - tInit) / dt + 1) with ((tEnd + dt - tInit) / dt) in Hn by (field; lra).
    destruct (synth_eq rs f D tInit tEnd dt seed af n u rs') as (Hm & Hnm & sg & Lsg & G & E); auto.
    fold m df in Hm, Hnm, G, E, Lsg. cbv zeta in E.
    set (comp := map (fun k => component (sqrt (2 * nth k sg 0 * df)) (2 * PI * nth k u 0)) (seq 0 m)) in *.
    assert (Lc : length comp = m) by (unfold comp; rewrite map_length, seq_length; auto).
    eexists _, sg. split; [exact E|]. rewrite map_length, seq_length. split; [auto|]. split; [auto|].
    split; [intros; apply G; auto|]. intros j Hj. rewrite map_seq_nth by auto.
    rewrite (W_real comp m) by auto.
    change (Rsum (map ?g (seq 0 m))) with (RS m g).
    assert (HN : 0 < INR (2 * m)) by (apply lt_0_INR; lia).
    assert (T : forall k, (k < m)%nat -> fst (nth k comp (RtoC 0) * tw 1 (2 * m) (k + 1) j)%C
       = sqrt (2 * nth k sg 0 * df) / 2 * cos (2 * PI * (INR (k + 1) * df) * (nth j (axis tInit dt n) 0 - tInit) + 2 * PI * nth k u 0)).
    { intros k Hk. unfold comp. rewrite map_seq_nth by auto. unfold tw. rewrite component_fst. f_equal. f_equal. f_equal.
      rewrite axis_nth by auto. unfold df. rewrite mult_INR. field. split; lra. }
    destruct m as [|q]; [lia|]. rewrite RS_S, RS_S. rewrite Nat.sub_succ, Nat.sub_0_r, Nat.eqb_refl.
    replace (fst (nth q comp (RtoC 0) * tw 1 (2 * S q) (S q) j)%C) with (fst (nth q comp (RtoC 0) * tw 1 (2 * S q) (q + 1) j)%C)
      by (rewrite Nat.add_1_r; reflexivity). rewrite T by lia.
    rewrite (RS_ext q _ (fun k => / 2 * ((if Nat.eqb k q then 1 / 2 else 1) * sqrt (2 * nth k sg 0 * df)
       * cos (2 * PI * (INR (k + 1) * df) * (nth j (axis tInit dt n) 0 - tInit) + 2 * PI * nth k u 0)))).
    - rewrite RS_scal. field.
    - intros k Hk. rewrite T by lia. destruct (Nat.eqb_spec k q); [lia|]. field.
  Qed.
  (** with a seed the outcome does not depend on the state of the generator, and a too large seed is refused *)
  Theorem C30_seed_decides rs1 rs2 (af as_ : arraylike NX) (tInit tEnd dt : NX) seed : (0 <= seed)%Z ->
    synth rs1 af as_ tInit tEnd dt seed = synth rs2 af as_ tInit tEnd dt seed.
  Proof. intros H. apply Z.leb_le in H. unfold spectrum2timeseries. rewrite H. reflexivity. Qed.
  Theorem C30_length_mismatch_rejected rs (f D : list NX) (af as_ : arraylike NX) (tInit tEnd dt : NX) seed :
    f <> [] -> D <> [] -> length f <> length D -> holds_vector f af -> holds_vector D as_ ->
    synth rs af as_ tInit tEnd dt seed = Raise ValueError.
  Proof.
    intros Nf ND Hl Hf HD. destruct (hv_convert _ _ Nf Hf) as (k1 & K1 & E1). destruct (hv_convert _ _ ND HD) as (k2 & K2 & E2).
    unfold spectrum2timeseries. rewrite E1, E2. cbn [fst snd].
    replace (Nat.ltb 1 k1) with false by (symmetry; apply Nat.ltb_ge; lia).
    replace (Nat.ltb 1 k2) with false by (symmetry; apply Nat.ltb_ge; lia). cbn [orb].
    replace (Nat.eqb (length f) (length D)) with false by (symmetry; apply Nat.eqb_neq; auto). reflexivity.
  Qed.
  (** without a single sample the synthesis fails *)
  Theorem C30_no_samples_rejected rs (f D : list R) tInit tEnd dt seed (af : arraylike NX) :
    f <> [] -> length D = length f -> 0 < dt -> tEnd + dt <= tInit -> holds_vector (F f) af ->
    synth rs af (Arr (vec (F D))) (Fin tInit) (Fin tEnd) (Fin dt) seed = Raise ZeroDivisionError.
  Proof.
    intros Hne Hl Hdt Ht Hf. assert (Nf : F f <> []) by (apply F_ne; auto). destruct (hv_convert _ _ Nf Hf) as (k1 & K1 & E1).
    unfold spectrum2timeseries. rewrite E1, vec_convert. cbn [fst snd].
    replace (Nat.ltb 1 k1) with false by (symmetry; apply Nat.ltb_ge; lia). change (Nat.ltb 1 0) with false. cbn [orb].
    rewrite !F_length, Hl, Nat.eqb_refl. cbn [negb]. rewrite as_list_vec, bind_Ok, fin_add.
    assert (E : np_arange (N:=NX) (Fin tInit) (Fin (tEnd + dt)) (Fin dt) = Ok []).
    { unfold np_arange. change (n0 (N:=NX)) with (Fin 0). rewrite fin_eqb.
      replace (Reqb dt 0) with false by (symmetry; destruct (Reqb_spec dt 0); auto; lra).
      rewrite fin_sub, fin_div by lra. unfold nceil. rewrite fin_opp.
      change (nfloor (n:=NX) (Fin ?r)) with (Some (Rfloor r)). cbn match.
      replace (Z.to_nat (- Rfloor (- ((tEnd + dt - tInit) / dt)))) with 0%nat; [reflexivity|].
      assert (0 <= - ((tEnd + dt - tInit) / dt)).
      { replace (- ((tEnd + dt - tInit) / dt)) with ((tInit - (tEnd + dt)) * / dt) by (field; lra).
        apply Rmult_le_pos; [lra|]. left. apply Rinv_0_lt_compat. auto. }
      destruct (Rfloor_spec (- ((tEnd + dt - tInit) / dt))) as [_ B].
      assert (IZR (-1) < IZR (Rfloor (- ((tEnd + dt - tInit) / dt)))) by lra. apply lt_IZR in H0. lia. }
    rewrite E, bind_Ok. cbn [length]. change (2 * ((0 + 1) / 2))%nat with 0%nat. rewrite fin_ofnat, fin_mul.
    change (n0 (N:=NX)) with (Fin 0). rewrite fin_eqb. cbn [INR].
    replace (Reqb (0 * dt) 0) with true by (symmetry; destruct (Reqb_spec (0 * dt) 0); auto; lra). reflexivity.
  Qed.

  (** the densities must be a flat list: an (n,1) array, which the rest of the toolbox accepts, is refused *)
  Theorem C30_column_rejected rs (f D : list NX) tInit tEnd dt seed (af : arraylike NX) :
    f <> [] -> D <> [] -> 0 < dt -> tInit <= tEnd -> holds_vector f af ->
    synth rs af (Arr (colvec D)) (Fin tInit) (Fin tEnd) (Fin dt) seed = Raise ValueError.
  Proof.
    intros Nf ND Hdt Ht Hf. assert (Hr1 : 1 <= (tEnd + dt - tInit) / dt).
    { apply Rmult_le_reg_r with dt; auto. unfold Rdiv. rewrite Rmult_assoc, Rinv_l by lra. lra. }
    destruct (ceil_exists ((tEnd + dt - tInit) / dt) ltac:(lra)) as (n & Hn).
    assert (Hn1 : (1 <= n)%nat) by (destruct n; [|lia]; destruct Hn as [_ Hn]; cbn in Hn; lra).
    set (m := ((n + 1) / 2)%nat). assert (Hm : (1 <= m)%nat) by (unfold m; apply Nat.div_le_lower_bound; lia).
    assert (HM : 0 < INR (2 * m)) by (apply lt_0_INR; lia). set (df := / (INR (2 * m) * dt)).
    assert (Hdf : 0 < df) by (unfold df; apply Rinv_0_lt_compat; nra).
    destruct (hv_convert _ _ Nf Hf) as (k1 & K1 & E1). destruct (hv_convert _ _ ND (hv_column _)) as (k2 & K2 & E2).
    unfold spectrum2timeseries. rewrite E1, E2. cbn [fst snd].
    replace (Nat.ltb 1 k1) with false by (symmetry; apply Nat.ltb_ge; lia).
    replace (Nat.ltb 1 k2) with false by (symmetry; apply Nat.ltb_ge; lia). cbn [orb].
    destruct (negb _); [reflexivity|].
    rewrite as_list_vec, bind_Ok. rewrite fin_add, (arange_F _ _ _ n), bind_Ok by auto.
    rewrite F_length, axis_length. change (2 * ((n + 1) / 2))%nat with (2 * m)%nat.
    rewrite fin_ofnat, fin_mul. change (n0 (N:=NX)) with (Fin 0). rewrite fin_eqb.
    replace (Reqb (INR (2 * m) * dt) 0) with false by (symmetry; destruct (Reqb_spec (INR (2 * m) * dt) 0); auto; nra).
    cbn match. change (n1 (N:=NX)) with (Fin 1). rewrite fin_div by nra.
    replace (1 / (INR (2 * m) * dt)) with df by (unfold df, Rdiv; ring).
    rewrite !fin_ofZ, fin_mul, fin_div by lra. rewrite fin_div by lra. rewrite fin_add.
    rewrite (arange_F _ _ _ m); [|auto|].
    2:{ unfold ceil_is. replace ((1 / (2 * dt) + df / 2 - df) / df) with (INR m - / 2).
        - lra.
        - unfold df. rewrite mult_INR. cbn [INR]. field. split; [lra|]. apply not_0_INR. lia. }
    rewrite bind_Ok. reflexivity.
  Qed.

  (** ** C54 Analysing a synthesised signal returns the spectrum *)
  Definition Wre (m : nat) (comp : list C) (k : nat) : C :=
    if Nat.eqb k m then RtoC (fst (nth k (Wlist comp) (RtoC 0))) else nth k (Wlist comp) (RtoC 0).
  Lemma tw_half m l : (1 <= m)%nat -> snd (tw 1 (2 * m) m l) = 0.
  Proof.
    intros Hm. assert (INR m <> 0) by (apply not_0_INR; lia).
    replace (tw 1 (2 * m) m l) with (ei (PI * INR l)).
    - assert (E := ei_PI_nat l). apply (f_equal snd) in E. cbn in E. rewrite sin_neg in E. cbn. lra.
    - unfold tw. f_equal. rewrite !mult_INR. cbn [INR]. field. auto.
  Qed.
  Lemma W_coef comp m x : length comp = m -> (1 <= m)%nat -> length x = (2 * m)%nat ->
    (forall l, (l < 2 * m)%nat -> nth l x 0 = INR (2 * m) * fst (IDF (2 * m) (fun k => nth k (Wlist comp) (RtoC 0)) l)) ->
    forall k, (k < 2 * m)%nat -> coef x k = (RtoC (INR (2 * m)) * Wre m comp k)%C.
  Proof.
    intros Lc Hm Lx Hx k Hk. assert (HN : 0 < INR (2 * m)) by (apply lt_0_INR; lia).
    assert (Z : Cconj (RtoC 0) = RtoC 0) by (apply C_eq; cbn; ring).
    rewrite coef_DF, Lx. rewrite <- (DFT_inversion' (2 * m) (fun k => RtoC (INR (2 * m)) * Wre m comp k)%C k Hk).
    apply DF_ext. intros l Hl. rewrite Hx by auto. apply C_eq.
    - cbn [fst RtoC]. unfold IDF. rewrite <- RtoC_inv by lra.
      rewrite (Csum_ext _ (fun k0 => RtoC (INR (2 * m)) * Wre m comp k0 * tw 1 (2 * m) k0 l)%C
                 (fun k0 => RtoC (INR (2 * m)) * (Wre m comp k0 * tw 1 (2 * m) k0 l))%C) by (intros; ring).
      rewrite Csum_scal.
      assert (E : fst (Csum (2 * m) (fun k0 => nth k0 (Wlist comp) (RtoC 0) * tw 1 (2 * m) k0 l)%C)
                = fst (Csum (2 * m) (fun k0 => Wre m comp k0 * tw 1 (2 * m) k0 l)%C)).
      { rewrite !Csum_fst. apply RS_ext. intros k0 Hk0. unfold Wre. destruct (Nat.eqb_spec k0 m) as [->|]; [|reflexivity].
        assert (S0 := tw_half m l Hm). cbn. cbn in S0. rewrite S0. ring. }
      revert E. generalize (Csum (2 * m) (fun k0 => Wre m comp k0 * tw 1 (2 * m) k0 l)%C).
      generalize (Csum (2 * m) (fun k0 => nth k0 (Wlist comp) (RtoC 0) * tw 1 (2 * m) k0 l)%C). intros u v E.
      revert HN. generalize (INR (2 * m)). intros N HN. cbn. rewrite E. field. lra.
    - cbn [snd RtoC]. symmetry. apply IDF_real; [lia| |].
      + unfold Wre. destruct (Nat.eqb_spec 0 m); [lia|]. rewrite Wlist_nth by lia. cbn. ring.
      + intros k0 Hk0. rewrite Cconj_mult. f_equal; [apply C_eq; cbn; ring|].
        unfold Wre. destruct (Nat.eqb_spec (2 * m - k0) m), (Nat.eqb_spec k0 m); try lia.
        * replace (2 * m - k0)%nat with k0 by lia. apply C_eq; cbn; ring.
        * rewrite !Wlist_nth by lia. rewrite !Lc. destruct (Nat.eqb_spec (2 * m - k0) 0), (Nat.eqb_spec k0 0); try lia.
          destruct (Nat.ltb_spec (2 * m - k0) m), (Nat.ltb_spec k0 m); try lia.
          -- replace (2 * m - 1 - k0)%nat with (2 * m - k0 - 1)%nat by lia. set (z := nth _ _ _). apply C_eq; cbn; ring.
          -- replace (2 * m - 1 - (2 * m - k0))%nat with (k0 - 1)%nat by lia. reflexivity.
  Qed.
  Theorem C54_analysis_returns_spectrum rs (f D : list R) tInit tEnd dt seed (af : arraylike NX) n u rs' :
    f <> [] -> increasing f -> length D = length f -> (forall y, In y D -> 0 <= y) ->
    0 < dt -> tInit <= tEnd -> (seed <= 4294967295)%Z -> holds_vector (F f) af ->
    ceil_is ((tEnd - tInit) / dt + 1) n -> Nat.Even n ->
    rng_rand (if Z.leb 0 seed then rng_seed seed else rs) (n / 2)%nat = (F u, rs') -> length u = (n / 2)%nat ->
    exists t x fr dens, synth rs af (Arr (vec (F D))) (Fin tInit) (Fin tEnd) (Fin dt) seed = Ok (F t, F x, rs')
      /\ compute_spectrum_time_series (Arr (vec (F t))) (Arr (vec (F x))) (Fin 0) = Ok (F fr, F dens)
      /\ length fr = (n / 2 + 1)%nat /\ length dens = (n / 2 + 1)%nat /\ Rmean x = 0
      /\ (forall k, (k <= n / 2)%nat -> nth k fr 0 = INR k / (INR n * dt))
      /\ (forall k, (1 <= k < n / 2)%nat -> interpolates f D (nth k fr 0) (nth k dens 0))
      /\ exists s, interpolates f D (nth (n / 2) fr 0) s /\ nth (n / 2) dens 0 = s * cos (2 * PI * nth (n / 2 - 1) u 0) ^ 2.
  Proof.
    intros Hne Hi Hl Hp Hdt Ht Hs Hf Hn He Hr Hu.
    replace ((tEnd - tInit) / dt + 1) with ((tEnd + dt - tInit) / dt) in Hn by (field; lra).
    destruct He as [m Em]. assert (E2 : (n / 2 = m)%nat) by (subst n; rewrite Nat.mul_comm; apply Nat.div_mul; lia).
    assert (E3 : ((n + 1) / 2 = m)%nat).
    { subst n. rewrite Nat.mul_comm, Nat.div_add_l by lia. change (1 / 2)%nat with 0%nat. lia. }
    rewrite E2 in *.
    destruct (synth_eq rs f D tInit tEnd dt seed af n u rs') as (Hm & Hnm & sg & Lsg & G & E); auto; try (rewrite E3; auto).
    rewrite E3 in *. cbv zeta in E. set (df := / (INR (2 * m) * dt)) in *.
    set (comp := map (fun k => component (sqrt (2 * nth k sg 0 * df)) (2 * PI * nth k u 0)) (seq 0 m)) in *.
    assert (Lc : length comp = m) by (unfold comp; rewrite map_length, seq_length; auto).
    rewrite <- Em in *. assert (HN : 0 < INR n) by (apply lt_0_INR; lia).
    assert (Hdf : 0 < df) by (unfold df; apply Rinv_0_lt_compat, Rmult_lt_0_compat; [apply lt_0_INR; lia|auto]).
    set (t := axis tInit dt n) in *. match type of E with _ = Ok (_, F ?y, _) => set (x := y) in * end.
    assert (Lt : length t = n) by apply axis_length.
    assert (Lx : length x = n) by (unfold x; rewrite map_length, seq_length; auto).
    assert (Hg : good_axis t) by (apply axis_good; [lia|auto]).
    assert (Est : step t = dt) by (unfold step, t; rewrite !axis_nth by lia; cbn [INR]; ring).
    assert (Ed : dfreq t = df) by (unfold dfreq, df; rewrite Lt, Est, Em; reflexivity).
    assert (Hq : nnyq n = (m + 1)%nat) by (unfold nnyq; rewrite E2; auto).
    assert (Hcoef : forall k, (k < n)%nat -> coef x k = (RtoC (INR n) * Wre m comp k)%C).
    { intros k Hk. rewrite Em. apply W_coef; try lia; auto. intros l Hll. unfold x. rewrite map_seq_nth by lia.
      rewrite Em. reflexivity. }
    exists t, x, (freqs df (m + 1)), (fine_density t x). split; [exact E|].
    split.
    { rewrite (spectrum_eq t x) by (auto using hv_flat; lia). rewrite Lx, Ed, Hq. apply C24_identity; auto using hv_flat.
      - rewrite freqs_length. lia.
      - rewrite step_freqs by lia. lra.
      - rewrite fine_length, freqs_length, Lx. auto. }
    rewrite freqs_length, fine_length, Lx, Hq. split; [auto|]. split; [auto|].
    split.
    { assert (C0 := Hcoef 0%nat ltac:(lia)). rewrite coef_0 in C0. unfold Wre in C0. destruct (Nat.eqb_spec 0 m); [lia|].
      rewrite Wlist_nth in C0 by lia. cbn [Nat.eqb] in C0. apply (f_equal fst) in C0. cbn in C0.
      unfold Rmean. replace (Rsum x) with 0 by lra. unfold Rdiv. ring. }
    split.
    { intros k Hk. rewrite freqs_nth by lia. unfold df. rewrite <- Em. unfold Rdiv. reflexivity. }
    assert (Hd : forall k a p, (1 <= k <= m)%nat -> 0 <= a -> nth (k - 1) comp (RtoC 0) = component (sqrt (2 * a * df)) p ->
      nth k (fine_density t x) 0 = a * (if Nat.eqb k m then cos p ^ 2 else 1)).
    { intros k a p Hk Ha Hc. rewrite fine_nth by (rewrite Lx, Hq; lia). rewrite Hcoef, Lx, Ed by lia.
      unfold dens, Wre. rewrite Wlist_nth by lia. rewrite Lc. destruct (Nat.eqb_spec k 0); [lia|].
      assert (Hs2 : sqrt (2 * a * df) * sqrt (2 * a * df) = 2 * a * df) by (apply sqrt_sqrt; apply Rmult_le_pos; lra).
      assert (Hcs : cos p * cos p + sin p * sin p = 1) by (assert (H := sin2_cos2 p); unfold Rsqr in H; lra).
      assert (Hsq : forall z, sq (RtoC (INR n) * z)%C = INR n * INR n * sq z) by (intros z; unfold sq; cbn; ring).
      destruct (Nat.eqb_spec k m).
      - destruct (Nat.ltb_spec k m); [lia|]. replace (2 * m - 1 - k)%nat with (k - 1)%nat by lia. rewrite Hc, Hsq.
        replace (sq (RtoC (fst (Cconj (component (sqrt (2 * a * df)) p))))) with (sqrt (2 * a * df) * sqrt (2 * a * df) / 4 * cos p ^ 2)
          by (unfold sq, component; cbn; field).
        rewrite Hs2. field. lra.
      - destruct (Nat.ltb_spec k m); [|lia]. rewrite Hc, Hsq.
        replace (sq (component (sqrt (2 * a * df)) p)) with (sqrt (2 * a * df) * sqrt (2 * a * df) / 4 * (cos p * cos p + sin p * sin p))
          by (unfold sq, component; cbn; field).
        rewrite Hs2, Hcs. field. lra. }
    assert (Hc' : forall k, (1 <= k <= m)%nat -> nth k (fine_density t x) 0
        = nth (k - 1) sg 0 * (if Nat.eqb k m then cos (2 * PI * nth (k - 1) u 0) ^ 2 else 1)).
    { intros k Hk. apply Hd; auto; [apply G; lia|]. unfold comp. rewrite map_seq_nth by lia. reflexivity. }
    split.
    - intros k Hk. rewrite Hc' by lia. destruct (Nat.eqb_spec k m); [lia|]. rewrite Rmult_1_r, freqs_nth by lia.
      destruct (G (k - 1)%nat ltac:(lia)) as [I _]. replace (k - 1 + 1)%nat with k in I by lia. exact I.
    - exists (nth (m - 1) sg 0). rewrite Hc', Nat.eqb_refl, freqs_nth by lia. split; [|reflexivity].
      destruct (G (m - 1)%nat ltac:(lia)) as [I _]. replace (m - 1 + 1)%nat with m in I by lia. exact I.
  Qed.
End Synthesis.

Example C30_witness : increasing [0.1; 0.2; 0.3] /\ (forall y, In y [0; 2; 0] -> 0 <= y) /\ ceil_is ((10 - 0) / 1 + 1) 11
  /\ interpolates [0.1; 0.2; 0.3] [0; 2; 0] 0.25 1.
Proof.
  split; [intros i j H; cbn in H; assert (i = 0 /\ j = 1 \/ i = 0 /\ j = 2 \/ i = 1 /\ j = 2)%nat as [[-> ->]|[[-> ->]|[-> ->]]] by lia; cbn; lra|].
  split; [intros y [<-|[<-|[<-|[]]]]; lra|]. split; [unfold ceil_is; cbn; lra|].
  right. right. right. exists 1%nat. cbn. split; [lia|]. split; lra.
Qed.
Example C54_witness : ceil_is ((9 - 0) / 1 + 1) 10 /\ Nat.Even 10.
Proof. split; [unfold ceil_is; cbn; lra|exists 5%nat; reflexivity]. Qed.
