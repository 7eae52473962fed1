(** * Splitting a signal into frequency bands (core_spectral.py:812-895): C87 *)

From Coq Require Import Reals ZArith List Bool Lra Lia.
From Coquelicot Require Import Complex.
From Verif Require Import Num XR Spec XRFacts Engine Cpx DFT RSum FourierSpec EngineProps SpectralModel TimeProps
  TimeModel SpectrumModel SeriesModel TimeProps2 SeriesProps FourierFacts FourierProps AvgProps DensityProps BandProps SeriesProps2.
Import ListNotations.
Open Scope R_scope.

(** sum of squares *)
Definition energy (x : list R) : R := Rsum (map (fun v => v ^ 2) x).
(** sample-wise sum and difference *)
Definition plus2 (x y : list R) : list R := map2 Rplus x y.
Definition minus2 (x y : list R) : list R := map2 Rminus x y.

Lemma plus2_length x y : length x = length y -> length (plus2 x y) = length x.
Proof. intros H. unfold plus2. rewrite map2_length. lia. Qed.
Lemma minus2_length x y : length x = length y -> length (minus2 x y) = length x.
Proof. intros H. unfold minus2. rewrite map2_length. lia. Qed.
Lemma coef_plus2 x y k : length x = length y -> coef (plus2 x y) k = (coef x k + coef y k)%C.
Proof.
  intros H. unfold coef. rewrite plus2_length, <- H by auto. rewrite <- Csum_plus. apply Csum_ext. intros j Hj.
  unfold plus2. rewrite (map2_nth _ _ _ _ 0 0) by lia. rewrite RtoC_plus. ring.
Qed.
Lemma coef_minus2 x y k : length x = length y -> coef (minus2 x y) k = (coef x k - coef y k)%C.
Proof.
  intros H. assert (E : coef x k = (coef (minus2 x y) k + coef y k)%C).
  { rewrite <- coef_plus2 by (rewrite minus2_length; auto). f_equal. apply (nth_ext' _ _ 0).
    - rewrite plus2_length by (rewrite minus2_length; auto). rewrite minus2_length; auto.
    - intros j Hj. unfold plus2, minus2. rewrite (map2_nth _ _ _ _ 0 0) by (rewrite ?map2_length; lia).
      rewrite (map2_nth _ _ _ _ 0 0) by lia. ring. }
  rewrite E. ring.
Qed.
Lemma energy_coef x : x <> [] -> INR (length x) * energy x = RS (length x) (fun k => sq (coef x k)).
Proof. intros H. unfold energy. rewrite (Rsum_map_RS _ _ 0). rewrite parseval_R; auto. Qed.

Lemma ext_le_trans a b c : ext_le a b -> ext_le b c -> ext_le a c.
Proof. destruct a, b, c; cbn; auto; try tauto; lra. Qed.
Lemma ext_lt_le a b c : ext_lt a b -> ext_le b c -> ext_lt a c.
Proof. destruct a, b, c; cbn; auto; try tauto; lra. Qed.
Lemma ext_le_lt a b c : ext_le a b -> ext_lt b c -> ext_lt a c.
Proof. destruct a, b, c; cbn; auto; try tauto; lra. Qed.

  Lemma passed_spec df q lo hi k : (k < q)%nat -> passed (freqs df q) lo hi k <->
    (1 <= k)%nat /\ ext_le lo (Fin (INR k * df)) /\ ext_lt lo (Fin (INR (q - 1) * df))
    /\ (ext_le (Fin (INR (q - 1) * df)) hi \/ ((S k < q)%nat /\ ext_lt (Fin (INR (S k) * df)) hi)).
  Proof.
    intros Hk. unfold passed. rewrite freqs_length. rewrite !freqs_nth by lia.
    split; intros (P1 & P2 & P3 & [P4|[P4 P5]]); repeat (split; [assumption|]); auto; right; (split; [exact P4|]);
      rewrite freqs_nth in * by lia; exact P5.
  Qed.

Section Split.
  Variables (df : R) (q L : nat) (a c : xr) (b : R).
  Hypotheses (Hdf : 0 < df) (HL : (S L < q)%nat) (Hb : INR L * df < b <= INR (S L) * df) (Hlast : b < INR (q - 1) * df)
             (Hab : ext_le a (Fin b)) (Hbc : ext_le (Fin b) c).
  Let f := freqs df q.
  Lemma below k : (k < L)%nat -> INR (S k) * df < b /\ INR k * df < b.
  Proof. 
    intros H. assert (I : INR (S k) <= INR L) by (apply le_INR; lia).
    assert (J : INR k <= INR L) by (apply le_INR; lia).
    apply (Rmult_le_compat_r df) in I; [|lra]. apply (Rmult_le_compat_r df) in J; [|lra]. lra.
  Qed.
  Lemma above k : (L < k)%nat -> b <= INR k * df.
  Proof. 
    intros H. assert (I : INR (S L) <= INR k) by (apply le_INR; lia). apply (Rmult_le_compat_r df) in I; lra.
  Qed.

  Lemma split_low k : (k < L)%nat -> (passed f a (Fin b) k <-> passed f a c k) /\ ~ passed f (Fin b) c k.
  Proof.
    intros Hk. destruct (below k Hk) as [B1 B2]. unfold f; rewrite !passed_spec by lia. split; [split|].
    - intros (P1 & P2 & P3 & P4). split; [auto|]. split; [auto|]. split; [auto|]. right. split; [lia|].
      eapply ext_lt_le; [|exact Hbc]. exact B1.
    - intros (P1 & P2 & P3 & P4). split; [auto|]. split; [auto|]. split; [auto|]. right. split; [lia|]. exact B1.
    - intros (_ & P & _). cbn -[INR] in P. lra.
  Qed.
  Lemma split_at : ~ passed f a (Fin b) L /\ ~ passed f (Fin b) c L.
  Proof.
    unfold f; rewrite !passed_spec by lia. split.
    - intros (_ & _ & _ & [P|[_ P]]); cbn -[INR] in P; lra.
    - intros (_ & P & _). cbn -[INR] in P. lra.
  Qed.
  Lemma split_high k : (L < k < q)%nat -> ~ passed f a (Fin b) k /\ (passed f (Fin b) c k <-> passed f a c k).
  Proof.
    intros Hk. pose proof (above k ltac:(lia)) as B1. unfold f; rewrite !passed_spec by lia. split; [|split].
    - intros (_ & _ & _ & [P|[_ P]]); cbn -[INR] in P; [lra|]. pose proof (above (S k) ltac:(lia)). lra.
    - intros (P1 & P2 & P3 & P4). split; [auto|]. split; [eapply ext_le_trans; [exact Hab|exact P2]|].
      split; [eapply ext_le_lt; [exact Hab|exact P3]|exact P4].
    - intros (P1 & P2 & P3 & P4). split; [auto|]. split; [exact B1|]. split; [exact Hlast|exact P4].
  Qed.
End Split.

(** ** C87 *)

(** Two adjacent bands [a,b) and [b,c) of a signal: the band [a,c) is their sum plus the component at the
    highest frequency L/(n dt) below b, which neither of the two bands passes; energies add up in the
    same way *)
Theorem C87_adjacent_bands (t x : list R) (a c : xr) (b : R) (L : nat) (at_ ax : arraylike NX) :
  good_axis t -> length x = length t -> holds_vector (F t) at_ -> holds_vector (F x) ax ->
  let n := length x in
  let f := freqs (dfreq t) (n / 2 + 1) in
  a <> NaN -> c <> NaN -> ext_le a (Fin b) -> ext_le (Fin b) c ->
  (S L < n / 2 + 1)%nat -> INR L * dfreq t < b <= INR (S L) * dfreq t -> b < INR (n / 2) * dfreq t ->
  exists u v w h,
    bandpassfilter at_ ax a (Fin b) = Ok (F u) /\ bandpassfilter at_ ax (Fin b) c = Ok (F v)
    /\ bandpassfilter at_ ax a c = Ok (F w)
    /\ length h = n /\ w = plus2 (plus2 u v) h
    /\ energy w = energy u + energy v + energy h
    /\ (forall k, (k < n)%nat -> fold_index n k <> L -> coef h k = RtoC 0)
    /\ (passed f a c L -> forall k, (k < n)%nat -> fold_index n k = L -> coef h k = coef x k)
    /\ (~ passed f a c L -> forall k, (k < n)%nat -> coef h k = RtoC 0).
Proof.
  intros Hg Lx Ht Hx n f Na Nc Hab Hbc HL Hb Hlast.
  assert (H2 := proj1 Hg). assert (Hd := dfreq_pos t Hg).
  destruct (bandpass_eq t x a (Fin b) at_ ax) as (k1 & u & E1 & K1 & Lu & C1); auto; [discriminate|].
  destruct (bandpass_eq t x (Fin b) c at_ ax) as (k2 & v & E2 & K2 & Lv & C2); auto; [discriminate|].
  destruct (bandpass_eq t x a c at_ ax) as (k3 & w & E3 & K3 & Lw & C3); auto.
  fold n in K1, K2, K3, Lu, Lv, Lw, C1, C2, C3. change (nnyq n) with (n / 2 + 1)%nat in K1, K2, K3. fold f in K1, K2, K3.
  assert (Hn : (2 <= n)%nat) by (unfold n; lia).
  assert (Fl : forall k, (k < n)%nat -> (fold_index n k < n / 2 + 1)%nat) by (intros k Hk; apply (fold_lt n k); auto).
  assert (Hlast' : b < INR (n / 2 + 1 - 1) * dfreq t) by (replace (n / 2 + 1 - 1)%nat with (n / 2)%nat by lia; exact Hlast).
  set (h := minus2 w (plus2 u v)).
  assert (Luv : length (plus2 u v) = n) by (rewrite plus2_length; lia).
  assert (Lh : length h = n) by (unfold h; rewrite minus2_length; lia).
  assert (Ch : forall k, coef h k = (coef w k - (coef u k + coef v k))%C).
  { intros k. unfold h. rewrite coef_minus2 by lia. rewrite coef_plus2 by lia. reflexivity. }
  assert (Case : forall k, (k < n)%nat ->
     (coef u k = coef w k /\ coef v k = RtoC 0 /\ coef h k = RtoC 0 /\ fold_index n k <> L)
     \/ (coef u k = RtoC 0 /\ coef v k = coef w k /\ coef h k = RtoC 0 /\ fold_index n k <> L)
     \/ (coef u k = RtoC 0 /\ coef v k = RtoC 0 /\ coef h k = coef w k /\ fold_index n k = L)).
  { intros k Hk. rewrite Ch. rewrite (C1 k Hk), (C2 k Hk), (C3 k Hk). specialize (Fl k Hk). set (j := fold_index n k) in *.
    destruct (K1 j Fl) as [A1 A1']. destruct (K2 j Fl) as [A2 A2']. destruct (K3 j Fl) as [A3 A3'].
    destruct (Nat.lt_trichotomy j L) as [H|[H|H]].
    - left. destruct (split_low (dfreq t) (n / 2 + 1) L a c b Hd HL Hb Hbc j H) as [P Q]. fold f in P, Q.
      assert (Q2 : k2 j = false) by (destruct (k2 j); auto; exfalso; auto). rewrite Q2.
      assert (Q1 : k1 j = k3 j). { destruct (k1 j), (k3 j); auto; exfalso. - assert (false = true) by (apply A3', P, A1; auto). discriminate. - assert (false = true) by (apply A1', P, A3; auto). discriminate. }
      rewrite Q1. split; [reflexivity|]. split; [reflexivity|]. split; [ring|lia].
    - right. right. destruct (split_at (dfreq t) (n / 2 + 1) L a c b HL Hb Hlast') as [P Q]. fold f in P, Q. rewrite <- H in P, Q.
      assert (Q1 : k1 j = false) by (destruct (k1 j); auto; exfalso; auto).
      assert (Q2 : k2 j = false) by (destruct (k2 j); auto; exfalso; auto). rewrite Q1, Q2. split; [reflexivity|]. split; [reflexivity|]. split; [ring|auto].
    - right. left. destruct (split_high (dfreq t) (n / 2 + 1) L a c b Hd HL Hb Hlast' Hab j ltac:(lia)) as [P Q]. fold f in P, Q.
      assert (Q1 : k1 j = false) by (destruct (k1 j); auto; exfalso; auto). rewrite Q1.
      assert (Q2 : k2 j = k3 j). { destruct (k2 j), (k3 j); auto; exfalso. - assert (false = true) by (apply A3', Q, A2; auto). discriminate. - assert (false = true) by (apply A2', Q, A3; auto). discriminate. }
      rewrite Q2. split; [reflexivity|]. split; [reflexivity|]. split; [ring|lia]. }
  exists u, v, w, h. split; [auto|]. split; [auto|]. split; [auto|]. split; [auto|]. split.
  { apply (nth_ext' _ _ 0); [rewrite plus2_length; lia|]. intros j Hj. unfold h, plus2, minus2.
    rewrite !(map2_nth _ _ _ _ 0 0) by (rewrite ?map2_length; lia). ring. }
  split.
  { assert (Z : sq (RtoC 0) = 0) by (unfold sq; cbn; ring).
    assert (In : 0 < INR n) by (apply lt_0_INR; lia).
    apply Rmult_eq_reg_l with (INR n); [|lra].
    assert (EE : forall z, length z = n -> INR n * energy z = RS n (fun k => sq (coef z k))).
    { intros z Lz. rewrite <- Lz. apply energy_coef. intros ->. cbn in Lz. lia. }
    rewrite !Rmult_plus_distr_l. rewrite (EE w), (EE u), (EE v), (EE h) by auto. rewrite <- !RS_plus. apply RS_ext. intros k Hk.
    destruct (Case k Hk) as [(-> & -> & -> & _)|[(-> & -> & -> & _)|(-> & -> & -> & _)]]; rewrite Z; ring. }
  split.
  { intros k Hk Nk. destruct (Case k Hk) as [(_ & _ & -> & _)|[(_ & _ & -> & _)|(_ & _ & _ & E)]]; [auto|auto|contradiction]. }
  assert (HLq : (L < n / 2 + 1)%nat) by lia.
  split.
  - intros P k Hk Ek. destruct (Case k Hk) as [(_ & _ & _ & E)|[(_ & _ & _ & E)|(_ & _ & -> & _)]]; try contradiction.
    rewrite (C3 k Hk), Ek. rewrite (proj2 (K3 L HLq) P). reflexivity.
  - intros P k Hk. destruct (Case k Hk) as [(_ & _ & -> & _)|[(_ & _ & -> & _)|(_ & _ & -> & E)]]; auto.
    rewrite (C3 k Hk), E. destruct (k3 L) eqn:K; [|reflexivity]. exfalso. apply P, (K3 L HLq), K.
Qed.

(** A band that takes in every frequency of the signal (lower limit at most the first frequency, upper limit at least the last)
    subtracts the mean and changes nothing else *)
Definition detrended (x : list R) : list R := map (fun v => v - Rmean x) x.
Lemma fold_pos n k : (0 < k < n)%nat -> (1 <= fold_index n k)%nat.
Proof. unfold fold_index. lia. Qed.
Theorem C87_whole_band (t x : list R) (flow fhigh : xr) (at_ ax : arraylike NX) :
  good_axis t -> length x = length t -> holds_vector (F t) at_ -> holds_vector (F x) ax ->
  let flast := Fin (INR (length x / 2) * dfreq t) in
  ext_le flow (Fin (dfreq t)) -> ext_lt flow flast -> ext_le flast fhigh ->
  bandpassfilter at_ ax flow fhigh = Ok (F (detrended x)) /\ energy (detrended x) = INR (length x) * Rvar x.
Proof.
  intros Hg Lx Ht Hx flast H1 H2 H3. assert (Hn := proj1 Hg). assert (Hd := dfreq_pos t Hg).
  assert (N1 : flow <> NaN) by (intros ->; exact H1). assert (N2 : fhigh <> NaN) by (intros ->; exact H3).
  destruct (bandpass_eq t x flow fhigh at_ ax) as (k1 & u & E1 & K1 & Lu & C1); auto.
  set (n := length x) in *. change (nnyq n) with (n / 2 + 1)%nat in K1.
  assert (Lp : (0 < n)%nat) by lia. assert (Ln : 0 < INR n) by (apply lt_0_INR; lia).
  split.
  - rewrite E1. do 2 f_equal. unfold detrended.
    rewrite (map_ext _ (fun v => 1 * v + - Rmean x)) by (intros v; ring).
    apply coef_inj; [rewrite map_length; auto|]. intros k Hk. rewrite Lu in Hk. rewrite C1, coef_affine by auto.
    destruct (Nat.eqb_spec k 0) as [->|N0].
    + destruct (k1 (fold_index n 0)) eqn:Ek.
      { apply K1 in Ek; [|cbn; lia]. destruct Ek as [Ek _]. cbn in Ek. lia. }
      rewrite coef_0. fold n. unfold Rmean. fold n. rewrite <- RtoC_mult, <- RtoC_plus. f_equal. field. lra.
    + assert (P : k1 (fold_index n k) = true).
      { assert (Hf := fold_lt n k ltac:(lia) Hk). assert (Hp := fold_pos n k ltac:(lia)). apply K1; [exact Hf|].
        change (nnyq n) with (n / 2 + 1)%nat in Hf. rewrite passed_spec by exact Hf.
        replace (n / 2 + 1 - 1)%nat with (n / 2)%nat by lia. split; [auto|]. split; [|split; [exact H2|left; exact H3]].
        eapply ext_le_trans; [exact H1|]. cbn. assert (1 <= INR (fold_index n k)) by (apply (le_INR 1); auto). nra. }
      rewrite P. ring.
  - unfold energy, Rvar, detrended, Rmean at 2. rewrite !map_map, !map_length. fold n. rewrite (Rmult_comm (INR n)). unfold Rdiv.
    rewrite Rmult_assoc, Rinv_l, Rmult_1_r by lra. f_equal. apply map_ext. intros v. ring.
Qed.

(** Low-pass and high-pass at the same limit b give back the signal only up to its mean and the component at the highest
    frequency below b: the variance is the sum of the three mean squares *)
Theorem C87_low_and_high (t x : list R) (b : R) (L : nat) (at_ ax : arraylike NX) :
  good_axis t -> length x = length t -> holds_vector (F t) at_ -> holds_vector (F x) ax ->
  let n := length x in
  (1 <= L)%nat -> INR L * dfreq t < b <= INR (S L) * dfreq t -> b < INR (n / 2) * dfreq t ->
  exists low high h,
    bandpassfilter at_ ax (Fin 0) (Fin b) = Ok (F low) /\ bandpassfilter at_ ax (Fin b) PInf = Ok (F high)
    /\ length low = n /\ length high = n /\ length h = n
    /\ (forall i, (i < n)%nat -> nth i x 0 = Rmean x + nth i low 0 + nth i high 0 + nth i h 0)
    /\ INR n * Rvar x = energy low + energy high + energy h
    /\ (forall k, (k < n)%nat -> coef h k = if Nat.eqb (fold_index n k) L then coef x k else RtoC 0).
Proof.
  intros Hg Lx Ht Hx n HL Hb Hlast. assert (Hn := proj1 Hg). assert (Hd := dfreq_pos t Hg). assert (Ln : (2 <= n)%nat) by (unfold n; lia).
  assert (SL : (S L < n / 2 + 1)%nat).
  { assert (INR L < INR (n / 2)) by (apply Rmult_lt_reg_r with (dfreq t); lra). apply INR_lt in H. lia. }
  assert (Lb : 0 <= INR L * dfreq t) by (apply Rmult_le_pos; [apply pos_INR|lra]).
  assert (Pl : 0 < INR (n / 2) * dfreq t) by lra.
  destruct (C87_adjacent_bands t x (Fin 0) PInf b L at_ ax) as (u & v & w & h & E1 & E2 & E3 & Lh & Ew & En & C1 & C2 & _); auto;
    [discriminate|discriminate|cbn; lra|cbn; auto|].
  fold n in Lh, C1, C2.
  destruct (C87_whole_band t x (Fin 0) PInf at_ ax) as [E4 E5]; auto; [cbn; lra|cbn; auto|].
  rewrite E4 in E3. apply Ok_inj, F_inj in E3. subst w.
  destruct (bandpass_eq t x (Fin 0) (Fin b) at_ ax) as (k1 & u' & E1' & _ & Lu & _); auto; try discriminate.
  destruct (bandpass_eq t x (Fin b) PInf at_ ax) as (k2 & v' & E2' & _ & Lv & _); auto; try discriminate.
  rewrite E1 in E1'. apply Ok_inj, F_inj in E1'. subst u'. rewrite E2 in E2'. apply Ok_inj, F_inj in E2'. subst v'.
  exists u, v, h. split; [auto|]. split; [auto|]. split; [auto|]. split; [auto|]. split; [auto|]. fold n in Lu, Lv. split; [|split].
  - intros i Hi. apply (f_equal (fun l => nth i l 0)) in Ew. unfold plus2 in Ew.
    rewrite (map2_nth _ _ _ _ 0 0) in Ew by (rewrite ?map2_length; lia). rewrite (map2_nth _ _ _ _ 0 0) in Ew by lia.
    unfold detrended in Ew. rewrite (nth_indep _ 0 (0 - Rmean x)) in Ew by (rewrite map_length; auto).
    rewrite (map_nth (fun v => v - Rmean x)) in Ew. lra.
  - fold n in E5. lra.
  - intros k Hk. destruct (Nat.eqb_spec (fold_index n k) L) as [E|E]; [|auto]. apply C2; auto.
    rewrite passed_spec by (fold n; lia). fold n. split; [auto|]. split; [cbn -[INR]; lra|]. split; [|left; cbn; auto].
    replace (n / 2 + 1 - 1)%nat with (n / 2)%nat by lia. exact Pl.
Qed.

(** Two filters can be applied in either order *)
Theorem C87_commute (t x : list R) (flow1 fhigh1 flow2 fhigh2 : xr) (at_ ax : arraylike NX) :
  good_axis t -> length x = length t -> holds_vector (F t) at_ -> holds_vector (F x) ax ->
  flow1 <> NaN -> fhigh1 <> NaN -> flow2 <> NaN -> fhigh2 <> NaN ->
  exists u v z,
    bandpassfilter at_ ax flow1 fhigh1 = Ok (F u) /\ bandpassfilter at_ ax flow2 fhigh2 = Ok (F v)
    /\ forall au av, holds_vector (F u) au -> holds_vector (F v) av ->
       bandpassfilter at_ au flow2 fhigh2 = Ok (F z) /\ bandpassfilter at_ av flow1 fhigh1 = Ok (F z).
Proof.
  intros Hg Lx Ht Hx N1 N2 N3 N4. assert (Hn := proj1 Hg).
  destruct (bandpass_eq t x flow1 fhigh1 at_ ax) as (k1 & u & E1 & K1 & Lu & C1); auto.
  destruct (bandpass_eq t x flow2 fhigh2 at_ ax) as (k2 & v & E2 & K2 & Lv & C2); auto.
  destruct (bandpass_eq t u flow2 fhigh2 at_ (Arr (vec (F u)))) as (k3 & z & E3 & K3 & Lz & C3); auto; [lia|apply hv_flat|].
  exists u, v, z. split; [auto|]. split; [auto|]. intros au av Hu Hv.
  destruct (bandpass_eq t u flow2 fhigh2 at_ au) as (k4 & z4 & E4 & K4 & Lz4 & C4); auto; [lia|].
  destruct (bandpass_eq t v flow1 fhigh1 at_ av) as (k5 & z5 & E5 & K5 & Lz5 & C5); auto; [lia|].
  rewrite E4, E5. rewrite Lu in *. rewrite Lv in *.
  split; do 2 f_equal; apply coef_inj; try lia; intros k Hk; assert (Hk' : (k < length x)%nat) by lia;
    assert (Hf := fold_lt (length x) k ltac:(lia) Hk').
  - rewrite C4, C3 by lia. rewrite (keep_agree _ _ _ k4 k3 _ K4 K3) by auto. reflexivity.
  - rewrite C5, C3, C1, C2 by lia. rewrite (keep_agree _ _ _ k5 k1 _ K5 K1) by auto. rewrite (keep_agree _ _ _ k3 k2 _ K3 K2) by auto.
    destruct (k1 _), (k2 _); reflexivity.
Qed.

(** A wider band gives no less energy, and filtering the narrower result with the wider band changes nothing *)
Theorem C87_nested (t x : list R) (flow1 fhigh1 flow2 fhigh2 : xr) (at_ ax : arraylike NX) :
  good_axis t -> length x = length t -> holds_vector (F t) at_ -> holds_vector (F x) ax ->
  flow1 <> NaN -> fhigh1 <> NaN -> flow2 <> NaN -> fhigh2 <> NaN -> ext_le flow2 flow1 -> ext_le fhigh1 fhigh2 ->
  exists u v,
    bandpassfilter at_ ax flow1 fhigh1 = Ok (F u) /\ bandpassfilter at_ ax flow2 fhigh2 = Ok (F v)
    /\ energy u <= energy v
    /\ (forall au, holds_vector (F u) au -> bandpassfilter at_ au flow2 fhigh2 = Ok (F u))
    /\ (forall av, holds_vector (F v) av -> bandpassfilter at_ av flow1 fhigh1 = Ok (F u)).
Proof.
  intros Hg Lx Ht Hx N1 N2 N3 N4 I1 I2. assert (Hn := proj1 Hg).
  destruct (bandpass_eq t x flow1 fhigh1 at_ ax) as (k1 & u & E1 & K1 & Lu & C1); auto.
  destruct (bandpass_eq t x flow2 fhigh2 at_ ax) as (k2 & v & E2 & K2 & Lv & C2); auto.
  set (n := length x) in *.
  assert (Imp : forall k, (k < nnyq n)%nat -> k1 k = true -> k2 k = true).
  { intros k Hk P. apply K1 in P; auto. apply K2; auto. change (nnyq n) with (n / 2 + 1)%nat in *.
    rewrite passed_spec in * by auto. destruct P as (P1 & P2 & P3 & P4).
    split; [auto|]. split; [eapply ext_le_trans; [exact I1|exact P2]|]. split; [eapply ext_le_lt; [exact I1|exact P3]|].
    destruct P4 as [P4|[P4 P5]]; [left; eapply ext_le_trans; [exact P4|exact I2]|right; split; [auto|eapply ext_lt_le; [exact P5|exact I2]]]. }
  assert (Lp : 0 < INR n) by (apply lt_0_INR; lia).
  exists u, v. split; [auto|]. split; [auto|]. split; [|split].
  - apply Rmult_le_reg_l with (INR n); [auto|].
    assert (EE : forall z, length z = n -> INR n * energy z = RS n (fun k => sq (coef z k))).
    { intros z Lz. rewrite <- Lz. apply energy_coef. intros ->. cbn in Lz. lia. }
    rewrite (EE u), (EE v) by auto. apply RS_le. intros k Hk. rewrite C1, C2 by auto. assert (Hf := fold_lt n k ltac:(lia) Hk).
    destruct (k1 (fold_index n k)) eqn:Ek; [rewrite (Imp _ Hf Ek); lra|].
    assert (Z : sq (RtoC 0) = 0) by (unfold sq; cbn; ring). rewrite Z. unfold sq. nra.
  - intros au Hu. destruct (bandpass_eq t u flow2 fhigh2 at_ au) as (k4 & z4 & E4 & K4 & Lz4 & C4); auto; [lia|].
    rewrite E4. do 2 f_equal. rewrite Lu in *. apply coef_inj; [lia|]. intros k Hk. rewrite Lz4 in Hk. rewrite C4, C1 by auto.
    assert (Hf := fold_lt n k ltac:(lia) Hk). rewrite (keep_agree _ _ _ k4 k2 _ K4 K2) by auto.
    destruct (k1 _) eqn:Ek; [rewrite (Imp _ Hf Ek); reflexivity|destruct (k2 _); reflexivity].
  - intros av Hv. destruct (bandpass_eq t v flow1 fhigh1 at_ av) as (k4 & z4 & E4 & K4 & Lz4 & C4); auto; [lia|].
    rewrite E4. do 2 f_equal. rewrite Lv in *. apply coef_inj; [lia|]. intros k Hk. rewrite Lz4 in Hk. rewrite C4, C1, C2 by auto.
    assert (Hf := fold_lt n k ltac:(lia) Hk). rewrite (keep_agree _ _ _ k4 k1 _ K4 K1) by auto.
    destruct (k1 _) eqn:Ek; [rewrite (Imp _ Hf Ek); reflexivity|reflexivity].
Qed.

(** Refuted: "low-pass and high-pass at the same limit, plus the mean, give back the signal". The signal 1,0,-1,0 sampled four
    times per second and split at 3/2 Hz *)
Theorem C87_bands_add_up_refuted :
  ~ (forall (t x low high : list R) (b : R), good_axis t -> length x = length t -> 0 < b < INR (length x / 2) * dfreq t ->
       bandpassfilter (Arr (vec (F t))) (Arr (vec (F x))) (Fin 0) (Fin b) = Ok (F low) ->
       bandpassfilter (Arr (vec (F t))) (Arr (vec (F x))) (Fin b) PInf = Ok (F high) ->
       forall i, (i < length x)%nat -> nth i x 0 = Rmean x + nth i low 0 + nth i high 0).
Proof.
  intros H. set (t := axis 0 (1/4) 4). set (x := [1; 0; -1; 0] : list R).
  assert (G : good_axis t) by (apply axis_good; [lia|lra]).
  assert (D : dfreq t = 1). { unfold dfreq, t. rewrite axis_length. unfold step. rewrite !axis_nth by lia. cbn. field. }
  destruct (C87_low_and_high t x (3/2) 1 (Arr (vec (F t))) (Arr (vec (F x))))
    as (u & v & h & E1 & E2 & L1 & L2 & L3 & P & _ & Ch); auto; try apply hv_flat; try (rewrite D; cbn; lra).
  specialize (H t x u v (3/2) G eq_refl ltac:(rewrite D; cbn; lra) E1 E2).
  assert (Z : h = repeat 0 4).
  { apply (nth_ext' _ _ 0); [rewrite L3; reflexivity|]. intros i Hi. rewrite L3 in Hi. cbn [length x] in Hi.
    rewrite nth_repeat. specialize (H i Hi). specialize (P i Hi). lra. }
  specialize (Ch 1%nat ltac:(cbn; lia)). cbn [Nat.eqb fold_index length x Nat.min Nat.sub] in Ch.
  rewrite Z in Ch. apply (f_equal fst) in Ch. unfold coef in Ch. cbn -[ei PI INR] in Ch.
  replace (- (2 * PI * INR 0 / INR 4)) with 0 in Ch by (cbn; field).
  replace (- (2 * PI * INR 2 / INR 4)) with (- PI) in Ch by (cbn; field).
  assert (A0 : fst (ei 0) = 1) by (cbn; apply cos_0).
  assert (A2 : fst (ei (- PI)) = -1) by (cbn; rewrite cos_neg; apply cos_PI).
  rewrite A0, A2 in Ch. lra.
Qed.

(** the hypotheses of the theorems above are met by a 2 s record at 10 Hz and the limits 1 Hz, 2.2 Hz and 4 Hz *)
Example C87_witness : let t := axis 0 (1/10) 20 in
  good_axis t /\ dfreq t = 1 / 2 /\ INR 4 * dfreq t < 22 / 10 <= INR 5 * dfreq t /\ 22 / 10 < INR (20 / 2) * dfreq t
  /\ ext_le (Fin 1) (Fin (22/10)) /\ ext_le (Fin (22/10)) (Fin 4) /\ passed (freqs (dfreq t) (20 / 2 + 1)) (Fin 1) (Fin 4) 4
  /\ ext_le (Fin 0) (Fin (dfreq t)) /\ ext_lt (Fin 0) (Fin (INR (20 / 2) * dfreq t)).
Proof.
  cbv zeta. assert (E : dfreq (axis 0 (1/10) 20) = 1 / 2).
  { unfold dfreq. rewrite axis_length. unfold step. rewrite !axis_nth by lia. cbn. field. }
  split; [apply axis_good; [lia|lra]|]. rewrite E. replace (20 / 2)%nat with 10%nat by reflexivity.
  rewrite passed_spec by lia.
  cbn. repeat split; try lia; try lra. right. split; [lia|lra].
Qed.
