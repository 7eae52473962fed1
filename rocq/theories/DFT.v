(** * The discrete Fourier transform over the complex numbers (mathematics only) *)

From Coq Require Import Reals ZArith List Bool Lra Lia.
From Coquelicot Require Import Complex.
Import ListNotations.
Open Scope R_scope.

Lemma C_eq (a b : C) : fst a = fst b -> snd a = snd b -> a = b.
Proof. destruct a, b; cbn; congruence. Qed.

Lemma Cconj_mult (a b : C) : Cconj (a * b)%C = (Cconj a * Cconj b)%C.
Proof. apply C_eq; cbn; ring. Qed.

(** e^(i theta) *)
Definition ei (theta : R) : C := (cos theta, sin theta).
Lemma ei_plus a b : ei (a + b) = (ei a * ei b)%C.
Proof. apply C_eq; cbn; [rewrite cos_plus|rewrite sin_plus]; ring. Qed.
Lemma ei_0 : ei 0 = RtoC 1.
Proof. apply C_eq; cbn; [apply cos_0|apply sin_0]. Qed.
Lemma ei_opp a : ei (- a) = Cconj (ei a).
Proof. apply C_eq; cbn; [apply cos_neg|apply sin_neg]. Qed.
Lemma ei_inv a : (ei a * ei (- a))%C = RtoC 1.
Proof. rewrite <- ei_plus. replace (a + - a) with 0 by ring. apply ei_0. Qed.
Lemma ei_period k : ei (2 * PI * INR k) = RtoC 1.
Proof.
  induction k; [cbn; rewrite Rmult_0_r; apply ei_0|].
  rewrite S_INR. replace (2 * PI * (INR k + 1)) with (2 * PI * INR k + 2 * PI) by ring.
  rewrite ei_plus, IHk. apply C_eq; cbn; rewrite cos_2PI, sin_2PI; ring.
Qed.
Lemma ei_not_1 a : 0 < a < 2 * PI -> ei a <> RtoC 1.
Proof.
  intros H E. assert (E1 : cos a = 1) by (apply (f_equal fst) in E; exact E).
  replace a with (2 * (a / 2)) in E1 by field. rewrite cos_2a_sin in E1.
  assert (0 < sin (a / 2)) by (apply sin_gt_0; lra). nra.
Qed.

(** finite sums *)
Definition Csl (l : list C) : C := fold_right Cplus (RtoC 0) l.
Definition Csum (n : nat) (f : nat -> C) : C := Csl (map f (seq 0 n)).

Lemma Csl_app l l' : Csl (l ++ l') = (Csl l + Csl l')%C.
Proof.
  induction l as [|a l IH]; [change (Csl ([] ++ l')) with (Csl l'); change (Csl []) with (RtoC 0); ring|].
  change (Csl ((a :: l) ++ l')) with (a + Csl (l ++ l'))%C. change (Csl (a :: l)) with (a + Csl l)%C. rewrite IH. ring.
Qed.
Lemma Csum_S n f : Csum (S n) f = (Csum n f + f n)%C.
Proof. unfold Csum. rewrite seq_S, map_app, Csl_app. cbn [map]. unfold Csl at 2. cbn [fold_right plus]. ring. Qed.
Lemma Csum_0 f : Csum 0 f = RtoC 0. Proof. reflexivity. Qed.
Lemma Csum_ext n f g : (forall k, (k < n)%nat -> f k = g k) -> Csum n f = Csum n g.
Proof. intros H. induction n; [reflexivity|]. rewrite !Csum_S, IHn, H by auto. reflexivity. Qed.
Lemma Csum_plus n f g : Csum n (fun k => f k + g k)%C = (Csum n f + Csum n g)%C.
Proof. induction n; [rewrite !Csum_0; ring|]. rewrite !Csum_S, IHn. ring. Qed.
Lemma Csum_scal n c f : Csum n (fun k => c * f k)%C = (c * Csum n f)%C.
Proof. induction n; [rewrite !Csum_0; ring|]. rewrite !Csum_S, IHn. ring. Qed.
Lemma Csum_zero n f : (forall k, (k < n)%nat -> f k = RtoC 0) -> Csum n f = RtoC 0.
Proof. intros H. induction n; [reflexivity|]. rewrite Csum_S, IHn, H by auto. ring. Qed.
Lemma Csum_swap n m f : Csum n (fun i => Csum m (fun j => f i j)) = Csum m (fun j => Csum n (fun i => f i j)).
Proof.
  induction n; [rewrite Csum_0; symmetry; apply Csum_zero; auto|].
  rewrite Csum_S, IHn, <- Csum_plus. apply Csum_ext. intros. rewrite Csum_S. reflexivity.
Qed.
Lemma Csum_single n f k : (k < n)%nat -> (forall j, (j < n)%nat -> j <> k -> f j = RtoC 0) -> Csum n f = f k.
Proof.
  induction n; intros Hk H; [lia|]. rewrite Csum_S. destruct (Nat.eq_dec k n) as [->|].
  - rewrite (Csum_zero n f) by (intros; apply H; lia). ring.
  - rewrite IHn by (try lia; intros; apply H; lia). rewrite (H n) by lia. ring.
Qed.
Lemma Csum_conj n f : Cconj (Csum n f) = Csum n (fun k => Cconj (f k)).
Proof.
  induction n; [apply C_eq; cbn; ring|]. rewrite !Csum_S, <- IHn. apply C_eq; cbn; ring.
Qed.
Lemma Csum_shift n f : Csum (S n) f = (f 0%nat + Csum n (fun k => f (S k)))%C.
Proof. unfold Csum. cbn [seq map Csl fold_right]. rewrite <- seq_shift, map_map. reflexivity. Qed.
Lemma Csum_rev n f : Csum n f = Csum n (fun k => f (n - 1 - k)%nat).
Proof.
  revert f; induction n; intros f; [reflexivity|].
  rewrite Csum_S, (Csum_shift n (fun k => f (S n - 1 - k)%nat)), IHn.
  replace (S n - 1 - 0)%nat with n by lia.
  rewrite (Csum_ext n (fun k => f (S n - 1 - S k)%nat) (fun k => f (n - 1 - k)%nat)) by (intros; f_equal; lia). ring.
Qed.
Lemma Csum_add n m f : Csum (n + m) f = (Csum n f + Csum m (fun k => f (n + k)%nat))%C.
Proof.
  induction m; [rewrite Nat.add_0_r, Csum_0; ring|]. rewrite Nat.add_succ_r, !Csum_S, IHm. ring.
Qed.
Lemma Csum_re n f : fst (Csum n f) = fold_right Rplus 0 (map (fun k => fst (f k)) (seq 0 n)).
Proof. unfold Csum. generalize (seq 0 n). induction l as [|a l IH]; [reflexivity|]. cbn [map fold_right]. rewrite <- IH. reflexivity. Qed.
Lemma Csum_im n f : snd (Csum n f) = fold_right Rplus 0 (map (fun k => snd (f k)) (seq 0 n)).
Proof. unfold Csum. generalize (seq 0 n). induction l as [|a l IH]; [reflexivity|]. cbn [map fold_right]. rewrite <- IH. reflexivity. Qed.

(** the twiddle factor e^(2 pi i sgn j k / n) *)
Definition tw (sgn : R) (n j k : nat) : C := ei (sgn * 2 * PI * INR (j * k) / INR n).

Lemma tw_conj n j k : Cconj (tw 1 n j k) = tw (-1) n j k.
Proof. unfold tw. rewrite <- ei_opp. f_equal. unfold Rdiv. ring. Qed.
Lemma tw_conj' n j k : Cconj (tw (-1) n j k) = tw 1 n j k.
Proof. unfold tw. rewrite <- ei_opp. f_equal. unfold Rdiv. ring. Qed.
Lemma tw_sym s n j k : tw s n j k = tw s n k j.
Proof. unfold tw. rewrite (Nat.mul_comm j k). reflexivity. Qed.
Lemma tw_0 s n k : tw s n 0 k = RtoC 1.
Proof. unfold tw. cbn. rewrite Rmult_0_r. unfold Rdiv. rewrite Rmult_0_l. apply ei_0. Qed.
Lemma tw_mirror n j k : (0 < n)%nat -> (k <= n)%nat -> tw (-1) n j (n - k) = tw 1 n j k.
Proof.
  intros Hn Hk. unfold tw. rewrite !mult_INR, minus_INR by auto.
  assert (INR n <> 0) by (apply not_0_INR; lia).
  replace (1 * 2 * PI * (INR j * INR k) / INR n)
    with (-1 * 2 * PI * (INR j * (INR n - INR k)) / INR n + 2 * PI * INR j) by (field; auto).
  rewrite (ei_plus _ (2 * PI * INR j)), ei_period. ring.
Qed.
Lemma tw_mirror' n j k : (0 < n)%nat -> (k <= n)%nat -> tw 1 n j (n - k) = tw (-1) n j k.
Proof. intros. rewrite <- (tw_conj' n j (n - k)), tw_mirror, tw_conj by auto. reflexivity. Qed.

Fixpoint Cpown (z : C) (k : nat) : C := match k with O => RtoC 1 | S k => (z * Cpown z k)%C end.
Lemma geom z n : ((z - 1) * Csum n (Cpown z))%C = (Cpown z n - 1)%C.
Proof. induction n; [rewrite Csum_0; cbn; ring|]. rewrite Csum_S. cbn [Cpown]. 
  replace ((z - 1) * (Csum n (Cpown z) + Cpown z n))%C with ((z - 1) * Csum n (Cpown z) + (z - 1) * Cpown z n)%C by ring.
  rewrite IHn. ring.
Qed.
Lemma Cpown_ei a k : Cpown (ei a) k = ei (INR k * a).
Proof. induction k; [cbn [Cpown INR]; rewrite Rmult_0_l, ei_0; reflexivity|].
  cbn [Cpown]. rewrite IHk, S_INR, Rmult_plus_distr_r, Rmult_1_l, ei_plus. ring. Qed.

(** orthogonality of the characters *)
Lemma ortho_pos n m : (0 < m < n)%nat -> Csum n (fun k => ei (2 * PI * INR m / INR n * INR k)) = RtoC 0.
Proof.
  intros H. assert (Hn : 0 < INR n) by (apply lt_0_INR; lia).
  assert (Hm : 0 < INR m) by (apply lt_0_INR; lia). assert (Hmn : INR m < INR n) by (apply lt_INR; lia).
  set (a := 2 * PI * INR m / INR n). assert (PIp := PI_RGT_0).
  assert (Ha : 0 < a < 2 * PI).
  { unfold a. split; [apply Rdiv_lt_0_compat; nra|]. apply Rmult_lt_reg_r with (INR n); auto.
    unfold Rdiv. rewrite Rmult_assoc, Rinv_l by lra. nra. }
  rewrite (Csum_ext n _ (Cpown (ei a))) by (intros; rewrite Cpown_ei; f_equal; ring).
  assert (G := geom (ei a) n). rewrite Cpown_ei in G.
  replace (INR n * a) with (2 * PI * INR m) in G by (unfold a; field; lra). rewrite ei_period in G.
  assert (Hne : (ei a - 1 <> 0)%C).
  { intros E. apply (ei_not_1 a Ha). replace (ei a) with ((ei a - 1) + 1)%C by ring. rewrite E. ring. }
  replace (1 - 1)%C with (RtoC 0) in G by ring.
  replace (Csum n (Cpown (ei a))) with (/ (ei a - 1) * ((ei a - 1) * Csum n (Cpown (ei a))))%C by (field; exact Hne).
  rewrite G. ring.
Qed.
Lemma ortho n j l : (j < n)%nat -> (l < n)%nat ->
  Csum n (fun k => tw (-1) n j k * tw 1 n k l)%C = if Nat.eq_dec j l then RtoC (INR n) else RtoC 0.
Proof.
  intros Hj Hl. assert (Hn : INR n <> 0) by (apply not_0_INR; lia).
  destruct (Nat.eq_dec j l) as [->|Hjl].
  - rewrite (Csum_ext n _ (fun _ => RtoC 1)).
    + clear. induction n; [reflexivity|]. rewrite Csum_S, IHn, S_INR. apply C_eq; cbn; ring.
    + intros k Hk. rewrite (tw_sym 1), <- tw_conj. unfold tw. rewrite <- ei_opp. rewrite Cmult_comm. apply ei_inv.
  - destruct (Nat.lt_trichotomy j l) as [H|[H|H]]; [|contradiction|].
    + rewrite (Csum_ext n _ (fun k => ei (2 * PI * INR (l - j) / INR n * INR k))).
      * apply ortho_pos. lia.
      * intros k Hk. unfold tw. rewrite <- ei_plus. f_equal. rewrite !mult_INR, minus_INR by lia. field. auto.
    + assert (E : Csum n (fun k => ei (2 * PI * INR (j - l) / INR n * INR k)) = RtoC 0) by (apply ortho_pos; lia).
      apply (f_equal Cconj) in E. rewrite Csum_conj in E.
      rewrite (Csum_ext n _ (fun k => Cconj (ei (2 * PI * INR (j - l) / INR n * INR k)))).
      * rewrite E. apply C_eq; cbn; ring.
      * intros k Hk. rewrite <- ei_opp. unfold tw. rewrite <- ei_plus. f_equal. rewrite !mult_INR, minus_INR by lia. field. auto.
Qed.

(** the transform of x_0 .. x_(n-1), and its inverse *)
Definition DF (n : nat) (x : nat -> C) (k : nat) : C := Csum n (fun j => x j * tw (-1) n j k)%C.
Definition IDF (n : nat) (X : nat -> C) (l : nat) : C := (/ INR n * Csum n (fun k => X k * tw 1 n k l))%C.

Lemma inv_n n : (0 < n)%nat -> (/ INR n * INR n)%C = RtoC 1.
Proof.
  intros. assert (INR n <> 0) by (apply not_0_INR; lia). rewrite <- RtoC_inv by auto. rewrite <- RtoC_mult.
  f_equal. field. auto.
Qed.

Theorem DFT_inversion n x l : (l < n)%nat -> IDF n (DF n x) l = x l.
Proof.
  intros Hl. unfold IDF, DF.
  rewrite (Csum_ext n _ (fun k => Csum n (fun j => x j * (tw (-1) n j k * tw 1 n k l)))%C).
  2:{ intros k Hk. rewrite Cmult_comm, <- Csum_scal. apply Csum_ext. intros. ring. }
  rewrite Csum_swap.
  rewrite (Csum_ext n _ (fun j => x j * (if Nat.eq_dec j l then RtoC (INR n) else RtoC 0))%C).
  2:{ intros j Hj. rewrite Csum_scal, ortho by auto. reflexivity. }
  rewrite (Csum_single n _ l Hl) by (intros j Hj Hjl; cbv beta; destruct (Nat.eq_dec j l) as [E|]; [contradiction (Hjl E)|ring]).
  destruct (Nat.eq_dec l l); [|contradiction].
  replace (/ INR n * (x l * INR n))%C with (x l * (/ INR n * INR n))%C by ring. rewrite inv_n by lia. ring.
Qed.
Theorem DFT_inversion' n X k : (k < n)%nat -> DF n (IDF n X) k = X k.
Proof.
  intros Hk. unfold IDF, DF.
  rewrite (Csum_ext n _ (fun j => / INR n * Csum n (fun l => X l * (tw (-1) n k j * tw 1 n j l)))%C).
  2:{ intros j Hj. rewrite <- Cmult_assoc, (Cmult_comm (Csum _ _)), <- Csum_scal. f_equal. apply Csum_ext. intros.
      rewrite (tw_sym (-1) n k j), (tw_sym 1 n j k0). ring. }
  rewrite Csum_scal, Csum_swap.
  rewrite (Csum_ext n _ (fun l => X l * (if Nat.eq_dec k l then RtoC (INR n) else RtoC 0))%C).
  2:{ intros j Hj. rewrite Csum_scal, ortho by auto. reflexivity. }
  rewrite (Csum_single n _ k Hk) by (intros j Hj Hjl; cbv beta; destruct (Nat.eq_dec k j) as [E|]; [congruence|ring]).
  destruct (Nat.eq_dec k k); [|contradiction].
  replace (/ INR n * (X k * INR n))%C with (X k * (/ INR n * INR n))%C by ring. rewrite inv_n by lia. ring.
Qed.

(** squared modulus *)
Definition sq (z : C) : R := fst z * fst z + snd z * snd z.
Lemma sq_conj z : (z * Cconj z)%C = RtoC (sq z).
Proof. apply C_eq; unfold sq; cbn; ring. Qed.
Theorem Parseval n x : (0 < n)%nat ->
  Csum n (fun k => RtoC (sq (DF n x k))) = (INR n * Csum n (fun j => RtoC (sq (x j))))%C.
Proof.
  intros Hn.
  rewrite (Csum_ext n _ (fun k => Csum n (fun l => Cconj (x l) * (DF n x k * tw 1 n k l)))%C).
  2:{ intros k Hk. rewrite <- sq_conj. unfold DF at 2. rewrite Csum_conj, <- Csum_scal. apply Csum_ext.
      intros l Hl. rewrite Cconj_mult, tw_conj', tw_sym. ring. }
  rewrite Csum_swap.
  rewrite (Csum_ext n _ (fun l => INR n * RtoC (sq (x l)))%C).
  - apply Csum_scal.
  - intros l Hl. rewrite Csum_scal. rewrite <- sq_conj.
    assert (E := DFT_inversion n x l Hl). unfold IDF in E.
    replace (Csum n (fun k => DF n x k * tw 1 n k l)%C) with (INR n * x l)%C; [ring|].
    rewrite <- E at 1. rewrite Cmult_assoc, (Cmult_comm (INR n)), inv_n by auto. ring.
Qed.

(** a real signal has a Hermitian spectrum *)
Lemma DF_hermitian n x k : (0 < n)%nat -> (k <= n)%nat -> (forall j, (j < n)%nat -> snd (x j) = 0) ->
  DF n x (n - k) = Cconj (DF n x k).
Proof.
  intros Hn Hk Hr. unfold DF. rewrite Csum_conj. apply Csum_ext. intros j Hj.
  rewrite Cconj_mult, tw_conj', tw_mirror by auto. f_equal. apply C_eq; cbn; [auto|]. rewrite Hr by auto. ring.
Qed.
(** a Hermitian spectrum belongs to a real signal *)
Lemma IDF_real n X l : (0 < n)%nat ->
  snd (X 0%nat) = 0 -> (forall k, (1 <= k < n)%nat -> X (n - k)%nat = Cconj (X k)) -> snd (IDF n X l) = 0.
Proof.
  intros Hn H0 HX.
  assert (E : Cconj (Csum n (fun k => X k * tw 1 n k l)%C) = Csum n (fun k => X k * tw 1 n k l)%C).
  { rewrite Csum_conj. destruct n as [|m]; [lia|]. rewrite !Csum_shift. f_equal.
    - rewrite !tw_0. apply C_eq; cbn; rewrite H0; ring.
    - rewrite (Csum_rev m (fun k => X (S k) * tw 1 (S m) (S k) l)%C). apply Csum_ext. intros k Hk.
      replace (S (m - 1 - k)) with (S m - S k)%nat by lia. rewrite Cconj_mult, <- HX by lia. f_equal.
      rewrite tw_conj, (tw_sym 1), tw_mirror', tw_sym by lia. reflexivity. }
  unfold IDF. assert (Hs : snd (Csum n (fun k => (X k * tw 1 n k l)%C)) = 0).
  { apply (f_equal snd) in E. cbn in E. lra. }
  rewrite <- RtoC_inv by (apply not_0_INR; lia). cbn. cbn in Hs. rewrite Hs. ring.
Qed.
