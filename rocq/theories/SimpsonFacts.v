(** * Simpson's rule over the reals, and the model's [simpson] as its float image *)

From Coq Require Import Reals ZArith List Bool Lra Lia.
From Coquelicot Require Import Coquelicot.
From Verif Require Import Num XR Spec XRFacts RSum WaveModel.
Import ListNotations.
Open Scope R_scope.

(** parabola through three points, integrated over both intervals *)
Definition rpanel (x0 x1 x2 y0 y1 y2 : R) : R :=
  let h0 := x1 - x0 in let h1 := x2 - x1 in
  (h0 + h1) / 6 * (y0 * (2 - h1 / h0) + y1 * ((h0 + h1) * ((h0 + h1) / (h0 * h1))) + y2 * (2 - h0 / h1)).
Fixpoint rbasic (x y : list R) : R :=
  match x, y with
  | x0 :: x1 :: ((x2 :: _) as x'), y0 :: y1 :: ((y2 :: _) as y') => rpanel x0 x1 x2 y0 y1 y2 + rbasic x' y'
  | _, _ => 0
  end.
(** the same parabola, integrated over the second interval only *)
Definition rlast (x0 x1 x2 y0 y1 y2 : R) : R :=
  let h0 := x1 - x0 in let h1 := x2 - x1 in
  (2 * (h1 * h1) + 3 * h0 * h1) / (6 * (h1 + h0)) * y2 + (h1 * h1 + 3 * h0 * h1) / (6 * h0) * y1
  - h1 * h1 * h1 / (6 * h0 * (h0 + h1)) * y0.
Definition rsimp (x y : list R) : R :=
  let n := length x in
  if Nat.odd n then rbasic x y
  else if Nat.eqb n 2 then 1 / 2 * (nth 1 x 0 - nth 0 x 0) * (nth 1 y 0 + nth 0 y 0)
  else rbasic x y + rlast (nth (n - 3) x 0) (nth (n - 2) x 0) (nth (n - 1) x 0)
                          (nth (n - 3) y 0) (nth (n - 2) y 0) (nth (n - 1) y 0).

Lemma sdiv_F a b : b <> 0 -> sdiv (N:=NX) (Fin a) (Fin b) = Fin (a / b).
Proof. intros H. unfold sdiv. rewrite fin_0, fin_eqb, Reqb_false, fin_div by auto. reflexivity. Qed.
Lemma simpson_panel_F x0 x1 x2 y0 y1 y2 : x0 < x1 < x2 ->
  simpson_panel (N:=NX) (Fin x0) (Fin x1) (Fin x2) (Fin y0) (Fin y1) (Fin y2) = Fin (rpanel x0 x1 x2 y0 y1 y2).
Proof.
  intros H. unfold simpson_panel. rewrite fin_1, !fin_ofZ, !fin_sub, !fin_add, !fin_mul.
  rewrite (sdiv_F (x1 - x0) (x2 - x1)) by lra.
  rewrite (sdiv_F 1) by (apply Rgt_not_eq, Rdiv_lt_0_compat; lra).
  rewrite (sdiv_F _ ((x1 - x0) * (x2 - x1))) by nra.
  rewrite !fin_div by lra. rewrite !fin_sub, !fin_mul, !fin_add, !fin_mul. f_equal. unfold rpanel. field. lra.
Qed.
Lemma cartwright_F x0 x1 x2 y0 y1 y2 : x0 < x1 < x2 ->
  cartwright (N:=NX) (Fin x0) (Fin x1) (Fin x2) (Fin y0) (Fin y1) (Fin y2) = Fin (rlast x0 x1 x2 y0 y1 y2).
Proof.
  intros H. unfold cartwright. rewrite !fin_ofZ, !fin_sub, !fin_mul, !fin_add, !fin_mul.
  rewrite (sdiv_F _ (6 * (x2 - x1 + (x1 - x0)))) by lra.
  rewrite (sdiv_F _ (6 * (x1 - x0))) by lra.
  rewrite (sdiv_F _ (6 * (x1 - x0) * (x1 - x0 + (x2 - x1)))) by nra. reflexivity.
Qed.

Lemma increasing_tl a l : increasing (a :: l) -> increasing l.
Proof. intros H i j Hij. apply (H (S i) (S j)). cbn; lia. Qed.

Lemma basic_simpson_F n : forall x y, (length x <= n)%nat -> increasing x -> length x = length y ->
  basic_simpson (N:=NX) (F x) (F y) = Fin (rbasic x y).
Proof.
  induction n as [n IH] using lt_wf_ind. intros x y Hn Hx Hl.
  destruct x as [|x0 [|x1 [|x2 x]]]; destruct y as [|y0 [|y1 [|y2 y]]]; cbn in Hl; try lia; try reflexivity.
  change (F (x0 :: x1 :: x2 :: x)) with (Fin x0 :: Fin x1 :: F (x2 :: x)).
  change (F (y0 :: y1 :: y2 :: y)) with (Fin y0 :: Fin y1 :: F (y2 :: y)).
  assert (E : forall a b l c d l', basic_simpson (N:=NX) (a :: b :: F (x2 :: l)) (c :: d :: F (y2 :: l'))
     = nadd (n:=NX) (simpson_panel (N:=NX) a b (Fin x2) c d (Fin y2)) (basic_simpson (N:=NX) (F (x2 :: l)) (F (y2 :: l')))) by reflexivity.
  rewrite E. cbn [length] in Hn. rewrite (IH (n - 2)%nat); [|lia|cbn [length]; lia| |cbn in *; lia].
  2:{ apply increasing_tl, increasing_tl in Hx. exact Hx. }
  rewrite simpson_panel_F; [reflexivity|].
  split; [apply (Hx 0%nat 1%nat)|apply (Hx 1%nat 2%nat)]; cbn; lia.
Qed.
Lemma rev_nth' {A} (l : list A) d k : (k < length l)%nat -> nth k (rev l) d = nth (length l - 1 - k) l d.
Proof. intros H. rewrite rev_nth by auto. f_equal. lia. Qed.
Lemma simpson_F x y : x <> [] -> increasing x -> length x = length y -> simpson (N:=NX) (F y) (F x) = Ok (Fin (rsimp x y)).
Proof.
  intros Hne Hx Hl. unfold simpson. rewrite !F_length, Hl, Nat.eqb_refl. cbn [negb]. unfold rsimp. rewrite Hl.
  destruct (Nat.odd (length y)) eqn:Ho; [rewrite (basic_simpson_F (length x)); auto|].
  rewrite <- !F_rev.
  assert (L : length (rev x) = length x) by apply rev_length. assert (L' : length (rev y) = length y) by apply rev_length.
  assert (Nx : forall k, (k < length x)%nat -> nth k (rev x) 0 = nth (length x - 1 - k) x 0) by (intros; apply rev_nth'; auto).
  assert (Ny : forall k, (k < length y)%nat -> nth k (rev y) 0 = nth (length y - 1 - k) y 0) by (intros; apply rev_nth'; auto).
  destruct (rev x) as [|x2 [|x1 [|x0 rx]]] eqn:Ex.
  - destruct x; [contradiction|cbn in *; lia].
  - rewrite <- Hl, <- L in Ho. discriminate.
  - destruct (rev y) as [|y2 [|y1 [|]]]; cbn [length] in *; try lia. cbn [F map].
    rewrite <- L'. cbn [Nat.eqb].
    assert (A := Nx 0%nat ltac:(lia)). assert (B := Nx 1%nat ltac:(lia)). assert (C := Ny 0%nat ltac:(lia)). assert (D := Ny 1%nat ltac:(lia)).
    rewrite <- L in A, B. rewrite <- L' in C, D. cbn in A, B, C, D. rewrite <- A, <- B, <- C, <- D.
    rewrite fin_lit by lra. rewrite fin_sub, fin_add, !fin_mul. do 2 f_equal. 
  - destruct (rev y) as [|y2 [|y1 [|y0 ry]]]; cbn [length] in *; try lia. cbn [F map].
    destruct (Nat.eqb_spec (length y) 2); [lia|].
    rewrite (basic_simpson_F (length x)) by auto.
    assert (A := Nx 0%nat ltac:(lia)). assert (B := Nx 1%nat ltac:(lia)). assert (C := Nx 2%nat ltac:(lia)).
    assert (A' := Ny 0%nat ltac:(lia)). assert (B' := Ny 1%nat ltac:(lia)). assert (C' := Ny 2%nat ltac:(lia)).
    cbn [nth] in A, B, C, A', B', C'.
    rewrite cartwright_F.
    + rewrite fin_add. do 3 f_equal. rewrite A, B, C, A', B', C', Hl. do 2 f_equal; lia.
    + rewrite A, B, C. split; apply Hx; lia.
Qed.

(** linear *)
Definition lc (a b : R) (y z : list R) : list R := map2 (fun u v => a * u + b * v) y z.
Lemma lc_nth a b y z k : length y = length z -> nth k (lc a b y z) 0 = a * nth k y 0 + b * nth k z 0.
Proof.
  intros H. unfold lc. destruct (Nat.lt_ge_cases k (length y)).
  - rewrite (map2_nth _ _ _ _ 0 0 0) by lia. reflexivity.
  - rewrite !nth_overflow; rewrite ?map2_length; try lia. ring.
Qed.
Lemma lc_length a b y z : length y = length z -> length (lc a b y z) = length y.
Proof. intros H. unfold lc. rewrite map2_length. lia. Qed.
Lemma rbasic_lin a b n : forall x y z, (length x <= n)%nat -> length x = length y -> length y = length z ->
  rbasic x (lc a b y z) = a * rbasic x y + b * rbasic x z.
Proof.
  induction n as [n IH] using lt_wf_ind. intros x y z Hn Hl Hl'.
  destruct x as [|x0 [|x1 [|x2 x]]]; destruct y as [|y0 [|y1 [|y2 y]]]; cbn in Hl; try lia;
    destruct z as [|z0 [|z1 [|z2 z]]]; cbn in Hl'; try lia; try (cbn; ring).
  change (lc a b (y0 :: y1 :: y2 :: y) (z0 :: z1 :: z2 :: z)) with
    ((a * y0 + b * z0) :: (a * y1 + b * z1) :: lc a b (y2 :: y) (z2 :: z)).
  assert (E : forall u0 u1 u2 u, rbasic (x0 :: x1 :: x2 :: x) (u0 :: u1 :: u2 :: u)
    = rpanel x0 x1 x2 u0 u1 u2 + rbasic (x2 :: x) (u2 :: u)) by reflexivity.
  rewrite !E. change (lc a b (y2 :: y) (z2 :: z)) with ((a * y2 + b * z2) :: lc a b y z). rewrite E.
  change ((a * y2 + b * z2) :: lc a b y z) with (lc a b (y2 :: y) (z2 :: z)).
  cbn [length] in Hn. rewrite (IH (n - 2)%nat); cbn [length]; try lia. unfold rpanel. ring.
Qed.
Lemma rsimp_lin a b x y z : length x = length y -> length y = length z ->
  rsimp x (lc a b y z) = a * rsimp x y + b * rsimp x z.
Proof.
  intros Hl Hl'. unfold rsimp. destruct (Nat.odd _); [apply (rbasic_lin a b (length x)); auto|].
  rewrite !lc_nth by auto. destruct (Nat.eqb _ _); [ring|]. rewrite (rbasic_lin a b (length x)) by auto.
  unfold rlast. ring.
Qed.

(** exact for parabolas *)
Definition quad (a b c x : R) : R := a * x ^ 2 + b * x + c.
Definition quadI (a b c x : R) : R := a * x ^ 3 / 3 + b * x ^ 2 / 2 + c * x.
Lemma quad_RInt a b c u v : is_RInt (quad a b c) u v (quadI a b c v - quadI a b c u).
Proof.
  apply (is_RInt_derive (quadI a b c) (quad a b c)).
  - intros x _. unfold quadI, quad. auto_derive; [auto|]. field.
  - intros x _. apply (ex_derive_continuous (quad a b c)). unfold quad. auto_derive. auto.
Qed.
Lemma rpanel_quad a b c x0 x1 x2 : x0 < x1 < x2 ->
  rpanel x0 x1 x2 (quad a b c x0) (quad a b c x1) (quad a b c x2) = quadI a b c x2 - quadI a b c x0.
Proof. intros H. unfold rpanel, quad, quadI. field. lra. Qed.
Lemma rlast_quad a b c x0 x1 x2 : x0 < x1 < x2 ->
  rlast x0 x1 x2 (quad a b c x0) (quad a b c x1) (quad a b c x2) = quadI a b c x2 - quadI a b c x1.
Proof. intros H. unfold rlast, quad, quadI. field. lra. Qed.
Lemma odd_SS n : Nat.odd (S (S n)) = Nat.odd n.
Proof. reflexivity. Qed.
Lemma rbasic_quad a b c n : forall x, (length x <= n)%nat -> increasing x -> x <> [] ->
  rbasic x (map (quad a b c) x) = quadI a b c (nth (length x - (if Nat.odd (length x) then 1 else 2)) x 0) - quadI a b c (nth 0 x 0).
Proof.
  induction n as [n IH] using lt_wf_ind. intros x Hn Hx Hne.
  destruct x as [|x0 [|x1 [|x2 x]]]; [contradiction|cbn; lra|cbn; lra|].
  assert (E : forall u0 u1 u2 u, rbasic (x0 :: x1 :: x2 :: x) (u0 :: u1 :: u2 :: u)
    = rpanel x0 x1 x2 u0 u1 u2 + rbasic (x2 :: x) (u2 :: u)) by reflexivity.
  cbn [map]. rewrite E. change (quad a b c x2 :: map (quad a b c) x) with (map (quad a b c) (x2 :: x)).
  cbn [length] in Hn. rewrite (IH (n - 2)%nat); [|lia|cbn [length]; lia|apply increasing_tl, increasing_tl in Hx; exact Hx|discriminate].
  rewrite rpanel_quad by (split; [apply (Hx 0%nat 1%nat)|apply (Hx 1%nat 2%nat)]; cbn; lia).
  cbn [length]. rewrite odd_SS. set (o := if Nat.odd (S (length x)) then 1%nat else 2%nat).
  assert (Ho : (o <= 2 /\ 1 <= o /\ (o = 2 -> 1 <= length x))%nat).
  { unfold o. destruct (Nat.odd _) eqn:Eo; [lia|]. destruct x; [discriminate|cbn; lia]. }
  replace (nth (S (S (S (length x))) - o) (x0 :: x1 :: x2 :: x) 0) with (nth (S (length x) - o) (x2 :: x) 0).
  - cbn [nth]. lra.
  - replace (S (S (S (length x))) - o)%nat with (S (S (S (length x) - o))) by lia. reflexivity.
Qed.
Lemma map_quad_nth a b c x k : (k < length x)%nat -> nth k (map (quad a b c) x) 0 = quad a b c (nth k x 0).
Proof. intros H. rewrite (nth_indep _ 0 (quad a b c 0)) by (rewrite map_length; auto). apply map_nth. Qed.
Lemma rsimp_quad a b c x : increasing x -> x <> [] -> (length x = 2%nat -> a = 0) ->
  rsimp x (map (quad a b c) x) = quadI a b c (nth (length x - 1) x 0) - quadI a b c (nth 0 x 0).
Proof.
  intros Hx Hne H2. unfold rsimp. assert (B := rbasic_quad a b c (length x) x (le_n _) Hx Hne).
  destruct (Nat.odd (length x)) eqn:Ho; [exact B|]. destruct (Nat.eqb_spec (length x) 2).
  - rewrite !map_quad_nth by lia. rewrite H2 by auto. replace (length x - 1)%nat with 1%nat by lia. unfold quad, quadI. field.
  - rewrite B. assert ((4 <= length x)%nat).
    { destruct x as [|? [|? [|? [|]]]]; cbn in *; try lia; try contradiction; discriminate. }
    rewrite !map_quad_nth by lia. rewrite rlast_quad by (split; apply Hx; lia). lra.
Qed.

(** composite Simpson on a uniform grid with an odd number of points *)
Lemma rbasic_uniform h n : forall m x0 y, (m <= n)%nat -> 0 < h -> (length y = 2 * m + 1 \/ length y = 2 * m + 2)%nat ->
  rbasic (axis x0 h (length y)) y = h / 3 * RS m (fun p => nth (2 * p) y 0 + 4 * nth (2 * p + 1) y 0 + nth (2 * p + 2) y 0).
Proof.
  induction n as [|n IH]; intros m x0 y Hm Hh Hl.
  - replace m with 0%nat in * by lia. rewrite RS_0. destruct y as [|y0 [|y1 [|]]]; cbn in Hl; try lia; cbn; lra.
  - destruct m as [|m]; [rewrite RS_0; destruct y as [|y0 [|y1 [|]]]; cbn in Hl; try lia; cbn; lra|].
    destruct y as [|y0 [|y1 [|y2 y]]]; cbn [length] in Hl; try lia.
    assert (Ea : axis x0 h (length (y0 :: y1 :: y2 :: y)) = x0 :: (x0 + h) :: (x0 + 2 * h) :: map (fun k => x0 + INR k * h) (seq 3 (length y))).
    { unfold axis. cbn [length seq map]. apply f_equal2; [cbn; ring|]. apply f_equal2; [cbn; ring|]. apply f_equal2; [cbn; ring|reflexivity]. }
    assert (Eb : axis (x0 + 2 * h) h (length (y2 :: y)) = (x0 + 2 * h) :: map (fun k => x0 + INR k * h) (seq 3 (length y))).
    { unfold axis. cbn [length seq map]. apply f_equal2; [cbn; ring|].
      rewrite <- (seq_shift (length y) 2), <- (seq_shift (length y) 1), !map_map. apply map_ext. intros k. rewrite !S_INR. ring. }
    rewrite Ea.
    change (rbasic _ _) with (rpanel x0 (x0 + h) (x0 + 2 * h) y0 y1 y2
      + rbasic ((x0 + 2 * h) :: map (fun k => x0 + INR k * h) (seq 3 (length y))) (y2 :: y)).
    rewrite <- Eb. rewrite (IH m); [|lia|auto|cbn [length]; lia]. rewrite RS_shift.
    replace (rpanel x0 (x0 + h) (x0 + 2 * h) y0 y1 y2) with (h / 3 * (y0 + 4 * y1 + y2)).
    2:{ unfold rpanel. field. lra. }
    rewrite (Rmult_plus_distr_l (h / 3) _ (RS m _)). apply f_equal2; [reflexivity|]. f_equal. apply RS_ext. intros k Hk.
    replace (2 * S k)%nat with (S (S (2 * k))) by lia. replace (S (S (2 * k)) + 1)%nat with (S (S (2 * k + 1))) by lia.
    replace (S (S (2 * k)) + 2)%nat with (S (S (2 * k + 2))) by lia. reflexivity.
Qed.
Lemma RS_ge_panel m (y : nat -> R) k : (forall j, 0 <= y j) -> (0 < m)%nat -> (k <= 2 * m)%nat ->
  y k <= RS m (fun p => y (2 * p)%nat + 4 * y (2 * p + 1)%nat + y (2 * p + 2)%nat).
Proof.
  intros Hy Hm Hk. set (g := fun p => y (2 * p)%nat + 4 * y (2 * p + 1)%nat + y (2 * p + 2)%nat).
  assert (Hg : forall p, 0 <= g p) by (intros p; unfold g; assert (A := Hy (2 * p)%nat); assert (B := Hy (2 * p + 1)%nat);
    assert (C := Hy (2 * p + 2)%nat); lra).
  assert (exists p, (p < m)%nat /\ y k <= g p) as (p & Hp & Hle).
  { destruct (Nat.eq_dec k 0) as [->|].
    - exists 0%nat. split; [auto|]. unfold g. cbn [Nat.mul Nat.add]. assert (B := Hy 1%nat). assert (C := Hy 2%nat). lra.
    - exists ((k - 1) / 2)%nat. assert (D := Nat.div_mod (k - 1) 2 ltac:(lia)). assert (M := Nat.mod_upper_bound (k - 1) 2 ltac:(lia)).
      set (q := ((k - 1) / 2)%nat) in *. split; [lia|].
      assert (A := Hy (2 * q)%nat). assert (B := Hy (2 * q + 1)%nat). assert (C := Hy (2 * q + 2)%nat). unfold g.
      assert (K : (k = 2 * q + 1 \/ k = 2 * q + 2)%nat) by lia. destruct K as [K|K]; rewrite K; lra. }
  apply Rle_trans with (g p); [auto|]. apply (RS_term m g p); auto.
Qed.
Lemma axis_split x0 h n k : (k <= n)%nat -> axis x0 h n = axis x0 h k ++ map (fun j => x0 + INR j * h) (seq k (n - k)).
Proof. intros H. unfold axis. replace n with (k + (n - k))%nat at 1 by lia. rewrite seq_app, map_app. reflexivity. Qed.
(** each sample contributes at least a third of the grid step *)
Lemma rsimp_lower x0 h y k : 0 < h -> (2 <= length y)%nat -> (forall j, (j < length y)%nat -> 0 <= nth j y 0) ->
  (k < length y)%nat -> h / 3 * nth k y 0 <= rsimp (axis x0 h (length y)) y.
Proof.
  intros Hh Hn Hy Hk. assert (Hy' : forall j, 0 <= nth j y 0).
  { intros j. destruct (Nat.lt_ge_cases j (length y)); auto. rewrite nth_overflow; auto; lra. }
  unfold rsimp. rewrite axis_length. destruct (Nat.odd (length y)) eqn:Ho.
  - apply Nat.odd_spec in Ho as [m Em]. rewrite (rbasic_uniform h m m) by (auto; lia).
    apply Rmult_le_compat_l; [lra|]. apply (RS_ge_panel m (fun j => nth j y 0)); auto; lia.
  - assert (He : Nat.even (length y) = true) by (rewrite <- Nat.negb_odd, Ho; auto). apply Nat.even_spec in He as [m Em].
    destruct (Nat.eqb_spec (length y) 2) as [E2|N2].
    + rewrite !axis_nth by lia. cbn [INR]. assert (A := Hy' 0%nat). assert (B := Hy' 1%nat).
      assert (K : (k = 0 \/ k = 1)%nat) by lia. destruct K; subst k; nra.
    + destruct m as [|m]; [lia|]. destruct m as [|m]; [lia|].
      rewrite (rbasic_uniform h (S m) (S m)) by (auto; lia). rewrite !axis_nth by lia.
      rewrite RS_S. set (g := fun p => nth (2 * p) y 0 + 4 * nth (2 * p + 1) y 0 + nth (2 * p + 2) y 0).
      change (nth (2 * m) y 0 + 4 * nth (2 * m + 1) y 0 + nth (2 * m + 2) y 0) with (g m).
      replace (length y - 3)%nat with (2 * m + 1)%nat by lia. replace (length y - 2)%nat with (2 * m + 2)%nat by lia.
      replace (length y - 1)%nat with (2 * m + 3)%nat by lia.
      set (y0 := nth (2 * m + 1) y 0). set (y1 := nth (2 * m + 2) y 0). set (y2 := nth (2 * m + 3) y 0).
      assert (L : rlast (x0 + INR (2 * m + 1) * h) (x0 + INR (2 * m + 2) * h) (x0 + INR (2 * m + 3) * h) y0 y1 y2
                 = h * (5 / 12 * y2 + 2 / 3 * y1 - 1 / 12 * y0)).
      { rewrite !plus_INR. cbn [INR]. unfold rlast. field.
        replace (x0 + (INR (2 * m) + (1 + 1)) * h - (x0 + (INR (2 * m) + 1) * h)) with h by ring.
        replace (x0 + (INR (2 * m) + (1 + 1 + 1)) * h - (x0 + (INR (2 * m) + (1 + 1)) * h)) with h by ring. lra. }
      rewrite L.
      assert (G : forall p, 0 <= g p) by (intros p; unfold g; assert (A := Hy' (2 * p)%nat); assert (B := Hy' (2 * p + 1)%nat);
        assert (C := Hy' (2 * p + 2)%nat); lra).
      assert (R0 : 0 <= RS m g) by (apply RS_nonneg; auto).
      assert (Y0 : 0 <= y0) by apply Hy'. assert (Y1 : 0 <= y1) by apply Hy'. assert (Y2 : 0 <= y2) by apply Hy'.
      assert (Gm : nth (2 * m) y 0 + 4 * y0 + y1 = g m) by reflexivity. assert (Yz := Hy' (2 * m)%nat).
      replace (h / 3 * (RS m g + g m) + h * (5 / 12 * y2 + 2 / 3 * y1 - 1 / 12 * y0))
        with (h / 3 * (RS m g + (nth (2 * m) y 0 + 15 / 4 * y0 + 3 * y1 + 5 / 4 * y2))) by (rewrite <- Gm; field).
      apply Rmult_le_compat_l; [lra|].
      destruct (Nat.le_gt_cases k (2 * m)).
      * destruct (Nat.eq_dec k (2 * m)) as [->|]; [lra|].
        assert (P : nth k y 0 <= RS m g) by (apply (RS_ge_panel m (fun j => nth j y 0) k Hy'); lia). lra.
      * assert (K : (k = 2 * m + 1 \/ k = 2 * m + 2 \/ k = 2 * m + 3)%nat) by lia.
        destruct K as [K|[K|K]]; subst k; fold y0 y1 y2; lra.
Qed.
Lemma rsimp_nonneg x0 h y : 0 < h -> (forall j, (j < length y)%nat -> 0 <= nth j y 0) -> 0 <= rsimp (axis x0 h (length y)) y.
Proof.
  intros Hh Hy. destruct (Nat.lt_ge_cases (length y) 2).
  - destruct y as [|y0 [|]]; [| |cbn in *; lia].
    + unfold rsimp, rlast. cbn. lra.
    + unfold rsimp. cbn. lra.
  - assert (L := rsimp_lower x0 h y 0 Hh ltac:(lia) Hy ltac:(lia)). assert (A := Hy 0%nat ltac:(lia)). 
    assert (0 <= h / 3 * nth 0 y 0) by (apply Rmult_le_pos; lra). lra.
Qed.
