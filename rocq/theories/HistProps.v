(** * Call histories of a Spectrum object: C41 (getters), C42 (cached attributes) *)

From Coq Require Import Reals ZArith List Bool Lra Lia.
From Verif Require Import Num XR Spec XRFacts RSum Engine EngineProps FourierSpec TimeProps SeriesProps FourierFacts BandProps
  WaveModel SpectrumModel SimpsonFacts MomentProps PeakProps ParamProps.
Import ListNotations.
Open Scope R_scope.

(** ** Specification *)

(** what a call returns on an object with a given history, and on a newly created object *)
Definition returns (f S : list (car NX)) (history : list (spec_call NX)) (c : spec_call NX) : res (car NX) :=
  snd (spec_step c (spec_run history (fresh f S))).

(** the getters that use nothing but their arguments *)
Definition plain (c : spec_call NX) : Prop :=
  match c with
  | CHm0 _ _ | CTps _ _ | CTp _ _ | CTmm10 _ _ | CTm01 _ _ | CTm02 _ _ => True
  | CHm0_HF a _ | CTmm10_HF a _ => a <> Fin (-1)          (* explicit cut-off frequency *)
  | CHm0_LF _ b | CTmm10_LF _ b => b <> Fin (-1)
  | _ => False
  end.
Definition is_Hm0 (c : spec_call NX) := match c with CHm0 _ _ => True | _ => False end.
Definition is_Tps (c : spec_call NX) := match c with CTps _ _ => True | _ => False end.
Definition is_Tmm10 (c : spec_call NX) := match c with CTmm10 _ _ => True | _ => False end.
Definition is_Hm0_HF (c : spec_call NX) := match c with CHm0_HF _ _ => True | _ => False end.
Definition is_Tmm10_HF (c : spec_call NX) := match c with CTmm10_HF _ _ => True | _ => False end.
(** the most recent call of a kind in a history *)
Definition last_call (kind : spec_call NX -> Prop) (c : spec_call NX) (before after : list (spec_call NX)) (history : list (spec_call NX)) : Prop :=
  history = before ++ c :: after /\ kind c /\ forall d, In d after -> ~ kind d.

(** ** The object never changes its axis and density *)
Lemma keeps (c : spec_call NX) (sp : spec NX) : s_f (fst (spec_step c sp)) = s_f sp /\ s_S (fst (spec_step c sp)) = s_S sp.
Proof.
  assert (G : forall v st a b (q : spec NX), (forall x q', s_f (st x q') = s_f q' /\ s_S (st x q') = s_S q') ->
     s_f (fst (getter v st a b q)) = s_f q /\ s_S (fst (getter v st a b q)) = s_S q).
  { intros v st a b q Hst. unfold getter, mbind, mget, mlift, mset. destruct (v _ _ a b); cbn; auto. }
  assert (C : forall (v : car NX) (q : spec NX), s_f (fst (default_cutoff v q)) = s_f q /\ s_S (fst (default_cutoff v q)) = s_S q).
  { intros v q. unfold default_cutoff, cutoff. destruct (neqb v _); [|cbn; auto]. unfold mbind, ensure, attr, mret.
    destruct (s_Tmm10 q) eqn:E; [cbn; rewrite E; cbn; auto|].
    assert (W := G v_Tmm10 set_Tmm10 (nopp (n:=NX) n1) (nopp (n:=NX) n1) q ltac:(intros; cbn; auto)). fold (get_Tmm10 (N:=NX)) in W.
    destruct (get_Tmm10 _ _ q) as [q' [x|e]]; cbn in *; [destruct (s_Tmm10 q'); auto|auto]. }
  assert (B : forall m (k : car NX -> meth (N:=NX) (car NX)) (q : spec NX), (s_f (fst (m q)) = s_f q /\ s_S (fst (m q)) = s_S q) ->
     (forall x q', s_f (fst (k x q')) = s_f q' /\ s_S (fst (k x q')) = s_S q') -> s_f (fst (mbind m k q)) = s_f q /\ s_S (fst (mbind m k q)) = s_S q).
  { intros m k q Hm Hk. unfold mbind. destruct (m q) as [q' [x|e]]; cbn in *; [|auto]. destruct (Hk x q'). destruct Hm. split; congruence. }
  assert (En : forall g m (q : spec NX), (s_f (fst (m q)) = s_f q /\ s_S (fst (m q)) = s_S q) -> s_f (fst (ensure g m q)) = s_f q /\ s_S (fst (ensure g m q)) = s_S q).
  { intros g m q Hm. unfold ensure. destruct (g q); cbn; auto. }
  assert (HF : forall v st a b (q : spec NX), (forall x q', s_f (st x q') = s_f q' /\ s_S (st x q') = s_S q') ->
     s_f (fst (mbind (default_cutoff a) (fun a' => getter v st a' b) q)) = s_f q /\ s_S (fst (mbind (default_cutoff a) (fun a' => getter v st a' b) q)) = s_S q).
  { intros. apply B; [apply C|]. intros; apply G; auto. }
  destruct c; cbn [spec_step]; try (apply G; intros; cbn; auto); try (apply HF; intros; cbn; auto);
    try (apply B; [apply C|]; intros; apply G; intros; cbn; auto).
  all: apply B; [apply En; try (apply G; intros; cbn; auto); try (apply HF; intros; cbn; auto)|intros; 
       apply B; [apply En; try (apply G; intros; cbn; auto); try (apply HF; intros; cbn; auto)|intros; 
       apply B; [cbn; auto|intros; apply B; [cbn; auto|intros; cbn; auto]]]].
Qed.
Lemma run_keeps history (sp : spec NX) : s_f (spec_run history sp) = s_f sp /\ s_S (spec_run history sp) = s_S sp.
Proof.
  revert sp. induction history as [|c cs IH]; intros sp; [cbn; auto|]. cbn [spec_run fold_left].
  destruct (IH (fst (spec_step c sp))) as [A B]. destruct (keeps c sp). unfold spec_run in *. split; congruence.
Qed.

Theorem C41_history_independent (f S : list (car NX)) (history : list (spec_call NX)) (c : spec_call NX) :
  plain c -> returns f S history c = returns f S [] c.
Proof.
  intros Hp. unfold returns. cbn [spec_run fold_left]. set (sp := spec_run history (fresh f S)).
  destruct (run_keeps history (fresh f S)) as [Ef Es]. cbn in Ef, Es. fold sp in Ef, Es.
  assert (G : forall v st a b, snd (getter v st a b sp) = snd (getter v st a b (fresh (N:=NX) f S))).
  { intros. unfold getter, mbind, mget, mlift, mset. rewrite Ef, Es. cbn. destruct (v _ _ a b); reflexivity. }
  assert (D : forall v (q : spec NX), v <> Fin (-1) -> default_cutoff v q = (q, Ok v)).
  { intros v q Hv. unfold default_cutoff. change (nopp (n:=NX) n1) with (Fin (-1)). destruct (neqb v (Fin (-1))) eqn:E; [|reflexivity].
    apply neqb_m1 in E. contradiction. }
  destruct c; cbn [plain] in Hp; try contradiction; cbn [spec_step]; try apply G;
    unfold get_Hm0_HF, get_Hm0_LF, get_Tmm10_HF, get_Tmm10_LF; unfold mbind; rewrite !D by auto; apply G.
Qed.
Theorem C41_object_unchanged (f S : list (car NX)) (history : list (spec_call NX)) :
  s_f (spec_run history (fresh f S)) = f /\ s_S (spec_run history (fresh f S)) = S.
Proof. apply (run_keeps history (fresh f S)). Qed.

Example C41_witness :
  plain (CTp (Fin (1/2)) (Fin (-1)))
  /\ returns (F [0; 1; 2; 3]) (F [9; 5; 5; 4])
       [Cs0p (Fin (-1)) (Fin (-1)) (Fin 9.81); CHm0_HF (Fin (-1)) (Fin 2); CTp (Fin 0) (Fin 1)]
       (CTp (Fin (1/2)) (Fin (-1))) = Ok (Fin (1 / 2)).
Proof.
  split; [exact I|]. rewrite C41_history_independent by exact I. unfold returns. cbn [spec_run fold_left spec_step].
  destruct C35_witness as (Hg & Hlo & Hhi & Hb & Hp).
  destruct (C35_peak_period [0; 1; 2; 3] [9; 5; 5; 4] _ _ _ _ (fresh (F [0; 1; 2; 3]) (F [9; 5; 5; 4]))
              eq_refl eq_refl Hg eq_refl Hlo Hhi (ex_intro _ _ Hb)) as (k & (K1 & K2 & K3) & ->).
  assert (k = 2)%nat as ->.
  { destruct Hp as (P1 & P2 & P3). destruct (Nat.lt_total k 2) as [H|[H|H]]; auto; exfalso.
    - specialize (K3 2%nat P1 H). specialize (P2 k K1). lra.
    - specialize (P3 k K1 H). specialize (K2 2%nat P1). lra. }
  unfold recip. cbn [nth]. destruct (Req_EM_T 2 0); [lra|reflexivity].
Qed.

(** ** Cached attributes *)

(** a predicate on objects kept by a method *)
Definition kept (P : spec NX -> Prop) {A} (m : meth (N:=NX) A) : Prop := forall q, P q -> P (fst (m q)).
Lemma kept_bind (P : spec NX -> Prop) {A B} (m : meth (N:=NX) A) (k : A -> meth (N:=NX) B) : kept P m -> (forall x, kept P (k x)) -> kept P (mbind m k).
Proof. intros Hm Hk q Hq. specialize (Hm q Hq). unfold mbind. destruct (m q) as [q' [x|e]]; cbn in *; [apply Hk; auto|auto]. Qed.
Lemma kept_getter (P : spec NX -> Prop) v st a b : (forall x q, P q -> P (st x q)) -> kept P (getter v st a b).
Proof. intros Hs q Hq. unfold getter, mbind, mget, mlift, mset. destruct (v _ _ a b); cbn; auto. Qed.
Lemma kept_ensure (P : spec NX -> Prop) g m : (forall q, P q -> g q = None -> P (fst (m q))) -> kept P (ensure g m).
Proof. intros Hm q Hq. unfold ensure. destruct (g q) eqn:E; cbn; auto. Qed.
Lemma kept_attr (P : spec NX -> Prop) g : kept P (attr g). Proof. intros q Hq. exact Hq. Qed.
Lemma kept_mset (P : spec NX -> Prop) st x : (forall q, P q -> P (st x q)) -> kept P (mset st x). Proof. intros H q Hq. apply H, Hq. Qed.
Lemma kept_cutoff (P : spec NX -> Prop) v : (forall x q, P q -> s_Tmm10 q = None -> P (set_Tmm10 x q)) -> kept P (default_cutoff v).
Proof.
  intros H. unfold default_cutoff. destruct (neqb v _); [|intros q Hq; exact Hq].
  apply kept_bind; [|intros; apply kept_bind; [apply kept_attr|intros ? ? ?; auto]].
  apply kept_ensure. intros q Hq Hn. unfold get_Tmm10, getter, mbind, mget, mlift, mset. destruct (v_Tmm10 _ _ _ _); cbn; auto.
Qed.
Lemma run_kept (P : spec NX -> Prop) history q : (forall c, In c history -> kept P (spec_step c)) -> P q -> P (spec_run history q).
Proof.
  revert q. induction history as [|c cs IH]; intros q Hc Hq; [exact Hq|]. cbn [spec_run fold_left]. apply IH; [intros; apply Hc; right; auto|].
  apply Hc; [left; auto|auto].
Qed.

(** one attribute and the calls that overwrite it *)
Ltac kept_tac :=
  lazymatch goal with
  | |- kept _ (mbind _ _) => apply kept_bind; [kept_tac|intros; kept_tac]
  | |- kept _ (getter _ _ _ _) => apply kept_getter; cbn; auto
  | |- kept _ (default_cutoff _) => apply kept_cutoff; cbn; congruence
  | |- kept ?P (ensure _ ?m) => apply kept_ensure; let q := fresh "q" in let Hq := fresh "Hq" in let Hn := fresh "Hn" in
      intros q Hq Hn; first [ exfalso; cbn in *; congruence | let H := fresh in assert (H : kept P m) by kept_tac; apply H; exact Hq ]
  | |- kept _ (attr _) => apply kept_attr
  | |- kept _ (mset _ _) => apply kept_mset; cbn; auto
  end.
Ltac keep := intros N; match goal with |- kept _ (spec_step ?c) => destruct c end;
  cbn [is_Hm0 is_Tps is_Tmm10 is_Hm0_HF is_Tmm10_HF spec_step] in *; try (exfalso; apply N; exact I);
  unfold get_Hm0_HF, get_Hm0_LF, get_Tmm10_HF, get_Tmm10_LF, get_s0p, get_smm10, get_smm10_HF, get_Hm0, get_Tps, get_Tp, get_Tmm10, get_Tm01, get_Tm02,
    get_Hm0_HF, get_Hm0_LF, get_Tmm10_HF, get_Tmm10_LF; kept_tac.
Lemma keep_Hm0 h c : ~ is_Hm0 c -> kept (fun q : spec NX => s_Hm0 q = Some h) (spec_step c).
Proof. keep. Qed.
Lemma keep_Tps h c : ~ is_Tps c -> kept (fun q : spec NX => s_Tps q = Some h) (spec_step c).
Proof. keep. Qed.
Lemma keep_Tmm10 h c : ~ is_Tmm10 c -> kept (fun q : spec NX => s_Tmm10 q = Some h) (spec_step c).
Proof. keep. Qed.
Lemma keep_Hm0_HF h c : ~ is_Hm0_HF c -> kept (fun q : spec NX => s_Hm0_HF q = Some h) (spec_step c).
Proof. keep. Qed.
Lemma keep_Tmm10_HF h c : ~ is_Tmm10_HF c -> kept (fun q : spec NX => s_Tmm10_HF q = Some h) (spec_step c).
Proof. keep. Qed.

(** after the most recent call of its kind the attribute holds what that call returned *)
Section Latest.
Variables (f S : list (car NX)) (history before after : list (spec_call NX)) (c : spec_call NX) (x : car NX).
Hypothesis Hx : returns f S before c = Ok x.
Let sp := spec_run history (fresh f S).
Lemma run_split kind : last_call kind c before after history ->
  sp = spec_run after (fst (spec_step c (spec_run before (fresh f S)))).
Proof using. intros (E & _). unfold sp. rewrite E. unfold spec_run. rewrite fold_left_app. reflexivity. Qed.
Lemma stored v st a b (q : spec NX) (g : spec NX -> option (car NX)) : (forall y q', g (st y q') = Some y) ->
  snd (getter v st a b q) = Ok x -> g (fst (getter v st a b q)) = Some x.
Proof using.
  intros Hg. unfold getter, mbind, mget, mlift, mset. destruct (v _ _ a b); cbn; intros E; [|discriminate E]. apply Ok_inj in E. subst. apply Hg.
Qed.
Lemma stored_cut v st a b (u : car NX) (q : spec NX) (g : spec NX -> option (car NX)) : (forall y q', g (st y q') = Some y) ->
  snd (mbind (default_cutoff u) (fun w => getter v st (a w) (b w)) q) = Ok x -> g (fst (mbind (default_cutoff u) (fun w => getter v st (a w) (b w)) q)) = Some x.
Proof using.
  intros Hg. unfold mbind at 1 2. destruct (default_cutoff u q) as [q' [w|e]]; cbn [snd fst]; [|discriminate]. apply stored; auto.
Qed.
Lemma latest_Hm0 : last_call is_Hm0 c before after history -> s_Hm0 sp = Some x.
Proof using Hx.
  intros L. rewrite (run_split _ L). destruct L as (_ & Hk & Ha).
  apply (run_kept (fun q => s_Hm0 q = Some x)); [intros d Hd; apply keep_Hm0; auto|].
  unfold returns in Hx. destruct c; cbn in Hk; try contradiction. cbn [spec_step] in *. apply stored; auto.
Qed.
Lemma latest_Tps : last_call is_Tps c before after history -> s_Tps sp = Some x.
Proof using Hx.
  intros L. rewrite (run_split _ L). destruct L as (_ & Hk & Ha).
  apply (run_kept (fun q => s_Tps q = Some x)); [intros d Hd; apply keep_Tps; auto|].
  unfold returns in Hx. destruct c; cbn in Hk; try contradiction. cbn [spec_step] in *. apply stored; auto.
Qed.
Lemma latest_Tmm10 : last_call is_Tmm10 c before after history -> s_Tmm10 sp = Some x.
Proof using Hx.
  intros L. rewrite (run_split _ L). destruct L as (_ & Hk & Ha).
  apply (run_kept (fun q => s_Tmm10 q = Some x)); [intros d Hd; apply keep_Tmm10; auto|].
  unfold returns in Hx. destruct c; cbn in Hk; try contradiction. cbn [spec_step] in *. apply stored; auto.
Qed.
Lemma latest_Hm0_HF : last_call is_Hm0_HF c before after history -> s_Hm0_HF sp = Some x.
Proof using Hx.
  intros L. rewrite (run_split _ L). destruct L as (_ & Hk & Ha).
  apply (run_kept (fun q => s_Hm0_HF q = Some x)); [intros d Hd; apply keep_Hm0_HF; auto|].
  unfold returns in Hx. destruct c; cbn in Hk; try contradiction. cbn [spec_step] in *.
  apply (stored_cut v_Hm0 set_Hm0_HF (fun w => w) (fun _ => fmax)); auto.
Qed.
Lemma latest_Tmm10_HF : last_call is_Tmm10_HF c before after history -> s_Tmm10_HF sp = Some x.
Proof using Hx.
  intros L. rewrite (run_split _ L). destruct L as (_ & Hk & Ha).
  apply (run_kept (fun q => s_Tmm10_HF q = Some x)); [intros d Hd; apply keep_Tmm10_HF; auto|].
  unfold returns in Hx. destruct c; cbn in Hk; try contradiction. cbn [spec_step] in *.
  apply (stored_cut v_Tmm10 set_Tmm10_HF (fun w => w) (fun _ => fmax)); auto.
Qed.
End Latest.

(** deep-water steepness *)
Definition steep (H T g : R) : R := 2 * PI * H / (g * T ^ 2).
Lemma steepness_F H T g : T <> 0 -> g <> 0 -> steepness (N:=NX) (Fin H) (Fin T) (Fin g) = Fin (steep H T g).
Proof.
  intros HT Hg. unfold steepness. rewrite fin_ofZ, fin_pi, !fin_mul, fin_div by (apply Rmult_integral_contrapositive_currified; [auto|nra]).
  unfold steep. do 2 f_equal. ring.
Qed.

(** ** C42: what get_s0p, get_smm10 and get_smm10_HF return after any history *)

(** the most recent Hm0 and Tps win over the limits passed to get_s0p *)
Theorem C42_s0p (f S : list (car NX)) history cH bH aH cT bT aT (H T g : R) (fmin fmax : car NX) :
  last_call is_Hm0 cH bH aH history -> returns f S bH cH = Ok (Fin H) ->
  last_call is_Tps cT bT aT history -> returns f S bT cT = Ok (Fin T) -> T <> 0 -> g <> 0 ->
  returns f S history (Cs0p fmin fmax (Fin g)) = Ok (Fin (steep H T g)).
Proof.
  intros LH EH LT ET HT Hg. assert (A := latest_Hm0 f S history bH aH cH (Fin H) EH LH). assert (B := latest_Tps f S history bT aT cT (Fin T) ET LT).
  unfold returns. cbn [spec_step]. unfold get_s0p, mbind, ensure, attr, mset. rewrite A, B, A, B. cbn [snd]. rewrite steepness_F by auto. reflexivity.
Qed.
Theorem C42_smm10 (f S : list (car NX)) history cH bH aH cT bT aT (H T g : R) (fmin fmax : car NX) :
  last_call is_Hm0 cH bH aH history -> returns f S bH cH = Ok (Fin H) ->
  last_call is_Tmm10 cT bT aT history -> returns f S bT cT = Ok (Fin T) -> T <> 0 -> g <> 0 ->
  returns f S history (Csmm10 fmin fmax (Fin g)) = Ok (Fin (steep H T g)).
Proof.
  intros LH EH LT ET HT Hg. assert (A := latest_Hm0 f S history bH aH cH (Fin H) EH LH). assert (B := latest_Tmm10 f S history bT aT cT (Fin T) ET LT).
  unfold returns. cbn [spec_step]. unfold get_smm10, mbind, ensure, attr, mset. rewrite A, B, A, B. cbn [snd]. rewrite steepness_F by auto. reflexivity.
Qed.
Theorem C42_smm10_HF (f S : list (car NX)) history cH bH aH cT bT aT (H T g : R) (fmin fmax : car NX) :
  last_call is_Hm0_HF cH bH aH history -> returns f S bH cH = Ok (Fin H) ->
  last_call is_Tmm10_HF cT bT aT history -> returns f S bT cT = Ok (Fin T) -> T <> 0 -> g <> 0 ->
  returns f S history (Csmm10_HF fmin fmax (Fin g)) = Ok (Fin (steep H T g)).
Proof.
  intros LH EH LT ET HT Hg. assert (A := latest_Hm0_HF f S history bH aH cH (Fin H) EH LH). assert (B := latest_Tmm10_HF f S history bT aT cT (Fin T) ET LT).
  unfold returns. cbn [spec_step]. unfold get_smm10_HF, mbind, ensure, attr, mset. rewrite A, B, A, B. cbn [snd]. rewrite steepness_F by auto. reflexivity.
Qed.

(** on a new object the limits are honoured *)
Lemma getter_ret v st a b (q : spec NX) x : snd (getter v st a b q) = Ok x -> getter v st a b q = (st x q, Ok x).
Proof. unfold getter, mbind, mget, mlift, mset. destruct (v _ _ a b); cbn; intros E; [|discriminate E]. apply Ok_inj in E. subst. reflexivity. Qed.
Lemma getter_same v st a b (q q' : spec NX) : s_f q = s_f q' -> s_S q = s_S q' -> snd (getter v st a b q) = snd (getter v st a b q').
Proof. intros A B. unfold getter, mbind, mget, mlift, mset. rewrite A, B. destruct (v _ _ a b); reflexivity. Qed.

Theorem C42_new_object_s0p (f S : list (car NX)) (H T g : R) (fmin fmax : car NX) : T <> 0 -> g <> 0 ->
  returns f S [] (CHm0 fmin fmax) = Ok (Fin H) -> returns f S [] (CTps fmin fmax) = Ok (Fin T) ->
  returns f S [] (Cs0p fmin fmax (Fin g)) = Ok (Fin (steep H T g)).
Proof.
  intros HT Hg EH ET. unfold returns in *. cbn [spec_step spec_run fold_left] in *. unfold get_s0p, mbind at 1, ensure at 1. cbn [s_Hm0 fresh].
  unfold get_Hm0, get_Tps in *. rewrite (getter_ret _ _ _ _ _ _ EH). unfold mbind at 1, ensure at 1. cbn [s_Tps set_Hm0 fresh].
  rewrite (getter_same _ _ _ _ (fresh f S) (set_Hm0 (N:=NX) (Fin H) (fresh f S)) eq_refl eq_refl) in ET.
  rewrite (getter_ret _ _ _ _ _ _ ET). unfold mbind, attr, mset. cbn. fold (steepness (N:=NX) (Fin H) (Fin T) (Fin g)). 
  assert (W := steepness_F H T g HT Hg). cbn in W. rewrite W. reflexivity.
Qed.
Theorem C42_new_object_smm10 (f S : list (car NX)) (H T g : R) (fmin fmax : car NX) : T <> 0 -> g <> 0 ->
  returns f S [] (CHm0 fmin fmax) = Ok (Fin H) -> returns f S [] (CTmm10 fmin fmax) = Ok (Fin T) ->
  returns f S [] (Csmm10 fmin fmax (Fin g)) = Ok (Fin (steep H T g)).
Proof.
  intros HT Hg EH ET. unfold returns in *. cbn [spec_step spec_run fold_left] in *. unfold get_smm10, mbind at 1, ensure at 1. cbn [s_Hm0 fresh].
  unfold get_Hm0, get_Tmm10 in *. rewrite (getter_ret _ _ _ _ _ _ EH). unfold mbind at 1, ensure at 1. cbn [s_Tmm10 set_Hm0 fresh].
  rewrite (getter_same _ _ _ _ (fresh f S) (set_Hm0 (N:=NX) (Fin H) (fresh f S)) eq_refl eq_refl) in ET.
  rewrite (getter_ret _ _ _ _ _ _ ET). unfold mbind, attr, mset. cbn.
  assert (W := steepness_F H T g HT Hg). cbn in W. rewrite W. reflexivity.
Qed.

Theorem C42_new_object_smm10_HF (f S : list (car NX)) (H T g : R) (fmin fmax : car NX) : T <> 0 -> g <> 0 ->
  returns f S [] (CHm0_HF fmin fmax) = Ok (Fin H) -> returns f S [] (CTmm10_HF fmin fmax) = Ok (Fin T) ->
  returns f S [] (Csmm10_HF fmin fmax (Fin g)) = Ok (Fin (steep H T g)).
Proof.
  intros HT Hg EH ET. unfold returns in *. cbn [spec_step spec_run fold_left] in *.
  assert (D : exists q1 c, default_cutoff fmin (fresh f S) = (q1, Ok c) /\ s_f q1 = f /\ s_S q1 = S /\ s_Tmm10_HF q1 = None
            /\ forall v, default_cutoff fmin (set_Hm0_HF (N:=NX) v q1) = (set_Hm0_HF v q1, Ok c)).
  { unfold get_Hm0_HF, mbind in EH. unfold default_cutoff in *. destruct (neqb fmin (nopp n1)).
    - unfold cutoff, mbind, ensure, attr, mret in *. cbn [s_Tmm10 fresh] in *. unfold get_Tmm10 in *.
      destruct (snd (getter (N:=NX) v_Tmm10 set_Tmm10 (nopp n1) (nopp n1) (fresh f S))) as [x|e] eqn:E.
      + rewrite (getter_ret _ _ _ _ _ _ E) in *. cbn [s_Tmm10 set_Tmm10]. do 2 eexists. split; [reflexivity|]. cbn. repeat split.
      + destruct (getter (N:=NX) v_Tmm10 set_Tmm10 (nopp n1) (nopp n1) (fresh f S)) as [q r]. cbn [snd] in E. subst r. discriminate EH.
    - exists (fresh f S), fmin. cbn. repeat split. }
  destruct D as (q1 & c & D1 & Qf & QS & QT & D2).
  unfold get_Hm0_HF, get_Tmm10_HF, mbind in EH, ET. rewrite D1 in EH, ET.
  unfold get_smm10_HF, mbind at 1, ensure at 1. cbn [s_Hm0_HF fresh]. unfold get_Hm0_HF, mbind at 1. rewrite D1, (getter_ret _ _ _ _ _ _ EH).
  unfold mbind at 1, ensure at 1. cbn [s_Tmm10_HF set_Hm0_HF]. rewrite QT.
  fold (set_Hm0_HF (N:=NX) (Fin H) q1).
  unfold get_Tmm10_HF, mbind at 1. rewrite D2. rewrite (getter_same _ _ _ _ q1 (set_Hm0_HF (N:=NX) (Fin H) q1) eq_refl eq_refl) in ET.
  rewrite (getter_ret _ _ _ _ _ _ ET). unfold mbind, attr, mset. cbn.
  assert (W := steepness_F H T g HT Hg). cbn in W. rewrite W. reflexivity.
Qed.

(** the HF/LF getters without an explicit cut-off use 0.45 / (most recent Tm-1,0) *)
Lemma cutoff_F T (q : spec NX) : T <> 0 -> s_Tmm10 q = Some (Fin T) -> default_cutoff (N:=NX) (Fin (-1)) q = (q, Ok (Fin (45 / 100 / T))).
Proof.
  intros HT E. unfold default_cutoff. change (nopp (n:=NX) n1) with (Fin (-1)). rewrite (proj2 (neqb_m1 (Fin (-1))) eq_refl).
  unfold cutoff, mbind, ensure, attr, mret. rewrite E, E. rewrite fin_lit, fin_div by lra. reflexivity.
Qed.
Lemma explicit_cutoff (v : car NX) (q : spec NX) : v <> Fin (-1) -> default_cutoff v q = (q, Ok v).
Proof.
  intros Hv. unfold default_cutoff. change (nopp (n:=NX) n1) with (Fin (-1)). destruct (neqb v (Fin (-1))) eqn:E; [|reflexivity].
  apply neqb_m1 in E. contradiction.
Qed.
Section Cutoff.
Variables (f S : list (car NX)) (history : list (spec_call NX)) (T : R) (other : car NX).
Hypothesis PT : 0 < T.
Let fc := Fin (45 / 100 / T) : car NX.
(** the same call with the cut-off given explicitly *)
Definition with_cutoff (c : spec_call NX) : spec_call NX :=
  match c with
  | CHm0_HF _ b => CHm0_HF fc b | CTmm10_HF _ b => CTmm10_HF fc b
  | CHm0_LF a _ => CHm0_LF a fc | CTmm10_LF a _ => CTmm10_LF a fc
  | _ => c
  end.
Definition needs_cutoff (c : spec_call NX) : Prop :=
  match c with
  | CHm0_HF a _ | CTmm10_HF a _ => a = Fin (-1)
  | CHm0_LF _ b | CTmm10_LF _ b => b = Fin (-1)
  | _ => False
  end.
Lemma fc_ne : fc <> Fin (-1).
Proof using PT. unfold fc. intros E. apply fin_inj in E. assert (0 < 45 / 100 / T) by (apply Rdiv_lt_0_compat; lra). lra. Qed.
Lemma cached_cutoff c (q : spec NX) : needs_cutoff c -> s_Tmm10 q = Some (Fin T) -> snd (spec_step c q) = snd (spec_step (with_cutoff c) q).
Proof using PT.
  intros Hc E. assert (N := fc_ne).
  destruct c; cbn [needs_cutoff] in Hc; try contradiction; subst; cbn [with_cutoff spec_step];
    unfold get_Hm0_HF, get_Hm0_LF, get_Tmm10_HF, get_Tmm10_LF, mbind; rewrite (cutoff_F T) by (auto; lra);
    rewrite explicit_cutoff by exact N; reflexivity.
Qed.
Theorem C42_cutoff_after c cT bT aT : needs_cutoff c -> last_call is_Tmm10 cT bT aT history -> returns f S bT cT = Ok (Fin T) ->
  returns f S history c = returns f S [] (with_cutoff c).
Proof using PT.
  intros Hc L E. assert (A := latest_Tmm10 f S history bT aT cT (Fin T) E L).
  rewrite <- (C41_history_independent f S history).
  - unfold returns. apply cached_cutoff; auto.
  - assert (N := fc_ne). destruct c; cbn in *; try contradiction; exact N.
Qed.
(** on a new object: 0.45 / (Tm-1,0 of the whole spectrum) *)
Theorem C42_cutoff_new c : needs_cutoff c -> returns f S [] (CTmm10 (Fin (-1)) (Fin (-1))) = Ok (Fin T) ->
  returns f S [] c = returns f S [] (with_cutoff c).
Proof using PT.
  intros Hc ET. unfold returns in *. cbn [spec_run fold_left spec_step] in *. assert (N := fc_ne).
  assert (D : default_cutoff (N:=NX) (Fin (-1)) (fresh f S) = (set_Tmm10 (N:=NX) (Fin T) (fresh f S), Ok fc)).
  { unfold default_cutoff. change (nopp (n:=NX) n1) with (Fin (-1)). rewrite (proj2 (neqb_m1 (Fin (-1))) eq_refl).
    unfold cutoff, mbind, ensure, attr, mret. cbn [s_Tmm10 fresh]. unfold get_Tmm10 in *. change (nopp (n:=NX) n1) with (Fin (-1) : car NX). rewrite (getter_ret _ _ _ _ _ _ ET). cbn [s_Tmm10 set_Tmm10].
    rewrite fin_lit, fin_div by lra. reflexivity. }
  destruct c; cbn [needs_cutoff] in Hc; try contradiction; subst; cbn [with_cutoff spec_step];
    unfold get_Hm0_HF, get_Hm0_LF, get_Tmm10_HF, get_Tmm10_LF, mbind; rewrite D, explicit_cutoff by exact N; apply getter_same; reflexivity.
Qed.
End Cutoff.

(** so the documented meaning of the arguments fails after other calls: [get_Hm0] on a sub-band makes
    the later [get_smm10()] of the whole spectrum wrong *)
Theorem C42_arguments_ignored_refuted :
  ~ (forall (f S : list R) history fmin fmax g, freq_axis f -> length S = length f ->
       returns (F f) (F S) history (Csmm10 fmin fmax g) = returns (F f) (F S) [] (Csmm10 fmin fmax g)).
Proof.
  intros W. set (s := [1; 1; 1]). set (f := axis 1 1 (length s)).
  assert (Hf : freq_axis f) by (apply axis_freq; lra || (cbn; lia)).
  assert (Lf : length s = length f) by reflexivity.
  assert (X : f = [1; 2; 3]) by (unfold f, axis; cbn [length s seq map INR]; repeat (f_equal; [ring|]); f_equal; ring).
  assert (La : last_of f = 3) by (rewrite X; reflexivity).
  assert (Hne : f <> []) by (rewrite X; discriminate).
  assert (Q : set_flim (N:=NX) (F f) (Fin (-1)) (Fin (-1)) = Ok (Fin (nth 0 f 0), Fin (last_of f))) by (apply set_flim_F; [auto|left; auto|left; auto]).
  assert (M : forall m, moment f s m (Fin (nth 0 f 0)) (Fin (last_of f)) = Ok (Fin (rsimp (without_zero m f f) (weighted m f s)))).
  { intros m. rewrite <- (proj1 (C32_default_limits f s m (Fin (-1)) Hf Lf)). apply moment_all; auto. }
  assert (V_1 : rsimp (without_zero (-1) f f) (weighted (-1) f s) = 10 / 9).
  { rewrite X. unfold weighted, without_zero. cbn [nth Z.ltb Z.compare andb]. rewrite Reqb_false by lra.
    unfold s. unfold rsimp, rbasic, rpanel, rlast. cbn. change (Pos.to_nat 1) with 1%nat. field. }
  assert (V0 : rsimp (without_zero 0 f f) (weighted 0 f s) = 2).
  { rewrite X. unfold weighted, without_zero. cbn [Z.ltb Z.compare andb]. unfold s. unfold rsimp, rbasic, rpanel, rlast. cbn. field. }
  assert (EH : returns (F f) (F s) [] (CHm0 (Fin (-1)) (Fin (-1))) = Ok (Fin (4 * sqrt 2))).
  { unfold returns. cbn [spec_step spec_run fold_left]. unfold get_Hm0. rewrite (getter_value _ _ _ _ (fresh (N:=NX) (F f) (F s)) f s) by reflexivity.
    unfold v_Hm0. rewrite Q, bind_Ok. unfold v_moment. rewrite M, bind_Ok, V0. rewrite fin_sqrt, fin_ofZ, fin_mul by lra. reflexivity. }
  assert (ET : returns (F f) (F s) [] (CTmm10 (Fin (-1)) (Fin (-1))) = Ok (Fin (5 / 9))).
  { unfold returns. cbn [spec_step spec_run fold_left]. unfold get_Tmm10. rewrite (getter_value _ _ _ _ (fresh (N:=NX) (F f) (F s)) f s) by reflexivity.
    unfold v_Tmm10. rewrite Q, bind_Ok. unfold v_moment. rewrite !M, !bind_Ok, V0, V_1. rewrite fin_div by lra. do 2 f_equal. field. }
  assert (E2 : returns (F f) (F s) [] (CHm0 (Fin 2) (Fin 2)) = Ok (Fin 0)).
  { unfold returns. cbn [spec_step spec_run fold_left]. unfold get_Hm0. rewrite (getter_value _ _ _ _ (fresh (N:=NX) (F f) (F s)) f s) by reflexivity.
    unfold v_Hm0. rewrite (set_flim_F f (Fin 2) (Fin 2) (Fin 2) (Fin 2)); [|auto|right; split; [intros E; apply fin_inj in E; lra|auto]|right; split; [intros E; apply fin_inj in E; lra|auto]].
    rewrite bind_Ok. unfold v_moment.
    destruct (moment_in f s 0 Hf Lf 2 2) as (i & j & Ni & Nj & _ & E); try lra. rewrite E, bind_Ok.
    assert (Inc : increasing f) by (apply good_increasing, Hf).
    assert (N1 : nearest (without_zero 0 f f) 2 1) by (change (without_zero 0 f f) with f; replace 2 with (nth 1 f 0) by (rewrite X; reflexivity); apply nearest_self; auto; rewrite X; cbn; lia).
    assert (i = 1%nat) as -> by (apply (nearest_unique (without_zero 0 f f) 2); auto). assert (j = 1%nat) as -> by (apply (nearest_unique (without_zero 0 f f) 2); auto).
    change (without_zero 0 f f) with f. rewrite X. change (slice 1 (1 + 1) [1; 2; 3]) with [2]. cbn [rsimp length rbasic].
    replace (rsimp [2] (slice 1 (1 + 1) (weighted 0 [1; 2; 3] s))) with 0 by reflexivity.
    rewrite fin_sqrt, sqrt_0, fin_ofZ, fin_mul by lra. do 2 f_equal. ring. }
  specialize (W f s [CHm0 (Fin 2) (Fin 2); CTmm10 (Fin (-1)) (Fin (-1))] (Fin (-1)) (Fin (-1)) (Fin 1) Hf Lf).
  rewrite (C42_new_object_smm10 (F f) (F s) (4 * sqrt 2) (5 / 9) 1) in W by (auto; lra).
  rewrite (C42_smm10 (F f) (F s) _ (CHm0 (Fin 2) (Fin 2)) [] [CTmm10 (Fin (-1)) (Fin (-1))] (CTmm10 (Fin (-1)) (Fin (-1))) [CHm0 (Fin 2) (Fin 2)] [] 0 (5 / 9) 1) in W.
  - apply Ok_inj, fin_inj in W. unfold steep in W. assert (0 < sqrt 2) by (apply sqrt_lt_R0; lra). assert (P := PI_RGT_0).
    assert (0 < 2 * PI * (4 * sqrt 2) / (1 * (5 / 9) ^ 2)) by (apply Rdiv_lt_0_compat; [nra|lra]). 
    replace (2 * PI * 0 / (1 * (5 / 9) ^ 2)) with 0 in W by field. lra.
  - split; [reflexivity|]. split; [exact I|]. intros d [<-|[]]; auto.
  - exact E2.
  - split; [reflexivity|]. split; [exact I|]. intros d [].
  - rewrite C41_history_independent by exact I. exact ET.
  - lra.
  - lra.
Qed.
(** a history in which the last calls of each kind exist *)
Example C42_witness : last_call is_Hm0 (CHm0 (Fin 1) (Fin 2)) [CTp (Fin 0) (Fin 1)] [CTps (Fin 1) (Fin 2)]
    [CTp (Fin 0) (Fin 1); CHm0 (Fin 1) (Fin 2); CTps (Fin 1) (Fin 2)]
  /\ last_call is_Tps (CTps (Fin 1) (Fin 2)) [CTp (Fin 0) (Fin 1); CHm0 (Fin 1) (Fin 2)] []
    [CTp (Fin 0) (Fin 1); CHm0 (Fin 1) (Fin 2); CTps (Fin 1) (Fin 2)].
Proof. split; (split; [reflexivity|]; split; [exact I|]). - intros d [<-|[]]; auto. - intros d []. Qed.
