(** * The attributes a Spectrum object stores (spectrum.py): C75 *)

From Coq Require Import Reals ZArith List Bool Lra Lia.
From Verif Require Import Num XR Spec XRFacts RSum Engine EngineProps FourierSpec TimeProps SeriesProps FourierFacts BandProps
  WaveModel SpectrumModel SimpsonFacts MomentProps PeakProps ParamProps GetterProps HistProps.
Import ListNotations.
Open Scope R_scope.

(** ** Specification *)

(** the public attributes the getters create *)
Inductive attribute := AHm0 | AHm0_HF | AHm0_LF | ATps | ATp | ATmm10 | ATmm10_HF | ATmm10_LF | ATm01 | ATm02 | As0p | Asmm10 | Asmm10_HF.

(** reading an attribute of an object; [None] stands for AttributeError *)
Definition stored (a : attribute) (sp : spec NX) : option (car NX) :=
  match a with
  | AHm0 => s_Hm0 sp | AHm0_HF => s_Hm0_HF sp | AHm0_LF => s_Hm0_LF sp | ATps => s_Tps sp | ATp => s_Tp sp
  | ATmm10 => s_Tmm10 sp | ATmm10_HF => s_Tmm10_HF sp | ATmm10_LF => s_Tmm10_LF sp | ATm01 => s_Tm01 sp | ATm02 => s_Tm02 sp
  | As0p => s_s0p sp | Asmm10 => s_smm10 sp | Asmm10_HF => s_smm10_HF sp
  end.
(** the attribute with the name of the getter *)
Definition own (c : spec_call NX) : attribute :=
  match c with
  | CHm0 _ _ => AHm0 | CHm0_HF _ _ => AHm0_HF | CHm0_LF _ _ => AHm0_LF | CTps _ _ => ATps | CTp _ _ => ATp
  | CTmm10 _ _ => ATmm10 | CTmm10_HF _ _ => ATmm10_HF | CTmm10_LF _ _ => ATmm10_LF | CTm01 _ _ => ATm01 | CTm02 _ _ => ATm02
  | Cs0p _ _ _ => As0p | Csmm10 _ _ _ => Asmm10 | Csmm10_HF _ _ _ => Asmm10_HF
  end.
(** the attributes a getter computes on the side when they are missing *)
Definition needs (c : spec_call NX) (a : attribute) : Prop :=
  match c, a with
  | CHm0_HF x _, ATmm10 | CTmm10_HF x _, ATmm10 => x = Fin (-1)
  | CHm0_LF _ y, ATmm10 | CTmm10_LF _ y, ATmm10 => y = Fin (-1)
  | Cs0p _ _ _, AHm0 | Cs0p _ _ _, ATps | Csmm10 _ _ _, AHm0 | Csmm10 _ _ _, ATmm10
  | Csmm10_HF _ _ _, AHm0_HF | Csmm10_HF _ _ _, ATmm10_HF => True
  | Csmm10_HF x _ _, ATmm10 => x = Fin (-1)
  | _, _ => False
  end.

(** ** C75 Stored attributes *)

(** a getter that returns a value has stored it under its own name *)
Theorem C75_value_stored (c : spec_call NX) (sp : spec NX) v :
  snd (spec_step c sp) = Ok v -> stored (own c) (fst (spec_step c sp)) = Some v.
Proof.
  assert (G : forall w st a b (q : spec NX) x g, (forall x q', g (st x q') = Some x) ->
     snd (getter w st a b q) = Ok x -> g (fst (getter w st a b q)) = Some x).
  { intros w st a b q x g Hst. unfold getter, mbind, mget, mlift, mset. destruct (w _ _ a b); cbn; [|discriminate].
    intros E. apply Ok_inj in E. subst. apply Hst. }
  assert (B : forall (m : meth (N:=NX) (car NX)) k (q : spec NX) x g, (forall y q', snd (k y q') = Ok x -> g (fst (k y q')) = Some x) ->
     snd (mbind m k q) = Ok x -> g (fst (mbind m k q)) = Some x :> option (car NX)).
  { intros m k q x g H. unfold mbind. destruct (m q) as [q' [y|e]]; [apply H|discriminate]. }
  destruct c; cbn [spec_step own stored].
  all: try (apply G; intros; reflexivity).
  all: try (apply B; intros y q'; apply G; intros; reflexivity).
  all: apply B; intros y1 q1; apply B; intros y2 q2; apply B; intros y3 q3; apply B; intros y4 q4; cbn; intros E; apply Ok_inj in E; subst; reflexivity.
Qed.

(** [m] changes the attributes in [P], and those in [Q] only when they are missing *)
Definition chg (P Q : attribute -> Prop) (m : meth (N:=NX) (car NX)) : Prop :=
  forall (sp : spec NX) a, ~ P a -> stored a (fst (m sp)) = stored a sp \/ (stored a sp = None /\ Q a).
Definition none (a : attribute) : Prop := False.
Lemma chg_getter w st a b n Q : (forall x q c, c <> n -> stored c (st x q) = stored c q) -> chg (eq n) Q (getter (N:=NX) w st a b).
Proof.
  intros Hst sp c Hc. left. unfold getter, mbind, mget, mlift, mset. destruct (w _ _ a b); cbn; auto.
Qed.
Lemma chg_bind P Q m (k : car NX -> meth (N:=NX) (car NX)) : chg P Q m -> (forall x, chg P Q (k x)) -> chg P Q (mbind m k).
Proof.
  intros Hm Hk sp a Ha. unfold mbind. specialize (Hm sp a Ha). destruct (m sp) as [q [x|e]]; cbn [fst] in *; [|auto].
  destruct Hm as [Hm|Hm]; [|auto]. destruct (Hk x q a Ha) as [H|[H H']]; rewrite <- Hm; auto.
Qed.
Lemma chg_sub (P P' Q Q' : attribute -> Prop) m : chg P Q m -> (forall a, P a -> P' a) -> (forall a, Q a -> Q' a) -> chg P' Q' m.
Proof. intros H S1 S2 sp a Ha. destruct (H sp a) as [?|[? ?]]; auto. Qed.
Lemma chg_subQ (P Q Q' : attribute -> Prop) m : chg P Q m -> (forall a, Q a -> Q' a) -> chg P Q' m.
Proof. intros H S2. apply (chg_sub P P Q Q'); auto. Qed.
Lemma chg_ensure b m Q : chg (eq b) Q m -> Q b -> chg none Q (ensure (stored b) m).
Proof.
  intros H Hb sp a _. unfold ensure. destruct (stored b sp) eqn:E; [left; reflexivity|].
  destruct a, b; try (right; split; [exact E|exact Hb]); apply H; discriminate.
Qed.
Lemma chg_read g P Q (m : meth (N:=NX) (car NX)) : m = attr g \/ (exists x, m = mret x) -> chg P Q m.
Proof. intros [->|[x ->]] sp a Ha; left; reflexivity. Qed.
Lemma chg_set st x n Q : (forall x q c, c <> n -> stored c (st x q) = stored c q) -> chg (eq n) Q (mset (N:=NX) st x).
Proof. intros H sp a Ha. left. cbn. apply H. congruence. Qed.
Ltac setter := let c := fresh "c" in intros ? ? c ?; destruct c; (reflexivity || congruence).
Lemma chg_cutoff v : chg none (fun a => a = ATmm10 /\ v = Fin (-1)) (default_cutoff v).
Proof.
  unfold default_cutoff. destruct (neqb v _) eqn:E; [|apply (chg_read s_Tmm10); right; eauto].
  assert (Ev : v = Fin (-1)) by (apply neqb_m1; exact E).
  unfold cutoff. apply chg_bind; [apply (chg_ensure ATmm10); [apply chg_getter; setter|auto]|]. intros x.
  apply chg_bind; [apply (chg_read s_Tmm10); auto|]. intros y. apply (chg_read s_Tmm10); eauto.
Qed.
Lemma chg_band w st n v (k : car NX -> meth (N:=NX) (car NX)) : (forall x, exists a b, k x = getter w st a b) ->
  (forall x q c, c <> n -> stored c (st x q) = stored c q) ->
  chg (eq n) (fun a => a = ATmm10 /\ v = Fin (-1)) (mbind (default_cutoff v) k).
Proof.
  intros Hk Hst. apply chg_bind; [eapply chg_sub; [apply chg_cutoff|intros a []|auto]|].
  intros x. destruct (Hk x) as (a & b & ->). apply chg_getter; auto.
Qed.

(** every other attribute keeps its value, unless it was missing and the getter needs it *)
Theorem C75_others_kept (c : spec_call NX) (sp : spec NX) (a : attribute) :
  a <> own c -> stored a (fst (spec_step c sp)) = stored a sp \/ (stored a sp = None /\ needs c a).
Proof.
  intros Ha. assert (H : chg (eq (own c)) (needs c) (spec_step c)); [|apply H; congruence].
  destruct c; cbn [spec_step own]; try (apply chg_getter; setter).
  1-4: eapply chg_subQ; [eapply chg_band; [intros ?; eexists _, _; reflexivity|setter]|intros d [-> E]; exact E].
  all: apply chg_bind; [|intros x; apply chg_bind; [|intros y; apply chg_bind; [eapply chg_read; left; reflexivity|intros z;
         apply chg_bind; [eapply chg_read; left; reflexivity|intros u; apply chg_set; setter]]]].
  - eapply chg_sub; [apply (chg_ensure AHm0 _ (needs (Cs0p fmin fmax g))); [apply chg_getter; setter|exact I]|intros d []|auto].
  - eapply chg_sub; [apply (chg_ensure ATps _ (needs (Cs0p fmin fmax g))); [apply chg_getter; setter|exact I]|intros d []|auto].
  - eapply chg_sub; [apply (chg_ensure AHm0 _ (needs (Csmm10 fmin fmax g))); [apply chg_getter; setter|exact I]|intros d []|auto].
  - eapply chg_sub; [apply (chg_ensure ATmm10 _ (needs (Csmm10 fmin fmax g))); [apply chg_getter; setter|exact I]|intros d []|auto].
  - eapply chg_sub; [apply (chg_ensure AHm0_HF _ (needs (Csmm10_HF fmin fmax g))); [|exact I]|intros d []|auto].
    eapply chg_subQ; [eapply chg_band; [intros ?; eexists _, _; reflexivity|setter]|intros d [-> E]; exact E].
  - eapply chg_sub; [apply (chg_ensure ATmm10_HF _ (needs (Csmm10_HF fmin fmax g))); [|exact I]|intros d []|auto].
    eapply chg_subQ; [eapply chg_band; [intros ?; eexists _, _; reflexivity|setter]|intros d [-> E]; exact E].
Qed.

Definition fk (n : attribute) (m : meth (N:=NX) (car NX)) : Prop :=
  forall (sp : spec NX) e, snd (m sp) = Raise e -> stored n (fst (m sp)) = stored n sp.
Lemma fk_getter n w st a b : fk n (getter (N:=NX) w st a b).
Proof. intros sp e. unfold getter, mbind, mget, mlift, mset. destruct (w _ _ a b); cbn; [discriminate|auto]. Qed.
Lemma fk_bind n Q m (k : car NX -> meth (N:=NX) (car NX)) : chg none Q m -> ~ Q n -> (forall x, fk n (k x)) -> fk n (mbind m k).
Proof.
  intros Hm Hq Hk sp e. unfold mbind. assert (A : stored n (fst (m sp)) = stored n sp) by (destruct (Hm sp n ltac:(auto)) as [?|[? ?]]; tauto).
  destruct (m sp) as [q [x|e']]; cbn [fst snd] in *; [|auto]. intros H. rewrite (Hk x q e H). exact A.
Qed.
Lemma fk_set n st x : fk n (mset (N:=NX) st x).
Proof. intros sp e H. discriminate. Qed.

(** a call that raises leaves its own attribute as it was *)
Theorem C75_failure_keeps (c : spec_call NX) (sp : spec NX) e :
  snd (spec_step c sp) = Raise e -> stored (own c) (fst (spec_step c sp)) = stored (own c) sp.
Proof.
  assert (H : fk (own c) (spec_step c)); [|apply H].
  destruct c; cbn [spec_step own]; try apply fk_getter.
  1-4: eapply fk_bind; [apply chg_cutoff|intros [E _]; discriminate|intros; apply fk_getter].
  all: eapply fk_bind; [|idtac|intros x; eapply fk_bind; [|idtac|intros y; eapply fk_bind with (Q := none);
     [eapply chg_read; left; reflexivity|intros []|intros z; eapply fk_bind with (Q := none);
     [eapply chg_read; left; reflexivity|intros []|intros u; apply fk_set]]]].
  1: apply (chg_ensure AHm0 _ (needs (Cs0p fmin fmax g))); [apply chg_getter; setter|exact I].
  2: apply (chg_ensure ATps _ (needs (Cs0p fmin fmax g))); [apply chg_getter; setter|exact I].
  3: apply (chg_ensure AHm0 _ (needs (Csmm10 fmin fmax g))); [apply chg_getter; setter|exact I].
  4: apply (chg_ensure ATmm10 _ (needs (Csmm10 fmin fmax g))); [apply chg_getter; setter|exact I].
  5: { apply (chg_ensure AHm0_HF _ (needs (Csmm10_HF fmin fmax g))); [|exact I].
       eapply chg_subQ; [eapply chg_band; [intros ?; eexists _, _; reflexivity|setter]|intros d [-> E]; exact E]. }
  6: { apply (chg_ensure ATmm10_HF _ (needs (Csmm10_HF fmin fmax g))); [|exact I].
       eapply chg_subQ; [eapply chg_band; [intros ?; eexists _, _; reflexivity|setter]|intros d [-> E]; exact E]. }
  all: intros [].
Qed.

(** after any history an attribute holds what the last call of its getter returned (if that call, or a later one, did not raise) *)
Theorem C75_last_value (f S : list (car NX)) (before after : list (spec_call NX)) (c : spec_call NX) v :
  returns f S before c = Ok v -> (forall d, In d after -> own d <> own c) ->
  stored (own c) (spec_run (before ++ c :: after) (fresh f S)) = Some v.
Proof.
  intros Hv Ha. unfold spec_run. rewrite fold_left_app. cbn [fold_left]. change (fold_left _ before ?u) with (spec_run before u).
  set (sp := spec_run before (fresh f S)) in *.
  assert (E : stored (own c) (fst (spec_step c sp)) = Some v) by (apply C75_value_stored; exact Hv).
  revert E. generalize (fst (spec_step c sp)). clear Hv. revert Ha. induction after as [|d ds IH]; intros Ha q E; [exact E|].
  cbn [fold_left]. apply IH; [intros; apply Ha; right; auto|].
  destruct (C75_others_kept d q (own c)) as [H|[H _]]; [intros H; apply (Ha d (or_introl eq_refl)); auto|rewrite H; exact E|congruence].
Qed.
(** and is missing as long as no getter computed it *)
Theorem C75_missing (f S : list (car NX)) (history : list (spec_call NX)) (a : attribute) :
  (forall c, In c history -> own c <> a /\ ~ needs c a) -> stored a (spec_run history (fresh f S)) = None.
Proof.
  intros H. assert (E : stored a (fresh f S) = None) by (destruct a; reflexivity). revert E. generalize (fresh (N:=NX) f S).
  induction history as [|d ds IH]; intros q E; [exact E|]. change (spec_run (d :: ds) q) with (spec_run ds (fst (spec_step d q))).
  apply IH; [intros; apply H; right; auto|]. destruct (H d (or_introl eq_refl)) as [H1 H2].
  destruct (C75_others_kept d q a) as [K|[_ K]]; [congruence|rewrite K; exact E|contradiction].
Qed.

(** the attributes computed on the side are those of the same getter with the same arguments: s0p, smm10 and smm10_HF leave behind the
    wave height and period they used *)
Theorem C75_side_values (f S : list (car NX)) (fmin fmax g : car NX) v :
     (returns f S [] (Cs0p fmin fmax g) = Ok v ->
        exists H T, returns f S [] (CHm0 fmin fmax) = Ok H /\ returns f S [] (CTps fmin fmax) = Ok T
          /\ stored AHm0 (spec_run [Cs0p fmin fmax g] (fresh f S)) = Some H /\ stored ATps (spec_run [Cs0p fmin fmax g] (fresh f S)) = Some T)
  /\ (returns f S [] (Csmm10 fmin fmax g) = Ok v ->
        exists H T, returns f S [] (CHm0 fmin fmax) = Ok H /\ returns f S [] (CTmm10 fmin fmax) = Ok T
          /\ stored AHm0 (spec_run [Csmm10 fmin fmax g] (fresh f S)) = Some H /\ stored ATmm10 (spec_run [Csmm10 fmin fmax g] (fresh f S)) = Some T)
  /\ (returns f S [] (CHm0_HF (Fin (-1)) fmax) = Ok v ->
        exists T, returns f S [] (CTmm10 (Fin (-1)) (Fin (-1))) = Ok T
          /\ stored ATmm10 (spec_run [CHm0_HF (Fin (-1)) fmax] (fresh f S)) = Some T).
Proof.
  unfold returns. cbn [spec_run fold_left spec_step]. split; [|split].
  - unfold get_s0p, get_Hm0, get_Tps, getter, ensure, attr, mbind, mget, mlift, mset. cbn [s_f s_S s_Hm0 s_Tps fresh].
    destruct (v_Hm0 f S fmin fmax) as [H|e]; [|discriminate]. cbn. destruct (v_Tps f S fmin fmax) as [T|e]; [|discriminate]. cbn.
    intros _. exists H, T. auto.
  - unfold get_smm10, get_Hm0, get_Tmm10, getter, ensure, attr, mbind, mget, mlift, mset. cbn [s_f s_S s_Hm0 s_Tmm10 fresh].
    destruct (v_Hm0 f S fmin fmax) as [H|e]; [|discriminate]. cbn. destruct (v_Tmm10 f S fmin fmax) as [T|e]; [|discriminate]. cbn.
    intros _. exists H, T. auto.
  - unfold get_Hm0_HF, default_cutoff, cutoff. replace (neqb (n:=NX) (Fin (-1)) (nopp (n:=NX) n1)) with true by (symmetry; apply neqb_m1; reflexivity).
    change (nopp (n:=NX) n1) with (Fin (-1)). 
    unfold get_Tmm10, getter, ensure, attr, mbind, mget, mlift, mset, mret. cbn [s_f s_S s_Hm0 s_Tmm10 fresh].
    destruct (v_Tmm10 f S (Fin (-1)) (Fin (-1))) as [T|e]; [|discriminate]. cbn. 
    destruct (v_Hm0 f S _ fmax) as [H|e]; [|discriminate]. cbn. intros _. exists T. auto.
Qed.

(** the getter call, and its arguments, that provides a missing ingredient *)
Definition fetches (c : spec_call NX) (a : attribute) (d : spec_call NX) : Prop :=
  match c, a with
  | CHm0_HF _ _, ATmm10 | CTmm10_HF _ _, ATmm10 | CHm0_LF _ _, ATmm10 | CTmm10_LF _ _, ATmm10
  | Csmm10_HF _ _ _, ATmm10 => d = CTmm10 (Fin (-1)) (Fin (-1))
  | Cs0p x y _, AHm0 | Csmm10 x y _, AHm0 => d = CHm0 x y
  | Cs0p x y _, ATps => d = CTps x y
  | Csmm10 x y _, ATmm10 => d = CTmm10 x y
  | Csmm10_HF x y _, AHm0_HF => d = CHm0_HF x y
  | Csmm10_HF x y _, ATmm10_HF => d = CTmm10_HF x y
  | _, _ => False
  end.
(** an attribute created on the side holds what its own getter, called on the same object, returns *)
Theorem C75_created_values (c : spec_call NX) (sp : spec NX) (a : attribute) (u : car NX) :
  a <> own c -> stored a sp = None -> stored a (fst (spec_step c sp)) = Some u ->
  exists d, fetches c a d /\ own d = a /\ snd (spec_step d sp) = Ok u.
Proof.
  intros Ha H0 H1. assert (K := C75_others_kept c sp a Ha). rewrite H0, H1 in K. destruct K as [K|[_ K]]; [discriminate K|].
  destruct c; destruct a; try contradiction K; cbn [stored] in H0, H1; cbn [fetches];
    (eexists; split; [reflexivity|]); (split; [reflexivity|]); revert H1; cbn [spec_step];
    unfold get_Hm0_HF, get_Hm0_LF, get_Tmm10_HF, get_Tmm10_LF, get_s0p, get_smm10, get_smm10_HF, get_Hm0_HF, get_Tmm10_HF, default_cutoff, cutoff,
      get_Hm0, get_Tps, get_Tmm10, getter, ensure, attr, mbind, mget, mlift, mset, mret;
    change (nopp (n:=NX) (n1 (N:=NX))) with (Fin (-1));
    repeat (match goal with
    | |- context [neqb (n:=NX) ?x (Fin (-1))] => destruct (neqb (n:=NX) x (Fin (-1)))
    | H : ?g sp = None |- context [?g sp] => rewrite H
    | |- context [match ?g sp with Some _ => _ | None => _ end] => destruct (g sp) eqn:?
    | |- context [match v_Hm0 ?a ?b ?c ?d with Ok _ => _ | Raise _ => _ end] => destruct (v_Hm0 a b c d) eqn:?
    | |- context [match v_Tmm10 ?a ?b ?c ?d with Ok _ => _ | Raise _ => _ end] => destruct (v_Tmm10 a b c d) eqn:?
    | |- context [match v_Tps ?a ?b ?c ?d with Ok _ => _ | Raise _ => _ end] => destruct (v_Tps a b c d) eqn:?
    end; cbn in * ); try congruence.
Qed.

Example C75_witness :
  let before := [Cs0p (Fin (-1)) (Fin (-1)) (Fin 9.81); CHm0_HF (Fin (-1)) (Fin 2); CTp (Fin 0) (Fin 1)] in
     returns (F [0; 1; 2; 3]) (F [9; 5; 5; 4]) before (CTp (Fin (1/2)) (Fin (-1))) = Ok (Fin (1 / 2))
  /\ stored ATp (spec_run (before ++ [CTp (Fin (1/2)) (Fin (-1)); CHm0 (Fin (-1)) (Fin (-1))]) (fresh (F [0; 1; 2; 3]) (F [9; 5; 5; 4]))) = Some (Fin (1 / 2))
  /\ stored ATm01 (spec_run before (fresh (F [0; 1; 2; 3]) (F [9; 5; 5; 4]))) = None.
Proof.
  intros before. destruct C41_witness as [_ H]. fold before in H. split; [exact H|]. split.
  - apply (C75_last_value (F [0; 1; 2; 3]) (F [9; 5; 5; 4]) before [CHm0 (Fin (-1)) (Fin (-1))] (CTp (Fin (1/2)) (Fin (-1)))); [exact H|].
    intros d [<-|[]]; discriminate.
  - apply C75_missing. intros c [<-|[<-|[<-|[]]]]; split; try discriminate; intros [].
Qed.
