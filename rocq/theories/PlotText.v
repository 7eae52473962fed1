(** * What the figures and the text representations show (spectrum.py, series.py): C78 *)

From Coq Require Import Reals ZArith Permutation String List Bool Lra Lia Decimal DecimalString DecimalNat DecimalFacts.
From Verif Require Import Num XR Spec XRFacts RSum Engine EngineProps TimeModel TimeSpec TimeProps TimeProps2 TimeProps3 SeriesModel WHProps SeriesProps SeriesProps2
  FourierSpec WaveModel SpectrumModel SimpsonFacts MomentProps PeakProps ParamProps GetterProps HistProps AttrProps PlotModel.
Import ListNotations.
Open Scope R_scope.

(** ** Specification *)

(** the periods a spectrum plot can show: the getter that computes each of them, and its name in the legend *)
Definition shown_as (c : spec_call NX) (label : string) : Prop :=
  match c with
  | CTps _ _ => label = "Tps"%string
  | CTmm10 _ _ => label = "Tmm10"%string
  | CTm02 _ _ => label = "Tm02"%string
  | _ => False
  end.
(** a vertical line at frequency [f] from 0 up to [top] *)
Definition vertical (label : string) (f top : R) : line NX := mkLine (N:=NX) label [Fin f; Fin f] [Fin 0; Fin top].
(** the largest value of a list *)
Definition greatest (m : R) (l : list R) : Prop := In m l /\ forall v, In v l -> v <= m.
(** the decimal numeral [d] stands for [n] *)
Definition numeral (d : string) (n : nat) : Prop :=
  exists u, NilZero.uint_of_string d = Some u /\ Nat.of_uint u = n.

(** ** C78 Figures *)

Lemma vline label T top (S : list R) : S <> [] -> greatest top S -> T <> 0 ->
  period_line (N:=NX) label (Some (Fin T)) (F S) = Ok [vertical label (1 / T) top].
Proof.
  intros HS [H1 H2] HT. unfold period_line. rewrite npmax_F. destruct (pymax_F S HS) as (mx & -> & Im & Mm). rewrite bind_Ok.
  replace mx with top by (apply Rle_antisym; [apply Mm; auto|apply H2; auto]). rewrite fin_0, fin_1, fin_div by auto. reflexivity.
Qed.
Lemma vline_total label T (S : list R) : S <> [] -> exists l, period_line (N:=NX) label T (F S) = Ok l /\ (forall x, In x l -> l_label x = label) /\ (T = None -> l = []).
Proof.
  intros HS. destruct T as [T|]; cbn [period_line].
  - rewrite npmax_F. destruct (pymax_F S HS) as (mx & -> & _). rewrite bind_Ok. eexists. split; [reflexivity|]. split; [|discriminate].
    intros x [<-|[]]; reflexivity.
  - exists []. split; [reflexivity|]. split; [intros x []|auto].
Qed.

(** After any history of getter calls the plot shows the curve of the spectrum and nothing else when the periods are switched off;
    otherwise, for each of the three periods whose getter has returned T, a vertical line at the frequency 1/T of the most recent value, and
    no line for a period that no call has computed. *)
Theorem C78_spectrum_plot (f S : list R) (history : list (spec_call NX)) (top : R) : greatest top S ->
  let plot := spectrum_plot (spec_run history (fresh (F f) (F S))) in
  let curve := mkLine (N:=NX) "Spectrum" (F f) (F S) in
  plot false = Ok [curve]
  /\ exists lines, plot true = Ok (curve :: lines)
     /\ (forall before c after T label, history = before ++ c :: after -> shown_as c label -> (forall d, In d after -> ~ shown_as d label) ->
           returns (F f) (F S) before c = Ok (Fin T) -> T <> 0 ->
           forall l, In l lines /\ l_label l = label <-> l = vertical label (1 / T) top)
     /\ (forall l, In l lines -> exists c, shown_as c (l_label l))
     /\ (forall c label, shown_as c label -> (forall d, In d history -> own d <> own c /\ ~ needs d (own c)) ->
           forall l, In l lines -> l_label l <> label).
Proof.
  intros Ht plot curve. assert (HS : S <> []) by (intros ->; destruct Ht as [[] _]).
  set (sp := spec_run history (fresh (F f) (F S))) in *.
  destruct (C41_object_unchanged (F f) (F S) history) as [Ef Es]. fold sp in Ef, Es.
  unfold plot, spectrum_plot. rewrite Ef, Es. split; [reflexivity|].
  destruct (vline_total "Tps" (s_Tps sp) S HS) as (a & Ea & La & Na).
  destruct (vline_total "Tmm10" (s_Tmm10 sp) S HS) as (b & Eb & Lb & Nb).
  destruct (vline_total "Tm02" (s_Tm02 sp) S HS) as (c & Ec & Lc & Nc).
  rewrite Ea, bind_Ok, Eb, bind_Ok, Ec, bind_Ok. exists (a ++ b ++ c). split; [reflexivity|].
  assert (Split : forall l, In l (a ++ b ++ c) <-> In l a \/ In l b \/ In l c) by (intros l; rewrite !in_app_iff; tauto).
  split; [|split].
  - intros before k after T label Eh Hk Hafter Hr HT l. 
    assert (St : stored (own k) sp = Some (Fin T)).
    { unfold sp. rewrite Eh. apply C75_last_value; auto. intros d Hd E. apply (Hafter d Hd). destruct k; cbn in Hk; try contradiction; destruct d; cbn in *; try discriminate; auto. }
    rewrite Split. destruct k; cbn [shown_as] in Hk; try contradiction; subst label; cbn [own stored] in St.
    + rewrite St, (vline _ _ top) in Ea by auto. apply Ok_inj in Ea. subst a. split.
      * intros [[H|[H|H]] E]; [destruct H as [<-|[]]; reflexivity|rewrite (Lb l H) in E; discriminate|rewrite (Lc l H) in E; discriminate].
      * intros ->. split; [left; left; reflexivity|reflexivity].
    + rewrite St, (vline _ _ top) in Eb by auto. apply Ok_inj in Eb. subst b. split.
      * intros [[H|[H|H]] E]; [rewrite (La l H) in E; discriminate|destruct H as [<-|[]]; reflexivity|rewrite (Lc l H) in E; discriminate].
      * intros ->. split; [right; left; left; reflexivity|reflexivity].
    + rewrite St, (vline _ _ top) in Ec by auto. apply Ok_inj in Ec. subst c. split.
      * intros [[H|[H|H]] E]; [rewrite (La l H) in E; discriminate|rewrite (Lb l H) in E; discriminate|destruct H as [<-|[]]; reflexivity].
      * intros ->. split; [right; right; left; reflexivity|reflexivity].
  - intros l Hl. apply Split in Hl as [H|[H|H]].
    + exists (CTps n0 n0). apply (La l H).
    + exists (CTmm10 n0 n0). apply (Lb l H).
    + exists (CTm02 n0 n0). apply (Lc l H).
  - intros k label Hk Hno l Hl E. assert (Hm : stored (own k) sp = None) by (apply C75_missing; auto).
    apply Split in Hl. destruct k; cbn [shown_as] in Hk; try contradiction; subst label; cbn [own stored] in Hm.
    + rewrite (Na Hm) in Hl. destruct Hl as [[]|[H|H]]; [rewrite (Lb l H) in E|rewrite (Lc l H) in E]; discriminate.
    + rewrite (Nb Hm) in Hl. destruct Hl as [H|[[]|H]]; [rewrite (La l H) in E|rewrite (Lc l H) in E]; discriminate.
    + rewrite (Nc Hm) in Hl. destruct Hl as [H|[H|[]]]; [rewrite (La l H) in E|rewrite (Lb l H) in E]; discriminate.
Qed.

Lemma zero_line (l : list R) : map (fun v => nmul (n:=NX) v n0) (F l) = F (map (fun _ => 0) l).
Proof. unfold F. rewrite !map_map. apply map_ext. intros v. rewrite fin_0, fin_mul. f_equal. lra. Qed.

(** calls that do not repeat the wave analysis keep the stored crossings *)
Lemma wave_calls_keep argsort (cs : list (wh_call NX)) (s : series NX) :
  se_tCross (series_run argsort (map SWave cs) s) = se_tCross s.
Proof.
  revert s. induction cs as [|c cs IH]; intros s; [reflexivity|]. cbn [map series_run fold_left].
  change (fold_left _ (map SWave cs) ?u) with (series_run argsort (map SWave cs) u). rewrite IH. reflexivity.
Qed.

(** the plot of a Series on a uniform axis shows the record and - on request - one marker for every zero-down-crossing of the record: on the
    line 0, in time order, where the straight line through the two samples around it is zero; whichever wave statistics have been asked for
    in between *)
Theorem C78_series_plot argsort (t0 dt : R) (x : list R) (at_ ax : arraylike NX) (calls : list (wh_call NX)) :
  0 < dt -> (2 <= length x)%nat ->
  let t := axis t0 dt (length x) in
  holds_vector (F t) at_ -> holds_vector (F x) ax ->
  exists s is tau, series_init at_ ax = Ok s
    /\ all_crossings Down x is /\ length tau = length is /\ increasing tau
    /\ (forall k, (k < length tau)%nat ->
         let i := nth k is 0%nat in
         let ti := t0 + INR i * dt in
         ti <= nth k tau 0 < ti + dt
         /\ nth i x 0 + (nth (S i) x 0 - nth i x 0) * ((nth k tau 0 - ti) / dt) = 0)
    /\ (let s' := series_run argsort (map SWave calls) s in
        series_plot s' false = [mkLine (N:=NX) "series" (F t) (F x)]
        /\ series_plot s' true = [mkLine (N:=NX) "series" (F t) (F x); mkLine (N:=NX) "crossing" (F tau) (F (map (fun _ => 0) tau))]).
Proof.
  intros Hdt H2 t Ht Hx.
  destruct (C16_uniform_accepted t0 dt x at_ ax Hdt H2 Ht Hx) as (s & tc & ws & E & Et & Ex & En & Ed & Z & W & St & Ec).
  destruct (C07_crossing_times t0 dt x "down" Down eq_refl Hdt H2) as (is & tau & tc' & A & L & Z' & D & I & K).
  assert (tc' = tc) as ->.
  { assert (Q := eq_trans (eq_sym Z') Z). apply Ok_inj in Q. congruence. }
  exists s, is, tau. split; [exact E|]. split; [exact A|]. split; [exact L|]. split; [exact I|]. split; [exact K|].
  cbn zeta. destruct (C53_signal_untouched argsort (map SWave calls) s) as (Et' & Ex' & _).
  unfold series_plot. rewrite wave_calls_keep, Et', Ex', Et, Ex, Ec, D, zero_line. split; reflexivity.
Qed.
(** _determine_individual_waves replaces the markers by those of the waves it keeps *)
Theorem C78_series_plot_after (s : series NX) (typeCross : string) (fcutoff m : NX) (n : Z) (tc : arr NX) (all : list (wave NX)) :
  series_crossings (se_t s) (se_x s) typeCross fcutoff = Ok (n, tc) ->
  determine_params_individual_waves (Arr tc) (Arr (vec (se_t s))) (Arr (vec (se_x s))) = Ok all ->
  exists marks, series_plot (fst (series_determine s typeCross fcutoff m)) true
    = [mkLine (N:=NX) "series" (se_t s) (se_x s); mkLine (N:=NX) "crossing" marks (map (fun v => nmul (n:=NX) v (Fin 0)) marks)]
    /\ marks = map fst (filter (fun q => negb (below m (snd q))) (combine (data tc) all)) ++ skipn (length all) (data tc).
Proof.
  intros Hc Hw. eexists. split; [|reflexivity]. rewrite <- (C17_stored_crossings s typeCross fcutoff m n tc all Hc Hw).
  destruct (C17_minimum_wave s typeCross fcutoff m n tc all Hc Hw) as (s' & kept & D & _ & _ & Et & Ex & _).
  unfold series_plot. rewrite D. cbn [fst]. rewrite Et, Ex, fin_0. reflexivity.
Qed.

(** ** C78 The histogram of wave heights *)

(** bin [i] of ten equal bins from [lo] to [hi]; the largest value belongs to the last bin *)
Definition in_bin (lo hi : R) (i : nat) (v : R) : Prop :=
  lo + INR i * ((hi - lo) / 10) <= v /\ (v < lo + INR (S i) * ((hi - lo) / 10) \/ (i = 9%nat /\ v = hi)).
(** [n] values of [l] satisfy [P] *)
Inductive count {A} (P : A -> Prop) : list A -> nat -> Prop :=
| count_nil : count P [] 0
| count_yes a l n : P a -> count P l n -> count P (a :: l) (S n)
| count_no a l n : ~ P a -> count P l n -> count P (a :: l) n.
(** the range of the histogram: from the smallest to the largest value, one unit wide if they coincide *)
Definition hist_limits (h : list R) (lo hi : R) : Prop :=
  exists mn mx, (In mn h /\ forall v, In v h -> mn <= v) /\ greatest mx h
    /\ ((mn < mx /\ lo = mn /\ hi = mx) \/ (mn = mx /\ lo = mn - 1/2 /\ hi = mx + 1/2)).

Lemma count_filter {A} (P : A -> Prop) (p : A -> bool) l : (forall a, In a l -> (p a = true <-> P a)) -> count P l (length (filter p l)).
Proof.
  induction l as [|a l IH]; intros H; [constructor|]. cbn [filter]. destruct (p a) eqn:E.
  - cbn [length]. constructor; [apply H; [left; auto|auto]|]. apply IH. intros; apply H; right; auto.
  - constructor; [intros K; apply H in K; [congruence|left; auto]|]. apply IH. intros; apply H; right; auto.
Qed.
Lemma INR10 : INR 10 = 10. Proof. cbn; lra. Qed.
Lemma INR9 : INR 9 = 9. Proof. cbn; lra. Qed.
Lemma edge_F lo hi i : (i <= 10)%nat -> hist_edge (N:=NX) (Fin lo) (Fin hi) i = Fin (lo + INR i * ((hi - lo) / 10)).
Proof.
  intros Hi. unfold hist_edge. destruct (Nat.eqb_spec i 10) as [->|_].
  - f_equal. rewrite INR10. field.
  - rewrite fin_ofnat, fin_ofZ, fin_sub, fin_div, fin_mul, fin_add by lra. reflexivity.
Qed.
Lemma filter_F (p : NX -> bool) l : length (filter p (F l)) = length (filter (fun v => p (Fin v)) l).
Proof. unfold F. induction l as [|a l IH]; [reflexivity|]. cbn [map filter]. destruct (p (Fin a)); cbn [length]; auto. Qed.

Definition binb lo hi i v : bool := Rleb (lo + INR i * ((hi - lo) / 10)) v
  && (if Nat.eqb i 9 then Rleb v (lo + INR (S i) * ((hi - lo) / 10)) else Rltb v (lo + INR (S i) * ((hi - lo) / 10))).
Lemma binb_spec lo hi i v : binb lo hi i v = true <-> in_bin lo hi i v.
Proof.
  unfold binb, in_bin. rewrite andb_true_iff. destruct (Rleb_spec (lo + INR i * ((hi - lo) / 10)) v) as [H1|H1]; [|intuition (discriminate || lra)].
  destruct (Nat.eqb_spec i 9) as [->|Hi].
  - replace (lo + INR 10 * ((hi - lo) / 10)) with hi by (rewrite INR10; field).
    destruct (Rleb_spec v hi) as [H|H]; split; intros K; try tauto.
    + split; [auto|]. destruct (Req_dec v hi); [right; auto|left; lra].
    + destruct K; discriminate.
    + exfalso. destruct K as [_ [K|[_ K]]]; lra.
  - destruct (Rltb_spec v (lo + INR (S i) * ((hi - lo) / 10))); intuition (discriminate || lra || contradiction).
Qed.
Lemma in_one_bin lo hi v : lo < hi -> lo <= v <= hi -> exists i, (i < 10)%nat /\ forall j, (j < 10)%nat -> (in_bin lo hi j v <-> j = i).
Proof.
  intros Hlt Hv. set (w := (hi - lo) / 10). assert (Hw : 0 < w) by (unfold w; lra).
  destruct (Req_dec v hi) as [->|Hne].
  - exists 9%nat. split; [lia|]. intros j Hj. unfold in_bin. fold w. assert (hi = lo + 10 * w) by (unfold w; field). split.
    + intros [_ [K|[K _]]]; [|auto]. exfalso. assert (INR (S j) <= 10) by (rewrite <- INR10; apply le_INR; lia). nra.
    + intros ->. split; [|right; auto]. rewrite INR9. nra.
  - assert (0 <= (v - lo) / w) by (apply Rmult_le_pos; [lra|left; apply Rinv_0_lt_compat; auto]).
    destruct (floor_is_exists ((v - lo) / w)) as (i & Hi); auto. destruct Hi as [Hi1 Hi2].
    assert (A : INR i * w <= v - lo) by (apply (Rmult_le_compat_r w) in Hi1; [|lra]; unfold Rdiv in Hi1; rewrite Rmult_assoc, Rinv_l, Rmult_1_r in Hi1 by lra; lra).
    assert (B : v - lo < (INR i + 1) * w) by (apply (Rmult_lt_compat_r w) in Hi2; [|lra]; unfold Rdiv in Hi2; rewrite Rmult_assoc, Rinv_l, Rmult_1_r in Hi2 by lra; lra).
    assert (T : v - lo < 10 * w) by (unfold w; lra).
    assert (C : (i < 10)%nat) by (apply INR_lt; rewrite INR10; nra).
    exists i. split; [exact C|]. intros j Hj. unfold in_bin. fold w. rewrite S_INR. split.
    + intros [K1 [K2|[_ K2]]]; [|lra]. assert (INR j < INR i + 1) by nra. assert (INR i < INR j + 1) by nra.
      rewrite <- S_INR in *. apply INR_lt in H0, H1. lia.
    + intros ->. split; [lra|left; lra].
Qed.
Lemma bins_total lo hi (l : list R) : lo < hi -> (forall v, In v l -> lo <= v <= hi) ->
  list_sum (map (fun i => length (filter (binb lo hi i) l)) (seq 0 10)) = length l.
Proof.
  intros Hlt. induction l as [|a l IH]; intros Hl; [reflexivity|].
  transitivity (list_sum (map (fun i => (if binb lo hi i a then 1 else 0) + length (filter (binb lo hi i) l))%nat (seq 0 10))).
  { f_equal. apply map_ext. intros i. cbn [filter]. destruct (binb lo hi i a); reflexivity. }
  assert (D : forall (g k : nat -> nat) q, list_sum (map (fun i => (g i + k i)%nat) q) = (list_sum (map g q) + list_sum (map k q))%nat).
  { intros g k q. induction q as [|i q IHq]; [reflexivity|]. cbn [map list_sum fold_right]. unfold list_sum in IHq. rewrite IHq. cbn. lia. }
  rewrite D, IH by (intros; apply Hl; right; auto). cbn [length].
  destruct (in_one_bin lo hi a Hlt (Hl a (or_introl eq_refl))) as (i & Hi & U).
  assert (E : forall j, (j < 10)%nat -> (if binb lo hi j a then 1 else 0)%nat = (if Nat.eqb j i then 1 else 0)%nat).
  { intros j Hj. destruct (Nat.eqb_spec j i) as [->|Hne].
    - rewrite (proj2 (binb_spec lo hi i a)); [reflexivity|]. apply U; auto.
    - destruct (binb lo hi j a) eqn:Eb; [|reflexivity]. apply binb_spec, U in Eb; auto; contradiction. }
  rewrite (map_ext_in _ (fun j => if Nat.eqb j i then 1 else 0)%nat) by (intros j Hj; apply in_seq in Hj; apply E; lia).
  do 10 (destruct i as [|i]; [reflexivity|]). lia.
Qed.
Lemma count_perm {A} (P : A -> Prop) l l' n : Permutation l l' -> count P l n -> count P l' n.
Proof.
  intros Hp. revert n. induction Hp; intros n H.
  - auto.
  - inversion H; subst; constructor; auto.
  - inversion H; subst; match goal with K : count P (_ :: l) _ |- _ => inversion K; subst end; first [apply count_yes; [assumption|] | apply count_no; [assumption|]]; first [apply count_yes; [assumption|] | apply count_no; [assumption|]]; assumption.
  - auto.
Qed.
Lemma limits_perm h h' lo hi : Permutation h h' -> hist_limits h lo hi -> hist_limits h' lo hi.
Proof.
  intros Hp (mn & mx & [A1 A2] & [B1 B2] & C). exists mn, mx. split; [|split; [|exact C]].
  - split; [eapply Permutation_in; eauto|]. intros v Hv. apply A2. eapply Permutation_in; [apply Permutation_sym; eauto|auto].
  - split; [eapply Permutation_in; eauto|]. intros v Hv. apply B2. eapply Permutation_in; [apply Permutation_sym; eauto|auto].
Qed.

Lemma map_fst_combine {A B} (a : list A) (b : list B) : length a = length b -> map fst (combine a b) = a.
Proof. revert b. induction a as [|x a IH]; intros [|y b] H; try discriminate; [reflexivity|]. cbn. f_equal. apply IH. auto. Qed.
(** After any history of calls the histogram shows, for all waves the object was made with, the numbers of heights in ten equal bins from the
    smallest to the largest height: every wave is counted exactly once. *)
Theorem C78_histogram argsort (h t : list R) (calls : list (wh_call NX)) :
  is_argsort argsort -> h <> [] -> length h = length t ->
  exists lo hi counts, hist_limits h lo hi /\ lo < hi
    /\ wh_plot_hist (wh_run argsort calls (new_wh h t)) = Ok (F (map (fun i => lo + INR i * ((hi - lo) / 10)) (seq 0 11)), counts)
    /\ length counts = 10%nat /\ (forall i, (i < 10)%nat -> count (in_bin lo hi i) h (nth i counts 0%nat))
    /\ list_sum counts = length h.
Proof.
  intros Hs Hne Hl. destruct (C14_waves_preserved argsort h t calls Hs Hne Hl) as (hs & ts & Eh & Et & En & L1 & L2 & P0).
  assert (P : Permutation hs h).
  { apply (Permutation_map fst) in P0. rewrite !map_fst_combine in P0 by lia. exact P0. }
  unfold wh_plot_hist. rewrite Eh. cbn [data vec].
  assert (Hn : hs <> []) by (intros ->; apply Permutation_nil in P; contradiction).
  destruct (pymin_F hs Hn) as (mn & Emn & Imn & Mmn). destruct (pymax_F hs Hn) as (mx & Emx & Imx & Mmx).
  assert (R : exists lo hi, hist_range (N:=NX) (F hs) = Ok (Fin lo, Fin hi) /\ hist_limits hs lo hi /\ lo < hi /\ (forall v, In v hs -> lo <= v <= hi)).
  { unfold hist_range. destruct hs as [|a hs]; [contradiction|]. cbn [F map]. change (Fin a :: map Fin hs) with (F (a :: hs)).
    rewrite npmin_F, npmax_F, Emn, bind_Ok, Emx, bind_Ok. rewrite fin_0, !fin_mul, !fin_eqb, !(Reqb_true _ 0) by lra. cbn [negb orb].
    assert (mn <= mx) by (apply Mmn; auto). destruct (Reqb_spec mn mx) as [E|E].
    - rewrite fin_lit by lra. rewrite fin_sub, fin_add. exists (mn - 1/2), (mx + 1/2).
      split; [reflexivity|]. split; [exists mn, mx; split; [split; auto|split; [split; auto|right; auto]]|]. split; [lra|].
      intros v Hv. specialize (Mmn v Hv). specialize (Mmx v Hv). lra.
    - exists mn, mx. split; [reflexivity|]. split; [exists mn, mx; split; [split; auto|split; [split; auto|left; repeat split; lra]]|]. split; [lra|].
      intros v Hv. split; auto. }
  destruct R as (lo & hi & -> & Lim & Hlt & Hin). rewrite bind_Ok.
  exists lo, hi, (map (hist_count (N:=NX) (Fin lo) (Fin hi) (F hs)) (seq 0 10)).
  split; [apply (limits_perm hs); auto|]. split; [exact Hlt|].
  split. { do 2 f_equal. unfold F. rewrite map_map. apply map_ext_in. intros i Hi. apply in_seq in Hi. apply edge_F; lia. }
  split; [rewrite map_length, seq_length; reflexivity|].
  assert (Hc : forall i, (i < 10)%nat -> hist_count (N:=NX) (Fin lo) (Fin hi) (F hs) i = length (filter (binb lo hi i) hs)).
  { intros i Hi. unfold hist_count. rewrite filter_F, !edge_F by lia. unfold binb. destruct (Nat.eqb i 9); reflexivity. }
  split.
  - intros i Hi. rewrite (nth_indep _ 0%nat (hist_count (N:=NX) (Fin lo) (Fin hi) (F hs) 0%nat)) by (rewrite map_length, seq_length; auto).
    rewrite map_nth, seq_nth, Nat.add_0_l, Hc by auto. apply (count_perm _ hs); [auto|]. apply count_filter. intros v _. apply binb_spec.
  - rewrite (map_ext_in _ (fun i => length (filter (binb lo hi i) hs))) by (intros i Hi; apply in_seq in Hi; apply Hc; lia).
    rewrite bins_total by auto. apply Permutation_length; auto.
Qed.
(** ** C78 Text representations *)

Lemma unorm_nonnil d : unorm d <> Decimal.Nil.
Proof. unfold unorm. destruct (nzhead d); discriminate. Qed.
Lemma dec_numeral n : numeral (dec n) n.
Proof.
  exists (Nat.to_uint n). split; [|apply Unsigned.of_to]. unfold dec. apply NilZero.usu.
  rewrite <- (Unsigned.of_to n), Unsigned.to_of. apply unorm_nonnil.
Qed.

(** str and repr of a Series report the number of samples, those of a WaveHeights object the number of waves it was made with, after any
    history of calls *)
Theorem C78_text_series argsort (t0 dt : R) (x : list R) (at_ ax : arraylike NX) (calls : list (series_call NX)) :
  0 < dt -> (2 <= length x)%nat -> holds_vector (F (axis t0 dt (length x))) at_ -> holds_vector (F x) ax ->
  exists s d, series_init at_ ax = Ok s /\ numeral d (length x)
    /\ series_str (series_run argsort calls s) = ("Series with " ++ d ++ " elements")%string
    /\ series_repr (series_run argsort calls s) = ("Series (series  nt = " ++ d ++ ")")%string.
Proof.
  intros Hdt H2 Ht Hx.
  destruct (C16_uniform_accepted t0 dt x at_ ax Hdt H2 Ht Hx) as (s & tc & ws & E & Et & Ex & En & _).
  exists s, (dec (length x)). split; [exact E|]. split; [apply dec_numeral|].
  unfold series_str, series_repr. destruct (C53_signal_untouched argsort calls s) as (_ & _ & -> & _). rewrite En. auto.
Qed.
Lemma wh_n_kept argsort (calls : list (wh_call NX)) (s : waveheights NX) : wh_n (wh_run argsort calls s) = wh_n s.
Proof.
  revert s. induction calls as [|c cs IH]; intros s; [reflexivity|]. cbn [wh_run fold_left]. change (fold_left _ cs ?u) with (wh_run argsort cs u). rewrite IH.
  assert (K : forall q, wh_n (fst (wh_sort argsort q)) = wh_n q).
  { intros q. unfold wh_sort. destruct (sort_wave_params _ _ _) as [[a b]|e]; reflexivity. }
  assert (B : forall {A B} (m : wh_meth A) (k : A -> wh_meth (N:=NX) B), (forall q, wh_n (fst (m q)) = wh_n q) -> (forall a q, wh_n (fst (k a q)) = wh_n q) ->
     forall q, wh_n (fst (wbind m k q)) = wh_n q).
  { intros A B m k Hm Hk q. unfold wbind. specialize (Hm q). destruct (m q) as [q' [a|e]]; cbn [fst] in *; [rewrite Hk; auto|auto]. }
  assert (Hi : forall p q, wh_n (fst (wh_highest argsort p q)) = wh_n q) by (intros; unfold wh_highest; apply B; auto).
  assert (H2 : forall q, wh_n (fst (wh_H2p_Rayleigh argsort q)) = wh_n q) by (intros; unfold wh_H2p_Rayleigh, wh_Hs; apply B; auto).
  destruct c; cbn [wh_step]; auto.
  - unfold wh_Hs. auto.
  - unfold wh_exceedance. apply B; auto.
  - unfold wh_plot_exceedance. apply B; auto.
  - unfold wh_plot_Rayleigh. apply B.
    + intros q. destruct normalize; [|reflexivity]. apply B; [|auto]. intros. unfold wh_Hs. auto.
    + intros a q. apply (B _ _ (wh_H2p_Rayleigh argsort)); [exact H2|]. intros a' q'. apply B; auto.
Qed.
Theorem C78_text_waves argsort (h t : list NX) (ah at_ : arraylike NX) (calls : list (wh_call NX)) :
  h <> [] -> holds_vector h ah ->
  exists d, numeral d (length h)
    /\ wh_str (wh_run argsort calls (wh_init ah at_)) = ("Series with " ++ d ++ " elements")%string
    /\ wh_repr (wh_run argsort calls (wh_init ah at_)) = ("WaveHeights (series  nt = " ++ d ++ ")")%string.
Proof.
  intros Hh Ha. exists (dec (length h)). split; [apply dec_numeral|]. unfold wh_str, wh_repr. rewrite wh_n_kept.
  unfold wh_init. destruct (hv_convert h ah Hh Ha) as (k & _ & E). rewrite E. destruct (convert_to_vector at_). cbn. auto.
Qed.
(** a Spectrum reports the number of frequencies, and is called 2D exactly when a non-empty directional array came with it; both never change *)
Theorem C78_text_spectrum (f S : list R) (af as_ : arraylike NX) (D : arr NX) (calls : list (spec_call NX)) :
  (2 <= length f)%nat -> holds_vector (F f) af -> holds_vector (F S) as_ -> good_axis f -> length S = length f ->
  exists s d label, spectrum_init_D af as_ D = Ok s /\ numeral d (length f)
    /\ (label = "1D" <-> asize D = 0%nat)%string /\ (label = "2D" <-> asize D <> 0%nat)%string
    /\ dspec_str (dspec_run calls s) = (label ++ " wave spectrum with " ++ d ++ " number of frequencies")%string
    /\ dspec_repr (dspec_run calls s) = ("Spectrum (spec = " ++ label ++ ")")%string
    /\ d_D (dspec_run calls s) = D /\ s_f (d_spec (dspec_run calls s)) = F f /\ s_S (d_spec (dspec_run calls s)) = F S.
Proof.
  intros L2 Hf Hs Hg HL. assert (S <> []) by (intros ->; cbn in HL; lia).
  assert (E : spectrum_init af as_ = Ok (fresh (N:=NX) (F f) (F S))) by (apply C63_object; auto).
  unfold spectrum_init_D. rewrite E, bind_Ok. eexists _, (dec (length f)), (if Nat.eqb (asize D) 0 then "1D" else "2D")%string. split; [reflexivity|]. split; [apply dec_numeral|].
  cbn [dspec_run dspec_str dspec_repr d_label d_nf d_D d_spec s_f fresh]. unfold dspec_str, dspec_repr. cbn [d_label d_nf]. rewrite F_length.
  destruct (C41_object_unchanged (F f) (F S) calls) as [Ef Es].
  split; [destruct (Nat.eqb_spec (asize D) 0); split; intros; try discriminate; try contradiction; auto|].
  split; [destruct (Nat.eqb_spec (asize D) 0); split; intros; try discriminate; try contradiction; auto|]. auto.
Qed.

(** the hypotheses are met: a record with two down-crossings, and a spectrum whose plot, after get_Hm0 and get_Tm02, shows its curve and one
    vertical line at 1 Hz *)
Example C78_witness_series :
  (exists s, series_init (Arr (vec (F (axis 0 (1/2) 4)))) (Arr (vec (F [1; -1; 2; -1]))) = Ok s)
  /\ all_crossings Down [1; -1; 2; -1] [0; 2]%nat /\ numeral "104" 104.
Proof.
  split; [|split; [apply C07_witness|exists (Nat.to_uint 104); split; reflexivity]].
  destruct (C16_uniform_accepted 0 (1/2) [1; -1; 2; -1] _ _ ltac:(lra) ltac:(cbn; lia) (hv_flat _) (hv_flat _)) as (s & tc & ws & E & _).
  exists s. exact E.
Qed.
Example C78_witness_spectrum :
  let f := [0; 1; 2; 3; 4] in let S := [0; 1; 0; 0; 0] in let all := Fin (-1) in
  exists lines, spectrum_plot (spec_run [CHm0 all all; CTm02 all all] (fresh (F f) (F S))) true
    = Ok (mkLine (N:=NX) "Spectrum" (F f) (F S) :: lines)
  /\ forall l, In l lines <-> l = vertical "Tm02" 1 1.
Proof.
  intros f s all.
  assert (X : axis 0 1 5 = f) by apply axis_0_4.
  assert (Hf : freq_axis f) by (rewrite <- X; apply axis_freq; lra || (cbn; lia)).
  assert (Lf : length s = length f) by reflexivity.
  assert (Lo : lower_limit f all (Fin (nth 0 f 0))) by (left; auto).
  assert (Hi : upper_limit f all (Fin (last_of f))) by (left; auto).
  assert (T : returns (F f) (F s) [CHm0 all all] (CTm02 all all) = Ok (Fin 1)).
  { rewrite C41_history_independent by exact I. unfold returns. cbn [spec_run fold_left spec_step].
    destruct (C63_getters f s all all (Fin (last_of f)) (nth 0 f 0) (fresh (F f) (F s)) eq_refl eq_refl Hf Lf Lo Hi) as (m_1 & m0 & m1 & m2 & q & T & _ & E0 & _ & E2 & _ & _ & _ & _ & [Q _] & R & ->).
    { exists 0%nat. apply whole_band; [apply good_increasing, Hf|]. cbn; lia. }
    rewrite <- (proj1 (C32_default_limits f s 0 (Fin (-1)) Hf Lf)), moment_all in E0 by auto.
    rewrite <- (proj1 (C32_default_limits f s 2 (Fin (-1)) Hf Lf)), moment_all in E2 by auto.
    apply Ok_inj, fin_inj in E0, E2.
    assert (V0 : m0 = 4 / 3).
    { rewrite <- E0. unfold weighted, without_zero, f, s. cbn [Z.ltb Z.compare andb].
      unfold rsimp, rbasic, rpanel, rlast. cbn. field. }
    assert (V2 : m2 = 4 / 3).
    { rewrite <- E2. unfold weighted, without_zero, f, s. cbn [Z.ltb Z.compare andb].
      unfold rsimp, rbasic, rpanel, rlast. cbn. change (Pos.to_nat 2) with 2%nat. field. }
    rewrite Q, V0, V2 in R by lra. destruct R as [R _]. replace (4 / 3 / (4 / 3)) with 1 in R by field. rewrite R, sqrt_1 by lra. reflexivity. }
  assert (G : greatest 1 s) by (split; [cbn; auto|]; cbn; intros v Hv; repeat destruct Hv as [<-|Hv]; try lra; contradiction).
  destruct (C78_spectrum_plot f s [CHm0 all all; CTm02 all all] 1 G) as (_ & lines & -> & M & N & A).
  specialize (M [CHm0 all all] (CTm02 all all) [] 1 "Tm02"%string eq_refl eq_refl (fun d H => match H with end) T ltac:(lra)).
  replace (1 / 1) with 1 in M by field.
  exists lines. split; [reflexivity|]. intros l. rewrite <- M. split; [|tauto]. intros Hl. split; [exact Hl|].
  assert (No : forall c label, shown_as c label -> (match c with CTps _ _ => True | CTmm10 _ _ => True | _ => False end) -> l_label l <> label).
  { intros c label Hc Hk. apply (A c label Hc); [|exact Hl]. intros d [<-|[<-|[]]]; destruct c; try contradiction; (split; [discriminate|intros []]). }
  destruct (N l Hl) as (c & Hc). destruct c; cbn [shown_as] in Hc; try contradiction; [| |exact Hc].
  - exfalso. apply (No (CTps n0 n0) "Tps"%string eq_refl I Hc).
  - exfalso. apply (No (CTmm10 n0 n0) "Tmm10"%string eq_refl I Hc).
Qed.

Lemma no_waves_run argsort calls (s : waveheights NX) : wh_h s = vec [] -> wh_t s = vec [] -> wh_run argsort calls s = s.
Proof.
  intros H1 H2. assert (Es : wh_sort argsort s = (s, Raise ValueError)) by (unfold wh_sort, sort_wave_params; rewrite H1, H2; reflexivity).
  unfold wh_run. induction calls as [|c calls IH]; [reflexivity|]. cbn [fold_left]. replace (wh_step argsort c s) with s; [exact IH|].
  symmetry. destruct c; cbn; unfold wh_plot_exceedance, wh_plot_Rayleigh, wh_H2p_Rayleigh, wh_Hs, wh_highest, wh_exceedance, wbind; try destruct normalize; rewrite ?Es; cbn; unfold wh_Hs, wh_highest, wbind; rewrite ?Es; reflexivity.
Qed.
(** A Series without waves: the histogram is drawn with ten empty bins between 0 and 1 *)
Theorem C78_histogram_no_waves argsort (t0 dt : R) (x : list R) : 0 < dt -> (2 <= length x)%nat -> no_down_waves x ->
  exists s, series_init (Arr (vec (F (axis t0 dt (length x))))) (Arr (vec (F x))) = Ok s
    /\ forall calls, wh_plot_hist (wh_run argsort calls (se_wh s)) = Ok (F (map (fun i => INR i / 10) (seq 0 11)), repeat 0%nat 10).
Proof.
  intros Hdt H2 Hno.
  destruct (C16_uniform_accepted t0 dt x _ _ Hdt H2 (hv_flat _) (hv_flat _)) as (s & tc & ws & E & _ & _ & _ & _ & _ & _ & (S1 & S2 & S3) & _).
  destruct (C18_no_waves_raises argsort t0 dt x (Fin 0) Hdt H2 Hno) as (s' & E' & N0 & _). rewrite E in E'. apply Ok_inj in E'. subst s'.
  assert (W : ws = []) by (destruct ws; [reflexivity|cbn in S3; lia]). rewrite W in S1, S2. cbn in S1, S2.
  exists s. split; [exact E|]. intros calls. rewrite no_waves_run by auto. unfold wh_plot_hist. rewrite S1. cbn [data vec hist_range]. rewrite bind_Ok. f_equal. f_equal.
  - unfold F. rewrite map_map. apply map_ext_in. intros i Hi. apply in_seq in Hi. unfold hist_edge. rewrite fin_0, fin_1, fin_ofZ, fin_ofnat, fin_sub, fin_div by lra. rewrite fin_mul, fin_add.
    destruct (Nat.eqb_spec i 10) as [->|]; f_equal; [cbn; lra|]. unfold Rdiv. ring.
Qed.

(** A Spectrum made without the directional argument is 1D, and its D has shape (0, 0) *)
Theorem C78_no_directions (f S : list R) (af as_ : arraylike NX) (calls : list (spec_call NX)) :
  (2 <= length f)%nat -> holds_vector (F f) af -> holds_vector (F S) as_ -> good_axis f -> length S = length f ->
  exists s d, spectrum_init_D af as_ no_directions = Ok s /\ numeral d (length f)
    /\ dspec_str (dspec_run calls s) = ("1D wave spectrum with " ++ d ++ " number of frequencies")%string
    /\ shape (d_D (dspec_run calls s)) = [0; 0]%nat /\ data (d_D (dspec_run calls s)) = [].
Proof.
  intros L2 Hf Hs Hg HL. destruct (C78_text_spectrum f S af as_ no_directions calls L2 Hf Hs Hg HL) as (s & d & label & E & Hd & [_ H1] & _ & T & _ & D & _).
  exists s, d. rewrite (H1 eq_refl) in T. split; [exact E|]. split; [exact Hd|]. split; [exact T|]. rewrite D. split; reflexivity.
Qed.
