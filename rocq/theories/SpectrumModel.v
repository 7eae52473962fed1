(** * Model of deltares_wave_toolbox/spectrum.py (class Spectrum)

    Object state: the immutable axis and density, and the attributes that the getters
    create (absent = None, Python hasattr). *)

From Coq Require Import ZArith String List Bool.
From Verif Require Import Num Engine WaveModel.
Import ListNotations.

Section Spectrum.
  Context {N : Num}.
  Local Open Scope num_scope.

  Record spec := mkSpec {
    s_f : list N; s_S : list N;
    s_Hm0 : option N; s_Hm0_HF : option N; s_Hm0_LF : option N;
    s_Tps : option N; s_Tp : option N;
    s_Tmm10 : option N; s_Tmm10_HF : option N; s_Tmm10_LF : option N;
    s_Tm01 : option N; s_Tm02 : option N;
    s_s0p : option N; s_smm10 : option N; s_smm10_HF : option N }.

  Definition fresh (f S : list N) : spec :=
    mkSpec f S None None None None None None None None None None None None None.

  (** spectrum.py:31-56 __init__ (the direction argument D, kept but never used by the getters, is in PlotModel.v) *)
  Definition spectrum_init (f0 s0 : arraylike N) : res spec :=
    let '(f1, fSize) := convert_to_vector f0 in
    let '(s1, sSize) := convert_to_vector s0 in
    let! f := as_list f1 in
    let! mono := monotonic_increasing_constant_step f in
    raise_if negb mono with AssertionError ;;
    raise_if negb (Nat.eqb (fst fSize) (fst sSize)) with AssertionError ;;
    let! s := as_list s1 in
    Ok (fresh f s).

  (** attribute writes *)
  Definition set_Hm0 v s := mkSpec (s_f s) (s_S s) (Some v) (s_Hm0_HF s) (s_Hm0_LF s) (s_Tps s) (s_Tp s) (s_Tmm10 s) (s_Tmm10_HF s) (s_Tmm10_LF s) (s_Tm01 s) (s_Tm02 s) (s_s0p s) (s_smm10 s) (s_smm10_HF s).
  Definition set_Hm0_HF v s := mkSpec (s_f s) (s_S s) (s_Hm0 s) (Some v) (s_Hm0_LF s) (s_Tps s) (s_Tp s) (s_Tmm10 s) (s_Tmm10_HF s) (s_Tmm10_LF s) (s_Tm01 s) (s_Tm02 s) (s_s0p s) (s_smm10 s) (s_smm10_HF s).
  Definition set_Hm0_LF v s := mkSpec (s_f s) (s_S s) (s_Hm0 s) (s_Hm0_HF s) (Some v) (s_Tps s) (s_Tp s) (s_Tmm10 s) (s_Tmm10_HF s) (s_Tmm10_LF s) (s_Tm01 s) (s_Tm02 s) (s_s0p s) (s_smm10 s) (s_smm10_HF s).
  Definition set_Tps v s := mkSpec (s_f s) (s_S s) (s_Hm0 s) (s_Hm0_HF s) (s_Hm0_LF s) (Some v) (s_Tp s) (s_Tmm10 s) (s_Tmm10_HF s) (s_Tmm10_LF s) (s_Tm01 s) (s_Tm02 s) (s_s0p s) (s_smm10 s) (s_smm10_HF s).
  Definition set_Tp v s := mkSpec (s_f s) (s_S s) (s_Hm0 s) (s_Hm0_HF s) (s_Hm0_LF s) (s_Tps s) (Some v) (s_Tmm10 s) (s_Tmm10_HF s) (s_Tmm10_LF s) (s_Tm01 s) (s_Tm02 s) (s_s0p s) (s_smm10 s) (s_smm10_HF s).
  Definition set_Tmm10 v s := mkSpec (s_f s) (s_S s) (s_Hm0 s) (s_Hm0_HF s) (s_Hm0_LF s) (s_Tps s) (s_Tp s) (Some v) (s_Tmm10_HF s) (s_Tmm10_LF s) (s_Tm01 s) (s_Tm02 s) (s_s0p s) (s_smm10 s) (s_smm10_HF s).
  Definition set_Tmm10_HF v s := mkSpec (s_f s) (s_S s) (s_Hm0 s) (s_Hm0_HF s) (s_Hm0_LF s) (s_Tps s) (s_Tp s) (s_Tmm10 s) (Some v) (s_Tmm10_LF s) (s_Tm01 s) (s_Tm02 s) (s_s0p s) (s_smm10 s) (s_smm10_HF s).
  Definition set_Tmm10_LF v s := mkSpec (s_f s) (s_S s) (s_Hm0 s) (s_Hm0_HF s) (s_Hm0_LF s) (s_Tps s) (s_Tp s) (s_Tmm10 s) (s_Tmm10_HF s) (Some v) (s_Tm01 s) (s_Tm02 s) (s_s0p s) (s_smm10 s) (s_smm10_HF s).
  Definition set_Tm01 v s := mkSpec (s_f s) (s_S s) (s_Hm0 s) (s_Hm0_HF s) (s_Hm0_LF s) (s_Tps s) (s_Tp s) (s_Tmm10 s) (s_Tmm10_HF s) (s_Tmm10_LF s) (Some v) (s_Tm02 s) (s_s0p s) (s_smm10 s) (s_smm10_HF s).
  Definition set_Tm02 v s := mkSpec (s_f s) (s_S s) (s_Hm0 s) (s_Hm0_HF s) (s_Hm0_LF s) (s_Tps s) (s_Tp s) (s_Tmm10 s) (s_Tmm10_HF s) (s_Tmm10_LF s) (s_Tm01 s) (Some v) (s_s0p s) (s_smm10 s) (s_smm10_HF s).
  Definition set_s0p v s := mkSpec (s_f s) (s_S s) (s_Hm0 s) (s_Hm0_HF s) (s_Hm0_LF s) (s_Tps s) (s_Tp s) (s_Tmm10 s) (s_Tmm10_HF s) (s_Tmm10_LF s) (s_Tm01 s) (s_Tm02 s) (Some v) (s_smm10 s) (s_smm10_HF s).
  Definition set_smm10 v s := mkSpec (s_f s) (s_S s) (s_Hm0 s) (s_Hm0_HF s) (s_Hm0_LF s) (s_Tps s) (s_Tp s) (s_Tmm10 s) (s_Tmm10_HF s) (s_Tmm10_LF s) (s_Tm01 s) (s_Tm02 s) (s_s0p s) (Some v) (s_smm10_HF s).
  Definition set_smm10_HF v s := mkSpec (s_f s) (s_S s) (s_Hm0 s) (s_Hm0_HF s) (s_Hm0_LF s) (s_Tps s) (s_Tp s) (s_Tmm10 s) (s_Tmm10_HF s) (s_Tmm10_LF s) (s_Tm01 s) (s_Tm02 s) (s_s0p s) (s_smm10 s) (Some v).

  (** A method call: new object state and result (or exception). *)
  Definition meth (A : Type) := spec -> spec * res A.
  Definition mret {A} (a : A) : meth A := fun s => (s, Ok a).
  Definition mbind {A B} (m : meth A) (k : A -> meth B) : meth B :=
    fun s => match m s with
             | (s', Ok a) => k a s'
             | (s', Raise e) => (s', Raise e)
             end.
  Definition mget {A} (g : spec -> A) : meth A := fun s => (s, Ok (g s)).
  Definition mlift {A} (r : res A) : meth A := fun s => (s, r).
  Definition mset (g : N -> spec -> spec) (v : N) : meth N := fun s => (g v s, Ok v).
  Local Notation "'let+' p ':=' m 'in' k" := (mbind m (fun p => k))
    (at level 200, p pattern, m at level 100, k at level 200, right associativity).

  (** spectrum.py:64-78 _set_flim *)
  Definition set_flim (f : list N) (fmin fmax : N) : res (N * N) :=
    let! fmin := (if fmin =? - n1 then idx f 0 else Ok fmin) in
    let! fmax := (if fmax =? - n1 then idx_last f else Ok fmax) in
    Ok (fmin, fmax).

  (** Values computed by the getters from the axis, the density and the limits *)
  Definition v_moment (m : Z) (f S : list N) (fmin fmax : N) : res N :=
    compute_moment (Arr (vec f)) (Arr (vec S)) m fmin fmax.
  Definition v_Hm0 (f S : list N) (fmin fmax : N) : res N :=          (* :96-98 *)
    let! (fmin, fmax) := set_flim f fmin fmax in
    let! m0 := v_moment 0 f S fmin fmax in
    Ok (nofZ 4 * nsqrt m0).
  Definition v_Tps (f S : list N) (fmin fmax : N) : res N :=          (* :188-193 *)
    let! (fmin, fmax) := set_flim f fmin fmax in
    let! (fMiMa, SMiMa) := band f S fmin fmax in
    compute_tps (Arr (vec fMiMa)) (Arr (vec SMiMa)).
  Definition v_Tp (f S : list N) (fmin fmax : N) : res N :=           (* :213-228 *)
    let! (fmin, fmax) := set_flim f fmin fmax in
    let! (fMiMa, SMiMa) := band f S fmin fmax in
    peak_period fMiMa SMiMa.
  Definition v_Tmm10 (f S : list N) (fmin fmax : N) : res N :=        (* :246-249 *)
    let! (fmin, fmax) := set_flim f fmin fmax in
    let! m_1 := v_moment (-1) f S fmin fmax in
    let! m0 := v_moment 0 f S fmin fmax in
    Ok (m_1 / m0).
  Definition v_Tm01 (f S : list N) (fmin fmax : N) : res N :=         (* :339-342 *)
    let! (fmin, fmax) := set_flim f fmin fmax in
    let! m0 := v_moment 0 f S fmin fmax in
    let! m1 := v_moment 1 f S fmin fmax in
    Ok (m0 / m1).
  Definition v_Tm02 (f S : list N) (fmin fmax : N) : res N :=         (* :360-363 *)
    let! (fmin, fmax) := set_flim f fmin fmax in
    let! m0 := v_moment 0 f S fmin fmax in
    let! m2 := v_moment 2 f S fmin fmax in
    Ok (nsqrt (m0 / m2)).

  (** compute a value, store it in an attribute, return it *)
  Definition getter (v : list N -> list N -> N -> N -> res N) (st : N -> spec -> spec)
             (fmin fmax : N) : meth N :=
    let+ f := mget s_f in
    let+ Sd := mget s_S in
    let+ x := mlift (v f Sd fmin fmax) in
    mset st x.

  Definition get_Hm0 := getter v_Hm0 set_Hm0.                         (* spectrum.py:80-99 *)
  Definition get_Tps := getter v_Tps set_Tps.                         (* spectrum.py:173-194 *)
  Definition get_Tp := getter v_Tp set_Tp.                            (* spectrum.py:196-229 *)
  Definition get_Tmm10 := getter v_Tmm10 set_Tmm10.                   (* spectrum.py:231-250 *)
  Definition get_Tm01 := getter v_Tm01 set_Tm01.                      (* spectrum.py:324-343 *)
  Definition get_Tm02 := getter v_Tm02 set_Tm02.                      (* spectrum.py:345-364 *)

  (** reading an attribute that must exist (an AttributeError cannot occur in the code paths below) *)
  Definition attr (g : spec -> option N) : meth N :=
    fun s => (s, match g s with Some v => Ok v | None => Raise Unmodelled end).
  (** if not hasattr(self, a): self.get_a(...) *)
  Definition ensure (g : spec -> option N) (m : meth N) : meth N :=
    fun s => match g s with Some v => (s, Ok v) | None => m s end.

  (** spectrum.py:122-125 (and :158-161, :272-275, :308-311): 0.45 / Tmm10 *)
  Definition cutoff : meth N :=
    let+ _ := ensure s_Tmm10 (get_Tmm10 (- n1) (- n1)) in
    let+ T := attr s_Tmm10 in
    mret (lit 45 100 / T).
  Definition default_cutoff (v : N) : meth N := if v =? - n1 then cutoff else mret v.

  (** spectrum.py:101-135 get_Hm0_HF *)
  Definition get_Hm0_HF (fmin fmax : N) : meth N :=
    let+ fmin := default_cutoff fmin in getter v_Hm0 set_Hm0_HF fmin fmax.
  (** spectrum.py:137-171 get_Hm0_LF *)
  Definition get_Hm0_LF (fmin fmax : N) : meth N :=
    let+ fmax := default_cutoff fmax in getter v_Hm0 set_Hm0_LF fmin fmax.
  (** spectrum.py:252-286 get_Tmm10_HF *)
  Definition get_Tmm10_HF (fmin fmax : N) : meth N :=
    let+ fmin := default_cutoff fmin in getter v_Tmm10 set_Tmm10_HF fmin fmax.
  (** spectrum.py:288-322 get_Tmm10_LF *)
  Definition get_Tmm10_LF (fmin fmax : N) : meth N :=
    let+ fmax := default_cutoff fmax in getter v_Tmm10 set_Tmm10_LF fmin fmax.

  (** 2*pi*H/(g*T^2) *)
  Definition steepness (H T g : N) : N := nofZ 2 * npi * H / (g * (T * T)).
  (** spectrum.py:366-393 get_s0p *)
  Definition get_s0p (fmin fmax g : N) : meth N :=
    let+ _ := ensure s_Hm0 (get_Hm0 fmin fmax) in
    let+ _ := ensure s_Tps (get_Tps fmin fmax) in
    let+ H := attr s_Hm0 in
    let+ T := attr s_Tps in
    mset set_s0p (steepness H T g).
  (** spectrum.py:395-424 get_smm10 *)
  Definition get_smm10 (fmin fmax g : N) : meth N :=
    let+ _ := ensure s_Hm0 (get_Hm0 fmin fmax) in
    let+ _ := ensure s_Tmm10 (get_Tmm10 fmin fmax) in
    let+ H := attr s_Hm0 in
    let+ T := attr s_Tmm10 in
    mset set_smm10 (steepness H T g).
  (** spectrum.py:426-456 get_smm10_HF *)
  Definition get_smm10_HF (fmin fmax g : N) : meth N :=
    let+ _ := ensure s_Hm0_HF (get_Hm0_HF fmin fmax) in
    let+ _ := ensure s_Tmm10_HF (get_Tmm10_HF fmin fmax) in
    let+ H := attr s_Hm0_HF in
    let+ T := attr s_Tmm10_HF in
    mset set_smm10_HF (steepness H T g).

  (** The public numeric interface of a Spectrum object, and any sequence of calls *)
  Inductive spec_call :=
  | CHm0 (fmin fmax : N) | CHm0_HF (fmin fmax : N) | CHm0_LF (fmin fmax : N)
  | CTps (fmin fmax : N) | CTp (fmin fmax : N)
  | CTmm10 (fmin fmax : N) | CTmm10_HF (fmin fmax : N) | CTmm10_LF (fmin fmax : N)
  | CTm01 (fmin fmax : N) | CTm02 (fmin fmax : N)
  | Cs0p (fmin fmax g : N) | Csmm10 (fmin fmax g : N) | Csmm10_HF (fmin fmax g : N).
  Definition spec_step (c : spec_call) : meth N :=
    match c with
    | CHm0 a b => get_Hm0 a b | CHm0_HF a b => get_Hm0_HF a b | CHm0_LF a b => get_Hm0_LF a b
    | CTps a b => get_Tps a b | CTp a b => get_Tp a b
    | CTmm10 a b => get_Tmm10 a b | CTmm10_HF a b => get_Tmm10_HF a b | CTmm10_LF a b => get_Tmm10_LF a b
    | CTm01 a b => get_Tm01 a b | CTm02 a b => get_Tm02 a b
    | Cs0p a b g => get_s0p a b g | Csmm10 a b g => get_smm10 a b g | Csmm10_HF a b g => get_smm10_HF a b g
    end.
  Definition spec_run (cs : list spec_call) (s : spec) : spec :=
    fold_left (fun s c => fst (spec_step c s)) cs s.
End Spectrum.
Arguments spec : clear implicits.
Arguments spec_call : clear implicits.
