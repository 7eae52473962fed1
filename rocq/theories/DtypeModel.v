(** * The dtype-sensitive functions, for integer arrays

    [convert_to_vector] keeps the dtype of its argument (core_engine.py:10-50), so a list or array of integers stays
    integer.  Four functions then behave differently from the float version.  They are repeated here with a flag
    that is [true] when the array has an integer dtype; with the flag [false] they are, definition for definition,
    the ones of SpectralModel.v, WaveModel.v and SpectrumModel.v (the lemmas [*_float] below, by computation).
    The numpy facts used: an integer (array or scalar) raised to a negative integer power raises ValueError, and
    storing a float in an integer array drops the fraction (towards zero).  Integer overflow is not modelled. *)

From Coq Require Import ZArith String List Bool.
From Verif Require Import Num Engine Cpx SpectralModel WaveModel SpectrumModel.
Import ListNotations.

Section Dtype.
  Context {N : Num}.
  Local Open Scope num_scope.

  (** core_spectral.py:82, :90: [sVarDens_coarse] has the type of [sVarDens[0]] *)
  Definition store_as (si : bool) (v : N) : res N :=
    if si then rmap nofZ (int_trunc v) else Ok v.
  (** core_spectral.py:16-92 frequency_averaging; [si]: the density is an integer array *)
  Definition frequency_averaging_dt (si : bool) (f0 s0 : arraylike N) (dfDesired : N)
    : res (list N * list N) :=
    let '(f1, fSize) := convert_to_vector f0 in
    let '(s1, sSize) := convert_to_vector s0 in
    raise_if Nat.ltb 1 (snd fSize) || Nat.ltb 1 (snd sSize) with ValueError ;;   (* :66-67 *)
    let! f := as_list f1 in
    let! s := as_list s1 in
    let nFine := fst fSize in
    let! nFactor := avg_factor f dfDesired in
    let! nCoarse := int_floor (nofnat nFine / nFactor) in            (* :78 *)
    let nCoarse := Z.to_nat nCoarse in
    let! _ := idx s 0 in                                             (* :82 type(sVarDens[0]) *)
    let! fc := mapM (avg_block nFactor f) (seq 0 nCoarse) in         (* :89 [f_coarse] is always float *)
    let! sc := mapM (fun i => let! v := avg_block nFactor s i in store_as si v) (seq 0 nCoarse) in   (* :90 *)
    Ok (fc, sc).

  (** core_wavefunctions.py:150-271 compute_moment; [fi]: the frequencies are an integer array, m an integer *)
  Definition compute_moment_dt (fi : bool) (f0 s0 : arraylike N) (m : Z) (fmin fmax : N) : res N :=
    let '(f1, fSize) := convert_to_vector f0 in
    let '(s1, sSize) := convert_to_vector s0 in
    raise_if Nat.ltb 1 (snd fSize) || Nat.ltb 1 (snd sSize) with ValueError ;;   (* :217 *)
    let! f := as_list f1 in
    let! mono := monotonic_increasing_constant_step f in
    raise_if negb mono with ValueError ;;                                        (* :220 *)
    raise_if negb (Nat.eqb (fst fSize) (fst sSize)) with ValueError ;;           (* :225 *)
    let! s := as_list s1 in
    let! ff := idx f 0 in
    let freq := drop_zero m ff f in
    let spec := drop_zero m ff s in
    raise_if fi && Z.ltb m 0 with ValueError ;;                                  (* :238 integer ** negative *)
    let integrand := map2 (fun fr sp => npowZ fr m * sp) freq spec in            (* :238 *)
    if (fmin =? - n1) || (fmax =? - n1) then simpson integrand freq              (* :241 *)
    else
      let! fsecond := idx f 1 in
      let fminn := if Z.ltb m 0 && (ff =? n0) && (fmin =? n0) then fsecond else fmin in  (* :245-248 *)
      let! flast := idx_last freq in
      if fmax <=? flast
      then
        let! i := approx_array_index freq fminn in
        let! j := approx_array_index freq fmax in
        simpson_slice i j integrand freq                                         (* :251-254 *)
      else
        let! i := approx_array_index freq fminn in
        let! j := approx_array_index freq flast in
        let! m1 := simpson_slice i j integrand freq in
        let! slast := idx_last spec in
        raise_if fi with ValueError ;;                                           (* :265 freq[-1] ** -5 *)
        let! m2 := tail_moment flast slast fmax m in
        Ok (m1 + m2).

  (** core_wavefunctions.py:15-147 compute_spectrum_params *)
  Definition compute_spectrum_params_dt (fi : bool) (f0 s0 : arraylike N) (fmin fmax : N) : res (sparams N) :=
    let '(f1, fSize) := convert_to_vector f0 in
    let '(s1, sSize) := convert_to_vector s0 in
    raise_if Nat.ltb 1 (snd fSize) || Nat.ltb 1 (snd sSize) with ValueError ;;
    let! f := as_list f1 in
    let! mono := monotonic_increasing_constant_step f in
    raise_if negb mono with ValueError ;;
    raise_if negb (Nat.eqb (fst fSize) (fst sSize)) with ValueError ;;
    let! s := as_list s1 in
    let! ffirst := idx f 0 in
    let! flast := idx f (fst fSize - 1) in
    let fmin := if fmin =? - n1 then ffirst else fmin in                    (* :96-97 *)
    let fmax := if fmax =? - n1 then flast else fmax in                     (* :98-99 *)
    let! m_1 := compute_moment_dt fi (Arr f1) (Arr s1) (-1) fmin fmax in
    let! m0 := compute_moment_dt fi (Arr f1) (Arr s1) 0 fmin fmax in
    let! m1 := compute_moment_dt fi (Arr f1) (Arr s1) 1 fmin fmax in
    let! m2 := compute_moment_dt fi (Arr f1) (Arr s1) 2 fmin fmax in
    let Hm0 := nofZ 4 * nsqrt m0 in                                         (* :108 *)
    if (Hm0 <? lit 1 1000000) || nisnan Hm0
    then Ok (mkSparams nnan nnan nnan nnan nnan nnan)                       (* :112-119 *)
    else
      let Tmm10 := m_1 / m0 in
      let Tm01 := m0 / m1 in
      let Tm02 := nsqrt (m0 / m2) in
      let! (fMiMa, SMiMa) := band f s fmin fmax in                          (* :128-131 *)
      let! Tp := peak_period fMiMa SMiMa in                                 (* :134-143 *)
      let! Tps := compute_tps (Arr (vec fMiMa)) (Arr (vec SMiMa)) in        (* :146 *)
      Ok (mkSparams Hm0 Tp Tps Tmm10 Tm01 Tm02).

  (** core_wavefunctions.py:370-392: the density at one frequency; [f_i ** (-5)] at :391 *)
  Definition jonswap_density_dt (fi : bool) (fp gammaPeak f : N) : res N :=
    raise_if (spacing1 <? f) && fi with ValueError ;;
    Ok (jonswap_density fp gammaPeak f).
  (** core_wavefunctions.py:274-402 create_spectrum_jonswap *)
  Definition create_spectrum_jonswap_dt (fi : bool) (f0 : arraylike N) (fp hm0 gammaPeak l_fmax : N)
    : res (list N) :=
    let '(f1, fSize) := convert_to_vector f0 in
    let nf := fst fSize in
    raise_if Nat.eqb nf 0 with ValueError ;;                                (* :336-340 *)
    raise_if Nat.ltb 1 (snd fSize) with ValueError ;;                       (* :375 on a row of m >= 2 values *)
    let! f := as_list f1 in
    let! flast := idx f (nf - 1) in
    let! fmax := (if l_fmax =? n0 then Ok flast
                  else if l_fmax =? n1 then Ok ninf
                  else Raise ValueError) in                                 (* :342-349 *)
    let! sVarDens := mapM (jonswap_density_dt fi fp gammaPeak) f in         (* :370-392 *)
    let! ffirst := idx f 0 in
    let! m0 := compute_moment_dt fi (Arr f1) (Arr (vec sVarDens)) 0 ffirst fmax in   (* :396 *)
    let hm0NonScale := nofZ 4 * nsqrt m0 in
    let r := hm0 / hm0NonScale in
    Ok (map (fun s => s * (r * r)) sVarDens).                               (* :401 *)
  (** core_wavefunctions.py:450-507 create_spectrum_piersonmoskowitz *)
  Definition create_spectrum_piersonmoskowitz_dt (fi : bool) (f0 : arraylike N) (fp hm0 gammaPeak l_fmax : N)
    : res (list N) :=
    let '(f1, _) := convert_to_vector f0 in
    create_spectrum_jonswap_dt fi (Arr f1) fp hm0 gammaPeak l_fmax.

  (** spectrum.py:96-98, :246-249, :339-342, :360-363: the values of the moment getters *)
  Definition v_Hm0_dt (fi : bool) (f S : list N) (fmin fmax : N) : res N :=
    let! (fmin, fmax) := set_flim f fmin fmax in
    let! m0 := compute_moment_dt fi (Arr (vec f)) (Arr (vec S)) 0 fmin fmax in
    Ok (nofZ 4 * nsqrt m0).
  Definition v_Tmm10_dt (fi : bool) (f S : list N) (fmin fmax : N) : res N :=
    let! (fmin, fmax) := set_flim f fmin fmax in
    let! m_1 := compute_moment_dt fi (Arr (vec f)) (Arr (vec S)) (-1) fmin fmax in
    let! m0 := compute_moment_dt fi (Arr (vec f)) (Arr (vec S)) 0 fmin fmax in
    Ok (m_1 / m0).
  Definition v_Tm01_dt (fi : bool) (f S : list N) (fmin fmax : N) : res N :=
    let! (fmin, fmax) := set_flim f fmin fmax in
    let! m0 := compute_moment_dt fi (Arr (vec f)) (Arr (vec S)) 0 fmin fmax in
    let! m1 := compute_moment_dt fi (Arr (vec f)) (Arr (vec S)) 1 fmin fmax in
    Ok (m0 / m1).
  Definition v_Tm02_dt (fi : bool) (f S : list N) (fmin fmax : N) : res N :=
    let! (fmin, fmax) := set_flim f fmin fmax in
    let! m0 := compute_moment_dt fi (Arr (vec f)) (Arr (vec S)) 0 fmin fmax in
    let! m2 := compute_moment_dt fi (Arr (vec f)) (Arr (vec S)) 2 fmin fmax in
    Ok (nsqrt (m0 / m2)).
  (** spectrum.py:80-99, :231-250, :324-343, :345-364 *)
  Definition get_Hm0_dt fi := getter (v_Hm0_dt fi) set_Hm0.
  Definition get_Tmm10_dt fi := getter (v_Tmm10_dt fi) set_Tmm10.
  Definition get_Tm01_dt fi := getter (v_Tm01_dt fi) set_Tm01.
  Definition get_Tm02_dt fi := getter (v_Tm02_dt fi) set_Tm02.
  (** spectrum.py:122-125 (and :158-161, :272-275, :308-311): the default split frequency 0.45 / Tmm10 *)
  Definition cutoff_dt (fi : bool) : meth N :=
    mbind (ensure s_Tmm10 (get_Tmm10_dt fi (- n1) (- n1))) (fun _ =>
    mbind (attr s_Tmm10) (fun T => mret (lit 45 100 / T))).
  Definition default_cutoff_dt (fi : bool) (v : N) : meth N := if v =? - n1 then cutoff_dt fi else mret v.
  (** spectrum.py:101-171 get_Hm0_HF, get_Hm0_LF *)
  Definition get_Hm0_HF_dt (fi : bool) (fmin fmax : N) : meth N :=
    mbind (default_cutoff_dt fi fmin) (fun fmin => getter (v_Hm0_dt fi) set_Hm0_HF fmin fmax).
  Definition get_Hm0_LF_dt (fi : bool) (fmin fmax : N) : meth N :=
    mbind (default_cutoff_dt fi fmax) (fun fmax => getter (v_Hm0_dt fi) set_Hm0_LF fmin fmax).

  (** ** With a float array these are the functions of the main model *)
  Lemma mapM_pure {A B} (g : A -> B) l : mapM (fun a => Ok (g a)) l = Ok (map g l).
  Proof. induction l as [|a l IH]; cbn; [reflexivity|]. rewrite IH. reflexivity. Qed.
  Lemma mapM_bind_pure {A B} (g : A -> res B) l : mapM (fun a => bind (g a) (fun v => Ok v)) l = mapM g l.
  Proof. induction l as [|a l IH]; cbn; [reflexivity|]. rewrite IH. destruct (g a); reflexivity. Qed.
  Ltac peel := repeat match goal with
    | |- context [if ?b then _ else _] => destruct b; cbn [bind]; try reflexivity
    | |- bind ?r _ = bind ?r _ => destruct r as [?|?]; cbn [bind]; try reflexivity
    end.
  Lemma averaging_float f s df : frequency_averaging_dt false f s df = frequency_averaging f s df.
  Proof.
    unfold frequency_averaging_dt, frequency_averaging, store_as. destruct (convert_to_vector f), (convert_to_vector s).
    peel. now rewrite mapM_bind_pure.
  Qed.
  Lemma moment_float f s m fmin fmax : compute_moment_dt false f s m fmin fmax = compute_moment f s m fmin fmax.
  Proof. reflexivity. Qed.
  Lemma params_float f s fmin fmax : compute_spectrum_params_dt false f s fmin fmax = compute_spectrum_params f s fmin fmax.
  Proof. reflexivity. Qed.
  Lemma jonswap_density_float fp g f : jonswap_density_dt false fp g f = Ok (jonswap_density fp g f).
  Proof. unfold jonswap_density_dt. now rewrite andb_false_r. Qed.
  Lemma jonswap_float f fp hm0 g l : create_spectrum_jonswap_dt false f fp hm0 g l = create_spectrum_jonswap f fp hm0 g l.
  Proof.
    unfold create_spectrum_jonswap_dt, create_spectrum_jonswap. destruct (convert_to_vector f) as [n sz].
    destruct (Nat.eqb _ _); [reflexivity|]. destruct (Nat.ltb _ _); [reflexivity|].
    destruct (as_list n) as [l0|e]; cbn [bind]; [|reflexivity].
    destruct (idx l0 _) as [x|e]; cbn [bind]; [|reflexivity].
    match goal with |- bind ?r _ = _ => destruct r as [y|e]; cbn [bind]; [|reflexivity] end.
    assert (E : mapM (jonswap_density_dt false fp g) l0 = Ok (map (jonswap_density fp g) l0)).
    { clear. induction l0 as [|a l IH]; [reflexivity|]. cbn [mapM map]. rewrite jonswap_density_float. cbn [bind]. rewrite IH. reflexivity. }
    rewrite E. reflexivity.
  Qed.
  Lemma pm_float f fp hm0 g l :
    create_spectrum_piersonmoskowitz_dt false f fp hm0 g l = create_spectrum_piersonmoskowitz f fp hm0 g l.
  Proof. unfold create_spectrum_piersonmoskowitz_dt, create_spectrum_piersonmoskowitz. destruct (convert_to_vector f). apply jonswap_float. Qed.
  Lemma getters_float :
    get_Hm0_dt false = get_Hm0 /\ get_Tmm10_dt false = get_Tmm10 /\ get_Tm01_dt false = get_Tm01
    /\ get_Tm02_dt false = get_Tm02 /\ get_Hm0_HF_dt false = get_Hm0_HF /\ get_Hm0_LF_dt false = get_Hm0_LF.
  Proof. repeat split. Qed.
End Dtype.
