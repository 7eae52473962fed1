(** * Model of deltares_wave_toolbox/cores/core_wavefunctions.py *)

From Coq Require Import ZArith String List Bool.
From Verif Require Import Num Engine.
Import ListNotations.

Section Wave.
  Context {N : Num}.
  Local Open Scope num_scope.

  (** *** Contract of scipy.integrate.simpson(y, x=x) (scipy >= 1.11) *)

  (** np.true_divide(a, b, out=zeros, where=(b != 0)) *)
  Definition sdiv (a b : N) : N := if b =? n0 then n0 else a / b.
  (** scipy _basic_simpson: one pair of panels with spacings h0 = x1-x0, h1 = x2-x1 *)
  Definition simpson_panel (x0 x1 x2 y0 y1 y2 : N) : N :=
    let h0 := x1 - x0 in
    let h1 := x2 - x1 in
    let hsum := h0 + h1 in
    let hprod := h0 * h1 in
    let h0divh1 := sdiv h0 h1 in
    hsum / nofZ 6 *
    (y0 * (nofZ 2 - sdiv n1 h0divh1)
     + y1 * (hsum * sdiv hsum hprod)
     + y2 * (nofZ 2 - h0divh1)).
  (** the panels starting at the points 0, 2, 4, ...; a single left-over interval is not covered *)
  Fixpoint simpson_panels (x y : list N) : list N :=
    match x, y with
    | x0 :: x1 :: ((x2 :: _) as x'), y0 :: y1 :: ((y2 :: _) as y') =>
        simpson_panel x0 x1 x2 y0 y1 y2 :: simpson_panels x' y'
    | _, _ => []
    end.
  (** np.sum of the panels *)
  Definition basic_simpson (x y : list N) : N := nsum (simpson_panels x y).
  (** scipy simpson, even number of points >= 4: Cartwright's rule for the last interval; the
      arguments are the last three points *)
  Definition cartwright (x0 x1 x2 y0 y1 y2 : N) : N :=
    let h0 := x1 - x0 in
    let h1 := x2 - x1 in
    let alpha := sdiv (nofZ 2 * (h1 * h1) + nofZ 3 * h0 * h1) (nofZ 6 * (h1 + h0)) in
    let beta := sdiv (h1 * h1 + nofZ 3 * h0 * h1) (nofZ 6 * h0) in
    let eta := sdiv (h1 * h1 * h1) (nofZ 6 * h0 * (h0 + h1)) in
    alpha * y2 + beta * y1 - eta * y0.
  Definition simpson (y x : list N) : res N :=
    raise_if negb (Nat.eqb (length x) (length y)) with ValueError ;;
    if Nat.odd (length y) then Ok (basic_simpson x y)
    else match rev x, rev y with
         | [x1; x0], [y1; y0] => Ok (lit 1 2 * (x1 - x0) * (y1 + y0))     (* two points: trapezoid *)
         | x2 :: x1 :: x0 :: _, y2 :: y1 :: y0 :: _ =>
             Ok (basic_simpson x y + cartwright x0 x1 x2 y0 y1 y2)
         | _, _ => Raise ValueError                                      (* no points *)
         end.

  (** *** core_wavefunctions.py:150-271 compute_moment *)

  (** :228-235: the axis without a leading zero frequency when the order is negative *)
  Definition drop_zero {A} (m : Z) (f0 : N) (l : list A) : list A :=
    if Z.ltb m 0 && (f0 =? n0) then tl l else l.
  (** :261-268: contribution of the f^-5 tail between the last frequency and fmax.
      (A Python float 0.0 ** negative raises, a numpy 0.0 ** negative does not; not modelled.) *)
  Definition tail_moment (flast slast fmax : N) (m : Z) : res N :=
    let power := (-5)%Z in
    let C := slast / npowi flast power in
    let e := (m + power + 1)%Z in
    raise_if (fmax =? n0) && Z.ltb e 0 with Unmodelled ;;
    Ok (C / nofZ e * (npowi fmax e - npowi flast e)).
  (** [simpson_between]: integrate over the grid points i..j (:254, :260) *)
  Definition simpson_slice (i j : nat) (y x : list N) : res N :=
    simpson (slice i (j + 1) y) (slice i (j + 1) x).

  Definition compute_moment (f0 s0 : arraylike N) (m : Z) (fmin fmax : N) : res N :=
    let '(f1, fSize) := convert_to_vector f0 in
    let '(s1, sSize) := convert_to_vector s0 in
    raise_if Nat.ltb 1 (snd fSize) || Nat.ltb 1 (snd sSize) with ValueError ;;   (* :217 *)
    let! f := as_list f1 in
    let! mono := monotonic_increasing_constant_step f in
    raise_if negb mono with ValueError ;;                                        (* :220 *)
    raise_if negb (Nat.eqb (fst fSize) (fst sSize)) with ValueError ;;           (* :225 *)
    let! s := as_list s1 in
    let! ff := idx f 0 in
    let freq := drop_zero m ff f in
    let spec := drop_zero m ff s in
    let integrand := map2 (fun fr sp => npowZ fr m * sp) freq spec in            (* :238 *)
    if (fmin =? - n1) || (fmax =? - n1) then simpson integrand freq              (* :241 *)
    else
      let! fsecond := idx f 1 in
      let fminn := if Z.ltb m 0 && (ff =? n0) && (fmin =? n0) then fsecond else fmin in  (* :245-248 *)
      let! flast := idx_last freq in
      if fmax <=? flast
      then
        let! i := approx_array_index freq fminn in
        let! j := approx_array_index freq fmax in
        simpson_slice i j integrand freq                                         (* :251-254 *)
      else
        let! i := approx_array_index freq fminn in
        let! j := approx_array_index freq flast in
        let! m1 := simpson_slice i j integrand freq in
        let! slast := idx_last spec in
        let! m2 := tail_moment flast slast fmax m in
        Ok (m1 + m2).

  (** *** Peak period: core_wavefunctions.py:126-143 and spectrum.py:211-229 *)

  (** f[iFmin:iFmax+1], S[iFmin:iFmax+1]: first index with f >= fmin, last with f <= fmax *)
  Definition band (f s : list N) (fmin fmax : N) : res (list N * list N) :=
    let! i := idx (where_ (fun v => fmin <=? v) f) 0 in
    let! j := idx_last (where_ (fun v => v <=? fmax) f) in
    Ok (slice i (j + 1) f, slice i (j + 1) s).
  (** 1/f at the last position of the maximum *)
  Definition peak_period (fMiMa SMiMa : list N) : res N :=
    let! Smax := pymax SMiMa in
    let! ifp := match rev (where_ (fun v => v =? Smax) SMiMa) with
                | i :: _ => Ok i
                | [] => Raise ValueError                      (* max of an empty sequence *)
                end in
    let! fp := idx fMiMa ifp in
    Ok (n1 / fp).

  (** *** core_wavefunctions.py:592-724 compute_tps *)

  (** Contract of np.polyfit(x, y, 2) on three points with different abscissae: the leading two
      coefficients of the interpolating parabola.  Otherwise not modelled. *)
  Definition polyfit2 (x0 x1 x2 y0 y1 y2 : N) : res (N * N) :=
    raise_if (x0 =? x1) || (x1 =? x2) || (x0 =? x2) with Unmodelled ;;
    let d01 := (y1 - y0) / (x1 - x0) in
    let d12 := (y2 - y1) / (x2 - x1) in
    let a := (d12 - d01) / (x2 - x0) in
    Ok (a, d01 - a * (x0 + x1)).
  (** core_wavefunctions.py:666-672 and :697-703 *)
  Definition fit_at (f s : list N) (j : nat) : res (N * N) :=
    let! f0 := idx f (j - 1) in let! f1 := idx f j in let! f2 := idx f (j + 1) in
    let! s0 := idx s (j - 1) in let! s1 := idx s j in let! s2 := idx s (j + 1) in
    polyfit2 f0 f1 f2 s0 s1 s2.

  Definition tps_one_max (f s : list N) (nF imax : nat) : res N :=          (* :657-679 *)
    let jmax := if Nat.eqb imax 0 then 1%nat
                else if Nat.eqb imax (nF - 1) then (nF - 2)%nat else imax in
    let! (a, b) := fit_at f s jmax in
    let! Fps := (if a <? n0 then Ok ((- b) / (nofZ 2 * a)) else idx f imax) in
    Ok (n1 / Fps).
  Definition tps_two_max (f s : list N) (nF i0 i1 : nat) : res N :=         (* :681-706 *)
    if Nat.eqb (i1 - i0) 1 then
      let kmax := if Nat.eqb i0 0 then 1%nat
                  else if Nat.eqb i1 (nF - 1) then (nF - 2)%nat else i0 in
      let! (a, b) := fit_at f s kmax in
      Ok (n1 / ((- b) / (nofZ 2 * a)))
    else
      let! fi := idx f i0 in Ok (n1 / fi).

  (** The value of the result; the code returns it sometimes as a 1-element array. *)
  Definition compute_tps (f0 s0 : arraylike N) : res N :=
    let '(f1, fSize) := convert_to_vector f0 in
    let '(s1, sSize) := convert_to_vector s0 in
    raise_if Nat.ltb 1 (snd fSize) || Nat.ltb 1 (snd sSize) with ValueError ;;
    let! f := as_list f1 in
    (* :637 guard [fSize[1] > 1 and not monotonic]: fSize[1] > 1 was excluded just above *)
    let! mono := (if Nat.ltb 1 (snd fSize) then monotonic_increasing_constant_step f else Ok true) in
    raise_if negb mono with ValueError ;;
    raise_if negb (Nat.eqb (fst fSize) (fst sSize)) with ValueError ;;
    let! s := as_list s1 in
    let! Smax := pymax s in                                                 (* :645 *)
    if Smax <? lit 1 10000000000 then Ok (nofZ (-999))                      (* :646-648 *)
    else
      let nF := fst fSize in
      let imax := where_ (fun v => v =? Smax) s in
      if Nat.ltb 2 nF then
        match imax with
        | [i] => tps_one_max f s nF i
        | [i0; i1] => tps_two_max f s nF i0 i1
        | _ => let! i := idx imax 1 in let! fi := idx f i in Ok (n1 / fi)   (* :707-709 *)
        end
      else if Nat.eqb nF 2 then
        match imax with
        | [i] => let! fi := idx f i in Ok (n1 / fi)                         (* :712-714 *)
        | _ => let! fa := idx f 0 in let! fb := idx f 1 in
               Ok (n1 / (lit 1 2 * (fa + fb)))                              (* :715-718 *)
        end
      else let! fa := idx f 0 in Ok (n1 / fa).                              (* :722 *)

  (** *** core_wavefunctions.py:15-147 compute_spectrum_params *)
  Record sparams := mkSparams { p_hm0 : N; p_tp : N; p_tps : N; p_tmm10 : N; p_tm01 : N; p_tm02 : N }.

  Definition compute_spectrum_params (f0 s0 : arraylike N) (fmin fmax : N) : res sparams :=
    let '(f1, fSize) := convert_to_vector f0 in
    let '(s1, sSize) := convert_to_vector s0 in
    raise_if Nat.ltb 1 (snd fSize) || Nat.ltb 1 (snd sSize) with ValueError ;;
    let! f := as_list f1 in
    let! mono := monotonic_increasing_constant_step f in
    raise_if negb mono with ValueError ;;
    raise_if negb (Nat.eqb (fst fSize) (fst sSize)) with ValueError ;;
    let! s := as_list s1 in
    let! ffirst := idx f 0 in
    let! flast := idx f (fst fSize - 1) in
    let fmin := if fmin =? - n1 then ffirst else fmin in                    (* :96-97 *)
    let fmax := if fmax =? - n1 then flast else fmax in                     (* :98-99 *)
    let! m_1 := compute_moment (Arr f1) (Arr s1) (-1) fmin fmax in
    let! m0 := compute_moment (Arr f1) (Arr s1) 0 fmin fmax in
    let! m1 := compute_moment (Arr f1) (Arr s1) 1 fmin fmax in
    let! m2 := compute_moment (Arr f1) (Arr s1) 2 fmin fmax in
    let Hm0 := nofZ 4 * nsqrt m0 in                                         (* :108 *)
    if (Hm0 <? lit 1 1000000) || nisnan Hm0
    then Ok (mkSparams nnan nnan nnan nnan nnan nnan)                       (* :112-119 *)
    else
      let Tmm10 := m_1 / m0 in
      let Tm01 := m0 / m1 in
      let Tm02 := nsqrt (m0 / m2) in
      let! (fMiMa, SMiMa) := band f s fmin fmax in                          (* :128-131 *)
      let! Tp := peak_period fMiMa SMiMa in                                 (* :134-143 *)
      let! Tps := compute_tps (Arr (vec fMiMa)) (Arr (vec SMiMa)) in        (* :146 *)
      Ok (mkSparams Hm0 Tp Tps Tmm10 Tm01 Tm02).

  (** *** core_wavefunctions.py:274-402 create_spectrum_jonswap *)

  (** np.spacing(1) = 2^-52 *)
  Definition spacing1 : N := lit 1 (2 ^ 52).
  (** :361-363 alpha * g**2 * (2*pi)**(-4) with alpha = 1, g = 9.81 *)
  Definition jonswap_C : N :=
    n1 * (lit 981 100 * lit 981 100) * npowi (nofZ 2 * npi) (-4).
  (** unscaled density at one frequency: :370-392 *)
  Definition jonswap_density (fp gammaPeak fi : N) : N :=
    if spacing1 <? fi then
      let nu := fi / fp in
      let sigma := if fi <? fp then lit 7 100 else lit 9 100 in
      let A := nexp ((- ((nu - n1) * (nu - n1))) / (nofZ 2 * (sigma * sigma))) in
      let lambda := npow gammaPeak A in
      jonswap_C * npowi fi (-5) * nexp (lit (-125) 100 * npowi nu (-4)) * lambda
    else n0.
  Definition create_spectrum_jonswap (f0 : arraylike N) (fp hm0 gammaPeak l_fmax : N)
    : res (list N) :=
    let '(f1, fSize) := convert_to_vector f0 in
    let nf := fst fSize in
    raise_if Nat.eqb nf 0 with ValueError ;;                                (* :336-340 *)
    raise_if Nat.ltb 1 (snd fSize) with ValueError ;;  (* :375 [f_i > eps] on a row of m >= 2 values:
                                                          "truth value is ambiguous" *)
    let! f := as_list f1 in
    let! flast := idx f (nf - 1) in
    let! fmax := (if l_fmax =? n0 then Ok flast
                  else if l_fmax =? n1 then Ok ninf
                  else Raise ValueError) in                                 (* :342-349 *)
    let sVarDens := map (jonswap_density fp gammaPeak) f in
    let! ffirst := idx f 0 in
    let! m0 := compute_moment (Arr f1) (Arr (vec sVarDens)) 0 ffirst fmax in   (* :396 *)
    let hm0NonScale := nofZ 4 * nsqrt m0 in
    let r := hm0 / hm0NonScale in
    Ok (map (fun s => s * (r * r)) sVarDens).                               (* :401 *)

  (** core_wavefunctions.py:450-507 create_spectrum_piersonmoskowitz.  The caller can override
      gammaPeak (default 1.0), exactly as in the code. *)
  Definition create_spectrum_piersonmoskowitz (f0 : arraylike N) (fp hm0 gammaPeak l_fmax : N)
    : res (list N) :=
    let '(f1, _) := convert_to_vector f0 in
    create_spectrum_jonswap (Arr f1) fp hm0 gammaPeak l_fmax.

  (** core_wavefunctions.py:556-589 tpd *)
  Definition tpd (f0 s0 : arraylike N) : res N :=
    let '(f1, _) := convert_to_vector f0 in
    let '(s1, _) := convert_to_vector s0 in
    let! s := as_list s1 in
    let! mx := pymax s in
    let max_spectum := mx * lit 8 10 in                                     (* :579 *)
    let itemp := where_ (fun v => lit 8 10 <=? v / max_spectum) s in        (* :580 *)
    let! f := as_list f1 in
    let! temp := take f itemp in
    let! lo := pymin temp in
    let! hi := pymax temp in
    let! m0 := compute_moment (Arr f1) (Arr s1) 0 lo hi in
    let! m1 := compute_moment (Arr f1) (Arr s1) 1 lo hi in
    Ok (m0 / m1).

  (** *** core_wavefunctions.py:727-841 Battjes-Groenendijk distribution *)

  (** scipy.special.gamma, scipy.special.gammainc (regularised lower), and
      scipy.stats.exponweib.ppf(q, 1, 2, scale): parameters *)
  Variable gamma_ : N -> N.
  Variable gammainc : N -> N -> N.
  Variable exponweib_ppf : N -> N -> N.

  (** core_wavefunctions.py:801-802 *)
  Definition bg_k1 : N := nofZ 2.
  Definition bg_k2 : N := lit 36 10.
  (** H_2_norm as a function of H_1_norm: :805-807 *)
  Definition bg_H2 (Htr H1 : N) : N := Htr / npow (Htr / H1) (bg_k1 / bg_k2).
  (** EST as a function of H_1_norm: :808-815 *)
  Definition bg_EST (Htr H1 : N) : N :=
    let H2 := bg_H2 Htr H1 in
    let A1 := nofZ 2 / bg_k1 + n1 in
    let X := (Htr / H1) * (Htr / H1) in
    let A2 := nofZ 2 / bg_k2 + n1 in
    H1 * H1 * gammainc A1 X * gamma_ A1
    + H2 * H2 * (gamma_ A2 - gamma_ A2 * gammainc A2 X).
  (** core_wavefunctions.py:799 *)
  Definition bg_delta : N := lit 1 100.
  (** while abs(EST - 1) > tolerance (:804-816); state (H_1_norm, H_2_norm, EST); H_2_norm is
      unbound before the first pass *)
  Fixpoint bg_loop (fuel : nat) (Htr tol : N) (st : N * option N * N) : res (N * option N * N) :=
    let '(H1, H2, EST) := st in
    if tol <? nabs (EST - n1) then
      match fuel with
      | O => Raise OutOfFuel
      | S fuel' =>
          let EST' := bg_EST Htr H1 in
          bg_loop fuel' Htr tol (H1 - bg_delta * (EST' - n1), Some (bg_H2 Htr H1), EST')
      end
    else Ok st.

  (** core_wavefunctions.py:727-841; the warnings (:771-778, :788-794) are not modelled; the two returned
      (0,0) arrays of :796-797 are empty lists *)
  Definition compute_BG (fuel : nat) (hm0 : N) (nwave : Z) (water_depth cota_slope tolerance : N)
    : res (list N * list N) :=
    raise_if cota_slope =? n0 with ZeroDivisionError ;;
    let gamma_transition := lit 35 100 + lit 58 10 * (n1 / cota_slope) in   (* :780 *)
    let H_transition := gamma_transition * water_depth in
    let m0 := (hm0 / nofZ 4) * (hm0 / nofZ 4) in
    let H_rms := nsqrt m0 * (lit 269 100 + lit 324 100 * nsqrt m0 / water_depth) in
    let Htrn := H_transition / H_rms in
    if lit 275 100 <? Htrn then Ok ([], [])                                 (* :787-797 *)
    else
      let! (H1', H2o, EST) := bg_loop fuel Htrn tolerance (nofZ 100, None, nofZ 10) in
      let H1n := H1' + bg_delta * (EST - n1) in                             (* :818 *)
      let x_1 := H1n * npow (nln (nofZ nwave)) (n1 / bg_k1) in
      let! H2n := match H2o with Some h => Ok h | None => Raise UnboundLocalError end in
      let x_2 := H2n * npow (nln (nofZ nwave)) (n1 / bg_k2) in
      let x := if x_1 <? Htrn then x_1 else x_2 in
      let x := x * H_rms in
      raise_if Z.eqb nwave 0 with ZeroDivisionError ;;                      (* 1 / nwave *)
      let x := pymin2 x (exponweib_ppf (n1 - n1 / nofZ nwave) (nsqrt (nofZ 8)) / nofZ 4 * hm0) in  (* :827 *)
      let H_1 := H1n * H_rms in
      let H_2 := H2n * H_rms in
      let P_H_tr :=
        if hm0 <? H_transition
        then nexp (- ((H_transition / H_1) * (H_transition / H_1)))
        else nexp (- npow (H_transition / H_2) bg_k2) in
      Ok ([n0; H_transition; x], [n1; P_H_tr; n1 / nofZ nwave]).
End Wave.
Arguments sparams : clear implicits.
