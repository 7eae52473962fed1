(** * Conformance runs: the model at binary64 on the data of /repo/tests.

    These are TESTS (vm_compute on literals), not proofs of any property: they only check that the
    model computes what the repository's own test-suite expects of the code. *)

From Coq Require Import ZArith String List Bool PrimFloat.
From Verif Require Import Num NumFloat Engine Cpx TimeModel SpectralModel WaveModel DisperModel DecompModel.
Import ListNotations.
Open Scope float_scope.
Set Warnings "-inexact-float".

(* a stable argsort at binary64 *)
Fixpoint ins (p : float * nat) (l : list (float * nat)) :=
  match l with [] => [p] | q :: l' => if fst p <=? fst q then p :: l else q :: ins p l' end.
Definition argsortF (l : list NF) : list nat :=
  map snd (fold_right ins [] (combine l (seq 0 (length l)))).

Definition near (tol : float) (x y : float) : bool := abs (x - y) <=? tol.
Definition nears (tol : float) (l l' : list float) : bool :=
  Nat.eqb (length l) (length l') && forallb (fun b => b) (map2 (near tol) l l').
Definition nearr (tol : float) (r : res float) (y : float) : bool :=
  match r with Ok x => near tol x y | _ => false end.
Definition av (l : list float) : arraylike NF := Arr (vec (l : list NF)).
Definition okl (tol : float) (r : res (list NF)) (l : list float) : bool :=
  match r with Ok x => nears tol x l | _ => false end.

(** tests/core_time_test.py *)
Example t_sort :
  sort_wave_params argsortF (av [3.1; 2.2; 1.4; 5.8; 7.1; 4.4; 6.0]) (av [2.0; 3.0; 1.1; 3.7; 5.1; 0.0; 3.2])
  = Ok ([7.1; 6.0; 5.8; 4.4; 3.1; 2.2; 1.4], [5.1; 3.2; 3.7; 0.0; 2.0; 3.0; 1.1]).
Proof. vm_compute. reflexivity. Qed.

Definition tt := [0.0; 0.1; 0.2; 0.3; 0.4; 0.5; 0.6; 0.7; 0.8; 0.9; 1.0; 1.1; 1.2; 1.3; 1.4; 1.5].
Definition tx := [1.0; 0.0; -0.2; 0.3; -0.1; 0.0; 0.0; 0.0; -0.2; 0.0; 0.0; 0.0; 0.5; -0.2; 0.3; 0.0].
Definition zc_ok (r : res (Z * arr NF)) (n : Z) (l : list float) : bool :=
  match r with Ok (k, a) => Z.eqb k n && nears 1e-4 (data a) l | _ => false end.
Example t_zc_down : zc_ok (determine_zero_crossing (av tt) (av tx) "down") 3 [0.1; 0.375; 0.7; 1.2714] = true.
Proof. vm_compute. reflexivity. Qed.
Example t_zc_up : zc_ok (determine_zero_crossing (av tt) (av tx) "up") 2 [0.24; 1.1; 1.34] = true.
Proof. vm_compute. reflexivity. Qed.
Example t_zc_none : determine_zero_crossing (av tt) (av (map (fun _ => 0) tt)) "up" = Ok (0%Z, empty00).
Proof. vm_compute. reflexivity. Qed.
Example t_zc_one : zc_ok (determine_zero_crossing (av [0.0; 0.1; 0.2; 0.3; 0.4; 0.5])
   (av [-1.0; -0.5; -0.1; 0.1; 0.3; 0.6]) "up") 0 [0.25] = true.
Proof. vm_compute. reflexivity. Qed.

Definition hs := [7.1; 6.0; 5.8; 4.4; 3.1; 2.2; 1.4].
Definition ts := [5.1; 3.2; 3.7; 0.0; 2.0; 3.0; 1.1].
Definition near2 (r : res (NF * NF)) (a b : float) : bool :=
  match r with Ok (x, y) => near 1e-4 x a && near 1e-4 y b | _ => false end.
Example t_highest1 : near2 (highest_waves_params (av hs) (av ts) (1 / 3 : NF)) 6.55 4.15 = true.
Proof. vm_compute. reflexivity. Qed.
Example t_highest2 : near2 (highest_waves_params (av hs) (av ts) (1 / 8 : NF)) 0 0 = true.
Proof. vm_compute. reflexivity. Qed.
Example t_exc1 : nearr 1e-4 (exceedance_wave_height (av hs) (33 : NF)) 6.0 = true.
Proof. vm_compute. reflexivity. Qed.
Example t_exc2 : nearr 1e-4 (exceedance_wave_height (av hs) (10 : NF)) 0.0 = true.
Proof. vm_compute. reflexivity. Qed.

Definition tx2 := [1.0; 0.0; -0.2; 0.3; -0.2; 0.0; 0.0; 0.0; -0.2; 0.0; 0.0; 0.0; 0.5; -0.2; 0.3; 0.0].
Definition waves_ok (r : res (list (wave NF))) (h t c d tc td : list float) : bool :=
  match r with
  | Ok ws => nears 1e-4 (map w_h ws) h && nears 1e-4 (map w_t ws) t && nears 1e-4 (map w_crest ws) c
             && nears 1e-4 (map w_trough ws) d && nears 1e-4 (map w_tcrest ws) tc && nears 1e-4 (map w_ttrough ws) td
  | _ => false
  end.
Example t_waves_up : waves_ok (determine_params_individual_waves (av [0.24; 1.1; 1.34]) (av tt) (av tx2))
  [0.5; 0.7] [0.86; 0.24] [0.3; 0.5] [-0.2; -0.2] [0.3; 1.2] [0.4; 1.3] = true.
Proof. vm_compute. reflexivity. Qed.
Example t_waves_down : waves_ok (determine_params_individual_waves (av [0.1; 0.36; 0.7; 1.2714]) (av tt) (av tx2))
  [0.5; 0.2; 0.7] [0.26; 0.34; 0.5714] [0.3; 0.0; 0.5] [-0.2; -0.2; -0.2] [0.3; 0.5; 1.2] [0.2; 0.4; 0.8] = true.
Proof. vm_compute. reflexivity. Qed.

(** tests/core_spectral_test.py *)
Definition cn (l : list (float * float)) : list (cpx NF) := l.
Definition xf_odd := cn [(6.3962, 0); (0.7636, 0.3877); (-1.1051, -0.0730); (1.1387, -0.9262); (0.5616, -1.5596); (-0.0759, -0.3736)].
Example t_unfold_odd :
  match unfold_spectrum (av [0; 0.4; 0.8; 1.2; 1.62; 2.0]) (Arr (vec xf_odd)) true with
  | Ok (f, x) => nears 1e-4 f [0; 0.4; 0.8; 1.2; 1.6; 2.0; 2.4; 2.8; 3.2; 3.6; 4.0]
      && nears 1e-4 (map fst x) [6.3962; 0.7636; -1.1051; 1.1387; 0.5616; -0.0759; -0.0759; 0.5616; 1.1387; -1.1051; 0.7636]
      && nears 1e-4 (map snd x) [0; 0.3877; -0.0730; -0.9262; -1.5596; -0.3736; 0.3736; 1.5596; 0.9262; 0.0730; -0.3877]
  | _ => false end = true.
Proof. vm_compute. reflexivity. Qed.
Definition xf_even := cn [(6.2386, 0); (1.3776, 0.2681); (-0.2869, 1.0963); (0.7246, -0.5531); (-0.5517, -0.8957); (-0.6184, 0)].
Example t_unfold_even :
  match unfold_spectrum (av [0; 0.5; 1; 1.5; 2; 2.5]) (Arr (vec xf_even)) false with
  | Ok (f, x) => nears 1e-4 f [0; 0.5; 1; 1.5; 2; 2.5; 3; 3.5; 4; 4.5]
      && nears 1e-4 (map fst x) [6.2386; 1.3776; -0.2869; 0.7246; -0.5517; -0.6184; -0.5517; 0.7246; -0.2869; 1.3776]
      && nears 1e-4 (map snd x) [0; 0.2681; 1.0963; -0.5531; -0.8957; 0; 0.8957; 0.5531; -1.0963; -0.2681]
  | _ => false end = true.
Proof. vm_compute. reflexivity. Qed.

(* t = np.arange(0, 5 + 0.1, 0.1), z = sin t + cos 2t *)
Definition tS : list NF := map (fun k => (fofZ (Z.of_nat k) * 0.1)%float) (seq 0 51).
Definition zS : list NF := map (fun t => (fsin t + fcos (2 * t))%float) tS.
Definition S_correct := [0.0642; 1.7589; 2.6036; 0.3509; 0.1539; 0.0897; 0.0599; 0.0434; 0.0332; 0.0264; 0.0217;
  0.0183; 0.0158; 0.0139; 0.0123; 0.0111; 0.0102; 0.0094; 0.0088; 0.0083; 0.0079; 0.0076; 0.0074; 0.0072; 0.0071; 0.0070].
Example t_spectrum_time :
  match compute_spectrum_time_series (av tS) (av zS) (0.01 : NF) with
  | Ok (f, s) => nears 1e-4 s S_correct && near 1e-4 (nth 25 f 0) 4.9020
  | _ => false end = true.
Proof. vm_compute. reflexivity. Qed.

(** tests/core_wavefunctions_test.py *)
Example t_tps : forallb (fun p => let '(f, s, T) := p in
    match compute_tps (av f) (av s) with Ok x => PrimFloat.eqb x T | _ => false end)
  [([1; 2], [1; 1], 1.0 / 1.5); ([1; 2], [1; 2], 0.5); ([1; 2], [2; 1], 1.0);
   ([0.5; 0.55; 0.61], [1; 0.5; 0.7], 2.0); ([0.35; 0.45; 0.5], [0.7; 0.5; 1], 2.0);
   ([0.35; 0.4; 0.6], [2; 1; 2], 1.0 / 0.35); ([0.35; 0.45; 0.5], [1; 1; 1], 1.0 / 0.45)] = true.
Proof. vm_compute. reflexivity. Qed.
Example t_tps_scalar : compute_tps (Scalar (0.5 : NF)) (Scalar (1 : NF)) = Ok 2.0.
Proof. vm_compute. reflexivity. Qed.

(* f = np.arange(0, 0.5 + 0.005, 0.005) *)
Definition fJ : list NF := map (fun k => (fofZ (Z.of_nat k) * 0.005)%float) (seq 0 101).
Definition picks (l : list float) : list float := map (fun i => nth i l nan) [0; 9; 25; 35; 40; 41; 50; 75; 100]%nat.
Definition jtest (g l : float) (expect : list float) : bool :=
  match create_spectrum_jonswap (av fJ) (1 / 5.0 : NF) (1.5 : NF) (g : NF) (l : NF) with
  | Ok s => Nat.eqb (length s) 101 && nears 1e-4 (picks s) expect
  | _ => false end.
Example t_jonswap0 : jtest 3.3 0 [0; 0; 0.00683394743393034; 0.693326606193689; 2.22565400024348; 2.11480970297289;
   0.474076713867710; 0.0918084660417166; 0.0233461002253077] = true.
Proof. vm_compute. reflexivity. Qed.
Example t_jonswap1 : jtest 3.3 1 [0; 0; 0.0067; 0.6792; 2.1804; 2.0718; 0.4644; 0.0899; 0.0229] = true.
Proof. vm_compute. reflexivity. Qed.
Example t_pm0 : jtest 1.0 0 [0; 0; 0.0105380860826621; 0.838982579441132; 1.04000187426388; 1.03388251355566;
   0.712842171623788; 0.141570622955125; 0.0360001870738999] = true.
Proof. vm_compute. reflexivity. Qed.

(** tests/core_dispersion_test.py *)
Example t_disper20 : okl 1e-4 (disper (av [0.2; 0.3; 0.4; 0.5]) (20 : NF) (9.81 : NF)) [0.0145; 0.0221; 0.0302; 0.0390] = true.
Proof. vm_compute. reflexivity. Qed.
Example t_disper10 : okl 1e-4 (disper (av [0.2; 0.3; 0.4; 0.5]) (10 : NF) (9.81 : NF)) [0.0203; 0.0308; 0.0415; 0.0527] = true.
Proof. vm_compute. reflexivity. Qed.

(** Small-scale versions of tests/core_spectral_test.py::test_bandpassfilter and of
    tests/core_decomposition_test.py (3600 s at 10 Hz is too long for this interpreter) *)
Definition tB : list NF := map (fun k => (fofZ (Z.of_nat k) * 0.5)%float) (seq 0 80).
Definition zB1 : list NF := map (fun t => (0.5 * fsin (t * 2 * fpi * 0.1))%float) tB.
Definition zB2 : list NF := map (fun t => (fcos (t * 2 * fpi * 0.2))%float) tB.
Example t_band_low : okl 1e-8 (bandpassfilter (av tB) (av (map2 PrimFloat.add zB1 zB2)) (0 : NF) (0.15 : NF)) zB1 = true.
Proof. vm_compute. reflexivity. Qed.
Example t_band_high : okl 1e-8 (bandpassfilter (av tB) (av (map2 PrimFloat.add zB1 zB2)) (0.15 : NF) (0.5 : NF)) zB2 = true.
Proof. vm_compute. reflexivity. Qed.

Definition tD : list NF := map (fun k => (fofZ (Z.of_nat k) * 0.25)%float) (seq 0 40).
Definition xD : list NF := [0; 0.4; 0.6].
Definition kD (f : float) : float := match disper (Scalar (2 * fpi * f : NF)) (0.6 : NF) (9.81 : NF) with Ok [k] => k | _ => nan end.
Definition comps := map (fun fa => (fst fa, snd fa, kD (fst fa))) [(0.6, 0.1); (0.7, 0.05)].
Definition wIn (x t : float) := fold_right (fun '(f, a, k) s => (a * fcos (2 * fpi * f * t - k * x) + s)%float) 0 comps.
Definition wRe (x t : float) := fold_right (fun '(f, a, k) s => (0.7 * a * fcos (2 * fpi * f * t + k * x) + s)%float) 0 comps.
Definition dataD : list NF := flat_map (fun t => map (fun x => (wIn x t + wRe x t)%float) xD) tD.
Example t_zs : match decompose_linear_ZS tD (mkArr [40; 3]%nat dataD) (0.6 : NF) xD ([1; 1; 1] : list NF) (0.125 : NF) with
  | Ok (i, r) => nears 1e-6 i (map (wIn 0) tD) && nears 1e-6 r (map (wRe 0) tD)
  | _ => false end = true.
Proof. vm_compute. reflexivity. Qed.
