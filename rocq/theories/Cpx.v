(** * Complex numbers over a [Num], and the DFT (contract of np.fft.fft / np.fft.ifft). *)

From Coq Require Import ZArith List Bool.
From Verif Require Import Num.
Import ListNotations.

Section Cpx.
  Context {N : Num}.
  Local Open Scope num_scope.
  Definition cpx := (car N * car N)%type.
  Definition c0 : cpx := (n0, n0).
  Definition cre (z : cpx) : N := fst z.
  Definition cim (z : cpx) : N := snd z.
  Definition cadd (z w : cpx) : cpx := (cre z + cre w, cim z + cim w).
  Definition csub (z w : cpx) : cpx := (cre z - cre w, cim z - cim w).
  Definition copp (z : cpx) : cpx := (- cre z, - cim z).
  Definition cmul (z w : cpx) : cpx :=
    (cre z * cre w - cim z * cim w, cre z * cim w + cim z * cre w).
  Definition cconj (z : cpx) : cpx := (cre z, - cim z).
  Definition cscale (r : N) (z : cpx) : cpx := (r * cre z, r * cim z).
  Definition cdivr (z : cpx) (r : N) : cpx := (cre z / r, cim z / r).
  (** np.abs of a complex number *)
  Definition cabs (z : cpx) : N := nsqrt (cre z * cre z + cim z * cim z).
  (** complex division z / w = z * conj w / |w|^2 *)
  Definition cdiv (z w : cpx) : cpx :=
    cdivr (cmul z (cconj w)) (cre w * cre w + cim w * cim w).
  (** np.exp(1j * theta) for a real theta *)
  Definition cexpi (theta : N) : cpx := (ncos theta, nsin theta).
  Definition cofr (r : N) : cpx := (r, n0).
  Definition csum (l : list cpx) : cpx := fold_right cadd c0 l.

  (** exp(sgn * 2*pi*i * j*k / n), sgn = -1 for the forward transform *)
  Definition twiddle (sgn : Z) (n j k : nat) : cpx :=
    cexpi (nofZ (sgn * 2) * npi * nofnat (j * k) / nofnat n).
  Definition dft_coef (sgn : Z) (x : list cpx) (k : nat) : cpx :=
    csum (map2 (fun j xj => cmul xj (twiddle sgn (length x) j k)) (seq 0 (length x)) x).

  (** np.fft.fft(x): X_k = sum_j x_j exp(-2 pi i j k / n) *)
  Definition fft (x : list cpx) : list cpx :=
    map (dft_coef (-1) x) (seq 0 (length x)).
  (** np.fft.ifft(X): x_j = 1/n sum_k X_k exp(2 pi i j k / n) *)
  Definition ifft (x : list cpx) : list cpx :=
    map (fun k => cdivr (dft_coef 1 x k) (nofnat (length x))) (seq 0 (length x)).
End Cpx.
Arguments cpx : clear implicits.
