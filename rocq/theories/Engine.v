(** * Model of deltares_wave_toolbox/cores/core_engine.py *)

From Coq Require Import ZArith List Bool.
From Verif Require Import Num.
Import ListNotations.

(** numpy ndarray: shape and row-major data. *)
Record arr (A : Type) := mkArr { shape : list nat; data : list A }.
Arguments mkArr {A}. Arguments shape {A}. Arguments data {A}.

(** ArrayLike arguments: a Python/numpy number, or an array (nested lists are
    turned into the corresponding array by np.asarray; ragged lists are not modelled). *)
Inductive arraylike (A : Type) := Scalar (x : A) | Arr (a : arr A).
Arguments Scalar {A}. Arguments Arr {A}.

(** 1-D array, (n,1) column, empty (0,0) array *)
Definition vec {A} (l : list A) : arr A := mkArr [length l] l.
Definition colvec {A} (l : list A) : arr A := mkArr [length l; 1] l.
Definition empty00 {A} : arr A := mkArr [0; 0] [].

(** x.size *)
Definition asize {A} (a : arr A) : nat := fold_right Nat.mul 1 (shape a).
(** an array is well formed if it has as many data as its shape says *)
Definition wf_arr {A} (a : arr A) : Prop := length (data a) = asize a.

(** core_engine.py:10-27 convert_to_array_type *)
Definition convert_to_array_type {A} (x : arraylike A) : arr A :=
  match x with
  | Scalar v => mkArr [1] [v]          (* np.asarray([x]) *)
  | Arr a => a
  end.

(** core_engine.py:76-88 _size *)
Definition size_ {A} (x : arr A) : nat * nat :=
  if Nat.eqb (asize x) 0 then (0, 0)
  else match shape x with
       | [n] => (n, 0)
       | [n; m] => (n, m)
       | _ => (0, 0)
       end.

(** core_engine.py:30-53 convert_to_vector.  x.flatten() of row-major data keeps the data. *)
Definition convert_to_vector {A} (x : arraylike A) : arr A * (nat * nat) :=
  let x := convert_to_array_type x in
  let xSize := size_ x in
  ((if Nat.eqb (snd xSize) 1 then mkArr [asize x] (data x) else x), xSize).

(** core_engine.py:91-108 is1darray *)
Definition is1darray {A} (x : arr A) : bool :=
  let '(dimx, dimy) := size_ x in
  negb (Nat.eqb dimx 0) && Nat.eqb dimy 0.

(** Entry of an array into 1-D code.  Not a function of the toolbox: code after the
    toolbox' own guards is only modelled for 1-D arrays. *)
Definition as_list {A} (x : arr A) : res (list A) :=
  match shape x with
  | [_] => Ok (data x)
  | _ => Raise Unmodelled
  end.

Section Engine.
  Context {N : Num}.
  Local Open Scope num_scope.

  (** 1000000 * sys.float_info.epsilon, epsilon = 2^-52 *)
  Definition uniform_tol : N := lit 1000000 (2 ^ 52).

  (** core_engine.py:56-73 monotonic_increasing_constant_step (on 1-D input).
      xDiff[0] raises IndexError when there are fewer than two points. *)
  Definition monotonic_increasing_constant_step (x : list N) : res bool :=
    let xDiff := ndiff x in
    let! d0 := idx xDiff 0 in
    let isUniform := forallb (fun d => (d - d0) <? uniform_tol) xDiff in
    let xMonotonic := forallb (fun d => n0 <? d) xDiff in
    Ok (xMonotonic && isUniform).

  (** np.argmin: first nan if there is one, otherwise first minimum. *)
  Fixpoint argmin_from (k : nat) (best : nat) (bv : N) (l : list N) : nat :=
    match l with
    | [] => best
    | x :: l' =>
        if nisnan bv then best
        else if nisnan x || (x <? bv) then argmin_from (S k) k x l'
        else argmin_from (S k) best bv l'
    end.
  Definition argmin (l : list N) : res nat :=
    match l with
    | [] => Raise ValueError
    | x :: l' => Ok (argmin_from 1 0 x l')
    end.

  (** core_engine.py:111-128 approx_array_index *)
  Definition approx_array_index (array : list N) (user_value : N) : res nat :=
    argmin (map (fun a => nabs (a - user_value)) array).
End Engine.
