(** * Numbers, exceptions, results: the vocabulary of the model.

    The toolbox computes on numpy float64 values.  All model code is written
    against the record [Num] below, once, and is used at three instances:
    [NX] (ideal floats: exact reals + inf/nan, file XR.v; most theorems), [NB] (every
    operation rounded to binary64, file RoundNum.v; C60-C62, C77, C79-C81) and
    [NF] (Coq's primitive binary64, file NumFloat.v; conformance runs only). *)

From Coq Require Import ZArith String List Bool.
Import ListNotations.

(** x ** m for an integer m by repeated multiplication (the meaning of an integer power in exact arithmetic:
    x ** -2 = 1 / x ** 2; 0 ** -1 = inf; inf ** -1 = 0); used to build the instances NX and NF. *)
Fixpoint pow_mul {A} (one : A) (mul : A -> A -> A) (x : A) (k : nat) : A :=
  match k with O => one | S k' => mul x (pow_mul one mul x k') end.
Definition powZ_mul {A} (one : A) (mul div : A -> A -> A) (x : A) (m : Z) : A :=
  match m with
  | Z0 => one
  | Zpos p => pow_mul one mul x (Pos.to_nat p)
  | Zneg p => div one (pow_mul one mul x (Pos.to_nat p))
  end.

Record Num := mkNum {
  car :> Type;
  nofZ   : Z -> car;                      (* int -> float64 *)
  nadd   : car -> car -> car;
  nsub   : car -> car -> car;
  nmul   : car -> car -> car;
  ndiv   : car -> car -> car;             (* numpy division: x/0 is inf or nan, no exception *)
  nopp   : car -> car;
  nabs   : car -> car;
  nsqrt  : car -> car;
  nltb   : car -> car -> bool;
  nleb   : car -> car -> bool;
  neqb   : car -> car -> bool;
  nfloor : car -> option Z;               (* None on inf and nan *)
  nisnan : car -> bool;
  nisinf : car -> bool;
  ninf   : car;
  nnan   : car;
  nexp   : car -> car;
  nln    : car -> car;
  ntanh  : car -> car;
  npow   : car -> car -> car;             (* x ** y, y a float *)
  npowi  : car -> Z -> car;               (* x ** m, x one float, m an int: the C library's pow *)
  npi    : car;
  ncos   : car -> car;
  nsin   : car -> car;
  nsumf  : list car -> car                (* np.sum: the order of the additions is up to the instance *)
}.

Arguments nofZ {n}. Arguments nadd {n}. Arguments nsub {n}. Arguments nmul {n}.
Arguments ndiv {n}. Arguments nopp {n}. Arguments nabs {n}. Arguments nsqrt {n}.
Arguments nltb {n}. Arguments nleb {n}. Arguments neqb {n}. Arguments nfloor {n}.
Arguments nisnan {n}. Arguments nisinf {n}. Arguments ninf {n}. Arguments nnan {n}.
Arguments nexp {n}. Arguments nln {n}. Arguments ntanh {n}. Arguments npow {n}. Arguments npowi {n}.
Arguments npi {n}. Arguments ncos {n}. Arguments nsin {n}. Arguments nsumf {n}.

Declare Scope num_scope.
Delimit Scope num_scope with num.
Notation "x + y" := (nadd x y) : num_scope.
Notation "x - y" := (nsub x y) : num_scope.
Notation "x * y" := (nmul x y) : num_scope.
Notation "x / y" := (ndiv x y) : num_scope.
Notation "- x" := (nopp x) : num_scope.
Notation "x <? y" := (nltb x y) : num_scope.
Notation "x <=? y" := (nleb x y) : num_scope.
Notation "x =? y" := (neqb x y) : num_scope.
Notation "x >? y" := (nltb y x) (only parsing) : num_scope.
Notation "x >=? y" := (nleb y x) (only parsing) : num_scope.

(** Python exceptions that the modelled code can raise.  [Unmodelled] is not a
    Python exception: it marks inputs on which the model makes no claim. *)
Inductive err :=
| ValueError | IndexError | AssertionError | UnboundLocalError
| ZeroDivisionError | OverflowError | OutOfFuel | Unmodelled.

Inductive res (A : Type) :=
| Ok (a : A)
| Raise (e : err).
Arguments Ok {A} a.
Arguments Raise {A} e.

Definition bind {A B} (m : res A) (k : A -> res B) : res B :=
  match m with Ok a => k a | Raise e => Raise e end.
Definition rmap {A B} (k : A -> B) (m : res A) : res B :=
  match m with Ok a => Ok (k a) | Raise e => Raise e end.

Notation "'let!' p ':=' m 'in' k" := (bind m (fun p => k))
  (at level 200, p pattern, m at level 100, k at level 200, right associativity).
Notation "'raise_if' c 'with' e ';;' k" := (if c then Raise e else k)
  (at level 200, c at level 100, e at level 0, k at level 200, right associativity).

(** Sequencing of a list of computations (a Python loop that may raise). *)
Fixpoint mapM {A B} (k : A -> res B) (l : list A) : res (list B) :=
  match l with
  | [] => Ok []
  | a :: l' => let! b := k a in let! bs := mapM k l' in Ok (b :: bs)
  end.

Section NumDefs.
  Context {N : Num}.
  Local Open Scope num_scope.

  Definition n0 : N := nofZ 0.
  Definition n1 : N := nofZ 1.
  Definition nofnat (k : nat) : N := nofZ (Z.of_nat k).
  (** A decimal literal p/q of the source (e.g. 0.07 = lit 7 100). *)
  Definition lit (p q : Z) : N := nofZ p / nofZ q.

  (** array ** m for an integer m: numpy replaces the exponents -1, 0, 1, 2 by reciprocal, ones,
      copy and square, and calls pow for the others. *)
  Definition npowZ (x : N) (m : Z) : N :=
    match m with
    | (-1)%Z => n1 / x
    | 0%Z => n1
    | 1%Z => x
    | 2%Z => x * x
    | _ => npowi x m
    end.

  (** np.round: round half to even (inf and nan are returned unchanged). *)
  Definition nrint (x : N) : N :=
    match nfloor x with
    | None => x
    | Some z =>
        let d := x - nofZ z in
        if d <? lit 1 2 then nofZ z
        else if lit 1 2 <? d then nofZ (z + 1)
        else if Z.even z then nofZ z else nofZ (z + 1)
    end.
  (** np.ceil as an integer *)
  Definition nceil (x : N) : option Z :=
    match nfloor (- x) with Some z => Some (- z)%Z | None => None end.
  (** Python int(np.floor(x)) / math.floor(x): ValueError on nan, OverflowError on inf. *)
  Definition int_floor (x : N) : res Z :=
    match nfloor x with
    | Some z => Ok z
    | None => if nisnan x then Raise ValueError else Raise OverflowError
    end.
  (** Python int(x): truncation toward zero. *)
  Definition int_trunc (x : N) : res Z :=
    if x <? n0 then rmap Z.opp (int_floor (- x)) else int_floor x.

  (** np.sign *)
  Definition nsign (x : N) : N :=
    if nisnan x then x else if n0 <? x then n1 else if x <? n0 then - n1 else n0.
  (** Python built-in max(a, b): b only if b > a. *)
  Definition pymax2 (a b : N) : N := if a <? b then b else a.
  Definition pymin2 (a b : N) : N := if b <? a then b else a.

  (** np.sum.  In exact arithmetic the order of the additions is immaterial (instance [NX]: from the right); the
      rounding theorems (instance [NB]) hold for every order, numpy's pairwise one among them. *)
  Definition nsum (l : list N) : N := nsumf l.
  (** np.mean; the mean of an empty array is 0/0 = nan *)
  Definition nmean (l : list N) : N := nsum l / nofnat (length l).
  (** np.var *)
  Definition nvar (l : list N) : N :=
    let m := nmean l in nmean (map (fun x => (x - m) * (x - m)) l).
  (** np.diff *)
  Fixpoint ndiff (l : list N) : list N :=
    match l with
    | x :: ((y :: _) as l') => (y - x) :: ndiff l'
    | _ => []
    end.

  (** Python built-in max(xs) / min(xs) on a 1-D array: ValueError when empty. *)
  Definition pymax (l : list N) : res N :=
    match l with [] => Raise ValueError | x :: l' => Ok (fold_left pymax2 l' x) end.
  Definition pymin (l : list N) : res N :=
    match l with [] => Raise ValueError | x :: l' => Ok (fold_left pymin2 l' x) end.
  (** np.max / np.min: additionally propagate nan. *)
  Definition npmax (l : list N) : res N :=
    if existsb nisnan l then Ok nnan else pymax l.
  Definition npmin (l : list N) : res N :=
    if existsb nisnan l then Ok nnan else pymin l.
End NumDefs.

(** Python/numpy list operations that do not look at the numbers. *)
Section Lists.
  Context {A : Type}.
  (** a[i] for a non-negative index *)
  Definition idx (l : list A) (i : nat) : res A :=
    match nth_error l i with Some x => Ok x | None => Raise IndexError end.
  (** a[-1] *)
  Definition idx_last (l : list A) : res A :=
    match rev l with x :: _ => Ok x | [] => Raise IndexError end.
  (** a[i:j] for 0 <= i, 0 <= j *)
  Definition slice (i j : nat) (l : list A) : list A := firstn (j - i) (skipn i l).
  (** np.where(mask)[0] *)
  Fixpoint where_from (k : nat) (p : A -> bool) (l : list A) : list nat :=
    match l with
    | [] => []
    | x :: l' => if p x then k :: where_from (S k) p l' else where_from (S k) p l'
    end.
  Definition where_ (p : A -> bool) (l : list A) : list nat := where_from 0 p l.
  (** a[[i1; i2; ...]] (fancy indexing) *)
  Definition take (l : list A) (is : list nat) : res (list A) := mapM (idx l) is.
  (** np.delete(a, [i1; i2; ...]) *)
  Definition delete_idx (is : list nat) (l : list A) : list A :=
    map snd (filter (fun p => negb (existsb (Nat.eqb (fst p)) is)) (combine (seq 0 (length l)) l)).
End Lists.

(** Elementwise binary operation with numpy's 1-D broadcasting rule. *)
Fixpoint map2 {A B C} (op : A -> B -> C) (l : list A) (l' : list B) : list C :=
  match l, l' with
  | a :: t, b :: t' => op a b :: map2 op t t'
  | _, _ => []
  end.
Definition bmap2 {A B C} (op : A -> B -> C) (l : list A) (l' : list B) : res (list C) :=
  if Nat.eqb (length l) (length l') then Ok (map2 op l l')
  else match l, l' with
       | [a], _ => Ok (map (op a) l')
       | _, [b] => Ok (map (fun a => op a b) l)
       | _, _ => Raise ValueError
       end.

(** Case-insensitive strings: Python str.lower() on ASCII. *)
Definition lower_ascii (c : Ascii.ascii) : Ascii.ascii :=
  let n := Ascii.nat_of_ascii c in
  if andb (Nat.leb 65 n) (Nat.leb n 90) then Ascii.ascii_of_nat (n + 32) else c.
Fixpoint lower (s : string) : string :=
  match s with
  | EmptyString => EmptyString
  | String c s' => String (lower_ascii c) (lower s')
  end.
