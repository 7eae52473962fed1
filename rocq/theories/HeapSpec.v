(** * Specification vocabulary for C84 and C85: what a call may do to the caller's arrays

    Read with HeapModel.v, of which only the notion of memory is used: numbered buffers of real and
    complex numbers ([bufs]), an array as a buffer, a list of positions and a shape ([ref]), and the
    elements an array has at present ([read]). *)

From Coq Require Import List Arith.
From Verif Require Import Num Engine Cpx HeapModel.
Import ListNotations.

Section HeapSpec.
  Context {N : Num}.

  (** every buffer that existed before is still there and has the same contents *)
  Definition untouched (m m' : mem N) : Prop :=
    forall A (d : dtype N A) b, b < length (bufs d m) ->
      b < length (bufs d m') /\ nth b (bufs d m') [] = nth b (bufs d m) [].

  (** an array of the caller: it lies in an existing buffer, and has as many elements as its shape
      says (the positions may overlap with those of other arrays) *)
  Definition array_of {A} (d : dtype N A) (m : mem N) (r : ref) : Prop :=
    r_buf r < length (bufs d m) /\ length (r_idx r) = fold_right Nat.mul 1 (r_shape r).
  (** an argument a caller can pass: a number, a (nested) list, or an array *)
  Definition valid_arg {A} (d : dtype N A) (m : mem N) (p : pyarg A) : Prop :=
    match p with
    | PScalar _ => True
    | PList a => wf_arr a
    | PArr r => array_of d m r
    end.
  (** a 1-D array with elements [l] *)
  Definition vector_of {A} (d : dtype N A) (m : mem N) (r : ref) (l : list A) : Prop :=
    array_of d m r /\ r_shape r = [length l] /\ read d m r = l.

  (** a 1-D array with elements [l] in storage that did not exist when memory was [m]: it shares
      nothing with any array of that time, and is the only user of its positions *)
  Definition new_array {A} (d : dtype N A) (m m' : mem N) (r : ref) (l : list A) : Prop :=
    length (bufs d m) <= r_buf r /\ vector_of d m' r l /\ NoDup (r_idx r).
  (** the same; an empty result may also be an empty 2-D array *)
  Definition new_array0 {A} (d : dtype N A) (m m' : mem N) (r : ref) (l : list A) : Prop :=
    length (bufs d m) <= r_buf r < length (bufs d m') /\ read d m' r = l /\
    (r_shape r = [length l] \/ l = [] /\ r_shape r = [0; 0]) /\ NoDup (r_idx r).

  (** calling [p] in memory [m] ends as the value computation [v]: same exception, or results that
      [good] relates; and, however it ends, the caller's arrays are untouched *)
  Definition ends_as {A B} (m : mem N) (p : hp N A) (v : res B) (good : mem N -> A -> B -> Prop) : Prop :=
    exists m', untouched m m' /\
      ((exists a b, p m = (m', Ok a) /\ v = Ok b /\ good m' a b) \/
       (exists e, p m = (m', Raise e) /\ v = Raise e)).
End HeapSpec.
