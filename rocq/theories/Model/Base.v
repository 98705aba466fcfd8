(** Common vocabulary of the model: exceptions as values, integer ranges. *)
From Coq Require Export List ZArith Bool.
From Coq Require Import Lia.
Export ListNotations.

(** The Python exceptions the modelled functions raise; [OutOfFuel] is not a
    Python exception: it marks a loop whose fuel was exhausted, and every
    theorem that relies on such a loop shows it does not occur. *)
Inductive exn : Set :=
| IndexError | ValueError | ZeroDivisionError | NotImplementedError | TypeError
| KeyError | AttributeError | OverflowError | OutOfFuel.

Inductive res (A : Type) : Type :=
| Ok (a : A)
| Err (e : exn).
Arguments Ok {A} a.
Arguments Err {A} e.

Definition bind {A B} (r : res A) (f : A -> res B) : res B :=
  match r with Ok a => f a | Err e => Err e end.
Notation "'do' x <- r ; k" := (bind r (fun x => k))
  (at level 200, x pattern, r at level 100, k at level 200).

(** Python's [range(a, b)] as a list of integers. *)
Definition zrange (a b : Z) : list Z :=
  map (fun i => (a + Z.of_nat i)%Z) (seq 0 (Z.to_nat (b - a))).

(** All index triples / pairs of a box, in C (row-major) order: the order in which
    [np.argwhere] lists them. *)
Definition cells3 (a b c : Z) : list (Z * Z * Z) :=
  flat_map (fun x => flat_map (fun y => map (fun z => (x, y, z)) (zrange 0 c)) (zrange 0 b))
           (zrange 0 a).
Definition cells2 (a b : Z) : list (Z * Z) :=
  flat_map (fun x => map (fun y => (x, y)) (zrange 0 b)) (zrange 0 a).
