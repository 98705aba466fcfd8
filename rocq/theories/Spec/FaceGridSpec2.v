(** Numbers of the nodes of a grid walked line by line, one line out of two from the right. *)
From Coq Require Import List Arith.
From Verif.Model Require Import Base FaceGrid.
From Verif.Spec Require Import FaceGridSpec.
Import ListNotations.
Open Scope nat_scope.

Definition number_of_node {T} (x y : list T) (k : nat) (p : T * T) : Prop :=
  exists line column, k = line * length x + column /\ nth_error y line = Some (snd p) /\
    nth_error (if Nat.even line then x else rev x) column = Some (fst p).
(** the node of number k is looked up in the dictionary when the hole is removed *)
Definition looked_up {T} (lt : T -> T -> bool) (x y : list T) (ny k : nat) (r : @region T) : Prop :=
  exists a b, nth_error x (k / (ny + 2)) = Some a /\ nth_error y (k mod (ny + 2)) = Some b /\ between lt (x_min r) (x_max r) a /\ between lt (y_min r) (y_max r) b.
