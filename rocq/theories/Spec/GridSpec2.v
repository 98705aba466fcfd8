(** Regular grids of points of the plane. *)
From Coq Require Import Reals List.
From Verif.Model Require Import Base Vec Grid.
Open Scope R_scope.

(** the i-th of n regularly spaced values from a to b *)
Definition spaced (a b : R) (n i : nat) : R := a + INR i * (b - a) / (INR n - 1).
(** all the rows have n elements *)
Definition width {A} (g : grid A) (n : nat) : Prop := forall r, In r (rows g) -> length r = n.
(** the quadrilateral of the corners (i, j), (i+1, j), (i+1, j+1), (i, j+1) *)
Definition quad {A} (g : grid A) (i j : nat) (q : list A) : Prop :=
  exists p1 p2 p3 p4, q = cons p1 (cons p2 (cons p3 (cons p4 nil))) /\
    cell g i j = Ok p1 /\ cell g (S i) j = Ok p2 /\ cell g (S i) (S j) = Ok p3 /\ cell g i (S j) = Ok p4.
