(** Linear algebra on lists of rows, for C36. *)
From Coq Require Import Reals List.
From Verif.Spec Require Import NurbsSpec.
Import ListNotations.
Open Scope R_scope.

Definition entry (M : list (list R)) (i j : nat) : R := nth j (nth i M []) 0.
Definition square (n : nat) (M : list (list R)) : Prop := length M = n /\ forall row, In row M -> length row = n.
Definition lower_triangular (n : nat) (L : list (list R)) : Prop := forall i j, (i < j < n)%nat -> entry L i j = 0.
Definition upper_triangular (n : nat) (U : list (list R)) : Prop := forall i j, (j < i < n)%nat -> entry U i j = 0.
(** (L U)_{ij} = A_{ij} and (A x)_i = b_i. *)
Definition product_is (n : nat) (L U A : list (list R)) : Prop :=
  forall i j, (i < n)%nat -> (j < n)%nat -> Rsum (fun k => entry L i k * entry U k j) n = entry A i j.
Definition solves (n : nat) (A : list (list R)) (x b : list R) : Prop :=
  length x = n /\ forall i, (i < n)%nat -> Rsum (fun j => entry A i j * nth j x 0) n = nth i b 0.
