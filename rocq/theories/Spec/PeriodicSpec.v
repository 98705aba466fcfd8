(** Angles on a circle. *)
From Coq Require Import List ZArith.
From Verif.Model Require Import RBase.
Import ListNotations.
Open Scope R_scope.

Definition principal (a : R) : Prop := - PI <= a <= PI.
(** [a] and [b] are at most [e] apart on the circle *)
Definition close_angle (e a b : R) : Prop := exists k : Z, Rabs (a - b - IZR k * (2 * PI)) <= e.
(** consecutive angles of the list are less than [s] apart on the circle *)
Definition small_steps (s : R) (l : list R) : Prop := forall i, (0 < i < length l)%nat -> exists k : Z, Rabs (nth i l 0 - nth (i - 1) l 0 - IZR k * (2 * PI)) < s.
(** the step to the i-th angle goes over the cut at pi *)
Definition crosses_the_cut (s : R) (l : list R) (i : nat) : Prop := (0 < i < length l)%nat /\ s <= Rabs (nth i l 0 - nth (i - 1) l 0).
