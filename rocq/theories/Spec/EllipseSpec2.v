(** The polygon inscribed in an ellipse, with n corners at equal steps of the parameter. *)
From Coq Require Import Reals List.
From Verif.Model Require Import RBase Vec Frame Ellipse.
From Verif.Spec Require Import EllipseSpec.
Open Scope R_scope.

Definition inscribed (e : ellipse2) (n i : nat) : vec2 := ellipse2_point e (INR i * (2 * PI / INR n)).
(** shoelace formula, from the centre *)
Definition inscribed_area (e : ellipse2) (n : nat) : R :=
  Rabs (fold_right (fun i s => cross2 (sub2 (inscribed e n i) (ecenter e)) (sub2 (inscribed e n (S i)) (ecenter e)) + s) 0 (seq 0 n)) / 2.
