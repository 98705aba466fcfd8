(** C321-C322: ends of arcs of tori and spheres (statements only). *)
From Coq Require Import List Bool Arith ZArith Reals Lra Lia.
From Verif.Model Require Import RBase Vec Geometry Periodic Periodic2.
From Verif.Spec Require Import PeriodicSpec PeriodicSpec2.
From Verif.Proofs Require Import PeriodicP PeriodicP2 PeriodicP4.
Open Scope R_scope.

(** ** C321: arcs of tori *)
@arc_torus_ok C321_both_angles
@arc_torus_settled C321_settled_angles_do_not_change
@arc_torus_side C321_the_side_of_the_neighbour
Example C321_nonvacuous : neighbour PI (-3) /\ neighbour 1 (11 / 10) /\ Rabs PI = PI.
Proof.
  pose proof PI2_3_2 as P3. pose proof PI_4 as P4. assert (T2 : / 10 ^ 2 = / 100) by (f_equal; ring). unfold neighbour, principal.
  split; [|split; [|apply Rabs_right; lra]]; (split; [lra|]); (split; [lra|]).
  - exists (-1)%Z. rewrite T2. apply Rabs_le. lra.
  - exists 0%Z. rewrite T2. apply Rabs_le. lra.
Qed.
(** ** C322: arcs of spheres *)
@arc_sphere_ok C322_the_longitudes
@arc_sphere_side C322_the_side_of_the_neighbour
Example C322_nonvacuous : neighbour PI (-3) /\ Rabs PI = PI.
Proof. destruct C321_nonvacuous as (A & _ & B). auto. Qed.
