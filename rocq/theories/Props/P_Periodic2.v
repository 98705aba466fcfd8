(** C321-C322: ends of arcs of tori and spheres (statements only). *)
From Coq Require Import List Bool Arith ZArith Reals Lra Lia.
From Verif.Model Require Import RBase Vec Geometry Periodic Periodic2.
From Verif.Spec Require Import PeriodicSpec PeriodicSpec2.
From Verif.Proofs Require Import PeriodicP PeriodicP2 PeriodicP4.
Open Scope R_scope.

(** ** C321: arcs of tori *)
Theorem C321_both_angles start end_ u1 u2 u3 u4 after before td pd :
  neighbour (x2 start) (x2 after) -> neighbour (x2 end_) (x2 before) -> neighbour (y2 start) (y2 after) -> neighbour (y2 end_) (y2 before) ->
  let '(s, e) := arc3d_to_toroidal_coordinates_verification start end_ u1 u2 u3 u4 after before td pd in
  angle_ends td (x2 start) (x2 end_) (x2 s) (x2 e) /\ angle_ends pd (y2 start) (y2 end_) (y2 s) (y2 e).
Proof. exact (arc_torus_ok start end_ u1 u2 u3 u4 after before td pd). Qed.
Print Assumptions C321_both_angles.
Theorem C321_settled_angles_do_not_change start end_ after before td pd : Rabs (x2 start) <> PI / 2 -> Rabs (x2 end_) <> PI / 2 -> Rabs (y2 start) <> PI / 2 -> Rabs (y2 end_) <> PI / 2 ->
  let '(s, e) := arc3d_to_toroidal_coordinates_verification start end_ false false false false after before td pd in
  s = start /\ (td = false -> pd = false -> e = end_).
Proof. exact (arc_torus_settled start end_ after before td pd). Qed.
Print Assumptions C321_settled_angles_do_not_change.
Theorem C321_the_side_of_the_neighbour start end_ u2 u3 u4 after before td pd : neighbour (x2 start) (x2 after) -> Rabs (x2 start) = PI ->
  let '(s, e) := arc3d_to_toroidal_coordinates_verification start end_ true u2 u3 u4 after before td pd in Rabs (x2 s - x2 after) < PI / 2.
Proof. exact (arc_torus_side start end_ u2 u3 u4 after before td pd). Qed.
Print Assumptions C321_the_side_of_the_neighbour.
Example C321_nonvacuous : neighbour PI (-3) /\ neighbour 1 (11 / 10) /\ Rabs PI = PI.
Proof.
  pose proof PI2_3_2 as P3. pose proof PI_4 as P4. assert (T2 : / 10 ^ 2 = / 100) by (f_equal; ring). unfold neighbour, principal.
  split; [|split; [|apply Rabs_right; lra]]; (split; [lra|]); (split; [lra|]).
  - exists (-1)%Z. rewrite T2. apply Rabs_le. lra.
  - exists 0%Z. rewrite T2. apply Rabs_le. lra.
Qed.
(** ** C322: arcs of spheres *)
Theorem C322_the_longitudes start end_ after before d :
  neighbour (x2 start) (x2 after) -> neighbour (x2 end_) (x2 before) ->
  let '(s, e) := arc3d_to_spherical_coordinates_verification start end_ after before d in
  y2 s = y2 start /\ y2 e = y2 end_ /\
  angle_ends (d && isclose (y2 start) (y2 end_) (/ 10 ^ 4)) (x2 start) (x2 end_) (x2 s) (x2 e).
Proof. exact (arc_sphere_ok start end_ after before d). Qed.
Print Assumptions C322_the_longitudes.
Theorem C322_the_side_of_the_neighbour start end_ after before : neighbour (x2 start) (x2 after) -> Rabs (x2 start) = PI ->
  let '(s, e) := arc3d_to_spherical_coordinates_verification start end_ after before false in Rabs (x2 s - x2 after) < PI / 2.
Proof. exact (arc_sphere_side start end_ after before). Qed.
Print Assumptions C322_the_side_of_the_neighbour.
Example C322_nonvacuous : neighbour PI (-3) /\ Rabs PI = PI.
Proof. destruct C321_nonvacuous as (A & _ & B). auto. Qed.

