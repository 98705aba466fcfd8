(** Angles of the ends of arcs on tori and spheres. *)
From Coq Require Import ZArith.
From Verif.Model Require Import RBase Vec.
From Verif.Spec Require Import PeriodicSpec.
Open Scope R_scope.

(** the angle [a], and [r], its value next to it on the arc: less than a quarter of a turn apart *)
Definition neighbour (a r : R) : Prop := principal a /\ principal r /\ close_angle (PI / 2 - / 10 ^ 2) r a.
(** [a'], [b'] are the angles [a], [b] within 1e-3 on the circle, the first and (up to one turn, when the arc is cut) the second in [-pi, pi];
    a cut arc goes the other way round *)
Definition angle_ends (cut : bool) (a b a' b' : R) : Prop :=
  principal a' /\ close_angle (/ 10 ^ 3) a' a /\ close_angle (/ 10 ^ 3) b' b /\
  exists b0, principal b0 /\ close_angle (/ 10 ^ 3) b0 b /\
    b' = if cut then (if Rltb a' b0 then b0 - 2 * PI else b0 + 2 * PI) else b0.
