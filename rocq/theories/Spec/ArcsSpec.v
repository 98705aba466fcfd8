(** Arcs of circles as sets of points. *)
From Coq Require Import Reals List.
From Verif.Model Require Import Base RBase Vec Frame Curves Arcs.
From Verif.Spec Require Import VecSpec CurvesSpec.
Open Scope R_scope.

Definition circle_ok (c : circle2) : Prop := orthonormal2 (fb2 (cf2 c)) /\ 0 < cr2 c.
(** the points met when going along the circle, in its direction (from its first axis towards its second one), from
    [start] until [stop] is first met again; a full turn when the two points are the same *)
Definition arc_has (c : circle2) (start stop p : vec2) : Prop :=
  exists a b t, start = circle2_point c a /\ stop = circle2_point c b /\ a < b <= a + 2 * PI /\ a <= t <= b /\ p = circle2_point c t.
(** the angle from start to stop *)
Definition arc_angle (c : circle2) (start stop : vec2) (d : R) : Prop :=
  exists a, start = circle2_point c a /\ stop = circle2_point c (a + d) /\ 0 < d <= 2 * PI.
(** p is on the circle, and its angle in the frame of the circle is not in the last 6.3e-9 of the turn (which the code
    takes for 0) *)
Definition regular (c : circle2) (p : vec2) : Prop := exists t, 0 <= t < 2 * PI * (1 - / 10 ^ 9) /\ p = circle2_point c t.
(** an arc as built by the constructor on regular points *)
Definition arc_ok (a : arc2) : Prop :=
  circle_ok (ac a) /\ regular (ac a) (ast a) /\ regular (ac a) (aen a) /\ arc2_new (ac a) (ast a) (aen a) = Ok a.
(** the direction of p seen from the center is inside the arc, ends excluded *)
Definition seen_inside (a : arc2) (p : vec2) : Prop :=
  exists t k, ang1 a < t < ang2 a /\ 0 < k /\ sub2 p (center2 (ac a)) = mul2 (sub2 (circle2_point (ac a) t) (center2 (ac a))) k.
(** the point given by f moves with the velocity v at s *)
Definition velocity (f : R -> res vec2) (s : R) (v : vec2) : Prop :=
  exists p, (forall u, f u = Ok (p u)) /\ derivable_pt_lim (fun u => x2 (p u)) s (x2 v) /\ derivable_pt_lim (fun u => y2 (p u)) s (y2 v).
