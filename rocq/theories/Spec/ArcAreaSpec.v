(** Integrals over the sector of an arc and over the region between an arc and its chord. *)
From Coq Require Import Reals List.
From Verif.Model Require Import Base RBase Vec Frame Curves Arcs.
From Verif.Spec Require Import VecSpec CurvesSpec ArcsSpec.
Open Scope R_scope.

(** the point at distance rho of the center in the direction of the point of the circle at the angle th *)
Definition polar_point (c : circle2) (rho th : R) : vec2 :=
  add2 (add2 (center2 c) (mul2 (u2 (fb2 (cf2 c))) (rho * cos th))) (mul2 (v2 (fb2 (cf2 c))) (rho * sin th)).
(** v is the integral of f over the sector between the angles t1 and t2: the double integral of f(rho, th) rho d rho d th,
    by primitives: H th is a primitive of f rho in rho, G one of the inner integral in th *)
Definition sector_integral (c : circle2) (t1 t2 : R) (f : vec2 -> R) (v : R) : Prop :=
  exists (H : R -> R -> R) (G : R -> R),
    (forall th rho, derivable_pt_lim (H th) rho (f (polar_point c rho th) * rho)) /\
    (forall th, derivable_pt_lim G th (H th (cr2 c) - H th 0)) /\ v = G t2 - G t1.
(** v is the signed area swept by the segment from o to the moving point P between t1 and t2 *)
Definition swept_area (P : R -> vec2) (o : vec2) (t1 t2 v : R) : Prop :=
  exists (D : R -> vec2) (G : R -> R),
    (forall t, derivable_pt_lim (fun t => x2 (P t)) t (x2 (D t)) /\ derivable_pt_lim (fun t => y2 (P t)) t (y2 (D t))) /\
    (forall t, derivable_pt_lim G t (cross2 (sub2 (P t) o) (D t) / 2)) /\ v = G t2 - G t1.
(** signed area of the triangle o p q, and integral over it of a polynomial of degree at most two (exact quadrature at
    the middles of the sides, signed like the area) *)
Definition tri_area (o p q : vec2) : R := cross2 (sub2 p o) (sub2 q o) / 2.
Definition mid (p q : vec2) : vec2 := mul2 (add2 p q) (1 / 2).
Definition tri_integral (o p q : vec2) (f : vec2 -> R) : R := tri_area o p q / 3 * (f (mid o p) + f (mid p q) + f (mid q o)).
(** integral of f over the region between the arc and its chord: the sector minus the triangle of the center and the chord,
    counted with the orientation of the circle *)
Definition segment_integral (a : arc2) (f : vec2 -> R) (v : R) : Prop :=
  exists s, sector_integral (ac a) (ang1 a) (ang2 a) f s /\
    v = s - (if arc2_is_trigo a then 1 else -1) * tri_integral (center2 (ac a)) (ast a) (aen a) f.
