(** What the second moment and triangle circle theorems say. *)
From Coq Require Import Reals List.
From Verif.Model Require Import Vec.
From Verif.Spec Require Import PolygonSpec.
Import ListNotations.
Open Scope R_scope.

(** Integral over the triangle o a b, counted with the sign of its orientation, of a polynomial f of degree at most 2 in the
    coordinates: area times the mean of f at the midpoints of the three sides (exact quadrature for quadratic polynomials). *)
Definition tri_integral (f : R -> R -> R) (o a b : vec2) : R :=
  tri2 o a b / 2 * ((f ((x2 o + x2 a) / 2) ((y2 o + y2 a) / 2) + f ((x2 a + x2 b) / 2) ((y2 a + y2 b) / 2)
                     + f ((x2 b + x2 o) / 2) ((y2 b + y2 o) / 2)) / 3).
(** over the polygon, cut in the triangles o a b *)
Definition poly_integral (f : R -> R -> R) (o : vec2) (pts : list vec2) : R := sum_sides (tri_integral f o) pts.
(** sum of the coordinates *)
Definition sum_points (pts : list vec2) : vec2 := fold_right add2 O2D pts.
