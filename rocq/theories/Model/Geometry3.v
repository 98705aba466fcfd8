(** /repo/volmdlr/geometry.py, functions on circles of space. *)
From Coq Require Import Reals.
From Verif.Model Require Import RBase Vec Frame Geometry Curves.
Open Scope R_scope.
(** l.178-208 clockwise_interior_from_circle3d; the division by the radius is that of the reals *)
Definition clockwise_interior3d (start end_ : vec3) (c : circle3) : vec3 :=
  let o := org3 (cf3 c) in let u := bu (fb3 (cf3 c)) in let v := bv (fb3 (cf3 c)) in
  to_3d (clockwise_interior2d (to_2d start o u v) (to_2d end_ o u v) (cr3 c)) o u v.
