(** The solids swept by polygons. *)
From Coq Require Import Reals List.
From Verif.Model Require Import RBase Vec Frame Polygon Profiles.
From Verif.Spec Require Import VecSpec FrameSpec PolygonSpec SolidSpec.
Import ListNotations.
Open Scope R_scope.

(** the point of coordinates p in the plane of height z of the frame *)
Definition at_height (f : frame3) (p : vec2) (z : R) : vec3 := frame_point f (V3 (x2 p) (y2 p) z).
(** the skin of the prism of height h over the polygon: for each side, a triangle of the base and one of the top (fans from the first corner) and two triangles of the lateral face *)
Definition prism (f : frame3) (h : R) (pts : list vec2) : list (vec3 * vec3 * vec3) :=
  let c := hd O2D pts in
  flat_map (fun s => let '(a, b) := s in
    [(at_height f c 0, at_height f b 0, at_height f a 0); (at_height f c h, at_height f a h, at_height f b h);
     (at_height f a 0, at_height f b 0, at_height f b h); (at_height f a 0, at_height f b h, at_height f a h)]) (sides pts).
(** the volume enclosed by triangles *)
Definition enclosed (ts : list (vec3 * vec3 * vec3)) : R := Rabs (signed_volume O3D ts).
