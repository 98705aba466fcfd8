(** Meaning of the words used for edges. *)
From Verif.Model Require Import Base RBase Vec Edges.
From Verif.Spec Require Import VecSpec PlaneSpec.
From Coq Require Import List.
Open Scope R_scope.

(** p is at a distance of at most tol from the segment *)
Definition near_segment2 (s : vec2 * vec2) (p : vec2) (tol : R) : Prop :=
  exists q, on_segment2 s q /\ point_distance2 p q <= tol.
Definition near_segment3 (s : vec3 * vec3) (p : vec3) (tol : R) : Prop :=
  exists q, on_segment3 s q /\ point_distance3 p q <= tol.
(** a segment whose ends are different points: the only ones the constructor accepts *)
Definition proper2 (s : vec2 * vec2) : Prop := fst s <> snd s.
Definition proper3 (s : vec3 * vec3) : Prop := fst s <> snd s.
(** the ends of r are p and q, in one order or the other, up to tol *)
Definition joins2 (r : vec2 * vec2) (p q : vec2) (tol : R) : Prop :=
  (point_distance2 (fst r) p <= tol /\ point_distance2 (snd r) q <= tol) \/
  (point_distance2 (fst r) q <= tol /\ point_distance2 (snd r) p <= tol).
(** the accuracy of the intersections: 1e-6, or 2e-9 of the length for long segments *)
Definition reach (s : vec2 * vec2) : R := Rmax (/ 10 ^ 6) (2 * / 10 ^ 9 * sg2_length s).
(** the directions of the two segments make an angle whose |cosine| is not within tol (or 1e-9) of 1 *)
Definition apart (s t : vec2 * vec2) (tol : R) : Prop :=
  Rabs (dot2 (sub2 (snd s) (fst s)) (sub2 (snd t) (fst t))) < (1 - Rmax tol (/ 10 ^ 9)) * (sg2_length s * sg2_length t).
(** at most one section; each of its points is at most tol from both segments *)
Definition both (s t : vec2 * vec2) (tol : R) (l : list (vec2 * vec2)) : Prop := (length l <= 1)%nat /\
  forall r, In r l -> proper2 r /\ forall p, on_segment2 r p -> near_segment2 s p tol /\ near_segment2 t p tol.
