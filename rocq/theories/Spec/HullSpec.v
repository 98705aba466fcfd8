(** Rings, the order of nearest neighbours, groups. *)
From Coq Require Import List Bool Arith ZArith Reals Permutation.
From Verif.Model Require Import RBase Vec.
Import ListNotations.
Open Scope R_scope.

(** the pairs of successive elements of a path, of a ring *)
Definition path_edges {A} (l : list A) : list (A * A) := combine l (tl l).
Definition ring_edges {A} (l : list A) : list (A * A) := match l with [] => [] | a :: _ => path_edges (l ++ [a]) end.
Definition same_edge {A} (e f : A * A) : Prop := f = e \/ f = (snd e, fst e).
(** the edges of the ring, each once, in any order and any direction *)
Definition edges_of_ring {A} (ring : list A) (edges : list (A * A)) : Prop :=
  exists l, Forall2 same_edge (ring_edges ring) l /\ Permutation l edges.
Definition rotation {A} (l m : list A) : Prop := exists a b, l = a ++ b /\ m = b ++ a.
(** the same ring, from another point or the other way round *)
Definition same_ring {A} (l m : list A) : Prop := rotation l m \/ rotation (rev l) m.
Definition far_apart (tol : R) (l : list vec2) : Prop := forall i j, (i < j < length l)%nat -> tol < point_distance2 (nth i l O2D) (nth j l O2D).
Definition leftmost (a : vec2) (l : list vec2) : Prop := forall p, In p l -> x2 a <= x2 p.

(** the first is the starting point, each point is one of the nearest ones among those that come after the one before it *)
Definition nearest_order (l : list vec3) : Prop :=
  forall i j, (S i < length l)%nat -> (S i < j < length l)%nat ->
  point_distance3 (nth i l O3D) (nth (S i) l O3D) <= point_distance3 (nth i l O3D) (nth j l O3D).

(** the members of a list that have a given label, in their order *)
Definition labelled {A} (label : Z) (l : list (A * Z)) : list A := map fst (filter (fun e => Z.eqb (snd e) label) l).
