(** What the polygon theorems say, independently of the model: sides, the boundary, the even-odd rule, signed areas. *)
From Coq Require Import List Reals.
From Verif.Model Require Import Vec.
Import ListNotations.
Open Scope R_scope.

(** The i-th side joins points[i] to points[(i+1) mod n]. *)
Definition side_at (pts : list vec2) (i : nat) (a b : vec2) : Prop :=
  nth_error pts i = Some a /\ nth_error pts (S i mod length pts) = Some b.
Definition is_side pts a b := exists i, side_at pts i a b.
Definition no_degenerate_side pts := forall a b, is_side pts a b -> a <> b.

Definition at_param (a b : vec2) (t : R) := V2 (x2 a + t * (x2 b - x2 a)) (y2 a + t * (y2 b - y2 a)).
Definition on_segment (q a b : vec2) := exists t, 0 <= t <= 1 /\ q = at_param a b t.
Definition on_boundary p pts := exists a b, is_side pts a b /\ on_segment p a b.

(** The foot of the perpendicular from p to the side lies on the side, and is at distance at most tol from p. *)
Definition near_side (tol : R) (p a b : vec2) :=
  exists q, on_segment q a b /\ (x2 p - x2 q) * (x2 b - x2 a) + (y2 p - y2 q) * (y2 b - y2 a) = 0 /\
            (x2 p - x2 q) ^ 2 + (y2 p - y2 q) ^ 2 <= tol ^ 2.

(** The half line from p towards +x crosses the side; a side contains its upper end and not its lower one. *)
Definition ray_crosses (p : vec2) (s : vec2 * vec2) :=
  (y2 (fst s) < y2 p <= y2 (snd s) \/ y2 (snd s) < y2 p <= y2 (fst s)) /\
  exists q, on_segment q (fst s) (snd s) /\ y2 q = y2 p /\ x2 p < x2 q.

(** [counts P l n]: exactly n positions of l satisfy P. *)
Inductive counts {A} (P : A -> Prop) : list A -> nat -> Prop :=
| counts_nil : counts P [] 0
| counts_yes a l n : P a -> counts P l n -> counts P (a :: l) (S n)
| counts_no a l n : ~ P a -> counts P l n -> counts P (a :: l) n.

(** All the sides, in order. *)
Fixpoint sides_from (first a : vec2) (l : list vec2) : list (vec2 * vec2) :=
  match l with [] => [(a, first)] | b :: r => (a, b) :: sides_from first b r end.
Definition sides (pts : list vec2) := match pts with [] => [] | a :: r => sides_from a a r end.

(** Twice the signed area of the triangle o a b; the polygon's is the sum over its sides, for any o. *)
Definition tri2 (o a b : vec2) := (x2 a - x2 o) * (y2 b - y2 o) - (y2 a - y2 o) * (x2 b - x2 o).
Definition sum_sides (f : vec2 -> vec2 -> R) pts : R := fold_right (fun s acc => f (fst s) (snd s) + acc) 0 (sides pts).

(** Strictly inside a triangle: barycentric coordinates. *)
Definition in_triangle p a b c := exists l m n, 0 < l /\ 0 < m /\ 0 < n /\ l + m + n = 1 /\
  x2 p = l * x2 a + m * x2 b + n * x2 c /\ y2 p = l * y2 a + m * y2 b + n * y2 c.
