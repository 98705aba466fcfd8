(** Corners and sides of a closed polygon, numbered cyclically. *)
From Coq Require Import List Arith.
From Verif.Model Require Import RBase Vec.
Import ListNotations.
Open Scope R_scope.

Definition corner (pts : list vec2) (i : nat) : vec2 := nth (i mod length pts) pts O2D.
Definition side (pts : list vec2) (i : nat) : vec2 := sub2 (corner pts (S i)) (corner pts i).
Definition no_repeat (pts : list vec2) : Prop := forall i, corner pts (S i) <> corner pts i.
(** the turn at a corner: how the side after it is placed from the side before it *)
Definition turn (pts : list vec2) (i : nat) : R := cross2 (side pts i) (side pts (S i)).
Definition goes_back (pts : list vec2) (i : nat) : Prop := turn pts i = 0 /\ dot2 (side pts i) (side pts (S i)) < 0.
(** all the points are on the left (on the right) of each side, or on its line *)
Definition convex_trigo (pts : list vec2) : Prop := forall i j, 0 <= cross2 (side pts i) (sub2 (corner pts j) (corner pts i)).
Definition convex_clockwise (pts : list vec2) : Prop := forall i j, cross2 (side pts i) (sub2 (corner pts j) (corner pts i)) <= 0.
Definition not_flat (pts : list vec2) : Prop := forall i, exists j, cross2 (side pts i) (sub2 (corner pts j) (corner pts i)) <> 0.
(** sides only meet at the corner between them *)
Definition on_side (pts : list vec2) (i : nat) (t : R) : vec2 := add2 (corner pts i) (mul2 (side pts i) t).
Definition simple_polygon (pts : list vec2) : Prop := no_repeat pts /\
  forall i j s t, (i < j < length pts)%nat -> 0 <= s <= 1 -> 0 <= t <= 1 -> on_side pts i s = on_side pts j t ->
  (j = S i /\ s = 1 /\ t = 0) \/ (i = 0%nat /\ j = (length pts - 1)%nat /\ s = 0 /\ t = 1).
(** twice the signed area (shoelace formula) *)
Definition twice_area (pts : list vec2) : R := fold_right (fun i a => cross2 (corner pts i) (corner pts (S i)) + a) 0 (seq 0 (length pts)).
(** no three points are aligned, up to 1e-15 *)
Definition general_position (pts : list vec2) : Prop := forall i j k, (i < length pts)%nat -> (j < length pts)%nat -> (k < length pts)%nat ->
  i <> j -> i <> k -> j <> k -> / 10 ^ 15 < Rabs (cross2 (sub2 (nth j pts O2D) (nth i pts O2D)) (sub2 (nth k pts O2D) (nth i pts O2D))).
