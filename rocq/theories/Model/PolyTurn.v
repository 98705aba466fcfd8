(** The direction, convexity and self intersection tests of plane polygons: /repo/volmdlr/wires.py l.2872-2877, 3009-3016, 3052-3066,
    3159-3224 and 3996-4011. The memos (_line_segments, cached_property, the direction memos of segments) hold the values computed here. *)
From Coq Require Import List Bool Arith.
From Verif.Model Require Import RBase Vec Geometry Curves Edges.
Import ListNotations.
Open Scope R_scope.

(** l.3009-3016 get_line_segments: the constructor cannot fail on different points (edges.py l.601) *)
Definition line_segments (points : list vec2) : list sg2 :=
  match points with
  | [] | [_] => []
  | p :: rest => filter (fun s => negb (eqb2 (fst s) (snd s))) (combine points (rest ++ [p]))
  end.
(** line_segments[1:] + [line_segments[0]] *)
Definition followers (segments : list sg2) : res (list sg2) :=
  match segments with [] => Err IndexError | s :: rest => Ok (rest ++ [s]) end.

(** l.3060-3065: the angle from a side to the next one. unit_direction_vector is edges.py l.227-240; normal_vector, l.661-669, is not normalized *)
Definition turn_angle (ls1 ls2 : sg2) : res R :=
  do u <- unit_vector2 (dir2 ls2);
  do u1 <- unit_vector2 (dir2 ls1);
  Ok (atan2 (dot2 u (normal_vector2 (dir2 ls1))) (dot2 u u1)).
Fixpoint sum_angles (angle : R) (pairs : list (sg2 * sg2)) : res R :=
  match pairs with
  | [] => Ok angle
  | p :: rest => do a <- turn_angle (fst p) (snd p); sum_angles (angle + a) rest
  end.
(** l.3052-3066 is_trigo *)
Definition is_trigo (points : list vec2) : res bool :=
  if (length points <? 3)%nat then Ok true
  else
    do next <- followers (line_segments points);
    do angle <- sum_angles 0 (combine (line_segments points) next);
    Ok (Rltb 0 angle).

(** l.3996-4011 is_convex; the direction is asked for when there is a side at least *)
Definition bad_turn (trigo : bool) (p : sg2 * sg2) : bool :=
  let angle := clockwise_angle (dir2 (fst p)) (dir2 (snd p)) in
  if trigo then Rltb angle PI && negb (Reqb angle 0) else Rltb PI angle && negb (Reqb angle (2 * PI)).
Definition is_convex (points : list vec2) : res bool :=
  do next <- followers (line_segments points);
  do trigo <- is_trigo points;
  Ok (negb (existsb (bad_turn trigo) (combine (line_segments points) next))).

(** ** self_intersects *)
(** l.3185 sorted(range(n), key=(x, y)): stable *)
Definition key_lt (p q : vec2) : bool := Rltb (x2 p) (x2 q) || (Reqb (x2 p) (x2 q) && Rltb (y2 p) (y2 q)).
Fixpoint insert (points : list vec2) (i : nat) (l : list nat) : list nat :=
  match l with
  | [] => [i]
  | j :: rest => if key_lt (nth j points O2D) (nth i points O2D) then j :: insert points i rest else i :: l
  end.
Definition sorted_index (points : list vec2) : list nat := fold_right (insert points) [] (seq 0 (length points)).
(** l.3178-3203 _get_segments; sorted_index[i - 1] with i = 0 is the last *)
Definition at_index (l : list nat) (i : nat) : res nat := match nth_error l i with Some a => Ok a | None => Err IndexError end.
Definition segments_at (sorted : list nat) (i index : nat) : res (list (nat * nat)) :=
  let n := length sorted in
  do a <- (if (index =? 0)%nat then Ok (n - 1)%nat else at_index sorted (match i with O => n - 1 | S i => i end)%nat);
  do b <- (if (n - 1 <=? index)%nat then Ok O else at_index sorted (i + 1));
  Ok [(index, a); (index, b)].
Fixpoint get_segments_from (sorted : list nat) (i : nat) (l : list nat) : res (list (nat * nat)) :=
  match l with
  | [] => Ok []
  | index :: rest => do s <- segments_at sorted i index; do t <- get_segments_from sorted (S i) rest; Ok (s ++ t)
  end.
Definition get_segments (points : list vec2) : res (list (nat * nat)) :=
  get_segments_from (sorted_index points) 0 (sorted_index points).
(** l.3205-3224 _segments_intersect, epsilon = 0; the constructors of segments refuse equal ends (edges.py l.601) *)
Definition segments_intersect (points : list vec2) (s1 s2 : nat * nat) : res bool :=
  do line1 <- segment2 (nth (fst s1) points O2D) (nth (snd s1) points O2D);
  do line2 <- segment2 (nth (fst s2) points O2D) (nth (snd s2) points O2D);
  match line_intersection line1 line2 with
  | None => Ok false
  | Some (_, a, b) => Ok (Rleb 0 a && Rleb a 1 && Rleb 0 b && Rleb b 1)
  end.
(** l.3166-3176: the first pair found *)
Fixpoint first_of {A B} (f : A -> res (option B)) (l : list A) : res (option B) :=
  match l with
  | [] => Ok None
  | a :: rest => do r <- f a; match r with Some b => Ok (Some b) | None => first_of f rest end
  end.
Definition self_intersects (points : list vec2) : res (option ((nat * nat) * (nat * nat))) :=
  do segments <- get_segments points;
  first_of (fun s1 => first_of (fun s2 =>
      if (fst s1 =? fst s2)%nat && (snd s1 =? snd s2)%nat then Ok None
      else do b <- segments_intersect points s1 s2; Ok (if b then Some (s1, s2) else None)) segments) segments.
