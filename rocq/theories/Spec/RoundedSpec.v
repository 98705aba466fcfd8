(** What a rounded corner of a polyline is. *)
From Coq Require Import Reals List.
From Verif.Model Require Import Base RBase Vec Arcs Rounded.
Import ListNotations.
Open Scope R_scope.

(** a is half of the angle pt1, pti, pt2; the three points are not aligned *)
Definition half_angle (pt1 pti pt2 : vec2) (a : R) : Prop :=
  pt1 <> pti /\ pt2 <> pti /\ 0 < a < PI / 2 /\
  dot2 (sub2 pt1 pti) (sub2 pt2 pti) = point_distance2 pt1 pti * point_distance2 pt2 pti * cos (2 * a).
(** p is on the open half line from a through b, at the distance d of a *)
Definition on_ray (a b : vec2) (d : R) (p : vec2) : Prop :=
  exists k, 0 < k /\ sub2 p a = mul2 (sub2 b a) k /\ point_distance2 p a = d.
(** the circle of center c and radius r touches the two sides of the corner, at p3 and p4, and q is its point which is the
    nearest of the corner: the arc p3, q, p4 rounds the corner *)
Definition rounds (pt1 pti pt2 : vec2) (r d : R) (c p3 q p4 : vec2) : Prop :=
  on_ray pti pt1 d p3 /\ on_ray pti pt2 d p4 /\
  dot2 (sub2 c p3) (sub2 pt1 pti) = 0 /\ dot2 (sub2 c p4) (sub2 pt2 pti) = 0 /\
  point_distance2 c p3 = r /\ point_distance2 c p4 = r /\ point_distance2 c q = r /\
  exists t, 0 < t < 1 /\ q = add2 pti (mul2 (sub2 c pti) t).

(** the corner of index i of the polyline: the point before (the last one before the first one), the point, the point after
    (the first one after the last one of a closed polyline) *)
Definition corner (s : rls) (i : nat) (p1 pi p2 : vec2) : Prop :=
  let n := length (rpts s) in
  (i < n)%nat /\ nth_error (rpts s) ((i + n - 1) mod n) = Some p1 /\ nth_error (rpts s) i = Some pi /\
  (rclosed s = true -> nth_error (rpts s) ((i + 1) mod n) = Some p2) /\ (rclosed s = false -> nth_error (rpts s) (i + 1) = Some p2).
(** the length that the rounding of the corner i takes on each of its two sides; 0 for a sharp corner *)
Definition cut (s : rls) (rad : list (nat * R)) (i : nat) (d : R) : Prop :=
  (~ In i (map fst rad) /\ d = 0) \/
  exists r p1 pi p2 a, In (i, r) rad /\ 0 < r /\ corner s i p1 pi p2 /\ half_angle p1 pi p2 a /\ / 10 ^ 6 < 2 * cos a /\ d = r / tan a.
(** the sides of the polyline *)
Definition is_side (s : rls) (i j : nat) : Prop :=
  (S i < length (rpts s) /\ j = S i)%nat \/ (rclosed s = true /\ S i = length (rpts s) /\ j = 0)%nat.
(** the roundings of the two ends of the side do not overlap *)
Definition side_fits (s : rls) (rad : list (nat * R)) (i j : nat) : Prop :=
  exists p q di dj, nth_error (rpts s) i = Some p /\ nth_error (rpts s) j = Some q /\ cut s rad i di /\ cut s rad j dj /\ di + dj <= point_distance2 p q.
(** the segment from a to b is a part of the segment from p to q, with the same direction *)
Definition part_of (p q a b : vec2) : Prop :=
  exists t1 t2, 0 <= t1 < t2 /\ t2 <= 1 /\ a = add2 p (mul2 (sub2 q p) t1) /\ b = add2 p (mul2 (sub2 q p) t2).
(** consecutive primitives are connected, up to tol *)
Definition chained (tol : R) (l : list prim) : Prop :=
  forall i a b, nth_error l i = Some a -> nth_error l (S i) = Some b -> point_distance2 (p_end a) (p_start b) <= tol.
Definition arcs_of (l : list prim) : list Arcs.arc2 := flat_map (fun p => match p with PArc a => [a] | PSeg _ => [] end) l.
(** where the wire meets the point i: the start of its arc, or the point itself *)
Definition meets (pts : list vec2) (arcs : list (nat * Arcs.arc2)) (i : nat) (p : vec2) : Prop :=
  match lookup i arcs with Some a => p = Arcs.ast a | None => nth_error pts i = Some p end.

(** answers of a linear programming solver that satisfy the bounds 0 <= x_j <= b_j and the rows x_a + x_b <= m *)
Definition lp_feasible (rows : list (nat * nat * R)) (bounds x : list R) : Prop :=
  length x = length bounds /\
  (forall j b v, nth_error bounds j = Some b -> nth_error x j = Some v -> 0 <= v <= b) /\
  (forall a b m v w, In (a, b, m) rows -> nth_error x a = Some v -> nth_error x b = Some w -> v + w <= m).
(** and that minimise the cost *)
Definition lp_cost (c x : list R) : R := fold_right Rplus 0 (map (fun ab => fst ab * snd ab) (combine c x)).
Definition lp_solves (lp : lp_solver) : Prop :=
  forall c rows bounds x, lp c rows bounds = Ok x -> lp_feasible rows bounds x /\ forall y, lp_feasible rows bounds y -> lp_cost c x <= lp_cost c y.

(** the left unit normal of the side from p to q *)
Definition left_normal (p q n : vec2) : Prop := norm2 n = 1 /\ dot2 n (sub2 q p) = 0 /\ 0 < cross2 (sub2 q p) n.
(** the corner is either straight or turns by an angle that the code can see (it takes a turn of less than about 1e-6 for a
    straight corner), and does not turn back *)
Definition clear_corner (p1 p p2 : vec2) : Prop :=
  exists u v, norm2 u = 1 /\ norm2 v = 1 /\ (exists k, 0 < k /\ sub2 p1 p = mul2 u k) /\ (exists k, 0 < k /\ sub2 p2 p = mul2 v k) /\
  (add2 u v = V2 0 0 \/ / 10 ^ 6 < norm2 (add2 u v)).
Definition same_direction (u v : vec2) : Prop := exists k, 0 < k /\ v = mul2 u k.
