(** Convex hulls of plane points (/repo/volmdlr/wires.py l.3434-3480), ordering and grouping of points
    (/repo/volmdlr/utils/common_operations.py l.354-430) and the axes of the grid of a face (/repo/volmdlr/faces.py l.420-429).
    What scipy's ConvexHull and DBSCAN answer (the simplices, the labels) is a parameter. Points are
    compared by their coordinates (core_compiled.pyx l.1037 and 1958); simplices have no negative index. *)
From Coq Require Import List Bool Arith ZArith Reals.
From Verif.Model Require Import Base RBase Vec Geometry Curves Edges.
Import ListNotations.
Open Scope R_scope.

Definition tol6 : R := / 10 ^ 6.

(** l.3450-3451, 3454: polygon_points.remove: the first equal pair goes *)
Definition eqb_edge (e f : sg2) : bool := eqb2 (fst e) (fst f) && eqb2 (snd e) (snd f).
Fixpoint remove_first (e : sg2) (l : list sg2) : list sg2 :=
  match l with [] => [] | f :: rest => if eqb_edge e f then rest else f :: remove_first e rest end.

(** l.3458-3464, the for loop: the pair it stops at, and the point appended. Without a close end it goes through: the pair is the last one *)
Fixpoint next_edge (last : vec2) (l : list sg2) (current : sg2) : sg2 * option vec2 :=
  match l with
  | [] => (current, None)
  | e :: rest =>
    if is_close2 (fst e) last tol6 then (e, Some (snd e))
    else if is_close2 (snd e) last tol6 then (e, Some (fst e))
    else next_edge last rest e
  end.
(** l.3456-3465: the while loop, [n] bounds the number of turns: each one removes a pair. [chain] is points_hull, from its end *)
Fixpoint hull_chain (n : nat) (chain : list vec2) (edges : list sg2) : list vec2 :=
  match n, edges with
  | O, _ | _, [] => chain
  | S n, e0 :: _ =>
    let '(e, p) := next_edge (hd O2D chain) edges e0 in
    hull_chain n (match p with Some q => q :: chain | None => chain end) (remove_first e edges)
  end.

(** l.3470-3475: the place of the lowest x, the first one *)
Fixpoint lowest_x (i : nat) (l : list vec2) (i_min : nat) (min_x : R) : nat :=
  match l with
  | [] => i_min
  | p :: rest => if Rltb (x2 p) min_x then lowest_x (S i) rest i (x2 p) else lowest_x (S i) rest i_min min_x
  end.

(** l.3444-3448: points_hull[simplex[0]], points_hull[simplex[1]] *)
Definition simplex_edge (points : list vec2) (s : nat * nat) : res sg2 :=
  match nth_error points (fst s), nth_error points (snd s) with Some p, Some q => Ok (p, q) | _, _ => Err IndexError end.
Fixpoint simplex_edges (points : list vec2) (l : list (nat * nat)) : res (list sg2) :=
  match l with [] => Ok [] | s :: rest => do e <- simplex_edge points s; do es <- simplex_edges points rest; Ok (e :: es) end.

(** l.3476-3480: from the point of the lowest x, reversed when the second point is above the first *)
Definition hull_order (ring : list vec2) : res (list vec2) :=
  match ring with
  | [] => Err IndexError
  | p :: _ =>
    let i := lowest_x 0 ring 0 (x2 p) in
    match skipn i ring ++ firstn i ring with
    | a :: b :: rest => Ok (if Rltb (y2 a) (y2 b) then rev (a :: b :: rest) else a :: b :: rest)
    | _ => Err IndexError
    end
  end.
(** l.3434-3482 convex_hull_points; points_hull.pop(-1) drops the head of the chain kept from its end *)
Definition convex_hull_points (points : list vec2) (simplices : list (nat * nat)) : res (list vec2) :=
  do edges <- simplex_edges points simplices;
  match edges with
  | [] => Err IndexError
  | e :: _ =>
    let rest := remove_first e edges in
    hull_order (rev (tl (hull_chain (length rest) [snd e; fst e] rest)))
  end.

(** common_operations.py l.366: np.argmin of the distances, the first smallest one *)
Fixpoint argmin_from (current : vec3) (i : nat) (l : list vec3) (best : nat) (d : R) : nat :=
  match l with
  | [] => best
  | p :: rest => if Rltb (norm3 (sub3 p current)) d then argmin_from current (S i) rest i (norm3 (sub3 p current))
                 else argmin_from current (S i) rest best d
  end.
Definition nearest_index (current : vec3) (l : list vec3) : nat :=
  match l with [] => 0 | p :: rest => argmin_from current 1 rest 0 (norm3 (sub3 p current)) end.
(** remaining_points.any(): some coordinate of some point is not 0 *)
Definition any_nonzero (l : list vec3) : bool :=
  existsb (fun p => negb (Reqb (x3 p) 0) || negb (Reqb (y3 p) 0) || negb (Reqb (z3 p) 0)) l.
Definition delete_nth {A} (i : nat) (l : list A) : list A := firstn i l ++ skipn (S i) l.
(** l.365-373; [n] bounds the number of turns: each one deletes a point *)
Fixpoint nearest_chain (n : nat) (current : vec3) (remaining : list vec3) : list vec3 :=
  match n with
  | O => [current]
  | S n =>
    if any_nonzero remaining then
      let i := nearest_index current remaining in
      current :: nearest_chain n (nth i remaining O3D) (delete_nth i remaining)
    else [current]
  end.
(** l.354-374 order_points_list_for_nearest_neighbor *)
Definition order_points_list_for_nearest_neighbor (points : list vec3) : res (list vec3) :=
  match points with [] => Err IndexError | p :: rest => Ok (nearest_chain (length rest) p rest) end.

(** l.403-411: the groups in the order of their first point; [labels] is what DBSCAN answers *)
Fixpoint add_to_group {A} (label : Z) (p : A) (groups : list (Z * list A)) : list (Z * list A) :=
  match groups with
  | [] => [(label, [p])]
  | g :: rest => if Z.eqb (fst g) label then (fst g, snd g ++ [p]) :: rest else g :: add_to_group label p rest
  end.
Definition groups_of {A} (l : list (A * Z)) : list (Z * list A) := fold_left (fun g e => add_to_group (snd e) (fst e) g) l [].
(** l.413-415: the ordered group, closed *)
Definition closed_group (l : list vec3) : res (list vec3) :=
  do o <- order_points_list_for_nearest_neighbor l;
  match o with [] => Err IndexError | p :: _ => Ok (o ++ [p]) end.
Fixpoint closed_groups (l : list (Z * list vec3)) : res (list (list vec3)) :=
  match l with [] => Ok [] | g :: rest => do c <- closed_group (snd g); do cs <- closed_groups rest; Ok (c :: cs) end.
(** l.377-417 separate_points_by_closeness: the labels are zipped with the points (one label per point) *)
Definition separate_points_by_closeness (points : list vec3) (labels : list Z) : res (list (list vec3)) :=
  closed_groups (groups_of (combine points labels)).

(** l.421-430 get_center_of_mass *)
Definition get_center_of_mass (l : list vec3) : res vec3 := div3 (fold_left add3 l O3D) (INR (length l)).

(** faces.py l.420-429 _get_grid_axis, for one of the two axes *)
Definition grid_step (lo hi : R) (n : nat) : R := if (1 <? n)%nat then (hi - lo) / (INR n - 1) else hi - lo.
Definition grid_axis (lo hi : R) (n : nat) : list R := map (fun i => lo + INR i * grid_step lo hi n) (seq 0 n).
