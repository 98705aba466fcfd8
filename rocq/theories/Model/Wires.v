(** Wires and contours: /repo/volmdlr/wires.py l.83-176 (reorder_contour3d_edges_from_step), l.179-660 (WireMixin) and
    l.1500-1533, l.1919-1978 (ContourMixin). A wire is the list of its primitives; names, caches (_length, _reverse) and the class of the
    result (2D or 3D, wire or contour) are left out.
    The methods only use their edges through a few operations, gathered in [edge_api]; they are given below for line
    segments of the plane and of space. Reversing an edge never fails: an edge that exists has two different ends. *)
From Coq Require Import Reals List.
From Verif.Model Require Import Base RBase Vec Frame Geometry Curves Edges.
Import ListNotations.
Open Scope R_scope.

Record edge_api := Api {
  pt : Type;
  edge : Type;
  e_start : edge -> pt;
  e_end : edge -> pt;
  e_length : edge -> R;
  e_rev : edge -> edge;                               (* edges.py l.91-95 reverse *)
  p_dist : pt -> pt -> R;                             (* point_distance *)
  p_close : pt -> pt -> R -> bool;                    (* is_close *)
  e_same : edge -> edge -> bool;                      (* edges.py l.97-106 direction_independent_is_close *)
  e_at : edge -> R -> res pt;                         (* point_at_abscissa *)
  e_belongs : edge -> pt -> R -> res bool;            (* point_belongs *)
  e_abscissa : edge -> pt -> res R                    (* abscissa, with its default tolerance *)
}.
(** LineSegment2D and LineSegment3D *)
Definition segments2 : edge_api :=
  Api vec2 sg2 fst snd sg2_length (fun s => (snd s, fst s)) point_distance2 is_close2
      (fun s t => sg2_is_close s t (/ 10 ^ 6) || sg2_is_close (snd s, fst s) t (/ 10 ^ 6))
      sg2_point_at_abscissa sg2_point_belongs (fun s p => sg2_abscissa s p (/ 10 ^ 6)).
Definition segments3 : edge_api :=
  let is_close s t := is_close3 (fst s) (fst t) (/ 10 ^ 6) && is_close3 (snd s) (snd t) (/ 10 ^ 6) in
  Api vec3 sg3 fst snd sg3_length (fun s => (snd s, fst s)) point_distance3 is_close3
      (fun s t => is_close s t || is_close (snd s, fst s) t)
      sg3_point_at_abscissa sg3_point_belongs (fun s p => sg3_abscissa s p (/ 10 ^ 6)).

Section Wires.
Context (K : edge_api).
Notation E := (edge K).
Notation P := (pt K).

(** l.194-201 length *)
Definition wire_length (w : list E) : R := fold_left (fun l e => l + e_length K e) w 0.
(** l.218-230 point_at_abscissa *)
Fixpoint wire_at_from (w : list E) (last : option E) (length abscissa : R) : res P :=
  match w with
  | e :: w =>
    if Rltb abscissa (length + e_length K e) then e_at K e (abscissa - length)
    else wire_at_from w (Some e) (length + e_length K e) abscissa
  | [] =>
    if isclose abscissa length (/ 10 ^ 6) then
      match last with Some e => Ok (e_end K e) | None => Err IndexError end
    else Err ValueError
  end.
Definition wire_at (w : list E) (abscissa : R) : res P := wire_at_from w None 0 abscissa.
(** l.632-638 middle_point *)
Definition wire_middle (w : list E) : res P := wire_at w (wire_length w / 2).
(** l.204-216 discretization_points with a number of points: number_points = 1 divides by zero *)
Definition wire_discretization (w : list E) (number_points : nat) : res (list P) :=
  let n := (number_points - 1)%nat in
  if (n =? 0)%nat then Err ZeroDivisionError
  else mapM (fun i => wire_at w (INR i / INR n * wire_length w)) (seq 0 (n + 1)).
(** l.390-401 point_over_wire, l.279-293 abscissa *)
Fixpoint wire_over (w : list E) (p : P) (tol : R) : res bool :=
  match w with
  | [] => Ok false
  | e :: w => do b <- e_belongs K e p tol; if b then Ok true else wire_over w p tol
  end.
Fixpoint wire_abscissa_from (w : list E) (length : R) (p : P) (tol : R) : res R :=
  match w with
  | [] => Ok length
  | e :: w =>
    do b <- e_belongs K e p tol;
    if b then do a <- e_abscissa K e p; Ok (length + a) else wire_abscissa_from w (length + e_length K e) p tol
  end.
Definition wire_abscissa (w : list E) (p : P) (tol : R) : res R :=
  do b <- wire_over w p tol; if b then wire_abscissa_from w 0 p tol else Err ValueError.
(** l.299-305 is_ordered of a wire *)
Fixpoint wire_is_ordered (w : list E) (tol : R) : bool :=
  match w with
  | e :: ((f :: _) as r) => negb (Rltb tol (p_dist K (e_end K e) (e_start K f))) && wire_is_ordered r tol
  | _ => true
  end.
(** l.1506-1520 is_ordered of a contour; self.primitives[0] of an empty contour raises IndexError *)
Definition contour_is_ordered (w : list E) (tol : R) : res bool :=
  match w with
  | [] => Err IndexError
  | first :: r =>
    if match r with [] => Rleb (e_length K first) tol | _ => false end then Ok false
    else if match r with [second] => e_same K first second | _ => false end then Ok false
    else Ok (forallb (fun ef => p_close K (e_end K (fst ef)) (e_start K (snd ef)) tol) (combine w (r ++ [first])))
  end.
(** edges.py l.461-473 is_point_edge_extremity *)
Definition extremity (e : E) (p : P) (tol : R) : bool := p_close K (e_start K e) p tol || p_close K (e_end K e) p tol.
(** l.320-335, l.547-568: an edge is put after the last one or before the first one *)
Definition attach (tol : R) (chain : list E) (e : E) : option (list E) :=
  match chain with
  | [] => None
  | first :: _ =>
    let last_end := e_end K (last chain first) in
    if extremity e last_end tol then
      Some (chain ++ [if p_close K last_end (e_start K e) tol then e else e_rev K e])
    else if extremity e (e_start K first) tol then
      Some ((if p_close K (e_start K first) (e_end K e) tol then e else e_rev K e) :: chain)
    else None
  end.
(** the first edge of the list that can be attached is taken out of it. [list.remove] takes the first edge that is equal
    to it: it has the same ends, so it would have been attached too. *)
Fixpoint attach_first (tol : R) (chain edges : list E) : option (list E * list E) :=
  match edges with
  | [] => None
  | e :: edges =>
    match attach tol chain e with
    | Some c => Some (c, edges)
    | None => match attach_first tol chain edges with Some (c, r) => Some (c, e :: r) | None => None end
    end
  end.
(** l.307-342 ordering_primitives *)
Fixpoint ordering_loop (fuel : nat) (tol : R) (chain edges : list E) : res (list E) :=
  match edges with
  | [] => Ok chain
  | _ =>
    match fuel with
    | O => Err OutOfFuel
    | S fuel =>
      match attach_first tol chain edges with
      | Some (c, r) => ordering_loop fuel tol c r
      | None => Err NotImplementedError
      end
    end
  end.
Definition ordering_primitives (w : list E) (tol : R) : res (list E) :=
  match filter (fun e => negb (isclose (e_length K e) 0 tol)) w with
  | [] => Err IndexError
  | e :: edges => ordering_loop (length edges) tol [e] edges
  end.
(** l.344-349 order_wire, l.351-366 from_wires, l.1522-1532 order_contour *)
Definition order_wire (w : list E) (tol : R) : res (list E) :=
  if wire_is_ordered w tol then Ok w else ordering_primitives w tol.
Definition from_wires (ws : list (list E)) : res (list E) := order_wire (concat ws) (/ 10 ^ 6).
Definition order_contour (w : list E) (tol : R) : res (list E) :=
  do b <- contour_is_ordered w tol;
  if b || (length w <? 2)%nat then Ok w else ordering_primitives w tol.
(** l.368-381 inverted_primitives, invert; l.383-388 is_followed_by *)
Definition invert (w : list E) : list E := map (e_rev K) (rev w).
Definition is_followed_by (w1 w2 : list E) (tol : R) : res bool :=
  match w1, w2 with
  | e :: _, f :: _ => Ok (Rltb (p_dist K (e_end K (last w1 e)) (e_start K f)) tol)
  | _, _ => Err IndexError
  end.
(** l.518-574 wires_from_edges: the wires, and what is left of the list of the caller *)
Fixpoint grow (fuel : nat) (tol : R) (chain edges : list E) : list E * list E :=
  match fuel with
  | O => (chain, edges)
  | S fuel => match attach_first tol chain edges with Some (c, r) => grow fuel tol c r | None => (chain, edges) end
  end.
Fixpoint all_wires (fuel : nat) (tol : R) (edges : list E) : list (list E) :=
  match fuel, edges with
  | S fuel, e :: edges => let '(c, r) := grow (length edges) tol [e] edges in c :: all_wires fuel tol r
  | _, _ => []
  end.
Definition wires_from_edges (edges : list E) (tol : R) : list (list E) * list E :=
  match edges with
  | [] => ([], [])
  | [e] => ([[e]], [e])
  | _ => (all_wires (length edges) tol edges, [])
  end.
(** l.1944-1959 reorder_contour_at_point: the primitives from the first one that starts at the point *)
Fixpoint rotate_at (before after : list E) (p : P) : list E :=
  match after with
  | [] => []
  | e :: r => if p_close K (e_start K e) p (/ 10 ^ 6) then after ++ rev before else rotate_at (e :: before) r p
  end.
Definition reorder_contour_at_point (w : list E) (p : P) : list E := rotate_at [] w p.
(** l.1970-1976 is_contour_closed *)
Definition is_contour_closed (w : list E) : res bool :=
  match w with [] => Err IndexError | e :: _ => Ok (p_close K (e_start K e) (e_end K (last w e)) (/ 10 ^ 6)) end.
(** l.83-176 reorder_contour3d_edges_from_step: None stands for the warning and the returned None; [list.index] of the
    least distance is the first one. The empty list raises IndexError. *)
Definition argmin (l : list R) : nat :=
  match l with [] => 0%nat | d :: r => let m := fold_left Rmin r d in
    (fix find (l : list R) : nat := match l with [] => 0%nat | a :: l => if Reqb a m then 0%nat else S (find l) end) l end.
Definition least (l : list R) : R := match l with [] => 0 | d :: r => fold_left Rmin r d end.
Fixpoint follow (last_edge : E) (raw : list E) : option (list E) :=
  match raw with
  | [] => Some []
  | e :: raw =>
    if e_same K e last_edge then follow last_edge raw
    else
      let distances := [p_dist K (e_start K e) (e_end K last_edge); p_dist K (e_end K e) (e_end K last_edge)] in
      if Rltb (/ 10 ^ 3) (least distances) then None
      else
        let f := match argmin distances with O => e | _ => e_rev K e end in
        match follow f raw with Some l => Some (f :: l) | None => None end
  end.
Fixpoint reversed_follow (w : list E) : bool :=
  match w with
  | e :: ((f :: _) as r) => Rltb (p_dist K (e_start K f) (e_end K e)) (/ 10 ^ 6) && reversed_follow r
  | _ => true
  end.
Definition reorder_step (raw : list E) : res (option (list E)) :=
  if reversed_follow (rev raw) then Ok (Some (rev raw))
  else
    match raw with
    | e0 :: e1 :: r =>
      let distances := [p_dist K (e_end K e0) (e_start K e1); p_dist K (e_start K e0) (e_start K e1);
                        p_dist K (e_end K e0) (e_end K e1); p_dist K (e_start K e0) (e_end K e1)] in
      if Rltb (/ 10 ^ 3) (least distances) then Ok None
      else
        let '(f0, f1) := match argmin distances with
                         | 0%nat => (e0, e1) | 1%nat => (e_rev K e0, e1)
                         | 2%nat => (e0, e_rev K e1) | _ => (e_rev K e0, e_rev K e1) end in
        Ok (match follow f1 r with Some l => Some (f0 :: f1 :: l) | None => None end)
    | _ => Err IndexError
    end.
End Wires.

(** l.432-443 Wire2D.from_points and l.1923-1942 Contour2D.from_points *)
Fixpoint polyline (pts : list vec2) : res (list sg2) :=
  match pts with
  | p :: ((q :: _) as r) => do s <- segment2 p q; do l <- polyline r; Ok (s :: l)
  | _ => Ok []
  end.
Definition wire_from_points (pts : list vec2) : res (list sg2) := match pts with [] => Err IndexError | _ => polyline pts end.
Fixpoint open_sides (pts : list vec2) : res (list sg2) :=
  match pts with
  | p :: ((q :: _) as r) =>
    if is_close2 p q (/ 10 ^ 6) then open_sides r
    else do s <- segment2 p q; do l <- open_sides r; Ok (s :: l)
  | _ => Ok []
  end.
Definition contour_from_points (pts : list vec2) : res (list sg2) :=
  if (length pts <? 3)%nat then Err ValueError
  else
    match pts with
    | [] => Err ValueError
    | p :: _ =>
      do l <- open_sides pts;
      let q := last pts p in
      if is_close2 q p (/ 10 ^ 6) then Ok l else do s <- segment2 q p; Ok (l ++ [s])
    end.
