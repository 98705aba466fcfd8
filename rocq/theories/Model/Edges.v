(** Line segments: /repo/volmdlr/edges.py l.121-147 and l.396-531 (Edge), l.551-571 (shared sections), l.594-825 (LineSegment), l.2243-2610
    (LineSegment2D), l.4346-4671 (LineSegment3D) and /repo/volmdlr/utils/common_operations.py l.180-206.
    A segment is its two points; names, caches (_length, _line, _middle_point, the direction memo) and deep copies
    are left out: they hold the values computed here. *)
From Verif.Model Require Import Base RBase Vec Frame BBox Geometry Curves.
From Coq Require Import List.
Import ListNotations.
Open Scope R_scope.

Definition sg2 : Type := vec2 * vec2.
Definition sg3 : Type := vec3 * vec3.
Definition eqb2 (p q : vec2) : bool := Reqb (x2 p) (x2 q) && Reqb (y2 p) (y2 q).
(** l.601-606: the constructor compares the ends exactly *)
Definition segment2 (s e : vec2) : res sg2 := if eqb2 s e then Err ValueError else Ok (s, e).
Definition segment3 (s e : vec3) : res sg3 := if eqb3 s e then Err ValueError else Ok (s, e).
(** l.621-625 *)
Definition sg2_length (s : sg2) : R := point_distance2 (snd s) (fst s).
Definition sg3_length (s : sg3) : R := point_distance3 (snd s) (fst s).
(** l.627-645 abscissa *)
Definition sg2_abscissa (s : sg2) (p : vec2) (tol : R) : res R :=
  if Rltb (point_distance2 p (fst s)) tol then Ok 0
  else if Rltb (point_distance2 p (snd s)) tol then Ok (sg2_length s)
  else
    let vector := dir2 s in
    let length := norm2 vector in
    if Reqb length 0 then Err ZeroDivisionError
    else
      let t := dot2 (sub2 p (fst s)) vector / length in
      if Rltb t (- / 10 ^ 9) || Rltb (length + / 10 ^ 9) t then Err ValueError else Ok t.
Definition sg3_abscissa (s : sg3) (p : vec3) (tol : R) : res R :=
  if Rltb (point_distance3 p (fst s)) tol then Ok 0
  else if Rltb (point_distance3 p (snd s)) tol then Ok (sg3_length s)
  else
    let vector := dir3 s in
    let length := norm3 vector in
    if Reqb length 0 then Err ZeroDivisionError
    else
      let t := dot3 (sub3 p (fst s)) vector / length in
      if Rltb t (- / 10 ^ 9) || Rltb (length + / 10 ^ 9) t then Err ValueError else Ok t.
(** l.711-718 point_at_abscissa (unit_direction_vector of Edge, l.227-240), l.701-709 middle_point *)
Definition sg2_point_at_abscissa (s : sg2) (a : R) : res vec2 :=
  do u <- unit_vector2 (dir2 s); Ok (add2 (fst s) (mul2 u a)).
Definition sg3_point_at_abscissa (s : sg3) (a : R) : res vec3 :=
  do u <- unit_vector3 (dir3 s); Ok (add3 (fst s) (mul3 u a)).
Definition sg2_middle (s : sg2) : vec2 := mul2 (add2 (fst s) (snd s)) (1 / 2).
Definition sg3_middle (s : sg3) : vec3 := mul3 (add3 (fst s) (snd s)) (1 / 2).
(** l.132-147 discretization_points of Edge. [int] truncates towards zero: the argument is never negative for the
    positive resolutions it is used with. *)
Definition number_of_points (number_points angle_resolution : option Z) (length : R) : Z :=
  let n := match angle_resolution with
           | Some a => if (a =? 0)%Z then number_points
                       else let x := IZR a * (length / PI) in Some (if Rltb x 0 then (- Int_part (- x))%Z else Int_part x)
           | None => number_points
           end in
  match n with None => 2%Z | Some n => if (n <=? 1)%Z then 2%Z else n end.
Fixpoint mapM {A B} (f : A -> res B) (l : list A) : res (list B) :=
  match l with [] => Ok [] | a :: l => do b <- f a; do r <- mapM f l; Ok (b :: r) end.
Definition sg2_discretization (s : sg2) (number_points angle_resolution : option Z) : res (list vec2) :=
  let n := number_of_points number_points angle_resolution (sg2_length s) in
  let step := sg2_length s / IZR (n - 1) in
  mapM (fun i => sg2_point_at_abscissa s (INR i * step)) (seq 0 (Z.to_nat n)).
Definition sg3_discretization (s : sg3) (number_points angle_resolution : option Z) : res (list vec3) :=
  let n := number_of_points number_points angle_resolution (sg3_length s) in
  let step := sg3_length s / IZR (n - 1) in
  mapM (fun i => sg3_point_at_abscissa s (INR i * step)) (seq 0 (Z.to_nat n)).
(** common_operations.py l.180-206 get_abscissa_discretization on a 2D segment; numpy.linspace; point in_list with
    the default tolerance 1e-6 *)
Definition linspace (a b : R) (n : nat) : list R :=
  match n with
  | O => []
  | 1%nat => [a]
  | _ => map (fun i => a + INR i * ((b - a) / INR (n - 1))) (seq 0 n)
  end.
Fixpoint abscissa_points2 (s : sg2) (abscissas : list R) (pts : list vec2) (abs : list R) : res (list vec2 * list R) :=
  match abscissas with
  | [] => Ok (pts, abs)
  | a :: l =>
    if Rltb (sg2_length s + / 10 ^ 6) a then abscissa_points2 s l pts abs
    else
      do p <- sg2_point_at_abscissa s a;
      if in_list2 p pts (/ 10 ^ 6) then abscissa_points2 s l pts abs
      else abscissa_points2 s l (pts ++ [p]) (abs ++ [a])
  end.
Definition sg2_abscissa_discretization (s : sg2) (a1 a2 : R) (n : nat) : res (list vec2 * list R) :=
  abscissa_points2 s (linspace a1 a2 n) [] [].
(** l.409-420 local_discretization *)
Definition sg2_local_discretization (s : sg2) (p1 p2 : vec2) (n : nat) : res (list vec2) :=
  do a1 <- sg2_abscissa s p1 (/ 10 ^ 6);
  do a2 <- sg2_abscissa s p2 (/ 10 ^ 6);
  do r <- sg2_abscissa_discretization s a1 a2 n; Ok (fst r).
(** l.686-699 split *)
Definition sg2_split (s : sg2) (p : vec2) (tol : R) : res (option sg2 * option sg2) :=
  if is_close2 p (fst s) tol then Ok (None, Some s)
  else if is_close2 p (snd s) tol then Ok (Some s, None)
  else do a <- segment2 (fst s) p; do b <- segment2 p (snd s); Ok (Some a, Some b).
Definition sg3_split (s : sg3) (p : vec3) (tol : R) : res (option sg3 * option sg3) :=
  if is_close3 p (fst s) tol then Ok (None, Some s)
  else if is_close3 p (snd s) tol then Ok (Some s, None)
  else do a <- segment3 (fst s) p; do b <- segment3 p (snd s); Ok (Some a, Some b).
(** l.2310-2321 and l.4407-4412 point_distance, l.772-788 point_belongs *)
Definition sg2_point_distance (s : sg2) (p : vec2) : res R :=
  do d <- linesegment2d_point_distance (fst s) (snd s) p; Ok (fst d).
Definition sg3_point_distance (s : sg3) (p : vec3) : res R :=
  do d <- linesegment3d_point_distance (fst s) (snd s) p; Ok (fst d).
Definition sg2_point_belongs (s : sg2) (p : vec2) (tol : R) : res bool :=
  do d <- sg2_point_distance s p; Ok (isclose d 0 tol).
Definition sg3_point_belongs (s : sg3) (p : vec3) (tol : R) : res bool :=
  do d <- sg3_point_distance s p; Ok (isclose d 0 tol).
(** l.810-824 is_close, l.97-106 direction_independent_is_close, l.2469-2473 get_reverse *)
Definition sg2_reverse (s : sg2) : res sg2 := segment2 (snd s) (fst s).
Definition sg2_is_close (s t : sg2) (tol : R) : bool := is_close2 (fst s) (fst t) tol && is_close2 (snd s) (snd t) tol.
Definition sg2_is_close_any_direction (s t : sg2) (tol : R) : res bool :=
  if sg2_is_close s t tol then Ok true
  else do r <- sg2_reverse s; Ok (sg2_is_close r t tol).
(** l.422-443 trim. [split1[1].split] on None raises AttributeError. *)
Definition sg2_pick (e : option sg2) (p1 p2 : vec2) : res bool :=
  match e with
  | None => Ok false
  | Some e => do b1 <- sg2_point_belongs e p1 (/ 10 ^ 4);
              if b1 then sg2_point_belongs e p2 (/ 10 ^ 4) else Ok false
  end.
Definition sg2_trim (s : sg2) (p1 p2 : vec2) : res (option sg2) :=
  do split1 <- (if is_close2 p1 (fst s) (/ 10 ^ 6) || is_close2 p1 (snd s) (/ 10 ^ 6) then Ok (Some s, None)
                else sg2_split s p1 (/ 10 ^ 6));
  do in_first <- match fst split1 with None => Ok false | Some e => sg2_point_belongs e p2 (/ 10 ^ 6) end;
  do split2 <- match (if in_first then fst split1 else snd split1) with
               | None => Err AttributeError
               | Some e => sg2_split e p2 (/ 10 ^ 6)
               end;
  do k1 <- sg2_pick (fst split2) p1 p2;
  if k1 then Ok (fst split2)
  else do k2 <- sg2_pick (snd split2) p1 p2; Ok (if k2 then snd split2 else None).
(** l.2284-2293 bounding_rectangle, l.4370-4384 _bounding_box *)
Definition sg2_rectangle (s : sg2) : rect :=
  Rect (Rmin (x2 (fst s)) (x2 (snd s))) (Rmax (x2 (fst s)) (x2 (snd s)))
       (Rmin (y2 (fst s)) (y2 (snd s))) (Rmax (y2 (fst s)) (y2 (snd s))).
Definition sg3_bounding_box (s : sg3) : bbox :=
  BBox (Rmin (x3 (fst s)) (x3 (snd s))) (Rmax (x3 (fst s)) (x3 (snd s)))
       (Rmin (y3 (fst s)) (y3 (snd s))) (Rmax (y3 (fst s)) (y3 (snd s)))
       (Rmin (z3 (fst s)) (z3 (snd s))) (Rmax (z3 (fst s)) (z3 (snd s))).

(** ** Intersections of LineSegment2D *)
(** core_compiled.pyx l.501-519 on two 2D vectors *)
Definition is_colinear_to2 (u v : vec2) (tol : R) : bool :=
  if Reqb (norm2 u) 0 then false
  else if Reqb (norm2 v) 0 then false
  else isclose (Rabs (dot2 u v) / norm2 u / norm2 v) 1 tol.
(** l.2323-2333 point_projection: [None] when the foot is outside *)
Definition sg2_point_projection (s : sg2) (p : vec2) : res (option vec2 * R) :=
  do r <- point_projection2 s p;
  let '(q, a) := r in
  if Rltb a 0 || Rltb (sg2_length s) a then
    if Rltb (Rabs a) (/ 10 ^ 6) || isclose a (sg2_length s) (/ 10 ^ 6) then Ok (Some q, a) else Ok (None, a)
  else Ok (Some q, a).
(** l.2335-2356 line_intersections with a Line2D, l.2380-2389 line_crossings *)
Definition sg2_line_intersections (s : sg2) (l : vec2 * vec2) : res (list vec2) :=
  if is_colinear_to2 (dir2 s) (dir2 l) (/ 10 ^ 6) then Ok []
  else match line_intersection s l with
       | Some (p, _, _) =>
         do r <- sg2_point_projection s p;
         match fst r with None => Ok [] | Some q => Ok [q] end
       | None =>
         do b <- line2_point_belongs l (fst s) (/ 10 ^ 6);
         if b then Ok [fst s]
         else do b <- line2_point_belongs l (snd s) (/ 10 ^ 6);
              if b then Ok [snd s] else Ok []
       end.
Definition sg2_line_crossings (s : sg2) (l : vec2 * vec2) : res (list vec2) :=
  if is_colinear_to2 (dir2 s) (dir2 l) (/ 10 ^ 6) then Ok []
  else do i <- sg2_line_intersections s l;
       match i with
       | p :: _ => if is_close2 p (snd s) (/ 10 ^ 6) || is_close2 p (fst s) (/ 10 ^ 6) then Ok [] else Ok i
       | [] => Ok []
       end.
(** l.2358-2378 linesegment_intersections (a Point2D is always true in a condition) *)
Definition sg2_intersections (s t : sg2) (tol : R) : res (list vec2) :=
  if Rltb tol (rect_distance (sg2_rectangle s) (sg2_rectangle t)) then Ok []
  else if is_colinear_to2 (dir2 s) (dir2 t) tol then Ok []
  else match line_intersection s t with
       | None => Ok []
       | Some (p, _, _) =>
         do r1 <- sg2_point_projection s p;
         match fst r1 with
         | None => Ok []
         | Some q1 =>
           do r2 <- sg2_point_projection t p;
           match fst r2 with None => Ok [] | Some _ => Ok [q1] end
         end
       end.
(** l.2540-2549 closest_point_on_segment *)
Definition sg2_closest_point (s : sg2) (p : vec2) : res vec2 :=
  let v := dir2 s in
  if Reqb (dot2 v v) 0 then Err ZeroDivisionError
  else
    let t := Rmax 0 (Rmin (dot2 (sub2 p (fst s)) v / dot2 v v) 1) in
    Ok (V2 (x2 (fst s) + t * x2 v) (y2 (fst s) + t * y2 v)).
(** l.2551-2578 distance_linesegment (the distance and the two points) *)
Definition first_least (l : list (vec2 * vec2)) : option (R * vec2 * vec2) :=
  fold_left (fun best pq =>
    let d := point_distance2 (fst pq) (snd pq) in
    match best with
    | None => Some (d, fst pq, snd pq)
    | Some (m, _, _) => if Rltb d m then Some (d, fst pq, snd pq) else best
    end) l None.
Definition sg2_distance (s t : sg2) : res (R * vec2 * vec2) :=
  do i <- sg2_intersections s t (/ 10 ^ 6);
  match i with
  | p :: _ => Ok (0, p, p)
  | [] =>
    do a <- sg2_closest_point s (fst t);
    do b <- sg2_closest_point s (snd t);
    do c <- sg2_closest_point t (fst s);
    do d <- sg2_closest_point t (snd s);
    match first_least [(a, fst t); (b, snd t); (c, fst s); (d, snd s)] with
    | Some r => Ok r
    | None => Err TypeError
    end
  end.
(** curves.py l.347-358 closest_point_on_line; edges.py l.2580-2609 line_distance *)
Definition line2_closest_point (l : vec2 * vec2) (p : vec2) : res vec2 :=
  let v := dir2 l in
  if Reqb (dot2 v v) 0 then Err ZeroDivisionError
  else let t := dot2 (sub2 p (fst l)) v / dot2 v v in
       Ok (V2 (x2 (fst l) + t * x2 v) (y2 (fst l) + t * y2 v)).
Definition sg2_line_distance (s : sg2) (l : vec2 * vec2) : res (R * vec2 * vec2) :=
  do i <- line2_line_intersections l s;
  match i with
  | [] => do c <- line2_closest_point l (fst s); Ok (point_distance2 c (fst s), fst s, c)
  | p :: _ =>
    do b <- sg2_point_belongs s p (/ 10 ^ 6);
    if b then Ok (0, p, p)
    else
      do c1 <- line2_closest_point l (fst s);
      do c2 <- line2_closest_point l (snd s);
      let d1 := point_distance2 c1 (fst s) in
      let d2 := point_distance2 c2 (snd s) in
      Ok (if Rltb d1 d2 then (d1, fst s, c1) else (d2, snd s, c2))
  end.

(** ** Shared sections: l.741-758, l.538-571 (2D segments) *)
Fixpoint all_belong (s : sg2) (l : list vec2) (tol : R) : res bool :=
  match l with
  | [] => Ok true
  | p :: l => do b <- sg2_point_belongs s p tol; if b then all_belong s l tol else Ok false
  end.
Fixpoint any_belong (s : sg2) (l : list vec2) (tol : R) : res bool :=
  match l with
  | [] => Ok false
  | p :: l => do b <- sg2_point_belongs s p tol; if b then Ok true else any_belong s l tol
  end.
Definition three_points (s : sg2) : list vec2 := [fst s; sg2_middle s; snd s].
Definition shared_of_split (e1 e2 : option sg2) (other : sg2) (tol : R) : res (list sg2) :=
  do b1 <- match e1 with None => Ok false | Some e => all_belong other (three_points e) tol end;
  if b1 then Ok (match e1 with Some e => [e] | None => [] end)
  else do b2 <- match e2 with None => Ok false | Some e => all_belong other (three_points e) tol end;
       if b2 then Ok (match e2 with Some e => [e] | None => [] end) else Ok [].
Definition sg2_generic_shared (s t : sg2) (tol : R) : res (list sg2) :=
  do b <- all_belong s (three_points t) tol;
  if b then Ok [t]
  else
    do m <- sg2_point_at_abscissa s (sg2_length s * (1 / 2));
    do b <- all_belong t [fst s; m; snd s] tol;
    if b then Ok [s]
    else
      do b <- sg2_point_belongs s (fst t) tol;
      if b then do sp <- sg2_split s (fst t) tol; shared_of_split (fst sp) (snd sp) t tol
      else
        do b <- sg2_point_belongs s (snd t) tol;
        if b then do sp <- sg2_split s (snd t) tol; shared_of_split (fst sp) (snd sp) t tol
        else Err NotImplementedError.
Definition sg2_shared_section (s t : sg2) (tol : R) : res (list sg2) :=
  if negb (is_colinear_to2 (dir2 s) (dir2 t) (/ 10 ^ 5)) then Ok []
  else
    do a <- any_belong s [fst t; snd t] tol;
    do b <- (if a then Ok true else any_belong t [fst s; snd s] tol);
    if b then sg2_generic_shared s t tol else Ok [].

(** ** LineSegment3D *)
(** l.4434-4452 line_intersections, l.4454-4466 linesegment_intersections *)
Definition sg3_line_intersections (s : sg3) (l : vec3 * vec3) (tol : R) : res (list vec3) :=
  do k <- line3_skew_to s l;
  if k then Ok []
  else
    do i <- line3_intersection s l tol;
    do b <- match i with None => Ok false | Some p => sg3_point_belongs s p (/ 10 ^ 6) end;
    if b then Ok (match i with Some p => [p] | None => [] end)
    else
      do b <- line3_point_belongs l (fst s) (/ 10 ^ 6);
      if b then Ok [fst s]
      else do b <- line3_point_belongs l (snd s) (/ 10 ^ 6);
           if b then Ok [snd s] else Ok [].
Definition sg3_intersections (s t : sg3) (tol : R) : res (list vec3) :=
  do i <- line3_intersection s t (/ 10 ^ 6);
  match i with
  | None => Ok []
  | Some p =>
    do b1 <- sg3_point_belongs s p tol;
    if b1 then do b2 <- sg3_point_belongs t p tol; if b2 then Ok [p] else Ok []
    else Ok []
  end.
(** l.4482-4491 __contains__: a half turn about the unnormalised direction *)
Definition sg3_contains (s : sg3) (p : vec3) : bool :=
  is_close3 (rotation3 p (fst s) (dir3 s) PI) p (/ 10 ^ 6).
(** l.4572-4580 to_bspline_curve: the points that are interpolated *)
Definition sg3_bspline_points (s : sg3) (resolution : nat) : res (list vec3) :=
  mapM (fun i => if Reqb (sg3_length s) 0 then Err ZeroDivisionError
                 else sg3_point_at_abscissa s (INR i / sg3_length s)) (seq 0 (resolution + 1)).
(** l.4653-4671 distance_linesegment (the distance and the two points) *)
Definition sg3_distance (s t : sg3) : res (R * vec3 * vec3) :=
  let '(p1, p2) := get_minimum_distance_points_lines (fst s) (snd s) (fst t) (snd t) in
  do b1 <- sg3_point_belongs s p1 (/ 10 ^ 6);
  let p1 := if b1 then p1
            else if Rltb (point_distance3 (fst s) p1) (point_distance3 (snd s) p1) then fst s else snd s in
  do b2 <- sg3_point_belongs t p2 (/ 10 ^ 6);
  let p2 := if b2 then p2
            else if Rltb (point_distance3 (fst t) p2) (point_distance3 (snd t) p2) then fst t else snd t in
  Ok (point_distance3 p1 p2, p1, p2).
