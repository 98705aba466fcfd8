(** Angles of the parametric domain of periodic surfaces: /repo/volmdlr/utils/parametric.py l.14-56, 125-198 and 399-412. math.pi is PI. *)
From Coq Require Import List Bool Arith.
From Verif.Model Require Import RBase Vec Geometry.
Import ListNotations.
Open Scope R_scope.

(** l.14-27 find_sign_changes, from index [i] *)
Fixpoint sign_changes_from (i : nat) (previous : R) (l : list R) : list nat :=
  match l with
  | [] => []
  | a :: rest => (if Rltb (a * previous) 0 then [i] else []) ++ sign_changes_from (S i) a rest
  end.
Definition find_sign_changes (l : list R) : list nat := match l with [] => [] | a :: rest => sign_changes_from 1 a rest end.

(** l.43-54: round(a / abs(a), 2) is the sign of a *)
Definition is_discontinuity (previous a : R) : bool :=
  let sign := previous / Rabs previous in
  let delta := Rmax (Rabs (a + sign * TWO_PI - previous)) (/ 10 ^ 4) in
  isclose (Rabs a) PI (11 / 10 * delta) && negb (isclose (Rabs a) 0 (11 / 10 * delta)).
Definition angle_discontinuity (l : list R) : bool * list nat :=
  let indexes := filter (fun i => is_discontinuity (nth (i - 1) l 0) (nth i l 0)) (find_sign_changes l) in
  (match indexes with [] => false | _ => true end, indexes).

(** l.125-147 *)
Definition repair_start_end_angle_periodicity (angle ref_angle : R) : R :=
  if isclose angle PI (/ 10 ^ 3) && Rltb ref_angle 0 then - PI
  else if isclose angle (- PI) (/ 10 ^ 3) && Rltb 0 ref_angle then PI
  else if isclose angle (1 / 2 * PI) (/ 10 ^ 3) && Rltb ref_angle 0 then - (1 / 2) * PI
  else if isclose angle (- (1 / 2) * PI) (/ 10 ^ 3) && Rltb 0 ref_angle then 1 / 2 * PI
  else angle.
(** l.150-159 *)
Definition repair_arc3d_angle_continuity (angle_start angle_end periodicity : R) : R * R :=
  (angle_start, if Rltb angle_start angle_end then angle_end - periodicity else angle_end + periodicity).
(** l.162-183 *)
Definition arc3d_to_cylindrical_coordinates_verification (start end_ : vec2) (undefined_start undefined_end : bool) (theta3 theta4 : R)
    (discontinuity : bool) : vec2 * vec2 :=
  let theta1 := if undefined_start || Reqb (Rabs (x2 start)) (1 / 2 * PI) then repair_start_end_angle_periodicity (x2 start) theta3 else x2 start in
  let theta2 := if undefined_end || Reqb (Rabs (x2 end_)) (1 / 2 * PI) then repair_start_end_angle_periodicity (x2 end_) theta4 else x2 end_ in
  let '(theta1, theta2) := if discontinuity then repair_arc3d_angle_continuity theta1 theta2 TWO_PI else (theta1, theta2) in
  (V2 theta1 (y2 start), V2 theta2 (y2 end_)).
(** l.186-198 *)
Definition fullarc_to_cylindrical_coordinates_verification (start end_ : vec2) (normal_dot_product : R) : vec2 * vec2 :=
  let theta1 := x2 start in
  if Rltb 0 normal_dot_product then (start, V2 (theta1 + TWO_PI) (y2 end_))
  else if Rltb normal_dot_product 0 && isclose theta1 (- PI) (/ 10 ^ 6) then (V2 PI (y2 start), end_)
  else if Rltb normal_dot_product 0 then (start, V2 (theta1 - TWO_PI) (y2 end_))
  else (start, end_).

(** l.399-412 verify_repeated_parametric_points; points of any type with an equality, that of their hashes *)
Section Repeated.
Context {A : Type} (eqb : A -> A -> bool).
Fixpoint first_times (seen l : list A) : list A :=
  match l with
  | [] => []
  | a :: rest => if existsb (eqb a) seen then first_times seen rest else a :: first_times (a :: seen) rest
  end.
Definition verify_repeated_parametric_points (points : list A) : list A :=
  if (length (first_times [] points) <? length points)%nat then first_times [] points else points.
End Repeated.
