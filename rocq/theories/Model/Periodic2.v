(** Ends of arcs of tori and spheres: /repo/volmdlr/utils/parametric.py l.201-275. *)
From Verif.Model Require Import RBase Vec Geometry Periodic.
Open Scope R_scope.

(** l.201-221; the four booleans of start_end_angles_state *)
Definition toroidal_repair_start_end_angle_periodicity (start end_ : vec2) (us_theta ue_theta us_phi ue_phi : bool) (after before : vec2) : vec2 * vec2 :=
  let theta1 := if us_theta || Reqb (Rabs (x2 start)) (1 / 2 * PI) then repair_start_end_angle_periodicity (x2 start) (x2 after) else x2 start in
  let theta2 := if ue_theta || Reqb (Rabs (x2 end_)) (1 / 2 * PI) then repair_start_end_angle_periodicity (x2 end_) (x2 before) else x2 end_ in
  let phi1 := if us_phi || Reqb (Rabs (y2 start)) (1 / 2 * PI) then repair_start_end_angle_periodicity (y2 start) (y2 after) else y2 start in
  let phi2 := if ue_phi || Reqb (Rabs (y2 end_)) (1 / 2 * PI) then repair_start_end_angle_periodicity (y2 end_) (y2 before) else y2 end_ in
  (V2 theta1 phi1, V2 theta2 phi2).
(** l.224-238 *)
Definition spherical_repair_start_end_angle_periodicity (start end_ after before : vec2) : vec2 * vec2 :=
  let theta1 := if Reqb (Rabs (x2 start)) PI || Reqb (Rabs (x2 start)) (1 / 2 * PI) then repair_start_end_angle_periodicity (x2 start) (x2 after) else x2 start in
  let theta2 := if Reqb (Rabs (x2 end_)) PI || Reqb (Rabs (x2 end_)) (1 / 2 * PI) then repair_start_end_angle_periodicity (x2 end_) (x2 before) else x2 end_ in
  (V2 theta1 (y2 start), V2 theta2 (y2 end_)).
(** l.241-259 *)
Definition arc3d_to_toroidal_coordinates_verification (start end_ : vec2) (us_theta ue_theta us_phi ue_phi : bool) (after before : vec2)
    (theta_discontinuity phi_discontinuity : bool) : vec2 * vec2 :=
  let '(start, end_) := toroidal_repair_start_end_angle_periodicity start end_ us_theta ue_theta us_phi ue_phi after before in
  let '(theta1, theta2) := if theta_discontinuity then repair_arc3d_angle_continuity (x2 start) (x2 end_) TWO_PI else (x2 start, x2 end_) in
  let '(phi1, phi2) := if phi_discontinuity then repair_arc3d_angle_continuity (y2 start) (y2 end_) TWO_PI else (y2 start, y2 end_) in
  (V2 theta1 phi1, V2 theta2 phi2).
(** l.262-275 *)
Definition arc3d_to_spherical_coordinates_verification (start end_ after before : vec2) (discontinuity : bool) : vec2 * vec2 :=
  let '(start, end_) := spherical_repair_start_end_angle_periodicity start end_ after before in
  let '(theta1, theta2) := if discontinuity && isclose (y2 start) (y2 end_) (/ 10 ^ 4) then repair_arc3d_angle_continuity (x2 start) (x2 end_) TWO_PI
                           else (x2 start, x2 end_) in
  (V2 theta1 (y2 start), V2 theta2 (y2 end_)).
