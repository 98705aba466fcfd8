(** Model of /repo/volmdlr/geometry.py. Doubles are reals; math.cos/sin/acos/asin are the functions of Coq's
    library, math.atan2 is defined below; signed zeros are not modelled. *)
From Verif.Model Require Import RBase Vec Frame.
Open Scope R_scope.

Definition TWO_PI : R := 2 * PI.
(** Python's x // y and x % y for y > 0. *)
Definition rfloor (x : R) : Z := Int_part x.
Definition floordiv (x y : R) : Z := rfloor (x / y).
Definition rmod (x y : R) : R := x - IZR (floordiv x y) * y.
(** math.atan2(y, x). *)
Definition atan2 (y x : R) : R :=
  if Rltb 0 x then atan (y / x)
  else if Rltb x 0 then (if Rleb 0 y then atan (y / x) + PI else atan (y / x) - PI)
  else if Rltb 0 y then PI / 2 else if Rltb y 0 then - (PI / 2) else 0.
Definition clamp1 (x : R) : R := Rmax (-1) (Rmin x 1).

(** l.16-34 euler_angles_to_transfer_matrix *)
Definition euler_angles_to_transfer_matrix (psi theta phi : R) : mat33 :=
  let cpsi := cos psi in let spsi := sin psi in
  let ctheta := cos theta in let stheta := sin theta in
  let cphi := cos phi in let sphi := sin phi in
  M33 (cphi * cpsi - sphi * ctheta * spsi) (- spsi * cphi - cpsi * ctheta * sphi) (stheta * sphi)
      (cpsi * sphi + spsi * ctheta * cphi) (- sphi * spsi + cphi * ctheta * cpsi) (- stheta * cphi)
      (spsi * stheta) (cpsi * stheta) ctheta.

(** l.37-51 transfer_matrix_to_euler_angles; math.acos outside [-1, 1] raises ValueError. *)
Definition transfer_matrix_to_euler_angles (r : mat33) : res (R * R * R) :=
  if negb (Reqb (m33 r) 1) && negb (Reqb (m33 r) (-1)) then
    if Rltb (m33 r) (-1) || Rltb 1 (m33 r) then Err ValueError
    else
      let theta := acos (m33 r) in
      Ok (atan2 (m31 r / sin theta) (m32 r / sin theta), theta, atan2 (m13 r / sin theta) (- m23 r / sin theta))
  else if Reqb (m33 r) 1 then Ok (atan2 (m21 r) (m11 r), 0, 0)
  else Ok (- atan2 (m21 r) (m11 r), PI, 0).

(** l.68-96 direction_to_euler_angles(u, v), with v given: the second and third columns repeat v.y and w.z. *)
Definition direction_matrix (u v : vec3) : res mat33 :=
  do u <- unit_vector3 u;
  do v <- unit_vector3 (sub3 v (mul3 u (dot3 u v)));
  let w := cross3 u v in
  Ok (M33 (x3 u) (y3 v) (z3 w) (y3 u) (y3 v) (z3 w) (z3 u) (y3 v) (z3 w)).
Definition direction_to_euler_angles (u v : vec3) : res (R * R * R) :=
  do m <- direction_matrix u v; transfer_matrix_to_euler_angles m.

(** l.99-104 huygens2d *)
Definition huygens2d (Ix Iy Ixy area : R) (point1 point2 : vec2) : R * R * R :=
  let a := x2 (sub2 point1 point2) in let b := y2 (sub2 point1 point2) in
  (Ix + area * b ^ 2, Iy + area * a ^ 2, Ixy - area * a * b).

(** l.107-123 cos_image; sorted() of two numbers. *)
Definition cos_image (x1 x2 : R) : R * R :=
  let interval_min := floordiv x1 PI in
  let nb := (floordiv x2 PI - interval_min)%Z in
  if (2 <=? nb)%Z then (-1, 1)
  else if (nb =? 1)%Z then
    if (Z.abs interval_min mod 2 =? 0)%Z then (-1, Rmax (cos x1) (cos x2))
    else (Rmin (cos x1) (cos x2), 1)
  else (Rmin (cos x1) (cos x2), Rmax (cos x1) (cos x2)).
(** l.126-133 sin_image *)
Definition sin_image (x1 x2 : R) : R * R := cos_image (x1 - / 2 * PI) (x2 - / 2 * PI).

(** l.136-152 vectors3d_angle *)
Definition vectors3d_angle (v1 v2 : vec3) : res R :=
  let n := norm3 v1 * norm3 v2 in
  if Reqb n 0 then Err ZeroDivisionError
  else Ok (acos (Rmax (Rmin (dot3 v1 v2 / n) 1) (-1))).

(** l.155-182 sin_cos_angle *)
Definition sin_cos_angle (u1 u2 : R) : R :=
  let u1 := clamp1 u1 in
  let u2 := clamp1 u2 in
  let theta :=
    if Rltb 0 u1 then (if Rleb 0 u2 then acos u1 else TWO_PI + asin u2)
    else (if Rleb 0 u2 then acos u1 else TWO_PI - acos u1) in
  if isclose theta TWO_PI (/ 10 ^ 9) then 0 else theta.

(** l.185-218 clockwise_interior_from_circle3d, in the plane of the circle: start2d and end2d are the coordinates
    in the frame of the circle (Vec.to_2d), the result is the pair of coordinates before Vec.to_3d. *)
Definition clockwise_interior2d (start2d end2d : vec2) (radius : R) : vec2 :=
  let theta1 := sin_cos_angle (x2 start2d / radius) (y2 start2d / radius) in
  let theta2 := sin_cos_angle (x2 end2d / radius) (y2 end2d / radius) in
  let theta3 := if Rltb theta2 theta1 then (theta1 + theta2) / 2 else (theta1 + theta2) / 2 + TWO_PI / 2 in
  let theta3 := if Rltb TWO_PI theta3 then theta3 - TWO_PI else theta3 in
  V2 (radius * cos theta3) (radius * sin theta3).

(** l.239-253 angle_principal_measure *)
Definition angle_principal_measure (angle min_angle : R) : R :=
  let max_angle := min_angle + TWO_PI in
  let angle := rmod angle TWO_PI in
  if isclose angle min_angle (/ 10 ^ 9) then min_angle
  else if isclose angle max_angle (/ 10 ^ 9) then max_angle
  else angle.

(** l.256-277 clockwise_angle: [vector0 in (...)] is the exact equality of core_compiled.pyx l.641-645. *)
Definition is_zero2 (v : vec2) : bool := Reqb (x2 v) 0 && Reqb (y2 v) 0.
Definition clockwise_angle (v1 v2 : vec2) : R :=
  if is_zero2 v1 || is_zero2 v2 then 0
  else
    let inner := acos (Rmax (-1) (Rmin 1 (dot2 v1 v2 / (norm2 v1 * norm2 v2)))) in
    if Rltb (cross2 v1 v2) 0 then inner else TWO_PI - inner.
