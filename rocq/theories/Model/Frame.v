(** Matrices, bases and frames: /repo/volmdlr/core_compiled.pyx l.2211-3770. *)
From Verif.Model Require Import RBase Vec.
Open Scope R_scope.

(** ** Matrix22, l.2211-2285 *)
Record mat22 := M22 { a11 : R; a12 : R; a21 : R; a22 : R }.
Definition madd22 m n := M22 (a11 m + a11 n) (a12 m + a12 n) (a21 m + a21 n) (a22 m + a22 n).
Definition mmul22 m n :=
  M22 (a11 m * a11 n + a12 m * a21 n) (a11 m * a12 n + a12 m * a22 n)
      (a21 m * a11 n + a22 m * a21 n) (a21 m * a12 n + a22 m * a22 n).
Definition mvec22 m v := V2 (a11 m * x2 v + a12 m * y2 v) (a21 m * x2 v + a22 m * y2 v).
Definition det22 m := a11 m * a22 m - a12 m * a21 m.
Definition inverse22 m : res mat22 :=
  let det := det22 m in
  if negb (isclose det 0 (/ 10 ^ 10)) then
    let i := 1 / det22 m in
    Ok (M22 (i * a22 m) (- i * a12 m) (- i * a21 m) (i * a11 m))
  else Err ValueError.

(** ** Matrix33, l.2288-2440 *)
Record mat33 := M33 { m11 : R; m12 : R; m13 : R; m21 : R; m22 : R; m23 : R; m31 : R; m32 : R; m33 : R }.
Definition madd33 a b :=
  M33 (m11 a + m11 b) (m12 a + m12 b) (m13 a + m13 b) (m21 a + m21 b) (m22 a + m22 b) (m23 a + m23 b)
      (m31 a + m31 b) (m32 a + m32 b) (m33 a + m33 b).
(** l.127-146 c_matrix_multiplication3 *)
Definition mmul33 a b :=
  M33 (m11 a * m11 b + m12 a * m21 b + m13 a * m31 b) (m11 a * m12 b + m12 a * m22 b + m13 a * m32 b)
      (m11 a * m13 b + m12 a * m23 b + m13 a * m33 b)
      (m21 a * m11 b + m22 a * m21 b + m23 a * m31 b) (m21 a * m12 b + m22 a * m22 b + m23 a * m32 b)
      (m21 a * m13 b + m22 a * m23 b + m23 a * m33 b)
      (m31 a * m11 b + m32 a * m21 b + m33 a * m31 b) (m31 a * m12 b + m32 a * m22 b + m33 a * m32 b)
      (m31 a * m13 b + m32 a * m23 b + m33 a * m33 b).
Definition float_multiplication33 a f :=
  M33 (m11 a * f) (m12 a * f) (m13 a * f) (m21 a * f) (m22 a * f) (m23 a * f) (m31 a * f) (m32 a * f) (m33 a * f).
(** l.2371-2394 vector_multiplication: results smaller than 1e-16 are replaced by 0. *)
Definition snap (u : R) : R := if Rltb (Rabs u) (/ 10 ^ 16) then 0 else u.
Definition mvec33 m v :=
  V3 (snap (m11 m * x3 v + m12 m * y3 v + m13 m * z3 v))
     (snap (m21 m * x3 v + m22 m * y3 v + m23 m * z3 v))
     (snap (m31 m * x3 v + m32 m * y3 v + m33 m * z3 v)).
Definition det33 m :=
  m11 m * m22 m * m33 m + m12 m * m23 m * m31 m + m13 m * m21 m * m32 m
  - m13 m * m22 m * m31 m - m23 m * m32 m * m11 m - m33 m * m12 m * m21 m.
Definition inverse33 m : res mat33 :=
  let det := det33 m in
  if negb (Rleb (Rabs det) (/ 10 ^ 12)) then
    let i := 1 / det in
    Ok (M33 (i * (m22 m * m33 m - m23 m * m32 m)) (i * (m13 m * m32 m - m12 m * m33 m))
            (i * (m12 m * m23 m - m13 m * m22 m)) (i * (m23 m * m31 m - m21 m * m33 m))
            (i * (m11 m * m33 m - m13 m * m31 m)) (i * (m21 m * m13 m - m23 m * m11 m))
            (i * (m21 m * m32 m - m31 m * m22 m)) (i * (m12 m * m31 m - m32 m * m11 m))
            (i * (m11 m * m22 m - m21 m * m12 m)))
  else Err ValueError.

(** ** Basis2D l.2474-2650 *)
Record basis2 := B2 { u2 : vec2; v2 : vec2 }.
Definition transfer_matrix2 b := M22 (x2 (u2 b)) (x2 (v2 b)) (y2 (u2 b)) (y2 (v2 b)).
Definition basis2_g2l b v : res vec2 := do m <- inverse22 (transfer_matrix2 b); Ok (mvec22 m v).
Definition basis2_l2g b v := mvec22 (transfer_matrix2 b) v.
Definition basis2_rotation b angle := B2 (rotation2 (u2 b) O2D angle) (rotation2 (v2 b) O2D angle).

(** ** Basis3D l.2654-3020 *)
Record basis3 := B3 { bu : vec3; bv : vec3; bw : vec3 }.
Definition transfer_matrix3 b :=
  M33 (x3 (bu b)) (x3 (bv b)) (x3 (bw b)) (y3 (bu b)) (y3 (bv b)) (y3 (bw b)) (z3 (bu b)) (z3 (bv b)) (z3 (bw b)).
Definition basis_of_matrix m := B3 (V3 (m11 m) (m21 m) (m31 m)) (V3 (m12 m) (m22 m) (m32 m)) (V3 (m13 m) (m23 m) (m33 m)).
Definition basis3_add b c := basis_of_matrix (mmul33 (transfer_matrix3 b) (transfer_matrix3 c)).
Definition basis3_neg b : res basis3 := do m <- inverse33 (transfer_matrix3 b); Ok (basis_of_matrix m).
Definition basis3_sub b c : res basis3 :=
  do p <- inverse33 (transfer_matrix3 c); Ok (basis_of_matrix (mmul33 p (transfer_matrix3 b))).
Definition basis3_g2l b v : res vec3 := do m <- inverse33 (transfer_matrix3 b); Ok (mvec33 m v).
Definition basis3_l2g b v := mvec33 (transfer_matrix3 b) v.
(** l.2747-2768 from_two_vectors *)
Definition from_two_vectors vector1 vector2 : res basis3 :=
  do u <- unit_vector3 vector1;
  do v <- unit_vector3 (sub3 vector2 (mul3 vector1 (dot3 vector2 vector1)));
  Ok (B3 u v (cross3 u v)).
Definition basis3_rotation b axis angle :=
  B3 (rotation3 (bu b) O3D axis angle) (rotation3 (bv b) O3D axis angle) (rotation3 (bw b) O3D axis angle).
(** l.2839-2880 euler_rotation_parameters, euler_rotation *)
Definition euler_rotation b psi theta phi :=
  let vu := rotation3 (bu b) O3D (bw b) psi in
  let vv := rotation3 (bv b) O3D (bw b) psi in
  let vv := rotation3 vv O3D vu theta in
  let vw := rotation3 (bw b) O3D vu theta in
  let vu := rotation3 vu O3D vw phi in
  let vv := rotation3 vv O3D vw phi in
  B3 vu vv vw.
(** l.2976-3020 is_orthogonal, is_normalized, is_orthonormal *)
Definition is_orthogonal b tol : bool :=
  Rltb (Rabs (dot3 (bu b) (bv b))) tol && Rltb (Rabs (dot3 (bu b) (bw b))) tol && Rltb (Rabs (dot3 (bv b) (bw b))) tol.
Definition is_normalized b tol : bool :=
  isclose (norm3 (bu b)) 1 tol && isclose (norm3 (bv b)) 1 tol && isclose (norm3 (bw b)) 1 tol.
Definition is_orthonormal b tol : bool := is_orthogonal b tol && is_normalized b tol.

(** ** Frame2D l.3023-3290 *)
Record frame2 := F2 { org2 : vec2; fb2 : basis2 }.
Definition frame2_g2l f v : res vec2 := basis2_g2l (fb2 f) (sub2 v (org2 f)).
Definition frame2_l2g f v := add2 (basis2_l2g (fb2 f) v) (org2 f).
Definition frame2_add f g :=
  let p1 := transfer_matrix2 (fb2 f) in
  let m := mmul22 p1 (transfer_matrix2 (fb2 g)) in
  F2 (add2 (mvec22 p1 (org2 g)) (org2 f)) (B2 (V2 (a11 m) (a21 m)) (V2 (a12 m) (a22 m))).
(** l.3189-3203: side = new / old *)
Definition frame2_mapping_new g f : res frame2 :=
  do o <- frame2_g2l f (org2 g);
  do u <- basis2_g2l (fb2 f) (u2 (fb2 g));
  do v <- basis2_g2l (fb2 f) (v2 (fb2 g));
  Ok (F2 o (B2 u v)).
Definition frame2_mapping_old g f :=
  F2 (frame2_l2g f (org2 g)) (B2 (basis2_l2g (fb2 f) (u2 (fb2 g))) (basis2_l2g (fb2 f) (v2 (fb2 g)))).
Definition frame2_translation f o := F2 (translation2 (org2 f) o) (fb2 f).
Definition frame2_rotation f center angle (rotate_basis : bool) :=
  F2 (if is_close2 center (org2 f) (/ 10 ^ 6) then org2 f else rotation2 (org2 f) center angle)
     (if rotate_basis then basis2_rotation (fb2 f) angle else fb2 f).

(** ** Frame3D l.3296-3720 *)
Record frame3 := F3 { org3 : vec3; fb3 : basis3 }.
Definition frame3_g2l f v : res vec3 := basis3_g2l (fb3 f) (sub3 v (org3 f)).
Definition frame3_l2g f v := add3 (basis3_l2g (fb3 f) v) (org3 f).
(** l.3328-3355 __neg__, __add__, __sub__ *)
Definition frame3_neg f : res frame3 :=
  do m <- inverse33 (transfer_matrix3 (fb3 f)); Ok (F3 (mvec33 m (org3 f)) (basis_of_matrix m)).
Definition frame3_add f g :=
  let p1 := transfer_matrix3 (fb3 f) in
  F3 (add3 (mvec33 p1 (org3 g)) (org3 f)) (basis_of_matrix (mmul33 p1 (transfer_matrix3 (fb3 g)))).
Definition frame3_sub f g : res frame3 :=
  do p <- inverse33 (transfer_matrix3 (fb3 g));
  Ok (F3 (mvec33 p (sub3 (org3 f) (org3 g))) (basis_of_matrix (mmul33 p (transfer_matrix3 (fb3 f))))).
(** l.3487-3508 frame_mapping *)
Definition frame3_mapping_new g f : res frame3 :=
  do o <- frame3_g2l f (org3 g);
  do u <- basis3_g2l (fb3 f) (bu (fb3 g));
  do v <- basis3_g2l (fb3 f) (bv (fb3 g));
  do w <- basis3_g2l (fb3 f) (bw (fb3 g));
  Ok (F3 o (B3 u v w)).
Definition frame3_mapping_old g f :=
  F3 (frame3_l2g f (org3 g))
     (B3 (basis3_l2g (fb3 f) (bu (fb3 g))) (basis3_l2g (fb3 f) (bv (fb3 g))) (basis3_l2g (fb3 f) (bw (fb3 g)))).
(** l.3510-3534 rotation, translation *)
Definition frame3_rotation f center axis angle :=
  F3 (if is_close3 center (org3 f) (/ 10 ^ 6) then org3 f else rotation3 (org3 f) center axis angle)
     (basis3_rotation (fb3 f) axis angle).
Definition frame3_translation f o := F3 (translation3 (org3 f) o) (fb3 f).
(** l.3645-3690 from_step: the arguments ref_direction / axis may be "$" (None here) *)
Definition vec3_eqb a b := Reqb (x3 a) (x3 b) && Reqb (y3 a) (y3 b) && Reqb (z3 a) (z3 b).
(** l.3668-3715 from_point_and_vector *)
Definition from_point_and_vector point vector main_axis : res frame3 :=
  if negb (vec3_eqb main_axis X3D || vec3_eqb main_axis Y3D || vec3_eqb main_axis Z3D) then Err ValueError
  else
    do vector <- unit_vector3 vector;
    if vec3_eqb vector main_axis then Ok (F3 point (B3 X3D Y3D Z3D))
    else if vec3_eqb vector (neg3 main_axis) then Ok (F3 point (B3 (neg3 X3D) (neg3 Y3D) (neg3 Z3D)))
    else
      let rot_angle := acos (dot3 main_axis vector / (norm3 vector * norm3 main_axis)) in
      do rot_axis <- unit_vector3 (cross3 main_axis (sub3 vector main_axis));
      Ok (F3 point (B3 (rotation3 X3D O3D rot_axis rot_angle) (rotation3 Y3D O3D rot_axis rot_angle)
                       (rotation3 Z3D O3D rot_axis rot_angle))).
Definition frame_from_step origin (axis ref_direction : option vec3) : res frame3 :=
  match axis, ref_direction with
  | None, None => Ok (F3 origin (B3 X3D Y3D Z3D))
  | None, Some u => from_point_and_vector origin u X3D
  | Some w, None => from_point_and_vector origin w Z3D
  | Some w, Some u =>
    do u' <- unit_vector3 (sub3 u (mul3 w (dot3 u w)));
    Ok (F3 origin (B3 u' (cross3 w u') w))
  end.
(** l.3717-3731 from_3_points, l.3733-3738 from_point_and_normal *)
Definition from_3_points p1 p2 p3 : res frame3 :=
  do vector1 <- unit_vector3 (sub3 p2 p1);
  do vector2 <- unit_vector3 (sub3 p3 p1);
  do normal <- unit_vector3 (cross3 vector1 vector2);
  Ok (F3 p1 (B3 vector1 (cross3 normal vector1) normal)).
Definition from_point_and_normal origin normal : res frame3 :=
  do u <- deterministic_unit_normal_vector normal;
  Ok (F3 origin (B3 u (cross3 normal u) normal)).
