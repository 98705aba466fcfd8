(** Ellipses as sets of points. *)
From Coq Require Import Reals List.
From Verif.Model Require Import RBase Vec Frame BBox Curves Ellipse.
From Verif.Spec Require Import CurvesSpec.
Open Scope R_scope.

(** the point of parameter t *)
Definition ellipse2_point (e : ellipse2) (t : R) : vec2 :=
  add2 (ecenter e) (add2 (mul2 (major_dir e) (emaj e * cos t)) (mul2 (minor_dir e) (emin e * sin t))).
Definition on_ellipse2 (e : ellipse2) (p : vec2) : Prop := exists t, p = ellipse2_point e t.
Definition ellipse_ok (e : ellipse2) : Prop := orthonormal2 (fb2 (ef e)) /\ 0 < emin e <= emaj e.
(** coordinates along the axes, from the centre *)
Definition along_major (e : ellipse2) (p : vec2) : R := dot2 (sub2 p (ecenter e)) (major_dir e).
Definition along_minor (e : ellipse2) (p : vec2) : R := dot2 (sub2 p (ecenter e)) (minor_dir e).
(** the frame is exactly the one of the plane, up to the direction of the minor axis, or differs from it by more than the tolerances *)
Definition well_placed (e : ellipse2) : Prop :=
  (ecenter e = O2D /\ major_dir e = X2D) \/ / 10 ^ 6 < point_distance2 (ecenter e) O2D \/ / 10 ^ 5 < Rabs (y2 (major_dir e)) \/ x2 (major_dir e) < 0.
(** the line has exactly the direction of the minor axis, or differs from it by more than the tolerances *)
Definition well_directed (e : ellipse2) (l : vec2 * vec2) : Prop :=
  along_major e (fst l) = along_major e (snd l) \/
  (/ 10 ^ 6 < Rabs (along_major e (snd l) - along_major e (fst l)) /\ Rabs (along_major e (fst l)) <= 1000 /\ Rabs (along_major e (snd l)) <= 1000).
Definition ellipse3_point (e : ellipse3) (t : R) : vec3 :=
  add3 (add3 (org3 (ef3 e)) (mul3 (bu (fb3 (ef3 e))) (emaj3 e * cos t))) (mul3 (bv (fb3 (ef3 e))) (emin3 e * sin t)).
