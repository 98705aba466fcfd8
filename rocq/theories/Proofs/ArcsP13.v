(** Arcs on a circle of null radius; the angle of a point along an arc; the abscissas of the ends. *)
From Coq Require Import Reals Lra Lia List Bool ZArith.
From Verif.Model Require Import Base RBase Vec Frame BBox Geometry Curves Edges Arcs.
From Verif.Spec Require Import VecSpec FrameSpec AngleSpec CurvesSpec ArcsSpec.
From Verif.Proofs Require Import VecP LineP FrameP GeometryP CurvesP CurvesP3 CurvesP4 CurvesP5 CurvesP6 CurvesP7 ArcsP.
Open Scope R_scope.

Lemma arc_new_null c s e : orthonormal2 (fb2 (cf2 c)) -> cr2 c = 0 -> arc2_new c s e = Err ZeroDivisionError.
Proof.
  intros O R. unfold arc2_new, arc_point_angle. rewrite frame2_g2l_ok by auto. cbn [bind]. rewrite (proj2 (Reqb_spec _ _) R). reflexivity.
Qed.
Lemma get_angle_ok a p : arc_ok a -> regular (ac a) p -> exists t, get_arc_point_angle a p = Ok t /\ ang1 a <= t < ang1 a + 2 * PI /\ p = circle2_point (ac a) t.
Proof.
  intros A (t & T & E). destruct (arc_angles a A) as (_ & _ & R & _). pose proof (snap_range t T) as T'. destruct A as (C & _).
  subst p. unfold get_arc_point_angle. rewrite point_angle_ok by auto. cbn [bind].
  destruct (Rltb t (ang1 a)) eqn:L; [apply Rltb_spec in L|apply Rltb_false in L]; eexists; (split; [reflexivity|]); unfold TWO_PI.
  - split; [lra|]. unfold circle2_point. rewrite cos_plus, sin_plus, cos_2PI, sin_2PI.
    apply vec2_ext; unfold add2, mul2; cbn [x2 y2]; ring.
  - split; [lra|reflexivity].
Qed.
Lemma on_circle_close c p tol : on_circle2 c p -> 0 <= tol -> isclose (point_distance2 p (center2 c)) (cr2 c) tol = true.
Proof.
  intros O T. unfold on_circle2 in O. rewrite O. unfold isclose. apply Rleb_spec. rewrite Rminus_eq_0, Rabs_R0. apply Rle_trans with tol; [auto|apply Rmax_r].
Qed.
Lemma abscissa_start a tol : arc_ok a -> 0 < tol -> arc2_abscissa a (ast a) tol = Ok 0.
Proof.
  intros A T. destruct (arc_angles a A) as (S & _). destruct A as ([O R] & _).
  assert (H : on_circle2 (ac a) (ast a)) by (rewrite S; apply circle2_point_on; [exact O|lra]).
  unfold arc2_abscissa. rewrite on_circle_close by (auto; lra). cbn [negb]. rewrite (proj2 (dist2_zero _ _) eq_refl), (proj2 (Rltb_spec _ _)) by auto. reflexivity.
Qed.
Lemma abscissa_end a tol : arc_ok a -> 0 < tol -> tol <= point_distance2 (aen a) (ast a) -> arc2_abscissa a (aen a) tol = Ok (arc2_length a).
Proof.
  intros A T D. destruct (arc_angles a A) as (_ & S & _). destruct A as ([O R] & _).
  assert (H : on_circle2 (ac a) (aen a)) by (rewrite S; apply circle2_point_on; [exact O|lra]).
  unfold arc2_abscissa. rewrite on_circle_close by (auto; lra). cbn [negb]. rewrite (proj2 (Rltb_false _ _)) by lra. rewrite (proj2 (dist2_zero _ _) eq_refl), (proj2 (Rltb_spec _ _)) by auto. reflexivity.
Qed.
