(** Area, center of mass and second moments of the sector of an arc. *)
From Coq Require Import Reals Lra Lia List Bool ZArith.
From Verif.Model Require Import Base RBase Vec Frame BBox Geometry Curves Edges Arcs.
From Verif.Spec Require Import VecSpec FrameSpec AngleSpec CurvesSpec ArcsSpec ArcAreaSpec.
From Verif.Proofs Require Import VecP LineP FrameP GeometryP CurvesP CurvesP3 CurvesP4 CurvesP5 CurvesP6 CurvesP7 EdgesP ArcsP ArcsP2 ArcsP3 ArcsP4.
Import ListNotations.
Open Scope R_scope.

Lemma same_derivative F G f a b : (forall t, derivable_pt_lim F t (f t)) -> (forall t, derivable_pt_lim G t (f t)) -> F b - F a = G b - G a.
Proof.
  intros DF DG. assert (K : forall x y, x < y -> F y - F x = G y - G x).
  { intros x y L. destruct (MVT_cor2 (fun t => F t - G t) (fun t => f t - f t) x y L) as (z & Z & _); [intros; apply (derivable_pt_lim_minus F G); auto|]. replace ((f z - f z) * (y - x)) with 0 in Z by ring. lra. }
  destruct (Rtotal_order a b) as [L|[-> |L]]; [apply K; auto|ring|]. specialize (K b a L). lra.
Qed.
Lemma derivable_ext f g t l : (forall u, f u = g u) -> derivable_pt_lim f t l -> derivable_pt_lim g t l.
Proof. intros E D e P. destruct (D e P) as [d H]. exists d. intros h N L. rewrite <- !E. auto. Qed.
Lemma sector_unique c t1 t2 f v w : sector_integral c t1 t2 f v -> sector_integral c t1 t2 f w -> v = w.
Proof.
  intros (H & G & A & B & ->) (H' & G' & A' & B' & ->). apply same_derivative with (fun th => H th (cr2 c) - H th 0); auto. intros th. rewrite (same_derivative (H th) (H' th) _ 0 (cr2 c) (A th) (A' th)). auto.
Qed.
Lemma sector_plus c t1 t2 f g v w : sector_integral c t1 t2 f v -> sector_integral c t1 t2 g w -> sector_integral c t1 t2 (fun p => f p + g p) (v + w).
Proof.
  intros (H & G & A & B & ->) (H' & G' & A' & B' & ->). exists (fun th rho => H th rho + H' th rho), (fun th => G th + G' th). split; [|split; [|ring]].
  - intros th rho. rewrite Rmult_plus_distr_r. apply (derivable_pt_lim_plus (H th) (H' th)); auto.
  - intros th. match goal with |- derivable_pt_lim _ _ ?x => replace x with (H th (cr2 c) - H th 0 + (H' th (cr2 c) - H' th 0)) by ring end. apply (derivable_pt_lim_plus G G'); auto.
Qed.
Lemma sector_scal c t1 t2 f v k : sector_integral c t1 t2 f v -> sector_integral c t1 t2 (fun p => k * f p) (k * v).
Proof.
  intros (H & G & A & B & ->). exists (fun th rho => k * H th rho), (fun th => k * G th). split; [|split; [|ring]].
  - intros th rho. rewrite Rmult_assoc. apply (derivable_pt_lim_scal (H th)); auto.
  - intros th. rewrite <- Rmult_minus_distr_l. apply (derivable_pt_lim_scal G); auto.
Qed.
Lemma sector_ext c t1 t2 f g v w : (forall p, f p = g p) -> v = w -> sector_integral c t1 t2 f v -> sector_integral c t1 t2 g w.
Proof. intros E -> (H & G & A & B & V). exists H, G. split; auto. intros. rewrite <- E. auto. Qed.
(** local coordinates *)
Definition locx (c : circle2) (p : vec2) : R := dot2 (sub2 p (center2 c)) (u2 (fb2 (cf2 c))).
Definition locy (c : circle2) (p : vec2) : R := dot2 (sub2 p (center2 c)) (v2 (fb2 (cf2 c))).
Lemma loc_polar c rho th : circle_ok c -> locx c (polar_point c rho th) = rho * cos th /\ locy c (polar_point c rho th) = rho * sin th.
Proof.
  intros [(O1 & O2 & O3) _]. unfold locx, locy, polar_point. set (u := u2 (fb2 (cf2 c))) in *. set (v := v2 (fb2 (cf2 c))) in *. set (o := center2 c). unfold dot2, add2, mul2, sub2 in *. cbn [x2 y2] in *. split.
  - transitivity ((x2 u * x2 u + y2 u * y2 u) * (rho * cos th) + (x2 u * x2 v + y2 u * y2 v) * (rho * sin th)); [ring|rewrite O1, O3; ring].
  - transitivity ((x2 u * x2 v + y2 u * y2 v) * (rho * cos th) + (x2 v * x2 v + y2 v * y2 v) * (rho * sin th)); [ring|rewrite O2, O3; ring].
Qed.
Lemma loc_inv c p : circle_ok c -> p = add2 (add2 (center2 c) (mul2 (u2 (fb2 (cf2 c))) (locx c p))) (mul2 (v2 (fb2 (cf2 c))) (locy c p)).
Proof.
  intros [O _]. pose proof (ortho_rel _ O) as (R1 & R2 & R3 & R4). destruct O as (O1 & O2 & O3). unfold locx, locy. set (u := u2 (fb2 (cf2 c))) in *. set (v := v2 (fb2 (cf2 c))) in *. set (o := center2 c). pose proof (ortho_trigo c) as _.
  assert (X : x2 u * x2 u + x2 v * x2 v = 1 /\ x2 u * y2 u + x2 v * y2 v = 0 /\ y2 u * y2 u + y2 v * y2 v = 1).
  { clear R1 R2 R3 R4. unfold dot2 in *. set (e := x2 u * y2 v - y2 u * x2 v). assert (P1 : x2 v = - y2 u * e). { apply Rminus_diag_uniq. transitivity (x2 v * (1 - (x2 u * x2 u + y2 u * y2 u)) + x2 u * (x2 u * x2 v + y2 u * y2 v)); [unfold e; ring|rewrite O1, O3; ring]. }
    assert (Q1 : y2 v = x2 u * e). { apply Rminus_diag_uniq. transitivity (y2 v * (1 - (x2 u * x2 u + y2 u * y2 u)) + y2 u * (x2 u * x2 v + y2 u * y2 v)); [unfold e; ring|rewrite O1, O3; ring]. }
    assert (EE : e * e = 1). { transitivity ((x2 u * x2 u + y2 u * y2 u) * (x2 v * x2 v + y2 v * y2 v) - (x2 u * x2 v + y2 u * y2 v) * (x2 u * x2 v + y2 u * y2 v)); [unfold e; ring|rewrite O1, O2, O3; ring]. }
    clearbody e. rewrite P1, Q1. repeat split.
    - transitivity (x2 u * x2 u + y2 u * y2 u * (e * e)); [ring|rewrite EE; lra].
    - transitivity (x2 u * y2 u - x2 u * y2 u * (e * e)); [ring|rewrite EE; ring].
    - transitivity (y2 u * y2 u + x2 u * x2 u * (e * e)); [ring|rewrite EE; lra]. }
  destruct X as (X1 & X2 & X3). unfold dot2, add2, mul2, sub2. cbn [x2 y2]. apply vec2_ext; cbn [x2 y2].
  - transitivity (x2 o + (x2 p - x2 o) * (x2 u * x2 u + x2 v * x2 v) + (y2 p - y2 o) * (x2 u * y2 u + x2 v * y2 v)); [rewrite X1, X2; ring|ring].
  - transitivity (y2 o + (x2 p - x2 o) * (x2 u * y2 u + x2 v * y2 v) + (y2 p - y2 o) * (y2 u * y2 u + y2 v * y2 v)); [rewrite X2, X3; ring|ring].
Qed.
Lemma d_pow n k x : derivable_pt_lim (fun r => k * r ^ S n / INR (S n)) x (k * x ^ n).
Proof.
  assert (N : INR (S n) <> 0) by (apply not_0_INR; lia). replace (k * x ^ n) with (k / INR (S n) * (INR (S n) * x ^ pred (S n))) by (cbn [pred]; field; auto). apply derivable_ext with (fun r => k / INR (S n) * r ^ S n); [intros; field; auto|]. apply (derivable_pt_lim_scal (fun r => r ^ S n)). apply derivable_pt_lim_pow.
Qed.
(** integral of a homogeneous function of the local coordinates *)
Lemma sector_homogeneous c t1 t2 f n g G : circle_ok c -> (forall rho th, f (polar_point c rho th) = rho ^ n * g th) -> (forall th, derivable_pt_lim G th (g th)) ->
  sector_integral c t1 t2 f (cr2 c ^ (n + 2) / INR (n + 2) * (G t2 - G t1)).
Proof.
  intros C E D. exists (fun th rho => g th * rho ^ S (S n) / INR (S (S n))), (fun th => cr2 c ^ (n + 2) / INR (n + 2) * G th). split; [|split; [|ring]].
  - intros th rho. replace (f (polar_point c rho th) * rho) with (g th * rho ^ S n) by (rewrite E; cbn [pow]; ring). apply d_pow.
  - intros th. replace (n + 2)%nat with (S (S n)) by lia. assert (N : INR (S (S n)) <> 0) by (apply not_0_INR; lia). match goal with |- derivable_pt_lim _ _ ?x => replace x with (cr2 c ^ S (S n) / INR (S (S n)) * g th) by (cbn [pow]; rewrite !Rmult_0_l; field; auto) end. apply (derivable_pt_lim_scal G). auto.
Qed.
Lemma d_sin2 t : derivable_pt_lim (fun t => t / 2 + sin t * cos t / 2) t (cos t * cos t).
Proof.
  replace (cos t * cos t) with (1 * / 2 + id t * 0 + ((cos t * cos t + sin t * - sin t) * / 2 + sin t * cos t * 0)).
  - apply (derivable_pt_lim_plus (fun t => t * / 2) (fun t => sin t * cos t * / 2)).
    + apply (derivable_pt_lim_mult id (fun _ => / 2)); [apply derivable_pt_lim_id|apply derivable_pt_lim_const].
    + apply (derivable_pt_lim_mult (fun t => sin t * cos t) (fun _ => / 2)); [|apply derivable_pt_lim_const]. apply (derivable_pt_lim_mult sin cos); [apply derivable_pt_lim_sin|apply derivable_pt_lim_cos].
  - unfold id. pose proof (sc1 t). lra.
Qed.
Lemma d_cos2 t : derivable_pt_lim (fun t => t / 2 - sin t * cos t / 2) t (sin t * sin t).
Proof.
  replace (sin t * sin t) with (1 - cos t * cos t) by (pose proof (sc1 t); lra). apply derivable_ext with (fun t => id t - (t / 2 + sin t * cos t / 2)); [intros; unfold id; field|]. apply (derivable_pt_lim_minus id (fun t => t / 2 + sin t * cos t / 2)); [apply derivable_pt_lim_id|apply d_sin2].
Qed.
Lemma d_sc t : derivable_pt_lim (fun t => / 2 * (sin t * sin t)) t (cos t * sin t).
Proof. replace (cos t * sin t) with (/ 2 * (cos t * sin t + sin t * cos t)) by field. apply (derivable_pt_lim_scal (fun t => sin t * sin t)). apply (derivable_pt_lim_mult sin sin); apply derivable_pt_lim_sin. Qed.
Lemma int_one c t1 t2 : circle_ok c -> sector_integral c t1 t2 (fun _ => 1) (cr2 c ^ 2 * (t2 - t1) / 2).
Proof. intros C. apply sector_ext with (fun _ => 1) (cr2 c ^ (0 + 2) / INR (0 + 2) * (id t2 - id t1)); [auto|unfold id; cbn [INR plus]; field|]. apply sector_homogeneous with (fun _ => 1); auto; [intros; cbn; ring|apply derivable_pt_lim_id]. Qed.
Lemma int_x c t1 t2 : circle_ok c -> sector_integral c t1 t2 (locx c) (cr2 c ^ 3 / 3 * (sin t2 - sin t1)).
Proof. intros C. apply sector_ext with (locx c) (cr2 c ^ (1 + 2) / INR (1 + 2) * (sin t2 - sin t1)); [auto|cbn [INR plus]; field|]. apply sector_homogeneous with cos; auto; [intros; rewrite (proj1 (loc_polar c rho th C)); ring|apply derivable_pt_lim_sin]. Qed.
Lemma int_y c t1 t2 : circle_ok c -> sector_integral c t1 t2 (locy c) (cr2 c ^ 3 / 3 * (cos t1 - cos t2)).
Proof.
  intros C. apply sector_ext with (locy c) (cr2 c ^ (1 + 2) / INR (1 + 2) * (- cos t2 - - cos t1)); [auto|cbn [INR plus]; field|]. apply (sector_homogeneous c t1 t2 (locy c) 1 sin (fun t => - cos t)); auto; [intros; rewrite (proj2 (loc_polar c rho th C)); ring|].
  intros t. rewrite <- (Ropp_involutive (sin t)). apply (derivable_pt_lim_opp cos). apply derivable_pt_lim_cos.
Qed.
Lemma int_xx c t1 t2 : circle_ok c -> sector_integral c t1 t2 (fun p => locx c p ^ 2) (cr2 c ^ 4 / 4 * ((t2 - t1) / 2 + (sin t2 * cos t2 - sin t1 * cos t1) / 2)).
Proof. intros C. apply sector_ext with (fun p => locx c p ^ 2) (cr2 c ^ (2 + 2) / INR (2 + 2) * ((t2 / 2 + sin t2 * cos t2 / 2) - (t1 / 2 + sin t1 * cos t1 / 2))); [auto|cbn [INR plus]; field|]. apply (sector_homogeneous c t1 t2 _ 2 (fun t => cos t * cos t) (fun t => t / 2 + sin t * cos t / 2)); auto; [intros; rewrite (proj1 (loc_polar c rho th C)); ring|apply d_sin2]. Qed.
Lemma int_yy c t1 t2 : circle_ok c -> sector_integral c t1 t2 (fun p => locy c p ^ 2) (cr2 c ^ 4 / 4 * ((t2 - t1) / 2 - (sin t2 * cos t2 - sin t1 * cos t1) / 2)).
Proof. intros C. apply sector_ext with (fun p => locy c p ^ 2) (cr2 c ^ (2 + 2) / INR (2 + 2) * ((t2 / 2 - sin t2 * cos t2 / 2) - (t1 / 2 - sin t1 * cos t1 / 2))); [auto|cbn [INR plus]; field|]. apply (sector_homogeneous c t1 t2 _ 2 (fun t => sin t * sin t) (fun t => t / 2 - sin t * cos t / 2)); auto; [intros; rewrite (proj2 (loc_polar c rho th C)); ring|apply d_cos2]. Qed.
Lemma int_xy c t1 t2 : circle_ok c -> sector_integral c t1 t2 (fun p => locx c p * locy c p) (cr2 c ^ 4 / 4 * (/ 2 * (sin t2 * sin t2) - / 2 * (sin t1 * sin t1))).
Proof. intros C. apply sector_ext with (fun p => locx c p * locy c p) (cr2 c ^ (2 + 2) / INR (2 + 2) * (/ 2 * (sin t2 * sin t2) - / 2 * (sin t1 * sin t1))); [auto|cbn [INR plus]; field|]. apply (sector_homogeneous c t1 t2 _ 2 (fun t => cos t * sin t) (fun t => / 2 * (sin t * sin t))); auto; [intros; rewrite (proj1 (loc_polar c rho th C)), (proj2 (loc_polar c rho th C)); ring|apply d_sc]. Qed.
(** sector *)
Lemma area_ok a : arc_ok a -> sector_integral (ac a) (ang1 a) (ang2 a) (fun _ => 1) (arc2_area a) /\ 0 < arc2_area a.
Proof. intros A. pose proof A as (C & _). pose proof C as [O R]. pose proof (arc_angles a A) as (_ & _ & R1 & R2). split; [apply int_one; auto|]. unfold arc2_area, arc2_angle. assert (0 < cr2 (ac a) ^ 2) by (apply pow_lt; auto). apply Rmult_lt_0_compat; [|lra]. apply Rmult_lt_0_compat; lra. Qed.
Lemma int_gx a k u w : circle_ok (ac a) -> sector_integral (ac a) (ang1 a) (ang2 a) (fun p => k * 1 + (u * locx (ac a) p + w * locy (ac a) p))
  (k * arc2_area a + (u * (cr2 (ac a) ^ 3 / 3 * (sin (ang2 a) - sin (ang1 a))) + w * (cr2 (ac a) ^ 3 / 3 * (cos (ang1 a) - cos (ang2 a))))).
Proof. intros C. apply (sector_plus _ _ _ (fun _ => k * 1) (fun p => u * locx (ac a) p + w * locy (ac a) p)); [apply (sector_scal _ _ _ (fun _ => 1)), int_one; auto|]. apply (sector_plus _ _ _ (fun p => u * locx (ac a) p) (fun p => w * locy (ac a) p)); apply sector_scal; [apply int_x|apply int_y]; auto. Qed.
Lemma sin_diff a b : sin b - sin a = 2 * cos ((a + b) / 2) * sin ((b - a) * (1 / 2)).
Proof. rewrite form4. f_equal; [f_equal; f_equal; field|f_equal; field]. Qed.
Lemma cos_diff a b : cos a - cos b = 2 * sin ((a + b) / 2) * sin ((b - a) * (1 / 2)).
Proof. rewrite form2. replace ((a - b) / 2) with (- ((b - a) * (1 / 2))) by field. rewrite sin_neg. ring. Qed.
Lemma center_of_mass_value a : arc_ok a -> arc2_center_of_mass a = Ok (polar_point (ac a) (4 / (3 * arc2_angle a) * cr2 (ac a) * sin (arc2_angle a * (1 / 2))) ((ang1 a + ang2 a) / 2)).
Proof.
  intros A. pose proof A as (C & _). pose proof C as [O R]. pose proof (arc_angles a A) as (_ & _ & R1 & R2). unfold arc2_center_of_mass, arc2_middle. rewrite arc_at_point by auto. cbn [bind]. destruct (angle_ok a A) as [_ ->].
  replace (ang1 a + cr2 (ac a) * arc2_angle a / 2 / cr2 (ac a)) with ((ang1 a + ang2 a) / 2) by (unfold arc2_angle; field; lra). unfold unit_vector2. rewrite point_norm by auto. cbv zeta. rewrite (proj2 (Reqb_false _ _)) by lra. cbn [bind].
  rewrite (proj2 (Reqb_false _ _)) by (unfold arc2_angle; lra). f_equal. unfold polar_point, circle2_point, add2, mul2, sub2. cbn [x2 y2]. set (k := 4 / _ * _ * _). apply vec2_ext; cbn [x2 y2]; field; lra.
Qed.
Lemma center_of_mass_ok a : arc_ok a -> exists g, arc2_center_of_mass a = Ok g /\
  sector_integral (ac a) (ang1 a) (ang2 a) x2 (arc2_area a * x2 g) /\ sector_integral (ac a) (ang1 a) (ang2 a) y2 (arc2_area a * y2 g).
Proof.
  intros A. pose proof A as (C & _). pose proof C as [O R]. pose proof (arc_angles a A) as (_ & _ & R1 & R2). rewrite center_of_mass_value by auto. eexists. split; [reflexivity|].
  assert (NA : arc2_angle a <> 0) by (unfold arc2_angle; lra).
  assert (K : forall k u w, k * arc2_area a + (u * (cr2 (ac a) ^ 3 / 3 * (sin (ang2 a) - sin (ang1 a))) + w * (cr2 (ac a) ^ 3 / 3 * (cos (ang1 a) - cos (ang2 a)))) =
    arc2_area a * (k + u * (4 / (3 * arc2_angle a) * cr2 (ac a) * sin (arc2_angle a * (1 / 2)) * cos ((ang1 a + ang2 a) / 2)) + w * (4 / (3 * arc2_angle a) * cr2 (ac a) * sin (arc2_angle a * (1 / 2)) * sin ((ang1 a + ang2 a) / 2)))).
  { intros k u w. rewrite sin_diff, cos_diff. fold (arc2_angle a). unfold arc2_area. set (s := sin (arc2_angle a * (1 / 2))). field. auto. }
  split.
  - eapply sector_ext; [| |apply (int_gx a (x2 (center2 (ac a))) (x2 (u2 (fb2 (cf2 (ac a))))) (x2 (v2 (fb2 (cf2 (ac a))))) C)]; cbv beta.
    + intros p. rewrite (loc_inv (ac a) p C) at 3. unfold add2, mul2. cbn [x2]. ring.
    + rewrite K. unfold polar_point, add2, mul2. cbn [x2]. reflexivity.
  - eapply sector_ext; [| |apply (int_gx a (y2 (center2 (ac a))) (y2 (u2 (fb2 (cf2 (ac a))))) (y2 (v2 (fb2 (cf2 (ac a))))) C)]; cbv beta.
    + intros p. rewrite (loc_inv (ac a) p C) at 3. unfold add2, mul2. cbn [y2]. ring.
    + rewrite K. unfold polar_point, add2, mul2. cbn [y2]. reflexivity.
Qed.
