(** Second moments of the sector; the region between an arc and its chord. *)
From Coq Require Import Reals Lra Lia List Bool ZArith.
From Verif.Model Require Import Base RBase Vec Frame BBox Geometry Curves Edges Arcs.
From Verif.Spec Require Import VecSpec FrameSpec AngleSpec CurvesSpec ArcsSpec ArcAreaSpec.
From Verif.Proofs Require Import VecP LineP FrameP GeometryP CurvesP CurvesP3 CurvesP4 CurvesP5 CurvesP6 CurvesP7 EdgesP ArcsP ArcsP2 ArcsP3 ArcsP4 ArcsP6.
Import ListNotations.
Open Scope R_scope.

Lemma sector_moments_value a : arc_ok a -> arc2_sector_moments a =
  (cr2 (ac a) ^ 4 / 4 * ((ang2 a - ang1 a) / 2 - (sin (ang2 a) * cos (ang2 a) - sin (ang1 a) * cos (ang1 a)) / 2),
   cr2 (ac a) ^ 4 / 4 * ((ang2 a - ang1 a) / 2 + (sin (ang2 a) * cos (ang2 a) - sin (ang1 a) * cos (ang1 a)) / 2),
   cr2 (ac a) ^ 4 / 4 * (/ 2 * (sin (ang2 a) * sin (ang2 a)) - / 2 * (sin (ang1 a) * sin (ang1 a)))).
Proof.
  intros A. pose proof (arc_angles a A) as (_ & _ & R1 & R2). unfold arc2_sector_moments. rewrite (proj2 (Rltb_false _ _)) by lra. rewrite !sin_2a. pose proof (sc1 (ang1 a)). pose proof (sc1 (ang2 a)).
  replace (cos (ang1 a) ^ 2) with (1 - sin (ang1 a) * sin (ang1 a)) by lra. replace (cos (ang2 a) ^ 2) with (1 - sin (ang2 a) * sin (ang2 a)) by lra. f_equal; [f_equal|]; field.
Qed.
(** about the center, in the axes of the circle *)
Lemma second_moment_ok a : arc_ok a -> exists ix iy ixy, arc2_second_moment_area a (center2 (ac a)) = (ix, iy, ixy) /\
  sector_integral (ac a) (ang1 a) (ang2 a) (fun p => dot2 (sub2 p (center2 (ac a))) (v2 (fb2 (cf2 (ac a)))) ^ 2) ix /\
  sector_integral (ac a) (ang1 a) (ang2 a) (fun p => dot2 (sub2 p (center2 (ac a))) (u2 (fb2 (cf2 (ac a)))) ^ 2) iy /\
  sector_integral (ac a) (ang1 a) (ang2 a) (fun p => dot2 (sub2 p (center2 (ac a))) (u2 (fb2 (cf2 (ac a)))) * dot2 (sub2 p (center2 (ac a))) (v2 (fb2 (cf2 (ac a))))) ixy.
Proof.
  intros A. pose proof A as (C & _). unfold arc2_second_moment_area. rewrite sector_moments_value by auto. unfold huygens2d. do 3 eexists. split; [reflexivity|]. 
  assert (S : sub2 (center2 (ac a)) (center2 (ac a)) = V2 0 0) by (unfold sub2; apply vec2_ext; cbn [x2 y2]; ring). rewrite S. cbn [x2 y2]. split; [|split].
  - eapply sector_ext; [| |apply (int_yy (ac a)); auto]; [intros; reflexivity|ring].
  - eapply sector_ext; [| |apply (int_xx (ac a)); auto]; [intros; reflexivity|ring].
  - eapply sector_ext; [| |apply (int_xy (ac a)); auto]; [intros; reflexivity|ring].
Qed.
Definition aligned (c : circle2) : Prop := u2 (fb2 (cf2 c)) = V2 1 0 /\ v2 (fb2 (cf2 c)) = V2 0 1.
Lemma second_moment_wrong : exists a p ix iy ixy v, arc_ok a /\ arc2_second_moment_area a p = (ix, iy, ixy) /\ sector_integral (ac a) (ang1 a) (ang2 a) (fun q => (y2 q - y2 p) ^ 2) v /\ v + 1 / 2 < ix.
Proof.
  exists QA, (V2 0 1). unfold arc2_second_moment_area. rewrite sector_moments_value by apply QA_ok. unfold huygens2d. do 3 eexists. exists (1 / 4 * (PI / 2 / 2) - 2 * (1 / 3) + PI / 4). split; [apply QA_ok|]. split; [reflexivity|].
  assert (E : forall q, locy UC q = y2 q) by (intros q; unfold locy, dot2, sub2, UC, center2, O2D; cbn [cf2 org2 fb2 v2 x2 y2]; ring). split.
  - eapply sector_ext; [| |apply (sector_plus _ _ _ (fun q => locy UC q ^ 2) (fun q => -2 * locy UC q + 1 * 1)); [apply (int_yy UC); apply UC_ok|apply (sector_plus _ _ _ (fun q => -2 * locy UC q) (fun q => 1 * 1)); [apply (sector_scal _ _ _ (locy UC)), (int_y UC), UC_ok|apply (sector_scal _ _ _ (fun _ => 1)), (int_one UC), UC_ok]]]; cbv beta.
    + intros q. rewrite E. cbn [y2]. ring.
    + cbn [QA UC ac cr2 ang1 ang2]. rewrite sin_0, cos_0, sin_PI2, cos_PI2. field.
  - cbn [QA UC ac cr2 ang1 ang2]. rewrite sin_0, cos_0, sin_PI2, cos_PI2. unfold arc2_area, arc2_angle, center2, O2D, sub2. cbn [QA UC ac cr2 cf2 org2 ang1 ang2 x2 y2]. unfold O2D. cbn [y2]. lra.
Qed.
Lemma second_moment_clockwise_wrong : exists a ix iy ixy, arc_ok a /\ arc2_second_moment_area a (center2 (ac a)) = (ix, iy, ixy) /\ sector_integral (ac a) (ang1 a) (ang2 a) (fun q => (x2 q - x2 (center2 (ac a))) * (y2 q - y2 (center2 (ac a)))) (- ixy) /\ ixy = 1 / 8.
Proof.
  exists QC. unfold arc2_second_moment_area. rewrite sector_moments_value by apply QC_ok. unfold huygens2d. do 3 eexists. split; [apply QC_ok|]. split; [reflexivity|]. split.
  - eapply sector_ext; [| |refine (sector_scal _ _ _ (fun p => locx CW p * locy CW p) _ (-1) (int_xy CW _ _ CW_ok))]; cbv beta.
    + intros q. unfold locx, locy, dot2, sub2, QC, CW, center2, O2D. cbn [ac cf2 org2 fb2 u2 v2 x2 y2]. ring.
    + unfold sub2. cbn [QC CW ac cr2 ang1 ang2 center2 cf2 org2 x2 y2]. ring.
  - unfold sub2, center2, O2D. cbn [QC CW ac cr2 ang1 ang2 cf2 org2 x2 y2]. rewrite sin_0, sin_PI2. field.
Qed.
(** area between the arc and its chord *)
Lemma straight_area_value a : arc_ok a -> arc2_straight_line_area a = (if arc2_is_trigo a then 1 else -1) * (cr2 (ac a) ^ 2 / 2 * (arc2_angle a - sin (arc2_angle a))).
Proof.
  intros A. unfold arc2_straight_line_area. cbv zeta. destruct (Rleb PI (arc2_angle a)).
  - unfold TWO_PI. replace (sin (2 * PI - arc2_angle a)) with (- sin (arc2_angle a)) by (rewrite sin_minus, sin_2PI, cos_2PI; ring). destruct (arc2_is_trigo a); field.
  - destruct (arc2_is_trigo a); field.
Qed.
Lemma cross_trigo c : circle_ok c -> cross2 (u2 (fb2 (cf2 c))) (v2 (fb2 (cf2 c))) = (if circle2_is_trigo c then 1 else -1).
Proof.
  intros C. pose proof (ortho_trigo c C) as T. destruct C as [(O1 & _) _]. rewrite T. unfold cross2, mul2, normal_vector2, dot2 in *. cbn [x2 y2]. set (e := if circle2_is_trigo c then 1 else -1). transitivity ((x2 (u2 (fb2 (cf2 c))) * x2 (u2 (fb2 (cf2 c))) + y2 (u2 (fb2 (cf2 c))) * y2 (u2 (fb2 (cf2 c)))) * e); [ring|rewrite O1; ring].
Qed.
Lemma straight_area_ok a : arc_ok a -> swept_area (circle2_point (ac a)) (ast a) (ang1 a) (ang2 a) (arc2_straight_line_area a).
Proof.
  intros A. pose proof A as (C & _). pose proof (arc_angles a A) as (E1 & _). pose proof (cross_trigo _ C) as X. rewrite straight_area_value, E1 by auto. unfold arc2_is_trigo. set (e := if circle2_is_trigo (ac a) then 1 else -1) in *. clearbody e.
  set (r := cr2 (ac a)). set (u := u2 (fb2 (cf2 (ac a)))) in *. set (v := v2 (fb2 (cf2 (ac a)))) in *. set (al := ang1 a).
  exists (fun t => add2 (mul2 u (- (r * sin t))) (mul2 v (r * cos t))), (fun t => e * (r ^ 2 / 2) * (t - sin (t - al))). split; [|split].
  - intros t. unfold circle2_point. fold r u v. unfold add2, mul2. cbn [x2 y2].
    assert (L : forall k x y, derivable_pt_lim (fun t => k + x * (r * cos t) + y * (r * sin t)) t (0 + x * (r * - sin t) + y * (r * cos t))).
    { intros k x y. apply (derivable_pt_lim_plus (fun t => k + x * (r * cos t)) (fun t => y * (r * sin t))).
      - apply (derivable_pt_lim_plus (fun t => k) (fun t => x * (r * cos t))); [apply derivable_pt_lim_const|]. apply (derivable_pt_lim_scal (fun t => r * cos t)). apply (derivable_pt_lim_scal cos). apply derivable_pt_lim_cos.
      - apply (derivable_pt_lim_scal (fun t => r * sin t)). apply (derivable_pt_lim_scal sin). apply derivable_pt_lim_sin. }
    split; (eapply eq_ind; [apply L|ring]).
  - intros t. assert (V : cross2 (sub2 (circle2_point (ac a) t) (circle2_point (ac a) al)) (add2 (mul2 u (- (r * sin t))) (mul2 v (r * cos t))) / 2 = e * (r ^ 2 / 2) * (1 - cos (t - al) * (1 - 0))).
    { rewrite cos_minus. pose proof (sc1 t) as S. rewrite <- X. unfold circle2_point. fold r u v. set (o := center2 (ac a)). clearbody u v o. unfold cross2, sub2, add2, mul2. cbn [x2 y2].
      transitivity ((x2 u * y2 v - y2 u * x2 v) * (r ^ 2 / 2) * ((sin t * sin t + cos t * cos t) - (cos t * cos al + sin t * sin al))); [field|rewrite S; ring]. }
    rewrite V. apply (derivable_pt_lim_scal (fun t => t - sin (t - al))). apply (derivable_pt_lim_minus id (fun t => sin (t - al))); [apply derivable_pt_lim_id|]. apply (derivable_pt_lim_comp (fun t => t - al) sin); [|apply derivable_pt_lim_sin]. apply (derivable_pt_lim_minus id (fun _ => al)); [apply derivable_pt_lim_id|apply derivable_pt_lim_const].
  - unfold arc2_angle. fold al. replace (sin (al - al)) with 0 by (replace (al - al) with 0 by ring; rewrite sin_0; auto). ring.
Qed.
Lemma swept_unique P o t1 t2 v w : swept_area P o t1 t2 v -> swept_area P o t1 t2 w -> v = w.
Proof.
  intros (D & G & A & B & ->) (D' & G' & A' & B' & ->). apply same_derivative with (fun t => cross2 (sub2 (P t) o) (D t) / 2); auto. intros t. destruct (A t) as [X Y]. destruct (A' t) as [X' Y'].
  assert (E : D t = D' t) by (apply vec2_ext; [apply (uniqueness_limite _ _ _ _ X X')|apply (uniqueness_limite _ _ _ _ Y Y')]). rewrite E. auto.
Qed.
Lemma straight_area_positive a : arc_ok a -> 0 < Rabs (arc2_straight_line_area a) /\ (arc2_is_trigo a = true <-> 0 < arc2_straight_line_area a).
Proof.
  intros A. pose proof A as ([_ R] & _). pose proof (arc_angles a A) as (_ & _ & R1 & R2). rewrite straight_area_value by auto. assert (P : 0 < cr2 (ac a) ^ 2 / 2 * (arc2_angle a - sin (arc2_angle a))).
  { apply Rmult_lt_0_compat; [apply Rmult_lt_0_compat; [apply pow_lt; auto|lra]|]. assert (0 < arc2_angle a) by (unfold arc2_angle; lra). pose proof (sin_lt_x (arc2_angle a)). lra. }
  set (k := cr2 (ac a) ^ 2 / 2 * _) in *. destruct (arc2_is_trigo a).
  - rewrite Rmult_1_l, Rabs_pos_eq by lra. tauto.
  - split; [rewrite Rabs_left by lra; lra|]. split; [discriminate|lra].
Qed.
(** the triangle of the center and the chord *)
Definition half (a : arc2) : R := arc2_angle a * (1 / 2).
Definition middle_angle (a : arc2) : R := (ang1 a + ang2 a) / 2.
Definition sgn (a : arc2) : R := if arc2_is_trigo a then 1 else -1.
Lemma ends_local a : arc_ok a -> let r := cr2 (ac a) in
  ast a = add2 (polar_point (ac a) (r * cos (half a)) (middle_angle a)) (mul2 (add2 (mul2 (u2 (fb2 (cf2 (ac a)))) (- sin (middle_angle a))) (mul2 (v2 (fb2 (cf2 (ac a)))) (cos (middle_angle a)))) (- (r * sin (half a)))) /\
  aen a = add2 (polar_point (ac a) (r * cos (half a)) (middle_angle a)) (mul2 (add2 (mul2 (u2 (fb2 (cf2 (ac a)))) (- sin (middle_angle a))) (mul2 (v2 (fb2 (cf2 (ac a)))) (cos (middle_angle a)))) (r * sin (half a))).
Proof.
  intros A r. pose proof (arc_angles a A) as (E1 & E2 & R1 & R2). unfold half, middle_angle. assert (H1 : ang1 a = (ang1 a + ang2 a) / 2 - arc2_angle a * (1 / 2)) by (unfold arc2_angle; field). assert (H2 : ang2 a = (ang1 a + ang2 a) / 2 + arc2_angle a * (1 / 2)) by (unfold arc2_angle; field).
  set (m := (ang1 a + ang2 a) / 2) in *. set (h := arc2_angle a * (1 / 2)) in *. rewrite E1, E2. rewrite H1, H2. clearbody m h. unfold circle2_point, polar_point. fold r. rewrite cos_plus, cos_minus, sin_plus, sin_minus. unfold add2, mul2. split; apply vec2_ext; cbn [x2 y2]; ring.
Qed.
Lemma tri_signed a : arc_ok a -> sgn a * tri_area (center2 (ac a)) (ast a) (aen a) = cr2 (ac a) ^ 2 * sin (half a) * cos (half a).
Proof.
  intros A. pose proof A as (C & _). destruct (ends_local a A) as [-> ->]. pose proof (cross_trigo _ C) as X. fold (arc2_is_trigo a) in X. unfold sgn. set (e := if arc2_is_trigo a then 1 else -1) in *. assert (EE : e * e = 1) by (unfold e; destruct (arc2_is_trigo a); ring). clearbody e.
  pose proof (sc1 (middle_angle a)) as S. set (cm := cos (middle_angle a)) in *. set (sm := sin (middle_angle a)) in *. set (r := cr2 (ac a)). unfold tri_area, polar_point. fold cm sm. set (o := center2 (ac a)). set (u := u2 (fb2 (cf2 (ac a)))) in *. set (v := v2 (fb2 (cf2 (ac a)))) in *. clearbody o u v cm sm. unfold cross2, sub2, add2, mul2 in *. cbn [x2 y2] in *.
  set (ch := cos (half a)). set (sh := sin (half a)).
  transitivity (e * (x2 u * y2 v - y2 u * x2 v) * (sm * sm + cm * cm) * (r ^ 2 * sh * ch)); [field|rewrite X, EE, S; ring].
Qed.
Lemma tri_linear o p q f k : (forall p q, f (mid p q) = (f p + f q) / 2) -> tri_area o p q * k = tri_area o p q * ((f o + f p + f q) / 3) -> tri_integral o p q f = tri_area o p q * k.
Proof. intros L E. rewrite E. unfold tri_integral. rewrite !L. field. Qed.
Lemma straight_abs a : arc_ok a -> Rabs (arc2_straight_line_area a) = arc2_area a - cr2 (ac a) ^ 2 * sin (half a) * cos (half a).
Proof.
  intros A. destruct (straight_area_positive a A) as [P Q]. rewrite straight_area_value in * by auto. assert (S : sin (arc2_angle a) = 2 * sin (half a) * cos (half a)) by (rewrite <- sin_2a; f_equal; unfold half; field). rewrite S in *.
  set (k := cr2 (ac a) ^ 2 / 2 * (arc2_angle a - 2 * sin (half a) * cos (half a))) in *. assert (K : k = arc2_area a - cr2 (ac a) ^ 2 * sin (half a) * cos (half a)) by (unfold k, arc2_area; field). destruct (arc2_is_trigo a).
  - rewrite Rabs_pos_eq by (apply Rlt_le, Q; auto). lra.
  - assert (~ 0 < -1 * k) by (intros H; apply Q in H; discriminate). rewrite Rabs_left1 by lra. lra.
Qed.
Lemma segment_area a : arc_ok a -> segment_integral a (fun _ => 1) (Rabs (arc2_straight_line_area a)).
Proof.
  intros A. exists (arc2_area a). split; [apply area_ok; auto|]. rewrite straight_abs by auto. fold (sgn a). unfold tri_integral. rewrite <- tri_signed by auto. field.
Qed.
Lemma half_range a : arc_ok a -> 0 < half a <= PI.
Proof. intros A. pose proof (arc_angles a A) as (_ & _ & R1 & R2). unfold half, arc2_angle. lra. Qed.
Lemma chord a : arc_ok a -> point_distance2 (ast a) (aen a) = 2 * cr2 (ac a) * sin (half a) /\ 0 <= sin (half a).
Proof.
  intros A. pose proof A as (C & _). pose proof C as [(O1 & O2 & O3) R]. pose proof (half_range a A) as H. assert (SP : 0 <= sin (half a)) by (apply sin_ge_0; lra). split; auto. destruct (ends_local a A) as [-> ->]. unfold point_distance2, norm2. apply GeometryP.sqrt_of_sq; [apply Rmult_le_pos; lra|].
  pose proof (sc1 (middle_angle a)) as S. set (cm := cos (middle_angle a)) in *. set (sm := sin (middle_angle a)) in *. set (u := u2 (fb2 (cf2 (ac a)))) in *. set (v := v2 (fb2 (cf2 (ac a)))) in *. set (p := polar_point _ _ _). clearbody p u v cm sm. unfold sub2, add2, mul2, dot2 in *. cbn [x2 y2] in *. set (k := cr2 (ac a) * sin (half a)). replace (2 * cr2 (ac a) * sin (half a)) with (2 * k) by (unfold k; ring).
  transitivity (4 * k * k * (sm * sm * (x2 u * x2 u + y2 u * y2 u) + cm * cm * (x2 v * x2 v + y2 v * y2 v) - 2 * sm * cm * (x2 u * x2 v + y2 u * y2 v))); [ring|]. rewrite O1, O2, O3. transitivity (4 * k * k * (sm * sm + cm * cm)); [ring|rewrite S; ring].
Qed.
Lemma straight_com_value a : arc_ok a -> / 10 ^ 15 < point_distance2 (ast a) (aen a) -> arc2_angle a <> PI ->
  exists g h, arc2_center_of_mass a = Ok g /\ arc2_straight_line_center_of_mass a = Ok h /\
  let t := cr2 (ac a) ^ 2 * sin (half a) * cos (half a) in let w := polar_point (ac a) (2 / 3 * (cr2 (ac a) * cos (half a))) (middle_angle a) in
  mul2 h (Rabs (arc2_straight_line_area a)) = sub2 (mul2 g (arc2_area a)) (mul2 w t).
Proof.
  intros A CH NP. pose proof A as (C & _). pose proof C as [O R]. pose proof (half_range a A) as HR. destruct (chord a A) as [CL SP]. rewrite CL in CH. pose proof (pow10_inv_pos 15) as P15. assert (SH : 0 < sin (half a)) by (destruct SP as [SP|SP]; auto; rewrite <- SP in CH; lra).
  unfold arc2_straight_line_center_of_mass. rewrite (proj2 (Reqb_false _ _)) by auto. pose proof (center_of_mass_value a A) as G. unfold arc2_middle. rewrite arc_at_point by auto. cbn [bind].
  replace (ang1 a + arc2_length a / 2 / cr2 (ac a)) with (middle_angle a) by (destruct (angle_ok a A) as [_ ->]; unfold middle_angle, arc2_angle; field; lra). unfold unit_vector2 at 1. rewrite point_norm by auto. cbv zeta. rewrite (proj2 (Reqb_false (cr2 (ac a)) 0)) by lra. cbn [bind].
  set (c := center2 (ac a)). set (s := if Rleb PI (arc2_angle a) then -1 else 1).
  set (n := add2 (mul2 (u2 (fb2 (cf2 (ac a)))) (cos (middle_angle a))) (mul2 (v2 (fb2 (cf2 (ac a)))) (sin (middle_angle a)))).
  set (T := add2 (mul2 (u2 (fb2 (cf2 (ac a)))) (- sin (middle_angle a))) (mul2 (v2 (fb2 (cf2 (ac a)))) (cos (middle_angle a)))).
  match goal with |- context [if Rleb PI (arc2_angle a) then neg2 ?x else ?x] => replace (if Rleb PI (arc2_angle a) then neg2 x else x) with (mul2 n s) end.
  2: { unfold n, s, circle2_point, neg2, mul2, sub2, add2. fold c. cbn [x2 y2]. destruct (Rleb PI (arc2_angle a)); apply vec2_ext; cbn [x2 y2]; field; lra. }
  assert (SC : s * cos (half a) = Rabs (cos (half a)) /\ s * s = 1 /\ (s = 1 <-> arc2_angle a < PI) /\ (s = -1 <-> PI < arc2_angle a)).
  { unfold s. destruct (Rleb PI (arc2_angle a)) eqn:Q; rb.
    - assert (cos (half a) <= 0) by (apply cos_le_0; unfold half in *; lra). rewrite Rabs_left1 by auto. repeat split; intros; lra.
    - assert (0 <= cos (half a)) by (apply cos_ge_0; unfold half in *; lra). rewrite Rabs_pos_eq by auto. repeat split; intros; lra. }
  destruct SC as (SC & SS & SL & SG).
  assert (NT : cross2 n T = sgn a /\ norm2 n = 1 /\ norm2 T = 1).
  { pose proof (cross_trigo _ C) as X. fold (arc2_is_trigo a) in X. fold (sgn a) in X. destruct O as (O1 & O2 & O3). pose proof (sc1 (middle_angle a)) as S1. unfold n, T. set (cm := cos (middle_angle a)) in *. set (sm := sin (middle_angle a)) in *. set (u := u2 (fb2 (cf2 (ac a)))) in *. set (v := v2 (fb2 (cf2 (ac a)))) in *. clearbody u v cm sm. unfold norm2, cross2, add2, mul2, dot2 in *. cbn [x2 y2] in *. split; [|split; (apply GeometryP.sqrt_of_sq; [lra|])].
    - transitivity ((x2 u * y2 v - y2 u * x2 v) * (sm * sm + cm * cm)); [ring|rewrite X, S1; ring].
    - transitivity (cm * cm * (x2 u * x2 u + y2 u * y2 u) + sm * sm * (x2 v * x2 v + y2 v * y2 v) + 2 * sm * cm * (x2 u * x2 v + y2 u * y2 v)); [ring|]. rewrite O1, O2, O3. lra.
    - transitivity (sm * sm * (x2 u * x2 u + y2 u * y2 u) + cm * cm * (x2 v * x2 v + y2 v * y2 v) - 2 * sm * cm * (x2 u * x2 v + y2 u * y2 v)); [ring|]. rewrite O1, O2, O3. lra. }
  destruct NT as (XT & NN & TT). pose proof (ends_local a A) as [ES EE]. cbv zeta in ES, EE. fold T in ES, EE.
  assert (PP : polar_point (ac a) (cr2 (ac a) * cos (half a)) (middle_angle a) = add2 c (mul2 n (cr2 (ac a) * cos (half a)))) by (unfold polar_point, n, c, add2, mul2; cbn [x2 y2]; apply vec2_ext; cbn [x2 y2]; ring). rewrite PP in ES, EE. clear PP.
  set (r := cr2 (ac a)) in *. set (ch := cos (half a)) in *. set (sh := sin (half a)) in *.
  set (q := add2 c (mul2 n (r * ch))) in *.
  assert (SA : sgn a * sgn a = 1) by (unfold sgn; destruct (arc2_is_trigo a); ring).
  destruct (line_intersection (c, add2 c (mul2 n s)) (ast a, aen a)) as [[[p pt] pu]|] eqn:LI.
  2: { exfalso. apply line_intersection_none in LI. assert (DD : den2 (c, add2 c (mul2 n s)) (ast a, aen a) = s * (2 * r * sh) * sgn a). { rewrite <- XT, ES, EE. unfold den2. cbn [fst snd]. clearbody c n T q. unfold cross2, sub2, add2, mul2. cbn [x2 y2]. ring. }
    rewrite DD in LI. apply Rsqr_le_abs_1 in LI || idtac. assert (AB : Rabs (s * (2 * r * sh) * sgn a) = 2 * r * sh). { rewrite !Rabs_mult. assert (A1 : Rabs s = 1) by (unfold s; destruct (Rleb PI (arc2_angle a)); unfold Rabs; destruct (Rcase_abs _); lra). assert (A2 : Rabs (sgn a) = 1) by (unfold sgn; destruct (arc2_is_trigo a); unfold Rabs; destruct (Rcase_abs _); lra). rewrite A1, A2, (Rabs_pos_eq 2), (Rabs_pos_eq r), (Rabs_pos_eq sh) by lra. ring. } unfold Rsqr in LI. rewrite AB in LI. lra. }
  assert (PQ : p = q).
  { symmetry. eapply line_intersection_unique; [exact LI| |].
    - unfold on_line2, q. cbn [fst snd]. clearbody c n. unfold cross2, sub2, add2, mul2. cbn [x2 y2]. ring.
    - unfold on_line2. cbn [fst snd]. rewrite ES, EE. clearbody q T. unfold cross2, sub2, add2, mul2. cbn [x2 y2]. ring. }
  subst p. assert (HH : point_distance2 q c = r * (s * ch)). { unfold point_distance2. replace (sub2 q c) with (mul2 n (r * ch)) by (unfold q, sub2, add2; apply vec2_ext; cbn [x2 y2]; ring). rewrite norm2_scale, NN, Rabs_mult, (Rabs_pos_eq r) by lra. rewrite <- SC. ring. }
  assert (WW : point_distance2 q (ast a) = r * sh). { unfold point_distance2. replace (sub2 q (ast a)) with (mul2 T (r * sh)) by (rewrite ES; clearbody q T; unfold sub2, add2, mul2; apply vec2_ext; cbn [x2 y2]; ring). rewrite norm2_scale, TT, Rabs_pos_eq by (apply Rmult_le_pos; lra). ring. }
  rewrite HH, WW, G. cbn [bind]. destruct (straight_area_positive a A) as [AP _]. unfold div2. rewrite (proj2 (Reqb_false _ _)) by lra. eexists. eexists. split; [reflexivity|]. split; [reflexivity|]. fold (half a). fold (middle_angle a). fold r ch sh. set (D := Rabs (arc2_straight_line_area a)) in *. set (g := polar_point _ (4 / _ * _ * _) _). clearbody g.
  assert (W2 : polar_point (ac a) (2 / 3 * (r * ch)) (middle_angle a) = add2 c (mul2 n (2 / 3 * (r * ch)))) by (unfold polar_point, n, c, add2, mul2; cbn [x2 y2]; apply vec2_ext; cbn [x2 y2]; ring). rewrite W2. clear W2. clearbody c n.
  destruct (Rltb (arc2_angle a) PI) eqn:LT; rb.
  - apply SL in LT. rewrite LT. unfold sub2, add2, mul2. cbn [x2 y2]. apply vec2_ext; cbn [x2 y2]; field; lra.
  - assert (s = -1) as -> by (apply SG; lra). unfold sub2, add2, mul2. cbn [x2 y2]. apply vec2_ext; cbn [x2 y2]; field; lra.
Qed.
