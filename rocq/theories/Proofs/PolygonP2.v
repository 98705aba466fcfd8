(** More on polygons: integrals, small cases, barycenter, circles of a triangle. *)
From Coq Require Import Reals Lra Lia List Bool.
From Verif.Model Require Import RBase Vec Polygon.
From Verif.Spec Require Import PolygonSpec MomentSpec.
From Verif.Proofs Require Import VecP PolygonP PolyAreaP.
Import ListNotations.
Open Scope R_scope.

Lemma com_small p q : center_of_mass [] = Ok (V2 0 0) /\ center_of_mass [p] = Ok p /\
  center_of_mass [p; q] = Ok (V2 ((x2 p + x2 q) / 2) ((y2 p + y2 q) / 2)).
Proof. split; [reflexivity|]. split; [reflexivity|]. cbn [center_of_mass]. apply f_equal. unfold mul2, add2. cbn [x2 y2]. v_eq; field. Qed.
Lemma com_flat pts : (3 <= length pts)%nat -> sum_sides (tri2 O2D) pts = 0 -> center_of_mass pts = Err NotImplementedError.
Proof.
  intros L Z. rewrite com_eq by auto. rewrite fan in Z. unfold negb.
  match goal with |- context [isclose ?a 0 ?t] => assert (E : isclose a 0 t = true) end.
  { unfold sarea. apply isclose_0; [apply Rlt_le, pow10_inv_pos|]. rewrite Z, Rmult_0_r, Rabs_R0. apply Rlt_le, pow10_inv_pos. }
  rewrite E. reflexivity.
Qed.
Lemma second_moment_integral pts pt :
  let ix := poly_integral (fun x y => (y - y2 pt) ^ 2) pt pts in
  let iy := poly_integral (fun x y => (x - x2 pt) ^ 2) pt pts in
  let ixy := poly_integral (fun x y => (x - x2 pt) * (y - y2 pt)) pt pts in
  second_moment_area pts pt = if Rlt_dec ix 0 then (- ix, - iy, - ixy) else (ix, iy, ixy).
Proof.
  intros ix iy ixy. rewrite second_moment_eq.
  assert (E1 : sum_sides (mx pt) pts / 12 = ix).
  { unfold ix, poly_integral. rewrite (sum_sides_lin (tri_integral (fun x y => (y - y2 pt) ^ 2) pt) (mx pt) (mx pt) (/ 12) 0); [field|]. intros. unfold tri_integral, tri2, mx, shoe, sub2. cbn [x2 y2]. field. }
  assert (E2 : sum_sides (my pt) pts / 12 = iy).
  { unfold iy, poly_integral. rewrite (sum_sides_lin (tri_integral (fun x y => (x - x2 pt) ^ 2) pt) (my pt) (my pt) (/ 12) 0); [field|]. intros. unfold tri_integral, tri2, my, shoe, sub2. cbn [x2 y2]. field. }
  assert (E3 : sum_sides (mxy pt) pts / 24 = ixy).
  { unfold ixy, poly_integral. rewrite (sum_sides_lin (tri_integral (fun x y => (x - x2 pt) * (y - y2 pt)) pt) (mxy pt) (mxy pt) (/ 24) 0); [field|]. intros. unfold tri_integral, tri2, mxy, shoe, sub2. cbn [x2 y2]. field. }
  clearbody ix iy ixy. subst ix iy ixy.
  destruct (Rltb _ 0) eqn:B; destruct (Rlt_dec _ 0); rb; try lra; apply f_equal2; try apply f_equal2; field.
Qed.
(** the integral does not depend on the point the triangles are drawn from *)
Lemma area_integral o pts : polygon_area pts = Rabs (poly_integral (fun _ _ => 1) o pts).
Proof.
  rewrite (area_fan pts o). unfold poly_integral. rewrite (sum_sides_lin (tri_integral (fun _ _ => 1) o) (tri2 o) (tri2 o) (/ 2) 0).
  - rewrite Rmult_0_l, Rplus_0_r, Rabs_mult, (Rabs_right (/ 2)) by lra. field.
  - intros. unfold tri_integral. field.
Qed.
Lemma com_integral pts g o : (3 <= length pts)%nat -> center_of_mass pts = Ok g ->
  x2 g * poly_integral (fun _ _ => 1) o pts = poly_integral (fun x y => x) o pts /\
  y2 g * poly_integral (fun _ _ => 1) o pts = poly_integral (fun x y => y) o pts.
Proof.
  intros L G. apply com_spec with (o := o) in G as (N & X & Y); auto. unfold poly_integral.
  assert (E0 : sum_sides (tri_integral (fun _ _ => 1) o) pts = / 2 * sum_sides (tri2 o) pts).
  { rewrite (sum_sides_lin (tri_integral (fun _ _ => 1) o) (tri2 o) (tri2 o) (/ 2) 0); [ring|]. intros. unfold tri_integral. field. }
  rewrite E0. split.
  - rewrite (sum_sides_lin (tri_integral (fun x y => x) o) (fun a b => tri2 o a b * ((x2 o + x2 a + x2 b) / 3)) (tri2 o) (/ 2) 0); [lra|].
    intros. unfold tri_integral. field.
  - rewrite (sum_sides_lin (tri_integral (fun x y => y) o) (fun a b => tri2 o a b * ((y2 o + y2 a + y2 b) / 3)) (tri2 o) (/ 2) 0); [lra|].
    intros. unfold tri_integral. field.
Qed.

Lemma fold_add2 l : forall p, fold_left add2 l p = add2 p (sum_points l).
Proof.
  induction l as [|q l IH]; intros p; cbn [fold_left sum_points fold_right].
  - unfold O2D. vec. v_eq; ring.
  - rewrite IH. fold (sum_points l). generalize (sum_points l). vec. v_eq; ring.
Qed.
Lemma barycenter_spec pts g : polygon_barycenter pts = Ok g -> mul2 g (INR (length pts)) = sum_points pts.
Proof.
  destruct pts as [|p r]; [discriminate|]. cbn [polygon_barycenter]. intros H. apply Ok_inj in H. subst g.
  assert (N : INR (length (p :: r)) <> 0) by (apply not_0_INR; discriminate).
  rewrite fold_add2. change (sum_points (p :: r)) with (add2 p (sum_points r)). revert N. generalize (INR (length (p :: r))), (sum_points r).
  intros n s Hn. unfold mul2, add2. cbn [x2 y2]. v_eq; field; auto.
Qed.
Lemma barycenter_total pts : pts <> [] -> exists g, polygon_barycenter pts = Ok g.
Proof. destruct pts; [contradiction|]. eexists. reflexivity. Qed.
Lemma barycenter_empty : polygon_barycenter [] = Err IndexError.
Proof. reflexivity. Qed.
Lemma polygon_rotation_points pts c a i p : nth_error pts i = Some p -> nth_error (polygon_rotation pts c a) i = Some (rotation2 p c a).
Proof. intros H. unfold polygon_rotation. apply (map_nth_error (fun p => rotation2 p c a)). exact H. Qed.
Lemma polygon_translation_points pts o i p : nth_error pts i = Some p -> nth_error (polygon_translation pts o) i = Some (translation2 p o).
Proof. intros H. unfold polygon_translation. apply (map_nth_error (fun p => translation2 p o)). exact H. Qed.
Lemma polygon_moves_length pts c a o : length (polygon_rotation pts c a) = length pts /\ length (polygon_translation pts o) = length pts.
Proof. unfold polygon_rotation, polygon_translation. rewrite !map_length. auto. Qed.
Lemma triangle2_area_spec a b c : triangle2_area a b c = Rabs (tri2 a b c) / 2.
Proof. unfold triangle2_area, tri2, cross2, sub2. cbn [x2 y2]. reflexivity. Qed.

(** ** circles *)
Lemma sqrt_eq_of a b : 0 <= a -> 0 <= b -> a * a = b * b -> a = b.
Proof. intros A B E. apply Rle_antisym; apply sq_le; auto; lra. Qed.
Lemma circumcircle_spec a b c r : circumcircle_radius a b c = Ok r ->
  exists o, point_distance2 o a = r /\ point_distance2 o b = r /\ point_distance2 o c = r.
Proof.
  unfold circumcircle_radius. destruct (Reqb _ 0) eqn:Z; rb; [discriminate|]. intros H. apply Ok_inj in H.
  set (u := sub2 b a) in *. set (v := sub2 c a) in *.
  assert (D : triangle2_area a b c * 4 = 2 * Rabs (cross2 u v)) by (unfold triangle2_area; fold u v; field).
  rewrite D in *. assert (K : cross2 u v <> 0) by (intros C; apply Z; rewrite C, Rabs_R0; ring).
  set (q := V2 ((y2 v * dot2 u u - y2 u * dot2 v v) / (2 * cross2 u v)) ((x2 u * dot2 v v - x2 v * dot2 u u) / (2 * cross2 u v))).
  assert (DU : dot2 q u = dot2 u u / 2) by (unfold q; clear - K; destruct u as [u1 u2], v as [v1 v2]; unfold dot2, cross2 in *; cbn [x2 y2] in *; field; auto).
  assert (DV : dot2 q v = dot2 v v / 2) by (unfold q; clear - K; destruct u as [u1 u2], v as [v1 v2]; unfold dot2, cross2 in *; cbn [x2 y2] in *; field; auto).
  assert (QQ : dot2 q q = (point_distance2 a b * point_distance2 a c * point_distance2 b c / (2 * Rabs (cross2 u v))) * (point_distance2 a b * point_distance2 a c * point_distance2 b c / (2 * Rabs (cross2 u v)))).
  { assert (S1 : point_distance2 a b * point_distance2 a b = dot2 u u) by (unfold point_distance2, u; rewrite norm2_sq; clear; vec; ring).
    assert (S2 : point_distance2 a c * point_distance2 a c = dot2 v v) by (unfold point_distance2, v; rewrite norm2_sq; clear; vec; ring).
    assert (S3 : point_distance2 b c * point_distance2 b c = dot2 (sub2 u v) (sub2 u v)) by (unfold point_distance2, u, v; rewrite norm2_sq; clear; vec; ring).
    assert (S4 : Rabs (cross2 u v) * Rabs (cross2 u v) = cross2 u v * cross2 u v) by (rewrite <- Rabs_mult; apply Rabs_right; nra).
    assert (KA : Rabs (cross2 u v) <> 0) by (apply Rabs_no_R0; auto).
    transitivity ((point_distance2 a b * point_distance2 a b) * (point_distance2 a c * point_distance2 a c) * (point_distance2 b c * point_distance2 b c) / (4 * (Rabs (cross2 u v) * Rabs (cross2 u v)))).
    - rewrite S1, S2, S3, S4. unfold q. clear - K; destruct u as [u1 u2], v as [v1 v2]; unfold dot2, cross2, sub2 in *; cbn [x2 y2] in *; field; auto.
    - field. auto. }
  assert (R0 : 0 <= point_distance2 a b * point_distance2 a c * point_distance2 b c / (2 * Rabs (cross2 u v))).
  { apply Rmult_le_pos; [|apply Rlt_le, Rinv_0_lt_compat; pose proof (Rabs_pos_lt _ K); lra].
    repeat apply Rmult_le_pos; apply norm2_pos. }
  rewrite H in *. exists (add2 a q).
  assert (T : forall p w, sub2 (add2 a q) p = w -> dot2 w w = r * r -> point_distance2 (add2 a q) p = r).
  { intros p w E1 E2. apply sqrt_eq_of; [apply norm2_pos|exact R0|]. unfold point_distance2. rewrite norm2_sq, E1. exact E2. }
  split; [|split].
  - apply T with (w := q); [clear; generalize q; vec; v_eq; ring|exact QQ].
  - apply T with (w := sub2 q u); [unfold u; clear; generalize q; vec; v_eq; ring|].
    transitivity (dot2 q q - 2 * dot2 q u + dot2 u u); [clear; generalize q u; vec; ring|]. rewrite DU, QQ. field.
  - apply T with (w := sub2 q v); [unfold v; clear; generalize q; vec; v_eq; ring|].
    transitivity (dot2 q q - 2 * dot2 q v + dot2 v v); [clear; generalize q v; vec; ring|]. rewrite DV, QQ. field.
Qed.
Lemma circumcircle_err a b c e : circumcircle_radius a b c = Err e <-> tri2 a b c = 0 /\ e = ZeroDivisionError.
Proof.
  unfold circumcircle_radius. rewrite triangle2_area_spec. destruct (Reqb _ 0) eqn:Z; rb; split.
  - intros [= <-]. split; auto. destruct (Req_dec (tri2 a b c) 0) as [|C]; auto. apply Rabs_pos_lt in C. lra.
  - intros [_ ->]; auto.
  - discriminate.
  - intros [C _]. exfalso. apply Z. rewrite C, Rabs_R0. field.
Qed.
(** The centre of the inscribed circle is inside the triangle and at distance r from the three side lines:
    twice the area of the triangle it makes with a side is r times the length of the side. *)
Lemma incircle_spec a b c r : incircle_radius a b c = Ok r ->
  exists l m n o, 0 <= l /\ 0 <= m /\ 0 <= n /\ l + m + n = 1 /\
    o = V2 (l * x2 a + m * x2 b + n * x2 c) (l * y2 a + m * y2 b + n * y2 c) /\
    Rabs (tri2 o a b) = r * point_distance2 a b /\ Rabs (tri2 o b c) = r * point_distance2 b c /\ Rabs (tri2 o c a) = r * point_distance2 c a.
Proof.
  unfold incircle_radius. set (s := _ + _ + _). destruct (Reqb s 0) eqn:Z; rb; [discriminate|]. intros H. apply Ok_inj in H. subst r.
  rewrite triangle2_area_spec.
  assert (P : forall p q, 0 <= point_distance2 p q) by (intros; apply norm2_pos).
  assert (S : 0 < s). { assert (0 <= s) by (unfold s; pose proof (P a b); pose proof (P a c); pose proof (P b c); lra). lra. }
  assert (N : forall p q, 0 <= point_distance2 p q / s). { intros. apply Rmult_le_pos; auto. apply Rlt_le, Rinv_0_lt_compat; auto. }
  exists (point_distance2 b c / s), (point_distance2 a c / s), (point_distance2 a b / s).
  assert (L1 : point_distance2 b c / s + point_distance2 a c / s + point_distance2 a b / s = 1) by (unfold s in *; field; auto).
  eexists. split; [apply N|]. split; [apply N|]. split; [apply N|]. split; [exact L1|]. split; [reflexivity|].
  rewrite (dist2_sym c a). clearbody s.
  assert (G : forall t k, t = k * tri2 a b c -> 0 <= k -> Rabs t = k * Rabs (tri2 a b c)).
  { intros t k -> Hk. rewrite Rabs_mult, (Rabs_right k); auto. lra. }
  split; [|split].
  - rewrite (G _ (point_distance2 a b / s)); [field; auto| |apply N].
    unfold tri2. cbn [x2 y2]. replace (point_distance2 b c / s) with (1 - point_distance2 a c / s - point_distance2 a b / s) by lra. field. auto.
  - rewrite (G _ (point_distance2 b c / s)); [field; auto| |apply N].
    unfold tri2. cbn [x2 y2]. replace (point_distance2 a c / s) with (1 - point_distance2 b c / s - point_distance2 a b / s) by lra. field. auto.
  - rewrite (G _ (point_distance2 a c / s)); [field; auto| |apply N].
    unfold tri2. cbn [x2 y2]. replace (point_distance2 a b / s) with (1 - point_distance2 b c / s - point_distance2 a c / s) by lra. field. auto.
Qed.
Lemma incircle_err a b c e : incircle_radius a b c = Err e <-> a = b /\ b = c /\ e = ZeroDivisionError.
Proof.
  unfold incircle_radius. assert (P : forall p q, 0 <= point_distance2 p q) by (intros; apply norm2_pos).
  pose proof (P a b). pose proof (P a c). pose proof (P b c). destruct (Reqb _ 0) eqn:Z; rb; split.
  - intros [= <-]. split; [apply dist2_zero; lra|]. split; auto. apply dist2_zero; lra.
  - intros (_ & _ & ->); auto.
  - discriminate.
  - intros (-> & -> & _). exfalso. apply Z. assert (E : point_distance2 c c = 0) by (apply dist2_zero; auto). rewrite E. ring.
Qed.
Lemma circumcircle_ex : exists r, circumcircle_radius (V2 0 0) (V2 4 0) (V2 0 3) = Ok r.
Proof.
  destruct (circumcircle_radius (V2 0 0) (V2 4 0) (V2 0 3)) eqn:E; [eauto|]. apply circumcircle_err in E as [E _].
  unfold tri2 in E. cbn [x2 y2] in E. lra.
Qed.
