(** Circle / circle intersections in 2D; abscissas on a circle. *)
From Coq Require Import Reals Lra Lia List Bool ZArith.
From Verif.Model Require Import Base RBase Vec Frame BBox Geometry Curves.
From Verif.Spec Require Import VecSpec FrameSpec BBoxSpec PlaneSpec CurvesSpec.
From Verif.Proofs Require Import VecP LineP FrameP GeometryP PlaneP CurvesP CurvesP3 CurvesP4 CurvesP5.
Import ListNotations.
Open Scope R_scope.

Lemma on_circle_sq c p : 0 <= cr2 c -> (on_circle2 c p <-> dot2 (sub2 p (center2 c)) (sub2 p (center2 c)) = cr2 c * cr2 c).
Proof. intros R. unfold on_circle2, point_distance2. rewrite norm_r by auto. unfold dot2. tauto. Qed.
Lemma dist_eq c1 c2 : sqrt ((x2 c2 - x2 c1) ^ 2 + (y2 c2 - y2 c1) ^ 2) = point_distance2 c1 c2.
Proof. unfold point_distance2. rewrite norm2_dot. f_equal. unfold dot2, sub2. cbn [x2 y2]. ring. Qed.

Lemma circles_disjoint c1 c2 : / 10 ^ 6 < point_distance2 (center2 c1) (center2 c2) ->
  cr2 c1 + cr2 c2 < point_distance2 (center2 c1) (center2 c2) \/ point_distance2 (center2 c1) (center2 c2) < Rabs (cr2 c1 - cr2 c2) ->
  circle2_circle_intersections c1 c2 = Ok [] /\ forall p, on_circle2 c1 p -> ~ on_circle2 c2 p.
Proof.
  intros N H. pose proof (pow10_inv_pos 6) as P6. split.
  - unfold circle2_circle_intersections, get_circle_intersections. assert (F : is_close2 (center2 c1) (center2 c2) (/ 10 ^ 6) = false) by (destruct (is_close2 (center2 c1) (center2 c2) (/ 10 ^ 6)) eqn:F; auto; apply is_close2_spec in F; lra). rewrite F. cbv zeta. rewrite dist_eq.
    destruct (Rltb (cr2 c1 + cr2 c2) (point_distance2 (center2 c1) (center2 c2))) eqn:A; auto. rb. rewrite (proj2 (Rltb_spec (point_distance2 (center2 c1) (center2 c2)) (Rabs (cr2 c1 - cr2 c2)))) by lra. auto.
  - intros p O1 O2. unfold on_circle2 in *. pose proof (dist2_triangle (center2 c1) p (center2 c2)) as T1. rewrite (dist2_sym (center2 c1) p) in T1. pose proof (dist2_lip (center2 c1) (center2 c2) p) as T2. rewrite !(dist2_sym _ p) in T2. rewrite O1, O2 in *. lra.
Qed.
Lemma circles_secant c1 c2 : 0 <= cr2 c1 -> 0 <= cr2 c2 -> / 10 ^ 6 < point_distance2 (center2 c1) (center2 c2) ->
  Rabs (cr2 c1 - cr2 c2) <= point_distance2 (center2 c1) (center2 c2) <= cr2 c1 + cr2 c2 ->
  / 10 ^ 6 <= Rabs (cr2 c1 - (cr2 c1 * cr2 c1 - cr2 c2 * cr2 c2 + point_distance2 (center2 c1) (center2 c2) * point_distance2 (center2 c1) (center2 c2)) / (2 * point_distance2 (center2 c1) (center2 c2))) ->
  exists p q, get_circle_intersections c1 c2 = Ok [p; q] /\ forall r, (r = p \/ r = q) <-> (on_circle2 c1 r /\ on_circle2 c2 r).
Proof.
  intros R1 R2 N [B1 B2] S. pose proof (pow10_inv_pos 6) as P6. unfold get_circle_intersections.
  assert (F : is_close2 (center2 c1) (center2 c2) (/ 10 ^ 6) = false) by (destruct (is_close2 (center2 c1) (center2 c2) (/ 10 ^ 6)) eqn:F; auto; apply is_close2_spec in F; lra). rewrite F. cbv zeta. rewrite dist_eq.
  set (d := point_distance2 (center2 c1) (center2 c2)) in *. rewrite (proj2 (Rltb_false _ _)) by lra. rewrite (proj2 (Rltb_false _ _)) by lra. rewrite (proj2 (Reqb_false d 0)) by lra. cbn [andb].
  set (a := (cr2 c1 * cr2 c1 - cr2 c2 * cr2 c2 + d * d) / (2 * d)) in *. replace ((cr2 c1 ^ 2 - cr2 c2 ^ 2 + d ^ 2) / (2 * d)) with a by (unfold a; field; lra).
  rewrite (proj2 (Rltb_false _ _)) by lra. assert (AD : 2 * d * a = cr2 c1 * cr2 c1 - cr2 c2 * cr2 c2 + d * d) by (unfold a; field; lra). clearbody a.
  assert (BB : Rabs (cr2 c1 - cr2 c2) * Rabs (cr2 c1 - cr2 c2) <= d * d) by (apply Rmult_le_compat; auto; apply Rabs_pos). rewrite <- Rabs_mult, Rabs_pos_eq in BB by apply Rle_0_sqr.
  assert (A1 : 0 <= cr2 c1 - a). { assert (0 <= 2 * d * (cr2 c1 - a)). { replace (2 * d * (cr2 c1 - a)) with ((cr2 c2 + d - cr2 c1) * (cr2 c2 - d + cr2 c1)) by (transitivity (2 * d * cr2 c1 - 2 * d * a); [rewrite AD; ring|ring]). apply Rmult_le_pos; [|lra]. pose proof (Rle_abs (cr2 c1 - cr2 c2)). lra. } nra. }
  assert (A2 : 0 <= cr2 c1 + a). { assert (0 <= 2 * d * (cr2 c1 + a)). { replace (2 * d * (cr2 c1 + a)) with ((d + cr2 c1 - cr2 c2) * (d + cr2 c1 + cr2 c2)) by (transitivity (2 * d * cr2 c1 + 2 * d * a); [rewrite AD; ring|ring]). apply Rmult_le_pos; [|lra]. pose proof (Rle_abs (- (cr2 c1 - cr2 c2))). rewrite Rabs_Ropp in H. lra. } nra. }
  assert (HP : 0 <= cr2 c1 ^ 2 - a ^ 2) by nra. unfold sqrt_py. rewrite (proj2 (Rltb_false _ _)) by lra. cbn [bind]. set (h := sqrt (cr2 c1 ^ 2 - a ^ 2)). assert (HH : h * h = cr2 c1 * cr2 c1 - a * a) by (unfold h; rewrite sqrt_sqrt by auto; ring). clearbody h.
  assert (DD : (x2 (center2 c2) - x2 (center2 c1)) * (x2 (center2 c2) - x2 (center2 c1)) + (y2 (center2 c2) - y2 (center2 c1)) * (y2 (center2 c2) - y2 (center2 c1)) = d * d).
  { unfold d, point_distance2. rewrite norm2_sq. unfold dot2, sub2. cbn [x2 y2]. ring. }
  set (ex := (x2 (center2 c2) - x2 (center2 c1)) / d). set (ey := (y2 (center2 c2) - y2 (center2 c1)) / d). assert (EE : ex * ex + ey * ey = 1). { apply Rmult_eq_reg_r with (d * d); [|apply Rgt_not_eq; nra]. rewrite Rmult_1_l. refine (eq_trans _ DD). unfold ex, ey. field. lra. }
  assert (X1 : x2 (center2 c2) = x2 (center2 c1) + d * ex) by (unfold ex; field; lra). assert (Y1 : y2 (center2 c2) = y2 (center2 c1) + d * ey) by (unfold ey; field; lra).
  set (x0 := x2 (center2 c1)) in *. set (y0 := y2 (center2 c1)) in *.
  eexists; eexists. split; [reflexivity|]. intros r. rewrite !on_circle_sq by auto. unfold dot2, sub2. cbn [x2 y2]. rewrite X1, Y1. fold x0 y0.
  assert (P1 : V2 (x0 + a * (x0 + d * ex - x0) / d + h * (y0 + d * ey - y0) / d) (y0 + a * (y0 + d * ey - y0) / d - h * (x0 + d * ex - x0) / d) = V2 (x0 + a * ex + h * ey) (y0 + a * ey - h * ex)) by (f_equal; field; lra).
  assert (P2 : V2 (x0 + a * (x0 + d * ex - x0) / d - h * (y0 + d * ey - y0) / d) (y0 + a * (y0 + d * ey - y0) / d + h * (x0 + d * ex - x0) / d) = V2 (x0 + a * ex - h * ey) (y0 + a * ey + h * ex)) by (f_equal; field; lra).
  rewrite P1, P2. clear P1 P2. clearbody ex ey x0 y0. clear X1 Y1 DD. split.
  - assert (G : forall k, k * k = cr2 c1 * cr2 c1 - a * a -> r = V2 (x0 + a * ex + k * ey) (y0 + a * ey - k * ex) ->
      (x2 r - x0) * (x2 r - x0) + (y2 r - y0) * (y2 r - y0) = cr2 c1 * cr2 c1 /\ (x2 r - (x0 + d * ex)) * (x2 r - (x0 + d * ex)) + (y2 r - (y0 + d * ey)) * (y2 r - (y0 + d * ey)) = cr2 c2 * cr2 c2).
    { intros k KK ->. cbn [x2 y2]. split.
      - transitivity ((a * a + k * k) * (ex * ex + ey * ey)); [ring|rewrite EE, KK; ring].
      - transitivity ((a * a + k * k + d * d - 2 * d * a) * (ex * ex + ey * ey)); [ring|rewrite EE, KK, AD; ring]. }
    intros [Hr | Hr]; [apply (G h) | apply (G (- h))]; auto; try (transitivity (h * h); [ring|auto]). rewrite Hr. f_equal; ring.
  - intros [Q1 Q2]. set (wx := x2 r - x0) in *. set (wy := y2 r - y0) in *.
    assert (Q3 : 2 * d * (wx * ex + wy * ey) = 2 * d * a). { rewrite AD. rewrite <- Q1, <- Q2. transitivity (2 * d * (wx * ex + wy * ey) - d * d * (ex * ex + ey * ey) + d * d); [rewrite EE; ring|unfold wx, wy; ring]. }
    assert (Q4 : wx * ex + wy * ey = a) by (apply Rmult_eq_reg_l with (2 * d); auto; lra). set (k := wx * ey - wy * ex).
    assert (KK : (k - h) * (k + h) = 0). { transitivity ((wx * wx + wy * wy) * (ex * ex + ey * ey) - (wx * ex + wy * ey) * (wx * ex + wy * ey) - h * h); [unfold k; ring|]. rewrite EE, Q1, Q4, HH. ring. }
    assert (WX : wx = a * ex + k * ey). { rewrite <- Q4. unfold k. transitivity (wx * (ex * ex + ey * ey)); [rewrite EE; ring|ring]. }
    assert (WY : wy = a * ey - k * ex). { rewrite <- Q4. unfold k. transitivity (wy * (ex * ex + ey * ey)); [rewrite EE; ring|ring]. }
    apply Rmult_integral in KK as [K|K]; [left; replace h with k by lra|right; replace h with (- k) by lra]; apply vec2_ext; cbn [x2 y2]; unfold wx, wy in WX, WY; clearbody k; lra.
Qed.
(** duplicates are removed *)
Lemma circle_inters_dedup c1 c2 p q : get_circle_intersections c1 c2 = Ok [p; q] ->
  circle2_circle_intersections c1 c2 = Ok (if Rleb (point_distance2 q p) (/ 10 ^ 6) then [p] else [p; q]).
Proof.
  intros E. pose proof (pow10_inv_pos 6) as P6. unfold circle2_circle_intersections. rewrite E. cbn [bind fold_left]. f_equal.
  assert (A : in_list2 p [] (/ 10 ^ 6) = false) by reflexivity. rewrite A. cbn [app].
  destruct (Rleb (point_distance2 q p) (/ 10 ^ 6)) eqn:B; rb.
  - rewrite (proj2 (in_list2_spec q [p] (/ 10 ^ 6) ltac:(lra))); auto. exists p. split; [left; auto|lra].
  - destruct (in_list2 q [p] (/ 10 ^ 6)) eqn:C; auto. apply in_list2_spec in C; [|lra]. destruct C as (z & [<- |[]] & Z). lra.
Qed.
(** a small circle centred on a big one: the single returned point is the centre of the small circle, up to 1e-6 *)
Lemma circles_snapped_wrong : exists c1 c2 p, cr2 c1 = 1000 /\ cr2 c2 = 4 / 100 /\ orthonormal2 (fb2 (cf2 c1)) /\ orthonormal2 (fb2 (cf2 c2)) /\ circle2_circle_intersections c1 c2 = Ok [p] /\
  circle2_point_distance c2 p > 3 / 100 /\ exists q, on_circle2 c1 q /\ on_circle2 c2 q.
Proof.
  set (B := B2 (V2 1 0) (V2 0 1)). assert (OB : orthonormal2 B) by (unfold orthonormal2, B, dot2; cbn [u2 v2 x2 y2]; repeat split; lra).
  set (c1 := C2 (F2 (V2 0 0) B) 1000). set (c2 := C2 (F2 (V2 1000 0) B) (4 / 100)). set (a := 1000 - 8 / 10000000). pose proof (pow10_inv_pos 6) as P6.
  assert (DD : point_distance2 (center2 c1) (center2 c2) = 1000) by (unfold point_distance2; apply norm_r; unfold center2, c1, c2, sub2; cbn [cf2 org2 x2 y2]; lra).
  assert (G : get_circle_intersections c1 c2 = Ok [V2 a 0; V2 a 0]).
  { unfold get_circle_intersections. assert (F : is_close2 (center2 c1) (center2 c2) (/ 10 ^ 6) = false) by (destruct (is_close2 (center2 c1) (center2 c2) (/ 10 ^ 6)) eqn:F; auto; apply is_close2_spec in F; lra). rewrite F. cbv zeta. rewrite dist_eq, DD. change (cr2 c1) with 1000. change (cr2 c2) with (4 / 100). change (center2 c1) with (V2 0 0). change (center2 c2) with (V2 1000 0). cbn [x2 y2].
    rewrite (proj2 (Rltb_false _ _)) by lra. rewrite (proj2 (Rltb_false _ _)) by (rewrite Rabs_pos_eq; lra). rewrite (proj2 (Reqb_false 1000 0)) by lra. cbn [andb].
    replace ((1000 ^ 2 - (4 / 100) ^ 2 + 1000 ^ 2) / (2 * 1000)) with a by (unfold a; field). rewrite (proj2 (Rltb_spec _ _)) by (unfold a; rewrite Rabs_pos_eq; lra). cbn [bind]. do 3 (f_equal; try field). f_equal; field. }
  exists c1, c2, (V2 a 0). split; auto. split; auto. split; auto. split; auto. split; [|split].
  - rewrite (circle_inters_dedup _ _ _ _ G), (proj2 (Rleb_spec _ _)); auto. unfold point_distance2. replace (sub2 (V2 a 0) (V2 a 0)) with (V2 0 0) by (unfold sub2; cbn [x2 y2]; f_equal; ring). rewrite (proj2 (norm2_zero (V2 0 0)) eq_refl). lra.
  - unfold circle2_point_distance. assert (E : point_distance2 (V2 a 0) (center2 c2) = 8 / 10000000) by (unfold point_distance2; apply norm_r; unfold center2, c2, sub2, a; cbn [cf2 org2 x2 y2]; lra). rewrite E. change (cr2 c2) with (4 / 100). rewrite Rabs_left by lra. lra.
  - assert (HP : 0 <= 1000 * 1000 - a * a) by (unfold a; lra). exists (V2 a (sqrt (1000 * 1000 - a * a))). assert (S : sqrt (1000 * 1000 - a * a) * sqrt (1000 * 1000 - a * a) = 1000 * 1000 - a * a) by (apply sqrt_sqrt; auto). set (h := sqrt (1000 * 1000 - a * a)) in *. clearbody h. unfold on_circle2, point_distance2. split; apply norm_r; unfold c1, c2, center2, sub2; cbn [cf2 org2 x2 y2 cr2]; try lra. unfold a in *. lra.
Qed.
