From Coq Require Import Reals Lra Lia List Bool ZArith Psatz.
From Verif.Model Require Import Base Mesh RBase Vec Frame BBox Geometry Prims.
From Verif.Spec Require Import VecSpec FrameSpec BBoxSpec PrimsSpec.
From Verif.Proofs Require Import VecP LineP FrameP FrameP2 BBoxP PrimsP PrimsP2.
Import ListNotations.
Open Scope R_scope.

(** ** an orthonormal basis: the coordinates of a unit vector *)
Lemma cramer3 (r u v w : vec3) : let d := dot3 (cross3 u v) w in
  mul3 r d = add3 (add3 (mul3 (cross3 v w) (dot3 r u)) (mul3 (cross3 w u) (dot3 r v))) (mul3 (cross3 u v) (dot3 r w)).
Proof. destruct r as [r1 r2 r3], u as [u1 u2 u3], v as [v1 v2 v3], w as [w1 w2 w3]. unfold dot3, cross3, add3, mul3. cbn [x3 y3 z3]. f_equal; ring. Qed.
Lemma gram_one u v w : dot3 u u = 1 -> dot3 v v = 1 -> dot3 w w = 1 -> dot3 u v = 0 -> dot3 u w = 0 -> dot3 v w = 0 -> dot3 (cross3 u v) w <> 0.
Proof.
  intros UU VV WW UV UW VW Z.
  assert (E : dot3 (cross3 u v) w * dot3 (cross3 u v) w = dot3 u u * dot3 v v * dot3 w w + 2 * dot3 u v * dot3 u w * dot3 v w - dot3 u u * dot3 v w ^ 2 - dot3 v v * dot3 u w ^ 2 - dot3 w w * dot3 u v ^ 2).
  { destruct u as [u1 u2 u3], v as [v1 v2 v3], w as [w1 w2 w3]. unfold dot3, cross3. cbn [x3 y3 z3]. ring. }
  rewrite Z, UU, VV, WW, UV, UW, VW in E. lra.
Qed.
Lemma coordinates_norm b e : orthonormal b -> dot3 e (bu b) ^ 2 + dot3 e (bv b) ^ 2 + dot3 e (bw b) ^ 2 = dot3 e e.
Proof.
  destruct b as [u v w]. unfold orthonormal. cbn [bu bv bw]. intros (UU & VV & WW & UV & UW & VW).
  pose proof (gram_one _ _ _ UU VV WW UV UW VW) as D.
  set (r := sub3 e (add3 (add3 (mul3 u (dot3 e u)) (mul3 v (dot3 e v))) (mul3 w (dot3 e w)))).
  assert (L : forall x y, dot3 x y = dot3 y x) by (intros [? ? ?] [? ? ?]; unfold dot3; cbn; ring).
  assert (P : forall q a b' c t, dot3 (sub3 q (add3 (add3 (mul3 u a) (mul3 v b')) (mul3 w c))) t = dot3 q t - a * dot3 u t - b' * dot3 v t - c * dot3 w t).
  { clear. intros [q1 q2 q3] a b' c [t1 t2 t3]. destruct u as [u1 u2 u3], v as [v1 v2 v3], w as [w1 w2 w3]. unfold dot3, sub3, add3, mul3. cbn [x3 y3 z3]. ring. }
  assert (R1 : dot3 r u = 0) by (unfold r; rewrite P, UU, (L v u), (L w u), UV, UW; ring).
  assert (R2 : dot3 r v = 0) by (unfold r; rewrite P, VV, UV, (L w v), VW; ring).
  assert (R3 : dot3 r w = 0) by (unfold r; rewrite P, WW, UW, VW; ring).
  assert (R4 : dot3 r e = 0).
  { pose proof (cramer3 r u v w) as C. cbn zeta in C. rewrite R1, R2, R3 in C. apply (f_equal (fun t => dot3 t e)) in C.
    assert (M : dot3 (mul3 r (dot3 (cross3 u v) w)) e = dot3 (cross3 u v) w * dot3 r e).
    { generalize (dot3 (cross3 u v) w) as k. intros k. clear. clearbody r. destruct r as [r1 r2 r3], e as [e1 e2 e3]. unfold dot3, mul3. cbn [x3 y3 z3]. ring. }
    rewrite M in C. clear M. assert (Z : dot3 (cross3 u v) w * dot3 r e = 0).
    { rewrite C. clear. destruct e as [e1 e2 e3], u as [u1 u2 u3], v as [v1 v2 v3], w as [w1 w2 w3]. unfold dot3, add3, mul3, cross3. cbn [x3 y3 z3]. ring. }
    apply Rmult_integral in Z. tauto. }
  unfold r in R4. rewrite P in R4. rewrite (L u e), (L v e), (L w e) in R4. lra.
Qed.
Lemma row_x b : orthonormal b -> x3 (bu b) ^ 2 + x3 (bv b) ^ 2 + x3 (bw b) ^ 2 = 1.
Proof. intros H. pose proof (coordinates_norm b (V3 1 0 0) H) as E. unfold dot3 in E. cbn [x3 y3 z3] in E. lra. Qed.
Lemma row_y b : orthonormal b -> y3 (bu b) ^ 2 + y3 (bv b) ^ 2 + y3 (bw b) ^ 2 = 1.
Proof. intros H. pose proof (coordinates_norm b (V3 0 1 0) H) as E. unfold dot3 in E. cbn [x3 y3 z3] in E. lra. Qed.
Lemma row_z b : orthonormal b -> z3 (bu b) ^ 2 + z3 (bv b) ^ 2 + z3 (bw b) ^ 2 = 1.
Proof. intros H. pose proof (coordinates_norm b (V3 0 0 1) H) as E. unfold dot3 in E. cbn [x3 y3 z3] in E. lra. Qed.
(** ** the extent of a disc along one axis *)
Lemma disc_bound p q s x y r : 0 <= s -> 0 <= r -> p ^ 2 + q ^ 2 = s ^ 2 -> x ^ 2 + y ^ 2 <= r ^ 2 -> - (s * r) <= p * x + q * y <= s * r.
Proof.
  intros S0 R0 S1 R1.
  assert (H : (p * x + q * y) ^ 2 <= (s * r) ^ 2).
  { replace ((s * r) ^ 2) with (s ^ 2 * r ^ 2) by ring. rewrite <- S1. apply Rle_trans with ((p ^ 2 + q ^ 2) * (x ^ 2 + y ^ 2)).
    - assert (0 <= (p * y - q * x) ^ 2) by apply pow2_ge_0. lra.
    - apply Rmult_le_compat_l; [|auto]. pose proof (pow2_ge_0 p). pose proof (pow2_ge_0 q). lra. }
  assert (0 <= s * r) by (apply Rmult_le_pos; auto). split; nra.
Qed.
Lemma disc_reached p q s r : 0 <= s -> p ^ 2 + q ^ 2 = s ^ 2 -> exists x y, x ^ 2 + y ^ 2 = r ^ 2 /\ p * x + q * y = s * r.
Proof.
  intros S0 S1. destruct (Req_dec s 0) as [->|N].
  - exists r, 0. assert (p = 0) by nra. subst p. split; ring.
  - exists (p * r / s), (q * r / s). split.
    + replace ((p * r / s) ^ 2 + (q * r / s) ^ 2) with ((p ^ 2 + q ^ 2) * r ^ 2 / s ^ 2) by (field; auto). rewrite S1. field. auto.
    + replace (p * (p * r / s) + q * (q * r / s)) with ((p ^ 2 + q ^ 2) * r / s) by (field; auto). rewrite S1. field. auto.
Qed.
Definition extent w r l := Rabs w * (l / 2) + sqrt (1 - w ^ 2) * r.
Lemma side_sq u v w : u ^ 2 + v ^ 2 + w ^ 2 = 1 -> 0 <= sqrt (1 - w ^ 2) /\ u ^ 2 + v ^ 2 = sqrt (1 - w ^ 2) ^ 2.
Proof. intros E. split; [apply sqrt_pos|]. rewrite pow2_sqrt; [lra|]. pose proof (pow2_ge_0 u). pose proof (pow2_ge_0 v). lra. Qed.
Lemma height_bound w l z : - (l / 2) <= z <= l / 2 -> - (Rabs w * (l / 2)) <= w * z <= Rabs w * (l / 2).
Proof. intros (A & B). destruct (Rcase_abs w) as [N|P]; [rewrite (Rabs_left w N)|rewrite (Rabs_right w P)]; split; nra. Qed.
Lemma height_reached w l : 0 <= l -> exists z, - (l / 2) <= z <= l / 2 /\ w * z = Rabs w * (l / 2).
Proof. intros L. destruct (Rcase_abs w) as [N|P]; [rewrite (Rabs_left w N); exists (- (l / 2))|rewrite (Rabs_right w P); exists (l / 2)]; split; try lra. Qed.
Lemma extent_bound u v w r l x y z : u ^ 2 + v ^ 2 + w ^ 2 = 1 -> 0 <= r -> x ^ 2 + y ^ 2 <= r ^ 2 -> - (l / 2) <= z <= l / 2 ->
  - extent w r l <= u * x + v * y + w * z <= extent w r l.
Proof.
  intros E R0 R1 H. destruct (side_sq _ _ _ E) as [S0 S1]. pose proof (disc_bound _ _ _ _ _ _ S0 R0 S1 R1). pose proof (height_bound w l z H). unfold extent. lra.
Qed.
Lemma extent_reached u v w r l : u ^ 2 + v ^ 2 + w ^ 2 = 1 -> 0 <= l -> exists x y z, x ^ 2 + y ^ 2 = r ^ 2 /\ - (l / 2) <= z <= l / 2 /\ u * x + v * y + w * z = extent w r l.
Proof.
  intros E L. destruct (side_sq _ _ _ E) as [S0 S1]. destruct (disc_reached _ _ _ r S0 S1) as (x & y & XY & P). destruct (height_reached w l L) as (z & Z & Q).
  exists x, y, z. unfold extent. split; [auto|]. split; [auto|]. lra.
Qed.
(** ** the box of a cylinder *)
Lemma reach_value n d r k l : 0 < l -> d = l * l -> n = l * l * k -> reach n d r = Ok (sqrt k * r).
Proof.
  intros L -> ->. unfold reach. destruct (Reqb (l * l) 0) eqn:E; [apply Reqb_spec in E; nra|]. replace (l * l * k / (l * l)) with k by (field; lra). reflexivity.
Qed.
Definition extent_box o w r l := BBox (x3 o - extent (x3 w) r l) (x3 o + extent (x3 w) r l) (y3 o - extent (y3 w) r l) (y3 o + extent (y3 w) r l)
  (z3 o - extent (z3 w) r l) (z3 o + extent (z3 w) r l).
Lemma cylinder_bbox_value c : orthonormal (fb3 (cyf c)) -> 0 < cyl c -> cylinder_bbox c = Ok (extent_box (org3 (cyf c)) (axis c) (cyr c) (cyl c)).
Proof.
  destruct c as [[[o1 o2 o3] [u v [w1 w2 w3]]] r l]. unfold orthonormal, axis. cbn [cyf cyr cyl fb3 bw org3]. intros (_ & _ & WW & _) L. unfold dot3 in WW. cbn [x3 y3 z3 bw] in WW.
  unfold cylinder_bbox, point_a, point_b, axis, sub3, add3, mul3. cbn [cyf cyr cyl fb3 bw org3 x3 y3 z3].
  set (dx := (o1 - w1 * (l / 2) - (o1 + w1 * (l / 2))) ^ 2). set (dy := (o2 - w2 * (l / 2) - (o2 + w2 * (l / 2))) ^ 2). set (dz := (o3 - w3 * (l / 2) - (o3 + w3 * (l / 2))) ^ 2).
  assert (DX : dx = l * l * w1 ^ 2) by (unfold dx; field). assert (DY : dy = l * l * w2 ^ 2) by (unfold dy; field). assert (DZ : dz = l * l * w3 ^ 2) by (unfold dz; field). clearbody dx dy dz.
  assert (D : dx + dy + dz = l * l). { rewrite DX, DY, DZ. replace (l * l * w1 ^ 2 + l * l * w2 ^ 2 + l * l * w3 ^ 2) with (l * l * (w1 * w1 + w2 * w2 + w3 * w3)) by ring. rewrite WW. ring. }
  rewrite (reach_value (dy + dz) _ r (1 - w1 ^ 2) l L D), (reach_value (dx + dz) _ r (1 - w2 ^ 2) l L D), (reach_value (dx + dy) _ r (1 - w3 ^ 2) l L D).
  2:{ rewrite DX, DY. replace (1 - w3 ^ 2) with (w1 ^ 2 + w2 ^ 2) by lra. ring. }
  2:{ rewrite DX, DZ. replace (1 - w2 ^ 2) with (w1 ^ 2 + w3 ^ 2) by lra. ring. }
  2:{ rewrite DY, DZ. replace (1 - w1 ^ 2) with (w2 ^ 2 + w3 ^ 2) by lra. ring. }
  cbn [bind]. unfold extent_box, extent. cbn [x3 y3 z3].
  assert (HL : 0 < l / 2) by lra.
  assert (SW : forall (w o : R), (Rltb (o + w * (l / 2)) (o - w * (l / 2)) = true /\ Rabs w = - w) \/ (Rltb (o + w * (l / 2)) (o - w * (l / 2)) = false /\ Rabs w = w)).
  { intros w o. destruct (Rltb _ _) eqn:E; [apply Rltb_spec in E; left; split; [reflexivity|]; apply Rabs_left; nra|apply Rltb_false in E; right; split; [reflexivity|]; apply Rabs_right; nra]. }
  assert (SW' : forall (w o : R), (Rltb (o - w * (l / 2)) (o + w * (l / 2)) = true /\ Rabs w = w) \/ (Rltb (o - w * (l / 2)) (o + w * (l / 2)) = false /\ Rabs w = - w)).
  { intros w o. destruct (Rltb _ _) eqn:E; [apply Rltb_spec in E; left; split; [reflexivity|]; apply Rabs_right; nra|apply Rltb_false in E; right; split; [reflexivity|]; apply Rabs_left1; nra]. }
  destruct (SW w1 o1) as [[-> ->] | [-> ->]]; cbn [x3 y3 z3].
  - destruct (SW' w2 o2) as [[-> ->] | [-> ->]]; cbn [x3 y3 z3].
    + destruct (SW w3 o3) as [[-> ->] | [-> ->]]; cbn [x3 y3 z3]; do 2 f_equal; ring.
    + destruct (SW' w3 o3) as [[-> ->] | [-> ->]]; cbn [x3 y3 z3]; do 2 f_equal; ring.
  - destruct (SW w2 o2) as [[-> ->] | [-> ->]]; cbn [x3 y3 z3].
    + destruct (SW' w3 o3) as [[-> ->] | [-> ->]]; cbn [x3 y3 z3]; do 2 f_equal; ring.
    + destruct (SW w3 o3) as [[-> ->] | [-> ->]]; cbn [x3 y3 z3]; do 2 f_equal; ring.
Qed.
Lemma point_x f x y z : x3 (frame_point f (V3 x y z)) = x3 (org3 f) + (x3 (bu (fb3 f)) * x + x3 (bv (fb3 f)) * y + x3 (bw (fb3 f)) * z).
Proof. unfold frame_point, basis_vector, add3, mul3. cbn [x3 y3 z3]. ring. Qed.
Lemma point_y f x y z : y3 (frame_point f (V3 x y z)) = y3 (org3 f) + (y3 (bu (fb3 f)) * x + y3 (bv (fb3 f)) * y + y3 (bw (fb3 f)) * z).
Proof. unfold frame_point, basis_vector, add3, mul3. cbn [x3 y3 z3]. ring. Qed.
Lemma point_z f x y z : z3 (frame_point f (V3 x y z)) = z3 (org3 f) + (z3 (bu (fb3 f)) * x + z3 (bv (fb3 f)) * y + z3 (bw (fb3 f)) * z).
Proof. unfold frame_point, basis_vector, add3, mul3. cbn [x3 y3 z3]. ring. Qed.
Lemma opp_disc x y r : x ^ 2 + y ^ 2 = r ^ 2 -> (- x) ^ 2 + (- y) ^ 2 = r ^ 2.
Proof. intros <-. ring. Qed.
(** any set between the lateral surface and the solid has the same box *)
Lemma extent_least f r l (P : vec3 -> Prop) : orthonormal (fb3 f) -> 0 <= r -> 0 <= l ->
  (forall p, P p -> exists x y z, x ^ 2 + y ^ 2 <= r ^ 2 /\ - (l / 2) <= z <= l / 2 /\ p = frame_point f (V3 x y z)) ->
  (forall x y z, x ^ 2 + y ^ 2 = r ^ 2 -> - (l / 2) <= z <= l / 2 -> P (frame_point f (V3 x y z))) ->
  least_box P (extent_box (org3 f) (bw (fb3 f)) r l).
Proof.
  intros O R0 L H1 H2. pose proof (row_x _ O) as EX. pose proof (row_y _ O) as EY. pose proof (row_z _ O) as EZ. split.
  - intros p Hp. apply H1 in Hp as (x & y & z & XY & Z & ->). unfold in_box, extent_box. cbn [xmin xmax ymin ymax zmin zmax]. rewrite point_x, point_y, point_z.
    pose proof (extent_bound _ _ _ r l x y z EX R0 XY Z). pose proof (extent_bound _ _ _ r l x y z EY R0 XY Z). pose proof (extent_bound _ _ _ r l x y z EZ R0 XY Z). lra.
  - intros c Hc. unfold box_le, extent_box. cbn [xmin xmax ymin ymax zmin zmax].
    destruct (extent_reached _ _ _ r l EX L) as (x & y & z & XY & Z & Q).
    destruct (Hc _ (H2 x y z XY Z)) as (B1 & _). destruct (Hc _ (H2 (- x) (- y) (- z) (opp_disc _ _ _ XY) ltac:(lra))) as (B1' & _). rewrite point_x in B1, B1'.
    destruct (extent_reached _ _ _ r l EY L) as (x' & y' & z' & XY' & Z' & Q').
    destruct (Hc _ (H2 x' y' z' XY' Z')) as (_ & B2 & _). destruct (Hc _ (H2 (- x') (- y') (- z') (opp_disc _ _ _ XY') ltac:(lra))) as (_ & B2' & _). rewrite point_y in B2, B2'.
    destruct (extent_reached _ _ _ r l EZ L) as (x'' & y'' & z'' & XY'' & Z'' & Q'').
    destruct (Hc _ (H2 x'' y'' z'' XY'' Z'')) as (_ & _ & B3). destruct (Hc _ (H2 (- x'') (- y'') (- z'') (opp_disc _ _ _ XY'') ltac:(lra))) as (_ & _ & B3'). rewrite point_z in B3, B3'.
    repeat split; lra.
Qed.
Lemma cylinder_box_ok c : orthonormal (fb3 (cyf c)) -> 0 <= cyr c -> 0 < cyl c -> exists bb, cylinder_bbox c = Ok bb /\ least_box (in_cylinder c) bb.
Proof.
  intros O R0 L. eexists. split; [apply cylinder_bbox_value; auto|]. apply extent_least; auto; [lra|].
  intros x y z XY Z. exists x, y, z. repeat split; try apply Z; auto. lra.
Qed.
Lemma hollow_box_ok h : orthonormal (fb3 (hof h)) -> 0 <= inner h <= outer h -> 0 < hol h -> exists bb, hollow_bbox h = Ok bb /\ least_box (in_hollow h) bb.
Proof.
  intros O (I0 & I1) L. eexists. split; [apply cylinder_bbox_value; auto|]. cbn [cyf cyr cyl axis]. unfold axis; cbn [cyf]. apply extent_least; auto; try lra.
  - intros p (x & y & z & XY & Z & ->). exists x, y, z. repeat split; try apply Z; try apply XY.
  - intros x y z XY Z. exists x, y, z. rewrite XY. repeat split; try apply Z; [|lra]. apply pow_incr. lra.
Qed.
Lemma null_cylinder_box c : cyl c = 0 -> cylinder_bbox c = Err ZeroDivisionError.
Proof.
  intros L. unfold cylinder_bbox, point_a, point_b. rewrite L. destruct (Rltb _ _); unfold reach; unfold sub3, add3, mul3; cbn [x3 y3 z3].
  all: replace (_ ^ 2 + _ ^ 2 + _ ^ 2) with 0 by field; replace (Reqb 0 0) with true by (symmetry; apply Reqb_spec; reflexivity); reflexivity.
Qed.
(** ** the box of a cone *)
Lemma lmin3 a b c : min3 a b c = Rmin (Rmin a b) c. Proof. reflexivity. Qed.
Lemma lmax3 a b c : max3 a b c = Rmax (Rmax a b) c. Proof. reflexivity. Qed.
Definition cone_lo w r l := Rmin (- (w * (l / 2)) - sqrt (1 - w ^ 2) * r) (w * (l / 2)).
Definition cone_hi w r l := Rmax (- (w * (l / 2)) + sqrt (1 - w ^ 2) * r) (w * (l / 2)).
Lemma cone_bbox_value c : orthonormal (fb3 (cyf c)) -> 0 < cyl c -> 0 <= cyr c -> let o := org3 (cyf c) in let w := axis c in let r := cyr c in let l := cyl c in
  cone_bbox c = Ok (BBox (x3 o + cone_lo (x3 w) r l) (x3 o + cone_hi (x3 w) r l) (y3 o + cone_lo (y3 w) r l) (y3 o + cone_hi (y3 w) r l) (z3 o + cone_lo (z3 w) r l) (z3 o + cone_hi (z3 w) r l)).
Proof.
  destruct c as [[[o1 o2 o3] [u v [w1 w2 w3]]] r l]. unfold orthonormal, axis. cbn [cyf cyr cyl fb3 bw org3]. intros (_ & _ & WW & _) L R0. unfold dot3 in WW. cbn [x3 y3 z3 bw] in *. cbn zeta.
  unfold cone_bbox, point_a, point_b, axis, sub3, add3, mul3. cbn [cyf cyr cyl fb3 bw org3 x3 y3 z3].
  set (dx := (o1 - w1 * (l / 2) - (o1 + w1 * (l / 2))) ^ 2). set (dy := (o2 - w2 * (l / 2) - (o2 + w2 * (l / 2))) ^ 2). set (dz := (o3 - w3 * (l / 2) - (o3 + w3 * (l / 2))) ^ 2).
  assert (DX : dx = l * l * w1 ^ 2) by (unfold dx; field). assert (DY : dy = l * l * w2 ^ 2) by (unfold dy; field). assert (DZ : dz = l * l * w3 ^ 2) by (unfold dz; field). clearbody dx dy dz.
  assert (D : dx + dy + dz = l * l). { rewrite DX, DY, DZ. replace (l * l * w1 ^ 2 + l * l * w2 ^ 2 + l * l * w3 ^ 2) with (l * l * (w1 * w1 + w2 * w2 + w3 * w3)) by ring. rewrite WW. ring. }
  rewrite (reach_value (dy + dz) _ r (1 - w1 ^ 2) l L D), (reach_value (dx + dz) _ r (1 - w2 ^ 2) l L D), (reach_value (dx + dy) _ r (1 - w3 ^ 2) l L D).
  2:{ rewrite DX, DY. replace (1 - w3 ^ 2) with (w1 ^ 2 + w2 ^ 2) by lra. ring. }
  2:{ rewrite DX, DZ. replace (1 - w2 ^ 2) with (w1 ^ 2 + w3 ^ 2) by lra. ring. }
  2:{ rewrite DY, DZ. replace (1 - w1 ^ 2) with (w2 ^ 2 + w3 ^ 2) by lra. ring. }
  cbn [bind]. rewrite !lmin3, !lmax3. f_equal.
  assert (K : forall o w, Rmin (Rmin (o - w * (l / 2) - sqrt (1 - w ^ 2) * r) (o - w * (l / 2) + sqrt (1 - w ^ 2) * r)) (o + w * (l / 2)) = o + cone_lo w r l /\
                          Rmax (Rmax (o - w * (l / 2) - sqrt (1 - w ^ 2) * r) (o - w * (l / 2) + sqrt (1 - w ^ 2) * r)) (o + w * (l / 2)) = o + cone_hi w r l).
  { intros o w. assert (P : 0 <= sqrt (1 - w ^ 2) * r) by (apply Rmult_le_pos; [apply sqrt_pos|auto]). unfold cone_lo, cone_hi. set (k := sqrt (1 - w ^ 2) * r) in *. clearbody k. set (m := w * (l / 2)). clearbody m.
    unfold Rmin, Rmax. repeat destruct (Rle_dec _ _); lra. }
  destruct (K o1 w1) as [-> ->]. destruct (K o2 w2) as [-> ->]. destruct (K o3 w3) as [-> ->]. reflexivity.
Qed.
Lemma cone_axis_bound u v w r l x y t : u ^ 2 + v ^ 2 + w ^ 2 = 1 -> 0 <= r -> 0 <= t <= 1 -> x ^ 2 + y ^ 2 <= ((1 - t) * r) ^ 2 ->
  cone_lo w r l <= u * x + v * y + w * ((t - 1 / 2) * l) <= cone_hi w r l.
Proof.
  intros E R0 T XY. destruct (side_sq _ _ _ E) as [S0 S1]. assert (P : 0 <= (1 - t) * r) by nra. pose proof (disc_bound _ _ _ _ _ _ S0 P S1 XY) as B. unfold cone_lo, cone_hi.
  set (s := sqrt (1 - w ^ 2)) in *. clearbody s. set (d := u * x + v * y) in *. clearbody d. set (m := w * (l / 2)).
  assert (EM : w * ((t - 1 / 2) * l) = (1 - t) * - m + t * m) by (unfold m; field). rewrite EM. clearbody m.
  replace (s * ((1 - t) * r)) with ((1 - t) * (s * r)) in B by ring. set (k := s * r) in *. clearbody k.
  pose proof (Rmin_l (- m - k) m). pose proof (Rmin_r (- m - k) m). pose proof (Rmax_l (- m + k) m). pose proof (Rmax_r (- m + k) m).
  split.
  - apply Rle_trans with ((1 - t) * (- m - k) + t * m); [|lra]. apply Rle_trans with ((1 - t) * Rmin (- m - k) m + t * Rmin (- m - k) m); [lra|]. apply Rplus_le_compat; apply Rmult_le_compat_l; lra.
  - apply Rle_trans with ((1 - t) * (- m + k) + t * m); [lra|]. apply Rle_trans with ((1 - t) * Rmax (- m + k) m + t * Rmax (- m + k) m); [|lra]. apply Rplus_le_compat; apply Rmult_le_compat_l; lra.
Qed.
Lemma cone_axis_reached u v w r l : u ^ 2 + v ^ 2 + w ^ 2 = 1 -> 
  (exists x y t, 0 <= t <= 1 /\ x ^ 2 + y ^ 2 <= ((1 - t) * r) ^ 2 /\ u * x + v * y + w * ((t - 1 / 2) * l) = cone_hi w r l) /\
  (exists x y t, 0 <= t <= 1 /\ x ^ 2 + y ^ 2 <= ((1 - t) * r) ^ 2 /\ u * x + v * y + w * ((t - 1 / 2) * l) = cone_lo w r l).
Proof.
  intros E. destruct (side_sq _ _ _ E) as [S0 S1]. destruct (disc_reached _ _ _ r S0 S1) as (x & y & XY & P). unfold cone_hi, cone_lo. split.
  - unfold Rmax. destruct (Rle_dec _ _).
    + exists 0, 0, 1. split; [lra|]. split; [apply Req_le; ring|]. field.
    + exists x, y, 0. split; [lra|]. split; [rewrite XY; apply Req_le; ring|]. rewrite P. field.
  - unfold Rmin. destruct (Rle_dec _ _).
    + exists (- x), (- y), 0. split; [lra|]. split; [rewrite (opp_disc _ _ _ XY); apply Req_le; ring|]. replace (u * - x + v * - y) with (- (u * x + v * y)) by ring. rewrite P. field.
    + exists 0, 0, 1. split; [lra|]. split; [apply Req_le; ring|]. field.
Qed.
Lemma cone_box_ok c : orthonormal (fb3 (cyf c)) -> 0 <= cyr c -> 0 < cyl c -> exists bb, cone_bbox c = Ok bb /\ least_box (in_cone c) bb.
Proof.
  intros O R0 L. eexists. split; [apply cone_bbox_value; auto|]. pose proof (row_x _ O) as EX. pose proof (row_y _ O) as EY. pose proof (row_z _ O) as EZ. split.
  - intros p (x & y & t & T & XY & ->). unfold in_box. cbn [xmin xmax ymin ymax zmin zmax]. rewrite point_x, point_y, point_z. unfold axis.
    pose proof (cone_axis_bound _ _ _ (cyr c) (cyl c) x y t EX R0 T XY). pose proof (cone_axis_bound _ _ _ (cyr c) (cyl c) x y t EY R0 T XY). pose proof (cone_axis_bound _ _ _ (cyr c) (cyl c) x y t EZ R0 T XY). lra.
  - intros b Hb. unfold box_le. cbn [xmin xmax ymin ymax zmin zmax]. unfold axis.
    assert (IN : forall x y t, 0 <= t <= 1 -> x ^ 2 + y ^ 2 <= ((1 - t) * cyr c) ^ 2 -> in_box b (frame_point (cyf c) (V3 x y ((t - 1 / 2) * cyl c)))) by (intros x y t T XY; apply Hb; exists x, y, t; auto).
    destruct (cone_axis_reached _ _ _ (cyr c) (cyl c) EX) as [(xa & ya & ta & Ta & XYa & Qa) (xa' & ya' & ta' & Ta' & XYa' & Qa')].
    destruct (IN _ _ _ Ta XYa) as (Ba & _). destruct (IN _ _ _ Ta' XYa') as (Ba' & _). rewrite point_x in Ba, Ba'.
    destruct (cone_axis_reached _ _ _ (cyr c) (cyl c) EY) as [(xb & yb & tb & Tb & XYb & Qb) (xb' & yb' & tb' & Tb' & XYb' & Qb')].
    destruct (IN _ _ _ Tb XYb) as (_ & Bb & _). destruct (IN _ _ _ Tb' XYb') as (_ & Bb' & _). rewrite point_y in Bb, Bb'.
    destruct (cone_axis_reached _ _ _ (cyr c) (cyl c) EZ) as [(xc & yc & tc & Tc & XYc & Qc) (xc' & yc' & tc' & Tc' & XYc' & Qc')].
    destruct (IN _ _ _ Tc XYc) as (_ & _ & Bc). destruct (IN _ _ _ Tc' XYc') as (_ & _ & Bc'). rewrite point_z in Bc, Bc'.
    repeat split; lra.
Qed.
