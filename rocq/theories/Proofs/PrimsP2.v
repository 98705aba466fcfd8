From Coq Require Import Reals Lra Lia List Bool ZArith Psatz.
From Verif.Model Require Import Base Mesh RBase Vec Frame BBox Geometry Prims.
From Verif.Spec Require Import VecSpec FrameSpec BBoxSpec PrimsSpec.
From Verif.Proofs Require Import VecP LineP FrameP FrameP2 BBoxP PrimsP.
Import ListNotations.
Open Scope R_scope.

(** ** volume *)
Lemma volume_ok b : slantless (bframe b) -> block_volume b = parallelepiped (bframe b).
Proof.
  destruct b as [[o [u v w]]]. unfold slantless, block_volume, parallelepiped, norms. cbn [bframe fb3 bu bv bw]. intros (UV & UW & VW).
  apply Rsqr_inj.
  - repeat apply Rmult_le_pos; apply sqrt_pos.
  - apply Rabs_pos.
  - rewrite <- Rsqr_abs. unfold Rsqr. replace (norm3 u * norm3 v * norm3 w * (norm3 u * norm3 v * norm3 w)) with ((norm3 u * norm3 u) * (norm3 v * norm3 v) * (norm3 w * norm3 w)) by ring.
    rewrite !norm3_sq. transitivity (dot3 u u * dot3 v v * dot3 w w + 2 * dot3 u v * dot3 u w * dot3 v w - dot3 u u * dot3 v w ^ 2 - dot3 v v * dot3 u w ^ 2 - dot3 w w * dot3 u v ^ 2).
    + rewrite UV, UW, VW. ring.
    + destruct u as [u1 u2 u3], v as [v1 v2 v3], w as [w1 w2 w3]. unfold dot3, cross3. cbn [x3 y3 z3]. ring.
Qed.
Lemma norm3_axis a b c r : a * a + b * b + c * c = r * r -> 0 <= r -> norm3 (V3 a b c) = r.
Proof. intros E P. unfold norm3. cbn [x3 y3 z3]. rewrite E. apply sqrt_square, P. Qed.
Lemma slanted_witness : exists b, new_block (bframe b) = Ok b /\ parallelepiped (bframe b) = 3 /\ block_volume b = 5.
Proof.
  exists (Block (F3 O3D (B3 (V3 1 0 0) (V3 4 3 0) (V3 0 0 1)))). split; [|split].
  - cbn [bframe]. apply new_block_ok. unfold proper, O3D. cbn [fb3 bu bv bw]. repeat split; intros E; injection E; intros; lra.
  - unfold parallelepiped, dot3, cross3. cbn [bframe fb3 bu bv bw x3 y3 z3]. rewrite Rabs_right; lra.
  - unfold block_volume, norms. cbn [bframe fb3 bu bv bw]. rewrite (norm3_axis 1 0 0 1), (norm3_axis 4 3 0 5), (norm3_axis 0 0 1 1) by lra. ring.
Qed.
(** ** boxes *)
Lemma diag_point o a b c x y z : frame_point (F3 o (B3 (V3 a 0 0) (V3 0 b 0) (V3 0 0 c))) (V3 x y z) = V3 (x3 o + a * x) (y3 o + b * y) (z3 o + c * z).
Proof. unfold frame_point, basis_vector, add3, mul3. cbn [fb3 bu bv bw org3 x3 y3 z3]. f_equal; ring. Qed.
Lemma inside_1 a x o t : a <> 0 -> t = o + a * x -> within x -> - (Rabs a / 2) <= t - o <= Rabs a / 2.
Proof. unfold within. intros A -> (L & U). destruct (Rcase_abs a) as [N|P]; [rewrite (Rabs_left a N)|rewrite (Rabs_right a P)]; split; nra. Qed.
Lemma inside_2 a o t : a <> 0 -> - (Rabs a / 2) <= t - o <= Rabs a / 2 -> exists x, within x /\ t = o + a * x.
Proof.
  intros A (L & U). exists ((t - o) / a). split; [|field; auto]. unfold within.
  assert (E : a * ((t - o) / a) = t - o) by (field; auto). set (x := (t - o) / a) in *. clearbody x.
  destruct (Rcase_abs a) as [N|P]; [rewrite (Rabs_left a N) in *|rewrite (Rabs_right a P) in *]; split; nra.
Qed.
Lemma diag_in o a b c p : a <> 0 -> b <> 0 -> c <> 0 -> in_block (Block (F3 o (B3 (V3 a 0 0) (V3 0 b 0) (V3 0 0 c)))) p <->
  - (Rabs a / 2) <= x3 p - x3 o <= Rabs a / 2 /\ - (Rabs b / 2) <= y3 p - y3 o <= Rabs b / 2 /\ - (Rabs c / 2) <= z3 p - z3 o <= Rabs c / 2.
Proof.
  intros A B C. unfold in_block. cbn [bframe]. split.
  - intros (x & y & z & X & Y & Z & ->). rewrite diag_point. cbn [x3 y3 z3]. split; [|split]; eapply inside_1; eauto.
  - intros (X & Y & Z). apply (inside_2 _ _ _ A) in X as (x & X & EX). apply (inside_2 _ _ _ B) in Y as (y & Y & EY). apply (inside_2 _ _ _ C) in Z as (z & Z & EZ).
    exists x, y, z. repeat split; try apply X; try apply Y; try apply Z. rewrite diag_point. destruct p as [p1 p2 p3]. cbn [x3 y3 z3] in *. f_equal; assumption.
Qed.
Lemma axis_parallel_proper f : axis_parallel f -> proper f /\ slantless f.
Proof.
  intros (a & b & c & E & A & B & C). unfold proper, slantless. rewrite E. cbn [bu bv bw]. unfold O3D, dot3. cbn [x3 y3 z3].
  repeat split; try (intros K; injection K; congruence); ring.
Qed.
Lemma block_bbox_ok b : axis_parallel (bframe b) -> exists bb, block_bbox b = Ok bb /\ least_box (in_block b) bb.
Proof.
  intros (ua & vb & wc & E & A & B & C). destruct b as [[o fb]]. cbn [bframe fb3] in E. subst fb.
  unfold block_bbox. cbn [bframe fb3 bu bv bw org3 x3 y3 z3].
  set (p := sub3 o (V3 (ua / 2) (vb / 2) (wc / 2))). set (q := add3 o (V3 (ua / 2) (vb / 2) (wc / 2))).
  destruct (bbox_from_points [p; q]) as [bb|] eqn:EB; [|discriminate].
  exists bb. split; [reflexivity|]. pose proof (from_points_least _ _ EB) as (V & K & L).
  pose proof (K p (or_introl eq_refl)) as Kp. pose proof (K q (or_intror (or_introl eq_refl))) as Kq.
  split.
  - intros r Hr. apply (diag_in _ _ _ _ _ A B C) in Hr as (X & Y & Z). unfold in_box, p, q, sub3, add3 in *. cbn [x3 y3 z3] in *.
    split; [|split].
    + destruct (Rcase_abs ua) as [N|P]; [rewrite (Rabs_left ua N) in X|rewrite (Rabs_right ua P) in X]; lra.
    + destruct (Rcase_abs vb) as [N|P]; [rewrite (Rabs_left vb N) in Y|rewrite (Rabs_right vb P) in Y]; lra.
    + destruct (Rcase_abs wc) as [N|P]; [rewrite (Rabs_left wc N) in Z|rewrite (Rabs_right wc P) in Z]; lra.
  - intros c Hc. apply L. intros r [<-|[<-|[]]]; apply Hc; apply (diag_in _ _ _ _ _ A B C); unfold p, q, sub3, add3; cbn [x3 y3 z3].
    + pose proof (Rle_abs ua). pose proof (Rle_abs vb). pose proof (Rle_abs wc). pose proof (Rle_abs (- ua)). pose proof (Rle_abs (- vb)). pose proof (Rle_abs (- wc)).
      rewrite Rabs_Ropp in *. lra.
    + pose proof (Rle_abs ua). pose proof (Rle_abs vb). pose proof (Rle_abs wc). pose proof (Rle_abs (- ua)). pose proof (Rle_abs (- vb)). pose proof (Rle_abs (- wc)).
      rewrite Rabs_Ropp in *. lra.
Qed.
Lemma turned_witness : exists b bb p, new_block (bframe b) = Ok b /\ orthonormal (fb3 (bframe b)) /\ block_bbox b = Ok bb /\ In p (block_vertices b) /\ ~ in_box bb p.
Proof.
  set (b := Block (F3 O3D (B3 (V3 (3 / 5) (4 / 5) 0) (V3 (- (4 / 5)) (3 / 5) 0) (V3 0 0 1)))).
  destruct (block_bbox b) as [bb|] eqn:E; [|unfold block_bbox in E; discriminate].
  exists b, bb, (corner_at b (true, false, true)). split; [|split; [|split; [exact E|split]]].
  - cbn [b bframe]. apply new_block_ok. unfold proper, O3D. cbn [fb3 bu bv bw]. repeat split; intros K; injection K; intros; lra.
  - unfold orthonormal, b, dot3. cbn [bframe fb3 bu bv bw x3 y3 z3]. repeat split; field.
  - apply vertices_ok. eauto.
  - unfold block_bbox, b in E. cbn [bframe fb3 bu bv bw org3] in E. apply from_points_least in E as (_ & _ & L).
    assert (H : box_le bb (BBox (- (3 / 10)) (3 / 10) (- 1) 1 (- 1) 1)).
    { apply L. intros r [<-|[<-|[]]]; unfold in_box, sub3, add3, O3D; cbn [x3 y3 z3 xmin xmax ymin ymax zmin zmax]; lra. }
    unfold box_le in H. cbn [xmin xmax ymin ymax zmin zmax] in H.
    intros I0. unfold in_box, corner_at, sgn, b, frame_point, basis_vector, add3, mul3 in I0. cbn [bframe fb3 bu bv bw org3 x3 y3 z3 O3D] in I0. unfold O3D in I0; cbn [x3] in I0. lra.
Qed.
Lemma from_bbox_ok bb : xmin bb < xmax bb -> ymin bb < ymax bb -> zmin bb < zmax bb ->
  exists b, block_from_bbox bb = Ok b /\ (forall p, in_block b p <-> in_box bb p) /\ block_bbox b = Ok bb /\ block_volume b = bbox_volume bb.
Proof.
  destruct bb as [x0 x1 y0 y1 z0 z1]. cbn [xmin xmax ymin ymax zmin zmax]. intros X Y Z.
  exists (Block (bbox_to_frame (BBox x0 x1 y0 y1 z0 z1))). unfold bbox_to_frame, bbox_center. cbn [xmin xmax ymin ymax zmin zmax]. split; [|split; [|split]].
  - unfold block_from_bbox, bbox_to_frame, bbox_center. cbn [xmin xmax ymin ymax zmin zmax]. apply new_block_ok. unfold proper, O3D. cbn [fb3 bu bv bw]. repeat split; intros K; injection K; intros; lra.
  - intros p. rewrite diag_in by lra. rewrite (Rabs_right (x1 - x0)), (Rabs_right (y1 - y0)), (Rabs_right (z1 - z0)) by lra. unfold in_box. cbn [x3 y3 z3 xmin xmax ymin ymax zmin zmax]. split; lra.
  - unfold block_bbox, bbox_from_points, sub3, add3, lmin, lmax. cbn [bframe fb3 bu bv bw org3 x3 y3 z3 map fold_left].
    f_equal. f_equal; first [rewrite Rmin_left by lra | rewrite Rmax_right by lra]; field.
  - unfold block_volume, norms, bbox_volume. cbn [bframe fb3 bu bv bw xmin xmax ymin ymax zmin zmax].
    rewrite (norm3_axis (x1 - x0) 0 0 (x1 - x0)), (norm3_axis 0 (y1 - y0) 0 (y1 - y0)), (norm3_axis 0 0 (z1 - z0) (z1 - z0)) by (try ring; lra). reflexivity.
Qed.
Lemma from_flat_bbox bb : valid_box bb -> xmin bb = xmax bb \/ ymin bb = ymax bb \/ zmin bb = zmax bb -> block_from_bbox bb = Err ZeroDivisionError.
Proof.
  intros _ H. unfold block_from_bbox, new_block, shell_faces, frame3_normalize, bbox_to_frame. cbn [bframe fb3 bu bv bw org3].
  assert (K : forall u, u = V3 0 0 0 -> unit_vector3 u = Err ZeroDivisionError).
  { intros u ->. unfold unit_vector3. cbn zeta. replace (Reqb (norm3 (V3 0 0 0)) 0) with true; [reflexivity|]. symmetry. apply Reqb_spec, norm3_zero. reflexivity. }
  assert (T : forall u, (exists v, unit_vector3 u = Ok v) \/ unit_vector3 u = Err ZeroDivisionError).
  { intros u. unfold unit_vector3. cbn zeta. destruct (Reqb (norm3 u) 0); eauto. }
  destruct H as [H|[H|H]].
  - rewrite (K (V3 (xmax bb - xmin bb) 0 0)) by (f_equal; lra). reflexivity.
  - rewrite (K (V3 0 (ymax bb - ymin bb) 0)) by (f_equal; lra). destruct (T (V3 (xmax bb - xmin bb) 0 0)) as [(v & ->) | ->]; reflexivity.
  - rewrite (K (V3 0 0 (zmax bb - zmin bb))) by (f_equal; lra). destruct (T (V3 (xmax bb - xmin bb) 0 0)) as [(v & ->) | ->]; [|reflexivity].
    cbn [bind]. destruct (T (V3 0 (ymax bb - ymin bb) 0)) as [(v' & ->) | ->]; reflexivity.
Qed.
