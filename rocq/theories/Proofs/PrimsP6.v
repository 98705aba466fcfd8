From Coq Require Import Reals Lra Lia List Bool ZArith Psatz.
From Verif.Model Require Import Base Mesh RBase Vec Frame BBox Geometry Prims.
From Verif.Spec Require Import VecSpec FrameSpec BBoxSpec PrimsSpec.
From Verif.Proofs Require Import VecP LineP FrameP FrameP2 BBoxP ParamSurfP ParamSurfP4 ParamSurfP6 PrimsP PrimsP2 PrimsP4 PrimsP5.
Import ListNotations.
Open Scope R_scope.

Lemma unit_normal_ok w : dot3 w w = 1 -> exists u, deterministic_unit_normal_vector w = Ok u /\ dot3 u u = 1 /\ dot3 u w = 0.
Proof.
  intros W. assert (N : norm3 w = 1) by (apply dot3_1; auto).
  destruct (det_normal_exists w) as (v & E & P & NZ). { rewrite N. rewrite <- Rinv_1. apply Rinv_lt_contravar; [rewrite Rmult_1_l; apply pow_lt; lra|apply Rlt_pow_R1; [lra|lia]]. }
  unfold deterministic_unit_normal_vector. rewrite E. cbn [bind]. destruct (unit_vector3 v) as [u|] eqn:EU; [|apply unit3_err in EU; tauto].
  exists u. split; [reflexivity|]. pose proof (unit3_spec _ _ EU) as (U1 & U2 & U3). split; [apply norm3_1; auto|].
  apply unit3_ok in EU as (_ & ->). replace (dot3 (mul3 v (/ norm3 v)) w) with (/ norm3 v * dot3 v w) by (unfold dot3, mul3; cbn [x3 y3 z3]; ring). rewrite P. ring.
Qed.
Lemma normal_direct u w : dot3 u u = 1 -> dot3 w w = 1 -> dot3 u w = 0 -> direct (B3 u (cross3 w u) w).
Proof.
  intros UU WW UW. unfold direct, orthonormal. cbn [bu bv bw].
  assert (VV : dot3 (cross3 w u) (cross3 w u) = dot3 u u * dot3 w w - dot3 u w ^ 2) by (destruct u as [u1 u2 u3], w as [w1 w2 w3]; unfold dot3, cross3; cbn [x3 y3 z3]; ring).
  repeat split; auto.
  - rewrite VV, UU, WW, UW. ring.
  - clear. destruct u as [u1 u2 u3], w as [w1 w2 w3]; unfold dot3, cross3; cbn [x3 y3 z3]; ring.
  - clear. destruct u as [u1 u2 u3], w as [w1 w2 w3]; unfold dot3, cross3; cbn [x3 y3 z3]; ring.
  - transitivity (sub3 (mul3 w (dot3 u u)) (mul3 u (dot3 u w))).
    + clear. destruct u as [u1 u2 u3], w as [w1 w2 w3]; unfold dot3, cross3, sub3, mul3; cbn [x3 y3 z3]; f_equal; ring.
    + rewrite UU, UW. clear. destruct u as [u1 u2 u3], w as [w1 w2 w3]; unfold sub3, mul3; cbn [x3 y3 z3]; f_equal; ring.
Qed.
Lemma end_points_ok p q r : p <> q -> exists c, from_end_points p q r = Ok c /\ direct (fb3 (cyf c)) /\ cyr c = r /\ cyl c = point_distance3 p q /\ 0 < cyl c /\
  frame_point (cyf c) (V3 0 0 (- (cyl c / 2))) = p /\ frame_point (cyf c) (V3 0 0 (cyl c / 2)) = q.
Proof.
  intros N. unfold from_end_points. destruct (unit_vector3 (sub3 q p)) as [w|] eqn:E.
  2:{ apply unit3_err in E as (E & _). exfalso. apply N. destruct p as [p1 p2 p3], q as [q1 q2 q3]. unfold sub3 in E. cbn [x3 y3 z3] in E. injection E as E1 E2 E3. f_equal; lra. }
  cbn [bind]. apply unit3_spec in E as (W1 & W2 & W3). apply norm3_1 in W1. destruct (unit_normal_ok w W1) as (u & EU & UU & UW). rewrite EU. cbn [bind].
  eexists. split; [reflexivity|]. cbn [cyf cyr cyl fb3].
  assert (LE : point_distance3 p q = norm3 (sub3 q p)) by (rewrite dist3_sym; reflexivity).
  rewrite LE. set (n := norm3 (sub3 q p)) in *. clearbody n.
  split; [apply normal_direct; auto|]. split; [reflexivity|]. split; [reflexivity|]. split; [exact W3|].
  unfold mul3, sub3 in W2. assert (E1 := f_equal x3 W2). assert (E2 := f_equal y3 W2). assert (E3 := f_equal z3 W2). cbn [x3 y3 z3] in E1, E2, E3.
  unfold frame_point, basis_vector, add3, mul3. cbn [fb3 org3 bu bv bw x3 y3 z3]. split; apply vec3_ext; cbn [x3 y3 z3]; lra.
Qed.
Lemma end_points_err p r : from_end_points p p r = Err ZeroDivisionError.
Proof.
  unfold from_end_points. destruct (unit_vector3 (sub3 p p)) as [w|] eqn:E; [|apply unit3_err in E as (_ & ->); reflexivity].
  exfalso. apply unit3_ok in E as (E & _). apply E. unfold sub3. f_equal; ring.
Qed.
Lemma center_axis_unit o a r l : dot3 a a = 1 -> exists c, from_center_and_axis o a r l = Ok c /\ direct (fb3 (cyf c)) /\ org3 (cyf c) = o /\ axis c = a /\ cyr c = r /\ cyl c = l.
Proof.
  intros A. destruct (unit_normal_ok a A) as (u & EU & UU & UW). unfold from_center_and_axis. rewrite EU. cbn [bind]. eexists. split; [reflexivity|].
  cbn [cyf cyr cyl fb3 org3 axis bw]. split; [apply normal_direct; auto|auto].
Qed.
(** an axis of length 2 doubles the length *)
Lemma long_axis : exists c bb, from_center_and_axis O3D (V3 0 0 2) 1 1 = Ok c /\ cyl c = 1 /\ cylinder_volume c = PI /\ cylinder_bbox c = Ok bb /\ zmax bb - zmin bb = 2 /\
  in_box bb (V3 0 0 1) /\ cylinder_point_belongs c (V3 0 0 1) = Ok false.
Proof.
  assert (E10 : / 10 ^ 7 < 2). { apply Rlt_trans with 1; [rewrite <- Rinv_1; apply Rinv_lt_contravar; [rewrite Rmult_1_l; apply pow_lt; lra|apply Rlt_pow_R1; [lra|lia]]|lra]. }
  assert (N2 : norm3 (V3 0 0 2) = 2) by (apply norm3_axis; lra).
  assert (N1 : norm3 (V3 1 0 0) = 1) by (apply norm3_axis; lra).
  assert (U : deterministic_unit_normal_vector (V3 0 0 2) = Ok (V3 1 0 0)).
  { unfold deterministic_unit_normal_vector, deterministic_normal_vector. cbn [x3 y3 z3].
    assert (IC : isclose 2 0 (/ 10 ^ 7) = false).
    { apply isclose_0_false; [apply Rlt_le, pow10_inv_pos|]. rewrite Rabs_right; lra. }
    rewrite IC. rewrite orb_true_r. unfold div3. rewrite N2. replace (Reqb (2 ^ 2) 0) with false by (symmetry; apply Reqb_false; lra). cbn [bind].
    unfold X3D, sub3, mul3, dot3. cbn [x3 y3 z3]. replace (V3 _ _ _) with (V3 1 0 0) by (f_equal; field). unfold unit_vector3. rewrite N1. cbn zeta.
    replace (Reqb 1 0) with false by (symmetry; apply Reqb_false; lra). cbn [x3 y3 z3]. f_equal. f_equal; field. }
  assert (S0 : sqrt 0 = 0) by apply sqrt_0. assert (S1 : sqrt 1 = 1) by apply sqrt_1.
  exists (Cyl (F3 O3D (B3 (V3 1 0 0) (V3 0 2 0) (V3 0 0 2))) 1 1), (BBox (-1) 1 (-1) 1 (-1) 1).
  split; [|split; [reflexivity|split; [unfold cylinder_volume; cbn [cyl cyr]; ring|]]].
  { unfold from_center_and_axis. rewrite U. cbn [bind]. do 2 f_equal. unfold cross3. cbn [x3 y3 z3]. do 2 f_equal. f_equal; ring. }
  split; [|split; [|split]].
  - unfold cylinder_bbox, point_a, point_b, axis, sub3, add3, mul3, O3D. cbn [cyf cyr cyl fb3 bw org3 x3 y3 z3].
    rewrite !(fun o => proj2 (Rltb_false (o + 0 * (1 / 2)) (o - 0 * (1 / 2))) ltac:(lra)). cbn [x3 y3 z3].
    rewrite (reach_value _ _ 1 1 2), (reach_value _ _ 1 0 2) by (try lra; field). cbn [bind].
    rewrite (proj2 (Rltb_false (0 + 0 * (1 / 2)) (0 - 0 * (1 / 2))) ltac:(lra)). cbn [x3 y3 z3].
    rewrite (proj2 (Rltb_false (0 + 2 * (1 / 2)) (0 - 2 * (1 / 2))) ltac:(lra)). cbn [x3 y3 z3]. rewrite S0, S1. do 2 f_equal; field.
  - cbn [zmax zmin]. ring.
  - unfold in_box. cbn [xmin xmax ymin ymax zmin zmax x3 y3 z3]. lra.
  - unfold cylinder_point_belongs, local_frame. cbn [cyf org3 axis fb3 bw]. unfold axis. cbn [cyf fb3 bw].
    unfold from_point_and_vector. rewrite (proj2 (vec3_eqb_spec Z3D Z3D) eq_refl). rewrite orb_true_r. cbn [negb].
    unfold unit_vector3. rewrite N2. cbn zeta. replace (Reqb 2 0) with false by (symmetry; apply Reqb_false; lra). cbn [bind x3 y3 z3].
    replace (V3 (0 / 2) (0 / 2) (2 / 2)) with Z3D by (unfold Z3D; f_equal; field). rewrite (proj2 (vec3_eqb_spec Z3D Z3D) eq_refl). cbn [bind].
    assert (D : direct (B3 X3D Y3D Z3D)). { unfold direct, orthonormal, X3D, Y3D, Z3D, dot3, cross3. cbn [bu bv bw x3 y3 z3]. repeat split; try ring. f_equal; ring. }
    rewrite g2l_coords by exact D. cbn [bind]. unfold snap3, coords. cbn [x3 y3 z3 fb3 bu bv bw org3 cyr cyl].
    replace (dot3 (sub3 (V3 0 0 1) O3D) Z3D) with 1 by (unfold dot3, sub3, O3D, Z3D; cbn [x3 y3 z3]; ring).
    rewrite (snap_exact 1). 2:{ right. rewrite Rabs_R1. unfold eps. apply ParamSurfP6.pow10_le1. }
    rewrite (proj2 (Rleb_false 1 (1 / 2))) by lra. rewrite andb_false_r, andb_false_r. reflexivity.
Qed.
(** ** interference of two cylinders *)
Lemma mapM_all {A B} (f : A -> res B) (P : A -> Prop) (Q : B -> Prop) l : (forall x, P x -> exists y, f x = Ok y /\ Q y) -> (forall x, In x l -> P x) ->
  exists r, mapM f l = Ok r /\ length r = length l /\ forall y, In y r -> Q y.
Proof.
  intros H. induction l as [|x l IH]; intros HP; [exists []; cbn; repeat split; intros; contradiction|].
  destruct (H x (HP x (or_introl eq_refl))) as (y & E & Qy). destruct IH as (r & Er & Lr & Qr); [intros; apply HP; now right|].
  exists (y :: r). cbn [mapM]. rewrite E. cbn [bind]. rewrite Er. cbn [bind length]. split; [reflexivity|]. split; [lia|]. intros z [<-|Hz]; auto.
Qed.
Lemma smaller_volume c d : cylinder_volume (smaller c d) = Rmin (cylinder_volume c) (cylinder_volume d).
Proof. unfold smaller. destruct (Rltb _ _) eqn:E; rb; [rewrite Rmin_left; lra|rewrite Rmin_right; lra]. Qed.
Lemma filter_id_length l : (length (filter (fun x : bool => x) l) <= length l)%nat.
Proof. induction l as [|[] l IH]; cbn [filter length]; lia. Qed.
Lemma filter_id_all l : (forall x, In x l -> x = true) -> filter (fun x : bool => x) l = l.
Proof. induction l as [|x l IH]; intros H; [reflexivity|]. cbn [filter]. rewrite (H x) by now left. rewrite IH by (intros; apply H; now right). reflexivity. Qed.
Lemma filter_id_none l : (forall x, In x l -> x = false) -> filter (fun x : bool => x) l = [].
Proof. induction l as [|x l IH]; intros H; [reflexivity|]. cbn [filter]. rewrite (H x) by now left. rewrite IH by (intros; apply H; now right). reflexivity. Qed.
Lemma cylinder_volume_pos c : 0 <= cyl c -> 0 <= cylinder_volume c.
Proof. intros L. unfold cylinder_volume. apply Rmult_le_pos; [apply Rmult_le_pos; [auto|apply Rlt_le, PI_RGT_0]|apply pow2_ge_0]. Qed.
Lemma interference_ok c d draws : orthonormal (fb3 (cyf c)) -> orthonormal (fb3 (cyf d)) -> 0 <= cyr c -> 0 <= cyr d -> 0 <= cyl c -> 0 <= cyl d ->
  draws <> [] -> (forall x, In x draws -> fair_draw (smaller c d) x) ->
  exists v, interference_volume c d draws = Ok v /\ 0 <= v <= Rmin (cylinder_volume c) (cylinder_volume d) /\
    ((forall p, in_cylinder (grown (smaller c d) (2 * eps)) p -> ~ in_cylinder (grown (larger c d) (2 * eps)) p) -> v = 0) /\
    ((forall p, in_cylinder (grown (smaller c d) (2 * eps)) p -> in_cylinder (larger c d) p) -> v = Rmin (cylinder_volume c) (cylinder_volume d)).
Proof.
  intros OC OD RC RD LC LD NE FD.
  assert (HS : orthonormal (fb3 (cyf (smaller c d))) /\ 0 <= cyr (smaller c d) /\ 0 <= cyl (smaller c d)) by (unfold smaller; destruct (Rltb _ _); auto).
  assert (HL : orthonormal (fb3 (cyf (larger c d))) /\ 0 <= cyr (larger c d) /\ 0 <= cyl (larger c d)) by (unfold larger; destruct (Rltb _ _); auto).
  rewrite <- smaller_volume. set (s := smaller c d) in *. set (o := larger c d) in *.
  unfold interference_volume. replace (if Rltb (cylinder_volume c) (cylinder_volume d) then (c, d) else (d, c)) with (s, o) by (unfold s, o, smaller, larger; destruct (Rltb _ _); reflexivity).
  destruct HS as (OS & RS & LS), HL as (OL & RL & LL). clearbody s o.
  destruct (mapM_all (sampled_point s) (fair_draw s) (in_cylinder (grown s (2 * eps))) draws) as (ps & EP & LP & QP); [intros x Hx; apply sampled_ok; auto|auto|].
  rewrite EP. cbn [bind].
  destruct (mapM_all (cylinder_point_belongs o) (in_cylinder (grown s (2 * eps))) (fun b => exists p, in_cylinder (grown s (2 * eps)) p /\ (in_cylinder o p -> b = true) /\ (b = true -> in_cylinder (grown o (2 * eps)) p)) ps) as (bs & EB & LB & QB); [|auto|].
  { intros p Hp. destruct (belongs_spec o p OL RL LL) as (a & A & B & C). exists a. split; [auto|]. exists p. auto. }
  rewrite EB. cbn [bind]. destruct draws as [|x l]; [congruence|]. cbn [length Nat.eqb]. set (n := S (length l)) in *. assert (PN : 0 < INR n) by (apply lt_0_INR; unfold n; lia).
  eexists. split; [reflexivity|]. pose proof (cylinder_volume_pos s LS) as V.
  assert (LF : INR (length (filter (fun x => x) bs)) <= INR n). { apply le_INR. pose proof (filter_id_length bs). cbn [length] in LP. unfold n. lia. }
  split; [|split].
  - assert (Q0 : 0 <= INR (length (filter (fun x => x) bs)) / INR n) by (apply Rmult_le_pos; [apply pos_INR|apply Rlt_le, Rinv_0_lt_compat; auto]).
    assert (Q1 : INR (length (filter (fun x => x) bs)) / INR n <= 1) by (apply (Rmult_le_reg_r (INR n)); [auto|]; unfold Rdiv; rewrite Rmult_assoc, Rinv_l by lra; lra).
    split; [apply Rmult_le_pos; auto|]. apply Rle_trans with (1 * cylinder_volume s); [apply Rmult_le_compat_r; auto|lra].
  - intros DJ. rewrite filter_id_none; [cbn [length INR]; unfold Rdiv; ring|]. intros b Hb. apply QB in Hb as (p & P1 & _ & P2). destruct b; [|reflexivity]. exfalso. exact (DJ p P1 (P2 eq_refl)).
  - intros CT. rewrite filter_id_all; [|intros b Hb; apply QB in Hb as (p & P1 & P2 & _); auto]. replace (length bs) with n by (cbn [length] in LP; unfold n; lia). unfold Rdiv. rewrite Rinv_r by lra. ring.
Qed.
Lemma interference_no_draw c d : interference_volume c d [] = Err ZeroDivisionError.
Proof. unfold interference_volume. destruct (Rltb _ _); reflexivity. Qed.
(** ** moving a block *)
Lemma translation_block b o : proper (bframe b) -> exists b', block_translation b o = Ok b' /\
  (forall v, frame_point (bframe b') v = translation3 (frame_point (bframe b) v) o) /\ block_volume b' = block_volume b.
Proof.
  intros P. exists (Block (frame3_translation (bframe b) o)). split; [apply new_block_ok; exact P|]. split; [intros v; apply frame3_translation_points|reflexivity].
Qed.
Lemma rotation3_norm u ax a : dot3 ax ax = 1 -> norm3 (rotation3 u O3D ax a) = norm3 u.
Proof.
  intros U. pose proof (rotation3_dot u u ax a U) as E. unfold norm3. unfold dot3 in E. rewrite E. reflexivity.
Qed.
Lemma rotation_at_origin f ax a v : frame_point (frame3_rotation f (org3 f) ax a) v = rotation3 (frame_point f v) (org3 f) ax a.
Proof.
  destruct (frame3_rotation_close f (org3 f) ax a) as (E1 & E2). { replace (point_distance3 (org3 f) (org3 f)) with 0; [apply Rlt_le, pow10_inv_pos|]. symmetry. apply dist3_zero. reflexivity. }
  unfold frame_point at 1. rewrite E1, E2. rewrite !rotation3_rod. unfold frame_point.
  replace (sub3 (basis_vector (fb3 f) v) O3D) with (basis_vector (fb3 f) v) by (apply vec3_ext; unfold sub3, O3D; cbn [x3 y3 z3]; ring).
  replace (sub3 (add3 (basis_vector (fb3 f) v) (org3 f)) (org3 f)) with (basis_vector (fb3 f) v) by (apply vec3_ext; unfold sub3, add3; cbn [x3 y3 z3]; ring).
  apply vec3_ext; unfold add3, O3D; cbn [x3 y3 z3]; ring.
Qed.
Lemma rotation_block b c ax a : proper (bframe b) -> dot3 ax ax = 1 -> c = org3 (bframe b) \/ / 10 ^ 6 < point_distance3 c (org3 (bframe b)) -> exists b', block_rotation b c ax a = Ok b' /\
  (forall v, frame_point (bframe b') v = rotation3 (frame_point (bframe b) v) c ax a) /\ block_volume b' = block_volume b.
Proof.
  intros (PU & PV & PW) U HC. exists (Block (frame3_rotation (bframe b) c ax a)). split; [|split].
  - apply new_block_ok. unfold proper, frame3_rotation, basis3_rotation. cbn [fb3 bu bv bw].
    assert (K : forall u, u <> O3D -> rotation3 u O3D ax a <> O3D). { intros u N E. apply (f_equal norm3) in E. rewrite rotation3_norm in E by auto. rewrite (proj2 (norm3_zero O3D) eq_refl) in E. apply norm3_zero in E. auto. }
    repeat split; apply K; auto.
  - intros v. cbn [bframe]. destruct HC as [->|HC]; [apply rotation_at_origin|apply frame3_rotation_points; auto].
  - unfold block_volume, norms, frame3_rotation, basis3_rotation. cbn [bframe fb3 bu bv bw]. rewrite !rotation3_norm by auto. reflexivity.
Qed.
Lemma mapping_block b f b' : block_mapping_old b f = Ok b' -> forall v, Rabs (x3 v) <= 1 -> Rabs (y3 v) <= 1 -> Rabs (z3 v) <= 1 ->
  near (4 * eps) (frame_point (bframe b') v) (frame_point f (frame_point (bframe b) v)).
Proof. intros H v X Y Z. apply new_block_inv in H as (-> & _). apply frame3_mapping_old_points; auto. Qed.
