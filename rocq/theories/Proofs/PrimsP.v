From Coq Require Import Reals Lra Lia List Bool ZArith.
From Verif.Model Require Import Base Mesh RBase Vec Frame BBox Geometry Prims.
From Verif.Spec Require Import VecSpec FrameSpec BBoxSpec PrimsSpec.
From Verif.Proofs Require Import VecP LineP FrameP FrameP2 BBoxP.
Import ListNotations.
Open Scope R_scope.

Lemma corner_at_value b x y z : corner_at b (x, y, z) =
  add3 (add3 (add3 (mul3 (bu (fb3 (bframe b))) (sgn x)) (mul3 (bv (fb3 (bframe b))) (sgn y))) (mul3 (bw (fb3 (bframe b))) (sgn z))) (org3 (bframe b)).
Proof. reflexivity. Qed.
Ltac each tac := repeat (apply (f_equal2 cons); [tac|]); try reflexivity.
Lemma block_split b : exists o1 o2 o3 u1 u2 u3 v1 v2 v3 w1 w2 w3, b = Block (F3 (V3 o1 o2 o3) (B3 (V3 u1 u2 u3) (V3 v1 v2 v3) (V3 w1 w2 w3))).
Proof. destruct b as [[[o1 o2 o3] [[u1 u2 u3] [v1 v2 v3] [w1 w2 w3]]]]. repeat eexists. Qed.
Definition order : list (bool * bool * bool) :=
  [(false, false, false); (false, true, false); (true, true, false); (true, false, false);
   (false, false, true); (false, true, true); (true, true, true); (true, false, true)].
Lemma vertices_order b : block_vertices b = map (corner_at b) order.
Proof.
  destruct (block_split b) as (o1 & o2 & o3 & u1 & u2 & u3 & v1 & v2 & v3 & w1 & w2 & w3 & ->).
  unfold block_vertices, order, corner_at, sgn, half, frame_point, basis_vector, add3, sub3, mul3. cbn [map bframe org3 fb3 bu bv bw x3 y3 z3].
  each ltac:(f_equal; field).
Qed.
Lemma order_all s : In s order.
Proof. destruct s as [[x y] z]. destruct x, y, z; unfold order; cbn [In]; tauto. Qed.
Lemma vertices_ok b : length (block_vertices b) = 8%nat /\ (forall p, In p (block_vertices b) <-> exists s, p = corner_at b s).
Proof.
  rewrite vertices_order. split; [reflexivity|]. intros p. rewrite in_map_iff. split.
  - intros (s & E & _). eauto.
  - intros (s & E). exists s. split; [auto|apply order_all].
Qed.
(** the corners differ *)
Lemma independent u v w a b c : dot3 (cross3 u v) w <> 0 -> add3 (add3 (mul3 u a) (mul3 v b)) (mul3 w c) = O3D -> a = 0 /\ b = 0 /\ c = 0.
Proof.
  destruct u as [u1 u2 u3], v as [v1 v2 v3], w as [w1 w2 w3]. unfold dot3, cross3, add3, mul3, O3D. cbn [x3 y3 z3]. intros D E. injection E as E1 E2 E3.
  assert (HA : a * ((u2 * v3 - u3 * v2) * w1 + (u3 * v1 - u1 * v3) * w2 + (u1 * v2 - u2 * v1) * w3) = 0).
  { replace (a * _) with ((u1 * a + v1 * b + w1 * c) * (v2 * w3 - v3 * w2) - (u2 * a + v2 * b + w2 * c) * (v1 * w3 - v3 * w1) + (u3 * a + v3 * b + w3 * c) * (v1 * w2 - v2 * w1)) by ring. rewrite E1, E2, E3. ring. }
  assert (HB : b * ((u2 * v3 - u3 * v2) * w1 + (u3 * v1 - u1 * v3) * w2 + (u1 * v2 - u2 * v1) * w3) = 0).
  { replace (b * _) with ((u1 * a + v1 * b + w1 * c) * (u3 * w2 - u2 * w3) - (u2 * a + v2 * b + w2 * c) * (u3 * w1 - u1 * w3) + (u3 * a + v3 * b + w3 * c) * (u2 * w1 - u1 * w2)) by ring. rewrite E1, E2, E3. ring. }
  assert (HC : c * ((u2 * v3 - u3 * v2) * w1 + (u3 * v1 - u1 * v3) * w2 + (u1 * v2 - u2 * v1) * w3) = 0).
  { replace (c * _) with ((u1 * a + v1 * b + w1 * c) * (u2 * v3 - u3 * v2) + (u2 * a + v2 * b + w2 * c) * (u3 * v1 - u1 * v3) + (u3 * a + v3 * b + w3 * c) * (u1 * v2 - u2 * v1)) by ring. rewrite E1, E2, E3. ring. }
  apply Rmult_integral in HA, HB, HC. tauto.
Qed.
Lemma sgn_inj x y : sgn x = sgn y -> x = y.
Proof. destruct x, y; unfold sgn; intros; auto; lra. Qed.
Lemma frame_point_inj f p q : parallelepiped f <> 0 -> frame_point f p = frame_point f q -> p = q.
Proof.
  intros D E. unfold parallelepiped in D. assert (D' : dot3 (cross3 (bu (fb3 f)) (bv (fb3 f))) (bw (fb3 f)) <> 0) by (intros Z; apply D; rewrite Z; apply Rabs_R0).
  destruct f as [[o1 o2 o3] [u v w]], p as [a b c], q as [a' b' c']. cbn [fb3 bu bv bw] in D'.
  destruct (independent u v w (a - a') (b - b') (c - c') D') as (A & B & C); [|f_equal; lra].
  destruct u as [u1 u2 u3], v as [v1 v2 v3], w as [w1 w2 w3]. unfold frame_point, basis_vector, add3, mul3, O3D in *. cbn [fb3 bu bv bw org3 x3 y3 z3] in *.
  injection E as E1 E2 E3. f_equal; lra.
Qed.
Lemma corner_at_inj b s t : parallelepiped (bframe b) <> 0 -> corner_at b s = corner_at b t -> s = t.
Proof.
  intros D E. destruct s as [[x y] z], t as [[x' y'] z']. unfold corner_at in E. apply (frame_point_inj _ _ _ D) in E.
  assert (E1 := f_equal x3 E). assert (E2 := f_equal y3 E). assert (E3 := f_equal z3 E). cbn [x3 y3 z3] in E1, E2, E3.
  apply sgn_inj in E1, E2, E3. subst; reflexivity.
Qed.
Lemma vertices_distinct b : parallelepiped (bframe b) <> 0 -> NoDup (block_vertices b).
Proof.
  intros D. rewrite vertices_order. assert (N : NoDup order).
  { unfold order. repeat (constructor; [cbn [In]; intuition discriminate|]). constructor. }
  induction N as [|s l Ns N IH]; [constructor|]. cbn [map]. constructor; auto.
  intros H. apply in_map_iff in H as (t & E & Ht). apply (corner_at_inj _ _ _ D) in E. subst. contradiction.
Qed.
(** edges *)
Definition edge_signs : list ((bool * bool * bool) * (bool * bool * bool)) :=
  match order with
  | [p1; p2; p3; p4; p5; p6; p7; p8] =>
    [(p1, p2); (p2, p3); (p3, p4); (p4, p1); (p5, p6); (p6, p7); (p7, p8); (p8, p5); (p1, p5); (p2, p6); (p3, p7); (p4, p8)]
  | _ => []
  end.
Lemma edges_order b : block_edges b = map (fun st => (corner_at b (fst st), corner_at b (snd st))) edge_signs.
Proof. unfold block_edges. rewrite vertices_order. reflexivity. Qed.
Definition sign_dec (s t : bool * bool * bool) : {s = t} + {s <> t}.
Proof. decide equality; [apply bool_dec|]. decide equality; apply bool_dec. Defined.
Definition pair_dec (s t : (bool * bool * bool) * (bool * bool * bool)) : {s = t} + {s <> t}.
Proof. decide equality; apply sign_dec. Defined.
Lemma edge_signs_all s t : adjacent s t = true <-> In (s, t) edge_signs \/ In (t, s) edge_signs.
Proof.
  destruct s as [[x y] z], t as [[x' y'] z'].
  split; intros H.
  - destruct (in_dec pair_dec (x, y, z, (x', y', z')) edge_signs) as [|N1]; [tauto|].
    destruct (in_dec pair_dec (x', y', z', (x, y, z)) edge_signs) as [|N2]; [tauto|]. exfalso.
    destruct x, y, z, x', y', z'; try discriminate H; first [apply N1; cbn [In edge_signs order]; tauto | apply N2; cbn [In edge_signs order]; tauto].
  - destruct H as [H|H]; cbn [In edge_signs order] in H; repeat (destruct H as [H|H]; [injection H as <- <- <- <- <- <-; reflexivity|]); contradiction.
Qed.
Lemma edges_ok b : length (block_edges b) = 12%nat /\
  (forall p q, In (p, q) (block_edges b) \/ In (q, p) (block_edges b) <-> exists s t, adjacent s t = true /\ p = corner_at b s /\ q = corner_at b t).
Proof.
  rewrite edges_order. split; [reflexivity|]. intros p q. rewrite !in_map_iff. split.
  - intros [((s, t) & E & H) | ((s, t) & E & H)]; cbn [fst snd] in E; injection E as <- <-.
    + exists s, t. rewrite edge_signs_all. tauto.
    + exists t, s. rewrite edge_signs_all. tauto.
  - intros (s & t & A & -> & ->). apply edge_signs_all in A as [A|A]; [left; exists (s, t)|right; exists (t, s)]; auto.
Qed.
(** faces *)
Lemma normalize_ok f : proper f -> frame3_normalize f = Ok (F3 (org3 f) (B3 (mul3 (bu (fb3 f)) (/ norm3 (bu (fb3 f)))) (mul3 (bv (fb3 f)) (/ norm3 (bv (fb3 f)))) (mul3 (bw (fb3 f)) (/ norm3 (bw (fb3 f)))))).
Proof.
  intros (U & V & W).
  assert (K : forall u, u <> O3D -> unit_vector3 u = Ok (mul3 u (/ norm3 u))).
  { intros u N. unfold unit_vector3. cbn zeta. destruct (Reqb (norm3 u) 0) eqn:Z; [exfalso; apply N, norm3_zero, Reqb_spec, Z|reflexivity]. }
  unfold frame3_normalize. rewrite (K _ U), (K _ V), (K _ W). reflexivity.
Qed.
Lemma norm_pos u : u <> O3D -> 0 < norm3 u.
Proof. intros N. destruct (Rle_lt_or_eq_dec 0 (norm3 u) (sqrt_pos _)); auto. exfalso. apply N, norm3_zero. auto. Qed.
Lemma faces_ok b : proper (bframe b) -> shell_faces b = Ok (map (map (corner_at b)) sides).
Proof.
  intros P. unfold shell_faces. rewrite (normalize_ok _ P). destruct P as (U & V & W). apply norm_pos in U, V, W.
  destruct (block_split b) as (o1 & o2 & o3 & u1 & u2 & u3 & v1 & v2 & v3 & w1 & w2 & w3 & ->). cbn [bframe org3 fb3 bu bv bw bind] in *.
  set (nu := norm3 (V3 u1 u2 u3)) in *. set (nv := norm3 (V3 v1 v2 v3)) in *. set (nw := norm3 (V3 w1 w2 w3)) in *. clearbody nu nv nw.
  unfold rectangular_cut, sides, corner_at, sgn, half, frame_point, basis_vector, to_3d, add3, sub3, mul3.
  cbn [map bframe org3 fb3 bu bv bw x3 y3 z3 x2 y2 fst snd].
  f_equal. each ltac:(each ltac:(f_equal; field; lra)).
Qed.
Lemma new_block_ok f : proper f -> new_block f = Ok (Block f).
Proof. intros P. unfold new_block. rewrite (faces_ok (Block f)) by exact P. reflexivity. Qed.
Lemma new_block_inv f b : new_block f = Ok b -> b = Block f /\ proper f.
Proof.
  unfold new_block. intros H. destruct (shell_faces (Block f)) as [fs|] eqn:E; [|discriminate]. cbn [bind] in H. apply Ok_inj in H. split; [auto|].
  unfold shell_faces in E. cbn [bframe] in E. destruct (frame3_normalize f) as [g|] eqn:N; [|discriminate]. clear E.
  unfold frame3_normalize in N. assert (K : forall u v, unit_vector3 u = Ok v -> u <> O3D).
  { intros u v HU ->. unfold unit_vector3 in HU. rewrite (proj2 (norm3_zero O3D)) in HU by reflexivity. unfold Reqb in HU. destruct (Req_EM_T 0 0); [discriminate|congruence]. }
  destruct (unit_vector3 (bu (fb3 f))) eqn:E1; [|discriminate]. destruct (unit_vector3 (bv (fb3 f))) eqn:E2; [|discriminate]. destruct (unit_vector3 (bw (fb3 f))) eqn:E3; [|discriminate].
  repeat split; eapply K; eassumption.
Qed.
Lemma sides_ok : length sides = 6%nat /\ (forall side, In side sides -> length side = 4%nat /\ NoDup side) /\
  (forall s t, adjacent s t = true -> length (filter (bounds_side s t) sides) = 2%nat) /\
  (forall s t side, In side sides -> bounds_side s t side = true -> adjacent s t = true).
Proof.
  split; [reflexivity|]. split; [|split].
  - intros side H. unfold sides in H. cbn [In map fst snd] in H.
    repeat (destruct H as [<-|H]; [split; [reflexivity|]; repeat (constructor; [cbn [In]; intuition discriminate|]); constructor|]). contradiction.
  - intros [[x y] z] [[x' y'] z'] H. destruct x, y, z, x', y', z'; try discriminate H; reflexivity.
  - intros [[x y] z] [[x' y'] z'] side H. unfold sides in H. cbn [In map fst snd] in H.
    repeat (destruct H as [<-|H]; [destruct x, y, z, x', y', z'; intros E; first [discriminate E | reflexivity]|]). contradiction.
Qed.
Lemma centers_ok b : faces_center b = map (fun side => mean4 (map (corner_at b) side)) sides.
Proof.
  destruct (block_split b) as (o1 & o2 & o3 & u1 & u2 & u3 & v1 & v2 & v3 & w1 & w2 & w3 & ->).
  unfold faces_center, sides, mean4, sum3, corner_at, sgn, half, frame_point, basis_vector, O3D, add3, sub3, mul3.
  cbn [map fold_right bframe org3 fb3 bu bv bw x3 y3 z3 fst snd].
  each ltac:(f_equal; field).
Qed.
Lemma block_faces_ok b : proper (bframe b) -> exists fs, shell_faces b = Ok fs /\ fs = map (map (corner_at b)) sides /\ faces_center b = map mean4 fs.
Proof. intros P. exists (map (map (corner_at b)) sides). split; [apply faces_ok, P|]. split; [reflexivity|]. rewrite centers_ok, map_map. reflexivity. Qed.
(** face_contours3d *)
Lemma face_contours_fail b : face_contours3d b = Err IndexError.
Proof. unfold face_contours3d. rewrite edges_order. reflexivity. Qed.
