(** Final forms of the statements about voxel tests and voxelization, and concrete cases. *)
From Coq Require Import Lra Lia Psatz.
From Verif.Model Require Import RBase Vec BBox Geometry FloodFill Sat Voxelize.
From Verif.Spec Require Import GridSpec SatSpec.
From Verif.Proofs Require Import VecP GeometryP FloodFillP BBoxP SatP SatP2 SatP3 SatP4 VoxelizeP VoxelizeP2 VoxelizeP3 VoxelizeP4 VoxelizeP5 VoxelizeP6.
Open Scope R_scope.

(** ** C17, C18, C44 *)
Lemma missed_inside center e0 e1 e2 : / 10 ^ 9 < e0 -> / 10 ^ 9 < e1 -> / 10 ^ 9 < e2 ->
  4 / 10 ^ 9 < Rabs (e0 - e1) \/ 4 / 10 ^ 9 < Rabs (e1 - e2) \/ 4 / 10 ^ 9 < Rabs (e0 - e2) ->
  exists t0 t1 t2, (forall p, in_triangle3 p t0 t1 t2 -> in_box3 p center (V3 e0 e1 e2))
    /\ triangle_intersects_voxel (t0, t1, t2) center (V3 e0 e1 e2) = false.
Proof.
  intros H0 H1 H2 D. destruct (missed_triangle center e0 e1 e2 H0 H1 H2 D) as (t0 & t1 & t2 & B0 & B1 & B2 & E). exists t0, t1, t2. split; [|exact E].
  intros p (r & s & t & Hr & Hs & Ht & Et & Ex & Ey & Ez). destruct B0 as (X0 & Y0 & Z0), B1 as (X1 & Y1 & Z1), B2 as (X2 & Y2 & Z2). cbn in *.
  assert (G : forall u v w c e, Rabs (u - c) <= e -> Rabs (v - c) <= e -> Rabs (w - c) <= e -> Rabs (r * u + s * v + t * w - c) <= e).
  { intros u v w c e A B C. pose proof (convex_bounds r s t u v w Hr Hs Ht Et) as K. apply Rabs_le_inv in A, B, C. apply Rabs_le.
    destruct (min_of3_case u v w) as [Q1|[Q1|Q1]], (max_of3_case u v w) as [Q2|[Q2|Q2]]; rewrite Q1, Q2 in K; lra. }
  unfold in_box3; cbn. rewrite Ex, Ey, Ez. auto.
Qed.
Lemma missed_example : exists t0 t1 t2 center ext, (forall p, in_triangle3 p t0 t1 t2 -> in_box3 p center ext) /\ triangle_intersects_voxel (t0, t1, t2) center ext = false.
Proof.
  assert (E9 : 10 ^ 9 = IZR 1000000000) by (rewrite (pow_IZR 10 9); reflexivity).
  assert (P : / 10 ^ 9 < 1) by (rewrite E9; lra).
  assert (Q : 4 / 10 ^ 9 < 1) by (rewrite E9; lra).
  destruct (missed_inside orig 1 2 3) as (t0 & t1 & t2 & H & E); try lra.
  - left. rewrite Rabs_left; lra.
  - exists t0, t1, t2, orig, (V3 1 2 3). auto.
Qed.
Lemma bbox_missed : exists b t0 t1 t2, (forall p, in_triangle3 p t0 t1 t2 -> xmin b <= x3 p <= xmax b /\ ymin b <= y3 p <= ymax b /\ zmin b <= z3 p <= zmax b)
  /\ bbox_is_intersecting_triangle b (t0, t1, t2) = false.
Proof.
  assert (E9 : 10 ^ 9 = IZR 1000000000) by (rewrite (pow_IZR 10 9); reflexivity).
  assert (P : / 10 ^ 9 < 1) by (rewrite E9; lra).
  assert (Q : 4 / 10 ^ 9 < 1) by (rewrite E9; lra).
  destruct (missed_inside orig 1 2 3) as (t0 & t1 & t2 & H & E); try lra.
  { left. rewrite Rabs_left; lra. }
  exists (BBox (-1) 1 (-2) 2 (-3) 3), t0, t1, t2. split.
  - intros p Hp. destruct (H p Hp) as (A & B & C). cbn in A, B, C. apply Rabs_le_inv in A, B, C. cbn. lra.
  - unfold bbox_is_intersecting_triangle, bbox_center. cbn [xmin xmax ymin ymax zmin zmax].
    replace (V3 _ _ _) with orig at 1 by (unfold orig; f_equal; field).
    match goal with |- triangle_intersects_voxel _ ?c ?e = _ => replace e with (V3 1 2 3) by (f_equal; field) end. exact E.
Qed.
Lemma false_positive : exists t0 t1 t2 center ext, (forall p, in_triangle3 p t0 t1 t2 -> ~ in_box3 p center ext) /\ triangle_intersects_voxel (t0, t1, t2) center ext = true.
Proof. exists fp0, fp1, fp2, orig, cube1. split; [exact fp_disjoint|]. unfold triangle_intersects_voxel. now rewrite fp_reported. Qed.
Lemma reported_near t0 t1 t2 center ext : 0 <= x3 ext -> 0 <= y3 ext -> 0 <= z3 ext ->
  triangle_intersects_voxel (t0, t1, t2) center ext = true ->
  exists q, in_box3 q center (V3 (x3 ext + / 10 ^ 9) (y3 ext + / 10 ^ 9) (z3 ext + / 10 ^ 9)) /\ in_triangle_bounds q t0 t1 t2.
Proof. intros H0 H1 H2 H. destruct (intersects_meaning t0 t1 t2 center ext H0 H1 H2 H) as (q & A & B). exists q. split; [exact A|exact B]. Qed.
Lemma sat_near t0 t1 t2 center ext : 0 <= x3 ext -> 0 <= y3 ext -> 0 <= z3 ext -> sat_test (t0, t1, t2) center ext = true ->
  (exists q, in_box3 q center ext /\ in_triangle_bounds q t0 t1 t2) /\ (exists q, in_box3 q center ext /\ in_triangle_plane q t0 t1 t2).
Proof.
  intros H0 H1 H2 H. destruct (sat_meaning t0 t1 t2 center ext H0 H1 H2 H) as [(q & A & B) (q' & A' & B')]. split; [exists q; split; [exact A|exact B]|].
  exists q'. split; [exact A'|]. unfold in_triangle_plane. unfold dot3, cross3, sub3 in B'. cbn in B'. exact B'.
Qed.

(** ** C20 *)
Lemma short_is_inside : in_segment2 (V2 (grid_center small 0) (grid_center small 0)) short_p short_q.
Proof. exists (1 / 2). rewrite small_center. unfold short_p, short_q. cbn [x2 y2]. split; [lra|]. split; lra. Qed.
Lemma short_refuted : exists ps p q k l, 0 < ps /\ in_segment2 (V2 (grid_center ps k) (grid_center ps l)) p q
  /\ ~ In (V2 (grid_center ps k) (grid_center ps l)) (line_segments_to_pixels [(p, q)] ps).
Proof.
  exists small, short_p, short_q, 0%Z, 0%Z. split; [apply Rinv_0_lt_compat, pow_lt; lra|]. split; [exact short_is_inside|]. rewrite short_missed. intros [].
Qed.

(** ** C84 *)
Lemma eq3b_spec a b : eq3b a b = true <-> a = b.
Proof.
  unfold eq3b. rewrite !andb_true_iff, !Reqb_spec. split; [intros [[H1 H2] H3]; destruct a as [a1 a2 a3], b as [b1 b2 b3]; cbn in *; now subst|]. intros ->. auto.
Qed.
Lemma has_equal_spec a b c : has_equal_points (a, b, c) = false <-> distinct3 a b c.
Proof.
  unfold has_equal_points, distinct3. rewrite !orb_false_iff. rewrite <- !not_true_iff_false, !eq3b_spec. tauto.
Qed.
Lemma voxelize_spec l v : nano_even v -> l <> [] ->
  (forall a b c, In (a, b, c) l -> distinct3 a b c -> edge_ok v a b /\ edge_ok v b c /\ edge_ok v c a) ->
  exists m ox oy oz, triangles_to_voxel_matrix l v = Ok (m, voxel_center v (ox, oy, oz))
   /\ (forall a b c i j k p, In (a, b, c) l -> distinct3 a b c -> in_triangle3 p a b c -> in_voxel v (i, j, k) p ->
         In3 (dimx m) (dimy m) (dimz m) (i - ox, j - oy, k - oz)%Z /\ at3 m (i - ox, j - oy, k - oz)%Z = true)
   /\ (forall i j k, at3 m (i - ox, j - oy, k - oz)%Z = true -> exists a b c, In (a, b, c) l /\ distinct3 a b c
         /\ ((exists p, in_triangle3 p a b c /\ in_box3 p (voxel_center v (i, j, k)) (V3 v v v))
             \/ (exists q, in_voxel v (i, j, k) q /\ in_triangle_bounds q a b c) /\ (exists q, in_voxel v (i, j, k) q /\ in_triangle_plane q a b c))).
Proof.
  intros Hn Hl HE. destruct (voxelize_ok l v Hn Hl) as (m & [[ox oy] oz] & E & C & S).
  { intros a b c Hin HP. apply HE; [exact Hin|now apply has_equal_spec]. }
  exists m, ox, oy, oz. split; [exact E|]. split.
  - intros a b c i j k p Hin HP HT HV. apply has_equal_spec in HP. exact (C a b c (i, j, k) p Hin HP HT HV).
  - intros i j k H. destruct (S _ H) as (a & b & c & e & Hin & HP & Ee & M). exists a, b, c. split; [exact Hin|]. split; [now apply has_equal_spec|].
    destruct e as [[i' j'] k']. unfold csub in Ee. cbn [fst snd] in Ee. apply pair_equal_spec in Ee as [Ee E3]. apply pair_equal_spec in Ee as [E1 E2].
    assert (i' = i) by lia. assert (j' = j) by lia. assert (k' = k) by lia. subst i' j' k'.
    destruct M as [M|[(q & Q1 & Q2) (q' & Q3 & Q4)]]; [now left|right]. split; [exists q; split; [exact Q1|exact Q2]|].
    exists q'. split; [exact Q3|]. unfold in_triangle_plane. unfold dot3, cross3, sub3 in Q4. cbn in Q4. exact Q4.
Qed.
(** a triangle with two equal vertices marks nothing *)
Lemma degenerate_skipped l v : l <> [] -> (forall a b c, In (a, b, c) l -> ~ distinct3 a b c) ->
  exists m o, triangles_to_voxel_matrix l v = Ok (m, o) /\ forall x, at3 m x = false.
Proof.
  intros Hl H. unfold triangles_to_voxel_matrix.
  destruct (axis_min_max_ok x3 l Hl) as (mnx & mxx & Ex & _). destruct (axis_min_max_ok y3 l Hl) as (mny & mxy & Ey & _). destruct (axis_min_max_ok z3 l Hl) as (mnz & mxz & Ez & _).
  rewrite Ex, Ey, Ez. cbn [bind].
  assert (L : forall l' o m, (forall a b c, In (a, b, c) l' -> ~ distinct3 a b c) -> foldM (fill_triangle v o) l' m = Ok m).
  { induction l' as [|[[a b] c] l' IH]; intros o m Hd; [reflexivity|]. cbn [foldM]. unfold fill_triangle at 1. destruct (has_equal_points (a, b, c)) eqn:E.
    - cbn [bind]. apply IH. intros a' b' c' Hi. apply Hd. now right.
    - exfalso. apply (Hd a b c); [now left|now apply has_equal_spec]. }
  rewrite L by exact H. eexists _, _. split; [reflexivity|]. reflexivity.
Qed.

(** concrete: a square plate (two triangles at z = 1/2) and a slanted triangle, voxels of 1/10 *)
Definition tenth : R := 1 / 10.
Definition q0 := V3 0 0 (1 / 2).
Definition q1 := V3 1 0 (1 / 2).
Definition q2 := V3 1 1 (1 / 2).
Definition q3 := V3 0 1 1.
Definition plate : list triangle3 := [(q0, q1, q2); (q0, q2, q3)].
Lemma tenth_ok : nano_even tenth.
Proof. exists 50000000%Z. split; [lia|]. unfold tenth. assert (E : 10 ^ 9 = IZR 1000000000) by (rewrite (pow_IZR 10 9); reflexivity). rewrite E. change (2 * 50000000)%Z with 100000000%Z. lra. Qed.
Lemma edge_long v p q : / 10 ^ 9 * (1 + / v) <= 1 -> 1 <= Rabs (x3 q - x3 p) \/ 1 <= Rabs (y3 q - y3 p) -> edge_ok v p q.
Proof.
  intros H K. unfold edge_ok. pose proof (Rabs_pos (x3 q - x3 p)). pose proof (Rabs_pos (y3 q - y3 p)). pose proof (Rabs_pos (z3 q - z3 p)). lra.
Qed.
Lemma plate_ok : forall a b c, In (a, b, c) plate -> distinct3 a b c /\ edge_ok tenth a b /\ edge_ok tenth b c /\ edge_ok tenth c a.
Proof.
  assert (L : / 10 ^ 9 * (1 + / tenth) <= 1).
  { unfold tenth. assert (E : 10 ^ 9 = IZR 1000000000) by (rewrite (pow_IZR 10 9); reflexivity). rewrite E. lra. }
  intros a b c [E|[E|[]]]; apply pair_equal_spec in E as [E <-]; apply pair_equal_spec in E as [<- <-].
  - split; [unfold distinct3; split; [|split]; intros E; pose proof (f_equal x3 E); pose proof (f_equal y3 E); cbn in *; lra|].
    split; [|split]; apply edge_long; auto; cbn.
    + left. rewrite Rabs_right; lra.
    + right. rewrite Rabs_right; lra.
    + left. rewrite Rabs_left; lra.
  - split; [unfold distinct3; split; [|split]; intros E; pose proof (f_equal x3 E); pose proof (f_equal y3 E); cbn in *; lra|].
    split; [|split]; apply edge_long; auto; cbn.
    + left. rewrite Rabs_right; lra.
    + left. rewrite Rabs_left; lra.
    + right. rewrite Rabs_left; lra.
Qed.
