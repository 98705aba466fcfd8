(** Bounding boxes: distance to a point, intersection measures, octants; list helpers. *)
From Coq Require Import Reals Lra Lia List Bool Psatz.
From Verif.Model Require Import RBase Vec BBox.
From Verif.Spec Require Import BBoxSpec.
From Verif.Proofs Require Import VecP BBoxP.
Open Scope R_scope.

(** ** C41 *)
Lemma axis_gap_spec lo hi x : lo <= hi -> 0 <= axis_gap lo hi x /\
  (exists s, lo <= s <= hi /\ (s - x) * (s - x) = axis_gap lo hi x ^ 2) /\
  (forall s, lo <= s <= hi -> axis_gap lo hi x ^ 2 <= (s - x) * (s - x)).
Proof.
  intros H. unfold axis_gap. destruct (Rltb x lo) eqn:E1; rb; [|destruct (Rltb hi x) eqn:E2; rb].
  - split; [lra|split].
    + exists lo. split; [lra|ring].
    + intros s Hs. replace ((lo - x) ^ 2) with ((lo - x) * (lo - x)) by ring. apply Rmult_le_compat; lra.
  - split; [lra|split].
    + exists hi. split; [lra|ring].
    + intros s Hs. replace ((x - hi) ^ 2) with ((x - hi) * (x - hi)) by ring.
      replace ((s - x) * (s - x)) with ((x - s) * (x - s)) by ring. apply Rmult_le_compat; lra.
  - split; [lra|split].
    + exists x. split; [lra|ring].
    + intros s Hs. replace (0 ^ 2) with 0 by ring. apply Rle_0_sqr.
Qed.
Lemma bbox_point_belongs_spec b p tol : bbox_point_belongs b p tol = true <->
  (xmin b - tol <= x3 p <= xmax b + tol) /\ (ymin b - tol <= y3 p <= ymax b + tol) /\ (zmin b - tol <= z3 p <= zmax b + tol).
Proof. unfold bbox_point_belongs. rewrite !andb_true_iff, !Rleb_spec. tauto. Qed.
Lemma rect_point_belongs_spec b p : rect_point_belongs b p = true <-> inside_rect b p.
Proof. unfold rect_point_belongs, inside_rect. rewrite !andb_true_iff, !Rltb_spec. tauto. Qed.

Lemma bbox_point_outside b p : valid_box b -> bbox_point_belongs b p (/ 10 ^ 6) = false ->
  min_dist point_distance3 (in_box b) (eq p) (bbox_distance_to_point b p).
Proof.
  intros (A1 & A2 & A3) E. unfold bbox_distance_to_point. rewrite E.
  destruct (axis_gap_spec _ _ (x3 p) A1) as (X0 & (sx & X1 & X2) & X4).
  destruct (axis_gap_spec _ _ (y3 p) A2) as (Y0 & (sy & Y1 & Y2) & Y4).
  destruct (axis_gap_spec _ _ (z3 p) A3) as (Z0 & (sz & Z1 & Z2) & Z4).
  split.
  - exists (V3 sx sy sz), p. unfold in_box. cbn [x3 y3 z3]. split; [tauto|split; [reflexivity|]].
    unfold point_distance3, norm3, sub3. cbn [x3 y3 z3]. f_equal. lra.
  - intros q q' (Q1 & Q2 & Q3) <-. unfold point_distance3, norm3, sub3. cbn [x3 y3 z3]. apply sqrt_le_1_alt.
    pose proof (X4 _ Q1). pose proof (Y4 _ Q2). pose proof (Z4 _ Q3). lra.
Qed.
Lemma rect_point_outside b p : valid_rect b -> ~ inside_rect b p ->
  min_dist point_distance2 (in_rect b) (eq p) (rect_distance_to_point b p).
Proof.
  intros (A1 & A2) E. unfold rect_distance_to_point.
  destruct (rect_point_belongs b p) eqn:E'; [apply rect_point_belongs_spec in E'; contradiction|].
  destruct (axis_gap_spec _ _ (x2 p) A1) as (X0 & (sx & X1 & X2) & X4).
  destruct (axis_gap_spec _ _ (y2 p) A2) as (Y0 & (sy & Y1 & Y2) & Y4).
  split.
  - exists (V2 sx sy), p. unfold in_rect. cbn [x2 y2]. split; [tauto|split; [reflexivity|]].
    unfold point_distance2, norm2, sub2. cbn [x2 y2]. f_equal. lra.
  - intros q q' (Q1 & Q2) <-. unfold point_distance2, norm2, sub2. cbn [x2 y2]. apply sqrt_le_1_alt.
    pose proof (X4 _ Q1). pose proof (Y4 _ Q2). lra.
Qed.
Lemma Rmin_case' a b : (Rmin a b = a /\ a <= b) \/ (Rmin a b = b /\ b < a).
Proof. unfold Rmin. destruct (Rle_dec a b); lra. Qed.
Lemma sqrt_ge a s : 0 <= a -> a * a <= s -> a <= sqrt s.
Proof. intros H L. rewrite <- (sqrt_square a H). apply sqrt_le_1_alt. exact L. Qed.
Lemma bbox_point_inside b p : in_box b p ->
  min_dist point_distance3 (on_boundary_box b) (eq p) (bbox_distance_to_point b p).
Proof.
  intros I. assert (E : bbox_point_belongs b p (/ 10 ^ 6) = true).
  { apply bbox_point_belongs_spec. pose proof eps6_pos. unfold in_box in I. lra. }
  unfold bbox_distance_to_point. rewrite E. destruct I as ((X1 & X2) & (Y1 & Y2) & Z1 & Z2).
  set (m := Rmin _ _).
  assert (M : m <= xmax b - x3 p /\ m <= x3 p - xmin b /\ m <= ymax b - y3 p /\ m <= y3 p - ymin b /\ m <= zmax b - z3 p /\ m <= z3 p - zmin b /\
     (m = xmax b - x3 p \/ m = x3 p - xmin b \/ m = ymax b - y3 p \/ m = y3 p - ymin b \/ m = zmax b - z3 p \/ m = z3 p - zmin b)).
  { unfold m. clear m E. set (a1 := xmax b - x3 p). set (a2 := x3 p - xmin b). set (a3 := ymax b - y3 p).
    set (a4 := y3 p - ymin b). set (a5 := zmax b - z3 p). set (a6 := z3 p - zmin b). clearbody a1 a2 a3 a4 a5 a6.
    destruct (Rmin_case' a1 a2) as [[-> ?]|[-> ?]];
    repeat match goal with |- context [Rmin ?a ?b] => match a with Rmin _ _ => fail 1 | _ => destruct (Rmin_case' a b) as [[-> ?]|[-> ?]] end end;
    repeat split; try lra; tauto. }
  clearbody m. destruct M as (M1 & M2 & M3 & M4 & M5 & M6 & M7).
  assert (M0 : 0 <= m) by lra.
  split.
  - assert (Q : forall q, in_box b q -> (x3 q = xmin b \/ x3 q = xmax b \/ y3 q = ymin b \/ y3 q = ymax b \/ z3 q = zmin b \/ z3 q = zmax b) ->
      (x3 q - x3 p) * (x3 q - x3 p) + (y3 q - y3 p) * (y3 q - y3 p) + (z3 q - z3 p) * (z3 q - z3 p) = m * m ->
      exists q0 p0, on_boundary_box b q0 /\ p = p0 /\ point_distance3 q0 p0 = m).
    { intros q Hq Hb Hd. exists q, p. split; [|split; [reflexivity|]].
      - split; [exact Hq|]. unfold inside_box. lra.
      - unfold point_distance3, norm3, sub3. cbn [x3 y3 z3]. rewrite Hd. apply sqrt_square, M0. }
    destruct M7 as [M7|[M7|[M7|[M7|[M7|M7]]]]].
    + apply (Q (V3 (xmax b) (y3 p) (z3 p))); unfold in_box; cbn [x3 y3 z3]; [lra|lra|rewrite M7; ring].
    + apply (Q (V3 (xmin b) (y3 p) (z3 p))); unfold in_box; cbn [x3 y3 z3]; [lra|lra|rewrite M7; ring].
    + apply (Q (V3 (x3 p) (ymax b) (z3 p))); unfold in_box; cbn [x3 y3 z3]; [lra|lra|rewrite M7; ring].
    + apply (Q (V3 (x3 p) (ymin b) (z3 p))); unfold in_box; cbn [x3 y3 z3]; [lra|lra|rewrite M7; ring].
    + apply (Q (V3 (x3 p) (y3 p) (zmax b))); unfold in_box; cbn [x3 y3 z3]; [lra|lra|rewrite M7; ring].
    + apply (Q (V3 (x3 p) (y3 p) (zmin b))); unfold in_box; cbn [x3 y3 z3]; [lra|lra|rewrite M7; ring].
  - intros q q' [Hq Hb] <-. unfold point_distance3, norm3, sub3. cbn [x3 y3 z3]. apply sqrt_ge; [exact M0|].
    assert (C : x3 q = xmin b \/ x3 q = xmax b \/ y3 q = ymin b \/ y3 q = ymax b \/ z3 q = zmin b \/ z3 q = zmax b).
    { unfold inside_box, in_box in *. destruct Hq as (HX & HY & HZ).
      destruct (Rle_lt_dec (x3 q) (xmin b)); [left; lra|]. destruct (Rle_lt_dec (xmax b) (x3 q)); [right; left; lra|].
      destruct (Rle_lt_dec (y3 q) (ymin b)); [do 2 right; left; lra|]. destruct (Rle_lt_dec (ymax b) (y3 q)); [do 3 right; left; lra|].
      destruct (Rle_lt_dec (z3 q) (zmin b)); [do 4 right; left; lra|]. destruct (Rle_lt_dec (zmax b) (z3 q)); [do 5 right; lra|].
      exfalso. apply Hb. lra. }
    pose proof (Rle_0_sqr (x3 q - x3 p)) as SX. pose proof (Rle_0_sqr (y3 q - y3 p)) as SY. pose proof (Rle_0_sqr (z3 q - z3 p)) as SZ.
    unfold Rsqr in *.
    assert (K : forall a c, 0 <= a -> m <= a -> c * c = a * a -> m * m <= c * c) by (intros a c Ha Hm ->; apply Rmult_le_compat; lra).
    destruct C as [C|[C|[C|[C|[C|C]]]]]; rewrite C in *.
    + pose proof (K (x3 p - xmin b) (xmin b - x3 p)). assert ((xmin b - x3 p) * (xmin b - x3 p) = (x3 p - xmin b) * (x3 p - xmin b)) by ring. lra.
    + pose proof (K (xmax b - x3 p) (xmax b - x3 p)). lra.
    + pose proof (K (y3 p - ymin b) (ymin b - y3 p)). assert ((ymin b - y3 p) * (ymin b - y3 p) = (y3 p - ymin b) * (y3 p - ymin b)) by ring. lra.
    + pose proof (K (ymax b - y3 p) (ymax b - y3 p)). lra.
    + pose proof (K (z3 p - zmin b) (zmin b - z3 p)). assert ((zmin b - z3 p) * (zmin b - z3 p) = (z3 p - zmin b) * (z3 p - zmin b)) by ring. lra.
    + pose proof (K (zmax b - z3 p) (zmax b - z3 p)). lra.
Qed.
(** never below -1e-6 *)
Lemma bbox_point_lower b p : - / 10 ^ 6 <= bbox_distance_to_point b p.
Proof.
  unfold bbox_distance_to_point. pose proof eps6_pos. destruct (bbox_point_belongs b p (/ 10 ^ 6)) eqn:E.
  - apply bbox_point_belongs_spec in E. repeat apply Rmin_glb; lra.
  - pose proof (sqrt_pos (axis_gap (xmin b) (xmax b) (x3 p) ^ 2 + axis_gap (ymin b) (ymax b) (y3 p) ^ 2 + axis_gap (zmin b) (zmax b) (z3 p) ^ 2)). lra.
Qed.
Lemma bbox_point_negative : exists b p, valid_box b /\ bbox_distance_to_point b p < 0.
Proof.
  exists (BBox 0 1 0 1 0 1), (V3 (1 + / 10 ^ 6) (1 / 2) (1 / 2)). pose proof eps6_pos.
  assert (P2 : / 10 ^ 6 < 1) by (apply Rmult_lt_reg_l with (10 ^ 6); [lra|]; rewrite Rinv_r; lra).
  split; [unfold valid_box; cbn; lra|].
  assert (E : bbox_point_belongs (BBox 0 1 0 1 0 1) (V3 (1 + / 10 ^ 6) (1 / 2) (1 / 2)) (/ 10 ^ 6) = true).
  { apply bbox_point_belongs_spec. cbn [xmin xmax ymin ymax zmin zmax x3 y3 z3]. lra. }
  unfold bbox_distance_to_point. rewrite E. cbn [xmin xmax ymin ymax zmin zmax x3 y3 z3].
  eapply Rle_lt_trans; [eapply Rle_trans; [apply Rmin_l|]; eapply Rle_trans; [apply Rmin_l|]; eapply Rle_trans; [apply Rmin_l|]; eapply Rle_trans; [apply Rmin_l|]; apply Rmin_l|]. lra.
Qed.
(** A point inside the unit rectangle at (10,10): its distance to the sides is 1/2 but the code answers with y - xmin. *)
Lemma rect_point_inside_wrong : exists b p, valid_rect b /\ inside_rect b p /\
  ~ min_dist point_distance2 (on_boundary_rect b) (eq p) (rect_distance_to_point b p).
Proof.
  exists (Rect 100 101 0 1), (V2 (100 + 1 / 2) (1 / 2)).
  split; [unfold valid_rect; cbn; lra|]. assert (I : inside_rect (Rect 100 101 0 1) (V2 (100 + 1 / 2) (1 / 2))) by (unfold inside_rect; cbn; lra).
  split; [exact I|]. unfold rect_distance_to_point. rewrite (proj2 (rect_point_belongs_spec _ _) I).
  cbn [rxmin rxmax rymin rymax x2 y2]. intros [(q & q' & _ & _ & D) _].
  assert (P : 0 <= point_distance2 q q') by apply sqrt_pos. rewrite D in P.
  revert P. repeat match goal with |- context [Rmin ?a ?b] => match a with Rmin _ _ => fail 1 | _ => destruct (Rmin_case' a b) as [[-> ?]|[-> ?]] end end; lra.
Qed.
(** the value computed for an inside point *)
Lemma rect_point_inside_value b p : inside_rect b p ->
  rect_distance_to_point b p = Rmin (Rmin (Rmin (rxmax b - x2 p) (y2 p - rxmin b)) (rymax b - y2 p)) (y2 p - rymin b).
Proof. intros I. unfold rect_distance_to_point. rewrite (proj2 (rect_point_belongs_spec _ _) I). reflexivity. Qed.

(** ** C42 *)
Lemma is_inside_rect_spec a b tol : is_inside_rect a b tol = true <->
  rxmin b - tol <= rxmin a /\ rxmax a <= rxmax b + tol /\ rymin b - tol <= rymin a /\ rymax a <= rymax b + tol.
Proof. unfold is_inside_rect. rewrite !andb_true_iff, !Rleb_spec. tauto. Qed.
Lemma is_inside_bbox_spec a b : is_inside_bbox a b = true <->
  xmin b - / 10 ^ 6 <= xmin a /\ xmax a <= xmax b + / 10 ^ 6 /\ ymin b - / 10 ^ 6 <= ymin a /\ ymax a <= ymax b + / 10 ^ 6 /\
  zmin b - / 10 ^ 6 <= zmin a /\ zmax a <= zmax b + / 10 ^ 6.
Proof. unfold is_inside_bbox. rewrite !andb_true_iff, !Rleb_spec. tauto. Qed.
Lemma common_inside a b c d : a <= b -> c <= a -> b <= d -> common a b c d = b - a.
Proof. intros. unfold common. rewrite (Rmin_left b d), (Rmax_left a c) by lra. apply Rmax_right. lra. Qed.
Lemma common_sym a b c d : common a b c d = common c d a b.
Proof. unfold common. rewrite (Rmin_comm b), (Rmax_comm a). reflexivity. Qed.
Lemma common_meet a b c d : a <= b -> c <= d -> a <= d -> c <= b -> common a b c d = Rmin b d - Rmax a c.
Proof. intros. unfold common. apply Rmax_right. unfold Rmin, Rmax. repeat destruct (Rle_dec _ _); lra. Qed.
Lemma common_empty a b c d : d <= a \/ b <= c -> common a b c d = 0.
Proof. intros H. unfold common. apply Rmax_left. unfold Rmin, Rmax. repeat destruct (Rle_dec _ _); lra. Qed.
Lemma common_bound a b c d : a <= b -> 0 <= common a b c d <= b - a.
Proof. intros H. unfold common. split; [apply Rmax_l|]. apply Rmax_lub; [lra|]. unfold Rmin, Rmax. repeat destruct (Rle_dec _ _); lra. Qed.
Lemma rect_area_pos a : valid_rect a -> 0 <= rect_area a.
Proof. intros (A & B). unfold rect_area. apply Rmult_le_pos; lra. Qed.

Lemma rect_common_le a b : valid_rect a -> common_area a b <= rect_area a.
Proof.
  intros (A & B). unfold common_area, rect_area.
  pose proof (common_bound (rxmin a) (rxmax a) (rxmin b) (rxmax b) A). pose proof (common_bound (rymin a) (rymax a) (rymin b) (rymax b) B).
  apply Rmult_le_compat; lra.
Qed.
(** exact when neither rectangle is inside the other up to the tolerance without being inside it exactly *)
Lemma rect_intersection_exact a b : valid_rect a -> valid_rect b ->
  (is_inside_rect a b (/ 10 ^ 6) = true -> rect_le a b) -> (is_inside_rect b a (/ 10 ^ 6) = true -> rect_le b a) ->
  rect_intersection_area a b = common_area a b.
Proof.
  intros VA VB HA HB. unfold rect_intersection_area.
  destruct (rect_is_intersecting a b) eqn:E; cbn [negb].
  - apply rect_is_intersecting_spec in E.
    assert (IN : forall u v, valid_rect u -> rect_le u v -> common_area u v = rect_area u).
    { intros u v (U1 & U2) (L1 & L2 & L3 & L4). unfold common_area, rect_area. rewrite !common_inside by lra. reflexivity. }
    assert (SY : common_area a b = common_area b a).
    { unfold common_area. rewrite (common_sym (rxmin a)), (common_sym (rymin a)). reflexivity. }
    destruct (is_inside_rect a b _) eqn:EA.
    + cbn [orb]. rewrite <- (IN a b VA (HA eq_refl)). apply Rmin_left. rewrite SY. apply rect_common_le, VB.
    + destruct (is_inside_rect b a _) eqn:EB; cbn [orb].
      * rewrite SY, <- (IN b a VB (HB eq_refl)). apply Rmin_right. rewrite <- SY. apply rect_common_le, VA.
      * destruct VA, VB. unfold common_area. rewrite !common_meet by lra. reflexivity.
  - assert (N : ~ ((rxmin a < rxmax b /\ rxmin b < rxmax a) /\ (rymin a < rymax b /\ rymin b < rymax a))).
    { intros K. apply rect_is_intersecting_spec in K. congruence. }
    unfold common_area. destruct (Rle_lt_dec (rxmax b) (rxmin a)) as [L|L]; [rewrite (common_empty (rxmin a)) by lra; ring|].
    destruct (Rle_lt_dec (rxmax a) (rxmin b)) as [L'|L']; [rewrite (common_empty (rxmin a)) by lra; ring|].
    rewrite (common_empty (rymin a)); [ring|]. lra.
Qed.
Lemma rect_intersection_sym a b : rect_intersection_area a b = rect_intersection_area b a.
Proof.
  unfold rect_intersection_area. rewrite (rect_is_intersecting_sym a b), (orb_comm (is_inside_rect a b _)).
  rewrite (Rmin_comm (rect_area a)), (Rmin_comm (rxmax a)), (Rmin_comm (rymax a)), (Rmax_comm (rxmin a)), (Rmax_comm (rymin a)). reflexivity.
Qed.
Lemma rect_intersection_bounds a b : valid_rect a -> valid_rect b ->
  common_area a b <= rect_intersection_area a b /\ 0 <= rect_intersection_area a b <= rect_area a /\ rect_intersection_area a b <= rect_area b.
Proof.
  intros VA VB. pose proof (rect_area_pos a VA) as PA. pose proof (rect_area_pos b VB) as PB.
  assert (SY : common_area a b = common_area b a).
  { unfold common_area. rewrite (common_sym (rxmin a)), (common_sym (rymin a)). reflexivity. }
  pose proof (rect_common_le a b VA) as CA. pose proof (rect_common_le b a VB) as CB. rewrite <- SY in CB.
  assert (CP : 0 <= common_area a b).
  { destruct VA as (A & B). unfold common_area. apply Rmult_le_pos; apply common_bound; assumption. }
  destruct (is_inside_rect a b (/ 10 ^ 6) || is_inside_rect b a (/ 10 ^ 6)) eqn:IN.
  - unfold rect_intersection_area. destruct (rect_is_intersecting a b) eqn:E; cbn [negb].
    + rewrite IN. pose proof (Rmin_l (rect_area a) (rect_area b)). pose proof (Rmin_r (rect_area a) (rect_area b)).
      assert (common_area a b <= Rmin (rect_area a) (rect_area b)) by (apply Rmin_glb; assumption). lra.
    + assert (Z : common_area a b = 0).
      { assert (N : ~ ((rxmin a < rxmax b /\ rxmin b < rxmax a) /\ (rymin a < rymax b /\ rymin b < rymax a))).
        { intros K. apply rect_is_intersecting_spec in K. congruence. }
        unfold common_area. destruct (Rle_lt_dec (rxmax b) (rxmin a)) as [L|L]; [rewrite (common_empty (rxmin a)) by lra; ring|].
        destruct (Rle_lt_dec (rxmax a) (rxmin b)) as [L'|L']; [rewrite (common_empty (rxmin a)) by lra; ring|].
        rewrite (common_empty (rymin a)); [ring|]. lra. }
      lra.
  - apply orb_false_iff in IN as [I1 I2]. rewrite rect_intersection_exact by (assumption || congruence). lra.
Qed.
Lemma rect_intersection_tolerance_wrong : exists a b, valid_rect a /\ valid_rect b /\ rect_intersection_area a b <> common_area a b.
Proof.
  pose proof eps6_pos as P.
  assert (P2 : / 10 ^ 6 < 1) by (apply Rmult_lt_reg_l with (10 ^ 6); [lra|]; rewrite Rinv_r; lra).
  set (e := / 10 ^ 6) in *.
  exists (Rect 0 1 0 1), (Rect (- e) (1 - e) 0 1). split; [unfold valid_rect; cbn; lra|split; [unfold valid_rect; cbn; lra|]].
  unfold rect_intersection_area. fold e.
  assert (E : rect_is_intersecting (Rect 0 1 0 1) (Rect (- e) (1 - e) 0 1) = true) by (apply rect_is_intersecting_spec; cbn; lra).
  assert (I : is_inside_rect (Rect 0 1 0 1) (Rect (- e) (1 - e) 0 1) e = true) by (apply is_inside_rect_spec; cbn; lra).
  rewrite E, I. cbn [negb orb]. unfold common_area, rect_area. cbn [rxmin rxmax rymin rymax].
  rewrite (common_inside 0 1 0 1) by lra. rewrite common_meet by lra. rewrite (Rmin_right 1), (Rmax_left 0) by lra.
  rewrite Rmin_left by lra. lra.
Qed.
Lemma intersection_volume_sym a b : intersection_volume a b = intersection_volume b a.
Proof.
  unfold intersection_volume. rewrite (bbox_is_intersecting_sym a b), (orb_comm (is_inside_bbox a b)).
  rewrite (Rmin_comm (bbox_volume a)), (Rmin_comm (xmax a)), (Rmin_comm (ymax a)), (Rmin_comm (zmax a)), (Rmax_comm (xmin a)), (Rmax_comm (ymin a)), (Rmax_comm (zmin a)). reflexivity.
Qed.
Lemma box_common_le a b : valid_box a -> common_volume a b <= bbox_volume a.
Proof.
  intros (A & B & C). unfold common_volume, bbox_volume.
  pose proof (common_bound (xmin a) (xmax a) (xmin b) (xmax b) A). pose proof (common_bound (ymin a) (ymax a) (ymin b) (ymax b) B).
  pose proof (common_bound (zmin a) (zmax a) (zmin b) (zmax b) C).
  apply Rmult_le_compat; [apply Rmult_le_pos; lra|lra|apply Rmult_le_compat; lra|lra].
Qed.
Lemma common_volume_sym a b : common_volume a b = common_volume b a.
Proof. unfold common_volume. rewrite (common_sym (xmin a)), (common_sym (ymin a)), (common_sym (zmin a)). reflexivity. Qed.
(** exact when the boxes share a point or are apart by more than the tolerance, and are not "almost" nested *)
Lemma intersection_volume_exact a b : valid_box a -> valid_box b ->
  (bbox_is_intersecting a b (/ 10 ^ 6) = true -> exists p, in_box a p /\ in_box b p) ->
  (is_inside_bbox a b = true -> box_le a b) -> (is_inside_bbox b a = true -> box_le b a) ->
  intersection_volume a b = common_volume a b.
Proof.
  intros VA VB HI HA HB. unfold intersection_volume.
  destruct (bbox_is_intersecting a b _) eqn:E; cbn [negb].
  - destruct (HI eq_refl) as (p & (P1 & P2 & P3) & Q1 & Q2 & Q3).
    assert (IN : forall u v, valid_box u -> box_le u v -> common_volume u v = bbox_volume u).
    { intros u v (U1 & U2 & U3) (L1 & L2 & L3 & L4 & L5 & L6). unfold common_volume, bbox_volume. rewrite !common_inside by lra. reflexivity. }
    destruct (is_inside_bbox a b) eqn:EA.
    + cbn [orb]. rewrite <- (IN a b VA (HA eq_refl)). apply Rmin_left. rewrite common_volume_sym. apply box_common_le, VB.
    + destruct (is_inside_bbox b a) eqn:EB; cbn [orb].
      * rewrite common_volume_sym, <- (IN b a VB (HB eq_refl)). apply Rmin_right. rewrite <- common_volume_sym. apply box_common_le, VA.
      * destruct VA as (? & ? & ?), VB as (? & ? & ?). unfold common_volume. rewrite !common_meet by lra. reflexivity.
  - assert (N : bbox_is_intersecting a b (/ 10 ^ 6) <> true) by congruence. rewrite bbox_is_intersecting_spec in N.
    pose proof eps6_pos as P. set (e := / 10 ^ 6) in *.
    unfold common_volume.
    destruct (Rle_lt_dec (xmax b) (xmin a)) as [L|L]; [rewrite (common_empty (xmin a)) by lra; ring|].
    destruct (Rle_lt_dec (xmax a) (xmin b)) as [L'|L']; [rewrite (common_empty (xmin a)) by lra; ring|].
    destruct (Rle_lt_dec (ymax b) (ymin a)) as [M|M]; [rewrite (common_empty (ymin a)) by lra; ring|].
    destruct (Rle_lt_dec (ymax a) (ymin b)) as [M'|M']; [rewrite (common_empty (ymin a)) by lra; ring|].
    rewrite (common_empty (zmin a)); [ring|]. destruct (Rle_lt_dec (zmax b) (zmin a)); [left; assumption|right].
    destruct (Rle_lt_dec (zmax a) (zmin b)); [assumption|]. exfalso. apply N. lra.
Qed.
Lemma intersection_volume_negative : exists a b, valid_box a /\ valid_box b /\ intersection_volume a b < 0.
Proof.
  pose proof eps6_pos as P.
  assert (P2 : / 10 ^ 6 < / 10) by (apply Rinv_lt_contravar; lra).
  exists (BBox 0 1 0 1 0 1), (BBox (1 + / 10 ^ 6) 2 0 1 0 1). split; [unfold valid_box; cbn; lra|split; [unfold valid_box; cbn; lra|]].
  unfold intersection_volume.
  assert (E : bbox_is_intersecting (BBox 0 1 0 1 0 1) (BBox (1 + / 10 ^ 6) 2 0 1 0 1) (/ 10 ^ 6) = true) by (apply bbox_is_intersecting_spec; cbn [xmin xmax ymin ymax zmin zmax]; lra).
  assert (I : is_inside_bbox (BBox 0 1 0 1 0 1) (BBox (1 + / 10 ^ 6) 2 0 1 0 1) = false) by (apply not_true_iff_false; rewrite is_inside_bbox_spec; cbn [xmin xmax ymin ymax zmin zmax]; lra).
  assert (J : is_inside_bbox (BBox (1 + / 10 ^ 6) 2 0 1 0 1) (BBox 0 1 0 1 0 1) = false) by (apply not_true_iff_false; rewrite is_inside_bbox_spec; cbn [xmin xmax ymin ymax zmin zmax]; lra).
  rewrite E, I, J. cbn [negb orb xmin xmax ymin ymax zmin zmax].
  rewrite (Rmin_left 1 2), (Rmax_right 0), (Rmin_left 1 1), (Rmax_left 0 0) by lra. lra.
Qed.

(** ** C43 *)
(** the centre of cell (i,j,k) of the nx * ny * nz subdivision *)
Lemma points_inside_nth b nx ny nz l : get_points_inside_bbox b nx ny nz = Ok l ->
  l = flat_map (fun k => flat_map (fun j => map (fun i => cell_center b nx ny nz i j k) (seq 0 nx)) (seq 0 ny)) (seq 0 nz).
Proof.
  unfold get_points_inside_bbox. destruct (Nat.eqb_spec nx 0) as [|Nx]; [discriminate|]. destruct (Nat.eqb_spec ny 0) as [|Ny]; [discriminate|].
  destruct (Nat.eqb_spec nz 0) as [|Nz]; [discriminate|]. cbn [orb]. intros E. apply Ok_inj in E. subst l.
  assert (HX : INR nx <> 0) by (apply not_0_INR; exact Nx). assert (HY : INR ny <> 0) by (apply not_0_INR; exact Ny). assert (HZ : INR nz <> 0) by (apply not_0_INR; exact Nz).
  apply flat_map_ext. intros k. apply flat_map_ext. intros j. apply map_ext. intros i.
  unfold translation3, add3, neg3, bbox_center, bbox_size, cell_center. cbn [x3 y3 z3].
  apply V3_eq; field; assumption.
Qed.
Lemma length_flat_map_const {A B} (f : A -> list B) n l : (forall a, length (f a) = n) -> length (flat_map f l) = (length l * n)%nat.
Proof. intros H. induction l; cbn; [reflexivity|]. rewrite app_length, H, IHl. reflexivity. Qed.
Lemma points_inside_length b nx ny nz l : get_points_inside_bbox b nx ny nz = Ok l -> length l = (nx * ny * nz)%nat.
Proof.
  intros E. rewrite (points_inside_nth _ _ _ _ _ E).
  rewrite (length_flat_map_const _ (ny * nx)%nat).
  - rewrite seq_length. lia.
  - intros k. rewrite (length_flat_map_const _ nx); [rewrite seq_length; reflexivity|]. intros j. rewrite map_length, seq_length. reflexivity.
Qed.
Lemma points_inside_in b nx ny nz l p : get_points_inside_bbox b nx ny nz = Ok l ->
  (In p l <-> exists i j k, (i < nx)%nat /\ (j < ny)%nat /\ (k < nz)%nat /\ p = cell_center b nx ny nz i j k).
Proof.
  intros E. rewrite (points_inside_nth _ _ _ _ _ E). rewrite in_flat_map. split.
  - intros (k & Hk & H). apply in_flat_map in H as (j & Hj & H). apply in_map_iff in H as (i & <- & Hi).
    apply in_seq in Hk, Hj, Hi. exists i, j, k. repeat split; try lia.
  - intros (i & j & k & Hi & Hj & Hk & ->). exists k. split; [apply in_seq; lia|]. apply in_flat_map. exists j.
    split; [apply in_seq; lia|]. apply in_map_iff. exists i. split; [reflexivity|apply in_seq; lia].
Qed.
Lemma points_inside_total b nx ny nz : (exists l, get_points_inside_bbox b nx ny nz = Ok l) <-> (nx <> 0 /\ ny <> 0 /\ nz <> 0)%nat.
Proof.
  unfold get_points_inside_bbox. destruct (Nat.eqb_spec nx 0); [split; [intros [l H]; discriminate|lia]|].
  destruct (Nat.eqb_spec ny 0); [split; [intros [l H]; discriminate|lia]|].
  destruct (Nat.eqb_spec nz 0); [split; [intros [l H]; discriminate|lia]|].
  split; [auto|]. intros _. eexists. reflexivity.
Qed.
Lemma cell_mid lo hi n i : lo <= hi -> (i < n)%nat -> lo <= lo + (INR i + 1 / 2) * (hi - lo) / INR n <= hi.
Proof.
  intros H L. apply lt_INR in L as L'. assert (0 <= INR i) by apply pos_INR. assert (P : 0 < INR n) by lra.
  assert (K : INR i + 1 <= INR n). { rewrite <- S_INR. apply le_INR. lia. }
  assert (Q : 0 <= (INR i + 1 / 2) / INR n <= 1).
  { split; [apply Rmult_le_pos; [lra|]; left; apply Rinv_0_lt_compat; exact P|]. apply Rmult_le_reg_r with (INR n); [exact P|]. unfold Rdiv. rewrite Rmult_assoc, Rinv_l; lra. }
  replace ((INR i + 1 / 2) * (hi - lo) / INR n) with ((INR i + 1 / 2) / INR n * (hi - lo)) by (field; lra).
  split; nra.
Qed.
Lemma points_inside_inside b nx ny nz l p : valid_box b -> get_points_inside_bbox b nx ny nz = Ok l -> In p l -> in_box b p.
Proof.
  intros (A & B & C) E H. apply (points_inside_in _ _ _ _ _ _ E) in H as (i & j & k & Hi & Hj & Hk & ->).
  unfold in_box, cell_center. cbn [x3 y3 z3]. split; [apply cell_mid; assumption|split; apply cell_mid; assumption].
Qed.

Lemma octree_boxes b : exists l, bbox_octree b = Ok l /\ l = octants b.
Proof.
  unfold bbox_octree. destruct (proj2 (points_inside_total b 2 2 2)) as [l E]; [lia|]. rewrite E. cbn [bind].
  eexists; split; [reflexivity|]. rewrite (points_inside_nth _ _ _ _ _ E). cbn [seq flat_map map app].
  unfold octants, mid, cell_center, bbox_size. cbn [x3 y3 z3].
  replace (INR 2) with 2 by (simpl; lra). replace (INR 1) with 1 by reflexivity. replace (INR 0) with 0 by reflexivity.
  assert (K : forall a1 a2 a3 a4 a5 a6 b1 b2 b3 b4 b5 b6, a1 = b1 -> a2 = b2 -> a3 = b3 -> a4 = b4 -> a5 = b5 -> a6 = b6 ->
    BBox a1 a2 a3 a4 a5 a6 = BBox b1 b2 b3 b4 b5 b6) by (intros; subst; reflexivity).
  repeat (apply (f_equal2 cons); [apply K; field|]). reflexivity.
Qed.
Lemma octree_cover b l p : valid_box b -> bbox_octree b = Ok l -> (in_box b p <-> exists o, In o l /\ in_box o p).
Proof.
  intros (A & B & C) E. destruct (octree_boxes b) as (l' & E' & ->). rewrite E in E'. apply Ok_inj in E'. subst l.
  unfold octants, in_box. split.
  - intros (X & Y & Z).
    destruct (Rle_lt_dec (x3 p) (mid (xmin b) (xmax b))); destruct (Rle_lt_dec (y3 p) (mid (ymin b) (ymax b)));
    destruct (Rle_lt_dec (z3 p) (mid (zmin b) (zmax b)));
    match goal with
    | _ : x3 p <= _, _ : y3 p <= _, _ : z3 p <= _ |- _ => eexists; split; [left; reflexivity|]
    | _ : _ < x3 p, _ : y3 p <= _, _ : z3 p <= _ |- _ => eexists; split; [right; left; reflexivity|]
    | _ : x3 p <= _, _ : _ < y3 p, _ : z3 p <= _ |- _ => eexists; split; [do 2 right; left; reflexivity|]
    | _ : _ < x3 p, _ : _ < y3 p, _ : z3 p <= _ |- _ => eexists; split; [do 3 right; left; reflexivity|]
    | _ : x3 p <= _, _ : y3 p <= _, _ : _ < z3 p |- _ => eexists; split; [do 4 right; left; reflexivity|]
    | _ : _ < x3 p, _ : y3 p <= _, _ : _ < z3 p |- _ => eexists; split; [do 5 right; left; reflexivity|]
    | _ : x3 p <= _, _ : _ < y3 p, _ : _ < z3 p |- _ => eexists; split; [do 6 right; left; reflexivity|]
    | _ => eexists; split; [do 7 right; left; reflexivity|]
    end; cbn [xmin xmax ymin ymax zmin zmax]; lra.
  - intros (o & H & I). assert (MX : xmin b <= mid (xmin b) (xmax b) <= xmax b) by (unfold mid; lra).
    assert (MY : ymin b <= mid (ymin b) (ymax b) <= ymax b) by (unfold mid; lra). assert (MZ : zmin b <= mid (zmin b) (zmax b) <= zmax b) by (unfold mid; lra).
    cbn [In] in H. repeat (destruct H as [<- | H]; [cbn [xmin xmax ymin ymax zmin zmax] in I; lra|]). contradiction.
Qed.
Lemma octree_disjoint b l : bbox_octree b = Ok l ->
  ForallOrdPairs (fun o1 o2 => forall p, ~ (inside_box o1 p /\ inside_box o2 p)) l.
Proof.
  intros E. destruct (octree_boxes b) as (l' & E' & ->). rewrite E in E'. apply Ok_inj in E'. subst l.
  unfold octants. repeat constructor; intros p; unfold inside_box; cbn [xmin xmax ymin ymax zmin zmax]; lra.
Qed.
Lemma octree_half b l o : bbox_octree b = Ok l -> In o l -> length l = 8%nat /\ bbox_size o = mul3 (bbox_size b) (1 / 2) /\ (valid_box b -> valid_box o).
Proof.
  intros E. destruct (octree_boxes b) as (l' & E' & ->). rewrite E in E'. apply Ok_inj in E'. subst l. intros H.
  split; [reflexivity|]. unfold octants in H. cbn [In] in H. unfold bbox_size, mul3, valid_box, mid in *.
  repeat (destruct H as [<- | H]; [cbn [x3 y3 z3 xmin xmax ymin ymax zmin zmax]; split; [apply V3_eq; field|intros; lra]|]). contradiction.
Qed.

(** ** C73 predicates and transforms *)
Lemma bbox_scale_spec b f : bbox_center (bbox_scale b f) = bbox_center b /\ bbox_size (bbox_scale b f) = mul3 (bbox_size b) f /\ bbox_volume (bbox_scale b f) = f ^ 3 * bbox_volume b.
Proof.
  unfold bbox_scale, bbox_center, bbox_size, bbox_volume, mul3. cbn [x3 y3 z3 xmin xmax ymin ymax zmin zmax].
  split; [apply V3_eq; field|split; [apply V3_eq; field|field]].
Qed.
Lemma bbox_scale_1 b : bbox_scale b 1 = b.
Proof. unfold bbox_scale, bbox_size. destruct b as [b1 b2 b3 b4 b5 b6]. cbn [x3 y3 z3 xmin xmax ymin ymax zmin zmax]. f_equal; field. Qed.
Lemma bbox_scale_scale b f g : bbox_scale (bbox_scale b f) g = bbox_scale b (f * g).
Proof. unfold bbox_scale, bbox_size. cbn [x3 y3 z3 xmin xmax ymin ymax zmin zmax]. f_equal; field. Qed.
Lemma bbox_scale_grows b f p : 1 <= f -> in_box b p -> in_box (bbox_scale b f) p.
Proof.
  intros F (X & Y & Z). unfold bbox_scale, bbox_size, in_box. cbn [x3 y3 z3 xmin xmax ymin ymax zmin zmax].
  repeat split; nra.
Qed.
(** no false negatives: boxes sharing a point intersect; touching is within 2*tol *)
Lemma bbox_is_intersecting_meet a b tol p : 0 <= tol -> in_box a p -> in_box b p -> bbox_is_intersecting a b tol = true.
Proof. intros T (A1 & A2 & A3) (B1 & B2 & B3). apply bbox_is_intersecting_spec. lra. Qed.
Lemma bbox_is_intersecting_0 a b : valid_box a -> valid_box b -> (bbox_is_intersecting a b 0 = true <-> exists p, in_box a p /\ in_box b p).
Proof.
  intros (A1 & A2 & A3) (B1 & B2 & B3). split.
  - intros E. apply bbox_is_intersecting_spec in E.
    exists (V3 (Rmax (xmin a) (xmin b)) (Rmax (ymin a) (ymin b)) (Rmax (zmin a) (zmin b))). unfold in_box. cbn [x3 y3 z3].
    repeat split; first [apply Rmax_l|apply Rmax_r|apply Rmax_lub; lra].
  - intros (p & A & B). eapply bbox_is_intersecting_meet; [lra|exact A|exact B].
Qed.
Lemma rect_is_intersecting_interior a b : valid_rect a -> valid_rect b ->
  ((exists p, inside_rect a p /\ inside_rect b p) -> rect_is_intersecting a b = true) /\
  (rxmin a < rxmax a -> rymin a < rymax a -> rxmin b < rxmax b -> rymin b < rymax b -> rect_is_intersecting a b = true -> exists p, inside_rect a p /\ inside_rect b p).
Proof.
  intros (A1 & A2) (B1 & B2). split.
  - intros (p & (P1 & P2) & Q1 & Q2). apply rect_is_intersecting_spec. lra.
  - intros D1 D2 D3 D4 E. apply rect_is_intersecting_spec in E.
    exists (V2 ((Rmax (rxmin a) (rxmin b) + Rmin (rxmax a) (rxmax b)) / 2) ((Rmax (rymin a) (rymin b) + Rmin (rymax a) (rymax b)) / 2)).
    unfold inside_rect. cbn [x2 y2].
    assert (K : forall a b c d, a < b -> c < d -> a < d -> c < b -> a < (Rmax a c + Rmin b d) / 2 < b /\ c < (Rmax a c + Rmin b d) / 2 < d).
    { intros. unfold Rmax, Rmin. repeat destruct (Rle_dec _ _); lra. }
    pose proof (K (rxmin a) (rxmax a) (rxmin b) (rxmax b)). pose proof (K (rymin a) (rymax a) (rymin b) (rymax b)). lra.
Qed.
Lemma bbox_is_close_spec a b tol : 0 <= tol -> (bbox_is_close a b tol = true <->
  point_distance3 (V3 (xmin a) (ymin a) (zmin a)) (V3 (xmin b) (ymin b) (zmin b)) <= tol /\
  point_distance3 (V3 (xmax a) (ymax a) (zmax a)) (V3 (xmax b) (ymax b) (zmax b)) <= tol).
Proof. intros T. unfold bbox_is_close. rewrite andb_true_iff, !is_close3_spec by exact T. tauto. Qed.
Lemma bbox_is_close_0 a b : bbox_is_close a b 0 = true <-> a = b.
Proof.
  rewrite bbox_is_close_spec by lra.
  assert (K : forall u v, point_distance3 u v <= 0 <-> u = v).
  { intros u v. unfold point_distance3. pose proof (norm3_pos (sub3 u v)) as P. split.
    - intros H. assert (Z : norm3 (sub3 u v) = 0) by lra. apply norm3_zero in Z.
      pose proof (f_equal x3 Z). pose proof (f_equal y3 Z). pose proof (f_equal z3 Z). unfold sub3 in *. cbn [x3 y3 z3] in *.
      destruct u as [u1 u2 u3], v as [v1 v2 v3]. cbn [x3 y3 z3] in *. apply V3_eq; lra.
    - intros ->. right. apply norm3_zero. unfold sub3. apply V3_eq; ring. }
  rewrite !K. destruct a as [a1 a2 a3 a4 a5 a6], b as [b1 b2 b3 b4 b5 b6]. cbn [xmin xmax ymin ymax zmin zmax]. split.
  - intros [H1 H2]. congruence.
  - intros H. split; congruence.
Qed.

(** ** C50 *)
Lemma element_in_list_spec {A} (c : A -> A -> bool) e l : element_in_list c e l = true <-> exists x, In x l /\ c e x = true.
Proof.
  induction l as [|x l IH]; cbn [element_in_list In].
  - split; [discriminate|intros (x & [] & _)].
  - destruct (c e x) eqn:E.
    + split; [|reflexivity]. intros _. exists x. split; [left; reflexivity|exact E].
    + rewrite IH. split.
      * intros (y & Hy & Ey). exists y. split; [right; exact Hy|exact Ey].
      * intros (y & [-> | Hy] & Ey); [congruence|]. exists y. split; assumption.
Qed.
Lemma get_index_from_spec {A} (c : A -> A -> bool) e l : forall i,
  match get_element_index_from c i e l with
  | Some n => (i <= n < i + length l)%nat /\ (exists x, nth_error l (n - i) = Some x /\ c x e = true) /\
              (forall m x, (m < n - i)%nat -> nth_error l m = Some x -> c x e = false)
  | None => forall x, In x l -> c x e = false
  end.
Proof.
  induction l as [|x l IH]; intros i; cbn [get_element_index_from length].
  - intros x [].
  - destruct (c x e) eqn:E.
    + split; [lia|]. rewrite Nat.sub_diag. split; [exists x; split; [reflexivity|exact E]|intros; lia].
    + specialize (IH (S i)). destruct (get_element_index_from c (S i) e l) as [n|].
      * destruct IH as (L & (y & Hy & Ey) & F). split; [lia|].
        replace (n - i)%nat with (S (n - S i)) by lia. split.
        -- exists y. split; assumption.
        -- intros [|m] z Hm Hz; cbn in Hz; [congruence|]. apply (F m z); [lia|exact Hz].
      * intros y [<- | Hy]; [exact E|apply IH, Hy].
Qed.
Lemma get_index_some {A} (c : A -> A -> bool) e l n : get_element_index_in_list c e l = Some n <->
  (exists x, nth_error l n = Some x /\ c x e = true) /\ (forall m x, (m < n)%nat -> nth_error l m = Some x -> c x e = false).
Proof.
  unfold get_element_index_in_list. pose proof (get_index_from_spec c e l 0) as S.
  destruct (get_element_index_from c 0 e l) as [k|].
  - destruct S as (L & (x & Hx & Ex) & F). rewrite Nat.sub_0_r in *. split.
    + intros [= <-]. split; [exists x; split; assumption|exact F].
    + intros ((y & Hy & Ey) & G). f_equal. destruct (lt_eq_lt_dec k n) as [[K|K]|K]; [|exact K|].
      * rewrite (G k x K Hx) in Ex. discriminate.
      * rewrite (F n y K Hy) in Ey. discriminate.
  - split; [discriminate|]. intros ((x & Hx & Ex) & _). rewrite (S x) in Ex; [discriminate|]. eapply nth_error_In, Hx.
Qed.
Lemma get_index_none {A} (c : A -> A -> bool) e l : get_element_index_in_list c e l = None <-> forall x, In x l -> c x e = false.
Proof.
  unfold get_element_index_in_list. pose proof (get_index_from_spec c e l 0) as S.
  destruct (get_element_index_from c 0 e l) as [k|]; [|tauto].
  destruct S as (L & (x & Hx & Ex) & F). split; [discriminate|]. intros H. rewrite (H x) in Ex; [discriminate|]. eapply nth_error_In, Hx.
Qed.
Lemma index_in_list_agree {A} (c : A -> A -> bool) e l : (forall x y, c x y = c y x) ->
  (element_in_list c e l = true <-> get_element_index_in_list c e l <> None).
Proof.
  intros S. rewrite get_index_none, element_in_list_spec. split.
  - intros (x & Hx & E) N. rewrite S, (N x Hx) in E. discriminate.
  - intros N. destruct (element_in_list c e l) eqn:E; [apply element_in_list_spec, E|]. exfalso. apply N. intros x Hx.
    destruct (c x e) eqn:D; [|reflexivity]. assert (T : element_in_list c e l = true) by (apply element_in_list_spec; exists x; split; [exact Hx|rewrite S; exact D]). congruence.
Qed.
Lemma dd_snoc {A} (eqb : A -> A -> bool) l p : delete_double_point eqb (l ++ [p]) =
  let d := delete_double_point eqb l in if existsb (eqb p) d then d else d ++ [p].
Proof. unfold delete_double_point. rewrite fold_left_app. reflexivity. Qed.
Section DD.
  Context {A : Type} (eqb : A -> A -> bool).
  Hypothesis eqb_eq : forall x y, eqb x y = true <-> x = y.
  Lemma existsb_in x l : existsb (eqb x) l = true <-> In x l.
  Proof.
    rewrite existsb_exists. split.
    - intros (y & Hy & E). apply eqb_eq in E. subst. exact Hy.
    - intros H. exists x. split; [exact H|apply eqb_eq; reflexivity].
  Qed.
  Lemma dd_in l x : In x (delete_double_point eqb l) <-> In x l.
  Proof.
    induction l as [|p l IH] using rev_ind; [reflexivity|]. rewrite dd_snoc. cbn zeta.
    destruct (existsb (eqb p) _) eqn:E.
    - apply existsb_in in E. rewrite IH, in_app_iff. cbn. split; [tauto|]. intros [H|[<-|[]]]; [exact H|apply IH, E].
    - rewrite !in_app_iff, IH. tauto.
  Qed.
  Lemma dd_nodup l : NoDup (delete_double_point eqb l).
  Proof.
    induction l as [|p l IH] using rev_ind; [constructor|]. rewrite dd_snoc. cbn zeta.
    destruct (existsb (eqb p) _) eqn:E; [exact IH|].
    assert (N : ~ In p (delete_double_point eqb l)) by (rewrite <- existsb_in, E; discriminate).
    rewrite <- (rev_involutive (_ ++ [p])). apply NoDup_rev. rewrite rev_app_distr. cbn. constructor.
    - rewrite <- in_rev. exact N.
    - apply NoDup_rev, IH.
  Qed.
  (** the kept points are the first occurrences, in order: what is kept of a prefix is a prefix of what is kept *)
  Lemma dd_prefix l l' : exists r, delete_double_point eqb (l ++ l') = delete_double_point eqb l ++ r.
  Proof.
    induction l' as [|p l' IH] using rev_ind.
    - exists []. rewrite !app_nil_r. reflexivity.
    - destruct IH as [r E]. rewrite app_assoc, dd_snoc, E. cbn zeta. destruct (existsb _ _).
      + exists r. reflexivity.
      + exists (r ++ [p]). rewrite app_assoc. reflexivity.
  Qed.
  Lemma dd_first l p : delete_double_point eqb (l ++ [p]) =
    (if existsb (eqb p) l then delete_double_point eqb l else delete_double_point eqb l ++ [p]).
  Proof.
    rewrite dd_snoc. cbn zeta. assert (X : existsb (eqb p) (delete_double_point eqb l) = existsb (eqb p) l).
    { apply Bool.eq_iff_eq_true. rewrite !existsb_in. apply dd_in. }
    rewrite X. reflexivity.
  Qed.
End DD.
Lemma eqb3_eq p q : eqb3 p q = true <-> p = q.
Proof.
  unfold eqb3. rewrite !andb_true_iff, !Reqb_spec. destruct p as [p1 p2 p3], q as [q1 q2 q3]. cbn [x3 y3 z3]. split.
  - intros [[-> ->] ->]. reflexivity.
  - intros [= -> -> ->]. tauto.
Qed.
Lemma is_close3_sym p q t : is_close3 p q t = is_close3 q p t.
Proof.
  unfold is_close3, point_distance3. assert (E : norm3 (sub3 p q) = norm3 (sub3 q p)) by (unfold norm3, sub3; cbn [x3 y3 z3]; f_equal; ring).
  rewrite E. reflexivity.
Qed.
Lemma point_in_list_agree p l t : 0 <= t -> point_in_list3 p l t = element_in_list (fun a b => is_close3 a b t) p l.
Proof.
  intros T. apply Bool.eq_iff_eq_true. rewrite element_in_list_spec.
  assert (X : point_in_list3 p l t = in_list3 p l t) by (destruct l; reflexivity). rewrite X. unfold in_list3. rewrite existsb_exists.
  assert (K : forall q, Rleb ((x3 q - x3 p) * (x3 q - x3 p) + (y3 q - y3 p) * (y3 q - y3 p) + (z3 q - z3 p) * (z3 q - z3 p)) (t * t) = true <-> is_close3 p q t = true).
  { intros q. rewrite is_close3_spec, Rleb_spec by exact T. unfold point_distance3.
    pose proof (norm3_sq (sub3 p q)) as S. pose proof (norm3_pos (sub3 p q)) as P.
    replace ((x3 q - x3 p) * (x3 q - x3 p) + (y3 q - y3 p) * (y3 q - y3 p) + (z3 q - z3 p) * (z3 q - z3 p)) with (norm3 (sub3 p q) * norm3 (sub3 p q)).
    - set (n := norm3 (sub3 p q)) in *. clearbody n. split; intros H; [|apply Rmult_le_compat; lra].
      destruct (Rle_lt_dec n t); [assumption|]. exfalso. assert (t * t < n * n) by (apply Rmult_le_0_lt_compat; lra). lra.
    - rewrite S. unfold dot3, sub3. cbn [x3 y3 z3]. ring. }
  split; intros (q & Hq & E); exists q; (split; [exact Hq|]); apply K, E.
Qed.
