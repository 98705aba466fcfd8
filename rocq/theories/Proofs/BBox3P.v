(** More on boxes: centre, size, corners, inclusion tests. *)
From Coq Require Import Reals Lra Lia List Bool.
From Verif.Model Require Import RBase Vec BBox Polygon.
From Verif.Spec Require Import BBoxSpec PolygonSpec.
From Verif.Proofs Require Import VecP BBoxP BBox2P PolygonP PolyAreaP.
Import ListNotations.
Open Scope R_scope.

Lemma is_inside_rect_sound a b tol : is_inside_rect a b tol = true <->
  rect_le a (Rect (rxmin b - tol) (rxmax b + tol) (rymin b - tol) (rymax b + tol)).
Proof. unfold is_inside_rect, rect_le. rewrite !andb_true_iff, !Rleb_spec. cbn [rxmin rxmax rymin rymax]. tauto. Qed.
Lemma is_inside_bbox_sound a b : let t := / 10 ^ 6 in is_inside_bbox a b = true <->
  box_le a (BBox (xmin b - t) (xmax b + t) (ymin b - t) (ymax b + t) (zmin b - t) (zmax b + t)).
Proof. unfold is_inside_bbox, box_le. rewrite !andb_true_iff, !Rleb_spec. cbn [xmin xmax ymin ymax zmin zmax]. tauto. Qed.
Lemma bbox_center_spec b : bbox_center b = V3 (mid (xmin b) (xmax b)) (mid (ymin b) (ymax b)) (mid (zmin b) (zmax b)) /\ (valid_box b -> in_box b (bbox_center b)).
Proof.
  assert (E : bbox_center b = V3 (mid (xmin b) (xmax b)) (mid (ymin b) (ymax b)) (mid (zmin b) (zmax b))) by (unfold bbox_center, mid; v_eq; field).
  split; [exact E|]. rewrite E. unfold valid_box, in_box, mid. cbn [x3 y3 z3]. lra.
Qed.
Lemma rect_center_spec b : rect_center b = V2 (mid (rxmin b) (rxmax b)) (mid (rymin b) (rymax b)) /\ (valid_rect b -> in_rect b (rect_center b)).
Proof.
  assert (E : rect_center b = V2 (mid (rxmin b) (rxmax b)) (mid (rymin b) (rymax b))) by (unfold rect_center, mid; v_eq; field).
  split; [exact E|]. rewrite E. unfold valid_rect, in_rect, mid. cbn [x2 y2]. lra.
Qed.
Lemma bbox_size_volume b : valid_box b ->
  bbox_size b = V3 (common (xmin b) (xmax b) (xmin b) (xmax b)) (common (ymin b) (ymax b) (ymin b) (ymax b)) (common (zmin b) (zmax b) (zmin b) (zmax b)) /\
  bbox_volume b = common_volume b b /\ 0 <= bbox_volume b /\
  bbox_volume b = x3 (bbox_size b) * y3 (bbox_size b) * z3 (bbox_size b).
Proof.
  intros (X & Y & Z). assert (C : forall lo hi, lo <= hi -> common lo hi lo hi = hi - lo).
  { intros lo hi H. unfold common. rewrite (Rmin_left hi hi), (Rmax_left lo lo), Rmax_right; lra. }
  unfold common_volume. rewrite !C by auto. unfold bbox_size, bbox_volume. cbn [x3 y3 z3]. split; [reflexivity|]. split; [reflexivity|]. split; [|reflexivity].
  repeat apply Rmult_le_pos; lra.
Qed.
(** the bounding points run counter-clockwise around the rectangle and enclose its area *)
Lemma rect_points_area b : valid_rect b -> sum_sides (tri2 O2D) (rect_points b) = 2 * rect_area b /\
  polygon_area (rect_points b) = rect_area b /\ rect_area b = common_area b b.
Proof.
  intros (X & Y). assert (S : sum_sides (tri2 O2D) (rect_points b) = 2 * rect_area b).
  { unfold rect_points, rect_area, sum_sides, tri2, O2D. cbn [sides sides_from fold_right fst snd x2 y2]. ring. }
  assert (P : 0 <= rect_area b) by (unfold rect_area; apply Rmult_le_pos; lra).
  split; [exact S|]. split.
  - rewrite (area_fan _ O2D), S, Rabs_right by lra. field.
  - assert (C : forall lo hi, lo <= hi -> common lo hi lo hi = hi - lo).
    { intros lo hi H. unfold common. rewrite (Rmin_left hi hi), (Rmax_left lo lo), Rmax_right; lra. }
    unfold common_area, rect_area. rewrite !C by auto. reflexivity.
Qed.
Lemma rect_points_corners b p : In p (rect_points b) <-> (x2 p = rxmin b \/ x2 p = rxmax b) /\ (y2 p = rymin b \/ y2 p = rymax b).
Proof.
  unfold rect_points. cbn [In]. destruct p as [px py]. cbn [x2 y2]. split.
  - intros [H|[H|[H|[H|[]]]]]; pose proof (f_equal x2 H) as A; pose proof (f_equal y2 H) as B; cbn [x2 y2] in A, B; subst; auto.
  - intros [[-> | ->] [-> | ->]]; auto.
Qed.
Lemma bbox_points_corners b p : In p (bbox_points b) <->
  (x3 p = xmin b \/ x3 p = xmax b) /\ (y3 p = ymin b \/ y3 p = ymax b) /\ (z3 p = zmin b \/ z3 p = zmax b).
Proof.
  unfold bbox_points. cbn [In]. destruct p as [px py pz]. cbn [x3 y3 z3]. split.
  - intros [H|[H|[H|[H|[H|[H|[H|[H|[]]]]]]]]]; pose proof (f_equal x3 H) as A; pose proof (f_equal y3 H) as B; pose proof (f_equal z3 H) as C; cbn [x3 y3 z3] in A, B, C; subst; auto.
  - intros [[-> | ->] [[-> | ->] [-> | ->]]]; tauto.
Qed.
