(** Segments of space: intersections, distance, box, and three methods that are wrong. *)
From Verif.Model Require Import Base RBase Vec Frame BBox Geometry Curves Edges.
From Verif.Spec Require Import VecSpec CurvesSpec PlaneSpec BBoxSpec EdgesSpec.
From Verif.Proofs Require Import VecP LineP CurvesP CurvesP2 BBoxP GeometryP EdgesP EdgesP3 EdgesP4 EdgesP5 EdgesP7 EdgesP8.
From Coq Require Import List Lra Lia Psatz.
Import ListNotations.
Open Scope R_scope.

Lemma sg3_belongs_yes s p tol : proper3 s -> 0 <= tol -> near_segment3 s p tol -> sg3_point_belongs s p tol = Ok true.
Proof. intros H T N. destruct (sg3_belongs_spec s p tol H T) as (b & E & B). rewrite E. f_equal. apply B, N. Qed.
Lemma on_near3 s p tol : 0 <= tol -> on_segment3 s p -> near_segment3 s p tol.
Proof. intros T H. exists p. split; auto. rewrite (proj2 (dist3_zero p p) eq_refl). auto. Qed.
Lemma on_seg_line3 s p : on_segment3 s p -> on_line3 s p.
Proof. intros (t & _ & ->). exists t. reflexivity. Qed.
Lemma sg3_inter_sound s t tol q pts : proper3 s -> proper3 t -> 0 <= tol -> sg3_intersections s t tol = Ok pts -> In q pts ->
  near_segment3 s q tol /\ near_segment3 t q tol.
Proof.
  intros H1 H2 T E I. unfold sg3_intersections in E. destruct (line3_intersection s t (/ 10 ^ 6)) as [[p|]|]; cbn [bind] in E; try discriminate.
  2:{ apply Ok_inj in E. subst pts. destruct I. }
  destruct (sg3_belongs_spec s p tol H1 T) as (b & Eb & B). rewrite Eb in E. cbn [bind] in E. destruct b; [|apply Ok_inj in E; subst pts; destruct I].
  destruct (sg3_belongs_spec t p tol H2 T) as (b & Eb2 & B2). rewrite Eb2 in E. cbn [bind] in E. destruct b; [|apply Ok_inj in E; subst pts; destruct I].
  apply Ok_inj in E. subst pts. destruct I as [<-|[]]. split; [apply B|apply B2]; reflexivity.
Qed.
Lemma sg3_inter_complete s t tol p : proper3 s -> proper3 t -> 0 <= tol ->
  is_colinear_to3 (dir3 s) (dir3 t) (/ 10 ^ 6) = false -> cross3 (dir3 s) (dir3 t) <> V3 0 0 0 ->
  (dot3 (dir3 s) (dir3 t) = 0 \/ / 10 ^ 6 < Rabs (dot3 (dir3 s) (dir3 t))) ->
  on_segment3 s p -> on_segment3 t p -> sg3_intersections s t tol = Ok [p].
Proof.
  intros H1 H2 T C N D P1 P2. unfold sg3_intersections.
  rewrite (line3_intersection_complete s t (/ 10 ^ 6) p) by (auto using on_seg_line3; pose proof (pow10_inv_pos 6); lra). cbn [bind].
  rewrite sg3_belongs_yes, sg3_belongs_yes by auto using on_near3. reflexivity.
Qed.

(** bounding box *)
Lemma sg3_box_in s p : on_segment3 s p -> in_box (sg3_bounding_box s) p.
Proof.
  intros (t & T & ->). destruct s as [[a b c] [a' b' c']]. unfold in_box, sg3_bounding_box, add3, mul3, sub3. cbn [fst snd x3 y3 z3 xmin xmax ymin ymax zmin zmax].
  assert (G : forall u v, Rmin u v <= u + t * (v - u) <= Rmax u v).
  { intros u v. unfold Rmin, Rmax. destruct (Rle_dec u v); split; nra. }
  pose proof (G a a'). pose proof (G b b'). pose proof (G c c'). rewrite !(Rmult_comm _ t). lra.
Qed.
Lemma sg3_box_least s b : (forall p, on_segment3 s p -> in_box b p) -> box_le (sg3_bounding_box s) b.
Proof.
  intros H. assert (A : in_box b (fst s)). { apply H. exists 0. split; [lra|]. destruct s as [[] []]. vec; v_eq; ring. }
  assert (B : in_box b (snd s)). { apply H. exists 1. split; [lra|]. destruct s as [[] []]. vec; v_eq; ring. }
  unfold in_box, box_le, sg3_bounding_box in *. cbn [xmin xmax ymin ymax zmin zmax].
  unfold Rmin, Rmax. repeat destruct (Rle_dec _ _); lra.
Qed.

(** distance *)
Lemma sg3_distance_cross s t p q : proper3 s -> proper3 t ->
  get_minimum_distance_points_lines (fst s) (snd s) (fst t) (snd t) = (p, q) ->
  line_point_belongs_with_points (fst s) (snd s) (fst t) = false -> line_point_belongs_with_points (fst s) (snd s) (snd t) = false ->
  cross3 (dir3 s) (dir3 t) <> V3 0 0 0 -> on_segment3 s p -> on_segment3 t q ->
  sg3_distance s t = Ok (point_distance3 p q, p, q) /\ min_dist point_distance3 (on_segment3 s) (on_segment3 t) (point_distance3 p q).
Proof.
  intros H1 H2 E B1 B2 C P Q. destruct (min_lines_cross _ _ _ _ _ _ E B1 B2 C) as (_ & _ & _ & M). split.
  - unfold sg3_distance. rewrite E. pose proof (pow10_inv_pos 6). rewrite sg3_belongs_yes by (auto; try lra; apply on_near3; auto; lra). cbn [bind].
    rewrite sg3_belongs_yes by (auto; try lra; apply on_near3; auto; lra). reflexivity.
  - split; [exists p, q; auto|]. intros x y (a & _ & ->) (b & _ & ->). apply M.
Qed.
Lemma sg3_distance_near s t d p q : proper3 s -> proper3 t -> sg3_distance s t = Ok (d, p, q) ->
  d = point_distance3 p q /\ near_segment3 s p (/ 10 ^ 6) /\ near_segment3 t q (/ 10 ^ 6).
Proof.
  intros H1 H2 E. pose proof (pow10_inv_pos 6) as T. unfold sg3_distance in E. destruct (get_minimum_distance_points_lines _ _ _ _) as [a b].
  destruct (sg3_belongs_spec s a (/ 10 ^ 6) H1 (Rlt_le _ _ T)) as (b1 & Eb & B). rewrite Eb in E. cbn [bind] in E. cbv zeta in E.
  destruct (sg3_belongs_spec t b (/ 10 ^ 6) H2 (Rlt_le _ _ T)) as (b2 & Eb2 & B2). rewrite Eb2 in E. cbn [bind] in E.
  apply Ok_inj in E. apply pair_equal_spec in E as [E <-]. apply pair_equal_spec in E as [<- <-]. split; [reflexivity|].
  assert (F : forall s : sg3, on_segment3 s (fst s)). { intros r. exists 0. split; [lra|]. destruct r as [[] []]. vec; v_eq; ring. }
  assert (G : forall s : sg3, on_segment3 s (snd s)). { intros r. exists 1. split; [lra|]. destruct r as [[] []]. vec; v_eq; ring. }
  split.
  - destruct b1; [apply B; reflexivity|]. destruct (Rltb _ _); apply on_near3; auto; lra.
  - destruct b2; [apply B2; reflexivity|]. destruct (Rltb _ _); apply on_near3; auto; lra.
Qed.
(** a lower bound always holds *)
Lemma sg3_distance_lower s t d p q m : proper3 s -> proper3 t -> sg3_distance s t = Ok (d, p, q) ->
  min_dist point_distance3 (on_segment3 s) (on_segment3 t) m -> m - 2 * / 10 ^ 6 <= d.
Proof.
  intros H1 H2 E [_ M]. destruct (sg3_distance_near s t d p q H1 H2 E) as (-> & (a & A & DA) & (b & B & DB)). specialize (M a b A B).
  pose proof (dist3_triangle a p b). pose proof (dist3_triangle p q b). assert (SY : forall x y, point_distance3 x y = point_distance3 y x).
  { intros x y. unfold point_distance3. replace (sub3 x y) with (mul3 (sub3 y x) (-1)) by (destruct x, y; vec; v_eq; ring). rewrite norm3_scale. rewrite Rabs_left by lra. ring. }
  rewrite (SY a p) in *. lra.
Qed.
Definition dw1 : sg3 := (V3 0 0 0, V3 10 0 0).
Definition dw2 : sg3 := (V3 1 1 0, V3 2 2 0).
Lemma sqrt_gt1 : 1 < sqrt 2.
Proof. rewrite <- sqrt_1 at 1. apply sqrt_lt_1; lra. Qed.
Lemma sg3_distance_wrong : exists s t d p q, proper3 s /\ proper3 t /\ min_dist point_distance3 (on_segment3 s) (on_segment3 t) 1 /\
  sg3_distance s t = Ok (d, p, q) /\ 14 / 10 < d.
Proof.
  exists dw1, dw2. eexists _, _, _. split; [|split; [|split; [|split]]].
  - intros H. pose proof (f_equal x3 H) as X. cbn in X. lra.
  - intros H. pose proof (f_equal x3 H) as X. cbn in X. lra.
  - split.
    + exists (V3 1 0 0), (V3 1 1 0). split; [exists (1/10); split; [lra|]; unfold dw1, dw2; vec; v_eq; field|]. split; [exists 0; split; [lra|]; unfold dw1, dw2; vec; v_eq; ring|].
      unfold point_distance3, norm3, sub3, dot3. cbn [x3 y3 z3]. replace (_ + _ + _) with 1 by ring. apply sqrt_1.
    + intros a b (u & U & ->) (v & V & ->). unfold point_distance3. rewrite <- sqrt_1 at 1. unfold norm3. apply sqrt_le_1_alt. unfold dw1, dw2. vec. pose proof (Rle_0_sqr (10 * u - (1 + v))) as SQ. unfold Rsqr in SQ. nra.
  - unfold sg3_distance, get_minimum_distance_points_lines, line_point_belongs_with_points, dw1, dw2. cbn [fst snd].
    assert (NB : forall p, 1 <= y3 p -> z3 p = 0 -> Rltb (norm3 (cross3 (sub3 p (V3 0 0 0)) (sub3 (V3 10 0 0) (V3 0 0 0))) / norm3 (sub3 (V3 10 0 0) (V3 0 0 0))) (/ 10 ^ 6) = false).
    { intros p Y Z. apply Rltb_false. replace (norm3 (sub3 _ (V3 0 0 0))) with 10.
      2:{ unfold norm3. symmetry. apply sqrt_of_sq; vec; lra. }
      replace (norm3 _) with (10 * y3 p).
      2:{ unfold norm3. symmetry. apply sqrt_of_sq. lra. destruct p as [a b c]. cbn [y3 z3] in *. subst c. vec. ring. }
      pose proof (tols). lra. }
    rewrite !NB by (cbn [y3 z3]; lra). cbv zeta. rewrite (proj2 (Reqb_false _ 0)) by (vec; lra). 
    match goal with |- context [sg3_point_belongs ?s ?p ?t] => assert (E1 : p = V3 0 0 0) by (vec; v_eq; field); rewrite E1 end.
    match goal with |- context [sg3_point_belongs (V3 1 1 0, _) ?p ?t] => assert (E2 : p = V3 0 0 0) by (vec; v_eq; field); rewrite E2 end.
    rewrite sg3_belongs_yes; [cbn [bind]| | lra | apply on_near3; [lra|]; exists 0; split; [lra|]; vec; v_eq; ring].
    2:{ intros H. pose proof (f_equal x3 H) as X. cbn in X. lra. }
    destruct (sg3_belongs_spec (V3 1 1 0, V3 2 2 0) (V3 0 0 0) (/ 10 ^ 6)) as (b & Eb & B); [|lra|].
    { intros H. pose proof (f_equal x3 H) as X. cbn in X. lra. }
    rewrite Eb. cbn [bind]. destruct b.
    { exfalso. destruct (proj1 B eq_refl) as (r & (u & U & ->) & D). assert (1 <= / 10 ^ 6); [|lra]. apply Rle_trans with (2 := D).
      unfold point_distance3. rewrite <- sqrt_1 at 1. unfold norm3. apply sqrt_le_1_alt. vec. nra. }
    rewrite (proj2 (Rltb_spec _ _)); [reflexivity|]. unfold point_distance3, norm3. apply sqrt_lt_1; vec; lra.
  - unfold point_distance3, norm3. rewrite <- (sqrt_square (14 / 10)) at 1 by lra. apply sqrt_lt_1; vec; lra.
Qed.
(** ... [in] says yes far from the segment and no in its middle *)
Lemma sg3_contains_wrong : (exists s p, proper3 s /\ on_segment3 s p /\ sg3_contains s p = false) /\
  (exists s p, proper3 s /\ ~ near_segment3 s p 3 /\ sg3_contains s p = true).
Proof.
  split.
  - exists (V3 0 0 0, V3 2 0 0), (V3 1 0 0). split; [|split].
    + intros H. pose proof (f_equal x3 H) as X. cbn in X. lra.
    + exists (1 / 2). split; [lra|]. vec; v_eq; field.
    + unfold sg3_contains. apply close3_no; [lra|]. unfold rotation3, dir3. cbn [fst snd]. rewrite cos_PI, sin_PI.
      apply Rlt_le_trans with 1; [lra|]. unfold point_distance3, norm3. rewrite <- sqrt_1 at 1. apply sqrt_le_1_alt. vec. lra.
  - exists (V3 0 0 0, V3 1 0 0), (V3 5 0 0). split; [|split].
    + intros H. pose proof (f_equal x3 H) as X. cbn in X. lra.
    + intros (q & (u & U & ->) & D). assert (4 <= 3); [|lra]. apply Rle_trans with (2 := D). unfold point_distance3, norm3. rewrite <- (sqrt_square 4) at 1 by lra. apply sqrt_le_1_alt. unfold dw1, dw2. vec. nra.
    + unfold sg3_contains. apply close3_yes; [lra|]. unfold rotation3, dir3. cbn [fst snd]. rewrite cos_PI, sin_PI.
      replace (point_distance3 _ _) with 0; [lra|]. symmetry. apply dist3_zero. vec; v_eq; ring.
Qed.
(** ... exact meaning: the point is (nearly) fixed by the half turn; right on the axis for unit segments only *)
Lemma sg3_contains_unit s t : sg3_length s = 1 -> sg3_contains s (seg3 (fst s) (snd s) t) = true.
Proof.
  intros L. unfold sg3_contains. apply close3_yes; [lra|]. unfold seg3. change (sub3 (snd s) (fst s)) with (dir3 s).
  assert (D : dot3 (dir3 s) (dir3 s) = 1). { rewrite <- norm3_sq. change (norm3 (dir3 s)) with (sg3_length s). rewrite L. ring. }
  replace (add3 (fst s) (mul3 (dir3 s) t)) with (add3 (fst s) (mul3 (dir3 s) t)) by reflexivity.
  rewrite rotation3_axis by auto. rewrite (proj2 (dist3_zero _ _) eq_refl). lra.
Qed.
(** ... to_bspline_curve interpolates points at the abscissas i / length *)
Lemma sg3_bspline_points_is s n : proper3 s -> sg3_bspline_points s n =
  Ok (map (fun i => seg3 (fst s) (snd s) (INR i / (sg3_length s * sg3_length s))) (seq 0 (n + 1))).
Proof.
  intros H. unfold sg3_bspline_points. apply mapM_map2. intros i. pose proof (sg3_length_pos s H).
  rewrite (proj2 (Reqb_false (sg3_length s) 0)) by lra. rewrite sg3_pat_param by auto. do 2 f_equal. field. lra.
Qed.
Lemma sg3_bspline_points_wrong : exists s n pts p, proper3 s /\ sg3_bspline_points s n = Ok pts /\ In p pts /\ ~ near_segment3 s p 8.
Proof.
  set (s := (V3 0 0 0, V3 1 0 0)). assert (H : proper3 s). { intros H. pose proof (f_equal x3 H) as X. cbn in X. lra. }
  exists s, 10%nat. eexists. exists (V3 10 0 0). split; [exact H|]. split; [apply sg3_bspline_points_is; exact H|].
  assert (L : sg3_length s = 1). { unfold sg3_length, point_distance3, norm3, s. cbn [fst snd]. apply sqrt_of_sq; vec; lra. }
  split.
  - apply in_map_iff. exists 10%nat. split; [|apply in_seq; lia]. rewrite L. replace (INR 10) with 10 by (rewrite INR_IZR_INZ; reflexivity). unfold s, seg3. vec; v_eq; field.
  - intros (q & (u & U & ->) & D). assert (9 <= 8); [|lra]. apply Rle_trans with (2 := D). unfold point_distance3, norm3. rewrite <- (sqrt_square 9) at 1 by lra. apply sqrt_le_1_alt. unfold s. vec. nra.
Qed.
