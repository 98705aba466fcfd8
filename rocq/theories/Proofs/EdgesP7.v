(** Segments: intersections with lines and segments. *)
From Verif.Model Require Import Base RBase Vec Frame BBox Geometry Curves Edges.
From Verif.Spec Require Import VecSpec CurvesSpec PlaneSpec BBoxSpec EdgesSpec.
From Verif.Proofs Require Import VecP LineP CurvesP BBoxP EdgesP EdgesP3 EdgesP4.
From Coq Require Import List Lra Lia Psatz.
Import ListNotations.
Open Scope R_scope.

Lemma cauchy2 u v : Rabs (dot2 u v) <= norm2 u * norm2 v.
Proof.
  apply sq_le; [apply Rmult_le_pos; apply norm2_pos|]. replace (norm2 u * norm2 v * (norm2 u * norm2 v)) with ((norm2 u * norm2 u) * (norm2 v * norm2 v)) by ring.
  rewrite !norm2_sq. rewrite <- Rabs_mult, Rabs_right by (apply Rle_ge, Rle_0_sqr). pose proof (Rle_0_sqr (cross2 u v)) as K. unfold Rsqr in K. vec. nra.
Qed.
Lemma colinear2_no u v tol : 0 <= tol -> u <> V2 0 0 -> v <> V2 0 0 ->
  (is_colinear_to2 u v tol = false <-> Rabs (dot2 u v) < (1 - Rmax tol (/ 10 ^ 9)) * (norm2 u * norm2 v)).
Proof.
  intros T U V. apply norm2_ne in U, V. unfold is_colinear_to2.
  rewrite (proj2 (Reqb_false (norm2 u) 0)) by lra. rewrite (proj2 (Reqb_false (norm2 v) 0)) by lra.
  pose proof (cauchy2 u v) as C. set (c := Rabs (dot2 u v) / norm2 u / norm2 v).
  assert (P : 0 < norm2 u * norm2 v) by (apply Rmult_lt_0_compat; auto).
  assert (E : Rabs (dot2 u v) = c * (norm2 u * norm2 v)) by (unfold c; field; lra).
  assert (C0 : 0 <= c). { apply Rmult_le_reg_r with (norm2 u * norm2 v); auto. rewrite <- E, Rmult_0_l. apply Rabs_pos. }
  assert (C1 : c <= 1). { apply Rmult_le_reg_r with (norm2 u * norm2 v); auto. rewrite <- E. lra. }
  rewrite E. clearbody c. unfold isclose. rewrite (Rabs_right c) by lra. rewrite Rabs_R1, (Rmax_right c 1) by lra.
  rewrite Rmult_1_r, Rabs_left1, (Rmax_comm tol) by lra. rewrite Rleb_false. split.
  - intros H. apply Rmult_lt_compat_r; auto. lra.
  - intros H. apply Rmult_lt_reg_r in H; auto. lra.
Qed.
Lemma apart_spec s t tol : 0 <= tol -> proper2 s -> proper2 t -> (is_colinear_to2 (dir2 s) (dir2 t) tol = false <-> apart s t tol).
Proof. intros T S U. apply (colinear2_no (dir2 s) (dir2 t) tol T); apply dir2_ne; auto. Qed.
(** projecting a point of the supporting line *)
Definition accept (s : sg2) (a : R) : bool :=
  negb (Rltb a 0 || Rltb (sg2_length s) a) || (Rltb (Rabs a) (/ 10 ^ 6) || isclose a (sg2_length s) (/ 10 ^ 6)).
Lemma projection_param s t : proper2 s ->
  sg2_point_projection s (at_param2 s t) = Ok (if accept s (t * sg2_length s) then Some (at_param2 s t) else None, t * sg2_length s).
Proof.
  intros H. pose proof (sg2_length_pos s H) as L. unfold sg2_point_projection, point_projection2. fold (dir2 s).
  rewrite <- sg2_length_dir. cbv zeta. rewrite (proj2 (Reqb_false (sg2_length s ^ 2) 0)) by nra. cbn [bind].
  assert (E : dot2 (sub2 (at_param2 s t) (fst s)) (dir2 s) / sg2_length s ^ 2 = t).
  { replace (dot2 (sub2 (at_param2 s t) (fst s)) (dir2 s)) with (t * (norm2 (dir2 s) * norm2 (dir2 s))).
    - rewrite <- sg2_length_dir. field. lra.
    - rewrite norm2_sq. unfold at_param2. fold (dir2 s). generalize (dir2 s) (fst s). intros d o. vec; ring. }
  rewrite E. change (add2 (fst s) (mul2 (dir2 s) t)) with (at_param2 s t). unfold accept.
  destruct (Rltb (t * sg2_length s) 0 || Rltb (sg2_length s) (t * sg2_length s)); [|reflexivity].
  cbn [negb orb]. destruct (_ || _); reflexivity.
Qed.
Lemma accept_in s t : proper2 s -> 0 <= t <= 1 -> accept s (t * sg2_length s) = true.
Proof.
  intros H T. pose proof (sg2_length_pos s H) as L. unfold accept.
  rewrite (proj2 (Rltb_false (t * sg2_length s) 0)) by nra. rewrite (proj2 (Rltb_false (sg2_length s) (t * sg2_length s))) by nra. reflexivity.
Qed.
Lemma accept_near s t : proper2 s -> accept s (t * sg2_length s) = true -> near_segment2 s (at_param2 s t) (reach s).
Proof.
  intros H A. pose proof (sg2_length_pos s H) as L. unfold reach. set (len := sg2_length s) in *. pose proof (pow10_inv_pos 6) as E6.
  assert (M1 : / 10 ^ 6 <= Rmax (/ 10 ^ 6) (2 * / 10 ^ 9 * len)) by apply Rmax_l.
  assert (M2 : 2 * / 10 ^ 9 * len <= Rmax (/ 10 ^ 6) (2 * / 10 ^ 9 * len)) by apply Rmax_r.
  revert M1 M2. generalize (Rmax (/ 10 ^ 6) (2 * / 10 ^ 9 * len)). intros r M1 M2.
  assert (K : forall u, Rabs (t - u) * len <= r -> 0 <= u <= 1 -> near_segment2 s (at_param2 s t) r).
  { intros u B U. exists (at_param2 s u). split; [exists u; auto|]. change (at_param2 s t) with (seg2 (fst s) (snd s) t). change (at_param2 s u) with (seg2 (fst s) (snd s) u). rewrite seg2_dist. exact B. }
  destruct (Rlt_dec t 0) as [T0|T0]; [|destruct (Rlt_dec 1 t) as [T1|T1]].
  - apply (K 0); [|lra]. rewrite Rminus_0_r, Rabs_left by lra. unfold accept in A.
    fold len in A. rewrite (proj2 (Rltb_spec (t * len) 0)) in A by nra. cbn [orb negb] in A.
    apply Bool.orb_true_iff in A as [A|A].
    + rb. rewrite Rabs_left in A by nra. lra.
    + unfold isclose in A. rb. rewrite Rabs_left in A by nra. rewrite Rabs_left, (Rabs_right len) in A by nra.
      apply Rmax_Rle in A as [A|A]; [exfalso|lra]. assert (X : Rmax (- (t * len)) len <= - (t * len) + len) by (apply Rmax_lub; nra).
      assert (Y : 0 < - (t * len) + len) by nra. assert (Z : / 10 ^ 9 * Rmax (- (t * len)) len <= / 10 ^ 9 * (- (t * len) + len)) by (apply Rmult_le_compat_l; [apply Rlt_le, pow10_inv_pos|auto]).
      clear -A X Y Z. set (m := Rmax (- (t * len)) len) in *. clearbody m. set (x := t * len) in *. clearbody x. lra.
  - apply (K 1); [|lra]. rewrite Rabs_right by lra. unfold accept in A. fold len in A.
    rewrite (proj2 (Rltb_false (t * len) 0)) in A by nra. rewrite (proj2 (Rltb_spec len (t * len))) in A by nra. cbn [orb negb] in A.
    apply Bool.orb_true_iff in A as [A|A].
    + rb. rewrite Rabs_right in A by nra. lra.
    + unfold isclose in A. rb. rewrite Rabs_right in A by nra. rewrite Rabs_right, (Rabs_right len), (Rmax_left (t * len) len) in A by nra.
      apply Rmax_Rle in A as [A|A]; [|lra]. apply Rle_trans with (2 * / 10 ^ 9 * len); auto. replace ((t - 1) * len) with (t * len - len) by ring. revert A. generalize (t * len). clear -L. intros; lra.
  - apply (K t); [|lra]. replace (t - t) with 0 by ring. rewrite Rabs_R0, Rmult_0_l. lra.
Qed.
Lemma on_seg_line s p : on_segment2 s p -> on_line2 s p.
Proof. intros (t & T & ->). unfold on_line2, at_param2. generalize (fst s) (snd s). intros a b. vec; ring. Qed.
Lemma den_some s l : / 10 ^ 15 < Rabs (den2 s l) -> exists p t u, line_intersection s l = Some (p, t, u).
Proof.
  intros H. destruct (line_intersection s l) as [[[p t] u]|] eqn:E; eauto. apply line_intersection_none in E. lra.
Qed.
(** line_intersections *)
Lemma sg2_line_sound s l q pts : proper2 s -> proper2 l -> / 10 ^ 15 < Rabs (den2 s l) -> sg2_line_intersections s l = Ok pts -> In q pts ->
  (exists t, q = at_param2 l t) /\ near_segment2 s q (reach s) /\ (exists t, q = at_param2 s t).
Proof.
  intros S L D. unfold sg2_line_intersections. destruct (is_colinear_to2 _ _ _); [intros E; apply Ok_inj in E as <-; intros []|].
  destruct (den_some s l D) as (p & t & u & I). rewrite I. apply line_intersection_some in I as (_ & P1 & P2).
  rewrite P1, projection_param by auto. cbn [bind fst]. destruct (accept s (t * sg2_length s)) eqn:A; intros E; apply Ok_inj in E as <-; [|intros []].
  intros [<- | []]. split; [exists u; rewrite <- P1; auto|]. split; [apply accept_near; auto|eauto].
Qed.
Lemma sg2_line_complete s l p : proper2 s -> proper2 l -> / 10 ^ 15 < Rabs (den2 s l) -> apart s l (/ 10 ^ 6) ->
  on_segment2 s p -> on_line2 l p -> sg2_line_intersections s l = Ok [p].
Proof.
  intros S L D A (t & T & ->) P. unfold sg2_line_intersections. rewrite (proj2 (apart_spec s l (/ 10 ^ 6) (Rlt_le _ _ (pow10_inv_pos 6)) S L) A).
  destruct (den_some s l D) as (q & t' & u & I). rewrite I.
  rewrite <- (line_intersection_unique _ _ _ _ _ (at_param2 s t) I) by (auto; apply on_seg_line; exists t; auto).
  rewrite projection_param, accept_in by auto. reflexivity.
Qed.
Lemma sg2_line_far s l : proper2 s -> proper2 l -> / 10 ^ 15 < Rabs (den2 s l) ->
  (forall q, (exists t, q = at_param2 l t) -> ~ near_segment2 s q (reach s)) -> sg2_line_intersections s l = Ok [].
Proof.
  intros S L D F. unfold sg2_line_intersections. destruct (is_colinear_to2 _ _ _); [reflexivity|].
  destruct (den_some s l D) as (p & t & u & I). rewrite I. apply line_intersection_some in I as (_ & P1 & P2).
  rewrite P1, projection_param by auto. cbn [bind fst]. destruct (accept s (t * sg2_length s)) eqn:A; [|reflexivity].
  exfalso. apply (F (at_param2 s t)); [exists u; rewrite <- P1; auto|]. apply accept_near; auto.
Qed.
(** linesegment_intersections *)
Lemma sg2_rect_valid s : valid_rect (sg2_rectangle s).
Proof. unfold valid_rect, sg2_rectangle. cbn [rxmin rxmax rymin rymax]. split; (eapply Rle_trans; [apply Rmin_l|apply Rmax_l]). Qed.
Lemma sg2_rect_in s p : on_segment2 s p -> in_rect (sg2_rectangle s) p.
Proof.
  intros (t & T & ->). unfold in_rect, sg2_rectangle, at_param2. cbn [rxmin rxmax rymin rymax]. unfold add2, mul2, sub2. cbn [x2 y2].
  assert (K : forall a b, Rmin a b <= a + (b - a) * t <= Rmax a b).
  { intros a b. unfold Rmin, Rmax. destruct (Rle_dec a b); nra. }
  split; apply K.
Qed.
Lemma sg2_rect_least s r : (forall p, on_segment2 s p -> in_rect r p) -> rect_le (sg2_rectangle s) r.
Proof.
  intros H. pose proof (H (seg2 (fst s) (snd s) 0) (on_seg2_intro s 0 ltac:(lra))) as A. pose proof (H (seg2 (fst s) (snd s) 1) (on_seg2_intro s 1 ltac:(lra))) as B.
  rewrite seg2_0 in A. rewrite seg2_1 in B. destruct A as [A1 A2], B as [B1 B2]. unfold rect_le, sg2_rectangle. cbn [rxmin rxmax rymin rymax].
  split; [apply Rmin_glb; lra|]. split; [apply Rmax_lub; lra|]. split; [apply Rmin_glb; lra|apply Rmax_lub; lra].
Qed.
Lemma rect_common_0 s t p tol : 0 <= tol -> on_segment2 s p -> on_segment2 t p -> Rltb tol (rect_distance (sg2_rectangle s) (sg2_rectangle t)) = false.
Proof.
  intros T A B. apply Rltb_false. destruct (rect_distance_min _ _ (sg2_rect_valid s) (sg2_rect_valid t)) as [_ M].
  specialize (M p p (sg2_rect_in s p A) (sg2_rect_in t p B)). rewrite (proj2 (dist2_zero p p) eq_refl) in M. lra.
Qed.
Lemma sg2_inter_sound s t tol q pts : proper2 s -> proper2 t -> sg2_intersections s t tol = Ok pts -> In q pts ->
  near_segment2 s q (reach s) /\ near_segment2 t q (reach t) /\ (exists k, q = at_param2 s k) /\ (exists k, q = at_param2 t k).
Proof.
  intros S U. unfold sg2_intersections. destruct (Rltb _ _); [intros E; apply Ok_inj in E as <-; intros []|].
  destruct (is_colinear_to2 _ _ _); [intros E; apply Ok_inj in E as <-; intros []|].
  destruct (line_intersection s t) as [[[p k] j]|] eqn:I; [|intros E; apply Ok_inj in E as <-; intros []].
  apply line_intersection_some in I as (_ & P1 & P2). rewrite P1, projection_param by auto. cbn [bind fst].
  destruct (accept s (k * sg2_length s)) eqn:A; [|intros E; apply Ok_inj in E as <-; intros []].
  rewrite <- P1, P2, projection_param by auto. cbn [bind fst].
  destruct (accept t (j * sg2_length t)) eqn:B; intros E; apply Ok_inj in E as <-; [|intros []].
  intros [<- | []]. split; [rewrite <- P2, P1; apply accept_near; auto|]. split; [apply accept_near; auto|]. split; [exists k; rewrite <- P1; auto|eauto].
Qed.
Lemma sg2_inter_complete s t tol p : proper2 s -> proper2 t -> 0 <= tol -> / 10 ^ 15 < Rabs (den2 s t) -> apart s t tol ->
  on_segment2 s p -> on_segment2 t p -> sg2_intersections s t tol = Ok [p].
Proof.
  intros S U T D A P Q. unfold sg2_intersections. rewrite (rect_common_0 s t p) by auto.
  rewrite (proj2 (apart_spec s t tol T S U) A). destruct (den_some s t D) as (q & k & j & I). rewrite I.
  rewrite <- (line_intersection_unique _ _ _ _ _ p I) by (apply on_seg_line; auto).
  destruct P as (u & Hu & ->). rewrite projection_param, accept_in by auto. cbn [bind fst].
  destruct Q as (v & Hv & E). rewrite E, projection_param, accept_in by auto. reflexivity.
Qed.
Lemma sg2_inter_total s t tol : proper2 s -> proper2 t -> exists pts, sg2_intersections s t tol = Ok pts /\ (length pts <= 1)%nat.
Proof.
  intros S U. unfold sg2_intersections. destruct (Rltb _ _); [eexists; split; [reflexivity|cbn; lia]|].
  destruct (is_colinear_to2 _ _ _); [eexists; split; [reflexivity|cbn; lia]|].
  destruct (line_intersection s t) as [[[p k] j]|] eqn:I; [|eexists; split; [reflexivity|cbn; lia]].
  apply line_intersection_some in I as (_ & P1 & P2). rewrite P1, projection_param by auto. cbn [bind fst].
  destruct (accept s (k * sg2_length s)); [|eexists; split; [reflexivity|cbn; lia]].
  rewrite <- P1, P2, projection_param by auto. cbn [bind fst].
  destruct (accept t (j * sg2_length t)); (eexists; split; [reflexivity|cbn; lia]).
Qed.
(** segments that cross at a small angle: no intersection *)
Definition flat1 : sg2 := (V2 (-1) 0, V2 1 0).
Definition flat2 : sg2 := (V2 (-1) (- / 1000), V2 1 (/ 1000)).
Lemma flat_proper : proper2 flat1 /\ proper2 flat2.
Proof. split; intros E; pose proof (f_equal x2 E) as X; unfold flat1, flat2 in X; cbn [fst snd x2] in X; lra. Qed.
Lemma flat_common : on_segment2 flat1 (V2 0 0) /\ on_segment2 flat2 (V2 0 0).
Proof.
  split; exists (/ 2); (split; [lra|]); unfold at_param2, flat1, flat2, add2, mul2, sub2; cbn [fst snd x2 y2]; apply vec2_ext; cbn [x2 y2]; lra.
Qed.
Lemma flat_colinear : is_colinear_to2 (dir2 flat1) (dir2 flat2) (/ 10 ^ 6) = true.
Proof.
  destruct flat_proper as [F1 F2]. destruct (is_colinear_to2 (dir2 flat1) (dir2 flat2) (/ 10 ^ 6)) eqn:E; auto. exfalso.
  apply apart_spec in E; auto; [|lra]. unfold apart in E. rewrite Rmax_left in E by lra.
  assert (L1 : sg2_length flat1 = 2). { unfold sg2_length, point_distance2, norm2, flat1, sub2. cbn [fst snd x2 y2]. replace ((1 - -1) * (1 - -1) + (0 - 0) * (0 - 0)) with (2 * 2) by ring. apply sqrt_square. lra. }
  assert (L2 : sg2_length flat2 <= 2 + / 10 ^ 6).
  { unfold sg2_length, point_distance2, norm2, flat2, sub2. cbn [fst snd x2 y2]. apply Rsqr_incr_0_var; [|lra]. rewrite Rsqr_sqrt by nra. unfold Rsqr. nra. }
  assert (D : dot2 (sub2 (snd flat1) (fst flat1)) (sub2 (snd flat2) (fst flat2)) = 4). { unfold dot2, sub2, flat1, flat2. cbn [fst snd x2 y2]. lra. }
  rewrite D, L1, Rabs_right in E by lra. revert E L2. generalize (sg2_length flat2). intros l E L2. lra.
Qed.
Lemma sg2_inter_flat : exists s t p, proper2 s /\ proper2 t /\ on_segment2 s p /\ on_segment2 t p /\
  sg2_length s = 2 /\ / 10 ^ 15 < Rabs (den2 s t) /\ sg2_intersections s t (/ 10 ^ 6) = Ok [] /\ sg2_line_intersections s t = Ok [].
Proof.
  exists flat1, flat2, (V2 0 0). destruct flat_proper as [F1 F2], flat_common as [C1 C2]. split; auto. split; auto. split; auto. split; auto.
  split. { unfold sg2_length, point_distance2, norm2, flat1, sub2. cbn [fst snd x2 y2]. replace ((1 - -1) * (1 - -1) + (0 - 0) * (0 - 0)) with (2 * 2) by ring. apply sqrt_square. lra. }
  split. { unfold den2, cross2, sub2, flat1, flat2. cbn [fst snd x2 y2]. rewrite Rabs_right; lra. }
  unfold sg2_intersections, sg2_line_intersections. rewrite flat_colinear. split; [|reflexivity]. destruct (Rltb _ _); reflexivity.
Qed.
