(** Segments: membership, splitting, trimming. *)
From Verif.Model Require Import Base RBase Vec Frame BBox Geometry Curves Edges.
From Verif.Spec Require Import VecSpec CurvesSpec PlaneSpec EdgesSpec.
From Verif.Proofs Require Import VecP LineP CurvesP EdgesP EdgesP3.
From Coq Require Import List Lra Lia Psatz.
Import ListNotations.
Open Scope R_scope.

Lemma sg2_distance_is s p : proper2 s ->
  exists d, sg2_point_distance s p = Ok d /\ (exists q, on_segment2 s q /\ d = point_distance2 p q) /\
    (forall q, on_segment2 s q -> d <= point_distance2 p q).
Proof.
  intros H. destruct (segdist2_total (fst s) (snd s) p H) as (d & q & E). unfold sg2_point_distance. rewrite E.
  apply segdist2_spec in E as (D & (t & T & Q) & M). exists d. split; [reflexivity|]. split.
  - exists q. split; [exists t; split; auto|auto].
  - intros r (u & U & ->). apply M, U.
Qed.
Lemma sg3_distance_is s p : proper3 s ->
  exists d, sg3_point_distance s p = Ok d /\ (exists q, on_segment3 s q /\ d = point_distance3 p q) /\
    (forall q, on_segment3 s q -> d <= point_distance3 p q).
Proof.
  intros H. destruct (segdist3_total (fst s) (snd s) p H) as (d & q & E). unfold sg3_point_distance. rewrite E.
  apply segdist3_spec in E as (D & (t & T & Q) & M). exists d. split; [reflexivity|]. split.
  - exists q. split; [exists t; split; auto|auto].
  - intros r (u & U & ->). apply M, U.
Qed.
Lemma sg2_belongs_spec s p tol : proper2 s -> 0 <= tol ->
  exists b, sg2_point_belongs s p tol = Ok b /\ (b = true <-> near_segment2 s p tol).
Proof.
  intros H T. destruct (sg2_distance_is s p H) as (d & E & (q & Q & D) & M). unfold sg2_point_belongs. rewrite E. cbn [bind].
  eexists. split; [reflexivity|]. assert (P : 0 <= d) by (subst d; apply norm2_pos). rewrite isclose_0 by auto. rewrite Rabs_right by lra. split.
  - intros. exists q. split; auto. lra.
  - intros (r & R1 & R2). specialize (M r R1). lra.
Qed.
Lemma sg3_belongs_spec s p tol : proper3 s -> 0 <= tol ->
  exists b, sg3_point_belongs s p tol = Ok b /\ (b = true <-> near_segment3 s p tol).
Proof.
  intros H T. destruct (sg3_distance_is s p H) as (d & E & (q & Q & D) & M). unfold sg3_point_belongs. rewrite E. cbn [bind].
  eexists. split; [reflexivity|]. assert (P : 0 <= d) by (subst d; apply norm3_pos). rewrite isclose_0 by auto. rewrite Rabs_right by lra. split.
  - intros. exists q. split; auto. lra.
  - intros (r & R1 & R2). specialize (M r R1). lra.
Qed.
Lemma sg2_belongs_yes s p tol : proper2 s -> 0 <= tol -> near_segment2 s p tol -> sg2_point_belongs s p tol = Ok true.
Proof. intros H T N. destruct (sg2_belongs_spec s p tol H T) as (b & E & B). rewrite E. f_equal. apply B, N. Qed.
Lemma sg2_belongs_no s p tol : proper2 s -> 0 <= tol -> ~ near_segment2 s p tol -> sg2_point_belongs s p tol = Ok false.
Proof.
  intros H T N. destruct (sg2_belongs_spec s p tol H T) as ([|] & E & B); [|exact E]. exfalso. apply N, B. reflexivity.
Qed.
(** closeness of points *)
Lemma close2_yes p q t : 0 <= t -> point_distance2 p q <= t -> is_close2 p q t = true.
Proof. intros. apply is_close2_spec; auto. Qed.
Lemma close2_no p q t : 0 <= t -> t < point_distance2 p q -> is_close2 p q t = false.
Proof.
  intros T H. destruct (is_close2 p q t) eqn:E; auto. apply is_close2_spec in E; auto. lra.
Qed.
Lemma close3_yes p q t : 0 <= t -> point_distance3 p q <= t -> is_close3 p q t = true.
Proof. intros. apply is_close3_spec; auto. Qed.
Lemma close3_no p q t : 0 <= t -> t < point_distance3 p q -> is_close3 p q t = false.
Proof.
  intros T H. destruct (is_close3 p q t) eqn:E; auto. apply is_close3_spec in E; auto. lra.
Qed.
Lemma ne_dist2 p q t : 0 <= t -> t < point_distance2 p q -> p <> q.
Proof. intros T H E. apply dist2_zero in E. lra. Qed.
Lemma ne_dist3 p q t : 0 <= t -> t < point_distance3 p q -> p <> q.
Proof. intros T H E. apply dist3_zero in E. lra. Qed.
(** split *)
Lemma seg2_sub a b u v k : seg2 (seg2 a b u) (seg2 a b v) k = seg2 a b (u + (v - u) * k).
Proof. unfold seg2. vec; v_eq; ring. Qed.
Lemma seg3_sub a b u v k : seg3 (seg3 a b u) (seg3 a b v) k = seg3 a b (u + (v - u) * k).
Proof. unfold seg3. vec; v_eq; ring. Qed.
Lemma on_seg2_intro s t : 0 <= t <= 1 -> on_segment2 s (seg2 (fst s) (snd s) t).
Proof. intros T. exists t. split; auto. Qed.
Lemma on_seg3_intro s t : 0 <= t <= 1 -> on_segment3 s (seg3 (fst s) (snd s) t).
Proof. intros T. exists t. split; auto. Qed.
(** points of a sub-segment *)
Lemma on_sub2 a b u v p : u <= v -> (on_segment2 (seg2 a b u, seg2 a b v) p <-> exists k, u <= k <= v /\ p = seg2 a b k).
Proof.
  intros U. split.
  - intros (t & T & ->). exists (u + (v - u) * t). split; [nra|]. change (at_param2 (seg2 a b u, seg2 a b v) t) with (seg2 (seg2 a b u) (seg2 a b v) t). apply seg2_sub.
  - intros (k & K & ->). destruct (Req_dec u v) as [E|N].
    + exists 0. split; [lra|]. change (at_param2 (seg2 a b u, seg2 a b v) 0) with (seg2 (seg2 a b u) (seg2 a b v) 0). rewrite seg2_sub. f_equal. lra.
    + exists ((k - u) / (v - u)). assert (P : 0 < v - u) by lra. split.
      * split; [apply Rmult_le_pos; [lra|apply Rlt_le, Rinv_0_lt_compat, P]|].
        apply Rmult_le_reg_r with (v - u); auto. unfold Rdiv. rewrite Rmult_assoc, Rinv_l by lra. lra.
      * change (at_param2 (seg2 a b u, seg2 a b v) ((k - u) / (v - u))) with (seg2 (seg2 a b u) (seg2 a b v) ((k - u) / (v - u))).
        rewrite seg2_sub. f_equal. field. lra.
Qed.
Lemma on_sub3 a b u v p : u <= v -> (on_segment3 (seg3 a b u, seg3 a b v) p <-> exists k, u <= k <= v /\ p = seg3 a b k).
Proof.
  intros U. split.
  - intros (t & T & ->). exists (u + (v - u) * t). split; [nra|]. cbn [fst snd]. change (seg3 (seg3 a b u) (seg3 a b v) t = seg3 a b (u + (v - u) * t)). apply seg3_sub.
  - intros (k & K & ->). destruct (Req_dec u v) as [E|N].
    + exists 0. split; [lra|]. cbn [fst snd]. change (seg3 a b k = seg3 (seg3 a b u) (seg3 a b v) 0). rewrite seg3_sub. f_equal. lra.
    + exists ((k - u) / (v - u)). assert (P : 0 < v - u) by lra. split.
      * split; [apply Rmult_le_pos; [lra|apply Rlt_le, Rinv_0_lt_compat, P]|].
        apply Rmult_le_reg_r with (v - u); auto. unfold Rdiv. rewrite Rmult_assoc, Rinv_l by lra. lra.
      * cbn [fst snd]. change (seg3 a b k = seg3 (seg3 a b u) (seg3 a b v) ((k - u) / (v - u))).
        rewrite seg3_sub. f_equal. field. lra.
Qed.
Lemma pair_eta {A B} (s : A * B) : (fst s, snd s) = s. Proof. destruct s; reflexivity. Qed.
Lemma sg2_split_spec s p tol : proper2 s -> 0 <= tol -> on_segment2 s p ->
  (point_distance2 p (fst s) <= tol /\ sg2_split s p tol = Ok (None, Some s)) \/
  (tol < point_distance2 p (fst s) /\ point_distance2 p (snd s) <= tol /\ sg2_split s p tol = Ok (Some s, None)) \/
  (tol < point_distance2 p (fst s) /\ tol < point_distance2 p (snd s) /\
   sg2_split s p tol = Ok (Some (fst s, p), Some (p, snd s)) /\
   sg2_length (fst s, p) + sg2_length (p, snd s) = sg2_length s /\
   (forall q, on_segment2 s q <-> on_segment2 (fst s, p) q \/ on_segment2 (p, snd s) q)).
Proof.
  intros H T (t & U & ->). set (p := at_param2 s t). unfold sg2_split.
  destruct (Rle_dec (point_distance2 p (fst s)) tol) as [A|A].
  { left. split; auto. rewrite close2_yes by auto. reflexivity. }
  right. rewrite close2_no by lra. destruct (Rle_dec (point_distance2 p (snd s)) tol) as [B|B].
  { left. split; [lra|]. split; auto. rewrite close2_yes by auto. reflexivity. }
  right. rewrite close2_no by lra. split; [lra|]. split; [lra|].
  rewrite segment2_ok by (intros E; symmetry in E; revert E; apply (ne_dist2 _ _ tol); lra).
  rewrite segment2_ok by (apply (ne_dist2 _ _ tol); lra). split; [reflexivity|].
  assert (E : (fst s, p) = (seg2 (fst s) (snd s) 0, seg2 (fst s) (snd s) t)) by (rewrite seg2_0; reflexivity).
  assert (F : (p, snd s) = (seg2 (fst s) (snd s) t, seg2 (fst s) (snd s) 1)) by (rewrite seg2_1; reflexivity).
  rewrite E, F. split.
  - unfold sg2_length. cbn [fst snd]. rewrite !seg2_dist, !Rabs_right by lra. ring.
  - intros q. rewrite !on_sub2 by lra. split.
    + intros (k & K & ->). destruct (Rle_dec k t); [left|right]; exists k; (split; [lra|reflexivity]).
    + intros [(k & K & ->) | (k & K & ->)]; exists k; (split; [lra|reflexivity]).
Qed.
Lemma sg3_split_spec s p tol : proper3 s -> 0 <= tol -> on_segment3 s p ->
  (point_distance3 p (fst s) <= tol /\ sg3_split s p tol = Ok (None, Some s)) \/
  (tol < point_distance3 p (fst s) /\ point_distance3 p (snd s) <= tol /\ sg3_split s p tol = Ok (Some s, None)) \/
  (tol < point_distance3 p (fst s) /\ tol < point_distance3 p (snd s) /\
   sg3_split s p tol = Ok (Some (fst s, p), Some (p, snd s)) /\
   sg3_length (fst s, p) + sg3_length (p, snd s) = sg3_length s /\
   (forall q, on_segment3 s q <-> on_segment3 (fst s, p) q \/ on_segment3 (p, snd s) q)).
Proof.
  intros H T (t & U & ->). change (add3 (fst s) (mul3 (sub3 (snd s) (fst s)) t)) with (seg3 (fst s) (snd s) t). set (p := seg3 (fst s) (snd s) t). unfold sg3_split.
  destruct (Rle_dec (point_distance3 p (fst s)) tol) as [A|A].
  { left. split; auto. rewrite close3_yes by auto. reflexivity. }
  right. rewrite close3_no by lra. destruct (Rle_dec (point_distance3 p (snd s)) tol) as [B|B].
  { left. split; [lra|]. split; auto. rewrite close3_yes by auto. reflexivity. }
  right. rewrite close3_no by lra. split; [lra|]. split; [lra|].
  rewrite segment3_ok by (intros E; symmetry in E; revert E; apply (ne_dist3 _ _ tol); lra).
  rewrite segment3_ok by (apply (ne_dist3 _ _ tol); lra). split; [reflexivity|].
  assert (E : (fst s, p) = (seg3 (fst s) (snd s) 0, seg3 (fst s) (snd s) t)) by (rewrite seg3_0; reflexivity).
  assert (F : (p, snd s) = (seg3 (fst s) (snd s) t, seg3 (fst s) (snd s) 1)) by (rewrite seg3_1; reflexivity).
  rewrite E, F. split.
  - unfold sg3_length. cbn [fst snd]. rewrite !seg3_dist, !Rabs_right by lra. ring.
  - intros q. rewrite !on_sub3 by lra. split.
    + intros (k & K & ->). destruct (Rle_dec k t); [left|right]; exists k; (split; [lra|reflexivity]).
    + intros [(k & K & ->) | (k & K & ->)]; exists k; (split; [lra|reflexivity]).
Qed.
(** split never looks at whether the point is on the segment *)
Lemma sg2_split_off : exists s p, proper2 s /\ ~ near_segment2 s p (1 / 2) /\
  exists a b, sg2_split s p (/ 10 ^ 6) = Ok (Some a, Some b) /\ sg2_length s < sg2_length a.
Proof.
  exists (V2 0 0, V2 1 0), (V2 3 0). split; [intros E; pose proof (f_equal x2 E) as X; cbn [fst snd x2] in X; lra|].
  assert (D : forall a b, point_distance2 (V2 a 0) (V2 b 0) = Rabs (a - b)).
  { intros a b. unfold point_distance2, norm2, sub2. cbn [x2 y2]. replace ((a - b) * (a - b) + (0 - 0) * (0 - 0)) with (Rsqr (a - b)) by (unfold Rsqr; ring). apply sqrt_Rsqr_abs. }
  split.
  - intros (q & (t & T & ->) & Q). replace (at_param2 (V2 0 0, V2 1 0) t) with (V2 t 0) in Q by (unfold at_param2; cbn [fst snd]; unfold add2, mul2, sub2; cbn [x2 y2]; apply vec2_ext; cbn [x2 y2]; ring).
    rewrite D, Rabs_right in Q by lra. lra.
  - unfold sg2_split. cbn [fst snd]. rewrite close2_no; [|apply Rlt_le, pow10_inv_pos|rewrite D, Rabs_right by lra; lra].
    rewrite close2_no; [|apply Rlt_le, pow10_inv_pos|rewrite D, Rabs_right by lra; lra].
    rewrite segment2_ok by (intros E; pose proof (f_equal x2 E) as X; cbn [x2] in X; lra).
    rewrite segment2_ok by (intros E; pose proof (f_equal x2 E) as X; cbn [x2] in X; lra). cbn [bind].
    eexists. eexists. split; [reflexivity|]. unfold sg2_length. cbn [fst snd]. rewrite !D, !Rabs_right by lra. lra.
Qed.
