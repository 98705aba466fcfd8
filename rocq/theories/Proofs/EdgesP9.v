(** Segments: distance to a line; 3D segments. *)
From Verif.Model Require Import Base RBase Vec Frame BBox Geometry Curves Edges.
From Verif.Spec Require Import VecSpec CurvesSpec PlaneSpec BBoxSpec EdgesSpec.
From Verif.Proofs Require Import VecP LineP CurvesP BBoxP EdgesP EdgesP3 EdgesP4 EdgesP7 EdgesP8.
From Coq Require Import List Lra Lia Psatz.
Import ListNotations.
Open Scope R_scope.

Definition gap (l : vec2 * vec2) (p : vec2) : R := cross2 (sub2 p (fst l)) (dir2 l) / norm2 (dir2 l).
Lemma gap_le l p q : proper2 l -> (exists t, q = at_param2 l t) -> Rabs (gap l p) <= point_distance2 p q.
Proof.
  intros L (t & ->). pose proof (norm2_ne _ (dir2_ne l L)) as N. unfold gap, Rdiv. rewrite Rabs_mult, (Rabs_right (/ norm2 (dir2 l))) by (apply Rle_ge, Rlt_le, Rinv_0_lt_compat, N).
  apply Rmult_le_reg_r with (norm2 (dir2 l)); auto. rewrite Rmult_assoc, Rinv_l, Rmult_1_r by lra. unfold point_distance2. eapply Rle_trans; [|apply cross2_le].
  apply Req_le. f_equal. unfold at_param2. fold (dir2 l). generalize (dir2 l) (fst l). intros d o. vec; ring.
Qed.
Lemma closest_line l p : proper2 l -> exists q, line2_closest_point l p = Ok q /\ (exists t, q = at_param2 l t) /\ point_distance2 q p = Rabs (gap l p).
Proof.
  intros L. pose proof (norm2_ne _ (dir2_ne l L)) as N. pose proof (dir_dot_ne l L) as D. unfold line2_closest_point. cbv zeta.
  rewrite (proj2 (Reqb_false (dot2 (dir2 l) (dir2 l)) 0)) by lra. set (t := dot2 (sub2 p (fst l)) (dir2 l) / dot2 (dir2 l) (dir2 l)). eexists. split; [reflexivity|].
  assert (E : V2 (x2 (fst l) + t * x2 (dir2 l)) (y2 (fst l) + t * y2 (dir2 l)) = at_param2 l t).
  { unfold at_param2, add2, mul2. fold (dir2 l). cbn [x2 y2]. apply vec2_ext; cbn [x2 y2]; ring. }
  rewrite E. split; [eauto|]. rewrite dist2_sym. unfold point_distance2, gap.
  replace (sub2 p (at_param2 l t)) with (sub2 (sub2 p (fst l)) (mul2 (dir2 l) t)) by (unfold at_param2; fold (dir2 l); generalize (dir2 l) (fst l); intros d o; vec; v_eq; ring).
  rewrite (foot2_dist _ _ t N) by (unfold t; rewrite norm2_sq; reflexivity). unfold Rdiv. rewrite Rabs_mult, (Rabs_right (/ norm2 (dir2 l))) by (apply Rle_ge, Rlt_le, Rinv_0_lt_compat, N). reflexivity.
Qed.
Lemma gap_affine l s t : gap l (at_param2 s t) = (1 - t) * gap l (fst s) + t * gap l (snd s).
Proof. unfold gap, at_param2, Rdiv. generalize (dir2 l) (/ norm2 (dir2 l)) (fst l) (fst s) (snd s). intros d i o a b. vec; ring. Qed.
Lemma gap_on l p : proper2 l -> (gap l p = 0 <-> exists t, p = at_param2 l t).
Proof.
  intros L. split.
  - intros G. destruct (closest_line l p L) as (q & _ & (t & ->) & D). rewrite G, Rabs_R0 in D. apply dist2_zero in D. eauto.
  - intros E. pose proof (gap_le l p p L E) as K. rewrite dist_refl in K. destruct (Req_dec (gap l p) 0) as [Z|Z]; auto. apply Rabs_pos_lt in Z. lra.
Qed.
(** the distance of a segment to a line, from the signed distances of its ends *)
Definition end_gap (l : vec2 * vec2) (s : sg2) : R := Rmin (Rabs (gap l (fst s))) (Rabs (gap l (snd s))).
Lemma seg_line_min l s : proper2 l -> (forall t, 0 <= t <= 1 -> gap l (at_param2 s t) <> 0) ->
  min_dist point_distance2 (on_segment2 s) (line2_has l) (end_gap l s).
Proof.
  intros L NZ. split.
  - assert (S0 : on_segment2 s (fst s)) by (rewrite <- (seg2_0 (fst s) (snd s)); apply on_seg2_intro; lra).
    assert (S1 : on_segment2 s (snd s)) by (rewrite <- (seg2_1 (fst s) (snd s)); apply on_seg2_intro; lra).
    destruct (closest_line l (fst s) L) as (a & _ & A & DA). destruct (closest_line l (snd s) L) as (b & _ & B & DB).
    unfold end_gap. set (PP := fun m => exists p q, on_segment2 s p /\ line2_has l q /\ point_distance2 p q = m). apply (Rmin_case _ _ PP); unfold PP.
    + exists (fst s), a. split; auto. split; auto. rewrite dist2_sym. auto.
    + exists (snd s), b. split; auto. split; auto. rewrite dist2_sym. auto.
  - intros p q (t & T & ->) Q. apply Rle_trans with (Rabs (gap l (at_param2 s t))); [|apply gap_le; auto].
    rewrite gap_affine. unfold end_gap. set (a := gap l (fst s)). set (b := gap l (snd s)).
    assert (NZ' : forall k, 0 <= k <= 1 -> (1 - k) * a + k * b <> 0) by (intros k K; unfold a, b; rewrite <- gap_affine; auto).
    assert (C : (0 < a /\ 0 < b) \/ (a < 0 /\ b < 0)).
    { assert (a <> 0) by (intros E; apply (NZ' 0); [lra|rewrite E; ring]). assert (b <> 0) by (intros E; apply (NZ' 1); [lra|rewrite E; ring]).
      destruct (Rlt_dec 0 a) as [A|A], (Rlt_dec 0 b) as [B|B]; try lra.
      - exfalso. apply (NZ' (a / (a - b))); [|field; lra]. split; [apply Rmult_le_pos; [lra|apply Rlt_le, Rinv_0_lt_compat; lra]|].
        apply Rmult_le_reg_r with (a - b); [lra|]. unfold Rdiv. rewrite Rmult_assoc, Rinv_l by lra. lra.
      - exfalso. apply (NZ' (- a / (b - a))); [|field; lra]. split; [apply Rmult_le_pos; [lra|apply Rlt_le, Rinv_0_lt_compat; lra]|].
        apply Rmult_le_reg_r with (b - a); [lra|]. unfold Rdiv. rewrite Rmult_assoc, Rinv_l by lra. lra. }
    clearbody a b. destruct C as [[A B]|[A B]].
    + rewrite (Rabs_right a), (Rabs_right b), Rabs_right by nra. unfold Rmin. destruct (Rle_dec a b); nra.
    + rewrite (Rabs_left a), (Rabs_left b), Rabs_left by nra. unfold Rmin. destruct (Rle_dec (- a) (- b)); nra.
Qed.
Lemma seg_line_zero l s t : 0 <= t <= 1 -> proper2 l -> gap l (at_param2 s t) = 0 -> min_dist point_distance2 (on_segment2 s) (line2_has l) 0.
Proof.
  intros T L G. apply gap_on in G; auto. split; [|intros; apply norm2_pos]. exists (at_param2 s t), (at_param2 s t). split; [exists t; auto|]. split; auto. apply dist_refl.
Qed.
Lemma den_gap l s : gap l (snd s) - gap l (fst s) = - den2 l s / norm2 (dir2 l).
Proof. unfold gap, den2, Rdiv. fold (dir2 l). generalize (dir2 l) (/ norm2 (dir2 l)) (fst l) (fst s) (snd s). intros d i o a b. vec; ring. Qed.
Lemma sg2_line_distance_spec s l : proper2 s -> proper2 l -> den2 l s = 0 \/ / 10 ^ 15 < Rabs (den2 l s) ->
  exists d p q m, sg2_line_distance s l = Ok (d, p, q) /\ d = point_distance2 p q /\
    min_dist point_distance2 (on_segment2 s) (line2_has l) m /\ m <= / 10 ^ 6 + d /\ d <= m + / 10 ^ 6 /\ (d <> 0 -> d = m).
Proof.
  intros S L DEN. unfold sg2_line_distance. destruct (line2_inters_ok l s L S) as (i & E & N & P). rewrite E. cbn [bind].
  pose proof (pow10_inv_pos 6) as E6. pose proof (norm2_ne _ (dir2_ne l L)) as NL.
  destruct (closest_line l (fst s) L) as (a & Ea & A & DA). destruct (closest_line l (snd s) L) as (b & Eb & B & DB).
  destruct i as [|p i].
  - assert (Z : den2 l s = 0). { destruct DEN as [Z|Z]; auto. destruct N as [N _]. specialize (N eq_refl). lra. }
    rewrite Ea. cbn [bind]. exists (point_distance2 a (fst s)), (fst s), a, (Rabs (gap l (fst s))). split; [reflexivity|]. split; [apply dist2_sym|].
    pose proof (den_gap l s) as G. rewrite Z in G. replace (- 0 / norm2 (dir2 l)) with 0 in G by (field; lra).
    assert (GC : forall t, gap l (at_param2 s t) = gap l (fst s)) by (intros t; rewrite gap_affine; replace (gap l (snd s)) with (gap l (fst s)) by lra; ring).
    split; [|rewrite DA; split; [lra|split; [lra|auto]]]. split.
    + exists (fst s), a. split; [rewrite <- (seg2_0 (fst s) (snd s)); apply on_seg2_intro; lra|]. split; auto. rewrite dist2_sym. auto.
    + intros x y (t & T & ->) Y. rewrite <- (GC t). apply gap_le; auto.
  - destruct (P p (or_introl eq_refl)) as ([u Pu] & [k Pk] & U).
    assert (D : / 10 ^ 15 < Rabs (den2 l s)). { apply Rnot_le_lt. intros K. apply N in K. discriminate. }
    assert (DN : den2 l s <> 0). { intros Z. rewrite Z, Rabs_R0 in D. pose proof (pow10_inv_pos 15). lra. }
    assert (G0 : gap l p = 0) by (apply gap_on; eauto). rewrite Pk in G0.
    assert (GK : forall t, gap l (at_param2 s t) = 0 -> t = k).
    { intros t Gt. rewrite gap_affine in Gt, G0. pose proof (den_gap l s) as DG.
      assert (X : gap l (snd s) - gap l (fst s) <> 0). { rewrite DG. unfold Rdiv. apply Rmult_integral_contrapositive_currified; [lra|apply Rinv_neq_0_compat; lra]. }
      apply Rmult_eq_reg_r with (gap l (snd s) - gap l (fst s)); auto. lra. }
    destruct (sg2_belongs_spec s p (/ 10 ^ 6) S (Rlt_le _ _ E6)) as (bb & EB & NB). rewrite EB. cbn [bind].
    destruct (Rle_dec 0 k) as [K0|K0]; [destruct (Rle_dec k 1) as [K1|K1]|].
    + destruct bb.
      * exists 0, p, p, 0. split; [reflexivity|]. split; [symmetry; apply dist_refl|]. split; [apply (seg_line_zero l s k); auto|]. split; [lra|split; [lra|lra]].
      * exfalso. assert (X : false = true); [|discriminate]. apply NB. exists p. split; [exists k; auto|]. rewrite dist_refl. lra.
    + assert (NZ : forall t, 0 <= t <= 1 -> gap l (at_param2 s t) <> 0) by (intros t T Gt; apply GK in Gt; lra).
      pose proof (seg_line_min l s L NZ) as M. destruct bb.
      * destruct (proj1 NB eq_refl) as (r & R1 & R2). exists 0, p, p, (end_gap l s). split; [reflexivity|]. split; [symmetry; apply dist_refl|]. split; auto.
        destruct M as [(x & y & _ & _ & EM) M]. specialize (M r p R1 (ex_intro _ u Pu)). rewrite dist2_sym in M. assert (0 <= end_gap l s) by (rewrite <- EM; apply norm2_pos). lra.
      * rewrite Ea, Eb. cbn [bind]. unfold end_gap in M. rewrite <- DA, <- DB in M. destruct (Rltb (point_distance2 a (fst s)) (point_distance2 b (snd s))) eqn:C; rb.
        -- exists (point_distance2 a (fst s)), (fst s), a, (point_distance2 a (fst s)). split; [reflexivity|]. split; [apply dist2_sym|]. rewrite Rmin_left in M by lra. split; auto. split; [lra|split; [lra|auto]].
        -- exists (point_distance2 b (snd s)), (snd s), b, (point_distance2 b (snd s)). split; [reflexivity|]. split; [apply dist2_sym|]. rewrite Rmin_right in M by lra. split; auto. split; [lra|split; [lra|auto]].
    + assert (NZ : forall t, 0 <= t <= 1 -> gap l (at_param2 s t) <> 0) by (intros t T Gt; apply GK in Gt; lra).
      pose proof (seg_line_min l s L NZ) as M. destruct bb.
      * destruct (proj1 NB eq_refl) as (r & R1 & R2). exists 0, p, p, (end_gap l s). split; [reflexivity|]. split; [symmetry; apply dist_refl|]. split; auto.
        destruct M as [(x & y & _ & _ & EM) M]. specialize (M r p R1 (ex_intro _ u Pu)). rewrite dist2_sym in M. assert (0 <= end_gap l s) by (rewrite <- EM; apply norm2_pos). lra.
      * rewrite Ea, Eb. cbn [bind]. unfold end_gap in M. rewrite <- DA, <- DB in M. destruct (Rltb (point_distance2 a (fst s)) (point_distance2 b (snd s))) eqn:C; rb.
        -- exists (point_distance2 a (fst s)), (fst s), a, (point_distance2 a (fst s)). split; [reflexivity|]. split; [apply dist2_sym|]. rewrite Rmin_left in M by lra. split; auto. split; [lra|split; [lra|auto]].
        -- exists (point_distance2 b (snd s)), (snd s), b, (point_distance2 b (snd s)). split; [reflexivity|]. split; [apply dist2_sym|]. rewrite Rmin_right in M by lra. split; auto. split; [lra|split; [lra|auto]].
Qed.
