(** Local discretization of a segment; a 3D segment and a line; the points returned by the distance of 3D segments. *)
From Verif.Model Require Import Base RBase Vec Frame BBox Geometry Curves Edges.
From Verif.Spec Require Import VecSpec CurvesSpec PlaneSpec BBoxSpec EdgesSpec.
From Verif.Proofs Require Import VecP LineP CurvesP CurvesP2 BBoxP GeometryP EdgesP EdgesP3 EdgesP4 EdgesP6 EdgesP10.
From Coq Require Import List Lra Lia Psatz.
Import ListNotations.
Open Scope R_scope.

Lemma pat_between s a b k : fst s <> snd s -> pat s (a + k * (b - a)) = at_param2 (pat s a, pat s b) k.
Proof.
  intros H. pose proof (sg2_length_pos s H) as L. unfold pat. destruct s as [[a1 a2] [b1 b2]]. cbn [fst snd].
  unfold seg2, at_param2, add2, mul2, sub2. cbn [fst snd x2 y2]. apply vec2_ext; cbn [x2 y2]; field; lra.
Qed.
Lemma mix_close p p' q q' k e : 0 <= k <= 1 -> point_distance2 p p' < e -> point_distance2 q q' < e ->
  point_distance2 (at_param2 (p, q) k) (at_param2 (p', q') k) < e.
Proof.
  intros K P Q. unfold point_distance2 in *.
  assert (X : sub2 (at_param2 (p, q) k) (at_param2 (p', q') k) = add2 (mul2 (sub2 p p') (1 - k)) (mul2 (sub2 q q') k)).
  { unfold at_param2, sub2, add2, mul2. cbn [fst snd x2 y2]. apply vec2_ext; cbn [x2 y2]; ring. }
  rewrite X. eapply Rle_lt_trans; [apply norm2_triangle|]. rewrite !norm2_scale. rewrite !Rabs_pos_eq by lra.
  set (a := norm2 (sub2 p p')) in *. set (b := norm2 (sub2 q q')) in *. clearbody a b.
  assert (0 <= (1 - k) * (e - a)) by (apply Rmult_le_pos; lra). assert (0 <= k * (e - b)) by (apply Rmult_le_pos; lra).
  destruct (Rle_dec k (1 / 2)); [assert (0 < (1 - k) * (e - a)) by (apply Rmult_lt_0_compat; lra)|assert (0 < k * (e - b)) by (apply Rmult_lt_0_compat; lra)]; lra.
Qed.
Lemma frac_range i n : (2 <= n)%nat -> (i < n)%nat -> 0 <= INR i / INR (n - 1) <= 1.
Proof.
  intros N I. assert (M : 0 < INR (n - 1)) by (apply lt_0_INR; lia).
  split; [apply Rmult_le_pos; [apply pos_INR|apply Rlt_le, Rinv_0_lt_compat, M]|].
  apply Rmult_le_reg_r with (INR (n - 1)); auto. unfold Rdiv. rewrite Rmult_assoc, Rinv_l by lra. rewrite Rmult_1_r, Rmult_1_l. apply le_INR. lia.
Qed.
Lemma sg2_local_discretization_spec s p1 p2 n : proper2 s -> on_segment2 s p1 -> on_segment2 s p2 -> (2 <= n)%nat ->
  exists pts, sg2_local_discretization s p1 p2 n = Ok pts /\
    (forall p, In p pts -> on_segment2 s p) /\
    ForallOrdPairs (fun p q => / 10 ^ 6 < point_distance2 p q) pts /\
    (forall p, In p pts -> exists i, (i < n)%nat /\ point_distance2 p (at_param2 (p1, p2) (INR i / INR (n - 1))) < / 10 ^ 6) /\
    (forall i, (i < n)%nat -> exists q, In q pts /\ point_distance2 (at_param2 (p1, p2) (INR i / INR (n - 1))) q < 2 * / 10 ^ 6).
Proof.
  intros H S1 S2 N. pose proof (pow10_inv_pos 6) as T.
  destruct (sg2_pat_of_abscissa s p1 (/ 10 ^ 6) H T S1) as (a1 & q1 & A1 & R1 & Q1 & D1).
  destruct (sg2_pat_of_abscissa s p2 (/ 10 ^ 6) H T S2) as (a2 & q2 & A2 & R2 & Q2 & D2).
  rewrite sg2_pat_param in Q1, Q2 by exact H. apply Ok_inj in Q1, Q2. fold (pat s a1) in Q1. fold (pat s a2) in Q2.
  destruct (sg2_abscissa_discretization_spec s a1 a2 n H R1 R2) as (pts & abs & E & L & I1 & I2 & I3 & I4 & I5).
  unfold sg2_local_discretization. rewrite A1. cbn [bind]. rewrite A2. cbn [bind]. rewrite E. cbn [bind fst].
  exists pts. split; [reflexivity|]. split; [exact I1|]. split; [exact I4|].
  assert (Hm : forall i, (i < n)%nat -> exists p, sg2_point_at_abscissa s (a1 + INR i * ((a2 - a1) / INR (n - 1))) = Ok p /\ point_distance2 (at_param2 (p1, p2) (INR i / INR (n - 1))) p < / 10 ^ 6).
  { intros i I. pose proof (frac_range i n N I) as K. rewrite sg2_pat_param by exact H. eexists. split; [reflexivity|].
    replace (a1 + INR i * ((a2 - a1) / INR (n - 1))) with (a1 + (INR i / INR (n - 1)) * (a2 - a1)).
    2:{ field. apply not_0_INR. lia. }
    change (point_distance2 (at_param2 (p1, p2) (INR i / INR (n - 1))) (pat s (a1 + (INR i / INR (n - 1)) * (a2 - a1))) < / 10 ^ 6).
    rewrite pat_between by exact H. apply mix_close; auto; [rewrite Q1|rewrite Q2]; auto. }
  split.
  - intros p P. apply (In_nth _ _ p) in P as (j & J & P). pose proof (I2 j p) as B. rewrite <- L in B. specialize (B J). rewrite P in B.
    destruct (I3 (nth j abs 0)) as (i & Li & Ei); [apply nth_In; lia|]. exists i. split; auto.
    rewrite Ei in B. destruct (Hm i Li) as (p' & P' & D'). rewrite B in P'. apply Ok_inj in P'. subst p'. rewrite dist2_sym. exact D'.
  - intros i Li. destruct (I5 i Li) as (p & q & P & Q & D). destruct (Hm i Li) as (p' & P' & D'). rewrite P in P'. apply Ok_inj in P'. subst p'.
    exists q. split; auto. eapply Rle_lt_trans; [apply (dist2_triangle _ p)|]. lra.
Qed.

(** segment and line in space *)
Lemma sg3_line_complete s l tol r : proper3 s -> fst l <> snd l -> 0 <= tol ->
  is_colinear_to3 (dir3 s) (dir3 l) (/ 10 ^ 6) = false -> cross3 (dir3 s) (dir3 l) <> V3 0 0 0 ->
  (dot3 (dir3 s) (dir3 l) = 0 \/ tol < Rabs (dot3 (dir3 s) (dir3 l))) ->
  on_segment3 s r -> on_line3 l r -> sg3_line_intersections s l tol = Ok [r].
Proof.
  intros H1 H2 T C N DD S L. pose proof (pow10_inv_pos 6) as T6. unfold sg3_line_intersections.
  destruct (line3_skew_ok s l H1 H2 C N) as (b & d & E & [[x [y D]] M] & B). rewrite E. cbn [bind].
  assert (X : d <= 0).
  { destruct (on_seg_line3 _ _ S) as [x' X']. destruct (L) as [y' Y']. specialize (M x' y'). unfold seg3 in M. rewrite <- X', <- Y' in M. rewrite (proj2 (dist3_zero r r) eq_refl) in M. exact M. }
  destruct b; [pose proof (proj1 B eq_refl); lra|].
  rewrite (line3_intersection_complete s l tol r T C N DD (on_seg_line3 _ _ S) L). cbn [bind].
  rewrite sg3_belongs_yes; [reflexivity|exact H1|lra|apply on_near3; [lra|exact S]].
Qed.
Lemma sg3_line_sound s l tol : proper3 s -> fst l <> snd l -> 0 <= tol ->
  is_colinear_to3 (dir3 s) (dir3 l) (/ 10 ^ 6) = false -> cross3 (dir3 s) (dir3 l) <> V3 0 0 0 ->
  (dot3 (dir3 s) (dir3 l) = 0 \/ tol < Rabs (dot3 (dir3 s) (dir3 l))) ->
  exists pts, sg3_line_intersections s l tol = Ok pts /\ (length pts <= 1)%nat /\
   forall p, In p pts -> near_segment3 s p (/ 10 ^ 6) /\ exists q, on_line3 l q /\ point_distance3 p q <= Rmax tol (/ 10 ^ 6).
Proof.
  intros H1 H2 T C N DD. pose proof (pow10_inv_pos 6) as T6. unfold sg3_line_intersections.
  destruct (line3_skew_ok s l H1 H2 C N) as (b & d & E & _ & _). rewrite E. cbn [bind]. clear E d.
  destruct b. { exists []. cbn. split; auto. split; [lia|]. intros p []. }
  set (tail := (do b <- line3_point_belongs l (fst s) (/ 10 ^ 6); if b then Ok [fst s] else do b <- line3_point_belongs l (snd s) (/ 10 ^ 6); if b then Ok [snd s] else Ok [])).
  assert (TL : exists pts, tail = Ok pts /\ (length pts <= 1)%nat /\
    forall p, In p pts -> near_segment3 s p (/ 10 ^ 6) /\ exists q, on_line3 l q /\ point_distance3 p q <= Rmax tol (/ 10 ^ 6)).
  { assert (NE : forall p, (point_distance3 p (fst l) <= / 10 ^ 6 \/ exists q, on_line3 l q /\ point_distance3 p q < / 10 ^ 6) -> exists q, on_line3 l q /\ point_distance3 p q <= Rmax tol (/ 10 ^ 6)).
    { pose proof (Rmax_r tol (/ 10 ^ 6)). intros p [P | (q & Q & P)]; [exists (fst l)|exists q]; (split; [|lra]); auto.
      exists 0. destruct l as [[] []]. vec; v_eq; ring. }
    unfold tail. destruct (line3_belongs_ok l (fst s) (/ 10 ^ 6) H2) as (b1 & E1 & B1). rewrite E1. cbn [bind].
    destruct b1.
    { eexists. split; [reflexivity|]. split; [cbn; lia|]. intros p [<- | []]. split; [apply on_near3; [lra|]|].
      - exists 0. split; [lra|]. destruct s as [[] []]. vec; v_eq; ring.
      - apply NE, B1; auto. }
    destruct (line3_belongs_ok l (snd s) (/ 10 ^ 6) H2) as (b2 & E2 & B2). rewrite E2. cbn [bind]. destruct b2.
    { eexists. split; [reflexivity|]. split; [cbn; lia|]. intros p [<- | []]. split; [apply on_near3; [lra|]|].
      - exists 1. split; [lra|]. destruct s as [[] []]. vec; v_eq; ring.
      - apply NE, B2; auto. }
    exists []. cbn. split; auto. split; [lia|]. intros p []. }
  destruct (line3_intersection_ok s l tol T C N DD) as [(q & r & d & E & Q & R' & D & Dt & _) | (d & E & _ & _)]; rewrite E; cbn [bind]; [|exact TL].
  destruct (sg3_belongs_spec s q (/ 10 ^ 6) H1 (Rlt_le _ _ T6)) as (b & Eb & B). rewrite Eb. cbn [bind]. destruct b; [|exact TL].
  eexists. split; [reflexivity|]. split; [cbn; lia|]. intros p [<- | []]. split; [apply B; auto|]. exists r. split; auto. rewrite D.
  pose proof (Rmax_l tol (/ 10 ^ 6)). lra.
Qed.
(** each returned point is the foot of the common perpendicular when that is on its segment, its nearest end otherwise *)
Lemma sg3_distance_points s t d p q a b : proper3 s -> proper3 t ->
  get_minimum_distance_points_lines (fst s) (snd s) (fst t) (snd t) = (a, b) -> sg3_distance s t = Ok (d, p, q) ->
  d = point_distance3 p q /\
  (near_segment3 s a (/ 10 ^ 6) -> p = a) /\ (near_segment3 t b (/ 10 ^ 6) -> q = b) /\
  (~ near_segment3 s a (/ 10 ^ 6) -> (p = fst s \/ p = snd s) /\ point_distance3 p a <= point_distance3 (fst s) a /\ point_distance3 p a <= point_distance3 (snd s) a) /\
  (~ near_segment3 t b (/ 10 ^ 6) -> (q = fst t \/ q = snd t) /\ point_distance3 q b <= point_distance3 (fst t) b /\ point_distance3 q b <= point_distance3 (snd t) b).
Proof.
  intros H1 H2 G E. pose proof (pow10_inv_pos 6) as T. unfold sg3_distance in E. rewrite G in E.
  destruct (sg3_belongs_spec s a (/ 10 ^ 6) H1 (Rlt_le _ _ T)) as (b1 & E1 & B1). rewrite E1 in E. cbn [bind] in E.
  destruct (sg3_belongs_spec t b (/ 10 ^ 6) H2 (Rlt_le _ _ T)) as (b2 & E2 & B2). rewrite E2 in E. cbn [bind] in E.
  apply Ok_inj in E. apply pair_equal_spec in E as [E <-]. apply pair_equal_spec in E as [<- <-].
  assert (K : forall x y z, let e := if Rltb (point_distance3 x z) (point_distance3 y z) then x else y in
    (e = x \/ e = y) /\ point_distance3 e z <= point_distance3 x z /\ point_distance3 e z <= point_distance3 y z).
  { intros x y z. destruct (Rltb (point_distance3 x z) (point_distance3 y z)) eqn:L; [apply Rltb_spec in L|apply Rltb_false in L]; cbv zeta; repeat split; auto; lra. }
  split; [reflexivity|]. split; [intros X; apply B1 in X; now rewrite X|]. split; [intros X; apply B2 in X; now rewrite X|]. split.
  - intros X. destruct b1; [exfalso; apply X, B1; auto|]. apply K.
  - intros X. destruct b2; [exfalso; apply X, B2; auto|]. apply K.
Qed.
