(** The triangle / pixel test of triangles that lie in a face of a voxel. *)
From Verif.Model Require Import Base RBase Vec BBox Geometry Sat.
From Verif.Spec Require Import SatSpec SatSpec2.
From Verif.Proofs Require Import VecP GeometryP SatP SatP2 SatP3 SatP4 SatP5.
From Coq Require Import List Lra Lia Psatz Bool.
Import ListNotations.
Open Scope R_scope.

Lemma rfloor_le x y : x <= y -> (rfloor x <= rfloor y)%Z.
Proof. intros H. pose proof (floor_spec x). pose proof (floor_spec y). apply Z.lt_succ_r. apply lt_IZR. unfold Z.succ. rewrite plus_IZR. lra. Qed.
Lemma c_round_le x y : x <= y -> (c_round x <= c_round y)%Z.
Proof.
  intros H. destruct (Rlt_dec x 0) as [A|A], (Rlt_dec y 0) as [B|B].
  - unfold c_round. rewrite !(proj2 (Rltb_spec _ _)) by lra. apply Z.opp_le_mono. rewrite !Z.opp_involutive. apply rfloor_le. lra.
  - apply Z.le_trans with 0%Z; [apply round_nonpos; lra|apply round_nonneg; lra].
  - exfalso. lra.
  - unfold c_round. rewrite !(proj2 (Rltb_false _ _)) by lra. apply rfloor_le. lra.
Qed.
Lemma round9_le x y : x <= y -> round9 x <= round9 y.
Proof.
  intros H. pose proof pow9_pos as P. unfold round9, round_digits. apply Rmult_le_compat_r; [apply Rlt_le, Rinv_0_lt_compat, P|]. apply IZR_le, c_round_le. apply Rmult_le_compat_r; lra.
Qed.
Lemma vertex_in a b c : in_triangle2 a a b c /\ in_triangle2 b a b c /\ in_triangle2 c a b c.
Proof. split; [exists 1, 0, 0|split; [exists 0, 1, 0|exists 0, 0, 1]]; repeat split; lra. Qed.
Lemma side_in r a b c : (in_segment2 r a b \/ in_segment2 r a c \/ in_segment2 r b c) -> in_triangle2 r a b c.
Proof.
  intros [(t & T & X & Y)|[(t & T & X & Y)|(t & T & X & Y)]]; [exists (1 - t), t, 0|exists (1 - t), 0, t|exists 0, (1 - t), t]; rewrite X, Y; repeat split; try lra.
Qed.
(** what is reported is really met, up to the rounding *)
Lemma hits_sound a b c center ext d : not_flat a b c -> 0 <= d -> side_margin d a b -> side_margin d a c -> side_margin d b c ->
  0 <= x2 ext -> 0 <= y2 ext ->
  triangle_2d_hits_pixel (a, b, c) center ext = true ->
  exists r, in_triangle2 r a b c /\
    in_rect r (round9 (x2 center - x2 ext) - d) (round9 (x2 center + x2 ext) + d) (round9 (y2 center - y2 ext) - d) (round9 (y2 center + y2 ext) + d).
Proof.
  intros N D S1 S2 S3 EX EY H. apply hits_iff in H as [_ H].
  assert (MX : round9 (x2 center - x2 ext) <= round9 (x2 center + x2 ext)) by (apply round9_le; lra).
  assert (MY : round9 (y2 center - y2 ext) <= round9 (y2 center + y2 ext)) by (apply round9_le; lra).
  set (xm := round9 (x2 center - x2 ext)) in *. set (xM := round9 (x2 center + x2 ext)) in *. set (ym := round9 (y2 center - y2 ext)) in *. set (yM := round9 (y2 center + y2 ext)) in *.
  destruct (vertex_in a b c) as (Va & Vb & Vc). unfold in_rect in H |- *.
  destruct H as [H|[H|[H|[(x & y & X & Y & H)|[H|[H|H]]]]]].
  - exists a. split; auto. lra.
  - exists b. split; auto. lra.
  - exists c. split; auto. lra.
  - exists (V2 x y). split; [apply point_in_triangle_sound; auto|]. cbn [x2 y2]. destruct X as [-> | ->], Y as [-> | ->]; lra.
  - destruct (hit_sound a b xm xM ym yM d MX MY H D S1) as (r & R1 & R2). exists r. split; [apply side_in; auto|exact R2].
  - destruct (hit_sound a c xm xM ym yM d MX MY H D S2) as (r & R1 & R2). exists r. split; [apply side_in; auto|exact R2].
  - destruct (hit_sound b c xm xM ym yM d MX MY H D S3) as (r & R1 & R2). exists r. split; [apply side_in; auto|exact R2].
Qed.
(** what is met is reported *)
Lemma hits_complete a b c center ext r : not_flat a b c ->
  let xm := round9 (x2 center - x2 ext) in let xM := round9 (x2 center + x2 ext) in
  let ym := round9 (y2 center - y2 ext) in let yM := round9 (y2 center + y2 ext) in
  side_ok (xM - xm) (yM - ym) a b -> side_ok (xM - xm) (yM - ym) a c -> side_ok (xM - xm) (yM - ym) b c ->
  in_triangle2 r a b c -> in_rect r xm xM ym yM -> triangle_2d_hits_pixel (a, b, c) center ext = true.
Proof.
  intros N xm xM ym yM S1 S2 S3 T Rr. apply hits_iff. fold xm xM ym yM.
  destruct T as (i & j & k & I & J & K & E & X & Y). pose proof (bounds3 (x2 a) (x2 b) (x2 c) i j k I J K E) as BX. pose proof (bounds3 (y2 a) (y2 b) (y2 c) i j k I J K E) as BY.
  rewrite <- X in BX. rewrite <- Y in BY. destruct Rr as [RX RY]. split; [lra|].
  assert (SD : forall p, in_rect p xm xM ym yM -> in_segment2 p a b \/ in_segment2 p a c \/ in_segment2 p b c ->
    segment_hits_pixel a b xm xM ym yM = true \/ segment_hits_pixel a c xm xM ym yM = true \/ segment_hits_pixel b c xm xM ym yM = true).
  { intros p Rp [H|[H|H]]; [left|right; left|right; right]; eapply hit_complete; eauto. }
  set (w := V2 xm ym). destruct (point_in_triangle_2d w (a, b, c)) eqn:W.
  { right. right. right. left. exists xm, ym. auto. }
  do 4 right.
  (* coordinates of the corner *)
  change (area2 a b c <> 0) in N. set (D := area2 a b c) in *.
  pose proof (sign_sum w a b c) as WS. pose proof (bary_x w a b c) as WX. pose proof (bary_y w a b c) as WY. fold D in WS, WX, WY.
  set (i' := sign_2d w b c / D). set (j' := sign_2d w c a / D). set (k' := sign_2d w a b / D).
  assert (E' : i' + j' + k' = 1). { unfold i', j', k'. rewrite <- WS. field. rewrite WS. auto. }
  assert (X' : x2 w = i' * x2 a + j' * x2 b + k' * x2 c). { apply Rmult_eq_reg_r with D; auto. rewrite WX. unfold i', j', k'. field. auto. }
  assert (Y' : y2 w = i' * y2 a + j' * y2 b + k' * y2 c). { apply Rmult_eq_reg_r with D; auto. rewrite WY. unfold i', j', k'. field. auto. }
  assert (C : i' <= 0 \/ j' <= 0 \/ k' <= 0).
  { destruct (Rle_dec i' 0) as [|Hi]; auto. destruct (Rle_dec j' 0) as [|Hj]; auto. destruct (Rle_dec k' 0) as [|Hk]; auto. exfalso.
    rewrite point_in_triangle_inside in W; [discriminate|exact N|]. exists i', j', k'. repeat split; lra. }
  clearbody i' j' k'. clear WS WX WY W.
  assert (ONS : forall p q1 q2 q3, 0 <= q1 -> 0 <= q2 -> 0 <= q3 -> q1 + q2 + q3 = 1 -> x2 p = q1 * x2 a + q2 * x2 b + q3 * x2 c -> y2 p = q1 * y2 a + q2 * y2 b + q3 * y2 c ->
    q1 = 0 \/ q2 = 0 \/ q3 = 0 -> in_segment2 p a b \/ in_segment2 p a c \/ in_segment2 p b c).
  { intros p q1 q2 q3 Q1 Q2 Q3 QE PX PY [Z|[Z|Z]].
    - right. right. exists q3. split; [lra|]. rewrite PX, PY, Z. replace q2 with (1 - q3) by lra. split; ring.
    - right. left. exists q3. split; [lra|]. rewrite PX, PY, Z. replace q1 with (1 - q3) by lra. split; ring.
    - left. exists q2. split; [lra|]. rewrite PX, PY, Z. replace q1 with (1 - q2) by lra. split; ring. }
  destruct (Rle_lt_or_eq_dec 0 i I) as [I1|I1]; [destruct (Rle_lt_or_eq_dec 0 j J) as [J1|J1]; [destruct (Rle_lt_or_eq_dec 0 k K) as [K1|K1]|]|].
  2-4: (apply (SD r); [split; auto|]; apply (ONS r i j k); auto).
  destruct (first_zero i i' j j' k k' I1 J1 K1 C) as (t & T & A & B & G & Z).
  set (p := V2 ((1 - t) * x2 r + t * x2 w) ((1 - t) * y2 r + t * y2 w)).
  apply (SD p).
  - unfold in_rect, p, w. cbn [x2 y2]. split; split; nra.
  - apply (ONS p _ _ _ A B G); auto.
    + transitivity ((1 - t) * (i + j + k) + t * (i' + j' + k')); [ring|]. rewrite E, E'. ring.
    + unfold p. cbn [x2]. rewrite X, X'. ring.
    + unfold p. cbn [y2]. rewrite Y, Y'. ring.
Qed.
(** ** triangles in a face *)
Lemma round9_id x : nano x -> round9 x = x.
Proof. intros (k & ->). apply round9_nano. Qed.
Lemma block_complete (k : vec3 -> R) (pr : vec3 -> vec2) a b c center ext r :
  k a = k b -> k b = k c -> k a = k center - k ext \/ k a = k center + k ext ->
  nano_pixel (pr center) (pr ext) -> not_flat (pr a) (pr b) (pr c) ->
  side_ok (2 * x2 (pr ext)) (2 * y2 (pr ext)) (pr a) (pr b) -> side_ok (2 * x2 (pr ext)) (2 * y2 (pr ext)) (pr a) (pr c) -> side_ok (2 * x2 (pr ext)) (2 * y2 (pr ext)) (pr b) (pr c) ->
  in_triangle2 r (pr a) (pr b) (pr c) ->
  in_rect r (x2 (pr center) - x2 (pr ext)) (x2 (pr center) + x2 (pr ext)) (y2 (pr center) - y2 (pr ext)) (y2 (pr center) + y2 (pr ext)) ->
  interface_block k pr (a, b, c) center ext = true.
Proof.
  intros E1 E2 F (N1 & N2 & N3 & N4) NF S1 S2 S3 T Rr. unfold interface_block. rewrite <- E2, <- E1.
  assert (Q : forall x, Reqb x x = true) by (intros x; apply Reqb_spec; reflexivity). rewrite !Q. cbn [andb].
  assert (W : Reqb (round9 (k a)) (round9 (k center - k ext)) || Reqb (round9 (k a)) (round9 (k center + k ext)) = true).
  { destruct F as [F|F]; rewrite F, Q; [reflexivity|apply orb_true_r]. }
  rewrite W. cbn [andb]. apply (hits_complete _ _ _ _ _ r NF); rewrite ?(round9_id _ N1), ?(round9_id _ N2), ?(round9_id _ N3), ?(round9_id _ N4); auto.
  - replace (_ + x2 (pr ext) - _) with (2 * x2 (pr ext)) by ring. replace (_ + y2 (pr ext) - _) with (2 * y2 (pr ext)) by ring. exact S1.
  - replace (_ + x2 (pr ext) - _) with (2 * x2 (pr ext)) by ring. replace (_ + y2 (pr ext) - _) with (2 * y2 (pr ext)) by ring. exact S2.
  - replace (_ + x2 (pr ext) - _) with (2 * x2 (pr ext)) by ring. replace (_ + y2 (pr ext) - _) with (2 * y2 (pr ext)) by ring. exact S3.
Qed.
(** a triangle in the face x = constant (resp. y, z) of the box that meets the box is reported, cubic box or not *)
Lemma face_reported a b c center ext p : in_triangle3 p a b c -> in_box3 p center ext ->
  (x3 a = x3 b /\ x3 b = x3 c /\ (x3 a = x3 center - x3 ext \/ x3 a = x3 center + x3 ext) /\ nano_pixel (pr_yz center) (pr_yz ext) /\
   not_flat (pr_yz a) (pr_yz b) (pr_yz c) /\ side_ok (2 * y3 ext) (2 * z3 ext) (pr_yz a) (pr_yz b) /\ side_ok (2 * y3 ext) (2 * z3 ext) (pr_yz a) (pr_yz c) /\ side_ok (2 * y3 ext) (2 * z3 ext) (pr_yz b) (pr_yz c)) \/
  (y3 a = y3 b /\ y3 b = y3 c /\ (y3 a = y3 center - y3 ext \/ y3 a = y3 center + y3 ext) /\ nano_pixel (pr_xz center) (pr_xz ext) /\
   not_flat (pr_xz a) (pr_xz b) (pr_xz c) /\ side_ok (2 * x3 ext) (2 * z3 ext) (pr_xz a) (pr_xz b) /\ side_ok (2 * x3 ext) (2 * z3 ext) (pr_xz a) (pr_xz c) /\ side_ok (2 * x3 ext) (2 * z3 ext) (pr_xz b) (pr_xz c)) \/
  (z3 a = z3 b /\ z3 b = z3 c /\ (z3 a = z3 center - z3 ext \/ z3 a = z3 center + z3 ext) /\ nano_pixel (pr_xy center) (pr_xy ext) /\
   not_flat (pr_xy a) (pr_xy b) (pr_xy c) /\ side_ok (2 * x3 ext) (2 * y3 ext) (pr_xy a) (pr_xy b) /\ side_ok (2 * x3 ext) (2 * y3 ext) (pr_xy a) (pr_xy c) /\ side_ok (2 * x3 ext) (2 * y3 ext) (pr_xy b) (pr_xy c)) ->
  triangle_intersects_voxel (a, b, c) center ext = true.
Proof.
  intros (r & s & t & R0 & S0 & T0 & E & X & Y & Z) (BX & BY & BZ) H.
  assert (AB : forall u v e, Rabs (u - v) <= e -> v - e <= u <= v + e). { intros u v e K. apply Rabs_le_inv in K. lra. }
  apply AB in BX, BY, BZ. unfold triangle_intersects_voxel, interface_test.
  destruct H as [(H1 & H2 & H3 & H4 & H5 & H6 & H7 & H8)|[(H1 & H2 & H3 & H4 & H5 & H6 & H7 & H8)|(H1 & H2 & H3 & H4 & H5 & H6 & H7 & H8)]].
  - rewrite (block_complete x3 pr_yz a b c center ext (pr_yz p)); auto; [rewrite !orb_true_r; reflexivity| |split; cbn [pr_yz x2 y2]; lra]. exists r, s, t. cbn [pr_yz x2 y2]. auto 10.
  - rewrite (block_complete y3 pr_xz a b c center ext (pr_xz p)); auto; [rewrite !orb_true_r; rewrite ?orb_true_r; reflexivity| |split; cbn [pr_xz x2 y2]; lra]. exists r, s, t. cbn [pr_xz x2 y2]. auto 10.
  - rewrite (block_complete z3 pr_xy a b c center ext (pr_xy p)); auto; [rewrite !orb_true_r; reflexivity| |split; cbn [pr_xy x2 y2]; lra]. exists r, s, t. cbn [pr_xy x2 y2]. auto 10.
Qed.
(** ** the nine edge axes: what a reported triangle satisfies *)
Lemma axis_not_beyond v0 v1 v2 ax f ext : axis_separates v0 v1 v2 ax f ext = false ->
  ~ beyond ax v0 v1 v2 (x3 ext * Rabs (z3 f) + y3 ext * Rabs (x3 f) + z3 ext * Rabs (y3 f)).
Proof.
  intros H B. unfold axis_separates in H. apply Rltb_false in H. set (r := _ + _ + _) in *. clearbody r.
  assert (G : r < Rmax (- max_of3 (dot3 v0 ax) (dot3 v1 ax) (dot3 v2 ax)) (min_of3 (dot3 v0 ax) (dot3 v1 ax) (dot3 v2 ax))); [|lra].
  unfold max_of3, min_of3. destruct B as [(A & B & C)|(A & B & C)].
  - apply Rlt_le_trans with (2 := Rmax_r _ _). repeat apply Rmin_glb_lt; auto.
  - apply Rlt_le_trans with (2 := Rmax_l _ _). assert (Rmax (Rmax (dot3 v0 ax) (dot3 v1 ax)) (dot3 v2 ax) < - r); [|lra]. repeat apply Rmax_lub_lt; auto.
Qed.
Lemma sat_axes t0 t1 t2 center ext : sat_test (t0, t1, t2) center ext = true ->
  forall f, In f [sub3 t1 t0; sub3 t2 t1; sub3 t0 t2] -> forall e, In e [V3 1 0 0; V3 0 1 0; V3 0 0 1] ->
  ~ beyond (cross3 e f) (sub3 t0 center) (sub3 t1 center) (sub3 t2 center) (x3 ext * Rabs (z3 f) + y3 ext * Rabs (x3 f) + z3 ext * Rabs (y3 f)).
Proof.
  intros H f F e E. unfold sat_test in H.
  repeat match type of H with (if ?b then false else _) = true => destruct b eqn:?; [discriminate|] end.
  assert (A0 : forall f, cross3 (V3 1 0 0) f = axis0 f) by (intros g; unfold cross3, axis0; cbn [x3 y3 z3]; f_equal; ring).
  assert (A1 : forall f, cross3 (V3 0 1 0) f = axis1 f) by (intros g; unfold cross3, axis1; cbn [x3 y3 z3]; f_equal; ring).
  assert (A2 : forall f, cross3 (V3 0 0 1) f = axis2 f) by (intros g; unfold cross3, axis2; cbn [x3 y3 z3]; f_equal; ring).
  destruct E as [<- |[<- |[<- |[]]]]; rewrite ?A0, ?A1, ?A2; destruct F as [<- |[<- |[<- |[]]]]; apply axis_not_beyond; assumption.
Qed.
Lemma ex_face :
  let a := V2 0 0 in let b := V2 1 0 in let c := V2 0 1 in
  not_flat a b c /\ side_ok 2 2 a b /\ side_ok 2 2 a c /\ side_ok 2 2 b c /\ nano_pixel (V2 1 1) (V2 1 1) /\ in_triangle2 (V2 (1/4) (1/4)) a b c
  /\ side_margin 1 a b /\ side_margin 1 a c /\ side_margin 1 b c.
Proof.
  assert (P : / 10 ^ 9 <= 1) by lra.
  intros a b c; subst a b c. unfold not_flat, side_ok, side_margin, nano_pixel, nano, in_triangle2. cbn [x2 y2].
  replace (1 - 0) with 1 by ring. replace (0 - 0) with 0 by ring. replace (0 - 1) with (-1) by ring. rewrite Rabs_R0, Rabs_R1. replace (Rabs (-1)) with 1 by (symmetry; rewrite Rabs_left; lra).
  set (e := / 10 ^ 9) in *.
  split; [lra|]. split; [lra|]. split; [lra|]. split; [lra|]. split.
  { split; [exists 0%Z; field|]. split; [exists (2 * 10 ^ 9)%Z|split; [exists 0%Z; field|exists (2 * 10 ^ 9)%Z]]; replace (IZR (2 * 10 ^ 9)) with (2 * 10 ^ 9) by (rewrite mult_IZR, pow_IZR; reflexivity || (simpl; lra)); field. }
  split; [exists (1/2), (1/4), (1/4); repeat split; lra|].
  unfold Rdiv. fold e. repeat split; lra.
Qed.
