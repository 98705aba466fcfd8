From Coq Require Import Reals Lra Lia List Bool ZArith.
From Verif.Model Require Import Base RBase Vec Frame BBox Geometry Plane Curves Ellipse Conic3.
From Verif.Spec Require Import VecSpec FrameSpec BBoxSpec PlaneSpec CurvesSpec EllipseSpec Conic3Spec.
From Verif.Proofs Require Import VecP LineP FrameP FrameP2 PlaneP CurvesP EllipseP EllipseP2 EllipseP4 Conic3P ParamSurfP ParamSurfP2.
Import ListNotations.
Open Scope R_scope.

Lemma upright_horizontal f tol : upright f -> 0 <= tol -> horizontal f tol = true.
Proof.
  intros U T. unfold horizontal. replace (Rabs (dot3 (bw (fb3 f)) Z3D)) with 1; [apply isclose_refl, T|].
  destruct U as [-> | ->]; unfold dot3, Z3D; cbn [x3 y3 z3]; [rewrite Rabs_right by lra|rewrite Rabs_left by lra]; ring.
Qed.
Lemma inclined_horizontal f tol : orthonormal (fb3 f) -> inclined f tol -> 0 <= tol -> horizontal f tol = false.
Proof.
  intros O H T. unfold horizontal, inclined in *. replace (dot3 (bw (fb3 f)) Z3D) with (z3 (bw (fb3 f))) by (unfold dot3, Z3D; cbn [x3 y3 z3]; ring).
  set (a := z3 (bw (fb3 f))) in *. destruct (isclose (Rabs a) 1 tol) eqn:E; [exfalso|reflexivity]. apply isclose_bound in E; [|exact T].
  pose proof (pow10_inv_pos 9) as P9. assert (A : Rabs a <= 1) by lra. rewrite Rabs_Rabsolu, Rabs_R1, Rmax_right in E by exact A. rewrite Rabs_left1 in E by lra. lra.
Qed.
Lemma upright_plane c q : upright (cf3 c) -> (on_plane (cf3 c) q <-> z3 q = z3 (center3 c)).
Proof.
  intros U. unfold on_plane, center3. destruct U as [-> | ->]; unfold dot3, sub3, Z3D; cbn [x3 y3 z3]; split; lra.
Qed.
Lemma dist_pow p q : point_distance3 p q ^ 2 = sq3 (sub3 p q).
Proof. rewrite dist_sq. transitivity (sqrt (sq3 (sub3 p q)) * sqrt (sq3 (sub3 p q))); [ring|]. apply sqrt_sqrt, sq3_pos. Qed.
Lemma close_heights z z' : / 10 ^ 6 < Rabs (z' - z) -> Rabs z <= 1000 -> Rabs z' <= 1000 -> isclose z z' (/ 10 ^ 6) = false.
Proof.
  intros A B C. destruct (isclose z z' (/ 10 ^ 6)) eqn:E; [exfalso|reflexivity]. apply Rleb_spec in E. rewrite Rabs_minus_sym in E.
  assert (T6 : / 10 ^ 6 = / 1000000) by (f_equal; ring). assert (T9 : / 10 ^ 9 = / 1000000000) by (f_equal; ring).
  assert (M : Rmax (Rabs z) (Rabs z') <= 1000) by (apply Rmax_lub; assumption).
  assert (Rmax (/ 10 ^ 9 * Rmax (Rabs z) (Rabs z')) (/ 10 ^ 6) <= / 10 ^ 6) by (apply Rmax_lub; [rewrite T6, T9 in *|]; lra). lra.
Qed.
Lemma small_square d : 0 <= d -> d ^ 2 <= / 10 ^ 7 / 4 -> d <= / 10 ^ 3.
Proof.
  intros P H. assert (T7 : / 10 ^ 7 = / 10000000) by (f_equal; ring). assert (T3 : / 10 ^ 3 = / 1000) by (f_equal; ring). rewrite T7 in H. rewrite T3.
  destruct (Rle_dec d (/ 1000)) as [L|L]; [exact L|exfalso]. apply Rnot_le_lt in L. assert (/ 1000 * / 1000 < d * d) by (apply Rmult_le_0_lt_compat; lra). lra.
Qed.
(** the body of the function when the plane of the circle is horizontal *)
Definition level_answer (c : circle3) (l : vec3 * vec3) (pts : list vec3) : Prop :=
  (forall q, In q pts -> on_line3 l q /\ z3 q = z3 (center3 c) /\ about_radius c q) /\
  (forall q, on_line3 l q -> z3 q = z3 (center3 c) -> point_distance3 q (center3 c) = cr3 c -> exists r, In r pts /\ point_distance3 q r <= / 10 ^ 3).
Lemma level_ok c l tol n : horizontal (cf3 c) tol = true -> 0 <= tol -> 0 <= cr3 c -> fst l <> snd l -> flat_or_steep l (z3 (center3 c)) ->
  exists pts, circle3_line_loop (S n) c l tol = Ok pts /\ level_answer c l pts.
Proof.
  intros H T R0 N F. cbn [circle3_line_loop]. rewrite H. cbn [negb]. destruct (line3_distance_ok l (center3 c) N) as (d & -> & (DE & DM)). cbn [bind].
  pose proof (pow10_inv_pos 6) as P6. pose proof (pow10_inv_pos 7) as P7. pose proof (pow10_inv_pos 3) as P3. pose proof (pow10_inv_pos 9) as P9.
  destruct (Rltb (cr3 c) d) eqn:E0.
  - apply Rltb_spec in E0. exists []. split; [reflexivity|]. split; [intros q []|]. intros q L _ D. exfalso. specialize (DM q L). rewrite dist3_sym in DM. lra.
  - destruct F as [[F1 F2]|[F1 [F2 F3]]].
    + rewrite F1, F2. rewrite !isclose_refl by lra. cbn [andb]. destruct (planar_complete c l (/ 10 ^ 7) N) as (pts & E & C); [lra|]. exists pts. split; [exact E|]. split.
      * intros q Q. destruct (planar_sound c l (/ 10 ^ 7) pts q N (Rlt_le _ _ P7) E Q) as [L B]. split; [exact L|]. split.
        -- destruct L as [t ->]. unfold add3, mul3, sub3. cbn [x3 y3 z3]. rewrite F1, F2. ring.
        -- unfold about_radius. rewrite dist_pow. eapply Rle_trans; [exact B|]. assert (T6 : / 10 ^ 6 = / 1000000) by (f_equal; ring). assert (T7 : / 10 ^ 7 = / 10000000) by (f_equal; ring).
           assert (0 <= / 10 ^ 9 * Rmax (sq3 (sub3 q (center3 c))) (cr3 c ^ 2)). { apply Rmult_le_pos; [lra|]. eapply Rle_trans; [apply sq3_pos|apply Rmax_l]. } rewrite T7, T6. lra.
      * intros q L Z D. destruct (C q L) as (r & Ir & B); [rewrite <- dist_pow, D; reflexivity|]. exists r. split; [exact Ir|]. apply small_square; [apply sqrt_pos|]. rewrite dist_pow. exact B.
    + rewrite close_heights by assumption. cbn [andb]. assert (DZ : z3 (dir3 l) <> 0).
      { unfold dir3, sub3. cbn [z3]. intro K. rewrite K, Rabs_R0 in F1. lra. }
      rewrite (proj2 (Reqb_false _ _)) by exact DZ. set (k := (z3 (center3 c) - z3 (fst l)) / z3 (dir3 l)). set (x := k * x3 (dir3 l) + x3 (fst l)). set (y := k * y3 (dir3 l) + y3 (fst l)).
      assert (KZ : k * z3 (dir3 l) = z3 (center3 c) - z3 (fst l)) by (unfold k; field; exact DZ).
      assert (QL : V3 x y (z3 (center3 c)) = add3 (fst l) (mul3 (dir3 l) k)). { unfold add3, mul3, x, y. apply vec3_ext; cbn [x3 y3 z3]; [ring|ring|rewrite (Rmult_comm (z3 (dir3 l)) k), KZ; ring]. }
      assert (SQ : sq3 (sub3 (V3 x y (z3 (center3 c))) (center3 c)) = (x - x3 (center3 c)) ^ 2 + (y - y3 (center3 c)) ^ 2) by (unfold sq3, dot3, sub3; cbn [x3 y3 z3]; ring).
      assert (ONE : forall q, on_line3 l q -> z3 q = z3 (center3 c) -> q = V3 x y (z3 (center3 c))).
      { intros q [t ->] Z. rewrite QL. f_equal. change (sub3 (snd l) (fst l)) with (dir3 l) in *. f_equal. unfold add3, mul3 in Z. cbn [z3] in Z. apply Rmult_eq_reg_r with (z3 (dir3 l)); [|exact DZ]. lra. }
      destruct (isclose _ _ (/ 10 ^ 6)) eqn:E1.
      * exists [V3 x y (z3 (center3 c))]. split; [reflexivity|]. split.
        -- intros q [<-|[]]. split; [exists k; exact QL|]. split; [reflexivity|]. unfold about_radius. rewrite dist_pow, SQ. apply isclose_bound in E1; [|lra].
           rewrite (Rabs_right ((x - x3 (center3 c)) ^ 2 + (y - y3 (center3 c)) ^ 2)) in E1 by (pose proof (pow2_ge_0 (x - x3 (center3 c))); pose proof (pow2_ge_0 (y - y3 (center3 c))); lra).
           rewrite (Rabs_right (cr3 c ^ 2)) in E1 by (apply Rle_ge, pow2_ge_0). rewrite (Rplus_comm (/ 10 ^ 6)). exact E1.
        -- intros q L Z D. exists q. split; [left; symmetry; apply ONE; assumption|]. rewrite dist_sq. replace (sq3 (sub3 q q)) with 0 by (unfold sq3, dot3, sub3; cbn [x3 y3 z3]; ring). rewrite sqrt_0. lra.
      * exists []. split; [reflexivity|]. split; [intros q []|]. intros q L Z D. exfalso. rewrite (ONE q L Z) in D. apply (f_equal (fun t => t ^ 2)) in D. rewrite dist_pow, SQ in D. rewrite D, isclose_refl in E1 by lra. discriminate.
Qed.
Lemma upright_ok : forall c l tol, upright (cf3 c) -> 0 <= tol -> 0 <= cr3 c -> fst l <> snd l -> flat_or_steep l (z3 (center3 c)) ->
  exists pts, circle3_line_intersections c l tol = Ok pts /\
  (forall q, In q pts -> on_line3 l q /\ on_plane (cf3 c) q /\ about_radius c q) /\
  (forall q, on_line3 l q -> on_circle3 c q -> exists r, In r pts /\ point_distance3 q r <= / 10 ^ 3).
Proof.
  intros c l tol U T R0 N F. destruct (level_ok c l tol 1 (upright_horizontal _ _ U T) T R0 N F) as (pts & E & A & B). exists pts. split; [exact E|]. split.
  - intros q Q. destruct (A q Q) as (L & Z & AR). split; [exact L|]. split; [apply upright_plane; assumption|exact AR].
  - intros q L [D P]. apply B; [exact L| |exact D]. apply (upright_plane c q U). unfold on_plane. rewrite dot3_sym. exact P.
Qed.
