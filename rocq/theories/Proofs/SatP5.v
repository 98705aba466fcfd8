(** Triangles in a face of a voxel; the nine edge axes. *)
From Verif.Model Require Import Base RBase Vec BBox Sat.
From Verif.Spec Require Import SatSpec SatSpec2.
From Verif.Proofs Require Import VecP SatP SatP2 SatP3 SatP4.
From Coq Require Import List Lra Lia Psatz Bool.
Import ListNotations.
Open Scope R_scope.

(** ** barycentric coordinates *)
Definition area2 (a b c : vec2) : R := (x2 b - x2 a) * (y2 c - y2 a) - (y2 b - y2 a) * (x2 c - x2 a).
Lemma sign_sum p a b c : sign_2d p a b + sign_2d p b c + sign_2d p c a = area2 a b c.
Proof. unfold sign_2d, area2. ring. Qed.
Lemma bary_x p a b c : x2 p * area2 a b c = sign_2d p b c * x2 a + sign_2d p c a * x2 b + sign_2d p a b * x2 c.
Proof. unfold sign_2d, area2. ring. Qed.
Lemma bary_y p a b c : y2 p * area2 a b c = sign_2d p b c * y2 a + sign_2d p c a * y2 b + sign_2d p a b * y2 c.
Proof. unfold sign_2d, area2. ring. Qed.
Definition lam (D s : R) := s / D.
Lemma point_in_triangle_iff p a b c : point_in_triangle_2d p (a, b, c) = true <->
  (sign_2d p a b < 0 /\ sign_2d p b c < 0 /\ sign_2d p c a < 0) \/ (0 <= sign_2d p a b /\ 0 <= sign_2d p b c /\ 0 <= sign_2d p c a).
Proof.
  unfold point_in_triangle_2d. rewrite andb_true_iff, !eqb_true_iff. unfold Rltb.
  destruct (Rlt_dec (sign_2d p a b) 0), (Rlt_dec (sign_2d p b c) 0), (Rlt_dec (sign_2d p c a) 0); split; intros H; try (left; lra); try (right; lra); try (split; reflexivity); try (destruct H as [H1 H2]; discriminate); exfalso; lra.
Qed.
Lemma point_in_triangle_sound p a b c : not_flat a b c -> point_in_triangle_2d p (a, b, c) = true -> in_triangle2 p a b c.
Proof.
  intros N H. apply point_in_triangle_iff in H. change (area2 a b c <> 0) in N.
  pose proof (sign_sum p a b c) as S. pose proof (bary_x p a b c) as X. pose proof (bary_y p a b c) as Y.
  set (D := area2 a b c) in *. clearbody D. exists (sign_2d p b c / D), (sign_2d p c a / D), (sign_2d p a b / D).
  assert (G : forall s, (s < 0 /\ D < 0) \/ (0 <= s /\ 0 < D) -> 0 <= s / D).
  { intros s [[A B]|[A B]]; [replace (s / D) with ((- s) / (- D)) by (field; lra); apply Rmult_le_pos; [lra|apply Rlt_le, Rinv_0_lt_compat; lra]|].
    apply Rmult_le_pos; [lra|apply Rlt_le, Rinv_0_lt_compat; lra]. }
  split; [apply G; lra|]. split; [apply G; lra|]. split; [apply G; lra|]. split; [|split].
  - rewrite <- S. field. lra.
  - apply Rmult_eq_reg_r with D; auto. rewrite X. field. auto.
  - apply Rmult_eq_reg_r with D; auto. rewrite Y. field. auto.
Qed.
Lemma point_in_triangle_inside p a b c : not_flat a b c -> inside_triangle2 p a b c -> point_in_triangle_2d p (a, b, c) = true.
Proof.
  intros N (r & s & t & R0 & S0 & T0 & E & X & Y). apply point_in_triangle_iff. change (area2 a b c <> 0) in N.
  assert (A : sign_2d p b c = r * area2 a b c). { unfold sign_2d, area2. rewrite X, Y. replace r with (1 - s - t) by lra. ring. }
  assert (B : sign_2d p c a = s * area2 a b c). { unfold sign_2d, area2. rewrite X, Y. replace r with (1 - s - t) by lra. ring. }
  assert (C : sign_2d p a b = t * area2 a b c). { unfold sign_2d, area2. rewrite X, Y. replace r with (1 - s - t) by lra. ring. }
  rewrite A, B, C. destruct (Rtotal_order (area2 a b c) 0) as [H|[H|H]]; [left|contradiction|right]; repeat split; nra.
Qed.
(** three affine functions, positive at 0, one of which is not positive at 1: somewhere between, all are nonnegative and one is zero *)
Lemma root_time f0 f1 : 0 < f0 -> exists t, 0 <= t <= 1 /\ (forall u, 0 <= u <= t -> 0 <= (1 - u) * f0 + u * f1) /\ (f1 <= 0 -> (1 - t) * f0 + t * f1 = 0) /\ (0 < f1 -> t = 1).
Proof.
  intros P. destruct (Rle_dec f1 0) as [H|H].
  - exists (f0 / (f0 - f1)). assert (D : 0 < f0 - f1) by lra. assert (Q : 0 <= f0 / (f0 - f1) <= 1).
    { split; [apply Rmult_le_pos; [lra|apply Rlt_le, Rinv_0_lt_compat, D]|]. apply Rmult_le_reg_r with (f0 - f1); auto. unfold Rdiv. rewrite Rmult_assoc, Rinv_l by lra. lra. }
    assert (Z : (1 - f0 / (f0 - f1)) * f0 + f0 / (f0 - f1) * f1 = 0) by (field; lra).
    split; auto. split; [|split; [auto|lra]]. intros u U. set (t := f0 / (f0 - f1)) in *. clearbody t. nra.
  - exists 1. split; [lra|]. split; [intros u U; nra|]. split; [lra|auto].
Qed.
Lemma first_zero a0 a1 b0 b1 c0 c1 : 0 < a0 -> 0 < b0 -> 0 < c0 -> a1 <= 0 \/ b1 <= 0 \/ c1 <= 0 ->
  exists t, 0 <= t <= 1 /\ 0 <= (1 - t) * a0 + t * a1 /\ 0 <= (1 - t) * b0 + t * b1 /\ 0 <= (1 - t) * c0 + t * c1 /\
    ((1 - t) * a0 + t * a1 = 0 \/ (1 - t) * b0 + t * b1 = 0 \/ (1 - t) * c0 + t * c1 = 0).
Proof.
  intros A B C H. destruct (root_time a0 a1 A) as (ta & Ta & Pa & Za & Ya). destruct (root_time b0 b1 B) as (tb & Tb & Pb & Zb & Yb). destruct (root_time c0 c1 C) as (tc & Tc & Pc & Zc & Yc).
  assert (G : forall t, 0 <= t -> t <= ta -> t <= tb -> t <= tc -> 0 <= (1 - t) * a0 + t * a1 /\ 0 <= (1 - t) * b0 + t * b1 /\ 0 <= (1 - t) * c0 + t * c1).
  { intros t T1 T2 T3 T4. split; [apply Pa; lra|]. split; [apply Pb; lra|apply Pc; lra]. }
  assert (W : (ta <= tb /\ ta <= tc /\ a1 <= 0) \/ (tb <= ta /\ tb <= tc /\ b1 <= 0) \/ (tc <= ta /\ tc <= tb /\ c1 <= 0)).
  { destruct (Rle_dec a1 0) as [a|a]; [|pose proof (Ya ltac:(lra))]; (destruct (Rle_dec b1 0) as [b|b]; [|pose proof (Yb ltac:(lra))]); (destruct (Rle_dec c1 0) as [c|c]; [|pose proof (Yc ltac:(lra))]);
    destruct (Rle_dec ta tb), (Rle_dec tb tc), (Rle_dec ta tc); try (left; lra); try (right; left; lra); try (right; right; lra); exfalso; lra. }
  destruct W as [(W1 & W2 & W3)|[(W1 & W2 & W3)|(W1 & W2 & W3)]]; [exists ta|exists tb|exists tc]; (split; [lra|]).
  - destruct (G ta) as (G1 & G2 & G3); [lra|lra|lra|lra|]. tauto.
  - destruct (G tb) as (G1 & G2 & G3); [lra|lra|lra|lra|]. tauto.
  - destruct (G tc) as (G1 & G2 & G3); [lra|lra|lra|lra|]. tauto.
Qed.

(** ** _triangle_2d_intersects_pixel *)
Lemma in_triangle_side_0 p a b c r s t : r = 0 -> 0 <= s -> 0 <= t -> r + s + t = 1 -> x2 p = r * x2 a + s * x2 b + t * x2 c -> y2 p = r * y2 a + s * y2 b + t * y2 c -> in_segment2 p b c.
Proof. intros -> S T E X Y. exists t. split; [lra|]. rewrite X, Y. replace s with (1 - t) by lra. split; ring. Qed.
Lemma point_in_pixel_iff p lo hi : point_in_pixel p lo hi = true <-> in_rect p (x2 lo) (x2 hi) (y2 lo) (y2 hi).
Proof. unfold point_in_pixel, in_rect. rewrite !andb_true_iff, !Rleb_spec. tauto. Qed.
Lemma bounds3 (a b c r s t : R) : 0 <= r -> 0 <= s -> 0 <= t -> r + s + t = 1 -> min_of3 a b c <= r * a + s * b + t * c <= max_of3 a b c.
Proof.
  intros R0 S0 T0 E. unfold min_of3, max_of3. pose proof (Rmin_l (Rmin a b) c). pose proof (Rmin_r (Rmin a b) c). pose proof (Rmin_l a b). pose proof (Rmin_r a b).
  pose proof (Rmax_l (Rmax a b) c). pose proof (Rmax_r (Rmax a b) c). pose proof (Rmax_l a b). pose proof (Rmax_r a b).
  set (m := Rmin (Rmin a b) c) in *. set (M := Rmax (Rmax a b) c) in *. assert (m <= a /\ m <= b /\ m <= c /\ a <= M /\ b <= M /\ c <= M) by lra. clearbody m M.
  split; [replace m with (r * m + s * m + t * m) by (rewrite <- !Rmult_plus_distr_r, E; ring)|replace M with (r * M + s * M + t * M) by (rewrite <- !Rmult_plus_distr_r, E; ring)]; nra.
Qed.
Section Pixel.
Variables (a b c center ext : vec2).
Let xm := round9 (x2 center - x2 ext).
Let xM := round9 (x2 center + x2 ext).
Let ym := round9 (y2 center - y2 ext).
Let yM := round9 (y2 center + y2 ext).
Lemma hits_iff : triangle_2d_hits_pixel (a, b, c) center ext = true <->
  (xm <= max_of3 (x2 a) (x2 b) (x2 c) /\ min_of3 (x2 a) (x2 b) (x2 c) <= xM /\ ym <= max_of3 (y2 a) (y2 b) (y2 c) /\ min_of3 (y2 a) (y2 b) (y2 c) <= yM) /\
  (in_rect a xm xM ym yM \/ in_rect b xm xM ym yM \/ in_rect c xm xM ym yM \/
   (exists x y, (x = xm \/ x = xM) /\ (y = ym \/ y = yM) /\ point_in_triangle_2d (V2 x y) (a, b, c) = true) \/
   segment_hits_pixel a b xm xM ym yM = true \/ segment_hits_pixel a c xm xM ym yM = true \/ segment_hits_pixel b c xm xM ym yM = true).
Proof.
  unfold triangle_2d_hits_pixel. cbv zeta. cbn [x2 y2]. fold xm xM ym yM.
  set (RO := rectangles_overlap _ _ _ _). assert (O : RO = true <-> (xm <= max_of3 (x2 a) (x2 b) (x2 c) /\ min_of3 (x2 a) (x2 b) (x2 c) <= xM /\ ym <= max_of3 (y2 a) (y2 b) (y2 c) /\ min_of3 (y2 a) (y2 b) (y2 c) <= yM)).
  { unfold RO, rectangles_overlap. cbn [x2 y2]. destruct (Rltb _ xm || _) eqn:E1; [|destruct (Rltb _ ym || _) eqn:E2].
    - split; [discriminate|]. intros H. exfalso. apply orb_prop in E1 as [E|E]; apply Rltb_spec in E; lra.
    - split; [discriminate|]. intros H. exfalso. apply orb_prop in E2 as [E|E]; apply Rltb_spec in E; lra.
    - split; auto. intros _. apply orb_false_elim in E1 as [A B]. apply orb_false_elim in E2 as [C D]. apply Rltb_false in A, B, C, D. lra. }
  rewrite <- O. clear O. clearbody RO. destruct RO; cbn [negb]; [|split; [discriminate|intros [H _]; discriminate]].
  set (p1 := point_in_pixel a _ _ || _ || _). assert (P1 : p1 = true <-> in_rect a xm xM ym yM \/ in_rect b xm xM ym yM \/ in_rect c xm xM ym yM).
  { unfold p1. rewrite !orb_true_iff, !point_in_pixel_iff. cbn [x2 y2]. tauto. }
  set (p2 := point_in_triangle_2d _ _ || _ || _ || _). assert (P2 : p2 = true <-> exists x y, (x = xm \/ x = xM) /\ (y = ym \/ y = yM) /\ point_in_triangle_2d (V2 x y) (a, b, c) = true).
  { unfold p2. rewrite !orb_true_iff. split.
    - intros [[[H|H]|H]|H]; eexists _, _; (split; [|split; [|exact H]]); auto.
    - intros (x & y & [-> | ->] & [-> | ->] & H); tauto. }
  set (p3 := segment_hits_pixel _ _ _ _ _ _ || _ || _). assert (P3 : p3 = true <-> segment_hits_pixel a b xm xM ym yM = true \/ segment_hits_pixel a c xm xM ym yM = true \/ segment_hits_pixel b c xm xM ym yM = true).
  { unfold p3. rewrite !orb_true_iff. tauto. }
  rewrite <- P3, <- P2. clear P2 P3. clearbody p2 p3. destruct p1, p2, p3; tauto || (split; [intros; split; [reflexivity|tauto]|auto]); intros; try discriminate.
  all: exfalso; destruct H as [_ [H|[H|[H|[H|H]]]]]; try discriminate; assert (false = true) by (apply P1; tauto); discriminate.
Qed.
End Pixel.
