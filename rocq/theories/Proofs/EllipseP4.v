From Coq Require Import Reals Lra Lia List Bool ZArith.
From Verif.Model Require Import Base RBase Vec Frame BBox Geometry Curves Ellipse.
From Verif.Spec Require Import VecSpec FrameSpec BBoxSpec PlaneSpec CurvesSpec AngleSpec EllipseSpec.
From Verif.Proofs Require Import VecP LineP FrameP BBoxP GeometryP PlaneP CurvesP CurvesP3 CurvesP4 CurvesP5 EllipseP EllipseP2 EllipseP3.
Import ListNotations.
Open Scope R_scope.

Lemma isclose_far : forall a b, Rabs a <= 1 -> Rabs b = 1 -> / 10 ^ 5 < Rabs (a - b) -> isclose a b (/ 10 ^ 6) = false.
Proof.
  intros a b A B H. destruct (isclose a b (/ 10 ^ 6)) eqn:E; [|reflexivity]. exfalso. assert (T : 0 <= / 10 ^ 6) by (apply Rlt_le, pow10_inv_pos). apply isclose_bound in E; [|exact T].
  assert (M : Rmax (Rabs a) (Rabs b) <= 1) by (apply Rmax_lub; lra). assert (T5 : / 10 ^ 5 = / 100000) by (f_equal; ring). assert (T6 : / 10 ^ 6 = / 1000000) by (f_equal; ring). assert (T9 : / 10 ^ 9 = / 1000000000) by (f_equal; ring).
  rewrite T5, T6, T9 in *. lra.
Qed.
Lemma cross_sides : forall b, orthonormal2 b -> (cross2 (u2 b) (v2 b) = 1 /\ v2 b = normal_vector2 (u2 b)) \/ (cross2 (u2 b) (v2 b) = -1 /\ v2 b = neg2 (normal_vector2 (u2 b))).
Proof.
  intros [[ux uy] [vx vy]] (U & V & UV). unfold dot2, cross2, normal_vector2, neg2 in *. cbn [u2 v2 x2 y2] in *.
  assert (C : (ux * vy - uy * vx) * (ux * vy - uy * vx) = 1).
  { transitivity ((ux * ux + uy * uy) * (vx * vx + vy * vy) - (ux * vx + uy * vy) * (ux * vx + uy * vy)); [ring|rewrite U, V, UV; ring]. }
  assert (X : vx = - uy * (ux * vy - uy * vx)). { transitivity (vx * (ux * ux + uy * uy) - ux * (ux * vx + uy * vy)); [rewrite U, UV; ring|ring]. }
  assert (Y : vy = ux * (ux * vy - uy * vx)). { transitivity (vy * (ux * ux + uy * uy) - uy * (ux * vx + uy * vy)); [rewrite U, UV; ring|ring]. }
  set (c := ux * vy - uy * vx) in *. assert (K : (c - 1) * (c + 1) = 0) by lra. apply Rmult_integral in K as [K|K]; [left|right].
  - assert (c = 1) by lra. split; [assumption|]. rewrite X, Y. f_equal; rewrite H; ring.
  - assert (c = -1) by lra. split; [assumption|]. rewrite X, Y. f_equal; rewrite H; ring.
Qed.
Lemma angles_of : forall e, ellipse_ok e -> (cross2 (major_dir e) (minor_dir e) = 1 /\ ellipse2_angles e = Ok (0, TWO_PI, true)) \/
  (cross2 (major_dir e) (minor_dir e) = -1 /\ ellipse2_angles e = Ok (TWO_PI, 0, false)).
Proof.
  intros e [O _]. unfold ellipse2_angles, major_dir, minor_dir. destruct (cross_sides _ O) as [[C _]|[C _]]; rewrite C; [left|right]; (split; [reflexivity|]); assert (T : 0 <= / 10 ^ 6) by (apply Rlt_le, pow10_inv_pos).
  - rewrite (isclose_refl 1 _ T). reflexivity.
  - rewrite isclose_far, (isclose_refl (-1) _ T); [reflexivity|rewrite Rabs_left; lra|apply Rabs_R1|].
    assert (/ 10 ^ 5 < 1). { rewrite <- Rinv_1. apply Rinv_lt_contravar; simpl; lra. } rewrite (Rabs_left (-1 - 1)); lra.
Qed.
Lemma linspace_nth : forall a b n i, (2 <= n)%nat -> (i < n)%nat -> nth_error (linspace_n a b n) i = Some (a + INR i * ((b - a) / INR (n - 1))).
Proof.
  intros a b n i N I. unfold linspace_n. assert (E : (n =? 1)%nat = false) by (apply Nat.eqb_neq; lia).
  erewrite map_nth_error; [rewrite E; reflexivity|]. rewrite (nth_error_nth' _ O); [rewrite seq_nth by exact I; reflexivity|rewrite seq_length; exact I].
Qed.
Lemma some_inj2 {A} (a b : A) : Some a = Some b -> a = b.
Proof. intros H. injection H. auto. Qed.
Lemma nth_error_ext2 {A} : forall (l l' : list A), (forall i, nth_error l i = nth_error l' i) -> l = l'.
Proof.
  induction l as [|a l IH]; intros [|b l'] H; [reflexivity|discriminate (H O)|discriminate (H O)|]. pose proof (some_inj2 _ _ (H O)). subst. f_equal. apply IH. intros i. apply (H (S i)).
Qed.
(** anticlockwise when the frame is direct, and from 2 pi to 0 in it otherwise: anticlockwise too *)
Lemma discretization_ok : forall e n, ellipse_ok e -> (2 <= n)%nat -> exists pts, ellipse2_discretization e n = Ok pts /\ length pts = n /\
  (forall i, (i < n)%nat -> nth_error pts i = Some (ellipse2_point e (cross2 (major_dir e) (minor_dir e) * (INR i * (2 * PI / INR (n - 1)))))).
Proof.
  intros e n O N. unfold ellipse2_discretization. destruct (angles_of e O) as [[C E]|[C E]]; rewrite E; cbn [bind fst snd]; eexists; (split; [reflexivity|]); (split; [rewrite map_length; unfold linspace_n; rewrite map_length; apply seq_length|]);
  intros i I; erewrite map_nth_error by (apply linspace_nth; assumption); f_equal; rewrite C, <- point_l2g.
  - f_equal. unfold TWO_PI. lra.
  - assert (P : 0 < INR (n - 1)) by (apply lt_0_INR; lia). set (s := INR i * (2 * PI / INR (n - 1))). 
    assert (A : TWO_PI + INR i * ((0 - TWO_PI) / INR (n - 1)) = -1 * s + 2 * PI) by (unfold s, TWO_PI; field; lra). rewrite A.
    unfold ellipse2_point. rewrite cos_plus, sin_plus, cos_2PI, sin_2PI. repeat f_equal; ring.
Qed.
Lemma ends_ok : forall e n, ellipse_ok e -> (2 <= n)%nat -> exists pts, ellipse2_discretization e n = Ok pts /\
  nth_error pts 0 = Some (add2 (ecenter e) (mul2 (major_dir e) (emaj e))) /\ nth_error pts (n - 1) = nth_error pts 0 /\ forall p, In p pts -> on_ellipse2 e p.
Proof.
  intros e n O N. destruct (discretization_ok e n O N) as (pts & E & L & H). exists pts. split; [exact E|].
  assert (P0 : forall k, cos k = 1 -> sin k = 0 -> ellipse2_point e k = add2 (ecenter e) (mul2 (major_dir e) (emaj e))).
  { intros k A B. unfold ellipse2_point. rewrite A, B. unfold add2, mul2. cbn [x2 y2]. f_equal; ring. }
  split; [|split].
  - rewrite H by lia. f_equal. apply P0; cbn [INR]; rewrite Rmult_0_l, Rmult_0_r; [apply cos_0|apply sin_0].
  - rewrite !H by lia. f_equal. assert (P : 0 < INR (n - 1)) by (apply lt_0_INR; lia).
    replace (INR (n - 1) * (2 * PI / INR (n - 1))) with (2 * PI) by (field; lra). rewrite (P0 (_ * (INR 0 * _))); [|cbn [INR]; rewrite Rmult_0_l, Rmult_0_r; apply cos_0|cbn [INR]; rewrite Rmult_0_l, Rmult_0_r; apply sin_0].
    destruct (angles_of e O) as [[C _]|[C _]]; rewrite C; apply P0; rewrite ?Rmult_1_l, ?cos_2PI, ?sin_2PI; try reflexivity; replace (-1 * (2 * PI)) with (- (2 * PI)) by ring; rewrite ?cos_neg, ?sin_neg, ?cos_2PI, ?sin_2PI; lra.
  - intros p I1. apply In_nth_error in I1 as (i & I1). rewrite H in I1 by (rewrite <- L; apply nth_error_Some; congruence). apply some_inj2 in I1. eexists. symmetry. exact I1.
Qed.
(** reversing does not change the list of points *)
Lemma reverse_ok : forall e, ellipse_ok e -> ellipse_ok (ellipse2_reverse e) /\ forall p, on_ellipse2 (ellipse2_reverse e) p <-> on_ellipse2 e p.
Proof.
  intros e [(U & V & UV) B]. split.
  - split; [|exact B]. unfold ellipse2_reverse, orthonormal2, major_dir, minor_dir. cbn [ef fb2 u2 v2]. unfold dot2, neg2 in *. cbn [x2 y2] in *. repeat split; lra.
  - assert (P : forall t, ellipse2_point (ellipse2_reverse e) t = ellipse2_point e (- t)).
    { intros t. unfold ellipse2_point, ellipse2_reverse, major_dir, minor_dir, ecenter. cbn [ef fb2 u2 v2 org2 emaj emin]. rewrite cos_neg, sin_neg. unfold add2, mul2, neg2. cbn [x2 y2]. f_equal; ring. }
    intros p. split; intros [t ->]; [rewrite P; eexists; reflexivity|]. exists (- t). rewrite P, Ropp_involutive. reflexivity.
Qed.
Lemma reverse_same : forall e n, ellipse_ok e -> (2 <= n)%nat -> ellipse2_discretization (ellipse2_reverse e) n = ellipse2_discretization e n.
Proof.
  intros e n O N. destruct (reverse_ok e O) as [O' _]. destruct (discretization_ok e n O N) as (pts & -> & L & H). destruct (discretization_ok _ n O' N) as (pts' & -> & L' & H'). f_equal.
  apply nth_error_ext2. intros i. destruct (Nat.lt_ge_cases i n) as [I1|I1].
  - rewrite H, H' by exact I1. f_equal. unfold ellipse2_point, ellipse2_reverse, major_dir, minor_dir, ecenter. cbn [ef fb2 u2 v2 org2 emaj emin]. set (s := INR i * _). clearbody s.
    assert (Cn : cross2 (u2 (fb2 (ef e))) (neg2 (v2 (fb2 (ef e)))) = - cross2 (u2 (fb2 (ef e))) (v2 (fb2 (ef e)))) by (unfold cross2, neg2; cbn [x2 y2]; ring). rewrite Cn.
    replace (- cross2 (u2 (fb2 (ef e))) (v2 (fb2 (ef e))) * s) with (- (cross2 (u2 (fb2 (ef e))) (v2 (fb2 (ef e))) * s)) by ring. rewrite cos_neg, sin_neg. unfold add2, mul2, neg2. cbn [x2 y2]. f_equal; ring.
  - rewrite (proj2 (nth_error_None pts' i)), (proj2 (nth_error_None pts i)) by lia. reflexivity.
Qed.
