From Coq Require Import Reals Lra List Lia.
From Verif.Model Require Import Base RBase Vec Frame Geometry Curves Edges Arcs Rounded.
From Verif.Spec Require Import VecSpec CurvesSpec RoundedSpec.
From Verif.Proofs Require Import VecP RoundedP RoundedP2 RoundedP3 RoundedP4 RoundedP5 RoundedP6 RoundedP7 RoundedP9 RoundedP10.
Import ListNotations.
Open Scope R_scope.

Lemma ray_foot p p1 d c p3 u k r : norm2 u = 1 -> 0 < k -> sub2 p1 p = mul2 u k -> on_ray p p1 d p3 -> dot2 (sub2 c p3) (sub2 p1 p) = 0 -> point_distance2 c p3 = r ->
  dot2 (sub2 c p) u = d /\ cross2 u (sub2 c p) * cross2 u (sub2 c p) = r * r /\ 0 < d.
Proof.
  intros U K E (m & M & E3 & D) O RR. assert (U2 : x2 u * x2 u + y2 u * y2 u = 1) by (apply norm2_1 in U; exact U). rewrite E in O, E3.
  assert (MK : sub2 p3 p = mul2 u (m * k)) by (rewrite E3; unfold mul2; apply vec2_ext; cbn [x2 y2]; ring).
  assert (DD : d = m * k). { rewrite <- D. unfold point_distance2. rewrite MK, norm2_scale, U, Rabs_right; [ring|]. apply Rle_ge, Rlt_le, Rmult_lt_0_compat; auto. }
  set (x := sub2 c p). assert (X : sub2 c p3 = sub2 x (mul2 u d)). { rewrite DD, <- MK. unfold x, sub2; apply vec2_ext; cbn [x2 y2]; ring. }
  assert (P : dot2 x u = d).
  { rewrite X in O. assert (Q : k * (dot2 x u - d) = 0). { rewrite <- O. transitivity (k * (dot2 x u - d * (x2 u * x2 u + y2 u * y2 u))); [rewrite U2; ring|unfold dot2, sub2, mul2; cbn [x2 y2]; ring]. } nra. }
  split; auto. split; [|rewrite DD; apply Rmult_lt_0_compat; auto].
  rewrite <- RR. unfold point_distance2. rewrite norm2_sq, X.
  transitivity ((x2 x * x2 x + y2 x * y2 x) * (x2 u * x2 u + y2 u * y2 u) - dot2 x u * dot2 x u); [unfold cross2, dot2; ring|]. rewrite U2.
  transitivity (x2 x * x2 x + y2 x * y2 x - 2 * d * dot2 x u + d * d * (x2 u * x2 u + y2 u * y2 u)); [rewrite U2, P; ring|]. unfold dot2, sub2, mul2; cbn [x2 y2]; ring.
Qed.
Lemma center_side p1 p p2 r d c p3 a p4 n1 n2 : rounds p1 p p2 r d c p3 a p4 -> 0 < r -> left_normal p1 p n1 -> left_normal p p2 n2 ->
  (0 < cross2 (sub2 p p1) (sub2 p2 p) -> dot2 (sub2 c p) n1 = r /\ dot2 (sub2 c p) n2 = r) /\ (cross2 (sub2 p p1) (sub2 p2 p) < 0 -> dot2 (sub2 c p) n1 = - r /\ dot2 (sub2 c p) n2 = - r).
Proof.
  intros (R1 & R2 & O1 & O2 & D1 & D2 & _ & _) RP L1 L2.
  assert (W : forall b, on_ray p b d p3 \/ on_ray p b d p4 -> sub2 b p <> V2 0 0).
  { intros b X Z. assert (Y : exists m p', 0 < m /\ sub2 p' p = mul2 (sub2 b p) m /\ point_distance2 p' p = d) by (destruct X as [(m & X)|(m & X)]; eauto). destruct Y as (m & p' & _ & E & D).
    destruct L1 as (_ & _ & L1). destruct L2 as (_ & _ & L2). rewrite Z in E.
    assert (d = 0) by (rewrite <- D; unfold point_distance2; rewrite E; apply norm2_zero; unfold mul2; apply vec2_ext; cbn; ring).
    assert (Q : sub2 p1 p = V2 0 0). { destruct R1 as (m1 & M1 & E1 & F1). rewrite H in F1. apply norm2_zero in F1. rewrite E1 in F1. pose proof (f_equal x2 F1) as QX. pose proof (f_equal y2 F1) as QY. unfold mul2 in QX, QY. cbn [x2 y2] in QX, QY. apply vec2_ext; cbn [x2 y2]; nra. }
    assert (0 < cross2 (neg2 (sub2 p1 p)) n1) by (replace (neg2 (sub2 p1 p)) with (sub2 p p1) by (unfold neg2, sub2; apply vec2_ext; cbn [x2 y2]; ring); auto). rewrite Q in H0. unfold cross2, neg2 in H0. cbn [x2 y2] in H0. lra. }
  assert (U : exists u, unit_vector2 (sub2 p1 p) = Ok u) by (eexists; apply unit2_ok; split; [apply W; auto|reflexivity]).
  assert (V : exists v, unit_vector2 (sub2 p2 p) = Ok v) by (eexists; apply unit2_ok; split; [apply W; auto|reflexivity]).
  destruct U as [u U]. destruct V as [v V]. rewrite (normal_of p1 p (neg2 u) n1); auto; [|apply unit_neg; auto]. rewrite (normal_of p p2 v n2); auto.
  apply unit2_spec in U as (U1 & U2 & U3). apply unit2_spec in V as (V1 & V2 & V3). set (k := norm2 (sub2 p1 p)) in *. set (m := norm2 (sub2 p2 p)) in *.
  destruct (ray_foot p p1 d c p3 u k r U1 U3 (eq_sym U2) R1 O1 D1) as (A1 & A2 & A3). destruct (ray_foot p p2 d c p4 v m r V1 V3 (eq_sym V2) R2 O2 D2) as (B1 & B2 & _).
  set (x := sub2 c p) in *. assert (Ud : x2 u * x2 u + y2 u * y2 u = 1) by (apply norm2_1 in U1; exact U1). assert (Vd : x2 v * x2 v + y2 v * y2 v = 1) by (apply norm2_1 in V1; exact V1).
  set (co := dot2 u v). set (si := cross2 u v). assert (SC : si * si + co * co = 1) by (transitivity ((x2 u * x2 u + y2 u * y2 u) * (x2 v * x2 v + y2 v * y2 v)); [unfold si, co, cross2, dot2; ring|rewrite Ud, Vd; ring]).
  assert (CR : cross2 (sub2 p p1) (sub2 p2 p) = k * m * - si).
  { rewrite <- V2. transitivity (cross2 (neg2 (sub2 p1 p)) (mul2 v m)); [unfold cross2, neg2, sub2; cbn [x2 y2]; ring|]. rewrite <- U2. unfold si, cross2, neg2, mul2; cbn [x2 y2]; ring. }
  assert (KM : 0 < k * m) by (apply Rmult_lt_0_compat; auto).
  assert (N1 : dot2 x (normal_vector2 (neg2 u)) = - cross2 u x) by (unfold dot2, normal_vector2, neg2, cross2; cbn [x2 y2]; ring).
  assert (N2 : dot2 x (normal_vector2 v) = cross2 v x) by (unfold dot2, normal_vector2, cross2; cbn [x2 y2]; ring).
  (* d v - d co u decomposes; si * cross u x = d - d co *)
  assert (Y1 : si * cross2 u x = d * (1 - co)).
  { transitivity ((x2 u * x2 u + y2 u * y2 u) * dot2 x v - co * dot2 x u); [unfold si, co, cross2, dot2; ring|rewrite Ud, A1, B1; ring]. }
  assert (Y2 : - si * cross2 v x = d * (1 - co)).
  { transitivity ((x2 v * x2 v + y2 v * y2 v) * dot2 x u - co * dot2 x v); [unfold si, co, cross2, dot2; ring|rewrite Vd, A1, B1; ring]. }
  assert (CO : si <> 0 -> co < 1) by (intros S0; assert (0 < si * si) by (pose proof (Rle_0_sqr si); unfold Rsqr in *; assert (si * si <> 0) by (apply Rmult_integral_contrapositive; auto); lra); nra).
  rewrite CR, N1, N2. split; intros S.
  - assert (SN : si < 0) by nra. assert (C1 : co < 1) by (apply CO; lra). assert (PD : 0 < d * (1 - co)) by (apply Rmult_lt_0_compat; lra).
    assert (cross2 u x < 0) by nra. assert (0 < cross2 v x) by nra. split; [assert (cross2 u x = - r) by nra; lra|nra].
  - assert (SN : 0 < si) by nra. assert (C1 : co < 1) by (apply CO; lra). assert (PD : 0 < d * (1 - co)) by (apply Rmult_lt_0_compat; lra).
    assert (0 < cross2 u x) by nra. assert (cross2 v x < 0) by nra. split; [assert (cross2 u x = r) by nra; lra|nra].
Qed.
(** the rounding of the offset corner has the center of the rounding of the corner *)
Lemma offset_concentric p1 p p2 q1 q q2 n1 n2 off r d c p3 a p4 r' d' c' p3' a' p4' :
  left_normal p1 p n1 -> left_normal p p2 n2 -> dot2 (sub2 q p) n1 = off -> dot2 (sub2 q p) n2 = off ->
  same_direction (sub2 p p1) (sub2 q q1) -> same_direction (sub2 p2 p) (sub2 q2 q) -> 0 < r -> 0 < r' ->
  rounds p1 p p2 r d c p3 a p4 -> rounds q1 q q2 r' d' c' p3' a' p4' ->
  (0 < cross2 (sub2 p p1) (sub2 p2 p) /\ r' = r - off) \/ (cross2 (sub2 p p1) (sub2 p2 p) < 0 /\ r' = r + off) -> c' = c.
Proof.
  intros L1 L2 O1 O2 (k1 & K1 & E1) (k2 & K2 & E2) RP RP' RO RO' T.
  assert (L1' : left_normal q1 q n1) by (unfold left_normal in *; rewrite E1; destruct L1 as (X & Y & Z); split; auto; split; [transitivity (k1 * dot2 n1 (sub2 p p1)); [unfold dot2, mul2; cbn [x2 y2]; ring|rewrite Y; ring]|
    replace (cross2 (mul2 (sub2 p p1) k1) n1) with (k1 * cross2 (sub2 p p1) n1) by (unfold cross2, mul2; cbn [x2 y2]; ring); apply Rmult_lt_0_compat; auto]).
  assert (L2' : left_normal q q2 n2) by (unfold left_normal in *; rewrite E2; destruct L2 as (X & Y & Z); split; auto; split; [transitivity (k2 * dot2 n2 (sub2 p2 p)); [unfold dot2, mul2; cbn [x2 y2]; ring|rewrite Y; ring]|
    replace (cross2 (mul2 (sub2 p2 p) k2) n2) with (k2 * cross2 (sub2 p2 p) n2) by (unfold cross2, mul2; cbn [x2 y2]; ring); apply Rmult_lt_0_compat; auto]).
  assert (CE : cross2 (sub2 q q1) (sub2 q2 q) = k1 * k2 * cross2 (sub2 p p1) (sub2 p2 p)) by (rewrite E1, E2; unfold cross2, mul2; cbn [x2 y2]; ring).
  assert (KK : 0 < k1 * k2) by (apply Rmult_lt_0_compat; auto).
  destruct (center_side _ _ _ _ _ _ _ _ _ _ _ RO RP L1 L2) as [C1 C2]. destruct (center_side _ _ _ _ _ _ _ _ _ _ _ RO' RP' L1' L2') as [C1' C2']. rewrite CE in C1', C2'.
  assert (EQ : dot2 (sub2 c' c) n1 = 0 /\ dot2 (sub2 c' c) n2 = 0).
  { assert (X : forall n, dot2 (sub2 c' c) n = dot2 (sub2 c' q) n + dot2 (sub2 q p) n - dot2 (sub2 c p) n) by (intros n; unfold dot2, sub2; cbn [x2 y2]; ring).
    rewrite !X, O1, O2. destruct T as [[T ->]|[T ->]].
    - destruct (C1 T) as [-> ->]. destruct C1' as [-> ->]; [nra|lra].
    - destruct (C2 T) as [-> ->]. destruct C2' as [-> ->]; [nra|lra]. }
  assert (IND : cross2 n1 n2 <> 0).
  { destruct L1 as (A1 & A2 & A3). destruct L2 as (B1 & B2 & B3). intros Z.
    apply norm2_1 in A1. apply norm2_1 in B1. unfold dot2, cross2 in *.
    assert (CR : (x2 (sub2 p p1) * y2 (sub2 p2 p) - y2 (sub2 p p1) * x2 (sub2 p2 p)) = 0).
    { set (a1 := x2 (sub2 p p1)) in *. set (a2 := y2 (sub2 p p1)) in *. set (b1 := x2 (sub2 p2 p)) in *. set (b2 := y2 (sub2 p2 p)) in *.
      assert (H1 : a1 = (a1 * y2 n1 - a2 * x2 n1) * y2 n1) by (transitivity (a1 * (x2 n1 * x2 n1 + y2 n1 * y2 n1) - x2 n1 * (x2 n1 * a1 + y2 n1 * a2)); [rewrite A1, A2; ring|ring]).
      assert (H2 : a2 = - (a1 * y2 n1 - a2 * x2 n1) * x2 n1) by (transitivity (a2 * (x2 n1 * x2 n1 + y2 n1 * y2 n1) - y2 n1 * (x2 n1 * a1 + y2 n1 * a2)); [rewrite A1, A2; ring|ring]).
      assert (G1 : b1 = (b1 * y2 n2 - b2 * x2 n2) * y2 n2) by (transitivity (b1 * (x2 n2 * x2 n2 + y2 n2 * y2 n2) - x2 n2 * (x2 n2 * b1 + y2 n2 * b2)); [rewrite B1, B2; ring|ring]).
      assert (G2 : b2 = - (b1 * y2 n2 - b2 * x2 n2) * x2 n2) by (transitivity (b2 * (x2 n2 * x2 n2 + y2 n2 * y2 n2) - y2 n2 * (x2 n2 * b1 + y2 n2 * b2)); [rewrite B1, B2; ring|ring]).
      set (ka := a1 * y2 n1 - a2 * x2 n1) in *. set (kb := b1 * y2 n2 - b2 * x2 n2) in *. rewrite H1, H2, G1, G2. transitivity (ka * kb * (x2 n1 * y2 n2 - y2 n1 * x2 n2)); [ring|rewrite Z; ring]. }
    lra. }
  destruct EQ as [Q1 Q2]. set (w := sub2 c' c) in *. assert (WX : cross2 n1 n2 * x2 w = 0) by (transitivity (y2 n2 * dot2 w n1 - y2 n1 * dot2 w n2); [unfold cross2, dot2; ring|rewrite Q1, Q2; ring]).
  assert (WY : cross2 n1 n2 * y2 w = 0) by (transitivity (x2 n1 * dot2 w n2 - x2 n2 * dot2 w n1); [unfold cross2, dot2; ring|rewrite Q1, Q2; ring]).
  apply Rmult_integral in WX as [WX|WX]; [contradiction|]. apply Rmult_integral in WY as [WY|WY]; [contradiction|]. unfold w, sub2 in WX, WY. cbn [x2 y2] in WX, WY. apply vec2_ext; lra.
Qed.
