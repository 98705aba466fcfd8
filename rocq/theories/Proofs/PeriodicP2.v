From Coq Require Import List Bool Arith ZArith Reals Lra Lia Psatz.
From Verif.Model Require Import RBase Vec Geometry Periodic.
From Verif.Spec Require Import PeriodicSpec.
From Verif.Proofs Require Import VecP GeometryP PeriodicP.
Import ListNotations.
Open Scope R_scope.

Lemma Rabs_le_inv x a : Rabs x <= a -> - a <= x <= a.
Proof. intros H. unfold Rabs in H. destruct (Rcase_abs x); lra. Qed.
Lemma inv10_3 : / 10 ^ 3 = / 1000. Proof. f_equal. ring. Qed.
Lemma isclose_small a b t : Rabs a <= 4 -> Rabs b <= 4 -> / 10 ^ 6 <= t -> isclose a b t = true <-> Rabs (a - b) <= t.
Proof.
  intros A B T. unfold isclose. rewrite Rleb_spec. rewrite Rmax_right; [tauto|]. eapply Rle_trans; [|exact T].
  assert (M : Rmax (Rabs a) (Rabs b) <= 4) by (apply Rmax_lub; assumption).
  apply Rle_trans with (/ 10 ^ 9 * 4); [apply Rmult_le_compat_l; [apply Rlt_le, Rinv_0_lt_compat, pow_lt; lra|exact M]|]. 
  replace (/ 10 ^ 9 * 4) with (4 / 1000 * / 10 ^ 6) by (field). assert (0 < / 10 ^ 6) by (apply Rinv_0_lt_compat, pow_lt; lra). lra.
Qed.
Lemma abs_principal a : principal a -> Rabs a <= 4.
Proof. intros [H1 H2]. pose proof PI_4. unfold Rabs. destruct (Rcase_abs a); lra. Qed.
Lemma inv_6_3 : / 10 ^ 6 <= / 10 ^ 3. Proof. apply Rinv_le_contravar; simpl; lra. Qed.
(** what the repair does, for any reference *)
Lemma repair_cases a r : principal a -> 
  (repair_start_end_angle_periodicity a r = - PI /\ Rabs (a - PI) <= / 10 ^ 3 /\ r < 0) \/
  (repair_start_end_angle_periodicity a r = PI /\ Rabs (a + PI) <= / 10 ^ 3 /\ 0 < r) \/
  (repair_start_end_angle_periodicity a r = - (PI / 2) /\ Rabs (a - PI / 2) <= / 10 ^ 3 /\ r < 0) \/
  (repair_start_end_angle_periodicity a r = PI / 2 /\ Rabs (a + PI / 2) <= / 10 ^ 3 /\ 0 < r) \/
  (repair_start_end_angle_periodicity a r = a /\ (Rabs (a - PI) <= / 10 ^ 3 -> 0 <= r) /\ (Rabs (a + PI) <= / 10 ^ 3 -> r <= 0)).
Proof.
  intros P. pose proof PI_4 as P4. pose proof PI2_3_2 as P3. pose proof (abs_principal a P) as A. pose proof inv_6_3 as V.
  assert (C : forall b, Rabs b <= 4 -> isclose a b (/ 10 ^ 3) = true <-> Rabs (a - b) <= / 10 ^ 3) by (intros; apply isclose_small; assumption).
  assert (B1 : Rabs PI <= 4) by (rewrite Rabs_right; lra). assert (B2 : Rabs (- PI) <= 4) by (rewrite Rabs_left; lra).
  assert (B3 : Rabs (1 / 2 * PI) <= 4) by (rewrite Rabs_right; lra). assert (B4 : Rabs (- (1 / 2) * PI) <= 4) by (rewrite Rabs_left; lra).
  pose proof (C _ B1) as C1. pose proof (C _ B2) as C2. pose proof (C _ B3) as C3. pose proof (C _ B4) as C4.
  replace (a - - PI) with (a + PI) in C2 by ring. replace (a - 1 / 2 * PI) with (a - PI / 2) in C3 by field. replace (a - - (1 / 2) * PI) with (a + PI / 2) in C4 by field.
  unfold repair_start_end_angle_periodicity.
  destruct (isclose a PI _) eqn:E1.
  { assert (H1 := proj1 C1 eq_refl). destruct (Rltb r 0) eqn:R1; rb; cbn [andb]; [left; split; [reflexivity|split; assumption]|].
    assert (F2 : isclose a (- PI) (/ 10 ^ 3) = false). { destruct (isclose a (- PI) _); [|reflexivity]. assert (H2 := proj1 C2 eq_refl). rewrite inv10_3 in *. apply Rabs_le_inv in H1, H2. lra. }
    assert (F3 : isclose a (1 / 2 * PI) (/ 10 ^ 3) = false). { destruct (isclose a (1 / 2 * PI) _); [|reflexivity]. assert (H2 := proj1 C3 eq_refl). rewrite inv10_3 in *. apply Rabs_le_inv in H1, H2. lra. }
    assert (F4 : isclose a (- (1 / 2) * PI) (/ 10 ^ 3) = false). { destruct (isclose a (- (1 / 2) * PI) _); [|reflexivity]. assert (H2 := proj1 C4 eq_refl). rewrite inv10_3 in *. apply Rabs_le_inv in H1, H2. lra. }
    rewrite F2, F3, F4. cbn [andb]. right. right. right. right. split; [reflexivity|]. split; [intros; assumption|]. intros H2. rewrite inv10_3 in *. apply Rabs_le_inv in H1, H2. lra. }
  cbn [andb]. destruct (isclose a (- PI) _) eqn:E2.
  { assert (H1 := proj1 C2 eq_refl). destruct (Rltb 0 r) eqn:R1; rb; cbn [andb]; [right; left; split; [reflexivity|split; assumption]|].
    assert (F3 : isclose a (1 / 2 * PI) (/ 10 ^ 3) = false). { destruct (isclose a (1 / 2 * PI) _); [|reflexivity]. assert (H2 := proj1 C3 eq_refl). rewrite inv10_3 in *. apply Rabs_le_inv in H1, H2. lra. }
    assert (F4 : isclose a (- (1 / 2) * PI) (/ 10 ^ 3) = false). { destruct (isclose a (- (1 / 2) * PI) _); [|reflexivity]. assert (H2 := proj1 C4 eq_refl). rewrite inv10_3 in *. apply Rabs_le_inv in H1, H2. lra. }
    rewrite F3, F4. cbn [andb]. right. right. right. right. split; [reflexivity|]. split; [|intros; assumption]. intros H2. rewrite inv10_3 in *. apply Rabs_le_inv in H1, H2. lra. }
  assert (N1 : Rabs (a - PI) <= / 10 ^ 3 -> False) by (intros H; apply C1 in H; congruence). assert (N2 : Rabs (a + PI) <= / 10 ^ 3 -> False) by (intros H; apply C2 in H; congruence).
  cbn [andb]. destruct (isclose a (1 / 2 * PI) _) eqn:E3; cbn [andb].
  { assert (H1 := proj1 C3 eq_refl). destruct (Rltb r 0) eqn:R1; rb; [right; right; left; split; [field|split; assumption]|].
    assert (F4 : isclose a (- (1 / 2) * PI) (/ 10 ^ 3) = false). { destruct (isclose a (- (1 / 2) * PI) _); [|reflexivity]. assert (H2 := proj1 C4 eq_refl). rewrite inv10_3 in *. apply Rabs_le_inv in H1, H2. lra. }
    rewrite F4. cbn [andb]. right. right. right. right. split; [reflexivity|]. split; intros H; exfalso; tauto. }
  destruct (isclose a (- (1 / 2) * PI) _) eqn:E4; cbn [andb].
  { assert (H1 := proj1 C4 eq_refl). destruct (Rltb 0 r) eqn:R1; rb; [right; right; right; left; split; [field|split; assumption]|].
    right. right. right. right. split; [reflexivity|]. split; intros H; exfalso; tauto. }
  right. right. right. right. split; [reflexivity|]. split; intros H; exfalso; tauto.
Qed.
(** with a reference less than a quarter of a turn away on the circle: the angle is kept on the circle and brought on the side of the reference *)
Lemma repair_ok a r : principal a -> principal r -> close_angle (PI / 2 - / 10 ^ 2) r a ->
  let b := repair_start_end_angle_periodicity a r in
  principal b /\ close_angle (/ 10 ^ 3) b a /\ (PI - / 10 ^ 3 <= Rabs a -> Rabs (b - r) < PI / 2).
Proof.
  intros PA PR (k & K). cbv zeta. pose proof PI_4 as P4. pose proof PI2_3_2 as P3. pose proof PI_RGT_0 as P0. destruct PA as [A1 A2]. destruct PR as [R1 R2].
  assert (T2 : / 10 ^ 2 = / 100) by (f_equal; ring). rewrite T2 in K. rewrite inv10_3. apply Rabs_le_inv in K as [K1 K2].
  assert (KB : (k <= -1 \/ k = 0 \/ 1 <= k)%Z) by lia.
  assert (KR : (k = 0%Z) \/ (k = 1%Z) \/ (k = (-1)%Z)).
  { destruct (Z_lt_le_dec k (-1)) as [H|H]; [exfalso; assert (IZR k <= -2) by (apply IZR_le; lia); nra|].
    destruct (Z_lt_le_dec 1 k) as [H2|H2]; [exfalso; assert (2 <= IZR k) by (apply IZR_le; lia); nra|]. lia. }
  destruct (repair_cases a r (conj A1 A2)) as [(EQ & H & RS)|[(EQ & H & RS)|[(EQ & H & RS)|[(EQ & H & RS)|(EQ & N1 & N2)]]]]; rewrite EQ; clear EQ; try rewrite inv10_3 in *.
  - apply Rabs_le_inv in H as [H1 H2]. destruct KR as [-> | [-> | ->]]; cbn in K1, K2; [exfalso; lra|exfalso; lra|]. split; [unfold principal; lra|]. split.
    + exists (-1)%Z. cbn. unfold Rabs. destruct (Rcase_abs _); lra.
    + intros _. unfold Rabs. destruct (Rcase_abs _); lra.
  - apply Rabs_le_inv in H as [H1 H2]. destruct KR as [-> | [-> | ->]]; cbn in K1, K2; [exfalso; lra| |exfalso; lra]. split; [unfold principal; lra|]. split.
    + exists 1%Z. cbn. unfold Rabs. destruct (Rcase_abs _); lra.
    + intros _. unfold Rabs. destruct (Rcase_abs _); lra.
  - exfalso. apply Rabs_le_inv in H as [H1 H2]. destruct KR as [-> | [-> | ->]]; cbn in K1, K2; lra.
  - exfalso. apply Rabs_le_inv in H as [H1 H2]. destruct KR as [-> | [-> | ->]]; cbn in K1, K2; lra.
  - split; [unfold principal; lra|]. split; [exists 0%Z; cbn; rewrite Rabs_right; lra|]. intros HA.
    assert (C : PI - / 1000 <= a \/ a <= - (PI - / 1000)). { unfold Rabs in HA. destruct (Rcase_abs a); [right|left]; lra. }
    destruct C as [C|C].
    + assert (0 <= r) by (apply N1; apply Rabs_le; lra). destruct KR as [-> | [-> | ->]]; cbn in K1, K2; unfold Rabs; destruct (Rcase_abs _); lra.
    + assert (r <= 0) by (apply N2; apply Rabs_le; lra). destruct KR as [-> | [-> | ->]]; cbn in K1, K2; unfold Rabs; destruct (Rcase_abs _); lra.
Qed.
(** with a reference further away the angle may be changed to another point of the circle *)
Lemma repair_far : repair_start_end_angle_periodicity (PI / 2) (-1) = - (PI / 2).
Proof.
  pose proof PI_4 as P4. pose proof PI2_3_2 as P3. pose proof PI_RGT_0 as P0. 
  destruct (repair_cases (PI / 2) (-1) ltac:(unfold principal; lra)) as [(_ & H & _)|[(_ & H & _)|[(E & _)|[(_ & H & _)|(E & _)]]]]; try rewrite inv10_3 in H.
  - apply Rabs_le_inv in H. lra.
  - apply Rabs_le_inv in H. lra.
  - exact E.
  - apply Rabs_le_inv in H. lra.
  - exfalso. revert E. unfold repair_start_end_angle_periodicity. pose proof inv_6_3 as V.
    assert (S1 : forall b, Rabs b <= 4 -> isclose (PI / 2) b (/ 10 ^ 3) = true <-> Rabs (PI / 2 - b) <= / 10 ^ 3) by (intros; apply isclose_small; [rewrite Rabs_right; lra|assumption..]).
    assert (F1 : isclose (PI / 2) PI (/ 10 ^ 3) = false). { destruct (isclose (PI / 2) PI _) eqn:E; [|reflexivity]. apply S1 in E; [|rewrite Rabs_right; lra]. rewrite inv10_3 in E. apply Rabs_le_inv in E. lra. }
    assert (F2 : isclose (PI / 2) (- PI) (/ 10 ^ 3) = false). { destruct (isclose (PI / 2) (- PI) _) eqn:E; [|reflexivity]. apply S1 in E; [|rewrite Rabs_left; lra]. rewrite inv10_3 in E. apply Rabs_le_inv in E. lra. }
    assert (F3 : isclose (PI / 2) (1 / 2 * PI) (/ 10 ^ 3) = true). { apply isclose_true. replace (PI / 2 - 1 / 2 * PI) with 0 by field. rewrite Rabs_R0, inv10_3. lra. }
    rewrite F1, F2, F3. assert (Rltb (-1) 0 = true) as -> by (apply Rltb_spec; lra). cbn [andb]. lra.
Qed.
(** the complement of an arc *)
Lemma continuity_ok a b p : let '(a', b') := repair_arc3d_angle_continuity a b p in
  a' = a /\ (b' = b - p \/ b' = b + p) /\ (0 < p -> Rabs (b - a) < p -> a <> b -> Rabs (b' - a) = p - Rabs (b - a) /\ (b' - a) * (b - a) < 0).
Proof.
  unfold repair_arc3d_angle_continuity. destruct (Rltb a b) eqn:E; rb; (split; [reflexivity|]); (split; [auto|]); intros P L N.
  - rewrite (Rabs_right (b - a)) in * by lra. rewrite Rabs_left by lra. split; [ring|nra].
  - rewrite (Rabs_left1 (b - a)) in * by lra. rewrite Rabs_right by lra. split; [ring|nra].
Qed.
(** arcs of cylinders *)
Lemma arc_cylinder_ok start end_ us ue t3 t4 d : principal (x2 start) -> principal (x2 end_) -> principal t3 -> principal t4 ->
  close_angle (PI / 2 - / 10 ^ 2) t3 (x2 start) -> close_angle (PI / 2 - / 10 ^ 2) t4 (x2 end_) ->
  let '(s, e) := arc3d_to_cylindrical_coordinates_verification start end_ us ue t3 t4 d in
  y2 s = y2 start /\ y2 e = y2 end_ /\ close_angle (/ 10 ^ 3) (x2 s) (x2 start) /\ close_angle (/ 10 ^ 3) (x2 e) (x2 end_) /\ principal (x2 s).
Proof.
  intros PS PE P3 P4 C3 C4. unfold arc3d_to_cylindrical_coordinates_verification.
  assert (Z : forall a, close_angle (/ 10 ^ 3) a a). { intros a. exists 0%Z. rewrite inv10_3. replace (a - a - 0 * (2 * PI)) with 0 by ring. rewrite Rabs_R0. lra. }
  set (theta1 := if us || _ then _ else _). set (theta2 := if ue || _ then _ else _).
  assert (T1 : principal theta1 /\ close_angle (/ 10 ^ 3) theta1 (x2 start)). { unfold theta1. destruct (us || _); [destruct (repair_ok _ _ PS P3 C3) as (A & B & _); auto|auto]. }
  assert (T2 : principal theta2 /\ close_angle (/ 10 ^ 3) theta2 (x2 end_)). { unfold theta2. destruct (ue || _); [destruct (repair_ok _ _ PE P4 C4) as (A & B & _); auto|auto]. }
  destruct T1 as [T1 T1']. destruct T2 as [T2 T2']. destruct d.
  - unfold repair_arc3d_angle_continuity, TWO_PI. cbn [x2 y2]. split; [reflexivity|]. split; [reflexivity|]. split; [exact T1'|]. split; [|exact T1].
    destruct T2' as (k & K). destruct (Rltb theta1 theta2); [exists (k - 1)%Z; rewrite minus_IZR|exists (k + 1)%Z; rewrite plus_IZR].
    + replace (theta2 - 2 * PI - x2 end_ - (IZR k - 1) * (2 * PI)) with (theta2 - x2 end_ - IZR k * (2 * PI)) by ring. exact K.
    + replace (theta2 + 2 * PI - x2 end_ - (IZR k + 1) * (2 * PI)) with (theta2 - x2 end_ - IZR k * (2 * PI)) by ring. exact K.
  - cbn [x2 y2]. auto.
Qed.
(** circles of cylinders: both ends are the same point *)
Lemma fullarc_ok start end_ n : principal (x2 start) -> x2 end_ = x2 start -> n <> 0 ->
  let '(s, e) := fullarc_to_cylindrical_coordinates_verification start end_ n in
  y2 s = y2 start /\ y2 e = y2 end_ /\ close_angle (/ 10 ^ 6) (x2 s) (x2 start) /\ close_angle (/ 10 ^ 6) (x2 e) (x2 end_) /\
  Rabs (x2 e - x2 s - (if Rltb 0 n then 2 * PI else - (2 * PI))) <= / 10 ^ 6.
Proof.
  intros P E N. assert (T0 : 0 < / 10 ^ 6) by (apply Rinv_0_lt_compat, pow_lt; lra). pose proof PI_4 as P4. pose proof PI_RGT_0 as P0.
  assert (Z : forall a k, close_angle (/ 10 ^ 6) (a + IZR k * (2 * PI)) a). { intros a k. exists k. replace (a + IZR k * (2 * PI) - a - IZR k * (2 * PI)) with 0 by ring. rewrite Rabs_R0. lra. }
  assert (Z0 : forall a, close_angle (/ 10 ^ 6) a a) by (intros a; replace a with (a + IZR 0 * (2 * PI)) at 1 by (cbn; ring); apply Z).
  unfold fullarc_to_cylindrical_coordinates_verification, TWO_PI. destruct (Rltb 0 n) eqn:E1; rb.
  - cbn [x2 y2]. repeat (split; [first [reflexivity|apply Z0]|]). split; [rewrite E; apply (Z _ 1%Z) || (replace (2 * PI) with (IZR 1 * (2 * PI)) at 1 by (cbn; ring); apply Z)|].
    replace (x2 start + 2 * PI - x2 start - 2 * PI) with 0 by ring. rewrite Rabs_R0. lra.
  - assert (Rltb n 0 = true) as -> by (apply Rltb_spec; lra). cbn [andb]. destruct (isclose (x2 start) (- PI) (/ 10 ^ 6)) eqn:E2.
    + apply isclose_small in E2; [|apply abs_principal, P|rewrite Rabs_left; lra|lra]. cbn [x2 y2]. apply Rabs_le_inv in E2 as [E3 E4]. split; [reflexivity|]. split; [reflexivity|]. split.
      * exists 1%Z. cbn. apply Rabs_le. lra.
      * split; [apply Z0|]. rewrite E. apply Rabs_le. lra.
    + cbn [x2 y2]. split; [reflexivity|]. split; [reflexivity|]. split; [apply Z0|]. split; [rewrite E; replace (x2 start - 2 * PI) with (x2 start + IZR (-1) * (2 * PI)) by (cbn; ring); apply Z|].
      replace (x2 start - 2 * PI - x2 start - - (2 * PI)) with 0 by ring. rewrite Rabs_R0. lra.
Qed.
