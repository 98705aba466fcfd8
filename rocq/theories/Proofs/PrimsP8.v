From Coq Require Import Reals Lra Lia List Bool ZArith Psatz.
From Verif.Model Require Import Base Mesh RBase Vec Frame BBox Geometry Prims.
From Verif.Spec Require Import VecSpec FrameSpec BBoxSpec PrimsSpec.
From Verif.Proofs Require Import VecP LineP PrimsP2 PrimsP6 PrimsP7.
Import ListNotations.
Open Scope R_scope.

Lemma floor_nat_spec x : 0 <= x -> INR (floor_nat x) <= x < INR (floor_nat x) + 1.
Proof.
  intros H. unfold floor_nat. pose proof (base_Int_part x) as (A & B). assert (Z0 : (0 <= Int_part x)%Z).
  { apply Z.lt_succ_r. apply lt_IZR. unfold Z.succ. rewrite plus_IZR. lra. }
  rewrite INR_IZR_INZ, Z2Nat.id by auto. lra.
Qed.
Lemma floor_nat_mono x y : 0 <= x <= y -> (floor_nat x <= floor_nat y)%nat.
Proof.
  intros (A & B). pose proof (floor_nat_spec x A) as (C & D). pose proof (floor_nat_spec y ltac:(lra)) as (E & F).
  apply Nat.lt_succ_r. apply INR_lt. rewrite S_INR. lra.
Qed.
Definition tiny := / 10 ^ 6.
Lemma tiny_pos : 0 < tiny. Proof. apply pow10_inv_pos. Qed.
Lemma near_pole a : 0 <= a <= PI -> isclose a 0 tiny || isclose a PI tiny = true -> 0 <= sin a <= tiny.
Proof.
  intros H E. split; [apply sin_ge_0; lra|]. pose proof tiny_pos. apply orb_true_iff in E as [E|E].
  - apply isclose_0 in E; [|lra]. pose proof (sin_le_abs a). pose proof (Rle_abs (sin a)). lra.
  - unfold isclose in E. apply Rleb_spec in E. assert (PB : PI <= 4) by apply PI_4.
    assert (M : Rmax (/ 10 ^ 9 * Rmax (Rabs a) (Rabs PI)) tiny = tiny).
    { apply Rmax_right. rewrite (Rabs_right a), (Rabs_right PI) by lra. rewrite (Rmax_right a PI) by lra. unfold tiny.
      replace (/ 10 ^ 6) with (/ 10 ^ 9 * 1000). 2:{ field. }
      apply Rmult_le_compat_l; [apply Rlt_le, pow10_inv_pos|lra]. }
    rewrite M in E. replace (sin a) with (sin (PI - a)) by (rewrite sin_PI_x; reflexivity).
    pose proof (sin_le_abs (PI - a)). rewrite (Rabs_minus_sym a PI) in E. pose proof (Rle_abs (sin (PI - a))). lra.
Qed.
Lemma along_2 c r a s t : 0 <= r -> 0 <= sin a -> point_distance3 (sp c r a s) (sp c r a t) <= 2 * (r * sin a).
Proof.
  intros H A. assert (P : 0 <= r * sin a) by (apply Rmult_le_pos; auto). apply dist_sq; [lra|]. unfold sp. cbn [x3 y3 z3].
  replace ((x3 c + r * cos a - (x3 c + r * cos a)) ^ 2 + (y3 c + r * sin a * sin s - (y3 c + r * sin a * sin t)) ^ 2 + (z3 c - r * sin a * cos s - (z3 c - r * sin a * cos t)) ^ 2)
    with ((r * sin a) ^ 2 * ((sin s - sin t) ^ 2 + (cos s - cos t) ^ 2)) by ring.
  rewrite half_angle. replace ((2 * (r * sin a)) ^ 2) with ((r * sin a) ^ 2 * 4) by ring. apply Rmult_le_compat_l; [apply pow2_ge_0|].
  pose proof (SIN_bound ((s - t) / 2)). nra.
Qed.
Lemma pop_seq n : pop (map (fun k => k) (seq 0 (S n))) = seq 0 n.
Proof. unfold pop. rewrite map_id, seq_length. replace (S n - 1)%nat with n by lia. rewrite seq_S. rewrite firstn_app, firstn_all2 by (rewrite seq_length; lia). rewrite seq_length, Nat.sub_diag, app_nil_r. reflexivity. Qed.
Lemma pop_map {A} (f : nat -> A) n : pop (map f (seq 0 (S n))) = map f (seq 0 n).
Proof. unfold pop. rewrite map_length, seq_length. replace (S n - 1)%nat with n by lia. rewrite firstn_map. f_equal. rewrite seq_S. rewrite firstn_app, firstn_all2 by (rewrite seq_length; lia). rewrite seq_length, Nat.sub_diag, app_nil_r. reflexivity. Qed.
Lemma sp_2pi c r a : sp c r a (2 * PI) = sp c r a 0.
Proof. unfold sp. rewrite sin_2PI, cos_2PI, sin_0, cos_0. reflexivity. Qed.
(** one floor *)
Lemma floor_ok c r a res : 0 < r -> 0 < res -> 0 <= a <= PI -> exists l, skin_floor c (sp c r a 0) a res = Ok l /\ (forall p, In p l -> exists t, p = sp c r a t) /\
  (isclose a 0 tiny || isclose a PI tiny = true \/ res < r * sin a * (20 * PI) -> forall s, 0 <= s <= 2 * PI -> exists p, In p l /\ point_distance3 p (sp c r a s) <= res + 2 * r * tiny) /\
  (isclose a 0 tiny || isclose a PI tiny = true -> l = [sp c r a 0]).
Proof.
  intros P Q A. pose proof tiny_pos as TP. unfold skin_floor. fold tiny. destruct (isclose a 0 tiny || isclose a PI tiny) eqn:E.
  - exists [sp c r a 0]. split; [reflexivity|]. destruct (near_pole a A E) as (S0 & S1). split; [intros p [<-|[]]; eauto|]. split; [|auto]. intros _ s _. exists (sp c r a 0). split; [now left|].
    apply Rle_trans with (2 * (r * sin a)); [apply along_2; lra|]. assert (r * sin a <= r * tiny) by (apply Rmult_le_compat_l; lra). lra.
  - assert (S0 : 0 <= sin a) by (apply sin_ge_0; lra).
    assert (NZ : a <> 0 /\ a <> PI).
    { split; intros Z; subst a; apply orb_false_iff in E as (E1 & E2).
      - apply isclose_0_false in E1; [|lra]. rewrite Rabs_R0 in E1. lra.
      - unfold isclose in E2. apply Rleb_false in E2. replace (PI - PI) with 0 in E2 by ring. rewrite Rabs_R0 in E2. pose proof (Rmax_r (/ 10 ^ 9 * Rmax (Rabs PI) (Rabs PI)) tiny). lra. }
    assert (SP : 0 < sin a) by (apply sin_gt_0; lra). assert (RP : 0 < r * sin a) by (apply Rmult_lt_0_compat; auto).
    rewrite floor_radius by lra. rewrite (proj2 (Reqb_false (r * sin a) 0)) by lra.
    set (tf := res / (r * sin a)). assert (TF : 0 < tf) by (apply Rdiv_lt_0_compat; auto).
    set (m := floor_nat (2 * PI / tf)). pose proof PI_RGT_0 as PP. assert (M0 : 0 <= 2 * PI / tf) by (apply Rmult_le_pos; [lra|apply Rlt_le, Rinv_0_lt_compat; auto]).
    destruct (floor_nat_spec _ M0) as (M1 & M2). fold m in M1, M2. replace (S m - 1)%nat with m by lia. rewrite pop_map.
    assert (EM : 2 * PI / tf * tf = 2 * PI) by (field; lra).
    set (angles := if Rleb ((2 * PI - INR m * tf) / tf) (1 / 10) then map (fun k => INR k * tf) (seq 0 m) else map (fun k => INR k * tf) (seq 0 (S m))).
    exists (map (sp c r a) angles). split; [|split; [|split; [|discriminate]]].
    + f_equal. apply map_ext. intros t. apply parallel.
    + intros p Hp. apply in_map_iff in Hp as (t & <- & _). eauto.
    + intros [C|C]; [discriminate|]. intros s (Sa & Sb).
      assert (T20 : tf < 20 * PI). { unfold tf. apply (Rmult_lt_reg_r (r * sin a)); [auto|]. unfold Rdiv. rewrite Rmult_assoc, Rinv_l by lra. lra. }
      assert (K0 : 0 <= s / tf) by (apply Rmult_le_pos; [lra|apply Rlt_le, Rinv_0_lt_compat; auto]). destruct (floor_nat_spec _ K0) as (K1 & K2).
      assert (KM : (floor_nat (s / tf) <= m)%nat). { apply floor_nat_mono. split; [auto|]. apply Rmult_le_compat_r; [apply Rlt_le, Rinv_0_lt_compat; auto|lra]. }
      set (k := floor_nat (s / tf)) in *. assert (ES : s / tf * tf = s) by (field; lra).
      assert (KA : 0 <= s - INR k * tf < tf) by (split; nra).
      assert (GOOD : In (INR k * tf) angles -> exists p, In p (map (sp c r a) angles) /\ point_distance3 p (sp c r a s) <= res + 2 * r * tiny).
      { intros Hk. exists (sp c r a (INR k * tf)). split; [apply in_map, Hk|]. apply Rle_trans with (r * sin a * Rabs (INR k * tf - s)); [apply along; lra|].
        rewrite Rabs_minus_sym, (Rabs_right (s - INR k * tf)) by lra. assert (r * sin a * (s - INR k * tf) <= r * sin a * tf) by (apply Rmult_le_compat_l; lra).
        replace (r * sin a * tf) with res in * by (unfold tf; field; lra). assert (0 <= r * tiny) by (apply Rmult_le_pos; lra). lra. }
      unfold angles in *. destruct (Rleb ((2 * PI - INR m * tf) / tf) (1 / 10)) eqn:EP.
      * apply Rleb_spec in EP. assert (ER : (2 * PI - INR m * tf) / tf * tf = 2 * PI - INR m * tf) by (field; lra). assert (RB : 2 * PI - INR m * tf <= tf / 10) by nra.
        assert (MP : (m <> 0)%nat). { intros Z. rewrite Z in RB. cbn [INR] in RB. lra. }
        destruct (Nat.eq_dec k m) as [EK|NK].
        -- exists (sp c r a 0). split; [apply in_map; apply in_map_iff; exists 0%nat; split; [cbn [INR]; ring|apply in_seq; lia]|].
           rewrite <- sp_2pi. apply Rle_trans with (r * sin a * Rabs (2 * PI - s)); [apply along; lra|]. rewrite Rabs_right by lra.
           rewrite EK in KA. assert (r * sin a * (2 * PI - s) <= r * sin a * tf) by (apply Rmult_le_compat_l; lra).
           replace (r * sin a * tf) with res in * by (unfold tf; field; lra). assert (0 <= r * tiny) by (apply Rmult_le_pos; lra). lra.
        -- apply GOOD, in_map_iff. exists k. split; [reflexivity|apply in_seq; lia].
      * apply GOOD, in_map_iff. exists k. split; [reflexivity|apply in_seq; lia].
Qed.
