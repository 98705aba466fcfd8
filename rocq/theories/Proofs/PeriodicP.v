From Coq Require Import List Bool Arith ZArith Reals Lra Lia Psatz.
From Verif.Model Require Import RBase Vec Geometry Periodic.
From Verif.Spec Require Import PeriodicSpec.
From Verif.Proofs Require Import VecP GeometryP.
Import ListNotations.
Open Scope R_scope.

Lemma sign_changes_in l : forall i p j, In j (sign_changes_from i p l) <-> (i <= j < i + length l)%nat /\ nth (j - i) l 0 * nth (j - i) (p :: l) 0 < 0.
Proof.
  induction l as [|a l IH]; intros i p j; [cbn; split; [tauto|intros [H _]; lia]|]. cbn [sign_changes_from]. rewrite in_app_iff, IH. cbn [length]. split.
  - intros [H|[H1 H2]].
    + destruct (Rltb (a * p) 0) eqn:E; [|destruct H]. destruct H as [<-|[]]. rewrite Nat.sub_diag. split; [lia|]. rb. exact E.
    + split; [lia|]. replace (j - i)%nat with (S (j - S i)) by lia. exact H2.
  - intros [H1 H2]. destruct (Nat.eq_dec i j) as [->|N].
    + left. rewrite Nat.sub_diag in H2. cbn in H2. assert (Rltb (a * p) 0 = true) as -> by (apply Rltb_spec; exact H2). left. reflexivity.
    + right. split; [lia|]. replace (j - i)%nat with (S (j - S i)) in H2 by lia. exact H2.
Qed.
Lemma sign_changes_ok l j : In j (find_sign_changes l) <-> (0 < j < length l)%nat /\ nth j l 0 * nth (j - 1) l 0 < 0.
Proof.
  unfold find_sign_changes. destruct l as [|a l]; [cbn; split; [tauto|lia]|]. rewrite sign_changes_in. cbn [length]. split; intros [H1 H2]; (split; [lia|]).
  - destruct j as [|j]; [lia|]. cbn [nth]. rewrite Nat.sub_succ, Nat.sub_0_r in *. exact H2.
  - destruct j as [|j]; [lia|]. cbn [nth] in H2. rewrite Nat.sub_succ, Nat.sub_0_r in *. exact H2.
Qed.
Lemma isclose_false_0 a t : 0 <= t -> t < Rabs a -> isclose a 0 t = false.
Proof. intros H K. apply isclose_0_false; assumption. Qed.
Lemma sign_pos a : 0 < a -> a / Rabs a = 1.
Proof. intros H. rewrite Rabs_right by lra. field. lra. Qed.
Lemma sign_neg a : a < 0 -> a / Rabs a = -1.
Proof. intros H. rewrite Rabs_left by lra. field. lra. Qed.
Lemma isclose_true a b t : Rabs (a - b) <= t -> isclose a b t = true.
Proof. intros H. unfold isclose. apply Rleb_spec. eapply Rle_trans; [exact H|apply Rmax_r]. Qed.
(** one step between two angles of opposite signs *)
Lemma step_wrap s p a : 21 / 10 * s <= PI -> / 10 ^ 4 <= s -> principal p -> principal a -> a * p < 0 ->
  (exists k, Rabs (a - p - IZR k * (2 * PI)) < s) -> is_discontinuity p a = true <-> s <= Rabs (a - p).
Proof.
  intros HS S0 P A N (k & K). unfold principal in P, A. pose proof PI_RGT_0 as PI0. pose proof PI_4 as PI4. pose proof PI2_3_2 as PI3.
  assert (T0 : 0 < / 10 ^ 4) by (apply Rinv_0_lt_compat, pow_lt; lra).
  assert (KZ : k = 0%Z \/ (k = 1%Z /\ p < 0) \/ (k = (-1)%Z /\ 0 < p)).
  { apply Rabs_def2 in K as [K1 K2]. destruct (Z_lt_le_dec k (-1)) as [H|H]; [exfalso; assert (IZR k <= -2) by (apply IZR_le; lia); nra|].
    destruct (Z_lt_le_dec 1 k) as [H2|H2]; [exfalso; assert (2 <= IZR k) by (apply IZR_le; lia); nra|].
    assert (C : (k = 0 \/ k = 1 \/ k = -1)%Z) by lia. destruct C as [C|[C|C]]; [left; exact C| |]; subst k; right.
    - left. split; [reflexivity|]. cbn in K1, K2. nra.
    - right. split; [reflexivity|]. cbn in K1, K2. nra. }
  assert (PN : (0 < p /\ a < 0) \/ (p < 0 /\ 0 < a)) by (destruct (Rtotal_order p 0) as [H|[->|H]]; [right|exfalso; lra|left]; split; nra).
  unfold is_discontinuity, TWO_PI. set (d := Rmax _ _). destruct KZ as [->|KZ].
  - (* no turn *) cbn in K. replace (a - p - 0 * (2 * PI)) with (a - p) in K by ring.
    assert (F : isclose (Rabs a) 0 (11 / 10 * d) = true).
    { apply isclose_0; [|rewrite Rabs_Rabsolu].
      - assert (/ 10 ^ 4 <= d) by apply Rmax_r. lra.
      - assert (D : Rabs (a + p / Rabs p * (2 * PI) - p) <= d) by apply Rmax_l.
        apply Rabs_def2 in K as [K1 K2]. destruct PN as [[P1 A1]|[P1 A1]].
        + rewrite (sign_pos p P1) in D. rewrite Rabs_right in D by lra. rewrite Rabs_left by lra. lra.
        + rewrite (sign_neg p P1) in D. rewrite Rabs_left in D by lra. rewrite Rabs_right by lra. lra. }
    rewrite F. rewrite andb_false_r. split; [discriminate|intros; lra].
  - assert (SG : exists x, a + p / Rabs p * (2 * PI) - p = x /\ Rabs x < s /\ ((0 < p /\ a < 0 /\ a = p + x - 2 * PI) \/ (p < 0 /\ 0 < a /\ a = p + x + 2 * PI))).
    { eexists. split; [reflexivity|]. destruct KZ as [[-> P1]|[-> P1]].
      - rewrite (sign_neg p P1). cbn in K. replace (a + -1 * (2 * PI) - p) with (a - p - 1 * (2 * PI)) by ring. split; [exact K|]. right. split; [exact P1|]. split; [destruct PN; lra|ring].
      - rewrite (sign_pos p P1). cbn in K. replace (a + 1 * (2 * PI) - p) with (a - p - -1 * (2 * PI)) by ring. split; [exact K|]. left. split; [exact P1|]. split; [destruct PN; lra|ring]. }
    destruct SG as (x & Ex & X & SG). assert (DS : d <= s) by (apply Rmax_lub; [rewrite Ex; lra|lra]). assert (XD : Rabs x <= d) by (rewrite <- Ex; apply Rmax_l). assert (D0 : 0 < d) by (assert (/ 10 ^ 4 <= d) by apply Rmax_r; lra).
    assert (G1 : isclose (Rabs a) PI (11 / 10 * d) = true).
    { apply isclose_true. pose proof (Rle_abs x). pose proof (Rle_abs (- x)) as Q. rewrite Rabs_Ropp in Q.
      destruct SG as [(P1 & A1 & E)|(P1 & A1 & E)]; [rewrite (Rabs_left a) by lra|rewrite (Rabs_right a) by lra]; rewrite Rabs_left1 by lra; lra. }
    assert (G2 : isclose (Rabs a) 0 (11 / 10 * d) = false).
    { apply isclose_false_0; [lra|]. rewrite Rabs_Rabsolu. pose proof (Rle_abs x). pose proof (Rle_abs (- x)) as Q. rewrite Rabs_Ropp in Q.
      destruct SG as [(P1 & A1 & E)|(P1 & A1 & E)]; [rewrite (Rabs_left a) by lra|rewrite (Rabs_right a) by lra]; lra. }
    rewrite G1, G2. cbn. split; [intros _|reflexivity]. pose proof (Rle_abs x). pose proof (Rle_abs (- x)) as Q. rewrite Rabs_Ropp in Q.
    destruct SG as [(P1 & A1 & E)|(P1 & A1 & E)]; [rewrite (Rabs_left (a - p)) by lra|rewrite (Rabs_right (a - p)) by lra]; lra.
Qed.
(** angle_discontinuity reports the steps over the cut and no others *)
Lemma discontinuity_ok s l : 21 / 10 * s <= PI -> / 10 ^ 4 <= s -> (forall a, In a l -> principal a) -> small_steps s l ->
  (forall i, In i (snd (angle_discontinuity l)) <-> crosses_the_cut s l i) /\ (fst (angle_discontinuity l) = true <-> exists i, crosses_the_cut s l i).
Proof.
  intros HS S0 P SM. pose proof PI_RGT_0 as PI0. 
  assert (M : forall i, In i (snd (angle_discontinuity l)) <-> crosses_the_cut s l i).
  { intros i. unfold angle_discontinuity. cbn [snd]. rewrite filter_In, sign_changes_ok. unfold crosses_the_cut. split.
    - intros [[H N] D]. split; [exact H|]. apply (step_wrap s) in D; [exact D|exact HS|exact S0|apply P, nth_In; lia|apply P, nth_In; lia|exact N|apply SM, H].
    - intros [H D]. assert (PA : principal (nth i l 0)) by (apply P, nth_In; lia). assert (PP : principal (nth (i - 1) l 0)) by (apply P, nth_In; lia).
      destruct (SM i H) as (k & K). assert (N : nth i l 0 * nth (i - 1) l 0 < 0).
      { set (a := nth i l 0) in *. set (p := nth (i - 1) l 0) in *. unfold principal in *. assert (C : (k <= -1 \/ k = 0 \/ 1 <= k)%Z) by lia. apply Rabs_def2 in K as [K1 K2]. destruct C as [C|[->|C]].
        - assert (IZR k <= -1) by (apply IZR_le; lia). assert (a - p <= - 2 * PI + s) by nra. assert (a < 0) by lra. assert (0 < p) by lra. nra.
        - exfalso. cbn in K1, K2. unfold Rabs in D. destruct (Rcase_abs _); lra.
        - assert (1 <= IZR k) by (apply IZR_le; lia). assert (2 * PI - s <= a - p) by nra. assert (0 < a) by lra. assert (p < 0) by lra. nra. }
      split; [split; [exact H|exact N]|]. apply (step_wrap s); try assumption. exists k. exact K. }
  split; [exact M|]. unfold angle_discontinuity in *. cbn [fst snd] in *. set (idx := filter _ _) in *. destruct idx as [|i idx].
  - split; [discriminate|]. intros (i & C). apply M in C. destruct C.
  - split; [intros _|reflexivity]. exists i. apply M. left. reflexivity.
Qed.
Lemma discontinuity_refuted : exists l, (forall a, In a l -> principal a) /\ small_steps (PI / 2 + / 4) l /\ crosses_the_cut PI l 1 /\ fst (angle_discontinuity l) = false.
Proof.
  pose proof PI_RGT_0 as PI0. pose proof PI_4 as PI4. pose proof PI2_3_2 as PI3. assert (T0 : / 10 ^ 4 <= 1). { rewrite <- Rinv_1. apply Rinv_le_contravar; simpl; lra. } 
  exists [PI - / 10; / 10 - PI / 2]. split; [|split; [|split]].
  - intros a [<-|[<-|[]]]; unfold principal; lra.
  - intros i H. cbn in H. assert (i = 1%nat) by lia. subst i. exists (-1)%Z. cbn. rewrite Rabs_right; lra.
  - split; [cbn; lia|]. cbn. rewrite Rabs_left by lra. lra.
  - unfold angle_discontinuity, find_sign_changes. cbn [sign_changes_from app]. destruct (Rltb _ _) eqn:E; [|reflexivity]. cbn [app filter nth Nat.sub].
    assert (D : is_discontinuity (PI - / 10) (/ 10 - PI / 2) = false); [|rewrite D; reflexivity].
    unfold is_discontinuity, TWO_PI. rewrite sign_pos by lra. replace (/ 10 - PI / 2 + 1 * (2 * PI) - (PI - / 10)) with (PI / 2 + / 5) by field.
    rewrite (Rabs_right (PI / 2 + / 5)) by lra. rewrite Rmax_left by lra. assert (F : isclose (Rabs (/ 10 - PI / 2)) 0 (11 / 10 * (PI / 2 + / 5)) = true); [|rewrite F; apply andb_false_r]. apply isclose_0; [lra|].
    rewrite Rabs_Rabsolu, Rabs_left by lra. lra.
Qed.
