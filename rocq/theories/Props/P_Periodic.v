(** C250-C254: angles of the parametric domain of periodic surfaces (statements only). *)
From Coq Require Import List Bool Arith ZArith Reals Lra Lia.
From Verif.Model Require Import RBase Vec Periodic.
From Verif.Spec Require Import PeriodicSpec.
From Verif.Proofs Require Import PeriodicP PeriodicP2 PeriodicP3.
Import ListNotations.
Open Scope R_scope.

(** ** C250: angle_discontinuity *)
Theorem C250_find_sign_changes l j : In j (find_sign_changes l) <-> (0 < j < length l)%nat /\ nth j l 0 * nth (j - 1) l 0 < 0.
Proof. exact (sign_changes_ok l j). Qed.
Print Assumptions C250_find_sign_changes.
Theorem C250_the_steps_over_the_cut_are_reported_and_no_others s l : 21 / 10 * s <= PI -> / 10 ^ 4 <= s -> (forall a, In a l -> principal a) -> small_steps s l ->
  (forall i, In i (snd (angle_discontinuity l)) <-> crosses_the_cut s l i) /\ (fst (angle_discontinuity l) = true <-> exists i, crosses_the_cut s l i).
Proof. exact (discontinuity_ok s l). Qed.
Print Assumptions C250_the_steps_over_the_cut_are_reported_and_no_others.
Example C250_nonvacuous : 21 / 10 * 1 <= PI /\ / 10 ^ 4 <= 1 /\ (forall a, In a [PI - 1 / 4; 1 / 4 - PI; 1 - PI] -> principal a) /\ small_steps 1 [PI - 1 / 4; 1 / 4 - PI; 1 - PI] /\ crosses_the_cut 1 [PI - 1 / 4; 1 / 4 - PI; 1 - PI] 1.
Proof.
  pose proof PI2_3_2 as P3. pose proof PI_4 as P4. assert (P : 3 < PI <= 4) by lra. split; [lra|]. split; [rewrite <- Rinv_1; apply Rinv_le_contravar; simpl; lra|].
  split; [intros a [<-|[<-|[<-|[]]]]; unfold principal; lra|]. split.
  - intros i H. cbn in H. assert (C : (i = 1 \/ i = 2)%nat) by lia. destruct C as [C|C]; subst i; [exists (-1)%Z|exists 0%Z]; cbn.
    + apply Rabs_def1; lra.
    + apply Rabs_def1; lra.
  - split; [cbn; lia|]. cbn. rewrite Rabs_left; lra.
Qed.

(** ** C251: longer steps *)
Theorem C251_steps_of_more_than_a_quarter_of_a_turn_refuted : exists l, (forall a, In a l -> principal a) /\ small_steps (PI / 2 + / 4) l /\ crosses_the_cut PI l 1 /\ fst (angle_discontinuity l) = false.
Proof. exact discontinuity_refuted. Qed.
Print Assumptions C251_steps_of_more_than_a_quarter_of_a_turn_refuted.

(** ** C252: the angles of the ends of an arc *)
Theorem C252_what_the_repair_does a r : principal a -> 
  (repair_start_end_angle_periodicity a r = - PI /\ Rabs (a - PI) <= / 10 ^ 3 /\ r < 0) \/
  (repair_start_end_angle_periodicity a r = PI /\ Rabs (a + PI) <= / 10 ^ 3 /\ 0 < r) \/
  (repair_start_end_angle_periodicity a r = - (PI / 2) /\ Rabs (a - PI / 2) <= / 10 ^ 3 /\ r < 0) \/
  (repair_start_end_angle_periodicity a r = PI / 2 /\ Rabs (a + PI / 2) <= / 10 ^ 3 /\ 0 < r) \/
  (repair_start_end_angle_periodicity a r = a /\ (Rabs (a - PI) <= / 10 ^ 3 -> 0 <= r) /\ (Rabs (a + PI) <= / 10 ^ 3 -> r <= 0)).
Proof. exact (repair_cases a r). Qed.
Print Assumptions C252_what_the_repair_does.
Theorem C252_the_angle_is_brought_on_the_side_of_the_reference a r : principal a -> principal r -> close_angle (PI / 2 - / 10 ^ 2) r a ->
  let b := repair_start_end_angle_periodicity a r in
  principal b /\ close_angle (/ 10 ^ 3) b a /\ (PI - / 10 ^ 3 <= Rabs a -> Rabs (b - r) < PI / 2).
Proof. exact (repair_ok a r). Qed.
Print Assumptions C252_the_angle_is_brought_on_the_side_of_the_reference.
Theorem C252_arcs_of_cylinders start end_ us ue t3 t4 d : principal (x2 start) -> principal (x2 end_) -> principal t3 -> principal t4 ->
  close_angle (PI / 2 - / 10 ^ 2) t3 (x2 start) -> close_angle (PI / 2 - / 10 ^ 2) t4 (x2 end_) ->
  let '(s, e) := arc3d_to_cylindrical_coordinates_verification start end_ us ue t3 t4 d in
  y2 s = y2 start /\ y2 e = y2 end_ /\ close_angle (/ 10 ^ 3) (x2 s) (x2 start) /\ close_angle (/ 10 ^ 3) (x2 e) (x2 end_) /\ principal (x2 s).
Proof. exact (arc_cylinder_ok start end_ us ue t3 t4 d). Qed.
Print Assumptions C252_arcs_of_cylinders.
Example C252_nonvacuous : principal PI /\ principal (- (3)) /\ close_angle (PI / 2 - / 10 ^ 2) (- (3)) PI.
Proof.
  pose proof PI2_3_2 as P3. pose proof PI_4 as P4. assert (T2 : / 10 ^ 2 = / 100) by (f_equal; ring). split; [unfold principal; lra|]. split; [unfold principal; lra|].
  exists (-1)%Z. rewrite T2. apply Rabs_le. lra.
Qed.

(** ** C253: arcs over the cut and circles *)
Theorem C253_the_other_way_round a b p : let '(a', b') := repair_arc3d_angle_continuity a b p in
  a' = a /\ (b' = b - p \/ b' = b + p) /\ (0 < p -> Rabs (b - a) < p -> a <> b -> Rabs (b' - a) = p - Rabs (b - a) /\ (b' - a) * (b - a) < 0).
Proof. exact (continuity_ok a b p). Qed.
Print Assumptions C253_the_other_way_round.
Theorem C253_circles_make_a_full_turn start end_ n : principal (x2 start) -> x2 end_ = x2 start -> n <> 0 ->
  let '(s, e) := fullarc_to_cylindrical_coordinates_verification start end_ n in
  y2 s = y2 start /\ y2 e = y2 end_ /\ close_angle (/ 10 ^ 6) (x2 s) (x2 start) /\ close_angle (/ 10 ^ 6) (x2 e) (x2 end_) /\
  Rabs (x2 e - x2 s - (if Rltb 0 n then 2 * PI else - (2 * PI))) <= / 10 ^ 6.
Proof. exact (fullarc_ok start end_ n). Qed.
Print Assumptions C253_circles_make_a_full_turn.

(** ** C254: verify_repeated_parametric_points *)
Theorem C254_the_points_once {A} (eqb : A -> A -> bool) l : (forall a b, eqb a b = true <-> a = b) ->
  let r := verify_repeated_parametric_points eqb l in
  NoDup r /\ (forall a, In a r <-> In a l) /\ (NoDup l -> r = l).
Proof. exact (repeated_ok eqb l). Qed.
Print Assumptions C254_the_points_once.
Theorem C254_a_repeated_point_changes_nothing {A} (eqb : A -> A -> bool) l a m : (forall x y, eqb x y = true <-> x = y) -> In a l -> verify_repeated_parametric_points eqb (l ++ a :: m) = verify_repeated_parametric_points eqb (l ++ m).
Proof. exact (repeated_app eqb l a m). Qed.
Print Assumptions C254_a_repeated_point_changes_nothing.
Example C254_nonvacuous : verify_repeated_parametric_points Nat.eqb [3; 1; 3; 2; 1]%nat = [3; 1; 2]%nat.
Proof. reflexivity. Qed.

