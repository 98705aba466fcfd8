(** C250-C254: angles of the parametric domain of periodic surfaces (statements only). *)
From Coq Require Import List Bool Arith ZArith Reals Lra Lia.
From Verif.Model Require Import RBase Vec Periodic.
From Verif.Spec Require Import PeriodicSpec.
From Verif.Proofs Require Import PeriodicP PeriodicP2 PeriodicP3.
Import ListNotations.
Open Scope R_scope.

(** ** C250: angle_discontinuity *)
@sign_changes_ok C250_find_sign_changes
@discontinuity_ok C250_the_steps_over_the_cut_are_reported_and_no_others
Example C250_nonvacuous : 21 / 10 * 1 <= PI /\ / 10 ^ 4 <= 1 /\ (forall a, In a [PI - 1 / 4; 1 / 4 - PI; 1 - PI] -> principal a) /\ small_steps 1 [PI - 1 / 4; 1 / 4 - PI; 1 - PI] /\ crosses_the_cut 1 [PI - 1 / 4; 1 / 4 - PI; 1 - PI] 1.
Proof.
  pose proof PI2_3_2 as P3. pose proof PI_4 as P4. assert (P : 3 < PI <= 4) by lra. split; [lra|]. split; [rewrite <- Rinv_1; apply Rinv_le_contravar; simpl; lra|].
  split; [intros a [<-|[<-|[<-|[]]]]; unfold principal; lra|]. split.
  - intros i H. cbn in H. assert (C : (i = 1 \/ i = 2)%nat) by lia. destruct C as [C|C]; subst i; [exists (-1)%Z|exists 0%Z]; cbn.
    + apply Rabs_def1; lra.
    + apply Rabs_def1; lra.
  - split; [cbn; lia|]. cbn. rewrite Rabs_left; lra.
Qed.

(** ** C251: longer steps *)
@discontinuity_refuted C251_steps_of_more_than_a_quarter_of_a_turn_refuted

(** ** C252: the angles of the ends of an arc *)
@repair_cases C252_what_the_repair_does
@repair_ok C252_the_angle_is_brought_on_the_side_of_the_reference
@arc_cylinder_ok C252_arcs_of_cylinders
Example C252_nonvacuous : principal PI /\ principal (- (3)) /\ close_angle (PI / 2 - / 10 ^ 2) (- (3)) PI.
Proof.
  pose proof PI2_3_2 as P3. pose proof PI_4 as P4. assert (T2 : / 10 ^ 2 = / 100) by (f_equal; ring). split; [unfold principal; lra|]. split; [unfold principal; lra|].
  exists (-1)%Z. rewrite T2. apply Rabs_le. lra.
Qed.

(** ** C253: arcs over the cut and circles *)
@continuity_ok C253_the_other_way_round
@fullarc_ok C253_circles_make_a_full_turn

(** ** C254: verify_repeated_parametric_points *)
@repeated_ok C254_the_points_once
@repeated_app C254_a_repeated_point_changes_nothing
Example C254_nonvacuous : verify_repeated_parametric_points Nat.eqb [3; 1; 3; 2; 1]%nat = [3; 1; 2]%nat.
Proof. reflexivity. Qed.
