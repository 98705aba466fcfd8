(** C314-C320: assemblies, compounds and volume models (statements only). *)
From Coq Require Import Reals Lra Lia List Bool ZArith Permutation.
From Verif.Model Require Import Base RBase Vec Frame BBox Containers.
From Verif.Spec Require Import VecSpec FrameSpec BBoxSpec ContainersSpec.
From Verif.Proofs Require Import FrameP ContainersP.
Import ListNotations.
Open Scope R_scope.

(** ** C314: placing a primitive from a frame at the origin *)
@placing_carries C314_the_placing_frame
@placing_err C314_when_it_fails
@map_primitive_ok C314_what_placing_does
@point_placed C314_a_placed_point
Example C314_nonvacuous : independent (fb3 OXYZ_frame) /\ org3 OXYZ_frame = O3D.
Proof. split; [|reflexivity]. unfold independent, OXYZ_frame, dot3, cross3, X3D, Y3D, Z3D. cbn. lra. Qed.
(** ** C315: frames elsewhere *)
@placing_ok C315_the_displacement
@misplaced C315_frames_elsewhere_refuted
(** ** C316: assemblies *)
@assembly_ok C316_the_primitives
@assembly_length C316_the_number_of_primitives
@assembly_points C316_the_points_of_an_assembly
@positions_moved C316_moving_an_assembly
Example C316_nonvacuous : exists r, assembly_primitives no_frame (fun f => org3 f) point_mapping [V3 1 2 3] [OXYZ_frame] OXYZ_frame = Ok r.
Proof.
  exists [V3 1 2 3]. unfold assembly_primitives. cbn [combine mapM fst snd]. unfold map_primitive.
  replace (frame3_eqb OXYZ_frame OXYZ_frame) with true by (symmetry; apply frame3_eqb_spec; reflexivity). reflexivity.
Qed.
(** ** C317: get_shells *)
@get_shells_ok C317_get_shells
Example C317_nonvacuous : get_shells [Leaf 1%Z true; Grp [Leaf 2%Z false; Grp [Leaf 3%Z true]; Leaf 4%Z true]] = [1; 3; 4]%Z.
Proof. reflexivity. Qed.
(** ** C318: bounding boxes *)
@model_box_least C318_the_least_box
@model_box_total C318_when_a_model_has_a_box
@group_is_model C318_groups_with_boxes
@group_points C318_groups_of_points
@group_total C318_when_a_group_has_a_box
@fresh_get C318_the_first_answer
@gets_same C318_the_next_answers
@set_get C318_a_given_box
Example C318_nonvacuous : exists b, group_bounding_box [Boxed (BBox 0 1 0 1 0 1); OtherMember] = Ok b.
Proof. eexists. reflexivity. Qed.
(** ** C319: points beside bodies, changed models *)
@point_outside C319_points_refuted
@stale_box C319_changed_models_refuted
(** ** C320: volumes, equality and moving models *)
@model_volume_ok C320_the_volume
@model_volume_order C320_any_order
@model_eqb_ok C320_equality
@model_hash_eq C320_equal_models_have_equal_hashes
@model_hash_sum C320_the_hash
@new_moving_ok C320_when_a_moving_model_is_accepted
@moving_step C320_the_model_of_a_step
@full_step C320_a_step_with_no_failure
@missing_step C320_a_missing_step
Example C320_nonvacuous : exists m : moving Z, new_moving [1%Z] [[OXYZ_frame]; [OXYZ_frame]] = Ok m.
Proof. eexists. reflexivity. Qed.
