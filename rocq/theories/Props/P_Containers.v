(** C314-C320: assemblies, compounds and volume models (statements only). *)
From Coq Require Import Reals Lra Lia List Bool ZArith Permutation.
From Verif.Model Require Import Base RBase Vec Frame BBox Containers.
From Verif.Spec Require Import VecSpec FrameSpec BBoxSpec ContainersSpec.
From Verif.Proofs Require Import FrameP ContainersP.
Import ListNotations.
Open Scope R_scope.

(** ** C314: placing a primitive from a frame at the origin *)
Theorem C314_the_placing_frame i j : independent (fb3 i) -> org3 i = O3D -> exists F, placing_frame i j = Ok F /\ carries F i j.
Proof. exact (placing_carries i j). Qed.
Print Assumptions C314_the_placing_frame.
Theorem C314_when_it_fails i j : ~ independent (fb3 i) -> placing_frame i j = Err ValueError.
Proof. exact (placing_err i j). Qed.
Print Assumptions C314_when_it_fails.
Theorem C314_what_placing_does {A} isf off (fm : A -> frame3 -> res A) p i j q : org3 i = O3D -> map_primitive isf off fm p i j = Ok q ->
  (i = j /\ q = p) \/ (isf p i = true /\ q = off j) \/
  (independent (fb3 i) /\ exists F, carries F i j /\ (fm p F = Ok q \/ (q = p /\ forall v, frame_point F v = v))).
Proof. exact (map_primitive_ok isf off fm p i j q). Qed.
Print Assumptions C314_what_placing_does.
Theorem C314_a_placed_point i j off v : independent (fb3 i) -> org3 i = O3D ->
  exists q, map_primitive no_frame off point_mapping (frame_point i v) i j = Ok q /\ near (/ 10 ^ 16) q (frame_point j v).
Proof. exact (point_placed i j off v). Qed.
Print Assumptions C314_a_placed_point.
Example C314_nonvacuous : independent (fb3 OXYZ_frame) /\ org3 OXYZ_frame = O3D.
Proof. split; [|reflexivity]. unfold independent, OXYZ_frame, dot3, cross3, X3D, Y3D, Z3D. cbn. lra. Qed.
(** ** C315: frames elsewhere *)
Theorem C315_the_displacement i j F : placing_frame i j = Ok F -> independent (fb3 i) /\
  forall v, frame_point F (frame_point i v) = add3 (frame_point j v) (basis_vector (fb3 F) (org3 i)).
Proof. exact (placing_ok i j F). Qed.
Print Assumptions C315_the_displacement.
Theorem C315_frames_elsewhere_refuted : let i := F3 (V3 1 0 0) (B3 X3D Y3D Z3D) in let j := F3 (V3 2 0 0) (B3 X3D Y3D Z3D) in
  map_primitive no_frame (fun f => org3 f) point_mapping (frame_point i O3D) i j = Ok (V3 3 0 0) /\ frame_point j O3D = V3 2 0 0.
Proof. exact misplaced. Qed.
Print Assumptions C315_frames_elsewhere_refuted.
(** ** C316: assemblies *)
Theorem C316_the_primitives {A} isf off (fm : A -> frame3 -> res A) comps pos fr r :
  assembly_primitives isf off fm comps pos fr = Ok r <->
  all_results (fun c => map_primitive isf off fm (fst c) fr (snd c)) (combine comps pos) r.
Proof. exact (assembly_ok isf off fm comps pos fr r). Qed.
Print Assumptions C316_the_primitives.
Theorem C316_the_number_of_primitives {A} isf off (fm : A -> frame3 -> res A) comps pos fr r :
  assembly_primitives isf off fm comps pos fr = Ok r -> length r = min (length comps) (length pos).
Proof. exact (assembly_length isf off fm comps pos fr r). Qed.
Print Assumptions C316_the_number_of_primitives.
Theorem C316_the_points_of_an_assembly comps pos fr off r : independent (fb3 fr) -> org3 fr = O3D ->
  assembly_primitives no_frame off point_mapping (map (frame_point fr) comps) pos fr = Ok r ->
  Forall2 (fun c q => near (/ 10 ^ 16) q (frame_point (snd c) (fst c))) (combine comps pos) r.
Proof. exact (assembly_points comps pos fr off r). Qed.
Print Assumptions C316_the_points_of_an_assembly.
Theorem C316_moving_an_assembly pos f : Forall2 (fun p q => near (/ 10 ^ 16) (org3 q) (frame_point f (org3 p)) /\
    near (/ 10 ^ 16) (bu (fb3 q)) (basis_vector (fb3 f) (bu (fb3 p))) /\ near (/ 10 ^ 16) (bv (fb3 q)) (basis_vector (fb3 f) (bv (fb3 p))) /\
    near (/ 10 ^ 16) (bw (fb3 q)) (basis_vector (fb3 f) (bw (fb3 p)))) pos (assembly_positions_old pos f).
Proof. exact (positions_moved pos f). Qed.
Print Assumptions C316_moving_an_assembly.
Example C316_nonvacuous : exists r, assembly_primitives no_frame (fun f => org3 f) point_mapping [V3 1 2 3] [OXYZ_frame] OXYZ_frame = Ok r.
Proof.
  exists [V3 1 2 3]. unfold assembly_primitives. cbn [combine mapM fst snd]. unfold map_primitive.
  replace (frame3_eqb OXYZ_frame OXYZ_frame) with true by (symmetry; apply frame3_eqb_spec; reflexivity). reflexivity.
Qed.
(** ** C317: get_shells *)
Theorem C317_get_shells {A} (l : list (part A)) r : get_shells l = r <-> shells_of l r.
Proof. exact (get_shells_ok l r). Qed.
Print Assumptions C317_get_shells.
Example C317_nonvacuous : get_shells [Leaf 1%Z true; Grp [Leaf 2%Z false; Grp [Leaf 3%Z true]; Leaf 4%Z true]] = [1; 3; 4]%Z.
Proof. reflexivity. Qed.
(** ** C318: bounding boxes *)
Theorem C318_the_least_box l b : model_bounding_box l = Ok b ->
  (forall a, In (Boxed a) l -> box_le a b) /\ (forall c, (forall a, In (Boxed a) l -> box_le a c) -> box_le b c).
Proof. exact (model_box_least l b). Qed.
Print Assumptions C318_the_least_box.
Theorem C318_when_a_model_has_a_box l : (exists b, model_bounding_box l = Ok b) <-> exists a, In (Boxed a) l.
Proof. exact (model_box_total l). Qed.
Print Assumptions C318_when_a_model_has_a_box.
Theorem C318_groups_with_boxes l b : In (Boxed b) l -> group_bounding_box l = model_bounding_box l.
Proof. exact (group_is_model l b). Qed.
Print Assumptions C318_groups_with_boxes.
Theorem C318_groups_of_points l p : group_bounding_box (map PointMember (p :: l)) = bbox_from_points (p :: l).
Proof. exact (group_points l p). Qed.
Print Assumptions C318_groups_of_points.
Theorem C318_when_a_group_has_a_box l : (exists b, group_bounding_box l = Ok b) <->
  (exists a, In (Boxed a) l) \/ (l <> [] /\ forall m, In m l -> exists p, m = PointMember p).
Proof. exact (group_total l). Qed.
Print Assumptions C318_when_a_group_has_a_box.
Theorem C318_the_first_answer compute l b s : get_bounding_box compute (Cached l None) = Ok (b, s) -> compute l = Ok b /\ members s = l.
Proof. exact (fresh_get compute l b s). Qed.
Print Assumptions C318_the_first_answer.
Theorem C318_the_next_answers compute n s l : gets compute n s = Ok l -> forall a b, In a l -> In b l -> a = b.
Proof. exact (gets_same compute n s l). Qed.
Print Assumptions C318_the_next_answers.
Theorem C318_a_given_box compute s b : get_bounding_box compute (set_bounding_box s b) = Ok (b, set_bounding_box s b).
Proof. exact (set_get compute s b). Qed.
Print Assumptions C318_a_given_box.
Example C318_nonvacuous : exists b, group_bounding_box [Boxed (BBox 0 1 0 1 0 1); OtherMember] = Ok b.
Proof. eexists. reflexivity. Qed.
(** ** C319: points beside bodies, changed models *)
Theorem C319_points_refuted : exists b p, group_bounding_box [Boxed (BBox 0 1 0 1 0 1); PointMember p] = Ok b /\ ~ in_box b p.
Proof. exact point_outside. Qed.
Print Assumptions C319_points_refuted.
Theorem C319_changed_models_refuted : exists s0 b s a b' s', get_bounding_box model_bounding_box s0 = Ok (b, s) /\ bbox_cache s0 = None /\
  get_bounding_box model_bounding_box (append_member s (Boxed a)) = Ok (b', s') /\ In (Boxed a) (members s') /\ ~ box_le a b'.
Proof. exact stale_box. Qed.
Print Assumptions C319_changed_models_refuted.
(** ** C320: volumes, equality and moving models *)
Theorem C320_the_volume {A} (vol : A -> res R) l v : model_volume vol l = Ok v <->
  exists ws, all_results vol l ws /\ v = fold_right Rplus 0 ws.
Proof. exact (model_volume_ok vol l v). Qed.
Print Assumptions C320_the_volume.
Theorem C320_any_order {A} (vol : A -> res R) l m v : Permutation l m -> model_volume vol l = Ok v -> model_volume vol m = Ok v.
Proof. exact (model_volume_order vol l m v). Qed.
Print Assumptions C320_any_order.
Theorem C320_equality {A} (eqb : A -> A -> bool) l m : model_eqb eqb l m = true <-> Forall2 (fun a b => eqb a b = true) l m.
Proof. exact (model_eqb_ok eqb l m). Qed.
Print Assumptions C320_equality.
Theorem C320_equal_models_have_equal_hashes {A} (eqb : A -> A -> bool) (h : A -> Z) l m : (forall a b, eqb a b = true -> h a = h b) ->
  model_eqb eqb l m = true -> model_hash h l = model_hash h m.
Proof. exact (model_hash_eq eqb h l m). Qed.
Print Assumptions C320_equal_models_have_equal_hashes.
Theorem C320_the_hash {A} (h : A -> Z) l : model_hash h l = fold_right Z.add 0%Z (map h l).
Proof. exact (model_hash_sum h l). Qed.
Print Assumptions C320_the_hash.
Theorem C320_when_a_moving_model_is_accepted {A} (l : list A) frames : (exists m, new_moving l frames = Ok m) <-> forall fr, In fr frames -> length fr = length l.
Proof. exact (new_moving_ok l frames). Qed.
Print Assumptions C320_when_a_moving_model_is_accepted.
Theorem C320_the_model_of_a_step {A} (fm : A -> frame3 -> res A) l frames m k fr r : new_moving l frames = Ok m -> nth_error frames k = Some fr ->
  step_volume_model fm m k = Ok r -> length r = length l /\
  forall n p f, nth_error l n = Some p -> nth_error fr n = Some f -> exists q, nth_error r n = Some q /\ fm p f = Ok q.
Proof. exact (moving_step fm l frames m k fr r). Qed.
Print Assumptions C320_the_model_of_a_step.
Theorem C320_a_step_with_no_failure {A} (fm : A -> frame3 -> res A) l frames m k fr : new_moving l frames = Ok m -> nth_error frames k = Some fr ->
  (forall p f, In p l -> In f fr -> exists q, fm p f = Ok q) -> exists r, step_volume_model fm m k = Ok r.
Proof. exact (full_step fm l frames m k fr). Qed.
Print Assumptions C320_a_step_with_no_failure.
Theorem C320_a_missing_step {A} (fm : A -> frame3 -> res A) l frames m k : new_moving l frames = Ok m -> (length frames <= k)%nat ->
  step_volume_model fm m k = Err IndexError.
Proof. exact (missing_step fm l frames m k). Qed.
Print Assumptions C320_a_missing_step.
Example C320_nonvacuous : exists m : moving Z, new_moving [1%Z] [[OXYZ_frame]; [OXYZ_frame]] = Ok m.
Proof. eexists. reflexivity. Qed.

