(** C38, C85-C89: B-spline surfaces (statements only). *)
From Verif.Model Require Import RBase Nurbs NurbsSurf.
From Verif.Spec Require Import NurbsSpec CurveSpec SurfSpec.
From Verif.Proofs Require Import SurfP SurfP2 SurfP3 SurfP4 SurfP5.
From Coq Require Import Lra Lia.
Open Scope R_scope.

(** ** C38: bookkeeping of the control net; refinement loses knots in u. *)
@flip_spec C38_flip_transposes_the_net
@flip_flip C38_flip_twice_is_the_identity
@flatten_spec C38_ctrlpts2d_to_ctrlpts_is_row_major
@separate_weighted C38_separate_ctrlpts_weights_inverts_weighting
@control_points_table_rows C38_control_points_table_rows
@refine_v_only C38_refinement_in_v_inserts_every_knot
@refine_actual C172_refinement_keeps_the_surface_and_inserts_the_last_u_knot_partial
@refine_loses_knots C172_refinement_in_u_inserts_every_knot_refuted
Example C38_nonvacuous : valid_surface bil /\ normalized_surface bil /\ inner_u bil (1 / 4) /\ inner_v bil (1 / 2) /\
  weighted [[1]; [2]] [3; 1] [[3; 3]; [2; 1]].
Proof.
  split; [exact bil_valid|]. split; [exact bil_norm|]. split; [apply bil_inner; lra|]. split; [apply bil_inner; lra|].
  split; [reflexivity|]. intros [|[|i]] Hi; cbn in *; [repeat f_equal; lra|repeat f_equal; lra|lia].
Qed.

(** ** C85: evaluation *)
@point2d_to_3d_spec C85_point2d_to_3d_is_the_point_of_the_clamped_parameters
@surface_evaluate_spec C85_evaluate_samples_the_surface_on_a_regular_grid
@surface_hull C85_every_point_is_a_convex_combination_of_the_control_points
@surface_corner C85_a_clamped_surface_interpolates_its_corners
@new_normalized C85_the_constructor_normalises_the_knots
Example C85_nonvacuous : valid_surface bilw /\ in_u_domain bilw (1 / 3) /\ in_v_domain bilw (1 / 2) /\
  clamped_kv (bs_du bil) (bs_nu bil) (knots_vector_u bil) /\ clamped_kv (bs_dv bil) (bs_nv bil) (knots_vector_v bil).
Proof. split; [exact bilw_valid|]. split; [apply bil_dom; lra|]. split; [apply bil_dom; lra|]. exact bil_clamped. Qed.

(** ** C86: knot insertion *)
@insert_surface_u C86_insertion_in_u_keeps_the_surface
@insert_surface_v C86_insertion_in_v_keeps_the_surface
@insert_surface_uv C86_insertion_in_both_directions_keeps_the_surface
@insert_too_many_u C86_too_many_insertions_in_u_raise
@insert_too_many_v C86_too_many_insertions_in_v_raise
Example C86_nonvacuous : valid_surface bil /\ normalized_surface bil /\ full_u bil (1 / 4) 1 /\ full_v bil (1 / 2) 1.
Proof. split; [exact bil_valid|]. split; [exact bil_norm|]. split; apply bil_full; lra. Qed.

(** ** C87: splitting *)
@split_u_final C87_split_surface_u_gives_the_two_parts
@split_v_final C87_split_surface_v_gives_the_two_parts
@split_u_ends C87_split_u_at_an_end_raises
@split_v_ends C87_split_v_at_an_end_raises
Example C87_nonvacuous : valid_surface bilw /\ normalized_surface bilw /\ inner_u bilw (1 / 4) /\ inner_v bilw (1 / 2).
Proof. split; [exact bilw_valid|]. split; [exact bilw_norm|]. split; apply bilw_inner; lra. Qed.

(** ** C88: iso-parametric curves *)
@iso_u_final C176_extract_curve_u_when_both_directions_agree
@iso_v_final C176_extract_curve_v_when_both_directions_agree
@iso_u_points C88_extract_curve_u_actual
@iso_v_points C88_extract_curve_v_actual
@iso_u_never_valid C88_extract_curve_u_is_ill_formed_when_the_sizes_differ
@iso_curve_wrong C88_the_extracted_curve_is_a_valid_curve_refuted
Example C88_nonvacuous : valid_surface bilw /\ normalized_surface bilw /\ inner_u bilw (1 / 4) /\ inner_v bilw (1 / 2) /\
  bs_du bilw = bs_dv bilw /\ bs_um bilw = bs_vm bilw /\ bs_uk bilw = bs_vk bilw /\ valid_surface bil3 /\ inner_u bil3 (1 / 2) /\ bs_nu bil3 <> bs_nv bil3.
Proof.
  split; [exact bilw_valid|]. split; [exact bilw_norm|]. split; [apply bilw_inner; lra|]. split; [apply bilw_inner; lra|].
  repeat (split; [reflexivity|]). split; [exact bil3_valid|]. split; [exact bil3_inner|]. cbn. lia.
Qed.

(** ** C89: border curves *)
@border_rows C89_the_first_and_last_v_curves_are_the_u_borders
@border_cols C89_the_first_and_last_u_curves_are_the_v_borders
@border_curves C176_extract_curves_borders_when_both_directions_agree
@border_curves_v C176_extract_curves_v_borders_when_both_directions_agree
@boundary_u_ill C88_border_u_is_ill_formed_when_the_sizes_differ
@boundary_v_ill C88_border_v_is_ill_formed_when_the_sizes_differ
@border_wrong C88_the_border_curves_are_valid_refuted
Example C89_nonvacuous : valid_surface bil /\ normalized_surface bil /\ clamped_kv (bs_du bil) (bs_nu bil) (knots_vector_u bil).
Proof. split; [exact bil_valid|]. split; [exact bil_norm|]. apply bil_clamped. Qed.
