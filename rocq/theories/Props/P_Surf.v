(** C38, C85-C89: B-spline surfaces (statements only). *)
From Verif.Model Require Import RBase Nurbs NurbsSurf.
From Verif.Spec Require Import NurbsSpec CurveSpec SurfSpec.
From Verif.Proofs Require Import SurfP SurfP2 SurfP3 SurfP4 SurfP5.
From Coq Require Import Lra Lia.
Open Scope R_scope.

(** ** C38: bookkeeping of the control net; refinement loses knots in u. *)
Theorem C38_flip_transposes_the_net C nu nv : length C = (nu * nv)%nat ->
  length (flip_ctrlpts_u C nu nv) = (nu * nv)%nat /\ forall i k, (i < nu)%nat -> (k < nv)%nat -> nth (k + nv * i) (flip_ctrlpts_u C nu nv) [] = nth (i + nu * k) C [].
Proof. exact (flip_spec C nu nv). Qed.
Print Assumptions C38_flip_transposes_the_net.
Theorem C38_flip_twice_is_the_identity C nu nv : length C = (nu * nv)%nat -> flip_ctrlpts_u (flip_ctrlpts_u C nu nv) nv nu = C.
Proof. exact (flip_flip C nu nv). Qed.
Print Assumptions C38_flip_twice_is_the_identity.
Theorem C38_ctrlpts2d_to_ctrlpts_is_row_major T nv : (forall row, In row T -> length row = nv) ->
  length (ctrlpts2d_to_ctrlpts T) = (length T * nv)%nat /\
  forall i k, (i < length T)%nat -> (k < nv)%nat -> nth (k + nv * i) (ctrlpts2d_to_ctrlpts T) [] = nth k (nth i T []) [].
Proof. exact (flatten_spec T nv). Qed.
Print Assumptions C38_ctrlpts2d_to_ctrlpts_is_row_major.
Theorem C38_separate_ctrlpts_weights_inverts_weighting P w Q d : (forall q, In q P -> length q = d) -> length w = length P -> (forall x, In x w -> 0 < x) -> weighted P w Q ->
  separate_ctrlpts_weights Q = (P, w).
Proof. exact (separate_weighted P w Q d). Qed.
Print Assumptions C38_separate_ctrlpts_weights_inverts_weighting.
Theorem C38_control_points_table_rows s : valid_surface s ->
  length (control_points_table s) = bs_nu s /\ forall i, (i < bs_nu s)%nat ->
    length (nth i (control_points_table s) []) = bs_nv s /\ forall k, (k < bs_nv s)%nat -> nth k (nth i (control_points_table s) []) [] = point_ik s i k.
Proof. exact (control_points_table_rows s). Qed.
Print Assumptions C38_control_points_table_rows.
Theorem C38_refinement_in_v_inserts_every_knot s vs : valid_surface s -> normalized_surface s -> (1 <= bs_dv s)%nat ->
  separated eps15 (vs ++ knots_vector_v s) -> (forall v, In v vs -> inner_v s v) ->
  exists t, refine_knot_vector_surface s [] vs = Ok t /\ valid_surface t /\ normalized_surface t /\ same_surface s t /\
    knots_vector_u t = knots_vector_u s /\
    (forall x, occurrences x (knots_vector_v t) = if in_dec Req_EM_T x vs then bs_dv s else occurrences x (knots_vector_v s)).
Proof. exact (refine_v_only s vs). Qed.
Print Assumptions C38_refinement_in_v_inserts_every_knot.
Theorem C172_refinement_keeps_the_surface_and_inserts_the_last_u_knot_partial s us u vs : valid_surface s -> normalized_surface s -> (1 <= bs_dv s)%nat -> (forall x, In x (us ++ [u]) -> inner_u s x) ->
  separated eps15 (vs ++ knots_vector_v s) -> (forall v, In v vs -> inner_v s v) ->
  exists t, refine_knot_vector_surface s (us ++ [u]) vs = Ok t /\ valid_surface t /\ normalized_surface t /\ same_surface s t /\
    (forall x, occurrences x (knots_vector_u t) = if Req_EM_T u x then bs_du s else occurrences x (knots_vector_u s)) /\
    (forall x, occurrences x (knots_vector_v t) = if in_dec Req_EM_T x vs then bs_dv s else occurrences x (knots_vector_v s)).
Proof. exact (refine_actual s us u vs). Qed.
Print Assumptions C172_refinement_keeps_the_surface_and_inserts_the_last_u_knot_partial.
Theorem C172_refinement_in_u_inserts_every_knot_refuted : exists s us t, valid_surface s /\ normalized_surface s /\ (forall u, In u us -> inner_u s u) /\
  refine_knot_vector_surface s us [] = Ok t /\ exists u, In u us /\ ~ In u (knots_vector_u t).
Proof. exact refine_loses_knots. Qed.
Print Assumptions C172_refinement_in_u_inserts_every_knot_refuted.
Example C38_nonvacuous : valid_surface bil /\ normalized_surface bil /\ inner_u bil (1 / 4) /\ inner_v bil (1 / 2) /\
  weighted [[1]; [2]] [3; 1] [[3; 3]; [2; 1]].
Proof.
  split; [exact bil_valid|]. split; [exact bil_norm|]. split; [apply bil_inner; lra|]. split; [apply bil_inner; lra|].
  split; [reflexivity|]. intros [|[|i]] Hi; cbn in *; [repeat f_equal; lra|repeat f_equal; lra|lia].
Qed.

(** ** C85: evaluation *)
Theorem C85_point2d_to_3d_is_the_point_of_the_clamped_parameters s u v : valid_surface s ->
  exists u' v', in_u_domain s u' /\ in_v_domain s v' /\ (in_u_domain s u -> u' = u) /\ (in_v_domain s v -> v' = v) /\
    point2d_to_3d s u v = surface_point s u' v'.
Proof. exact (point2d_to_3d_spec s u v). Qed.
Print Assumptions C85_point2d_to_3d_is_the_point_of_the_clamped_parameters.
Theorem C85_evaluate_samples_the_surface_on_a_regular_grid s a b : valid_surface s -> (2 <= a)%nat -> (2 <= b)%nat ->
  eps_lin < snd (u_domain s) - fst (u_domain s) -> eps_lin < snd (v_domain s) - fst (v_domain s) ->
  length (surface_evaluate s a b) = (a * b)%nat /\
  forall i k, (i < a)%nat -> (k < b)%nat ->
    nth (k + b * i) (surface_evaluate s a b) [] =
    surface_point s (fst (u_domain s) + INR i * (snd (u_domain s) - fst (u_domain s)) / INR (a - 1))
                    (fst (v_domain s) + INR k * (snd (v_domain s) - fst (v_domain s)) / INR (b - 1)).
Proof. exact (surface_evaluate_spec s a b). Qed.
Print Assumptions C85_evaluate_samples_the_surface_on_a_regular_grid.
Theorem C85_every_point_is_a_convex_combination_of_the_control_points s u v : valid_surface s -> in_u_domain s u -> in_v_domain s v ->
  exists lam : nat -> nat -> R,
    (forall i k, (i < bs_nu s)%nat -> (k < bs_nv s)%nat -> 0 <= lam i k) /\ Rsum (fun i => Rsum (lam i) (bs_nv s)) (bs_nu s) = 1 /\ forall j, (j < 3)%nat -> surface_at s j u v = Rsum (fun i => Rsum (fun k => lam i k * nth j (point_ik s i k) 0) (bs_nv s)) (bs_nu s).
Proof. exact (surface_hull s u v). Qed.
Print Assumptions C85_every_point_is_a_convex_combination_of_the_control_points.
Theorem C85_a_clamped_surface_interpolates_its_corners s i k u v : valid_surface s -> clamped_kv (bs_du s) (bs_nu s) (knots_vector_u s) -> clamped_kv (bs_dv s) (bs_nv s) (knots_vector_v s) ->
  (i = 0%nat /\ u = nth (bs_du s) (knots_vector_u s) 0) \/ (i = (bs_nu s - 1)%nat /\ u = nth (bs_nu s) (knots_vector_u s) 0) ->
  (k = 0%nat /\ v = nth (bs_dv s) (knots_vector_v s) 0) \/ (k = (bs_nv s - 1)%nat /\ v = nth (bs_nv s) (knots_vector_v s) 0) ->
  surface_point s u v = point_ik s i k.
Proof. exact (surface_corner s i k u v). Qed.
Print Assumptions C85_a_clamped_surface_interpolates_its_corners.
Theorem C85_the_constructor_normalises_the_knots du dv P nu nv um vm uk vk w s : bsurf_new du dv P nu nv um vm uk vk w = Ok s ->
  s = mkbsurf du dv P nu nv um vm (bs_uk s) (bs_vk s) w /\
  bs_uk s = map (fun k => (k - hd 0 uk) / (last uk 0 - hd 0 uk)) uk /\ bs_vk s = map (fun k => (k - hd 0 vk) / (last vk 0 - hd 0 vk)) vk /\
  hd 0 (bs_uk s) = 0 /\ last (bs_uk s) 0 = 1 /\ hd 0 (bs_vk s) = 0 /\ last (bs_vk s) 0 = 1.
Proof. exact (new_normalized du dv P nu nv um vm uk vk w s). Qed.
Print Assumptions C85_the_constructor_normalises_the_knots.
Example C85_nonvacuous : valid_surface bilw /\ in_u_domain bilw (1 / 3) /\ in_v_domain bilw (1 / 2) /\
  clamped_kv (bs_du bil) (bs_nu bil) (knots_vector_u bil) /\ clamped_kv (bs_dv bil) (bs_nv bil) (knots_vector_v bil).
Proof. split; [exact bilw_valid|]. split; [apply bil_dom; lra|]. split; [apply bil_dom; lra|]. exact bil_clamped. Qed.

(** ** C86: knot insertion *)
Theorem C86_insertion_in_u_keeps_the_surface s u num b : valid_surface s -> normalized_surface s -> full_u s u num ->
  exists s', insert_knot_surface s (Some u) None num 0 b = Ok s' /\ valid_surface s' /\ normalized_surface s' /\ same_surface s s' /\
    bs_nu s' = (bs_nu s + num)%nat /\ bs_nv s' = bs_nv s.
Proof. exact (insert_surface_u s u num b). Qed.
Print Assumptions C86_insertion_in_u_keeps_the_surface.
Theorem C86_insertion_in_v_keeps_the_surface s v num b : valid_surface s -> normalized_surface s -> full_v s v num ->
  exists s', insert_knot_surface s None (Some v) 0 num b = Ok s' /\ valid_surface s' /\ normalized_surface s' /\ same_surface s s' /\
    bs_nu s' = bs_nu s /\ bs_nv s' = (bs_nv s + num)%nat.
Proof. exact (insert_surface_v s v num b). Qed.
Print Assumptions C86_insertion_in_v_keeps_the_surface.
Theorem C86_insertion_in_both_directions_keeps_the_surface s u v nu nv b : valid_surface s -> normalized_surface s -> full_u s u nu -> full_v s v nv ->
  exists s', insert_knot_surface s (Some u) (Some v) nu nv b = Ok s' /\ valid_surface s' /\ normalized_surface s' /\ same_surface s s' /\
    bs_nu s' = (bs_nu s + nu)%nat /\ bs_nv s' = (bs_nv s + nv)%nat.
Proof. exact (insert_surface_uv s u v nu nv b). Qed.
Print Assumptions C86_insertion_in_both_directions_keeps_the_surface.
Theorem C86_too_many_insertions_in_u_raise s u num : separated_from (/ 10 ^ 15) u (knots_vector_u s) -> (bs_du s < occurrences u (knots_vector_u s) + num)%nat -> (1 <= num)%nat ->
  insert_knot_surface s (Some u) None num 0 true = Err ValueError.
Proof. exact (insert_too_many_u s u num). Qed.
Print Assumptions C86_too_many_insertions_in_u_raise.
Theorem C86_too_many_insertions_in_v_raise s v num : separated_from (/ 10 ^ 15) v (knots_vector_v s) -> (bs_dv s < occurrences v (knots_vector_v s) + num)%nat -> (1 <= num)%nat ->
  insert_knot_surface s None (Some v) 0 num true = Err ValueError.
Proof. exact (insert_too_many_v s v num). Qed.
Print Assumptions C86_too_many_insertions_in_v_raise.
Example C86_nonvacuous : valid_surface bil /\ normalized_surface bil /\ full_u bil (1 / 4) 1 /\ full_v bil (1 / 2) 1.
Proof. split; [exact bil_valid|]. split; [exact bil_norm|]. split; apply bil_full; lra. Qed.

(** ** C87: splitting *)
Theorem C87_split_surface_u_gives_the_two_parts s u : valid_surface s -> normalized_surface s -> inner_u s u ->
  exists s1 s2, split_surface_u s u = Ok (s1, s2) /\ valid_surface s1 /\ valid_surface s2 /\ normalized_surface s1 /\ normalized_surface s2 /\ split_u_ok s s1 s2 u.
Proof. exact (split_u_final s u). Qed.
Print Assumptions C87_split_surface_u_gives_the_two_parts.
Theorem C87_split_surface_v_gives_the_two_parts s v : valid_surface s -> normalized_surface s -> inner_v s v ->
  exists s1 s2, split_surface_v s v = Ok (s1, s2) /\ valid_surface s1 /\ valid_surface s2 /\ normalized_surface s1 /\ normalized_surface s2 /\ split_v_ok s s1 s2 v.
Proof. exact (split_v_final s v). Qed.
Print Assumptions C87_split_surface_v_gives_the_two_parts.
Theorem C87_split_u_at_an_end_raises s u : u = fst (u_domain s) \/ u = snd (u_domain s) -> split_surface_u s u = Err ValueError.
Proof. exact (split_u_ends s u). Qed.
Print Assumptions C87_split_u_at_an_end_raises.
Theorem C87_split_v_at_an_end_raises s u : u = fst (v_domain s) \/ u = snd (v_domain s) -> split_surface_v s u = Err ValueError.
Proof. exact (split_v_ends s u). Qed.
Print Assumptions C87_split_v_at_an_end_raises.
Example C87_nonvacuous : valid_surface bilw /\ normalized_surface bilw /\ inner_u bilw (1 / 4) /\ inner_v bilw (1 / 2).
Proof. split; [exact bilw_valid|]. split; [exact bilw_norm|]. split; apply bilw_inner; lra. Qed.

(** ** C88: iso-parametric curves *)
Theorem C176_extract_curve_u_when_both_directions_agree s u : valid_surface s -> normalized_surface s -> inner_u s u ->
  bs_du s = bs_dv s -> bs_um s = bs_vm s -> bs_uk s = bs_vk s ->
  exists c, extract_surface_curve_u s u = Ok c /\ valid_curve c /\ iso_curve_u s c u.
Proof. exact (iso_u_final s u). Qed.
Print Assumptions C176_extract_curve_u_when_both_directions_agree.
Theorem C176_extract_curve_v_when_both_directions_agree s v : valid_surface s -> normalized_surface s -> inner_v s v ->
  bs_du s = bs_dv s -> bs_um s = bs_vm s -> bs_uk s = bs_vk s ->
  exists c, extract_surface_curve_v s v = Ok c /\ valid_curve c /\ iso_curve_v s c v.
Proof. exact (iso_v_final s v). Qed.
Print Assumptions C176_extract_curve_v_when_both_directions_agree.
Theorem C88_extract_curve_u_actual s u c : valid_surface s -> normalized_surface s -> inner_u s u -> extract_surface_curve_u s u = Ok c ->
  bc_degree c = bs_du s /\ knotvector c = knots_vector_u s /\ length (bc_ctrlpts c) = bs_nv s /\
  iso_curve_u s (mkbcurve (bs_dv s) (bc_ctrlpts c) (bs_vm s) (bs_vk s) (bc_weights c)) u.
Proof. exact (iso_u_points s u c). Qed.
Print Assumptions C88_extract_curve_u_actual.
Theorem C88_extract_curve_v_actual s v c : valid_surface s -> normalized_surface s -> inner_v s v -> extract_surface_curve_v s v = Ok c ->
  bc_degree c = bs_dv s /\ knotvector c = knots_vector_v s /\ length (bc_ctrlpts c) = bs_nu s /\
  iso_curve_v s (mkbcurve (bs_du s) (bc_ctrlpts c) (bs_um s) (bs_uk s) (bc_weights c)) v.
Proof. exact (iso_v_points s v c). Qed.
Print Assumptions C88_extract_curve_v_actual.
Theorem C88_extract_curve_u_is_ill_formed_when_the_sizes_differ s u c : valid_surface s -> normalized_surface s -> inner_u s u -> extract_surface_curve_u s u = Ok c -> bs_nu s <> bs_nv s -> ~ valid_curve c.
Proof. exact (iso_u_never_valid s u c). Qed.
Print Assumptions C88_extract_curve_u_is_ill_formed_when_the_sizes_differ.
Theorem C88_the_extracted_curve_is_a_valid_curve_refuted : exists s u c, valid_surface s /\ normalized_surface s /\ inner_u s u /\ extract_surface_curve_u s u = Ok c /\ ~ valid_curve c.
Proof. exact iso_curve_wrong. Qed.
Print Assumptions C88_the_extracted_curve_is_a_valid_curve_refuted.
Example C88_nonvacuous : valid_surface bilw /\ normalized_surface bilw /\ inner_u bilw (1 / 4) /\ inner_v bilw (1 / 2) /\
  bs_du bilw = bs_dv bilw /\ bs_um bilw = bs_vm bilw /\ bs_uk bilw = bs_vk bilw /\ valid_surface bil3 /\ inner_u bil3 (1 / 2) /\ bs_nu bil3 <> bs_nv bil3.
Proof.
  split; [exact bilw_valid|]. split; [exact bilw_norm|]. split; [apply bilw_inner; lra|]. split; [apply bilw_inner; lra|].
  repeat (split; [reflexivity|]). split; [exact bil3_valid|]. split; [exact bil3_inner|]. cbn. lia.
Qed.

(** ** C89: border curves *)
Theorem C89_the_first_and_last_v_curves_are_the_u_borders s i u : valid_surface s -> normalized_surface s -> clamped_kv (bs_du s) (bs_nu s) (knots_vector_u s) ->
  (i = 0%nat /\ u = nth (bs_du s) (knots_vector_u s) 0) \/ (i = (bs_nu s - 1)%nat /\ u = nth (bs_nu s) (knots_vector_u s) 0) ->
  exists c, surface_curve_v s i = Ok c /\ valid_curve c /\ iso_curve_u s c u.
Proof. exact (border_rows s i u). Qed.
Print Assumptions C89_the_first_and_last_v_curves_are_the_u_borders.
Theorem C89_the_first_and_last_u_curves_are_the_v_borders s j v : valid_surface s -> normalized_surface s -> clamped_kv (bs_dv s) (bs_nv s) (knots_vector_v s) ->
  (j = 0%nat /\ v = nth (bs_dv s) (knots_vector_v s) 0) \/ (j = (bs_nv s - 1)%nat /\ v = nth (bs_nv s) (knots_vector_v s) 0) ->
  exists c, surface_curve_u s j = Ok c /\ valid_curve c /\ iso_curve_v s c v.
Proof. exact (border_cols s j v). Qed.
Print Assumptions C89_the_first_and_last_u_curves_are_the_v_borders.
Theorem C176_extract_curves_borders_when_both_directions_agree s i c : valid_surface s -> normalized_surface s -> (i < bs_nu s)%nat ->
  bs_du s = bs_dv s -> bs_um s = bs_vm s -> bs_uk s = bs_vk s -> clamped_kv (bs_du s) (bs_nu s) (knots_vector_u s) ->
  (i = 0%nat /\ c = nth (bs_du s) (knots_vector_u s) 0) \/ (i = (bs_nu s - 1)%nat /\ c = nth (bs_nu s) (knots_vector_u s) 0) ->
  exists cv, boundary_u s i = Ok cv /\ valid_curve cv /\ iso_curve_u s cv c.
Proof. exact (border_curves s i c). Qed.
Print Assumptions C176_extract_curves_borders_when_both_directions_agree.
Theorem C176_extract_curves_v_borders_when_both_directions_agree s j c : valid_surface s -> normalized_surface s -> (j < bs_nv s)%nat ->
  bs_du s = bs_dv s -> bs_um s = bs_vm s -> bs_uk s = bs_vk s -> clamped_kv (bs_dv s) (bs_nv s) (knots_vector_v s) ->
  (j = 0%nat /\ c = nth (bs_dv s) (knots_vector_v s) 0) \/ (j = (bs_nv s - 1)%nat /\ c = nth (bs_nv s) (knots_vector_v s) 0) ->
  exists cv, boundary_v s j = Ok cv /\ valid_curve cv /\ iso_curve_v s cv c.
Proof. exact (border_curves_v s j c). Qed.
Print Assumptions C176_extract_curves_v_borders_when_both_directions_agree.
Theorem C88_border_u_is_ill_formed_when_the_sizes_differ s i c : valid_surface s -> normalized_surface s -> bs_nu s <> bs_nv s -> boundary_u s i = Ok c -> ~ valid_curve c.
Proof. exact (boundary_u_ill s i c). Qed.
Print Assumptions C88_border_u_is_ill_formed_when_the_sizes_differ.
Theorem C88_border_v_is_ill_formed_when_the_sizes_differ s i c : valid_surface s -> normalized_surface s -> bs_nu s <> bs_nv s -> boundary_v s i = Ok c -> ~ valid_curve c.
Proof. exact (boundary_v_ill s i c). Qed.
Print Assumptions C88_border_v_is_ill_formed_when_the_sizes_differ.
Theorem C88_the_border_curves_are_valid_refuted : exists s c, valid_surface s /\ normalized_surface s /\ boundary_u s 0 = Ok c /\ ~ valid_curve c.
Proof. exact border_wrong. Qed.
Print Assumptions C88_the_border_curves_are_valid_refuted.
Example C89_nonvacuous : valid_surface bil /\ normalized_surface bil /\ clamped_kv (bs_du bil) (bs_nu bil) (knots_vector_u bil).
Proof. split; [exact bil_valid|]. split; [exact bil_norm|]. apply bil_clamped. Qed.

