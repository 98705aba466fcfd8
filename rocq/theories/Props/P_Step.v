(** C51-C53, C80: STEP texts and the STEP export (statements only). *)
From Verif.Model Require Import StepText StepWrite.
From Verif.Spec Require Import StepTextSpec StepFileSpec StepLineSpec.
From Verif.Proofs Require Import StepTextP StepWriteP StepModelP StepModelP2 StepLineP StepExP.
Open Scope char_scope.

(** ** C51 *)
(** Missing: strings with unmatched parentheses, for which it is false. *)
Theorem C51_arguments_split_at_top_level_commas args : args <> [] -> Forall argument_text args -> only_spaces (join (tx ",") args) ->
  step_split_arguments_special (join (tx ",") args ++ tx ")") = map (despace false) args.
Proof. exact (split_special_spec args). Qed.
Print Assumptions C51_arguments_split_at_top_level_commas.
Theorem C153_parenthesis_in_a_string_refuted : exists args, args <> [] /\ Forall (fun a => ~ In "," a) args /\
  step_split_arguments_special (join (tx ",") args ++ tx ")") <> map (despace false) args.
Proof. exact split_special_paren_in_string. Qed.
Print Assumptions C153_parenthesis_in_a_string_refuted.
Theorem C51_last_parenthesised_argument_lost_without_final_parenthesis : step_split_arguments_special (tx "#1,(#2)") = [tx "#1"].
Proof. exact split_special_no_final. Qed.
Print Assumptions C51_last_parenthesised_argument_lost_without_final_parenthesis.
Example C51_nonvacuous : Forall argument_text [tx "'a, (b) c'"; tx " ( #1, (2.0, $))"; tx "*"] /\ only_spaces (join (tx ",") [tx "'a, (b) c'"; tx " ( #1, (2.0, $))"; tx "*"]).
Proof.
  split.
  - constructor; [|constructor; [|constructor; [|constructor]]].
    + apply (arg_quote (tx "a, (b) c")); [|constructor]. do 3 (apply quotable_char; [discriminate..|]). apply (quotable_paren (tx "b") (tx " c")); repeat (apply quotable_char; [discriminate..|]); constructor.
    + apply arg_char; [discriminate..|]. apply (arg_paren (tx " #1, (2.0, $)")); [|constructor]. do 5 (apply inner_char; [discriminate..|]). apply (inner_paren (tx "2.0, $") []); repeat (apply inner_char; [discriminate..|]); constructor.
    + apply arg_char; [discriminate..|]. constructor.
  - repeat (apply Forall_cons; [intros H; vm_compute in H; try discriminate; reflexivity|]). apply Forall_nil.
Qed.

(** ** C52 *)
Theorem C52_set_to_list_splits_at_commas l : l <> [] -> Forall (fun a => ~ In "," a) l -> forall o c, o <> "," -> c <> "," ->
  set_to_list (o :: join (tx ",") l ++ [c]) = l.
Proof. exact (set_to_list_spec l). Qed.
Print Assumptions C52_set_to_list_splits_at_commas.
Theorem C52_identifier_lists_round_trip ids : ids <> [] -> set_to_list (tx "(" ++ step_ids_to_str ids ++ tx ")") = map (fun i => "#" :: dec i) ids.
Proof. exact (ids_round_trip ids). Qed.
Print Assumptions C52_identifier_lists_round_trip.
Theorem C52_identifiers_parse_back i : int_of (tl ("#" :: dec i)) = Ok i.
Proof. exact (ids_parse_back i). Qed.
Print Assumptions C52_identifiers_parse_back.
Theorem C52_empty_list_gives_an_empty_text : set_to_list (tx "(" ++ step_ids_to_str [] ++ tx ")") = [[]].
Proof. exact ids_empty. Qed.
Print Assumptions C52_empty_list_gives_an_empty_text.
Theorem C52_written_lists_are_step_ids_to_str l : l <> [] -> flat_map render_piece (id_pieces l) = step_ids_to_str l.
Proof. exact (written_text l). Qed.
Print Assumptions C52_written_lists_are_step_ids_to_str.
Example C52_nonvacuous : set_to_list (tx "(#12,#7)") = [tx "#12"; tx "#7"].
Proof. reflexivity. Qed.

Close Scope char_scope.
Open Scope string_scope.
Open Scope list_scope.
Open Scope Z_scope.
(** ** C53 *)
Theorem C53_product_writer_fresh_ids c name : let '(l, c') := product_writer c name in
  ids l = map (fun k => c + Z.of_nat k) (seq 1 7) /\ c' = c + 7 /\ forall e r, In e l -> In r (refs e) -> r = 2 \/ In r (ids l) \/ r = c' + 1.
Proof. exact (product_writer_ids c name). Qed.
Print Assumptions C53_product_writer_fresh_ids.
Theorem C53_geometric_context_writer_fresh_ids c : let '(l, c') := geometric_context_writer c in
  ids l = map (fun k => c + Z.of_nat k) (seq 1 5) /\ c' = c + 5 /\ forall e r, In e l -> In r (refs e) -> In r (ids l).
Proof. exact (context_writer_ids c). Qed.
Print Assumptions C53_geometric_context_writer_fresh_ids.
Theorem C53_assembly_definition_writer_fresh_ids c rep pd crep cpd f0 f : let '(l, c') := assembly_definition_writer c (rep, pd) (crep, cpd) f0 f in
  ids l = map (fun k => c + Z.of_nat k) (seq 1 5) /\ c' = c + 5 /\ forall e r, In e l -> In r (refs e) -> In r (ids l) \/ In r [rep; pd; crep; cpd; f0; f].
Proof. exact (assembly_writer_ids c rep pd crep cpd f0 f). Qed.
Print Assumptions C53_assembly_definition_writer_fresh_ids.
Theorem C53_the_context_assigns_the_three_units n : exists ctx, In ctx (fst (geometric_context_writer n)) /\ e_id ctx = snd (geometric_context_writer n) /\ says ctx "GLOBAL_UNIT_ASSIGNED_CONTEXT" /\
  forall w, In w ["LENGTH_UNIT"; "PLANE_ANGLE_UNIT"; "SOLID_ANGLE_UNIT"]%string ->
    exists e, In e (fst (geometric_context_writer n)) /\ In (e_id e) (refs ctx) /\ says e w.
Proof. exact (context_units n). Qed.
Print Assumptions C53_the_context_assigns_the_three_units.
Example C53_nonvacuous : ids (fst (product_writer 2 "part")) = [3; 4; 5; 6; 7; 8; 9].
Proof. reflexivity. Qed.

(** ** C80 whole export *)
Theorem C80_export_is_closed_consistent_and_denotes_the_model ps l : Forall wf_primitive ps -> model_step ps = Ok l ->
  closed l /\ consistent l /\ Forall (fun p => exists rep pd, d_primitive l rep pd p) ps.
Proof. exact (model_export ps l). Qed.
Print Assumptions C80_export_is_closed_consistent_and_denotes_the_model.
(** Missing: assemblies that contain compounds or assemblies, for which it is false. *)
Theorem C80_unique_ids_without_nested_assemblies ps l : Forall wf_primitive ps -> Forall flat_primitive ps -> model_step ps = Ok l -> unique_ids l.
Proof. exact (model_unique ps l). Qed.
Print Assumptions C80_unique_ids_without_nested_assemblies.
Theorem C175_nested_components_are_written_twice_refuted : exists p l, wf_primitive p /\ model_step [p] = Ok l /\ ~ unique_ids l.
Proof. exact nested_duplicates. Qed.
Print Assumptions C175_nested_components_are_written_twice_refuted.
Theorem C80_export_succeeds_exactly_on_exportable_models ps : (exists l, model_step ps = Ok l) <-> Forall exportable ps.
Proof. exact (model_ok ps). Qed.
Print Assumptions C80_export_succeeds_exactly_on_exportable_models.
Theorem C175_some_closed_shells_cannot_be_exported_refuted : exists s, wf_shell s /\ s_closed s = true /\ model_step [PShell s] = Err ValueError.
Proof. exact sphere_refused. Qed.
Print Assumptions C175_some_closed_shells_cannot_be_exported_refuted.
Theorem C175_compound_drops_members_refuted : exists s t, wf_shell s /\ wf_shell t /\ s_faces t <> [] /\ model_step [PCompound "c" [s; t]] = model_step [PCompound "c" [s]].
Proof. exact compound_drops. Qed.
Print Assumptions C175_compound_drops_members_refuted.
Theorem C80_compound_writes_plain_shells_only name ms c : primitive_step (PCompound name ms) c = primitive_step (PCompound name (written_members ms)) c.
Proof. exact (compound_written name ms c). Qed.
Print Assumptions C80_compound_writes_plain_shells_only.
Theorem C175_to_step_face_ids_dangling_reference_refuted : exists s c, wf_shell s /\ c > 7 /\ let '(l, _, _) := shell_face_ids_step s c in ~ closed l.
Proof. exact face_ids_dangling. Qed.
Print Assumptions C175_to_step_face_ids_dangling_reference_refuted.
Theorem C80_the_file_has_one_statement_per_line l : (forall e, In e l -> one_line (statement e)) -> lines (render_all l) = map statement l ++ [[]].
Proof. exact (rendered_lines l). Qed.
Print Assumptions C80_the_file_has_one_statement_per_line.
Theorem C80_vector2d_refers_to_itself v c : exists e, In e (fst (vector2d_step v c true)) /\ In (e_id e) (refs e).
Proof. exact (vector2d_self v c). Qed.
Print Assumptions C80_vector2d_refers_to_itself.
Example C80_nonvacuous :
  let p s := SPoint "" s in let v := SVector "" "0.0,0.0,1.0" "1.0" in let f := SFrame "f" (p "0.0,0.0,0.0") v v in
  let edge := BSplineEdge "b" "1" [p "0.0,0.0,0.0"; p "1.0,0.0,0.0"] "(2,2),(0.0,1.0)" (p "0.0,0.0,0.0") (p "1.0,0.0,0.0") in
  let face := SFace "a" (FrameSurface "PLANE" "" f "") (SContour "" [edge]) [SContour "" [FullArc "" f "1.0" (p "1.0,0.0,0.0")]] in
  let shell := SShell "box" true false true false "0.8,0.8,0.8" [face; face] in
  let ps := [PShell shell; PAssembly "asm" f [f; f] [PShell shell; PShell shell]] in
  Forall wf_primitive ps /\ Forall flat_primitive ps /\ Forall exportable ps.
Proof. cbn. repeat split; repeat constructor; cbn; try discriminate; auto. Qed.

