(** C51-C53, C80: STEP texts and the STEP export (statements only). *)
From Verif.Model Require Import StepText StepWrite.
From Verif.Spec Require Import StepTextSpec StepFileSpec StepLineSpec.
From Verif.Proofs Require Import StepTextP StepWriteP StepModelP StepModelP2 StepLineP StepExP.
Open Scope char_scope.

(** ** C51 *)
@split_special_spec C51_arguments_split_at_top_level_commas Missing: strings with unmatched parentheses, for which it is false.
@split_special_paren_in_string C153_parenthesis_in_a_string_refuted
@split_special_no_final C51_last_parenthesised_argument_lost_without_final_parenthesis
Example C51_nonvacuous : Forall argument_text [tx "'a, (b) c'"; tx " ( #1, (2.0, $))"; tx "*"] /\ only_spaces (join (tx ",") [tx "'a, (b) c'"; tx " ( #1, (2.0, $))"; tx "*"]).
Proof.
  split.
  - constructor; [|constructor; [|constructor; [|constructor]]].
    + apply (arg_quote (tx "a, (b) c")); [|constructor]. do 3 (apply quotable_char; [discriminate..|]). apply (quotable_paren (tx "b") (tx " c")); repeat (apply quotable_char; [discriminate..|]); constructor.
    + apply arg_char; [discriminate..|]. apply (arg_paren (tx " #1, (2.0, $)")); [|constructor]. do 5 (apply inner_char; [discriminate..|]). apply (inner_paren (tx "2.0, $") []); repeat (apply inner_char; [discriminate..|]); constructor.
    + apply arg_char; [discriminate..|]. constructor.
  - repeat (apply Forall_cons; [intros H; vm_compute in H; try discriminate; reflexivity|]). apply Forall_nil.
Qed.

(** ** C52 *)
@set_to_list_spec C52_set_to_list_splits_at_commas
@ids_round_trip C52_identifier_lists_round_trip
@ids_parse_back C52_identifiers_parse_back
@ids_empty C52_empty_list_gives_an_empty_text
@written_text C52_written_lists_are_step_ids_to_str
Example C52_nonvacuous : set_to_list (tx "(#12,#7)") = [tx "#12"; tx "#7"].
Proof. reflexivity. Qed.

Close Scope char_scope.
Open Scope string_scope.
Open Scope list_scope.
Open Scope Z_scope.
(** ** C53 *)
@product_writer_ids C53_product_writer_fresh_ids
@context_writer_ids C53_geometric_context_writer_fresh_ids
@assembly_writer_ids C53_assembly_definition_writer_fresh_ids
@context_units C53_the_context_assigns_the_three_units
Example C53_nonvacuous : ids (fst (product_writer 2 "part")) = [3; 4; 5; 6; 7; 8; 9].
Proof. reflexivity. Qed.

(** ** C80 whole export *)
@model_export C80_export_is_closed_consistent_and_denotes_the_model
@model_unique C80_unique_ids_without_nested_assemblies Missing: assemblies that contain compounds or assemblies, for which it is false.
@nested_duplicates C175_nested_components_are_written_twice_refuted
@model_ok C80_export_succeeds_exactly_on_exportable_models
@sphere_refused C175_some_closed_shells_cannot_be_exported_refuted
@compound_drops C175_compound_drops_members_refuted
@compound_written C80_compound_writes_plain_shells_only
@face_ids_dangling C175_to_step_face_ids_dangling_reference_refuted
@rendered_lines C80_the_file_has_one_statement_per_line
@vector2d_self C80_vector2d_refers_to_itself
Example C80_nonvacuous :
  let p s := SPoint "" s in let v := SVector "" "0.0,0.0,1.0" "1.0" in let f := SFrame "f" (p "0.0,0.0,0.0") v v in
  let edge := BSplineEdge "b" "1" [p "0.0,0.0,0.0"; p "1.0,0.0,0.0"] "(2,2),(0.0,1.0)" (p "0.0,0.0,0.0") (p "1.0,0.0,0.0") in
  let face := SFace "a" (FrameSurface "PLANE" "" f "") (SContour "" [edge]) [SContour "" [FullArc "" f "1.0" (p "1.0,0.0,0.0")]] in
  let shell := SShell "box" true false true false "0.8,0.8,0.8" [face; face] in
  let ps := [PShell shell; PAssembly "asm" f [f; f] [PShell shell; PShell shell]] in
  Forall wf_primitive ps /\ Forall flat_primitive ps /\ Forall exportable ps.
Proof. cbn. repeat split; repeat constructor; cbn; try discriminate; auto. Qed.
