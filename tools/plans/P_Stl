(** C163-C165: STL files of stl.py (statements only). *)
From Coq Require Import Lia List Bool ZArith.
From Verif.Model Require Import Base StepText Stl.
From Verif.Spec Require Import StlSpec.
From Verif.Proofs Require Import StlP StlP2 StlP3.
Import ListNotations.
Open Scope Z_scope.

(** ** C163: binary files *)
@save_load C163_binary_round_trip
@save_total C163_every_mesh_below_2_to_the_32_triangles_is_saved
@save_too_many C163_too_many_triangles_are_refused
@pad_short C163_the_name_is_padded_with_zeros
@truncated C163_a_truncated_file_is_refused
@clean_flat_filter C163_clean_flat_triangles
Definition T1 : stl_triangle := ((0, 0, 0), (1065353216, 0, 0), (0, 1065353216, 0)).
Example C163_nonvacuous : Forall pattern_triangle [T1; T1] /\ exists s, stl_save [112; 49] [T1; T1] = Ok s /\ length s = 184%nat.
Proof. split; [repeat constructor; cbn; unfold pattern; lia|]. apply (save_total [112; 49] [T1; T1]). cbn. lia. Qed.

(** ** C164: text files *)
@load_text C164_text_files_are_read
@facet_too_short C164_a_facet_with_fewer_than_three_vertices_is_refused
Open Scope char_scope.
Definition one_facet : list text :=
  [tx "facet normal 0 0 1" ++ [LF]; tx "vertex 0 0 0" ++ [LF]; tx "  vertex 1e0  0 0" ++ [LF]; tx "vertex 0 1.0 0" ++ [LF]; tx "endfacet" ++ [LF]].
Example C164_nonvacuous : describes [((tx "0", tx "0", tx "0"), (tx "1e0", tx "0", tx "0"), (tx "0", tx "1.0", tx "0"))] one_facet.
Proof.
  assert (O : other_line (tx "facet normal 0 0 1" ++ [LF])) by (split; apply contains_false; reflexivity).
  apply (D_facet _ _ _ [] [tx "facet normal 0 0 1" ++ [LF]] [] [] []); try (constructor; fail); try (repeat split; try discriminate; repeat constructor; cbn; tauto); try (constructor; [exact O|constructor]).
  - exists 0%nat, 0%nat, 0%nat, 0%nat. reflexivity.
  - exists 2%nat, 0%nat, 1%nat, 0%nat. reflexivity.
  - exists 0%nat, 0%nat, 0%nat, 0%nat. reflexivity.
  - split; [apply contains_false|apply contains_spec]; reflexivity.
Qed.
Close Scope char_scope.

(** ** C165: names, indentation *)
@name_wrong C165_the_name_survives_a_binary_file_refuted it comes back padded with zeros
@text_name C165_the_name_of_a_text_file_keeps_its_line_feed
@tab_wrong C165_indentation_by_tabs_is_accepted_refuted the reader raises ValueError
@trailing_wrong C165_trailing_spaces_are_accepted_refuted
