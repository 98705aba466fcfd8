(** C163-C165: STL files of stl.py (statements only). *)
From Coq Require Import Lia List Bool ZArith.
From Verif.Model Require Import Base StepText Stl.
From Verif.Spec Require Import StlSpec.
From Verif.Proofs Require Import StlP StlP2 StlP3.
Import ListNotations.
Open Scope Z_scope.

(** ** C163: binary files *)
Theorem C163_binary_round_trip valid name ts s : Forall pattern_triangle ts -> stl_save name ts = Ok s -> stl_load valid s = Ok (pad_name name, filter valid ts).
Proof. exact (save_load valid name ts s). Qed.
Print Assumptions C163_binary_round_trip.
Theorem C163_every_mesh_below_2_to_the_32_triangles_is_saved name ts : Z.of_nat (length ts) < 2 ^ 32 -> exists s, stl_save name ts = Ok s /\ length s = (84 + 50 * length ts)%nat.
Proof. exact (save_total name ts). Qed.
Print Assumptions C163_every_mesh_below_2_to_the_32_triangles_is_saved.
Theorem C163_too_many_triangles_are_refused name ts : 2 ^ 32 <= Z.of_nat (length ts) -> stl_save name ts = Err OverflowError.
Proof. exact (save_too_many name ts). Qed.
Print Assumptions C163_too_many_triangles_are_refused.
Theorem C163_the_name_is_padded_with_zeros name : (length name <= 80)%nat -> pad_name name = name ++ repeat 0 (80 - length name).
Proof. exact (pad_short name). Qed.
Print Assumptions C163_the_name_is_padded_with_zeros.
Theorem C163_a_truncated_file_is_refused valid name ts s k : Forall pattern_triangle ts -> stl_save name ts = Ok s -> (k < length s)%nat -> stl_load valid (firstn k s) = Err IndexError.
Proof. exact (truncated valid name ts s k). Qed.
Print Assumptions C163_a_truncated_file_is_refused.
Theorem C163_clean_flat_triangles {A} (flat : A -> bool) l : clean_flat flat l = filter (fun t => negb (flat t)) l.
Proof. exact (clean_flat_filter flat l). Qed.
Print Assumptions C163_clean_flat_triangles.
Definition T1 : stl_triangle := ((0, 0, 0), (1065353216, 0, 0), (0, 1065353216, 0)).
Example C163_nonvacuous : Forall pattern_triangle [T1; T1] /\ exists s, stl_save [112; 49] [T1; T1] = Ok s /\ length s = 184%nat.
Proof. split; [repeat constructor; cbn; unfold pattern; lia|]. apply (save_total [112; 49] [T1; T1]). cbn. lia. Qed.

(** ** C164: text files *)
Theorem C164_text_files_are_read is_float valid header ts ls : describes ts ls ->
  (forall p1 p2 p3 x y z, In (p1, p2, p3) ts -> In (x, y, z) [p1; p2; p3] -> (is_float x = true /\ is_float (x ++ [LF]) = true) /\ (is_float y = true /\ is_float (y ++ [LF]) = true) /\ (is_float z = true /\ is_float (z ++ [LF]) = true)) ->
  stl_load_text is_float valid (header :: ls) = Ok (skipn 6 header, filter valid ts).
Proof. exact (load_text is_float valid header ts ls). Qed.
Print Assumptions C164_text_files_are_read.
Theorem C164_a_facet_with_fewer_than_three_vertices_is_refused is_float valid header ts ls o1 ps vs o2 l rest : describes ts ls ->
  (forall p1 p2 p3 x y z, In (p1, p2, p3) ts -> In (x, y, z) [p1; p2; p3] -> (is_float x = true /\ is_float (x ++ [LF]) = true) /\ (is_float y = true /\ is_float (y ++ [LF]) = true) /\ (is_float z = true /\ is_float (z ++ [LF]) = true)) ->
  Forall other_line o1 -> Forall2 vertex_line ps vs -> Forall number_point ps ->
  (forall x y z, In (x, y, z) ps -> (is_float x = true /\ is_float (x ++ [LF]) = true) /\ (is_float y = true /\ is_float (y ++ [LF]) = true) /\ (is_float z = true /\ is_float (z ++ [LF]) = true)) ->
  (length ps < 3)%nat -> Forall other_line o2 -> end_line l ->
  stl_load_text is_float valid (header :: ls ++ o1 ++ vs ++ o2 ++ l :: rest) = Err IndexError.
Proof. exact (facet_too_short is_float valid header ts ls o1 ps vs o2 l rest). Qed.
Print Assumptions C164_a_facet_with_fewer_than_three_vertices_is_refused.
Open Scope char_scope.
Definition one_facet : list text :=
  [tx "facet normal 0 0 1" ++ [LF]; tx "vertex 0 0 0" ++ [LF]; tx "  vertex 1e0  0 0" ++ [LF]; tx "vertex 0 1.0 0" ++ [LF]; tx "endfacet" ++ [LF]].
Example C164_nonvacuous : describes [((tx "0", tx "0", tx "0"), (tx "1e0", tx "0", tx "0"), (tx "0", tx "1.0", tx "0"))] one_facet.
Proof.
  assert (O : other_line (tx "facet normal 0 0 1" ++ [LF])) by (split; apply contains_false; reflexivity).
  apply (D_facet _ _ _ [] [tx "facet normal 0 0 1" ++ [LF]] [] [] []); try (constructor; fail); try (repeat split; try discriminate; repeat constructor; cbn; tauto); try (constructor; [exact O|constructor]).
  - exists 0%nat, 0%nat, 0%nat, 0%nat. reflexivity.
  - exists 2%nat, 0%nat, 1%nat, 0%nat. reflexivity.
  - exists 0%nat, 0%nat, 0%nat, 0%nat. reflexivity.
  - split; [apply contains_false|apply contains_spec]; reflexivity.
Qed.
Close Scope char_scope.

(** ** C165: names, indentation *)
(** it comes back padded with zeros *)
Theorem C165_the_name_survives_a_binary_file_refuted : exists name s nm, Forall byte name /\ (length name <= 80)%nat /\ stl_save name [] = Ok s /\ stl_load (fun _ => true) s = Ok (nm, []) /\ nm <> name.
Proof. exact name_wrong. Qed.
Print Assumptions C165_the_name_survives_a_binary_file_refuted.
Theorem C165_the_name_of_a_text_file_keeps_its_line_feed is_float valid name : stl_load_text is_float valid [tx "solid " ++ name ++ [LF]] = Ok (name ++ [LF], []).
Proof. exact (text_name is_float valid name). Qed.
Print Assumptions C165_the_name_of_a_text_file_keeps_its_line_feed.
(** the reader raises ValueError *)
Theorem C165_indentation_by_tabs_is_accepted_refuted is_float valid : stl_load_text is_float valid [tx "solid a" ++ [LF]; tx "facet normal 0 0 1" ++ [LF]; tx "outer loop" ++ [LF]; TAB :: tx "vertex 0 0 0" ++ [LF]; TAB :: tx "vertex 1 0 0" ++ [LF]; TAB :: tx "vertex 0 1 0" ++ [LF]; tx "endloop" ++ [LF]; tx "endfacet" ++ [LF]] = Err ValueError.
Proof. exact (tab_wrong is_float valid). Qed.
Print Assumptions C165_indentation_by_tabs_is_accepted_refuted.
Theorem C165_trailing_spaces_are_accepted_refuted is_float valid : stl_load_text is_float valid [tx "solid a" ++ [LF]; tx "vertex 0 0 0 " ++ [LF]] = Err ValueError.
Proof. exact (trailing_wrong is_float valid). Qed.
Print Assumptions C165_trailing_spaces_are_accepted_refuted.

