(** C233-C239: the text of STEP files (statements only). *)
From Coq Require Import List ZArith.
From Verif.Model Require Import StepText StepLex.
From Verif.Spec Require Import StepLexSpec.
From Verif.Proofs Require Import StepTextP StepLexP StepLexP2 StepLexP3 StepLexP4.
Import ListNotations.
Open Scope list_scope.
Open Scope char_scope.

(** ** C233: simple statements *)
Theorem C233_a_statement_with_a_label_is_read_as_written id b1 b2 name label args : blanks b1 -> blanks b2 -> keyword name -> ~ In "'" label -> args_ok args ->
  read_statement (statement id b1 b2 name ("'" :: label ++ "'" :: "," :: commas (map arg_text args)))
  = Ok (Function id name (Arg ("'" :: label ++ ["'"]) :: map arg_read args) (concat (map arg_refs args) ++ concat (map list_refs args))).
Proof. exact (labelled id b1 b2 name label args). Qed.
Print Assumptions C233_a_statement_with_a_label_is_read_as_written.
Theorem C233_a_statement_without_label_is_read_as_written id b1 b2 name args : blanks b1 -> blanks b2 -> keyword name -> args_ok args -> unquoted_first args ->
  read_statement (statement id b1 b2 name (commas (map arg_text args)))
  = Ok (Function id name (map arg_read args) (concat (map arg_refs args) ++ concat (map list_refs args))).
Proof. exact (unlabelled id b1 b2 name args). Qed.
Print Assumptions C233_a_statement_without_label_is_read_as_written.
Example C233_nonvacuous : let args := [One (Rf 7); Toks [tx "1.5"; tx "-2.E-3"; tx "0."]; Refs [8; 12]; Table [[Rf 3; Rf 4]; [Rf 5; Rf 6]]; One (Tok (tx ".T."))] in
  args_ok args /\ keyword (tx "SOME_ENTITY") /\
  statement 42 [] (tx " ") (tx "SOME_ENTITY") ("'" :: tx "a (small) label" ++ "'" :: "," :: commas (map arg_text args))
  = tx "#42= SOME_ENTITY('a (small) label',#7,(1.5,-2.E-3,0.),(#8,#12),((#3,#4),(#5,#6)),.T.);".
Proof.
  cbv zeta. split; [|split; [|vm_compute; reflexivity]].
  - assert (P : forall t, t <> [] -> forallb (fun c => negb (existsb (Ascii.eqb c) (tx ",()'#; ")) && negb (is_space c)) t = true -> plain t).
    { intros t N H. split; [exact N|]. apply Forall_forall. intros c C. apply (proj1 (forallb_forall _ _) H) in C. apply andb_prop in C as [C S]. apply Bool.negb_true_iff in S.
      repeat split; try exact S; intros ->; discriminate C. }
    split; [discriminate|]. split.
    + repeat constructor; cbn; try discriminate; try (apply P; [discriminate|reflexivity]).
    + right. exists [One (Rf 7); Toks [tx "1.5"; tx "-2.E-3"; tx "0."]; Refs [8; 12]], (Table [[Rf 3; Rf 4]; [Rf 5; Rf 6]]), [One (Tok (tx ".T."))].
      split; [reflexivity|]. split; [exact I|]. split; intros a A; repeat (destruct A as [<- | A]; [cbn; tauto|]); destruct A.
  - split; [discriminate|]. apply Forall_forall. intros c C. repeat (destruct C as [<- | C]; [split; discriminate|]). destruct C.
Qed.

(** ** C234: complex statements *)
Theorem C234_the_parts_of_a_complex_entity_are_read_as_written id b1 b2 parts : blanks b1 -> blanks b2 -> Forall part_ok parts ->
  read_statement (complex_statement id b1 b2 parts)
  = Ok (Function id (join (tx ", ") (map fst parts)) (map arg_read (flat_map snd parts)) (concat (map direct_refs (flat_map snd parts)) ++ concat (map list_refs (flat_map snd parts)))).
Proof. exact (complex id b1 b2 parts). Qed.
Print Assumptions C234_the_parts_of_a_complex_entity_are_read_as_written.
Example C234_nonvacuous : exists f, read_statement (complex_statement 9 [] [] [(tx "LENGTH_UNIT", []); (tx "NAMED_UNIT", [One (Rf 4)]); (tx "SI_UNIT", [One (Tok (tx "$")); One (Tok (tx ".METRE."))])]) = Ok f /\
  fun_name f = tx "LENGTH_UNIT, NAMED_UNIT, SI_UNIT" /\ fun_args f = [Arg (tx "#4"); Arg (tx "$"); Arg (tx ".METRE.")] /\ fun_connections f = [4%Z].
Proof. eexists. split; [vm_compute; reflexivity|]. vm_compute. auto. Qed.

(** ** C235: every reference of a complex statement is one of its connections (refuted) *)
Theorem C235_the_references_in_a_list_of_lists_are_lost_refuted : exists f, read_statement (complex_statement 10 [] [] [(tx "BOUNDED_SURFACE", []); (tx "B_SPLINE_SURFACE", [One (Tok (tx "3")); Table [[Rf 11; Rf 12]; [Rf 13; Rf 14]]])]) = Ok f /\ fun_connections f = [].
Proof. exact complex_table_refuted. Qed.
Print Assumptions C235_the_references_in_a_list_of_lists_are_lost_refuted.

(** ** C236: lines *)
Theorem C236_the_statements_do_not_depend_on_the_line_breaks ss groups rest : Forall2 cut_in_lines ss groups -> (forall x, In x rest -> last_is ";" (clean x) = false) ->
  statements (concat groups ++ rest) [] = filter starts_hash ss.
Proof. exact (statements_groups ss groups rest). Qed.
Print Assumptions C236_the_statements_do_not_depend_on_the_line_breaks.
Theorem C236_the_entities_of_a_file ss groups rest fs : Forall2 cut_in_lines ss groups -> (forall x, In x rest -> last_is ";" (clean x) = false) ->
  Forall2 (fun s f => read_statement s = Ok f) (filter starts_hash ss) fs -> read_lines (concat groups ++ rest) = Ok fs.
Proof. exact (read_lines_ok ss groups rest fs). Qed.
Print Assumptions C236_the_entities_of_a_file.
Theorem C236_the_first_statement_that_fails ss groups rest pre s post fs e : Forall2 cut_in_lines ss groups -> (forall x, In x rest -> last_is ";" (clean x) = false) ->
  filter starts_hash ss = pre ++ s :: post -> Forall2 (fun s f => read_statement s = Ok f) pre fs -> read_statement s = Err e -> read_lines (concat groups ++ rest) = Err e.
Proof. exact (read_lines_err ss groups rest pre s post fs e). Qed.
Print Assumptions C236_the_first_statement_that_fails.
Example C236_nonvacuous : cut_in_lines (tx "#1=A('x',2);") [tx "#1=A("; []; tx "'x',2);"] /\ cut_in_lines (tx "DATA;") [tx "DATA;"] /\
  exists f, read_lines (concat [[tx "DATA;"]; [tx "#1=A("; []; tx "'x',2);"]] ++ [tx "rest"]) = Ok [f] /\ fun_id f = 1%Z /\ fun_args f = [Arg (tx "'x'"); Arg (tx "2")].
Proof.
  split; [|split].
  - exists [tx "#1=A("; []], (tx "'x',2);"). split; [reflexivity|]. split; [reflexivity|]. split; [|reflexivity]. intros x [<- | [<- | []]]; reflexivity.
  - exists [], (tx "DATA;"). split; [reflexivity|]. split; [reflexivity|]. split; [|reflexivity]. intros x [].
  - eexists. split; [vm_compute; reflexivity|]. split; reflexivity.
Qed.

(** ** C237: strings as written (refuted) *)
Theorem C237_the_blanks_of_a_single_string_are_lost_refuted : exists s f, s = tx "#2=APPLICATION_CONTEXT('automotive design');" /\ read_statement s = Ok f /\ fun_args f = [Arg (tx "'automotivedesign'")].
Proof. exact quoted_spaces_refuted. Qed.
Print Assumptions C237_the_blanks_of_a_single_string_are_lost_refuted.
Theorem C237_a_comma_in_the_last_string_cuts_it_refuted : exists s f, s = tx "#2=DESCRIPTIVE('a',#1,'p,q');" /\ read_statement s = Ok f /\ fun_args f = [Arg (tx "'a'"); Arg (tx "#1"); Arg (tx "'p"); Arg (tx "q'")].
Proof. exact quoted_comma_refuted. Qed.
Print Assumptions C237_a_comma_in_the_last_string_cuts_it_refuted.
Theorem C237_a_string_before_a_list_of_lists_keeps_its_comma_refuted : exists s f, s = tx "#4=B(3,'x',((#1,#2),(#3,#4)));" /\ read_statement s = Ok f /\ In (Arg (tx "'x',")) (fun_args f).
Proof. exact quoted_table_refuted. Qed.
Print Assumptions C237_a_string_before_a_list_of_lists_keeps_its_comma_refuted.

(** ** C238: references in strings (refuted) *)
Theorem C238_a_hash_in_a_string_is_a_connection_refuted : exists s f, s = tx "#17=A('x',#3,'p #2, left');" /\ read_statement s = Ok f /\ fun_connections f = [3; 2]%Z.
Proof. exact quoted_hash_refuted. Qed.
Print Assumptions C238_a_hash_in_a_string_is_a_connection_refuted.
Theorem C238_a_hash_in_a_string_makes_the_reading_fail_refuted : exists s, s = tx "#17=A('x',#3,'part #B, left');" /\ read_statement s = Err ValueError.
Proof. exact quoted_hash_error_refuted. Qed.
Print Assumptions C238_a_hash_in_a_string_makes_the_reading_fail_refuted.

(** ** C239: the layout of a file (refuted) *)
Theorem C239_an_indented_statement_is_lost_refuted : exists fs, read_lines [tx "#17=A('x',#3);"; tx " #18=B('y',#1);"] = Ok fs /\ map fun_id fs = [17]%Z.
Proof. exact indented_refuted. Qed.
Print Assumptions C239_an_indented_statement_is_lost_refuted.
Theorem C239_the_second_statement_of_a_line_is_lost_refuted : exists fs, read_lines [tx "#1=A('x',2);#2=B('y',3);"] = Ok fs /\ map fun_id fs = [1]%Z.
Proof. exact two_on_a_line_refuted. Qed.
Print Assumptions C239_the_second_statement_of_a_line_is_lost_refuted.

