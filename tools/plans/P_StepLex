(** C233-C239: the text of STEP files (statements only). *)
From Coq Require Import List ZArith.
From Verif.Model Require Import StepText StepLex.
From Verif.Spec Require Import StepLexSpec.
From Verif.Proofs Require Import StepTextP StepLexP StepLexP2 StepLexP3 StepLexP4.
Import ListNotations.
Open Scope list_scope.
Open Scope char_scope.

(** ** C233: simple statements *)
@labelled C233_a_statement_with_a_label_is_read_as_written
@unlabelled C233_a_statement_without_label_is_read_as_written
Example C233_nonvacuous : let args := [One (Rf 7); Toks [tx "1.5"; tx "-2.E-3"; tx "0."]; Refs [8; 12]; Table [[Rf 3; Rf 4]; [Rf 5; Rf 6]]; One (Tok (tx ".T."))] in
  args_ok args /\ keyword (tx "SOME_ENTITY") /\
  statement 42 [] (tx " ") (tx "SOME_ENTITY") ("'" :: tx "a (small) label" ++ "'" :: "," :: commas (map arg_text args))
  = tx "#42= SOME_ENTITY('a (small) label',#7,(1.5,-2.E-3,0.),(#8,#12),((#3,#4),(#5,#6)),.T.);".
Proof.
  cbv zeta. split; [|split; [|vm_compute; reflexivity]].
  - assert (P : forall t, t <> [] -> forallb (fun c => negb (existsb (Ascii.eqb c) (tx ",()'#; ")) && negb (is_space c)) t = true -> plain t).
    { intros t N H. split; [exact N|]. apply Forall_forall. intros c C. apply (proj1 (forallb_forall _ _) H) in C. apply andb_prop in C as [C S]. apply Bool.negb_true_iff in S.
      repeat split; try exact S; intros ->; discriminate C. }
    split; [discriminate|]. split.
    + repeat constructor; cbn; try discriminate; try (apply P; [discriminate|reflexivity]).
    + right. exists [One (Rf 7); Toks [tx "1.5"; tx "-2.E-3"; tx "0."]; Refs [8; 12]], (Table [[Rf 3; Rf 4]; [Rf 5; Rf 6]]), [One (Tok (tx ".T."))].
      split; [reflexivity|]. split; [exact I|]. split; intros a A; repeat (destruct A as [<- | A]; [cbn; tauto|]); destruct A.
  - split; [discriminate|]. apply Forall_forall. intros c C. repeat (destruct C as [<- | C]; [split; discriminate|]). destruct C.
Qed.

(** ** C234: complex statements *)
@complex C234_the_parts_of_a_complex_entity_are_read_as_written
Example C234_nonvacuous : exists f, read_statement (complex_statement 9 [] [] [(tx "LENGTH_UNIT", []); (tx "NAMED_UNIT", [One (Rf 4)]); (tx "SI_UNIT", [One (Tok (tx "$")); One (Tok (tx ".METRE."))])]) = Ok f /\
  fun_name f = tx "LENGTH_UNIT, NAMED_UNIT, SI_UNIT" /\ fun_args f = [Arg (tx "#4"); Arg (tx "$"); Arg (tx ".METRE.")] /\ fun_connections f = [4%Z].
Proof. eexists. split; [vm_compute; reflexivity|]. vm_compute. auto. Qed.

(** ** C235: every reference of a complex statement is one of its connections (refuted) *)
@complex_table_refuted C235_the_references_in_a_list_of_lists_are_lost_refuted

(** ** C236: lines *)
@statements_groups C236_the_statements_do_not_depend_on_the_line_breaks
@read_lines_ok C236_the_entities_of_a_file
@read_lines_err C236_the_first_statement_that_fails
Example C236_nonvacuous : cut_in_lines (tx "#1=A('x',2);") [tx "#1=A("; []; tx "'x',2);"] /\ cut_in_lines (tx "DATA;") [tx "DATA;"] /\
  exists f, read_lines (concat [[tx "DATA;"]; [tx "#1=A("; []; tx "'x',2);"]] ++ [tx "rest"]) = Ok [f] /\ fun_id f = 1%Z /\ fun_args f = [Arg (tx "'x'"); Arg (tx "2")].
Proof.
  split; [|split].
  - exists [tx "#1=A("; []], (tx "'x',2);"). split; [reflexivity|]. split; [reflexivity|]. split; [|reflexivity]. intros x [<- | [<- | []]]; reflexivity.
  - exists [], (tx "DATA;"). split; [reflexivity|]. split; [reflexivity|]. split; [|reflexivity]. intros x [].
  - eexists. split; [vm_compute; reflexivity|]. split; reflexivity.
Qed.

(** ** C237: strings as written (refuted) *)
@quoted_spaces_refuted C237_the_blanks_of_a_single_string_are_lost_refuted
@quoted_comma_refuted C237_a_comma_in_the_last_string_cuts_it_refuted
@quoted_table_refuted C237_a_string_before_a_list_of_lists_keeps_its_comma_refuted

(** ** C238: references in strings (refuted) *)
@quoted_hash_refuted C238_a_hash_in_a_string_is_a_connection_refuted
@quoted_hash_error_refuted C238_a_hash_in_a_string_makes_the_reading_fail_refuted

(** ** C239: the layout of a file (refuted) *)
@indented_refuted C239_an_indented_statement_is_lost_refuted
@two_on_a_line_refuted C239_the_second_statement_of_a_line_is_lost_refuted
