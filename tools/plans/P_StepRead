(** C229-C232: the order and the loop in which the entities of a STEP file are made (statements only). *)
From Coq Require Import List ZArith Bool Lia.
From Verif.Model Require Import Base StepRead.
From Verif.Spec Require Import StepReadSpec.
From Verif.Proofs Require Import StepReadP.
Import ListNotations.
Open Scope Z_scope.

(** ** C229: the list of the entities to make *)
@node_list_ok C229_every_known_entity_that_is_met_is_listed_once_those_without_references_first
@node_list_dangling C229_a_reference_to_no_entity_is_a_KeyError
Example C229_nonvacuous : let file := [(1, SFun true [3; 2]); (2, SFun true [3]); (3, SFun true [4; 5]); (4, SFun true []); (5, SFun false [1])] in
  (forall x, met file [1] x -> find_function file x <> None) /\ create_node_list file 9 [1] = Ok [4; 2; 3; 1].
Proof.
  cbv zeta. split; [|reflexivity]. intros x M. assert (G : In x [1; 2; 3; 4; 5]).
  { induction M as [x [<- | []] | m x f _ IH F K C]; [left; reflexivity|].
    cbn [In] in IH. destruct IH as [<- | [<- | [<- | [<- | [<- | []]]]]]; cbn in F; injection F as <-; cbn in C, K; try discriminate K; cbn; intuition subst; tauto. }
  cbn [In] in G. destruct G as [<- | [<- | [<- | [<- | [<- | []]]]]]; discriminate.
Qed.

(** ** C230: the list in dependency order (refuted) *)
@node_list_order_refuted C230_an_entity_before_one_it_refers_to_refuted

(** ** C231: the objects *)
@helper_ok C231_an_entity_is_made_with_all_that_it_refers_to
@all_ok C231_every_entity_of_the_list_is_made_in_whatever_order
@failing C231_an_entity_that_fails_stops_the_reading
Example C231_nonvacuous : let deps := fun i => if i =? 1 then Some [2; 3] else if i =? 2 then Some [3] else if i =? 3 then Some [] else None in
  let make := fun i (vs : list Z) => Ok (i + 10 * fold_right Z.add 0 vs) in
  sound deps make (fun _ => None) /\ object_of deps make 1 351 /\ exists o, helper_instantiate deps make 9 1 (fun _ => None) = Ok o /\ o 1 = Some 351 /\ o 2 = Some 32.
Proof.
  cbv zeta. split; [intros i v E; discriminate E|]. split.
  - exists 3%nat. cbn [built]. exists [2; 3], [32; 3]. split; [reflexivity|]. split; [|reflexivity]. constructor; [|constructor; [|constructor]].
    + exists [3], [3]. split; [reflexivity|]. split; [|reflexivity]. constructor; [|constructor]. exists [], []. split; [reflexivity|]. split; [constructor|reflexivity].
    + exists [], []. split; [reflexivity|]. split; [constructor|reflexivity].
  - eexists. vm_compute. repeat split.
Qed.

(** ** C232: references to no entity and circular references are reported (refuted) *)
@dangling_file_refuted C232_a_reference_to_no_entity_loops_for_ever_refuted
@cycle_file_refuted C232_two_entities_that_refer_to_each_other_loop_for_ever_refuted
@dangling_refuted C232_every_reference_to_no_entity_loops_for_ever
@cycle_refuted C232_every_pair_of_circular_references_loops_for_ever
