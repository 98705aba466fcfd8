(** C229-C232: the order and the loop in which the entities of a STEP file are made (statements only). *)
From Coq Require Import List ZArith Bool Lia.
From Verif.Model Require Import Base StepRead.
From Verif.Spec Require Import StepReadSpec.
From Verif.Proofs Require Import StepReadP.
Import ListNotations.
Open Scope Z_scope.

(** ** C229: the list of the entities to make *)
Theorem C229_every_known_entity_that_is_met_is_listed_once_those_without_references_first file initial fuel : (length initial + connections_of file < fuel)%nat -> (forall x, met file initial x -> find_function file x <> None) ->
  exists heads nodes, create_node_list file fuel initial = Ok (heads ++ nodes) /\ NoDup (heads ++ nodes) /\
    (forall x, In x (heads ++ nodes) <-> met file initial x /\ known file x) /\
    (forall x, In x heads -> exists f, find_function file x = Some f /\ f_connections f = []) /\
    (forall x, In x nodes -> exists f, find_function file x = Some f /\ f_connections f <> []).
Proof. exact (node_list_ok file initial fuel). Qed.
Print Assumptions C229_every_known_entity_that_is_met_is_listed_once_those_without_references_first.
Theorem C229_a_reference_to_no_entity_is_a_KeyError file initial fuel x : (length initial + connections_of file < fuel)%nat -> met file initial x -> find_function file x = None ->
  create_node_list file fuel initial = Err KeyError.
Proof. exact (node_list_dangling file initial fuel x). Qed.
Print Assumptions C229_a_reference_to_no_entity_is_a_KeyError.
Example C229_nonvacuous : let file := [(1, SFun true [3; 2]); (2, SFun true [3]); (3, SFun true [4; 5]); (4, SFun true []); (5, SFun false [1])] in
  (forall x, met file [1] x -> find_function file x <> None) /\ create_node_list file 9 [1] = Ok [4; 2; 3; 1].
Proof.
  cbv zeta. split; [|reflexivity]. intros x M. assert (G : In x [1; 2; 3; 4; 5]).
  { induction M as [x [<- | []] | m x f _ IH F K C]; [left; reflexivity|].
    cbn [In] in IH. destruct IH as [<- | [<- | [<- | [<- | [<- | []]]]]]; cbn in F; injection F as <-; cbn in C, K; try discriminate K; cbn; intuition subst; tauto. }
  cbn [In] in G. destruct G as [<- | [<- | [<- | [<- | [<- | []]]]]]; discriminate.
Qed.

(** ** C230: the list in dependency order (refuted) *)
Theorem C230_an_entity_before_one_it_refers_to_refuted : exists file initial fuel l, create_node_list file fuel initial = Ok l /\
  exists i j a b f, nth_error l i = Some a /\ nth_error l j = Some b /\ find_function file a = Some f /\ In b (f_connections f) /\ (i < j)%nat.
Proof. exact node_list_order_refuted. Qed.
Print Assumptions C230_an_entity_before_one_it_refers_to_refuted.

(** ** C231: the objects *)
Theorem C231_an_entity_is_made_with_all_that_it_refers_to {V} deps (make : Z -> list V -> res V) o node v : sound deps make o -> object_of deps make node v ->
  exists N o', (forall fuel, (N <= fuel)%nat -> helper_instantiate deps make fuel node o = Ok o') /\ sound deps make o' /\ extends o o' /\ o' node = Some v.
Proof. exact (helper_ok deps make o node v). Qed.
Print Assumptions C231_an_entity_is_made_with_all_that_it_refers_to.
Theorem C231_every_entity_of_the_list_is_made_in_whatever_order {V} deps (make : Z -> list V -> res V) nodes : forall o, sound deps make o -> (forall x, In x nodes -> exists v, object_of deps make x v) ->
  exists N o', (forall fuel, (N <= fuel)%nat -> instantiate_all deps make fuel nodes o = Ok o') /\ sound deps make o' /\ extends o o' /\ forall x, In x nodes -> o' x <> None.
Proof. exact (all_ok deps make nodes). Qed.
Print Assumptions C231_every_entity_of_the_list_is_made_in_whatever_order.
Theorem C231_an_entity_that_fails_stops_the_reading {V} deps (make : Z -> list V -> res V) i ds vs e (o : objects V) fuel : deps i = Some ds -> look_up o ds = inr vs -> make i vs = Err e -> (0 < fuel)%nat ->
  helper_instantiate deps make fuel i o = Err e.
Proof. exact (failing deps make i ds vs e o fuel). Qed.
Print Assumptions C231_an_entity_that_fails_stops_the_reading.
Example C231_nonvacuous : let deps := fun i => if i =? 1 then Some [2; 3] else if i =? 2 then Some [3] else if i =? 3 then Some [] else None in
  let make := fun i (vs : list Z) => Ok (i + 10 * fold_right Z.add 0 vs) in
  sound deps make (fun _ => None) /\ object_of deps make 1 351 /\ exists o, helper_instantiate deps make 9 1 (fun _ => None) = Ok o /\ o 1 = Some 351 /\ o 2 = Some 32.
Proof.
  cbv zeta. split; [intros i v E; discriminate E|]. split.
  - exists 3%nat. cbn [built]. exists [2; 3], [32; 3]. split; [reflexivity|]. split; [|reflexivity]. constructor; [|constructor; [|constructor]].
    + exists [3], [3]. split; [reflexivity|]. split; [|reflexivity]. constructor; [|constructor]. exists [], []. split; [reflexivity|]. split; [constructor|reflexivity].
    + exists [], []. split; [reflexivity|]. split; [constructor|reflexivity].
  - eexists. vm_compute. repeat split.
Qed.

(** ** C232: references to no entity and circular references are reported (refuted) *)
Theorem C232_a_reference_to_no_entity_loops_for_ever_refuted : exists (deps : Z -> option (list Z)) (make : Z -> list Z -> res Z), (forall i vs, exists v, make i vs = Ok v) /\
  deps 1 = Some [2] /\ deps 2 = None /\ forall fuel, helper_instantiate deps make fuel 1 (fun _ => None) = Err OutOfFuel.
Proof. exact dangling_file_refuted. Qed.
Print Assumptions C232_a_reference_to_no_entity_loops_for_ever_refuted.
Theorem C232_two_entities_that_refer_to_each_other_loop_for_ever_refuted : exists (deps : Z -> option (list Z)) (make : Z -> list Z -> res Z), (forall i vs, exists v, make i vs = Ok v) /\
  deps 1 = Some [2] /\ deps 2 = Some [1] /\ forall fuel, helper_instantiate deps make fuel 1 (fun _ => None) = Err OutOfFuel.
Proof. exact cycle_file_refuted. Qed.
Print Assumptions C232_two_entities_that_refer_to_each_other_loop_for_ever_refuted.
Theorem C232_every_reference_to_no_entity_loops_for_ever {V} deps (make : Z -> list V -> res V) i d ds (o : objects V) : deps i = Some (d :: ds) -> deps d = None -> o d = None ->
  forall fuel, helper_instantiate deps make fuel i o = Err OutOfFuel.
Proof. exact (dangling_refuted deps make i d ds o). Qed.
Print Assumptions C232_every_reference_to_no_entity_loops_for_ever.
Theorem C232_every_pair_of_circular_references_loops_for_ever {V} deps (make : Z -> list V -> res V) i j ds es (o : objects V) : deps i = Some (j :: ds) -> deps j = Some (i :: es) -> o i = None -> o j = None ->
  forall fuel, helper_instantiate deps make fuel i o = Err OutOfFuel.
Proof. exact (cycle_refuted deps make i j ds es o). Qed.
Print Assumptions C232_every_pair_of_circular_references_loops_for_ever.

