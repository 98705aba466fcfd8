From Coq Require Import List Bool Arith Lia.
From Verif.Model Require Import Periodic.
Import ListNotations.

Lemma first_times_in {A} (eqb : A -> A -> bool) l : (forall a b, eqb a b = true <-> a = b) -> forall seen a, In a (first_times eqb seen l) <-> In a l /\ ~ In a seen.
Proof.
  intros Q. assert (EX : forall a l, existsb (eqb a) l = true <-> In a l). { intros a m. rewrite existsb_exists. split; [intros (b & B & E); apply Q in E; subst; exact B|intros H; exists a; split; [exact H|apply Q; reflexivity]]. }
  assert (D : forall (a : A) (m : list A), In a m \/ ~ In a m). { intros a m. destruct (existsb (eqb a) m) eqn:E; [left; apply EX, E|right; intros H; apply EX in H; congruence]. }
  induction l as [|x l IH]; intros seen a; [cbn; tauto|]. cbn [first_times]. destruct (existsb (eqb x) seen) eqn:E.
  - apply EX in E. rewrite IH. cbn [In]. split; [tauto|]. intros [[-> | H] N]; [contradiction|tauto].
  - assert (NX : ~ In x seen) by (intros H; apply EX in H; congruence). cbn [In]. rewrite IH. cbn [In]. split.
    + intros [<- | [H N]]; [tauto|tauto].
    + intros [[<- | H] N]; [tauto|]. destruct (D a [x]) as [[-> | []]|M]; [tauto|]. right. split; [exact H|]. cbn in M. tauto.
Qed.
Lemma first_times_nodup {A} (eqb : A -> A -> bool) l : (forall a b, eqb a b = true <-> a = b) -> forall seen, NoDup (first_times eqb seen l).
Proof.
  intros Q. induction l as [|x l IH]; intros seen; [constructor|]. cbn [first_times]. destruct (existsb (eqb x) seen); [apply IH|]. constructor; [|apply IH].
  intros H. apply (first_times_in eqb l Q) in H. cbn in H. tauto.
Qed.
Lemma first_times_id {A} (eqb : A -> A -> bool) l : (forall a b, eqb a b = true <-> a = b) -> forall seen, NoDup l -> (forall a, In a l -> ~ In a seen) -> first_times eqb seen l = l.
Proof.
  intros Q. induction l as [|x l IH]; intros seen N D; [reflexivity|]. cbn [first_times]. inversion N as [|y m N1 N2]; subst y m.
  assert (existsb (eqb x) seen = false) as ->. { destruct (existsb (eqb x) seen) eqn:E; [|reflexivity]. apply existsb_exists in E as (b & B & E). apply Q in E. subst b. exfalso. apply (D x); [left; reflexivity|exact B]. }
  f_equal. apply IH; [exact N2|]. intros a Ha [<- | H]; [contradiction|]. apply (D a); [right; exact Ha|exact H].
Qed.
Lemma first_times_length {A} (eqb : A -> A -> bool) l : forall seen, length (first_times eqb seen l) <= length l.
Proof. induction l as [|x l IH]; intros seen; [cbn; lia|]. cbn [first_times]. destruct (existsb (eqb x) seen); cbn [length]; [specialize (IH seen)|specialize (IH (x :: seen))]; lia. Qed.
Lemma first_times_full {A} (eqb : A -> A -> bool) l : forall seen, length (first_times eqb seen l) = length l -> first_times eqb seen l = l.
Proof.
  induction l as [|x l IH]; intros seen H; [reflexivity|]. cbn [first_times] in *. destruct (existsb (eqb x) seen).
  - exfalso. pose proof (first_times_length eqb l seen). cbn [length] in H. lia.
  - f_equal. apply IH. cbn [length] in H. lia.
Qed.
(** the points, each at its first place, once *)
Lemma repeated_ok {A} (eqb : A -> A -> bool) l : (forall a b, eqb a b = true <-> a = b) ->
  let r := verify_repeated_parametric_points eqb l in
  NoDup r /\ (forall a, In a r <-> In a l) /\ (NoDup l -> r = l).
Proof.
  intros Q. cbv zeta. assert (E : verify_repeated_parametric_points eqb l = first_times eqb [] l).
  { unfold verify_repeated_parametric_points. destruct (_ <? _)%nat eqn:L; [reflexivity|]. apply Nat.ltb_ge in L. symmetry. apply first_times_full. pose proof (first_times_length eqb l []). lia. }
  rewrite E. split; [apply first_times_nodup, Q|]. split; [intros a; rewrite (first_times_in eqb l Q); cbn; tauto|]. intros N. apply first_times_id; [exact Q|exact N|]. intros a _ [].
Qed.
(** the order is that of the first times *)
Lemma repeated_app {A} (eqb : A -> A -> bool) l a m : (forall x y, eqb x y = true <-> x = y) -> In a l -> verify_repeated_parametric_points eqb (l ++ a :: m) = verify_repeated_parametric_points eqb (l ++ m).
Proof.
  intros Q I0. assert (E : forall l, verify_repeated_parametric_points eqb l = first_times eqb [] l).
  { intros k. unfold verify_repeated_parametric_points. destruct (_ <? _)%nat eqn:L; [reflexivity|]. apply Nat.ltb_ge in L. symmetry. apply first_times_full. pose proof (first_times_length eqb k []). lia. }
  rewrite !E. enough (G : forall seen, In a seen \/ In a l -> first_times eqb seen (l ++ a :: m) = first_times eqb seen (l ++ m)) by (apply G; right; exact I0).
  clear I0. induction l as [|x l IH]; intros seen H.
  - cbn [app first_times]. destruct H as [H|[]]. assert (existsb (eqb a) seen = true) as ->; [|reflexivity]. apply existsb_exists. exists a. split; [exact H|apply Q; reflexivity].
  - cbn [app first_times]. destruct (existsb (eqb x) seen) eqn:EX.
    + apply IH. destruct H as [H|[<- | H]]; [left; exact H| |right; exact H]. left. apply existsb_exists in EX as (b & B & EB). apply Q in EB. subst b. exact B.
    + f_equal. apply IH. destruct H as [H|[<- | H]]; [left; right; exact H|left; left; reflexivity|right; exact H].
Qed.
