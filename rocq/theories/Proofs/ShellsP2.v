(** The graph of the faces of a shell and its connected parts. *)
From Coq Require Import List Arith ZArith Lia Bool Relations.
From Verif.Model Require Import Base Shells.
From Verif.Spec Require Import ShellsSpec.
Import ListNotations.

(** graphs *)
Lemma mem_in x l : mem x l = true <-> In x l.
Proof. unfold mem. rewrite existsb_exists. split; [intros (y & I & E); apply Nat.eqb_eq in E as ->; auto|intros I; exists x; split; auto; apply Nat.eqb_refl]. Qed.
Lemma mem_not x l : mem x l = false <-> ~ In x l.
Proof. rewrite <- mem_in. destruct (mem x l); split; congruence || (intros H; exfalso; apply H; auto). Qed.
Lemma add_node_in l x y : In y (add_node l x) <-> In y l \/ y = x.
Proof.
  unfold add_node. destruct (mem x l) eqn:E; [apply mem_in in E; split; [auto|intros [H | ->]; auto]|]. rewrite in_app_iff. cbn [In]. intuition.
Qed.
Lemma nodup_snoc l (x : nat) : NoDup l -> ~ In x l -> NoDup (l ++ [x]).
Proof. intros H N. apply (NoDup_Add (a := x) (l := l)); [|auto]. replace l with (l ++ []) at 1 by apply app_nil_r. apply Add_app. Qed.
Lemma add_node_nodup l x : NoDup l -> NoDup (add_node l x).
Proof. intros H. unfold add_node. destruct (mem x l) eqn:E; auto. apply mem_not in E. apply nodup_snoc; auto. Qed.
Lemma fold_add_in m : forall l y, In y (fold_left add_node m l) <-> In y l \/ In y m.
Proof. induction m as [|x m IH]; intros l y; cbn [fold_left In]; [tauto|]. rewrite IH, add_node_in. split; intuition. Qed.
Lemma fold_add_nodup m : forall l, NoDup l -> NoDup (fold_left add_node m l).
Proof. induction m as [|x m IH]; intros l H; cbn [fold_left]; auto. apply IH, add_node_nodup; auto. Qed.
Lemma fold_add_len m : forall l, length l <= length (fold_left add_node m l) /\ (length (fold_left add_node m l) = length l -> forall x, In x m -> In x l).
Proof.
  induction m as [|x m IH]; intros l; cbn [fold_left]; [split; auto; intros _ x []|]. destruct (IH (add_node l x)) as (A & B). unfold add_node in *. destruct (mem x l) eqn:E.
  - split; auto. intros L y [<- | I]; [apply mem_in; auto|auto].
  - rewrite app_length in A. cbn [length] in A. split; [lia|]. intros L. lia.
Qed.
Lemma nodes_in g x : In x (nodes g) <-> exists e, In e g /\ (x = fst e \/ x = snd e).
Proof.
  unfold nodes. assert (H : forall g l, In x (fold_left (fun l e => add_node (add_node l (fst e)) (snd e)) g l) <-> In x l \/ exists e, In e g /\ (x = fst e \/ x = snd e)).
  { clear g. induction g as [|e g IH]; intros l; cbn [fold_left]; [split; [auto|intros [H | (e & [] & _)]; auto]|]. rewrite IH, !add_node_in. split.
    - intros [[[H | H] | H] | (e' & I & Q)]; auto; right; [exists e; split; [left|]; auto|exists e; split; [left|]; auto|exists e'; split; [right|]; auto].
    - intros [H | (e' & [<- | I] & Q)]; auto; [destruct Q; auto|right; eauto]. }
  rewrite H. cbn [In]. tauto.
Qed.
Lemma nodes_nodup g : NoDup (nodes g).
Proof. unfold nodes. assert (H : forall g l, NoDup l -> NoDup (fold_left (fun l e => add_node (add_node l (fst e)) (snd e)) g l)); [|apply H; constructor]. clear g. induction g as [|e g IH]; intros l N; cbn [fold_left]; auto. apply IH. do 2 apply add_node_nodup. auto. Qed.
Lemma neighbors_in g x y : In y (neighbors g x) <-> In (x, y) g \/ In (y, x) g.
Proof.
  unfold neighbors. rewrite in_flat_map. split.
  - intros ([a b] & I & H). cbn [fst snd] in H. destruct (Nat.eqb a x) eqn:E; [apply Nat.eqb_eq in E as ->; destruct H as [<- | []]; auto|]. destruct (Nat.eqb b x) eqn:F; [apply Nat.eqb_eq in F as ->; destruct H as [<- | []]; auto|destruct H].
  - intros [I | I]; [exists (x, y); split; auto; cbn [fst snd]; rewrite Nat.eqb_refl; left; auto|]. exists (y, x). split; auto. cbn [fst snd]. destruct (Nat.eqb y x) eqn:E; [apply Nat.eqb_eq in E as ->; left; auto|]. rewrite Nat.eqb_refl. left; auto.
Qed.
Lemma neighbors_nodes g x y : In y (neighbors g x) -> In x (nodes g) /\ In y (nodes g).
Proof. rewrite neighbors_in, !nodes_in. intros [I | I]; (split; eexists; (split; [exact I|cbn; auto])). Qed.
Definition reach g := clos_refl_trans nat (fun x y => In y (neighbors g x)).
Lemma expand_in g l y : In y (expand g l) <-> In y l \/ exists x, In x l /\ In y (neighbors g x).
Proof. unfold expand. rewrite fold_add_in, in_flat_map. tauto. Qed.
Definition closed g l := forall x y, In x l -> In y (neighbors g x) -> In y l.
Lemma expand_closed g l : length (expand g l) = length l -> closed g l.
Proof. unfold expand. intros H x y I J. apply (proj2 (fold_add_len (flat_map (neighbors g) l) l) H). apply in_flat_map. eauto. Qed.
Lemma closed_expand g l : closed g l -> closed g (expand g l).
Proof. intros C x y I J. apply expand_in. left. apply expand_in in I as [I | (z & I & K)]; [|assert (In x l) by (eapply C; eauto)]; eapply C; eauto. Qed.
Lemma spread_spec g n : forall l, NoDup l -> incl l (nodes g) -> NoDup (spread n g l) /\ incl (spread n g l) (nodes g) /\ incl l (spread n g l) /\
  (forall y, In y (spread n g l) -> exists x, In x l /\ reach g x y) /\ (closed g (spread n g l) \/ n + length l <= length (spread n g l)).
Proof.
  induction n as [|n IH]; intros l N I; cbn [spread].
  - repeat split; auto; [intros x X; auto|intros y Y; exists y; split; auto; apply rt_refl].
  - destruct (IH (expand g l)) as (A & B & C & E & F).
    + apply fold_add_nodup; auto.
    + intros y Y. apply expand_in in Y as [Y | (x & X & Y)]; auto. eapply neighbors_nodes; eauto.
    + split; auto. split; auto. split; [intros y Y; apply C; apply expand_in; auto|]. split.
      * intros y Y. destruct (E y Y) as (x & X & R). apply expand_in in X as [X | (z & Z & X)]; [eauto|]. exists z. split; auto. eapply rt_trans; [apply rt_step; exact X|auto].
      * destruct F as [F | F]; [auto|]. destruct (fold_add_len (flat_map (neighbors g) l) l) as (L & _). fold (expand g l) in L. destruct (Nat.eq_dec (length (expand g l)) (length l)) as [Q | Q]; [left|right; lia].
        apply expand_closed in Q. clear - Q. assert (H : forall n l, closed g l -> closed g (spread n g l)). { clear. induction n as [|n IH]; intros l C; cbn [spread]; auto. apply IH, closed_expand; auto. } apply H, closed_expand; auto.
Qed.
Lemma component_spec g x : In x (nodes g) -> NoDup (component g x) /\ forall y, In y (component g x) <-> reach g x y.
Proof.
  intros X. unfold component. destruct (spread_spec g (length (nodes g)) [x]) as (A & B & C & E & F); [repeat constructor; auto|intros y [<- | []]; auto|].
  split; auto. intros y. split; [intros Y; destruct (E y Y) as (z & [<- | []] & R); auto|].
  assert (CL : closed g (spread (length (nodes g)) g [x])). { destruct F as [F | F]; auto. exfalso. assert (L := NoDup_incl_length A B). cbn [length] in F. lia. }
  intros R. assert (H : forall a b, reach g a b -> In a (spread (length (nodes g)) g [x]) -> In b (spread (length (nodes g)) g [x])). { intros a b Q. induction Q; auto. intros Ix. eapply CL; eauto. }
  apply (H x y R). apply C. left; auto.
Qed.
Lemma reach_sym g x y : reach g x y -> reach g y x.
Proof. induction 1; [apply rt_step; apply neighbors_in; apply neighbors_in in H; tauto|apply rt_refl|eapply rt_trans; eauto]. Qed.
Lemma components_spec g : let cs := connected_components g in
  (forall c, In c cs -> exists x, In x (nodes g) /\ c = component g x) /\ (forall x, In x (nodes g) -> exists c, In c cs /\ In x c) /\
  (forall i j c d x, nth_error cs i = Some c -> nth_error cs j = Some d -> In x c -> In x d -> i = j).
Proof.
  unfold connected_components. set (f := fun cs x => if existsb (mem x) cs then cs else cs ++ [component g x]).
  assert (H : forall ns cs, incl ns (nodes g) -> (forall c, In c cs -> exists x, In x (nodes g) /\ c = component g x) ->
     (forall i j c d x, nth_error cs i = Some c -> nth_error cs j = Some d -> In x c -> In x d -> i = j) ->
     let r := fold_left f ns cs in incl cs r /\ (forall c, In c r -> exists x, In x (nodes g) /\ c = component g x) /\ (forall x, In x ns -> exists c, In c r /\ In x c) /\
     (forall i j c d x, nth_error r i = Some c -> nth_error r j = Some d -> In x c -> In x d -> i = j)).
  { induction ns as [|x ns IH]; intros cs I A B; cbn [fold_left]; [repeat split; auto; [intros c; auto|intros x []]|].
    assert (IX : In x (nodes g)) by (apply I; left; auto). assert (I' : incl ns (nodes g)) by (intros y Y; apply I; right; auto). assert (FX : f cs x = if existsb (mem x) cs then cs else cs ++ [component g x]) by reflexivity. cbv zeta in *. rewrite FX. destruct (existsb (mem x) cs) eqn:E.
    - destruct (IH cs I' A B) as (P & Q & R0 & S0). split; [exact P|]. split; [exact Q|]. split; [|exact S0]. intros y [<- | Y]; [|auto]. apply existsb_exists in E as (c & C & M). apply mem_in in M. exists c. split; [apply P; auto|auto].
    - destruct (IH (cs ++ [component g x]) I') as (P & Q & R0 & S0).
      + intros c C. apply in_app_iff in C as [C | [<- | []]]; eauto.
      + assert (NEW : forall c y, In c cs -> In y c -> In y (component g x) -> False).
        { intros c y C Y1 Y2. destruct (A c C) as (z & Z & ->). apply (component_spec g z Z) in Y1. apply (component_spec g x IX) in Y2. assert (XC : In x (component g z)) by (apply (component_spec g z Z); eapply rt_trans; [exact Y1|apply reach_sym; auto]).
          assert (T : existsb (mem x) cs = true) by (apply existsb_exists; exists (component g z); split; auto; apply mem_in; auto). congruence. }
        assert (POS : forall i c, nth_error (cs ++ [component g x]) i = Some c -> nth_error cs i = Some c \/ (i = length cs /\ c = component g x)).
        { intros i c N. destruct (Nat.lt_ge_cases i (length cs)) as [L | L]; [left; rewrite nth_error_app1 in N by auto; auto|right]. rewrite nth_error_app2 in N by auto. destruct (i - length cs) as [|k] eqn:K; cbn [nth_error] in N; [split; [lia|congruence]|destruct k; discriminate]. }
        intros i j c d y N1 N2 Y1 Y2. apply POS in N1 as [N1 | (-> & ->)]; apply POS in N2 as [N2 | (-> & ->)]; [eapply B; eauto|exfalso; apply (NEW c y (nth_error_In _ _ N1) Y1 Y2)|exfalso; apply (NEW d y (nth_error_In _ _ N2) Y2 Y1)|auto].
      + split; [intros c C; apply P; apply in_app_iff; auto|]. split; [exact Q|]. split; [|exact S0]. intros y [<- | Y]; [|auto]. exists (component g x). split; [apply P; apply in_app_iff; right; left; auto|]. apply component_spec; auto. apply rt_refl. }
  destruct (H (nodes g) []) as (_ & P & Q & R0); [intros x; auto|intros c []|intros i j c d x N; destruct i; discriminate|]. cbv zeta. auto.
Qed.
