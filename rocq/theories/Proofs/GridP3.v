(** Grids with a single row or column; the index of an axis. *)
From Coq Require Import Reals Lra Lia List Bool.
From Verif.Model Require Import Base Vec Grid.
From Verif.Spec Require Import GridSpec2.
From Verif.Proofs Require Import VecP.
Import ListNotations.
Open Scope R_scope.

Lemma single_point_grid xmin xmax ymin ymax sx sy :
  exists g h, grid_from_properties (xmin, xmax) (ymin, ymax) (1, 1)%nat [(sx, true); (sy, false)] = Ok g /\
    grid_from_properties (xmin, xmax) (ymin, ymax) (1, 1)%nat [(sy, false); (sx, true)] = Ok h /\
    grid_points g = [V2 (if sx then xmin else xmax) (if sy then ymin else ymax)] /\ grid_points h = grid_points g.
Proof. do 2 eexists. split; [reflexivity|]. split; [reflexivity|]. destruct sx, sy; cbn; auto. Qed.
Lemma gdir_eqb_eq a b : gdir_eqb a b = true <-> a = b.
Proof. destruct a as [[] []], b as [[] []]; cbn; split; auto; discriminate. Qed.
Lemma index_of_some d l i : index_of d l = Some i -> nth_error l i = Some d.
Proof.
  revert i; induction l as [|a l IH]; intros i; cbn [index_of]; [discriminate|]. destruct (gdir_eqb a d) eqn:E.
  - intros [= <-]. apply gdir_eqb_eq in E. subst. reflexivity.
  - destruct (index_of d l); [|discriminate]. intros [= <-]. cbn. auto.
Qed.
Lemma index_of_none d l : index_of d l = None -> ~ In d l.
Proof.
  induction l as [|a l IH]; cbn [index_of]; [intros _ []|]. destruct (gdir_eqb a d) eqn:E; [discriminate|].
  destruct (index_of d l); [discriminate|]. intros _ [-> | I]; [|now apply IH]. rewrite (proj2 (gdir_eqb_eq d d) eq_refl) in E. discriminate.
Qed.
Lemma direction_index_found {A} (g : grid A) axis i : find_direction_index g axis = Ok i -> exists s, nth_error (gdirs g) i = Some (s, axis).
Proof.
  unfold find_direction_index. destruct (index_of (true, axis) (gdirs g)) eqn:E.
  - intros [= <-]. exists true. now apply index_of_some.
  - destruct (index_of (false, axis) (gdirs g)) eqn:F; [|discriminate]. intros [= <-]. exists false. now apply index_of_some.
Qed.
Lemma direction_index_absent {A} (g : grid A) axis : (forall s, ~ In (s, axis) (gdirs g)) <-> find_direction_index g axis = Err ValueError.
Proof.
  unfold find_direction_index. split.
  - intros H. destruct (index_of (true, axis) (gdirs g)) eqn:E; [exfalso; apply (H true), (nth_error_In _ n), index_of_some, E|].
    destruct (index_of (false, axis) (gdirs g)) eqn:F; [exfalso; apply (H false), (nth_error_In _ n), index_of_some, F|]. reflexivity.
  - destruct (index_of (true, axis) (gdirs g)) eqn:E; [discriminate|]. destruct (index_of (false, axis) (gdirs g)) eqn:F; [discriminate|].
    intros _ [|]; now apply index_of_none.
Qed.
