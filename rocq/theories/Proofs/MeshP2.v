(** check_consistency *)
From Coq Require Import List ZArith Lia Bool.
From Verif.Model Require Import Base Mesh.
From Verif.Spec Require Import MeshSpec.
Import ListNotations.
Open Scope Z_scope.

Lemma fold_max_lt l : forall x n, fold_left Z.max l x < n <-> x < n /\ forall y, In y l -> y < n.
Proof.
  induction l as [|a l IH]; intros x n; cbn [fold_left].
  - split; [intros; split; [auto|intros ? []]|intros []; auto].
  - rewrite IH, Z.max_lub_lt_iff. split.
    + intros [[A B] C]. split; auto. intros y [<-|D]; auto.
    + intros [A B]. split; [split; [auto|apply B; left; auto]|]. intros y D. apply B. right; auto.
Qed.
Lemma flat_tris_in (l : list tri3) x : In x (flat_map flat_tri l) <-> exists i j k, In (i, j, k) l /\ In x [i; j; k].
Proof.
  rewrite in_flat_map. split.
  - intros ([[i j] k] & A & B). exists i, j, k. auto.
  - intros (i & j & k & A & B). exists (i, j, k). auto.
Qed.
Lemma check_consistency_spec {V} (m : mesh V) b : check_consistency m = Ok b ->
  (b = true <-> forall i j k x, In (i, j, k) (tris m) -> In x [i; j; k] -> x < Z.of_nat (length (verts m))).
Proof.
  unfold check_consistency. pose proof (flat_tris_in (tris m)) as F. destruct (flat_map flat_tri (tris m)) as [|x l]; [discriminate|].
  intros [= <-]. rewrite Z.ltb_lt, fold_max_lt. split.
  - intros [A B] i j k y C D. assert (G : In y (x :: l)) by (apply F; exists i, j, k; auto). destruct G as [<-|G]; auto.
  - intros H. assert (G : forall y, In y (x :: l) -> y < Z.of_nat (length (verts m))).
    { intros y I. apply F in I as (i & j & k & A & B). apply (H i j k y A B). }
    split; [apply G; left; auto|]. intros y I. apply G. right; auto.
Qed.
Lemma check_consistency_consistent {V} (m : mesh V) : tris m <> [] -> (forall i j k x, In (i, j, k) (tris m) -> In x [i; j; k] -> 0 <= x) ->
  exists b, check_consistency m = Ok b /\ (b = true <-> consistent m).
Proof.
  intros N P. destruct (check_consistency m) as [b|e] eqn:E.
  - exists b. split; auto. rewrite (check_consistency_spec m b E). unfold consistent. split; intros H.
    + intros i j k I x X. split; [apply (P i j k x I X)|apply (H i j k x I X)].
    + intros i j k x I X. apply (H i j k I x X).
  - exfalso. unfold check_consistency in E. destruct (tris m) as [|[[i j] k] l]; [contradiction|]. discriminate E.
Qed.
Lemma check_consistency_empty {V} (m : mesh V) : tris m = [] -> check_consistency m = Err ValueError.
Proof. unfold check_consistency. intros ->. reflexivity. Qed.
Lemma check_consistency_negative : exists m : mesh Z, check_consistency m = Ok true /\ ~ consistent m.
Proof.
  exists {| mdim := 3; verts := [5; 6; 7]; tris := [(0, 1, -9)] |}. split; [reflexivity|].
  intros C. specialize (C 0 1 (-9) (or_introl eq_refl) (-9)). cbn in C. lia.
Qed.
