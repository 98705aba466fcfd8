(** Octrees that are not at the origin cannot be brought to a greater depth. *)
From Verif.Model Require Import Base FloodFill VoxelMatrix Octree.
From Verif.Spec Require Import OctreeSpec.
From Coq Require Import List ZArith Lia.
Import ListNotations.
Open Scope Z_scope.

Lemma increment_err {T} (a : octree T) : o_center a <> origin3 -> increment a = Err NotImplementedError.
Proof.
  intros H. unfold increment. destruct (eqb3 (o_center a) origin3) eqn:E; [|reflexivity]. exfalso. apply H.
  destruct (o_center a) as [[x y] z]. unfold eqb3, origin3 in E. cbn in E. apply andb_prop in E as [E E3]. apply andb_prop in E as [E1 E2].
  apply Z.eqb_eq in E1, E2, E3. cbn in E1, E2, E3. subst. reflexivity.
Qed.
Lemma op_root_error {T} (a b : octree T) : o_size a = o_size b ->
  ((o_depth a < o_depth b)%nat /\ o_center a <> origin3) \/ ((o_depth b < o_depth a)%nat /\ o_center b <> origin3) ->
  octree_union a b = Err NotImplementedError /\ octree_difference a b = Err NotImplementedError /\ octree_intersection a b = Err NotImplementedError /\ octree_symmetric a b = Err NotImplementedError.
Proof.
  intros S H. assert (G : same_depth a b = Err NotImplementedError).
  { unfold same_depth. rewrite S, Z.eqb_refl. cbn [negb]. destruct H as [[L C]|[L C]].
    - destruct (o_depth b - o_depth a)%nat eqn:E; [lia|]. cbn [grow]. rewrite increment_err by auto. reflexivity.
    - replace (o_depth b - o_depth a)%nat with 0%nat by lia. cbn [grow bind]. destruct (o_depth a - o_depth b)%nat eqn:E; [lia|]. cbn [grow]. rewrite increment_err by auto. reflexivity. }
  unfold octree_union, octree_difference, octree_intersection, octree_symmetric, octree_op. rewrite G. auto.
Qed.
