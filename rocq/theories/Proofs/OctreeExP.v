(** Concrete octrees and tests used by the examples of Props/P_Octree.v. *)
From Verif.Model Require Import Base FloodFill VoxelMatrix Octree.
From Verif.Spec Require Import OctreeSpec.
From Verif.Proofs Require Import OctreeP OctreeP2.
From Coq Require Import Lia.
Open Scope Z_scope.
(** Trees of depths 2 and 1: two voxels, one of them common. *)
Definition leaf1 (o : pt3) (l : node) : node := Kids (map (fun o' => if eqb3 o o' then l else Leafs []) octants).
Definition ex_a : octree Z := Octree (Kids (map (fun o => if eqb3 o (0, 0, 0) then leaf1 (1, 1, 1) (Leafs [0; 1]) else if eqb3 o (1, 0, 1) then leaf1 (0, 1, 1) (Leafs [1]) else Leafs []) octants)) origin3 2 2 [10; 20].
Definition ex_b : octree Z := Octree (leaf1 (0, 0, 0) (Leafs [0])) origin3 1 2 [30].
Lemma ex_a_valid : valid_octree ex_a.
Proof.
  assert (L : forall o l, node_of_height 1 (leaf1 o (Leafs l))).
  { intros o l. exists (map (fun o' => if eqb3 o o' then Leafs l else Leafs []) octants). split; [reflexivity|]. split; [reflexivity|]. apply Forall_forall. intros k Hk. apply in_map_iff in Hk as (x & <- & _). destruct (eqb3 o x); [right; exists l|left]; reflexivity. }
  repeat split; try (cbn; lia). cbn [o_tree o_depth ex_a]. eexists. split; [reflexivity|]. split; [reflexivity|]. apply Forall_forall. intros k Hk. apply in_map_iff in Hk as (x & <- & _). destruct (eqb3 x (0, 0, 0)); [right; apply L|]. destruct (eqb3 x (1, 0, 1)); [right; apply L|left; reflexivity].
Qed.
Lemma ex_b_valid : valid_octree ex_b.
Proof.
  repeat split; try (cbn; lia). cbn [o_tree o_depth ex_b]. eexists. split; [reflexivity|]. split; [reflexivity|]. apply Forall_forall. intros k Hk. apply in_map_iff in Hk as (x & <- & _). destruct (eqb3 (0, 0, 0) x); [right; exists [0]|left]; reflexivity.
Qed.
(** The bounding box test is monotone and local. *)
Definition box_hit (t : triangle3) (c : pt3) (h : Z) : bool :=
  let '(x, y, z) := c in let meets b := existsb (fun u => u - h <=? b) (tri_coords t) && existsb (fun v => b <=? v + h) (tri_coords t) in (0 <=? h) && meets x && meets y && meets z.
Lemma box_hit_local : local_hit box_hit.
Proof.
  intros t x y z h H b Hb. unfold box_hit in H. rewrite !andb_true_iff in H. destruct H as (((_ & (X1 & X2)) & (Y1 & Y2)) & (Z1 & Z2)).
  destruct Hb as [-> | [-> | ->]]; [rename X1 into P, X2 into Q|rename Y1 into P, Y2 into Q|rename Z1 into P, Z2 into Q]; apply existsb_exists in P as (u & Hu & P); apply existsb_exists in Q as (v & Hv & Q); exists u, v; (split; [assumption|]; split; [assumption|]); lia.
Qed.
Lemma box_hit_monotone : monotone_hit box_hit.
Proof.
  intros t [[x y] z] h [[x' y'] z'] h' I Hh H. unfold box_hit in *. rewrite !andb_true_iff in *. destruct H as (((_ & (X1 & X2)) & (Y1 & Y2)) & (Z1 & Z2)).
  pose proof (I (x - h, y - h, z - h) ltac:(cbn; lia)) as (A1 & A2 & A3). pose proof (I (x + h, y + h, z + h) ltac:(cbn; lia)) as (B1 & B2 & B3).
  assert (Lo : forall b b', Z.abs (b - h - b') <= h' -> Z.abs (b + h - b') <= h' -> existsb (fun u => u - h <=? b) (tri_coords t) = true -> existsb (fun u => u - h' <=? b') (tri_coords t) = true)
    by (intros b b' U V W; apply existsb_exists in W as (u & Hu & W); apply existsb_exists; exists u; split; [assumption|lia]).
  assert (Hi : forall b b', Z.abs (b - h - b') <= h' -> Z.abs (b + h - b') <= h' -> existsb (fun v => b <=? v + h) (tri_coords t) = true -> existsb (fun v => b' <=? v + h') (tri_coords t) = true)
    by (intros b b' U V W; apply existsb_exists in W as (u & Hu & W); apply existsb_exists; exists u; split; [assumption|lia]).
  repeat split; try (apply (Lo x) || apply (Hi x); assumption); try (apply (Lo y) || apply (Hi y); assumption); try (apply (Lo z) || apply (Hi z); assumption). lia.
Qed.
