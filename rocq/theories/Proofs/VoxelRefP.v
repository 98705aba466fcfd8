From Verif.Model Require Import Base FloodFill VoxelMatrix.
From Verif.Spec Require Import GridSpec VoxelSpec.
From Verif.Proofs Require Import FloodFillP OuterP VoxelP PixelP VoxelOpsP.
From Coq Require Import Lia.
Open Scope Z_scope.

(** * is_hollow *)
Lemma same3_tight m n : same3 m n -> tight3 m -> tight3 n.
Proof.
  intros (D1 & D2 & D3 & H) (T1 & T2 & T3 & T4 & T5 & T6).
  assert (S : forall c, set3 m c -> set3 n c).
  { intros c [Hc Hs]. split; [|rewrite <- H; assumption]. unfold cell3 in *. rewrite <- D1, <- D2, <- D3. exact Hc. }
  unfold tight3. rewrite <- D1, <- D2, <- D3.
  repeat split; [destruct T1 as (u & w & T)|destruct T2 as (u & w & T)|destruct T3 as (u & w & T)|destruct T4 as (u & w & T)
    |destruct T5 as (u & w & T)|destruct T6 as (u & w & T)]; exists u, w; apply S, T.
Qed.
Lemma same2_tight m n : same2 m n -> tight2 m -> tight2 n.
Proof.
  intros (D1 & D2 & H) (T1 & T2 & T3 & T4).
  assert (S : forall c, set2 m c -> set2 n c).
  { intros c [Hc Hs]. split; [|rewrite <- H; assumption]. unfold cell2 in *. rewrite <- D1, <- D2. exact Hc. }
  unfold tight2. rewrite <- D1, <- D2.
  repeat split; [destruct T1 as (u & T)|destruct T2 as (u & T)|destruct T3 as (u & T)|destruct T4 as (u & T)]; exists u; apply S, T.
Qed.

Lemma is_hollow3_full a : valid3 a -> size_ok (vsz a) -> (exists p, center_of3 a p) ->
  exists t, is_hollow3 a = Ok t /\ (t = true <-> tight3 (vmat a) /\ ~ hollow3 (vmat a)).
Proof.
  intros Va Hs (p & Hp). destruct (fill_enclosed3_ok a Va Hs) as (r & Hr & Hv & _ & Ht & H).
  assert (Tr : tight3 (vmat r)) by (apply (Ht p); apply H; left; exact Hp).
  unfold is_hollow3. rewrite Hr. cbn [bind]. eexists. split; [reflexivity|].
  assert (D : vox_eqb r a = true -> tight3 (vmat a)).
  { intros E. apply vox_eqb_spec in E. destruct E as (_ & _ & E). exact (same3_tight _ _ E Tr). }
  split.
  - intros E. split; [apply D, E|]. destruct (is_hollow3_ok a Va Hs (D E)) as (t & Et & Ht').
    unfold is_hollow3 in Et. rewrite Hr in Et. cbn [bind] in Et. injection Et as <-. apply Ht', E.
  - intros [T N]. destruct (is_hollow3_ok a Va Hs T) as (t & Et & Ht').
    unfold is_hollow3 in Et. rewrite Hr in Et. cbn [bind] in Et. injection Et as <-. apply Ht', N.
Qed.
Lemma is_hollow2_full a : valid2 a -> size_ok (psz a) -> (exists p, center_of2 a p) ->
  exists t, is_hollow2 a = Ok t /\ (t = true <-> tight2 (pmat a) /\ ~ hollow2 (pmat a)).
Proof.
  intros Va Hs (p & Hp). destruct (fill_enclosed2_ok a Va Hs) as (r & Hr & Hv & _ & Ht & H).
  assert (Tr : tight2 (pmat r)) by (apply (Ht p); apply H; left; exact Hp).
  unfold is_hollow2. rewrite Hr. cbn [bind]. eexists. split; [reflexivity|].
  assert (D : pix_eqb r a = true -> tight2 (pmat a)).
  { intros E. apply pix_eqb_spec in E. destruct E as (_ & _ & E). exact (same2_tight _ _ E Tr). }
  split.
  - intros E. split; [apply D, E|]. destruct (is_hollow2_ok a Va Hs (D E)) as (t & Et & Ht').
    unfold is_hollow2 in Et. rewrite Hr in Et. cbn [bind] in Et. injection Et as <-. apply Ht', E.
  - intros [T N]. destruct (is_hollow2_ok a Va Hs T) as (t & Et & Ht').
    unfold is_hollow2 in Et. rewrite Hr in Et. cbn [bind] in Et. injection Et as <-. apply Ht', N.
Qed.

(** the single solid voxel of size 0.1 at (0.05, 0.05, 0.05) *)
Definition solid1 (v : Z) : vox3 :=
  {| vmat := {| dimx := 1; dimy := 1; dimz := 1; at3 := fun _ => true |}; vorg := (v / 2, v / 2, v / 2); vsz := v |}.
(** the hollow 3x3x3 shell *)
Definition shell27 (v : Z) : vox3 :=
  {| vmat := {| dimx := 3; dimy := 3; dimz := 3; at3 := fun c => negb (eqb3 c (1, 1, 1)) |}; vorg := (v / 2, v / 2, v / 2); vsz := v |}.

Lemma solid1_valid : valid3 (solid1 100000000).
Proof. repeat split; cbn; try lia; exists 0; reflexivity. Qed.
Lemma shell27_valid : valid3 (shell27 100000000).
Proof. repeat split; cbn; try lia; exists 0; reflexivity. Qed.
Lemma shell27_tight : tight3 (vmat (shell27 100000000)).
Proof.
  repeat split; [exists 0, 0|exists 0, 0|exists 0, 0|exists 0, 0|exists 0, 0|exists 0, 0];
    split; try reflexivity; cbn; unfold cell3, In3; cbn; lia.
Qed.
Lemma solid1_not_hollow : ~ hollow3 (vmat (solid1 100000000)).
Proof. intros (c & _ & H & _). discriminate. Qed.
Lemma shell27_hollow : hollow3 (vmat (shell27 100000000)).
Proof.
  exists (1, 1, 1). assert (C : cell3 (vmat (shell27 100000000)) (1, 1, 1)) by (unfold cell3, In3; cbn; lia).
  split; [exact C|]. split; [reflexivity|]. intros O.
  destruct (fill_outer3_correct (shell27 100000000)) as (b & Hb & _ & _ & _ & _ & _ & H); [repeat split; cbn; lia|].
  pose proof (proj2 (H _ C) (or_intror O)) as T.
  assert (F : match fill_outer3 (shell27 100000000) with Ok b => at3 (vmat b) (1, 1, 1) | Err _ => true end = false) by (vm_compute; reflexivity).
  rewrite Hb in F. congruence.
Qed.
Lemma is_hollow_ref1 : is_hollow3 (solid1 100000000) = Ok true.
Proof. vm_compute. reflexivity. Qed.
Lemma is_hollow_ref2 : is_hollow3 (shell27 100000000) = Ok false.
Proof.
  destruct (is_hollow3_ok (shell27 100000000)) as (t & Ht & H); [apply shell27_valid|split; cbn; lia|apply shell27_tight|].
  rewrite Ht. f_equal. destruct t; [|reflexivity]. exfalso. apply (proj1 H); [reflexivity|apply shell27_hollow].
Qed.

(** * boolean operations with voxels larger than 1 *)
Lemma union_ref : exists r, union3 (solid1 2000000000) (solid1 2000000000) = Ok r /\
  (forall p, ~ center_of3 r p) /\ center_of3 (solid1 2000000000) (1000000000, 1000000000, 1000000000).
Proof.
  destruct (union3 (solid1 2000000000) (solid1 2000000000)) as [r|e] eqn:E; [|vm_compute in E; discriminate].
  exists r. split; [reflexivity|]. split.
  - intros p Hp. apply voxel_centers_spec in Hp.
    assert (F : match union3 (solid1 2000000000) (solid1 2000000000) with Ok r => voxel_centers r | Err _ => [(0, 0, 0)] end = []) by (vm_compute; reflexivity).
    rewrite E in F. rewrite F in Hp. destruct Hp.
  - exists 0, 0, 0. split; [split; [unfold cell3, In3; cbn; lia|reflexivity]|reflexivity].
Qed.
Definition row2 (v : Z) : vox3 :=
  {| vmat := {| dimx := 2; dimy := 1; dimz := 1; at3 := fun _ => true |}; vorg := (v / 2, v / 2, v / 2); vsz := v |}.
Lemma union_ref2 : union3 (row2 2000000000) (row2 2000000000) = Err ValueError.
Proof. vm_compute. reflexivity. Qed.
Lemma solid1_big_valid : valid3 (solid1 2000000000). Proof. repeat split; cbn; try lia; exists 0; reflexivity. Qed.
Lemma row2_big_valid : valid3 (row2 2000000000). Proof. repeat split; cbn; try lia; exists 0; reflexivity. Qed.

(** * point based flood fill *)
Definition one_point : pts3 := {| pcs := [(50000000, 50000000, 50000000)]; pvs := 100000000 |}.
Lemma flood_points_ref : flood_fill_points one_point (50000000, 50000000, 50000000) false = Err IndexError.
Proof. vm_compute. reflexivity. Qed.
(** two voxels touching at a corner only: filling from the center of the first removes the second *)
Definition two_points : pts3 := {| pcs := [(50, 50, 50); (150, 150, 150)]; pvs := 100 |}.
Lemma flood_points_ref2 : flood_fill_points two_points (50, 50, 50) false = Ok {| pcs := [(50, 50, 50)]; pvs := 100 |}.
Proof. vm_compute. reflexivity. Qed.
Lemma flood_points_refuted :
  (exists a p, In p (pcs a) /\ (forall q, In q (pcs a) -> on_grid3 (pvs a) q) /\ flood_fill_points a p false = Err IndexError) /\
  (exists a p r, In p (pcs a) /\ (forall q, In q (pcs a) -> on_grid3 (pvs a) q) /\ flood_fill_points a p false = Ok r /\ In p (pcs r)).
Proof.
  split.
  - exists one_point, (50000000, 50000000, 50000000). split; [left; reflexivity|]. split; [|exact flood_points_ref].
    intros q [<-|[]]. repeat split; exists 0; reflexivity.
  - exists two_points, (50, 50, 50). eexists. split; [left; reflexivity|]. split; [|split; [exact flood_points_ref2|left; reflexivity]].
    intros q [<-|[<-|[]]]; repeat split; first [exists 0; reflexivity|exists 1; reflexivity].
Qed.
