From Coq Require Import Reals Lra.
From Verif.Model Require Import Base RBase Vec.
From Verif.Proofs Require Import VecP LineP.
Open Scope R_scope.
(** the origin of the plane is not at the coordinates (0, 0) *)
Lemma projection2d_origin_wrong : exists p o x y q, dot3 x x = 1 /\ dot3 y y = 1 /\ dot3 x y = 0 /\ p = o /\ plane_projection2d p o x y = Ok q /\ to_2d p o x y = V2 0 0 /\ q = V2 1 0.
Proof.
  exists (V3 1 0 0), (V3 1 0 0), (V3 1 0 0), (V3 0 1 0).
  assert (H : exists q, plane_projection2d (V3 1 0 0) (V3 1 0 0) (V3 1 0 0) (V3 0 1 0) = Ok q).
  { unfold plane_projection2d, plane_projection3d. assert (N : cross3 (V3 1 0 0) (V3 0 1 0) = V3 0 0 1) by (unfold cross3; cbn [x3 y3 z3]; f_equal; ring). rewrite N.
    assert (M : norm3 (V3 0 0 1) = 1) by (apply sqrt_lem_1; [unfold dot3; cbn [x3 y3 z3]; lra|lra|unfold dot3; cbn [x3 y3 z3]; lra]).
    unfold unit_vector3. rewrite M. rewrite (proj2 (Reqb_false 1 0)) by lra. cbn [bind]. eexists. reflexivity. }
  destruct H as [q H]. exists q. assert (A : dot3 (V3 1 0 0) (V3 1 0 0) = 1) by (unfold dot3; cbn [x3 y3 z3]; ring). assert (B : dot3 (V3 0 1 0) (V3 0 1 0) = 1) by (unfold dot3; cbn [x3 y3 z3]; ring). assert (C : dot3 (V3 1 0 0) (V3 0 1 0) = 0) by (unfold dot3; cbn [x3 y3 z3]; ring).
  do 5 (split; [auto|]). split; [unfold to_2d, dot3; cbn [x3 y3 z3]; f_equal; ring|].
  rewrite (plane_projection2d_to_2d _ _ _ _ _ A B C H). unfold add2, to_2d, dot3. cbn [x2 y2 x3 y3 z3]. f_equal; ring.
Qed.
