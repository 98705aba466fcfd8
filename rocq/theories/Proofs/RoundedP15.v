From Coq Require Import Reals Lra List Lia Sorted Bool.
From Verif.Model Require Import Base RBase Vec Frame Geometry Curves Edges Arcs Rounded.
From Verif.Spec Require Import VecSpec CurvesSpec ArcsSpec RoundedSpec.
From Verif.Proofs Require Import VecP CurvesP3 EdgesP EdgesP12 ArcsP ArcsP4 RoundedP RoundedP2 RoundedP3 RoundedP4 RoundedP5 RoundedP6 RoundedP7 RoundedP8 RoundedP9 RoundedP10 RoundedP11 RoundedP12 RoundedP13 RoundedP14.
Import ListNotations.
Open Scope R_scope.
(** two rounded corners that fit *)
Definition good : rls := Rls [V2 0 0; V2 10 0; V2 10 10; V2 20 10] [(1%nat, 2); (2%nat, 3)] false false.
Lemma good_ok lp : exists a b, rounded_primitives lp good = Ok ([(1%nat, 2); (2%nat, 3)], [PSeg (V2 0 0, V2 8 0); PArc a; PSeg (V2 10 2, V2 10 7); PArc b; PSeg (V2 13 10, V2 20 10)]).
Proof.
  assert (R1 : right_at (V2 0 0) (V2 10 0) (V2 10 10) (V2 (-1) 0) (V2 0 1) 10 10) by rightang. assert (R2 : right_at (V2 10 0) (V2 10 10) (V2 20 10) (V2 0 (-1)) (V2 1 0) 10 10) by rightang.
  destruct (right_corner' _ _ _ _ _ _ _ 2 (V2 8 0) (V2 10 2) R1) as (q1 & a & E1 & A1 & S1 & T1); [lra|unfold add2, mul2; apply vec2_ext; cbn [x2 y2]; lra|unfold add2, mul2; apply vec2_ext; cbn [x2 y2]; lra|].
  destruct (right_corner' _ _ _ _ _ _ _ 3 (V2 10 7) (V2 13 10) R2) as (q & b & E2 & A2 & S2 & T2); [lra|unfold add2, mul2; apply vec2_ext; cbn [x2 y2]; lra|unfold add2, mul2; apply vec2_ext; cbn [x2 y2]; lra|].
  exists a, b. 
  assert (F1 : forall rad r, lookup 1 rad = Some r -> arc_features (Rls [V2 0 0; V2 10 0; V2 10 10; V2 20 10] rad false false) 1 = arc_features_of (V2 0 0) (V2 10 0) (V2 10 10) r) by (intros rad r L; unfold arc_features; cbn [rrad]; rewrite L; reflexivity).
  assert (F2 : forall rad r, lookup 2 rad = Some r -> arc_features (Rls [V2 0 0; V2 10 0; V2 10 10; V2 20 10] rad false false) 2 = arc_features_of (V2 10 0) (V2 10 10) (V2 20 10) r) by (intros rad r L; unfold arc_features; cbn [rrad]; rewrite L; reflexivity).
  assert (N : norm2 (sub2 (V2 10 10) (V2 10 0)) = 10) by (apply norm2_of_sq; [lra|]; unfold dot2, sub2; cbn [x2 y2]; lra).
  assert (G : exists gs, groups good = Ok gs).
  { unfold groups, good. cbn [rrad map fst group_loop]. unfold features. rewrite (F1 _ 2) by reflexivity. rewrite E1. cbn [bind]. rewrite (F2 _ 3) by reflexivity. rewrite E2. cbn [bind].
    unfold e_i at 1. cbn [fst Nat.add Nat.eqb getpred geti rpts nth_error bind]. rewrite N. unfold e_d at 1 2. cbn [fst snd]. rewrite (proj2 (Rleb_spec _ _)) by lra. cbn [bind]. eexists. reflexivity. }
  destruct G as [gs G]. unfold rounded_primitives. rewrite G. cbn [bind radapt good]. unfold good. cbn [rrad mapM fst rpts rclosed]. rewrite (F1 _ 2) by reflexivity. rewrite E1. cbn [bind]. rewrite A1. cbn [bind]. rewrite (F2 _ 3) by reflexivity. rewrite E2. cbn [bind]. rewrite A2. cbn [bind].
  unfold primitives_from_arcs. cbn [length Nat.sub seq mapM]. unfold side_primitives. cbn [lookup Nat.eqb Nat.add geti nth_error bind]. rewrite S1, T1, S2, T2. rewrite far_x by dist. cbn [bind]. rewrite far_y by dist. cbn [bind]. rewrite far_x by dist. cbn [bind concat app]. reflexivity.
Qed.
Lemma good_cut : cut good (rrad good) 1 2 /\ cut good (rrad good) 2 3.
Proof.
  assert (R1 : right_at (V2 0 0) (V2 10 0) (V2 10 10) (V2 (-1) 0) (V2 0 1) 10 10) by rightang. assert (R2 : right_at (V2 10 0) (V2 10 10) (V2 20 10) (V2 0 (-1)) (V2 1 0) 10 10) by rightang.
  assert (H : forall p1 p p2 e1 e2, right_at p1 p p2 e1 e2 10 10 -> half_angle p1 p p2 (PI / 4)) by (intros p1 p p2 e1 e2 (A1 & A2 & D & K1 & K2 & -> & ->); apply right_half; auto).
  split; right.
  - exists 2, (V2 0 0), (V2 10 0), (V2 10 10), (PI / 4). split; [left; auto|]. split; [lra|]. split; [unfold corner; cbn; repeat split; auto; try lia; discriminate|]. split; [eapply H; eauto|]. split; [apply cos4|rewrite tan4; auto].
  - exists 3, (V2 10 0), (V2 10 10), (V2 20 10), (PI / 4). split; [right; left; auto|]. split; [lra|]. split; [unfold corner; cbn; repeat split; auto; try lia; discriminate|]. split; [eapply H; eauto|]. split; [apply cos4|rewrite tan4; auto].
Qed.
Lemma good_fits : forall i j, is_side good i j -> side_fits good (rrad good) i j.
Proof.
  assert (D : forall p q k, dot2 (sub2 p q) (sub2 p q) = k * k -> 0 <= k -> point_distance2 p q = k) by (intros p q k H K; apply norm2_of_sq; auto).
  assert (SH : forall i, ~ In i [1%nat; 2%nat] -> cut good (rrad good) i 0) by (intros i H; left; auto). destruct good_cut as [C1 C2].
  intros i j [[H ->]|(H & _)]; [|discriminate]. cbn in H. destruct i as [|[|[|i]]]; [| | |lia].
  - exists (V2 0 0), (V2 10 0), 0, 2. repeat split; auto; [apply SH; cbn; lia|]. rewrite (D _ _ 10); [lra| |lra]. unfold dot2, sub2; cbn [x2 y2]; ring.
  - exists (V2 10 0), (V2 10 10), 2, 3. repeat split; auto. rewrite (D _ _ 10); [lra| |lra]. unfold dot2, sub2; cbn [x2 y2]; ring.
  - exists (V2 10 10), (V2 20 10), 3, 0. repeat split; auto; [apply SH; cbn; lia|]. rewrite (D _ _ 10); [lra| |lra]. unfold dot2, sub2; cbn [x2 y2]; ring.
Qed.
Definition ell : rls := Rls [V2 0 0; V2 10 0; V2 10 10] [(1%nat, 2)] false false.
Lemma ell_ok : exists s', rls_offset ell 1 = Ok s'.
Proof.
  assert (U : forall e k v, axis e -> 0 < k -> v = mul2 e k -> unit_vector2 v = Ok e).
  { intros e k v A K E. apply (unit_of e k); auto. apply norm2_of_sq; [lra|]. unfold dot2. destruct A as [->|[->|[->| ->]]]; cbn [x2 y2]; ring. }
  assert (U1 : unit_vector2 (sub2 (V2 10 0) (V2 0 0)) = Ok (V2 1 0)) by (apply (U _ 10); [unfold axis; auto|lra|unfold sub2, mul2; apply vec2_ext; cbn [x2 y2]; ring]).
  assert (U2 : unit_vector2 (sub2 (V2 0 0) (V2 10 0)) = Ok (V2 (-1) 0)) by (apply (U _ 10); [unfold axis; auto|lra|unfold sub2, mul2; apply vec2_ext; cbn [x2 y2]; ring]).
  assert (U3 : unit_vector2 (sub2 (V2 10 10) (V2 10 0)) = Ok (V2 0 1)) by (apply (U _ 10); [unfold axis; auto|lra|unfold sub2, mul2; apply vec2_ext; cbn [x2 y2]; ring]).
  assert (U4 : unit_vector2 (sub2 (V2 10 0) (V2 10 10)) = Ok (V2 0 (-1))) by (apply (U _ 10); [unfold axis; auto|lra|unfold sub2, mul2; apply vec2_ext; cbn [x2 y2]; ring]).
  unfold rls_offset. assert (V : offset_vectors ell = Ok [V2 1 0; V2 (-1) 0; V2 0 1; V2 0 (-1)]).
  { unfold offset_vectors, ell. cbn [rpts rclosed length Nat.sub seq mapM geti nth_error bind Nat.add]. rewrite U1, U2, U3, U4. reflexivity. }
  rewrite V. cbn [bind]. change (rclosed ell) with false. change (length (rpts ell)) with 3%nat. cbn [Nat.sub seq mapM].
  assert (O : exists c, offset_corner ell [V2 1 0; V2 (-1) 0; V2 0 1; V2 0 (-1)] 1 1 = Ok c).
  { unfold offset_corner. cbn [Nat.mul Nat.add getpred geti nth_error bind].
    assert (NC : is_close2 (add2 (V2 (-1) 0) (V2 0 1)) (V2 0 0) (/ 10 ^ 6) = false).
    { destruct (is_close2 _ _ _) eqn:E; auto. apply is_close2_spec in E; [|apply Rlt_le, pow10_inv_pos]. pose proof (proj1 (coord_dist (add2 (V2 (-1) 0) (V2 0 1)) (V2 0 0))) as X. unfold add2 in X at 1. cbn [x2 y2] in X. rewrite Rabs_left in X by lra. pose proof small6. lra. }
    rewrite NC. assert (UN : exists n, unit_vector2 (add2 (V2 (-1) 0) (V2 0 1)) = Ok n) by (eexists; apply unit2_ok; split; [intros X; apply (f_equal x2) in X; cbn in X; lra|reflexivity]). destruct UN as [n ->]. cbn [bind].
    match goal with |- context [if ?b then (neg2 n, true) else (n, false)] => destruct (if b then (neg2 n, true) else (n, false)) as [ov ck] end.
    rewrite (U (V2 0 (-1)) 1) by (unfold axis; auto; try lra; unfold normal_vector2, mul2; apply vec2_ext; cbn [x2 y2]; ring). cbn [bind]. rewrite (U (V2 (-1) 0) 1) by (unfold axis; auto; try lra; unfold normal_vector2, mul2; apply vec2_ext; cbn [x2 y2]; ring). cbn [bind].
    replace (dot2 (neg2 (V2 0 (-1))) (V2 (-1) 0)) with 0 by (unfold dot2, neg2; cbn [x2 y2]; ring). rewrite (proj2 (Rltb_false _ _)) by (rewrite Rabs_R0; lra). rewrite acos_0. replace (PI / 2 / 2) with (PI / 4) by field.
    rewrite (proj2 (Reqb_false _ _)) by (pose proof cos4; pose proof (pow10_inv_pos 6); lra). cbn [rpts ell nth_error bind]. eexists. reflexivity. }
  destruct O as [c ->]. cbn [bind]. cbn [geti nth_error bind getlast length Nat.sub rpts ell]. eexists. reflexivity.
Qed.
Lemma ell_clear : forall i p1 p p2, corner ell i p1 p p2 -> (rclosed ell = true \/ 0 < i)%nat -> clear_corner p1 p p2.
Proof.
  intros i p1 p p2 C [H|H]; [discriminate|]. destruct C as (C1 & C2 & C3 & _ & C4). specialize (C4 eq_refl). cbn in C1. destruct i as [|[|[|i]]]; try lia; [|discriminate].
  cbn in C2, C3, C4. injection C2 as <-. injection C3 as <-. injection C4 as <-. exists (V2 (-1) 0), (V2 0 1).
  split; [apply norm2_of_sq; [lra|]; unfold dot2; cbn [x2 y2]; ring|]. split; [apply norm2_of_sq; [lra|]; unfold dot2; cbn [x2 y2]; ring|].
  split; [exists 10; split; [lra|]; unfold sub2, mul2; apply vec2_ext; cbn [x2 y2]; ring|]. split; [exists 10; split; [lra|]; unfold sub2, mul2; apply vec2_ext; cbn [x2 y2]; ring|].
  right. pose proof (proj1 (coord_dist (add2 (V2 (-1) 0) (V2 0 1)) (V2 0 0))) as X. unfold point_distance2 in X. unfold add2 in X at 1. cbn [x2 y2] in X. rewrite Rabs_left in X by lra. replace (sub2 (add2 (V2 (-1) 0) (V2 0 1)) (V2 0 0)) with (add2 (V2 (-1) 0) (V2 0 1)) in X by (unfold sub2, add2; apply vec2_ext; cbn [x2 y2]; ring). pose proof small6. lra.
Qed.
