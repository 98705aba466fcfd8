(** What ordering does not do. *)
From Coq Require Import Reals List Permutation Lra Lia Bool.
From Verif.Model Require Import Base RBase Vec Frame Geometry Curves Edges Wires.
From Verif.Spec Require Import VecSpec EdgesSpec WiresSpec.
From Verif.Proofs Require Import VecP GeometryP EdgesP WiresP WiresP2 WiresP3 WiresP4 WiresP5 WiresP6.
Import ListNotations.
Open Scope R_scope.

Lemma norm2_of_sq' u x : 0 <= x -> dot2 u u = x * x -> norm2 u = x.
Proof. intros H E. rewrite norm2_dot, E. apply sqrt_square, H. Qed.
Lemma tol6 : 0 <= / 10 ^ 6.
Proof. pose proof (pow10_inv_pos 6). lra. Qed.
Lemma tol6_1 : / 10 ^ 6 < 1.
Proof. apply Rmult_lt_reg_r with (10 ^ 6); [lra|]. rewrite Rinv_l by lra. lra. Qed.
Lemma close_self p : is_close2 p p (/ 10 ^ 6) = true.
Proof. apply is_close2_spec; [apply tol6|]. assert (point_distance2 p p = 0) by (apply dist2_zero; auto). pose proof tol6. lra. Qed.
Lemma dist_ge a b c d : 1 <= (a - c) * (a - c) + (b - d) * (b - d) -> 1 <= point_distance2 (V2 a b) (V2 c d).
Proof.
  intros H. pose proof (norm2_pos (sub2 (V2 a b) (V2 c d))) as P. pose proof (norm2_sq (sub2 (V2 a b) (V2 c d))) as S. unfold point_distance2. cbn [dot2 sub2 x2 y2] in S. unfold dot2, sub2 in S. cbn [x2 y2] in S. unfold sub2 in *. cbn [x2 y2] in *. nra.
Qed.
Lemma close_far a b c d : 1 <= (a - c) * (a - c) + (b - d) * (b - d) -> is_close2 (V2 a b) (V2 c d) (/ 10 ^ 6) = false.
Proof.
  intros H. destruct (is_close2 (V2 a b) (V2 c d) (/ 10 ^ 6)) eqn:C; auto. apply is_close2_spec in C; [|apply tol6]. pose proof (dist_ge a b c d H). pose proof tol6_1. lra.
Qed.
Lemma long_ge a b c d : 1 <= (a - c) * (a - c) + (b - d) * (b - d) -> isclose (sg2_length (V2 a b, V2 c d)) 0 (/ 10 ^ 6) = false.
Proof.
  intros H. apply isclose_0_false; [apply tol6|]. unfold sg2_length. cbn [fst snd]. rewrite dist2_sym. pose proof (dist_ge a b c d H). rewrite Rabs_right by lra. pose proof tol6_1. lra.
Qed.
Ltac closes_step := first [rewrite close_self | rewrite close_far by lra].
(** a closed wire that goes twice through a point, given in another order *)
Definition two_triangles : list sg2 :=
  [(V2 1 1, V2 1 (-1)); (V2 1 (-1), V2 0 0); (V2 0 0, V2 1 1); (V2 0 0, V2 (-1) 1); (V2 (-1) 1, V2 (-1) (-1)); (V2 (-1) (-1), V2 0 0)].
Definition eight : list sg2 :=
  [(V2 1 1, V2 1 (-1)); (V2 1 (-1), V2 0 0); (V2 0 0, V2 (-1) 1); (V2 (-1) 1, V2 (-1) (-1)); (V2 (-1) (-1), V2 0 0); (V2 0 0, V2 1 1)].
Lemma dist_self2 p : point_distance2 p p = 0.
Proof. apply dist2_zero; auto. Qed.
Lemma ordering_fails : exists w r, (forall tol, 0 <= tol -> contour_is_ordered segments2 r tol = Ok true) /\ Permutation w r /\
  order_wire segments2 w (/ 10 ^ 6) = Err NotImplementedError /\ order_contour segments2 w (/ 10 ^ 6) = Err NotImplementedError.
Proof.
  exists two_triangles, eight.
  assert (Or : ordering_primitives segments2 two_triangles (/ 10 ^ 6) = Err NotImplementedError).
  { unfold ordering_primitives, two_triangles. cbn [filter e_length segments2]. rewrite !long_ge by lra. cbn [negb].
    cbn [length ordering_loop]. unfold attach_first at 1. unfold attach at 1, extremity at 1. cbn [last e_end e_start p_close segments2 fst snd]. rewrite close_self. cbn [orb app].
    cbn [ordering_loop]. unfold attach_first at 1. unfold attach at 1, extremity at 1. cbn [last e_end e_start p_close segments2 fst snd]. rewrite close_self. cbn [orb app].
    cbn [ordering_loop attach_first]. unfold attach, extremity. cbn [last e_end e_start p_close segments2 fst snd]. rewrite !close_far by lra. reflexivity. }
  split; [|split; [|split]].
  - intros tol T. destruct (contour_ordered_spec segments2 segments2_ok eight tol T) as (b & B & S); [discriminate|]. rewrite B. f_equal. apply S. unfold eight.
    split; [repeat (apply joined_cons; split; [cbn; rewrite dist_self2; lra|]); apply joined_one|]. split; [|split; intros; discriminate].
    intros e f w' Q ->. apply (f_equal (fun l => hd e l)) in Q. cbn [hd] in Q. rewrite <- Q. cbn. rewrite dist_self2. lra.
  - unfold two_triangles, eight. do 2 apply perm_skip. apply (Permutation_cons_append [_; _; _]).
  - unfold order_wire. replace (wire_is_ordered segments2 two_triangles (/ 10 ^ 6)) with false; [exact Or|]. symmetry. destruct (wire_is_ordered segments2 two_triangles (/ 10 ^ 6)) eqn:W; auto. apply wire_ordered_iff in W.
    specialize (W [(V2 1 1, V2 1 (-1)); (V2 1 (-1), V2 0 0)] (V2 0 0, V2 1 1) (V2 0 0, V2 (-1) 1) _ eq_refl). cbn [e_end e_start p_dist segments2 fst snd] in W. pose proof (dist_ge 1 1 0 0 ltac:(lra)). pose proof tol6_1. lra.
  - unfold order_contour. destruct (contour_ordered_spec segments2 segments2_ok two_triangles (/ 10 ^ 6) tol6) as (b & B & S); [discriminate|]. rewrite B. cbn [bind]. destruct b; [|exact Or].
    destruct (proj1 S eq_refl) as (W & _). exfalso.
    specialize (W [(V2 1 1, V2 1 (-1)); (V2 1 (-1), V2 0 0)] (V2 0 0, V2 1 1) (V2 0 0, V2 (-1) 1) _ eq_refl). cbn [e_end e_start p_dist segments2 fst snd] in W. pose proof (dist_ge 1 1 0 0 ltac:(lra)). pose proof tol6_1. lra.
Qed.
(** an open chain is not refused *)
Definition open_chain : list sg2 := [(V2 0 0, V2 1 0); (V2 1 0, V2 1 1); (V2 1 1, V2 0 3)].
Lemma order_contour_open : exists w r, order_contour segments2 w (/ 10 ^ 6) = Ok r /\ contour_is_ordered segments2 r (/ 10 ^ 6) = Ok false.
Proof.
  exists open_chain, open_chain.
  assert (N : contour_is_ordered segments2 open_chain (/ 10 ^ 6) = Ok false).
  { destruct (contour_ordered_spec segments2 segments2_ok open_chain (/ 10 ^ 6) tol6) as (b & B & S); [discriminate|]. rewrite B. f_equal. destruct b; auto. destruct (proj1 S eq_refl) as (_ & C & _). exfalso.
    specialize (C _ _ _ eq_refl eq_refl). cbn [last open_chain e_end e_start p_dist segments2 fst snd] in C. pose proof (dist_ge 0 3 0 0 ltac:(lra)). pose proof tol6_1. lra. }
  split; auto. unfold order_contour. rewrite N. cbn [bind]. change (false || (length open_chain <? 2)%nat) with false.
  unfold ordering_primitives, open_chain. cbn [filter e_length segments2]. rewrite !long_ge by lra. cbn [negb].
  cbn [length ordering_loop]. unfold attach_first at 1. unfold attach at 1, extremity at 1. cbn [last e_end e_start p_close segments2 fst snd]. rewrite close_self. cbn [orb app].
  cbn [ordering_loop]. unfold attach_first at 1. unfold attach at 1, extremity at 1. cbn [last e_end e_start p_close segments2 fst snd]. rewrite close_self. cbn [orb app]. reflexivity.
Qed.
(** STEP: an open list of edges is not refused *)
Lemma reorder_open : exists raw l, reorder_step segments2 raw = Ok (Some l) /\ ~ closes segments2 (/ 10 ^ 6) l.
Proof.
  exists (rev open_chain), open_chain. split.
  - unfold reorder_step. rewrite rev_involutive. replace (reversed_follow segments2 open_chain) with true; auto. cbn [reversed_follow open_chain p_dist e_start e_end segments2 fst snd].
    rewrite !dist_self2. pose proof (pow10_inv_pos 6). replace (Rltb 0 (/ 10 ^ 6)) with true by (symmetry; apply Rltb_spec; auto). reflexivity.
  - intros C. specialize (C _ _ _ eq_refl eq_refl). cbn [last open_chain e_end e_start p_dist segments2 fst snd] in C. pose proof (dist_ge 0 3 0 0 ltac:(lra)). pose proof tol6_1. lra.
Qed.
(** an abscissa before the start is not refused *)
Lemma wire_at_before : exists w s p, s < 0 /\ wire_at segments2 w s = Ok p /\ forall e, In e w -> ~ near_segment2 e p 1.
Proof.
  exists [(V2 0 0, V2 1 0)], (-5). assert (Pr : fst (V2 0 0, V2 1 0) <> snd (V2 0 0, V2 1 0)) by (cbn; intros Q; injection Q; lra).
  pose proof (sg2_pat_param (V2 0 0, V2 1 0) (-5) Pr) as Q.
  assert (L : sg2_length (V2 0 0, V2 1 0) = 1). { unfold sg2_length, point_distance2. cbn [fst snd]. apply norm2_of_sq'; [lra|]. unfold dot2, sub2. cbn [x2 y2]. ring. }
  rewrite L in Q. eexists. split; [lra|]. split.
  - refine (eq_trans (wire_at_negative segments2 _ _ _ segments2_ok _) Q). lra.
  - intros e [<- | []] (q & (t & T & ->) & D). unfold seg2, at_param2 in *. cbn [fst snd] in *.
    revert D. unfold add2, mul2, sub2. cbn [x2 y2]. intros D.
    match type of D with ?x <= 1 => assert (G : 0 <= x <= 1) by (split; [apply norm2_pos|auto]) end. unfold point_distance2 in *.
    pose proof (norm2_sq (sub2 (V2 (0 + (1 - 0) * (-5 / 1)) (0 + (0 - 0) * (-5 / 1))) (V2 (0 + (1 - 0) * t) (0 + (0 - 0) * t)))) as S. unfold dot2, sub2 in *. cbn [x2 y2] in *.
    match type of G with 0 <= ?x <= 1 => set (n := x) in * end. clearbody n. nra.
Qed.
(** rotating at a point of the contour that is no corner *)
Lemma reorder_at_lost : exists w p, contour_is_ordered segments2 w (/ 10 ^ 6) = Ok true /\ (exists e, In e w /\ on_segment2 e p) /\ reorder_contour_at_point segments2 w p = [].
Proof.
  exists [(V2 0 0, V2 2 0); (V2 2 0, V2 0 2); (V2 0 2, V2 0 0)], (V2 1 0). split; [|split].
  - destruct (contour_ordered_spec segments2 segments2_ok [(V2 0 0, V2 2 0); (V2 2 0, V2 0 2); (V2 0 2, V2 0 0)] (/ 10 ^ 6) tol6) as (b & B & S); [discriminate|]. rewrite B. f_equal. apply S. pose proof tol6.
    split; [repeat (apply joined_cons; split; [cbn [e_end e_start p_dist segments2 fst snd]; rewrite dist_self2; lra|]); apply joined_one|]. split; [|split; intros; discriminate].
    intros e f w' Q ->. apply (f_equal (fun l => hd e l)) in Q. cbn [hd] in Q. rewrite <- Q. cbn [last e_end e_start p_dist segments2 fst snd]. rewrite dist_self2. lra.
  - eexists. split; [left; reflexivity|]. exists (1 / 2). split; [lra|]. unfold at_param2. cbn [fst snd]. unfold add2, mul2, sub2. apply vec2_ext; cbn [x2 y2]; lra.
  - apply (reorder_at_point_none segments2 segments2_ok). pose proof tol6_1. intros e [<- | [<- | [<- | []]]]; cbn [e_start p_dist segments2 fst snd].
    + pose proof (dist_ge 0 0 1 0 ltac:(lra)). lra.
    + pose proof (dist_ge 2 0 1 0 ltac:(lra)). lra.
    + pose proof (dist_ge 0 2 1 0 ltac:(lra)). lra.
Qed.
(** points that follow each other closely leave a gap *)
Definition step9 : R := 9 / 10 * / 10 ^ 6.
Lemma from_points_gap : exists pts c, NoDup pts /\ contour_from_points pts = Ok c /\ contour_is_ordered segments2 c (/ 10 ^ 6) = Ok false.
Proof.
  exists [V2 0 0; V2 2 0; V2 2 step9; V2 2 (2 * step9); V2 0 2]. pose proof (pow10_inv_pos 6) as T. pose proof tol6_1 as T1. assert (S9 : 0 < step9 < / 10 ^ 6) by (unfold step9; lra). assert (S9' : / 10 ^ 6 < 2 * step9) by (unfold step9; lra).
  eexists. split; [|split].
  - repeat constructor; cbn; intros H; repeat destruct H as [H | H]; try (injection H; intros; lra); auto.
  - unfold contour_from_points. cbn [length Nat.ltb Nat.leb open_sides last].
    assert (C : forall a, is_close2 (V2 2 a) (V2 2 (a + step9)) (/ 10 ^ 6) = true).
    { intros a. apply is_close2_spec; [lra|]. unfold point_distance2. rewrite (norm2_of_sq' _ step9); [lra|lra|]. unfold dot2, sub2. cbn [x2 y2]. ring. }
    pose proof (C 0) as C0. rewrite Rplus_0_l in C0. pose proof (C step9) as C1. replace (step9 + step9) with (2 * step9) in C1 by ring. rewrite C0, C1.
    rewrite (close_far 0 0 2 0) by lra. rewrite (close_far 2 (2 * step9) 0 2) by nra. rewrite (close_far 0 2 0 0) by lra.
    rewrite !segment2_ok by (intros Q; injection Q; intros; lra). cbn [bind app]. reflexivity.
  - match goal with |- contour_is_ordered _ ?w _ = _ => destruct (contour_ordered_spec segments2 segments2_ok w (/ 10 ^ 6) tol6) as (b & B & S); [discriminate|] end. rewrite B. f_equal. destruct b; auto.
    destruct (proj1 S eq_refl) as (J & _). exfalso. specialize (J [] _ _ _ eq_refl). cbn [e_end e_start p_dist segments2 fst snd] in J. unfold point_distance2 in J.
    rewrite (norm2_of_sq' _ (2 * step9)) in J; [lra|lra|]. unfold dot2, sub2. cbn [x2 y2]. ring.
Qed.
