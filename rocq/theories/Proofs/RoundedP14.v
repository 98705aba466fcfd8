From Coq Require Import Reals Lra List Lia Sorted Bool.
From Verif.Model Require Import Base RBase Vec Frame Geometry Curves Edges Arcs Rounded.
From Verif.Spec Require Import VecSpec CurvesSpec ArcsSpec RoundedSpec.
From Verif.Proofs Require Import VecP CurvesP3 EdgesP EdgesP12 ArcsP ArcsP4 RoundedP RoundedP2 RoundedP3 RoundedP4 RoundedP5 RoundedP6 RoundedP7 RoundedP8 RoundedP9 RoundedP10 RoundedP11 RoundedP12 RoundedP13.
Import ListNotations.
Open Scope R_scope.

Definition lp0 : lp_solver := fun c rows b =>
  match c, rows, b with
  | [c1; c2], [(O, S O, m)], [b1; b2] => if Reqb c1 (-1) && Reqb c2 (-1) && Reqb m 10 && Reqb b1 5 && Reqb b2 6 then Ok [4; 6] else Err ValueError
  | _, _, _ => Err ValueError
  end.
Lemma lp0_solves : lp_solves lp0.
Proof.
  intros c rows b x H. unfold lp0 in H. destruct c as [|c1 [|c2 [|]]]; try discriminate. destruct rows as [|[[[|r1] [|[|r2]]] m] [|]]; try discriminate. destruct b as [|b1 [|b2 [|]]]; try discriminate.
  destruct (_ && Reqb b2 6) eqn:E; [|discriminate]. apply Ok_inj in H. subst x. apply andb_prop in E as [E E5]. apply andb_prop in E as [E E4]. apply andb_prop in E as [E E3]. apply andb_prop in E as [E1 E2]. apply Reqb_spec in E1, E2, E3, E4, E5. subst.
  split.
  - split; [auto|]. split.
    + intros [|[|[|j]]] b v B V; cbn in B, V; try discriminate; injection B as <-; injection V as <-; lra.
    + intros a b m v w I V W. cbn in I. destruct I as [I|[]]. injection I as <- <- <-. cbn in V, W. injection V as <-. injection W as <-. lra.
  - intros y (L & B & R). destruct y as [|y1 [|y2 [|]]]; try discriminate. unfold lp_cost. cbn [combine map fst snd fold_right]. assert (y1 + y2 <= 10) by (apply (R 0%nat 1%nat); cbn; auto). lra.
Qed.
Definition grp : rls := Rls [V2 0 0; V2 1 0; V2 1 10; V2 11 10] [(1%nat, 5); (2%nat, 6)] false true.
Lemma near p : seg_unless_close p p = Ok [].
Proof. unfold seg_unless_close. rewrite (proj2 (is_close2_spec p p (/ 10 ^ 6) (Rlt_le _ _ (pow10_inv_pos 6)))); [auto|]. rewrite (proj2 (dist2_zero p p)) by auto. apply Rlt_le, pow10_inv_pos. Qed.
Lemma grp_ok : exists a b, rounded_primitives lp0 grp = Ok ([(1%nat, 4); (2%nat, 6)], [PSeg (V2 0 0, V2 (-3) 0); PArc a; PArc b; PSeg (V2 7 10, V2 11 10)]).
Proof.
  assert (R1 : right_at (V2 0 0) (V2 1 0) (V2 1 10) (V2 (-1) 0) (V2 0 1) 1 10) by rightang. assert (R2 : right_at (V2 1 0) (V2 1 10) (V2 11 10) (V2 0 (-1)) (V2 1 0) 10 10) by rightang.
  destruct (right_corner' _ _ _ _ _ _ _ 5 (V2 (-4) 0) (V2 1 5) R1) as (q0 & a0 & E0 & _); [lra|unfold add2, mul2; apply vec2_ext; cbn [x2 y2]; lra|unfold add2, mul2; apply vec2_ext; cbn [x2 y2]; lra|].
  destruct (right_corner' _ _ _ _ _ _ _ 6 (V2 1 4) (V2 7 10) R2) as (q & b & E2 & A2 & S2 & T2); [lra|unfold add2, mul2; apply vec2_ext; cbn [x2 y2]; lra|unfold add2, mul2; apply vec2_ext; cbn [x2 y2]; lra|].
  destruct (right_corner' _ _ _ _ _ _ _ 4 (V2 (-3) 0) (V2 1 4) R1) as (q1 & a & E1 & A1 & S1 & T1); [lra|unfold add2, mul2; apply vec2_ext; cbn [x2 y2]; lra|unfold add2, mul2; apply vec2_ext; cbn [x2 y2]; lra|].
  exists a, b. set (P := [V2 0 0; V2 1 0; V2 1 10; V2 11 10]).
  assert (F1 : forall rad r, lookup 1 rad = Some r -> arc_features (Rls P rad false true) 1 = arc_features_of (V2 0 0) (V2 1 0) (V2 1 10) r) by (intros rad r L; unfold arc_features; cbn [rrad]; rewrite L; reflexivity).
  assert (F2 : forall rad r, lookup 2 rad = Some r -> arc_features (Rls P rad false true) 2 = arc_features_of (V2 1 0) (V2 1 10) (V2 11 10) r) by (intros rad r L; unfold arc_features; cbn [rrad]; rewrite L; reflexivity).
  assert (N : norm2 (sub2 (V2 1 10) (V2 1 0)) = 10) by (apply norm2_of_sq; [lra|]; unfold dot2, sub2; cbn [x2 y2]; lra).
  assert (G : groups grp = Ok [[(1%nat, 5, PI / 4); (2%nat, 6, PI / 4)]]).
  { unfold groups, grp. fold P. cbn [rrad map fst group_loop]. unfold features. rewrite (F1 _ 5) by reflexivity. rewrite E0. cbn [bind]. rewrite (F2 _ 6) by reflexivity. rewrite E2. cbn [bind].
    unfold e_i at 1. cbn [fst Nat.add Nat.eqb getpred geti rpts P nth_error bind]. rewrite N. unfold e_d at 1 2. cbn [fst snd]. rewrite (proj2 (Rleb_false _ _)) by lra. cbn [radapt rev app]. auto. }
  unfold rounded_primitives. rewrite G. cbn [bind radapt grp]. unfold adapt. cbn [foldM bind filter long concat app map]. cbn [lp_all_rows lp_rows]. unfold e_i, e_a. cbn [fst snd geti rpts grp P nth_error bind]. rewrite N. cbn [bind app mapM lookup rrad grp Nat.eqb Nat.add length].
  cbn [fst snd bind]. cbn [bind]. rewrite tan_PI4. assert (B5 : 5 * cos (PI / 4) / sin (PI / 4) = 5) by (rewrite cos_PI4, sin_PI4; field; apply Rgt_not_eq, Rlt_sqrt2_0). assert (B6 : 6 * cos (PI / 4) / sin (PI / 4) = 6) by (rewrite cos_PI4, sin_PI4; field; apply Rgt_not_eq, Rlt_sqrt2_0). rewrite B5, B6.
  assert (LP : lp0 [-(1); -(1)] [(0%nat, 1%nat, 10)] [5; 6] = Ok [4; 6]). { unfold lp0. rewrite (proj2 (Reqb_spec (-(1)) (-1))), !(proj2 (Reqb_spec _ _)) by lra. reflexivity. }
  rewrite LP. cbn [bind combine fold_left]. unfold set_solution, e_a, e_i. cbn [fst snd]. rewrite tan_PI4. rewrite (proj2 (Rltb_spec (/ 10 ^ 10) (4 * 1))), (proj2 (Rltb_spec (/ 10 ^ 10) (6 * 1))) by (assert (/ 10 ^ 10 < / 1) by (apply Rinv_lt_contravar; lra); lra).
  unfold set_radius. cbn [map fst Nat.eqb]. replace (4 * 1) with 4 by ring. replace (6 * 1) with 6 by ring. cbn [mapM fst]. unfold grp. cbn [rpts rclosed radapt]. fold P. rewrite (F1 _ 4) by reflexivity. rewrite E1. cbn [bind]. rewrite A1. cbn [bind]. rewrite (F2 _ 6) by reflexivity. rewrite E2. cbn [bind]. rewrite A2. cbn [bind].
  unfold P, primitives_from_arcs. cbn [length Nat.sub seq mapM]. unfold side_primitives. cbn [lookup Nat.eqb Nat.add geti nth_error bind]. rewrite S1, T1, S2, T2, near. rewrite far_x by dist. cbn [bind]. rewrite far_x by dist. cbn [bind concat app]. reflexivity.
Qed.
Lemma grp_cut r rad : 0 < r -> In (1%nat, r) rad -> cut grp rad 1 r.
Proof.
  intros R I. right. exists r, (V2 0 0), (V2 1 0), (V2 1 10), (PI / 4). split; auto. split; auto. split; [unfold corner; cbn; repeat split; auto; try lia; discriminate|].
  assert (R1 : right_at (V2 0 0) (V2 1 0) (V2 1 10) (V2 (-1) 0) (V2 0 1) 1 10) by rightang. destruct R1 as (A1 & A2 & D & K1 & K2 & -> & ->).
  split; [apply right_half; auto|]. split; [apply cos4|rewrite tan4; auto].
Qed.
(** the adapted radii do not fit a side whose other end is sharp *)
Lemma adapted_missed : exists lp s rad l, lp_solves lp /\ radapt s = true /\ rounded_primitives lp s = Ok (rad, l) /\ nth_error (rpts s) 0 = Some (V2 0 0) /\ nth_error (rpts s) 1 = Some (V2 1 0) /\
  cut s rad 0 0 /\ cut s rad 1 4 /\ In (PSeg (V2 0 0, V2 (-3) 0)) l.
Proof.
  destruct grp_ok as (a & b & E). exists lp0, grp. do 2 eexists. split; [apply lp0_solves|]. split; [reflexivity|]. split; [exact E|]. split; [reflexivity|]. split; [reflexivity|].
  split; [left; split; auto; cbn; lia|]. split; [apply grp_cut; [lra|left; auto]|left; auto].
Qed.
(** a point in the middle of a straight line cannot be rounded *)
Lemma straight_features p1 p p2 r : 0 < r -> p1 <> p -> p2 <> p -> dot2 (sub2 p1 p) (sub2 p2 p) = - (point_distance2 p1 p * point_distance2 p2 p) ->
  exists q d a, arc_features_of p1 p p2 r = Ok (p, q, p, d, a).
Proof.
  intros R N1 N2 D. unfold point_distance2 in D. set (d1 := norm2 (sub2 p1 p)) in *. set (d2 := norm2 (sub2 p2 p)) in *.
  assert (NZ : forall u v, u <> v -> sub2 u v <> V2 0 0) by (intros u v X Y; apply X; pose proof (f_equal x2 Y) as YX; pose proof (f_equal y2 Y) as YY; unfold sub2 in YX, YY; cbn [x2 y2] in YX, YY; apply vec2_ext; lra).
  assert (P1 : 0 < d1) by (apply norm2_ne, NZ; auto). assert (P2 : 0 < d2) by (apply norm2_ne, NZ; auto).
  assert (Q1 : d1 * d1 = dot2 (sub2 p1 p) (sub2 p1 p)) by apply norm2_sq. assert (Q2 : d2 * d2 = dot2 (sub2 p2 p) (sub2 p2 p)) by apply norm2_sq.
  assert (Q3 : norm2 (sub2 p1 p2) ^ 2 = d1 * d1 + d2 * d2 + 2 * (d1 * d2)).
  { replace (norm2 (sub2 p1 p2) ^ 2) with (norm2 (sub2 p1 p2) * norm2 (sub2 p1 p2)) by ring. rewrite norm2_sq, Q1, Q2. transitivity (dot2 (sub2 p1 p) (sub2 p1 p) + dot2 (sub2 p2 p) (sub2 p2 p) - 2 * dot2 (sub2 p1 p) (sub2 p2 p)); [unfold dot2, sub2; cbn [x2 y2]; ring|rewrite D; ring]. }
  assert (PP : 0 < d1 * d2) by (apply Rmult_lt_0_compat; auto).
  unfold arc_features_of. fold d1 d2. rewrite Q3. rewrite (proj2 (Reqb_false _ _)) by lra. replace (- (d1 * d1 + d2 * d2 + 2 * (d1 * d2) - d1 ^ 2 - d2 ^ 2) / (2 * d1 * d2)) with (-1) by (field; lra).
  rewrite (proj2 (Rltb_false _ _)) by (rewrite Rabs_left by lra; lra).
  assert (AC : acos (-1) = PI). { assert (X : acos (- (1)) = PI - acos 1) by apply acos_opp. rewrite acos_1 in X. replace (-1) with (-(1)) by ring. lra. } rewrite AC.
  rewrite sin_PI2, cos_PI2. rewrite (proj2 (Reqb_false 1 0)) by lra.
  unfold div2. rewrite !(proj2 (Reqb_false _ _)) by lra. cbn [bind]. replace (r * 0 / 1) with 0 by field.
  set (u1 := V2 (x2 (sub2 p1 p) / d1) (y2 (sub2 p1 p) / d1)). set (u2 := V2 (x2 (sub2 p2 p) / d2) (y2 (sub2 p2 p) / d2)).
  assert (Z : add2 u1 u2 = V2 0 0).
  { assert (SQ : dot2 (add2 u1 u2) (add2 u1 u2) = 0).
    { assert (X : dot2 (add2 u1 u2) (add2 u1 u2) = dot2 (sub2 p1 p) (sub2 p1 p) / (d1 * d1) + dot2 (sub2 p2 p) (sub2 p2 p) / (d2 * d2) + 2 * (dot2 (sub2 p1 p) (sub2 p2 p) / (d1 * d2))) by (unfold dot2, add2, u1, u2; cbn [x2 y2]; field; lra).
      rewrite X, D, <- Q1, <- Q2. field. lra. }
    apply dot2_zero in SQ. exact SQ. }
  rewrite Z. rewrite (proj2 (is_close2_spec (V2 0 0) (V2 0 0) (/ 10 ^ 6) (Rlt_le _ _ (pow10_inv_pos 6)))) by (rewrite (proj2 (dist2_zero _ _)) by auto; apply Rlt_le, pow10_inv_pos). cbn [bind].
  assert (UN : exists n, unit_normal_vector2 u1 = Ok n).
  { unfold unit_normal_vector2. eexists. apply unit2_ok. split; [|reflexivity]. intros X. pose proof (f_equal x2 X) as X1. pose proof (f_equal y2 X) as X2. unfold normal_vector2, u1 in X1, X2. cbn [x2 y2] in X1, X2.
    assert (x2 (sub2 p1 p) = 0) by (apply Rmult_eq_reg_r with (/ d1); [lra|apply Rinv_neq_0_compat; lra]). assert (y2 (sub2 p1 p) = 0) by (apply Rmult_eq_reg_r with (/ d1); [lra|apply Rinv_neq_0_compat; lra]). apply (NZ _ _ N1). apply vec2_ext; auto. }
  destruct UN as (n & ->). cbn [bind]. do 3 eexists. f_equal. repeat f_equal; unfold add2, mul2; apply vec2_ext; cbn [x2 y2]; ring.
Qed.
Lemma straight_corner_fails lp s i r p1 p p2 : radapt s = false -> In (i, r) (rrad s) -> lookup i (rrad s) = Some r -> 0 < r -> corner s i p1 p p2 -> p1 <> p -> p2 <> p ->
  dot2 (sub2 p1 p) (sub2 p2 p) = - (point_distance2 p1 p * point_distance2 p2 p) -> ~ exists x, rounded_primitives lp s = Ok x.
Proof.
  intros AD I LK R C N1 N2 D [[rad l] H]. destruct (straight_features p1 p p2 r R N1 N2 D) as (q & d & a & E). unfold rounded_primitives in H. apply bind_ok in H as (gs & _ & H). rewrite AD in H. cbn [bind] in H.
  apply bind_ok in H as (arcs & A & _). destruct (In_nth_error _ _ I) as (k & K). destruct (mapM_nth _ _ _ k (i, r) A K) as (b & _ & B). cbn [fst] in B.
  unfold arc_features in B. cbn [rrad] in B. rewrite LK in B. assert (G : get_points (Rls (rpts s) (rrad s) (rclosed s) false) i = get_points s i) by reflexivity. rewrite G in B. rewrite (proj2 (get_points_corner s i p1 p p2) C) in B. cbn [bind] in B. rewrite E in B. cbn [bind] in B.
  rewrite three_points_aligned in B; [discriminate|]. unfold det3p, cross2, sub2; cbn [x2 y2]; ring.
Qed.
