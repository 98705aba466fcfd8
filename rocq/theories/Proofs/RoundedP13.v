From Coq Require Import Reals Lra List Lia Sorted.
From Verif.Model Require Import Base RBase Vec Frame Geometry Curves Edges Arcs Rounded.
From Verif.Spec Require Import VecSpec CurvesSpec ArcsSpec RoundedSpec.
From Verif.Proofs Require Import VecP CurvesP3 EdgesP EdgesP12 ArcsP ArcsP4 RoundedP RoundedP2 RoundedP3 RoundedP4 RoundedP5 RoundedP6 RoundedP7 RoundedP9 RoundedP10 RoundedP11 RoundedP12.
Import ListNotations.
Open Scope R_scope.

Definition right_at p1 p p2 e1 e2 k1 k2 : Prop := axis e1 /\ axis e2 /\ dot2 e1 e2 = 0 /\ 0 < k1 /\ 0 < k2 /\ p1 = add2 p (mul2 e1 k1) /\ p2 = add2 p (mul2 e2 k2).
Lemma right_corner' p1 p p2 e1 e2 k1 k2 r p3 p4 : right_at p1 p p2 e1 e2 k1 k2 -> 0 < r -> p3 = add2 p (mul2 e1 r) -> p4 = add2 p (mul2 e2 r) ->
  exists q a, arc_features_of p1 p p2 r = Ok (p3, q, p4, r, PI / 4) /\ arc2_from_3_points p3 q p4 = Ok a /\ ast a = p3 /\ aen a = p4.
Proof. intros (A1 & A2 & D & K1 & K2 & -> & ->) R -> ->. apply right_corner; auto. Qed.
Ltac rightang := unfold right_at, axis; repeat split; try lra; try (unfold dot2; cbn [x2 y2]; lra); try (unfold add2, mul2; apply vec2_ext; cbn [x2 y2]; lra); auto 6.
Lemma far p q : (/ 10 ^ 6 < Rabs (x2 p - x2 q) \/ / 10 ^ 6 < Rabs (y2 p - y2 q)) -> seg_unless_close p q = Ok [PSeg (p, q)].
Proof.
  intros H. unfold seg_unless_close. destruct (coord_dist p q) as [X Y]. destruct (is_close2 p q (/ 10 ^ 6)) eqn:E.
  - apply is_close2_spec in E; [|left; apply Rinv_0_lt_compat, pow_lt; lra]. lra.
  - unfold seg. rewrite segment2_ok; auto. intros ->. pose proof (pow10_inv_pos 6). rewrite !Rminus_diag_eq, !Rabs_R0 in H by auto. lra.
Qed.
Lemma far_x p q : / 10 ^ 6 < Rabs (x2 p - x2 q) -> seg_unless_close p q = Ok [PSeg (p, q)]. Proof. intros; apply far; auto. Qed.
Lemma far_y p q : / 10 ^ 6 < Rabs (y2 p - y2 q) -> seg_unless_close p q = Ok [PSeg (p, q)]. Proof. intros; apply far; auto. Qed.
Lemma small6 : / 10 ^ 6 < / 100. Proof. apply Rinv_lt_contravar; lra. Qed.
Ltac dist := pose proof small6; cbn [x2 y2]; unfold Rabs; destruct (Rcase_abs _); lra.
Definition lone : rls := Rls [V2 0 0; V2 1 0; V2 1 1] [(1%nat, 3)] false false.
Lemma lone_ok lp : exists a, rounded_primitives lp lone = Ok ([(1%nat, 3)], [PSeg (V2 0 0, V2 (-2) 0); PArc a; PSeg (V2 1 3, V2 1 1)]).
Proof.
  destruct (right_corner' (V2 0 0) (V2 1 0) (V2 1 1) (V2 (-1) 0) (V2 0 1) 1 1 3 (V2 (-2) 0) (V2 1 3)) as (q & a & E1 & E2 & S1 & S2); [rightang|lra|unfold add2, mul2; apply vec2_ext; cbn [x2 y2]; lra|unfold add2, mul2; apply vec2_ext; cbn [x2 y2]; lra|].
  exists a. unfold rounded_primitives, groups, lone. cbn [rrad map fst group_loop]. unfold features, arc_features. cbn [rrad lookup Nat.eqb]. unfold get_points. cbn [getpred geti rpts nth_error bind rclosed length Nat.add].
  rewrite E1. cbn [bind rev app mapM radapt]. cbn [rpts rrad lookup Nat.eqb fst]. cbn [bind]. unfold get_points. cbn [getpred geti rpts nth_error bind rclosed length Nat.add]. rewrite E1. cbn [bind]. rewrite E2. cbn [bind].
  unfold primitives_from_arcs. cbn [length Nat.sub seq mapM]. unfold side_primitives. cbn [lookup Nat.eqb Nat.add geti nth_error bind]. rewrite S1, S2. rewrite far_x by dist. cbn [bind]. rewrite far_y by dist. cbn [bind concat app]. reflexivity.
Qed.
(** the lone radius is too large for its sides: the wire goes back *)
Lemma overlap_missed : exists s rad l a, radapt s = false /\ (forall lp, rounded_primitives lp s = Ok (rad, l)) /\ In (PSeg (V2 0 0, a)) l /\ nth_error (rpts s) 0 = Some (V2 0 0) /\ nth_error (rpts s) 1 = Some (V2 1 0) /\
  ~ (forall p q, In (PSeg (p, q)) l -> exists i j u v, is_side s i j /\ nth_error (rpts s) i = Some u /\ nth_error (rpts s) j = Some v /\ part_of u v p q).
Proof.
  exists lone, [(1%nat, 3)]. assert (X : exists a, forall lp, rounded_primitives lp lone = Ok ([(1%nat, 3)], [PSeg (V2 0 0, V2 (-2) 0); PArc a; PSeg (V2 1 3, V2 1 1)])).
  { destruct (lone_ok (fun _ _ _ => Err ValueError)) as (a & A). exists a. intros lp. destruct (lone_ok lp) as (b & B). rewrite B. assert (E : rounded_primitives lp lone = rounded_primitives (fun _ _ _ => Err ValueError) lone) by reflexivity. rewrite A, B in E. exact E. }
  destruct X as (a & A). eexists. exists (V2 (-2) 0). split; [reflexivity|]. split; [exact A|]. split; [left; reflexivity|]. split; [reflexivity|]. split; [reflexivity|].
  intros H. destruct (H (V2 0 0) (V2 (-2) 0)) as (i & j & u & v & S & U & V & (t1 & t2 & T & T2 & E1 & E2)); [left; reflexivity|].
  assert (UI : 0 <= x2 u). { destruct i as [|[|[|i]]]; cbn in U; try (injection U as <-; cbn; lra). destruct i; discriminate. }
  assert (VI : 0 <= x2 v). { destruct j as [|[|[|j]]]; cbn in V; try (injection V as <-; cbn; lra). destruct j; discriminate. }
  pose proof (f_equal x2 E2) as X. unfold add2, mul2, sub2 in X. cbn [x2 y2] in X. assert (0 <= (1 - t2) * x2 u) by (apply Rmult_le_pos; lra). assert (0 <= t2 * x2 v) by (apply Rmult_le_pos; lra). lra.
Qed.
(** the corners n - 1 and 0 of a closed polyline are never compared *)
Definition wrap : rls := Rls [V2 0 0; V2 10 0; V2 10 10; V2 0 10] [(0%nat, 9); (3%nat, 9)] true false.
Lemma wrap_ok : exists a b, forall lp, rounded_primitives lp wrap = Ok ([(0%nat, 9); (3%nat, 9)], [PArc a; PSeg (V2 9 0, V2 10 0); PSeg (V2 10 0, V2 10 10); PSeg (V2 10 10, V2 9 10); PArc b; PSeg (V2 0 1, V2 0 9)]).
Proof.
  destruct (right_corner' (V2 0 10) (V2 0 0) (V2 10 0) (V2 0 1) (V2 1 0) 10 10 9 (V2 0 9) (V2 9 0)) as (q & a & E1 & E2 & S1 & S2); [rightang|lra|unfold add2, mul2; apply vec2_ext; cbn [x2 y2]; lra|unfold add2, mul2; apply vec2_ext; cbn [x2 y2]; lra|].
  destruct (right_corner' (V2 10 10) (V2 0 10) (V2 0 0) (V2 1 0) (V2 0 (-1)) 10 10 9 (V2 9 10) (V2 0 1)) as (q' & b & E1' & E2' & S1' & S2'); [rightang|lra|unfold add2, mul2; apply vec2_ext; cbn [x2 y2]; lra|unfold add2, mul2; apply vec2_ext; cbn [x2 y2]; lra|].
  exists a, b. intros lp. assert (F0 : forall rad, lookup 0 rad = Some 9 -> arc_features (Rls [V2 0 0; V2 10 0; V2 10 10; V2 0 10] rad true false) 0 = Ok (V2 0 9, q, V2 9 0, 9, PI / 4)).
  { intros rad L. unfold arc_features. cbn [rrad]. rewrite L. unfold get_points. cbn [getpred getlast geti rpts nth_error bind rclosed length Nat.add Nat.sub Nat.ltb Nat.leb]. exact E1. }
  assert (F3 : forall rad, lookup 3 rad = Some 9 -> arc_features (Rls [V2 0 0; V2 10 0; V2 10 10; V2 0 10] rad true false) 3 = Ok (V2 9 10, q', V2 0 1, 9, PI / 4)).
  { intros rad L. unfold arc_features. cbn [rrad]. rewrite L. unfold get_points. cbn [getpred getlast geti rpts nth_error bind rclosed length Nat.add Nat.sub Nat.ltb Nat.leb]. exact E1'. }
  unfold rounded_primitives, groups, wrap. cbn [rrad map fst group_loop]. unfold features. rewrite F0 by reflexivity. cbn [bind]. rewrite F3 by reflexivity. cbn [bind]. unfold e_i at 1. cbn [fst Nat.add Nat.eqb bind rev app radapt mapM rpts rclosed].
  rewrite F0 by reflexivity. cbn [bind]. rewrite E2. cbn [bind]. rewrite F3 by reflexivity. cbn [bind]. rewrite E2'. cbn [bind].
  unfold primitives_from_arcs. cbn [length Nat.sub seq mapM]. unfold side_primitives. cbn [lookup Nat.eqb Nat.add geti nth_error bind]. rewrite S1, S2, S1', S2'. rewrite far_x by dist. cbn [bind]. unfold seg at 1. rewrite segment2_ok by (intros Q; apply (f_equal y2) in Q; cbn in Q; lra). cbn [bind]. rewrite far_x by dist. cbn [bind]. rewrite far_y by dist. cbn [bind concat app]. reflexivity.
Qed.
Lemma wrap_missed : exists s rad l, radapt s = false /\ rclosed s = true /\ (forall lp, rounded_primitives lp s = Ok (rad, l)) /\
  cut s (rrad s) 3 9 /\ cut s (rrad s) 0 9 /\ nth_error (rpts s) 3 = Some (V2 0 10) /\ nth_error (rpts s) 0 = Some (V2 0 0) /\ length (rpts s) = 4%nat /\ In (PSeg (V2 0 1, V2 0 9)) l.
Proof.
  destruct wrap_ok as (a & b & W). exists wrap. do 2 eexists. split; [reflexivity|]. split; [reflexivity|]. split; [exact W|].
  assert (C : forall i p1 p p2 e1 e2, In (i, 9) (rrad wrap) -> corner wrap i p1 p p2 -> right_at p1 p p2 e1 e2 10 10 -> cut wrap (rrad wrap) i 9).
  { intros i p1 p p2 e1 e2 I K (A1 & A2 & D & K1 & K2 & -> & ->). right. exists 9, (add2 p (mul2 e1 10)), p, (add2 p (mul2 e2 10)), (PI / 4). split; auto. split; [lra|]. split; auto. split; [apply right_half; auto|]. split; [apply cos4|rewrite tan4; auto]. }
  split; [|split; [|split; [reflexivity|split; [reflexivity|split; [reflexivity|do 5 right; left; reflexivity]]]]].
  - apply (C 3%nat (V2 10 10) (V2 0 10) (V2 0 0) (V2 1 0) (V2 0 (-1))); [right; left; reflexivity| |rightang]. unfold corner. cbn. repeat split; auto; discriminate.
  - apply (C 0%nat (V2 0 10) (V2 0 0) (V2 10 0) (V2 0 1) (V2 1 0)); [left; reflexivity| |rightang]. unfold corner. cbn. repeat split; auto; try lia; discriminate.
Qed.
