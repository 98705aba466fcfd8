(** Lines in 3D: the intersection of two lines. *)
From Coq Require Import Reals Lra Lia List Bool ZArith.
From Verif.Model Require Import Base RBase Vec Frame Geometry Curves.
From Verif.Spec Require Import VecSpec FrameSpec PlaneSpec CurvesSpec.
From Verif.Proofs Require Import VecP LineP FrameP PlaneP PlaneP2 PlaneP3 PlaneP4 CurvesP.
Import ListNotations.
Open Scope R_scope.

Lemma skew_foot l m s : cross3 (dir3 l) (dir3 m) <> V3 0 0 0 ->
  s = (dot3 (sub3 (fst l) (fst m)) (dir3 m) * dot3 (dir3 m) (dir3 l) - dot3 (sub3 (fst l) (fst m)) (dir3 l) * dot3 (dir3 m) (dir3 m)) / (dot3 (dir3 l) (dir3 l) * dot3 (dir3 m) (dir3 m) - dot3 (dir3 l) (dir3 m) * dot3 (dir3 m) (dir3 l)) ->
  exists t, point_distance3 (seg3 (fst l) (snd l) s) (seg3 (fst m) (snd m) t) = Rabs (dot3 (sub3 (fst m) (fst l)) (cross3 (dir3 l) (dir3 m))) / norm3 (cross3 (dir3 l) (dir3 m)).
Proof.
  intros C Es. pose proof (norm3_ne _ C) as P. set (u := dir3 l) in *. set (v := dir3 m) in *. set (w := sub3 (fst m) (fst l)). set (n := cross3 u v) in *.
  assert (S : dot3 n n <> 0) by (rewrite <- norm3_sq; nra).
  assert (Es' : s = dot3 (cross3 w v) n / dot3 n n).
  { rewrite Es. f_equal; [unfold n, w; destruct l as [l1 l2], m as [m1 m2]; cbn [fst snd]; generalize u v; clear; intros; vec; ring|]. f_equal. unfold n. rewrite lagrange3, (dot3_sym v u). ring. }
  set (t := dot3 (cross3 w u) n / dot3 n n). exists t.
  assert (E : sub3 (seg3 (fst l) (snd l) s) (seg3 (fst m) (snd m) t) = mul3 n (- (dot3 w n / dot3 n n))).
  { assert (K : add3 (mul3 w (- dot3 n n)) (sub3 (mul3 u (dot3 (cross3 w v) n)) (mul3 v (dot3 (cross3 w u) n))) = mul3 n (- dot3 w n)) by (unfold n; clear; vec; v_eq; ring).
    transitivity (mul3 (add3 (mul3 w (- dot3 n n)) (sub3 (mul3 u (dot3 (cross3 w v) n)) (mul3 v (dot3 (cross3 w u) n)))) (/ dot3 n n)).
    - rewrite Es'. unfold t, seg3. change (sub3 (snd l) (fst l)) with u. change (sub3 (snd m) (fst m)) with v. unfold w at 3. generalize (dot3 (cross3 w v) n) (dot3 (cross3 w u) n). revert S. generalize (dot3 n n). clear. intros k Hk a b. generalize u v. clear u v. intros u v. destruct l as [l1 l2], m as [m1 m2]. cbn [fst snd]. vec; v_eq; field; auto.
    - rewrite K. generalize (dot3 w n). revert S. generalize (dot3 n n). generalize n. clear. intros n k Hk d. vec; v_eq; field; auto. }
  unfold point_distance3. rewrite E, norm3_scale, Rabs_Ropp. unfold Rdiv. rewrite Rabs_mult, <- norm3_sq, (Rabs_pos_eq (/ _)) by (left; apply Rinv_0_lt_compat; nra). field. lra.
Qed.
Lemma den_cross u v : dot3 u u * dot3 v v - dot3 u v * dot3 v u = dot3 (cross3 u v) (cross3 u v).
Proof. rewrite lagrange3, (dot3_sym v u). ring. Qed.
(** when neither parallel nor of small dot product: the closest point of l to m, at the distance of the lines *)
Lemma line3_intersection_ok l m tol : 0 <= tol -> is_colinear_to3 (dir3 l) (dir3 m) (/ 10 ^ 6) = false -> cross3 (dir3 l) (dir3 m) <> V3 0 0 0 ->
  (dot3 (dir3 l) (dir3 m) = 0 \/ tol < Rabs (dot3 (dir3 l) (dir3 m))) ->
  (exists q r d, line3_intersection l m tol = Ok (Some q) /\ on_line3 l q /\ on_line3 m r /\ point_distance3 q r = d /\ d <= tol /\ dist_lines3 l m d) \/
  (exists d, line3_intersection l m tol = Ok None /\ dist_lines3 l m d /\ tol < d).
Proof.
  intros Ht C N DD. pose proof (norm3_ne _ N) as P. destruct (line3_line_distance_skew l m C N) as (d & E & D). unfold line3_intersection. cbv zeta. rewrite E. cbn [bind]. rewrite C. cbn [orb].
  assert (DP : 0 <= d) by (destruct D as [(s & t & <-) _]; apply norm3_pos).
  destruct (isclose d 0 tol) eqn:K.
  2:{ right. exists d. cbn [negb]. split; auto. split; auto. apply isclose_0_false in K; auto. rewrite Rabs_pos_eq in K; auto. }
  apply isclose_0 in K; auto. rewrite Rabs_pos_eq in K by auto. left. cbn [negb andb]. rewrite (proj2 (Reqb_false _ _)) by (rewrite den_cross, <- norm3_sq; nra).
  assert (DV : d = Rabs (dot3 (sub3 (fst m) (fst l)) (cross3 (dir3 l) (dir3 m))) / norm3 (cross3 (dir3 l) (dir3 m))).
  { unfold line3_line_distance in E. cbv zeta in E. rewrite C, (proj2 (Reqb_false (norm3 _) 0)) in E by lra. apply Ok_inj in E. auto. }
  assert (G : forall q, q = add3 (fst l) (mul3 (dir3 l) ((dot3 (sub3 (fst l) (fst m)) (dir3 m) * dot3 (dir3 m) (dir3 l) - dot3 (sub3 (fst l) (fst m)) (dir3 l) * dot3 (dir3 m) (dir3 m)) / (dot3 (dir3 l) (dir3 l) * dot3 (dir3 m) (dir3 m) - dot3 (dir3 l) (dir3 m) * dot3 (dir3 m) (dir3 l)))) ->
    exists r d0, on_line3 l q /\ on_line3 m r /\ point_distance3 q r = d0 /\ d0 <= tol /\ dist_lines3 l m d0).
  { intros q ->. destruct (skew_foot l m _ N eq_refl) as [t F]. rewrite <- DV in F. exists (seg3 (fst m) (snd m) t), d. split; [eexists; reflexivity|]. split; [eexists; reflexivity|]. split; auto. }
  destruct DD as [Z | L].
  - rewrite Z. rewrite (proj2 (isclose_0 0 tol Ht)) by (rewrite Rabs_R0; auto).
    assert (Hl : dir3 l <> V3 0 0 0) by (intros Z'; apply N; rewrite Z'; apply cross_zero_l). assert (Hm : dir3 m <> V3 0 0 0) by (intros Z'; apply N; rewrite Z'; apply cross_zero_r).
    pose proof (norm3_ne _ Hl) as PL. pose proof (norm3_ne _ Hm) as PM. unfold point_projection3. change (sub3 (snd l) (fst l)) with (dir3 l). rewrite (proj2 (Reqb_false _ _)) by (cbn [pow]; nra). cbn [bind fst].
    eexists. edestruct G as (r & d0 & G1 & G2 & G3 & G4 & G5); [|exists r, d0; split; [reflexivity|]; repeat split; [exact G1|exact G2|exact G3|exact G4|apply G5|apply G5]].
    f_equal. f_equal. rewrite (dot3_sym (dir3 m) (dir3 l)), Z. cbn [pow]. rewrite Rmult_1_r, norm3_sq. assert (DL : dot3 (dir3 l) (dir3 l) <> 0) by (rewrite <- norm3_sq; nra). assert (DM : dot3 (dir3 m) (dir3 m) <> 0) by (rewrite <- norm3_sq; nra).
    assert (W : dot3 (sub3 (fst m) (fst l)) (dir3 l) = - dot3 (sub3 (fst l) (fst m)) (dir3 l)) by (generalize (dir3 l); clear; intros; destruct l as [l1 l2], m as [m1 m2]; cbn [fst snd]; vec; ring). rewrite W. field. split; auto.
  - rewrite (proj2 (isclose_0_false _ tol Ht)) by auto. eexists. edestruct G as (r & d0 & G1 & G2 & G3 & G4 & G5); [|exists r, d0; split; [reflexivity|]; repeat split; [exact G1|exact G2|exact G3|exact G4|apply G5|apply G5]]. reflexivity.
Qed.
(** a common point is found *)
Lemma line3_intersection_complete l m tol r : 0 <= tol -> is_colinear_to3 (dir3 l) (dir3 m) (/ 10 ^ 6) = false -> cross3 (dir3 l) (dir3 m) <> V3 0 0 0 ->
  (dot3 (dir3 l) (dir3 m) = 0 \/ tol < Rabs (dot3 (dir3 l) (dir3 m))) -> on_line3 l r -> on_line3 m r -> line3_intersection l m tol = Ok (Some r).
Proof.
  intros Ht C N DD [s Rl] [t Rm].
  destruct (line3_intersection_ok l m tol Ht C N DD) as [(q & r' & d & E & [a Q] & [b R'] & D & _ & [M1 M2]) | (d & _ & [_ M] & L)].
  - rewrite E. assert (Z : d = 0). { pose proof (M2 s t) as M. unfold seg3 in M. rewrite <- Rl, <- Rm in M. rewrite (proj2 (dist3_zero r r) eq_refl) in M. rewrite <- D in *. pose proof (norm3_pos (sub3 q r')). unfold point_distance3 in *. lra. }
    rewrite Z in D. apply dist3_zero in D. rewrite <- D in R'. clear D r'. do 2 f_equal.
    (* q and r are both on the two lines, which are not parallel *)
    rewrite Q in R'. rewrite Rl in Rm. change (sub3 (snd l) (fst l)) with (dir3 l) in *. change (sub3 (snd m) (fst m)) with (dir3 m) in *.
    assert (K : mul3 (dir3 l) (a - s) = mul3 (dir3 m) (b - t)).
    { pose proof (f_equal x3 R') as X1. pose proof (f_equal y3 R') as X2. pose proof (f_equal z3 R') as X3. pose proof (f_equal x3 Rm) as Y1. pose proof (f_equal y3 Rm) as Y2. pose proof (f_equal z3 Rm) as Y3. clear -X1 X2 X3 Y1 Y2 Y3.
      revert X1 X2 X3 Y1 Y2 Y3. generalize (dir3 l) (dir3 m) (fst l) (fst m). intros. unfold add3, mul3 in *. cbn [x3 y3 z3] in *. f_equal; lra. }
    assert (K0 : a - s = 0). { destruct (Req_dec (a - s) 0) as [e|e]; auto. exfalso. apply N. assert (Q2 : mul3 (cross3 (dir3 l) (dir3 m)) (a - s) = V3 0 0 0).
      { rewrite <- cross3_mul_l, K. generalize (b - t) (dir3 m). clear. intros. vec; v_eq; ring. } apply mul_zero_iff in Q2; auto. }
    rewrite Q, Rl. change (sub3 (snd l) (fst l)) with (dir3 l). replace a with s by lra. reflexivity.
  - exfalso. pose proof (M s t) as M'. unfold seg3 in M'. rewrite <- Rl, <- Rm in M'. rewrite (proj2 (dist3_zero r r) eq_refl) in M'. lra.
Qed.
(** the dot product of the directions is not normalised: short direction vectors are taken for perpendicular ones *)
Lemma line3_intersection_wrong : exists l m q, line3_intersection l m (/ 10 ^ 6) = Ok (Some q) /\ on_line3 l O3D /\ on_line3 m O3D /\ point_distance3 q O3D = 1 /\ forall r, on_line3 m r -> / 2 <= point_distance3 q r.
Proof.
  exists (V3 0 0 0, V3 (/ 10 ^ 4) 0 0), (V3 1 1 0, V3 (1 + / 10 ^ 4) (1 + / 10 ^ 4) 0), (V3 1 0 0). set (l := (V3 0 0 0, V3 (/ 10 ^ 4) 0 0)). set (m := (V3 1 1 0, V3 (1 + / 10 ^ 4) (1 + / 10 ^ 4) 0)).
  assert (e4 : 0 < / 10 ^ 4) by apply pow10_inv_pos. set (e := / 10 ^ 4) in *.
  assert (Dl : dir3 l = mul3 (V3 1 0 0) e) by (unfold dir3, l; cbn [fst snd]; vec; v_eq; ring). assert (Dm : dir3 m = mul3 (V3 1 1 0) e) by (unfold dir3, m; cbn [fst snd]; vec; v_eq; ring).
  assert (N1 : norm3 (V3 1 0 0) = 1) by (unfold norm3; cbn [x3 y3 z3]; apply sqrt_lem_1; lra). assert (N2 : norm3 (V3 1 1 0) = sqrt 2) by (unfold norm3; cbn [x3 y3 z3]; f_equal; ring).
  assert (S2 : sqrt 2 * sqrt 2 = 2) by (apply sqrt_sqrt; lra). assert (S2p : 0 < sqrt 2) by (apply sqrt_lt_R0; lra). assert (S2b : sqrt 2 < 1.5) by nra. assert (S2c : 1.4 < sqrt 2) by nra.
  assert (CO : is_colinear_to3 (dir3 l) (dir3 m) (/ 10 ^ 6) = false).
  { rewrite Dl, Dm. unfold is_colinear_to3. rewrite !norm3_scale, N1, N2, Rabs_pos_eq, !(proj2 (Reqb_false _ 0)) by nra.
    assert (DT : dot3 (mul3 (V3 1 0 0) e) (mul3 (V3 1 1 0) e) = e * e) by (vec; ring). rewrite DT, (Rabs_pos_eq (e * e)) by nra.
    replace (e * e / (e * 1) / (e * sqrt 2)) with (/ sqrt 2) by (field; split; lra). assert (I : / sqrt 2 = sqrt 2 / 2) by (apply Rmult_eq_reg_r with (sqrt 2); [rewrite Rinv_l by lra; lra|lra]). rewrite I.
    unfold isclose. rewrite (proj2 (Rleb_false _ _)); auto. rewrite (Rabs_pos_eq 1), (Rabs_pos_eq (sqrt 2 / 2)), (Rmax_right (sqrt 2 / 2) 1), (Rmax_right _ (/ 10 ^ 6)), Rabs_left by lra. lra. }
  assert (CR : cross3 (dir3 l) (dir3 m) = V3 0 0 (e * e)) by (rewrite Dl, Dm; vec; v_eq; ring).
  assert (OL : on_line3 l O3D) by (exists 0; unfold l, O3D; cbn [fst snd]; vec; v_eq; ring).
  assert (OM : on_line3 m O3D) by (exists (- / e); unfold m, O3D; cbn [fst snd]; vec; v_eq; field; lra).
  split; [|split; [auto|split; [auto|split]]].
  - unfold line3_intersection. cbv zeta. unfold line3_line_distance. cbv zeta. rewrite CO, CR.
    assert (NN : norm3 (V3 0 0 (e * e)) = e * e) by (unfold norm3; cbn [x3 y3 z3]; apply sqrt_lem_1; nra). rewrite NN, (proj2 (Reqb_false _ _)) by nra. cbn [bind orb].
    assert (Z : Rabs (dot3 (sub3 (fst m) (fst l)) (V3 0 0 (e * e))) / (e * e) = 0) by (unfold l, m; cbn [fst snd]; replace (dot3 (sub3 (V3 1 1 0) (V3 0 0 0)) (V3 0 0 (e * e))) with 0 by (vec; ring); rewrite Rabs_R0; field; nra). rewrite Z.
    rewrite (proj2 (isclose_0 0 (/ 10 ^ 6) ltac:(lra))) by (rewrite Rabs_R0; lra). cbn [negb andb].
    assert (DT : dot3 (dir3 l) (dir3 m) = e * e) by (rewrite Dl, Dm; vec; ring). rewrite DT, (proj2 (isclose_0 _ (/ 10 ^ 6) ltac:(lra))) by (rewrite Rabs_pos_eq; unfold e; lra).
    unfold point_projection3. change (sub3 (snd l) (fst l)) with (dir3 l). rewrite Dl, norm3_scale, N1, (Rabs_pos_eq e), (proj2 (Reqb_false _ _)) by (cbn [pow]; nra). cbn [bind fst]. do 2 f_equal. unfold l, m. cbn [fst snd]. vec; v_eq; field; lra.
  - unfold point_distance3, O3D. replace (sub3 (V3 1 0 0) (V3 0 0 0)) with (V3 1 0 0) by (vec; v_eq; ring). auto.
  - intros r [t ->]. unfold m. cbn [fst snd]. unfold point_distance3, norm3, sub3, add3, mul3. cbn [x3 y3 z3]. apply Rle_trans with (sqrt (/ 2 * / 2)); [rewrite sqrt_square; lra|]. apply sqrt_le_1_alt.
    set (k := (1 + e - 1) * t). replace (1 - (1 + k)) with (- k) by ring. replace (0 - (1 + k)) with (-1 - k) by ring. pose proof (Rle_0_sqr (2 * k + 1)) as Q. unfold Rsqr in Q. lra.
Qed.
(** lines at a small angle are taken for parallel ones *)
Lemma line3_line_distance_wrong : exists l m, fst l <> snd l /\ fst m <> snd m /\ dist_lines3 l m 0 /\ line3_line_distance l m = Ok 1 /\ line3_intersection l m (/ 10 ^ 6) = Ok None /\ line3_skew_to l m = Ok false.
Proof.
  set (t := / 2000). exists (V3 0 0 0, V3 1 0 0), (V3 0 1 0, V3 (1 - t * t) (1 + 2 * t) 0). set (l := (V3 0 0 0, V3 1 0 0)). set (m := (V3 0 1 0, V3 (1 - t * t) (1 + 2 * t) 0)).
  assert (Dl : dir3 l = V3 1 0 0) by (unfold dir3, l; cbn [fst snd]; vec; v_eq; ring). assert (Dm : dir3 m = V3 (1 - t * t) (2 * t) 0) by (unfold dir3, m; cbn [fst snd]; vec; v_eq; ring).
  assert (N1 : norm3 (V3 1 0 0) = 1) by (unfold norm3; cbn [x3 y3 z3]; apply sqrt_lem_1; lra). assert (N2 : norm3 (V3 (1 - t * t) (2 * t) 0) = 1 + t * t) by (unfold norm3; cbn [x3 y3 z3]; apply sqrt_lem_1; unfold t; lra).
  assert (CO : is_colinear_to3 (dir3 l) (dir3 m) (/ 10 ^ 6) = true).
  { rewrite Dl, Dm. unfold is_colinear_to3. rewrite N1, N2, !(proj2 (Reqb_false _ 0)) by (unfold t; lra).
    assert (DT : dot3 (V3 1 0 0) (V3 (1 - t * t) (2 * t) 0) = 1 - t * t) by (vec; ring). rewrite DT, (Rabs_pos_eq (1 - t * t)) by (unfold t; lra).
    unfold isclose. apply Rleb_spec. eapply Rle_trans; [|apply Rmax_r]. replace ((1 - t * t) / 1 / (1 + t * t) - 1) with (- (2 * (t * t) / (1 + t * t))) by (unfold t; field; lra).
    rewrite Rabs_Ropp, Rabs_pos_eq; unfold t; lra. }
  assert (LD : line3_line_distance l m = Ok 1).
  { unfold line3_line_distance. cbv zeta. rewrite CO, Dl, N1, (proj2 (Reqb_false _ _)) by lra. f_equal. unfold l, m. cbn [fst snd]. replace (cross3 (V3 1 0 0) (sub3 (V3 0 1 0) (V3 0 0 0))) with (V3 0 0 1) by (vec; v_eq; ring).
    replace (norm3 (V3 0 0 1)) with 1; [field|]. unfold norm3. cbn [x3 y3 z3]. symmetry. apply sqrt_lem_1; lra. }
  split; [unfold l; cbn [fst snd]; intros H; pose proof (f_equal x3 H) as K; cbn [x3] in K; lra|]. split; [unfold m; cbn [fst snd]; intros H; pose proof (f_equal x3 H) as K; cbn [x3] in K; unfold t in K; lra|].
  split; [|split; [auto|split]].
  - split; [|intros; apply norm3_pos]. exists (- (1 - t * t) / (2 * t)), (- / (2 * t)). apply dist3_zero. unfold seg3, l, m. cbn [fst snd]. unfold add3, mul3, sub3. cbn [x3 y3 z3]. unfold t. f_equal; field.
  - unfold line3_intersection. cbv zeta. rewrite LD. cbn [bind]. rewrite CO. reflexivity.
  - unfold line3_skew_to. rewrite CO. reflexivity.
Qed.
Lemma line3_skew_ok l m : fst l <> snd l -> fst m <> snd m -> is_colinear_to3 (dir3 l) (dir3 m) (/ 10 ^ 6) = false -> cross3 (dir3 l) (dir3 m) <> V3 0 0 0 ->
  exists b d, line3_skew_to l m = Ok b /\ dist_lines3 l m d /\ (b = true <-> / 10 ^ 6 < d).
Proof.
  intros Hl Hm C N. destruct (line3_line_distance_skew l m C N) as (d & E & D). unfold line3_skew_to. rewrite C, E. cbn [bind]. eexists. exists d. split; [reflexivity|]. split; auto.
  assert (DP : 0 <= d) by (destruct D as [(s & t & <-) _]; apply norm3_pos). pose proof (pow10_inv_pos 6). rewrite negb_true_iff, isclose_0_false, Rabs_pos_eq by lra. tauto.
Qed.
(** line_intersections returns a one-element list even if there is no intersection *)
Lemma line3_line_intersections_none l m tol : line3_intersection l m tol = Ok None -> line3_line_intersections l m tol = Ok [None].
Proof. intros H. unfold line3_line_intersections. rewrite H. auto. Qed.
