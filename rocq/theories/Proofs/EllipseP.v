From Coq Require Import Reals Lra Lia List Bool ZArith.
From Verif.Model Require Import Base RBase Vec Frame BBox Geometry Curves Ellipse.
From Verif.Spec Require Import VecSpec FrameSpec BBoxSpec PlaneSpec CurvesSpec AngleSpec EllipseSpec.
From Verif.Proofs Require Import VecP LineP FrameP GeometryP PlaneP CurvesP CurvesP3 CurvesP4 CurvesP5.
Import ListNotations.
Open Scope R_scope.

(** * the equation *)
Definition eqn (a b : R) (p : vec2) : Prop := x2 p ^ 2 / a ^ 2 + y2 p ^ 2 / b ^ 2 = 1.
Lemma eqn_angle : forall a b p, 0 < a -> 0 < b -> eqn a b p <-> exists t, p = V2 (a * cos t) (b * sin t).
Proof.
  intros a b [x y] Ha Hb. unfold eqn. cbn [x2 y2]. split.
  - intro H. assert (U : x / a * (x / a) + y / b * (y / b) = 1) by (rewrite <- H; field; lra).
    destruct (exact_angle_spec _ _ U) as (_ & C & S1). exists (exact_angle (x / a) (y / b)). rewrite C, S1. f_equal; field; lra.
  - intros (t & E). pose proof (f_equal x2 E) as E1. pose proof (f_equal y2 E) as E2. cbn in E1, E2. subst. pose proof (sin2_cos2 t) as T. unfold Rsqr in T.
    replace ((a * cos t) ^ 2 / a ^ 2 + (b * sin t) ^ 2 / b ^ 2) with (sin t * sin t + cos t * cos t) by (field; lra). exact T.
Qed.
Lemma l2g_point : forall e x y, frame2_l2g (ef e) (V2 x y) = add2 (ecenter e) (add2 (mul2 (major_dir e) x) (mul2 (minor_dir e) y)).
Proof.
  intros [a b [o [u v]]] x y. unfold frame2_l2g, ecenter, major_dir, minor_dir, basis2_l2g, mvec22, transfer_matrix2, add2, mul2. cbn [ef org2 fb2 u2 v2 x2 y2 a11 a12 a21 a22].
  apply vec2_ext; cbn [x2 y2]; ring.
Qed.
Lemma point_l2g : forall e t, ellipse2_point e t = frame2_l2g (ef e) (V2 (emaj e * cos t) (emin e * sin t)).
Proof. intros. rewrite l2g_point. reflexivity. Qed.
Lemma on_ellipse_eqn : forall e p, ellipse_ok e -> on_ellipse2 e p <-> eqn (emaj e) (emin e) (loc2 (ef e) p).
Proof.
  intros e p (O & B). rewrite eqn_angle by lra. unfold on_ellipse2. split; intros (t & E); exists t.
  - rewrite E, point_l2g, loc_l2g by exact O. reflexivity.
  - rewrite point_l2g, <- E, l2g_loc by exact O. reflexivity.
Qed.
Lemma along_loc : forall e p, loc2 (ef e) p = V2 (along_major e p) (along_minor e p).
Proof. reflexivity. Qed.

(** * the intersections in the frame of the ellipse *)
Lemma sqrt_py_ok : forall x, 0 <= x -> sqrt_py x = Ok (sqrt x).
Proof. intros x H. unfold sqrt_py. destruct (Rltb x 0) eqn:B; [rb; lra|reflexivity]. Qed.
Lemma line_x : forall l p, x2 (fst l) <> x2 (snd l) ->
  line2_has l p <-> y2 p = (y2 (snd l) - y2 (fst l)) / (x2 (snd l) - x2 (fst l)) * x2 p + (y2 (fst l) - (y2 (snd l) - y2 (fst l)) / (x2 (snd l) - x2 (fst l)) * x2 (fst l)).
Proof.
  intros [[x1 y1] [x0 y0]] [x y] N. cbn [fst snd x2 y2] in *. split.
  - intros (t & E). unfold at_param2, add2, mul2, sub2 in E. cbn [fst snd x2 y2] in E. pose proof (f_equal x2 E) as E1. pose proof (f_equal y2 E) as E2. cbn [x2 y2] in E1, E2. subst. field. lra.
  - intro E. exists ((x - x1) / (x0 - x1)). unfold at_param2, add2, mul2, sub2. cbn [fst snd x2 y2]. apply vec2_ext; cbn [x2 y2]; [field; lra|]. rewrite E. field. lra.
Qed.
Lemma line_vertical : forall l p, fst l <> snd l -> x2 (fst l) = x2 (snd l) -> line2_has l p <-> x2 p = x2 (fst l).
Proof.
  intros [[x1 y1] [x0 y0]] [x y] N E. cbn [fst snd x2 y2] in *. subst x0. assert (D : y0 - y1 <> 0) by (intro K; apply N; f_equal; lra). split.
  - intros (t & K). unfold at_param2, add2, mul2, sub2 in K. cbn [fst snd x2 y2] in K. apply (f_equal x2) in K. cbn [x2] in K. rewrite K. ring.
  - intro K. exists ((y - y1) / (y0 - y1)). unfold at_param2, add2, mul2, sub2. cbn [fst snd x2 y2]. apply vec2_ext; cbn [x2 y2]; [rewrite K; ring|field; exact D].
Qed.
(** the substituted equation *)
Lemma eqn_line : forall a b m k x, 0 < a -> 0 < b -> eqn a b (V2 x (m * x + k)) <->
  (1 / a ^ 2 + m ^ 2 / b ^ 2) * (x * x) + 2 * m * k / b ^ 2 * x + (k ^ 2 / b ^ 2 - 1) = 0.
Proof.
  intros a b m k x Ha Hb. unfold eqn. cbn [x2 y2]. assert (E : x ^ 2 / a ^ 2 + (m * x + k) ^ 2 / b ^ 2 = (1 / a ^ 2 + m ^ 2 / b ^ 2) * (x * x) + 2 * m * k / b ^ 2 * x + k ^ 2 / b ^ 2) by (field; lra).
  rewrite E. split; intro H; lra.
Qed.
Lemma quad_pos : forall a b m, 0 < a -> 0 < b -> 0 < 1 / a ^ 2 + m ^ 2 / b ^ 2.
Proof.
  intros a b m Ha Hb. assert (0 < a ^ 2) by (apply pow_lt; exact Ha). assert (0 < b ^ 2) by (apply pow_lt; exact Hb).
  assert (0 < 1 / a ^ 2) by (unfold Rdiv; rewrite Rmult_1_l; apply Rinv_0_lt_compat; assumption).
  assert (0 <= m ^ 2 / b ^ 2) by (apply Rmult_le_pos; [apply pow2_ge_0|left; apply Rinv_0_lt_compat; assumption]). lra.
Qed.
Lemma quad_roots : forall A B C x, 0 < A -> 4 * A * C < B ^ 2 -> A * (x * x) + B * x + C = 0 <->
  x = (- B + sqrt (B ^ 2 - 4 * A * C)) / (2 * A) \/ x = (- B - sqrt (B ^ 2 - 4 * A * C)) / (2 * A).
Proof.
  intros A B C x HA HD. set (s := sqrt (B ^ 2 - 4 * A * C)). assert (S1 : s * s = B ^ 2 - 4 * A * C) by (apply sqrt_sqrt; lra).
  assert (F : 4 * A * (A * (x * x) + B * x + C) = (2 * A * x + B - s) * (2 * A * x + B + s)).
  { transitivity ((2 * A * x + B) * (2 * A * x + B) - s * s); [rewrite S1; ring|ring]. }
  split.
  - intro H. rewrite H, Rmult_0_r in F. symmetry in F. apply Rmult_integral in F as [F|F]; [left|right]; apply (Rmult_eq_reg_l (2 * A)); try lra; field_simplify; lra.
  - intros [-> | ->].
    + assert (Z : 2 * A * ((- B + s) / (2 * A)) + B - s = 0) by (field; lra). rewrite Z, Rmult_0_l in F. nra.
    + assert (Z : 2 * A * ((- B - s) / (2 * A)) + B + s = 0) by (field; lra). rewrite Z, Rmult_0_r in F. nra.
Qed.
Definition exact_x (l : vec2 * vec2) (tol : R) : Prop := x2 (fst l) = x2 (snd l) \/ isclose (x2 (snd l)) (x2 (fst l)) tol = false.
Lemma isclose_refl : forall a t, 0 <= t -> isclose a a t = true.
Proof. intros a t H. unfold isclose. rewrite Rminus_diag_eq by reflexivity. rewrite Rabs_R0. apply Rleb_spec. eapply Rle_trans; [exact H|apply Rmax_r]. Qed.
Lemma vertical_ok : forall e l, 0 < emaj e -> 0 < emin e -> fst l <> snd l -> x2 (fst l) = x2 (snd l) ->
  (emaj e < Rabs (x2 (fst l)) /\ ellipse_vertical_intersections e l = Err ValueError) \/
  (Rabs (x2 (fst l)) <= emaj e /\ exists pts, ellipse_vertical_intersections e l = Ok pts /\
    (forall p, In p pts -> line2_has l p /\ eqn (emaj e) (emin e) p) /\
    (forall r, line2_has l r -> eqn (emaj e) (emin e) r -> exists p, In p pts /\ point_distance2 r p <= / 10 ^ 6)).
Proof.
  intros e l Ha Hb N E. set (a := emaj e) in *. set (b := emin e) in *. unfold ellipse_vertical_intersections. fold a b. set (x := x2 (fst l)) in *. cbv zeta.
  assert (PA : 0 < a ^ 2) by (apply pow_lt; exact Ha). pose proof (pow10_inv_pos 6) as P6.
  assert (Q : x ^ 2 / a ^ 2 = (Rabs x / a) * (Rabs x / a)). { rewrite <- (pow2_abs x). field. lra. }
  destruct (Rle_lt_dec (Rabs x) a) as [L|L].
  - right. split; [exact L|]. assert (R1 : 0 <= Rabs x / a <= 1).
    { pose proof (Rabs_pos x). split; [apply Rmult_le_pos; [auto|left; apply Rinv_0_lt_compat; auto]|]. apply (Rmult_le_reg_r a); [auto|]. unfold Rdiv. rewrite Rmult_assoc, Rinv_l by lra. lra. }
    assert (R2 : 0 <= 1 - x ^ 2 / a ^ 2) by (rewrite Q; nra). rewrite (sqrt_py_ok _ R2). cbn [bind]. set (s := sqrt (1 - x ^ 2 / a ^ 2)).
    assert (S1 : s * s = 1 - x ^ 2 / a ^ 2) by (apply sqrt_sqrt; exact R2).
    assert (On : forall y, y = b * s \/ y = - (b * s) -> eqn a b (V2 x y)).
    { intros y Hy. unfold eqn. cbn [x2 y2]. assert (Y : y ^ 2 = b ^ 2 * (s * s)) by (destruct Hy; subst; ring). rewrite Y, S1. field. lra. }
    assert (Li : forall y, line2_has l (V2 x y)) by (intro y; apply line_vertical; auto).
    eexists. split; [reflexivity|]. split.
    + intros p Hp. destruct (is_close2 _ _ _); [destruct Hp as [<-|[]]|destruct Hp as [<-|[<-|[]]]]; split; auto.
    + intros [rx ry] HL HE. apply line_vertical in HL; auto. cbn [x2] in HL. fold x in HL. subst rx. unfold eqn in HE. cbn [x2 y2] in HE.
      assert (Y : (ry - b * s) * (ry + b * s) = 0). { transitivity (ry ^ 2 - b ^ 2 * (s * s)); [ring|]. rewrite S1. assert (ry ^ 2 = b ^ 2 * (ry ^ 2 / b ^ 2)) by (field; lra). rewrite H. replace (ry ^ 2 / b ^ 2) with (1 - x ^ 2 / a ^ 2) by lra. ring. }
      apply Rmult_integral in Y. assert (Y' : ry = b * s \/ ry = - (b * s)) by lra.
      assert (D0 : forall p, point_distance2 p p <= / 10 ^ 6).
      { intro p. unfold point_distance2. assert (Z : sub2 p p = V2 0 0) by (unfold sub2; f_equal; ring). rewrite Z, (proj2 (norm2_zero (V2 0 0)) eq_refl). lra. }
      destruct (is_close2 (V2 x (b * s)) (V2 x (- (b * s))) (/ 10 ^ 6)) eqn:C.
      * exists (V2 x (b * s)). split; [left; reflexivity|]. destruct Y' as [-> | ->]; [apply D0|]. apply is_close2_spec in C; [|lra]. rewrite dist2_sym. exact C.
      * destruct Y' as [-> | ->]; [exists (V2 x (b * s))|exists (V2 x (- (b * s)))]; (split; [cbn; auto|apply D0]).
  - left. split; [exact L|]. assert (K : 1 < Rabs x / a) by (apply (Rmult_lt_reg_r a); [auto|]; unfold Rdiv; rewrite Rmult_assoc, Rinv_l by lra; lra).
    unfold sqrt_py. assert (B : Rltb (1 - x ^ 2 / a ^ 2) 0 = true) by (apply Rltb_spec; rewrite Q; nra). rewrite B. reflexivity.
Qed.
Lemma local_sound : forall e l tol pts p, 0 < emaj e -> 0 < emin e -> 0 <= tol -> fst l <> snd l -> exact_x l tol ->
  ellipse_local_intersections e l tol = Ok pts -> In p pts -> line2_has l p /\ eqn (emaj e) (emin e) p.
Proof.
  intros e l tol pts p Ha Hb Ht N X E Hp. unfold ellipse_local_intersections in E. destruct X as [X|X].
  - rewrite X, isclose_refl in E by exact Ht. destruct (vertical_ok e l Ha Hb N X) as [[_ K]|(_ & pts' & K & S1 & _)]; rewrite K in E; [discriminate E|]. apply Ok_inj in E. subst. auto.
  - rewrite X in E. assert (Nx : x2 (fst l) <> x2 (snd l)) by (intro K; rewrite K, isclose_refl in X by exact Ht; discriminate X).
    unfold get_y_intersection, get_slope in E. rewrite (proj2 (Reqb_false _ _) Nx) in E.
    set (m := (y2 (snd l) - y2 (fst l)) / (x2 (snd l) - x2 (fst l))) in *. set (k := y2 (fst l) - m * x2 (fst l)) in *. cbv zeta in E.
    set (A := 1 / emaj e ^ 2 + m ^ 2 / emin e ^ 2) in *. set (B := 2 * m * k / emin e ^ 2) in *. set (C := k ^ 2 / emin e ^ 2 - 1) in *.
    destruct (Rltb (4 * A * C) (B ^ 2)) eqn:D; rb; [|apply Ok_inj in E; subst; destruct Hp]. rewrite sqrt_py_ok in E by lra. cbn [bind] in E. apply Ok_inj in E.
    assert (PA : 0 < A) by (apply quad_pos; auto).
    assert (G : forall x, x = (- B + sqrt (B ^ 2 - 4 * A * C)) / (2 * A) \/ x = (- B - sqrt (B ^ 2 - 4 * A * C)) / (2 * A) -> line2_has l (V2 x (m * x + k)) /\ eqn (emaj e) (emin e) (V2 x (m * x + k))).
    { intros x Hx. split; [apply line_x; [exact Nx|reflexivity]|]. apply eqn_line; auto. apply quad_roots; auto. }
    rewrite <- E in Hp. destruct (is_close2 _ _ _); [destruct Hp as [<-|[]]|destruct Hp as [<-|[<-|[]]]]; apply G; auto.
Qed.
Lemma local_complete : forall e l tol r1 r2, 0 < emaj e -> 0 < emin e -> 0 <= tol -> tol <= / 10 ^ 6 -> fst l <> snd l -> exact_x l tol ->
  line2_has l r1 -> eqn (emaj e) (emin e) r1 -> line2_has l r2 -> eqn (emaj e) (emin e) r2 -> r1 <> r2 ->
  exists pts, ellipse_local_intersections e l tol = Ok pts /\ (forall r, line2_has l r -> eqn (emaj e) (emin e) r -> exists p, In p pts /\ point_distance2 r p <= / 10 ^ 6).
Proof.
  intros e l tol r1 r2 Ha Hb Ht Ht6 N X L1 E1 L2 E2 Ne. unfold ellipse_local_intersections. destruct X as [X|X].
  - rewrite X, isclose_refl by exact Ht. destruct (vertical_ok e l Ha Hb N X) as [[K _]|(_ & pts & K & _ & S2)]; [|exists pts; auto].
    exfalso. apply line_vertical in L1; auto. unfold eqn in E1. rewrite L1 in E1. assert (P : 0 < emaj e ^ 2) by (apply pow_lt; auto).
    assert (Q : emaj e ^ 2 < x2 (fst l) ^ 2) by (rewrite <- (pow2_abs (x2 (fst l))); pose proof (Rabs_pos (x2 (fst l))); nra).
    assert (1 < x2 (fst l) ^ 2 / emaj e ^ 2) by (apply (Rmult_lt_reg_r (emaj e ^ 2)); [auto|]; unfold Rdiv; rewrite Rmult_assoc, Rinv_l by lra; lra).
    assert (0 <= y2 r1 ^ 2 / emin e ^ 2) by (apply Rmult_le_pos; [apply pow2_ge_0|left; apply Rinv_0_lt_compat, pow_lt; auto]). lra.
  - rewrite X. assert (Nx : x2 (fst l) <> x2 (snd l)) by (intro K; rewrite K, isclose_refl in X by exact Ht; discriminate X).
    unfold get_y_intersection, get_slope. rewrite (proj2 (Reqb_false _ _) Nx).
    pose proof (fun p => line_x l p Nx) as LX. set (m := (y2 (snd l) - y2 (fst l)) / (x2 (snd l) - x2 (fst l))) in *. set (k := y2 (fst l) - m * x2 (fst l)) in *. cbv zeta.
    pose proof (fun x => eqn_line (emaj e) (emin e) m k x Ha Hb) as EL. pose proof (quad_pos (emaj e) (emin e) m Ha Hb) as PA.
    set (A := 1 / emaj e ^ 2 + m ^ 2 / emin e ^ 2) in *. set (B := 2 * m * k / emin e ^ 2) in *. set (C := k ^ 2 / emin e ^ 2 - 1) in *.
    assert (Rt : forall r, line2_has l r -> eqn (emaj e) (emin e) r -> r = V2 (x2 r) (m * x2 r + k) /\ A * (x2 r * x2 r) + B * x2 r + C = 0).
    { intros [x y] HL HE. apply LX in HL. cbn [x2 y2] in *. subst y. split; auto. apply EL. exact HE. }
    assert (D : 4 * A * C < B ^ 2).
    { destruct (Rt _ L1 E1) as [F1 G1]. destruct (Rt _ L2 E2) as [F2 G2]. assert (Nx2 : x2 r1 <> x2 r2) by (intro K; apply Ne; rewrite F1, F2, K; reflexivity).
      assert (Sm : A * (x2 r1 + x2 r2) + B = 0).
      { apply (Rmult_eq_reg_l (x2 r1 - x2 r2)); [|lra]. transitivity ((A * (x2 r1 * x2 r1) + B * x2 r1 + C) - (A * (x2 r2 * x2 r2) + B * x2 r2 + C)); [ring|]. rewrite G1, G2. ring. }
      assert (Ds : B ^ 2 - 4 * A * C = A * A * ((x2 r1 - x2 r2) * (x2 r1 - x2 r2))).
      { assert (HB : B = - (A * (x2 r1 + x2 r2))) by lra. assert (HC : C = A * (x2 r1 * x2 r2)) by (rewrite HB in G1; lra). rewrite HB, HC. ring. }
      assert (0 < (x2 r1 - x2 r2) * (x2 r1 - x2 r2)) by nra. assert (0 < A * A * ((x2 r1 - x2 r2) * (x2 r1 - x2 r2))) by (apply Rmult_lt_0_compat; nra). lra. }
    rewrite (proj2 (Rltb_spec _ _) D), sqrt_py_ok by lra. cbn [bind]. eexists. split; [reflexivity|].
    intros r HL HE. destruct (Rt _ HL HE) as [F G]. apply quad_roots in G; auto. rewrite F.
    assert (D0 : forall p, point_distance2 p p <= / 10 ^ 6).
    { intro p. pose proof (pow10_inv_pos 6). unfold point_distance2. assert (Z : sub2 p p = V2 0 0) by (unfold sub2; f_equal; ring). rewrite Z, (proj2 (norm2_zero (V2 0 0)) eq_refl). lra. }
    set (P := (- B + _) / _) in *. set (Q := (- B - _) / _) in *. destruct (is_close2 (V2 P (m * P + k)) (V2 Q (m * Q + k)) tol) eqn:Cl.
    + exists (V2 P (m * P + k)). split; [left; reflexivity|]. destruct G as [-> | ->]; [apply D0|]. apply is_close2_spec in Cl; [|exact Ht]. rewrite dist2_sym. lra.
    + destruct G as [-> | ->]; [exists (V2 P (m * P + k))|exists (V2 Q (m * Q + k))]; (split; [cbn; auto|apply D0]).
Qed.
