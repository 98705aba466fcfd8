From Coq Require Import Reals Lra Lia List Bool ZArith.
From Verif.Model Require Import Base RBase Vec Frame BBox Geometry Plane Curves Ellipse Conic3.
From Verif.Spec Require Import VecSpec FrameSpec BBoxSpec PlaneSpec CurvesSpec EllipseSpec Conic3Spec.
From Verif.Proofs Require Import VecP LineP FrameP FrameP2 PlaneP CurvesP EllipseP EllipseP2 EllipseP4.
Import ListNotations.
Open Scope R_scope.

Definition sq3 (u : vec3) : R := dot3 u u.
Lemma sq3_pos u : 0 <= sq3 u.
Proof. unfold sq3, dot3. pose proof (Rle_0_sqr (x3 u)). pose proof (Rle_0_sqr (y3 u)). pose proof (Rle_0_sqr (z3 u)). unfold Rsqr in *. lra. Qed.
Lemma dist_sq p q : point_distance3 p q = sqrt (sq3 (sub3 p q)).
Proof. reflexivity. Qed.
Lemma isclose_zero_le d t : 0 <= t -> isclose d 0 t = true -> Rabs d <= t.
Proof. intros T H. apply isclose_0; assumption. Qed.
(** the quadratic of a line through p of unit direction u *)
Lemma planar_form c l tol : fst l <> snd l -> exists p u s, unit_vector3 (if is_close3 (fst l) (center3 c) (/ 10 ^ 6) then sub3 (fst l) (snd l) else sub3 (snd l) (fst l)) = Ok u /\
  dot3 u u = 1 /\ s <> 0 /\ (p = fst l \/ p = snd l) /\ sub3 (snd l) (fst l) = mul3 u s /\
  (let b := dot3 u (sub3 p (center3 c)) in let delta := 4 * (b ^ 2 - (sq3 (sub3 p (center3 c)) - cr3 c ^ 2)) in
   planar_circle3_line c l tol = if Rltb delta 0 then Ok [] else if isclose delta 0 tol then Ok [add3 p (mul3 u (- b))] else
     Ok [add3 p (mul3 u (- b + sqrt delta / 2)); add3 p (mul3 u (- b - sqrt delta / 2))]).
Proof.
  intros N. unfold planar_circle3_line. cbv zeta. set (nr := is_close3 (fst l) (center3 c) (/ 10 ^ 6)). set (p := if nr then snd l else fst l). set (d := if nr then sub3 (fst l) (snd l) else sub3 (snd l) (fst l)).
  assert (D : exists s, s <> 0 /\ sub3 (snd l) (fst l) = mul3 d s).
  { unfold d. destruct nr; [exists (-1)|exists 1]; (split; [lra|]); destruct l as [[a1 a2 a3] [b1 b2 b3]]; unfold sub3, mul3; cbn; f_equal; ring. }
  destruct D as (s & S0 & D). assert (Dn : norm3 d <> 0).
  { intro K. apply norm3_zero in K. rewrite K in D. apply N. destruct l as [[a1 a2 a3] [b1 b2 b3]]. unfold sub3, mul3 in D. cbn in D |- *. injection D as D1 D2 D3. f_equal; lra. }
  assert (U : exists u, unit_vector3 d = Ok u /\ dot3 u u = 1 /\ d = mul3 u (norm3 d)).
  { unfold unit_vector3. rewrite (proj2 (Reqb_false _ _) Dn). eexists. split; [reflexivity|]. assert (Q : norm3 d * norm3 d = dot3 d d) by (rewrite norm3_sq; reflexivity). split.
    - unfold dot3 in *. cbn [x3 y3 z3]. transitivity ((x3 d * x3 d + y3 d * y3 d + z3 d * z3 d) / (norm3 d * norm3 d)); [field; exact Dn|rewrite Q; field; rewrite <- Q; nra].
    - set (n := norm3 d) in *. clearbody n. clearbody d. destruct d as [dx dy dz]. unfold mul3. cbn [x3 y3 z3]. f_equal; field; exact Dn. }
  destruct U as (u & U & UU & DU). exists p, u, (norm3 d * s). split; [exact U|]. split; [exact UU|]. split; [apply Rmult_integral_contrapositive; auto|]. split; [unfold p; destruct nr; auto|]. split.
  { rewrite D, DU at 1. unfold mul3. cbn [x3 y3 z3]. f_equal; ring. }
  change (if nr then sub3 (fst l) (snd l) else sub3 (snd l) (fst l)) with d. rewrite U. cbn [bind]. rewrite UU.
  replace (dot3 p p + dot3 (center3 c) (center3 c) - 2 * dot3 p (center3 c) - cr3 c ^ 2) with (sq3 (sub3 p (center3 c)) - cr3 c ^ 2) by (unfold sq3, dot3, sub3; cbn [x3 y3 z3]; ring).
  set (b := dot3 u (sub3 p (center3 c))). set (k := sq3 (sub3 p (center3 c))).
  replace ((2 * b) ^ 2 - 4 * 1 * (k - cr3 c ^ 2)) with (4 * (b ^ 2 - (k - cr3 c ^ 2))) by ring. set (delta := 4 * _).
  replace (- (2 * b) / (2 * 1)) with (- b) by field. replace ((- (2 * b) + sqrt delta) / (2 * 1)) with (- b + sqrt delta / 2) by field. replace ((- (2 * b) - sqrt delta) / (2 * 1)) with (- b - sqrt delta / 2) by field. reflexivity.
Qed.
Lemma ray_sq p u c t : dot3 u u = 1 -> sq3 (sub3 (add3 p (mul3 u t)) c) = (t + dot3 u (sub3 p c)) ^ 2 + (sq3 (sub3 p c) - dot3 u (sub3 p c) ^ 2).
Proof.
  intros U. transitivity (t * t * dot3 u u + 2 * t * dot3 u (sub3 p c) + sq3 (sub3 p c)); [unfold sq3, dot3, sub3, add3, mul3; cbn [x3 y3 z3]; ring|rewrite U; ring].
Qed.
Lemma line_ray l p u s : s <> 0 -> p = fst l \/ p = snd l -> sub3 (snd l) (fst l) = mul3 u s -> forall q, on_line3 l q <-> exists t, q = add3 p (mul3 u t).
Proof.
  intros S0 P D q. unfold on_line3. rewrite D. destruct P as [-> | ->].
  - split; intros [t ->]; [exists (s * t)|exists (t / s)]; unfold add3, mul3; cbn [x3 y3 z3]; f_equal; field; exact S0.
  - assert (E : snd l = add3 (fst l) (mul3 u s)). { rewrite <- D. destruct l as [[a1 a2 a3] [b1 b2 b3]]. unfold add3, sub3. cbn. f_equal; ring. }
    rewrite E. split; intros [t ->]; [exists (s * t - s)|exists (t / s + 1)]; unfold add3, mul3; cbn [x3 y3 z3]; f_equal; field; exact S0.
Qed.
(** exact lines of the plane *)
Lemma planar_sound c l tol pts q : fst l <> snd l -> 0 <= tol -> planar_circle3_line c l tol = Ok pts -> In q pts -> on_line3 l q /\ Rabs (sq3 (sub3 q (center3 c)) - cr3 c ^ 2) <= tol / 4.
Proof.
  intros N T E I1. destruct (planar_form c l tol N) as (p & u & s & _ & UU & S0 & P & D & F). cbv zeta in F. rewrite F in E. clear F.
  set (b := dot3 u (sub3 p (center3 c))) in *. set (k := sq3 (sub3 p (center3 c))) in *. set (delta := 4 * (b ^ 2 - (k - cr3 c ^ 2))) in *.
  destruct (Rltb delta 0) eqn:E0; [apply Ok_inj in E; subst; destruct I1|]. apply Rltb_false in E0.
  assert (LR := line_ray l p u s S0 P D). destruct (isclose delta 0 tol) eqn:E1; apply Ok_inj in E; subst pts.
  - destruct I1 as [<-|[]]. split; [apply LR; eauto|]. rewrite ray_sq by exact UU. fold b k. apply isclose_zero_le in E1; [|exact T].
    replace ((- b + b) ^ 2 + (k - b ^ 2) - cr3 c ^ 2) with (- (delta / 4)) by (unfold delta; field). rewrite Rabs_Ropp. unfold Rdiv. rewrite Rabs_mult, (Rabs_right (/ 4)) by lra. lra.
  - assert (Sq : sqrt delta * sqrt delta = delta) by (apply sqrt_sqrt; lra). destruct I1 as [<-|[<-|[]]]; (split; [apply LR; eauto|]); rewrite ray_sq by exact UU; fold b k.
    + replace ((- b + sqrt delta / 2 + b) ^ 2 + (k - b ^ 2) - cr3 c ^ 2) with ((sqrt delta * sqrt delta - delta) / 4) by (unfold delta; field). rewrite Sq. unfold Rminus, Rdiv. rewrite Rplus_opp_r, Rmult_0_l, Rabs_R0. lra.
    + replace ((- b - sqrt delta / 2 + b) ^ 2 + (k - b ^ 2) - cr3 c ^ 2) with ((sqrt delta * sqrt delta - delta) / 4) by (unfold delta; field). rewrite Sq. unfold Rminus, Rdiv. rewrite Rplus_opp_r, Rmult_0_l, Rabs_R0. lra.
Qed.
Lemma planar_complete c l tol : fst l <> snd l -> 0 <= tol -> exists pts, planar_circle3_line c l tol = Ok pts /\
  forall q, on_line3 l q -> sq3 (sub3 q (center3 c)) = cr3 c ^ 2 -> exists r, In r pts /\ sq3 (sub3 q r) <= tol / 4.
Proof.
  intros N T. destruct (planar_form c l tol N) as (p & u & s & _ & UU & S0 & P & D & F). cbv zeta in F. rewrite F. clear F.
  set (b := dot3 u (sub3 p (center3 c))) in *. set (k := sq3 (sub3 p (center3 c))) in *. set (delta := 4 * (b ^ 2 - (k - cr3 c ^ 2))) in *.
  assert (LR := line_ray l p u s S0 P D). assert (G : forall q, on_line3 l q -> sq3 (sub3 q (center3 c)) = cr3 c ^ 2 -> exists t, q = add3 p (mul3 u t) /\ 4 * (t + b) ^ 2 = delta).
  { intros q L C. apply LR in L as [t ->]. exists t. split; [reflexivity|]. rewrite ray_sq in C by exact UU. fold b k in C. unfold delta. lra. }
  assert (DD : forall t t', sq3 (sub3 (add3 p (mul3 u t)) (add3 p (mul3 u t'))) = (t - t') ^ 2).
  { intros t t'. transitivity ((t - t') ^ 2 * dot3 u u); [unfold sq3, dot3, sub3, add3, mul3; cbn [x3 y3 z3]; ring|rewrite UU; ring]. }
  destruct (Rltb delta 0) eqn:E0.
  - apply Rltb_spec in E0. eexists. split; [reflexivity|]. intros q L C. destruct (G q L C) as (t & _ & H). exfalso. pose proof (pow2_ge_0 (t + b)). lra.
  - apply Rltb_false in E0. destruct (isclose delta 0 tol) eqn:E1.
    + apply isclose_zero_le in E1; [|exact T]. eexists. split; [reflexivity|]. intros q L C. destruct (G q L C) as (t & -> & H). eexists. split; [left; reflexivity|]. rewrite DD.
      replace (t - - b) with (t + b) by ring. rewrite Rabs_right in E1 by lra. lra.
    + assert (Sq : sqrt delta * sqrt delta = delta) by (apply sqrt_sqrt; lra). eexists. split; [reflexivity|]. intros q L C. destruct (G q L C) as (t & -> & H).
      assert (K : (2 * (t + b) - sqrt delta) * (2 * (t + b) + sqrt delta) = 0) by (transitivity (4 * (t + b) ^ 2 - sqrt delta * sqrt delta); [ring|lra]).
      apply Rmult_integral in K as [K|K]; [exists (add3 p (mul3 u (- b + sqrt delta / 2)))|exists (add3 p (mul3 u (- b - sqrt delta / 2)))]; (split; [cbn; auto|]); rewrite DD.
      * replace (t - (- b + sqrt delta / 2)) with ((2 * (t + b) - sqrt delta) / 2) by field. rewrite K. unfold Rdiv. rewrite Rmult_0_l, pow_ne_zero by lia. lra.
      * replace (t - (- b - sqrt delta / 2)) with ((2 * (t + b) + sqrt delta) / 2) by field. rewrite K. unfold Rdiv. rewrite Rmult_0_l, pow_ne_zero by lia. lra.
Qed.
