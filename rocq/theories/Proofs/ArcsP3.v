(** Discretization, tangent, reverse, complementary and split of an arc. *)
From Coq Require Import Reals Lra Lia List Bool ZArith.
From Verif.Model Require Import Base RBase Vec Frame BBox Geometry Curves Edges Arcs.
From Verif.Spec Require Import VecSpec FrameSpec AngleSpec CurvesSpec ArcsSpec.
From Verif.Proofs Require Import VecP LineP FrameP GeometryP CurvesP CurvesP3 CurvesP4 CurvesP5 CurvesP6 CurvesP7 EdgesP ArcsP ArcsP2.
Import ListNotations.
Open Scope R_scope.

Lemma at_total a s : arc_ok a -> exists p, arc2_at a s = Ok p.
Proof. intros A. rewrite arc_at_point by auto. eexists. reflexivity. Qed.
(** discretization *)
Lemma discretization_one a r : arc2_discretization a (Some 1%Z) r = Err ZeroDivisionError.
Proof. reflexivity. Qed.
Lemma discretization_ok a n r : arc_ok a -> (2 <= arc2_number_points a n r)%Z -> exists l, arc2_discretization a n r = Ok l /\
  Z.of_nat (length l) = arc2_number_points a n r /\
  (forall i d, (i < length l)%nat -> nth i l d = circle2_point (ac a) (ang1 a + INR i / (INR (length l) - 1) * arc2_angle a)).
Proof.
  intros A N. unfold arc2_discretization. set (m := arc2_number_points a n r) in *. rewrite (proj2 (Z.eqb_neq m 1)) by lia.
  set (g := fun i : nat => circle2_point (ac a) (ang1 a + INR i * (arc2_length a / IZR (m - 1)) / cr2 (ac a))).
  exists (map g (seq 0 (Z.to_nat m))). split; [apply mapM_map2; intros i; unfold g; apply arc_at_point; auto|]. rewrite map_length, seq_length. split; [lia|].
  intros i d I. assert (NI : (i < length (map g (seq 0 (Z.to_nat m))))%nat) by (rewrite map_length, seq_length; auto). rewrite (nth_indep _ d (g 0%nat) NI), map_nth, seq_nth by auto. unfold g. cbn [plus].
  f_equal. f_equal. destruct (angle_ok a A) as [_ ->]. pose proof A as ([O R] & _). rewrite INR_IZR_INZ, (INR_IZR_INZ (Z.to_nat m)), Z2Nat.id by lia. rewrite minus_IZR.
  assert (2 <= IZR m) by (apply IZR_le; auto). field. split; lra.
Qed.
Lemma number_points_given a n r : n <> 0%Z -> arc2_number_points a (Some n) r = n.
Proof. intros N. unfold arc2_number_points. rewrite (proj2 (Z.eqb_neq n 0)) by auto. auto. Qed.
Lemma number_points_default a r : (2 <= arc2_number_points a None r)%Z.
Proof. unfold arc2_number_points. destruct r as [r|]; [|lia]. destruct (r =? 0)%Z; lia. Qed.
(** step of the default discretization: at most 1 / angle_resolution radians between two points *)
Lemma number_points_resolution a r : (r > 0)%Z -> arc2_angle a * IZR r <= IZR (arc2_number_points a None (Some r) - 1).
Proof.
  intros P. unfold arc2_number_points. rewrite (proj2 (Z.eqb_neq r 0)) by lia. pose proof (floor_spec (- (arc2_angle a * IZR r))) as F. set (f := rfloor _) in *.
  apply Rle_trans with (IZR (- f)); [rewrite opp_IZR; lra|]. apply IZR_le. lia.
Qed.
Lemma nth_last {A} (l : list A) d : l <> [] -> last l d = nth (length l - 1) l d.
Proof. induction l as [|x [|y l] IH]; intros H; [tauto|auto|]. cbn [last]. cbn [last] in IH. rewrite IH by discriminate. cbn [length]. replace (S (S (length l)) - 1)%nat with (S (length l)) by lia. cbn [nth]. replace (S (length l) - 1)%nat with (length l) by lia. auto. Qed.
Lemma discretization_spec a n r : arc_ok a -> (2 <= arc2_number_points a n r)%Z -> exists l, arc2_discretization a n r = Ok l /\
  Z.of_nat (length l) = arc2_number_points a n r /\ hd (ast a) l = ast a /\ last l (aen a) = aen a /\ hd_error l = Some (ast a) /\
  (forall p, In p l -> arc_has (ac a) (ast a) (aen a) p) /\
  (forall i d, (S i < length l)%nat -> arc_angle (ac a) (nth i l d) (nth (S i) l d) (arc2_angle a / (INR (length l) - 1))).
Proof.
  intros A N. destruct (discretization_ok a n r A N) as (l & E & L & G). exists l. split; auto. split; auto. pose proof (arc_angles a A) as (E1 & E2 & R1 & R2).
  assert (LL : (2 <= length l)%nat) by lia. assert (L1 : 1 <= INR (length l) - 1) by (apply le_INR in LL; cbn in LL; lra).
  assert (H0 : nth 0 l (ast a) = ast a). { rewrite G by lia. rewrite E1 at 1. f_equal. cbn [INR]. field. lra. }
  split; [destruct l; auto|]. split.
  { rewrite nth_last by (destruct l; [cbn in LL; lia|discriminate]). rewrite G by lia. rewrite E2 at 1. f_equal. rewrite minus_INR by lia. cbn [INR]. unfold arc2_angle. field. lra. }
  split; [destruct l; [cbn in LL; lia|]; cbn in H0; cbn; f_equal; auto|]. split.
  - intros p I. apply In_nth with (d := p) in I as (i & I & <-). rewrite G by auto. apply arc_has_iff; auto. eexists. split; [|reflexivity]. unfold arc2_angle.
    assert (Q : 0 <= INR i / (INR (length l) - 1) <= 1). { split; [apply Rmult_le_pos; [apply pos_INR|apply Rlt_le, Rinv_0_lt_compat; lra]|]. assert (S1 : (S i <= length l)%nat) by lia. apply le_INR in S1. rewrite S_INR in S1.
      apply Rmult_le_reg_r with (INR (length l) - 1); [lra|]. unfold Rdiv. rewrite Rmult_assoc, Rinv_l by lra. lra. } set (q := INR i / (INR (length l) - 1)) in *. clearbody q. split; nra.
  - intros i d I. exists (ang1 a + INR i / (INR (length l) - 1) * arc2_angle a). rewrite !G by lia. split; auto. split; [f_equal; rewrite S_INR; field; lra|]. unfold arc2_angle. split.
    + apply Rdiv_lt_0_compat; lra.
    + apply Rle_trans with (ang2 a - ang1 a); [|lra]. apply Rmult_le_reg_r with (INR (length l) - 1); [lra|]. unfold Rdiv. rewrite Rmult_assoc, Rinv_l by lra. nra.
Qed.
(** reverse and complementary *)
Lemma reverse_has c s e p : circle_ok c -> arc_has (circle2_reverse c) e s p <-> arc_has c s e p.
Proof.
  intros C. split.
  - intros (u & v & t & U & V & W & T & P). rewrite reverse_point in U, V, P. exists (- v), (- u), (- t). repeat split; auto; lra.
  - intros (u & v & t & U & V & W & T & P). exists (- v), (- u), (- t). rewrite !reverse_point, !Ropp_involutive. repeat split; auto; lra.
Qed.
Lemma reverse_angle c s e d : arc_angle (circle2_reverse c) e s d <-> arc_angle c s e d.
Proof.
  split; intros (u & U & V & W).
  - rewrite reverse_point in U, V. exists (- (u + d)). replace (- (u + d) + d) with (- u) by ring. auto.
  - exists (- (u + d)). rewrite !reverse_point. replace (- (- (u + d))) with (u + d) by ring. replace (- (- (u + d) + d)) with u by ring. auto.
Qed.
Lemma reverse_arc a : arc_ok a -> regular (circle2_reverse (ac a)) (ast a) -> regular (circle2_reverse (ac a)) (aen a) ->
  exists b, arc2_reverse a = Ok b /\ arc_ok b /\ ast b = aen a /\ aen b = ast a /\ arc2_is_trigo b = negb (arc2_is_trigo a) /\ arc2_length b = arc2_length a /\
  forall p, arc_has (ac b) (ast b) (aen b) p <-> arc_has (ac a) (ast a) (aen a) p.
Proof.
  intros A S E. pose proof A as (C & _). pose proof (reverse_ok _ C) as CR. destruct (arc_new_ok _ _ _ CR E S) as (b & N & B1 & B2 & B3 & B). unfold arc2_reverse. exists b. split; auto. split; auto. split; auto. split; auto.
  split; [unfold arc2_is_trigo; rewrite B1; apply reverse_trigo; auto|]. split.
  - destruct (angle_ok a A) as [G ->]. destruct (angle_ok b B) as [G' ->]. rewrite B1, B2, B3 in G'. apply (proj1 (reverse_angle _ _ _ _)) in G'. rewrite (arc_angle_unique _ _ _ _ _ C G' G). rewrite B1. reflexivity.
  - intros p. rewrite B1, B2, B3. apply reverse_has; auto.
Qed.
Lemma complementary_arc a : arc_ok a -> ast a <> aen a -> exists b, arc2_complementary a = Ok b /\ arc_ok b /\ ac b = ac a /\ ast b = aen a /\ aen b = ast a /\
  arc2_angle b = 2 * PI - arc2_angle a /\ (forall p, on_circle2 (ac a) p -> arc_has (ac a) (ast a) (aen a) p \/ arc_has (ac b) (ast b) (aen b) p) /\
  (forall p, arc_has (ac a) (ast a) (aen a) p -> arc_has (ac b) (ast b) (aen b) p -> p = ast a \/ p = aen a).
Proof.
  intros A D. pose proof A as (C & RS & RE & _). destruct (arc_new_ok _ _ _ C RE RS) as (b & N & B1 & B2 & B3 & B). unfold arc2_complementary. exists b. split; auto. split; auto. split; auto. split; auto. split; auto.
  pose proof (arc_angles a A) as (E1 & E2 & R1 & R2). destruct (angle_ok b B) as [G' _]. rewrite B1, B2, B3 in G'.
  assert (NF : ang2 a <> ang1 a + 2 * PI). { intros Q. apply D. rewrite E1, E2, Q. symmetry. apply point_same, same_turn. }
  assert (G : arc_angle (ac a) (aen a) (ast a) (2 * PI - arc2_angle a)). { exists (ang2 a). split; auto. unfold arc2_angle. split; [|lra]. rewrite E1 at 1. apply point_same. replace (ang2 a + (2 * PI - (ang2 a - ang1 a))) with (ang1 a + 2 * PI) by ring. apply same_sym, same_turn. }
  split; [apply (arc_angle_unique _ _ _ _ _ C G' G)|].
  assert (HB : forall p, arc_has (ac b) (ast b) (aen b) p <-> exists t, ang2 a <= t <= ang1 a + 2 * PI /\ p = circle2_point (ac a) t).
  { intros p. rewrite B1, B2, B3. split.
    - intros (u & v & t & U & V & W & T & P). rewrite E2 in U. apply point_inj in U; auto. rewrite E1 in V. apply point_inj in V; auto. destruct U as (k & U).
      assert (Q : ang1 a + 2 * PI = v + IZR k * (2 * PI)). { apply (same_range' _ _ (ang2 a)); try lra. apply same_trans with (ang1 a); [apply same_turn|]. apply same_trans with v; auto. exists (- k)%Z. rewrite opp_IZR. ring. }
      exists (t + IZR k * (2 * PI)). split; [lra|]. rewrite P. apply point_same. exists (- k)%Z. rewrite opp_IZR. ring.
    - intros (t & T & ->). exists (ang2 a), (ang1 a + 2 * PI), t. split; auto. split; [rewrite E1 at 1; apply point_same, same_sym, same_turn|]. split; [lra|]. auto. }
  split.
  - intros p O. destruct C as [OB RC]. destruct (circle2_point_all _ _ OB RC O) as (t & _ & -> & _). destruct (normalize t (ang1 a)) as (t' & T & S). rewrite <- (point_same _ _ _ S). destruct (Rle_dec t' (ang2 a)).
    + left. apply arc_has_iff; auto. exists t'. split; auto; lra.
    + right. apply HB. exists t'. split; auto; lra.
  - intros p H1 H2. apply arc_has_iff in H1 as (t & T & ->); auto. apply HB in H2 as (t' & T' & P). apply point_inj in P; auto. destruct (Req_dec t (ang1 a)) as [-> |NE]; [left; auto|]. right. rewrite E2. f_equal.
    assert (Q : t = t') by (apply (same_range' _ _ (ang1 a)); auto; lra). lra.
Qed.
(** split *)
Lemma split_at_start a tol p : 0 <= tol -> point_distance2 p (ast a) <= tol -> arc2_split a p tol = Ok (None, Some a).
Proof. intros T D. unfold arc2_split. rewrite (proj2 (is_close2_spec p (ast a) tol T)) by auto. auto. Qed.
Lemma split_at_end a tol p : 0 <= tol -> tol < point_distance2 p (ast a) -> point_distance2 p (aen a) <= tol -> arc2_split a p tol = Ok (Some a, None).
Proof. intros T N D. unfold arc2_split. destruct (is_close2 p (ast a) tol) eqn:Q; [apply is_close2_spec in Q; [lra|auto]|]. rewrite (proj2 (is_close2_spec p (aen a) tol T)) by auto. auto. Qed.
Lemma split_inside a tol p : arc_ok a -> regular (ac a) p -> arc_has (ac a) (ast a) (aen a) p -> 0 <= tol -> tol < point_distance2 p (ast a) -> tol < point_distance2 p (aen a) ->
  exists b c, arc2_split a p tol = Ok (Some b, Some c) /\ arc_ok b /\ arc_ok c /\ ac b = ac a /\ ac c = ac a /\ ast b = ast a /\ aen b = p /\ ast c = p /\ aen c = aen a /\
  arc2_length b + arc2_length c = arc2_length a /\ (forall q, arc_has (ac a) (ast a) (aen a) q <-> arc_has (ac b) (ast b) (aen b) q \/ arc_has (ac c) (ast c) (aen c) q).
Proof.
  intros A RP H T D1 D2. pose proof A as (C & RS & RE & _). unfold arc2_split. destruct (is_close2 p (ast a) tol) eqn:Q1; [apply is_close2_spec in Q1; [lra|auto]|]. destruct (is_close2 p (aen a) tol) eqn:Q2; [apply is_close2_spec in Q2; [lra|auto]|]. clear Q1 Q2.
  destruct (arc_new_ok _ _ _ C RS RP) as (b & -> & B1 & B2 & B3 & B). destruct (arc_new_ok _ _ _ C RP RE) as (c & -> & C1 & C2 & C3 & CC). cbn [bind]. exists b, c. split; auto. do 8 (split; [auto|]).
  pose proof (arc_angles a A) as (E1 & E2 & R1 & R2). apply arc_has_iff in H as (tp & TP & PE); auto.
  assert (N1 : tp <> ang1 a) by (intros Z; subst tp; rewrite PE, <- E1, (proj2 (dist2_zero _ _) eq_refl) in D1; lra).
  assert (N2 : tp <> ang2 a) by (intros Z; subst tp; rewrite PE, <- E2, (proj2 (dist2_zero _ _) eq_refl) in D2; lra).
  assert (GB : arc_angle (ac a) (ast a) p (tp - ang1 a)) by (exists (ang1 a); split; auto; split; [rewrite PE; f_equal; ring|lra]).
  assert (GC : arc_angle (ac a) p (aen a) (ang2 a - tp)) by (exists tp; split; auto; split; [rewrite E2 at 1; f_equal; ring|lra]).
  destruct (angle_ok b B) as [GB' LB]. destruct (angle_ok c CC) as [GC' LC]. destruct (angle_ok a A) as [_ LA]. rewrite B1, B2, B3 in GB'. rewrite C1, C2, C3 in GC'.
  pose proof (arc_angle_unique _ _ _ _ _ C GB' GB) as AB. pose proof (arc_angle_unique _ _ _ _ _ C GC' GC) as AC. split; [rewrite LA, LB, LC, AB, AC, B1, C1; unfold arc2_angle; ring|].
  assert (SH : forall s e u d, arc_angle (ac a) s e d -> s = circle2_point (ac a) u -> forall q, arc_has (ac a) s e q <-> exists t, u <= t <= u + d /\ q = circle2_point (ac a) t).
  { intros s e u d (x & X1 & X2 & X3) U q. rewrite U in X1. apply point_inj in X1; auto. assert (EE : e = circle2_point (ac a) (u + d)) by (rewrite X2; apply point_same, same_add; [apply same_sym; auto|apply same_refl]). split.
    - intros (x' & v & t & U' & V & W & TT & P). rewrite U in U'. apply point_inj in U'; auto. rewrite EE in V. apply point_inj in V; auto. destruct U' as (k & U').
      assert (Q : u + d = v + IZR k * (2 * PI)). { apply (same_range' _ _ u); try lra. apply same_trans with v; auto. exists (- k)%Z. rewrite opp_IZR. ring. }
      exists (t + IZR k * (2 * PI)). split; [lra|]. rewrite P. apply point_same. exists (- k)%Z. rewrite opp_IZR. ring.
    - intros (t & TT & ->). exists u, (u + d), t. repeat split; auto; lra. }
  intros q. rewrite B1, B2, B3, C1, C2, C3. rewrite (SH _ _ _ _ GB E1), (SH _ _ _ _ GC PE). rewrite arc_has_iff by auto. split.
  - intros (t & TT & ->). destruct (Rle_dec t tp); [left|right]; exists t; (split; [lra|auto]).
  - intros [(t & TT & ->)|(t & TT & ->)]; exists t; (split; [lra|auto]).
Qed.

(** tangent *)
Lemma circle_velocity a s : arc_ok a -> velocity (arc2_at a) s
  (add2 (mul2 (u2 (fb2 (cf2 (ac a)))) (- sin (ang1 a + s / cr2 (ac a)))) (mul2 (v2 (fb2 (cf2 (ac a)))) (cos (ang1 a + s / cr2 (ac a))))).
Proof.
  intros A. exists (fun u => circle2_point (ac a) (ang1 a + u / cr2 (ac a))). split; [intros; apply arc_at_point; auto|]. pose proof A as ([O R] & _).
  set (r := cr2 (ac a)) in *. set (al := ang1 a). set (U := u2 (fb2 (cf2 (ac a)))). set (V := v2 (fb2 (cf2 (ac a)))).
  assert (I : derivable_pt_lim (fun u => al + u / r) s (/ r)).
  { replace (/ r) with (0 + (1 * / r + s * 0)) by ring. apply (derivable_pt_lim_plus (fun _ => al) (fun u => u / r)); [apply derivable_pt_lim_const|]. apply (derivable_pt_lim_mult id (fun _ => / r)); [apply derivable_pt_lim_id|apply derivable_pt_lim_const]. }
  assert (DC : derivable_pt_lim (fun u => cos (al + u / r)) s (- sin (al + s / r) * / r)) by (apply (derivable_pt_lim_comp (fun u => al + u / r) cos); auto; apply derivable_pt_lim_cos).
  assert (DS : derivable_pt_lim (fun u => sin (al + u / r)) s (cos (al + s / r) * / r)) by (apply (derivable_pt_lim_comp (fun u => al + u / r) sin); auto; apply derivable_pt_lim_sin).
  assert (L : forall c a b, derivable_pt_lim (fun u => c + a * (r * cos (al + u / r)) + b * (r * sin (al + u / r))) s (0 + a * (r * (- sin (al + s / r) * / r)) + b * (r * (cos (al + s / r) * / r)))).
  { intros c x y. apply (derivable_pt_lim_plus (fun u => c + x * (r * cos (al + u / r))) (fun u => y * (r * sin (al + u / r)))).
    - apply (derivable_pt_lim_plus (fun u => c) (fun u => x * (r * cos (al + u / r)))); [apply derivable_pt_lim_const|]. apply (derivable_pt_lim_scal (fun u => r * cos (al + u / r))). apply (derivable_pt_lim_scal (fun u => cos (al + u / r))). auto.
    - apply (derivable_pt_lim_scal (fun u => r * sin (al + u / r))). apply (derivable_pt_lim_scal (fun u => sin (al + u / r))). auto. }
  unfold circle2_point. fold r U V. unfold add2, mul2. cbn [x2 y2]. split.
  - match goal with |- derivable_pt_lim _ _ ?v => replace v with (0 + x2 U * (r * (- sin (al + s / r) * / r)) + x2 V * (r * (cos (al + s / r) * / r))) by (field; lra) end. apply L.
  - match goal with |- derivable_pt_lim _ _ ?v => replace v with (0 + y2 U * (r * (- sin (al + s / r) * / r)) + y2 V * (r * (cos (al + s / r) * / r))) by (field; lra) end. apply L.
Qed.
Lemma ortho_trigo c : circle_ok c -> v2 (fb2 (cf2 c)) = mul2 (normal_vector2 (u2 (fb2 (cf2 c)))) (if circle2_is_trigo c then 1 else -1).
Proof.
  intros [O R]. pose proof (ortho_det _ O) as D. destruct O as (O1 & O2 & O3). unfold circle2_is_trigo. set (u := u2 (fb2 (cf2 c))) in *. set (v := v2 (fb2 (cf2 c))) in *. clearbody u v. destruct u as [a b], v as [p q]. unfold cross2, dot2, normal_vector2, mul2 in *. cbn [x2 y2] in *.
  set (e := a * q - b * p) in *. assert (F : (e - 1) * (e + 1) = 0) by lra.
  assert (P1 : p = - b * e). { apply Rminus_diag_uniq. transitivity (p * (1 - (a * a + b * b)) + a * (a * p + b * q)); [unfold e; ring|rewrite O1, O3; ring]. }
  assert (Q1 : q = a * e). { apply Rminus_diag_uniq. transitivity (q * (1 - (a * a + b * b)) + b * (a * p + b * q)); [unfold e; ring|rewrite O1, O3; ring]. } clearbody e.
  apply Rmult_integral in F. destruct (Rltb 0 e) eqn:L; rb; f_equal; destruct F; nra.
Qed.
Lemma normal_ok a s : arc_ok a -> exists p n, arc2_at a s = Ok p /\ arc2_normal_vector a s = Ok n /\ add2 p n = center2 (ac a) /\ norm2 n = cr2 (ac a).
Proof.
  intros A. pose proof A as (C & _). unfold arc2_normal_vector. rewrite arc_at_point by auto. cbn [bind]. eexists. eexists. split; [reflexivity|]. split; [reflexivity|]. split; [unfold add2, sub2; apply vec2_ext; cbn [x2 y2]; ring|].
  pose proof (point_norm _ (ang1 a + s / cr2 (ac a)) C) as PN. set (q := circle2_point _ _) in *. change (point_distance2 (center2 (ac a)) q = cr2 (ac a)). rewrite dist2_sym. exact PN.
Qed.
Lemma direction_ok a s : arc_ok a -> exists d, arc2_direction_vector a s = Ok d /\ norm2 d = cr2 (ac a) /\ velocity (arc2_at a) s (mul2 d ((if arc2_is_trigo a then 1 else -1) / cr2 (ac a))).
Proof.
  intros A. pose proof A as (C & _). pose proof C as [O R]. destruct (normal_ok a s A) as (p & n & P & N & PN & NN). unfold arc2_direction_vector. rewrite N. cbn [bind]. eexists. split; [reflexivity|]. split.
  - rewrite <- NN. unfold neg2, normal_vector2, norm2. f_equal. cbn [x2 y2]. unfold dot2. cbn [x2 y2]. ring.
  - pose proof (circle_velocity a s A) as V. rewrite arc_at_point in P by auto. apply Ok_inj in P. pose proof (ortho_trigo _ C) as T. unfold arc2_is_trigo. set (U := u2 (fb2 (cf2 (ac a)))) in *. set (W := v2 (fb2 (cf2 (ac a)))) in *.
    match type of V with velocity _ _ ?x => match goal with |- velocity _ _ ?y => replace y with x; auto end end.
    assert (NE : n = mul2 (add2 (mul2 U (cos (ang1 a + s / cr2 (ac a)))) (mul2 W (sin (ang1 a + s / cr2 (ac a))))) (- cr2 (ac a))).
    { rewrite <- P in PN. pose proof (f_equal x2 PN) as X. pose proof (f_equal y2 PN) as Y. unfold circle2_point in X, Y. fold U W in X, Y. unfold add2, mul2 in *. cbn [x2 y2] in *. apply vec2_ext; cbn [x2 y2]; lra. }
    rewrite NE, T. set (e := if circle2_is_trigo (ac a) then 1 else -1). assert (EE : e * e = 1) by (unfold e; destruct (circle2_is_trigo _); ring). clearbody U e. unfold neg2, normal_vector2, mul2, add2. cbn [x2 y2]. set (co := cos _). set (si := sin _). set (r := cr2 (ac a)) in *.
    apply vec2_ext; cbn [x2 y2].
    + transitivity (- x2 U * (e * e) * si - e * y2 U * co); [rewrite EE|]; field; lra.
    + transitivity (- y2 U * (e * e) * si + e * x2 U * co); [rewrite EE|]; field; lra.
Qed.
