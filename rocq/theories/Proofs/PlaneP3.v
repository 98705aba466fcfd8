(** Planes: errors of from_points, plane / line, plane / segment intersections, parameters. *)
From Coq Require Import Reals Lra Lia List Bool ZArith.
From Verif.Model Require Import Base RBase Vec Frame Geometry Plane.
From Verif.Spec Require Import VecSpec FrameSpec PlaneSpec.
From Verif.Proofs Require Import VecP LineP FrameP FrameP2 GeometryP PlaneP PlaneP2.
Open Scope R_scope.

(** the points of a list that are not within 1e-6 of p0 *)
Lemma unit_collinear p0 q r a b : unit_vector3 (sub3 q p0) = Ok a -> unit_vector3 (sub3 r p0) = Ok b -> (collinear3 p0 q r <-> Rabs (dot3 a b) = 1).
Proof.
  intros Ea Eb. pose proof (unit3_spec _ _ Ea) as (_ & SA & PA). pose proof (unit3_spec _ _ Eb) as (_ & SB & PB). unfold collinear3.
  set (ka := norm3 (sub3 q p0)) in *. set (kb := norm3 (sub3 r p0)) in *. clearbody ka kb. rewrite <- SA, <- SB, cross_scale, mul_zero_iff by (apply Rgt_not_eq, Rmult_lt_0_compat; auto).
  rewrite <- dot3_zero, lagrange3, (unit_dot _ _ Ea), (unit_dot _ _ Eb). clear. set (d := dot3 a b). split.
  - intros H. assert (Q : Rabs d * Rabs d = 1). { rewrite <- Rabs_mult, Rabs_pos_eq by nra. lra. } pose proof (Rabs_pos d). nra.
  - intros H. assert (Q : Rabs d * Rabs d = d * d) by (rewrite <- Rabs_mult; apply Rabs_pos_eq; nra). rewrite H in Q. lra.
Qed.
Lemma unit_dot_le a b : dot3 a a = 1 -> dot3 b b = 1 -> Rabs (dot3 a b) <= 1.
Proof. intros A B. pose proof (VecP.cauchy3 a b) as C. rewrite (dot3_1 _ A), (dot3_1 _ B) in C. lra. Qed.
Lemma plane_points_short l : (length l < 3)%nat -> plane_from_points l = Err ValueError.
Proof. intros H. destruct l as [|? [|? [|? ?]]]; cbn in *; auto; lia. Qed.
Lemma plane_points_err p0 l : (3 <= length l)%nat ->
  let far := filter (fun p => negb (is_close3 p p0 (/ 10 ^ 6))) l in
  (plane_from_points (p0 :: l) = Err IndexError <-> (length far < 2)%nat) /\
  (plane_from_points (p0 :: l) = Err ZeroDivisionError <-> (2 <= length far)%nat /\ forall p, In p far -> collinear3 p0 (hd O3D far) p).
Proof.
  intros HL far. destruct l as [|p1 [|p2 [|p3 rest]]]; cbn [length] in HL; try lia.
  unfold plane_from_points. fold far.
  assert (FF : forall p, In p far -> p <> p0) by (intros p Hp; apply filter_far in Hp; apply Hp). clearbody far.
  destruct far as [|q1 [|q2 others]]; cbn [length hd].
  - split; [split; [lia|auto]|]. split; [discriminate|intros [? _]; lia].
  - split; [split; [lia|auto]|]. split; [discriminate|intros [? _]; lia].
  - assert (US : forall p, In p (q1 :: q2 :: others) -> exists n, unit_vector3 (sub3 p p0) = Ok n).
    { intros p Hp. destruct (unit_cases (sub3 p p0)) as [?|[_ Z]]; auto. exfalso. apply (FF p Hp). destruct p as [a b c], p0 as [a' b' c']. unfold sub3 in Z. cbn [x3 y3 z3] in Z. pose proof (f_equal x3 Z). pose proof (f_equal y3 Z). pose proof (f_equal z3 Z). cbn [x3 y3 z3] in *. f_equal; lra. }
    destruct (US q1) as [v1 E1]; [cbn; auto|]. destruct (US q2) as [v2 E2]; [cbn; auto|].
    assert (FO : forall p, In p others -> p <> p0) by (intros p Hp; apply FF; cbn; auto).
    unfold bind. rewrite E1, E2. destruct (fp_total p0 v1 others v2 (Rabs (dot3 v1 v2)) FO) as [[v d] E3]. rewrite E3.
    pose proof (fp_loop p0 v1 others v2 _ _ FO eq_refl E3) as (A & B & K & M). cbn [fst snd] in *. subst d.
    pose proof (unit_dot _ _ E1) as D1. pose proof (unit_dot _ _ E2) as D2.
    assert (Dv : dot3 v v = 1). { destruct M as [-> | (p & _ & E')]; [auto|eapply unit_dot; eauto]. }
    assert (VV : forall n, dot3 n n = 1 -> unit_vector3 (sub3 (add3 n p0) p0) = Ok n) by (intros n Hn; rewrite add_sub3; apply unit3_of; auto).
    assert (Col : collinear3 p0 (add3 v1 p0) (add3 v p0) <-> Rabs (dot3 v1 v) = 1) by (apply unit_collinear; auto).
    split.
    + split; [|lia]. intros E. apply plane_3_points_err in E as [_ E]. discriminate.
    + rewrite plane_3_points_err, Col. split.
      * intros [H _]. split; [lia|]. intros p Hp. destruct (US p Hp) as [n En]. apply (unit_collinear p0 q1 p v1 n E1 En).
        pose proof (unit_dot_le v1 n D1 (unit_dot _ _ En)) as L.
        destruct Hp as [<- | [<- | Hp]].
        -- rewrite E1 in En. apply Ok_inj in En. subst n. rewrite D1. apply Rabs_R1.
        -- rewrite E2 in En. apply Ok_inj in En. subst n. lra.
        -- pose proof (K p n Hp En). lra.
      * intros [_ H]. split; auto. destruct M as [-> | (p & Hp & E')].
        -- apply (unit_collinear p0 q1 q2 v1 v2 E1 E2). apply H. cbn; auto.
        -- apply (unit_collinear p0 q1 p v1 v E1 E'). apply H. cbn; auto.
Qed.
Lemma plane_points_not_first_three : exists p0 p1 p2 p3 f, plane_from_points [p0; p1; p2; p3] = Ok f /\ ~ collinear3 p0 p1 p2 /\ 1 <= Rabs (plane_height f p2).
Proof.
  exists (V3 0 0 0), (V3 1 0 0), (V3 1 1 0), (V3 0 0 1).
  assert (DD : forall v, point_distance3 v (V3 0 0 0) = norm3 v) by (intros v; unfold point_distance3; f_equal; vec; v_eq; ring).
  assert (FAR : forall v, dot3 v v >= 1 -> negb (is_close3 v (V3 0 0 0) (/ 10 ^ 6)) = true).
  { intros v Hv. apply negb_true_iff. destruct (is_close3 v (V3 0 0 0) (/ 10 ^ 6)) eqn:C; auto. apply is_close3_spec in C; [|left; apply pow10_inv_pos]. rewrite DD in C. pose proof (norm3_sq v). pose proof (norm3_pos v). assert (/ 10 ^ 6 < 1 / 2) by lra. nra. }
  assert (S0 : forall v, sub3 v (V3 0 0 0) = v) by (intros v; vec; v_eq; ring). assert (A0 : forall v, add3 v (V3 0 0 0) = v) by (intros v; vec; v_eq; ring).
  set (k := / sqrt 2). assert (K2 : sqrt 2 * sqrt 2 = 2) by (apply sqrt_sqrt; lra). assert (KP : 0 < sqrt 2) by (apply sqrt_lt_R0; lra).
  assert (KK : k * k = 1 / 2). { unfold k. replace (1 / 2) with (/ (sqrt 2 * sqrt 2)) by (rewrite K2; lra). field. lra. }
  assert (KP' : 0 < k) by (unfold k; apply Rinv_0_lt_compat; auto).
  assert (U1 : unit_vector3 (V3 1 0 0) = Ok (V3 1 0 0)) by (apply unit3_of; vec; ring). assert (U3 : unit_vector3 (V3 0 0 1) = Ok (V3 0 0 1)) by (apply unit3_of; vec; ring).
  assert (U2 : unit_vector3 (V3 1 1 0) = Ok (V3 k k 0)). { apply unit3_ok. split; [intros Q; pose proof (f_equal x3 Q) as Q'; cbn in Q'; lra|]. replace (norm3 (V3 1 1 0)) with (sqrt 2) by (unfold norm3; cbn [x3 y3 z3]; f_equal; ring). unfold mul3. cbn [x3 y3 z3]. fold k. f_equal; ring. }
  assert (U4 : unit_vector3 (V3 0 (-1) 0) = Ok (V3 0 (-1) 0)) by (apply unit3_of; vec; ring).
  eexists. split; [|split].
  - unfold plane_from_points. cbn [filter]. rewrite !FAR by (vec; lra). rewrite !S0, U1. cbn [bind]. rewrite U2. cbn [bind fold_left]. unfold fp_step. cbn [bind]. rewrite S0, U3. cbn [bind]. cbv zeta.
    replace (dot3 (V3 1 0 0) (V3 k k 0)) with k by (vec; ring). replace (dot3 (V3 1 0 0) (V3 0 0 1)) with 0 by (vec; ring). rewrite Rabs_R0, (Rabs_pos_eq k) by lra.
    rewrite (proj2 (Rltb_spec 0 k) KP'). rewrite !A0. unfold plane_from_3_points. rewrite !S0, U1, U3. cbn [bind].
    replace (cross3 (V3 1 0 0) (V3 0 0 1)) with (V3 0 (-1) 0) by (vec; v_eq; ring). rewrite U4. cbn [bind]. reflexivity.
  - unfold collinear3. intros Q. pose proof (f_equal z3 Q) as Q'. vec. lra.
  - unfold plane_height. cbn [fb3 org3 bw]. replace (dot3 (sub3 (V3 1 1 0) (V3 0 0 0)) (V3 0 (-1) 0)) with (-1) by (vec; ring). rewrite Rabs_left; lra.
Qed.

(** ** plane / line *)
Lemma plane_line_sound f l tol q : 0 <= tol -> In q (plane_line_intersections f l tol) -> on_line3 l q /\ on_plane f q.
Proof.
  intros Ht. unfold plane_line_intersections. cbv zeta. destruct (isclose _ 0 tol) eqn:C; [intros []|]. apply isclose_0_false in C; auto.
  intros [<- | []]. set (n := dot3 (bw (fb3 f)) (sub3 (snd l) (fst l))) in *. assert (N : n <> 0) by (intros Z; rewrite Z, Rabs_R0 in C; lra).
  split; [eexists; reflexivity|]. unfold on_plane. set (t := - dot3 (bw (fb3 f)) (sub3 (fst l) (org3 f)) / n).
  assert (E : dot3 (sub3 (add3 (fst l) (mul3 (sub3 (snd l) (fst l)) t)) (org3 f)) (bw (fb3 f)) = dot3 (bw (fb3 f)) (sub3 (fst l) (org3 f)) + t * n) by (unfold n; vec; ring).
  rewrite E. unfold t. field. auto.
Qed.
Lemma plane_line_complete f l tol : 0 <= tol -> tol < Rabs (dot3 (bw (fb3 f)) (sub3 (snd l) (fst l))) ->
  exists q, plane_line_intersections f l tol = [q] /\ forall r, on_line3 l r -> on_plane f r -> r = q.
Proof.
  intros Ht H. unfold plane_line_intersections. cbv zeta. rewrite (proj2 (isclose_0_false _ _ Ht) H). eexists. split; [reflexivity|].
  intros r (t & ->) P. unfold on_plane in P. set (n := dot3 (bw (fb3 f)) (sub3 (snd l) (fst l))) in *. assert (N : n <> 0) by (intros Z; rewrite Z, Rabs_R0 in H; lra).
  assert (E : dot3 (sub3 (add3 (fst l) (mul3 (sub3 (snd l) (fst l)) t)) (org3 f)) (bw (fb3 f)) = dot3 (bw (fb3 f)) (sub3 (fst l) (org3 f)) + t * n) by (unfold n; vec; ring).
  rewrite E in P. f_equal. f_equal. apply Rmult_eq_reg_r with n; auto. unfold Rdiv. rewrite Rmult_assoc, Rinv_l by auto. lra.
Qed.
Lemma plane_line_none f l tol : 0 <= tol -> (plane_line_intersections f l tol = [] <-> Rabs (dot3 (bw (fb3 f)) (sub3 (snd l) (fst l))) <= tol).
Proof.
  intros Ht. unfold plane_line_intersections. cbv zeta. destruct (isclose _ 0 tol) eqn:C.
  - apply isclose_0 in C; auto. tauto.
  - apply isclose_0_false in C; auto. split; [discriminate|lra].
Qed.
(** the same line is found or missed according to the distance of the two points that define it *)
Lemma plane_line_scale : exists f l l', direct (fb3 f) /\ (forall p, on_line3 l p <-> on_line3 l' p) /\
  plane_line_intersections f l (/ 10 ^ 6) = [O3D] /\ plane_line_intersections f l' (/ 10 ^ 6) = [].
Proof.
  exists (F3 O3D (B3 X3D Y3D Z3D)), (O3D, V3 0 0 1), (O3D, V3 0 0 (/ 10 ^ 7)). split; [exact std_direct|].
  assert (P7 : 0 < / 10 ^ 7) by apply pow10_inv_pos. assert (P6 : 0 < / 10 ^ 6) by apply pow10_inv_pos.
  split; [|split].
  - intros p. unfold on_line3, O3D. cbn [fst snd]. split; intros [t ->].
    + exists (t / / 10 ^ 7). vec. v_eq; field; lra.
    + exists (t * / 10 ^ 7). vec. v_eq; ring.
  - destruct (plane_line_complete (F3 O3D (B3 X3D Y3D Z3D)) (O3D, V3 0 0 1) (/ 10 ^ 6)) as (q & E & U); [lra|cbn [fst snd fb3 bw]; unfold Z3D, O3D; vec; replace (0 * (0 - 0) + 0 * (0 - 0) + 1 * (1 - 0)) with 1 by ring; rewrite Rabs_R1; lra|].
    rewrite E. f_equal. symmetry. apply U; [exists 0; unfold O3D; cbn [fst snd]; vec; v_eq; ring|]. unfold on_plane, O3D, Z3D. cbn [org3 fb3 bw]. vec. ring.
  - apply plane_line_none; [lra|]. cbn [fst snd fb3 bw]. unfold Z3D, O3D. vec. replace (0 * (0 - 0) + 0 * (0 - 0) + 1 * (/ 10 ^ 7 - 0)) with (/ 10 ^ 7) by ring. rewrite Rabs_pos_eq by lra. lra.
Qed.

(** ** plane / segment *)
Lemma seg_t f l t : dot3 (sub3 (add3 (fst l) (mul3 (sub3 (snd l) (fst l)) t)) (org3 f)) (bw (fb3 f)) = dot3 (bw (fb3 f)) (sub3 (fst l) (org3 f)) + t * dot3 (bw (fb3 f)) (sub3 (snd l) (fst l)).
Proof. vec; ring. Qed.
Lemma end0 a b : a = add3 a (mul3 (sub3 b a) 0). Proof. vec; v_eq; ring. Qed.
Lemma end1 a b : b = add3 a (mul3 (sub3 b a) 1). Proof. vec; v_eq; ring. Qed.
Lemma isclose_1 t tol : / 10 ^ 8 <= tol -> isclose t 1 tol = true -> Rabs (t - 1) <= tol.
Proof.
  intros Ht C. unfold isclose in C. rb. rewrite (Rabs_pos_eq 1) in C by lra. assert (e9 : 0 < / 10 ^ 9 < / 2) by lra.
  destruct (Rle_dec (Rabs (t - 1)) tol) as [D|D]; auto. exfalso. set (z := Rabs (t - 1)) in *.
  assert (Z1 : Rabs t <= 1 + z). { unfold z. replace t with (1 + (t - 1)) at 1 by ring. eapply Rle_trans; [apply Rabs_triang|]. rewrite Rabs_R1. lra. }
  assert (Z0 : 0 <= z) by apply Rabs_pos. assert (Z2 : Rmax (Rabs t) 1 <= 1 + z) by (apply Rmax_lub; lra).
  apply Rle_not_lt in C. apply C. apply Rmax_lub_lt; [|lra]. apply Rle_lt_trans with (/ 10 ^ 9 * (1 + z)); [apply Rmult_le_compat_l; lra|]. lra.
Qed.
Lemma plane_seg_sound f l tol L q : / 10 ^ 8 <= tol -> dot3 (bw (fb3 f)) (bw (fb3 f)) = 1 -> plane_linesegment_intersections f l tol = Ok L -> In q L ->
  L = [q] /\ on_segment3 l q /\ Rabs (plane_height f q) <= tol * norm3 (sub3 (snd l) (fst l)) /\ (on_plane f q \/ q = fst l \/ q = snd l).
Proof.
  intros Ht8 W. assert (Ht : 0 <= tol) by (pose proof (pow10_inv_pos 8); lra). unfold plane_linesegment_intersections. cbv zeta. set (n := dot3 (bw (fb3 f)) (sub3 (snd l) (fst l))).
  assert (HKn : 0 <= tol * norm3 (sub3 (snd l) (fst l))) by (apply Rmult_le_pos; auto; apply norm3_pos).
  destruct (Reqb n 0) eqn:C; [intros Q; apply Ok_inj in Q; subst; intros []|]. rb.
  destruct (unit_cases (bw (fb3 f))) as [[wu ->] | [-> _]]; [|discriminate]. destruct (unit_cases (sub3 (snd l) (fst l))) as [[uu ->] | [-> _]]; [|discriminate]. cbn [bind].
  destruct (isclose (dot3 wu uu) 0 tol); [intros Q; apply Ok_inj in Q; subst; intros []|].
  set (t := - dot3 (bw (fb3 f)) (sub3 (fst l) (org3 f)) / n).
  assert (T : dot3 (bw (fb3 f)) (sub3 (fst l) (org3 f)) = - t * n) by (unfold t; field; auto).
  assert (HN : Rabs n <= norm3 (sub3 (snd l) (fst l))). { pose proof (VecP.cauchy3 (bw (fb3 f)) (sub3 (snd l) (fst l))) as Q. rewrite (dot3_1 _ W), Rmult_1_l in Q. exact Q. }
  destruct (Rltb t 0 || Rltb 1 t) eqn:O.
  - destruct (isclose (Rabs t) 0 tol) eqn:C0.
    + intros Q; apply Ok_inj in Q; subst L. intros [<- | []]. split; auto. split; [exists 0; split; [lra|apply end0]|].
      apply isclose_0 in C0; auto. rewrite Rabs_Rabsolu in C0. split; auto. unfold plane_height. replace (dot3 (sub3 (fst l) (org3 f)) (bw (fb3 f))) with (- t * n) by (rewrite <- T; apply dot3_sym).
      rewrite Rabs_mult, Rabs_Ropp. apply Rmult_le_compat; auto using Rabs_pos.
    + destruct (isclose t 1 tol) eqn:C1.
      * intros Q; apply Ok_inj in Q; subst L. intros [<- | []]. split; auto. split; [exists 1; split; [lra|apply end1]|]. split; auto.
        unfold plane_height. assert (E : dot3 (sub3 (snd l) (org3 f)) (bw (fb3 f)) = (1 - t) * n). { pose proof (seg_t f l 1) as S. replace (add3 (fst l) (mul3 (sub3 (snd l) (fst l)) 1)) with (snd l) in S by apply end1. rewrite S, T. fold n. ring. }
        rewrite E, Rabs_mult. apply Rmult_le_compat; auto using Rabs_pos. rewrite Rabs_minus_sym. apply isclose_1; auto.
      * intros Q; apply Ok_inj in Q; subst; intros [].
  - apply orb_false_iff in O as [O1 O2]. rb. intros Q; apply Ok_inj in Q; subst L. intros [<- | []]. split; auto. split; [exists t; split; [lra|auto]|].
    assert (Z : dot3 (sub3 (add3 (fst l) (mul3 (sub3 (snd l) (fst l)) t)) (org3 f)) (bw (fb3 f)) = 0) by (rewrite seg_t, T; fold n; ring).
    unfold plane_height, on_plane. rewrite Z, Rabs_R0. auto.
Qed.
(** sine of the angle of the segment and the plane above the tolerance: an exact intersection is found *)
Lemma plane_seg_complete f l tol q : 0 <= tol -> dot3 (bw (fb3 f)) (bw (fb3 f)) = 1 ->
  tol * norm3 (sub3 (snd l) (fst l)) < Rabs (dot3 (bw (fb3 f)) (sub3 (snd l) (fst l))) -> on_segment3 l q -> on_plane f q ->
  plane_linesegment_intersections f l tol = Ok [q].
Proof.
  intros Ht W H (t & Ht01 & ->) P. unfold on_plane in P. rewrite seg_t in P. unfold plane_linesegment_intersections. cbv zeta. set (n := dot3 (bw (fb3 f)) (sub3 (snd l) (fst l))) in *.
  pose proof (norm3_pos (sub3 (snd l) (fst l))) as NP. assert (N : n <> 0). { intros Z. rewrite Z, Rabs_R0 in H. nra. } rewrite (proj2 (Reqb_false _ _) N).
  rewrite (unit3_of _ W). cbn [bind]. destruct (unit_cases (sub3 (snd l) (fst l))) as [[uu Eu] | [_ Z]].
  2:{ exfalso. apply N. unfold n. rewrite Z. vec. ring. }
  rewrite Eu. cbn [bind]. pose proof (unit3_spec _ _ Eu) as (_ & SU & PU).
  assert (C : isclose (dot3 (bw (fb3 f)) uu) 0 tol = false).
  { apply isclose_0_false; auto. assert (E : n = norm3 (sub3 (snd l) (fst l)) * dot3 (bw (fb3 f)) uu). { unfold n. rewrite <- SU at 1. rewrite (dot3_sym (bw (fb3 f))), dot3_mul_l, (dot3_sym uu). reflexivity. }
    rewrite E, Rabs_mult, Rabs_pos_eq in H by lra. apply Rmult_lt_reg_l with (norm3 (sub3 (snd l) (fst l))); auto. lra. }
  rewrite C. assert (T : - dot3 (bw (fb3 f)) (sub3 (fst l) (org3 f)) / n = t). { apply Rmult_eq_reg_r with n; auto. unfold Rdiv. rewrite Rmult_assoc, Rinv_l by auto. lra. }
  rewrite T. rewrite (proj2 (Rltb_false t 0)), (proj2 (Rltb_false 1 t)) by lra. reflexivity.
Qed.
Lemma plane_seg_total f l tol : dot3 (bw (fb3 f)) (bw (fb3 f)) = 1 -> exists L, plane_linesegment_intersections f l tol = Ok L /\ (length L <= 1)%nat.
Proof.
  intros W. unfold plane_linesegment_intersections. cbv zeta. destruct (Reqb _ 0) eqn:C; [exists []; cbn; auto|]. rb. rewrite (unit3_of _ W). cbn [bind].
  destruct (unit_cases (sub3 (snd l) (fst l))) as [[uu ->] | [_ Z]]; [|exfalso; apply C; rewrite Z; vec; ring]. cbn [bind].
  repeat match goal with |- context [if ?b then _ else _] => destruct b end; eexists; (split; [reflexivity|cbn; lia]).
Qed.

(** ** parameters *)
Lemma plane_2d_to_3d_err f p : near (/ 10 ^ 12 / 2) (plane_2d_to_3d f p) (plane_array f p).
Proof.
  unfold plane_2d_to_3d, point_to_3d, plane_array. cbv zeta.
  assert (E : to_3d p (org3 f) (bu (fb3 f)) (bv (fb3 f)) = add3 (add3 (org3 f) (mul3 (bu (fb3 f)) (x2 p))) (mul3 (bv (fb3 f)) (y2 p))) by (unfold to_3d; vec; v_eq; ring).
  rewrite E. repeat split; cbn [x3 y3 z3]; apply py_round_err.
Qed.
Lemma plane_array_on f p : orthonormal (fb3 f) -> on_plane f (plane_array f p).
Proof.
  intros (U & V & W & UV & UW & VW). unfold on_plane, plane_array.
  assert (E : dot3 (sub3 (add3 (add3 (org3 f) (mul3 (bu (fb3 f)) (x2 p))) (mul3 (bv (fb3 f)) (y2 p))) (org3 f)) (bw (fb3 f)) = x2 p * dot3 (bu (fb3 f)) (bw (fb3 f)) + y2 p * dot3 (bv (fb3 f)) (bw (fb3 f))) by (vec; ring).
  rewrite E, UW, VW. ring.
Qed.
Lemma plane_param_inverse f p : orthonormal (fb3 f) -> plane_3d_to_2d f (plane_array f p) = p.
Proof.
  intros (U & V & W & UV & UW & VW). unfold plane_3d_to_2d, plane_array. pose proof (to_2d_3d p (org3 f) _ _ U V UV) as E. refine (eq_trans _ E). reflexivity.
Qed.
Lemma plane_param_cover f p : direct (fb3 f) -> on_plane f p -> plane_array f (plane_3d_to_2d f p) = p.
Proof.
  intros [(U & V & W & UV & UW & VW) D] H. unfold on_plane in H. rewrite <- D in H. pose proof (to_3d_2d p (org3 f) _ _ U V UV H) as E. refine (eq_trans _ E). reflexivity.
Qed.
