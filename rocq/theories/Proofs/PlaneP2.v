(** Planes: degenerate constructors, from_points, plane / line, plane / segment. *)
From Coq Require Import Reals Lra Lia List Bool ZArith.
From Verif.Model Require Import Base RBase Vec Frame Geometry Plane.
From Verif.Spec Require Import VecSpec FrameSpec PlaneSpec.
From Verif.Proofs Require Import VecP LineP FrameP FrameP2 GeometryP PlaneP.
Open Scope R_scope.

Lemma unit_cases u : (exists n, unit_vector3 u = Ok n) \/ unit_vector3 u = Err ZeroDivisionError /\ u = V3 0 0 0.
Proof. destruct (unit_vector3 u) as [n|e] eqn:E; [left; eauto|]. right. apply unit3_err in E as [-> ->]. auto. Qed.
Lemma cross_zero_l v : cross3 (V3 0 0 0) v = V3 0 0 0. Proof. vec; v_eq; ring. Qed.
Lemma cross_zero_r v : cross3 v (V3 0 0 0) = V3 0 0 0. Proof. vec; v_eq; ring. Qed.
Lemma cross_scale a b s t : cross3 (mul3 a s) (mul3 b t) = mul3 (cross3 a b) (s * t). Proof. vec; v_eq; ring. Qed.
Lemma mul_zero_iff u k : k <> 0 -> (mul3 u k = V3 0 0 0 <-> u = V3 0 0 0).
Proof.
  intros Hk. split; intros H.
  - destruct u as [a b c]. unfold mul3 in H. cbn [x3 y3 z3] in H. pose proof (f_equal x3 H) as H1. pose proof (f_equal y3 H) as H2. pose proof (f_equal z3 H) as H3. cbn [x3 y3 z3] in *.
    apply Rmult_integral in H1, H2, H3. destruct H1, H2, H3; try contradiction. subst. reflexivity.
  - subst. vec. v_eq; ring.
Qed.
Lemma plane_3_points_err p1 p2 p3 e : plane_from_3_points p1 p2 p3 = Err e <-> collinear3 p1 p2 p3 /\ e = ZeroDivisionError.
Proof.
  unfold plane_from_3_points, collinear3, bind.
  destruct (unit_cases (sub3 p2 p1)) as [[a Ea] | [Ea Za]]; rewrite Ea.
  2:{ rewrite Za, cross_zero_l. split; [intros H; injection H; auto|intros [_ ->]; auto]. }
  destruct (unit_cases (sub3 p3 p1)) as [[b Eb] | [Eb Zb]]; rewrite Eb.
  2:{ rewrite Zb, cross_zero_r. split; [intros H; injection H; auto|intros [_ ->]; auto]. }
  pose proof (unit3_spec _ _ Ea) as (_ & SA & PA). pose proof (unit3_spec _ _ Eb) as (_ & SB & PB).
  assert (Z : cross3 (sub3 p2 p1) (sub3 p3 p1) = V3 0 0 0 <-> cross3 a b = V3 0 0 0).
  { set (ka := norm3 (sub3 p2 p1)) in *. set (kb := norm3 (sub3 p3 p1)) in *. clearbody ka kb. rewrite <- SA, <- SB, cross_scale. apply mul_zero_iff. apply Rgt_not_eq, Rmult_lt_0_compat; auto. }
  destruct (unit_cases (cross3 a b)) as [[n En] | [En Zn]]; rewrite En.
  - split; [discriminate|]. intros [Q ->]. apply Z in Q. apply unit3_ok in En as [En _]. contradiction.
  - split; [intros H; injection H as <-; split; auto; apply Z; auto|intros [_ ->]; auto].
Qed.
Lemma plane_normal_ok point normal f : plane_from_normal point normal = Ok f ->
  bw (fb3 f) = normal /\ org3 f = point /\ on_plane f point /\ (forall p, on_plane f p <-> dot3 (sub3 p point) normal = 0) /\
  (dot3 normal normal = 1 -> orthonormal (fb3 f) /\ cross3 (bu (fb3 f)) (bv (fb3 f)) = neg3 (bw (fb3 f))).
Proof.
  unfold plane_from_normal, bind. destruct (deterministic_unit_normal_vector normal) as [a|] eqn:E; [|discriminate]. intros Q; apply Ok_inj in Q; subst f.
  cbn [fb3 org3 bu bv bw]. split; auto. split; auto. unfold on_plane. cbn [fb3 org3 bw]. split; [vec; ring|]. split; [intros; reflexivity|]. intros N.
  unfold deterministic_unit_normal_vector, bind in E. destruct (deterministic_normal_vector normal) as [v|] eqn:Ev; [|discriminate].
  apply det_normal_perp in Ev. pose proof (unit_dot _ _ E) as A. apply unit3_ok in E as [_ Ea].
  assert (P : dot3 a normal = 0) by (rewrite Ea, dot3_mul_l, Ev; ring).
  split.
  - repeat split; cbn [bu bv bw]; auto.
    + rewrite lagrange3, A, N, P. ring.
    + rewrite dot3_sym. apply cross3_perp_l.
    + apply cross3_perp_r.
  - rewrite double_cross, A, P. vec. v_eq; ring.
Qed.
Lemma plane_normal_total point normal : dot3 normal normal = 1 -> exists f, plane_from_normal point normal = Ok f.
Proof.
  intros N. assert (H : / 10 ^ 7 < norm3 normal) by (rewrite (dot3_1 _ N); lra).
  destruct (det_normal_exists normal H) as (v & E & _ & NZ). unfold plane_from_normal, deterministic_unit_normal_vector, bind. rewrite E.
  destruct (unit_cases v) as [[n ->] | [_ Z]]; [eauto|contradiction].
Qed.
Lemma plane_normal_left : exists point normal f, dot3 normal normal = 1 /\ plane_from_normal point normal = Ok f /\ ~ direct (fb3 f).
Proof.
  exists O3D, Z3D. destruct (plane_normal_total O3D Z3D) as [f E]; [unfold Z3D; vec; ring|]. exists f. split; [unfold Z3D; vec; ring|]. split; auto.
  pose proof (plane_normal_ok _ _ _ E) as (W & _ & _ & _ & K). destruct (K ltac:(unfold Z3D; vec; ring)) as [_ C]. intros [_ D]. rewrite D, W in C. unfold Z3D, neg3 in C. pose proof (f_equal z3 C) as C'. cbn [x3 y3 z3] in C'. lra.
Qed.
Lemma plane_vectors_ok o x y : dot3 x x = 1 -> dot3 y y = 1 -> dot3 x y = 0 ->
  direct (fb3 (plane_from_vectors o x y)) /\ on_plane (plane_from_vectors o x y) (add3 o x) /\ on_plane (plane_from_vectors o x y) (add3 o y).
Proof.
  intros X Y XY. unfold plane_from_vectors, on_plane. cbn [fb3 org3 bu bv bw]. repeat split; cbn [bu bv bw]; auto.
  - rewrite lagrange3, X, Y, XY. ring.
  - rewrite dot3_sym. apply cross3_perp_l.
  - rewrite dot3_sym. apply cross3_perp_r.
  - vec; ring.
  - vec; ring.
Qed.
(** the points of the plane of a direct frame are the combinations origin + s u + t v *)
Lemma on_plane_span f p : direct (fb3 f) -> (on_plane f p <-> exists s t, p = add3 (org3 f) (add3 (mul3 (bu (fb3 f)) s) (mul3 (bv (fb3 f)) t))).
Proof.
  intros [(U & V & W & UV & UW & VW) D]. unfold on_plane. split.
  - intros H. exists (dot3 (sub3 p (org3 f)) (bu (fb3 f))), (dot3 (sub3 p (org3 f)) (bv (fb3 f))).
    rewrite <- D in H. pose proof (to_3d_2d p (org3 f) (bu (fb3 f)) (bv (fb3 f)) U V UV H) as E.
    transitivity (to_3d (to_2d p (org3 f) (bu (fb3 f)) (bv (fb3 f))) (org3 f) (bu (fb3 f)) (bv (fb3 f))); [auto|].
    unfold to_3d, to_2d. vec. v_eq; ring.
  - intros (s & t & ->).
    assert (E : dot3 (sub3 (add3 (org3 f) (add3 (mul3 (bu (fb3 f)) s) (mul3 (bv (fb3 f)) t))) (org3 f)) (bw (fb3 f)) = s * dot3 (bu (fb3 f)) (bw (fb3 f)) + t * dot3 (bv (fb3 f)) (bw (fb3 f))) by (vec; ring).
    rewrite E, UW, VW. ring.
Qed.

(** ** from_points *)
Lemma fp_loop o v1 l : forall v d r, (forall p, In p l -> p <> o) -> d = Rabs (dot3 v1 v) -> fold_left (fp_step o v1) l (Ok (v, d)) = Ok r ->
  snd r = Rabs (dot3 v1 (fst r)) /\ snd r <= d /\ (forall p n, In p l -> unit_vector3 (sub3 p o) = Ok n -> snd r <= Rabs (dot3 v1 n)) /\
  (fst r = v \/ exists p, In p l /\ unit_vector3 (sub3 p o) = Ok (fst r)).
Proof.
  induction l as [|q l IH]; intros v d r Hl Hd H.
  - cbn in H. apply Ok_inj in H. subst r. cbn [fst snd]. split; auto. split; [lra|]. split; [intros ? ? []|]. auto.
  - cbn [fold_left] in H. unfold fp_step at 2 in H. cbn [bind] in H.
    destruct (unit_cases (sub3 q o)) as [[n En] | [_ Z]].
    2:{ exfalso. apply (Hl q); [left; auto|]. destruct q as [a b c], o as [a' b' c']. unfold sub3 in Z. cbn [x3 y3 z3] in Z. pose proof (f_equal x3 Z). pose proof (f_equal y3 Z). pose proof (f_equal z3 Z). cbn [x3 y3 z3] in *. f_equal; lra. }
    rewrite En in H. cbn [bind] in H. cbv zeta in H.
    destruct (Rltb (Rabs (dot3 v1 n)) d) eqn:C; rb.
    + specialize (IH n _ r (fun p Hp => Hl p (or_intror Hp)) eq_refl H). destruct IH as (A & B & K & M). split; auto. split; [lra|]. split.
      * intros p n' [<- | Hp] E'; [rewrite En in E'; apply Ok_inj in E'; subst; auto|eauto].
      * right. destruct M as [-> | (p & Hp & E')]; [exists q; split; [left; auto|auto]|exists p; split; [right; auto|auto]].
    + specialize (IH v d r (fun p Hp => Hl p (or_intror Hp)) Hd H). destruct IH as (A & B & K & M). split; auto. split; auto. split.
      * intros p n' [<- | Hp] E'; [rewrite En in E'; apply Ok_inj in E'; subst; lra|eauto].
      * destruct M as [-> | (p & Hp & E')]; [auto|right; exists p; split; [right; auto|auto]].
Qed.
Lemma fp_total o v1 l : forall v d, (forall p, In p l -> p <> o) -> exists r, fold_left (fp_step o v1) l (Ok (v, d)) = Ok r.
Proof.
  induction l as [|q l IH]; intros v d Hl; cbn [fold_left]; [eauto|]. unfold fp_step at 2. cbn [bind].
  destruct (unit_cases (sub3 q o)) as [[n En] | [_ Z]].
  - rewrite En. cbn [bind]. cbv zeta. destruct (Rltb _ _); apply IH; intros p Hp; apply Hl; right; auto.
  - exfalso. apply (Hl q); [left; auto|]. destruct q as [a b c], o as [a' b' c']. unfold sub3 in Z. cbn [x3 y3 z3] in Z. pose proof (f_equal x3 Z). pose proof (f_equal y3 Z). pose proof (f_equal z3 Z). cbn [x3 y3 z3] in *. f_equal; lra.
Qed.
Lemma add_sub3 a o : sub3 (add3 a o) o = a. Proof. vec; v_eq; ring. Qed.
Lemma filter_far p0 l p : In p (filter (fun p => negb (is_close3 p p0 (/ 10 ^ 6))) l) -> p <> p0 /\ In p l /\ / 10 ^ 6 < point_distance3 p p0.
Proof.
  intros H. apply filter_In in H as [H1 H2]. apply negb_true_iff in H2.
  assert (D : / 10 ^ 6 < point_distance3 p p0).
  { destruct (Rle_dec (point_distance3 p p0) (/ 10 ^ 6)) as [Q|Q]; [|lra]. apply (proj2 (is_close3_spec p p0 (/ 10 ^ 6) ltac:(lra))) in Q. congruence. }
  split; auto. intros ->. assert (point_distance3 p0 p0 = 0) by (apply dist3_zero; auto). pose proof (pow10_inv_pos 6). lra.
Qed.
Lemma unit_on f o p n : org3 f = o -> unit_vector3 (sub3 p o) = Ok n -> (on_plane f p <-> dot3 n (bw (fb3 f)) = 0).
Proof.
  intros Ho E. unfold on_plane. rewrite Ho. pose proof (unit3_spec _ _ E) as (_ & S & P). set (k := norm3 (sub3 p o)) in *. clearbody k. rewrite <- S, dot3_mul_l. split; intros H; [apply Rmult_integral in H as [?|?]; [lra|auto]|rewrite H; ring].
Qed.
(** the plane goes through the first point, through another point, and through all the points when they are coplanar *)
Lemma plane_points_ok p0 l f : (3 <= length l)%nat -> plane_from_points (p0 :: l) = Ok f ->
  direct (fb3 f) /\ org3 f = p0 /\
  exists q r, In q l /\ In r l /\ on_plane f q /\ on_plane f r /\ ~ collinear3 p0 q r /\
  forall g, on_plane g p0 -> on_plane g q -> on_plane g r -> forall p, on_plane f p -> on_plane g p.
Proof.
  intros HL. destruct l as [|p1 [|p2 [|p3 rest]]]; cbn [length] in HL; try lia.
  unfold plane_from_points. destruct (filter _ _) as [|q1 [|q2 others]] eqn:F; try discriminate.
  assert (FF : forall p, In p (q1 :: q2 :: others) -> p <> p0 /\ In p (p1 :: p2 :: p3 :: rest)). { intros p Hp. rewrite <- F in Hp. apply filter_far in Hp as (A & B & _). auto. }
  unfold bind. destruct (unit_vector3 (sub3 q1 p0)) as [v1|] eqn:E1; [|discriminate]. destruct (unit_vector3 (sub3 q2 p0)) as [v2|] eqn:E2; [|discriminate].
  destruct (fold_left (fp_step p0 v1) others (Ok (v2, Rabs (dot3 v1 v2)))) as [[v d]|] eqn:E3; [|discriminate]. intros E.
  pose proof (fp_loop p0 v1 others v2 _ _ (fun p Hp => proj1 (FF p (or_intror (or_intror Hp)))) eq_refl E3) as (_ & _ & _ & M). cbn [fst snd] in M.
  pose proof (plane_3_points_ok _ _ _ _ E) as (D & O & _ & A1 & A2 & _ & (kw & Hkw & CW)). split; auto. split; auto.
  assert (R : exists r, In r (q1 :: q2 :: others) /\ unit_vector3 (sub3 r p0) = Ok v).
  { destruct M as [-> | (p & Hp & E')]; [exists q2; split; [cbn; auto|auto]|exists p; split; [cbn; auto|auto]]. }
  destruct R as (r & Hr & Er). exists q1, r. split; [apply FF; cbn; auto|]. split; [apply FF; auto|].
  assert (Q1 : on_plane f q1). { apply (unit_on f p0 q1 v1 O E1). unfold on_plane in A1. rewrite O, add_sub3 in A1. auto. }
  assert (Q2 : on_plane f r). { apply (unit_on f p0 r v O Er). unfold on_plane in A2. rewrite O, add_sub3 in A2. auto. }
  split; auto. split; auto. rewrite !add_sub3 in CW.
  pose proof (unit3_spec _ _ E1) as (_ & S1 & P1). pose proof (unit3_spec _ _ Er) as (_ & S2 & P2).
  destruct D as [(U & V & W & UV & UW & VW) _].
  assert (NZ : mul3 (bw (fb3 f)) kw <> V3 0 0 0). { rewrite mul_zero_iff by lra. intros Z. rewrite Z in W. vec. lra. }
  assert (CC : cross3 (sub3 q1 p0) (sub3 r p0) = mul3 (bw (fb3 f)) (kw * (norm3 (sub3 q1 p0) * norm3 (sub3 r p0)))).
  { transitivity (mul3 (cross3 v1 v) (norm3 (sub3 q1 p0) * norm3 (sub3 r p0))); [rewrite <- cross_scale, S1, S2; auto|]. rewrite CW. generalize (norm3 (sub3 q1 p0) * norm3 (sub3 r p0)). intros k. vec. v_eq; ring. }
  split.
  - unfold collinear3. rewrite CC. rewrite mul_zero_iff; [intros Z; rewrite Z in W; vec; lra|]. apply Rgt_not_eq, Rmult_lt_0_compat; [auto|apply Rmult_lt_0_compat; auto].
  - intros g G0 G1 G2 p Hp. set (K := kw * (norm3 (sub3 q1 p0) * norm3 (sub3 r p0))) in *.
    assert (HK : 0 < K) by (unfold K; apply Rmult_lt_0_compat; [auto|apply Rmult_lt_0_compat; auto]).
    (* w of g is orthogonal to q1-p0 and r-p0, hence parallel to w of f *)
    unfold on_plane in *. rewrite O in Hp.
    assert (G1' : dot3 (sub3 q1 p0) (bw (fb3 g)) = 0). { replace (dot3 (sub3 q1 p0) (bw (fb3 g))) with (dot3 (sub3 q1 (org3 g)) (bw (fb3 g)) - dot3 (sub3 p0 (org3 g)) (bw (fb3 g))) by (vec; ring). lra. }
    assert (G2' : dot3 (sub3 r p0) (bw (fb3 g)) = 0). { replace (dot3 (sub3 r p0) (bw (fb3 g))) with (dot3 (sub3 r (org3 g)) (bw (fb3 g)) - dot3 (sub3 p0 (org3 g)) (bw (fb3 g))) by (vec; ring). lra. }
    assert (CX : cross3 (bw (fb3 g)) (cross3 (sub3 q1 p0) (sub3 r p0)) = V3 0 0 0).
    { rewrite double_cross, !(dot3_sym (bw (fb3 g))), G1', G2'. vec. v_eq; ring. }
    rewrite CC in CX.
    assert (CX' : cross3 (bw (fb3 g)) (bw (fb3 f)) = V3 0 0 0). { rewrite <- (mul_zero_iff _ K) by lra. rewrite <- CX. vec. v_eq; ring. }
    assert (PAR : bw (fb3 g) = mul3 (bw (fb3 f)) (dot3 (bw (fb3 g)) (bw (fb3 f)))).
    { assert (DC : cross3 (bw (fb3 f)) (cross3 (bw (fb3 g)) (bw (fb3 f))) = V3 0 0 0) by (rewrite CX', cross_zero_r; auto).
      rewrite double_cross, W in DC. rewrite (dot3_sym (bw (fb3 f)) (bw (fb3 g))) in DC. revert DC. generalize (dot3 (bw (fb3 g)) (bw (fb3 f))). generalize (bw (fb3 g)) (bw (fb3 f)). intros [a b c] [a' b' c'] k DC.
      unfold sub3, mul3 in DC. cbn [x3 y3 z3] in DC. pose proof (f_equal x3 DC). pose proof (f_equal y3 DC). pose proof (f_equal z3 DC). cbn [x3 y3 z3] in *. unfold mul3. cbn [x3 y3 z3]. f_equal; lra. }
    replace (dot3 (sub3 p (org3 g)) (bw (fb3 g))) with (dot3 (sub3 p p0) (bw (fb3 g)) + dot3 (sub3 p0 (org3 g)) (bw (fb3 g))) by (vec; ring). rewrite G0. set (k := dot3 (bw (fb3 g)) (bw (fb3 f))) in PAR. clearbody k. rewrite PAR, dot3_sym, dot3_mul_l, dot3_sym, Hp. ring.
Qed.
