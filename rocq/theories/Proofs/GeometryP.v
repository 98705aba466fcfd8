From Coq Require Import Lia Lra Psatz.
From Verif.Model Require Import RBase Vec Frame Geometry.
From Verif.Spec Require Import AngleSpec.
From Verif.Proofs Require Import VecP.
Open Scope R_scope.

(** ** Floor and modulo *)
Lemma floor_spec x : IZR (rfloor x) <= x < IZR (rfloor x) + 1.
Proof. unfold rfloor. pose proof (base_Int_part x). lra. Qed.
Lemma floordiv_spec x y : 0 < y -> IZR (floordiv x y) * y <= x < (IZR (floordiv x y) + 1) * y.
Proof.
  intros Hy. unfold floordiv. pose proof (floor_spec (x / y)) as [A B]. assert (E : x = x / y * y) by (field; lra). rewrite E at 2 3.
  split; [apply Rmult_le_compat_r; lra|apply Rmult_lt_compat_r; lra].
Qed.
Lemma rmod_spec x y : 0 < y -> 0 <= rmod x y < y.
Proof. intros Hy. unfold rmod. pose proof (floordiv_spec x y Hy). lra. Qed.

(** ** Periodicity with integers *)
Lemma cos_2kpi x k : cos (x + IZR k * (2 * PI)) = cos x.
Proof.
  destruct (Z_le_dec 0 k).
  - replace (IZR k * (2 * PI)) with (2 * INR (Z.to_nat k) * PI) by (rewrite INR_IZR_INZ, Z2Nat.id by assumption; ring). apply cos_period.
  - rewrite <- (cos_period (x + IZR k * (2 * PI)) (Z.to_nat (- k))). f_equal. rewrite INR_IZR_INZ, Z2Nat.id by lia. rewrite opp_IZR. ring.
Qed.
Lemma sin_2kpi x k : sin (x + IZR k * (2 * PI)) = sin x.
Proof.
  destruct (Z_le_dec 0 k).
  - replace (IZR k * (2 * PI)) with (2 * INR (Z.to_nat k) * PI) by (rewrite INR_IZR_INZ, Z2Nat.id by assumption; ring). apply sin_period.
  - rewrite <- (sin_period (x + IZR k * (2 * PI)) (Z.to_nat (- k))). f_equal. rewrite INR_IZR_INZ, Z2Nat.id by lia. rewrite opp_IZR. ring.
Qed.
Lemma cos_kpi x k : cos (x + IZR k * PI) = if Z.even k then cos x else - cos x.
Proof.
  destruct (Z.even k) eqn:E.
  - apply Z.even_spec in E as [m ->]. rewrite mult_IZR. replace (2 * IZR m * PI) with (IZR m * (2 * PI)) by ring. apply cos_2kpi.
  - assert (O : Z.odd k = true) by (rewrite <- Z.negb_even, E; reflexivity). apply Z.odd_spec in O as [m ->]. rewrite plus_IZR, mult_IZR.
    replace (x + (2 * IZR m + 1) * PI) with ((x + PI) + IZR m * (2 * PI)) by ring. rewrite cos_2kpi. apply neg_cos.
Qed.
Lemma abs_mod2_even k : (Z.abs k mod 2 =? 0)%Z = Z.even k.
Proof.
  destruct (Z.even k) eqn:E.
  - apply Z.eqb_eq. apply Z.even_spec in E as [m ->]. rewrite Z.abs_mul. cbn [Z.abs]. rewrite Z.mul_comm. apply Z.mod_mul. lia.
  - apply Z.eqb_neq. intros H. apply Z.mod_divide in H; [|lia]. destruct H as [m H]. assert (Z.even (Z.abs k) = true) by (rewrite H, Z.mul_comm; apply Z.even_mul).
    destruct (Z.abs_spec k) as [[_ Ha]|[_ Ha]]; rewrite Ha in *; [congruence|]. rewrite Z.even_opp in H0. congruence.
Qed.

(** ** C45 *)
Lemma image_intro f x1 x2 a b : continuity f -> x1 <= a <= x2 -> x1 <= b <= x2 -> (forall t, x1 <= t <= x2 -> f a <= f t <= f b) -> image_is f x1 x2 (f a) (f b).
Proof.
  intros HC Ha Hb H y. split; [|intros (t & Ht & <-); apply H; assumption]. intros Hy.
  assert (G : forall p q, p <= q -> x1 <= p -> q <= x2 -> (f p - y) * (f q - y) <= 0 -> exists t, x1 <= t <= x2 /\ f t = y).
  { intros p q Hpq Hp Hq Hs. destruct (IVT_cor (fun t => f t - y) p q) as (z & Hz & Ez); [|assumption|assumption|].
    - apply (continuity_minus f (fun _ => y)); [assumption|]. apply continuity_const. intros ? ?; reflexivity.
    - exists z. split; [lra|]. lra. }
  destruct (Rle_dec a b); [apply (G a b)|apply (G b a)]; try lra; nra.
Qed.
Lemma cos_mono_span k a b : IZR k * PI <= a -> a <= b -> b <= (IZR k + 1) * PI -> if Z.even k then cos b <= cos a else cos a <= cos b.
Proof.
  intros Ha Hab Hb. pose proof PI_RGT_0.
  replace a with ((a - IZR k * PI) + IZR k * PI) by ring. replace b with ((b - IZR k * PI) + IZR k * PI) by ring. rewrite !cos_kpi.
  assert (cos (b - IZR k * PI) <= cos (a - IZR k * PI)) by (apply cos_decr_1; lra). destruct (Z.even k); lra.
Qed.
Lemma cos_at k : cos (IZR k * PI) = if Z.even k then 1 else -1.
Proof. rewrite <- (Rplus_0_l (IZR k * PI)). rewrite cos_kpi, cos_0. reflexivity. Qed.
Lemma even_succ' k : Z.even (k + 1) = negb (Z.even k).
Proof. rewrite Z.even_add. cbn. destruct (Z.even k); reflexivity. Qed.
Lemma cos_image_spec x1 x2 : x1 <= x2 -> image_is cos x1 x2 (fst (cos_image x1 x2)) (snd (cos_image x1 x2)).
Proof.
  intros H. pose proof PI_RGT_0 as Hpi. unfold cos_image. set (k := floordiv x1 PI). set (l := floordiv x2 PI).
  pose proof (floordiv_spec x1 PI Hpi) as Hk. pose proof (floordiv_spec x2 PI Hpi) as Hl. fold k in Hk. fold l in Hl.
  assert (Hkl : (k <= l)%Z). { apply le_IZR. destruct (Rle_dec (IZR k) (IZR l)); [assumption|]. exfalso. assert (l + 1 <= k)%Z by (assert (l < k)%Z by (apply lt_IZR; lra); lia). apply IZR_le in H0. rewrite plus_IZR in H0. nra. }
  pose proof COS_bound as CB.
  assert (CC : continuity cos) by (apply continuity_cos).
  destruct (Z.leb_spec 2 (l - k)) as [H2|H2].
  - cbn [fst snd]. assert (K2 : IZR k + 2 <= IZR l) by (rewrite <- plus_IZR; apply IZR_le; lia).
    assert (R1 : x1 <= IZR (k + 1) * PI <= x2) by (rewrite plus_IZR; split; nra). assert (R2 : x1 <= IZR (k + 2) * PI <= x2) by (rewrite plus_IZR; split; nra).
    pose proof (cos_at (k + 1)) as E1. pose proof (cos_at (k + 2)) as E2. rewrite even_succ' in E1. replace (k + 2)%Z with (k + 1 + 1)%Z in E2 at 2 by lia. rewrite !even_succ' in E2.
    destruct (Z.even k); cbn [negb] in E1, E2.
    + rewrite <- E1. rewrite <- E2. apply image_intro; auto. intros t _. rewrite E1, E2. apply CB.
    + rewrite <- E1. rewrite <- E2. apply image_intro; auto. intros t _. rewrite E1, E2. apply CB.
  - destruct (Z.eqb_spec (l - k) 1) as [H1|H1].
    + assert (EL : IZR l = IZR k + 1) by (rewrite <- plus_IZR; f_equal; lia). rewrite EL in Hl.
      pose proof (cos_at (k + 1)) as E1. rewrite even_succ' in E1. rewrite plus_IZR in E1. rewrite abs_mod2_even.
      assert (M : forall t, x1 <= t <= x2 -> if Z.even k then cos t <= Rmax (cos x1) (cos x2) else Rmin (cos x1) (cos x2) <= cos t).
      { intros t Ht. destruct (Rle_dec t ((IZR k + 1) * PI)) as [Hle|Hgt].
        - pose proof (cos_mono_span k x1 t ltac:(lra) ltac:(lra) ltac:(lra)). destruct (Z.even k); [apply Rle_trans with (cos x1); [assumption|apply Rmax_l]|apply Rle_trans with (cos x1); [apply Rmin_l|assumption]].
        - pose proof (cos_mono_span (k + 1) t x2) as X. rewrite plus_IZR, even_succ' in X. specialize (X ltac:(lra) ltac:(lra) ltac:(lra)).
          destruct (Z.even k); cbn [negb] in X; [apply Rle_trans with (cos x2); [assumption|apply Rmax_r]|apply Rle_trans with (cos x2); [apply Rmin_r|assumption]]. }
      destruct (Z.even k) eqn:EV; cbn [fst snd negb] in *.
      * rewrite <- E1. assert (exists b, x1 <= b <= x2 /\ Rmax (cos x1) (cos x2) = cos b) as (b & Hb & Eb).
        { unfold Rmax. destruct (Rle_dec (cos x1) (cos x2)); [exists x2|exists x1]; split; lra. }
        rewrite Eb in *. apply image_intro; auto; [lra|]. intros t Ht. rewrite E1. split; [apply CB|apply M; assumption].
      * rewrite <- E1. assert (exists b, x1 <= b <= x2 /\ Rmin (cos x1) (cos x2) = cos b) as (b & Hb & Eb).
        { unfold Rmin. destruct (Rle_dec (cos x1) (cos x2)); [exists x1|exists x2]; split; lra. }
        rewrite Eb in *. apply image_intro; auto; [lra|]. intros t Ht. rewrite E1. split; [apply M; assumption|apply CB].
    + assert (EL : l = k) by lia. rewrite EL in Hl. cbn [fst snd].
      assert (M : forall t, x1 <= t <= x2 -> Rmin (cos x1) (cos x2) <= cos t <= Rmax (cos x1) (cos x2)).
      { intros t Ht. pose proof (cos_mono_span k x1 t ltac:(lra) ltac:(lra) ltac:(lra)). pose proof (cos_mono_span k t x2 ltac:(lra) ltac:(lra) ltac:(lra)).
        unfold Rmin, Rmax. destruct (Rle_dec (cos x1) (cos x2)); destruct (Z.even k); lra. }
      unfold Rmin, Rmax in *. destruct (Rle_dec (cos x1) (cos x2)); apply image_intro; auto; lra.
Qed.
Lemma sin_image_spec x1 x2 : x1 <= x2 -> image_is sin x1 x2 (fst (sin_image x1 x2)) (snd (sin_image x1 x2)).
Proof.
  intros H y. unfold sin_image. pose proof (cos_image_spec (x1 - / 2 * PI) (x2 - / 2 * PI) ltac:(lra) y) as X. rewrite X.
  assert (E : forall t, cos (t - / 2 * PI) = sin t) by (intros t; rewrite (sin_cos t), <- neg_cos; rewrite <- (cos_2kpi (PI / 2 + t + PI) (-1)); f_equal; cbn; field).
  split.
  - intros (t & Ht & <-). exists (t + / 2 * PI). split; [lra|]. rewrite <- E. f_equal. lra.
  - intros (t & Ht & <-). exists (t - / 2 * PI). split; [lra|]. apply E.
Qed.

(** ** Angles are determined by cosine and sine *)
Lemma cos_1_period d : cos d = 1 -> exists k : Z, d = IZR k * (2 * PI).
Proof.
  intros H. pose proof PI_RGT_0. exists (floordiv d (2 * PI)). pose proof (rmod_spec d (2 * PI) ltac:(lra)) as B. unfold rmod in B.
  set (k := floordiv d (2 * PI)) in *. set (e := d - IZR k * (2 * PI)) in *.
  assert (E : cos e = 1). { rewrite <- (cos_2kpi e k). unfold e. replace (d - IZR k * (2 * PI) + IZR k * (2 * PI)) with d by ring. assumption. }
  assert (e = 0); [|unfold e in *; lra]. destruct (Req_dec e 0); [assumption|]. exfalso.
  replace e with (2 * (e / 2)) in E by field. rewrite cos_2a_sin in E. assert (0 < sin (e / 2)) by (apply sin_gt_0; lra). nra.
Qed.
Lemma same_angle_intro a b : cos a = cos b -> sin a = sin b -> same_angle a b.
Proof.
  intros Hc Hs. destruct (cos_1_period (a - b)) as (k & Hk).
  - rewrite cos_minus, Hc, Hs. pose proof (sin2_cos2 b) as X. unfold Rsqr in X. lra.
  - exists k. lra.
Qed.
Lemma same_angle_elim a b : same_angle a b -> cos a = cos b /\ sin a = sin b.
Proof. intros (k & ->). split; [apply cos_2kpi|apply sin_2kpi]. Qed.

(** ** C46 *)
Lemma clamp1_id x : -1 <= x <= 1 -> clamp1 x = x.
Proof. intros H. unfold clamp1. rewrite Rmin_left by lra. apply Rmax_right. lra. Qed.
Lemma sqrt_of_sq x y : 0 <= y -> x = y * y -> sqrt x = y.
Proof. intros Hy ->. apply sqrt_square. assumption. Qed.
Definition exact_angle (u1 u2 : R) : R :=
  if Rltb 0 u1 then (if Rleb 0 u2 then acos u1 else TWO_PI + asin u2) else (if Rleb 0 u2 then acos u1 else TWO_PI - acos u1).
Lemma exact_angle_spec u1 u2 : u1 * u1 + u2 * u2 = 1 ->
  0 <= exact_angle u1 u2 < 2 * PI /\ cos (exact_angle u1 u2) = u1 /\ sin (exact_angle u1 u2) = u2.
Proof.
  intros H. assert (B1 : -1 <= u1 <= 1) by nra. assert (B2 : -1 <= u2 <= 1) by nra. pose proof PI_RGT_0.
  unfold exact_angle, TWO_PI. destruct (Rleb 0 u2) eqn:E2; rb.
  - assert (X : 0 <= acos u1 < 2 * PI /\ cos (acos u1) = u1 /\ sin (acos u1) = u2).
    { pose proof (acos_bound u1). split; [lra|]. split; [apply cos_acos; assumption|]. rewrite sin_acos by assumption. apply sqrt_of_sq; [assumption|]. unfold Rsqr. lra. }
    destruct (Rltb 0 u1); exact X.
  - destruct (Rltb 0 u1) eqn:E1; rb.
    + pose proof (asin_bound u2) as [A B].
      assert (asin u2 < 0). { rewrite <- asin_0. assert (asin u2 <= 0 \/ 0 < asin u2) as [X|X] by lra. 2:{ assert (0 < sin (asin u2)) by (apply sin_gt_0; lra). rewrite sin_asin in H1 by assumption. lra. }
        rewrite asin_0. destruct (Req_dec (asin u2) 0) as [E|]; [|lra]. exfalso. assert (sin (asin u2) = 0) by (rewrite E; apply sin_0). rewrite sin_asin in H1 by assumption. lra. }
      split; [lra|]. replace (2 * PI + asin u2) with (asin u2 + IZR 1 * (2 * PI)) by (cbn; ring). rewrite cos_2kpi, sin_2kpi. split; [|apply sin_asin; assumption].
      rewrite cos_asin by assumption. apply sqrt_of_sq; [lra|]. unfold Rsqr. lra.
    + pose proof (acos_bound u1) as [A B].
      assert (0 < acos u1). { destruct (Req_dec (acos u1) 0) as [E|]; [|lra]. exfalso. assert (cos (acos u1) = 1) by (rewrite E; apply cos_0). rewrite cos_acos in H1 by assumption. lra. }
      split; [lra|]. replace (2 * PI - acos u1) with (- acos u1 + IZR 1 * (2 * PI)) by (cbn; ring). rewrite cos_2kpi, sin_2kpi, cos_neg, sin_neg.
      split; [apply cos_acos; assumption|]. rewrite sin_acos by assumption. rewrite (sqrt_of_sq _ (- u2)); [ring|lra|]. unfold Rsqr. lra.
Qed.
(** The result is the angle in [0, 2 pi), except in the last 2e-9 pi of the turn, replaced by 0. *)
Lemma sin_cos_angle_spec u1 u2 : u1 * u1 + u2 * u2 = 1 ->
  exists theta, 0 <= theta < 2 * PI /\ cos theta = u1 /\ sin theta = u2 /\
    (theta < 2 * PI * (1 - / 10 ^ 9) -> sin_cos_angle u1 u2 = theta) /\
    (2 * PI * (1 - / 10 ^ 9) <= theta -> sin_cos_angle u1 u2 = 0).
Proof.
  intros H. assert (B1 : -1 <= u1 <= 1) by nra. assert (B2 : -1 <= u2 <= 1) by nra.
  exists (exact_angle u1 u2). destruct (exact_angle_spec u1 u2 H) as (A & B & C). split; [assumption|]. split; [assumption|]. split; [assumption|].
  unfold sin_cos_angle. rewrite !clamp1_id by assumption. fold (exact_angle u1 u2). set (th := exact_angle u1 u2) in *.
  assert (HP : 3 < PI) by (pose proof PI2_3_2; unfold PI2 in *; lra).
  assert (EI : Rmax (/ 10 ^ 9 * Rmax (Rabs th) (Rabs TWO_PI)) (/ 10 ^ 9) = / 10 ^ 9 * (2 * PI)).
  { unfold TWO_PI. rewrite !Rabs_right by lra. rewrite (Rmax_right th) by lra. apply Rmax_left. assert (0 < / 10 ^ 9) by (apply Rinv_0_lt_compat; lra). nra. }
  unfold isclose. rewrite EI. unfold TWO_PI. rewrite Rabs_left by lra.
  set (e := / 10 ^ 9) in *. split; intros X.
  - assert (Rleb (- (th - 2 * PI)) (e * (2 * PI)) = false) as ->; [|reflexivity]. apply Rleb_false. lra.
  - assert (Rleb (- (th - 2 * PI)) (e * (2 * PI)) = true) as ->; [|reflexivity]. apply Rleb_spec. lra.
Qed.
Lemma sin_cos_angle_of_angle t : exists theta, 0 <= theta < 2 * PI /\ same_angle theta t /\
    (theta < 2 * PI * (1 - / 10 ^ 9) -> sin_cos_angle (cos t) (sin t) = theta) /\
    (2 * PI * (1 - / 10 ^ 9) <= theta -> sin_cos_angle (cos t) (sin t) = 0).
Proof.
  destruct (sin_cos_angle_spec (cos t) (sin t)) as (th & A & B & C & D).
  - pose proof (sin2_cos2 t) as X. unfold Rsqr in X. lra.
  - exists th. split; [assumption|]. split; [apply same_angle_intro; assumption|assumption].
Qed.
Lemma sin_cos_angle_range u1 u2 : u1 * u1 + u2 * u2 = 1 -> 0 <= sin_cos_angle u1 u2 < 2 * PI.
Proof.
  intros H. destruct (sin_cos_angle_spec u1 u2 H) as (th & A & _ & _ & D & E). pose proof PI_RGT_0.
  destruct (Rlt_le_dec th (2 * PI * (1 - / 10 ^ 9))) as [X|X]; [rewrite D by assumption; assumption|rewrite E by assumption; lra].
Qed.

(** ** C47 *)
Lemma euler_rotation psi theta phi : rotation_matrix (euler_angles_to_transfer_matrix psi theta phi).
Proof.
  unfold rotation_matrix, euler_angles_to_transfer_matrix. cbn [m11 m12 m13 m21 m22 m23 m31 m32 m33].
  pose proof (sin2_cos2 psi) as A. pose proof (sin2_cos2 theta) as B. pose proof (sin2_cos2 phi) as C. unfold Rsqr in A, B, C.
  set (a := cos psi) in *. set (a' := sin psi) in *. set (b := cos theta) in *. set (b' := sin theta) in *. set (c := cos phi) in *. set (c' := sin phi) in *.
  assert (EA : a' * a' = 1 - a * a) by lra. assert (EB : b' * b' = 1 - b * b) by lra. assert (EC : c' * c' = 1 - c * c) by lra.
  repeat split.
  - replace (_ + _) with (c*c*(a*a + a'*a') + c'*c'*(b*b*(a*a+a'*a') + b'*b')) by ring. rewrite EA, EB, EC. ring.
  - replace (_ + _) with (c'*c'*(a*a + a'*a') + c*c*(b*b*(a*a+a'*a') + b'*b')) by ring. rewrite EA, EB, EC. ring.
  - replace (_ + _) with (b'*b'*(a*a + a'*a') + b*b) by ring. rewrite EA, EB. ring.
  - replace (_ + _) with (c*c'*((a*a+a'*a') - b*b*(a*a+a'*a') - b'*b')) by ring. rewrite EA, EB. ring.
  - replace (_ + _) with (c'*b*b'*(1 - (a*a + a'*a'))) by ring. rewrite EA. ring.
  - replace (_ + _) with (c*b*b'*((a*a + a'*a') - 1)) by ring. rewrite EA. ring.
  - replace (_ + _) with ((a*a+a'*a')*(c*c+c'*c')*(b*b) + b'*b'*(a*a+a'*a')*(c*c+c'*c')) by ring. rewrite EA, EB, EC. ring.
Qed.
Lemma atan2_spec y x : x * x + y * y = 1 -> cos (atan2 y x) = x /\ sin (atan2 y x) = y.
Proof.
  intros H. unfold atan2. destruct (Rltb 0 x) eqn:E1; rb.
  - assert (S : sqrt (1 + (y / x)²) = / x).
    { apply sqrt_of_sq; [apply Rlt_le, Rinv_0_lt_compat; assumption|]. unfold Rsqr. apply Rmult_eq_reg_r with (x * x); [|nra]. transitivity (x * x + y * y); [field; lra|]. rewrite H. field; lra. }
    rewrite cos_atan, sin_atan, S. split; field; lra.
  - destruct (Rltb x 0) eqn:E2; rb.
    + assert (S : sqrt (1 + (y / x)²) = / - x).
      { apply sqrt_of_sq; [apply Rlt_le, Rinv_0_lt_compat; lra|]. unfold Rsqr. apply Rmult_eq_reg_r with (x * x); [|nra]. transitivity (x * x + y * y); [field; lra|]. rewrite H. field; lra. }
      assert (C : cos (atan (y / x)) = - x) by (rewrite cos_atan, S; field; lra).
      assert (D : sin (atan (y / x)) = - y) by (rewrite sin_atan, S; field; lra).
      destruct (Rleb 0 y).
      * rewrite neg_cos, neg_sin, C, D. split; ring.
      * replace (atan (y / x) - PI) with (atan (y / x) + PI + IZR (-1) * (2 * PI)) by (cbn; ring). rewrite cos_2kpi, sin_2kpi, neg_cos, neg_sin, C, D. split; ring.
    + assert (x = 0) by lra. subst x. destruct (Rltb 0 y) eqn:E3; rb.
      * rewrite cos_PI2, sin_PI2. split; nra.
      * destruct (Rltb y 0) eqn:E4; rb; [|nra]. rewrite cos_neg, sin_neg, cos_PI2, sin_PI2. split; nra.
Qed.
Lemma atan2_range y x : - PI < atan2 y x <= PI.
Proof.
  pose proof PI_RGT_0. unfold atan2. pose proof (atan_bound (y / x)) as [A B].
  destruct (Rltb 0 x) eqn:E1; rb; [lra|]. destruct (Rltb x 0) eqn:E2; rb.
  - destruct (Rleb 0 y) eqn:E3; rb.
    + split; [lra|]. assert (atan (y / x) <= 0); [|lra]. rewrite <- atan_0. destruct (Req_dec (y / x) 0) as [-> |N]; [lra|]. apply Rlt_le, atan_increasing.
      assert (/ x < 0) by (apply Rinv_lt_0_compat; assumption). unfold Rdiv in *. nra.
    + split; [|lra]. assert (0 < atan (y / x)); [|lra]. rewrite <- atan_0. apply atan_increasing. assert (/ x < 0) by (apply Rinv_lt_0_compat; assumption). unfold Rdiv. nra.
  - destruct (Rltb 0 y); [lra|]. destruct (Rltb y 0); lra.
Qed.
Lemma sqr_sum0 a b : a * a + b * b = 0 -> a = 0 /\ b = 0. Proof. intros; split; nra. Qed.
Lemma euler_round_trip r : rotation_matrix r -> exists psi theta phi, transfer_matrix_to_euler_angles r = Ok (psi, theta, phi) /\
  euler_angles_to_transfer_matrix psi theta phi = r.
Proof.
  destruct r as [a b c d e f g h i]. unfold rotation_matrix, transfer_matrix_to_euler_angles. cbn [m11 m12 m13 m21 m22 m23 m31 m32 m33].
  intros (R1 & R2 & R3 & R12 & R13 & R23 & DET).
  (* the matrix is its own cofactor matrix *)
  set (q11 := a*a+b*b+c*c) in *. set (q22 := d*d+e*e+f*f) in *. set (q33 := g*g+h*h+i*i) in *.
  set (q12 := a*d+b*e+c*f) in *. set (q13 := a*g+b*h+c*i) in *. set (q23 := d*g+e*h+f*i) in *. set (det := a * (e*i - f*h) - b * (d*i - f*g) + c * (d*h - e*g)) in *.
  assert (K11 : e*i - f*h = a). { assert (X : a * det = (e*i-f*h)*q11 + (c*h-b*i)*q12 + (b*f-c*e)*q13) by (unfold det, q11, q12, q13; ring). rewrite DET, R1, R12, R13 in X. lra. }
  assert (K12 : f*g - d*i = b). { assert (X : b * det = (f*g-d*i)*q11 + (a*i-c*g)*q12 + (c*d-a*f)*q13) by (unfold det, q11, q12, q13; ring). rewrite DET, R1, R12, R13 in X. lra. }
  assert (K21 : c*h - b*i = d). { assert (X : d * det = (e*i-f*h)*q12 + (c*h-b*i)*q22 + (b*f-c*e)*q23) by (unfold det, q12, q22, q23; ring). rewrite DET, R12, R2, R23 in X. lra. }
  assert (K22 : a*i - c*g = e). { assert (X : e * det = (f*g-d*i)*q12 + (a*i-c*g)*q22 + (c*d-a*f)*q23) by (unfold det, q12, q22, q23; ring). rewrite DET, R12, R2, R23 in X. lra. }
  (* columns are unit too *)
  assert (C3 : c*c + f*f + i*i = 1).
  { assert (K13 : d*h - e*g = c). { assert (X : c * det = (d*h-e*g)*q11 + (b*g-a*h)*q12 + (a*e-b*d)*q13) by (unfold det, q11, q12, q13; ring). rewrite DET, R1, R12, R13 in X. lra. }
    assert (K23 : b*g - a*h = f). { assert (X : f * det = (d*h-e*g)*q12 + (b*g-a*h)*q22 + (a*e-b*d)*q23) by (unfold det, q12, q22, q23; ring). rewrite DET, R12, R2, R23 in X. lra. }
    assert (K33 : a*e - b*d = i). { assert (X : i * det = (d*h-e*g)*q13 + (b*g-a*h)*q23 + (a*e-b*d)*q33) by (unfold det, q13, q23, q33; ring). rewrite DET, R13, R23, R3 in X. lra. }
    assert (X : c*c+f*f+i*i = c*(d*h-e*g) + f*(b*g-a*h) + i*(a*e-b*d)) by (rewrite K13, K23, K33; ring). rewrite X. rewrite <- DET. unfold det. ring. }
  unfold q33 in R3. assert (BI : -1 <= i <= 1) by nra.
  destruct (Req_dec i 1) as [Ei|N1]; [|destruct (Req_dec i (-1)) as [Ei|N2]].
  - subst i. assert (G0 : g = 0 /\ h = 0) by (apply sqr_sum0; lra). assert (F0 : c = 0 /\ f = 0) by (apply sqr_sum0; lra). destruct G0 as [-> ->], F0 as [-> ->].
    rewrite Reqb_refl. cbn [negb andb]. eexists _, _, _. split; [reflexivity|].
    destruct (atan2_spec d a) as [X Y]; [assert (d = - b) by lra; subst d; unfold q11 in R1; lra|].
    unfold euler_angles_to_transfer_matrix. rewrite X, Y, cos_0, sin_0. f_equal; lra.
  - subst i. assert (G0 : g = 0 /\ h = 0) by (apply sqr_sum0; lra). assert (F0 : c = 0 /\ f = 0) by (apply sqr_sum0; lra). destruct G0 as [-> ->], F0 as [-> ->].
    assert (Reqb (-1) 1 = false) as -> by (apply Reqb_false; lra). rewrite Reqb_refl. cbn [negb andb]. eexists _, _, _. split; [reflexivity|].
    destruct (atan2_spec d a) as [X Y]; [assert (d = b) by lra; subst d; unfold q11 in R1; lra|].
    unfold euler_angles_to_transfer_matrix. rewrite cos_neg, sin_neg, X, Y, cos_0, sin_0, cos_PI, sin_PI. f_equal; lra.
  - assert (Reqb i 1 = false) as -> by (apply Reqb_false; assumption). assert (Reqb i (-1) = false) as -> by (apply Reqb_false; assumption). cbn [negb andb].
    assert (Rltb i (-1) = false) as -> by (apply Rltb_false; lra). assert (Rltb 1 i = false) as -> by (apply Rltb_false; lra). cbn [orb].
    eexists _, _, _. split; [reflexivity|]. set (s := sin (acos i)).
    assert (Hs : s * s = 1 - i * i). { unfold s. rewrite sin_acos by assumption. rewrite sqrt_sqrt; unfold Rsqr; nra. }
    assert (Ps : 0 < s). { assert (0 <= s) by (unfold s; rewrite sin_acos by assumption; apply sqrt_pos). nra. }
    assert (DV : forall x y, x * x + y * y = s * s -> y / s * (y / s) + x / s * (x / s) = 1) by (intros x y Hxy; apply Rmult_eq_reg_r with (s * s); [|nra]; transitivity (x * x + y * y); [field; lra|lra]).
    destruct (atan2_spec (g / s) (h / s)) as [X Y]; [apply DV; nra|].
    destruct (atan2_spec (c / s) (- f / s)) as [Z W]; [apply DV; nra|].
    unfold euler_angles_to_transfer_matrix. fold s. rewrite X, Y, Z, W, cos_acos by assumption.
    assert (ME : forall x y, x * (s * s) = y * (s * s) -> x = y) by (intros x y Hxy; apply Rmult_eq_reg_r with (s * s); [assumption|nra]).
    f_equal; try (field; lra).
    + apply ME. replace ((- f / s * (h / s) - c / s * i * (g / s)) * (s * s)) with (- f * h - c * i * g) by (field; lra). rewrite Hs.
      replace (a * (1 - i * i)) with (a - i * (a * i)) by ring. replace (a * i) with (e + c * g) by lra. rewrite <- K11 at 1. ring.
    + apply ME. replace ((- (g / s) * (- f / s) - h / s * i * (c / s)) * (s * s)) with (f * g - c * i * h) by (field; lra). rewrite Hs.
      replace (b * (1 - i * i)) with (b - i * (b * i)) by ring. replace (b * i) with (c * h - d) by lra. rewrite <- K12 at 1. ring.
    + apply ME. replace ((h / s * (c / s) + g / s * i * (- f / s)) * (s * s)) with (c * h - f * i * g) by (field; lra). rewrite Hs.
      replace (d * (1 - i * i)) with (d - i * (d * i)) by ring. replace (d * i) with (f * g - b) by lra. rewrite <- K21 at 1. ring.
    + apply ME. replace ((- (c / s) * (g / s) + - f / s * i * (h / s)) * (s * s)) with (- c * g - f * i * h) by (field; lra). rewrite Hs.
      replace (e * (1 - i * i)) with (e - i * (e * i)) by ring. replace (e * i) with (a + f * h) by lra. rewrite <- K22 at 1. ring.
Qed.
Lemma unit3_of u : dot3 u u = 1 -> unit_vector3 u = Ok u.
Proof.
  intros H. unfold unit_vector3. assert (E : norm3 u = 1) by (rewrite norm3_dot, H; apply sqrt_1). rewrite E.
  assert (Reqb 1 0 = false) as -> by (apply Reqb_false; lra). destruct u as [x y z]. cbn [x3 y3 z3]. unfold Rdiv. rewrite Rinv_1, !Rmult_1_r. reflexivity.
Qed.
Lemma direction_euler_wrong : exists u v psi theta phi, dot3 u u = 1 /\ dot3 u v = 0 /\ dot3 v v = 1 /\
  direction_to_euler_angles u v = Ok (psi, theta, phi) /\
  V3 (m11 (euler_angles_to_transfer_matrix psi theta phi)) (m21 (euler_angles_to_transfer_matrix psi theta phi)) (m31 (euler_angles_to_transfer_matrix psi theta phi)) <> u.
Proof.
  exists (V3 0 1 0), (V3 0 0 1).
  assert (A2 : atan2 0 0 = 0) by (unfold atan2; rewrite (proj2 (Rltb_false 0 0)) by lra; reflexivity).
  exists 0, (PI / 2), 0. split; [unfold dot3; cbn; ring|]. split; [unfold dot3; cbn; ring|]. split; [unfold dot3; cbn; ring|]. split.
  - unfold direction_to_euler_angles, direction_matrix. rewrite unit3_of by (unfold dot3; cbn; ring). cbn [bind].
    replace (sub3 (V3 0 0 1) (mul3 (V3 0 1 0) (dot3 (V3 0 1 0) (V3 0 0 1)))) with (V3 0 0 1) by (unfold sub3, mul3, dot3; cbn; f_equal; ring).
    rewrite unit3_of by (unfold dot3; cbn; ring). cbn [bind]. unfold cross3. cbn [x3 y3 z3]. replace (0 * 0 - 1 * 0) with 0 by ring.
    unfold transfer_matrix_to_euler_angles. cbn [m33 m31 m32 m13 m23].
    rewrite (proj2 (Reqb_false 0 1)) by lra. rewrite (proj2 (Reqb_false 0 (-1))) by lra. rewrite (proj2 (Rltb_false 0 (-1))) by lra. rewrite (proj2 (Rltb_false 1 0)) by lra. cbn [negb andb orb].
    rewrite acos_0, sin_PI2. replace (0 / 1) with 0 by field. replace (- 0 / 1) with 0 by field. rewrite A2. reflexivity.
  - unfold euler_angles_to_transfer_matrix. cbn [m11 m21 m31]. rewrite cos_0, sin_0, cos_PI2, sin_PI2. intros E. apply (f_equal y3) in E. cbn in E. lra.
Qed.

(** ** C48 *)
Lemma is_zero2_spec v : is_zero2 v = true <-> v = V2 0 0.
Proof.
  unfold is_zero2. rewrite Bool.andb_true_iff, !Reqb_spec. destruct v as [x y]; cbn. split; [intros [-> ->]; reflexivity|intros [= -> ->]; split; reflexivity].
Qed.
Lemma lagrange2 v w : dot2 v w * dot2 v w + cross2 v w * cross2 v w = dot2 v v * dot2 w w.
Proof. unfold dot2, cross2. ring. Qed.
Lemma clockwise_angle_spec v w : v <> V2 0 0 -> w <> V2 0 0 ->
  0 < clockwise_angle v w <= 2 * PI /\ same_direction (rotate_clockwise v (clockwise_angle v w)) w.
Proof.
  intros Hv Hw. unfold clockwise_angle. destruct (is_zero2 v) eqn:E1; [apply is_zero2_spec in E1; contradiction|]. destruct (is_zero2 w) eqn:E2; [apply is_zero2_spec in E2; contradiction|]. cbn [orb].
  assert (P1 : 0 < norm2 v). { pose proof (norm2_pos v). destruct (Req_dec (norm2 v) 0) as [E|]; [apply norm2_zero in E; contradiction|lra]. }
  assert (P2 : 0 < norm2 w). { pose proof (norm2_pos w). destruct (Req_dec (norm2 w) 0) as [E|]; [apply norm2_zero in E; contradiction|lra]. }
  pose proof (lagrange2 v w) as L. rewrite <- !norm2_sq in L. set (n1 := norm2 v) in *. set (n2 := norm2 w) in *.
  assert (PN : 0 < n1 * n2) by nra. set (q := dot2 v w / (n1 * n2)). assert (Eq : dot2 v w = q * (n1 * n2)) by (unfold q; field; lra).
  assert (Bq : -1 <= q <= 1). { assert (q * q <= 1); [|split; nra]. apply Rmult_le_reg_r with ((n1*n2)*(n1*n2)); [nra|]. rewrite Eq in L. nra. }
  replace (Rmax (-1) (Rmin 1 q)) with q by (rewrite Rmin_right by lra; rewrite Rmax_right by lra; reflexivity).
  pose proof (acos_bound q) as [A1 A2]. pose proof PI_RGT_0.
  assert (SN : sin (acos q) * (n1 * n2) = Rabs (cross2 v w)).
  { rewrite sin_acos by assumption. rewrite <- (sqrt_Rsqr (n1 * n2)) by lra. rewrite <- sqrt_mult_alt by (unfold Rsqr; nra). rewrite <- sqrt_Rsqr_abs. f_equal. unfold Rsqr. rewrite Eq in L. nra. }
  assert (ROT : forall th, cos th = q -> sin th * (n1 * n2) = - cross2 v w -> same_direction (rotate_clockwise v th) w).
  { intros th Hc Hs. exists (n2 / n1). split; [apply Rmult_lt_0_compat; [assumption|apply Rinv_0_lt_compat; assumption]|].
    assert (N1 : n1 * n1 = x2 v * x2 v + y2 v * y2 v) by apply (norm2_sq v).
    assert (D1 : x2 v * x2 w + y2 v * y2 w = q * (n1 * n2)) by (rewrite <- Eq; reflexivity).
    assert (D2 : sin th * (n1 * n2) = - (x2 v * y2 w - y2 v * x2 w)) by (rewrite Hs; reflexivity).
    unfold rotate_clockwise. cbn [x2 y2]. rewrite Hc. clearbody n1 n2. split; apply Rmult_eq_reg_r with (n1 * n1); try nra.
    - transitivity (x2 v * (q * (n1 * n2)) + y2 v * (sin th * (n1 * n2))); [|field; lra]. rewrite <- D1, D2, N1. ring.
    - transitivity (- x2 v * (sin th * (n1 * n2)) + y2 v * (q * (n1 * n2))); [|field; lra]. rewrite <- D1, D2, N1. ring. }
  destruct (Rltb (cross2 v w) 0) eqn:EC; rb.
  - split; [|apply ROT; [apply cos_acos; assumption|rewrite SN; rewrite Rabs_left by assumption; reflexivity]].
    split; [|lra]. destruct (Req_dec (acos q) 0) as [E|]; [|lra]. exfalso. rewrite E, sin_0 in SN. rewrite Rabs_left in SN by assumption. lra.
  - unfold TWO_PI. split; [lra|]. replace (2 * PI - acos q) with (- acos q + IZR 1 * (2 * PI)) by (cbn; ring).
    apply ROT; [rewrite cos_2kpi, cos_neg; apply cos_acos; assumption|]. rewrite sin_2kpi, sin_neg. rewrite Rabs_right in SN by lra. lra.
Qed.
Lemma clockwise_angle_zero v w : v = V2 0 0 \/ w = V2 0 0 -> clockwise_angle v w = 0.
Proof.
  intros H. unfold clockwise_angle. assert (is_zero2 v || is_zero2 w = true) as ->; [|reflexivity]. apply Bool.orb_true_iff. destruct H; [left|right]; apply is_zero2_spec; assumption.
Qed.
(** Two vectors of the same direction are a full turn apart. *)
Lemma clockwise_angle_aligned v w : v <> V2 0 0 -> same_direction v w -> clockwise_angle v w = 2 * PI.
Proof.
  intros Hv (c & Hc & Ex & Ey). unfold clockwise_angle. destruct (is_zero2 v) eqn:E1; [apply is_zero2_spec in E1; contradiction|].
  assert (P1 : 0 < norm2 v). { pose proof (norm2_pos v). destruct (Req_dec (norm2 v) 0) as [E|]; [apply norm2_zero in E; contradiction|lra]. }
  assert (Ew : w = mul2 v c) by (destruct v, w; unfold mul2; cbn in *; f_equal; lra).
  assert (Hw : is_zero2 w = false).
  { destruct (is_zero2 w) eqn:E; [|reflexivity]. apply is_zero2_spec in E. exfalso. apply Hv. destruct v as [x y]. rewrite E in Ex, Ey. cbn in *. f_equal; nra. }
  rewrite Hw. cbn [orb]. assert (cross2 v w = 0) as -> by (unfold cross2; rewrite Ex, Ey; ring).
  rewrite (proj2 (Rltb_false 0 0)) by lra. assert (dot2 v w / (norm2 v * norm2 w) = 1) as ->.
  { rewrite Ew, norm2_scale, Rabs_right by lra. replace (dot2 v (mul2 v c)) with (c * dot2 v v) by (unfold dot2, mul2; cbn; ring). rewrite <- norm2_sq. field. split; lra. }
  rewrite Rmin_left by lra. rewrite Rmax_right by lra. rewrite acos_1. unfold TWO_PI. ring.
Qed.

(** ** C49 *)
Lemma principal_measure_spec angle m : exists r, 0 <= r < 2 * PI /\ same_angle r angle /\
  (angle_principal_measure angle m = r \/
   (angle_principal_measure angle m = m /\ isclose r m (/ 10 ^ 9) = true) \/
   (angle_principal_measure angle m = m + 2 * PI /\ isclose r (m + 2 * PI) (/ 10 ^ 9) = true)).
Proof.
  pose proof PI_RGT_0. exists (rmod angle TWO_PI). split; [apply rmod_spec; unfold TWO_PI; lra|]. split.
  - unfold rmod, TWO_PI. exists (- floordiv angle (2 * PI))%Z. rewrite opp_IZR. ring.
  - unfold angle_principal_measure. fold TWO_PI. destruct (isclose (rmod angle TWO_PI) m _) eqn:E1; [right; left; split; reflexivity|].
    destruct (isclose (rmod angle TWO_PI) (m + TWO_PI) _) eqn:E2; [right; right; split; [reflexivity|reflexivity]|left; reflexivity].
Qed.
Lemma principal_measure_0 angle : 0 <= angle_principal_measure angle 0 <= 2 * PI.
Proof.
  pose proof PI_RGT_0. destruct (principal_measure_spec angle 0) as (r & Hr & _ & [-> |[[-> _]|[-> _]]]); lra.
Qed.
Lemma rmod_id x y : 0 < y -> 0 <= x < y -> rmod x y = x.
Proof.
  intros Hy Hx. unfold rmod. pose proof (floordiv_spec x y Hy) as [A B]. set (k := floordiv x y) in *.
  assert (k = 0)%Z. { assert (IZR k < 1) by nra. assert (-1 < IZR k) by nra. apply (lt_IZR k 1) in H. apply (lt_IZR (-1) k) in H0. lia. }
  rewrite H. ring.
Qed.
Lemma principal_measure_default_wrong : angle_principal_measure (3 * (PI / 2)) (- PI) = 3 * (PI / 2) /\ - PI + 2 * PI < 3 * (PI / 2).
Proof.
  assert (HP : 3 < PI) by (pose proof PI2_3_2; unfold PI2 in *; lra). split; [|lra]. unfold angle_principal_measure, TWO_PI. rewrite rmod_id by lra.
  assert (e : 0 < / 10 ^ 9 < 1/100) by (split; [apply Rinv_0_lt_compat; lra|]; apply Rmult_lt_reg_l with (10 ^ 9); [lra|]; rewrite Rinv_r by lra; lra). set (eps := / 10 ^ 9) in *.
  assert (isclose (3 * (PI / 2)) (- PI) eps = false) as ->.
  { unfold isclose. apply Rleb_false. rewrite Rabs_Ropp, !Rabs_right by lra. apply Rmax_lub_lt; [|lra]. unfold Rmax. destruct (Rle_dec _ _); nra. }
  assert (isclose (3 * (PI / 2)) (- PI + 2 * PI) eps = false) as ->; [|reflexivity].
  unfold isclose. apply Rleb_false. rewrite !Rabs_right by lra. apply Rmax_lub_lt; [|lra]. unfold Rmax. destruct (Rle_dec _ _); nra.
Qed.

(** ** C78 *)
Lemma cauchy3 u v : dot3 u v * dot3 u v <= dot3 u u * dot3 v v.
Proof.
  assert (E : dot3 u u * dot3 v v - dot3 u v * dot3 u v = dot3 (cross3 u v) (cross3 u v)) by (unfold dot3, cross3; cbn; ring).
  pose proof (dot3_pos (cross3 u v)). lra.
Qed.
Lemma vectors3d_angle_spec u v : u <> V3 0 0 0 -> v <> V3 0 0 0 -> exists theta, vectors3d_angle u v = Ok theta /\ 0 <= theta <= PI /\
  norm3 u * norm3 v * cos theta = dot3 u v.
Proof.
  intros Hu Hv. unfold vectors3d_angle.
  assert (P1 : 0 < norm3 u). { pose proof (norm3_pos u). destruct (Req_dec (norm3 u) 0) as [E|]; [apply norm3_zero in E; contradiction|lra]. }
  assert (P2 : 0 < norm3 v). { pose proof (norm3_pos v). destruct (Req_dec (norm3 v) 0) as [E|]; [apply norm3_zero in E; contradiction|lra]. }
  assert (PN : 0 < norm3 u * norm3 v) by nra. rewrite (proj2 (Reqb_false _ _)) by lra. eexists. split; [reflexivity|]. split; [apply acos_bound|].
  set (q := dot3 u v / (norm3 u * norm3 v)). assert (Eq : dot3 u v = q * (norm3 u * norm3 v)) by (unfold q; field; lra).
  assert (Bq : -1 <= q <= 1).
  { pose proof (cauchy3 u v) as L. rewrite <- !norm3_sq in L. set (n1 := norm3 u) in *. set (n2 := norm3 v) in *.
    assert (q * q <= 1); [|split; nra]. apply Rmult_le_reg_r with ((n1*n2)*(n1*n2)); [nra|]. rewrite Eq in L. nra. }
  rewrite Rmin_left by lra. rewrite Rmax_left by lra. rewrite cos_acos by assumption. rewrite Eq. ring.
Qed.
Lemma vectors3d_angle_zero u v : u = V3 0 0 0 \/ v = V3 0 0 0 -> vectors3d_angle u v = Err ZeroDivisionError.
Proof.
  intros H. unfold vectors3d_angle. assert (E : norm3 u * norm3 v = 0) by (destruct H as [H|H]; apply norm3_zero in H; rewrite H; ring).
  rewrite E, Reqb_refl. reflexivity.
Qed.

(** ** C79 *)
Lemma sin_cos_angle_exact t r : 0 < r -> 0 <= t < 2 * PI * (1 - / 10 ^ 9) -> sin_cos_angle (r * cos t / r) (r * sin t / r) = t.
Proof.
  intros Hr Ht. replace (r * cos t / r) with (cos t) by (field; lra). replace (r * sin t / r) with (sin t) by (field; lra).
  destruct (sin_cos_angle_of_angle t) as (th & A & (k & Ek) & D & _). pose proof PI_RGT_0. assert (0 < / 10 ^ 9) by (apply Rinv_0_lt_compat; lra).
  assert (k = 0)%Z. { assert (IZR k < 1) by nra. assert (-1 < IZR k) by nra. apply (lt_IZR k 1) in H1. apply (lt_IZR (-1) k) in H2. lia. }
  assert (th = t) by (rewrite Ek, H1; ring). rewrite D; lra.
Qed.
Lemma clockwise_interior_spec r t1 t2 : 0 < r -> 0 <= t1 < 2 * PI * (1 - / 10 ^ 9) -> 0 <= t2 < 2 * PI * (1 - / 10 ^ 9) ->
  let s := V2 (r * cos t1) (r * sin t1) in let e := V2 (r * cos t2) (r * sin t2) in
  exists delta, 0 < delta <= PI /\ e = rotate_clockwise s (2 * delta) /\ clockwise_interior2d s e r = rotate_clockwise s delta.
Proof.
  intros Hr H1 H2 s e. unfold clockwise_interior2d, s, e. cbn [x2 y2]. rewrite !sin_cos_angle_exact by assumption. pose proof PI_RGT_0. assert (He : 0 < / 10 ^ 9) by (apply Rinv_0_lt_compat; lra).
  assert (RC : forall d, rotate_clockwise (V2 (r * cos t1) (r * sin t1)) d = V2 (r * cos (t1 - d)) (r * sin (t1 - d))).
  { intros d. unfold rotate_clockwise. cbn [x2 y2]. rewrite cos_minus, sin_minus. f_equal; ring. }
  assert (SH : forall x, (if Rltb TWO_PI x then x - TWO_PI else x) = x \/ (if Rltb TWO_PI x then x - TWO_PI else x) = x - 2 * PI) by (intros x; destruct (Rltb TWO_PI x); auto).
  assert (V : forall x k, V2 (r * cos (x + IZR k * (2 * PI))) (r * sin (x + IZR k * (2 * PI))) = V2 (r * cos x) (r * sin x)) by (intros; rewrite cos_2kpi, sin_2kpi; reflexivity).
  destruct (Rltb t2 t1) eqn:E; rb.
  - exists ((t1 - t2) / 2). split; [nra|]. rewrite !RC. split; [do 2 f_equal; f_equal; field|].
    replace (t1 - (t1 - t2) / 2) with ((t1 + t2) / 2) by field. destruct (SH ((t1 + t2) / 2)) as [-> | ->]; [reflexivity|]. rewrite <- (V ((t1 + t2) / 2) (-1)%Z). do 2 f_equal; f_equal; cbn; ring.
  - exists ((t1 - t2) / 2 + PI). split; [nra|]. rewrite !RC. split; [rewrite <- (V t2 (-1)%Z); do 2 f_equal; f_equal; cbn; field|].
    destruct (SH ((t1 + t2) / 2 + TWO_PI / 2)) as [-> | ->]; unfold TWO_PI.
    + rewrite <- (V ((t1 + t2) / 2 + 2 * PI / 2) (-1)%Z). do 2 f_equal; f_equal; cbn; field.
    + do 2 f_equal; f_equal; field.
Qed.
Lemma clockwise_range_wrong : exists v w, v <> V2 0 0 /\ w <> V2 0 0 /\ ~ (0 <= clockwise_angle v w < 2 * PI).
Proof.
  exists (V2 1 0), (V2 1 0). assert (N : V2 1 0 <> V2 0 0) by (intros E; apply (f_equal x2) in E; cbn in E; lra).
  split; [exact N|]. split; [exact N|]. rewrite clockwise_angle_aligned; [lra|exact N|]. exists 1. cbn. repeat split; lra.
Qed.
Lemma principal_range_wrong : exists angle, ~ (- PI <= angle_principal_measure angle (- PI) <= - PI + 2 * PI).
Proof. exists (3 * (PI / 2)). destruct principal_measure_default_wrong as [-> H]. lra. Qed.
