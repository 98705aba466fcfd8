(** Proofs about primitives3d.py, part 9: the points drawn on a sphere. *)
From Coq Require Import Reals Lra Lia List Bool ZArith Psatz.
From Verif.Model Require Import Base Mesh RBase Vec Frame BBox Geometry Prims.
From Verif.Spec Require Import VecSpec FrameSpec BBoxSpec PrimsSpec.
From Verif.Proofs Require Import VecP LineP PrimsP2 PrimsP5 PrimsP6 PrimsP7 PrimsP8.
Import ListNotations.
Open Scope R_scope.

Lemma mapM_rel {A B} (f : A -> res B) (Q : A -> B -> Prop) l : (forall x, In x l -> exists y, f x = Ok y /\ Q x y) ->
  exists r, mapM f l = Ok r /\ (forall x, In x l -> exists y, In y r /\ Q x y) /\ (forall y, In y r -> exists x, In x l /\ Q x y).
Proof.
  induction l as [|x l IH]; intros H; [exists []; cbn; repeat split; intros; contradiction|].
  destruct (H x (or_introl eq_refl)) as (y & E & Qy). destruct IH as (r & Er & F & G); [intros; apply H; now right|].
  exists (y :: r). cbn [mapM]. rewrite E. cbn [bind]. rewrite Er. cbn [bind]. split; [reflexivity|]. split.
  - intros z [<-|Hz]; [exists y; split; [now left|auto]|]. destruct (F z Hz) as (w & W1 & W2). exists w. split; [now right|auto].
  - intros z [<-|Hz]; [exists x; split; [now left|auto]|]. destruct (G z Hz) as (w & W1 & W2). exists w. split; [now right|auto].
Qed.
Lemma point_dist_sym p q : point_distance3 p q = point_distance3 q p. Proof. apply dist3_sym. Qed.

Section Skin.
Variables (c : vec3) (r res : R).
Hypothesis (Pr : 0 < r) (Ps : 0 < res) (Small : res <= 2 * r).
Let theta := 2 * asin (res / (2 * r)).
Lemma ratio : 0 < res / (2 * r) <= 1.
Proof.
  assert (0 < 2 * r) by lra. split; [apply Rdiv_lt_0_compat; auto|]. apply (Rmult_le_reg_r (2 * r)); [auto|]. unfold Rdiv. rewrite Rmult_assoc, Rinv_l by lra. lra.
Qed.
Lemma sin_half : 2 * r * sin (theta / 2) = res.
Proof.
  unfold theta. replace (2 * asin (res / (2 * r)) / 2) with (asin (res / (2 * r))) by field. pose proof ratio. rewrite sin_asin by lra. field. lra.
Qed.
Lemma theta_range : 0 < theta <= PI.
Proof.
  pose proof ratio as (A & B). pose proof (asin_bound (res / (2 * r))) as (C & D). unfold theta. split; [|lra].
  destruct (Rlt_or_le 0 (asin (res / (2 * r)))) as [H|H]; [lra|]. exfalso.
  pose proof (sin_asin (res / (2 * r))) as E. assert (E' : sin (asin (res / (2 * r))) = res / (2 * r)) by (apply E; lra).
  assert (0 <= sin (- asin (res / (2 * r)))) by (apply sin_ge_0; pose proof PI_RGT_0; lra). rewrite sin_neg, E' in H0. lra.
Qed.
Lemma step_across a b t : Rabs (a - b) <= theta -> point_distance3 (sp c r a t) (sp c r b t) <= res.
Proof.
  intros H. rewrite across by lra. rewrite <- sin_half. apply Rmult_le_compat_l; [lra|]. pose proof theta_range as (T0 & T1).
  assert (HH : forall x, 0 <= x <= theta / 2 -> Rabs (sin x) <= sin (theta / 2)).
  { intros x Hx. rewrite Rabs_right by (apply Rle_ge, sin_ge_0; lra). apply sin_incr_1; lra. }
  destruct (Rle_or_lt 0 (a - b)) as [G|G].
  - apply HH. rewrite Rabs_right in H by lra. lra.
  - rewrite <- Rabs_Ropp, <- sin_neg. apply HH. rewrite Rabs_left in H by lra. lra.
Qed.
Definition full (a : R) : Prop := isclose a 0 tiny || isclose a PI tiny = true \/ res < r * sin a * (20 * PI).
Lemma zero_full : full 0.
Proof. left. apply orb_true_iff. left. apply isclose_0; [|rewrite ?Rminus_0_r, Rabs_R0]; pose proof tiny_pos; try lra. Qed.
(** a floor with too few points has a fuller floor just below *)
Lemma below_full i : INR (S i) * theta <= PI -> full (INR (S i) * theta) \/ full (INR i * theta).
Proof.
  intros H. destruct i as [|i]; [right; cbn [INR]; rewrite Rmult_0_l; apply zero_full|]. right. right.
  pose proof theta_range as (T0 & T1). rewrite S_INR in H. rewrite S_INR in H |- *. pose proof (pos_INR i) as Hi.
  assert (0 <= INR i * theta) by (apply Rmult_le_pos; lra). assert (TH : 2 * theta <= PI) by nra. pose proof PI_RGT_0 as PP.
  set (a := (INR i + 1) * theta) in *. assert (A : theta <= a <= PI - theta) by (unfold a; nra). clearbody a.
  assert (SA : sin theta <= sin a).
  { destruct (Rle_or_lt a (PI / 2)) as [G|G]; [apply sin_incr_1; lra|]. rewrite <- (sin_PI_x a). apply sin_incr_1; lra. }
  assert (E : sin theta = 2 * sin (theta / 2) * cos (theta / 2)). { rewrite <- sin_2a. f_equal. field. }
  assert (C : 1 / 2 <= cos (theta / 2)). { rewrite <- cos_PI3. apply cos_decr_1; lra. }
  assert (RS : res * (1 / 2) <= r * sin a).
  { apply Rle_trans with (r * sin theta); [|apply Rmult_le_compat_l; lra]. rewrite E.
    replace (r * (2 * sin (theta / 2) * cos (theta / 2))) with (2 * r * sin (theta / 2) * cos (theta / 2)) by ring. rewrite sin_half. apply Rmult_le_compat_l; lra. }
  assert (3 < PI) by (pose proof PI2_3_2; lra). nra.
Qed.
Lemma skin_ok_small : exists l, skin_points c r res = Ok l /\ (forall p, In p l -> on_sphere_at c r p) /\ covers l (on_sphere_at c r) (3 * res + 2 * r / 10 ^ 6).
Proof.
  unfold skin_points. rewrite (proj2 (Rltb_false (2 * r) res)) by lra. rewrite (proj2 (Reqb_false r 0)) by lra. fold theta. pose proof theta_range as (T0 & T1).
  rewrite (proj2 (Reqb_false theta 0)) by lra. cbv zeta. set (n := floor_nat (PI / theta)).
  assert (N0 : 0 <= PI / theta) by (apply Rlt_le, Rdiv_lt_0_compat; lra). destruct (floor_nat_spec _ N0) as (N1 & N2). fold n in N1, N2.
  assert (EN : PI / theta * theta = PI) by (field; lra).
  assert (RNG : forall k, (k <= n)%nat -> 0 <= INR k * theta <= PI).
  { intros k Hk. apply le_INR in Hk. pose proof (pos_INR k). split; [apply Rmult_le_pos; lra|]. rewrite <- EN at 1. apply Rmult_le_compat_r; lra. }
  set (Q := fun (k : nat) (l : list vec3) => (forall p, In p l -> exists t, p = sp c r (INR k * theta) t) /\
     (full (INR k * theta) -> forall s, 0 <= s <= 2 * PI -> exists p, In p l /\ point_distance3 p (sp c r (INR k * theta) s) <= res + 2 * r * tiny)).
  destruct (mapM_rel (fun k => let t := INR k * theta in skin_floor c (rotation3 (add3 c (mul3 X3D r)) c Y3D t) t res) Q (seq 0 (S n))) as (ll & El & F & G).
  { intros k Hk. apply in_seq in Hk. destruct (floor_ok c r (INR k * theta) res Pr Ps (RNG k ltac:(lia))) as (l & E & A & B & _).
    exists l. cbv zeta. rewrite meridian. split; [exact E|]. split; [exact A|exact B]. }
  cbv zeta in El. rewrite El. cbn [bind]. exists (concat ll). split; [reflexivity|]. split.
  - intros p Hp. apply in_concat in Hp as (l & Hl & Hp). destruct (G l Hl) as (k & _ & A & _). destruct (A p Hp) as (t & ->). apply sp_on. lra.
  - intros q Hq. destruct (polar c r q Pr Hq) as (a & s & (A0 & A1) & Hs & ->).
    assert (K0 : 0 <= a / theta) by (apply Rmult_le_pos; [lra|apply Rlt_le, Rinv_0_lt_compat; lra]). destruct (floor_nat_spec _ K0) as (K1 & K2).
    assert (KN : (floor_nat (a / theta) <= n)%nat). { apply floor_nat_mono. split; [auto|]. apply Rmult_le_compat_r; [apply Rlt_le, Rinv_0_lt_compat; lra|lra]. }
    set (k := floor_nat (a / theta)) in *. assert (EA : a / theta * theta = a) by (field; lra).
    assert (KA : Rabs (INR k * theta - a) <= theta). { rewrite Rabs_minus_sym, Rabs_right by nra. nra. }
    pose proof (step_across _ _ s KA) as D1. assert (ET : 2 * r / 10 ^ 6 = 2 * r * tiny) by reflexivity. rewrite ET.
    assert (FK : full (INR k * theta) \/ exists i, k = S i /\ full (INR i * theta)).
    { destruct k as [|i]; [left; cbn [INR]; rewrite Rmult_0_l; apply zero_full|]. destruct (below_full i) as [H|H]; [apply (RNG (S i) KN)|left; auto|right; eauto]. }
    destruct FK as [H|(i & Ei & H)].
    + destruct (F k) as (l & Hl & _ & B); [apply in_seq; lia|]. destruct (B H s Hs) as (p & Hp & Dp). exists p. split; [apply in_concat; eauto|].
      pose proof (dist3_triangle p (sp c r (INR k * theta) s) (sp c r a s)). lra.
    + destruct (F i) as (l & Hl & _ & B); [apply in_seq; lia|]. destruct (B H s Hs) as (p & Hp & Dp). exists p. split; [apply in_concat; eauto|].
      assert (D2 : point_distance3 (sp c r (INR i * theta) s) (sp c r (INR k * theta) s) <= res).
      { apply step_across. rewrite Ei, S_INR. replace (INR i * theta - (INR i + 1) * theta) with (- theta) by ring. rewrite Rabs_Ropp, Rabs_right; lra. }
      pose proof (dist3_triangle p (sp c r (INR k * theta) s) (sp c r a s)). pose proof (dist3_triangle p (sp c r (INR i * theta) s) (sp c r (INR k * theta) s)). lra.
Qed.
End Skin.
Lemma skin_ok c r res : 0 < r -> 0 < res <= 2 * r -> exists l, skin_points c r res = Ok l /\ (forall p, In p l -> on_sphere_at c r p) /\ covers l (on_sphere_at c r) (3 * res + 2 * r / 10 ^ 6).
Proof. intros A (B & C). now apply skin_ok_small. Qed.
Lemma skin_coarse c r res : 2 * r < res -> skin_points c r res = Ok [].
Proof. intros H. unfold skin_points. now rewrite (proj2 (Rltb_spec (2 * r) res) H). Qed.

(** ** inner_points *)
Lemma radial c r1 r2 a t : r2 <= r1 -> point_distance3 (sp c r2 a t) (sp c r1 a t) = r1 - r2.
Proof.
  intros H. apply dist_sq_eq; [lra|]. unfold sp. cbn [x3 y3 z3]. pose proof (sc a) as Ca. pose proof (sc t) as Ct.
  replace ((x3 c + r2 * cos a - (x3 c + r1 * cos a)) ^ 2 + (y3 c + r2 * sin a * sin t - (y3 c + r1 * sin a * sin t)) ^ 2 + (z3 c - r2 * sin a * cos t - (z3 c - r1 * sin a * cos t)) ^ 2)
    with ((r1 - r2) ^ 2 * (cos a ^ 2 + sin a ^ 2 * (sin t ^ 2 + cos t ^ 2))) by ring. rewrite Ca, Ct. ring.
Qed.
Lemma belongs_sphere c r p : sphere_point_belongs c r p = true <-> in_ball c r p.
Proof. unfold sphere_point_belongs, in_ball. rewrite point_dist_sym. apply Rleb_spec. Qed.
Lemma inner_ok c r res : 0 < r -> 0 < res -> exists l, inner_points c r res = Ok l /\ (forall p, In p l -> in_ball c r p) /\ covers l (in_ball c r) (41 / 10 * res + 2 * r / 10 ^ 6).
Proof.
  intros Pr Ps. unfold inner_points. rewrite (proj2 (Reqb_false res 0)) by lra. set (n := floor_nat (r / res)).
  assert (N0 : 0 <= r / res) by (apply Rlt_le, Rdiv_lt_0_compat; lra). destruct (floor_nat_spec _ N0) as (N1 & N2). fold n in N1, N2.
  assert (EN : r / res * res = r) by (field; lra). assert (TB : 0 <= 2 * r / 10 ^ 6). { apply Rlt_le, Rdiv_lt_0_compat; [lra|apply pow_lt; lra]. }
  assert (CB : in_ball c r c). { unfold in_ball. rewrite (proj2 (dist3_zero c c)); [lra|reflexivity]. }
  destruct (Nat.eqb n 0) eqn:EZ.
  - apply Nat.eqb_eq in EZ. rewrite EZ in N2. cbn [INR] in N2. exists [c]. split; [reflexivity|]. split; [intros p [<-|[]]; exact CB|].
    intros q Hq. exists c. split; [now left|]. unfold in_ball in Hq. nra.
  - apply Nat.eqb_neq in EZ. set (d := (r - INR n * res) / res). assert (ED : d * res = r - INR n * res) by (unfold d; field; lra). assert (D1 : 0 <= d < 1) by (split; nra).
    destruct n as [|m] eqn:En; [lia|]. clear EZ.
    assert (KEEP : forall k, exists m', (if Rleb d (1 / 10) then m else S m) = m' /\ (k <= m')%nat -> True) by (intros k; exists k; auto). clear KEEP.
    assert (EL : (if Rleb d (1 / 10) then pop (map (fun k => INR k * res) (seq 1 (S m))) else map (fun k => INR k * res) (seq 1 (S m)))
       = map (fun k => INR k * res) (seq 1 (if Rleb d (1 / 10) then m else S m))).
    { destruct (Rleb d (1 / 10)); [|reflexivity]. unfold pop. rewrite map_length, seq_length. replace (S m - 1)%nat with m by lia. rewrite firstn_map. f_equal.
      replace (S m) with (m + 1)%nat by lia. rewrite seq_app, firstn_app, seq_length, Nat.sub_diag, firstn_O, app_nil_r. apply firstn_all2. rewrite seq_length. lia. }
    rewrite EL. set (M := if Rleb d (1 / 10) then m else S m) in *.
    assert (MH : (M <= S m)%nat /\ r <= INR M * res + 11 / 10 * res).
    { unfold M. destruct (Rleb d (1 / 10)) eqn:E; rewrite S_INR in ED, N1, N2; (split; [lia|]); [apply Rleb_spec in E; nra|rewrite S_INR; nra]. }
    destruct MH as (ML & MR). clearbody M.
    assert (RM : forall k, (k <= M)%nat -> INR k * res <= r). { intros k Hk. apply Rle_trans with (INR (S m) * res); [apply Rmult_le_compat_r; [lra|apply le_INR; lia]|]. nra. }
    destruct (mapM_rel (fun k => skin_points c k res) (fun k l => (forall p, In p l -> on_sphere_at c k p) /\ covers l (on_sphere_at c k) (3 * res + 2 * k / 10 ^ 6)) (map (fun k => INR k * res) (seq 1 M))) as (ll & El & F & G).
    { intros k Hk. apply in_map_iff in Hk as (i & <- & Hi). apply in_seq in Hi. assert (1 <= INR i) by (change 1 with (INR 1); apply le_INR; lia). apply skin_ok; nra. }
    rewrite El. cbn [bind]. exists (c :: concat ll). split; [reflexivity|]. split.
    + intros p [<-|Hp]; [exact CB|]. apply in_concat in Hp as (l & Hl & Hp). destruct (G l Hl) as (k & Hk & A & _). apply in_map_iff in Hk as (i & <- & Hi). apply in_seq in Hi.
      specialize (A p Hp). unfold on_sphere_at, in_ball in *. rewrite A. apply RM. lia.
    + intros q Hq. unfold in_ball in Hq. set (e := point_distance3 c q) in *. assert (E0 : 0 <= e) by apply norm3_pos.
      assert (K0 : 0 <= e / res) by (apply Rmult_le_pos; [lra|apply Rlt_le, Rinv_0_lt_compat; lra]). destruct (floor_nat_spec _ K0) as (K1 & K2).
      assert (EE : e / res * res = e) by (field; lra). set (k0 := floor_nat (e / res)) in *.
      assert (CH : exists k, (k <= M)%nat /\ INR k * res <= e /\ e <= INR k * res + 11 / 10 * res).
      { destruct (Nat.le_gt_cases k0 M) as [H|H]; [exists k0; split; [lia|]; split; nra|]. exists M. split; [lia|]. apply lt_INR in H. split; nra. }
      destruct CH as (k & KM & KA & KB). destruct k as [|k]; [exists c; split; [now left|fold e; cbn [INR] in KB; lra]|].
      assert (1 <= INR (S k)) by (change 1 with (INR 1); apply le_INR; lia). assert (EP : 0 < e) by nra.
      destruct (polar c e q EP eq_refl) as (a & s & _ & _ & Eq). destruct (F (INR (S k) * res)) as (l & Hl & _ & C); [apply in_map_iff; exists (S k); split; [reflexivity|apply in_seq; lia]|].
      destruct (C (sp c (INR (S k) * res) a s)) as (p & Hp & Dp); [apply sp_on; nra|]. exists p. split; [right; apply in_concat; eauto|].
      pose proof (dist3_triangle p (sp c (INR (S k) * res) a s) q) as T. pose proof (radial c e (INR (S k) * res) a s KA) as RD. rewrite <- Eq in RD.
      assert (2 * (INR (S k) * res) / 10 ^ 6 <= 2 * r / 10 ^ 6). { apply Rmult_le_compat_r; [apply Rlt_le, Rinv_0_lt_compat, pow_lt; lra|]. specialize (RM (S k) KM). lra. }
      lra.
Qed.

(** ** Statements without section variables, and examples *)
Lemma cylinder_belongs_ok c p : orthonormal (fb3 (cyf c)) -> 0 <= cyr c -> 0 <= cyl c ->
  exists a, cylinder_point_belongs c p = Ok a /\ (in_cylinder c p -> a = true) /\ (a = true -> in_cylinder (grown c (2 * eps)) p).
Proof. apply belongs_spec. Qed.
Definition std : basis3 := B3 X3D Y3D Z3D.
Lemma std_ok : orthonormal std.
Proof. unfold orthonormal, std, X3D, Y3D, Z3D, dot3. cbn [bu bv bw x3 y3 z3]. repeat split; ring. Qed.
Lemma eps_1 : 0 < eps < 1 / 10.
Proof. unfold eps. split; [apply pow10_inv_pos|]. replace (1 / 10) with (/ 10 ^ 1) by (cbn [pow]; field). apply Rinv_lt_contravar; [apply Rmult_lt_0_compat; apply pow_lt; lra|apply Rlt_pow; [lra|lia]]. Qed.
Lemma std_point o x y z : frame_point (F3 o std) (V3 x y z) = V3 (x3 o + x) (y3 o + y) (z3 o + z).
Proof. unfold frame_point, basis_vector, std, X3D, Y3D, Z3D, add3, mul3. cbn [x3 y3 z3 org3 fb3 bu bv bw]. apply vec3_ext; cbn [x3 y3 z3]; ring. Qed.
Lemma blocks_example : exists b, proper (bframe b) /\ parallelepiped (bframe b) = 6 /\ slantless (bframe b) /\ axis_parallel (bframe b) /\ upright_block b.
Proof.
  exists (Block (F3 O3D (B3 (V3 1 0 0) (V3 0 2 0) (V3 0 0 3)))). unfold proper, slantless, axis_parallel, upright_block, parallelepiped. cbn [bframe fb3 bu bv bw].
  split; [repeat split; intros H; unfold O3D in H; injection H; lra|]. split; [unfold cross3, dot3; cbn [x3 y3 z3]; rewrite Rabs_right; lra|].
  split; [unfold dot3; cbn [x3 y3 z3]; repeat split; ring|]. split; [exists 1, 2, 3|exists 1, 2, 3]; repeat split; lra.
Qed.
Lemma cylinders_example : exists s far large draws, orthonormal (fb3 (cyf s)) /\ cyr s = 1 /\ cyl s = 2 /\ orthonormal (fb3 (cyf far)) /\ cyr far = 2 /\ cyl far = 2 /\
  orthonormal (fb3 (cyf large)) /\ cyr large = 10 /\ cyl large = 20 /\ smaller s far = s /\ larger s far = far /\ smaller s large = s /\ larger s large = large /\
  draws <> [] /\ (forall x, In x draws -> fair_draw s x) /\
  (forall p, in_cylinder (grown s (2 * eps)) p -> ~ in_cylinder (grown far (2 * eps)) p) /\
  (forall p, in_cylinder (grown s (2 * eps)) p -> in_cylinder large p).
Proof.
  exists (Cyl (F3 O3D std) 1 2), (Cyl (F3 (V3 10 0 0) std) 2 2), (Cyl (F3 O3D std) 10 20), [(1 / 2, 1, 1 / 2)]. pose proof std_ok as SO. pose proof eps_1 as (E0 & E1). cbn [cyf cyr cyl fb3].
  pose proof PI_RGT_0 as PP.
  assert (V1 : Rltb (cylinder_volume (Cyl (F3 O3D std) 1 2)) (cylinder_volume (Cyl (F3 (V3 10 0 0) std) 2 2)) = true) by (apply Rltb_spec; unfold cylinder_volume; cbn [cyr cyl]; nra).
  assert (V2' : Rltb (cylinder_volume (Cyl (F3 O3D std) 1 2)) (cylinder_volume (Cyl (F3 O3D std) 10 20)) = true) by (apply Rltb_spec; unfold cylinder_volume; cbn [cyr cyl]; nra).
  unfold smaller, larger. rewrite V1, V2'. do 13 (split; [first [exact SO|reflexivity]|]). split; [discriminate|]. split; [intros x [<-|[]]; unfold fair_draw; cbn [cyl]; lra|]. split.
  - intros p (x & y & z & H & Hz & ->) (x' & y' & z' & H' & Hz' & Ep). unfold grown in *. cbn [cyf cyr cyl] in *. rewrite !std_point in Ep. unfold O3D in Ep. cbn [x3 y3 z3] in Ep. injection Ep as A B C.
    assert (-2 <= x <= 2) by nra. assert (-3 <= x' <= 3) by nra. lra.
  - intros p (x & y & z & H & Hz & ->). exists x, y, z. unfold grown in *. cbn [cyf cyr cyl] in *. split; [nra|]. split; [lra|reflexivity].
Qed.
