(** The sampling of a triangle. *)
From Coq Require Import Reals Lra Lia List ZArith Bool.
From Verif.Model Require Import Base RBase Vec Frame BBox Mesh Edges Plane Triangle3.
From Verif.Spec Require Import VecSpec TriangleSpec.
From Verif.Proofs Require Import VecP EdgesP3 MeshGeomP MeshP TriangleP TriangleP2.
Import ListNotations.
Open Scope R_scope.

Lemma floor_nat_spec r : 0 <= r -> INR (floor_nat r) <= r < INR (floor_nat r) + 1.
Proof.
  intros H. unfold floor_nat. destruct (base_Int_part r) as (A & B). assert (0 <= Int_part r)%Z. { apply le_IZR. assert (-1 < IZR (Int_part r)) by lra. apply lt_IZR in H0. apply IZR_le. lia. }
  rewrite INR_IZR_INZ, Z2Nat.id by lia. lra.
Qed.
Definition at_ (p q r : vec3) (a b : R) : vec3 := mean3 (a * (1 - b)) (1 - a) (a * b) (p, q, r).
Lemma v3_ext u v : x3 u = x3 v -> y3 u = y3 v -> z3 u = z3 v -> u = v.
Proof. destruct u, v. cbn. intros -> -> ->. reflexivity. Qed.
Ltac v3 := unfold at_, mean3, add3, sub3, mul3; apply v3_ext; cbn [x3 y3 z3].
Lemma D_scale u v p q k : sub3 u v = mul3 (sub3 p q) k -> D u v = Rabs k * D p q.
Proof. intros E. unfold point_distance3. rewrite E, VecP.norm3_scale. reflexivity. Qed.
Lemma at_in p q r a b : 0 <= a <= 1 -> 0 <= b <= 1 -> in_triangle (p, q, r) (at_ p q r a b).
Proof. intros A B. exists (a * (1 - b)), (1 - a), (a * b). repeat split; try lra; try nra. Qed.
Lemma in_at p q r x : in_triangle (p, q, r) x -> exists a b, 0 <= a <= 1 /\ 0 <= b <= 1 /\ x = at_ p q r a b.
Proof.
  intros (l & m & n & A & B & C & S & ->). destruct (Req_dec (l + n) 0) as [Z | Z].
  - exists 0, 0. do 2 (split; [lra|]). assert (l = 0) by lra. assert (n = 0) by lra. subst. unfold at_. f_equal; lra.
  - exists (l + n), (n / (l + n)). assert (P : 0 < l + n) by lra. split; [lra|]. split; [split; [apply Rle_mult_inv_pos; lra|apply Rmult_le_reg_r with (l + n); [lra|unfold Rdiv; rewrite Rmult_assoc, Rinv_l, Rmult_1_r by lra; lra]]|].
    unfold at_. f_equal; try (field; lra). lra.
Qed.
(** a row *)
Definition row (resolution length21 max_length : R) (new1 w p : vec3) : res (list vec3) :=
  let q := add3 new1 (mul3 w (Rmin (point_distance3 new1 p * length21 / max_length) length21)) in
  let l := point_distance3 q p in
  let nb := (floor_nat (l / resolution) + 2)%nat in
  if Nat.eqb nb 2 then Ok [q]
  else do u <- unit_vector3 (sub3 q p);
       let step := l / INR (nb - 1) in
       Ok (map (fun i => add3 p (mul3 u (Rmin (INR i * step) l)))
               (filter (fun i => negb (Reqb (Rmin (INR i * step) l) 0)) (seq 0 nb))).
Lemma near_grid (n : nat) b : (1 <= n)%nat -> 0 <= b <= 1 -> exists i, (i <= n)%nat /\ Rabs (b - INR i / INR n) <= / 2 * / INR n.
Proof.
  intros N B. assert (NN : 0 < INR n) by (apply lt_0_INR; lia). destruct (floor_nat_spec (b * INR n + / 2) ltac:(nra)) as (A & C). set (i := floor_nat (b * INR n + / 2)) in *.
  exists i. split.
  - apply INR_le. destruct (le_lt_dec i n) as [L | L]; [apply le_INR; auto|]. apply le_INR in L. rewrite S_INR in L. nra.
  - replace (b - INR i / INR n) with ((b * INR n - INR i) * / INR n) by (field; lra). rewrite Rabs_mult, (Rabs_right (/ INR n)) by (apply Rle_ge, Rlt_le, Rinv_0_lt_compat; lra).
    apply Rmult_le_compat_r; [apply Rlt_le, Rinv_0_lt_compat; lra|]. apply Rabs_le. lra.
Qed.
Section Row.
Variables (p q r : vec3) (res M : R).
Hypothesis (P0 : 0 < res) (HM : D p q = M) (M0 : 0 < M) (L0 : 0 < D r q).
Lemma row_foot a w : 0 <= a <= 1 -> unit_vector3 (sub3 r q) = Ok w -> add3 q (mul3 w (Rmin (D q (at_ p q r a 0) * D r q / M) (D r q))) = at_ p q r a 1.
Proof.
  intros A W. assert (E : D q (at_ p q r a 0) = a * M). { rewrite D_sym, <- HM. rewrite (D_scale _ _ p q a) by (v3; ring). rewrite Rabs_right by lra. reflexivity. }
  rewrite E. replace (a * M * D r q / M) with (a * D r q) by (field; lra). rewrite (Rmin_left (a * D r q) (D r q)) by nra.
  apply unit3_spec in W as (_ & W & _). unfold point_distance3. replace (mul3 w (a * norm3 (sub3 r q))) with (mul3 (mul3 w (norm3 (sub3 r q))) a) by (v3; ring). rewrite W. v3; ring.
Qed.
Lemma row_ok a w : 0 <= a <= 1 -> unit_vector3 (sub3 r q) = Ok w -> exists L, row res (D r q) M q w (at_ p q r a 0) = Ok L /\
  In (at_ p q r a 1) L /\ (forall x, In x L -> exists b, 0 <= b <= 1 /\ x = at_ p q r a b) /\
  (forall b, 0 <= b <= 1 -> exists b', (b' = 0 \/ In (at_ p q r a b') L) /\ D (at_ p q r a b) (at_ p q r a b') <= res / 2).
Proof.
  intros A W. unfold row. rewrite (row_foot a w A W). set (l := D (at_ p q r a 1) (at_ p q r a 0)). cbv zeta. assert (LL : 0 <= l) by apply D_pos.
  assert (Q0 : 0 <= l / res) by (apply Rle_mult_inv_pos; lra). destruct (floor_nat_spec (l / res) Q0) as (F1 & F2). set (k := floor_nat (l / res)) in *.
  assert (DB : forall b b', D (at_ p q r a b) (at_ p q r a b') = Rabs (b - b') * l). { intros b b'. unfold l. apply D_scale. v3; ring. }
  destruct (Nat.eqb (k + 2) 2) eqn:E.
  - apply Nat.eqb_eq in E. assert (K0 : k = 0%nat) by lia. rewrite K0 in *. cbn [INR] in F2. assert (l < res). { apply Rmult_lt_reg_r with (/ res); [apply Rinv_0_lt_compat; lra|]. rewrite Rinv_r by lra. unfold Rdiv in F2. lra. }
    eexists. split; [reflexivity|]. split; [left; auto|]. split; [intros x [<- | []]; exists 1; split; [lra|auto]|]. intros b B.
    destruct (Rle_dec b (/ 2)) as [Lb | Lb]; [exists 0|exists 1]; (split; [|rewrite DB]).
    + left; auto. + rewrite Rabs_right by lra. nra. + right; left; auto. + rewrite Rabs_left1 by lra. nra.
  - apply Nat.eqb_neq in E. assert (K1 : (1 <= k)%nat) by lia. assert (K1' : 1 <= INR k) by (apply (le_INR 1); auto).
    assert (LR : res <= l). { assert (1 <= l / res) by lra. apply Rmult_le_reg_r with (/ res); [apply Rinv_0_lt_compat; lra|]. rewrite Rinv_r by lra. auto. }
    replace (k + 2 - 1)%nat with (S k) by lia. set (n := S k). assert (NN : INR n = INR k + 1) by (apply S_INR).
    assert (NP : 0 < INR n) by lra. assert (Dm : forall x y, D x y = norm3 (sub3 x y)) by reflexivity.
    destruct (unit_vector3 (sub3 (at_ p q r a 1) (at_ p q r a 0))) as [u|e] eqn:U; [|apply unit3_err in U as (U & _); apply norm3_zero in U; unfold l, point_distance3 in LR; lra].
    cbn [bind]. apply unit3_spec in U as (_ & U & _). fold l in U. change (norm3 (sub3 (at_ p q r a 1) (at_ p q r a 0))) with l in U.
    assert (PT : forall i, (i <= n)%nat -> Rmin (INR i * (l / INR n)) l = INR i / INR n * l /\ add3 (at_ p q r a 0) (mul3 u (Rmin (INR i * (l / INR n)) l)) = at_ p q r a (INR i / INR n)).
    { intros i I. apply le_INR in I. assert (Z : INR i / INR n <= 1) by (apply Rmult_le_reg_r with (INR n); auto; unfold Rdiv; rewrite Rmult_assoc, Rinv_l, Rmult_1_r by lra; lra).
      assert (Y : Rmin (INR i * (l / INR n)) l = INR i / INR n * l). { replace (INR i * (l / INR n)) with (INR i / INR n * l) by (field; lra). apply Rmin_left. nra. }
      split; [auto|]. rewrite Y. replace (mul3 u (INR i / INR n * l)) with (mul3 (mul3 u l) (INR i / INR n)) by (v3; ring). rewrite U. v3; ring. }
    assert (Z01 : forall i, (i <= n)%nat -> 0 <= INR i / INR n <= 1). { intros i I. apply le_INR in I. pose proof (pos_INR i) as PI. split; [apply Rle_mult_inv_pos; auto|]. apply Rmult_le_reg_r with (INR n); auto. unfold Rdiv. rewrite Rmult_assoc, Rinv_l, Rmult_1_r by lra. lra. }
    assert (IN : forall i, (1 <= i <= n)%nat -> In (at_ p q r a (INR i / INR n)) (map (fun i => add3 (at_ p q r a 0) (mul3 u (Rmin (INR i * (l / INR n)) l))) (filter (fun i => negb (Reqb (Rmin (INR i * (l / INR n)) l) 0)) (seq 0 (k + 2))))).
    { intros i (I1 & I2). apply in_map_iff. exists i. destruct (PT i I2) as (Y & Z). split; [auto|]. apply filter_In. split; [apply in_seq; unfold n in *; lia|]. rewrite Y. apply negb_true_iff. apply Reqb_false.
      apply (le_INR 1) in I1. cbn in I1. assert (0 < INR i / INR n) by (apply Rdiv_lt_0_compat; lra). intros X. nra. }
    eexists. split; [reflexivity|]. split; [|split].
    + replace 1 with (INR n / INR n) at 1 by (field; lra). apply IN. unfold n. lia.
    + intros x X. apply in_map_iff in X as (i & <- & X). apply filter_In in X as (X & _). apply in_seq in X. assert (I : (i <= n)%nat) by (unfold n; lia). exists (INR i / INR n). split; [auto|]. apply PT; auto.
    + intros b B. destruct (near_grid n b ltac:(unfold n; lia) B) as (i & I & C). exists (INR i / INR n). split.
      * destruct i as [|i]; [left; change (INR 0) with 0; unfold Rdiv; ring|right; apply IN; lia].
      * rewrite DB. assert (l / INR n <= res). { apply Rmult_le_reg_r with (INR n); auto. unfold Rdiv. rewrite Rmult_assoc, Rinv_l, Rmult_1_r by lra. assert (l <= (INR k + 1) * res). { apply Rmult_le_reg_r with (/ res); [apply Rinv_0_lt_compat; lra|]. rewrite Rmult_assoc, Rinv_r, Rmult_1_r by lra. unfold Rdiv in F2. lra. } nra. }
        assert (Rabs (b - INR i / INR n) * l <= / 2 * / INR n * l) by (apply Rmult_le_compat_r; auto). unfold Rdiv in *. nra.
Qed.
End Row.
Lemma D_sum u v p q r k b : 0 <= b <= 1 -> sub3 u v = mul3 (add3 (mul3 (sub3 p q) (1 - b)) (mul3 (sub3 r q) b)) k -> D p q <= D p q -> D r q <= D p q -> D u v <= Rabs k * D p q.
Proof.
  intros B E _ L. unfold point_distance3 in *. rewrite E, VecP.norm3_scale. apply Rmult_le_compat_l; [apply Rabs_pos|]. eapply Rle_trans; [apply norm3_triangle|]. rewrite !VecP.norm3_scale, !Rabs_right by lra. nra.
Qed.
Lemma points01 p q res M v : 0 < res -> D p q = M -> 0 < M -> unit_vector3 (sub3 p q) = Ok v ->
  let ks := seq 1 (floor_nat (M / res) + 1) in let s k := Rmin (INR k * res) M in
  q :: map (fun k => add3 q (mul3 v (Rmin (INR k * res) M))) ks = map (fun k => add3 q (mul3 (sub3 p q) (s k / M))) (0%nat :: ks).
Proof.
  intros P0 HM M0 V ks s. cbn [map]. apply unit3_spec in V as (_ & V & _). change (norm3 (sub3 p q)) with (D p q) in V. rewrite HM in V. f_equal.
  - unfold s. change (INR 0) with 0. rewrite Rmult_0_l, Rmin_left by lra. v3; unfold Rdiv; ring.
  - apply map_ext. intros k. rewrite <- V. f_equal. v3; unfold s; field; lra.
Qed.
Lemma near_step res M a : 0 < res -> 0 < M -> 0 <= a <= 1 -> exists k, (k <= floor_nat (M / res) + 1)%nat /\ Rabs (a - Rmin (INR k * res) M / M) * M <= res / 2.
Proof.
  intros P0 M0 A. assert (Q0 : 0 <= M / res) by (apply Rle_mult_inv_pos; lra). destruct (floor_nat_spec (M / res) Q0) as (F1 & F2). set (n := floor_nat (M / res)) in *.
  assert (G1 : INR n * res <= M). { apply Rmult_le_reg_r with (/ res); [apply Rinv_0_lt_compat; lra|]. rewrite Rmult_assoc, Rinv_r, Rmult_1_r by lra. exact F1. }
  assert (G2 : M < (INR n + 1) * res). { apply Rmult_lt_reg_r with (/ res); [apply Rinv_0_lt_compat; lra|]. rewrite Rmult_assoc, Rinv_r, Rmult_1_r by lra. exact F2. }
  assert (E : forall k, Rabs (a - Rmin (INR k * res) M / M) * M = Rabs (a * M - Rmin (INR k * res) M)). { intros k. replace (a * M - Rmin (INR k * res) M) with ((a - Rmin (INR k * res) M / M) * M) by (field; lra). rewrite Rabs_mult, (Rabs_right M) by lra. reflexivity. }
  assert (AM : 0 <= a * M <= M) by nra. destruct (floor_nat_spec (a * M / res) ltac:(apply Rle_mult_inv_pos; lra)) as (H1 & H2). set (k := floor_nat (a * M / res)) in *.
  assert (K1 : INR k * res <= a * M). { apply (Rmult_le_compat_r res) in H1; [|lra]. replace (a * M / res * res) with (a * M) in H1 by (field; lra). exact H1. }
  assert (K2 : a * M < (INR k + 1) * res). { apply (Rmult_lt_compat_r res) in H2; [|lra]. replace (a * M / res * res) with (a * M) in H2 by (field; lra). exact H2. }
  assert (KN : (k <= n)%nat). { destruct (le_lt_dec k n) as [L | L]; auto. apply le_INR in L. rewrite S_INR in L. nra. }
  assert (X1 : Rmin (INR k * res) M = INR k * res) by (apply Rmin_left; lra). assert (X2 : a * M <= Rmin (INR (S k) * res) M <= INR k * res + res). { rewrite S_INR. split; [apply Rmin_glb; lra|]. pose proof (Rmin_l ((INR k + 1) * res) M). lra. }
  destruct (Rle_dec (a * M - INR k * res) (res / 2)) as [L | L]; [exists k|exists (S k)]; (split; [lia|]); rewrite E; [rewrite X1, Rabs_right by lra; lra|]. rewrite Rabs_left1 by lra. lra.
Qed.
Lemma emapM_total {A B} (f : A -> res B) l : (forall a, In a l -> exists b, f a = Ok b) -> exists r, mapM f l = Ok r.
Proof.
  induction l as [|a l IH]; intros H; [exists []; reflexivity|]. destruct (H a (or_introl eq_refl)) as (b & E). destruct (IH (fun x X => H x (or_intror X))) as (r & F). exists (b :: r). cbn [mapM]. rewrite E. cbn [bind]. rewrite F. reflexivity.
Qed.
Lemma in_concat_map {A B} (f : A -> res (list B)) l ls x : mapM f l = Ok ls -> (In x (concat ls) <-> exists a b, In a l /\ f a = Ok b /\ In x b).
Proof.
  revert ls. induction l as [|a l IH]; intros ls H; cbn [mapM] in H.
  - apply Ok_inj in H as <-. split; [intros []|intros (a & b & [] & _)].
  - destruct (f a) as [b|] eqn:F; [|discriminate]. cbn [bind] in H. destruct (mapM f l) as [bs|] eqn:G; [|discriminate]. cbn [bind] in H. apply Ok_inj in H as <-. cbn [concat]. rewrite in_app_iff, (IH bs eq_refl). split.
    + intros [I | (a' & b' & I & J & K)]; [exists a, b; auto with datatypes|exists a', b'; auto with datatypes].
    + intros (a' & b' & [<- | I] & J & K); [left; congruence|right; eauto].
Qed.
Lemma sub_points p q r res M : 0 < res -> D p q = M -> 0 < M -> r <> q -> D r q <= M -> exists L, subdescription_points p q r res M = Ok L /\
  (forall x, In x L -> in_triangle (p, q, r) x) /\ In p L /\ In q L /\ In r L /\
  (forall x, in_triangle (p, q, r) x -> exists y, In y L /\ D x y <= res).
Proof.
  intros P0 HM M0 NR LM. assert (L0 : 0 < D r q). { assert (D r q <> 0) by (rewrite dist3_zero; auto). pose proof (D_pos r q). lra. }
  unfold subdescription_points. destruct (unit_vector3 (sub3 p q)) as [v|e] eqn:V; [|apply unit3_err in V as (V & _); apply norm3_zero in V; unfold point_distance3 in HM; lra]. cbn [bind].
  replace (Reqb res 0) with false by (symmetry; apply Reqb_false; lra). cbv zeta. rewrite (points01 p q res M v P0 HM M0 V).
  destruct (unit_vector3 (sub3 r q)) as [w|e] eqn:W; [|apply unit3_err in W as (W & _); apply norm3_zero in W; unfold point_distance3 in L0; lra]. cbn [bind].
  set (n := (floor_nat (M / res) + 1)%nat). set (s := fun k => Rmin (INR k * res) M / M). change (0%nat :: seq 1 n) with (seq 0 (S n)).
  assert (S01 : forall k, 0 <= s k <= 1). { intros k. pose proof (pos_INR k). assert (0 <= Rmin (INR k * res) M) by (apply Rmin_glb; nra). pose proof (Rmin_r (INR k * res) M). unfold s. split; [apply Rle_mult_inv_pos; lra|]. apply Rmult_le_reg_r with M; auto. unfold Rdiv. rewrite Rmult_assoc, Rinv_l, Rmult_1_r by lra. lra. }
  assert (EP : map (fun k => add3 q (mul3 (sub3 p q) (Rmin (INR k * res) M / M))) (seq 0 (S n)) = map (fun k => at_ p q r (s k) 0) (seq 0 (S n))). { apply map_ext. intros k. fold (s k). v3; ring. }
  rewrite EP. set (pts := map _ (seq 0 (S n))).
  change (exists L, (do inside <- mapM (row res (D r q) M q w) pts; Ok (pts ++ concat inside)) = Ok L /\
     (forall x, In x L -> in_triangle (p, q, r) x) /\ In p L /\ In q L /\ In r L /\ (forall x, in_triangle (p, q, r) x -> exists y, In y L /\ D x y <= res)).
  assert (IP : forall x, In x pts <-> exists k, (k <= n)%nat /\ x = at_ p q r (s k) 0). { intros x. unfold pts. rewrite in_map_iff. split; [intros (k & <- & K); apply in_seq in K; exists k; split; [lia|auto]|intros (k & K & ->); exists k; split; auto; apply in_seq; lia]. }
  destruct (emapM_total (row res (D r q) M q w) pts) as (ls & E).
  { intros x X. apply IP in X as (k & _ & ->). destruct (row_ok p q r res M P0 HM M0 L0 (s k) w (S01 k) W) as (L & A & _). eauto. }
  rewrite E. cbn [bind]. eexists. split; [reflexivity|].
  assert (IC : forall k, (k <= n)%nat -> exists L, (forall x, In x L -> In x (concat ls)) /\ In (at_ p q r (s k) 1) L /\
     (forall b, 0 <= b <= 1 -> exists b', (b' = 0 \/ In (at_ p q r (s k) b') L) /\ D (at_ p q r (s k) b) (at_ p q r (s k) b') <= res / 2)).
  { intros k K. destruct (row_ok p q r res M P0 HM M0 L0 (s k) w (S01 k) W) as (L & A & B & _ & C). exists L. split; [|auto]. intros x X. apply (in_concat_map _ _ _ x E). exists (at_ p q r (s k) 0), L. split; [apply IP; eauto|auto]. }
  assert (SN : s n = 1). { unfold s. destruct (floor_nat_spec (M / res) ltac:(apply Rle_mult_inv_pos; lra)) as (_ & F). rewrite Rmin_right; [field; lra|]. unfold n. rewrite plus_INR. cbn [INR].
    apply Rmult_le_reg_r with (/ res); [apply Rinv_0_lt_compat; lra|]. rewrite Rmult_assoc, Rinv_r, Rmult_1_r by lra. apply Rlt_le. exact F. }
  assert (SZ : s 0%nat = 0) by (unfold s; change (INR 0) with 0; rewrite Rmult_0_l, Rmin_left by lra; unfold Rdiv; ring).
  split; [|split; [|split; [|split]]].
  - intros x X. apply in_app_iff in X as [X | X]; [apply IP in X as (k & _ & ->); apply at_in; [auto|lra]|]. apply (in_concat_map _ _ _ x E) in X as (a & b & A & B & C). apply IP in A as (k & _ & ->).
    destruct (row_ok p q r res M P0 HM M0 L0 (s k) w (S01 k) W) as (L & A' & _ & B' & _). rewrite A' in B. apply Ok_inj in B as <-. apply B' in C as (b & Hb & ->). apply at_in; auto.
  - apply in_app_iff. left. apply IP. exists n. split; [auto|]. rewrite SN. v3; ring.
  - apply in_app_iff. left. apply IP. exists 0%nat. split; [lia|]. rewrite SZ. v3; ring.
  - apply in_app_iff. right. destruct (IC n (le_n n)) as (L & A & B & _). apply A. replace r with (at_ p q r (s n) 1) at 1; [exact B|]. rewrite SN. v3; ring.
  - intros x X. apply in_at in X as (a & b & A & B & ->). destruct (near_step res M a P0 M0 A) as (k & K & C). fold n in K. fold (s k) in C. destruct (IC k K) as (L & L1 & _ & L2). destruct (L2 b B) as (b' & I & Dd).
    exists (at_ p q r (s k) b'). split.
    + apply in_app_iff. destruct I as [-> | I]; [left; apply IP; eauto|right; auto].
    + eapply Rle_trans; [apply (dist3_triangle _ (at_ p q r (s k) b))|]. assert (D (at_ p q r a b) (at_ p q r (s k) b) <= Rabs (a - s k) * D p q). { apply (D_sum _ _ p q r _ b); auto; try lra. v3; ring. } rewrite HM in H. lra.
Qed.
Lemma not_flat_ne a b c : ~ flat3 (a, b, c) -> a <> b /\ b <> c /\ c <> a.
Proof. intros N. repeat split; intros ->; apply N; unfold flat3, area_vector, cross3, sub3; cbn [x3 y3 z3]; f_equal; ring. Qed.
Lemma subdescription_ok a b c resolution : ~ flat3 (a, b, c) -> 0 < resolution -> exists L, subdescription (a, b, c) resolution = Ok L /\
  (forall x, In x L -> in_triangle (a, b, c) x) /\ (In a L /\ In b L /\ In c L) /\
  (forall x, in_triangle (a, b, c) x -> exists y, In y L /\ point_distance3 x y <= resolution).
Proof.
  intros N P. destruct (not_flat_ne a b c N) as (N1 & N2 & N3). unfold subdescription. destruct (longest (a, b, c)) as [m pos] eqn:E. unfold longest in E. apply pair_equal_spec in E as [E1 E2].
  assert (Dn : forall x y, x <> y -> 0 < D x y). { intros x y H. assert (D x y <> 0) by (rewrite dist3_zero; auto). pose proof (D_pos x y). lra. }
  pose proof (Rmax_l (Rmax (D a b) (D b c)) (D c a)) as X1. pose proof (Rmax_r (Rmax (D a b) (D b c)) (D c a)) as X2. pose proof (Rmax_l (D a b) (D b c)) as X3. pose proof (Rmax_r (D a b) (D b c)) as X4. rewrite E1 in *.
  destruct (Rleb m resolution) eqn:R0; rb.
  - eexists. split; [reflexivity|]. split; [|split; [cbn [In]; tauto|]].
    + intros x [<- | [<- | [<- | []]]]; [exists 1, 0, 0|exists 0, 1, 0|exists 0, 0, 1]; (do 4 (split; [lra|])); unfold mean3; apply v3_ext; cbn [x3 y3 z3]; ring.
    + intros x (l & k & n & A & B & C & S0 & ->). exists a. split; [left; auto|]. assert (Q : D (mean3 l k n (a, b, c)) a = norm3 (add3 (mul3 (sub3 a b) (- k)) (mul3 (sub3 c a) n))). { unfold point_distance3. f_equal. replace l with (1 - k - n) by lra. v3; ring. }
      rewrite Q. eapply Rle_trans; [apply norm3_triangle|]. rewrite !VecP.norm3_scale, Rabs_Ropp, !Rabs_right by lra. fold (point_distance3 a b) (point_distance3 c a). nra.
  - assert (ROT : forall p q r, (forall x, in_triangle (a, b, c) x <-> in_triangle (p, q, r) x) -> (forall L : list vec3, In p L /\ In q L /\ In r L -> In a L /\ In b L /\ In c L) -> D p q = m -> r <> q -> D r q <= m ->
      exists L, subdescription_points p q r resolution m = Ok L /\ (forall x, In x L -> in_triangle (a, b, c) x) /\ (In a L /\ In b L /\ In c L) /\ (forall x, in_triangle (a, b, c) x -> exists y, In y L /\ D x y <= resolution)).
    { intros p q r H1 H2 H3 H4 H5. destruct (sub_points p q r resolution m P H3 ltac:(pose proof (Dn a b N1); lra) H4 H5) as (L & A & B & C1 & C2 & C3 & C4). exists L. split; auto. split; [intros; apply H1; auto|]. split; [apply H2; auto|]. intros x X. apply C4. apply H1. auto. }
    destruct (Reqb (D a b) m) eqn:Q1; rb; [subst pos; apply ROT; [intros; apply in_tri_rot; left; auto|intros L; tauto|auto|auto|rewrite D_sym; lra]|].
    destruct (Reqb (D b c) m) eqn:Q2; rb; [subst pos; apply ROT; [intros; apply in_tri_rot; right; left; auto|intros L; tauto|auto|auto|rewrite D_sym; lra]|].
    subst pos. apply ROT; [intros; apply in_tri_rot; right; right; auto|intros L; tauto| |auto|rewrite D_sym; lra]. revert E1. apply Rmax_case; [apply Rmax_case; intros; congruence|auto].
Qed.
