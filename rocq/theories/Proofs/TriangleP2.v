(** Bisection of triangles: it ends, and the pieces cover the triangle. *)
From Coq Require Import Reals Lra Lia List ZArith Bool.
From Verif.Model Require Import Base RBase Vec Frame BBox Mesh Edges Plane Triangle3.
From Verif.Spec Require Import VecSpec TriangleSpec.
From Verif.Proofs Require Import VecP EdgesP3 TriangleP.
Import ListNotations.
Open Scope R_scope.

Fixpoint rounds (n : nat) (res : R) (ts : list corners) : list corners := match n with O => ts | S n => rounds n res (flat_map (bisect res) ts) end.
Lemma bisect_len res t : length (bisect res t) = 1%nat /\ diam t <= res \/ length (bisect res t) = 2%nat /\ res < diam t.
Proof. destruct (bisect_cases res t) as [(H & ->) | (H & p & q & r & _ & _ & _ & _ & ->)]; auto. Qed.
Lemma round_len res ts : (length ts <= length (flat_map (bisect res) ts))%nat /\ (length ts = length (flat_map (bisect res) ts) <-> forall t, In t ts -> diam t <= res).
Proof.
  induction ts as [|t ts (IH1 & IH2)]; cbn [flat_map length]; [split; [lia|split; auto; intros _ t []]|]. rewrite app_length. split; [destruct (bisect_len res t) as [(L & _) | (L & _)]; lia|]. split.
  - intros H. destruct (bisect_len res t) as [(L & K) | (L & K)]; [|lia]. intros u [<- | I]; auto. apply IH2; auto. lia.
  - intros H. destruct (bisect_len res t) as [(L & K) | (L & K)]; [|exfalso; pose proof (H t (or_introl eq_refl)); lra]. rewrite L. cbn. f_equal. apply IH2. intros; apply H; right; auto.
Qed.
Lemma done_or_not res ts : (forall t, In t ts -> diam t <= res) \/ ~ (forall t, In t ts -> diam t <= res).
Proof.
  induction ts as [|t ts [IH | IH]]; [left; intros t []| |right; intros H; apply IH; intros; apply H; right; auto].
  destruct (Rle_dec (diam t) res) as [L | L]; [left; intros u [<- | I]; auto|right; intros H; apply L, H; left; auto].
Qed.
Lemma loop_unfold fuel res ts : bisect_loop (S fuel) res ts = if Nat.eqb (length ts) (length (flat_map (bisect res) ts)) then Ok ts else bisect_loop fuel res (flat_map (bisect res) ts).
Proof. reflexivity. Qed.
Lemma loop_done res n : forall ts, (forall t, In t (rounds n res ts) -> diam t <= res) -> exists k, (k <= n)%nat /\ (forall t, In t (rounds k res ts) -> diam t <= res) /\ forall fuel, (n < fuel)%nat -> bisect_loop fuel res ts = Ok (rounds k res ts).
Proof.
  induction n as [|n IH]; intros ts H.
  - exists 0%nat. split; [lia|]. split; [auto|]. intros [|fuel] F; [lia|]. rewrite loop_unfold. apply (round_len res ts) in H. apply Nat.eqb_eq in H. rewrite H. reflexivity.
  - destruct (done_or_not res ts) as [K | K].
    + exists 0%nat. split; [lia|]. split; [auto|]. intros [|fuel] F; [lia|]. rewrite loop_unfold. apply (round_len res ts) in K. apply Nat.eqb_eq in K. rewrite K. reflexivity.
    + destruct (IH (flat_map (bisect res) ts) H) as (k & L & A & B). exists (S k). split; [lia|]. split; [auto|]. intros [|fuel] F; [lia|]. rewrite loop_unfold.
      replace (Nat.eqb _ _) with false; [apply B; lia|]. symmetry. apply Nat.eqb_neq. intros Q. apply K. apply (round_len res ts). auto.
Qed.
Lemma rounds_S n res ts : rounds (S n) res ts = rounds n res (flat_map (bisect res) ts). Proof. reflexivity. Qed.
Lemma rounds_diam res d : 0 <= d -> forall n ts, (forall t, In t ts -> diam t <= Rmax res d) -> forall t, In t (rounds (2 * n) res ts) -> diam t <= Rmax res ((7 / 8) ^ n * d).
Proof.
  intros D0. induction n as [|n IH]; intros ts H t I.
  - rewrite pow_O, Rmult_1_l. apply H. auto.
  - replace (2 * S n)%nat with (S (S (2 * n))) in I by lia. rewrite !rounds_S in I.
    assert (G : forall d' ts', 0 <= d' -> (forall t, In t ts' -> diam t <= Rmax res d') -> forall t, In t (flat_map (bisect res) (flat_map (bisect res) ts')) -> diam t <= Rmax res (7 / 8 * d')).
    { intros d' ts' Dd' H' u U. apply in_flat_map in U as (u1 & U1 & U2). apply in_flat_map in U1 as (u0 & U0 & U1).
      assert (V : diam u <= Rmax res (7 / 8 * diam u0)) by (apply two_rounds; apply in_flat_map; eauto). assert (W := H' u0 U0).
      pose proof (Rmax_l res (7 / 8 * d')). pose proof (Rmax_r res (7 / 8 * d')).
      destruct (Rle_dec (diam u0) res) as [Q | Q].
      - assert (In u (bisect res u1)) by auto. assert (X1 := bisect_diam _ _ _ U1). assert (X2 := bisect_diam _ _ _ U2). lra.
      - assert (diam u0 <= d') by (revert W; apply Rmax_case_strong; intros; lra). eapply Rle_trans; [exact V|]. apply Rmax_lub; [auto|]. lra. }
    assert (J : forall k ts', rounds k res (flat_map (bisect res) ts') = flat_map (bisect res) (rounds k res ts')) by (induction k as [|k IHk]; intros ts'; cbn [rounds]; auto).
    rewrite !J in I. replace ((7 / 8) ^ S n * d) with (7 / 8 * ((7 / 8) ^ n * d)) by (cbn [pow]; ring). revert I. apply G; [|apply IH; auto]. apply Rmult_le_pos; auto. apply pow_le. lra.
Qed.
Lemma bisect_ends res t : 0 < res -> exists k, (forall u, In u (rounds k res [t]) -> diam u <= res) /\ exists n, forall fuel, (n <= fuel)%nat -> bisect_loop fuel res [t] = Ok (rounds k res [t]).
Proof.
  intros P. assert (D0 : 0 <= diam t). { destruct t as [[a b] c]. rewrite diam_is. pose proof (D_pos c a). pose proof (Rmax_r (Rmax (D a b) (D b c)) (D c a)). lra. }
  destruct (pow_lt_1_zero (7 / 8) ltac:(rewrite Rabs_right; lra) (res / (diam t + 1)) ltac:(apply Rdiv_lt_0_compat; lra)) as (N & H). specialize (H N (le_n N)).
  assert (Q : (7 / 8) ^ N * diam t <= res). { assert (0 <= (7 / 8) ^ N) by (apply pow_le; lra). rewrite Rabs_right in H by lra. assert ((7 / 8) ^ N * (diam t + 1) < res). { apply Rmult_lt_reg_r with (/ (diam t + 1)); [apply Rinv_0_lt_compat; lra|]. rewrite Rmult_assoc, Rinv_r, Rmult_1_r by lra. exact H. } nra. }
  assert (A : forall u, In u (rounds (2 * N) res [t]) -> diam u <= res). { intros u I. assert (K := rounds_diam res (diam t) D0 N [t] ltac:(intros v [<- | []]; apply Rmax_r) u I). rewrite Rmax_left in K by lra. auto. }
  destruct (loop_done res (2 * N) [t] A) as (k & _ & B & C). exists k. split; auto. exists (S (2 * N)). intros fuel F. apply C. lia.
Qed.
(** invariants of the rounds *)
Lemma rounds_inv (P : list corners -> Prop) res : (forall ts, P ts -> P (flat_map (bisect res) ts)) -> forall n ts, P ts -> P (rounds n res ts).
Proof. intros H. induction n as [|n IH]; intros ts Q; cbn [rounds]; auto. Qed.
Lemma mean3_rot t u l m n : rotated t u -> exists l' m' n', mean3 l m n t = mean3 l' m' n' u /\ ((l', m', n') = (l, m, n) \/ (l', m', n') = (m, n, l) \/ (l', m', n') = (n, l, m)).
Proof.
  destruct t as [[a b] c]. intros [-> | [-> | ->]]; [exists l, m, n|exists m, n, l|exists n, l, m]; (split; [unfold mean3; f_equal; ring|auto]).
Qed.
Lemma in_tri_rot t u p : rotated t u -> (in_triangle t p <-> in_triangle u p).
Proof.
  intros H. split.
  - intros (l & m & n & A & B & C & S & ->). destruct (mean3_rot t u l m n H) as (l' & m' & n' & E & Q). exists l', m', n'. rewrite E. destruct Q as [Q | [Q | Q]]; apply pair_equal_spec in Q as [Q ->]; apply pair_equal_spec in Q as [-> ->]; repeat split; auto; lra.
  - assert (H' : rotated u t) by (destruct t as [[a b] c]; destruct H as [-> | [-> | ->]]; unfold rotated; auto).
    intros (l & m & n & A & B & C & S & ->). destruct (mean3_rot u t l m n H') as (l' & m' & n' & E & Q). exists l', m', n'. rewrite E. destruct Q as [Q | [Q | Q]]; apply pair_equal_spec in Q as [Q ->]; apply pair_equal_spec in Q as [-> ->]; repeat split; auto; lra.
Qed.
Lemma in_child p q r x : in_triangle (p, q, r) x <-> in_triangle (p, mid p q, r) x \/ in_triangle (q, mid p q, r) x.
Proof.
  split.
  - intros (l & m & n & A & B & C & S & ->). destruct (Rle_dec m l) as [L | L]; [left; exists (l - m), (2 * m), n|right; exists (m - l), (2 * l), n];
    (do 4 (split; [lra|])); unfold mean3, mid, half3, add3; cbn [x3 y3 z3]; f_equal; field.
  - intros [(l & m & n & A & B & C & S & ->) | (l & m & n & A & B & C & S & ->)]; [exists (l + m / 2), (m / 2), n|exists (m / 2), (l + m / 2), n];
    (do 4 (split; [lra|])); unfold mean3, mid, half3, add3; cbn [x3 y3 z3]; f_equal; field.
Qed.
Lemma in_bisect res t x : in_triangle t x <-> exists u, In u (bisect res t) /\ in_triangle u x.
Proof.
  destruct (bisect_cases res t) as [(H & ->) | (H & p & q & r & R0 & _ & _ & _ & ->)].
  - split; [intros; exists t; split; [left|]; auto|]. intros (u & [<- | []] & I). auto.
  - rewrite (in_tri_rot t _ x R0), in_child. split.
    + intros [I | I]; [exists (p, mid p q, r)|exists (q, mid p q, r)]; (split; [cbn [In]; auto|auto]).
    + intros (u & [<- | [<- | []]] & I); auto.
Qed.
Lemma area_vec_rot t u : rotated t u -> area_vector u = area_vector t.
Proof. destruct t as [[a b] c]. intros [-> | [-> | ->]]; unfold area_vector, cross3, sub3; cbn [x3 y3 z3]; f_equal; ring. Qed.
Lemma norm3_scale k v : norm3 (V3 (k * x3 v) (k * y3 v) (k * z3 v)) = Rabs k * norm3 v.
Proof.
  assert (E : norm3 (V3 (k * x3 v) (k * y3 v) (k * z3 v)) * norm3 (V3 (k * x3 v) (k * y3 v) (k * z3 v)) = (Rabs k * norm3 v) * (Rabs k * norm3 v)).
  { replace (Rabs k * norm3 v * (Rabs k * norm3 v)) with ((Rabs k * Rabs k) * (norm3 v * norm3 v)) by ring. rewrite <- Rabs_mult, (Rabs_right (k * k)) by (pose proof (Rle_0_sqr k); unfold Rsqr in *; lra). rewrite !n3_sq. cbn [x3 y3 z3]. ring. }
  pose proof (norm3_pos (V3 (k * x3 v) (k * y3 v) (k * z3 v))). pose proof (norm3_pos v). pose proof (Rabs_pos k). assert (0 <= Rabs k * norm3 v) by (apply Rmult_le_pos; auto). nra.
Qed.
Lemma child_vec p q r : area_vector (p, mid p q, r) = (let v := area_vector (p, q, r) in V3 (/ 2 * x3 v) (/ 2 * y3 v) (/ 2 * z3 v)) /\ area_vector (q, mid p q, r) = (let v := area_vector (p, q, r) in V3 (- / 2 * x3 v) (- / 2 * y3 v) (- / 2 * z3 v)).
Proof. unfold area_vector, mid, half3, add3, cross3, sub3. cbn [x3 y3 z3]. split; f_equal; field. Qed.
Lemma child_area p q r : area3 (p, mid p q, r) = area3 (p, q, r) / 2 /\ area3 (q, mid p q, r) = area3 (p, q, r) / 2.
Proof.
  unfold area3. destruct (child_vec p q r) as (-> & ->). cbv zeta. rewrite !norm3_scale, Rabs_Ropp, (Rabs_right (/ 2)) by lra. split; field.
Qed.
Lemma bisect_area res t : total (map area3 (bisect res t)) = area3 t.
Proof.
  destruct (bisect_cases res t) as [(H & ->) | (H & p & q & r & R0 & _ & _ & _ & ->)]; cbn [map total fold_right]; [ring|].
  destruct (child_area p q r) as (-> & ->). replace (area3 t) with (area3 (p, q, r)) by (unfold area3; rewrite (area_vec_rot t) by auto; reflexivity). field.
Qed.
Lemma total_app l1 l2 : total (l1 ++ l2) = total l1 + total l2.
Proof. unfold total. induction l1 as [|a l1 IH]; cbn [app fold_right]; [ring|]. rewrite IH. ring. Qed.
Lemma round_area res ts : total (map area3 (flat_map (bisect res) ts)) = total (map area3 ts).
Proof. induction ts as [|t ts IH]; auto. cbn [flat_map]. rewrite map_app, total_app, bisect_area. change (area3 t + total (map area3 (flat_map (bisect res) ts)) = area3 t + total (map area3 ts)). rewrite IH. reflexivity. Qed.
Lemma flat_half k v : k <> 0 -> V3 (k * x3 v) (k * y3 v) (k * z3 v) = V3 0 0 0 -> v = V3 0 0 0.
Proof. intros K E. assert (k * x3 v = 0) by congruence. assert (k * y3 v = 0) by congruence. assert (k * z3 v = 0) by congruence. destruct v as [x y z]. cbn [x3 y3 z3] in *. f_equal; nra. Qed.
Lemma bisect_flat res t u : In u (bisect res t) -> flat3 u -> flat3 t.
Proof.
  destruct (bisect_cases res t) as [(H & ->) | (H & p & q & r & R0 & _ & _ & _ & ->)]; [intros [<- | []]; auto|]. unfold flat3. rewrite <- (area_vec_rot t _ R0). destruct (child_vec p q r) as (E1 & E2).
  intros [<- | [<- | []]]; [rewrite E1|rewrite E2]; cbv zeta; apply flat_half; lra.
Qed.
(** the constructor *)
Lemma tri_new_ok t : ~ flat3 t -> triangle3_new t = Ok t.
Proof.
  destruct t as [[a b] c]. intros N.
  assert (N1 : a <> b) by (intros ->; apply N; unfold flat3, area_vector, cross3, sub3; cbn [x3 y3 z3]; f_equal; ring).
  assert (N2 : b <> c) by (intros ->; apply N; unfold flat3, area_vector, cross3, sub3; cbn [x3 y3 z3]; f_equal; ring).
  assert (N3 : c <> a) by (intros ->; apply N; unfold flat3, area_vector, cross3, sub3; cbn [x3 y3 z3]; f_equal; ring).
  assert (G : forall p q, p <> q -> norm3 (sub3 q p) <> 0). { intros p q Q E. apply Q. symmetry. apply dist3_zero. exact E. }
  unfold triangle3_new, plane_from_3_points, unit_vector3.
  replace (Reqb (norm3 (sub3 b a)) 0) with false by (symmetry; apply Reqb_false; apply G; auto). replace (Reqb (norm3 (sub3 c a)) 0) with false by (symmetry; apply Reqb_false; apply G; auto). cbn [bind].
  set (v1 := V3 _ _ _). set (v2 := V3 (x3 (sub3 c a) / _) _ _).
  assert (K : norm3 (cross3 v1 v2) <> 0).
  { intros E. apply N. unfold flat3. pose proof (G a b N1) as Ga. pose proof (G a c (not_eq_sym N3)) as Gc.
    assert (X : cross3 v1 v2 = (let v := area_vector (a, b, c) in let k := / norm3 (sub3 b a) * / norm3 (sub3 c a) in V3 (k * x3 v) (k * y3 v) (k * z3 v))).
    { unfold v1, v2, area_vector, cross3. cbv zeta. cbn [x3 y3 z3]. f_equal; field; auto. }
    rewrite X in E. cbv zeta in E. rewrite norm3_scale in E. assert (KK : Rabs (/ norm3 (sub3 b a) * / norm3 (sub3 c a)) <> 0). { apply Rabs_no_R0. apply Rmult_integral_contrapositive_currified; apply Rinv_neq_0_compat; auto. }
    assert (E0 : norm3 (area_vector (a, b, c)) = 0) by (apply Rmult_integral in E as [E | E]; [contradiction|auto]).
    pose proof (n3_sq (area_vector (a, b, c))) as S. rewrite E0 in S. destruct (area_vector (a, b, c)) as [x y z]. cbn [x3 y3 z3] in S. f_equal; nra. }
  replace (Reqb (norm3 (cross3 v1 v2)) 0) with false by (symmetry; apply Reqb_false; auto). cbn [bind]. unfold segment3.
  assert (EB : forall p q, p <> q -> eqb3 p q = false). { intros p q Q. destruct (eqb3 p q) eqn:E; auto. exfalso. apply Q. apply eqb3_eq. auto. }
  rewrite !EB by auto. reflexivity.
Qed.
