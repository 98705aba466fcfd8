(** Triangle3D: area, height, and the sides of bisected triangles. *)
From Coq Require Import Reals Lra Lia List ZArith Bool.
From Verif.Model Require Import Base RBase Vec Frame Mesh Edges Plane Triangle3.
From Verif.Spec Require Import VecSpec TriangleSpec.
From Verif.Proofs Require Import VecP.
Import ListNotations.
Open Scope R_scope.

Notation D := point_distance3.
Lemma D_pos a b : 0 <= D a b. Proof. apply norm3_pos. Qed.
Lemma D_sq a b : D a b * D a b = (x3 a - x3 b) * (x3 a - x3 b) + (y3 a - y3 b) * (y3 a - y3 b) + (z3 a - z3 b) * (z3 a - z3 b).
Proof. unfold point_distance3. rewrite norm3_sq. unfold dot3, sub3. cbn [x3 y3 z3]. ring. Qed.
Lemma D_sym a b : D a b = D b a.
Proof. pose proof (D_pos a b). pose proof (D_pos b a). pose proof (D_sq a b) as A. pose proof (D_sq b a) as B. assert (D a b * D a b = D b a * D b a) by (rewrite A, B; ring). nra. Qed.
Lemma D_le a b k : 0 <= k -> D a b * D a b <= k * k -> D a b <= k.
Proof. intros K H. pose proof (D_pos a b). destruct (Rle_dec (D a b) k); auto. exfalso. assert (k < D a b) by lra. nra. Qed.
Lemma n3_sq v : norm3 v * norm3 v = x3 v * x3 v + y3 v * y3 v + z3 v * z3 v.
Proof. rewrite norm3_sq. unfold dot3. ring. Qed.
(** Heron *)
Lemma heron3 a b c : let x := D a b in let y := D b c in let z := D c a in let s := (x + y + z) / 2 in
  s * (s - x) * (s - y) * (s - z) = norm3 (area_vector (a, b, c)) / 2 * (norm3 (area_vector (a, b, c)) / 2).
Proof.
  cbv zeta. set (x := D a b). set (y := D b c). set (z := D c a).
  replace (norm3 (area_vector (a, b, c)) / 2 * (norm3 (area_vector (a, b, c)) / 2)) with (norm3 (area_vector (a, b, c)) * norm3 (area_vector (a, b, c)) / 4) by field.
  replace ((x + y + z) / 2 * ((x + y + z) / 2 - x) * ((x + y + z) / 2 - y) * ((x + y + z) / 2 - z)) with ((2 * (x * x) * (y * y) + 2 * (y * y) * (z * z) + 2 * (z * z) * (x * x) - (x * x) * (x * x) - (y * y) * (y * y) - (z * z) * (z * z)) / 16) by field.
  rewrite n3_sq. unfold x, y, z. rewrite !D_sq. unfold area_vector, cross3, sub3. cbn [x3 y3 z3]. field.
Qed.
Lemma tri_area t : triangle3_area t = area3 t.
Proof.
  destruct t as [[a b] c]. unfold triangle3_area, area3. rewrite heron3. pose proof (norm3_pos (area_vector (a, b, c))) as P.
  replace (Rltb _ 0) with false by (symmetry; apply Rltb_false; nra). apply sqrt_square. lra.
Qed.
Lemma area_nonneg t : 0 <= area3 t.
Proof. unfold area3. pose proof (norm3_pos (area_vector t)). lra. Qed.
Lemma lagr a b p t : D a b * D a b * (D p (on_line a b t) * D p (on_line a b t)) = norm3 (area_vector (a, b, p)) * norm3 (area_vector (a, b, p)) + (D a b * D a b * t - dot3 (sub3 b a) (sub3 p a)) * (D a b * D a b * t - dot3 (sub3 b a) (sub3 p a)).
Proof. rewrite n3_sq, !D_sq. unfold area_vector, cross3, on_line, dot3, sub3, add3, mul3. cbn [x3 y3 z3]. ring. Qed.
Lemma height_ok a b c : a <> b -> exists h, triangle3_height (a, b, c) = Ok h /\ (forall t, h <= D c (on_line a b t)) /\ (exists t, D c (on_line a b t) = h).
Proof.
  intros N. unfold triangle3_height. assert (P : 0 < D a b). { destruct (Rle_lt_or_eq_dec 0 (D a b) (D_pos a b)) as [H | H]; auto. exfalso. apply N. apply dist3_zero. auto. }
  replace (Reqb (D a b) 0) with false by (symmetry; apply Reqb_false; lra). eexists. split; [reflexivity|]. rewrite tri_area. unfold area3. set (n := norm3 (area_vector (a, b, c))). pose proof (norm3_pos (area_vector (a, b, c))) as Pn. fold n in Pn.
  assert (H0 : 2 * (n / 2) / D a b = n / D a b) by (field; lra). rewrite H0.
  assert (HH : 0 <= n / D a b) by (apply Rmult_le_pos; [auto|left; apply Rinv_0_lt_compat; auto]).
  assert (SQ : D a b * D a b * (n / D a b * (n / D a b)) = n * n) by (field; lra).
  split.
  - intros t. pose proof (lagr a b c t) as L. fold n in L. set (e := D a b * D a b * t - dot3 (sub3 b a) (sub3 c a)) in *. pose proof (D_pos c (on_line a b t)) as Q. pose proof (Rle_0_sqr e) as E. unfold Rsqr in E.
    destruct (Rle_dec (n / D a b) (D c (on_line a b t))) as [H | H]; auto. exfalso.
    assert (K : D c (on_line a b t) * D c (on_line a b t) < n / D a b * (n / D a b)) by nra. assert (D a b * D a b * (D c (on_line a b t) * D c (on_line a b t)) < D a b * D a b * (n / D a b * (n / D a b))) by (apply Rmult_lt_compat_l; nra). lra.
  - exists (dot3 (sub3 b a) (sub3 c a) / (D a b * D a b)). set (t := dot3 (sub3 b a) (sub3 c a) / (D a b * D a b)). pose proof (lagr a b c t) as L. fold n in L.
    assert (E : D a b * D a b * t - dot3 (sub3 b a) (sub3 c a) = 0) by (unfold t; field; lra). rewrite E in L. pose proof (D_pos c (on_line a b t)) as Q.
    assert (K : D c (on_line a b t) * D c (on_line a b t) = n / D a b * (n / D a b)). { apply Rmult_eq_reg_l with (D a b * D a b); [|nra]. rewrite SQ. lra. } nra.
Qed.
Lemma height_err a c : triangle3_height (a, a, c) = Err ZeroDivisionError.
Proof. unfold triangle3_height. replace (D a a) with 0 by (symmetry; apply dist3_zero; auto). replace (Reqb 0 0) with true by (symmetry; apply Reqb_spec; auto). reflexivity. Qed.
Lemma middle_ok t : triangle3_middle t = mean3 (/ 3) (/ 3) (/ 3) t.
Proof. destruct t as [[a b] c]. unfold triangle3_middle, mean3, add3. cbn [x3 y3 z3]. f_equal; field. Qed.

(** ** bisection *)
Definition diam (t : corners) : R := fst (longest t).
Definition mid (p q : vec3) : vec3 := half3 (add3 p q).
Lemma mid_sym p q : mid p q = mid q p.
Proof. unfold mid, half3, add3. cbn [x3 y3 z3]. f_equal; field. Qed.
Lemma D_mid p q : D p (mid p q) = D p q / 2.
Proof.
  assert (E : D p (mid p q) * D p (mid p q) = D p q / 2 * (D p q / 2)). { replace (D p q / 2 * (D p q / 2)) with (D p q * D p q / 4) by field. rewrite !D_sq. unfold mid, half3, add3. cbn [x3 y3 z3]. field. }
  pose proof (D_pos p (mid p q)). pose proof (D_pos p q). nra.
Qed.
Lemma D_median p q r : 4 * (D (mid p q) r * D (mid p q) r) = 2 * (D q r * D q r) + 2 * (D r p * D r p) - D p q * D p q.
Proof. rewrite !D_sq. unfold mid, half3, add3. cbn [x3 y3 z3]. field. Qed.
Lemma D_midline p q r : D (mid p q) (mid p r) = D q r / 2.
Proof.
  assert (E : D (mid p q) (mid p r) * D (mid p q) (mid p r) = D q r / 2 * (D q r / 2)). { replace (D q r / 2 * (D q r / 2)) with (D q r * D q r / 4) by field. rewrite !D_sq. unfold mid, half3, add3. cbn [x3 y3 z3]. field. }
  pose proof (D_pos (mid p q) (mid p r)). pose proof (D_pos q r). nra.
Qed.
Lemma diam_is a b c : diam (a, b, c) = Rmax (Rmax (D a b) (D b c)) (D c a). Proof. reflexivity. Qed.
Lemma diam_le t k : diam t <= k <-> sides_at_most k t.
Proof.
  destruct t as [[a b] c]. rewrite diam_is. unfold sides_at_most. pose proof (Rmax_l (D a b) (D b c)). pose proof (Rmax_r (D a b) (D b c)). pose proof (Rmax_l (Rmax (D a b) (D b c)) (D c a)). pose proof (Rmax_r (Rmax (D a b) (D b c)) (D c a)).
  split; [intros; lra|]. intros (A & B & C). repeat apply Rmax_lub; auto.
Qed.
Definition rotated (t : corners) (u : corners) : Prop := let '(a, b, c) := t in u = (a, b, c) \/ u = (b, c, a) \/ u = (c, a, b).
Lemma bisect_cases res t : (diam t <= res /\ bisect res t = [t]) \/
  (res < diam t /\ exists p q r, rotated t (p, q, r) /\ D p q = diam t /\ D q r <= diam t /\ D r p <= diam t /\ bisect res t = [(p, mid p q, r); (q, mid p q, r)]).
Proof.
  destruct t as [[a b] c]. assert (S : sides_at_most (diam (a, b, c)) (a, b, c)) by (apply diam_le; lra). destruct S as (S1 & S2 & S3).
  unfold bisect. change (longest (a, b, c)) with (diam (a, b, c), if Reqb (D a b) (diam (a, b, c)) then 0%nat else if Reqb (D b c) (diam (a, b, c)) then 1%nat else 2%nat).
  cbv iota beta. set (m := diam (a, b, c)) in *. destruct (Rltb res m) eqn:E; [right|left; apply Rltb_false in E; split; [lra|reflexivity]]. apply Rltb_spec in E. split; auto.
  destruct (Reqb (D a b) m) eqn:E1; [|destruct (Reqb (D b c) m) eqn:E2].
  - apply Reqb_spec in E1. exists a, b, c. split; [left; auto|]. do 3 (split; [auto|]). reflexivity.
  - apply Reqb_spec in E2. exists b, c, a. split; [right; left; auto|]. do 3 (split; [auto|]). reflexivity.
  - apply Reqb_false in E1, E2. exists c, a, b. split; [right; right; auto|]. split; [|do 2 (split; [auto|]); reflexivity].
    assert (M : m = Rmax (Rmax (D a b) (D b c)) (D c a)) by reflexivity. revert M. apply Rmax_case_strong; intros ? M; [|auto]. revert M. apply Rmax_case_strong; intros ? M; congruence.
Qed.
Lemma child_sides p q r d : D p q = d -> D q r <= d -> D r p <= d -> D p (mid p q) = d / 2 /\ D (mid p q) r <= 7 / 8 * d /\ D r p <= d /\ D q r <= d.
Proof.
  intros A B C. pose proof (D_pos p q) as P. pose proof (D_pos q r) as Q. pose proof (D_pos r p) as Q'. split; [rewrite D_mid; lra|]. split; [|split; auto].
  apply D_le; [lra|]. pose proof (D_median p q r) as M. assert (D q r * D q r <= d * d) by nra. assert (D r p * D r p <= d * d) by nra. rewrite A in M. nra.
Qed.
Lemma child_diam p q r d : D p q = d -> D q r <= d -> D r p <= d -> diam (p, mid p q, r) <= d.
Proof. intros A B C. destruct (child_sides p q r d A B C) as (S1 & S2 & S3 & S4). pose proof (D_pos p q). apply diam_le. split; [lra|]. split; lra. Qed.
Lemma bisect_diam res t t' : In t' (bisect res t) -> diam t' <= diam t.
Proof.
  destruct (bisect_cases res t) as [(H & ->) | (H & p & q & r & _ & A & B & C & ->)].
  - intros [<- | []]. lra.
  - intros [<- | [<- | []]]; [apply child_diam; auto|]. rewrite (mid_sym p q). apply child_diam; rewrite D_sym; auto.
Qed.
Lemma grand_child res p q r d : D p q = d -> D q r <= d -> D r p <= d -> forall t, In t (bisect res (p, mid p q, r)) -> diam t <= Rmax res (7 / 8 * d).
Proof.
  intros A B C t I. destruct (child_sides p q r d A B C) as (S1 & S2 & S3 & S4). pose proof (D_pos p q) as P. pose proof (Rmax_r res (7 / 8 * d)) as MR. pose proof (Rmax_l res (7 / 8 * d)) as ML.
  assert (I' := bisect_diam _ _ _ I). destruct (bisect_cases res (p, mid p q, r)) as [(H & E) | (H & p' & q' & r' & R0 & A' & B' & C' & E)].
  - rewrite E in I. destruct I as [<- | []]. lra.
  - destruct R0 as [R0 | [R0 | R0]]; apply pair_equal_spec in R0 as [R0 Hr]; apply pair_equal_spec in R0 as [Hp Hq]; subst p' q' r'.
    + rewrite S1 in A'. lra.
    + lra.
    + rewrite E in I. eapply Rle_trans; [|exact MR]. apply diam_le.
      assert (X1 : D r (mid r p) <= 7 / 8 * d) by (rewrite D_mid; lra). assert (X2 : D p (mid r p) <= 7 / 8 * d) by (rewrite mid_sym, D_mid, D_sym; lra).
      assert (X3 : D (mid r p) (mid p q) <= 7 / 8 * d) by (rewrite (mid_sym r p), D_sym, D_midline; lra). assert (X4 : D (mid p q) p <= 7 / 8 * d) by (rewrite D_sym, S1; lra).
      destruct I as [<- | [<- | []]]; unfold sides_at_most; auto.
Qed.
Lemma two_rounds res t t2 : In t2 (flat_map (bisect res) (bisect res t)) -> diam t2 <= Rmax res (7 / 8 * diam t).
Proof.
  intros I. apply in_flat_map in I as (t1 & I1 & I2). pose proof (Rmax_l res (7 / 8 * diam t)) as ML.
  destruct (bisect_cases res t) as [(H & E) | (H & p & q & r & _ & A & B & C & E)]; rewrite E in I1.
  - destruct I1 as [<- | []]. rewrite E in I2. destruct I2 as [<- | []]. lra.
  - destruct I1 as [<- | [<- | []]].
    + eapply grand_child; eauto.
    + rewrite (mid_sym p q) in I2. revert I2. apply grand_child; auto; rewrite D_sym; auto.
Qed.
