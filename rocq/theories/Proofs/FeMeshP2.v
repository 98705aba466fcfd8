(** Triangles: the inscribed and the circumscribed circles, and the aspect ratio. *)
From Coq Require Import Reals Lra Lia List ZArith Bool.
From Verif.Model Require Import Base RBase Vec Frame BBox FeMesh.
From Verif.Spec Require Import VecSpec FeMeshSpec.
From Verif.Proofs Require Import VecP RoundedP FeMeshP.
Import ListNotations.
Open Scope R_scope.

Lemma d_pos a b : 0 <= point_distance2 a b. Proof. apply norm2_pos. Qed.
Lemma d_sq a b : point_distance2 a b * point_distance2 a b = (x2 a - x2 b) * (x2 a - x2 b) + (y2 a - y2 b) * (y2 a - y2 b).
Proof. unfold point_distance2. rewrite norm2_sq. unfold dot2, sub2. cbn [x2 y2]. ring. Qed.
Lemma d_of_sq a b r : 0 <= r -> r * r = (x2 a - x2 b) * (x2 a - x2 b) + (y2 a - y2 b) * (y2 a - y2 b) -> point_distance2 a b = r.
Proof. intros P H. rewrite <- d_sq in H. pose proof (d_pos a b). nra. Qed.
Lemma area_sides a b c : area2 a b c <> 0 -> 0 < point_distance2 a b /\ 0 < point_distance2 a c /\ 0 < point_distance2 b c.
Proof.
  intros N. pose proof (d_sq a b) as A. pose proof (d_sq a c) as B. pose proof (d_sq b c) as C. pose proof (d_pos a b). pose proof (d_pos a c). pose proof (d_pos b c).
  assert (G : forall u v, u * u + v * v = 0 -> u = 0 /\ v = 0) by (intros; split; nra).
  repeat split; match goal with |- 0 < ?d => destruct (Rle_lt_or_eq_dec 0 d) as [L | L]; auto end; exfalso; apply N; unfold area2.
  - rewrite <- L in A. destruct (G (x2 a - x2 b) (y2 a - y2 b)); [lra|]. replace (x2 b) with (x2 a) by lra. replace (y2 b) with (y2 a) by lra. ring.
  - rewrite <- L in B. destruct (G (x2 a - x2 c) (y2 a - y2 c)); [lra|]. replace (x2 c) with (x2 a) by lra. replace (y2 c) with (y2 a) by lra. ring.
  - rewrite <- L in C. destruct (G (x2 b - x2 c) (y2 b - y2 c)); [lra|]. replace (x2 b) with (x2 c) by lra. replace (y2 b) with (y2 c) by lra. ring.
Qed.
Lemma incircle_ok a b c : area2 a b c <> 0 -> exists r o l m n, incircle_radius a b c = Ok r /\ 0 < r /\
  weights2 a b c o l m n /\ 0 < l /\ 0 < m /\ 0 < n /\ line_distance a b o = r /\ line_distance a c o = r /\ line_distance b c o = r.
Proof.
  intros N. destruct (area_sides a b c N) as (A & B & C). set (p := point_distance2 a b + point_distance2 a c + point_distance2 b c).
  assert (P : 0 < p) by (unfold p; lra). pose proof (Rabs_pos_lt _ N) as M.
  set (l := point_distance2 b c / p). set (m := point_distance2 a c / p). set (n := point_distance2 a b / p).
  assert (S : l + m + n = 1) by (unfold l, m, n; unfold p; field; fold p; lra).
  assert (L0 : 0 < l /\ 0 < m /\ 0 < n) by (unfold l, m, n; repeat split; apply Rdiv_lt_0_compat; auto).
  exists (Rabs (area2 a b c) / p), (V2 (l * x2 a + m * x2 b + n * x2 c) (l * y2 a + m * y2 b + n * y2 c)), l, m, n.
  split. { unfold incircle_radius. cbv zeta. fold p. replace (Reqb p 0) with false by (symmetry; apply Reqb_false; lra). f_equal. rewrite triangle_area_is. field. lra. }
  split; [apply Rdiv_lt_0_compat; auto|]. split; [split; [auto|split; reflexivity]|]. destruct L0 as (l0 & m0 & n0). do 3 (split; [auto|]).
  unfold line_distance.
  assert (Q1 : area2 a b (V2 (l * x2 a + m * x2 b + n * x2 c) (l * y2 a + m * y2 b + n * y2 c)) = n * area2 a b c) by (unfold area2; cbn [x2 y2]; replace l with (1 - m - n) by lra; ring).
  assert (Q2 : area2 a c (V2 (l * x2 a + m * x2 b + n * x2 c) (l * y2 a + m * y2 b + n * y2 c)) = - m * area2 a b c) by (unfold area2; cbn [x2 y2]; replace l with (1 - m - n) by lra; ring).
  assert (Q3 : area2 b c (V2 (l * x2 a + m * x2 b + n * x2 c) (l * y2 a + m * y2 b + n * y2 c)) = l * area2 a b c) by (unfold area2; cbn [x2 y2]; replace l with (1 - m - n) by lra; ring).
  rewrite Q1, Q2, Q3, !Rabs_mult, Rabs_Ropp, (Rabs_right l), (Rabs_right m), (Rabs_right n) by lra.
  unfold l, m, n. repeat split; field; lra.
Qed.
Lemma incircle_point a : incircle_radius a a a = Err ZeroDivisionError.
Proof. unfold incircle_radius. replace (point_distance2 a a) with 0 by (symmetry; apply d_of_sq; lra || ring). replace (Reqb _ 0) with true by (symmetry; apply Reqb_spec; lra). reflexivity. Qed.
Lemma circum_ok a b c : area2 a b c <> 0 -> exists r o, circumcircle_radius a b c = Ok r /\ 0 < r /\ point_distance2 o a = r /\ point_distance2 o b = r /\ point_distance2 o c = r.
Proof.
  intros N. destruct (area_sides a b c N) as (A & B & C). pose proof (Rabs_pos_lt _ N) as M.
  set (r := point_distance2 a b * point_distance2 a c * point_distance2 b c / (2 * Rabs (area2 a b c))).
  set (bx := x2 b - x2 a). set (by' := y2 b - y2 a). set (cx := x2 c - x2 a). set (cy := y2 c - y2 a).
  set (ux := (cy * (bx * bx + by' * by') - by' * (cx * cx + cy * cy)) / (2 * area2 a b c)).
  set (uy := (bx * (cx * cx + cy * cy) - cx * (bx * bx + by' * by')) / (2 * area2 a b c)).
  assert (R0 : 0 < r) by (unfold r; apply Rdiv_lt_0_compat; [|lra]; apply Rmult_lt_0_compat; [apply Rmult_lt_0_compat|]; auto).
  assert (SA : Rabs (area2 a b c) * Rabs (area2 a b c) = area2 a b c * area2 a b c) by (rewrite <- Rabs_mult; apply Rabs_right; nra).
  assert (AR : area2 a b c = bx * cy - by' * cx) by reflexivity.
  assert (RR : r * r = ux * ux + uy * uy).
  { unfold r. replace (point_distance2 a b * point_distance2 a c * point_distance2 b c / (2 * Rabs (area2 a b c)) * (point_distance2 a b * point_distance2 a c * point_distance2 b c / (2 * Rabs (area2 a b c))))
      with ((point_distance2 a b * point_distance2 a b) * (point_distance2 a c * point_distance2 a c) * (point_distance2 b c * point_distance2 b c) / (4 * (Rabs (area2 a b c) * Rabs (area2 a b c)))) by (field; lra).
    rewrite SA, !d_sq. unfold ux, uy.
    replace (x2 a - x2 b) with (- bx) by (unfold bx; ring). replace (y2 a - y2 b) with (- by') by (unfold by'; ring).
    replace (x2 a - x2 c) with (- cx) by (unfold cx; ring). replace (y2 a - y2 c) with (- cy) by (unfold cy; ring).
    replace (x2 b - x2 c) with (bx - cx) by (unfold bx, cx; ring). replace (y2 b - y2 c) with (by' - cy) by (unfold by', cy; ring).
    rewrite AR in *. clearbody bx by' cx cy. field. auto. }
  exists r, (V2 (x2 a + ux) (y2 a + uy)).
  split. { unfold circumcircle_radius. cbv zeta. rewrite triangle_area_is. replace (Reqb _ 0) with false by (symmetry; apply Reqb_false; lra). f_equal. unfold r. field. lra. }
  split; auto. split; [|split]; apply d_of_sq; try lra; rewrite RR; cbn [x2 y2].
  - ring.
  - replace (x2 a + ux - x2 b) with (ux - bx) by (unfold bx; ring). replace (y2 a + uy - y2 b) with (uy - by') by (unfold by'; ring). unfold ux, uy. rewrite AR in *. clearbody bx by' cx cy. field. auto.
  - replace (x2 a + ux - x2 c) with (ux - cx) by (unfold cx; ring). replace (y2 a + uy - y2 c) with (uy - cy) by (unfold cy; ring). unfold ux, uy. rewrite AR in *. clearbody bx by' cx cy. field. auto.
Qed.
Lemma circum_flat a b c : area2 a b c = 0 -> circumcircle_radius a b c = Err ZeroDivisionError.
Proof. intros H. unfold circumcircle_radius. cbv zeta. rewrite triangle_area_is, H, Rabs_R0. replace (Reqb _ 0) with true by (symmetry; apply Reqb_spec; lra). reflexivity. Qed.
Lemma heron a b c : let x := point_distance2 a b in let y := point_distance2 a c in let z := point_distance2 b c in
  4 * (area2 a b c * area2 a b c) = (x + y + z) * (y + z - x) * (x + z - y) * (x + y - z).
Proof.
  cbv zeta. set (x := point_distance2 a b). set (y := point_distance2 a c). set (z := point_distance2 b c).
  replace ((x + y + z) * (y + z - x) * (x + z - y) * (x + y - z)) with (2 * (x * x) * (y * y) + 2 * (y * y) * (z * z) + 2 * (z * z) * (x * x) - (x * x) * (x * x) - (y * y) * (y * y) - (z * z) * (z * z)) by ring.
  unfold x, y, z. rewrite !d_sq. unfold area2. ring.
Qed.
Lemma d_tri a b c : point_distance2 a c <= point_distance2 a b + point_distance2 b c.
Proof. apply dist2_triangle. Qed.
Lemma d_sym a b : point_distance2 a b = point_distance2 b a.
Proof. apply dist2_sym. Qed.
Lemma half_perims a b c : let x := point_distance2 a b in let y := point_distance2 a c in let z := point_distance2 b c in 0 <= y + z - x /\ 0 <= x + z - y /\ 0 <= x + y - z.
Proof.
  cbv zeta. pose proof (d_tri a c b) as A. pose proof (d_tri a b c) as B. pose proof (d_tri b a c) as C. rewrite (d_sym c b) in A. rewrite (d_sym b a) in C. lra.
Qed.
Lemma strict_perims a b c : area2 a b c <> 0 -> let x := point_distance2 a b in let y := point_distance2 a c in let z := point_distance2 b c in 0 < y + z - x /\ 0 < x + z - y /\ 0 < x + y - z.
Proof.
  intros N. pose proof (half_perims a b c) as H. pose proof (heron a b c) as K. cbv zeta in *. destruct (area_sides a b c N) as (A & B & C).
  set (x := point_distance2 a b) in *. set (y := point_distance2 a c) in *. set (z := point_distance2 b c) in *. clearbody x y z.
  assert (Q : 0 < area2 a b c * area2 a b c) by nra. destruct H as (h1 & h2 & h3).
  repeat split; match goal with |- 0 < ?d => destruct (Rle_lt_or_eq_dec 0 d) as [L | L]; auto end; exfalso; rewrite <- L in K; lra.
Qed.
Lemma aspect_ok a b c : area2 a b c <> 0 -> exists R r, circumcircle_radius a b c = Ok R /\ incircle_radius a b c = Ok r /\ 0 < r /\ aspect_ratio a b c = R / (2 * r).
Proof.
  intros N. destruct (circum_ok a b c N) as (R1 & _ & E & P & _). destruct (incircle_ok a b c N) as (r & _ & _ & _ & _ & F & Q & _).
  exists R1, r. do 3 (split; [auto|]). unfold circumcircle_radius in E. unfold incircle_radius in F. cbv zeta in E, F.
  destruct (Reqb _ 0) in E; [discriminate|]. destruct (Reqb _ 0) in F; [discriminate|]. apply Ok_inj in E. apply Ok_inj in F. subst R1 r.
  rewrite triangle_area_is. pose proof (strict_perims a b c N) as H. pose proof (heron a b c) as K. destruct (area_sides a b c N) as (A & B & C). cbv zeta in *.
  unfold aspect_ratio. cbv zeta. set (x := point_distance2 a b) in *. set (y := point_distance2 a c) in *. set (z := point_distance2 b c) in *. clearbody x y z.
  pose proof (Rabs_pos_lt _ N) as M. assert (SA : Rabs (area2 a b c) * Rabs (area2 a b c) = area2 a b c * area2 a b c) by (rewrite <- Rabs_mult; apply Rabs_right; nra).
  set (w := Rabs (area2 a b c)) in *. clearbody w. rewrite <- SA in K. destruct H as (h1 & h2 & h3).
  replace (Reqb (1 / 2 * (x + y + z) - x) 0) with false by (symmetry; apply Reqb_false; lra). replace (Reqb (1 / 2 * (x + y + z) - y) 0) with false by (symmetry; apply Reqb_false; lra).
  replace (Reqb (1 / 2 * (x + y + z) - z) 0) with false by (symmetry; apply Reqb_false; lra). cbn [orb].
  replace (1 / 2 * (x + y + z) - x) with ((y + z - x) / 2) by field. replace (1 / 2 * (x + y + z) - y) with ((x + z - y) / 2) by field. replace (1 / 2 * (x + y + z) - z) with ((x + y - z) / 2) by field.
  assert (W : x * y * z * (x + y + z) / (4 * (w * w)) = x * y * z / (y + z - x) / (x + z - y) / (x + y - z)) by (rewrite K; field; repeat split; lra).
  transitivity (x * y * z / (y + z - x) / (x + z - y) / (x + y - z)); [field; repeat split; lra|]. rewrite <- W. field. split; lra.
Qed.
Lemma aspect_flat a b c : area2 a b c = 0 -> aspect_ratio a b c = 1000000.
Proof.
  intros N. pose proof (heron a b c) as K. pose proof (half_perims a b c) as H. rewrite N in K. cbv zeta in *. unfold aspect_ratio. cbv zeta.
  pose proof (d_pos a b). pose proof (d_pos a c). pose proof (d_pos b c).
  set (x := point_distance2 a b) in *. set (y := point_distance2 a c) in *. set (z := point_distance2 b c) in *. clearbody x y z.
  destruct (Reqb (1 / 2 * (x + y + z) - x) 0) eqn:E1; auto. destruct (Reqb (1 / 2 * (x + y + z) - y) 0) eqn:E2; auto. destruct (Reqb (1 / 2 * (x + y + z) - z) 0) eqn:E3; auto. exfalso.
  apply Reqb_false in E1, E2, E3. assert (0 < y + z - x) by lra. assert (0 < x + z - y) by lra. assert (0 < x + y - z) by lra. assert (0 < x + y + z) by lra.
  assert (0 < (x + y + z) * (y + z - x) * (x + z - y) * (x + y - z)) by (repeat apply Rmult_lt_0_compat; auto). lra.
Qed.
Lemma amgm u v w : 0 < u -> 0 < v -> 0 < w -> 8 * (u * v * w) <= (u + v) * (v + w) * (w + u).
Proof. intros. assert (0 <= u * ((v - w) * (v - w)) /\ 0 <= v * ((w - u) * (w - u)) /\ 0 <= w * ((u - v) * (u - v))) as (A & B & C); [|lra]. repeat split; apply Rmult_le_pos; try lra; apply Rle_0_sqr. Qed.
Lemma aspect_form a b c : area2 a b c <> 0 -> exists u v w, 0 < u /\ 0 < v /\ 0 < w /\ point_distance2 a b = v + w /\ point_distance2 a c = w + u /\ point_distance2 b c = u + v /\ aspect_ratio a b c = (u + v) * (v + w) * (w + u) / (8 * (u * v * w)).
Proof.
  intros N. pose proof (strict_perims a b c N) as H. cbv zeta in H. unfold aspect_ratio. cbv zeta. set (x := point_distance2 a b) in *. set (y := point_distance2 a c) in *. set (z := point_distance2 b c) in *. clearbody x y z.
  destruct H as (h1 & h2 & h3). exists ((y + z - x) / 2), ((x + z - y) / 2), ((x + y - z) / 2). do 3 (split; [lra|]). do 3 (split; [field|]).
  replace (Reqb (1 / 2 * (x + y + z) - x) 0) with false by (symmetry; apply Reqb_false; lra). replace (Reqb (1 / 2 * (x + y + z) - y) 0) with false by (symmetry; apply Reqb_false; lra).
  replace (Reqb (1 / 2 * (x + y + z) - z) 0) with false by (symmetry; apply Reqb_false; lra). cbn [orb].
  replace (1 / 2 * (x + y + z) - x) with ((y + z - x) / 2) by field. replace (1 / 2 * (x + y + z) - y) with ((x + z - y) / 2) by field. replace (1 / 2 * (x + y + z) - z) with ((x + y - z) / 2) by field. field. repeat split; lra.
Qed.
Lemma aspect_ge_1 a b c : 1 <= aspect_ratio a b c.
Proof.
  destruct (Req_dec (area2 a b c) 0) as [N | N]; [rewrite aspect_flat by auto; lra|]. destruct (aspect_form a b c N) as (u & v & w & U & V & W & _ & _ & _ & E). rewrite E.
  assert (P : 0 < 8 * (u * v * w)) by (apply Rmult_lt_0_compat; [lra|]; apply Rmult_lt_0_compat; [apply Rmult_lt_0_compat|]; auto).
  pose proof (amgm u v w U V W). apply Rmult_le_reg_r with (8 * (u * v * w)); auto. set (q := 8 * (u * v * w)) in *. replace (_ / q * q) with ((u + v) * (v + w) * (w + u)) by (field; lra). lra.
Qed.
Lemma aspect_1 a b c : aspect_ratio a b c = 1 <-> area2 a b c <> 0 /\ point_distance2 a b = point_distance2 a c /\ point_distance2 a b = point_distance2 b c.
Proof.
  split.
  - intros H. destruct (Req_dec (area2 a b c) 0) as [N | N]; [rewrite aspect_flat in H by auto; lra|]. split; auto.
    destruct (aspect_form a b c N) as (u & v & w & U & V & W & A & B & C & E). rewrite E in H.
    assert (P : 0 < 8 * (u * v * w)) by (apply Rmult_lt_0_compat; [lra|]; apply Rmult_lt_0_compat; [apply Rmult_lt_0_compat|]; auto).
    assert (K : (u + v) * (v + w) * (w + u) = 8 * (u * v * w)). { apply Rmult_eq_reg_r with (/ (8 * (u * v * w))); [|apply Rinv_neq_0_compat; lra]. rewrite Rinv_r by lra. exact H. }
    assert (G : forall q d, 0 < q -> 0 <= q * (d * d)) by (intros; apply Rmult_le_pos; [lra|apply Rle_0_sqr]).
    pose proof (G u (v - w) U). pose proof (G v (w - u) V). pose proof (G w (u - v) W).
    assert (Z1 : u * ((v - w) * (v - w)) = 0) by lra. assert (Z2 : v * ((w - u) * (w - u)) = 0) by lra.
    assert (v - w = 0). { apply Rmult_integral in Z1 as [?|Z1]; [lra|]. apply Rmult_integral in Z1. tauto. }
    assert (w - u = 0). { apply Rmult_integral in Z2 as [?|Z2]; [lra|]. apply Rmult_integral in Z2. tauto. }
    rewrite A, B, C. lra.
  - intros (N & A & B). destruct (aspect_form a b c N) as (u & v & w & U & V & W & A1 & B1 & C1 & E). rewrite E.
    assert (v = u) by lra. assert (w = u) by lra. subst v w. field. lra.
Qed.
