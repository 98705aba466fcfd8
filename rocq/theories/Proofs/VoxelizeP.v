(** Plane geometry for the voxelization of triangles: leaving a triangle crosses an edge. *)
From Coq Require Import Lra Lia Psatz.
From Verif.Model Require Import RBase Vec BBox Geometry Sat.
From Verif.Spec Require Import SatSpec.
From Verif.Proofs Require Import VecP GeometryP FloodFillP SatP SatP2 SatP3 SatP4.
Open Scope R_scope.

Definition on_edges (p a b c : vec2) : Prop := in_segment2 p a b \/ in_segment2 p b c \/ in_segment2 p c a.

Lemma exit_one p q : 0 <= p -> exists t, 0 <= t <= 1 /\ (forall s, 0 <= s <= t -> 0 <= p + s * (q - p)) /\ (q < 0 -> p + t * (q - p) = 0).
Proof.
  intros Hp. destruct (Rlt_dec q 0) as [Hq|Hq].
  - assert (D : 0 < p - q) by lra. exists (p / (p - q)). assert (E : p / (p - q) * (p - q) = p) by (field; lra).
    split; [|split].
    + split; [apply Rmult_le_pos; [lra|left; apply Rinv_0_lt_compat; lra]|]. apply Rmult_le_reg_r with (p - q); lra.
    + intros s Hs. assert (s * (p - q) <= p); [|lra]. rewrite <- E at 2. apply Rmult_le_compat_r; lra.
    + intros _. lra.
  - exists 1. split; [lra|]. split; [|intros; lra]. intros s Hs. nra.
Qed.
Lemma exit_three p1 p2 p3 q1 q2 q3 : 0 <= p1 -> 0 <= p2 -> 0 <= p3 -> q1 < 0 \/ q2 < 0 \/ q3 < 0 ->
  exists t, 0 <= t <= 1 /\ 0 <= p1 + t * (q1 - p1) /\ 0 <= p2 + t * (q2 - p2) /\ 0 <= p3 + t * (q3 - p3)
    /\ (p1 + t * (q1 - p1) = 0 \/ p2 + t * (q2 - p2) = 0 \/ p3 + t * (q3 - p3) = 0).
Proof.
  intros H1 H2 H3 Q.
  assert (K : forall p q, 0 <= p -> exists t, 0 <= t <= 1 /\ (forall s, 0 <= s <= t -> 0 <= p + s * (q - p)) /\ (p + t * (q - p) = 0 \/ (t = 1 /\ 0 <= q))).
  { intros p q Hp. destruct (exit_one p q Hp) as (t & Ht & A & B). destruct (Rlt_dec q 0) as [L|L]; [exists t; auto|].
    exists 1. split; [lra|]. split; [intros s Hs; nra|]. right. lra. }
  destruct (K p1 q1 H1) as (t1 & T1 & A1 & B1). destruct (K p2 q2 H2) as (t2 & T2 & A2 & B2). destruct (K p3 q3 H3) as (t3 & T3 & A3 & B3).
  set (t := min_of3 t1 t2 t3). pose proof (min_of3_le t1 t2 t3) as (L1 & L2 & L3). fold t in L1, L2, L3.
  assert (T : 0 <= t). { unfold t. destruct (min_of3_case t1 t2 t3) as [E|[E|E]]; rewrite E; lra. }
  exists t. split; [lra|]. split; [apply A1; lra|]. split; [apply A2; lra|]. split; [apply A3; lra|].
  unfold t in *. destruct (min_of3_case t1 t2 t3) as [E|[E|E]]; rewrite E in *.
  - destruct B1 as [B1|[B1 _]]; [auto|]. subst t1. assert (t2 = 1) by lra. assert (t3 = 1) by lra. subst.
    destruct B2 as [B2|[_ B2]]; [auto|]. destruct B3 as [B3|[_ B3]]; [auto|]. assert (Hq : q1 < 0) by lra. specialize (A1 1 ltac:(lra)). lra.
  - destruct B2 as [B2|[B2 _]]; [auto|]. subst t2. assert (t1 = 1) by lra. assert (t3 = 1) by lra. subst.
    destruct B1 as [B1|[_ B1]]; [auto|]. destruct B3 as [B3|[_ B3]]; [auto|]. assert (Hq : q2 < 0) by lra. specialize (A2 1 ltac:(lra)). lra.
  - destruct B3 as [B3|[B3 _]]; [auto|]. subst t3. assert (t1 = 1) by lra. assert (t2 = 1) by lra. subst.
    destruct B1 as [B1|[_ B1]]; [auto|]. destruct B2 as [B2|[_ B2]]; [auto|]. assert (Hq : q3 < 0) by lra. specialize (A3 1 ltac:(lra)). lra.
Qed.

(** barycentric coordinates *)
Definition det2 (a b c : vec2) : R := (x2 b - x2 a) * (y2 c - y2 a) - (y2 b - y2 a) * (x2 c - x2 a).
Lemma bary a b c p : det2 a b c <> 0 ->
  exists r s t, r + s + t = 1 /\ x2 p = r * x2 a + s * x2 b + t * x2 c /\ y2 p = r * y2 a + s * y2 b + t * y2 c.
Proof.
  intros D. exists (det2 p b c / det2 a b c), (det2 a p c / det2 a b c), (det2 a b p / det2 a b c). unfold det2 in *. repeat split; field; exact D.
Qed.
Lemma collinear_on_edges a b c p : x2 a <> x2 b \/ y2 a <> y2 b -> det2 a b c = 0 -> in_triangle2 p a b c -> on_edges p a b c.
Proof.
  intros N D (r & s & t & Hr & Hs & Ht & E & Ex & Ey).
  destruct (on_line a b (x2 c) (y2 c) N) as (g & Gx & Gy). { rewrite line_eq_alt. unfold det2 in D. lra. }
  set (w := s + t * g).
  assert (Px : x2 p = x2 a + w * (x2 b - x2 a)). { unfold w. rewrite Ex, Gx. replace r with (1 - s - t) by lra. ring. }
  assert (Py : y2 p = y2 a + w * (y2 b - y2 a)). { unfold w. rewrite Ey, Gy. replace r with (1 - s - t) by lra. ring. }
  destruct (Rle_dec 0 w) as [W0|W0]; [destruct (Rle_dec w 1) as [W1|W1]|].
  - left. exists w. auto.
  - right; left. assert (G : 1 < g) by (unfold w in *; nra). assert (Wg : w <= g) by (unfold w; nra).
    exists ((w - 1) / (g - 1)). split; [split|split].
    + apply Rmult_le_pos; [lra|left; apply Rinv_0_lt_compat; lra].
    + apply Rmult_le_reg_r with (g - 1); [lra|]. replace ((w - 1) / (g - 1) * (g - 1)) with (w - 1) by (field; lra). lra.
    + rewrite Px, Gx. field. lra.
    + rewrite Py, Gy. field. lra.
  - right; right. assert (G : g < 0) by (unfold w in *; nra). assert (Wg : g <= w) by (unfold w; nra).
    exists ((g - w) / g). assert (Ig : / g < 0) by (now apply Rinv_lt_0_compat). split; [split|split].
    + unfold Rdiv. nra.
    + assert (X : (g - w) / g = 1 - w * / g) by (field; lra). rewrite X. nra.
    + rewrite Px, Gx. field. lra.
    + rewrite Py, Gy. field. lra.
Qed.
Lemma crossing a b c p q : x2 a <> x2 b \/ y2 a <> y2 b -> in_triangle2 p a b c -> ~ in_triangle2 q a b c ->
  exists r, in_segment2 r p q /\ on_edges r a b c.
Proof.
  intros N HP HQ. destruct (Req_dec (det2 a b c) 0) as [D|D].
  - exists p. split; [|now apply collinear_on_edges]. exists 0. split; [lra|]. split; ring.
  - destruct HP as (r1 & s1 & t1 & Hr & Hs & Ht & E & Ex & Ey). destruct (bary a b c q D) as (r2 & s2 & t2 & E2 & Fx & Fy).
    destruct (exit_three r1 s1 t1 r2 s2 t2 Hr Hs Ht) as (t & T & A1 & A2 & A3 & Z0).
    { destruct (Rlt_dec r2 0); [auto|]. destruct (Rlt_dec s2 0); [auto|]. destruct (Rlt_dec t2 0); [auto|]. exfalso. apply HQ.
      exists r2, s2, t2. repeat split; lra. }
    set (u := r1 + t * (r2 - r1)) in *. set (w := s1 + t * (s2 - s1)) in *. set (z := t1 + t * (t2 - t1)) in *.
    assert (S : u + w + z = 1). { unfold u, w, z. replace r1 with (1 - s1 - t1) by lra. replace r2 with (1 - s2 - t2) by lra. ring. }
    exists (V2 (x2 p + t * (x2 q - x2 p)) (y2 p + t * (y2 q - y2 p))). split; [exists t; cbn; auto|].
    assert (Rx : x2 p + t * (x2 q - x2 p) = u * x2 a + w * x2 b + z * x2 c) by (rewrite Ex, Fx; unfold u, w, z; ring).
    assert (Ry : y2 p + t * (y2 q - y2 p) = u * y2 a + w * y2 b + z * y2 c) by (rewrite Ey, Fy; unfold u, w, z; ring).
    clearbody u w z. destruct Z0 as [Z0|[Z0|Z0]].
    + right; left. exists z. cbn. rewrite Rx, Ry. split; [lra|]. split; replace w with (1 - z) by lra; rewrite Z0; ring.
    + right; right. exists u. cbn. rewrite Rx, Ry. split; [lra|]. split; replace z with (1 - u) by lra; rewrite Z0; ring.
    + left. exists w. cbn. rewrite Rx, Ry. split; [lra|]. split; replace u with (1 - w) by lra; rewrite Z0; ring.
Qed.
Lemma edges_in_triangle p a b c : on_edges p a b c -> in_triangle2 p a b c.
Proof.
  intros [(t & T & Ex & Ey)|[(t & T & Ex & Ey)|(t & T & Ex & Ey)]].
  - exists (1 - t), t, 0. rewrite Ex, Ey. repeat split; try lra; ring.
  - exists 0, (1 - t), t. rewrite Ex, Ey. repeat split; try lra; ring.
  - exists t, 0, (1 - t). rewrite Ex, Ey. repeat split; try lra; ring.
Qed.

(** ** Grids whose step is a whole even number of 1e-9 *)
Lemma nano_even_pos v : nano_even v -> 0 < v.
Proof. intros (m & Hm & ->). apply Rmult_lt_0_compat; [apply (IZR_lt 0); lia|apply Rinv_0_lt_compat, pow9_pos]. Qed.
Lemma nano_even_ge v : nano_even v -> 2 * / 10 ^ 9 <= v.
Proof. intros (m & Hm & ->). apply Rmult_le_compat_r; [left; apply Rinv_0_lt_compat, pow9_pos|]. apply IZR_le. lia. Qed.
Lemma grid_exact v k : nano_even v -> grid_center v k = (IZR k + 1 / 2) * v.
Proof.
  intros (m & Hm & ->). unfold grid_center. replace ((IZR k + 1 / 2) * (IZR (2 * m) / 10 ^ 9)) with (IZR ((2 * k + 1) * m) / 10 ^ 9).
  - apply round9_nano.
  - rewrite !mult_IZR, plus_IZR, mult_IZR. pose proof pow9_pos. field.
Qed.
