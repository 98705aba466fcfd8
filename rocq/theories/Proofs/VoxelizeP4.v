(** Filled pixels are near the triangle; one interface triangle. *)
From Coq Require Import Lra Lia Psatz Classical.
From Verif.Model Require Import RBase Vec BBox Geometry FloodFill Sat Voxelize.
From Verif.Spec Require Import GridSpec SatSpec.
From Verif.Proofs Require Import VecP GeometryP FloodFillP OuterP BBoxP SatP SatP2 SatP3 SatP4 VoxelizeP VoxelizeP2 VoxelizeP3.
Open Scope R_scope.

(** ** A filled pixel, enlarged by e on each side, meets the triangle *)
Lemma triangle_segment a b c p q r : in_triangle2 p a b c -> in_triangle2 q a b c -> in_segment2 r p q -> in_triangle2 r a b c.
Proof.
  intros (u1 & v1 & w1 & A1 & A2 & A3 & A4 & A5 & A6) (u2 & v2 & w2 & B1 & B2 & B3 & B4 & B5 & B6) (t & T & Ex & Ey).
  exists ((1 - t) * u1 + t * u2), ((1 - t) * v1 + t * v2), ((1 - t) * w1 + t * w2).
  split; [nra|]. split; [nra|]. split; [nra|]. split.
  - replace ((1 - t) * u1 + t * u2 + ((1 - t) * v1 + t * v2) + ((1 - t) * w1 + t * w2)) with ((1 - t) * (u1 + v1 + w1) + t * (u2 + v2 + w2)) by ring. rewrite A4, B4. ring.
  - rewrite Ex, Ey, A5, A6, B5, B6. split; ring.
Qed.
Definition near (v e : R) (a b c : vec2) (d : Z * Z) : Prop := exists r, in_triangle2 r a b c /\ in_square r (pcenter v d) (v + 2 * e).
Lemma near_spec v e r i j : in_square r (pcenter v (i, j)) (v + 2 * e) <-> IZR i * v - e <= x2 r <= (IZR i + 1) * v + e /\ IZR j * v - e <= y2 r <= (IZR j + 1) * v + e.
Proof.
  unfold in_square, pcenter; cbn. split.
  - intros [H1 H2]. apply Rabs_le_inv in H1. apply Rabs_le_inv in H2. lra.
  - intros [H1 H2]. split; apply Rabs_le; lra.
Qed.
(** the enlarged pixels of a row that meet the triangle are consecutive *)
Lemma near_row v e a b c i1 i i2 j : 0 < v -> 0 <= e -> (i1 <= i <= i2)%Z -> near v e a b c (i1, j) -> near v e a b c (i2, j) -> near v e a b c (i, j).
Proof.
  intros Hv He [L1 L2] (p & Tp & Sp) (q & Tq & Sq). apply near_spec in Sp. apply near_spec in Sq.
  apply IZR_le in L1. apply IZR_le in L2.
  destruct (Rle_dec (IZR i * v - e) (x2 p)) as [Hp|Hp].
  { exists p. split; [exact Tp|]. apply near_spec. nra. }
  destruct (Rle_dec (x2 q) ((IZR i + 1) * v + e)) as [Hq|Hq].
  { exists q. split; [exact Tq|]. apply near_spec. nra. }
  destruct (interval_meet (x2 p) (x2 q) (IZR i * v - e) ((IZR i + 1) * v + e)) as (t & T & Ht); [lra| | |].
  { apply Rle_trans with (x2 p); [apply Rmin_l|lra]. }
  { apply Rle_trans with (x2 q); [lra|apply Rmax_r]. }
  exists (V2 (x2 p + t * (x2 q - x2 p)) (y2 p + t * (y2 q - y2 p))). split.
  - eapply triangle_segment; [exact Tp|exact Tq|]. exists t. auto.
  - apply near_spec. cbn. split; [exact Ht|]. nra.
Qed.
Lemma path_h (P : Z * Z -> Prop) x x' y : (x <= x')%Z -> (forall t, (x <= t <= x')%Z -> P (t, y)) -> path adj2 P (x, y) (x', y).
Proof.
  intros Hx H. pose proof (path_line adj2 P (fun t => (x + t, y)%Z) (x' - x) ltac:(lia)) as L. cbv beta in L.
  replace (x + 0)%Z with x in L by lia. replace (x + (x' - x))%Z with x' in L by lia. apply L.
  - intros t Ht. unfold adj2. cbn [fst snd]. lia.
  - intros t Ht. apply H. lia.
Qed.
Lemma path_v (P : Z * Z -> Prop) x y y' : (y <= y')%Z -> (forall t, (y <= t <= y')%Z -> P (x, t)) -> path adj2 P (x, y) (x, y').
Proof.
  intros Hx H. pose proof (path_line adj2 P (fun t => (x, y + t)%Z) (y' - y) ltac:(lia)) as L. cbv beta in L.
  replace (y + 0)%Z with y in L by lia. replace (y + (y' - y))%Z with y' in L by lia. apply L.
  - intros t Ht. unfold adj2. cbn [fst snd]. lia.
  - intros t Ht. apply H. lia.
Qed.
Lemma filled_near v e a b c l i0 i1 j0 j1 d : 0 < v -> 0 <= e -> hull l i0 i1 j0 j1 ->
  (forall x, In x l -> near v e a b c x) -> Filled l i0 i1 j0 j1 d -> near v e a b c d.
Proof.
  intros Hv He HH Hn (Di & Dj & [H|H]); [auto|]. destruct d as [i j]. cbn [fst snd] in *. apply NNPP. intros Hd. apply H. clear H.
  set (P := fun e => (i0 - 1 <= fst e <= i1 + 1)%Z /\ (j0 - 1 <= snd e <= j1 + 1)%Z /\ ~ In e l).
  assert (Out : forall x y, (x < i0 \/ i1 < x \/ y < j0 \/ j1 < y)%Z -> ~ In (x, y) l).
  { intros x y Hxy Hi. pose proof (hull_in _ _ _ _ _ HH (x, y) Hi) as B. cbn in B. lia. }
  destruct (classic (exists x, (x <= i)%Z /\ near v e a b c (x, j))) as [(x & Hx & Nx)|Left].
  - assert (Right : forall y, (i <= y)%Z -> ~ In (y, j) l).
    { intros y Hy Hi. apply Hd. apply (near_row v e a b c x i y j); auto. }
    apply path_trans with (i1 + 1, j0 - 1)%Z; [|apply path_trans with (i1 + 1, j)%Z].
    + apply path_h; [lia|]. intros t Ht. unfold P. cbn [fst snd]. split; [lia|]. split; [lia|]. apply Out. lia.
    + apply path_v; [lia|]. intros t Ht. unfold P. cbn [fst snd]. split; [lia|]. split; [lia|]. apply Out. lia.
    + apply path_sym; [exact adj2_sym|]. apply path_h; [lia|]. intros t Ht. unfold P. cbn [fst snd]. split; [lia|]. split; [lia|]. apply Right. lia.
  - assert (LeftN : forall y, (y <= i)%Z -> ~ In (y, j) l).
    { intros y Hy Hi. apply Left. exists y. auto. }
    apply path_trans with (i0 - 1, j)%Z.
    + apply path_v; [lia|]. intros t Ht. unfold P. cbn [fst snd]. split; [lia|]. split; [lia|]. apply Out. lia.
    + apply path_h; [lia|]. intros t Ht. unfold P. cbn [fst snd]. split; [lia|]. split; [lia|]. apply LeftN. lia.
Qed.
Lemma seg_triangle a b c r : in_segment2 r a b \/ in_segment2 r b c \/ in_segment2 r c a -> in_triangle2 r a b c.
Proof. apply edges_in_triangle. Qed.
Lemma from_seg_near v a b c d : nano_even v -> seg_ok v a b -> seg_ok v b c -> seg_ok v c a ->
  from_seg v a b d \/ from_seg v b c d \/ from_seg v c a d -> near v (v / 2) a b c d.
Proof.
  intros Hn O1 O2 O3 H. pose proof (nano_even_pos v Hn) as Hv.
  assert (G : forall p q, seg_ok v p q -> from_seg v p q d -> exists r, in_segment2 r p q /\ in_square r (pcenter v d) (v + 2 * (v / 2))).
  { intros p q O (_ & _ & _ & _ & F). apply F; [lra|]. unfold seg_ok in O. replace (/ 2 / 10 ^ 9) with (/ 2 * / 10 ^ 9) by reflexivity. lra. }
  destruct H as [H|[H|H]]; (apply G in H; [|assumption]); destruct H as (r & Hr & Hs); exists r; (split; [apply seg_triangle; auto|exact Hs]).
Qed.

(** ** Rounding a number near an integer *)
Lemma rint_near N x : (0 <= N)%Z -> Rabs (x - IZR N) <= / 2 / 10 ^ 9 -> rint 9 x = N.
Proof.
  intros HN H. assert (T9 : IZR (10 ^ 9) = 10 ^ 9) by exact (eq_sym (pow_IZR 10 9)). unfold rint, round_digits. pose proof pow9_pos as P. set (X := x * 10 ^ 9). set (M := (N * 10 ^ 9)%Z).
  assert (E : IZR M = IZR N * 10 ^ 9). { unfold M. rewrite mult_IZR, T9. reflexivity. }
  assert (B : IZR M - 1 / 2 <= X <= IZR M + 1 / 2).
  { apply Rabs_le_inv in H. rewrite E. unfold X. assert (K : (- (/ 2 / 10 ^ 9)) * 10 ^ 9 <= (x - IZR N) * 10 ^ 9 <= / 2 / 10 ^ 9 * 10 ^ 9) by (split; apply Rmult_le_compat_r; lra).
    replace (/ 2 / 10 ^ 9 * 10 ^ 9) with (1 / 2) in K by field. replace (- (/ 2 / 10 ^ 9) * 10 ^ 9) with (- (1 / 2)) in K by field. lra. }
  clearbody X. clear H.
  assert (HM : (M = 0 \/ 10 ^ 9 <= M)%Z) by (unfold M; nia).
  assert (C : (c_round X = M \/ c_round X = M + 1 \/ (M = 0 /\ c_round X = -1))%Z).
  { pose proof (round_bounds X) as R. unfold c_round in *. destruct (Rltb X 0) eqn:S; rb.
    - destruct HM as [HM|HM]; [|exfalso; apply IZR_le in HM; lra]. rewrite HM in *.
      pose proof (floor_spec (- X + 1 / 2)) as [F1 F2]. assert (G1 : IZR (rfloor (- X + 1 / 2)) < 2) by lra. assert (G2 : IZR (-1) < IZR (rfloor (- X + 1 / 2))) by lra.
      apply (lt_IZR _ 2) in G1. apply lt_IZR in G2. lia.
    - pose proof (floor_spec (X + 1 / 2)) as [F1 F2]. assert (G1 : IZR (rfloor (X + 1 / 2)) <= IZR (M + 1)) by (rewrite plus_IZR; lra). assert (G2 : IZR (M - 1) < IZR (rfloor (X + 1 / 2))) by (rewrite minus_IZR; lra).
      apply le_IZR in G1. apply lt_IZR in G2. lia. }
  assert (D : forall z, (z = M \/ z = M + 1 \/ (M = 0 /\ z = -1))%Z -> c_trunc (IZR z / 10 ^ 9) = N); [|auto].
  assert (P1 : 1 < 10 ^ 9) by (rewrite <- T9; apply IZR_lt; lia).
  intros z [->|[->|[M0 ->]]].
  - rewrite E. replace (IZR N * 10 ^ 9 / 10 ^ 9) with (IZR N) by (field; lra). apply trunc_IZR.
  - rewrite plus_IZR, E. replace ((IZR N * 10 ^ 9 + 1) / 10 ^ 9) with (IZR N + / 10 ^ 9) by (field; lra).
    assert (Q : 0 < / 10 ^ 9 < 1). { split; [now apply Rinv_0_lt_compat|]. rewrite <- Rinv_1. apply Rinv_lt_contravar; lra. }
    assert (HN' : 0 <= IZR N) by (now apply (IZR_le 0)).
    pose proof (trunc_nonneg (IZR N + / 10 ^ 9) ltac:(lra)) as [T1 T2].
    assert (G1 : IZR (c_trunc (IZR N + / 10 ^ 9)) < IZR (N + 1)) by (rewrite plus_IZR; lra). assert (G2 : IZR (N - 1) < IZR (c_trunc (IZR N + / 10 ^ 9))) by (rewrite minus_IZR; lra).
    apply lt_IZR in G1. apply lt_IZR in G2. lia.
  - assert (N0 : N = 0%Z) by (unfold M in M0; nia). subst N.
    assert (Q : 0 < / 10 ^ 9 < 1). { split; [now apply Rinv_0_lt_compat|]. rewrite <- Rinv_1. apply Rinv_lt_contravar; lra. }
    replace (IZR (-1) / 10 ^ 9) with (- / 10 ^ 9) by (field; lra).
    pose proof (trunc_neg (- / 10 ^ 9) ltac:(lra)) as [T1 T2].
    assert (G1 : IZR (c_trunc (- / 10 ^ 9)) < IZR 1) by lra. assert (G2 : IZR (-1) < IZR (c_trunc (- / 10 ^ 9))) by lra.
    apply lt_IZR in G1. apply lt_IZR in G2. lia.
Qed.
