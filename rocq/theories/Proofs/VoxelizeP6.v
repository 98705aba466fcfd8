(** triangles_to_voxel_matrix: coverage, soundness, no access outside the matrix. *)
From Coq Require Import Lra Lia Psatz Classical.
From Verif.Model Require Import RBase Vec BBox Geometry FloodFill Sat Voxelize.
From Verif.Spec Require Import GridSpec SatSpec.
From Verif.Proofs Require Import VecP GeometryP FloodFillP OuterP BBoxP SatP SatP2 SatP3 SatP4 VoxelizeP VoxelizeP2 VoxelizeP3 VoxelizeP4 VoxelizeP5.
Open Scope R_scope.

Definition csub (c d : Z * Z * Z) : Z * Z * Z := (fst (fst c) - fst (fst d), snd (fst c) - snd (fst d), snd c - snd d)%Z.
(** what it means for a voxel to be marked because of a triangle *)
Definition marked_by (v : R) (a b c : vec3) (e : Z * Z * Z) : Prop :=
  (exists p, in_triangle3 p a b c /\ in_box3 p (voxel_center v e) (V3 v v v))
  \/ ((exists q, in_voxel v e q
        /\ min_of3 (x3 a) (x3 b) (x3 c) <= x3 q <= max_of3 (x3 a) (x3 b) (x3 c)
        /\ min_of3 (y3 a) (y3 b) (y3 c) <= y3 q <= max_of3 (y3 a) (y3 b) (y3 c)
        /\ min_of3 (z3 a) (z3 b) (z3 c) <= z3 q <= max_of3 (z3 a) (z3 b) (z3 c))
     /\ (exists q, in_voxel v e q /\ dot3 (cross3 (sub3 b a) (sub3 c a)) (sub3 q a) = 0)).

Lemma half_v2 v : nano_even v -> / 2 / 10 ^ 9 * (1 + v) <= v / 2.
Proof.
  intros H. pose proof (nano_even_ge v H) as G. pose proof (nano_even_pos v H) as Hv. pose proof pow9_pos as P. pose proof half_nano_pos as Q. pose proof pow9_half as E.
  assert (L : / 2 / 10 ^ 9 < 1 / 4).
  { unfold Rdiv at 1. apply Rmult_lt_reg_r with (10 ^ 9); [exact P|]. rewrite Rmult_assoc, Rinv_l by lra. assert (4 < 10 ^ 9) by (rewrite (pow_IZR 10 9); apply IZR_lt; reflexivity). lra. }
  assert (/ 2 / 10 ^ 9 * v < 1 / 4 * v) by (apply Rmult_lt_compat_r; lra). nra.
Qed.
Lemma in_voxel_box v e q : in_box3 q (voxel_center v e) (V3 (1 / 2 * v) (1 / 2 * v) (1 / 2 * v)) <-> in_voxel v e q.
Proof.
  destruct e as [[i j] k]. unfold in_box3, in_voxel, voxel_center; cbn [x3 y3 z3]. split.
  - intros (H1 & H2 & H3). apply Rabs_le_inv in H1, H2, H3. lra.
  - intros (H1 & H2 & H3). repeat split; apply Rabs_le; lra.
Qed.

Section Axis.
Variables (v : R) (k : vec3 -> R) (pr : vec3 -> vec2) (mk : Z -> Z -> Z -> Z * Z * Z) (a b c o : vec3) (ok ox oy nk nx ny : Z) (D off : Z * Z * Z).
Hypothesis Hn : nano_even v.
Hypothesis Hpr : pr = pr_yz \/ pr = pr_xz \/ pr = pr_xy.
Hypothesis Kconv : forall p a b c r s t, x3 p = r * x3 a + s * x3 b + t * x3 c -> y3 p = r * y3 a + s * y3 b + t * y3 c -> z3 p = r * z3 a + s * z3 b + t * z3 c -> k p = r * k a + s * k b + t * k c.
Hypothesis Hvox : forall n x y p, in_voxel v (mk n x y) p <-> IZR n * v <= k p <= (IZR n + 1) * v /\ touch v (x, y) (pr p).
Hypothesis Hbox : forall n x y p s, Rabs (k p - (IZR n + 1 / 2) * v) <= s -> in_square (pr p) (pcenter v (x, y)) (2 * s) -> in_box3 p (voxel_center v (mk n x y)) (V3 s s s).
Hypothesis Hsurj : forall e, exists n x y, e = mk n x y.
Hypothesis Hsub : forall n x y, mk (n - ok)%Z (x - ox)%Z (y - oy)%Z = csub (mk n x y) off.
Hypothesis Hl1 : forall p q, Rabs (x3 q - x3 p) + Rabs (y3 q - y3 p) + Rabs (z3 q - z3 p) = Rabs (k q - k p) + (Rabs (x2 (pr q) - x2 (pr p)) + Rabs (y2 (pr q) - y2 (pr p))).
Hypothesis Ho : k o = (IZR ok + 1 / 2) * v.
Hypothesis Hox : x2 (pr o) = (IZR ox + 1 / 2) * v.
Hypothesis Hoy : y2 (pr o) = (IZR oy + 1 / 2) * v.
Hypothesis HD : forall n i j, (0 <= n < nk)%Z -> (0 <= i < nx)%Z -> (0 <= j < ny)%Z -> in_size D (mk n i j).
Hypothesis Hk : inside v ok nk (k a).
Hypothesis Hx : forall w, w = a \/ w = b \/ w = c -> inside v ox nx (x2 (pr w)).
Hypothesis Hy : forall w, w = a \/ w = b \/ w = c -> inside v oy ny (y2 (pr w)).
Hypothesis G : at_interface k (a, b, c) v = true.
Hypothesis Oab : edge_ok v a b.
Hypothesis Obc : edge_ok v b c.
Hypothesis Oca : edge_ok v c a.

Lemma seg_of_edge p q : round9 (k p) = round9 (k q) -> edge_ok v p q -> seg_ok v (pr p) (pr q).
Proof.
  intros E O. unfold edge_ok in O. rewrite Hl1 in O. unfold seg_ok. pose proof (nano_even_pos v Hn) as Hv.
  assert (B : Rabs (k q - k p) <= / 10 ^ 9).
  { pose proof (round9_bounds (k p)) as B1. pose proof (round9_bounds (k q)) as B2. rewrite E in B1. apply Rabs_le_inv in B1, B2. rewrite pow9_half. apply Rabs_le. lra. }
  set (s := Rabs (x2 (pr q) - x2 (pr p)) + Rabs (y2 (pr q) - y2 (pr p))) in *. assert (L : / 10 ^ 9 * / v <= s) by lra.
  replace (/ 10 ^ 9) with (/ 10 ^ 9 * / v * v); [apply Rmult_le_compat_r; lra|]. rewrite Rmult_assoc, Rinv_l by lra. ring.
Qed.
Lemma axis_sets : exists W, sets D (fill_interface k pr mk (a, b, c) v o) W
  /\ (forall e p, in_triangle3 p a b c -> in_voxel v e p -> W (csub e off))
  /\ (forall e, W e -> exists e', e = csub e' off /\ marked_by v a b c e').
Proof.
  pose proof (nano_even_pos v Hn) as Hv.
  assert (Eq : round9 (k b) = round9 (k a) /\ round9 (k c) = round9 (k a)).
  { destruct (plane_index v k a b c ok nk Hn Hk G) as (_ & _ & _ & _ & E). exact E. }
  destruct Eq as [Eb Ec].
  assert (Sab : seg_ok v (pr a) (pr b)) by (apply seg_of_edge; [congruence|auto]).
  assert (Sbc : seg_ok v (pr b) (pr c)) by (apply seg_of_edge; [congruence|auto]).
  assert (Sca : seg_ok v (pr c) (pr a)) by (apply seg_of_edge; [congruence|auto]).
  destruct (interface_sets v k pr mk a b c o ok ox oy nk nx ny D Hn Hpr Ho Hox Hoy HD Hk Hx Hy G Sab Sbc Sca) as (K & F & BK & Fc & Fs & S).
  assert (Kp : forall p, in_triangle3 p a b c -> Rabs (k p - IZR K * v) <= / 2 / 10 ^ 9 * (1 + v)).
  { intros p (r & s & t & Hr & Hs & Ht & E & Ex & Ey & Ez). rewrite (Kconv p a b c r s t Ex Ey Ez).
    pose proof (convex_bounds r s t (k a) (k b) (k c) Hr Hs Ht E) as B. pose proof (round9_bounds (k a)) as Ba. pose proof (round9_bounds (k b)) as Bb. pose proof (round9_bounds (k c)) as Bc. rewrite Eb in Bb. rewrite Ec in Bc.
    apply Rabs_le_inv in Ba, Bb, Bc, BK. apply Rabs_le.
    destruct (min_of3_case (k a) (k b) (k c)) as [Q1|[Q1|Q1]], (max_of3_case (k a) (k b) (k c)) as [Q2|[Q2|Q2]]; rewrite Q1, Q2 in B; lra. }
  eexists. split; [exact S|]. split.
  - intros e p HT HV. destruct (Hsurj e) as (n & x & y & ->). apply Hvox in HV as [V1 V2]. exists (x, y), n. cbn [fst snd]. split; [|split].
    + apply (Fc (x, y) (pr p) V2). apply proj_triangle; auto.
    + pose proof (Kp p HT) as B. pose proof (half_v v Hn). apply Rabs_le_inv in B. assert (L1 : IZR n * v < (IZR K + 1) * v) by lra. assert (L2 : (IZR K - 2) * v < IZR n * v) by lra.
      apply Rmult_lt_reg_r in L1; [|exact Hv]. apply Rmult_lt_reg_r in L2; [|exact Hv]. rewrite <- plus_IZR in L1. rewrite <- minus_IZR in L2. apply lt_IZR in L1, L2. lia.
    + symmetry. apply Hsub.
  - intros e ([x y] & n & Fd & Hn' & ->). exists (mk n x y). cbn [fst snd]. split; [apply Hsub|]. left.
    apply Fs in Fd as (r & HT & Hr). destruct (lift_triangle pr a b c r Hpr HT) as (p & HT3 & <-). exists p. split; [exact HT3|]. apply Hbox.
    + pose proof (Kp p HT3) as B. pose proof (half_v2 v Hn). apply Rabs_le_inv in B. apply Rabs_le. destruct Hn' as [-> | ->]; rewrite ?minus_IZR; lra.
    + replace (2 * v) with (v + 2 * (v / 2)) by lra. exact Hr.
Qed.
End Axis.

Lemma triangle_sets v a b c ox oy oz D : nano_even v ->
  (forall w, w = a \/ w = b \/ w = c -> inside v ox (fst (fst D)) (x3 w) /\ inside v oy (snd (fst D)) (y3 w) /\ inside v oz (snd D) (z3 w)) ->
  (has_equal_points (a, b, c) = false -> edge_ok v a b /\ edge_ok v b c /\ edge_ok v c a) ->
  exists W, sets D (fun m => fill_triangle v (voxel_center v (ox, oy, oz)) m (a, b, c)) W
  /\ (has_equal_points (a, b, c) = false -> forall e p, in_triangle3 p a b c -> in_voxel v e p -> W (csub e (ox, oy, oz)))
  /\ (forall e, W e -> exists e', e = csub e' (ox, oy, oz) /\ has_equal_points (a, b, c) = false /\ marked_by v a b c e').
Proof.
  intros Hn HI HE. destruct D as [[nx ny] nz]. cbn [fst snd] in HI. pose proof (nano_even_pos v Hn) as Hv. unfold fill_triangle.
  destruct (has_equal_points (a, b, c)) eqn:HP.
  { exists (fun _ => False). split; [apply sets_none|]. split; [discriminate|]. intros e []. }
  destruct (HE eq_refl) as (Oab & Obc & Oca).
  assert (Wrap : forall f, (exists W, sets (nx, ny, nz) f W
     /\ (forall e p, in_triangle3 p a b c -> in_voxel v e p -> W (csub e (ox, oy, oz)))
     /\ (forall e, W e -> exists e', e = csub e' (ox, oy, oz) /\ marked_by v a b c e')) -> exists W, sets (nx, ny, nz) f W
     /\ (false = false -> forall e p, in_triangle3 p a b c -> in_voxel v e p -> W (csub e (ox, oy, oz)))
     /\ (forall e, W e -> exists e', e = csub e' (ox, oy, oz) /\ false = false /\ marked_by v a b c e')).
  { intros f (W & S1 & S2 & S3). exists W. split; [exact S1|]. split; [auto|]. intros e He. destruct (S3 e He) as (e' & E1 & E2). eauto. }
  destruct (at_interface x3 (a, b, c) v) eqn:Gx; [|destruct (at_interface y3 (a, b, c) v) eqn:Gy; [|destruct (at_interface z3 (a, b, c) v) eqn:Gz]].
  - apply Wrap. apply (axis_sets v x3 pr_yz (fun n i j => (n, i, j)) a b c _ ox oy oz nx ny nz); auto.
    + intros n x y p. unfold in_voxel, touch, pr_yz; cbn. tauto.
    + intros n x y p s H1 [H2 H3]. cbn in H2, H3. unfold in_box3; cbn. replace (2 * s / 2) with s in H2, H3 by field. auto.
    + intros [[i j] l]. now exists i, j, l.
    + intros p q. unfold pr_yz; cbn. ring.
    + intros n i j H1 H2 H3. unfold in_size, In3; cbn; auto.
    + now apply HI; left.
    + intros w Hw. now apply HI.
    + intros w Hw. now apply HI.
  - apply Wrap. apply (axis_sets v y3 pr_xz (fun n i j => (i, n, j)) a b c _ oy ox oz ny nx nz); auto.
    + intros n x y p. unfold in_voxel, touch, pr_xz; cbn. tauto.
    + intros n x y p s H1 [H2 H3]. cbn in H2, H3. unfold in_box3; cbn. replace (2 * s / 2) with s in H2, H3 by field. auto.
    + intros [[i j] l]. now exists j, i, l.
    + intros p q. unfold pr_xz; cbn. ring.
    + intros n i j H1 H2 H3. unfold in_size, In3; cbn; auto.
    + now apply HI; left.
    + intros w Hw. now apply HI.
    + intros w Hw. now apply HI.
  - apply Wrap. apply (axis_sets v z3 pr_xy (fun n i j => (i, j, n)) a b c _ oz ox oy nz nx ny); auto.
    + intros n x y p. unfold in_voxel, touch, pr_xy; cbn. tauto.
    + intros n x y p s H1 [H2 H3]. cbn in H2, H3. unfold in_box3; cbn. replace (2 * s / 2) with s in H2, H3 by field. auto.
    + intros [[i j] l]. now exists l, i, j.
    + intros p q. unfold pr_xy; cbn. ring.
    + intros n i j H1 H2 H3. unfold in_size, In3; cbn; auto.
    + now apply HI; left.
    + intros w Hw. now apply HI.
    + intros w Hw. now apply HI.
  - apply Wrap. eexists. split; [apply sat_sets; auto; cbn [fst snd]; apply HI; auto|]. split.
    + intros [[i j] l] p HT HV. exists i, j, l. split; [reflexivity|]. split.
      * destruct HV as (Vx & Vy & Vz). unfold voxel_center. rewrite <- (grid_exact v i Hn), <- (grid_exact v j Hn), <- (grid_exact v l Hn).
        destruct HT as (r & s & t & Hr & Hs & Ht & E & Ex & Ey & Ez).
        apply aabb_complete with p; auto; unfold triangle_min, triangle_max; cbn [x3 y3 z3]; rewrite ?Ex, ?Ey, ?Ez; apply convex_bounds; auto.
      * apply (sat_cubic a b c (voxel_center v (i, j, l)) (1 / 2 * v) p); [exact HT|]. now apply in_voxel_box.
    + intros e (i & j & l & -> & _ & S). exists (i, j, l). split; [reflexivity|]. right.
      apply sat_meaning in S; cbn [x3 y3 z3]; try lra. destruct S as [(q & Q1 & Q2) (q' & Q3 & Q4)]. split; [exists q|exists q']; rewrite <- in_voxel_box; auto.
Qed.

Lemma corners_in l a b c w : In (a, b, c) l -> w = a \/ w = b \/ w = c -> In w (corners l).
Proof. intros H Hw. unfold corners. apply in_flat_map. exists (a, b, c). split; [exact H|]. cbn. destruct Hw as [->|[->| ->]]; auto. Qed.
Lemma axis_min_max_ok k l : l <> [] -> exists mn mx, axis_min_max k l = Ok (mn, mx) /\ forall w, In w (corners l) -> mn <= k w <= mx.
Proof.
  intros Hl. unfold axis_min_max. destruct (corners l) as [|p q] eqn:E.
  - destruct l as [|[[a b] c] l]; [congruence|discriminate].
  - eexists _, _. split; [reflexivity|]. intros w Hw. split; [now apply lmin_in|now apply lmax_in].
Qed.
Lemma axis_inside v mn mx x : nano_even v -> mn <= x <= mx -> inside v (floordiv mn v - 1) (axis_shape mn mx v) x.
Proof.
  intros Hn H. pose proof (nano_even_pos v Hn) as Hv. unfold inside, axis_shape. rewrite !plus_IZR, !minus_IZR, !plus_IZR. pose proof (floordiv_spec mn v Hv) as F1. pose proof (floordiv_spec mx v Hv) as F2. split; nra.
Qed.
Lemma axis_origin_exact v mn : nano_even v -> axis_origin mn v = (IZR (floordiv mn v - 1) + 1 / 2) * v.
Proof.
  intros Hn. rewrite <- grid_exact by exact Hn. unfold axis_origin, grid_center. f_equal. rewrite minus_IZR. field.
Qed.
Lemma voxelize_ok l v : nano_even v -> l <> [] ->
  (forall a b c, In (a, b, c) l -> has_equal_points (a, b, c) = false -> edge_ok v a b /\ edge_ok v b c /\ edge_ok v c a) ->
  exists m off, triangles_to_voxel_matrix l v = Ok (m, voxel_center v off)
   /\ (forall a b c e p, In (a, b, c) l -> has_equal_points (a, b, c) = false -> in_triangle3 p a b c -> in_voxel v e p ->
         In3 (dimx m) (dimy m) (dimz m) (csub e off) /\ at3 m (csub e off) = true)
   /\ (forall x, at3 m x = true -> exists a b c e, In (a, b, c) l /\ has_equal_points (a, b, c) = false /\ x = csub e off /\ marked_by v a b c e).
Proof.
  intros Hn Hl HE. pose proof (nano_even_pos v Hn) as Hv. unfold triangles_to_voxel_matrix.
  destruct (axis_min_max_ok x3 l Hl) as (mnx & mxx & Ex & Bx). destruct (axis_min_max_ok y3 l Hl) as (mny & mxy & Ey & By). destruct (axis_min_max_ok z3 l Hl) as (mnz & mxz & Ez & Bz).
  rewrite Ex, Ey, Ez. cbn [bind]. rewrite !axis_origin_exact by exact Hn.
  set (off := ((floordiv mnx v - 1), (floordiv mny v - 1), (floordiv mnz v - 1))%Z).
  change (V3 ((IZR (floordiv mnx v - 1) + 1 / 2) * v) ((IZR (floordiv mny v - 1) + 1 / 2) * v) ((IZR (floordiv mnz v - 1) + 1 / 2) * v)) with (voxel_center v off).
  set (D := (axis_shape mnx mxx v, axis_shape mny mxy v, axis_shape mnz mxz v)).
  assert (T : forall a b c, In (a, b, c) l -> exists W, sets D (fun m => fill_triangle v (voxel_center v off) m (a, b, c)) W
      /\ (has_equal_points (a, b, c) = false -> forall e p, in_triangle3 p a b c -> in_voxel v e p -> W (csub e off))
      /\ (forall e, W e -> exists e', e = csub e' off /\ has_equal_points (a, b, c) = false /\ marked_by v a b c e')).
  { intros a b c H. apply triangle_sets; auto. intros w Hw. pose proof (corners_in l a b c w H Hw) as Hc. unfold D; cbn [fst snd]. split; [|split]; apply axis_inside; auto. }
  (* the loop, with the triangles seen so far *)
  assert (L : forall l', (forall t, In t l' -> In t l) -> forall m, sized D m -> exists m', foldM (fill_triangle v (voxel_center v off)) l' m = Ok m' /\ sized D m'
     /\ (forall x, at3 m x = true -> at3 m' x = true)
     /\ (forall a b c e p, In (a, b, c) l' -> has_equal_points (a, b, c) = false -> in_triangle3 p a b c -> in_voxel v e p -> at3 m' (csub e off) = true)
     /\ (forall x, at3 m' x = true -> at3 m x = true \/ exists a b c e, In (a, b, c) l' /\ has_equal_points (a, b, c) = false /\ x = csub e off /\ marked_by v a b c e)).
  { induction l' as [|[[a b] c] l' IH]; intros Hsub m Hm.
    - exists m. split; [reflexivity|]. split; [exact Hm|]. split; [auto|]. split; [intros a b c e p []|auto].
    - cbn [foldM]. destruct (T a b c (Hsub _ (or_introl eq_refl))) as (W & S & Wc & Ws). destruct (S m Hm) as (m1 & E1 & H1 & C1). rewrite E1. cbn [bind].
      destruct (IH (fun t Ht => Hsub t (or_intror Ht)) m1 H1) as (m2 & E2 & H2 & M2 & C2 & S2). exists m2. split; [exact E2|]. split; [exact H2|].
      split; [intros x Hx; apply M2, C1; auto|]. split.
      + intros a' b' c' e p [E|Hin] HP HT HV; [|eapply C2; eauto]. apply pair_equal_spec in E as [E Ec]. apply pair_equal_spec in E as [Ea Eb]. subst. apply M2, C1. right. now apply (Wc HP e p).
      + intros x Hx. destruct (S2 x Hx) as [K|(a' & b' & c' & e & Hin & R)]; [|right; exists a', b', c', e; split; [now right|exact R]].
        apply C1 in K as [K|K]; [now left|]. right. destruct (Ws x K) as (e & E & HP & Q). exists a, b, c, e. split; [now left|auto]. }
  destruct (L l (fun t H => H) {| dimx := axis_shape mnx mxx v; dimy := axis_shape mny mxy v; dimz := axis_shape mnz mxz v; at3 := fun _ => false |} eq_refl) as (m & E & Hm & _ & C & S).
  exists m, off. split; [|split].
  - unfold D in *. rewrite E. reflexivity.
  - intros a b c e p Hin HP HT HV. split; [|eapply C; eauto]. apply pair_equal_spec in Hm as [Hm Dz]. apply pair_equal_spec in Hm as [Dx Dy]. rewrite Dx, Dy, Dz.
    assert (Bd : forall k, (k = x3 \/ k = y3 \/ k = z3) -> forall mn mx, (forall w, In w (corners l) -> mn <= k w <= mx) -> forall i, IZR i * v <= k p <= (IZR i + 1) * v -> (0 <= i - (floordiv mn v - 1) < axis_shape mn mx v)%Z).
    { intros k Hk mn mx B i Hi. assert (Bp : mn <= k p <= mx).
      { pose proof (B a (corners_in l a b c a Hin ltac:(auto))). pose proof (B b (corners_in l a b c b Hin ltac:(auto))). pose proof (B c (corners_in l a b c c Hin ltac:(auto))).
        destruct HT as (r & s & t & Hr & Hs & Ht & Et & Px & Py & Pz). assert (Ek : k p = r * k a + s * k b + t * k c) by (destruct Hk as [->|[->| ->]]; assumption).
        pose proof (convex_bounds r s t (k a) (k b) (k c) Hr Hs Ht Et) as CB. rewrite <- Ek in CB.
        destruct (min_of3_case (k a) (k b) (k c)) as [Q1|[Q1|Q1]], (max_of3_case (k a) (k b) (k c)) as [Q2|[Q2|Q2]]; rewrite Q1, Q2 in CB; lra. }
      pose proof (floordiv_spec mn v Hv) as F1. pose proof (floordiv_spec mx v Hv) as F2. unfold axis_shape.
      assert (L1 : IZR (floordiv mn v) * v <= (IZR i + 1) * v) by lra. assert (L2 : IZR i * v < (IZR (floordiv mx v) + 1) * v) by lra.
      apply Rmult_le_reg_r in L1; [|exact Hv]. apply Rmult_lt_reg_r in L2; [|exact Hv]. rewrite <- plus_IZR in L1, L2. apply le_IZR in L1. apply lt_IZR in L2. lia. }
    destruct e as [[i j] k]. destruct HV as (Vx & Vy & Vz). unfold In3, csub, off. cbn [fst snd]. split; [|split]; [apply (Bd x3)|apply (Bd y3)|apply (Bd z3)]; auto.
  - intros x Hx. destruct (S x Hx) as [K|K]; [discriminate|exact K].
Qed.
