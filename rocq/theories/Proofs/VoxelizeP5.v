(** One triangle: the cells it sets. *)
From Coq Require Import Lra Lia Psatz Classical.
From Verif.Model Require Import RBase Vec BBox Geometry FloodFill Sat Voxelize.
From Verif.Spec Require Import GridSpec SatSpec.
From Verif.Proofs Require Import VecP GeometryP FloodFillP OuterP BBoxP SatP SatP2 SatP3 SatP4 VoxelizeP VoxelizeP2 VoxelizeP3 VoxelizeP4.
Open Scope R_scope.

Definition sized (D : Z * Z * Z) (m : mat3) : Prop := (dimx m, dimy m, dimz m) = D.
Definition in_size (D : Z * Z * Z) (c : Z * Z * Z) : Prop := In3 (fst (fst D)) (snd (fst D)) (snd D) c.
(** [f] sets exactly the cells [W], whatever the matrix *)
Definition sets (D : Z * Z * Z) (f : mat3 -> res mat3) (W : Z * Z * Z -> Prop) : Prop :=
  forall m, sized D m -> exists m', f m = Ok m' /\ sized D m' /\ forall c, at3 m' c = true <-> at3 m c = true \/ W c.

Lemma sets_iff D f W W' : (forall c, W c <-> W' c) -> sets D f W -> sets D f W'.
Proof. intros H S m Hm. destruct (S m Hm) as (m' & E & Hs & C). exists m'. split; [exact E|]. split; [exact Hs|]. intros c. rewrite C, H. reflexivity. Qed.
Lemma sets_write D c : in_size D c -> sets D (fun m => write3 m c) (eq c).
Proof.
  intros H m Hm. unfold sized in Hm. subst D. unfold in_size in H. cbn in H. unfold write3. rewrite (proj2 (inb3_spec _ _ _ _) H).
  eexists. split; [reflexivity|]. split; [reflexivity|]. intros d. cbn. unfold upd. destruct (eqb3 d c) eqn:E.
  - apply eqb3_spec in E. subst d. tauto.
  - assert (c <> d). { intros ->. rewrite (proj2 (eqb3_spec d d) eq_refl) in E. discriminate. } tauto.
Qed.
Lemma sets_none D : sets D (fun m => Ok m) (fun _ => False).
Proof. intros m Hm. exists m. split; [reflexivity|]. split; [exact Hm|]. intros c. tauto. Qed.
Lemma sets_seq D f g W V : sets D f W -> sets D g V -> sets D (fun m => bind (f m) g) (fun c => W c \/ V c).
Proof.
  intros Sf Sg m Hm. destruct (Sf m Hm) as (m1 & E1 & H1 & C1). destruct (Sg m1 H1) as (m2 & E2 & H2 & C2). exists m2. rewrite E1. cbn. split; [exact E2|]. split; [exact H2|].
  intros c. rewrite C2, C1. tauto.
Qed.
Lemma sets_fold {A} D (f : mat3 -> A -> res mat3) (W : A -> Z * Z * Z -> Prop) l :
  (forall a, In a l -> sets D (fun m => f m a) (W a)) -> sets D (foldM f l) (fun c => exists a, In a l /\ W a c).
Proof.
  induction l as [|a l IH]; intros H m Hm.
  - exists m. split; [reflexivity|]. split; [exact Hm|]. intros c. split; [auto|]. intros [K|(a & [] & _)]; exact K.
  - cbn. destruct (H a (or_introl eq_refl) m Hm) as (m1 & E1 & H1 & C1). rewrite E1. cbn.
    destruct (IH (fun b Hb => H b (or_intror Hb)) m1 H1) as (m2 & E2 & H2 & C2). exists m2. split; [exact E2|]. split; [exact H2|]. intros c. rewrite C2, C1. split.
    + intros [[K|K]|(b & Hb & K)]; [now left|right; exists a; split; [now left|exact K]|right; exists b; split; [now right|exact K]].
    + intros [K|(b & [<-|Hb] & K)]; [tauto|tauto|right; exists b; auto].
Qed.

(** coordinates strictly inside the matrix along one axis, first layer excepted *)
Definition inside (v : R) (o n : Z) (x : R) : Prop := (IZR o + 1) * v <= x < (IZR o + IZR n - 1) * v.

Lemma proj_triangle (k : vec3 -> vec2) a b c p : (k = pr_yz \/ k = pr_xz \/ k = pr_xy) -> in_triangle3 p a b c -> in_triangle2 (k p) (k a) (k b) (k c).
Proof. intros Hk (r & s & t & H1 & H2 & H3 & E & Ex & Ey & Ez). exists r, s, t. destruct Hk as [->|[->| ->]]; cbn; auto 10. Qed.
Lemma lift_triangle (k : vec3 -> vec2) a b c r : (k = pr_yz \/ k = pr_xz \/ k = pr_xy) -> in_triangle2 r (k a) (k b) (k c) -> exists p, in_triangle3 p a b c /\ k p = r.
Proof.
  intros Hk (u & s & t & H1 & H2 & H3 & E & Ex & Ey).
  exists (V3 (u * x3 a + s * x3 b + t * x3 c) (u * y3 a + s * y3 b + t * y3 c) (u * z3 a + s * z3 b + t * z3 c)). split; [exists u, s, t; cbn; auto 10|].
  destruct r as [rx ry]. cbn in Ex, Ey. destruct Hk as [->|[->| ->]]; cbn in *; rewrite Ex, Ey; reflexivity.
Qed.

(** the plane of an interface triangle *)
Lemma half_v v : nano_even v -> / 2 / 10 ^ 9 * (1 + v) < v.
Proof.
  intros H. pose proof (nano_even_ge v H) as G. pose proof (nano_even_pos v H) as Hv. pose proof pow9_pos as P. pose proof half_nano_pos as Q. pose proof pow9_half as E.
  assert (L : / 2 / 10 ^ 9 < 1 / 4).
  { unfold Rdiv at 1. apply Rmult_lt_reg_r with (10 ^ 9); [exact P|]. rewrite Rmult_assoc, Rinv_l by lra. assert (4 < 10 ^ 9) by (rewrite (pow_IZR 10 9); apply IZR_lt; reflexivity). lra. }
  assert (/ 2 / 10 ^ 9 * v < 1 / 4 * v) by (apply Rmult_lt_compat_r; lra). nra.
Qed.
Section Interface.
Variables (v : R) (k : vec3 -> R) (pr : vec3 -> vec2) (mk : Z -> Z -> Z -> Z * Z * Z) (a b c o : vec3) (ok ox oy nk nx ny : Z) (D : Z * Z * Z).
Hypothesis Hn : nano_even v.
Hypothesis Hpr : pr = pr_yz \/ pr = pr_xz \/ pr = pr_xy.
Hypothesis Ho : k o = (IZR ok + 1 / 2) * v.
Hypothesis Hox : x2 (pr o) = (IZR ox + 1 / 2) * v.
Hypothesis Hoy : y2 (pr o) = (IZR oy + 1 / 2) * v.
Hypothesis HD : forall n i j, (0 <= n < nk)%Z -> (0 <= i < nx)%Z -> (0 <= j < ny)%Z -> in_size D (mk n i j).
Hypothesis Hk : inside v ok nk (k a).
Hypothesis Hx : forall w, w = a \/ w = b \/ w = c -> inside v ox nx (x2 (pr w)).
Hypothesis Hy : forall w, w = a \/ w = b \/ w = c -> inside v oy ny (y2 (pr w)).
Hypothesis G : at_interface k (a, b, c) v = true.
Hypothesis Oab : seg_ok v (pr a) (pr b).
Hypothesis Obc : seg_ok v (pr b) (pr c).
Hypothesis Oca : seg_ok v (pr c) (pr a).

Lemma plane_index : exists K : Z, Rabs (round9 (k a) / v - IZR K) <= / 2 / 10 ^ 9
   /\ Rabs (round9 (k a) - IZR K * v) <= / 2 / 10 ^ 9 * v /\ (ok + 1 <= K < ok + nk)%Z /\ round9 (k b) = round9 (k a) /\ round9 (k c) = round9 (k a).
Proof.
  pose proof (nano_even_pos v Hn) as Hv. unfold at_interface in G. apply andb_true_iff in G as [G1 G2]. apply andb_true_iff in G1 as [G1 G3]. rb.
  unfold is_integer in G2. rb. set (K := c_trunc (round9 (round9 (k a) / v))) in *. exists K.
  assert (B : Rabs (round9 (k a) / v - IZR K) <= / 2 / 10 ^ 9). { rewrite G2, Rabs_minus_sym. apply round9_bounds. }
  assert (B2 : Rabs (round9 (k a) - IZR K * v) <= / 2 / 10 ^ 9 * v).
  { replace (round9 (k a) - IZR K * v) with ((round9 (k a) / v - IZR K) * v) by (field; lra). rewrite Rabs_mult, (Rabs_right v) by lra. apply Rmult_le_compat_r; lra. }
  split; [exact B|]. split; [exact B2|]. split; [|split; congruence].
  pose proof (half_v v Hn) as HV. pose proof (round9_bounds (k a)) as B3. apply Rabs_le_inv in B2. apply Rabs_le_inv in B3. destruct Hk as [K1 K2].
  assert (L1 : IZR ok * v < IZR K * v) by lra. assert (L2 : IZR K * v < (IZR ok + IZR nk) * v) by lra.
  apply Rmult_lt_reg_r in L1; [|exact Hv]. apply Rmult_lt_reg_r in L2; [|exact Hv]. rewrite <- plus_IZR in L2. apply lt_IZR in L1. apply lt_IZR in L2. lia.
Qed.
Lemma interface_sets : exists (K : Z) (F : Z * Z -> Prop),
  Rabs (round9 (k a) - IZR K * v) <= / 2 / 10 ^ 9 * v
  /\ (forall d r, touch v d r -> in_triangle2 r (pr a) (pr b) (pr c) -> F d)
  /\ (forall d, F d -> near v (v / 2) (pr a) (pr b) (pr c) d)
  /\ sets D (fill_interface k pr mk (a, b, c) v o) (fun e => exists d n, F d /\ (n = K - 1 \/ n = K)%Z /\ e = mk (n - ok)%Z (fst d - ox)%Z (snd d - oy)%Z).
Proof.
  pose proof (nano_even_pos v Hn) as Hv. destruct plane_index as (K & B1 & B2 & HK & _ & _).
  destruct (triangle_pixels v (pr a) (pr b) (pr c) Hn) as (l & El & Lf & Lc). specialize (Lc Oab Obc Oca).
  assert (Ne : l <> []).
  { intros ->. pose proof (floor_touch v (x2 (pr a)) Hv) as Fx. pose proof (floor_touch v (y2 (pr a)) Hv) as Fy.
    apply (Lc (floordiv (x2 (pr a)) v, floordiv (y2 (pr a)) v) (pr a)); [left; exists 0; split; [lra|split; ring]|]. split; cbn; assumption. }
  destruct (pixel_grid v l Hv Ne) as (i0 & i1 & j0 & j1 & HH & Emin & Emax).
  destruct (filled_abs v l i0 i1 j0 j1 Hv HH) as (pm & Epm & Hpm).
  exists K, (Filled l i0 i1 j0 j1). split; [exact B2|].
  assert (Hab : x2 (pr a) <> x2 (pr b) \/ y2 (pr a) <> y2 (pr b)) by (now apply (seg_ok_ne v)).
  split; [intros d r Ht HT; exact (cover v (pr a) (pr b) (pr c) l i0 i1 j0 j1 Hv Hab Lc HH d r Ht HT)|].
  assert (Nl : forall d, In d l -> near v (v / 2) (pr a) (pr b) (pr c) d) by (intros d Hd; apply from_seg_near; auto).
  split; [intros d Hd; apply (filled_near v (v / 2) (pr a) (pr b) (pr c) l i0 i1 j0 j1); auto; lra|].
  (* ranges of the pixels *)
  assert (Rng : forall d, In d l -> (0 <= fst d - ox < nx)%Z /\ (0 <= snd d - oy < ny)%Z).
  { intros d Hd.
    assert (Q : forall p q, (forall w, w = p \/ w = q -> inside v ox nx (x2 w) /\ inside v oy ny (y2 w)) -> from_seg v p q d -> (0 <= fst d - ox < nx)%Z /\ (0 <= snd d - oy < ny)%Z).
    { intros p q Hw (F1 & F2 & F3 & F4 & _). destruct (Hw p ltac:(auto)) as [[P1 P2] [P3 P4]]. destruct (Hw q ltac:(auto)) as [[Q1 Q2] [Q3 Q4]].
      assert (X1 : (IZR ox + 1) * v <= (IZR (fst d) + 1) * v) by (revert F1; apply Rmin_case; intros; lra).
      assert (X2 : IZR (fst d) * v < (IZR ox + IZR nx - 1) * v) by (revert F2; apply Rmax_case; intros; lra).
      assert (X3 : (IZR oy + 1) * v <= (IZR (snd d) + 1) * v) by (revert F3; apply Rmin_case; intros; lra).
      assert (X4 : IZR (snd d) * v < (IZR oy + IZR ny - 1) * v) by (revert F4; apply Rmax_case; intros; lra).
      apply Rmult_le_reg_r in X1; [|exact Hv]. apply Rmult_lt_reg_r in X2; [|exact Hv]. apply Rmult_le_reg_r in X3; [|exact Hv]. apply Rmult_lt_reg_r in X4; [|exact Hv].
      assert (Y1 : IZR ox <= IZR (fst d)) by lra. assert (Y3 : IZR oy <= IZR (snd d)) by lra. assert (Y2 : IZR (fst d) < IZR (ox + nx)) by (rewrite plus_IZR; lra). assert (Y4 : IZR (snd d) < IZR (oy + ny)) by (rewrite plus_IZR; lra).
      apply le_IZR in Y1, Y3. apply lt_IZR in Y2, Y4. lia. }
    destruct (Lf d Hd) as [F|[F|F]]; apply Q in F; auto; intros w [-> | ->]; auto. }
  assert (RngF : forall d, Filled l i0 i1 j0 j1 d -> (0 <= fst d - ox < nx)%Z /\ (0 <= snd d - oy < ny)%Z).
  { intros d (Fi & Fj & _). destruct (hull_i0 _ _ _ _ _ HH) as (e1 & He1 & <-). destruct (hull_i1 _ _ _ _ _ HH) as (e2 & He2 & <-). destruct (hull_j0 _ _ _ _ _ HH) as (e3 & He3 & <-). destruct (hull_j1 _ _ _ _ _ HH) as (e4 & He4 & <-).
    apply Rng in He1, He2, He3, He4. lia. }
  (* the loop *)
  assert (N1 : rint 9 ((round9 (k a) - k o - v / 2) / v) = (K - 1 - ok)%Z).
  { apply rint_near; [lia|]. rewrite Ho, !minus_IZR. replace ((round9 (k a) - (IZR ok + 1 / 2) * v - v / 2) / v - (IZR K - 1 - IZR ok)) with (round9 (k a) / v - IZR K) by (field; lra). exact B1. }
  assert (N2 : rint 9 ((round9 (k a) - k o + v / 2) / v) = (K - ok)%Z).
  { apply rint_near; [lia|]. rewrite Ho, !minus_IZR. replace ((round9 (k a) - (IZR ok + 1 / 2) * v + v / 2) / v - (IZR K - IZR ok)) with (round9 (k a) / v - IZR K) by (field; lra). exact B1. }
  assert (Dim : forall p q, c_round (((IZR p + 1 / 2) * v - (IZR q + 1 / 2) * v) / v + 1) = (p - q + 1)%Z).
  { intros p q. rewrite div_step by exact Hv. rewrite <- plus_IZR. apply round_IZR. }
  intros m Hm. unfold fill_interface. rewrite El, Emin, Emax. cbn [bind].
  assert (Dx : c_round ((x2 (pcenter v (i1, j1)) - x2 (pcenter v (i0, j0))) / v + 1) = (i1 - i0 + 1)%Z) by apply Dim.
  assert (Dy : c_round ((y2 (pcenter v (i1, j1)) - y2 (pcenter v (i0, j0))) / v + 1) = (j1 - j0 + 1)%Z) by apply Dim.
  rewrite Dx, Dy, Epm. cbn [bind]. rewrite N1, N2.
  set (f := fun (m0 : mat3) (d : Z * Z) => _). revert m Hm. fold (sets D (foldM f (cells2 (i1 - i0 + 1) (j1 - j0 + 1))) (fun e => exists d n, Filled l i0 i1 j0 j1 d /\ (n = K - 1 \/ n = K)%Z /\ e = mk (n - ok)%Z (fst d - ox)%Z (snd d - oy)%Z)).
  eapply sets_iff; [|apply (sets_fold D f (fun d e => Filled l i0 i1 j0 j1 (i0 + fst d, j0 + snd d)%Z /\ exists n, (n = K - 1 \/ n = K)%Z /\ e = mk (n - ok)%Z (i0 + fst d - ox)%Z (j0 + snd d - oy)%Z))].
  - intros e. split.
    + intros (d & _ & Fd & n & Hn' & E). exists (i0 + fst d, j0 + snd d)%Z, n. auto.
    + intros (d & n & Fd & Hn' & E). exists (fst d - i0, snd d - j0)%Z. split.
      * apply in_cells2. destruct Fd as (Fi & Fj & _). unfold In2. cbn [fst snd]. lia.
      * cbn [fst snd]. replace (i0 + (fst d - i0))%Z with (fst d) by lia. replace (j0 + (snd d - j0))%Z with (snd d) by lia. rewrite <- surjective_pairing. split; [exact Fd|]. exists n. auto.
  - intros [dx dy] Hd. apply in_cells2 in Hd. unfold In2 in Hd. cbn [fst snd] in Hd.
    assert (Ix : forall q d p, rint 6 (((IZR q + 1 / 2) * v + IZR d * v - (IZR p + 1 / 2) * v) / v) = (q + d - p)%Z).
    { intros q d p. replace ((IZR q + 1 / 2) * v + IZR d * v - (IZR p + 1 / 2) * v) with ((IZR (q + d) + 1 / 2) * v - (IZR p + 1 / 2) * v) by (rewrite plus_IZR; ring). rewrite div_step by exact Hv. apply rint_IZR. }
    unfold f. cbn [x2 y2 pcenter fst snd]. rewrite Hox, Hoy, !Ix.
    destruct (at2 pm (dx + 1, dy + 1)%Z) eqn:At.
    + apply Hpm in At; [|lia|lia]. pose proof (RngF _ At) as RF. cbn [fst snd] in RF. cbn [fst snd].
      eapply sets_iff; [|apply sets_seq; apply sets_write; apply HD; lia].
      intros e. split.
      * intros [<-|<-]; (split; [exact At|]); [exists (K - 1)%Z|exists K]; auto.
      * intros (_ & n & [-> | ->] & ->); auto.
    + eapply sets_iff; [|apply sets_none]. intros e. split; [tauto|]. intros (Fd & _). apply Hpm in Fd; [congruence|lia|lia].
Qed.
End Interface.

(** ** The other triangles *)
Lemma sat_sets v a b c o ox oy oz D : nano_even v -> o = voxel_center v (ox, oy, oz) ->
  inside v ox (fst (fst D)) (x3 a) -> inside v ox (fst (fst D)) (x3 b) -> inside v ox (fst (fst D)) (x3 c) ->
  inside v oy (snd (fst D)) (y3 a) -> inside v oy (snd (fst D)) (y3 b) -> inside v oy (snd (fst D)) (y3 c) ->
  inside v oz (snd D) (z3 a) -> inside v oz (snd D) (z3 b) -> inside v oz (snd D) (z3 c) ->
  sets D (fill_intersecting (a, b, c) v o)
    (fun e => exists i j k, e = (i - ox, j - oy, k - oz)%Z /\ In (voxel_center v (i, j, k)) (aabb_intersecting_boxes (triangle_min (a, b, c)) (triangle_max (a, b, c)) v)
       /\ sat_test (a, b, c) (voxel_center v (i, j, k)) (V3 (1 / 2 * v) (1 / 2 * v) (1 / 2 * v)) = true).
Proof.
  intros Hn -> Ax Bx Cx Ay By Cy Az Bz Cz. pose proof (nano_even_pos v Hn) as Hv.
  assert (Rg : forall o n p q r i, inside v o n p -> inside v o n q -> inside v o n r -> (axis_start (min_of3 p q r) v <= i < axis_end (max_of3 p q r) v)%Z -> (0 <= i - o < n)%Z).
  { intros o n p q r i [P1 P2] [Q1 Q2] [R1 R2] [I1 I2]. unfold axis_start, axis_end in *.
    assert (M1 : (IZR o + 1) * v <= min_of3 p q r) by (destruct (min_of3_case p q r) as [-> |[-> | ->]]; lra).
    assert (M2 : max_of3 p q r < (IZR o + IZR n - 1) * v) by (destruct (max_of3_case p q r) as [-> |[-> | ->]]; lra).
    set (mn := min_of3 p q r) in *. set (mx := max_of3 p q r) in *. clearbody mn mx.
    assert (L1 : IZR o <= mn / v - 1). { apply Rmult_le_reg_r with v; [exact Hv|]. replace ((mn / v - 1) * v) with (mn - v) by (field; lra). lra. }
    assert (L2 : mx / v + 1 < IZR (o + n)). { apply Rmult_lt_reg_r with v; [exact Hv|]. rewrite plus_IZR. replace ((mx / v + 1) * v) with (mx + v) by (field; lra). lra. }
    assert (T1 : (o <= c_trunc (mn / v - 1))%Z).
    { destruct (Rlt_dec (mn / v - 1) 0) as [S|S].
      - pose proof (trunc_neg _ S) as [T _]. apply le_IZR. lra.
      - pose proof (trunc_nonneg (mn / v - 1) ltac:(lra)) as [_ T]. assert (X : IZR o < IZR (c_trunc (mn / v - 1) + 1)) by (rewrite plus_IZR; lra). apply lt_IZR in X. lia. }
    assert (T2 : (c_trunc (mx / v + 1) <= o + n)%Z). { apply trunc_le_int. lra. }
    lia. }
  unfold fill_intersecting. eapply sets_iff; [|apply (sets_fold D _ (fun ct e => exists i j k, ct = voxel_center v (i, j, k) /\ e = (i - ox, j - oy, k - oz)%Z
       /\ sat_test (a, b, c) ct (V3 (1 / 2 * v) (1 / 2 * v) (1 / 2 * v)) = true))].
  - intros e. split.
    + intros (ct & Hin & i & j & k & -> & -> & S). exists i, j, k. auto.
    + intros (i & j & k & -> & Hin & S). eexists. split; [exact Hin|]. exists i, j, k. auto.
  - intros ct Hc. apply in_aabb in Hc as (i & j & k & E & Hi & Hj & Hk). rewrite !grid_exact in E by exact Hn. subst ct.
    unfold triangle_min, triangle_max in Hi, Hj, Hk. cbn [x3 y3 z3] in Hi, Hj, Hk.
    apply (Rg _ _ _ _ _ _ Ax Bx Cx) in Hi. apply (Rg _ _ _ _ _ _ Ay By Cy) in Hj. apply (Rg _ _ _ _ _ _ Az Bz Cz) in Hk.
    change (V3 ((IZR i + 1 / 2) * v) ((IZR j + 1 / 2) * v) ((IZR k + 1 / 2) * v)) with (voxel_center v (i, j, k)).
    assert (Uniq : forall i' j' k', voxel_center v (i, j, k) = voxel_center v (i', j', k') -> i' = i /\ j' = j /\ k' = k).
    { intros i' j' k' E. pose proof (f_equal x3 E) as E1. pose proof (f_equal y3 E) as E2. pose proof (f_equal z3 E) as E3. cbn in E1, E2, E3.
      apply Rmult_eq_reg_r in E1; [|lra]. apply Rmult_eq_reg_r in E2; [|lra]. apply Rmult_eq_reg_r in E3; [|lra].
      repeat split; apply eq_IZR; lra. }
    assert (Ix : rint 9 ((x3 (voxel_center v (i, j, k)) - x3 (voxel_center v (ox, oy, oz))) / v) = (i - ox)%Z) by (cbn [voxel_center x3]; rewrite div_step, rint_IZR by exact Hv; reflexivity).
    assert (Iy : rint 9 ((y3 (voxel_center v (i, j, k)) - y3 (voxel_center v (ox, oy, oz))) / v) = (j - oy)%Z) by (cbn [voxel_center y3]; rewrite div_step, rint_IZR by exact Hv; reflexivity).
    assert (Iz : rint 9 ((z3 (voxel_center v (i, j, k)) - z3 (voxel_center v (ox, oy, oz))) / v) = (k - oz)%Z) by (cbn [voxel_center z3]; rewrite div_step, rint_IZR by exact Hv; reflexivity).
    cbv zeta. rewrite Ix, Iy, Iz.
    assert (In' : in_size D (i - ox, j - oy, k - oz)%Z) by (unfold in_size, In3; cbn [fst snd]; auto).
    intros m Hm. unfold read3. assert (Inb : inb3 (dimx m) (dimy m) (dimz m) (i - ox, j - oy, k - oz)%Z = true) by (apply inb3_spec; unfold sized in Hm; subst D; exact In').
    rewrite Inb. cbn [bind]. destruct (at3 m (i - ox, j - oy, k - oz)%Z) eqn:At; cbn [negb].
    + exists m. split; [reflexivity|]. split; [exact Hm|]. intros e. split; [auto|]. intros [H|(i' & j' & k' & E & -> & S)]; [exact H|]. apply Uniq in E as (-> & -> & ->). exact At.
    + destruct (sat_test _ _ _) eqn:S.
      * destruct (sets_write D _ In' m Hm) as (m' & E & Hm' & C). exists m'. split; [exact E|]. split; [exact Hm'|]. intros e. rewrite C. split.
        -- intros [H|<-]; [auto|]. right. exists i, j, k. auto.
        -- intros [H|(i' & j' & k' & E' & -> & _)]; [auto|]. right. apply Uniq in E' as (-> & -> & ->). reflexivity.
      * exists m. split; [reflexivity|]. split; [exact Hm|]. intros e. split; [auto|]. intros [H|(_ & _ & _ & _ & _ & [=])]. exact H.
Qed.
