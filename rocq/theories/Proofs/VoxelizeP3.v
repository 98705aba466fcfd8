(** The filled pixels of a plane triangle: all the pixels that meet it, and only pixels that nearly do. *)
From Coq Require Import Lra Lia Psatz Classical.
From Verif.Model Require Import RBase Vec BBox Geometry FloodFill Sat Voxelize.
From Verif.Spec Require Import GridSpec SatSpec.
From Verif.Proofs Require Import VecP GeometryP FloodFillP OuterP BBoxP SatP SatP2 SatP3 SatP4 VoxelizeP VoxelizeP2.
Open Scope R_scope.

Lemma map_choice {A B} (f : B -> A) (l : list A) : (forall a, In a l -> exists b, a = f b) -> exists l', l = map f l'.
Proof.
  induction l as [|a l IH]; intros H; [now exists []|]. destruct (H a (or_introl eq_refl)) as (b & ->).
  destruct IH as (l' & ->); [intros; apply H; now right|]. now exists (b :: l').
Qed.
Lemma pcenter_inj v c d : 0 < v -> pcenter v c = pcenter v d -> c = d.
Proof.
  intros Hv E. destruct c as [i j], d as [k l]. pose proof (f_equal x2 E) as Ex. pose proof (f_equal y2 E) as Ey. cbn in Ex, Ey.
  apply Rmult_eq_reg_r in Ex; [|lra]. apply Rmult_eq_reg_r in Ey; [|lra]. apply pair_equal_spec. split; apply eq_IZR; lra.
Qed.
Lemma grid_pcenter v i j : nano_even v -> V2 (grid_center v i) (grid_center v j) = pcenter v (i, j).
Proof. intros H. now rewrite !grid_exact by exact H. Qed.
Lemma touch_square v d r : touch v d r <-> in_square r (pcenter v d) v.
Proof.
  unfold touch, in_square, pcenter; cbn. split.
  - intros [H1 H2]. split; apply Rabs_le; lra.
  - intros [H1 H2]. apply Rabs_le_inv in H1. apply Rabs_le_inv in H2. lra.
Qed.

(** the edges are not too short for the grid *)
Definition seg_ok (v : R) (p q : vec2) : Prop := / 10 ^ 9 <= (Rabs (x2 q - x2 p) + Rabs (y2 q - y2 p)) * v.
Lemma seg_ok_ne v p q : seg_ok v p q -> x2 p <> x2 q \/ y2 p <> y2 q.
Proof.
  intros H. destruct (Req_dec (x2 p) (x2 q)) as [E|E]; [|now left]. destruct (Req_dec (y2 p) (y2 q)) as [F|F]; [|now right]. exfalso.
  unfold seg_ok in H. rewrite E, F, !Rminus_diag_eq, !Rabs_R0 in H by reflexivity. pose proof pow9_pos. assert (0 < / 10 ^ 9) by now apply Rinv_0_lt_compat. lra.
Qed.
(** pixel d comes from the segment pq *)
Definition from_seg (v : R) (p q : vec2) (d : Z * Z) : Prop :=
  Rmin (x2 p) (x2 q) <= (IZR (fst d) + 1) * v /\ IZR (fst d) * v <= Rmax (x2 p) (x2 q)
  /\ Rmin (y2 p) (y2 q) <= (IZR (snd d) + 1) * v /\ IZR (snd d) * v <= Rmax (y2 p) (y2 q)
  /\ forall e, 0 <= e -> / 2 / 10 ^ 9 <= e * (Rabs (x2 q - x2 p) + Rabs (y2 q - y2 p)) ->
     exists r, in_segment2 r p q /\ in_square r (pcenter v d) (v + 2 * e).
Lemma triangle_pixels v a b c : nano_even v ->
  exists l, triangle_2d_to_pixels (a, b, c) v = map (pcenter v) l
   /\ (forall d, In d l -> from_seg v a b d \/ from_seg v b c d \/ from_seg v c a d)
   /\ (seg_ok v a b -> seg_ok v b c -> seg_ok v c a -> forall d r, on_edges r a b c -> touch v d r -> In d l).
Proof.
  intros Hn. pose proof (nano_even_pos v Hn) as Hv. pose proof (nano_even_ge v Hn) as Hge.
  pose proof pow9_pos as P. assert (P9 : 0 < / 10 ^ 9) by now apply Rinv_0_lt_compat.
  assert (SP : forall p q x, In x (segment_pixels v (p, q)) -> exists d, x = pcenter v d /\ from_seg v p q d).
  { intros p q x H. pose proof (segment_pixels_sound v p q x ltac:(lra) H) as (_ & _ & Snd).
    apply in_segment_pixels in H as (k & l & E & _ & _ & H). rewrite grid_pcenter in E by exact Hn. exists (k, l). split; [exact E|].
    apply hit_iff in H as [_ (S1 & S2 & S3 & S4)]. subst x. unfold from_seg. cbn [fst snd pcenter x2 y2] in *. repeat (split; [lra|]). exact Snd. }
  destruct (map_choice (pcenter v) (triangle_2d_to_pixels (a, b, c) v)) as (l & El).
  { intros x H. unfold triangle_2d_to_pixels, line_segments_to_pixels_list in H. cbn [flat_map] in H. rewrite !in_app_iff in H.
    destruct H as [H|[H|[H|[]]]]; apply SP in H as (d & -> & _); eauto. }
  exists l. split; [exact El|].
  assert (InL : forall d, In d l <-> In (pcenter v d) (triangle_2d_to_pixels (a, b, c) v)).
  { intros d. rewrite El, in_map_iff. split; [intros H; now exists d|intros (e & E & H); apply pcenter_inj in E; [now subst|exact Hv]]. }
  assert (Form : forall x, In x (triangle_2d_to_pixels (a, b, c) v) <-> In x (segment_pixels v (a, b)) \/ In x (segment_pixels v (b, c)) \/ In x (segment_pixels v (c, a))).
  { intros x. unfold triangle_2d_to_pixels, line_segments_to_pixels_list. cbn [flat_map]. rewrite !in_app_iff. clear. cbn [In]. tauto. }
  split.
  - intros d Hd. apply InL, Form in Hd. destruct Hd as [H|[H|H]]; apply SP in H as (e & E & F); apply pcenter_inj in E; try exact Hv; subst; auto.
  - intros Oab Obc Oca d r He Ht. apply InL, Form. destruct d as [i j]. rewrite <- grid_pcenter by exact Hn.
    apply touch_square in Ht. rewrite <- grid_pcenter in Ht by exact Hn. unfold seg_ok in *.
    destruct He as [He|[He|He]]; [left|right; left|right; right]; apply segment_pixels_complete with r; auto; lra.
Qed.

(** ** the grid of a non-empty list of pixels *)
Lemma lmin_grid v (k : Z * Z -> Z) (f : Z * Z -> R) d l : 0 < v -> (forall e, f e = (IZR (k e) + 1 / 2) * v) ->
  exists i, lmin (f d) (map f l) = (IZR i + 1 / 2) * v /\ (exists e, In e (d :: l) /\ k e = i) /\ forall e, In e (d :: l) -> (i <= k e)%Z.
Proof.
  intros Hv Hf. revert d. unfold lmin. induction l as [|e l IH]; intros d; cbn [map fold_left].
  - exists (k d). split; [apply Hf|]. split; [exists d; split; [now left|reflexivity]|]. intros e [<-|[]]. lia.
  - assert (M : exists g, (g = d \/ g = e) /\ Rmin (f d) (f e) = f g /\ (k g <= k d)%Z /\ (k g <= k e)%Z).
    { destruct (Z_le_dec (k d) (k e)) as [H|H].
      - exists d. split; [auto|]. split; [|lia]. rewrite Rmin_left; [reflexivity|]. rewrite !Hf. apply IZR_le in H. apply Rmult_le_compat_r; lra.
      - exists e. split; [auto|]. split; [|lia]. rewrite Rmin_right; [reflexivity|]. rewrite !Hf. assert (H' : (k e <= k d)%Z) by lia. apply IZR_le in H'. apply Rmult_le_compat_r; lra. }
    destruct M as (g & Hg & -> & L1 & L2). destruct (IH g) as (i & E & (x & Hx & Ek) & Hm). exists i. split; [exact E|]. split.
    + exists x. split; [|exact Ek]. destruct Hx as [<-|Hx]; [destruct Hg as [-> | ->]; [now left|now right; left]|now right; right].
    + intros y Hy. assert (i <= k g)%Z by (apply Hm; now left). destruct Hy as [<-|[<-|Hy]]; [lia|lia|apply Hm; now right].
Qed.
Lemma lmax_grid v (k : Z * Z -> Z) (f : Z * Z -> R) d l : 0 < v -> (forall e, f e = (IZR (k e) + 1 / 2) * v) ->
  exists i, lmax (f d) (map f l) = (IZR i + 1 / 2) * v /\ (exists e, In e (d :: l) /\ k e = i) /\ forall e, In e (d :: l) -> (k e <= i)%Z.
Proof.
  intros Hv Hf. revert d. unfold lmax. induction l as [|e l IH]; intros d; cbn [map fold_left].
  - exists (k d). split; [apply Hf|]. split; [exists d; split; [now left|reflexivity]|]. intros e [<-|[]]. lia.
  - assert (M : exists g, (g = d \/ g = e) /\ Rmax (f d) (f e) = f g /\ (k d <= k g)%Z /\ (k e <= k g)%Z).
    { destruct (Z_le_dec (k d) (k e)) as [H|H].
      - exists e. split; [auto|]. split; [|lia]. rewrite Rmax_right; [reflexivity|]. rewrite !Hf. apply IZR_le in H. apply Rmult_le_compat_r; lra.
      - exists d. split; [auto|]. split; [|lia]. rewrite Rmax_left; [reflexivity|]. rewrite !Hf. assert (H' : (k e <= k d)%Z) by lia. apply IZR_le in H'. apply Rmult_le_compat_r; lra. }
    destruct M as (g & Hg & -> & L1 & L2). destruct (IH g) as (i & E & (x & Hx & Ek) & Hm). exists i. split; [exact E|]. split.
    + exists x. split; [|exact Ek]. destruct Hx as [<-|Hx]; [destruct Hg as [-> | ->]; [now left|now right; left]|now right; right].
    + intros y Hy. assert (k g <= i)%Z by (apply Hm; now left). destruct Hy as [<-|[<-|Hy]]; [lia|lia|apply Hm; now right].
Qed.
Record hull (l : list (Z * Z)) (i0 i1 j0 j1 : Z) : Prop := {
  hull_in : forall d, In d l -> (i0 <= fst d <= i1)%Z /\ (j0 <= snd d <= j1)%Z;
  hull_i0 : exists d, In d l /\ fst d = i0; hull_i1 : exists d, In d l /\ fst d = i1;
  hull_j0 : exists d, In d l /\ snd d = j0; hull_j1 : exists d, In d l /\ snd d = j1 }.
Lemma pixel_grid v l : 0 < v -> l <> [] -> exists i0 i1 j0 j1, hull l i0 i1 j0 j1
  /\ pixel_grid_min (map (pcenter v) l) = Ok (pcenter v (i0, j0)) /\ pixel_grid_max (map (pcenter v) l) = Ok (pcenter v (i1, j1)).
Proof.
  intros Hv Hl. destruct l as [|d l]; [congruence|]. cbn [map pixel_grid_min pixel_grid_max]. rewrite !map_map.
  destruct (lmin_grid v fst (fun e => x2 (pcenter v e)) d l Hv ltac:(reflexivity)) as (i0 & E1 & X1 & M1).
  destruct (lmin_grid v snd (fun e => y2 (pcenter v e)) d l Hv ltac:(reflexivity)) as (j0 & E2 & X2 & M2).
  destruct (lmax_grid v fst (fun e => x2 (pcenter v e)) d l Hv ltac:(reflexivity)) as (i1 & E3 & X3 & M3).
  destruct (lmax_grid v snd (fun e => y2 (pcenter v e)) d l Hv ltac:(reflexivity)) as (j1 & E4 & X4 & M4).
  exists i0, i1, j0, j1. split; [|rewrite E1, E2, E3, E4; split; reflexivity].
  constructor; auto.
Qed.

(** ** F: the filled pixels, in absolute coordinates *)
Definition Filled (l : list (Z * Z)) (i0 i1 j0 j1 : Z) (d : Z * Z) : Prop :=
  (i0 <= fst d <= i1)%Z /\ (j0 <= snd d <= j1)%Z
  /\ (In d l \/ ~ path adj2 (fun e => (i0 - 1 <= fst e <= i1 + 1)%Z /\ (j0 - 1 <= snd e <= j1 + 1)%Z /\ ~ In e l) (i0 - 1, j0 - 1)%Z d).
Lemma path_shift (P Q : Z * Z -> Prop) u w x y : (forall d, P d -> Q (u + fst d, w + snd d)%Z) ->
  path adj2 P x y -> path adj2 Q (u + fst x, w + snd x)%Z (u + fst y, w + snd y)%Z.
Proof.
  intros H Hp. induction Hp as [z Hz|z d e Hp IH A He]; [constructor; auto|]. eapply path_step; [exact IH| |auto]. unfold adj2 in *; cbn. lia.
Qed.
Lemma filled_abs v l i0 i1 j0 j1 : 0 < v -> hull l i0 i1 j0 j1 ->
  exists m, filled_pixel_matrix (map (pcenter v) l) v (i1 - i0 + 1, j1 - j0 + 1)%Z (pcenter v (i0, j0)) = Ok m
    /\ forall x y, (0 <= x < i1 - i0 + 1)%Z -> (0 <= y < j1 - j0 + 1)%Z ->
       (at2 m (x + 1, y + 1)%Z = true <-> Filled l i0 i1 j0 j1 (i0 + x, j0 + y)%Z).
Proof.
  intros Hv H. destruct (hull_i0 _ _ _ _ _ H) as (e & He & _). pose proof (hull_in _ _ _ _ _ H e He) as B.
  destruct (filled_ok v l i0 j0 (i1 - i0 + 1) (j1 - j0 + 1) Hv) as (m & E & Er & Ec & Hm); [lia|lia| |].
  { intros d Hd. pose proof (hull_in _ _ _ _ _ H d Hd). lia. }
  exists m. split; [exact E|]. intros x y Hx Hy. rewrite (Hm (x, y) ltac:(unfold In2; cbn; lia)). cbn [fst snd]. unfold Filled, reach. cbn [fst snd].
  assert (Pq : path adj2 (fun d => In2 (i1 - i0 + 1 + 2) (j1 - j0 + 1 + 2) d /\ ~ In (i0 + fst d - 1, j0 + snd d - 1)%Z l) (0, 0)%Z (x + 1, y + 1)%Z
    <-> path adj2 (fun e => (i0 - 1 <= fst e <= i1 + 1)%Z /\ (j0 - 1 <= snd e <= j1 + 1)%Z /\ ~ In e l) (i0 - 1, j0 - 1)%Z (i0 + x, j0 + y)%Z).
  { split; intros K.
    - apply (path_shift _ (fun e => (i0 - 1 <= fst e <= i1 + 1)%Z /\ (j0 - 1 <= snd e <= j1 + 1)%Z /\ ~ In e l) (i0 - 1) (j0 - 1)) in K.
      + cbn [fst snd] in K. replace (i0 - 1 + 0)%Z with (i0 - 1)%Z in K by lia. replace (j0 - 1 + 0)%Z with (j0 - 1)%Z in K by lia.
        replace (i0 - 1 + (x + 1))%Z with (i0 + x)%Z in K by lia. replace (j0 - 1 + (y + 1))%Z with (j0 + y)%Z in K by lia. exact K.
      + intros d [D1 D2]. unfold In2 in D1. cbn. replace (i0 - 1 + fst d)%Z with (i0 + fst d - 1)%Z by lia. replace (j0 - 1 + snd d)%Z with (j0 + snd d - 1)%Z by lia. split; [lia|]. split; [lia|exact D2].
    - apply (path_shift _ (fun d => In2 (i1 - i0 + 1 + 2) (j1 - j0 + 1 + 2) d /\ ~ In (i0 + fst d - 1, j0 + snd d - 1)%Z l) (1 - i0) (1 - j0)) in K.
      + cbn [fst snd] in K. replace (1 - i0 + (i0 - 1))%Z with 0%Z in K by lia. replace (1 - j0 + (j0 - 1))%Z with 0%Z in K by lia.
        replace (1 - i0 + (i0 + x))%Z with (x + 1)%Z in K by lia. replace (1 - j0 + (j0 + y))%Z with (y + 1)%Z in K by lia. exact K.
      + intros [d d'] (D1 & D2 & D3). cbn [fst snd] in *. unfold In2; cbn [fst snd]. replace (i0 + (1 - i0 + d) - 1)%Z with d by lia. replace (j0 + (1 - j0 + d') - 1)%Z with d' by lia. split; [lia|exact D3]. }
  rewrite Pq. split; [intros K; split; [lia|]; split; [lia|exact K]|tauto].
Qed.

(** ** Every pixel that meets the triangle is filled *)
Lemma floor_touch v x : 0 < v -> IZR (floordiv x v) * v <= x <= (IZR (floordiv x v) + 1) * v.
Proof. intros Hv. pose proof (floordiv_spec x v Hv). lra. Qed.
Section Cover.
Variables (v : R) (a b c : vec2) (l : list (Z * Z)) (i0 i1 j0 j1 : Z).
Hypothesis Hv : 0 < v.
Hypothesis Hab : x2 a <> x2 b \/ y2 a <> y2 b.
Hypothesis HS : forall d r, on_edges r a b c -> touch v d r -> In d l.
Hypothesis HH : hull l i0 i1 j0 j1.

Lemma vertex_edge w : w = a \/ w = b \/ w = c -> on_edges w a b c.
Proof. intros [-> |[-> | ->]]; [left|right; left|right; right]; exists 0; (split; [lra|split; ring]). Qed.
Lemma vertex_pixels w x y : w = a \/ w = b \/ w = c -> touch v (x, y) w -> (i0 <= x <= i1)%Z /\ (j0 <= y <= j1)%Z.
Proof. intros Hw Ht. apply (hull_in _ _ _ _ _ HH (x, y)). apply (HS (x, y) w); [now apply vertex_edge|exact Ht]. Qed.
Lemma vertex_bounds w : w = a \/ w = b \/ w = c -> IZR i0 * v <= x2 w <= (IZR i1 + 1) * v /\ IZR j0 * v <= y2 w <= (IZR j1 + 1) * v.
Proof.
  intros Hw. pose proof (floor_touch v (x2 w) Hv) as Fx. pose proof (floor_touch v (y2 w) Hv) as Fy.
  destruct (vertex_pixels w (floordiv (x2 w) v) (floordiv (y2 w) v) Hw) as [[X1 X2] [Y1 Y2]]; [split; cbn; assumption|].
  apply IZR_le in X1, X2, Y1, Y2. nra.
Qed.
Lemma triangle_bounds p : in_triangle2 p a b c -> IZR i0 * v <= x2 p <= (IZR i1 + 1) * v /\ IZR j0 * v <= y2 p <= (IZR j1 + 1) * v.
Proof.
  intros (r & s & t & Hr & Hs & Ht & E & Ex & Ey). pose proof (vertex_bounds a ltac:(auto)). pose proof (vertex_bounds b ltac:(auto)). pose proof (vertex_bounds c ltac:(auto)).
  pose proof (convex_bounds r s t (x2 a) (x2 b) (x2 c) Hr Hs Ht E) as X. pose proof (convex_bounds r s t (y2 a) (y2 b) (y2 c) Hr Hs Ht E) as Y. rewrite <- Ex in X. rewrite <- Ey in Y.
  destruct (min_of3_case (x2 a) (x2 b) (x2 c)) as [Q1|[Q1|Q1]], (max_of3_case (x2 a) (x2 b) (x2 c)) as [Q2|[Q2|Q2]], (min_of3_case (y2 a) (y2 b) (y2 c)) as [Q3|[Q3|Q3]], (max_of3_case (y2 a) (y2 b) (y2 c)) as [Q4|[Q4|Q4]]; rewrite Q1, Q2 in X; rewrite Q3, Q4 in Y; lra.
Qed.
(** a vertex on each side of a point of the triangle *)
Lemma vertex_side (k : vec2 -> R) p : (forall r s t, x2 p = r * x2 a + s * x2 b + t * x2 c -> y2 p = r * y2 a + s * y2 b + t * y2 c -> k p = r * k a + s * k b + t * k c) ->
  in_triangle2 p a b c -> (exists w, (w = a \/ w = b \/ w = c) /\ k w <= k p) /\ (exists w, (w = a \/ w = b \/ w = c) /\ k p <= k w).
Proof.
  intros Hk (r & s & t & Hr & Hs & Ht & E & Ex & Ey). pose proof (convex_bounds r s t (k a) (k b) (k c) Hr Hs Ht E) as B. rewrite <- (Hk r s t Ex Ey) in B.
  split.
  - destruct (min_of3_case (k a) (k b) (k c)) as [Q|[Q|Q]]; rewrite Q in B; eexists; (split; [|apply B]); auto.
  - destruct (max_of3_case (k a) (k b) (k c)) as [Q|[Q|Q]]; rewrite Q in B; eexists; (split; [|apply B]); auto.
Qed.
Lemma touch_range d r : touch v d r -> in_triangle2 r a b c -> (i0 <= fst d <= i1)%Z /\ (j0 <= snd d <= j1)%Z.
Proof.
  intros [Tx Ty] HT.
  destruct (vertex_side x2 r (fun _ _ _ A _ => A) HT) as [(w1 & W1 & L1) (w2 & W2 & L2)].
  destruct (vertex_side y2 r (fun _ _ _ _ A => A) HT) as [(w3 & W3 & L3) (w4 & W4 & L4)].
  repeat split.
  - destruct (Rle_dec (IZR (fst d) * v) (x2 w1)) as [H|H].
    + destruct (vertex_pixels w1 (fst d) (floordiv (y2 w1) v) W1); [|lia]. split; cbn; [lra|now apply floor_touch].
    + pose proof (floordiv_spec (x2 w1) v Hv). assert (F : IZR (floordiv (x2 w1) v) < IZR (fst d)) by nra. apply lt_IZR in F.
      destruct (vertex_pixels w1 (floordiv (x2 w1) v) (floordiv (y2 w1) v) W1); [|lia]. split; cbn; now apply floor_touch.
  - destruct (Rle_dec (x2 w2) ((IZR (fst d) + 1) * v)) as [H|H].
    + destruct (vertex_pixels w2 (fst d) (floordiv (y2 w2) v) W2); [|lia]. split; cbn; [lra|now apply floor_touch].
    + pose proof (floordiv_spec (x2 w2) v Hv). assert (F : IZR (fst d) < IZR (floordiv (x2 w2) v) + 1) by nra. rewrite <- plus_IZR in F. apply lt_IZR in F.
      destruct (vertex_pixels w2 (floordiv (x2 w2) v) (floordiv (y2 w2) v) W2); [|lia]. split; cbn; now apply floor_touch.
  - destruct (Rle_dec (IZR (snd d) * v) (y2 w3)) as [H|H].
    + destruct (vertex_pixels w3 (floordiv (x2 w3) v) (snd d) W3); [|lia]. split; cbn; [now apply floor_touch|lra].
    + pose proof (floordiv_spec (y2 w3) v Hv). assert (F : IZR (floordiv (y2 w3) v) < IZR (snd d)) by nra. apply lt_IZR in F.
      destruct (vertex_pixels w3 (floordiv (x2 w3) v) (floordiv (y2 w3) v) W3); [|lia]. split; cbn; now apply floor_touch.
  - destruct (Rle_dec (y2 w4) ((IZR (snd d) + 1) * v)) as [H|H].
    + destruct (vertex_pixels w4 (floordiv (x2 w4) v) (snd d) W4); [|lia]. split; cbn; [now apply floor_touch|lra].
    + pose proof (floordiv_spec (y2 w4) v Hv). assert (F : IZR (snd d) < IZR (floordiv (y2 w4) v) + 1) by nra. rewrite <- plus_IZR in F. apply lt_IZR in F.
      destruct (vertex_pixels w4 (floordiv (x2 w4) v) (floordiv (y2 w4) v) W4); [|lia]. split; cbn; now apply floor_touch.
Qed.
Lemma cover d r : touch v d r -> in_triangle2 r a b c -> Filled l i0 i1 j0 j1 d.
Proof.
  intros Ht HT. destruct (touch_range d r Ht HT) as [Hi Hj]. split; [exact Hi|]. split; [exact Hj|].
  destruct (classic (In d l)) as [H|H]; [now left|]. right. intros Hp.
  assert (HC : in_triangle2 (pcenter v d) a b c) by (eapply (inside_center v a b c (fun e => In e l)); eauto).
  revert HC. apply (outside_stays v a b c (fun e => In e l) Hv Hab HS (i0 - 1, j0 - 1)%Z).
  - eapply path_mono; [|exact Hp]. intros e (_ & _ & K). exact K.
  - intros K. apply triangle_bounds in K. unfold pcenter in K. cbn in K. rewrite minus_IZR in K. nra.
Qed.
End Cover.
