(** Pixels of a segment. *)
From Coq Require Import Lra Lia Psatz.
From Verif.Model Require Import RBase Vec BBox Geometry Sat.
From Verif.Spec Require Import SatSpec.
From Verif.Proofs Require Import VecP GeometryP FloodFillP SatP SatP2 SatP3.
Open Scope R_scope.

Lemma round_ge1 x : 1 / 2 <= x -> (1 <= c_round x)%Z.
Proof. intros H. unfold c_round. destruct (Rltb x 0) eqn:E; rb; [lra|]. pose proof (floor_spec (x + 1 / 2)). assert (0 < rfloor (x + 1 / 2))%Z; [apply lt_IZR; lra|lia]. Qed.
Lemma round_le_m1 x : x <= - (1 / 2) -> (c_round x <= -1)%Z.
Proof. intros H. unfold c_round. destruct (Rltb x 0) eqn:E; rb; [|lra]. pose proof (floor_spec (- x + 1 / 2)). assert (0 < rfloor (- x + 1 / 2))%Z; [apply lt_IZR; lra|lia]. Qed.
Lemma round9_nonzero x : / 2 / 10 ^ 9 <= Rabs x -> round9 x <> 0.
Proof.
  intros H E. pose proof pow9_pos as P. unfold round9, round_digits in E.
  assert (Z0 : IZR (c_round (x * 10 ^ 9)) = 0). { apply Rmult_eq_reg_r with (/ 10 ^ 9); [|apply Rinv_neq_0_compat; lra]. rewrite Rmult_0_l. exact E. }
  apply eq_IZR in Z0.
  assert (H' : 1 / 2 <= Rabs x * 10 ^ 9). { apply (Rmult_le_compat_r (10 ^ 9)) in H; [|lra]. unfold Rdiv in H. rewrite Rmult_assoc, Rinv_l in H by lra. lra. }
  unfold Rabs in H'. destruct (Rcase_abs x).
  - pose proof (round_le_m1 (x * 10 ^ 9) ltac:(lra)). lia.
  - pose proof (round_ge1 (x * 10 ^ 9) H'). lia.
Qed.

Lemma line_eq_alt p q x y : line_eq p q x y = (y2 q - y2 p) * (x - x2 p) - (x2 q - x2 p) * (y - y2 p).
Proof. unfold line_eq. ring. Qed.
Lemma line_eq_segment r p q : in_segment2 r p q -> line_eq p q (x2 r) (y2 r) = 0.
Proof. intros (t & _ & -> & ->). rewrite line_eq_alt. ring. Qed.
(** the corner where an affine form is extremal *)
Lemma corner_low p q xm xM ym yM x y : xm <= x <= xM -> ym <= y <= yM ->
  exists a b a' b', (a = xm \/ a = xM) /\ (b = ym \/ b = yM) /\ (a' = xm \/ a' = xM) /\ (b' = ym \/ b' = yM)
   /\ line_eq p q a b <= line_eq p q x y <= line_eq p q a' b'
   /\ line_eq p q a' b' - line_eq p q a b = Rabs (y2 q - y2 p) * (xM - xm) + Rabs (x2 q - x2 p) * (yM - ym).
Proof.
  intros Hx Hy. set (A := y2 q - y2 p). set (B := x2 q - x2 p).
  assert (L : forall u v, line_eq p q u v = A * u - B * v + (B * y2 p - A * x2 p)) by (intros; unfold line_eq, A, B; ring).
  exists (if Rle_dec 0 A then xm else xM), (if Rle_dec 0 B then yM else ym), (if Rle_dec 0 A then xM else xm), (if Rle_dec 0 B then ym else yM).
  rewrite !L. fold A B. clearbody A B. destruct (Rle_dec 0 A) as [HA|HA]; destruct (Rle_dec 0 B) as [HB|HB];
  repeat (split; [auto; fail|]); (split; [split; nra|]).
  - rewrite !Rabs_right by lra. ring.
  - rewrite (Rabs_right A), (Rabs_left B) by lra. ring.
  - rewrite (Rabs_left A), (Rabs_right B) by lra. ring.
  - rewrite !Rabs_left by lra. ring.
Qed.
Lemma segment_extent r p q : in_segment2 r p q -> Rmin (x2 p) (x2 q) <= x2 r <= Rmax (x2 p) (x2 q) /\ Rmin (y2 p) (y2 q) <= y2 r <= Rmax (y2 p) (y2 q).
Proof.
  intros (t & Ht & -> & ->). split; [destruct (Rle_dec (x2 p) (x2 q)) as [H|H]; [rewrite Rmin_left, Rmax_right by lra|rewrite Rmin_right, Rmax_left by lra]
  |destruct (Rle_dec (y2 p) (y2 q)) as [H|H]; [rewrite Rmin_left, Rmax_right by lra|rewrite Rmin_right, Rmax_left by lra]]; nra.
Qed.
Lemma hit_complete p q xm xM ym yM r : in_segment2 r p q -> in_rect r xm xM ym yM ->
  / 10 ^ 9 <= Rabs (y2 q - y2 p) * (xM - xm) + Rabs (x2 q - x2 p) * (yM - ym) -> segment_hits_pixel p q xm xM ym yM = true.
Proof.
  intros HS [Rx Ry] D. apply hit_iff. pose proof (segment_extent r p q HS) as [Ex Ey]. split; [|lra].
  destruct (corner_low p q xm xM ym yM (x2 r) (y2 r) Rx Ry) as (a & b & a' & b' & Ha & Hb & Ha' & Hb' & [L1 L2] & L3).
  rewrite (line_eq_segment r p q HS) in L1, L2. split; [|split].
  - exists a, b. auto using round9_nonpos.
  - exists a', b'. auto using round9_nonneg.
  - rewrite pow9_half in D. destruct (Rle_dec (/ 2 / 10 ^ 9) (line_eq p q a' b')) as [H|H].
    + exists a', b'. repeat (split; [assumption|]). apply round9_nonzero. rewrite Rabs_right; lra.
    + exists a, b. repeat (split; [assumption|]). apply round9_nonzero. rewrite Rabs_left1; lra.
Qed.

(** intervals *)
Lemma interval_meet a b lo hi : lo <= hi -> Rmin a b <= hi -> lo <= Rmax a b -> exists t, 0 <= t <= 1 /\ lo <= a + t * (b - a) <= hi.
Proof.
  intros H1 H2 H3. set (y := Rmax lo (Rmin a b)).
  assert (Y1 : lo <= y <= hi). { split; [apply Rmax_l|apply Rmax_lub; assumption]. }
  assert (Y2 : Rmin a b <= y <= Rmax a b). { split; [apply Rmax_r|]. apply Rmax_lub; [assumption|]. eapply Rle_trans; [apply Rmin_l|apply Rmax_l]. }
  clearbody y. destruct (Req_dec a b) as [->|N].
  - exists 0. rewrite Rmin_left, Rmax_left in Y2 by lra. split; lra.
  - exists ((y - a) / (b - a)). assert (E : (y - a) / (b - a) * (b - a) = y - a) by (field; lra). rewrite E. split; [|lra].
    destruct (Rlt_dec a b) as [L|L].
    + rewrite Rmin_left, Rmax_right in Y2 by lra. split; [apply Rmult_le_reg_r with (b - a); lra|apply Rmult_le_reg_r with (b - a); lra].
    + rewrite Rmin_right, Rmax_left in Y2 by lra. split; apply Ropp_le_cancel; apply Rmult_le_reg_r with (a - b); lra.
Qed.
Definition in_ivl (a d lo hi t : R) : Prop := lo <= a + t * d <= hi.
Lemma ivl_convex a d lo hi s t u : in_ivl a d lo hi s -> in_ivl a d lo hi t -> s <= u <= t -> in_ivl a d lo hi u.
Proof. unfold in_ivl. intros H1 H2 H3. destruct (Rle_dec 0 d); nra. Qed.
Lemma ivl_between a d lo hi s t u : in_ivl a d lo hi s -> in_ivl a d lo hi t -> s <= u <= t \/ t <= u <= s -> in_ivl a d lo hi u.
Proof. intros H1 H2 [H|H]; eauto using ivl_convex. Qed.
(** Helly's theorem on the line, for three intervals *)
Lemma helly3 a d lo hi a' d' lo' hi' t0 tx ty :
  in_ivl a d lo hi t0 -> in_ivl a' d' lo' hi' t0 -> in_ivl a d lo hi tx -> 0 <= tx <= 1 -> in_ivl a' d' lo' hi' ty -> 0 <= ty <= 1 ->
  exists m, 0 <= m <= 1 /\ in_ivl a d lo hi m /\ in_ivl a' d' lo' hi' m.
Proof.
  intros A0 B0 A1 C1 B2 C2.
  assert (M : ((tx <= t0 <= ty \/ ty <= t0 <= tx) \/ (t0 <= tx <= ty \/ ty <= tx <= t0)) \/ (t0 <= ty <= tx \/ tx <= ty <= t0)) by lra.
  destruct M as [[M|M]|M]; [exists t0|exists tx|exists ty]; (split; [lra|]); split; auto.
  - eapply ivl_between; [exact B0|exact B2|lra].
  - eapply ivl_between; [exact A0|exact A1|lra].
Qed.

Lemma zero_between a b : a <= 0 <= b -> exists l, 0 <= l <= 1 /\ a + l * (b - a) = 0.
Proof.
  intros H. destruct (Req_dec a b) as [->|N]; [exists 0; lra|]. exists (- a / (b - a)). split; [|field; lra].
  split; [apply Rmult_le_reg_r with (b - a); [lra|]; replace (- a / (b - a) * (b - a)) with (- a) by (field; lra); lra
         |apply Rmult_le_reg_r with (b - a); [lra|]; replace (- a / (b - a) * (b - a)) with (- a) by (field; lra); lra].
Qed.
(** an affine form non-negative somewhere and non-positive elsewhere on a rectangle vanishes on it *)
Lemma line_meets_rect p q xm xM ym yM x y x' y' :
  xm <= x <= xM -> ym <= y <= yM -> xm <= x' <= xM -> ym <= y' <= yM -> line_eq p q x y <= 0 -> 0 <= line_eq p q x' y' ->
  exists u v, xm <= u <= xM /\ ym <= v <= yM /\ line_eq p q u v = 0.
Proof.
  intros Hx Hy Hx' Hy' H H'. destruct (zero_between _ _ (conj H H')) as (l & Hl & E).
  exists (x + l * (x' - x)), (y + l * (y' - y)). split; [nra|]. split; [nra|]. rewrite <- E. unfold line_eq. ring.
Qed.
Lemma on_line p q u v : x2 p <> x2 q \/ y2 p <> y2 q -> line_eq p q u v = 0 ->
  exists t, u = x2 p + t * (x2 q - x2 p) /\ v = y2 p + t * (y2 q - y2 p).
Proof.
  intros N E. rewrite line_eq_alt in E. set (dx := x2 q - x2 p) in *. set (dy := y2 q - y2 p) in *.
  assert (D : 0 < dx * dx + dy * dy). { assert (dx <> 0 \/ dy <> 0) as [Z|Z] by (unfold dx, dy; destruct N; [left|right]; lra); pose proof (Rsqr_pos_lt _ Z); unfold Rsqr in *; nra. }
  exists (((u - x2 p) * dx + (v - y2 p) * dy) / (dx * dx + dy * dy)). clearbody dx dy. split.
  - apply Rmult_eq_reg_r with (dx * dx + dy * dy); [|lra].
    replace ((x2 p + ((u - x2 p) * dx + (v - y2 p) * dy) / (dx * dx + dy * dy) * dx) * (dx * dx + dy * dy)) with
      (x2 p * (dx * dx + dy * dy) + ((u - x2 p) * dx + (v - y2 p) * dy) * dx) by (field; lra).
    assert (E' : dy * (dy * (u - x2 p) - dx * (v - y2 p)) = 0) by (rewrite E; ring). lra.
  - apply Rmult_eq_reg_r with (dx * dx + dy * dy); [|lra].
    replace ((y2 p + ((u - x2 p) * dx + (v - y2 p) * dy) / (dx * dx + dy * dy) * dy) * (dx * dx + dy * dy)) with
      (y2 p * (dx * dx + dy * dy) + ((u - x2 p) * dx + (v - y2 p) * dy) * dy) by (field; lra).
    assert (E' : dx * (dy * (u - x2 p) - dx * (v - y2 p)) = 0) by (rewrite E; ring). lra.
Qed.
Lemma segment_meets_rect p q xm xM ym yM u v : x2 p <> x2 q \/ y2 p <> y2 q ->
  xm <= u <= xM -> ym <= v <= yM -> line_eq p q u v = 0 ->
  Rmin (x2 p) (x2 q) <= xM -> xm <= Rmax (x2 p) (x2 q) -> Rmin (y2 p) (y2 q) <= yM -> ym <= Rmax (y2 p) (y2 q) ->
  exists r, in_segment2 r p q /\ in_rect r xm xM ym yM.
Proof.
  intros N Hu Hv E S1 S2 S3 S4. destruct (on_line p q u v N E) as (t0 & Eu & Ev).
  destruct (interval_meet (x2 p) (x2 q) xm xM ltac:(lra) S1 S2) as (tx & Tx & Bx).
  destruct (interval_meet (y2 p) (y2 q) ym yM ltac:(lra) S3 S4) as (ty & Ty & By).
  destruct (helly3 (x2 p) (x2 q - x2 p) xm xM (y2 p) (y2 q - y2 p) ym yM t0 tx ty) as (m & Hm & Mx & My);
    [unfold in_ivl; lra|unfold in_ivl; lra|exact Bx|exact Tx|exact By|exact Ty|].
  exists (V2 (x2 p + m * (x2 q - x2 p)) (y2 p + m * (y2 q - y2 p))). split; [exists m; cbn; auto|]. exact (conj Mx My).
Qed.

Lemma hit_sound p q xm xM ym yM d : xm <= xM -> ym <= yM -> segment_hits_pixel p q xm xM ym yM = true ->
  0 <= d -> / 2 / 10 ^ 9 <= d * (Rabs (x2 q - x2 p) + Rabs (y2 q - y2 p)) ->
  exists r, in_segment2 r p q /\ in_rect r (xm - d) (xM + d) (ym - d) (yM + d).
Proof.
  intros Hxm Hym H Hd D. apply hit_iff in H as [[(x & y & Hx & Hy & L1) [(x' & y' & Hx' & Hy' & L2) (x'' & y'' & _ & _ & L3)]] (S1 & S2 & S3 & S4)].
  pose proof half_nano_pos as Hh. set (h := / 2 / 10 ^ 9) in *.
  assert (N : x2 p <> x2 q \/ y2 p <> y2 q).
  { destruct (Req_dec (x2 p) (x2 q)) as [E|E]; [|now left]. destruct (Req_dec (y2 p) (y2 q)) as [F|F]; [|now right]. exfalso. apply L3.
    rewrite line_eq_alt, E, F. replace ((y2 q - y2 q) * (x'' - x2 q) - (x2 q - x2 q) * (y'' - y2 q)) with 0 by ring. apply round9_0. }
  assert (B1 : line_eq p q x y <= h). { pose proof (round9_bounds (line_eq p q x y)) as B. apply Rabs_le_inv in B. unfold h. lra. }
  assert (B2 : - h <= line_eq p q x' y'). { pose proof (round9_bounds (line_eq p q x' y')) as B. apply Rabs_le_inv in B. unfold h. lra. }
  assert (Hx1 : xm <= x <= xM) by (destruct Hx as [-> | ->]; lra). assert (Hy1 : ym <= y <= yM) by (destruct Hy as [-> | ->]; lra).
  assert (Hx2 : xm <= x' <= xM) by (destruct Hx' as [-> | ->]; lra). assert (Hy2 : ym <= y' <= yM) by (destruct Hy' as [-> | ->]; lra).
  destruct (sgn_abs (y2 q - y2 p)) as (a & Ha & Ea). destruct (sgn_abs (x2 q - x2 p)) as (b & Hb & Eb). apply Rabs_le_inv in Ha. apply Rabs_le_inv in Hb.
  assert (Da : - d <= d * a <= d) by (clear - Hd Ha; split; nra). assert (Db : - d <= d * b <= d) by (clear - Hd Hb; split; nra).
  destruct (line_meets_rect p q (xm - d) (xM + d) (ym - d) (yM + d) (x - d * a) (y + d * b) (x' + d * a) (y' - d * b)) as (u & v & Hu & Hv & E);
    [lra|lra|lra|lra| | |].
  - replace (line_eq p q (x - d * a) (y + d * b)) with (line_eq p q x y - d * ((y2 q - y2 p) * a + (x2 q - x2 p) * b)) by (unfold line_eq; ring). rewrite Ea, Eb. lra.
  - replace (line_eq p q (x' + d * a) (y' - d * b)) with (line_eq p q x' y' + d * ((y2 q - y2 p) * a + (x2 q - x2 p) * b)) by (unfold line_eq; ring). rewrite Ea, Eb. lra.
  - eapply segment_meets_rect; eauto; lra.
Qed.
Lemma hit_nondegenerate p q xm xM ym yM : segment_hits_pixel p q xm xM ym yM = true -> p <> q.
Proof.
  intros H ->. apply hit_iff in H as [[_ [_ (x & y & _ & _ & L)]] _]. apply L. replace (line_eq q q x y) with 0 by (unfold line_eq; ring). apply round9_0.
Qed.

(** ** _line_segments_to_pixels *)
Lemma in_segment_pixels ps p q c : In c (segment_pixels ps (p, q)) <->
  exists k l, c = V2 (grid_center ps k) (grid_center ps l)
    /\ (c_trunc (Rmin (x2 p) (x2 q) / ps - 2) <= k < c_trunc (Rmax (x2 p) (x2 q) / ps + 2))%Z
    /\ (c_trunc (Rmin (y2 p) (y2 q) / ps - 2) <= l < c_trunc (Rmax (y2 p) (y2 q) / ps + 2))%Z
    /\ segment_hits_pixel p q (x2 c - ps / 2) (x2 c + ps / 2) (y2 c - ps / 2) (y2 c + ps / 2) = true.
Proof.
  unfold segment_pixels. rewrite in_flat_map. split.
  - intros (k & Hk & H). apply in_flat_map in H as (l & Hl & H). destruct (segment_hits_pixel _ _ _ _ _ _) eqn:E; [|destruct H].
    destruct H as [<-|[]]. apply in_zrange in Hk. apply in_zrange in Hl. exists k, l. auto.
  - intros (k & l & -> & Hk & Hl & H). exists k. split; [now apply in_zrange|]. apply in_flat_map. exists l. split; [now apply in_zrange|].
    rewrite H. now left.
Qed.
Lemma pixel_range ps m M k : / 10 ^ 9 <= ps -> m <= grid_center ps k + ps / 2 -> grid_center ps k - ps / 2 <= M ->
  (c_trunc (m / ps - 2) <= k < c_trunc (M / ps + 2))%Z.
Proof.
  intros Hp H1 H2. pose proof half_nano_pos as Hh. rewrite pow9_half in Hp. pose proof (grid_center_bounds ps k) as B. apply Rabs_le_inv in B.
  set (h := / 2 / 10 ^ 9) in *. assert (Hps : 0 < ps) by lra. split.
  - apply trunc_le_int. apply Rmult_le_reg_r with ps; [exact Hps|]. unfold Rdiv. rewrite Rmult_minus_distr_r, Rmult_assoc, Rinv_l by lra. lra.
  - apply trunc_gt_int. apply Rmult_le_reg_r with ps; [exact Hps|]. unfold Rdiv. rewrite (Rmult_plus_distr_r (M * / ps)), Rmult_assoc, Rinv_l by lra. lra.
Qed.
Lemma segment_pixels_complete ps p q k l r : / 10 ^ 9 <= ps ->
  / 10 ^ 9 <= (Rabs (x2 q - x2 p) + Rabs (y2 q - y2 p)) * ps ->
  in_segment2 r p q -> in_square r (V2 (grid_center ps k) (grid_center ps l)) ps ->
  In (V2 (grid_center ps k) (grid_center ps l)) (segment_pixels ps (p, q)).
Proof.
  intros Hp D HS [Bx By]. cbn in Bx, By. apply Rabs_le_inv in Bx. apply Rabs_le_inv in By. apply in_segment_pixels. exists k, l. split; [reflexivity|].
  pose proof (segment_extent r p q HS) as [Ex Ey]. split; [apply pixel_range; auto; lra|]. split; [apply pixel_range; auto; lra|]. cbn.
  apply hit_complete with r; [exact HS|split; lra|]. eapply Rle_trans; [exact D|]. right. field.
Qed.
Lemma segment_pixels_sound ps p q c : 0 <= ps -> In c (segment_pixels ps (p, q)) ->
  (exists k l, c = V2 (grid_center ps k) (grid_center ps l)) /\ p <> q
  /\ forall d, 0 <= d -> / 2 / 10 ^ 9 <= d * (Rabs (x2 q - x2 p) + Rabs (y2 q - y2 p)) -> exists r, in_segment2 r p q /\ in_square r c (ps + 2 * d).
Proof.
  intros Hp H. apply in_segment_pixels in H as (k & l & E & _ & _ & H). split; [eauto|]. split; [eapply hit_nondegenerate, H|].
  intros d Hd D. assert (X1 : x2 c - ps / 2 <= x2 c + ps / 2) by lra. assert (X2 : y2 c - ps / 2 <= y2 c + ps / 2) by lra.
  destruct (hit_sound _ _ _ _ _ _ d X1 X2 H Hd D) as (r & HS & [Rx Ry]). exists r. split; [exact HS|].
  split; apply Rabs_le; lra.
Qed.
Lemma pixels_complete ps segs p q k l r : / 10 ^ 9 <= ps -> In (p, q) segs ->
  / 10 ^ 9 <= (Rabs (x2 q - x2 p) + Rabs (y2 q - y2 p)) * ps ->
  in_segment2 r p q -> in_square r (V2 (grid_center ps k) (grid_center ps l)) ps ->
  In (V2 (grid_center ps k) (grid_center ps l)) (line_segments_to_pixels segs ps).
Proof. intros. apply nodup_In, in_flat_map. exists (p, q). split; [assumption|]. now apply segment_pixels_complete with r. Qed.
Lemma pixels_sound ps segs c : 0 <= ps -> In c (line_segments_to_pixels segs ps) ->
  exists p q, In (p, q) segs /\ p <> q /\ (exists k l, c = V2 (grid_center ps k) (grid_center ps l))
  /\ forall d, 0 <= d -> / 2 / 10 ^ 9 <= d * (Rabs (x2 q - x2 p) + Rabs (y2 q - y2 p)) -> exists r, in_segment2 r p q /\ in_square r c (ps + 2 * d).
Proof.
  intros Hp H. apply nodup_In, in_flat_map in H as ((p & q) & Hs & H). exists p, q. split; [exact Hs|].
  destruct (segment_pixels_sound ps p q c Hp H) as (A & B & C). auto.
Qed.
Lemma pixels_nodup ps segs : NoDup (line_segments_to_pixels segs ps).
Proof. apply NoDup_nodup. Qed.

(** a short segment through the middle of a small pixel is not seen *)
Definition short_p := V2 (4 / 10 ^ 6) (5 / 10 ^ 6).
Definition short_q := V2 (6 / 10 ^ 6) (5 / 10 ^ 6).
Definition small := / 10 ^ 5.
Lemma small_center : grid_center small 0 = 5 / 10 ^ 6.
Proof. unfold grid_center, small. replace ((0 + 1 / 2) * / 10 ^ 5) with (IZR 5000 / 10 ^ 9) by field. rewrite round9_nano. field. Qed.
Lemma round9_tiny x : Rabs x < / 2 / 10 ^ 9 -> round9 x = 0.
Proof.
  intros H. pose proof pow9_pos as P. unfold round9, round_digits. assert (E : c_round (x * 10 ^ 9) = 0%Z); [|rewrite E; unfold Rdiv; ring].
  pose proof (round_bounds (x * 10 ^ 9)) as B. pose proof (Rle_abs x). pose proof (Rle_abs (- x)) as Hm. rewrite Rabs_Ropp in Hm.
  assert (Hx : - / 2 < x * 10 ^ 9 < / 2).
  { assert (K : / 2 / 10 ^ 9 * 10 ^ 9 = / 2) by (field; lra). assert (X1 : x < / 2 / 10 ^ 9) by lra. assert (X2 : - x < / 2 / 10 ^ 9) by lra.
    apply (Rmult_lt_compat_r (10 ^ 9)) in X1; [|exact P]. apply (Rmult_lt_compat_r (10 ^ 9)) in X2; [|exact P]. rewrite K in X1, X2. lra. }
  assert (c_round (x * 10 ^ 9) < 1)%Z by (apply lt_IZR; lra). assert (-1 < c_round (x * 10 ^ 9))%Z by (apply lt_IZR; lra). lia.
Qed.
Lemma short_missed : line_segments_to_pixels [(short_p, short_q)] small = [].
Proof.
  destruct (line_segments_to_pixels _ _) as [|c l] eqn:E; [reflexivity|]. exfalso.
  assert (H : In c (line_segments_to_pixels [(short_p, short_q)] small)) by (rewrite E; now left). clear E.
  apply nodup_In, in_flat_map in H as ((p & q) & [Es|[]] & H). apply pair_equal_spec in Es as [<- <-].
  apply in_segment_pixels in H as (k & m & -> & Hk & Hm & H). cbn [x2 y2] in H.
  assert (K : forall k, grid_center small k = (IZR k + 1 / 2) * small).
  { intros j. unfold grid_center, small. replace ((IZR j + 1 / 2) * / 10 ^ 5) with (IZR (10000 * j + 5000) / 10 ^ 9) by (rewrite plus_IZR, mult_IZR; field). apply round9_nano. }
  rewrite !K in H. apply hit_iff in H as [[_ [_ (x & y & _ & Hy & L)]] (_ & _ & S3 & S4)]. apply L. apply round9_tiny. rewrite line_eq_alt.
  unfold short_p, short_q in *. cbn [x2 y2] in *. rewrite Rmin_left in S3 by lra. rewrite Rmax_left in S4 by lra. unfold small in *.
  assert (Hm0 : (m = 0)%Z). { assert (m < 1)%Z by (apply lt_IZR; lra). assert (-1 < m)%Z by (apply lt_IZR; lra). lia. }
  subst m. apply Rabs_def1; destruct Hy as [-> | ->]; lra.
Qed.
