(** Candidate voxels of a box; pixels of a segment. *)
From Coq Require Import Lra Lia Psatz FinFun.
From Verif.Model Require Import RBase Vec BBox Geometry Sat.
From Verif.Spec Require Import SatSpec.
From Verif.Proofs Require Import VecP GeometryP FloodFillP SatP SatP2.
Open Scope R_scope.

Lemma pow9_half : / 10 ^ 9 = / 2 / 10 ^ 9 + / 2 / 10 ^ 9.
Proof. pose proof pow9_pos. field; lra. Qed.
Lemma half_nano_pos : 0 < / 2 / 10 ^ 9.
Proof. apply Rmult_lt_0_compat; [lra|apply Rinv_0_lt_compat, pow9_pos]. Qed.

(** ** _aabb_intersecting_boxes *)
Lemma in_aabb mn mx v c : In c (aabb_intersecting_boxes mn mx v) <->
  exists i j k, c = V3 (grid_center v i) (grid_center v j) (grid_center v k)
    /\ (axis_start (x3 mn) v <= i < axis_end (x3 mx) v)%Z
    /\ (axis_start (y3 mn) v <= j < axis_end (y3 mx) v)%Z
    /\ (axis_start (z3 mn) v <= k < axis_end (z3 mx) v)%Z.
Proof.
  unfold aabb_intersecting_boxes. rewrite in_flat_map. split.
  - intros (i & Hi & H). apply in_flat_map in H as (j & Hj & H). apply in_map_iff in H as (k & E & Hk).
    apply in_zrange in Hi. apply in_zrange in Hj. apply in_zrange in Hk. exists i, j, k. auto.
  - intros (i & j & k & E & Hi & Hj & Hk). exists i. split; [now apply in_zrange|]. apply in_flat_map. exists j. split; [now apply in_zrange|].
    apply in_map_iff. exists k. split; [auto|now apply in_zrange].
Qed.
Lemma axis_cover m M v k : 0 < v -> m <= (IZR k + 1) * v -> IZR k * v <= M -> (axis_start m v <= k < axis_end M v)%Z.
Proof.
  intros Hv H1 H2. unfold axis_start, axis_end. split.
  - apply trunc_le_int. apply Rmult_le_reg_r with v; [exact Hv|]. unfold Rdiv. rewrite Rmult_minus_distr_r, Rmult_assoc, Rinv_l by lra. lra.
  - apply trunc_gt_int. apply Rmult_le_reg_r with v; [exact Hv|]. unfold Rdiv. rewrite (Rmult_plus_distr_r (M * / v)), Rmult_assoc, Rinv_l by lra. lra.
Qed.
Lemma axis_near m M v k : 0 < v -> (axis_start m v <= k < axis_end M v)%Z -> m - 2 * v < IZR k * v /\ IZR k * v < M + v.
Proof.
  intros Hv [H1 H2]. unfold axis_start, axis_end in *. apply IZR_le in H1. assert (H3 : (k + 1 <= c_trunc (M / v + 1))%Z) by lia. apply IZR_le in H3. rewrite plus_IZR in H3.
  pose proof (trunc_bounds (m / v - 1)) as [B1 _]. pose proof (trunc_bounds (M / v + 1)) as [_ B2].
  assert (Em : m / v * v = m) by (field; lra). assert (EM : M / v * v = M) by (field; lra).
  assert (m / v - 2 < IZR k) by lra. assert (IZR k < M / v + 1) by lra. nra.
Qed.
Lemma aabb_complete mn mx v i j k q : 0 < v ->
  x3 mn <= x3 q <= x3 mx -> y3 mn <= y3 q <= y3 mx -> z3 mn <= z3 q <= z3 mx ->
  IZR i * v <= x3 q <= (IZR i + 1) * v -> IZR j * v <= y3 q <= (IZR j + 1) * v -> IZR k * v <= z3 q <= (IZR k + 1) * v ->
  In (V3 (grid_center v i) (grid_center v j) (grid_center v k)) (aabb_intersecting_boxes mn mx v).
Proof.
  intros Hv Bx By Bz Vx Vy Vz. apply in_aabb. exists i, j, k. split; [reflexivity|]. split; [|split]; apply axis_cover; lra.
Qed.
Lemma aabb_sound mn mx v c : 0 < v -> In c (aabb_intersecting_boxes mn mx v) ->
  exists i j k, c = V3 (grid_center v i) (grid_center v j) (grid_center v k)
    /\ x3 mn - 2 * v < IZR i * v < x3 mx + v /\ y3 mn - 2 * v < IZR j * v < y3 mx + v /\ z3 mn - 2 * v < IZR k * v < z3 mx + v.
Proof.
  intros Hv H. apply in_aabb in H as (i & j & k & E & Hi & Hj & Hk). exists i, j, k. split; [exact E|].
  split; [|split]; apply axis_near; auto.
Qed.
Lemma grid_center_bounds v k : Rabs (grid_center v k - (IZR k + 1 / 2) * v) <= / 2 / 10 ^ 9.
Proof. apply round9_bounds. Qed.
Lemma round_succ x y : x + 1 <= y -> (c_round x < c_round y)%Z.
Proof.
  intros H. unfold c_round. destruct (Rltb x 0) eqn:Ex; destruct (Rltb y 0) eqn:Ey; rb.
  - pose proof (floor_spec (- x + 1 / 2)). pose proof (floor_spec (- y + 1 / 2)). apply lt_IZR. rewrite !opp_IZR. lra.
  - pose proof (floor_spec (- x + 1 / 2)). pose proof (floor_spec (y + 1 / 2)).
    destruct (Z.eq_dec (rfloor (- x + 1 / 2)) 0) as [Z0|Z0].
    + rewrite Z0 in *. apply lt_IZR. rewrite opp_IZR. lra.
    + assert (0 <= rfloor (- x + 1 / 2))%Z by (apply Z.lt_succ_r; apply lt_IZR; rewrite succ_IZR; lra).
      assert (-1 < rfloor (y + 1 / 2))%Z by (apply lt_IZR; lra). lia.
  - lra.
  - pose proof (floor_spec (x + 1 / 2)). pose proof (floor_spec (y + 1 / 2)). apply lt_IZR. lra.
Qed.
Lemma grid_center_lt v i j : / 10 ^ 9 <= v -> (i < j)%Z -> grid_center v i < grid_center v j.
Proof.
  intros Hv H. pose proof pow9_pos as P. unfold grid_center, round9, round_digits. apply Rmult_lt_compat_r; [apply Rinv_0_lt_compat, P|].
  apply IZR_lt, round_succ. assert (H1 : IZR i + 1 <= IZR j) by (rewrite <- plus_IZR; apply IZR_le; lia).
  assert (1 <= v * 10 ^ 9). { apply Rmult_le_reg_l with (/ 10 ^ 9); [apply Rinv_0_lt_compat, P|]. rewrite Rmult_comm, Rmult_1_l, (Rmult_comm _ (v * 10 ^ 9)), Rmult_assoc, Rinv_r by lra. lra. }
  nra.
Qed.
Lemma grid_center_inj v i j : / 10 ^ 9 <= v -> grid_center v i = grid_center v j -> i = j.
Proof.
  intros Hv E. destruct (Ztrichotomy_inf i j) as [[L|L]|L]; [|exact L|].
  - pose proof (grid_center_lt v i j Hv L). lra.
  - pose proof (grid_center_lt v j i Hv ltac:(lia)). lra.
Qed.
Lemma nodup_zrange a b : NoDup (zrange a b).
Proof. unfold zrange. apply FinFun.Injective_map_NoDup; [intros x y E; lia|apply seq_NoDup]. Qed.
Lemma nodup_flat_map {A B} (f : A -> list B) l : NoDup l -> (forall a, In a l -> NoDup (f a)) ->
  (forall a b x, In a l -> In b l -> In x (f a) -> In x (f b) -> a = b) -> NoDup (flat_map f l).
Proof.
  induction l as [|a l IH]; intros N F D; [constructor|]. inversion N; subst. cbn.
  assert (IH' : NoDup (flat_map f l)).
  { apply IH; auto; [intros; apply F; now right|]. intros b c x Hb Hc. apply D; now right. }
  assert (Dis : forall x, In x (f a) -> ~ In x (flat_map f l)).
  { intros x Hx Hy. apply in_flat_map in Hy as (b & Hb & Hy). assert (a = b) by (eapply D; eauto; [now left|now right]). subst. contradiction. }
  pose proof (F a (or_introl eq_refl)) as Fa. revert Fa Dis. generalize (f a). induction l0 as [|x l0 IH0]; intros Fa Dis; cbn; [exact IH'|].
  inversion Fa; subst. constructor.
  - intros Hx. apply in_app_or in Hx as [Hx|Hx]; [contradiction|]. apply (Dis x); [now left|exact Hx].
  - apply IH0; auto. intros y Hy. apply Dis. now right.
Qed.
Lemma aabb_nodup mn mx v : / 10 ^ 9 <= v -> NoDup (aabb_intersecting_boxes mn mx v).
Proof.
  intros Hv. unfold aabb_intersecting_boxes. apply nodup_flat_map; [apply nodup_zrange|..].
  - intros i _. apply nodup_flat_map; [apply nodup_zrange|..].
    + intros j _. apply FinFun.Injective_map_NoDup; [|apply nodup_zrange]. intros k l E. apply (grid_center_inj v); [exact Hv|]. exact (f_equal z3 E).
    + intros j l c _ _ Hj Hl. apply in_map_iff in Hj as (k & E & _). apply in_map_iff in Hl as (k' & E' & _). apply (grid_center_inj v); [exact Hv|].
      subst c. symmetry. exact (f_equal y3 E').
  - intros i l c _ _ Hi Hl. apply in_flat_map in Hi as (j & _ & Hi). apply in_map_iff in Hi as (k & E & _).
    apply in_flat_map in Hl as (j' & _ & Hl). apply in_map_iff in Hl as (k' & E' & _). apply (grid_center_inj v); [exact Hv|].
    subst c. symmetry. exact (f_equal x3 E').
Qed.

(** ** _line_segment_intersects_pixel *)
Definition corners_spec (l : R -> R -> R) (xm xM ym yM : R) : Prop :=
  (exists x y, (x = xm \/ x = xM) /\ (y = ym \/ y = yM) /\ l x y <= 0)
  /\ (exists x y, (x = xm \/ x = xM) /\ (y = ym \/ y = yM) /\ 0 <= l x y)
  /\ (exists x y, (x = xm \/ x = xM) /\ (y = ym \/ y = yM) /\ l x y <> 0).
Definition hit_spec (p q : vec2) (xm xM ym yM : R) : Prop :=
  corners_spec (fun x y => round9 (line_eq p q x y)) xm xM ym yM
  /\ Rmin (x2 p) (x2 q) <= xM /\ xm <= Rmax (x2 p) (x2 q) /\ Rmin (y2 p) (y2 q) <= yM /\ ym <= Rmax (y2 p) (y2 q).
Lemma both_above a b M : Rltb M a && Rltb M b = false <-> Rmin a b <= M.
Proof. unfold Rltb, Rmin. destruct (Rlt_dec M a), (Rlt_dec M b); cbn; (split; [intros H; try discriminate|intros H]); destruct (Rle_dec a b); try lra; try reflexivity. Qed.
Lemma both_below a b m : Rltb a m && Rltb b m = false <-> m <= Rmax a b.
Proof. unfold Rltb, Rmax. destruct (Rlt_dec a m), (Rlt_dec b m); cbn; (split; [intros H; try discriminate|intros H]); destruct (Rle_dec a b); try lra; try reflexivity. Qed.
Lemma hit_iff p q xm xM ym yM : segment_hits_pixel p q xm xM ym yM = true <-> hit_spec p q xm xM ym yM.
Proof.
  unfold segment_hits_pixel, hit_spec. cbv zeta. rewrite negb_true_iff, orb_false_iff, !orb_false_iff, !both_above, !both_below. set (l := fun x y => round9 (line_eq p q x y)).
  change (round9 (line_eq p q xm ym)) with (l xm ym). change (round9 (line_eq p q xm yM)) with (l xm yM).
  change (round9 (line_eq p q xM ym)) with (l xM ym). change (round9 (line_eq p q xM yM)) with (l xM yM). clearbody l.
  assert (A : (all4 (fun l => Rleb 0 l) (l xm ym) (l xm yM) (l xM ym) (l xM yM) || all4 (fun l => Rltb l 0) (l xm ym) (l xm yM) (l xM ym) (l xM yM))
     && (all4 (fun l => Rltb 0 l) (l xm ym) (l xm yM) (l xM ym) (l xM yM) || all4 (fun l => Rleb l 0) (l xm ym) (l xm yM) (l xM ym) (l xM yM)) = false
    <-> corners_spec l xm xM ym yM).
  { unfold all4, corners_spec. split.
    - intros H.
      assert (N1 : ~ (0 < l xm ym /\ 0 < l xm yM /\ 0 < l xM ym /\ 0 < l xM yM)).
      { intros (a & b & c & d). unfold Rleb, Rltb in H. repeat (destruct (Rle_dec _ _); try lra); repeat (destruct (Rlt_dec _ _); try lra); discriminate. }
      assert (N2 : ~ (l xm ym < 0 /\ l xm yM < 0 /\ l xM ym < 0 /\ l xM yM < 0)).
      { intros (a & b & c & d). unfold Rleb, Rltb in H. repeat (destruct (Rle_dec _ _); try lra); repeat (destruct (Rlt_dec _ _); try lra); discriminate. }
      assert (N3 : ~ (l xm ym = 0 /\ l xm yM = 0 /\ l xM ym = 0 /\ l xM yM = 0)).
      { intros (a & b & c & d). rewrite a, b, c, d in H. unfold Rleb, Rltb in H. repeat (destruct (Rle_dec _ _); try lra); repeat (destruct (Rlt_dec _ _); try lra); discriminate. }
      clear H. repeat split.
      + destruct (Rle_dec (l xm ym) 0); [eauto 10|]. destruct (Rle_dec (l xm yM) 0); [eauto 10|]. destruct (Rle_dec (l xM ym) 0); [eauto 10|].
        destruct (Rle_dec (l xM yM) 0); [eauto 10|]. exfalso. lra.
      + destruct (Rle_dec 0 (l xm ym)); [eauto 10|]. destruct (Rle_dec 0 (l xm yM)); [eauto 10|]. destruct (Rle_dec 0 (l xM ym)); [eauto 10|].
        destruct (Rle_dec 0 (l xM yM)); [eauto 10|]. exfalso. lra.
      + destruct (Req_dec (l xm ym) 0); [|eauto 10]. destruct (Req_dec (l xm yM) 0); [|eauto 10]. destruct (Req_dec (l xM ym) 0); [|eauto 10].
        destruct (Req_dec (l xM yM) 0); [|eauto 10]. tauto.
    - intros ((x & y & Hx & Hy & H1) & (x' & y' & Hx' & Hy' & H2) & (x'' & y'' & Hx'' & Hy'' & H3)).
      apply not_true_is_false. intros E. apply andb_prop in E as [E1 E2]. apply orb_prop in E1 as [E1|E1]; apply orb_prop in E2 as [E2|E2];
      apply andb_prop in E1 as [E1 E14]; apply andb_prop in E1 as [E1 E13]; apply andb_prop in E1 as [E11 E12];
      apply andb_prop in E2 as [E2 E24]; apply andb_prop in E2 as [E2 E23]; apply andb_prop in E2 as [E21 E22]; rb;
      destruct Hx as [-> | ->], Hy as [-> | ->], Hx' as [-> | ->], Hy' as [-> | ->], Hx'' as [-> | ->], Hy'' as [-> | ->]; lra. }
  rewrite A. tauto.
Qed.
