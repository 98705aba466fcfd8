(** Segments: the distance between two segments, and between a segment and a line. *)
From Verif.Model Require Import Base RBase Vec Frame BBox Geometry Curves Edges.
From Verif.Spec Require Import VecSpec CurvesSpec PlaneSpec BBoxSpec EdgesSpec.
From Verif.Proofs Require Import VecP LineP CurvesP BBoxP EdgesP EdgesP3 EdgesP4 EdgesP7.
From Coq Require Import List Lra Lia Psatz.
Import ListNotations.
Open Scope R_scope.

Lemma dir_dot_ne s : proper2 s -> 0 < dot2 (dir2 s) (dir2 s).
Proof. intros H. rewrite <- norm2_sq, <- sg2_length_dir. pose proof (sg2_length_pos s H). nra. Qed.
Lemma closest_spec s p : proper2 s -> exists q, sg2_closest_point s p = Ok q /\ on_segment2 s q /\
  forall r, on_segment2 s r -> point_distance2 q p <= point_distance2 r p.
Proof.
  intros H. pose proof (dir_dot_ne s H) as D. unfold sg2_closest_point. cbv zeta. rewrite (proj2 (Reqb_false (dot2 (dir2 s) (dir2 s)) 0)) by lra.
  eexists. split; [reflexivity|]. set (t := Rmax 0 (Rmin (dot2 (sub2 p (fst s)) (dir2 s) / dot2 (dir2 s) (dir2 s)) 1)).
  assert (E : V2 (x2 (fst s) + t * x2 (dir2 s)) (y2 (fst s) + t * y2 (dir2 s)) = at_param2 s t).
  { unfold at_param2, add2, mul2. fold (dir2 s). cbn [x2 y2]. apply vec2_ext; cbn [x2 y2]; ring. }
  rewrite E. split; [exists t; split; [unfold t; rewrite Rmin_comm; apply clamp_range|reflexivity]|].
  intros r (u & U & ->). unfold point_distance2. apply sq_le; [apply norm2_pos|]. rewrite !norm2_sq.
  assert (G : forall k, dot2 (sub2 (at_param2 s k) p) (sub2 (at_param2 s k) p) =
    dot2 (sub2 p (fst s)) (sub2 p (fst s)) + (dot2 (dir2 s) (dir2 s) * k * k - 2 * dot2 (sub2 p (fst s)) (dir2 s) * k)).
  { intros k. unfold at_param2. fold (dir2 s). clear. generalize (dir2 s) (fst s). intros d o. vec. ring. }
  rewrite !G. apply Rplus_le_compat_l. unfold t. rewrite Rmin_comm. apply clamp_min; auto.
Qed.
(** leaving the unit square *)
Lemma exit_square s t s0 t0 : 0 <= s <= 1 -> 0 <= t <= 1 -> ~ (0 <= s0 <= 1 /\ 0 <= t0 <= 1) ->
  exists k, 0 <= k <= 1 /\ (let s' := s + k * (s0 - s) in let t' := t + k * (t0 - t) in
    0 <= s' <= 1 /\ 0 <= t' <= 1 /\ (s' = 0 \/ s' = 1 \/ t' = 0 \/ t' = 1)).
Proof.
  intros S T N.
  assert (K : forall x x0, 0 <= x <= 1 -> exists k, 0 <= k <= 1 /\ (forall j, 0 <= j <= k -> 0 <= x + j * (x0 - x) <= 1) /\
     (x + k * (x0 - x) = 0 \/ x + k * (x0 - x) = 1 \/ (k = 1 /\ 0 <= x0 <= 1))).
  { intros x x0 X. destruct (Rlt_dec x0 0) as [A|A]; [|destruct (Rlt_dec 1 x0) as [B|B]].
    - exists (x / (x - x0)). assert (P : 0 < x - x0) by lra.
      assert (Q : x / (x - x0) * (x - x0) = x) by (field; lra).
      assert (Q0 : 0 <= x / (x - x0)) by (apply Rmult_le_pos; [lra|apply Rlt_le, Rinv_0_lt_compat, P]).
      assert (Q1 : x / (x - x0) <= 1) by (apply Rmult_le_reg_r with (x - x0); lra).
      split; [lra|]. split; [|left; lra]. intros j J. nra.
    - exists ((1 - x) / (x0 - x)). assert (P : 0 < x0 - x) by lra.
      assert (Q : (1 - x) / (x0 - x) * (x0 - x) = 1 - x) by (field; lra).
      assert (Q0 : 0 <= (1 - x) / (x0 - x)) by (apply Rmult_le_pos; [lra|apply Rlt_le, Rinv_0_lt_compat, P]).
      assert (Q1 : (1 - x) / (x0 - x) <= 1) by (apply Rmult_le_reg_r with (x0 - x); lra).
      split; [lra|]. split; [|right; left; lra]. intros j J. nra.
    - exists 1. split; [lra|]. split; [intros j J; nra|right; right; lra]. }
  destruct (K s s0 S) as (k1 & K1 & I1 & E1). destruct (K t t0 T) as (k2 & K2 & I2 & E2).
  destruct (Rle_dec k1 k2) as [L|L].
  - exists k1. split; auto. cbv zeta. split; [apply I1; lra|]. split; [apply I2; lra|].
    destruct E1 as [E|[E|[E F]]]; [left; exact E|right; left; exact E|]. assert (k2 = 1) by lra. subst k1 k2.
    destruct E2 as [E2|[E2|[E2 F2]]]; [auto|auto|]. exfalso. apply N. split; auto.
  - exists k2. split; auto. cbv zeta. split; [apply I1; lra|]. split; [apply I2; lra|].
    destruct E2 as [E|[E|[E F]]]; [auto|auto|lra].
Qed.
(** for segments without a common point, some end is at least as close as any pair of points *)
Lemma end_closest s t p q : ~ (exists r, on_segment2 s r /\ on_segment2 t r) -> on_segment2 s p -> on_segment2 t q ->
  exists p' q', on_segment2 s p' /\ on_segment2 t q' /\ point_distance2 p' q' <= point_distance2 p q /\
    (p' = fst s \/ p' = snd s \/ q' = fst t \/ q' = snd t).
Proof.
  intros N (u & U & ->) (v & V & ->).
  assert (G : exists u0 v0, ~ (0 <= u0 <= 1 /\ 0 <= v0 <= 1) /\
    forall k, 0 <= k <= 1 -> point_distance2 (at_param2 s (u + k * (u0 - u))) (at_param2 t (v + k * (v0 - v))) <= point_distance2 (at_param2 s u) (at_param2 t v)).
  { destruct (Req_dec (den2 s t) 0) as [Z|Z].
    - destruct (Req_dec (dot2 (dir2 t) (dir2 t)) 0) as [Y|Y].
      + exists u, (v + 2). split; [lra|]. intros k K. apply dot2_zero in Y. apply Req_le. f_equal.
        * f_equal. ring.
        * unfold at_param2. fold (dir2 t). rewrite Y. generalize (fst t). intros o. vec; v_eq; ring.
      + (* parallel: dir s = c dir t *)
        set (c := dot2 (dir2 s) (dir2 t) / dot2 (dir2 t) (dir2 t)).
        assert (C : dir2 s = mul2 (dir2 t) c).
        { change (cross2 (dir2 s) (dir2 t) = 0) in Z. unfold c. generalize dependent (dir2 s). intros d Z. revert Y Z. generalize (dir2 t). intros e. clear.
          intros Y Z. destruct d as [d1 d2], e as [e1 e2]. unfold cross2, dot2, mul2 in *. cbn [x2 y2] in *. apply vec2_ext; cbn [x2 y2].
          - apply Rmult_eq_reg_r with (e1 * e1 + e2 * e2); auto. transitivity (e1 * (d1 * e1 + d2 * e2)); [|field; auto].
            replace (d1 * (e1 * e1 + e2 * e2)) with (d1 * e1 * e1 + (d1 * e2) * e2) by ring. replace (d1 * e2) with (d2 * e1) by lra. ring.
          - apply Rmult_eq_reg_r with (e1 * e1 + e2 * e2); auto. transitivity (e2 * (d1 * e1 + d2 * e2)); [|field; auto].
            replace (d2 * (e1 * e1 + e2 * e2)) with (d2 * e2 * e2 + (d2 * e1) * e1) by ring. replace (d2 * e1) with (d1 * e2) by lra. ring. }
        exists (u + 2), (v + 2 * c). split; [lra|]. intros k K. apply Req_le. unfold point_distance2. f_equal.
        unfold at_param2. fold (dir2 s) (dir2 t). rewrite C. generalize (dir2 t) (fst s) (fst t). intros d o o'. clear. vec; v_eq; ring.
    - (* the lines meet at a point *)
      set (w := sub2 (fst t) (fst s)). set (u0 := cross2 w (dir2 t) / den2 s t). set (v0 := cross2 w (dir2 s) / den2 s t).
      assert (M : at_param2 s u0 = at_param2 t v0).
      { unfold u0, v0, at_param2, w. change (den2 s t) with (cross2 (dir2 s) (dir2 t)) in *. fold (dir2 s) (dir2 t). revert Z. generalize (dir2 s) (dir2 t) (fst s) (fst t). clear.
        intros [d1 d2] [e1 e2] [a1 a2] [b1 b2]. unfold cross2, add2, sub2, mul2. cbn [x2 y2]. intros Z. apply vec2_ext; cbn [x2 y2]; field; auto. }
      exists u0, v0. split.
      + intros [A B]. apply N. exists (at_param2 s u0). split; [exists u0; auto|]. rewrite M. exists v0; auto.
      + intros k K. replace (point_distance2 (at_param2 s (u + k * (u0 - u))) (at_param2 t (v + k * (v0 - v)))) with ((1 - k) * point_distance2 (at_param2 s u) (at_param2 t v)).
        * assert (0 <= point_distance2 (at_param2 s u) (at_param2 t v)) by apply norm2_pos. nra.
        * unfold point_distance2. rewrite <- (Rabs_right (1 - k)) by lra. rewrite <- norm2_scale. f_equal.
          revert M. generalize u0 v0. clear. unfold at_param2. fold (dir2 s) (dir2 t). generalize (dir2 s) (dir2 t) (fst s) (fst t).
          intros [d1 d2] [e1 e2] [a1 a2] [b1 b2] u0 v0 M. pose proof (f_equal x2 M) as M1. pose proof (f_equal y2 M) as M2. unfold add2, sub2, mul2 in *. cbn [x2 y2] in *.
          apply vec2_ext; cbn [x2 y2]; [replace (a1 + d1 * (u + k * (u0 - u))) with (a1 + d1 * u + k * (a1 + d1 * u0 - (a1 + d1 * u))) by ring; rewrite M1|replace (a2 + d2 * (u + k * (u0 - u))) with (a2 + d2 * u + k * (a2 + d2 * u0 - (a2 + d2 * u))) by ring; rewrite M2]; ring. }
  destruct G as (u0 & v0 & O & D). destruct (exit_square u v u0 v0 U V O) as (k & K & X). cbv zeta in X. destruct X as (X1 & X2 & X3).
  exists (at_param2 s (u + k * (u0 - u))), (at_param2 t (v + k * (v0 - v))). split; [eexists; split; [exact X1|reflexivity]|]. split; [eexists; split; [exact X2|reflexivity]|].
  split; [apply D, K|]. destruct X3 as [E|[E|[E|E]]]; rewrite E; [left; apply seg2_0|right; left; apply seg2_1|right; right; left; apply seg2_0|right; right; right; apply seg2_1].
Qed.
Lemma first_least_spec l : l <> [] -> exists d p q, first_least l = Some (d, p, q) /\ In (p, q) l /\ d = point_distance2 p q /\
  forall p' q', In (p', q') l -> d <= point_distance2 p' q'.
Proof.
  unfold first_least. set (f := fun best pq => _).
  assert (G : forall l d p q, d = point_distance2 p q -> exists d' p' q', fold_left f l (Some (d, p, q)) = Some (d', p', q') /\ (In (p', q') l \/ (p', q') = (p, q)) /\
    d' = point_distance2 p' q' /\ d' <= d /\ forall a b, In (a, b) l -> d' <= point_distance2 a b).
  { clear l. induction l as [|[a b] l IH]; intros d p q D.
    - exists d, p, q. cbn [fold_left]. split; auto. split; auto. split; auto. split; [lra|intros ? ? []].
    - cbn [fold_left]. unfold f at 2. cbn [fst snd]. destruct (Rltb (point_distance2 a b) d) eqn:E; rb.
      + destruct (IH _ a b eq_refl) as (d' & p' & q' & F & I & D' & L & M). exists d', p', q'. split; auto. split; [left; destruct I as [I|I]; [right; auto|left; congruence]|].
        split; auto. split; [lra|]. intros x y [X|X]; [|auto]. apply pair_equal_spec in X as [<- <-]. lra.
      + destruct (IH d p q D) as (d' & p' & q' & F & I & D' & L & M). exists d', p', q'. split; auto. split; [destruct I as [I|I]; [left; right; auto|right; auto]|].
        split; auto. split; [lra|]. intros x y [X|X]; [|auto]. apply pair_equal_spec in X as [<- <-]. lra. }
  intros N. destruct l as [|[a b] l]; [congruence|]. cbn [fold_left]. unfold f at 2. cbn [fst snd].
  destruct (G l _ a b eq_refl) as (d' & p' & q' & F & I & D' & L & M). exists d', p', q'. split; auto. split; [destruct I as [I|I]; [right; auto|left; congruence]|].
  split; auto. intros x y [X|X]; [|auto]. apply pair_equal_spec in X as [<- <-]. lra.
Qed.
Lemma dist_refl p : point_distance2 p p = 0. Proof. apply dist2_zero. reflexivity. Qed.
(** the distance of two segments that have no common point *)
Lemma sg2_distance_disjoint s t : proper2 s -> proper2 t -> ~ (exists r, on_segment2 s r /\ on_segment2 t r) ->
  sg2_intersections s t (/ 10 ^ 6) = Ok [] ->
  exists d p q, sg2_distance s t = Ok (d, p, q) /\ d = point_distance2 p q /\ min_dist point_distance2 (on_segment2 s) (on_segment2 t) d.
Proof.
  intros S T N I. unfold sg2_distance. rewrite I. cbn [bind].
  destruct (closest_spec s (fst t) S) as (a & -> & A1 & A2). cbn [bind].
  destruct (closest_spec s (snd t) S) as (b & -> & B1 & B2). cbn [bind].
  destruct (closest_spec t (fst s) T) as (c & -> & C1 & C2). cbn [bind].
  destruct (closest_spec t (snd s) T) as (e & -> & E1 & E2). cbn [bind].
  destruct (first_least_spec [(a, fst t); (b, snd t); (c, fst s); (e, snd s)] ltac:(discriminate)) as (d & p & q & -> & F1 & F2 & F3).
  exists d, p, q. split; [reflexivity|]. split; auto.
  assert (S0 : on_segment2 s (fst s)) by (rewrite <- (seg2_0 (fst s) (snd s)); apply on_seg2_intro; lra).
  assert (S1 : on_segment2 s (snd s)) by (rewrite <- (seg2_1 (fst s) (snd s)); apply on_seg2_intro; lra).
  assert (T0 : on_segment2 t (fst t)) by (rewrite <- (seg2_0 (fst t) (snd t)); apply on_seg2_intro; lra).
  assert (T1 : on_segment2 t (snd t)) by (rewrite <- (seg2_1 (fst t) (snd t)); apply on_seg2_intro; lra).
  split.
  - cbn [In] in F1. destruct F1 as [X|[X|[X|[X|[]]]]]; apply pair_equal_spec in X as [<- <-].
    + exists a, (fst t). auto.
    + exists b, (snd t). auto.
    + exists (fst s), c. split; auto. split; auto. rewrite F2. apply dist2_sym.
    + exists (snd s), e. split; auto. split; auto. rewrite F2. apply dist2_sym.
  - intros x y X Y. destruct (end_closest s t x y N X Y) as (x' & y' & X' & Y' & D & [-> | [-> | [-> | ->]]]).
    + specialize (C2 y' Y'). specialize (F3 c (fst s) ltac:(cbn; auto)). rewrite (dist2_sym y') in C2. lra.
    + specialize (E2 y' Y'). specialize (F3 e (snd s) ltac:(cbn; auto)). rewrite (dist2_sym y') in E2. lra.
    + specialize (A2 x' X'). specialize (F3 a (fst t) ltac:(cbn; auto)). lra.
    + specialize (B2 x' X'). specialize (F3 b (snd t) ltac:(cbn; auto)). lra.
Qed.
Lemma min_dist_unique d d' s t : min_dist point_distance2 (on_segment2 s) (on_segment2 t) d -> min_dist point_distance2 (on_segment2 s) (on_segment2 t) d' -> d = d'.
Proof. intros ((p & q & P & Q & E) & M) ((p' & q' & P' & Q' & E') & M'). specialize (M p' q' P' Q'). specialize (M' p q P Q). lra. Qed.
Lemma sg2_inter_some s t tol r pts : proper2 s -> proper2 t -> sg2_intersections s t tol = Ok (r :: pts) ->
  exists k j, line_intersection s t = Some (r, k, j) /\ r = at_param2 s k /\ r = at_param2 t j.
Proof.
  intros S U. unfold sg2_intersections. destruct (Rltb _ _); [discriminate|]. destruct (is_colinear_to2 _ _ _); [discriminate|].
  destruct (line_intersection s t) as [[[p k] j]|] eqn:I; [|discriminate]. pose proof (line_intersection_some _ _ _ _ _ I) as (_ & P1 & P2).
  rewrite P1, projection_param by auto. cbn [bind fst]. destruct (accept s (k * sg2_length s)); [|discriminate].
  destruct (sg2_point_projection t (at_param2 s k)) as [[[q|] a]|]; cbn [bind fst]; try discriminate. intros E. apply Ok_inj in E.
  assert (R : at_param2 s k = r) by congruence. exists k, j. rewrite <- R, <- P1. auto.
Qed.
Lemma param_inj s k j : proper2 s -> at_param2 s k = at_param2 s j -> k = j.
Proof.
  intros H E. apply dist2_zero in E. change (point_distance2 (seg2 (fst s) (snd s) k) (seg2 (fst s) (snd s) j) = 0) in E. rewrite seg2_dist in E.
  pose proof (sg2_length_pos s H) as L. unfold sg2_length in L. apply Rmult_integral in E as [E|E]; [|lra].
  destruct (Req_dec (k - j) 0) as [Z|Z]; [lra|]. apply Rabs_no_R0 in Z. lra.
Qed.
(** whether they have a common point can be read off the intersection *)
Lemma sg2_inter_dec s t tol r pts : proper2 s -> proper2 t -> sg2_intersections s t tol = Ok (r :: pts) ->
  {exists r, on_segment2 s r /\ on_segment2 t r} + {~ exists r, on_segment2 s r /\ on_segment2 t r}.
Proof.
  intros S T I. destruct (line_intersection s t) as [[[p k] j]|] eqn:L.
  - pose proof (line_intersection_some _ _ _ _ _ L) as (_ & P1 & P2).
    assert (U : forall x, on_segment2 s x -> on_segment2 t x -> x = p). { intros x X Y. apply (line_intersection_unique s t p k j); auto; apply on_seg_line; auto. }
    assert (NO : ~ (0 <= k <= 1 /\ 0 <= j <= 1) -> ~ exists r, on_segment2 s r /\ on_segment2 t r).
    { intros N (x & X & Y). pose proof (U x X Y) as E. destruct X as (k' & K' & X), Y as (j' & J' & Y). apply N.
      assert (k = k') by (apply (param_inj s); auto; congruence). assert (j = j') by (apply (param_inj t); auto; congruence). subst. auto. }
    destruct (Rle_dec 0 k) as [K0|K0]; [|right; apply NO; lra]. destruct (Rle_dec k 1) as [K1|K1]; [|right; apply NO; lra].
    destruct (Rle_dec 0 j) as [J0|J0]; [|right; apply NO; lra]. destruct (Rle_dec j 1) as [J1|J1]; [|right; apply NO; lra].
    left. exists p. split; [exists k; auto|exists j; auto].
  - exfalso. destruct (sg2_inter_some s t tol r pts S T I) as (k & j & E & _). congruence.
Qed.
(** in general: exact for segments without a common point whose intersection list is empty, 0 for segments that
    cross at a detected angle, and otherwise within the reach of the intersection test *)
Lemma sg2_distance_total s t : proper2 s -> proper2 t -> (apart s t (/ 10 ^ 6) /\ / 10 ^ 15 < Rabs (den2 s t)) \/ ~ (exists r, on_segment2 s r /\ on_segment2 t r) ->
  exists d p q m, sg2_distance s t = Ok (d, p, q) /\ d = point_distance2 p q /\ min_dist point_distance2 (on_segment2 s) (on_segment2 t) m /\
    Rabs (d - m) <= reach s + reach t.
Proof.
  intros S T C. destruct (sg2_inter_total s t (/ 10 ^ 6) S T) as (pts & I & _).
  assert (RS : forall s, 0 < reach s). { intros r. unfold reach. apply Rlt_le_trans with (/ 10 ^ 6); [apply pow10_inv_pos|apply Rmax_l]. }
  destruct pts as [|r pts].
  - assert (N : ~ (exists r, on_segment2 s r /\ on_segment2 t r)).
    { destruct C as [[A D]|C]; auto. intros (r & P & Q). rewrite (sg2_inter_complete s t (/ 10 ^ 6) r S T) in I; auto; [discriminate|apply Rlt_le, pow10_inv_pos]. }
    destruct (sg2_distance_disjoint s t S T N I) as (d & p & q & E & D & M). exists d, p, q, d. split; auto. split; auto. split; auto.
    replace (d - d) with 0 by ring. rewrite Rabs_R0. pose proof (RS s). pose proof (RS t). lra.
  - destruct (sg2_inter_sound s t (/ 10 ^ 6) r (r :: pts) S T I (or_introl eq_refl)) as ((a & A1 & A2) & (b & B1 & B2) & _).
    unfold sg2_distance. rewrite I. cbn [bind]. exists 0, r, r.
    assert (AB : point_distance2 a b <= reach s + reach t). { pose proof (dist2_triangle a r b). rewrite (dist2_sym a r) in H. lra. }
    destruct (sg2_inter_dec s t _ r pts S T I) as [(x & X & Y)|N].
    + exists 0. split; [reflexivity|]. split; [symmetry; apply dist_refl|]. split.
      * split; [exists x, x; split; auto; split; auto; apply dist_refl|]. intros. apply norm2_pos.
      * replace (0 - 0) with 0 by ring. rewrite Rabs_R0. pose proof (RS s). pose proof (RS t). lra.
    + (* a minimum exists: compute it from the four ends *)
      destruct (closest_spec s (fst t) S) as (a1 & _ & A3 & A4).
      destruct (closest_spec s (snd t) S) as (b1 & _ & B3 & B4).
      destruct (closest_spec t (fst s) T) as (c1 & _ & C3 & C4).
      destruct (closest_spec t (snd s) T) as (e1 & _ & E3 & E4).
      set (m := Rmin (Rmin (point_distance2 a1 (fst t)) (point_distance2 b1 (snd t))) (Rmin (point_distance2 c1 (fst s)) (point_distance2 e1 (snd s)))).
      assert (S0 : on_segment2 s (fst s)) by (rewrite <- (seg2_0 (fst s) (snd s)); apply on_seg2_intro; lra).
      assert (S1 : on_segment2 s (snd s)) by (rewrite <- (seg2_1 (fst s) (snd s)); apply on_seg2_intro; lra).
      assert (T0 : on_segment2 t (fst t)) by (rewrite <- (seg2_0 (fst t) (snd t)); apply on_seg2_intro; lra).
      assert (T1 : on_segment2 t (snd t)) by (rewrite <- (seg2_1 (fst t) (snd t)); apply on_seg2_intro; lra).
      assert (MD : min_dist point_distance2 (on_segment2 s) (on_segment2 t) m).
      { split.
        - unfold m. set (PP := fun m => exists p q, on_segment2 s p /\ on_segment2 t q /\ point_distance2 p q = m).
          apply (Rmin_case _ _ PP); apply (Rmin_case _ _ PP); unfold PP.
          + exists a1, (fst t); auto.
          + exists b1, (snd t); auto.
          + exists (fst s), c1. split; [auto|split; [auto|apply dist2_sym]].
          + exists (snd s), e1. split; [auto|split; [auto|apply dist2_sym]].
        - intros x y X Y. destruct (end_closest s t x y N X Y) as (x' & y' & X' & Y' & D & K).
          assert (M1 : m <= point_distance2 a1 (fst t)) by (unfold m; eapply Rle_trans; [apply Rmin_l|apply Rmin_l]).
          assert (M2 : m <= point_distance2 b1 (snd t)) by (unfold m; eapply Rle_trans; [apply Rmin_l|apply Rmin_r]).
          assert (M3 : m <= point_distance2 c1 (fst s)) by (unfold m; eapply Rle_trans; [apply Rmin_r|apply Rmin_l]).
          assert (M4 : m <= point_distance2 e1 (snd s)) by (unfold m; eapply Rle_trans; [apply Rmin_r|apply Rmin_r]).
          destruct K as [-> | [-> | [-> | ->]]].
          + specialize (C4 y' Y'). rewrite (dist2_sym y') in C4. lra.
          + specialize (E4 y' Y'). rewrite (dist2_sym y') in E4. lra.
          + specialize (A4 x' X'). lra.
          + specialize (B4 x' X'). lra. }
      exists m. split; [reflexivity|]. split; [symmetry; apply dist_refl|]. split; auto.
      destruct MD as [(x & y & X & Y & E) M]. specialize (M a b A1 B1). assert (0 <= m) by (rewrite <- E; apply norm2_pos). rewrite Rabs_left1; lra.
Qed.
(** segments that cross at a small angle are reported to be apart *)
Lemma sg2_distance_flat : exists s t d p q, proper2 s /\ proper2 t /\ min_dist point_distance2 (on_segment2 s) (on_segment2 t) 0 /\
  sg2_distance s t = Ok (d, p, q) /\ / 2000 <= d.
Proof.
  destruct flat_proper as [F1 F2], flat_common as [C1 C2].
  assert (I : sg2_intersections flat1 flat2 (/ 10 ^ 6) = Ok []). { unfold sg2_intersections. rewrite flat_colinear. destruct (Rltb _ _); reflexivity. }
  unfold sg2_distance.
  destruct (closest_spec flat1 (fst flat2) F1) as (a & Ea & A1 & _).
  destruct (closest_spec flat1 (snd flat2) F1) as (b & Eb & B1 & _).
  destruct (closest_spec flat2 (fst flat1) F2) as (c & Ec & D1 & _).
  destruct (closest_spec flat2 (snd flat1) F2) as (e & Ee & E1 & _).
  destruct (first_least_spec [(a, fst flat2); (b, snd flat2); (c, fst flat1); (e, snd flat1)] ltac:(discriminate)) as (d & p & q & FL & L1 & L2 & L3).
  exists flat1, flat2, d, p, q. split; auto. split; auto.
  split. { split; [exists (V2 0 0), (V2 0 0); split; auto; split; auto; apply dist_refl|intros; apply norm2_pos]. }
  rewrite I, Ea, Eb, Ec, Ee. cbn [bind]. rewrite FL. split; [reflexivity|].
  assert (K : forall p q, / 1000 * / 1000 <= 4 * ((x2 p - x2 q) * (x2 p - x2 q) + (y2 p - y2 q) * (y2 p - y2 q)) -> / 2000 <= point_distance2 p q).
  { intros x y H. unfold point_distance2, norm2, sub2. cbn [x2 y2]. apply Rsqr_incr_0_var; [|apply sqrt_pos]. rewrite Rsqr_sqrt by nra. unfold Rsqr. lra. }
  rewrite L2. apply K. cbn [In] in L1.
  destruct L1 as [X|[X|[X|[X|[]]]]]; apply pair_equal_spec in X as [<- <-];
    [destruct A1 as (k & K1 & ->)|destruct B1 as (k & K1 & ->)|destruct D1 as (k & K1 & ->)|destruct E1 as (k & K1 & ->)];
    unfold at_param2, flat1, flat2, add2, mul2, sub2; cbn [fst snd x2 y2].
  - replace (0 + (0 - 0) * k - - / 1000) with (/ 1000) by lra. pose proof (Rle_0_sqr (-1 + (1 - -1) * k - -1)) as Z. unfold Rsqr in Z. lra.
  - replace (0 + (0 - 0) * k - / 1000) with (- / 1000) by lra. pose proof (Rle_0_sqr (-1 + (1 - -1) * k - 1)) as Z. unfold Rsqr in Z. lra.
  - destruct (Rle_dec k (/ 4)) as [Q|Q].
    + pose proof (Rle_0_sqr (-1 + (1 - -1) * k - -1)) as Z. unfold Rsqr in Z. assert (W : / 2 * / 2 <= (1 - 2 * k) * (1 - 2 * k)) by nra.
      replace (- / 1000 + (/ 1000 - - / 1000) * k - 0) with (- / 1000 * (1 - 2 * k)) by ring. nra.
    + pose proof (Rle_0_sqr (- / 1000 + (/ 1000 - - / 1000) * k - 0)) as Z. unfold Rsqr in Z. assert (W : / 2 * / 2 <= (2 * k) * (2 * k)) by nra.
      replace (-1 + (1 - -1) * k - -1) with (2 * k) by ring. lra.
  - destruct (Rle_dec (3 / 4) k) as [Q|Q].
    + pose proof (Rle_0_sqr (-1 + (1 - -1) * k - 1)) as Z. unfold Rsqr in Z. assert (W : / 2 * / 2 <= (1 - 2 * k) * (1 - 2 * k)) by nra.
      replace (- / 1000 + (/ 1000 - - / 1000) * k - 0) with (- / 1000 * (1 - 2 * k)) by ring. nra.
    + pose proof (Rle_0_sqr (- / 1000 + (/ 1000 - - / 1000) * k - 0)) as Z. unfold Rsqr in Z. assert (W : / 2 * / 2 <= (2 - 2 * k) * (2 - 2 * k)) by nra.
      replace (-1 + (1 - -1) * k - 1) with (- (2 - 2 * k)) by ring. lra.
Qed.
