(** Where the separating axis test is wrong, and what a positive answer means. *)
From Coq Require Import Lra Lia Psatz.
From Verif.Model Require Import RBase Vec BBox Geometry Sat.
From Verif.Spec Require Import SatSpec.
From Verif.Proofs Require Import VecP GeometryP SatP.
Open Scope R_scope.

Lemma sat_sep t0 t1 t2 center ext (k : nat) :
  let v0 := sub3 t0 center in let v1 := sub3 t1 center in let v2 := sub3 t2 center in
  axis_separates v0 v1 v2 ((match k with O => axis0 | 1%nat => axis1 | _ => axis2 end) (sub3 t1 t0)) (sub3 t1 t0) ext = true ->
  sat_test (t0, t1, t2) center ext = false.
Proof.
  cbv zeta. intros H. unfold sat_test. destruct k as [|[|k]]; rewrite H;
  repeat match goal with |- (if ?b then _ else _) = _ => destruct b; [reflexivity|] end; try reflexivity;
  match goal with |- (if ?b then _ else _) = _ => destruct b; reflexivity | _ => idtac end.
Qed.

Lemma round9_apart a b : / 10 ^ 9 < Rabs (a - b) -> Reqb (round9 a) (round9 b) = false.
Proof.
  intros H. destruct (Reqb _ _) eqn:E; [|reflexivity]. rb. exfalso.
  pose proof (round9_bounds a) as A. pose proof (round9_bounds b) as B. rewrite E in A.
  apply Rabs_le_inv in A. apply Rabs_le_inv in B. pose proof pow9_pos as P. assert (/ 10 ^ 9 = / 2 / 10 ^ 9 + / 2 / 10 ^ 9) by (field; lra).
  assert (Rabs (a - b) <= / 10 ^ 9); [apply Rabs_le; lra|lra].
Qed.
Lemma no_interface k pr a b c center ext :
  / 10 ^ 9 < Rabs (k a - (k center - k ext)) -> / 10 ^ 9 < Rabs (k a - (k center + k ext)) ->
  interface_block k pr (a, b, c) center ext = false.
Proof.
  intros H1 H2. unfold interface_block. rewrite (round9_apart _ _ H1), (round9_apart _ _ H2). cbn [orb].
  now rewrite Bool.andb_false_r.
Qed.
Lemma abs_gt x e : e < x \/ e < - x -> e < Rabs x.
Proof. intros [H|H]; pose proof (Rle_abs x); pose proof (Rle_abs (- x)) as N; rewrite Rabs_Ropp in N; lra. Qed.

Definition shift (c : vec3) (a b d : R) : vec3 := V3 (x3 c + a) (y3 c + b) (z3 c + d).
Lemma missed_triangle center e0 e1 e2 : / 10 ^ 9 < e0 -> / 10 ^ 9 < e1 -> / 10 ^ 9 < e2 ->
  4 / 10 ^ 9 < Rabs (e0 - e1) \/ 4 / 10 ^ 9 < Rabs (e1 - e2) \/ 4 / 10 ^ 9 < Rabs (e0 - e2) ->
  exists t0 t1 t2, in_box3 t0 center (V3 e0 e1 e2) /\ in_box3 t1 center (V3 e0 e1 e2) /\ in_box3 t2 center (V3 e0 e1 e2)
    /\ triangle_intersects_voxel (t0, t1, t2) center (V3 e0 e1 e2) = false.
Proof.
  intros H0 H1 H2 D. pose proof pow9_pos as P. set (d := / 10 ^ 9) in *. assert (Hd : 0 < d) by (apply Rinv_0_lt_compat, P).
  assert (E4 : 4 / 10 ^ 9 = 4 * d) by reflexivity. rewrite E4 in D. clear E4.
  assert (C : e0 + 2 * d < e1 \/ e1 + 2 * d < e2 \/ e2 + 2 * d < e0).
  { destruct (Rlt_dec (e0 + 2 * d) e1); [now left|]. destruct (Rlt_dec (e1 + 2 * d) e2); [now right; left|].
    destruct (Rlt_dec (e2 + 2 * d) e0); [now right; right|]. exfalso.
    assert (Rabs (e0 - e1) <= 4 * d) by (apply Rabs_le; lra). assert (Rabs (e1 - e2) <= 4 * d) by (apply Rabs_le; lra).
    assert (Rabs (e0 - e2) <= 4 * d) by (apply Rabs_le; lra). lra. }
  assert (IB : forall a b c, Rabs a <= e0 -> Rabs b <= e1 -> Rabs c <= e2 -> in_box3 (shift center a b c) center (V3 e0 e1 e2)).
  { intros a b c Ha Hb Hc. unfold in_box3, shift; cbn. repeat split;
    match goal with |- Rabs (?u + ?v - ?u) <= _ => replace (u + v - u) with v by ring end; assumption. }
  assert (NI : forall k (t0 t1 t2 : vec3), sat_test (t0, t1, t2) center (V3 e0 e1 e2) = false ->
     t0 = shift center (x3 k) (y3 k) (z3 k) -> (d < Rabs (x3 k + e0)) -> d < Rabs (x3 k - e0) -> d < Rabs (y3 k + e1) -> d < Rabs (y3 k - e1)
     -> d < Rabs (z3 k + e2) -> d < Rabs (z3 k - e2) -> triangle_intersects_voxel (t0, t1, t2) center (V3 e0 e1 e2) = false).
  { intros k t0 t1 t2 S -> A1 A2 A3 A4 A5 A6. unfold triangle_intersects_voxel. rewrite S. cbn [orb]. unfold interface_test.
    rewrite !no_interface; [reflexivity|..]; fold d; cbn [x3 y3 z3 shift];
    match goal with H : d < Rabs ?x |- d < Rabs ?y => replace y with x by ring; exact H end. }
  assert (B0 : Rabs 0 <= e0 /\ Rabs 0 <= e1 /\ Rabs 0 <= e2) by (rewrite Rabs_R0; lra).
  destruct B0 as (B0 & B1 & B2).
  assert (Hh : forall e, 0 < e -> Rabs (e / 2) <= e) by (intros e He; rewrite Rabs_right; lra).
  destruct C as [C|[C|C]].
  - assert (Y : Rabs ((e0 + e1) / 2) <= e1) by (rewrite Rabs_right; lra).
    exists (shift center 0 ((e0 + e1) / 2) 0), (shift center 0 ((e0 + e1) / 2) (e2 / 2)), (shift center (e0 / 2) ((e0 + e1) / 2) 0).
    repeat apply conj; try (apply IB; auto; apply Hh; lra).
    apply (NI (V3 0 ((e0 + e1) / 2) 0)); [|reflexivity|..]; cbn [x3 y3 z3]; try (apply abs_gt; lra).
    apply sat_sep with (k := O). unfold axis_separates, axis0, dot3, sub3, shift, max_of3, min_of3; cbn. destruct (Rltb _ _) eqn:E; [reflexivity|]. rb. exfalso.
    apply Rle_not_lt in E. apply E. eapply Rlt_le_trans; [|apply Rmax_l].
    replace (x3 center + 0 - (x3 center + 0)) with 0 by ring. replace (y3 center + (e0 + e1) / 2 - (y3 center + (e0 + e1) / 2)) with 0 by ring.
    rewrite Rabs_R0. replace (z3 center + e2 / 2 - (z3 center + 0)) with (e2 / 2) by ring. rewrite (Rabs_right (e2 / 2)) by lra.
    assert (Em : forall a b c, a = b -> c = b -> Rmax (Rmax a b) c = b) by (intros ? ? ? -> ->; rewrite Rmax_left; [apply Rmax_left; lra|apply Rmax_l]).
    rewrite Em; [nra|ring|ring].
  - assert (Y : Rabs ((e1 + e2) / 2) <= e2) by (rewrite Rabs_right; lra).
    exists (shift center 0 0 ((e1 + e2) / 2)), (shift center (e0 / 2) 0 ((e1 + e2) / 2)), (shift center 0 (e1 / 2) ((e1 + e2) / 2)).
    repeat apply conj; try (apply IB; auto; apply Hh; lra).
    apply (NI (V3 0 0 ((e1 + e2) / 2))); [|reflexivity|..]; cbn [x3 y3 z3]; try (apply abs_gt; lra).
    apply sat_sep with (k := 1%nat). unfold axis_separates, axis1, dot3, sub3, shift, max_of3, min_of3; cbn. destruct (Rltb _ _) eqn:E; [reflexivity|]. rb. exfalso.
    apply Rle_not_lt in E. apply E. eapply Rlt_le_trans; [|apply Rmax_l].
    replace (y3 center + 0 - (y3 center + 0)) with 0 by ring. replace (z3 center + (e1 + e2) / 2 - (z3 center + (e1 + e2) / 2)) with 0 by ring.
    rewrite Rabs_R0. replace (x3 center + e0 / 2 - (x3 center + 0)) with (e0 / 2) by ring. rewrite (Rabs_right (e0 / 2)) by lra.
    assert (Em : forall a b c, a = b -> c = b -> Rmax (Rmax a b) c = b) by (intros ? ? ? -> ->; rewrite Rmax_left; [apply Rmax_left; lra|apply Rmax_l]).
    rewrite Em; [nra|ring|ring].
  - assert (Y : Rabs ((e0 + e2) / 2) <= e0) by (rewrite Rabs_right; lra).
    exists (shift center ((e0 + e2) / 2) 0 0), (shift center ((e0 + e2) / 2) (e1 / 2) 0), (shift center ((e0 + e2) / 2) 0 (e2 / 2)).
    repeat apply conj; try (apply IB; auto; apply Hh; lra).
    apply (NI (V3 ((e0 + e2) / 2) 0 0)); [|reflexivity|..]; cbn [x3 y3 z3]; try (apply abs_gt; lra).
    apply sat_sep with (k := 2%nat). unfold axis_separates, axis2, dot3, sub3, shift, max_of3, min_of3; cbn. destruct (Rltb _ _) eqn:E; [reflexivity|]. rb. exfalso.
    apply Rle_not_lt in E. apply E. eapply Rlt_le_trans; [|apply Rmax_l].
    replace (z3 center + 0 - (z3 center + 0)) with 0 by ring. replace (x3 center + (e0 + e2) / 2 - (x3 center + (e0 + e2) / 2)) with 0 by ring.
    rewrite Rabs_R0. replace (y3 center + e1 / 2 - (y3 center + 0)) with (e1 / 2) by ring. rewrite (Rabs_right (e1 / 2)) by lra.
    assert (Em : forall a b c, a = b -> c = b -> Rmax (Rmax a b) c = b) by (intros ? ? ? -> ->; rewrite Rmax_left; [apply Rmax_left; lra|apply Rmax_l]).
    rewrite Em; [nra|ring|ring].
Qed.

(** ** What a positive answer means *)
(** the axis aligned bounding box of the triangle *)
Lemma slab_meets a b c e center : 0 <= e -> slab_misses (a - center) (b - center) (c - center) e = false ->
  exists q, min_of3 a b c <= q <= max_of3 a b c /\ Rabs (q - center) <= e.
Proof.
  intros He H. unfold slab_misses in H. apply orb_false_iff in H as [H1 H2]. rb.
  assert (Em : min_of3 (a - center) (b - center) (c - center) = min_of3 a b c - center).
  { unfold min_of3, Rmin. repeat (destruct (Rle_dec _ _); try lra). }
  assert (EM : max_of3 (a - center) (b - center) (c - center) = max_of3 a b c - center).
  { unfold max_of3, Rmax. repeat (destruct (Rle_dec _ _); try lra). }
  rewrite Em in H2. rewrite EM in H1. pose proof (min_of3_le a b c). pose proof (max_of3_ge a b c).
  exists (Rmin (center + e) (max_of3 a b c)). split.
  - split; [apply Rmin_glb; lra|apply Rmin_r].
  - apply Rabs_le. pose proof (Rmin_l (center + e) (max_of3 a b c)). pose proof (Rmin_r (center + e) (max_of3 a b c)).
    split; [|lra]. assert (center - e <= Rmin (center + e) (max_of3 a b c)) by (apply Rmin_glb; lra). lra.
Qed.
Lemma sgn_abs n : exists s, Rabs s <= 1 /\ n * s = Rabs n.
Proof. destruct (Rle_dec 0 n); [exists 1|exists (-1)]; (split; [apply Rabs_le; lra|]); [rewrite Rabs_right|rewrite Rabs_left]; lra. Qed.
Lemma plane_meets n v e0 e1 e2 : 0 <= e0 -> 0 <= e1 -> 0 <= e2 ->
  Rabs (dot3 n v) <= e0 * Rabs (x3 n) + e1 * Rabs (y3 n) + e2 * Rabs (z3 n) ->
  exists q, Rabs (x3 q) <= e0 /\ Rabs (y3 q) <= e1 /\ Rabs (z3 q) <= e2 /\ dot3 n q = dot3 n v.
Proof.
  intros H0 H1 H2 H. set (S := e0 * Rabs (x3 n) + e1 * Rabs (y3 n) + e2 * Rabs (z3 n)) in *.
  destruct (sgn_abs (x3 n)) as (a & Ha & Ea). destruct (sgn_abs (y3 n)) as (b & Hb & Eb). destruct (sgn_abs (z3 n)) as (c & Hc & Ec).
  assert (L : exists l, Rabs l <= 1 /\ l * S = dot3 n v).
  { destruct (Req_dec S 0) as [Z|Z].
    - exists 0. rewrite Rabs_R0. split; [lra|]. rewrite Z in H. pose proof (Rabs_pos (dot3 n v)).
      assert (dot3 n v = 0); [|lra]. apply Rabs_le_inv in H. lra.
    - exists (dot3 n v / S). assert (0 < S). { pose proof (Rabs_pos (dot3 n v)). lra. } split; [|field; lra].
      unfold Rdiv. rewrite Rabs_mult, (Rabs_right (/ S)) by (left; now apply Rinv_0_lt_compat).
      apply Rmult_le_reg_r with S; [assumption|]. rewrite Rmult_assoc, Rinv_l by lra. lra. }
  destruct L as (l & Hl & El).
  assert (K : forall e s, 0 <= e -> Rabs s <= 1 -> Rabs (l * s * e) <= e).
  { intros e s He Hs. rewrite !Rabs_mult, (Rabs_right e) by lra. pose proof (Rabs_pos l). pose proof (Rabs_pos s).
    assert (Rabs l * Rabs s <= 1) by nra. nra. }
  exists (V3 (l * a * e0) (l * b * e1) (l * c * e2)). cbn. repeat (split; [now apply K|]).
  rewrite <- El. unfold S. unfold dot3; cbn. rewrite <- Ea, <- Eb, <- Ec. ring.
Qed.
Lemma sat_meaning t0 t1 t2 center ext : 0 <= x3 ext -> 0 <= y3 ext -> 0 <= z3 ext -> sat_test (t0, t1, t2) center ext = true ->
  (exists q, in_box3 q center ext
     /\ min_of3 (x3 t0) (x3 t1) (x3 t2) <= x3 q <= max_of3 (x3 t0) (x3 t1) (x3 t2)
     /\ min_of3 (y3 t0) (y3 t1) (y3 t2) <= y3 q <= max_of3 (y3 t0) (y3 t1) (y3 t2)
     /\ min_of3 (z3 t0) (z3 t1) (z3 t2) <= z3 q <= max_of3 (z3 t0) (z3 t1) (z3 t2))
  /\ (exists q, in_box3 q center ext /\ dot3 (cross3 (sub3 t1 t0) (sub3 t2 t0)) (sub3 q t0) = 0).
Proof.
  intros H0 H1 H2 H. unfold sat_test in H.
  destruct (slab_misses (x3 _) _ _ _) eqn:Sx; [discriminate|]. destruct (slab_misses (y3 _) _ _ _) eqn:Sy; [discriminate|].
  destruct (slab_misses (z3 _) _ _ _) eqn:Sz; [discriminate|]. destruct (Rltb _ (Rabs _)) eqn:N; [discriminate|]. clear H. rb.
  split.
  - destruct (slab_meets _ _ _ _ _ H0 Sx) as (qx & Bx & Ex). destruct (slab_meets _ _ _ _ _ H1 Sy) as (qy & By & Ey).
    destruct (slab_meets _ _ _ _ _ H2 Sz) as (qz & Bz & Ez). exists (V3 qx qy qz). cbn. unfold in_box3; cbn. auto 10.
  - destruct (plane_meets _ _ _ _ _ H0 H1 H2 N) as (q & Qx & Qy & Qz & E). exists (add3 q center). unfold in_box3, add3; cbn.
    repeat match goal with |- context [?a + ?b - ?b] => replace (a + b - b) with a by ring end. repeat (split; [assumption|]).
    unfold dot3, cross3, sub3 in *; cbn in *. lra.
Qed.

Lemma rectangles_overlap_spec a b c d : rectangles_overlap a b c d = true -> x2 c <= x2 b /\ x2 a <= x2 d /\ y2 c <= y2 b /\ y2 a <= y2 d.
Proof.
  unfold rectangles_overlap. intros H. destruct (Rltb (x2 b) (x2 c)) eqn:E1; [discriminate|]. destruct (Rltb (x2 d) (x2 a)) eqn:E2; [discriminate|].
  destruct (Rltb (y2 b) (y2 c)) eqn:E3; [discriminate|]. destruct (Rltb (y2 d) (y2 a)) eqn:E4; [discriminate|]. rb. auto.
Qed.
Definition ivl_meets (m M c e : R) : Prop := exists q, m <= q <= M /\ Rabs (q - c) <= e + / 10 ^ 9.
Lemma ivl_intro m M c e : 0 <= e -> m <= M -> m <= round9 (c + e) -> round9 (c - e) <= M -> ivl_meets m M c e.
Proof.
  intros He Hm H1 H2. pose proof (round9_bounds (c + e)) as A. pose proof (round9_bounds (c - e)) as B. apply Rabs_le_inv in A. apply Rabs_le_inv in B.
  pose proof pow9_pos as P. assert (D : / 10 ^ 9 = / 2 / 10 ^ 9 + / 2 / 10 ^ 9) by (field; lra). assert (0 < / 2 / 10 ^ 9) by (apply Rmult_lt_0_compat; [lra|apply Rinv_0_lt_compat, P]).
  set (h := / 2 / 10 ^ 9) in *. unfold ivl_meets. rewrite D. exists (Rmin (c + e + h + h) M). split.
  - split; [apply Rmin_glb; lra|apply Rmin_r].
  - apply Rabs_le. pose proof (Rmin_l (c + e + h + h) M). split; [|lra]. assert (c - e - h - h <= Rmin (c + e + h + h) M) by (apply Rmin_glb; lra). lra.
Qed.
Lemma min_le_max a b c : min_of3 a b c <= max_of3 a b c.
Proof. pose proof (min_of3_le a b c). pose proof (max_of3_ge a b c). lra. Qed.
Lemma hit_2d_meaning t center ext : 0 <= x2 ext -> 0 <= y2 ext -> triangle_2d_hits_pixel t center ext = true ->
  let '(a, b, c) := t in
  ivl_meets (min_of3 (x2 a) (x2 b) (x2 c)) (max_of3 (x2 a) (x2 b) (x2 c)) (x2 center) (x2 ext)
  /\ ivl_meets (min_of3 (y2 a) (y2 b) (y2 c)) (max_of3 (y2 a) (y2 b) (y2 c)) (y2 center) (y2 ext).
Proof.
  destruct t as [[a b] c]. intros Hx Hy H. unfold triangle_2d_hits_pixel in H. destruct (rectangles_overlap _ _ _ _) eqn:O; [|discriminate].
  apply rectangles_overlap_spec in O as (O1 & O2 & O3 & O4). cbn in O1, O2, O3, O4. split; apply ivl_intro; auto using min_le_max.
Qed.
Lemma edge_meets a b c center e : 0 <= e -> round9 a = round9 (center - e) \/ round9 a = round9 (center + e) ->
  ivl_meets (min_of3 a b c) (max_of3 a b c) center e.
Proof.
  intros He H. pose proof (min_of3_le a b c). pose proof (max_of3_ge a b c). exists a. split; [lra|].
  pose proof pow9_pos as P. assert (D : / 10 ^ 9 = / 2 / 10 ^ 9 + / 2 / 10 ^ 9) by (field; lra). pose proof (round9_bounds a) as A. apply Rabs_le_inv in A.
  destruct H as [E|E]; [pose proof (round9_bounds (center - e)) as B|pose proof (round9_bounds (center + e)) as B]; rewrite <- E in B; apply Rabs_le_inv in B; apply Rabs_le; lra.
Qed.
Lemma block_meaning k pr t0 t1 t2 center ext : 0 <= k ext -> 0 <= x2 (pr ext) -> 0 <= y2 (pr ext) ->
  interface_block k pr (t0, t1, t2) center ext = true ->
  ivl_meets (min_of3 (k t0) (k t1) (k t2)) (max_of3 (k t0) (k t1) (k t2)) (k center) (k ext)
  /\ ivl_meets (min_of3 (x2 (pr t0)) (x2 (pr t1)) (x2 (pr t2))) (max_of3 (x2 (pr t0)) (x2 (pr t1)) (x2 (pr t2))) (x2 (pr center)) (x2 (pr ext))
  /\ ivl_meets (min_of3 (y2 (pr t0)) (y2 (pr t1)) (y2 (pr t2))) (max_of3 (y2 (pr t0)) (y2 (pr t1)) (y2 (pr t2))) (y2 (pr center)) (y2 (pr ext)).
Proof.
  intros H0 H1 H2 H. unfold interface_block in H. apply andb_prop in H as [H T]. apply andb_prop in H as [_ H].
  split; [|exact (hit_2d_meaning _ _ _ H1 H2 T)]. apply edge_meets; [exact H0|]. apply orb_prop in H as [H|H]; rb; auto.
Qed.
Lemma intersects_meaning t0 t1 t2 center ext : 0 <= x3 ext -> 0 <= y3 ext -> 0 <= z3 ext ->
  triangle_intersects_voxel (t0, t1, t2) center ext = true ->
  exists q, in_box3 q center (V3 (x3 ext + / 10 ^ 9) (y3 ext + / 10 ^ 9) (z3 ext + / 10 ^ 9))
     /\ min_of3 (x3 t0) (x3 t1) (x3 t2) <= x3 q <= max_of3 (x3 t0) (x3 t1) (x3 t2)
     /\ min_of3 (y3 t0) (y3 t1) (y3 t2) <= y3 q <= max_of3 (y3 t0) (y3 t1) (y3 t2)
     /\ min_of3 (z3 t0) (z3 t1) (z3 t2) <= z3 q <= max_of3 (z3 t0) (z3 t1) (z3 t2).
Proof.
  intros H0 H1 H2 H. pose proof pow9_pos as P. assert (Hd : 0 < / 10 ^ 9) by (apply Rinv_0_lt_compat, P). unfold triangle_intersects_voxel in H. apply orb_prop in H as [H|H].
  - destruct (sat_meaning _ _ _ _ _ H0 H1 H2 H) as [(q & (Bx & By & Bz) & Q) _]. exists q. split; [|exact Q]. unfold in_box3; cbn. repeat split; lra.
  - assert (W : ivl_meets (min_of3 (x3 t0) (x3 t1) (x3 t2)) (max_of3 (x3 t0) (x3 t1) (x3 t2)) (x3 center) (x3 ext)
       /\ ivl_meets (min_of3 (y3 t0) (y3 t1) (y3 t2)) (max_of3 (y3 t0) (y3 t1) (y3 t2)) (y3 center) (y3 ext)
       /\ ivl_meets (min_of3 (z3 t0) (z3 t1) (z3 t2)) (max_of3 (z3 t0) (z3 t1) (z3 t2)) (z3 center) (z3 ext)).
    { unfold interface_test in H. apply orb_prop in H as [H|H]; [apply orb_prop in H as [H|H]|]; apply block_meaning in H; cbn in *; tauto. }
    destruct W as ((qx & Bx & Ex) & (qy & By & Ey) & (qz & Bz & Ez)). exists (V3 qx qy qz). cbn. unfold in_box3; cbn. auto 10.
Qed.

(** ** A disjoint triangle reported as intersecting a cube *)
Definition fp0 := V3 (-2) 1 (-1).
Definition fp1 := V3 1 0 (-2).
Definition fp2 := V3 0 0 (-2).
Definition cube1 := V3 1 1 1.
Definition orig := V3 0 0 0.
Lemma fp_disjoint p : in_triangle3 p fp0 fp1 fp2 -> ~ in_box3 p orig cube1.
Proof.
  intros (r & s & t & Hr & Hs & Ht & E & Ex & Ey & Ez) (Bx & By & Bz). unfold fp0, fp1, fp2, orig, cube1 in *. cbn in *.
  apply Rabs_le_inv in Bx. apply Rabs_le_inv in Bz. lra.
Qed.
Ltac eval_abs :=
  repeat match goal with
  | |- context [Rabs ?x] =>
      first [ let H := fresh in assert (H : 0 <= x) by lra; rewrite (Rabs_right x) by lra; clear H
            | let H := fresh in assert (H : x < 0) by lra; rewrite (Rabs_left x) by lra; clear H ]
  end.
Ltac eval_cmp :=
  repeat match goal with
  | |- context [Rle_dec ?a ?b] => destruct (Rle_dec a b); try lra
  | |- context [Rlt_dec ?a ?b] => destruct (Rlt_dec a b); try lra
  end.
Lemma axis_ok v0 v1 v2 ax f ext :
  let r := x3 ext * Rabs (z3 f) + y3 ext * Rabs (x3 f) + z3 ext * Rabs (y3 f) in
  dot3 v0 ax <= r \/ dot3 v1 ax <= r \/ dot3 v2 ax <= r -> - r <= dot3 v0 ax \/ - r <= dot3 v1 ax \/ - r <= dot3 v2 ax ->
  axis_separates v0 v1 v2 ax f ext = false.
Proof.
  cbv zeta. intros H1 H2. unfold axis_separates. destruct (Rltb _ _) eqn:E; [|reflexivity]. rb. exfalso. apply (Rlt_not_le _ _ E).
  pose proof (min_of3_le (dot3 v0 ax) (dot3 v1 ax) (dot3 v2 ax)). pose proof (max_of3_ge (dot3 v0 ax) (dot3 v1 ax) (dot3 v2 ax)).
  apply Rmax_lub; lra.
Qed.
Lemma slab_ok a b c e : a <= e \/ b <= e \/ c <= e -> - e <= a \/ - e <= b \/ - e <= c -> slab_misses a b c e = false.
Proof.
  intros H1 H2. unfold slab_misses. pose proof (min_of3_le a b c). pose proof (max_of3_ge a b c).
  apply orb_false_iff; split; destruct (Rltb _ _) eqn:E; rb; try reflexivity; lra.
Qed.
Lemma fp_reported : sat_test (fp0, fp1, fp2) orig cube1 = true.
Proof.
  unfold sat_test. rewrite !slab_ok, !axis_ok.
  all: unfold axis0, axis1, axis2, dot3, cross3, sub3, fp0, fp1, fp2, orig, cube1; cbn [x3 y3 z3]; eval_abs; try lra.
  destruct (Rltb _ _) eqn:E; [|reflexivity]. rb. exfalso. lra.
Qed.
