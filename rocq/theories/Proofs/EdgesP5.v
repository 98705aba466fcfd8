(** Segments: trimming between two points, sampling between two abscissas. *)
From Verif.Model Require Import Base RBase Vec Frame BBox Geometry Curves Edges.
From Verif.Spec Require Import VecSpec CurvesSpec PlaneSpec EdgesSpec.
From Verif.Proofs Require Import VecP LineP CurvesP EdgesP EdgesP3 EdgesP4.
From Coq Require Import List Lra Lia Psatz.
Import ListNotations.
Open Scope R_scope.

Lemma tols : 0 < / 10 ^ 6 /\ / 10 ^ 6 < / 10 ^ 4.
Proof. lra. Qed.
Lemma near_sub a b u v k tol : u <= v -> 0 <= tol ->
  (near_segment2 (seg2 a b u, seg2 a b v) (seg2 a b k) tol <-> (u - k) * point_distance2 b a <= tol /\ (k - v) * point_distance2 b a <= tol).
Proof.
  intros U T. assert (L : 0 <= point_distance2 b a) by apply norm2_pos. split.
  - intros (q & Q & D). apply (proj1 (on_sub2 a b u v q U)) in Q as (j & J & ->). rewrite seg2_dist in D.
    split; (apply Rle_trans with (Rabs (k - j) * point_distance2 b a); auto; apply Rmult_le_compat_r; auto).
    + rewrite Rabs_minus_sym. apply Rle_trans with (j - k); [lra|apply Rle_abs].
    + apply Rle_trans with (k - j); [lra|apply Rle_abs].
  - intros [A B]. destruct (Rle_dec k u) as [K|K]; [|destruct (Rle_dec v k) as [V|V]].
    + exists (seg2 a b u). split; [apply (proj2 (on_sub2 a b u v _ U)); exists u; split; [lra|auto]|]. rewrite seg2_dist, Rabs_left1 by lra. lra.
    + exists (seg2 a b v). split; [apply (proj2 (on_sub2 a b u v _ U)); exists v; split; [lra|auto]|]. rewrite seg2_dist, Rabs_right by lra. lra.
    + exists (seg2 a b k). split; [apply (proj2 (on_sub2 a b u v _ U)); exists k; split; [lra|auto]|]. rewrite seg2_dist.
      replace (k - k) with 0 by ring. rewrite Rabs_R0. lra.
Qed.
Section Trim.
Variables (a b : vec2).
Let len := point_distance2 b a.
Let P := seg2 a b.
Hypothesis NE : a <> b.
Lemma len_pos : 0 < len.
Proof. apply (sg2_length_pos (a, b)). exact NE. Qed.
Lemma P_ne u v : u <> v -> P u <> P v.
Proof.
  intros H E. apply dist2_zero in E. unfold P in E. rewrite seg2_dist in E. fold len in E. pose proof len_pos.
  apply Rmult_integral in E as [E|E]; [|lra]. apply H. destruct (Req_dec (u - v) 0) as [Z|Z]; [lra|]. apply Rabs_no_R0 in Z. lra.
Qed.
Lemma P_close u v t : 0 <= t -> Rabs (u - v) * len <= t -> is_close2 (P u) (P v) t = true.
Proof. intros. apply close2_yes; auto. unfold P. rewrite seg2_dist. auto. Qed.
Lemma P_far u v t : 0 <= t -> t < Rabs (u - v) * len -> is_close2 (P u) (P v) t = false.
Proof. intros. apply close2_no; auto. unfold P. rewrite seg2_dist. auto. Qed.
Lemma P_in u v k t : u < v -> 0 <= t -> (u - k) * len <= t -> (k - v) * len <= t -> sg2_point_belongs (P u, P v) (P k) t = Ok true.
Proof. intros. apply sg2_belongs_yes; auto; [unfold proper2; cbn [fst snd]; apply P_ne; lra|]. apply near_sub; try lra. split; auto. Qed.
Lemma P_out u v k t : u < v -> 0 <= t -> t < (u - k) * len \/ t < (k - v) * len -> sg2_point_belongs (P u, P v) (P k) t = Ok false.
Proof.
  intros H T D. apply sg2_belongs_no; auto; [unfold proper2; cbn [fst snd]; apply P_ne; lra|]. intros N. apply near_sub in N as [N1 N2]; try lra. fold len in N1, N2. lra.
Qed.
Lemma P_split u v k t : u < v -> u <= k <= v -> 0 <= t ->
  ((k - u) * len <= t /\ sg2_split (P u, P v) (P k) t = Ok (None, Some (P u, P v))) \/
  (t < (k - u) * len /\ (v - k) * len <= t /\ sg2_split (P u, P v) (P k) t = Ok (Some (P u, P v), None)) \/
  (t < (k - u) * len /\ t < (v - k) * len /\ sg2_split (P u, P v) (P k) t = Ok (Some (P u, P k), Some (P k, P v))).
Proof.
  intros U K T. unfold sg2_split. cbn [fst snd].
  destruct (Rle_dec ((k - u) * len) t) as [A|A].
  { left. split; auto. rewrite P_close; auto. rewrite Rabs_right by lra. auto. }
  right. rewrite P_far; auto; [|rewrite Rabs_right; lra]. destruct (Rle_dec ((v - k) * len) t) as [B|B].
  { left. split; [lra|]. split; auto. rewrite P_close; auto. rewrite Rabs_left1 by lra. lra. }
  right. rewrite P_far; auto; [|rewrite Rabs_left1; lra]. split; [lra|]. split; [lra|].
  pose proof len_pos. assert (u <> k) by (intros ->; lra). assert (k <> v) by (intros ->; lra).
  rewrite !segment2_ok by (apply P_ne; auto). reflexivity.
Qed.
Lemma dist_P u v : point_distance2 (P u) (P v) = Rabs (u - v) * len.
Proof. apply seg2_dist. Qed.
Lemma pick_yes u v t1 t2 : u < v -> (u - t1) * len <= / 10 ^ 4 -> (t1 - v) * len <= / 10 ^ 4 ->
  (u - t2) * len <= / 10 ^ 4 -> (t2 - v) * len <= / 10 ^ 4 -> sg2_pick (Some (P u, P v)) (P t1) (P t2) = Ok true.
Proof.
  intros. unfold sg2_pick. rewrite P_in by (auto; apply Rlt_le, pow10_inv_pos). cbn [bind]. apply P_in; auto. apply Rlt_le, pow10_inv_pos.
Qed.
Lemma pick_no u v t1 t2 : u < v -> / 10 ^ 4 < (u - t1) * len \/ / 10 ^ 4 < (t1 - v) * len ->
  sg2_pick (Some (P u, P v)) (P t1) (P t2) = Ok false.
Proof. intros. unfold sg2_pick. rewrite P_out by (auto; apply Rlt_le, pow10_inv_pos). reflexivity. Qed.
Lemma joins_same t1 t2 u v e : 0 <= e -> Rabs (u - t1) * len <= e -> Rabs (v - t2) * len <= e -> joins2 (P u, P v) (P t1) (P t2) e.
Proof. intros. left. cbn [fst snd]. rewrite !dist_P. auto. Qed.
Lemma joins_rev t1 t2 u v e : 0 <= e -> Rabs (u - t2) * len <= e -> Rabs (v - t1) * len <= e -> joins2 (P u, P v) (P t1) (P t2) e.
Proof. intros. right. cbn [fst snd]. rewrite !dist_P. auto. Qed.
Lemma abs_same t : Rabs (t - t) * len <= / 10 ^ 6.
Proof. replace (t - t) with 0 by ring. rewrite Rabs_R0, Rmult_0_l. apply Rlt_le, pow10_inv_pos. Qed.
(** the second half of trim, on a piece [u, v] that contains t2, when t1 is (nearly) its start *)
Lemma trim_second u v t1 t2 : u < v -> u <= t2 <= v -> u <= t1 <= v -> / 10 ^ 4 < Rabs (t1 - t2) * len ->
  (t1 - u) * len <= / 10 ^ 6 \/ (v - t1) * len <= / 10 ^ 6 ->
  exists r, (do split2 <- sg2_split (P u, P v) (P t2) (/ 10 ^ 6);
    do k1 <- sg2_pick (fst split2) (P t1) (P t2);
    if k1 then Ok (fst split2)
    else do k2 <- sg2_pick (snd split2) (P t1) (P t2); Ok (if k2 then snd split2 else None)) = Ok (Some r) /\
   joins2 r (P t1) (P t2) (/ 10 ^ 6).
Proof.
  intros U T2 T1 F C. pose proof len_pos as L. destruct tols as [E6 E4].
  assert (E60 : 0 <= / 10 ^ 6) by lra.
  assert (A1 : 0 <= (t1 - u) * len) by (apply Rmult_le_pos; lra).
  assert (A2 : 0 <= (v - t1) * len) by (apply Rmult_le_pos; lra).
  assert (A3 : 0 <= (t2 - u) * len) by (apply Rmult_le_pos; lra).
  assert (A4 : 0 <= (v - t2) * len) by (apply Rmult_le_pos; lra).
  assert (E40 : 0 < / 10 ^ 4) by lra.
  set (e6 := / 10 ^ 6) in *. set (e4 := / 10 ^ 4) in *.
  destruct C as [C|C].
  - assert (O : t1 < t2). { destruct (Rlt_dec t1 t2); auto. exfalso. rewrite Rabs_right in F by lra. nra. }
    rewrite Rabs_left1 in F by lra.
    destruct (P_split u v t2 e6 U T2 E60) as [[S1 S2]|[(S1 & S2 & S3)|(S1 & S2 & S3)]].
    + exfalso. nra.
    + rewrite S3. cbn [bind fst snd]. rewrite pick_yes by (auto; fold e4; nra). eexists. split; [reflexivity|].
      apply joins_same; auto; [rewrite Rabs_left1 by lra; lra|rewrite Rabs_right by lra; lra].
    + rewrite S3. cbn [bind fst snd]. assert (u < t2) by nra. rewrite pick_yes by (auto; fold e4; nra). eexists. split; [reflexivity|].
      apply joins_same; auto; [rewrite Rabs_left1 by lra; lra|apply abs_same].
  - assert (O : t2 < t1). { destruct (Rlt_dec t2 t1); auto. exfalso. rewrite Rabs_left1 in F by lra. nra. }
    rewrite Rabs_right in F by lra.
    destruct (P_split u v t2 e6 U T2 E60) as [[S1 S2]|[(S1 & S2 & S3)|(S1 & S2 & S3)]].
    + rewrite S2. cbn [bind fst snd]. unfold sg2_pick at 1. cbn [bind]. rewrite pick_yes by (auto; fold e4; nra). eexists. split; [reflexivity|].
      apply joins_rev; auto; [rewrite Rabs_left1 by lra; lra|rewrite Rabs_right by lra; lra].
    + exfalso. nra.
    + rewrite S3. cbn [bind fst snd]. assert (u < t2) by nra. assert (t2 < v) by nra.
      rewrite pick_no by (auto; fold e4; right; lra). cbn [bind].
      rewrite pick_yes by (auto; fold e4; nra). eexists. split; [reflexivity|].
      apply joins_rev; auto; [apply abs_same|rewrite Rabs_right by lra; lra].
Qed.
Lemma trim_P t1 t2 : 0 <= t1 <= 1 -> 0 <= t2 <= 1 -> / 10 ^ 4 < Rabs (t1 - t2) * len ->
  exists r, sg2_trim (P 0, P 1) (P t1) (P t2) = Ok (Some r) /\ joins2 r (P t1) (P t2) (/ 10 ^ 6).
Proof.
  intros T1 T2 F. pose proof len_pos as L. destruct tols as [E6 E4].
  assert (E60 : 0 <= / 10 ^ 6) by lra. assert (E40 : 0 < / 10 ^ 4) by lra. unfold sg2_trim. cbn [fst snd].
  set (e6 := / 10 ^ 6) in *.
  assert (A1 : 0 <= (t1 - 0) * len) by (apply Rmult_le_pos; lra).
  assert (A2 : 0 <= (1 - t1) * len) by (apply Rmult_le_pos; lra).
  assert (A3 : 0 <= (t2 - 0) * len) by (apply Rmult_le_pos; lra).
  assert (A4 : 0 <= (1 - t2) * len) by (apply Rmult_le_pos; lra).
  destruct (Rle_dec ((t1 - 0) * len) e6) as [C|C]; [|destruct (Rle_dec ((1 - t1) * len) e6) as [D|D]].
  - rewrite P_close by (auto; rewrite Rabs_right; lra). cbn [bind fst snd orb]. rewrite P_in by (auto; nra). cbn [bind].
    apply trim_second; auto; try lra.
  - rewrite P_far by (auto; rewrite Rabs_right; lra). rewrite (P_close t1 1) by (auto; rewrite Rabs_left1; lra). cbn [bind fst snd orb]. rewrite P_in by (auto; nra). cbn [bind].
    apply trim_second; auto; try lra.
  - rewrite P_far by (auto; rewrite Rabs_right; lra). rewrite P_far by (auto; rewrite Rabs_left1; lra). cbn [orb].
    destruct (P_split 0 1 t1 e6) as [[S1 S2]|[(S1 & S2 & S3)|(S1 & S2 & S3)]]; try lra. rewrite S3. cbn [bind fst snd].
    assert (0 < t1) by nra. assert (t1 < 1) by nra.
    assert (SE : Rabs (t1 - t1) * len <= e6) by apply abs_same.
    destruct (Rle_dec t2 t1) as [O|O].
    + rewrite P_in by (auto; nra). cbn [bind]. apply trim_second; auto; try lra.
    + rewrite Rabs_left1 in F by lra. rewrite P_out by (auto; right; lra). cbn [bind].
      apply trim_second; auto; try lra. rewrite Rabs_left1 by lra; auto.
Qed.
End Trim.
(** trimming between two points of the segment, more than 1e-4 apart *)
Lemma sg2_trim_spec s p q : proper2 s -> on_segment2 s p -> on_segment2 s q -> / 10 ^ 4 < point_distance2 p q ->
  exists r, sg2_trim s p q = Ok (Some r) /\ joins2 r p q (/ 10 ^ 6).
Proof.
  intros H (t1 & T1 & ->) (t2 & T2 & ->) D. destruct s as [a b]. unfold proper2 in H. cbn [fst snd] in H.
  change (at_param2 (a, b) t1) with (seg2 a b t1) in *. change (at_param2 (a, b) t2) with (seg2 a b t2) in *.
  rewrite seg2_dist in D. pose proof (trim_P a b H t1 t2 T1 T2 D) as G. rewrite seg2_0, seg2_1 in G. exact G.
Qed.
(** two points that are closer than that: the piece from the start of the segment is returned *)
Lemma sg2_trim_close : exists s p q r, proper2 s /\ on_segment2 s p /\ on_segment2 s q /\
  / 20000 = point_distance2 p q /\ sg2_trim s p q = Ok (Some r) /\ fst r = fst s /\ snd r = q /\ / 3 < point_distance2 (fst r) p.
Proof.
  assert (NE : V2 0 0 <> V2 1 0) by (intros E; pose proof (f_equal x2 E) as X; cbn [x2] in X; lra).
  assert (L : point_distance2 (V2 1 0) (V2 0 0) = 1).
  { unfold point_distance2, norm2, sub2. cbn [x2 y2]. replace ((1 - 0) * (1 - 0) + (0 - 0) * (0 - 0)) with 1 by ring. apply sqrt_1. }
  set (P := seg2 (V2 0 0) (V2 1 0)). set (t1 := / 2). set (t2 := / 2 - / 20000).
  exists (P 0, P 1), (P t1), (P t2), (P 0, P t2). unfold P, t1, t2.
  split; [unfold proper2; cbn [fst snd]; apply P_ne; auto; lra|].
  split; [apply (proj2 (on_sub2 _ _ 0 1 _ ltac:(lra))); exists (/ 2); split; [lra|auto]|].
  split; [apply (proj2 (on_sub2 _ _ 0 1 _ ltac:(lra))); exists (/ 2 - / 20000); split; [lra|auto]|].
  split; [rewrite seg2_dist, L, Rabs_right; lra|].
  split; [|cbn [fst snd]; split; [auto|split; [auto|rewrite seg2_dist, L, Rabs_left1; lra]]].
  pose proof (pow10_inv_pos 6) as E6. pose proof (pow10_inv_pos 4) as E4. 
  unfold sg2_trim. cbn [fst snd].
  rewrite P_far by (auto; rewrite ?L, ?Rabs_right; lra). rewrite P_far by (auto; rewrite ?L, ?Rabs_left1; lra). cbn [orb].
  destruct (P_split _ _ NE 0 1 (/ 2) (/ 10 ^ 6)) as [[S1 S2]|[(S1 & S2 & S3)|(S1 & S2 & S3)]]; try (rewrite ?L in *; lra).
  rewrite S3. cbn [bind fst snd]. rewrite P_in by (auto; rewrite ?L; lra). cbn [bind].
  destruct (P_split _ _ NE 0 (/ 2) (/ 2 - / 20000) (/ 10 ^ 6)) as [[R1 R2]|[(R1 & R2 & R3)|(R1 & R2 & R3)]]; try (rewrite ?L in *; lra).
  rewrite R3. cbn [bind fst snd]. rewrite pick_yes by (auto; rewrite ?L; lra). reflexivity.
Qed.
