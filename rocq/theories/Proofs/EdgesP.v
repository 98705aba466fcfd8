(** Line segments: length, abscissa, points at an abscissa 2D. *)
From Verif.Model Require Import Base RBase Vec Frame BBox Geometry Curves Edges.
From Verif.Spec Require Import VecSpec CurvesSpec PlaneSpec.
From Verif.Proofs Require Import VecP LineP CurvesP.
From Coq Require Import List Lra Lia Psatz.
Import ListNotations.
Open Scope R_scope.

Lemma eqb2_eq p q : eqb2 p q = true <-> p = q.
Proof.
  unfold eqb2. rewrite Bool.andb_true_iff, !Reqb_spec. split; [intros [? ?]; apply vec2_ext; auto|intros ->; auto].
Qed.
Lemma segment2_ok s e : s <> e -> segment2 s e = Ok (s, e).
Proof.
  intros H. unfold segment2. destruct (eqb2 s e) eqn:E; auto. exfalso. apply H. apply eqb2_eq; auto.
Qed.
Lemma segment2_err s : segment2 s s = Err ValueError.
Proof. unfold segment2. rewrite (proj2 (eqb2_eq s s) eq_refl). reflexivity. Qed.
Lemma segment2_inv s e t : segment2 s e = Ok t -> s <> e /\ t = (s, e).
Proof.
  unfold segment2. destruct (eqb2 s e) eqn:E; [discriminate|]. intros H. apply Ok_inj in H. split; auto.
  intros ->. rewrite (proj2 (eqb2_eq e e) eq_refl) in E. discriminate.
Qed.
Lemma sg2_length_dir s : sg2_length s = norm2 (dir2 s). Proof. reflexivity. Qed.
Lemma sg2_length_pos s : fst s <> snd s -> 0 < sg2_length s.
Proof. intros H. rewrite sg2_length_dir. apply norm2_ne, dir2_ne, H. Qed.
Lemma sg2_pat_param s a : fst s <> snd s ->
  sg2_point_at_abscissa s a = Ok (seg2 (fst s) (snd s) (a / sg2_length s)).
Proof.
  intros H. unfold sg2_point_at_abscissa. rewrite (proj2 (unit2_ok (dir2 s) _) (conj (dir2_ne _ H) eq_refl)). cbn [bind].
  f_equal. rewrite <- sg2_length_dir. unfold seg2, Rdiv. fold (dir2 s). generalize (/ sg2_length s) (dir2 s). intros i d. clear H. generalize (fst s). intros o.
  vec; v_eq; ring.
Qed.
Lemma seg2_dist s e t u : point_distance2 (seg2 s e t) (seg2 s e u) = Rabs (t - u) * point_distance2 e s.
Proof.
  unfold point_distance2. rewrite <- norm2_scale. f_equal. unfold seg2. vec; v_eq; ring.
Qed.
Lemma seg2_0 s e : seg2 s e 0 = s. Proof. unfold seg2. vec; v_eq; ring. Qed.
Lemma seg2_1 s e : seg2 s e 1 = e. Proof. unfold seg2. vec; v_eq; ring. Qed.
Lemma sg2_pat_start s : fst s <> snd s -> sg2_point_at_abscissa s 0 = Ok (fst s).
Proof. intros H. rewrite sg2_pat_param by auto. unfold Rdiv. rewrite Rmult_0_l, seg2_0. reflexivity. Qed.
Lemma sg2_pat_end s : fst s <> snd s -> sg2_point_at_abscissa s (sg2_length s) = Ok (snd s).
Proof.
  intros H. rewrite sg2_pat_param by auto. pose proof (sg2_length_pos s H).
  replace (sg2_length s / sg2_length s) with 1 by (field; lra). rewrite seg2_1. reflexivity.
Qed.
Lemma sg2_pat_middle s : fst s <> snd s -> sg2_point_at_abscissa s (sg2_length s / 2) = Ok (sg2_middle s).
Proof.
  intros H. rewrite sg2_pat_param by auto. pose proof (sg2_length_pos s H).
  replace (sg2_length s / 2 / sg2_length s) with (1 / 2) by (field; lra). f_equal. unfold seg2, sg2_middle.
  generalize (fst s) (snd s). intros a b. vec; v_eq; field.
Qed.
Lemma sg2_pat_dist s a b p q : fst s <> snd s ->
  sg2_point_at_abscissa s a = Ok p -> sg2_point_at_abscissa s b = Ok q -> point_distance2 p q = Rabs (a - b).
Proof.
  intros H Ha Hb. rewrite sg2_pat_param in Ha, Hb by auto. apply Ok_inj in Ha, Hb. subst p q. rewrite seg2_dist.
  fold (sg2_length s). pose proof (sg2_length_pos s H).
  replace (a / sg2_length s - b / sg2_length s) with ((a - b) * / sg2_length s) by (field; lra).
  rewrite Rabs_mult, (Rabs_right (/ sg2_length s)) by (apply Rle_ge, Rlt_le, Rinv_0_lt_compat; lra). field; lra.
Qed.
(** the abscissa of a point of the segment *)
Lemma sg2_abscissa_param s t tol : fst s <> snd s -> 0 < tol -> 0 <= t <= 1 ->
  let len := sg2_length s in
  sg2_abscissa s (seg2 (fst s) (snd s) t) tol =
    Ok (if Rltb (t * len) tol then 0 else if Rltb ((1 - t) * len) tol then len else t * len).
Proof.
  intros H T [T0 T1] len. pose proof (sg2_length_pos s H) as L. fold len in L. unfold sg2_abscissa.
  assert (D0 : point_distance2 (seg2 (fst s) (snd s) t) (fst s) = t * len).
  { rewrite <- (seg2_0 (fst s) (snd s)) at 2. rewrite seg2_dist. fold (sg2_length s). fold len.
    rewrite Rminus_0_r, Rabs_right by lra. reflexivity. }
  assert (D1 : point_distance2 (seg2 (fst s) (snd s) t) (snd s) = (1 - t) * len).
  { rewrite <- (seg2_1 (fst s) (snd s)) at 2. rewrite seg2_dist. fold (sg2_length s). fold len.
    rewrite Rabs_left1 by lra. lra. }
  rewrite D0, D1. fold len. destruct (Rltb (t * len) tol); [reflexivity|]. destruct (Rltb ((1 - t) * len) tol); [reflexivity|].
  rewrite <- sg2_length_dir. fold len. cbv zeta. rewrite (proj2 (Reqb_false len 0)) by lra.
  assert (E : dot2 (sub2 (seg2 (fst s) (snd s) t) (fst s)) (dir2 s) / len = t * len).
  { replace (dot2 (sub2 (seg2 (fst s) (snd s) t) (fst s)) (dir2 s)) with (t * dot2 (dir2 s) (dir2 s)).
    - rewrite <- norm2_sq, <- sg2_length_dir. fold len. field; lra.
    - unfold seg2. fold (dir2 s). generalize (dir2 s) (fst s). intros d o. vec; ring. }
  rewrite E. assert (0 <= t * len) by nra. assert (t * len <= len) by nra. pose proof (Rinv_0_lt_compat (10 ^ 9) ltac:(lra)).
  rewrite (proj2 (Rltb_false (t * len) (- / 10 ^ 9))) by lra. rewrite (proj2 (Rltb_false (len + / 10 ^ 9) (t * len))) by lra. reflexivity.
Qed.
Lemma sg2_abscissa_of_pat s a p tol : fst s <> snd s -> 0 < tol -> 0 <= a <= sg2_length s ->
  sg2_point_at_abscissa s a = Ok p ->
  exists b, sg2_abscissa s p tol = Ok b /\ Rabs (b - a) < tol /\ (tol <= a <= sg2_length s - tol -> b = a).
Proof.
  intros H T A P. rewrite sg2_pat_param in P by auto. apply Ok_inj in P. subst p. pose proof (sg2_length_pos s H) as L.
  assert (T0 : 0 <= a / sg2_length s <= 1).
  { split; [apply Rmult_le_pos; [lra|apply Rlt_le, Rinv_0_lt_compat, L]|].
    apply Rmult_le_reg_r with (sg2_length s); auto. unfold Rdiv. rewrite Rmult_assoc, Rinv_l by lra. lra. }
  rewrite sg2_abscissa_param by auto. cbv zeta.
  replace (a / sg2_length s * sg2_length s) with a by (field; lra).
  replace ((1 - a / sg2_length s) * sg2_length s) with (sg2_length s - a) by (field; lra).
  eexists. split; [reflexivity|].
  destruct (Rltb a tol) eqn:E1; rb; [split; [rewrite Rabs_left1; lra|lra]|].
  destruct (Rltb (sg2_length s - a) tol) eqn:E2; rb; [split; [rewrite Rabs_right; lra|lra]|].
  split; [|auto]. replace (a - a) with 0 by ring. rewrite Rabs_R0; lra.
Qed.
Lemma sg2_pat_of_abscissa s p tol : fst s <> snd s -> 0 < tol -> on_segment2 s p ->
  exists a q, sg2_abscissa s p tol = Ok a /\ 0 <= a <= sg2_length s /\ sg2_point_at_abscissa s a = Ok q /\ point_distance2 p q < tol.
Proof.
  intros H T (t & T0 & ->). pose proof (sg2_length_pos s H) as L.
  change (add2 (fst s) (mul2 (sub2 (snd s) (fst s)) t)) with (seg2 (fst s) (snd s) t).
  change (at_param2 s t) with (seg2 (fst s) (snd s) t).
  pose proof (sg2_abscissa_param s t tol H T T0) as E. cbv zeta in E. rewrite E. eexists. eexists. split; [reflexivity|].
  assert (0 <= t * sg2_length s) by nra. assert (t * sg2_length s <= sg2_length s) by nra.
  split; [destruct (Rltb (t * sg2_length s) tol); [lra|]; destruct (Rltb ((1 - t) * sg2_length s) tol); lra|]. split; [apply sg2_pat_param, H|].
  rewrite seg2_dist. fold (sg2_length s).
  destruct (Rltb (t * sg2_length s) tol) eqn:E1; rb.
  { unfold Rdiv. rewrite Rmult_0_l, Rminus_0_r, Rabs_right by lra. lra. }
  destruct (Rltb ((1 - t) * sg2_length s) tol) eqn:E2; rb.
  { replace (sg2_length s / sg2_length s) with 1 by (field; lra). rewrite Rabs_left1; lra. }
  replace (t * sg2_length s / sg2_length s) with t by (field; lra). replace (t - t) with 0 by ring. rewrite Rabs_R0. lra.
Qed.
(** what the abscissa of any point is *)
Lemma sg2_abscissa_outside s p tol : fst s <> snd s ->
  tol <= point_distance2 p (fst s) -> tol <= point_distance2 p (snd s) ->
  let a := dot2 (sub2 p (fst s)) (sub2 (snd s) (fst s)) / sg2_length s in
  sg2_abscissa s p tol = if Rltb a (- / 10 ^ 9) || Rltb (sg2_length s + / 10 ^ 9) a then Err ValueError else Ok a.
Proof.
  intros H D0 D1 a. unfold sg2_abscissa.
  rewrite (proj2 (Rltb_false (point_distance2 p (fst s)) tol)) by lra. rewrite (proj2 (Rltb_false (point_distance2 p (snd s)) tol)) by lra.
  pose proof (sg2_length_pos s H). rewrite <- sg2_length_dir. cbv zeta. rewrite (proj2 (Reqb_false (sg2_length s) 0)) by lra. reflexivity.
Qed.
(** discretisation *)
Lemma mapM_map2 {A B} (f : A -> res B) (g : A -> B) l : (forall a, f a = Ok (g a)) -> mapM f l = Ok (map g l).
Proof. intros H. induction l as [|a l IH]; [reflexivity|]. cbn [mapM map]. rewrite H, IH. reflexivity. Qed.
Lemma number_of_points_ge2 k r len : (2 <= number_of_points k r len)%Z.
Proof.
  unfold number_of_points. set (n := match r with Some _ => _ | None => _ end). destruct n as [n|]; [|lia].
  destruct (n <=? 1)%Z eqn:E; lia.
Qed.
Lemma sg2_discretization_is s k r : fst s <> snd s ->
  let n := number_of_points k r (sg2_length s) in
  exists l, sg2_discretization s k r = Ok l /\ length l = Z.to_nat n /\
  (forall i d, (i < Z.to_nat n)%nat -> nth i l d = seg2 (fst s) (snd s) (INR i / IZR (n - 1))).
Proof.
  intros H n. pose proof (number_of_points_ge2 k r (sg2_length s)) as N. fold n in N. unfold sg2_discretization. fold n. cbv zeta.
  pose proof (sg2_length_pos s H) as L. assert (M : 0 < IZR (n - 1)) by (apply IZR_lt; lia).
  rewrite (mapM_map2 _ (fun i => seg2 (fst s) (snd s) (INR i / IZR (n - 1)))).
  - eexists. split; [reflexivity|]. split; [rewrite map_length, seq_length; reflexivity|].
    intros i d Hi. rewrite (nth_indep _ d (seg2 (fst s) (snd s) (INR 0 / IZR (n - 1)))) by (rewrite map_length, seq_length; auto).
    rewrite (map_nth (fun i => seg2 (fst s) (snd s) (INR i / IZR (n - 1)))), seq_nth by auto. reflexivity.
  - intros i. rewrite sg2_pat_param by auto. do 2 f_equal. field. split; lra.
Qed.
