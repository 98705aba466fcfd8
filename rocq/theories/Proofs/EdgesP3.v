(** Line segments: length, abscissa, points at an abscissa 3D. *)
From Verif.Model Require Import Base RBase Vec Frame BBox Geometry Curves Edges.
From Verif.Spec Require Import VecSpec CurvesSpec PlaneSpec.
From Verif.Proofs Require Import VecP LineP CurvesP EdgesP.
From Coq Require Import List Lra Lia Psatz.
Import ListNotations.
Open Scope R_scope.

Lemma eqb3_eq p q : eqb3 p q = true <-> p = q.
Proof.
  unfold eqb3. rewrite !Bool.andb_true_iff, !Reqb_spec. split; [intros [[? ?] ?]; apply vec3_ext; auto|intros ->; auto].
Qed.
Lemma segment3_ok s e : s <> e -> segment3 s e = Ok (s, e).
Proof.
  intros H. unfold segment3. destruct (eqb3 s e) eqn:E; auto. exfalso. apply H. apply eqb3_eq; auto.
Qed.
Lemma segment3_err s : segment3 s s = Err ValueError.
Proof. unfold segment3. rewrite (proj2 (eqb3_eq s s) eq_refl). reflexivity. Qed.
Lemma segment3_inv s e t : segment3 s e = Ok t -> s <> e /\ t = (s, e).
Proof.
  unfold segment3. destruct (eqb3 s e) eqn:E; [discriminate|]. intros H. apply Ok_inj in H. split; auto.
  intros ->. rewrite (proj2 (eqb3_eq e e) eq_refl) in E. discriminate.
Qed.
Lemma sg3_length_dir s : sg3_length s = norm3 (dir3 s). Proof. reflexivity. Qed.
Lemma sg3_length_pos s : fst s <> snd s -> 0 < sg3_length s.
Proof. intros H. rewrite sg3_length_dir. apply norm3_ne, dir3_ne, H. Qed.
Lemma sg3_pat_param s a : fst s <> snd s ->
  sg3_point_at_abscissa s a = Ok (seg3 (fst s) (snd s) (a / sg3_length s)).
Proof.
  intros H. unfold sg3_point_at_abscissa. rewrite (proj2 (unit3_ok (dir3 s) _) (conj (dir3_ne _ H) eq_refl)). cbn [bind].
  f_equal. rewrite <- sg3_length_dir. unfold seg3, Rdiv. fold (dir3 s). generalize (/ sg3_length s) (dir3 s). intros i d. clear H. generalize (fst s). intros o.
  vec; v_eq; ring.
Qed.
Lemma seg3_dist s e t u : point_distance3 (seg3 s e t) (seg3 s e u) = Rabs (t - u) * point_distance3 e s.
Proof.
  unfold point_distance3. rewrite <- norm3_scale. f_equal. unfold seg3. vec; v_eq; ring.
Qed.
Lemma seg3_0 s e : seg3 s e 0 = s. Proof. unfold seg3. vec; v_eq; ring. Qed.
Lemma seg3_1 s e : seg3 s e 1 = e. Proof. unfold seg3. vec; v_eq; ring. Qed.
Lemma sg3_pat_start s : fst s <> snd s -> sg3_point_at_abscissa s 0 = Ok (fst s).
Proof. intros H. rewrite sg3_pat_param by auto. unfold Rdiv. rewrite Rmult_0_l, seg3_0. reflexivity. Qed.
Lemma sg3_pat_end s : fst s <> snd s -> sg3_point_at_abscissa s (sg3_length s) = Ok (snd s).
Proof.
  intros H. rewrite sg3_pat_param by auto. pose proof (sg3_length_pos s H).
  replace (sg3_length s / sg3_length s) with 1 by (field; lra). rewrite seg3_1. reflexivity.
Qed.
Lemma sg3_pat_middle s : fst s <> snd s -> sg3_point_at_abscissa s (sg3_length s / 2) = Ok (sg3_middle s).
Proof.
  intros H. rewrite sg3_pat_param by auto. pose proof (sg3_length_pos s H).
  replace (sg3_length s / 2 / sg3_length s) with (1 / 2) by (field; lra). f_equal. unfold seg3, sg3_middle.
  generalize (fst s) (snd s). intros a b. vec; v_eq; field.
Qed.
Lemma sg3_pat_dist s a b p q : fst s <> snd s ->
  sg3_point_at_abscissa s a = Ok p -> sg3_point_at_abscissa s b = Ok q -> point_distance3 p q = Rabs (a - b).
Proof.
  intros H Ha Hb. rewrite sg3_pat_param in Ha, Hb by auto. apply Ok_inj in Ha, Hb. subst p q. rewrite seg3_dist.
  fold (sg3_length s). pose proof (sg3_length_pos s H).
  replace (a / sg3_length s - b / sg3_length s) with ((a - b) * / sg3_length s) by (field; lra).
  rewrite Rabs_mult, (Rabs_right (/ sg3_length s)) by (apply Rle_ge, Rlt_le, Rinv_0_lt_compat; lra). field; lra.
Qed.
(** the abscissa of a point of the segment *)
Lemma sg3_abscissa_param s t tol : fst s <> snd s -> 0 < tol -> 0 <= t <= 1 ->
  let len := sg3_length s in
  sg3_abscissa s (seg3 (fst s) (snd s) t) tol =
    Ok (if Rltb (t * len) tol then 0 else if Rltb ((1 - t) * len) tol then len else t * len).
Proof.
  intros H T [T0 T1] len. pose proof (sg3_length_pos s H) as L. fold len in L. unfold sg3_abscissa.
  assert (D0 : point_distance3 (seg3 (fst s) (snd s) t) (fst s) = t * len).
  { rewrite <- (seg3_0 (fst s) (snd s)) at 2. rewrite seg3_dist. fold (sg3_length s). fold len.
    rewrite Rminus_0_r, Rabs_right by lra. reflexivity. }
  assert (D1 : point_distance3 (seg3 (fst s) (snd s) t) (snd s) = (1 - t) * len).
  { rewrite <- (seg3_1 (fst s) (snd s)) at 2. rewrite seg3_dist. fold (sg3_length s). fold len.
    rewrite Rabs_left1 by lra. lra. }
  rewrite D0, D1. fold len. destruct (Rltb (t * len) tol); [reflexivity|]. destruct (Rltb ((1 - t) * len) tol); [reflexivity|].
  rewrite <- sg3_length_dir. fold len. cbv zeta. rewrite (proj2 (Reqb_false len 0)) by lra.
  assert (E : dot3 (sub3 (seg3 (fst s) (snd s) t) (fst s)) (dir3 s) / len = t * len).
  { replace (dot3 (sub3 (seg3 (fst s) (snd s) t) (fst s)) (dir3 s)) with (t * dot3 (dir3 s) (dir3 s)).
    - rewrite <- norm3_sq, <- sg3_length_dir. fold len. field; lra.
    - unfold seg3. fold (dir3 s). generalize (dir3 s) (fst s). intros d o. vec; ring. }
  rewrite E. assert (0 <= t * len) by nra. assert (t * len <= len) by nra. pose proof (Rinv_0_lt_compat (10 ^ 9) ltac:(lra)).
  rewrite (proj2 (Rltb_false (t * len) (- / 10 ^ 9))) by lra. rewrite (proj2 (Rltb_false (len + / 10 ^ 9) (t * len))) by lra. reflexivity.
Qed.
Lemma sg3_abscissa_of_pat s a p tol : fst s <> snd s -> 0 < tol -> 0 <= a <= sg3_length s ->
  sg3_point_at_abscissa s a = Ok p ->
  exists b, sg3_abscissa s p tol = Ok b /\ Rabs (b - a) < tol /\ (tol <= a <= sg3_length s - tol -> b = a).
Proof.
  intros H T A P. rewrite sg3_pat_param in P by auto. apply Ok_inj in P. subst p. pose proof (sg3_length_pos s H) as L.
  assert (T0 : 0 <= a / sg3_length s <= 1).
  { split; [apply Rmult_le_pos; [lra|apply Rlt_le, Rinv_0_lt_compat, L]|].
    apply Rmult_le_reg_r with (sg3_length s); auto. unfold Rdiv. rewrite Rmult_assoc, Rinv_l by lra. lra. }
  rewrite sg3_abscissa_param by auto. cbv zeta.
  replace (a / sg3_length s * sg3_length s) with a by (field; lra).
  replace ((1 - a / sg3_length s) * sg3_length s) with (sg3_length s - a) by (field; lra).
  eexists. split; [reflexivity|].
  destruct (Rltb a tol) eqn:E1; rb; [split; [rewrite Rabs_left1; lra|lra]|].
  destruct (Rltb (sg3_length s - a) tol) eqn:E2; rb; [split; [rewrite Rabs_right; lra|lra]|].
  split; [|auto]. replace (a - a) with 0 by ring. rewrite Rabs_R0; lra.
Qed.
Lemma sg3_pat_of_abscissa s p tol : fst s <> snd s -> 0 < tol -> on_segment3 s p ->
  exists a q, sg3_abscissa s p tol = Ok a /\ 0 <= a <= sg3_length s /\ sg3_point_at_abscissa s a = Ok q /\ point_distance3 p q < tol.
Proof.
  intros H T (t & T0 & ->). pose proof (sg3_length_pos s H) as L.
  change (add3 (fst s) (mul3 (sub3 (snd s) (fst s)) t)) with (seg3 (fst s) (snd s) t).
    pose proof (sg3_abscissa_param s t tol H T T0) as E. cbv zeta in E. rewrite E. eexists. eexists. split; [reflexivity|].
  assert (0 <= t * sg3_length s) by nra. assert (t * sg3_length s <= sg3_length s) by nra.
  split; [destruct (Rltb (t * sg3_length s) tol); [lra|]; destruct (Rltb ((1 - t) * sg3_length s) tol); lra|]. split; [apply sg3_pat_param, H|].
  rewrite seg3_dist. fold (sg3_length s).
  destruct (Rltb (t * sg3_length s) tol) eqn:E1; rb.
  { unfold Rdiv. rewrite Rmult_0_l, Rminus_0_r, Rabs_right by lra. lra. }
  destruct (Rltb ((1 - t) * sg3_length s) tol) eqn:E2; rb.
  { replace (sg3_length s / sg3_length s) with 1 by (field; lra). rewrite Rabs_left1; lra. }
  replace (t * sg3_length s / sg3_length s) with t by (field; lra). replace (t - t) with 0 by ring. rewrite Rabs_R0. lra.
Qed.
(** what the abscissa of any point is *)
Lemma sg3_abscissa_outside s p tol : fst s <> snd s ->
  tol <= point_distance3 p (fst s) -> tol <= point_distance3 p (snd s) ->
  let a := dot3 (sub3 p (fst s)) (sub3 (snd s) (fst s)) / sg3_length s in
  sg3_abscissa s p tol = if Rltb a (- / 10 ^ 9) || Rltb (sg3_length s + / 10 ^ 9) a then Err ValueError else Ok a.
Proof.
  intros H D0 D1 a. unfold sg3_abscissa.
  rewrite (proj2 (Rltb_false (point_distance3 p (fst s)) tol)) by lra. rewrite (proj2 (Rltb_false (point_distance3 p (snd s)) tol)) by lra.
  pose proof (sg3_length_pos s H). rewrite <- sg3_length_dir. cbv zeta. rewrite (proj2 (Reqb_false (sg3_length s) 0)) by lra. reflexivity.
Qed.
(** discretisation *)
Lemma sg3_discretization_is s k r : fst s <> snd s ->
  let n := number_of_points k r (sg3_length s) in
  exists l, sg3_discretization s k r = Ok l /\ length l = Z.to_nat n /\
  (forall i d, (i < Z.to_nat n)%nat -> nth i l d = seg3 (fst s) (snd s) (INR i / IZR (n - 1))).
Proof.
  intros H n. pose proof (number_of_points_ge2 k r (sg3_length s)) as N. fold n in N. unfold sg3_discretization. fold n. cbv zeta.
  pose proof (sg3_length_pos s H) as L. assert (M : 0 < IZR (n - 1)) by (apply IZR_lt; lia).
  rewrite (mapM_map2 _ (fun i => seg3 (fst s) (snd s) (INR i / IZR (n - 1)))).
  - eexists. split; [reflexivity|]. split; [rewrite map_length, seq_length; reflexivity|].
    intros i d Hi. rewrite (nth_indep _ d (seg3 (fst s) (snd s) (INR 0 / IZR (n - 1)))) by (rewrite map_length, seq_length; auto).
    rewrite (map_nth (fun i => seg3 (fst s) (snd s) (INR i / IZR (n - 1)))), seq_nth by auto. reflexivity.
  - intros i. rewrite sg3_pat_param by auto. do 2 f_equal. field. split; lra.
Qed.
