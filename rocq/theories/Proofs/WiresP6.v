(** Wires and contours through points; discretizations; what ordering does not do. *)
From Coq Require Import Reals List Permutation Lra Lia Bool.
From Verif.Model Require Import Base RBase Vec Frame Geometry Curves Edges Wires.
From Verif.Spec Require Import VecSpec EdgesSpec WiresSpec.
From Verif.Proofs Require Import VecP EdgesP WiresP WiresP2 WiresP3 WiresP4 WiresP5.
Import ListNotations.
Open Scope R_scope.

Lemma consecutive_cons {A} (P : A -> A -> Prop) p q l : (forall l1 a b l2, p :: q :: l = l1 ++ a :: b :: l2 -> P a b) -> P p q /\ (forall l1 a b l2, q :: l = l1 ++ a :: b :: l2 -> P a b).
Proof. intros H. split; [apply (H [] p q l eq_refl)|]. intros l1 a b l2 Q. apply (H (p :: l1) a b l2). rewrite Q. reflexivity. Qed.
Lemma polyline_ok : forall pts, (forall l1 p q l2, pts = l1 ++ p :: q :: l2 -> p <> q) -> exists w, polyline pts = Ok w /\ map fst w = removelast pts /\ map snd w = tl pts.
Proof.
  induction pts as [|p [|q r] IH]; intros H; [exists []; auto|exists []; auto|]. apply consecutive_cons in H as [H1 H2]. destruct (IH H2) as (w & Q & M1 & M2).
  exists ((p, q) :: w). change (polyline (p :: q :: r)) with (do s <- segment2 p q; do l <- polyline (q :: r); Ok (s :: l)). rewrite segment2_ok by auto. cbn [bind]. rewrite Q. cbn [bind].
  split; auto. change (removelast (p :: q :: r)) with (p :: removelast (q :: r)). cbn [map fst snd]. rewrite M1, M2. auto.
Qed.
Lemma chain_joined : forall w pts, map fst w = removelast pts -> map snd w = tl pts -> joined segments2 0 w.
Proof.
  induction w as [|[a b] w IH]; intros pts M1 M2; [apply joined_nil|]. destruct w as [|[c d] w]; [apply joined_one|]. destruct pts as [|p [|q [|s r]]]; try discriminate.
  change (removelast (p :: q :: s :: r)) with (p :: removelast (q :: s :: r)) in M1. cbn [map fst snd tl] in M1, M2. injection M1 as -> M1. injection M2 as -> M2. apply joined_cons. split.
  - cbn. apply Req_le, dist2_zero. congruence.
  - apply (IH (q :: s :: r)); cbn; congruence.
Qed.
Lemma wire_from_points_ok pts : pts <> [] -> (forall l1 p q l2, pts = l1 ++ p :: q :: l2 -> p <> q) ->
  exists w, wire_from_points pts = Ok w /\ map fst w = removelast pts /\ map snd w = tl pts /\ joined segments2 0 w.
Proof.
  intros N H. destruct (polyline_ok pts H) as (w & Q & M1 & M2). exists w. split; [destruct pts; [congruence|exact Q]|]. split; auto. split; auto. apply (chain_joined w pts); auto.
Qed.
Lemma wire_from_points_err l1 p l2 : wire_from_points (l1 ++ p :: p :: l2) = Err ValueError.
Proof.
  assert (G : polyline (l1 ++ p :: p :: l2) = Err ValueError).
  { induction l1 as [|a l1 IH].
    - change (polyline ([] ++ p :: p :: l2)) with (do s <- segment2 p p; do l <- polyline (p :: l2); Ok (s :: l)). rewrite segment2_err. reflexivity.
    - cbn [app]. destruct (l1 ++ p :: p :: l2) as [|b r] eqn:Q; [destruct l1; discriminate|]. change (polyline (a :: b :: r)) with (do s <- segment2 a b; do l <- polyline (b :: r); Ok (s :: l)).
      rewrite IH. unfold segment2. destruct (eqb2 a b); reflexivity. }
  unfold wire_from_points. destruct (l1 ++ p :: p :: l2) eqn:Q; [destruct l1; discriminate|]. exact G.
Qed.
Lemma open_sides_polyline : forall pts, (forall l1 p q l2, pts = l1 ++ p :: q :: l2 -> / 10 ^ 6 < point_distance2 p q) -> open_sides pts = polyline pts.
Proof.
  induction pts as [|p [|q r] IH]; intros H; auto. apply (consecutive_cons (fun a b => / 10 ^ 6 < point_distance2 a b)) in H as [H1 H2].
  change (open_sides (p :: q :: r)) with (if is_close2 p q (/ 10 ^ 6) then open_sides (q :: r) else do s <- segment2 p q; do l <- open_sides (q :: r); Ok (s :: l)).
  replace (is_close2 p q (/ 10 ^ 6)) with false; [rewrite IH by auto; reflexivity|]. symmetry. destruct (is_close2 p q (/ 10 ^ 6)) eqn:C; auto. apply is_close2_spec in C; [lra|]. pose proof (pow10_inv_pos 6); lra.
Qed.
Lemma far_ne2 p q : / 10 ^ 6 < point_distance2 p q -> p <> q.
Proof. intros H ->. assert (point_distance2 q q = 0) by (apply dist2_zero; auto). pose proof (pow10_inv_pos 6). lra. Qed.
Lemma contour_from_points_ok p pts : (2 <= length pts)%nat -> (forall l1 a b l2, p :: pts = l1 ++ a :: b :: l2 -> / 10 ^ 6 < point_distance2 a b) -> / 10 ^ 6 < point_distance2 (last pts p) p ->
  exists c, contour_from_points (p :: pts) = Ok c /\ map fst c = p :: pts /\ map snd c = pts ++ [p] /\ (forall tol, 0 <= tol -> contour_is_ordered segments2 c tol = Ok true).
Proof.
  intros L H C. destruct (polyline_ok (p :: pts)) as (w & Q & M1 & M2). { intros l1 a b l2 E. apply far_ne2. apply (H l1 a b l2 E). }
  exists (w ++ [(last pts p, p)]). unfold contour_from_points. replace (length (p :: pts) <? 3)%nat with false by (symmetry; apply Nat.ltb_ge; cbn; lia).
  rewrite open_sides_polyline by auto. rewrite Q. cbn [bind]. cbv zeta. rewrite last_cons. replace (is_close2 (last pts p) p (/ 10 ^ 6)) with false.
  2: { symmetry. destruct (is_close2 (last pts p) p (/ 10 ^ 6)) eqn:E; auto. apply is_close2_spec in E; [lra|]. pose proof (pow10_inv_pos 6); lra. }
  rewrite segment2_ok by (apply far_ne2; auto). cbn [bind]. split; auto.
  assert (N : p :: pts <> []) by discriminate. assert (F1 : map fst (w ++ [(last pts p, p)]) = p :: pts). { refine (eq_trans (map_app _ _ _) _). refine (eq_trans (f_equal (fun l => l ++ _) M1) _). cbn [map fst]. pose proof (app_removelast_last p N) as G. rewrite last_cons in G. symmetry. exact G. }
  assert (F2 : map snd (w ++ [(last pts p, p)]) = pts ++ [p]). { refine (eq_trans (map_app _ _ _) _). refine (eq_trans (f_equal (fun l => l ++ _) M2) _). reflexivity. }
  split; auto. split; auto. intros tol T.
  assert (Lw : length (w ++ [(last pts p, p)]) = S (length pts)). { refine (eq_trans (eq_sym (map_length fst _)) _). refine (eq_trans (f_equal (@length _) F1) _). reflexivity. }
  assert (J : joined segments2 tol (w ++ [(last pts p, p)])).
  { apply (joined_weaken segments2 0); [auto|]. apply (chain_joined _ ((p :: pts) ++ [p])).
    - rewrite F1. rewrite removelast_last. reflexivity.
    - rewrite F2. reflexivity. }
  assert (Cl : closes segments2 tol (w ++ [(last pts p, p)])).
  { intros e f w' E ->. rewrite last_last. rewrite E in F1. cbn [map] in F1. injection F1 as F1 _. cbn. rewrite F1. assert (point_distance2 p p = 0) by (apply dist2_zero; auto). lra. }
  destruct (contour_ordered_spec segments2 segments2_ok (w ++ [(last pts p, p)]) tol T) as (b & B & S). { destruct w; discriminate. }
  rewrite B. f_equal. apply S. split; auto. split; auto. split; intros e; [intros E|intros f E]; rewrite E in Lw; cbn in Lw; lia.
Qed.
(** a closed discretization *)
Lemma contour_from_closed_points_ok p pts : (2 <= length pts)%nat -> (forall l1 a b l2, p :: pts = l1 ++ a :: b :: l2 -> / 10 ^ 6 < point_distance2 a b) -> point_distance2 (last pts p) p <= / 10 ^ 6 ->
  exists c, contour_from_points (p :: pts) = Ok c /\ map fst c = removelast (p :: pts) /\ map snd c = pts /\ joined segments2 0 c /\ closes segments2 (/ 10 ^ 6) c.
Proof.
  intros L H C. destruct (polyline_ok (p :: pts)) as (w & Q & M1 & M2). { intros l1 a b l2 E. apply far_ne2. apply (H l1 a b l2 E). }
  exists w. unfold contour_from_points. replace (length (p :: pts) <? 3)%nat with false by (symmetry; apply Nat.ltb_ge; cbn; lia).
  rewrite open_sides_polyline by auto. rewrite Q. cbn [bind]. cbv zeta. rewrite last_cons. replace (is_close2 (last pts p) p (/ 10 ^ 6)) with true.
  2: { symmetry. apply is_close2_spec; auto. pose proof (pow10_inv_pos 6); lra. }
  split; auto. split; auto. split; auto. split; [apply (chain_joined w (p :: pts)); auto|]. intros e f w' E ->. cbn.
  assert (fst e = p). { rewrite E in M1. destruct pts; [cbn in L; lia|]. cbn [map] in M1. change (removelast (p :: v :: pts)) with (p :: removelast (v :: pts)) in M1. injection M1 as M1 _. auto. } rewrite H0.
  assert (snd (last w e) = last pts p) as ->; [|auto]. cbn [tl] in M2. rewrite <- M2. destruct (@exists_last _ w) as (u & x & ->); [rewrite E; discriminate|]. rewrite map_app. cbn [map]. rewrite !last_last. reflexivity.
Qed.

(** discretization *)
Lemma mapM_ok {A B} (f : A -> res B) l : (forall a, In a l -> exists b, f a = Ok b) -> exists r, mapM f l = Ok r /\ Forall2 (fun a b => f a = Ok b) l r.
Proof.
  induction l as [|a l IH]; intros H; [exists []; cbn; auto|]. destruct (H a (or_introl eq_refl)) as (b & Q). destruct (IH ltac:(intros; apply H; right; auto)) as (r & R & F).
  exists (b :: r). cbn. rewrite Q. cbn. rewrite R. cbn. auto.
Qed.
Lemma forall2_nth {A B} (R : A -> B -> Prop) l r : Forall2 R l r -> length l = length r /\ forall i da db, (i < length r)%nat -> R (nth i l da) (nth i r db).
Proof.
  induction 1 as [|a b l r H F [IL IH]]; [split; auto; intros i da db Hi; cbn in Hi; lia|]. cbn. split; [lia|]. intros [|i] da db Hi; auto. apply IH. lia.
Qed.
Lemma discretization_ok K w n : api_ok K -> api_measures K -> (forall e, p_dist K (e_start K e) (e_end K e) <= e_length K e) -> w <> [] -> joined K 0 w -> (2 <= n)%nat ->
  exists pts, wire_discretization K w n = Ok pts /\ length pts = n /\
    (forall i d, (i < n)%nat -> wire_at K w (INR i * (total K w / INR (n - 1))) = Ok (nth i pts d)) /\
    (forall i d, (S i < n)%nat -> p_dist K (nth i pts d) (nth (S i) pts d) <= total K w / INR (n - 1)).
Proof.
  intros OK M Z N J Hn. pose proof (total_pos K OK w) as T. assert (In1 : 0 < INR (n - 1)) by (apply lt_0_INR; lia).
  set (h := total K w / INR (n - 1)). assert (H0 : 0 <= h) by (apply Rmult_le_pos; [auto|apply Rlt_le, Rinv_0_lt_compat, In1]).
  assert (Hh : INR (n - 1) * h = total K w) by (unfold h; field; lra).
  assert (R : forall i, (i < n)%nat -> 0 <= INR i * h <= total K w).
  { intros i Hi. split; [apply Rmult_le_pos; [apply pos_INR|auto]|]. rewrite <- Hh. apply Rmult_le_compat_r; auto. apply le_INR. lia. }
  assert (Pt : forall i, (i < n)%nat -> exists p, wire_at K w (INR i * h) = Ok p).
  { intros i Hi. destruct (R i Hi) as [R1 R2]. destruct (wire_unit_speed K OK M Z w (INR i * h) (INR i * h) N J ltac:(lra) R2) as (p & _ & Q & _). exists p; auto. }
  unfold wire_discretization. replace (n - 1 =? 0)%nat with false by (symmetry; apply Nat.eqb_neq; lia). cbv zeta. rewrite length_total.
  destruct (mapM_ok (fun i => wire_at K w (INR i / INR (n - 1) * total K w)) (seq 0 (n - 1 + 1))) as (pts & Q & F).
  { intros i I. apply in_seq in I. destruct (Pt i ltac:(lia)) as (p & Qp). exists p. rewrite <- Qp. f_equal. unfold h. field. lra. }
  exists pts. split; auto. destruct (forall2_nth _ _ _ F) as [FL FN]. rewrite seq_length in FL. assert (Lp : length pts = n) by lia. split; auto.
  assert (At : forall i d, (i < n)%nat -> wire_at K w (INR i * h) = Ok (nth i pts d)).
  { intros i d Hi. specialize (FN i 0%nat d ltac:(lia)). rewrite seq_nth in FN by lia. cbn [Nat.add] in FN. rewrite <- FN. f_equal. unfold h. field. lra. }
  split; auto. intros i d Hi. destruct (R (S i) Hi) as [R1 R2]. destruct (R i ltac:(lia)) as [R3 _].
  assert (St : INR (S i) * h = INR i * h + h) by (rewrite (S_INR i); ring).
  destruct (wire_unit_speed K OK M Z w (INR i * h) (INR (S i) * h) N J ltac:(lra) R2) as (p & q & Q1 & Q2 & D).
  rewrite (At i d ltac:(lia)) in Q1. rewrite (At (S i) d Hi) in Q2. apply Ok_inj in Q1, Q2. subst p q. lra.
Qed.
