(** The segments are edges; abscissas along a wire. *)
From Coq Require Import Reals List Permutation Lra Lia Bool.
From Verif.Model Require Import Base RBase Vec Frame Geometry Curves Edges Wires.
From Verif.Spec Require Import VecSpec EdgesSpec WiresSpec.
From Verif.Proofs Require Import VecP EdgesP EdgesP3 EdgesP4 EdgesP10 WiresP WiresP2.
Import ListNotations.
Open Scope R_scope.

Lemma segments2_ok : api_ok segments2.
Proof.
  constructor; cbn; intros; auto.
  - destruct e; auto.
  - unfold sg2_length. apply dist2_sym.
  - apply norm2_pos.
  - apply norm2_pos.
  - now apply dist2_zero.
  - apply dist2_sym.
  - apply dist2_triangle.
  - now apply is_close2_spec.
Qed.
Lemma segments3_ok : api_ok segments3.
Proof.
  constructor; cbn; intros; auto.
  - destruct e; auto.
  - unfold sg3_length. apply dist3_sym.
  - apply norm3_pos.
  - apply norm3_pos.
  - now apply dist3_zero.
  - apply dist3_sym.
  - apply dist3_triangle.
  - now apply is_close3_spec.
Qed.
Lemma long_proper2 s : 0 < sg2_length s -> fst s <> snd s.
Proof. intros H Q. unfold sg2_length in H. assert (Z : point_distance2 (snd s) (fst s) = 0) by (apply dist2_zero; auto). lra. Qed.
Lemma long_proper3 s : 0 < sg3_length s -> fst s <> snd s.
Proof. intros H Q. unfold sg3_length in H. assert (Z : point_distance3 (snd s) (fst s) = 0) by (apply dist3_zero; auto). lra. Qed.
Lemma segments2_measure : api_measures segments2.
Proof.
  intros e L. cbn in *. pose proof (long_proper2 e L) as N. split; [apply sg2_pat_start; auto|]. split; [apply sg2_pat_end; auto|].
  intros a b Ha Hb. rewrite !sg2_pat_param by auto. do 2 eexists. do 2 (split; [reflexivity|]).
  rewrite (sg2_pat_dist e a b _ _ N (sg2_pat_param e a N) (sg2_pat_param e b N)). lra.
Qed.
Lemma segments3_measure : api_measures segments3.
Proof.
  intros e L. cbn in *. pose proof (long_proper3 e L) as N. split; [apply sg3_pat_start; auto|]. split; [apply sg3_pat_end; auto|].
  intros a b Ha Hb. rewrite !sg3_pat_param by auto. do 2 eexists. do 2 (split; [reflexivity|]).
  rewrite (sg3_pat_dist e a b _ _ N (sg3_pat_param e a N) (sg3_pat_param e b N)). lra.
Qed.
Lemma segments2_same : api_same segments2.
Proof.
  intros e f. cbn. pose proof (pow10_inv_pos 6) as T. unfold sg2_is_close. rewrite orb_true_iff, !andb_true_iff, !is_close2_spec by lra. cbn [fst snd]. tauto.
Qed.
Lemma segments3_same : api_same segments3.
Proof.
  intros e f. cbn. pose proof (pow10_inv_pos 6) as T. rewrite orb_true_iff, !andb_true_iff, !is_close3_spec by lra. cbn [fst snd]. tauto.
Qed.

(** point_at_abscissa *)
Lemma total_pos K : api_ok K -> forall w, 0 <= total K w.
Proof. intros OK w. induction w as [|e w IH]; cbn; [lra|]. pose proof (length_pos K OK e). unfold total in *. lra. Qed.
Lemma total_cons K e w : total K (e :: w) = e_length K e + total K w.
Proof. reflexivity. Qed.
Lemma total_one K e : total K [e] = e_length K e.
Proof. unfold total. cbn [fold_right]. ring. Qed.
Lemma wire_at_from_spec K : api_ok K -> forall w l d s, d <= s < d + total K w ->
  exists w1 e w2, w = w1 ++ e :: w2 /\ d + total K w1 <= s < d + total K w1 + e_length K e /\ wire_at_from K w l d s = e_at K e (s - (d + total K w1)).
Proof.
  intros OK w. induction w as [|e w IH]; intros l d s H; [cbn in H; lra|]. rewrite total_cons in H. cbn [wire_at_from]. destruct (Rltb s (d + e_length K e)) eqn:C.
  - apply Rltb_spec in C. exists [], e, w. split; auto. cbn. split; [lra|]. f_equal. ring.
  - apply Rltb_false in C. destruct (IH (Some e) (d + e_length K e) s ltac:(lra)) as (w1 & x & w2 & -> & Q1 & Q2). exists (e :: w1), x, w2. split; auto. rewrite total_cons. split; [lra|].
    rewrite Q2. f_equal. ring.
Qed.
Lemma wire_at_inside K w s : api_ok K -> 0 <= s < total K w ->
  exists w1 e w2, w = w1 ++ e :: w2 /\ total K w1 <= s < total K w1 + e_length K e /\ wire_at K w s = e_at K e (s - total K w1).
Proof.
  intros OK H. destruct (wire_at_from_spec K OK w None 0 s ltac:(lra)) as (w1 & e & w2 & -> & Q1 & Q2). exists w1, e, w2. split; auto. split; [lra|]. unfold wire_at. rewrite Q2. f_equal. ring.
Qed.
Lemma wire_at_from_past K : api_ok K -> forall w l d s, d + total K w <= s ->
  wire_at_from K w l d s = if isclose s (d + total K w) (/ 10 ^ 6) then match w, l with [], None => Err IndexError | [], Some e => Ok (e_end K e) | e :: _, _ => Ok (e_end K (last w e)) end else Err ValueError.
Proof.
  intros OK w. induction w as [|e w IH]; intros l d s H; [cbn [wire_at_from total fold_right]; rewrite Rplus_0_r; destruct l; auto|]. rewrite total_cons in *. cbn [wire_at_from].
  pose proof (total_pos K OK w). replace (Rltb s (d + e_length K e)) with false by (symmetry; apply Rltb_false; lra). rewrite IH by lra. rewrite Rplus_assoc. destruct (isclose _ _ _); auto.
  destruct w as [|f w]; auto. do 2 f_equal. rewrite !last_cons. reflexivity.
Qed.
Lemma isclose_ge a b t : 0 <= b <= a -> 0 <= t -> (isclose a b t = true <-> a - b <= Rmax (a / 10 ^ 9) t).
Proof. intros H T. unfold isclose. rewrite Rleb_spec. rewrite (Rabs_right (a - b)), (Rabs_right a), (Rabs_right b) by lra. rewrite (Rmax_left a b) by lra. unfold Rdiv. rewrite (Rmult_comm a). tauto. Qed.
Lemma wire_at_end K w s : api_ok K -> w <> [] -> total K w <= s <= total K w + / 10 ^ 6 -> forall a, wire_at K w s = Ok (e_end K (last w a)).
Proof.
  intros OK N H a. unfold wire_at. pose proof (total_pos K OK w). rewrite wire_at_from_past by (auto; lra). rewrite Rplus_0_l.
  assert (C : isclose s (total K w) (/ 10 ^ 6) = true). { pose proof (pow10_inv_pos 6). apply isclose_ge; try lra. pose proof (Rmax_r (s / 10 ^ 9) (/ 10 ^ 6)). lra. }
  rewrite C. destruct w as [|e w]; [congruence|]. rewrite !last_cons. reflexivity.
Qed.
Lemma wire_at_beyond K w s : api_ok K -> total K w + / 10 ^ 6 < s -> total K w + s / 10 ^ 9 < s -> wire_at K w s = Err ValueError.
Proof.
  intros OK H1 H2. unfold wire_at. pose proof (total_pos K OK w). pose proof (pow10_inv_pos 6). rewrite wire_at_from_past by (auto; lra). rewrite Rplus_0_l.
  destruct (isclose s (total K w) (/ 10 ^ 6)) eqn:C; auto. apply isclose_ge in C; try lra. revert C. apply Rmax_case; lra.
Qed.
(** an abscissa before the start is not refused *)
Lemma wire_at_negative K e w s : api_ok K -> s < 0 -> wire_at K (e :: w) s = e_at K e s.
Proof.
  intros OK H. unfold wire_at. cbn [wire_at_from]. pose proof (length_pos K OK e). replace (Rltb s (0 + e_length K e)) with true by (symmetry; apply Rltb_spec; lra). f_equal. ring.
Qed.
Lemma wire_at_tail K e f w s : api_ok K -> e_length K e <= s <= e_length K e + total K (f :: w) -> wire_at K (e :: f :: w) s = wire_at K (f :: w) (s - e_length K e).
Proof.
  intros OK H. unfold wire_at. destruct (Rlt_le_dec s (e_length K e + total K (f :: w))) as [L|L].
  - (* both choose the same edge *)
    change (wire_at_from K (e :: f :: w) None 0 s) with (if Rltb s (0 + e_length K e) then e_at K e (s - 0) else wire_at_from K (f :: w) (Some e) (0 + e_length K e) s).
    replace (Rltb s (0 + e_length K e)) with false by (symmetry; apply Rltb_false; lra).
    assert (G : forall w l l' d k, d <= s < d + total K w -> wire_at_from K w l d s = wire_at_from K w l' (d - k) (s - k)).
    { clear - OK. intros w. induction w as [|x w IH]; intros l l' d k Q; [cbn in Q; lra|]. rewrite total_cons in Q. cbn [wire_at_from].
      destruct (Rltb s (d + e_length K x)) eqn:C.
      - replace (Rltb (s - k) (d - k + e_length K x)) with true by (symmetry; apply Rltb_spec; apply Rltb_spec in C; lra). f_equal. ring.
      - replace (Rltb (s - k) (d - k + e_length K x)) with false by (symmetry; apply Rltb_false; apply Rltb_false in C; lra).
        replace (d - k + e_length K x) with ((d + e_length K x) - k) by ring. apply IH. apply Rltb_false in C. lra. }
    rewrite (G (f :: w) (Some e) None (0 + e_length K e) (e_length K e)) by lra. replace (0 + e_length K e - e_length K e) with 0 by ring. reflexivity.
  - assert (s = e_length K e + total K (f :: w)) as -> by lra. change (wire_at K (e :: f :: w) (e_length K e + total K (f :: w)) = wire_at K (f :: w) (e_length K e + total K (f :: w) - e_length K e)).
    pose proof (pow10_inv_pos 6).
    rewrite (wire_at_end K (e :: f :: w) (e_length K e + total K (f :: w)) OK ltac:(discriminate) ltac:(rewrite !total_cons; lra) e).
    rewrite (wire_at_end K (f :: w) (e_length K e + total K (f :: w) - e_length K e) OK ltac:(discriminate) ltac:(rewrite !total_cons; lra) e). rewrite !last_cons. reflexivity.
Qed.
Lemma dist_zero_tri K : api_ok K -> forall p q r, p_dist K p q <= 0 -> p_dist K p r <= p_dist K q r.
Proof. intros OK p q r H. pose proof (dist_tri K OK p q r). lra. Qed.
Lemma edge_from_start K e s : api_ok K -> api_measures K -> 0 <= s < e_length K e -> exists p, e_at K e s = Ok p /\ p_dist K (e_start K e) p <= s /\ p_dist K p (e_end K e) <= e_length K e - s.
Proof.
  intros OK M H. destruct (M e ltac:(lra)) as (M0 & M1 & M2). destruct (M2 0 s ltac:(lra) ltac:(lra)) as (p & q & Q1 & Q2 & D). rewrite M0 in Q1. apply Ok_inj in Q1. subst p.
  exists q. split; auto. rewrite Rabs_left1 in D by lra. split; [lra|]. destruct (M2 s (e_length K e) ltac:(lra) ltac:(lra)) as (p & q' & Q1 & Q3 & D'). rewrite M1 in Q3. apply Ok_inj in Q3. subst q'.
  rewrite Q2 in Q1. apply Ok_inj in Q1. subst p. rewrite Rabs_left1 in D' by lra. lra.
Qed.
(** an edge reduced to a point has equal ends *)
Lemma wire_at_from_start K : api_ok K -> api_measures K -> (forall e, p_dist K (e_start K e) (e_end K e) <= e_length K e) ->
  forall w e s, joined K 0 (e :: w) -> 0 <= s <= total K (e :: w) -> exists p, wire_at K (e :: w) s = Ok p /\ p_dist K (e_start K e) p <= s.
Proof.
  intros OK M Z w. induction w as [|f w IH]; intros e s J H.
  - destruct (Rlt_le_dec s (e_length K e)) as [L|L].
    + destruct (edge_from_start K e s OK M ltac:(lra)) as (p & Q & D & _). exists p. split; [|lra]. unfold wire_at. cbn [wire_at_from].
      replace (Rltb s (0 + e_length K e)) with true by (symmetry; apply Rltb_spec; lra). rewrite <- Q. f_equal. ring.
    + pose proof (pow10_inv_pos 6). rewrite (wire_at_end K [e] s OK ltac:(discriminate) ltac:(rewrite total_one in *; lra) e). cbn [last]. eexists. split; [reflexivity|].
      specialize (Z e). lra.
  - destruct (Rlt_le_dec s (e_length K e)) as [L|L].
    + destruct (edge_from_start K e s OK M ltac:(lra)) as (p & Q & D & _). exists p. split; [|lra]. unfold wire_at. cbn [wire_at_from].
      replace (Rltb s (0 + e_length K e)) with true by (symmetry; apply Rltb_spec; lra). rewrite <- Q. f_equal. ring.
    + rewrite total_cons in H. rewrite wire_at_tail by (auto; lra). apply joined_cons in J as [D J]. destruct (IH f (s - e_length K e) J ltac:(lra)) as (p & Q & Dp). exists p. split; auto.
      pose proof (dist_tri K OK (e_start K e) (e_end K e) p). pose proof (dist_tri K OK (e_end K e) (e_start K f) p). specialize (Z e). lra.
Qed.
Lemma wire_unit_speed K : api_ok K -> api_measures K -> (forall e, p_dist K (e_start K e) (e_end K e) <= e_length K e) ->
  forall w s t, w <> [] -> joined K 0 w -> 0 <= s <= t -> t <= total K w -> exists p q, wire_at K w s = Ok p /\ wire_at K w t = Ok q /\ p_dist K p q <= t - s.
Proof.
  intros OK M Z w. induction w as [|e w IH]; intros s t N J H1 H2; [congruence|].
  assert (Here : forall a, 0 <= a < e_length K e -> wire_at K (e :: w) a = e_at K e a).
  { intros a Ha. unfold wire_at. cbn [wire_at_from]. replace (Rltb a (0 + e_length K e)) with true by (symmetry; apply Rltb_spec; lra). f_equal. ring. }
  rewrite total_cons in H2. destruct (Rlt_le_dec t (e_length K e)) as [L|L].
  - rewrite !Here by lra. destruct (M e ltac:(lra)) as (_ & _ & M2). destruct (M2 s t ltac:(lra) ltac:(lra)) as (p & q & Q1 & Q2 & D). rewrite Rabs_left1 in D by lra. exists p, q. split; auto. split; auto. lra.
  - destruct w as [|f w].
    + change (total K []) with 0 in H2. pose proof (pow10_inv_pos 6). rewrite (wire_at_end K [e] t OK ltac:(discriminate) ltac:(rewrite total_one; lra) e). cbn [last]. destruct (Rlt_le_dec s (e_length K e)) as [L'|L'].
      * rewrite Here by lra. destruct (edge_from_start K e s OK M ltac:(lra)) as (p & Q & _ & D). exists p. eexists. split; [exact Q|]. split; [reflexivity|lra].
      * rewrite (wire_at_end K [e] s OK ltac:(discriminate) ltac:(rewrite total_one; lra) e). cbn [last]. do 2 eexists. split; [reflexivity|]. split; [reflexivity|]. rewrite (dist_self K OK). lra.
    + rewrite (wire_at_tail K e f w t) by (auto; lra). apply joined_cons in J as [D J]. destruct (Rlt_le_dec s (e_length K e)) as [L'|L'].
      * rewrite Here by lra. destruct (edge_from_start K e s OK M ltac:(lra)) as (p & Q & _ & Dp).
        destruct (wire_at_from_start K OK M Z w f (t - e_length K e) J ltac:(lra)) as (q & Q' & Dq). exists p, q. split; auto. split; auto.
        pose proof (dist_tri K OK p (e_end K e) q). pose proof (dist_tri K OK (e_end K e) (e_start K f) q). lra.
      * rewrite (wire_at_tail K e f w s) by (auto; lra). destruct (IH (s - e_length K e) (t - e_length K e) ltac:(discriminate) J ltac:(lra) ltac:(lra)) as (p & q & Q1 & Q2 & Dq). exists p, q. split; auto. split; auto. lra.
Qed.
Lemma segments2_short e : p_dist segments2 (e_start segments2 e) (e_end segments2 e) <= e_length segments2 e.
Proof. cbn. unfold sg2_length. rewrite dist2_sym. lra. Qed.
Lemma segments3_short e : p_dist segments3 (e_start segments3 e) (e_end segments3 e) <= e_length segments3 e.
Proof. cbn. unfold sg3_length. rewrite dist3_sym. lra. Qed.
