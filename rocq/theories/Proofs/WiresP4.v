(** The abscissa of a point of a wire; the edges of a contour of a STEP file. *)
From Coq Require Import Reals List Permutation Lra Lia Bool.
From Verif.Model Require Import Base RBase Vec Frame Geometry Curves Edges Wires.
From Verif.Spec Require Import VecSpec EdgesSpec WiresSpec.
From Verif.Proofs Require Import VecP EdgesP EdgesP3 EdgesP4 EdgesP10 WiresP WiresP2 WiresP3.
Import ListNotations.
Open Scope R_scope.

(** the first edge that has the point gives the abscissa *)
Lemma wire_abscissa_from_spec K tol p e w2 : forall w1 d, (forall f, In f w1 -> e_belongs K f p tol = Ok false) -> e_belongs K e p tol = Ok true ->
  wire_abscissa_from K (w1 ++ e :: w2) d p tol = do a <- e_abscissa K e p; Ok (d + total K w1 + a).
Proof.
  induction w1 as [|f w1 IH]; intros d H1 H2; cbn [app wire_abscissa_from].
  - rewrite H2. cbn [bind]. destruct (e_abscissa K e p); cbn [bind]; auto. change (total K []) with 0. do 2 f_equal. ring.
  - rewrite (H1 f (or_introl eq_refl)). cbn [bind]. rewrite IH; auto; [|intros g I; apply H1; right; auto]. rewrite total_cons. destruct (e_abscissa K e p); cbn [bind]; auto. do 2 f_equal. ring.
Qed.
Lemma wire_over_yes K tol p e w2 : forall w1, (forall f, In f w1 -> e_belongs K f p tol = Ok false) -> e_belongs K e p tol = Ok true -> wire_over K (w1 ++ e :: w2) p tol = Ok true.
Proof. induction w1 as [|f w1 IH]; intros H1 H2; cbn [app wire_over]; [rewrite H2; auto|]. rewrite (H1 f (or_introl eq_refl)). cbn [bind]. apply IH; auto. intros g I; apply H1; right; auto. Qed.
Lemma wire_over_no K tol p : forall w, (forall f, In f w -> e_belongs K f p tol = Ok false) -> wire_over K w p tol = Ok false.
Proof. induction w as [|f w IH]; intros H; cbn [wire_over]; auto. rewrite (H f (or_introl eq_refl)). cbn [bind]. apply IH; auto. intros g I; apply H; right; auto. Qed.
Lemma first_belongs K tol p : forall w, (forall f, In f w -> exists b, e_belongs K f p tol = Ok b) ->
  (forall f, In f w -> e_belongs K f p tol = Ok false) \/ exists w1 e w2, w = w1 ++ e :: w2 /\ (forall f, In f w1 -> e_belongs K f p tol = Ok false) /\ e_belongs K e p tol = Ok true.
Proof.
  induction w as [|f w IH]; intros H; [left; intros f []|]. destruct (H f (or_introl eq_refl)) as ([|] & B).
  - right. exists [], f, w. split; auto. split; auto. intros g [].
  - destruct (IH ltac:(intros g I; apply H; right; auto)) as [N | (w1 & e & w2 & -> & N & Y)].
    + left. intros g [<- | I]; auto.
    + right. exists (f :: w1), e, w2. split; auto. split; auto. intros g [<- | I]; auto.
Qed.
Definition all_proper2 (w : list sg2) : Prop := forall s, In s w -> proper2 s.
Lemma wire2_over w p tol : (forall s, In s w -> proper2 s) -> 0 <= tol ->
  exists b, wire_over segments2 w p tol = Ok b /\ (b = true <-> exists s, In s w /\ near_segment2 s p tol).
Proof.
  intros H T. destruct (first_belongs segments2 tol p w) as [N | (w1 & e & w2 & -> & N & Y)].
  - intros f I. destruct (sg2_belongs_spec f p tol (H f I) T) as (b & B & _). exists b. exact B.
  - exists false. split; [apply wire_over_no; auto|]. split; [discriminate|]. intros (s & I & Q). specialize (N s I). cbn in N. rewrite sg2_belongs_yes in N by auto. discriminate.
  - exists true. split; [apply wire_over_yes; auto|]. split; auto. intros _. exists e. assert (I : In e (w1 ++ e :: w2)) by (apply in_or_app; right; left; auto). split; auto.
    destruct (sg2_belongs_spec e p tol (H e I) T) as (b & B & Q). cbn in Y. rewrite Y in B. apply Ok_inj in B. apply Q. auto.
Qed.
(** the abscissa of a point of the wire leads back to the point *)
Lemma wire2_abscissa_off w p tol : (forall s, In s w -> proper2 s) -> 0 <= tol -> (forall s, In s w -> ~ near_segment2 s p tol) -> wire_abscissa segments2 w p tol = Err ValueError.
Proof.
  intros H T F. destruct (wire2_over w p tol H T) as ([|] & Q & E); unfold wire_abscissa; rewrite Q; cbn [bind]; auto. destruct (proj1 E eq_refl) as (s & I & N). destruct (F s I N).
Qed.
Lemma wire2_abscissa_on w1 e w2 p tol : (forall s, In s (w1 ++ e :: w2) -> proper2 s) -> 0 <= tol -> (forall s, In s w1 -> ~ near_segment2 s p tol) -> near_segment2 e p tol ->
  wire_abscissa segments2 (w1 ++ e :: w2) p tol = do a <- sg2_abscissa e p (/ 10 ^ 6); Ok (wire_length segments2 w1 + a).
Proof.
  intros H T F N. assert (F' : forall f, In f w1 -> e_belongs segments2 f p tol = Ok false). { intros f I. cbn. apply sg2_belongs_no; auto. apply H, in_or_app; auto. }
  assert (Y : e_belongs segments2 e p tol = Ok true). { cbn. apply sg2_belongs_yes; auto. apply H, in_or_app; right; left; auto. }
  unfold wire_abscissa. rewrite wire_over_yes by auto. cbn [bind]. rewrite wire_abscissa_from_spec by auto. rewrite length_total. cbn [e_abscissa segments2]. destruct (sg2_abscissa e p (/ 10 ^ 6)); cbn [bind]; auto. do 2 f_equal. ring.
Qed.
Lemma on_near2 s p tol : 0 <= tol -> on_segment2 s p -> near_segment2 s p tol.
Proof. intros T H. exists p. split; auto. assert (point_distance2 p p = 0) by (apply dist2_zero; auto). lra. Qed.
Lemma wire_at_in K w1 e w2 a : api_ok K -> 0 <= a < e_length K e -> wire_at K (w1 ++ e :: w2) (total K w1 + a) = e_at K e a.
Proof.
  intros OK H. unfold wire_at. assert (G : forall w1 l d, wire_at_from K (w1 ++ e :: w2) l d (d + total K w1 + a) = e_at K e a).
  { clear - OK H. intros w1; induction w1 as [|f w1 IH]; intros l d; cbn [app wire_at_from].
    - change (total K []) with 0. replace (Rltb (d + 0 + a) (d + e_length K e)) with true by (symmetry; apply Rltb_spec; lra). f_equal. ring.
    - rewrite total_cons. pose proof (total_pos K OK w1). replace (Rltb (d + (e_length K f + total K w1) + a) (d + e_length K f)) with false by (symmetry; apply Rltb_false; lra).
      replace (d + (e_length K f + total K w1) + a) with (d + e_length K f + total K w1 + a) by ring. apply IH. }
  rewrite <- (G w1 None 0). f_equal. ring.
Qed.
(** at an inner corner of a wire joined without gaps, the abscissa gives the corner *)
Lemma wire_at_corner K w1 e w2 a : api_ok K -> api_measures K -> (forall f, In f (w1 ++ e :: w2) -> 0 < e_length K f) -> joined K 0 (w1 ++ e :: w2) -> (forall p q, p_dist K p q = 0 -> p = q) ->
  0 <= a <= e_length K e -> wire_at K (w1 ++ e :: w2) (total K w1 + a) = e_at K e a.
Proof.
  intros OK M P J Z H. destruct (Rlt_le_dec a (e_length K e)) as [L|L]; [apply wire_at_in; auto; lra|]. assert (a = e_length K e) as -> by lra.
  destruct (M e (P e ltac:(apply in_or_app; right; left; auto))) as (_ & M1 & _). rewrite M1. destruct w2 as [|f w2].
  - rewrite (wire_at_end K (w1 ++ [e]) (total K w1 + e_length K e) OK) with (a := e). { rewrite last_last. reflexivity. } { destruct w1; discriminate. } pose proof (pow10_inv_pos 6). rewrite total_app, total_one. lra.
  - pose proof (J w1 e f w2 eq_refl) as D. pose proof (dist_pos K OK (e_end K e) (e_start K f)). replace (w1 ++ e :: f :: w2) with ((w1 ++ [e]) ++ f :: w2) by (rewrite <- app_assoc; reflexivity).
    assert (Pf : 0 < e_length K f) by (apply P, in_or_app; right; right; left; auto).
    replace (total K w1 + e_length K e) with (total K (w1 ++ [e]) + 0) by (rewrite total_app, total_one; ring). rewrite wire_at_in by (auto; lra). destruct (M f Pf) as (M0 & _). rewrite M0. f_equal. symmetry. apply Z. lra.
Qed.
Lemma wire2_round_trip w1 e w2 p tol : (forall s, In s (w1 ++ e :: w2) -> proper2 s) -> 0 <= tol -> joined segments2 0 (w1 ++ e :: w2) ->
  (forall s, In s w1 -> ~ near_segment2 s p tol) -> on_segment2 e p ->
  exists a q, wire_abscissa segments2 (w1 ++ e :: w2) p tol = Ok a /\ wire_length segments2 w1 <= a <= wire_length segments2 w1 + sg2_length e /\
    wire_at segments2 (w1 ++ e :: w2) a = Ok q /\ point_distance2 p q < / 10 ^ 6.
Proof.
  intros H T J F O. assert (Pe : proper2 e) by (apply H, in_or_app; right; left; auto).
  rewrite wire2_abscissa_on by (auto; apply on_near2; auto). destruct (sg2_pat_of_abscissa e p (/ 10 ^ 6) Pe (pow10_inv_pos 6) O) as (a & q & Q1 & R & Q2 & D). rewrite Q1. cbn [bind].
  eexists. exists q. split; [reflexivity|]. split; [lra|]. split; [|auto]. rewrite length_total.
  refine (eq_trans (wire_at_corner segments2 w1 e w2 a segments2_ok segments2_measure _ _ _ _) Q2); auto.
  - intros f I. cbn. apply sg2_length_pos. apply H; auto.
  - intros x y. cbn. apply dist2_zero.
Qed.
Lemma wire2_abscissa_of_at w1 e w2 a tol : (forall s, In s (w1 ++ e :: w2) -> proper2 s) -> 0 <= tol -> 0 <= a < sg2_length e ->
  exists p, wire_at segments2 (w1 ++ e :: w2) (wire_length segments2 w1 + a) = Ok p /\ on_segment2 e p /\
    ((forall s, In s w1 -> ~ near_segment2 s p tol) -> exists b, wire_abscissa segments2 (w1 ++ e :: w2) p tol = Ok b /\ Rabs (b - (wire_length segments2 w1 + a)) < / 10 ^ 6).
Proof.
  intros H T R. assert (Pe : proper2 e) by (apply H, in_or_app; right; left; auto). rewrite length_total, wire_at_in by (auto using segments2_ok; cbn; lra). cbn [e_at segments2].
  pose proof (sg2_pat_param e a Pe) as Q. eexists. split; [exact Q|]. pose proof (sg2_length_pos e Pe) as L.
  assert (O : on_segment2 e (seg2 (fst e) (snd e) (a / sg2_length e))).
  { exists (a / sg2_length e). split; auto. split; [apply Rmult_le_pos; [lra|apply Rlt_le, Rinv_0_lt_compat, L]|]. apply Rmult_le_reg_r with (sg2_length e); auto. unfold Rdiv. rewrite Rmult_assoc, Rinv_l by lra. lra. }
  split; auto. intros F. rewrite wire2_abscissa_on by (auto; apply on_near2; auto). destruct (sg2_abscissa_of_pat e a _ (/ 10 ^ 6) Pe (pow10_inv_pos 6) ltac:(lra) Q) as (b & B & D & _).
  rewrite B. cbn [bind]. eexists. split; [reflexivity|]. rewrite length_total. match goal with |- Rabs ?x < _ => replace x with (b - a) by ring end. auto.
Qed.
