(** Shared section of two segments of the plane. *)
From Verif.Model Require Import Base RBase Vec Frame BBox Geometry Curves Edges.
From Verif.Spec Require Import VecSpec CurvesSpec PlaneSpec BBoxSpec EdgesSpec.
From Verif.Proofs Require Import VecP LineP CurvesP BBoxP GeometryP EdgesP EdgesP3 EdgesP4 EdgesP5 EdgesP7 EdgesP8.
From Coq Require Import List Lra Lia Psatz.
Import ListNotations.
Open Scope R_scope.

Lemma on_fst (s : sg2) : on_segment2 s (fst s).
Proof. exists 0. split; [lra|]. symmetry. apply seg2_0. Qed.
Lemma on_snd (s : sg2) : on_segment2 s (snd s).
Proof. exists 1. split; [lra|]. symmetry. apply seg2_1. Qed.
Lemma on_near2 s p tol : 0 <= tol -> on_segment2 s p -> near_segment2 s p tol.
Proof. intros T H. exists p. split; auto. rewrite dist_refl. auto. Qed.
(** the points near a segment form a convex set *)
Lemma near_convex s r tol : near_segment2 s (fst r) tol -> near_segment2 s (snd r) tol -> forall p, on_segment2 r p -> near_segment2 s p tol.
Proof.
  intros (a & (i & I & A) & DA) (b & (j & J & B) & DB) p (u & U & ->).
  exists (at_param2 s ((1 - u) * i + u * j)). split; [exists ((1 - u) * i + u * j); split; [split; nra|reflexivity]|].
  assert (E : sub2 (at_param2 r u) (at_param2 s ((1 - u) * i + u * j)) = add2 (mul2 (sub2 (fst r) a) (1 - u)) (mul2 (sub2 (snd r) b) u)).
  { subst a b. destruct r as [[] []], s as [[] []]. unfold at_param2. vec; v_eq; ring. }
  unfold point_distance2 in *. rewrite E. apply Rle_trans with (1 := norm2_triangle _ _). rewrite !norm2_scale. rewrite !Rabs_right by lra. nra.
Qed.
Lemma all_belong_spec s l tol : proper2 s -> 0 <= tol -> exists b, all_belong s l tol = Ok b /\ (b = true <-> forall p, In p l -> near_segment2 s p tol).
Proof.
  intros H T. induction l as [|p l IH].
  - exists true. cbn. split; [reflexivity|]. split; auto. intros _ q [].
  - cbn [all_belong]. destruct (sg2_belongs_spec s p tol H T) as (b & E & B). rewrite E. cbn [bind]. destruct b.
    + destruct IH as (c & -> & C). exists c. split; [reflexivity|]. rewrite C. split.
      * intros K q [<-|Q]; auto. apply B. reflexivity.
      * intros K q Q. apply K. right. auto.
    + exists false. split; [reflexivity|]. split; [discriminate|]. intros K. exfalso. assert (false = true) by (apply B, K; left; auto). discriminate.
Qed.
Lemma any_belong_spec s l tol : proper2 s -> 0 <= tol -> exists b, any_belong s l tol = Ok b /\ (b = true <-> exists p, In p l /\ near_segment2 s p tol).
Proof.
  intros H T. induction l as [|p l IH].
  - exists false. cbn. split; [reflexivity|]. split; [discriminate|]. intros (q & [] & _).
  - cbn [any_belong]. destruct (sg2_belongs_spec s p tol H T) as (b & E & B). rewrite E. cbn [bind]. destruct b.
    + exists true. split; [reflexivity|]. split; auto. intros _. exists p. split; [left; auto|]. apply B. reflexivity.
    + destruct IH as (c & -> & C). exists c. split; [reflexivity|]. rewrite C. split.
      * intros (q & Q & N). exists q. split; [right|]; auto.
      * intros (q & [<-|Q] & N); [apply B in N; discriminate|]. exists q. auto.
Qed.
Lemma both_nil s t tol : both s t tol [].
Proof. split; [cbn; lia|]. intros r []. Qed.
Lemma both_one s t tol r : proper2 r -> near_segment2 s (fst r) tol -> near_segment2 s (snd r) tol -> near_segment2 t (fst r) tol -> near_segment2 t (snd r) tol ->
  both s t tol [r].
Proof. intros. split; [cbn; lia|]. intros x [<-|[]]. split; auto. intros p Hp. split; apply (near_convex _ r); auto. Qed.
Lemma split_both s t p tol sp l : proper2 s -> proper2 t -> 0 <= tol -> near_segment2 s p tol ->
  sg2_split s p tol = Ok sp -> shared_of_split (fst sp) (snd sp) t tol = Ok l -> both s t tol l.
Proof.
  intros Hs Ht T N E L.
  assert (G : forall e, fst sp = Some e \/ snd sp = Some e -> proper2 e /\ near_segment2 s (fst e) tol /\ near_segment2 s (snd e) tol).
  { pose proof (on_near2 s _ tol T (on_fst s)). pose proof (on_near2 s _ tol T (on_snd s)).
    unfold sg2_split in E. destruct (is_close2 p (fst s) tol); [apply Ok_inj in E; subst sp; cbn [fst snd]; intros e [K|K]; [discriminate|]; injection K as <-; auto|].
    destruct (is_close2 p (snd s) tol); [apply Ok_inj in E; subst sp; cbn [fst snd]; intros e [K|K]; [|discriminate]; injection K as <-; auto|].
    destruct (segment2 (fst s) p) as [a|] eqn:A; cbn [bind] in E; [|discriminate]. destruct (segment2 p (snd s)) as [b|] eqn:B; cbn [bind] in E; [|discriminate].
    apply segment2_inv in A as [A1 A2]. apply segment2_inv in B as [B1 B2]. apply Ok_inj in E. subst sp. cbn [fst snd].
    intros e [K|K]; injection K as <-; [rewrite A2|rewrite B2]; cbn [fst snd]; auto. }
  assert (S1 : forall e, fst sp = Some e \/ snd sp = Some e -> (forall q, In q (three_points e) -> near_segment2 t q tol) -> both s t tol [e]).
  { intros e K Q. destruct (G e K) as (X & Y & Z). apply both_one; auto; apply Q; unfold three_points; cbn; auto. }
  unfold shared_of_split in L. destruct (fst sp) as [e1|] eqn:F1.
  - destruct (all_belong_spec t (three_points e1) tol Ht T) as (b & Eb & B). rewrite Eb in L. cbn [bind] in L. destruct b.
    { apply Ok_inj in L. subst l. apply S1; auto. apply B. reflexivity. }
    destruct (snd sp) as [e2|]; [|cbn [bind] in L; apply Ok_inj in L; subst l; apply both_nil].
    destruct (all_belong_spec t (three_points e2) tol Ht T) as (b2 & Eb2 & B2). rewrite Eb2 in L. cbn [bind] in L. destruct b2; apply Ok_inj in L; subst l; [|apply both_nil].
    apply S1; auto. apply B2. reflexivity.
  - cbn [bind] in L. destruct (snd sp) as [e2|]; [|cbn [bind] in L; apply Ok_inj in L; subst l; apply both_nil].
    destruct (all_belong_spec t (three_points e2) tol Ht T) as (b2 & Eb2 & B2). rewrite Eb2 in L. cbn [bind] in L. destruct b2; apply Ok_inj in L; subst l; [|apply both_nil].
    apply S1; auto. apply B2. reflexivity.
Qed.
Lemma shared_sound s t tol l : proper2 s -> proper2 t -> 0 <= tol -> sg2_shared_section s t tol = Ok l -> both s t tol l.
Proof.
  intros Hs Ht T E. unfold sg2_shared_section in E. destruct (negb _); [apply Ok_inj in E; subst l; apply both_nil|].
  destruct (any_belong_spec s [fst t; snd t] tol Hs T) as (a & Ea & _). rewrite Ea in E. cbn [bind] in E.
  destruct (any_belong_spec t [fst s; snd s] tol Ht T) as (a' & Ea' & _).
  assert (E' : (if (if a then true else a') then sg2_generic_shared s t tol else Ok []) = Ok l). { destruct a; cbn [bind] in E; [exact E|]. rewrite Ea' in E. exact E. }
  clear E. destruct (if a then true else a'); [|apply Ok_inj in E'; subst l; apply both_nil]. unfold sg2_generic_shared in E'.
  destruct (all_belong_spec s (three_points t) tol Hs T) as (b & Eb & B). rewrite Eb in E'. cbn [bind] in E'. destruct b.
  { apply Ok_inj in E'. subst l. apply both_one; auto using on_near2, on_fst, on_snd; apply B; unfold three_points; cbn; auto. }
  pose proof (sg2_length_pos s Hs). replace (sg2_length s * (1 / 2)) with (sg2_length s / 2) in E' by field. rewrite sg2_pat_middle in E' by auto. cbn [bind] in E'.
  destruct (all_belong_spec t [fst s; sg2_middle s; snd s] tol Ht T) as (b & Eb' & B'). rewrite Eb' in E'. cbn [bind] in E'. destruct b.
  { apply Ok_inj in E'. subst l. apply both_one; auto using on_near2, on_fst, on_snd; apply B'; cbn; auto. }
  destruct (sg2_belongs_spec s (fst t) tol Hs T) as (b1 & E1 & B1). rewrite E1 in E'. cbn [bind] in E'. destruct b1.
  { destruct (sg2_split s (fst t) tol) as [sp|] eqn:SP; cbn [bind] in E'; [|discriminate]. apply (split_both s t (fst t) tol sp l); auto. apply B1. reflexivity. }
  destruct (sg2_belongs_spec s (snd t) tol Hs T) as (b2 & E2 & B2). rewrite E2 in E'. cbn [bind] in E'. destruct b2; [|discriminate].
  destruct (sg2_split s (snd t) tol) as [sp|] eqn:SP; cbn [bind] in E'; [|discriminate]. apply (split_both s t (snd t) tol sp l); auto. apply B2. reflexivity.
Qed.

(** line_crossings: the intersections that are not at an end *)
Lemma sg2_crossings_sub s l pts q : sg2_line_crossings s l = Ok pts -> In q pts ->
  (exists pts', sg2_line_intersections s l = Ok pts' /\ In q pts') .
Proof.
  unfold sg2_line_crossings. destruct (is_colinear_to2 _ _ _); [intros E; apply Ok_inj in E as <-; intros []|].
  destruct (sg2_line_intersections s l) as [i|]; cbn [bind]; [|discriminate]. destruct i as [|p i]; [intros E; apply Ok_inj in E as <-; intros []|].
  destruct (_ || _); intros E; apply Ok_inj in E as <-; [intros []|]. intros I. exists (p :: i). auto.
Qed.
Lemma sg2_crossings_complete s l p : proper2 s -> proper2 l -> / 10 ^ 15 < Rabs (den2 s l) -> apart s l (/ 10 ^ 6) ->
  on_segment2 s p -> on_line2 l p ->
  sg2_line_crossings s l = Ok (if is_close2 p (snd s) (/ 10 ^ 6) || is_close2 p (fst s) (/ 10 ^ 6) then [] else [p]).
Proof.
  intros S L D A P Q. unfold sg2_line_crossings. rewrite (proj2 (apart_spec s l (/ 10 ^ 6) (Rlt_le _ _ (pow10_inv_pos 6)) S L) A).
  rewrite (sg2_line_complete s l p S L D A P Q). cbn [bind]. destruct (_ || _); reflexivity.
Qed.
(** reversing *)
Lemma sg2_reverse_spec s : proper2 s -> exists r, sg2_reverse s = Ok r /\ sg2_length r = sg2_length s /\ (forall p, on_segment2 r p <-> on_segment2 s p) /\
  (forall k, at_param2 r k = at_param2 s (1 - k)) /\ sg2_reverse r = Ok s.
Proof.
  intros H. exists (snd s, fst s). unfold sg2_reverse. cbn [fst snd]. rewrite segment2_ok by (intros K; apply H; auto). split; [reflexivity|].
  split; [unfold sg2_length; cbn [fst snd]; apply dist2_sym|].
  assert (E : forall k, at_param2 (snd s, fst s) k = at_param2 s (1 - k)). { intros k. destruct s as [[] []]. unfold at_param2. vec; v_eq; ring. }
  split; [|split; [exact E|rewrite segment2_ok by exact H; destruct s; reflexivity]]. intros p. split; intros (t & T & ->); exists (1 - t); (split; [lra|]).
  - apply E.
  - rewrite E. f_equal. ring.
Qed.
Lemma sg2_any_direction_spec s t tol : proper2 s -> 0 <= tol -> exists b, sg2_is_close_any_direction s t tol = Ok b /\
  (b = true <-> joins2 s (fst t) (snd t) tol).
Proof.
  intros H T. unfold sg2_is_close_any_direction, sg2_reverse. rewrite segment2_ok by (intros K; apply H; auto).
  assert (G : forall a b, sg2_is_close a b tol = true <-> point_distance2 (fst a) (fst b) <= tol /\ point_distance2 (snd a) (snd b) <= tol).
  { intros a b. unfold sg2_is_close. rewrite Bool.andb_true_iff. unfold is_close2. rewrite !isclose_0 by auto. rewrite !Rabs_right by (apply Rle_ge; apply norm2_pos). tauto. }
  unfold joins2. destruct (sg2_is_close s t tol) eqn:E.
  - exists true. split; [reflexivity|]. apply G in E. tauto.
  - cbn [bind]. eexists. split; [reflexivity|]. rewrite G. cbn [fst snd]. assert (~ (point_distance2 (fst s) (fst t) <= tol /\ point_distance2 (snd s) (snd t) <= tol)) by (rewrite <- G, E; discriminate). tauto.
Qed.
(** abscissa is that of the orthogonal projection: a point off the segment has one too *)
Lemma sg2_abscissa_off : exists s p a, proper2 s /\ ~ near_segment2 s p 4 /\ sg2_abscissa s p (/ 10 ^ 6) = Ok a.
Proof.
  exists (V2 0 0, V2 2 0), (V2 1 5). assert (H : proper2 (V2 0 0, V2 2 0)) by (intros H; pose proof (f_equal x2 H) as X; cbn in X; lra).
  eexists. split; auto. split.
  - intros (q & (u & U & ->) & D). assert (5 <= 4); [|lra]. apply Rle_trans with (2 := D). unfold point_distance2, norm2. rewrite <- (sqrt_square 5) at 1 by lra. apply sqrt_le_1_alt. unfold at_param2. vec. pose proof (Rle_0_sqr (1 - 2 * u)) as SQ. unfold Rsqr in SQ. nra.
  - assert (B : forall a, / 10 ^ 6 <= point_distance2 (V2 1 5) (V2 a 0)). { intros a. apply Rle_trans with 5; [lra|]. unfold point_distance2, norm2. rewrite <- (sqrt_square 5) at 1 by lra. apply sqrt_le_1_alt. vec. pose proof (Rle_0_sqr (1 - a)) as SQ. unfold Rsqr in SQ. nra. }
    rewrite sg2_abscissa_outside by (auto; apply B). cbv zeta. replace (sg2_length _) with 2 by (symmetry; unfold sg2_length, point_distance2, norm2; apply sqrt_of_sq; vec; lra).
    cbn [fst snd]. replace (dot2 _ _) with 2 by (vec; ring). rewrite (proj2 (Rltb_false _ _)) by lra. rewrite (proj2 (Rltb_false _ _)) by lra. reflexivity.
Qed.
