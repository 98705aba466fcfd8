(** Ordering of the edges of a wire. *)
From Coq Require Import Reals List Permutation Lra Lia Bool.
From Verif.Model Require Import Base RBase Vec Edges Wires.
From Verif.Spec Require Import WiresSpec.
From Verif.Proofs Require Import VecP.
Import ListNotations.
Open Scope R_scope.

Lemma some_inj {A} (a b : A) : Some a = Some b -> a = b.
Proof. now intros [= ->]. Qed.

Section W.
Context (K : edge_api) (OK : api_ok K).
Notation E := (edge K).
Notation P := (pt K).

Lemma joined_nil tol : joined K tol [].
Proof. intros [|a w1] e f w2 H; discriminate. Qed.
Lemma joined_one tol e : joined K tol [e].
Proof. intros [|a [|b w1]] x f w2 H; discriminate. Qed.
Lemma joined_cons tol e f w : joined K tol (e :: f :: w) <-> p_dist K (e_end K e) (e_start K f) <= tol /\ joined K tol (f :: w).
Proof.
  split.
  - intros H. split; [apply (H [] e f w eq_refl)|]. intros w1 x y w2 Q. apply (H (e :: w1) x y w2). rewrite Q. reflexivity.
  - intros [D H] [|a w1] x y w2 Q.
    + injection Q as <- <- _. exact D.
    + injection Q as _ Q. apply (H w1 x y w2 Q).
Qed.
Lemma joined_app tol a b : joined K tol (a ++ b) -> joined K tol a /\ joined K tol b.
Proof.
  intros H. split; intros w1 x y w2 Q.
  - apply (H w1 x y (w2 ++ b)). rewrite Q, <- app_assoc. reflexivity.
  - apply (H (a ++ w1) x y w2). rewrite Q, <- app_assoc. reflexivity.
Qed.
Lemma last_indep {A} (l : list A) d d' : l <> [] -> last l d = last l d'.
Proof. induction l as [|a [|b l] IH]; cbn; auto; [congruence|]. intros _. apply IH. discriminate. Qed.
Lemma last_cons {A} (a : A) l d : last (a :: l) d = last l a.
Proof. destruct l as [|b l]; [reflexivity|]. cbn [last]. change (last (b :: l) d = last (b :: l) a). apply last_indep. discriminate. Qed.
Lemma last_snoc {A} (l : list A) x d : last (l ++ [x]) d = x.
Proof. apply last_last. Qed.
Lemma joined_snoc tol w e x : joined K tol (w ++ [e]) -> p_dist K (e_end K e) (e_start K x) <= tol -> joined K tol ((w ++ [e]) ++ [x]).
Proof.
  induction w as [|a w IH]; intros H D.
  - cbn. apply joined_cons. split; auto. apply joined_one.
  - destruct w as [|b w].
    + cbn in *. apply joined_cons in H as [H1 _]. apply joined_cons. split; auto. apply joined_cons. split; auto. apply joined_one.
    + cbn [app] in *. apply joined_cons in H as [H1 H2]. apply joined_cons. split; auto.
Qed.

(** is_ordered *)
Lemma wire_ordered_iff w tol : wire_is_ordered K w tol = true <-> joined K tol w.
Proof.
  induction w as [|e [|f w] IH].
  - cbn. split; auto. intros _. apply joined_nil.
  - cbn. split; auto. intros _. apply joined_one.
  - rewrite joined_cons. cbn [wire_is_ordered] in *. rewrite andb_true_iff, negb_true_iff, Rltb_false, IH. tauto.
Qed.

Lemma combine_snoc {A} (w : list A) e : forall f, combine (e :: w) (w ++ [f]) = combine (removelast (e :: w)) w ++ [(last w e, f)].
Proof.
  revert e; induction w as [|a w IH]; intros e f; [reflexivity|].
  change (combine (e :: a :: w) ((a :: w) ++ [f])) with ((e, a) :: combine (a :: w) (w ++ [f])). rewrite IH, last_cons. reflexivity.
Qed.
Lemma close_iff tol p q : 0 <= tol -> (p_close K p q tol = true <-> p_dist K p q <= tol).
Proof. apply (close_spec K OK). Qed.
Lemma forall_combine tol w : 0 <= tol -> forall e,
  forallb (fun ef => p_close K (e_end K (fst ef)) (e_start K (snd ef)) tol) (combine (removelast (e :: w)) w) = true <-> joined K tol (e :: w).
Proof.
  intros T. induction w as [|f w IH]; intros e.
  - cbn. split; auto. intros _. apply joined_one.
  - change (removelast (e :: f :: w)) with (e :: removelast (f :: w)). cbn [combine forallb fst snd]. rewrite andb_true_iff, IH, joined_cons, close_iff by auto. tauto.
Qed.
Lemma contour_ordered_spec w tol : 0 <= tol -> w <> [] -> exists b, contour_is_ordered K w tol = Ok b /\
  (b = true <-> joined K tol w /\ closes K tol w /\ (forall e, w = [e] -> tol < e_length K e) /\ (forall e f, w = [e; f] -> e_same K e f = false)).
Proof.
  intros T H. destruct w as [|e r]; [congruence|]. clear H. unfold contour_is_ordered.
  assert (C : closes K tol (e :: r) <-> p_dist K (e_end K (last r e)) (e_start K e) <= tol).
  { unfold closes. split.
    - intros C. apply (C e _ r eq_refl). now rewrite last_cons.
    - intros C x f w' Q F. injection Q as <- <-. rewrite last_cons in F. subst f. exact C. }
  assert (G : forallb (fun ef => p_close K (e_end K (fst ef)) (e_start K (snd ef)) tol) (combine (e :: r) (r ++ [e])) = true <->
              joined K tol (e :: r) /\ closes K tol (e :: r)).
  { rewrite combine_snoc, forallb_app, andb_true_iff, forall_combine, C by auto. cbn [forallb fst snd]. rewrite andb_true_r, close_iff by auto. tauto. }
  destruct r as [|f [|g r]].
  - destruct (Rleb (e_length K e) tol) eqn:L.
    + eexists. split; [reflexivity|]. split; [discriminate|]. intros (_ & _ & X & _). specialize (X e eq_refl). apply Rleb_spec in L. lra.
    + eexists. split; [reflexivity|]. rewrite G. apply Rleb_false in L. split; [|tauto]. intros [A B]. do 2 (split; auto). split; [intros x [= ->]; lra|]. intros x y [=].
  - destruct (e_same K e f) eqn:S.
    + eexists. split; [reflexivity|]. split; [discriminate|]. intros (_ & _ & _ & X). rewrite (X e f eq_refl) in S. discriminate.
    + eexists. split; [reflexivity|]. rewrite G. split; [|tauto]. intros [A B]. do 2 (split; auto). split; [intros x [=]|]. intros x y [= -> ->]. exact S.
  - eexists. split; [reflexivity|]. rewrite G. split; [|tauto]. intros [A B]. do 2 (split; auto). split; [intros x [=]|]. intros x y [=].
Qed.

(** attaching an edge *)
Lemma ends_app a b : ends K (a ++ b) = ends K a ++ ends K b.
Proof. apply flat_map_app. Qed.
Lemma oriented_ends e f : f = e \/ f = e_rev K e -> Permutation (ends K [e]) (ends K [f]).
Proof.
  intros [-> | ->]; auto. cbn. rewrite (rev_start K OK), (rev_end K OK). apply perm_swap.
Qed.
Definition turned (e f : E) : Prop := f = e \/ f = e_rev K e.
Lemma attach_spec tol c e c' : 0 <= tol -> attach K tol c e = Some c' -> joined K tol c ->
  joined K tol c' /\ exists f, turned e f /\ (c' = c ++ [f] \/ c' = f :: c) /\ c <> [].
Proof.
  intros T H J. destruct c as [|a c]; [discriminate|]. unfold attach in H. destruct (extremity K e (e_end K (last (a :: c) a)) tol) eqn:X1.
  - set (l := last (a :: c) a) in *. apply some_inj in H. subst c'.
    assert (D : exists w, a :: c = w ++ [l]). { exists (removelast (a :: c)). apply app_removelast_last. discriminate. }
    destruct D as [w D]. unfold extremity in X1. apply orb_true_iff in X1. rewrite !close_iff in X1 by auto.
    destruct (p_close K (e_end K l) (e_start K e) tol) eqn:Y.
    + apply close_iff in Y; auto. split; [|exists e; split; [left; auto|split; [left; auto|discriminate]]].
      rewrite D in *. apply joined_snoc; auto.
    + split; [|exists (e_rev K e); split; [right; auto|split; [left; auto|discriminate]]].
      rewrite D in *. apply joined_snoc; auto. rewrite (rev_start K OK), (dist_sym K OK).
      assert (N : ~ p_dist K (e_end K l) (e_start K e) <= tol) by (intros Q; apply close_iff in Q; auto; congruence).
      rewrite (dist_sym K OK) in N. tauto.
  - destruct (extremity K e (e_start K a) tol) eqn:X2; [|discriminate]. apply some_inj in H. subst c'. unfold extremity in X2. apply orb_true_iff in X2. rewrite !close_iff in X2 by auto.
    destruct (p_close K (e_start K a) (e_end K e) tol) eqn:Y.
    + apply close_iff in Y; auto. split; [|exists e; split; [left; auto|split; [right; auto|discriminate]]].
      apply joined_cons. split; auto. rewrite (dist_sym K OK). exact Y.
    + split; [|exists (e_rev K e); split; [right; auto|split; [right; auto|discriminate]]].
      apply joined_cons. split; auto. rewrite (rev_end K OK).
      assert (N : ~ p_dist K (e_start K a) (e_end K e) <= tol) by (intros Q; apply close_iff in Q; auto; congruence).
      rewrite (dist_sym K OK) in N. tauto.
Qed.
Lemma attach_none tol a c e : 0 <= tol -> attach K tol (a :: c) e = None -> ~ touches K tol e (e_start K a) /\ ~ touches K tol e (e_end K (last c a)).
Proof.
  intros T H. unfold attach in H. rewrite last_cons in H. destruct (extremity K e (e_end K (last c a)) tol) eqn:X1; [discriminate|].
  destruct (extremity K e (e_start K a) tol) eqn:X2; [discriminate|]. unfold extremity, touches in *.
  rewrite orb_false_iff in X1, X2. destruct X1 as [A1 A2], X2 as [B1 B2]. rewrite <- !close_iff by auto. rewrite A1, A2, B1, B2. split; intros [|]; discriminate.
Qed.
Lemma attach_first_spec tol c l c' r : 0 <= tol -> attach_first K tol c l = Some (c', r) -> exists e, Permutation l (e :: r) /\ attach K tol c e = Some c'.
Proof.
  intros T. revert r; induction l as [|e l IH]; intros r; cbn [attach_first]; [discriminate|].
  destruct (attach K tol c e) eqn:A.
  - intros [= <- <-]. exists e. auto.
  - destruct (attach_first K tol c l) as [[c1 r1]|] eqn:F; [|discriminate]. intros [= <- <-]. destruct (IH r1 eq_refl) as (x & Px & Ax).
    exists x. split; auto. rewrite Px. apply perm_swap.
Qed.
Lemma attach_first_none tol c l : attach_first K tol c l = None -> forall e, In e l -> attach K tol c e = None.
Proof.
  induction l as [|a l IH]; cbn [attach_first]; [intros _ e []|]. destruct (attach K tol c a) eqn:A; [discriminate|].
  destruct (attach_first K tol c l) as [[]|]; [discriminate|]. intros _ e [<- | I]; auto.
Qed.
Lemma same_edges_refl l : same_edges K l l.
Proof. exists l. split; auto. induction l; constructor; auto. Qed.
Lemma same_edges_add l c r e f c' : same_edges K l (c ++ e :: r) -> turned e f -> c' = c ++ [f] \/ c' = f :: c -> same_edges K l (c' ++ r).
Proof.
  intros (l' & Pm & F) Tn C. apply Forall2_app_inv_r in F as (la & lb & Fa & Fb & ->). inversion Fb as [|x y lc ? He Fc]; subst.
  assert (Tx : f = x \/ f = e_rev K x). { destruct Tn as [-> | ->]; [exact He|]. destruct He as [-> | ->]; [right; auto|left; apply (rev_rev K OK)]. }
  destruct C as [-> | ->].
  - exists (la ++ x :: lc). split; auto. rewrite <- app_assoc. apply Forall2_app; auto. constructor; auto.
  - exists (x :: la ++ lc). split. { rewrite Pm. symmetry. apply Permutation_middle. } rewrite <- app_comm_cons. constructor; auto. apply Forall2_app; auto.
Qed.
Lemma same_edges_perm l c r r' : same_edges K l (c ++ r) -> Permutation r r' -> same_edges K l (c ++ r').
Proof.
  intros (l' & Pm & F) Pr. apply Forall2_app_inv_r in F as (la & lb & Fa & Fb & ->).
  assert (G : exists lb', Permutation lb lb' /\ Forall2 (fun a b => b = a \/ b = e_rev K a) lb' r').
  { clear -Fb Pr. revert lb Fb. induction Pr; intros lb Fb.
    - inversion Fb; subst. exists []. auto.
    - inversion Fb as [|a b lc ? H Hc]; subst. destruct (IHPr lc Hc) as (x' & P1 & F1). exists (a :: x'). auto.
    - inversion Fb as [|a b lc ? H Hc]; subst. inversion Hc as [|a2 b2 lc2 ? H2 Hc2]; subst. exists (a2 :: a :: lc2). split; [apply perm_swap|auto].
    - destruct (IHPr1 lb Fb) as (m & M1 & M2). destruct (IHPr2 m M2) as (n & N1 & N2). exists n. split; auto. now rewrite M1. }
  destruct G as (lb' & P1 & F1). exists (la ++ lb'). split; [rewrite Pm; now apply Permutation_app_head|]. apply Forall2_app; auto.
Qed.
Lemma step_spec tol l c r c' r' : 0 <= tol -> joined K tol c -> same_edges K l (c ++ r) -> attach_first K tol c r = Some (c', r') ->
  joined K tol c' /\ same_edges K l (c' ++ r') /\ length r = S (length r') /\ c' <> [].
Proof.
  intros T J S A. destruct (attach_first_spec tol c r c' r' T A) as (e & Pe & Ae). destruct (attach_spec tol c e c' T Ae J) as (J' & f & Tn & C & N).
  split; auto. split; [|split].
  - eapply same_edges_add; [|exact Tn|exact C]. eapply same_edges_perm; eauto.
  - rewrite (Permutation_length Pe). reflexivity.
  - destruct C as [-> | ->]; [destruct c|]; discriminate.
Qed.
Lemma ordering_loop_sound fuel tol l : 0 <= tol -> forall c r w, joined K tol c -> same_edges K l (c ++ r) -> ordering_loop K fuel tol c r = Ok w ->
  joined K tol w /\ same_edges K l w.
Proof.
  intros T. induction fuel as [|fuel IH]; intros c r w J S; cbn [ordering_loop]; destruct r as [|x r]; try discriminate.
  - intros H. apply Ok_inj in H. subst. rewrite app_nil_r in S. auto.
  - intros H. apply Ok_inj in H. subst. rewrite app_nil_r in S. auto.
  - destruct (attach_first K tol c (x :: r)) as [[c' r']|] eqn:A; [|discriminate]. destruct (step_spec tol l c _ c' r' T J S A) as (J' & S' & _). apply IH; auto.
Qed.
Lemma ordering_loop_fuel fuel tol : 0 <= tol -> forall c r, (length r <= fuel)%nat -> ordering_loop K fuel tol c r <> Err OutOfFuel.
Proof.
  intros T. induction fuel as [|fuel IH]; intros c r L; cbn [ordering_loop]; destruct r as [|x r]; try discriminate; [cbn in L; lia|].
  destruct (attach_first K tol c (x :: r)) as [[c' r']|] eqn:A; [|discriminate]. destruct (attach_first_spec tol c _ c' r' T A) as (e & Pe & _). apply IH.
  apply Permutation_length in Pe. cbn in *. lia.
Qed.
Lemma filter_split {A} (f : A -> bool) l : Permutation l (filter f l ++ filter (fun x => negb (f x)) l).
Proof.
  induction l as [|a l IH]; auto. cbn [filter]. destruct (f a); cbn [negb app].
  - now constructor.
  - rewrite <- Permutation_middle. now constructor.
Qed.
Lemma long_iff tol e : 0 <= tol -> negb (isclose (e_length K e) 0 tol) = true <-> tol < e_length K e.
Proof. intros T. rewrite negb_true_iff, isclose_0_false, Rabs_pos_eq by (auto; apply (length_pos K OK)). tauto. Qed.
Lemma ordering_sound w tol r : 0 <= tol -> ordering_primitives K w tol = Ok r ->
  exists kept dropped, Permutation w (kept ++ dropped) /\ (forall e, In e kept -> tol < e_length K e) /\ (forall e, In e dropped -> e_length K e <= tol) /\
    joined K tol r /\ same_edges K kept r.
Proof.
  intros T H. unfold ordering_primitives in H. set (f := fun e => negb (isclose (e_length K e) 0 tol)) in *.
  exists (filter f w), (filter (fun x => negb (f x)) w). split; [apply filter_split|].
  split. { intros e I. apply filter_In in I as [_ I]. apply long_iff in I; auto. }
  split. { intros e I. apply filter_In in I as [_ I]. destruct (Rle_dec (e_length K e) tol); auto. assert (f e = true) by (apply long_iff; auto; lra). rewrite H0 in I. discriminate. }
  destruct (filter f w) as [|e l] eqn:F; [discriminate|]. eapply ordering_loop_sound; eauto; [apply joined_one|apply same_edges_refl].
Qed.
Lemma ordering_errors w tol x : 0 <= tol -> ordering_primitives K w tol = Err x -> x = NotImplementedError \/ (x = IndexError /\ forall e, In e w -> e_length K e <= tol).
Proof.
  intros T. unfold ordering_primitives. set (f := fun e => negb (isclose (e_length K e) 0 tol)) in *. destruct (filter f w) as [|e l] eqn:F.
  - intros [= <-]. right. split; auto. intros e I. destruct (Rle_dec (e_length K e) tol); auto. assert (In e (filter f w)) as X by (apply filter_In; split; auto; apply long_iff; auto; lra). rewrite F in X. destruct X.
  - intros H. left. assert (NF := ordering_loop_fuel (length l) tol T [e] l (le_n _)). rewrite H in NF. clear F. revert H NF. generalize (length l) as n, [e] as c. intros n; revert l. induction n as [|n IH]; intros l c; cbn [ordering_loop]; destruct l as [|y l]; try discriminate.
    + intros [= <-] X. congruence.
    + destruct (attach_first K tol c (y :: l)) as [[c' r']|]; [apply IH|]. intros [= <-]. auto.
Qed.
End W.
