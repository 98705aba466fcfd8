From Coq Require Import List Bool Arith ZArith Reals Permutation Lra Lia.
From Verif.Model Require Import Base RBase Vec Geometry Curves Edges Hull.
From Verif.Spec Require Import HullSpec.
From Verif.Proofs Require Import VecP PolyTurnP.
Import ListNotations.
Open Scope R_scope.

(** * paths and rings *)
Lemma path_cons : forall A (a b : A) l, path_edges (a :: b :: l) = (a, b) :: path_edges (b :: l).
Proof. reflexivity. Qed.
Lemma path_app : forall A (l m : list A) y, path_edges (l ++ y :: m) = path_edges (l ++ [y]) ++ path_edges (y :: m).
Proof.
  induction l as [|a l IH]; intros m y; [reflexivity|]. destruct l as [|b l]; [reflexivity|].
  cbn [app] in *. rewrite !path_cons, (IH m y). reflexivity.
Qed.
Lemma path_rev : forall A (l : list A), path_edges (rev l) = rev (map (fun e => (snd e, fst e)) (path_edges l)).
Proof.
  induction l as [|a l IH]; [reflexivity|]. destruct l as [|b l]; [reflexivity|].
  cbn [rev] in *. rewrite <- app_assoc. cbn [app]. rewrite path_app, IH, path_cons. reflexivity.
Qed.
Lemma path_in : forall A (l : list A) u v, In (u, v) (path_edges l) -> exists a b, l = a ++ u :: v :: b.
Proof.
  induction l as [|x l IH]; intros u v H; [destruct H|]. destruct l as [|y l]; [destruct H|].
  rewrite path_cons in H. destruct H as [H|H].
  - apply pair_equal_spec in H as [<- <-]. exists [], l. reflexivity.
  - destruct (IH _ _ H) as (a & b & E). exists (x :: a), b. rewrite E. reflexivity.
Qed.
Lemma path_members : forall A (l : list A) u v, In (u, v) (path_edges l) -> In u l /\ In v l.
Proof. intros A l u v H. destruct (path_in _ _ _ _ H) as (a & b & ->). split; apply in_or_app; right; cbn; auto. Qed.

Lemma rotation_edges : forall A (l m : list A), rotation l m -> Permutation (ring_edges l) (ring_edges m).
Proof.
  intros A l m (a & b & -> & ->). destruct a as [|x a]; [rewrite app_nil_r; reflexivity|]. destruct b as [|y b]; [rewrite app_nil_r; reflexivity|].
  cbn [ring_edges app]. rewrite <- !app_assoc. cbn [app].
  change (x :: a ++ y :: b ++ [x]) with ((x :: a) ++ y :: (b ++ [x])). change (y :: b ++ x :: a ++ [y]) with ((y :: b) ++ x :: (a ++ [y])).
  rewrite (path_app _ (x :: a)), (path_app _ (y :: b)). cbn [app]. apply Permutation_app_comm.
Qed.
Lemma rotation_rev : forall A (l m : list A), rotation l m -> rotation (rev l) (rev m).
Proof. intros A l m (a & b & -> & ->). exists (rev b), (rev a). rewrite !rev_app_distr. auto. Qed.
Lemma app_eq_split : forall A (a b c d : list A), a ++ b = c ++ d -> exists e, (a = c ++ e /\ d = e ++ b) \/ (c = a ++ e /\ b = e ++ d).
Proof.
  induction a as [|x a IH]; intros b c d H.
  - exists c. right. auto.
  - destruct c as [|y c].
    + exists (x :: a). left. auto.
    + cbn in H. injection H as -> H. destruct (IH _ _ _ H) as (e & [ [E1 E2] | [E1 E2] ]); exists e; [left|right]; subst; auto.
Qed.
Lemma rotation_trans : forall A (l m n : list A), rotation l m -> rotation m n -> rotation l n.
Proof.
  intros A l m n (a & b & -> & E) (c & d & -> & ->). destruct (app_eq_split _ _ _ _ _ E) as (e & [ [-> ->] | [-> ->] ]).
  - exists e, (d ++ b). rewrite <- !app_assoc. auto.
  - exists (a ++ c), e. rewrite <- !app_assoc. auto.
Qed.
Lemma rotation_refl : forall A (l : list A), rotation l l.
Proof. intros A l. exists [], l. rewrite app_nil_r. auto. Qed.
Lemma same_ring_trans : forall A (l m n : list A), same_ring l m -> same_ring m n -> same_ring l n.
Proof.
  intros A l m n [H|H] [K|K]; unfold same_ring.
  - left. eapply rotation_trans; eauto.
  - right. eapply rotation_trans; [apply rotation_rev, H|auto].
  - right. eapply rotation_trans; eauto.
  - left. rewrite <- (rev_involutive l). eapply rotation_trans; [apply rotation_rev, H|auto].
Qed.
Lemma same_ring_perm : forall A (l m : list A), same_ring l m -> Permutation l m.
Proof.
  intros A l m [(a & b & -> & ->)|(a & b & E & ->)].
  - apply Permutation_app_comm.
  - eapply Permutation_trans; [apply Permutation_rev|]. rewrite E. apply Permutation_app_comm.
Qed.
Lemma ring_in : forall A (r : list A) u v, (2 <= length r)%nat -> In (u, v) (ring_edges r) -> exists c, rotation r (u :: v :: c).
Proof.
  intros A r u v L H. destruct r as [|x r]; [destruct H|]. unfold ring_edges in H.
  destruct (path_in _ _ _ _ H) as (a & b & E). destruct (rev b) as [|z b'] eqn:B.
  - apply (f_equal (@rev A)) in B. rewrite rev_involutive in B. cbn in B. subst b.
    assert (E' : (x :: r) ++ [x] = (a ++ [u]) ++ [v]) by (rewrite E, <- app_assoc; reflexivity).
    apply app_inj_tail in E' as [E1 E2]. subst v. destruct a as [|y a].
    + cbn in E1. injection E1 as -> ->. cbn in L. lia.
    + cbn in E1. injection E1 as -> ->. exists a. exists (y :: a), [u]. auto.
  - apply (f_equal (@rev A)) in B. rewrite rev_involutive in B. cbn in B. subst b.
    assert (E' : (x :: r) ++ [x] = (a ++ u :: v :: rev b') ++ [z]) by (rewrite E, <- app_assoc; reflexivity).
    apply app_inj_tail in E' as [E1 E2]. exists (rev b' ++ a). exists a, (u :: v :: rev b'). auto.
Qed.

(** * the chain of edges *)
Definition apart (u v : vec2) : Prop := tol6 < point_distance2 u v.
Lemma tol6_pos : 0 < tol6. Proof. apply pow10_inv_pos. Qed.
Lemma is_close2_far : forall u v, apart u v -> is_close2 u v tol6 = false.
Proof.
  intros u v H. unfold apart in H. unfold is_close2. pose proof tol6_pos. apply isclose_0_false; [lra|]. rewrite Rabs_right; lra.
Qed.
Lemma is_close2_refl : forall u, is_close2 u u tol6 = true.
Proof.
  intro u. unfold is_close2. pose proof tol6_pos. apply isclose_0; [lra|]. assert (E : point_distance2 u u = 0).
  { unfold point_distance2, norm2, sub2. cbn [x2 y2]. rewrite <- sqrt_0. f_equal. ring. }
  rewrite E, Rabs_R0. lra.
Qed.
Lemma apart_sym : forall u v, apart u v -> apart v u.
Proof. intros u v. unfold apart, point_distance2, norm2, sub2. cbn [x2 y2]. intro H. replace ((x2 v - x2 u) * (x2 v - x2 u) + (y2 v - y2 u) * (y2 v - y2 u)) with ((x2 u - x2 v) * (x2 u - x2 v) + (y2 u - y2 v) * (y2 u - y2 v)) by ring. exact H. Qed.
Lemma apart_neq : forall u v, apart u v -> u <> v.
Proof. intros u v H ->. pose proof (is_close2_far _ _ H) as E. rewrite is_close2_refl in E. discriminate E. Qed.
Lemma eqb_edge_iff : forall e f, eqb_edge e f = true <-> e = f.
Proof.
  intros [a b] [c d]. unfold eqb_edge. cbn [fst snd]. rewrite andb_true_iff, !eqb2_iff. split; [intros [-> ->]; reflexivity|].
  intro H. apply pair_equal_spec in H as [-> ->]. auto.
Qed.

Definition touches (q : vec2) (e : sg2) : Prop := fst e = q \/ snd e = q.
Lemma next_edge_skip : forall E1 q p e E2 c, (forall f, In f E1 -> apart (fst f) q /\ apart (snd f) q) ->
  same_edge (q, p) e -> apart p q -> next_edge q (E1 ++ e :: E2) c = (e, Some p).
Proof.
  induction E1 as [|f E1 IH]; intros q p e E2 c H He Hp.
  - cbn [app next_edge]. destruct He as [-> | ->]; cbn [fst snd]; rewrite ?(is_close2_far _ _ Hp), is_close2_refl; reflexivity.
  - cbn [app next_edge]. destruct (H f (or_introl eq_refl)) as [A B]. rewrite (is_close2_far _ _ A), (is_close2_far _ _ B).
    apply IH; auto. intros g G. apply H. right. exact G.
Qed.
Lemma remove_skip : forall E1 e E2, ~ In e E1 -> remove_first e (E1 ++ e :: E2) = E1 ++ E2.
Proof.
  induction E1 as [|f E1 IH]; intros e E2 H; cbn [app remove_first].
  - rewrite (proj2 (eqb_edge_iff e e) eq_refl). reflexivity.
  - destruct (eqb_edge e f) eqn:B; [apply eqb_edge_iff in B; subst; exfalso; apply H; left; reflexivity|].
    f_equal. apply IH. intro K. apply H. right. exact K.
Qed.
Lemma chain_path : forall path q c E l, ForallOrdPairs apart (q :: path) -> Forall2 same_edge (path_edges (q :: path)) l -> Permutation l E ->
  hull_chain (length E) (q :: c) E = rev path ++ q :: c.
Proof.
  induction path as [|p path IH]; intros q c E l F S2 P.
  - cbn in S2. inversion S2; subst. apply Permutation_nil in P. subst. reflexivity.
  - rewrite path_cons in S2. inversion S2 as [|e0 e es l' He S2' X1 X2]; subst. clear S2.
    inversion F as [|q' l0 Fq Fp]; subst.
    destruct (in_split e E) as (E1 & E2 & EE); [eapply Permutation_in; [exact P|left; reflexivity]|]. subst E.
    pose proof (Permutation_cons_app_inv _ _ P) as P'.
    assert (Ap : forall f, In f l' -> apart (fst f) q /\ apart (snd f) q).
    { intros f Hf. assert (X : exists g, In g (path_edges (p :: path)) /\ same_edge g f).
      { clear - S2' Hf. induction S2' as [|x y xs ys Hxy _ IH]; [destruct Hf|]. destruct Hf as [<-|Hf].
        - exists x. split; [left; reflexivity|exact Hxy].
        - destruct (IH Hf) as (g & G1 & G2). exists g. split; [right; exact G1|exact G2]. }
      destruct X as ([u v] & G1 & G2). destruct (path_members _ _ _ _ G1) as [U V].
      rewrite Forall_forall in Fq. pose proof (apart_sym _ _ (Fq _ U)). pose proof (apart_sym _ _ (Fq _ V)).
      destruct G2 as [-> | ->]; cbn [fst snd]; auto. }
    assert (Ap1 : forall f, In f E1 -> apart (fst f) q /\ apart (snd f) q).
    { intros f Hf. apply Ap. eapply Permutation_in; [apply Permutation_sym; exact P'|]. apply in_or_app. left. exact Hf. }
    assert (Apq : apart p q) by (rewrite Forall_forall in Fq; apply apart_sym, Fq; left; reflexivity).
    assert (NI : ~ In e E1).
    { intro K. destruct (Ap1 _ K) as [A B]. apply apart_neq in A, B. destruct He as [-> | ->]; cbn [fst snd] in A, B; congruence. }
    rewrite app_length. cbn [length]. rewrite Nat.add_succ_r.
    assert (St : forall n EE, EE = E1 ++ e :: E2 -> hull_chain (S n) (q :: c) EE =
      hull_chain n (p :: q :: c) (E1 ++ E2)).
    { intros n EE HE. destruct EE as [|x EE]; [destruct E1; discriminate HE|]. cbn [hull_chain hd]. rewrite HE.
      rewrite (next_edge_skip E1 q p e E2 x Ap1 He Apq), (remove_skip _ _ _ NI). reflexivity. }
    rewrite (St _ _ eq_refl), <- app_length, (IH p (q :: c) (E1 ++ E2) l' Fp S2' P').
    cbn [rev]. rewrite <- app_assoc. reflexivity.
Qed.
