From Coq Require Import List Bool Arith ZArith Reals Permutation Lra Lia.
From Verif.Model Require Import Base RBase Vec Geometry Curves Edges Hull.
From Verif.Spec Require Import HullSpec PolyTurnSpec.
From Verif.Proofs Require Import VecP PolyTurnP HullP.
Import ListNotations.
Open Scope R_scope.

Lemma simplex_edges_ok : forall pts l, (forall s, In s l -> (fst s < length pts)%nat /\ (snd s < length pts)%nat) ->
  simplex_edges pts l = Ok (map (fun s => (nth (fst s) pts O2D, nth (snd s) pts O2D)) l).
Proof.
  intros pts. induction l as [|s l IH]; intro H; [reflexivity|]. cbn [simplex_edges map].
  destruct (H s (or_introl eq_refl)) as [A B]. unfold simplex_edge. rewrite (nth_error_nth' pts O2D A), (nth_error_nth' pts O2D B). cbn [bind].
  rewrite IH by (intros t T; apply H; right; exact T). reflexivity.
Qed.
Lemma path_map : forall A B (f : A -> B) l, path_edges (map f l) = map (fun e => (f (fst e), f (snd e))) (path_edges l).
Proof.
  induction l as [|a l IH]; [reflexivity|]. destruct l as [|b l]; [reflexivity|]. cbn [map] in *. rewrite !path_cons. cbn [map fst snd]. f_equal. exact IH.
Qed.
Lemma ring_map : forall A B (f : A -> B) l, ring_edges (map f l) = map (fun e => (f (fst e), f (snd e))) (ring_edges l).
Proof. intros A B f [|a l]; [reflexivity|]. unfold ring_edges. cbn [map]. rewrite <- path_map. cbn [map app]. rewrite map_app. reflexivity. Qed.
Lemma edges_of_ring_map : forall A B (f : A -> B) r l, edges_of_ring r l -> edges_of_ring (map f r) (map (fun e => (f (fst e), f (snd e))) l).
Proof.
  intros A B f r l (m & S2 & P). exists (map (fun e => (f (fst e), f (snd e))) m). split; [|apply Permutation_map, P].
  rewrite ring_map. clear P. induction S2 as [|x y xs ys H _ IH]; constructor; auto.
  destruct H as [-> | ->]; [left|right]; reflexivity.
Qed.
Lemma edges_members : forall A (r : list A) l e, edges_of_ring r l -> In e l -> In (fst e) r /\ In (snd e) r.
Proof.
  intros A r l e (m & S2 & P) H. eapply Permutation_in in H; [|apply Permutation_sym; exact P]. clear P.
  assert (X : exists g, In g (ring_edges r) /\ same_edge g e).
  { revert H. induction S2 as [|x y xs ys Hxy _ IH]; intro H; [destruct H|]. destruct H as [<-|H].
    - exists x. split; [left; reflexivity|exact Hxy].
    - destruct (IH H) as (g & G1 & G2). exists g. split; [right; exact G1|exact G2]. }
  destruct X as ([u v] & G1 & G2). destruct r as [|x r]; [destruct G1|]. unfold ring_edges in G1. destruct (path_members _ _ _ _ G1) as [U V].
  assert (M : forall w, In w ((x :: r) ++ [x]) -> In w (x :: r)) by (intros w W; apply in_app_or in W as [W|[<-|[]]]; [exact W|left; reflexivity]).
  apply M in U, V. destruct G2 as [-> | ->]; cbn [fst snd]; auto.
Qed.

Lemma edges_perm : forall A (r r' : list A) l, Permutation (ring_edges r) (ring_edges r') -> edges_of_ring r l -> edges_of_ring r' l.
Proof.
  intros A r r' l P (m & S2 & Q).
  assert (X : exists m', Forall2 same_edge (ring_edges r') m' /\ Permutation m' m).
  { clear Q. revert m S2. generalize (ring_edges r) (ring_edges r') P. clear. intros a b P. induction P; intros m S2.
    - exists m. split; [exact S2|reflexivity].
    - inversion S2; subst. destruct (IHP _ H3) as (m' & A1 & A2). exists (y :: m'). split; [constructor; auto|constructor; auto].
    - inversion S2; subst. inversion H3; subst. exists (y1 :: y0 :: l'0). split; [constructor; auto|]. apply perm_swap.
    - destruct (IHP1 _ S2) as (m1 & A1 & A2). destruct (IHP2 _ A1) as (m2 & B1 & B2). exists m2. split; auto. eapply Permutation_trans; eauto. }
  destruct X as (m' & A1 & A2). exists m'. split; [exact A1|]. eapply Permutation_trans; eauto.
Qed.
Lemma same_edge_swap : forall A (a b : list (A * A)), Forall2 same_edge a b -> Forall2 same_edge (map (fun e => (snd e, fst e)) a) b.
Proof. intros A a b H. induction H as [|[u v] f a b H _ IH]; cbn; constructor; auto. destruct H as [-> | ->]; [right|left]; reflexivity. Qed.
Lemma edges_rev : forall A (r : list A) l, edges_of_ring r l -> edges_of_ring (rev r) l.
Proof.
  intros A r l H. destruct r as [|x r]; [exact H|].
  assert (R' : rotation (rev (x :: r)) (x :: rev r)) by (exists (rev r), [x]; cbn; auto).
  assert (K : edges_of_ring (x :: rev r) l).
  { destruct H as (m & S2 & Q). unfold ring_edges in S2.
    assert (X : path_edges ((x :: rev r) ++ [x]) = rev (map (fun e => (snd e, fst e)) (path_edges ((x :: r) ++ [x])))).
    { rewrite <- path_rev. rewrite rev_app_distr. cbn [rev app]. reflexivity. }
    exists (rev m). split; [|eapply Permutation_trans; [apply Permutation_sym, Permutation_rev|exact Q]].
    unfold ring_edges. rewrite X. apply same_edge_swap in S2. revert S2. generalize (map (fun e : A * A => (snd e, fst e)) (path_edges ((x :: r) ++ [x]))). clear.
    intros a S2. induction S2; cbn; [constructor|]. apply Forall2_app; auto. }
  eapply edges_perm; [|exact K]. apply Permutation_sym, rotation_edges, R'.
Qed.
Lemma ring_members : forall A (r : list A) e, In e (ring_edges r) -> exists u v, e = (u, v).
Proof. intros A r [u v] _. eauto. Qed.

(** the ring can be started at the first edge, in its direction *)
Lemma start_ring : forall A (r : list A) e l, (2 <= length r)%nat -> edges_of_ring r (e :: l) ->
  exists c, same_ring r (fst e :: snd e :: c) /\ exists m, Forall2 same_edge (path_edges (snd e :: c ++ [fst e])) m /\ Permutation m l.
Proof.
  intros A r e l L H.
  assert (X : exists u v, In (u, v) (ring_edges r) /\ same_edge (u, v) e).
  { destruct H as (m & S2 & P). assert (In e m) by (eapply Permutation_in; [apply Permutation_sym; exact P|left; reflexivity]).
    clear P. revert H. induction S2 as [|x y xs ys Hxy _ IH]; intro H; [destruct H|]. destruct H as [<-|H].
    - destruct x as [u v]. exists u, v. split; [left; reflexivity|exact Hxy].
    - destruct (IH H) as (u & v & G1 & G2). exists u, v. split; [right; exact G1|exact G2]. }
  destruct X as (u & v & I0 & Se). destruct (ring_in _ _ _ _ L I0) as (c & Rc).
  assert (Q : exists c', same_ring r (fst e :: snd e :: c')).
  { destruct Se as [-> | ->]; cbn [fst snd].
    - exists c. left. exact Rc.
    - exists (rev c). right. eapply rotation_trans; [apply rotation_rev; exact Rc|]. cbn [rev]. exists (rev c), [v; u]. rewrite <- app_assoc. auto. }
  destruct Q as (c' & Q). exists c'. split; [exact Q|].
  assert (K : edges_of_ring (fst e :: snd e :: c') (e :: l)).
  { destruct Q as [Q|Q].
    - eapply edges_perm; [apply rotation_edges; exact Q|exact H].
    - eapply edges_perm; [apply rotation_edges; exact Q|apply edges_rev, H]. }
  destruct K as (m & S2 & P). unfold ring_edges in S2. cbn [app] in S2. rewrite path_cons in S2.
  inversion S2 as [|e0 f es m' Hf S2' X1 X2]; subst.
  destruct (in_split e (f :: m')) as (m1 & m2 & E); [eapply Permutation_in; [apply Permutation_sym; exact P|left; reflexivity]|].
  (* f is an edge with the same ends as e: exchange them *)
  rewrite E in P. pose proof (Permutation_cons_inv (Permutation_trans (Permutation_middle m1 m2 e) P)) as P'.
  destruct m1 as [|g m1].
  - cbn in E. injection E as -> ->. exists m2. split; auto.
  - cbn in E. injection E as <- ->.
    (* e is also the edge of another place: replace it there by f *)
    exists (m1 ++ f :: m2). split.
    + destruct (Forall2_app_inv_r _ _ S2') as (a1 & a2 & F1 & F2 & Ea). rewrite Ea. apply Forall2_app; [exact F1|].
      inversion F2 as [|a e' a2' m2' Ha F2' Y1 Y2]; subst. constructor; [|exact F2'].
      clear - Ha Hf. unfold same_edge in *. destruct e as [p q], a as [a b]. cbn [fst snd] in *.
      destruct Hf as [-> | ->]; destruct Ha as [Ha|Ha]; apply pair_equal_spec in Ha as [-> ->]; cbn; auto.
    + eapply Permutation_trans; [apply Permutation_sym, Permutation_middle|]. exact P'.
Qed.

Lemma far_rotation : forall l m, same_ring l m -> far_apart tol6 l -> ForallOrdPairs apart m.
Proof.
  intros l m H F.
  assert (G : forall a b : vec2, a <> b -> In a l -> In b l -> apart a b).
  { intros a b N Ia Ib. apply (In_nth _ _ O2D) in Ia as (i & Li & Ei). apply (In_nth _ _ O2D) in Ib as (j & Lj & Ej).
    destruct (Nat.lt_trichotomy i j) as [C|[C|C]].
    - rewrite <- Ei, <- Ej. apply F. lia.
    - subst. congruence.
    - apply apart_sym. rewrite <- Ei, <- Ej. apply F. lia. }
  assert (N : NoDup l).
  { apply (proj2 (NoDup_nth l O2D)). intros i j Hi Hj E. destruct (Nat.lt_trichotomy i j) as [C|[C|C]]; auto; exfalso.
    - pose proof (F i j (conj C Hj)) as K. apply (apart_neq (nth i l O2D) (nth j l O2D)); [exact K|exact E].
    - pose proof (F j i (conj C Hi)) as K. apply (apart_neq (nth j l O2D) (nth i l O2D)); [exact K|symmetry; exact E]. }
  pose proof (same_ring_perm _ _ _ H) as P. assert (Nm : NoDup m) by (eapply Permutation_NoDup; eauto).
  assert (Gm : forall a b, a <> b -> In a m -> In b m -> apart a b).
  { intros a b Ne Ia Ib. apply G; auto; eapply Permutation_in; try apply Permutation_sym; eauto. }
  clear - Nm Gm. induction m as [|a m IH]; constructor.
  - apply Forall_forall. intros b Hb. inversion Nm; subst. apply Gm; [|left; reflexivity|right; exact Hb]. intros ->. auto.
  - inversion Nm; subst. apply IH; auto. intros x y Ne X Y. apply Gm; auto; right; auto.
Qed.

(** * the ring given by the edges *)
Lemma chain_ring : forall r e l, (2 <= length r)%nat -> far_apart tol6 r -> edges_of_ring r (e :: l) ->
  same_ring r (rev (tl (hull_chain (length l) [snd e; fst e] l))).
Proof.
  intros r e l L F H. destruct (start_ring _ _ _ _ L H) as (c & Q & m & S2 & P).
  assert (Fo : ForallOrdPairs apart (snd e :: c ++ [fst e])).
  { apply (far_rotation r); [|exact F]. eapply same_ring_trans; [exact Q|]. left. exists [fst e], (snd e :: c). auto. }
  rewrite (chain_path _ _ [fst e] l m Fo S2 P). rewrite rev_app_distr. cbn [rev app tl]. rewrite rev_app_distr, rev_involutive. cbn [rev app]. exact Q.
Qed.

(** * the first point *)
Lemma lowest_x_ok : forall l i k m, (k < i)%nat -> let j := lowest_x i l k m in
  (j = k /\ (forall p, In p l -> m <= x2 p)) \/ (exists t, j = (i + t)%nat /\ (t < length l)%nat /\ x2 (nth t l O2D) < m /\ (forall p, In p l -> x2 (nth t l O2D) <= x2 p)).
Proof.
  induction l as [|p l IH]; intros i k m Hk; cbn [lowest_x].
  - left. split; auto. intros q [].
  - destruct (Rltb (x2 p) m) eqn:B; rb.
    + destruct (IH (S i) i (x2 p) (Nat.lt_succ_diag_r i)) as [[E M]|(t & E & T & Lt & M)]; cbv zeta in *.
      * right. exists 0%nat. rewrite E. cbn [nth length]. repeat split; try lia; auto. intros q [<-|Q]; [lra|auto].
      * right. exists (S t). rewrite E. cbn [nth length]. repeat split; try lia; try lra. intros q [<-|Q]; [lra|auto].
    + destruct (IH (S i) k m ltac:(lia)) as [[E M]|(t & E & T & Lt & M)]; cbv zeta in *.
      * left. split; auto. intros q [<-|Q]; [lra|auto].
      * right. exists (S t). rewrite E. cbn [nth length]. repeat split; try lia; try lra. intros q [<-|Q]; [lra|auto].
Qed.
Lemma lowest_ring : forall p l, let i := lowest_x 0 (p :: l) 0 (x2 p) in (i < length (p :: l))%nat /\ leftmost (nth i (p :: l) O2D) (p :: l).
Proof.
  intros p l. cbn [lowest_x]. assert (B : Rltb (x2 p) (x2 p) = false) by (apply Rltb_false; lra). rewrite B.
  destruct (lowest_x_ok l 1 0 (x2 p) ltac:(lia)) as [[E M]|(t & E & T & Lt & M)]; cbv zeta in *; rewrite E.
  - split; [cbn; lia|]. intros q [<-|Q]; cbn [nth]; [lra|auto].
  - cbn [Nat.add nth length]. split; [lia|]. intros q [<-|Q]; [lra|auto].
Qed.

(** the ring from its leftmost point [a], with its two neighbours [b] (after) and [z] (before) *)
Lemma hull_order_ok : forall ring, (2 <= length ring)%nat -> exists a b rest, rotation ring (a :: b :: rest) /\ leftmost a ring /\
  hull_order ring = Ok (if Rltb (y2 a) (y2 b) then rev (a :: b :: rest) else a :: b :: rest).
Proof.
  intros [|p l] L; [cbn in L; lia|]. cbn [hull_order]. destruct (lowest_ring p l) as [I0 M]. cbv zeta in *.
  set (i := lowest_x 0 (p :: l) 0 (x2 p)) in *. clearbody i.
  assert (E : skipn i (p :: l) = nth i (p :: l) O2D :: skipn (S i) (p :: l)).
  { generalize dependent (p :: l). clear. induction i as [|i IH]; intros [|x l] L I0 M; cbn in I0; try lia; [reflexivity|].
    destruct l as [|y l]; [cbn in I0; lia|]. destruct i as [|i]; [reflexivity|]. apply (IH (y :: l)); cbn in *; try lia.
    intros q Q. apply (M q). right. exact Q. }
  assert (Ro : rotation (p :: l) (skipn i (p :: l) ++ firstn i (p :: l))) by (exists (firstn i (p :: l)), (skipn i (p :: l)); rewrite firstn_skipn; auto).
  assert (Le : length (skipn i (p :: l) ++ firstn i (p :: l)) = length (p :: l)).
  { destruct Ro as (a & b & E1 & E2). rewrite E2, E1, !app_length. lia. }
  rewrite E in *. cbn [app] in *. set (a := nth i (p :: l) O2D) in *. clearbody a.
  destruct (skipn (S i) (p :: l) ++ firstn i (p :: l)) as [|b rest]; [rewrite <- Le in L; cbn in L; lia|].
  exists a, b, rest. auto.
Qed.

Lemma hull_ok : forall points simplices ring, (2 <= length ring)%nat -> (forall i, In i ring -> (i < length points)%nat) ->
  far_apart tol6 (map (fun i => nth i points O2D) ring) -> edges_of_ring ring simplices ->
  exists a b rest, same_ring (map (fun i => nth i points O2D) ring) (a :: b :: rest) /\ leftmost a (a :: b :: rest) /\
    convex_hull_points points simplices = Ok (if Rltb (y2 a) (y2 b) then rev (a :: b :: rest) else a :: b :: rest).
Proof.
  intros points simplices ring L I0 F H. set (f := fun i => nth i points O2D) in *.
  assert (HE := edges_of_ring_map _ _ f _ _ H). unfold convex_hull_points. rewrite simplex_edges_ok.
  2:{ intros s S1. destruct (edges_members _ _ _ _ H S1). auto. }
  cbn [bind]. change (fun s : nat * nat => (nth (fst s) points O2D, nth (snd s) points O2D)) with (fun s : nat * nat => (f (fst s), f (snd s))).
  assert (Lm : (2 <= length (map f ring))%nat) by (rewrite map_length; exact L).
  destruct (map (fun s : nat * nat => (f (fst s), f (snd s))) simplices) as [|e l] eqn:El.
  - exfalso. destruct HE as (m & S2 & P). apply Permutation_sym, Permutation_nil in P. subst m.
    destruct (map f ring) as [|u [|v r]]; cbn in Lm; try lia. unfold ring_edges in S2. cbn [app] in S2. rewrite path_cons in S2. inversion S2.
  - cbv zeta. assert (Re : remove_first e (e :: l) = l) by apply (remove_skip [] e l (fun x => x)). rewrite Re.
    pose proof (chain_ring _ _ _ Lm F HE) as Q. set (ri := rev _) in *. clearbody ri.
    assert (Pr := same_ring_perm _ _ _ Q). assert (Lr : (2 <= length ri)%nat) by (rewrite <- (Permutation_length Pr); exact Lm).
    destruct (hull_order_ok ri Lr) as (a & b & rest & Ro & M & E). exists a, b, rest. split; [|split].
    + eapply same_ring_trans; [exact Q|left; exact Ro].
    + intros p Hp. apply M. eapply Permutation_in; [apply Permutation_sym, (same_ring_perm _ _ _ (or_introl Ro))|exact Hp].
    + exact E.
Qed.
Lemma hull_ring_ok : forall points simplices ring, (2 <= length ring)%nat -> (forall i, In i ring -> (i < length points)%nat) ->
  far_apart tol6 (map (fun i => nth i points O2D) ring) -> edges_of_ring ring simplices ->
  exists q, convex_hull_points points simplices = Ok q /\ same_ring (map (fun i => nth i points O2D) ring) q.
Proof.
  intros points simplices ring L I0 F H. destruct (hull_ok _ _ _ L I0 F H) as (a & b & rest & Q & M & E). eexists. split; [exact E|].
  destruct (Rltb (y2 a) (y2 b)); [|exact Q]. eapply same_ring_trans; [exact Q|]. right. apply rotation_refl.
Qed.
