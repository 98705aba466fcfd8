(** Ordering succeeds on simple connected wires; wires from edges; inversion; rotation. *)
From Coq Require Import Reals List Permutation Lra Lia Bool.
From Verif.Model Require Import Base RBase Vec Edges Wires.
From Verif.Spec Require Import WiresSpec.
From Verif.Proofs Require Import VecP WiresP.
Import ListNotations.
Open Scope R_scope.

Section W.
Context (K : edge_api) (OK : api_ok K).
Notation E := (edge K).
Notation P := (pt K).

(** number of points of a list within tol of p *)
Definition cnt (tol : R) (p : P) (l : list P) : nat := length (filter (fun q => Rleb (p_dist K p q) tol) l).
Lemma cnt_app tol p a b : cnt tol p (a ++ b) = (cnt tol p a + cnt tol p b)%nat.
Proof. unfold cnt. rewrite filter_app, app_length. reflexivity. Qed.
Lemma cnt_cons tol p q l : cnt tol p (q :: l) = ((if Rleb (p_dist K p q) tol then 1 else 0) + cnt tol p l)%nat.
Proof. unfold cnt. cbn [filter]. destruct (Rleb _ _); reflexivity. Qed.
Lemma cnt_in tol p q l : In q l -> p_dist K p q <= tol -> (1 <= cnt tol p l)%nat.
Proof.
  intros I D. apply in_split in I as (a & b & ->). rewrite cnt_app, cnt_cons, (proj2 (Rleb_spec _ _)) by auto. lia.
Qed.
Lemma filter_perm {A} (f : A -> bool) l l' : Permutation l l' -> Permutation (filter f l) (filter f l').
Proof.
  induction 1; cbn [filter]; auto.
  - destruct (f x); auto.
  - destruct (f x), (f y); auto. apply perm_swap.
  - now rewrite IHPermutation1.
Qed.
Lemma cnt_perm tol p l l' : Permutation l l' -> cnt tol p l = cnt tol p l'.
Proof. intros H. unfold cnt. apply Permutation_length, filter_perm, H. Qed.
Lemma cnt_degree tol l p n : has_degree K tol l p n <-> cnt tol p (ends K l) = n.
Proof.
  split.
  - intros (near & far & Pm & L & N & F). rewrite (cnt_perm _ _ _ _ Pm), cnt_app. subst n. unfold cnt at 1.
    assert (A : filter (fun q => Rleb (p_dist K p q) tol) near = near).
    { clear -N. induction near as [|a near IH]; auto. cbn [filter]. rewrite (proj2 (Rleb_spec _ _)) by (apply N; left; auto). f_equal. apply IH. intros q I. apply N. right; auto. }
    assert (B : filter (fun q => Rleb (p_dist K p q) tol) far = []).
    { clear -F. induction far as [|a far IH]; auto. cbn [filter]. rewrite (proj2 (Rleb_false _ _)) by (apply F; left; auto). apply IH. intros q I. apply F. right; auto. }
    unfold cnt. rewrite A, B. cbn. lia.
  - intros <-. exists (filter (fun q => Rleb (p_dist K p q) tol) (ends K l)), (filter (fun q => negb (Rleb (p_dist K p q) tol)) (ends K l)).
    split; [apply filter_split|]. split; [reflexivity|]. split; intros q I; apply filter_In in I as [_ I].
    + now apply Rleb_spec.
    + apply negb_true_iff in I. now apply Rleb_false.
Qed.
Lemma perm_ends a b : Permutation a b -> Permutation (ends K a) (ends K b).
Proof. apply Permutation_flat_map. Qed.
Lemma turned_ends a b : Forall2 (fun a b => b = a \/ b = e_rev K a) a b -> Permutation (ends K a) (ends K b).
Proof.
  induction 1 as [|x y a b H F IH]; auto. change (x :: a) with ([x] ++ a). change (y :: b) with ([y] ++ b). rewrite !ends_app.
  apply Permutation_app; auto. apply oriented_ends; auto.
Qed.
Lemma same_ends l w : same_edges K l w -> Permutation (ends K l) (ends K w).
Proof. intros (l' & Pm & F). rewrite (perm_ends _ _ Pm). now apply turned_ends. Qed.

(** in a chain, a point of the ends that is neither the first nor the last one has another end within tol *)
Lemma chain_end tol c a p : 0 <= tol -> joined K tol (a :: c) -> In p (ends K (a :: c)) ->
  p = e_start K a \/ p = e_end K (last c a) \/ (2 <= cnt tol p (ends K (a :: c)))%nat.
Proof.
  intros T. revert a. induction c as [|b c IH]; intros a J I.
  - cbn in I. destruct I as [<- | [<- | []]]; auto.
  - apply joined_cons in J as [D J]. change (ends K (a :: b :: c)) with ([e_start K a; e_end K a] ++ ends K (b :: c)) in *.
    rewrite cnt_app, last_cons. apply in_app_or in I as [[<- | [<- | []]] | I]; auto.
    + right. right. rewrite !cnt_cons, (dist_self K OK). rewrite (proj2 (Rleb_spec 0 tol)) by auto.
      assert (1 <= cnt tol (e_end K a) (ends K (b :: c)))%nat by (apply cnt_in with (e_start K b); [left; auto|auto]). destruct (Rleb _ _); lia.
    + destruct (IH b J I) as [-> | [-> | H]]; auto; [|right; right; lia].
      right. right. assert (1 <= cnt tol (e_start K b) (ends K (b :: c)))%nat by (apply cnt_in with (e_start K b); [left; auto|rewrite (dist_self K OK); auto]).
      assert (1 <= cnt tol (e_start K b) [e_start K a; e_end K a])%nat by (apply cnt_in with (e_end K a); [right; left; auto|rewrite (dist_sym K OK); auto]). lia.
Qed.
Lemma attach_some tol a c e : 0 <= tol -> touches K tol e (e_start K a) \/ touches K tol e (e_end K (last c a)) -> attach K tol (a :: c) e <> None.
Proof. intros T H Q. destruct (attach_none K OK tol a c e T Q). tauto. Qed.
Lemma in_ends e p l : In e l -> p = e_start K e \/ p = e_end K e -> In p (ends K l).
Proof. intros I H. apply in_flat_map. exists e. split; auto. cbn. destruct H as [-> | ->]; auto. Qed.
Lemma ends_in p l : In p (ends K l) -> exists e, In e l /\ (p = e_start K e \/ p = e_end K e).
Proof. intros H. apply in_flat_map in H as (e & I & [<- | [<- | []]]); eauto. Qed.

Lemma ordering_loop_complete tol l : 0 <= tol -> connected K tol l -> (forall p, In p (ends K l) -> (cnt tol p (ends K l) <= 2)%nat) ->
  forall fuel c r, c <> [] -> (length r <= fuel)%nat -> joined K tol c -> same_edges K l (c ++ r) -> exists w, ordering_loop K fuel tol c r = Ok w.
Proof.
  intros T C D. induction fuel as [|fuel IH]; intros c r N L J S; cbn [ordering_loop].
  - destruct r; [eexists; reflexivity|cbn in L; lia].
  - destruct r as [|x r]; [eexists; reflexivity|]. destruct (attach_first K tol c (x :: r)) as [[c' r']|] eqn:A.
    + destruct (step_spec K OK tol l c _ c' r' T J S A) as (J' & S' & Len & N'). apply IH; auto. cbn in *; lia.
    + exfalso. destruct c as [|a c]; [congruence|].
      pose proof (same_ends _ _ S) as PE. rewrite ends_app in PE. destruct S as (l' & Pm & F). apply Forall2_app_inv_r in F as (la & lb & Fa & Fb & ->).
      destruct (C la lb) as (p & q & Ip & Iq & Dpq).
      { intros ->. inversion Fa. } { intros ->. inversion Fb. } { exact Pm. }
      pose proof (Permutation_in _ (turned_ends _ _ Fa) Ip) as Ip'. pose proof (Permutation_in _ (turned_ends _ _ Fb) Iq) as Iq'.
      destruct (ends_in _ _ Iq') as (e & Ie & He). pose proof (attach_first_none K tol (a :: c) (x :: r) A e Ie) as An.
      assert (Tc : touches K tol e p). { rewrite (dist_sym K OK) in Dpq. destruct He as [-> | ->]; [left|right]; auto. }
      destruct (chain_end tol c a p T J Ip') as [-> | [-> | Cn]].
      * apply (attach_some tol a c e T); auto.
      * apply (attach_some tol a c e T); auto.
      * assert (Il : In p (ends K l)) by (apply (Permutation_in _ (Permutation_sym PE)), in_or_app; auto). specialize (D p Il).
        rewrite (cnt_perm _ _ _ _ PE), cnt_app in D. pose proof (cnt_in tol p q _ Iq' Dpq). lia.
Qed.
Lemma ordering_complete w tol : 0 <= tol -> w <> [] -> (forall e, In e w -> tol < e_length K e) -> connected K tol w ->
  (forall p, In p (ends K w) -> has_degree K tol w p 1 \/ has_degree K tol w p 2) -> exists r, ordering_primitives K w tol = Ok r.
Proof.
  intros T N L C D. unfold ordering_primitives. assert (F : filter (fun e => negb (isclose (e_length K e) 0 tol)) w = w).
  { clear -L T OK. induction w as [|a w IH]; auto. cbn [filter]. rewrite (proj2 (long_iff K OK tol a T)) by (apply L; left; auto). f_equal. apply IH. intros e I. apply L. right; auto. }
  rewrite F. destruct w as [|e w]; [congruence|]. apply (ordering_loop_complete tol (e :: w) T C); auto; try discriminate.
  - intros p I. destruct (D p I) as [H | H]; apply cnt_degree in H; lia.
  - apply joined_one.
  - apply same_edges_refl.
Qed.
(** and closes, if every end is shared by two edges *)
Lemma chain_closes tol c a : 0 <= tol -> clustered K tol (ends K (a :: c)) -> joined K tol (a :: c) ->
  cnt tol (e_start K a) (ends K (a :: c)) = 2%nat -> p_dist K (e_end K (last c a)) (e_start K a) <= tol.
Proof.
  intros T Cl J C. destruct (Rle_dec (p_dist K (e_end K (last c a)) (e_start K a)) tol) as [?|Nle]; auto. exfalso.
  (* the ends other than the first and the last come in pairs *)
  assert (G : forall c a0, joined K tol (a0 :: c) -> clustered K tol (e_start K a :: ends K (a0 :: c)) -> exists k, cnt tol (e_start K a) (tl (ends K (a0 :: c))) = (2 * k + (if Rleb (p_dist K (e_start K a) (e_end K (last c a0))) tol then 1 else 0))%nat).
  { clear -OK. intros c. induction c as [|b c IH]; intros a0 J Cl.
    - exists 0%nat. cbn [ends flat_map app tl last]. rewrite cnt_cons. cbn. lia.
    - apply joined_cons in J as [D J]. rewrite last_cons. destruct (IH b J) as [k Ek].
      { intros p q r Ip Iq Ir. apply Cl; cbn in *; tauto. }
      change (tl (ends K (a0 :: b :: c))) with ([e_end K a0; e_start K b] ++ tl (ends K (b :: c))). rewrite cnt_app, Ek, !cnt_cons.
      destruct (Rleb (p_dist K (e_start K a) (e_end K a0)) tol) eqn:X1; destruct (Rleb (p_dist K (e_start K a) (e_start K b)) tol) eqn:X2.
      + exists (S k). cbn. lia.
      + exfalso. apply Rleb_spec in X1. apply Rleb_false in X2. pose proof (Cl (e_start K a) (e_end K a0) (e_start K b)) as Q. cbn in Q. assert (p_dist K (e_start K a) (e_start K b) <= tol) by (apply Q; auto). lra.
      + exfalso. apply Rleb_spec in X2. apply Rleb_false in X1. pose proof (Cl (e_start K a) (e_start K b) (e_end K a0)) as Q. cbn in Q. assert (p_dist K (e_start K a) (e_end K a0) <= tol). { apply Q; auto. rewrite (dist_sym K OK). exact D. } lra.
      + exists k. cbn. lia. }
  destruct (G c a J) as [k Ek]. { intros p q r Ip Iq Ir. apply Cl; destruct Ip as [<- | Ip], Iq as [<- | Iq], Ir as [<- | Ir]; auto; left; auto. }
  assert (X : ends K (a :: c) = e_start K a :: tl (ends K (a :: c))) by reflexivity. rewrite X, cnt_cons, Ek in C.
  rewrite (dist_self K OK), (proj2 (Rleb_spec 0 tol) T), (proj2 (Rleb_false _ _)) in C by (rewrite (dist_sym K OK); lra). lia.
Qed.
Lemma closes_iff tol a c : closes K tol (a :: c) <-> p_dist K (e_end K (last c a)) (e_start K a) <= tol.
Proof.
  unfold closes. split.
  - intros C. apply (C a _ c eq_refl). now rewrite last_cons.
  - intros C x f w' Q F. injection Q as <- <-. rewrite last_cons in F. subst f. exact C.
Qed.
Lemma clustered_perm tol l l' : Permutation l l' -> clustered K tol l -> clustered K tol l'.
Proof. intros Pm C p q r Ip Iq Ir. apply C; apply (Permutation_in _ (Permutation_sym Pm)); auto. Qed.
Lemma perm_filter_all {A} (f : A -> bool) l : (forall x, In x l -> f x = true) -> filter f l = l.
Proof. induction l as [|a l IH]; intros H; auto. cbn [filter]. rewrite H by (left; auto). f_equal. apply IH. intros x I. apply H. right; auto. Qed.
Lemma ordering_same w tol r : 0 <= tol -> (forall e, In e w -> tol < e_length K e) -> ordering_primitives K w tol = Ok r -> joined K tol r /\ same_edges K w r.
Proof.
  intros T L H. unfold ordering_primitives in H. rewrite perm_filter_all in H by (intros e I; apply (long_iff K OK); auto).
  destruct w as [|e w]; [discriminate|]. eapply (ordering_loop_sound K OK); eauto; [apply joined_one|apply same_edges_refl].
Qed.
Lemma ordering_closed w tol r : 0 <= tol -> (forall e, In e w -> tol < e_length K e) -> clustered K tol (ends K w) ->
  (forall p, In p (ends K w) -> has_degree K tol w p 2) -> ordering_primitives K w tol = Ok r -> closes K tol r.
Proof.
  intros T L Cl D H. destruct (ordering_same w tol r T L H) as [J S]. pose proof (same_ends _ _ S) as PE.
  destruct r as [|a c]; [intros x f w' Q; discriminate|]. apply closes_iff. apply (chain_closes tol c a T); auto.
  - eapply clustered_perm; eauto.
  - rewrite <- (cnt_perm _ _ _ _ PE). apply cnt_degree. apply D. apply (Permutation_in _ (Permutation_sym PE)). left. reflexivity.
Qed.
Lemma order_wire_joined w tol r : 0 <= tol -> order_wire K w tol = Ok r -> joined K tol r.
Proof.
  intros T H. unfold order_wire in H. destruct (wire_is_ordered K w tol) eqn:O.
  - apply Ok_inj in H. subst. now apply wire_ordered_iff.
  - destruct (ordering_sound K OK w tol r T H) as (_ & _ & _ & _ & _ & J & _). exact J.
Qed.
Lemma order_wire_id w tol : joined K tol w -> order_wire K w tol = Ok w.
Proof. intros J. unfold order_wire. rewrite (proj2 (wire_ordered_iff K w tol) J). reflexivity. Qed.
Lemma order_contour_id w tol : contour_is_ordered K w tol = Ok true -> order_contour K w tol = Ok w.
Proof. intros J. unfold order_contour. rewrite J. reflexivity. Qed.
(** a shuffled simple closed contour is put in order *)
Lemma order_contour_ok w tol : 0 <= tol -> (3 <= length w)%nat -> (forall e, In e w -> tol < e_length K e) -> connected K tol w -> clustered K tol (ends K w) ->
  (forall p, In p (ends K w) -> has_degree K tol w p 2) ->
  exists r, order_contour K w tol = Ok r /\ same_edges K w r /\ contour_is_ordered K r tol = Ok true.
Proof.
  intros T N L C Cl D. assert (NE : w <> []) by (intros ->; cbn in N; lia). unfold order_contour.
  destruct (contour_ordered_spec K OK w tol T NE) as (b & E & _). rewrite E. cbn [bind].
  destruct b; [exists w; split; [reflexivity|]; split; [apply same_edges_refl|auto]|].
  replace (length w <? 2)%nat with false by (symmetry; apply Nat.ltb_ge; lia). cbn [orb].
  destruct (ordering_complete w tol T NE L C) as [r R]; [intros p I; right; auto|]. rewrite R. exists r. split; auto.
  destruct (ordering_same w tol r T L R) as [J S]. split; auto. pose proof (ordering_closed w tol r T L Cl D R) as Cs.
  assert (Lr : length r = length w). { destruct S as (l' & Pm & F). rewrite (Permutation_length Pm). clear -F. induction F; cbn; auto. }
  assert (NR : r <> []) by (intros ->; cbn in Lr; lia). destruct (contour_ordered_spec K OK r tol T NR) as (b' & E' & B'). rewrite E'. f_equal. apply B'.
  do 2 (split; auto). split; [intros e ->|intros e f ->]; cbn in Lr; lia.
Qed.

(** wires_from_edges *)
Lemma grow_spec tol l : 0 <= tol -> forall fuel c r c' r', c <> [] -> joined K tol c -> same_edges K l (c ++ r) -> (length r <= fuel)%nat -> grow K fuel tol c r = (c', r') ->
  joined K tol c' /\ same_edges K l (c' ++ r') /\ (length r' <= length r)%nat /\ c' <> [] /\ attach_first K tol c' r' = None /\ (forall e, In e r' -> In e r).
Proof.
  intros T. induction fuel as [|fuel IH]; intros c r c' r' N J S L G; cbn [grow] in G.
  - apply pair_equal_spec in G as [<- <-]. destruct r; [|cbn in L; lia]. do 4 (split; auto).
  - destruct (attach_first K tol c r) as [[c1 r1]|] eqn:A.
    + destruct (step_spec K OK tol l c r c1 r1 T J S A) as (J1 & S1 & L1 & N1). destruct (IH c1 r1 c' r' N1 J1 S1 ltac:(lia) G) as (H1 & H2 & H3 & H4 & H5 & H6).
      destruct (attach_first_spec K tol c r c1 r1 T A) as (e & Pe & _).
      do 2 (split; auto). split; [lia|]. do 2 (split; auto). intros x I. apply (Permutation_in _ (Permutation_sym Pe)). right. auto.
    + apply pair_equal_spec in G as [<- <-]. do 2 (split; auto). 
Qed.
Lemma same_edges_app a b c d : same_edges K a b -> same_edges K c d -> same_edges K (a ++ c) (b ++ d).
Proof. intros (a' & P1 & F1) (c' & P2 & F2). exists (a' ++ c'). split; [now apply Permutation_app|now apply Forall2_app]. Qed.
Lemma turned_trans x y z : (y = x \/ y = e_rev K x) -> (z = y \/ z = e_rev K y) -> (z = x \/ z = e_rev K x).
Proof. intros [-> | ->] [-> | ->]; auto. left. apply (rev_rev K OK). Qed.
Lemma forall2_perm {A B} (R : A -> B -> Prop) b b' : Permutation b b' -> forall a, Forall2 R a b -> exists a', Permutation a a' /\ Forall2 R a' b'.
Proof.
  induction 1; intros a F.
  - inversion F; subst. exists []. auto.
  - inversion F as [|u v w ? H1 H2]; subst. destruct (IHPermutation w H2) as (a' & Q1 & Q2). exists (u :: a'). auto.
  - inversion F as [|u v w ? H1 H2]; subst. inversion H2 as [|u2 v2 w2 ? H3 H4]; subst. exists (u2 :: u :: w2). split; [apply perm_swap|auto].
  - destruct (IHPermutation1 a F) as (a1 & Q1 & Q2). destruct (IHPermutation2 a1 Q2) as (a2 & Q3 & Q4). exists a2. split; auto. now rewrite Q1.
Qed.
Lemma same_edges_trans a b c : same_edges K a b -> same_edges K b c -> same_edges K a c.
Proof.
  intros (a' & P1 & F1) (b' & P2 & F2). destruct (forall2_perm _ b b' P2 a' F1) as (a2 & P3 & F3). exists a2. split; [now rewrite P1|].
  clear -F3 F2 OK. revert c F2. induction F3 as [|x y l l' H F IH]; intros c F2; inversion F2; subst; constructor; auto. eapply turned_trans; eauto.
Qed.
Lemma all_wires_spec tol : 0 <= tol -> forall fuel l, (length l <= fuel)%nat ->
  same_edges K l (concat (all_wires K fuel tol l)) /\ (forall w, In w (all_wires K fuel tol l) -> w <> [] /\ joined K tol w) /\
  (forall e, In e (concat (all_wires K fuel tol l)) -> exists x, In x l /\ turned K x e) /\
  ForallOrdPairs (fun w w' => forall a c e, w = a :: c -> In e w' -> ~ touches K tol e (e_start K a) /\ ~ touches K tol e (e_end K (last w a))) (all_wires K fuel tol l).
Proof.
  intros T. induction fuel as [|fuel IH]; intros l L.
  - destruct l; [|cbn in L; lia]. cbn. split; [apply same_edges_refl|]. split; [intros w []|]. split; [intros e []|constructor].
  - destruct l as [|e l]; cbn [all_wires]. { cbn. split; [apply same_edges_refl|]. split; [intros w []|]. split; [intros e []|constructor]. }
    destruct (grow K (length l) tol [e] l) as [c r] eqn:G.
    destruct (grow_spec tol (e :: l) T (length l) [e] l c r ltac:(discriminate) (joined_one K tol e) (same_edges_refl K (e :: l)) (le_n _) G) as (J & S & Lr & N & A & Ir).
    destruct (IH r ltac:(cbn in L; lia)) as (S2 & J2 & I2 & M2). cbn [concat].
    assert (Sm : same_edges K (e :: l) (c ++ concat (all_wires K fuel tol r))).
    { eapply same_edges_trans; [exact S|]. apply same_edges_app; auto. apply same_edges_refl. }
    split; [exact Sm|]. split; [|split].
    + intros w [<- | I]; auto.
    + intros x I. destruct Sm as (l' & Pm & F). apply (Permutation_in _ (Permutation_refl _)) in I.
      assert (Q : exists y, In y l' /\ turned K y x). { clear -F I. revert I. induction F as [|u v m n H F IH]; [intros []|]. intros [<- | I]; [exists u; split; [left; auto|exact H]|]. destruct (IH I) as (y & Iy & Ty). exists y. split; [right; auto|auto]. }
      destruct Q as (y & Iy & Ty). exists y. split; auto. apply (Permutation_in _ (Permutation_sym Pm)); auto.
    + constructor; auto. apply Forall_forall. intros w' Iw' a c0 x Ec Ix. subst c.
      assert (Ix' : In x (concat (all_wires K fuel tol r))) by (apply in_concat; eauto). destruct (I2 x Ix') as (y & Iy & Ty).
      pose proof (attach_none K OK tol a c0 y T (attach_first_none K tol _ r A y Iy)) as [N1 N2]. rewrite last_cons.
      assert (Tt : forall p, touches K tol x p -> touches K tol y p). { intros p. unfold touches. destruct Ty as [-> | ->]; auto. rewrite (rev_start K OK), (rev_end K OK). tauto. }
      split; intros Q; [apply N1|apply N2]; auto.
Qed.
Lemma wires_from_edges_spec l tol ws rest : 0 <= tol -> wires_from_edges K l tol = (ws, rest) ->
  same_edges K l (concat ws) /\ (forall w, In w ws -> w <> [] /\ joined K tol w) /\
  ForallOrdPairs (fun w w' => forall a c e, w = a :: c -> In e w' -> ~ touches K tol e (e_start K a) /\ ~ touches K tol e (e_end K (last w a))) ws.
Proof.
  intros T H. unfold wires_from_edges in H. destruct l as [|e [|f l]].
  - apply pair_equal_spec in H as [<- _]. cbn. split; [apply same_edges_refl|]. split; [intros w []|constructor].
  - apply pair_equal_spec in H as [<- _]. cbn. split; [apply same_edges_refl|]. split; [intros w [<- | []]; split; [discriminate|apply joined_one]|]. constructor; [constructor|constructor].
  - apply pair_equal_spec in H as [<- _]. destruct (all_wires_spec tol T _ (e :: f :: l) (le_n _)) as (A & B & _ & D). auto.
Qed.
Lemma wires_from_edges_empties l tol ws rest : wires_from_edges K l tol = (ws, rest) -> (2 <= length l)%nat -> rest = [].
Proof. unfold wires_from_edges. destruct l as [|e [|f l]]; cbn [length]; intros H L; try lia. apply pair_equal_spec in H as [_ <-]. reflexivity. Qed.

(** invert *)
Lemma invert_invert w : invert K (invert K w) = w.
Proof. unfold invert. rewrite (map_rev (e_rev K) w), rev_involutive, map_map. rewrite map_ext with (g := fun e => e); [apply map_id|]. apply (rev_rev K OK). Qed.
Lemma invert_joined tol w : joined K tol w <-> joined K tol (invert K w).
Proof.
  assert (G : forall w, joined K tol w -> joined K tol (invert K w)).
  { clear w. intros w J w1 e f w2 Q. unfold invert in Q. apply (f_equal (@rev _)) in Q. rewrite <- map_rev, rev_involutive in Q. rewrite rev_app_distr in Q. cbn [rev] in Q. rewrite <- !app_assoc in Q. cbn [app] in Q.
    apply map_eq_app in Q as (u1 & u2 & -> & Q1 & Q2). destruct u2 as [|x [|y u2]]; try discriminate. cbn [map] in Q2. injection Q2 as <- <- _.
    rewrite (rev_start K OK), (rev_end K OK), (dist_sym K OK). apply (J u1 x y u2 eq_refl). }
  split; auto. intros J. rewrite <- (invert_invert w). auto.
Qed.
Lemma total_app a b : total K (a ++ b) = total K a + total K b.
Proof.
  unfold total. induction a as [|x a IH]; cbn [app fold_right]; [ring|]. rewrite IH. ring.
Qed.
Lemma length_total w : wire_length K w = total K w.
Proof.
  unfold wire_length. assert (G : forall a, fold_left (fun l e => l + e_length K e) w a = a + total K w); [|rewrite G; ring].
  unfold total. induction w as [|e w IH]; intros a; cbn [fold_left fold_right]; [ring|]. rewrite IH. ring.
Qed.
Lemma invert_length w : wire_length K (invert K w) = wire_length K w.
Proof.
  rewrite !length_total. induction w as [|e w IH]; auto. change (invert K (e :: w)) with (map (e_rev K) (rev w ++ [e])). rewrite map_app, total_app.
  change (map (e_rev K) (rev w)) with (invert K w). rewrite IH. unfold total. cbn [map fold_right]. rewrite (rev_length K OK). ring.
Qed.
Lemma invert_ends w a b : w <> [] -> e_start K (hd a (invert K w)) = e_end K (last w b) /\ e_end K (last (invert K w) b) = e_start K (hd a w).
Proof.
  intros N. split.
  - destruct (exists_last N) as (u & x & ->). unfold invert. rewrite rev_app_distr, last_last. cbn. apply (rev_start K OK).
  - destruct w as [|x w]; [congruence|]. unfold invert. cbn [rev]. rewrite map_app. cbn [map]. rewrite last_last. cbn [hd]. apply (rev_end K OK).
Qed.

(** reorder_contour_at_point *)
Lemma rotate_spec p : forall after before,
  (exists w1 w2 e, after = w1 ++ e :: w2 /\ (forall f, In f w1 -> p_close K (e_start K f) p (/ 10 ^ 6) = false) /\ p_close K (e_start K e) p (/ 10 ^ 6) = true /\ rotate_at K before after p = (e :: w2) ++ rev before ++ w1) \/
  ((forall f, In f after -> p_close K (e_start K f) p (/ 10 ^ 6) = false) /\ rotate_at K before after p = []).
Proof.
  induction after as [|e after IH]; intros before; cbn [rotate_at]; [right; split; auto; intros f []|].
  destruct (p_close K (e_start K e) p (/ 10 ^ 6)) eqn:C.
  - left. exists [], after, e. split; auto. split; [intros f []|]. split; auto. rewrite app_nil_r. reflexivity.
  - destruct (IH (e :: before)) as [(w1 & w2 & x & -> & H1 & H2 & H3) | (H1 & H2)].
    + left. exists (e :: w1), w2, x. split; auto. split; [intros f [<- | I]; auto|]. split; auto. rewrite H3. cbn [rev]. rewrite <- !app_assoc. reflexivity.
    + right. split; auto. intros f [<- | I]; auto.
Qed.
Lemma reorder_at_point_ok w p : (exists e, In e w /\ p_dist K (e_start K e) p <= / 10 ^ 6) ->
  exists w1 e w2, w = w1 ++ e :: w2 /\ reorder_contour_at_point K w p = e :: w2 ++ w1 /\ p_dist K (e_start K e) p <= / 10 ^ 6 /\
    (forall f, In f w1 -> / 10 ^ 6 < p_dist K (e_start K f) p).
Proof.
  intros (e & I & D). assert (T : 0 <= / 10 ^ 6) by (pose proof (pow10_inv_pos 6); lra). unfold reorder_contour_at_point.
  destruct (rotate_spec p w []) as [(w1 & w2 & x & -> & H1 & H2 & H3) | (H1 & _)].
  - exists w1, x, w2. split; auto. split; [rewrite H3; reflexivity|]. split; [apply close_iff in H2; auto|]. intros f If. specialize (H1 f If).
    destruct (Rle_dec (p_dist K (e_start K f) p) (/ 10 ^ 6)) as [q|q]; [|lra]. apply (close_iff K OK) in q; auto. congruence.
  - specialize (H1 e I). apply (close_iff K OK) in D; auto. congruence.
Qed.
Lemma reorder_at_point_none w p : (forall e, In e w -> / 10 ^ 6 < p_dist K (e_start K e) p) -> reorder_contour_at_point K w p = [].
Proof.
  intros H. assert (T : 0 <= / 10 ^ 6) by (pose proof (pow10_inv_pos 6); lra). unfold reorder_contour_at_point. destruct (rotate_spec p w []) as [(w1 & w2 & x & -> & H1 & H2 & H3) | (_ & ->)]; auto.
  apply (close_iff K OK) in H2; auto. specialize (H x ltac:(apply in_or_app; right; left; auto)). lra.
Qed.
Lemma rotation_ordered tol w1 w2 : 0 <= tol -> w1 <> [] -> w2 <> [] -> joined K tol (w1 ++ w2) -> closes K tol (w1 ++ w2) -> joined K tol (w2 ++ w1) /\ closes K tol (w2 ++ w1).
Proof.
  intros T N1 N2 J C. destruct w1 as [|a w1]; [congruence|]. destruct w2 as [|b w2]; [congruence|]. cbn [app] in C. apply closes_iff in C.
  destruct (joined_app K tol _ _ J) as [J1 J2].
  assert (Lb : last (w1 ++ b :: w2) a = last w2 b).
  { rewrite <- (last_cons a (w1 ++ b :: w2) a). rewrite <- (last_cons b w2 a). destruct (@exists_last _ (b :: w2) ltac:(discriminate)) as (u & x & ->). rewrite app_comm_cons, app_assoc, !last_last. reflexivity. }
  rewrite Lb in C. split.
  - assert (G : forall u x y v, joined K tol (u ++ [x]) -> joined K tol (y :: v) -> p_dist K (e_end K x) (e_start K y) <= tol -> joined K tol ((u ++ [x]) ++ y :: v)).
    { clear. intros u; induction u as [|z u IH]; intros x y v H1 H2 D; [cbn; apply joined_cons; auto|]. destruct u as [|z' u].
      - cbn in *. apply joined_cons in H1 as [D1 H1]. apply joined_cons. auto.
      - cbn [app] in *. apply joined_cons in H1 as [D1 H1]. apply joined_cons. split; [auto|apply (IH x y v); auto]. }
    destruct (@exists_last _ (b :: w2) ltac:(discriminate)) as (u & x & Q). rewrite Q in *. apply G; auto.
    assert (last w2 b = x) as <-; [|auto]. rewrite <- (last_cons b w2 a), Q. apply last_last.
  - cbn [app]. apply closes_iff. destruct (@exists_last _ (a :: w1) ltac:(discriminate)) as (u & x & Q).
    assert (last (w2 ++ a :: w1) b = x) as ->. { rewrite Q, app_assoc. apply last_last. }
    apply (J u x b w2). rewrite Q, <- app_assoc. reflexivity.
Qed.
End W.
