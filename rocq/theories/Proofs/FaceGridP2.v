From Coq Require Import List Bool Arith ZArith Lia.
From Verif.Model Require Import Base FaceGrid.
From Verif.Spec Require Import FaceGridSpec FaceGridSpec2.
From Verif.Proofs Require Import FaceGridP.
Import ListNotations.
Open Scope nat_scope.

Lemma remove_exact {T} (l : list (nat * nat)) (r : @region T) : forall (grid : list ((nat * nat) * (T * T))) e, (forall e e', In e grid -> In e' grid -> fst e = fst e' -> e = e') ->
  (In e (fold_left (fun grid ij => match find (same_key ij) grid with None => grid | Some e => if belongs r (snd e) then filter (fun e' => negb (same_key ij e')) grid else grid end) l grid)
   <-> In e grid /\ ~ (belongs r (snd e) = true /\ In (fst e) l)).
Proof.
  assert (KE : forall ij (e : (nat * nat) * (T * T)), same_key ij e = true <-> fst e = ij).
  { intros [i j] [[k m] p]. unfold same_key. cbn [fst snd]. rewrite andb_true_iff, !Nat.eqb_eq. split; [intros []; congruence|intros [= -> ->]; auto]. }
  induction l as [|ij l IH]; intros grid e U; [cbn; tauto|]. cbn [fold_left].
  destruct (find (same_key ij) grid) as [e0|] eqn:F.
  - apply find_some in F as [F1 F2]. apply KE in F2. destruct (belongs r (snd e0)) eqn:Q.
    + rewrite IH; [|intros a b A B; apply filter_In in A as [A _]; apply filter_In in B as [B _]; apply U; assumption]. rewrite filter_In, negb_true_iff, <- not_true_iff_false, KE. cbn [In]. split.
      * intros [[A N] H]. split; [exact A|]. intros [B [C|C]]; [apply N; symmetry; exact C|tauto].
      * intros [A H]. split; [split; [exact A|]|tauto]. intros E. apply H. assert (e = e0) by (apply U; congruence). subst. split; [exact Q|left; symmetry; exact E].
    + rewrite (IH _ _ U). cbn [In]. split; [|tauto]. intros [A H]. split; [exact A|]. intros [B [C|C]]; [|tauto]. assert (e = e0) by (apply U; congruence). subst. congruence.
  - rewrite (IH _ _ U). cbn [In]. split; [|tauto]. intros [A H]. split; [exact A|]. intros [B [C|C]]; [|tauto]. pose proof (find_none _ _ F e A) as G. rewrite (proj2 (KE ij e)) in G by congruence. discriminate G.
Qed.
Lemma in_range_pair {T} (lt : T -> T -> bool) (O : number_order lt) x y r : ascending lt x -> ascending lt y -> forall i j,
  In (i, j) (flat_map (fun i => map (pair i) (array_range_search lt y (y_min r) (y_max r))) (array_range_search lt x (x_min r) (x_max r))) <->
  exists a b, nth_error x i = Some a /\ nth_error y j = Some b /\ between lt (x_min r) (x_max r) a /\ between lt (y_min r) (y_max r) b.
Proof.
  intros X Y i j. rewrite in_flat_map. split.
  - intros (i' & A & B). apply in_map_iff in B as (j' & E & B). injection E as -> ->. apply (proj2 (range_search_ok lt x _ _ O X)) in A as (a & A1 & A2). apply (proj2 (range_search_ok lt y _ _ O Y)) in B as (b & B1 & B2). eauto 8.
  - intros (a & b & A & B & C & D). exists i. split; [apply (proj2 (range_search_ok lt x _ _ O X)); eauto|]. apply in_map_iff. exists j. split; [reflexivity|]. apply (proj2 (range_search_ok lt y _ _ O Y)); eauto.
Qed.

Lemma nth_flat {A B} (f : A -> list B) (n : nat) : (forall a, length (f a) = n) -> forall l k b,
  nth_error (flat_map f l) k = Some b <-> exists i j a, k = i * n + j /\ nth_error l i = Some a /\ nth_error (f a) j = Some b.
Proof.
  intros L. induction l as [|a l IH]; intros k b; cbn [flat_map].
  - split; [destruct k; discriminate|]. intros (i & j & a & _ & H & _). destruct i; discriminate H.
  - destruct (Nat.lt_ge_cases k n) as [K|K].
    + rewrite nth_error_app1 by (rewrite L; exact K). split; [intros H; exists 0, k, a; auto|]. intros (i & j & a' & E & H & H2).
      destruct i as [|i]; [cbn in E, H; injection H as <-; subst k; exact H2|]. exfalso. cbn in E. lia.
    + rewrite nth_error_app2 by (rewrite L; exact K). rewrite L, IH. split.
      * intros (i & j & a' & E & H & H2). exists (S i), j, a'. repeat split; [cbn; lia|exact H|exact H2].
      * intros (i & j & a' & E & H & H2). destruct i as [|i]; [exfalso; cbn in E; assert (j < length (f a')) by (apply nth_error_Some; congruence); rewrite L in *; lia|].
        exists i, j, a'. repeat split; [cbn in E; lia|exact H|exact H2].
Qed.
Lemma nth_map {A B} (f : A -> B) : forall l k, nth_error (map f l) k = option_map f (nth_error l k).
Proof. induction l as [|a l IH]; intros [|k]; cbn; auto. Qed.
Lemma snake_number {T} (x y : list T) k p : nth_error (snake x y) k = Some p <-> number_of_node x y k p.
Proof.
  unfold snake, number_of_node. rewrite (nth_flat _ (length x)); [|intros [i a]; rewrite map_length; cbn; destruct (Nat.even i); [|rewrite rev_length]; reflexivity]. split.
  - intros (i & j & [i' a] & E & H & H2). exists i, j. split; [exact E|]. assert (i' = i /\ nth_error y i = Some a) as [-> Y].
    { clear -H. assert (K : forall n (y : list T) i i' a, nth_error (combine (seq n (length y)) y) i = Some (i', a) -> i' = n + i /\ nth_error y i = Some a).
      { intros n y0. revert n. induction y0 as [|b y0 IH]; intros n [|i0] i1 a0 H0; cbn in *; try discriminate H0; [injection H0 as <- <-; split; [lia|reflexivity]|]. apply IH in H0 as [-> H0]. split; [lia|exact H0]. }
      apply (K 0) in H. exact H. }
    cbn [fst snd] in H2. rewrite nth_map in H2. destruct (nth_error (if Nat.even i then x else rev x) j) eqn:N; [|discriminate H2]. cbn in H2. injection H2 as <-. auto.
  - intros (i & j & E & Y & X). exists i, j, (i, snd p). split; [exact E|]. split.
    + assert (K : forall n (y : list T) i a, nth_error y i = Some a -> nth_error (combine (seq n (length y)) y) i = Some (n + i, a)).
      { intros n y0. revert n. induction y0 as [|b y0 IH]; intros n [|i0] a0 H0; cbn in *; try discriminate H0; [injection H0 as <-; f_equal; f_equal; lia|]. rewrite (IH (S n) _ _ H0). f_equal. f_equal. lia. }
      apply (K 0). exact Y.
    + cbn [fst snd]. rewrite nth_map, X. destruct p; reflexivity.
Qed.
(** exactly which points are kept *)
Lemma surface_grid_exact {T} (lt : T -> T -> bool) x y ny inside vertex holes p : number_order lt -> ascending lt x -> ascending lt y ->
  (In p (surface_grid_points lt x y ny inside vertex holes) <->
   exists k, number_of_node x y k p /\ inside p = true /\ vertex p = false /\ forall r, In r holes -> ~ (belongs r p = true /\ looked_up lt x y ny k r)).
Proof.
  intros O X Y. unfold surface_grid_points. set (g := grid_triangulation_points x y ny inside vertex).
  assert (U := @grid_keys T x y ny inside vertex). fold g in U.
  assert (K : forall hs g e, (forall e e', In e g -> In e' g -> fst e = fst e' -> e = e') -> (In e (fold_left (remove_hole lt x y) hs g) <-> In e g /\ forall r, In r hs -> ~ (belongs r (snd e) = true /\
     exists a b, nth_error x (fst (fst e)) = Some a /\ nth_error y (snd (fst e)) = Some b /\ between lt (x_min r) (x_max r) a /\ between lt (y_min r) (y_max r) b))).
  { induction hs as [|r hs IH]; intros g0 e U0; [cbn; tauto|]. cbn [fold_left]. 
    assert (RE : forall e, In e (remove_hole lt x y g0 r) <-> In e g0 /\ ~ (belongs r (snd e) = true /\ exists a b, nth_error x (fst (fst e)) = Some a /\ nth_error y (snd (fst e)) = Some b /\ between lt (x_min r) (x_max r) a /\ between lt (y_min r) (y_max r) b)).
    { intros e0. unfold remove_hole. rewrite (remove_exact _ r g0 e0 U0). destruct e0 as [[i j] q]. cbn [fst snd]. rewrite (in_range_pair lt O x y r X Y i j). reflexivity. }
    rewrite IH; [|intros a b A B; apply RE in A as [A _]; apply RE in B as [B _]; apply U0; assumption]. rewrite RE. cbn [In]. split.
    - intros [[A B] C]. split; [exact A|]. intros r' [<-|D]; [exact B|apply C, D].
    - intros [A B]. split; [split; [exact A|apply B; left; reflexivity]|intros r' D; apply B; right; exact D]. }
  rewrite in_map_iff. split.
  - intros (e & <- & H). apply (K holes g e U) in H as [H N]. unfold g, grid_triangulation_points in H. apply in_map_iff in H as ([k q] & <- & H). cbn [fst snd] in *.
    apply filter_In in H as [H1 H2]. cbn [snd] in H2. apply andb_true_iff in H2 as [A B]. apply negb_true_iff in B. apply combine_seq_in in H1 as [_ H1]. rewrite Nat.sub_0_r in H1. apply snake_number in H1.
    exists k. repeat split; auto.
  - intros (k & A & B & C & D). exists ((k / (ny + 2), k mod (ny + 2)), p). split; [reflexivity|]. apply (K holes g _ U). cbn [fst snd]. split; [|exact D].
    unfold g, grid_triangulation_points. apply in_map_iff. exists (k, p). split; [reflexivity|]. apply filter_In. split; [apply combine_seq_in; rewrite Nat.sub_0_r; split; [lia|apply snake_number, A]|]. cbn [snd]. rewrite B, C. reflexivity.
Qed.
