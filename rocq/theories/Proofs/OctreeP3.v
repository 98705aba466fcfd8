From Verif.Model Require Import Base FloodFill VoxelMatrix Octree.
From Verif.Spec Require Import OctreeSpec.
From Verif.Proofs Require Import FloodFillP VoxelP OctreeP OctreeP2.
From Coq Require Import Lia.
Open Scope Z_scope.

(** C12: is_intersecting *)
Lemma sizes_nth w depth d : (d <= depth)%nat -> nth (d + 1) (sizes (2 * w) depth) 0 = w * 2 ^ Z.of_nat (depth - d).
Proof.
  intros H. unfold sizes. set (f := fun i => 2 * w * 2 ^ Z.of_nat (depth - i)). destruct (Nat.eq_dec d depth) as [-> | N].
  - rewrite app_nth2 by (rewrite map_length, seq_length; lia). rewrite map_length, seq_length, Nat.sub_diag. cbn [nth]. rewrite Nat.sub_diag. change (2 ^ Z.of_nat 0) with 1. rewrite round2_even. ring.
  - rewrite app_nth1 by (rewrite map_length, seq_length; lia). rewrite (nth_indep _ 0 (f 0%nat)) by (rewrite map_length, seq_length; lia). rewrite map_nth, seq_nth by lia. unfold f.
    replace (depth - d)%nat with (S (depth - (0 + (d + 1))))%nat by lia. rewrite pow_S. ring.
Qed.
Lemma overlap1_spec c1 h1 c2 h2 : 0 < h1 -> 0 < h2 -> overlap1 c1 h1 c2 h2 = true <-> Z.abs (c1 - c2) < h1 + h2.
Proof. intros. unfold overlap1. rewrite Z.ltb_lt. lia. Qed.
Lemma check_spec c1 h1 c2 h2 : 0 < h1 -> 0 < h2 -> check_voxel_intersection c1 h1 c2 h2 = true <-> cubes_meet (2 * h1) c1 (2 * h2) c2.
Proof. intros. destruct c1 as [[x1 y1] z1], c2 as [[x2 y2] z2]. unfold check_voxel_intersection, cubes_meet. rewrite !andb_true_iff, !overlap1_spec by assumption. lia. Qed.
(** [Meet]: voxels below two nodes with overlapping cubes *)
Definition Meet w1 n1 c1 t1 w2 n2 c2 t2 : Prop := exists p q, In p (LC w1 n1 c1 t1) /\ In q (LC w2 n2 c2 t2) /\ cubes_meet (2 * w1) p (2 * w2) q.
Lemma meet1 x1 x2 p1 q1 h1 h2 w1 w2 : Z.abs (p1 - x1) <= h1 - w1 -> Z.abs (q1 - x2) <= h2 - w2 -> 2 * Z.abs (p1 - q1) < 2 * w1 + 2 * w2 -> 2 * Z.abs (x1 - x2) < 2 * h1 + 2 * h2.
Proof. lia. Qed.
Lemma Meet_check w1 n1 c1 t1 w2 n2 c2 t2 : 0 < w1 -> 0 < w2 -> Meet w1 n1 c1 t1 w2 n2 c2 t2 -> check_voxel_intersection c1 (w1 * 2 ^ Z.of_nat n1) c2 (w2 * 2 ^ Z.of_nat n2) = true.
Proof.
  intros H1 H2 (p & q & Hp & Hq & M). pose proof (pow_pos n1). pose proof (pow_pos n2). apply check_spec; [nia|nia|]. apply LC_near in Hp; [|assumption]. apply LC_near in Hq; [|assumption].
  destruct c1 as [[x1 y1] z1], c2 as [[x2 y2] z2], p as [[p1 p2] p3], q as [[q1 q2] q3]. unfold near, cubes_meet in *. rewrite Z.mul_sub_distr_l, Z.mul_1_r in Hp, Hq. destruct Hp as (A1 & A2 & A3), Hq as (B1 & B2 & B3), M as (M1 & M2 & M3). split; [|split]; eapply meet1; eassumption.
Qed.
Lemma expand_spec w depth d c t : 0 < w -> (d <= depth)%nat -> forall p,
  In p (LC w (depth - d) c t) <-> exists d' c' t', In (d', c', t') (expand_entry depth (sizes (2 * w) depth) (d, c, t)) /\ In p (LC w (depth - d') c' t').
Proof.
  intros Hw Hd p. unfold expand_entry. destruct (Nat.eqb_spec d depth) as [-> | N].
  - split; [intros H; exists depth, c, t; split; [left; reflexivity|assumption]|]. intros (d' & c' & t' & [X|[]] & H). apply pair_equal_spec in X as [X <-]. apply pair_equal_spec in X as [<- <-]. assumption.
  - rewrite sizes_nth by assumption. replace (depth - d)%nat with (S (depth - (d + 1)))%nat by lia. rewrite LC_S, in_flat_map. rewrite pow_S. replace (w * (2 * 2 ^ Z.of_nat (depth - (d + 1)))) with (2 * w * 2 ^ Z.of_nat (depth - (d + 1))) by ring. split.
    + intros (o & Ho & H). destruct (truthy (kid t (oindex o))) eqn:T; [|destruct H]. exists (d + 1)%nat, (cc w (depth - (d + 1)) c o), (kid t (oindex o)). split; [|assumption].
      apply in_flat_map. exists o. split; [assumption|]. rewrite T, sub_center_cc. left. reflexivity.
    + intros (d' & c' & t' & H & Hp). apply in_flat_map in H as (o & Ho & H). exists o. split; [assumption|]. destruct (truthy (kid t (oindex o))) eqn:T; [|destruct H]. destruct H as [X|[]].
      apply pair_equal_spec in X as [X <-]. apply pair_equal_spec in X as [<- <-]. rewrite sub_center_cc in Hp. assumption.
Qed.
Lemma expand_depth depth ss d c t d' c' t' : (d <= depth)%nat -> In (d', c', t') (expand_entry depth ss (d, c, t)) -> (d' <= depth)%nat /\ (d < depth -> d' = d + 1)%nat /\ (d = depth -> d' = d).
Proof.
  intros Hd. unfold expand_entry. destruct (Nat.eqb_spec d depth) as [-> | N].
  - intros [X|[]]. apply pair_equal_spec in X as [X <-]. apply pair_equal_spec in X as [<- <-]. lia.
  - intros H. apply in_flat_map in H as (o & Ho & H). destruct (truthy _); [|destruct H]. destruct H as [X|[]]. apply pair_equal_spec in X as [X <-]. apply pair_equal_spec in X as [<- <-]. lia.
Qed.
Lemma Exists_one {A} (P : A -> Prop) x : Exists P [x] <-> P x.
Proof. rewrite Exists_cons, Exists_nil. tauto. Qed.
Section loop.
Variables (w1 w2 : Z) (d1 d2 : nat).
Hypotheses (H1 : 0 < w1) (H2 : 0 < w2).
Let s1 := sizes (2 * w1) d1. Let s2 := sizes (2 * w2) d2.
Definition MeetE (e : entry * entry) : Prop := let '((n1, c1, t1), (n2, c2, t2)) := e in Meet w1 (d1 - n1) c1 t1 w2 (d2 - n2) c2 t2.
Definition Run (L : list (entry * entry)) : Prop := exists f b, (b = true <-> Exists MeetE L) /\
  forall fuel r1 r2, intersecting_loop (f + fuel) d1 d2 s1 s2 (map fst L ++ r1) (map snd L ++ r2) = if b : bool then Ok true else intersecting_loop fuel d1 d2 s1 s2 r1 r2.
Lemma run_nil : Run [].
Proof. exists 0%nat, false. split; [rewrite Exists_nil; split; [discriminate|intros []]|]. reflexivity. Qed.
Lemma run_cons e L : Run [e] -> Run L -> Run (e :: L).
Proof.
  intros (f & b & Hb & R) (f' & b' & Hb' & R'). exists (f + f')%nat, (b || b'). split.
  - rewrite Exists_one in Hb. rewrite orb_true_iff, Hb, Hb', Exists_cons. reflexivity.
  - intros fuel r1 r2. specialize (R (f' + fuel)%nat (map fst L ++ r1)%list (map snd L ++ r2)%list). cbn [map app] in R |- *. rewrite <- Nat.add_assoc, R. destruct b; [reflexivity|]. apply R'.
Qed.
Lemma run_list L : (forall e, In e L -> Run [e]) -> Run L.
Proof. induction L as [|e L IH]; intros H; [apply run_nil|]. apply run_cons; [apply H; left; reflexivity|apply IH; intros; apply H; right; assumption]. Qed.
Lemma run_one k : forall n1 c1 t1 n2 c2 t2, (n1 <= d1)%nat -> (n2 <= d2)%nat -> (d1 - n1 + (d2 - n2) < k)%nat -> Run [((n1, c1, t1), (n2, c2, t2))].
Proof.
  induction k as [|k IH]; intros n1 c1 t1 n2 c2 t2 B1 B2 Hk; [lia|].
  assert (Hm : Exists MeetE [((n1, c1, t1), (n2, c2, t2))] <-> Meet w1 (d1 - n1) c1 t1 w2 (d2 - n2) c2 t2).
  { rewrite Exists_one. reflexivity. }
  destruct (check_voxel_intersection c1 (nth (n1 + 1) s1 0) c2 (nth (n2 + 1) s2 0)) eqn:C.
  2:{ exists 1%nat, false. split. - rewrite Hm. split; [discriminate|]. intros M. apply Meet_check in M; [|assumption|assumption]. unfold s1, s2 in C. rewrite !sizes_nth in C by assumption. congruence.
      - intros fuel r1 r2. cbn [Nat.add map app fst snd]. cbn [intersecting_loop]. rewrite C. reflexivity. }
  destruct ((n1 =? d1)%nat && (n2 =? d2)%nat) eqn:D.
  { exists 1%nat, true. split; [|intros fuel r1 r2; cbn [Nat.add map app fst snd intersecting_loop]; rewrite C, D; reflexivity]. rewrite Hm. split; [|reflexivity]. intros _.
    apply andb_true_iff in D as [D1 D2]. apply Nat.eqb_eq in D1, D2. subst n1 n2. unfold s1, s2 in C. rewrite !sizes_nth in C by lia. rewrite !Nat.sub_diag in *. exists c1, c2. split; [left; reflexivity|]. split; [left; reflexivity|].
    change (2 ^ Z.of_nat 0) with 1 in C. rewrite !Z.mul_1_r in C. apply check_spec in C; assumption. }
  set (E1 := expand_entry d1 s1 (n1, c1, t1)). set (E2 := expand_entry d2 s2 (n2, c2, t2)).
  set (pairs := flat_map (fun x => map (fun y => (x, y)) E2) E1).
  assert (RL : Run (rev pairs)).
  { apply run_list. intros e He. apply in_rev in He. unfold pairs in He. apply in_flat_map in He as ([[a1 b1] u1] & Hx & He). apply in_map_iff in He as ([[a2 b2] u2] & <- & Hy).
    apply expand_depth in Hx as (X1 & X2 & X3); [|assumption]. apply expand_depth in Hy as (Y1 & Y2 & Y3); [|assumption]. apply IH; [assumption|assumption|].
    assert (n1 < d1 \/ n2 < d2)%nat. { destruct (Nat.eqb_spec n1 d1), (Nat.eqb_spec n2 d2); cbn in D; try discriminate; lia. }
    destruct (Nat.eq_dec n1 d1), (Nat.eq_dec n2 d2); lia. }
  destruct RL as (f & b & Hb & R). exists (S f), b. split.
  - rewrite Hb, Hm. rewrite Exists_exists. split.
    + intros (e & He & M). apply in_rev in He. unfold pairs in He. apply in_flat_map in He as ([[a1 b1] u1] & Hx & He). apply in_map_iff in He as ([[a2 b2] u2] & <- & Hy). destruct M as (p & q & Hp & Hq & M).
      exists p, q. split; [apply (expand_spec w1 d1); [assumption|assumption|]; exists a1, b1, u1; split; assumption|]. split; [apply (expand_spec w2 d2); [assumption|assumption|]; exists a2, b2, u2; split; assumption|assumption].
    + intros (p & q & Hp & Hq & M). apply (expand_spec w1 d1) in Hp as (a1 & b1 & u1 & X1 & Hp); [|assumption|assumption]. apply (expand_spec w2 d2) in Hq as (a2 & b2 & u2 & X2 & Hq); [|assumption|assumption].
      exists ((a1, b1, u1), (a2, b2, u2)). split; [|exists p, q; split; [|split]; assumption]. apply in_rev. rewrite rev_involutive. apply in_flat_map. exists (a1, b1, u1). split; [assumption|]. apply in_map. assumption.
  - intros fuel r1 r2. cbn [Nat.add map app fst snd]. cbn [intersecting_loop]. rewrite C, D. cbn [negb]. fold E1 E2 pairs. rewrite <- !map_rev. apply R.
Qed.
End loop.
Lemma is_intersecting_spec {T} (a b : octree T) : 0 < o_size a -> 0 < o_size b -> Z.even (o_size a) = true -> Z.even (o_size b) = true ->
  exists steps r, (forall fuel, (steps <= fuel)%nat -> octree_is_intersecting fuel a b = Ok r) /\
    (r = true <-> exists p q, In p (octree_centers a) /\ In q (octree_centers b) /\ cubes_meet (o_size a) p (o_size b) q).
Proof.
  intros A1 B1 A2 B2. destruct (even_half _ A1 A2) as (w1 & Ea & H1). destruct (even_half _ B1 B2) as (w2 & Eb & H2). unfold octree_centers. rewrite Ea, Eb.
  destruct (run_one w1 w2 (o_depth a) (o_depth b) H1 H2 (S (o_depth a + o_depth b)) 0 (o_center a) (o_tree a) 0 (o_center b) (o_tree b)) as (f & r & Hr & R); [lia|lia|lia|].
  exists (S f), r. split.
  - intros fuel Hf. specialize (R (S (fuel - S f)) [] []). cbn [map app fst snd] in R. replace (f + S (fuel - S f))%nat with fuel in R by lia. unfold octree_is_intersecting. rewrite Ea, Eb. refine (eq_trans R _). destruct r; reflexivity.
  - rewrite Hr, Exists_one. unfold MeetE. rewrite !Nat.sub_0_r. reflexivity.
Qed.
(** The centers are on the grid. *)
Lemma on_parent w m cx x i : 0 < w -> (i = 0 \/ i = 1) -> (exists k, 0 <= k < 2 ^ Z.of_nat m /\ x = (cx + (2 * i - 1) * (w * 2 ^ Z.of_nat m)) - w * (2 ^ Z.of_nat m - 1) + 2 * w * k) ->
  exists k, 0 <= k < 2 ^ Z.of_nat (S m) /\ x = cx - w * (2 ^ Z.of_nat (S m) - 1) + 2 * w * k.
Proof. intros Hw Hi (k & Hk & ->). rewrite pow_S. set (e := 2 ^ Z.of_nat m) in *. exists (k + i * e). destruct Hi as [-> | ->]; split; nia. Qed.
Lemma ongrid_parent w m c o p : 0 < w -> In o octants -> ongrid w m (cc w m c o) p -> ongrid w (S m) c p.
Proof.
  intros Hw Ho. assert (Hb : let '(i, j, k) := o in (i = 0 \/ i = 1) /\ (j = 0 \/ j = 1) /\ (k = 0 \/ k = 1)) by (octcase o Ho; lia).
  destruct o as [[i j] k], Hb as (Bi & Bj & Bk), c as [[cx cy] cz], p as [[x y] z]. unfold ongrid, cc. intros (A & B & C). split; [exact (on_parent w m cx x i Hw Bi A)|split; [exact (on_parent w m cy y j Hw Bj B)|exact (on_parent w m cz z k Hw Bk C)]].
Qed.
Lemma LC_ongrid w n : 0 < w -> forall c t p, In p (LC w n c t) -> ongrid w n c p.
Proof.
  intros Hw. induction n as [|m IH]; intros c t p H.
  - unfold LC in H. cbn in H. destruct H as [<-|[]]. destruct c as [[x y] z]. split; [|split]; exists 0; change (2 ^ Z.of_nat 0) with 1; lia.
  - rewrite LC_S in H. apply in_flat_map in H as (o & Ho & H). destruct (truthy _); [|destruct H]. apply IH in H. apply ongrid_parent in H; assumption.
Qed.
Lemma centers_grid {T} (a : octree T) p : valid_octree a -> In p (octree_centers a) -> grid_center (o_size a) p.
Proof.
  intros (H1 & H2 & H3 & H4 & H5) H. destruct (even_half _ H1 H2) as (w & Ea & Hw). unfold octree_centers in H. rewrite Ea in H. apply LC_ongrid in H; [|assumption]. rewrite H5 in H. destruct (o_depth a) as [|m]; [lia|].
  destruct p as [[x y] z]. destruct H as ((i & Hi & ->) & (j & Hj & ->) & (k & Hk & ->)). rewrite pow_S in *. rewrite Ea. unfold grid_center. split; [|split]; [exists (i - 2 ^ Z.of_nat m)|exists (j - 2 ^ Z.of_nat m)|exists (k - 2 ^ Z.of_nat m)]; ring.
Qed.
Lemma grid_same v x x' : 0 < v -> (exists k, 2 * x = v * (2 * k + 1)) -> (exists k, 2 * x' = v * (2 * k + 1)) -> 2 * Z.abs (x - x') < v + v -> x = x'.
Proof. intros Hv (k & A) (k' & B) H. assert (k = k') by nia. subst. lia. Qed.
Lemma is_intersecting_same_size {T} (a b : octree T) : valid_octree a -> valid_octree b -> o_size a = o_size b ->
  exists steps r, (forall fuel, (steps <= fuel)%nat -> octree_is_intersecting fuel a b = Ok r) /\ (r = true <-> exists p, In p (octree_centers a) /\ In p (octree_centers b)).
Proof.
  intros Va Vb S. destruct (is_intersecting_spec a b) as (n & r & H & Hr); [apply Va|apply Vb|apply Va|apply Vb|]. exists n, r. split; [exact H|]. rewrite Hr. split.
  - intros (p & q & Hp & Hq & M). exists p. split; [assumption|]. replace p with q; [assumption|]. pose proof (centers_grid a p Va Hp) as Gp. pose proof (centers_grid b q Vb Hq) as Gq. rewrite <- S in *. assert (0 < o_size a) by apply Va.
    destruct p as [[x y] z], q as [[x' y'] z']. destruct Gp as (A1 & A2 & A3), Gq as (B1 & B2 & B3), M as (M1 & M2 & M3).
    rewrite (grid_same _ _ _ H0 A1 B1 M1), (grid_same _ _ _ H0 A2 B2 M2), (grid_same _ _ _ H0 A3 B3 M3). reflexivity.
  - intros (p & Hp & Hq). exists p, p. split; [assumption|]. split; [assumption|]. assert (0 < o_size a) by apply Va. destruct p as [[x y] z]. unfold cubes_meet. rewrite !Z.sub_diag, Z.abs_0. lia.
Qed.
