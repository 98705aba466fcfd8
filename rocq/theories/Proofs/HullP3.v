From Coq Require Import List Bool Arith ZArith Reals Permutation Lra Lia.
From Verif.Model Require Import Base RBase Vec Geometry Curves Edges Hull.
From Verif.Spec Require Import HullSpec PolyTurnSpec.
From Verif.Proofs Require Import VecP PolyTurnP HullP HullP2.
Import ListNotations.
Open Scope R_scope.

Lemma corner_add : forall q i, corner q (i + length q) = corner q i.
Proof.
  intros q i. unfold corner. destruct q as [|a q]; [destruct i; reflexivity|]. f_equal. cbn [length].
  rewrite <- (Nat.mul_1_l (S (length q))) at 1. apply Nat.mod_add. lia.
Qed.
Lemma turn_before : forall q i, (1 <= length q)%nat -> turn q (i + (length q - 1)) =
  cross2 (sub2 (corner q i) (corner q (i + (length q - 1)))) (sub2 (corner q (S i)) (corner q i)).
Proof.
  intros q i L. unfold turn, side. replace (S (i + (length q - 1))) with (i + length q)%nat by lia.
  replace (S (i + length q)) with (S i + length q)%nat by lia. rewrite !corner_add. reflexivity.
Qed.
Lemma turn_convex : forall q i, convex_clockwise q -> turn q i <= 0.
Proof.
  intros q i C. specialize (C i (S (S i))). unfold turn, side in *. unfold cross2, sub2 in *. cbn [x2 y2] in *. lra.
Qed.

Lemma opposite_signs : forall n p z, (n - p) * (z - p) < 0 -> n <= p \/ p < z -> n < p /\ p < z.
Proof.
  intros n p z N [D|D].
  - assert (n < p) by (destruct (Rle_lt_or_eq_dec _ _ D) as [K|K]; [exact K|subst; lra]). split; [exact H|].
    apply Rnot_le_lt. intro K. assert (0 <= (p - n) * (p - z)) by (apply Rmult_le_pos; lra). lra.
  - split; [|exact D]. apply Rnot_le_lt. intro K. assert (0 <= (n - p) * (z - p)) by (apply Rmult_le_pos; lra). lra.
Qed.
Lemma hull_direction : forall points simplices ring, (2 <= length ring)%nat -> (forall i, In i ring -> (i < length points)%nat) ->
  far_apart tol6 (map (fun i => nth i points O2D) ring) -> edges_of_ring ring simplices ->
  exists q i, convex_hull_points points simplices = Ok q /\ leftmost (corner q i) q /\
    let a := corner q i in let after := corner q (S i) in let before := corner q (i + (length q - 1)) in
    ((y2 after - y2 a) * (y2 before - y2 a) < 0 -> x2 a < x2 after \/ x2 a < x2 before ->
     0 < turn q (i + (length q - 1)) /\ ~ convex_clockwise q).
Proof.
  intros points simplices ring L I0 F H. destruct (hull_ok _ _ _ L I0 F H) as (a & b & rest & _ & M & E).
  assert (X : exists q i, convex_hull_points points simplices = Ok q /\ (2 <= length q)%nat /\ leftmost (corner q i) q /\
    (y2 (corner q (S i)) <= y2 (corner q i) \/ y2 (corner q i) < y2 (corner q (i + (length q - 1))))).
  { destruct (Rltb (y2 a) (y2 b)) eqn:B; rb; eexists.
    - exists (S (length rest)). split; [exact E|]. rewrite rev_length.
      assert (C1 : corner (rev (a :: b :: rest)) (S (length rest)) = a).
      { unfold corner. rewrite rev_length. cbn [length]. rewrite Nat.mod_small by lia. cbn [rev].
        rewrite app_nth2; rewrite app_length, rev_length; cbn [length]; [|lia]. replace (S (length rest) - (length rest + 1))%nat with 0%nat by lia. reflexivity. }
      assert (C2 : corner (rev (a :: b :: rest)) (S (length rest) + (length (a :: b :: rest) - 1)) = b).
      { unfold corner. rewrite rev_length. cbn [length]. replace (S (length rest) + (S (S (length rest)) - 1))%nat with (length rest + 1 * S (S (length rest)))%nat by lia.
        rewrite Nat.mod_add by lia. rewrite Nat.mod_small by lia. cbn [rev]. rewrite app_nth1 by (rewrite app_length, rev_length; cbn [length]; lia).
        rewrite app_nth2; rewrite rev_length; [|lia]. rewrite Nat.sub_diag. reflexivity. }
      rewrite C1, C2. split; [cbn; lia|]. split; [|right; exact B]. intros p P. apply M. apply in_rev. exact P.
    - exists 0%nat. split; [exact E|]. split; [cbn; lia|].
      assert (C0 : corner (a :: b :: rest) 0 = a) by (unfold corner; cbn [length]; rewrite Nat.mod_small by lia; reflexivity).
      assert (C1 : corner (a :: b :: rest) 1 = b) by (unfold corner; cbn [length]; rewrite Nat.mod_small by lia; reflexivity).
      rewrite C0, C1. split; [exact M|]. left. exact B. }
  destruct X as (q & i & Eq & Lq & Mq & D). exists q, i. split; [exact Eq|]. split; [exact Mq|]. cbv zeta. intros N Xs.
  assert (T : 0 < turn q (i + (length q - 1))).
  { rewrite turn_before by lia.
    assert (P1 : forall j, x2 (corner q i) <= x2 (corner q j)).
    { intro j. apply Mq. unfold corner. apply nth_In. apply Nat.mod_upper_bound. lia. }
    pose proof (P1 (S i)) as PS. pose proof (P1 (i + (length q - 1))%nat) as PB.
    set (p := corner q i) in *. set (n := corner q (S i)) in *. set (z := corner q (i + (length q - 1))) in *. clearbody p n z. clear - N Xs PS PB D.
    assert (Y : y2 n < y2 p /\ y2 p < y2 z) by (revert N D; generalize (y2 n) (y2 p) (y2 z); clear; apply opposite_signs). destruct Y as [Y1 Y2].
    unfold cross2, sub2. cbn [x2 y2]. destruct Xs as [X|X].
    - assert (0 < (y2 z - y2 p) * (x2 n - x2 p)) by (apply Rmult_lt_0_compat; lra). assert (0 <= (x2 z - x2 p) * (y2 p - y2 n)) by (apply Rmult_le_pos; lra). lra.
    - assert (0 <= (y2 z - y2 p) * (x2 n - x2 p)) by (apply Rmult_le_pos; lra). assert (0 < (x2 z - x2 p) * (y2 p - y2 n)) by (apply Rmult_lt_0_compat; lra). lra. }
  split; [exact T|]. intro C. pose proof (turn_convex q (i + (length q - 1)) C). lra.
Qed.

(** * the witness of the wrong direction *)
Definition hull_triangle : list vec2 := [V2 0 0; V2 1 1; V2 (1 / 2) 2].
Lemma sqrt_big : forall a, / 10 ^ 6 < a -> a <= 1 -> tol6 < sqrt a.
Proof.
  intros a H K. assert (P : 0 < a) by (pose proof tol6_pos; unfold tol6 in *; lra). unfold tol6. eapply Rlt_le_trans; [exact H|].
  assert (S1 : sqrt a * sqrt a = a) by (apply sqrt_sqrt; lra). assert (S2 : 0 <= sqrt a) by apply sqrt_pos. assert (S3 : sqrt a <= 1) by (rewrite <- sqrt_1; apply sqrt_le_1_alt; lra). nra.
Qed.
Lemma far_big : forall p q, 1 <= (x2 p - x2 q) * (x2 p - x2 q) + (y2 p - y2 q) * (y2 p - y2 q) -> tol6 < point_distance2 p q.
Proof.
  intros p q H. unfold point_distance2, norm2, sub2. cbn [x2 y2]. eapply Rlt_le_trans; [|apply sqrt_le_1_alt; exact H].
  rewrite sqrt_1. unfold tol6. rewrite <- Rinv_1. apply Rinv_lt_contravar; [|]; simpl; lra.
Qed.
Lemma hull_triangle_far : far_apart tol6 (map (fun i => nth i hull_triangle O2D) [0; 1; 2]%nat).
Proof.
  unfold hull_triangle. intros i j H. cbn in H. assert (C : (i = 0 /\ j = 1 \/ i = 0 /\ j = 2 \/ i = 1 /\ j = 2)%nat) by lia.
  destruct C as [[-> ->]|[[-> ->]|[-> ->]]]; cbn [map nth]; apply far_big; cbn [x2 y2]; lra.
Qed.
Lemma hull_triangle_edges : edges_of_ring [0; 1; 2]%nat [(0, 1); (1, 2); (2, 0)]%nat.
Proof. exists [(0, 1); (1, 2); (2, 0)]%nat. split; [|reflexivity]. cbn. repeat constructor. Qed.
Lemma hull_triangle_value : convex_hull_points hull_triangle [(0, 1); (1, 2); (2, 0)]%nat = Ok [V2 (1 / 2) 2; V2 1 1; V2 0 0].
Proof.
  unfold convex_hull_points. change (simplex_edges hull_triangle [(0, 1); (1, 2); (2, 0)]%nat) with (Ok [(V2 0 0, V2 1 1); (V2 1 1, V2 (1 / 2) 2); (V2 (1 / 2) 2, V2 0 0)]). cbn [bind].
  set (A := V2 0 0). set (B := V2 1 1). set (C := V2 (1 / 2) 2).
  assert (R1 : remove_first (A, B) [(A, B); (B, C); (C, A)] = [(B, C); (C, A)]) by apply (remove_skip [] _ _ (fun x => x)).
  cbv zeta. rewrite R1. cbn [length fst snd].
  assert (Fo : ForallOrdPairs apart (B :: [C; A])).
  { unfold A, B, C. repeat constructor; apply far_big; cbn [x2 y2]; lra. }
  assert (F2 : Forall2 same_edge (path_edges (B :: [C; A])) [(B, C); (C, A)]) by (cbn; repeat constructor).
  pose proof (chain_path [C; A] B [A] [(B, C); (C, A)] _ Fo F2 (Permutation_refl _)) as K. cbn [length] in K. rewrite K.
  cbn [rev app tl]. unfold hull_order, A, B, C. cbn [lowest_x x2].
  assert (T1 : Rltb 0 0 = false) by (apply Rltb_false; lra). assert (T2 : Rltb 1 0 = false) by (apply Rltb_false; lra). assert (T3 : Rltb (1 / 2) 0 = false) by (apply Rltb_false; lra).
  assert (T4 : Rltb 0 1 = true) by (apply Rltb_spec; lra). rewrite T1, T2, T3. cbn [skipn firstn app y2]. rewrite T4. reflexivity.
Qed.
Lemma hull_direction_refuted : exists points simplices ring q, length ring = 3%nat /\ (forall i, In i ring -> (i < length points)%nat) /\
  far_apart tol6 (map (fun i => nth i points O2D) ring) /\ edges_of_ring ring simplices /\
  convex_hull_points points simplices = Ok q /\ twice_area q < 0 /\ ~ leftmost (hd O2D q) q.
Proof.
  exists hull_triangle, [(0, 1); (1, 2); (2, 0)]%nat, [0; 1; 2]%nat, [V2 (1 / 2) 2; V2 1 1; V2 0 0]. split; [reflexivity|].
  split; [cbn; lia|]. split; [apply hull_triangle_far|]. split; [apply hull_triangle_edges|]. split; [apply hull_triangle_value|]. split.
  - unfold twice_area, corner, cross2. cbn. lra.
  - intro H. specialize (H (V2 0 0) (or_intror (or_intror (or_introl eq_refl)))). cbn in H. lra.
Qed.

(** * nearest neighbours *)
Lemma argmin_ok : forall c l i k d, (k < i)%nat -> let j := argmin_from c i l k d in
  (j = k /\ (forall p, In p l -> d <= norm3 (sub3 p c))) \/
  (exists t, j = (i + t)%nat /\ (t < length l)%nat /\ norm3 (sub3 (nth t l O3D) c) < d /\ (forall p, In p l -> norm3 (sub3 (nth t l O3D) c) <= norm3 (sub3 p c))).
Proof.
  induction l as [|p l IH]; intros i k d Hk; cbn [argmin_from].
  - left. split; auto. intros q [].
  - destruct (Rltb (norm3 (sub3 p c)) d) eqn:B; rb.
    + destruct (IH (S i) i (norm3 (sub3 p c)) (Nat.lt_succ_diag_r i)) as [[E M]|(t & E & T & Lt & M)]; cbv zeta in *.
      * right. exists 0%nat. rewrite E. cbn [nth length]. repeat split; try lia; auto. intros q [<-|Q]; [lra|auto].
      * right. exists (S t). rewrite E. cbn [nth length]. repeat split; try lia; try lra. intros q [<-|Q]; [lra|auto].
    + destruct (IH (S i) k d ltac:(lia)) as [[E M]|(t & E & T & Lt & M)]; cbv zeta in *.
      * left. split; auto. intros q [<-|Q]; [lra|auto].
      * right. exists (S t). rewrite E. cbn [nth length]. repeat split; try lia; try lra. intros q [<-|Q]; [lra|auto].
Qed.
Lemma nearest_ok : forall c l, l <> [] -> (nearest_index c l < length l)%nat /\
  (forall p, In p l -> norm3 (sub3 (nth (nearest_index c l) l O3D) c) <= norm3 (sub3 p c)).
Proof.
  intros c [|p l] N; [congruence|]. cbn [nearest_index].
  destruct (argmin_ok c l 1 0 (norm3 (sub3 p c)) ltac:(lia)) as [[E M]|(t & E & T & Lt & M)]; cbv zeta in *; rewrite E.
  - split; [cbn; lia|]. intros q [<-|Q]; cbn [nth]; [lra|auto].
  - cbn [Nat.add nth length]. split; [lia|]. intros q [<-|Q]; [lra|auto].
Qed.
Lemma delete_perm : forall A (d : A) l i, (i < length l)%nat -> Permutation l (nth i l d :: delete_nth i l).
Proof.
  intros A d. induction l as [|a l IH]; intros i H; [cbn in H; lia|]. destruct i as [|i]; cbn [nth]; [reflexivity|].
  unfold delete_nth in *. cbn [firstn skipn app]. cbn in H. eapply Permutation_trans; [apply perm_skip, (IH i); lia|]. apply perm_swap.
Qed.
Lemma any_false : forall l, any_nonzero l = false -> l = repeat O3D (length l).
Proof.
  induction l as [|p l IH]; intro H; [reflexivity|]. cbn in H. apply orb_false_iff in H as [A B]. cbn [length repeat]. rewrite <- (IH B). f_equal.
  apply orb_false_iff in A as [A Z]. apply orb_false_iff in A as [X Y]. apply negb_false_iff in X, Y, Z. apply Reqb_spec in X, Y, Z.
  destruct p as [x y z]. cbn in *. subst. reflexivity.
Qed.
Lemma norm3_sym : forall p c, norm3 (sub3 p c) = point_distance3 c p.
Proof. intros p c. unfold point_distance3, norm3, sub3. cbn [x3 y3 z3]. f_equal. ring. Qed.
Lemma chain3_ok : forall n c l, length l = n -> exists t k, nearest_chain n c l = c :: t /\ Permutation l (t ++ repeat O3D k) /\ nearest_order (c :: t).
Proof.
  induction n as [|n IH]; intros c l E.
  - destruct l; [|discriminate E]. exists [], 0%nat. split; [reflexivity|]. split; [reflexivity|]. intros i j Hi. cbn in Hi. lia.
  - cbn [nearest_chain]. destruct (any_nonzero l) eqn:B.
    + assert (N : l <> []) by (intros ->; discriminate E). destruct (nearest_ok c l N) as [I0 M]. set (i := nearest_index c l) in *. clearbody i.
      pose proof (delete_perm _ O3D l i I0) as P. assert (Ln : length (delete_nth i l) = n) by (apply Permutation_length in P; cbn in P; lia).
      destruct (IH (nth i l O3D) (delete_nth i l) Ln) as (t & k & Et & Pt & Ot). cbv zeta. exists (nth i l O3D :: t), k.
      split; [rewrite Et; reflexivity|].
      assert (Pl : Permutation l ((nth i l O3D :: t) ++ repeat O3D k)) by (eapply Permutation_trans; [exact P|apply perm_skip; exact Pt]).
      split; [exact Pl|]. intros a b Ha Hb. destruct a as [|a].
      * destruct b as [|b]; [lia|]. cbn [nth]. rewrite <- !norm3_sym.
        apply (M (nth b (nth i l O3D :: t) O3D)). eapply Permutation_in; [apply Permutation_sym; exact Pl|]. apply in_or_app. left. apply nth_In. cbn [length] in *. lia.
      * destruct b as [|b]; [lia|]. apply (Ot a b); cbn [length] in *; lia.
    + exists [], (length l). split; [reflexivity|]. split; [cbn; rewrite <- (any_false _ B); reflexivity|]. intros i j Hi. cbn in Hi. lia.
Qed.
Lemma order_ok : forall points, points <> [] -> exists l k, order_points_list_for_nearest_neighbor points = Ok l /\
  hd O3D l = hd O3D points /\ Permutation points (l ++ repeat O3D k) /\ nearest_order l.
Proof.
  intros [|p rest] N; [congruence|]. cbn [order_points_list_for_nearest_neighbor].
  destruct (chain3_ok _ p rest eq_refl) as (t & k & E & P & O). exists (p :: t), k. rewrite E. repeat split; auto. cbn [app]. apply perm_skip, P.
Qed.
Lemma order_perm : forall points, points <> [] -> ~ In O3D (tl points) -> exists l, order_points_list_for_nearest_neighbor points = Ok l /\ Permutation points l.
Proof.
  intros [|p rest] N H; [congruence|]. cbn [tl] in H. cbn [order_points_list_for_nearest_neighbor].
  destruct (chain3_ok _ p rest eq_refl) as (t & k & E & P & O). exists (p :: t). rewrite E. split; [reflexivity|]. apply perm_skip.
  destruct k as [|k]; [cbn in P; rewrite app_nil_r in P; exact P|]. exfalso. apply H. eapply Permutation_in; [apply Permutation_sym; exact P|]. apply in_or_app. right. left. reflexivity.
Qed.
Lemma order_refuted : exists points, (2 <= length points)%nat /\ NoDup points /\ order_points_list_for_nearest_neighbor points = Ok [hd O3D points].
Proof.
  exists [V3 1 0 0; V3 0 0 0]. split; [cbn; lia|]. split.
  - constructor; [|constructor; [intros []|constructor]]. intros [H|[]]. apply (f_equal x3) in H. cbn in H. lra.
  - cbn. rewrite Reqb_refl. cbn. reflexivity.
Qed.

(** * groups *)
Lemma add_keys : forall A k (p : A) g, (forall j, In j (map fst (add_to_group k p g)) <-> j = k \/ In j (map fst g)) /\
  (NoDup (map fst g) -> NoDup (map fst (add_to_group k p g))).
Proof.
  induction g as [|[j m] g [IH1 IH2]]; cbn [add_to_group map fst snd].
  - split; [intro j; cbn; intuition|]. intros _. constructor; [intros []|constructor].
  - destruct (Z.eqb j k) eqn:B; cbn [map fst].
    + apply Z.eqb_eq in B. subst. split; [intro j; cbn; intuition|auto].
    + apply Z.eqb_neq in B. split.
      * intro i. cbn [In]. rewrite IH1. intuition.
      * intro N. inversion N; subst. constructor; [rewrite IH1; intros [E|E]; [congruence|auto]|auto].
Qed.
Lemma add_values : forall A k (p : A) g j m, NoDup (map fst g) -> In (j, m) (add_to_group k p g) ->
  (j <> k /\ In (j, m) g) \/ (j = k /\ ((exists m', In (k, m') g /\ m = m' ++ [p]) \/ (~ In k (map fst g) /\ m = [p]))).
Proof.
  induction g as [|[i n] g IH]; cbn [add_to_group map fst snd]; intros j m N H.
  - destruct H as [H|[]]. apply pair_equal_spec in H as [<- <-]. right. split; auto.
  - inversion N as [|x y Ni Ng]; subst. destruct (Z.eqb i k) eqn:B.
    + apply Z.eqb_eq in B. subst. destruct H as [H|H].
      * apply pair_equal_spec in H as [<- <-]. right. split; auto. left. exists n. split; [left|]; reflexivity.
      * left. split; [|right; exact H]. intros ->. apply Ni. apply in_map_iff. exists (k, m). auto.
    + apply Z.eqb_neq in B. destruct H as [H|H].
      * apply pair_equal_spec in H as [<- <-]. left. split; [exact B|left; reflexivity].
      * destruct (IH _ _ Ng H) as [[E1 E2]|[-> [(m' & E1 & E2)|[E1 E2]]]].
        -- left. split; [exact E1|right; exact E2].
        -- right. split; auto. left. exists m'. split; [right; exact E1|exact E2].
        -- right. split; auto. right. split; auto. intros [F|F]; auto.
Qed.
Lemma labelled_app : forall A k (l m : list (A * Z)), labelled k (l ++ m) = labelled k l ++ labelled k m.
Proof.
  intros A k. induction l as [|e l IH]; intro m; [reflexivity|]. unfold labelled in *. cbn [app filter]. destruct (Z.eqb (snd e) k); cbn [map]; rewrite IH; reflexivity.
Qed.
Lemma labelled_none : forall A k (l : list (A * Z)), ~ In k (map snd l) -> labelled k l = [].
Proof.
  intros A k. induction l as [|e l IH]; intro H; [reflexivity|]. unfold labelled in *. cbn [filter]. cbn in H.
  destruct (Z.eqb (snd e) k) eqn:B; [apply Z.eqb_eq in B; exfalso; apply H; left; exact B|apply IH; intro K; apply H; right; exact K].
Qed.
Lemma groups_ok : forall A (l : list (A * Z)), NoDup (map fst (groups_of l)) /\ (forall k, In k (map fst (groups_of l)) <-> In k (map snd l)) /\
  (forall k g, In (k, g) (groups_of l) -> g = labelled k l).
Proof.
  intros A l. induction l as [|[p k] l IH] using rev_ind.
  - repeat split; try constructor; try intros []; contradiction.
  - destruct IH as (N & K & V). unfold groups_of in *. rewrite fold_left_app. cbn [fold_left snd fst]. set (g := fold_left _ l []) in *. clearbody g.
    destruct (add_keys _ k p g) as [A1 A2]. split; [auto|]. split.
    + intro j. rewrite A1, K, map_app, in_app_iff. cbn. intuition.
    + intros j m H. rewrite labelled_app. destruct (add_values _ _ _ _ _ _ N H) as [[E1 E2]|[-> [(m' & E1 & E2)|[E1 E2]]]].
      * rewrite (V _ _ E2) at 1. unfold labelled at 3. cbn [filter snd]. rewrite (proj2 (Z.eqb_neq k j)) by congruence. cbn. rewrite app_nil_r. reflexivity.
      * rewrite E2, (V _ _ E1). unfold labelled at 3. cbn [filter snd]. rewrite Z.eqb_refl. reflexivity.
      * rewrite E2, (labelled_none _ _ l) by (rewrite <- K; exact E1). unfold labelled. cbn [filter snd]. rewrite Z.eqb_refl. reflexivity.
Qed.
Definition group_of_ring (points : list vec3) (labels : list Z) (k : Z) (ring : list vec3) : Prop :=
  exists p l m, ring = p :: l ++ [p] /\ p = hd O3D (labelled k (combine points labels)) /\
    Permutation (labelled k (combine points labels)) (p :: l ++ repeat O3D m) /\ nearest_order (p :: l).
Lemma closed_ok : forall g, g <> [] -> exists p l m, closed_group g = Ok (p :: l ++ [p]) /\ p = hd O3D g /\ Permutation g (p :: l ++ repeat O3D m) /\ nearest_order (p :: l).
Proof.
  intros g N. destruct (order_ok g N) as (l & k & E & Hd & P & O). unfold closed_group. rewrite E. cbn [bind].
  destruct g as [|q g]; [congruence|]. destruct l as [|p l].
  - exfalso. cbn [order_points_list_for_nearest_neighbor] in E. apply (f_equal (fun r => match r with Ok x => x | Err _ => [] end)) in E. cbn in E. destruct (length g); cbn in E; [discriminate E|destruct (any_nonzero g); discriminate E].
  - exists p, l, k. repeat split; auto.
Qed.
Lemma separate_ok : forall points labels, length labels = length points -> exists keys rings, separate_points_by_closeness points labels = Ok rings /\
  NoDup keys /\ (forall k, In k keys <-> In k labels) /\
  Forall2 (fun k ring => exists p l m, ring = p :: l ++ [p] /\ p = hd O3D (labelled k (combine points labels)) /\
    Permutation (labelled k (combine points labels)) (p :: l ++ repeat O3D m) /\ nearest_order (p :: l)) keys rings.
Proof.
  intros points labels L. destruct (groups_ok _ (combine points labels)) as (N & K & V). unfold separate_points_by_closeness.
  assert (Ms : map snd (combine points labels) = labels).
  { clear - L. revert labels L. induction points as [|p points IH]; intros [|k labels] L; cbn in *; try congruence. rewrite IH; congruence. }
  rewrite Ms in K. set (G := groups_of (combine points labels)) in *. clearbody G.
  assert (X : exists rings, closed_groups G = Ok rings /\ Forall2 (group_of_ring points labels) (map fst G) rings).
  { assert (Ne : forall k g, In (k, g) G -> g <> []).
    { intros k g H E. pose proof (V _ _ H) as E2. rewrite E in E2. assert (In k labels) by (apply K; apply in_map_iff; exists (k, g); auto).
      rewrite <- Ms in H0. apply in_map_iff in H0 as (e & E3 & E4). assert (In (fst e) (labelled k (combine points labels))).
      { unfold labelled. apply in_map, filter_In. split; [exact E4|]. apply Z.eqb_eq, E3. } rewrite <- E2 in H0. destruct H0. }
    clear N K. induction G as [|[k g] G IH]; cbn [closed_groups map fst snd]; [exists []; split; [reflexivity|constructor]|].
    destruct (closed_ok g (Ne _ _ (or_introl eq_refl))) as (p & l & m & E & Hp & P & O). rewrite E. cbn [bind].
    destruct IH as (rings & E2 & F). { intros k' g' H. apply V. right. exact H. } { intros k' g' H. apply (Ne k'). right. exact H. }
    rewrite E2. cbn [bind]. exists ((p :: l ++ [p]) :: rings). split; [reflexivity|]. constructor; auto.
    exists p, l, m. rewrite <- (V _ _ (or_introl eq_refl)). auto. }
  destruct X as (rings & E & F). exists (map fst G), rings. auto.
Qed.

(** * centre of mass, grid axes *)
Lemma fold_add : forall l a, fold_left add3 l a = V3 (x3 a + fold_right Rplus 0 (map x3 l)) (y3 a + fold_right Rplus 0 (map y3 l)) (z3 a + fold_right Rplus 0 (map z3 l)).
Proof.
  induction l as [|p l IH]; intro a; cbn [fold_left map fold_right]; [destruct a; cbn; rewrite !Rplus_0_r; reflexivity|]. rewrite IH. unfold add3. cbn [x3 y3 z3]. f_equal; ring.
Qed.
Lemma center_ok : forall l, l <> [] -> get_center_of_mass l = Ok (V3 (fold_right Rplus 0 (map x3 l) / INR (length l)) (fold_right Rplus 0 (map y3 l) / INR (length l)) (fold_right Rplus 0 (map z3 l) / INR (length l))).
Proof.
  intros l N. unfold get_center_of_mass. rewrite fold_add. unfold div3, O3D. cbn [x3 y3 z3].
  assert (P : INR (length l) <> 0) by (apply not_0_INR; destruct l; [congruence|cbn; lia]).
  destruct (Reqb (INR (length l)) 0) eqn:B; [apply Reqb_spec in B; congruence|]. rewrite !Rplus_0_l. reflexivity.
Qed.
Lemma center_empty : get_center_of_mass [] = Err ZeroDivisionError.
Proof. unfold get_center_of_mass. cbn. unfold div3. rewrite Reqb_refl. reflexivity. Qed.
Lemma center_perm : forall l m, Permutation l m -> get_center_of_mass l = get_center_of_mass m.
Proof.
  intros l m P. destruct l as [|p l]; [apply Permutation_nil in P; subst; reflexivity|].
  assert (Nm : m <> []) by (intros ->; apply Permutation_sym, Permutation_nil in P; discriminate P).
  rewrite !center_ok by (auto; discriminate). rewrite (Permutation_length P).
  assert (F : forall f : vec3 -> R, fold_right Rplus 0 (map f (p :: l)) = fold_right Rplus 0 (map f m)).
  { intro f. generalize dependent m. generalize (p :: l). clear. intros l m P _. induction P; cbn; lra. }
  rewrite !F. reflexivity.
Qed.
Lemma mean_between : forall (f : vec3 -> R) l lo hi, l <> [] -> (forall p, In p l -> lo <= f p <= hi) -> lo <= fold_right Rplus 0 (map f l) / INR (length l) <= hi.
Proof.
  intros f l lo hi N H. assert (B : INR (length l) * lo <= fold_right Rplus 0 (map f l) <= INR (length l) * hi).
  { clear N. induction l as [|p l IH]; [cbn; lra|]. cbn [map fold_right length]. rewrite S_INR. destruct IH; [intros q Q; apply H; right; exact Q|].
    pose proof (H p (or_introl eq_refl)). lra. }
  assert (P : 0 < INR (length l)) by (apply lt_0_INR; destruct l; [congruence|cbn; lia]).
  split; apply Rmult_le_reg_l with (INR (length l)); auto; unfold Rdiv; rewrite <- ?Rmult_assoc; rewrite ?(Rmult_comm (INR (length l)) (fold_right _ _ _)), ?Rmult_assoc; rewrite ?Rinv_r by lra; lra.
Qed.
Lemma center_box : forall l lo hi, l <> [] -> (forall p, In p l -> x3 lo <= x3 p <= x3 hi /\ y3 lo <= y3 p <= y3 hi /\ z3 lo <= z3 p <= z3 hi) ->
  exists c, get_center_of_mass l = Ok c /\ x3 lo <= x3 c <= x3 hi /\ y3 lo <= y3 c <= y3 hi /\ z3 lo <= z3 c <= z3 hi.
Proof.
  intros l lo hi N H. rewrite (center_ok _ N). eexists. split; [reflexivity|]. cbn [x3 y3 z3].
  split; [|split]; apply mean_between; auto; intros p P; destruct (H p P) as (A & B & C); auto.
Qed.
Lemma axis_length : forall lo hi n, length (grid_axis lo hi n) = n.
Proof. intros. unfold grid_axis. rewrite map_length, seq_length. reflexivity. Qed.
Lemma axis_nth : forall lo hi n i, (i < n)%nat -> nth i (grid_axis lo hi n) 0 = lo + INR i * grid_step lo hi n.
Proof.
  intros lo hi n i H. unfold grid_axis. set (f := fun i => lo + INR i * grid_step lo hi n). rewrite (nth_indep _ 0 (f 0%nat)) by (rewrite map_length, seq_length; exact H).
  rewrite (map_nth f), seq_nth by exact H. reflexivity.
Qed.
Lemma axis_ok : forall lo hi n, lo <= hi -> length (grid_axis lo hi n) = n /\
  (forall a, In a (grid_axis lo hi n) -> lo <= a <= hi) /\
  ((0 < n)%nat -> hd 0 (grid_axis lo hi n) = lo) /\ ((1 < n)%nat -> last (grid_axis lo hi n) 0 = hi) /\
  (forall i, (S i < n)%nat -> nth (S i) (grid_axis lo hi n) 0 - nth i (grid_axis lo hi n) 0 = (hi - lo) / (INR n - 1)).
Proof.
  intros lo hi n H.
  assert (St : (1 < n)%nat -> 0 < INR n - 1 /\ grid_step lo hi n = (hi - lo) / (INR n - 1)).
  { intro K. split; [apply lt_INR in K; cbn in K; lra|]. unfold grid_step. rewrite (proj2 (Nat.ltb_lt 1 n) K). reflexivity. }
  split; [apply axis_length|]. split; [|split; [|split]].
  - intros a Ha. apply (In_nth _ _ 0) in Ha as (i & Hi & <-). rewrite axis_length in Hi. rewrite axis_nth by exact Hi.
    destruct (Nat.le_gt_cases n 1) as [K|K].
    + assert (i = 0)%nat by lia. subst. cbn. lra.
    + destruct (St K) as [P ->]. assert (Hn : INR i <= INR n - 1) by (change 1 with (INR 1); rewrite <- (minus_INR n 1) by lia; apply le_INR; lia). pose proof (pos_INR i) as Pi.
      assert (E : INR i * ((hi - lo) / (INR n - 1)) = INR i / (INR n - 1) * (hi - lo)) by (field; lra). rewrite E.
      assert (0 <= INR i / (INR n - 1)) by (apply Rmult_le_pos; [exact Pi|left; apply Rinv_0_lt_compat; exact P]).
      assert (INR i / (INR n - 1) <= 1) by (apply Rmult_le_reg_r with (INR n - 1); [exact P|]; unfold Rdiv; rewrite Rmult_assoc, Rinv_l by lra; lra). nra.
  - intro K. pose proof (axis_nth lo hi n 0 K) as E. cbn in E. destruct (grid_axis lo hi n); cbn in *; lra.
  - intro K. assert (E : last (grid_axis lo hi n) 0 = nth (n - 1) (grid_axis lo hi n) 0).
    { pose proof (axis_length lo hi n) as L. set (g := grid_axis lo hi n) in *. clearbody g. rewrite <- L. clear. induction g as [|a g IH]; [reflexivity|]. destruct g as [|b g]; [reflexivity|].
      change (last (a :: b :: g) 0) with (last (b :: g) 0). rewrite IH. cbn [length]. replace (S (S (length g)) - 1)%nat with (S (S (length g) - 1)) by lia. reflexivity. }
    rewrite E, axis_nth by lia. destruct (St K) as [P ->]. rewrite minus_INR by lia. cbn [INR]. field. lra.
  - intros i K. rewrite !axis_nth by lia. destruct (St ltac:(lia)) as [P ->]. rewrite S_INR. field. lra.
Qed.
