From Coq Require Import List Bool Arith Lia ZArith.
From Verif.Model Require Import Base FaceGrid.
From Verif.Spec Require Import FaceGridSpec.
Import ListNotations.
Open Scope nat_scope.

Section P.
Context {T : Type} (lt : T -> T -> bool) (O : number_order lt).

Lemma half lo hi : lo < hi -> lo <= (lo + hi) / 2 < hi.
Proof. intros H. split; [apply Nat.div_le_lower_bound; lia|apply Nat.div_lt_upper_bound; lia]. Qed.
(** positions before [n] are smaller than x, those from n on are not *)
Lemma left_ok x a : ascending lt a -> forall fuel lo hi, hi - lo <= fuel -> lo <= hi <= length a ->
  (forall i y, i < lo -> nth_error a i = Some y -> lt y x = true) -> (forall i y, hi <= i -> nth_error a i = Some y -> lt y x = false) ->
  let n := bisect_left_loop lt fuel a x lo hi in n <= length a /\ (forall i y, i < n -> nth_error a i = Some y -> lt y x = true) /\ (forall i y, n <= i -> nth_error a i = Some y -> lt y x = false).
Proof.
  intros A. induction fuel as [|fuel IH]; intros lo hi F B L R; cbn [bisect_left_loop].
  - assert (lo = hi) by lia. subst. cbv zeta. split; [lia|]. auto.
  - destruct (lo <? hi) eqn:E; [|apply Nat.ltb_ge in E; assert (lo = hi) by lia; subst; cbv zeta; split; [lia|]; auto]. apply Nat.ltb_lt in E.
    destruct (half lo hi E) as [H1 H2]. set (mid := (lo + hi) / 2) in *. cbv zeta. destruct (nth_error a mid) as [m|] eqn:M; [|apply nth_error_None in M; lia].
    destruct (lt m x) eqn:C.
    + apply IH; [lia|lia| |exact R]. intros i y I1 Y. destruct (lt y x) eqn:D; [reflexivity|]. exfalso.
      assert (Q := A i mid y m ltac:(lia) Y M). assert (Z := order_neg _ O m y x Q D). congruence.
    + apply IH; [lia|lia|exact L|]. intros i y I1 Y. assert (Q := A mid i m y I1 M Y). exact (order_neg _ O y m x Q C).
Qed.
Lemma right_ok x a : ascending lt a -> forall fuel lo hi, hi - lo <= fuel -> lo <= hi <= length a ->
  (forall i y, i < lo -> nth_error a i = Some y -> lt x y = false) -> (forall i y, hi <= i -> nth_error a i = Some y -> lt x y = true) ->
  let n := bisect_right_loop lt fuel a x lo hi in n <= length a /\ (forall i y, i < n -> nth_error a i = Some y -> lt x y = false) /\ (forall i y, n <= i -> nth_error a i = Some y -> lt x y = true).
Proof.
  intros A. induction fuel as [|fuel IH]; intros lo hi F B L R; cbn [bisect_right_loop].
  - assert (lo = hi) by lia. subst. cbv zeta. split; [lia|]. auto.
  - destruct (lo <? hi) eqn:E; [|apply Nat.ltb_ge in E; assert (lo = hi) by lia; subst; cbv zeta; split; [lia|]; auto]. apply Nat.ltb_lt in E.
    destruct (half lo hi E) as [H1 H2]. set (mid := (lo + hi) / 2) in *. cbv zeta. destruct (nth_error a mid) as [m|] eqn:M; [|apply nth_error_None in M; lia].
    destruct (lt x m) eqn:C.
    + apply IH; [lia|lia|exact L|]. intros i y I1 Y. destruct (lt x y) eqn:D; [reflexivity|]. exfalso.
      assert (Q := A mid i m y I1 M Y). assert (Z := order_neg _ O x y m D Q). congruence.
    + apply IH; [lia|lia| |exact R]. intros i y I1 Y. assert (Q := A i mid y m ltac:(lia) Y M). exact (order_neg _ O x m y C Q).
Qed.
End P.
Lemma range_search_ok {T} (lt : T -> T -> bool) x xmin xmax : number_order lt -> ascending lt x ->
  (exists left right, array_range_search lt x xmin xmax = seq left (right - left)) /\
  forall i, In i (array_range_search lt x xmin xmax) <-> exists a, nth_error x i = Some a /\ between lt xmin xmax a.
Proof.
  intros O A. split; [eexists _, _; reflexivity|]. intros i. unfold array_range_search.
  destruct (left_ok lt O xmin x A (length x) 0 (length x) ltac:(lia) ltac:(lia)) as (L1 & L2 & L3); [lia|intros j y J Y; apply nth_error_None in J; congruence|].
  destruct (right_ok lt O xmax x A (length x) 0 (length x) ltac:(lia) ltac:(lia)) as (R1 & R2 & R3); [lia|intros j y J Y; apply nth_error_None in J; congruence|].
  set (l := bisect_left_loop lt (length x) x xmin 0 (length x)) in *. set (r := bisect_right_loop lt (length x) x xmax 0 (length x)) in *.
  rewrite in_seq. split.
  - intros H. destruct (nth_error x i) as [a|] eqn:E; [|apply nth_error_None in E; lia]. exists a. split; [reflexivity|]. split; [apply (L3 i); [lia|exact E]|apply (R2 i); [lia|exact E]].
  - intros (a & E & B1 & B2). assert (Hl : l <= i). { destruct (le_lt_dec l i) as [H|H]; [exact H|]. rewrite (L2 i a H E) in B1. discriminate B1. }
    assert (Hr : i < r). { destruct (le_lt_dec r i) as [H|H]; [|exact H]. rewrite (R3 i a H E) in B2. discriminate B2. } lia.
Qed.

(** ** the inner polygons *)
Lemma combine_seq_in {A} (l : list A) : forall n k a, In (k, a) (combine (seq n (length l)) l) <-> n <= k /\ nth_error l (k - n) = Some a.
Proof.
  induction l as [|b l IH]; intros n k a; cbn [length seq combine]; [split; [intros []|intros [_ H]; destruct (k - n); discriminate H]|]. cbn [In]. rewrite IH. split.
  - intros [E | [L H]]; [injection E as -> ->; rewrite Nat.sub_diag; auto|]. split; [lia|]. replace (k - n) with (S (k - S n)) by lia. exact H.
  - intros [L H]. destruct (Nat.eq_dec k n) as [-> | N]; [left; rewrite Nat.sub_diag in H; cbn in H; congruence|]. right. split; [lia|].
    replace (k - n) with (S (k - S n)) in H by lia. exact H.
Qed.
Lemma indexes_in {T} (lt : T -> T -> bool) points u v index r k : number_order lt -> ascending lt u -> ascending lt v -> in_bounds lt r -> faithful_index points u v index ->
  (In k (indexes_of lt points u v index r) <-> k <> 0 /\ exists p, nth_error points k = Some p /\ belongs r p = true).
Proof.
  intros O U V B (F1 & F2). unfold indexes_of. rewrite in_flat_map. split.
  - intros (i & _ & H). apply in_flat_map in H as (j & _ & H). destruct (index (i, j)) as [[|m]|] eqn:E; try destruct H. destruct (nth_error points (S m)) as [p|] eqn:P; [|destruct H].
    destruct (belongs r p) eqn:Q; [|destruct H]. destruct H as [<- | []]. split; [discriminate|]. exists p. auto.
  - intros (K & p & P & Q). assert (L : k < length points) by (apply nth_error_Some; congruence). destruct (F2 k L) as (i & j & E). destruct (F1 i j k E) as (a & b & A1 & A2 & A3).
    assert (p = (a, b)) by congruence. subst p. destruct (B _ Q) as [B1 B2]. cbn [fst snd] in B1, B2. exists i. split; [apply (proj2 (range_search_ok lt u _ _ O U)); exists a; auto|].
    apply in_flat_map. exists j. split; [apply (proj2 (range_search_ok lt v _ _ O V)); exists b; auto|]. rewrite E. destruct k as [|k]; [congruence|]. rewrite P, Q. left. reflexivity.
Qed.
Lemma filter_ext_in' {A} (f g : A -> bool) l : (forall a, In a l -> f a = g a) -> filter f l = filter g l.
Proof. induction l as [|a l IH]; intros H; [reflexivity|]. cbn [filter]. rewrite (H a (or_introl eq_refl)), IH; [reflexivity|]. intros b B. apply H. right. exact B. Qed.
Lemma update_ok {T} (lt : T -> T -> bool) holes points u v index : number_order lt -> ascending lt u -> ascending lt v -> Forall (in_bounds lt) holes -> faithful_index points u v index ->
  update_face_grid_points_with_inner_polygons lt holes points u v index
  = match points with [] => [] | p :: rest => p :: filter (outside holes) rest end.
Proof.
  intros O U V B F. unfold update_face_grid_points_with_inner_polygons, delete_at.
  rewrite (filter_ext_in' _ (fun ka => (fst ka =? 0) || outside holes (snd ka))).
  - assert (G : forall (l : list (T * T)) n, n <> 0 -> map snd (filter (fun ka => (fst ka =? 0) || outside holes (snd ka)) (combine (seq n (length l)) l)) = filter (outside holes) l).
    { induction l as [|a l IH]; intros n N; [reflexivity|]. cbn [length seq combine filter fst snd]. rewrite (proj2 (Nat.eqb_neq n 0) N). cbn [orb].
      destruct (outside holes a); cbn [map]; rewrite IH by lia; reflexivity. }
    destruct points as [|p rest]; [reflexivity|]. cbn [length seq combine filter fst]. cbn [Nat.eqb orb map snd]. f_equal. apply G. lia.
  - intros [k p] H. apply combine_seq_in in H as [_ H]. rewrite Nat.sub_0_r in H. cbn [fst snd].
    assert (X : existsb (Nat.eqb k) (flat_map (indexes_of lt points u v index) holes) = true <-> k <> 0 /\ outside holes p = false).
    { rewrite existsb_exists. split.
      - intros (x & I1 & E). apply Nat.eqb_eq in E. subst x. apply in_flat_map in I1 as (r & R & I1). assert (Br := proj1 (Forall_forall _ _) B r R).
        apply (indexes_in lt points u v index r k O U V Br F) in I1 as (K & q & Q & Bq). assert (q = p) by congruence. subst q. split; [exact K|].
        unfold outside. destruct (forallb (fun r0 => negb (belongs r0 p)) holes) eqn:E; [|reflexivity]. rewrite forallb_forall in E. specialize (E r R). rewrite Bq in E. discriminate E.
      - intros [K E]. assert (Y : exists r, In r holes /\ belongs r p = true).
        { clear -E. unfold outside in E. induction holes as [|r holes IH]; [discriminate E|]. cbn [forallb] in E. destruct (belongs r p) eqn:Q; [exists r; split; [left; reflexivity|exact Q]|].
          cbn [negb andb] in E. destruct (IH E) as (s & S1 & S2). exists s. split; [right; exact S1|exact S2]. }
        destruct Y as (r & R & Q). exists k. split; [|apply Nat.eqb_refl]. apply in_flat_map. exists r. split; [exact R|]. apply indexes_in; [exact O|exact U|exact V|exact (proj1 (Forall_forall _ _) B r R)|exact F|].
        split; [exact K|]. exists p. auto. }
    destruct (existsb (Nat.eqb k) (flat_map (indexes_of lt points u v index) holes)) eqn:E.
    + destruct (proj1 X eq_refl) as [K Q]. rewrite Q, (proj2 (Nat.eqb_neq k 0) K). reflexivity.
    + cbn [negb]. symmetry. destruct (Nat.eqb k 0) eqn:K; [reflexivity|]. cbn [orb]. destruct (outside holes p) eqn:Q; [reflexivity|]. apply Nat.eqb_neq in K. destruct (proj2 X (conj K eq_refl)); reflexivity.
Qed.
Lemma first_point_refuted : exists (holes : list (@region Z)) points u v index, Forall (in_bounds Z.ltb) holes /\ ascending Z.ltb u /\ ascending Z.ltb v /\ faithful_index points u v index /\
  exists p, In p (update_face_grid_points_with_inner_polygons Z.ltb holes points u v index) /\ outside holes p = false.
Proof.
  exists [Region 0 1 0 1 (fun p => (0 <=? fst p) && (fst p <=? 1) && (0 <=? snd p) && (snd p <=? 1))]%Z, [(0, 0)]%Z, [0]%Z, [0]%Z, (fun ij => match ij with (0, 0) => Some 0 | _ => None end).
  split; [|split; [|split; [|split]]].
  - constructor; [|constructor]. intros [a b] H. cbn in *. rewrite !andb_true_iff, !Z.leb_le in H. unfold between. rewrite !Z.ltb_ge. lia.
  - intros i j a b L A B. destruct i, j; cbn in A, B; try (destruct i; discriminate); try (destruct j; discriminate); congruence || (apply Z.ltb_ge; injection A; injection B; lia).
  - intros i j a b L A B. destruct i, j; cbn in A, B; try (destruct i; discriminate); try (destruct j; discriminate); congruence || (apply Z.ltb_ge; injection A; injection B; lia).
  - split.
    + intros i j k E. destruct i, j; try discriminate E. injection E as <-. exists 0%Z, 0%Z. auto.
    + intros k L. cbn in L. exists 0, 0. f_equal. lia.
  - exists (0, 0)%Z. split; [left; reflexivity|reflexivity].
Qed.

(** ** the points of a face *)
Lemma in_nodes keep nu nv i j : In (i, j) (grid_nodes keep nu nv) <-> i < nu /\ j < nv /\ keep i j = true.
Proof.
  unfold grid_nodes. rewrite in_flat_map. split.
  - intros (j' & J & H). apply in_flat_map in H as (i' & I1 & H). destruct (keep i' j') eqn:K; [|destruct H]. destruct H as [E | []]. injection E as -> ->. apply in_seq in J, I1. repeat split; try lia. exact K.
  - intros (I1 & J & K). exists j. split; [apply in_seq; lia|]. apply in_flat_map. exists i. split; [apply in_seq; lia|]. rewrite K. left. reflexivity.
Qed.
Lemma position_some ij l n : position ij l = Some n -> nth_error l n = Some ij.
Proof.
  revert n. induction l as [|kl l IH]; intros n E; [discriminate E|]. cbn [position] in E. destruct ((fst ij =? fst kl) && (snd ij =? snd kl)) eqn:Q.
  - injection E as <-. apply andb_true_iff in Q as [A B]. apply Nat.eqb_eq in A, B. destruct ij, kl. cbn in *. subst. reflexivity.
  - destruct (position ij l) as [m|] eqn:P; [|discriminate E]. injection E as <-. cbn [nth_error]. apply IH. reflexivity.
Qed.
Lemma position_nth l : NoDup l -> forall n ij, nth_error l n = Some ij -> position ij l = Some n.
Proof.
  induction 1 as [|kl l N D IH]; intros n ij E; [destruct n; discriminate E|]. destruct n as [|n]; cbn [nth_error] in E.
  - injection E as ->. cbn [position]. rewrite !Nat.eqb_refl. reflexivity.
  - cbn [position]. destruct ((fst ij =? fst kl) && (snd ij =? snd kl)) eqn:Q; [|rewrite (IH n ij E); reflexivity]. exfalso. apply N.
    apply andb_true_iff in Q as [A B]. apply Nat.eqb_eq in A, B. assert (ij = kl) by (destruct ij, kl; cbn in *; congruence). subst. apply nth_error_In in E. exact E.
Qed.
Lemma NoDup_join {A B} (f : A -> list B) l : NoDup l -> (forall a, In a l -> NoDup (f a)) -> (forall a b x, In a l -> In b l -> In x (f a) -> In x (f b) -> a = b) -> NoDup (flat_map f l).
Proof.
  induction 1 as [|a l N D IH]; intros F G; [constructor|]. cbn [flat_map]. assert (H : NoDup (flat_map f l)) by (apply IH; [intros b B1; apply F; right; exact B1|intros b c x B1 C1; apply G; right; assumption]).
  assert (K := F a (or_introl eq_refl)). assert (M : forall x, In x (f a) -> ~ In x (flat_map f l)).
  { intros x X Y. apply in_flat_map in Y as (b & Bi & Y). assert (a = b) by (apply (G a b x); [left; reflexivity|right; exact Bi|exact X|exact Y]). subst. contradiction. }
  clear -H K M. induction K as [|x k Nx K IHk]; [exact H|]. cbn [app]. constructor; [|apply IHk; intros y Y; apply M; right; exact Y].
  intros Q. apply in_app_or in Q as [Q|Q]; [exact (Nx Q)|exact (M x (or_introl eq_refl) Q)].
Qed.
Lemma nodes_NoDup keep nu nv : NoDup (grid_nodes keep nu nv).
Proof.
  unfold grid_nodes. apply NoDup_join; [apply seq_NoDup| |].
  - intros j _. apply NoDup_join; [apply seq_NoDup|intros i _; destruct (keep i j); [constructor; [intros []|constructor]|constructor]|].
    intros a b x _ _ A B. destruct (keep a j); [|destruct A]. destruct (keep b j); [|destruct B]. destruct A as [<- | []]. destruct B as [E | []]. congruence.
  - intros a b x _ _ A B. apply in_flat_map in A as (i & _ & A). apply in_flat_map in B as (i' & _ & B). destruct (keep i a); [|destruct A]. destruct (keep i' b); [|destruct B].
    destruct A as [<- | []]. destruct B as [E | []]. congruence.
Qed.
Lemma nth_some {T} (l : list T) d i : i < length l -> nth_error l i = Some (nth i l d).
Proof. revert i. induction l as [|a l IH]; intros i L; [cbn in L; lia|]. destruct i; [reflexivity|]. cbn. apply IH. cbn in L. lia. Qed.
Lemma nodes_faithful {T} (d : T) keep u v : let nodes := grid_nodes keep (length u) (length v) in
  faithful_index (map (fun ij => (nth (fst ij) u d, nth (snd ij) v d)) nodes) u v (fun ij => position ij nodes).
Proof.
  intros nodes. split.
  - intros i j k E. apply position_some in E. assert (H := nth_error_In _ _ E). apply in_nodes in H as (A & B & _). exists (nth i u d), (nth j v d).
    split; [apply nth_some, A|]. split; [apply nth_some, B|]. rewrite nth_error_map, E. reflexivity.
  - intros k L. rewrite map_length in L. destruct (nth_error nodes k) as [[i j]|] eqn:E; [|apply nth_error_None in E; lia]. exists i, j. apply position_nth; [apply nodes_NoDup|exact E].
Qed.
(** the points of the grid in the face, when the first node is not inside the outer polygon *)
Lemma face_grid_ok {T} (lt : T -> T -> bool) d keep u v holes inside vertex : number_order lt -> ascending lt u -> ascending lt v -> Forall (in_bounds lt) holes ->
  (forall a b, nth_error u 0 = Some a -> nth_error v 0 = Some b -> inside (a, b) = false) -> keep 0 0 = true ->
  face_grid_points lt d keep u v holes inside vertex
  = filter (fun p => inside p && negb (vertex p) && outside holes p) (map (fun ij => (nth (fst ij) u d, nth (snd ij) v d)) (grid_nodes keep (length u) (length v))).
Proof.
  intros O U V B C K. unfold face_grid_points.
  assert (FF : forall l : list (T * T), filter (fun p => negb (vertex p)) (filter inside l) = filter (fun p => inside p && negb (vertex p)) l).
  { induction l as [|p l IH]; [reflexivity|]. cbn [filter]. destruct (inside p); cbn [filter andb]; [destruct (vertex p); cbn [negb]; rewrite IH; reflexivity|exact IH]. }
  assert (FG : forall l : list (T * T), filter (fun p => inside p && negb (vertex p)) (filter (outside holes) l) = filter (fun p => inside p && negb (vertex p) && outside holes p) l).
  { induction l as [|p l IH]; [reflexivity|]. cbn [filter]. destruct (outside holes p); cbn [filter]; rewrite IH, ?andb_true_r, ?andb_false_r; reflexivity. }
  destruct u as [|a u]; [cbn [length]; unfold grid_nodes; cbn [seq flat_map]; clear; induction (seq 0 (length v)) as [|x l IH]; [reflexivity|exact IH]|].
  destruct v as [|b v]; [reflexivity|]. set (nodes := grid_nodes keep (length (a :: u)) (length (b :: v))). set (pts := map (fun ij => (nth (fst ij) (a :: u) d, nth (snd ij) (b :: v) d)) nodes).
  rewrite FF. assert (Hd : exists rest, pts = (a, b) :: rest).
  { unfold pts, nodes, grid_nodes. cbn [length seq flat_map]. rewrite K. eexists. reflexivity. }
  destruct Hd as [rest Hd]. specialize (C a b eq_refl eq_refl). destruct holes as [|h holes].
  - rewrite <- FG. f_equal. clear. induction pts as [|p l IH]; [reflexivity|]. cbn [filter outside forallb]. f_equal. exact IH.
  - unfold pts, nodes. rewrite (update_ok lt (h :: holes) _ _ _ _ O U V B (nodes_faithful d keep (a :: u) (b :: v))). fold nodes. fold pts. rewrite Hd. cbn [filter]. rewrite C. cbn [andb].
    apply FG.
Qed.

(** ** grids of plane surfaces *)
Lemma remove_hole_keeps {T} (lt : T -> T -> bool) x y r : forall grid e, In e grid -> belongs r (snd e) = false -> (forall e e', In e grid -> In e' grid -> fst e = fst e' -> e = e') ->
  In e (remove_hole lt x y grid r) /\ (forall e, In e (remove_hole lt x y grid r) -> In e grid).
Proof.
  intros grid e. unfold remove_hole. generalize (flat_map (fun i => map (pair i) (array_range_search lt y (y_min r) (y_max r))) (array_range_search lt x (x_min r) (x_max r))).
  intros l. revert grid. induction l as [|ij l IH]; intros grid I1 B U; [cbn [fold_left]; auto|]. cbn [fold_left].
  destruct (find (same_key ij) grid) as [e0|] eqn:F; [|apply IH; assumption]. destruct (belongs r (snd e0)) eqn:Q; [|apply IH; assumption].
  apply find_some in F as [F1 F2]. destruct (IH (filter (fun e' => negb (same_key ij e')) grid)) as [A C].
  - apply filter_In. split; [exact I1|]. destruct (same_key ij e) eqn:K; [|reflexivity]. exfalso. assert (e = e0); [|congruence]. apply U; [exact I1|exact F1|].
    unfold same_key in F2, K. apply andb_true_iff in F2 as [F3 F4]. apply andb_true_iff in K as [K1 K2]. apply Nat.eqb_eq in F3, F4, K1, K2. destruct (fst e), (fst e0). cbn in *. congruence.
  - exact B.
  - intros a b Ia Ib. apply filter_In in Ia as [Ia _]. apply filter_In in Ib as [Ib _]. apply U; assumption.
  - split; [exact A|]. intros z Z. apply C in Z. apply filter_In in Z as [Z _]. exact Z.
Qed.
Lemma remove_sub {T} (lt : T -> T -> bool) x y r grid e : In e (remove_hole lt x y grid r) -> In e grid.
Proof.
  unfold remove_hole. generalize (flat_map (fun i => map (pair i) (array_range_search lt y (y_min r) (y_max r))) (array_range_search lt x (x_min r) (x_max r))).
  intros l. revert grid. induction l as [|ij l IH]; intros grid H; [exact H|]. cbn [fold_left] in H.
  destruct (find (same_key ij) grid) as [e0|]; [|apply IH, H]. destruct (belongs r (snd e0)); [|apply IH, H]. apply IH in H. apply filter_In in H as [H _]. exact H.
Qed.
Lemma key_inj ny k k' : (k / (ny + 2), k mod (ny + 2)) = (k' / (ny + 2), k' mod (ny + 2)) -> k = k'.
Proof.
  intros E. apply pair_equal_spec in E as [E1 E2]. rewrite (Nat.div_mod_eq k (ny + 2)), (Nat.div_mod_eq k' (ny + 2)). congruence.
Qed.
Lemma grid_keys {T} (x y : list T) ny inside vertex e e' : In e (grid_triangulation_points x y ny inside vertex) -> In e' (grid_triangulation_points x y ny inside vertex) -> fst e = fst e' -> e = e'.
Proof.
  unfold grid_triangulation_points. intros A B E. apply in_map_iff in A as ([k p] & <- & A). apply in_map_iff in B as ([k' p'] & <- & B). cbn [fst snd] in *.
  apply filter_In in A as [A _]. apply filter_In in B as [B _]. apply combine_seq_in in A as [_ A]. apply combine_seq_in in B as [_ B]. apply key_inj in E. subst k'. congruence.
Qed.
Lemma in_snake {T} (x y : list T) p : In p (snake x y) <-> In (fst p) x /\ In (snd p) y.
Proof.
  unfold snake. rewrite in_flat_map. split.
  - intros ([i yi] & I1 & H). cbn [fst snd] in H. apply in_map_iff in H as (xi & <- & X). cbn [fst snd]. split; [destruct (Nat.even i); [exact X|apply in_rev, X]|].
    apply combine_seq_in in I1 as [_ I1]. eapply nth_error_In, I1.
  - intros [X Y]. apply In_nth_error in Y as (i & Y). exists (i, snd p). split; [apply combine_seq_in; rewrite Nat.sub_0_r; split; [lia|exact Y]|]. cbn [fst snd].
    apply in_map_iff. exists (fst p). split; [destruct p; reflexivity|]. destruct (Nat.even i); [exact X|rewrite <- in_rev; exact X].
Qed.
Lemma grid_points_in {T} (x y : list T) ny inside vertex p : In p (map snd (grid_triangulation_points x y ny inside vertex)) <-> In (fst p) x /\ In (snd p) y /\ inside p = true /\ vertex p = false.
Proof.
  unfold grid_triangulation_points. rewrite map_map. cbn [snd]. rewrite in_map_iff. split.
  - intros ([k q] & <- & H). cbn [snd]. apply filter_In in H as [H K]. cbn [snd] in K. apply andb_true_iff in K as [K1 K2]. apply negb_true_iff in K2.
    apply in_combine_r in H. apply in_snake in H as [H1 H2]. auto.
  - intros (X & Y & A & B). assert (S1 := proj2 (in_snake x y p) (conj X Y)). apply In_nth_error in S1 as (k & S1). exists (k, p). split; [reflexivity|]. apply filter_In. split.
    + apply combine_seq_in. rewrite Nat.sub_0_r. split; [lia|exact S1].
    + cbn [snd]. rewrite A, B. reflexivity.
Qed.
(** every point kept is a node inside the surface, and a node outside all the holes is kept *)
Lemma surface_grid_sound {T} (lt : T -> T -> bool) x y ny inside vertex holes p : In p (surface_grid_points lt x y ny inside vertex holes) ->
  In (fst p) x /\ In (snd p) y /\ inside p = true /\ vertex p = false.
Proof.
  unfold surface_grid_points. intros H. apply (grid_points_in x y ny). revert H. generalize (grid_triangulation_points x y ny inside vertex). induction holes as [|r holes IH]; intros g H; [exact H|].
  cbn [fold_left] in H. apply IH in H. apply in_map_iff in H as (e & <- & H). apply in_map. eapply remove_sub, H.
Qed.
Lemma surface_grid_keeps {T} (lt : T -> T -> bool) x y ny inside vertex holes p : In (fst p) x -> In (snd p) y -> inside p = true -> vertex p = false -> outside holes p = true ->
  In p (surface_grid_points lt x y ny inside vertex holes).
Proof.
  intros X Y A B. unfold surface_grid_points. assert (G := proj2 (grid_points_in x y ny inside vertex p) (conj X (conj Y (conj A B)))).
  assert (U := @grid_keys T x y ny inside vertex). revert G U. generalize (grid_triangulation_points x y ny inside vertex). induction holes as [|r holes IH]; intros g G U Q; [exact G|].
  cbn [fold_left]. cbn [outside forallb] in Q. apply andb_true_iff in Q as [Q1 Q2]. apply negb_true_iff in Q1. apply in_map_iff in G as (e & <- & G).
  destruct (remove_hole_keeps lt x y r g e G Q1 U) as [K S1]. apply IH; [apply in_map, K| |exact Q2].
  intros a b Ia Ib. apply U; apply S1; assumption.
Qed.
Lemma surface_grid_refuted : exists (x y : list Z) inside vertex (hole : @region Z) p, ascending Z.ltb x /\ ascending Z.ltb y /\ length x = 2 + 2 /\ length y = 2 + 2 /\ in_bounds Z.ltb hole /\
  In p (surface_grid_points Z.ltb x y 2 inside vertex [hole]) /\ belongs hole p = true.
Proof.
  set (box := fun a b c d (p : Z * Z) => ((a <=? fst p) && (fst p <=? b) && (c <=? snd p) && (snd p <=? d))%Z).
  exists [0; 2; 4; 6]%Z, [0; 2; 4; 6]%Z, (box 0 6 0 6)%Z, (fun _ => false), (Region 1 3 3 5 (box 1 3 3 5))%Z, (2, 4)%Z.
  assert (A : ascending Z.ltb [0; 2; 4; 6]%Z).
  { intros i j a b L A B. apply Z.ltb_ge. do 4 (destruct i as [|i]; [do 4 (destruct j as [|j]; [cbn in A, B; injection A as <-; injection B as <-; lia|]); destruct j; discriminate B|]). destruct i; discriminate A. }
  split; [exact A|]. split; [exact A|]. split; [reflexivity|]. split; [reflexivity|]. split.
  - intros [a b] H. cbn in *. unfold box in H. cbn in H. rewrite !andb_true_iff, !Z.leb_le in H. unfold between. rewrite !Z.ltb_ge. lia.
  - split; [|reflexivity]. vm_compute. tauto.
Qed.
Lemma number_order_Z : number_order Z.ltb.
Proof. constructor; intros *; rewrite ?Z.ltb_lt, ?Z.ltb_ge; lia. Qed.
Lemma ascending_even : ascending Z.ltb [0; 2; 4; 6]%Z.
Proof. intros i j a b L A B. apply Z.ltb_ge. do 4 (destruct i as [|i]; [do 4 (destruct j as [|j]; [cbn in A, B; injection A as <-; injection B as <-; lia|]); destruct j; discriminate B|]). destruct i; discriminate A. Qed.
