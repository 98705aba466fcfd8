From Verif.Model Require Import Base FloodFill VoxelMatrix Octree.
From Verif.Spec Require Import OctreeSpec.
From Verif.Proofs Require Import FloodFillP VoxelP OctreeP.
From Coq Require Import Lia.
Open Scope Z_scope.
Lemma Ok_inj {A} (x y : A) : Ok x = Ok y -> x = y. Proof. congruence. Qed.

Lemma even_half v : 0 < v -> Z.even v = true -> exists w, v = 2 * w /\ 0 < w.
Proof. intros H E. apply Z.even_spec in E as [w ->]. exists w. split; lia. Qed.
Definition opp_octant (o : pt3) : pt3 := let '(i, j, k) := o in (1 - i, 1 - j, 1 - k).
Lemma opp_in o : In o octants -> In (opp_octant o) octants. Proof. intros Ho. octcase o Ho; cbn; tauto. Qed.
Lemma opp_index o : In o octants -> oindex (opp_octant o) = (7 - oindex o)%nat. Proof. intros Ho. octcase o Ho; reflexivity. Qed.
Definition lifted (k : nat -> node) : node :=
  let e := Leafs [] in
  Kids [Kids [e; e; e; e; e; e; e; k 0%nat]; Kids [e; e; e; e; e; e; k 1%nat; e];
        Kids [e; e; e; e; e; k 2%nat; e; e]; Kids [e; e; e; e; k 3%nat; e; e; e];
        Kids [e; e; e; k 4%nat; e; e; e; e]; Kids [e; e; k 5%nat; e; e; e; e; e];
        Kids [e; k 6%nat; e; e; e; e; e; e]; Kids [k 7%nat; e; e; e; e; e; e; e]].
Lemma lifted_kid k o o' : In o octants -> In o' octants -> kid (kid (lifted k) (oindex o)) (oindex o') = if (oindex o + oindex o' =? 7)%nat then k (oindex o) else Leafs [].
Proof. intros Ho Ho'. octcase o Ho; octcase o' Ho'; reflexivity. Qed.
Lemma cc_opp w m c o : In o octants -> cc w m (cc w (S m) c o) (opp_octant o) = cc w m c o.
Proof. intros Ho. destruct c as [[x y] z]. unfold cc. rewrite pow_S. octcase o Ho; cbn [opp_octant]; repeat apply (f_equal2 pair); ring. Qed.
Lemma octant_opp w m c p : 0 < w -> near (w * (2 ^ Z.of_nat (S m) - 1)) c p -> octant_of (cc w (S m) c (octant_of c p)) p = opp_octant (octant_of c p).
Proof.
  intros Hw. destruct c as [[cx cy] cz], p as [[x y] z]. unfold near. intros (A & B & C). unfold octant_of, cc. pose proof (pow_pos (S m)). set (e := 2 ^ Z.of_nat (S m)) in *. assert (0 < w * e) by nia.
  destruct (Z.ltb_spec cx x), (Z.ltb_spec cy y), (Z.ltb_spec cz z); cbn [opp_octant]; try change (2 * 0 - 1) with (-1); try change (2 * 1 - 1) with 1; repeat apply (f_equal2 pair);
  match goal with |- (if ?a <? ?b then _ else _) = _ => destruct (Z.ltb_spec a b); lia end.
Qed.
Lemma E_lift w m c t p : 0 < w -> E w (S (S m)) c (lifted (kid t)) p = E w (S m) c t p.
Proof.
  intros Hw. cbn [E]. set (o := octant_of c p). assert (Ho : In o octants) by apply octant_of_in. set (o' := octant_of (cc w (S m) c o) p). assert (Ho' : In o' octants) by apply octant_of_in.
  rewrite lifted_kid by assumption. destruct (Nat.eqb_spec (oindex o + oindex o') 7) as [H|H].
  - assert (o' = opp_octant o) as -> by (apply oindex_inj; [assumption|apply opp_in; assumption|rewrite opp_index by assumption; lia]). rewrite cc_opp by assumption. reflexivity.
  - rewrite E_nil. destruct (E w m (cc w m c o) (kid t (oindex o)) p) eqn:X; [reflexivity|]. exfalso. apply H.
    assert (N : near (w * (2 ^ Z.of_nat (S m) - 1)) c p). { assert (Y : E w m (cc w m c o) (kid t (oindex o)) p <> []) by congruence. apply E_near in Y; [|assumption]. apply near_cc in Y; [apply Y|assumption|assumption]. }
    pose proof (octant_opp w m c p Hw N) as Q. fold o in Q. fold o' in Q. rewrite Q, opp_index by assumption. pose proof (oindex_lt o Ho). lia.
Qed.
Lemma kid_any m t i : node_of_height (S m) t -> kid t i = Leafs [] \/ node_of_height m (kid t i).
Proof.
  intros (l & -> & Hl & F). cbn [kid]. rewrite Forall_forall in F. destruct (Nat.lt_ge_cases i (length l)) as [Hi|Hi]; [apply F, nth_In; assumption|left; apply nth_overflow; assumption].
Qed.
Lemma lift_height m t : node_of_height (S m) t -> node_of_height (S (S m)) (lifted (kid t)).
Proof.
  intros H. eexists. split; [reflexivity|]. split; [reflexivity|].
  repeat (apply Forall_cons; [right; eexists; split; [reflexivity|]; split; [reflexivity|]; repeat (apply Forall_cons; [first [left; reflexivity|apply kid_any; assumption]|]); apply Forall_nil|]). apply Forall_nil.
Qed.
Lemma voxel_entries_E {T} (a : octree T) w p : o_size a = 2 * w -> voxel_entries a p = E w (o_depth a) (o_center a) (o_tree a) p.
Proof. intros H. unfold voxel_entries. rewrite H. apply entries_E. Qed.
Lemma increment_spec {T} (a : octree T) : valid_octree a -> exists b, increment a = Ok b /\ valid_octree b /\ o_depth b = S (o_depth a) /\ o_size b = o_size a /\ o_triangles b = o_triangles a /\ (forall p, voxel_entries b p = voxel_entries a p).
Proof.
  intros (H1 & H2 & H3 & H4 & H5). unfold increment. rewrite H5. cbn [negb eqb3 eqb2 origin3 fst snd]. change (eqb3 origin3 origin3) with true. cbn [negb]. eexists. split; [reflexivity|].
  destruct (even_half _ H1 H2) as (w & Hw & Hp). destruct (o_depth a) as [|m] eqn:Ed; [lia|]. repeat split; cbn [o_size o_depth o_tree o_center o_triangles]; try assumption; try lia.
  - change (node_of_height (S (S m)) (lifted (kid (o_tree a)))). apply lift_height. assumption.
  - intros p. rewrite (voxel_entries_E _ w) by exact Hw. rewrite (voxel_entries_E a w) by exact Hw. cbn [o_depth o_center o_tree]. rewrite Ed, H5. apply (E_lift w m origin3 (o_tree a) p Hp).
Qed.
Lemma grow_spec {T} n : forall (a : octree T), valid_octree a -> exists b, grow n a = Ok b /\ valid_octree b /\ o_depth b = (n + o_depth a)%nat /\ o_size b = o_size a /\ o_triangles b = o_triangles a /\ (forall p, voxel_entries b p = voxel_entries a p).
Proof.
  induction n as [|n IH]; intros a V; cbn [grow]; [exists a; repeat split; try reflexivity; apply V|]. destruct (increment_spec a V) as (b & -> & Vb & Db & Sb & Tb & Eb). cbn [bind].
  destruct (IH b Vb) as (d & -> & Vd & Dd & Sd & Td & Ed). exists d. split; [reflexivity|]. split; [assumption|]. split; [lia|]. split; [congruence|]. split; [congruence|]. intros p. rewrite Ed. apply Eb.
Qed.
Lemma op_spec {T} (rec : nat -> Z -> node -> node -> node) f (tr : list T -> list T -> list T) :
  (forall w k n c a b p, (1 <= n)%nat -> ok n a -> ok n b -> E w n c (rec n k a b) p = f k (E w n c a p) (E w n c b p)) ->
  (forall k n a b, node_of_height n a -> node_of_height n b -> node_of_height n (rec n k a b)) ->
  forall a b, valid_octree a -> valid_octree b ->
  (o_size a <> o_size b -> octree_op rec tr a b = Err ValueError) /\
  (o_size a = o_size b -> exists u, octree_op rec tr a b = Ok u /\ valid_octree u /\ o_size u = o_size a /\ o_triangles u = tr (o_triangles a) (o_triangles b) /\
     forall p, voxel_entries u p = f (Z.of_nat (length (o_triangles a))) (voxel_entries a p) (voxel_entries b p)).
Proof.
  intros HE HH a b Va Vb. unfold octree_op, same_depth. split.
  - intros N. apply Z.eqb_neq in N. rewrite N. reflexivity.
  - intros S. rewrite (proj2 (Z.eqb_eq _ _) S). cbn [negb].
    destruct (grow_spec (o_depth b - o_depth a) a Va) as (a2 & -> & Va2 & Da & Sa & Ta & Ea). cbn [bind].
    destruct (grow_spec (o_depth a2 - o_depth b) b Vb) as (b2 & -> & Vb2 & Db & Sb & Tb & Eb). cbn [bind]. eexists. split; [reflexivity|].
    assert (Dep : o_depth b2 = o_depth a2) by lia. destruct Va2 as (H1 & H2 & H3 & H4 & H5). destruct Vb2 as (K1 & K2 & K3 & K4 & K5). rewrite Dep in K4.
    destruct (even_half _ H1 H2) as (w & Hw & Hp). split; [repeat split; cbn [o_size o_depth o_tree o_center]; try assumption; apply HH; assumption|]. split; [exact Sa|]. split; [reflexivity|].
    intros p. rewrite <- Ea, <- Eb, <- Ta. rewrite !(voxel_entries_E _ w) by (cbn [o_size]; congruence). cbn [o_depth o_center o_tree]. rewrite Dep, H5, K5. apply HE; [assumption|apply height_ok; assumption|apply height_ok; assumption].
Qed.
Lemma centers_entries {T} (a : octree T) p : valid_octree a -> In p (octree_centers a) <-> voxel_entries a p <> [].
Proof.
  intros (H1 & H2 & H3 & H4 & H5). destruct (even_half _ H1 H2) as (w & Hw & Hp). rewrite (voxel_entries_E a w) by exact Hw. unfold octree_centers. rewrite Hw. apply (centers_E w); [assumption|assumption|apply height_ok; assumption].
Qed.
(** The four operations: triangle indices (C14) *)
Lemma union_entries {T} (a b : octree T) : valid_octree a -> valid_octree b -> o_size a = o_size b -> exists u, octree_union a b = Ok u /\ valid_octree u /\ o_size u = o_size a /\ o_triangles u = (o_triangles a ++ o_triangles b)%list /\
  forall p, voxel_entries u p = (voxel_entries a p ++ map (fun i => i + Z.of_nat (length (o_triangles a))) (voxel_entries b p))%list.
Proof.
  intros Va Vb S. destruct (op_spec rec_union (fun k x y => x ++ map (fun i => i + k) y)%list (fun x y : list T => x ++ y)%list) with (a := a) (b := b) as [_ H]; try assumption.
  - intros. apply E_union.
  - intros. apply union_height; assumption.
  - exact (H S).
Qed.
Lemma intersection_entries {T} (a b : octree T) : valid_octree a -> valid_octree b -> o_size a = o_size b -> exists u, octree_intersection a b = Ok u /\ valid_octree u /\ o_size u = o_size a /\ o_triangles u = (o_triangles a ++ o_triangles b)%list /\
  forall p, (voxel_entries a p = [] \/ voxel_entries b p = [] -> voxel_entries u p = []) /\
    (voxel_entries a p <> [] -> voxel_entries b p <> [] -> voxel_entries u p = (voxel_entries a p ++ map (fun i => i + Z.of_nat (length (o_triangles a))) (voxel_entries b p))%list).
Proof.
  intros Va Vb S. destruct (op_spec rec_intersection (fun k x y => if isnil x || isnil y then [] else (x ++ map (fun i => i + k) y)%list) (fun x y : list T => x ++ y)%list) with (a := a) (b := b) as [_ H]; try assumption.
  - intros. apply E_intersection; [assumption|assumption|lia].
  - intros. apply intersection_height; assumption.
  - destruct (H S) as (u & H1 & H2 & H3 & H4 & H5). exists u. split; [assumption|]. split; [assumption|]. split; [assumption|]. split; [assumption|]. intros p. rewrite H5. destruct (voxel_entries a p), (voxel_entries b p); cbn [isnil orb]; split; intros; try reflexivity; try congruence. destruct H0; discriminate.
Qed.
Lemma difference_entries {T} (a b : octree T) : valid_octree a -> valid_octree b -> o_size a = o_size b -> exists u, octree_difference a b = Ok u /\ valid_octree u /\ o_size u = o_size a /\ o_triangles u = o_triangles a /\
  forall p, (voxel_entries b p = [] -> voxel_entries u p = voxel_entries a p) /\ (voxel_entries b p <> [] -> voxel_entries u p = []).
Proof.
  intros Va Vb S. destruct (op_spec rec_difference (fun k x y => if isnil y then x else []) (fun x _ : list T => x)) with (a := a) (b := b) as [_ H]; try assumption.
  - intros. apply E_difference; assumption.
  - intros. apply difference_height; assumption.
  - destruct (H S) as (u & H1 & H2 & H3 & H4 & H5). exists u. split; [assumption|]. split; [assumption|]. split; [assumption|]. split; [assumption|]. intros p. rewrite H5. destruct (voxel_entries b p); cbn [isnil]; split; intros; try reflexivity; try congruence.
Qed.
Lemma symmetric_entries {T} (a b : octree T) : valid_octree a -> valid_octree b -> o_size a = o_size b -> exists u, octree_symmetric a b = Ok u /\ valid_octree u /\ o_size u = o_size a /\ o_triangles u = (o_triangles a ++ o_triangles b)%list /\
  forall p, (voxel_entries b p = [] -> voxel_entries u p = voxel_entries a p) /\
    (voxel_entries a p = [] -> voxel_entries u p = map (fun i => i + Z.of_nat (length (o_triangles a))) (voxel_entries b p)) /\
    (voxel_entries a p <> [] -> voxel_entries b p <> [] -> voxel_entries u p = []).
Proof.
  intros Va Vb S. destruct (op_spec rec_symmetric (fun k x y => if isnil y then x else if isnil x then map (fun i => i + k) y else []) (fun x y : list T => x ++ y)%list) with (a := a) (b := b) as [_ H]; try assumption.
  - intros. apply E_symmetric; assumption.
  - intros. apply symmetric_height; assumption.
  - destruct (H S) as (u & H1 & H2 & H3 & H4 & H5). exists u. split; [assumption|]. split; [assumption|]. split; [assumption|]. split; [assumption|]. intros p. rewrite H5. destruct (voxel_entries a p), (voxel_entries b p); cbn [isnil]; repeat split; intros; try reflexivity; try congruence.
Qed.
Lemma op_size_error {T} (a b : octree T) : o_size a <> o_size b ->
  octree_union a b = Err ValueError /\ octree_difference a b = Err ValueError /\ octree_intersection a b = Err ValueError /\ octree_symmetric a b = Err ValueError.
Proof. intros N. apply Z.eqb_neq in N. unfold octree_union, octree_difference, octree_intersection, octree_symmetric, octree_op, same_depth. rewrite N. auto. Qed.
Lemma union_centers {T} (a b : octree T) : valid_octree a -> valid_octree b -> o_size a = o_size b -> exists u, octree_union a b = Ok u /\ valid_octree u /\ o_size u = o_size a /\
  forall p, In p (octree_centers u) <-> In p (octree_centers a) \/ In p (octree_centers b).
Proof.
  intros Va Vb S. destruct (union_entries a b Va Vb S) as (u & H1 & H2 & H3 & H4 & H5). exists u. split; [assumption|]. split; [assumption|]. split; [assumption|]. intros p. rewrite !centers_entries by assumption. rewrite H5.
  destruct (voxel_entries a p), (voxel_entries b p); cbn; split; intros X; try discriminate; try congruence; try (left; discriminate); try (right; discriminate). destruct X; congruence.
Qed.
Lemma intersection_centers {T} (a b : octree T) : valid_octree a -> valid_octree b -> o_size a = o_size b -> exists u, octree_intersection a b = Ok u /\ valid_octree u /\ o_size u = o_size a /\
  forall p, In p (octree_centers u) <-> In p (octree_centers a) /\ In p (octree_centers b).
Proof.
  intros Va Vb S. destruct (intersection_entries a b Va Vb S) as (u & H1 & H2 & H3 & H4 & H5). exists u. split; [assumption|]. split; [assumption|]. split; [assumption|]. intros p. rewrite !centers_entries by assumption. destruct (H5 p) as [H6 H7].
  destruct (voxel_entries a p) eqn:Ea, (voxel_entries b p) eqn:Eb; try (rewrite H6 by auto; split; [congruence|intros []; congruence]). rewrite H7 by discriminate. cbn. split; [split; discriminate|discriminate].
Qed.
Lemma difference_centers {T} (a b : octree T) : valid_octree a -> valid_octree b -> o_size a = o_size b -> exists u, octree_difference a b = Ok u /\ valid_octree u /\ o_size u = o_size a /\
  forall p, In p (octree_centers u) <-> In p (octree_centers a) /\ ~ In p (octree_centers b).
Proof.
  intros Va Vb S. destruct (difference_entries a b Va Vb S) as (u & H1 & H2 & H3 & H4 & H5). exists u. split; [assumption|]. split; [assumption|]. split; [assumption|]. intros p. rewrite !centers_entries by assumption. destruct (H5 p) as [H6 H7].
  destruct (voxel_entries b p) eqn:Eb; [rewrite H6 by reflexivity; split; [intros; split; [assumption|congruence]|tauto]|rewrite H7 by discriminate]. split; [congruence|intros [_ X]; exfalso; apply X; discriminate].
Qed.
Lemma symmetric_centers {T} (a b : octree T) : valid_octree a -> valid_octree b -> o_size a = o_size b -> exists u, octree_symmetric a b = Ok u /\ valid_octree u /\ o_size u = o_size a /\
  forall p, In p (octree_centers u) <-> (In p (octree_centers a) /\ ~ In p (octree_centers b)) \/ (In p (octree_centers b) /\ ~ In p (octree_centers a)).
Proof.
  intros Va Vb S. destruct (symmetric_entries a b Va Vb S) as (u & H1 & H2 & H3 & H4 & H5). exists u. split; [assumption|]. split; [assumption|]. split; [assumption|]. intros p. rewrite !centers_entries by assumption. destruct (H5 p) as (H6 & H7 & H8).
  destruct (voxel_entries a p) eqn:Ea, (voxel_entries b p) eqn:Eb.
  - rewrite H6 by reflexivity. split; [congruence|intros [[]|[]]; congruence].
  - rewrite H7 by reflexivity. cbn. split; [intros _; right; split; [discriminate|congruence]|discriminate].
  - rewrite H6 by reflexivity. split; [intros _; left; split; [discriminate|congruence]|discriminate].
  - rewrite H8 by discriminate. split; [congruence|]. intros [[_ X]|[_ X]]; exfalso; apply X; discriminate.
Qed.
(** Indexing the triangles of the union gives the original triangles. *)
Lemma union_triangles {T} (a b : octree T) u d : valid_octree a -> valid_octree b -> octree_union a b = Ok u ->
  (forall p i, In i (voxel_entries a p) -> 0 <= i < Z.of_nat (length (o_triangles a))) -> (forall p i, In i (voxel_entries b p) -> 0 <= i) ->
  forall p, map (fun i => nth (Z.to_nat i) (o_triangles u) d) (voxel_entries u p) =
    (map (fun i => nth (Z.to_nat i) (o_triangles a) d) (voxel_entries a p) ++ map (fun i => nth (Z.to_nat i) (o_triangles b) d) (voxel_entries b p))%list.
Proof.
  intros Va Vb Hu Ia Ib p. destruct (Z.eq_dec (o_size a) (o_size b)) as [S|N]; [|destruct (op_size_error a b N) as [X _]; congruence].
  destruct (union_entries a b Va Vb S) as (u' & H1 & _ & _ & H4 & H5). rewrite Hu in H1. apply Ok_inj in H1. subst u'. rewrite H4, H5, map_app, map_map. apply (f_equal2 (@app T)); apply map_ext_in; intros i Hi.
  - apply app_nth1. apply Ia in Hi. lia.
  - apply Ib in Hi. rewrite app_nth2 by lia. f_equal. lia.
Qed.
(** A root that is not at the origin is moved there. *)
Lemma union_moves_root : exists a b u : octree unit, o_size a = o_size b /\ o_depth a = o_depth b /\ o_center a = o_center b /\ octree_union a b = Ok u /\
  exists p, In p (octree_centers a) /\ ~ In p (octree_centers u).
Proof.
  pose (t := Kids [Leafs [1]; Leafs []; Leafs []; Leafs []; Leafs []; Leafs []; Leafs []; Leafs []]). exists (Octree t (10, 0, 0) 1 2 []), (Octree t (10, 0, 0) 1 2 []). eexists.
  split; [reflexivity|]. split; [reflexivity|]. split; [reflexivity|]. split; [reflexivity|]. exists (9, -1, -1). vm_compute. split; [tauto|]. intros [X|[]]. congruence.
Qed.

(** C11 *)
Definition ongrid (w : Z) (n : nat) (c p : pt3) : Prop :=
  let on cx x := exists k, 0 <= k < 2 ^ Z.of_nat n /\ x = cx - w * (2 ^ Z.of_nat n - 1) + 2 * w * k in
  let '(cx, cy, cz) := c in let '(x, y, z) := p in on cx x /\ on cy y /\ on cz z.
Lemma on_child w m cx x : 0 < w -> (exists k, 0 <= k < 2 ^ Z.of_nat (S m) /\ x = cx - w * (2 ^ Z.of_nat (S m) - 1) + 2 * w * k) ->
  exists k, 0 <= k < 2 ^ Z.of_nat m /\ x = (cx + (2 * (if cx <? x then 1 else 0) - 1) * (w * 2 ^ Z.of_nat m)) - w * (2 ^ Z.of_nat m - 1) + 2 * w * k.
Proof.
  intros Hw (k & Hk & Hx). rewrite pow_S in *. set (e := 2 ^ Z.of_nat m) in *. destruct (Z.ltb_spec cx x) as [H|H].
  - exists (k - e). split; [|nia]. split; [|lia]. assert (w * (2 * k - 2 * e + 1) > 0) by nia. nia.
  - exists k. split; [|nia]. split; [lia|]. assert (w * (2 * k - 2 * e + 1) <= 0) by nia. nia.
Qed.
Lemma ongrid_child w m c p : 0 < w -> ongrid w (S m) c p -> ongrid w m (cc w m c (octant_of c p)) p.
Proof. intros Hw. destruct c as [[cx cy] cz], p as [[x y] z]. unfold ongrid. cbn [octant_of cc]. intros (A & B & C). repeat split; apply on_child; assumption. Qed.
Lemma subdivide_E w n : 0 < w -> forall c pts p, pts <> [] -> Forall (ongrid w n c) pts -> E w n c (subdivide_points n (2 * w) c pts) p = if existsb (eqb3 p) pts then [1] else [].
Proof.
  intros Hw. induction n as [|m IH]; intros c pts p Hne F.
  - cbn [E subdivide_points indices]. assert (A : forall q, In q pts -> q = c).
    { intros q Hq. rewrite Forall_forall in F. specialize (F q Hq). destruct c as [[cx cy] cz], q as [[x y] z]. cbn in F. destruct F as ((k1 & A1 & ->) & (k2 & A2 & ->) & (k3 & A3 & ->)). change (2 ^ Z.of_nat 0) with 1 in *. assert (k1 = 0) by lia. assert (k2 = 0) by lia. assert (k3 = 0) by lia. subst. repeat apply (f_equal2 pair); lia. }
    destruct (eqb3 p c) eqn:X.
    + apply eqb3_spec in X. subst. replace (existsb (eqb3 c) pts) with true; [reflexivity|]. symmetry. apply existsb_exists. destruct pts as [|q pts]; [congruence|]. exists q. split; [left; reflexivity|]. rewrite (A q) by (left; reflexivity). apply eqb3_refl.
    + destruct (existsb (eqb3 p) pts) eqn:Y; [|reflexivity]. apply existsb_exists in Y as (q & Hq & Y). apply eqb3_spec in Y. subst q. rewrite (A p Hq), eqb3_refl in X. discriminate.
  - cbn [E subdivide_points].
    set (f := fun o => let pts0 := filter (fun p => (oindex (octant_of c p) =? oindex o)%nat) pts in match pts0 with [] => Leafs [] | _ => subdivide_points m (2 * w) (sub_center c (2 * w * 2 ^ Z.of_nat m) o) pts0 end).
    assert (K : E w m (cc w m c (octant_of c p)) (kid (if forallb (fun s => negb (truthy s)) (map f octants) then Leafs [] else Kids (map f octants)) (oindex (octant_of c p))) p = E w m (cc w m c (octant_of c p)) (f (octant_of c p)) p).
    { destruct (forallb (fun s => negb (truthy s)) (map f octants)) eqn:X; [|rewrite kid_map by apply octant_of_in; reflexivity]. cbn [kid]. rewrite E_nil. rewrite E_falsy; [reflexivity|].
      rewrite forallb_forall in X. apply negb_true_iff. apply X. apply in_map. apply octant_of_in. }
    rewrite K. clear K. subst f. cbv beta zeta. set (o := octant_of c p).
    destruct (filter (fun q => (oindex (octant_of c q) =? oindex o)%nat) pts) as [|q0 l0] eqn:Fl.
    + rewrite E_nil. destruct (existsb (eqb3 p) pts) eqn:Y; [|reflexivity]. apply existsb_exists in Y as (q & Hq & Y). apply eqb3_spec in Y. subst q.
      assert (In p (filter (fun q => (oindex (octant_of c q) =? oindex o)%nat) pts)) by (apply filter_In; split; [assumption|apply Nat.eqb_refl]). rewrite Fl in H. destruct H.
    + rewrite <- Fl, sub_center_cc. rewrite IH.
      * assert (X : existsb (eqb3 p) (filter (fun q => (oindex (octant_of c q) =? oindex o)%nat) pts) = existsb (eqb3 p) pts); [|rewrite X; reflexivity].
        apply eq_true_iff_eq. rewrite !existsb_exists. split; intros (q & Hq & Y); exists q; (split; [|exact Y]); [apply filter_In in Hq; apply Hq|]. apply eqb3_spec in Y. subst q. apply filter_In. split; [assumption|apply Nat.eqb_refl].
      * rewrite Fl. discriminate.
      * rewrite Forall_forall in *. intros q Hq. apply filter_In in Hq as [Hq Ho]. apply Nat.eqb_eq in Ho. apply oindex_inj in Ho; [|apply octant_of_in|apply octant_of_in]. fold o. rewrite <- Ho. apply ongrid_child; [assumption|apply F; assumption].
Qed.
Lemma subdivide_height v n : forall c pts, subdivide_points n v c pts = Leafs [] \/ node_of_height n (subdivide_points n v c pts).
Proof.
  induction n as [|m IH]; intros c pts; [right; eexists; reflexivity|]. cbn [subdivide_points]. match goal with |- context [if ?b then _ else _] => destruct b end; [left; reflexivity|]. right. apply kids_height. intros o. cbv zeta. destruct (filter _ pts); [left; reflexivity|apply IH].
Qed.
Lemma from_points_spec {T} (pts : list pt3) v : 0 < v -> Z.even v = true -> pts <> [] -> Forall (grid_center v) pts ->
  exists a : octree T, octree_from_points pts v = Ok a /\ valid_octree a /\ o_size a = v /\ forall p, In p (octree_centers a) <-> In p pts.
Proof.
  intros Hv He Hne F. destruct (even_half v Hv He) as (w & -> & Hw). unfold octree_from_points. cbv zeta.
  match goal with |- context [flat_map ?f pts] => set (coords := flat_map f pts) end.
  assert (C : forall x y z, In (x, y, z) pts -> In x coords /\ In y coords /\ In z coords).
  { intros x y z H. unfold coords. repeat split; apply in_flat_map; exists (x, y, z); cbn; tauto. }
  destruct coords as [|a l] eqn:Ec. { destruct pts as [|[[x y] z] pts]; [congruence|]. destruct (C x y z) as [[] _]. left; reflexivity. }
  destruct (lmin_map (fun x => x) a l) as [(qm & Im & Em) Hm]. destruct (lmax_map (fun x => x) a l) as [(qM & IM & EM) HM]. rewrite map_id in *.
  set (mn := lmin a l) in *. set (mx := lmax a l) in *. set (M := Z.max (Z.abs (mn / (2 * w) - 2)) (Z.abs (mx / (2 * w) + 2))).
  assert (Lmx : mn <= mx) by (transitivity a; [apply Hm|apply HM]; left; reflexivity).
  assert (R : Z.max (Z.abs ((mn / (2 * w) - 2) * (2 * w))) (Z.abs ((mx / (2 * w) + 2) * (2 * w))) * 2 / (2 * w) = 2 * M).
  { rewrite (Z.abs_mul (mn / (2 * w) - 2) (2 * w)), (Z.abs_mul (mx / (2 * w) + 2) (2 * w)). rewrite (Z.abs_eq (2 * w)) by lia. rewrite Z.mul_max_distr_nonneg_r by lia. fold M. replace (M * (2 * w) * 2) with (2 * M * (2 * w)) by ring. apply Z.div_mul. lia. }
  rewrite R. set (d := Z.to_nat (Z.log2_up (2 * M))).
  assert (Hdiv : mn / (2 * w) <= mx / (2 * w)) by (apply Z.div_le_mono; lia).
  assert (HM2 : 2 <= M) by (unfold M; clear - Hdiv; generalize dependent (mx / (2 * w)); generalize (mn / (2 * w)); intros; lia).
  assert (Hlog : 2 * M <= 2 ^ Z.of_nat d). { unfold d. rewrite Z2Nat.id by apply Z.log2_up_nonneg. apply Z.log2_up_spec. lia. }
  clearbody d. assert (Hd : (1 <= d)%nat). { destruct d; [change (2 ^ Z.of_nat 0) with 1 in Hlog; clear - Hlog HM2; lia|lia]. }
  destruct d as [|m]; [lia|]. rewrite pow_S in Hlog.
  assert (G : Forall (ongrid w (S m) origin3) pts).
  { rewrite Forall_forall in *. intros [[x y] z] Hp. pose proof (F _ Hp) as (Gx & Gy & Gz). destruct (C x y z Hp) as (Cx & Cy & Cz).
    assert (K : forall x, In x (a :: l) -> (exists k, 2 * x = 2 * w * (2 * k + 1)) -> exists k, 0 <= k < 2 ^ Z.of_nat (S m) /\ x = 0 - w * (2 ^ Z.of_nat (S m) - 1) + 2 * w * k).
    { clear - Hw Hm HM Hlog M. intros x Hx (k & Hk). rewrite pow_S. set (e := 2 ^ Z.of_nat m) in *. exists (k + e).
      assert (Hxk : x / (2 * w) = k) by (symmetry; apply Z.div_unique with w; lia).
      assert (mn / (2 * w) <= k) by (rewrite <- Hxk; apply Z.div_le_mono; [lia|apply Hm; assumption]). assert (k <= mx / (2 * w)) by (rewrite <- Hxk; apply Z.div_le_mono; [lia|apply HM; assumption]).
      assert (M <= e) by lia. unfold M in *. split; [lia|nia]. }
    repeat split; apply K; assumption. }
  eexists. split; [reflexivity|].
  assert (V : valid_octree (Octree (T := T) (subdivide_points (S m) (2 * w) origin3 pts) origin3 (S m) (2 * w) [])).
  { repeat split; cbn [o_size o_depth o_tree]; try assumption; try lia. destruct (subdivide_height (2 * w) (S m) origin3 pts) as [X|X]; [|exact X]. exfalso.
    destruct pts as [|q pts]; [congruence|]. pose proof (subdivide_E w (S m) Hw origin3 (q :: pts) q Hne G) as Y. rewrite X, E_nil in Y. cbn [existsb] in Y. rewrite eqb3_refl in Y. discriminate. }
  split; [exact V|]. split; [reflexivity|]. intros p. rewrite centers_entries by exact V. rewrite (voxel_entries_E _ w) by reflexivity. cbn [o_depth o_center o_tree]. rewrite subdivide_E by assumption.
  destruct (existsb (eqb3 p) pts) eqn:Y.
  - split; [|discriminate]. intros _. apply existsb_exists in Y as (q & Hq & Y). apply eqb3_spec in Y. subst. assumption.
  - split; [congruence|]. intros Hp. exfalso. assert (existsb (eqb3 p) pts = true) by (apply existsb_exists; exists p; split; [assumption|apply eqb3_refl]). congruence.
Qed.
