From Verif.Model Require Import Base FloodFill VoxelMatrix VoxelDisplay.
From Verif.Spec Require Import GridSpec VoxelSpec VoxelDisplaySpec.
From Verif.Proofs Require Import FloodFillP VoxelP.
From Coq Require Import Lia Ring Arith.
Open Scope Z_scope.

Lemma tri_eqb_spec s t : tri_eqb s t = true <-> s = t.
Proof.
  destruct s as [[a b] c], t as [[a' b'] c']. unfold tri_eqb. cbn [fst snd].
  rewrite !andb_true_iff, !eqb3_spec. split; [intros [[-> ->] ->]; reflexivity|intros E; injection E; auto].
Qed.
Lemma tri_eqb_refl s : tri_eqb s s = true. Proof. apply tri_eqb_spec. reflexivity. Qed.
Lemma tri_eqb_neq s t : s <> t -> tri_eqb s t = false.
Proof. intros H. destruct (tri_eqb s t) eqn:E; [|reflexivity]. apply tri_eqb_spec in E. contradiction. Qed.

Definition memb (t : tri) (s : list tri) : bool := existsb (tri_eqb t) s.
Lemma memb_In t s : memb t s = true <-> In t s.
Proof.
  unfold memb. rewrite existsb_exists. split.
  - intros (u & Hu & E). apply tri_eqb_spec in E. subst. exact Hu.
  - intros H. exists t. split; [exact H|apply tri_eqb_refl].
Qed.
Definition parity (t : tri) (l : list tri) : bool := fold_right (fun u b => xorb (tri_eqb t u) b) false l.

Lemma memb_toggle t s u : memb t (toggle s u) = xorb (memb t s) (tri_eqb t u).
Proof.
  unfold toggle. fold (memb u s). destruct (memb u s) eqn:Eu.
  - destruct (tri_eqb t u) eqn:E.
    + apply tri_eqb_spec in E. subst t. rewrite Eu. change (xorb true true) with false. destruct (memb u (filter _ s)) eqn:F; [|reflexivity].
      apply memb_In in F. apply filter_In in F. rewrite tri_eqb_refl in F. destruct F; discriminate.
    + rewrite xorb_false_r. apply Bool.eq_iff_eq_true. rewrite !memb_In, filter_In. split; [tauto|].
      intros H. split; [exact H|]. rewrite (tri_eqb_neq u t); [reflexivity|]. intros ->. rewrite tri_eqb_refl in E. discriminate.
  - cbn [memb existsb]. fold (memb t s). destruct (tri_eqb t u) eqn:E.
    + apply tri_eqb_spec in E. subst. rewrite Eu. reflexivity.
    + rewrite xorb_false_r. reflexivity.
Qed.
Lemma memb_fold t l : forall s, memb t (fold_left toggle l s) = xorb (memb t s) (parity t l).
Proof.
  induction l as [|u l IH]; intros s; cbn [fold_left parity fold_right]; [rewrite xorb_false_r; reflexivity|].
  rewrite IH, memb_toggle. unfold parity. apply xorb_assoc.
Qed.
Lemma toggle_NoDup s t : NoDup s -> NoDup (toggle s t).
Proof.
  intros H. unfold toggle. fold (memb t s). destruct (memb t s) eqn:E; [apply NoDup_filter; exact H|].
  constructor; [|exact H]. intros G. apply memb_In in G. congruence.
Qed.
Lemma toggles_NoDup l : forall s, NoDup s -> NoDup (fold_left toggle l s).
Proof. induction l as [|t l IH]; intros s H; [exact H|]. apply IH, toggle_NoDup, H. Qed.

Lemma to_triangles_NoDup l v : NoDup (to_triangles l v).
Proof.
  unfold to_triangles. generalize (NoDup_nil tri). generalize (@nil tri). induction l as [|c l IH]; intros s H; [exact H|].
  cbn [fold_left]. apply IH, toggles_NoDup, H.
Qed.
Definition vparity (t : tri) (v : Z) (l : list pt) : bool :=
  fold_right (fun c b => xorb (parity t (voxel_triangular_faces c v)) b) false l.
Lemma memb_to_triangles t l v : memb t (to_triangles l v) = vparity t v l.
Proof.
  unfold to_triangles. rewrite <- (xorb_false_l (vparity t v l)). change false with (memb t []) at 1.
  generalize (@nil tri). induction l as [|c l IH]; intros s; cbn [fold_left vparity fold_right]; [rewrite xorb_false_r; reflexivity|].
  rewrite IH, memb_fold. unfold vparity. apply xorb_assoc.
Qed.

Lemma rint_even a : rint_div (2 * a) 2 = a.
Proof.
  unfold rint_div. replace (2 * a) with (a * 2) by ring. rewrite Z.div_mul, Z.mod_mul by lia. reflexivity.
Qed.
Lemma corner_even h x y z a b d : corner (2 * h) (x, y, z) a b d = (x + a * h, y + b * h, z + d * h).
Proof.
  unfold corner.
  replace (2 * x + a * (2 * h)) with (2 * (x + a * h)) by ring.
  replace (2 * y + b * (2 * h)) with (2 * (y + b * h)) by ring.
  replace (2 * z + d * (2 * h)) with (2 * (z + d * h)) by ring. rewrite !rint_even. reflexivity.
Qed.

Lemma tri9 a1 a2 a3 b1 b2 b3 c1 c2 c3 a1' a2' a3' b1' b2' b3' c1' c2' c3' :
  tri_eqb (a1, a2, a3, (b1, b2, b3), (c1, c2, c3)) (a1', a2', a3', (b1', b2', b3'), (c1', c2', c3')) = true <->
  (a1 = a1' /\ a2 = a2' /\ a3 = a3') /\ (b1 = b1' /\ b2 = b2' /\ b3 = b3') /\ (c1 = c1' /\ c2 = c2' /\ c3 = c3').
Proof. unfold tri_eqb, eqb3, eqb2. cbn [fst snd]. rewrite !andb_true_iff, !Z.eqb_eq. tauto. Qed.
Ltac decide_tri :=
  repeat match goal with
  | |- context [tri_eqb ?s ?t] =>
      first [ replace (tri_eqb s t) with false by (symmetry; apply not_true_iff_false; rewrite tri9; lia)
            | replace (tri_eqb s t) with true by (symmetry; rewrite tri9; lia) ]
  end.

Lemma parity_face h d c0 t c : 0 < h -> face_triangle h d c0 t ->
  parity t (voxel_triangular_faces c (2 * h)) = xorb (eqb3 c c0) (eqb3 c (next_along (2 * h) d c0)).
Proof.
  intros Hh Ht. destruct c0 as [[x0 y0] z0], c as [[x y] z].
  unfold voxel_triangular_faces. rewrite !corner_even. unfold parity. cbn [fold_right].
  destruct (eqb3 (x, y, z) (x0, y0, z0)) eqn:E1.
  - apply eqb3_spec in E1. injection E1 as -> -> ->.
    replace (eqb3 (x0, y0, z0) (next_along (2 * h) d (x0, y0, z0))) with false.
    + destruct d; destruct Ht as [-> | ->]; decide_tri; reflexivity.
    + symmetry. apply not_true_iff_false. rewrite eqb3_spec. destruct d; unfold next_along; intros E; apply pair_equal_spec in E; destruct E as [E ?]; apply pair_equal_spec in E; lia.
  - destruct (eqb3 (x, y, z) (next_along (2 * h) d (x0, y0, z0))) eqn:E2.
    + apply eqb3_spec in E2. destruct d; unfold next_along in E2; apply pair_equal_spec in E2; destruct E2 as [E2 ->]; apply pair_equal_spec in E2; destruct E2 as [-> ->]; destruct Ht as [-> | ->]; decide_tri; reflexivity.
    + assert (N1 : ~ (x = x0 /\ y = y0 /\ z = z0)).
      { intros (-> & -> & ->). apply not_true_iff_false in E1. apply E1. apply eqb3_spec. reflexivity. }
      assert (N2 : (x, y, z) <> next_along (2 * h) d (x0, y0, z0)).
      { intros E. rewrite E in E2. apply not_true_iff_false in E2. apply E2. apply eqb3_spec. reflexivity. }
      destruct d; unfold next_along in N2;
      [ assert (N3 : ~ (x = x0 + 2 * h /\ y = y0 /\ z = z0)) by (intros (-> & -> & ->); congruence)
      | assert (N3 : ~ (x = x0 /\ y = y0 + 2 * h /\ z = z0)) by (intros (-> & -> & ->); congruence)
      | assert (N3 : ~ (x = x0 /\ y = y0 /\ z = z0 + 2 * h)) by (intros (-> & -> & ->); congruence) ];
      destruct Ht as [-> | ->]; decide_tri; reflexivity.
Qed.

Lemma parity_xor f g l : fold_right (fun c b => xorb (xorb (f c) (g c)) b) false l =
  xorb (fold_right (fun c b => xorb (f c) b) false l) (fold_right (fun (c : pt) b => xorb (g c) b) false l).
Proof. induction l as [|c l IH]; cbn [fold_right]; [reflexivity|]. rewrite IH. ring. Qed.
Lemma parity_occ c0 l : NoDup l -> fold_right (fun c b => xorb (eqb3 c c0) b) false l = mem3 c0 l.
Proof.
  induction 1 as [|c l Hn Hd IH]; [reflexivity|]. cbn [fold_right mem3 existsb]. rewrite IH. fold (mem3 c0 l).
  assert (S : eqb3 c c0 = eqb3 c0 c). { apply Bool.eq_iff_eq_true. rewrite !eqb3_spec. split; congruence. }
  rewrite S. destruct (eqb3 c0 c) eqn:E; [|apply xorb_false_l].
  apply eqb3_spec in E. subst. destruct (mem3 c l) eqn:F; [|reflexivity].
  exfalso. apply Hn. unfold mem3 in F. apply existsb_exists in F. destruct F as (d & Hd' & F). apply eqb3_spec in F. subst. exact Hd'.
Qed.
Lemma mem3_In c l : mem3 c l = true <-> In c l.
Proof.
  unfold mem3. rewrite existsb_exists. split.
  - intros (d & Hd & E). apply eqb3_spec in E. subst. exact Hd.
  - intros H. exists c. split; [exact H|]. apply eqb3_spec. reflexivity.
Qed.

Lemma to_triangles_face h l d c t : 0 < h -> NoDup l -> face_triangle h d c t ->
  (In t (to_triangles l (2 * h)) <-> (In c l /\ ~ In (next_along (2 * h) d c) l) \/ (~ In c l /\ In (next_along (2 * h) d c) l)).
Proof.
  intros Hh Hl Ht. rewrite <- memb_In, memb_to_triangles. unfold vparity.
  replace (fold_right _ false l) with (xorb (mem3 c l) (mem3 (next_along (2 * h) d c) l)).
  - rewrite <- !mem3_In. destruct (mem3 c l), (mem3 _ l); cbn; intuition congruence.
  - rewrite <- (parity_occ c l Hl), <- (parity_occ (next_along (2 * h) d c) l Hl), <- parity_xor.
    induction l as [|e l IH]; [reflexivity|]. cbn [fold_right]. rewrite (parity_face h d c t e Hh Ht). f_equal. apply IH. inversion Hl; assumption.
Qed.

Lemma parity_mem t l : parity t l = true -> In t l.
Proof.
  induction l as [|u l IH]; cbn [parity fold_right]; [discriminate|]. destruct (tri_eqb t u) eqn:E.
  - apply tri_eqb_spec in E. subst. left. reflexivity.
  - rewrite xorb_false_l. intros H. right. apply IH, H.
Qed.
Lemma to_triangles_faces h l t : 0 < h -> In t (to_triangles l (2 * h)) ->
  exists c d, face_triangle h d c t /\ (In c l \/ In (next_along (2 * h) d c) l).
Proof.
  intros Hh. rewrite <- memb_In, memb_to_triangles. induction l as [|c l IH]; cbn [vparity fold_right]; [discriminate|].
  destruct (parity t (voxel_triangular_faces c (2 * h))) eqn:E.
  - intros _. apply parity_mem in E. destruct c as [[x y] z]. unfold voxel_triangular_faces in E. rewrite !corner_even in E.
    assert (Q : exists d, face_triangle h d (x, y, z) t \/ exists c', face_triangle h d c' t /\ next_along (2 * h) d c' = (x, y, z)).
    { cbn [In] in E.
      destruct E as [<-|[<-|[<-|[<-|[<-|[<-|[<-|[<-|[<-|[<-|[<-|[<-|[]]]]]]]]]]]]];
      [exists AZ; left|exists AZ; left|exists AZ; right; exists (x, y, z - 2 * h)|exists AZ; right; exists (x, y, z - 2 * h)
      |exists AX; right; exists (x - 2 * h, y, z)|exists AX; right; exists (x - 2 * h, y, z)|exists AX; left|exists AX; left
      |exists AY; left|exists AY; left|exists AY; right; exists (x, y - 2 * h, z)|exists AY; right; exists (x, y - 2 * h, z)];
      try (split; [|unfold next_along; apply eqb3_spec; unfold eqb3, eqb2; cbn [fst snd]; lia]); unfold face_triangle;
      first [left; apply (proj1 (tri_eqb_spec _ _)); rewrite tri9; lia|right; apply (proj1 (tri_eqb_spec _ _)); rewrite tri9; lia]. }
    destruct Q as (d & [F|(c' & F & En)]).
    + exists (x, y, z), d. split; [exact F|]. left. left. reflexivity.
    + exists c', d. split; [exact F|]. right. rewrite En. left. reflexivity.
  - rewrite xorb_false_l. intros H. destruct (IH H) as (c' & d & F & G). exists c', d. split; [exact F|]. cbn [In]. tauto.
Qed.

(** * every side is shared by an even number of triangles *)
Definition sideb (p q a b : pt) : bool :=
  xorb (xorb (eqb3 a p && eqb3 b q) (eqb3 a q && eqb3 b p)) ((eqb3 a p && eqb3 b q) && (eqb3 a q && eqb3 b p)).
Definition epar (p q : pt) (t : tri) : bool :=
  let '(a, b, c) := t in xorb (sideb p q a b) (xorb (sideb p q b c) (sideb p q c a)).
Definition epars (p q : pt) (l : list tri) : bool := fold_right (fun t b => xorb (epar p q t) b) false l.

Lemma epars_remove p q t s : NoDup s -> memb t s = true ->
  epars p q (filter (fun u => negb (tri_eqb t u)) s) = xorb (epars p q s) (epar p q t).
Proof.
  induction 1 as [|u s Hn Hd IH]; [discriminate|]. cbn [memb existsb filter]. fold (memb t s).
  destruct (tri_eqb t u) eqn:E; cbn [negb].
  - apply tri_eqb_spec in E. subst u. intros _. cbn [epars fold_right]. fold (epars p q s).
    replace (filter _ s) with s; [ring|]. clear IH Hd. symmetry. induction s as [|w s IH]; [reflexivity|]. cbn [filter].
    rewrite tri_eqb_neq by (intros ->; apply Hn; left; reflexivity). cbn [negb]. f_equal. apply IH. intros G. apply Hn. right. exact G.
  - cbn [orb]. intros H. cbn [epars fold_right]. fold (epars p q s). fold (epars p q (filter (fun u => negb (tri_eqb t u)) s)). rewrite IH by exact H. ring.
Qed.
Lemma epars_toggle p q s t : NoDup s -> epars p q (toggle s t) = xorb (epars p q s) (epar p q t).
Proof.
  intros H. unfold toggle. fold (memb t s). destruct (memb t s) eqn:E; [apply epars_remove; assumption|].
  cbn [epars fold_right]. fold (epars p q s). ring.
Qed.
Lemma epars_toggles p q l : forall s, NoDup s -> epars p q (fold_left toggle l s) = xorb (epars p q s) (epars p q l).
Proof.
  induction l as [|t l IH]; intros s H; cbn [fold_left].
  - cbn. rewrite xorb_false_r. reflexivity.
  - rewrite IH by (apply toggle_NoDup, H). rewrite epars_toggle by exact H. cbn [epars fold_right]. fold (epars p q l). ring.
Qed.
Lemma epars_voxel p q c v : epars p q (voxel_triangular_faces c v) = false.
Proof.
  unfold voxel_triangular_faces. cbn [epars fold_right epar].
  generalize (corner v c (-1) (-1) (-1)), (corner v c (-1) (-1) 1), (corner v c (-1) 1 (-1)), (corner v c (-1) 1 1),
    (corner v c 1 (-1) (-1)), (corner v c 1 (-1) 1), (corner v c 1 1 (-1)), (corner v c 1 1 1).
  intros k0 k1 k2 k3 k4 k5 k6 k7. unfold sideb. ring.
Qed.
Lemma epars_to_triangles p q l v : epars p q (to_triangles l v) = false.
Proof.
  unfold to_triangles. change false with (epars p q []). generalize (NoDup_nil tri). generalize (@nil tri).
  induction l as [|c l IH]; intros s H; [reflexivity|]. cbn [fold_left]. rewrite IH by (apply toggles_NoDup, H).
  rewrite epars_toggles by exact H. rewrite epars_voxel. apply xorb_false_r.
Qed.

Lemma sideb_spec p q a b : sideb p q a b = true <-> side a b p q.
Proof.
  unfold sideb, side. rewrite <- !eqb3_spec. destruct (eqb3 a p), (eqb3 b q), (eqb3 a q), (eqb3 b p); cbn; intuition congruence.
Qed.
Definition spar (p q : pt) (l : list (pt * pt)) : bool := fold_right (fun e b => xorb (sideb p q (fst e) (snd e)) b) false l.
Lemma sides_parity p q l n : sides p q l n -> Nat.odd n = spar p q l.
Proof.
  induction 1 as [|a b l n Hs _ IH|a b l n Hs _ IH]; [reflexivity| |].
  - rewrite Nat.odd_succ, <- Nat.negb_odd, IH. cbn [spar fold_right fst snd]. fold (spar p q l). apply sideb_spec in Hs. rewrite Hs. destruct (spar p q l); reflexivity.
  - rewrite IH. cbn [spar fold_right fst snd]. fold (spar p q l). destruct (sideb p q a b) eqn:E; [|rewrite xorb_false_l; reflexivity].
    apply sideb_spec in E. contradiction.
Qed.
Lemma spar_app p q l l' : spar p q (l ++ l') = xorb (spar p q l) (spar p q l').
Proof. induction l as [|e l IH]; cbn [app spar fold_right]; [symmetry; apply xorb_false_l|]. fold (spar p q (l ++ l')) (spar p q l). rewrite IH. ring. Qed.
Lemma spar_tris p q l : spar p q (flat_map tri_sides l) = epars p q l.
Proof.
  induction l as [|[[a b] c] l IH]; [reflexivity|]. cbn [flat_map]. rewrite spar_app, IH. cbn [tri_sides spar fold_right epars fst snd epar]. fold (epars p q l). ring.
Qed.
Lemma to_triangles_even l v p q n : sides p q (flat_map tri_sides (to_triangles l v)) n -> Nat.even n = true.
Proof.
  intros H. apply sides_parity in H. rewrite spar_tris, epars_to_triangles in H. rewrite <- Nat.negb_odd, H. reflexivity.
Qed.
Lemma sides_total p q l : exists n, sides p q l n.
Proof.
  induction l as [|[a b] l [n IH]]; [exists 0%nat; constructor|]. destruct (sideb p q a b) eqn:E.
  - exists (S n). apply sides_yes; [apply sideb_spec, E|exact IH].
  - exists n. apply sides_no; [|exact IH]. rewrite <- sideb_spec. congruence.
Qed.
