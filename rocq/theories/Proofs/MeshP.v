From Verif.Model Require Import Base Mesh.
From Verif.Spec Require Import MeshSpec.
From Coq Require Import Lia Permutation Sorted RelationClasses.
Open Scope Z_scope.

(** * rows *)
Lemma cmp_row_eq a : forall b, cmp_row a b = Eq <-> a = b.
Proof.
  induction a as [|x a IH]; intros [|y b]; cbn [cmp_row]; try (split; [discriminate|discriminate]); [tauto|].
  destruct (x ?= y) eqn:E; try (split; [discriminate|]).
  - apply Z.compare_eq in E. subst. rewrite IH. split; [intros ->; reflexivity|intros G; injection G; auto].
  - intros G. injection G as -> _. rewrite Z.compare_refl in E. discriminate.
  - intros G. injection G as -> _. rewrite Z.compare_refl in E. discriminate.
Qed.
Lemma cmp_row_refl a : cmp_row a a = Eq. Proof. apply cmp_row_eq. reflexivity. Qed.
Lemma cmp_row_opp a : forall b, cmp_row b a = CompOpp (cmp_row a b).
Proof.
  induction a as [|x a IH]; intros [|y b]; cbn [cmp_row]; try reflexivity.
  rewrite (Z.compare_antisym x y). destruct (x ?= y); cbn [CompOpp]; auto.
Qed.
Definition lt_row a b := cmp_row a b = Lt.
Lemma lt_row_trans a : forall b c, lt_row a b -> lt_row b c -> lt_row a c.
Proof.
  unfold lt_row. induction a as [|x a IH]; intros [|y b] [|z c]; cbn [cmp_row]; try discriminate; auto.
  destruct (x ?= y) eqn:E1, (y ?= z) eqn:E2; try discriminate; intros H1 H2;
    try (apply Z.compare_eq in E1; subst); try (apply Z.compare_eq in E2; subst);
    rewrite ?Z.compare_refl, ?E1, ?E2; try discriminate; eauto.
  change (x < y) in E1. change (y < z) in E2. pose proof (Z.lt_trans _ _ _ E1 E2) as E3. unfold Z.lt in E3. rewrite E3. reflexivity.
Qed.
Lemma lt_row_irrefl a : ~ lt_row a a.
Proof. unfold lt_row. rewrite cmp_row_refl. discriminate. Qed.
Lemma row_eqb_spec a b : row_eqb a b = true <-> a = b.
Proof. unfold row_eqb. rewrite <- cmp_row_eq. destruct (cmp_row a b); intuition discriminate. Qed.
Lemma row_eqb_refl a : row_eqb a a = true. Proof. apply row_eqb_spec. reflexivity. Qed.

Lemma in_insert_u x y l : In y (insert_u x l) <-> y = x \/ In y l.
Proof.
  induction l as [|z l IH]; cbn [insert_u]; [cbn; intuition congruence|].
  destruct (cmp_row x z) eqn:E; cbn [In].
  - apply cmp_row_eq in E. subst. intuition congruence.
  - intuition congruence.
  - rewrite IH. intuition congruence.
Qed.
Lemma in_unique_rows y l : In y (unique_rows l) <-> In y l.
Proof.
  unfold unique_rows. induction l as [|x l IH]; [reflexivity|]. cbn [fold_right In]. rewrite in_insert_u, IH. intuition congruence.
Qed.
Lemma sorted_insert_u x l : StronglySorted lt_row l -> StronglySorted lt_row (insert_u x l).
Proof.
  induction 1 as [|y l Hs IH Hf]; cbn [insert_u]; [repeat constructor|].
  destruct (cmp_row x y) eqn:E.
  - constructor; assumption.
  - constructor; [constructor; assumption|]. constructor; [exact E|]. eapply Forall_impl; [|exact Hf].
    intros z Hz. eapply lt_row_trans; eassumption.
  - constructor; [exact IH|]. apply Forall_forall. intros z Hz. apply in_insert_u in Hz. destruct Hz as [->|Hz].
    + unfold lt_row. rewrite cmp_row_opp, E. reflexivity.
    + rewrite Forall_forall in Hf. apply Hf, Hz.
Qed.
Lemma sorted_unique l : StronglySorted lt_row (unique_rows l).
Proof. induction l as [|x l IH]; [constructor|]. apply sorted_insert_u, IH. Qed.
Lemma sorted_NoDup l : StronglySorted lt_row l -> NoDup l.
Proof.
  induction 1 as [|x l Hs IH Hf]; [constructor|]. constructor; [|exact IH]. intros Hx. rewrite Forall_forall in Hf.
  apply (lt_row_irrefl x), Hf, Hx.
Qed.
Lemma sorted_ext l : forall l', StronglySorted lt_row l -> StronglySorted lt_row l' -> (forall x, In x l <-> In x l') -> l = l'.
Proof.
  induction l as [|x l IH]; intros [|y l'] H1 H2 H.
  - reflexivity.
  - destruct (proj2 (H y) (or_introl eq_refl)).
  - destruct (proj1 (H x) (or_introl eq_refl)).
  - inversion H1 as [|? ? S1 F1]; subst. inversion H2 as [|? ? S2 F2]; subst. rewrite Forall_forall in F1, F2.
    assert (x = y).
    { destruct (proj1 (H x) (or_introl eq_refl)) as [E|G]; [auto|]. destruct (proj2 (H y) (or_introl eq_refl)) as [E|G']; [auto|].
      exfalso. apply (lt_row_irrefl x). eapply lt_row_trans; [apply F1, G'|apply F2, G]. }
    subst. f_equal. apply IH; [assumption|assumption|]. intros z. specialize (H z). cbn [In] in H. split; intros G.
    + destruct (proj1 H (or_intror G)) as [E|K]; [|exact K]. subst z. exfalso. apply (lt_row_irrefl y), F1, G.
    + destruct (proj2 H (or_intror G)) as [E|K]; [|exact K]. subst z. exfalso. apply (lt_row_irrefl y), F2, G.
Qed.

Lemma index_of_bound x l : In x l -> 0 <= index_of x l < Z.of_nat (length l).
Proof.
  induction l as [|y l IH]; [intros []|]. cbn [index_of length]. intros H. destruct (row_eqb x y) eqn:E; [lia|].
  destruct H as [->|H]; [rewrite row_eqb_refl in E; discriminate|]. specialize (IH H). lia.
Qed.
Lemma index_of_nth x l : In x l -> nth_error l (Z.to_nat (index_of x l)) = Some x.
Proof.
  induction l as [|y l IH]; [intros []|]. cbn [index_of]. intros H. destruct (row_eqb x y) eqn:E.
  - apply row_eqb_spec in E. subst. reflexivity.
  - destruct H as [->|H]; [rewrite row_eqb_refl in E; discriminate|]. pose proof (index_of_bound x l H).
    replace (Z.to_nat (1 + index_of x l)) with (S (Z.to_nat (index_of x l))) by lia. cbn [nth_error]. apply IH, H.
Qed.
Lemma index_of_first x l n : nth_error l n = Some x -> index_of x l <= Z.of_nat n.
Proof.
  revert n. induction l as [|y l IH]; intros n H; [destruct n; discriminate|]. cbn [index_of]. destruct (row_eqb x y) eqn:E; [lia|].
  destruct n as [|n]; [cbn in H; injection H as ->; rewrite row_eqb_refl in E; discriminate|]. cbn in H. specialize (IH _ H). lia.
Qed.
Lemma index_of_nodup l n x : NoDup l -> nth_error l n = Some x -> index_of x l = Z.of_nat n.
Proof.
  intros Hd H. assert (Hin : In x l) by (eapply nth_error_In, H). pose proof (index_of_nth x l Hin) as G. pose proof (index_of_bound x l Hin).
  rewrite NoDup_nth_error in Hd. specialize (Hd (Z.to_nat (index_of x l)) n ltac:(lia)). rewrite G, H in Hd. specialize (Hd eq_refl). lia.
Qed.

Lemma Forall2_len {A B} (R : A -> B -> Prop) l r : Forall2 R l r -> length l = length r.
Proof. induction 1; cbn [length]; congruence. Qed.

(** * indexing *)
Lemma getitem_ok {V} (l : list V) i x : 0 <= i -> (getitem l i = Ok x <-> nth_error l (Z.to_nat i) = Some x).
Proof.
  intros H. unfold getitem. replace (i <? 0) with false by (symmetry; apply Z.ltb_ge; exact H).
  replace (i <? 0) with false by (symmetry; apply Z.ltb_ge; exact H).
  destruct (nth_error l (Z.to_nat i)); split; intros E; congruence.
Qed.
Lemma nth_in_range {V} (l : list V) i : 0 <= i < Z.of_nat (length l) -> exists x, nth_error l (Z.to_nat i) = Some x.
Proof.
  intros H. destruct (nth_error l (Z.to_nat i)) eqn:E; [eauto|]. apply nth_error_None in E. lia.
Qed.
Lemma nth_range {V} (l : list V) i x : 0 <= i -> nth_error l (Z.to_nat i) = Some x -> 0 <= i < Z.of_nat (length l).
Proof. intros Hi H. assert (Z.to_nat i < length l)%nat by (apply nth_error_Some; congruence). lia. Qed.

Lemma mapM_ok {A B} (f : A -> res B) l : forall r, mapM f l = Ok r <-> Forall2 (fun a b => f a = Ok b) l r.
Proof.
  induction l as [|a l IH]; intros r; cbn [mapM].
  - split; [intros E; injection E as <-; constructor|intros H; inversion H; reflexivity].
  - split.
    + destruct (f a) as [b|e] eqn:E; [|discriminate]. cbn [bind]. destruct (mapM f l) as [bs|e]; [|discriminate]. cbn [bind].
      intros G. injection G as <-. constructor; [exact E|]. apply IH. reflexivity.
    + intros H. inversion H as [|? b ? bs E F]; subst. rewrite E. cbn [bind]. apply IH in F. rewrite F. reflexivity.
Qed.
Lemma Forall2_ex {A B} (R : A -> B -> Prop) l : (forall a, In a l -> exists b, R a b) -> exists r, Forall2 R l r.
Proof.
  induction l as [|a l IH]; intros H; [exists []; constructor|].
  destruct (H a (or_introl eq_refl)) as [b Hb]. destruct IH as [r Hr]; [intros; apply H; right; assumption|]. exists (b :: r). constructor; assumption.
Qed.
Lemma Forall2_imp {A B} (R S : A -> B -> Prop) l r : (forall a b, In a l -> R a b -> S a b) -> Forall2 R l r -> Forall2 S l r.
Proof.
  intros H F. induction F as [|a b l r Hab F IH]; [constructor|]. constructor; [apply H; [left; reflexivity|exact Hab]|].
  apply IH. intros. apply H; [right; assumption|assumption].
Qed.
Lemma Forall2_map_l {A B C} (f : A -> B) (R : B -> C -> Prop) l r : Forall2 R (map f l) r <-> Forall2 (fun a c => R (f a) c) l r.
Proof.
  revert r. induction l as [|a l IH]; intros r; cbn [map]; split; intros H; inversion H; subst; constructor; try assumption; apply IH; assumption.
Qed.
Lemma Forall2_fun {A B} (R : A -> B -> Prop) l : forall r r', (forall a b b', R a b -> R a b' -> b = b') -> Forall2 R l r -> Forall2 R l r' -> r = r'.
Proof.
  induction l as [|a l IH]; intros r r' H F G; inversion F; inversion G; subst; [reflexivity|]. f_equal; eauto.
Qed.

Lemma gather_corners {V} (m : mesh V) t p : (forall x, In x (flat_tri t) -> 0 <= x) -> (gather (verts m) t = Ok p <-> corners m t p).
Proof.
  destruct t as [[i j] k], p as [[a b] c]. cbn [flat_tri]. intros H.
  assert (Hi : 0 <= i) by (apply H; cbn; auto). assert (Hj : 0 <= j) by (apply H; cbn; auto). assert (Hk : 0 <= k) by (apply H; cbn; auto).
  unfold gather, corners. rewrite <- (getitem_ok _ i a Hi), <- (getitem_ok _ j b Hj), <- (getitem_ok _ k c Hk).
  destruct (getitem (verts m) i); cbn [bind]; [|intuition congruence].
  destruct (getitem (verts m) j); cbn [bind]; [|intuition congruence].
  destruct (getitem (verts m) k); cbn [bind]; [|intuition congruence]. intuition congruence.
Qed.
Lemma corners_fun {V} (m : mesh V) t p q : corners m t p -> corners m t q -> p = q.
Proof. destruct t as [[i j] k], p as [[a b] c], q as [[a' b'] c']. unfold corners. intuition congruence. Qed.
Lemma shape_unique {V} (m : mesh V) s s' : shape m s -> shape m s' -> s = s'.
Proof. unfold shape. apply Forall2_fun. apply corners_fun. Qed.

Lemma consistent_shape {V} (m : mesh V) : consistent m <-> exists s, shape m s.
Proof.
  split.
  - intros H. apply Forall2_ex. intros [[i j] k] Hin. specialize (H i j k Hin).
    destruct (nth_in_range (verts m) i) as [a Ha]; [apply H; cbn; auto|].
    destruct (nth_in_range (verts m) j) as [b Hb]; [apply H; cbn; auto|].
    destruct (nth_in_range (verts m) k) as [c Hc]; [apply H; cbn; auto|].
    exists (a, b, c). unfold corners.
    pose proof (H i ltac:(cbn; auto)). pose proof (H j ltac:(cbn; auto)). pose proof (H k ltac:(cbn; auto)). repeat split; (lia || assumption).
  - intros [s Hs] i j k Hin x Hx. unfold shape in Hs. induction Hs as [|t p l r Hp F IH]; [destruct Hin|].
    destruct Hin as [->|Hin]; [|exact (IH Hin)]. destruct p as [[a b] c]. unfold corners in Hp.
    destruct Hp as (P1 & P2 & P3 & N1 & N2 & N3). destruct Hx as [<-|[<-|[<-|[]]]]; eapply nth_range; eassumption.
Qed.
Lemma shape_nonneg {V} (m : mesh V) s t x : shape m s -> In t (tris m) -> In x (flat_tri t) -> 0 <= x < Z.of_nat (length (verts m)).
Proof.
  intros H Ht Hx. assert (C : consistent m) by (apply consistent_shape; eauto). destruct t as [[i j] k]. exact (C i j k Ht x Hx).
Qed.
Lemma shape_api {V} (m : mesh V) s : shape m s -> triangles_vertices m = Ok s.
Proof.
  intros H. apply mapM_ok. eapply Forall2_imp; [|exact H]. intros t p Ht Hp. apply gather_corners; [|exact Hp].
  intros x Hx. pose proof (shape_nonneg m s t x H Ht Hx). lia.
Qed.
Lemma api_shape {V} (m : mesh V) s : consistent m -> triangles_vertices m = Ok s -> shape m s.
Proof.
  intros C H. destruct (proj1 (consistent_shape m) C) as [s' Hs']. pose proof (shape_api m s' Hs') as G. rewrite H in G. injection G as ->. exact Hs'.
Qed.

(** * merge *)
Lemma Forall2_app2 {A B} (R : A -> B -> Prop) l l' r r' : Forall2 R l r -> Forall2 R l' r' -> Forall2 R (l ++ l') (r ++ r').
Proof. intros H1 H2. apply Forall2_app; assumption. Qed.

Lemma shape_concat {V} d (m1 m2 : mesh V) s1 s2 : shape m1 s1 -> shape m2 s2 ->
  shape {| mdim := d; verts := verts m1 ++ verts m2; tris := tris m1 ++ map (shift (Z.of_nat (length (verts m1)))) (tris m2) |} (s1 ++ s2).
Proof.
  intros H1 H2. unfold shape. cbn [verts tris]. apply Forall2_app2.
  - eapply Forall2_imp; [|exact H1]. intros [[i j] k] [[a b] c] Hin. unfold corners. cbn [verts].
    intros (P1 & P2 & P3 & N1 & N2 & N3). repeat split; try assumption; rewrite nth_error_app1; try assumption;
    apply nth_error_Some; congruence.
  - apply Forall2_map_l. eapply Forall2_imp; [|exact H2]. intros [[i j] k] [[a b] c] Hin. unfold corners, shift. cbn [verts].
    intros (P1 & P2 & P3 & N1 & N2 & N3).
    assert (Q : forall x y, 0 <= x -> nth_error (verts m2) (Z.to_nat x) = Some y ->
      nth_error (verts m1 ++ verts m2) (Z.to_nat (x + Z.of_nat (length (verts m1)))) = Some y).
    { intros x y Hx Hy. rewrite nth_error_app2 by lia. replace (Z.to_nat _ - _)%nat with (Z.to_nat x) by lia. exact Hy. }
    repeat split; try lia; apply Q; assumption.
Qed.

Lemma shape_nil {V} (m : mesh V) s : shape m s -> verts m = [] \/ tris m = [] -> s = [].
Proof.
  intros H [E|E].
  - unfold shape in H. inversion H as [|t p l r Hp F]; [reflexivity|]. destruct t as [[i j] k], p as [[a b] c].
    unfold corners in Hp. rewrite E in Hp. destruct Hp as (_ & _ & _ & N & _). destruct (Z.to_nat i); discriminate.
  - unfold shape in H. rewrite E in H. inversion H. reflexivity.
Qed.

Lemma merge_plain m1 m2 s1 s2 : mdim m1 = mdim m2 -> shape m1 s1 -> shape m2 s2 ->
  exists m, merge m1 m2 false false = Ok m /\ mdim m = mdim m1 /\ shape m (s1 ++ s2).
Proof.
  intros Hd H1 H2. unfold merge. rewrite Hd, Z.eqb_refl. cbn [negb].
  destruct (verts m1) as [|v1 vs1] eqn:Ev1.
  { pose proof (shape_nil m1 s1 H1 (or_introl Ev1)). subst. eauto. }
  destruct (tris m1) as [|t1 ts1] eqn:Et1.
  { pose proof (shape_nil m1 s1 H1 (or_intror Et1)). subst. eauto. }
  destruct (verts m2) as [|v2 vs2] eqn:Ev2.
  { pose proof (shape_nil m2 s2 H2 (or_introl Ev2)). subst. rewrite app_nil_r. eauto. }
  destruct (tris m2) as [|t2 ts2] eqn:Et2.
  { pose proof (shape_nil m2 s2 H2 (or_intror Et2)). subst. rewrite app_nil_r. eauto. }
  rewrite <- Ev1, <- Et1, <- Ev2, <- Et2. cbn [bind].
  eexists. split; [reflexivity|]. split; [exact eq_refl|]. apply shape_concat; assumption.
Qed.
Lemma merge_class m1 m2 mv mt : mdim m1 <> mdim m2 -> merge m1 m2 mv mt = Err ValueError.
Proof. intros H. unfold merge. apply Z.eqb_neq in H. rewrite H. reflexivity. Qed.

Lemma from_meshes_plain d ms ss : (forall m, In m ms -> mdim m = d) -> Forall2 shape ms ss ->
  exists m, from_meshes d ms false false = Ok m /\ mdim m = d /\ shape m (concat ss).
Proof.
  intros Hd H. unfold from_meshes.
  assert (G : forall a sa, mdim a = d -> shape a sa ->
    exists m, fold_left (fun acc m => do a <- acc; merge a m false false) ms (Ok a) = Ok m /\ mdim m = d /\ shape m (sa ++ concat ss)).
  { clear - Hd H. induction H as [|m s ms ss Hm H IH]; intros a sa Ha Hsa; cbn [fold_left concat].
    - exists a. rewrite app_nil_r. auto.
    - cbn [bind]. destruct (merge_plain a m sa s) as (b & Hb & Hbd & Hbs); [rewrite Ha; symmetry; apply Hd; left; reflexivity|assumption|assumption|].
      rewrite Hb. rewrite app_assoc. apply IH; [intros; apply Hd; right; assumption|congruence|exact Hbs]. }
  destruct (G {| mdim := d; verts := []; tris := [] |} []) as (m & H1 & H2 & H3); [reflexivity|constructor|]. exists m. auto.
Qed.

(** * merge_vertices *)
Lemma gather_map_ok (l : list row) (f : row -> Z) t p : gather l t = Ok p ->
  gather (map f l) t = Ok (let '(a, b, c) := p in (f a, f b, f c)).
Proof.
  assert (G : forall i x, getitem l i = Ok x -> getitem (map f l) i = Ok (f x)).
  { intros i x. unfold getitem. rewrite map_length. destruct (_ <? 0); [discriminate|].
    rewrite nth_error_map. destruct (nth_error l _); [|discriminate]. cbn. intros E. injection E as ->. reflexivity. }
  destruct t as [[i j] k], p as [[a b] c]. unfold gather.
  destruct (getitem l i) as [a'|] eqn:Ei; [|discriminate]. destruct (getitem l j) as [b'|] eqn:Ej; [|discriminate].
  destruct (getitem l k) as [c'|] eqn:Ek; [|discriminate]. cbn [bind]. intros E. injection E as -> -> ->.
  rewrite (G _ _ Ei), (G _ _ Ej), (G _ _ Ek). reflexivity.
Qed.

Lemma Forall2_map_r {A B C} (f : B -> C) (R : A -> C -> Prop) l r : Forall2 R l (map f r) <-> Forall2 (fun a b => R a (f b)) l r.
Proof.
  revert l. induction r as [|b r IH]; intros l; cbn [map]; split; intros H; inversion H; subst; constructor; try assumption; apply IH; assumption.
Qed.
Lemma Forall2_in_r {A B} (R : A -> B -> Prop) l r b : Forall2 R l r -> In b r -> exists a, In a l /\ R a b.
Proof.
  induction 1 as [|x y l r Hxy F IH]; [intros []|]. intros [->|H]; [exists x; cbn; auto|]. destruct (IH H) as (a & Ha & Hr). exists a. cbn. auto.
Qed.
Lemma Forall2_self {A} (R : A -> A -> Prop) l : (forall x, In x l -> R x x) -> Forall2 R l l.
Proof. induction l as [|x l IH]; intros H; constructor; [apply H; cbn; auto|apply IH; intros; apply H; cbn; auto]. Qed.

Lemma merge_vertices_ok m s : shape m s ->
  exists m', merge_vertices m = Ok m' /\ mdim m' = mdim m /\ shape m' s /\ NoDup (verts m') /\ StronglySorted lt_row (verts m') /\
    (forall v, In v (verts m') <-> In v (verts m)).
Proof.
  intros H. unfold merge_vertices. set (u := unique_rows (verts m)). pose proof (shape_api m s H) as Ha. apply mapM_ok in Ha.
  set (f := fun v => index_of v u).
  assert (G : mapM (gather (map f (verts m))) (tris m) = Ok (map (fun p => let '(a, b, c) := p in (f a, f b, f c)) s)).
  { apply mapM_ok. apply Forall2_map_r. eapply Forall2_imp; [|exact Ha]. intros t p _ Hp. apply gather_map_ok. exact Hp. }
  rewrite G. cbn [bind]. eexists. split; [reflexivity|]. cbn [mdim verts]. split; [reflexivity|]. split; [|split; [|split]].
  - unfold shape. cbn [tris]. apply Forall2_map_l. apply Forall2_self. intros [[a b] c] Hin.
    destruct (Forall2_in_r _ _ _ _ H Hin) as ([[i j] k] & _ & Hc). unfold corners in Hc. destruct Hc as (_ & _ & _ & N1 & N2 & N3).
    apply nth_error_In in N1, N2, N3. apply (proj2 (in_unique_rows _ _)) in N1, N2, N3. fold u in N1, N2, N3. unfold corners, f. cbn [verts].
    pose proof (index_of_bound _ _ N1). pose proof (index_of_bound _ _ N2). pose proof (index_of_bound _ _ N3).
    repeat split; try lia; apply index_of_nth; assumption.
  - apply sorted_NoDup, sorted_unique.
  - apply sorted_unique.
  - intros v. apply in_unique_rows.
Qed.

(** * merge_triangles *)
Lemma sort3_perm s t : sort3 s = sort3 t <-> same_triple s t.
Proof.
  destruct s as [[i j] k], t as [[a b] c]. unfold sort3, same_triple. split.
  - intros E. injection E as E1 E2 E3.
    assert (P : forall x y z : Z, Permutation [x; y; z] [Z.min x (Z.min y z); x + y + z - Z.min x (Z.min y z) - Z.max x (Z.max y z); Z.max x (Z.max y z)]).
    { intros x y z.
      assert (C : (x <= y <= z \/ x <= z <= y \/ y <= x <= z \/ y <= z <= x \/ z <= x <= y \/ z <= y <= x)) by lia.
      destruct C as [C|[C|[C|[C|[C|C]]]]].
      - replace (Z.min x (Z.min y z)) with x by lia. replace (Z.max x (Z.max y z)) with z by lia. replace (x + y + z - x - z) with y by lia. apply Permutation_refl.
      - replace (Z.min x (Z.min y z)) with x by lia. replace (Z.max x (Z.max y z)) with y by lia. replace (x + y + z - x - y) with z by lia. apply perm_skip, perm_swap.
      - replace (Z.min x (Z.min y z)) with y by lia. replace (Z.max x (Z.max y z)) with z by lia. replace (x + y + z - y - z) with x by lia. apply perm_swap.
      - replace (Z.min x (Z.min y z)) with y by lia. replace (Z.max x (Z.max y z)) with x by lia. replace (x + y + z - y - x) with z by lia.
        eapply perm_trans; [apply perm_swap|]. apply perm_skip, perm_swap.
      - replace (Z.min x (Z.min y z)) with z by lia. replace (Z.max x (Z.max y z)) with y by lia. replace (x + y + z - z - y) with x by lia.
        eapply perm_trans; [apply perm_skip, perm_swap|]. apply perm_swap.
      - replace (Z.min x (Z.min y z)) with z by lia. replace (Z.max x (Z.max y z)) with x by lia. replace (x + y + z - z - x) with y by lia.
        eapply perm_trans; [apply perm_swap|]. eapply perm_trans; [apply perm_skip, perm_swap|]. apply perm_swap. }
    eapply perm_trans; [apply P|]. rewrite E2, E1, E3. apply Permutation_sym, P.
  - intros P.
    assert (S : i + j + k = a + b + c).
    { assert (Q : forall l l', Permutation l l' -> fold_right Z.add 0 l = fold_right Z.add 0 l') by (induction 1; cbn [fold_right]; lia).
      specialize (Q _ _ P). cbn in Q. lia. }
    assert (M : forall l l', Permutation l l' -> forall z, (forall x, In x l -> z <= x) <-> (forall x, In x l' -> z <= x)).
    { intros l l' Q z. split; intros H x Hx; apply H; [eapply Permutation_in; [apply Permutation_sym, Q|exact Hx]|eapply Permutation_in; eassumption]. }
    assert (M' : forall l l', Permutation l l' -> forall z, (forall x, In x l -> x <= z) <-> (forall x, In x l' -> x <= z)).
    { intros l l' Q z. split; intros H x Hx; apply H; [eapply Permutation_in; [apply Permutation_sym, Q|exact Hx]|eapply Permutation_in; eassumption]. }
    assert (A1 : Z.min i (Z.min j k) <= Z.min a (Z.min b c)).
    { pose proof (proj1 (M _ _ P (Z.min i (Z.min j k))) ltac:(cbn; intuition lia)) as Q. pose proof (Q a). pose proof (Q b). pose proof (Q c). cbn in *. intuition lia. }
    assert (A2 : Z.min a (Z.min b c) <= Z.min i (Z.min j k)).
    { pose proof (proj2 (M _ _ P (Z.min a (Z.min b c))) ltac:(cbn; intuition lia)) as Q. pose proof (Q i). pose proof (Q j). pose proof (Q k). cbn in *. intuition lia. }
    assert (A3 : Z.max a (Z.max b c) <= Z.max i (Z.max j k)).
    { pose proof (proj1 (M' _ _ P (Z.max i (Z.max j k))) ltac:(cbn; intuition lia)) as Q. pose proof (Q a). pose proof (Q b). pose proof (Q c). cbn in *. intuition lia. }
    assert (A4 : Z.max i (Z.max j k) <= Z.max a (Z.max b c)).
    { pose proof (proj2 (M' _ _ P (Z.max a (Z.max b c))) ltac:(cbn; intuition lia)) as Q. pose proof (Q i). pose proof (Q j). pose proof (Q k). cbn in *. intuition lia. }
    assert (E1 : Z.min i (Z.min j k) = Z.min a (Z.min b c)) by lia. assert (E2 : Z.max i (Z.max j k) = Z.max a (Z.max b c)) by lia.
    rewrite E1, E2. rewrite S. reflexivity.
Qed.

(** the kept triangle for each key: first occurrence *)
Lemma merge_triangles_ok {V} (m : mesh V) : exists m', merge_triangles m = Ok m' /\ mdim m' = mdim m /\ verts m' = verts m /\
  map sort3 (tris m') = unique_rows (map sort3 (tris m)) /\
  Forall2 (fun k t => nth_error (tris m) (Z.to_nat (index_of k (map sort3 (tris m)))) = Some t) (unique_rows (map sort3 (tris m))) (tris m').
Proof.
  unfold merge_triangles. set (keys := map sort3 (tris m)).
  destruct (Forall2_ex (fun k t => nth_error (tris m) (Z.to_nat (index_of k keys)) = Some t /\ sort3 t = k) (unique_rows keys)) as [r Hr].
  { intros k Hk. apply (proj1 (in_unique_rows _ _)) in Hk. pose proof (index_of_nth k keys Hk) as N. unfold keys in N at 1. rewrite nth_error_map in N.
    destruct (nth_error (tris m) (Z.to_nat (index_of k keys))) as [t|]; [|discriminate]. cbn in N. injection N as N. exists t. auto. }
  assert (E : mapM (getitem (tris m)) (map (fun k => index_of k keys) (unique_rows keys)) = Ok r).
  { apply mapM_ok. apply Forall2_map_l. eapply Forall2_imp; [|exact Hr]. intros k t Hk [Ht _]. apply (proj1 (in_unique_rows _ _)) in Hk.
    pose proof (index_of_bound k keys Hk). apply getitem_ok; [lia|exact Ht]. }
  rewrite E. cbn [bind]. eexists. split; [reflexivity|]. cbn [mdim verts tris]. repeat (split; [reflexivity|]). split.
  - clear E. induction Hr as [|k t l r [_ Hk] F IH]; [reflexivity|]. cbn [map]. rewrite Hk, IH. reflexivity.
  - eapply Forall2_imp; [|exact Hr]. intros k t _ [Ht _]. exact Ht.
Qed.

Lemma merge_triangles_spec {V} (m : mesh V) : exists m', merge_triangles m = Ok m' /\ mdim m' = mdim m /\ verts m' = verts m /\
  (forall t, In t (tris m') -> In t (tris m)) /\
  (forall t, In t (tris m) -> exists t', In t' (tris m') /\ same_triple t t') /\
  NoDup (tris m') /\
  (forall t t', In t (tris m') -> In t' (tris m') -> same_triple t t' -> t = t').
Proof.
  destruct (merge_triangles_ok m) as (m' & H1 & H2 & H3 & H4 & H5). exists m'. repeat (split; [assumption|]).
  assert (Hnd : NoDup (map sort3 (tris m'))) by (rewrite H4; apply sorted_NoDup, sorted_unique).
  split; [|split; [|split]].
  - intros t Ht. destruct (Forall2_in_r _ _ _ _ H5 Ht) as (k & _ & N). eapply nth_error_In, N.
  - intros t Ht. assert (Hk : In (sort3 t) (map sort3 (tris m'))) by (rewrite H4; apply in_unique_rows, in_map, Ht).
    apply in_map_iff in Hk. destruct Hk as (t' & E & Ht'). exists t'. split; [exact Ht'|]. apply sort3_perm. congruence.
  - eapply NoDup_map_inv, Hnd.
  - intros t t' Ht Ht' E. apply sort3_perm in E. clear - Hnd Ht Ht' E. induction (tris m') as [|x l IH]; [destruct Ht|].
    cbn [map] in Hnd. inversion Hnd as [|? ? Hn Hd]; subst. destruct Ht as [->|Ht], Ht' as [->|Ht'].
    + reflexivity.
    + exfalso. apply Hn. rewrite E. apply in_map, Ht'.
    + exfalso. apply Hn. rewrite <- E. apply in_map, Ht.
    + apply IH; assumption.
Qed.
Lemma unique_sorted l : StronglySorted lt_row l -> unique_rows l = l.
Proof. intros H. apply sorted_ext; [apply sorted_unique|exact H|]. intros x. apply in_unique_rows. Qed.
Lemma merge_triangles_idem {V} (m m' : mesh V) : merge_triangles m = Ok m' -> merge_triangles m' = Ok m'.
Proof.
  intros H. destruct (merge_triangles_ok m) as (m1 & H1 & H2 & H3 & H4 & H5). rewrite H in H1. injection H1 as <-.
  destruct (merge_triangles_ok m') as (m2 & G1 & G2 & G3 & G4 & G5). rewrite G1. f_equal.
  assert (S : StronglySorted lt_row (map sort3 (tris m'))) by (rewrite H4; apply sorted_unique).
  rewrite (unique_sorted _ S) in G4, G5. destruct m' as [d v t], m2 as [d2 v2 t2]. cbn [mdim verts tris] in *. subst. f_equal.
  pose proof (sorted_NoDup _ S) as Hnd. clear - G5 Hnd.
  assert (Q : Forall2 (fun k t0 => nth_error t (Z.to_nat (index_of k (map sort3 t))) = Some t0) (map sort3 t) t).
  { apply Forall2_map_l. apply Forall2_self. intros x Hx. apply In_nth_error in Hx. destruct Hx as [n Hn].
    rewrite (index_of_nodup _ n); [rewrite Nat2Z.id; exact Hn|exact Hnd|]. rewrite nth_error_map, Hn. reflexivity. }
  eapply Forall2_fun; [|exact G5|exact Q]. intros k a b. congruence.
Qed.
Lemma merge_triangles_consistent {V} (m m' : mesh V) : consistent m -> merge_triangles m = Ok m' -> consistent m'.
Proof.
  intros C H. destruct (merge_triangles_spec m) as (m1 & H1 & _ & H3 & H4 & _). rewrite H in H1. injection H1 as <-.
  intros i j k Hin. rewrite H3. apply C, H4, Hin.
Qed.

(** * split_shared_vertices *)
Lemma mapM_app {A B} (f : A -> res B) l l' r r' : mapM f l = Ok r -> mapM f l' = Ok r' -> mapM f (l ++ l') = Ok (r ++ r').
Proof. rewrite !mapM_ok. apply Forall2_app2. Qed.
Definition flat_pts {V} (p : V * V * V) : list V := let '(a, b, c) := p in [a; b; c].
Lemma split_ok {V} (m : mesh V) s : shape m s ->
  exists m', split_shared_vertices m = Ok m' /\ mdim m' = mdim m /\ verts m' = flat_map flat_pts s /\
    tris m' = map (fun i => (3 * Z.of_nat i, 3 * Z.of_nat i + 1, 3 * Z.of_nat i + 2)) (seq 0 (length (tris m))) /\ shape m' s.
Proof.
  intros H. unfold split_shared_vertices.
  assert (E : mapM (getitem (verts m)) (flat_map flat_tri (tris m)) = Ok (flat_map flat_pts s)).
  { unfold shape in H. induction H as [|t p l r Hp F IH]; [reflexivity|]. cbn [flat_map]. apply mapM_app; [|exact IH].
    destruct t as [[i j] k], p as [[a b] c]. unfold corners in Hp. destruct Hp as (P1 & P2 & P3 & N1 & N2 & N3). cbn [flat_tri flat_pts].
    apply getitem_ok in N1, N2, N3; try assumption. cbn [mapM]. rewrite N1, N2, N3. reflexivity. }
  rewrite E. cbn [bind]. eexists. split; [reflexivity|]. cbn [mdim verts tris]. repeat (split; [reflexivity|]).
  unfold shape. cbn [tris]. assert (L : length s = length (tris m)) by (symmetry; eapply Forall2_len, H). rewrite <- L. clear E H L.
  set (f := fun i => (3 * Z.of_nat i, 3 * Z.of_nat i + 1, 3 * Z.of_nat i + 2)).
  assert (G : forall pre n, length pre = (3 * n)%nat -> Forall2 (corners {| mdim := mdim m; verts := pre ++ flat_map flat_pts s; tris := map f (seq 0 (length s)) |}) (map f (seq n (length s))) s).
  { generalize (map f (seq 0 (length s))). intros ts. induction s as [|[[a b] c] s IH]; intros pre n Hn; cbn [length seq map]; [constructor|].
    constructor.
    - unfold f, corners. cbn [verts flat_map flat_pts app].
      replace (Z.to_nat (3 * Z.of_nat n)) with (length pre) by lia. replace (Z.to_nat (3 * Z.of_nat n + 1)) with (length pre + 1)%nat by lia.
      replace (Z.to_nat (3 * Z.of_nat n + 2)) with (length pre + 2)%nat by lia.
      repeat (split; [lia|]). rewrite !nth_error_app2 by lia.
      replace (length pre - length pre)%nat with 0%nat by lia. replace (length pre + 1 - length pre)%nat with 1%nat by lia.
      replace (length pre + 2 - length pre)%nat with 2%nat by lia. auto.
    - specialize (IH (pre ++ [a; b; c]) (S n)). cbn [flat_map flat_pts]. rewrite <- app_assoc in IH. apply IH. rewrite app_length. cbn. lia. }
  apply (G [] 0%nat). reflexivity.
Qed.
Lemma split_length {V} (m m' : mesh V) : consistent m -> split_shared_vertices m = Ok m' -> length (verts m') = (3 * length (tris m))%nat.
Proof.
  intros C H. destruct (proj1 (consistent_shape m) C) as [s Hs]. destruct (split_ok m s Hs) as (m1 & H1 & _ & H3 & _).
  rewrite H in H1. injection H1 as <-. rewrite H3. rewrite (Forall2_len _ _ _ Hs).
  clear. induction s as [|[[a b] c] s IH]; cbn [flat_map flat_pts app length]; lia.
Qed.

(** * border *)
Lemma sort2_eq a b c d : sort2 (a, b) = sort2 (c, d) <-> (a = c /\ b = d) \/ (a = d /\ b = c).
Proof.
  unfold sort2. cbn [fst snd]. split.
  - intros E. injection E as E1 E2. lia.
  - intros [[-> ->]|[-> ->]]; [reflexivity|]. rewrite Z.min_comm, Z.max_comm. reflexivity.
Qed.
Lemma occurs_count a b l n : occurs a b l n <-> n = count_row (sort2 (a, b)) (map sort2 l).
Proof.
  unfold count_row. split.
  - induction 1 as [|c d l n H _ IH|c d l n H _ IH]; [reflexivity| |]; cbn [map filter].
    + replace (row_eqb (sort2 (a, b)) (sort2 (c, d))) with true; [cbn [length]; congruence|].
      symmetry. apply row_eqb_spec, sort2_eq. intuition congruence.
    + destruct (row_eqb (sort2 (a, b)) (sort2 (c, d))) eqn:E; [|exact IH]. apply row_eqb_spec, sort2_eq in E. exfalso. apply H. intuition congruence.
  - intros ->. induction l as [|[c d] l IH]; [constructor|]. cbn [map filter].
    destruct (row_eqb (sort2 (a, b)) (sort2 (c, d))) eqn:E.
    + apply row_eqb_spec, sort2_eq in E. cbn [length]. apply occ_yes; [intuition congruence|exact IH].
    + apply occ_no; [|exact IH]. intros G. assert (T : row_eqb (sort2 (a, b)) (sort2 (c, d)) = true) by (apply row_eqb_spec, sort2_eq; intuition congruence). congruence.
Qed.
Lemma count_app x l l' : count_row x (l ++ l') = (count_row x l + count_row x l')%nat.
Proof. unfold count_row. rewrite filter_app, app_length. reflexivity. Qed.
Lemma edges_sides_count {V} (m : mesh V) x : count_row x (map sort2 (mesh_edges m)) = count_row x (map sort2 (sides_of (tris m))).
Proof.
  unfold mesh_edges, sides_of. induction (tris m) as [|[[i j] k] l IH]; [reflexivity|]. cbn [flat_map]. rewrite !map_app, !count_app, IH. f_equal.
  cbn [tri_edges map]. rewrite (proj2 (sort2_eq k i i k)) by auto. unfold count_row. cbn [filter].
  destruct (row_eqb x (sort2 (i, j))), (row_eqb x (sort2 (i, k))), (row_eqb x (sort2 (j, k))); reflexivity.
Qed.
Lemma border_ok {V} (m : mesh V) : NoDup (mesh_border m) /\
  (forall e, In e (mesh_border m) -> exists a b, a <= b /\ e = [a; b]) /\
  (forall a b, a <= b -> (In [a; b] (mesh_border m) <-> occurs a b (sides_of (tris m)) 1)).
Proof.
  unfold mesh_border. split; [|split].
  - apply NoDup_filter, sorted_NoDup, sorted_unique.
  - intros e He. apply filter_In in He. destruct He as [He _]. apply (proj1 (in_unique_rows _ _)) in He. apply in_map_iff in He. destruct He as ([a b] & <- & _).
    unfold sort2. cbn [fst snd]. exists (Z.min a b), (Z.max a b). split; [lia|reflexivity].
  - intros a b Hab. assert (E : [a; b] = sort2 (a, b)) by (unfold sort2; cbn [fst snd]; rewrite Z.min_l, Z.max_r by lia; reflexivity).
    rewrite E, filter_In, Nat.eqb_eq, in_unique_rows, occurs_count, edges_sides_count. split; [intros [_ H]; auto|]. intros H. split; [|auto].
    assert (P : (0 < count_row (sort2 (a, b)) (map sort2 (mesh_edges m)))%nat) by (rewrite edges_sides_count; lia).
    unfold count_row in P. destruct (filter (row_eqb (sort2 (a, b))) (map sort2 (mesh_edges m))) as [|x l] eqn:F; [cbn in P; lia|].
    assert (G : In x (filter (row_eqb (sort2 (a, b))) (map sort2 (mesh_edges m)))) by (rewrite F; left; reflexivity).
    apply filter_In in G. destruct G as [G1 G2]. apply row_eqb_spec in G2. rewrite G2. exact G1.
Qed.

(** * dict *)
Lemma chunk3_concat (l : list row) : (forall r : row, In r l -> length r = 3%nat) -> chunk3 (concat l) = Ok l.
Proof.
  induction l as [|r l IH]; intros H; [reflexivity|]. pose proof (H r (or_introl eq_refl)) as L.
  destruct r as [|a [|b [|c [|d r]]]]; try discriminate. cbn [concat app chunk3]. rewrite IH by (intros; apply H; right; assumption). reflexivity.
Qed.
Lemma dict_roundtrip (m : mesh row) : (forall v : row, In v (verts m) -> length v = 3%nat) -> dict_to_object (mdim m) (to_dict m) = Ok m.
Proof.
  intros H. unfold dict_to_object, to_dict. cbn [fst snd]. rewrite chunk3_concat by exact H. cbn [bind].
  assert (E : flat_map flat_tri (tris m) = concat (map flat_tri (tris m))) by apply flat_map_concat_map.
  rewrite E, chunk3_concat.
  - cbn [bind]. assert (G : mapM tri_of_row (map flat_tri (tris m)) = Ok (tris m)).
    { apply mapM_ok, Forall2_map_l, Forall2_self. intros [[i j] k] _. reflexivity. }
    rewrite G. cbn [bind]. destruct m; reflexivity.
  - intros r Hr. apply in_map_iff in Hr. destruct Hr as ([[i j] k] & <- & _). reflexivity.
Qed.

(** * mesh_or *)
Lemma mesh_or_ok m1 m2 s1 s2 : mdim m1 = mdim m2 -> shape m1 s1 -> shape m2 s2 -> s1 <> [] -> s2 <> [] ->
  exists m, mesh_or m1 m2 = Ok m /\ mdim m = mdim m1 /\ consistent m /\ NoDup (verts m) /\
    (forall v, In v (verts m) <-> In v (verts m1) \/ In v (verts m2)) /\
    (forall t t', In t (tris m) -> In t' (tris m) -> same_triple t t' -> t = t') /\
    exists s, shape m s /\ (forall p, In p s -> In p (s1 ++ s2)) /\
      (forall a b c, In (a, b, c) (s1 ++ s2) -> exists a' b' c', In (a', b', c') s /\ Permutation [a; b; c] [a'; b'; c']).
Proof.
  intros Hd H1 H2 N1 N2. unfold mesh_or, merge. rewrite Hd, Z.eqb_refl. cbn [negb].
  destruct (verts m1) as [|v1 vs1] eqn:Ev1; [elim N1; eapply shape_nil; eauto|].
  destruct (tris m1) as [|t1 ts1] eqn:Et1; [elim N1; eapply shape_nil; eauto|].
  destruct (verts m2) as [|v2 vs2] eqn:Ev2; [elim N2; eapply shape_nil; eauto|].
  destruct (tris m2) as [|t2 ts2] eqn:Et2; [elim N2; eapply shape_nil; eauto|].
  rewrite <- Ev1, <- Et1, <- Ev2, <- Et2. 
  pose proof (shape_concat (mdim m2) m1 m2 s1 s2 H1 H2) as H. set (m0 := {| mdim := mdim m2; verts := _; tris := _ |}) in *.
  destruct (merge_vertices_ok m0 _ H) as (m' & E' & D' & S' & U' & _ & I'). rewrite E'. cbn [bind].
  destruct (merge_triangles_spec m') as (m & E & D & V & T1 & T2 & T3 & T4).
  assert (C : consistent m') by (apply consistent_shape; eauto).
  pose proof (merge_triangles_consistent m' m C E) as C'.
  exists m. split; [exact E|]. split; [rewrite D, D'; reflexivity|]. split; [exact C'|]. split; [rewrite V; exact U'|].
  split; [intros v; rewrite V, I'; cbn [m0 verts]; apply in_app_iff|]. split; [exact T4|].
  destruct (proj1 (consistent_shape m) C') as [s Hs]. exists s. split; [exact Hs|]. split.
  - intros p Hp. destruct (Forall2_in_r _ _ _ _ Hs Hp) as (t & Ht & Hc). apply T1 in Ht.
    assert (Hc' : corners m' t p) by (unfold corners in *; rewrite V in Hc; exact Hc).
    clear - S' Ht Hc'. unfold shape in S'. induction S' as [|t0 p0 l r Hp F IH]; [destruct Ht|]. destruct Ht as [->|Ht].
    + left. eapply corners_fun; eassumption.
    + right. apply IH, Ht.
  - intros a b c Hin. destruct (Forall2_in_r _ _ _ _ S' Hin) as (t & Ht & Hc). destruct (T2 t Ht) as (t' & Ht' & P).
    assert (Q : exists p', In p' s /\ corners m t' p').
    { clear - Hs Ht'. unfold shape in Hs. induction Hs as [|t0 p0 l r Hp F IH]; [destruct Ht'|]. destruct Ht' as [->|Ht'].
      - exists p0. cbn. auto.
      - destruct (IH Ht') as (p' & A & B). exists p'. cbn. auto. }
    destruct Q as ([[a' b'] c'] & Hp' & Hc'). exists a', b', c'. split; [exact Hp'|].
    destruct t as [[i j] k], t' as [[i' j'] k']. unfold same_triple in P. unfold corners in Hc, Hc'. rewrite V in Hc'.
    destruct Hc as (_ & _ & _ & A1 & A2 & A3). destruct Hc' as (_ & _ & _ & B1 & B2 & B3).
    set (g := fun x => nth (Z.to_nat x) (verts m') []).
    assert (G : forall x y, nth_error (verts m') (Z.to_nat x) = Some y -> g x = y) by (intros x y Hxy; apply nth_error_nth; exact Hxy).
    apply G in A1, A2, A3, B1, B2, B3. subst. exact (Permutation_map g P).
Qed.

Lemma split_merge m s : shape m s ->
  exists m' m'', split_shared_vertices m = Ok m' /\ merge_vertices m' = Ok m'' /\ shape m'' s /\ NoDup (verts m'').
Proof.
  intros H. destruct (split_ok m s H) as (m' & H1 & _ & _ & _ & H2). destruct (merge_vertices_ok m' s H2) as (m'' & G1 & _ & G2 & G3 & _).
  exists m', m''. auto.
Qed.

Lemma consistent_dec_prop {V} (m : mesh V) :
  forallb (fun x => (0 <=? x) && (x <? Z.of_nat (length (verts m)))) (flat_map flat_tri (tris m)) = true <-> consistent m.
Proof.
  rewrite forallb_forall. split.
  - intros H i j k Hin x Hx. specialize (H x). rewrite andb_true_iff, Z.leb_le, Z.ltb_lt in H. apply H. apply in_flat_map. exists (i, j, k). auto.
  - intros H x Hx. apply in_flat_map in Hx. destruct Hx as ([[i j] k] & Hin & Hx). rewrite andb_true_iff, Z.leb_le, Z.ltb_lt. eapply H; eauto.
Qed.
Lemma dict_2d_refuted :
  (exists m m' : mesh row, mdim m = 2 /\ (forall v : row, In v (verts m) -> length v = 2%nat) /\ consistent m /\
     dict_to_object 2 (to_dict m) = Ok m' /\ verts m' <> verts m /\ ~ consistent m') /\
  (exists m : mesh row, mdim m = 2 /\ (forall v : row, In v (verts m) -> length v = 2%nat) /\ consistent m /\
     dict_to_object 2 (to_dict m) = Err ValueError).
Proof.
  split.
  - exists {| mdim := 2; verts := [[0; 0]; [1; 0]; [0; 1]]; tris := [(0, 1, 2)] |}.
    exists {| mdim := 2; verts := [[0; 0; 1]; [0; 0; 1]]; tris := [(0, 1, 2)] |}.
    split; [reflexivity|]. split; [intros v [<-|[<-|[<-|[]]]]; reflexivity|]. split; [apply consistent_dec_prop; reflexivity|].
    split; [reflexivity|]. split; [discriminate|]. rewrite <- consistent_dec_prop. discriminate.
  - exists {| mdim := 2; verts := [[0; 0]; [1; 0]; [0; 1]; [1; 1]]; tris := [(0, 1, 2); (1, 2, 3)] |}.
    split; [reflexivity|]. split; [intros v [<-|[<-|[<-|[<-|[]]]]]; reflexivity|]. split; [apply consistent_dec_prop; reflexivity|]. reflexivity.
Qed.
Lemma or_empty_refuted : exists m1 m2 m : mesh row, mdim m1 = mdim m2 /\ consistent m1 /\ consistent m2 /\
  mesh_or m1 m2 = Ok m /\ ~ NoDup (verts m) /\
  (exists t t', In t (tris m) /\ In t' (tris m) /\ same_triple t t' /\ t <> t') /\
  from_meshes 3 [m2] true true = Ok m2 /\ ~ NoDup (verts m2).
Proof.
  exists {| mdim := 3; verts := []; tris := [] |}.
  set (m2 := {| mdim := 3; verts := [[0; 0; 0]; [1; 0; 0]; [0; 1; 0]; [0; 0; 0]]; tris := [(0, 1, 2); (1, 2, 0)] |} : mesh row).
  exists m2, m2. split; [reflexivity|]. split; [apply consistent_dec_prop; reflexivity|]. split; [apply consistent_dec_prop; reflexivity|].
  assert (N : ~ NoDup (verts m2)) by (cbn; intros H; inversion H as [|? ? Hn ?]; subst; apply Hn; cbn; auto).
  split; [reflexivity|]. split; [exact N|]. split; [|split; [reflexivity|exact N]].
  exists (0, 1, 2), (1, 2, 0). split; [cbn; auto|]. split; [cbn; auto|]. split; [|discriminate].
  unfold same_triple. apply Permutation_sym. apply (Permutation_cons_append [1; 2] 0) || (eapply perm_trans; [apply perm_skip, perm_swap|apply perm_swap]).
Qed.
