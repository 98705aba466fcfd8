(** The nodes of a mesh, their numbers and their elements. *)
From Coq Require Import Reals Lra Lia List ZArith Bool Permutation.
From Verif.Model Require Import Base RBase Vec Frame BBox FeMesh.
From Verif.Spec Require Import VecSpec FeMeshSpec.
From Verif.Proofs Require Import VecP BBoxP WiresP FeMeshP FeMeshP2.
Import ListNotations.
Open Scope R_scope.

Lemma same_key_refl p : same_key p p = true.
Proof.
  unfold same_key, node_eq, isclose. rewrite Z.eqb_refl. replace (x2 p - x2 p) with 0 by ring. replace (y2 p - y2 p) with 0 by ring. rewrite Rabs_R0. pose proof (pow10_inv_pos 12) as T.
  assert (G : forall u, Rleb 0 (Rmax u (/ 10 ^ 12)) = true) by (intros; apply Rleb_spec; pose proof (Rmax_r u (/ 10 ^ 12)); lra). rewrite !G. reflexivity.
Qed.
Lemma same_key_far p q : tell_apart p q -> same_key p q = false.
Proof.
  intros [H | H]; unfold same_key, node_eq, isclose; apply andb_false_intro2; [apply andb_false_intro1|apply andb_false_intro2]; apply Rleb_false; exact H.
Qed.
Lemma same_key_sep p q : p = q \/ tell_apart p q -> (same_key p q = true <-> p = q).
Proof. intros [-> | H]; split; intros K; auto; try apply same_key_refl. rewrite (same_key_far _ _ H) in K. discriminate. subst. apply same_key_refl. Qed.
Lemma far_sym a b : far a b -> far b a.
Proof. unfold far. rewrite (Rmax_comm (Rabs b)), <- (Rabs_Ropp (b - a)). replace (- (b - a)) with (a - b) by ring. auto. Qed.
Lemma tell_apart_sym p q : tell_apart p q -> tell_apart q p.
Proof. intros [H | H]; [left | right]; apply far_sym; auto. Qed.
Lemma far_neq a b : far a b -> a <> b.
Proof. intros H ->. unfold far in H. replace (b - b) with 0 in H by ring. rewrite Rabs_R0 in H. pose proof (Rmax_r (/ 10 ^ 9 * Rmax (Rabs b) (Rabs b)) (/ 10 ^ 12)). pose proof (pow10_inv_pos 12). lra. Qed.
Lemma tell_neq p q : tell_apart p q -> p <> q.
Proof. intros [H | H] ->; eapply far_neq; eauto. Qed.

(** sets *)
Lemma set_add_in s p q : In q (set_add s p) -> In q s \/ q = p.
Proof. unfold set_add. destruct (existsb _ s); auto. intros H. apply in_app_iff in H as [H | [H | []]]; auto. Qed.
Lemma fold_add_in l : forall s q, In q (fold_left set_add l s) -> In q s \/ In q l.
Proof. induction l as [|p l IH]; intros s q H; cbn [fold_left] in H; auto. apply IH in H as [H | H]; [|right; right; auto]. apply set_add_in in H as [H | ->]; auto. right. left. auto. Qed.
Lemma fold_add_keep l : forall s q, In q s -> In q (fold_left set_add l s).
Proof. induction l as [|p l IH]; intros s q H; cbn [fold_left]; auto. apply IH. unfold set_add. destruct (existsb _ s); auto. apply in_app_iff. auto. Qed.
Lemma fold_add_cover l : forall s q, In q l -> exists n, In n (fold_left set_add l s) /\ (n = q \/ same_key q n = true).
Proof.
  induction l as [|p l IH]; intros s q H; [destruct H|]. cbn [fold_left]. destruct H as [-> | H]; [|apply IH; auto].
  unfold set_add. destruct (existsb (same_key q) s) eqn:E.
  - apply existsb_exists in E as (n & I & K). exists n. split; auto. apply fold_add_keep. auto.
  - exists q. split; auto. apply fold_add_keep. apply in_app_iff. right. left. auto.
Qed.
Lemma fold_add_nodup l : forall s, NoDup s -> NoDup (fold_left set_add l s).
Proof.
  induction l as [|p l IH]; intros s H; cbn [fold_left]; auto. apply IH. unfold set_add. destruct (existsb (same_key p) s) eqn:E; auto.
  apply (Permutation_NoDup (Permutation_cons_append s p)). constructor; auto. intros I. assert (existsb (same_key p) s = true) by (apply existsb_exists; exists p; split; auto; apply same_key_refl). congruence.
Qed.
Lemma fold_add_ok l : separated l -> NoDup (fold_left set_add l []) /\ (forall p, In p (fold_left set_add l []) <-> In p l).
Proof.
  intros H. split; [apply fold_add_nodup; constructor|]. intros p. split; intros I.
  - apply fold_add_in in I as [[] | I]. auto.
  - destruct (fold_add_cover l [] p I) as (n & J & [-> | K]); auto. apply same_key_sep in K; [subst; auto|]. apply H; auto. apply fold_add_in in J as [[] | J]. auto.
Qed.
Lemma in_points (gs : list group) (p : vec2) : In p (concat (concat gs)) <-> exists g e, In g gs /\ In e g /\ In p e.
Proof.
  rewrite in_concat. split.
  - intros (e & I & J). apply in_concat in I as (g & A & B). exists g, e. auto.
  - intros (g & e & A & B & C). exists e. split; auto. apply in_concat. exists g. auto.
Qed.
Lemma mesh_nodes_ok gs : separated (concat (concat gs)) -> NoDup (mesh_nodes gs) /\ (forall p, In p (mesh_nodes gs) <-> exists g e, In g gs /\ In e g /\ In p e).
Proof. intros H. destruct (fold_add_ok _ H) as (A & B). split; auto. intros p. rewrite <- in_points. apply B. Qed.
Lemma mesh_nodes_points gs : NoDup (mesh_nodes gs) /\ (forall p, In p (mesh_nodes gs) -> exists g e, In g gs /\ In e g /\ In p e).
Proof. split; [apply fold_add_nodup; constructor|]. intros p H. apply in_points. apply fold_add_in in H as [[] | H]. auto. Qed.
Lemma group_nodes_ok g : separated (concat g) -> NoDup (group_nodes g) /\ (forall p, In p (group_nodes g) <-> exists e, In e g /\ In p e).
Proof. intros H. destruct (fold_add_ok _ H) as (A & B). split; auto. intros p. rewrite (B p), in_concat. tauto. Qed.
(** the numbers *)
Lemma find_node_ok l p : (forall q, In q l -> p = q \/ tell_apart p q) -> NoDup l -> forall k i, find_node l p k = Some i <-> (k <= i)%nat /\ nth_error l (i - k) = Some p.
Proof.
  induction l as [|q l IH]; intros H N k i; cbn [find_node].
  - split; [discriminate|]. intros (_ & E). destruct (i - k)%nat; discriminate.
  - inversion N as [|? ? N1 N2]; subst. destruct (same_key p q) eqn:E.
    + apply same_key_sep in E; [|apply H; left; auto]. subst q. split.
      * intros K. apply some_inj in K. subst i. replace (k - k)%nat with 0%nat by lia. split; auto.
      * intros (L & K). destruct (i - k)%nat as [|j] eqn:J; [f_equal; lia|]. cbn [nth_error] in K. exfalso. apply N1. eapply nth_error_In; eauto.
    + rewrite IH by (auto; intros; apply H; right; auto). split.
      * intros (L & K). split; [lia|]. replace (i - k)%nat with (S (i - S k)) by lia. auto.
      * intros (L & K). destruct (i - k)%nat as [|j] eqn:J; [cbn in K; apply some_inj in K; subst q; rewrite same_key_refl in E; discriminate|]. split; [lia|]. replace (i - S k)%nat with j by lia. auto.
Qed.
Lemma node_to_index_ok gs p : separated (p :: concat (concat gs)) -> forall i, node_to_index gs p = Some i <-> nth_error (mesh_nodes gs) i = Some p.
Proof.
  intros H i. unfold node_to_index. rewrite find_node_ok.
  - rewrite Nat.sub_0_r. split; [tauto|]. intros; split; auto; lia.
  - intros q I. apply H; [left; auto|]. right. apply fold_add_in in I as [[] | I]. auto.
  - apply mesh_nodes_points.
Qed.
(** dictionaries *)
Definition okeys {A} (U : list vec2) (d : list (vec2 * A)) : Prop := forall k, In k (map fst d) -> In k U.
Lemma append_keys {A} U (d : list (vec2 * list A)) k a : okeys U d -> In k U -> okeys U (dict_append d k a).
Proof.
  induction d as [|[k' l] d IH]; intros H I q J; cbn [dict_append map fst] in J.
  - destruct J as [<- | []]; auto.
  - destruct (same_key k k') eqn:E; cbn [map fst] in J.
    + apply H. exact J.
    + destruct J as [<- | J]; [apply H; left; auto|]. apply IH in J; auto. intros r R0. apply H. right. auto.
Qed.
Lemma set_keys {A} U (d : list (vec2 * A)) k a : okeys U d -> In k U -> okeys U (dict_set d k a).
Proof.
  induction d as [|[k' l] d IH]; intros H I q J; cbn [dict_set map fst] in J.
  - destruct J as [<- | []]; auto.
  - destruct (same_key k k') eqn:E; cbn [map fst] in J.
    + apply H. exact J.
    + destruct J as [<- | J]; [apply H; left; auto|]. apply IH in J; auto. intros r R0. apply H. right. auto.
Qed.
Definition vals {A} (d : list (vec2 * list A)) p : list A := match dict_get d p with Some l => l | None => [] end.
Lemma get_append_same {A} U (d : list (vec2 * list A)) k a : separated U -> okeys U d -> In k U -> dict_get (dict_append d k a) k = Some (vals d k ++ [a]).
Proof.
  intros S. induction d as [|[k' l] d IH]; intros H I; unfold vals; cbn [dict_append dict_get].
  - rewrite same_key_refl. reflexivity.
  - destruct (same_key k k') eqn:E; cbn [dict_get]; rewrite E; [reflexivity|]. rewrite IH; auto. intros q J. apply H. right. auto.
Qed.
Lemma get_append_other {A} U (d : list (vec2 * list A)) k a p : separated U -> okeys U d -> In k U -> In p U -> p <> k -> dict_get (dict_append d k a) p = dict_get d p.
Proof.
  intros S. induction d as [|[k' l] d IH]; intros H I J N; cbn [dict_append dict_get].
  - destruct (same_key p k) eqn:E; auto. apply same_key_sep in E; [|apply S; auto]. contradiction.
  - assert (I' : In k' U) by (apply H; left; auto). destruct (same_key k k') eqn:E; cbn [dict_get].
    + destruct (same_key p k') eqn:F; auto. apply same_key_sep in E; [|apply S; auto]. apply same_key_sep in F; [|apply S; auto]. congruence.
    + destruct (same_key p k'); auto. apply IH; auto. intros q Q. apply H. right. auto.
Qed.
Lemma get_set_same {A} U (d : list (vec2 * A)) k a : separated U -> okeys U d -> In k U -> dict_get (dict_set d k a) k = Some a.
Proof.
  intros S. induction d as [|[k' l] d IH]; intros H I; cbn [dict_set dict_get].
  - rewrite same_key_refl. reflexivity.
  - destruct (same_key k k') eqn:E; cbn [dict_get]; rewrite E; [reflexivity|]. apply IH; auto. intros q J. apply H. right. auto.
Qed.
Lemma get_set_other {A} U (d : list (vec2 * A)) k a p : separated U -> okeys U d -> In k U -> In p U -> p <> k -> dict_get (dict_set d k a) p = dict_get d p.
Proof.
  intros S. induction d as [|[k' l] d IH]; intros H I J N; cbn [dict_set dict_get].
  - destruct (same_key p k) eqn:E; auto. apply same_key_sep in E; [|apply S; auto]. contradiction.
  - assert (I' : In k' U) by (apply H; left; auto). destruct (same_key k k') eqn:E; cbn [dict_get].
    + destruct (same_key p k') eqn:F; auto. apply same_key_sep in E; [|apply S; auto]. apply same_key_sep in F; [|apply S; auto]. congruence.
    + destruct (same_key p k'); auto. apply IH; auto. intros q Q. apply H. right. auto.
Qed.
(** the elements of a node *)
Lemma inner_keys {A} U (e : A) ps : forall d, okeys U d -> (forall q, In q ps -> In q U) -> okeys U (fold_left (fun d p => dict_append d p e) ps d).
Proof. induction ps as [|q ps IH]; intros d H I; cbn [fold_left]; auto. apply IH; [apply append_keys; auto; apply I; left; auto|]. intros; apply I; right; auto. Qed.
Lemma inner_out {A} U (e : A) ps p : separated U -> In p U -> forall d, okeys U d -> (forall q, In q ps -> In q U) -> ~ In p ps -> dict_get (fold_left (fun d p => dict_append d p e) ps d) p = dict_get d p.
Proof.
  intros S P. induction ps as [|q ps IH]; intros d H I N; cbn [fold_left]; auto. rewrite IH.
  - apply (get_append_other U); auto. apply I; left; auto. intros ->. apply N. left; auto.
  - apply append_keys; auto. apply I; left; auto.
  - intros; apply I; right; auto.
  - intros J. apply N. right. auto.
Qed.
Lemma inner_in {A} U (e : A) ps p : separated U -> In p U -> forall d, okeys U d -> (forall q, In q ps -> In q U) -> NoDup ps -> In p ps -> dict_get (fold_left (fun d p => dict_append d p e) ps d) p = Some (vals d p ++ [e]).
Proof.
  intros S P. induction ps as [|q ps IH]; intros d H I N J; [destruct J|]. cbn [fold_left]. inversion N as [|? ? N1 N2]; subst.
  assert (Q : In q U) by (apply I; left; auto). assert (I' : forall r, In r ps -> In r U) by (intros; apply I; right; auto).
  destruct J as [-> | J].
  - rewrite (inner_out U) by (auto; apply append_keys; auto). apply (get_append_same U); auto.
  - rewrite IH; auto; [|apply append_keys; auto]. unfold vals. rewrite (get_append_other U d q e p); auto. intros ->. contradiction.
Qed.
Lemma outer_ok U p (has : element -> bool) : separated U -> In p U -> (forall e, has e = true <-> In p e) -> forall g d, okeys U d -> (forall q, In q (concat g) -> In q U) -> (forall e, In e g -> NoDup e) ->
  dict_get (fold_left (fun d e => fold_left (fun d p => dict_append d p e) e d) g d) p = match filter has g with [] => dict_get d p | l => Some (vals d p ++ l) end.
Proof.
  intros S P B. induction g as [|e g IH]; intros d H I N; cbn [fold_left filter]; auto.
  assert (IE : forall q, In q e -> In q U) by (intros; apply I; cbn [concat]; apply in_app_iff; auto).
  rewrite IH.
  - destruct (has e) eqn:E.
    + apply B in E. assert (K := inner_in U e e p S P d H IE (N e (or_introl eq_refl)) E). unfold vals at 1. rewrite K. destruct (filter has g) as [|f l]; auto. rewrite <- app_assoc. reflexivity.
    + assert (E' : ~ In p e) by (intros J; apply B in J; congruence). unfold vals. rewrite (inner_out U); auto.
  - apply inner_keys; auto.
  - intros; apply I; cbn [concat]; apply in_app_iff; auto.
  - intros; apply N; right; auto.
Qed.
Lemma elements_per_node_ok g p (has : element -> bool) : separated (p :: concat g) -> (forall e, In e g -> NoDup e) -> (forall e, has e = true <-> In p e) ->
  dict_get (elements_per_node g) p = match filter has g with [] => None | l => Some l end.
Proof.
  intros S N B. unfold elements_per_node. rewrite (outer_ok (p :: concat g) p has S (or_introl eq_refl) B); [cbn [dict_get vals app]; reflexivity| | |auto].
  - intros k [].
  - intros; right; auto.
Qed.
(** the element of a point *)
Lemma mesh_point_find belongs gs : mesh_point_to_element belongs gs = find belongs (concat gs).
Proof.
  induction gs as [|g gs IH]; cbn [mesh_point_to_element concat]; auto. unfold group_point_to_element. rewrite IH. clear IH.
  induction g as [|e g IH]; cbn [find app]; auto. destruct (belongs e); auto.
Qed.
Lemma find_first {A} (f : A -> bool) l a : find f l = Some a <-> exists l1 l2, l = l1 ++ a :: l2 /\ f a = true /\ (forall b, In b l1 -> f b = false).
Proof.
  induction l as [|b l IH]; cbn [find].
  - split; [discriminate|]. intros (l1 & l2 & E & _). destruct l1; discriminate.
  - destruct (f b) eqn:E.
    + split.
      * intros K. apply some_inj in K. subst b. exists [], l. split; [reflexivity|]. split; auto. intros b [].
      * intros (l1 & l2 & Q & F & G). destruct l1 as [|c l1]; cbn [app] in Q; [congruence|]. assert (b = c) by congruence. subst c. rewrite (G b (or_introl eq_refl)) in E. discriminate.
    + rewrite IH. split.
      * intros (l1 & l2 & -> & F & G). exists (b :: l1), l2. split; [reflexivity|]. split; auto. intros c [<- | I]; auto.
      * intros (l1 & l2 & Q & F & G). destruct l1 as [|c l1]; cbn [app] in Q; [congruence|]. exists l1, l2. split; [congruence|]. split; auto. intros; apply G; right; auto.
Qed.
Lemma point_to_element_some belongs gs e : mesh_point_to_element belongs gs = Some e <-> exists l1 l2, concat gs = l1 ++ e :: l2 /\ belongs e = true /\ (forall f, In f l1 -> belongs f = false).
Proof. rewrite mesh_point_find. apply find_first. Qed.
Lemma point_to_element_none belongs gs : mesh_point_to_element belongs gs = None <-> forall g e, In g gs -> In e g -> belongs e = false.
Proof.
  rewrite mesh_point_find. split.
  - intros H g e I J. apply (find_none _ _ H). apply in_concat. exists g. auto.
  - intros H. destruct (find belongs (concat gs)) eqn:E; auto. apply find_some in E as (I & E). apply in_concat in I as (g & A & B). rewrite (H g e A B) in E. discriminate.
Qed.
(** the rectangle *)
Lemma mesh_rectangle_ok gs : (exists g e p, In g gs /\ In e g /\ In p e) -> exists xm xM ym yM, mesh_rectangle gs = Ok (xm, xM, ym, yM) /\
  (separated (concat (concat gs)) -> forall g e p, In g gs -> In e g -> In p e -> xm <= x2 p <= xM /\ ym <= y2 p <= yM) /\
  (forall c x, In (c, x) [(x2, xm); (x2, xM); (y2, ym); (y2, yM)] -> exists g e p, In g gs /\ In e g /\ In p e /\ c p = x).
Proof.
  intros (g & e & p & A & B & C). destruct (fold_add_cover (concat (concat gs)) [] p) as (n & I & _); [apply in_points; eauto|]. change (In n (mesh_nodes gs)) in I.
  unfold mesh_rectangle. destruct (mesh_nodes gs) as [|q l] eqn:E; [exfalso; exact I|]. do 4 eexists. split; [reflexivity|]. split.
  - intros S g' e' p' A' B' C'. assert (J : In p' (q :: l)). { rewrite <- E. apply mesh_nodes_ok; auto. eauto. } repeat split; try apply lmin_in; try apply lmax_in; auto.
  - destruct (mesh_nodes_points gs) as (_ & P). rewrite E in P.
    assert (G1 : forall c : vec2 -> R, exists r, In r (q :: l) /\ c r = lmin (c q) (map c l)). { intros c. destruct (lmin_spec (map c l) (c q)) as (_ & _ & [Q | Q]); [exists q; split; [left|]; auto|]. apply in_map_iff in Q as (r & Q & R0). exists r. split; [right|]; auto. }
    assert (G2 : forall c : vec2 -> R, exists r, In r (q :: l) /\ c r = lmax (c q) (map c l)). { intros c. destruct (lmax_spec (map c l) (c q)) as (_ & _ & [Q | Q]); [exists q; split; [left|]; auto|]. apply in_map_iff in Q as (r & Q & R0). exists r. split; [right|]; auto. }
    assert (G : forall (c : vec2 -> R) x, (exists r, In r (q :: l) /\ c r = x) -> exists g e p, In g gs /\ In e g /\ In p e /\ c p = x). { intros c x (r & R0 & R1). destruct (P r R0) as (g1 & e1 & Y1 & Y2 & Y3). exists g1, e1, r. auto. }
    intros c x [Q | [Q | [Q | [Q | []]]]]; apply pair_equal_spec in Q as [<- <-]; apply G; [apply G1|apply G2|apply G1|apply G2].
Qed.
Lemma mesh_rectangle_empty : mesh_rectangle [] = Err IndexError. Proof. reflexivity. Qed.
(** equal nodes, two hashes *)
Lemma int_part_is r z : IZR z <= r < IZR z + 1 -> Int_part r = z.
Proof. intros H. unfold Int_part. rewrite <- (up_tech r z); [lia|lra|]. rewrite plus_IZR. lra. Qed.
Lemma equal_nodes_two_hashes : exists p q, node_eq p q = true /\ node_hash p <> node_hash q /\ mesh_nodes [[[p; q]]] = [p; q].
Proof.
  pose proof (pow10_inv_pos 6) as T6. assert (I6 : / 10 ^ 6 = 1 / 1000000) by lra.
  set (p := V2 (/ 10 ^ 6) 0). set (q := V2 (/ 10 ^ 6 - / 2 * / 10 ^ 12) 0). exists p, q.
  assert (Hp : node_hash p = 1%Z). { unfold node_hash, trunc, p. cbn [x2 y2]. replace (10 ^ 6 * (/ 10 ^ 6 + 0)) with (IZR 1) by (simpl; field). replace (Rleb 0 (IZR 1)) with true by (symmetry; apply Rleb_spec; lra). apply int_part_is. lra. }
  assert (Hq : node_hash q = 0%Z). { unfold node_hash, trunc, q. cbn [x2 y2]. set (u := 10 ^ 6 * (/ 10 ^ 6 - / 2 * / 10 ^ 12 + 0)). assert (U : 0 <= u < 1) by (unfold u; lra). replace (Rleb 0 u) with true by (symmetry; apply Rleb_spec; lra). apply int_part_is. lra. }
  assert (N : node_eq p q = true). { unfold node_eq, isclose, p, q. cbn [x2 y2]. apply andb_true_intro. split; apply Rleb_spec.
    - replace (/ 10 ^ 6 - (/ 10 ^ 6 - / 2 * / 10 ^ 12)) with (/ 2 * / 10 ^ 12) by ring. pose proof (pow10_inv_pos 12). rewrite Rabs_right by lra. eapply Rle_trans; [|apply Rmax_r]. lra.
    - replace (0 - 0) with 0 by ring. rewrite Rabs_R0. eapply Rle_trans; [|apply Rmax_r]. pose proof (pow10_inv_pos 12). lra. }
  split; auto. split; [rewrite Hp, Hq; discriminate|]. unfold mesh_nodes. cbn [concat app fold_left]. unfold set_add at 2. cbn [existsb app]. unfold set_add. cbn [existsb]. unfold same_key. rewrite Hp, Hq. reflexivity.
Qed.
