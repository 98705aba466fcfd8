(** The shells made from faces. *)
From Coq Require Import List Arith ZArith Lia Bool Relations.
From Verif.Model Require Import Base Shells.
From Verif.Spec Require Import ShellsSpec.
From Verif.Proofs Require Import ShellsP2.
Import ListNotations.

Section G.
Variables (V : Type) (close : V -> V -> bool).
Hypothesis Q : equivalence close.
Lemma c_refl a : close a a = true. Proof. destruct Q as (H & _ & _). apply H. Qed.
Lemma c_sym a b : close a b = true -> close b a = true. Proof. destruct Q as (_ & H & _). apply H. Qed.
Lemma c_trans a b c : close a b = true -> close b c = true -> close a c = true. Proof. destruct Q as (_ & _ & H). apply H. Qed.
Lemma index_same p q l : close p q = true -> point_index close p l = point_index close q l.
Proof.
  intros C. induction l as [|a l IH]; cbn [point_index]; auto. rewrite IH. replace (close a p) with (close a q); auto.
  destruct (close a p) eqn:E; [eapply c_trans; eauto|]. destruct (close a q) eqn:F; auto. assert (close a p = true) by (eapply c_trans; [exact F|apply c_sym; auto]). congruence.
Qed.
Lemma index_some p l : in_list close p l = true -> exists k, point_index close p l = Some k.
Proof.
  unfold in_list. induction l as [|a l IH]; cbn [existsb point_index]; [discriminate|]. intros H. destruct (close a p) eqn:E; [eauto|]. apply orb_true_iff in H as [H | H]; [apply c_sym in H; congruence|]. destruct (IH H) as (k & ->). cbn. eauto.
Qed.
Lemma index_nth p l : forall k, point_index close p l = Some k -> exists v, nth_error l k = Some v /\ close v p = true.
Proof.
  induction l as [|a l IH]; cbn [point_index]; [discriminate|]. intros k. destruct (close a p) eqn:E; [intros [= <-]; exists a; auto|]. destruct (point_index close p l) as [j|]; [|discriminate]. cbn. intros [= <-]. apply IH. auto.
Qed.
Lemma index_eq p q l : in_list close p l = true -> in_list close q l = true -> (opt_nat_eqb (point_index close p l) (point_index close q l) = true <-> close p q = true).
Proof.
  intros P R. apply index_some in P as (k & K). split.
  - apply index_some in R as (j & J). rewrite K, J. cbn. rewrite Nat.eqb_eq. intros ->. destruct (index_nth _ _ _ K) as (v & A & B). destruct (index_nth _ _ _ J) as (w & A' & B'). assert (v = w) by congruence. subst w. eapply c_trans; [apply c_sym; exact B|auto].
  - intros C. rewrite <- (index_same p q l C), K. cbn. apply Nat.eqb_refl.
Qed.
Definition vstep (vs : list V) (e : V * V) : list V := let vs := if in_list close (fst e) vs then vs else vs ++ [fst e] in if in_list close (snd e) vs then vs else vs ++ [snd e].
Lemma in_list_app p l m : in_list close p l = true -> in_list close p (l ++ m) = true.
Proof. unfold in_list. intros H. rewrite existsb_app, H. reflexivity. Qed.
Lemma vstep_mono p vs e : in_list close p vs = true -> in_list close p (vstep vs e) = true.
Proof. intros H. unfold vstep. cbv zeta. destruct (in_list close (fst e) vs); destruct (in_list close (snd e) _); repeat apply in_list_app; auto. Qed.
Lemma vstep_fst vs e : in_list close (fst e) (vstep vs e) = true.
Proof.
  unfold vstep. cbv zeta. set (vs' := if in_list close (fst e) vs then vs else vs ++ [fst e]). assert (H : in_list close (fst e) vs' = true). { unfold vs'. destruct (in_list close (fst e) vs) eqn:E; auto. unfold in_list. rewrite existsb_app. cbn. rewrite c_refl, orb_true_r. reflexivity. }
  destruct (in_list close (snd e) vs'); [auto|apply in_list_app; auto].
Qed.
Lemma vertices_all faces f e : In f faces -> In e f -> in_list close (fst e) (vertices_points close faces) = true.
Proof.
  intros F E. unfold vertices_points. change (fun vs e0 => _) with vstep. assert (I : In e (concat faces)) by (apply in_concat; eauto). revert I. generalize (concat faces). clear F E faces f.
  assert (M : forall l vs, in_list close (fst e) vs = true -> in_list close (fst e) (fold_left vstep l vs) = true). { induction l as [|a l IH]; intros vs H; cbn [fold_left]; auto. apply IH, vstep_mono; auto. }
  intros l. generalize (@nil V). induction l as [|a l IH]; intros vs I; [destruct I|]. cbn [fold_left]. destruct I as [-> | I]; [apply M, vstep_fst|apply IH; auto].
Qed.
Lemma nth_ids faces i (vs : list V) : nth i (map (face_vertices close vs) faces) [] = face_vertices close vs (nth i faces []).
Proof. change (@nil (option nat)) with (face_vertices close vs []). apply map_nth. Qed.
Lemma edges_ok faces : (forall f, In f faces -> f <> []) -> exists g, graph_edges close faces = Ok g /\ forall i j, In (i, j) g <-> (i < j)%nat /\ share_vertex close faces i j.
Proof.
  intros NE. unfold graph_edges. set (vs := vertices_points close faces). replace (existsb _ _) with false.
  2:{ symmetry. apply not_true_iff_false. rewrite existsb_exists. intros (f & I & E). apply in_map_iff in I as (g & <- & I). apply (NE g I). destruct g; [auto|discriminate]. }
  eexists. split; [reflexivity|]. intros i j. rewrite in_flat_map. split.
  - intros (i' & I & H). apply in_seq in I. apply in_flat_map in H as (v & Hv & H). apply in_map_iff in H as (j' & E & H). apply pair_equal_spec in E as [-> ->]. apply filter_In in H as (J & H). apply in_seq in J. apply andb_true_iff in H as (L & H). apply Nat.ltb_lt in L. split; auto.
    rewrite nth_ids in *. apply existsb_exists in H as (w & W & E). unfold face_vertices in Hv, W. apply in_map_iff in Hv as (ei & <- & Hi). apply in_map_iff in W as (ej & <- & Hj).
    assert (NI : nth_error faces i = Some (nth i faces [])) by (apply nth_error_nth'; lia). assert (NJ : nth_error faces j = Some (nth j faces [])) by (apply nth_error_nth'; lia).
    exists (nth i faces []), (nth j faces []), ei, ej. do 4 (split; [auto|]). apply (index_eq (fst ei) (fst ej) vs); [apply (vertices_all faces (nth i faces [])); [eapply nth_error_In; exact NI|auto]|apply (vertices_all faces (nth j faces [])); [eapply nth_error_In; exact NJ|auto]|exact E].
  - intros (L & fi & fj & ei & ej & NI & NJ & Hi & Hj & C). assert (LJ : (j < length faces)%nat) by (apply nth_error_Some; congruence). exists i. split; [apply in_seq; lia|]. apply in_flat_map.
    exists (point_index close (fst ei) vs). rewrite nth_ids, (nth_error_nth _ _ _ NI). split; [apply (in_map (fun e => point_index close (fst e) vs)); auto|]. apply in_map_iff. exists j. split; auto. apply filter_In. split; [apply in_seq; lia|].
    apply andb_true_iff. split; [apply Nat.ltb_lt; auto|]. apply existsb_exists. rewrite nth_ids, (nth_error_nth _ _ _ NJ). exists (point_index close (fst ej) vs). split; [apply (in_map (fun e => point_index close (fst e) vs)); auto|].
    apply index_eq; [apply (vertices_all faces fi); [eapply nth_error_In; exact NI|auto]|apply (vertices_all faces fj); [eapply nth_error_In; exact NJ|auto]|exact C].
Qed.
Lemma share_sym faces i j : share_vertex close faces i j -> share_vertex close faces j i.
Proof. intros (fi & fj & ei & ej & A & B & C & E & F). exists fj, fi, ej, ei. do 4 (split; [auto|]). apply c_sym; auto. Qed.
Lemma nb_next faces g : (forall i j, In (i, j) g <-> (i < j)%nat /\ share_vertex close faces i j) -> forall i j, In j (neighbors g i) <-> next_face close faces i j.
Proof.
  intros H i j. rewrite neighbors_in, !H. unfold next_face. split; [intros [(L & S0) | (L & S0)]; (split; [lia|auto using share_sym])|]. intros (N & S0). destruct (Nat.lt_ge_cases i j); [left; auto|right; split; [lia|auto using share_sym]].
Qed.
Lemma reach_chain faces g i j : (forall i j, In j (neighbors g i) <-> next_face close faces i j) -> (reach g i j <-> chain close faces i j).
Proof. intros H. unfold reach, chain. split; induction 1; try (apply rt_refl); try (eapply rt_trans; eauto; fail); apply rt_step; apply H; auto. Qed.
Lemma open_iff (over : V * V -> nat -> bool) faces g c : (forall i j, In j (neighbors g i) <-> next_face close faces i j) -> (is_shell_open over faces g c = true <->
   exists i e, In i c /\ In e (nth i faces []) /\ forall j, next_face close faces i j -> over e j = false).
Proof.
  intros H. unfold is_shell_open. rewrite existsb_exists. split.
  - intros (i & I & E). apply existsb_exists in E as (e & E & F). exists i, e. do 2 (split; [auto|]). intros j J. apply H in J. destruct (over e j) eqn:O; auto. apply negb_true_iff in F. assert (existsb (over e) (neighbors g i) = true) by (apply existsb_exists; eauto). congruence.
  - intros (i & e & I & E & F). exists i. split; auto. apply existsb_exists. exists e. split; auto. apply negb_true_iff. apply not_true_iff_false. rewrite existsb_exists. intros (j & J & O). apply H in J. rewrite (F j J) in O. discriminate.
Qed.
Lemma from_faces_sec over faces : (forall f, In f faces -> f <> []) -> exists shells, from_faces close over faces = Ok shells /\
  (forall i, (exists o c, In (o, c) shells /\ In i c) <-> exists j, next_face close faces i j) /\
  (forall o c, In (o, c) shells -> NoDup c /\ c <> [] /\ forall i, In i c -> forall j, In j c <-> chain close faces i j) /\
  (forall a b s t i, nth_error shells a = Some s -> nth_error shells b = Some t -> In i (snd s) -> In i (snd t) -> a = b) /\
  (forall o c, In (o, c) shells -> (o = true <-> exists i e, In i c /\ In e (nth i faces []) /\ forall j, next_face close faces i j -> over e j = false)).
Proof.
  intros NE. destruct (edges_ok faces NE) as (g & E & H). assert (NB := nb_next faces g H). unfold from_faces. rewrite E. cbn [bind]. eexists. split; [reflexivity|].
  destruct (components_spec g) as (A & B & C). set (cs := connected_components g) in *.
  assert (MI : forall o c, In (o, c) (map (fun c => (is_shell_open over faces g c, c)) cs) <-> In c cs /\ o = is_shell_open over faces g c).
  { intros o c. rewrite in_map_iff. split; [intros (d & P & I); apply pair_equal_spec in P as [<- <-]; auto|intros (I & ->); eauto]. }
  split; [|split; [|split]].
  - intros i. split.
    + intros (o & c & I & J). apply MI in I as (I & _). destruct (A c I) as (x & X & ->). assert (N : In i (nodes g)). { apply (component_spec g x X) in J. assert (R0 : forall a b, reach g a b -> In a (nodes g) -> In b (nodes g)). { intros a b R0. induction R0; auto. intros _. apply (neighbors_nodes g x0 y) in H0. tauto. } eapply R0; eauto. }
      apply nodes_in in N as ([a b] & N & Q0). apply H in N as (L & S0). destruct Q0 as [-> | ->]; cbn [fst snd]; [exists b; split; [lia|auto]|exists a; split; [lia|apply share_sym; auto]].
    + intros (j & J). apply NB in J. apply neighbors_nodes in J as (J & _). destruct (B i J) as (c & I & K). exists (is_shell_open over faces g c), c. split; auto. apply MI. auto.
  - intros o c I. apply MI in I as (I & _). destruct (A c I) as (x & X & ->). destruct (component_spec g x X) as (ND & CS). split; auto. split; [intros Z; assert (K : In x (component g x)) by (apply CS; apply rt_refl); rewrite Z in K; destruct K|].
    intros i Ii j. apply CS in Ii. rewrite CS, <- (reach_chain faces g i j NB). split; intros R0; [eapply rt_trans; [apply reach_sym; exact Ii|auto]|eapply rt_trans; eauto].
  - intros a b s t i Na Nb I J. rewrite nth_error_map in Na, Nb. destruct (nth_error cs a) as [c|] eqn:Ca; [|discriminate]. destruct (nth_error cs b) as [d|] eqn:Cb; [|discriminate]. cbn in Na, Nb. injection Na as <-. injection Nb as <-. cbn [snd] in *. eapply C; eauto.
  - intros o c I. apply MI in I as (I & ->). apply open_iff. auto.
Qed.
End G.
Lemma from_faces_ok {V} (close : V -> V -> bool) over faces : equivalence close -> (forall f, In f faces -> f <> []) -> exists shells, from_faces close over faces = Ok shells /\
  (forall i, (exists o c, In (o, c) shells /\ In i c) <-> exists j, next_face close faces i j) /\
  (forall o c, In (o, c) shells -> NoDup c /\ c <> [] /\ forall i, In i c -> forall j, In j c <-> chain close faces i j) /\
  (forall a b s t i, nth_error shells a = Some s -> nth_error shells b = Some t -> In i (snd s) -> In i (snd t) -> a = b) /\
  (forall o c, In (o, c) shells -> (o = true <-> exists i e, In i c /\ In e (nth i faces []) /\ forall j, next_face close faces i j -> over e j = false)).
Proof. intros Q. apply from_faces_sec. auto. Qed.
Lemma faces_open_ok {V} (close : V -> V -> bool) over faces : equivalence close -> (forall f, In f faces -> f <> []) -> exists o, faces_open close over faces = Ok o /\
  (o = true <-> exists i e, (exists j, next_face close faces i j) /\ In e (nth i faces []) /\ forall j, next_face close faces i j -> over e j = false).
Proof.
  intros Q NE. destruct (edges_ok V close Q faces NE) as (g & E & H). assert (NB := nb_next V close Q faces g H). unfold faces_open. rewrite E. cbn [bind]. eexists. split; [reflexivity|]. rewrite (open_iff V close over faces g (nodes g) NB).
  assert (NN : forall i, In i (nodes g) <-> exists j, next_face close faces i j).
  { intros i. rewrite nodes_in. split; [|intros (j & J); apply NB in J; apply neighbors_nodes in J as (J & _); apply nodes_in in J; auto]. intros ([a b] & N & Q0). apply H in N as (L & S0). destruct Q0 as [-> | ->]; cbn [fst snd]; [exists b; split; [lia|auto]|exists a; split; [lia|eapply share_sym; eauto]]. }
  split; intros (i & e & I & R0); exists i, e; (split; [apply NN; auto|auto]).
Qed.
Lemma from_faces_empty {V} (close : V -> V -> bool) over faces f : In f faces -> f = [] -> from_faces close over faces = Err KeyError.
Proof.
  intros I ->. unfold from_faces, graph_edges. replace (existsb _ _) with true; auto. symmetry. apply existsb_exists. exists []. split; auto. change (@nil (option nat)) with (face_vertices close (vertices_points close faces) []). apply in_map. auto.
Qed.
Lemma isolated_lost : exists (close : nat -> nat -> bool) over f, equivalence close /\ f <> [] /\ from_faces close over [f] = Ok [].
Proof.
  exists Nat.eqb, (fun _ _ => true), [(0, 1); (1, 2); (2, 0)]. split; [repeat split; intros; rewrite ?Nat.eqb_eq in *; congruence || auto using Nat.eqb_refl|]. split; [discriminate|vm_compute; reflexivity].
Qed.
Lemma one_face_closed : exists (close : nat -> nat -> bool) over f, equivalence close /\ f <> [] /\ (forall e j, In e f -> over e j = false) /\ faces_open close over [f] = Ok false.
Proof.
  exists Nat.eqb, (fun _ _ => false), [(0, 1); (1, 2); (2, 0)]. split; [repeat split; intros; rewrite ?Nat.eqb_eq in *; congruence || auto using Nat.eqb_refl|]. split; [discriminate|]. split; auto.
Qed.
(** the cached graphs *)
Lemma vertices_graph_none {G} empty (make_faces : bool -> G) make_vertices verify : empty (make_faces verify) = false ->
  fst (vertices_graph empty make_vertices (snd (faces_graph empty make_faces no_graph verify))) = None.
Proof. intros E. unfold faces_graph, vertices_graph, no_graph. cbn [g_faces g_vertices falsy fst snd]. rewrite E. reflexivity. Qed.
Lemma vertices_graph_fresh {G} empty (make_vertices : G) : fst (vertices_graph empty make_vertices no_graph) = Some make_vertices.
Proof. reflexivity. Qed.
Lemma faces_graph_fresh {G} empty (make_faces : bool -> G) make_vertices verify :
  fst (faces_graph empty make_faces no_graph verify) = Some (make_faces verify) /\ fst (faces_graph empty make_faces (snd (vertices_graph empty make_vertices no_graph)) verify) = Some (make_faces verify).
Proof. split; reflexivity. Qed.
Lemma faces_graph_stale {G} empty (make_faces : bool -> G) v v' : empty (make_faces v) = false -> fst (faces_graph empty make_faces (snd (faces_graph empty make_faces no_graph v)) v') = Some (make_faces v).
Proof. intros E. unfold faces_graph, no_graph. cbn [g_faces g_vertices falsy fst snd]. rewrite E. reflexivity. Qed.
Lemma vertices_graph_refuted : exists (empty : nat -> bool) make_faces make_vertices verify, fst (vertices_graph empty make_vertices (snd (faces_graph empty make_faces no_graph verify))) <> Some make_vertices.
Proof. exists (fun n => Nat.eqb n 0), (fun _ => 1), 2, true. rewrite vertices_graph_none by reflexivity. discriminate. Qed.
Lemma faces_graph_refuted : exists (empty : nat -> bool) make_faces v v', fst (faces_graph empty make_faces (snd (faces_graph empty make_faces no_graph v)) v') <> Some (make_faces v').
Proof. exists (fun n => Nat.eqb n 0), (fun b : bool => if b then 1 else 2), true, false. rewrite faces_graph_stale by reflexivity. discriminate. Qed.
