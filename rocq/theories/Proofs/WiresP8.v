(** The results on wires, for any kind of edges. *)
From Coq Require Import Reals List Permutation Lra Lia Bool.
From Verif.Model Require Import Base RBase Vec Frame Geometry Curves Edges Wires.
From Verif.Spec Require Import VecSpec EdgesSpec WiresSpec.
From Verif.Proofs Require Import VecP WiresP WiresP2 WiresP3 WiresP4 WiresP5 WiresP6 WiresP7.
Import ListNotations.
Open Scope R_scope.

Lemma w_wire_is_ordered K w tol : wire_is_ordered K w tol = true <-> joined K tol w.
Proof. apply wire_ordered_iff. Qed.
Lemma w_contour_is_ordered K w tol : api_ok K -> 0 <= tol -> w <> [] -> exists b, contour_is_ordered K w tol = Ok b /\
  (b = true <-> joined K tol w /\ closes K tol w /\ (forall e, w = [e] -> tol < e_length K e) /\ (forall e f, w = [e; f] -> e_same K e f = false)).
Proof. intros OK. apply contour_ordered_spec; auto. Qed.
Lemma w_closed K e w : api_ok K -> exists b, is_contour_closed K (e :: w) = Ok b /\ (b = true <-> closes K (/ 10 ^ 6) (e :: w)).
Proof.
  intros OK. eexists. split; [reflexivity|]. rewrite (close_iff K OK) by apply tol6. rewrite (closes_iff K). rewrite (dist_sym K OK), last_cons. tauto.
Qed.
Lemma w_ordering_sound K w tol r : api_ok K -> 0 <= tol -> ordering_primitives K w tol = Ok r ->
  exists kept dropped, Permutation w (kept ++ dropped) /\ (forall e, In e kept -> tol < e_length K e) /\ (forall e, In e dropped -> e_length K e <= tol) /\
    joined K tol r /\ same_edges K kept r.
Proof. intros OK. apply ordering_sound; auto. Qed.
Lemma w_ordering_errors K w tol x : api_ok K -> 0 <= tol -> ordering_primitives K w tol = Err x -> x = NotImplementedError \/ (x = IndexError /\ forall e, In e w -> e_length K e <= tol).
Proof. intros OK. apply ordering_errors; auto. Qed.
Lemma w_order_wire K w tol : api_ok K -> 0 <= tol ->
  (joined K tol w -> order_wire K w tol = Ok w) /\ (~ joined K tol w -> order_wire K w tol = ordering_primitives K w tol) /\ (forall r, order_wire K w tol = Ok r -> joined K tol r).
Proof.
  intros OK T. split; [apply order_wire_id; auto|]. split; [|intros r; apply order_wire_joined; auto]. intros N. unfold order_wire. destruct (wire_is_ordered K w tol) eqn:Q; auto. apply wire_ordered_iff in Q. contradiction.
Qed.
Lemma w_order_contour_kept K w tol : api_ok K -> contour_is_ordered K w tol = Ok true -> order_contour K w tol = Ok w.
Proof. intros OK. apply order_contour_id; auto. Qed.
Lemma w_from_wires K ws r : api_ok K -> from_wires K ws = Ok r -> joined K (/ 10 ^ 6) r.
Proof. intros OK. apply order_wire_joined; auto. apply tol6. Qed.
Lemma w_is_followed_by K e w f w' tol : is_followed_by K (e :: w) (f :: w') tol = Ok (Rltb (p_dist K (e_end K (last w e)) (e_start K f)) tol).
Proof. unfold is_followed_by. rewrite last_cons. reflexivity. Qed.
Lemma w_ordering_complete K w tol : api_ok K -> 0 <= tol -> w <> [] -> (forall e, In e w -> tol < e_length K e) -> connected K tol w ->
  (forall p, In p (ends K w) -> has_degree K tol w p 1 \/ has_degree K tol w p 2) -> exists r, ordering_primitives K w tol = Ok r /\ joined K tol r /\ same_edges K w r.
Proof.
  intros OK T N L C D. destruct (ordering_complete K OK w tol T N L C D) as (r & Q). exists r. split; auto. apply (ordering_same K OK w tol r); auto.
Qed.
Lemma w_order_contour K w tol : api_ok K -> 0 <= tol -> (3 <= length w)%nat -> (forall e, In e w -> tol < e_length K e) -> connected K tol w -> clustered K tol (ends K w) ->
  (forall p, In p (ends K w) -> has_degree K tol w p 2) ->
  exists r, order_contour K w tol = Ok r /\ same_edges K w r /\ contour_is_ordered K r tol = Ok true.
Proof. intros OK. apply order_contour_ok; auto. Qed.
Lemma w_wires_from_edges K l tol ws rest : api_ok K -> 0 <= tol -> wires_from_edges K l tol = (ws, rest) ->
  same_edges K l (concat ws) /\ (forall w, In w ws -> w <> [] /\ joined K tol w) /\
  ForallOrdPairs (fun w w' => forall a c e, w = a :: c -> In e w' -> ~ touches K tol e (e_start K a) /\ ~ touches K tol e (e_end K (last w a))) ws.
Proof. intros OK. apply wires_from_edges_spec; auto. Qed.
Lemma w_wires_from_edges_one K l tol : api_ok K -> 0 <= tol -> (2 <= length l)%nat -> (forall e, In e l -> tol < e_length K e) -> connected K tol l ->
  (forall p, In p (ends K l) -> has_degree K tol l p 1 \/ has_degree K tol l p 2) -> exists w, fst (wires_from_edges K l tol) = [w].
Proof.
  intros OK T L Lg C D. destruct (w_ordering_complete K l tol OK T ltac:(destruct l; [cbn in L; lia|discriminate]) Lg C D) as (r & Q & _).
  unfold ordering_primitives in Q. rewrite (perm_filter_all (fun e => negb (isclose (e_length K e) 0 tol)) l) in Q by (intros x I; apply (long_iff K OK); auto).
  destruct l as [|e [|f l]]; [discriminate|cbn in L; lia|]. unfold wires_from_edges. set (es := f :: l) in *. exists r. cbn [fst]. 
  assert (G : forall n c rr, ordering_loop K n tol c rr = Ok r -> grow K n tol c rr = (r, []) \/ (exists m, (m <= n)%nat /\ grow K n tol c rr = (r, []))).
  { clear - OK. induction n as [|n IH]; intros c rr H; cbn [ordering_loop grow] in *.
    - destruct rr; [|discriminate]. apply Ok_inj in H. subst. auto.
    - destruct rr as [|x rr]; [apply Ok_inj in H; subst; left; reflexivity|]. destruct (attach_first K tol c (x :: rr)) as [[c' r']|]; [|discriminate]. destruct (IH c' r' H) as [-> | (m & _ & ->)]; auto. }
  cbn [length all_wires]. destruct (G _ _ _ Q) as [-> | (m & _ & ->)]; unfold es; reflexivity.
Qed.
Lemma w_wires_from_edges_empties K l tol : (2 <= length l)%nat -> snd (wires_from_edges K l tol) = [].
Proof. intros L. destruct (wires_from_edges K l tol) as [ws rest] eqn:Q. apply (wires_from_edges_empties K l tol ws rest Q L). Qed.
Lemma w_wires_empties_witness : exists l tol, l <> [] /\ snd (wires_from_edges segments2 l tol) <> l.
Proof. exists open_chain, 1. split; [discriminate|]. rewrite w_wires_from_edges_empties by (cbn; lia). discriminate. Qed.
Lemma w_invert K w : api_ok K -> invert K (invert K w) = w /\ (forall tol, joined K tol w <-> joined K tol (invert K w)) /\ wire_length K (invert K w) = wire_length K w /\ same_edges K w (invert K w).
Proof.
  intros OK. split; [apply invert_invert; auto|]. split; [intros tol; apply invert_joined; auto|]. split; [apply invert_length; auto|].
  exists (rev w). split; [apply Permutation_rev|]. unfold invert. induction (rev w); constructor; auto.
Qed.
Lemma w_invert_ends K w a b : api_ok K -> w <> [] -> e_start K (hd a (invert K w)) = e_end K (last w b) /\ e_end K (last (invert K w) b) = e_start K (hd a w).
Proof. intros OK. apply invert_ends; auto. Qed.
Lemma w_length K w : wire_length K w = total K w.
Proof. apply length_total. Qed.
Lemma w_unit_speed K w s t : api_ok K -> api_measures K -> (forall e, p_dist K (e_start K e) (e_end K e) <= e_length K e) ->
  w <> [] -> joined K 0 w -> 0 <= s <= t -> t <= total K w -> exists p q, wire_at K w s = Ok p /\ wire_at K w t = Ok q /\ p_dist K p q <= t - s.
Proof. intros OK M Z. apply wire_unit_speed; auto. Qed.
Lemma w_reorder_sound K raw l : api_ok K -> reorder_step K raw = Ok (Some l) -> joined K (/ 10 ^ 3) l /\
  exists kept dropped, Permutation raw (kept ++ dropped) /\ same_edges K kept l /\ (forall d, In d dropped -> exists f, In f l /\ e_same K d f = true).
Proof. intros OK. apply reorder_sound; auto. Qed.
Lemma w_reorder_complete K w raw : api_ok K -> api_same K -> (2 <= length w)%nat -> joined K 0 w ->
  (forall e, In e w -> / 10 ^ 6 < p_dist K (e_start K e) (e_end K e)) -> (forall w1 e f w2, w = w1 ++ e :: f :: w2 -> / 10 ^ 6 < p_dist K (e_start K e) (e_end K f)) ->
  Forall2 (fun a b => b = a \/ b = e_rev K a) w raw ->
  reorder_step K raw = Ok (Some w) \/ (reorder_step K raw = Ok (Some (rev raw)) /\ joined K (/ 10 ^ 6) (rev raw)).
Proof. intros OK S L J A B. apply reorder_complete; auto. split; auto. Qed.
(** two edges far from each other are refused *)
Lemma w_reorder_far K e0 e1 r : api_ok K -> (forall p q, In p [e_start K e0; e_end K e0] -> In q [e_start K e1; e_end K e1] -> / 10 ^ 3 < p_dist K p q) -> reorder_step K (e0 :: e1 :: r) = Ok None.
Proof.
  intros OK F. unfold reorder_step. destruct (reversed_follow K (rev (e0 :: e1 :: r))) eqn:R.
  - apply (reversed_joined K OK) in R. exfalso. cbn [rev] in R. rewrite <- app_assoc in R. cbn [app] in R. specialize (R (rev r) e1 e0 [] eq_refl). pose proof pow63.
    specialize (F (e_start K e0) (e_end K e1) ltac:(left; auto) ltac:(right; left; auto)). rewrite (dist_sym K OK) in F. lra.
  - cbv zeta. destruct (argmin_spec (p_dist K (e_end K e0) (e_start K e1)) [p_dist K (e_start K e0) (e_start K e1); p_dist K (e_end K e0) (e_end K e1); p_dist K (e_start K e0) (e_end K e1)]) as (A1 & A2 & _).
    replace (Rltb (/ 10 ^ 3) _) with true; auto. symmetry. apply Rltb_spec. rewrite <- A2.
    destruct (argmin _) as [|[|[|[|n]]]]; try (cbn in A1; lia); cbn [nth]; apply F; cbn; auto.
Qed.
Lemma w_reorder_at_point K w p : api_ok K -> (exists e, In e w /\ p_dist K (e_start K e) p <= / 10 ^ 6) ->
  exists w1 e w2, w = w1 ++ e :: w2 /\ reorder_contour_at_point K w p = e :: w2 ++ w1 /\ p_dist K (e_start K e) p <= / 10 ^ 6 /\
    (forall f, In f w1 -> / 10 ^ 6 < p_dist K (e_start K f) p).
Proof. intros OK. apply reorder_at_point_ok; auto. Qed.
Lemma w_reorder_at_point_ordered K w p tol : api_ok K -> 0 <= tol -> joined K tol w -> closes K tol w -> (exists e, In e w /\ p_dist K (e_start K e) p <= / 10 ^ 6) ->
  joined K tol (reorder_contour_at_point K w p) /\ closes K tol (reorder_contour_at_point K w p) /\ Permutation w (reorder_contour_at_point K w p).
Proof.
  intros OK T J C I. destruct (reorder_at_point_ok K OK w p I) as (w1 & e & w2 & -> & Q & _). rewrite Q. destruct w1 as [|a w1]; [cbn [app] in *; rewrite app_nil_r; auto|].
  destruct (rotation_ordered K tol (a :: w1) (e :: w2) T ltac:(discriminate) ltac:(discriminate) J C) as [J' C']. split; [exact J'|]. split; [exact C'|]. apply (Permutation_app_comm (a :: w1) (e :: w2)).
Qed.
Lemma w_reorder_at_point_none K w p : api_ok K -> (forall e, In e w -> / 10 ^ 6 < p_dist K (e_start K e) p) -> reorder_contour_at_point K w p = [].
Proof. intros OK. apply reorder_at_point_none; auto. Qed.
