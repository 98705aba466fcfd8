(** Merging the nodes of two groups. *)
From Coq Require Import Reals Lra Lia List ZArith Bool.
From Verif.Model Require Import Base RBase Vec Frame BBox FeMesh.
From Verif.Spec Require Import VecSpec FeMeshSpec.
From Verif.Proofs Require Import VecP BBoxP WiresP FeMeshP FeMeshP2 FeMeshP3.
Import ListNotations.
Open Scope R_scope.

Lemma v2_dec (a b : vec2) : {a = b} + {a <> b}.
Proof. destruct a as [xa ya], b as [xb yb]. destruct (Req_EM_T xa xb) as [-> | N]; [|right; congruence]. destruct (Req_EM_T ya yb) as [-> | N]; [left; reflexivity|right; congruence]. Qed.
Definition near (tol : R) (p q : vec2) : Prop := / 10 ^ 8 < point_distance2 p q < tol.
Definition nearb (tol : R) p q : bool := Rltb (/ 10 ^ 8) (point_distance2 p q) && Rltb (point_distance2 p q) tol.
Lemma nearb_spec tol p q : nearb tol p q = true <-> near tol p q.
Proof. unfold nearb, near. rewrite andb_true_iff, !Rltb_spec. tauto. Qed.
Definition corr_step (tol : R) (refs : list vec2) (d : list (vec2 * vec2)) (node : vec2) : list (vec2 * vec2) :=
  fold_left (fun d r => if nearb tol node r then dict_set d node r else d) refs d.
Lemma compute_is gs r i tol : compute_correction gs r i tol = fold_left (corr_step tol (group_nodes r)) (flat_map group_nodes (without i gs)) [].
Proof. reflexivity. Qed.
Section Corr.
Variables (U : list vec2) (tol : R).
Hypothesis S : separated U.
Lemma step_keys refs node : In node U -> forall d, okeys U d -> okeys U (corr_step tol refs d node).
Proof. unfold corr_step. induction refs as [|r refs IH]; intros I d H; cbn [fold_left]; auto. apply IH; auto. destruct (nearb tol node r); auto. apply set_keys; auto. Qed.
Lemma step_other refs node p : In node U -> In p U -> p <> node -> forall d, okeys U d -> dict_get (corr_step tol refs d node) p = dict_get d p.
Proof.
  intros I J N. unfold corr_step. induction refs as [|r refs IH]; intros d H; cbn [fold_left]; auto. destruct (nearb tol node r); [|apply IH; auto].
  rewrite IH by (apply set_keys; auto). apply (get_set_other U); auto.
Qed.
Lemma step_same refs node : In node U -> forall d, okeys U d ->
  match dict_get (corr_step tol refs d node) node with
  | Some q => (In q refs /\ near tol node q) \/ (dict_get d node = Some q /\ forall r, In r refs -> ~ near tol node r)
  | None => dict_get d node = None /\ forall r, In r refs -> ~ near tol node r
  end.
Proof.
  intros I. unfold corr_step. induction refs as [|r refs IH]; intros d H; cbn [fold_left].
  - destruct (dict_get d node); [right|]; split; auto; intros r [].
  - destruct (nearb tol node r) eqn:E.
    + assert (K := IH (dict_set d node r) (set_keys U d node r H I)). rewrite (get_set_same U d node r S H I) in K. destruct (dict_get (fold_left _ _ _) node) as [q|].
      * destruct K as [(K & L) | (K & L)]; left; [split; [right|]; auto|]. apply some_inj in K. subst q. split; [left; auto|]. apply nearb_spec. auto.
      * destruct K. discriminate.
    + assert (E' : ~ near tol node r) by (rewrite <- nearb_spec; congruence). assert (K := IH d H). destruct (dict_get (fold_left _ _ _) node) as [q|].
      * destruct K as [(K & L) | (K & L)]; [left; split; [right|]; auto|]. right. split; auto. intros r' [<- | R0]; auto.
      * destruct K as (K & L). split; auto. intros r' [<- | R0]; auto.
Qed.
Lemma all_keys refs nodes : forall d, okeys U d -> (forall q, In q nodes -> In q U) -> okeys U (fold_left (corr_step tol refs) nodes d).
Proof. induction nodes as [|n nodes IH]; intros d H I; cbn [fold_left]; auto. apply IH; [apply step_keys; auto; apply I; left; auto|]. intros; apply I; right; auto. Qed.
Lemma all_out refs p nodes : In p U -> forall d, okeys U d -> (forall q, In q nodes -> In q U) -> ~ In p nodes -> dict_get (fold_left (corr_step tol refs) nodes d) p = dict_get d p.
Proof.
  intros P. induction nodes as [|n nodes IH]; intros d H I N; cbn [fold_left]; auto. rewrite IH.
  - apply step_other; auto. apply I; left; auto. intros ->. apply N; left; auto.
  - apply step_keys; auto. apply I; left; auto.
  - intros; apply I; right; auto.
  - intros K. apply N. right. auto.
Qed.
Lemma all_ok refs p nodes : In p U -> forall d, okeys U d -> (forall q, In q nodes -> In q U) ->
  (forall q, dict_get d p = Some q -> In q refs /\ near tol p q) -> (In p nodes \/ dict_get d p <> None \/ forall r, In r refs -> ~ near tol p r) ->
  match dict_get (fold_left (corr_step tol refs) nodes d) p with
  | Some q => In q refs /\ near tol p q
  | None => forall r, In r refs -> ~ near tol p r
  end.
Proof.
  intros P. induction nodes as [|n nodes IH]; intros d H I G L; cbn [fold_left].
  - destruct (dict_get d p) eqn:GD; auto. destruct L as [[] | [L | L]]; congruence || auto.
  - assert (IN : In n U) by (apply I; left; auto). assert (I' : forall q, In q nodes -> In q U) by (intros; apply I; right; auto). assert (D : n = p \/ tell_apart n p) by (apply S; auto).
    apply IH; auto; [apply step_keys; auto| |].
    + destruct D as [-> | D]; [|rewrite step_other; auto; intros ->; apply (tell_neq n n); auto].
      assert (K := step_same refs p P d H). destruct (dict_get (corr_step tol refs d p) p) as [q|]; [|discriminate]. intros q' Q'. apply some_inj in Q'. subst q'. destruct K as [K | (K & K')]; auto.
    + destruct D as [-> | D].
      * right. assert (K := step_same refs p P d H). destruct (dict_get (corr_step tol refs d p) p) as [q|]; [left; discriminate|]. right. tauto.
      * assert (NE : p <> n) by (intros ->; apply (tell_neq n n); auto). destruct L as [[L | L] | [L | L]]; [congruence|auto| |auto]. right. left. rewrite step_other; auto.
Qed.
End Corr.
Lemma in_without {A} (l : list A) : forall i a, In a (without i l) -> In a l.
Proof. induction l as [|b l IH]; intros [|i] a H; cbn [without] in H; auto; [right; auto|]. destruct H as [<- | H]; [left|right]; eauto. Qed.
Lemma group_points_in gs g : In g gs -> forall p, In p (group_nodes g) -> In p (concat (concat gs)).
Proof. intros H p I. apply fold_add_in in I as [[] | I]. apply in_points. apply in_concat in I as (e & A & B). exists g, e. auto. Qed.
Lemma sep_group gs g : separated (concat (concat gs)) -> In g gs -> separated (concat g).
Proof. intros H I p q P Q. apply H; apply in_points; [apply in_concat in P as (e & A & B)|apply in_concat in Q as (e & A & B)]; exists g, e; auto. Qed.
(** the corrections that are computed *)
Lemma correction_ok gs r i tol p : separated (concat (concat gs)) -> nth_error gs i = Some r -> (exists g e, In g gs /\ In e g /\ In p e) ->
  match dict_get (compute_correction gs r i tol) p with
  | Some q => (exists g e, In g (without i gs) /\ In e g /\ In p e) /\ (exists e, In e r /\ In q e) /\ / 10 ^ 8 < point_distance2 p q < tol
  | None => (exists g e, In g (without i gs) /\ In e g /\ In p e) -> forall e q, In e r -> In q e -> ~ / 10 ^ 8 < point_distance2 p q < tol
  end.
Proof.
  intros S E P. set (U := concat (concat gs)) in *. apply in_points in P. fold U in P. rewrite compute_is. set (nodes := flat_map group_nodes (without i gs)).
  assert (Ir : In r gs) by (eapply nth_error_In; eauto).
  assert (NU : forall q, In q nodes -> In q U). { intros q I. apply in_flat_map in I as (g & A & B). apply (group_points_in gs g); auto. eapply in_without; eauto. }
  assert (NI : In p nodes <-> exists g e, In g (without i gs) /\ In e g /\ In p e).
  { unfold nodes. rewrite in_flat_map. split.
    - intros (g & A & B). apply fold_add_in in B as [[] | B]. apply in_concat in B as (e & B & C). exists g, e. auto.
    - intros (g & e & A & B & C). exists g. split; auto. apply group_nodes_ok; [apply (sep_group gs); auto; eapply in_without; eauto|]. exists e. auto. }
  assert (RI : forall q, In q (group_nodes r) <-> exists e, In e r /\ In q e) by (apply group_nodes_ok; apply (sep_group gs); auto).
  assert (O : okeys U ([] : list (vec2 * vec2))) by (intros k []).
  match goal with |- match ?t with _ => _ end => change t with (dict_get (fold_left (corr_step tol (group_nodes r)) nodes []) p) end. clearbody nodes.
  destruct (dict_get _ p) as [q|] eqn:D.
  - assert (I : In p nodes). { destruct (in_dec v2_dec p nodes) as [I | I]; auto. rewrite (all_out U tol S) in D; auto. discriminate. }
    assert (K := all_ok U tol S (group_nodes r) p nodes P [] O NU ltac:(discriminate) (or_introl I)). rewrite D in K. destruct K as (K & L). split; [apply NI; auto|]. split; [apply RI; auto|exact L].
  - intros I. apply NI in I. assert (K := all_ok U tol S (group_nodes r) p nodes P [] O NU ltac:(discriminate) (or_introl I)). rewrite D in K. intros e q A B. apply K. apply RI. eauto.
Qed.
Lemma nth_insert {A} (r : A) : forall i l, nth_error l i = Some r -> length (insert_at i r (without i l)) = length l /\ nth_error (insert_at i r (without i l)) i = Some r.
Proof. induction i as [|i IH]; intros [|a l] H; cbn [nth_error] in H; try discriminate; cbn [without insert_at length nth_error]; auto. destruct (IH l H) as (A1 & A2). split; auto. Qed.
Lemma map_insert {A B} (f : A -> B) : forall i (l : list A) (r : B), (i < length l)%nat -> forall j, j <> i -> nth_error (insert_at i r (map f (without i l))) j = option_map f (nth_error l j).
Proof.
  induction i as [|i IH]; intros [|a l] r H j N; cbn [length] in H; try lia; cbn [without insert_at map].
  - destruct j as [|j]; [lia|]. cbn [nth_error]. apply nth_error_map.
  - destruct j as [|j]; cbn [nth_error]; [reflexivity|]. apply IH; lia.
Qed.
Lemma insert_map {A B} (f : A -> B) : forall i (l : list A) (r : B), (i < length l)%nat -> length (insert_at i r (map f (without i l))) = length l /\ nth_error (insert_at i r (map f (without i l))) i = Some r.
Proof.
  induction i as [|i IH]; intros [|a l] r H; cbn [length] in H; try lia; cbn [without insert_at map length nth_error].
  - split; auto. f_equal. apply map_length.
  - destruct (IH l r) as (A1 & A2); [lia|]. split; auto.
Qed.
Lemma in_without_nth {A} : forall i (l : list A) j a, j <> i -> nth_error l j = Some a -> In a (without i l).
Proof.
  induction i as [|i IH]; intros [|b l] j a N H; try (destruct j; discriminate); cbn [without].
  - destruct j as [|j]; [lia|]. cbn [nth_error] in H. eapply nth_error_In; eauto.
  - destruct j as [|j]; cbn [nth_error] in H; [left; congruence|]. right. apply (IH l j); auto.
Qed.
Lemma nodes_correction_ok m i tol r : separated (concat (concat (groups m))) -> correction m = [] -> nth_error (groups m) i = Some r ->
  exists c m', nodes_correction m i tol = Ok (c, m') /\ groups m' = groups m /\ gmsh m' = gmsh m /\
    forall j g p, j <> i -> nth_error (groups m) j = Some g -> point_of g p ->
      match dict_get c p with Some q => point_of r q /\ / 10 ^ 8 < point_distance2 p q < tol | None => forall q, point_of r q -> ~ / 10 ^ 8 < point_distance2 p q < tol end.
Proof.
  intros S C E. exists (compute_correction (groups m) r i tol), (Mesh (groups m) (compute_correction (groups m) r i tol) (gmsh m)).
  split; [unfold nodes_correction; rewrite C, E; reflexivity|]. do 2 (split; [reflexivity|]).
  intros j g p N G (e & A & B). assert (I : In g (without i (groups m))) by (eapply in_without_nth; eauto).
  assert (K := correction_ok (groups m) r i tol p S E (ex_intro _ g (ex_intro _ e (conj (in_without _ _ _ I) (conj A B))))).
  destruct (dict_get _ p) as [q|]; [split; tauto|]. intros q (e' & X & Y). apply (K (ex_intro _ g (ex_intro _ e (conj I (conj A B)))) e' q X Y).
Qed.
Lemma nodes_correction_index m i tol : correction m = [] -> (length (groups m) <= i)%nat -> nodes_correction m i tol = Err IndexError.
Proof. intros C H. unfold nodes_correction. rewrite C. apply nth_error_None in H. rewrite H. reflexivity. Qed.
Lemma nodes_correction_cached m i tol c m' : nodes_correction m i tol = Ok (c, m') -> c <> [] -> forall j tol', nodes_correction m' j tol' = Ok (c, m').
Proof.
  unfold nodes_correction at 1. intros H N j tol'. destruct (correction m) as [|a l] eqn:C.
  - destruct (nth_error (groups m) i) as [r|]; [|discriminate]. apply Ok_inj in H. apply pair_equal_spec in H as [<- <-]. unfold nodes_correction. cbn [correction]. destruct (compute_correction (groups m) r i tol); [contradiction|reflexivity].
  - apply Ok_inj in H. apply pair_equal_spec in H as [<- <-]. unfold nodes_correction. rewrite C. reflexivity.
Qed.
Lemma delete_ok m i tol r : separated (concat (concat (groups m))) -> correction m = [] -> gmsh m = true -> nth_error (groups m) i = Some r ->
  exists m2 m', delete_duplicated_nodes m i tol = Ok (m2, m') /\ groups m' = groups m /\ length (groups m2) = length (groups m) /\ nth_error (groups m2) i = Some r /\
    forall j g, j <> i -> nth_error (groups m) j = Some g -> exists g2, nth_error (groups m2) j = Some g2 /\ Forall2 (Forall2 (merged r tol)) g g2.
Proof.
  intros S C M E. destruct (nodes_correction_ok m i tol r S C E) as (c & m' & F & G & _ & K). unfold delete_duplicated_nodes. rewrite E, F. cbn [bind]. rewrite M.
  exists (Mesh (insert_at i r (map (map (map (corrected c))) (without i (groups m)))) c true), m'. split; [reflexivity|]. split; auto. cbn [groups].
  assert (L : (i < length (groups m))%nat) by (apply nth_error_Some; congruence). destruct (insert_map (map (map (corrected c))) i (groups m) r L) as (L1 & L2). do 2 (split; [auto|]).
  intros j g N Q. exists (map (map (corrected c)) g). split; [transitivity (option_map (map (map (corrected c))) (nth_error (groups m) j)); [apply map_insert; auto|rewrite Q; reflexivity]|].
  assert (P : forall p, point_of g p -> merged r tol p (corrected c p)). { intros p P. assert (V := K j g p N Q P). unfold corrected, merged. destruct (dict_get c p) as [q|]; [right|left]; auto. }
  clear - P. assert (W : forall es, (forall e, In e es -> In e g) -> Forall2 (Forall2 (merged r tol)) es (map (map (corrected c)) es)); [|apply W; auto].
  induction es as [|e es IH]; intros H; cbn [map]; constructor; [|apply IH; intros; apply H; right; auto].
  assert (W : forall ps, (forall p, In p ps -> In p e) -> Forall2 (merged r tol) ps (map (corrected c) ps)); [|apply W; auto].
  induction ps as [|p ps IHp]; intros Hp; cbn [map]; constructor; [|apply IHp; intros; apply Hp; right; auto]. apply P. exists e. split; [apply H; left; auto|apply Hp; left; auto].
Qed.
Lemma delete_no_gmsh m i tol : gmsh m = false -> exists e, delete_duplicated_nodes m i tol = Err e.
Proof.
  intros H. unfold delete_duplicated_nodes. destruct (nth_error (groups m) i) as [r|] eqn:E; [|eauto]. unfold nodes_correction. rewrite E. destruct (correction m); cbn [bind]; rewrite H; eauto.
Qed.
Lemma delete_no_gmsh_value m i tol : gmsh m = false -> (i < length (groups m))%nat -> delete_duplicated_nodes m i tol = Err ValueError.
Proof.
  intros H L. unfold delete_duplicated_nodes. apply nth_error_Some in L. destruct (nth_error (groups m) i) as [r|] eqn:E; [|congruence]. unfold nodes_correction. rewrite E. destruct (correction m); cbn [bind]; rewrite H; eauto.
Qed.
Lemma delete_keeps_correction m i tol m2 m' : delete_duplicated_nodes m i tol = Ok (m2, m') -> correction m2 = correction m'.
Proof.
  unfold delete_duplicated_nodes. destruct (nth_error (groups m) i) as [r|] eqn:E; [|discriminate]. unfold nodes_correction. rewrite E.
  destruct (correction m) as [|a l] eqn:C; cbn [bind]; destruct (gmsh m); try discriminate; intros H; apply Ok_inj in H; apply pair_equal_spec in H as [<- <-]; cbn [correction]; auto.
Qed.
(** witnesses *)
Lemma far_big a b d : Rabs a <= 1 -> Rabs b <= 1 -> d <= Rabs (a - b) -> / 10 ^ 9 < d -> far a b.
Proof.
  intros A B D P. unfold far. apply Rmax_lub_lt; [|pose proof (pow10_inv_pos 9); lra]. assert (Rmax (Rabs a) (Rabs b) <= 1) by (apply Rmax_lub; auto). pose proof (pow10_inv_pos 9). nra.
Qed.
Ltac sep_tac := intros ? ? P Q; cbn [concat app In] in P, Q;
  repeat match goal with H : _ \/ _ |- _ => destruct H as [H | H] end; subst; try contradiction;
  try (left; reflexivity); right;
  (left; cbn [x2 y2]; apply (far_big _ _ (/ 20000)); [unfold Rabs; destruct (Rcase_abs _); lra|unfold Rabs; destruct (Rcase_abs _); lra|unfold Rabs; destruct (Rcase_abs _); lra|lra]) ||
  (right; cbn [x2 y2]; apply (far_big _ _ (/ 20000)); [unfold Rabs; destruct (Rcase_abs _); lra|unfold Rabs; destruct (Rcase_abs _); lra|unfold Rabs; destruct (Rcase_abs _); lra|lra]).
Definition wa := V2 0 0. Definition wb := V2 1 0. Definition wc := V2 (/ 20000) 0. Definition wd := V2 0 1.
Definition wm (gm : bool) := Mesh [[[wa; wb]]; [[wc; wd]]] [] gm.
Lemma wm_sep gm : separated (concat (concat (groups (wm gm)))).
Proof. unfold wm. cbn [groups concat app]. unfold wa, wb, wc, wd. sep_tac. Qed.
Lemma cached_refuted : exists m i j tol c m' c2 m2 p, correction m = [] /\ nodes_correction m i tol = Ok (c, m') /\ nodes_correction m j tol = Ok (c2, m2) /\
  nodes_correction m' j tol = Ok (c, m') /\ dict_get c p = None /\ dict_get c2 p <> None.
Proof.
  destruct (nodes_correction_ok (wm true) 0 (/ 10000) [[wa; wb]] (wm_sep true) eq_refl eq_refl) as (c & m' & F & _ & _ & K).
  destruct (nodes_correction_ok (wm true) 1 (/ 10000) [[wc; wd]] (wm_sep true) eq_refl eq_refl) as (c2 & m2 & F2 & _ & _ & K2).
  exists (wm true), 0%nat, 1%nat, (/ 10000), c, m', c2, m2, wa. do 3 (split; [auto|]).
  assert (D : point_distance2 wc wa = / 20000) by (apply d_of_sq; unfold wa, wc; cbn [x2 y2]; lra). pose proof (pow10_inv_pos 8).
  assert (NC : dict_get c wc <> None). { assert (V := K 1%nat [[wc; wd]] wc ltac:(lia) eq_refl). destruct (dict_get c wc); [discriminate|]. exfalso. apply (V (ex_intro _ [wc; wd] (conj (or_introl eq_refl) (or_introl eq_refl))) wa); [exists [wa; wb]; split; left; auto|]. rewrite D. lra. }
  split. { apply (nodes_correction_cached (wm true) 0 (/ 10000)); auto. intros ->. apply NC. reflexivity. }
  split.
  - unfold nodes_correction in F. cbn [correction wm groups nth_error] in F. apply Ok_inj in F. apply pair_equal_spec in F as [F _].
    assert (V := correction_ok (groups (wm true)) [[wa; wb]] 0 (/ 10000) wa (wm_sep true) eq_refl (ex_intro _ [[wa; wb]] (ex_intro _ [wa; wb] (conj (or_introl eq_refl) (conj (or_introl eq_refl) (or_introl eq_refl)))))).
    change (compute_correction (groups (wm true)) [[wa; wb]] 0 (/ 10000)) with (compute_correction [[[wa; wb]]; [[wc; wd]]] [[wa; wb]] 0 (/ 10000)) in V. rewrite F in V. destruct (dict_get c wa); auto.
    destruct V as ((g & e & G1 & G2 & G3) & _). exfalso. cbn [groups wm without In] in G1. destruct G1 as [<- | []]. destruct G2 as [<- | []]. destruct G3 as [G3 | [G3 | []]]; [assert (x2 wc = x2 wa) by congruence|assert (y2 wd = y2 wa) by congruence]; unfold wa, wc, wd in *; cbn [x2 y2] in *; lra.
  - assert (V := K2 0%nat [[wa; wb]] wa ltac:(lia) eq_refl). destruct (dict_get c2 wa); [discriminate|]. exfalso. apply (V (ex_intro _ [wa; wb] (conj (or_introl eq_refl) (or_introl eq_refl))) wc); [exists [wc; wd]; split; left; auto|]. rewrite d_sym, D. lra.
Qed.
Definition we := V2 (/ (10 ^ 9) + / 10 ^ 9) 0.
Lemma close_nodes_stay : exists m i tol r g m2 m' p q, correction m = [] /\ gmsh m = true /\ nth_error (groups m) i = Some r /\ In g (groups m) /\ point_of r p /\ point_of g q /\ p <> q /\ 0 < point_distance2 p q < / 10 ^ 8 /\ / 10 ^ 8 < tol /\
  delete_duplicated_nodes m i tol = Ok (m2, m') /\ exists g2, In g2 (groups m2) /\ point_of g2 q.
Proof.
  set (m := Mesh [[[wa; wb]]; [[we; wd]]] [] true). pose proof (pow10_inv_pos 9) as T9. pose proof (pow10_inv_pos 12) as T12.
  assert (SP : separated (concat (concat (groups m)))).
  { assert (X : forall a b, (a = wa /\ b = we) \/ (a = we /\ b = wa) -> tell_apart a b).
    { assert (Y : tell_apart wa we). { left. unfold wa, we, far. cbn [x2 y2]. rewrite Rabs_R0. replace (0 - (/ 10 ^ 9 + / 10 ^ 9)) with (- (/ 10 ^ 9 + / 10 ^ 9)) by ring. rewrite Rabs_Ropp, Rabs_right by lra. rewrite (Rmax_right 0) by lra. apply Rmax_lub_lt; [|lra]. nra. }
      intros a b [[-> ->] | [-> ->]]; auto. apply tell_apart_sym. auto. }
    intros p q P Q. unfold m in P, Q. cbn [groups concat app In] in P, Q.
    destruct P as [<- | [<- | [<- | [<- | []]]]]; destruct Q as [<- | [<- | [<- | [<- | []]]]]; try (left; reflexivity); right; try (apply X; tauto); unfold wa, wb, wd, we;
    ((left; cbn [x2 y2]; apply (far_big _ _ (/ 2)); [unfold Rabs; destruct (Rcase_abs _); lra|unfold Rabs; destruct (Rcase_abs _); lra|unfold Rabs; destruct (Rcase_abs _); lra|lra]) ||
    (right; cbn [x2 y2]; apply (far_big _ _ (/ 2)); [unfold Rabs; destruct (Rcase_abs _); lra|unfold Rabs; destruct (Rcase_abs _); lra|unfold Rabs; destruct (Rcase_abs _); lra|lra])). }
  destruct (delete_ok m 0 (/ 10000) [[wa; wb]] SP eq_refl eq_refl eq_refl) as (m2 & m' & E & _ & _ & _ & K). destruct (K 1%nat [[we; wd]]) as (g2 & N & F); [lia|reflexivity|].
  assert (D : point_distance2 wa we = / 10 ^ 9 + / 10 ^ 9) by (apply d_of_sq; unfold wa, we; cbn [x2 y2]; lra).
  assert (D2 : / 2 < point_distance2 wb we). { pose proof (d_sq wb we) as S2. pose proof (d_pos wb we). unfold wb, we in *. cbn [x2 y2] in *. nra. }
  exists m, 0%nat, (/ 10000), [[wa; wb]], [[we; wd]], m2, m', wa, we. do 3 (split; [reflexivity|]). split; [right; left; reflexivity|]. split; [exists [wa; wb]; split; left; auto|]. split; [exists [we; wd]; split; left; auto|].
  split. { intros Q. assert (x2 wa = x2 we) by congruence. unfold wa, we in *. cbn [x2] in *. lra. }
  rewrite D. split; [lra|]. split; [lra|]. split; auto. exists g2. split; [eapply nth_error_In; eauto|].
  inversion F as [|e1 e2 l1 l2 F1 F2]; subst. inversion F1 as [|p1 p2 s1 s2 M1 M2]; subst. destruct M1 as [(-> & _) | ((e & X1 & X2) & Y)].
  - exists (we :: s2). split; left; auto.
  - exfalso. destruct X1 as [<- | []]. destruct X2 as [<- | [<- | []]]; rewrite d_sym in Y; lra.
Qed.
