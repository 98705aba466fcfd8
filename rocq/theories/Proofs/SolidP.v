From Coq Require Import Reals List ZArith Permutation Lra Lia.
From Verif.Model Require Import Base RBase Vec BBox Mesh Solid.
From Verif.Spec Require Import SolidSpec MeshSpec.
From Verif.Proofs Require Import VecP BBoxP MeshP.
Import ListNotations.
Open Scope R_scope.

(** ** volume *)
Lemma tetra_abs o t : volume_tetraedre o t = Rabs (tetra6 o t) / 6.
Proof.
  destruct t as [[a b] c]. unfold volume_tetraedre, tetra6. unfold dot3, cross3, sub3. cbn [x3 y3 z3].
  match goal with |- 1 / 6 * Rabs ?u = Rabs ?v / 6 => replace u with v by ring end. field.
Qed.
Lemma fold_face o face : forall v, fold_left (fun volume t => volume + volume_tetraedre o t) face v = v + fold_right Rplus 0 (map (fun t => Rabs (tetra6 o t) / 6) face).
Proof.
  induction face as [|t face IH]; intros v; cbn [fold_left map fold_right]; [lra|]. rewrite IH, tetra_abs. lra.
Qed.
Lemma sum_app (l r : list R) : fold_right Rplus 0 (l ++ r) = fold_right Rplus 0 l + fold_right Rplus 0 r.
Proof. induction l as [|x l IH]; cbn [app fold_right]; [lra|]. rewrite IH. lra. Qed.
Lemma fold_faces o faces : forall v, fold_left (fun volume face => fold_left (fun volume t => volume + volume_tetraedre o t) face volume) faces v =
  v + fold_right Rplus 0 (map (fun t => Rabs (tetra6 o t) / 6) (concat faces)).
Proof.
  induction faces as [|f faces IH]; intros v; cbn [fold_left concat map fold_right]; [lra|]. rewrite IH, fold_face, map_app, sum_app. apply Rplus_assoc.
Qed.
Lemma sum_nonneg (l : list R) : (forall x, In x l -> 0 <= x) -> 0 <= fold_right Rplus 0 l.
Proof.
  induction l as [|x l IH]; cbn [fold_right]; intros H; [lra|]. assert (0 <= x) by (apply H; left; reflexivity).
  assert (0 <= fold_right Rplus 0 l) by (apply IH; intros y Y; apply H; right; exact Y). lra.
Qed.
Lemma shell_volume_sum bb faces : shell_volume bb faces = fold_right Rplus 0 (map (fun t => Rabs (tetra6 (bbox_center bb) t) / 6) (concat faces)).
Proof.
  unfold shell_volume. rewrite fold_faces, Rplus_0_l. apply Rabs_right, Rle_ge, sum_nonneg. intros x X.
  apply in_map_iff in X as (t & <- & _). assert (P := Rabs_pos (tetra6 (bbox_center bb) t)). lra.
Qed.
Lemma volume_at_least bb faces : Rabs (signed_volume (bbox_center bb) (concat faces)) <= shell_volume bb faces.
Proof.
  rewrite shell_volume_sum. unfold signed_volume. generalize (bbox_center bb) as o. intros o. induction (concat faces) as [|t l IH]; cbn [map fold_right].
  - rewrite Rabs_R0. lra.
  - eapply Rle_trans; [apply Rabs_triang|]. assert (E : Rabs (tetra6 o t / 6) = Rabs (tetra6 o t) / 6).
    { unfold Rdiv. rewrite Rabs_mult, (Rabs_right (/ 6)) by lra. reflexivity. }
    rewrite E. lra.
Qed.
Lemma sees_tail o t l : sees o (t :: l) -> sees o l.
Proof. intros [H|H]; [left|right]; intros u U; apply H; right; exact U. Qed.
Lemma volume_sees bb faces : sees (bbox_center bb) (concat faces) -> shell_volume bb faces = Rabs (signed_volume (bbox_center bb) (concat faces)).
Proof.
  rewrite shell_volume_sum. unfold signed_volume. generalize (bbox_center bb) as o. intros o. induction (concat faces) as [|t l IH]; cbn [map fold_right]; intros H.
  - rewrite Rabs_R0. lra.
  - specialize (IH (sees_tail _ _ _ H)). rewrite IH. destruct H as [H|H].
    + assert (A : 0 <= tetra6 o t) by (apply H; left; reflexivity).
      assert (B : 0 <= fold_right Rplus 0 (map (fun t => tetra6 o t / 6) l)).
      { apply sum_nonneg. intros x X. apply in_map_iff in X as (u & <- & U). assert (0 <= tetra6 o u) by (apply H; right; exact U). lra. }
      rewrite (Rabs_right (tetra6 o t)) by lra. rewrite (Rabs_right (fold_right _ _ _)) by lra. rewrite Rabs_right by lra. lra.
    + assert (A : tetra6 o t <= 0) by (apply H; left; reflexivity).
      assert (B : 0 <= fold_right Rplus 0 (map (fun x => - x) (map (fun t => tetra6 o t / 6) l))).
      { apply sum_nonneg. intros x X. apply in_map_iff in X as (y & <- & Y). apply in_map_iff in Y as (u & <- & U).
        assert (tetra6 o u <= 0) by (apply H; right; exact U). lra. }
      assert (C : forall r, fold_right Rplus 0 (map (fun x => - x) r) = - fold_right Rplus 0 r).
      { intros r. induction r as [|x r IHr]; cbn; [lra|]. rewrite IHr. lra. }
      rewrite C in B. rewrite (Rabs_left1 (tetra6 o t)) by lra. rewrite (Rabs_left1 (fold_right _ _ _)) by lra. rewrite Rabs_left1 by lra. lra.
Qed.
Definition wsum (f : vec3 -> R) (l : list (vec3 * vec3)) : R := fold_right Rplus 0 (map (fun e => f (cross3 (fst e) (snd e))) l).
Lemma sum_perm (l r : list R) : Permutation l r -> fold_right Rplus 0 l = fold_right Rplus 0 r.
Proof. induction 1; cbn [fold_right]; lra. Qed.
Lemma closed_wsum o ts : closed_surface ts -> wsum (dot3 o) (flat_map sides3 ts) = 0.
Proof.
  intros H. unfold closed_surface in H. set (l := flat_map sides3 ts) in *. clearbody l.
  assert (A : wsum (dot3 o) (map (fun e => (snd e, fst e)) l) = - wsum (dot3 o) l).
  { clear H. unfold wsum. induction l as [|[a b] l IH]; cbn [map fold_right fst snd] in *; [lra|].
    cbn [map fold_right] in IH. rewrite IH. unfold dot3, cross3. cbn [x3 y3 z3]. ring. }
  assert (B : wsum (dot3 o) l = wsum (dot3 o) (map (fun e => (snd e, fst e)) l)).
  { unfold wsum. apply sum_perm, Permutation_map, H. }
  lra.
Qed.
Lemma signed_shift o ts : signed_volume o ts = signed_volume (V3 0 0 0) ts - wsum (dot3 o) (flat_map sides3 ts) / 6.
Proof.
  unfold signed_volume, wsum. induction ts as [|[[a b] c] ts IH]; cbn [map fold_right flat_map]; [lra|].
  rewrite map_app, sum_app. rewrite IH. cbn [sides3 map fold_right fst snd]. unfold tetra6, dot3, cross3, sub3. cbn [x3 y3 z3]. field.
Qed.
Lemma signed_volume_base o o' ts : closed_surface ts -> signed_volume o ts = signed_volume o' ts.
Proof. intros H. rewrite (signed_shift o), (signed_shift o'), !(closed_wsum _ _ H). reflexivity. Qed.
Lemma concat_single {A} (l : list A) : concat (map (fun t => [t]) l) = l.
Proof. induction l; cbn; [reflexivity|]. now rewrite IHl. Qed.

Lemma triangle_volume_ok ts : ts <> [] -> exists bb v,
  bbox_from_points (triangle_points ts) = Ok bb /\ triangle_shell_volume ts = Ok v /\
  v = fold_right Rplus 0 (map (fun t => Rabs (tetra6 (bbox_center bb) t) / 6) ts) /\
  (closed_surface ts -> forall o, Rabs (signed_volume o ts) <= v) /\
  (closed_surface ts -> sees (bbox_center bb) ts -> forall o, v = Rabs (signed_volume o ts)).
Proof.
  intros N. destruct ts as [|[[a b] c] ts]; [congruence|]. clear N.
  assert (X : exists bb, bbox_from_points (triangle_points ((a, b, c) :: ts)) = Ok bb) by (eexists; reflexivity).
  destruct X as (bb & X). exists bb. unfold triangle_shell_volume. set (l := (a, b, c) :: ts) in *. clearbody l. rewrite X. cbn [bind].
  eexists. split; [reflexivity|]. split; [reflexivity|]. split; [rewrite shell_volume_sum, concat_single; reflexivity|]. split.
  - intros C o. rewrite (signed_volume_base o (bbox_center bb) l C). assert (V := volume_at_least bb (map (fun t => [t]) l)). rewrite concat_single in V. exact V.
  - intros C S o. rewrite (signed_volume_base o (bbox_center bb) l C). assert (V := volume_sees bb (map (fun t => [t]) l)). rewrite concat_single in V. exact (V S).
Qed.
Lemma triangle_volume_empty : triangle_shell_volume [] = Err ValueError.
Proof. reflexivity. Qed.

(** ** translation *)
Lemma lmin_map_add f v l : forall a, lmin (a + v) (map (fun p : vec3 => f p + v) l) = lmin a (map f l) + v.
Proof.
  unfold lmin. induction l as [|p l IH]; intros a; cbn [map fold_left]; [reflexivity|]. rewrite <- IH. f_equal.
  unfold Rmin. destruct (Rle_dec (a + v) (f p + v)), (Rle_dec a (f p)); lra.
Qed.
Lemma lmax_map_add f v l : forall a, lmax (a + v) (map (fun p : vec3 => f p + v) l) = lmax a (map f l) + v.
Proof.
  unfold lmax. induction l as [|p l IH]; intros a; cbn [map fold_left]; [reflexivity|]. rewrite <- IH. f_equal.
  unfold Rmax. destruct (Rle_dec (a + v) (f p + v)), (Rle_dec a (f p)); lra.
Qed.
Lemma triangle_points_shift v ts : triangle_points (map (shift_tri v) ts) = map (fun p => add3 p v) (triangle_points ts).
Proof. induction ts as [|[[a b] c] ts IH]; [reflexivity|]. cbn [map shift_tri triangle_points flat_map app]. unfold triangle_points in IH. rewrite IH. reflexivity. Qed.
Lemma tetra6_shift v o t : tetra6 (add3 o v) (shift_tri v t) = tetra6 o t.
Proof. destruct t as [[a b] c]. unfold tetra6, shift_tri, dot3, cross3, sub3, add3. cbn [x3 y3 z3]. ring. Qed.
Lemma triangle_volume_translation v ts : triangle_shell_volume (map (shift_tri v) ts) = triangle_shell_volume ts.
Proof.
  unfold triangle_shell_volume. rewrite triangle_points_shift. destruct (triangle_points ts) as [|p l] eqn:E.
  - destruct ts as [|[[a b] c] ts]; [reflexivity|discriminate E].
  - cbn [map bbox_from_points bind]. f_equal. rewrite !shell_volume_sum, !concat_single, !map_map. f_equal. apply map_ext. intros t.
    unfold bbox_center. cbn [xmin xmax ymin ymax zmin zmax].
    unfold add3. cbn [x3 y3 z3]. rewrite !lmin_map_add, !lmax_map_add.
    rewrite <- (tetra6_shift v _ t). do 3 f_equal. unfold add3. cbn [x3 y3 z3]. f_equal; field.
Qed.

(** ** boxes *)
Ltac perm_find := match goal with |- Permutation (?a :: ?l) ?r => 
  let rec go pre r := match r with
    | a :: ?r' => apply (Permutation_cons_app pre r' a); cbn [app]
    | ?b :: ?r' => let p := constr:(pre ++ [b]) in let p := eval cbn [app] in p in go p r' end in go (@nil (vec3 * vec3)) r end.
Lemma box_closed p u v w : closed_surface (box_triangles p u v w).
Proof.
  unfold closed_surface, box_triangles. cbv zeta. cbn [flat_map sides3 app map fst snd].
  do 36 perm_find. constructor.
Qed.
Lemma box_bbox p u v w : 0 <= u -> 0 <= v -> 0 <= w ->
  bbox_from_points (triangle_points (box_triangles p u v w)) = Ok (BBox (x3 p) (x3 p + u) (y3 p) (y3 p + v) (z3 p) (z3 p + w)).
Proof.
  intros U V W. unfold box_triangles, triangle_points. cbn [flat_map app bbox_from_points map x3 y3 z3]. f_equal.
  unfold lmin, lmax. cbn [fold_left].
  assert (M1 : forall a b c, a <= b -> b <= c -> Rmin b (a + 0) = a + 0 \/ True) by auto. clear M1.
  f_equal; repeat match goal with |- context [Rmin ?a ?b] => first [rewrite (Rmin_left a b) by lra | rewrite (Rmin_right a b) by lra] 
     | |- context [Rmax ?a ?b] => first [rewrite (Rmax_left a b) by lra | rewrite (Rmax_right a b) by lra] end; lra.
Qed.
Lemma box_volume p u v w : 0 <= u -> 0 <= v -> 0 <= w -> triangle_shell_volume (box_triangles p u v w) = Ok (u * v * w).
Proof.
  intros U V W. unfold triangle_shell_volume. rewrite box_bbox by assumption. cbn [bind]. f_equal. rewrite shell_volume_sum, concat_single.
  unfold bbox_center. cbn [xmin xmax ymin ymax zmin zmax]. unfold box_triangles.
  assert (P : 0 <= u * v * w) by (apply Rmult_le_pos; [apply Rmult_le_pos|]; assumption).
  assert (A : forall t, In t (box_triangles p u v w) ->
    tetra6 (V3 (1 / 2 * (x3 p + (x3 p + u))) (1 / 2 * (y3 p + (y3 p + v))) (1 / 2 * (z3 p + (z3 p + w)))) t = u * v * w / 2).
  { unfold box_triangles. cbn [In]. intros t T. repeat destruct T as [<- | T]; [..|destruct T]; unfold tetra6, dot3, cross3, sub3; cbn [x3 y3 z3]; field. }
  fold (box_triangles p u v w).
  assert (B : forall l, (forall t, In t l -> In t (box_triangles p u v w)) -> fold_right Rplus 0 (map (fun t => Rabs (tetra6 (V3 (1 / 2 * (x3 p + (x3 p + u))) (1 / 2 * (y3 p + (y3 p + v))) (1 / 2 * (z3 p + (z3 p + w)))) t) / 6) l) = INR (length l) * (u * v * w / 12)).
  { induction l as [|t l IH]; intros I1; [cbn; lra|]. cbn [map fold_right length]. rewrite IH by (intros z Z; apply I1; right; exact Z).
    rewrite (A t) by (apply I1; left; reflexivity). rewrite Rabs_right by lra. rewrite S_INR. lra. }
  rewrite B by auto. unfold box_triangles. cbn [length]. rewrite INR_IZR_INZ. cbn [Z.of_nat Pos.of_succ_nat Pos.succ]. field.
Qed.

(** ** a solid whose volume is wrong *)
Definition corner_tetra : list triangle :=
  [(V3 0 0 0, V3 0 1 0, V3 1 0 0); (V3 0 0 0, V3 1 0 0, V3 0 0 1); (V3 0 0 0, V3 0 0 1, V3 0 1 0); (V3 1 0 0, V3 0 1 0, V3 0 0 1)].
Lemma volume_refuted : exists ts, closed_surface ts /\ (exists o, sees o ts) /\ (forall o, signed_volume o ts = 1 / 6) /\ triangle_shell_volume ts = Ok (1 / 3).
Proof.
  exists corner_tetra. assert (C : closed_surface corner_tetra).
  { unfold closed_surface, corner_tetra. cbn [flat_map sides3 app map fst snd]. do 12 perm_find. constructor. }
  split; [exact C|]. split; [|split].
  - exists (V3 0 0 0). left. unfold corner_tetra. cbn [In]. intros t T. repeat destruct T as [<- | T]; [..|destruct T]; unfold tetra6, dot3, cross3, sub3; cbn [x3 y3 z3]; lra.
  - intros o. rewrite (signed_volume_base o (V3 0 0 0) _ C). unfold signed_volume, corner_tetra. cbn [map fold_right]. unfold tetra6, dot3, cross3, sub3. cbn [x3 y3 z3]. field.
  - unfold triangle_shell_volume. assert (B : bbox_from_points (triangle_points corner_tetra) = Ok (BBox 0 1 0 1 0 1)).
    { unfold corner_tetra, triangle_points. cbn [flat_map app bbox_from_points map x3 y3 z3]. unfold lmin, lmax. cbn [fold_left]. f_equal.
      f_equal; repeat match goal with |- context [Rmin ?a ?b] => first [rewrite (Rmin_left a b) by lra | rewrite (Rmin_right a b) by lra] 
     | |- context [Rmax ?a ?b] => first [rewrite (Rmax_left a b) by lra | rewrite (Rmax_right a b) by lra] end; lra. }
    rewrite B. cbn [bind]. f_equal. rewrite shell_volume_sum, concat_single. unfold bbox_center. cbn [xmin xmax ymin ymax zmin zmax].
    unfold corner_tetra. cbn [map fold_right]. unfold tetra6, dot3, cross3, sub3. cbn [x3 y3 z3].
    unfold Rabs. repeat destruct (Rcase_abs _); lra.
Qed.

(** ** mesh data *)
Open Scope Z_scope.
Lemma reshape_map {A} (f : A -> Z) (l : list (A * A * A)) :
  reshape3 (map f (flat_map (fun t : A * A * A => let '(a, b, c) := t in [a; b; c]) l)) = Ok (map (map3 f) l).
Proof. induction l as [|[[a b] c] l IH]; [reflexivity|]. cbn [flat_map app map reshape3 map3]. rewrite IH. reflexivity. Qed.
Lemma map_flat_rows (f : row -> row) l : map f (flat_map face_rows l) = flat_map face_rows (map (map3 f) l).
Proof. induction l as [|[[a b] c] l IH]; [reflexivity|]. cbn [flat_map face_rows app map map3]. rewrite IH. reflexivity. Qed.
Lemma to_mesh_data_eq rnd faces : let rows := flat_map face_rows (map (map3 rnd) faces) in
  to_mesh_data rnd faces = Ok (unique_rows rows, map (map3 (fun v => index_of v (unique_rows rows))) (map (map3 rnd) faces)).
Proof.
  intros rows. unfold to_mesh_data. rewrite map_flat_rows. fold rows.
  assert (E := reshape_map (fun v => index_of v (unique_rows rows)) (map (map3 rnd) faces)).
  change (flat_map (fun t : row * row * row => let '(a, b, c) := t in [a; b; c]) (map (map3 rnd) faces)) with rows in E.
  rewrite E. cbn [bind]. rewrite firstn_all2 by (rewrite !map_length; lia). reflexivity.
Qed.
Lemma to_mesh_data_ok rnd faces : exists (vs : list row) (ts : list tri3), to_mesh_data rnd faces = Ok (vs, ts) /\
  NoDup vs /\ (forall v, In v vs <-> exists t, In t (map (map3 rnd) faces) /\ In v (face_rows t)) /\
  shape {| mdim := 3; verts := vs; tris := ts |} (map (map3 rnd) faces).
Proof.
  set (rows := flat_map face_rows (map (map3 rnd) faces)). do 2 eexists. split; [apply to_mesh_data_eq|]. fold rows.
  split; [apply sorted_NoDup, sorted_unique|]. split.
  - intros v. rewrite in_unique_rows. unfold rows. rewrite in_flat_map. reflexivity.
  - unfold shape. cbn [tris]. assert (G : forall l, (forall t, In t l -> In t (map (map3 rnd) faces)) ->
      Forall2 (corners {| mdim := 3; verts := unique_rows rows; tris := map (map3 (fun v => index_of v (unique_rows rows))) (map (map3 rnd) faces) |})
        (map (map3 (fun v => index_of v (unique_rows rows))) l) l).
    { generalize (map (map3 (fun v => index_of v (unique_rows rows))) (map (map3 rnd) faces)) as tt. intros tt l. induction l as [|[[a b] c] l IH]; intros H; cbn [map]; [constructor|].
      constructor; [|apply IH; intros t T; apply H; right; exact T].
      assert (X : forall v, In v [a; b; c] -> In v (unique_rows rows)).
      { intros v V. apply in_unique_rows. unfold rows. apply in_flat_map. exists (a, b, c). split; [apply H; left; reflexivity|exact V]. }
      assert (Xa := X a (or_introl eq_refl)). assert (Xb := X b (or_intror (or_introl eq_refl))). assert (Xc := X c (or_intror (or_intror (or_introl eq_refl)))).
      unfold corners, map3. cbn [verts]. do 3 (split; [apply index_of_bound; assumption|]). split; [|split]; apply index_of_nth; assumption. }
    apply G. auto.
Qed.
Lemma shared_index rnd faces vs ts : to_mesh_data rnd faces = Ok (vs, ts) -> forall i j a b, nth_error vs i = Some a -> nth_error vs j = Some b -> a = b -> i = j.
Proof.
  intros H i j a b A B <-. destruct (to_mesh_data_ok rnd faces) as (vs' & ts' & E & N & _). rewrite H in E. apply Ok_inj in E. apply pair_equal_spec in E as [-> ->].
  apply (NoDup_nth_error vs'); [exact N|apply nth_error_Some; congruence|congruence].
Qed.
Lemma from_mesh_data_ok {T} (make : row * row * row -> res T) d vs ts s : shape {| mdim := d; verts := vs; tris := ts |} s ->
  (forall t e, In t s -> make t = Err e -> e = ZeroDivisionError) -> exists l, from_mesh_data make vs ts = Ok l /\ made_of make s l.
Proof.
  unfold shape. cbn [tris]. set (m := {| mdim := d; verts := vs; tris := ts |}). assert (V : verts m = vs) by reflexivity. clearbody m. subst vs.
  intros H. induction H as [|t p ts s C F IH]; intros E; cbn [from_mesh_data]; [exists []; split; constructor|].
  assert (G : gather (verts m) t = Ok p).
  { apply gather_corners; [|exact C]. destruct t as [[i j] k], p as [[a b] c]. destruct C as (C1 & C2 & C3 & _). cbn [flat_tri In]. intros x [<- | [<- | [<- | []]]]; assumption. }
  rewrite G. cbn [bind]. destruct IH as (l & L & M); [intros u e U; apply E; right; exact U|].
  destruct (make p) as [x|e] eqn:X.
  - rewrite L. cbn [bind]. exists (x :: l). split; [reflexivity|]. now constructor.
  - assert (Z := E p e (or_introl eq_refl) X). subst e. exists l. split; [exact L|]. apply made_of_flat; assumption.
Qed.
Lemma mesh_data_round_trip {T} (make : row * row * row -> res T) rnd faces : (forall t e, In t (map (map3 rnd) faces) -> make t = Err e -> e = ZeroDivisionError) ->
  exists (vs : list row) (ts : list tri3) l, to_mesh_data rnd faces = Ok (vs, ts) /\ from_mesh_data make vs ts = Ok l /\ made_of make (map (map3 rnd) faces) l.
Proof.
  intros H. destruct (to_mesh_data_ok rnd faces) as (vs & ts & E & _ & _ & S). destruct (from_mesh_data_ok make 3 vs ts _ S H) as (l & L & M).
  exists vs, ts, l. auto.
Qed.
Lemma from_mesh_data_bad {T} (make : row * row * row -> res T) vs t ts : (exists x, In x (flat_tri t) /\ Z.of_nat (length vs) <= x) -> from_mesh_data make vs (t :: ts) = Err IndexError.
Proof.
  intros (x & X & B). cbn [from_mesh_data]. assert (G : forall i, i <> x -> getitem vs i = Err IndexError \/ exists v, getitem vs i = Ok v).
  { intros i _. unfold getitem. cbv zeta. destruct (_ <? 0); [left; reflexivity|]. destruct (nth_error _ _); [right; eauto|left; reflexivity]. }
  assert (N : getitem vs x = Err IndexError).
  { unfold getitem. cbv zeta. destruct (x <? 0) eqn:P; [apply Z.ltb_lt in P; lia|]. rewrite P. rewrite (proj2 (nth_error_None vs (Z.to_nat x))) by lia. reflexivity. }
  assert (A : forall i, getitem vs i = Err IndexError \/ exists v, getitem vs i = Ok v).
  { intros i. destruct (Z.eq_dec i x) as [-> | D]; [left; exact N|apply G, D]. }
  destruct t as [[i j] k]. cbn [flat_tri In] in X. unfold gather.
  destruct (A i) as [-> | [v1 E1]]; [reflexivity|]. destruct (A j) as [-> | [v2 E2]]; [rewrite E1; reflexivity|]. destruct (A k) as [-> | [v3 E3]]; [rewrite E1, E2; reflexivity|].
  destruct X as [<- | [<- | [<- | []]]]; congruence.
Qed.
Lemma shell_triangulation_ok : forall V (faces : list (V * V * V)), length (verts (shell_triangulation faces)) = (3 * length faces)%nat /\
  triangles_vertices (shell_triangulation faces) = Ok faces.
Proof.
  intros V faces. split.
  - unfold shell_triangulation. cbn [verts]. induction faces as [|[[a b] c] l IH]; [reflexivity|]. cbn [flat_map app length] in *. rewrite IH. lia.
  - apply shape_api. unfold shape, shell_triangulation. cbn [tris].
    set (f := fun i => (3 * Z.of_nat i, 3 * Z.of_nat i + 1, 3 * Z.of_nat i + 2)).
    set (g := fun t : V * V * V => let '(a, b, c) := t in [a; b; c]).
    assert (G : forall (pre : list V) n, length pre = (3 * n)%nat ->
      Forall2 (corners {| mdim := 3; verts := pre ++ flat_map g faces; tris := map f (seq 0 (length faces)) |}) (map f (seq n (length faces))) faces).
    { generalize (map f (seq 0 (length faces))). intros ts. induction faces as [|[[a b] c] s IH]; intros pre n Hn; cbn [length seq map]; [constructor|].
      constructor.
      - unfold f, corners. cbn [verts flat_map g app].
        replace (Z.to_nat (3 * Z.of_nat n)) with (length pre) by lia. replace (Z.to_nat (3 * Z.of_nat n + 1)) with (length pre + 1)%nat by lia.
        replace (Z.to_nat (3 * Z.of_nat n + 2)) with (length pre + 2)%nat by lia.
        do 3 (split; [lia|]). rewrite !nth_error_app2 by lia.
        replace (length pre - length pre)%nat with 0%nat by lia. replace (length pre + 1 - length pre)%nat with 1%nat by lia.
        replace (length pre + 2 - length pre)%nat with 2%nat by lia. auto.
      - specialize (IH (pre ++ [a; b; c]) (S n)). cbn [flat_map g]. rewrite <- app_assoc in IH. apply IH. rewrite app_length. cbn. lia. }
    apply (G [] 0%nat). reflexivity.
Qed.

(** the box of a triangle shell is that of the corners of its triangles *)
Lemma triangle_points_corners ts p : In p (triangle_points ts) <-> exists a b c, In (a, b, c) ts /\ (p = a \/ p = b \/ p = c).
Proof.
  unfold triangle_points. rewrite in_flat_map. split.
  - intros ([[a b] c] & T & [<- | [<- | [<- | []]]]); exists a, b, c; auto.
  - intros (a & b & c & T & P). exists (a, b, c). split; [exact T|]. cbn [In]. destruct P as [-> | [-> | ->]]; auto.
Qed.
