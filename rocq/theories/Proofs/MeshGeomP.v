(** Geometry of meshes. *)
From Coq Require Import Reals Lra Lia List Bool Psatz.
From Verif.Model Require Import RBase Vec BBox Mesh MeshGeom.
From Verif.Spec Require Import MeshSpec MeshGeomSpec BBoxSpec.
From Verif.Proofs Require Import VecP BBoxP MeshP.
Import ListNotations.
Open Scope R_scope.

Lemma shape_triangles_vertices (m : mesh vec3) s : shape m s -> triangles_vertices m = Ok s.
Proof.
  intros H. unfold triangles_vertices. apply mapM_ok. unfold shape in H.
  induction H as [|t p T S C _ IH]; constructor; [|exact IH].
  apply gather_corners; [|exact C]. destruct t as [[i j] k], p as [[a b] c]. cbn in C.
  intros x [<- | [<- | [<- | []]]]; tauto.
Qed.
Lemma kept_select {A B} (P : B -> Prop) (f : B -> bool) (T : list A) (S : list B) :
  (forall c, f c = true <-> P c) -> length T = length S -> kept P T S (select T (map f S)).
Proof.
  intros F. revert S. induction T as [|t T IH]; intros [|c S] L; try discriminate; unfold select; cbn [map combine filter fst snd].
  - constructor.
  - injection L as L. specialize (IH S L). unfold select in IH. destruct (f c) eqn:E; cbn [map fst].
    + apply kept_yes; [apply F, E|exact IH].
    + apply kept_no; [rewrite <- F, E; discriminate|exact IH].
Qed.
Lemma Forall2_len {A B} (R : A -> B -> Prop) l r : Forall2 R l r -> length l = length r.
Proof. induction 1; cbn; congruence. Qed.
Lemma kept_corners (m : mesh vec3) P T S R : Forall2 (corners m) T S -> kept P T S R -> exists S', Forall2 (corners m) R S' /\ kept P S S S'.
Proof.
  intros H K. revert H. induction K as [|t c T S R Pc K IH|t c T S R Pc K IH]; intros H; inversion H; subst.
  - exists []. split; constructor.
  - destruct IH as (S' & A & B); [assumption|]. exists (c :: S'). split; constructor; assumption.
  - destruct IH as (S' & A & B); [assumption|]. exists S'. split; [assumption|]. apply kept_no; assumption.
Qed.
Lemma dist_sq_pd a b : dist_sq a b = point_distance3 a b ^ 2.
Proof.
  unfold dist_sq, point_distance3. replace (norm3 (sub3 a b) ^ 2) with (norm3 (sub3 a b) * norm3 (sub3 a b)) by ring.
  rewrite norm3_sq. unfold dot3. ring.
Qed.
Lemma kept_ext {A B} (P Q : B -> Prop) (T : list A) S R : (forall c, P c <-> Q c) -> kept P T S R -> kept Q T S R.
Proof. intros E K. induction K; [constructor|apply kept_yes; [apply E|]; assumption|apply kept_no; [rewrite <- E|]; assumption]. Qed.
Lemma remove_degenerate_spec (m : mesh vec3) s tol : shape m s ->
  exists m', remove_degenerate_triangles m tol = Ok m' /\ mdim m' = mdim m /\ verts m' = verts m /\
    kept (all_sides (fun a b => tol < point_distance3 a b ^ 2)) (tris m) s (tris m') /\
    exists s', shape m' s' /\ kept (all_sides (fun a b => tol < point_distance3 a b ^ 2)) s s s'.
Proof.
  intros H. unfold remove_degenerate_triangles. rewrite (shape_triangles_vertices m s H). cbn [bind].
  eexists; split; [reflexivity|]. cbn [mdim verts tris]. split; [reflexivity|split; [reflexivity|]].
  assert (K : kept (all_sides (fun a b => tol < point_distance3 a b ^ 2)) (tris m) s (select (tris m) (map (degenerate_mask tol) s))).
  { apply kept_select; [|eapply Forall2_len, H]. intros [[a b] c]. unfold degenerate_mask, all_sides.
    rewrite !andb_true_iff, !Rltb_spec, !dist_sq_pd. tauto. }
  split; [exact K|]. destruct (kept_corners _ _ _ _ _ H K) as (S' & A & B). exists S'. split; [exact A|exact B].
Qed.
Lemma remove_large_spec (m : mesh vec3) s t : shape m s ->
  exists m', remove_large_triangles m t = Ok m' /\ mdim m' = 3%Z /\ verts m' = verts m /\
    kept (all_sides (fun a b => point_distance3 a b < t)) (tris m) s (tris m') /\
    exists s', shape m' s' /\ kept (all_sides (fun a b => point_distance3 a b < t)) s s s'.
Proof.
  intros H. unfold remove_large_triangles, compute_len_edges. rewrite (shape_triangles_vertices m s H). cbn [bind].
  eexists; split; [reflexivity|]. cbn [mdim verts tris]. split; [reflexivity|split; [reflexivity|]].
  assert (K : kept (all_sides (fun a b => point_distance3 a b < t)) (tris m) s
     (select (tris m) (map (forallb (fun l => Rltb l t)) (map len_edges s)))).
  { rewrite map_map. apply kept_select; [|eapply Forall2_len, H]. intros [[a b] c]. unfold len_edges, all_sides, forallb.
    rewrite !andb_true_iff, !Rltb_spec. unfold point_distance3. tauto. }
  split; [exact K|]. destruct (kept_corners _ _ _ _ _ H K) as (S' & A & B). exists S'. split; [exact A|exact B].
Qed.
(** with tol = 0 exactly the triangles with two coincident corners go *)
Lemma point_distance3_zero a b : point_distance3 a b = 0 <-> a = b.
Proof.
  unfold point_distance3. rewrite norm3_zero. destruct a as [a1 a2 a3], b as [b1 b2 b3]. unfold sub3. cbn [x3 y3 z3]. split.
  - intros E. pose proof (f_equal x3 E). pose proof (f_equal y3 E). pose proof (f_equal z3 E). cbn [x3 y3 z3] in *. apply V3_eq; lra.
  - intros E. pose proof (f_equal x3 E). pose proof (f_equal y3 E). pose proof (f_equal z3 E). cbn [x3 y3 z3] in *. apply V3_eq; lra.
Qed.
Lemma pd_sq_pos a b : 0 < point_distance3 a b ^ 2 <-> a <> b.
Proof.
  assert (P : 0 <= point_distance3 a b) by apply norm3_pos. rewrite <- point_distance3_zero. split; intros H.
  - intros E. rewrite E in H. lra.
  - apply pow_lt. lra.
Qed.
Lemma remove_degenerate_zero (m : mesh vec3) s : shape m s ->
  exists m', remove_degenerate_triangles m 0 = Ok m' /\ mdim m' = mdim m /\ verts m' = verts m /\
    kept (all_sides (fun a b => a <> b)) (tris m) s (tris m').
Proof.
  intros H. destruct (remove_degenerate_spec m s 0 H) as (m' & E & D & V & K & _). exists m'. split; [exact E|split; [exact D|split; [exact V|]]].
  eapply kept_ext; [|exact K]. intros [[a b] c]. unfold all_sides. rewrite !pd_sq_pos. tauto.
Qed.

(** ** area *)
Lemma tri_cross_area t : (let c := tri_cross t in sqrt (x3 c ^ 2 + y3 c ^ 2 + z3 c ^ 2) / 2) = tri_area t.
Proof.
  destruct t as [[a b] c]. unfold tri_cross, tri_area, norm3. cbn zeta. f_equal. f_equal.
  unfold cross3, sub3. cbn [x3 y3 z3]. ring.
Qed.
Lemma fold_left_plus l : forall a, fold_left Rplus l a = a + fold_right Rplus 0 l.
Proof. induction l as [|x l IH]; intros a; cbn [fold_left fold_right]; [lra|]. rewrite IH. lra. Qed.
Lemma mesh_area_spec (m : mesh vec3) s : shape m s -> mesh_area m = Ok (total_area s).
Proof.
  intros H. unfold mesh_area. rewrite (shape_triangles_vertices m s H). cbn [bind]. f_equal.
  rewrite fold_left_plus, Rplus_0_l. unfold total_area. f_equal. apply map_ext. intros t. apply tri_cross_area.
Qed.
Lemma tri_area_pos t : 0 <= tri_area t.
Proof. destruct t as [[a b] c]. unfold tri_area. pose proof (norm3_pos (cross3 (sub3 b a) (sub3 c a))). lra. Qed.
Lemma total_area_pos s : 0 <= total_area s.
Proof. unfold total_area. induction s; cbn [map fold_right]; [lra|]. pose proof (tri_area_pos a). lra. Qed.
Lemma total_area_app s s' : total_area (s ++ s') = total_area s + total_area s'.
Proof. unfold total_area. induction s; cbn [app map fold_right]; [lra|]. rewrite IHs. lra. Qed.
Lemma tri_area_scale k t : tri_area (scale_tri k t) = k ^ 2 * tri_area t.
Proof.
  destruct t as [[a b] c]. unfold tri_area, scale_tri.
  replace (cross3 (sub3 (mul3 b k) (mul3 a k)) (sub3 (mul3 c k) (mul3 a k))) with (mul3 (cross3 (sub3 b a) (sub3 c a)) (k ^ 2)).
  - rewrite norm3_scale, Rabs_right by (apply Rle_ge, pow2_ge_0). field.
  - unfold cross3, sub3, mul3. cbn [x3 y3 z3]. apply V3_eq; ring.
Qed.
Lemma total_area_scale k s : total_area (map (scale_tri k) s) = k ^ 2 * total_area s.
Proof. unfold total_area. induction s; cbn [map fold_right]; [ring|]. rewrite tri_area_scale, IHs. ring. Qed.
Lemma resize_shape (m : mesh vec3) s k : shape m s -> shape (resize m k) (map (scale_tri k) s) /\ tris (resize m k) = tris m /\ verts (resize m k) = map (fun v => mul3 v k) (verts m).
Proof.
  intros H. split; [|split; reflexivity]. unfold shape in *. cbn [resize tris].
  induction H as [|t p T S C _ IH]; cbn [map]; constructor; [|exact IH].
  destruct t as [[i j] l], p as [[a b] c]. unfold corners, scale_tri in *. cbn [resize verts].
  destruct C as (C1 & C2 & C3 & C4 & C5 & C6). repeat split; try assumption; apply (map_nth_error (fun v => mul3 v k)); assumption.
Qed.
Lemma resize_area (m : mesh vec3) s k : shape m s -> mesh_area (resize m k) = Ok (k ^ 2 * total_area s).
Proof. intros H. destruct (resize_shape m s k H) as [H' _]. rewrite (mesh_area_spec _ _ H'), total_area_scale. reflexivity. Qed.
Lemma tri_area_degenerate t : ~ all_sides (fun a b => a <> b) t -> tri_area t = 0.
Proof.
  destruct t as [[a b] c]. unfold all_sides. intros H.
  assert (D : a = b \/ b = c \/ a = c).
  { destruct (Req_dec (point_distance3 a b) 0) as [E|E]; [left; apply point_distance3_zero, E|].
    destruct (Req_dec (point_distance3 b c) 0) as [E'|E']; [right; left; apply point_distance3_zero, E'|].
    destruct (Req_dec (point_distance3 a c) 0) as [E2|E2]; [right; right; apply point_distance3_zero, E2|].
    rewrite point_distance3_zero in E, E', E2. tauto. }
  unfold tri_area. assert (Z : cross3 (sub3 b a) (sub3 c a) = V3 0 0 0).
  { unfold cross3, sub3. cbn [x3 y3 z3]. destruct D as [<- | [<- | <-]]; apply V3_eq; ring. }
  rewrite Z. rewrite (proj2 (norm3_zero (V3 0 0 0)) eq_refl). field.
Qed.
(** removing the exactly degenerate triangles does not change the area *)
Lemma remove_degenerate_area (m : mesh vec3) s : shape m s ->
  exists m', remove_degenerate_triangles m 0 = Ok m' /\ mesh_area m' = mesh_area m.
Proof.
  intros H. destruct (remove_degenerate_spec m s 0 H) as (m' & E & D & V & K & s' & H' & K'). exists m'. split; [exact E|].
  rewrite (mesh_area_spec _ _ H), (mesh_area_spec _ _ H'). f_equal.
  apply (kept_ext _ (all_sides (fun a b => a <> b))) in K'; [|intros [[a b] c]; unfold all_sides; rewrite !pd_sq_pos; tauto].
  clear - K'. unfold total_area. cut (forall A (T : list A) S R, kept (all_sides (fun a b : vec3 => a <> b)) T S R -> forall f : A -> _, map f T = S ->
     fold_right Rplus 0 (map tri_area (map f R)) = fold_right Rplus 0 (map tri_area S)).
  - intros C. specialize (C _ _ _ _ K' (fun x => x) (map_id _)). rewrite map_id in C. exact C.
  - intros A T S R K. induction K as [|t c T S R Pc K IH|t c T S R Pc K IH]; intros f E; cbn [map] in *.
    + reflexivity.
    + injection E as E1 E2. cbn [fold_right]. rewrite (IH f E2), E1. reflexivity.
    + injection E as E1 E2. cbn [fold_right]. rewrite (tri_area_degenerate c Pc), (IH f E2). ring.
Qed.
Lemma corners_app_l (m1 : mesh vec3) d vs ts t p : corners m1 t p -> corners {| mdim := d; verts := verts m1 ++ vs; tris := ts |} t p.
Proof.
  destruct t as [[i j] k], p as [[a b] c]. unfold corners. cbn [verts]. intros (A & B & C & E1 & E2 & E3).
  repeat split; try assumption; (rewrite nth_error_app1; [assumption|]; apply nth_error_Some; congruence).
Qed.
Lemma corners_app_r (m2 : mesh vec3) d vs ts t p : corners m2 t p ->
  corners {| mdim := d; verts := vs ++ verts m2; tris := ts |} (shift (Z.of_nat (length vs)) t) p.
Proof.
  destruct t as [[i j] k], p as [[a b] c]. unfold corners, shift. cbn [verts]. intros (A & B & C & E1 & E2 & E3).
  split; [lia|split; [lia|split; [lia|]]].
  assert (N : forall x y, (0 <= x)%Z -> nth_error (verts m2) (Z.to_nat x) = y -> nth_error (vs ++ verts m2) (Z.to_nat (x + Z.of_nat (length vs))) = y).
  { intros x y X <-. rewrite nth_error_app2 by lia. f_equal. lia. }
  split; [|split]; apply N; assumption.
Qed.
Lemma shape_first (m : mesh vec3) p s : shape m (p :: s) -> exists t, corners m t p.
Proof. unfold shape. intros H. inversion H as [|t p' T S C R]; subst. exists t. exact C. Qed.
Lemma concat_area (m1 m2 m : mesh vec3) s1 s2 : shape m1 s1 -> shape m2 s2 -> concat_mesh m1 m2 = Ok m ->
  mesh_area m = Ok (total_area s1 + total_area s2).
Proof.
  intros H1 H2. unfold concat_mesh. destruct (negb _); [discriminate|].
  assert (E1 : forall v t, verts m1 = v -> tris m1 = t -> v = [] \/ t = [] -> total_area s1 = 0).
  { intros v t <- <- [E|E].
    - destruct s1 as [|p s1]; [reflexivity|]. destruct (shape_first _ _ _ H1) as ([[i j] k] & CC). destruct p as [[a b] c].
      destruct CC as (_ & _ & _ & N & _). rewrite E in N. destruct (Z.to_nat i); discriminate.
    - unfold shape in H1. rewrite E in H1. inversion H1. reflexivity. }
  assert (E2 : forall v t, verts m2 = v -> tris m2 = t -> v = [] \/ t = [] -> total_area s2 = 0).
  { intros v t <- <- [E|E].
    - destruct s2 as [|p s2]; [reflexivity|]. destruct (shape_first _ _ _ H2) as ([[i j] k] & CC). destruct p as [[a b] c].
      destruct CC as (_ & _ & _ & N & _). rewrite E in N. destruct (Z.to_nat i); discriminate.
    - unfold shape in H2. rewrite E in H2. inversion H2. reflexivity. }
  specialize (E1 _ _ eq_refl eq_refl). specialize (E2 _ _ eq_refl eq_refl).
  destruct (verts m1) as [|v1 vs1] eqn:V1; [intros E; apply Ok_inj in E; subst m; rewrite (mesh_area_spec _ _ H2), E1 by (left; reflexivity); f_equal; ring|].
  destruct (tris m1) as [|t1 ts1] eqn:T1; [intros E; apply Ok_inj in E; subst m; rewrite (mesh_area_spec _ _ H2), E1 by (right; reflexivity); f_equal; ring|].
  destruct (verts m2) as [|v2 vs2] eqn:V2; [intros E; apply Ok_inj in E; subst m; rewrite (mesh_area_spec _ _ H1), E2 by (left; reflexivity); f_equal; ring|].
  destruct (tris m2) as [|t2 ts2] eqn:T2; [intros E; apply Ok_inj in E; subst m; rewrite (mesh_area_spec _ _ H1), E2 by (right; reflexivity); f_equal; ring|].
  rewrite <- V1, <- T1, <- V2, <- T2. intros E. apply Ok_inj in E. subst m.
  rewrite <- total_area_app. apply mesh_area_spec. unfold shape. cbn [tris]. apply Forall2_app.
  - unfold shape in H1. clear - H1. induction H1; constructor; [apply corners_app_l; assumption|assumption].
  - unfold shape in H2. clear - H2. induction H2; cbn [map]; constructor; [apply corners_app_r; assumption|assumption].
Qed.
(** ** bounding box *)
Lemma mesh_bbox_spec (m : mesh vec3) s b : shape m s -> mesh_bounding_box m = Ok b ->
  forall v0 v1 v2, In (v0, v1, v2) s -> in_box b v0 /\ in_box b v1 /\ in_box b v2.
Proof.
  intros H E v0 v1 v2 HI. destruct (from_points_least _ _ E) as (_ & C & _).
  assert (K : exists t, corners m t (v0, v1, v2)).
  { unfold shape in H. clear - H HI. induction H as [|t p T S C _ IH]; [destruct HI|]. destruct HI as [-> | HI]; [exists t; exact C|apply IH, HI]. }
  destruct K as ([[i j] k] & (_ & _ & _ & N1 & N2 & N3)). split; [|split]; apply C; eapply nth_error_In; eassumption.
Qed.
(** ** to_triangles3d *)
Lemma to_triangles3d_spec (m : mesh vec3) s : shape m s ->
  exists r, to_triangles3d m = Ok r /\ kept (all_sides (fun a b => / 10 ^ 6 < point_distance3 a b ^ 2)) s s r.
Proof.
  intros H. destruct (remove_degenerate_spec m s (/ 10 ^ 6) H) as (m' & E & _ & _ & _ & s' & H' & K').
  exists s'. unfold to_triangles3d. rewrite E. cbn [bind]. split; [apply shape_triangles_vertices, H'|exact K'].
Qed.
Definition small_mesh : mesh vec3 :=
  {| mdim := 3; verts := [V3 0 0 0; V3 (/ 10 ^ 3) 0 0; V3 0 (/ 10 ^ 3) 0]; tris := [(0, 1, 2)%Z] |}.
Lemma small_shape : shape small_mesh [(V3 0 0 0, V3 (/ 10 ^ 3) 0 0, V3 0 (/ 10 ^ 3) 0)].
Proof. unfold shape, small_mesh. cbn [tris]. constructor; [|constructor]. unfold corners. cbn [verts]. repeat split; (lia || reflexivity). Qed.
(** A right triangle with 1 mm legs disappears from to_triangles3d, hence from to_closed_shell. *)
Lemma to_triangles3d_drops : exists (m : mesh vec3) s, shape m s /\ 0 < total_area s /\ to_triangles3d m = Ok [].
Proof.
  exists small_mesh, [(V3 0 0 0, V3 (/ 10 ^ 3) 0 0, V3 0 (/ 10 ^ 3) 0)]. split; [apply small_shape|]. split.
  - unfold total_area, tri_area. cbn [map fold_right]. assert (P : 0 < / 10 ^ 3) by (apply Rinv_0_lt_compat; lra).
    assert (N : 0 < norm3 (cross3 (sub3 (V3 (/ 10 ^ 3) 0 0) (V3 0 0 0)) (sub3 (V3 0 (/ 10 ^ 3) 0) (V3 0 0 0)))).
    { apply norm3_ne. intros E. pose proof (f_equal z3 E) as Z. unfold cross3, sub3 in Z. cbn [x3 y3 z3] in Z.
      assert (0 < / 10 ^ 3 * / 10 ^ 3) by (apply Rmult_lt_0_compat; exact P). lra. }
    lra.
  - destruct (to_triangles3d_spec _ _ small_shape) as (r & E & K). rewrite E. f_equal.
    inversion K as [|t c T S R Pc K'|t c T S R Pc K']; subst.
    + exfalso. unfold all_sides in Pc. destruct Pc as (P1 & _). revert P1. rewrite <- dist_sq_pd. unfold dist_sq, sub3. cbn [x3 y3 z3].
      replace ((0 - / 10 ^ 3) ^ 2 + (0 - 0) ^ 2 + (0 - 0) ^ 2) with (/ 10 ^ 6) by field. lra.
    + inversion K'. reflexivity.
Qed.
(** ** minimum_distance *)
Lemma mapM_total {A B} (f : A -> res B) l : (forall a, In a l -> exists b, f a = Ok b) -> exists r, mapM f l = Ok r.
Proof.
  induction l as [|a l IH]; intros H; [exists []; reflexivity|]. destruct (H a (or_introl eq_refl)) as [b Eb].
  destruct IH as [r Er]; [intros; apply H; right; assumption|]. exists (b :: r). cbn [mapM]. rewrite Eb, Er. reflexivity.
Qed.
Lemma Forall2_in_l {A B} (R : A -> B -> Prop) l r a : Forall2 R l r -> In a l -> exists b, In b r /\ R a b.
Proof.
  induction 1 as [|x y l r Hxy _ IH]; intros H; [destruct H|]. destruct H as [-> | H].
  - exists y. split; [left; reflexivity|exact Hxy].
  - destruct (IH H) as (b & Hb & Rb). exists b. split; [right; exact Hb|exact Rb].
Qed.
Lemma Forall2_in_r {A B} (R : A -> B -> Prop) l r b : Forall2 R l r -> In b r -> exists a, In a l /\ R a b.
Proof.
  induction 1 as [|x y l r Hxy _ IH]; intros H; [destruct H|]. destruct H as [-> | H].
  - exists x. split; [left; reflexivity|exact Hxy].
  - destruct (IH H) as (a & Ha & Ra). exists a. split; [right; exact Ha|exact Ra].
Qed.
Lemma pd_sym a b : point_distance3 a b = point_distance3 b a.
Proof. unfold point_distance3, norm3, sub3. cbn [x3 y3 z3]. f_equal. ring. Qed.
Lemma neighbour_spec query l other : nearest_query query -> other <> [] ->
  exists r, neighbour_distances query l other = Ok r /\ length r = length l /\
    (forall d, In d r -> exists p q, In p l /\ In q other /\ d = point_distance3 p q) /\
    (forall p q, In p l -> In q other -> exists d, In d r /\ d <= point_distance3 p q).
Proof.
  intros Q N. unfold neighbour_distances.
  destruct (mapM_total (fun v => match nth_error other (query other v) with Some w => Ok (norm3 (sub3 v w)) | None => Err IndexError end) l) as [r E].
  { intros a _. destruct (Q other a N) as (q & Hq & _). rewrite Hq. eexists; reflexivity. }
  exists r. split; [exact E|]. apply mapM_ok in E. split; [symmetry; eapply Forall2_len, E|]. split.
  - intros d Hd. destruct (Forall2_in_r _ _ _ _ E Hd) as (p & Hp & Ed). destruct (Q other p N) as (q & Hq & _). rewrite Hq in Ed.
    apply Ok_inj in Ed. exists p, q. split; [exact Hp|split; [eapply nth_error_In, Hq|symmetry; exact Ed]].
  - intros p q Hp Hq. destruct (Forall2_in_l _ _ _ _ E Hp) as (d & Hd & Ed). destruct (Q other p N) as (q' & Hq' & L). rewrite Hq' in Ed.
    apply Ok_inj in Ed. exists d. split; [exact Hd|]. rewrite <- Ed. apply L, Hq.
Qed.
Lemma minimum_distance_spec query (m1 m2 : mesh vec3) : nearest_query query -> verts m1 <> [] -> verts m2 <> [] ->
  exists d, minimum_distance query m1 m2 = Ok d /\
    min_dist point_distance3 (fun p => In p (verts m1)) (fun q => In q (verts m2)) d.
Proof.
  intros Q N1 N2. unfold minimum_distance.
  destruct (neighbour_spec query (verts m1) (verts m2) Q N2) as (r1 & E1 & L1 & A1 & B1).
  destruct (neighbour_spec query (verts m2) (verts m1) Q N1) as (r2 & E2 & L2 & A2 & B2).
  rewrite E1, E2. cbn [bind]. destruct r1 as [|a r1]; [destruct (verts m1); [contradiction|discriminate]|].
  destruct r2 as [|b r2]; [destruct (verts m2); [contradiction|discriminate]|].
  eexists; split; [reflexivity|].
  destruct (lmin_spec r1 a) as (P1 & P2 & P3). destruct (lmin_spec r2 b) as (R1 & R2 & R3).
  assert (I1 : In (lmin a r1) (a :: r1)) by (destruct P3 as [P3|P3]; [left; symmetry; exact P3|right; exact P3]).
  assert (I2 : In (lmin b r2) (b :: r2)) by (destruct R3 as [R3|R3]; [left; symmetry; exact R3|right; exact R3]).
  split.
  - destruct (A1 _ I1) as (p & q & Hp & Hq & D1). destruct (A2 _ I2) as (p' & q' & Hp' & Hq' & D2).
    unfold Rmin. destruct (Rle_dec _ _).
    + exists p, q. split; [exact Hp|split; [exact Hq|symmetry; exact D1]].
    + exists q', p'. split; [exact Hq'|split; [exact Hp'|rewrite D2; apply pd_sym]].
  - intros p q Hp Hq. destruct (B1 p q Hp Hq) as (d & Hd & L). eapply Rle_trans; [apply Rmin_l|]. eapply Rle_trans; [|exact L].
    destruct Hd as [<- | Hd]; [exact P1|apply P2, Hd].
Qed.
(** a nearest query exists (the oracle hypothesis is satisfiable) *)
Fixpoint linear_query (l : list vec3) (p : vec3) : nat :=
  match l with
  | [] => 0
  | q :: l' => match nth_error l' (linear_query l' p) with
               | Some r => if Rleb (point_distance3 p q) (point_distance3 p r) then 0 else S (linear_query l' p)
               | None => 0
               end
  end.
Lemma linear_query_nearest : nearest_query linear_query.
Proof.
  intros l p. induction l as [|q l IH]; intros N; [contradiction|]. cbn [linear_query].
  destruct l as [|q' l'].
  - cbn [linear_query nth_error]. exists q. split; [reflexivity|]. intros r [<- | []]. lra.
  - destruct IH as (r & Hr & L); [discriminate|]. rewrite Hr. destruct (Rleb _ _) eqn:E; rb.
    + exists q. split; [reflexivity|]. intros z [<- | Hz]; [lra|]. specialize (L z Hz). lra.
    + exists r. split; [exact Hr|]. intros z [<- | Hz]; [lra|]. apply L, Hz.
Qed.
