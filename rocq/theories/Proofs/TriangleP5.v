(** Normals, displacements, orientation and attributes of triangles. *)
From Coq Require Import Reals Lra Lia List ZArith Bool.
From Verif.Model Require Import Base RBase Vec Frame BBox Mesh Edges Plane Triangle3.
From Verif.Spec Require Import VecSpec TriangleSpec.
From Verif.Proofs Require Import VecP LineP EdgesP3 TriangleP TriangleP2 TriangleP3 TriangleP4.
Import ListNotations.
Open Scope R_scope.

Lemma cross_scale u v a b : cross3 (mul3 u a) (mul3 v b) = mul3 (cross3 u v) (a * b).
Proof. unfold cross3. v3; ring. Qed.
Lemma mul3_zero u k : k <> 0 -> mul3 u k = V3 0 0 0 -> u = V3 0 0 0.
Proof. intros K E. assert (x3 u * k = 0) by (unfold mul3 in E; congruence). assert (y3 u * k = 0) by (unfold mul3 in E; congruence). assert (z3 u * k = 0) by (unfold mul3 in E; congruence). apply v3_ext; cbn [x3 y3 z3]; nra. Qed.
Lemma normal_ok a b c : ~ flat3 (a, b, c) -> exists n, triangle3_normal (a, b, c) = Ok n /\ norm3 n = 1 /\ dot3 n (sub3 b a) = 0 /\ dot3 n (sub3 c a) = 0 /\ area_vector (a, b, c) = mul3 n (2 * area3 (a, b, c)).
Proof.
  intros N. destruct (not_flat_ne a b c N) as (N1 & N2 & N3). unfold triangle3_normal, plane_from_3_points.
  assert (G : forall p q, p <> q -> 0 < D q p). { intros p q H. assert (D q p <> 0) by (rewrite dist3_zero; auto). pose proof (D_pos q p). lra. } assert (G1 := G a b N1). assert (G2 := G a c (not_eq_sym N3)). unfold point_distance3 in G1, G2.
  destruct (unit_vector3 (sub3 b a)) as [v1|e] eqn:E1; [|apply unit3_err in E1 as (E1 & _); apply norm3_zero in E1; lra]. destruct (unit_vector3 (sub3 c a)) as [v2|e] eqn:E2; [|apply unit3_err in E2 as (E2 & _); apply norm3_zero in E2; lra].
  cbn [bind]. apply unit3_ok in E1 as (_ & ->). apply unit3_ok in E2 as (_ & ->). rewrite cross_scale. set (k := / norm3 (sub3 b a) * / norm3 (sub3 c a)). assert (K : 0 < k) by (apply Rmult_lt_0_compat; apply Rinv_0_lt_compat; auto).
  change (cross3 (sub3 b a) (sub3 c a)) with (area_vector (a, b, c)). set (A := area_vector (a, b, c)) in *.
  assert (AP : 0 < norm3 A). { apply norm3_ne. exact N. }
  assert (NK : norm3 (mul3 A k) = k * norm3 A) by (rewrite VecP.norm3_scale, Rabs_right by lra; reflexivity).
  destruct (unit_vector3 (mul3 A k)) as [n|e] eqn:E3; [|apply unit3_err in E3 as (E3 & _); apply norm3_zero in E3; nra]. cbn [bind fb3 bw]. assert (E3' := E3). apply unit3_ok in E3 as (_ & En). apply unit3_spec in E3' as (U & _ & _).
  assert (EA : n = mul3 A (/ norm3 A)). { rewrite En, NK. v3; field; lra. }
  exists n. split; [apply unit3_ok; split; [intros Z; rewrite Z in U; assert (Q := proj2 (norm3_zero (V3 0 0 0)) eq_refl); lra|]|].
  - rewrite U. v3; field.
  - split; auto. rewrite EA. split; [|split].
    + unfold A, area_vector, dot3, cross3, mul3, sub3. cbn [x3 y3 z3]. ring.
    + unfold A, area_vector, dot3, cross3, mul3, sub3. cbn [x3 y3 z3]. ring.
    + unfold area3. fold A. v3; field; lra.
Qed.
Lemma flat_no_triangle t : flat3 t -> triangle3_new t = Err ZeroDivisionError /\ triangle3_normal t = Err ZeroDivisionError.
Proof.
  destruct t as [[a b] c]. intros F. unfold triangle3_new, triangle3_normal. assert (E : plane_from_3_points a b c = Err ZeroDivisionError); [|rewrite E; auto]. unfold plane_from_3_points.
  destruct (unit_vector3 (sub3 b a)) as [v1|e] eqn:E1; [|apply unit3_err in E1 as (_ & ->); auto]. destruct (unit_vector3 (sub3 c a)) as [v2|e] eqn:E2; [|apply unit3_err in E2 as (_ & ->); auto]. cbn [bind].
  apply unit3_ok in E1 as (_ & ->). apply unit3_ok in E2 as (_ & ->). rewrite cross_scale. change (cross3 (sub3 b a) (sub3 c a)) with (area_vector (a, b, c)). rewrite F.
  replace (unit_vector3 _) with (Err ZeroDivisionError : res vec3); [reflexivity|]. symmetry. apply unit3_err. split; auto. v3; ring.
Qed.
(** displacements *)
Lemma translated t o : ~ flat3 t -> exists t', triangle3_translation t o = Ok t' /\ t' = map_corners (fun p => add3 p o) t /\ area_vector t' = area_vector t /\ triangle3_area t' = triangle3_area t.
Proof.
  intros N. exists (map_corners (fun p => add3 p o) t). assert (E : area_vector (map_corners (fun p => add3 p o) t) = area_vector t). { destruct t as [[a b] c]. unfold map_corners, area_vector, cross3, sub3, add3. apply v3_ext; cbn [x3 y3 z3]; ring. }
  split; [unfold triangle3_translation; apply tri_new_ok; unfold flat3; change (fun p => translation3 p o) with (fun p => add3 p o); rewrite E; exact N|]. split; auto. split; auto. rewrite !tri_area. unfold area3. rewrite E. reflexivity.
Qed.
Lemma rotated_ok a b c center axis angle : dot3 axis axis = 1 -> ~ flat3 (a, b, c) -> let f p := rotation3 p center axis angle in
  triangle3_rotation (a, b, c) center axis angle = Ok (f a, f b, f c) /\ triangle3_area (f a, f b, f c) = triangle3_area (a, b, c) /\ area_vector (f a, f b, f c) = rotation3 (area_vector (a, b, c)) O3D axis angle.
Proof.
  intros U N f. assert (AV : area_vector (f a, f b, f c) = rotation3 (area_vector (a, b, c)) O3D axis angle).
  { unfold area_vector. rewrite <- rotation3_cross by auto. f_equal; unfold f, rotation3, sub3, mul3, cross3, dot3, O3D; apply v3_ext; cbn [x3 y3 z3]; ring. }
  split; [|split; [|exact AV]].
  - unfold triangle3_rotation, map_corners. fold (f a) (f b) (f c). apply tri_new_ok. unfold flat3. rewrite AV. intros Z. apply N. unfold flat3. apply dot3_zero. rewrite <- (rotation3_dot _ _ axis angle U), Z. unfold dot3. cbn [x3 y3 z3]. ring.
  - unfold triangle3_area. unfold f. rewrite !rotation3_dist by auto. reflexivity.
Qed.
(** the orientation of the pieces *)
Definition faces (s : R) (v : vec3) (u : corners) : Prop := 0 < s * dot3 (area_vector u) v.
Lemma dot_scale k v w : dot3 (V3 (k * x3 v) (k * y3 v) (k * z3 v)) w = k * dot3 v w. Proof. unfold dot3. cbn [x3 y3 z3]. ring. Qed.
Lemma bisect_keeps res v s t : faces s v t -> exists u, In u (bisect res t) /\ faces s v u.
Proof.
  intros F. destruct (bisect_cases res t) as [(_ & ->) | (_ & p & q & r & R0 & _ & _ & _ & ->)]; [exists t; split; [left|]; auto|].
  exists (p, mid p q, r). split; [left; auto|]. unfold faces in *. destruct (child_vec p q r) as (-> & _). cbv zeta. rewrite dot_scale, (area_vec_rot t _ R0). lra.
Qed.
Lemma bisect_turns res v s t : res < diam t -> faces s v t -> exists u, In u (bisect res t) /\ faces (- s) v u.
Proof.
  intros L F. destruct (bisect_cases res t) as [(H & _) | (_ & p & q & r & R0 & _ & _ & _ & ->)]; [lra|].
  exists (q, mid p q, r). split; [right; left; auto|]. unfold faces in *. destruct (child_vec p q r) as (_ & ->). cbv zeta. rewrite dot_scale, (area_vec_rot t _ R0). lra.
Qed.
Lemma rounds_keep res v s n : forall ts, (exists u, In u ts /\ faces s v u) -> exists u, In u (rounds n res ts) /\ faces s v u.
Proof.
  induction n as [|n IH]; intros ts (u & I & F); cbn [rounds]; eauto. apply IH. destruct (bisect_keeps res v s u F) as (w & J & G). exists w. split; auto. apply in_flat_map. eauto.
Qed.
Lemma turned t resolution fuel ts : ~ flat3 t -> ~ sides_at_most resolution t -> subdescription_to_triangles fuel t resolution = Ok ts -> exists u, In u ts /\ dot3 (area_vector u) (area_vector t) < 0.
Proof.
  intros N H E. assert (L : resolution < diam t). { destruct (Rlt_dec resolution (diam t)) as [L | L]; auto. exfalso. apply H. apply diam_le. lra. }
  destruct (Rle_dec resolution 0) as [Z | Z]; [rewrite (bisect_forever t resolution fuel N Z) in E; discriminate|]. assert (P : 0 < resolution) by lra.
  destruct (bisect_ends resolution t P) as (k & A & n & B). set (ts' := rounds k resolution [t]) in *.
  assert (NF : forall u, In u ts' -> ~ flat3 u).
  { apply (rounds_inv (fun ts => forall u, In u ts -> ~ flat3 u)); [|intros u [<- | []]; auto]. intros ts0 H0 u I F. apply in_flat_map in I as (v & I & J). apply (H0 v I). eapply bisect_flat; eauto. }
  assert (Q : forall f l a, bisect_loop f resolution l = Ok a -> forall m, bisect_loop (m + f) resolution l = Ok a).
  { induction f as [|f IH]; intros l a X m; [discriminate|]. rewrite loop_unfold in X. replace (m + S f)%nat with (S (m + f)) by lia. rewrite loop_unfold. destruct (Nat.eqb _ _); auto. }
  unfold subdescription_to_triangles in E. match type of E with bind ?Y _ = _ => destruct Y as [a|] eqn:X end; [|cbn [bind] in E; discriminate E]. cbn [bind] in E.
  assert (EA : a = ts'). { assert (Y := Q _ _ _ X n). rewrite B in Y by lia. apply Ok_inj in Y. auto. } subst a. rewrite mapM_self in E by (intros u I; apply tri_new_ok; auto). apply Ok_inj in E as <-.
  destruct k as [|k]; [exfalso; assert (K := A t (or_introl eq_refl)); lra|].
  assert (F0 : faces 1 (area_vector t) t). { unfold faces. rewrite Rmult_1_l. pose proof (dot3_zero (area_vector t)) as DZ. pose proof (n3_sq (area_vector t)). assert (dot3 (area_vector t) (area_vector t) <> 0) by (rewrite DZ; exact N). pose proof (dot3_pos (area_vector t)). lra. }
  destruct (bisect_turns resolution (area_vector t) 1 t L F0) as (w & J & G).
  destruct (rounds_keep resolution (area_vector t) (- 1) k (flat_map (bisect resolution) [t])) as (u & I & F); [exists w; split; auto; apply in_flat_map; exists t; split; [left|]; auto|].
  exists u. split; [exact I|]. unfold faces in F. lra.
Qed.
Lemma turned_refuted : exists t resolution n ts u, ~ flat3 t /\ 0 < resolution /\ subdescription_to_triangles n t resolution = Ok ts /\ In u ts /\ dot3 (area_vector u) (area_vector t) < 0.
Proof.
  set (t := (V3 0 0 0, V3 1 0 0, V3 0 1 0) : corners). assert (N : ~ flat3 t). { unfold flat3, t, area_vector, cross3, sub3. cbn [x3 y3 z3]. intros E. assert (Z : (1 - 0) * (1 - 0) - (0 - 0) * (0 - 0) = 0) by congruence. lra. }
  destruct (bisect_main t (1 / 2) N ltac:(lra)) as (n & ts & A & _). specialize (A n (le_n n)).
  assert (H : ~ sides_at_most (1 / 2) t). { unfold t, sides_at_most. intros (H & _ & _). pose proof (D_sq (V3 0 0 0) (V3 1 0 0)) as Q. cbn [x3 y3 z3] in Q. pose proof (D_pos (V3 0 0 0) (V3 1 0 0)). nra. }
  destruct (turned t (1 / 2) n ts N H A) as (u & I & F). exists t, (1 / 2), n, ts, u. repeat split; auto. lra.
Qed.
(** attributes *)
Lemma attrs_lost alpha color name : triangle3_init alpha color name = Attrs (PyNum 1) PyNone (PyStr []).
Proof. reflexivity. Qed.
Lemma attrs_refuted : exists alpha color name, a_alpha (triangle3_init alpha color name) <> alpha /\ a_color (triangle3_init alpha color name) <> color /\ a_name (triangle3_init alpha color name) <> name.
Proof. exists (PyNum (1 / 2)), (PyTuple 1 0 0), (PyStr [65%Z]). rewrite attrs_lost. cbn [a_alpha a_color a_name]. repeat split; try discriminate. intros E. assert (1 = 1 / 2) by congruence. lra. Qed.
Lemma attrs_moved_refuted : exists a, triangle3_moved_attrs a <> a /\ triangle3_copied_attrs a <> a.
Proof. exists (Attrs (PyNum 1) (PyTuple 1 0 0) (PyStr [])). split; discriminate. Qed.
