(** Property theorems: meshes (C21-C24, C26, C27, C61, C91). *)
From Coq Require Import List ZArith Permutation Lia.
From Verif.Model Require Import Base Mesh.
From Verif.Spec Require Import MeshSpec.
From Verif.Proofs Require Import MeshP MeshP2.
Open Scope Z_scope.

(** A mesh has a shape (list of triangles as coordinates) iff all its indices are in range, the shape is
    unique and it is what [triangles_vertices] returns. *)
Theorem C21_consistent_iff_shape {V} (m : mesh V) : consistent m <-> exists s, shape m s.
Proof. exact (consistent_shape m). Qed.
Print Assumptions C21_consistent_iff_shape.
Theorem C21_triangles_vertices {V} (m : mesh V) s : shape m s -> triangles_vertices m = Ok s.
Proof. exact (shape_api m s). Qed.
Print Assumptions C21_triangles_vertices.

(** ** C21 concatenation *)
Theorem C21_add m1 m2 s1 s2 : mdim m1 = mdim m2 -> shape m1 s1 -> shape m2 s2 ->
  exists m, mesh_add m1 m2 = Ok m /\ mdim m = mdim m1 /\ shape m (s1 ++ s2).
Proof. exact (merge_plain m1 m2 s1 s2). Qed.
Print Assumptions C21_add.
Theorem C21_from_meshes d ms ss : (forall m, In m ms -> mdim m = d) -> Forall2 shape ms ss ->
  exists m, from_meshes d ms false false = Ok m /\ mdim m = d /\ shape m (concat ss).
Proof. exact (from_meshes_plain d ms ss). Qed.
Print Assumptions C21_from_meshes.
Theorem C21_different_classes m1 m2 mv mt : mdim m1 <> mdim m2 -> merge m1 m2 mv mt = Err ValueError.
Proof. exact (merge_class m1 m2 mv mt). Qed.
Print Assumptions C21_different_classes.
(** A square of two triangles with one repeated corner. *)
Definition ex_mesh : mesh row :=
  {| mdim := 3; verts := [[0; 0; 0]; [1; 0; 0]; [1; 1; 0]; [0; 0; 0]; [0; 1; 0]]; tris := [(0, 1, 2); (3, 2, 4)] |}.
Definition ex_shape : list (row * row * row) := [([0; 0; 0], [1; 0; 0], [1; 1; 0]); ([0; 0; 0], [1; 1; 0], [0; 1; 0])].
Example C21_nonvacuous : shape ex_mesh ex_shape.
Proof. repeat constructor; try reflexivity; cbn; lia. Qed.

(** ** C22 merge_vertices *)
Theorem C22_merge_vertices m s : shape m s ->
  exists m', merge_vertices m = Ok m' /\ mdim m' = mdim m /\ shape m' s /\ NoDup (verts m') /\
    Sorted.StronglySorted (fun a b => cmp_row a b = Lt) (verts m') /\ (forall v, In v (verts m') <-> In v (verts m)).
Proof. exact (merge_vertices_ok m s). Qed.
Print Assumptions C22_merge_vertices.
Example C22_nonvacuous : match merge_vertices ex_mesh with Ok m => length (verts m) = 4%nat /\ tris m = [(0, 2, 3); (0, 3, 1)] | Err _ => False end.
Proof. vm_compute. auto. Qed.

(** ** C23 merge_triangles *)
Theorem C23_merge_triangles {V} (m : mesh V) : exists m', merge_triangles m = Ok m' /\ mdim m' = mdim m /\ verts m' = verts m /\
  (forall t, In t (tris m') -> In t (tris m)) /\
  (forall t, In t (tris m) -> exists t', In t' (tris m') /\ same_triple t t') /\
  NoDup (tris m') /\
  (forall t t', In t (tris m') -> In t' (tris m') -> same_triple t t' -> t = t').
Proof. exact (merge_triangles_spec m). Qed.
Print Assumptions C23_merge_triangles.
Theorem C23_merge_triangles_idempotent {V} (m m' : mesh V) : merge_triangles m = Ok m' -> merge_triangles m' = Ok m'.
Proof. exact (merge_triangles_idem m m'). Qed.
Print Assumptions C23_merge_triangles_idempotent.
Example C23_nonvacuous : match merge_triangles {| mdim := 3; verts := verts ex_mesh; tris := [(4, 2, 0); (0, 1, 2); (2, 0, 1)] |} with
  Ok m => tris m = [(0, 1, 2); (4, 2, 0)] | Err _ => False end.
Proof. vm_compute. reflexivity. Qed.

(** ** C24 split_shared_vertices *)
Theorem C24_split {V} (m : mesh V) s : shape m s ->
  exists m', split_shared_vertices m = Ok m' /\ mdim m' = mdim m /\
    verts m' = flat_map (fun p => let '(a, b, c) := p in [a; b; c]) s /\
    tris m' = map (fun i => (3 * Z.of_nat i, 3 * Z.of_nat i + 1, 3 * Z.of_nat i + 2)) (seq 0 (length (tris m))) /\ shape m' s.
Proof. exact (split_ok m s). Qed.
Print Assumptions C24_split.
Theorem C24_split_count {V} (m m' : mesh V) : consistent m -> split_shared_vertices m = Ok m' ->
  length (verts m') = (3 * length (tris m))%nat.
Proof. exact (split_length m m'). Qed.
Print Assumptions C24_split_count.
Theorem C24_split_then_merge m s : shape m s ->
  exists m' m'', split_shared_vertices m = Ok m' /\ merge_vertices m' = Ok m'' /\ shape m'' s /\ NoDup (verts m'').
Proof. exact (split_merge m s). Qed.
Print Assumptions C24_split_then_merge.

(** ** C26 border *)
Theorem C26_mesh_border {V} (m : mesh V) : NoDup (mesh_border m) /\
  (forall e, In e (mesh_border m) -> exists a b, a <= b /\ e = [a; b]) /\
  (forall a b, a <= b -> (In [a; b] (mesh_border m) <-> occurs a b (sides_of (tris m)) 1)).
Proof. exact (border_ok m). Qed.
Print Assumptions C26_mesh_border.
Example C26_nonvacuous : mesh_border {| mdim := 3; verts := verts ex_mesh; tris := [(0, 1, 2); (0, 2, 4)] |} = [[0; 1]; [0; 4]; [1; 2]; [2; 4]].
Proof. vm_compute. reflexivity. Qed.

(** ** C27 serialisation *)
Theorem C27_dict_roundtrip_3d (m : mesh row) : (forall v : row, In v (verts m) -> length v = 3%nat) ->
  dict_to_object (mdim m) (to_dict m) = Ok m.
Proof. exact (dict_roundtrip m). Qed.
Print Assumptions C27_dict_roundtrip_3d.
(** Mesh2D: with three vertices the round trip yields two vertices of three coordinates; with four
    vertices it raises ValueError. *)
Theorem C145_dict_roundtrip_2d_refuted :
  (exists m m' : mesh row, mdim m = 2 /\ (forall v : row, In v (verts m) -> length v = 2%nat) /\ consistent m /\
     dict_to_object 2 (to_dict m) = Ok m' /\ verts m' <> verts m /\ ~ consistent m') /\
  (exists m : mesh row, mdim m = 2 /\ (forall v : row, In v (verts m) -> length v = 2%nat) /\ consistent m /\
     dict_to_object 2 (to_dict m) = Err ValueError).
Proof. exact dict_2d_refuted. Qed.
Print Assumptions C145_dict_roundtrip_2d_refuted.

(** ** C61 the | operator *)
Theorem C61_or m1 m2 s1 s2 : mdim m1 = mdim m2 -> shape m1 s1 -> shape m2 s2 -> s1 <> [] -> s2 <> [] ->
  exists m, mesh_or m1 m2 = Ok m /\ mdim m = mdim m1 /\ consistent m /\ NoDup (verts m) /\
    (forall v, In v (verts m) <-> In v (verts m1) \/ In v (verts m2)) /\
    (forall t t', In t (tris m) -> In t' (tris m) -> same_triple t t' -> t = t') /\
    exists s, shape m s /\ (forall p, In p s -> In p (s1 ++ s2)) /\
      (forall a b c, In (a, b, c) (s1 ++ s2) -> exists a' b' c', In (a', b', c') s /\ Permutation [a; b; c] [a'; b'; c']).
Proof. exact (mesh_or_ok m1 m2 s1 s2). Qed.
Print Assumptions C61_or.
(** When one operand has no triangle nothing is merged, and from_meshes of a single mesh with both flags set
    does not merge anything. *)
Theorem C146_or_empty_refuted : exists m1 m2 m : mesh row, mdim m1 = mdim m2 /\ consistent m1 /\ consistent m2 /\
  mesh_or m1 m2 = Ok m /\ ~ NoDup (verts m) /\
  (exists t t', In t (tris m) /\ In t' (tris m) /\ same_triple t t' /\ t <> t') /\
  from_meshes 3 [m2] true true = Ok m2 /\ ~ NoDup (verts m2).
Proof. exact or_empty_refuted. Qed.
Print Assumptions C146_or_empty_refuted.

(** ** C91 check_consistency *)
Theorem C91_check_consistency {V} (m : mesh V) b : check_consistency m = Ok b ->
  (b = true <-> forall i j k x, In (i, j, k) (tris m) -> In x [i; j; k] -> x < Z.of_nat (length (verts m))).
Proof. exact (check_consistency_spec m b). Qed.
Print Assumptions C91_check_consistency.
Theorem C91_check_consistency_of_nonnegative_indices {V} (m : mesh V) : tris m <> [] -> (forall i j k x, In (i, j, k) (tris m) -> In x [i; j; k] -> 0 <= x) ->
  exists b, check_consistency m = Ok b /\ (b = true <-> consistent m).
Proof. exact (check_consistency_consistent m). Qed.
Print Assumptions C91_check_consistency_of_nonnegative_indices.
Theorem C91_no_triangle {V} (m : mesh V) : tris m = [] -> check_consistency m = Err ValueError.
Proof. exact (check_consistency_empty m). Qed.
Print Assumptions C91_no_triangle.
(** Negative indices are not detected. *)
Theorem C152_negative_index_refuted : exists m : mesh Z, check_consistency m = Ok true /\ ~ consistent m.
Proof. exact check_consistency_negative. Qed.
Print Assumptions C152_negative_index_refuted.
