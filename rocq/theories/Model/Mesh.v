(** Triangle meshes: /repo/volmdlr/display.py, class MeshMixin (l.25-345), Mesh2D (l.339-372), Mesh3D (l.373-).
    A vertex array is a list of rows. For the index manipulating functions the type of rows is a
    parameter; where rows are compared (np.unique) a row is a list of integers (the float coordinates
    multiplied by a common power of two: order and equality are those of the floats, NaN excluded).
    Names, colours and caches are not modelled. Arrays with zero rows are modelled as empty lists
    (numpy raises IndexError on "triangles[:, 0]" when triangles is the 1-dimensional np.array([])). *)
From Verif.Model Require Import Base.
Open Scope Z_scope.

Definition tri3 := (Z * Z * Z)%type.
(** [mdim]: 2 for Mesh2D, 3 for Mesh3D (the class). *)
Record mesh (V : Type) := { mdim : Z; verts : list V; tris : list tri3 }.
Arguments mdim {V}. Arguments verts {V}. Arguments tris {V}.
Arguments Build_mesh {V}.

(** numpy integer indexing of the rows of an array, negative indices counting from the end. *)
Definition getitem {V} (l : list V) (i : Z) : res V :=
  let n := Z.of_nat (length l) in
  let j := if i <? 0 then i + n else i in
  if j <? 0 then Err IndexError
  else match nth_error l (Z.to_nat j) with Some x => Ok x | None => Err IndexError end.

Fixpoint mapM {A B} (f : A -> res B) (l : list A) : res (list B) :=
  match l with
  | [] => Ok []
  | a :: l' => do b <- f a; do bs <- mapM f l'; Ok (b :: bs)
  end.

(** array[triangles] *)
Definition gather {V} (l : list V) (t : tri3) : res (V * V * V) :=
  let '(i, j, k) := t in
  do a <- getitem l i; do b <- getitem l j; do c <- getitem l k; Ok (a, b, c).

(** l.262-270 [triangles_vertices]. *)
Definition triangles_vertices {V} (m : mesh V) : res (list (V * V * V)) := mapM (gather (verts m)) (tris m).

Definition shift (n : Z) (t : tri3) : tri3 := let '(i, j, k) := t in (i + n, j + n, k + n).

(** Rows compared lexicographically, as np.unique(axis=0) does. *)
Definition row := list Z.
Fixpoint cmp_row (a b : row) : comparison :=
  match a, b with
  | [], [] => Eq
  | [], _ => Lt
  | _, [] => Gt
  | x :: a', y :: b' => match x ?= y with Eq => cmp_row a' b' | c => c end
  end.
(** np.unique(rows, axis=0): the distinct rows in increasing order. *)
Fixpoint insert_u (x : row) (l : list row) : list row :=
  match l with
  | [] => [x]
  | y :: l' => match cmp_row x y with Lt => x :: l | Eq => l | Gt => y :: insert_u x l' end
  end.
Definition unique_rows (l : list row) : list row := fold_right insert_u [] l.
Definition row_eqb (a b : row) : bool := match cmp_row a b with Eq => true | _ => false end.
(** Position of the first row equal to x: return_inverse (in the unique array) and return_index
    (in the original array). *)
Fixpoint index_of (x : row) (l : list row) : Z :=
  match l with [] => 0 | y :: l' => if row_eqb x y then 0 else 1 + index_of x l' end.
Definition count_row (x : row) (l : list row) : nat := length (filter (row_eqb x) l).

(** l.147-161 [merge_vertices]. *)
Definition merge_vertices (m : mesh row) : res (mesh row) :=
  let u := unique_rows (verts m) in
  let indices_map := map (fun v => index_of v u) (verts m) in
  do t <- mapM (gather indices_map) (tris m);
  Ok {| mdim := mdim m; verts := u; tris := t |}.

(** np.sort of a row of three / two integers *)
Definition sort3 (t : tri3) : row :=
  let '(i, j, k) := t in
  let a := Z.min i (Z.min j k) in
  let c := Z.max i (Z.max j k) in
  [a; i + j + k - a - c; c].
Definition sort2 (e : Z * Z) : row := [Z.min (fst e) (snd e); Z.max (fst e) (snd e)].

(** l.163-178 [merge_triangles]. *)
Definition merge_triangles {V} (m : mesh V) : res (mesh V) :=
  let keys := map sort3 (tris m) in
  let idx := map (fun k => index_of k keys) (unique_rows keys) in
  do t <- mapM (getitem (tris m)) idx;
  Ok {| mdim := mdim m; verts := verts m; tris := t |}.

(** l.112-145 [merge]. *)
Definition merge (m1 m2 : mesh row) (mv mt : bool) : res (mesh row) :=
  if negb (mdim m1 =? mdim m2) then Err ValueError
  else match verts m1, tris m1 with
  | [], _ | _, [] => Ok m2
  | _, _ =>
    match verts m2, tris m2 with
    | [], _ | _, [] => Ok m1
    | _, _ =>
      let m := {| mdim := mdim m1; verts := verts m1 ++ verts m2;
                  tris := tris m1 ++ map (shift (Z.of_nat (length (verts m1)))) (tris m2) |} in
      do m' <- (if mv then merge_vertices m else Ok m);
      if mt then merge_triangles m' else Ok m'
    end
  end.
(** l.195-217 [__add__], [__or__]. *)
Definition mesh_add m1 m2 := merge m1 m2 false false.
Definition mesh_or m1 m2 := merge m1 m2 true true.

(** l.219-240 [from_meshes]. *)
Definition from_meshes (d : Z) (ms : list (mesh row)) (mv mt : bool) : res (mesh row) :=
  fold_left (fun acc m => do a <- acc; merge a m mv mt) ms (Ok {| mdim := d; verts := []; tris := [] |}).

(** l.180-193 [split_shared_vertices]. *)
Definition flat_tri (t : tri3) : list Z := let '(i, j, k) := t in [i; j; k].
Definition split_shared_vertices {V} (m : mesh V) : res (mesh V) :=
  do v <- mapM (getitem (verts m)) (flat_map flat_tri (tris m));
  Ok {| mdim := mdim m; verts := v;
        tris := map (fun i => (3 * Z.of_nat i, 3 * Z.of_nat i + 1, 3 * Z.of_nat i + 2)) (seq 0 (length (tris m))) |}.

(** l.243-254 [check_consistency]; np.max of an empty array raises ValueError. *)
Definition check_consistency {V} (m : mesh V) : res bool :=
  match flat_map flat_tri (tris m) with
  | [] => Err ValueError
  | x :: l => Ok (fold_left Z.max l x <? Z.of_nat (length (verts m)))
  end.

(** l.480-516 [get_edges_triangles], [get_mesh_border] (reshape((-1,2)) of the n x 3 x 2 array). *)
Definition tri_edges (t : tri3) : list (Z * Z) := let '(i, j, k) := t in [(i, j); (i, k); (j, k)].
Definition mesh_edges {V} (m : mesh V) : list (Z * Z) := flat_map tri_edges (tris m).
Definition mesh_border {V} (m : mesh V) : list row :=
  let keys := map sort2 (mesh_edges m) in
  filter (fun e => Nat.eqb (count_row e keys) 1) (unique_rows keys).

(** l.303-322 [to_dict], [dict_to_object]: flatten, then reshape(-1, 3) of both arrays. *)
Fixpoint chunk3 (l : list Z) : res (list row) :=
  match l with
  | [] => Ok []
  | a :: b :: c :: l' => do r <- chunk3 l'; Ok ([a; b; c] :: r)
  | _ => Err ValueError
  end.
Definition to_dict (m : mesh row) : list Z * list Z := (concat (verts m), flat_map flat_tri (tris m)).
Definition tri_of_row (r : row) : res tri3 := match r with [a; b; c] => Ok (a, b, c) | _ => Err ValueError end.
Definition dict_to_object (d : Z) (x : list Z * list Z) : res (mesh row) :=
  do v <- chunk3 (fst x);
  do t <- chunk3 (snd x);
  do t' <- mapM tri_of_row t;
  Ok {| mdim := d; verts := v; tris := t' |}.
