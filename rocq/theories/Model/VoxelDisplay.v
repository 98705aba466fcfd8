(** Triangles displayed for a voxelization:
    /repo/volmdlr/discrete_representation_compiled.py l.1506-1627 and
    /repo/volmdlr/discrete_representation.py l.568-590. Coordinates in nano units. *)
From Verif.Model Require Import Base FloodFill VoxelMatrix.
Open Scope Z_scope.

Definition pt := (Z * Z * Z)%type.
Definition tri := (pt * pt * pt)%type.

(** [_round_point_3d_to_digits((x + a/2 * v, ...), 9)], a in {-1, 1} *)
Definition corner (v : Z) (c : pt) (a b d : Z) : pt :=
  let '(x, y, z) := c in
  (rint_div (2 * x + a * v) 2, rint_div (2 * y + b * v) 2, rint_div (2 * z + d * v) 2).

(** compiled l.1506-1627 [_voxel_triangular_faces]: front, back, left, right, top, bottom. *)
Definition voxel_triangular_faces (c : pt) (v : Z) : list tri :=
  let k := corner v c in
  [ (k (-1) (-1) 1, k (-1) 1 1, k 1 1 1);
    (k (-1) (-1) 1, k 1 1 1, k 1 (-1) 1);
    (k (-1) (-1) (-1), k (-1) 1 (-1), k 1 1 (-1));
    (k (-1) (-1) (-1), k 1 1 (-1), k 1 (-1) (-1));
    (k (-1) (-1) (-1), k (-1) 1 (-1), k (-1) 1 1);
    (k (-1) (-1) (-1), k (-1) 1 1, k (-1) (-1) 1);
    (k 1 (-1) (-1), k 1 1 (-1), k 1 1 1);
    (k 1 (-1) (-1), k 1 1 1, k 1 (-1) 1);
    (k (-1) 1 (-1), k 1 1 (-1), k 1 1 1);
    (k (-1) 1 (-1), k 1 1 1, k (-1) 1 1);
    (k (-1) (-1) (-1), k 1 (-1) (-1), k 1 (-1) 1);
    (k (-1) (-1) (-1), k 1 (-1) 1, k (-1) (-1) 1) ].

Definition tri_eqb (s t : tri) : bool :=
  eqb3 (fst (fst s)) (fst (fst t)) && eqb3 (snd (fst s)) (snd (fst t)) && eqb3 (snd s) (snd t).

(** The Python set of triangles, as a list without repetition. *)
Definition toggle (s : list tri) (t : tri) : list tri :=
  if existsb (tri_eqb t) s then filter (fun u => negb (tri_eqb t u)) s else t :: s.

(** discrete_representation.py l.568-590 [to_triangles]. The list of centers is the iteration
    order of the Python set. *)
Definition to_triangles (l : list pt) (v : Z) : list tri :=
  fold_left (fun s c => fold_left toggle (voxel_triangular_faces c v) s) l [].
