(** Faces of voxels. Independent of the model. *)
From Coq Require Import ZArith List.
Open Scope Z_scope.

Inductive axis := AX | AY | AZ.

(** The neighbour of the voxel centred at c, one voxel of size v along an axis. *)
Definition next_along (v : Z) (d : axis) (c : Z * Z * Z) : Z * Z * Z :=
  let '(x, y, z) := c in
  match d with AX => (x + v, y, z) | AY => (x, y + v, z) | AZ => (x, y, z + v) end.

(** t is one of the two triangles into which the diagonal (from its least to its greatest corner)
    cuts the square shared by the voxel centred at c and its next neighbour along d.
    The voxel size is 2 h. *)
Definition face_triangle (h : Z) (d : axis) (c : Z * Z * Z) (t : (Z * Z * Z) * (Z * Z * Z) * (Z * Z * Z)) : Prop :=
  let '(x, y, z) := c in
  match d with
  | AX => t = ((x + h, y - h, z - h), (x + h, y + h, z - h), (x + h, y + h, z + h)) \/
          t = ((x + h, y - h, z - h), (x + h, y + h, z + h), (x + h, y - h, z + h))
  | AY => t = ((x - h, y + h, z - h), (x + h, y + h, z - h), (x + h, y + h, z + h)) \/
          t = ((x - h, y + h, z - h), (x + h, y + h, z + h), (x - h, y + h, z + h))
  | AZ => t = ((x - h, y - h, z + h), (x - h, y + h, z + h), (x + h, y + h, z + h)) \/
          t = ((x - h, y - h, z + h), (x + h, y + h, z + h), (x + h, y - h, z + h))
  end.

(** Number of sides of t with the end points p and q, in either direction. *)
Definition side (a b p q : Z * Z * Z) : Prop := (a = p /\ b = q) \/ (a = q /\ b = p).
Inductive sides (p q : Z * Z * Z) : list ((Z * Z * Z) * (Z * Z * Z)) -> nat -> Prop :=
| sides_nil : sides p q nil 0
| sides_yes a b l n : side a b p q -> sides p q l n -> sides p q ((a, b) :: l) (S n)
| sides_no a b l n : ~ side a b p q -> sides p q l n -> sides p q ((a, b) :: l) n.
Definition tri_sides (t : (Z * Z * Z) * (Z * Z * Z) * (Z * Z * Z)) :=
  let '(a, b, c) := t in ((a, b) :: (b, c) :: (c, a) :: nil)%list.
