(** What a voxel (pixel) matrix means: the set of its occupied cells, cavities, centers.
    Only the record types [mat3], [mat2], [vox3], [pix2] of the model are used. *)
From Verif.Model Require Import Base FloodFill VoxelMatrix.
From Verif.Spec Require Import GridSpec.
Open Scope Z_scope.

(** Cell of the matrix / occupied cell. *)
Definition cell3 (m : mat3) (c : Z * Z * Z) : Prop := In3 (dimx m) (dimy m) (dimz m) c.
Definition set3 (m : mat3) (c : Z * Z * Z) : Prop := cell3 m c /\ at3 m c = true.
Definition cell2 (m : mat2) (c : Z * Z) : Prop := In2 (rows m) (cols m) c.
Definition set2 (m : mat2) (c : Z * Z) : Prop := cell2 m c /\ at2 m c = true.

(** A numpy matrix has non-negative dimensions. *)
Definition wf3 (m : mat3) : Prop := 0 <= dimx m /\ 0 <= dimy m /\ 0 <= dimz m.
Definition wf2 (m : mat2) : Prop := 0 <= rows m /\ 0 <= cols m.

(** c can be joined to some place outside the matrix by a chain of face-adjacent places of the
    infinite grid none of which is occupied. *)
Definition open3 (m : mat3) (c : Z * Z * Z) : Prop :=
  exists o, ~ cell3 m o /\ path adj3 (fun d => ~ set3 m d) o c.
Definition open2 (m : mat2) (c : Z * Z) : Prop :=
  exists o, ~ cell2 m o /\ path adj2 (fun d => ~ set2 m d) o c.
(** Enclosed empty cell. *)
Definition cavity3 (m : mat3) (c : Z * Z * Z) : Prop := cell3 m c /\ at3 m c = false /\ ~ open3 m c.
Definition cavity2 (m : mat2) (c : Z * Z) : Prop := cell2 m c /\ at2 m c = false /\ ~ open2 m c.

(** p is the center of an occupied cell. *)
Definition center_of3 (a : vox3) (p : Z * Z * Z) : Prop :=
  exists x y z, set3 (vmat a) (x, y, z) /\
    p = (fst (fst (vorg a)) + x * vsz a, snd (fst (vorg a)) + y * vsz a, snd (vorg a) + z * vsz a).
Definition center_of2 (a : pix2) (p : Z * Z) : Prop :=
  exists x y, set2 (pmat a) (x, y) /\ p = (fst (porg a) + x * psz a, snd (porg a) + y * psz a).

(** A coordinate is the center of an element of the implicit grid of size v: (k + 1/2) v. *)
Definition grid_coord (v x : Z) : Prop := exists k, 2 * x = (2 * k + 1) * v.
Definition on_grid3 (v : Z) (p : Z * Z * Z) : Prop :=
  grid_coord v (fst (fst p)) /\ grid_coord v (snd (fst p)) /\ grid_coord v (snd p).
Definition on_grid2 (v : Z) (p : Z * Z) : Prop := grid_coord v (fst p) /\ grid_coord v (snd p).

(** The boolean matrix is tight: its first and last slices along every axis are occupied. *)
Definition tight3 (m : mat3) : Prop :=
  (exists y z, set3 m (0, y, z)) /\ (exists y z, set3 m (dimx m - 1, y, z)) /\
  (exists x z, set3 m (x, 0, z)) /\ (exists x z, set3 m (x, dimy m - 1, z)) /\
  (exists x y, set3 m (x, y, 0)) /\ (exists x y, set3 m (x, y, dimz m - 1)).
Definition tight2 (m : mat2) : Prop :=
  (exists y, set2 m (0, y)) /\ (exists y, set2 m (rows m - 1, y)) /\
  (exists x, set2 m (x, 0)) /\ (exists x, set2 m (x, cols m - 1)).

(** Same matrix (numpy's array_equal as a proposition). *)
Definition same3 (m n : mat3) : Prop :=
  dimx m = dimx n /\ dimy m = dimy n /\ dimz m = dimz n /\ forall c, cell3 m c -> at3 m c = at3 n c.
Definition same2 (m n : mat2) : Prop :=
  rows m = rows n /\ cols m = cols n /\ forall c, cell2 m c -> at2 m c = at2 n c.

(** Element sizes for which the boolean operations of the matrix classes are right: up to 1.0 (in nano
    units), and when within 500 nano of 1.0, a multiple of 2e-6. *)
Definition size_ok (v : Z) : Prop := 0 < v /\ (v <= 999999500 \/ (v <= 1000000000 /\ (2000 | v))).
(** A discretisation the library can produce: real shape, origin on the implicit grid. *)
Definition valid3 (a : vox3) : Prop := wf3 (vmat a) /\ on_grid3 (vsz a) (vorg a).
Definition valid2 (a : pix2) : Prop := wf2 (pmat a) /\ on_grid2 (psz a) (porg a).
(** p is the center of an enclosed empty cell. *)
Definition cavity_center3 (a : vox3) (p : Z * Z * Z) : Prop :=
  exists x y z, cavity3 (vmat a) (x, y, z) /\
    p = (fst (fst (vorg a)) + x * vsz a, snd (fst (vorg a)) + y * vsz a, snd (vorg a) + z * vsz a).
Definition cavity_center2 (a : pix2) (p : Z * Z) : Prop :=
  exists x y, cavity2 (pmat a) (x, y) /\ p = (fst (porg a) + x * psz a, snd (porg a) + y * psz a).
(** Some enclosed empty cell exists. *)
Definition hollow3 (m : mat3) : Prop := exists c, cavity3 m c.
Definition hollow2 (m : mat2) : Prop := exists c, cavity2 m c.
(** the closed cube of Chebyshev radius n around a cell *)
Definition in_cube (c : Z * Z * Z) (n : Z) (d : Z * Z * Z) : Prop :=
  Z.abs (fst (fst d) - fst (fst c)) <= n /\ Z.abs (snd (fst d) - snd (fst c)) <= n /\ Z.abs (snd d - snd c) <= n.
(** q differs from p by whole elements. *)
Definition lattice3 (v : Z) (p q : Z * Z * Z) : Prop :=
  (exists k, fst (fst q) = fst (fst p) + k * v) /\ (exists k, snd (fst q) = snd (fst p) + k * v) /\ (exists k, snd q = snd p + k * v).
Definition lattice2 (v : Z) (p q : Z * Z) : Prop :=
  (exists k, fst q = fst p + k * v) /\ (exists k, snd q = snd p + k * v).
