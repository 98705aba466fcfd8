(** What an octree of lists denotes. [size] is the edge of the smallest voxels, in units of 1e-9. *)
From Verif.Model Require Import Base Octree.
Open Scope Z_scope.

(** A node [n] levels above the leaves: a leaf is a list of indices, another node has 8 children, each empty or a node of the level below. *)
Fixpoint node_of_height (n : nat) (t : node) : Prop :=
  match n with
  | O => exists l, t = Leafs l
  | S m => exists l, t = Kids l /\ length l = 8%nat /\ Forall (fun k => k = Leafs [] \/ node_of_height m k) l
  end.
(** A voxel size that has fewer than 9 decimals, as the class asks, is an even number of 1e-9. *)
Definition valid_octree {T} (a : octree T) : Prop :=
  0 < o_size a /\ Z.even (o_size a) = true /\ (1 <= o_depth a)%nat /\ node_of_height (o_depth a) (o_tree a) /\ o_center a = origin3.

(** The voxel [cell] number (i, j, k) counted from the minimal corner of the root cube of edge size * 2^depth centered at c. *)
Definition voxel_center (size : Z) (depth : nat) (c ijk : pt3) : pt3 :=
  let corner x i := x - size * 2 ^ Z.of_nat depth / 2 + size * i + size / 2 in
  let '(cx, cy, cz) := c in let '(i, j, k) := ijk in (corner cx i, corner cy j, corner cz k).
(** Descend towards the point p: the triangle indices stored for the voxel centered at p, [] if there is none. *)
Fixpoint entries (n : nat) (size : Z) (c : pt3) (t : node) (p : pt3) : list Z :=
  match n with
  | O => if FloodFill.eqb3 p c then match t with Leafs l => l | Kids _ => [] end else []
  | S m =>
    let '(x, y, z) := p in let '(cx, cy, cz) := c in
    let q := size * 2 ^ Z.of_nat m / 2 in
    let side (a b : Z) := if b <? a then b + q else b - q in
    let bit (a b : Z) := if b <? a then 1%nat else 0%nat in
    match t with
    | Leafs _ => []
    | Kids l => entries m size (side x cx, side y cy, side z cz) (nth (bit x cx * 4 + bit y cy * 2 + bit z cz) l (Leafs [])) p
    end
  end.
Definition voxel_entries {T} (a : octree T) (p : pt3) : list Z := entries (o_depth a) (o_size a) (o_center a) (o_tree a) p.

(** The open cube of center c and edge s contains p / two open cubes meet. *)
Definition in_cube (s : Z) (c p : pt3) : Prop :=
  let '(cx, cy, cz) := c in let '(x, y, z) := p in 2 * Z.abs (x - cx) < s /\ 2 * Z.abs (y - cy) < s /\ 2 * Z.abs (z - cz) < s.
Definition cubes_meet (s1 : Z) (c1 : pt3) (s2 : Z) (c2 : pt3) : Prop :=
  let '(x1, y1, z1) := c1 in let '(x2, y2, z2) := c2 in
  2 * Z.abs (x1 - x2) < s1 + s2 /\ 2 * Z.abs (y1 - y2) < s1 + s2 /\ 2 * Z.abs (z1 - z2) < s1 + s2.
(** Center of a voxel of the implicit grid: the origin is a corner of the grid. *)
Definition grid_center (size : Z) (p : pt3) : Prop :=
  let on x := exists k, 2 * x = size * (2 * k + 1) in let '(x, y, z) := p in on x /\ on y /\ on z.
Definition dict_has {K} (d : sdict K) (k : K) (p : pt3) : Prop := exists s, In (k, s) d /\ In p s.

(** A cube of the octree: the root cube (edge size * 2^depth, center c) halved depth - i times, cut in a regular grid of cubes of edge s = size * 2^i. *)
Definition octree_cube (size : Z) (depth : nat) (c : pt3) (s : Z) (q : pt3) : Prop :=
  exists (i : nat) (j : pt3), (i <= depth)%nat /\ s = size * 2 ^ Z.of_nat i /\ q = voxel_center s (depth - i) c j /\
    let '(j1, j2, j3) := j in 0 <= j1 < 2 ^ Z.of_nat (depth - i) /\ 0 <= j2 < 2 ^ Z.of_nat (depth - i) /\ 0 <= j3 < 2 ^ Z.of_nat (depth - i).
(** The center of a smallest voxel of the octree. *)
Definition octree_voxel (size : Z) (depth : nat) (c : pt3) (p : pt3) : Prop := octree_cube size depth c size p.
(** A triangle / cube test that is monotone (a triangle that meets a cube meets every larger cube around it) and local (it meets the bounding box). *)
Definition in_closed_cube (h : Z) (c p : pt3) : Prop :=
  let '(cx, cy, cz) := c in let '(x, y, z) := p in Z.abs (x - cx) <= h /\ Z.abs (y - cy) <= h /\ Z.abs (z - cz) <= h.
Definition monotone_hit (hit : triangle3 -> pt3 -> Z -> bool) : Prop :=
  forall t c h c' h', (forall p, in_closed_cube h c p -> in_closed_cube h' c' p) -> 0 < h -> hit t c h = true -> hit t c' h' = true.
Definition local_hit (hit : triangle3 -> pt3 -> Z -> bool) : Prop :=
  forall t x y z h, hit t (x, y, z) h = true -> forall b, b = x \/ b = y \/ b = z -> exists u v, In u (tri_coords t) /\ In v (tri_coords t) /\ u - h <= b <= v + h.
