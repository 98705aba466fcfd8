(** Octree based voxelizations: /repo/volmdlr/discrete_representation.py l.1750-3062.
    Coordinates and sizes are integers in units of 1e-9, as in VoxelMatrix.v (DECIMALS = 9): rounding to 9 digits is
    rounding to an integer; binary float error is not modelled.
    A Python node is a list of 8 nodes, or, at the maximal depth, a list of triangle indices; [] is [Leafs []].
    Recursive methods that count current_depth up to max_depth are given the number of remaining levels. Reading a child
    of a list with fewer than 8 elements (IndexError) gives [] here: the theorems are about trees with 8 children. *)
From Verif.Model Require Import Base FloodFill VoxelMatrix.
Open Scope Z_scope.

Inductive node := Leafs (l : list Z) | Kids (l : list node).
(** Truth value of a list. *)
Definition truthy (t : node) : bool := match t with Leafs [] => false | Kids [] => false | _ => true end.
Definition kid (t : node) (i : nat) : node := match t with Kids l => nth i l (Leafs []) | Leafs _ => Leafs [] end.
Definition indices (t : node) : list Z := match t with Leafs l => l | Kids _ => [] end.
Definition empty8 : node := Kids (repeat (Leafs []) 8).

Definition pt3 := (Z * Z * Z)%type.
(** for i in range(2): for j in range(2): for k in range(2) *)
Definition octants : list pt3 :=
  [(0, 0, 0); (0, 0, 1); (0, 1, 0); (0, 1, 1); (1, 0, 0); (1, 0, 1); (1, 1, 0); (1, 1, 1)].
Definition oindex (o : pt3) : nat := let '(i, j, k) := o in Z.to_nat (i * 4 + j * 2 + k).

(** round(a / 2) of C: half away from zero (discrete_representation_compiled.py l.226-231 [_round_to_digits]). *)
Definition round2 (a : Z) : Z := Z.quot (a + Z.sgn a) 2.
(** center + (i - 0.5) * half_size, rounded. *)
Definition sub_coord (c half i : Z) : Z := round2 (2 * c + (2 * i - 1) * half).
Definition sub_center (c : pt3) (half : Z) (o : pt3) : pt3 :=
  let '(cx, cy, cz) := c in let '(i, j, k) := o in (sub_coord cx half i, sub_coord cy half j, sub_coord cz half k).

(** l.2638-2671 [_get_homogeneous_leaf_centers]: a set, here a list. *)
Fixpoint leaf_centers (n : nat) (size : Z) (c : pt3) (t : node) : list pt3 :=
  match n with
  | O => [c]
  | S m =>
    let half := round2 size in
    flat_map (fun o => let s := kid t (oindex o) in
                       if truthy s then leaf_centers m half (sub_center c half o) s else []) octants
  end.

(** l.1756-1791: the attributes of an OctreeBasedVoxelization ([triangles] of any type). *)
Record octree (T : Type) := Octree { o_tree : node; o_center : pt3; o_depth : nat; o_size : Z; o_triangles : list T }.
Arguments Octree {T}. Arguments o_tree {T}. Arguments o_center {T}. Arguments o_depth {T}. Arguments o_size {T}. Arguments o_triangles {T}.
Definition origin3 : pt3 := (0, 0, 0).
(** l.1793-1810 [_get_element_centers], [_root_voxel_size] *)
Definition octree_centers {T} (a : octree T) : list pt3 :=
  leaf_centers (o_depth a) (o_size a * 2 ^ Z.of_nat (o_depth a)) (o_center a) (o_tree a).

(** The tree put in the place of a missing node one level below: [] for a leaf, eight empty nodes otherwise. *)
Definition blank (m : nat) : node := match m with O => Leafs [] | S _ => empty8 end.
(** l.2099-2165 [_recursive_union] *)
Fixpoint rec_union (n : nat) (n1 : Z) (a b : node) : node :=
  match n with
  | O => Leafs (indices a ++ map (fun i => i + n1) (indices b))
  | S m => Kids (map (fun o =>
      let x := kid a (oindex o) in let y := kid b (oindex o) in
      if truthy x && truthy y then rec_union m n1 x y
      else if truthy x then rec_union m n1 x (blank m)
      else if truthy y then rec_union m n1 (blank m) y
      else Leafs []) octants)
  end.
(** l.2189-2240 [_recursive_difference] *)
Fixpoint rec_difference (n : nat) (n1 : Z) (a b : node) : node :=
  match n with
  | O => if negb (truthy b) then a else Leafs []
  | S m => Kids (map (fun o =>
      let x := kid a (oindex o) in let y := kid b (oindex o) in
      if truthy x && truthy y then rec_difference m n1 x y
      else if truthy x then rec_difference m n1 x (blank m)
      else Leafs []) octants)
  end.
(** l.2264-2299 [_recursive_intersection] *)
Fixpoint rec_intersection (n : nat) (n1 : Z) (a b : node) : node :=
  match n with
  | O => Leafs (indices a ++ map (fun i => i + n1) (indices b))
  | S m => Kids (map (fun o =>
      let x := kid a (oindex o) in let y := kid b (oindex o) in
      if truthy x && truthy y then rec_intersection m n1 x y else Leafs []) octants)
  end.
(** l.2323-2396 [_recursive_symmetric_difference] *)
Fixpoint rec_symmetric (n : nat) (n1 : Z) (a b : node) : node :=
  match n with
  | O => if negb (truthy b) then a else if negb (truthy a) then Leafs (map (fun i => i + n1) (indices b)) else Leafs []
  | S m => Kids (map (fun o =>
      let x := kid a (oindex o) in let y := kid b (oindex o) in
      if truthy x && truthy y then rec_symmetric m n1 x y
      else if truthy x then rec_symmetric m n1 x (blank m)
      else if truthy y then rec_symmetric m n1 (blank m) y
      else Leafs []) octants)
  end.

(** l.2974-2997 [_increment_octree_depth] *)
Definition increment {T} (a : octree T) : res (octree T) :=
  if negb (eqb3 (o_center a) origin3) then Err NotImplementedError
  else
    let e := Leafs [] in let k := kid (o_tree a) in
    Ok (Octree (Kids [Kids [e; e; e; e; e; e; e; k 0%nat]; Kids [e; e; e; e; e; e; k 1%nat; e];
                      Kids [e; e; e; e; e; k 2%nat; e; e]; Kids [e; e; e; e; k 3%nat; e; e; e];
                      Kids [e; e; e; k 4%nat; e; e; e; e]; Kids [e; e; k 5%nat; e; e; e; e; e];
                      Kids [e; k 6%nat; e; e; e; e; e; e]; Kids [k 7%nat; e; e; e; e; e; e; e]])
               (o_center a) (S (o_depth a)) (o_size a) (o_triangles a)).
(** [while octree_1._octree_depth < d]: at most d steps. *)
Fixpoint grow {T} (steps : nat) (a : octree T) : res (octree T) :=
  match steps with O => Ok a | S s => do b <- increment a; grow s b end.
(** l.2999-3027 [_make_octrees_same_depth] (both of class OctreeBasedVoxelization) *)
Definition same_depth {T} (a b : octree T) : res (octree T * octree T) :=
  if negb (o_size a =? o_size b) then Err ValueError
  else
    do a2 <- grow (o_depth b - o_depth a) a;
    do b2 <- grow (o_depth a2 - o_depth b) b;
    Ok (a2, b2).
(** l.2078-2096, l.2167-2187, l.2242-2262, l.2301-2321: union, difference, intersection, symmetric_difference *)
Definition octree_op {T} (rec : nat -> Z -> node -> node -> node) (triangles : list T -> list T -> list T) (a b : octree T) : res (octree T) :=
  do (a2, b2) <- same_depth a b;
  Ok (Octree (rec (o_depth a2) (Z.of_nat (length (o_triangles a2))) (o_tree a2) (o_tree b2)) origin3 (o_depth a2) (o_size a2)
             (triangles (o_triangles a) (o_triangles b))).
Definition octree_union {T} : octree T -> octree T -> res (octree T) := octree_op rec_union (fun x y => x ++ y)%list.
Definition octree_difference {T} : octree T -> octree T -> res (octree T) := octree_op rec_difference (fun x _ => x).
Definition octree_intersection {T} : octree T -> octree T -> res (octree T) := octree_op rec_intersection (fun x y => x ++ y)%list.
Definition octree_symmetric {T} : octree T -> octree T -> res (octree T) := octree_op rec_symmetric (fun x y => x ++ y)%list.

(** l.1938-2038 [is_intersecting]. sizes[d] = voxel_size * 2**(depth - d), sizes[depth + 1] = voxel_size / 2. *)
Definition sizes (size : Z) (depth : nat) : list Z :=
  (map (fun i => size * 2 ^ Z.of_nat (depth - i)) (seq 0 (depth + 1)) ++ [round2 size])%list.
(** l.2040-2076 [_check_voxel_intersection] *)
Definition overlap1 (c1 h1 c2 h2 : Z) : bool := Z.max (c1 - h1) (c2 - h2) <? Z.min (c1 + h1) (c2 + h2).
Definition check_voxel_intersection (c1 : pt3) (h1 : Z) (c2 : pt3) (h2 : Z) : bool :=
  let '(x1, y1, z1) := c1 in let '(x2, y2, z2) := c2 in
  overlap1 x1 h1 x2 h2 && overlap1 y1 h1 y2 h2 && overlap1 z1 h1 z2 h2.
Definition entry := (nat * pt3 * node)%type.
(** l.1975-2001 / l.2003-2029: the entry itself for a leaf voxel, its non-empty children otherwise. *)
Definition expand_entry (depth : nat) (ss : list Z) (e : entry) : list entry :=
  let '(d, c, t) := e in
  if (d =? depth)%nat then [e]
  else
    let half := nth (d + 1) ss 0 in
    flat_map (fun o => let s := kid t (oindex o) in if truthy s then [((d + 1)%nat, sub_center c half o, s)] else []) octants.
(** The two stacks have their tops at the end of the Python lists, at the head here. *)
Fixpoint intersecting_loop (fuel : nat) (d1 d2 : nat) (s1 s2 : list Z) (st1 st2 : list entry) : res bool :=
  match fuel with
  | O => Err OutOfFuel
  | S f =>
    match st1, st2 with
    | (n1, c1, t1) :: r1, (n2, c2, t2) :: r2 =>
      if negb (check_voxel_intersection c1 (nth (n1 + 1) s1 0) c2 (nth (n2 + 1) s2 0)) then intersecting_loop f d1 d2 s1 s2 r1 r2
      else if (n1 =? d1)%nat && (n2 =? d2)%nat then Ok true
      else
        let e1 := expand_entry d1 s1 (n1, c1, t1) in
        let e2 := expand_entry d2 s2 (n2, c2, t2) in
        let pairs := flat_map (fun x => map (fun y => (x, y)) e2) e1 in
        intersecting_loop f d1 d2 s1 s2 (rev (map fst pairs) ++ r1) (rev (map snd pairs) ++ r2)
    | _, _ => Ok false
    end
  end.
Definition octree_is_intersecting {T} (fuel : nat) (a b : octree T) : res bool :=
  intersecting_loop fuel (o_depth a) (o_depth b) (sizes (o_size a) (o_depth a)) (sizes (o_size b) (o_depth b))
                    [(0%nat, o_center a, o_tree a)] [(0%nat, o_center b, o_tree b)].

(** l.2571-2635 [_subdivide_from_points] *)
Definition octant_of (c p : pt3) : pt3 :=
  let '(cx, cy, cz) := c in let '(x, y, z) := p in
  (if cx <? x then 1 else 0, if cy <? y then 1 else 0, if cz <? z then 1 else 0).
Fixpoint subdivide_points (n : nat) (size : Z) (c : pt3) (points : list pt3) : node :=
  match n with
  | O => Leafs [1]
  | S m =>
    let half := size * 2 ^ Z.of_nat m in
    let subs := map (fun o =>
      let pts := filter (fun p => (oindex (octant_of c p) =? oindex o)%nat) points in
      match pts with [] => Leafs [] | _ => subdivide_points m size (sub_center c half o) pts end) octants in
    if forallb (fun s => negb (truthy s)) subs then Leafs [] else Kids subs
  end.
(** l.1897-1935 [from_point_based_voxelization]; l.787-811: min_grid_center and max_grid_center, of which the minimum and maximum
    coordinate are taken; for no point, math.ceil of nan: ValueError. math.ceil(math.log2(n)) is Z.log2_up n. *)
Definition octree_from_points {T} (points : list pt3) (size : Z) : res (octree T) :=
  let coords := flat_map (fun p => let '(x, y, z) := p in [x; y; z]) points in
  match coords with
  | [] => Err ValueError
  | a :: l =>
    let min_corner := (lmin a l / size - 2) * size in
    let max_corner := (lmax a l / size + 2) * size in
    let root_size := Z.max (Z.abs min_corner) (Z.abs max_corner) * 2 in
    let max_depth := Z.to_nat (Z.log2_up (root_size / size)) in
    Ok (Octree (subdivide_points max_depth size origin3 points) origin3 max_depth size [])
  end.

(** Dictionaries from sizes to sets of points, in insertion order. *)
Definition sdict (K : Type) := list (K * list pt3).
Definition set_add (s : list pt3) (p : pt3) : list pt3 := if existsb (eqb3 p) s then s else (s ++ [p])%list.
Fixpoint dict_update {K} (eqk : K -> K -> bool) (d : sdict K) (k : K) (pts : list pt3) : sdict K :=
  match d with
  | [] => [(k, fold_left set_add pts [])]
  | (k', s) :: r => if eqk k k' then (k', fold_left set_add pts s) :: r else (k', s) :: dict_update eqk r k pts
  end.
Definition dict_merge {K} (eqk : K -> K -> bool) (d sub : sdict K) : sdict K :=
  fold_left (fun d e => dict_update eqk d (fst e) (snd e)) sub d.
Definition dict_get {K} (eqk : K -> K -> bool) (d : sdict K) (k : K) : list pt3 :=
  match find (fun e => eqk k (fst e)) d with Some e => snd e | None => [] end.
Definition dict_del {K} (eqk : K -> K -> bool) (d : sdict K) (k : K) : sdict K := filter (fun e => negb (eqk k (fst e))) d.
Definition dict_set {K} (eqk : K -> K -> bool) (d : sdict K) (k : K) (s : list pt3) : sdict K :=
  if existsb (fun e => eqk k (fst e)) d then map (fun e => if eqk k (fst e) then (fst e, s) else e) d else (d ++ [(k, s)])%list.

(** l.2682-2737 [_get_non_homogeneous_leaf_centers] *)
Fixpoint non_homogeneous (n : nat) (size : Z) (c : pt3) (t : node) : sdict Z :=
  match n with
  | O => [(size, [c])]
  | S m =>
    let half := round2 size in
    let d := fold_left (fun d o => let s := kid t (oindex o) in
                                   if truthy s then dict_merge Z.eqb d (non_homogeneous m half (sub_center c half o) s) else d) octants [] in
    if (length (dict_get Z.eqb d half) =? 8)%nat then dict_set Z.eqb (dict_del Z.eqb d half) size [c] else d
  end.
Definition octree_non_homogeneous {T} (a : octree T) : sdict Z :=
  non_homogeneous (o_depth a) (o_size a * 2 ^ Z.of_nat (o_depth a)) (o_center a) (o_tree a).

(** l.2760-2836 [_get_inner_growing_leaf_centers]; layer_dict[center] is given as a function (a missing key, KeyError, is not modelled:
    the dictionary built by layers_thickness_by_voxel_centers has every voxel center). *)
Fixpoint inner_growing (n : nat) (size : Z) (c : pt3) (t : node) (layer : pt3 -> Z) (thickness : Z) : sdict Z :=
  match n with
  | O => [(size, [c])]
  | S m =>
    let half := round2 size in
    let d := fold_left (fun d o => let s := kid t (oindex o) in
                                   if truthy s then dict_merge Z.eqb d (inner_growing m half (sub_center c half o) s layer thickness) else d) octants [] in
    if (length (dict_get Z.eqb d half) =? 8)%nat && (m =? 0)%nat && forallb (fun p => thickness <=? layer p) (dict_get Z.eqb d half)
    then dict_del Z.eqb (dict_set Z.eqb d size [c]) half else d
  end.

(** l.2739-2758 [get_inner_growing_voxel_centers] *)
Definition octree_inner_growing {T} (a : octree T) (layer : pt3 -> Z) (thickness : Z) : sdict Z :=
  inner_growing (o_depth a) (o_size a * 2 ^ Z.of_nat (o_depth a)) (o_center a) (o_tree a) layer thickness.

(** l.2877-2931 [_get_intersections_leaf_centers]: itertools.combinations(leaf, 2), each sorted. *)
Fixpoint combinations2 (l : list Z) : list (Z * Z) :=
  match l with [] => [] | a :: r => (map (fun b => if a <=? b then (a, b) else (b, a)) r ++ combinations2 r)%list end.
Definition eqb_pair (a b : Z * Z) : bool := (fst a =? fst b) && (snd a =? snd b).
(** threshold: None or 0 keeps every combination. *)
Definition kept (threshold : option Z) (k : Z * Z) : bool :=
  match threshold with
  | None => true
  | Some t => if t =? 0 then true else (fst k <? t) && (t <=? snd k)
  end.
Fixpoint intersections (n : nat) (size : Z) (c : pt3) (t : node) (threshold : option Z) : sdict (Z * Z) :=
  match n with
  | O => fold_left (fun d k => dict_set eqb_pair d k [c]) (filter (kept threshold) (combinations2 (indices t))) []
  | S m =>
    let half := round2 size in
    fold_left (fun d o => let s := kid t (oindex o) in
                          if truthy s then dict_merge eqb_pair d (intersections m half (sub_center c half o) s threshold) else d) octants []
  end.
Definition octree_intersections {T} (a : octree T) (threshold : option Z) : sdict (Z * Z) :=
  intersections (o_depth a) (o_size a * 2 ^ Z.of_nat (o_depth a)) (o_center a) (o_tree a) threshold.

(** l.2505-2568 [_subdivide_from_triangles]; [hit i center half] is triangle_intersects_voxel(triangles[i], center, (half, half, half)). *)
Fixpoint subdivide_triangles (n : nat) (size : Z) (hit : Z -> pt3 -> Z -> bool) (c : pt3) (idx : list Z) : node :=
  match n with
  | O => Leafs idx
  | S m =>
    let half := size * 2 ^ Z.of_nat m in
    let quarter := match m with O => round2 size | S k => size * 2 ^ Z.of_nat k end in
    let subs := map (fun o =>
      let sc := sub_center c half o in
      match filter (fun i => hit i sc quarter) idx with [] => Leafs [] | l => subdivide_triangles m size hit sc l end) octants in
    if forallb (fun s => negb (truthy s)) subs then Leafs [] else Kids subs
  end.
(** l.1854-1895 [from_triangles], for triangles whose vertices are multiples of 1e-9 (simplification: vertices are floats in the code);
    [hit t center half] is triangle_intersects_voxel(t, center, (half, half, half)). np.min of no triangle raises ValueError. *)
Definition triangle3 := (pt3 * pt3 * pt3)%type.
Definition tri_coords (t : triangle3) : list Z := let '((x1, y1, z1), (x2, y2, z2), (x3, y3, z3)) := t in [x1; y1; z1; x2; y2; z2; x3; y3; z3].
Definition octree_from_triangles (hit : triangle3 -> pt3 -> Z -> bool) (triangles : list triangle3) (size : Z) : res (octree triangle3) :=
  match flat_map tri_coords triangles with
  | [] => Err ValueError
  | a :: l =>
    let min_corner := (lmin a l / size - 2) * size in
    let max_corner := (lmax a l / size + 2) * size in
    let root_size := Z.max (Z.abs min_corner) (Z.abs max_corner) * 2 in
    let max_depth := Z.to_nat (Z.log2_up (root_size / size)) in
    let no := ((0, 0, 0), (0, 0, 0), (0, 0, 0)) in
    Ok (Octree (subdivide_triangles max_depth size (fun i => hit (nth (Z.to_nat i) triangles no)) origin3 (map Z.of_nat (seq 0 (length triangles))))
               origin3 max_depth size triangles)
  end.
