(** Finite elements: /repo/volmdlr/mesh.py, and Triangle2D of /repo/volmdlr/wires.py l.4042-4128. The points of an element are the element:
    names, plots and the classes of the elements are left out, except where they are said below. *)
From Coq Require Import Reals List ZArith.
From Verif.Model Require Import Base RBase Vec Frame BBox.
Import ListNotations.
Open Scope R_scope.

(** ** Triangle2D *)
(** wires.py l.4058-4067 area and mesh.py l.238-241, l.354-357 _area *)
Definition triangle_area (a b c : vec2) : R := Rabs (cross2 (sub2 b a) (sub2 c a)) / 2.
(** wires.py l.4069-4079 incircle_radius, l.4081-4091 circumcircle_radius. Python raises ZeroDivisionError for a null divisor. *)
Definition incircle_radius (a b c : vec2) : res R :=
  let p := point_distance2 a b + point_distance2 a c + point_distance2 b c in
  if Reqb p 0 then Err ZeroDivisionError else Ok (2 * triangle_area a b c / p).
Definition circumcircle_radius (a b c : vec2) : res R :=
  let d := triangle_area a b c * 4 in
  if Reqb d 0 then Err ZeroDivisionError else Ok (point_distance2 a b * point_distance2 a c * point_distance2 b c / d).
(** wires.py l.4111-4127 aspect_ratio: the ZeroDivisionError is caught *)
Definition aspect_ratio (a b c : vec2) : R :=
  let pa := point_distance2 a b in let pb := point_distance2 a c in let pc := point_distance2 b c in
  let s := 1 / 2 * (pa + pb + pc) in
  if Reqb (s - pa) 0 || Reqb (s - pb) 0 || Reqb (s - pc) 0 then 1000000
  else 1 / 8 * pa * pb * pc / (s - pa) / (s - pb) / (s - pc).

(** ** Triangular elements, mesh.py l.145-362 *)
(** l.169-194, l.312-337 _to_linear_elements: a segment and its normal, turned to the side of the vector of the next segment. *)
Definition interior_normal (v next : vec2) : res vec2 :=
  do n <- unit_vector2 (V2 (- y2 v) (x2 v)); Ok (if Rltb (dot2 n next) 0 then neg2 n else n).
Definition to_linear_elements (a b c : vec2) : res (list (vec2 * vec2 * vec2)) :=
  let v1 := sub2 b a in let v2 := sub2 c b in let v3 := sub2 a c in
  do n1 <- interior_normal v1 v2; do n2 <- interior_normal v2 v3; do n3 <- interior_normal v3 v1;
  Ok [(a, b, n1); (b, c, n2); (c, a, n3)].
(** l.196-210, l.339-352 _form_functions. FlatElementError is written ValueError. *)
Definition form_functions (a b c : vec2) : res (vec3 * vec3 * vec3) :=
  do i <- inverse33 (M33 1 (x2 a) (y2 a) 1 (x2 b) (y2 b) 1 (x2 c) (y2 c));
  Ok (mvec33 i X3D, mvec33 i Y3D, mvec33 i Z3D).
(** l.298-310: what is computed when a TriangularElement2D is made *)
Definition triangular_element (a b c : vec2) : res (list (vec2 * vec2 * vec2) * (vec3 * vec3 * vec3) * vec2 * R) :=
  do l <- to_linear_elements a b c; do f <- form_functions a b c;
  Ok (l, f, V2 ((x2 a + x2 b + x2 c) / 3) ((y2 a + y2 b + y2 c) / 3), triangle_area a b c).

(** ** Tetrahedral elements, mesh.py l.440-508; numpy.linalg.det is the determinant *)
Definition det_of (a b c : vec3) : R := det33 (M33 (x3 a) (y3 a) (z3 a) (x3 b) (y3 b) (z3 b) (x3 c) (y3 c) (z3 c)).
Definition tetra_volume (p0 p1 p2 p3 : vec3) : R := Rabs (1 / 6 * det_of (sub3 p1 p0) (sub3 p2 p0) (sub3 p3 p0)).
(** l.491-508: the coefficients of 1, x, y and z; a b c are the three other points, in order *)
Definition tetra_form (coeff : R) (a b c : vec3) : R * R * R * R :=
  (coeff * det_of a b c,
   - (1) * coeff * det33 (M33 1 (y3 a) (z3 a) 1 (y3 b) (z3 b) 1 (y3 c) (z3 c)),
   coeff * det33 (M33 1 (x3 a) (z3 a) 1 (x3 b) (z3 b) 1 (x3 c) (z3 c)),
   - (1) * coeff * det33 (M33 1 (x3 a) (y3 a) 1 (x3 b) (y3 b) 1 (x3 c) (y3 c))).
Definition tetra_forms (p0 p1 p2 p3 : vec3) :=
  (tetra_form 1 p1 p2 p3, tetra_form (- (1)) p0 p2 p3, tetra_form 1 p0 p1 p3, tetra_form (- (1)) p0 p1 p2).
(** l.461-472 _triangular_elements: combinations of three points among four *)
Definition tetra_faces (p0 p1 p2 p3 : vec3) : list (vec3 * vec3 * vec3) := [(p0, p1, p2); (p0, p1, p3); (p0, p2, p3); (p1, p2, p3)].

(** ** Nodes, groups and meshes *)
(** l.47-56 Node2D: int() truncates *)
Definition trunc (r : R) : Z := if Rleb 0 r then Int_part r else (- Int_part (- r))%Z.
Definition node_hash (p : vec2) : Z := trunc (10 ^ 6 * (x2 p + y2 p)).
Definition node_eq (p q : vec2) : bool := isclose (x2 p) (x2 q) (/ 10 ^ 12) && isclose (y2 p) (y2 q) (/ 10 ^ 12).
(** sets and dictionaries find a key with the same hash that is equal; the order of the sets of Python is not specified,
    the order of insertion stands for it *)
Definition same_key (p q : vec2) : bool := (node_hash p =? node_hash q)%Z && node_eq p q.
Definition set_add (s : list vec2) (p : vec2) : list vec2 := if existsb (same_key p) s then s else s ++ [p].
Definition element := list vec2.
Definition group := list element.
(** l.544-549 _nodes, l.628-637 _set_nodes_number, l.623 node_to_index *)
Definition group_nodes (g : group) : list vec2 := fold_left set_add (concat g) [].
Definition mesh_nodes (gs : list group) : list vec2 := fold_left set_add (concat (concat gs)) [].
Fixpoint find_node (nodes : list vec2) (p : vec2) (i : nat) : option nat :=
  match nodes with [] => None | q :: r => if same_key p q then Some i else find_node r p (S i) end.
Definition node_to_index (gs : list group) (p : vec2) : option nat := find_node (mesh_nodes gs) p 0.
(** l.551-564, l.639-644 point_to_element, for any test of belonging *)
Definition group_point_to_element (belongs : element -> bool) (g : group) : option element := find belongs g.
Fixpoint mesh_point_to_element (belongs : element -> bool) (gs : list group) : option element :=
  match gs with [] => None | g :: r => match group_point_to_element belongs g with Some e => Some e | None => mesh_point_to_element belongs r end end.
(** l.566-580 elements_per_node *)
Fixpoint dict_append {A} (d : list (vec2 * list A)) (k : vec2) (a : A) : list (vec2 * list A) :=
  match d with
  | [] => [(k, [a])]
  | (k', l) :: r => if same_key k k' then (k', l ++ [a]) :: r else (k', l) :: dict_append r k a
  end.
Fixpoint dict_get {A} (d : list (vec2 * A)) (k : vec2) : option A :=
  match d with [] => None | (k', a) :: r => if same_key k k' then Some a else dict_get r k end.
Definition elements_per_node (g : group) : list (vec2 * list element) :=
  fold_left (fun d e => fold_left (fun d p => dict_append d p e) e d) g [].
(** l.657-667 bounding_rectangle of a mesh of the plane; the empty mesh raises IndexError *)
Definition mesh_rectangle (gs : list group) : res (R * R * R * R) :=
  match mesh_nodes gs with
  | [] => Err IndexError
  | p :: l => Ok (lmin (x2 p) (map x2 l), lmax (x2 p) (map x2 l), lmin (y2 p) (map y2 l), lmax (y2 p) (map y2 l))
  end.
(** l.695-711 nodes_correction: [dict_set] is d[k] = a; the dictionary is kept in the mesh when it is not empty *)
Fixpoint dict_set {A} (d : list (vec2 * A)) (k : vec2) (a : A) : list (vec2 * A) :=
  match d with
  | [] => [(k, a)]
  | (k', b) :: r => if same_key k k' then (k', a) :: r else (k', b) :: dict_set r k a
  end.
Fixpoint without {A} (i : nat) (l : list A) : list A := match i, l with _, [] => [] | O, _ :: l => l | S i, a :: l => a :: without i l end.
Definition compute_correction (gs : list group) (reference : group) (i : nat) (tol : R) : list (vec2 * vec2) :=
  fold_left (fun d node =>
    fold_left (fun d node_ref =>
      let dist := point_distance2 node node_ref in
      if Rltb (/ 10 ^ 8) dist && Rltb dist tol then dict_set d node node_ref else d) (group_nodes reference) d)
    (flat_map group_nodes (without i gs)) [].
(** a mesh: its groups, the corrections it keeps and whether it has a gmsh parser *)
Record mesh := Mesh { groups : list group; correction : list (vec2 * vec2); gmsh : bool }.
Definition nodes_correction (m : mesh) (i : nat) (tol : R) : res (list (vec2 * vec2) * mesh) :=
  match correction m with
  | [] =>
    match nth_error (groups m) i with
    | None => Err IndexError
    | Some r => let c := compute_correction (groups m) r i tol in Ok (c, Mesh (groups m) c (gmsh m))
    end
  | c => Ok (c, m)
  end.
(** l.713-752 delete_duplicated_nodes: the new elements, then the setter of gmsh (l.786-798), which refuses None. The corrected
    elements are not checked again here: their constructors may refuse a flat one. *)
Definition corrected (c : list (vec2 * vec2)) (p : vec2) : vec2 := match dict_get c p with Some q => q | None => p end.
Fixpoint insert_at {A} (i : nat) (a : A) (l : list A) : list A := match i, l with O, _ => a :: l | S i, b :: l => b :: insert_at i a l | S _, [] => [a] end.
Definition delete_duplicated_nodes (m : mesh) (i : nat) (tol : R) : res (mesh * mesh) :=
  match nth_error (groups m) i with
  | None => Err IndexError
  | Some r =>
    do (c, m') <- nodes_correction m i tol;
    if gmsh m then Ok (Mesh (insert_at i r (map (map (map (corrected c))) (without i (groups m)))) c true, m') else Err ValueError
  end.
