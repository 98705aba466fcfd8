(** The volume of a closed shell and the mesh data of triangle shells: /repo/volmdlr/shells.py. *)
From Coq Require Import Reals List ZArith.
From Verif.Model Require Import Base RBase Vec BBox Mesh.
Import ListNotations.
Open Scope R_scope.

Notation triangle := (vec3 * vec3 * vec3)%type.
(** l.1137-1164 ClosedShell3D.volume. [faces]: the triangles of the triangulation of each face; [bb]: self.bounding_box *)
Definition volume_tetraedre (center : vec3) (t : triangle) : R :=
  let '(point1, point2, point3) := t in
  let a1 := x3 point1 - x3 center in let b1 := y3 point1 - y3 center in let c1 := z3 point1 - z3 center in
  let a2 := x3 point2 - x3 center in let b2 := y3 point2 - y3 center in let c2 := z3 point2 - z3 center in
  let a3 := x3 point3 - x3 center in let b3 := y3 point3 - y3 center in let c3 := z3 point3 - z3 center in
  1 / 6 * Rabs (- a3 * b2 * c1 + a2 * b3 * c1 + a3 * b1 * c2 - a1 * b3 * c2 - a2 * b1 * c3 + a1 * b2 * c3).
Definition shell_volume (bb : bbox) (faces : list (list triangle)) : R :=
  let center := bbox_center bb in
  Rabs (fold_left (fun volume face => fold_left (fun volume t => volume + volume_tetraedre center t) face volume) faces 0).
(** l.1818-1827 bounding box of a triangle shell (np.min of no row raises ValueError), and the volume of a closed triangle shell, whose
    faces are triangulated by themselves (faces.py l.2410-2423) *)
Definition triangle_points (ts : list triangle) : list vec3 := flat_map (fun t : triangle => let '(a, b, c) := t in [a; b; c]) ts.
Definition triangle_shell_volume (ts : list triangle) : res R :=
  do bb <- bbox_from_points (triangle_points ts);
  Ok (shell_volume bb (map (fun t => [t]) ts)).

(** l.1828-1855 TriangleShell3D.to_mesh_data: [round] is np.round of a row when round_vertices is asked for (the identity otherwise);
    reshape(-1, 3) of the flattened indices, of which the first len(faces) rows are kept *)
Definition face_rows (t : row * row * row) : list row := let '(a, b, c) := t in [a; b; c].
Fixpoint reshape3 (l : list Z) : res (list tri3) :=
  match l with
  | [] => Ok []
  | a :: b :: c :: l' => do r <- reshape3 l'; Ok ((a, b, c) :: r)
  | _ => Err ValueError
  end.
Definition to_mesh_data (round : row -> row) (faces : list (row * row * row)) : res (list row * list tri3) :=
  let vertices := map round (flat_map face_rows faces) in
  let u := unique_rows vertices in
  do t <- reshape3 (map (fun v => index_of v u) vertices);
  Ok (u, firstn (length faces) t).
(** l.1857-1884 from_mesh_data: [make] builds the triangle; a ZeroDivisionError is passed over *)
Fixpoint from_mesh_data {T} (make : row * row * row -> res T) (vertices : list row) (faces : list tri3) : res (list T) :=
  match faces with
  | [] => Ok []
  | f :: faces' =>
    do p <- gather vertices f;
    match make p with
    | Ok t => do ts <- from_mesh_data make vertices faces'; Ok (t :: ts)
    | Err ZeroDivisionError => from_mesh_data make vertices faces'
    | Err e => Err e
    end
  end.
(** l.1961-1972 triangulation of a triangle shell *)
Definition shell_triangulation {V} (faces : list (V * V * V)) : mesh V :=
  {| mdim := 3; verts := flat_map (fun t : V * V * V => let '(a, b, c) := t in [a; b; c]) faces;
     tris := map (fun i => (3 * Z.of_nat i, 3 * Z.of_nat i + 1, 3 * Z.of_nat i + 2)%Z) (seq 0 (length faces)) |}.
