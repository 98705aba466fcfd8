(** What the bounding box theorems say: boxes as sets of points, minimum distance, first occurrences. *)
From Coq Require Import Reals List.
From Verif.Model Require Import RBase Vec BBox.
Open Scope R_scope.

(** the closed box / rectangle as a set of points *)
Definition in_box (b : bbox) (p : vec3) : Prop :=
  xmin b <= x3 p <= xmax b /\ ymin b <= y3 p <= ymax b /\ zmin b <= z3 p <= zmax b.
Definition in_rect (b : rect) (p : vec2) : Prop := rxmin b <= x2 p <= rxmax b /\ rymin b <= y2 p <= rymax b.
Definition inside_box (b : bbox) (p : vec3) : Prop :=
  xmin b < x3 p < xmax b /\ ymin b < y3 p < ymax b /\ zmin b < z3 p < zmax b.
Definition inside_rect (b : rect) (p : vec2) : Prop := rxmin b < x2 p < rxmax b /\ rymin b < y2 p < rymax b.
(** min <= max on every axis: what every constructor from points produces *)
Definition valid_box (b : bbox) : Prop := xmin b <= xmax b /\ ymin b <= ymax b /\ zmin b <= zmax b.
Definition valid_rect (b : rect) : Prop := rxmin b <= rxmax b /\ rymin b <= rymax b.
(** inclusion of boxes by their bounds *)
Definition box_le (a b : bbox) : Prop :=
  xmin b <= xmin a /\ xmax a <= xmax b /\ ymin b <= ymin a /\ ymax a <= ymax b /\ zmin b <= zmin a /\ zmax a <= zmax b.
Definition rect_le (a b : rect) : Prop :=
  rxmin b <= rxmin a /\ rxmax a <= rxmax b /\ rymin b <= rymin a /\ rymax a <= rymax b.
(** [d] is the minimum of [dist p q] over p in P, q in Q *)
Definition min_dist {A} (dist : A -> A -> R) (P Q : A -> Prop) (d : R) : Prop :=
  (exists p q, P p /\ Q q /\ dist p q = d) /\ (forall p q, P p -> Q q -> d <= dist p q).
(** the boundary of a box *)
Definition on_boundary_box (b : bbox) (p : vec3) : Prop := in_box b p /\ ~ inside_box b p.
Definition on_boundary_rect (b : rect) (p : vec2) : Prop := in_rect b p /\ ~ inside_rect b p.
(** the box common to two boxes and its measure (0 when empty) *)
Definition common (alo ahi blo bhi : R) : R := Rmax 0 (Rmin ahi bhi - Rmax alo blo).
Definition common_area (a b : rect) : R :=
  common (rxmin a) (rxmax a) (rxmin b) (rxmax b) * common (rymin a) (rymax a) (rymin b) (rymax b).
Definition common_volume (a b : bbox) : R :=
  common (xmin a) (xmax a) (xmin b) (xmax b) * common (ymin a) (ymax a) (ymin b) (ymax b)
  * common (zmin a) (zmax a) (zmin b) (zmax b).
(** centre of cell (i,j,k) of the subdivision of a box in nx * ny * nz equal cells *)
Definition cell_center (b : bbox) (nx ny nz i j k : nat) : vec3 :=
  V3 (xmin b + (INR i + 1 / 2) * (xmax b - xmin b) / INR nx) (ymin b + (INR j + 1 / 2) * (ymax b - ymin b) / INR ny)
     (zmin b + (INR k + 1 / 2) * (zmax b - zmin b) / INR nz).
Definition mid (a b : R) : R := (a + b) / 2.
(** the eight half-size boxes *)
Definition octants (b : bbox) : list bbox :=
  let mx := mid (xmin b) (xmax b) in let my := mid (ymin b) (ymax b) in let mz := mid (zmin b) (zmax b) in
  (BBox (xmin b) mx (ymin b) my (zmin b) mz :: BBox mx (xmax b) (ymin b) my (zmin b) mz
   :: BBox (xmin b) mx my (ymax b) (zmin b) mz :: BBox mx (xmax b) my (ymax b) (zmin b) mz
   :: BBox (xmin b) mx (ymin b) my mz (zmax b) :: BBox mx (xmax b) (ymin b) my mz (zmax b)
   :: BBox (xmin b) mx my (ymax b) mz (zmax b) :: BBox mx (xmax b) my (ymax b) mz (zmax b) :: nil)%list.
