(** /repo/volmdlr/grid.py: Grid2D. A direction such as '+x' is a pair (is the sign +, is the axis x); other strings are not
    modelled. Names are left out. *)
From Coq Require Import Reals.
From Verif.Model Require Import Base Vec.
Open Scope R_scope.

Definition gdir := (bool * bool)%type.
Record grid (A : Type) := Grid { rows : list (list A); gdirs : list gdir }.
Arguments Grid {A} rows gdirs.
Arguments rows {A} g.
Arguments gdirs {A} g.

(** numpy.linspace(a, b, n) for a non negative n *)
Definition linspace (a b : R) (n : nat) : list R :=
  match n with 1%nat => [a] | _ => map (fun i => a + INR i * ((b - a) / (INR n - 1))) (seq 0 n) end.
(** l.91-150 from_properties: KeyError for a pair of directions that is not in the table *)
Definition grid_from_properties (xlim ylim : R * R) (nbr : nat * nat) (direction : list gdir) : res (grid vec2) :=
  let '(xmin, xmax) := xlim in
  let '(ymin, ymax) := ylim in
  let '(points_x, points_y) := nbr in
  match direction with
  | [(sx, true); (sy, false)] =>
    let x := if sx then linspace xmin xmax points_x else linspace xmax xmin points_x in
    let y := if sy then linspace ymin ymax points_y else linspace ymax ymin points_y in
    Ok (Grid (map (fun yi => map (fun xi => V2 xi yi) x) y) direction)
  | [(sy, false); (sx, true)] =>
    let x := if sx then linspace xmin xmax points_x else linspace xmax xmin points_x in
    let y := if sy then linspace ymin ymax points_y else linspace ymax ymin points_y in
    Ok (Grid (map (fun xi => map (fun yi => V2 xi yi) y) x) direction)
  | _ => Err KeyError
  end.
(** l.72-89 from_points: range(0, len(points), points_dim_1) raises ValueError for 0; the negative numbers, which give no
    list, are not modelled *)
Fixpoint chunks {A} (fuel n : nat) (l : list A) : list (list A) :=
  match fuel, l with S f, _ :: _ => firstn n l :: chunks f n (skipn n l) | _, _ => [] end.
Definition grid_from_points {A} (points : list A) (points_dim_1 : nat) (direction : list gdir) : res (grid A) :=
  match points_dim_1 with O => Err ValueError | _ => Ok (Grid (chunks (length points) points_dim_1 points) direction) end.
(** l.214-226 points *)
Definition grid_points {A} (g : grid A) : list A := concat (rows g).
(** list[i] for a non negative index *)
Definition get {A} (l : list A) (i : nat) : res A := match nth_error l i with Some a => Ok a | None => Err IndexError end.
Definition cell {A} (g : grid A) (i j : nat) : res A := do r <- get (rows g) i; get r j.
(** l.152-171 grid_pattern (the polygons are their lists of points) *)
Fixpoint mapMr {A B} (f : A -> res B) (l : list A) : res (list B) :=
  match l with [] => Ok [] | a :: l => do b <- f a; do r <- mapMr f l; Ok (b :: r) end.
Definition grid_pattern {A} (g : grid A) : res (list (list A)) :=
  do r <- get (rows g) 0;
  let length_1 := length r in
  let length_2 := length (rows g) in
  mapMr (fun ij => let '(i, j) := ij in
           do p1 <- cell g i j; do p2 <- cell g (i + 1) j; do p3 <- cell g (i + 1) (j + 1); do p4 <- cell g i (j + 1);
           Ok [p1; p2; p3; p4])
        (list_prod (seq 0 (length_1 - 1)) (seq 0 (length_2 - 1))).
(** l.173-187 limits_xy: list[-1] is the last element *)
Definition get_last {A} (l : list A) : res A := match rev l with a :: _ => Ok a | [] => Err IndexError end.
Definition limits_xy (g : grid vec2) : res ((R * R) * (R * R)) :=
  do r0 <- get (rows g) 0; do p <- get r0 0; do rn <- get_last (rows g); do q <- get_last rn;
  Ok ((Rmin (x2 p) (x2 q), Rmax (x2 p) (x2 q)), (Rmin (y2 p) (y2 q), Rmax (y2 p) (y2 q))).
(** l.54-70 find_direction_index: '+' first, then '-'; ValueError when the axis is absent *)
Definition gdir_eqb (a b : gdir) : bool := Bool.eqb (fst a) (fst b) && Bool.eqb (snd a) (snd b).
Fixpoint index_of (d : gdir) (l : list gdir) : option nat :=
  match l with [] => None | a :: l => if gdir_eqb a d then Some 0%nat else option_map S (index_of d l) end.
Definition find_direction_index {A} (g : grid A) (axis_x : bool) : res nat :=
  match index_of (true, axis_x) (gdirs g) with
  | Some i => Ok i
  | None => match index_of (false, axis_x) (gdirs g) with Some i => Ok i | None => Err ValueError end
  end.
(** l.228-248 points_xy *)
Definition points_xy {A} (g : grid A) : res (nat * nat) :=
  do i <- find_direction_index g true;
  do r <- get (rows g) 0;
  Ok (match i with O => (length r, length (rows g)) | _ => (length (rows g), length r) end).
(** l.34-52 displacement_compared_to: the loop runs over the points of the initial grid *)
Definition displacement (g initial : grid vec2) : res (list vec2) :=
  mapMr (fun ip => let '(i, p) := ip in do q <- get (grid_points g) i; Ok (sub2 q p))
        (combine (seq 0 (length (grid_points initial))) (grid_points initial)).
