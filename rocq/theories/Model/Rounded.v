(** Rounded polylines: /repo/volmdlr/primitives.py (RoundedLineSegments) and /repo/volmdlr/primitives2d.py
    (RoundedLineSegments2D and its opened / closed classes).
    The dictionary radius is the list of its (index, radius) pairs, in increasing order of the indices: the order of the
    insertions only decides which error is raised first. Indices are non negative. Names are left out. *)
From Coq Require Import Reals List.
From Verif.Model Require Import Base RBase Vec Frame Geometry Curves Edges Arcs.
Import ListNotations.
Open Scope R_scope.

Record rls := Rls { rpts : list vec2; rrad : list (nat * R); rclosed : bool; radapt : bool }.
Fixpoint lookup {A} (k : nat) (l : list (nat * A)) : option A :=
  match l with [] => None | (j, a) :: l => if (j =? k)%nat then Some a else lookup k l end.
(** list[i] for a non negative index, list[-1] *)
Definition geti {A} (l : list A) (i : nat) : res A := match nth_error l i with Some a => Ok a | None => Err IndexError end.
Definition getlast {A} (l : list A) : res A := geti l (length l - 1).
(** points[i - 1]: points[-1] for i = 0 *)
Definition getpred {A} (l : list A) (i : nat) : res A := match i with O => getlast l | S k => geti l k end.

(** primitives.py l.38-57 get_points *)
Definition get_points (s : rls) (i : nat) : res (vec2 * vec2 * vec2) :=
  do pt1 <- getpred (rpts s) i;
  do pti <- geti (rpts s) i;
  do pt2 <- (if rclosed s then if (i <? length (rpts s) - 1)%nat then geti (rpts s) (i + 1) else geti (rpts s) 0
             else geti (rpts s) (i + 1));
  Ok (pt1, pti, pt2).
(** primitives2d.py l.45-79 arc_features. math.acos raises ValueError outside [-1, 1]; radius / math.tan(alpha) is written
    radius * cos / sin: math.tan(pi / 2) is about 1.6e16 in Python, where tan is undefined in R. *)
Definition arc_features_of (pt1 pti pt2 : vec2) (radius : R) : res (vec2 * vec2 * vec2 * R * R) :=
  let distance1 := norm2 (sub2 pt1 pti) in
  let distance2 := norm2 (sub2 pt2 pti) in
  let distance3 := norm2 (sub2 pt1 pt2) in
  if Reqb (2 * distance1 * distance2) 0 then Err ZeroDivisionError
  else
    let cosine := - (distance3 ^ 2 - distance1 ^ 2 - distance2 ^ 2) / (2 * distance1 * distance2) in
    if Rltb 1 (Rabs cosine) then Err ValueError
    else
      let alpha := acos cosine / 2 in
      if Reqb (sin alpha) 0 then Err ZeroDivisionError
      else
        let distance := radius * cos alpha / sin alpha in
        do u1 <- div2 (sub2 pt1 pti) distance1;
        do u2 <- div2 (sub2 pt2 pti) distance2;
        let p3 := add2 pti (mul2 u1 distance) in
        let p4 := add2 pti (mul2 u2 distance) in
        let w0 := add2 u1 u2 in
        do w <- (if is_close2 w0 (V2 0 0) (/ 10 ^ 6) then Ok w0 else unit_vector2 w0);
        do v0 <- unit_normal_vector2 u1;
        let v1 := if Rltb (dot2 v0 w) 0 then neg2 v0 else v0 in
        let point_curvature := add2 p3 (mul2 v1 radius) in
        Ok (p3, sub2 point_curvature (mul2 w radius), p4, distance, alpha).
Definition arc_features (s : rls) (i : nat) : res (vec2 * vec2 * vec2 * R * R) :=
  match lookup i (rrad s) with
  | None => Err KeyError
  | Some radius => do (pt1, pti, pt2) <- get_points s i; arc_features_of pt1 pti pt2 radius
  end.

(** primitives.py l.72-112: the features of the rounded points, in order, and their groups. An entry is
    (index, distance, alpha); [group] is the current group, in reverse order. *)
Definition entry := (nat * R * R)%type.
Definition e_i (e : entry) : nat := fst (fst e).
Definition e_d (e : entry) : R := snd (fst e).
Definition e_a (e : entry) : R := snd e.
Definition features (s : rls) (i : nat) : res entry :=
  do (_, _, _, dist, alpha) <- arc_features s i; Ok (i, dist, alpha).
Fixpoint group_loop (s : rls) (group : list entry) (last : entry) (keys : list nat) : res (list (list entry)) :=
  match keys with
  | [] => Ok [rev group]
  | i :: keys =>
    do e <- features s i;
    if (e_i last + 1 =? i)%nat then
      do p1 <- getpred (rpts s) i;
      do p2 <- geti (rpts s) i;
      if Rleb (e_d last + e_d e) (norm2 (sub2 p2 p1)) then do g <- group_loop s [e] e keys; Ok (rev group :: g)
      else if radapt s then group_loop s (e :: group) e keys
      else Err ValueError
    else do g <- group_loop s [e] e keys; Ok (rev group :: g)
  end.
(** l.113-119: the test `self.npoints in groups[-1]` never holds for the indices of a polyline (the last one is
    npoints - 1): the two groups are never joined, and the lines are left out *)
Definition groups (s : rls) : res (list (list entry)) :=
  match map fst (rrad s) with
  | [] => Ok []
  | i :: keys => do e <- features s i; group_loop s [e] e keys
  end.
(** assigning and deleting a key of radius *)
Definition set_radius (i : nat) (r : R) (l : list (nat * R)) : list (nat * R) :=
  map (fun e => if (fst e =? i)%nat then (i, r) else e) l.
Definition del_radius (i : nat) (l : list (nat * R)) : list (nat * R) := filter (fun e => negb (fst e =? i)%nat) l.
(** l.126-155: a group of one point; the three points are those of get_points *)
Definition adapt_single (s : rls) (rad : list (nat * R)) (e : entry) : res (list (nat * R)) :=
  do (p1, p2, p3) <- get_points s (e_i e);
  let distance_1 := point_distance2 p1 p2 in
  let distance_2 := point_distance2 p2 p3 in
  if Rltb (Rmin distance_1 distance_2) (e_d e) then
    match lookup (e_i e) rad with
    | None => Err KeyError
    | Some r => Ok (set_radius (e_i e) (Rmin r (Rmin distance_1 distance_2 * tan (e_a e))) rad)
    end
  else Ok rad.
(** l.157-179: the linear program of the groups of several points: its variables are the points of these groups, in order;
    the bounds 0 <= x <= radius / tan(alpha); one row x_a + x_b <= length by pair of consecutive points of a group (the row
    of a_ub with two ones is the pair of the two variables) *)
Fixpoint lp_rows (s : rls) (first : nat) (g : list entry) : res (list (nat * nat * R)) :=
  match g with
  | e1 :: ((e2 :: _) as r) =>
    do p1 <- geti (rpts s) (e_i e1);
    do p2 <- geti (rpts s) (e_i e2);
    do l <- lp_rows s (S first) r;
    Ok ((first, S first, norm2 (sub2 p2 p1)) :: l)
  | _ => Ok []
  end.
Fixpoint lp_all_rows (s : rls) (first : nat) (gs : list (list entry)) : res (list (nat * nat * R)) :=
  match gs with
  | [] => Ok []
  | g :: gs => do a <- lp_rows s first g; do b <- lp_all_rows s (first + length g) gs; Ok (a ++ b)
  end.
Definition long (g : list entry) : bool := match g with [] | [_] => false | _ => true end.
(** a solver of linear programs: costs, rows, upper bounds *)
Definition lp_solver := list R -> list (nat * nat * R) -> list R -> res (list R).
(** l.199-204 *)
Definition set_solution (rad : list (nat * R)) (ex : entry * R) : list (nat * R) :=
  let '(e, x) := ex in
  let r := x * tan (e_a e) in
  if Rltb (/ 10 ^ 10) r then set_radius (e_i e) r rad else del_radius (e_i e) rad.
Fixpoint foldM {A B} (f : B -> A -> res B) (l : list A) (b : B) : res B :=
  match l with [] => Ok b | a :: l => do c <- f b a; foldM f l c end.
(** l.113-204 with adapt_radius *)
Definition adapt (lp : lp_solver) (s : rls) (gs : list (list entry)) : res (list (nat * R)) :=
  do rad <- foldM (fun rad g => match g with [e] => adapt_single s rad e | _ => Ok rad end) gs (rrad s);
  match concat (filter long gs) with
  | [] => Ok rad
  | dofs =>
    do rows <- lp_all_rows s 0 (filter long gs);
    do bounds <- mapM (fun e => match lookup (e_i e) (rrad s) with
                               | None => Err KeyError | Some r => Ok (r * cos (e_a e) / sin (e_a e)) end) dofs;
    do x <- lp (map (fun e => - tan (e_a e)) dofs) rows bounds;
    Ok (fold_left set_solution (combine dofs x) rad)
  end.

(** the primitives of a wire *)
Inductive prim := PSeg (p : sg2) | PArc (a : arc2).
Definition p_start (p : prim) : vec2 := match p with PSeg s => fst s | PArc a => ast a end.
Definition p_end (p : prim) : vec2 := match p with PSeg s => snd s | PArc a => aen a end.
Definition seg (p q : vec2) : res (list prim) := do s <- segment2 p q; Ok [PSeg s].
Definition seg_unless_close (p q : vec2) : res (list prim) := if is_close2 p q (/ 10 ^ 6) then Ok [] else seg p q.
(** l.214-264 primitives_from_arcs: the primitives drawn for the side from the point i to the point j. The test
    `index in self.radius` is made on arcs, which has the same keys. [check] is false for the closing side, where the end
    of an arc is not compared with a sharp point. *)
Definition side_primitives (pts : list vec2) (arcs : list (nat * arc2)) (check : bool) (i j : nat) : res (list prim) :=
  match lookup i arcs with
  | Some arc1 =>
    do r <- (match lookup j arcs with
             | Some arc2 => seg_unless_close (aen arc1) (ast arc2)
             | None => do q <- geti pts j; if check then seg_unless_close (aen arc1) q else seg (aen arc1) q
             end);
    Ok (PArc arc1 :: r)
  | None =>
    do p1 <- geti pts i;
    match lookup j arcs with
    | Some arc2 => seg_unless_close p1 (ast arc2)
    | None => do q <- geti pts j; seg p1 q
    end
  end.
Definition primitives_from_arcs (pts : list vec2) (closed : bool) (arcs : list (nat * arc2)) : res (list prim) :=
  do l <- mapM (fun i => side_primitives pts arcs true i (i + 1)) (seq 0 (length pts - 1));
  do last <- (if closed then side_primitives pts arcs false (length pts - 1) 0 else Ok []);
  Ok (concat l ++ last).
(** l.206-212 and the whole of _primitives: the new radius dictionary (it stays in the object) and the primitives *)
Definition rounded_primitives (lp : lp_solver) (s : rls) : res (list (nat * R) * list prim) :=
  do gs <- groups s;
  do rad <- (if radapt s then adapt lp s gs else Ok (rrad s));
  do arcs <- mapM (fun e => do (p3, q, p4, _, _) <- arc_features (Rls (rpts s) rad (rclosed s) (radapt s)) (fst e);
                            do a <- arc2_from_3_points p3 q p4; Ok (fst e, a)) rad;
  do l <- primitives_from_arcs (rpts s) (rclosed s) arcs;
  Ok (rad, l).

(** primitives2d.py l.150-185 offset, l.102-148 _helper_offset_points_and_radii *)
Definition offset_vectors (s : rls) : res (list vec2) :=
  let n := length (rpts s) in
  do l <- mapM (fun i => do p <- geti (rpts s) i; do q <- geti (rpts s) (i + 1);
                         do v1 <- unit_vector2 (sub2 q p); do v2 <- unit_vector2 (sub2 p q); Ok [v1; v2])
               (seq 0 (n - 1));
  do c <- (if rclosed s then
             do p <- geti (rpts s) 0; do q <- getlast (rpts s);
             do v1 <- unit_vector2 (sub2 p q); do v2 <- unit_vector2 (sub2 q p); Ok [v1; v2]
           else Ok []);
  Ok (concat l ++ c).
Definition offset_corner (s : rls) (vectors : list vec2) (offset : R) (i : nat) : res (vec2 * option (nat * R)) :=
  do v_in <- getpred vectors (2 * i);
  do v_out <- geti vectors (2 * i);
  let normal_i := add2 v_in v_out in
  do (offset_vector, check) <-
    (if is_close2 normal_i (V2 0 0) (/ 10 ^ 6) then Ok (normal_vector2 v_out, false)
     else
       do n <- unit_vector2 normal_i;
       Ok (if Rltb 0 (dot2 n (normal_vector2 v_in)) then (neg2 n, true) else (n, false)));
  let new_radius := match lookup i (rrad s) with
    | None => None
    | Some r =>
      let r' := if (check && Rltb 0 offset) || (negb check && Rltb offset 0) then r + Rabs offset else r - Rabs offset in
      if Rltb 0 r' then Some (i, r') else if radapt s then Some (i, / 10 ^ 6) else None
    end in
  do n1 <- unit_vector2 (normal_vector2 v_in);
  do n2 <- unit_vector2 (normal_vector2 v_out);
  let cosine := dot2 (neg2 n1) n2 in
  if Rltb 1 (Rabs cosine) then Err ValueError
  else
    let c := cos (acos cosine / 2) in
    if Reqb c 0 then Err ZeroDivisionError
    else do p <- geti (rpts s) i; Ok (add2 p (mul2 offset_vector (offset / c)), new_radius).
Fixpoint somes {A} (l : list (option A)) : list A :=
  match l with [] => [] | Some a :: l => a :: somes l | None :: l => somes l end.
(** the polyline handed to the constructor of the result *)
Definition rls_offset (s : rls) (offset : R) : res rls :=
  let n := length (rpts s) in
  do vectors <- offset_vectors s;
  let indices := if rclosed s then seq 0 n else seq 1 (n - 2) in
  do corners <- mapM (offset_corner s vectors offset) indices;
  do pts <- (if rclosed s then Ok (map fst corners)
             else
               do v0 <- geti vectors 0; do p0 <- geti (rpts s) 0;
               do vn <- getlast vectors; do pn <- getlast (rpts s);
               Ok (add2 p0 (mul2 (normal_vector2 v0) offset) :: map fst corners
                   ++ [add2 pn (mul2 (neg2 (normal_vector2 vn)) offset)]));
  Ok (Rls pts (somes (map snd corners)) (rclosed s) (radapt s)).
