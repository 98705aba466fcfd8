(** Shells: /repo/volmdlr/shells.py. Faces, shells and points are abstract; the geometric tests the code calls
    (union of two shells, faces inside one another, coincident surfaces...) are parameters. *)
From Coq Require Import List Arith ZArith Bool.
From Verif.Model Require Import Base.
Import ListNotations.

(** ** l.30-69 union_list_of_shells.
    [union a b]: None when a.union(b) gives the two shells [a; b], Some m when it gives one shell (after m.merge_faces()).
    [list_shells] is the caller's list until it is replaced by a copy (l.46); the result carries what is left of the caller's list. *)
Inductive scanned (S : Type) := Merged (m : S) (left : list S) | Pushed (x : S) (left : list S) | Exhausted.
Arguments Merged {S}. Arguments Pushed {S}. Arguments Exhausted {S}.
(** l.51-62, the inner loop; [push] is the test l.58, which does not change during the loop *)
Fixpoint scan {S} (union : S -> S -> option S) (push : bool) (u : S) (before shells : list S) : scanned S :=
  match shells with
  | [] => Exhausted
  | x :: after =>
      match union u x with
      | Some m => Merged m (rev before ++ after)
      | None => if push then Pushed x (rev before ++ after) else scan union push u (x :: before) after
      end
  end.
(** l.43-69, the outer loop; [caller] is None while list_shells is the caller's list *)
Fixpoint union_loop {S} (union : S -> S -> option S) (fuel : nat) (shells union_shells list_shells : list S) (len_previous : nat)
    (caller : option (list S)) : res (list S * list S) :=
  match fuel with
  | O => Err OutOfFuel
  | Datatypes.S fuel =>
      let '(union_shells, list_shells, len_previous, caller) :=
        match list_shells, union_shells with
        | [], u :: us => ([u], us, length (u :: us), match caller with None => Some [] | c => c end)
        | _, _ => (union_shells, list_shells, len_previous, caller)
        end in
      let left_for_caller l := match caller with None => l | Some l' => l' end in
      match union_shells with
      | [] => Ok (shells, left_for_caller list_shells)
      | u :: us =>
          match scan union (negb (Z.eqb (Z.of_nat (length list_shells)) (Z.of_nat len_previous - 1))) u [] list_shells with
          | Merged m l => union_loop union fuel shells (m :: us) l len_previous caller
          | Pushed x l => union_loop union fuel shells (x :: u :: us) l len_previous caller
          | Exhausted =>
              let shells := shells ++ [u] in
              match us, list_shells with
              | [], x :: l => union_loop union fuel shells [x] l len_previous caller
              | [], [] => Ok (shells, left_for_caller [])
              | _, _ => union_loop union fuel shells us list_shells len_previous caller
              end
          end
      end
  end.
Definition union_list_of_shells {S} (union : S -> S -> option S) (fuel : nat) (list_shells : list S) : res (list S * list S) :=
  match list_shells with
  | [] => Err IndexError
  | x :: l => union_loop union fuel [] [x] l (length l) None
  end.

(** ** l.146-158, 238-268 the graph of the faces. A face is the list of the edges (start, end) of its contours;
    [close] is the comparison of points with a tolerance of 1e-6. *)
Definition in_list {V} (close : V -> V -> bool) (p : V) (l : list V) : bool := existsb (close p) l.
Definition vertices_points {V} (close : V -> V -> bool) (faces : list (list (V * V))) : list V :=
  fold_left (fun vs e => let vs := if in_list close (fst e) vs then vs else vs ++ [fst e] in
                         if in_list close (snd e) vs then vs else vs ++ [snd e]) (concat faces) [].
(** core.py l.78-106 get_point_index_in_list *)
Fixpoint point_index {V} (close : V -> V -> bool) (p : V) (l : list V) : option nat :=
  match l with [] => None | q :: l => if close q p then Some 0 else option_map Datatypes.S (point_index close p l) end.
Definition opt_nat_eqb (a b : option nat) : bool :=
  match a, b with Some a, Some b => Nat.eqb a b | None, None => true | _, _ => false end.
Definition face_vertices {V} (close : V -> V -> bool) (vs : list V) (face : list (V * V)) : list (option nat) :=
  map (fun e => point_index close (fst e) vs) face.
(** l.257-263: a face that was treated is discarded from the sets of its vertices, so that only later faces are left;
    a face without edges raises KeyError *)
Definition graph_edges {V} (close : V -> V -> bool) (faces : list (list (V * V))) : res (list (nat * nat)) :=
  let vs := vertices_points close faces in
  let ids := map (face_vertices close vs) faces in
  if existsb (fun f => match f with [] => true | _ => false end) ids then Err KeyError else
  Ok (flat_map (fun i =>
        flat_map (fun v => map (fun j => (i, j))
                             (filter (fun j => Nat.ltb i j && existsb (opt_nat_eqb v) (nth j ids [])) (seq 0 (length faces))))
                 (nth i ids []))
      (seq 0 (length faces))).
(** nx.Graph.nodes, nx.Graph.neighbors, nx.connected_components (library functions; components are given as lists of nodes
    whose order is not that of networkx) *)
Definition mem (x : nat) (l : list nat) : bool := existsb (Nat.eqb x) l.
Definition add_node (l : list nat) (x : nat) : list nat := if mem x l then l else l ++ [x].
Definition nodes (g : list (nat * nat)) : list nat := fold_left (fun l e => add_node (add_node l (fst e)) (snd e)) g [].
Definition neighbors (g : list (nat * nat)) (x : nat) : list nat :=
  flat_map (fun e => if Nat.eqb (fst e) x then [snd e] else if Nat.eqb (snd e) x then [fst e] else []) g.
Definition expand (g : list (nat * nat)) (l : list nat) : list nat := fold_left add_node (flat_map (neighbors g) l) l.
Fixpoint spread (n : nat) (g : list (nat * nat)) (l : list nat) : list nat :=
  match n with O => l | Datatypes.S n => spread n g (expand g l) end.
Definition component (g : list (nat * nat)) (x : nat) : list nat := spread (length (nodes g)) g [x].
Definition connected_components (g : list (nat * nat)) : list (list nat) :=
  fold_left (fun cs x => if existsb (mem x) cs then cs else cs ++ [component g x]) (nodes g) [].
(** l.1008-1034 is_shell_open, on the nodes of a graph; [over e j]: the edge e is over a contour of face j *)
Definition is_shell_open {V} (over : V * V -> nat -> bool) (faces : list (list (V * V))) (g : list (nat * nat)) (ns : list nat) : bool :=
  existsb (fun n => existsb (fun e => negb (existsb (over e) (neighbors g n))) (nth n faces [])) ns.
Definition faces_open {V} (close : V -> V -> bool) (over : V * V -> nat -> bool) (faces : list (list (V * V))) : res bool :=
  do g <- graph_edges close faces; Ok (is_shell_open over faces g (nodes g)).
(** l.1036-1053 from_faces: the shells as (is open, indices of the faces) *)
Definition from_faces {V} (close : V -> V -> bool) (over : V * V -> nat -> bool) (faces : list (list (V * V))) : res (list (bool * list nat)) :=
  do g <- graph_edges close faces;
  Ok (map (fun c => (is_shell_open over faces g c, c)) (connected_components g)).

(** ** l.110-116, 167-181, 270-279 the cached graphs of a shell: [make_faces v] and [make_vertices] are the graphs the code
    computes; [empty g] is Python's [not g]. The first component is what the call returns (None for Python's None). *)
Record graphs (G : Type) := Graphs { g_faces : option G; g_vertices : option G }.
Arguments Graphs {G}. Arguments g_faces {G}. Arguments g_vertices {G}.
Definition no_graph {G} : graphs G := Graphs None None.
Definition falsy {G} (empty : G -> bool) (o : option G) : bool := match o with None => true | Some g => empty g end.
Definition faces_graph {G} (empty : G -> bool) (make_faces : bool -> G) (s : graphs G) (verify : bool) : option G * graphs G :=
  let s := if falsy empty (g_faces s) then Graphs (Some (make_faces verify)) (g_vertices s) else s in (g_faces s, s).
Definition vertices_graph {G} (empty : G -> bool) (make_vertices : G) (s : graphs G) : option G * graphs G :=
  let s := if falsy empty (g_faces s) then Graphs (g_faces s) (Some make_vertices) else s in (g_vertices s, s).

(** ** Boolean operations: the tests made before the faces are cut. [disjoint], [inside] are is_disjoint_from and is_inside_shell;
    [general] is the rest of the operation. *)
(** l.1549-1564 validate_set_operation *)
Definition validate_set_operation {S} (disjoint inside : S -> S -> bool) (a b : S) : list S :=
  if disjoint a b then [a; b] else if inside a b then [b] else if inside b a then [a] else [].
(** l.1606-1634 union, l.1688-1709 subtract, l.1711-1736 subtract_to_closed_shell, l.1738-1780 intersection *)
Definition union {S} (disjoint inside : S -> S -> bool) (general : S -> S -> list S) (a b : S) : list S :=
  match validate_set_operation disjoint inside a b with [] => general a b | l => l end.
Definition subtract {S} (disjoint inside : S -> S -> bool) (general : S -> S -> list S) (a b : S) : list S :=
  match validate_set_operation disjoint inside a b with [] => general a b | l => l end.
Definition subtract_to_closed_shell {S} (disjoint inside : S -> S -> bool) (general : S -> S -> list S) (a b : S) : list S :=
  if disjoint a b then [a] else general a b.
Definition intersection {S} (disjoint inside : S -> S -> bool) (general : S -> S -> list S) (a b : S) : list S :=
  if disjoint a b then [] else if inside a b then [a] else if inside b a then [b] else general a b.

(** l.1391-1409 validate_set_operations_faces; [covers f g] is f.face_inside(g). The list given is emptied. *)
Fixpoint validate_faces {F} (covers : F -> F -> bool) (valid faces : list F) : list F :=
  match faces with
  | [] => valid
  | f :: faces => validate_faces covers (if existsb (fun v => covers v f) valid then valid else valid ++ [f]) faces
  end.
Definition validate_set_operations_faces {F} (covers : F -> F -> bool) (faces : list F) : list F := validate_faces covers [] faces.
(** l.1566-1582 _separate_intersecting_and_non_intersecting_faces: the entries of the dictionary *)
Definition separate_faces {F I} (d : list (F * list I)) : list F * list F :=
  fold_left (fun acc e => match snd e with [] => (fst acc, snd acc ++ [fst e]) | _ => (fst acc ++ [fst e], snd acc) end) d ([], []).
(** list.remove *)
Fixpoint remove_first {F} (eqb : F -> F -> bool) (x : F) (l : list F) : res (list F) :=
  match l with [] => Err ValueError | y :: l => if eqb y x then Ok l else do r <- remove_first eqb x l; Ok (y :: r) end.
Fixpoint remove_all {F} (eqb : F -> F -> bool) (xs l : list F) : res (list F) :=
  match xs with [] => Ok l | x :: xs => do l <- remove_first eqb x l; remove_all eqb xs l end.
(** l.1636-1648 get_faces_to_be_merged; i, j are positions *)
Definition group_of {F} (eqb coincident : F -> F -> bool) (faces : list F) (i : nat) (f : F) : list F :=
  fold_left (fun acc jg => if negb (Nat.eqb (fst jg) i) && coincident f (snd jg)
                           then (if existsb (eqb f) acc then acc else acc ++ [f]) ++ [snd jg] else acc)
            (combine (seq 0 (length faces)) faces) [].
Definition faces_to_be_merged {F} (eqb coincident : F -> F -> bool) (faces : list F) : list F :=
  fold_left (fun acc jf => match acc with [] => group_of eqb coincident faces (fst jf) (snd jf) | _ => acc end)
            (combine (seq 0 (length faces)) faces) [].
(** l.1650-1663 clean_faces *)
Definition clean_faces {F} (eqb covers : F -> F -> bool) (union_faces new_faces : list F) : res (list F) :=
  let removed := flat_map (fun f1 => flat_map (fun f2 => if covers f1 f2 then [f2] else if covers f2 f1 then [f1] else []) new_faces) union_faces in
  remove_all eqb removed (new_faces ++ union_faces).
(** l.1665-1686 merge_faces; [merge] is PlaneFace3D.merge_faces; self.faces is the list union_faces itself, so that len(self.faces)
    is the number of faces left. The result: the faces of the shell and the groups that were merged. *)
Fixpoint merge_loop {F} (eqb coincident : F -> F -> bool) (merge : list F -> list F) (fuel count : nat) (union_faces new_faces : list F) : res (list F * list F) :=
  match fuel with
  | O => Err OutOfFuel
  | Datatypes.S fuel =>
      let group := faces_to_be_merged eqb coincident union_faces in
      let new_faces := match group with [] => new_faces | _ => new_faces ++ merge group end in
      do rest <- remove_all eqb group union_faces;
      let count := Datatypes.S count in
      if Nat.leb (length rest) count && match group with [] => true | _ => false end then Ok (rest, new_faces)
      else merge_loop eqb coincident merge fuel count rest new_faces
  end.
Definition merge_faces {F} (eqb coincident covers : F -> F -> bool) (merge : list F -> list F) (fuel : nat) (faces : list F) : res (list F) :=
  do r <- merge_loop eqb coincident merge fuel 0 faces [];
  clean_faces eqb covers (fst r) (snd r).
