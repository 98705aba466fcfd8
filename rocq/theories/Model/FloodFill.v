(** Flood fill of boolean matrices:
    /repo/volmdlr/discrete_representation_compiled.py
    l.75-125 (flood_fill_matrix_2d, flood_fill_matrix_3d) and
    l.771-857 (_flood_fill_matrix_2d, _flood_fill_matrix_3d). *)
From Verif.Model Require Import Base.
Open Scope Z_scope.

(** A numpy boolean matrix: its shape and its content. The content outside
    the shape is irrelevant (never read by the model, ignored by [mat_eq]). *)
Record mat2 := { rows : Z; cols : Z; at2 : Z * Z -> bool }.
Record mat3 := { dimx : Z; dimy : Z; dimz : Z; at3 : Z * Z * Z -> bool }.

Definition inb2 (a b : Z) (c : Z * Z) : bool :=
  let '(x, y) := c in (0 <=? x) && (x <? a) && ((0 <=? y) && (y <? b)).
Definition inb3 (a b d : Z) (c : Z * Z * Z) : bool :=
  let '(x, y, z) := c in
  (0 <=? x) && (x <? a) && ((0 <=? y) && (y <? b)) && ((0 <=? z) && (z <? d)).

Definition eqb2 (c d : Z * Z) : bool := (fst c =? fst d) && (snd c =? snd d).
Definition eqb3 (c d : Z * Z * Z) : bool :=
  eqb2 (fst c) (fst d) && (snd c =? snd d).

(** The loop shared by the two functions (l.795-805 and l.840-857). [nbrs] is the
    enumeration of the neighbours by the index loop over dx, dy (, dz), [inb] the range
    test. The C++ stack is a list whose head is the top. *)
Section Loop.
  Context {cell : Type}.
  Variable ceqb : cell -> cell -> bool.
  Variable inb : cell -> bool.
  Variable nbrs : cell -> list cell.

  Definition upd (m : cell -> bool) (c : cell) (v : bool) : cell -> bool :=
    fun d => if ceqb d c then v else m d.

  (* body of "for i in range(4)" / "for i in range(6)": push the neighbours
     in range that still have the old value *)
  Definition push_nbrs (m : cell -> bool) (old : bool) (c : cell) (st : list cell) : list cell :=
    fold_left (fun s n => if inb n && Bool.eqb (m n) old then n :: s else s) (nbrs c) st.

  (* "while not fill_stack.empty()": fuel bounds the number of iterations *)
  Fixpoint flood_loop (fuel : nat) (m : cell -> bool) (st : list cell) (old fill : bool)
    : res (cell -> bool) :=
    match fuel with
    | O => Err OutOfFuel
    | S f =>
      match st with
      | [] => Ok m
      | c :: st' =>
        let m' := upd m c fill in
        flood_loop f m' (push_nbrs m' old c st') old fill
      end
    end.
End Loop.

(* l.780-781: dx = [0,0,-1,1], dy = [-1,1,0,0] *)
Definition nbrs2 (c : Z * Z) : list (Z * Z) :=
  let '(x, y) := c in
  map (fun d : Z * Z => let '(dx, dy) := d in (x + dx, y + dy))
      [(0, -1); (0, 1); (-1, 0); (1, 0)].
(* l.822-824: dx = [0,0,-1,1,0,0], dy = [-1,1,0,0,0,0], dz = [0,0,0,0,-1,1] *)
Definition nbrs3 (c : Z * Z * Z) : list (Z * Z * Z) :=
  let '(x, y, z) := c in
  map (fun d : Z * Z * Z => let '(dx, dy, dz) := d in (x + dx, y + dy, z + dz))
      [(0, -1, 0); (0, 1, 0); (-1, 0, 0); (1, 0, 0); (0, 0, -1); (0, 0, 1)].

(** l.768-806 [_flood_fill_matrix_2d]. *)
Definition flood_fill_2d_core (m : mat2) (start : Z * Z) (fill : bool) : res mat2 :=
  let old := at2 m start in
  if Bool.eqb old fill then Ok m
  else
    do r <- flood_loop eqb2 (inb2 (rows m) (cols m)) nbrs2
               (Z.to_nat (8 * (rows m * cols m) + 2)) (at2 m) [start] old fill;
    Ok {| rows := rows m; cols := cols m; at2 := r |}.

(** l.75-98 [flood_fill_matrix_2d]. *)
Definition flood_fill_matrix_2d (m : mat2) (start : Z * Z) (fill : bool) : res mat2 :=
  if negb (inb2 (rows m) (cols m) start) then Err IndexError
  else flood_fill_2d_core m start fill.

(** l.809-857 [_flood_fill_matrix_3d]. *)
Definition flood_fill_3d_core (m : mat3) (start : Z * Z * Z) (fill : bool) : res mat3 :=
  let old := at3 m start in
  if Bool.eqb old fill then Ok m
  else
    do r <- flood_loop eqb3 (inb3 (dimx m) (dimy m) (dimz m)) nbrs3
               (Z.to_nat (12 * (dimx m * dimy m * dimz m) + 2)) (at3 m) [start] old fill;
    Ok {| dimx := dimx m; dimy := dimy m; dimz := dimz m; at3 := r |}.

(** l.101-125 [flood_fill_matrix_3d]. *)
Definition flood_fill_matrix_3d (m : mat3) (start : Z * Z * Z) (fill : bool) : res mat3 :=
  if negb (inb3 (dimx m) (dimy m) (dimz m) start) then Err IndexError
  else flood_fill_3d_core m start fill.
