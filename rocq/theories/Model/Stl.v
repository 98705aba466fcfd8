(** STL files: /repo/volmdlr/stl.py.
    A binary file is a list of bytes (integers of [0, 256)). Coordinates are modelled by the 32-bit pattern that
    struct.pack("f") writes and KaitaiStream.read_f4le reads: the products by distance_multiplier and the rounding to single
    precision are not modelled. The name is modelled by its encoded bytes. [valid] tells whether the constructor of
    Triangle3D accepts a triangle (it raises ZeroDivisionError or NotImplementedError for the others, which the readers
    catch). Prints are left out. *)
From Verif.Model Require Import Base StepText.
Open Scope Z_scope.

Definition byte_list := list Z.
(** struct.pack / KaitaiStream little endian unsigned integers *)
Fixpoint le_bytes (n : nat) (x : Z) : byte_list := match n with O => [] | S k => x mod 256 :: le_bytes k (x / 256) end.
Fixpoint le_value (l : byte_list) : Z := match l with [] => 0 | b :: l => b + 256 * le_value l end.
(** stream.read_bytes(n): EOFError (modelled by IndexError) when fewer bytes are left *)
Definition read_bytes (n : nat) (s : byte_list) : res (byte_list * byte_list) :=
  if (length s <? n)%nat then Err IndexError else Ok (firstn n s, skipn n s).
Definition read_uint (n : nat) (s : byte_list) : res (Z * byte_list) :=
  do (b, r) <- read_bytes n s; Ok (le_value b, r).

Definition coord3 := (Z * Z * Z)%type.
Definition stl_triangle := (coord3 * coord3 * coord3)%type.
Definition read_point (s : byte_list) : res (coord3 * byte_list) :=
  do (x, s) <- read_uint 4 s; do (y, s) <- read_uint 4 s; do (z, s) <- read_uint 4 s; Ok ((x, y, z), s).

(** l.244-286 save_to_stream: struct.pack("80sI", ...) cuts or pads the name with zeros and raises struct.error (modelled by
    OverflowError) for a count that does not fit; struct.pack("12fH", ...) has no padding *)
Definition pad_name (name : byte_list) : byte_list := firstn 80 (name ++ repeat 0 80).
Definition pack_point (p : coord3) : byte_list := let '(x, y, z) := p in le_bytes 4 x ++ le_bytes 4 y ++ le_bytes 4 z.
Definition pack_facet (t : stl_triangle) : byte_list :=
  let '(p1, p2, p3) := t in pack_point (0, 0, 0) ++ pack_point p1 ++ pack_point p2 ++ pack_point p3 ++ le_bytes 2 0.
Definition stl_save (name : byte_list) (triangles : list stl_triangle) : res byte_list :=
  if 2 ^ 32 <=? Z.of_nat (length triangles) then Err OverflowError
  else Ok (pad_name name ++ le_bytes 4 (Z.of_nat (length triangles)) ++ flat_map pack_facet triangles).

(** l.101-158 from_binary_stream: the triangles refused by the constructor are deleted at the end; the loop over
    range(num_triangles) *)
Fixpoint read_facets (n : nat) (s : byte_list) : res (list stl_triangle) :=
  match n with
  | O => Ok []
  | S k =>
    do (_, s) <- read_point s;
    do (p1, s) <- read_point s;
    do (p2, s) <- read_point s;
    do (p3, s) <- read_point s;
    do (_, s) <- read_uint 2 s;
    do l <- read_facets k s;
    Ok ((p1, p2, p3) :: l)
  end.
Definition stl_load (valid : stl_triangle -> bool) (s : byte_list) : res (byte_list * list stl_triangle) :=
  do (name, s) <- read_bytes 80 s;
  do (n, s) <- read_uint 4 s;
  do l <- read_facets (Z.to_nat n) s;
  Ok (name, filter valid l).

(** l.160-199 from_text_stream. A file is its list of lines, each with its line feed. Coordinates are kept as text: float()
    succeeds on the texts that [is_float] accepts (ValueError otherwise) and ignores the spaces around. *)
Definition text_point := (text * text * text)%type.
Definition text_triangle := (text_point * text_point * text_point)%type.
Fixpoint prefixb (p s : text) : bool :=
  match p, s with [], _ => true | a :: p, c :: s => (a =? c)%char && prefixb p s | _, [] => false end.
Fixpoint contains (p s : text) : bool := prefixb p s || match s with [] => false | _ :: s => contains p s end.
(** s.replace(p, '') of a non empty p: [skip] characters of the current occurrence are left *)
Fixpoint remove_all (p s : text) (skip : nat) : text :=
  match s with
  | [] => []
  | c :: r =>
    match skip with
    | S k => remove_all p r k
    | O => if prefixb p s then remove_all p r (length p - 1) else c :: remove_all p r O
    end
  end.
Definition non_empty (t : text) : bool := match t with [] => false | _ => true end.
Definition space_char (c : ascii) : bool := (c =? " ")%char.
(** [valid] as above; is_float: the texts that float() accepts *)
Definition text_step (is_float : text -> bool) (valid : text_triangle -> bool) (st : list text_point * list text_triangle)
           (line : text) : res (list text_point * list text_triangle) :=
  let '(points, triangles) := st in
  do (line, points) <-
    (if contains (tx "vertex") line then
       let line := lstrip space_char (remove_all (tx "vertex") line O) in
       match filter non_empty (split_on " " line) with
       | [x; y; z] => if is_float x && is_float y && is_float z
                      then Ok (line, points ++ [(strip is_space x, strip is_space y, strip is_space z)]) else Err ValueError
       | _ => Err ValueError
       end
     else Ok (line, points));
  if contains (tx "endfacet") line then
    match points with
    | p1 :: p2 :: p3 :: _ => Ok ([], if valid (p1, p2, p3) then triangles ++ [(p1, p2, p3)] else triangles)
    | _ => Err IndexError
    end
  else Ok (points, triangles).
Fixpoint text_loop (is_float : text -> bool) (valid : text_triangle -> bool) (st : list text_point * list text_triangle)
         (lines : list text) : res (list text_triangle) :=
  match lines with
  | [] => Ok (snd st)
  | l :: lines => do st <- text_step is_float valid st l; text_loop is_float valid st lines
  end.
Definition stl_load_text (is_float : text -> bool) (valid : text_triangle -> bool) (lines : list text)
  : res (text * list text_triangle) :=
  match lines with
  | [] => Ok ([], [])
  | header :: lines => do t <- text_loop is_float valid ([], []) lines; Ok (skipn 6 header, t)
  end.

(** l.394-411 clean_flat_triangles: the indices of the flat triangles are popped from the last one *)
Definition pop_at {A} (l : list A) (i : nat) : list A := firstn i l ++ skipn (S i) l.
Definition clean_flat {A} (flat : A -> bool) (triangles : list A) : list A :=
  let invalid := filter (fun i => match nth_error triangles i with Some t => flat t | None => false end) (seq 0 (length triangles)) in
  fold_left pop_at (rev invalid) triangles.
