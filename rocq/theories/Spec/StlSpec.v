(** STL files. *)
From Coq Require Import List ZArith.
From Verif.Model Require Import Base StepText Stl.
Open Scope Z_scope.

Definition byte (b : Z) : Prop := 0 <= b < 256.
(** a 32-bit pattern *)
Definition pattern (x : Z) : Prop := 0 <= x < 2 ^ 32.
Definition pattern3 (p : coord3) : Prop := let '(x, y, z) := p in pattern x /\ pattern y /\ pattern z.
Definition pattern_triangle (t : stl_triangle) : Prop := let '(p1, p2, p3) := t in pattern3 p1 /\ pattern3 p2 /\ pattern3 p3.

(** the text of a number: digits, signs, point and exponent *)
Definition number_char (c : ascii) : Prop := In c (tx "0123456789+-.eE").
Definition number_text (t : text) : Prop := t <> nil /\ Forall number_char t.
(** p occurs in s *)
Definition occurs (p s : text) : Prop := exists a b, s = (a ++ p ++ b)%list.
Definition spaces (n : nat) : text := repeat " "%char n.
Definition LF : ascii := Ascii.ascii_of_nat 10.
(** a vertex line: any number of spaces before the keyword, at least one before each coordinate *)
Definition vertex_line (p : text_point) (l : text) : Prop :=
  let '(x, y, z) := p in
  exists a b c d, l = (spaces a ++ tx "vertex" ++ spaces (S b) ++ x ++ spaces (S c) ++ y ++ spaces (S d) ++ z ++ (LF :: nil))%list.
(** any other line, without the words that the reader looks for *)
Definition other_line (l : text) : Prop := ~ occurs (tx "vertex") l /\ ~ occurs (tx "endfacet") l.
Definition end_line (l : text) : Prop := ~ occurs (tx "vertex") l /\ occurs (tx "endfacet") l.
Definition number_point (p : text_point) : Prop := let '(x, y, z) := p in number_text x /\ number_text y /\ number_text z.
(** the lines of a file that describes the triangles ts *)
Inductive describes : list text_triangle -> list text -> Prop :=
| D_nil ls : Forall other_line ls -> describes nil ls
| D_facet p1 p2 p3 ts o1 o2 o3 o4 l1 l2 l3 l4 ls :
    number_point p1 -> number_point p2 -> number_point p3 ->
    Forall other_line o1 -> vertex_line p1 l1 -> Forall other_line o2 -> vertex_line p2 l2 -> Forall other_line o3 ->
    vertex_line p3 l3 -> Forall other_line o4 -> end_line l4 -> describes ts ls ->
    describes ((p1, p2, p3) :: ts) (o1 ++ l1 :: o2 ++ l2 :: o3 ++ l3 :: o4 ++ l4 :: ls).
