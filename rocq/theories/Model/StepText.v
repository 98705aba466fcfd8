(** Model of the text handling of /repo/volmdlr/utils/step_reader.py and step_writer.py.
    A Python str is a list of characters; only 8-bit characters are modelled (STEP files are read as ISO-8859-1). *)
From Coq Require Export Ascii String.
From Coq Require Import DecimalString.
From Verif.Model Require Export Base.
Open Scope Z_scope.

Definition text := list ascii.
Definition tx (s : string) : text := list_ascii_of_string s.
Definition str_of (t : text) : string := string_of_list_ascii t.

(** str(i) and f"{i}" of an int, and int(s) of a decimal string with an optional sign (the underscores, spaces and plus sign
    that Python's int accepts are left out: such a text gives ValueError here). *)
Definition dec (i : Z) : text := tx (NilZero.string_of_int (Z.to_int i)).
Definition int_of (t : text) : res Z :=
  match NilZero.int_of_string (str_of t) with Some d => Ok (Z.of_int d) | None => Err ValueError end.

(** str.isspace for 8-bit characters, used by str.strip(). *)
Definition is_space (c : ascii) : bool :=
  let n := nat_of_ascii c in
  ((9 <=? n) && (n <=? 13) || (28 <=? n) && (n <=? 32) || (n =? 133) || (n =? 160))%nat.
Fixpoint lstrip (f : ascii -> bool) (s : text) : text :=
  match s with c :: r => if f c then lstrip f r else s | [] => [] end.
Definition strip (f : ascii -> bool) (s : text) : text := rev (lstrip f (rev (lstrip f s))).

(** s.split(c): at least one piece. *)
Fixpoint split_on (c : ascii) (s : text) : list text :=
  match s with
  | [] => [[]]
  | a :: r =>
    if (a =? c)%char then [] :: split_on c r
    else match split_on c r with p :: ps => (a :: p) :: ps | [] => [[a]] end
  end.
(** c.join(l) *)
Fixpoint join (c : text) (l : list text) : text :=
  match l with [] => [] | [a] => a | a :: r => (a ++ c ++ join c r)%list end.

(** step_writer.py l.96-106 step_ids_to_str *)
Definition step_ids_to_str (ids : list Z) : text := join (tx ",") (map (fun i => ("#"%char :: dec i)) ids).

(** l[0] = l[0][1:] and l[-1] = l[-1][:-1]. *)
Definition cut_first (l : list text) : list text := match l with a :: r => tl a :: r | [] => [] end.
Fixpoint cut_last (l : list text) : list text :=
  match l with [] => [] | [a] => [removelast a] | a :: r => a :: cut_last r end.
(** step_reader.py l.12-24 set_to_list *)
Definition set_to_list (s : text) : list text := cut_last (cut_first (split_on "," s)).

(** step_reader.py l.115-147: the loop of step_split_arguments_special. *)
Fixpoint scan (s : text) (parenthesis : Z) (is_str : bool) (argument : text) (arguments : list text) : list text :=
  match s with
  | [] => arguments
  | c :: r =>
    let parenthesis := if (c =? "(")%char then parenthesis + 1 else parenthesis in
    let is_str := if (c =? "'")%char then negb is_str else is_str in
    if negb is_str && (c =? " ")%char then scan r parenthesis is_str argument arguments
    else
      let '(argument, arguments) :=
        if (1 <? parenthesis) || is_str then ((argument ++ [c])%list, arguments)
        else if negb (c =? ",")%char then ((argument ++ [c])%list, arguments)
        else ([], (arguments ++ [argument])%list) in
      if (c =? ")")%char then
        let parenthesis := parenthesis - 1 in
        if parenthesis =? 0 then (arguments ++ [removelast argument])%list else scan r parenthesis is_str argument arguments
      else scan r parenthesis is_str argument arguments
  end.
(** step_reader.py l.107-148 step_split_arguments_special *)
Definition step_split_arguments_special (function_arg : text) : list text :=
  let f := strip is_space function_arg in
  let f := if negb (List.length f =? 0)%nat && negb (last f " " =? ")")%char then (f ++ tx ")")%list else f in
  let f := match f with c :: _ => if (c =? "(")%char then (f ++ tx ")")%list else f | [] => f end in
  scan f 1 false [] [].
