(** The STEP statements the reading properties range over. *)
From Coq Require Import List ZArith.
From Verif.Model Require Import StepText StepLex.
Import ListNotations.
Open Scope char_scope.

(** a character of a number, a keyword or an enumeration: no separator, quote or blank *)
Definition plain_char (c : ascii) : Prop :=
  c <> "," /\ c <> "(" /\ c <> ")" /\ c <> "'" /\ c <> "#" /\ c <> ";" /\ is_space c = false.
Definition plain (t : text) : Prop := t <> [] /\ Forall plain_char t.
(** an item: a token or a reference to an entity *)
Inductive item := Tok (t : text) | Rf (i : Z).
Definition item_text (a : item) : text := match a with Tok t => t | Rf i => "#" :: dec i end.
Definition item_ok (a : item) : Prop := match a with Tok t => plain t | Rf _ => True end.
Definition item_refs (a : item) : list Z := match a with Tok _ => [] | Rf i => [i] end.
(** an argument: an item, a quoted string, a list of tokens, a list of references, a list of lists *)
Inductive sarg := One (a : item) | Quo (q : text) | Toks (l : list text) | Refs (l : list Z) | Table (l : list (list item)).
Definition paren (t : text) : text := "(" :: t ++ [")"].
Definition commas (l : list text) : text := join (tx ",") l.
Definition arg_text (a : sarg) : text :=
  match a with
  | One a => item_text a
  | Quo q => "'" :: q ++ ["'"]
  | Toks l => paren (commas l)
  | Refs l => paren (commas (map (fun i => "#" :: dec i) l))
  | Table l => paren (commas (map (fun r => paren (commas (map item_text r))) l))
  end.
Definition arg_ok (a : sarg) : Prop :=
  match a with
  | One a => item_ok a
  | Quo q => Forall plain_char q
  | Toks l => Forall plain l
  | Refs l => l <> []
  | Table l => l <> [] /\ Forall (fun r => r <> [] /\ Forall item_ok r) l
  end.
Definition is_table (a : sarg) : Prop := match a with Table _ => True | _ => False end.
Definition is_quoted (a : sarg) : Prop := match a with Quo _ => True | _ => False end.
(** at most one argument is a list of lists, and no quoted string comes before it *)
Definition args_ok (l : list sarg) : Prop :=
  l <> [] /\ Forall arg_ok l /\
  ((forall a, In a l -> ~ is_table a) \/
   exists pre t post, l = (pre ++ t :: post)%list /\ is_table t /\ (forall a, In a pre -> ~ is_table a /\ ~ is_quoted a) /\ (forall a, In a post -> ~ is_table a)).
(** what reading gives for an argument, and the references in it *)
Definition arg_read (a : sarg) : argument :=
  match a with Refs l => ArgList (map (fun i => "#" :: dec i) l) | _ => Arg (arg_text a) end.
Definition arg_refs (a : sarg) : list Z :=
  match a with One a => item_refs a | Refs l => l | Table l => concat (map (fun r => concat (map item_refs r)) l) | _ => [] end.
Definition list_refs (a : sarg) : list Z := match a with Refs l => l | _ => [] end.

(** the text of a statement; [b1] and [b2] are the blanks around the equality sign *)
Definition blanks (b : text) : Prop := Forall (fun c => c = " ") b.
Definition keyword (n : text) : Prop := n <> [] /\ Forall (fun c => c <> "(" /\ c <> " ") n.
Definition statement (id : Z) (b1 b2 name args : text) : text :=
  ("#" :: dec id ++ b1 ++ "=" :: b2 ++ name ++ "(" :: args ++ [")"; ";"])%list.
(** one part of a complex entity *)
Definition sub_text (p : text * list sarg) : text := (fst p ++ paren (commas (map arg_text (snd p))))%list.

(** the lines [ls] are the statement s, ended by a semicolon, cut in lines none of which but the last ends with a semicolon *)
Definition clean (line : text) : text := drop_char (ascii_of_nat 10) line.
Definition cut_in_lines (s : text) (ls : list text) : Prop :=
  exists before final, ls = (before ++ [final])%list /\ s = (concat (map clean before) ++ clean final)%list /\
    (forall x, In x before -> last_is ";" (clean x) = false) /\ last_is ";" (clean final) = true.
Definition starts_hash (s : text) : bool := match s with c :: _ => Ascii.eqb c "#" | [] => false end.
(** a statement whose first argument is a quoted string followed by others is taken as labelled *)
Definition unquoted_first (args : list sarg) : Prop := match args with a :: _ :: _ => ~ is_quoted a | _ => True end.
(** complex entities: parts with a name and arguments, possibly none *)
Definition part_ok (p : text * list sarg) : Prop := keyword (fst p) /\ ~ In ")" (fst p) /\ (snd p = [] \/ args_ok (snd p)).
Definition complex_statement (id : Z) (b1 b2 : text) (parts : list (text * list sarg)) : text :=
  ("#" :: dec id ++ b1 ++ "=" :: b2 ++ "(" :: flat_map sub_text parts ++ [")"; ";"])%list.
Definition direct_refs (a : sarg) : list Z := match a with One a => item_refs a | _ => [] end.
