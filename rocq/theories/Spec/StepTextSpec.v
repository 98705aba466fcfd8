(** Grammar of the STEP argument texts the splitting properties range over. *)
From Verif.Model Require Import StepText.
Open Scope char_scope.
(** Text between quotes: no quote, parentheses matched. *)
Inductive quotable : text -> Prop :=
| quotable_nil : quotable []
| quotable_char c s : c <> "(" -> c <> ")" -> c <> "'" -> quotable s -> quotable (c :: s)
| quotable_paren a s : quotable a -> quotable s -> quotable ("(" :: a ++ ")" :: s)%list.
(** Text between parentheses. *)
Inductive inner : text -> Prop :=
| inner_nil : inner []
| inner_char c s : c <> "(" -> c <> ")" -> c <> "'" -> inner s -> inner (c :: s)
| inner_quote q s : quotable q -> inner s -> inner ("'" :: q ++ "'" :: s)%list
| inner_paren a s : inner a -> inner s -> inner ("(" :: a ++ ")" :: s)%list.
(** An argument: commas only between quotes or parentheses. *)
Inductive argument_text : text -> Prop :=
| arg_nil : argument_text []
| arg_char c s : c <> "(" -> c <> ")" -> c <> "'" -> c <> "," -> argument_text s -> argument_text (c :: s)
| arg_quote q s : quotable q -> argument_text s -> argument_text ("'" :: q ++ "'" :: s)%list
| arg_paren a s : inner a -> argument_text s -> argument_text ("(" :: a ++ ")" :: s)%list.
(** Removal of the spaces that are not between quotes. *)
Fixpoint despace (quoted : bool) (s : text) : text :=
  match s with
  | [] => []
  | c :: r => if Ascii.eqb c "'" then c :: despace (negb quoted) r
              else if negb quoted && Ascii.eqb c " " then despace quoted r else c :: despace quoted r
  end.
(** Blanks other than the space character do not occur. *)
Definition only_spaces (s : text) : Prop := Forall (fun c => is_space c = true -> c = " ") s.
