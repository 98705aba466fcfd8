(** The lines of an exported file. *)
From Verif.Model Require Import StepText StepWrite.
From Verif.Spec Require Import StepFileSpec.
From Coq Require Import List String Ascii ZArith Bool.
Import ListNotations.
Open Scope list_scope.

(** cut a text at each newline *)
Fixpoint lines (t : text) : list text :=
  match t with
  | [] => [[]]
  | c :: r => if Ascii.eqb c (ascii_of_nat 10) then [] :: lines r
              else match lines r with l :: ls => (c :: l) :: ls | [] => [[c]] end
  end.
Definition one_line (t : text) : Prop := ~ In (ascii_of_nat 10) t.
(** the statement of an entity: #12 = KEYWORD(...); *)
Definition statement (e : entity) : text :=
  "#"%char :: dec (e_id e) ++ tx " = " ++ flat_map render_piece (e_body e) ++ tx ";".
(** the word is in the text of the entity *)
Definition says (e : entity) (word : string) : Prop := exists a b, In (Lit (a ++ word ++ b)%string) (e_body e).
