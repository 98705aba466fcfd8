(** Reading the text of STEP files: /repo/volmdlr/step.py l.141-232, 327-362 and utils/step_reader.py l.42-104.
    The escapes \X2\...\X0\ (step.py l.147-149, 175-176) are not modelled: the file has none. *)
From Coq Require Import List ZArith.
From Verif.Model Require Import StepText.
Import ListNotations.
Open Scope char_scope.

Definition drop_char (c : ascii) (s : text) : text := filter (fun a => negb (Ascii.eqb a c)) s.
Definition last_is (c : ascii) (s : text) : bool := match rev s with a :: _ => Ascii.eqb a c | [] => false end.

(** step.py l.150-173: the statements of the file, from its lines; [previous] is previous_line *)
Fixpoint statements (lines : list text) (previous : text) : list text :=
  match lines with
  | [] => []
  | line :: lines =>
      match drop_char (ascii_of_nat 10) line with
      | [] => statements lines previous
      | line =>
          if negb (last_is ";" line) then statements lines (previous ++ line)
          else match (previous ++ line)%list with
               | c :: s => if Ascii.eqb c "#" then (c :: s) :: statements lines [] else statements lines []
               | [] => statements lines []
               end
      end
  end.

(** s.split(c, 1), or IndexError when the second part is taken and there is none *)
Fixpoint cut_at (c : ascii) (s : text) : res (text * text) :=
  match s with
  | [] => Err IndexError
  | a :: s => if Ascii.eqb a c then Ok ([], s) else do r <- cut_at c s; Ok (a :: fst r, snd r)
  end.
(** int(s): blanks around the number are accepted *)
Definition to_int (s : text) : res Z := int_of (strip is_space s).

(** step_reader.py l.42-55. [quote_comma s]: s cut after the quote of the first "'," of s *)
Fixpoint quote_comma (s : text) : option (text * text) :=
  match s with
  | [] => None
  | a :: s' =>
      match s' with
      | b :: _ => if Ascii.eqb a "'" && Ascii.eqb b "," then Some ([a], s')
                  else match quote_comma s' with Some (x, y) => Some (a :: x, y) | None => None end
      | [] => None
      end
  end.
Definition separate_entity_name_and_arguments (input : text) : res (text * text) :=
  match strip is_space input with
  | [] => Err IndexError
  | c :: s => if Ascii.eqb c "'" then
                match quote_comma s with Some (x, y) => Ok (c :: x, y) | None => Ok ([], c :: s) end
              else Ok ([], c :: s)
  end.

(** the longest prefix of characters that satisfy p *)
Fixpoint span (p : ascii -> bool) (s : text) : text * text :=
  match s with
  | a :: s' => if p a then let '(x, y) := span p s' in (a :: x, y) else ([], s)
  | [] => ([], [])
  end.
Definition isnt (c a : ascii) : bool := negb (Ascii.eqb a c).
(** a match of '[^']*[^,]*', at the opening quote, of which [s] is the rest: the quote that follows must be there, then the next comma,
    and the character before that comma must be a quote. The matched text and what follows it. *)
Definition quoted_match (s : text) : option (text * text) :=
  let '(q, r) := span (isnt "'") s in
  match r with
  | [] => None
  | _ => let '(u, r') := span (isnt ",") r in
         match r' with
         | comma :: r'' => if last_is "'" u then Some ("'" :: q ++ u ++ [comma], r'') else None
         | [] => None
         end
  end.
(** re.findall(r"\([^()]*\)|'[^']*[^,]*',|[^,]+", s); [fuel]: the number of characters of s *)
Fixpoint find_arguments (fuel : nat) (s : text) : list text :=
  match fuel, s with
  | O, _ | _, [] => []
  | S fuel, c :: s' =>
      let other := let '(x, y) := span (isnt ",") s in
                   match x with [] => find_arguments fuel s' | _ => x :: find_arguments fuel y end in
      if Ascii.eqb c "(" then
        match span (fun a => isnt "(" a && isnt ")" a) s' with
        | (b, d :: r) => if Ascii.eqb d ")" then (c :: b ++ [d]) :: find_arguments fuel r else other
        | _ => other
        end
      else if Ascii.eqb c "'" then
        match quoted_match s' with Some (x, r) => x :: find_arguments fuel r | None => other end
      else other
  end.
Definition findall (s : text) : list text := find_arguments (List.length s) s.
(** re.findall(r"'[^']*[^,]*',", s) *)
Fixpoint find_quoted (fuel : nat) (s : text) : list text :=
  match fuel, s with
  | O, _ | _, [] => []
  | S fuel, c :: s' =>
      if Ascii.eqb c "'" then
        match quoted_match s' with Some (x, r) => x :: find_quoted fuel r | None => find_quoted fuel s' end
      else find_quoted fuel s'
  end.
(** s.replace(old, new), old not empty *)
Fixpoint starts_with (p s : text) : bool :=
  match p, s with [], _ => true | a :: p, b :: s => Ascii.eqb a b && starts_with p s | _, [] => false end.
Fixpoint replace_all (fuel : nat) (old new s : text) : text :=
  match fuel, s with
  | O, _ | _, [] => s
  | S fuel, c :: s' => if starts_with old s then (new ++ replace_all fuel old new (skipn (List.length old) s))%list
                       else c :: replace_all fuel old new s'
  end.
(** step_reader.py l.96-104 *)
Definition remove_spaces_outside_quotes (s : text) : text :=
  fold_left (fun result q => replace_all (List.length result) (drop_char " " q) q result) (find_quoted (List.length s) s) (drop_char " " s).
(** positions of the non overlapping occurrences of the two characters c c *)
Fixpoint doubles (c : ascii) (s : text) (i : nat) : list nat :=
  match s with
  | a :: s' => match s' with
               | b :: s'' => if Ascii.eqb a c && Ascii.eqb b c then i :: doubles c s'' (S (S i)) else doubles c s' (S i)
               | [] => []
               end
  | [] => []
  end.
Definition slice (a b : nat) (s : text) : text := firstn (b - a) (skipn a s).
(** l.78-86; [ends] are the positions after the occurrences of "))" *)
Fixpoint nested_loop (s : text) (starts ends : list nat) (from : nat) (arguments : list text) : list text :=
  match starts, ends with
  | a :: starts, b :: ends => nested_loop s starts ends b (arguments ++ findall (slice from a s) ++ [slice a b s])%list
  | _, _ => (arguments ++ map (strip (Ascii.eqb ",")) (findall (skipn from s)))%list
  end.
(** l.58-93 *)
Definition step_split_arguments (entity_name : text) (function_arg : text) : list text :=
  let arguments := match entity_name with [] => [] | _ => [entity_name] end in
  let f := remove_spaces_outside_quotes function_arg in
  match f with
  | [] => []
  | _ =>
      let f := if last_is ";" f then removelast (removelast f) else f in
      match doubles "(" f 0 with
      | [] => (arguments ++ map (strip (Ascii.eqb ",")) (findall f))%list
      | starts => nested_loop f starts (map (fun i => S (S i)) (doubles ")" f 0)) 0 arguments
      end
  end.

(** step.py l.327-362 step_subfunctions: the names and the texts of the arguments *)
Fixpoint sub_scan (s : text) (count : Z) (name arg : text) (names args : list text) : list text * list text :=
  match s with
  | [] => (names, args)
  | c :: s =>
      if Ascii.eqb c "(" then
        let count := (count + 1)%Z in
        if (count =? 1)%Z then sub_scan s count [] arg (names ++ [name])%list args else sub_scan s count name (arg ++ [c])%list names args
      else if Ascii.eqb c ")" then
        let count := (count - 1)%Z in
        if (count =? 0)%Z then sub_scan s count name [] names (args ++ [arg])%list else sub_scan s count name (arg ++ [c])%list names args
      else if (count =? 0)%Z then sub_scan s count (name ++ [c])%list arg names args
      else sub_scan s count name (arg ++ [c])%list names args
  end.
(** (names[i], arguments of args[i]) for i in range(len(names)) *)
Fixpoint pair_up (names args : list text) : res (list (text * list text)) :=
  match names, args with
  | [], _ => Ok []
  | n :: names, a :: args => do r <- pair_up names args; Ok ((n, step_split_arguments [] a) :: r)
  | _ :: _, [] => Err IndexError
  end.
Definition step_subfunctions (s : text) : res (list (text * list text)) :=
  let '(names, args) := sub_scan (drop_char " " s) 0 [] [] [] [] in pair_up names args.

(** an argument of a function: a text, or the list made by set_to_list *)
Inductive argument := Arg (t : text) | ArgList (l : list text).
Record function := Function { fun_id : Z; fun_name : text; fun_args : list argument; fun_connections : list Z }.

Fixpoint mapM_ {A B} (f : A -> res B) (l : list A) : res (list B) :=
  match l with [] => Ok [] | a :: l => do b <- f a; do bs <- mapM_ f l; Ok (b :: bs) end.
(** l.190-198: the connections of a named function *)
Definition connection (piece : text) : res (list Z) :=
  let p := hd [] (split_on ")" (hd [] (split_on "," piece))) in
  match rev p with
  | [] => Err IndexError
  | c :: _ => if Ascii.eqb c "'" then Ok [] else do i <- to_int p; Ok [i]
  end.
Definition connections_of_text (s : text) : res (list Z) := do l <- mapM_ connection (tl (split_on "#" s)); Ok (concat l).
(** l.222-227: sets of references *)
Definition starts_ref (a : text) : bool := match a with c :: d :: _ => Ascii.eqb c "(" && Ascii.eqb d "#" | _ => false end.
Definition read_argument (a : text) : res (argument * list Z) :=
  if starts_ref a && last_is ")" a then
    let l := set_to_list a in
    do ids <- mapM_ (fun x => to_int (tl x)) l; Ok (ArgList l, ids)
  else Ok (Arg a, []).
(** l.214-218: the connections of the arguments of a complex function *)
Definition direct_connection (a : text) : res (list Z) :=
  match a with [] => Err IndexError | c :: s => if Ascii.eqb c "#" then do i <- to_int s; Ok [i] else Ok [] end.
(** l.178-232: a statement *)
Definition read_statement (s : text) : res function :=
  do f <- cut_at "=" s;
  do id <- to_int (tl (fst f));
  do na <- cut_at "(" (snd f);
  let name := drop_char " " (fst na) in
  match name with
  | [] =>
      do subs <- step_subfunctions (snd na);
      let args := concat (map snd subs) in
      do c1 <- mapM_ direct_connection args;
      do r <- mapM_ read_argument args;
      Ok (Function id (join (tx ", ") (map fst subs)) (map fst r) (concat c1 ++ concat (map snd r))%list)
  | _ =>
      do ea <- separate_entity_name_and_arguments (snd na);
      do c1 <- connections_of_text (snd ea);
      do r <- mapM_ read_argument (step_split_arguments (fst ea) (snd ea));
      Ok (Function id name (map fst r) (c1 ++ concat (map snd r))%list)
  end.
(** l.141-202 read_lines, the functions in the order of the file *)
Definition read_lines (lines : list text) : res (list function) := mapM_ read_statement (statements lines []).
