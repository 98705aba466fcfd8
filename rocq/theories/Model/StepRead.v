(** Reading STEP files: the order in which the entities are made and the loop that makes them.
    /repo/volmdlr/step.py. *)
From Coq Require Import List ZArith Bool.
From Verif.Model Require Import Base.
Import ListNotations.
Open Scope Z_scope.

(** An entity of the file: whether its name is in STEP_TO_VOLMDLR, and self.connections of its id *)
Record sfunction := SFun { f_known : bool; f_connections : list Z }.
(** self.functions and self.connections, dictionaries with the same keys *)
Definition step_file := list (Z * sfunction).
Fixpoint find_function (file : step_file) (i : Z) : option sfunction :=
  match file with [] => None | (j, f) :: file => if j =? i then Some f else find_function file i end.
Definition memz (x : Z) (l : list Z) : bool := existsb (Z.eqb x) l.

(** l.407-433 create_node_list, the loop over the stack; [fuel] bounds the number of iterations *)
Fixpoint node_loop (file : step_file) (fuel : nat) (stack visited_set list_head list_nodes : list Z) : res (list Z) :=
  match fuel with
  | O => Err OutOfFuel
  | S fuel =>
      match stack with
      | [] => Ok (list_head ++ rev list_nodes)
      | node :: stack =>
          match find_function file node with
          | None => Err KeyError
          | Some f =>
              if negb (memz node visited_set) && f_known f then
                let visited_set := node :: visited_set in
                match f_connections f with
                | [] => node_loop file fuel stack visited_set (list_head ++ [node]) list_nodes
                | c => node_loop file fuel (stack ++ filter (fun x => negb (memz x visited_set)) c) visited_set list_head (list_nodes ++ [node])
                end
              else node_loop file fuel stack visited_set list_head list_nodes
          end
      end
  end.
Definition create_node_list (file : step_file) (fuel : nat) (initial_nodes : list Z) : res (list Z) :=
  node_loop file fuel initial_nodes [] [] [].

(** l.382-405 instantiate: [deps i] are the ids that the construction of entity i looks up in object_dict, in order (None: the
    file has no entity i); [make i vs] is the object made from the objects found, or the ValueError of l.401-404. *)
Definition objects V := Z -> option V.
Definition set_object {V} (o : objects V) (i : Z) (v : V) : objects V := fun j => if j =? i then Some v else o j.
Fixpoint look_up {V} (o : objects V) (ds : list Z) : Z + list V :=
  match ds with
  | [] => inr []
  | d :: ds => match o d with
               | None => inl d
               | Some v => match look_up o ds with inl d => inl d | inr vs => inr (v :: vs) end
               end
  end.
(** l.794-823 _helper_instantiate: one run of the for loop; [ids] is instantiate_ids[::-1] *)
Inductive outcome := Done | Missing (key : Z) | Failed (e : exn).
Fixpoint pass {V} (deps : Z -> option (list Z)) (make : Z -> list V -> res V) (ids : list Z) (o : objects V) : objects V * outcome :=
  match ids with
  | [] => (o, Done)
  | i :: ids =>
      match deps i with
      | None => (o, Missing i)
      | Some ds => match look_up o ds with
                   | inl d => (o, Missing d)
                   | inr vs => match make i vs with Ok v => pass deps make ids (set_object o i v) | Err e => (o, Failed e) end
                   end
      end
  end.
Fixpoint instantiate_loop {V} (deps : Z -> option (list Z)) (make : Z -> list V -> res V) (fuel : nat) (ids : list Z) (o : objects V) : res (objects V) :=
  match fuel with
  | O => Err OutOfFuel
  | S fuel => match pass deps make ids o with
              | (o, Done) => Ok o
              | (o, Missing key) => instantiate_loop deps make fuel (key :: ids) o
              | (_, Failed e) => Err e
              end
  end.
Definition helper_instantiate {V} deps (make : Z -> list V -> res V) (fuel : nat) (node : Z) (o : objects V) : res (objects V) :=
  instantiate_loop deps make fuel [node] o.
(** l.762-766 the loop of to_volume_model over the list of nodes *)
Fixpoint instantiate_all {V} deps (make : Z -> list V -> res V) (fuel : nat) (nodes : list Z) (o : objects V) : res (objects V) :=
  match nodes with
  | [] => Ok o
  | node :: nodes => do o <- helper_instantiate deps make fuel node o; instantiate_all deps make fuel nodes o
  end.
