(** What the theorems on assemblies and volume models say. *)
From Coq Require Import List ZArith Reals.
From Verif.Model Require Import Base RBase Vec Frame BBox Containers.
From Verif.Spec Require Import FrameSpec.
Import ListNotations.
Open Scope R_scope.

(** [f] puts what is drawn in the frame [i] at the same place of the frame [j] *)
Definition carries (f i j : frame3) : Prop := forall v, frame_point f (frame_point i v) = frame_point j v.
(** the three vectors of a basis are not in one plane *)
Definition independent (b : basis3) : Prop := dot3 (cross3 (bu b) (bv b)) (bw b) <> 0.
(** moving a point, as a primitive of an assembly *)
Definition point_mapping (p : vec3) (f : frame3) : res vec3 := Ok (frame3_l2g f p).
Definition no_frame (p : vec3) (f : frame3) : bool := false.
(** the shells of a list of parts, in the order of a reading of the tree *)
Inductive shells_of {A} : list (part A) -> list A -> Prop :=
| so_nil : shells_of [] []
| so_shell a l r : shells_of l r -> shells_of (Leaf a true :: l) (a :: r)
| so_other a l r : shells_of l r -> shells_of (Leaf a false :: l) r
| so_group g l r s : shells_of g r -> shells_of l s -> shells_of (Grp g :: l) (r ++ s).
(** one after another, the results of [f] *)
Definition all_results {A B} (f : A -> res B) (l : list A) (r : list B) : Prop := Forall2 (fun a b => f a = Ok b) l r.
(** a series of calls of the property bounding_box: the answers *)
Fixpoint gets (compute : list member -> res bbox) (n : nat) (s : cached) : res (list bbox) :=
  match n with O => Ok [] | S n => do (b, s) <- get_bounding_box compute s; do r <- gets compute n s; Ok (b :: r) end.
