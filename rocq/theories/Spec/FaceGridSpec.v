(** Grids of points in faces. *)
From Coq Require Import List Bool Arith.
From Verif.Model Require Import Base FaceGrid.
Import ListNotations.
Open Scope nat_scope.

(** a strict order in which incomparable elements are equivalent, as that of numbers *)
Record number_order {T} (lt : T -> T -> bool) : Prop := {
  order_trans : forall a b c, lt a b = true -> lt b c = true -> lt a c = true;
  order_neg : forall a b c, lt a b = false -> lt b c = false -> lt a c = false;
  order_irrefl : forall a, lt a a = false }.
Definition ascending {T} (lt : T -> T -> bool) (x : list T) : Prop :=
  forall i j a b, i <= j -> nth_error x i = Some a -> nth_error x j = Some b -> lt b a = false.
Definition between {T} (lt : T -> T -> bool) (lo hi a : T) : Prop := lt a lo = false /\ lt hi a = false.
(** the points of the polygon are in its bounding rectangle *)
Definition in_bounds {T} (lt : T -> T -> bool) (r : @region T) : Prop :=
  forall p, belongs r p = true -> between lt (x_min r) (x_max r) (fst p) /\ between lt (y_min r) (y_max r) (snd p).
(** the dictionary gives the number of each node, and every point is a node *)
Definition faithful_index {T} (points : list (T * T)) (u v : list T) (index : nat * nat -> option nat) : Prop :=
  (forall i j k, index (i, j) = Some k -> exists a b, nth_error u i = Some a /\ nth_error v j = Some b /\ nth_error points k = Some (a, b)) /\
  (forall k, k < length points -> exists i j, index (i, j) = Some k).
Definition outside {T} (holes : list (@region T)) (p : T * T) : bool := forallb (fun r => negb (belongs r p)) holes.
