(** What a BSplineCurve object denotes: the textbook curve of its data. *)
From Verif.Model Require Import RBase Nurbs.
From Verif.Spec Require Import NurbsSpec.
Open Scope R_scope.

(** A well-formed curve: valid knot vector, points of one dimension, as many positive weights as points. *)
Definition valid_curve (c : bcurve) : Prop :=
  valid_kv (bc_degree c) (length (bc_ctrlpts c)) (knotvector c) /\
  (forall P, In P (bc_ctrlpts c) -> length P = cdim c) /\
  match bc_weights c with
  | Some w => length w = length (bc_ctrlpts c) /\ forall x, In x w -> 0 < x
  | None => True
  end.
(** The parameters of its domain [U_p, U_n]. *)
Definition in_domain (c : bcurve) (u : R) : Prop :=
  nth (bc_degree c) (knotvector c) 0 <= u <= nth (length (bc_ctrlpts c)) (knotvector c) 0.
(** Coordinate j of the point of parameter u. *)
Definition curve_at (c : bcurve) (j : nat) (u : R) : R :=
  match bc_weights c with
  | Some w => nurbs_coord (bc_degree c) (knotvector c) (bc_ctrlpts c) w j u
  | None => bspline_coord (bc_degree c) (knotvector c) (bc_ctrlpts c) j u
  end.
Definition curve_point (c : bcurve) (u : R) : point := map (fun j => curve_at c j u) (seq 0 (cdim c)).
(** The constructor normalises the knots: the first one is 0, the last one 1. *)
Definition normalized (c : bcurve) : Prop := nth 0 (knotvector c) 0 = 0 /\ last (knotvector c) 0 = 1.
(** Knots that differ, and the parameter u, are told apart by the tolerance 1e-15 of find_multiplicity. *)
Definition distinguishable (c : bcurve) (u : R) : Prop := separated (/ 10 ^ 15) (u :: knotvector c).
(** c1 and c2 are the parts of c before and after u, each reparametrised to [0, 1]. *)
Definition split_ok (c c1 c2 : bcurve) (u : R) : Prop :=
  valid_curve c1 /\ valid_curve c2 /\ normalized c1 /\ normalized c2 /\
  bc_degree c1 = bc_degree c /\ bc_degree c2 = bc_degree c /\ cdim c1 = cdim c /\ cdim c2 = cdim c /\
  (forall x, in_domain c x -> x <= u -> in_domain c1 (x / u) /\ curve_point c1 (x / u) = curve_point c x) /\
  (forall x, in_domain c x -> u <= x -> in_domain c2 ((x - u) / (1 - u)) /\ curve_point c2 ((x - u) / (1 - u)) = curve_point c x).

