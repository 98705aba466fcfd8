(** Textbook B-splines (Piegl & Tiller, The NURBS Book, ch. 2-3), written without reference to the algorithms
    of the model. *)
From Coq Require Import Reals List.
Import ListNotations.
Open Scope R_scope.

(** x / y with the convention 0/0 = 0 used in the Cox-de Boor recursion. *)
Definition div0 (x y : R) : R := if Req_EM_T y 0 then 0 else x / y.

(** The parameter u lies in the i-th knot span of the domain whose last span is [l]: spans are half-open on the
    right, the last one is closed. *)
Definition in_span (U : nat -> R) (l : nat) (i : nat) (u : R) : Prop :=
  ((i < l)%nat /\ U i <= u < U (i + 1)%nat) \/ (i = l /\ U l <= u <= U (l + 1)%nat).

(** Degree 0: the indicator function of that span. *)
Definition span_indicator (U : nat -> R) (l : nat) (i : nat) (u : R) : R :=
  if Rle_dec (U i) u then
    if lt_dec i l then (if Rlt_dec u (U (i + 1)%nat) then 1 else 0)
    else if Nat.eq_dec i l then (if Rle_dec u (U (l + 1)%nat) then 1 else 0) else 0
  else 0.

(** Cox-de Boor: N_{i,p}(u). *)
Fixpoint coxdeboor (U : nat -> R) (l : nat) (p i : nat) (u : R) : R :=
  match p with
  | O => span_indicator U l i u
  | S q => div0 (u - U i) (U (i + p)%nat - U i) * coxdeboor U l q i u
         + div0 (U (i + p + 1)%nat - u) (U (i + p + 1)%nat - U (i + 1)%nat) * coxdeboor U l q (i + 1)%nat u
  end.

Definition Rsum (f : nat -> R) (n : nat) : R := fold_right Rplus 0 (map f (seq 0 n)).

Definition knots_of (U : list R) : nat -> R := fun i => nth i U 0.
Definition sorted_knots (U : list R) : Prop :=
  forall i j, (i <= j)%nat -> (j < length U)%nat -> nth i U 0 <= nth j U 0.

(** A knot vector of degree p for n control points: n + p + 1 non-decreasing knots, n >= p + 1, and non-empty
    first and last spans of the domain [U_p, U_n] (no interior knot coincides with an end of the domain). *)
Definition valid_kv (p n : nat) (U : list R) : Prop :=
  length U = (n + p + 1)%nat /\ (p < n)%nat /\ sorted_knots U /\ nth (n - 1) U 0 < nth n U 0.

(** The point C(u) = sum_{i<n} N_{i,p}(u) P_i, coordinate j. *)
Definition bspline_coord (p : nat) (U : list R) (P : list (list R)) (j : nat) (u : R) : R :=
  Rsum (fun i => coxdeboor (knots_of U) (length P - 1) p i u * nth j (nth i P []) 0) (length P).
(** Rational: sum N_i w_i P_i / sum N_i w_i. *)
Definition nurbs_coord (p : nat) (U : list R) (P : list (list R)) (w : list R) (j : nat) (u : R) : R :=
  Rsum (fun i => coxdeboor (knots_of U) (length P - 1) p i u * nth i w 0 * nth j (nth i P []) 0) (length P)
  / Rsum (fun i => coxdeboor (knots_of U) (length P - 1) p i u * nth i w 0) (length P).

(** Knots of a list which differ, differ by more than [eps]; [u] equals a knot or is more than [eps] away. *)
Definition separated_from (eps u : R) (U : list R) : Prop := forall k, In k U -> k = u \/ Rabs (u - k) > eps.
Definition separated (eps : R) (U : list R) : Prop := forall u, In u U -> separated_from eps u U.
(** Strictly increasing list. *)
Definition increasing (l : list R) : Prop := forall i j, (i < j)%nat -> (j < length l)%nat -> nth i l 0 < nth j l 0.
(** How many times u occurs. *)
Definition occurrences (u : R) (U : list R) : nat := count_occ Req_EM_T U u.
(** Clamped knot vector: U_0 = ... = U_p and U_n = ... = U_{n+p}, and the knot after U_p is larger. *)
Definition clamped_kv (p n : nat) (U : list R) : Prop :=
  (forall i, (i <= p)%nat -> nth i U 0 = nth p U 0) /\ (forall i, (n <= i <= n + p)%nat -> nth i U 0 = nth n U 0) /\
  nth p U 0 < nth (p + 1) U 0.
