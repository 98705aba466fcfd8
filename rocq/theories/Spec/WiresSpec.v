(** What a wire is, for any kind of edges. *)
From Coq Require Import Reals List Permutation.
From Verif.Model Require Import Base RBase Vec Edges Wires.
Import ListNotations.
Open Scope R_scope.

(** what the operations on the edges are expected to do *)
Record api_ok (K : edge_api) : Prop := {
  rev_start : forall e, e_start K (e_rev K e) = e_end K e;
  rev_end : forall e, e_end K (e_rev K e) = e_start K e;
  rev_rev : forall e, e_rev K (e_rev K e) = e;
  rev_length : forall e, e_length K (e_rev K e) = e_length K e;
  length_pos : forall e, 0 <= e_length K e;
  dist_pos : forall p q, 0 <= p_dist K p q;
  dist_self : forall p, p_dist K p p = 0;
  dist_sym : forall p q, p_dist K p q = p_dist K q p;
  dist_tri : forall p q r, p_dist K p r <= p_dist K p q + p_dist K q r;
  close_spec : forall p q t, 0 <= t -> (p_close K p q t = true <-> p_dist K p q <= t) }.

Section Spec.
Context (K : edge_api).
Notation E := (edge K).
Notation P := (pt K).
(** each edge starts within tol of the end of the one before *)
Definition joined (tol : R) (w : list E) : Prop :=
  forall w1 e f w2, w = w1 ++ e :: f :: w2 -> p_dist K (e_end K e) (e_start K f) <= tol.
(** the last edge ends within tol of the start of the first one *)
Definition closes (tol : R) (w : list E) : Prop :=
  forall e f w', w = e :: w' -> f = last w e -> p_dist K (e_end K f) (e_start K e) <= tol.
(** w has the edges of l, each once, in any order, possibly reversed *)
Definition same_edges (l w : list E) : Prop :=
  exists l', Permutation l l' /\ Forall2 (fun a b => b = a \/ b = e_rev K a) l' w.
(** the ends of the edges, with multiplicity, and how many of them are within tol of p *)
Definition ends (l : list E) : list P := flat_map (fun e => [e_start K e; e_end K e]) l.
Definition has_degree (tol : R) (l : list E) (p : P) (n : nat) : Prop :=
  exists near far, Permutation (ends l) (near ++ far) /\ length near = n /\
    (forall q, In q near -> p_dist K p q <= tol) /\ (forall q, In q far -> tol < p_dist K p q).
(** however the edges are put in two groups, an edge of one touches an edge of the other *)
Definition connected (tol : R) (l : list E) : Prop :=
  forall A B, A <> [] -> B <> [] -> Permutation l (A ++ B) ->
    exists p q, In p (ends A) /\ In q (ends B) /\ p_dist K p q <= tol.
(** being within tol is transitive on these points *)
Definition clustered (tol : R) (l : list P) : Prop :=
  forall p q r, In p l -> In q l -> In r l -> p_dist K p q <= tol -> p_dist K q r <= tol -> p_dist K p r <= tol.
(** an edge touches a point *)
Definition touches (tol : R) (e : E) (p : P) : Prop := p_dist K (e_start K e) p <= tol \/ p_dist K (e_end K e) p <= tol.
(** the total length *)
Definition total (w : list E) : R := fold_right (fun e l => e_length K e + l) 0 w.
End Spec.
(** what abscissas measure on an edge that is not reduced to a point: from its start to its end, and two points are not further apart than
    their abscissas *)
Definition api_measures (K : edge_api) : Prop := forall e, 0 < e_length K e ->
  e_at K e 0 = Ok (e_start K e) /\ e_at K e (e_length K e) = Ok (e_end K e) /\
  forall a b, 0 <= a <= e_length K e -> 0 <= b <= e_length K e ->
    exists p q, e_at K e a = Ok p /\ e_at K e b = Ok q /\ p_dist K p q <= Rabs (a - b).
(** an edge that is the same as another, in any direction, has the same ends within 1e-6 *)
Definition api_same (K : edge_api) : Prop := forall e f, e_same K e f = true <->
  (p_dist K (e_start K e) (e_start K f) <= / 10 ^ 6 /\ p_dist K (e_end K e) (e_end K f) <= / 10 ^ 6) \/
  (p_dist K (e_end K e) (e_start K f) <= / 10 ^ 6 /\ p_dist K (e_start K e) (e_end K f) <= / 10 ^ 6).
