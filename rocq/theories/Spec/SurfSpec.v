(** What a BSplineSurface3D object denotes: the textbook tensor-product surface of its data (The NURBS Book,
    (3.11) and (4.11)), written without reference to the algorithms. *)
From Verif.Model Require Import RBase Nurbs NurbsSurf.
From Verif.Spec Require Import NurbsSpec CurveSpec.
Open Scope R_scope.

(** N_{i,p}(u) for the knot vector U and n control points. *)
Definition bfun (p : nat) (U : list R) (n i : nat) (u : R) : R := coxdeboor (knots_of U) (n - 1) p i u.
(** The control point of indices i < nb_u, k < nb_v, and its weight. *)
Definition point_ik (s : bsurf) (i k : nat) : point := nth (k + bs_nv s * i) (bs_pts s) [].
Definition weight_ik (s : bsurf) (w : list R) (i k : nat) : R := nth (k + bs_nv s * i) w 0.
(** Coordinate j of S(u, v). *)
Definition surface_at (s : bsurf) (j : nat) (u v : R) : R :=
  let N i := bfun (bs_du s) (knots_vector_u s) (bs_nu s) i u in
  let M k := bfun (bs_dv s) (knots_vector_v s) (bs_nv s) k v in
  match bs_w s with
  | None => Rsum (fun i => Rsum (fun k => N i * M k * nth j (point_ik s i k) 0) (bs_nv s)) (bs_nu s)
  | Some w =>
      Rsum (fun i => Rsum (fun k => N i * M k * (weight_ik s w i k * nth j (point_ik s i k) 0)) (bs_nv s)) (bs_nu s) /
      Rsum (fun i => Rsum (fun k => N i * M k * weight_ik s w i k) (bs_nv s)) (bs_nu s)
  end.
Definition surface_point (s : bsurf) (u v : R) : point := map (fun j => surface_at s j u v) (seq 0 3).

(** A well-formed surface: valid knot vectors, nb_u * nb_v points of three coordinates, as many positive weights. *)
Definition valid_surface (s : bsurf) : Prop :=
  valid_kv (bs_du s) (bs_nu s) (knots_vector_u s) /\ valid_kv (bs_dv s) (bs_nv s) (knots_vector_v s) /\
  length (bs_pts s) = (bs_nu s * bs_nv s)%nat /\ (forall P, In P (bs_pts s) -> length P = 3%nat) /\
  match bs_w s with
  | Some w => length w = (bs_nu s * bs_nv s)%nat /\ forall x, In x w -> 0 < x
  | None => True
  end.
(** The parameters of the domain. *)
Definition in_u_domain (s : bsurf) (u : R) : Prop := nth (bs_du s) (knots_vector_u s) 0 <= u <= nth (bs_nu s) (knots_vector_u s) 0.
Definition in_v_domain (s : bsurf) (v : R) : Prop := nth (bs_dv s) (knots_vector_v s) 0 <= v <= nth (bs_nv s) (knots_vector_v s) 0.
(** What the constructor does: knots from 0 to 1 in both directions (and used at both ends). *)
Definition unit_knots (knots kv : list R) : Prop :=
  hd 0 knots = 0 /\ last knots 0 = 1 /\ nth 0 kv 0 = 0 /\ last kv 0 = 1.
Definition normalized_surface (s : bsurf) : Prop :=
  unit_knots (bs_uk s) (knots_vector_u s) /\ unit_knots (bs_vk s) (knots_vector_v s).
(** s' is the same surface as s, with the same degrees. *)
Definition same_surface (s s' : bsurf) : Prop :=
  bs_du s' = bs_du s /\ bs_dv s' = bs_dv s /\
  (forall u v, in_u_domain s u -> in_v_domain s v ->
     in_u_domain s' u /\ in_v_domain s' v /\ surface_point s' u v = surface_point s u v).
(** s1 and s2 are the parts of s before and after the parameter c of the u direction, each reparametrised to [0, 1]. *)
Definition split_u_ok (s s1 s2 : bsurf) (c : R) : Prop :=
  (forall u v, in_u_domain s u -> in_v_domain s v -> u <= c ->
     in_u_domain s1 (u / c) /\ in_v_domain s1 v /\ surface_point s1 (u / c) v = surface_point s u v) /\
  (forall u v, in_u_domain s u -> in_v_domain s v -> c <= u ->
     in_u_domain s2 ((u - c) / (1 - c)) /\ in_v_domain s2 v /\
     surface_point s2 ((u - c) / (1 - c)) v = surface_point s u v).
Definition split_v_ok (s s1 s2 : bsurf) (c : R) : Prop :=
  (forall u v, in_u_domain s u -> in_v_domain s v -> v <= c ->
     in_u_domain s1 u /\ in_v_domain s1 (v / c) /\ surface_point s1 u (v / c) = surface_point s u v) /\
  (forall u v, in_u_domain s u -> in_v_domain s v -> c <= v ->
     in_u_domain s2 u /\ in_v_domain s2 ((v - c) / (1 - c)) /\
     surface_point s2 u ((v - c) / (1 - c)) = surface_point s u v).
(** Weighted control points are the points times their weights, the weight appended. *)
Definition weighted (P : list point) (w : list R) (Q : list point) : Prop :=
  length Q = length P /\ forall i, (i < length P)%nat -> nth i Q [] = map (fun x => nth i w 0 * x) (nth i P []) ++ [nth i w 0].
(** c is the curve S(u, .), respectively S(., v). *)
Definition iso_curve_u (s : bsurf) (c : bcurve) (u : R) : Prop :=
  forall v, in_v_domain s v -> in_domain c v /\ curve_point c v = surface_point s u v.
Definition iso_curve_v (s : bsurf) (c : bcurve) (v : R) : Prop :=
  forall u, in_u_domain s u -> in_domain c u /\ curve_point c u = surface_point s u v.
(** u can be inserted num times, up to full multiplicity: it is told apart from the other knots by the tolerance 1e-15
    of find_multiplicity and lies in the domain (its end excluded). *)
Definition full_u (s : bsurf) (u : R) (num : nat) : Prop :=
  separated (/ 10 ^ 15) (u :: knots_vector_u s) /\ nth (bs_du s) (knots_vector_u s) 0 <= u < nth (bs_nu s) (knots_vector_u s) 0 /\
  (1 <= num)%nat /\ (occurrences u (knots_vector_u s) + num = bs_du s)%nat.
Definition full_v (s : bsurf) (v : R) (num : nat) : Prop :=
  separated (/ 10 ^ 15) (v :: knots_vector_v s) /\ nth (bs_dv s) (knots_vector_v s) 0 <= v < nth (bs_nv s) (knots_vector_v s) 0 /\
  (1 <= num)%nat /\ (occurrences v (knots_vector_v s) + num = bs_dv s)%nat.
(** A parameter strictly inside the domain, where the surface can be cut. *)
Definition inner_u (s : bsurf) (u : R) : Prop :=
  (1 <= bs_du s)%nat /\ separated (/ 10 ^ 15) (u :: knots_vector_u s) /\
  nth (bs_du s) (knots_vector_u s) 0 < u < nth (bs_nu s) (knots_vector_u s) 0 /\ (occurrences u (knots_vector_u s) <= bs_du s)%nat.
Definition inner_v (s : bsurf) (v : R) : Prop :=
  (1 <= bs_dv s)%nat /\ separated (/ 10 ^ 15) (v :: knots_vector_v s) /\
  nth (bs_dv s) (knots_vector_v s) 0 < v < nth (bs_nv s) (knots_vector_v s) 0 /\ (occurrences v (knots_vector_v s) <= bs_dv s)%nat.
