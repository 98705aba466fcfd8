(** Model of BSplineSurface3D (/repo/volmdlr/surfaces.py l.6796-7440, 7594-7602, 9494-9515) and of the surface part
    of /repo/volmdlr/nurbs/core.pyx (l.767-870) and nurbs/operations.py (l.254-785).
    Same simplifications as Nurbs.v. Control points are lists of 3 coordinates; numpy arrays are lists. *)
From Verif.Model Require Import RBase Nurbs.
Open Scope R_scope.

(** surfaces.py l.6838-6876 BSplineSurface3D.__init__: the data of a surface. The control points are one flat list,
    rational when weights is not None. *)
Record bsurf := mkbsurf {
  bs_du : nat; bs_dv : nat;
  bs_pts : list point;
  bs_nu : nat; bs_nv : nat;
  bs_um : list nat; bs_vm : list nat;
  bs_uk : list R; bs_vk : list R;
  bs_w : option (list R);
}.
Definition bsurf_new (du dv : nat) (P : list point) (nu nv : nat) (um vm : list nat) (uk vk : list R)
    (w : option (list R)) : res bsurf :=
  do uk' <- standardize_knot_vector uk;
  do vk' <- standardize_knot_vector vk;
  Ok (mkbsurf du dv P nu nv um vm uk' vk' w).

(** surfaces.py l.6963-6977 knots_vector_u, knots_vector_v: np.repeat(knots, multiplicities). *)
Definition knots_vector_u (s : bsurf) : list R := expand_knots (bs_uk s) (bs_um s).
Definition knots_vector_v (s : bsurf) : list R := expand_knots (bs_vk s) (bs_vm s).
(** surfaces.py l.6869 (ctrlptsw) and l.6925-6928 (data): the points the algorithms work on. *)
Definition cpts (s : bsurf) : list point :=
  match bs_w s with Some w => ctrlptsw (bs_pts s) w | None => bs_pts s end.
(** surfaces.py l.6945-6960 control_points_table: rows of nb_v points; an incomplete last row is dropped. *)
Fixpoint table_loop (nv : nat) (pts : list point) (row : list point) (i : nat) : list (list point) :=
  match pts with
  | [] => []
  | p :: rest => if (i =? nv)%nat then (row ++ [p]) :: table_loop nv rest [] 1
                 else table_loop nv rest (row ++ [p]) (S i)
  end.
Definition control_points_table (s : bsurf) : list (list point) := table_loop (bs_nv s) (bs_pts s) [] 1.

(** surfaces.py l.7327-7366 u_domain, v_domain. *)
Definition u_domain (s : bsurf) : R * R :=
  (kn (knots_vector_u s) (bs_du s), kn (knots_vector_u s) (length (knots_vector_u s) - (bs_du s + 1))).
Definition v_domain (s : bsurf) : R * R :=
  (kn (knots_vector_v s) (bs_dv s), kn (knots_vector_v s) (length (knots_vector_v s) - (bs_dv s + 1))).

(** core.pyx l.808-824 (algorithm A3.5): one evaluated point. *)
Definition surface_pt (p q : nat) (U V : list R) (C : list point) (nu nv dim : nat) (u v : R) : point :=
  let su := find_span_linear p U nu u in
  let sv := find_span_linear q V nv v in
  let bu := basis_function p U su u in
  let bv := basis_function q V sv v in
  map (fun d =>
    sum_list (map (fun k =>
      nth k bu 0 * sum_list (map (fun m => nth m bv 0 * nth d (cpt C (sv - q + m + nv * (su - p + k))) 0)
                                 (seq 0 (q + 1))))
      (seq 0 (p + 1)))) (seq 0 dim).
(** core.pyx l.788-824 evaluate_surface_c: the parameters of u in the outer loop. *)
Definition evaluate_surface_c (p q : nat) (U V : list R) (C : list point) (nu nv sample_u sample_v dim : nat)
    (start_u start_v stop_u stop_v : R) : list point :=
  flat_map (fun u => map (surface_pt p q U V C nu nv dim u) (linspace start_v stop_v sample_v))
           (linspace start_u stop_u sample_u).
(** core.pyx l.767-785 evaluate_surface and l.828-858 evaluate_surface_rational. *)
Definition evaluate_surface (s : bsurf) (sample_u sample_v : nat) (start_u start_v stop_u stop_v : R) : list point :=
  match bs_w s with
  | Some _ => map (project 3) (evaluate_surface_c (bs_du s) (bs_dv s) (knots_vector_u s) (knots_vector_v s) (cpts s)
                                 (bs_nu s) (bs_nv s) sample_u sample_v 4 start_u start_v stop_u stop_v)
  | None => evaluate_surface_c (bs_du s) (bs_dv s) (knots_vector_u s) (knots_vector_v s) (cpts s)
              (bs_nu s) (bs_nv s) sample_u sample_v 3 start_u start_v stop_u stop_v
  end.
(** surfaces.py l.7292-7324 evaluate with its default bounds. *)
Definition surface_evaluate (s : bsurf) (sample_u sample_v : nat) : list point :=
  evaluate_surface s sample_u sample_v (fst (u_domain s)) (fst (v_domain s)) (snd (u_domain s)) (snd (v_domain s)).
(** surfaces.py l.7594-7603 point2d_to_3d: the parameters are clamped to the domain. *)
Definition point2d_to_3d (s : bsurf) (u v : R) : point :=
  let u' := Rmin (Rmax u (fst (u_domain s))) (snd (u_domain s)) in
  let v' := Rmin (Rmax v (fst (v_domain s))) (snd (v_domain s)) in
  nth 0 (evaluate_surface s 20 20 u' v' u' v') [].

(** operations.py l.677-700 flip_ctrlpts_u. *)
Definition flip_ctrlpts_u (C : list point) (size_u size_v : nat) : list point :=
  flat_map (fun i => map (fun j => cpt C (i + j * size_u)) (seq 0 size_v)) (seq 0 size_u).
(** operations.py l.703-717 ctrlpts2d_to_ctrlpts. *)
Definition ctrlpts2d_to_ctrlpts (T : list (list point)) : list point :=
  let size_v := length (nth 0 T []) in
  flat_map (fun u => map (fun v => nth v (nth u T []) []) (seq 0 size_v)) (seq 0 (length T)).
(** surfaces.py l.7422-7427 ctrlpts2d: reshape to (nb_u, nb_v). *)
Definition reshape (C : list point) (nu nv : nat) : list (list point) :=
  map (fun u => map (fun v => cpt C (v + nv * u)) (seq 0 nv)) (seq 0 nu).
Definition ctrlpts2d (s : bsurf) : list (list point) := reshape (cpts s) (bs_nu s) (bs_nv s).

(** operations.py l.295-304, 331-336, 766-771, 778-783: a surface rebuilt from (weighted) control points. *)
Definition surf_from_net (s : bsurf) (C : list point) (nu nv : nat) (um vm : list nat) (uk vk : list R) : res bsurf :=
  let '(P, w) := match bs_w s with
                 | Some _ => let '(P, w) := separate_ctrlpts_weights C in (P, Some w)
                 | None => (C, None)
                 end in
  bsurf_new (bs_du s) (bs_dv s) P nu nv um vm uk vk w.

(** operations.py l.340-381 insert_control_points_surface_u without the check (also l.285-293). *)
Definition insert_points_u (s : bsurf) (u : R) (num : nat) : list point :=
  let U := knots_vector_u s in
  let m := find_multiplicity u U in
  let span := find_span_linear (bs_du s) U (bs_nu s) u in
  flip_ctrlpts_u
    (flat_map (fun v => knot_insertion (bs_du s) U (map (fun k => cpt (cpts s) (v + bs_nv s * k)) (seq 0 (bs_nu s)))
                                       u num m span) (seq 0 (bs_nv s)))
    (bs_nu s + num) (bs_nv s).
(** operations.py l.384-424 insert_control_points_surface_v without the check (also l.320-327). *)
Definition insert_points_v (s : bsurf) (v : R) (num : nat) : list point :=
  let V := knots_vector_v s in
  let m := find_multiplicity v V in
  let span := find_span_linear (bs_dv s) V (bs_nv s) v in
  flat_map (fun u => knot_insertion (bs_dv s) V (map (fun k => cpt (cpts s) (k + bs_nv s * u)) (seq 0 (bs_nv s)))
                                    v num m span) (seq 0 (bs_nu s)).

(** operations.py l.272-304 (u-direction of insert_knot_surface). *)
Definition insert_u (s : bsurf) (u : R) (num : nat) (check_num : bool) : res bsurf :=
  match num with
  | O => Ok s
  | _ =>
      let U := knots_vector_u s in
      let m := find_multiplicity u U in
      if check_num && ((Z.of_nat (bs_du s) - Z.of_nat m) <? Z.of_nat num)%Z then Err ValueError
      else
        let span := find_span_linear (bs_du s) U (bs_nu s) u in
        let '(knots, mults) := get_knots_and_multiplicities (knot_insertion_kv U u span num) in
        surf_from_net s (insert_points_u s u num) (bs_nu s + num) (bs_nv s) mults (bs_vm s) knots (bs_vk s)
  end.
(** operations.py l.306-336 (v-direction of insert_knot_surface). *)
Definition insert_v (s : bsurf) (v : R) (num : nat) (check_num : bool) : res bsurf :=
  match num with
  | O => Ok s
  | _ =>
      let V := knots_vector_v s in
      let m := find_multiplicity v V in
      if check_num && ((Z.of_nat (bs_dv s) - Z.of_nat m) <? Z.of_nat num)%Z then Err ValueError
      else
        let span := find_span_linear (bs_dv s) V (bs_nv s) v in
        let '(knots, mults) := get_knots_and_multiplicities (knot_insertion_kv V v span num) in
        surf_from_net s (insert_points_v s v num) (bs_nu s) (bs_nv s + num) (bs_um s) mults (bs_uk s) knots
  end.
(** operations.py l.254-337 insert_knot_surface(obj, [pu, pv], [nu, nv], check_num). *)
Definition insert_knot_surface (s : bsurf) (pu pv : option R) (num_u num_v : nat) (check_num : bool) : res bsurf :=
  do s1 <- match pu with Some u => insert_u s u num_u check_num | None => Ok s end;
  match pv with Some v => insert_v s1 v num_v check_num | None => Ok s1 end.

(** operations.py l.429-474 refine_knot_vector_surface: the u loop inserts each time into the original object. *)
Fixpoint refine_u (s : bsurf) (tmp : bsurf) (us : list R) : res bsurf :=
  match us with
  | [] => Ok tmp
  | u :: rest =>
      if Reqb u (fst (u_domain s)) || Reqb u (snd (u_domain s)) then Err ValueError
      else do t <- insert_knot_surface s (Some u) None (bs_du s - find_multiplicity u (knots_vector_u s)) 0 false;
           refine_u s t rest
  end.
Fixpoint refine_v (dom : R * R) (tmp : bsurf) (vs : list R) : res bsurf :=
  match vs with
  | [] => Ok tmp
  | v :: rest =>
      if Reqb v (fst dom) || Reqb v (snd dom) then Err ValueError
      else do t <- insert_knot_surface tmp None (Some v) 0 (bs_dv tmp - find_multiplicity v (knots_vector_v tmp)) false;
           refine_v dom t rest
  end.
Definition refine_knot_vector_surface (s : bsurf) (us vs : list R) : res bsurf :=
  do t <- refine_u s s us; refine_v (v_domain s) t vs.

(** operations.py l.740-788 construct_split_surfaces, direction "u". *)
Definition construct_split_u (s : bsurf) (kv1 kv2 : list R) (cut : nat) : res (bsurf * bsurf) :=
  let T := ctrlpts2d s in
  let '(k1, m1) := get_knots_and_multiplicities kv1 in
  let '(k2, m2) := get_knots_and_multiplicities kv2 in
  do s1 <- surf_from_net s (ctrlpts2d_to_ctrlpts (firstn cut T)) cut (bs_nv s) m1 (bs_vm s) k1 (bs_vk s);
  do s2 <- surf_from_net s (ctrlpts2d_to_ctrlpts (skipn (cut - 1) T)) (bs_nu s - (cut - 1)) (bs_nv s) m2 (bs_vm s) k2 (bs_vk s);
  Ok (s1, s2).
(** the same, direction "v". *)
Definition construct_split_v (s : bsurf) (kv1 kv2 : list R) (cut : nat) : res (bsurf * bsurf) :=
  let T := ctrlpts2d s in
  let '(k1, m1) := get_knots_and_multiplicities kv1 in
  let '(k2, m2) := get_knots_and_multiplicities kv2 in
  do s1 <- surf_from_net s (flat_map (firstn cut) T) (bs_nu s) cut (bs_um s) m1 (bs_uk s) k1;
  do s2 <- surf_from_net s (flat_map (skipn (cut - 1)) T) (bs_nu s) (bs_nv s - (cut - 1)) (bs_um s) m2 (bs_uk s) k2;
  Ok (s1, s2).
(** operations.py l.570-610 split_surface_u. *)
Definition split_surface_u (s : bsurf) (u : R) : res (bsurf * bsurf) :=
  if Reqb u (fst (u_domain s)) || Reqb u (snd (u_domain s)) then Err ValueError
  else
    let U := knots_vector_u s in
    let knot_span := (find_span_linear (bs_du s) U (bs_nu s) u - bs_du s + 1)%nat in
    let count := (bs_du s - find_multiplicity u U)%nat in
    do t <- insert_knot_surface s (Some u) None count 0 false;
    let '(kv1, kv2) := helper_split_knot_vectors (bs_du t) (knots_vector_u t) (bs_nu t) u in
    construct_split_u t kv1 kv2 (knot_span + count).
(** operations.py l.613-652 split_surface_v. *)
Definition split_surface_v (s : bsurf) (v : R) : res (bsurf * bsurf) :=
  if Reqb v (fst (v_domain s)) || Reqb v (snd (v_domain s)) then Err ValueError
  else
    let V := knots_vector_v s in
    let knot_span := (find_span_linear (bs_dv s) V (bs_nv s) v - bs_dv s + 1)%nat in
    let count := (bs_dv s - find_multiplicity v V)%nat in
    do t <- insert_knot_surface s None (Some v) 0 count false;
    let '(kv1, kv2) := helper_split_knot_vectors (bs_dv t) (knots_vector_v t) (bs_nv t) v in
    construct_split_v t kv1 kv2 (knot_span + count).

(** operations.py l.477-520 extract_surface_curve_u: a row of nb_v points, given to the curve constructor with the
    degree, multiplicities and knots of the u direction. *)
Definition curve_from_points (s : bsurf) (degree : nat) (mults : list nat) (knots : list R) (C : list point) : res bcurve :=
  let '(P, w) := match bs_w s with
                 | Some _ => let '(P, w) := separate_ctrlpts_weights C in (P, Some w)
                 | None => (C, None)
                 end in
  bcurve_new degree P mults knots w.
Definition iso_points_u (s : bsurf) (u : R) : list point :=
  let U := knots_vector_u s in
  let knot_span := (find_span_linear (bs_du s) U (bs_nu s) u - bs_du s + 1)%nat in
  let count := (bs_du s - find_multiplicity u U)%nat in
  let T := reshape (insert_points_u s u count) (bs_nu s + count) (bs_nv s) in
  firstn (bs_nv s) (ctrlpts2d_to_ctrlpts (skipn (knot_span + count - 1) T)).
Definition extract_surface_curve_u (s : bsurf) (u : R) : res bcurve :=
  if Reqb u (fst (u_domain s)) || Reqb u (snd (u_domain s)) then Err ValueError
  else curve_from_points s (bs_du s) (bs_um s) (bs_uk s) (iso_points_u s u).
(** operations.py l.523-567 extract_surface_curve_v. *)
Definition iso_points_v (s : bsurf) (v : R) : list point :=
  let V := knots_vector_v s in
  let knot_span := (find_span_linear (bs_dv s) V (bs_nv s) v - bs_dv s + 1)%nat in
  let count := (bs_dv s - find_multiplicity v V)%nat in
  let T := reshape (insert_points_v s v count) (bs_nu s) (bs_nv s + count) in
  map (fun row => nth 0 (skipn (knot_span + count - 1) row) []) T.
Definition extract_surface_curve_v (s : bsurf) (v : R) : res bcurve :=
  if Reqb v (fst (v_domain s)) || Reqb v (snd (v_domain s)) then Err ValueError
  else curve_from_points s (bs_dv s) (bs_vm s) (bs_vk s) (iso_points_v s v).
(** surfaces.py l.7247-7261 extract_from_surface_boundary_u and _v (inside extract_curves). *)
Definition boundary_u (s : bsurf) (i : nat) : res bcurve :=
  bcurve_new (bs_du s) (map (fun j => cpt (bs_pts s) (j + bs_nv s * i)) (seq 0 (bs_nv s))) (bs_um s) (bs_uk s)
             (option_map (fun w => map (fun j => nth (j + bs_nv s * i) w 0) (seq 0 (bs_nv s))) (bs_w s)).
Definition boundary_v (s : bsurf) (j : nat) : res bcurve :=
  bcurve_new (bs_dv s) (map (fun i => cpt (bs_pts s) (j + bs_nv s * i)) (seq 0 (bs_nu s))) (bs_vm s) (bs_vk s)
             (option_map (fun w => map (fun i => nth (j + bs_nv s * i) w 0) (seq 0 (bs_nu s))) (bs_w s)).
(** surfaces.py l.7199-7233 get_surface_curves: the curves of the control net ("u" and "v" lists). *)
Definition surface_curve_v (s : bsurf) (i : nat) : res bcurve :=
  bcurve_new (bs_dv s) (map (fun j => cpt (bs_pts s) (j + bs_nv s * i)) (seq 0 (bs_nv s))) (bs_vm s) (bs_vk s)
             (option_map (fun w => map (fun j => nth (j + bs_nv s * i) w 0) (seq 0 (bs_nv s))) (bs_w s)).
Definition surface_curve_u (s : bsurf) (j : nat) : res bcurve :=
  bcurve_new (bs_du s) (map (fun i => cpt (bs_pts s) (j + bs_nv s * i)) (seq 0 (bs_nu s))) (bs_um s) (bs_uk s)
             (option_map (fun w => map (fun i => nth (j + bs_nv s * i) w 0) (seq 0 (bs_nu s))) (bs_w s)).
