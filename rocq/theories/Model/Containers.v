(** Assemblies, compounds and volume models: /repo/volmdlr/core.py l.153-179, 1025-1056, 1083-1091, 1180-1230,
    1320-1371, 2147-2201 and /repo/volmdlr/geometry.py l.52-62.
    Names, colours and the display are not modelled; [np.linalg.solve] is the exact solution. *)
From Verif.Model Require Import Base RBase Vec Frame BBox.
Import ListNotations.
Open Scope R_scope.

(** ** geometry.py l.52-62 get_transfer_matrix_from_basis: the solution X of A X = B, where the rows of A and B are the
    vectors of the bases; by Cramer's formulas (simplified: numpy's LinAlgError is written ValueError here). *)
Definition rows_of (b : basis3) : mat33 :=
  M33 (x3 (bu b)) (y3 (bu b)) (z3 (bu b)) (x3 (bv b)) (y3 (bv b)) (z3 (bv b)) (x3 (bw b)) (y3 (bw b)) (z3 (bw b)).
Definition np_solve33 (m b : mat33) : res mat33 :=
  if Reqb (det33 m) 0 then Err ValueError else
  let i := 1 / det33 m in
  Ok (mmul33 (M33 (i * (m22 m * m33 m - m23 m * m32 m)) (i * (m13 m * m32 m - m12 m * m33 m))
                  (i * (m12 m * m23 m - m13 m * m22 m)) (i * (m23 m * m31 m - m21 m * m33 m))
                  (i * (m11 m * m33 m - m13 m * m31 m)) (i * (m21 m * m13 m - m23 m * m11 m))
                  (i * (m21 m * m32 m - m31 m * m22 m)) (i * (m12 m * m31 m - m32 m * m11 m))
                  (i * (m11 m * m22 m - m21 m * m12 m))) b).
Definition get_transfer_matrix_from_basis (a b : basis3) : res mat33 := np_solve33 (rows_of a) (rows_of b).

(** Frame3D.__eq__ (core_compiled.pyx l.3320-3329) and OXYZ *)
Definition frame3_eqb (f g : frame3) : bool :=
  vec3_eqb (org3 f) (org3 g) && vec3_eqb (bu (fb3 f)) (bu (fb3 g)) && vec3_eqb (bv (fb3 f)) (bv (fb3 g)) && vec3_eqb (bw (fb3 f)) (bw (fb3 g)).
Definition OXYZ_frame : frame3 := F3 O3D (B3 X3D Y3D Z3D).

(** core.py l.171-175: the frame given to frame_mapping *)
Definition placing_frame (initial final : frame3) : res frame3 :=
  do m <- get_transfer_matrix_from_basis (fb3 initial) (fb3 final);
  Ok (F3 (org3 final) (B3 (V3 (m11 m) (m12 m) (m13 m)) (V3 (m21 m) (m22 m) (m23 m)) (V3 (m31 m) (m32 m) (m33 m)))).
(** core.py l.153-179 map_primitive_with_initial_and_final_frames. [is_frame] and [of_frame] tell when a primitive is a
    given frame; [fm] is its frame_mapping(., 'old'). *)
Definition map_primitive {A} (is_frame : A -> frame3 -> bool) (of_frame : frame3 -> A) (fm : A -> frame3 -> res A)
    (p : A) (initial final : frame3) : res A :=
  if frame3_eqb initial final then Ok p else
  if is_frame p initial then Ok (of_frame final) else
  do f <- placing_frame initial final;
  if frame3_eqb f OXYZ_frame then Ok p else fm p f.
Fixpoint mapM {A B} (f : A -> res B) (l : list A) : res (list B) :=
  match l with [] => Ok [] | a :: l => do b <- f a; do r <- mapM f l; Ok (b :: r) end.
(** l.1025-1033 Assembly.__init__: self.primitives *)
Definition assembly_primitives {A} (is_frame : A -> frame3 -> bool) (of_frame : frame3 -> A) (fm : A -> frame3 -> res A)
    (components : list A) (positions : list frame3) (frame : frame3) : res (list A) :=
  mapM (fun c => map_primitive is_frame of_frame fm (fst c) frame (snd c)) (combine components positions).
(** l.1083-1091 Assembly.frame_mapping(frame, 'old'): the new positions, the components and the frame do not change *)
Definition assembly_positions_old (positions : list frame3) (frame : frame3) : list frame3 :=
  map (fun p => frame3_mapping_old p frame) positions.

(** ** bounding boxes. A member has a bounding box, or is a Point3D, or is something else without a box. *)
Inductive member := Boxed (b : bbox) | PointMember (p : vec3) | OtherMember.
Definition boxes_of (l : list member) : list bbox := flat_map (fun m => match m with Boxed b => [b] | _ => [] end) l.
Definition is_point_member (m : member) : bool := match m with PointMember _ => true | _ => false end.
Definition points_of (l : list member) : list vec3 := flat_map (fun m => match m with PointMember p => [p] | _ => [] end) l.
(** l.1049-1056 Assembly._bounding_box, l.1223-1230 Compound._bounding_box (from_points raises on anything but points) *)
Definition group_bounding_box (l : list member) : res bbox :=
  match boxes_of l with
  | [] => if forallb is_point_member l then bbox_from_points (points_of l) else Err TypeError
  | bs => from_bounding_boxes bs
  end.
(** l.1355-1359 VolumeModel._bounding_box *)
Definition model_bounding_box (l : list member) : res bbox := from_bounding_boxes (boxes_of l).
(** l.1036-1047, 1187-1199, 1342-1353: the property bounding_box and its cache; [compute] is _bounding_box *)
Record cached := Cached { members : list member; bbox_cache : option bbox }.
Definition get_bounding_box (compute : list member -> res bbox) (s : cached) : res (bbox * cached) :=
  match bbox_cache s with
  | Some b => Ok (b, s)
  | None => do b <- compute (members s); Ok (b, Cached (members s) (Some b))
  end.
Definition set_bounding_box (s : cached) (b : bbox) : cached := Cached (members s) (Some b).
(** what a caller does with self.primitives.append(m) *)
Definition append_member (s : cached) (m : member) : cached := Cached (members s ++ [m]) (bbox_cache s).

(** l.1361-1371 VolumeModel.volume, [vol] being the volumes of the primitives *)
Definition model_volume {A} (vol : A -> res R) (l : list A) : res R :=
  fold_left (fun acc p => do v <- acc; do w <- vol p; Ok (v + w)) l (Ok 0).
(** l.1330-1340 VolumeModel.__eq__ for two models of one class, l.1327 __hash__ *)
Definition model_eqb {A} (eqb : A -> A -> bool) (l m : list A) : bool :=
  if negb (length l =? length m)%nat then false
  else fold_left (fun equ pq => equ && eqb (fst pq) (snd pq)) (combine l m) true.
Definition model_hash {A} (h : A -> Z) (l : list A) : Z := fold_left (fun s p => (s + h p)%Z) l 0%Z.

(** l.2147-2171 get_shells. A part is a body, with or without faces, or an Assembly/Compound. *)
Inductive part (A : Type) := Leaf (a : A) (has_faces : bool) | Grp (l : list (part A)).
Arguments Leaf {A} a has_faces. Arguments Grp {A} l.
Fixpoint unpack {A} (list_shells : list A) (p : part A) : list A :=
  match p with
  | Grp l => fold_left unpack l list_shells
  | Leaf a true => list_shells ++ [a]
  | Leaf _ false => list_shells
  end.
Definition get_shells {A} (l : list (part A)) : list A := fold_left unpack l [].

(** l.2179-2191 MovingVolumeModel.__init__, is_consistent (ConsistencyError is written ValueError here); l.2193-2201
    step_volume_model for 0 <= istep (simplified: no negative index) *)
Record moving (A : Type) := Moving { mv_primitives : list A; mv_frames : list (list frame3) }.
Arguments Moving {A}. Arguments mv_primitives {A}. Arguments mv_frames {A}.
Definition is_consistent {A} (m : moving A) : bool :=
  forallb (fun fr => (length fr =? length (mv_primitives m))%nat) (mv_frames m).
Definition new_moving {A} (l : list A) (frames : list (list frame3)) : res (moving A) :=
  let m := Moving l frames in if is_consistent m then Ok m else Err ValueError.
Definition step_volume_model {A} (fm : A -> frame3 -> res A) (m : moving A) (istep : nat) : res (list A) :=
  match nth_error (mv_frames m) istep with
  | None => Err IndexError
  | Some fr => mapM (fun pf => fm (fst pf) (snd pf)) (combine (mv_primitives m) fr)
  end.
