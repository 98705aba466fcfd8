(** C310-C313: extruded and revolved profiles (statements only). *)
From Coq Require Import List Bool Arith ZArith Reals Lra Lia.
From Verif.Model Require Import Base RBase Vec Frame Polygon Geometry Plane Edges Profiles.
From Verif.Spec Require Import VecSpec FrameSpec PolygonSpec SolidSpec ProfilesSpec.
From Verif.Proofs Require Import ProfilesP.
Import ListNotations.
Open Scope R_scope.

(** ** C310: the volume of an extruded profile *)
Theorem C310_the_volume f outer inners h o : direct (fb3 f) -> 0 <= h ->
  extruded_volume (Extruded f outer inners h) = Rabs (signed_volume o (prism f h outer)) - fold_right Rplus 0 (map (fun c => Rabs (signed_volume o (prism f h c))) inners).
Proof. exact (extruded_volume_ok f outer inners h o). Qed.
Print Assumptions C310_the_volume.
Theorem C310_the_volume_of_a_prism f h pts o : direct (fb3 f) -> Rabs (signed_volume o (prism f h pts)) = Rabs h * polygon_area pts.
Proof. exact (prism_enclosed f h pts o). Qed.
Print Assumptions C310_the_volume_of_a_prism.
Theorem C310_the_skin_of_a_prism_is_closed f h pts : closed_surface (prism f h pts).
Proof. exact (prism_closed f h pts). Qed.
Print Assumptions C310_the_skin_of_a_prism_is_closed.
Example C310_nonvacuous : exists f outer, direct (fb3 f) /\ enclosed (prism f 1 outer) = 1.
Proof. destruct far_hole as (f & o & i & e & D & _ & _ & _ & E & _). eauto. Qed.
(** ** C311: negative lengths, inner contours outside *)
Theorem C311_the_other_side f outer inners h : direct (fb3 f) -> extruded_volume (Extruded f outer inners (- h)) = - extruded_volume (Extruded f outer inners h).
Proof. exact (extruded_down f outer inners h). Qed.
Print Assumptions C311_the_other_side.
Theorem C311_negative_lengths_refuted : exists f outer e, direct (fb3 f) /\ new_extruded f outer [] (-1) = Ok e /\ enclosed (prism f (-1) outer) = 1 /\ extruded_volume e = -1.
Proof. exact negative_length. Qed.
Print Assumptions C311_negative_lengths_refuted.
Theorem C311_inner_contours_refuted : exists f outer inner e, direct (fb3 f) /\ (forall p, In p outer -> 0 <= x2 p <= 1) /\ (forall p, In p inner -> 10 <= x2 p) /\
  new_extruded f outer [inner] 1 = Ok e /\ enclosed (prism f 1 outer) = 1 /\ extruded_volume e = 0.
Proof. exact far_hole. Qed.
Print Assumptions C311_inner_contours_refuted.
(** ** C312: construction *)
Theorem C312_when_it_is_accepted f outer inners h : (exists e, new_extruded f outer inners h = Ok e) <-> forall c, In c inners -> polygon_area c <= polygon_area outer.
Proof. exact (new_extruded_iff f outer inners h). Qed.
Print Assumptions C312_when_it_is_accepted.
Theorem C312_the_faces_over_the_sides s d : fst s <> snd s -> d <> O3D -> exists p0 p1 p2 p3, segment_extrusion s d = Ok [p0; p1; p2; p3] /\
  near (/ 10 ^ 12 / 2) p0 (fst s) /\ near (/ 10 ^ 12 / 2) p1 (snd s) /\ near (/ 10 ^ 12 / 2) p2 (add3 (snd s) d) /\ near (/ 10 ^ 12 / 2) p3 (add3 (fst s) d).
Proof. exact (extrusion_corners s d). Qed.
Print Assumptions C312_the_faces_over_the_sides.
Example C312_nonvacuous : exists f outer inner, (forall c, In c [inner] -> polygon_area c <= polygon_area outer) /\ exists e, new_extruded f outer [inner] 1 = Ok e.
Proof. destruct far_hole as (f & o & i & e & _ & _ & _ & E & _). exists f, o, i. split; [apply (proj1 (new_extruded_iff f o [i] 1))|]; eauto. Qed.
(** ** C313: the volume of a revolved profile *)
Theorem C313_never_a_value_refuted r : exists e, revolved_volume r = Err e.
Proof. exact (revolved_raises r). Qed.
Print Assumptions C313_never_a_value_refuted.
Theorem C313_the_error r : direct (fb3 (rframe r)) -> revolved_volume r = Err AttributeError.
Proof. exact (revolved_attribute r). Qed.
Print Assumptions C313_the_error.
Example C313_nonvacuous : exists r, direct (fb3 (rframe r)) /\ exists f c p v a, new_revolved f c p v a = Ok r.
Proof. destruct new_revolved_ex as (r & E & D). exists r. split; [exact D|]. eauto 6. Qed.

