(** C310-C313: extruded and revolved profiles (statements only). *)
From Coq Require Import List Bool Arith ZArith Reals Lra Lia.
From Verif.Model Require Import Base RBase Vec Frame Polygon Geometry Plane Edges Profiles.
From Verif.Spec Require Import VecSpec FrameSpec PolygonSpec SolidSpec ProfilesSpec.
From Verif.Proofs Require Import ProfilesP.
Import ListNotations.
Open Scope R_scope.

(** ** C310: the volume of an extruded profile *)
@extruded_volume_ok C310_the_volume
@prism_enclosed C310_the_volume_of_a_prism
@prism_closed C310_the_skin_of_a_prism_is_closed
Example C310_nonvacuous : exists f outer, direct (fb3 f) /\ enclosed (prism f 1 outer) = 1.
Proof. destruct far_hole as (f & o & i & e & D & _ & _ & _ & E & _). eauto. Qed.
(** ** C311: negative lengths, inner contours outside *)
@extruded_down C311_the_other_side
@negative_length C311_negative_lengths_refuted
@far_hole C311_inner_contours_refuted
(** ** C312: construction *)
@new_extruded_iff C312_when_it_is_accepted
@extrusion_corners C312_the_faces_over_the_sides
Example C312_nonvacuous : exists f outer inner, (forall c, In c [inner] -> polygon_area c <= polygon_area outer) /\ exists e, new_extruded f outer [inner] 1 = Ok e.
Proof. destruct far_hole as (f & o & i & e & _ & _ & _ & E & _). exists f, o, i. split; [apply (proj1 (new_extruded_iff f o [i] 1))|]; eauto. Qed.
(** ** C313: the volume of a revolved profile *)
@revolved_raises C313_never_a_value_refuted
@revolved_attribute C313_the_error
Example C313_nonvacuous : exists r, direct (fb3 (rframe r)) /\ exists f c p v a, new_revolved f c p v a = Ok r.
Proof. destruct new_revolved_ex as (r & E & D). exists r. split; [exact D|]. eauto 6. Qed.
