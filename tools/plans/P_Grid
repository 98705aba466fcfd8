(** C159-C162: Grid2D of grid.py (statements only). *)
From Coq Require Import Reals Lra Lia List Bool.
From Verif.Model Require Import Base Vec Grid.
From Verif.Spec Require Import GridSpec2.
From Verif.Proofs Require Import VecP GridP2 GridP3.
Import ListNotations.
Open Scope R_scope.

(** ** C159: regular grids *)
@properties_x C159_grid_by_rows_of_x
@properties_y C159_grid_by_rows_of_y
@properties_points C159_the_direction_only_changes_the_order
@properties_accepted C159_accepted_directions
@properties_rejected C159_other_directions_are_rejected
@points_xy_ok C159_points_xy_are_the_requested_numbers
@limits_ok C159_limits_xy_are_the_requested_limits
@single_point_grid C159_grid_of_a_single_point
@direction_index_found C159_find_direction_index
@direction_index_absent C159_find_direction_index_of_an_absent_axis_fails
Example C159_nonvacuous : exists g, grid_from_properties (0, 1) (2, 5) (3, 2)%nat [(false, false); (true, true)] = Ok g /\ grid_points g <> [].
Proof. eexists. split; [reflexivity|discriminate]. Qed.

(** ** C160: grids of given points, displacement *)
@from_points_ok C160_from_points_keeps_the_points_in_order
@from_points_zero C160_rows_of_no_point_are_rejected
@displacement_ok C160_displacement
@displacement_short C160_displacement_of_a_smaller_grid_fails

(** ** C161: quadrilaterals of a square grid *)
@pattern_square C161_grid_pattern_of_a_square_grid
Example C161_nonvacuous : exists g : grid nat, length (rows g) = 3%nat /\ width g 3.
Proof. exists (Grid [[1; 2; 3]; [4; 5; 6]; [7; 8; 9]]%nat []). split; [reflexivity|]. intros r [<-|[<-|[<-|[]]]]; reflexivity. Qed.

(** ** C162: quadrilaterals of any grid *)
@pattern_not_square C162_grid_pattern_of_any_other_grid_fails
@pattern_wrong C162_grid_pattern_of_any_grid_refuted
