(** C159-C162: Grid2D of grid.py (statements only). *)
From Coq Require Import Reals Lra Lia List Bool.
From Verif.Model Require Import Base Vec Grid.
From Verif.Spec Require Import GridSpec2.
From Verif.Proofs Require Import VecP GridP2 GridP3.
Import ListNotations.
Open Scope R_scope.

(** ** C159: regular grids *)
Theorem C159_grid_by_rows_of_x xmin xmax ymin ymax nx ny sx sy : (2 <= nx)%nat -> (2 <= ny)%nat ->
  exists g, grid_from_properties (xmin, xmax) (ymin, ymax) (nx, ny) [(sx, true); (sy, false)] = Ok g /\
    gdirs g = [(sx, true); (sy, false)] /\ length (rows g) = ny /\ width g nx /\
    (forall i j, (i < nx)%nat -> (j < ny)%nat ->
      cell g j i = Ok (V2 (if sx then spaced xmin xmax nx i else spaced xmax xmin nx i) (if sy then spaced ymin ymax ny j else spaced ymax ymin ny j))).
Proof. exact (properties_x xmin xmax ymin ymax nx ny sx sy). Qed.
Print Assumptions C159_grid_by_rows_of_x.
Theorem C159_grid_by_rows_of_y xmin xmax ymin ymax nx ny sx sy : (2 <= nx)%nat -> (2 <= ny)%nat ->
  exists g, grid_from_properties (xmin, xmax) (ymin, ymax) (nx, ny) [(sy, false); (sx, true)] = Ok g /\
    gdirs g = [(sy, false); (sx, true)] /\ length (rows g) = nx /\ width g ny /\
    (forall i j, (i < nx)%nat -> (j < ny)%nat ->
      cell g i j = Ok (V2 (if sx then spaced xmin xmax nx i else spaced xmax xmin nx i) (if sy then spaced ymin ymax ny j else spaced ymax ymin ny j))).
Proof. exact (properties_y xmin xmax ymin ymax nx ny sx sy). Qed.
Print Assumptions C159_grid_by_rows_of_y.
Theorem C159_the_direction_only_changes_the_order xmin xmax ymin ymax nx ny d g : (2 <= nx)%nat -> (2 <= ny)%nat ->
  grid_from_properties (xmin, xmax) (ymin, ymax) (nx, ny) d = Ok g ->
  length (grid_points g) = (nx * ny)%nat /\
  forall p, In p (grid_points g) <-> exists i j, (i < nx)%nat /\ (j < ny)%nat /\ p = V2 (spaced xmin xmax nx i) (spaced ymin ymax ny j).
Proof. exact (properties_points xmin xmax ymin ymax nx ny d g). Qed.
Print Assumptions C159_the_direction_only_changes_the_order.
Theorem C159_accepted_directions xl yl n d g : grid_from_properties xl yl n d = Ok g ->
  (exists sx sy, d = [(sx, true); (sy, false)] \/ d = [(sy, false); (sx, true)]) /\ gdirs g = d.
Proof. exact (properties_accepted xl yl n d g). Qed.
Print Assumptions C159_accepted_directions.
Theorem C159_other_directions_are_rejected xl yl n d : (forall sx sy, d <> [(sx, true); (sy, false)] /\ d <> [(sy, false); (sx, true)]) -> grid_from_properties xl yl n d = Err KeyError.
Proof. exact (properties_rejected xl yl n d). Qed.
Print Assumptions C159_other_directions_are_rejected.
Theorem C159_points_xy_are_the_requested_numbers xl yl nx ny d g : (2 <= nx)%nat -> (2 <= ny)%nat -> grid_from_properties xl yl (nx, ny) d = Ok g -> points_xy g = Ok (nx, ny).
Proof. exact (points_xy_ok xl yl nx ny d g). Qed.
Print Assumptions C159_points_xy_are_the_requested_numbers.
Theorem C159_limits_xy_are_the_requested_limits xmin xmax ymin ymax nx ny d g : (2 <= nx)%nat -> (2 <= ny)%nat -> xmin <= xmax -> ymin <= ymax ->
  grid_from_properties (xmin, xmax) (ymin, ymax) (nx, ny) d = Ok g -> limits_xy g = Ok ((xmin, xmax), (ymin, ymax)).
Proof. exact (limits_ok xmin xmax ymin ymax nx ny d g). Qed.
Print Assumptions C159_limits_xy_are_the_requested_limits.
Theorem C159_grid_of_a_single_point xmin xmax ymin ymax sx sy :
  exists g h, grid_from_properties (xmin, xmax) (ymin, ymax) (1, 1)%nat [(sx, true); (sy, false)] = Ok g /\
    grid_from_properties (xmin, xmax) (ymin, ymax) (1, 1)%nat [(sy, false); (sx, true)] = Ok h /\
    grid_points g = [V2 (if sx then xmin else xmax) (if sy then ymin else ymax)] /\ grid_points h = grid_points g.
Proof. exact (single_point_grid xmin xmax ymin ymax sx sy). Qed.
Print Assumptions C159_grid_of_a_single_point.
Theorem C159_find_direction_index {A} (g : grid A) axis i : find_direction_index g axis = Ok i -> exists s, nth_error (gdirs g) i = Some (s, axis).
Proof. exact (direction_index_found g axis i). Qed.
Print Assumptions C159_find_direction_index.
Theorem C159_find_direction_index_of_an_absent_axis_fails {A} (g : grid A) axis : (forall s, ~ In (s, axis) (gdirs g)) <-> find_direction_index g axis = Err ValueError.
Proof. exact (direction_index_absent g axis). Qed.
Print Assumptions C159_find_direction_index_of_an_absent_axis_fails.
Example C159_nonvacuous : exists g, grid_from_properties (0, 1) (2, 5) (3, 2)%nat [(false, false); (true, true)] = Ok g /\ grid_points g <> [].
Proof. eexists. split; [reflexivity|discriminate]. Qed.

(** ** C160: grids of given points, displacement *)
Theorem C160_from_points_keeps_the_points_in_order {A} (points : list A) n d : (1 <= n)%nat -> exists g, grid_from_points points n d = Ok g /\ gdirs g = d /\ grid_points g = points /\
  forall i r, nth_error (rows g) i = Some r -> (length r <= n)%nat /\ r <> [] /\ ((S i < length (rows g))%nat -> length r = n).
Proof. exact (from_points_ok points n d). Qed.
Print Assumptions C160_from_points_keeps_the_points_in_order.
Theorem C160_rows_of_no_point_are_rejected {A} (points : list A) d : grid_from_points points 0 d = Err ValueError.
Proof. exact (from_points_zero points d). Qed.
Print Assumptions C160_rows_of_no_point_are_rejected.
Theorem C160_displacement g initial : (length (grid_points initial) <= length (grid_points g))%nat -> exists d, displacement g initial = Ok d /\
  length d = length (grid_points initial) /\ forall i p q, nth_error (grid_points initial) i = Some p -> nth_error (grid_points g) i = Some q -> nth_error d i = Some (sub2 q p).
Proof. exact (displacement_ok g initial). Qed.
Print Assumptions C160_displacement.
Theorem C160_displacement_of_a_smaller_grid_fails g initial : (length (grid_points g) < length (grid_points initial))%nat -> displacement g initial = Err IndexError.
Proof. exact (displacement_short g initial). Qed.
Print Assumptions C160_displacement_of_a_smaller_grid_fails.

(** ** C161: quadrilaterals of a square grid *)
Theorem C161_grid_pattern_of_a_square_grid {A} (g : grid A) n : (1 <= n)%nat -> length (rows g) = n -> width g n -> exists l, grid_pattern g = Ok l /\ length l = ((n - 1) * (n - 1))%nat /\
  (forall i j, (i < n - 1)%nat -> (j < n - 1)%nat -> exists q, In q l /\ quad g i j q) /\ (forall q, In q l -> exists i j, (i < n - 1)%nat /\ (j < n - 1)%nat /\ quad g i j q).
Proof. exact (pattern_square g n). Qed.
Print Assumptions C161_grid_pattern_of_a_square_grid.
Example C161_nonvacuous : exists g : grid nat, length (rows g) = 3%nat /\ width g 3.
Proof. exists (Grid [[1; 2; 3]; [4; 5; 6]; [7; 8; 9]]%nat []). split; [reflexivity|]. intros r [<-|[<-|[<-|[]]]]; reflexivity. Qed.

(** ** C162: quadrilaterals of any grid *)
Theorem C162_grid_pattern_of_any_other_grid_fails {A} (g : grid A) r c : length (rows g) = r -> width g c -> (2 <= r)%nat -> (2 <= c)%nat -> r <> c -> grid_pattern g = Err IndexError.
Proof. exact (pattern_not_square g r c). Qed.
Print Assumptions C162_grid_pattern_of_any_other_grid_fails.
Theorem C162_grid_pattern_of_any_grid_refuted : exists xl yl n d g, grid_from_properties xl yl n d = Ok g /\ n = (3, 2)%nat /\ grid_pattern g = Err IndexError.
Proof. exact pattern_wrong. Qed.
Print Assumptions C162_grid_pattern_of_any_grid_refuted.

