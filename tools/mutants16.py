from mutlib import Set, save
f = Set('Model/FaceGrid.v', ['P_FaceGrid'])
f('fg1','bisect_left_loop','Some y => lt y x','Some y => negb (lt x y)','bisect_left is bisect_right','C240 lower bound included')
f('fg2','bisect_right_loop','Some y => lt x y','Some y => negb (lt y x)','bisect_right is bisect_left','C240 upper bound included')
f('fg3','bisect_left_loop','bisect_left_loop fuel a x (mid + 1) hi else','bisect_left_loop fuel a x mid hi else','lo = mid','C240 halving')
f('fg4','array_range_search','seq left (right - left)','seq left (S right - left)','one index too many','C240 indexes')
f('fg5','array_range_search','bisect_right_loop (length x) x xmax 0 (length x)','bisect_right_loop (length x) x xmin 0 (length x)','xmin used twice','C240 indexes')
f('fg6','indexes_of','(array_range_search v (y_min r) (y_max r))) (array_range_search u (x_min r) (x_max r))','(array_range_search v (x_min r) (x_max r))) (array_range_search u (y_min r) (y_max r))','bounds swapped','C241 holes')
f('fg7','indexes_of','None | Some O => []','None => []','index 0 handled (the fix)','C242 refutation')
f('fg8','indexes_of','if belongs r p then [k] else []','[k]','all the points of the rectangle removed','C241 holes')
f('fg9','delete_at','negb (existsb','(existsb','keeps the points to delete','C241 holes')
f('fg10','update_face_grid_points_with_inner_polygons','(flat_map (indexes_of points u v grid_point_index) inner_polygons)','(match inner_polygons with [] => [] | r :: _ => indexes_of points u v grid_point_index r end)','only the first hole','C241 holes')
f('fg11','grid_nodes','(seq 0 nu)) (seq 0 nv)','(seq 0 nv)) (seq 0 nu)','nu and nv swapped','C241 nodes')
f('fg12','face_grid_points','filter (fun p => negb (vertex p)) (filter inside_outer points)','filter inside_outer points','vertices kept','C241 vertices')
f('fg13','face_grid_points','filter (fun p => negb (vertex p)) (filter inside_outer points)','filter (fun p => negb (vertex p)) points','outer polygon not tested','C241 inside')
f('fg14','face_grid_points','| [] => points\n','| [] => []\n','no points without holes','C241 without holes')
f('fg15','position','match position ij l with Some n => Some (S n) | None => None end','position ij l','index not counted','C241 index')
f('fg16','snake','if Nat.even (fst iy) then x else rev x','if Nat.even (fst iy) then x else tl x','odd rows lose a point','C243 nodes')
f('fg17','snake','if Nat.even (fst iy) then x else rev x','x','rows all in the same direction','C243 order (example)')
f('fg18','grid_triangulation_points','inside (snd ip) && negb (vertex (snd ip))','inside (snd ip)','vertices kept','C243 vertices')
f('fg19','grid_triangulation_points','(fst ip / (ny + 2), fst ip mod (ny + 2))','(fst ip / (ny + 2), 0)','keys not distinct','C243 kept points')
f('fg20','remove_hole','if belongs r (snd e) then','if true then','all the points of the rectangle removed','C243 kept points')
f('fg21','remove_hole','if belongs r (snd e) then filter (fun e\' => negb (same_key ij e\')) grid else grid','grid','nothing removed','C243/C244 (removal is only stated negatively)')
f('fg22','surface_grid_points','fold_left (remove_hole x y) holes (grid_triangulation_points x y ny inside vertex)','grid_triangulation_points x y ny inside vertex','holes ignored','C244 (removal is only stated negatively)')
t = Set('Model/PolyTurn.v', ['P_PolyTurn'])
t('pt1','line_segments','(rest ++ [p])','rest','no closing side','C245 closing side')
t('pt2','followers','Ok (rest ++ [s])','Ok rest','last corner forgotten','C245 corners')
t('pt3','followers','[] => Err IndexError','[] => Ok []','no error without sides','C245')
t('pt4','turn_angle','(normal_vector2 (dir2 ls1))','(dir2 ls1)','direction in the place of the normal','C245 sign')
t('pt5','turn_angle','(normal_vector2 (dir2 ls1))','(neg2 (normal_vector2 (dir2 ls1)))','normal on the other side','C245 sign')
t('pt6','turn_angle','(dot2 u (normal_vector2 (dir2 ls1))) (dot2 u u1)','(dot2 u u1) (dot2 u (normal_vector2 (dir2 ls1)))','arguments of atan2 swapped','C245 sign')
t('pt7','sum_angles','sum_angles (angle + a) rest','sum_angles a rest','only the last angle','C245 sum')
t('pt8','is_trigo','(length points <? 3)%nat','(length points <? 5)%nat','quadrilaterals always trigonometric','C245 right turns')
t('pt9','is_trigo','Ok (Rltb 0 angle)','Ok (Rltb angle 0)','sign of the answer','C245')
t('pt10','turn_angle','do u1 <- unit_vector2 (dir2 ls1);\n  Ok (atan2 (dot2 u (normal_vector2 (dir2 ls1)))','do u1 <- unit_vector2 (dir2 ls1);\n  Ok (atan2 (dot2 u (normal_vector2 u1))','normal made unit (the fix)','C246 refutation')
t('pt11','bad_turn','Rltb angle PI && negb (Reqb angle 0)','Rltb PI angle && negb (Reqb angle (2 * PI))','same test for both directions','C247')
t('pt12','bad_turn','Rltb PI angle && negb (Reqb angle (2 * PI))','Rltb PI angle','straight corners refused','C247 straight corners')
t('pt13','bad_turn','if trigo then Rltb angle PI','if trigo then Rleb angle PI','reversals refused','C247 half turns')
t('pt14','is_convex','negb (existsb (bad_turn trigo)','(existsb (bad_turn trigo)','answer negated','C247')
t('pt15','is_convex','do trigo <- is_trigo points;','do trigo <- Ok true;','direction not asked','C247 clockwise')
t('pt16','key_lt','Rltb (x2 p) (x2 q) || (Reqb (x2 p) (x2 q) && Rltb (y2 p) (y2 q))','Rltb (x2 p) (x2 q)','sorted by x only','C249 (example)')
t('pt17','segments_at','do b <- (if (n - 1 <=? index)%nat then Ok O else at_index sorted (i + 1));','do b <- (if (n - 1 <=? i)%nat then Ok O else at_index sorted (i + 1));','no index past the end','C249 IndexError')
t('pt18','segments_intersect','| None => Ok false','| None => Ok true','aligned segments intersect','C249 (only in general position)')
t('pt19','segments_intersect','Rleb 0 a && Rleb a 1 && Rleb 0 b && Rleb b 1','Rltb 0 a && Rltb a 1 && Rltb 0 b && Rltb b 1','ends do not count (the fix)','C249 always')
t('pt20','self_intersects','if (fst s1 =? fst s2)%nat && (snd s1 =? snd s2)%nat then Ok None','if (fst s1 =? fst s2)%nat then Ok None','segments of the same point not compared','C249 always')
p = Set('Model/Periodic.v', ['P_Periodic'])
p('pe1','sign_changes_from','Rltb (a * previous) 0','Rleb (a * previous) 0','zero is a sign change','C250 sign changes')
p('pe2','sign_changes_from','sign_changes_from (S i) a rest','sign_changes_from i a rest','index not counted','C250 indexes')
p('pe3','sign_changes_from','sign_changes_from (S i) a rest','sign_changes_from (S i) previous rest','compared with the first','C250')
p('pe4','find_sign_changes','sign_changes_from 1 a rest','sign_changes_from 0 a rest','indexes from 0','C250 indexes')
p('pe5','is_discontinuity','a + sign * TWO_PI - previous','a - sign * TWO_PI - previous','sign of the turn','C250')
p('pe6','is_discontinuity','&& negb (isclose (Rabs a) 0 (11 / 10 * delta))','','passages through zero reported','C250 zero')
p('pe8','is_discontinuity','isclose (Rabs a) PI (11 / 10 * delta)','isclose (Rabs a) PI (1 / 10 * delta)','tolerance too small','C250 jumps')
p('pe9','is_discontinuity','let sign := previous / Rabs previous in','let sign := a / Rabs a in','sign of the angle after','C250')
p('pe10','angle_discontinuity','[] => false | _ => true','[] => true | _ => false','answer negated','C250 answer')
p('pe11','repair_start_end_angle_periodicity','isclose angle PI (/ 10 ^ 3) && Rltb ref_angle 0 then - PI','isclose angle PI (/ 10 ^ 3) && Rltb 0 ref_angle then - PI','wrong side','C252 side')
p('pe12','repair_start_end_angle_periodicity','isclose angle PI (/ 10 ^ 3) && Rltb ref_angle 0 then - PI','isclose angle PI (/ 10 ^ 3) && Rltb ref_angle 0 then 0','wrong angle','C252 angle')
p('pe13','repair_start_end_angle_periodicity','isclose angle (- PI) (/ 10 ^ 3)','isclose angle (- PI) 1','tolerance too large','C252 1e-3')
p('pe14','repair_start_end_angle_periodicity','isclose angle (1 / 2 * PI) (/ 10 ^ 3) && Rltb ref_angle 0','isclose angle (1 / 2 * PI) (/ 10 ^ 3)','pi/2 always replaced','C252 angle')
p('pe15','repair_arc3d_angle_continuity','Rltb angle_start angle_end then angle_end - periodicity else angle_end + periodicity','Rltb angle_start angle_end then angle_end + periodicity else angle_end - periodicity','two turns','C253 other way')
p('pe16','arc3d_to_cylindrical_coordinates_verification','repair_start_end_angle_periodicity (x2 end_) theta4','repair_start_end_angle_periodicity (x2 end_) theta3','reference of the start','C252 references')
p('pe17','arc3d_to_cylindrical_coordinates_verification','(V2 theta1 (y2 start), V2 theta2 (y2 end_))','(V2 theta1 (y2 start), V2 theta2 (y2 start))','height of the start','C252 heights')
p('pe18','arc3d_to_cylindrical_coordinates_verification','repair_arc3d_angle_continuity theta1 theta2 TWO_PI','repair_arc3d_angle_continuity theta1 theta2 PI','half a turn','C252 end angle')
p('pe19','fullarc_to_cylindrical_coordinates_verification','(start, V2 (theta1 + TWO_PI) (y2 end_))','(start, V2 (theta1 - TWO_PI) (y2 end_))','turns the other way','C253 direction')
p('pe20','fullarc_to_cylindrical_coordinates_verification','(V2 PI (y2 start), end_)','(V2 PI (y2 start), V2 PI (y2 end_))','no length','C253 full turn')
p('pe21','fullarc_to_cylindrical_coordinates_verification','isclose theta1 (- PI) (/ 10 ^ 6)','isclose theta1 (- PI) 1','tolerance too large','C253 1e-6')
p('pe22','first_times','first_times (a :: seen) rest','first_times seen rest','repetitions kept','C254 once')
p('pe23','first_times','then first_times seen rest','then []','stops at the first repetition','C254 all')
p('pe24','verify_repeated_parametric_points','then first_times [] points else points','then points else points','nothing removed','C254 once')
save('mutants16', f, t, p)
