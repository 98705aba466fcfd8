from mutlib import Set, save
g = Set('Model/FaceGrid.v', ['P_FaceGrid'])
g('fg22b','surface_grid_points','fold_left (remove_hole x y) holes (grid','fold_left (remove_hole x y) [] (grid','holes ignored','C243 exactly the points kept')
g('fg23','remove_hole','(flat_map (fun i => map (pair i) (array_range_search y (y_min r) (y_max r))) (array_range_search x (x_min r) (x_max r)))','(flat_map (fun i => map (fun j => (j, i)) (array_range_search y (y_min r) (y_max r))) (array_range_search x (x_min r) (x_max r)))','keys transposed (the fix)','C243 exactly, C244')
g('fg24','grid_triangulation_points','(fst ip / (ny + 2), fst ip mod (ny + 2))','(fst ip / (ny + 1), fst ip mod (ny + 1))','keys numbered by ny + 1','C243 exactly')
t = Set('Model/PolyTurn.v', ['P_PolyTurn'])
t('pt3b','followers','[] => Err IndexError','[] => Ok []','no error without sides','C247 no points')
t('pt18b','segments_intersect','| None => Ok false','| None => Ok true','aligned segments intersect','C249 aligned points')
h = Set('Model/Hull.v', ['P_Hull'])
h('hu1','remove_first','then rest else f :: remove_first e rest','then remove_first e rest else f :: remove_first e rest','all equal pairs removed','C255')
h('hu2','remove_first','if eqb_edge e f then rest','if eqb2 (fst e) (fst f) then rest','only the first points compared','C255')
h('hu3','next_edge','then (e, Some (snd e))','then (e, Some (fst e))','same point again','C255')
h('hu4','next_edge','else if is_close2 (snd e) last tol6 then (e, Some (fst e))\n','','pairs only walked forward','C255')
h('hu5','hull_chain','match p with Some q => q :: chain | None => chain end','chain','nothing appended','C255')
h('hu6','hull_chain','(remove_first e edges)','edges','pair not removed','C255')
h('hu7','lowest_x','then lowest_x (S i) rest i (x2 p)','then lowest_x (S i) rest i min_x','minimum not updated','C255 direction')
h('hu8','lowest_x','if Rltb (x2 p) min_x','if Rltb min_x (x2 p)','highest x','C255 direction')
h('hu9','hull_order','skipn i ring ++ firstn i ring','ring','not rotated','C255 direction')
h('hu10','hull_order','if Rltb (y2 a) (y2 b)','if Rltb (y2 b) (y2 a)','direction test inverted','C255 direction')
h('hu11','convex_hull_points','(tl (hull_chain (length rest) [snd e; fst e] rest))','(hull_chain (length rest) [snd e; fst e] rest)','closing point kept','C255')
h('hu12','convex_hull_points','[snd e; fst e]','[fst e; snd e]','first pair reversed','C255')
h('hu13','simplex_edge','nth_error points (fst s), nth_error points (snd s)','nth_error points (snd s), nth_error points (fst s)','pairs reversed','C255 (same ring the other way: may survive)')
h('hu14','argmin_from','if Rltb (norm3 (sub3 p current)) d','if Rltb d (norm3 (sub3 p current))','farthest point','C257')
h('hu15','argmin_from','rest i (norm3 (sub3 p current))','rest best (norm3 (sub3 p current))','index not kept','C257')
h('hu16','any_nonzero','negb (Reqb (x3 p) 0) || negb (Reqb (y3 p) 0) || negb (Reqb (z3 p) 0)','negb (Reqb (x3 p) 0) || negb (Reqb (y3 p) 0)','z ignored','C257')
h('hu17','any_nonzero','existsb','forallb','all points','C257')
h('hu18','delete_nth','skipn (S i) l','skipn i l','nothing deleted','C257')
h('hu19','nearest_chain','else [current]','else current :: remaining','the fix','C258')
h('hu20','order_points_list_for_nearest_neighbor','Ok (nearest_chain (length rest) p rest)','Ok (nearest_chain (length rest) p (p :: rest))','first point kept in the rest','C257')
h('hu21','add_to_group','then (fst g, snd g ++ [p]) :: rest','then (fst g, p :: snd g) :: rest','order in the group','C259')
h('hu22','add_to_group','if Z.eqb (fst g) label','if Z.leb (fst g) label','labels merged','C259')
h('hu23','closed_group','Ok (o ++ [p])','Ok o','not closed','C259')
h('hu24','get_center_of_mass','(INR (length l))','(INR (length l - 1))','divided by n - 1','C260')
h('hu25','grid_step','(hi - lo) / (INR n - 1)','(hi - lo) / INR n','divided by n','C261')
h('hu26','grid_axis','lo + INR i','hi + INR i','starts from the end','C261')
e = Set('Model/Ellipse.v', ['P_Ellipse'])
e('el1','ellipse2_theta','if Reqb theta TWO_PI then 0 else theta','if Reqb theta TWO_PI then PI else theta','theta of an aligned ellipse','C266')
e('el2','ellipse2_theta','clockwise_angle (major_dir e) X2D','clockwise_angle X2D (major_dir e)','arguments swapped','C266')
e('el3','ellipse2_angles','then Ok (TWO_PI, 0, false)','then Ok (0, TWO_PI, false)','reverse fixed','C267, C268')
e('el4','ellipse2_angles','Ok (0, TWO_PI, true)','Ok (0, PI, true)','half an ellipse','C267')
e('el5','ellipse2_length','sqrt_py (4 - 3 * h)','sqrt_py (4 + 3 * h)','sign in the formula','C271 (bounds too wide?)')
e('el6','ellipse2_length','(1 + 3 * h / (10 + s))','(1 + 3 * h / (4 + s))','constant in the formula','C271')
e('el7','ellipse2_length','(emaj e - emin e) ^ 2 / (emaj e + emin e) ^ 2 in','(emaj e - emin e) / (emaj e + emin e) in','power forgotten','C271')
e('el8','ellipse2_rectangle','sub2 (ecenter e) (mul2 (minor_dir e) (emin e))','add2 (ecenter e) (mul2 (minor_dir e) (emin e))','p3 = p4','C264')
e('el9','ellipse2_rectangle','Rect (lo x2) (hi x2) (lo y2) (hi y2)','Rect (lo x2) (hi x2) (lo x2) (hi x2)','x used twice','C264')
e('el10','ellipse2_area','PI * emaj e * emin e','2 * PI * emaj e * emin e','twice the area','C271')
e('el11','round3','Rltb r (1 / 2) then n','Rltb r (1 / 2) then n + 1','rounded up','C266')
e('el12','round3','if Z.even n then n else n + 1','n','half down','C266 (same error bound: equivalent for the claim)')
e('el13','point_over_ellipse','(dx * sin t - dy * cos t) ^ 2 / emin e ^ 2','(dx * sin t + dy * cos t) ^ 2 / emin e ^ 2','sign','C266')
e('el14','point_over_ellipse','(dx * cos t + dy * sin t) ^ 2 / emaj e ^ 2','(dx * cos t + dy * sin t) ^ 2 / emin e ^ 2','axes swapped','C266')
e('el15','point_over_ellipse','x2 p - x2 (ecenter e)','x2 p','centre forgotten','C266')
e('el16','linspace_n','INR (n - 1)','INR n','end point missing','C267')
e('el17','ellipse2_discretization','V2 (emaj e * cos t) (emin e * sin t)','V2 (emin e * cos t) (emaj e * sin t)','axes swapped','C267')
e('el18','point_angle_with_major_dir','(x2 q / emaj e) (y2 q / emin e)','(y2 q / emin e) (x2 q / emaj e)','arguments swapped','C270')
e('el19','point_angle_with_major_dir','(x2 q / emaj e) (y2 q / emin e)','(x2 q / emaj e) (y2 q / emaj e)','wrong axis','C270')
e('el20','ellipse2_rotation','if snd s then minor else neg2 minor','minor','orientation lost','C269')
e('el21','ellipse2_rotation','rotated_center (B2','(ecenter e) (B2','centre not rotated','C269')
e('el22','ellipse2_mapping_old','E2 (emaj e) (emin e)','E2 (emin e) (emaj e)','axes swapped','C269')
e('el23','ellipse2_reverse','(neg2 (minor_dir e))','(minor_dir e)','nothing reversed','C268 (same lists: may survive)')
e('el24','ellipse2_reverse','(B2 (major_dir e) (neg2 (minor_dir e)))','(B2 (neg2 (major_dir e)) (minor_dir e))','major axis reversed','C268')
e('el25','ellipse_vertical_intersections','x1 ^ 2 / emaj e ^ 2','x1 ^ 2 / emin e ^ 2','wrong axis','C262')
e('el26','ellipse_vertical_intersections','[V2 x1 y1; V2 x1 (- y1)]','[V2 x1 y1]','one point only','C262 complete')
e('el27','ellipse_local_intersections','let b := 2 * m * k / emin e ^ 2 in','let b := m * k / emin e ^ 2 in','factor 2','C262')
e('el28','ellipse_local_intersections','k ^ 2 / emin e ^ 2 - 1','k ^ 2 / emin e ^ 2 + 1','sign of c','C262')
e('el29','ellipse_local_intersections','if Rltb (4 * a * c) (b ^ 2)','if Rleb (4 * a * c) (b ^ 2)','tangent lines kept (the fix)','C263')
e('el30','ellipse_local_intersections','(- b - s) / (2 * a)) (m * ((- b - s) / (2 * a)) + k)','(- b - s) / (2 * a)) (m * ((- b + s) / (2 * a)) + k)','y of the other point','C262')
e('el31','ellipse2_line_intersections','Ok (map (frame2_l2g (ef e)) r)','Ok r','not mapped back','C262')
e('el32','ellipse2_line_intersections','if Rltb (emaj e + tol) d','if Rltb (emin e + tol) d','minor axis','C262 complete')
e('el33','ellipse_is_local','&& is_close2 (ecenter e) O2D (/ 10 ^ 6)','','centre not looked at','C262')
e('el34','ellipse2_line_intersections','if negb (ellipse_is_local e) then','if ellipse_is_local e then','branches swapped','C262')
e('el35','ellipse3_bounding_box','add3 o (mul3 (bv b) (emin3 e)); sub3 o (mul3 (bv b) (emin3 e))','add3 o (mul3 (bv b) (emaj3 e)); sub3 o (mul3 (bv b) (emaj3 e))','major axis twice','C265')
e('el36','ellipse3_point_belongs','Ok (isclose (x3 q ^ 2 / emaj3 e ^ 2 + y3 q ^ 2 / emin3 e ^ 2) 1 tol)','Ok (isclose (x3 q ^ 2 / emaj3 e ^ 2 + y3 q ^ 2 / emin3 e ^ 2) 1 tol && isclose (z3 q) 0 tol)','height looked at (the fix)','C273')
e('el37','ellipse3_point_belongs','y3 q ^ 2 / emin3 e ^ 2','y3 q ^ 2 / emaj3 e ^ 2','wrong axis','C272')
e('el38','ellipse3_discretization','(emin3 e * sin t)','(emin3 e * cos t)','cos twice','C267')
e('el39','ellipse3_translation','E3 (emaj3 e) (emin3 e) (frame3_translation (ef3 e) o)','E3 (emaj3 e) (emin3 e) (ef3 e)','not moved','C269')
save('mutants17', g, t, h, e)
