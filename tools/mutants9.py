from mutlib import *
a = Set('Model/Arcs.v', ['P_Arcs'])
a('ar1','circle2_is_trigo','Rltb 0 (cross2 (u2 (fb2 (cf2 c))) (v2 (fb2 (cf2 c))))','Rltb 0 (cross2 (v2 (fb2 (cf2 c))) (u2 (fb2 (cf2 c))))','swapped arguments of the cross product','is_trigo tells whether the circle turns counterclockwise')
a('ar2','arc_point_angle','sin_cos_angle (x2 l / cr2 c) (y2 l / cr2 c)','sin_cos_angle (y2 l / cr2 c) (x2 l / cr2 c)','swapped cosine and sine','the stored angles are those of the end points')
a('ar3','arc_point_angle','if Reqb (cr2 c) 0 then Err ZeroDivisionError else Ok','if Reqb (cr2 c) 0 then Ok 0 else Ok','no division by zero','a zero radius is refused')
a('ar4','arc2_new','if Rleb end_angle start_angle then end_angle + TWO_PI else end_angle','if Rltb end_angle start_angle then end_angle + TWO_PI else end_angle','<= became <','an arc whose ends coincide is a full turn')
a('ar5','arc2_new','if Rleb end_angle start_angle then end_angle + TWO_PI else end_angle','end_angle','the unwrapping is dropped','the angle of an arc is in ]0, 2 pi]')
a('ar6','arc2_new','end_angle + TWO_PI','end_angle + PI','adds pi rather than 2 pi','the stored angles are those of the end points')
a('ar7','arc2_length','cr2 (ac a) * Rabs (arc2_angle a)','Rabs (arc2_angle a)','the radius is forgotten','length = radius * angle')
a('ar8','get_arc_point_angle','then t + TWO_PI else t','then t else t','the unwrapping is dropped','the angle of a point is after the start angle')
a('ar9','arc2_at','if arc2_is_trigo a then abscissa / cr2 (ac a) else - abscissa / cr2 (ac a)','abscissa / cr2 (ac a)','the direction of turn is ignored','point_at_abscissa(length) is the end')
a('ar10','arc2_at','rotation2 (ast a)','rotation2 (aen a)','starts from the end point','point_at_abscissa(0) is the start')
a('ar11','arc2_middle','arc2_length a / 2','arc2_length a','no halving','the middle point is half way')
a('ar12','arc2_normal_vector','sub2 (center2 (ac a)) p','sub2 p (center2 (ac a))','swapped subtraction','the normal points to the center')
a('ar13','arc2_direction_vector','neg2 (normal_vector2 n)','normal_vector2 n','the opposite is dropped','the direction vector is along the travel')
a('ar14','arc2_number_points','- rfloor (- (arc2_angle a * IZR r)) + 1) 2','- rfloor (- (arc2_angle a * IZR r)) + 1) 1','at least one point','discretization starts and stops at the ends')
a('ar15','arc2_number_points','- rfloor (- (arc2_angle a * IZR r)) + 1','rfloor (arc2_angle a * IZR r) + 1','floor instead of ceil','the angle step is at most 1/resolution')
a('ar16','arc2_discretization','arc2_length a / IZR (n - 1)','arc2_length a / IZR n','step for n intervals','discretization stops at the end')
a('ar17','arc2_discretization','(seq 0 (Z.to_nat n))','(seq 1 (Z.to_nat n))','starts with index 1','discretization starts at the start')
a('ar18','arc2_reverse','arc2_new (circle2_reverse (ac a))','arc2_new (ac a)','the circle is not reversed','the reverse arc has the same points')
a('ar19','arc2_complementary','arc2_new (ac a) (aen a) (ast a)','arc2_new (ac a) (ast a) (aen a)','ends not exchanged','the complementary is the rest of the circle')
a('ar20','arc2_split','do c <- arc2_new (ac a) p (aen a)','do c <- arc2_new (ac a) (aen a) p','swapped ends of the second part','split cuts the arc at the point')
a('ar21','arc2_split','if is_close2 p (aen a) tol then Ok (Some a, None)','if is_close2 p (aen a) tol then Ok (None, Some a)','swapped parts','split at the end gives (arc, None)')
a('ar22','arc2_clockwise','if arc2_is_trigo a then arc2_reverse a else Ok a','if arc2_is_trigo a then Ok a else arc2_reverse a','test negated','point_belongs accepts the points of the arc')
a('ar23','arc2_point_belongs','Ok (isclose_rel arc_angle (point_start_angle + point_end_angle) (1 / 100))','Ok (isclose_rel arc_angle (point_start_angle - point_end_angle) (1 / 100))','sum became difference','point_belongs accepts the points of the arc')
a('ar24','arc2_point_belongs','is_close2 p (ast a) tol || is_close2 p (aen a) tol','is_close2 p (ast a) tol','the end is not tested','the end belongs to the arc')
a('ar25','arc2_point_belongs','(5 / 1000)) then Ok false','(5 / 1000)) then Ok true','answers true outside the circle','points far from the circle are refused')
a('ar26','arc2_abscissa','if arc2_is_trigo a then arc2_length a - cr2 (ac a) * point_start_angle else cr2 (ac a) * point_start_angle','cr2 (ac a) * point_start_angle','direction of turn ignored','abscissa inverts point_at_abscissa')
a('ar27','arc2_abscissa','then Ok 0','then Ok (arc2_length a)','the start has the abscissa of the end','abscissa(start) = 0')
a('ar28','arc2_abscissa','tol) then Err ValueError\n','tol) then Ok 0\n','no error','points off the circle raise ValueError')
a('ar29','arc2_from_3_points','if b then Ok a else arc2_new (circle2_reverse c) p1 p3','Ok a','the direction of turn is not chosen','the arc goes through the middle point')
a('ar30','arc2_from_3_points','if b then Ok a else arc2_new (circle2_reverse c) p1 p3','if b then Ok a else arc2_new (circle2_reverse c) p3 p1','ends exchanged','the arc goes from p1 to p3')
a('ar31','arc2_area','arc2_angle a / 2','arc2_angle a','half dropped','area of the sector')
a('ar32','arc2_center_of_mass','4 / (3 * arc2_angle a)','2 / (3 * arc2_angle a)','2/3 rather than 4/3','center of mass of the sector')
a('ar33','arc2_center_of_mass','sin (arc2_angle a * (1 / 2))','sin (arc2_angle a)','half angle dropped','center of mass of the sector')
a('ar34','arc2_straight_line_area','if arc2_is_trigo a then area else - area','area','sign dropped','signed area of the segment')
a('ar35','arc2_straight_line_area','PI * r ^ 2 - 1 / 2','PI * r ^ 2 + 1 / 2','sign error','area of the big segment')
a('ar36','arc2_sector_moments','(sin (2 * angle1) - sin (2 * angle2))','(sin (2 * angle2) - sin (2 * angle1))','Ix gets the sign of Iy','second moments of the sector')
a('ar37','arc2_sector_moments','cos angle1 ^ 2 - cos angle2 ^ 2','cos angle2 ^ 2 - cos angle1 ^ 2','sign error','second moments of the sector')
a('ar38','arc2_second_moment_area','huygens2d ix iy ixy (arc2_area a)','huygens2d iy ix ixy (arc2_area a)','Ix and Iy swapped','second moments of the sector')
a('ar39','arc2_straight_line_second_moment_area','(x1 - x2, y1 - y2, xy1 - xy2)','(x1 + x2, y1 + y2, xy1 + xy2)','triangle added','second moments of the segment')
a('ar40','arc2_straight_line_center_of_mass','2 / 3 * height','1 / 3 * height','1/3','center of mass of the segment')
a('ar41','arc2_straight_line_center_of_mass','if Rltb (arc2_angle a) PI then sub2 sector triangle else add2 sector triangle','add2 sector triangle','triangle always added','center of mass of the segment')
a('ar42','arc2_bounding_rectangle','(fold_left Rmin (map y2 l) (y2 p))','(fold_left Rmax (map y2 l) (y2 p))','min became max','the rectangle contains the discretization')
a('ar43','arc2_line_intersections','filterM (fun p => arc2_point_belongs a p (/ 10 ^ 6)) i','Ok i','no filter','the intersections are on the arc')
a('ar44','circle2_linesegment_intersections','filterM (fun p => sg2_point_belongs s p (/ 10 ^ 6)) i','Ok i','no filter','the intersections are on the segment')
a('ar45','arc2_linesegment_intersections','then Ok []\n','then Err ValueError\n','error','disjoint rectangles give no intersection')
a('ar46','arc2_arc_intersections','(ac a) (ac b)','(ac a) (ac a)','the same circle twice','the intersections are on both circles')
a('ar47','circle2_arc_intersections','filterM (fun p => arc2_point_belongs a p tol) i','Ok i','no filter','the intersections are on the arc')
a('ar48','arc2_point_distance','Ok (sg2_length s - r)','Ok (r - sg2_length s)','sign error','distance to the arc')
a('ar49','arc2_point_distance','Rmin (point_distance2 (ast a) p)','Rmax (point_distance2 (ast a) p)','min became max','distance to the arc')
a('ar50','arc2_straight_line_point_belongs','Rltb d (point_distance2 c q)','Rltb (point_distance2 c q) d','comparison reversed','straight_line_point_belongs')
a('ar51','arc2_rotation','(rotation2 (aen a) c angle)','(rotation2 (aen a) c (- angle))','wrong sign','rotation moves every point of the arc')
a('ar52','arc2_translation','(translation2 (aen a) o)','(aen a)','the end is not moved','translation moves every point of the arc')
a('ar53','arc2_infinite_primitive','cr2 (ac a) + offset else cr2 (ac a) - offset','cr2 (ac a) - offset else cr2 (ac a) + offset','wrong side','the offset arc')
a('ar54','arc2_infinite_primitive','Rltb radius 0 then Ok None','Rltb radius 1 then Ok None','threshold','None only for negative radii')
a('ar55','arc2_axial_symmetry','do e <- axial_symmetry2 (aen a) l','do e <- axial_symmetry2 (ast a) l','wrong point','axial symmetry of the ends')
g = Set('Model/Grid.v', ['P_Grid'])
g('gr1','linspace','(INR n - 1)','INR n','n intervals','the last point is the upper limit')
g('gr2','linspace','1%nat => [a]','1%nat => [b]','the last value','one point is the first limit')
g('gr3','grid_from_properties','let y := if sy then linspace ymin ymax points_y else linspace ymax ymin points_y in\n    Ok (Grid (map (fun yi','let y := if sx then linspace ymin ymax points_y else linspace ymax ymin points_y in\n    Ok (Grid (map (fun yi','the sign of x decides for y','directions of the grid')
g('gr4','grid_from_properties','Ok (Grid (map (fun xi => map (fun yi => V2 xi yi) y) x) direction)','Ok (Grid (map (fun yi => map (fun xi => V2 xi yi) x) y) direction)','rows and columns exchanged','layout of the grid')
g('gr5','grid_from_properties','| _ => Err KeyError','| _ => Ok (Grid [] direction)','no error','unknown directions raise KeyError')
g('gr6','chunks','firstn n l :: chunks f n (skipn n l)','firstn n l :: chunks f n (skipn (S n) l)','one point skipped','from_points keeps every point')
g('gr7','grid_from_points','O => Err ValueError','O => Ok (Grid [] direction)','no error','0 raises ValueError')
g('gr8','grid_points','concat (rows g)','concat (rev (rows g))','reversed rows','points are in row order')
g('gr9','grid_pattern','do p3 <- cell g (i + 1) (j + 1)','do p3 <- cell g i j','wrong corner','cells of the grid')
g('gr10','grid_pattern','(seq 0 (length_2 - 1))','(seq 0 length_2)','one too many','number of polygons')
g('gr11','limits_xy','Rmax (x2 p) (x2 q)','Rmin (x2 p) (x2 q)','max became min','limits')
g('gr12','limits_xy','do rn <- get_last (rows g)','do rn <- get (rows g) 0','first row','limits')
g('gr13','find_direction_index','None => Err ValueError','None => Ok 0%nat','no error','missing axis')
g('gr14','points_xy','O => (length r, length (rows g))','O => (length (rows g), length r)','exchanged','numbers of points')
g('gr15','displacement','sub2 q p','sub2 p q','sign','displacement')
s = Set('Model/Stl.v', ['P_Stl'])
s('st1','le_bytes','x mod 256 :: le_bytes k (x / 256)','x mod 256 :: le_bytes k (x / 128)','wrong shift','saved files are read back')
s('st2','read_bytes','(length s <? n)%nat','(length s <=? n)%nat','boundary','a complete file is read')
s('st3','read_point','Ok ((x, y, z), s)','Ok ((x, z, y), s)','y and z swapped','saved files are read back')
s('st4','pad_name','firstn 80 (name','firstn 79 (name','79 bytes','size of the header')
s('st5','pad_name','repeat 0 80','repeat 32 80','padded with spaces','the name is padded with zeros')
s('st6','pack_facet','pack_point (0, 0, 0) ++ pack_point p1','pack_point p1','no normal','saved files are read back')
s('st7','pack_facet','pack_point p1 ++ pack_point p2','pack_point p2 ++ pack_point p1','order of the points','saved files are read back')
s('st8','pack_facet','le_bytes 2 0','le_bytes 4 0','four bytes of attributes','50 bytes by facet')
s('st9','stl_save','if 2 ^ 32 <=?','if 2 ^ 33 <=?','limit','too many triangles raise an error')
s('st10','read_facets','do (_, s) <- read_uint 2 s;\n','','the attribute is not read','saved files are read back')
s('st11','stl_load','filter valid l','l','invalid triangles kept','degenerate triangles are dropped')
s('st12','stl_load','read_facets (Z.to_nat n) s','read_facets (Z.to_nat n - 1) s','one facet less','saved files are read back')
s('st13','remove_all','(length p - 1)','(length p)','one character too many','text files are read')
s('st14','text_step','points ++ [(strip','[(strip','only the last vertex is kept','text files are read')
s('st15','text_step','=> Ok ([], if valid','=> Ok (points, if valid','the points are not reset','text files are read')
s('st16','text_step','| _ => Err IndexError','| _ => Ok (points, triangles)','no error','an endfacet without three vertices raises IndexError')
s('st17','text_step','(strip is_space x, strip is_space y, strip is_space z)','(strip is_space x, strip is_space z, strip is_space y)','y and z swapped','text files are read')
s('st18','stl_load_text','skipn 6 header','skipn 5 header','wrong prefix','name of a text file')
s('st19','pop_at','skipn (S i) l','skipn i l','nothing popped','clean_flat_triangles removes the flat ones')
s('st20','clean_flat','fold_left pop_at (rev invalid) triangles','fold_left pop_at invalid triangles','popped from the first','clean_flat_triangles keeps the others')
save('mutants9', a, g, s)
