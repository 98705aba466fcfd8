from mutlib import *
c = Set('Model/Curves.v', ['P_Curves'])
c('cu1','line2_point_distance','normal_vector2 (dir2 l)','dir2 l','direction instead of the normal','C102')
c('cu2','line2_point_distance','Rabs (dot2 vector_v vector_r)','dot2 vector_v vector_r','absolute value dropped','C102')
c('cu3','get_slope','(y2 (snd l) - y2 (fst l)) / (x2 (snd l) - x2 (fst l))','(x2 (snd l) - x2 (fst l)) / (y2 (snd l) - y2 (fst l))','slope inverted','C104')
c('cu4','get_y_intersection','y2 (fst l) - slope','y2 (fst l) + slope','sign','C104')
c('cu5','line2_line_intersections','Ok [fst p1]','Ok [fst m]','first point of the other line','C102')
c('cu6','line3_point_distance','cross3 vector1 vector2','cross3 vector1 p','wrong vector','C102')
c('cu7','line3_point_distance','/ norm3 vector2','/ norm3 vector1','divided by the wrong norm','C102')
c('cu8','line3_point_belongs','Rltb d tol','Rltb tol d','comparison reversed','C102')
c('cu9','line3_line_distance','(cross3 d1 (sub3 (fst m) (fst l)))','(cross3 d1 (sub3 (snd m) (snd l)))','other ends: same for parallel lines only when equal lengths','C102')
c('cu10','line3_line_distance','Rabs (dot3 (sub3 (fst m) (fst l)) (cross3 d1 d2)) / n','Rabs (dot3 (sub3 (fst m) (fst l)) (cross3 d1 d2))','not normalised','C102')
c('cu11','line3_skew_to','negb (isclose d 0 (/ 10 ^ 6))','isclose d 0 (/ 10 ^ 6)','negation dropped','C102')
c('cu12','line3_intersection','(dot3 v d2 * dot3 d2 d1 - dot3 v d1 * dot3 d2 d2) / den','(dot3 v d2 * dot3 d2 d1 + dot3 v d1 * dot3 d2 d2) / den','sign in the parameter','C102')
c('cu13','line3_intersection','point_projection3 l (fst m)','point_projection3 m (fst l)','projection on the other line','C102')
c('cu14','line3_intersection','|| negb (isclose dist 0 tol)','','skew lines not rejected','C102')
c('cu15','circle2_of','neg2 Y2D','Y2D','clockwise circles ignored','C103')
c('cu16','circle_center_from_3_points','x2 p3 ^ 2 + y2 p3 ^ 2 - x2 p1 ^ 2 - y2 p1 ^ 2','x2 p3 ^ 2 + y2 p3 ^ 2 - x2 p2 ^ 2 - y2 p2 ^ 2','wrong right-hand side','C103')
c('cu17','circle_center_from_3_points','(2 * (y2 p1 - y2 p3))','(y2 p1 - y2 p3)','factor 2 missing','C103')
c('cu18','circle2_from_3_points','point_distance2 p1 c','point_distance2 p1 p2','radius','C103')
c('cu19','circle2_area','cr2 c ^ 2','cr2 c','radius not squared','C103')
c('cu20','circle2_second_moment','/ 4','/ 2','polar moment','C103')
c('cu21','circle2_length','TWO_PI * cr2 c','PI * cr2 c','half length','C103')
c('cu22','circle2_translation','(frame2_translation (cf2 c) o)','(cf2 c)' if False else '(frame2_translation (cf2 c) (neg2 o))','translated backwards','C103')
c('cu23','circle2_point_symmetric','(mul2 p 2)','p','factor 2 missing','C103')
c('cu24','circle2_axial_symmetry','sub2 s (center2 c)','sub2 (center2 c) s','translated the other way','C103')
c('cu25','circle2_reverse','neg2 (v2','neg2 (u2','wrong vector','C103')
c('cu26','circle2_point_belongs','(cr2 c + tol)','(cr2 c - tol)','tolerance subtracted','C103')
c('cu27','circle2_point_belongs','Rltb (point_distance2 p (center2 c)) (cr2 c)','Rleb (point_distance2 p (center2 c)) (cr2 c)','edge included','C103')
c('cu28','circle2_point_distance','Rabs (point_distance2 p (center2 c) - cr2 c)','(point_distance2 p (center2 c) - cr2 c)','negative inside','C103')
c('cu29','circle2_rectangle','(x2 (center2 c) + cr2 c)','(x2 (center2 c))','right half missing','C103')
c('cu30','circle2_helper','- 4 * a * c0','- 2 * a * c0','discriminant','C104')
c('cu31','circle2_helper','- b / 2 * a','- b / (2 * a)','tangent abscissa fixed: the refutation must fail','C104')
c('cu32','circle2_helper','(- b - sqrt delta) / (2 * a)','(- b + sqrt delta) / (2 * a)','same root twice','C104')
c('cu33','circle2_helper','[V2 x_line (- s); V2 x_line s]','[V2 x_line s; V2 x_line s]','same point twice','C104')
c('cu34','circle2_line_intersections','Rltb (cr2 c + tol) d','Rltb (cr2 c - tol) d','tangent lines rejected','C104')
c('cu35','circle2_line_intersections','sub2 (center2 c) (mul2 u (cr2 c))','add2 (center2 c) (mul2 u (cr2 c))','same point twice','C104')
c('cu36','circle2_line_intersections','map (frame2_l2g (cf2 c)) i','i' if False else 'map (frame2_l2g f) i','mapped back with the wrong frame','C104')
c('cu37','get_circle_intersections','r1 ^ 2 - r2 ^ 2 + d ^ 2','r2 ^ 2 - r1 ^ 2 + d ^ 2','radii swapped','C105')
c('cu38','get_circle_intersections','Rltb (r1 + r2) d','Rltb d (r1 + r2)','comparison reversed','C105')
c('cu39','get_circle_intersections','if Rltb d (Rabs (r1 - r2)) then Ok []','if Rltb d (r1 - r2) then Ok []','absolute value dropped','C105')
c('cu40','get_circle_intersections','(yy + h * (x1 - x0) / d)','(yy - h * (x1 - x0) / d)','sign in the second point','C105')
c('cu41','circle2_circle_intersections','then acc else','then [] else','duplicates empty the list','C105')
c('cu42','circle2_abscissa','cr2 c * Rabs (sin_cos_angle','Rabs (sin_cos_angle','angle instead of length','C106')
c('cu43','circle2_point_at_abscissa','sign * s / cr2 c','s / cr2 c','direction of travel ignored','C106')
c('cu44','circle2_point_at_abscissa','sign * s / cr2 c','sign * s','angle for length','C106')
c('cu45','linspace_2pi','INR (n - 1)','INR n','last point missing','C106')
c('cu46','circle2_discretization','(cr2 c * sin t)','(cr2 c * cos t)','cosine twice','C106')
c('cu47','circle3_point_belongs',' && ',' || ','or for and','C107')
c('cu48','circle3_corners','neg3 (bv (fb3 (cf3 c)))','bv (fb3 (cf3 c))','one extreme point missing','C107')
c('cu49','circle3_from_center_normal','(cross3 normal u)','(cross3 u normal)','indirect frame','C107')
c('cu50','circle3_from_3_points','mul3 (add3 p2 p3) (1 / 2)','add3 p2 p3','midpoint not halved','C107')
c('cu51','circle3_from_3_points','(norm3 (sub3 c p1))','(norm3 (sub3 p2 p1))','radius','C107')
c('cu52','circle3_abscissa','(x3 q / cr3 c) (y3 q / cr3 c)','(y3 q / cr3 c) (x3 q / cr3 c)','coordinates swapped','C106')
c('cu53','circle3_point_at_abscissa','(s / cr3 c)','(- s / cr3 c)','travelled backwards','C106')
c('cu54','circle3_discretization','(mul3 (bv (fb3 (cf3 c)))','(mul3 (bw (fb3 (cf3 c)))','out of the plane','C106')
c('cu55','circle3_reverse','neg3 (bv','(bv' if False else 'neg3 (bu','flat frame','C107')
c('cu56','line2_line_distance','point_projection2 l (fst m)','point_projection2 m (fst l)','projection of the other line','C102')
e = Set('Model/Edges.v', ['P_Edges'])
e('ed1','segment2','if eqb2 s e then Err ValueError else Ok (s, e)','Ok (s, e)','degenerate segments accepted','C108')
e('ed2','sg2_abscissa','Ok (sg2_length s)','Ok 0','end reported at abscissa 0','C108')
e('ed3','sg2_abscissa','vector / length','vector','not normalised','C108')
e('ed4','sg2_abscissa','|| Rltb (length + / 10 ^ 9) t','','points beyond the end accepted','C108')
e('ed5','sg3_abscissa','(sub3 p (fst s))','(sub3 p (snd s))','measured from the end','C108')
e('ed6','sg3_abscissa','Rltb t (- / 10 ^ 9)','Rltb t (/ 10 ^ 9)','sign of the margin','C108')
e('ed7','sg2_point_at_abscissa','unit_vector2 (dir2 s)','Ok (dir2 s)','direction not normalised','C108')
e('ed8','sg3_point_at_abscissa','add3 (fst s)','add3 (snd s)','from the end','C108')
e('ed9','sg2_middle','(1 / 2)','1','not halved','C108')
e('ed10','sg3_middle','(snd s)','(fst s)','start point','C108')
e('ed11','number_of_points','(n <=? 1)%Z','(n <=? 0)%Z','one point allowed','C108')
e('ed12','sg2_discretization','IZR (n - 1)','IZR n','last point missing','C108')
e('ed13','sg3_discretization','(seq 0 (Z.to_nat n))','(seq 0 (Z.to_nat (n - 1)))','one point less','C108')
e('ed14','linspace','INR (n - 1)','INR n','last value missing','C108')
e('ed15','abscissa_points2','(abs ++ [a])','abs','abscissas not recorded','C108')
e('ed16','sg2_local_discretization','sg2_abscissa_discretization s a1 a2 n','sg2_abscissa_discretization s 0 a2 n','first point ignored','C108')
e('ed17','sg2_split','segment2 p (snd s)','segment2 p (fst s)','second part goes back','C109')
e('ed18','sg2_split','then Ok (None, Some s)','then Ok (Some s, None)','sides swapped at the start','C109')
e('ed19','sg3_split','segment3 (fst s) p','segment3 p (fst s)','first part reversed','C109')
e('ed20','sg2_point_belongs','isclose d 0 tol','isclose d 1 tol','wrong target distance','C110')
e('ed21','sg2_reverse','(snd s) (fst s)','(fst s) (snd s)','not reversed','C109')
e('ed22','sg2_is_close','is_close2 (snd s) (snd t) tol','is_close2 (snd s) (fst t) tol','ends mixed','C109')
e('ed23','sg2_is_close_any_direction','sg2_is_close r t tol','sg2_is_close s t tol','reverse not tried','C109')
e('ed24','sg2_trim','if in_first then fst split1 else snd split1','if in_first then snd split1 else fst split1','wrong part','C109')
e('ed25','sg2_trim','if k2 then snd split2 else None','if k2 then fst split2 else None','wrong part','C109')
e('ed26','sg2_pick','sg2_point_belongs e p2 (/ 10 ^ 4)','Ok true','second point not tested','C109')
e('ed27','sg2_rectangle','(Rmax (y2 (fst s)) (y2 (snd s)))','(y2 (snd s))','order of the points assumed','C110')
e('ed28','sg3_bounding_box','(Rmin (z3 (fst s)) (z3 (snd s)))','(z3 (fst s))','order of the points assumed','C113')
e('ed29','is_colinear_to2','Rabs (dot2 u v)','dot2 u v','opposite directions not colinear','C110')
e('ed30','sg2_point_projection','|| Rltb (sg2_length s) a','','projection beyond the end accepted','C110')
e('ed31','sg2_point_projection','else Ok (None, a)','else Ok (Some q, a)','projection outside accepted','C110')
e('ed32','sg2_line_intersections','if b then Ok [fst s]','if b then Ok [snd s]','wrong end','C110')
e('ed33','sg2_line_intersections','None => Ok [] | Some q => Ok [q]','None => Ok [p] | Some q => Ok [q]','point outside the segment reported','C110')
e('ed34','sg2_line_crossings','then Ok [] else Ok i','then Ok i else Ok []','crossings reversed','C110')
e('ed35','sg2_intersections','match fst r2 with None => Ok [] |','match fst r2 with None => Ok [q1] |','other segment not tested','C110')
e('ed36','sg2_intersections','Rltb tol (rect_distance','Rltb (- tol) (rect_distance','touching rectangles rejected','C110')
e('ed37','sg2_closest_point','Rmax 0 (Rmin','Rmax 1 (Rmin','clamped to the end','C111')
e('ed38','sg2_closest_point','(Rmin (dot2 (sub2 p (fst s)) v / dot2 v v) 1)','(dot2 (sub2 p (fst s)) v / dot2 v v)','not clamped at the end','C111')
e('ed39','first_least','Rltb d m','Rltb m d','largest kept','C111')
e('ed40','sg2_distance','(d, snd s)]','(d, fst s)]','wrong pair','C111')
e('ed41','sg2_distance','[(a, fst t); (b, snd t); (c, fst s); (d, snd s)]','[(a, fst t); (b, snd t)]','two candidates missing','C111')
e('ed42','sg2_distance','Ok (0, p, p)','Ok (1, p, p)','distance of crossing segments','C111')
e('ed43','line2_closest_point','/ dot2 v v in','in','not normalised','C111') if False else e('ed43','line2_closest_point','y2 (fst l) + t','y2 (fst l) - t','sign','C111')
e('ed44','sg2_line_distance','if Rltb d1 d2 then','if Rltb d2 d1 then','farthest end','C111')
e('ed45','sg2_line_distance','Ok (point_distance2 c (fst s), fst s, c)','Ok (0, fst s, c)','parallel at distance 0','C111')
e('ed46','all_belong','else Ok false','else Ok true','one point is enough','C112')
e('ed47','any_belong','if b then Ok true','if b then Ok false','reversed','C112')
e('ed48','shared_of_split','match e2 with None => Ok false | Some e => all_belong other (three_points e) tol end','match e2 with None => Ok false | Some e => Ok true end','second part always shared','C112')
e('ed49','sg2_generic_shared','if b then Ok [t]','if b then Ok [s]','wrong segment','C112')
e('ed50','sg2_generic_shared','sg2_split s (snd t) tol','sg2_split s (fst t) tol','split at the wrong end','C112')
e('ed51','sg2_shared_section','negb (is_colinear_to2','(is_colinear_to2','negation dropped','C112')
e('ed52','sg2_shared_section','if a then Ok true else any_belong t [fst s; snd s] tol','if a then Ok true else Ok false','containing segment missed','C112')
e('ed53','sg3_line_intersections','if b then Ok (match i with','if negb b then Ok (match i with','test reversed','C113')
e('ed54','sg3_line_intersections','if b then Ok [snd s] else Ok []','if b then Ok [snd s] else Ok [fst s]','spurious point','C113')
e('ed55','sg3_intersections','if b2 then Ok [p] else Ok []','Ok [p]','other segment not tested','C113')
e('ed56','sg3_contains','PI) p','(PI / 2)) p','quarter turn','C113')
e('ed57','sg3_bspline_points','INR i / sg3_length s','INR i * sg3_length s / INR resolution','evenly spaced over the length: the refutation must fail','C113')
e('ed58','sg3_distance','Ok (point_distance3 p1 p2, p1, p2)','Ok (point_distance3 p1 p1, p1, p2)','distance to itself','C113')
e('ed59','sg3_distance','Rltb (point_distance3 (fst t) p2) (point_distance3 (snd t) p2) then fst t else snd t','Rltb (point_distance3 (fst t) p2) (point_distance3 (snd t) p2) then snd t else fst t','farthest end','C113')
e('ed60','sg2_length','(snd s) (fst s)','(fst s) (fst s)','zero length','C108')
save('mutants8', c, e)
