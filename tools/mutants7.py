from mutlib import *
p = Set('Model/Plane.v', ['P_Plane'])
p('pl1','py_round','rfloor (y + 1 / 2)','rfloor y','rounding replaced by truncation','C101') if False else None
p('pl2','point_to_3d','py_round 12 (z3 q)','py_round 12 (y3 q)','wrong coordinate','C101')
p('pl3','plane_coefficients','(- dot3 (org3 f) w)','(dot3 (org3 f) w)','sign of the constant','C97')
p('pl4','plane_point_distance','(a ^ 2 + b ^ 2 + c ^ 2)','(a ^ 2 + b ^ 2)','third coefficient missing in the norm','C97')
p('pl5','plane_point_distance','Rabs (dot3 (bw (fb3 f)) p + d)','(dot3 (bw (fb3 f)) p + d)','absolute value dropped','C97')
p('pl6','plane_point_belongs','(sub3 p (org3 f))','p','origin of the plane ignored','C97')
p('pl7','plane_from_3_points','(cross3 normal vector1)','(cross3 vector1 normal)','second vector of the frame reversed','C98')
p('pl8','plane_from_3_points','unit_vector3 (sub3 p3 p1)','unit_vector3 (sub3 p3 p2)','wrong second direction','C98')
p('pl9','plane_from_normal','(cross3 v1 normal)','(cross3 normal v1)','orientation of the frame','C98')
p('pl10','plane_from_vectors','(cross3 x y)','(cross3 y x)','normal reversed','C98')
p('pl11','fp_step','Rltb dot dot_min','Rltb dot_min dot','keeps the most colinear direction','C98')
p('pl12','fp_step','unit_vector3 (sub3 point origin)','unit_vector3 point','origin ignored','C98')
p('pl13','plane_from_points','plane_from_3_points p0 (add3 vector1 p0) (add3 v p0)','plane_from_3_points p0 (add3 vector1 p0) (add3 vector2 p0)','minimum not used','C98')
p('pl14','plane_from_points','negb (is_close3','(is_close3','keeps the points close to the first one','C98')
p('pl15','angle_between_planes','Ok (acos d)','Ok (asin d)','sine for cosine','C101')
p('pl16','plane_is_parallel','(bw (fb3 f)) (bw (fb3 g))','(bw (fb3 f)) (bu (fb3 g))','wrong vector of the other plane','C101')
p('pl17','plane_is_coincident','plane_point_belongs g (org3 f) tol','plane_point_belongs g (org3 g) tol','own origin tested','C101')
p('pl18','plane_is_coincident',' && ',' || ','or for and','C101')
p('pl19','plane_2d_to_3d','(bv (fb3 f))','(bw (fb3 f))','wrong axis','C101')
p('pl20','plane_array','(y2 p)','(x2 p)','u used twice','C101')
p('pl21','plane_3d_to_2d','(bu (fb3 f)) (bv (fb3 f))','(bv (fb3 f)) (bu (fb3 f))','axes swapped','C101')
p('pl22','plane_line_intersections','- dot3 w w_vector','dot3 w w_vector','sign of the parameter','C99')
p('pl23','plane_line_intersections','add3 (fst line)','add3 (snd line)','wrong start point','C99')
p('pl24','plane_line_intersections','if isclose (dot3 w u_vector) 0 tol then []','if isclose (dot3 w u_vector) 0 tol then [fst line]','parallel line reported','C99')
p('pl25','plane_linesegment_intersections','Rltb t 0 || Rltb 1 t','Rltb t 0','upper bound of the segment not tested','C99')
p('pl26','plane_linesegment_intersections','if isclose t 1 tol then Ok [snd seg]','if isclose t 1 tol then Ok [fst seg]','wrong end reported','C99')
p('pl27','plane_linesegment_intersections','isclose (Rabs t) 0 tol','isclose (Rabs t) 1 tol','wrong bound','C99')
p('pl28','two_planes_point','(V3 ((b1 * d2 - b2 * d1) / (a1 * b2 - a2 * b1))','(V3 ((b2 * d1 - b1 * d2) / (a1 * b2 - a2 * b1))','sign of x','C100')
p('pl29','two_planes_point','((a1 * d2 - a2 * d1) / (a2 * c1 - a1 * c2))','((a1 * d2 + a2 * d1) / (a2 * c1 - a1 * c2))','sign in z, second case','C100')
p('pl30','two_planes_point','(- c2 * d1 + c1 * d2)','(c2 * d1 + c1 * d2)','sign in y, third case','C100')
p('pl31','two_planes_intersections','cross3 (bw (fb3 f)) (bw (fb3 g))','add3 (bw (fb3 f)) (bw (fb3 g))','direction of the line','C100')
p('pl32','two_planes_intersections','if is_colinear_to3 (bw (fb3 f)) (bw (fb3 g)) tol then Ok None','if is_colinear_to3 (bw (fb3 f)) (bw (fb3 f)) tol then Ok None','colinearity with itself: never an intersection','C100')
p('pl33','plane_between_two_planes','unit_vector3 (add3 (bw (fb3 f)) (bw (fb3 g)))','unit_vector3 (sub3 (bw (fb3 f)) (bw (fb3 g)))','difference of the normals','C101')
p('pl34','plane_between_two_planes','(add3 (org3 f) (org3 g)) 2','(add3 (org3 f) (org3 g)) 1','middle not halved','C101')
s = Set('Model/ParamSurf.v', ['P_ParamSurf'])
s('ps1','zap','then 0 else x','then x else 0','snapping reversed','C93')
s('ps2','pyclamp','Rmin r (Rmax (- r) z)','Rmin r (Rmax 0 z)','negative values clamped to 0','C93')
s('ps3','cyl_2d_to_3d','(radius * sin (x2 p))','(radius * cos (x2 p))','cosine twice','C92')
s('ps4','cyl_2d_to_3d','(y2 p)))','0))' if False else '(x2 p)))','height replaced by the angle','C92') if False else None
s('ps5','cyl_array','(cos (x2 p))','(sin (x2 p))','sine twice','C92')
s('ps6','cyl_array','(mul3 (add3 x_component y_component) radius)','(add3 x_component (mul3 y_component radius))','radius on one component only','C92')
s('ps7','cyl_3d_to_2d','atan2 y x','atan2 x y','arguments of atan2 swapped','C93')
s('ps8','cyl_3d_to_2d','(V2 theta (z3 l))','(V2 theta (x3 l))','wrong height','C93')
s('ps9','cyl_point_belongs','(radius ^ 2)','radius','radius not squared','C95')
s('ps10','cyl_point_belongs','x3 l ^ 2 + y3 l ^ 2','x3 l ^ 2 + z3 l ^ 2','wrong axis','C95')
s('ps11','cone_2d_to_3d','tan semi_angle * y2 p','sin semi_angle * y2 p','sine for tangent','C92')
s('ps12','cone_array','(y2 p * tan semi_angle)','(tan semi_angle)','height missing','C92')
s('ps13','cone_3d_to_2d','atan2 y x','atan2 (- y) x','sign of the angle','C93')
s('ps14','sphere_2d_to_3d','(radius * sin phi)','(radius * cos phi)','wrong height','C92')
s('ps15','sphere_2d_to_3d','(radius * cos phi * sin theta)','(radius * sin phi * sin theta)','wrong y','C92')
s('ps16','sphere_array','radius * cos (y2 p)','radius','latitude ignored','C92')
s('ps17','sphere_3d_to_2d','asin (z / radius)','acos (z / radius)','colatitude','C93')
s('ps18','sphere_3d_to_2d','pyclamp radius (z3 l)','z3 l','clamp dropped','C93')
s('ps19','torus_2d_to_3d','(minor * sin phi)','(major * sin phi)','wrong radius','C92')
s('ps20','torus_2d_to_3d','((major + minor * cos phi) * sin theta)','((major - minor * cos phi) * sin theta)','sign','C92')
s('ps21','torus_array','major + minor * cos (y2 p)','major + minor','tube angle ignored','C92')
s('ps22','torus_3d_to_2d','then PI - phi','then PI + phi','sign in the inner half','C93')
s('ps23','torus_3d_to_2d','then - PI - phi','then PI - phi','lower inner half','C93')
s('ps24','torus_3d_to_2d','sqrt (minor ^ 2 - z ^ 2)','sqrt (minor ^ 2 + z ^ 2)','sign under the root','C93')
s('ps25','torus_3d_to_2d','then theta - PI else theta + PI','then theta + PI else theta - PI','angle out of range for spindle tori','C93')
s('ps26','torus_point_projection','2 * PI - phi','phi','lower half projected on the upper half','C94')
s('ps27','torus_point_projection','(major * cos theta)','(minor * cos theta)','wrong tube center','C94')
s('ps28','cyl_point_projection','cyl_2d_to_3d f radius q','cyl_2d_to_3d f (2 * radius) q','wrong radius','C94')
s('ps29','sphere_point_projection','sphere_2d_to_3d f radius q','sphere_2d_to_3d f radius (V2 (y2 q) (x2 q))','angles swapped','C94')
s('ps30','cone_point_projection','cone_2d_to_3d f semi_angle q','cone_2d_to_3d f (- semi_angle) q','sign of the semi angle','C94')
s('ps31','surface_point_distance','point_distance3 q p','point_distance3 q q','distance to itself','C94')
s('ps32','surface_point_belongs','Rltb d tol','Rleb tol d','comparison reversed','C95')
s('ps33','torus_corners','let distance := major + minor','let distance := major','tube radius forgotten','C96')
s('ps34','torus_corners','mul3 (bw (fb3 f)) minor','mul3 (bw (fb3 f)) 0','height forgotten','C96')
s('ps35','sphere_corners','(V3 radius radius radius)','(V3 radius radius 0)','upper corner too low','C96')
n = Set('Model/NurbsSurf.v', ['P_Surf'])
n('ns1','table_loop','[] 1','[] 2','rows one point short','C85')
n('ns2','u_domain','(kn (knots_vector_u s) (bs_du s),','(kn (knots_vector_u s) (bs_dv s),','degree of the other direction','C85')
n('ns3','surface_pt','(sv - q + m + nv * (su - p + k))','(su - p + k + nu * (sv - q + m))','rows and columns swapped','C85')
n('ns4','surface_pt','find_span_linear q V nv v','find_span_linear q V nu v','wrong number of points','C85')
n('ns5','surface_pt','basis_function q V sv v','basis_function q V sv u','wrong parameter','C85')
n('ns6','surface_pt','(seq 0 (q + 1))','(seq 0 q)','last basis function dropped','C85')
n('ns7','evaluate_surface','map (project 3)','map (fun x => x)','not projected','C85')
n('ns8','evaluate_surface_c','(linspace start_v stop_v sample_v)','(linspace start_v stop_v sample_u)','wrong sample size','C85')
n('ns9','point2d_to_3d','Rmin (Rmax v (fst (v_domain s))) (snd (v_domain s))','v','v not clamped','C85')
n('ns10','flip_ctrlpts_u','(i + j * size_u)','(j + i * size_v)','points not transposed','C86')
n('ns11','insert_points_u','(v + bs_nv s * k)','(k + bs_nu s * v)','wrong row','C86')
n('ns12','insert_points_u','(bs_nu s + num) (bs_nv s).','(bs_nu s) (bs_nv s).','size not updated','C86')
n('ns13','insert_points_v','(k + bs_nv s * u)','(k + bs_nu s * u)','wrong stride','C86')
n('ns14','insert_u','mults (bs_vm s) knots (bs_vk s)','mults (bs_vm s) (bs_uk s) (bs_vk s)','old knots kept','C86')
n('ns15','insert_v','(bs_nu s) (bs_nv s + num)','(bs_nu s) (bs_nv s)','number of points not updated','C86')
n('ns16','insert_u','check_num && ','','check always on','C86')
n('ns17','insert_knot_surface','insert_v s1 v num_v','insert_v s v num_v','u insertion lost','C86')
n('ns18','construct_split_u','(skipn (cut - 1) T)','(skipn cut T)','shared row dropped','C87')
n('ns19','construct_split_u','(bs_nu s - (cut - 1))','(bs_nu s - cut)','size of the second part','C87')
n('ns20','construct_split_v','(flat_map (firstn cut) T)','(flat_map (firstn (cut - 1)) T)','first part one column short','C87')
n('ns21','split_surface_u','(knot_span + count)','knot_span','cut index','C87')
n('ns22','split_surface_v','find_span_linear (bs_dv s) V (bs_nv s) v - bs_dv s + 1','find_span_linear (bs_dv s) V (bs_nv s) v - bs_dv s','cut index','C87')
n('ns23','split_surface_u','Reqb u (fst (u_domain s)) || Reqb u (snd (u_domain s))','Reqb u (fst (u_domain s))','split at the last parameter accepted','C87')
n('ns24','iso_points_u','(skipn (knot_span + count - 1) T)','(skipn (knot_span + count) T)','next row','C88')
n('ns25','iso_points_v','nth 0 (skipn (knot_span + count - 1) row) []','nth 1 (skipn (knot_span + count - 1) row) []','next column','C88')
n('ns26','boundary_v','(j + bs_nv s * i)) (seq 0 (bs_nu s))) (bs_vm s)','(j + bs_nu s * i)) (seq 0 (bs_nu s))) (bs_vm s)','wrong stride','C89')
n('ns27','surface_curve_u','(bs_um s) (bs_uk s)','(bs_vm s) (bs_vk s)','knots of the other direction','C89')
n('ns28','surface_curve_v','nth (j + bs_nv s * i) w 0','nth j w 0','weights of the first row','C89')
n('ns29','ctrlpts2d_to_ctrlpts','nth v (nth u T []) []','nth u (nth v T []) []','transposed','C87')
n('ns30','bsurf_new','(mkbsurf du dv P nu nv um vm uk\' vk\' w)','(mkbsurf du dv P nu nv um vm uk\' vk w)','v knots not standardised','C85')
n('ns31','boundary_u','(seq 0 (bs_nv s))) (bs_um s)','(seq 0 (bs_nv s))) (bs_vm s)','multiplicities of v','C89')
n('ns32','refine_v','bs_dv tmp - find_multiplicity','bs_dv tmp - 1 - find_multiplicity','one insertion less','C86')
save('mutants7', p, s, n)
