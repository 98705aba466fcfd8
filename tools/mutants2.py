import json
M=[]
def m(id,file,definition,old,new,edit,claim,targets,first=False):
    M.append(dict(id=id,file=file,definition=definition,old=old,new=new,edit=edit,claim=claim,first=first,targets=targets))
V='Model/Vec.v'; T=['P_Vec']; TF=['P_Vec','P_Frame']
m('ve1',V,'cross3','V3 (y3 u * z3 v - z3 u * y3 v) (z3 u * x3 v - x3 u * z3 v) (x3 u * y3 v - y3 u * x3 v)','V3 (z3 u * y3 v - y3 u * z3 v) (x3 u * z3 v - z3 u * x3 v) (y3 u * x3 v - x3 u * y3 v)','cross product with the opposite sign','C54: cross is the direct vector product',T)
m('ve2',V,'cross2','Definition cross2 u v := x2 u * y2 v - y2 u * x2 v.','Definition cross2 u v := y2 u * x2 v - x2 u * y2 v.','2D cross with the opposite sign','C54',T)
m('ve3',V,'dot2','Definition dot2 u v := x2 u * x2 v + y2 u * y2 v.','Definition dot2 u v := x2 u * x2 v.','y part of the 2D dot product dropped','C54',T)
m('ve4',V,'unit_vector3','Ok (V3 (x3 u / n) (y3 u / n) (z3 u / n)).\nDefinition point_distance3','Ok (V3 (x3 u) (y3 u) (z3 u)).\nDefinition point_distance3','vector not divided by its norm','C54',T)
m('ve5',V,'add2','Definition add2 u v := V2 (x2 u + x2 v) (y2 u + y2 v).','Definition add2 u v := V2 (x2 u + x2 v) (y2 u + x2 v).','x used instead of y in the 2D sum','C54',T)
m('ve6',V,'div3','Ok (V3 (x3 u / a) (y3 u / a) (z3 u / a)).\nDefinition dot3','Ok (V3 (x3 u / a) (y3 u / a) (z3 u)).\nDefinition dot3','z not divided','C54/C68',T)
m('ve7',V,'div2','Definition div2 u a : res vec2 := if Reqb a 0 then Err ZeroDivisionError else Ok (V2 (x2 u / a) (y2 u / a)).','Definition div2 u a : res vec2 := if Reqb a 0 then Err ZeroDivisionError else Ok (V2 (x2 u * a) (y2 u / a)).','x multiplied instead of divided','C54',T)
m('ve8',V,'neg2','Definition neg2 u := V2 (- x2 u) (- y2 u).','Definition neg2 u := V2 (- x2 u) (y2 u).','y not negated','C54',T)
m('ve9',V,'is_perpendicular_to3','Definition is_perpendicular_to3 u v tol : bool := isclose (Rabs (dot3 u v)) 0 tol.','Definition is_perpendicular_to3 u v tol : bool := isclose (Rabs (dot3 u v)) 1 tol.','compares with 1','C54',T)
m('ve10',V,'is_colinear_to3','isclose (Rabs (dot3 u v) / norm3 u / norm3 v) 1 tol','isclose (dot3 u v / norm3 u / norm3 v) 1 tol','absolute value dropped: opposite vectors are not colinear','C54',T)
m('ve11',V,'rotation2','V2 (cos angle * x2 u - sin angle * y2 u + x2 center)','V2 (cos angle * x2 u + sin angle * y2 u + x2 center)','sign error in the 2D rotation','C55',T)
m('ve12',V,'rotation2','(sin angle * x2 u + cos angle * y2 u + y2 center)','(sin angle * x2 u + cos angle * y2 u)','center not added back','C55',T)
m('ve13',V,'rotation2','V2 (cos angle * x2 u - sin angle * y2 u + x2 center) (sin angle * x2 u + cos angle * y2 u + y2 center)','V2 (cos angle * x2 u + sin angle * y2 u + x2 center) (- sin angle * x2 u + cos angle * y2 u + y2 center)','clockwise 2D rotation','C55: rotation is counter-clockwise by angle',T)
m('ve14',V,'rotation3','(1 - cos angle) * dot3 u axis','(cos angle) * dot3 u axis','Rodrigues term wrong','C55',T)
m('ve15',V,'rotation3','let rv3 := cross3 axis u in','let rv3 := cross3 u axis in','clockwise 3D rotation','C55: direct rotation around the axis',T)
m('ve16',V,'y_rotation',"let '(z1, x1) := axis_rotation_parameters (z3 v) (x3 v) angle in V3 x1 (y3 v) z1.","let '(x1, z1) := axis_rotation_parameters (x3 v) (z3 v) angle in V3 x1 (y3 v) z1.",'y rotation in the other sense','C55',T)
m('ve17',V,'translation2','Definition translation2 p o := V2 (x2 p + x2 o) (y2 p + y2 o).','Definition translation2 p o := V2 (x2 p - x2 o) (y2 p - y2 o).','translation in the opposite direction','C55: translation moves by the offset',T)
m('ve18',V,'translation3','Definition translation3 v o := add3 v o.','Definition translation3 v o := sub3 v o.','3D translation in the opposite direction','C55',T)
m('ve19',V,'middle_point3','Definition middle_point3 p q := mul3 (add3 p q) (1 / 2).','Definition middle_point3 p q := mul3 (add3 p q) (1 / 3).','divided by three','C54',T)
m('ve20',V,'nearest_point3','| Some (m, _) => if Rltb d m then Some (d, q) else acc','| Some (m, _) => if Rltb m d then Some (d, q) else acc','keeps the farthest point','C68',T)
m('ve21',V,'nearest_point2','if Rltb d (fst acc) then (d, q) else acc)','if Rltb d (fst acc) then (fst acc, q) else acc)','best distance not updated','C68',T)
m('ve22',V,'in_list3','+ (z3 q - z3 p) * (z3 q - z3 p)) (tol * tol)','+ (z3 q - z3 p)) (tol * tol)','z difference not squared','C68',T)
m('ve23',V,'in_list2','(y2 q - y2 p) * (y2 q - y2 p)) (tol * tol)','(y2 q - y2 p) * (y2 q - y2 p)) tol','squared distance compared with tol','C68',T)
m('ve24',V,'mean_point3','(INR (1 + length l))','(INR (length l))','divides by n - 1','C68',T)
m('ve25',V,'line_intersection','let u := - ((a1 - a2) * (b1 - b3) - (b1 - b2) * (a1 - a3)) / den in\n    Some','let u := ((a1 - a2) * (b1 - b3) - (b1 - b2) * (a1 - a3)) / den in\n    Some','sign of the second abscissa','C63',T)
m('ve26',V,'segment_intersection','(Rleb 0 t && Rleb t 1) ||','(Rleb 0 t && Rltb t 1) ||','end point excluded','C63',T)
m('ve27',V,'point_projection3','let t := dot3 (sub3 p (fst line)) vector / n ^ 2 in\n       Ok (add3 (fst line) (mul3 vector t), t * n).','let t := dot3 (sub3 p (snd line)) vector / n ^ 2 in\n       Ok (add3 (fst line) (mul3 vector t), t * n).','projects from the wrong point','C67',T)
m('ve28',V,'line_projection2','Ok (add2 (sub2 pp1 (mul2 n (dot2 pp1 n))) (fst line)).','Ok (sub2 pp1 (mul2 n (dot2 pp1 n))).','first point not added back','C67',T)
m('ve29',V,'axial_symmetry2','Ok (add2 (fst q) (sub2 (fst q) p)).','Ok (add2 (fst q) (sub2 p (fst q))).','returns the point itself','C67',T)
m('ve30',V,'line_abscissa3','Ok (dot3 (sub3 p (fst line)) vector / n).','Ok (dot3 (sub3 p (fst line)) vector).','abscissa not divided by the length','C67: abscissa and point_at_abscissa are inverse',T)
m('ve31',V,'line_point_at_abscissa3','Ok (add3 (fst line) (mul3 d a)).','Ok (add3 (snd line) (mul3 d a)).','measured from the second point','C67',T)
m('ve32',V,'linesegment3d_point_distance','let t := Rmax 0 (Rmin 1 (dot3 pp u / norm3 u ^ 2)) in','let t := Rmin 1 (dot3 pp u / norm3 u ^ 2) in','no clamp at 0','C64',T)
m('ve33',V,'linesegment2d_point_distance','let t := Rmax 0 (Rmin 1 (dot2 pp u / norm2 u ^ 2)) in','let t := Rmax 0 (Rmin 1 (dot2 pp u / norm2 u)) in','divides by the length instead of its square','C64',T)
m('ve34',V,'LineSegment3DDistance','(add3 (fst s1) (mul3 u s), add3 (fst s2) (mul3 v t)).\n\n','(add3 (fst s1) (mul3 u s), add3 (fst s2) (mul3 v s)).\n\n','same parameter on both segments','C65',T)
m('ve35',V,'CLineSegment3DDistance','if Rleb determinant t then (clamp_s (b - d) a, 1)','if Rleb determinant t then (clamp_s (b - d) a, 2)','parameter out of the second segment','C65',T)
m('ve36',V,'get_minimum_distance_points_lines','let t := (dot3 u u * dot3 v w - dot3 u v * dot3 u w) / den in','let t := (dot3 u v * dot3 v w - dot3 u v * dot3 u w) / den in','wrong closest parameter','C66',T)
m('ve37',V,'get_minimum_distance_points_lines','if Reqb den 0 then (a1, a2)','if Reqb den 0 then (b1, a1)','parallel lines: wrong pair','C66',T)
m('ve38',V,'line_point_belongs_with_points','norm3 (cross3 vector1 vector2) / norm3 vector2','norm3 (cross3 vector1 vector2)','distance not divided by the direction norm','C66',T)
m('ve39',V,'plane_projection3d','Ok (sub3 p (mul3 z (dot3 z (sub3 p o)))).','Ok (sub3 p (mul3 z (dot3 z p))).','origin of the plane ignored','C72',T)
m('ve40',V,'to_2d','Definition to_2d p o x y := V2 (dot3 p x - dot3 o x) (dot3 p y - dot3 o y).','Definition to_2d p o x y := V2 (dot3 p x) (dot3 p y).','origin ignored','C72',T)
m('ve41',V,'to_3d','(z3 o + z3 vx * x2 p + z3 vy * y2 p).','(z3 o + z3 vx * x2 p + z3 vy * x2 p).','x used twice','C72',T)
m('ve42',V,'deterministic_normal_vector','then X3D else Y3D in','then Y3D else X3D in','base axes swapped','C54',T)
m('ve43',V,'vector_projection3','Ok (mul3 v (dot3 u v / dot3 v v)).','Ok (mul3 v (dot3 u v)).','not divided by v.v','C54',T)
m('ve44',V,'point_distance2','Definition point_distance2 u v := norm2 (sub2 u v).','Definition point_distance2 u v := norm2 (add2 u v).','norm of the sum','C54',T)
m('ve45',V,'is_close3','Definition is_close3 u v tol := isclose (point_distance3 u v) 0 tol.','Definition is_close3 u v tol := isclose (point_distance3 u v) 0 (2 * tol).','double tolerance','C54',T)
m('ve46',V,'plane_projection2d','Ok (V2 (dot3 q x) (dot3 q y)).','Ok (V2 (dot3 q y) (dot3 q x)).','coordinates swapped','C72',T)
m('ve47',V,'unit_normal_vector2','unit_vector2 (normal_vector2 u)','unit_vector2 u','normal forgotten','C54',T)
F='Model/Frame.v'; T=['P_Frame']
m('fr1',F,'mmul33','(m31 a * m13 b + m32 a * m23 b + m33 a * m33 b)','(m31 a * m13 b + m32 a * m23 b + m33 a * m32 b)','wrong entry in the 3x3 product','C57',T)
m('fr2',F,'inverse22','(- i * a12 m) (- i * a21 m)','(- i * a21 m) (- i * a12 m)','transposed 2x2 inverse','C57',T)
m('fr3',F,'inverse33','(i * (m13 m * m32 m - m12 m * m33 m))','(i * (m12 m * m33 m - m13 m * m32 m))','cofactor sign','C57',T)
m('fr4',F,'mvec33','(snap (m31 m * x3 v + m32 m * y3 v + m33 m * z3 v))','(snap (m13 m * x3 v + m23 m * y3 v + m33 m * z3 v))','last row transposed','C57',T)
m('fr5',F,'float_multiplication33','(m32 a * f) (m33 a * f)','(m32 a * f) (m33 a)','last entry not multiplied','C57: product by a number',T)
m('fr6',F,'madd22','(a21 m + a21 n) (a22 m + a22 n)','(a21 m + a21 n) (a22 m - a22 n)','sum of 2x2 matrices wrong','C57',T)
m('fr7',F,'det33','- m33 m * m12 m * m21 m.','+ m33 m * m12 m * m21 m.','sign in the determinant','C57',T)
m('fr8',F,'inverse33','if negb (Rleb (Rabs det) (/ 10 ^ 12)) then','if negb (Rleb det (/ 10 ^ 12)) then','absolute value dropped: left-handed bases rejected','C57',T)
m('fr9',F,'frame2_g2l','basis2_g2l (fb2 f) (sub2 v (org2 f))','basis2_g2l (fb2 f) v','origin ignored','C56',T)
m('fr10',F,'frame3_g2l','basis3_g2l (fb3 f) (sub3 v (org3 f))','basis3_g2l (fb3 f) v','origin ignored','C56',T)
m('fr11',F,'transfer_matrix3','M33 (x3 (bu b)) (x3 (bv b)) (x3 (bw b)) (y3 (bu b)) (y3 (bv b)) (y3 (bw b)) (z3 (bu b)) (z3 (bv b)) (z3 (bw b))','M33 (x3 (bu b)) (y3 (bu b)) (z3 (bu b)) (x3 (bv b)) (y3 (bv b)) (z3 (bv b)) (x3 (bw b)) (y3 (bw b)) (z3 (bw b))','transposed transfer matrix','C56: local coordinates are along u, v, w',T)
m('fr12',F,'transfer_matrix2','M22 (x2 (u2 b)) (x2 (v2 b)) (y2 (u2 b)) (y2 (v2 b))','M22 (x2 (u2 b)) (y2 (u2 b)) (x2 (v2 b)) (y2 (v2 b))','transposed 2D transfer matrix','C56: a local point (a,b) is origin + a u + b v',T)
m('fr13',F,'frame3_mapping_new','do v <- basis3_g2l (fb3 f) (bv (fb3 g));','do v <- basis3_g2l (fb3 f) (bu (fb3 g));','u used twice in frame_mapping','C56: frame_mapping new/old',T)
m('fr14',F,'frame3_mapping_old','F3 (frame3_l2g f (org3 g))\n','F3 (frame3_l2g g (org3 f))\n','frames swapped','C56',T)
m('fr15',F,'frame3_rotation','(basis3_rotation (fb3 f) axis angle).','(fb3 f).','basis not rotated','C56: rotation of a frame',T)
m('fr16',F,'frame3_translation','F3 (translation3 (org3 f) o) (fb3 f).','F3 (org3 f) (fb3 f).','origin not translated','C56',T)
m('fr17',F,'frame2_rotation','(if rotate_basis then basis2_rotation (fb2 f) angle else fb2 f)','(basis2_rotation (fb2 f) angle)','rotate_basis ignored','C56',T)
m('fr18',F,'frame3_sub','(mvec33 p (sub3 (org3 f) (org3 g)))','(mvec33 p (sub3 (org3 g) (org3 f)))','origins subtracted the wrong way','C56',T)
m('fr19',F,'frame3_add','F3 (add3 (mvec33 p1 (org3 g)) (org3 f))','F3 (add3 (org3 g) (org3 f))','origin not transformed','C56',T)
m('fr20',F,'from_two_vectors','Ok (B3 u v (cross3 u v)).','Ok (B3 u v (cross3 v u)).','left-handed','C62',T)
m('fr21',F,'from_3_points','Ok (F3 p1 (B3 vector1 (cross3 normal vector1) normal)).','Ok (F3 p1 (B3 vector1 vector2 normal)).','v not orthogonalised','C62',T)
m('fr22',F,'from_point_and_normal','(B3 u (cross3 normal u) normal)','(B3 u normal (cross3 normal u))','axes permuted','C62',T)
m('fr23',F,'frame_from_step','| None, Some u => from_point_and_vector origin u X3D','| None, Some u => from_point_and_vector origin u Z3D','main axis of the reference direction','C62: from_step with only a ref direction has u along it',T)
m('fr24',F,'frame_from_step','Ok (F3 origin (B3 u\' (cross3 w u\') w))','Ok (F3 origin (B3 u\' (cross3 u\' w) w))','left-handed','C62',T)
m('fr25',F,'from_point_and_vector','let rot_angle := acos (dot3 main_axis vector / (norm3 vector * norm3 main_axis)) in','let rot_angle := - acos (dot3 main_axis vector / (norm3 vector * norm3 main_axis)) in','rotation in the wrong sense','C62',T)
m('fr26',F,'euler_rotation','let vw := rotation3 (bw b) O3D vu theta in','let vw := rotation3 (bw b) O3D vu phi in','wrong angle for w','C62',T)
m('fr27',F,'euler_rotation','let vu := rotation3 vu O3D vw phi in\n','let vu := rotation3 vu O3D vw psi in\n','wrong angle for u','C62/C47',T)
m('fr28',F,'is_orthogonal','&& Rltb (Rabs (dot3 (bv b) (bw b))) tol.','.','v.w not tested','C62: is_orthonormal',T)
m('fr29',F,'basis2_rotation','B2 (rotation2 (u2 b) O2D angle) (rotation2 (v2 b) O2D angle)','B2 (rotation2 (u2 b) O2D angle) (v2 b)','v not rotated','C56',T)
m('fr30',F,'frame2_add','F2 (add2 (mvec22 p1 (org2 g)) (org2 f))','F2 (add2 (org2 g) (org2 f))','origin not transformed','C56',T)
m('fr31',F,'basis3_sub','mmul33 p (transfer_matrix3 b)','mmul33 (transfer_matrix3 b) p','product order','C56',T)
json.dump(M,open('/verif/tools/mutants2.json','w'),indent=0)
