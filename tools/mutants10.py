from mutlib import *
s=Set('Model/Rounded.v',['P_Rounded'])
s('ro1','getpred','O => getlast l','O => geti l 0','points[-1] not wrapped','C166/C167: the first corner of a closed polyline uses the last point')
s('ro2','get_points','(i <? length (rpts s) - 1)%nat','(i <? length (rpts s))%nat','closing corner boundary','C167: last corner of a closed polyline')
s('ro3','get_points','Ok (pt1, pti, pt2)','Ok (pt2, pti, pt1)','neighbours swapped','C167: arcs go from the side before to the side after')
s('ro4','arc_features_of','radius * cos alpha / sin alpha','radius * sin alpha / cos alpha','tan instead of cotangent','C166: tangent arc')
s('ro5','arc_features_of','acos cosine / 2','acos cosine','angle not halved','C166: tangent arc')
s('ro6','arc_features_of','if Rltb (dot2 v0 w) 0 then neg2 v0 else v0','v0','normal not oriented to the inside','C166: arc inside the corner')
s('ro7','arc_features_of','sub2 point_curvature (mul2 w radius)','add2 point_curvature (mul2 w radius)','middle of the arc on the other side','C166: the arc is the short one')
s('ro8','arc_features_of','add2 p3 (mul2 v1 radius)','add2 p3 (mul2 v1 distance)','center at the distance instead of the radius','C166')
s('ro9','arc_features_of','let p4 := add2 pti (mul2 u2 distance)','let p4 := add2 pti (mul2 u1 distance)','second tangent point on the first side','C166')
s('ro10','group_loop','(e_i last + 1 =? i)%nat','(e_i last =? i)%nat','consecutive test','C168: overlapping corners are refused')
s('ro11','group_loop','Rleb (e_d last + e_d e) (norm2 (sub2 p2 p1))','Rleb (e_d last) (norm2 (sub2 p2 p1))','only one distance compared','C168')
s('ro12','group_loop','else Err ValueError','else do g <- group_loop s [e] e keys; Ok (rev group :: g)','overlap accepted','C168')
s('ro13','group_loop','getpred (rpts s) i','geti (rpts s) i','length of the side is 0','C168')
s('ro14','adapt_single','Rmin r (Rmin distance_1 distance_2 * tan (e_a e))','Rmin distance_1 distance_2','radius = distance','C169')
s('ro15','lp_rows','(first, S first, norm2 (sub2 p2 p1))','(first, first, norm2 (sub2 p2 p1))','wrong column','C169')
s('ro16','lp_rows','lp_rows s (S first) r','lp_rows s first r','columns not shifted','C169')
s('ro17','lp_all_rows','(first + length g)','first','columns of the next group not shifted','C169')
s('ro18','set_solution','x * tan (e_a e)','x','solution used as a radius','C169')
s('ro19','set_solution','else del_radius (e_i e) rad','else rad','null radius kept','C169: adapted radii do not overlap')
s('ro20','adapt','r * cos (e_a e) / sin (e_a e)','r','wrong bound','C169')
s('ro21','adapt','(map (fun e => - tan (e_a e)) dofs)','(map (fun e => tan (e_a e)) dofs)','minimises the radii','C169 (maximality not claimed)')
s('ro22','seg_unless_close','if is_close2 p q (/ 10 ^ 6) then Ok []','if is_close2 p q (/ 10 ^ 6) then seg p q','segment between close points kept','C167')
s('ro23','side_primitives','Ok (PArc arc1 :: r)','Ok r','arc dropped','C167: connected in order')
s('ro24','side_primitives','seg_unless_close (aen arc1) (ast arc2)','seg_unless_close (ast arc1) (ast arc2)','segment from the start of the arc','C167')
s('ro25','side_primitives','None => do q <- geti pts j; seg p1 q','None => Ok []','sharp side dropped','C167')
s('ro26','side_primitives','| Some arc2 => seg_unless_close p1 (ast arc2)','| Some arc2 => seg_unless_close p1 (aen arc2)','segment to the end of the arc','C167')
s('ro27','primitives_from_arcs','(length pts - 1) 0 else Ok []','0 (length pts - 1) else Ok []','closing side reversed','C167')
s('ro28','primitives_from_arcs','(seq 0 (length pts - 1))','(seq 0 (length pts - 2))','last side dropped','C167')
s('ro29','rounded_primitives','do a <- arc2_from_3_points p3 q p4','do a <- arc2_from_3_points p4 q p3','arc reversed','C167')
s('ro30','rounded_primitives','arc_features (Rls (rpts s) rad (rclosed s) (radapt s))','arc_features s','adapted radii not used for the arcs','C167/C169: arcs have the adapted radii')
s('ro31','offset_vectors','do v1 <- unit_vector2 (sub2 q p); do v2 <- unit_vector2 (sub2 p q); Ok [v1; v2])','do v1 <- unit_vector2 (sub2 q p); do v2 <- unit_vector2 (sub2 p q); Ok [v2; v1])','vectors swapped','C171')
s('ro32','offset_corner','if Rltb 0 (dot2 n (normal_vector2 v_in)) then (neg2 n, true)','if Rltb (dot2 n (normal_vector2 v_in)) 0 then (neg2 n, true)','offset on the other side','C171')
s('ro33','offset_corner','r + Rabs offset else r - Rabs offset','r - Rabs offset else r + Rabs offset','radius grows instead of shrinking','C171 radii')
s('ro34','offset_corner','offset / c','offset * c','offset along the bisector not divided','C171')
s('ro35','offset_corner','acos cosine / 2','acos cosine','half angle','C171')
s('ro36','offset_corner','Ok (normal_vector2 v_out, false)','Ok (v_out, false)','straight corner moved along the side','C171')
s('ro37','rls_offset','seq 1 (n - 2)','seq 1 (n - 1)','one corner too many','C171')
s('ro38','rls_offset','mul2 (neg2 (normal_vector2 vn)) offset','mul2 (normal_vector2 vn) offset','last point moved to the other side','C171')
s('ro39','rls_offset','mul2 (normal_vector2 v0) offset','mul2 (neg2 (normal_vector2 v0)) offset','first point moved to the other side','C171')
s('ro40','offset_corner','Some (i, / 10 ^ 6) else None','None else None','radius removed instead of 1e-6','C171 radii')
g=Set('Model/Geometry3.v',['P_Geometry','P_Curves','P_Plane'])
save('mutants10',s)
