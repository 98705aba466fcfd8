from mutlib import Set, save
g = Set('Model/FaceGrid.v', ['P_FaceGrid'])
t = Set('Model/PolyTurn.v', ['P_PolyTurn'])
t('pt3','followers','[] => Err IndexError','[] => Ok []','no error without sides','C245')
t('pt18','segments_intersect','| None => Ok false','| None => Ok true','aligned segments intersect','C249 aligned points')
s = Set('Model/Solid.v', ['P_Shells'])
s('so7','triangle_points','[a; b; c]','[a; b]','third corner not in the box','C226 boxes')
k = Set('Model/Conic3.v', ['P_Conic3'])
k('cn1','planar_circle3_line','if near then snd l else fst l','if near then fst l else snd l','other reference point','C274')
k('cn2','planar_circle3_line','let b := 2 * dot3','let b := dot3','factor 2 dropped','C274')
k('cn3','planar_circle3_line','- 2 * dot3 p (center3 c)','+ 2 * dot3 p (center3 c)','sign of the cross term','C274')
k('cn4','planar_circle3_line','b ^ 2 - 4 * a * k','b ^ 2 - 2 * a * k','discriminant','C274')
k('cn5','planar_circle3_line','if Rltb delta 0','if Rleb delta 0','tangent lines have no point','C274 (needs delta = 0)')
k('cn6','planar_circle3_line','; add3 p (mul3 vec ((- b - sqrt delta) / (2 * a)))','','only one point','C274')
k('cn7','planar_circle3_line','(- b - sqrt delta) / (2 * a)','(b - sqrt delta) / (2 * a)','sign of b','C274')
k('cn8','planar_circle3_line','dot3 (center3 c) (center3 c) - 2','0 - 2','centre at the origin assumed','C274')
k('cn9','line3_mapping_new','Ok (p, q)','Ok (q, p)','line reversed','C275 (same points: may survive)')
k('cn10','circle3_line_loop','map (frame3_l2g (cf3 c)) r','r','not mapped back','C275')
k('cn11','circle3_line_loop','if Rltb (cr3 c) d','if Rleb (cr3 c) d','tangent lines','C274 (needs d = radius)')
k('cn12','circle3_line_loop','let k := (z3 (center3 c) - z3 (fst l))','let k := (z3 (fst l) - z3 (center3 c))','sign of the parameter','C274')
k('cn13','circle3_line_loop','then Ok [V3 x y (z3 (center3 c))] else Ok []','then Ok [V3 x y 0] else Ok []','height dropped','C274')
k('cn14','circle3_line_loop','isclose ((x - x3 (center3 c)) ^ 2 + (y - y3 (center3 c)) ^ 2)','isclose (x ^ 2 + y ^ 2)','centre ignored','C274')
k('cn15','circle3_line_loop','(cr3 c ^ 2) (/ 10 ^ 6)','(cr3 c) (/ 10 ^ 6)','radius not squared','C274')
k('cn16','circle3_line_loop','else if Reqb (z3 (dir3 l)) 0 then Err ZeroDivisionError','else if Reqb (z3 (dir3 l)) 0 then Ok []','no error for parallel lines','C276')
k('cn17','circle3_line_loop','do l\' <- line3_mapping_new l (cf3 c);','do l\' <- Ok l;','line not mapped','C275')
k('cn18','circle3_point_distance','if Rltb d2 d1 then d2 else d1','if Rltb d2 d1 then d1 else d2','farthest point','C278')
k('cn19','circle3_point_distance','circle3_line_intersections c (center3 c, q)','circle3_line_intersections c (center3 c, p)','projection dropped','C278')
k('cn20','ellipse3_to_2d','(mul3 (bv (fb3 (ef3 e))) (emin3 e))','(mul3 (bu (fb3 (ef3 e))) (emin3 e))','minor axis','C280')
k('cn21','ellipse3_to_2d','E2 (emaj3 e) (emin3 e)','E2 (emin3 e) (emaj3 e)','axes swapped','C280')
k('cn22','ellipse3_line_loop','E3 (emaj3 e) (emin3 e) g','E3 (emin3 e) (emaj3 e) g','axes swapped','C280')
k('cn23','ellipse3_line_loop','map (frame3_l2g f) r','r','not mapped back','C280')
k('cn24','ellipse3_line_loop','Ok (if b then p :: rest else [])','Ok (p :: rest)','membership not tested','C280')
k('cn25','ellipse3_line_loop','V3 (x2 i) (y2 i) (z3 (org3 f))','frame_point_fix f i','the fix of the horizontal case (ill typed unless defined)','C281')
k.M = [m for m in k.M if m['id'] != 'cn25']
k('cn26','ellipse3_line_loop','Rleb (Rabs (z3 (fst l) - z3 (org3 f))) tol','Rleb 0 tol','plane not tested','C280')
k('cn27','horizontal','(bw (fb3 f)) Z3D','(bu (fb3 f)) Z3D','wrong axis','C274, C275')
p = Set('Model/Prims.v', ['P_Prims'])
p('pr1','half','mul3 u (1 / 2)','u','full edge','C282')
p('pr2','rectangular_cut','[V2 x1 y1; V2 x2 y1; V2 x2 y2; V2 x1 y2]','[V2 x1 y1; V2 x2 y1; V2 x1 y2; V2 x2 y2]','crossed contour','C282')
p('pr3','shell_faces','let xm := F3 (sub3','let xm := F3 (add3','same side twice','C282')
p('pr4','shell_faces','let ym := F3 (sub3 (org3 f) (half v)) (B3 nw nu nv) in','let ym := F3 (sub3 (org3 f) (half v)) (B3 nu nw nv) in','axes of the side swapped','C282')
p('pr5','shell_faces','rectangular_cut ym (- hlz) hlz (- hlx) hlx','rectangular_cut ym (- hlx) hlx (- hlz) hlz','lengths of the side swapped','C282')
p('pr6','shell_faces','let hlz := 1 / 2 * norm3 w','let hlz := 1 / 2 * norm3 v','wrong length','C282')
p('pr7','block_volume','x * y * z','x * y * y','wrong length','C283')
p('pr8','bbox_to_frame','V3 0 0 (zmax b - zmin b)','V3 0 0 (zmin b - zmax b)','edge reversed','C283 (same points: may survive)')
p('pr9','bbox_to_frame','F3 (bbox_center b)','F3 (V3 (xmin b) (ymin b) (zmin b))','corner as center','C283')
p('pr10','block_bbox','V3 (x3 (bu (fb3 f)) / 2) (y3 (bv (fb3 f)) / 2)','V3 (x3 (bu (fb3 f)) / 2) (y3 (bu (fb3 f)) / 2)','wrong edge','C285')
p('pr11','block_vertices','add3 (add3 (add3 o u) v) w','add3 (add3 (add3 o u) v) u','wrong edge','C282')
p('pr12','block_edges','(p4, p8)','(p4, p7)','wrong corner','C282')
p('pr13','block_edges','(p8, p5); ','','edge forgotten','C282')
p('pr14','item','None => Err IndexError','None => Err KeyError','other error','C287')
p('pr15','face_contours3d','side_contour e s 0 9 0 4','side_contour e s 0 9 0 3','index','C287 (still fails elsewhere: may survive)')
p('pr16','faces_center','sub3 o w; add3 o w','add3 o w; sub3 o w','order of the sides','C282')
p('pr17','block_rotation','frame3_rotation (bframe b) center axis angle','frame3_rotation (bframe b) center axis (- angle)','sense of rotation','C290')
p('pr18','block_translation','frame3_translation (bframe b) offset','frame3_translation (bframe b) (neg3 offset)','sense','C290')
p('pr19','block_mapping_old','new_block (frame3_mapping_old (bframe b) f)','new_block (bframe b)','nothing done','C290')
p('pr20','subdivide_block','sx / 2 - fx / 2','sx / 2','first part shifted','C288')
p('pr21','subdivide_block','(seq 0 nx)) (seq 0 ny)','(seq 0 ny)) (seq 0 nx)','numbers swapped','C288')
p('pr22','subdivide_block','let fz := sz / INR nz','let fz := sz / INR ny','wrong number','C288')
p('pr23','subdivide_block','(seq 0 nz)','(seq 1 nz)','first layer skipped','C288')
p('pr24','subdivide_block',' || Nat.eqb nz 0','','no error','C288')
p('pr25','point_a','cyl c / 2','cyl c','whole length','C291')
p('pr26','reach','sqrt (n / d) * r','sqrt (n / d)','radius forgotten','C291')
p('pr27','reach','sqrt (n / d) * r','n / d * r','square root forgotten','C291')
p('pr28','cylinder_bbox','do ry <- reach (dx2 + dz2)','do ry <- reach (dx2 + dy2)','wrong component','C291')
p('pr29','cylinder_bbox','if Rltb (x3 b) (x3 a) then (b, a)','if Rltb (x3 b) (x3 a) then (a, b)','no swap','C291')
p('pr30','cylinder_volume','cyr c ^ 2','cyr c','radius not squared','C292 (interference uses the same volume), C294')
p('pr31','from_end_points','mul3 (add3 p q) (1 / 2)','p','center at an end','C293')
p('pr32','from_end_points','unit_vector3 (sub3 q p)','unit_vector3 (sub3 p q)','axis reversed','C293')
p('pr33','from_end_points','cross3 w u','cross3 u w','left-handed','C293')
p('pr34','from_center_and_axis','cross3 ax u','cross3 u ax','left-handed','C293')
p('pr35','cylinder_point_belongs','sqrt (x3 q ^ 2 + y3 q ^ 2)','sqrt (x3 q ^ 2 + z3 q ^ 2)','wrong components','C292')
p('pr36','cylinder_point_belongs','Rleb (- cyl c / 2) (z3 q)','Rleb 0 (z3 q)','upper half only','C292')
p('pr37','cylinder_point_belongs','Rleb (sqrt (x3 q ^ 2 + y3 q ^ 2)) (cyr c)','Rltb (sqrt (x3 q ^ 2 + y3 q ^ 2)) (cyr c)','strict','C292')
p('pr38','sampled_point','let radius := sqrt s * cyr c','let radius := sqrt s + cyr c','radius','C292')
p('pr39','sampled_point','radius * sin theta','radius * cos theta','angle','C292')
p('pr40','interference_volume','then (c, d) else (d, c)','then (d, c) else (c, d)','samples of the larger one','C292')
p('pr41','interference_volume','* cylinder_volume s','* cylinder_volume o','volume of the larger one','C292')
p('pr42','interference_volume','mapM (cylinder_point_belongs o)','mapM (cylinder_point_belongs s)','tested in itself','C292')
p('pr43','cone_bbox','(min3 (x3 a - rx) (x3 a + rx) (x3 b))','(min3 (x3 b - rx) (x3 b + rx) (x3 a))','base at the wrong end','C291')
p('pr44','cone_bbox','(max3 (z3 a - rz) (z3 a + rz) (z3 b))','(z3 a + rz)','apex forgotten','C291')
p('pr45','sphere_point_belongs','Rleb (point_distance3 center p) radius','Rleb (point_distance3 center p) (2 * radius)','diameter','C296')
p('pr46','skin_floor','V3 (dot3 X3D p) (y3 center) (z3 center)','V3 (x3 center) (y3 center) (z3 center)','center of the floor','C295')
p('pr47','skin_floor','let tf := resolution / r','let tf := resolution','step of the angle','C295')
p('pr48','skin_floor','if Rleb ((2 * PI - INR (n - 1) * tf) / tf) (1 / 10) then pop angles else angles','pop angles','last point always dropped','C295')
p('pr49','skin_floor','S (floor_nat (2 * PI / tf))','S (floor_nat (PI / tf))','half of the floor','C295')
p('pr50','skin_points','2 * asin (resolution / (2 * radius))','4 * asin (resolution / (2 * radius))','double step','C295')
p('pr51','skin_points','S (floor_nat (PI / theta))','floor_nat (PI / theta)','last floor forgotten','C295 (within the bound of 3 resolutions: may survive)')
p('pr52','skin_points','if Rltb (2 * radius) resolution then Ok []','if Rltb radius resolution then Ok []','radius for diameter','C295')
p('pr53','skin_points','mul3 X3D radius','mul3 X3D (radius / 2)','radius','C295')
p('pr54','inner_points','Ok (center :: concat l)','Ok (concat l)','center forgotten','C296')
p('pr55','inner_points','seq 1 n','seq 1 (S n)','one sphere too many','C296')
p('pr56','inner_points','then pop radii else radii','then radii else pop radii','test inverted','C296')
p('pr57','floor_nat','Int_part x','Int_part (x + 1)','ceiling','C295, C296')
import re
print(re.findall(r'^(?:Definition|Fixpoint) (hollow\w*)', p.text, re.M))
save('mutants18', t, s, k, p)
