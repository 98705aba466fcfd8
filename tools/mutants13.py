from mutlib import *
s=Set('Model/Triangle3.v',['P_Triangle'])
s('tr1','triangle3_area','s := (a + b + c) / 2','s := (a + b + c)','perimeter not halved','C211 area')
s('tr2','triangle3_area','(s - b) * (s - c)','(s - b) * (s - b)','a side used twice','C211 area')
s('tr3','triangle3_area','point_distance3 p3 p1 in','point_distance3 p3 p2 in','wrong third side','C211 area')
s('tr4','triangle3_height','2 * triangle3_area t / d','triangle3_area t / d','factor 2 lost','C211 height')
s('tr5','triangle3_height',"let '(p1, p2, _) := t in","let '(p1, _, p2) := t in",'other base','C211 height')
s('tr6','triangle3_middle','V3 (x3 s / 3) (y3 s / 3) (z3 s / 3)','V3 (x3 s / 3) (y3 s / 3) (z3 s / 2)','wrong divisor for z','C211 middle')
s('tr7','triangle3_middle','add3 (add3 p1 p2) p3','add3 (add3 p1 p2) p2','third point forgotten','C211 middle')
s('tr8','triangle3_new','do _ <- plane_from_3_points p1 p2 p3;','','flat triangles not refused','C212')
s('tr9','triangle3_new','do _ <- segment3 p3 p1; Ok t','do _ <- segment3 p3 p1; Ok (p1, p3, p2)','vertices swapped','C212')
s('tr10','triangle3_normal','plane_from_3_points p1 p2 p3; unit','plane_from_3_points p1 p3 p2; unit','points swapped: the normal is reversed','C212 normal')
s('tr11','triangle3_normal','(bw (fb3 f))','(bv (fb3 f))','second vector of the frame','C212 normal')
s('tr12','map_corners','(f p1, f p2, f p3)','(f p1, f p2, p3)','the third point is not moved','C212')
s('tr13','triangle3_translation','translation3 p offset','translation3 p (neg3 offset)','opposite translation','C212')
s('tr14','triangle3_rotation','rotation3 p center axis angle','rotation3 p axis center angle','centre and axis swapped','C212')
s('tr15','longest','Rmax (Rmax ab bc) ca in','Rmax ab bc in','third side forgotten','C213')
s('tr16','longest','if Reqb ab m then 0%nat else if Reqb bc m then 1%nat else 2%nat','if Reqb ab m then 0%nat else if Reqb bc m then 2%nat else 1%nat','positions swapped','C213, C215')
s('tr17','longest','Rmax (Rmax ab bc) ca in','Rmin (Rmin ab bc) ca in','the shortest side','C213')
s('tr18','half3','V3 (x3 u / 2) (y3 u / 2) (z3 u / 2)','V3 (x3 u / 2) (y3 u / 2) (z3 u / 3)','wrong middle','C213')
s('tr19','bisect','if Rltb resolution m then','if Rltb (2 * resolution) m then','stops too early','C213 sides')
s('tr20','bisect','[(p, mid, r); (q, mid, r)]','[(p, mid, r)]','second half dropped','C213 cover')
s('tr21','bisect','[(p, mid, r); (q, mid, r)]','[(p, mid, r); (p, q, mid)]','wrong second half (flat)','C213')
s('tr22','bisect','[(p, mid, r); (q, mid, r)]','[(p, mid, r); (mid, q, r)]','orientation kept','C214: no piece is turned over')
s('tr23','bisect','| S O => (b, c, a)','| S O => (b, a, c)','wrong corners','C213')
s('tr24','bisect_loop','then Ok ts else','then Ok (removelast ts) else','last triangle dropped','C213')
s('tr25','bisect_loop','Nat.eqb (length ts) (length ts\')','negb (Nat.eqb (length ts) (length ts\'))','condition inverted','C213')
s('tr26','subdescription_to_triangles','mapM triangle3_new ts','mapM triangle3_new (tl ts)','first triangle dropped','C213')
s('tr27','subdescription_points','(floor_nat (max_length / resolution) + 1)) in','(floor_nat (max_length / resolution))) in','last row forgotten','C215: vertex missing')
s('tr28','subdescription_points','Rmin (INR k * resolution) max_length))','(INR k * resolution)))','not clamped','C215: samples outside')
s('tr29','subdescription_points','do v <- unit_vector3 (sub3 new0 new1);','do v <- unit_vector3 (sub3 new1 new0);','opposite direction','C215')
s('tr30','subdescription_points','let length21 := point_distance3 new2 new1 in','let length21 := point_distance3 new2 new0 in','wrong side','C215')
s('tr31','subdescription_points','* length21 / max_length) length21)) in','* length21 / length21) length21)) in','not scaled','C215')
s('tr32','subdescription_points','+ 2)%nat in','+ 1)%nat in','one sample less per row','C215')
s('tr33','subdescription_points','if Nat.eqb nb 2 then Ok [q]','if Nat.eqb nb 2 then Ok []','short rows have no end','C215: third vertex or coverage')
s('tr34','subdescription_points','let step := l / INR (nb - 1) in','let step := l / INR nb in','step too short, end not reached','C215')
s('tr35','subdescription_points','(seq 0 nb))))','(seq 0 (nb - 1)))))','last sample dropped','C215')
s('tr36','subdescription_points','Ok (points01 ++ concat inside)','Ok (concat inside)','first side dropped','C215')
s('tr37','subdescription_points','Ok (points01 ++ concat inside)','Ok points01','inside dropped','C215')
s('tr38','subdescription','then Ok [a; b; c]','then Ok [a; b]','third vertex dropped','C215')
s('tr39','subdescription','if Rleb m resolution','if Rleb resolution m','condition inverted','C215')
s('tr40','subdescription','| S O => (b, c, a) | _ => (c, a, b) end in\n       subdescription_points','| S O => (b, c, a) | _ => (a, b, c) end in\n       subdescription_points','wrong corners for the third side','C215')
s('tr41','triangle3_init','face3d_init assigned (PyStr [])','assigned','attributes kept','C216: the claim is now true, the refutation fails')
s('tr42','face3d_init','primitive3d_init a PyNone (PyNum 1) name','primitive3d_init a (a_color a) (PyNum 1) name','color kept','C216')
s('tr43','triangle3_copied_attrs','triangle3_init (a_name a) PyNone (PyStr [])','a','copy keeps all','C216')
save('mutants13',s)
