from mutlib import *
s=Set('Model/FeMesh.v',['P_FeMesh'])
s('fe1','triangle_area','cross2 (sub2 b a) (sub2 c a)) / 2','cross2 (sub2 b a) (sub2 c a))','not halved','C200 area')
s('fe2','triangle_area','cross2 (sub2 b a) (sub2 c a)','cross2 (sub2 b a) (sub2 c b) + cross2 (sub2 b a) (sub2 b a) * 2 + cross2 a b','origin taken into account','C200 area')
s('fe3','incircle_radius','2 * triangle_area a b c / p','triangle_area a b c / p','factor 2 lost','C204')
s('fe4','incircle_radius','point_distance2 a c + point_distance2 b c in','point_distance2 a c + point_distance2 a c in','a side counted twice','C204')
s('fe5','incircle_radius','if Reqb p 0 then Err ZeroDivisionError else ','','division by zero not an error','C204: a point')
s('fe6','circumcircle_radius','* 4 in','* 2 in','wrong factor','C204')
s('fe7','circumcircle_radius','if Reqb d 0 then Err ZeroDivisionError','if Reqb d 0 then Ok 0','no error','C204 flat')
s('fe8','circumcircle_radius','point_distance2 a b * point_distance2 a c * point_distance2 b c / d','point_distance2 a b * point_distance2 a c * point_distance2 a c / d','wrong side','C204')
s('fe9','aspect_ratio','then 1000000','then 0','flat triangles are good','C205')
s('fe10','aspect_ratio','1 / 8 * pa','1 / 4 * pa','wrong factor','C205')
s('fe11','aspect_ratio','/ (s - pa) / (s - pb) / (s - pc)','/ (s - pa) / (s - pb) / (s - pb)','wrong term','C205')
s('fe12','aspect_ratio',' || Reqb (s - pc) 0','','a flat case missed','C205 flat')
s('fe13','interior_normal','V2 (- y2 v) (x2 v)','V2 (x2 v) (y2 v)','not a normal','C200 normals')
s('fe14','interior_normal','then neg2 n else n','then n else neg2 n','outward normal','C200 normals')
s('fe15','to_linear_elements','let v3 := sub2 a c in','let v3 := sub2 c a in','third side reversed','C200 normals')
s('fe16','to_linear_elements','(b, c, n2); (c, a, n3)','(b, c, n3); (c, a, n2)','normals exchanged','C200 normals')
s('fe17','form_functions','1 (x2 b) (y2 b)','1 (y2 b) (x2 b)','coordinates exchanged','C200 form functions')
s('fe18','form_functions','mvec33 i Y3D, mvec33 i Z3D','mvec33 i Z3D, mvec33 i Y3D','functions exchanged','C200 form functions')
s('fe19','triangular_element','(y2 a + y2 b + y2 c) / 3','(y2 a + y2 b + y2 c) / 2','wrong centre','C200')
s('fe20','tetra_volume','1 / 6','1 / 3','wrong factor','C202')
s('fe21','tetra_volume','Rabs (','(','signed volume','C202')
s('fe22','tetra_form','   coeff * det33 (M33 1 (x3 a) (z3 a)','   - (1) * coeff * det33 (M33 1 (x3 a) (z3 a)','sign of the y coefficient','C202')
s('fe23','tetra_forms','tetra_form (- (1)) p0 p2 p3','tetra_form 1 p0 p2 p3','sign of the second function','C202')
s('fe24','tetra_forms','tetra_form 1 p0 p1 p3','tetra_form 1 p0 p1 p2','wrong points','C202')
s('fe25','trunc','(- Int_part (- r))%Z','Int_part r','floor instead of truncation','none claimed (hash only)')
s('fe26','node_eq','&& isclose (y2 p) (y2 q) (/ 10 ^ 12)','','y ignored','C206: nodes')
s('fe27','same_key','(node_hash p =? node_hash q)%Z && node_eq p q','node_eq p q','hash ignored','C207: hashes matter')
s('fe28','same_key',' && node_eq p q','','equality ignored','C206: distinct points with the same hash')
s('fe29','set_add','then s else','then s ++ [p] else','points added twice','C206: once each')
s('fe30','mesh_nodes','fold_left set_add (concat (concat gs)) []','concat (concat gs)','no set','C206')
s('fe31','find_node','find_node r p (S i)','find_node r p i','index not incremented','C206 index')
s('fe32','mesh_point_to_element','None => mesh_point_to_element belongs r','None => None','only the first group','C206 point_to_element')
s('fe33','dict_append','(k\', l ++ [a]) :: r else','(k\', [a]) :: r else','previous elements lost','C206 elements_per_node')
s('fe34','dict_append','[] => [(k, [a])]','[] => [(k, [])]','first element lost','C206 elements_per_node')
s('fe35','elements_per_node','dict_append d p e) e d)','dict_append d p e) (firstn 1 e) d)','only the first node','C206 elements_per_node')
s('fe36','mesh_rectangle','lmax (x2 p) (map x2 l), lmin (y2 p)','lmax (x2 p) (map x2 l), lmax (y2 p)','min and max exchanged','C206 rectangle')
s('fe37','mesh_rectangle','lmin (x2 p) (map x2 l)','lmin (x2 p) (map y2 l)','wrong coordinate','C206 rectangle')
s('fe38','dict_set','then (k\', a) :: r','then (k\', b) :: r','not replaced','C208 corrections (equivalent up to the choice among several)')
s('fe39','compute_correction','Rltb (/ 10 ^ 8) dist && ','','nodes map to themselves','C208')
s('fe40','compute_correction','Rltb dist tol','Rleb dist tol','<= tol','C208')
s('fe41','compute_correction','(flat_map group_nodes (without i gs))','(flat_map group_nodes gs)','reference corrected too','C208/C209')
s('fe42','compute_correction','dict_set d node node_ref else','dict_set d node_ref node else','direction exchanged','C208')
s('fe43','nodes_correction','Ok (c, Mesh (groups m) c (gmsh m))','Ok (c, Mesh (groups m) [] (gmsh m))','not kept','C209: kept')
s('fe44','nodes_correction','| c => Ok (c, m)','| c => Ok ([], m)','cache returns nothing','C209')
s('fe45','corrected','Some q => q','Some q => p','not applied','C208')
s('fe46','delete_duplicated_nodes','insert_at i r (','insert_at 0 r (','reference put first','C208 keeps group i')
s('fe47','delete_duplicated_nodes','map (map (map (corrected c)))','map (map (map (fun p => p)))','not applied','C208')
s('fe48','delete_duplicated_nodes','if gmsh m then','if true then','works without gmsh','C210')
s('fe49','delete_duplicated_nodes',') c true, m\')',') [] true, m\')','corrections not passed on','C208 keeps the corrections')
s('fe50','insert_at','S i, b :: l => b :: insert_at i a l','S i, b :: l => insert_at i a l','groups lost','C208')
save('mutants12',s)
