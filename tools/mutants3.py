import json
M=[]
def m(id,file,definition,old,new,edit,claim,targets,first=False):
    M.append(dict(id=id,file=file,definition=definition,old=old,new=new,edit=edit,claim=claim,first=first,targets=targets))
P='Model/Polygon.v'; T=['P_Polygon']
m('po1',P,'edges_of','combine pts (r ++ [p])','combine pts r','last side (closing the polygon) forgotten','C58: every side counts',T)
m('po2',P,'belongs_step','if Rltb (Rmin (y2 p1) (y2 p2)) (y2 p) &&','if Rleb (Rmin (y2 p1) (y2 p2)) (y2 p) &&','vertex counted twice (<= on the lower end)','C58',T)
m('po3',P,'belongs_step','Rleb 0 t && Rleb t 1 && Rleb (sqrt','Rleb (sqrt','distance to the line instead of to the segment','C58',T)
m('po4',P,'belongs_loop','| Edge => Ok include_edge_points','| Edge => Ok true','include_edge_points ignored','C58',T)
m('po5',P,'belongs_loop','belongs_loop p include_edge_points tol (negb inside) es','belongs_loop p include_edge_points tol true es','set instead of toggled','C58',T)
m('po6',P,'polygon_area','/ 2 * Rabs (sumR','/ 2 * (sumR','signed area','C58',T)
m('po7',P,'polygon_area','if Nat.ltb (length pts) 3 then 0 else\n','if Nat.ltb (length pts) 4 then 0 else\n','triangles have area 0','C58',T)
m('po8',P,'center_of_mass','(sumR (zip_with Rmult yi_yi1 d) / 6 / signed_area)','(sumR (zip_with Rmult yi_yi1 d) / 3 / signed_area)','wrong factor for y','C69',T)
m('po9',P,'center_of_mass','| [p; q] => Ok (mul2 (add2 p q) (/ 2))','| [p; q] => Ok p','center of two points','C69: center of a 2-point polygon is the middle',T)
m('po10',P,'center_of_mass','let xi_yi1 := zip_with Rmult x (roll_left y) in','let xi_yi1 := zip_with Rmult x (roll_right 0 y) in','rolled the wrong way','C69',T)
m('po11',P,'second_moment_area','(- ix / 12, - iy / 12, - ixy / 24) else (ix / 12, iy / 12, ixy / 24)','(- ix / 6, - iy / 6, - ixy / 12) else (ix / 6, iy / 6, ixy / 12)','all moments doubled','C69: second moments are the integrals of y^2, x^2, xy',T)
m('po12',P,'second_moment_area','if Rltb ix 0 then','if false then','sign not corrected for clockwise polygons','C69: independent of the travel direction',T)
m('po13',P,'second_moment_area','(x2 i * y2 j + 2 * x2 i * y2 i + 2 * x2 j * y2 j + x2 j * y2 i)','(2 * x2 i * y2 i + 2 * x2 j * y2 j)','cross terms of the product of inertia dropped','C69',T)
m('po14',P,'polygon_barycenter','V2 (x2 s / INR (length pts)) (y2 s / INR (length pts))','V2 (x2 s / INR (length r)) (y2 s / INR (length r))','divides by n - 1','C68/C69: barycenter is the mean of the points',T)
m('po15',P,'polygon_eq','Reqb (y2 a) (y2 b).','true.','y not compared','C70',T)
m('po16',P,'polygon_distance','fold_left Rmin (map','fold_left Rmax (map','maximum','C71',T)
m('po17',P,'polygon_rotation','map (fun p => rotation2 p c a) pts','map (fun p => rotation2 p O2D a) pts','center ignored','C58: rotation of a polygon rotates each point',T)
m('po18',P,'incircle_radius','Ok (2 * triangle2_area p1 p2 p3 / s)','Ok (triangle2_area p1 p2 p3 / s)','factor 2 forgotten','new: incircle radius',T)
m('po19',P,'circumcircle_radius','let d := triangle2_area p1 p2 p3 * 4 in','let d := triangle2_area p1 p2 p3 * 2 in','factor','new: circumcircle radius',T)
m('po20',P,'triangle2_area','Rabs (cross2 (sub2 p2 p1) (sub2 p3 p1)) / 2','Rabs (cross2 (sub2 p2 p1) (sub2 p3 p2)) / 3','wrong factor','C58',T)
B='Model/BBox.v'; T=['P_BBox']
m('bb1',B,'rect_area','(rxmax b - rxmin b) * (rymax b - rymin b).','(rxmax b - rxmin b) + (rymax b - rymin b).','sum instead of product','C42',T,True)
m('bb2',B,'rect_center','(1 / 2 * (rymin b + rymax b))','(1 / 2 * (rymax b - rymin b))','half height','C73: rectangle center',T)
m('bb3',B,'rect_points','V2 (rxmax b) (rymax b); V2 (rxmin b) (rymax b)]','V2 (rxmax b) (rymax b); V2 (rxmin b) (rymin b)]','a corner repeated','C39: corners give back the rectangle',T)
m('bb4',B,'rect_is_intersecting','&& Rltb (rymin b) (rymax a).','.','one test dropped','C73',T)
m('bb5',B,'is_inside_rect','Rleb (rymax a) (rymax b + tol)','Rleb (rymax b) (rymax a + tol)','swapped','C42/C73',T)
m('bb6',B,'rect_point_belongs','Rltb (y2 p) (rymax b)','Rleb (y2 p) (rymax b)','boundary included on one side','C73',T)
m('bb7',B,'rect_intersection_area','Rmin (rect_area a) (rect_area b)','Rmax (rect_area a) (rect_area b)','larger area','C42',T)
m('bb8',B,'rect_distance','(if Rltb (rymin p2) (rymin p1) then (p2, p1) else (p1, p2)) in','(p1, p2) in','no','x',T)
M.pop()
m('bb8',B,'rect_distance','if Rltb (rymin p2) (rymin p1) then (p2, p1) else (p1, p2) in\n    let dy := Rmax (rymin q2 - rymax q1) 0 in\n    sqrt (dx ^ 2 + dy ^ 2).','(p1, p2) in\n    let dy := Rmax (rymin q2 - rymax q1) 0 in\n    sqrt (dx ^ 2 + dy ^ 2).','no swap for y','C40',T)
m('bb9',B,'axis_gap','else if Rltb hi x then x - hi else 0','else 0','upper side ignored','C41',T)
m('bb10',B,'rect_distance_to_point','(rymax b - y2 p)) (y2 p - rymin b)','(rymax b - y2 p)) (y2 p - rymax b)','wrong bound','C41',T)
m('bb11',B,'rect_from_points','(lmin (y2 p) (map y2 l)) (lmax (y2 p) (map y2 l)))\n  end.\n\n','(lmin (y2 p) (map x2 l)) (lmax (y2 p) (map y2 l)))\n  end.\n\n','x used for ymin','C39',T)
m('bb12',B,'bbox_center','(1 / 2 * (zmin b + zmax b))','(zmin b + zmax b)','z not halved','C73',T)
m('bb13',B,'bbox_add','(Rmax (ymax a) (ymax b))','(Rmin (ymax a) (ymax b))','min instead of max','C39',T)
m('bb14',B,'from_bounding_boxes','(lmin (zmin b) (map zmin l)) (lmax (zmax b) (map zmax l))','(lmin (zmin b) (map zmin l)) (lmax (zmax b) (map zmin l))','zmin used for zmax','C39',T)
m('bb15',B,'bbox_volume','Definition bbox_volume b := (xmax b - xmin b) * (ymax b - ymin b) * (zmax b - zmin b).','Definition bbox_volume b := (xmax b - xmin b) * (ymax b - ymin b) * (zmax b).','zmin forgotten','C42/C73',T)
m('bb16',B,'get_points_inside_bbox','(x3 s / 2 - sx / 2)','(x3 s / 2)','first point on the face','C43',T)
m('bb17',B,'get_points_inside_bbox','(V3 (INR i * sx) (INR j * sy) (INR k * sz))','(V3 (INR i * sx) (INR k * sy) (INR j * sz))','j and k swapped','C43',T)
m('bb18',B,'bbox_scale','let hz := z3 s * factor / 2 in','let hz := z3 s / 2 in','z not scaled','C73',T)
m('bb19',B,'bbox_is_intersecting','|| Rltb (zmax a + tol) (zmin b - tol) || Rltb (zmax b + tol) (zmin a - tol)','|| Rltb (zmax a + tol) (zmin b - tol)','one test dropped','C73',T)
m('bb20',B,'is_inside_bbox','&& Rleb (zmin b - / 10 ^ 6) (zmin a) && Rleb (zmax a) (zmax b + / 10 ^ 6)','&& Rleb (zmin b - / 10 ^ 6) (zmin a)','zmax not tested','C42/C73: is_inside_bbox',T)
m('bb21',B,'intersection_volume','* (Rmin (zmax a) (zmax b) - Rmax (zmin a) (zmin b)).','* (Rmax (zmax a) (zmax b) - Rmax (zmin a) (zmin b)).','max of zmax','C42',T)
m('bb22',B,'distance_to_bbox','let dz := Rmax (zmin r2 - zmax r1) 0 in','let dz := Rmax (zmin r2 - zmax r2) 0 in','same box twice','C40',T)
m('bb23',B,'bbox_point_belongs','&& Rleb (zmin b - tol) (z3 p) && Rleb (z3 p) (zmax b + tol)','&& Rleb (zmin b - tol) (z3 p) && Rleb (z3 p) (zmax b)','tolerance dropped','C73',T)
m('bb24',B,'bbox_distance_to_point','(zmax b - z3 p)) (z3 p - zmin b)','(zmax b - z3 p)) (zmax b - z3 p)','lower z face ignored','C41',T)
m('bb25',B,'bbox_is_close','&& is_close3 (V3 (xmax a) (ymax a) (zmax a)) (V3 (xmax b) (ymax b) (zmax b)) tol','','maxima not compared','C73',T)
m('bb26',B,'bbox_octree','(z3 c + z3 s / 2 / 2)) cs','(z3 c + z3 s / 2)) cs','octants overlap','C43',T)
m('bb27',B,'get_element_index_from','if is_close x e then Some i else get_element_index_from (S i) e l','if is_close x e then Some (S i) else get_element_index_from (S i) e l','index off by one','C50',T)
m('bb28',B,'delete_double_point','if existsb (eqb p) points then points else points ++ [p]','if existsb (eqb p) points then points else p :: points','order reversed','C50',T)
m('bb29',B,'element_in_list','if is_close e x then true else element_in_list e l','if is_close e x then true else false','only the first element tested','C50',T)
m('bb30',B,'bbox_size','Definition bbox_size b := V3 (xmax b - xmin b) (ymax b - ymin b) (zmax b - zmin b).','Definition bbox_size b := V3 (xmax b - xmin b) (zmax b - zmin b) (ymax b - ymin b).','y and z swapped','C73/C43',T)
m('bb31',B,'bbox_points','V3 (xmax b) (ymax b) (zmax b); V3 (xmin b) (ymax b) (zmax b)]','V3 (xmax b) (ymin b) (zmax b); V3 (xmin b) (ymax b) (zmax b)]','a corner missing','C39: points are the eight corners',T)
m('bb32',B,'eqb3','&& Reqb (z3 p) (z3 q)','','z not compared','C50',T)
json.dump(M,open('/verif/tools/mutants3.json','w'),indent=0)
