import json
M=[]
def m(id,file,definition,old,new,edit,claim,targets,first=False):
    M.append(dict(id=id,file=file,definition=definition,old=old,new=new,edit=edit,claim=claim,first=first,targets=targets))
O='Model/Octree.v'; T=['P_Octree']
m('oc1',O,'octants','(1, 0, 1); (1, 1, 0); (1, 1, 1)]','(1, 0, 1); (1, 1, 0); (0, 1, 1)]','an octant visited twice, one never','C10-C14',T)
m('oc2',O,'oindex','i * 4 + j * 2 + k','i * 2 + j * 4 + k','axes i and j exchanged in the child index (consistent everywhere except increment)','C10: increment keeps the voxels',T)
m('oc3',O,'sub_coord','round2 (2 * c + (2 * i - 1) * half)','round2 (2 * c + 2 * i * half)','child center shifted by half a voxel','C11',T)
m('oc4',O,'leaf_centers','if truthy s then leaf_centers m half (sub_center c half o) s else []','leaf_centers m half (sub_center c half o) s','empty nodes not skipped','C11',T)
m('oc5',O,'rec_union','else if truthy y then rec_union m n1 (blank m) y','else if truthy y then Leafs []','voxels only in the second operand lost','C10',T)
m('oc6',O,'rec_union','Leafs (indices a ++ map (fun i => i + n1) (indices b))\n  | S m => Kids (map (fun o =>\n      let x := kid a (oindex o) in let y := kid b (oindex o) in\n      if truthy x && truthy y then rec_union','Leafs (indices a ++ indices b)\n  | S m => Kids (map (fun o =>\n      let x := kid a (oindex o) in let y := kid b (oindex o) in\n      if truthy x && truthy y then rec_union','triangle indices of the second operand not shifted','C14',T)
m('oc7',O,'rec_difference','if negb (truthy b) then a else Leafs []','if truthy b then a else Leafs []','difference inverted at the leaves','C10',T)
m('oc8',O,'rec_intersection','if truthy x && truthy y then rec_intersection m n1 x y else Leafs []','if truthy x || truthy y then rec_intersection m n1 x y else Leafs []','or instead of and','C10',T)
m('oc9',O,'rec_symmetric','Leafs (map (fun i => i + n1) (indices b)) else Leafs []','Leafs (indices b) else Leafs []','indices not shifted','C14',T)
m('oc10',O,'increment','Kids [e; e; e; k 4%nat; e; e; e; e]; Kids [e; e; k 5%nat; e; e; e; e; e]','Kids [e; e; k 4%nat; e; e; e; e; e]; Kids [e; e; k 5%nat; e; e; e; e; e]','child 4 put at the wrong place','C10',T)
m('oc11',O,'increment','if negb (eqb3 (o_center a) origin3) then Err NotImplementedError\n  else\n','if false then Err NotImplementedError\n  else\n','center not checked','C10 (non-origin roots rejected)',T)
m('oc12',O,'same_depth','do b2 <- grow (o_depth a2 - o_depth b) b;','do b2 <- grow (o_depth a - o_depth b - 1) b;','second octree one level short','C10',T)
m('oc13',O,'same_depth','if negb (o_size a =? o_size b) then Err ValueError','if false then Err ValueError','sizes not compared','C10',T)
m('oc14',O,'octree_difference','octree_op rec_difference (fun x _ => x)','octree_op rec_difference (fun _ y => y)','triangles of the wrong operand','C14',T)
m('oc15',O,'overlap1','Z.max (c1 - h1) (c2 - h2) <? Z.min (c1 + h1) (c2 + h2)','Z.max (c1 - h1) (c2 - h2) <=? Z.min (c1 + h1) (c2 + h2)','touching voxels count as overlapping','C12',T)
m('oc16',O,'intersecting_loop','intersecting_loop f d1 d2 s1 s2 r1 r2\n','Ok false\n','stops at the first disjoint pair','C12',T)
m('oc17',O,'intersecting_loop','(rev (map snd pairs) ++ r2)','(map snd pairs ++ r2)','pairs mismatched','C12',T)
m('oc18',O,'octant_of','if cz <? z then 1 else 0','if cz <=? z then 1 else 0','boundary points to the other side in z (no voxel center lies there: equivalent on grid points)','C11 (maybe equivalent)',T)
m('oc19',O,'subdivide_points','let half := size * 2 ^ Z.of_nat m in\n    let subs := map (fun o =>\n      let pts','let half := size * 2 ^ Z.of_nat n in\n    let subs := map (fun o =>\n      let pts','size of the parent used','C11',T)
m('oc20',O,'octree_from_points','let max_corner := (lmax a l / size + 2) * size in\n    let root_size := Z.max (Z.abs min_corner) (Z.abs max_corner) * 2 in\n    let max_depth := Z.to_nat (Z.log2_up (root_size / size)) in\n    Ok (Octree (subdivide_points','let max_corner := (lmax a l / size + 2) * size in\n    let root_size := Z.max (Z.abs min_corner) (Z.abs max_corner) in\n    let max_depth := Z.to_nat (Z.log2_up (root_size / size)) in\n    Ok (Octree (subdivide_points','root half as large','C11',T)
m('oc21',O,'octree_from_points','Z.max (Z.abs min_corner) (Z.abs max_corner) * 2 in\n    let max_depth := Z.to_nat (Z.log2_up (root_size / size)) in\n    Ok (Octree (subdivide_points','Z.abs max_corner * 2 in\n    let max_depth := Z.to_nat (Z.log2_up (root_size / size)) in\n    Ok (Octree (subdivide_points','negative corner ignored','C11',T)
m('oc22',O,'set_add','if existsb (eqb3 p) s then s else (s ++ [p])%list','(s ++ [p])%list','duplicates kept','C13/C82',T)
m('oc23',O,'non_homogeneous','(length (dict_get Z.eqb d half) =? 8)%nat then dict_set','(length (dict_get Z.eqb d half) =? 7)%nat then dict_set','merge with 7 children','C13',T)
m('oc24',O,'non_homogeneous','dict_set Z.eqb (dict_del Z.eqb d half) size [c] else d','dict_set Z.eqb d size [c] else d','merged children not removed','C13',T)
m('oc25',O,'inner_growing','thickness <=? layer p','thickness <? layer p','strict comparison','C83',T)
m('oc26',O,'inner_growing','&& (m =? 0)%nat &&','&&','merged at all levels','C83',T)
m('oc27',O,'combinations2','if a <=? b then (a, b) else (b, a)','(a, b)','pairs not sorted','C82',T)
m('oc28',O,'kept','(fst k <? t) && (t <=? snd k)','(fst k <? t) || (t <=? snd k)','or instead of and','C82',T)
m('oc29',O,'intersections','dict_set eqb_pair d k [c]','dict_set eqb_pair [] k [c]','only the last pair kept','C82',T)
m('oc30',O,'subdivide_triangles','filter (fun i => hit i sc quarter) idx','filter (fun i => hit i sc half) idx','test with the full size as half size','C81',T)
m('oc31',O,'octree_from_triangles','(map Z.of_nat (seq 0 (length triangles)))','(map Z.of_nat (seq 1 (length triangles)))','indices from 1','C81',T)
m('oc32',O,'sizes','size * 2 ^ Z.of_nat (depth - i)','size * 2 ^ Z.of_nat i','sizes in the wrong order','C12',T)
S='Model/Sat.v'; T=['P_Sat']
m('sa1',S,'slab_misses','Rltb (max_of3 a b c) (- e) || Rltb e (min_of3 a b c)','Rltb (max_of3 a b c) (- e)','upper side not tested','C18',T)
m('sa2',S,'axis0','V3 0 (- z3 f) (y3 f)','V3 0 (z3 f) (y3 f)','wrong axis','C17',T)
m('sa3',S,'sat_test','Rltb (x3 ext * Rabs (x3 n) + y3 ext * Rabs (y3 n) + z3 ext * Rabs (z3 n)) (Rabs (dot3 n v0))','Rltb (x3 ext * Rabs (x3 n) + y3 ext * Rabs (y3 n)) (Rabs (dot3 n v0))','a term of the plane test dropped','C17',T)
m('sa4',S,'sat_test','let f2 := sub3 t0 t2 in\n','let f2 := sub3 t0 t1 in\n','third edge wrong','C17/C18',T)
m('sa5',S,'axis_separates','Rltb radius (Rmax (- max_of3 p0 p1 p2) (min_of3 p0 p1 p2))','Rltb radius (Rmax (max_of3 p0 p1 p2) (- min_of3 p0 p1 p2))','min and max exchanged','C17',T)
m('sa6',S,'line_eq','(x2 q * y2 p - x2 p * y2 q)','(x2 p * y2 q - x2 q * y2 p)','constant of the line equation','C20',T)
m('sa7',S,'segment_hits_pixel','|| (Rltb ymax (y2 p) && Rltb ymax (y2 q)) || (Rltb (y2 p) ymin && Rltb (y2 q) ymin)','|| (Rltb ymax (y2 p) && Rltb ymax (y2 q))','lower shadow not tested','C20',T)
m('sa8',S,'point_in_triangle_2d','Bool.eqb i1 i2 && Bool.eqb i2 i3','Bool.eqb i1 i2','third side not tested','C18 (interface test)',T)
m('sa9',S,'point_in_pixel','Rleb (x2 lo) (x2 p) && Rleb (x2 p) (x2 hi) && (Rleb (y2 lo) (y2 p) && Rleb (y2 p) (y2 hi))','Rleb (x2 lo) (x2 p) && Rleb (x2 p) (x2 hi)','y not tested','C18 (interface test)',T)
m('sa10',S,'rectangles_overlap','if Rltb (x2 max1) (x2 min2) || Rltb (x2 max2) (x2 min1) then false','if Rltb (x2 max2) (x2 max1) || Rltb (x2 max2) (x2 min1) then false','wrong bound','C17 (interface test)',T)
m('sa11',S,'interface_block','Reqb (round9 (k a)) (round9 (k center - k ext)) || Reqb (round9 (k a)) (round9 (k center + k ext))','Reqb (round9 (k a)) (round9 (k center - k ext))','upper face of the voxel ignored','C17: interface triangles',T)
m('sa12',S,'interface_test','|| interface_block z3 pr_xy t center ext','','z faces ignored','C17: interface triangles',T)
m('sa13',S,'bbox_is_intersecting_triangle','((zmax b - zmin b) / 2)','(zmax b - zmin b)','size instead of half size','C44',T)
m('sa14',S,'axis_start','c_trunc (m / v - 1)','c_trunc (m / v)','no margin below','C19',T)
m('sa15',S,'axis_end','c_trunc (m / v + 1)','c_trunc (m / v)','no margin above','C19',T)
m('sa16',S,'grid_center','round9 ((IZR k + 1 / 2) * v)','round9 (IZR k * v)','corner instead of center','C19/C20',T)
m('sa17',S,'aabb_intersecting_boxes','V3 (grid_center v x) (grid_center v y) (grid_center v z)','V3 (grid_center v x) (grid_center v z) (grid_center v y)','y and z exchanged','C19',T)
m('sa18',S,'segment_pixels','let y_start := c_trunc (Rmin (y2 p) (y2 q) / ps - 2) in','let y_start := c_trunc (Rmax (y2 p) (y2 q) / ps - 2) in','starts at the top','C20',T)
m('sa19',S,'triangle_2d_to_pixels','[(a, b); (b, c); (c, a)]','[(a, b); (b, c); (c, b)]','third side forgotten','C84',T)
m('sa20',S,'c_trunc','(- rfloor (- x))%Z','rfloor x','floor of negative numbers','C19/C20',T)
V='Model/Voxelize.v'
m('vo1',V,'axis_shape','(floordiv mx v + 1 - floordiv mn v + 2)%Z','(floordiv mx v + 1 - floordiv mn v)%Z','matrix without margins','C84: no access outside the matrix',T)
m('vo2',V,'axis_origin','round9 ((IZR (floordiv mn v) - 1 / 2) * v)','round9 ((IZR (floordiv mn v) + 1 / 2) * v)','origin one voxel too far','C84',T)
m('vo3',V,'fill_triangle','fill_interface y3 pr_xz (fun n i j => (i, n, j))','fill_interface y3 pr_xz (fun n i j => (n, i, j))','indices of y interfaces not permuted','C84',T)
m('vo4',V,'fill_interface','do m\' <- write3 m (mk n1 i j);\n      write3 m\' (mk n2 i j)','write3 m (mk n1 i j)','only one side of the interface marked','C84',T)
m('vo5',V,'fill_interface','let n1 := rint 9 ((round9 (k a) - k o - v / 2) / v) in','let n1 := rint 9 ((round9 (k a) - k o + v / 2) / v) in','same side twice','C84',T)
m('vo6',V,'fill_intersecting','if negb b then','if b then','only cells already marked are tested','C84',T)
m('vo7',V,'filled_pixel_matrix','at2 m c || negb (at2 outer c)','at2 m c','interior of the triangle not filled','C84',T)
m('vo8',V,'has_equal_points','eq3b a b || eq3b a c || eq3b b c','eq3b a b && eq3b a c','only triangles reduced to a point skipped','C84 (skipped triangles)',T)
m('vo9',V,'triangles_to_voxel_matrix','foldM (fill_triangle v o) l zeros','foldM (fill_triangle v o) (tl l) zeros','first triangle forgotten','C84',T)
m('vo10',V,'at_interface','&& is_integer (round9 (round9 (k a) / v))','','every axis-aligned triangle treated as an interface','C84',T)
json.dump(M,open('/verif/tools/mutants6.json','w'),indent=0)
