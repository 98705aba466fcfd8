import json
M=[]
def m(id,file,definition,old,new,edit,claim,first=False):
    M.append(dict(id=id,file=file,definition=definition,old=old,new=new,edit=edit,claim=claim,first=first,targets=['P_Voxel'] if id[:2] in('ff','vm','vd') else ['P_MeshGeom'] if id[:2]=='mg' else ['P_Mesh']))
F='Model/FloodFill.v'
m('ff1',F,'nbrs2','[(0, -1); (0, 1); (-1, 0); (1, 0)]','[(0, -1); (0, 1); (-1, 0)]','2D fill forgets the neighbour (x+1, y)','C01: the filled cells are exactly the connected component')
m('ff2',F,'nbrs3','(0, 0, -1); (0, 0, 1)]','(0, 0, -1); (0, 1, 1)]','3D fill uses a diagonal neighbour','C01')
m('ff3',F,'push_nbrs','if inb n && Bool.eqb (m n) old','if inb n','push neighbours whatever their value','C01 (only cells with the old value are changed / termination)')
m('ff4',F,'flood_fill_matrix_2d','if negb (inb2 (rows m) (cols m) start) then Err IndexError\n  else flood_fill_2d_core m start fill','flood_fill_2d_core m start fill','start is not checked against the shape','C01: a start outside the matrix raises IndexError')
m('ff5',F,'inb2','(0 <=? x) && (x <? a) && ((0 <=? y) && (y <? b)).','(0 <=? x) && (x <=? a) && ((0 <=? y) && (y <? b)).','off-by-one range test (x <= rows)','C01: nothing outside the matrix is accessed')
m('ff6',F,'flood_fill_3d_core','let old := at3 m start in\n  if Bool.eqb old fill then Ok m','let old := at3 m start in\n  if Bool.eqb old true then Ok m','no fill when the start is True','C01')
V='Model/VoxelMatrix.v'
m('vm1',V,'expand3','dimx := dimx m + 2; dimy := dimy m + 2; dimz := dimz m + 2;','dimx := dimx m + 2; dimy := dimy m + 2; dimz := dimz m + 1;','one layer missing along z when expanding','C02: cells reachable from outside are filled')
m('vm2',V,'reduce3','vorg := (ox + vsz a, oy + vsz a, oz + vsz a); vsz := vsz a |}.','vorg := (ox, oy, oz); vsz := vsz a |}.','origin not moved back by _reduce','C02: the origin is preserved')
m('vm3',V,'inverse2','at2 := fun c => negb (at2 (pmat a) c)','at2 := fun c => at2 (pmat a) c','2D inverse does not negate','C09')
m('vm4',V,'crop3','dimx := lmax x xs + 1 - mx;','dimx := lmax x xs - mx;','crop loses the last layer along x','C06')
m('vm5',V,'crop3','vorg := center3 (vorg a) (vsz a) (mx, my, mz); vsz := vsz a |}','vorg := vorg a; vsz := vsz a |}','crop keeps the old origin','C06')
m('vm6',V,'difference3','Definition difference3 := logical3 (fun a b => andb a (negb b)).','Definition difference3 := logical3 (fun a b => andb b (negb a)).','difference with swapped operands','C05')
m('vm7',V,'axis_start','Definition axis_start (o1 o2 v : Z) : Z := round9_int (o1 - axis_gmin o1 o2) v.','Definition axis_start (o1 o2 v : Z) : Z := round9_int (o2 - axis_gmin o1 o2) v.','wrong operand for the start index','C05')
m('vm8',V,'logical3','if negb (vsz a =? vsz b) then Err ValueError\n  else\n    let v := vsz a in\n    let \'(ax, ay, az)','if false then Err ValueError\n  else\n    let v := vsz a in\n    let \'(ax, ay, az)','sizes are not compared','C05: different voxel sizes raise ValueError')
m('vm9',V,'fill_enclosed3','do o <- fill_outer3 a; union3 a (inverse3 o).','do o <- fill_outer3 a; union3 a o.','forgets the inversion','C03')
m('vm10',V,'to_matrix','let dx := round_int (Mx - mx + v) v in','let dx := round_int (Mx - mx) v in','matrix one cell too short along x','C07')
m('vm11',V,'to_matrix','(round_int (x - mx) v, round_int (y - my) v, round_int (z - mz) v)) (p :: l) in','(round_int (x - mx) v, round_int (z - mz) v, round_int (y - my) v)) (p :: l) in','y and z indices swapped','C07')
m('vm12',V,'layers_loop','then if cube_full m c count then layers_loop f m c (count + 1) else Ok (count - 1)','then if cube_full m c count then layers_loop f m c (count + 1) else Ok count','one layer too many','C16')
m('vm13',V,'cube_full','(zrange (z - n) (z + n + 1))','(zrange (z - n) (z + n))','last slice of the cube not tested','C16')
m('vm14',V,'translation','(x + dx, y + dy, z + dz)) (pcs a)) (pvs a);','(x + dx, y + dy, z)) (pcs a)) (pvs a);','z offset dropped','C59')
m('vm15',V,'grid_center','Definition grid_center (v i : Z) : Z := rint_div ((2 * i + 1) * v) 2.','Definition grid_center (v i : Z) : Z := rint_div ((2 * i) * v) 2.','corner instead of center','C59')
m('vm16',V,'voxel_centers','(ox + x * v, oy + y * v, oz + z * v).','(ox + x * v, oy + y * v, oz + x * v).','x index used for z','C05/C07')
m('vm17',V,'fill_outer2','do b <- flood_fill2 (expand2 a) (0, 0) true; Ok (reduce2 b).','do b <- flood_fill2 a (0, 0) true; Ok b.','fill from the corner without expanding','C02')
m('vm18',V,'axis_max','round6 (o + (n - 1) * v) + one','round6 (o + (n - 1) * v)','the "+ 1" on the maximum dropped','C05')
D='Model/VoxelDisplay.v'
m('vd1',D,'toggle','then filter (fun u => negb (tri_eqb t u)) s else t :: s','then s else t :: s','a face seen twice is kept','C15: only boundary faces')
m('vd2',D,'voxel_triangular_faces','(k (-1) (-1) 1, k 1 1 1, k 1 (-1) 1);','(k (-1) (-1) 1, k 1 1 1, k (-1) 1 1);','second triangle of the front face wrong','C15/C60')
m('vd3',D,'corner','rint_div (2 * z + d * v) 2).','rint_div (2 * z + v) 2).','corner always on the upper side in z','C15/C60')
E2='Model/Mesh.v'
m('me1',E2,'merge','tris := tris m1 ++ map (shift (Z.of_nat (length (verts m1)))) (tris m2) |} in','tris := tris m1 ++ tris m2 |} in','indices of the second mesh not shifted','C21: merge keeps the triangles of both')
m('me2',E2,'merge','tris := tris m1 ++ map (shift (Z.of_nat (length (verts m1)))) (tris m2) |} in','tris := tris m1 ++ map (shift (Z.of_nat (length (tris m1)))) (tris m2) |} in','shift by the number of triangles','C21')
m('me3',E2,'merge_vertices','let indices_map := map (fun v => index_of v u) (verts m) in','let indices_map := map (fun v => index_of v (verts m)) (verts m) in','index in the original array (return_index) used as inverse','C22')
m('me4',E2,'sort3','[a; i + j + k - a - c; c].','[a; j; c].','middle element wrong','C23: triangles equal up to order are merged')
m('me5',E2,'split_shared_vertices','3 * Z.of_nat i + 2)','3 * Z.of_nat i + 1)','third index wrong','C24')
m('me6',E2,'check_consistency','<? Z.of_nat (length (verts m))','<=? Z.of_nat (length (verts m))','boundary of the range test','C24: check_consistency')
m('me7',E2,'tri_edges','[(i, j); (i, k); (j, k)]','[(i, j); (i, k); (i, k)]','an edge dropped','C26')
m('me8',E2,'mesh_border','Nat.eqb (count_row e keys) 1','Nat.leb 1 (count_row e keys)','all edges reported as border','C26')
m('me9',E2,'dict_to_object','do v <- chunk3 (fst x);\n  do t <- chunk3 (snd x);','do v <- chunk3 (snd x);\n  do t <- chunk3 (fst x);','vertices and triangles swapped','C27')
m('me10',E2,'merge_triangles','let keys := map sort3 (tris m) in','let keys := map (fun t => let \'(i, j, k) := t in [i; j; k]) (tris m) in','keys not sorted','C23')
m('me11',E2,'mesh_or','merge m1 m2 true true','merge m1 m2 true false','triangles not merged by |','C61')
m('me12',E2,'from_meshes','do a <- acc; merge a m mv mt','do a <- acc; merge m a mv mt','accumulated in the wrong order','C21')
m('me13',E2,'cmp_row','match x ?= y with Eq => cmp_row a\' b\' | c => c end','match x ?= y with Eq => Eq | c => c end','only the first coordinate compared','C22')
G='Model/MeshGeom.v'
m('mg1',G,'degenerate_mask','&& Rltb tol (dist_sq v1 v2) && Rltb tol (dist_sq v0 v2)','&& Rltb tol (dist_sq v1 v2)','third side not tested','C25')
m('mg2',G,'remove_large_triangles','forallb (fun l => Rltb l threshold)','existsb (fun l => Rltb l threshold)','kept as soon as one side is small','C25')
m('mg3',G,'mesh_area','/ 2) vs) 0)',') vs) 0)','missing 1/2','C74')
m('mg4',G,'tri_cross','cross3 (sub3 v1 v0) (sub3 v2 v1)','cross3 (sub3 v1 v0) (sub3 v2 v2)','degenerate cross product','C74')
m('mg5',G,'minimum_distance','| a :: l1, b :: l2 => Ok (Rmin (lmin a l1) (lmin b l2))','| a :: l1, b :: l2 => Ok (lmin b l1)','a wrong minimum','C76')
m('mg6',G,'resize','map (fun v => mul3 v k) (verts m)','map (fun v => add3 v (V3 k k k)) (verts m)','translation instead of scaling','C74')
m('mg7',G,'to_triangles3d','(/ 10 ^ 6)','0','other tolerance','C75 (refutation witness)')
json.dump(M,open('/verif/tools/mutants1.json','w'),indent=0)
