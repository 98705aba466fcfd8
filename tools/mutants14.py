from mutlib import *
s=Set('Model/Shells.v',['P_Shells'])
s('sh1','scan','Merged m (rev before ++ after)','Merged m after','shells already scanned are forgotten at a merge','C217 every shell used once')
s('sh2','scan','Pushed x (rev before ++ after)','Pushed x (x :: rev before ++ after)','pushed shell not removed from the list','C217 every shell used once')
s('sh3','scan','scan union push u (x :: before) after','scan union push u before after','shell skipped is dropped','C217 every shell used once')
s('sh4','union_loop','union_loop union fuel shells (m :: us) l len_previous','union_loop union fuel shells (m :: u :: us) l len_previous','the old shell stays after a merge','C217 every shell used once')
s('sh5','union_loop','| [], x :: l => union_loop union fuel shells [x] l len_previous','| [], x :: l => union_loop union fuel shells [] l len_previous','next shell is not taken','C217 every shell used once')
s('sh6','union_loop','let shells := shells ++ [u] in','let shells := [u] in','results overwritten','C217 every shell used once')
s('sh7','union_loop','(Z.of_nat len_previous - 1)','(Z.of_nat len_previous)','test of the length off by one','C217 termination')
s('sh8','union_list_of_shells','[] => Err IndexError','[] => Ok ([], [])','empty list accepted','C217 IndexError')
s('sh9','union_list_of_shells','union_loop union fuel [] [x] l','union_loop union fuel [] [x] (x :: l)','first shell used twice','C217 every shell used once')
s('sh10','vertices_points','if in_list close (snd e) vs then vs else vs ++ [snd e]','vs','ends of edges not collected','(equivalent if every end is a start)')
s('sh11','vertices_points','let vs := if in_list close (fst e) vs then vs else vs ++ [fst e] in','','starts of edges not collected','C219 chains')
s('sh12','point_index','if close q p then Some 0','if close q p then None','first vertex not found','C219 chains')
s('sh13','face_vertices','point_index close (fst e) vs','point_index close (snd e) vs','ends of the edges instead of starts','C219 shared start')
s('sh14','graph_edges','Nat.ltb i j &&','Nat.ltb j i &&','(same undirected edges)','C219 (equivalent graph)')
s('sh15','graph_edges','Nat.ltb i j &&','Nat.leb i j &&','face joined to itself','C219 neighbours')
s('sh16','graph_edges','Err KeyError','Ok []','face without edges passes','C219 KeyError')
s('sh17','neighbors','if Nat.eqb (snd e) x then [fst e] else []','[]','neighbours in one direction only','C219 chains')
s('sh18','nodes','add_node (add_node l (fst e)) (snd e)','add_node l (fst e)','second ends are no nodes','C219 every face that shares a vertex')
s('sh19','component','spread (length (nodes g)) g [x]','spread 1 g [x]','only direct neighbours','C219 chains')
s('sh20','connected_components','if existsb (mem x) cs then cs else','','component repeated for each node','C219 every face in one shell')
s('sh21','is_shell_open','negb (existsb (over e) (neighbors g n))','existsb (over e) (neighbors g n)','test inverted','C219 open')
s('sh22','is_shell_open','existsb (fun n => existsb','forallb (fun n => existsb','every face needs a free edge','C219 open')
s('sh23','is_shell_open','existsb (over e)','forallb (over e)','edge must be over every neighbour','C219 open')
s('sh24','from_faces','is_shell_open over faces g c, c','is_shell_open over faces g (nodes g), c','openness of the whole instead of the shell','C219 open')
s('sh25','faces_graph','Graphs (Some (make_faces verify)) (g_vertices s) else s','Graphs (Some (make_faces true)) (g_vertices s) else s','option ignored','C221 fresh graph')
s('sh26','vertices_graph','if falsy empty (g_faces s) then Graphs','if falsy empty (g_vertices s) then Graphs','(repair) the right cache tested','C221 None after the graph of the faces')
s('sh27','validate_set_operation','if inside a b then [b] else if inside b a then [a]','if inside a b then [a] else if inside b a then [b]','inner shell kept','C222 union')
s('sh28','validate_set_operation','if disjoint a b then [a; b]','if disjoint a b then [a]','second shell lost','C222 union')
s('sh29','subtract_to_closed_shell','if disjoint a b then [a]','if disjoint a b then [a; b]','second shell kept','C222 difference')
s('sh30','intersection','if disjoint a b then []','if disjoint a b then [a; b]','union of disjoint shells','C222 intersection')
s('sh31','intersection','if inside a b then [a]','if inside a b then [b]','outer shell kept','C222 intersection')
s('sh32','validate_faces','covers v f','covers f v','covering inverted','C224 covered faces')
s('sh33','validate_faces','then valid else valid ++ [f]','then valid ++ [f] else valid','test inverted','C224 covered faces')
s('sh34','separate_faces','(fst acc, snd acc ++ [fst e])','(fst acc ++ [fst e], snd acc)','faces without intersections in the first list','C224 separation')
s('sh35','remove_first','if eqb y x then Ok l','if eqb y x then Ok (y :: l)','nothing removed','C224 removal')
s('sh36','group_of','negb (Nat.eqb (fst jg) i) &&','','face coincident with itself','C224 classes of at least two faces')
s('sh37','group_of','(if existsb (eqb f) acc then acc else acc ++ [f])','(acc ++ [f])','face repeated','C224 classes')
s('sh38','faces_to_be_merged','match acc with [] =>','match [] with [] =>','last group instead of the first','C224 classes')
s('sh39','clean_faces','if covers f1 f2 then [f2] else if covers f2 f1 then [f1]','if covers f1 f2 then [f1] else if covers f2 f1 then [f2]','covering face removed','C224 covered faces')
s('sh40','clean_faces','remove_all eqb removed (new_faces ++ union_faces)','remove_all eqb removed new_faces','faces alone are lost','C224 faces kept')
s('sh41','merge_loop','| _ => new_faces ++ merge group end','| _ => merge group end','earlier merges lost','C224 merge')
s('sh42','merge_loop','&& match group with [] => true | _ => false end','','stops before all the groups are merged','C224 every class merged')
s('sh43','merge_faces','clean_faces eqb covers (fst r) (snd r)','Ok (fst r ++ snd r)','faces not cleaned','C224 covered faces')
t=Set('Model/Solid.v',['P_Shells'])
t('so1','volume_tetraedre','1 / 6 * Rabs','1 / 3 * Rabs','wrong factor','C226 boxes')
t('so2','volume_tetraedre','- a3 * b2 * c1','a3 * b2 * c1','sign of a term','C226 volume')
t('so3','volume_tetraedre','1 / 6 * Rabs (','1 / 6 * (','absolute value lost','C226 volume')
t('so4','volume_tetraedre','c3 := z3 point3 - z3 center','c3 := z3 point3','centre not subtracted','C226 translations')
t('so5','shell_volume','volume + volume_tetraedre center t','volume_tetraedre center t','not accumulated','C226 volume')
t('so6','shell_volume','fun volume t => volume + volume_tetraedre center t) face volume','fun volume t => volume + volume_tetraedre center t) face 0','reset at each face','C226 volume')
t('so7','triangle_points','[a; b; c]','[a; b]','third corner not in the box','C226 boxes')
t('so8','to_mesh_data','index_of v u) vertices','index_of v vertices) vertices','indices in the original array','C228 triangles')
t('so9','to_mesh_data','Ok (u, firstn (length faces) t)','Ok (vertices, firstn (length faces) t)','duplicates kept','C228 every point once')
t('so10','to_mesh_data','firstn (length faces) t','firstn (length faces - 1) t','last face lost','C228 triangles')
t('so11','to_mesh_data','map round (flat_map face_rows faces)','flat_map face_rows faces','not rounded','C228 rounding')
t('so12','reshape3','Ok ((a, b, c) :: r)','Ok ((a, c, b) :: r)','order of the corners','C228 triangles in order')
t('so13','from_mesh_data','Err ZeroDivisionError => from_mesh_data make vertices faces\'','Err ZeroDivisionError => Err ZeroDivisionError','flat triangles raise','C228 flat ones dropped')
t('so14','from_mesh_data','Ok (t :: ts)','Ok ts','triangles lost','C228 round trip')
t('so15','shell_triangulation','3 * Z.of_nat i + 2)','3 * Z.of_nat i + 1)','wrong index','C228 triangulation')
t('so16','triangle_shell_volume','map (fun t => [t]) ts','map (fun t => [t; t]) ts','triangles twice','C226 boxes')
save('mutants14', s, t)
