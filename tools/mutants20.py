from mutlib import Set, save
h = Set('Model/Containers.v', ['P_Containers'])
h('co1','rows_of','(x3 (bu b)) (y3 (bu b)) (z3 (bu b)) (x3 (bv b))','(x3 (bu b)) (x3 (bv b)) (x3 (bw b)) (x3 (bv b))','matrix of columns in the first row','C314')
h('co2','get_transfer_matrix_from_basis','np_solve33 (rows_of a) (rows_of b)','np_solve33 (rows_of b) (rows_of a)','swapped bases','C314')
h('co3','np_solve33','Reqb (det33 m) 0','Reqb (det33 b) 0','determinant of the other matrix','C314')
h('co4','placing_frame','org3 final','org3 initial','other origin','C314')
h('co5','placing_frame','(V3 (m11 m) (m12 m) (m13 m))','(V3 (m11 m) (m21 m) (m31 m))','columns instead of rows','C314')
h('co6','placing_frame','(V3 (m21 m) (m22 m) (m23 m)) (V3 (m31 m) (m32 m) (m33 m))','(V3 (m31 m) (m32 m) (m33 m)) (V3 (m21 m) (m22 m) (m23 m))','swapped vectors','C314')
h('co7','map_primitive','if frame3_eqb initial final then Ok p','if frame3_eqb initial OXYZ_frame then Ok p','wrong comparison','C314')
h('co8','map_primitive','Ok (of_frame final)','Ok (of_frame initial)','the initial frame answered','C314')
h('co9','map_primitive','if frame3_eqb f OXYZ_frame','if frame3_eqb final OXYZ_frame','final compared with OXYZ','C314')
h('co10','map_primitive','fm p f','fm p final','mapped by the final frame','C314')
h('co11','frame3_eqb','&& vec3_eqb (bw (fb3 f)) (bw (fb3 g))','','third vector not compared','C314')
h('co12','frame3_eqb','vec3_eqb (org3 f) (org3 g) &&','','origins not compared','C314')
h('co13','assembly_primitives','(fst c) frame (snd c)','(fst c) (snd c) frame','swapped frames','C316')
h('co14','assembly_primitives','combine components positions','combine (tl components) positions','first component lost','C316')
h('co15','assembly_positions_old','frame3_mapping_old p frame','frame3_mapping_old frame p','swapped arguments','C316')
h('co16','assembly_positions_old','map (fun p => frame3_mapping_old p frame) positions','positions','not moved','C316')
h('co17','boxes_of','| _ => [] end','| PointMember p => [BBox (x3 p) (x3 p) (y3 p) (y3 p) (z3 p) (z3 p)] | _ => [] end','points counted: the error repaired','C318, C319 (refutation)')
h('co18','group_bounding_box','else Err TypeError','else bbox_from_points (points_of l)','others ignored','C318')
h('co19','group_bounding_box','| bs => from_bounding_boxes bs','| bs => from_bounding_boxes (tl bs)','first box lost','C318')
h('co20','model_bounding_box','boxes_of l','boxes_of (tl l)','first member lost','C318')
h('co21','get_bounding_box','Ok (b, Cached (members s) (Some b))','Ok (b, Cached (members s) None)','not kept: the error repaired','C318 (C319 refutation)')
h('co22','get_bounding_box','Some b => Ok (b, s)','Some b => Ok (b, Cached (members s) None)','dropped after use','C318')
h('co23','get_bounding_box','Ok (b, Cached (members s) (Some b))','Ok (b, Cached [] (Some b))','members lost','C318')
h('co24','set_bounding_box','Cached (members s) (Some b)','Cached (members s) (bbox_cache s)','not set','C318')
h('co25','model_volume','Ok (v + w)','Ok w','last volume only','C320')
h('co26','model_volume','l (Ok 0)','(tl l) (Ok 0)','first primitive lost','C320')
h('co27','model_volume','Ok (v + w)','Ok (v - w)','subtracted','C320')
h('co28','model_eqb','if negb (length l =? length m)%nat then false\n  else ','','lengths not compared','C320')
h('co29','model_eqb','equ && eqb','equ || eqb','or','C320')
h('co30','model_eqb','equ && eqb (fst pq) (snd pq)','eqb (fst pq) (snd pq)','last pair only','C320')
h('co31','model_eqb','eqb (fst pq) (snd pq)','eqb (snd pq) (fst pq)','swapped','C320')
h('co32','model_hash','(s + h p)%Z','(h p)%Z','last hash only','C320')
h('co33','unpack','list_shells ++ [a]','a :: list_shells','reversed order','C317')
h('co34','unpack','| Grp l => fold_left unpack l list_shells','| Grp l => list_shells','no recursion','C317')
h('co35','unpack','| Leaf _ false => list_shells','| Leaf a false => list_shells ++ [a]','bodies without faces','C317')
h('co36','get_shells','fold_left unpack l []','fold_left unpack (tl l) []','first primitive lost','C317')
h('co37','is_consistent','=?','<=?','too few frames accepted','C320')
h('co38','is_consistent','forallb','existsb','one good step is enough','C320')
h('co39','new_moving','if is_consistent m then Ok m','if is_consistent m then Ok (Moving l [])','frames lost','C320')
h('co40','step_volume_model','nth_error (mv_frames m) istep','nth_error (mv_frames m) (S istep)','next step','C320')
h('co41','step_volume_model','combine (mv_primitives m) fr','combine (rev (mv_primitives m)) fr','reversed','C320')
h('co42','mapM','Ok (b :: r)','Ok r','dropped','C316, C320')
h('co43','step_volume_model','None => Err IndexError','None => Ok []','missing step accepted','C320')
save('mutants20', h)
