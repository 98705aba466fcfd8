import json
M=[]
def m(id,file,definition,old,new,edit,claim,targets,first=False):
    M.append(dict(id=id,file=file,definition=definition,old=old,new=new,edit=edit,claim=claim,first=first,targets=targets))
G='Model/Geometry.v'; T=['P_Geometry']
m('ge1',G,'euler_angles_to_transfer_matrix','(spsi * stheta) (cpsi * stheta) ctheta','(cpsi * stheta) (spsi * stheta) ctheta','last row swapped','C47',T)
m('ge2',G,'transfer_matrix_to_euler_angles','atan2 (m13 r / sin theta) (- m23 r / sin theta)','atan2 (m13 r / sin theta) (m23 r / sin theta)','sign of phi','C47',T)
m('ge3',G,'transfer_matrix_to_euler_angles','Ok (- atan2 (m21 r) (m11 r), PI, 0)','Ok (atan2 (m21 r) (m11 r), PI, 0)','sign in the theta = pi branch','C47',T)
m('ge4',G,'atan2','then (if Rleb 0 y then atan (y / x) + PI else atan (y / x) - PI)','then atan (y / x)','quadrants ignored','C47',T)
m('ge5',G,'cos_image','if (2 <=? nb)%Z then (-1, 1)','if (1 <=? nb)%Z then (-1, 1)','full range as soon as one multiple of pi is crossed','C45',T)
m('ge6',G,'cos_image','if (Z.abs interval_min mod 2 =? 0)%Z','if (Z.abs interval_min mod 2 =? 1)%Z','parity inverted','C45',T)
m('ge7',G,'sin_image','cos_image (x1 - / 2 * PI) (x2 - / 2 * PI)','cos_image (x1 + / 2 * PI) (x2 + / 2 * PI)','shift in the wrong direction','C45',T)
m('ge8',G,'vectors3d_angle','dot3 v1 v2 / n','dot3 v1 v2','not divided by the norms','C78',T)
m('ge9',G,'sin_cos_angle','else TWO_PI + asin u2)','else asin u2)','negative angle in the fourth quadrant','C46',T)
m('ge10',G,'sin_cos_angle','(if Rleb 0 u2 then acos u1 else TWO_PI - acos u1)','(if Rleb 0 u2 then acos u1 else PI - acos u1)','third quadrant','C46',T)
m('ge11',G,'clockwise_interior2d','else (theta1 + theta2) / 2 + TWO_PI / 2 in','else (theta1 + theta2) / 2 in','wrong side of the circle','C79',T)
m('ge12',G,'angle_principal_measure','let angle := rmod angle TWO_PI in','let angle := rmod angle PI in','modulo pi','C49',T)
m('ge13',G,'clockwise_angle','if Rltb (cross2 v1 v2) 0 then inner else TWO_PI - inner','if Rltb 0 (cross2 v1 v2) then inner else TWO_PI - inner','counter-clockwise','C48',T)
m('ge14',G,'clockwise_angle','if is_zero2 v1 || is_zero2 v2 then 0','if is_zero2 v1 && is_zero2 v2 then 0','null vector test','C48',T)
m('ge15',G,'huygens2d','(Ix + area * b ^ 2, Iy + area * a ^ 2, Ixy - area * a * b)','(Ix + area * a ^ 2, Iy + area * b ^ 2, Ixy - area * a * b)','a and b swapped','C69: parallel axes (huygens2d)',T)
m('ge16',G,'sin_cos_angle','if isclose theta TWO_PI (/ 10 ^ 9) then 0 else theta','theta','2 pi not folded to 0','C46',T)
m('ge17',G,'floordiv','rfloor (x / y)','(rfloor (x / y) + 1)%Z','ceiling instead of floor','C45/C49',T)
S='Model/StepText.v'; T=['P_Step']
m('st1',S,'scan','if (c =? "(")%char then parenthesis + 1 else parenthesis in','if (c =? "(")%char then 1 else parenthesis in','nesting not counted','C51',T)
m('st2',S,'scan','if negb is_str && (c =? " ")%char then','if (c =? " ")%char then','spaces removed inside strings too','C51',T)
m('st3',S,'scan','if (1 <? parenthesis) || is_str then','if (1 <? parenthesis) then','commas inside strings split','C51',T)
m('st4',S,'scan','(arguments ++ [removelast argument])%list else scan','(arguments ++ [argument])%list else scan','closing parenthesis kept in the last argument','C51',T)
m('st5',S,'step_ids_to_str','join (tx ",")','join (tx ", ")','separator with a space','C52',T)
m('st6',S,'cut_last','| [a] => [removelast a]','| [a] => [a]','last character kept','C52',T)
m('st7',S,'cut_first','match l with a :: r => tl a :: r | [] => [] end','l','first character kept','C52',T)
m('st8',S,'split_on','if (a =? c)%char then [] :: split_on c r','if (a =? c)%char then split_on c r','pieces merged','C52',T)
W='Model/StepWrite.v'
m('sw1',W,'point_step','Ref point_id; Lit ")"]])%list, point_id + 1)','Ref current_id; Lit ")"]])%list, point_id + 1)','vertex refers to the previous entity','C80',T)
m('sw2',W,'frame_step','let current_id := u_id + 1 in\n  ((content ++ w_content','let current_id := u_id in\n  ((content ++ w_content','identifier reused','C80',T)
m('sw3',W,'frame_step','Ref origin_id; Lit ","; Ref w_id; Lit ","; Ref u_id; Lit ")"]])%list, current_id).\n(** curves.py l.333','Ref origin_id; Lit ","; Ref u_id; Lit ","; Ref w_id; Lit ")"]])%list, current_id).\n(** curves.py l.333','axis and ref direction swapped','C80: the file describes the frame',T)
m('sw4',W,'line_step','vector_step (l_dir l) p1_id true','vector_step (l_dir l) p1_id false','direction instead of vector','C80',T)
m('sw5',W,'points_step','let \'(rest, ids, last_id) := points_step r (id + 1) in\n    ((content ++ rest)%list, id :: ids, last_id)','let \'(rest, ids, last_id) := points_step r (id - 1) in\n    ((content ++ rest)%list, id :: ids, last_id)','identifiers reused for control points','C80',T)
m('sw6',W,'edge_step','edge_curve name edge_curve_id p1_id p1_id curve_id','edge_curve name edge_curve_id p1_id curve_id curve_id','full arc ends on the curve','C80',T)
m('sw7',W,'edges_step','Ref primitive_id; Lit ",.T.)"] in','Ref current_id; Lit ",.T.)"] in','oriented edge refers to itself','C80',T)
m('sw8',W,'inner_step','inner_step r (face_bound_id + 1)','inner_step r face_bound_id','(identifier of the next bound)','C80',T)
m('sw9',W,'face_step','let contours_ids := outer_contour_id + 1 :: inner_ids in','let contours_ids := [outer_contour_id + 1] in','inner bounds not listed','C80: holes of the faces are described',T)
m('sw10',W,'face_step','Ref surface_id; Lit ",.T.)"])])%list, current_id).\n','Ref surface_id; Lit ",.F.)"])])%list, current_id).\n','same_sense flag','C80',T)
m('sw11',W,'shell_entity','id_pieces face_ids ++ [Lit "))"]','id_pieces (tl face_ids) ++ [Lit "))"]','first face forgotten','C80',T)
m('sw12',W,'product_writer','Ref formation_id; Lit ","; Ref context_id; Lit ")"];','Ref product_id; Lit ","; Ref context_id; Lit ")"];','definition refers to the product','C53/C80',T)
m('sw13',W,'product_writer','Ref definition_shape_id; Lit ","; Ref shape_representation_id; Lit ")"]],\n   shape_definition_repr_id)','Ref definition_shape_id; Lit ","; Ref shape_representation_id; Lit ")"]],\n   shape_representation_id)','returns one identifier too far','C53',T)
m('sw14',W,'geometric_context_writer','Ref length_id; Lit ","; Ref plane_angle_id; Lit ","; Ref solid_angle_id;','Ref length_id; Lit ","; Ref length_id; Lit ","; Ref solid_angle_id;','plane angle unit missing','C53/C80: units of the context',T)
m('sw15',W,'assembly_definition_writer','Ref assembly_frame_id; Lit ","; Ref component_frame_id; Lit ")"];','Ref component_frame_id; Lit ","; Ref assembly_frame_id; Lit ")"];','frames of the placement swapped','C53/C80: placement of components',T)
m('sw16',W,'assembly_definition_writer','Ref assembly_product_definition; Lit ","; Ref component_product_definition; Lit ",$)"','Ref component_product_definition; Lit ","; Ref assembly_product_definition; Lit ",$)"','component contains the assembly','C80',T)
m('sw17',W,'styled_items','styled_items r presentation_style_id (styled_item_id + 1)','styled_items r presentation_style_id styled_item_id','same identifier for all styled items','C80',T)
m('sw18',W,'shell_product','let manifold_id := frame_id + 1 in\n  let shell_id := manifold_id + 1 in\n  let \'(faces_content, face_ids, current_id) := faces_step (s_faces s) shell_id in\n  let \'(context_content','let manifold_id := frame_id + 1 in\n  let shell_id := manifold_id + 1 in\n  let \'(faces_content, face_ids, current_id) := faces_step (s_faces s) manifold_id in\n  let \'(context_content','faces numbered from the manifold','C80',T)
m('sw19',W,'shell_product','let product_id := shape_definition_repr_id - 4 in','let product_id := shape_definition_repr_id - 3 in','category attached to the formation','C80: category refers to the product',T)
m('sw20',W,'shell_product','let product_definition_id := shape_definition_repr_id - 2 in\n  let \'(frame_content, frame_id) := frame_step OXYZ brep_id in\n  let manifold','let product_definition_id := shape_definition_repr_id - 3 in\n  let \'(frame_content, frame_id) := frame_step OXYZ brep_id in\n  let manifold','wrong product definition of a component','C80',T)
m('sw21',W,'members_step','let \'(rest, ids, last_id) := members_step r id in','let \'(rest, ids, last_id) := members_step r current_id in','identifiers reused between members','C80',T)
m('sw22',W,'compound_step','let product_definition_id := current_id - 2 in','let product_definition_id := current_id - 1 in','wrong product definition of a compound','C80',T)
m('sw23',W,'frames_step','let \'(content, id) := frame_step f (current_id + 1) in','let \'(content, id) := frame_step f (current_id - 1) in','identifiers reused between frames','C80',T)
m('sw24',W,'primitive_step','do component_frame_id <- getz frame_ids (i + 1);','do component_frame_id <- getz frame_ids i;','component placed with the previous frame','C80: each component at its position',T)
m('sw25',W,'primitives_step','do (rest, last_id) <- primitives_step r primitive_id;','do (rest, last_id) <- primitives_step r current_id;','identifiers reused between primitives','C80',T)
m('sw26',W,'model_step','primitives_step primitives 2','primitives_step primitives 1','first identifier collides with the header','C80',T)
m('sw27',W,'vector_step','Lit ("," ++ v_norm v ++ ")")]])%list, direction_id + 1)','Lit ",1.0)"]])%list, direction_id + 1)','norm of the vector lost','C80',T)
m('sw28',W,'manifold_entity','if s_closed s then Entity manifold_id [Lit ("MANIFOLD_SOLID_BREP("','if negb (s_closed s) then Entity manifold_id [Lit ("MANIFOLD_SOLID_BREP("','open and closed shells exchanged','C80',T)
m('sw29',W,'render','tx ";" ++ newline','newline','semicolon forgotten','C80: written text (syntax)',T)
m('sw30',W,'shell_product','Ref frame_id; Lit ","; Ref manifold_id; Lit "),"; Ref context_id; Lit ")"] in\n  let category','Ref frame_id; Lit ","; Ref shell_id; Lit "),"; Ref context_id; Lit ")"] in\n  let category','representation lists the shell instead of the solid','C80',T)
m('sw31',W,'surface_step','Ref wire_id; Lit ","; Ref (current_id + 1 - 1); Lit ")"]','Ref wire_id; Lit ","; Ref axis_id; Lit ")"]','revolution refers to the direction instead of the axis','C80',T)
m('sw32',W,'table_step','let \'(rest, idss, last_id) := table_step r current_id in','let \'(rest, idss, last_id) := table_step r (current_id - 1) in','identifiers reused between rows','C80',T)
json.dump(M,open('/verif/tools/mutants5.json','w'),indent=0)
