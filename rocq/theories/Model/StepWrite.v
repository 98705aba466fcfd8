(** Model of the STEP export: the to_step methods of /repo/volmdlr (core_compiled.pyx, curves.py, edges.py, wires.py,
    surfaces.py, faces.py, shells.py, core.py) and utils/step_writer.py.
    A writer returns the entities it writes, in the order of the text, and the last identifier. An entity
    [#id = body;] is kept as its identifier and the pieces of its body: literal texts and references [#n];
    [render] gives the text the code writes. Numbers are kept as the texts Python prints for them. *)
From Verif.Model Require Import StepText.
Open Scope Z_scope.

Inductive piece := Lit (s : string) | Ref (i : Z).
Record entity := Entity { e_id : Z; e_body : list piece }.
Definition render_piece (p : piece) : text := match p with Lit s => tx s | Ref i => "#"%char :: dec i end.
Definition newline : text := [ascii_of_nat 10].
Definition render (e : entity) : text :=
  ("#"%char :: dec (e_id e) ++ tx " = " ++ flat_map render_piece (e_body e) ++ tx ";" ++ newline)%list.
Definition render_all (l : list entity) : text := flat_map render l.

(** step_writer.py l.96-106: the pieces of step_ids_to_str(ids). *)
Fixpoint id_pieces (ids : list Z) : list piece :=
  match ids with [] => [] | [i] => [Ref i] | i :: r => Ref i :: Lit "," :: id_pieces r end.
Definition quote (s : string) : string := ("'" ++ s ++ "'")%string.

(** The objects, reduced to what the export reads. *)
Record spoint := SPoint { p_name : string; p_xyz : string }.
Record svector := SVector { v_name : string; v_xyz : string; v_norm : string }.
Record sframe := SFrame { f_name : string; f_origin : spoint; f_w : svector; f_u : svector }.
Record sline := SLine { l_name : string; l_point1 : spoint; l_dir : svector }.
Inductive sedge :=
| LineSegment (name : string) (line : sline) (start end_ : spoint)
| ArcEdge (name : string) (frame : sframe) (radius : string) (start end_ : spoint)
| FullArc (name : string) (frame : sframe) (radius : string) (point1 : spoint)
| BSplineEdge (name : string) (degree : string) (points : list spoint) (knots : string) (start end_ : spoint).
Definition edge_name (e : sedge) : string :=
  match e with LineSegment n _ _ _ => n | ArcEdge n _ _ _ _ => n | FullArc n _ _ _ => n | BSplineEdge n _ _ _ _ _ => n end.
(** what a swept surface is built on: an edge, a line or a circle *)
Inductive scurve := CurveEdge (e : sedge) | CurveLine (l : sline) | CurveCircle (name : string) (frame : sframe) (radius : string).
Inductive ssurface :=
| FrameSurface (keyword name : string) (frame : sframe) (params : string)
| Extrusion (name : string) (edge : scurve) (direction : svector)
| Revolution (name : string) (edge : scurve) (axis_point : spoint) (axis : svector)
| BSplineSurf (name degrees : string) (table : list (list spoint)) (params : string).
Record scontour := SContour { k_name : string; k_primitives : list sedge }.
Record sface := SFace { a_name : string; a_surface : ssurface; a_outer : scontour; a_inner : list scontour }.
(** s_closed: STEP_FUNCTION is "CLOSED_SHELL"; s_plain_open: the class is OpenShell3D itself;
    s_product: the class is OpenShell3D or ClosedShell3D, or has a shell_faces method. *)
Record sshell := SShell { s_name : string; s_closed : bool; s_plain_open : bool; s_plain_closed : bool; s_has_shell_faces : bool;
                          s_color : string; s_faces : list sface }.
Inductive sprimitive :=
| PShell (s : sshell)
| PCompound (name : string) (primitives : list sshell)
| PAssembly (name : string) (frame : sframe) (positions : list sframe) (components : list sprimitive).

Definition out := (list entity * Z)%type.

(** core_compiled.pyx l.2079-2101 Point3D.to_step *)
Definition point_step (p : spoint) (current_id : Z) (vertex : bool) : out :=
  let point_id := current_id + 1 in
  let content := [Entity point_id [Lit ("CARTESIAN_POINT(" ++ quote (p_name p) ++ ",(" ++ p_xyz p ++ "))")]] in
  if vertex then ((content ++ [Entity (point_id + 1) [Lit ("VERTEX_POINT(" ++ quote (p_name p) ++ ","); Ref point_id; Lit ")"]])%list, point_id + 1)
  else (content, point_id).
(** core_compiled.pyx l.1853-1880 Vector3D.to_step (vertex=False) *)
Definition vector_step (v : svector) (current_id : Z) (vector : bool) : out :=
  let direction_id := current_id + 1 in
  let content := [Entity direction_id [Lit ("DIRECTION(" ++ quote (v_name v) ++ ",(" ++ v_xyz v ++ "))")]] in
  if vector then ((content ++ [Entity (direction_id + 1) [Lit ("VECTOR(" ++ quote (v_name v) ++ ","); Ref direction_id; Lit ("," ++ v_norm v ++ ")")]])%list, direction_id + 1)
  else (content, direction_id).
(** core_compiled.pyx l.3537-3554 Frame3D.to_step *)
Definition frame_step (f : sframe) (current_id : Z) : out :=
  let '(content, origin_id) := point_step (f_origin f) current_id false in
  let '(w_content, w_id) := vector_step (f_w f) origin_id false in
  let '(u_content, u_id) := vector_step (f_u f) w_id false in
  let current_id := u_id + 1 in
  ((content ++ w_content ++ u_content ++
    [Entity current_id [Lit ("AXIS2_PLACEMENT_3D(" ++ quote (f_name f) ++ ","); Ref origin_id; Lit ","; Ref w_id; Lit ","; Ref u_id; Lit ")"]])%list, current_id).
(** curves.py l.333-341 Line.to_step *)
Definition line_step (l : sline) (current_id : Z) : out :=
  let '(p1_content, p1_id) := point_step (l_point1 l) current_id false in
  let '(u_content, u_id) := vector_step (l_dir l) p1_id true in
  let current_id := u_id + 1 in
  ((p1_content ++ u_content ++ [Entity current_id [Lit ("LINE(" ++ quote (l_name l) ++ ","); Ref p1_id; Lit ","; Ref u_id; Lit ")"]])%list, current_id).
(** curves.py l.1839-1872 Circle3D.to_step *)
Definition circle_step (name : string) (frame : sframe) (radius : string) (current_id : Z) : out :=
  let '(content, frame_id) := frame_step frame current_id in
  let curve_id := frame_id + 1 in
  ((content ++ [Entity curve_id [Lit ("CIRCLE(" ++ quote name ++ ","); Ref frame_id; Lit ("," ++ radius ++ ")")]])%list, curve_id).
(** edges.py l.5090-5105: the control points of a B-spline curve, one identifier in two. *)
Fixpoint points_step (points : list spoint) (point_id : Z) : list entity * list Z * Z :=
  match points with
  | [] => ([], [], point_id)
  | p :: r =>
    let '(content, id) := point_step p point_id false in
    let '(rest, ids, last_id) := points_step r (id + 1) in
    ((content ++ rest)%list, id :: ids, last_id)
  end.
Definition edge_curve (name : string) (id start_id end_id curve_id : Z) : entity :=
  Entity id [Lit ("EDGE_CURVE(" ++ quote name ++ ","); Ref start_id; Lit ","; Ref end_id; Lit ","; Ref curve_id; Lit ",.T.)"].
(** edges.py l.797-808 LineSegment.to_step, l.5955-5976 Arc3D.to_step, l.6140-6161 FullArc3D.to_step,
    l.5090-5134 BSplineCurve3D.to_step (curve2d=None, which is how Contour3D.to_step calls it). *)
Definition edge_step (e : sedge) (current_id : Z) : out :=
  match e with
  | LineSegment name line start end_ =>
    let '(content, line_id) := line_step line current_id in
    let '(start_content, start_id) := point_step start line_id true in
    let '(end_content, end_id) := point_step end_ start_id true in
    let current_id := end_id + 1 in
    ((content ++ start_content ++ end_content ++ [edge_curve name current_id start_id end_id line_id])%list, current_id)
  | ArcEdge name frame radius start end_ =>
    let '(content, frame_id) := frame_step frame current_id in
    let curve_id := frame_id + 1 in
    let content := (content ++ [Entity curve_id [Lit ("CIRCLE(" ++ quote name ++ ", "); Ref frame_id; Lit (", " ++ radius ++ ")")]])%list in
    let '(start_content, start_id) := point_step start curve_id true in
    let '(end_content, end_id) := point_step end_ start_id true in
    let current_id := end_id + 1 in
    ((content ++ start_content ++ end_content ++ [edge_curve name current_id start_id end_id curve_id])%list, current_id)
  | FullArc name frame radius point1 =>
    let '(content, frame_id) := frame_step frame current_id in
    let curve_id := frame_id + 1 in
    let content := (content ++ [Entity curve_id [Lit ("CIRCLE(" ++ quote name ++ ","); Ref frame_id; Lit ("," ++ radius ++ ")")]])%list in
    let '(p1_content, p1_id) := point_step point1 curve_id true in
    let edge_curve_id := p1_id + 1 in
    ((content ++ p1_content ++ [edge_curve name edge_curve_id p1_id p1_id curve_id])%list, edge_curve_id)
  | BSplineEdge name degree points knots start end_ =>
    let '(content, points_ids, curve_id) := points_step points current_id in
    let content := (content ++ [Entity curve_id (Lit ("B_SPLINE_CURVE_WITH_KNOTS(" ++ quote name ++ "," ++ degree ++ ",(") :: id_pieces points_ids
                       ++ [Lit ("),.UNSPECIFIED.,.F.,.F.," ++ knots ++ ",.UNSPECIFIED.)")])])%list in
    let '(start_content, start_id) := point_step start (curve_id + 1) true in
    let '(end_content, end_id) := point_step end_ (start_id + 1 + 1) true in
    let current_id := end_id + 1 in
    ((content ++ start_content ++ end_content ++ [edge_curve name current_id start_id end_id curve_id])%list, current_id)
  end.
Definition curve_step (c : scurve) (current_id : Z) : out :=
  match c with CurveEdge e => edge_step e current_id | CurveLine l => line_step l current_id | CurveCircle n f r => circle_step n f r current_id end.

(** surfaces.py l.8455-8465: the control points of a B-spline surface. *)
Fixpoint row_step (points : list spoint) (current_id : Z) : list entity * list Z * Z :=
  match points with
  | [] => ([], [], current_id)
  | p :: r =>
    let '(content, id) := point_step p current_id false in
    let '(rest, ids, last_id) := row_step r (id + 1) in
    ((content ++ rest)%list, id :: ids, last_id)
  end.
(** A row "(#a,#b)," without its last comma: an empty row would give ")," and is not modelled ("()," here). *)
Fixpoint table_step (table : list (list spoint)) (current_id : Z) : list entity * list (list Z) * Z :=
  match table with
  | [] => ([], [], current_id)
  | row :: r =>
    let '(content, ids, current_id) := row_step row current_id in
    let '(rest, idss, last_id) := table_step r current_id in
    ((content ++ rest)%list, ids :: idss, last_id)
  end.
Fixpoint table_pieces (idss : list (list Z)) : list piece :=
  match idss with
  | [] => []
  | [ids] => (Lit "(" :: id_pieces ids ++ [Lit ")"])%list
  | ids :: r => (Lit "(" :: id_pieces ids ++ Lit ")," :: table_pieces r)%list
  end.
(** surfaces.py: Plane3D l.1368, CylindricalSurface3D l.2538, ToroidalSurface3D l.3178, ConicalSurface3D l.4176, SphericalSurface3D
    l.4945 (all [FrameSurface]); ExtrusionSurface3D l.6077, RevolutionSurface3D l.6500, BSplineSurface3D l.8451.
    Each returns a list of one identifier. *)
Definition surface_step (s : ssurface) (current_id : Z) : out :=
  match s with
  | FrameSurface keyword name frame params =>
    let '(content, frame_id) := frame_step frame current_id in
    ((content ++ [Entity (frame_id + 1) [Lit (keyword ++ "(" ++ quote name ++ ","); Ref frame_id; Lit (params ++ ")")]])%list, frame_id + 1)
  | Extrusion name edge direction =>
    let '(content_edge, edge_id) := curve_step edge current_id in
    let '(content_vector, vector_id) := vector_step direction (edge_id + 1) false in
    let current_id := vector_id + 1 in
    ((content_edge ++ content_vector ++
      [Entity current_id [Lit ("SURFACE_OF_LINEAR_EXTRUSION(" ++ quote name ++ ","); Ref edge_id; Lit ","; Ref vector_id; Lit ")"]])%list, current_id)
  | Revolution name edge axis_point axis =>
    let '(content_wire, wire_id) := curve_step edge current_id in
    let '(content_axis_point, axis_point_id) := point_step axis_point (wire_id + 1) false in
    let '(content_axis, axis_id) := vector_step axis (axis_point_id + 1) false in
    let current_id := axis_id + 1 in
    ((content_wire ++ content_axis_point ++ content_axis ++
      [Entity current_id [Lit "AXIS1_PLACEMENT('',"; Ref axis_point_id; Lit ","; Ref axis_id; Lit ")"];
       Entity (current_id + 1) [Lit ("SURFACE_OF_REVOLUTION(" ++ quote name ++ ","); Ref wire_id; Lit ","; Ref (current_id + 1 - 1); Lit ")"]])%list, current_id + 1)
  | BSplineSurf name degrees table params =>
    let '(content, idss, current_id) := table_step table current_id in
    ((content ++ [Entity current_id (Lit ("B_SPLINE_SURFACE_WITH_KNOTS(" ++ quote name ++ "," ++ degrees ++ ",(") :: table_pieces idss
                     ++ [Lit ("),.UNSPECIFIED.," ++ params ++ ",.UNSPECIFIED.)")])])%list, current_id)
  end.

(** wires.py l.4268-4277: the edges of a contour. *)
Fixpoint edges_step (l : list sedge) (current_id : Z) : list entity * list Z * Z :=
  match l with
  | [] => ([], [], current_id)
  | e :: r =>
    let '(content, primitive_id) := edge_step e current_id in
    let current_id := primitive_id + 1 in
    let oriented := Entity current_id [Lit ("ORIENTED_EDGE(" ++ quote (edge_name e) ++ ",*,*,"); Ref primitive_id; Lit ",.T.)"] in
    let '(rest, ids, last_id) := edges_step r current_id in
    ((content ++ oriented :: rest)%list, current_id :: ids, last_id)
  end.
(** wires.py l.4259-4281 Contour3D.to_step *)
Definition contour_step (k : scontour) (current_id : Z) : out :=
  let '(content, edge_ids, current_id) := edges_step (k_primitives k) current_id in
  let current_id := current_id + 1 in
  ((content ++ [Entity current_id (Lit ("EDGE_LOOP(" ++ quote (k_name k) ++ ",(") :: id_pieces edge_ids ++ [Lit "))"])])%list, current_id).
(** faces.py l.354-361: the inner contours of a face. *)
Fixpoint inner_step (l : list scontour) (current_id : Z) : list entity * list Z * Z :=
  match l with
  | [] => ([], [], current_id)
  | k :: r =>
    let '(content, inner_contour_id) := contour_step k current_id in
    let face_bound_id := inner_contour_id + 1 in
    let '(rest, ids, last_id) := inner_step r (face_bound_id + 1) in
    ((content ++ Entity face_bound_id [Lit "FACE_BOUND('',"; Ref inner_contour_id; Lit ",.T.)"] :: rest)%list, face_bound_id :: ids, last_id)
  end.
(** faces.py l.340-368 Face3D.to_step *)
Definition face_step (a : sface) (current_id : Z) : out :=
  let '(content, surface_id) := surface_step (a_surface a) current_id in
  let '(outer_content, outer_contour_id) := contour_step (a_outer a) surface_id in
  let bound := Entity (outer_contour_id + 1) [Lit ("FACE_OUTER_BOUND(" ++ quote (a_name a) ++ ","); Ref outer_contour_id; Lit ",.T.)"] in
  let '(inner_content, inner_ids, current_id) := inner_step (a_inner a) (outer_contour_id + 2) in
  let contours_ids := outer_contour_id + 1 :: inner_ids in
  ((content ++ outer_content ++ bound :: inner_content ++
    [Entity current_id (Lit ("ADVANCED_FACE(" ++ quote (a_name a) ++ ",(") :: id_pieces contours_ids ++ [Lit "),"; Ref surface_id; Lit ",.T.)"])])%list, current_id).
(** shells.py l.339-349: the faces of a shell. *)
Fixpoint faces_step (l : list sface) (current_id : Z) : list entity * list Z * Z :=
  match l with
  | [] => ([], [], current_id)
  | a :: r =>
    let '(content, face_id) := face_step a current_id in
    let '(rest, ids, last_id) := faces_step r face_id in
    ((content ++ rest)%list, face_id :: ids, last_id)
  end.
Definition step_function (s : sshell) : string := if s_closed s then "CLOSED_SHELL" else "OPEN_SHELL".
Definition shell_entity (s : sshell) (shell_id : Z) (face_ids : list Z) : entity :=
  Entity shell_id (Lit (step_function s ++ "(" ++ quote (s_name s) ++ ",(") :: id_pieces face_ids ++ [Lit "))"])%list.
Definition manifold_entity (s : sshell) (manifold_id shell_id : Z) : entity :=
  if s_closed s then Entity manifold_id [Lit ("MANIFOLD_SOLID_BREP(" ++ quote (s_name s) ++ ","); Ref shell_id; Lit ")"]
  else Entity manifold_id [Lit ("SHELL_BASED_SURFACE_MODEL(" ++ quote (s_name s) ++ ",("); Ref shell_id; Lit "))"].
(** shells.py l.332-361 Shell3D.to_step *)
Definition shell_step (s : sshell) (current_id : Z) : out :=
  let '(faces_content, face_ids, current_id) := faces_step (s_faces s) current_id in
  let shell_id := current_id + 1 in
  let manifold_id := shell_id + 1 in
  ((faces_content ++ [shell_entity s shell_id face_ids; manifold_entity s manifold_id shell_id])%list, manifold_id).

(** step_writer.py l.6-36 product_writer *)
Definition product_writer (current_id : Z) (product_name : string) : out :=
  let context_id := current_id + 1 in
  let product_context_id := context_id + 1 in
  let product_id := product_context_id + 1 in
  let formation_id := product_id + 1 in
  let definition_id := formation_id + 1 in
  let definition_shape_id := definition_id + 1 in
  let shape_definition_repr_id := definition_shape_id + 1 in
  let shape_representation_id := shape_definition_repr_id + 1 in
  ([Entity context_id [Lit "PRODUCT_DEFINITION_CONTEXT('part definition',"; Ref 2; Lit ",'design')"];
    Entity product_context_id [Lit "PRODUCT_CONTEXT('',"; Ref 2; Lit ",'mechanical')"];
    Entity product_id [Lit ("PRODUCT(" ++ quote product_name ++ "," ++ quote product_name ++ ",'',("); Ref product_context_id; Lit "))"];
    Entity formation_id [Lit "PRODUCT_DEFINITION_FORMATION('','',"; Ref product_id; Lit ")"];
    Entity definition_id [Lit "PRODUCT_DEFINITION('design','',"; Ref formation_id; Lit ","; Ref context_id; Lit ")"];
    Entity definition_shape_id [Lit "PRODUCT_DEFINITION_SHAPE('','',"; Ref definition_id; Lit ")"];
    Entity shape_definition_repr_id [Lit "SHAPE_DEFINITION_REPRESENTATION("; Ref definition_shape_id; Lit ","; Ref shape_representation_id; Lit ")"]],
   shape_definition_repr_id).
(** step_writer.py l.39-63 geometric_context_writer (default uncertainty) *)
Definition geometric_context_writer (current_id : Z) : out :=
  let length_id := current_id + 1 in
  let plane_angle_id := length_id + 1 in
  let solid_angle_id := plane_angle_id + 1 in
  let uncertainty_id := solid_angle_id + 1 in
  let context_id := uncertainty_id + 1 in
  ([Entity length_id [Lit "( LENGTH_UNIT() NAMED_UNIT(*) SI_UNIT(.MILLI.,.METRE.) )"];
    Entity plane_angle_id [Lit "( NAMED_UNIT(*) PLANE_ANGLE_UNIT() SI_UNIT($,.RADIAN.) )"];
    Entity solid_angle_id [Lit "( NAMED_UNIT(*) SI_UNIT($,.STERADIAN.) SOLID_ANGLE_UNIT() )"];
    Entity uncertainty_id [Lit "UNCERTAINTY_MEASURE_WITH_UNIT(LENGTH_MEASURE(0.0001),"; Ref length_id; Lit ",'distance_accuracy_value','confusion accuracy')"];
    Entity context_id [Lit "( GEOMETRIC_REPRESENTATION_CONTEXT(3) GLOBAL_UNCERTAINTY_ASSIGNED_CONTEXT(("; Ref uncertainty_id;
                       Lit ")) GLOBAL_UNIT_ASSIGNED_CONTEXT(("; Ref length_id; Lit ","; Ref plane_angle_id; Lit ","; Ref solid_angle_id;
                       Lit ")) REPRESENTATION_CONTEXT('Context #1','3D Context with UNIT and UNCERTAINTY') )"]],
   context_id).
(** step_writer.py l.66-93 assembly_definition_writer *)
Definition assembly_definition_writer (current_id : Z) (assembly_data component_data : Z * Z) (assembly_frame_id component_frame_id : Z) : out :=
  let '(shape_representation, assembly_product_definition) := assembly_data in
  let '(component_shape_representation, component_product_definition) := component_data in
  let context_dependent_id := current_id + 1 in
  let relationship_id := context_dependent_id + 1 in
  let item_id := relationship_id + 1 in
  let definition_shape_id := item_id + 1 in
  let occurrence_id := definition_shape_id + 1 in
  ([Entity context_dependent_id [Lit "CONTEXT_DEPENDENT_SHAPE_REPRESENTATION("; Ref relationship_id; Lit ","; Ref definition_shape_id; Lit ")"];
    Entity relationship_id [Lit "( REPRESENTATION_RELATIONSHIP('','',"; Ref component_shape_representation; Lit ","; Ref shape_representation;
                            Lit ") REPRESENTATION_RELATIONSHIP_WITH_TRANSFORMATION("; Ref item_id; Lit ") SHAPE_REPRESENTATION_RELATIONSHIP() )"];
    Entity item_id [Lit "ITEM_DEFINED_TRANSFORMATION('','',"; Ref assembly_frame_id; Lit ","; Ref component_frame_id; Lit ")"];
    Entity definition_shape_id [Lit "PRODUCT_DEFINITION_SHAPE('Placement','Placement of an item',"; Ref occurrence_id; Lit ")"];
    Entity occurrence_id [Lit "NEXT_ASSEMBLY_USAGE_OCCURRENCE('','','',"; Ref assembly_product_definition; Lit ","; Ref component_product_definition; Lit ",$)"]],
   occurrence_id).

(** volmdlr.OXYZ *)
Definition OXYZ : sframe :=
  SFrame "" (SPoint "" "0.0,0.0,0.0") (SVector "" "0.0,0.0,1.0" "1.000000") (SVector "" "1.0,0.0,0.0" "1.000000").

(** shells.py l.446-457: the styled items of the faces of an OpenShell3D, and the last identifier. *)
Fixpoint styled_items (face_ids : list Z) (presentation_style_id styled_item_id : Z) : list entity * Z :=
  match face_ids with
  | [] => ([], styled_item_id - 1)
  | f :: r =>
    let '(rest, last_id) := styled_items r presentation_style_id (styled_item_id + 1) in
    (Entity styled_item_id [Lit "STYLED_ITEM('color',("; Ref presentation_style_id; Lit "),"; Ref f; Lit ")"] :: rest, last_id)
  end.
(** shells.py l.363-463 Shell3D.to_step_product; returns also [brep_id, product_definition_id]. *)
Definition shell_product (s : sshell) (current_id : Z) : list entity * Z * (Z * Z) :=
  let '(product_content, shape_definition_repr_id) := product_writer current_id (s_name s) in
  let brep_id := shape_definition_repr_id + 1 in
  let product_id := shape_definition_repr_id - 4 in
  let product_definition_id := shape_definition_repr_id - 2 in
  let '(frame_content, frame_id) := frame_step OXYZ brep_id in
  let manifold_id := frame_id + 1 in
  let shell_id := manifold_id + 1 in
  let '(faces_content, face_ids, current_id) := faces_step (s_faces s) shell_id in
  let '(context_content, context_id) := geometric_context_writer current_id in
  let brep := Entity brep_id [Lit ((if s_closed s then "ADVANCED_BREP_SHAPE_REPRESENTATION" else "MANIFOLD_SURFACE_SHAPE_REPRESENTATION") ++ "('',(");
                              Ref frame_id; Lit ","; Ref manifold_id; Lit "),"; Ref context_id; Lit ")"] in
  let category_id := context_id + 1 in
  let draughting_id := category_id + 1 in
  let color_id := draughting_id + 1 in
  let curve_style_id := color_id + 1 in
  let fill_color_id := curve_style_id + 1 in
  let fill_id := fill_color_id + 1 in
  let surface_fill_id := fill_id + 1 in
  let side_style_id := surface_fill_id + 1 in
  let style_usage_id := side_style_id + 1 in
  let presentation_style_id := style_usage_id + 1 in
  let style :=
    [Entity category_id [Lit "PRODUCT_RELATED_PRODUCT_CATEGORY('part',$,("; Ref product_id; Lit "))"];
     Entity draughting_id [Lit "DRAUGHTING_PRE_DEFINED_CURVE_FONT('continuous')"];
     Entity color_id [Lit ("COLOUR_RGB(''," ++ s_color s ++ ")")];
     Entity curve_style_id [Lit "CURVE_STYLE('',"; Ref draughting_id; Lit ",POSITIVE_LENGTH_MEASURE(0.1),"; Ref color_id; Lit ")"];
     Entity fill_color_id [Lit "FILL_AREA_STYLE_COLOUR('',"; Ref color_id; Lit ")"];
     Entity fill_id [Lit "FILL_AREA_STYLE('',"; Ref fill_color_id; Lit ")"];
     Entity surface_fill_id [Lit "SURFACE_STYLE_FILL_AREA("; Ref fill_id; Lit ")"];
     Entity side_style_id [Lit "SURFACE_SIDE_STYLE('',("; Ref surface_fill_id; Lit "))"];
     Entity style_usage_id [Lit "SURFACE_STYLE_USAGE(.BOTH.,"; Ref side_style_id; Lit ")"];
     Entity presentation_style_id [Lit "PRESENTATION_STYLE_ASSIGNMENT(("; Ref style_usage_id; Lit ","; Ref curve_style_id; Lit "))"]] in
  let '(styled, styled_item_id) :=
    if s_plain_open s then styled_items face_ids presentation_style_id (presentation_style_id + 1)
    else ([Entity (presentation_style_id + 1) [Lit "STYLED_ITEM('color',("; Ref presentation_style_id; Lit "),"; Ref manifold_id; Lit ")"]], presentation_style_id + 1) in
  let mechanical_design_id := styled_item_id + 1 in
  let mechanical := Entity mechanical_design_id [Lit "MECHANICAL_DESIGN_GEOMETRIC_PRESENTATION_REPRESENTATION('',("; Ref styled_item_id; Lit "),"; Ref context_id; Lit ")"] in
  ((product_content ++ brep :: frame_content ++ manifold_entity s manifold_id shell_id :: shell_entity s shell_id face_ids :: faces_content
     ++ context_content ++ style ++ styled ++ [mechanical])%list, mechanical_design_id, (brep_id, product_definition_id)).

(** core.py l.1286-1290: only the members whose class is exactly OpenShell3D or ClosedShell3D are written. *)
Fixpoint members_step (l : list sshell) (current_id : Z) : list entity * list Z * Z :=
  match l with
  | [] => ([], [], current_id)
  | s :: r =>
    if s_plain_open s || s_plain_closed s then
      let '(content, id) := shell_step s current_id in
      let '(rest, ids, last_id) := members_step r id in
      ((content ++ rest)%list, id :: ids, last_id)
    else members_step r current_id
  end.
(** core.py l.1271-1302 Compound.to_step *)
Definition compound_step (name : string) (primitives : list sshell) (current_id : Z) : list entity * Z * (Z * Z) :=
  let '(product_content, current_id) := product_writer current_id name in
  let product_definition_id := current_id - 2 in
  let brep_id := current_id + 1 in
  let '(frame_content, frame_id) := frame_step OXYZ brep_id in
  let '(primitives_content, manifold_ids, current_id) := members_step primitives frame_id in
  let '(context_content, context_id) := geometric_context_writer current_id in
  ((product_content ++ Entity brep_id (Lit "MANIFOLD_SURFACE_SHAPE_REPRESENTATION('',(" :: id_pieces manifold_ids ++ [Lit "),"; Ref context_id; Lit ")"])
     :: frame_content ++ primitives_content ++ context_content)%list, context_id, (brep_id, product_definition_id)).

(** core.py l.1156-1160: the frames of an assembly. *)
Fixpoint frames_step (l : list sframe) (current_id : Z) : list entity * list Z * Z :=
  match l with
  | [] => ([], [], current_id)
  | f :: r =>
    let '(content, id) := frame_step f (current_id + 1) in
    let '(rest, ids, last_id) := frames_step r id in
    ((content ++ rest)%list, id :: ids, last_id)
  end.
(** core.py l.1145-1175 Assembly.to_step_product *)
Definition assembly_product (name : string) (frame : sframe) (positions : list sframe) (current_id : Z) : list entity * Z * (Z * Z) * list Z :=
  let '(product_content, shape_definition_repr_id) := product_writer current_id name in
  let product_definition_id := shape_definition_repr_id - 2 in
  let shape_representation_id := shape_definition_repr_id + 1 in
  let '(frames_content, frame_ids, current_id) := frames_step (frame :: positions) shape_representation_id in
  let '(context_content, context_id) := geometric_context_writer current_id in
  ((product_content ++ Entity shape_representation_id (Lit "SHAPE_REPRESENTATION('',(" :: id_pieces frame_ids ++ [Lit "),"; Ref context_id; Lit ")"])
     :: frames_content ++ context_content)%list, context_id, (shape_representation_id, product_definition_id), frame_ids).

(** [isinstance by name, or hasattr(primitive, "shell_faces")] *)
Definition is_product (p : sprimitive) : bool :=
  match p with PShell s => s_plain_open s || s_plain_closed s || s_has_shell_faces s | _ => false end.
Definition getz (l : list Z) (i : nat) : res Z := match nth_error l i with Some x => Ok x | None => Err IndexError end.
(** core.py l.1097-1127 Assembly.to_step, l.1271 Compound.to_step; a shell that is not [is_product] has a to_step returning
    two values where three are unpacked: ValueError. The content of a component written by its to_step is added twice. *)
Fixpoint primitive_step (p : sprimitive) (current_id : Z) : res (list entity * Z * (Z * Z)) :=
  match p with
  | PShell s => if is_product (PShell s) then Ok (shell_product s current_id) else Err ValueError
  | PCompound name primitives => Ok (compound_step name primitives current_id)
  | PAssembly name frame positions components =>
    let '(product_content, current_id, data, frame_ids) := assembly_product name frame positions current_id in
    let fix go (l : list sprimitive) (i : nat) (current_id : Z) : res (list entity * Z) :=
      match l with
      | [] => Ok ([], current_id)
      | q :: r =>
        do (content, current_id, primitive_data) <- primitive_step q current_id;
        do assembly_frame_id <- getz frame_ids 0;
        do component_frame_id <- getz frame_ids (i + 1);
        let '(assembly_content, current_id) := assembly_definition_writer current_id data primitive_data assembly_frame_id component_frame_id in
        do (rest, last_id) <- go r (S i) current_id;
        Ok ((if is_product q then content ++ assembly_content ++ rest else content ++ content ++ assembly_content ++ rest)%list, last_id)
      end in
    do (content, current_id) <- go components O current_id;
    Ok ((product_content ++ content)%list, current_id, data)
  end.
(** core.py l.1598-1608: the loop of VolumeModel.to_step_stream *)
Fixpoint primitives_step (l : list sprimitive) (current_id : Z) : res (list entity * Z) :=
  match l with
  | [] => Ok ([], current_id)
  | p :: r =>
    do (content, primitive_id, _) <- primitive_step p current_id;
    do (rest, last_id) <- primitives_step r primitive_id;
    Ok ((content ++ rest)%list, last_id)
  end.
(** core.py l.1588-1612 VolumeModel.to_step_stream, the DATA section; step_writer.py l.109-120: the two entities of the header. *)
Definition header_entities : list entity :=
  [Entity 1 [Lit "APPLICATION_PROTOCOL_DEFINITION('international standard','automotive_design',2000,"; Ref 2; Lit ")"];
   Entity 2 [Lit "APPLICATION_CONTEXT('core data for automotive mechanical design processes')"]].
Definition model_step (primitives : list sprimitive) : res (list entity) :=
  do (content, _) <- primitives_step primitives 2;
  Ok (header_entities ++ content)%list.

(** shells.py l.465-492 to_step_face_ids *)
Fixpoint faces_step1 (l : list sface) (current_id : Z) : list entity * list Z * Z :=
  match l with
  | [] => ([], [], current_id)
  | a :: r =>
    let '(content, face_id) := face_step a current_id in
    let '(rest, ids, last_id) := faces_step1 r (face_id + 1) in
    ((content ++ rest)%list, face_id :: ids, last_id)
  end.
Definition shell_face_ids_step (s : sshell) (current_id : Z) : list entity * Z * list Z :=
  let '(content, face_ids, shell_id) := faces_step1 (s_faces s) current_id in
  let manifold_id := shell_id + 1 in
  let '(frame_content, frame_id) := frame_step OXYZ (manifold_id + 1) in
  let brep_id := frame_id + 1 in
  ((content ++ [shell_entity s shell_id face_ids; Entity manifold_id [Lit ("SHELL_BASED_SURFACE_MODEL(" ++ quote (s_name s) ++ ",("); Ref shell_id; Lit "))"]]
     ++ frame_content ++ [Entity brep_id [Lit "MANIFOLD_SURFACE_SHAPE_REPRESENTATION('',("; Ref frame_id; Lit ","; Ref manifold_id; Lit "),"; Ref 7; Lit ")"]])%list,
   brep_id, face_ids).
(** core_compiled.pyx l.968-992 Vector2D.to_step (vertex=False) *)
Definition vector2d_step (v : svector) (current_id : Z) (vector : bool) : out :=
  let content := [Entity current_id [Lit ("DIRECTION(" ++ quote (v_name v) ++ ",(" ++ v_xyz v ++ "))")]] in
  if vector then ((content ++ [Entity (current_id + 1) [Lit ("VECTOR(" ++ quote (v_name v) ++ ","); Ref (current_id + 1); Lit ("," ++ v_norm v ++ ")")]])%list, current_id + 1)
  else (content, current_id).
