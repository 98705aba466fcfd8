(** What a list of STEP entities says: identifiers, references, and the objects an identifier denotes.
    [has l i body]: the file contains the line [#i = body;]. *)
From Verif.Model Require Import StepText StepWrite.
Open Scope Z_scope.
Definition ids (l : list entity) : list Z := map e_id l.
Definition refs (e : entity) : list Z := flat_map (fun p => match p with Ref i => [i] | Lit _ => [] end) (e_body e).
(** Every reference of the list is defined in the list. *)
Definition closed (l : list entity) : Prop := forall e r, In e l -> In r (refs e) -> In r (ids l).
(** No identifier is defined twice. *)
Definition unique_ids (l : list entity) : Prop := NoDup (ids l).
(** Two definitions of an identifier are the same line. *)
Definition consistent (l : list entity) : Prop := forall e1 e2, In e1 l -> In e2 l -> e_id e1 = e_id e2 -> e1 = e2.
(** Identifiers in (c, c']. *)
Definition within (c c' : Z) (l : list entity) : Prop := forall i, In i (ids l) -> c < i <= c'.

Definition has (l : list entity) (i : Z) (body : list piece) : Prop := In (Entity i body) l.
Definition kw (k name : string) : string := (k ++ "('" ++ name ++ "',")%string.
(** "#a,#b,#c" *)
Fixpoint comma_refs (l : list Z) : list piece :=
  match l with [] => [] | [i] => [Ref i] | i :: r => Ref i :: Lit "," :: comma_refs r end.

Definition d_point l i (p : spoint) := has l i [Lit (kw "CARTESIAN_POINT" (p_name p) ++ "(" ++ p_xyz p ++ "))")].
Definition d_vertex l i (p : spoint) := exists j, has l i [Lit (kw "VERTEX_POINT" (p_name p)); Ref j; Lit ")"] /\ d_point l j p.
Definition d_direction l i (v : svector) := has l i [Lit (kw "DIRECTION" (v_name v) ++ "(" ++ v_xyz v ++ "))")].
Definition d_vector l i (v : svector) := exists j, has l i [Lit (kw "VECTOR" (v_name v)); Ref j; Lit ("," ++ v_norm v ++ ")")] /\ d_direction l j v.
Definition d_frame l i (f : sframe) := exists o w u,
  has l i [Lit (kw "AXIS2_PLACEMENT_3D" (f_name f)); Ref o; Lit ","; Ref w; Lit ","; Ref u; Lit ")"] /\
  d_point l o (f_origin f) /\ d_direction l w (f_w f) /\ d_direction l u (f_u f).
Definition d_line l i (s : sline) := exists p v, has l i [Lit (kw "LINE" (l_name s)); Ref p; Lit ","; Ref v; Lit ")"] /\
  d_point l p (l_point1 s) /\ d_vector l v (l_dir s).
Definition d_circle l i (sep name : string) (f : sframe) (radius : string) := exists a,
  has l i [Lit (kw "CIRCLE" name ++ sep); Ref a; Lit ("," ++ sep ++ radius ++ ")")] /\ d_frame l a f.
Definition d_edge_curve l i (name : string) (start end_ : spoint) (curve : Z -> Prop) := exists a b k,
  has l i [Lit (kw "EDGE_CURVE" name); Ref a; Lit ","; Ref b; Lit ","; Ref k; Lit ",.T.)"] /\ d_vertex l a start /\ d_vertex l b end_ /\ curve k.
Definition d_bspline l (name degree knots : string) (points : list spoint) i := exists is,
  has l i (Lit (kw "B_SPLINE_CURVE_WITH_KNOTS" name ++ degree ++ ",(") :: comma_refs is ++ [Lit ("),.UNSPECIFIED.,.F.,.F.," ++ knots ++ ",.UNSPECIFIED.)")])%list /\
  Forall2 (d_point l) is points.
Definition d_edge l i (e : sedge) : Prop :=
  match e with
  | LineSegment name line start end_ => d_edge_curve l i name start end_ (fun k => d_line l k line)
  | ArcEdge name frame radius start end_ => d_edge_curve l i name start end_ (fun k => d_circle l k " " name frame radius)
  | FullArc name frame radius point1 => d_edge_curve l i name point1 point1 (fun k => d_circle l k "" name frame radius)
  | BSplineEdge name degree points knots start end_ => d_edge_curve l i name start end_ (d_bspline l name degree knots points)
  end.
Definition d_curve l i (c : scurve) : Prop :=
  match c with CurveEdge e => d_edge l i e | CurveLine s => d_line l i s | CurveCircle n f r => d_circle l i "" n f r end.
(** rows of references "(#a,#b),(#c,#d)" *)
Fixpoint comma_rows (idss : list (list Z)) : list piece :=
  match idss with
  | [] => []
  | [r] => (Lit "(" :: comma_refs r ++ [Lit ")"])%list
  | r :: rs => (Lit "(" :: comma_refs r ++ Lit ")," :: comma_rows rs)%list
  end.
Definition d_surface l i (s : ssurface) : Prop :=
  match s with
  | FrameSurface keyword name frame params => exists f, has l i [Lit (kw keyword name); Ref f; Lit (params ++ ")")] /\ d_frame l f frame
  | Extrusion name edge direction => exists c v,
      has l i [Lit (kw "SURFACE_OF_LINEAR_EXTRUSION" name); Ref c; Lit ","; Ref v; Lit ")"] /\ d_curve l c edge /\ d_direction l v direction
  | Revolution name edge axis_point axis => exists c a p v,
      has l i [Lit (kw "SURFACE_OF_REVOLUTION" name); Ref c; Lit ","; Ref a; Lit ")"] /\ d_curve l c edge /\
      has l a [Lit (kw "AXIS1_PLACEMENT" ""); Ref p; Lit ","; Ref v; Lit ")"] /\ d_point l p axis_point /\ d_direction l v axis
  | BSplineSurf name degrees table params => exists idss,
      has l i (Lit (kw "B_SPLINE_SURFACE_WITH_KNOTS" name ++ degrees ++ ",(") :: comma_rows idss ++ [Lit ("),.UNSPECIFIED.," ++ params ++ ",.UNSPECIFIED.)")])%list /\
      Forall2 (Forall2 (d_point l)) idss table
  end.
Definition d_contour l i (k : scontour) := exists is,
  has l i (Lit (kw "EDGE_LOOP" (k_name k) ++ "(") :: comma_refs is ++ [Lit "))"])%list /\
  Forall2 (fun j e => exists a, has l j [Lit (kw "ORIENTED_EDGE" (edge_name e) ++ "*,*,"); Ref a; Lit ",.T.)"] /\ d_edge l a e) is (k_primitives k).
Definition d_face l i (a : sface) := exists surf outer_bound outer inner_bounds,
  has l i (Lit (kw "ADVANCED_FACE" (a_name a) ++ "(") :: comma_refs (outer_bound :: inner_bounds) ++ [Lit "),"; Ref surf; Lit ",.T.)"])%list /\
  d_surface l surf (a_surface a) /\
  has l outer_bound [Lit (kw "FACE_OUTER_BOUND" (a_name a)); Ref outer; Lit ",.T.)"] /\ d_contour l outer (a_outer a) /\
  Forall2 (fun j k => exists b, has l j [Lit (kw "FACE_BOUND" ""); Ref b; Lit ",.T.)"] /\ d_contour l b k) inner_bounds (a_inner a).
Definition d_shell l i (s : sshell) := exists is,
  has l i (Lit (kw (if s_closed s then "CLOSED_SHELL" else "OPEN_SHELL") (s_name s) ++ "(") :: comma_refs is ++ [Lit "))"])%list /\
  Forall2 (d_face l) is (s_faces s).
(** The solid or the surface model built on a shell. *)
Definition d_manifold l i (s : sshell) := exists j, d_shell l j s /\
  if s_closed s then has l i [Lit (kw "MANIFOLD_SOLID_BREP" (s_name s)); Ref j; Lit ")"]
  else has l i [Lit (kw "SHELL_BASED_SURFACE_MODEL" (s_name s) ++ "("); Ref j; Lit "))"].
(** Product [name] whose definition is #pd and whose representation is #rep. *)
Definition d_product l (rep pd : Z) (name : string) := exists p f ds sdr ctx dctx,
  has l p [Lit (kw "PRODUCT" name ++ "'" ++ name ++ "','',("); Ref ctx; Lit "))"] /\
  has l f [Lit "PRODUCT_DEFINITION_FORMATION('','',"; Ref p; Lit ")"] /\
  has l pd [Lit "PRODUCT_DEFINITION('design','',"; Ref f; Lit ","; Ref dctx; Lit ")"] /\
  has l ds [Lit "PRODUCT_DEFINITION_SHAPE('','',"; Ref pd; Lit ")"] /\
  has l sdr [Lit "SHAPE_DEFINITION_REPRESENTATION("; Ref ds; Lit ","; Ref rep; Lit ")"].
Definition d_shell_product l (rep pd : Z) (s : sshell) := d_product l rep pd (s_name s) /\ exists frame manifold ctx,
  has l rep [Lit ((if s_closed s then "ADVANCED_BREP_SHAPE_REPRESENTATION" else "MANIFOLD_SURFACE_SHAPE_REPRESENTATION") ++ "('',(");
             Ref frame; Lit ","; Ref manifold; Lit "),"; Ref ctx; Lit ")"] /\ d_manifold l manifold s /\ In ctx (ids l).
(** A compound: the representation lists the members whose class is OpenShell3D or ClosedShell3D. *)
Definition written_members (l : list sshell) : list sshell := filter (fun s => s_plain_open s || s_plain_closed s) l.
Definition d_compound l (rep pd : Z) (name : string) (members : list sshell) := d_product l rep pd name /\ exists is ctx,
  has l rep (Lit "MANIFOLD_SURFACE_SHAPE_REPRESENTATION('',(" :: comma_refs is ++ [Lit "),"; Ref ctx; Lit ")"])%list /\
  Forall2 (d_manifold l) is (written_members members) /\ In ctx (ids l).
(** An assembly: every component is denoted and placed by an occurrence that maps the assembly frame to its position. *)
Definition d_occurrence l (rep pd crep cpd frame position : Z) := exists cd rr it ds oc,
  has l cd [Lit "CONTEXT_DEPENDENT_SHAPE_REPRESENTATION("; Ref rr; Lit ","; Ref ds; Lit ")"] /\
  has l rr [Lit "( REPRESENTATION_RELATIONSHIP('','',"; Ref crep; Lit ","; Ref rep; Lit ") REPRESENTATION_RELATIONSHIP_WITH_TRANSFORMATION("; Ref it; Lit ") SHAPE_REPRESENTATION_RELATIONSHIP() )"] /\
  has l it [Lit "ITEM_DEFINED_TRANSFORMATION('','',"; Ref frame; Lit ","; Ref position; Lit ")"] /\
  has l ds [Lit "PRODUCT_DEFINITION_SHAPE('Placement','Placement of an item',"; Ref oc; Lit ")"] /\
  has l oc [Lit "NEXT_ASSEMBLY_USAGE_OCCURRENCE('','','',"; Ref pd; Lit ","; Ref cpd; Lit ",$)"].
Inductive d_primitive (l : list entity) : Z -> Z -> sprimitive -> Prop :=
| d_prim_shell rep pd s : d_shell_product l rep pd s -> d_primitive l rep pd (PShell s)
| d_prim_compound rep pd name members : d_compound l rep pd name members -> d_primitive l rep pd (PCompound name members)
| d_prim_assembly rep pd name frame positions components f0 fs ctx :
    d_product l rep pd name ->
    has l rep (Lit "SHAPE_REPRESENTATION('',(" :: comma_refs (f0 :: fs) ++ [Lit "),"; Ref ctx; Lit ")"])%list ->
    d_frame l f0 frame -> Forall2 (d_frame l) fs positions ->
    d_components l rep pd f0 fs components ->
    d_primitive l rep pd (PAssembly name frame positions components)
with d_components (l : list entity) : Z -> Z -> Z -> list Z -> list sprimitive -> Prop :=
| d_comp_nil rep pd f0 fs : d_components l rep pd f0 fs []
| d_comp_cons rep pd f0 f fs q qs crep cpd :
    d_primitive l crep cpd q -> d_occurrence l rep pd crep cpd f0 f -> d_components l rep pd f0 fs qs ->
    d_components l rep pd f0 (f :: fs) (q :: qs).

(** Exportable objects: B-splines have control points. *)
Definition wf_edge (e : sedge) : Prop := match e with BSplineEdge _ _ points _ _ _ => points <> [] | _ => True end.
Definition wf_curve (c : scurve) : Prop := match c with CurveEdge e => wf_edge e | _ => True end.
Definition wf_surface (s : ssurface) : Prop :=
  match s with
  | Extrusion _ c _ => wf_curve c | Revolution _ c _ _ => wf_curve c
  | BSplineSurf _ _ table _ => table <> [] /\ Forall (fun row => row <> []) table
  | FrameSurface _ _ _ _ => True
  end.
Definition wf_contour (k : scontour) : Prop := Forall wf_edge (k_primitives k).
Definition wf_face (a : sface) : Prop := wf_surface (a_surface a) /\ wf_contour (a_outer a) /\ Forall wf_contour (a_inner a).
Definition wf_shell (s : sshell) : Prop := Forall wf_face (s_faces s).
Fixpoint wf_primitive (p : sprimitive) : Prop :=
  match p with
  | PShell s => wf_shell s
  | PCompound _ members => Forall wf_shell members
  | PAssembly _ _ _ components => (fix all l := match l with [] => True | q :: r => wf_primitive q /\ all r end) components
  end.
(** Every shell outside compounds is of class OpenShell3D or ClosedShell3D or has shell_faces, and assemblies have a position per component. *)
Fixpoint exportable (p : sprimitive) : Prop :=
  match p with
  | PShell s => s_plain_open s || s_plain_closed s || s_has_shell_faces s = true
  | PCompound _ _ => True
  | PAssembly _ _ positions components =>
    (List.length components <= List.length positions)%nat /\ (fix all l := match l with [] => True | q :: r => exportable q /\ all r end) components
  end.
(** No assembly contains an assembly or a compound. *)
Definition flat_primitive (p : sprimitive) : Prop :=
  match p with PAssembly _ _ _ components => Forall (fun q => match q with PShell _ => True | _ => False end) components | _ => True end.
