# Formal model of Dessia-tech/volmdlr in Rocq (Coq 8.16.1)

## Layout

* `rocq/theories/Model/*.v`   – the model: Gallina functions mirroring the Python/Cython functions
  branch by branch, each with a comment citing file and lines in /repo and the simplifications made.
* `rocq/theories/Spec/*.v`    – small independent specifications (paths in a grid, sets of voxels,
  Cox–de Boor functions, …) that do not mention the model.
* `rocq/theories/Proofs/*.v`  – lemmas.
* `rocq/theories/Props/*.v`   – only the property theorems (`exact lemma.`) each followed by
  `Print Assumptions`, and non-vacuity `Example`s.

## Number model

* Voxel/pixel grids, meshes, octrees, strings: `Z`, `nat`, `bool`, lists. No axioms.
* Coordinates: voxel coordinates and sizes are integers in units of 1e-9 (`nano`), because the code
  rounds every coordinate to DECIMALS = 9 digits; numpy's round/astype(int) are modelled on exact rationals of Z.
* Geometry, NURBS: Coq's real numbers `R` stand for IEEE doubles. Float rounding error, overflow, NaN are
  NOT modelled. Stdlib axioms of R appear in Print Assumptions and are listed in the trusted base.
* Tolerances (`1e-6`, `1e-9`, …) are kept as real constants as in the code.
* Exceptions are values (`Err ...` / `None`).

## Plan per property

| id | model | proof |
|----|-------|-------|
| C01 | `FloodFill`: explicit stack loop with fuel over `Z*Z -> bool` grids with shape (2D) and 3D | invariant of DFS: set cells ⊆ component, closure; fuel bound = measure; iff with inductive path spec |
| C02 C03 C04 C09 | `VoxelMatrix`: expand / reduce / fill / inverse / is_hollow | corollaries of C01; is_hollow refuted |
| C05 C06 C07 | same, `_logical_operation`, `crop_matrix`, point ↔ matrix in nano units | set equality on centers; refutation for voxel size > 1 |
| C08 | `_point_to_local_grid_index` | refuted (off by one), exact characterisation |
| C10–C14 | `Octree`: rose tree as nested lists, all recursive ops | induction on depth |
| C15 | toggle set over a list of voxels | parity of occurrences, permutation invariance |
| C16 | `_layers_matrix` loop with fuel | loop invariant |
| C17 C18 C44 | SAT test over R | half-space argument; refutations with witnesses |
| C19 C20 | truncation casts over R/Z | case analysis on sign |
| C21–C27 | `Mesh` | list induction |
| C28–C38 | `Nurbs` over R | induction on degree / indices |
| C39–C43 | `BBox` over R | lra / nra |
| C45–C49 | `Geometry` over R (trig) | stdlib trigonometry |
| C50 | lists with a closeness predicate | list induction |
| C51–C53 | `StepText` over `string`/`list ascii` | scanner invariants |
| C54–C57 | `Vec` over R | ring/field/nra |
| C58 | shoelace & crossing parity | induction on the point list |
| C59 | floor arithmetic | lia/lra |
| C60 | `VoxelDisplay`: faces emitted per voxel | each emitted edge is shared by an even number of triangles |
| C61 C74–C76 C90 C91 | `Mesh`, `MeshGeom` | list induction; nra for areas and radii |
| C62 C67 C72 | `Vec`, `Frame` | field / ring, snapping bounded by 1e-16 |
| C63–C66 C68 | `Vec` (lines, segments) | Cramer's rule, minimisation of a quadratic; refutations |
| C69–C71 | `Polygon` | exact 3-midpoint quadrature over the triangle fan; zip induction |
| C73 | `BBox` | lra / nra |
| C77 C85–C89 | `Nurbs`, `NurbsSurf` | tensor products of the curve results |
| C78 C79 | `Geometry` | stdlib trigonometry |
| C80 | `StepWrite`: the writer as a function of (object, next id) returning (lines, id) | induction over assemblies: ids unique and increasing, every reference defined |
| C81–C84 | `Octree`, `Voxelize` | induction on the depth; invariants over the triangle list |
| C92–C96 | `ParamSurf`: cylinder, cone, sphere, torus | polar coordinates, explicit error bounds for the snapping |
| C97–C101 | `Plane` | dot / cross identities; refutations |
| C102–C107 | `Curves`: lines and circles | quadratic equation, orthonormal frames; refutations |
| C108–C113 | `Edges`: LineSegment, LineSegment2D, LineSegment3D | parametrisation by abscissa, convexity, minimum on a square's boundary; refutations |
| C114 | `Sat`: triangles in a face of a voxel (2D triangle/pixel test) | barycentric coordinates, crossing of sides and borders, effect of the 9-digit rounding |
| C115 | `Arcs`: Arc2D as circle, ends and the two angles of the constructor | angles modulo 2 pi; rotation of a point of the circle adds to its angle |
| C116 | `Arcs`: point_belongs, abscissa, from_3_points | clockwise angles of three rays add up to the arc or to the arc plus a turn |
| C117 | `Arcs`: areas, centers of mass, second moments | integrals by primitives in polar coordinates (ArcAreaSpec), exact quadrature on triangles |
| C118 | `Arcs`: intersections, distance, transformations | the circle theorems filtered by C116; cosine is quasi-convex on a turn for the distance |
| C119-C123 | `Arcs`: direction, tolerance, moments about any point, rectangle, two arcs, symmetry | REFUTED by witnesses (quarter and half unit circles), actual behaviour proved |
| C124 | same model as C42 | REFUTED by a witness: the clause of C42 without its restriction |
| C125 | same model as C47 | REFUTED by a witness: the clause of C47 without its restriction |
| C126 | same model as C54 | REFUTED by a witness: the clause of C54 without its restriction |
| C127 | same model as C55 | REFUTED by a witness: the clause of C55 without its restriction |
| C128 | same model as C56 | REFUTED by a witness: the clause of C56 without its restriction |
| C129 | same model as C57 | REFUTED by a witness: the clause of C57 without its restriction |
| C130 | same model as C62 | REFUTED by a witness: the clause of C62 without its restriction |
| C131 | same model as C66 | REFUTED by a witness: the clause of C66 without its restriction |
| C132 | same model as C98 | REFUTED by a witness: the clause of C98 without its restriction |
| C133 | same model as C99 | REFUTED by a witness: the clause of C99 without its restriction |
| C134 | same model as C102 | REFUTED by a witness: the clause of C102 without its restriction |
| C135 | same model as C103 | REFUTED by a witness: the clause of C103 without its restriction |
| C136 | same model as C104 | REFUTED by a witness: the clause of C104 without its restriction |
| C137 | same model as C105 | REFUTED by a witness: the clause of C105 without its restriction |
| C138 | same model as C107 | REFUTED by a witness: the clause of C107 without its restriction |
| C139 | same model as C108 | REFUTED by a witness: the clause of C108 without its restriction |
| C140 | same model as C109 | REFUTED by a witness: the clause of C109 without its restriction |
| C141 | same model as C110 | REFUTED by a witness: the clause of C110 without its restriction |
| C142 | same model as C111 | REFUTED by a witness: the clause of C111 without its restriction |
| C143 | same model as C112 | REFUTED by a witness: the clause of C112 without its restriction |
| C144 | same model as C113 | REFUTED by a witness: the clause of C113 without its restriction |
| C145 | same model as C27 | REFUTED by a witness: the clause of C27 without its restriction |
| C146 | same model as C61 | REFUTED by a witness: the clause of C61 without its restriction |
| C147 | same model as C63 | REFUTED by a witness: the clause of C63 without its restriction |
| C148 | same model as C77 | REFUTED by a witness: the clause of C77 without its restriction |
| C149 | same model as C31 | REFUTED by a witness: the clause of C31 without its restriction |
| C150 | same model as C33 | REFUTED by a witness: the clause of C33 without its restriction |
| C151 | same model as C35 | REFUTED by a witness: the clause of C35 without its restriction |
| C152 | same model as C91 | REFUTED by a witness: the clause of C91 without its restriction |
| C153 | same model as C51 | REFUTED by a witness: the clause of C51 without its restriction |
| C154 | same model as C48 | REFUTED by a witness: the clause of C48 without its restriction |
| C155 | same model as C17 | REFUTED by a witness: the clause of C17 without its restriction |
| C156 | same model as C44 | REFUTED by a witness: the clause of C44 without its restriction |
| C157 | same model as C20 | REFUTED by a witness: the clause of C20 without its restriction |
| C158 | same model as C05 | REFUTED by a witness: the clause of C05 without its restriction |
| C159-C162 | `Grid`: Grid2D over any points; linspace over R | list lemmas; C162 REFUTED for every non square grid |
| C163-C165 | `Stl`: files as lists of bytes / of lines | little-endian round trip, induction on the facets; characters of numbers for the text reader; C165 REFUTED |
| C166-C169, C171 | `Rounded`: the radius dictionary is a sorted association list, linprog a parameter | trigonometry of the half angle; induction on the sides of the wire; induction on the groups of corners; index arithmetic of the list of directions for offset |
| C170 | same | REFUTED by concrete polylines with right angles |
| C172-C175, C177-C179 | the models of C38, C41, C72, C80, C93-C95 | REFUTED clauses of these properties, with the exact behaviour where it was proved |
| C176, C180-C184 | the models of C88, C49, C70, C75, C65, C18 | the true parts of these refuted properties |
| C185, C186, C188, C190 | Model/Wires.v (wires.py WireMixin/ContourMixin over an abstract record of edge operations, `edge_api`, instantiated by segments) | is_ordered by induction; ordering by an invariant of the greedy chaining (joined, same edges up to reversal) and, for completeness, a degree count: an end of the chain with degree <= 2 and no free edge touching it contradicts connectedness |
| C187, C189, C192, C195, C197, C199 | same | refuted by computed witnesses (figure eight, open chains, negative abscissa, inner point, close points) |
| C191, C193 | same | induction on the edges with an accumulated length; 1-Lipschitz by the triangle inequality |
| C194 | reorder_contour3d_edges_from_step | the least of the candidate distances; uniqueness of the least distance for completeness |
| C196, C198 | reorder_contour_at_point, from_points | rotation of a list; induction on the points |
| C200, C202 | Model/FeMesh.v (mesh.py elements); Spec/FeMeshSpec.v (weights, areas, volumes) | Cramer's rule by ring/field, the snapping of the inverse bounded |
| C204, C205 | Triangle2D (wires.py l.4042-4128) | explicit centres; Heron's formula; (u+v)(v+w)(w+u) >= 8uvw |
| C206, C208 | nodes as lists with the tolerant equality of Node2D, dictionaries as association lists | induction on the elements with an invariant on the keys, for separated points |
| C201, C203, C207, C209, C210 | the same models | refuted by witnesses |
| C211, C212 | Model/Triangle3.v (faces.py Triangle3D l.2160-2488) | Heron's formula by nra; Lagrange's identity; cross products |
| C213 | same, the while loop with fuel | the diameter shrinks by 7/8 in two rounds; invariants of a round for area and coverage |
| C215 | same | barycentric coordinates: a point is at most half a step from a row and then half a step from a sample of it |
| C214, C216 | same | refuted: for every divided triangle, and by witnesses |
| C217, C219, C222, C224 | Shells.v: union_list_of_shells, graph of the faces, from_faces, is_shell_open, set operations up to the cutting of faces, merge_faces; geometric tests are parameters | invariant of the worklist (groups made so far, apart), measure for termination; connectivity by induction on chains; partition by coincidence classes |
| C218, C220, C221, C223, C225 | same | refuted by witnesses, with the general behaviour |
| C226, C227 | Solid.v: ClosedShell3D.volume over the reals | sums over permuted directed edges vanish; C227 refuted by a tetrahedron |
| C228 | Solid.v: to_mesh_data, from_mesh_data, triangulation (rows over Z, rounding a parameter) | the lemmas of C11-C20 on unique rows |
| C229, C230 | StepRead.v: the stack of create_node_list over a table of entities | invariant of the traversal, number of connections as fuel; C230 refuted by four entities |
| C231, C232 | StepRead.v: _helper_instantiate with abstract constructors (the ids each looks up, and the object made of them) | the missing objects decrease in a finite universe closed under references; C232: every fuel runs out |
| C233, C234, C235 | StepLex.v: read_lines on one statement, the regular expressions of step_reader written as functions (checked against Python's `re` on random texts) | the text of an argument list is a sequence of pieces that findall returns; balanced texts for the parts of complex entities |
| C236, C239 | StepLex.v: statements, read_lines | induction on the lines |
| C237, C238 | StepLex.v | refuted by computation on one statement each |
| C240 | FaceGrid.v: bisect_left, bisect_right, array_range_search over any ordered type | loop invariant of the bisection |
| C241, C242 | FaceGrid.v: update_face_grid_points_with_inner_polygons, grid points of faces; polygons given by bounds and point_belongs | the list of deleted indexes is that of the points in holes but 0; refuted by one point |
| C243, C244 | FaceGrid.v: grid_triangulation_points, the loop over inner contours of Surface2D.triangulation | invariant: keys are distinct; refuted by computation on a 4x4 grid |
| C245, C247 | PolyTurn.v: get_line_segments, is_trigo, is_convex over R | sign of atan2 at each corner; clockwise_angle_spec; corners numbered modulo the number of points |
| C246, C248 | PolyTurn.v | refuted: bounds of atan on a heptagon at two scales; a pentagram |
| C249 | PolyTurn.v: _get_segments (sorted indexes), _segments_intersect | refuted by the unit square; in general position the first two segments share the lowest point |
| C250, C251 | Periodic.v: find_sign_changes, angle_discontinuity | case analysis on the turn counted by each step; refuted by one step |
| C252, C253 | Periodic.v: repair_start_end_angle_periodicity, repair_arc3d_angle_continuity, the verifications of arcs and circles on cylinders | linear arithmetic over R with bounds of pi |
| C254 | Periodic.v: verify_repeated_parametric_points | induction |
| C255/C256 | Hull.v: convex_hull_points, the simplices of scipy a parameter | the chain of edges as an Eulerian walk, permutations; C256 refuted by a triangle |
| C257/C258 | Hull.v: order_points_list_for_nearest_neighbor | induction on the remaining points; C258 refuted by a list with the origin |
| C259 | Hull.v: separate_points_by_closeness, the labels of DBSCAN a parameter | induction on the points |
| C260 | Hull.v: get_center_of_mass | induction |
| C261 | Hull.v: _get_grid_axis | field |
| C262 | Ellipse.v: ellipse2d_line_intersections | equation in the frame of the ellipse, roots of the quadratic |
| C263 | the same | refuted by a tangent and a line just outside |
| C264 | Ellipse.v: get_bounding_rectangle | cases on the axes |
| C265 | Ellipse.v: the rectangle, the box of Ellipse3D | least box of the quarter points, refuted by a tilted ellipse |
| C266 | Ellipse.v: point_over_ellipse, theta | clockwise_angle, error of the rounding |
| C267 | Ellipse.v: discretization_points (2D, 3D) | linspace, orientation of the frame |
| C268 | Ellipse.v: reverse | the two lists are equal: refuted |
| C269 | Ellipse.v: rotation, translation, frame_mapping | algebra, FrameP |
| C270 | Ellipse.v: point_angle_with_major_dir | sin_cos_angle |
| C271 | Ellipse.v: length, area | inscribed polygons, derivative of sin at 0 |
| C272 | Ellipse.v: Ellipse3D.point_belongs | error of the change of frame |
| C273 | the same | refuted by a point above |
| C274 | Model/Conic3.v (recursion of circle_3d_line_intersections on fuel 2): the quadratic of a unit direction for lines of the plane, one parameter for crossing lines | sound, complete up to the tolerance |
| C275 | the frame mapped in itself is exactly the local one (snapping of 0 and 1), isometry of frame_point | reduction to C274 |
| C276 | the same | refuted by a line above a circle; the error of every such line |
| C277 | the same | refuted by a rational rotation of angle 1e-3 |
| C278 | Circle3D.point_distance through C274 and C275; 12-digit rounding bounded | Cauchy-Schwarz for the minimum, perturbation of the radial direction |
| C279 | the same | refuted by a point of the axis and by a tiny circle |
| C280 | conic3d_line_intersections of an ellipse, through C262-C264 in the local frame | composition, isometry |
| C281 | the same | refuted by an ellipse centred at (10, 0, 0) |
| C282 | Model/Prims.v: vertices, edges, the corners of the six faces from a frame | proved with the eight corners named by signs; the specification's own list of sides is checked (each edge on two sides) |
| C283 | volume, from_bounding_box, constructor | proved by algebra on orthogonal frames; membership of the block = membership of the box |
| C284 | the same | refuted by a slanted frame |
| C285 | get_bounding_box | proved: least box of the continuum of points |
| C286 | the same | refuted by a block turned about Z |
| C287 | face_contours3d with list indices | refuted for every block (IndexError) |
| C288 | subdivide_block | proved: every point is in a part (integer parts of the local coordinates), interiors disjoint, volumes |
| C289 | the same | refuted by a turned block |
| C290 | translation, rotation, frame_mapping | proved from the frame theorems |
| C291 | bounding boxes of cylinder, hollow cylinder, cone | proved: containment by Cauchy-Schwarz, minimality by exhibiting the extreme points |
| C292 | point_belongs, sampled points (draws are parameters), interference volume | proved for all draws; the 1e-16 snapping of the change of frame gives the margins |
| C293 | from_end_points, from_center_point_and_axis | proved |
| C294 | the same | refuted by the axis (0, 0, 2) |
| C295 | skin_points | proved: polar coordinates, one floor then all floors (a floor with too few points has a full one just below) |
| C296 | inner_points, point_belongs | proved from C295, sphere by sphere |
| C297 | get_points of hyperbolas | proved: the points solve x = a sqrt(1 + y^2/b^2); bifocal property by algebra |
| C298 | Hyperbola2D.point_belongs | refuted: 1, 2 axes |
| C299 | point_belongs in space | refuted: invariance along the normal; acceptance of the points of the curve proved |
| C300 | Hyperbola2D.line_intersections | proved: second degree equation of the local abscissas |
| C301 | the same, particular directions | refuted: TypeError, empty list |
| C302 | tangents | proved: derivable_pt_lim of the branch; in space through the plane, up to the rounding of Point2D.to_3d |
| C303 | Hyperbola2D.tangent | refuted in a moved frame |
| C304 | HyperbolaMixin.__eq__ | refuted |
| C305 | get_points, point_belongs of parabolas | proved against the focus and directrix |
| C306 | Parabola2D.line_intersections | proved: second degree equation |
| C307 | tangent lines | refuted: local coordinates |
| C308 | tangents of parabolas | proved as C302 |
| C309 | ParabolaMixin.trim (2D) | proved: the control point is the pole of the chord; the Bezier curve is the arc |
| C310 | ExtrudedProfile.volume | proved against the signed volume of the triangulated skin of the prism (closed surface), by sums over the sides |
| C311 | negative lengths, inner contours outside | refuted |
| C312 | ExtrudedProfile.__init__ (check), LineSegment3D.extrusion | proved |
| C313 | RevolvedProfile.volume | refuted: AttributeError |
| C314, C315 | map_primitive_with_initial_and_final_frames and get_transfer_matrix_from_basis | Model/Containers, exact solution of the 3x3 system; `field` under a non-null determinant; C315 is false: displaced by the image of the origin of the initial frame |
| C316 | Assembly.__init__, frame_mapping | Containers, induction on the lists |
| C317 | VolumeModel.get_shells | Containers, the recursive function against a separate inductive reading of the tree |
| C318, C319 | bounding boxes and their cache | Containers, least box among members, induction on the number of calls; C319 is false for points beside bodies and for changed models |
| C320 | VolumeModel.volume, __eq__, __hash__, MovingVolumeModel | Containers, induction on the lists |
| C321, C322 | arc3d_to_toroidal/spherical_coordinates_verification | Model/Periodic2 over Periodic; cases on the repairs, angles up to turns |

Properties the code violates get a theorem `*_refuted` with an explicit witness plus a theorem describing what
the code does instead; MANIFEST marks them `partial` with a note saying REFUTED.

Every property is expressible in the model; none is marked not_applicable. Where the proved statement is narrower
than the English one the theorem name ends in `_partial` (or the false general claim is stated negated as
`_refuted`) and `MANIFEST.json` says what is missing.

## Trusted base

* Coq 8.16.1's kernel (no `Admitted`, `admit`, `Axiom`, `Parameter`, no disabled check, no functor or module type, no
  plugin, no `native_compute`/`vm_compute` on open terms).
* What `Print Assumptions` lists (each theorem is followed by it in `Props/*.v`):
  * P_Voxel, P_Mesh, P_Step, P_Octree: *Closed under the global context* (a few P_Voxel / P_Octree statements about
    real sizes excepted, which list the axioms below);
  * theorems over `R` (P_Vec, P_Frame, P_Polygon, P_BBox, P_MeshGeom, P_Nurbs, P_Surf, P_ParamSurf, P_Plane, P_Geometry,
    P_Sat, P_Curves, P_Edges): only the standard library's `ClassicalDedekindReals.sig_forall_dec`,
    `ClassicalDedekindReals.sig_not_dec`, `FunctionalExtensionality.functional_extensionality_dep` and, where
    trigonometry or `Rlt_dec`-style case analysis is used, `Classical_Prop.classic`.
* The hand translation from Python/Cython to Gallina. Each definition cites the lines it models; the mutation log
  (`seeded/LOG.jsonl`) is the evidence that the theorems notice changes to these definitions.
* Python floats are modelled by exact reals: rounding error, overflow, `nan` and `inf` are outside the model. Constants
  (1e-6, …) and comparisons (`<`, `<=`, `math.isclose` with its relative tolerance 1e-9) are kept as in the code.
  `math.sqrt` of a negative number, division by zero, missing keys and indices raise the modelled exceptions.

## What is modelled

| file in /repo/volmdlr | modelled (Model/…) | not modelled |
|---|---|---|
| discrete_representation.py, discrete_representation_compiled.pyx | FloodFill, VoxelMatrix, VoxelDisplay, Octree, Sat, Voxelize | plotting, `from_shell`/`from_volume_model` triangulation step, HDF I/O |
| display.py | Mesh, MeshGeom | babylon export, textures, plotting |
| core_compiled.pyx | Vec, Frame, Polygon | plotting, `copy`, hashing of floats |
| core.py, geometry.py (get_transfer_matrix_from_basis) | BBox, StepWrite (VolumeModel, Assembly, Compound `to_step`), Containers (placement, bounding boxes, volume, equality, get_shells, MovingVolumeModel; bodies are abstract) | babylon, gmsh, dict serialisation of bodies, rotation/translation/copy of a VolumeModel |
| nurbs/core.pyx, nurbs/operations.py, bspline_compiled.pyx, edges.py (BSplineCurve) | Nurbs, NurbsSurf, LinSolve | derivatives of surfaces, least squares fitting, `minimize` searches |
| geometry.py | Geometry | – |
| surfaces.py | ParamSurf (cylinder, cone, sphere, torus), Plane | trimming, contours, generic surface intersections |
| grid.py | Grid | negative row lengths |
| stl.py | Stl | float conversion, extract_points, get_normals, prints |
| primitives.py, primitives2d.py | Rounded (RoundedLineSegments: arcs, groups, adapt_radius, primitives; 2D: arc_features, offset) | offset_lines, ClosedRoundedLineSegments2D.copy/to_3d, 3D arc_features, Block and the sweeps |
| edges.py (Arc2D, ArcMixin) | Arcs | plotting, caches, FullArc2D, Arc3D, cut_between_two_points |
| edges.py (line segments) | Edges | plotting, caches, ellipse arcs |
| curves.py, utils/intersections.py | Curves (lines, circles), Ellipse (curves.py l.2128-2165, 2167-2519, 2582-2735, intersections.py l.119-190), Conic3 (intersections.py l.15-116, curves.py l.2060-2081), HypPara (curves.py l.2827-3500) | trim of hyperbolas, splitting, abscissas of ellipses (numerical integration), plotting |
| step.py, utils/step_reader.py | StepText, StepWrite, StepRead, StepLex | the constructors of the entities (parameters), \\X2\\ escapes, the graph drawing, the assembly structure |
| wires.py | PolyTurn (l.2872-2877, 3009-3016, 3052-3066, 3159-3224, 3996-4011), Wires (l.83-176, 194-443, 518-574, 632-638, 1506-1532, 1923-1976), Polygon, MomentSpec (ClosedPolygon2D) | splitting, cutting and shared primitives of contours, offsets, convex and concave hulls |
| mesh.py, Triangle2D | FeMesh (mesh.py l.47-56, 145-362, 440-508, 544-580, 623-667, 695-752, 786-798; wires.py l.4042-4128) | gmsh files, plots, quadrilaterals, 3D triangles, the elements made again by delete_duplicated_nodes are not checked to be not flat; negative group indices |
| faces.py (Triangle3D) | Triangle3 (l.2160-2488) | minimum distances, the outline in the plane, hashing |
| shells.py | Shells.v, Solid.v: union_list_of_shells, graphs of faces, from_faces, is_shell_open, the branches of union/intersection/subtract, validate/merge/clean faces, volume, mesh data of triangle shells | cutting of faces by intersections, distances, plots, gmsh, decimation |
| faces.py (grid points of faces), utils/parametric.py (array_range_search, update_face_grid_points…; Periodic: l.14-56, 125-198, 399-412; Periodic2: l.201-275), surfaces.py (grid points of Surface2D.triangulation) | FaceGrid | the polygons themselves (parameters), the triangulation (C library) |
| primitives3d.py | Profiles.v (ExtrudedProfile volume and check, RevolvedProfile volume; edges.py LineSegment3D.extrusion), Prims.v: Block (all but bounding_box cache, to_dict, plot and triangulation), Cylinder / HollowCylinder / Cone bounding boxes, constructors, point_belongs, sampling, interference; Sphere skin, inner points, point_belongs | OpenTriangle, the faces of ExtrudedProfile and RevolvedProfile, Sweep, Cutout, Bezier/BSpline extrusions, the shells and faces of the cylinders and spheres |
| faces.py (other faces), cad_simplification.py | – (only the parts used by the above) | triangulation (C library), gmsh |

## Findings (differences between the code and the property a user would expect)

Each of the following is a consequence of a `_refuted` theorem or of the characterising theorem next to it.
* core_compiled.pyx: x/y/z_rotation rotate by −angle compared with rotation(); plane_projection2d does not subtract the origin; Frame3D.__neg__ has the wrong sign on the origin; Basis3D.from_two_vectors is wrong for a non-unit first vector; from_point_and_vector is left-handed when the vector is −main_axis; deterministic_unit_normal_vector raises for (0,1e-8,0); Basis2D/Frame2D.__neg__/__sub__ raise TypeError; CLineSegment3DDistance has a wrong determinant; get_minimum_distance_points_lines is not minimal for parallel lines; bbox_is_intersecting inflates both boxes; Vector2D.to_step writes a VECTOR that refers to itself; Matrix33.vector_multiplication snaps values below 1e-16; polygon_point_belongs raises ZeroDivisionError on repeated points; ClosedPolygon2D.__eq__ compares a prefix.
* core.py: BoundingRectangle.distance_to_point uses y − xmin; BoundingBox.distance_to_point can be negative within the tolerance; intersection_volume/area are wrong within the tolerance; Assembly.to_step writes nested non-shell components twice; VolumeModel.to_step raises for sphere-like primitives; Compound.to_step drops members that are not exactly OpenShell3D/ClosedShell3D; Shell3D.to_step_face_ids refers to a hard-coded #7.
* step.py / step_reader.py: parentheses inside quoted strings break the argument splitter; spaces inside strings are merged; create_node_list is not in dependency order; `_helper_instantiate` loops forever on dangling or cyclic references.
* display.py: to_triangles3d drops triangles with a squared side ≤ 1e-6; minimum_distance with return_points returns all neighbours; check_consistency accepts negative indices and raises on empty meshes.
* nurbs: knot_insertion duplicates a control point when num < degree − multiplicity; find_span_binsearch does not terminate outside the domain; insert_knot_curve on a Bezier curve returns a different curve; get_reverse keeps the order of the weights; insert_knots_and_mutiplicity duplicates knots; the doolittle solver has no pivoting; refine_knot_vector_surface keeps only the last u knot; extract_surface_curve_u/v use the other direction's degree and knots.
* geometry.py: direction_to_euler_angles uses v.y / w.z three times; clockwise_angle returns 2π for aligned vectors; angle_principal_measure ignores min_angle.
* octree voxelizations: set operations always put the root at the origin; boolean operations keep truthy all-empty inner nodes; a depth-0 octree reports its root even if empty; threshold 0 is treated as None.
* SAT: `_calculate_axis_values` has a wrong radius (false positives for cubes, false negatives for other boxes); segment/pixel tests round the line equation to 9 digits; triangles with two equal vertices are skipped by the voxelization.
* surfaces.py: cone point3d_to_2d is wrong for z < 0; spindle torus inverse is wrong; SphericalSurface3D.point_distance is not the distance off the surface; CylindricalSurface3D.point_belongs compares squares; torus point_projection raises on the tube centre circle; Plane3D.from_normal and plane_between_two_planes give left-handed frames; Plane3D.from_points need not contain the third point; the tolerance of plane/line intersection depends on the two points defining the line.
* curves.py: see C102–C107 (Line2D.line_distance, Line3D.line_distance/intersection/line_intersections, Circle2D.point_symmetric, tangent lines, near-tangent vertical lines, nearly tangent circles, Circle3D.from_3_points and bounding box).
* grid.py: grid_pattern raises IndexError on every non square grid.
* stl.py: names come back padded or with a line feed; text files indented by tabs or with trailing spaces are refused.
* edges.py (arcs): direction_vector opposite on clockwise arcs; point_belongs accepts 0.5 % of the radius; second_moment_area wrong about other points than the center; bounding_rectangle of 20 samples does not contain the arc, and linesegment_intersections misses crossings; arc_intersections does not test the second arc; straight_line_point_belongs accepts points on the wrong side of the chord; axial_symmetry keeps the circle.
* edges.py: segments that cross at a small angle have no intersections and a nonzero distance; split accepts a point off the segment; trim of points closer than 1e-4 returns the piece from the start; abscissa accepts points off the segment; get_shared_section may raise NotImplementedError; LineSegment3D.distance_linesegment is not minimal; LineSegment3D.__contains__ is true on the whole line of a unit segment and false inside others; LineSegment3D.to_bspline_curve samples the abscissas i/length.
- primitives.py `_primitives` (C170): only the pairs (i, i+1) of consecutive rounded corners are compared: a lone radius larger than its sides, and the pair (n-1, 0) of a closed polyline, are accepted and give wires that run backwards; the linear program of adapt_radius ignores the sides that end in a sharp point; `self.npoints in groups[-1]` can never hold, so the group that wraps around is never formed.
- primitives2d.py: a rounded point in the middle of a straight line makes the construction fail (C166); `offset_lines` with one line index returns the polyline unchanged (`get_offset_new_points` returns [] for one index; read, not modelled).
- wires.py: `ordering_primitives` fails on closed wires with a double point, `order_contour` returns open chains (C187); `wires_from_edges` empties the list it is given (C189); negative abscissas extrapolate (C192); open STEP contours are accepted (C195); `reorder_contour_at_point` loses the contour at a point that is no corner (C197); `from_points` leaves gaps between close points (C199).
- mesh.py: elements with a double area below 1e-12 are refused as flat (C201); form functions of tetrahedra are not normalized (C203); equal nodes may have different hashes (C207); `nodes_correction` keeps its first result (C209); `delete_duplicated_nodes` raises on every mesh without gmsh and keeps nodes within 1e-8 (C210).
- primitives3d.py l.95-97: `rotation` passes `self.closed` as the third positional argument, which is `adapt_radius` (read, not modelled).
* faces.py Triangle3D: the constructor forgets alpha, color and name (PlaneFace3D.__init__ resets them); copy, frame_mapping and dict_to_object pass the name in the place of alpha; subdescription_to_triangles turns over the second half of every triangle it divides, and never ends for a resolution ≤ 0.
- C218: union_list_of_shells empties the list of its caller. C220: faces touching no other face vanish from from_faces. C221: vertices_graph is None after faces_graph. C223: subtract of disjoint or nested shells answers like union. C225: clean_faces raises ValueError when a face is covered twice. C227: the volume of a solid whose bounding box centre lies outside is too large.
- step.py: references to undefined entities, and circular ones, make the reader loop for ever (C232); complex entities lose the references of their lists of lists, e.g. the control points of rational B-spline surfaces (C235); blanks and commas of strings are lost or cut depending on their place (C237); `#` in a string is taken as a reference or raises (C238); indented statements and second statements of a line are dropped (C239).
- utils/parametric.py `update_face_grid_points_with_inner_polygons`: `if not index` keeps the grid point of index 0 inside a hole (C242). surfaces.py `Surface2D.triangulation`: the keys of the grid points are (row, place in the row) and used as (x, y) indexes: grid points in holes are given to the triangulation (C244).
- wires.py: `is_trigo` depends on the unit of length and is wrong for some simple polygons (C246); `is_convex` accepts star polygons (C248); `self_intersects` raises IndexError or answers True for every polygon in general position (C249).
- utils/parametric.py: `angle_discontinuity` misses jumps over the cut by more than pi/2.1 (C251); `repair_start_end_angle_periodicity` turns pi/2 into -pi/2, another point of the circle, when the reference is further than a quarter of a turn.
- wires.py: `convex_hull_points` may return a clockwise polygon that starts elsewhere than at its lowest x (C256). utils/common_operations.py: `order_points_list_for_nearest_neighbor` drops the remaining points when they are all the origin (C258).
- curves.py: the bounding rectangle (box) of an Ellipse2D (Ellipse3D) only holds the ends of its axes (C265); `Ellipse2D.reverse` does not change the discretization (C268); `Ellipse3D.point_belongs` accepts points at any height over the plane (C273). utils/intersections.py: `ellipse2d_line_intersections` loses tangent lines and raises ValueError for lines just outside (C263).
- utils/intersections.py: `circle_3d_line_intersections` raises ZeroDivisionError for lines parallel to a horizontal circle that pass near it (C276), and misses the intersections of circles whose plane is inclined by up to 1.4e-3 rad (C277); `conic3d_line_intersections` answers points in the 2D frame of a horizontal ellipse (C281). curves.py `Circle3D.point_distance` fails on the axis and for radii below 1.6e-4 (C279).
- primitives3d.py: `Block.volume` is the product of the edge lengths also for slanted blocks (C284), `Block.get_bounding_box` and `subdivide_block` are wrong for turned blocks (C286, C289), `face_contours3d` raises IndexError for every block (C287), `Cylinder.from_center_point_and_axis` keeps an axis that is not a unit vector (C294).
- curves.py: `Hyperbola2D.point_belongs` writes `b**1` (C298), the 3D versions ignore the height (C299); line intersections of hyperbolas and parabolas raise TypeError for lines parallel to the second axis, hyperbolas lose the lines parallel to an asymptote (C301), tangent lines of parabolas give points in local coordinates (C307); `Hyperbola2D.tangent` mixes coordinates (C303); `HyperbolaMixin.__eq__` is `not b1 != b2` negated (C304).
- primitives3d.py: `ExtrudedProfile.volume` is negative for negative lengths, and inner contours are only compared by area (C311); `RevolvedProfile.volume` reads `axis.vector`, which does not exist (C313).
- core.py `map_primitive_with_initial_and_final_frames` uses the origin of the final frame without that of the initial frame: components of an Assembly whose frame is not at the origin are displaced (C315). `Compound/Assembly._bounding_box` leave points out when another member has a box, and the kept box is not renewed (C319).
