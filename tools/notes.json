{
 "C04": {
  "note": "REFUTED: is_hollow answers the opposite (True for a solid voxel, False for a hollow shell); the exact behaviour is proved."
 },
 "C05": {
  "note": "The statement is restricted to what the code does; the unrestricted clause is C158 (REFUTED)."
 },
 "C08": {
  "note": "REFUTED: the start index is one too large on each axis (exact behaviour proved); filling from the only voxel raises IndexError."
 },
 "C10": {
  "note": "Octrees of lists of any depth, roots at the origin as the class creates them; a root placed elsewhere by hand is moved (C10_root_is_moved_to_the_origin). Coordinates are exact multiples of 1e-9."
 },
 "C102": {
  "note": "The statement is restricted to what the code does; the unrestricted clause is C134 (REFUTED)."
 },
 "C103": {
  "note": "The statement is restricted to what the code does; the unrestricted clause is C135 (REFUTED)."
 },
 "C104": {
  "note": "The statement is restricted to what the code does; the unrestricted clause is C136 (REFUTED)."
 },
 "C105": {
  "note": "The statement is restricted to what the code does; the unrestricted clause is C137 (REFUTED)."
 },
 "C106": {
  "note": "Proved; abscissas in the last 2*pi*1e-9 of the turn are mapped to 0 (the returned point is within that arc length). 3D abscissa under the hypothesis that the coordinates are not below 1e-16 (snapping of Matrix33.vector_multiplication)."
 },
 "C107": {
  "note": "The statement is restricted to what the code does; the unrestricted clause is C138 (REFUTED)."
 },
 "C108": {
  "note": "The statement is restricted to what the code does; the unrestricted clause is C139 (REFUTED)."
 },
 "C109": {
  "note": "The statement is restricted to what the code does; the unrestricted clause is C140 (REFUTED)."
 },
 "C11": {
  "note": "Every non-empty list of centers of the implicit grid; even number of 1e-9 as voxel size (the class asks for fewer than 9 decimals)."
 },
 "C110": {
  "note": "The statement is restricted to what the code does; the unrestricted clause is C141 (REFUTED)."
 },
 "C111": {
  "note": "The statement is restricted to what the code does; the unrestricted clause is C142 (REFUTED)."
 },
 "C112": {
  "note": "The statement is restricted to what the code does; the unrestricted clause is C143 (REFUTED)."
 },
 "C113": {
  "note": "The statement is restricted to what the code does; the unrestricted clause is C144 (REFUTED)."
 },
 "C115": {
  "note": "For ends whose angle is not in the last 6.3e-9 of the turn (the code takes these for 0)."
 },
 "C118": {
  "note": "General position hypotheses (clearly secant, centers apart, distance to the origin not in ]0, 1e-6]) are those of the circle theorems C106-C107."
 },
 "C119": {
  "note": "REFUTED: on a clockwise arc direction_vector is opposite to the motion (C119_..._refuted); the exact relation for both orientations is proved."
 },
 "C12": {
  "note": "Also for different voxel sizes: decides whether two voxels have overlapping open cubes. Termination included (a number of loop turns is exhibited)."
 },
 "C120": {
  "note": "REFUTED: points up to 0.5 % of the radius away from the arc are accepted whatever the tolerance; the exact acceptance region is C116."
 },
 "C121": {
  "note": "REFUTED: Huygens' term is added to the moments about the center of the circle instead of the center of mass, and for a clockwise circle the product moment is that of the flipped axes; about the center and in the circle's axes it is proved in C117."
 },
 "C122": {
  "note": "REFUTED: the rectangle of 20 sample points misses the top of a half circle by 2e-3 of the radius, and linesegment_intersections, which starts with that rectangle, misses a crossing there; the rectangle of the samples is proved exactly."
 },
 "C123": {
  "note": "REFUTED: arc_intersections only tests the first arc; straight_line_point_belongs accepts a point on the other side of the chord; axial_symmetry keeps the circle, so the mirrored ends are not on it. The part on the first arc is proved in C118."
 },
 "C124": {
  "note": "REFUTED, split off C42 (the unrestricted clause). REFUTED in part: within the 1e-6 tolerance the result is not the measure of the intersection and the volume can be negative; exact away from the tolerance."
 },
 "C125": {
  "note": "REFUTED, split off C47 (the unrestricted clause). Round trip proved for every rotation matrix; REFUTED for direction_to_euler_angles: the matrix repeats v.y and w.z."
 },
 "C126": {
  "note": "REFUTED, split off C54 (the unrestricted clause). REFUTED in part: deterministic_unit_normal_vector raises on the non-zero vector (0,1e-8,0); the other laws are proved."
 },
 "C127": {
  "note": "REFUTED, split off C55 (the unrestricted clause). REFUTED in part: x/y/z_rotation turn in the opposite sense to rotation(axis); rotation about a non-unit axis is not an isometry. The rest is proved."
 },
 "C128": {
  "note": "REFUTED, split off C56 (the unrestricted clause). REFUTED in part: Frame3D.__neg__ puts the origin of the inverse at the wrong place; the 3D local/global round trip holds up to the 1e-16 snapping in the matrix-vector product (exact when nothing is snapped)."
 },
 "C129": {
  "note": "REFUTED, split off C57 (the unrestricted clause). REFUTED in part: invertible matrices of small determinant (<=1e-12 / 1e-10) are rejected with ValueError; otherwise inverse is a two-sided inverse."
 },
 "C13": {
  "note": "Cubes of the octree, every voxel in exactly one, only voxels covered, and every full cube of the octree contained in an exported one (maximal merge)."
 },
 "C130": {
  "note": "REFUTED, split off C62 (the unrestricted clause). REFUTED in part: from_two_vectors is not orthonormal for a non-unit first vector; from_point_and_vector is left-handed when vector = -main_axis."
 },
 "C131": {
  "note": "REFUTED, split off C66 (the unrestricted clause). "
 },
 "C132": {
  "note": "REFUTED, split off C98 (the unrestricted clause). Proved what each constructor returns. REFUTED: from_normal gives a left-handed frame for every unit normal; from_points with four or more points need not contain the third point."
 },
 "C133": {
  "note": "REFUTED, split off C99 (the unrestricted clause). Soundness and completeness proved. REFUTED: the 1e-6 threshold is on the unnormalised direction, so the same line given by two close points has no intersection."
 },
 "C134": {
  "note": "REFUTED, split off C102 (the unrestricted clause). REFUTED in three places: Line2D.line_distance returns a point for parallel lines; Line3D takes lines at an angle below about 1.4e-3 rad for parallel; Line3D.intersection takes short directions for perpendicular ones. Proved outside these cases."
 },
 "C135": {
  "note": "REFUTED, split off C103 (the unrestricted clause). REFUTED for point_symmetric (the centre becomes 2*point); everything else proved for all inputs."
 },
 "C136": {
  "note": "REFUTED, split off C104 (the unrestricted clause). REFUTED: a tangent line gives a point off the circle (-b/2*a), a vertical line within 1e-9 outside raises ValueError. Proved exact for secant lines (d^2 + 1e-6 < r^2), for far lines, and within 2e-6 for lines through the centre; centre at the origin or further than 1e-6 from it."
 },
 "C137": {
  "note": "REFUTED, split off C105 (the unrestricted clause). REFUTED when |r1 - a| < 1e-6 (h is set to 0: a small circle centred on a big one). Proved exact otherwise."
 },
 "C138": {
  "note": "REFUTED, split off C107 (the unrestricted clause). REFUTED: from_3_points of nearly aligned points with the second one at an end; bounding box of tilted circles. Proved within 2e-6 otherwise."
 },
 "C139": {
  "note": "REFUTED, split off C108 (the unrestricted clause). Everything proved for 2D and 3D segments except the last sentence, which is REFUTED: abscissa projects the point, so points off the segment get an abscissa (_refuted, with the exact behaviour in ..._is_that_of_its_projection)."
 },
 "C14": {
  "note": "All four operators."
 },
 "C140": {
  "note": "REFUTED, split off C109 (the unrestricted clause). Distance, belonging and split of points of the segment proved; trim proved for points more than 1e-4 apart. REFUTED parts: split accepts a point off the segment; trim of two points closer than 1e-4 returns the piece from the start of the segment."
 },
 "C141": {
  "note": "REFUTED, split off C110 (the unrestricted clause). Soundness, completeness (directions whose |cos| is not within the tolerance of 1, determinant above 1e-15) and totality proved. REFUTED without the angle hypothesis: segments that cross at an angle of 1e-3 give []."
 },
 "C142": {
  "note": "REFUTED, split off C111 (the unrestricted clause). Proved outside of the near-parallel crossing segments, which are REFUTED (a crossing pair gets a nonzero distance)."
 },
 "C143": {
  "note": "REFUTED, split off C112 (the unrestricted clause). Soundness and exactness on overlaps proved; `never raises` REFUTED (NotImplementedError when an end of the first is on the second while neither end of the second is on the first)."
 },
 "C144": {
  "note": "REFUTED, split off C113 (the unrestricted clause). Intersections and box proved; distance proved when the common perpendicular meets both segments, and never below the true distance (2e-6); REFUTED in general (the two feet are clamped independently). __contains__ and to_bspline_curve REFUTED (unnormalised rotation axis; abscissas i/length instead of i*length/resolution)."
 },
 "C145": {
  "note": "REFUTED, split off C27 (the unrestricted clause). Proved for Mesh3D; REFUTED for Mesh2D (dict_to_object reshapes 2D vertices to rows of three)."
 },
 "C146": {
  "note": "REFUTED, split off C61 (the unrestricted clause). Proved when both meshes have triangles; REFUTED when one is empty (merge returns the other operand untouched) and for from_meshes of a single mesh."
 },
 "C147": {
  "note": "REFUTED, split off C63 (the unrestricted clause). REFUTED in part: segment_intersection accepts points outside one of the segments (`or`)."
 },
 "C148": {
  "note": "REFUTED, split off C77 (the unrestricted clause). Proved for curves without weights (or palindromic weights); REFUTED for rational curves (weights not reversed)."
 },
 "C149": {
  "note": "REFUTED, split off C31 (the unrestricted clause). Proved for full insertion (num = degree - multiplicity, what split_curve uses); REFUTED for every smaller num (one control point is duplicated) and for BezierCurve objects (the knot is dropped)."
 },
 "C150": {
  "note": "REFUTED, split off C33 (the unrestricted clause). Proved for knot vectors whose distinct knots differ by more than 1e-15; REFUTED for closer knots (multiplicities are over-counted)."
 },
 "C151": {
  "note": "REFUTED, split off C35 (the unrestricted clause). Proved for a new knot below some existing knot; REFUTED for an existing knot (listed twice) and for a knot past the end (not inserted)."
 },
 "C152": {
  "note": "REFUTED, split off C91 (the unrestricted clause). "
 },
 "C153": {
  "note": "REFUTED, split off C51 (the unrestricted clause). Proved for arguments whose strings have matched parentheses; REFUTED for a string containing an unmatched ')' (the argument list is cut there)."
 },
 "C154": {
  "note": "REFUTED, split off C48 (the unrestricted clause). REFUTED for the range: aligned vectors give 2 pi. The rotation property holds with range (0, 2 pi]."
 },
 "C155": {
  "note": "REFUTED, split off C17 (the unrestricted clause). REFUTED for non-cubic extents: _calculate_axis_values pairs the extents with the wrong edge components, so every box with different extents misses some triangle inside it. Proved for cubes (the only voxels the library builds)."
 },
 "C156": {
  "note": "REFUTED, split off C44 (the unrestricted clause). REFUTED for boxes that are not cubes (same defect as C17). Proved for cubes."
 },
 "C157": {
  "note": "REFUTED, split off C20 (the unrestricted clause). REFUTED for very short segments ((|dx|+|dy|)*size < 1e-9): the line equation is rounded to 9 digits. Proved for the others: all met pixels are returned, and returned pixels are met up to the rounding."
 },
 "C158": {
  "note": "REFUTED, split off C05 (the unrestricted clause). Proved for element sizes up to 1.0 (size_ok); REFUTED for larger elements (union of a 2.0 voxel with itself is empty; ValueError for a row of two)."
 },
 "C162": {
  "note": "REFUTED: rows and columns are exchanged, so every grid with different numbers (at least 2) of rows and columns raises IndexError (proved for all of them)."
 },
 "C163": {
  "note": "Coordinates are modelled by their 32-bit patterns (float rounding and the unit factors are outside the model)."
 },
 "C165": {
  "note": "REFUTED: the name comes back with zeros (binary) or its line feed (text); lines indented with a tab or ending with a space raise ValueError."
 },
 "C17": {
  "note": "The statement is restricted to what the code does; the unrestricted clause is C155 (REFUTED)."
 },
 "C18": {
  "note": "REFUTED even for a unit cube (wrong radius in _calculate_axis_values); C184 is the true part."
 },
 "C19": {
  "note": "Coverage, nearness (less than two voxels) and absence of duplicates (size >= 1e-9)."
 },
 "C20": {
  "note": "The statement is restricted to what the code does; the unrestricted clause is C157 (REFUTED)."
 },
 "C27": {
  "note": "The statement is restricted to what the code does; the unrestricted clause is C145 (REFUTED)."
 },
 "C28": {
  "note": "Proved; findings: find_span_binsearch loops forever outside the domain."
 },
 "C31": {
  "note": "The statement is restricted to what the code does; the unrestricted clause is C149 (REFUTED)."
 },
 "C33": {
  "note": "The statement is restricted to what the code does; the unrestricted clause is C150 (REFUTED)."
 },
 "C35": {
  "note": "The statement is restricted to what the code does; the unrestricted clause is C151 (REFUTED)."
 },
 "C36": {
  "note": "Proved under 'no zero pivot' as stated; finding: a zero pivot silently gives L*U <> A (no pivoting)."
 },
 "C38": {
  "note": "Index arithmetic of nets, weights, v refinement; the u refinement is C172."
 },
 "C41": {
  "note": "Outside and inside-box cases; the other cases are C173."
 },
 "C42": {
  "note": "The statement is restricted to what the code does; the unrestricted clause is C124 (REFUTED)."
 },
 "C44": {
  "note": "The statement is restricted to what the code does; the unrestricted clause is C156 (REFUTED)."
 },
 "C47": {
  "note": "The statement is restricted to what the code does; the unrestricted clause is C125 (REFUTED)."
 },
 "C48": {
  "note": "The statement is restricted to what the code does; the unrestricted clause is C154 (REFUTED)."
 },
 "C49": {
  "note": "REFUTED: the result is in [0, 2 pi) whatever min_angle, except when snapped to min_angle or min_angle + 2 pi (C180)."
 },
 "C51": {
  "note": "The statement is restricted to what the code does; the unrestricted clause is C153 (REFUTED)."
 },
 "C54": {
  "note": "The statement is restricted to what the code does; the unrestricted clause is C126 (REFUTED)."
 },
 "C55": {
  "note": "The statement is restricted to what the code does; the unrestricted clause is C127 (REFUTED)."
 },
 "C56": {
  "note": "The statement is restricted to what the code does; the unrestricted clause is C128 (REFUTED)."
 },
 "C57": {
  "note": "The statement is restricted to what the code does; the unrestricted clause is C129 (REFUTED)."
 },
 "C61": {
  "note": "The statement is restricted to what the code does; the unrestricted clause is C146 (REFUTED)."
 },
 "C62": {
  "note": "The statement is restricted to what the code does; the unrestricted clause is C130 (REFUTED)."
 },
 "C63": {
  "note": "The statement is restricted to what the code does; the unrestricted clause is C147 (REFUTED)."
 },
 "C65": {
  "note": "REFUTED: the 3D segment-segment distance of core_compiled uses a wrong determinant; C183 is the true part."
 },
 "C66": {
  "note": "The statement is restricted to what the code does; the unrestricted clause is C131 (REFUTED)."
 },
 "C70": {
  "note": "REFUTED: zip-prefix comparison; C181 is the true part."
 },
 "C71": {
  "note": "REFUTED: measured from the first point only; exact behaviour proved."
 },
 "C72": {
  "note": "plane_projection2d is C174."
 },
 "C75": {
  "note": "REFUTED: triangles with a side of at most 1e-3 are dropped; the exact set is C182."
 },
 "C77": {
  "note": "The statement is restricted to what the code does; the unrestricted clause is C148 (REFUTED)."
 },
 "C79": {
  "note": "For circles of space; angles in the last 6.3e-9 of the turn are excluded."
 },
 "C80": {
  "note": "Exporting every primitive once is C175."
 },
 "C81": {
  "note": "The triangle/cube test is a parameter (assumed monotone and local; the bounding box test is given as an instance); vertices are multiples of 1e-9."
 },
 "C82": {
  "note": "Threshold 0 is treated as no threshold, as in the code; the NoDup hypotheses hold for octrees built from triangles."
 },
 "C83": {
  "note": "One call of get_inner_growing_voxel_centers; layer_dict is a total function (no KeyError)."
 },
 "C84": {
  "note": "Sizes that are a whole even number of 1e-9 (centers exact at 9 digits); triangles with two equal vertices are skipped by the code (separate theorem)."
 },
 "C88": {
  "note": "REFUTED: the extracted curve gets the degree and knots of the other direction (ill-formed whenever the numbers of points differ); its points are those of the iso-curve."
 },
 "C89": {
  "note": "extract_curves is C88 and C176."
 },
 "C91": {
  "note": "The statement is restricted to what the code does; the unrestricted clause is C152 (REFUTED)."
 },
 "C93": {
  "note": "The other cases are C177."
 },
 "C94": {
  "note": "With minimality; spheres and cones are C178."
 },
 "C95": {
  "note": "The other cases are C179."
 },
 "C98": {
  "note": "The statement is restricted to what the code does; the unrestricted clause is C132 (REFUTED)."
 },
 "C99": {
  "note": "The statement is restricted to what the code does; the unrestricted clause is C133 (REFUTED)."
 },
 "C166": {
  "note": "Corner geometry over the reals; corners with |u1+u2| <= 1e-6 (almost straight) are excluded except exactly straight ones, which fail."
 },
 "C167": {
  "note": "For all polylines; the geometric part assumes that the roundings fit (side_fits), which C168/C169 give for consecutive corners."
 },
 "C168": {
  "note": "Both directions, for consecutive indices."
 },
 "C169": {
  "note": "scipy.linprog is a parameter; only the feasibility of its answer is assumed."
 },
 "C170": {
  "note": "REFUTED: points (0,0),(1,0),(1,1) with radius {1: 3} are accepted and the wire goes back to (-2,0); the closed square of side 10 with radius {0: 9, 3: 9} is accepted and its closing segment runs backwards; with adapt_radius, (0,0),(1,0),(1,10),(11,10) with {1: 5, 2: 6} keeps the radius 4 on a side of length 1."
 },
 "C171": {
  "note": "For corners whose turn is exactly zero or larger than about 1e-6; concentricity is stated per corner."
 },
 "C172": {
  "note": "REFUTED: every u knot is inserted into the original surface, so only the last one remains."
 },
 "C173": {
  "note": "REFUTED: the inside branch of BoundingRectangle uses y - xmin; BoundingBox returns a negative distance for points less than 1e-6 outside."
 },
 "C174": {
  "note": "REFUTED: plane_projection2d does not subtract the coordinates of the origin; the exact value is proved."
 },
 "C175": {
  "note": "REFUTED: nested components are written twice (duplicate identifiers), closed shells of other classes (Sphere, ClosedTriangleShell3D...) raise ValueError, a compound drops members of other classes, to_step_face_ids references an undefined #7."
 },
 "C176": {
  "note": "The true part of C88."
 },
 "C177": {
  "note": "REFUTED for the cone below the apex (theta is off by pi) and for spindle tori with minor >= 2 major (minor = 3, major = 1)."
 },
 "C178": {
  "note": "REFUTED for SphericalSurface3D.point_distance off the surface ((2,0,1) and r=1: 2 instead of sqrt 5 - 1); proved only that the points of the surface are fixed."
 },
 "C179": {
  "note": "REFUTED for the cone below the apex and for CylindricalSurface3D.point_belongs (squares are compared: with r=1e-3 the axis belongs at the default tolerance)."
 },
 "C180": {
  "note": "The true part of C49."
 },
 "C181": {
  "note": "The true part of C70."
 },
 "C182": {
  "note": "The exact set exported."
 },
 "C183": {
  "note": "The true part of C65."
 },
 "C184": {
  "note": "The true part of C18."
 },
 "C187": {
  "note": "REFUTED: a closed contour that passes twice through a point, given in another order, raises NotImplementedError (greedy chaining closes the first loop); order_contour returns open chains without error."
 },
 "C189": {
  "note": "REFUTED: the list of the caller is emptied (edges.pop / remove on the argument) as soon as it has two edges."
 },
 "C192": {
  "note": "REFUTED: a negative abscissa extrapolates the first edge."
 },
 "C195": {
  "note": "REFUTED: an open chain is returned."
 },
 "C197": {
  "note": "REFUTED: at a point that is not the start of an edge the result has no edges."
 },
 "C199": {
  "note": "REFUTED: consecutive points closer than 1e-6 are skipped pairwise, so the gap left can exceed 1e-6."
 },
 "C201": {
  "note": "REFUTED: a right triangle with sides 1e-6 raises FlatElementError."
 },
 "C203": {
  "note": "REFUTED: the coefficients are not divided by six times the volume: the first form function of the tetrahedron (0,0,0),(2,0,0),(0,2,0),(0,0,2) is 8 at its node."
 },
 "C207": {
  "note": "REFUTED: equal nodes may have different hashes, so that both stay."
 },
 "C209": {
  "note": "REFUTED: the first non empty corrections are kept and returned for every reference and tolerance."
 },
 "C210": {
  "note": "REFUTED: a mesh without gmsh raises ValueError (the setter refuses None), and points within 1e-8 of a reference point stay."
 },
 "C214": {
  "note": "REFUTED: every triangle that is divided has a piece whose normal points the other way (the second half is listed as (q, mid, r))"
 },
 "C216": {
  "note": "REFUTED: PlaneFace3D.__init__ resets color, alpha and name to their defaults; copy, frame_mapping and dict_to_object pass the name as alpha"
 },
 "C218": {
  "note": "REFUTED: the shells are popped from the caller's list, which is left empty."
 },
 "C220": {
  "note": "REFUTED: a face that shares no vertex is no node of the graph: from_faces loses it, and is_shell_open finds a single face closed."
 },
 "C221": {
  "note": "REFUTED: vertices_graph tests the graph of the faces, so it is None once faces_graph was called; faces_graph keeps its first option."
 },
 "C223": {
  "note": "REFUTED: subtract returns the early answers of the union (both shells when disjoint, the outer one when nested)."
 },
 "C225": {
  "note": "REFUTED: a face that covers a later-kept smaller one that came first stays with it; a face covered twice is removed twice: ValueError."
 },
 "C227": {
  "note": "REFUTED: absolute volumes of tetrahedra from the centre of the bounding box are added: the tetrahedron (0,0,0),(1,0,0),(0,1,0),(0,0,1) gets 1/3 instead of 1/6."
 },
 "C230": {
  "note": "REFUTED: with 1 -> 3, 2; 2 -> 3; 3 -> 4 the list is 4, 2, 3, 1: 2 comes before 3 that it refers to (the reader recovers by instantiating the missing object first, C231)."
 },
 "C232": {
  "note": "REFUTED: _helper_instantiate catches the KeyError of the missing entity and tries again for ever: no fuel is enough, for every undefined reference and every pair of circular references."
 },
 "C235": {
  "note": "REFUTED: #10=(BOUNDED_SURFACE()B_SPLINE_SURFACE(3,((#11,#12),(#13,#14)))); has no connection at all."
 },
 "C237": {
  "note": "REFUTED: 'automotive design' is read 'automotivedesign'; a comma in the last string cuts it in two arguments; a string before a list of lists keeps its comma."
 },
 "C238": {
  "note": "REFUTED: 'p #2, left' adds connection 2, 'part #B, left' raises ValueError."
 },
 "C239": {
  "note": "REFUTED: a statement that starts with a blank is dropped; two statements on one line are read as the first only."
 },
 "C242": {
  "note": "REFUTED: the point of index 0 is kept even in a hole (`if not index` takes 0 as absent). C241 proves the rest."
 },
 "C244": {
  "note": "REFUTED: the keys of the dictionary of grid points are (row, place in the row, reversed on odd rows) but are looked up as (index of x, index of y): grid points in a hole are kept (and only points in the hole are ever removed, C243)."
 },
 "C246": {
  "note": "REFUTED: y = u.dot(ls1.normal_vector()) is not divided by the length of the side: is_trigo is False for a simple counterclockwise polygon of seven points, and True for the same polygon a thousand times smaller. C245 proves the polygons that always turn the same way."
 },
 "C248": {
  "note": "REFUTED: only the turns are looked at: a pentagram is convex. C247 proves what is_convex decides."
 },
 "C249": {
  "note": "REFUTED: the unit square raises IndexError, or self intersects when listed from another corner; proved: for three points or more in general position the answer is never False (neighbouring segments share an end, which counts as an intersection; _get_segments indexes past the end unless the last point is the rightmost)."
 },
 "C251": {
  "note": "REFUTED: the step from pi - 0.1 to 0.1 - pi/2 (1.77 on the circle) is taken as a passage through zero: the bound of 1.1 delta of the second isclose. C250 proves steps below pi/2.1."
 },
 "C256": {
  "note": "REFUTED: the hull (0,0), (1,1), (1/2,2) given by the simplices (0,1), (1,2), (2,0) comes out clockwise and starts at (1/2,2)."
 },
 "C258": {
  "note": "REFUTED: [(1,0,0), (0,0,0)] gives [(1,0,0)]: `while remaining_points.any()` tests coordinates, not the number of points."
 },
 "C263": {
  "note": "REFUTED: the line y = 1 tangent to the ellipse of axes 2 and 1 gives no point (the discriminant must be > 0); the line x = 2.000001, just outside, raises ValueError (math.sqrt of a negative number)."
 },
 "C265": {
  "note": "REFUTED: the rectangle and the box hold the four ends of the axes only; the ellipse of axes 2 and 1 whose major axis has the direction (3/5, 4/5) passes at (36/25, 23/25), outside."
 },
 "C268": {
  "note": "REFUTED: reverse changes the sign of the minor axis and the discretization then runs the parameter from 2 pi to 0: the list of points is the same as before."
 },
 "C273": {
  "note": "REFUTED: the distance to the plane is not looked at; a point 5 above the end of the major axis belongs to the ellipse."
 },
 "C276": {
  "note": "REFUTED: a horizontal line at height 1/2 above a circle of radius 1 raises ZeroDivisionError; so does every such line at most a radius away from the centre"
 },
 "C277": {
  "note": "REFUTED: a circle inclined by 1e-3 rad is taken as horizontal, its diameter along the slope is taken as crossing, and both points are missed"
 },
 "C279": {
  "note": "REFUTED: every point of the axis raises ZeroDivisionError (centre with at most 12 decimals), a circle of radius 1e-4 raises IndexError"
 },
 "C281": {
  "note": "REFUTED: for a horizontal ellipse the 2D points are not mapped back: they are at least 6 away from the ellipse of the witness"
 },
 "C284": {
  "note": "REFUTED: the block with edges (1,0,0), (4,3,0), (0,0,1) has parallelepiped volume 3 and volume() 5 (the product of the lengths of the edges)"
 },
 "C286": {
  "note": "REFUTED: the box is computed from u.x, v.y and w.z only: a vertex of a turned block is outside its bounding box"
 },
 "C287": {
  "note": "REFUTED: face_contours3d raises IndexError for every block: the list of switched edges starts at the fifth edge and has eight elements, the indices 9 to 12 are taken in the edges"
 },
 "C289": {
  "note": "REFUTED: the parts are parallel to the axes: a point of a turned block is in none of its parts"
 },
 "C294": {
  "note": "REFUTED: the axis is kept as it is: with axis (0,0,2) and length 1, the bounding box is 2 high and holds (0,0,1), that point_belongs rejects; the volume is the one of length 1"
 },
 "C298": {
  "note": "REFUTED: the minor axis is to the power 1 (C298_points_of_the_plane_refuted); with a minor axis of 1 the points of both branches are accepted."
 },
 "C299": {
  "note": "REFUTED: the height over the plane plays no part (C299_points_over_the_plane_refuted); the points of the curve are accepted."
 },
 "C301": {
  "note": "REFUTED: TypeError for lines parallel to the second axis, no point for lines parallel to an asymptote, although they have common points."
 },
 "C303": {
  "note": "REFUTED: the derivative is taken at the ordinate of the point in the plane, not in the frame (C303_in_other_frames_refuted)."
 },
 "C304": {
  "note": "REFUTED: equal hyperbolas are unequal, those that only differ by the second axis are equal."
 },
 "C307": {
  "note": "REFUTED: the point is answered in the coordinates of the frame of the parabola (C307_tangent_lines)."
 },
 "C311": {
  "note": "REFUTED: negative lengths give negative volumes (C311_negative_lengths_refuted); an inner contour far from the outer one is accepted when its area is not larger (C311_inner_contours_refuted)."
 },
 "C313": {
  "note": "REFUTED: AttributeError for every profile, Vector3D has no attribute vector (C313_the_error)."
 },
 "C315": {
  "note": "REFUTED: when the initial frame is not at the origin everything is displaced by the images of its origin (C315_the_displacement, C315_frames_elsewhere_refuted)."
 },
 "C319": {
  "note": "REFUTED: points beside a member that has a box are left out (C319_points_refuted); the box kept after the first call is not that of a changed list of primitives (C319_changed_models_refuted)."
 }
}