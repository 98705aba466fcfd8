{"id": "C01", "title": "Flood fill recolours exactly the connected component", "statement": "flood_fill_matrix_2d / flood_fill_matrix_3d terminate on every boolean matrix and every in-range start cell, return a matrix of the same shape, and a cell of the result has the fill value iff it had it before or it is joined to the start cell by a path of face-adjacent cells that all carry the start cell's old value; every other cell is unchanged. An out-of-range start raises IndexError.", "quantifier": "every matrix shape and content, every start cell, both fill values", "why_tests_cant": "the number of matrices and connected components is infinite; termination and exact reachability are inductive facts", "anchors": [{"file": "volmdlr/discrete_representation_compiled.py", "symbols": ["flood_fill_matrix_2d", "flood_fill_matrix_3d", "_flood_fill_matrix_2d", "_flood_fill_matrix_3d"]}]}
{"id": "C02", "title": "Outer filling sets exactly the cells reachable from outside", "statement": "fill_outer_voxels / fill_outer_pixels returns a discretisation on the same grid (same shape, same origin) in which a cell is set iff it was set or it can be reached from outside the grid through unset, face-adjacent cells.", "quantifier": "every voxel/pixel matrix of any shape (including empty dimensions)", "why_tests_cant": "reachability from the outside in an arbitrary grid cannot be enumerated", "anchors": [{"file": "volmdlr/discrete_representation.py", "symbols": ["MatrixBasedVoxelization._fill_outer_elements", "_expand", "_reduce", "MatrixBasedPixelization._fill_outer_elements"]}]}
{"id": "C03", "title": "Enclosed filling adds exactly the enclosed cavities", "statement": "fill_enclosed_voxels / fill_enclosed_pixels yields exactly the original elements plus the unset cells that cannot reach the outside; it is extensive and idempotent.", "quantifier": "every voxel/pixel matrix, voxel size at most 1", "why_tests_cant": "topological statement over all grids", "anchors": [{"file": "volmdlr/discrete_representation.py", "symbols": ["MatrixBasedVoxelization._fill_enclosed_elements", "_logical_operation"]}]}
{"id": "C04", "title": "is_hollow reports hollowness", "statement": "is_hollow() returns True iff the discretisation has at least one enclosed, unfilled element.", "quantifier": "every voxelization/pixelization", "why_tests_cant": "needs all grids; example tests only pin a chosen answer", "anchors": [{"file": "volmdlr/discrete_representation.py", "symbols": ["DiscreteRepresentation.is_hollow"]}]}
{"id": "C05", "title": "Matrix voxelizations: boolean operators are set operators on voxel centers", "statement": "For two matrix based voxelizations (pixelizations) of the same element size, at most 1, on the same implicit grid, the centers of A+B, A-B, A&B, A^B are the set union, difference, intersection and symmetric difference of the centers of A and of B, wherever the two grids lie; different element sizes raise ValueError.", "quantifier": "every pair of matrices, origins and element sizes", "why_tests_cant": "the relative offsets and shapes range over an infinite set", "anchors": [{"file": "volmdlr/discrete_representation.py", "symbols": ["MatrixBasedVoxelization._logical_operation", "MatrixBasedVoxelization.union", "MatrixBasedVoxelization.difference", "MatrixBasedVoxelization.intersection", "MatrixBasedVoxelization.symmetric_difference", "MatrixBasedPixelization._logical_operation"]}]}
{"id": "C06", "title": "crop_matrix keeps the voxels and makes the matrix tight", "statement": "crop_matrix keeps the set of voxel centers, and if there is at least one voxel then the first and last slice along each axis of the result contain a voxel; cropping is idempotent, so two croppings of equal center sets on one grid are equal (==).", "quantifier": "every voxel matrix and origin", "why_tests_cant": "canonical-form property over all matrices", "anchors": [{"file": "volmdlr/discrete_representation.py", "symbols": ["MatrixBasedVoxelization.crop_matrix", "MatrixBasedVoxelization.__eq__"]}]}
{"id": "C07", "title": "Point-based and matrix-based voxelizations convert losslessly", "statement": "to_matrix_based_voxelization followed by to_point_based_voxelization returns the same set of centers, for every non empty set of centers on one grid; the converse round trip keeps the centers and yields the cropped matrix.", "quantifier": "every finite non-empty set of voxel centers and element size", "why_tests_cant": "round trip over an infinite domain", "anchors": [{"file": "volmdlr/discrete_representation.py", "symbols": ["PointBasedVoxelization.to_matrix_based_voxelization", "MatrixBasedVoxelization.to_point_based_voxelization", "MatrixBasedVoxelization._get_element_centers"]}]}
{"id": "C08", "title": "Point-based flood fill starts at the voxel containing the given point", "statement": "PointBasedVoxelization.flood_fill(p, v) fills the connected component of the voxel that contains the point p (and PointBasedPixelization likewise).", "quantifier": "every voxelization and start point in its bounding box", "why_tests_cant": "off-by-one of a grid index shows only for particular positions", "anchors": [{"file": "volmdlr/discrete_representation.py", "symbols": ["PointBasedVoxelization.flood_fill", "PointBasedVoxelization._point_to_local_grid_index", "Voxelization.bounding_box"]}]}
{"id": "C09", "title": "inverse is an involution and a complement in the matrix grid", "statement": "MatrixBasedVoxelization.inverse() has a voxel at exactly the cells of the matrix grid where self has none, and inverse().inverse() == self.", "quantifier": "every voxel matrix", "why_tests_cant": "universal algebraic law", "anchors": [{"file": "volmdlr/discrete_representation.py", "symbols": ["MatrixBasedVoxelization.inverse"]}]}
{"id": "C10", "title": "Octree voxelizations: boolean operators are set operators on voxel centers", "statement": "For two octree based voxelizations of the same voxel size (any depths), union, difference, intersection and symmetric_difference produce an octree whose voxel centers are the corresponding set operation of the operands' centers; different voxel sizes raise ValueError.", "quantifier": "every pair of well-formed octrees of arbitrary depth", "why_tests_cant": "recursive structure of unbounded depth", "anchors": [{"file": "volmdlr/discrete_representation.py", "symbols": ["OctreeBasedVoxelization.union", "_recursive_union", "_recursive_difference", "_recursive_intersection", "_recursive_symmetric_difference", "_make_octrees_same_depth", "_increment_octree_depth", "_get_homogeneous_leaf_centers"]}]}
{"id": "C11", "title": "Converting points to an octree and back is lossless", "statement": "PointBasedVoxelization.to_octree_based_voxelization().to_point_based_voxelization() has exactly the original centers.", "quantifier": "every finite non-empty set of implicit-grid voxel centers", "why_tests_cant": "unbounded depth and set size", "anchors": [{"file": "volmdlr/discrete_representation.py", "symbols": ["OctreeBasedVoxelization.from_point_based_voxelization", "_subdivide_from_points", "_get_homogeneous_leaf_centers"]}]}
{"id": "C12", "title": "Octree is_intersecting decides a common voxel", "statement": "For octrees of the same voxel size is_intersecting terminates and returns True iff the two voxelizations share a voxel.", "quantifier": "every pair of well-formed octrees", "why_tests_cant": "explicit-stack search over unbounded trees", "anchors": [{"file": "volmdlr/discrete_representation.py", "symbols": ["OctreeBasedVoxelization.is_intersecting", "_check_voxel_intersection"]}]}
{"id": "C13", "title": "Non-homogeneous octree export covers the same volume", "statement": "to_non_homogeneous_point_based_voxelizations returns cubes of several sizes that are pairwise disjoint and whose union is exactly the union of the unit voxels; it merges 8 cubes iff all 8 are full.", "quantifier": "every well-formed octree", "why_tests_cant": "recursive merge over unbounded depth", "anchors": [{"file": "volmdlr/discrete_representation.py", "symbols": ["_get_non_homogeneous_leaf_centers"]}]}
{"id": "C14", "title": "Octree leaves keep the triangle indices of both operands", "statement": "After union/intersection of octrees built from triangle lists T1 and T2, each leaf lists exactly the indices of the T1 triangles of the first leaf and the indices of the T2 triangles of the second leaf shifted by len(T1), so that indexing T1+T2 with a leaf entry gives the original triangle.", "quantifier": "every pair of octrees and triangle lists", "why_tests_cant": "index bookkeeping over all trees", "anchors": [{"file": "volmdlr/discrete_representation.py", "symbols": ["_recursive_union", "_recursive_intersection", "OctreeBasedVoxelization.union", "OctreeBasedVoxelization.intersection"]}]}
{"id": "C15", "title": "The displayed triangles of a voxelization are exactly its boundary faces", "statement": "to_triangles returns both triangles of a voxel face iff exactly one of the two voxels sharing that face belongs to the voxelization, whatever the iteration order of the set.", "quantifier": "every finite voxel set and every enumeration order", "why_tests_cant": "toggle-set argument over all sets and all hash orders", "anchors": [{"file": "volmdlr/discrete_representation.py", "symbols": ["Voxelization.to_triangles"]}, {"file": "volmdlr/discrete_representation_compiled.py", "symbols": ["_voxel_triangular_faces"]}]}
{"id": "C16", "title": "Layer depth equals the largest full cube around a voxel", "statement": "_layers_matrix (and layers_thickness_by_voxel_centers) gives for each voxel the largest n such that the (2n+1)^3 cube centred on it lies in the matrix and is full, and 0 for unset voxels.", "quantifier": "every voxel matrix and cell", "why_tests_cant": "unbounded while-loop per cell", "anchors": [{"file": "volmdlr/discrete_representation.py", "symbols": ["MatrixBasedVoxelization._layers_matrix", "layers_thickness_by_voxel_centers"]}]}
{"id": "C17", "title": "Triangle/voxel test never misses an intersecting voxel", "statement": "triangle_intersects_voxel with equal extents (the cubic voxels that the library builds) returns True whenever the closed triangle and the closed voxel share a point.", "quantifier": "every triangle, voxel center and extents", "why_tests_cant": "continuum of positions; separating axis argument", "anchors": [{"file": "volmdlr/discrete_representation_compiled.py", "symbols": ["triangle_intersects_voxel", "_triangle_intersects_voxel", "_calculate_axis_values"]}]}
{"id": "C18", "title": "Triangle/voxel test reports no disjoint voxel", "statement": "triangle_intersects_voxel returns False whenever the triangle and the voxel are disjoint.", "quantifier": "every triangle, voxel center and extents", "why_tests_cant": "continuum of positions", "anchors": [{"file": "volmdlr/discrete_representation_compiled.py", "symbols": ["_triangle_intersects_voxel", "_calculate_axis_values"]}]}
{"id": "C19", "title": "Candidate voxels cover the bounding box", "statement": "Every voxel of the implicit grid that meets the axis aligned bounding box of a triangle is among the candidates tested during voxelization, each exactly once, for negative and positive coordinates alike.", "quantifier": "every box and voxel size", "why_tests_cant": "truncation towards zero behaves differently by sign; infinite domain", "anchors": [{"file": "volmdlr/discrete_representation_compiled.py", "symbols": ["_aabb_intersecting_boxes"]}]}
{"id": "C20", "title": "Pixels of a segment are exactly the pixels it meets", "statement": "line_segments_to_pixels returns every pixel of the implicit grid met by one of the segments that is not so short that (|dx|+|dy|)*size < 1e-9, and only pixels met by a segment up to the 9-digit rounding of its equation.", "quantifier": "every list of segments and pixel size", "why_tests_cant": "continuum of positions", "anchors": [{"file": "volmdlr/discrete_representation_compiled.py", "symbols": ["_line_segments_to_pixels", "_line_segment_intersects_pixel"]}]}
{"id": "C21", "title": "Mesh concatenation preserves geometry", "statement": "The triangles (as vertex coordinates) of m1 + m2 are the triangles of m1 followed by those of m2, for all consistent meshes; from_meshes of a list gives the concatenation; the result is consistent.", "quantifier": "every list of consistent meshes", "why_tests_cant": "index shifting over arbitrary meshes", "anchors": [{"file": "volmdlr/display.py", "symbols": ["MeshMixin.merge", "MeshMixin.__add__", "MeshMixin.from_meshes", "MeshMixin.triangles_vertices"]}]}
{"id": "C22", "title": "merge_vertices preserves geometry and removes duplicates", "statement": "merge_vertices returns a mesh with pairwise distinct vertices, the same set of vertex positions, and the same list of triangles as coordinates.", "quantifier": "every consistent mesh", "why_tests_cant": "arbitrary size and duplication pattern", "anchors": [{"file": "volmdlr/display.py", "symbols": ["MeshMixin.merge_vertices"]}]}
{"id": "C23", "title": "merge_triangles keeps one representative of each triangle", "statement": "merge_triangles keeps a sub-collection of the triangles in which each unordered vertex-index triple of the input occurs exactly once; idempotent.", "quantifier": "every mesh", "why_tests_cant": "arbitrary size", "anchors": [{"file": "volmdlr/display.py", "symbols": ["MeshMixin.merge_triangles"]}]}
{"id": "C24", "title": "split_shared_vertices unmerges every triangle", "statement": "The result has 3*n_triangles vertices, triangle i uses vertices 3i,3i+1,3i+2, and the triangles as coordinates are unchanged; merge_vertices after split gives back the same triangles.", "quantifier": "every consistent mesh", "why_tests_cant": "arbitrary size", "anchors": [{"file": "volmdlr/display.py", "symbols": ["MeshMixin.split_shared_vertices"]}]}
{"id": "C25", "title": "Removing degenerate or large triangles removes exactly those", "statement": "remove_degenerate_triangles(tol) keeps, in order, exactly the triangles whose three squared edge lengths exceed tol; remove_large_triangles(t) keeps exactly those whose three edge lengths are below t; vertices are untouched.", "quantifier": "every mesh and threshold", "why_tests_cant": "universal filter characterisation", "anchors": [{"file": "volmdlr/display.py", "symbols": ["MeshMixin.remove_degenerate_triangles", "Mesh3D.remove_large_triangles"]}]}
{"id": "C26", "title": "Border edges are the edges of exactly one triangle side", "statement": "get_mesh_border returns each undirected edge that occurs exactly once among the triangle sides, once, and nothing else.", "quantifier": "every mesh", "why_tests_cant": "arbitrary connectivity", "anchors": [{"file": "volmdlr/display.py", "symbols": ["Mesh3D.get_mesh_border", "Mesh3D.get_edges_triangles"]}]}
{"id": "C27", "title": "Mesh serialisation round trips", "statement": "dict_to_object(to_dict(m)) has the same vertices and triangles as m, for Mesh3D.", "quantifier": "every mesh", "why_tests_cant": "all sizes", "anchors": [{"file": "volmdlr/display.py", "symbols": ["MeshMixin.to_dict", "MeshMixin.dict_to_object"]}]}
{"id": "C28", "title": "Knot span search returns the span containing the parameter", "statement": "For a non-decreasing knot vector with at least degree+1 control points, find_span_linear returns s with degree <= s < n, U[s] <= u < U[s+1] for every u of the domain [U[p],U[n]) and s = n-1 at and beyond the end; find_span_binsearch terminates on the domain and agrees outside its tolerance band.", "quantifier": "every degree, knot vector and parameter", "why_tests_cant": "continuum of parameters, repeated knots", "anchors": [{"file": "volmdlr/nurbs/core.pyx", "symbols": ["find_span_linear", "find_span_linear_c", "find_span_binsearch"]}]}
{"id": "C29", "title": "Basis functions form a non-negative partition of unity and follow Cox-de Boor", "statement": "At a parameter in its span, the degree+1 values computed by basis_function are non-negative, sum to 1 and equal the Cox-de Boor B-spline values N_{span-p..span,p}(u).", "quantifier": "every degree, knot vector and parameter", "why_tests_cant": "continuum; in-place triangular algorithm", "anchors": [{"file": "volmdlr/nurbs/core.pyx", "symbols": ["basis_function_c", "basis_function_all", "basis_function_one"]}]}
{"id": "C30", "title": "A B-spline curve stays in the hull of its active control points and interpolates clamped ends", "statement": "Every evaluated point is a convex combination of the control points span-p..span (non-rational, or rational with positive weights); with a clamped knot vector evaluating at the domain ends gives the first and the last control point.", "quantifier": "every curve and parameter", "why_tests_cant": "continuum", "anchors": [{"file": "volmdlr/nurbs/core.pyx", "symbols": ["evaluate_curve_c", "evaluate_curve_rational"]}]}
{"id": "C31", "title": "Knot insertion does not change the curve", "statement": "insert_knot_curve(num=degree - multiplicity), the call made by split_curve, returns a curve with n+num control points and a sorted knot vector with num additional copies of u, whose value equals the original's at every parameter.", "quantifier": "every curve, knot and parameter", "why_tests_cant": "continuum and unbounded degree", "anchors": [{"file": "volmdlr/nurbs/operations.py", "symbols": ["knot_insertion", "knot_insertion_kv", "knot_insertion_alpha", "insert_knot_curve"]}]}
{"id": "C32", "title": "Splitting a curve gives two halves of the same curve", "statement": "split_curve(u) returns two curves with consistent knot vectors (len(knots)=len(ctrlpts)+degree+1), that coincide with the input on their domains and meet at the split point.", "quantifier": "every curve and interior parameter", "why_tests_cant": "continuum", "anchors": [{"file": "volmdlr/nurbs/operations.py", "symbols": ["split_curve", "construct_split_curve", "helper_split_knot_vectors"]}]}
{"id": "C33", "title": "Knot/multiplicity compression is lossless", "statement": "get_knots_and_multiplicities(kv) returns strictly increasing knots and positive multiplicities whose expansion is the knot vector, for every sorted knot vector whose distinct knots differ by more than 1e-15.", "quantifier": "every non-decreasing knot vector", "why_tests_cant": "all lengths", "anchors": [{"file": "volmdlr/nurbs/operations.py", "symbols": ["get_knots_and_multiplicities"]}, {"file": "volmdlr/nurbs/core.pyx", "symbols": ["find_multiplicity"]}]}
{"id": "C34", "title": "Generated knot vectors are valid", "statement": "generate_knot_vector(p,n) with n >= p+1 has n+p+1 entries, is non-decreasing, starts at 0 and ends at 1, and when clamped repeats the ends exactly p+1 times; standardize_knot_vector maps any knot vector with distinct ends affinely onto [0,1] preserving order.", "quantifier": "every degree and number of control points", "why_tests_cant": "all sizes", "anchors": [{"file": "volmdlr/nurbs/helpers.pyx", "symbols": ["generate_knot_vector", "linspace", "standardize_knot_vector"]}]}
{"id": "C35", "title": "insert_knots_and_mutiplicity inserts a knot with its multiplicity", "statement": "Given increasing knots with multiplicities and a new knot below at least one of them, the returned lists describe the knot vector with num copies of the knot added, still strictly increasing, at the returned index.", "quantifier": "every knot list and knot", "why_tests_cant": "boundary positions (existing knot, past the end)", "anchors": [{"file": "volmdlr/nurbs/helpers.pyx", "symbols": ["insert_knots_and_mutiplicity"]}]}
{"id": "C36", "title": "LU based linear solver solves the system", "statement": "lu_decomposition returns a unit lower triangular L and an upper triangular U with L*U = A when no zero pivot occurs, and forward then backward substitution return x with A x = b; a non-square matrix raises ValueError.", "quantifier": "every square matrix of any size", "why_tests_cant": "all sizes", "anchors": [{"file": "volmdlr/nurbs/helpers.pyx", "symbols": ["lu_decomposition", "doolittle", "forward_substitution", "backward_substitution"]}]}
{"id": "C37", "title": "Binomial coefficients are exact", "statement": "binomial_coefficient(k,i) used in rational derivatives equals k!/(i!(k-i)!) for 0<=i<=k and 0 above.", "quantifier": "every k, i", "why_tests_cant": "all integers", "anchors": [{"file": "volmdlr/nurbs/helpers.pyx", "symbols": ["binomial_coefficient"]}]}
{"id": "C38", "title": "Surface control-point bookkeeping is consistent", "statement": "flip_ctrlpts_u transposes u-row order to v-row order, ctrlpts2d_to_ctrlpts flattens row-major, separate_ctrlpts_weights inverts weighting, so that inserting knots keeps the surface's control net indexing v + size_v*u; refining the knot vector of a surface in v inserts every requested knot.", "quantifier": "every net size", "why_tests_cant": "index arithmetic over all sizes", "anchors": [{"file": "volmdlr/nurbs/operations.py", "symbols": ["flip_ctrlpts_u", "ctrlpts2d_to_ctrlpts", "separate_ctrlpts_weights", "insert_knot_surface", "refine_knot_vector_surface"]}]}
{"id": "C39", "title": "Bounding boxes are the least boxes containing their points", "statement": "BoundingBox.from_points / from_bounding_boxes / + return a box that contains every point (box) given and is contained in every box with that property; + is commutative, associative and idempotent.", "quantifier": "every non-empty list of points or boxes", "why_tests_cant": "arbitrary lists", "anchors": [{"file": "volmdlr/core.py", "symbols": ["BoundingBox.from_points", "BoundingBox.from_bounding_boxes", "BoundingBox.__add__", "BoundingRectangle.from_points"]}]}
{"id": "C40", "title": "Distance between bounding boxes/rectangles is the minimum distance", "statement": "distance_to_bbox / distance_to_b_rectangle return the minimum Euclidean distance between a point of one and a point of the other (0 when they meet, within the touching tolerance for boxes), and are symmetric.", "quantifier": "every pair of boxes", "why_tests_cant": "continuum of positions; the swapping logic has several cases", "anchors": [{"file": "volmdlr/core.py", "symbols": ["BoundingBox.distance_to_bbox", "BoundingRectangle.distance_to_b_rectangle"]}]}
{"id": "C41", "title": "Distance from a bounding box/rectangle to a point", "statement": "For a point outside by more than the tolerance, distance_to_point is the minimum distance to the box or rectangle; for a point inside a box, it is the distance to the nearest side.", "quantifier": "every box, rectangle and point", "why_tests_cant": "continuum", "anchors": [{"file": "volmdlr/core.py", "symbols": ["BoundingBox.distance_to_point", "BoundingRectangle.distance_to_point"]}]}
{"id": "C42", "title": "Intersection area/volume is the measure of the common part", "statement": "intersection_area / intersection_volume return the area/volume of the common part whenever the 1e-6 tolerance of the inclusion and intersection tests does not change their answer; both are symmetric, and the area is always between the common area and the area of each operand.", "quantifier": "every pair", "why_tests_cant": "continuum; tolerance shortcuts", "anchors": [{"file": "volmdlr/core.py", "symbols": ["BoundingRectangle.intersection_area", "BoundingBox.intersection_volume"]}]}
{"id": "C43", "title": "The octree of a bounding box partitions it", "statement": "octree() returns eight boxes of half size covering the box, with pairwise disjoint interiors; get_points_inside_bbox(nx,ny,nz) returns the nx*ny*nz cell centers, all inside.", "quantifier": "every box", "why_tests_cant": "continuum", "anchors": [{"file": "volmdlr/core.py", "symbols": ["BoundingBox.octree", "BoundingBox.get_points_inside_bbox"]}]}
{"id": "C44", "title": "is_intersecting_triangle never misses a touching triangle", "statement": "For a box that is a cube, BoundingBox.is_intersecting_triangle(t) is True whenever the triangle and the box share a point.", "quantifier": "every box and triangle", "why_tests_cant": "continuum", "anchors": [{"file": "volmdlr/core.py", "symbols": ["BoundingBox.is_intersecting_triangle"]}]}
{"id": "C45", "title": "cos_image and sin_image return the exact image interval", "statement": "cos_image(x1,x2) (sin_image) returns (lo,hi) such that {cos t | x1<=t<=x2} = [lo,hi] for every x1<=x2.", "quantifier": "all reals x1<=x2", "why_tests_cant": "continuum, number of half periods", "anchors": [{"file": "volmdlr/geometry.py", "symbols": ["cos_image", "sin_image"]}]}
{"id": "C46", "title": "sin_cos_angle inverts (cos, sin)", "statement": "For every t, sin_cos_angle(cos t, sin t) is in [0, 2pi), and is the representative of t modulo 2pi (up to the 1e-9 snapping at 2pi).", "quantifier": "all angles", "why_tests_cant": "continuum, quadrant logic", "anchors": [{"file": "volmdlr/geometry.py", "symbols": ["sin_cos_angle"]}]}
{"id": "C47", "title": "Euler angles round trip", "statement": "euler_angles_to_transfer_matrix gives a rotation matrix for all angles, and transfer_matrix_to_euler_angles returns angles that rebuild the given rotation matrix, including the two singular cases.", "quantifier": "all angles, all rotation matrices", "why_tests_cant": "continuum and singularities", "anchors": [{"file": "volmdlr/geometry.py", "symbols": ["euler_angles_to_transfer_matrix", "transfer_matrix_to_euler_angles", "direction_to_euler_angles"]}]}
{"id": "C48", "title": "clockwise_angle measures the clockwise rotation", "statement": "For non-zero plane vectors, rotating vector1 clockwise by clockwise_angle(vector1, vector2) gives the direction of vector2, and the result lies in ]0, 2 pi], 2 pi for vectors of the same direction; it is 0 when one of the vectors is null.", "quantifier": "all pairs of non-zero vectors", "why_tests_cant": "continuum", "anchors": [{"file": "volmdlr/geometry.py", "symbols": ["clockwise_angle"]}]}
{"id": "C49", "title": "angle_principal_measure returns the principal measure", "statement": "angle_principal_measure(angle, min_angle) is congruent to angle modulo 2pi and lies in [min_angle, min_angle+2pi].", "quantifier": "all angles and min_angle", "why_tests_cant": "continuum", "anchors": [{"file": "volmdlr/geometry.py", "symbols": ["angle_principal_measure"]}]}
{"id": "C50", "title": "Membership and duplicate removal in lists", "statement": "delete_double_point returns the points of the list without repetition, in order of first occurrence; get_element_index_in_list returns the first index of a close element or None; element_in_list agrees with it.", "quantifier": "every list", "why_tests_cant": "all lengths", "anchors": [{"file": "volmdlr/core.py", "symbols": ["delete_double_point", "get_element_index_in_list", "element_in_list", "point_in_list"]}]}
{"id": "C51", "title": "STEP argument lists are split at top-level commas", "statement": "step_split_arguments_special applied to the text of k arguments joined by commas (nested parentheses and quoted strings allowed, quotes balanced, parentheses inside strings matched) returns exactly these k arguments with the spaces outside quotes removed.", "quantifier": "every list of well-formed arguments", "why_tests_cant": "strings of unbounded nesting", "anchors": [{"file": "volmdlr/utils/step_reader.py", "symbols": ["step_split_arguments_special", "set_to_list"]}]}
{"id": "C52", "title": "STEP identifiers lists round trip", "statement": "set_to_list('(' + step_ids_to_str(ids) + ')') returns '#i' for each id, in order, for every non-empty list of ids.", "quantifier": "every list of identifiers", "why_tests_cant": "all lengths", "anchors": [{"file": "volmdlr/utils/step_reader.py", "symbols": ["set_to_list"]}, {"file": "volmdlr/utils/step_writer.py", "symbols": ["step_ids_to_str"]}]}
{"id": "C53", "title": "STEP product/assembly writers allocate fresh consecutive ids", "statement": "product_writer, geometric_context_writer and assembly_definition_writer define consecutive fresh ids starting at current_id+1, return the last id they defined, and every '#n' they reference is an earlier given id, #2, an id they define, or the announced next id.", "quantifier": "every current_id and names without '#'", "why_tests_cant": "all integers", "anchors": [{"file": "volmdlr/utils/step_writer.py", "symbols": ["product_writer", "geometric_context_writer", "assembly_definition_writer"]}]}
{"id": "C54", "title": "Vector algebra of Vector2D/3D", "statement": "Dot and cross products are bilinear, cross(u,v) is orthogonal to u and v with |cross|^2 = |u|^2|v|^2 - dot^2; norm is homogeneous and satisfies the triangle inequality; unit_vector has norm 1 and raises ZeroDivisionError for the null vector.", "quantifier": "all vectors", "why_tests_cant": "continuum", "anchors": [{"file": "volmdlr/core_compiled.pyx", "symbols": ["Vector3D", "Vector2D"]}]}
{"id": "C55", "title": "Rotations are isometries and compose", "statement": "Point/Vector rotation around a center (2D) or around an axis given by a unit vector (3D) preserves distances, leaves the axis/center fixed, rotation by a then b equals rotation by a+b, and by 2pi is the identity; symmetry and translation preserve distances.", "quantifier": "all points, axes, angles", "why_tests_cant": "continuum", "anchors": [{"file": "volmdlr/core_compiled.pyx", "symbols": ["Point2D.rotation", "Vector3D.rotation", "Point3D.rotation", "Vector2D.rotation"]}]}
{"id": "C56", "title": "Frames: new_coordinates and old_coordinates are inverse", "statement": "For an invertible basis (frame), local_to_global(global_to_local(v)) = v and conversely, and frame_mapping by 'new' then 'old' gives the point back; composition of frames corresponds to composition of the maps.", "quantifier": "all invertible frames and points", "why_tests_cant": "continuum", "anchors": [{"file": "volmdlr/core_compiled.pyx", "symbols": ["Basis3D", "Frame3D", "Frame2D", "Basis2D", "Matrix33", "Matrix22"]}]}
{"id": "C57", "title": "Matrix inverse and products", "statement": "Matrix22/Matrix33 inverse times the matrix (on both sides) is the identity when the absolute determinant is above 1e-12 / 1e-10, product is associative, determinant multiplicative; inverse of a singular matrix raises ValueError.", "quantifier": "all matrices", "why_tests_cant": "continuum", "anchors": [{"file": "volmdlr/core_compiled.pyx", "symbols": ["Matrix22", "Matrix33"]}]}
{"id": "C58", "title": "Polygon area and point-in-polygon", "statement": "The signed polygon area computed is the shoelace area: invariant under rotation of the point list, negated by reversal, additive under a chord split; polygon_point_belongs agrees with the crossing-parity specification.", "quantifier": "all polygons", "why_tests_cant": "all lengths, continuum", "anchors": [{"file": "volmdlr/core_compiled.pyx", "symbols": ["polygon_area", "polygon_point_belongs"]}]}
{"id": "C59", "title": "Voxelization translation by grid multiples is exact", "statement": "PointBasedVoxelization.translation by an offset that is an integer multiple of the voxel size in each direction translates each voxel center exactly and keeps the number of voxels; for any offset each translated center lies in a returned voxel and the number of voxels does not increase.", "quantifier": "every voxel set and offset", "why_tests_cant": "continuum and all sets", "anchors": [{"file": "volmdlr/discrete_representation.py", "symbols": ["PointBasedVoxelization.translation", "_voxels_intersecting_voxels"]}]}
{"id": "C60", "title": "The displayed triangles of a voxelization form a closed surface", "statement": "In the set returned by to_triangles every segment is a side of an even number of triangles, so the triangle shell built from a voxelization has no open border.", "quantifier": "every voxel set, every voxel size and every iteration order", "why_tests_cant": "mod-2 boundary argument over all voxel sets", "anchors": [{"file": "volmdlr/discrete_representation.py", "symbols": ["Voxelization.to_triangles", "to_closed_triangle_shell"]}]}
{"id": "C61", "title": "The | operator of meshes mutualises vertices and triangles", "statement": "For two meshes that both have triangles, m1 | m2 returns a mesh whose vertices are pairwise distinct, whose triangles are pairwise distinct as vertex sets, and which has the same positions and the same triangles (up to vertex order) as m1 and m2 together.", "quantifier": "every pair of consistent meshes", "why_tests_cant": "arbitrary sizes and duplication patterns; the empty operand is a corner case", "anchors": [{"file": "volmdlr/display.py", "symbols": ["MeshMixin.__or__", "MeshMixin.merge", "MeshMixin.from_meshes"]}]}
{"id": "C62", "title": "Frame constructors give direct orthonormal frames", "statement": "Basis3D.from_two_vectors (with a unit first vector), Frame3D.from_3_points, from_point_and_normal, from_point_and_vector (vector not opposite to the main axis) and from_step return a right-handed orthonormal basis placed at the given origin, with the requested axis along the given vector; rotating or euler-rotating a direct basis gives a direct basis.", "quantifier": "all points and non-degenerate vectors", "why_tests_cant": "continuum of inputs; special directions (opposite to an axis, non-unit vectors) are measure zero", "anchors": [{"file": "volmdlr/core_compiled.pyx", "symbols": ["Basis3D.from_two_vectors", "Frame3D.from_3_points", "Frame3D.from_point_and_normal", "Frame3D.from_point_and_vector", "Frame3D.from_step", "Basis3D.euler_rotation"]}]}
{"id": "C63", "title": "Line and segment intersections (2D)", "statement": "Point2D.line_intersection returns the unique common point of two non-parallel lines and None for parallel ones; segment_intersection returns the common point of the two lines, and does so for segments that meet and are not parallel.", "quantifier": "all pairs of lines / segments", "why_tests_cant": "continuum", "anchors": [{"file": "volmdlr/core_compiled.pyx", "symbols": ["Point2D.line_intersection", "Point2D.segment_intersection"]}]}
{"id": "C64", "title": "Point to segment distance is the minimum", "statement": "linesegment2d/3d_point_distance returns a point of the segment and the distance to it, and no point of the segment is closer.", "quantifier": "all non-degenerate segments and points", "why_tests_cant": "continuum, universally quantified minimum", "anchors": [{"file": "volmdlr/core_compiled.pyx", "symbols": ["linesegment2d_point_distance", "linesegment3d_point_distance"]}]}
{"id": "C65", "title": "Segment to segment distance is the minimum", "statement": "LineSegment3DDistance returns one point on each segment and no other pair of points is closer.", "quantifier": "all pairs of segments", "why_tests_cant": "continuum, universally quantified minimum", "anchors": [{"file": "volmdlr/core_compiled.pyx", "symbols": ["LineSegment3DDistance", "CLineSegment3DDistance"]}]}
{"id": "C66", "title": "Closest points of two lines", "statement": "get_minimum_distance_points_lines of two non-parallel lines returns a point of each line; the segment joining them is orthogonal to both lines and no pair of points of the lines is closer.", "quantifier": "all pairs of non-parallel lines", "why_tests_cant": "continuum", "anchors": [{"file": "volmdlr/core_compiled.pyx", "symbols": ["get_minimum_distance_points_lines"]}]}
{"id": "C67", "title": "Projection on a line and axial symmetry", "statement": "point_projection returns the orthogonal projection and its signed abscissa; axial_symmetry is an involutive isometry whose midpoints lie on the axis.", "quantifier": "all non-degenerate lines and points", "why_tests_cant": "continuum", "anchors": [{"file": "volmdlr/core_compiled.pyx", "symbols": ["Point2D.line_projection", "Point2D.axial_symmetry"]}]}
{"id": "C68", "title": "Nearest point, membership and mean of point lists", "statement": "nearest_point returns a member of the list at minimal distance; in_list answers whether some member is within the tolerance; mean_point is the barycenter and independent of the order.", "quantifier": "all point lists", "why_tests_cant": "lists of every length, continuum", "anchors": [{"file": "volmdlr/core_compiled.pyx", "symbols": ["Point3D.nearest_point", "Point2D.nearest_point", "Point3D.in_list", "Vector.mean_point"]}]}
{"id": "C69", "title": "Polygon centre of mass and second moments", "statement": "center_of_mass is the area-weighted mean of the centroids of the triangles that fan the polygon; it and the second moments follow translations, and the second moments obey the parallel axis theorem.", "quantifier": "all polygons", "why_tests_cant": "lists of every length, continuum", "anchors": [{"file": "volmdlr/wires.py", "symbols": ["ClosedPolygon2D.center_of_mass", "ClosedPolygon2D.second_moment_area"]}]}
{"id": "C70", "title": "Polygon equality", "statement": "Two ClosedPolygon2D compare equal iff they have the same points.", "quantifier": "all pairs of polygons", "why_tests_cant": "lists of every length", "anchors": [{"file": "volmdlr/wires.py", "symbols": ["ClosedPolygon2D.__eq__"]}]}
{"id": "C71", "title": "Polygon distance", "statement": "polygon_distance returns the minimum distance between the points of the two polygons.", "quantifier": "all pairs of polygons", "why_tests_cant": "lists of every length", "anchors": [{"file": "volmdlr/wires.py", "symbols": ["ClosedPolygon2D.polygon_distance"]}]}
{"id": "C72", "title": "Plane projections and 2D/3D conversions", "statement": "plane_projection3d returns the closest point of the plane; to_2d after to_3d is the identity, and conversely on the plane.", "quantifier": "all points and orthonormal plane vectors", "why_tests_cant": "continuum", "anchors": [{"file": "volmdlr/core_compiled.pyx", "symbols": ["Vector3D.plane_projection3d", "Vector3D.plane_projection2d", "Vector3D.to_2d", "Vector2D.to_3d"]}]}
{"id": "C73", "title": "Bounding box predicates and scaling", "statement": "BoundingBox.is_intersecting never misses two boxes sharing a point (exact at tol 0, symmetric); BoundingRectangle.is_intersecting and point_belongs test open interiors; scale(f) keeps the center, multiplies sizes by f and volume by f^3, and composes; is_close at tolerance 0 is equality.", "quantifier": "all boxes, points, factors and tolerances >= 0", "why_tests_cant": "Universally quantified over real-valued inputs and list lengths; tests sample a few shapes.", "anchors": ["volmdlr/core.py:BoundingBox.scale,is_intersecting,point_belongs,is_close", "volmdlr/core.py:BoundingRectangle.is_intersecting,point_belongs", "volmdlr/core_compiled.pyx:bbox_is_intersecting"]}
{"id": "C74", "title": "Mesh area, resize and bounding box", "statement": "Mesh3D.area is the sum of the areas of the triangles; resize(k) scales each triangle by k and the area by k^2; removing degenerate triangles keeps the area; + adds the areas; bounding_box contains every triangle.", "quantifier": "all consistent meshes and factors", "why_tests_cant": "Universally quantified over real-valued inputs and list lengths; tests sample a few shapes.", "anchors": ["volmdlr/display.py:MeshMixin.resize,triangles_cross_products,merge", "volmdlr/display.py:Mesh3D.area,bounding_box"]}
{"id": "C75", "title": "Mesh to triangles", "statement": "Mesh3D.to_triangles3d (and the shells made of it) contains every non-degenerate triangle of the mesh, in order.", "quantifier": "all consistent meshes, at every scale", "why_tests_cant": "Universally quantified over real-valued inputs and list lengths; tests sample a few shapes.", "anchors": ["volmdlr/display.py:Mesh3D.to_triangles3d,to_closed_shell"]}
{"id": "C76", "title": "Mesh minimum distance", "statement": "Mesh3D.minimum_distance returns the smallest distance between a vertex of one mesh and a vertex of the other.", "quantifier": "all pairs of non-empty meshes; any exact nearest neighbour search", "why_tests_cant": "Universally quantified over real-valued inputs and list lengths; tests sample a few shapes.", "anchors": ["volmdlr/display.py:Mesh3D.minimum_distance"]}
{"id": "C77", "title": "Reversing a B-spline curve gives the same curve travelled backwards", "statement": "For a curve without weights, or whose weights read the same in both directions, get_reverse returns a curve of the same degree whose point at 1-u is the original's point at u, for every parameter u of the domain.", "quantifier": "every curve whose interior knots have multiplicity at most the degree, rational or not, and every parameter", "why_tests_cant": "continuum of parameters, unbounded degree and number of control points", "anchors": [{"file": "volmdlr/edges.py", "symbols": ["BSplineCurve.get_reverse"]}]}
{"id": "C78", "title": "vectors3d_angle is the unsigned angle between two vectors", "statement": "For non-zero u and v, vectors3d_angle(u,v) is the theta in [0,pi] with |u||v|cos theta = u.v; a null vector is rejected with ZeroDivisionError.", "quantifier": "all pairs of vectors of space", "why_tests_cant": "continuum", "anchors": [{"file": "volmdlr/geometry.py", "symbols": ["vectors3d_angle"]}]}
{"id": "C79", "title": "clockwise_interior_from_circle3d is the middle of the clockwise arc", "statement": "For two points of a circle, the interior point returned is obtained from the start by half of the clockwise turn (in (0, 2pi]) that leads to the end.", "quantifier": "all circles of space, all pairs of points of the circle whose angle is not in the last 6.3e-9 of the turn (which the code takes for 0)", "why_tests_cant": "continuum, wrap-around of the angles", "anchors": [{"file": "volmdlr/geometry.py", "symbols": ["clockwise_interior_from_circle3d"]}]}
{"id": "C80", "title": "The STEP export of a model refers to defined entities and describes the model", "statement": "VolumeModel.to_step writes a DATA section in which every '#n' that is referenced is defined, two statements with the same identifier are equal (and no identifier is written twice when no assembly contains a compound or an assembly), and following the references from each product one finds exactly the exported primitive: every shell with its faces, surfaces, contours, edges, curves, points and names in order, every compound with its plain shells, every assembly with every component placed by its position frame; the export succeeds exactly on models made of exportable primitives.", "quantifier": "every volume model made of shells, compounds and (nested) assemblies, any number of faces and edges of every kind", "why_tests_cant": "all model structures, identifiers counted through every writer", "anchors": [{"file": "volmdlr/core.py", "symbols": ["VolumeModel.to_step_stream", "Assembly.to_step", "Assembly.to_step_product", "Compound.to_step"]}, {"file": "volmdlr/shells.py", "symbols": ["Shell3D.to_step", "Shell3D.to_step_product", "Shell3D.to_step_face_ids"]}, {"file": "volmdlr/faces.py", "symbols": ["Face3D.to_step"]}, {"file": "volmdlr/wires.py", "symbols": ["Contour3D.to_step"]}, {"file": "volmdlr/edges.py", "symbols": ["to_step"]}, {"file": "volmdlr/surfaces.py", "symbols": ["to_step"]}, {"file": "volmdlr/utils/step_writer.py", "symbols": ["product_writer", "geometric_context_writer", "assembly_definition_writer"]}]}
{"id": "C81", "title": "An octree built from triangles lists in each voxel exactly the triangles that meet it", "statement": "OctreeBasedVoxelization.from_triangles(triangles, size), for a triangle/cube test that is monotone (a triangle meeting a cube meets every cube around it) and local (never true away from the bounding box of the triangle): the voxel centered at any point of the implicit grid stores index i iff triangle i meets that voxel; in particular the voxels are exactly the grid voxels met by a triangle.", "quantifier": "every non-empty list of triangles, every voxel size, every monotone and local test", "why_tests_cant": "recursion of unbounded depth with pruning at every level", "anchors": [{"file": "volmdlr/discrete_representation.py", "symbols": ["OctreeBasedVoxelization.from_triangles", "_subdivide_from_triangles"]}]}
{"id": "C82", "title": "The triangle pairs located by an octree are the pairs that share a voxel", "statement": "The dictionary of triangle pairs of an octree maps (i, j) to exactly the centers of the voxels that contain triangles i and j (i < j, and i < threshold <= j when a non-zero threshold is given); the pairs used by intersecting_faces_combinations are exactly the pairs of one triangle of each shell that lie in a common voxel, with the common voxels.", "quantifier": "every octree, every threshold, every pair of octrees of the same voxel size", "why_tests_cant": "dictionary merges over trees of any depth", "anchors": [{"file": "volmdlr/discrete_representation.py", "symbols": ["_get_intersections_voxel_centers", "_get_intersections_leaf_centers", "OctreeBasedVoxelization.intersecting_faces_combinations"]}]}
{"id": "C83", "title": "Inner growing export covers the same volume with deep voxels merged", "statement": "get_inner_growing_voxel_centers(thickness, layer_dict) returns voxels of size s and 2s that are pairwise disjoint and whose union is the voxelization; a 2x2x2 block of the octree is merged iff its eight voxels are present and each lies at depth at least thickness.", "quantifier": "every octree, every thickness and layer dictionary", "why_tests_cant": "recursive merge over unbounded depth", "anchors": [{"file": "volmdlr/discrete_representation.py", "symbols": ["get_inner_growing_voxel_centers", "_get_inner_growing_leaf_centers"]}]}
{"id": "C84", "title": "Voxelizing triangles marks every voxel they meet", "statement": "triangles_to_voxel_matrix (the core of MatrixBasedVoxelization.from_triangles), given a non-empty list of triangles and a voxel size that is a whole even number of 1e-9, never indexes outside its matrices, and returns a matrix and an origin such that every voxel of the implicit grid whose closed cube shares a point with a listed triangle (of three different vertices, with edges of at least (1 + 1/size) * 1e-9) is True; and every True voxel is within one voxel of such a triangle or meets both its plane and its bounding box.", "quantifier": "every list of triangles and every such voxel size", "why_tests_cant": "continuum of triangles; the interface branches go through rounding, truncation and a 2D flood fill; the code indexes memory without bounds checks", "anchors": [{"file": "volmdlr/discrete_representation_compiled.py", "symbols": ["triangles_to_voxel_matrix", "_triangles_to_voxel_matrix", "_pixel_centers_to_filled_pixel_matrix", "_check_triangle_equal_point"]}]}
{"id": "C85", "title": "Evaluating a B-spline surface gives the textbook point", "statement": "point2d_to_3d(u, v) of a well-formed BSplineSurface3D is the tensor-product (rational) B-spline point of its degrees, knots, control points and weights at (u, v), the parameters outside the domain being replaced by the nearest end; evaluate() samples it on a regular grid of sample_size_u by sample_size_v parameters; every point is a convex combination of the control points; a clamped surface passes through its four corner control points; the constructor rescales both knot lists to [0, 1].", "quantifier": "every degree, net size, knot vectors, weights and parameter", "why_tests_cant": "infinitely many surfaces; the algorithm works on one span only", "anchors": [{"file": "volmdlr/nurbs/core.pyx", "symbols": ["evaluate_surface"]}, {"file": "volmdlr/nurbs/core.pyx", "symbols": ["evaluate_surface_rational"]}, {"file": "volmdlr/surfaces.py", "symbols": ["BSplineSurface3D.point2d_to_3d"]}, {"file": "volmdlr/surfaces.py", "symbols": ["BSplineSurface3D.evaluate"]}]}
{"id": "C86", "title": "Knot insertion does not change a surface", "statement": "insert_knot_surface inserting u, v or both up to full multiplicity returns a surface with the same point at every parameter and the expected number of control points; more insertions than degree minus multiplicity raise ValueError when checked.", "quantifier": "every surface, every parameter of the domain", "why_tests_cant": "tensor-product algebra over all degrees and nets", "anchors": [{"file": "volmdlr/nurbs/operations.py", "symbols": ["insert_knot_surface"]}]}
{"id": "C87", "title": "Splitting a surface gives its two parts", "statement": "split_surface_u(s, u) and split_surface_v(s, v) return two surfaces which are the parts of s before and after the parameter, each reparametrised to [0, 1] in the split direction; splitting at an end of the domain raises ValueError.", "quantifier": "every surface, every parameter strictly inside the domain", "why_tests_cant": "tensor-product algebra over all degrees and nets", "anchors": [{"file": "volmdlr/nurbs/operations.py", "symbols": ["split_surface_u"]}, {"file": "volmdlr/nurbs/operations.py", "symbols": ["split_surface_v"]}, {"file": "volmdlr/nurbs/operations.py", "symbols": ["construct_split_surfaces"]}]}
{"id": "C88", "title": "Extracted iso-curves and border curves lie on the surface", "statement": "extract_surface_curve_u(s, u), extract_surface_curve_v(s, v) and the border curves of extract_curves are valid curves equal to the restrictions of the surface.", "quantifier": "every surface, every parameter strictly inside the domain", "why_tests_cant": "tensor-product algebra; the code uses the other direction's degree and knots, which coincides on symmetric test surfaces", "anchors": [{"file": "volmdlr/nurbs/operations.py", "symbols": ["extract_surface_curve_u"]}, {"file": "volmdlr/nurbs/operations.py", "symbols": ["extract_surface_curve_v"]}]}
{"id": "C89", "title": "Border curves of a surface are its borders", "statement": "The first and last curves of each direction of get_surface_curves are the restrictions of a clamped surface to the ends of its domain.", "quantifier": "every clamped surface", "why_tests_cant": "holds for all parameters of the border; fails only for surfaces with different data in u and v", "anchors": [{"file": "volmdlr/surfaces.py", "symbols": ["BSplineSurface3D.get_surface_curves"]}, {"file": "volmdlr/surfaces.py", "symbols": ["BSplineSurface3D.extract_curves"]}]}
{"id": "C90", "title": "Incircle and circumcircle radii of a triangle", "statement": "For a non-flat Triangle2D, circumcircle_radius is the distance from one common point to the three vertices, and incircle_radius is the distance from a point of the triangle to its three sides; circumcircle_radius raises ZeroDivisionError exactly for flat triangles and incircle_radius only when the three points coincide.", "quantifier": "every triple of points", "why_tests_cant": "the radii are algebraic functions of six real coordinates; a test checks a few triangles", "anchors": [{"file": "volmdlr/wires.py", "symbols": ["Triangle2D.incircle_radius", "Triangle2D.circumcircle_radius"]}]}
{"id": "C91", "title": "Mesh consistency check", "statement": "Mesh.check_consistency returns True exactly when every index used by a triangle is below the number of vertices, so for meshes with non-negative indices exactly when every triangle designates existing vertices; a mesh without triangles raises ValueError.", "quantifier": "every mesh", "why_tests_cant": "ranges over all triangle and vertex arrays", "anchors": [{"file": "volmdlr/display.py", "symbols": ["Mesh.check_consistency"]}]}
{"id": "C92", "title": "Analytic surfaces are exactly the images of their parametrisation", "statement": "For a surface with an orthonormal frame, point2d_to_3d / parametric_points_to_3d of CylindricalSurface3D, ConicalSurface3D, SphericalSurface3D and ToroidalSurface3D return points of that surface (with the requested height), every point of the surface is the image of one pair of parameters with theta in (-pi, pi], and the scalar and array versions of the mapping agree to the 1e-16 snapping of the frame mapping.", "quantifier": "every frame, every radius / semi angle, every pair of parameters and every point of the surface", "why_tests_cant": "it ranges over all real parameters, frames and points", "anchors": [{"file": "volmdlr/surfaces.py", "symbols": ["CylindricalSurface3D.point2d_to_3d", "ConicalSurface3D.point2d_to_3d", "SphericalSurface3D.point2d_to_3d", "ToroidalSurface3D.point2d_to_3d", "CylindricalSurface3D.parametric_points_to_3d", "ConicalSurface3D.parametric_points_to_3d", "SphericalSurface3D.parametric_points_to_3d", "ToroidalSurface3D.parametric_points_to_3d"]}]}
{"id": "C93", "title": "Parameters of a point of an analytic surface are recovered", "statement": "point3d_to_2d applied to the 3D point of parameters (theta, z) or (theta, phi) in the principal domain returns these parameters, except where the documented tolerances snap a coordinate or an angle to 0 or pi: for cylinders, spheres, cones above their apex and tori whose minor radius is below twice the major one.", "quantifier": "every such surface and every pair of parameters of the principal domain", "why_tests_cant": "it ranges over all parameters; the failing cases (cone below the apex, spindle torus) are missed by sampled tests", "anchors": [{"file": "volmdlr/surfaces.py", "symbols": ["CylindricalSurface3D.point3d_to_2d", "ConicalSurface3D.point3d_to_2d", "SphericalSurface3D.point3d_to_2d", "ToroidalSurface3D.point3d_to_2d"]}]}
{"id": "C94", "title": "Projection and distance of a point to a cylinder or a torus", "statement": "point_projection returns a point of the cylinder or torus and point_distance is the distance of the point to the surface: no point of the surface is closer (up to the documented tolerances).", "quantifier": "every cylinder, torus and every point of space", "why_tests_cant": "minimality quantifies over all the points of the surface", "anchors": [{"file": "volmdlr/surfaces.py", "symbols": ["Surface3D.point_distance", "CylindricalSurface3D.point_projection", "ToroidalSurface3D.point_projection", "SphericalSurface3D.point_projection", "ConicalSurface3D.point_projection"]}]}
{"id": "C95", "title": "point_belongs of spheres, tori and cones above the apex", "statement": "point_belongs(p, tol) is True only if a point of the surface is within tol of p (sphere, torus, cone), and is True for every point of the surface (above the apex for a cone) as soon as tol exceeds the snapping tolerances.", "quantifier": "every surface, every point and every tolerance", "why_tests_cant": "both directions quantify over a continuum of points", "anchors": [{"file": "volmdlr/surfaces.py", "symbols": ["Surface3D.point_belongs", "CylindricalSurface3D.point_belongs"]}]}
{"id": "C96", "title": "Bounding boxes of spheres and tori", "statement": "The bounding box computed by SphericalSurface3D and ToroidalSurface3D contains every point of the surface, whatever the frame.", "quantifier": "every frame, radii and point of the surface", "why_tests_cant": "it quantifies over all points of the surface and all frames", "anchors": [{"file": "volmdlr/surfaces.py", "symbols": ["SphericalSurface3D._bounding_box", "ToroidalSurface3D._bounding_box"]}]}
{"id": "C97", "title": "Distance of a point to a plane", "statement": "Plane3D.point_distance is, up to the rounding of the coefficients of the plane equation, the smallest distance to a point of the plane, and point_belongs(p, tol) holds exactly when that distance is at most tol.", "quantifier": "every plane with a unit normal, every point and tolerance", "why_tests_cant": "minimality ranges over all points of the plane", "anchors": [{"file": "volmdlr/surfaces.py", "symbols": ["Plane3D.point_distance", "Plane3D.point_belongs"]}, {"file": "volmdlr/utils/common_operations.py", "symbols": ["get_plane_point_distance", "get_plane_equation_coefficients"]}]}
{"id": "C98", "title": "Plane constructors", "statement": "from_3_points and from_plane_vectors return an orthonormal right-handed frame whose plane contains the given points / directions; from_normal returns an orthonormal frame of the plane normal to the given vector; from_points returns a plane through the first point and two others of the points; they fail exactly when the points are aligned (or fewer than three).", "quantifier": "every list of points, normal and pair of vectors", "why_tests_cant": "ranges over all configurations, including nearly degenerate ones", "anchors": [{"file": "volmdlr/surfaces.py", "symbols": ["Plane3D.from_3_points", "Plane3D.from_points", "Plane3D.from_normal", "Plane3D.from_plane_vectors"]}]}
{"id": "C99", "title": "Intersection of a plane with a line or a segment", "statement": "Every returned point is on both the plane and the line (segment); the common point is returned whenever the dot product of the normal and of the direction as given is above 1e-6, and none otherwise; the intersection of a segment that crosses the plane is found and never fails.", "quantifier": "every plane, line, segment and tolerance", "why_tests_cant": "soundness and completeness quantify over all lines and all their points", "anchors": [{"file": "volmdlr/utils/intersections.py", "symbols": ["get_plane_line_intersections", "get_plane_linesegment_intersections"]}]}
{"id": "C100", "title": "Intersection of two planes", "statement": "The line returned by two_planes_intersections is on both planes (up to the rounding of the plane equations), every common point of the planes is near it, and no line is returned exactly for parallel planes.", "quantifier": "every pair of planes with unit normals", "why_tests_cant": "ranges over all pairs of planes and all common points", "anchors": [{"file": "volmdlr/utils/intersections.py", "symbols": ["get_two_planes_intersections", "_helper_two_plane_intersections"]}]}
{"id": "C101", "title": "Parallel and coincident planes, angle, middle plane and plane coordinates", "statement": "is_parallel and is_coincident decide parallelism and equality within the tolerance, angle_between_planes is the angle of the normals, plane_between_two_planes bisects the planes, and the 2D coordinates of a plane are a bijection with its points.", "quantifier": "every pair of planes, every point and every pair of parameters", "why_tests_cant": "ranges over all pairs of planes and points", "anchors": [{"file": "volmdlr/surfaces.py", "symbols": ["Plane3D.is_parallel", "Plane3D.is_coincident", "Plane3D.angle_between_planes", "Plane3D.plane_between_two_planes", "Plane3D.point2d_to_3d", "Plane3D.point3d_to_2d", "Plane3D.parametric_points_to_3d"]}]}
{"id": "C102", "title": "Lines: distance, membership, intersection", "statement": "Line2D/Line3D.point_distance is the distance to the line, point_belongs tells whether it is within the tolerance, intersection/line_intersections of lines of the plane return exactly the common points; line_distance of crossing lines of the plane is 0, and of lines of space it is their distance when they are exactly parallel or clearly not; Line3D.intersection returns a common point within the tolerance, and finds it, for directions of norm at least one.", "quantifier": "every pair of lines and every point, in 2D and 3D", "why_tests_cant": "ranges over all pairs of lines, including nearly parallel ones", "anchors": [{"file": "volmdlr/curves.py", "symbols": ["Line2D.point_distance", "Line2D.point_belongs", "Line2D.line_intersections", "Line2D.line_distance", "Line3D.point_distance", "Line3D.point_belongs", "Line3D.line_distance", "Line3D.skew_to", "Line3D.intersection", "Line3D.line_intersections"]}]}
{"id": "C103", "title": "Circle2D: construction, membership, distance, rectangle, transformations", "statement": "Circle2D.from_3_points returns the unique circle through three non aligned points, point_belongs and point_distance agree with the distance to the circle, the bounding rectangle is the smallest one, and translation, rotation, frame mapping and axial symmetry map the circle onto the image of its points.", "quantifier": "every circle, every triple of points and every transformation", "why_tests_cant": "ranges over all circles and points", "anchors": [{"file": "volmdlr/curves.py", "symbols": ["Circle2D.from_3_points", "Circle2D.point_belongs", "Circle2D.point_distance", "Circle2D.get_bounding_rectangle", "Circle2D.point_symmetric", "Circle2D.axial_symmetry", "Circle2D.rotation", "Circle2D.translation", "Circle2D.reverse", "Circle2D.second_moment_area"]}]}
{"id": "C104", "title": "Circle2D.line_intersections returns exactly the common points", "statement": "For a circle centred at the origin or more than 1e-6 away from it: a line further than r + 1e-9 gives no point (and there is none); for a line not through the center with d^2 + 1e-6 < r^2, line_intersections returns exactly the common points; for a line through the center it returns the two ends of a diameter (within 2e-6).", "quantifier": "every circle and every line", "why_tests_cant": "ranges over all relative positions of a line and a circle, including tangency", "anchors": [{"file": "volmdlr/curves.py", "symbols": ["Circle2D.line_intersections", "Circle2D._helper_line_intersections"]}]}
{"id": "C105", "title": "Circle2D.circle_intersections returns exactly the common points", "statement": "For circles with centers more than 1e-6 apart, circle_intersections returns exactly the points that are on both circles (provided |r1 - a| >= 1e-6, a the abscissa of the common chord), none for disjoint circles, and without duplicates.", "quantifier": "every pair of circles", "why_tests_cant": "ranges over all pairs of circles, including nearly tangent ones", "anchors": [{"file": "volmdlr/utils/intersections.py", "symbols": ["get_circle_intersections"]}, {"file": "volmdlr/curves.py", "symbols": ["Circle2D.circle_intersections"]}]}
{"id": "C106", "title": "Curvilinear abscissas of circles", "statement": "point_at_abscissa(s) is the point at arc length s from the start in the sense of the frame, abscissa is its inverse (up to the seam), abscissa raises ValueError off the circle, and discretization_points are n evenly spaced points of the circle, first and last equal.", "quantifier": "every circle, every abscissa, every point and every number of points, in 2D and 3D", "why_tests_cant": "ranges over all circles, both orientations, and all reals", "anchors": [{"file": "volmdlr/curves.py", "symbols": ["CircleMixin.abscissa", "CircleMixin.point_at_abscissa", "CircleMixin.discretization_points"]}, {"file": "volmdlr/geometry.py", "symbols": ["sin_cos_angle"]}]}
{"id": "C107", "title": "Circle3D: construction, membership, reverse, bounding box", "statement": "Circle3D.from_3_points passes through its three points within 2e-6 (outside the nearly aligned case) and raises ZeroDivisionError on equal or aligned points, from_center_normal is the circle with that centre, radius and normal, point_belongs accepts the points of the circle and only points near it, reverse keeps the points and reverses the sense.", "quantifier": "every triple of points, every circle and every point of space", "why_tests_cant": "ranges over all circles and points of space", "anchors": [{"file": "volmdlr/curves.py", "symbols": ["Circle3D.from_3_points", "Circle3D.from_center_normal", "Circle3D.point_belongs", "Circle3D.reverse", "Circle3D._bounding_box"]}]}
{"id": "C108", "title": "Abscissas of a line segment measure distances and round-trip", "statement": "A LineSegment2D or LineSegment3D needs two different ends (ValueError otherwise). point_at_abscissa(0) is the start, point_at_abscissa(length()) the end, point_at_abscissa(length()/2) is middle_point(), and the distance between the points at two abscissas is the difference of the abscissas. abscissa(point_at_abscissa(a)) = a for a in [0, length] up to the end tolerance, and point_at_abscissa(abscissa(p)) = p for points of the segment. discretization_points(number_points=n) returns n equally spaced points from start to end; get_abscissa_discretization returns points of the segment at regular abscissas, pairwise further than 1e-6 apart. Reversing twice gives the segment back.", "quantifier": "all segments of the plane and of space, all abscissas, all points, all numbers of points", "why_tests_cant": "ranges over all real segments and abscissas; unit tests fix a handful of coordinates", "anchors": [{"file": "volmdlr/edges.py", "symbols": ["LineSegment.abscissa", "LineSegment.point_at_abscissa", "LineSegment.middle_point", "Edge.discretization_points", "Edge.local_discretization"]}, {"file": "volmdlr/utils/common_operations.py", "symbols": ["get_abscissa_discretization"]}]}
{"id": "C109", "title": "Splitting and trimming a segment keeps its points", "statement": "point_distance is the least distance from the point to the segment and point_belongs(p, tol) says whether it is at most tol. split(p) of a point of the segment returns two segments that share p, whose lengths add up to the length and whose points are exactly those of the segment (None for a piece shorter than the tolerance). trim(p, q) of two points of the segment more than 1e-4 apart returns the piece that joins them.", "quantifier": "all segments, all points, all tolerances", "why_tests_cant": "the pieces are point sets and the tolerances interact with every length", "anchors": [{"file": "volmdlr/edges.py", "symbols": ["LineSegment.split", "Edge.trim", "LineSegment.point_belongs", "LineSegment2D.point_distance", "LineSegment3D.point_distance"]}]}
{"id": "C110", "title": "Intersections of segments and lines of the plane are exactly the common points", "statement": "linesegment_intersections and line_intersections return at most one point, it lies on both (within 1e-6, or 2e-9 of the length), and a common point is found when the angle of the directions is not within the tolerance of 0; line_crossings leaves out the points at the ends; the bounding rectangle is the least one that contains the segment.", "quantifier": "all pairs of segments, all lines, all tolerances", "why_tests_cant": "completeness quantifies over all common points of all pairs", "anchors": [{"file": "volmdlr/edges.py", "symbols": ["LineSegment2D.line_intersections", "LineSegment2D.linesegment_intersections", "LineSegment2D.line_crossings", "LineSegment2D.point_projection", "LineSegment2D.bounding_rectangle"]}]}
{"id": "C111", "title": "Distance between two segments of the plane, or a segment and a line, is the least distance", "statement": "distance_linesegment returns the minimum over all pairs of points of the two segments and a pair that realises it (within the intersection accuracy), except for segments that cross at an angle within the tolerance of 0; line_distance is the minimum over the segment and the line.", "quantifier": "all pairs of segments of the plane, all lines", "why_tests_cant": "a minimum over infinitely many pairs of points", "anchors": [{"file": "volmdlr/edges.py", "symbols": ["LineSegment2D.distance_linesegment", "LineSegment2D.closest_point_on_segment", "LineSegment2D.line_distance"]}, {"file": "volmdlr/curves.py", "symbols": ["Line2D.closest_point_on_line"]}]}
{"id": "C112", "title": "The shared section of two segments is their common part", "statement": "get_shared_section, when it returns, gives at most one segment, all of whose points are within the tolerance of both; for two segments of one line that overlap (ends equal or further apart than the tolerance) it is exactly the common part, whatever the orientations.", "quantifier": "all pairs of segments of the plane, all tolerances", "why_tests_cant": "the number of relative positions, orientations and tolerances is unbounded and the result is a point set", "anchors": [{"file": "volmdlr/edges.py", "symbols": ["LineSegment.get_shared_section", "Edge.generic_get_shared_section", "Edge._get_shared_section_from_split"]}]}
{"id": "C113", "title": "Segments of space: intersections, distance, box, membership", "statement": "linesegment_intersections of two LineSegment3D returns points within the tolerance of both and finds the common point; the bounding box is the least one that contains the segment; distance_linesegment is never below the least distance (2e-6) and equals it when the common perpendicular meets both segments; to_bspline_curve interpolates the points of the line at the abscissas i/length.", "quantifier": "all pairs of segments of space, all points, all resolutions", "why_tests_cant": "minimum over infinitely many pairs of points, for all positions in space", "anchors": [{"file": "volmdlr/edges.py", "symbols": ["LineSegment3D.linesegment_intersections", "LineSegment3D.distance_linesegment", "LineSegment3D._bounding_box", "LineSegment3D.__contains__", "LineSegment3D.to_bspline_curve"]}]}
{"id": "C114", "title": "Triangles lying in a face of a voxel are found, and only near ones", "statement": "When a mesh triangle lies exactly in the plane of a face of a voxel (all three coordinates along one axis equal to a bound of the voxel), the voxel is reported whenever the triangle meets that face, provided the bounds of the voxel are whole numbers of 1e-9 and no side of the triangle is shorter than what the 9-digit rounding of its equation can hide. The 2D triangle-pixel test behind it reports every non degenerate triangle that meets the pixel under the same condition, and a reported triangle always meets the pixel enlarged by the margin that the rounding allows. A pixel corner is accepted as inside a triangle only if it is in it, and always if it is strictly inside.", "quantifier": "for every triangle, voxel center and half sizes", "why_tests_cant": "the answer depends on continuous coordinates, on the orientation of the triangle and on which of the sides cuts which border; a test suite samples a few positions", "anchors": [{"file": "volmdlr/discrete_representation_compiled.py", "symbols": ["triangle_intersects_voxel", "_triangle_intersects_voxel", "_triangle_2d_intersects_pixel", "_point_in_triangle_2d", "_line_segment_intersects_pixel"]}]}
{"id": "C115", "title": "An arc joins its two points along its circle", "statement": "Arc2D(circle, start, end) goes from start to end in the direction of the circle (from its first axis to its second one); start = end is a full turn. angle is the angle travelled, in ]0, 2 pi], and length is radius times angle. point_at_abscissa(s) is the point reached after a length s: start at 0, end at the length, always on the arc in between, and every point of the arc is reached; middle_point is half way. normal_vector points from the point of the arc to the center. discretization_points gives the requested number of points (or enough for the requested angle resolution), regularly spaced from start to end, all on the arc. reverse gives the same set of points travelled from end to start on the reversed circle; complementary gives the rest of the circle; split_at_point gives two arcs that share the point, cover the arc and whose lengths add up.", "quantifier": "for every circle with an orthonormal frame and positive radius, every pair of points on it whose angle is not in the last 6.3e-9 of the turn, every abscissa and number of points", "why_tests_cant": "angles and abscissas are continuous, and the code has to choose between the two arcs, two orientations and 2 pi wraps; tests take a few arcs", "anchors": [{"file": "volmdlr/edges.py", "symbols": ["ArcMixin", "Arc2D", "Arc2D.point_at_abscissa", "Arc2D.discretization_points", "Arc2D.reverse", "Arc2D.complementary", "Arc2D.split", "Arc2D.middle_point"]}]}
{"id": "C116", "title": "Points of an arc are recognised and located", "statement": "point_belongs(p) accepts every point of the arc; for a point exactly on the circle it accepts exactly the points of the arc and those within the tolerance of an end; in general it accepts exactly the points whose distance to the center is within 0.5 % of the radius and that are seen inside the arc from its center or are within the tolerance of an end, so an accepted point is never further from the arc than the tolerance or 0.6 % of the radius. abscissa(point_at_abscissa(s)) is s away from the ends, and an abscissa is always between 0 and the length. from_3_points rejects three aligned points and otherwise gives an arc from the first to the third that passes through the second.", "quantifier": "for every arc, point and tolerance", "why_tests_cant": "it is a statement on a continuum of points, whichever the orientation of the arc and the quadrant", "anchors": [{"file": "volmdlr/edges.py", "symbols": ["Arc2D.point_belongs", "Arc2D.abscissa", "Arc2D.from_3_points"]}]}
{"id": "C117", "title": "Areas, centers of mass and second moments of arcs", "statement": "area is the area of the sector of the arc and center_of_mass its center of mass; second_moment_area about the center of the circle gives the second moments of the sector in the axes of the circle. straight_line_area is the signed area between the arc and its chord (positive for a trigonometric arc); straight_line_center_of_mass is the center of mass of that region, and straight_line_second_moment_area about the center gives its signed second moments for a circle in the standard axes.", "quantifier": "for every arc, of any angle and orientation", "why_tests_cant": "the values are integrals over regions that depend on continuous angles, with a different formula below and above pi", "anchors": [{"file": "volmdlr/edges.py", "symbols": ["Arc2D.area", "Arc2D.center_of_mass", "Arc2D.second_moment_area", "Arc2D.straight_line_area", "Arc2D.straight_line_center_of_mass", "Arc2D.straight_line_second_moment_area"]}]}
{"id": "C118", "title": "Intersections, distance and transformations of arcs", "statement": "line_intersections of a line clearly secant to the circle gives exactly the points of the line on the arc (or within 1e-6 of an end), and none for a line clearly outside; linesegment_intersections gives only points near the arc and the segment; the intersections of a circle with an arc are the common points of the two circles that belong to the arc. point_distance is the distance of the point to the arc up to the tolerance of point_belongs. Translation and rotation give the moved set of points with the same length and orientation; infinite_primitive gives the concentric arc at the given offset, or None beyond the center. The bounding rectangle touches the arc on its four sides and contains its ends.", "quantifier": "for every arc, line, segment, circle, point, vector, angle and offset in the stated general position", "why_tests_cant": "continuum of positions; the boundary between one, two and no solution is not reachable by sampling", "anchors": [{"file": "volmdlr/edges.py", "symbols": ["Arc2D.line_intersections", "Arc2D.linesegment_intersections", "Arc2D.arc_intersections", "Arc2D.point_distance", "Arc2D.rotation", "Arc2D.translation", "Arc2D.infinite_primitive", "Arc2D.bounding_rectangle"]}, {"file": "volmdlr/curves.py", "symbols": ["Circle2D.linesegment_intersections", "Circle2D.arc_intersections"]}]}
{"id": "C119", "title": "direction_vector is the direction of travel", "statement": "direction_vector(abscissa) is the tangent of the arc at this abscissa, oriented like the motion of point_at_abscissa when the abscissa grows.", "quantifier": "for every arc and abscissa", "why_tests_cant": "derivative of a continuous motion, for both orientations", "anchors": [{"file": "volmdlr/edges.py", "symbols": ["Arc2D.direction_vector", "Arc2D.normal_vector"]}]}
{"id": "C120", "title": "point_belongs of an arc respects its tolerance", "statement": "A point accepted by point_belongs(p, abs_tol) is within abs_tol of the arc.", "quantifier": "for every arc, point and tolerance", "why_tests_cant": "continuum of points", "anchors": [{"file": "volmdlr/edges.py", "symbols": ["Arc2D.point_belongs"]}]}
{"id": "C121", "title": "second_moment_area of an arc about any point", "statement": "second_moment_area(point) gives the second moments of the sector about this point, in the axes of the plane.", "quantifier": "for every arc, whatever its orientation, and every point", "why_tests_cant": "integral over a region depending on continuous parameters", "anchors": [{"file": "volmdlr/edges.py", "symbols": ["Arc2D.second_moment_area"]}]}
{"id": "C122", "title": "The bounding rectangle of an arc contains it, and no crossing is filtered out", "statement": "bounding_rectangle contains every point of the arc; linesegment_intersections finds every common point of the arc and of the segment.", "quantifier": "for every arc and segment", "why_tests_cant": "the extremal point is between the samples used by the code except for particular angles", "anchors": [{"file": "volmdlr/edges.py", "symbols": ["Arc2D.bounding_rectangle", "Arc2D.linesegment_intersections"]}]}
{"id": "C123", "title": "Two arcs, the region of an arc, and its mirror image", "statement": "The points returned by arc_intersections are on both arcs; straight_line_point_belongs decides whether a point is between the arc and its chord; axial_symmetry gives the mirror image of the arc.", "quantifier": "for every pair of arcs, point and line", "why_tests_cant": "continuum of configurations", "anchors": [{"file": "volmdlr/edges.py", "symbols": ["Arc2D.arc_intersections", "Arc2D.straight_line_point_belongs", "Arc2D.axial_symmetry"]}]}
{"id": "C124", "title": "Intersection area/volume within the tolerance", "statement": "Also for boxes closer than the tolerance or nearly included in each other, intersection_area / intersection_volume is exactly the measure of the common part, and is never negative.", "quantifier": "every pair", "why_tests_cant": "continuum; tolerance shortcuts", "anchors": [{"file": "volmdlr/core.py", "symbols": ["BoundingRectangle.intersection_area", "BoundingBox.intersection_volume"]}]}
{"id": "C125", "title": "direction_to_euler_angles gives the direction", "statement": "direction_to_euler_angles returns angles whose matrix has the given direction as first column.", "quantifier": "all angles, all rotation matrices", "why_tests_cant": "continuum and singularities", "anchors": [{"file": "volmdlr/geometry.py", "symbols": ["euler_angles_to_transfer_matrix", "transfer_matrix_to_euler_angles", "direction_to_euler_angles"]}]}
{"id": "C126", "title": "deterministic_unit_normal_vector succeeds on every non-zero vector", "statement": "deterministic_unit_normal_vector of a non-zero vector returns a unit vector orthogonal to it.", "quantifier": "all vectors", "why_tests_cant": "continuum", "anchors": [{"file": "volmdlr/core_compiled.pyx", "symbols": ["Vector3D", "Vector2D"]}]}
{"id": "C127", "title": "Rotations about any axis, and about the coordinate axes", "statement": "Rotation about an axis given by any non-zero vector is an isometry, and x_rotation, y_rotation, z_rotation are the rotations about the coordinate axes.", "quantifier": "all points, axes, angles", "why_tests_cant": "continuum", "anchors": [{"file": "volmdlr/core_compiled.pyx", "symbols": ["Point2D.rotation", "Vector3D.rotation", "Point3D.rotation", "Vector2D.rotation"]}]}
{"id": "C128", "title": "The opposite of a Frame3D is its inverse", "statement": "-frame is the frame whose change of coordinates is the inverse of that of frame.", "quantifier": "all invertible frames and points", "why_tests_cant": "continuum", "anchors": [{"file": "volmdlr/core_compiled.pyx", "symbols": ["Basis3D", "Frame3D", "Frame2D", "Basis2D", "Matrix33", "Matrix22"]}]}
{"id": "C129", "title": "Every invertible matrix is inverted", "statement": "inverse of a matrix of non-zero determinant never raises.", "quantifier": "all matrices", "why_tests_cant": "continuum", "anchors": [{"file": "volmdlr/core_compiled.pyx", "symbols": ["Matrix22", "Matrix33"]}]}
{"id": "C130", "title": "Frame constructors for any vectors", "statement": "from_two_vectors is orthonormal for every pair of non-parallel vectors, also when the first is not of norm 1, and from_point_and_vector is direct also when the vector is opposite to the main axis.", "quantifier": "all points and non-degenerate vectors", "why_tests_cant": "continuum of inputs; special directions (opposite to an axis, non-unit vectors) are measure zero", "anchors": [{"file": "volmdlr/core_compiled.pyx", "symbols": ["Basis3D.from_two_vectors", "Frame3D.from_3_points", "Frame3D.from_point_and_normal", "Frame3D.from_point_and_vector", "Frame3D.from_step", "Basis3D.euler_rotation"]}]}
{"id": "C131", "title": "Closest points of parallel lines", "statement": "get_minimum_distance_points_lines also returns closest points of parallel lines.", "quantifier": "all pairs of non-parallel lines", "why_tests_cant": "continuum", "anchors": [{"file": "volmdlr/core_compiled.pyx", "symbols": ["get_minimum_distance_points_lines"]}]}
{"id": "C132", "title": "Plane.from_normal is right-handed and from_points contains its points", "statement": "from_normal returns a right-handed frame, and from_points returns a plane that contains the first three points.", "quantifier": "every list of points, normal and pair of vectors", "why_tests_cant": "ranges over all configurations, including nearly degenerate ones", "anchors": [{"file": "volmdlr/surfaces.py", "symbols": ["Plane3D.from_3_points", "Plane3D.from_points", "Plane3D.from_normal", "Plane3D.from_plane_vectors"]}]}
{"id": "C133", "title": "Plane/line intersection depends only on the line", "statement": "The intersection of a plane with a line does not depend on which two points describe the line.", "quantifier": "every plane, line, segment and tolerance", "why_tests_cant": "soundness and completeness quantify over all lines and all their points", "anchors": [{"file": "volmdlr/utils/intersections.py", "symbols": ["get_plane_line_intersections", "get_plane_linesegment_intersections"]}]}
{"id": "C134", "title": "Distance between any two lines", "statement": "line_distance is the distance between the two lines, also for parallel lines of the plane and for nearly parallel lines of space, and Line3D.intersection returns a point of both lines however short their directions.", "quantifier": "every pair of lines and every point, in 2D and 3D", "why_tests_cant": "ranges over all pairs of lines, including nearly parallel ones", "anchors": [{"file": "volmdlr/curves.py", "symbols": ["Line2D.point_distance", "Line2D.point_belongs", "Line2D.line_intersections", "Line2D.line_distance", "Line3D.point_distance", "Line3D.point_belongs", "Line3D.line_distance", "Line3D.skew_to", "Line3D.intersection", "Line3D.line_intersections"]}]}
{"id": "C135", "title": "Circle2D.point_symmetric is the central symmetry", "statement": "Circle2D.point_symmetric(p) is the image of the circle by the symmetry of center p.", "quantifier": "every circle, every triple of points and every transformation", "why_tests_cant": "ranges over all circles and points", "anchors": [{"file": "volmdlr/curves.py", "symbols": ["Circle2D.from_3_points", "Circle2D.point_belongs", "Circle2D.point_distance", "Circle2D.get_bounding_rectangle", "Circle2D.point_symmetric", "Circle2D.axial_symmetry", "Circle2D.rotation", "Circle2D.translation", "Circle2D.reverse", "Circle2D.second_moment_area"]}]}
{"id": "C136", "title": "Circle2D.line_intersections of tangent lines", "statement": "The point returned for a tangent line is the point of contact, and line_intersections never raises on a proper line.", "quantifier": "every circle and every line", "why_tests_cant": "ranges over all relative positions of a line and a circle, including tangency", "anchors": [{"file": "volmdlr/curves.py", "symbols": ["Circle2D.line_intersections", "Circle2D._helper_line_intersections"]}]}
{"id": "C137", "title": "Circles of very different sizes", "statement": "The points returned by circle_intersections are on both circles, also for a small circle centred on a big one.", "quantifier": "every pair of circles", "why_tests_cant": "ranges over all pairs of circles, including nearly tangent ones", "anchors": [{"file": "volmdlr/utils/intersections.py", "symbols": ["get_circle_intersections"]}, {"file": "volmdlr/curves.py", "symbols": ["Circle2D.circle_intersections"]}]}
{"id": "C138", "title": "Circle3D.from_3_points exactly, and its bounding box", "statement": "Circle3D.from_3_points passes through its three points whichever their positions, and the bounding box of a Circle3D contains it.", "quantifier": "every triple of points, every circle and every point of space", "why_tests_cant": "ranges over all circles and points of space", "anchors": [{"file": "volmdlr/curves.py", "symbols": ["Circle3D.from_3_points", "Circle3D.from_center_normal", "Circle3D.point_belongs", "Circle3D.reverse", "Circle3D._bounding_box"]}]}
{"id": "C139", "title": "abscissa of a segment rejects points off it", "statement": "LineSegment2D/3D.abscissa raises ValueError for a point that is not on the segment.", "quantifier": "all segments of the plane and of space, all abscissas, all points, all numbers of points", "why_tests_cant": "ranges over all real segments and abscissas; unit tests fix a handful of coordinates", "anchors": [{"file": "volmdlr/edges.py", "symbols": ["LineSegment.abscissa", "LineSegment.point_at_abscissa", "LineSegment.middle_point", "Edge.discretization_points", "Edge.local_discretization"]}, {"file": "volmdlr/utils/common_operations.py", "symbols": ["get_abscissa_discretization"]}]}
{"id": "C140", "title": "split of a point off the segment, trim of close points", "statement": "split refuses a point off the segment, and trim of two points of the segment closer than 1e-4 returns the piece that joins them.", "quantifier": "all segments, all points, all tolerances", "why_tests_cant": "the pieces are point sets and the tolerances interact with every length", "anchors": [{"file": "volmdlr/edges.py", "symbols": ["LineSegment.split", "Edge.trim", "LineSegment.point_belongs", "LineSegment2D.point_distance", "LineSegment3D.point_distance"]}]}
{"id": "C141", "title": "Segments that cross at a small angle", "statement": "linesegment_intersections finds the common point of two segments however small their angle.", "quantifier": "all pairs of segments, all lines, all tolerances", "why_tests_cant": "completeness quantifies over all common points of all pairs", "anchors": [{"file": "volmdlr/edges.py", "symbols": ["LineSegment2D.line_intersections", "LineSegment2D.linesegment_intersections", "LineSegment2D.line_crossings", "LineSegment2D.point_projection", "LineSegment2D.bounding_rectangle"]}]}
{"id": "C142", "title": "Distance of segments that cross at a small angle", "statement": "distance_linesegment of two segments that have a common point is 0.", "quantifier": "all pairs of segments of the plane, all lines", "why_tests_cant": "a minimum over infinitely many pairs of points", "anchors": [{"file": "volmdlr/edges.py", "symbols": ["LineSegment2D.distance_linesegment", "LineSegment2D.closest_point_on_segment", "LineSegment2D.line_distance"]}, {"file": "volmdlr/curves.py", "symbols": ["Line2D.closest_point_on_line"]}]}
{"id": "C143", "title": "get_shared_section never raises", "statement": "get_shared_section of two segments returns (possibly an empty list) and never raises.", "quantifier": "all pairs of segments of the plane, all tolerances", "why_tests_cant": "the number of relative positions, orientations and tolerances is unbounded and the result is a point set", "anchors": [{"file": "volmdlr/edges.py", "symbols": ["LineSegment.get_shared_section", "Edge.generic_get_shared_section", "Edge._get_shared_section_from_split"]}]}
{"id": "C144", "title": "Segments of space: distance, `in`, to_bspline_curve", "statement": "distance_linesegment is the least distance between two LineSegment3D; `point in segment` is membership; to_bspline_curve covers the segment from its start to its end.", "quantifier": "all pairs of segments of space, all points, all resolutions", "why_tests_cant": "minimum over infinitely many pairs of points, for all positions in space", "anchors": [{"file": "volmdlr/edges.py", "symbols": ["LineSegment3D.linesegment_intersections", "LineSegment3D.distance_linesegment", "LineSegment3D._bounding_box", "LineSegment3D.__contains__", "LineSegment3D.to_bspline_curve"]}]}
{"id": "C145", "title": "Mesh2D serialisation round trips", "statement": "dict_to_object(to_dict(m)) has the same vertices and triangles as m, for Mesh2D.", "quantifier": "every mesh", "why_tests_cant": "all sizes", "anchors": [{"file": "volmdlr/display.py", "symbols": ["MeshMixin.to_dict", "MeshMixin.dict_to_object"]}]}
{"id": "C146", "title": "The | operator with an empty mesh", "statement": "m1 | m2 mutualises also when one of the meshes has no triangle.", "quantifier": "every pair of consistent meshes", "why_tests_cant": "arbitrary sizes and duplication patterns; the empty operand is a corner case", "anchors": [{"file": "volmdlr/display.py", "symbols": ["MeshMixin.__or__", "MeshMixin.merge", "MeshMixin.from_meshes"]}]}
{"id": "C147", "title": "segment_intersection returns points of both segments", "statement": "segment_intersection returns a point iff the two segments meet, and it lies on both.", "quantifier": "all pairs of lines / segments", "why_tests_cant": "continuum", "anchors": [{"file": "volmdlr/core_compiled.pyx", "symbols": ["Point2D.line_intersection", "Point2D.segment_intersection"]}]}
{"id": "C148", "title": "Reversing a rational curve", "statement": "get_reverse of a rational curve (with weights) is the same curve travelled backwards.", "quantifier": "every curve whose interior knots have multiplicity at most the degree, rational or not, and every parameter", "why_tests_cant": "continuum of parameters, unbounded degree and number of control points", "anchors": [{"file": "volmdlr/edges.py", "symbols": ["BSplineCurve.get_reverse"]}]}
{"id": "C149", "title": "Knot insertion fewer times than the degree allows, and in Bezier curves", "statement": "insert_knot_curve(num=r) with r < degree - multiplicity, or on a BezierCurve, does not change the curve.", "quantifier": "every curve, knot and parameter", "why_tests_cant": "continuum and unbounded degree", "anchors": [{"file": "volmdlr/nurbs/operations.py", "symbols": ["knot_insertion", "knot_insertion_kv", "knot_insertion_alpha", "insert_knot_curve"]}]}
{"id": "C150", "title": "Knots closer than 1e-15", "statement": "get_knots_and_multiplicities is lossless also when distinct knots differ by less than 1e-15.", "quantifier": "every non-decreasing knot vector", "why_tests_cant": "all lengths", "anchors": [{"file": "volmdlr/nurbs/operations.py", "symbols": ["get_knots_and_multiplicities"]}, {"file": "volmdlr/nurbs/core.pyx", "symbols": ["find_multiplicity"]}]}
{"id": "C151", "title": "insert_knots_and_mutiplicity with an existing knot or past the end", "statement": "insert_knots_and_mutiplicity raises the multiplicity of an existing knot, and appends a knot above all others.", "quantifier": "every knot list and knot", "why_tests_cant": "boundary positions (existing knot, past the end)", "anchors": [{"file": "volmdlr/nurbs/helpers.pyx", "symbols": ["insert_knots_and_mutiplicity"]}]}
{"id": "C152", "title": "Mesh consistency check with negative indices", "statement": "check_consistency rejects a triangle with a negative index.", "quantifier": "every mesh", "why_tests_cant": "ranges over all triangle and vertex arrays", "anchors": [{"file": "volmdlr/display.py", "symbols": ["Mesh.check_consistency"]}]}
{"id": "C153", "title": "STEP strings with unmatched parentheses", "statement": "step_split_arguments_special also splits correctly when a quoted string contains an unmatched parenthesis.", "quantifier": "every list of well-formed arguments", "why_tests_cant": "strings of unbounded nesting", "anchors": [{"file": "volmdlr/utils/step_reader.py", "symbols": ["step_split_arguments_special", "set_to_list"]}]}
{"id": "C154", "title": "clockwise_angle is below 2 pi", "statement": "clockwise_angle lies in [0, 2 pi).", "quantifier": "all pairs of non-zero vectors", "why_tests_cant": "continuum", "anchors": [{"file": "volmdlr/geometry.py", "symbols": ["clockwise_angle"]}]}
{"id": "C155", "title": "Triangle/box test with different extents", "statement": "triangle_intersects_voxel with three different extents returns True whenever the closed triangle and the closed box share a point.", "quantifier": "every triangle, voxel center and extents", "why_tests_cant": "continuum of positions; separating axis argument", "anchors": [{"file": "volmdlr/discrete_representation_compiled.py", "symbols": ["triangle_intersects_voxel", "_triangle_intersects_voxel", "_calculate_axis_values"]}]}
{"id": "C156", "title": "is_intersecting_triangle of boxes that are not cubes", "statement": "BoundingBox.is_intersecting_triangle(t) is True whenever the triangle and the box share a point, for boxes of any shape.", "quantifier": "every box and triangle", "why_tests_cant": "continuum", "anchors": [{"file": "volmdlr/core.py", "symbols": ["BoundingBox.is_intersecting_triangle"]}]}
{"id": "C157", "title": "Pixels of very short segments", "statement": "line_segments_to_pixels also returns the pixels met by segments so short that (|dx|+|dy|)*size < 1e-9.", "quantifier": "every list of segments and pixel size", "why_tests_cant": "continuum of positions", "anchors": [{"file": "volmdlr/discrete_representation_compiled.py", "symbols": ["_line_segments_to_pixels", "_line_segment_intersects_pixel"]}]}
{"id": "C158", "title": "Boolean operators on voxels larger than 1", "statement": "The boolean operators of matrix based voxelizations are set operators also for element sizes above 1.", "quantifier": "every pair of matrices, origins and element sizes", "why_tests_cant": "the relative offsets and shapes range over an infinite set", "anchors": [{"file": "volmdlr/discrete_representation.py", "symbols": ["MatrixBasedVoxelization._logical_operation", "MatrixBasedVoxelization.union", "MatrixBasedVoxelization.difference", "MatrixBasedVoxelization.intersection", "MatrixBasedVoxelization.symmetric_difference", "MatrixBasedPixelization._logical_operation"]}]}
{"id": "C159", "title": "Grid2D.from_properties gives the regular grid", "statement": "from_properties(x_limits, y_limits, (nx, ny), direction) gives nx * ny points: the products of nx regularly spaced abscissas from x_min to x_max and ny ordinates from y_min to y_max; the direction only decides the order (which axis runs along the lists, in which sense). points_xy is (nx, ny) and limits_xy the limits. Any other pair of directions raises KeyError.", "quantifier": "for all limits, numbers of points at least 2 and the 8 directions", "why_tests_cant": "8 orders times any numbers of points and real limits", "anchors": [{"file": "volmdlr/grid.py", "symbols": ["Grid2D.from_properties", "Grid2D.points_xy", "Grid2D.limits_xy", "Grid2D.find_direction_index", "Grid2D.points"]}]}
{"id": "C160", "title": "Grid2D.from_points keeps the points; displacements", "statement": "from_points(points, n) cuts the list in rows of n points (the last one may be shorter) and points gives the list back in order; n = 0 raises ValueError. displacement_compared_to gives, in order, the difference of the points of the two grids, and raises IndexError when the deformed grid has fewer points.", "quantifier": "for every list of points, row length and pair of grids", "why_tests_cant": "any length, divisible or not by the row length", "anchors": [{"file": "volmdlr/grid.py", "symbols": ["Grid2D.from_points", "Grid2D.points", "Grid2D.displacement_compared_to"]}]}
{"id": "C161", "title": "grid_pattern of a square grid", "statement": "For a grid with as many rows as columns, grid_pattern returns exactly the (n-1)^2 quadrilaterals of neighbouring points.", "quantifier": "for every square grid", "why_tests_cant": "any size", "anchors": [{"file": "volmdlr/grid.py", "symbols": ["Grid2D.grid_pattern"]}]}
{"id": "C162", "title": "grid_pattern of any grid", "statement": "grid_pattern returns the (nx-1)(ny-1) quadrilaterals of neighbouring points of a grid of any shape.", "quantifier": "for every rectangular grid", "why_tests_cant": "any numbers of rows and columns; the error is invisible on square grids", "anchors": [{"file": "volmdlr/grid.py", "symbols": ["Grid2D.grid_pattern"]}]}
{"id": "C163", "title": "Binary STL files round trip", "statement": "Loading a file written by save_to_stream gives back the triangles in order with the same single-precision coordinates, except those the Triangle3D constructor refuses; the file has 84 + 50 n bytes; the name comes back in its first 80 bytes padded with zeros; 2^32 triangles or more raise. Every strict prefix of the file is refused with an end-of-file error instead of giving fewer triangles. clean_flat_triangles removes exactly the triangles below the threshold, in order.", "quantifier": "for every list of triangles, name and truncation point", "why_tests_cant": "every number of triangles, every coordinate pattern and every truncation point", "anchors": [{"file": "volmdlr/stl.py", "symbols": ["Stl.save_to_stream", "Stl.save_to_binary_file", "Stl.from_binary_stream", "Stl.clean_flat_triangles"]}]}
{"id": "C164", "title": "Text STL files are read", "statement": "A text STL file whose vertex lines are 'vertex x y z' with any number of spaces before the keyword and between the numbers, and whose other lines do not contain the words vertex and endfacet, gives its facets in order, except those the Triangle3D constructor refuses; a facet that ends with fewer than three vertices raises IndexError.", "quantifier": "for every number of facets, indentation by spaces, spacing and interleaved lines", "why_tests_cant": "unbounded files and layouts", "anchors": [{"file": "volmdlr/stl.py", "symbols": ["Stl.from_text_stream"]}]}
{"id": "C165", "title": "STL names and layouts", "statement": "The name of an STL object survives a save and a load; the layout of a text file (indentation by tabs, spaces at the end of lines) does not matter.", "quantifier": "for every name and layout", "why_tests_cant": "any layout allowed by the format", "anchors": [{"file": "volmdlr/stl.py", "symbols": ["Stl.from_binary_stream", "Stl.from_text_stream"]}]}
{"id": "C166", "title": "Rounding of a polyline corner", "statement": "The arc drawn for a rounded corner starts on the incoming side and ends on the outgoing side, at the distance radius / tan(half angle) of the corner, is tangent to both sides there, has the requested radius, and its middle is the point of its circle nearest to the corner. A point in the middle of a straight line cannot be rounded: the construction fails.", "quantifier": "for every three points not aligned (up to the code's own 1e-6 threshold) and every positive radius", "why_tests_cant": "all angles and radii", "anchors": [{"file": "volmdlr/primitives2d.py", "symbols": ["RoundedLineSegments2D.arc_features"]}, {"file": "volmdlr/edges.py", "symbols": ["Arc2D.from_3_points"]}]}
{"id": "C167", "title": "A rounded polyline is a connected wire on its polyline", "statement": "The primitives of a rounded polyline follow each other within 2e-6, begin at the first point and end at the last one (or close), contain the arcs of the rounded corners in order; when the roundings fit their sides, every segment is a part of a side with the same direction and every arc is tangent with its radius.", "quantifier": "for every polyline, opened or closed, of any length, and every set of rounded corners", "why_tests_cant": "any number of points and any subset of rounded corners", "anchors": [{"file": "volmdlr/primitives.py", "symbols": ["RoundedLineSegments._primitives", "RoundedLineSegments.primitives_from_arcs"]}]}
{"id": "C168", "title": "Overlapping roundings are refused", "statement": "Without adapt_radius the construction raises ValueError when the roundings of two consecutive corners i, i+1 do not fit on the side between them, and a polyline that is built has no such pair.", "quantifier": "for every polyline and radius dictionary", "why_tests_cant": "all polylines and radii", "anchors": [{"file": "volmdlr/primitives.py", "symbols": ["RoundedLineSegments._primitives", "RoundedLineSegments.dof"]}]}
{"id": "C169", "title": "adapt_radius makes consecutive roundings fit", "statement": "With adapt_radius no radius grows, the kept radii are positive, the roundings of consecutive corners do not overlap, and an isolated rounded corner fits its two sides.", "quantifier": "for every polyline, radius dictionary and every answer of the linear programming solver that satisfies its constraints", "why_tests_cant": "groups of any size and any feasible answer of the solver", "anchors": [{"file": "volmdlr/primitives.py", "symbols": ["RoundedLineSegments._primitives"]}]}
{"id": "C170", "title": "Every rounding of a built polyline fits its sides", "statement": "A polyline with a radius too large for one of its sides is refused, or adapted with adapt_radius: for an isolated corner, for the last and the first corner of a closed polyline, and for a rounded corner next to a sharp one.", "quantifier": "for every polyline and radius dictionary", "why_tests_cant": "all polylines and radii", "anchors": [{"file": "volmdlr/primitives.py", "symbols": ["RoundedLineSegments._primitives"]}]}
{"id": "C171", "title": "Offset of a rounded polyline", "statement": "offset moves both ends of every side by the offset towards the left of the side and keeps the number of points; the radius of a left turn decreases by the offset, that of a right turn increases by it, a corner whose radius would not stay positive becomes sharp (without adapt_radius); the roundings of the offset have the centers of the initial ones.", "quantifier": "for every polyline, opened or closed, whose corners are straight or turn by an angle that the code sees, and every offset of any sign", "why_tests_cant": "all polylines and offsets", "anchors": [{"file": "volmdlr/primitives2d.py", "symbols": ["RoundedLineSegments2D.offset", "RoundedLineSegments2D._helper_offset_points_and_radii"]}]}
{"id": "C172", "title": "Knot refinement of a surface in the u direction", "statement": "Refining the knot vector of a surface in u keeps the surface and inserts every requested knot.", "quantifier": "every surface and list of knots", "why_tests_cant": "index arithmetic over all sizes", "anchors": [{"file": "volmdlr/nurbs/operations.py", "symbols": ["flip_ctrlpts_u", "ctrlpts2d_to_ctrlpts", "separate_ctrlpts_weights", "insert_knot_surface", "refine_knot_vector_surface"]}]}
{"id": "C173", "title": "Distance from a box near its border, and inside a rectangle", "statement": "distance_to_point is never negative, and for a point inside a rectangle it is the distance to the nearest side.", "quantifier": "every box, rectangle and point", "why_tests_cant": "continuum", "anchors": [{"file": "volmdlr/core.py", "symbols": ["BoundingBox.distance_to_point", "BoundingRectangle.distance_to_point"]}]}
{"id": "C174", "title": "plane_projection2d gives the coordinates in the plane", "statement": "plane_projection2d are the coordinates of the projected point in the plane (those of to_2d).", "quantifier": "all points and orthonormal plane vectors", "why_tests_cant": "continuum", "anchors": [{"file": "volmdlr/core_compiled.pyx", "symbols": ["Vector3D.plane_projection3d", "Vector3D.plane_projection2d", "Vector3D.to_2d", "Vector2D.to_3d"]}]}
{"id": "C175", "title": "The STEP export writes every primitive once", "statement": "to_step writes no identifier twice, exports every closed shell, every member of a compound, and to_step_face_ids refers only to defined identifiers.", "quantifier": "every volume model made of shells, compounds and (nested) assemblies, any number of faces and edges of every kind", "why_tests_cant": "all model structures, identifiers counted through every writer", "anchors": [{"file": "volmdlr/core.py", "symbols": ["VolumeModel.to_step_stream", "Assembly.to_step", "Assembly.to_step_product", "Compound.to_step"]}, {"file": "volmdlr/shells.py", "symbols": ["Shell3D.to_step", "Shell3D.to_step_product", "Shell3D.to_step_face_ids"]}, {"file": "volmdlr/faces.py", "symbols": ["Face3D.to_step"]}, {"file": "volmdlr/wires.py", "symbols": ["Contour3D.to_step"]}, {"file": "volmdlr/edges.py", "symbols": ["to_step"]}, {"file": "volmdlr/surfaces.py", "symbols": ["to_step"]}, {"file": "volmdlr/utils/step_writer.py", "symbols": ["product_writer", "geometric_context_writer", "assembly_definition_writer"]}]}
{"id": "C176", "title": "Extracted curves of a surface with the same degree and knots in both directions", "statement": "When both directions of the surface have the same degree, knots and number of points, extract_surface_curve_u, extract_surface_curve_v and the borders of extract_curves are the restrictions of the surface.", "quantifier": "every surface whose two directions agree, every parameter strictly inside the domain", "why_tests_cant": "tensor-product algebra; the code uses the other direction's degree and knots, which coincides on symmetric test surfaces", "anchors": [{"file": "volmdlr/nurbs/operations.py", "symbols": ["extract_surface_curve_u"]}, {"file": "volmdlr/nurbs/operations.py", "symbols": ["extract_surface_curve_v"]}]}
{"id": "C177", "title": "Parameters below the apex of a cone and on deep spindle tori", "statement": "point3d_to_2d recovers the parameters on the whole cone and on every torus.", "quantifier": "every cone, torus and pair of parameters", "why_tests_cant": "it ranges over all parameters; the failing cases (cone below the apex, spindle torus) are missed by sampled tests", "anchors": [{"file": "volmdlr/surfaces.py", "symbols": ["CylindricalSurface3D.point3d_to_2d", "ConicalSurface3D.point3d_to_2d", "SphericalSurface3D.point3d_to_2d", "ToroidalSurface3D.point3d_to_2d"]}]}
{"id": "C178", "title": "Projection and distance of a point to a sphere or a cone", "statement": "point_projection returns a point of the sphere or cone and point_distance is the distance of the point to the surface.", "quantifier": "every sphere, cone and every point of space", "why_tests_cant": "minimality quantifies over all the points of the surface", "anchors": [{"file": "volmdlr/surfaces.py", "symbols": ["Surface3D.point_distance", "CylindricalSurface3D.point_projection", "ToroidalSurface3D.point_projection", "SphericalSurface3D.point_projection", "ConicalSurface3D.point_projection"]}]}
{"id": "C179", "title": "point_belongs of a cylinder, and of a cone below its apex", "statement": "point_belongs(p, tol) is True only if a point of the cylinder is within tol of p, and is True for every point of a cone.", "quantifier": "every surface, every point and every tolerance", "why_tests_cant": "both directions quantify over a continuum of points", "anchors": [{"file": "volmdlr/surfaces.py", "symbols": ["Surface3D.point_belongs", "CylindricalSurface3D.point_belongs"]}]}
{"id": "C180", "title": "angle_principal_measure is congruent to the angle", "statement": "angle_principal_measure(angle, min_angle) is congruent to angle modulo 2 pi up to the snapping of 1e-9 to min_angle and min_angle + 2 pi, and lies in [0, 2 pi] when min_angle is 0.", "quantifier": "all angles and min_angle", "why_tests_cant": "continuum", "anchors": [{"file": "volmdlr/geometry.py", "symbols": ["angle_principal_measure"]}]}
{"id": "C181", "title": "Equality of polygons with the same number of points", "statement": "Two ClosedPolygon2D with the same number of points compare equal iff they have the same points.", "quantifier": "all pairs of polygons with the same number of points", "why_tests_cant": "lists of every length", "anchors": [{"file": "volmdlr/wires.py", "symbols": ["ClosedPolygon2D.__eq__"]}]}
{"id": "C182", "title": "Mesh to triangles above the size threshold", "statement": "Mesh3D.to_triangles3d contains exactly the triangles of the mesh whose three sides are longer than 1e-3 (squared length above 1e-6), in order.", "quantifier": "all consistent meshes", "why_tests_cant": "Universally quantified over real-valued inputs and list lengths; tests sample a few shapes.", "anchors": ["volmdlr/display.py:Mesh3D.to_triangles3d,to_closed_shell"]}
{"id": "C183", "title": "The closest points of two segments are on the segments", "statement": "LineSegment3DDistance returns one point on each segment and their distance.", "quantifier": "all pairs of segments", "why_tests_cant": "continuum, universally quantified minimum", "anchors": [{"file": "volmdlr/core_compiled.pyx", "symbols": ["LineSegment3DDistance", "CLineSegment3DDistance"]}]}
{"id": "C184", "title": "A reported voxel is near the bounds and the plane of the triangle", "statement": "When triangle_intersects_voxel returns True the bounding boxes of the triangle and of the voxel meet (up to 1e-9), and on the separating axis branch the plane of the triangle meets the voxel and the nine tests with the code's radius hold.", "quantifier": "every triangle, voxel center and extents", "why_tests_cant": "continuum of positions", "anchors": [{"file": "volmdlr/discrete_representation_compiled.py", "symbols": ["_triangle_intersects_voxel", "_calculate_axis_values"]}]}
{"id": "C185", "title": "is_ordered decides that the edges follow each other", "statement": "is_ordered(tol) of a wire is True exactly when every edge starts within tol of the end of the one before; of a contour exactly when moreover the last edge ends within tol of the start of the first, a single edge is longer than tol and two edges are not the same edge. is_contour_closed decides the closure within 1e-6. Line segments of the plane and of space satisfy all that is asked of edges.", "quantifier": "every list of edges of any length, every kind of edges with ends, length and reverse, every tolerance", "why_tests_cant": "unbounded number of edges, real coordinates", "anchors": [{"file": "volmdlr/wires.py", "symbols": ["WireMixin.is_ordered", "ContourMixin.is_ordered", "ContourMixin.is_contour_closed", "WireMixin.is_followed_by"]}]}
{"id": "C186", "title": "Ordering a wire keeps its edges and joins them", "statement": "When ordering_primitives, order_wire, order_contour or from_wires succeed, the result consists of the edges longer than tol, each once, possibly reversed, and each starts within tol of the end of the one before. It succeeds when the edges are connected and at most two ends meet at each point; when exactly two meet everywhere the ordered contour is closed (is_ordered is True). The only errors are NotImplementedError and, when no edge is longer than tol, IndexError. Ordered wires and contours are left alone.", "quantifier": "every list of edges in any order and direction, every tolerance", "why_tests_cant": "all permutations and reversals of lists of any length", "anchors": [{"file": "volmdlr/wires.py", "symbols": ["WireMixin.ordering_primitives", "WireMixin.order_wire", "WireMixin.from_wires", "ContourMixin.order_contour"]}, {"file": "volmdlr/edges.py", "symbols": ["Edge.is_point_edge_extremity"]}]}
{"id": "C187", "title": "Ordering any contour", "statement": "order_wire and order_contour find an order whenever there is one, and an ordered contour is closed.", "quantifier": "every list of edges", "why_tests_cant": "universally quantified; needs a counterexample", "anchors": [{"file": "volmdlr/wires.py", "symbols": ["WireMixin.ordering_primitives", "ContourMixin.order_contour"]}]}
{"id": "C188", "title": "wires_from_edges splits the edges in maximal wires", "statement": "The wires contain every edge once, possibly reversed; in each wire the edges follow each other within tol; no edge of a later wire touches an end of an earlier one. The edges of a single wire without crossings give one wire.", "quantifier": "every list of edges, every tolerance", "why_tests_cant": "unbounded lists in any order", "anchors": [{"file": "volmdlr/wires.py", "symbols": ["WireMixin.wires_from_edges"]}]}
{"id": "C189", "title": "wires_from_edges leaves its argument alone", "statement": "The list of edges given to wires_from_edges is the same after the call.", "quantifier": "every list of edges", "why_tests_cant": "universally quantified over lists; effect on the caller", "anchors": [{"file": "volmdlr/wires.py", "symbols": ["WireMixin.wires_from_edges"]}]}
{"id": "C190", "title": "Inverting a wire", "statement": "invert twice gives the wire back; the inverted wire has the same edges reversed, the same length, is ordered exactly when the wire is, and starts where the wire ends.", "quantifier": "every list of edges", "why_tests_cant": "unbounded lists", "anchors": [{"file": "volmdlr/wires.py", "symbols": ["WireMixin.inverted_primitives", "WireMixin.invert"]}]}
{"id": "C191", "title": "Abscissas along a wire", "statement": "length is the sum of the lengths; point_at_abscissa(s) is the point at abscissa s minus the length of the edges before, on the edge that contains s; the last end from the length up to 1e-6 beyond, ValueError further. On a wire joined without gaps two points are never further apart than their abscissas, and discretization_points(number_points=n) gives n points at regular abscissas.", "quantifier": "every wire, every abscissa, every number of points from 2", "why_tests_cant": "real abscissas and unbounded lists", "anchors": [{"file": "volmdlr/wires.py", "symbols": ["WireMixin.length", "WireMixin.point_at_abscissa", "WireMixin.discretization_points"]}]}
{"id": "C192", "title": "Abscissas before the start are refused", "statement": "point_at_abscissa raises ValueError for a negative abscissa.", "quantifier": "every wire", "why_tests_cant": "universally quantified; needs a counterexample", "anchors": [{"file": "volmdlr/wires.py", "symbols": ["WireMixin.point_at_abscissa"]}]}
{"id": "C193", "title": "The abscissa of a point of a wire", "statement": "point_over_wire is True exactly for the points within tol of a segment of the wire; abscissa raises ValueError elsewhere, and otherwise is the length of the segments before the first one that has the point plus the abscissa on it. point_at_abscissa leads back to within 1e-6 of the point, and abscissa of point_at_abscissa(s) is within 1e-6 of s when no earlier segment has the point.", "quantifier": "every wire of proper segments of the plane, every point and tolerance", "why_tests_cant": "real coordinates, unbounded lists", "anchors": [{"file": "volmdlr/wires.py", "symbols": ["WireMixin.abscissa", "WireMixin.point_over_wire"]}]}
{"id": "C194", "title": "Edges of a STEP contour are put head to tail", "statement": "When reorder_contour3d_edges_from_step returns edges, they follow each other within 1e-3 and are the given edges, possibly reversed, without some that are the same (in any direction, within 1e-6) as an edge that is kept. A chain of edges some of which are reversed is restored, or returned in the opposite order when that already follows. First edges more than 1e-3 apart give None.", "quantifier": "every list of edges", "why_tests_cant": "all reversals of lists of any length", "anchors": [{"file": "volmdlr/wires.py", "symbols": ["reorder_contour3d_edges_from_step"]}]}
{"id": "C195", "title": "Open STEP contours are refused", "statement": "The edges returned by reorder_contour3d_edges_from_step close: the last one ends at the start of the first one.", "quantifier": "every list of edges", "why_tests_cant": "universally quantified; needs a counterexample", "anchors": [{"file": "volmdlr/wires.py", "symbols": ["reorder_contour3d_edges_from_step"]}]}
{"id": "C196", "title": "Starting a contour at one of its corners", "statement": "reorder_contour_at_point gives the same edges in the same cyclic order from the first one that starts within 1e-6 of the point; an ordered closed contour stays ordered and closed.", "quantifier": "every contour, every point within 1e-6 of the start of an edge", "why_tests_cant": "unbounded lists, real coordinates", "anchors": [{"file": "volmdlr/wires.py", "symbols": ["ContourMixin.reorder_contour_at_point"]}]}
{"id": "C197", "title": "Starting a contour at any of its points", "statement": "reorder_contour_at_point gives a contour with the same edges for every point of the contour.", "quantifier": "every contour and point of it", "why_tests_cant": "universally quantified; needs a counterexample", "anchors": [{"file": "volmdlr/wires.py", "symbols": ["ContourMixin.reorder_contour_at_point"]}]}
{"id": "C198", "title": "Wires and contours through points", "statement": "Wire2D.from_points joins the points in order by segments without gaps and raises ValueError when two consecutive points are equal; Contour2D.from_points of at least three points, consecutive ones (cyclically) more than 1e-6 apart, is an ordered contour with these corners; when the last point is within 1e-6 of the first the closing segment is left out.", "quantifier": "every list of points of any length", "why_tests_cant": "unbounded lists, real coordinates", "anchors": [{"file": "volmdlr/wires.py", "symbols": ["WireMixin.from_points", "ContourMixin.from_points"]}]}
{"id": "C199", "title": "A contour through any distinct points is ordered", "statement": "Contour2D.from_points of distinct points gives an ordered contour.", "quantifier": "every list of at least three distinct points", "why_tests_cant": "universally quantified; needs a counterexample", "anchors": [{"file": "volmdlr/wires.py", "symbols": ["ContourMixin.from_points"]}]}
{"id": "C200", "title": "Triangular finite elements", "statement": "A TriangularElement2D of three points whose signed double area exceeds 1e-12 in absolute value is made; its area is that of the triangle, its three linear elements are the sides with unit normals pointing inside, and its form functions, evaluated at any point, give the weights (barycentric coordinates) of the point up to 1e-16(1+|x|+|y|); other triangles raise FlatElementError.", "quantifier": "every three points of the plane, every point of evaluation", "why_tests_cant": "real coordinates, every position", "anchors": [{"file": "volmdlr/mesh.py", "symbols": ["TriangularElement2D", "LinearElement2D"]}]}
{"id": "C201", "title": "Every non flat triangle is an element", "statement": "TriangularElement2D accepts every triangle of non null area.", "quantifier": "every three points", "why_tests_cant": "universally quantified; needs a counterexample", "anchors": [{"file": "volmdlr/mesh.py", "symbols": ["TriangularElement2D._form_functions"]}]}
{"id": "C202", "title": "Tetrahedral finite elements", "statement": "The volume of a TetrahedralElement is that of the tetrahedron and its form functions, evaluated at a point, are proportional to the weights of the point, with factor six times the signed volume.", "quantifier": "every four points of space and every point of evaluation", "why_tests_cant": "real coordinates", "anchors": [{"file": "volmdlr/mesh.py", "symbols": ["TetrahedralElement"]}]}
{"id": "C203", "title": "Form functions of tetrahedra are one at their node", "statement": "The i-th form function of a TetrahedralElement is 1 at the i-th node.", "quantifier": "every non flat tetrahedron", "why_tests_cant": "universally quantified; needs a counterexample", "anchors": [{"file": "volmdlr/mesh.py", "symbols": ["TetrahedralElement._form_functions"]}]}
{"id": "C204", "title": "Inscribed and circumscribed circles of a triangle", "statement": "For a triangle that is not flat, incircle_radius is the common distance to the three sides of a point inside the triangle, circumcircle_radius the common distance of a point to the three vertices; flat triangles raise ZeroDivisionError for the latter, a triangle reduced to a point for the former.", "quantifier": "every triangle of the plane", "why_tests_cant": "real coordinates", "anchors": [{"file": "volmdlr/wires.py", "symbols": ["Triangle2D.incircle_radius", "Triangle2D.circumcircle_radius"]}]}
{"id": "C205", "title": "Aspect ratio of a triangle", "statement": "aspect_ratio is the circumradius over twice the inradius for a triangle that is not flat and 1000000 for a flat one; it is at least 1, and 1 exactly for equilateral triangles.", "quantifier": "every triangle of the plane", "why_tests_cant": "real coordinates; an inequality over all triangles", "anchors": [{"file": "volmdlr/wires.py", "symbols": ["Triangle2D.aspect_ratio"]}]}
{"id": "C206", "title": "Nodes of a mesh", "statement": "When any two points of the elements are equal or differ by more than the tolerance of the nodes, the nodes of a Mesh are the points of its elements, each once; node_to_index is the position of each, elements_per_node lists exactly the elements that have the node in order, the bounding rectangle is the smallest that contains all points, and point_to_element returns the first element that has the point, None when there is none.", "quantifier": "every list of groups of elements of any size", "why_tests_cant": "unbounded meshes, sets with a tolerant equality", "anchors": [{"file": "volmdlr/mesh.py", "symbols": ["Mesh", "ElementsGroup", "Node2D"]}]}
{"id": "C207", "title": "The nodes of a mesh are pairwise different", "statement": "No two nodes of a Mesh are equal (==).", "quantifier": "every mesh", "why_tests_cant": "universally quantified; needs a counterexample", "anchors": [{"file": "volmdlr/mesh.py", "symbols": ["Node2D.__hash__", "Node2D.__eq__", "Mesh._set_nodes_number"]}]}
{"id": "C208", "title": "Merging the nodes of groups with those of a reference group", "statement": "On a new mesh with separated points, nodes_correction(i, tol) maps a point of another group to a point of group i between 1e-8 and tol from it, and every point that has one; delete_duplicated_nodes(i, tol), when gmsh is set, keeps group i, the number of groups and elements, and replaces exactly these points.", "quantifier": "every mesh, reference and tolerance", "why_tests_cant": "unbounded meshes, real distances", "anchors": [{"file": "volmdlr/mesh.py", "symbols": ["Mesh.nodes_correction", "Mesh.delete_duplicated_nodes"]}]}
{"id": "C209", "title": "Corrections follow the reference", "statement": "nodes_correction(i, tol) gives the corrections for the reference i and tolerance tol, whatever was asked before.", "quantifier": "every mesh and every two calls", "why_tests_cant": "depends on the history of calls", "anchors": [{"file": "volmdlr/mesh.py", "symbols": ["Mesh.nodes_correction"]}]}
{"id": "C210", "title": "delete_duplicated_nodes merges close nodes of any mesh", "statement": "delete_duplicated_nodes works on every mesh and leaves no point of another group that is different from a point of the reference but within tol.", "quantifier": "every mesh", "why_tests_cant": "universally quantified; needs a counterexample", "anchors": [{"file": "volmdlr/mesh.py", "symbols": ["Mesh.delete_duplicated_nodes", "Mesh._helper_create_mesh", "Mesh.gmsh"]}]}
{"id": "C211", "title": "Measures of a 3D triangle", "statement": "Triangle3D.area is half the length of the cross product of two sides, height is the distance of the third vertex to the line of the first two, middle is the mean of the vertices.", "quantifier": "every triple of points", "why_tests_cant": "real-valued inputs", "anchors": [{"file": "volmdlr/faces.py", "symbols": ["Triangle3D.area", "Triangle3D.height", "Triangle3D.middle"]}]}
{"id": "C212", "title": "Normals and displacements of 3D triangles", "statement": "Every triangle with three non aligned vertices can be made and has a unit normal orthogonal to its sides oriented by the right hand rule; aligned vertices raise ZeroDivisionError; translations and rotations about a unit axis keep the area and move the normal accordingly.", "quantifier": "every triple of points, displacement", "why_tests_cant": "real-valued inputs", "anchors": [{"file": "volmdlr/faces.py", "symbols": ["Triangle3D.__init__", "Triangle3D.normal", "Triangle3D.translation", "Triangle3D.rotation", "Triangle3D.surface3d"]}]}
{"id": "C213", "title": "Division of a triangle into small triangles", "statement": "subdescription_to_triangles with a positive resolution ends; the triangles it gives have no side longer than the resolution, cover exactly the triangle and their areas add up to its area; a triangle that is small enough is given back; with a resolution that is not positive the loop does not end.", "quantifier": "every non flat triangle and resolution", "why_tests_cant": "termination and coverage for every real input", "anchors": [{"file": "volmdlr/faces.py", "symbols": ["Triangle3D.subdescription_to_triangles"]}]}
{"id": "C214", "title": "Pieces of a triangle keep its orientation", "statement": "The triangles given by subdescription_to_triangles have the same normal as the triangle.", "quantifier": "every triangle and resolution", "why_tests_cant": "universally quantified; needs a counterexample", "anchors": [{"file": "volmdlr/faces.py", "symbols": ["Triangle3D.subdescription_to_triangles", "Triangle3D.normal"]}]}
{"id": "C215", "title": "Sampling of a triangle", "statement": "subdescription gives points of the triangle, the three vertices among them, such that no point of the triangle is farther than the resolution from one of them.", "quantifier": "every non flat triangle and positive resolution", "why_tests_cant": "every point of a continuous set", "anchors": [{"file": "volmdlr/faces.py", "symbols": ["Triangle3D.subdescription", "Triangle3D.get_subdescription_points"]}]}
{"id": "C216", "title": "Attributes of a triangle", "statement": "A Triangle3D has the alpha, color and name it was made with, and translation, rotation, frame_mapping and copy keep them.", "quantifier": "every triangle and attributes", "why_tests_cant": "universally quantified; needs a counterexample", "anchors": [{"file": "volmdlr/faces.py", "symbols": ["Triangle3D.__init__", "Triangle3D.copy", "Triangle3D.frame_mapping", "Triangle3D.dict_to_object"]}, {"file": "volmdlr/core.py", "symbols": ["Primitive3D.__init__"]}]}
{"id": "C217", "title": "Union of a list of shells", "statement": "When the union of two shells gives one shell exactly when they touch, union_list_of_shells ends, and returns shells no two of which touch, each the union of some of the given ones; every given shell is used exactly once. An empty list raises IndexError.", "quantifier": "every list of shells and every union satisfying the hypothesis", "why_tests_cant": "termination and completeness of a worklist for every pattern of contacts", "anchors": [{"file": "volmdlr/shells.py", "symbols": ["union_list_of_shells"]}]}
{"id": "C218", "title": "union_list_of_shells keeps the list it is given", "statement": "The list of shells given to union_list_of_shells is unchanged afterwards.", "quantifier": "every list of shells", "why_tests_cant": "universally quantified; needs a counterexample", "anchors": [{"file": "volmdlr/shells.py", "symbols": ["union_list_of_shells"]}]}
{"id": "C219", "title": "Shells made from faces", "statement": "Shell3D.from_faces splits the faces that share a vertex with another face into the classes of faces joined by chains of shared vertices, one shell each, every such face in exactly one; a shell is open exactly when it has an edge that lies over no neighbouring face. A face without edges raises KeyError.", "quantifier": "every list of faces, for an equivalence of points", "why_tests_cant": "connectivity of arbitrary graphs", "anchors": [{"file": "volmdlr/shells.py", "symbols": ["Shell3D.from_faces", "Shell3D.is_shell_open", "Shell3D.to_graph"]}]}
{"id": "C220", "title": "Faces that touch no other face", "statement": "from_faces puts every face in a shell, and a shell of a single face with free edges is open.", "quantifier": "every list of faces", "why_tests_cant": "universally quantified; needs a counterexample", "anchors": [{"file": "volmdlr/shells.py", "symbols": ["Shell3D.from_faces", "Shell3D.is_shell_open"]}]}
{"id": "C221", "title": "The graphs of a shell do not depend on earlier calls", "statement": "faces_graph and vertices_graph return the graph of the shell whatever was called before.", "quantifier": "every shell and history of calls", "why_tests_cant": "depends on the history of calls; needs a counterexample", "anchors": [{"file": "volmdlr/shells.py", "symbols": ["Shell3D.faces_graph", "Shell3D.vertices_graph"]}]}
{"id": "C222", "title": "Boolean operations of closed shells, given right geometric tests", "statement": "If is_disjoint_from, is_inside_shell and the cutting of faces are right, union covers the points of either shell, intersection the common points, and subtract_to_closed_shell those of the first and not of the second.", "quantifier": "every two shells, all positions (disjoint, nested, crossing)", "why_tests_cant": "all relative positions of all shells", "anchors": [{"file": "volmdlr/shells.py", "symbols": ["ClosedShell3D.union", "ClosedShell3D.intersection", "ClosedShell3D.subtract_to_closed_shell", "ClosedShell3D.validate_set_operation"]}]}
{"id": "C223", "title": "The difference of two shells", "statement": "subtract leaves no point of the second shell.", "quantifier": "every two shells", "why_tests_cant": "universally quantified; needs a counterexample", "anchors": [{"file": "volmdlr/shells.py", "symbols": ["ClosedShell3D.subtract", "ClosedShell3D.validate_set_operation"]}]}
{"id": "C224", "title": "Faces of the results of boolean operations", "statement": "validate_set_operations_faces returns a sublist of the faces; every face dropped is covered by a kept one and no kept face is covered by an earlier kept one. merge_faces ends and merges the faces class by class of coincident surfaces (classes of at least two faces), keeping the faces alone in their class; faces covered by others are removed.", "quantifier": "every list of faces and coverings", "why_tests_cant": "termination and partition for all lists", "anchors": [{"file": "volmdlr/shells.py", "symbols": ["ClosedShell3D.validate_set_operations_faces", "ClosedShell3D.merge_faces", "ClosedShell3D.get_faces_to_be_merged", "ClosedShell3D.clean_faces"]}]}
{"id": "C225", "title": "No covered face stays", "statement": "validate_set_operations_faces keeps no face covered by another kept face, and clean_faces never fails.", "quantifier": "every list of faces", "why_tests_cant": "universally quantified; needs a counterexample", "anchors": [{"file": "volmdlr/shells.py", "symbols": ["ClosedShell3D.validate_set_operations_faces", "ClosedShell3D.clean_faces"]}]}
{"id": "C226", "title": "Volume of a closed triangle shell", "statement": "For a closed oriented surface the enclosed (signed) volume does not depend on the base point; ClosedShell3D.volume is at least its absolute value, equal to it when the centre of the bounding box sees every triangle from the same side, the product of the sides for boxes, and unchanged by translations. No triangles: ValueError.", "quantifier": "every list of triangles, base points, translations and boxes", "why_tests_cant": "identities over the reals for arbitrary meshes", "anchors": [{"file": "volmdlr/shells.py", "symbols": ["ClosedShell3D.volume", "TriangleShell3D._bounding_box"]}]}
{"id": "C227", "title": "Volume of convex solids", "statement": "The volume of a closed shell is the volume it encloses.", "quantifier": "every closed surface with consistent orientation", "why_tests_cant": "universally quantified; needs a counterexample", "anchors": [{"file": "volmdlr/shells.py", "symbols": ["ClosedShell3D.volume"]}]}
{"id": "C228", "title": "Mesh data of triangle shells", "statement": "to_mesh_data gives every (rounded) point exactly once and the triangles in order as indices; from_mesh_data gives the triangles back, dropping those whose construction divides by zero; an index too large raises IndexError; triangulation gives three vertices per triangle and the same triangles.", "quantifier": "every list of triangles and rounding", "why_tests_cant": "for all meshes and sharing patterns", "anchors": [{"file": "volmdlr/shells.py", "symbols": ["TriangleShell3D.to_mesh_data", "TriangleShell3D.from_mesh_data", "TriangleShell3D.triangulation"]}]}
{"id": "C229", "title": "STEP: list of the entities to instantiate", "statement": "For every STEP file and every list of starting entities, when all the references followed from them are defined the list of nodes contains exactly the entities with a known name that are reached by following references through known entities, each once, the ones without references first; when a followed reference is not defined the listing fails with KeyError.", "quantifier": "all files (entity tables), all lists of starting ids", "why_tests_cant": "reachability over arbitrary reference graphs, cyclic or not", "anchors": [{"file": "volmdlr/step.py", "symbols": ["create_node_list"]}]}
{"id": "C230", "title": "STEP: nodes listed after what they refer to", "statement": "In the list of nodes every entity comes after the entities it refers to, so that each can be made when its turn comes.", "quantifier": "all acyclic files", "why_tests_cant": "depends on how the paths of the reference graph share entities", "anchors": [{"file": "volmdlr/step.py", "symbols": ["create_node_list", "to_volume_model"]}]}
{"id": "C231", "title": "STEP: every entity is made from the objects it refers to", "statement": "Whatever the order of the list of nodes, when every listed entity can be made (its references are defined, acyclic and their constructions succeed), the instantiation loop ends, makes an object for every listed entity, each made from the objects of the entities it refers to, and keeps the objects made before; a construction that fails stops the reading with its error.", "quantifier": "all reference structures, all constructors, all orders of the list, all contents of the object table", "why_tests_cant": "the loop restarts on each missing object: termination and result must hold for every graph and order", "anchors": [{"file": "volmdlr/step.py", "symbols": ["_helper_instantiate", "instantiate", "to_volume_model"]}]}
{"id": "C232", "title": "STEP: undefined and circular references are reported", "statement": "Instantiating an entity that refers to an undefined entity, or to itself through another one, ends with an error.", "quantifier": "all files", "why_tests_cant": "non termination is not observable by a test", "anchors": [{"file": "volmdlr/step.py", "symbols": ["_helper_instantiate"]}]}
{"id": "C233", "title": "STEP: a simple statement is read as written", "statement": "Reading '#id = NAME(args);' gives the entity id, its name, its arguments in order as written (lists of references as lists, the label with its blanks) and, as connections, every reference of its arguments, those of reference lists being repeated; for arguments that are tokens, references, strings without separators, lists and at most one list of lists, with or without a label.", "quantifier": "all ids, names, labels, blanks around the equality sign and argument lists of that grammar, of any length", "why_tests_cant": "the reader is made of regular expressions and string cuts whose interplay depends on every argument", "anchors": [{"file": "volmdlr/step.py", "symbols": ["read_lines", "_helper_intantiate_step_functions"]}, {"file": "volmdlr/utils/step_reader.py", "symbols": ["separate_entity_name_and_arguments", "step_split_arguments", "remove_spaces_outside_quotes", "set_to_list"]}]}
{"id": "C234", "title": "STEP: a complex statement is read as written", "statement": "Reading '#id=(NAME1(args)NAME2(args)...);' gives the names joined by ', ', the arguments of all the parts in order, and as connections the references that are arguments or items of reference lists.", "quantifier": "all ids, lists of parts, arguments of the grammar of C233 (or none)", "why_tests_cant": "parenthesis counting over arbitrary nesting and number of parts", "anchors": [{"file": "volmdlr/step.py", "symbols": ["step_subfunctions", "_helper_intantiate_step_functions"]}]}
{"id": "C235", "title": "STEP: connections of complex statements", "statement": "Every reference in the arguments of a complex statement is one of its connections.", "quantifier": "all complex statements", "why_tests_cant": "holds for flat arguments and fails for lists of lists, as in rational B-spline surfaces", "anchors": [{"file": "volmdlr/step.py", "symbols": ["read_lines", "_helper_intantiate_step_functions"]}]}
{"id": "C236", "title": "STEP: statements over several lines", "statement": "However statements are cut in lines (none but the last ending with a semicolon, with any empty lines), reading gives the entities of the statements that start with '#', in order, ignoring the others and a last unfinished statement; the first statement that cannot be read makes the reading fail with its error.", "quantifier": "all files, all ways to cut statements in lines", "why_tests_cant": "all cuts of all texts", "anchors": [{"file": "volmdlr/step.py", "symbols": ["read_lines"]}]}
{"id": "C237", "title": "STEP: strings are kept", "statement": "A quoted string argument is read with all its characters.", "quantifier": "all statements with strings", "why_tests_cant": "depends on the place of the string among the arguments", "anchors": [{"file": "volmdlr/utils/step_reader.py", "symbols": ["step_split_arguments", "remove_spaces_outside_quotes"]}]}
{"id": "C238", "title": "STEP: strings are not references", "statement": "A '#' inside a string has no effect on the connections of the entity.", "quantifier": "all statements with strings", "why_tests_cant": "all string contents", "anchors": [{"file": "volmdlr/step.py", "symbols": ["read_lines"]}]}
{"id": "C239", "title": "STEP: layout does not matter", "statement": "Statements are read wherever they start on a line.", "quantifier": "all layouts of a file", "why_tests_cant": "all layouts", "anchors": [{"file": "volmdlr/step.py", "symbols": ["read_lines"]}]}
{"id": "C240", "title": "array_range_search: the indexes of an interval", "statement": "array_range_search(x, xmin, xmax) of an ascending sequence gives exactly the indexes of the values between xmin and xmax included, in order; nothing when xmin > xmax or no value is between.", "quantifier": "all ascending sequences, repeated values included, and all bounds", "why_tests_cant": "all sequences and bounds", "anchors": [{"file": "volmdlr/utils/parametric.py", "symbols": ["array_range_search"]}]}
{"id": "C241", "title": "Faces: the grid points of a triangulation", "statement": "The grid points a face is triangulated with are exactly the nodes of its grid that are inside its outer polygon, are not vertices of it and are in no hole, when the first node (the corner of the grid) is not inside the outer polygon.", "quantifier": "all grids, all outer polygons and all sets of holes", "why_tests_cant": "all grids, polygons and holes", "anchors": [{"file": "volmdlr/faces.py", "symbols": ["Face3D._get_face_grid", "PlaneFace3D.grid_points", "CylindricalFace3D.grid_size"]}, {"file": "volmdlr/utils/parametric.py", "symbols": ["update_face_grid_points_with_inner_polygons"]}]}
{"id": "C242", "title": "Faces: every grid point of a hole is removed", "statement": "update_face_grid_points_with_inner_polygons removes every grid point that is in a hole.", "quantifier": "all grids and holes", "why_tests_cant": "all grids and holes", "anchors": [{"file": "volmdlr/utils/parametric.py", "symbols": ["update_face_grid_points_with_inner_polygons"]}]}
{"id": "C243", "title": "Surface2D.triangulation: grid points", "statement": "The grid points used to triangulate a plane surface are nodes of the grid inside its outer contour that are not its vertices, and every such node outside all the inner contours is used.", "quantifier": "all contours, grids and inner contours", "why_tests_cant": "all grids and contours", "anchors": [{"file": "volmdlr/wires.py", "symbols": ["ClosedPolygon2D.grid_triangulation_points"]}, {"file": "volmdlr/surfaces.py", "symbols": ["Surface2D.triangulation"]}]}
{"id": "C244", "title": "Surface2D.triangulation: no grid point in a hole", "statement": "No grid point used to triangulate a plane surface is inside one of its inner contours.", "quantifier": "all contours, grids and inner contours", "why_tests_cant": "all grids and contours", "anchors": [{"file": "volmdlr/surfaces.py", "symbols": ["Surface2D.triangulation"]}]}
{"id": "C245", "title": "ClosedPolygon2D.is_trigo: convex polygons", "statement": "is_trigo is True for a polygon that never turns right (in particular convex, given counterclockwise) and False for one that never turns left, and does not change when the polygon is translated or rotated.", "quantifier": "all polygons without repeated consecutive points that always turn the same way; all polygons and motions", "why_tests_cant": "all numbers of points and coordinates", "anchors": [{"file": "volmdlr/wires.py", "symbols": ["ClosedPolygon2D.is_trigo", "get_line_segments"]}, {"file": "volmdlr/edges.py", "symbols": ["LineSegment.normal_vector"]}]}
{"id": "C246", "title": "ClosedPolygon2D.is_trigo: simple polygons", "statement": "is_trigo of a simple polygon tells whether its points are given counterclockwise (positive signed area), whatever the unit of length.", "quantifier": "all simple polygons and scales", "why_tests_cant": "all polygons", "anchors": [{"file": "volmdlr/wires.py", "symbols": ["ClosedPolygon2D.is_trigo"]}]}
{"id": "C247", "title": "ClosedPolygon2D.is_convex: turns", "statement": "is_convex is True exactly when no corner turns against the direction given by is_trigo; so convex polygons are convex in both directions, and a polygon that turns both ways is not.", "quantifier": "all polygons without repeated consecutive points", "why_tests_cant": "all polygons", "anchors": [{"file": "volmdlr/wires.py", "symbols": ["ClosedPolygon2D.is_convex"]}, {"file": "volmdlr/geometry.py", "symbols": ["clockwise_angle"]}]}
{"id": "C248", "title": "ClosedPolygon2D.is_convex: only convex polygons", "statement": "A polygon is_convex answers True for has all its points on one side of each of its sides.", "quantifier": "all polygons", "why_tests_cant": "all polygons", "anchors": [{"file": "volmdlr/wires.py", "symbols": ["ClosedPolygon2D.is_convex"]}]}
{"id": "C249", "title": "ClosedPolygon2D.self_intersects", "statement": "self_intersects answers False for simple polygons and True, with two sides that cross, for the others.", "quantifier": "all polygons", "why_tests_cant": "all polygons", "anchors": [{"file": "volmdlr/wires.py", "symbols": ["ClosedPolygon2D.self_intersects", "_get_segments", "_segments_intersect"]}]}
{"id": "C250", "title": "angle_discontinuity: steps over the cut at pi", "statement": "For angles in [-pi, pi] whose consecutive steps on the circle are shorter than pi/2.1, angle_discontinuity reports exactly the indexes where the list jumps over the cut at pi, and no passage through zero.", "quantifier": "all lists of angles with small steps", "why_tests_cant": "all lists", "anchors": [{"file": "volmdlr/utils/parametric.py", "symbols": ["angle_discontinuity", "find_sign_changes"]}]}
{"id": "C251", "title": "angle_discontinuity: longer steps", "statement": "angle_discontinuity reports every jump over the cut at pi for consecutive angles less than half a turn apart.", "quantifier": "all lists of angles", "why_tests_cant": "all lists", "anchors": [{"file": "volmdlr/utils/parametric.py", "symbols": ["angle_discontinuity"]}]}
{"id": "C252", "title": "Arcs on cylinders: the angles of the ends", "statement": "The start and end angles of an arc in the parametric domain stay the angles of its start and end points (up to 1e-3 and full turns) after the repairs, and an angle at the cut is put on the side of the reference point, when the reference points are less than a quarter of a turn away; the heights are kept.", "quantifier": "all arcs, reference points and flags", "why_tests_cant": "all angles", "anchors": [{"file": "volmdlr/utils/parametric.py", "symbols": ["repair_start_end_angle_periodicity", "arc3d_to_cylindrical_coordinates_verification"]}]}
{"id": "C253", "title": "Arcs over the cut and circles", "statement": "repair_arc3d_angle_continuity replaces the end angle by the one that goes the other way round the circle; the parametric segment of a full circle on a cylinder spans a full turn in the direction of the normal.", "quantifier": "all angles and periods", "why_tests_cant": "all angles", "anchors": [{"file": "volmdlr/utils/parametric.py", "symbols": ["repair_arc3d_angle_continuity", "fullarc_to_cylindrical_coordinates_verification"]}]}
{"id": "C254", "title": "verify_repeated_parametric_points", "statement": "The result has each point of the list once, at its first place; a list without repetition is returned as it is.", "quantifier": "all lists of points", "why_tests_cant": "all lists", "anchors": [{"file": "volmdlr/utils/parametric.py", "symbols": ["verify_repeated_parametric_points"]}]}
{"id": "C255", "title": "The convex hull polygon goes through all the edges of the hull", "statement": "ClosedPolygon2D.convex_hull_points(points): when the simplices given by scipy are the edges of one ring of points further than 1e-6 from each other, in any order and with their ends in any order, the polygon has the points of that ring, once each, in its cyclic order or the opposite one. When the leftmost point has a neighbour strictly above it and the other strictly below, the polygon turns left there, so a hull comes out counterclockwise.", "quantifier": "all point clouds, all answers of scipy that describe a ring, any number of edges", "why_tests_cant": "all orders and orientations of the simplices", "anchors": [{"file": "volmdlr/wires.py", "symbols": ["ClosedPolygon2D.convex_hull_points"]}]}
{"id": "C256", "title": "The convex hull polygon is counterclockwise and starts at its lowest x", "statement": "The comments of convex_hull_points promise that the first point is the one of the lowest x and that the points are in the trigonometric direction.", "quantifier": "all point clouds", "why_tests_cant": "depends on the place of the neighbours of the leftmost point and on the order of the simplices", "anchors": [{"file": "volmdlr/wires.py", "symbols": ["ClosedPolygon2D.convex_hull_points"]}]}
{"id": "C257", "title": "order_points_list_for_nearest_neighbor", "statement": "The result starts with the first point, each point is a nearest one among those that come after the one before it, and the result has the points of the list except possibly copies of the origin; with no origin after the first point it is a permutation of the list.", "quantifier": "all lists of points", "why_tests_cant": "all lists", "anchors": [{"file": "volmdlr/utils/common_operations.py", "symbols": ["order_points_list_for_nearest_neighbor"]}]}
{"id": "C258", "title": "Ordering points loses none of them", "statement": "order_points_list_for_nearest_neighbor returns all the points it is given.", "quantifier": "all lists of points", "why_tests_cant": "fails only when the remaining points are all the origin", "anchors": [{"file": "volmdlr/utils/common_operations.py", "symbols": ["order_points_list_for_nearest_neighbor"]}]}
{"id": "C259", "title": "separate_points_by_closeness", "statement": "There is one closed ring per label of the clustering: it starts and ends with the first point of that label, it has the points of that label (copies of the origin may be lost), in an order of nearest neighbours.", "quantifier": "all points, all labellings", "why_tests_cant": "all labellings", "anchors": [{"file": "volmdlr/utils/common_operations.py", "symbols": ["separate_points_by_closeness"]}]}
{"id": "C260", "title": "get_center_of_mass", "statement": "The result is the mean of the coordinates; it does not depend on the order of the points, and lies in every box that contains them; no points: ZeroDivisionError.", "quantifier": "all lists of points", "why_tests_cant": "all lists", "anchors": [{"file": "volmdlr/utils/common_operations.py", "symbols": ["get_center_of_mass"]}]}
{"id": "C261", "title": "Axes of the grid of a face", "statement": "An axis of Face3D.grid_points has the number of values asked for, the first is the lower bound of the outer polygon, the last (with two values or more) its upper bound, the steps are equal and every value is between the bounds.", "quantifier": "all bounds, all grid sizes", "why_tests_cant": "all sizes and bounds", "anchors": [{"file": "volmdlr/faces.py", "symbols": ["Face3D._get_grid_axis"]}]}
{"id": "C262", "title": "Intersections of an ellipse and a line", "statement": "The points returned by Ellipse2D.line_intersections are on the line and on the ellipse; when the line meets the ellipse in two points, every common point is within 1e-6 of a returned one; a line further from the centre than the major axis gives none.", "quantifier": "all ellipses with an orthonormal frame (of either orientation), all lines whose direction is exactly that of the minor axis or differs from it by more than the tolerance", "why_tests_cant": "all positions of a line and an ellipse", "anchors": [{"file": "volmdlr/utils/intersections.py", "symbols": ["ellipse2d_line_intersections", "_get_ellipse_line_intersections"]}, {"file": "volmdlr/curves.py", "symbols": ["Ellipse2D.line_intersections"]}]}
{"id": "C263", "title": "Lines that touch an ellipse or pass just outside", "statement": "A line tangent to an ellipse gives its point of contact, and a line that does not meet the ellipse gives an empty list.", "quantifier": "all ellipses and lines", "why_tests_cant": "the contact is one line in a family", "anchors": [{"file": "volmdlr/utils/intersections.py", "symbols": ["ellipse2d_line_intersections"]}]}
{"id": "C264", "title": "Bounding rectangle of an axis aligned ellipse", "statement": "When the axes of an ellipse are parallel to those of the plane, every point of the ellipse is in its bounding rectangle.", "quantifier": "all ellipses, all their points", "why_tests_cant": "all points of a curve", "anchors": [{"file": "volmdlr/curves.py", "symbols": ["Ellipse2D.get_bounding_rectangle"]}]}
{"id": "C265", "title": "Bounding rectangle and box of any ellipse", "statement": "Every point of an Ellipse2D is in its bounding rectangle and every point of an Ellipse3D in its bounding box, whatever the directions of the axes.", "quantifier": "all ellipses, all their points", "why_tests_cant": "all points of a curve, all directions", "anchors": [{"file": "volmdlr/curves.py", "symbols": ["Ellipse2D.get_bounding_rectangle", "Ellipse3D._bounding_box"]}]}
{"id": "C266", "title": "Points over an ellipse", "statement": "Ellipse2D.point_over_ellipse accepts all the points of the ellipse; at an accepted point the left side of the equation of the ellipse differs from 1 by the tolerance and the rounding to three digits at most.", "quantifier": "all ellipses, points, tolerances between 1e-6 and 1", "why_tests_cant": "all points and directions", "anchors": [{"file": "volmdlr/curves.py", "symbols": ["Ellipse2D.point_over_ellipse"]}]}
{"id": "C267", "title": "Discretization of an ellipse", "statement": "discretization_points gives the number of points asked for, on the ellipse, at equal steps of the parameter; the first and the last are the end of the major axis; Ellipse2D points turn anticlockwise.", "quantifier": "all ellipses, numbers of points from 2", "why_tests_cant": "all numbers of points", "anchors": [{"file": "volmdlr/curves.py", "symbols": ["Ellipse2D.discretization_points", "Ellipse3D.discretization_points"]}]}
{"id": "C268", "title": "Reversed ellipses", "statement": "The points of a reversed ellipse are those of the ellipse, walked the other way.", "quantifier": "all ellipses", "why_tests_cant": "all ellipses and numbers of points", "anchors": [{"file": "volmdlr/curves.py", "symbols": ["Ellipse2D.reverse", "Ellipse2D.discretization_points"]}]}
{"id": "C269", "title": "Moved ellipses", "statement": "The point of parameter t of an ellipse that is translated, rotated or mapped to another frame is the moved point of parameter t; the axes keep their lengths and the orientation is kept.", "quantifier": "all ellipses, parameters, moves (in space, rotation centres further than 1e-6 from the centre)", "why_tests_cant": "all points, all moves", "anchors": [{"file": "volmdlr/curves.py", "symbols": ["Ellipse2D.rotation", "Ellipse2D.translation", "Ellipse2D.frame_mapping", "Ellipse3D.rotation", "Ellipse3D.translation"]}]}
{"id": "C270", "title": "Angle of a point of an ellipse", "statement": "point_angle_with_major_dir of the point of parameter t is t, for t in [0, 2 pi) up to the last 1e-9 of the turn; every point of an ellipse has an angle in [0, 2 pi).", "quantifier": "all ellipses and points", "why_tests_cant": "all parameters", "anchors": [{"file": "volmdlr/curves.py", "symbols": ["Ellipse2D.point_angle_with_major_dir"]}]}
{"id": "C271", "title": "Length and area of an ellipse", "statement": "The area of an ellipse is the limit of the areas of the inscribed polygons; its length is between pi (a + b) and 14/11 pi (a + b), is 2 pi r for a circle and does not depend on which axis is called major.", "quantifier": "all axes", "why_tests_cant": "limit over all numbers of sides", "anchors": [{"file": "volmdlr/curves.py", "symbols": ["Ellipse2D.area", "EllipseMixin.length"]}]}
{"id": "C272", "title": "Points that belong to an ellipse of space", "statement": "Ellipse3D.point_belongs accepts the points of the ellipse; the projection on the plane of the ellipse of an accepted point satisfies its equation within the tolerance.", "quantifier": "all ellipses with axes of at least 1e-6, all points", "why_tests_cant": "all points", "anchors": [{"file": "volmdlr/curves.py", "symbols": ["Ellipse3D.point_belongs"]}]}
{"id": "C273", "title": "Points out of the plane of an ellipse", "statement": "Ellipse3D.point_belongs refuses the points that are not near the ellipse.", "quantifier": "all points", "why_tests_cant": "all points", "anchors": [{"file": "volmdlr/curves.py", "symbols": ["Ellipse3D.point_belongs"]}]}
{"id": "C274", "title": "A line meets an upright circle of space where the code says", "statement": "For a Circle3D whose axis is vertical, and a line that lies in the plane of the circle or whose two points are at clearly different heights, line_intersections answers points that are on the line, in the plane and at the distance of the radius up to the tolerance, and every common point is within a thousandth of an answered point.", "quantifier": "all upright circles, all such lines, all tolerances", "why_tests_cant": "the quadratic has a band of tolerance around tangency, and crossing lines are decided by an equality up to 1e-6: no finite set of lines covers both", "anchors": [{"file": "volmdlr/utils/intersections.py", "symbols": ["get_planar_circle3d_line_intersections", "circle_3d_line_intersections"]}, {"file": "volmdlr/curves.py", "symbols": ["Circle3D.line_intersections"]}]}
{"id": "C275", "title": "A line meets an inclined circle of space where the code says", "statement": "For a Circle3D of any other direct frame, line_intersections maps the line in the frame of the circle and answers, up to 1e-16 per coordinate, points that are on the line, in the plane and at the distance of the radius, and every common point is within two thousandths of an answered point.", "quantifier": "all direct frames inclined by more than the tolerance, all lines given by two points whose local coordinates are not tiny", "why_tests_cant": "it depends on the change of frame being exact for every frame, not only for the axes used in tests", "anchors": [{"file": "volmdlr/utils/intersections.py", "symbols": ["get_planar_circle3d_line_intersections", "circle_3d_line_intersections"]}, {"file": "volmdlr/curves.py", "symbols": ["Circle3D.line_intersections"]}]}
{"id": "C276", "title": "Lines parallel to the plane of a circle have no intersections", "statement": "A line that is parallel to the plane of a Circle3D and not in it should give no intersection point.", "quantifier": "all upright circles, all horizontal lines outside the plane", "why_tests_cant": "it fails only for the lines that pass at a distance of at most the radius: a test with a far line passes", "anchors": [{"file": "volmdlr/utils/intersections.py", "symbols": ["get_planar_circle3d_line_intersections", "circle_3d_line_intersections"]}, {"file": "volmdlr/curves.py", "symbols": ["Circle3D.line_intersections"]}]}
{"id": "C277", "title": "A diameter of a circle meets it at two points", "statement": "A line of the plane of a Circle3D through its centre should give the two ends of the diameter.", "quantifier": "all frames, in particular planes inclined by a milliradian", "why_tests_cant": "the test that decides that the plane is horizontal is quadratic in the angle, so only angles between 1e-6 and 1.4e-3 fail", "anchors": [{"file": "volmdlr/utils/intersections.py", "symbols": ["get_planar_circle3d_line_intersections", "circle_3d_line_intersections"]}, {"file": "volmdlr/curves.py", "symbols": ["Circle3D.line_intersections"]}]}
{"id": "C278", "title": "Circle3D.point_distance is the distance to the circle", "statement": "For a point that is not near the axis and a circle that is not tiny, Circle3D.point_distance answers the smallest distance from the point to the points of the circle, up to 1e-8 times the radius.", "quantifier": "all direct frames (upright or inclined by more than the tolerance), all radii and points at least 1e-3 from the axis", "why_tests_cant": "the minimum ranges over all the points of the circle, and the projection is rounded to 12 digits", "anchors": [{"file": "volmdlr/curves.py", "symbols": ["Circle3D.point_distance"]}]}
{"id": "C279", "title": "Circle3D.point_distance answers for every point", "statement": "Circle3D.point_distance should answer a distance for every point and every circle of positive radius.", "quantifier": "all circles and points, in particular the points of the axis and tiny circles", "why_tests_cant": "the failing points are a line of space, which random tests never hit", "anchors": [{"file": "volmdlr/curves.py", "symbols": ["Circle3D.point_distance"]}]}
{"id": "C280", "title": "A line meets an inclined ellipse of space where the code says", "statement": "For an Ellipse3D whose plane is not horizontal, the intersections with a line of its plane are points of the line and of the ellipse up to 1e-16 per coordinate, all the common points of a secant line are found within 1e-5, and for a line across the plane the answer is the common point, when there is one. For a horizontal ellipse there is no point on a horizontal line at another height.", "quantifier": "all direct frames inclined by more than the tolerance, all lines given by two points whose local coordinates are not tiny", "why_tests_cant": "it composes a change of frame, a 2D intersection and the map back, for every frame", "anchors": [{"file": "volmdlr/utils/intersections.py", "symbols": ["conic3d_line_intersections"]}, {"file": "volmdlr/curves.py", "symbols": ["Ellipse3D.line_intersections", "Ellipse3D.to_2d"]}]}
{"id": "C281", "title": "The intersections of an ellipse with a line of its plane are on the ellipse", "statement": "The points that Ellipse3D.line_intersections answers for a line of the plane of the ellipse should be on the ellipse.", "quantifier": "all ellipses, in particular those of horizontal planes whose centre is not the origin", "why_tests_cant": "it fails only for horizontal planes, where the change of frame is skipped", "anchors": [{"file": "volmdlr/utils/intersections.py", "symbols": ["conic3d_line_intersections"]}]}
{"id": "C282", "title": "The corners, edges and faces of a block", "statement": "The vertices of a Block are the eight points center \u00b1 u/2 \u00b1 v/2 \u00b1 w/2, all different when the edges are independent; its edges join exactly the pairs of corners that differ by one sign; its faces are six rectangles whose corners, in order, are the corners of the block on that side, and faces_center gives their centers; each edge is on exactly two sides.", "quantifier": "all blocks whose three edges are not null, orthogonal or not", "why_tests_cant": "it ranges over all frames, slanted ones included", "anchors": [{"file": "volmdlr/primitives3d.py", "symbols": ["Block.vertices", "Block.edges", "Block.shell_faces", "Block.faces_center"]}, {"file": "volmdlr/faces.py", "symbols": ["PlaneFace3D.from_surface_rectangular_cut"]}]}
{"id": "C283", "title": "The volume of a block and the block of a bounding box", "statement": "The volume of a Block with orthogonal edges is that of the parallelepiped on its edges; Block.from_bounding_box of a box of three positive lengths is a block that holds exactly the points of the box and has its bounding box and volume; for a flat box it raises ZeroDivisionError; a block can be built exactly when its three edges are not null.", "quantifier": "all frames with orthogonal edges, all bounding boxes", "why_tests_cant": "it ranges over all boxes, flat ones included", "anchors": [{"file": "volmdlr/primitives3d.py", "symbols": ["Block.volume", "Block.from_bounding_box", "Block.__init__"]}, {"file": "volmdlr/core.py", "symbols": ["BoundingBox.to_frame"]}]}
{"id": "C284", "title": "The volume of a slanted block", "statement": "Block.volume is the volume of the parallelepiped on the three edges ('The frame has not to be orthogonal').", "quantifier": "all blocks", "why_tests_cant": "it fails only for edges that are not orthogonal", "anchors": [{"file": "volmdlr/primitives3d.py", "symbols": ["Block.volume"]}]}
{"id": "C285", "title": "The bounding box of a block parallel to the axes", "statement": "The bounding box of a block whose edges are along X, Y and Z, either way, is the smallest box that holds the block.", "quantifier": "all blocks with u along X, v along Y and w along Z", "why_tests_cant": "it ranges over all lengths and signs", "anchors": [{"file": "volmdlr/primitives3d.py", "symbols": ["Block.get_bounding_box"]}]}
{"id": "C286", "title": "The bounding box of a turned block", "statement": "The bounding box of every Block holds its vertices.", "quantifier": "all blocks", "why_tests_cant": "it fails only for blocks that are not parallel to the axes", "anchors": [{"file": "volmdlr/primitives3d.py", "symbols": ["Block.get_bounding_box"]}]}
{"id": "C287", "title": "The contours of the faces of a block", "statement": "Block.face_contours3d answers the contours of the six faces.", "quantifier": "all blocks", "why_tests_cant": "one call would settle that it fails once; the theorem says it fails for every block", "anchors": [{"file": "volmdlr/primitives3d.py", "symbols": ["Block.face_contours3d"]}]}
{"id": "C288", "title": "The parts of a subdivided block", "statement": "Block.subdivide_block(nx, ny, nz) of a block with edges along X, Y, Z is nx\u00b7ny\u00b7nz blocks whose union is the block, whose interiors are disjoint, that have equal volumes, of sum the volume of the block; a zero number of parts raises ZeroDivisionError.", "quantifier": "all blocks with edges along +X, +Y, +Z, all positive numbers of parts", "why_tests_cant": "it ranges over all numbers of parts and all points of space", "anchors": [{"file": "volmdlr/primitives3d.py", "symbols": ["Block.subdivide_block", "Block.octree", "Block.quadtree"]}]}
{"id": "C289", "title": "The parts of a turned block", "statement": "The parts of subdivide_block fill the block.", "quantifier": "all blocks", "why_tests_cant": "it fails only for turned blocks", "anchors": [{"file": "volmdlr/primitives3d.py", "symbols": ["Block.subdivide_block"]}]}
{"id": "C290", "title": "Moved blocks", "statement": "Translation, rotation about an axis given by a unit vector, and change of frame of a Block move each of its points by the same motion and keep the volume (the change of frame up to 4e-16 per coordinate).", "quantifier": "all blocks, offsets, unit axes, angles, centers that are the origin of the frame or at least 1e-6 from it", "why_tests_cant": "it ranges over all motions", "anchors": [{"file": "volmdlr/primitives3d.py", "symbols": ["Block.translation", "Block.rotation", "Block.frame_mapping"]}]}
{"id": "C291", "title": "The bounding boxes of cylinders, hollow cylinders and cones", "statement": "The bounding box of a Cylinder, a HollowCylinder or a Cone of positive length is the smallest box that holds it; a cylinder of null length raises ZeroDivisionError.", "quantifier": "all orthonormal frames, radii and positive lengths", "why_tests_cant": "minimality over a continuum of points, for every direction of the axis", "anchors": [{"file": "volmdlr/primitives3d.py", "symbols": ["Cylinder.get_bounding_box", "HollowCylinder.get_bounding_box", "Cone.get_bounding_box"]}]}
{"id": "C292", "title": "Points of a cylinder and the common volume of two", "statement": "Cylinder.point_belongs answers True for all points of the cylinder and only for points within 2e-16 of it; the points of the random sampling are within 2e-16 of the cylinder; interference_volume_with_other_cylinder is between 0 and the smaller volume, is 0 when the cylinders are apart, and is the smaller volume when the smaller one is inside the other one; without any draw it raises ZeroDivisionError.", "quantifier": "all pairs of cylinders with orthonormal frames, all points, all samples", "why_tests_cant": "it holds for every random sample", "anchors": [{"file": "volmdlr/primitives3d.py", "symbols": ["Cylinder.point_belongs", "Cylinder.random_point_inside", "Cylinder.lhs_points_inside", "Cylinder.interference_volume_with_other_cylinder"]}]}
{"id": "C293", "title": "Cylinders from their ends, or a center and a unit axis", "statement": "Cylinder.from_end_points of two different points is a cylinder with a direct frame whose two end centers are the points; equal points raise ZeroDivisionError; from_center_point_and_axis with a unit axis has the center, the axis, the radius and the length given, and a direct frame.", "quantifier": "all pairs of different points, all centers, all unit axes", "why_tests_cant": "it ranges over all directions, including the special cases of the normal vector", "anchors": [{"file": "volmdlr/primitives3d.py", "symbols": ["Cylinder.from_end_points", "Cylinder.from_center_point_and_axis"]}]}
{"id": "C294", "title": "Cylinders from a center and any axis", "statement": "from_center_point_and_axis gives a cylinder of the length asked for, whatever the norm of the axis.", "quantifier": "all non-null axes", "why_tests_cant": "it fails only when the axis is not a unit vector", "anchors": [{"file": "volmdlr/primitives3d.py", "symbols": ["Cylinder.from_center_point_and_axis", "Cylinder.get_bounding_box", "Cylinder.point_belongs"]}]}
{"id": "C295", "title": "Points of the skin of a sphere", "statement": "Sphere.skin_points answers points of the sphere, such that every point of the sphere has one within three resolutions (and two millionths of the radius), for every resolution up to the diameter; there is no point beyond.", "quantifier": "all centers, positive radii, positive resolutions", "why_tests_cant": "it bounds the distance from every point of the sphere, at every resolution", "anchors": [{"file": "volmdlr/primitives3d.py", "symbols": ["Sphere.skin_points"]}]}
{"id": "C296", "title": "Points of a ball", "statement": "Sphere.inner_points answers points of the ball, such that every point of the ball has one within 4.1 resolutions (and two millionths of the radius); Sphere.point_belongs answers True exactly for the points of the ball.", "quantifier": "all centers, positive radii, positive resolutions", "why_tests_cant": "it bounds the distance from every point of the ball, at every resolution", "anchors": [{"file": "volmdlr/primitives3d.py", "symbols": ["Sphere.inner_points", "Sphere.point_belongs"]}]}
{"id": "C297", "title": "Points of a hyperbola", "statement": "get_points of a Hyperbola2D or Hyperbola3D answers the number of points asked for, all on the branch of the curve on the side of its first axis (in space up to 1e-16 per coordinate in the frame), evenly spread along the second axis between the bounds; without bounds (or with two null bounds) the default range is used, with only one bound TypeError is raised. On the branch the difference of the distances to the foci is twice the first axis.", "quantifier": "all frames, non-null axes, bounds not both null, numbers of points from 2", "why_tests_cant": "it holds for every point, whatever the frame, the axes and the bounds", "anchors": [{"file": "volmdlr/curves.py", "symbols": ["Hyperbola2D.get_points", "Hyperbola3D.get_points", "HyperbolaMixin.get_x"]}]}
{"id": "C298", "title": "Points that belong to a hyperbola of the plane", "statement": "Hyperbola2D.point_belongs answers True exactly for the points of the branch, up to the tolerance.", "quantifier": "all hyperbolas and points", "why_tests_cant": "a minor axis of 1 hides the error", "anchors": [{"file": "volmdlr/curves.py", "symbols": ["Hyperbola2D.point_belongs"]}]}
{"id": "C299", "title": "Points that belong to a hyperbola or parabola in space", "statement": "Hyperbola3D.point_belongs and Parabola3D.point_belongs answer True for the points of the curve and False away from it.", "quantifier": "all frames, axes, focal lengths, points", "why_tests_cant": "points outside the plane of the curve are not tried", "anchors": [{"file": "volmdlr/curves.py", "symbols": ["Hyperbola3D.point_belongs", "Parabola3D.point_belongs"]}]}
{"id": "C300", "title": "Lines and hyperbolas", "statement": "Hyperbola2D.line_intersections answers exactly the common points of the line and the branch, for the lines that are parallel neither to the second axis nor to an asymptote.", "quantifier": "all orthonormal frames, non-null axes, such lines", "why_tests_cant": "it states that every answered point is common and that no common point is missing, for every line", "anchors": [{"file": "volmdlr/curves.py", "symbols": ["Hyperbola2D.line_intersections"]}]}
{"id": "C301", "title": "Lines parallel to the second axis or to an asymptote", "statement": "Hyperbola2D.line_intersections and Parabola2D.line_intersections answer the common points also for the lines parallel to the second axis of the frame, or to an asymptote.", "quantifier": "all curves and lines", "why_tests_cant": "only particular directions fail", "anchors": [{"file": "volmdlr/curves.py", "symbols": ["Hyperbola2D.line_intersections", "Parabola2D.line_intersections"]}]}
{"id": "C302", "title": "Tangents of a hyperbola", "statement": "The tangent at a point of a Hyperbola3D has the direction of the derivative of the curve, within 1e-12, in every frame; that of a Hyperbola2D exactly, in the standard frame.", "quantifier": "all axes and points, all frames in space", "why_tests_cant": "the direction is compared with the derivative at every point", "anchors": [{"file": "volmdlr/curves.py", "symbols": ["Hyperbola2D.tangent", "Hyperbola2D.get_dx_dy", "Hyperbola3D.tangent"]}]}
{"id": "C303", "title": "Tangents of a hyperbola in any frame of the plane", "statement": "Hyperbola2D.tangent is along the derivative of the curve in every frame.", "quantifier": "all frames", "why_tests_cant": "frames at the origin hide the error", "anchors": [{"file": "volmdlr/curves.py", "symbols": ["Hyperbola2D.tangent"]}]}
{"id": "C304", "title": "Equality of hyperbolas", "statement": "Two hyperbolas are equal exactly when their frames and both axes are.", "quantifier": "all hyperbolas", "why_tests_cant": "it compares all pairs", "anchors": [{"file": "volmdlr/curves.py", "symbols": ["HyperbolaMixin.__eq__"]}]}
{"id": "C305", "title": "Points of a parabola", "statement": "get_points of a Parabola2D or Parabola3D answers the number of points asked for, all on the parabola - as far from the focus as from the directrix - (in space up to 1e-16 per coordinate), evenly spread along the first axis; Parabola2D.point_belongs accepts all its points, and the points it accepts are within the tolerance (absolute, or 1e-9 relative) of one.", "quantifier": "all frames, non-null focal lengths, bounds not both null, numbers of points from 2, points, tolerances", "why_tests_cant": "it holds for every point, whatever the frame and the focal length", "anchors": [{"file": "volmdlr/curves.py", "symbols": ["Parabola2D.get_points", "Parabola2D.point_belongs", "Parabola3D.get_points", "ParabolaMixin.get_y"]}]}
{"id": "C306", "title": "Lines and parabolas", "statement": "Parabola2D.line_intersections answers exactly the common points of the line and the parabola, for the lines not parallel to the axis that cut it, or that miss it by more than the tolerance.", "quantifier": "all orthonormal frames, non-null focal lengths, such lines", "why_tests_cant": "it states that every answered point is common and that no common point is missing, for every line", "anchors": [{"file": "volmdlr/curves.py", "symbols": ["Parabola2D.line_intersections"]}]}
{"id": "C307", "title": "Lines tangent to a parabola", "statement": "Parabola2D.line_intersections answers the point where a tangent line touches the parabola.", "quantifier": "all parabolas and tangent lines", "why_tests_cant": "frames at the origin hide the error", "anchors": [{"file": "volmdlr/curves.py", "symbols": ["Parabola2D.line_intersections"]}]}
{"id": "C308", "title": "Tangents of a parabola", "statement": "The tangent at a point of a parabola has the direction of the derivative of the curve: exactly in the plane, within 1e-12 in space.", "quantifier": "all orthonormal frames, focal lengths, points", "why_tests_cant": "the direction is compared with the derivative at every point", "anchors": [{"file": "volmdlr/curves.py", "symbols": ["Parabola2D.tangent", "Parabola3D.tangent"]}]}
{"id": "C309", "title": "Arcs of a parabola as Bezier curves", "statement": "The Bezier curve of degree 2 that ParabolaMixin.trim builds between two points of a parabola covers exactly the arc between them.", "quantifier": "all orthonormal frames, positive focal lengths, pairs of points whose tangents are not nearly parallel", "why_tests_cant": "it is an equality of two sets of points, for every pair of ends", "anchors": [{"file": "volmdlr/curves.py", "symbols": ["ParabolaMixin.trim", "Parabola2D.tangent"]}]}
{"id": "C310", "title": "Volume of an extruded profile", "statement": "For a frame of orthonormal right-handed axes and a non-negative length, ExtrudedProfile.volume of contours made of segments is the volume enclosed by the prism over the outer contour less those of the prisms over the inner contours.", "quantifier": "all such frames, lengths, polygons", "why_tests_cant": "it holds for every polygon, convex or not, in every frame", "anchors": [{"file": "volmdlr/primitives3d.py", "symbols": ["ExtrudedProfile.volume", "ExtrudedProfile.area"]}]}
{"id": "C311", "title": "Volume of any extruded profile", "statement": "ExtrudedProfile.volume is the volume of the solid, whatever the sign of the extrusion length; profiles whose inner contours are not inside the outer one are refused.", "quantifier": "all lengths and contours", "why_tests_cant": "negative lengths and misplaced contours are not tried", "anchors": [{"file": "volmdlr/primitives3d.py", "symbols": ["ExtrudedProfile.volume", "ExtrudedProfile.__init__"]}]}
{"id": "C312", "title": "Construction of an extruded profile", "statement": "An ExtrudedProfile is refused exactly when an inner contour has a larger area than the outer one; the face extruded from a segment has for corners the ends of the segment and their translations, in this order, up to the rounding to 12 digits.", "quantifier": "all contours, segments of different ends, non-null vectors", "why_tests_cant": "it holds for every segment and direction, also not orthogonal", "anchors": [{"file": "volmdlr/primitives3d.py", "symbols": ["ExtrudedProfile.__init__"]}, {"file": "volmdlr/edges.py", "symbols": ["LineSegment3D.extrusion"]}]}
{"id": "C313", "title": "Volume of a revolved profile", "statement": "RevolvedProfile.volume answers the volume of the solid (Guldin).", "quantifier": "all revolved profiles", "why_tests_cant": "no test calls it", "anchors": [{"file": "volmdlr/primitives3d.py", "symbols": ["RevolvedProfile.volume"]}]}
{"id": "C314", "title": "A primitive is placed from one frame to another", "statement": "Placing a primitive from an initial frame at the origin of space (vectors not in one plane) to a final frame moves it by the map that carries every point drawn in the initial frame to the point of the same coordinates in the final frame; a point drawn in the initial frame arrives within 1e-16 of its place; frames whose vectors are in one plane are refused; equal frames leave the primitive alone.", "quantifier": "all frames and points", "why_tests_cant": "it holds for every pair of frames, also not orthonormal ones", "anchors": [{"file": "volmdlr/core.py", "symbols": ["map_primitive_with_initial_and_final_frames"]}, {"file": "volmdlr/geometry.py", "symbols": ["get_transfer_matrix_from_basis"]}]}
{"id": "C315", "title": "Placing from any initial frame", "statement": "Placing a primitive puts what is drawn in the initial frame at the same place of the final frame, wherever the origin of the initial frame is.", "quantifier": "all frames", "why_tests_cant": "tests place primitives from the standard frame only", "anchors": [{"file": "volmdlr/core.py", "symbols": ["map_primitive_with_initial_and_final_frames"]}]}
{"id": "C316", "title": "The primitives of an assembly", "statement": "The primitives of an Assembly are its components placed one after another at its positions, as many as the shorter of both lists; the components that are points drawn in the frame of the assembly (at the origin) are at the same coordinates in their positions within 1e-16; frame mapping 'old' moves each position, origin and vectors, by the frame, within 1e-16.", "quantifier": "all components, positions and frames", "why_tests_cant": "it holds for every list", "anchors": [{"file": "volmdlr/core.py", "symbols": ["Assembly.__init__", "Assembly.frame_mapping"]}]}
{"id": "C317", "title": "get_shells lists the shells of the whole tree", "statement": "VolumeModel.get_shells answers the primitives that have faces, at any depth of assemblies and compounds, each occurrence once and in the order of a reading of the tree, and nothing else.", "quantifier": "all trees of assemblies and compounds", "why_tests_cant": "trees of any depth", "anchors": [{"file": "volmdlr/core.py", "symbols": ["VolumeModel.get_shells"]}]}
{"id": "C318", "title": "Bounding boxes of models, assemblies and compounds", "statement": "The bounding box of a VolumeModel is the least box with the boxes of its primitives and exists when one of them has a box; that of an Assembly or Compound is the same when a member has a box, and the least box of its points when all members are points, and fails otherwise; asking again gives the same answer, also after the box has been set by the caller.", "quantifier": "all lists of members and series of calls", "why_tests_cant": "lists and histories of any length", "anchors": [{"file": "volmdlr/core.py", "symbols": ["VolumeModel.bounding_box", "Assembly.bounding_box", "Compound.bounding_box"]}]}
{"id": "C319", "title": "Bounding boxes hold everything", "statement": "The bounding box of an Assembly, Compound or VolumeModel contains all its current primitives, points included.", "quantifier": "all lists of members and histories", "why_tests_cant": "tests do not mix points and bodies, nor change a model after asking for its box", "anchors": [{"file": "volmdlr/core.py", "symbols": ["Compound._bounding_box", "VolumeModel.bounding_box"]}]}
{"id": "C320", "title": "Volume and equality of models, moving models", "statement": "The volume of a VolumeModel is the sum of the volumes of its primitives in any order, and fails when one of them fails; two models are equal exactly when they have equal primitives in the same order, and then their hashes are equal; a MovingVolumeModel is accepted exactly when each step has one frame for each primitive, and then the model of a step has each primitive mapped by its frame, in order; a step that is not in the list is refused.", "quantifier": "all lists of primitives and frames", "why_tests_cant": "lists of any length", "anchors": [{"file": "volmdlr/core.py", "symbols": ["VolumeModel.volume", "VolumeModel.__eq__", "VolumeModel.__hash__", "MovingVolumeModel.__init__", "MovingVolumeModel.is_consistent", "MovingVolumeModel.step_volume_model"]}]}
{"id": "C321", "title": "Angles of the ends of an arc on a torus", "statement": "arc3d_to_toroidal_coordinates_verification answers both angles of both ends within 1e-3 on the circle; the angles of the start are in [-pi, pi], as those of the end when no discontinuity is announced, and an announced one makes the angle of the end one turn off, so that the arc goes the other way round; angles that are neither undefined nor at a quarter of a turn do not change; an undefined angle at the cut is put on the side of its neighbour.", "quantifier": "all ends, states, and reference points less than a quarter of a turn away", "why_tests_cant": "it holds for every angle", "anchors": [{"file": "volmdlr/utils/parametric.py", "symbols": ["arc3d_to_toroidal_coordinates_verification", "toroidal_repair_start_end_angle_periodicity"]}]}
{"id": "C322", "title": "Angles of the ends of an arc on a sphere", "statement": "arc3d_to_spherical_coordinates_verification keeps the latitudes of the ends, answers their longitudes within 1e-3 on the circle, puts a start at the cut on the side of its neighbour, and makes the arc go the other way round exactly when a discontinuity is announced and both latitudes are the same within 1e-4.", "quantifier": "all ends and reference points less than a quarter of a turn away", "why_tests_cant": "it holds for every angle", "anchors": [{"file": "volmdlr/utils/parametric.py", "symbols": ["arc3d_to_spherical_coordinates_verification", "spherical_repair_start_end_angle_periodicity"]}]}
