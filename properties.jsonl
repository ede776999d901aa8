{"id": "C01", "title": "DynamicPrecisionIndexVec behaves like Vec<usize>", "statement": "Whatever sequence of push / set / ensure_supported / upgrade calls is applied to a DynamicPrecisionIndexVec (starting empty or from any Vec), len(), get(i) and iter() return exactly what a plain Vec<usize> subjected to the same calls returns; no stored value is ever truncated by the u8 -> u16 -> u32 -> usize storage switching, and a get/set out of range panics exactly when Vec's does.", "quantifier": "all finite operation sequences, all indices, all values below 2^64", "why_tests_cant": "storage-width transitions depend on the whole history of values; tests only visit a few transition orders", "anchors": ["src/dynamic_precision_index_vec.rs: ensure_supported, upgrade_to_*, get, set, push, len, From<&Vec<usize>>", "src/is_index_container.rs: IsIndexContainerIterator"]}
{"id": "C02", "title": "U32IndexVec is exact below 2^32 and silently truncates above", "statement": "For every operation sequence whose values are all below 2^32 U32IndexVec returns what Vec<usize> returns; as soon as a value >= 2^32 is stored it is silently replaced by its remainder modulo 2^32 (no error, no panic).", "quantifier": "all finite operation sequences and all usize values", "why_tests_cant": "needs values beyond 2^32 and arbitrary histories", "anchors": ["src/u32_index_vec.rs: U32IndexVec"]}
{"id": "C03", "title": "Mesh3D editing operations maintain a consistent mesh", "statement": "Starting from an empty Mesh3D, after any sequence of add_vertex / add_face / try_add_connection / change_vertex calls: num_vertices / num_faces / vertex / face_vertex_ids / face_vertices report exactly the vertices and faces added so far in order, every face id below num_faces resolves to three existing, pairwise distinct vertices, and ids handed out stay valid forever.", "quantifier": "all finite sequences of mesh editing calls and all ids", "why_tests_cant": "invariant over unbounded call histories", "anchors": ["src/mesh_3d.rs: add_face, try_add_connection, add_vertex, change_vertex, face_vertex_ids, face_vertices, vertex"]}
{"id": "C04", "title": "Failed mesh edits report the right error and change nothing", "statement": "try_add_connection fails with IncorrectVertexID iff some id is out of range, otherwise with FaceIDsNotUnique iff two ids coincide, otherwise succeeds; change_vertex fails with IncorrectVertexID iff the id is out of range; a failing call leaves every observation of the mesh unchanged.", "quantifier": "all meshes and all id triples", "why_tests_cant": "error precedence and frame condition range over every mesh and triple", "anchors": ["src/mesh_3d.rs: try_add_connection, change_vertex"]}
{"id": "C05", "title": "Half-edge next/prev form 3-cycles inside faces", "statement": "For the half-edge structure of any mesh: edge_next and edge_prev are total on valid edge ids, inverse of each other, applying next three times is the identity, next never leaves the face (edge_face unchanged), edges_of_face(f) lists exactly the edge ids whose edge_face is f, and all queries return None exactly for ids >= num_edges = 3*num_faces.", "quantifier": "all meshes, all edge ids", "why_tests_cant": "universal over meshes and ids", "anchors": ["src/half_edge.rs: next, prev, face, tail", "src/searchable_mesh.rs: edges_of_face, num_edges"]}
{"id": "C06", "title": "Half-edge tail/head agree with the mesh faces", "statement": "For any mesh and any face f with vertex ids (a,b,c): the three edges of f have (tail,head) = (a,b), (b,c), (c,a).", "quantifier": "all meshes, all faces", "why_tests_cant": "universal over meshes", "anchors": ["src/half_edge.rs: HalfEdge::new, tail", "src/searchable_mesh.rs: edge_tail, edge_head"]}
{"id": "C07", "title": "edges_originating_from_vertex is exact", "statement": "For any mesh and vertex v that is at most the largest vertex id used by a face, the query appends exactly the edge ids whose tail is v, each exactly once and in increasing order, keeping what was already in the result vector; for larger ids it fails with IncorrectVertexID and appends nothing (so an isolated trailing vertex that exists in the mesh is rejected).", "quantifier": "all meshes, all vertex ids, all initial result vectors", "why_tests_cant": "universal over meshes; the isolated-trailing-vertex case is easy to miss", "anchors": ["src/half_edge.rs: HalfEdge::new, edges_originating, safe_append_at"]}
{"id": "C08", "title": "edges_ending / edges_of_vertex / faces of vertex are exact", "statement": "Under the same conditions edges_ending_at_vertex appends exactly the edges whose head is v (each once), edges_of_vertex appends exactly the edges whose tail or head is v, and faces appends exactly the faces containing v, once per occurrence of v in the face.", "quantifier": "all meshes, all vertex ids, all cache and result contents", "why_tests_cant": "universal over meshes and caller supplied buffers", "anchors": ["src/half_edge.rs: edges_ending, edges_all, faces"]}
{"id": "C09", "title": "edge_twin identifies the neighbouring face but not the opposite edge", "statement": "edge_twin(e) is Some iff some edge runs from head(e) to tail(e); the returned edge lies in a face containing such an opposite edge, but it is the successor of the opposite edge: it starts at tail(e). Hence, contrary to the documentation, it is never an edge opposite to a non-degenerate e.", "quantifier": "all meshes, all edge ids", "why_tests_cant": "tests in the repository never check the twin's end points", "anchors": ["src/half_edge.rs: HalfEdge::new lines 100-119, twin"]}
{"id": "C10", "title": "BoundingBox::from_iterator is the tightest box", "statement": "For every sequence of fewer than 2^31 points without NaN coordinates BoundingBox2D/3D::from_iterator succeeds iff there are at least two points and the points differ in every coordinate; then min/max are attained by some input point in each coordinate and every input point lies between min and max; it fails with TooFewPoints for fewer than two points and with MinMaxEqual otherwise. Holds for IEEE doubles including infinities and signed zeros.", "quantifier": "all finite point sequences of IEEE doubles (non-NaN)", "why_tests_cant": "unbounded sequences and full double range", "anchors": ["src/bounding_box_2d.rs: from_iterator, from_into_iterator", "src/bounding_box_3d.rs: from_iterator, from_into_iterator"]}
{"id": "C11", "title": "BoundingBox::new accepts exactly strictly ordered corners (for numbers)", "statement": "For non-NaN corners BoundingBox::new succeeds iff min < max in every coordinate, fails with MinMaxEqual iff some coordinate pair is equal and otherwise with MinMaxSwapped; with NaN coordinates it can succeed, producing a box on which size_x() panics.", "quantifier": "all pairs of points over IEEE doubles", "why_tests_cant": "whole double range including NaN, infinities and -0.0", "anchors": ["src/bounding_box_2d.rs: new", "src/bounding_box_3d.rs: new, size_x", "src/positive.rs: Positive::new"]}
{"id": "C12", "title": "Merging bounding boxes computes the least upper bound", "statement": "combine/consume of two boxes with non-NaN coordinates is commutative and associative up to IEEE equality, idempotent, contains both arguments (closed containment) and is contained in every box containing both; consume and combine agree.", "quantifier": "all boxes over IEEE doubles without NaN", "why_tests_cant": "algebraic laws over all triples of boxes", "anchors": ["src/bounding_box_2d.rs: IsMergeable", "src/bounding_box_3d.rs: IsMergeable"]}
{"id": "C13", "title": "Containment predicates of bounding boxes are coherent", "statement": "contains(p) holds iff p lies strictly between min and max in every coordinate; a.is_inside(b) iff b.has_inside(a); is_inside is a strict partial order; a.is_inside(b) and a.contains(p) imply b.contains(p). Holds for IEEE doubles including NaN.", "quantifier": "all boxes and points over IEEE doubles", "why_tests_cant": "universal over boxes and points", "anchors": ["src/bounding_box_2d.rs: contains, is_inside, has_inside", "src/bounding_box_3d.rs: contains, is_inside, has_inside"]}
{"id": "C14", "title": "collides_with means overlapping interiors (exact arithmetic)", "statement": "In exact arithmetic collides_with is symmetric and holds iff the open interiors of the two boxes share a point; boxes that only touch do not collide.", "quantifier": "all pairs of valid boxes over the reals", "why_tests_cant": "universal over boxes", "anchors": ["src/bounding_box_2d.rs: collides_with", "src/bounding_box_3d.rs: collides_with"]}
{"id": "C15", "title": "Distance to a bounding box is the distance to its closest point (exact arithmetic)", "statement": "In exact arithmetic BoundingBox::sqr_distance(point) is the minimum of the squared distances from the point to the points of the closed box (attained), it is zero iff the point is in the closed box; the box-box squared distance is the minimum over pairs of points, is symmetric, and is zero iff the closed boxes intersect.", "quantifier": "all boxes and points over the reals", "why_tests_cant": "universal quantification over a continuum", "anchors": ["src/bounding_box_2d.rs: sqr_distance", "src/bounding_box_3d.rs: sqr_distance, HasDistanceTo"]}
{"id": "C16", "title": "A valid bounding box can become degenerate through move_by / scale in f64", "statement": "In exact arithmetic move_by and scale keep a bounding box valid (move_by translates it; scale keeps the center and multiplies the sizes); with IEEE doubles there are valid boxes and offsets / factors for which the resulting box has min == max so that the `safe` unwraps in size_x / bounding_box panic.", "quantifier": "all boxes, offsets, factors", "why_tests_cant": "rounding corner cases are not sampled by tests", "anchors": ["src/bounding_box_2d.rs: move_by, scale", "src/bounding_box_3d.rs: move_by, scale, size_x, bounding_box"]}
{"id": "C17", "title": "KdTree keeps exactly the input points", "statement": "build succeeds iff the point cloud is non-empty (otherwise TooFewPoints, tree unchanged); afterwards size() equals the number of points and to_pointcloud() is a permutation of the input (duplicates and NaN coordinates included).", "quantifier": "all point lists of IEEE doubles", "why_tests_cant": "arbitrary sizes, duplicates, NaN ordering", "anchors": ["src/kd_tree.rs: build, KdNode::new, size, to_pointcloud"]}
{"id": "C18", "title": "KdTree::in_sphere is sound and complete (exact arithmetic), not with f64 rounding", "statement": "For every non-empty point cloud and sphere, in_sphere appends exactly (as a multiset) the points at distance <= radius from the center, leaving the prior content of the result in front. With IEEE doubles it stays sound (only stored points passing the distance test, none more often than stored), but points passing the test can be missed: of three points at one position some are returned and others not.", "quantifier": "all point clouds, spheres and prior results over the reals", "why_tests_cant": "pruning must be right for every tree shape", "anchors": ["src/kd_tree.rs: in_sphere"]}
{"id": "C19", "title": "KdTree::in_box is sound and complete (exact arithmetic), not with f64 rounding", "statement": "In exact arithmetic in_box appends exactly the points inside the closed box; with IEEE doubles it stays sound, but points satisfying the box test can be missed because the pruning border is rounded differently: of three points at one position some are returned and others not.", "quantifier": "all point clouds and boxes", "why_tests_cant": "rounding corner case; universal over trees", "anchors": ["src/kd_tree.rs: in_box"]}
{"id": "C20", "title": "KdTree::nearest returns a closest point (exact arithmetic)", "statement": "On every built tree nearest(search) is Some(p) with p in the tree and no tree point strictly closer.", "quantifier": "all point clouds and search points over the reals", "why_tests_cant": "pruning correctness for every tree shape", "anchors": ["src/kd_tree.rs: nearest, knearest"]}
{"id": "C21", "title": "KdTree::knearest with n >= 2 may return wrong points", "statement": "A user relies on knearest(search, n) returning the n closest points. It always returns min(n, size) points of the tree (for an empty result vector), but there are trees and search points for which a returned point is farther away than a point that is not returned.", "quantifier": "all point clouds, search points and n", "why_tests_cant": "needs particular tree shapes; the repository has no such test", "anchors": ["src/kd_tree.rs: knearest, sort_and_limit"]}
{"id": "C22", "title": "OcTree never invents points and reports its collected points", "statement": "For every point cloud on which build succeeds, to_pointcloud() returns a part of the input points (each at most as often as given), size() equals the number of points returned, and collect(maxdepth) never returns more than size() points. In exact arithmetic build ends for every cloud with a bounding box, and every point none of whose coordinates lies at a dyadic fraction of the bounding box is kept.", "quantifier": "all point clouds, all depths", "why_tests_cant": "recursive subdivision over arbitrary inputs", "anchors": ["src/oc_tree.rs: build, OcNode::new, calc_sub_min_max, size, collect, to_pointcloud"]}
{"id": "C23", "title": "OcTree loses boundary points", "statement": "A user relies on the tree keeping all points (IsTree3D). Every point kept lies strictly inside the bounding box of the cloud, so every successful build on clouds of non-NaN points loses at least two points: size() + 2 <= number of input points. Building from two opposite corners succeeds and yields size() = 0.", "quantifier": "all point clouds of f64 numbers on which build succeeds", "why_tests_cant": "tests only exercise the API, not the contents", "anchors": ["src/oc_tree.rs: build, OcNode::new"]}
{"id": "C24", "title": "AABBTree::any sees every element", "statement": "For every list of boxed elements (boxes with non-NaN finite coordinates and min <= max) and every predicate f, any(f) is true iff f holds for some element, independent of maxdepth and bucket size, in 2D and 3D, for IEEE doubles.", "quantifier": "all element lists, predicates, maxdepth and bucket sizes", "why_tests_cant": "recursive partition over arbitrary data", "anchors": ["src/aa_bb_tree_2d.rs: new_rec, any", "src/aa_bb_tree_3d.rs: new_rec, any"]}
{"id": "C25", "title": "AABBTree crossing queries are exact as sets", "statement": "bb_crossing_x/y/z_value(v) returns, as a set, exactly the elements whose own bounding box crosses v (IEEE doubles, same conditions); elements straddling a split may be returned more than once.", "quantifier": "all element lists, query values, maxdepth, bucket sizes", "why_tests_cant": "pruning must be right for every tree shape", "anchors": ["src/aa_bb_tree_2d.rs: bb_crossing_*", "src/aa_bb_tree_3d.rs: bb_crossing_*"]}
{"id": "C26", "title": "AABBTree collision queries are exact as sets (exact arithmetic)", "statement": "bb_colliding(bb) returns, and for_each_collision_candidate(bb) visits, as a set exactly the elements whose bounding box shares an interior point with bb; HasColliders3D::any_element_collides_with_bounding answers whether there is one.", "quantifier": "all element lists, query boxes, maxdepth, bucket sizes over the reals", "why_tests_cant": "pruning must be right for every tree shape", "anchors": ["src/aa_bb_tree_2d.rs: bb_colliding, for_each_collision_candidate", "src/aa_bb_tree_3d.rs: bb_colliding, for_each_collision_candidate"]}
{"id": "C27", "title": "AABBTree drops elements when boxes are unbounded", "statement": "With IEEE doubles, if the union of the boxes spans (-inf, +inf) on the first split axis the split center is NaN and all elements disappear: whenever there are at least two elements, more than the bucket size, and maxdepth is at least 1, any(f) is false for every predicate f, in 2D and 3D. BoundingBox::new accepts such boxes.", "quantifier": "all element lists, predicates, bucket sizes and depths meeting these conditions", "why_tests_cant": "infinite extents are not tested", "anchors": ["src/aa_bb_tree_2d.rs: new_rec", "src/bounding_box_2d.rs: center_bb"]}
{"id": "C28", "title": "Filter combinators are the Boolean operations", "statement": "FilterAND, OR, XOR, Negate, OuterInner, All, Any, Allow, Deny accept an element iff the corresponding Boolean combination of the inner filters accepts it; De Morgan's laws hold between them; the same holds for arbitrarily nested combinations; All of no filters accepts everything and Any of no filters accepts nothing.", "quantifier": "all filters and elements", "why_tests_cant": "quantifies over arbitrary inner filters", "anchors": ["src/filter_and.rs", "src/filter_or.rs", "src/filter_xor.rs", "src/filter_negate.rs", "src/filter_outer_inner.rs", "src/filter_all.rs", "src/filter_any.rs", "src/filter_allow.rs", "src/filter_deny.rs"]}
{"id": "C29", "title": "FilterRandomAccessible restricts a view to accepted in-range indices", "statement": "For a non-empty collection, filtering Full gives exactly the indices of accepted elements, filtering Restricted(I) gives exactly the i in I that are in range and accepted; for an empty collection the view becomes Full.", "quantifier": "all collections, filters and views", "why_tests_cant": "universal over collections and index sets", "anchors": ["src/filter_random_accessible.rs: filter"]}
{"id": "C30", "title": "FilterAllRandomAccessible computes the intersection", "statement": "On a non-empty collection the resulting view contains exactly the indices of the initial view accepted by all inner filters, for any order of the filters.", "quantifier": "all collections, filter lists, views", "why_tests_cant": "universal over filter lists", "anchors": ["src/filter_all_random_accessible.rs"]}
{"id": "C31", "title": "FilterAnyRandomAccessible does not filter", "statement": "A user relies on the view being reduced to indices accepted by at least one filter; the implementation unions into the initial view, so a Full view stays Full and a Restricted view never shrinks, whatever the filters.", "quantifier": "all collections, filter lists, views", "why_tests_cant": "repository tests do not cover rejection", "anchors": ["src/filter_any_random_accessible.rs"]}
{"id": "C32", "title": "View::union is set union with Full absorbing", "statement": "union is commutative, associative, idempotent as sets; Full absorbs; an index is selected by the union iff it is selected by one of the views.", "quantifier": "all views", "why_tests_cant": "universal over index sets", "anchors": ["src/view.rs: union"]}
{"id": "C33", "title": "apply_view selects in order or fails without change", "statement": "apply_view(Full) is the identity; apply_view(Restricted(I)) keeps exactly the elements whose index is in I, in order, if all indices are in range, otherwise it returns IndexOutOfBounds and leaves the container unchanged; from_view returns the same selection without modifying the source. For Vec, VecDeque, LinkedList and the point clouds.", "quantifier": "all containers and views", "why_tests_cant": "universal over containers and index sets", "anchors": ["src/impls/vec.rs", "src/impls/vec_deque.rs", "src/impls/linked_list.rs", "src/point_cloud_2d.rs: apply_view, from_view", "src/point_cloud_3d.rs"]}
{"id": "C34", "title": "Geometric filters decide closed regions (exact arithmetic)", "statement": "FilterBox2D/3D accept exactly the points in the closed box |p-c| <= size/2 per axis, FilterCircle/FilterSphere exactly the points at distance <= radius; FilterOutlier3D accepts exactly the points with at least min_neighbours tree points within the search distance.", "quantifier": "all filters and points over the reals", "why_tests_cant": "continuum of points", "anchors": ["src/filter_box_2d.rs", "src/filter_box_3d.rs", "src/filter_circle.rs", "src/filter_sphere.rs", "src/filter_outlier_3d.rs"]}
{"id": "C35", "title": "pack_dupes_indexed is a lossless deduplication", "statement": "For every input sequence the packed data contains no duplicates, lists first occurrences in order, and packed[ids[i]] equals input[i] for every i, with as many ids as inputs.", "quantifier": "all finite sequences over any type with decidable equality, all hash map behaviours", "why_tests_cant": "unbounded sequences, hash iteration order", "anchors": ["src/utils.rs: pack_dupes_indexed"]}
{"id": "C36", "title": "heal_mesh merges vertices and drops degenerate faces", "statement": "For every mesh with in-range indices, the healed mesh has pairwise distinct vertices (the corner positions of all input faces in the order of first appearance), only faces with three distinct vertex ids, and its faces are, in order, the corner positions of exactly the input faces with three distinct corner positions.", "quantifier": "all meshes", "why_tests_cant": "universal over meshes", "anchors": ["src/heal_mesh.rs: heal_mesh"]}
{"id": "C37", "title": "heal_mesh keeps duplicate faces", "statement": "The documentation promises removal of duplicate faces; there is a mesh with two identical faces whose healed version still has both.", "quantifier": "existence of a mesh", "why_tests_cant": "no test covers duplicates", "anchors": ["src/heal_mesh.rs: heal_mesh"]}
{"id": "C38", "title": "Linear subdivision splits every face in four with shared midpoints", "statement": "For every mesh whose faces have distinct in-range vertices, subdivide::linear succeeds, keeps the original vertices at their ids, yields 4*n faces and one new vertex per distinct undirected edge located at its midpoint, and the four faces of each input face are the three corner triangles plus the midpoint triangle with preserved orientation.", "quantifier": "all valid meshes", "why_tests_cant": "universal over meshes", "anchors": ["src/subdivide.rs: linear"]}
{"id": "C39", "title": "unify_faces only flips faces", "statement": "For every mesh the result has the same vertices and the same number of faces and each face is the original one or the original one with two vertex ids swapped.", "quantifier": "all meshes on which the call returns", "why_tests_cant": "universal over meshes; traversal order", "anchors": ["src/unify_faces.rs"]}
{"id": "C40", "title": "Compressed clouds come back within one grid unit, except with 64 bit integers", "statement": "Compressing a cloud and decompressing it keeps the number and order of the points and moves each coordinate down by less than one grid unit (extent / max integer) in exact arithmetic; a cloud without a bounding box gives BoundingBoxMissing, nothing else does; with f64 arithmetic and u8, u16 or u32 it never fails; with u64 it fails for every cloud (of finite extent not below 2^-900), because u64::MAX rounds up to 2^64.", "quantifier": "all clouds and integer widths, over the reals and over all doubles", "why_tests_cant": "continuum of points", "anchors": ["src/compressed_point_3d.rs", "src/compressed_point_cloud_3d.rs"]}
{"id": "C41", "title": "convex_hull_2d is wrong when x coordinates tie", "statement": "A user relies on the hull enclosing all points; for inputs with equal x coordinates an extreme point can be missing from the hull (sorting ignores y for equal x).", "quantifier": "existence of a point list", "why_tests_cant": "tests use generic positions", "anchors": ["src/convex_hull_2d.rs", "src/functions.rs: sort_vec_2d_x"]}
{"id": "C42", "title": "convex_hull_2d is a correct hull for distinct x (exact arithmetic)", "statement": "If all x coordinates differ (and at least two points are given) the hull consists of input points, is a convex polygon in counter-clockwise order, and every input point lies on or inside it.", "quantifier": "all point lists with pairwise distinct x over the reals", "why_tests_cant": "unbounded lists", "anchors": ["src/convex_hull_2d.rs"]}
{"id": "C43", "title": "douglas_peucker keeps end points and only selects input points", "statement": "For every polyline of at least two points and every epsilon for which the call returns, the result starts with the first and ends with the last input point and is a subsequence of the input.", "quantifier": "all polylines and epsilons", "why_tests_cant": "unbounded recursion over arbitrary data", "anchors": ["src/douglas_peucker_2d.rs"]}
{"id": "C44", "title": "Matrix products compose transformations (exact arithmetic)", "statement": "Matrix3/Matrix4 multiplication is associative with the identity neutral; for affine matrices transforming a point by A*B equals transforming by B then A; for matrices with a non-trivial last row this fails because point transformation never divides by w.", "quantifier": "all matrices and points over the reals", "why_tests_cant": "continuum", "anchors": ["src/matrix3.rs", "src/matrix4.rs", "src/point_2d.rs: multiply_m", "src/point_3d.rs: multiply_m"]}
{"id": "C45", "title": "Rotation matrices are isometries (exact arithmetic)", "statement": "rotation (of Matrix3 by an angle, of Matrix4 by angles around x, y and z) and rotation_axis for a unit axis preserve distances; rotation_axis turns counterclockwise around the axis, angles add up and angle 0 gives the identity; rotation is the turn around z, then y, then x; translations and scales act as documented.", "quantifier": "all angles, axes, points over the reals", "why_tests_cant": "continuum", "anchors": ["src/matrix3.rs: rotation", "src/matrix4.rs: rotation*"]}
{"id": "C46", "title": "Matrix pipes apply scale, then rotation, then translation", "statement": "The result of Matrix3Pipe/Matrix4Pipe depends only on the last value set for each component: it is the product of the present components in the documented order, regardless of the order in which they were added or removed.", "quantifier": "all sequences of pipe operations", "why_tests_cant": "operation histories", "anchors": ["src/matrix3_pipe.rs", "src/matrix4_pipe.rs"]}
{"id": "C47", "title": "Norm2D/Norm3D have unit length and keep the direction (exact arithmetic)", "statement": "Norm::new fails with NormalizeVecWithoutLength iff the vector is zero, otherwise the result has length one and is a positive multiple of the input; with IEEE doubles a non-zero vector may be rejected or normalised to the zero vector by under/overflow.", "quantifier": "all vectors", "why_tests_cant": "continuum; overflow corner cases", "anchors": ["src/norm_2d.rs: new", "src/norm_3d.rs: new"]}
{"id": "C48", "title": "Positive and NonNegative: what the types guarantee in f64", "statement": "Positive::new / NonNegative::new accept exactly the values > 0 / >= 0 (NaN rejected); sums of such values keep the guarantee for all IEEE doubles, products of NonNegative keep it unless 0*inf occurs, but products of Positive values can underflow to 0 and quotients can become NaN, and NonNegative accepts -0.0 so that quotients by it can be minus infinity or panic, so the invariant is not preserved by all operations.", "quantifier": "all IEEE doubles", "why_tests_cant": "corner values", "anchors": ["src/positive.rs", "src/non_negative.rs"]}
{"id": "C49", "title": "Sphere reports its y coordinate as z", "statement": "A user relies on Sphere (and FilterSphere) returning the center's z coordinate from z(); it returns y for every sphere, so z() is wrong whenever y != z.", "quantifier": "all spheres", "why_tests_cant": "tests use coincidentally symmetric values", "anchors": ["src/sphere.rs: z", "src/filter_sphere.rs: z"]}
{"id": "C50", "title": "BoxUnaligned3D corners exceed its bounding box", "statement": "A user relies on bounding_box containing the shape used for collision; the SAT corner points span twice the size, so corners lie outside the bounding box.", "quantifier": "existence (in fact every box)", "why_tests_cant": "no test checks containment", "anchors": ["src/box_unaligned_3d.rs"]}
{"id": "C51", "title": "SAT collision test never misses a collision (exact arithmetic)", "statement": "If SATCollider reports no collision for two convex objects given by points and axes, their convex hulls are disjoint; the verdict is symmetric; false positives are possible because edge-edge axes are not tested.", "quantifier": "all objects over the reals", "why_tests_cant": "continuum", "anchors": ["src/sat_collider.rs", "src/is_sat_object.rs"]}
{"id": "C52", "title": "Line / box intersection", "statement": "In exact arithmetic with no zero direction component, intersection(line, box) is Some(p) iff the forward half of the line meets the closed box, and p is then the entry point of the full line (which may lie behind the anchor). For directions along an axis the doubles fail: a ray pointing away from a box it touches only in the plane of a face is reported as a hit with NaN coordinates.", "quantifier": "all lines and boxes over the reals", "why_tests_cant": "continuum", "anchors": ["src/functions.rs: intersection, min64, max64"]}
{"id": "C53", "title": "Point cloud length and center of gravity", "statement": "length() is the sum of consecutive distances, zero for fewer than two points, at least the distance of the end points; center_of_gravity is None iff empty and otherwise the mean (lying in the bounding box), in exact arithmetic.", "quantifier": "all point clouds over the reals", "why_tests_cant": "unbounded lists", "anchors": ["src/point_cloud_2d.rs", "src/point_cloud_3d.rs"]}
{"id": "C54", "title": "Polygon segments form a closed cycle", "statement": "For n >= 1 vertices segment(i) is (v_i, v_{(i+1) mod n}) for i < n and None otherwise; num_segments equals num_vertices; consecutive segments share end points.", "quantifier": "all polygons and indices", "why_tests_cant": "universal over polygons", "anchors": ["src/polygon_2d.rs", "src/polygon_3d.rs"]}
{"id": "C55", "title": "Random insertion disagrees between containers", "statement": "Point clouds accept insertion at any index <= len, Vec and VecDeque reject index == len; when insertion succeeds the result is prefix ++ [x] ++ suffix and on error the container is unchanged.", "quantifier": "all containers, indices, elements", "why_tests_cant": "boundary index", "anchors": ["src/impls/vec.rs: insert", "src/impls/vec_deque.rs: insert", "src/point_cloud_2d.rs: insert", "src/point_cloud_3d.rs: insert"]}
{"id": "C56", "title": "Ordering of points is inconsistent with equality", "statement": "Point2D/Point3D implement Ord by distance to the origin: cmp returns Equal for different points, so Ord is not consistent with Eq; it contradicts the derived partial_cmp, stops being transitive with NaN, and equal points (0.0 and -0.0) hash differently; it is nevertheless a total preorder on points without NaN.", "quantifier": "all points", "why_tests_cant": "BTree users rely on the law for all pairs", "anchors": ["src/point_2d.rs: Ord", "src/point_3d.rs: Ord"]}
{"id": "C57", "title": "fetch_line splits at newlines, trims trailing whitespace, and eats the last byte of an unterminated line", "statement": "Reading a file of newline-terminated lines yields exactly the lines without trailing whitespace, in order; if the final line lacks the newline its last byte is silently dropped.", "quantifier": "all byte strings", "why_tests_cant": "arbitrary file contents", "anchors": ["src/io/utils.rs: fetch_line"]}
{"id": "C58", "title": "save_xy/save_xyz followed by load returns the same points", "statement": "For every non-empty point list, saving with a space, semicolon, comma or tab as coordinate delimiter and newline as position delimiter, then loading, yields the same points in the same order (given that number formatting round-trips and emits no delimiter).", "quantifier": "all point lists, delimiters; number formatting as an oracle with stated laws", "why_tests_cant": "unbounded lists", "anchors": ["src/io/xy.rs: save_xy, load_xy", "src/io/xyz.rs: save_xyz, load_xyz", "src/utils.rs: estimate_delimiter"]}
{"id": "C59", "title": "Dropping the final newline corrupts loaded coordinates", "statement": "Because of the unterminated-line defect there are files that load without error but with a wrong last coordinate (xy/xyz/pts/obj...), e.g. when save is used with a position delimiter only between points.", "quantifier": "existence of a file", "why_tests_cant": "test files all end with a newline", "anchors": ["src/io/utils.rs: fetch_line", "src/io/xyz.rs", "src/io/xy.rs"]}
{"id": "C60", "title": "PLY ASCII save/load round trip", "statement": "Saving any valid mesh with save_ply_ascii (or the colored variant) and loading it with load_ply_mesh into an empty mesh yields the same vertices and faces in the same order.", "quantifier": "all valid meshes; number formatting oracle", "why_tests_cant": "unbounded meshes", "anchors": ["src/io/ply/save.rs: save_ply_ascii, save_ply_ascii_colored", "src/io/ply/load.rs", "src/io/ply/header.rs"]}
{"id": "C61", "title": "PLY binary save/load round trip", "statement": "Saving any valid mesh with fewer than 2^32 vertices with save_ply_binary (P64) and loading it yields the identical mesh bit for bit; with P32 each coordinate is replaced by its f32 rounding.", "quantifier": "all valid meshes", "why_tests_cant": "unbounded meshes, all bit patterns", "anchors": ["src/io/ply/save.rs: save_ply_binary, save_ply_binary_colored", "src/io/ply/iterators_internal.rs"]}
{"id": "C62", "title": "PLY loader permutes coordinates for the yzx and zxy property orders", "statement": "A user relies on the property names x,y,z in the header deciding which column is which; for xyz, xzy, yxz and zyx orders this holds, for yzx and zxy the loaded point is a wrong permutation of the coordinates.", "quantifier": "all header orders and all vertex values", "why_tests_cant": "tests only use xyz order", "anchors": ["src/io/ply/utils.rs: point_with_order", "src/io/ply/types.rs: VertexOrder::try_from"]}
{"id": "C63", "title": "PLY ASCII loader accepts truncated files", "statement": "A user relies on an error when fewer vertices/faces than announced are present; when exactly the last vertex line is missing (and no faces) or any number of face lines is missing the loader returns Ok.", "quantifier": "all truncation points", "why_tests_cant": "truncation points are not tested", "anchors": ["src/io/ply/iterators_internal.rs: PlyAsciiPointsIterator::next, PlyAsciiFacesIterator::next"]}
{"id": "C64", "title": "STL ASCII save/load round trip", "statement": "A mesh saved with save_stl_ascii and loaded with load_stl_mesh_duped yields one face per input face with the same corner positions in the same order; load_stl_mesh_unique yields unique vertices and the same faces. Saving succeeds exactly if the normal of every face can be computed. Users expect every mesh to be saved; it fails: a single face with two corners at the same position, whatever the coordinates, or with corners on a line, makes save_stl_ascii panic instead of writing the mesh or returning an error.", "quantifier": "all valid meshes; number formatting oracle", "why_tests_cant": "unbounded meshes", "anchors": ["src/io/stl.rs: save_stl_ascii, StlAsciiIterator, load_stl_mesh_duped, load_stl_mesh_unique", "src/is_mesh_3d.rs: face_normal"]}
{"id": "C65", "title": "STL ASCII loader accepts truncated files", "statement": "A file cut at any line boundary after the header loads without error and yields the facets that are complete before the cut.", "quantifier": "all files and all line-boundary cuts", "why_tests_cant": "crash points are not tested", "anchors": ["src/io/stl.rs: StlAsciiIterator::next, read_stl_facet"]}
{"id": "C66", "title": "STL binary decoding", "statement": "For every byte string consisting of an 80 byte header not starting with solid, a count n <= 10^9 and at least n 50-byte records the loader yields exactly the n encoded triangles in order; if fewer bytes are present it yields the complete ones and then an AccessFile error; larger counts give InvalidFaceCount.", "quantifier": "all byte strings", "why_tests_cant": "arbitrary file contents", "anchors": ["src/io/stl.rs: StlBinaryIterator, read_stl_triangle"]}
{"id": "C67", "title": "PSL loader returns at most one point", "statement": "A user relies on load_psl returning all points of all lines and passes; for every byte string it pushes at most one point.", "quantifier": "all byte strings", "why_tests_cant": "no test in the repository", "anchors": ["src/io/psl.rs: PslIterator::fetch_counts, next"]}
{"id": "C68", "title": "gcode relative mode is ignored for bare G91 lines", "statement": "A user relies on G91/G90 switching between relative and absolute moves; a line consisting of G91 (as gcode files contain it) has no effect because lines shorter than four bytes are skipped, so later moves are interpreted absolutely.", "quantifier": "all programs; existence of witness", "why_tests_cant": "tests do not use bare mode lines", "anchors": ["src/io/gcode.rs: GcodeIterator::next"]}
{"id": "C69", "title": "gcode loader tracks the tool position", "statement": "For every sequence of G1/G2/G3 moves with optional X/Y/Z words in absolute mode, the emitted points are exactly the successive positions, one per line that mentions at least one axis.", "quantifier": "all programs", "why_tests_cant": "histories", "anchors": ["src/io/gcode.rs: GcodeIterator::next, command"]}
{"id": "C70", "title": "OBJ loader", "statement": "For every file of `v x y z` and `f a b c` lines with 1-based in-range distinct indices load_obj_mesh yields exactly those vertices and faces (texture/normal suffixes after / ignored); a face with an index that is 0, out of range or repeated is reported as InvalidMeshIndices after everything before it was added (in a build without overflow checks).", "quantifier": "all such files", "why_tests_cant": "arbitrary file contents", "anchors": ["src/io/obj.rs"]}
{"id": "C71", "title": "OFF loader", "statement": "For every OFF file with header, counts, vertex lines, and triangle lines with valid indices load_off_mesh yields exactly the listed vertices and faces, ignoring comments and blank lines; a face with another vertex count is reported as FaceVertexCount.", "quantifier": "all such files", "why_tests_cant": "arbitrary file contents", "anchors": ["src/io/off.rs"]}
{"id": "C72", "title": "Endianness of binary readers", "statement": "LittleReader and BigReader decode every fixed-size integer so that decoding the corresponding encoding is the identity, big-endian decoding of reversed bytes equals little-endian decoding, and a short read is an error consuming nothing beyond the input.", "quantifier": "all integers and all byte strings", "why_tests_cant": "all bit patterns", "anchors": ["src/io/byte_reader.rs"]}
{"id": "C73", "title": "PTS loader returns the announced blocks", "statement": "For every concatenation of blocks (count line followed by that many point lines, blank lines anywhere) load_pts yields all points in order.", "quantifier": "all such files", "why_tests_cant": "arbitrary file contents", "anchors": ["src/io/pts.rs"]}
{"id": "C74", "title": "Loaders are prefix-stable: data read before an error is what the file contains", "statement": "For line based loaders, if loading fails at line k, the points pushed before are exactly those encoded by the lines before k, and the reported line number is k.", "quantifier": "all files", "why_tests_cant": "all failure points", "anchors": ["src/io/xyz.rs", "src/io/xy.rs", "src/io/types.rs: LineInfoResult"]}
{"id": "C75", "title": "Out-of-range face ids can alias valid data in release builds", "statement": "A user relies on face_vertex_ids returning None for ids >= num_faces; 3*id is computed in wrapping usize arithmetic in release builds, so for id = 12297829382473034411 every Mesh3D with at least two faces returns Some triple of vertex ids that straddles two faces.", "quantifier": "all meshes with at least two faces", "why_tests_cant": "needs an id near 2^64/3", "anchors": ["src/mesh_3d.rs: face_vertex_ids"]}
{"id": "C76", "title": "BoundingBox::from_iterator counts points in an i32", "statement": "from_iterator counts its input in an i32. With 2^31 or more points an overflow-checked build panics and a release build reports TooFewPoints (up to 2^32-1 points), whatever the coordinates are.", "quantifier": "all point sequences of at least 2^31 points", "why_tests_cant": "no test feeds two billion points", "anchors": ["src/bounding_box_3d.rs: BoundingBox3D::from_iterator", "src/bounding_box_2d.rs: BoundingBox2D::from_iterator"]}
{"id": "C77", "title": "OcTree depth counter is an i8", "statement": "Collecting the points of an OcTree counts levels in an i8. A cloud of four points of which two are closer than 2^-200 of the box makes to_pointcloud panic with overflow checks on, while a release build returns both points. Trees of at most 128 levels never panic and both builds agree.", "quantifier": "all point clouds; a concrete one for the failure", "why_tests_cant": "needs more than 127 levels, i.e. almost coincident points", "anchors": ["src/oc_tree.rs: OcNode::collect, collect_center_or_all"]}
{"id": "C78", "title": "AABBTree3D ray candidates are exact as a set (exact arithmetic)", "statement": "for_each_intersection_candidate(line) visits, as a set, exactly the elements whose closed bounding box is reached by the ray from the line's anchor in its direction, for every direction without a zero component.", "quantifier": "all element lists, rays, maxdepth and bucket sizes over the reals", "why_tests_cant": "pruning must be right for every tree shape and ray", "anchors": ["src/aa_bb_tree_3d.rs: for_each_intersection_candidate", "src/functions.rs: intersection"]}
{"id": "C79", "title": "AABBTree collision queries miss collisions in doubles", "statement": "A user relies on bb_colliding finding every element whose own box collides with the query. With IEEE doubles the test of the enclosing node rounds differently, so there are finite boxes where an element collides with the query yet bb_colliding does not return it, for every maxdepth and bucket size.", "quantifier": "concrete boxes, all maxdepth and bucket sizes", "why_tests_cant": "needs extents above 2^53 times the size of the query", "anchors": ["src/aa_bb_tree_3d.rs: bb_colliding", "src/bounding_box_3d.rs: collides_with"]}
{"id": "C80", "title": "Filtering a collection and applying the view equals filtering the list", "statement": "For every container (Vec, VecDeque, LinkedList, PointCloud2D/3D), including the empty one, applying the view obtained by FilterRandomAccessible from a Full view keeps exactly the accepted elements in order; with FilterAllRandomAccessible exactly the elements accepted by all filters. It never fails.", "quantifier": "all containers, filters and lists of filters", "why_tests_cant": "composition of two components over arbitrary data", "anchors": ["src/filter_random_accessible.rs: filter", "src/filter_all_random_accessible.rs: filter", "src/impls/vec.rs: apply_view", "src/point_cloud_3d.rs: apply_view"]}
{"id": "C81", "title": "A box filter made from a bounding box can reject a corner of it", "statement": "A user relies on FilterBox3D::from(bounding_box) accepting what lies in the bounding box. It stores center and sizes, and with IEEE doubles center + size/2 can be smaller than max, so there is a bounding box whose own maximum corner is rejected (in exact arithmetic the filter accepts exactly the closed box).", "quantifier": "a concrete bounding box; all boxes for the exact arithmetic statement", "why_tests_cant": "rounding needs large coordinate ranges", "anchors": ["src/filter_box_3d.rs: From<BoundingBox3D>, is_allowed"]}
{"id": "C82", "title": "unify_faces makes every face agree with a neighbour", "statement": "With exact arithmetic, for every mesh with valid faces the call returns, and the faces can be ordered so that each one either starts a new connected component and keeps its orientation or shares a vertex with an earlier face and does not face away from it.", "quantifier": "all valid meshes over the reals", "why_tests_cant": "the propagation order is a graph traversal over arbitrary meshes", "anchors": ["src/unify_faces.rs: unify_faces, vertex_to_face, collect_neighbour_faces", "src/functions.rs: normal_of_face"]}
{"id": "C83", "title": "unify_faces orients a flat connected mesh consistently", "statement": "With exact arithmetic, if all vertices lie in one plane, no face is degenerate and all faces are linked through shared vertices, then after unify_faces any two faces face the same side.", "quantifier": "all flat connected non-degenerate meshes over the reals", "why_tests_cant": "any number of faces in any topology and initial orientation", "anchors": ["src/unify_faces.rs: unify_faces"]}
{"id": "C84", "title": "set_size gives the bounding box the requested size", "statement": "With exact arithmetic, for every point set with a bounding box, set_size(sx, sy, sz) returns the same number of points and their bounding box has exactly the sizes sx, sy, sz; a point set without bounding box (fewer than two points or flat in a coordinate) is left unchanged.", "quantifier": "all point sets of fewer than 2^31 points and all positive sizes over the reals", "why_tests_cant": "arbitrary point sets and ratios", "anchors": ["src/functions.rs: set_size", "src/matrix4.rs: scale"]}
{"id": "C85", "title": "center moves the middle of the bounding box to the origin", "statement": "With exact arithmetic, for every point set with a bounding box, center translates all points by one vector; the resulting bounding box has the same sizes and its minimum is the negated maximum.", "quantifier": "all point sets of fewer than 2^31 points over the reals", "why_tests_cant": "arbitrary point sets", "anchors": ["src/functions.rs: center"]}
{"id": "C86", "title": "look_at sends the target to the z axis but distorts shapes", "statement": "With exact arithmetic Matrix4::look_at fails iff the target is zero and otherwise sends the target to (0, 0, |target|). A user expects a camera matrix to keep shapes; it does so iff the vector product of up and target has length one, since the first two rows are not normalised.", "quantifier": "all targets and up vectors over the reals", "why_tests_cant": "the distortion only vanishes for special lengths and angles, which tests tend to use", "anchors": ["src/matrix4.rs: look_at", "src/matrix4_pipe.rs: add_look_at"]}
{"id": "C87", "title": "Sizes of a bounding box in doubles", "statement": "For every bounding box with finite double corners that satisfies its own invariant (min < max on every axis), the size getters, which unwrap a checked conversion, never panic and return the rounded difference (gradual underflow keeps it positive), and collides_with between any two such boxes never panics.", "quantifier": "every pair of bounding boxes with double corners (2D and 3D)", "why_tests_cant": "Whether max - min can round to zero depends on every pair of neighbouring doubles, including subnormals; tests try a few sizes.", "anchors": ["src/bounding_box_3d.rs:size_x", "src/bounding_box_3d.rs:collides_with", "src/bounding_box_2d.rs:size_x"]}
{"id": "C88", "title": "The center of a bounding box in doubles", "statement": "For every valid bounding box with double corners, center() lies inside the closed box exactly when the size of each axis is finite; when max - min overflows the center lies outside (there is a box whose center is beyond its maximum).", "quantifier": "every bounding box with double corners, all three (two) axes", "why_tests_cant": "It is a statement about rounding for every pair of doubles; the failing boxes need corners whose difference overflows.", "anchors": ["src/bounding_box_3d.rs:center_bb", "src/bounding_box_2d.rs:center_bb"]}
{"id": "C89", "title": "Bounding boxes of spheres, circles and boxes", "statement": "In exact arithmetic the bounding box of a sphere or box is exactly the range of its points and converting a bounding box to a Box3D and back is the identity. In doubles bounding_box() of Sphere, Circle and Box3D, which unwraps, panics exactly when on some axis center - r and center + r round to the same double, e.g. for the default unit sphere at x = 2^54; the 'safe' comment on the unwrap is wrong.", "quantifier": "every sphere, circle, box with finite center and positive size", "why_tests_cant": "The panic appears only where the spacing of doubles exceeds the radius; tests use small coordinates.", "anchors": ["src/sphere.rs:bounding_box", "src/circle.rs:bounding_box", "src/box_3d.rs:bounding_box"]}
{"id": "C90", "title": "Which triangles TriFace3D::new accepts", "statement": "TriFace3D::new accepts three NaN-free points exactly if they differ in each of the three coordinates, so every axis aligned triangle (e.g. one in a horizontal plane) is refused with TriFace3DNotSpanningVolume; for every accepted triangle bounding_box() does not panic and is the coordinate range of its corners.", "quantifier": "every three points without NaN, both build modes", "why_tests_cant": "Panic freedom of the unwrap and the exact acceptance condition range over all doubles.", "anchors": ["src/tri_face_3d.rs:new", "src/tri_face_3d.rs:bounding_box"]}
{"id": "C91", "title": "Ray / triangle intersection is exact and strict", "statement": "In exact arithmetic intersection_ray_triangle never panics and returns Some(p) exactly for the point where the forward ray crosses the open interior of the triangle (not parallel); collecting over a mesh adds exactly these points in face order. Consequently a ray through an edge shared by two triangles is reported by neither: a closed mesh can be missed.", "quantifier": "all rays, triangles and meshes over the reals", "why_tests_cant": "continuum of rays; the shared edge is a measure zero set no random test hits", "anchors": ["src/functions.rs: intersection_ray_triangle, collect_intersections_ray_mesh"]}
{"id": "C92", "title": "Closest intersecting object", "statement": "closest_intersecting returns the first of the objects whose box is entered closest to the start of the ray and None iff no box is hit; index_closest_intersecting gives the position of the same object; for_each_intersecting visits every hit in order. The reported point may lie behind the start of the ray when the ray starts inside a box.", "quantifier": "all rays, all lists of objects", "why_tests_cant": "unbounded lists, ties and order", "anchors": ["src/functions.rs: closest_intersecting, index_closest_intersecting, for_each_intersecting"]}
{"id": "C93", "title": "Sorting a cloud by a coordinate", "statement": "sort_dim returns a permutation of the points; for clouds without NaN it is sorted by the chosen coordinate and stable; dimensions that do not exist are refused. If the chosen coordinate is NaN in all points, the next one (x, y, z and around) decides, and the one after if that is NaN as well. Ties are not ordered by the other coordinate.", "quantifier": "all clouds of doubles, all dimensions, every stable sort", "why_tests_cant": "universal over clouds and NaN patterns", "anchors": ["src/functions.rs: sort_vec_2d_x .. sort_vec_3d_z", "src/point_cloud_2d.rs: sort_dim", "src/point_cloud_3d.rs: sort_dim"]}
{"id": "C94", "title": "Scaling a cloud keeps its center", "statement": "In exact arithmetic and for a positive factor scaling a cloud moves each point p to c + f(p-c) where c is the center of the bounding box; the center of the box is kept and its sizes are multiplied by f; a cloud without a bounding box is left unchanged.", "quantifier": "all clouds over the reals, all positive factors", "why_tests_cant": "unbounded clouds, real factors", "anchors": ["src/point_cloud_2d.rs: scale", "src/point_cloud_3d.rs: scale", "src/is_editable_2d.rs: increase_distance_to_by", "src/is_editable_3d.rs: increase_distance_to_by"]}
{"id": "C95", "title": "Joining clouds, extrusion, distances in n dimensions", "statement": "consume/combine and append_ra concatenate in order; extrude returns two clouds of as many points, the first in the plane z = 0 and the second moved by the direction; the n dimensional distance of 2D and 3D points equals the special functions bit for bit and different dimensions are refused.", "quantifier": "all clouds, points and directions, double arithmetic", "why_tests_cant": "bitwise equality over all doubles", "anchors": ["src/point_cloud_2d.rs: consume, append_ra", "src/point_cloud_3d.rs: consume, append_ra", "src/functions.rs: extrude", "src/distances_nd.rs: dist_nd, sqr_dist_nd"]}
{"id": "C96", "title": "douglas_peucker_2d gives no epsilon guarantee and can fail to return", "statement": "A user relies on every dropped point being within epsilon of the simplified line. The distance used is the one from the infinite line through the ends (exact arithmetic, non-vertical line), but the first half is simplified without the splitting point, so points farther than epsilon are dropped; a closed line collapses to its ends; a negative epsilon makes the call recurse for ever on every nonempty line; a single point is returned twice.", "quantifier": "all negative epsilons and nonempty lines; all single points; existence of lines for the other failures", "why_tests_cant": "non-termination and the absence of a guarantee cannot be tested", "anchors": ["src/douglas_peucker_2d.rs"]}
{"id": "C97", "title": "PLY headers that make the loaders panic", "statement": "A user relies on load_ply_points and load_ply_mesh reporting malformed files as errors; but a header naming a fourth coordinate property (e.g. x twice) and a header announcing so many vertices that the space cannot be reserved (24 bytes each, 2^63 or more) make them panic, whatever follows the header.", "quantifier": "all accepted headers with such a property list or count, all file contents after the header, text and binary", "why_tests_cant": "which headers panic is a statement about unboundedly many files", "anchors": ["src/io/ply/header.rs: load_header (vertex_order index)", "src/io/ply/load.rs: reserve calls"]}
{"id": "C98", "title": "PLY loading of arbitrary bytes", "statement": "For every byte stream load_ply_mesh and load_ply_points terminate after at most one iterator call per byte plus one; they panic only if the file has at least four property lines of coordinates or announces a count whose reservation fails, and then nothing has been added; whatever the result, the mesh left behind has only faces with three different existing vertices.", "quantifier": "all byte streams", "why_tests_cant": "all inputs, including malformed ones", "anchors": ["src/io/ply/load.rs: load_ply_mesh, load_ply_points", "src/io/ply/iterators_internal.rs", "src/io/ply/header.rs"]}
{"id": "C99", "title": "PLY saving with writers that take only part of the data", "statement": "Saving as text hands all bytes to the writer for every way the writer splits them, or returns an error after a prefix; saving as binary is complete when every call takes everything, but for every mesh with at least one vertex a writer taking one byte per call loses bytes and the save still returns Ok.", "quantifier": "all meshes, colors, precisions and all schedules of partial writes", "why_tests_cant": "schedules of partial writes are unbounded", "anchors": ["src/io/ply/save.rs: write_all versus write", "std::io::Write"]}
{"id": "C100", "title": "load_ply_either agrees with the specific loaders", "statement": "load_ply_either answers Mesh exactly when load_ply_mesh succeeds, with the same mesh and no points; it answers Points only when the header declares no faces and load_ply_points succeeds with the same points; its errors are those of the two loaders with the same partial results.", "quantifier": "all byte streams", "why_tests_cant": "two code paths that duplicate each other agree on every input", "anchors": ["src/io/ply/load.rs: load_ply_either, load_mesh_ascii, load_mesh_binary, load_points_ascii, load_points_binary"]}
{"id": "C101", "title": "Bad lines are reported with number and text", "statement": "For .obj, .off, .pts and gcode files: a vertex, face, count or command line that cannot be read ends loading with an error carrying the number (from 1) and the trimmed text of that line and the matching error kind, whatever the rest of the file is; everything from the lines before it is in the mesh or point list and nothing else.", "quantifier": "all files, all positions of the first bad line, all texts after it", "why_tests_cant": "tests try a few bad lines at a few positions", "anchors": ["src/io/obj.rs: load_obj_mesh, load_obj_points", "src/io/off.rs: load_off_mesh, load_off_points", "src/io/pts.rs: load_pts", "src/io/gcode.rs: load_gcode_points"]}
{"id": "C102", "title": "Arbitrary bytes never break the line based loaders", "statement": "For every byte string load_obj_mesh, load_obj_points and load_gcode_points end with a result or an error and never panic; load_off_mesh, load_off_points and load_pts panic only if a line of the file announces more elements than a vector can hold (and such files do make them panic). Every mesh left behind, also after an error, has only faces with three different indices in range.", "quantifier": "all byte strings", "why_tests_cant": "no test enumerates all files; the panic needs a count near 2^58", "anchors": ["src/io/obj.rs", "src/io/off.rs", "src/io/pts.rs", "src/io/gcode.rs"]}
{"id": "C103", "title": "Line iterators stay at the end", "statement": "After the iterators over .xy, .xyz, .obj, .off, .pts and gcode files have returned None or an error, every further call returns None, also if lines are left.", "quantifier": "all iterator states", "why_tests_cant": "a test polls a finished iterator once, for one file", "anchors": ["src/io/xy.rs: XyIterator::next", "src/io/xyz.rs: XyzIterator::next", "src/io/obj.rs", "src/io/off.rs", "src/io/pts.rs", "src/io/gcode.rs"]}
{"id": "C104", "title": "Cut off .off and .pts files are accepted", "statement": "Users may expect an error if a file ends before the announced number of vertices, faces or points. It fails: an .off file that ends after any smaller number of vertices, or has any other number of faces than announced, and a .pts file whose last block is too short are loaded without an error with what is there.", "quantifier": "all well-formed files and all places to cut", "why_tests_cant": "tests use complete files", "anchors": ["src/io/off.rs: OffMeshIterator::next, OffPointsIterator::next", "src/io/pts.rs: PtsIterator::next"]}
{"id": "C105", "title": ".obj polygons lose corners without notice", "statement": "A face line of an .obj file with more than three corners adds only the triangle of the first three and no error is reported.", "quantifier": "all well-formed files before the line, all numbers of corners", "why_tests_cant": "tests use triangles", "anchors": ["src/io/obj.rs: fetch_face"]}
{"id": "C106", "title": "Text behind OFF is ignored", "statement": "Whatever follows OFF in the first line of an .off file has no effect on the result. Users may expect counts to be accepted there, as the format allows; it fails: such files give an error or no points.", "quantifier": "all files, all texts behind OFF", "why_tests_cant": "tests use OFF on its own line", "anchors": ["src/io/off.rs: OffMeshIterator::next, OffPointsIterator::next"]}
{"id": "C107", "title": "gcode rapid moves are ignored", "statement": "Lines starting with G0, G00, G01, G02, G03, a line number, a lower case g1 or indented G1 have no effect: removing them from any program does not change the points. Users expect positions after them to be tracked; it fails, and later relative moves start at the wrong place.", "quantifier": "all programs and all places of such a line", "why_tests_cant": "tests use G1 lines", "anchors": ["src/io/gcode.rs: GcodeIterator::next"]}
{"id": "C108", "title": "PTX: blocks, placement and errors", "statement": "A .ptx file of complete blocks gives all points in order, each transformed by the matrix of its block (unchanged if the matrix is the identity). If the file ends inside of a block, or a count, a row of the matrix or a point is malformed, load_ptx keeps exactly the points before and reports the kind of problem with the right line; a further line that is not a number after the last block - for example an empty one - is such an error too.", "quantifier": "all files of blocks, all block sizes, all positions of the first bad line", "why_tests_cant": "a test reads one well-formed block", "anchors": ["src/io/ptx.rs: PtxIterator, load_ptx"]}
{"id": "C109", "title": "PTX: last matrix row is ignored", "statement": "A user expects the translation that .ptx files store in the last row of the 4x4 matrix to be applied. Unless the matrix is the identity the result of load_ptx does not depend on the last row at all, and a file with a translation there leaves the points where they are.", "quantifier": "all files, all pairs of last rows", "why_tests_cant": "shows only when comparing with what another program computes", "anchors": ["src/io/ptx.rs: fetch_header, fetch_one", "src/point_3d.rs: multiply_m"]}
{"id": "C110", "title": "PTX: arbitrary bytes", "statement": "For every byte string load_ptx ends with a result or an error; it panics only if two consecutive lines are counts whose product (modulo 2^64) is a number of points no vector can hold. The product wraps: a block that announces 2^32 times 2^32 points is taken to be empty without an error.", "quantifier": "all byte strings", "why_tests_cant": "no test enumerates all files", "anchors": ["src/io/ptx.rs"]}
{"id": "C111", "title": "Scanner format iterators after an error", "statement": "After a malformed point line the iterator over a .ptx file continues: it yields the remaining points of the block and then ends. After every other error, and after the end, the .ptx iterator returns None forever, as do the .psl and .las iterators after any error.", "quantifier": "all iterator states and all numbers of further calls", "why_tests_cant": "a test polls a finished iterator once, for one file", "anchors": ["src/io/ptx.rs: next", "src/io/psl.rs: next", "src/io/las/load.rs: next"]}
{"id": "C112", "title": "LAS: every record gives its point", "statement": "For every file with a supported header whose records are all there (of at least 12 bytes each), load_las gives as many points as the header says, and point number j is computed from the three signed 32 bit numbers at offset + j*record length as shift + number*scale, rounded to f64.", "quantifier": "all header contents, all record lengths from 12, all numbers of points that fit into memory", "why_tests_cant": "there is no las test; the arithmetic ranges over all numbers, scales and shifts", "anchors": ["src/io/las/load.rs: load_las, LasIterator", "src/io/las/types.rs: Header, PointData"]}
{"id": "C113", "title": "LAS: header problems", "statement": "load_las reports the Header error exactly if the file has less than 375 bytes, the version is after 1.4 or the point format is unknown, and then gives no points; the more specific errors never come out. So complete small files of the versions 1.0 to 1.3, whose headers have 227 or 235 bytes, are rejected.", "quantifier": "all byte strings", "why_tests_cant": "needs files of all lengths and all header contents", "anchors": ["src/io/las/load.rs: load_header, next", "src/io/las/types.rs: Header::try_from"]}
{"id": "C114", "title": "LAS: truncated files", "statement": "If a record is not completely in the file, load_las gives the points of the records before it and then an AccessFile error.", "quantifier": "all positions of the truncation", "why_tests_cant": "a test would cut one file at one place", "anchors": ["src/io/las/load.rs: fetch_one, next"]}
{"id": "C115", "title": "LAS: when reading panics", "statement": "For a file with a supported header and a number of points that fits into memory, load_las panics exactly if there is a point to read, the record length is below 12, and the first record is in the file (or has length 0). For every byte string it ends, and its errors are Header and AccessFile only.", "quantifier": "all byte strings", "why_tests_cant": "the panic needs a malformed header that no test has", "anchors": ["src/io/las/load.rs"]}
{"id": "C116", "title": "LAS: signature and count are not checked", "statement": "A user expects a file without the LASF signature to be rejected and a file that announces no points to give none. The first 24 bytes have no influence on the result; for files of old versions that announce 0 points the number is taken from bytes that are not part of their header, and points come out.", "quantifier": "all files", "why_tests_cant": "tests use well-formed files", "anchors": ["src/io/las/load.rs: load_header", "src/io/las/types.rs: Header::try_from"]}
{"id": "C117", "title": "Edge neighbours of a face", "statement": "For every searchable mesh and every face, face_edge_neighbours appends to the caller's list, for each of the three sides in order, one face that passes the same side in the opposite direction, and nothing for a side without such a face; where at most one such face exists the list is exactly the set of faces with an opposite side. A user would expect all faces sharing a side: faces passing the side in the same direction, and all but one of several opposite faces, are missed. Unknown faces give IncorrectFaceID and leave the list alone.", "quantifier": "all meshes, faces and previous contents of the list", "why_tests_cant": "tests use one well-oriented manifold mesh", "anchors": ["src/is_searchable_mesh.rs: face_edge_neighbours", "src/half_edge.rs: HalfEdge::new"]}
{"id": "C118", "title": "Vertex neighbours of a face", "statement": "For every searchable mesh and every face, face_vertex_neighbours leaves the caller's list strictly increasing and holding exactly its previous elements and all faces that share a vertex with the face. The face itself is always among them, and the caller's previous elements lose order and duplicates. faces_of_vertex appends exactly the faces having the vertex.", "quantifier": "all meshes, faces, caches and previous contents of the list", "why_tests_cant": "tests use one mesh and empty lists", "anchors": ["src/is_searchable_mesh.rs: face_vertex_neighbours, faces_of_vertex"]}
{"id": "C119", "title": "Vertex edits keep the half edges valid", "statement": "After any sequence of add_vertex and change_vertex calls on a SearchableMesh it is the same as a SearchableMesh newly built from the edited mesh, so all edge queries stay right.", "quantifier": "all meshes and all sequences of vertex edits", "why_tests_cant": "a history of any length", "anchors": ["src/searchable_mesh.rs: add_vertex, change_vertex", "src/half_edge.rs: HalfEdge::new"]}
{"id": "C120", "title": "A grid cluster misses no box at a position", "statement": "Building a cluster from at least one element with finite valid boxes succeeds whatever the two cell counts are (0 included, which silently acts as one cell), and querying it at any finite position never fails: the callback gets a selection of the elements, each at most once and in the order of the data, and every element whose box contains the position (x, y), borders included, is among them, despite all rounding. Without elements the construction reports BoundingBoxMissing.", "quantifier": "all element lists, all finite double boxes, all 16 bit counts, all finite query positions", "why_tests_cant": "Whether a box reaches the right cells depends on rounded divisions of arbitrary doubles; tests only sample boxes and positions.", "anchors": ["src/cluster.rs:Cluster::new", "src/cluster.rs:for_each_candidate"]}
{"id": "C121", "title": "Grid cluster candidates are near", "statement": "In exact arithmetic, an element handed to the callback for a position within the overall box is closer to that position than one cell width in x and in y.", "quantifier": "all element lists with real boxes, all nonzero 16 bit counts, all positions inside the overall box", "why_tests_cant": "The usefulness of the cluster (few candidates) is a statement about all positions and boxes.", "anchors": ["src/cluster.rs:Cluster::new", "src/cluster.rs:for_each_candidate"]}
{"id": "C122", "title": "Clustering vertices replaces each by the last one of its cell", "statement": "cluster_vertices moves every corner of every face to the last vertex (in vertex order) lying in the same grid cell, drops exactly the faces left with two equal corners, keeps the order of the others, and returns a mesh without two equal vertices and without vertices not used by a face of the source. A mesh whose bounding box cannot be built gives BoundingBoxMissing; fewer than two cells along any axis gives ClusterTooBig.", "quantifier": "all meshes, all cluster sizes, all point equalities, all casts", "why_tests_cant": "The mapping goes through hash maps and a healing pass and has to be right for every mesh.", "anchors": ["src/cluster_vertices.rs:cluster_vertices", "src/heal_mesh.rs:heal_mesh"]}
{"id": "C123", "title": "Clustering vertices moves them by less than the cluster size", "statement": "In exact arithmetic and for a positive size a vertex is replaced by one differing by less than the size along each axis. The size itself is not checked: 0.0 is accepted and merges vertices arbitrarily far from each other (refuted expectation), while negative and NaN sizes give ClusterTooBig.", "quantifier": "all vertex lists with a bounding box, all positive sizes; for the refutation a concrete mesh", "why_tests_cant": "A distance bound over all vertex positions; the unchecked size only shows with a division by zero nobody tests.", "anchors": ["src/cluster_vertices.rs:cluster_vertices"]}
{"id": "C124", "title": "Bezier interpolation follows the curve", "statement": "In exact arithmetic, for two to 21 control points interpolate_bezier returns exactly n points, the k-th being the point of the Bezier curve (as given by de Casteljau's construction) at parameter k/n; curve points stay within every half plane holding the control points. Fewer than two control points give TooFewPoints.", "quantifier": "all control point lists of 2 to 21 points, all n", "why_tests_cant": "the sum of Bernstein terms must equal the curve for every control polygon; tests check single samples", "anchors": ["src/interpolate_2d.rs: interpolate_bezier, control_polygon, bernstein_polynomial"]}
{"id": "C125", "title": "Bezier interpolation breaks down with many control points", "statement": "Users expect interpolate_bezier to work for any number of control points and to end at the last one. It does not: with 22 or more control points a debug build always panics and a release build uses wrong coefficients (22 control points all at (1,1) give a point below (0.5,0.5)); with 67 or more a release build always panics dividing by zero; and the last control point is never among the results.", "quantifier": "all control point lists of the given sizes, all n > 0, all number types", "why_tests_cant": "the sizes at which the factorials overflow are not reached by tests", "anchors": ["src/interpolate_2d.rs: factorial, binominal_coefficient, interpolate_bezier"]}
{"id": "C126", "title": "Linear interpolation is equidistant along the path", "statement": "In exact arithmetic, for a path whose first two points differ and n >= 2, interpolation_linear returns exactly n points; the k-th lies on the path at k/(n-1) of its length, the first is the first base point and the last the last base point. Fewer than two base points give TooFewPoints.", "quantifier": "all paths, all n >= 2", "why_tests_cant": "arc length parametrisation over arbitrary paths", "anchors": ["src/interpolate_2d.rs: interpolation_linear"]}
{"id": "C127", "title": "Linear and cosine interpolation lose or spoil points in floating point", "statement": "With doubles the expected number of points is not guaranteed, only that there are never more than n: the path (0,0),(29,0) with n = 8 gives 7 points because the last goal is rounded beyond the length; a repeated first base point makes the first result NaN; n = 1 gives no point; n = 0 panics in a debug build.", "quantifier": "concrete paths for the failures, all inputs for the upper bound", "why_tests_cant": "rounding of length/(n-1)*(n-1) is right for most tested values", "anchors": ["src/interpolate_2d.rs: interpolation_linear, interpolate_cosine"]}
{"id": "C128", "title": "Cosine interpolation is eased between the ends of each segment", "statement": "In exact arithmetic, for a path whose first two points differ and n >= 2, interpolate_cosine returns n points at the equidistant path positions with the x of the linear interpolation and the y eased by (1 - cos(pi s))/2, so x and y always lie between those of the two ends of a segment, and first and last base point are reached.", "quantifier": "all paths, all n >= 2", "why_tests_cant": "all paths and positions", "anchors": ["src/interpolate_2d.rs: interpolate_cosine"]}
{"id": "C129", "title": "rectangle", "statement": "In exact arithmetic rectangle returns four corners in counterclockwise order with sides width, height, width, height, equal diagonals and the given center as center of gravity. With doubles a far away center swallows the size: all four corners equal the center.", "quantifier": "all centers and positive sizes; for the refutation one center", "why_tests_cant": "all sizes and positions", "anchors": ["src/factory_2d.rs: rectangle"]}
{"id": "C130", "title": "arc", "statement": "In exact arithmetic and for n >= 2, arc returns n points on the circle around the center at equal angles beginning at start, and ending at end when start <= end. For end < start users expect the arc to end at end; it runs the same angle in the other direction instead. n = 1 gives NaN coordinates, n = 0 panics in a debug build.", "quantifier": "all centers, diameters, angles and n >= 2", "why_tests_cant": "all angles, including decreasing ones", "anchors": ["src/factory_2d.rs: arc"]}
{"id": "C131", "title": "ellipse yields the upper half only", "statement": "In exact arithmetic and for n >= 2, every point returned by ellipse satisfies the ellipse equation, the first is the right and the last the left vertex. Users expect the whole ellipse; no point below the center is ever returned.", "quantifier": "all centers, half axes and n >= 2", "why_tests_cant": "all parameters", "anchors": ["src/factory_2d.rs: ellipse"]}
{"id": "C132", "title": "involut_circle ignores the start angle", "statement": "In exact arithmetic and for n >= 2 the k-th point of involut_circle is the point of the involute at roll angle k |end - start| / (n - 1), at distance r sqrt(1 + t^2) from the center. Users expect the roll angle to begin at start; it always begins at 0: shifting both angles changes nothing.", "quantifier": "all centers, diameters, angles and n", "why_tests_cant": "tests do not vary the start angle", "anchors": ["src/factory_2d.rs: involut_circle"]}
{"id": "C133", "title": "The single precision cloud behaves as a list of rounded points", "statement": "Any sequence of pushes and overwrites on a single precision point cloud gives what the same sequence gives on a plain list of points, with every coordinate replaced by its nearest single precision value (infinite beyond the range, sign and NaN kept). The number of points, every read and the panics of overwriting beyond the end agree with the list. Points read from a cloud and pushed into another one arrive bit for bit. One expectation fails: reading at an index whose triple exceeds the address range is not answered by None; it wraps around and returns a point made of the coordinates of two neighbouring points in a release build and panics in a debug build.", "quantifier": "every sequence of pushes and overwrites with any coordinates, every index below a third of 2^64, both build modes", "why_tests_cant": "the histories and the rounded doubles are infinite; the wrapped index needs a value no test tries", "anchors": ["src/point_cloud_3d_f32.rs: push, push_d, len_d, get_d, set_d"]}
{"id": "C134", "title": "Bounding box of the single precision cloud", "statement": "For three or more points without NaN the bounding box of a single precision cloud is tight around the points that can be read from it, and it is missing exactly if those points agree in some coordinate. Two expectations fail: a cloud of two points never has a bounding box although the double precision cloud of the same points has one, and the box need not contain the points that were pushed.", "quantifier": "every cloud of single precision values other than NaN, infinities included", "why_tests_cant": "tightness ranges over all clouds and all coordinates", "anchors": ["src/point_cloud_3d_f32.rs: bounding_box_maybe", "src/bounding_box_3d.rs: new"]}
{"id": "C135", "title": "Moving the single precision cloud", "statement": "Moving a single precision cloud rounds the shift to single precision and then every sum to single precision, keeps the number of points, and keeps the weak order of the points along every axis for shifts up to 2^127. Moving back does not restore the cloud: there are a point and a shift after which the point ends at the origin.", "quantifier": "every cloud and every shift, finite ones for the statements about values", "why_tests_cant": "the rounding has to be right for all pairs of values", "anchors": ["src/point_cloud_3d_f32.rs: move_by"]}
{"id": "C136", "title": "Building the single precision cloud from a vector of numbers", "statement": "A single precision cloud built from any vector of numbers has one point per complete triple, in order, ignores the incomplete rest, and gives the vector back unchanged. Two expectations fail if the length is no multiple of three: a pushed point does not become the last point, its first coordinates complete the unfinished triple; and overwriting the point after the last one changes the data before it panics.", "quantifier": "every vector of any length", "why_tests_cant": "vectors of every length and content", "anchors": ["src/point_cloud_3d_f32.rs: from, into, push, set_d"]}
{"id": "C137", "title": "Collision of bodies made of colliders", "statement": "Two bodies collide exactly if some part of the one and some part of the other are reported to collide, where the parts are the declared colliders or the bounding box if there are none. In exact arithmetic there always is an answer, it is the same with the bodies exchanged, and no collision means that no two parts share a point. A body that announces colliders but has none never collides.", "quantifier": "all bodies with any number of boxes, unaligned boxes and triangles as parts", "why_tests_cant": "the number and kind of parts is unbounded, and the short-cuts taken after a first hit must not change the answer", "anchors": ["src/has_colliders_3d.rs: collides_with, collides_with_collider", "src/collider_3d.rs: collides_with, has_additional_colliders, with_colliders"]}
{"id": "C138", "title": "Collision of containers of bodies", "statement": "A list of bodies reports a collision exactly if one of its bodies collides with the query. A tree of the same bodies reports one exactly if a body collides and the bounding boxes overlap, whatever its depth and bucket size, so it agrees with the list whenever colliding bodies have overlapping boxes; queries by box alone always agree. In general they do not agree: the bounding box of an unaligned box does not cover its corners, so a tree misses a triangle that the list finds.", "quantifier": "all lists of bodies, all tree depths and bucket sizes, all queries", "why_tests_cant": "needs all trees and all positions of bodies", "anchors": ["src/aa_bb_tree_3d.rs: any_element_collides_with_collider, any_element_collides_with_bounding", "src/impls/vec.rs: any_element_collides_with_collider, any_element_collides_with_bounding", "src/impls/vec_deque.rs", "src/impls/linked_list.rs"]}
{"id": "C139", "title": "Angle between two vectors in space", "statement": "In exact arithmetic rad_to answers the unique angle between 0 and pi between two vectors, symmetric in its arguments, independent of positive lengths, and turned into its supplement by reversing one vector; a vector of length zero is answered by an error. With f64 a first vector that contains NaN panics instead of giving an error, a second one panics or gives the error, and two NaN free vectors never panic. A short vector that is not zero has no angle: its squares underflow.", "quantifier": "all pairs of vectors; the real number part for every exact arc cosine", "why_tests_cant": "the angle is a statement about all pairs of vectors; the panics and the underflow need values no test tries", "anchors": ["src/is_3d.rs: rad_to"]}
{"id": "C140", "title": "Direction filter in space", "statement": "In exact arithmetic the 3D direction filter accepts a pair of position and direction exactly if the angle between the direction the field prescribes there and the direction of the pair is at most the tolerance. A pair without direction on either side is refused. One expectation fails with f64: there is a normalized direction that the filter refuses although the field prescribes exactly this direction, whatever the tolerance, because its computed cosine exceeds one.", "quantifier": "all fields, tolerances, positions and directions", "why_tests_cant": "the field is an arbitrary function and the tolerance an arbitrary number", "anchors": ["src/filter_direction_field_3d.rs: is_allowed", "src/is_3d.rs: rad_to"]}
{"id": "C141", "title": "Direction filter in the plane", "statement": "In the plane rad_to is the polar angle of the vector from the first to the second point. A user relies on the 2D direction filter accepting directions close to the prescribed one and refusing others. It does neither: every direction with a smaller y component than the prescribed one is accepted with tolerance zero, the opposite one included, and for a field along the x axis and a tolerance up to a right angle exactly the lower half circle and the axis itself are accepted, so arbitrarily close directions on the upper side are refused.", "quantifier": "all fields, tolerances, positions and directions, every exact atan2", "why_tests_cant": "a handful of directions cannot show which half of the circle is accepted", "anchors": ["src/filter_direction_field_2d.rs: is_allowed", "src/is_2d.rs: rad_to"]}
{"id": "C142", "title": "Projecting points on a plane", "statement": "In exact arithmetic, if the two plane directions are perpendicular, the projection gives the coordinates of the closest point of the plane, and no other point is as close. Points of the plane get their own coordinates back for all coordinates exactly if the two directions are perpendicular, which the plane type does not require. With f64 the default plane drops the z coordinate of every finite point without rounding.", "quantifier": "all planes and points", "why_tests_cant": "closest among infinitely many points of a plane", "anchors": ["src/functions.rs: project_point_on_plane", "src/point_3d.rs: transform_to_2d", "src/plane_3d.rs: new, default, origin, u, v"]}
{"id": "C143", "title": "Vertex normals of a mesh", "statement": "In exact arithmetic every vertex of a mesh gets one normal, the unit vector along the sum of the unit normals of its faces, and the z direction if that sum vanishes. A flat mesh with consistently oriented faces gets its common normal at every used vertex and z elsewhere. With f64 a face with a NaN corner panics. Where faces of opposite orientation meet, the result can lie in the plane of the faces instead of being perpendicular to it.", "quantifier": "all meshes with existing vertices, any number of vertices and faces", "why_tests_cant": "meshes of every size and connectivity; the panics need NaN", "anchors": ["src/utils.rs: normals_of_mesh", "src/functions.rs: normal_of_face"]}
{"id": "C144", "title": "Editing the position of an object", "statement": "Adding, subtracting, scaling the position, increasing the distance to a point and setting coordinates change exactly the position, coordinate by coordinate, and keep sizes and radius, for every type whose setters and getters agree; points, boxes and circles do. In exact arithmetic subtracting undoes adding and scaling by the reciprocal undoes scaling; with f64 it does not. Spheres are the exception: any of these edits overwrites z with a value computed from y, even adding the zero vector.", "quantifier": "all objects, operands and factors; generic in the object type", "why_tests_cant": "the coordinate law holds for all values and every implementing type", "anchors": ["src/is_editable_3d.rs: IsEditable3D", "src/is_editable_2d.rs: IsEditable2D", "src/sphere.rs: Is3D for Sphere"]}
{"id": "C145", "title": "Setting and building from n dimensional positions", "statement": "Setting a coordinate by index changes this coordinate only, and an index out of range is an error that changes nothing. Building from a list succeeds exactly for three coordinates, and spheres and boxes get unit size. Copying through the n dimensional interface equals copying through the 3D interface for points and boxes, but not for spheres whose z differs from y. A failing copy may leave the target half overwritten. In exact arithmetic both center functions agree on the middle; with f64 each of them overflows for finite inputs for which the other one does not.", "quantifier": "all coordinates, indices and lists", "why_tests_cant": "the lists and indices are unbounded and the overflow needs extreme values", "anchors": ["src/is_editable_nd.rs: set_position", "src/is_buildable_nd.rs: new_nd, from_nd, center, zero_nd", "src/point_3d.rs: from_nd", "src/functions.rs: center_3d"]}
{"id": "C146", "title": "Turning a position around a center", "statement": "In exact arithmetic rotate turns a position counterclockwise around the given center by the given angle: the distance to the center and all distances between turned positions are kept, the result is unique, two turns add up, turning back restores, and turning around the origin equals multiplying by the rotation matrix. Boxes and circles keep their size and boxes stay aligned with the axes. With f64 and any finite sine and cosine a finite center turned around itself stays where it is.", "quantifier": "all objects, angles and centers", "why_tests_cant": "the claims range over all reals and all trigonometric implementations", "anchors": ["src/is_editable_2d.rs: rotate", "src/matrix3.rs: rotation"]}
{"id": "C147", "title": "Building operations forget the size of a shape", "statement": "A user expects transforming a box or sphere by a matrix, normalizing it, building it from another one or taking a center to keep sizes. All of them build a new object of unit size, so multiplying a box by the identity matrix gives back the box only if all its sizes are one, and a sphere only if its radius is one and its z equals its y.", "quantifier": "all boxes, spheres, matrices and partners", "why_tests_cant": "unit tests use points or unit sized shapes, for which nothing is lost", "anchors": ["src/is_buildable_3d.rs: new_from, multiply_m, normalized, center", "src/box_3d.rs: IsBuildable3D for Box3D", "src/sphere.rs: IsBuildable3D for Sphere"]}
{"id": "C148", "title": "Line segments", "statement": "In exact arithmetic the length of a segment is the distance of its ends, moving and distance keeping transformations keep it, the center of gravity is the middle and is transformed along. The bounding box is the span of the ends and exists exactly if the ends differ in every coordinate. Scaling multiplies the length by the factor and keeps the middle only if that box exists; a segment that is parallel to a coordinate plane is silently left unchanged. Moving a line or ray keeps its direction. With f64 the middle of a finite segment can be infinite.", "quantifier": "all segments, offsets, factors and matrices", "why_tests_cant": "the geometry holds for all reals and the silent case is one no test tries", "anchors": ["src/line_segment_3d.rs: LineSegment3D", "src/line_segment_2d.rs: LineSegment2D", "src/line_3d.rs: move_by"]}
{"id": "C149", "title": "Ordering of shapes", "statement": "Comparing spheres, boxes and circles whose centers contain no NaN is a total preorder by the distance of the center from the origin alone: radius and sizes never count. So shapes of different size compare as equal though they are not equal, the partial order and the total order of a type contradict each other, and with a NaN the comparison is not transitive.", "quantifier": "all lists of shapes", "why_tests_cant": "an order law is a statement about all triples of values", "anchors": ["src/sphere.rs: Ord for Sphere", "src/circle.rs: Ord for Circle", "src/box_3d.rs: Ord for Box3D", "src/box_2d.rs: Ord for Box2D"]}
{"id": "C150", "title": "Moving and scaling shapes", "statement": "In exact arithmetic the bounding box of a moved or scaled box is the moved or scaled bounding box, and a scaled sphere or circle accepts exactly the points within the multiplied radius. With f64 two expectations fail: a valid bounding box converted into a box can panic when asked for its bounding box, and scaling by a positive factor can make a size zero.", "quantifier": "all boxes, spheres, circles, offsets and factors", "why_tests_cant": "the equalities hold for all reals; the panic needs neighbouring doubles", "anchors": ["src/box_3d.rs: move_by, scale, bounding_box", "src/sphere.rs: scale", "src/circle.rs: scale", "src/filter_sphere.rs: is_allowed"]}
{"id": "C151", "title": "A position as text", "statement": "Parsing a position accepts exactly the texts made of as many words as there are coordinates, all of them numbers, with any number of spaces before, between and after; everything else is a ParseError and never a panic. What to_str writes for a point is parsed back to the same point, for every printable double. Boxes and circles come back with unit size. A sphere does not even keep its center: it writes y in place of z.", "quantifier": "all texts, all positions and every printing and parsing of numbers that reads back what it writes", "why_tests_cant": "the texts and the positions are unbounded", "anchors": ["src/is_3d.rs: to_str", "src/is_2d.rs: to_str", "src/is_buildable_3d.rs: parse", "src/is_buildable_2d.rs: parse", "src/skip_empty_string.rs: SkipEmptyString"]}
{"id": "C152", "title": "A point cloud as text", "statement": "Parsing a cloud accepts exactly the texts with at least one non empty line all of whose non empty lines are positions, and gives them in order; otherwise it is a ParseError and no partial cloud. The text of every cloud of printable points but the empty one is parsed back, and joining two texts with a newline joins the clouds. Three expectations fail: the text of the empty cloud is refused, and so are texts with carriage returns at the end of the lines or with a line of spaces.", "quantifier": "all texts and clouds of any size", "why_tests_cant": "the number of lines and their contents are unbounded", "anchors": ["src/point_cloud_3d.rs: to_str, parse", "src/point_cloud_2d.rs: to_str, parse"]}
{"id": "C153", "title": "Boxes turned around the z axis", "statement": "A box made from a center, sizes and a rotation around z has, in exact arithmetic, perpendicular unit directions, and its corners are those of the axis aligned box around the center turned by the angle; half a turn gives the same corners. Three expectations fail: the corners lie at the full sizes instead of half of them from the center, the box turns clockwise while the rotation matrices turn counterclockwise, and with f64 the call panics if the sine or cosine of the rotation is not a number, as for an infinite rotation.", "quantifier": "all centers, positive sizes and rotations; for the panic all implementations of sine and cosine", "why_tests_cant": "angles and sizes range over all reals", "anchors": ["src/box_unaligned_3d.rs: new_from_z_rotation, x_dir, rot2d"]}
{"id": "C154", "title": "Products and directions of plane vectors", "statement": "In exact arithmetic the dot and cross product of two vectors of the plane are the product of the lengths times the cosine and the sine of the counterclockwise angle from the first to the second, and every pair of vectors with a first one other than zero has such an angle. Normalising a point and making a normalised vector of it agree: both fail exactly for the zero vector and otherwise give the unit vector of the same direction. With f64 the two can give different numbers. The directions of the axes and their negatives are exact and never panic, and the negative of a direction is opposite, of the same length, and its negative is the direction itself.", "quantifier": "all vectors of the plane and of space", "why_tests_cant": "the identities hold for all reals; the difference depends on rounding", "anchors": ["src/is_2d.rs: dot, cross", "src/is_buildable_2d.rs: normalized", "src/is_buildable_3d.rs: normalized", "src/norm_2d.rs: Norm2D, Neg", "src/norm_3d.rs: Norm3D, Neg", "src/is_normalized_2d.rs: norm_x, norm_y, norm_x_neg, norm_y_neg", "src/is_normalized_3d.rs: norm_x, norm_y, norm_z, norm_x_neg, norm_y_neg, norm_z_neg"]}
{"id": "C155", "title": "Corners of bounding boxes", "statement": "The corners of a bounding box are exactly the points each of whose coordinates is the least or the greatest of the box, 8 in space and 4 in the plane, and the bounding box of the corners is the box itself, bit for bit, for every box whose minimum is below its maximum in all coordinates, infinite ones included.", "quantifier": "all bounding boxes over f64", "why_tests_cant": "boxes range over all pairs of doubles", "anchors": ["src/bounding_box_3d.rs: corners, from_iterator", "src/bounding_box_2d.rs: corners, from_iterator"]}
{"id": "C156", "title": "Coordinates addressed by dimension", "statement": "For points, circles and boxes of the plane and points, spheres and boxes of space: writing a coordinate of an existing dimension is read back and leaves the other coordinates and the size; writing another dimension fails and changes nothing. Building needs exactly as many coordinates as dimensions and gives size one. Copying from an object of another number of dimensions fails and changes nothing; copying from one that lacks a coordinate fails with the coordinates before the missing one overwritten; otherwise all coordinates are taken and the size is kept. The center by dimension is the middle in exact arithmetic; for different dimensions it fails with another error than copying does. One expectation fails: the third coordinate of a sphere set by dimension is not what z() returns.", "quantifier": "all objects, dimensions, values and sources", "why_tests_cant": "the source of a copy can be any type implementing the trait", "anchors": ["src/point_2d.rs: new_nd, from_nd, from, set_position", "src/circle.rs: new_nd, from_nd, from, set_position", "src/box_2d.rs: new_nd, from_nd, from, set_position", "src/sphere.rs: from_nd, from, set_position", "src/box_3d.rs: from_nd, from, set_position", "src/is_buildable_nd.rs: center_nd, zero_nd"]}
{"id": "C157", "title": "Operators of points", "statement": "In exact arithmetic the operators of points satisfy the laws of a vector space, dividing by a number other than zero undoes multiplying by it, and multiplying scales the length. With f64, bit for bit, adding commutes, subtracting is adding the negative and negating twice changes nothing. Not with f64: adding is not associative, dividing is not multiplying by the inverse, multiplying does not undo dividing, and dividing by zero gives infinities and NaN without an error.", "quantifier": "all points and factors", "why_tests_cant": "laws over all doubles or all reals", "anchors": ["src/point_2d.rs: Add, Sub, Mul, Div, Neg", "src/point_3d.rs: Add, Sub, Mul, Div, Neg"]}
{"id": "C158", "title": "Cut text files", "statement": "Loading any part of a file from its start, cut at any byte as after a crash or a full disk, gives a beginning of what the whole file gives, followed by at most one other element. This holds for the points of xyz, xy, obj, off, pts, ptx, gcode and ply files and for the meshes of obj, off and ply files, whatever the content. Users expect that no wrong element is loaded, or that there is an error; both fail: the last number of a cut line loses digits, giving a point or a face that is nowhere in the file, with the result Ok.", "quantifier": "all files, all cuts, all implementations of number parsing", "why_tests_cant": "the content and the cut are arbitrary", "anchors": ["src/io/xyz.rs: load_xyz", "src/io/xy.rs: load_xy", "src/io/obj.rs: load_obj_points, load_obj_mesh", "src/io/off.rs: load_off_points, load_off_mesh", "src/io/pts.rs: load_pts", "src/io/ptx.rs: load_ptx", "src/io/gcode.rs: load_gcode_points", "src/io/ply/load.rs: load_ply_points, load_ply_mesh", "src/io/utils.rs: fetch_line"]}
{"id": "C159", "title": "Cut binary files", "statement": "Of a part of a binary ply, stl, las or psl file, cut at any byte, only elements of the whole file are loaded, in order and from the first one, whatever the content. If the part of a stl, las or psl file is loaded without error, then so is the whole file and with the same content; the same holds for a ply file that is loaded without error as a whole.", "quantifier": "all files, all cuts", "why_tests_cant": "the content and the cut are arbitrary", "anchors": ["src/io/ply/load.rs: load_ply_points, load_ply_mesh", "src/io/stl.rs: load_stl_mesh_duped, load_stl_mesh_unique, load_stl_triplets", "src/io/las/load.rs: load_las", "src/io/psl.rs: load_psl"]}
{"id": "C160", "title": "Facets of cut stl files", "statement": "Of a part of a stl file, text or binary, cut at any byte, the facets loaded are the first facets of the whole file, each one complete and correct, whatever the content and for every loader. Users expect that missing facets are reported; this fails: text files can be loaded without error with fewer facets.", "quantifier": "all files, formats and cuts", "why_tests_cant": "the content and the cut are arbitrary", "anchors": ["src/io/stl.rs: load_stl_mesh_duped, load_stl_mesh_unique, load_stl_triplets, StlAsciiIterator, StlBinaryIterator"]}
{"id": "C161", "title": "Every byte of a binary ply file counts", "statement": "A binary ply file that follows the format and lacks any number of bytes at its end is never loaded without error; the vertices and faces loaded before the error are the first ones of the whole file. For a mesh saved by the library the answer to any shortened file is an error, not a panic. For other correct files one expectation fails: a file cut in its header can panic.", "quantifier": "all binary ply files, saved meshes and cuts", "why_tests_cant": "meshes and cuts are arbitrary", "anchors": ["src/io/ply/load.rs: load_ply_mesh, load_ply_points", "src/io/ply/save.rs: save_ply_binary", "src/io/ply/header.rs: load_header", "src/io/ply/iterators_internal.rs: PlyBinaryMeshIterator"]}
{"id": "C162", "title": "How data arrives does not matter", "statement": "Whatever the sizes of the pieces in which a reader hands over its data, down to single bytes, and wherever its calls are interrupted by signals, the result of loading equals the result for the whole data at once: points and meshes of xyz, xy, obj, off, pts, ptx, gcode, psl, stl and ply files, whatever the content. One expectation fails: a reader that hands over no data once and goes on afterwards tears a line into two.", "quantifier": "all readers that do not fail, all contents, all ways to cut the data into pieces", "why_tests_cant": "content, pieces and interruptions are arbitrary", "anchors": ["src/io/utils.rs: fetch_line", "src/io/xyz.rs: load_xyz", "src/io/xy.rs: load_xy", "src/io/obj.rs: load_obj_mesh, load_obj_points", "src/io/off.rs: load_off_mesh, load_off_points", "src/io/pts.rs: load_pts", "src/io/ptx.rs: load_ptx", "src/io/gcode.rs: load_gcode_points", "src/io/psl.rs: load_psl", "src/io/stl.rs: load_stl_mesh_duped, load_stl_mesh_unique, load_stl_triplets", "src/io/ply/load.rs: load_ply_mesh, load_ply_points"]}
{"id": "C163", "title": "What is loaded when a reader fails", "statement": "If a reader fails after some data, the text loaders give exactly the result for a file with the complete lines before the failure, the beginning of a line at the failure is dropped. The loaders of psl and binary stl files give exactly the result for a file that ends at the failure. The ply loaders give one of these two. What the reader would do after the failure does not matter, except that a ply reader is taken to hand over no more data.", "quantifier": "all readers, all points of failure, all contents", "why_tests_cant": "content, point of failure and the behaviour after it are arbitrary", "anchors": ["src/io/utils.rs: fetch_line", "src/io/xyz.rs: load_xyz", "src/io/xy.rs: load_xy", "src/io/obj.rs: load_obj_mesh, load_obj_points", "src/io/off.rs: load_off_mesh, load_off_points", "src/io/pts.rs: load_pts", "src/io/ptx.rs: load_ptx", "src/io/gcode.rs: load_gcode_points", "src/io/psl.rs: load_psl", "src/io/stl.rs: load_stl_triplets", "src/io/ply/load.rs: load_ply_mesh, load_ply_points"]}
{"id": "C164", "title": "Read errors reported as success", "statement": "Users expect an error if reading fails. The text loaders never report it: for every file of points or meshes in the xyz, xy, obj, off, pts and gcode formats that loads without error, and for every point at which the reader fails, the loader answers Ok with the elements of the complete lines before the failure; the error for a failed access is never returned, whatever the reader does. The same holds for text stl files after their first line.", "quantifier": "all loadable files, all points of failure, all readers", "why_tests_cant": "file and point of failure are arbitrary", "anchors": ["src/io/utils.rs: fetch_line, FetchLineError", "src/io/xyz.rs: XyzIterator, load_xyz", "src/io/xy.rs: XyIterator, load_xy", "src/io/obj.rs: load_obj_mesh, load_obj_points", "src/io/off.rs: load_off_mesh, load_off_points", "src/io/pts.rs: load_pts", "src/io/gcode.rs: load_gcode_points", "src/io/stl.rs: StlAsciiIterator, load_stl_triplets"]}
{"id": "C165", "title": "Read errors of binary files are reported", "statement": "If a reader of a binary ply, stl or psl file fails, the elements loaded before are the first ones of the file, and the loader only answers without error if nothing is missing. For a mesh saved by the library as binary ply the answer is an error for every failure before the last byte.", "quantifier": "all files and saved meshes, all points of failure", "why_tests_cant": "file and point of failure are arbitrary", "anchors": ["src/io/ply/load.rs: load_ply_mesh, load_ply_points", "src/io/stl.rs: load_stl_triplets, load_stl_mesh_duped, load_stl_mesh_unique", "src/io/psl.rs: load_psl", "src/io/ply/save.rs: save_ply_binary"]}
{"id": "C166", "title": "Distances in doubles", "statement": "The distance of two points does not depend on their order, whatever the coordinates. For points with finite coordinates it is +0.0 from a point to itself, never negative and never NaN; and if the true distance of the positions is zero or between 2^-480 and 2^511, the computed one is finite and within a relative error of 2^-51, in the plane and in space. Expectations that fail: the triangle inequality, that different positions are at a positive distance, that finite positions are at a finite distance.", "quantifier": "all points with double coordinates", "why_tests_cant": "2^192 and more pairs of points, with rounding in every operation", "anchors": ["src/distances_3d.rs: dist_3d, sqr_dist_3d", "src/distances_2d.rs: dist_2d, sqr_dist_2d"]}
{"id": "C167", "title": "Nearest point in doubles", "statement": "For every set of points with finite coordinates and every finite search position the tree finds a nearest point as measured by the computed distance: no stored point has a smaller one, in spite of the rounding of borders and squares. Measured exactly, no stored point is nearer by more than a relative error of 2^-49, if the true distances are zero or between 2^-480 and 2^511. The exactly nearest point need not be returned.", "quantifier": "all sets of points with finite double coordinates, all finite search positions", "why_tests_cant": "points, search positions and the shape of the tree are arbitrary, with rounding in every operation", "anchors": ["src/kd_tree.rs: KdTree, KdNode, nearest, knearest", "src/distances_3d.rs: dist_3d, sqr_dist_3d"]}
{"id": "C168", "title": "Sphere and box searches in doubles miss only the border", "statement": "Points with finite coordinates: a search in a sphere of radius at least 2^-511, infinity included, returns only points with a computed distance of at most the radius, and all points with a smaller one. Measured exactly, everything clearly inside is found and nothing clearly outside, up to a relative error of 2^-51. A search in a box returns only points within half the size on each axis, and all points that are nearer than that on every axis. So only points exactly on the computed border may be missed. For smaller radii points well inside by computed distance may be missed.", "quantifier": "all sets of points with finite double coordinates, all spheres and boxes", "why_tests_cant": "points, spheres and boxes are arbitrary, with rounding in every operation", "anchors": ["src/kd_tree.rs: in_sphere, in_box", "src/distances_3d.rs: dist_3d"]}
{"id": "C169", "title": "Values keep the contracts of ==, hash and partial_cmp, except for signed zeros", "statement": "For sizes, points, unit vectors, lines, rays, segments, planes, bounding boxes, circles, spheres, boxes, filters made of them, clouds, polygons, meshes, k-d trees, ids, faces, colors and half edges: == is symmetric and transitive and a value equals itself exactly if it holds no NaN; partial_cmp is a partial order in keeping with == that is total on values without NaN; two values feed the same data to a hasher exactly if they are identical, also as parts of larger values; equal values without negative zeros are identical, and equal positive sizes are hashed alike. The expectation of hash maps that equal values have equal hashes fails for 0.0 and -0.0 in every type with coordinates.", "quantifier": "all values of these types, containers of all sizes, all point types that keep the contracts", "why_tests_cant": "laws over pairs and triples of values with arbitrary doubles and sizes", "anchors": ["src/utils.rs: hash_f64", "src/point_3d.rs: Hash for Point3D", "src/positive.rs: Hash for Positive", "src/non_negative.rs: Hash for NonNegative", "src/norm_3d.rs: Hash for Norm3D", "src/mesh_3d.rs: Mesh3D", "src/kd_tree.rs: KdTree, KdNode", "src/half_edge.rs: HalfEdge"]}
{"id": "C170", "title": "Sorting lines, boxes, clouds, meshes and trees by their total order", "statement": "cmp of lines, rays, planes, bounding boxes, clouds, polygons, meshes and k-d trees is a total preorder on values without NaN, for containers whenever that of the points is, so sorting them neither panics nor loses order. Clouds are compared lexicographically with a shorter cloud before its extensions, meshes by points before indices, and an empty tree is less than every other. But cmp disagrees with ==, as different values may compare as Equal, and with partial_cmp, which may answer Less where cmp answers Greater, because points are ordered by their distance to the origin.", "quantifier": "all values of these types without NaN, containers of all sizes", "why_tests_cant": "laws over pairs and triples of values with arbitrary doubles and sizes", "anchors": ["src/line_3d.rs: Line3D", "src/plane_3d.rs: Plane3D", "src/bounding_box_3d.rs: BoundingBox3D", "src/point_cloud_3d.rs: PointCloud3D", "src/mesh_3d.rs: Mesh3D", "src/kd_tree.rs: KdTree", "src/point_3d.rs: Ord for Point3D"]}
{"id": "C171", "title": "Iterators over files after their end", "statement": "Every iterator over .xy, .xyz, .obj, .off, .pts, gcode, .ptx, .psl, .las, .stl and .ply data that has returned None returns None for ever, also if the reader could deliver more, as promised by FusedIterator; and apart from .ptx and meshes in .ply files an iterator that has returned an error returns None for ever. Iterators over .ply and .stl files give exactly what the loaders take: the numbers to reserve first, then the loaded points, faces and normals in order, then the same error or end; only a face with invalid indices is given although loading stops there. The same expectation fails for .ptx, where the points after a broken one are still returned, and for meshes in .ply files, where after a broken vertex the following line is returned as a face, with indices of vertices that do not exist.", "quantifier": "all iterator states, all readers (including failing ones), any number of further calls", "why_tests_cant": "universal over iterator states, readers and numbers of calls", "anchors": ["src/io/ply/iterators.rs: PlyMeshIterator, PlyPointsIterator", "src/io/ply/iterators_internal.rs: PlyAsciiMeshIterator, PlyBinaryMeshIterator", "src/io/ptx.rs: PtxIterator", "src/io/stl.rs: StlIterator", "src/io/psl.rs: PslIterator", "src/io/las/load.rs: LasIterator", "src/io/xyz.rs: XyzIterator", "src/io/obj.rs: ObjMeshIterator", "src/io/off.rs: OffMeshIterator"]}
{"id": "C172", "title": "Saving through writers that take pieces, are interrupted or fail", "statement": "Saving .xy, .xyz, ASCII .stl and ASCII .ply through any writer, however many bytes each call takes, however often it is interrupted and wherever it fails, answers Ok with exactly the whole file handed over, or with the AccessFile error and a strict beginning of the file handed over; it answers Ok whenever no call fails or takes nothing. Binary .ply does the same for writers without short writes. Color lists of the wrong length are refused before anything is written. Positions saved with Ok load back; those saved in part load to the first ones and at most one more. The expectation that binary .ply tolerates interruptions like the others fails.", "quantifier": "all meshes, positions, delimiters and colors, all writers (lists of answers of any length), all contents already written", "why_tests_cant": "universal over sequences of short writes, interruptions and failures, at every byte of every file", "anchors": ["src/io/xy.rs: save_xy", "src/io/xyz.rs: save_xyz", "src/io/stl.rs: save_stl_ascii", "src/io/ply/save.rs: save_ply_ascii, save_ply_ascii_colored, save_ply_binary, save_ply_binary_colored"]}
{"id": "C173", "title": "Normalised vectors in doubles", "statement": "For every vector of finite doubles whose length lies between 2^-480 and 2^511, Norm2D::new and Norm3D::new succeed, each coordinate of the result is the quotient of coordinate and length up to a relative error of 2^-50, and the length of the result is one up to 2^-48. Finite vectors never panic. The expectation that this holds of every finite non-zero vector fails: with a coordinate of 2^512 or more the result is always a zero vector without an error, with all coordinates at most 2^-538 there is always an error, in between lengths such as 3/4 occur, and the normal of a small face can lie in the plane of the face.", "quantifier": "all finite doubles as coordinates", "why_tests_cant": "accuracy over all of the 2^192 inputs cannot be sampled; rounding errors must be bounded", "anchors": ["src/norm_2d.rs: Norm2D::new", "src/norm_3d.rs: Norm3D::new", "src/is_2d.rs: abs", "src/is_3d.rs: abs", "src/functions.rs: normal_of_face"]}
{"id": "C174", "title": "Geometric filters in doubles", "statement": "For finite positions and radii between 2^-478 and 2^510, FilterSphere and FilterCircle accept every position closer than the radius and none farther away, up to a relative error of 2^-50 of the radius. For finite positions and sizes of at least 2^-1021, FilterBox2D and FilterBox3D accept every position that truly lies between the borders, and what they accept lies between the borders or is the double nearest to a border; for all doubles they accept exactly what their own bounding boxes enclose. The last fails for spheres: FilterSphere can accept a position outside of its own bounding box.", "quantifier": "all finite doubles as positions, all radii and sizes in the stated ranges", "why_tests_cant": "rounding must be bounded for all positions, including those next to the border", "anchors": ["src/filter_sphere.rs: is_allowed, bounding_box", "src/filter_circle.rs: is_allowed", "src/filter_box_2d.rs: is_allowed, bounding_box", "src/filter_box_3d.rs: is_allowed, bounding_box", "src/sphere.rs: bounding_box"]}
{"id": "C175", "title": "Precision of an index vector seen through its typed getters", "statement": "A DynamicPrecisionIndexVec is at every time stored with the smallest of u8, u16, u32 and usize that fits every number ever pushed, set or announced by ensure_supported, never less than before: exactly the getter of that precision answers, with the elements in order, and the other three answer None. The getters with mut hand out the same vector and what the caller leaves there are the new contents; get_usize_upgraded(_mut) always answers and fixes the precision to usize. This holds after new, with_capacity, with_support_for, with_capacity_and_support_for and all From conversions. A call of set that panics for its index has raised the precision nevertheless.", "quantifier": "all histories of calls of any length, all numbers that fit into their types, all starting constructors", "why_tests_cant": "the precision depends on the whole history of calls, and conversions between the precisions happen at arbitrary points of it", "anchors": ["src/dynamic_precision_index_vec.rs: get_u8, get_u8_mut, get_u16, get_u16_mut, get_u32, get_u32_mut, get_usize, get_usize_mut, get_usize_upgraded, get_usize_upgraded_mut, From", "src/is_index_container.rs: with_capacity, with_support_for, with_capacity_and_support_for"]}
{"id": "C176", "title": "Lengths do not depend on the start or the sense", "statement": "In exact arithmetic the length of a polygon depends neither on the vertex it starts at nor on its sense, and the length of a point cloud not on its sense. One more point inserted anywhere makes neither shorter. Moving keeps both, and scaling multiplies both by the factor, except that clouds and polygons without a bounding box (fewer than two points, or no extent in some direction) are left as they are.", "quantifier": "all clouds and polygons of any size in two and three dimensions, all positive factors, all moves", "why_tests_cant": "tests compare a few polygons; the claims compare every polygon with every rotation, reversal and insertion", "anchors": ["src/polygon_2d.rs: length, scale, move_by", "src/polygon_3d.rs: length, scale, move_by", "src/point_cloud_2d.rs: length, scale, move_by", "src/point_cloud_3d.rs: length, scale, move_by"]}
{"id": "C177", "title": "Lengths in doubles", "statement": "For finite points at most 2^40 in number whose neighbours are equal or between 2^-480 and 2^511 apart, the computed length of a path or polygon differs from the true one by at most n + 4 units of relative size 2^-52, where n is the number of points. For any finite points the length of a path is a number that is not negative, and pushing a point never makes it smaller. What fails in doubles: the length of a polygon can depend on the vertex it starts at, and adding a vertex can make it smaller.", "quantifier": "all finite doubles as coordinates in the stated ranges, all numbers of points", "why_tests_cant": "the rounding errors of all additions accumulate along arbitrarily long paths", "anchors": ["src/polygon_2d.rs: length", "src/polygon_3d.rs: length", "src/point_cloud_2d.rs: length", "src/point_cloud_3d.rs: length", "src/distances_2d.rs: dist_2d", "src/distances_3d.rs: dist_3d"]}
{"id": "C178", "title": "Distances to boxes in doubles", "statement": "For a box and a position with finite coordinates the computed (squared) distance of the box is exactly the computed (squared) distance from the position to one point of the box, the same as the truly closest point of the box. No other point of the box has a smaller computed distance. Where the true distance is 0 or between 2^-480 and 2^511 the result is within the accuracy of distances between points. The squared distance of two boxes is the computed squared distance of a pair of points, one of each box, which are truly closest, and no pair has a smaller one. What fails: a position outside of the box can be at computed distance 0.", "quantifier": "all boxes with finite corners in order, all finite positions, all pairs of such boxes, in two and three dimensions", "why_tests_cant": "the claim compares the result with every point of the box (infinitely many in exact arithmetic) under all roundings, including overflow", "anchors": ["src/bounding_box_3d.rs: sqr_distance, distance, sqr_distance_bb", "src/bounding_box_2d.rs: sqr_distance, distance, sqr_distance_bb"]}
{"id": "C179", "title": "Messages tell errors apart", "statement": "Within each file format two different errors never have the same message, and a message with line information determines the error, the line number and the text of the line. For ply files this holds for all errors except that of an unknown type: its message contains a word of the file in quotes and can be mistaken for a message with another line. Converting an error keeps its line information and its message, also into the error type of the crate. What fails: the messages of the crate's error type do not tell which format an error is from (for example, a file that can't be accessed).", "quantifier": "all pairs of errors of all formats, all line numbers, all texts of lines", "why_tests_cant": "injectivity compares all pairs of messages, with arbitrary texts of lines that may themselves look like messages", "anchors": ["src/result.rs: ErrorKind", "src/io/types.rs: WithLineInfo", "src/io/ply/types.rs: PlyError", "src/io/stl.rs: StlError", "src/io/ptx.rs: PtxError", "src/io/xy.rs: XyError", "src/io/xyz.rs: XyzError", "src/io/obj.rs: ObjError", "src/io/off.rs: OffError", "src/io/pts.rs: PtsError", "src/io/gcode.rs: GcodeError", "src/io/las/types.rs: LasError"]}
{"id": "C180", "title": "Centers of gravity in doubles", "statement": "For at most 2^40 points with finite coordinates of absolute value up to 2^960, every coordinate of the center of gravity of a cloud differs from the true mean by at most n + 1 units of 2^-52 relative to the mean of the absolute values (plus 2^-1074), n being the number of points. If the coordinates are integers whose absolute values sum up to at most 2^53, no double is closer to the true mean. What fails in doubles: the center can lie outside of the range of the coordinates (ten points with x = 0.1 have a center with x < 0.1), it depends on the order of the points, and it can be infinite for two finite points.", "quantifier": "all clouds of up to 2^40 points with coordinates in the stated range, in two and three dimensions", "why_tests_cant": "the rounding errors of all additions accumulate along arbitrarily long clouds", "anchors": ["src/point_cloud_2d.rs: center_of_gravity", "src/point_cloud_3d.rs: center_of_gravity"]}
{"id": "C181", "title": "The convex hull in doubles is exact on grids", "statement": "For finite double points whose coordinates are multiples of some 2^e (-500 <= e <= 480) by integers of absolute value at most 2^25 \u2014 for instance integer coordinates up to 33 million \u2014 the 2D convex hull computed in doubles is exactly the hull computed in real arithmetic. So for at least two points with different x values it consists of input points without repetition, contains the leftmost and the rightmost one, every input point lies on the left of or on every edge, and consecutive corners turn strictly left. Without the grid this fails: for points below 2^-599 apart the orientation underflows to zero and a strictly extreme point is left out of the hull.", "quantifier": "Every grid exponent, every list of grid points with different x values, and every stable sort; a concrete witness for the refutation.", "why_tests_cant": "Orientation tests cancel: unit tests with a few well separated points cannot show that no rounding error changes any of the turns.", "anchors": ["src/convex_hull_2d.rs: convex_hull_2d, ccw", "src/point_cloud_2d.rs: sort_x"]}
{"id": "C182", "title": "Searching a kd tree of grid points is exact in doubles", "statement": "For finite double points whose coordinates are multiples of some 2^e (-500 <= e <= 480) by integers of absolute value at most 2^23 \u2014 for instance integer coordinates up to 8 million \u2014 a KdTree searched in doubles gives the mathematically exact answers: in_sphere finds exactly the points of the closed ball and in_box exactly those of the closed box (center on the same grid, radius and sizes multiples up to 2^25), each as often as it was stored and after what the result already contained, and nearest gives a truly closest point. Without the grid these claims fail (C18, C19) or only hold up to rounding (C167, C168).", "quantifier": "all stored types with grid positions, all numbers of points, all grid exponents, all spheres, boxes and search positions on the grid, all sort implementations", "why_tests_cant": "the pruning compares rounded roots and rounded borders at every node; a test can only sample trees, and a single wrong comparison loses a whole branch", "anchors": ["src/kd_tree.rs: build, in_sphere, in_box, nearest", "src/distances_3d.rs: dist_3d, sqr_dist_3d"]}
{"id": "C183", "title": "Shapes that clearly overlap, or share a corner, are reported as colliding in doubles", "statement": "For axis aligned boxes and triangles in doubles (at least one of the two a triangle) whose coordinates are at most M in absolute value, with M between 2^-900 and 2^200: if they still share a point after moving one of them by M*2^-46 in any direction, collides_with gives true; and if they share a corner it gives true however thin they are, even for degenerate triangles. It returns without panicking in all these cases. A margin is needed: the unit cube and the triangle (2,0,-1), (2,-2,2), (-1,5,2), which passes through the corner (1,1,1) of the cube, are reported as apart, while in exact arithmetic shapes with a common point always collide (C51).", "quantifier": "all boxes and triangles of finite doubles within the size limits, all pairs that are not two boxes, all orders of the two arguments", "why_tests_cant": "the normalised axes and the projections are rounded at every step, so whether an axis separates by mistake depends on all bits of all coordinates; tests sample a few pairs", "anchors": ["src/sat_collider.rs: SATCollider::collide", "src/tri_face_3d.rs: IsSATObject", "src/bounding_box_3d.rs: IsSATObject", "src/collider_3d.rs: collides_with"]}
{"id": "C184", "title": "Collisions of grid boxes, and trees of them, are exact in doubles", "statement": "For boxes whose corners are finite doubles, in order, and multiples of some 2^e (-1070 <= e <= 950) by integers of absolute value at most 2^48 \u2014 for instance whole numbers up to 2.8*10^14 \u2014 collides_with in doubles is true exactly if the open boxes have a point in common, and an AABBTree of elements with such boxes, for every depth and bucket size, finds through bb_colliding, for_each_collision_candidate and any_element_collides_with_bounding exactly the elements whose open box meets the given one. No query panics. Without the grid a tree can lose colliding elements (C79).", "quantifier": "all element types with grid boxes, all numbers of elements, all grid exponents, all depths and bucket sizes, all query boxes on the grid, 2D and 3D", "why_tests_cant": "centers, sizes and merged boxes are computed in doubles at every node, and one comparison that goes wrong loses a whole branch; tests sample a few trees", "anchors": ["src/bounding_box_3d.rs: collides_with, center_bb, consume", "src/bounding_box_2d.rs: collides_with", "src/aa_bb_tree_3d.rs: new_rec, bb_colliding, for_each_collision_candidate", "src/aa_bb_tree_2d.rs: new_rec, bb_colliding"]}
{"id": "C185", "title": "Transforming points by matrices in doubles", "statement": "For finite double points and entries: the unit matrix gives back a point equal to the given one; translation matrices add and scale matrices multiply each coordinate with one rounding, exactly as the direct operations do (up to the sign of a zero, also when a result overflows); a pipe with a scale and a translation gives x*s+t with exactly the two roundings of these operations. For any matrix whose row has terms summing to at most 2^1000 in absolute value, each coordinate is finite and off by at most 5*2^-53 times that sum plus 4*2^-1075. With whole numbers (entries up to 2^10, coordinates up to 2^20) all products and transformations are exact, so transforming by a product of affine matrices equals transforming twice. In general it does not: with a scale by 3 after a scale by the double nearest 1/3, 7 becomes 7 by the product and another number step by step, and products of three matrices depend on their grouping.", "quantifier": "all finite points, all translations, scales, matrices and pipes of this form, 2D and 3D", "why_tests_cant": "whether rounding, signed zeros or overflow in the unused terms leak into the result depends on all bits of all entries; tests use a few round numbers", "anchors": ["src/is_buildable_3d.rs: multiply_m", "src/is_buildable_2d.rs: multiply_m", "src/matrix4.rs: translation, scale, Mul", "src/matrix3.rs: Mul", "src/matrix4_pipe.rs: result", "src/matrix3_pipe.rs: result"]}
{"id": "C186", "title": "Collisions of boxes anywhere in doubles", "statement": "For boxes in finite doubles with corners in order and coordinates of absolute value at most 2^k (any k from -960 to 1000), the collision test of two boxes answers (no panic, no NaN): boxes that overlap by at least 2^(k-48) along every axis are reported as colliding, and boxes reported as colliding are apart by at most 2^(k-48) along every axis. The same margins hold for the items, candidates and yes/no answer of a tree of such boxes, for every data, depth and bucket size: no clearly overlapping item is lost by pruning and nothing clearly apart is returned. A margin is needed on both sides: boxes that overlap by 2^-55 are reported as apart, and boxes that only touch are reported as colliding.", "quantifier": "all pairs of boxes with finite corners in order within the range, all trees over such boxes, all depths and bucket sizes, 2D and 3D", "why_tests_cant": "the answer depends on several roundings of sizes and centers per axis and per tree level; tests use boxes for which all of these are exact", "anchors": ["src/bounding_box_3d.rs: collides_with", "src/bounding_box_2d.rs: collides_with", "src/aa_bb_tree_3d.rs: new, bb_colliding, for_each_collision_candidate, any_collides_with_bounding", "src/aa_bb_tree_2d.rs: new, bb_colliding, for_each_collision_candidate"]}
{"id": "C187", "title": "Meshes, half edges and searchable meshes made of parts", "statement": "A mesh made of any points and indices takes them unchecked: it has these points, one face per complete triple of indices, a face that names a missing point has ids but no vertices, and taking it apart gives back points and indices. With complete triples of distinct, existing indices every history of edits goes on as specified for meshes built by the API; otherwise left over indices become part of the next face: the id returned for an added face shows the given vertices exactly if the number of indices was a multiple of three. Half edges made of any tails, twins and lists per vertex answer from these parts, stay within the triple of an edge when following next and prev, stay among the edges exactly if the number of tails is a multiple of three, and pass on the stored ids per vertex unchecked. A searchable mesh assembled from a mesh and its half edges is the one built by new; a mesh and half edges that do not belong together are not noticed, and then edges of a face need not exist.", "quantifier": "all lists of points and indices, all half edge tables, all histories of edits after assembling", "why_tests_cant": "parts can be any data; tests assemble only what they took apart before", "anchors": ["src/mesh_3d.rs: From<(PointCloud3D, IdxVec)>, Into", "src/half_edge.rs: From, Into, next, prev, edges_originating, edges_ending, edges_all, faces", "src/searchable_mesh.rs: From, Into, AsRef, edges_of_face"]}
{"id": "C188", "title": "Mesh algorithms on points and indices that do not fit", "statement": "For a mesh assembled from any points and indices: heal_mesh panics exactly if some face names a missing point, and otherwise gives a valid mesh without the faces that collapse, so faces that name a point twice are healed away; linear subdivision succeeds exactly if no face names a missing point or the same point twice; unify_faces panics for a missing point and never succeeds with a point named twice; normals_of_mesh and saving as .stl panic for a missing point. Saving as .ply goes ahead without an error, against expectation: the saved text cannot be loaded, and the binary file can load as another, valid mesh, because indices are cut to 32 bits.", "quantifier": "all lists of points, all lists of indices, every equality of points, every midpoint function, every formatting of floats", "why_tests_cant": "needs meshes that no sequence of edits produces, with every kind of bad index in every position", "anchors": ["src/heal_mesh.rs: heal_mesh", "src/subdivide.rs: linear", "src/unify_faces.rs: unify_faces", "src/utils.rs: normals_of_mesh", "src/io/stl.rs: save_stl_ascii", "src/io/ply/save.rs: save_ply_ascii, save_ply_binary"]}
{"id": "C189", "title": "Midpoints and subdivision in doubles", "statement": "For points with finite double coordinates center() and center_nd() give, in every coordinate, the double nearest to the true midpoint, between the two coordinates and the same from both ends, whenever the sum of the coordinates does not overflow (for example up to 2^1022), and something infinite otherwise. The functions center_2d and center_3d give a coordinate between the two exactly if their difference does not overflow, and then at most 2^-52 of the larger one plus 2^-1075 from the true midpoint. Subdividing a valid mesh with coordinates up to 2^1022 any number of times gives four faces per face and step, one vertex per edge nearest to its true midpoint whichever face comes first, keeps the ids of old vertices, keeps all coordinates finite and leaves the bounding box unchanged. What fails: finite vertices with larger coordinates can get a vertex at infinity; a new vertex can coincide with an old one, so faces without area appear; center_3d depends on the order of its arguments.", "quantifier": "all pairs of points with finite double coordinates, all valid meshes within the range, any number of subdivisions", "why_tests_cant": "depends on how each of the sums is rounded, on overflow and on underflow of the halves; tests use small integers", "anchors": ["src/is_buildable_3d.rs: center", "src/is_buildable_2d.rs: center", "src/is_buildable_nd.rs: center_nd", "src/functions.rs: center_2d, center_3d", "src/subdivide.rs: linear", "src/bounding_box_3d.rs: from_iterator"]}
{"id": "C190", "title": "Moving, scaling and transforming meshes", "statement": "Any history of moves, scalings and transformations by matrices of any mesh keeps its faces and the number of vertices, and all vertices move by one common function of the position. The half edges of a searchable mesh stay valid: those of the mesh placed anew are those from before, and scaling a searchable mesh gives the searchable mesh of the scaled mesh. In real arithmetic the center of gravity of the vertices moves along, and what was in front of a face (where its normal points to) is in front of it afterwards if the product of the determinants of the matrices is above zero and behind it if it is below zero; a face without a normal stays without one. The bounding box is the tight box around all vertices, also those no face uses. Users expect scaling to change the size of every mesh and moving to keep the faces; a mesh whose vertices share a coordinate is not scaled at all, and in doubles a move can collapse a face, its normal is then an error and moving back does not repair it.", "quantifier": "all meshes and all histories of moves, scalings and transformations; all faces, all points beside them", "why_tests_cant": "histories, matrices and meshes are unbounded, and the side of a face a point is on is a claim about all points", "anchors": ["src/mesh_3d.rs: move_by, scale, transform, transformed, bounding_box_maybe, center_of_gravity", "src/searchable_mesh.rs: scale, bounding_box_maybe, center_of_gravity", "src/is_mesh_3d.rs: face_normal"]}
{"id": "C191", "title": "Displayed texts of geometry", "statement": "The displayed texts of points, lines, rays, line segments, point clouds, polygons, faces and ids tell which one was displayed: two objects of a kind with the same text are equal (for finite coordinates, minus zero apart), also clouds of different lengths; a point is never displayed like a line, and nothing of the plane like something in space. Users expect to tell a line from a line segment and to parse what was displayed; a line is displayed like the segment from its anchor to its direction, and the parser rejects the displayed text of every point and of every cloud.", "quantifier": "all points, lines, segments, clouds, faces and ids; all ways to print numbers that can be parsed back", "why_tests_cant": "the claim is about pairs of objects, of which there are infinitely many; tests compare single texts", "anchors": ["src/point_2d.rs, src/point_3d.rs: fmt", "src/line_2d.rs, src/line_3d.rs, src/ray_2d.rs, src/ray_3d.rs: fmt", "src/line_segment_2d.rs, src/line_segment_3d.rs: fmt", "src/point_cloud_2d.rs, src/point_cloud_3d.rs: fmt, parse", "src/polygon_2d.rs, src/polygon_3d.rs: fmt", "src/face3.rs: fmt", "src/strong_types.rs: fmt", "src/is_buildable_2d.rs, src/is_buildable_3d.rs: parse"]}
{"id": "C192", "title": "A ray straight up or down against level triangles is decided exactly in doubles", "statement": "If the corners of a triangle lie at one height, the ray points straight up or straight down, and all coordinates are multiples of one power of two by integers up to 2^20 (the power between 2^-200 and 2^200), then intersecting the ray with the triangle in double precision reports a point exactly if the exact ray passes strictly through the inside of the exact triangle - also next to corners and edges, for degenerate triangles and for rays starting in the plane of the triangle; the reported point has exactly the x and y of the true one and its z is off by at most the grid spacing times 2^-28. Collecting over any list of such faces returns these points in the order of the faces. Users who expect the same for triangles that are not level are wrong: a ray straight down through the common edge of two sloped triangles with small integer coordinates is reported as hitting both, though it passes through the inside of neither.", "quantifier": "all rays and triangles of that kind, all lists of faces", "why_tests_cant": "exactness next to edges has to hold for every one of the huge number of coordinates; samples rarely come close to an edge", "anchors": ["src/functions.rs: intersection_ray_triangle, collect_intersections_ray_mesh, normal_of_face"]}
{"id": "C193", "title": "Rays along an axis find in doubles exactly the boxes they hit, alone and in a tree", "statement": "For a ray whose direction is plus or minus one along an axis and zero (of either sign) along the others, as are the axis directions the library offers, and which does not lie in the plane of a face of the box parallel to it, intersecting the ray with an axis aligned box in double precision reports a point exactly if the exact ray meets the closed exact box, for all boxes and starting points with finite coordinates up to 2^1000. The point has exactly the coordinates of the starting point across the axis and along it is the side of the box the line enters by, up to 2^-51 of the two coordinates involved; for a ray starting inside the box that point is behind the start. The elements of a tree of boxes passed to the callback of a ray query are exactly those whose boxes are hit, whatever the depth and bucket size of the tree. A user who expects this of rays in the plane of a face is wrong: a ray that passes along the lower y face of a box ahead of it reports no hit.", "quantifier": "all axes and both senses, all starting points, boxes and lists of boxes off the planes of faces, all depths and bucket sizes", "why_tests_cant": "division by a zero direction gives infinities that have to combine correctly for every relative position of ray and box, and pruning must never lose a hit", "anchors": ["src/functions.rs: intersection, min64, max64", "src/aa_bb_tree_3d.rs: for_each_intersection_candidate, new", "src/is_normalized_3d.rs: norm_x, norm_x_neg"]}
{"id": "C194", "title": "Arbitrary bytes never break the stl loaders", "statement": "For every byte string and every requested format, load_stl_triplets, load_stl_mesh_duped and load_stl_mesh_unique end after at most one iterator call per byte plus one, with a result or an error, and never panic. Whatever the result, there are three points and one normal per triplet; the duplicating mesh loader leaves one face with three vertices of its own per normal; the unique one leaves only faces with three different existing vertices and one normal per face, however points compare.", "quantifier": "all byte strings, formats and ways points compare", "why_tests_cant": "no test enumerates all files", "anchors": ["src/io/stl.rs: load_stl_triplets, load_stl_mesh_duped, load_stl_mesh_unique, StlAsciiIterator, StlBinaryIterator"]}
{"id": "C195", "title": "Whatever a mesh loader leaves behind can be converted to ply", "statement": "For every file (below 4 GiB for ply, obj and off, below 1 GiB for stl), also a broken one: the mesh left behind after loading can be saved as binary ply in f64 precision with any fitting colors, and loading what was written succeeds and gives exactly the same vertices and faces, also if coordinates are infinite or NaN. The same holds for ascii ply if the coordinates survive printing and parsing.", "quantifier": "all byte strings, loaders and colors", "why_tests_cant": "all combinations of a loader, a possibly malformed file and a saver", "anchors": ["src/io/ply/save.rs: save_ply_binary, save_ply_ascii", "src/io/ply/load.rs: load_ply_mesh", "src/io/obj.rs: load_obj_mesh", "src/io/off.rs: load_off_mesh", "src/io/stl.rs: load_stl_mesh_duped, load_stl_mesh_unique"]}
{"id": "C196", "title": "Trees of clouds, polygons and meshes find everything a plane cuts", "statement": "A cloud, polygon or mesh with finite coordinates (fewer than 2^31 points) is accepted by the conversion to data that always has a bounding box exactly if its points do not all share a coordinate on any axis; otherwise the conversion returns nothing, and it never panics. Whatever was accepted is handed back unchanged and never panics when asked for its box. A box tree built of converted data, with any depth and bucket size, asked for what crosses a value of an axis, appends exactly those clouds, polygons or meshes that have a point strictly below and a point strictly above the value.", "quantifier": "all lists of clouds, polygons and meshes of finite doubles, all depths, bucket sizes and plane values", "why_tests_cant": "Tests query one tree at a few values; they cannot cover every set of objects, every split and the rounding of the centers the tree splits at.", "anchors": ["src/has_bounding_box_2d.rs: HasBoundingBox2DConverted", "src/has_bounding_box_3d.rs: HasBoundingBox3DConverted", "src/aa_bb_tree_2d.rs: bb_crossing_x_value, bb_crossing_y_value", "src/aa_bb_tree_3d.rs: bb_crossing_x_value, bb_crossing_y_value, bb_crossing_z_value", "src/point_cloud_3d.rs: bounding_box_maybe", "src/mesh_3d.rs: bounding_box_maybe", "src/polygon_2d.rs: bounding_box_maybe"]}
{"id": "C197", "title": "Facets of arbitrary stl files with and without shared vertices", "statement": "For every byte string and format, load_stl_triplets, load_stl_mesh_duped and load_stl_mesh_unique end with the same result or error. If the comparison of points decides equality of the positions in the file (as it does for finite positions without negative zeros), the mesh of load_stl_mesh_unique has each position of the file exactly once, in the order of first appearance, and exactly the facets whose three corners differ, in order, each with the normal it has in the file; facets with two equal corners and their normals are dropped silently. Users expect no duplicates in any case; it fails for coordinates that are not a number: a facet with three identical NaN corners becomes a face with three vertices.", "quantifier": "all byte strings, formats and ways points compare that decide equality", "why_tests_cant": "all files, valid, cut or malformed, text or binary, with any pattern of shared and repeated corners", "anchors": ["src/io/stl.rs: load_stl_mesh_unique, load_stl_mesh_duped, load_stl_triplets"]}
{"id": "C198", "title": "Healing a mesh loaded with a vertex per corner gives the mesh loaded with shared vertices", "statement": "For every stl file, text or binary, also a cut or malformed one: loading it with load_stl_mesh_duped and calling heal_mesh gives exactly the mesh that load_stl_mesh_unique gives, with the same vertices under the same ids and the same faces in the same order, if points compare as equal exactly when they are.", "quantifier": "all byte strings and formats; all ways points compare that decide equality", "why_tests_cant": "tests compare the two ways on single files; the equality of ids and order has to hold for every pattern of shared, repeated and degenerate facets", "anchors": ["src/io/stl.rs: load_stl_mesh_unique, load_stl_mesh_duped", "src/heal_mesh.rs: heal_mesh", "src/utils.rs: pack_dupes_indexed"]}
{"id": "C199", "title": "Every loaded mesh can be searched, healed and subdivided", "statement": "For every text or byte sequence read as a .ply, .obj, .off (below 4 GiB) or .stl file (below 1 GiB), also one that is broken somewhere so that loading stops with an error, the mesh left by the loader can be processed further without a panic: half edges can be built for it and there are three per face; healing it with any comparison that is an equality gives a mesh whose faces all refer to its vertices and that has no more faces than before; subdividing it, whatever the midpoint function, keeps all its vertices in front and gives four faces per face, all of them referring to vertices of the result.", "quantifier": "all files of the four formats, both stl loaders and all format choices, all equalities and all midpoint functions", "why_tests_cant": "a test loads a few well formed files; that no content of a file, also a broken one, makes a later algorithm index out of bounds is a claim about all files", "anchors": ["src/io/ply/load.rs: load_ply_mesh", "src/io/obj.rs: load_obj_mesh", "src/io/off.rs: load_off_mesh", "src/io/stl.rs: load_stl_mesh_duped, load_stl_mesh_unique", "src/half_edge.rs: HalfEdge::new", "src/searchable_mesh.rs: SearchableMesh::new", "src/heal_mesh.rs: heal_mesh", "src/subdivide.rs: linear"]}
{"id": "C200", "title": "Healing twice reaches a fixed point, healing once may not", "statement": "heal_mesh promises a mesh with shared vertices. One would expect that healing a healed mesh changes nothing. This holds for every mesh without a face that has two corners at the same position. It fails in general: the corners of the faces dropped by healing stay behind as vertices that belong to no face, and only healing again drops them. After two calls the mesh is final for every input: a third call gives exactly the same mesh, all faces are kept by the second call, and every vertex belongs to a face.", "quantifier": "all meshes with faces of existing vertices and all comparisons of positions that are equalities; the failure by a witness", "why_tests_cant": "tests heal single meshes once; that repeated healing settles is a claim about all meshes and all patterns of shared positions", "anchors": ["src/heal_mesh.rs: heal_mesh", "src/utils.rs: pack_dupes_indexed"]}
{"id": "C201", "title": "Subdividing and healing keep closed meshes closed", "statement": "Call a mesh closed if along every edge as many faces run in one direction as in the other, as on the surface of a solid with consistently oriented faces. For every closed mesh, subdividing it gives a closed mesh with four times the faces, whatever the midpoint function, so no cracks open between the parts of neighbouring faces; a mesh that is not closed does not become closed by it. Healing a closed mesh gives a closed mesh, whatever equality compares the positions, also if faces collapse and are dropped.", "quantifier": "all closed meshes, all midpoint functions, all equalities of positions", "why_tests_cant": "tests look at single meshes; that no pattern of shared edges, merged vertices or collapsed faces opens a hole is a claim about all meshes", "anchors": ["src/subdivide.rs: linear", "src/heal_mesh.rs: heal_mesh"]}
{"id": "C202", "title": "The stl file of a solid is loaded as a closed mesh", "statement": "If between any two positions as many facets of an .stl file run in one direction as in the other, as in every file describing the surface of a solid, then load_stl_mesh_unique gives a closed mesh: along every edge as many of its faces run in one direction as in the other. This holds also for files with facets that have two corners at the same position, which are left out. Positions have to compare as equal exactly when they are.", "quantifier": "all byte strings and formats for which the facets enclose a solid", "why_tests_cant": "tests load single solids; that no pattern of shared and degenerate facets opens a hole is a claim about all files", "anchors": ["src/io/stl.rs: load_stl_mesh_unique, load_stl_triplets"]}
{"id": "C203", "title": "Subdividing adds one vertex per edge", "statement": "Subdividing a mesh adds exactly one vertex for every edge of its faces, however many faces share it, and gives four faces per face. On the surface of a solid, where every edge has exactly one face on each side, there are three edges for every two faces, so the number of added vertices is 3/2 times the number of faces.", "quantifier": "all meshes with proper faces and all midpoint functions", "why_tests_cant": "tests count the result of single meshes; that no pattern of shared edges gives a second midpoint or misses one is a claim about all meshes", "anchors": ["src/subdivide.rs: linear"]}
