# Verification of rust-3d: design and trusted base

rust-3d (source in /repo, pinned commit) is a library of 2D/3D points, containers, meshes, search
trees, filters, geometric algorithms and file formats.  /verif/rocq holds a model of it, written
function by function in Gallina (Rocq/Coq 8.16.1), and machine-checked proofs of the properties
listed in `properties.jsonl`.  Every definition of the model carries a comment citing the file and
lines in /repo it models, and says so where it simplifies.  Nothing in /repo is built or run.

## Layout

For each topic `X` there are up to four kinds of files in `rocq/theories`:

* `XModel.v` - definitions only: the model of the Rust code, with citations;
* `XSpec.v` - the small vocabulary used to state properties, independent of the model's helpers;
* `XLemmas.v` (`XLemmas2.v`, ...) - the proofs;
* `XProps.v` - the property theorems `Cnn_name`, each closed by `Qed`, each followed by
  `Print Assumptions`, and beside them `Example Cnn_case` with a concrete case that meets the
  hypotheses (or that exercises the definition).

`Base.v`, `Num.v` hold the shared conventions; `FloatLemmas.v`, `FloatBridge.v`, `NumLemmas.v`,
`SortLemmas.v`, `BaseLemmas.v`, `PermTac.v` are libraries of lemmas.

## Modelling conventions

* **Numbers.**  Code computing with `f64` is written once, generically, over a record `Num`
  (literals `m*2^e`, +, -, *, /, sqrt, abs, negation, comparison).  Two instances are used.
  * `F64`: IEEE-754 binary64 as the standard library's `Coq.Floats.SpecFloat` (prec 53, emax 1024,
    round to nearest even, one NaN).  It is computable and needs no axioms.
  * `RN`: the classical reals of the standard library, i.e. exact arithmetic.

  A property that says "in exact arithmetic" is about `RN` and says nothing about rounding.
  A property that says "f64"/"IEEE" is about `F64`.  Theorems relating both (rounding of single
  operations) go through Flocq 4.1.0 in `FloatBridge.v`; no axioms of Flocq beyond the standard
  library's are used.  `f32` values are binary32 `SpecFloat` values (prec 24, emax 128); `as f32` /
  `as f64` are `narrow` / `widen` of `ByteModel.v`.
* **NaN payloads and the sign of NaN** are not modelled: there is one NaN.
* **usize** is `N` (or `nat` for structural indices).  Where overflow or truncation can be observed it
  is written as an explicit `mod 2^k`; where debug and release builds differ a parameter
  `dbg : bool` selects panic or wrapping.  The target is 64 bit, little endian unless a parameter says otherwise.
* **Results and panics.**  `outcome E A := Ok | Err | Panic`; `Option` and `Result` stay data, and
  `unwrap`/indexing/`expect` failures are `Panic`.
* **`&mut self`** functions return the new value (also on error where the old value could have been changed).
* **Loops** are folds, structural recursion, or recursion on explicit fuel; where fuel is used the theorems
  show or assume that it suffices and out-of-fuel is a distinct outcome.
* **Hash containers** are association lists; where the iteration order is observable the order is quantified.
* **sort_by** is a parameter constrained to return a permutation that is sorted when the comparison is
  a consistent total order (`SortSpec.v`); `Vec::sort_by` panicking on inconsistent comparisons
  (newer Rust versions) is not modelled.
* **Rc / Arc / Box / lifetimes** are values: aliasing is not observable through the API used here.
* **Bytes** are `list ascii`.  A reader is the list of the remaining bytes, except in
  `ReaderModel.v`, where it is a sequence of chunks, interruptions and failures (all formats but LAS, which seeks); a writer is the list of bytes written.
  IO errors of the operating system appear only where a property speaks of them.
* **Memory** exhaustion is not modelled, except the `capacity overflow` panic of `Vec` reservations where a file can cause it.

## Oracles

Functions of Rust's standard library whose exact results are not part of the model are parameters,
and the laws the theorems need are hypotheses visible in the statements:

* **Float text** (`FText` in `IoModel.v`): `f64::to_string` and `str::parse::<f64>`.  Laws used: what
  `to_string` prints parses back to the same value (documented by Rust: shortest representation that
  round-trips) and contains no separator or newline.  Integer text is concrete.
* **Trigonometry** (`Trig` in `MatrixModel.v` and extensions): `sin`, `cos`, `tan`, `acos`, `atan2`.  In
  exact arithmetic they are the functions of `Coq.Reals`; in f64 theorems they are arbitrary functions, or
  functions with the few laws stated as hypotheses.
* **Random or user supplied parts**: filters, distance functions, comparison closures, colliders are arbitrary functions.

## Trusted base

* Coq's kernel (8.16.1) including its `vm_compute` virtual machine (used for witnesses and examples).
* The axioms that `Print Assumptions` lists per theorem (see the table below).  Only axioms of the standard library
  occur: `ClassicalDedekindReals.sig_not_dec`, `ClassicalDedekindReals.sig_forall_dec`,
  `FunctionalExtensionality.functional_extensionality_dep` (all three come with the type of reals) and
  `Classical_Prop.classic` (used by Flocq's and the standard library's real analysis).  No axiom is added by
  this development; there are no `Admitted`, no functors, no module types, no switched-off checks.
* The model is a hand translation: its correspondence with the Rust source is by review through the line
  citations, not by extraction or by running the code.
* The semantics of Rust, rustc's code generation and IEEE hardware are taken to be as documented.

## Modelled code

Per model file, the source files its definitions cite (lines are in the comments).

| model file | source files |
|---|---|
| AabbModel.v | aa_bb_tree_2d.rs, aa_bb_tree_3d.rs |
| AngleModel.v | filter_direction_field_2d.rs, filter_direction_field_3d.rs, is_2d.rs, is_3d.rs, is_direction_field_2d.rs, is_direction_field_3d.rs, strong_types.rs |
| BBoxModel.v | bounding_box_2d.rs, bounding_box_3d.rs, point_2d.rs, point_3d.rs |
| Base.v | result.rs |
| ByteModel.v | io/byte_reader.rs, io/from_bytes.rs, io/ply/save.rs, io/stl.rs |
| CloudModel.v | distances_nd.rs, functions.rs, impls/vec.rs, impls/vec_deque.rs, is_editable_2d.rs, is_editable_3d.rs, line_segment_2d.rs, line_segment_3d.rs, norm_2d.rs, norm_3d.rs, point_2d.rs, point_3d.rs, point_cloud_2d.rs, point_cloud_3d.rs, polygon_2d.rs, polygon_3d.rs, utils.rs |
| ClusterModel.v | cluster.rs, cluster_vertices.rs, has_bounding_box_3d.rs, mesh_3d.rs |
| CollideModel.v | aa_bb_tree_3d.rs, collider_3d.rs, has_colliders_3d.rs, impls/linked_list.rs, impls/vec.rs, impls/vec_deque.rs, is_collider_container_3d.rs |
| ConvertedModel.v | has_bounding_box_2d.rs, has_bounding_box_3d.rs, point_cloud_2d.rs, polygon_2d.rs |
| DeriveModel.v | bounding_box_2d.rs, bounding_box_3d.rs, box_2d.rs, box_3d.rs, circle.rs, face3.rs, filter_box_2d.rs, filter_box_3d.rs, filter_circle.rs, filter_sphere.rs, half_edge.rs, kd_tree.rs, line_2d.rs, line_3d.rs, line_segment_2d.rs, line_segment_3d.rs, mesh_3d.rs, non_negative.rs, norm_2d.rs, norm_3d.rs, plane_3d.rs, point_2d.rs, point_3d.rs, point_cloud_2d.rs, point_cloud_3d.rs, polygon_2d.rs, polygon_3d.rs, positive.rs, ray_2d.rs, ray_3d.rs, rgb.rs, sphere.rs, strong_types.rs, utils.rs |
| EditModel.v | box_2d.rs, box_3d.rs, circle.rs, filter_box_2d.rs, filter_box_3d.rs, filter_circle.rs, filter_sphere.rs, functions.rs, is_2d.rs, is_3d.rs, is_buildable_2d.rs, is_buildable_3d.rs, is_buildable_nd.rs, is_editable_2d.rs, is_editable_3d.rs, is_nd.rs, line_2d.rs, line_3d.rs, line_segment_2d.rs, line_segment_3d.rs, point_2d.rs, point_3d.rs, ray_2d.rs, ray_3d.rs, sphere.rs |
| ErrTextModel.v | io/gcode.rs, io/las/types.rs, io/obj.rs, io/off.rs, io/ply/types.rs, io/psl.rs, io/pts.rs, io/ptx.rs, io/stl.rs, io/types.rs, io/xy.rs, io/xyz.rs, result.rs |
| FCloudModel.v | point_cloud_3d_f32.rs |
| FilterModel.v | box_2d.rs, circle.rs, filter_all.rs, filter_all_random_accessible.rs, filter_allow.rs, filter_and.rs, filter_any.rs, filter_any_random_accessible.rs, filter_box_2d.rs, filter_box_3d.rs, filter_circle.rs, filter_deny.rs, filter_negate.rs, filter_or.rs, filter_outer_inner.rs, filter_outlier_3d.rs, filter_random_accessible.rs, filter_sphere.rs, filter_xor.rs, impls/linked_list.rs, impls/vec.rs, impls/vec_deque.rs, is_filter.rs, is_filter_random_accessible.rs, point_cloud_2d.rs, point_cloud_3d.rs, view.rs |
| HalfEdgeModel.v | half_edge.rs, searchable_mesh.rs |
| HullModel.v | compressed_point_3d.rs, compressed_point_cloud_3d.rs, convex_hull_2d.rs, douglas_peucker_2d.rs |
| IndexVecModel.v | dynamic_precision_index_vec.rs, is_index_container.rs, u32_index_vec.rs |
| InterpModel.v | factory_2d.rs, interpolate_2d.rs |
| IoModel.v | io/obj.rs, io/off.rs, io/ply/save.rs, io/stl.rs, io/types.rs, io/utils.rs, io/xy.rs, io/xyz.rs, skip_empty.rs, utils.rs |
| IterModel.v | io/ply/iterators.rs, io/stl.rs, io/types.rs |
| KdModel.v | box_3d.rs, functions.rs, kd_tree.rs, sphere.rs |
| LineModel.v | functions.rs, line_3d.rs, norm_3d.rs, point_3d.rs |
| MatrixModel.v | functions.rs, is_buildable_2d.rs, is_buildable_3d.rs, matrix3.rs, matrix3_pipe.rs, matrix4.rs, matrix4_pipe.rs, mesh_3d.rs, point_2d.rs, point_3d.rs, point_cloud_2d.rs, point_cloud_3d.rs, polygon_2d.rs, polygon_3d.rs |
| MeshAlgoModel.v | functions.rs, heal_mesh.rs, is_buildable_nd.rs, point_3d.rs, subdivide.rs, unify_faces.rs, utils.rs |
| MeshModel.v | face3.rs, mesh_3d.rs |
| NdModel.v | box_2d.rs, circle.rs, filter_box_2d.rs, filter_circle.rs, is_normalized_2d.rs, is_normalized_3d.rs, point_2d.rs |
| NeighbourModel.v | is_searchable_mesh.rs, searchable_mesh.rs |
| NormalModel.v | functions.rs, plane_3d.rs, point_2d.rs, point_3d.rs, utils.rs |
| Num.v | distances_2d.rs, distances_3d.rs, is_2d.rs, is_3d.rs, non_negative.rs, point_2d.rs, point_3d.rs, positive.rs, utils.rs |
| OcModel.v | functions.rs, oc_tree.rs, point_cloud_3d.rs |
| PartsModel.v | half_edge.rs, mesh_3d.rs, searchable_mesh.rs |
| PathModel.v | point_cloud_2d.rs, point_cloud_3d.rs, polygon_2d.rs, polygon_3d.rs |
| PlaceModel.v | mesh_3d.rs, searchable_mesh.rs |
| PlyModel.v | enums.rs, io/ply/header.rs, io/ply/iterators.rs, io/ply/iterators_internal.rs, io/ply/load.rs, io/ply/save.rs, io/ply/types.rs, io/ply/utils.rs, io/types.rs, io/utils.rs, is_3d.rs, mesh_3d.rs, point_cloud_3d.rs, rgb.rs, utils.rs |
| PointTextModel.v | is_2d.rs, is_3d.rs, is_buildable_2d.rs, is_buildable_3d.rs, point_cloud_2d.rs, point_cloud_3d.rs, result.rs, skip_empty_string.rs |
| ReaderModel.v | io/gcode.rs, io/obj.rs, io/off.rs, io/ply/header.rs, io/ply/iterators.rs, io/ply/iterators_internal.rs, io/ply/load.rs, io/ply/utils.rs, io/psl.rs, io/pts.rs, io/ptx.rs, io/stl.rs, io/utils.rs, io/xy.rs, io/xyz.rs |
| ScanModel.v | io/gcode.rs, io/obj.rs, io/off.rs, io/pts.rs, io/ptx.rs, io/types.rs, mesh_3d.rs |
| ScannerModel.v | io/las/load.rs, io/las/types.rs, io/psl.rs, io/ptx.rs, matrix4.rs |
| ShapeModel.v | bounding_box_3d.rs, box_2d.rs, box_3d.rs, box_unaligned_3d.rs, circle.rs, collider_3d.rs, filter_sphere.rs, has_colliders_3d.rs, is_sat_object.rs, point_3d.rs, sat_collider.rs, sphere.rs, tri_face_3d.rs |
| ShowModel.v | face3.rs, line_2d.rs, line_3d.rs, line_segment_2d.rs, line_segment_3d.rs, point_2d.rs, point_3d.rs, point_cloud_2d.rs, point_cloud_3d.rs, polygon_2d.rs, polygon_3d.rs, ray_2d.rs, ray_3d.rs, strong_types.rs |
| StlModel.v | io/stl.rs, io/types.rs, is_mesh_3d.rs |
| TypedVecModel.v | dynamic_precision_index_vec.rs, is_index_container.rs |
| VecModel.v | functions.rs, is_2d.rs, is_3d.rs, is_normalized_2d.rs, is_normalized_3d.rs, norm_2d.rs, norm_3d.rs |
| WrapModel.v | non_negative.rs, positive.rs |
| WriterModel.v | io/ply/save.rs, io/stl.rs, io/xy.rs, io/xyz.rs |

## Code not modelled

* `Display`/`Debug` texts of errors and containers (except those that are part of a file format), `From` conversions between
  error types, `Default`, `Clone`, `Hash` derivations.
* Plain field accessors and constructors that only store their arguments; they appear in the model as record fields.
* `test_helper.rs`, `tests/`, `benches/`.
* The bodies of `impl` blocks that forward one trait to another on `Box`/`Rc` wrappers.
* Concurrency: the library has none.

Of the 1220 functions with a body in /repo/src, 950 are cited by a definition of the model. Not cited (name:lines):

* `aa_bb_tree_2d.rs` new:189-195 new:267-274
* `aa_bb_tree_3d.rs` any:53-59 new:215-221 any:223-231 new:314-321 any:323-325
* `bounding_box_2d.rs` min_p:145-147 max_p:149-151 sizes:161-163 n_dimensions:258-260 position_nd:262-264 x:269-271 y:274-276 bounding_box_maybe:293-295
* `bounding_box_3d.rs` min_p:189-191 max_p:193-195 sizes:209-211 n_dimensions:336-338 position_nd:340-342 x:347-349 y:352-354 z:357-359 bounding_box_maybe:376-378
* `box_2d.rs` sizes:55-57 bounding_box_maybe:173-175 from:192-198
* `box_3d.rs` sizes:58-60 bounding_box_maybe:193-195 from:213-220
* `box_unaligned_3d.rs` d_x:70-73 d_y:74-77 d_z:78-81 bounding_box_maybe:157-159
* `circle.rs` bounding_box_maybe:144-146
* `collider_3d.rs` bounding_box_maybe:73-75
* `dynamic_precision_index_vec.rs` reserve:236-243 from:266-268 from:272-283 from:287-289 from:293-304 from:308-310
* `face3.rs` n_vids:47-49 vid:51-58
* `filter_all.rs` new:38-43
* `filter_allow.rs` new:34-36
* `filter_and.rs` new:47-53
* `filter_any.rs` new:38-43
* `filter_box_2d.rs` new:37-39 bounding_box:115-117 bounding_box_maybe:121-123
* `filter_box_3d.rs` new:37-39 bounding_box:125-127 bounding_box_maybe:131-133
* `filter_circle.rs` new:36-38 bounding_box:114-116 bounding_box_maybe:120-122
* `filter_deny.rs` new:34-36
* `filter_negate.rs` new:44-49
* `filter_or.rs` new:47-53
* `filter_outlier_3d.rs` new:63-71 scale:103-105
* `filter_random_accessible.rs` new:44-49
* `filter_sphere.rs` new:37-39 new_nd:71-73 from_nd:76-81 set_position:100-102 bounding_box:123-125 bounding_box_maybe:129-131 scale:144-146
* `filter_xor.rs` new:47-53
* `half_edge.rs` first_in_face:197-199 last_in_face:201-203 ensure_vertex_id:212-217
* `has_distance_to.rs` distance:36-38
* `impls/boxx.rs` n_dimensions:33-35 position_nd:37-39 x:46-48 y:50-52 x:59-61 y:63-65 z:67-69
* `impls/linked_list.rs` move_by:66-70 move_by:77-81
* `impls/vec.rs` len:30-32 push:46-48 reserve:50-52 reserve_d:59-61 len_d:62-64 push_d:65-67 get_d:68-70 set_d:71-73 move_by:111-115 move_by:122-126 ensure_supported:147-149 reserve:151-153 len:155-157 get:159-161 set:163-165 push:167-169 iter:171-173
* `impls/vec_deque.rs` len:32-34 push:48-50 reserve:51-53 reserve_d:60-62 len_d:63-65 push_d:66-68 get_d:69-71 set_d:72-74 move_by:112-116 move_by:123-127
* `io/from_bytes.rs` from:237-239
* `io/gcode.rs` from:287-289
* `io/las/types.rs` from:179-181 from:185-187 from:191-193
* `io/obj.rs` new:122-130 from:258-260
* `io/off.rs` from:388-390
* `io/ply/iterators_internal.rs` new:54-61 new:123-130 new:217-226 destruct:228-230 new:317-327 destruct:329-331 new:430-439 new:495-503
* `io/ply/types.rs` into:265-270 into:274-279 from:353-355
* `io/psl.rs` initialize:69-72 from:284-286
* `io/pts.rs` new:58-68 from:226-228
* `io/ptx.rs` from:295-297 from:301-303
* `io/stl.rs` new:170-179 new:272-281 default:645-647 from:694-696 from:724-726 from:729-731 from:735-737
* `io/types.rs` from:64-69 from:73-78
* `io/utils.rs` fmt:125-127 from:131-133
* `io/xy.rs` from:194-196
* `io/xyz.rs` from:209-211
* `is_2d.rs` sqr_distance:73-75
* `is_3d.rs` xy:45-47 xz:50-52 yz:55-57 sqr_distance:90-97
* `is_buildable_2d.rs` new_from:45-50 zero:61-63
* `is_polygon.rs` num_vertices:41-43
* `is_topology_unit.rs` for_each_vid:37-41
* `line_2d.rs` new:40-42
* `line_3d.rs` new:40-42
* `non_negative.rs` into:179-181 deref:186-188 as_ref:192-194 fmt:204-206
* `norm_2d.rs` mul:64-69 mul:75-80 n_dimensions:106-108 position_nd:110-116 x:121-123 y:126-128
* `norm_3d.rs` mul:66-72 n_dimensions:112-114 position_nd:116-123 x:128-130 y:133-135 z:138-140
* `oc_tree.rs` calc_direction:126-146
* `point_2d.rs` new:44-46
* `point_3d.rs` new:46-48 add:77-83 add:92-98 div:182-188 div:194-200
* `point_cloud_2d.rs` new:48-50 with_capacity:52-56 for_each_point:66-73 reserve_vertices:75-77 reserve_d:117-119 len_d:121-123 push_d:125-127 get_d:129-131 set_d:133-135 index:143-145 index_mut:152-154 len:161-163 push:184-186 reserve:187-189 n_dimensions:278-280 sort_x:301-303 sort_y:305-307 default:363-366 into:386-388 from:395-397
* `point_cloud_3d.rs` new:48-50 with_capacity:52-56 for_each_point:66-73 reserve_vertices:75-77 len_d:121-123 push_d:125-127 get_d:129-131 set_d:133-135 index:143-145 index_mut:152-154 len:161-163 push:184-186 n_dimensions:280-282 sort_x:307-309 sort_y:311-313 sort_z:315-317 default:373-376 into:396-398 from:405-407
* `point_cloud_3d_f32.rs` with_capacity:55-60
* `polygon_2d.rs` center_of_gravity:109-111 scale:133-135 default:167-170 from:177-179
* `polygon_3d.rs` segment_vertices:58-61 vertex:63-65 add_vertex:72-75 change_vertex:77-84 bounding_box_maybe:100-102 center_of_gravity:109-111 scale:133-135 default:158-161 from:177-179
* `positive.rs` into:145-147 deref:152-154 as_ref:158-160 fmt:170-172
* `ray_2d.rs` new:39-41
* `ray_3d.rs` new:39-41
* `result.rs` from:132-134 from:138-140
* `rgb.rs` new:34-36
* `searchable_mesh.rs` ensure_face_id:62-67 num_faces:80-82 num_vertices:84-86 face_vertices:92-94 vertex:96-98 reserve_vertices:115-117 as_ref:220-222
* `skip_empty.rs` new:40-42 skip_empty:79-81
* `skip_empty_string.rs` new:38-40 skip_empty_string:72-74
* `sphere.rs` bounding_box_maybe:156-158
* `strong_types.rs` into:35-37 as_ref:41-43 as_mut:47-49
* `tri_face_3d.rs` a:46-48 b:50-52 c:54-56 bounding_box_maybe:103-105
* `utils.rs` until:40-42

## Properties, theorems and assumptions

Assumptions as listed by `Print Assumptions`: `-` closed under the global context; `R` the reals (`ClassicalDedekindReals.sig_not_dec`, `ClassicalDedekindReals.sig_forall_dec`); `F` `FunctionalExtensionality.functional_extensionality_dep`; `C` `Classical_Prop.classic`.  Theorems named `_refuted` prove that the expectation named in the property fails.

* **C01 DynamicPrecisionIndexVec behaves like Vec<usize>** (proved): `C01_dynamic_index_vec_is_vec` [-], `C01_dynamic_index_vec_from_u8_is_vec` [-], `C01_dynamic_index_vec_new_is_vec` [-]
* **C02 U32IndexVec is exact below 2^32 and silently truncates above** (proved): `C02_u32_index_vec_exact_below_2_32` [-], `C02_u32_index_vec_truncates` [-]
* **C03 Mesh3D editing operations maintain a consistent mesh** (proved): `C03_mesh_history_refines_spec` [-], `C03_mesh_ids_stay_valid` [-]
* **C04 Failed mesh edits report the right error and change nothing** (proved): `C04_try_add_connection_outcome` [-], `C04_change_vertex_outcome` [-]
* **C05 Half-edge next/prev form 3-cycles inside faces** (proved): `C05_half_edge_topology` [-]
* **C06 Half-edge tail/head agree with the mesh faces** (proved): `C06_edges_of_face_follow_vertices` [-]
* **C07 edges_originating_from_vertex is exact** (proved): `C07_edges_originating_exact` [-]
* **C08 edges_ending / edges_of_vertex / faces of vertex are exact** (proved): `C08_edges_ending_exact` [-], `C08_edges_of_vertex_exact` [-], `C08_faces_of_vertex_exact` [-]
* **C09 edge_twin identifies the neighbouring face but not the opposite edge** (proved): `C09_twin_is_successor_of_opposite` [-], `C09_no_twin_means_no_opposite` [-], `C09_twin_never_opposite` [-]
* **C10 BoundingBox::from_iterator is the tightest box** (proved): `C10_from_iterator_3d` [-], `C10_from_iterator_2d` [-]
* **C11 BoundingBox::new accepts exactly strictly ordered corners (for numbers)** (proved): `C11_new_3d` [-], `C11_new_2d` [-], `C11_nan_accepted` [-]
* **C12 Merging bounding boxes computes the least upper bound** (proved): `C12_merge_3d` [-], `C12_merge_2d` [-], `C12_merge_laws_3d` [-], `C12_merge_laws_2d` [-]
* **C13 Containment predicates of bounding boxes are coherent** (proved): `C13_containment_3d` [-], `C13_containment_2d` [-]
* **C14 collides_with means overlapping interiors (exact arithmetic)** (proved): `C14_collides_with_3d` [FR], `C14_collides_with_2d` [FR]
* **C15 Distance to a bounding box is the distance to its closest point (exact arithmetic)** (proved): `C15_distance_to_point_3d` [FR], `C15_distance_to_point_2d` [FR], `C15_distance_to_box_3d` [FR], `C15_distance_to_box_2d` [FR]
* **C16 A valid bounding box can become degenerate through move_by / scale in f64** (proved): `C16_exact_3d` [FR], `C16_exact_2d` [FR], `C16_f64_collapse_3d` [-], `C16_f64_collapse_2d` [-]
* **C17 KdTree keeps exactly the input points** (proved): `C17_kdtree_keeps_points` [-]
* **C18 KdTree::in_sphere is sound and complete (exact arithmetic), not with f64 rounding** (proved): `C18_in_sphere_exact` [FR], `C18_in_sphere_sound_f64` [-], `C18_in_sphere_f64_refuted` [-]
* **C19 KdTree::in_box is sound and complete (exact arithmetic), not with f64 rounding** (proved): `C19_in_box_exact` [FR], `C19_in_box_sound_f64` [-], `C19_in_box_f64_refuted` [-]
* **C20 KdTree::nearest returns a closest point (exact arithmetic)** (proved): `C20_nearest_exact` [FR], `C20_nearest_empty` [-]
* **C21 KdTree::knearest with n >= 2 may return wrong points** (proved): `C21_knearest_count` [-], `C21_knearest_refuted` [-]
* **C22 OcTree never invents points and reports its collected points** (proved): `C22_octree_sound` [-], `C22_octree_keeps_off_grid` [FR]
* **C23 OcTree loses boundary points** (proved): `C23_octree_loses_boundary` [-], `C23_octree_corners_refuted` [-]
* **C24 AABBTree::any sees every element** (proved): `C24_any_3d` [-], `C24_any_2d` [-]
* **C25 AABBTree crossing queries are exact as sets** (proved): `C25_crossing_3d` [-], `C25_crossing_2d` [-], `C25_crossing_once_refuted` [-]
* **C26 AABBTree collision queries are exact as sets (exact arithmetic)** (proved): `C26_colliding_3d` [FR], `C26_colliding_2d` [FR]
* **C27 AABBTree drops elements when boxes are unbounded** (proved): `C27_unbounded_3d` [-], `C27_unbounded_2d` [-]
* **C28 Filter combinators are the Boolean operations** (proved): `C28_combinators` [-], `C28_de_morgan` [-]
* **C29 FilterRandomAccessible restricts a view to accepted in-range indices** (proved): `C29_filter_random_accessible` [-]
* **C30 FilterAllRandomAccessible computes the intersection** (proved): `C30_all` [-], `C30_all_order` [-]
* **C31 FilterAnyRandomAccessible does not filter** (proved): `C31_any_never_restricts` [-], `C31_any_is_identity` [-], `C31_any_refuted` [-]
* **C32 View::union is set union with Full absorbing** (proved): `C32_union` [-]
* **C33 apply_view selects in order or fails without change** (proved): `C33_apply_view` [-]
* **C34 Geometric filters decide closed regions (exact arithmetic)** (proved): `C34_sphere` [FR], `C34_circle` [FR], `C34_box2` [FR], `C34_box3` [FR], `C34_box_of_bounding_box` [FR], `C34_outlier` [FR]
* **C35 pack_dupes_indexed is a lossless deduplication** (proved): `C35_pack_dupes_lossless` [-], `C35_pack_dupes_any` [-]
* **C36 heal_mesh merges vertices and drops degenerate faces** (proved): `C36_heal_mesh` [-]
* **C37 heal_mesh keeps duplicate faces** (proved): `C37_heal_mesh_keeps_duplicates_refuted` [-], `C37_heal_mesh_face_count` [-]
* **C38 Linear subdivision splits every face in four with shared midpoints** (proved): `C38_subdivide_linear` [-], `C38_midpoint` [FR]
* **C39 unify_faces only flips faces** (proved): `C39_unify_only_flips` [-]
* **C40 Compressed clouds come back within one grid unit, except with 64 bit integers** (proved): `C40_roundtrip` [FR], `C40_no_box` [-], `C40_never_fails` [CFR], `C40_u64_always_fails_refuted` [CFR]
* **C41 convex_hull_2d is wrong when x coordinates tie** (proved): `C41_lowest_point_missing_refuted` [-], `C41_single_point_refuted` [-]
* **C42 convex_hull_2d is a correct hull for distinct x (exact arithmetic)** (proved): `C42_hull` [FR]
* **C43 douglas_peucker keeps end points and only selects input points** (proved): `C43_simplified` [-]
* **C44 Matrix products compose transformations (exact arithmetic)** (proved): `C44_product_entries` [FR], `C44_scalar_product` [FR], `C44_monoid` [FR], `C44_product_composes` [FR], `C44_affine_matrices` [FR], `C44_projective_compose_refuted` [FR], `C44_zeroes` [FR]
* **C45 Rotation matrices are isometries (exact arithmetic)** (proved): `C45_rotation_2d` [FR], `C45_rotation_axis` [FR], `C45_rotation_3d` [FR], `C45_translation_scale` [FR], `C45_cloud_2d` [FR]
* **C46 Matrix pipes apply scale, then rotation, then translation** (proved): `C46_pipe3_history` [-], `C46_pipe4_history` [-], `C46_pipes_act` [FR]
* **C47 Norm2D/Norm3D have unit length and keep the direction (exact arithmetic)** (proved): `C47_norm3` [FR], `C47_norm2` [FR], `C47_norm_f64_refuted` [-]
* **C48 Positive and NonNegative: what the types guarantee in f64** (proved): `C48_new` [-], `C48_sums` [CFR], `C48_products` [CFR], `C48_quotients` [CFR], `C48_promise_refuted` [CFR]
* **C49 Sphere reports its y coordinate as z** (proved): `C49_sphere_z_is_y` [-], `C49_distance_to_own_center` [FR]
* **C50 BoxUnaligned3D corners exceed its bounding box** (proved): `C50_from_bb_twice_the_size_refuted` [FR], `C50_move` [FR], `C50_corners_outside` [FR], `C50_some_corner_outside` [CFR], `C50_apart_boxes_collide_refuted` [-]
* **C51 SAT collision test never misses a collision (exact arithmetic)** (proved): `C51_sat_separates` [FR], `C51_sat_symmetric` [-], `C51_colliders` [FR], `C51_sat_aabb_exact` [FR], `C51_false_positive_refuted` [-]
* **C52 Line / box intersection** (proved): `C52_line_box` [FR], `C52_along_axis_refuted` [-]
* **C53 Point cloud length and center of gravity** (proved): `C53_length_3d` [FR], `C53_length_2d` [FR], `C53_center_of_gravity_3d` [FR], `C53_center_of_gravity_2d` [FR]
* **C54 Polygon segments form a closed cycle** (proved): `C54_segments` [-], `C54_edits` [-]
* **C55 Random insertion disagrees between containers** (proved): `C55_insertion` [-], `C55_append_disagrees` [-]
* **C56 Ordering of points is inconsistent with equality** (proved): `C56_preorder` [-], `C56_contracts_refuted` [-]
* **C57 fetch_line splits at newlines, trims trailing whitespace, and eats the last byte of an unterminated line** (proved): `C57_terminated_line` [-], `C57_stripped_unique` [-], `C57_unterminated_line` [-], `C57_end` [-], `C57_all_lines` [-]
* **C58 save_xy/save_xyz followed by load returns the same points** (proved): `C58_xyz_round_trip` [-], `C58_xy_round_trip` [-], `C58_number_texts_exist` [-], `C58_comma_space_refuted` [-]
* **C59 Dropping the final newline corrupts loaded coordinates** (proved): `C59_xyz_last_coordinate` [-], `C59_wrong_point_refuted` [-]
* **C60 PLY ASCII save/load round trip** (proved): `C60_colors` [-], `C60_round_trip` [-]
* **C61 PLY binary save/load round trip** (proved): `C61_round_trip` [CFR], `C61_identical` [CFR]
* **C62 PLY loader permutes coordinates for the yzx and zxy property orders** (proved): `C62_text_points` [-], `C62_text_mesh` [-], `C62_binary_points` [-], `C62_binary_mesh` [-], `C62_wrong_order` [-], `C62_wrong_order_binary` [-], `C62_types_refuted` [-]
* **C63 PLY ASCII loader accepts truncated files** (proved): `C63_vertices` [-], `C63_mesh_vertices` [-], `C63_faces` [-]
* **C64 STL ASCII save/load round trip** (proved): `C64_saves` [-], `C64_triplets` [-], `C64_duped` [-], `C64_unique` [-], `C64_flat_refuted` [-], `C64_same` [-]
* **C65 STL ASCII loader accepts truncated files** (proved): `C65_truncated` [-]
* **C66 STL binary decoding** (proved): `C66_complete` [-], `C66_missing` [-], `C66_count` [-], `C66_short_header` [-], `C66_duped` [-]
* **C67 PSL loader returns at most one point** (proved): `C67_at_most_one` [-], `C67_file` [-], `C67_refuted` [-]
* **C68 gcode relative mode is ignored for bare G91 lines** (proved): `C68_bare` [-], `C68_refuted` [-]
* **C69 gcode loader tracks the tool position** (proved): `C69_positions` [-], `C69_error` [-]
* **C70 OBJ loader** (proved): `C70_mesh` [-], `C70_points` [-], `C70_indices` [-]
* **C71 OFF loader** (proved): `C71_mesh` [-], `C71_points` [-], `C71_not_triangle` [-], `C71_indices` [-]
* **C72 Endianness of binary readers** (proved): `C72_read_unsigned` [-], `C72_decode_encode` [-], `C72_encoding_exists` [-], `C72_reversed` [-], `C72_read_signed` [-], `C72_read_f64` [FR], `C72_read_f32` [FR], `C72_short` [-], `C72_f64_round_trip` [-], `C72_f32_round_trip` [-], `C72_f32_as_f64` [CFR], `C72_f64_as_f32` [CFR], `C72_array` [-], `C72_slice_be_refuted` [-]
* **C73 PTS loader returns the announced blocks** (proved): `C73_blocks` [-]
* **C74 Loaders are prefix-stable: data read before an error is what the file contains** (proved): `C74_xyz` [-], `C74_xy` [-], `C74_xyz_start` [-]
* **C75 Out-of-range face ids can alias valid data in release builds** (proved): `C75_out_of_range_face_id_aliases` [-]
* **C76 BoundingBox::from_iterator counts points in an i32** (proved): `C76_from_iterator_3d_overflow` [-], `C76_from_iterator_2d_overflow` [-]
* **C77 OcTree depth counter is an i8** (proved): `C77_octree_depth_refuted` [-], `C77_octree_shallow` [-]
* **C78 AABBTree3D ray candidates are exact as a set (exact arithmetic)** (proved): `C78_intersection_candidates` [FR]
* **C79 AABBTree collision queries miss collisions in doubles** (proved): `C79_f64_pruning_refuted` [-]
* **C80 Filtering a collection and applying the view equals filtering the list** (proved): `C80_pipeline` [-]
* **C81 A box filter made from a bounding box can reject a corner of it** (proved): `C81_box_filter_corner_refuted` [-]
* **C82 unify_faces makes every face agree with a neighbour** (proved): `C82_unify_follows_neighbours` [FR]
* **C83 unify_faces orients a flat connected mesh consistently** (proved): `C83_unify_planar` [FR]
* **C84 set_size gives the bounding box the requested size** (proved): `C84_set_size` [FR], `C84_set_size_flat` [-]
* **C85 center moves the middle of the bounding box to the origin** (proved): `C85_center` [FR]
* **C86 look_at sends the target to the z axis but distorts shapes** (proved): `C86_look_at_target` [FR], `C86_look_at_isometry_iff` [FR], `C86_look_at_distorts_refuted` [FR]
* **C87 Sizes of a bounding box in doubles** (proved): `C87_sizes_3d` [CFR], `C87_sizes_2d` [CFR], `C87_collides_total` [CFR]
* **C88 The center of a bounding box in doubles** (proved): `C88_center_3d` [CFR], `C88_center_2d` [CFR], `C88_center_outside_refuted` [CFR]
* **C89 Bounding boxes of spheres, circles and boxes** (proved): `C89_box2_exact` [FR], `C89_sphere_box_exact` [FR], `C89_box_exact` [FR], `C89_sphere_box_panics` [CFR], `C89_circle_box_panics` [CFR], `C89_box_box_panics` [CFR], `C89_unwrap_refuted` [-]
* **C90 Which triangles TriFace3D::new accepts** (proved): `C90_tri_new` [-]
* **C91 Ray / triangle intersection is exact and strict** (proved): `C91_ray_triangle` [FR], `C91_ray_mesh` [FR], `C91_shared_edge_missed_refuted` [-]
* **C92 Closest intersecting object** (proved): `C92_closest` [FR], `C92_index` [-], `C92_for_each` [-], `C92_behind_refuted` [-]
* **C93 Sorting a cloud by a coordinate** (proved): `C93_sort_3d` [-], `C93_sort_2d` [-], `C93_ties_refuted` [-], `C93_nan_3d` [-], `C93_nan_2d` [-]
* **C94 Scaling a cloud keeps its center** (proved): `C94_scale_3d` [FR], `C94_scale_2d` [FR]
* **C95 Joining clouds, extrusion, distances in n dimensions** (proved): `C95_join` [-], `C95_extrude` [-], `C95_distance_nd` [-]
* **C96 douglas_peucker_2d gives no epsilon guarantee and can fail to return** (proved): `C96_distance` [FR], `C96_epsilon_refuted` [-], `C96_closed_line_refuted` [-], `C96_negative_epsilon_refuted` [-], `C96_single_point_refuted` [-]
* **C97 PLY headers that make the loaders panic** (proved): `C97_fourth` [-], `C97_reserve` [-]
* **C98 PLY loading of arbitrary bytes** (proved): `C98_mesh` [-], `C98_points` [-]
* **C99 PLY saving with writers that take only part of the data** (proved): `C99_text` [-], `C99_text_any` [-], `C99_binary` [-], `C99_binary_refuted` [-]
* **C100 load_ply_either agrees with the specific loaders** (proved): `C100_mesh` [-], `C100_points` [-], `C100_no_faces` [-], `C100_errors` [-]
* **C101 Bad lines are reported with number and text** (proved): `C101_obj` [-], `C101_obj_points` [-], `C101_off_counts` [-], `C101_off_vertex` [-], `C101_off_face` [-], `C101_pts_count` [-], `C101_pts_vertex` [-]
* **C102 Arbitrary bytes never break the line based loaders** (proved): `C102_obj_mesh` [-], `C102_obj_points` [-], `C102_gcode` [-], `C102_off_mesh` [-], `C102_off_points` [-], `C102_pts` [-], `C102_panics` [-]
* **C103 Line iterators stay at the end** (proved): `C103_fused` [-]
* **C104 Cut off .off and .pts files are accepted** (proved): `C104_off_vertices` [-], `C104_off_faces` [-], `C104_pts` [-]
* **C105 .obj polygons lose corners without notice** (proved): `C105_polygon` [-]
* **C106 Text behind OFF is ignored** (proved): `C106_ignored` [-], `C106_counts_refuted` [-]
* **C107 gcode rapid moves are ignored** (proved): `C107_ignored` [-], `C107_refuted` [-]
* **C108 PTX: blocks, placement and errors** (proved): `C108_blocks` [-], `C108_truncated` [-], `C108_point` [-], `C108_trailing` [-], `C108_rows` [-], `C108_matrix` [-], `C108_header` [-]
* **C109 PTX: last matrix row is ignored** (proved): `C109_fourth_row` [-], `C109_refuted` [-]
* **C110 PTX: arbitrary bytes** (proved): `C110_total` [-], `C110_refuted` [-]
* **C111 Scanner format iterators after an error** (proved): `C111_las` [-], `C111_continues` [-], `C111_ptx` [-], `C111_psl` [-]
* **C112 LAS: every record gives its point** (proved): `C112_points` [-]
* **C113 LAS: header problems** (proved): `C113_header` [-], `C113_iff` [-], `C113_refuted` [-]
* **C114 LAS: truncated files** (proved): `C114_truncated` [-]
* **C115 LAS: when reading panics** (proved): `C115_iff` [-], `C115_total` [-]
* **C116 LAS: signature and count are not checked** (proved): `C116_signature` [-], `C116_refuted` [-]
* **C117 Edge neighbours of a face** (proved): `C117_edge_neighbours` [-], `C117_edge_neighbours_of_manifold` [-], `C117_unknown_face` [-], `C117_neighbours_missed_refuted` [-]
* **C118 Vertex neighbours of a face** (proved): `C118_vertex_neighbours` [-], `C118_itself_included` [-], `C118_faces_of_vertex` [-], `C118_unknown_face` [-]
* **C119 Vertex edits keep the half edges valid** (proved): `C119_vertex_edits_keep_edges` [-]
* **C120 A grid cluster misses no box at a position** (proved): `C120_candidates` [CFR], `C120_no_data` [-]
* **C121 Grid cluster candidates are near** (proved): `C121_candidates_are_near` [FR]
* **C122 Clustering vertices replaces each by the last one of its cell** (proved): `C122_cluster_vertices` [-], `C122_no_box` [-], `C122_too_big` [-]
* **C123 Clustering vertices moves them by less than the cluster size** (proved): `C123_moves_little` [FR], `C123_zero_size_refuted` [-], `C123_negative_size` [-]
* **C124 Bezier interpolation follows the curve** (proved): `C124_bezier` [FR], `C124_bezier_hull` [FR], `C124_too_few` [-]
* **C125 Bezier interpolation breaks down with many control points** (proved): `C125_debug_panics` [-], `C125_release_panics` [-], `C125_wrong_coefficients_refuted` [-], `C125_end_missing_refuted` [FR]
* **C126 Linear interpolation is equidistant along the path** (proved): `C126_linear` [FR], `C126_too_few` [-]
* **C127 Linear and cosine interpolation lose or spoil points in floating point** (proved): `C127_lost_point_refuted` [-], `C127_repeated_point_refuted` [-], `C127_one_point_refuted` [-], `C127_no_points` [-], `C127_at_most` [-]
* **C128 Cosine interpolation is eased between the ends of each segment** (proved): `C128_cosine` [FR], `C128_between` [FR]
* **C129 rectangle** (proved): `C129_rectangle` [FR], `C129_rectangle_rounding_refuted` [-]
* **C130 arc** (proved): `C130_arc` [FR], `C130_backwards_refuted` [FR], `C130_one_point_refuted` [-], `C130_no_points` [-]
* **C131 ellipse yields the upper half only** (proved): `C131_ellipse` [FR], `C131_lower_half_refuted` [FR]
* **C132 involut_circle ignores the start angle** (proved): `C132_involut` [FR], `C132_start_ignored_refuted` [FR]
* **C133 The single precision cloud behaves as a list of rounded points** (proved): `C133_history` [CFR], `C133_copy` [CFR], `C133_index_wraps_refuted` [-]
* **C134 Bounding box of the single precision cloud** (proved): `C134_box` [CFR], `C134_two_points_refuted` [-], `C134_contains_pushed_refuted` [-]
* **C135 Moving the single precision cloud** (proved): `C135_move` [CFR], `C135_order` [CFR], `C135_move_back_refuted` [CFR]
* **C136 Building the single precision cloud from a vector of numbers** (proved): `C136_from_vec` [-], `C136_push_after_from_refuted` [CFR], `C136_set_partial_write_refuted` [-]
* **C137 Collision of bodies made of colliders** (proved): `C137_pairs` [-], `C137_exact` [FR], `C137_empty_body` [-]
* **C138 Collision of containers of bodies** (proved): `C138_list` [-], `C138_tree` [FR], `C138_agree` [FR], `C138_bounding` [FR], `C138_tree_misses_refuted` [-]
* **C139 Angle between two vectors in space** (proved): `C139_angle` [FR], `C139_symmetric` [FR], `C139_panics` [-], `C139_short_refuted` [-]
* **C140 Direction filter in space** (proved): `C140_filter` [FR], `C140_no_direction` [FR], `C140_own_direction_refuted` [-]
* **C141 Direction filter in the plane** (proved): `C141_rad_to` [FR], `C141_accepts_opposite_refuted` [FR], `C141_refuses_close_refuted` [FR]
* **C142 Projecting points on a plane** (proved): `C142_flatten` [CFR], `C142_closest` [FR], `C142_coordinates` [FR], `C142_default` [CFR]
* **C143 Vertex normals of a mesh** (proved): `C143_normals` [FR], `C143_flat` [FR], `C143_nan_panics` [-], `C143_in_plane_refuted` [-]
* **C144 Editing the position of an object** (proved): `C144_edit3` [-], `C144_edit2` [-], `C144_lawful` [-], `C144_undo` [FR], `C144_undo_refuted` [-], `C144_sphere_refuted` [FR]
* **C145 Setting and building from n dimensional positions** (proved): `C145_set_position` [-], `C145_new_nd` [-], `C145_from` [-], `C145_from_nd_fails` [-], `C145_center_nd` [FR], `C145_center_overflow_refuted` [-], `C145_zero` [-]
* **C146 Turning a position around a center** (proved): `C146_turned` [FR], `C146_compose` [FR], `C146_center` [CFR]
* **C147 Building operations forget the size of a shape** (proved): `C147_size_lost` [-], `C147_identity` [FR], `C147_size_lost_2d` [-], `C147_center_2d` [FR]
* **C148 Line segments** (proved): `C148_segment3` [FR], `C148_segment2` [FR], `C148_scale3` [FR], `C148_scale2` [FR], `C148_transform` [FR], `C148_line` [FR], `C148_middle_refuted` [-], `C148_transform_2d` [FR]
* **C149 Ordering of shapes** (proved): `C149_preorder` [-], `C149_contracts_refuted` [-], `C149_circle_equal` [-]
* **C150 Moving and scaling shapes** (proved): `C150_box` [FR], `C150_ball` [FR], `C150_convert_refuted` [-], `C150_scale_refuted` [-], `C150_box2_edit` [FR]
* **C151 A position as text** (proved): `C151_parse3` [-], `C151_parse2` [-], `C151_round_trip` [-], `C151_sphere_refuted` [-]
* **C152 A point cloud as text** (proved): `C152_parse` [-], `C152_parse2` [-], `C152_round_trip` [-], `C152_join` [-], `C152_refuted` [-]
* **C153 Boxes turned around the z axis** (proved): `C153_corners` [FR], `C153_half_turn` [FR], `C153_counterclockwise_refuted` [FR], `C153_panics` [-]
* **C154 Products and directions of plane vectors** (proved): `C154_negative_directions` [-], `C154_negative_directions_signs` [-], `C154_products` [FR], `C154_angle_exists` [CFR], `C154_normalized` [FR], `C154_normalized_agree_f64_refuted` [-], `C154_unit_directions` [-], `C154_negative` [FR]
* **C155 Corners of bounding boxes** (proved): `C155_corners` [-], `C155_box_of_corners` [-]
* **C156 Coordinates addressed by dimension** (proved): `C156_set_position` [-], `C156_copy` [-], `C156_from` [-], `C156_new_nd` [-], `C156_center_nd` [FR], `C156_other_dimension` [-], `C156_sphere_z_refuted` [-]
* **C157 Operators of points** (proved): `C157_exact` [FR], `C157_exact_3d` [FR], `C157_f64` [-], `C157_f64_refuted` [-]
* **C158 Cut text files** (proved): `C158_xyz` [-], `C158_xy` [-], `C158_obj_points` [-], `C158_off_points` [-], `C158_pts` [-], `C158_ptx` [-], `C158_gcode` [-], `C158_ply_points` [-], `C158_obj_mesh` [-], `C158_off_mesh` [-], `C158_ply_mesh` [-], `C158_point_refuted` [-], `C158_face_refuted` [-]
* **C159 Cut binary files** (proved): `C159_ply_points` [-], `C159_ply_mesh` [-], `C159_psl` [-], `C159_las` [-], `C159_stl_triplets` [-], `C159_stl_duped` [-], `C159_stl_unique` [-]
* **C160 Facets of cut stl files** (proved): `C160_triplets` [-], `C160_duped` [-], `C160_unique` [-], `C160_noticed_refuted` [-]
* **C161 Every byte of a binary ply file counts** (proved): `C161_mesh` [-], `C161_points` [-], `C161_saved` [CFR], `C161_panic_refuted` [-]
* **C162 How data arrives does not matter** (proved): `C162_text` [-], `C162_ply` [-], `C162_stl` [-], `C162_psl` [-], `C162_empty_refuted` [-]
* **C163 What is loaded when a reader fails** (proved): `C163_text` [-], `C163_ply` [-], `C163_stl_text` [-], `C163_binary` [-]
* **C164 Read errors reported as success** (proved): `C164_xyz` [-], `C164_xy` [-], `C164_obj_points` [-], `C164_gcode` [-], `C164_off_points` [-], `C164_pts` [-], `C164_obj_mesh` [-], `C164_off_mesh` [-], `C164_stl` [-], `C164_never` [-]
* **C165 Read errors of binary files are reported** (proved): `C165_psl` [-], `C165_stl_triplets` [-], `C165_stl_meshes` [-], `C165_ply_points` [-], `C165_ply_mesh` [-], `C165_saved` [CFR]
* **C166 Distances in doubles** (proved): `C166_symmetric` [-], `C166_symmetric_2d` [-], `C166_self` [-], `C166_not_negative` [CFR], `C166_accurate` [CFR], `C166_accurate_2d` [CFR], `C166_triangle_refuted` [-], `C166_apart_refuted` [-], `C166_overflow_refuted` [-]
* **C167 Nearest point in doubles** (proved): `C167_nearest` [CFR], `C167_nearest_true` [CFR], `C167_exact_refuted` [FR]
* **C168 Sphere and box searches in doubles miss only the border** (proved): `C168_in_sphere` [CFR], `C168_in_sphere_true` [CFR], `C168_in_box` [CFR], `C168_tiny_refuted` [-]
* **C169 Values keep the contracts of ==, hash and partial_cmp, except for signed zeros** (proved): `C169_points` [-], `C169_lines` [-], `C169_shapes` [-], `C169_ids` [-], `C169_containers` [-], `C169_positive` [-], `C169_zeros_refuted` [-]
* **C170 Sorting lines, boxes, clouds, meshes and trees by their total order** (proved): `C170_preorder` [-], `C170_containers` [-], `C170_lexicographic` [-], `C170_equal_refuted` [-], `C170_partial_cmp_refuted` [-]
* **C171 Iterators over files after their end** (proved): `C171_ply_points_loaded` [-], `C171_ply_mesh_loaded` [-], `C171_stl_loaded` [-], `C171_ends` [-], `C171_stops` [-], `C171_ptx_refuted` [-], `C171_ply_refuted` [-]
* **C172 Saving through writers that take pieces, are interrupted or fail** (proved): `C172_xyz` [-], `C172_xy` [-], `C172_stl` [-], `C172_stl_panic` [-], `C172_ply` [-], `C172_colors` [-], `C172_ply_binary` [-], `C172_interrupted_refuted` [-], `C172_loads` [-]
* **C173 Normalised vectors in doubles** (proved): `C173_total` [CFR], `C173_direction` [CFR], `C173_direction_2d` [CFR], `C173_huge_refuted` [CFR], `C173_tiny_refuted` [CFR], `C173_length_refuted` [-], `C173_face_refuted` [-]
* **C174 Geometric filters in doubles** (proved): `C174_sphere` [CFR], `C174_circle` [CFR], `C174_bounding_refuted` [FR], `C174_box` [CFR], `C174_box_2d` [CFR], `C174_box_bounding` [-]
* **C175 Precision of an index vector seen through its typed getters** (proved): `C175_new` [-], `C175_with_support` [-], `C175_from` [-], `C175_from_u8` [-], `C175_set_refuted` [-]
* **C176 Lengths do not depend on the start or the sense** (proved): `C176_start_and_sense` [FR], `C176_start_and_sense_2d` [FR], `C176_insert` [FR], `C176_insert_2d` [FR], `C176_move_and_scale` [FR], `C176_move_and_scale_2d` [FR]
* **C177 Lengths in doubles** (proved): `C177_path` [CFR], `C177_path_2d` [CFR], `C177_polygon` [CFR], `C177_polygon_2d` [CFR], `C177_grows` [CFR], `C177_grows_2d` [CFR], `C177_start_refuted` [-], `C177_vertex_refuted` [-]
* **C178 Distances to boxes in doubles** (proved): `C178_point` [CFR], `C178_point_2d` [CFR], `C178_accurate` [CFR], `C178_accurate_2d` [CFR], `C178_boxes` [CFR], `C178_boxes_2d` [CFR], `C178_zero_refuted` [-]
* **C179 Messages tell errors apart** (proved): `C179_stl` [-], `C179_ptx` [-], `C179_xy` [-], `C179_obj` [-], `C179_off` [-], `C179_pts` [-], `C179_gcode` [-], `C179_las` [-], `C179_kind` [-], `C179_ply` [-], `C179_stl_line` [-], `C179_ptx_line` [-], `C179_xy_line` [-], `C179_obj_line` [-], `C179_off_line` [-], `C179_pts_line` [-], `C179_gcode_line` [-], `C179_ply_line` [-], `C179_ply_line_refuted` [-], `C179_converted` [-], `C179_any_text` [-], `C179_any_refuted` [-]
* **C180 Centers of gravity in doubles** (proved): `C180_accurate` [CFR], `C180_accurate_2d` [CFR], `C180_integers` [CFR], `C180_integers_2d` [CFR], `C180_range_refuted` [-], `C180_order_refuted` [-], `C180_infinite_refuted` [-]
* **C181 The convex hull in doubles is exact on grids** (proved): `C181_exact` [CFR], `C181_hull` [CFR], `C181_tiny_refuted` [CFR]
* **C182 Searching a kd tree of grid points is exact in doubles** (proved): `C182_sphere` [CFR], `C182_box` [CFR], `C182_nearest` [CFR]
* **C183 Shapes that clearly overlap, or share a corner, are reported as colliding in doubles** (proved): `C183_deep` [CFR], `C183_vertex` [CFR], `C183_touch_refuted` [CFR]
* **C184 Collisions of grid boxes, and trees of them, are exact in doubles** (proved): `C184_collides_3d` [CFR], `C184_collides_2d` [CFR], `C184_tree_3d` [CFR], `C184_tree_2d` [CFR]
* **C185 Transforming points by matrices in doubles** (proved): `C185_simple` [CFR], `C185_simple_2d` [CFR], `C185_pipe` [CFR], `C185_pipe_2d` [CFR], `C185_accuracy` [CFR], `C185_whole` [CFR], `C185_compose_refuted` [FR]
* **C186 Collisions of boxes anywhere in doubles** (proved): `C186_collides_3d` [CFR], `C186_collides_2d` [CFR], `C186_tree_3d` [CFR], `C186_tree_2d` [CFR], `C186_margin_refuted` [FR]
* **C187 Meshes, half edges and searchable meshes made of parts** (proved): `C187_mesh` [-], `C187_mesh_history` [-], `C187_added_face` [-], `C187_half_edge` [-], `C187_next_range` [-], `C187_vertex_queries` [-], `C187_searchable` [-], `C187_mixed_parts_refuted` [-]
* **C188 Mesh algorithms on points and indices that do not fit** (proved): `C188_heal` [-], `C188_subdivide` [-], `C188_unify` [-], `C188_normals_and_saving` [-], `C188_saved_ply_refuted` [-]
* **C189 Midpoints and subdivision in doubles** (proved): `C189_center` [CFR], `C189_center_of_two` [CFR], `C189_center_function` [CFR], `C189_center_function_2d` [CFR], `C189_subdivide` [CFR], `C189_refine` [CFR], `C189_infinite_refuted` [-], `C189_degenerate_refuted` [-], `C189_center_order_refuted` [-]
* **C190 Moving, scaling and transforming meshes** (proved): `C190_net` [-], `C190_searchable` [-], `C190_sides` [FR], `C190_box` [-], `C190_flat_scale_refuted` [-], `C190_move_refuted` [-]
* **C191 Displayed texts of geometry** (proved): `C191_tells` [-], `C191_kinds` [-], `C191_line_segment_refuted` [-], `C191_parse_refuted` [-]
* **C192 A ray straight up or down against level triangles is decided exactly in doubles** (proved): `C192_exact` [CFR], `C192_mesh` [CFR], `C192_sloped_refuted` [CFR]
* **C193 Rays along an axis find in doubles exactly the boxes they hit, alone and in a tree** (proved): `C193_box` [CFR], `C193_tree` [CFR], `C193_directions` [CFR], `C193_face_refuted` [CFR]
* **C194 Arbitrary bytes never break the stl loaders** (proved): `C194_triplets` [CFR], `C194_duped` [CFR], `C194_unique` [CFR]
* **C195 Whatever a mesh loader leaves behind can be converted to ply** (proved): `C195_ply` [CFR], `C195_obj` [CFR], `C195_off` [CFR], `C195_stl_duped` [CFR], `C195_stl_unique` [CFR]
* **C196 Trees of clouds, polygons and meshes find everything a plane cuts** (proved): `C196_box` [-], `C196_clouds_3d` [-], `C196_clouds_2d` [-], `C196_meshes` [-], `C196_tree_clouds` [-], `C196_tree_meshes` [-], `C196_tree_2d` [-]
* **C197 Facets of arbitrary stl files with and without shared vertices** (proved): `C197_unique` [-], `C197_agree` [-], `C197_nan_refuted` [-]
* **C198 Healing a mesh loaded with a vertex per corner gives the mesh loaded with shared vertices** (proved): `C198_healed` [-]
* **C199 Every loaded mesh can be searched, healed and subdivided** (proved): `C199_ply` [CFR], `C199_obj` [-], `C199_off` [-], `C199_stl_duped` [CFR], `C199_stl_unique` [CFR]
* **C200 Healing twice reaches a fixed point, healing once may not** (proved): `C200_once` [-], `C200_twice` [-], `C200_idempotent_refuted` [-]
* **C201 Subdividing and healing keep closed meshes closed** (proved): `C201_subdivide` [-], `C201_subdivide_back` [-], `C201_heal` [-]
* **C202 The stl file of a solid is loaded as a closed mesh** (proved): `C202_solid` [-]
* **C203 Subdividing adds one vertex per edge** (proved): `C203_new_vertices` [-], `C203_surface_edges` [-]

## Findings

Places where the faithful model contradicts the documentation, the name of a function or a reasonable
expectation.  Each is a property of its own or a `_refuted` theorem beside the positive part.

Meshes, trees, containers

* `HalfEdge::edge_twin` returns the successor of the opposite half edge, not the opposite one (C09).
* Neighbour queries of searchable meshes: `face_edge_neighbours` misses faces traversing the shared side in the same
  direction and further faces at non-manifold sides; `face_vertex_neighbours` includes the face itself.
* `KdTree::knearest` with n >= 2 can miss closer points (C21); `in_box` loses points by rounding (C19).
* `OcTree` loses points on cell boundaries (C23); `AABBTree` drops elements with unbounded boxes (C27) and misses
  collisions of unaligned boxes that the plain list finds (C138).
* `FilterAnyRandomAccessible` does not filter (C31).
* `U32IndexVec` truncates silently (C02).
* `heal_mesh` keeps duplicate faces (C37) and drops unused vertices.
* `Vec`/`VecDeque`/point cloud random insertion disagree at the end index (C55).
* `PointCloud3Df32`: two points never have a bounding box, the box need not contain pushed points, `move_by` back does not
  restore, indices wrap, `From<Vec<f32>>` accepts lengths that are no multiple of three (C133-C136).

Geometry

* `convex_hull_2d` is wrong when x coordinates tie (C41).
* `Sphere` reports its y coordinate as z (C49), `BoxUnaligned3D` corners exceed its bounding box (C50).
* Valid bounding boxes become degenerate through `move_by`/`scale` in f64 (C16), `new` accepts NaN corners (C11).
* `Is3D::abs` panics on NaN; ordering of points is inconsistent with equality (C56).
* Bezier interpolation: at least 22 control points panic in debug builds and are wrong in release builds, at least 67
  panic in release builds too; the last control point is never reached.  Linear interpolation can lose the last point
  by rounding, and yields NaN for repeated first points.
* `Factory2D`: `arc` runs backwards for end < start, `ellipse` covers only the upper half, `involut` ignores the start angle.
* `Cluster`/`cluster_vertices`: count 0 acts as one cell, size 0.0 is accepted.
* The 2D direction filter compares the direction of the difference of two directions and accepts opposite ones (C141);
  the 3D filter can refuse exactly the prescribed direction (C140).
* `Plane3D` does not require perpendicular directions, so points of the plane may not keep their coordinates (C142).
* `normals_of_mesh` answers z where face normals cancel, also if z lies in the plane of the faces (C143).
* Editing the position of a `Sphere` (add, subtract, scale_pos, increase_distance_to_by) sets z from y (C144); `from` and
  `from_nd` differ for spheres (C145).
* `multiply_m`, `center`, `normalized` and `new_from` reset sizes of boxes and radii of spheres to one (C147).
* Scaling a segment parallel to a coordinate plane silently does nothing (C148).
* `Ord` of shapes ignores radius and sizes and contradicts `PartialOrd` (C149).
* A valid bounding box converted to `Box3D` can panic in `bounding_box()`; scaling by a positive factor can make a size zero (C150).
* `BoxUnaligned3D::new_from_z_rotation` reaches the full sizes instead of half of them, turns clockwise while the rotation
  matrices turn counterclockwise, and panics if the sine or cosine is NaN (C153).
* Normalising (3, 4) and making a `Norm2D` of it differ with f64 (C154).
* The third coordinate of a `Sphere` set by dimension is not what `z()` returns; a failing copy by dimension can leave the
  coordinates before the missing one overwritten (C156).
* Dividing a point is not multiplying by the inverse; dividing by zero gives infinities and NaN (C157).
* Distances in doubles violate the triangle inequality; different positions can be at distance 0.0 (underflow of squares),
  finite ones at infinite distance (C166).  `KdTree::nearest` still never misses a point of smaller computed distance (C167);
  sphere and box searches may miss points whose computed distance equals the border (C168).
* Normalising a vector with a coordinate of 2^512 or more gives a zero vector without an error; vectors with all coordinates up to
  2^-538 count as zero; the normal of a small face can lie in its plane (C173).
* FilterSphere and FilterCircle can accept a position outside of their own bounding box (C174).
* Lengths in doubles: the perimeter of a polygon depends on its first vertex, and adding a vertex can make it smaller (C177).
* A position outside of a bounding box can be at computed distance 0 from it (C178); otherwise box distances in doubles are those of the
  truly closest point.
* The center of gravity in doubles can leave the range of the coordinates, depends on the order of the points and can be infinite for
  finite points (C180).
* The convex hull in doubles is exact for points on a grid of 2^26 steps, but can miss extreme points of tiny shapes (C181).
* Kd tree searches in doubles are exact for coordinates on a grid of 2^24 steps (C182), which bounds where C18 and C19 can fail.
* The separating axis test in doubles reports the unit cube and a triangle of small whole numbers through one of its corners as apart (C183); a margin of 2^-46 of the largest coordinate is proved to be enough, and common corners always count.
* Trees of boxes on a grid of 2^49 steps answer collision queries exactly in doubles (C184), which bounds where C79 can fail.
* In doubles, transforming by a product of two matrices is not transforming twice, and products depend on their grouping (C185); unit, translation and scale matrices and pipes of them add no error of their own.
* In doubles boxes that overlap by 2^-55 are reported as apart and boxes that only touch as colliding; overlaps of 2^(k-48) or more, for coordinates up to 2^k, are never missed, by trees neither (C186).
* Midpoints by `center` are correctly rounded but overflow for coordinates above 2^1022, so subdivision can give vertices at infinity, and faces
  without area for close vertices; `center_3d` depends on the order of its arguments (C189).
* In doubles a ray straight down through the common edge of two sloped triangles can hit both, also with small integers as coordinates; against
  level triangles on a grid such rays are decided exactly (C192).
* A ray in the plane of the lower face of a box ahead of it reports no hit; off the planes of faces, rays along an axis are decided exactly in
  doubles, also by trees of boxes (C193).

File formats

* `fetch_line` drops the last byte of an unterminated last line (C57, C59).
* PLY: property orders yzx and zxy are permuted (C62), truncated ASCII files and missing vertices are accepted (C63),
  a fourth coordinate or a huge count panics, the binary saver ignores short writes.
* STL: truncated ASCII files are accepted (C65); save_stl_ascii panics on a mesh with a degenerate face (two corners at the
  same position, corners on a line, corners too close to each other) and on NaN coordinates, since it unwraps face_normal (C64).
  load_stl_mesh_unique does not share corners that have a NaN coordinate: one face with three such corners has three vertices (C197).
* OBJ: `v<TAB>` lines are ignored, polygons are truncated to triangles, negative indices are errors, index 0 panics in debug builds.
* OFF: counts on the OFF line are lost, the number of faces is unchecked, truncation is accepted.
* PTS: truncation is accepted.  gcode: bare G90/G91/G92 and G0/G00/G01 are ignored (C68).
* PSL: at most one point (C67).  PTX: a trailing blank line is an error, the translation of the transformation is ignored,
  rows*columns wraps.  LAS: the signature is unchecked, record lengths below 12 panic.
* `slice_from_bytes_be` checks the wrong size.
* `PointCloud::parse` refuses the text of the empty cloud, CRLF line ends and lines of spaces (C152); `Sphere::to_str`
  writes y for z (C151).
* Cut files: text loaders can take one wrong element from the torn last line without error (C158), cut ASCII STL files can
  load without error (C160), binary formats report every cut (C159, C161), but a PLY header cut after a property such as
  `xn` panics, because the dropped letter leaves a fourth coordinate (C161).
* Failing readers: the text loaders take any read error for the end of the file and answer Ok with part of the data (C164);
  the binary loaders report it (C165).
* Equal values that differ in the sign of a zero are hashed differently, in every type with coordinates (C169); the total order
  disagrees with == and partial_cmp, also for lines, boxes, clouds and meshes (C170).
* Iterators over .ptx files go on after a broken point; iterators over meshes in .ply files take the line after a broken vertex
  for a face (C171).
* A call of `DynamicPrecisionIndexVec::set` that panics has raised the storage precision nevertheless (C175).
* The binary PLY saver fails when a call of the writer is interrupted, while the savers of texts retry (C172).
* The message of an unknown type in a ply header quotes the word unescaped and can be mistaken for another message; the text of the crate's
  `ErrorKind` does not tell the format (C179).
* A mesh made of points and indices with left over indices shows wrong vertices for the next face added; a searchable mesh made of a mesh
  and half edges that do not belong together is not noticed (C187).
* `save_ply_ascii` and `save_ply_binary` save faces with missing vertices without an error; the binary file can load as another mesh, as
  indices are cut to 32 bits; the other mesh algorithms panic or report such faces (C188).
* A mesh whose vertices share a coordinate has no bounding box and is not scaled at all; in doubles a move can collapse a face, whose
  normal is then an error (and saving it as stl panics) and which moving back does not repair (C190).
* What is displayed cannot be parsed: `parse` rejects the displayed text of every point and every cloud (only `to_str` can be read back); a
  line and a line segment are displayed alike (C191).
* Healing is not idempotent: the corners of dropped faces stay as vertices without a face until the mesh is healed again (C200).

## Testing the theorems

`seeded/LOG.jsonl` records edits of the model in the manner of realistic bugs (in a scratch copy), the claim each breaks, the
theorems that stopped proving, and the theorems that were tightened because they did not.

Part of the log comes from a random screening of small edits (an entry then names the file and the first statement at which the build
stopped; for these the broken claim is only given in general, and nothing after that statement was tried, so that a stop shows
that a proof noticed the edit but not by itself that the claim became false).  Edits that survived and stay unclaimed: wordings of error texts (C179 only claims that texts tell errors apart),
branches no execution reaches (an inner panic in `unify_faces`, an error in `drain`) and edits without effect (the wrapped count
of `upred` in release builds, as no points are made then; `norm3_x_neg`, as it normalizes its vector).
