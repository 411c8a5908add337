{
 "claims": [
  {
   "property": "C01",
   "status": "proved",
   "theorems": [
    "C01_last_write",
    "C01_reference_write"
   ],
   "note": ""
  },
  {
   "property": "C02",
   "status": "partial",
   "theorems": [
    "C02_count_bits_partial",
    "C02_count_bits_unaligned_refuted",
    "C02_count_bits_after_shift_refuted"
   ],
   "note": "Full statement refuted: unaligned start positions count the wrong bits, and bits pushed past the nominal size by <<= are counted. Proved for byte-aligned starts in all states reachable by operations that keep the slack clean."
  },
  {
   "property": "C03",
   "status": "partial",
   "theorems": [
    "C03_first_set_bit",
    "C03_first_null_bit",
    "C03_last_set_bit",
    "C03_last_null_bit",
    "C03_last_bit_of_empty_refuted",
    "C03_first_set_after_shift_refuted"
   ],
   "note": "Forward searches proved for sets without ones beyond the nominal size, backward searches for every set of nominal size > 0. Refuted: backward search on a cleared (size 0) set is out of bounds; forward search after <<= may answer a position beyond the nominal size."
  },
  {
   "property": "C04",
   "status": "proved",
   "theorems": [
    "C04_and",
    "C04_or",
    "C04_xor",
    "C04_flip"
   ],
   "note": "Right operand assumed free of ones beyond its nominal size (positions beyond it read as zero)."
  },
  {
   "property": "C05",
   "status": "partial",
   "theorems": [
    "C05_shift_left",
    "C05_shift_right",
    "C05_shift_left_too_far_refuted",
    "C05_shift_right_too_far_refuted"
   ],
   "note": "Proved for every amount <= capacity (left) / < capacity (right); for every larger amount the code is proved to leave the buffer (undefined behaviour)."
  },
  {
   "property": "C06",
   "status": "partial",
   "theorems": [
    "C06_reset_all_false",
    "C06_reset_all_true_refuted",
    "C06_set_then_get",
    "C06_set_rejects"
   ],
   "note": "ResetAllBits(true) refuted (writes 0x01 into each byte); reset to false, Set/Get round trip and rejection proved."
  },
  {
   "property": "C07",
   "status": "proved",
   "theorems": [
    "C07_vector_is_sequence",
    "C07_zero_capacity_refuted",
    "C07_fixed_vector"
   ],
   "note": "Vectors constructed with non-zero capacity, and fixed (non-owning) vectors. Capacity 0 is proved to write out of bounds on the first push_back."
  },
  {
   "property": "C08",
   "status": "partial",
   "theorems": [
    "C08_copy_construct",
    "C08_assign_to_empty_partial",
    "C08_assign_appends",
    "C08_assign_refuted",
    "C08_initializer_list_refuted"
   ],
   "note": "Copy construction proved; assignment proved only to an empty destination, otherwise proved to append; the initializer-list constructor is proved to write out of bounds."
  },
  {
   "property": "C09",
   "status": "partial",
   "theorems": [
    "C09_array_assign_partial",
    "C09_array_self_assign_refuted",
    "C09_aos_assign_partial",
    "C09_aos_self_assign_refuted",
    "C09_soa_assign_partial",
    "C09_soa_self_assign_refuted",
    "C09_soa_empty_source_shares_refuted",
    "C09_assign_no_leak"
   ],
   "note": "Assignment between distinct objects proved (AOS3D/SOA3D: source owning its storage; SOA3D: non-empty source). Self-assignment and the empty allocated SOA3D source are refuted."
  },
  {
   "property": "C10",
   "status": "proved",
   "theorems": [
    "C10_table_size"
   ],
   "note": "Hierarchy acyclic with fewer than 65535 daughters per volume; fuel only bounds the recursion depth. Single or double precision tables (r = 1, 2)."
  },
  {
   "property": "C11",
   "status": "proved",
   "theorems": [
    "C11_index_of_path"
   ],
   "note": "At most 255 levels (the assertion in the code)."
  },
  {
   "property": "C12",
   "status": "partial",
   "theorems": [
    "C12_compact_stack",
    "C12_same_path",
    "C12_outside_refuted"
   ],
   "note": "Proved for states inside the world; on an outside state GetLevel() is proved to return the low byte of the world's id and Push to ignore its argument."
  },
  {
   "property": "C13",
   "status": "partial",
   "theorems": [
    "C13_path_stack",
    "C13_wrap_refuted",
    "C13_last_exited_refuted"
   ],
   "note": "Proved up to min(maxlevel+1, 255) volumes. At 256 volumes the level wraps (refuted); GetLastExited answers null near full depth (refuted)."
  },
  {
   "property": "C14",
   "status": "proved",
   "theorems": [
    "C14_interchangeable"
   ],
   "note": "Histories legal for both; levels compared on states inside the world (outside: see C12)."
  },
  {
   "property": "C15",
   "status": "proved",
   "theorems": [
    "C15_compact_round_trip",
    "C15_path_round_trip"
   ],
   "note": "NavStatePath::ResetPathFromListOfIndices keeps the old boundary flag; the paths are equal."
  },
  {
   "property": "C16",
   "status": "partial",
   "theorems": [
    "C16_compact_matrix",
    "C16_compact_matrix_level",
    "C16_path_matrix",
    "C16_path_world_refuted",
    "C16_transformation3d",
    "C16_transformation3d_path"
   ],
   "note": "Proved for the compact and the path state, abstractly and for Transformation3D over the reals with orthogonal rotations and correct flags. NavStatePath::GlobalToLocal additionally applies the world's transformation (refuted equality with TopMatrix)."
  },
  {
   "property": "C17",
   "status": "proved",
   "theorems": [
    "C17_round_trip",
    "C17_isometry",
    "C17_directions",
    "C17_inverse",
    "C17_inverse_invertible",
    "C17_scaled_refuted"
   ],
   "note": "Real arithmetic; Inverse() also proved for every invertible matrix. Transformations built with scale factors are not undone by InverseTransform (refuted)."
  },
  {
   "property": "C18",
   "status": "partial",
   "theorems": [
    "C18_composition",
    "C18_composition_directions",
    "C18_closed",
    "C18_associative",
    "C18_flags",
    "C18_tiny_translation_refuted"
   ],
   "note": "Proved whenever a missing flag means an exactly neutral part, which the constructors guarantee outside the tolerance band; a translation below 1e-9 is lost (refuted)."
  },
  {
   "property": "C19",
   "status": "partial",
   "theorems": [
    "C19_specialised_kernels_partial",
    "C19_orthogonal_partial",
    "C19_new_kernel",
    "C19_specialised_transform_partial",
    "C19_code_16A_refuted",
    "C19_code_046_refuted"
   ],
   "note": "Proved for all codes except 0x16A and 0x046, within tolerance and exactly; the kernels of those two codes are wrong (refuted, 0x16A with a proper rotation). The branch-free kernel DoRotation_new is proved for all codes."
  },
  {
   "property": "C20",
   "status": "proved",
   "theorems": [
    "C20_euler",
    "C20_about_y_refuted"
   ],
   "note": "Also identified with Rz(phi) Rx(theta) Rz(psi); the documented rotation about y is refuted."
  },
  {
   "property": "C21",
   "status": "proved",
   "theorems": [
    "C21_scale",
    "C21_normals",
    "C21_reflected_normal_refuted"
   ],
   "note": "Also normals: orthogonality is kept, orientation is reversed for reflecting scales (refuted)."
  },
  {
   "property": "C22",
   "status": "partial",
   "theorems": [
    "C22_ray_never_misses",
    "C22_ray_direction_partial",
    "C22_face_plane_refuted",
    "C22_hit_near_box",
    "C22_safety",
    "C22_union",
    "C22_contains_expand"
   ],
   "note": "Proved for the functions taking the inverse direction (no zero component); for those taking the direction, proved for points at least t*1e-30 from the faces, because NonZero replaces zero components. Refuted without that clearance: a ray lying in the plane of a maximal face is missed."
  },
  {
   "property": "C23",
   "status": "proved",
   "theorems": [
    "C23_construction",
    "C23_construction_succeeds",
    "C23_every_daughter_once",
    "C23_single_daughter_refuted"
   ],
   "note": "For every splitter that permutes its range and every depth the constructor accepts (0..29 in exact int arithmetic). With one daughter and the default depth the constructor evaluates (int)log2(0), which is undefined."
  },
  {
   "property": "C24",
   "status": "proved",
   "theorems": [
    "C24_locate",
    "C24_locate_direction"
   ],
   "note": "Daughters are assumed to lie in their boxes. Both overloads, with and without direction."
  },
  {
   "property": "C25",
   "status": "proved",
   "theorems": [
    "C25_nearest_daughter"
   ],
   "note": "Contracts: DistanceToIn(step) returns the distance when it is below step and something >= step otherwise, -1 strictly inside the box; entry points lie in the box with clearance t*1e-30 (the boxes carry a margin of 1e-3)."
  },
  {
   "property": "C26",
   "status": "proved",
   "theorems": [
    "C26_safety_minimum",
    "C26_safety_underestimates",
    "C26_minimum_refuted"
   ],
   "note": "Equality with the minimum needs SafetyToIn at least as large as the box safety; without it the answer is proved to stay below every true distance, and the minimum is refuted."
  },
  {
   "property": "C27",
   "status": "proved",
   "theorems": [
    "C27_stack",
    "C27_stack_32"
   ],
   "note": "Depth+1 entries suffice; no assumption on what daughters answer."
  },
  {
   "property": "C28",
   "status": "proved",
   "theorems": [
    "C28_keys",
    "C28_points",
    "C28_midpoint_refuted",
    "C28_boundary_refuted",
    "C28_below_refuted"
   ],
   "note": "Key arithmetic in int with Nx*Ny*Nz < 2^31; points with exact arithmetic. keyToPos, documented as the mid point, is refuted; points outside the box alias cells (no range check)."
  },
  {
   "property": "C29",
   "status": "partial",
   "theorems": [
    "C29_any_history",
    "C29_grouped",
    "C29_refill_partial",
    "C29_refill_refuted",
    "C29_interleaved_refuted",
    "C29_scalar"
   ],
   "note": "Any history is characterised (last run of a key). The claim about clear() is proved unless refilling starts with the last key used before, where it is refuted: clear() does not reset fLastKey."
  },
  {
   "property": "C30",
   "status": "proved",
   "theorems": [
    "C30_conservative",
    "C30_exact",
    "C30_points"
   ],
   "note": "For every monotone rounding and every std::sort; the point must fall into a cell of the grid (proved with exact arithmetic for points of the voxelised box)."
  },
  {
   "property": "C31",
   "status": "proved",
   "theorems": [
    "C31_locate",
    "C31_locate_excluding",
    "C31_bvh_locate",
    "C31_bvh_locate_excluding",
    "C31_no_locator_partial",
    "C31_no_locator_refuted",
    "C31_simple_locator",
    "C31_abbox_locator",
    "C31_assembly_locator",
    "C31_bvh_locator",
    "C31_missing_bvh_refuted"
   ],
   "note": "For every hierarchy of finite height whose volumes with daughters have a level locator satisfying the one-level contract; the contract is proved for the simple, bounding-box, assembly-aware and BVH locators. The built-in search used when no locator is set descends one level only (refuted)."
  },
  {
   "property": "C32",
   "status": "partial",
   "theorems": [
    "C32_step",
    "C32_bounds",
    "C32_propagated",
    "C32_bvh_propagated",
    "C32_safety_propagated",
    "C32_no_assembly",
    "C32_and_safety",
    "C32_infinite_refuted",
    "C32_assembly_refuted"
   ],
   "note": "Over abstract shapes with finite exit distances: ComputeStep returns min(limit, distance to the first boundary) with flag, last exited state and daughter; ComputeStepAndPropagatedState ends in the location (from the top) of the point 1e-6 behind the boundary; the variants with safety and BVHNavigator's relocation agree. Missing from the full statement: an infinite exit distance gives a step of kTolerance regardless of the limit and a null dereference in the world (C32_infinite_refuted); the safety variant can return an assembly (C32_assembly_refuted)."
  },
  {
   "property": "C33",
   "status": "partial",
   "theorems": [
    "C33_simple",
    "C33_abbox",
    "C33_hybrid",
    "C33_bvh",
    "C33_same_answer",
    "C33_blocked_partial",
    "C33_abbox_blocked",
    "C33_blocked_refuted"
   ],
   "note": "Same step and a daughter at that distance for the plain loop, the box loop with sorted hits, the hybrid structure and the BVH, in exact arithmetic, up to the capacity of the hit arrays. The overloads with a blocked volume are only covered when the blocked volume is not entered by the rule (C33_blocked_partial): the navigators use three different rules and their answers differ (C33_blocked_refuted). C33_abbox_blocked: the box search with a blocked volume returns the nearest among all others plus the blocked one when the direction leaves it (normal test)."
  },
  {
   "property": "C34",
   "status": "partial",
   "theorems": [
    "C34_simple",
    "C34_abbox",
    "C34_hybrid",
    "C34_bvh",
    "C34_to_daughters",
    "C34_same_value",
    "C34_capacity_refuted",
    "C34_no_daughters_refuted"
   ],
   "note": "Every estimator stays below the distance to the mother's boundary and to each daughter, and the box and hybrid estimators give the value of the plain loop, up to 2000 daughters. With more candidates the array is overrun (C34_capacity_refuted), and a volume without daughters is a null dereference for the BVH estimator (C34_no_daughters_refuted). Squares of kInfLength are not modelled as overflow."
  },
  {
   "property": "C35",
   "status": "proved",
   "theorems": [
    "C35_clusters",
    "C35_no_daughters",
    "C35_layout",
    "C35_containing",
    "C35_ray",
    "C35_safety",
    "C35_lowered_limit"
   ],
   "note": "For every choice of cluster centres (the k-means result is a universally quantified selection), any vector width and any number of daughters greater than zero: partition, sizes, boxes, layout in memory, and the completeness of the point, ray and safety queries over it."
  },
  {
   "property": "C36",
   "status": "partial",
   "theorems": [
    "C36_insertionsort",
    "C36_long_arrays_refuted"
   ],
   "note": "Sorted, a permutation and stable for up to 32768 entries; longer lists make the short hole index negative (C36_long_arrays_refuted)."
  },
  {
   "property": "C37",
   "status": "proved",
   "theorems": [
    "C37_classes",
    "C37_consistent",
    "C37_generic",
    "C37_safeties"
   ],
   "note": "Scalar kernels in exact arithmetic, every point and every triple of half lengths: Contains is the open box, Inside the three shells at half the tolerance, the classes and the two safeties never contradict each other, the safeties are lower bounds and SafetyToOut is attained on the surface."
  },
  {
   "property": "C38",
   "status": "partial",
   "theorems": [
    "C38_to_out",
    "C38_to_in",
    "C38_true_direction",
    "C38_to_out_near_refuted"
   ],
   "note": "DistanceToOut from the closed box and DistanceToIn from anywhere are proved exact for the direction the kernels use, and the difference to the given direction (1e-30 per component) is bounded. The part about points outside within the tolerance is refuted: DistanceToOut can return a large negative number there."
  },
  {
   "property": "C39",
   "status": "partial",
   "theorems": [
    "C39_abbox",
    "C39_abbox_least",
    "C39_placed_extent",
    "C39_splitted",
    "C39_splitted_refuted",
    "C39_search_boxes"
   ],
   "note": "ComputeABBox: every point of the shape's extent is strictly inside (C39_abbox), nothing smaller spans the corners (C39_abbox_least), the placed extent likewise, and these boxes meet the hypothesis of the daughter searches (C39_search_boxes). ComputeSplittedABBox: slices cover the volume for extents symmetric about the origin along the split axis (C39_splitted); refuted for others (C39_splitted_refuted), which is a defect of the code, not a gap in the proof."
  },
  {
   "property": "C40",
   "status": "partial",
   "theorems": [
    "C40_contains",
    "C40_tree",
    "C40_inside",
    "C40_classes",
    "C40_union_gap_refuted",
    "C40_subtraction_touching_refuted"
   ],
   "note": "Contains proved for every tree of operations. Inside agrees with Contains for intersections, and for unions and subtractions at every point that is not within the tolerance of both operands (C40_inside). At points in the tolerance of both the statement is false: C40_union_gap_refuted (kInside, not contained), C40_subtraction_touching_refuted (kOutside, contained)."
  },
  {
   "property": "C41",
   "status": "partial",
   "theorems": [
    "C41_safety_in",
    "C41_safety_out",
    "C41_tree",
    "C41_left_placed_refuted"
   ],
   "note": "Proved for all operands and for whole trees with unmoved left operands (C41_tree). False for a moved left operand: SafetyToOut is asked in the wrong frame (C41_left_placed_refuted)."
  },
  {
   "property": "C42",
   "status": "partial",
   "theorems": [
    "C42_union_to_in",
    "C42_subtraction_to_out",
    "C42_intersection_to_out",
    "C42_union_to_out",
    "C42_intersection_to_in",
    "C42_subtraction_to_in",
    "C42_subtraction_overshoot_refuted",
    "C42_left_placed_refuted"
   ],
   "note": "First crossings exact for union DistanceToIn, subtraction DistanceToOut, and intersection DistanceToOut with unmoved left operand; the four loops proved to end and to be right up to the tolerance or push. Refuted: intersection DistanceToOut with moved left operand, exact subtraction DistanceToIn."
  },
  {
   "property": "C43",
   "status": "proved",
   "theorems": [
    "C43_points",
    "C43_components",
    "C43_when",
    "C43_flat",
    "C43_total",
    "C43_zero_refuted"
   ],
   "note": "Heap model with shared, in-place mutated operands (acyclic heap, rigid placements). C43_points: every volume keeps its point set and the returned multi-union has the set of the flattened volume; C43_components covers calls with base transformation and multi-union under construction; C43_when: a multi-union is returned exactly for a union with at least min_unions unions, too few leave the heap unchanged; C43_flat: no component is itself a union worth flattening; C43_total: termination without null access for min_unions >= 1. C43_zero_refuted: min_unions = 0 always ends in a null dereference."
  },
  {
   "property": "C44",
   "status": "partial",
   "theorems": [
    "C44_contains",
    "C44_inside",
    "C44_component",
    "C44_extent",
    "C44_neighbours",
    "C44_safety_in",
    "C44_safety_in_inside",
    "C44_safety_out",
    "C44_safety_out_outside",
    "C44_close",
    "C44_empty_refuted",
    "C44_capacity_refuted",
    "C44_safety_in_zero_refuted"
   ],
   "note": "Contains, Inside, the located component, the extent, the neighbour rows and both safeties are proved for every family of components. Three corners are refuted: no components (null structure), more than 20000 candidates, and components that answer SafetyToIn with 0, which are ignored."
  },
  {
   "property": "C45",
   "status": "partial",
   "theorems": [
    "C45_contains",
    "C45_inside",
    "C45_to_in",
    "C45_to_out",
    "C45_wrong_side",
    "C45_safety_in",
    "C45_safety_out",
    "C45_normal",
    "C45_tangent",
    "C45_extent",
    "C45_extent_tight",
    "C45_sample",
    "C45_round_trip",
    "C45_lengths",
    "C45_safeties_shrink",
    "C45_set_scale",
    "C45_copy",
    "C45_ellipsoid",
    "C45_normal_valid_refuted",
    "C45_marker_refuted",
    "C45_reflection_refuted",
    "C45_copy_refuted",
    "C45_assign_refuted"
   ],
   "note": "Proved for every scale without a zero factor, every shape that keeps its own contract, every point and unit direction: points and classes transfer, ray distances are exact (up to the scaled step limit), negative answers stay negative, safeties are conservative, tangents stay orthogonal to the normal, which points outwards for a positive product of the factors; extent, samples, round trips, setter and copies; an instance with the orb (C45_ellipsoid). Refuted: the marker -1 is scaled (C45_marker_refuted); a reflection turns the extent inside out, makes the capacity negative and the normal point inwards (C45_reflection_refuted); Normal always reports invalid; copies lose the placement and assignment keeps the old bounding box."
  },
  {
   "property": "C46",
   "status": "partial",
   "theorems": [
    "C46_to_in",
    "C46_to_in_shell",
    "C46_to_out",
    "C46_to_out_shell",
    "C46_to_out_above",
    "C46_wrong_side",
    "C46_inside",
    "C46_contains",
    "C46_safety",
    "C46_safety_tight",
    "C46_normal",
    "C46_extent",
    "C46_sample",
    "C46_setter",
    "C46_setter_refuted",
    "C46_graze_refuted",
    "C46_negative_refuted",
    "C46_small_refuted"
   ],
   "note": "Proved for every positive radius, point and unit direction: DistanceToIn from beyond the tolerance is the first place in the ball or infinity, DistanceToOut from deeper than the tolerance is the exit; in the two shells of the tolerance the answers are the exact ones or 0 when the ray heads across the surface (then at most sqrt(2 r tol) off). Safeties never exceed the distance and are tight; classes, normal, extent, samples and setter are covered. Refuted: a contained point above the surface with a tangent direction has an infinite distance out (C46_graze_refuted); a tangent start below the surface has a negative distance in that is not the marker (C46_negative_refuted); SetRadius leaves the bounding box (C46_setter_refuted); radii below the tolerance call outside points inside (C46_small_refuted)."
  },
  {
   "property": "C47",
   "status": "partial",
   "theorems": [
    "C47_contains",
    "C47_inside",
    "C47_boundary",
    "C47_safety_in",
    "C47_safety_out",
    "C47_safety_tight",
    "C47_to_in",
    "C47_to_out",
    "C47_enter",
    "C47_leave",
    "C47_gone",
    "C47_arrived",
    "C47_moving",
    "C47_sector_test",
    "C47_start_angle",
    "C47_cone_sector",
    "C47_setter_refuted",
    "C47_zero_refuted",
    "C47_behind_refuted"
   ],
   "note": "Proved for every start angle and 0 < dphi <= 2 pi: Contains is the interval of angles, Inside tells kSurface for points near one of the two half lines and is exact otherwise, safeties are conservative (the outward one is the distance up to half a turn), ray distances are the crossings of the side lines, the sector test of cones and tubes is strict or generous by its tolerance, the normalised start angle names the same sector. Refuted: SetStartPhi and SetDeltaPhi leave the vectors unchanged (C47_setter_refuted); dphi = 0 contains the opposite half line (C47_zero_refuted); the generous sector test takes points far behind the apex of a narrow sector (C47_behind_refuted)."
  },
  {
   "property": "C48",
   "status": "partial",
   "theorems": [
    "C48_nonzero",
    "C48_plane_contains",
    "C48_plane_inside",
    "C48_plane_to_in",
    "C48_plane_to_out",
    "C48_plane_safety",
    "C48_parallel_refuted",
    "C48_contains",
    "C48_inside",
    "C48_inside_room",
    "C48_inside_tight",
    "C48_inside_union",
    "C48_inside_one",
    "C48_set",
    "C48_set_distance",
    "C48_flip",
    "C48_distance",
    "C48_safety_out",
    "C48_safety_in",
    "C48_assign_refuted",
    "C48_contains_union_refuted",
    "C48_safety_flag_refuted",
    "C48_distance_entry_refuted",
    "C48_shell_contains",
    "C48_shell_inside",
    "C48_shell_safety_out",
    "C48_shell_safety_in",
    "C48_shell_closest",
    "C48_shell_out",
    "C48_shell_wrong_side",
    "C48_shell_in",
    "C48_shell_marker_refuted",
    "C48_shell_grazing_refuted",
    "C48_shell_normal_safety",
    "C48_shell_normal",
    "C48_shell_normal_edge",
    "C48_shell_normal_size_refuted",
    "C48_shell_normal_tie_refuted"
   ],
   "note": "Plane, Planes and PlaneShell as lists of planes of any length. Contains, Inside (convex and union), the class against one plane, Set/FlipSign, Distance and both safeties are proved against half-space intersections; shells: flags, safeties, closest face, exits, entries in a range, normals of four planes. Exits and entries of shells assume projections that are zero or at least 2^-46 (C48_nonzero shows, with Flocq, that binary64 rounding absorbs the 1e-30 there); entries also assume a point half a tolerance away from every plane. Refuted: a parallel ray gets a finite distance (C48_parallel_refuted), Contains of a non-convex family is constantly true, assignment keeps the convexity of the target, pointInsideT has the opposite meaning, Distance is no entry distance, the wrong-side marker is not -1 alone, grazing rays miss the shell, NormalKernel runs over four planes whatever N, and near ties of faces lose the sum of the normals."
  },
  {
   "property": "C49",
   "status": "partial",
   "theorems": [
    "C49_init",
    "C49_extent",
    "C49_contains_convex",
    "C49_inside_convex",
    "C49_safety_convex",
    "C49_contains",
    "C49_contains_lanes",
    "C49_contains_hull",
    "C49_safety_sqr",
    "C49_on_segment",
    "C49_inside_template_refuted",
    "C49_safety_template_refuted",
    "C49_untidy_refuted",
    "C49_corner_refuted",
    "C49_star_refuted",
    "C49_straight_corner_refuted",
    "C49_copy_refuted",
    "C49_short_side_refuted",
    "C49_component",
    "C49_safety_contains",
    "C49_contains_extent"
   ],
   "note": "Scalar specialisations: construction never throws and gives the shoelace area (C49_init), ContainsConvex is the open hull, InsideConvex is kInside exactly when the whole tolerance ball is inside and agrees with ContainsConvex, SafetyConvex is the distance inside and a lower bound outside (C49_contains_convex, C49_inside_convex, C49_safety_convex) for convex polygons given in either direction whose unit normals have no component below 1e-9. Contains is crossing parity for every polygon and any number of lanes, SafetySqr the squared distance with a right index. Contains does not change along any path that stays off the border, nor within the safety, and is false outside of the extent, for any polygon, also crossing itself (C49_component, C49_safety_contains, C49_contains_extent). Refuted: the template of InsideConvex never says kInside, the template of SafetyConvex exceeds the distance, bent normals deny inner points, and a copied polygon reads memory behind its vertices (C49_*_refuted)."
  },
  {
   "property": "C50",
   "status": "proved",
   "theorems": [
    "C50_lookup",
    "C50_constructed",
    "C50_planes"
   ],
   "note": "For every increasing sequence of heights with at least one section; every polycone made by the constructor has one when steps up exceed kTolerance, and the planes read back."
  },
  {
   "property": "C51",
   "status": "partial",
   "theorems": [
    "C51_unique",
    "C51_placed",
    "C51_logical",
    "C51_count",
    "C51_placed_label",
    "C51_logical_label",
    "C51_deregister_placed",
    "C51_deregister_logical",
    "C51_stale_refuted",
    "C51_convert_unknown_refuted",
    "C51_after_closing_refuted"
   ],
   "note": "Proved for all histories of creation, destruction, placement, closing, clearing and conversion in which no volume from before a Clear() is destroyed after it. Refuted outside: a stale destruction deregisters a new volume's id; Convert of an unknown index enters a null pointer that the search by label dereferences; volumes created after closing are not found."
  },
  {
   "property": "C52",
   "status": "partial",
   "theorems": [
    "C52_hierarchy",
    "C52_parts",
    "C52_index",
    "C52_index_back",
    "C52_fits",
    "C52_build",
    "C52_convert_old",
    "C52_gap_refuted",
    "C52_convert_refuted"
   ],
   "note": "Hierarchy, parts of Boolean and scaled shapes, buffer index conversions, the exact condition for closing to stay in bounds, and success for every building history are proved. Refuted: closing after an id was given up writes outside the buffer; Convert(pointer) only knows the pointers from before closing. Components of multi-unions are not rewritten by the code and not modelled here."
  },
  {
   "property": "C53",
   "status": "proved",
   "theorems": [
    "C53_count",
    "C53_depth",
    "C53_placed",
    "C53_logical",
    "C53_paths",
    "C53_ntotal"
   ],
   "note": "All visitors over every finite placement DAG; paths up to depth 255 (the level counter of the path state, see C13)."
  },
  {
   "property": "C54",
   "status": "partial",
   "theorems": [
    "C54_poisson_refuted",
    "C54_poisson_partial"
   ],
   "note": "Refuted: for every stream of numbers in [0,1) the only answer is 0, and the loop runs for ever exactly when the first number is below exp(-lambda) (C54_poisson_refuted), which has probability exp(-lambda), and always happens for negative means. What holds is the zero answer after one call otherwise (C54_poisson_partial). Probability itself is not modelled: streams are any sequences."
  },
  {
   "property": "C55",
   "status": "partial",
   "theorems": [
    "C55_equality",
    "C55_equality_after_shift_refuted"
   ],
   "note": "Proved for sets without ones beyond the nominal size; refuted after <<=."
  },
  {
   "property": "C56",
   "status": "partial",
   "theorems": [
    "C56_assign",
    "C56_assign_to_smaller_refuted",
    "C56_copy_grow",
    "C56_copy_shrink_refuted"
   ],
   "note": "Assignment proved when the right side fits; assigning a larger set and shrinking sized copies are proved to be out of bounds."
  },
  {
   "property": "C57",
   "status": "proved",
   "theorems": [
    "C57_compact_distance",
    "C57_path_distance"
   ],
   "note": "Both states inside the world for the compact flavour. RelativePath uses volume ids."
  },
  {
   "property": "C58",
   "status": "proved",
   "theorems": [
    "C58_validate"
   ],
   "note": "Matrix comparison is any predicate true on transformations that act equally."
  },
  {
   "property": "C59",
   "status": "partial",
   "theorems": [
    "C59_path_copies",
    "C59_copy_full_refuted",
    "C59_small_target_refuted",
    "C59_assign_slots"
   ],
   "note": "Proved when the path fits (operator=) or sizes are equal and one slot is free (CopyTo); CopyTo of a full state and into a smaller target refuted."
  },
  {
   "property": "C60",
   "status": "proved",
   "theorems": [
    "C60_delta_transformation",
    "C60_fix_zeroes"
   ],
   "note": "Real arithmetic."
  },
  {
   "property": "C61",
   "status": "proved",
   "theorems": [
    "C61_axis_constructor"
   ],
   "note": "Real arithmetic."
  },
  {
   "property": "C62",
   "status": "partial",
   "theorems": [
    "C62_splitting",
    "C62_areas",
    "C62_balance_refuted"
   ],
   "note": "Permutation, pivot range and the assertions proved. The balance term is refuted: integer division makes it the same for all splits."
  },
  {
   "property": "C63",
   "status": "proved",
   "theorems": [
    "C63_tasks",
    "C63_locate",
    "C63_no_threads_refuted"
   ],
   "note": "Exact arithmetic. Needs at least one hardware thread; with hardware_concurrency() = 0 refuted."
  },
  {
   "property": "C64",
   "status": "proved",
   "theorems": [
    "C64_relocate",
    "C64_same_path",
    "C64_leave",
    "C64_leave_agrees",
    "C64_bvh_leave"
   ],
   "note": "For geometries without overlaps and exact round trips of the transformations; leaving a volume also without those assumptions."
  },
  {
   "property": "C65",
   "status": "partial",
   "theorems": [
    "C65_normal",
    "C65_valid_refuted"
   ],
   "note": "Unit length, validity on the surface and the outward direction are proved for all points; that a valid flag means a point on the surface is refuted."
  },
  {
   "property": "C66",
   "status": "proved",
   "theorems": [
    "C66_sample",
    "C66_extent"
   ],
   "note": "Every outcome of the generator in [-1,1]; exact arithmetic."
  },
  {
   "property": "C67",
   "status": "partial",
   "theorems": [
    "C67_contains",
    "C67_extent",
    "C67_order_refuted"
   ],
   "note": "C67_contains and C67_extent hold for all assemblies built from the bottom up, of any depth; C67_order_refuted shows the property is false in the code when a daughter is added to an inner assembly after it has been placed."
  },
  {
   "property": "C68",
   "status": "partial",
   "theorems": [
    "C68_normal",
    "C68_moved_refuted"
   ],
   "note": "Proved for unmoved operands at points of one surface clear of the other operand. False for moved operands, whose point is transformed twice (C68_moved_refuted)."
  },
  {
   "property": "C69",
   "status": "partial",
   "theorems": [
    "C69_extent",
    "C69_moved_refuted"
   ],
   "note": "Proved for unmoved operands. False for moved ones: the extent of the placed operand is transformed again (C69_moved_refuted)."
  },
  {
   "property": "C70",
   "status": "partial",
   "theorems": [
    "C70_to_in",
    "C70_to_out",
    "C70_normal",
    "C70_to_out_refuted",
    "C70_normal_moved_refuted"
   ],
   "note": "DistanceToIn is the least component distance. DistanceToOut is proved for starts that are not on the surface of a component, with components whose exit distance exceeds the tolerance at every stop; C70_to_out_refuted gives a start where the answer is 0 deep in the union. Normals are right for components that are not moved and wrong for moved ones (C70_normal_moved_refuted)."
  },
  {
   "property": "C71",
   "status": "partial",
   "theorems": [
    "C71_contains_partial",
    "C71_thin_refuted",
    "C71_sector_partial"
   ],
   "note": "Proved for steps up of more than 2 kTolerance, for any phi section that decides its set (C71_contains_partial) and for the wedge of the code with any angles (C71_sector_partial). Refuted for thinner sections: every point at such a height is contained (C71_thin_refuted)."
  },
  {
   "property": "C72",
   "status": "partial",
   "theorems": [
    "C72_outside_partial",
    "C72_inside_partial",
    "C72_seam_refuted",
    "C72_sector_outside_partial",
    "C72_sector_inside_partial"
   ],
   "note": "kOutside is never said of a point of the solid, kInside only of points of the solid or within kTolerance of the height of a plane, where radii exceed the radial tolerance. Refuted on seams: a point outside the lateral surface is kInside and a point deep inside is kSurface (C72_seam_refuted)."
  },
  {
   "property": "C73",
   "status": "partial",
   "theorems": [
    "C73_safety_out",
    "C73_safety_in_partial",
    "C73_beyond_partial",
    "C73_marker",
    "C73_left_refuted",
    "C73_below_refuted",
    "C73_sector_out",
    "C73_sector_in_partial"
   ],
   "note": "The safety to the outside is proved in full, with the -1 marker for points called outside. The safety to the inside is proved for heights in the range when no section further below is thicker than the one just below the section of the point, and beyond the ends against the first and last section (C73_beyond_partial). Refuted in the rest: the loop to the left measures from the wrong plane (C73_left_refuted), and beyond the ends only one section is asked (C73_below_refuted)."
  },
  {
   "property": "C74",
   "status": "partial",
   "theorems": [
    "C74_to_in_partial",
    "C74_to_out_partial",
    "C74_start"
   ],
   "note": "Relative to ray distances of the sections that are right about their open bodies, for rays with |v.z| >= kTolerance or v.z = 0. DistanceToOut for starts more than kTolerance away from the planes and sections thicker than kConeTolerance; the answer falls short of the exit by less than half a tolerance."
  },
  {
   "property": "C75",
   "status": "partial",
   "theorems": [
    "C75_convex_partial",
    "C75_convex_refuted",
    "C75_step",
    "C75_triple_refuted",
    "C75_sector_partial"
   ],
   "note": "Proved for strictly increasing heights. Refuted with a height given twice (C75_convex_refuted); a height given three times reads an empty list (C75_triple_refuted)."
  },
  {
   "property": "C76",
   "status": "partial",
   "theorems": [
    "C76_reset_refuted",
    "C76_capacity",
    "C76_frustum"
   ],
   "note": "The capacity after construction is the sum of the volumes between the planes, each the integral of the cross sections (C76_capacity, C76_frustum). Refuted for Reset: heights, sections and capacity are doubled (C76_reset_refuted)."
  },
  {
   "property": "C77",
   "status": "partial",
   "theorems": [
    "C77_maker_partial",
    "C77_two_partial",
    "C77_two_refuted",
    "C77_sector_partial"
   ],
   "note": "Proved for more than two planes, and for two planes symmetric about the origin. Refuted for other pairs: the cone is built around the origin (C77_two_refuted)."
  },
  {
   "property": "C78",
   "status": "partial",
   "theorems": [
    "C78_contains",
    "C78_outside_partial",
    "C78_inside_partial",
    "C78_safety_in",
    "C78_capacity",
    "C78_safety_out",
    "C78_tip_refuted",
    "C78_sector_contains",
    "C78_sector_outside_partial",
    "C78_sector_inside_partial",
    "C78_sector_safety"
   ],
   "note": "Contains and both safeties are proved for every cone, with any phi section that keeps its contract and with the wedge of the code (C78_sector_*). Classes are proved where radii are at least the radial tolerance; near the tip of a conical hole a contained point is kOutside (C78_tip_refuted)."
  },
  {
   "property": "C79",
   "status": "partial",
   "theorems": [
    "C79_solid",
    "C79_contains",
    "C79_inside",
    "C79_safety_in",
    "C79_safety_out",
    "C79_out",
    "C79_wrong_side",
    "C79_in",
    "C79_normal",
    "C79_normal_face",
    "C79_normal_off",
    "C79_extent",
    "C79_capacity",
    "C79_symmetric",
    "C79_sample",
    "C79_face_refuted",
    "C79_hair_refuted",
    "C79_edge_refuted",
    "C79_degeneracy",
    "C79_degenerate_refuted"
   ],
   "note": "All kernels of TetImplementation.h and the capacity, extent and sampling code, for any four points not in a plane and any non-negative kMinimum added by Unit. Exits and entries assume steady projections (zero or at least 2^-46), corners within 1e20, and faces parallel to the ray at least half a tolerance away (for exits); without the last assumption C79_face_refuted and C79_hair_refuted show a zero and a -1e20 answer. The normal at edges is outward and no longer than one but not a unit vector (C79_edge_refuted). Degenerate solids are accepted (C79_degenerate_refuted). The uniformity of sampling is not covered."
  },
  {
   "property": "C80",
   "status": "partial",
   "theorems": [
    "C80_uniform",
    "C80_uniform_onto",
    "C80_array",
    "C80_gauss",
    "C80_gauss_onto",
    "C80_gauss_mirror",
    "C80_gauss_centre_refuted"
   ],
   "note": "uniform and uniform_array in full; Gauss takes the first pair of the stream in the open disc, is bounded by sqrt(-2 ln w), can return every number and mirrors. Refuted at one point: the pair (1/2, 1/2) is accepted and gives not-a-number (C80_gauss_centre_refuted). Distributions are not modelled, only supports and symmetries."
  },
  {
   "property": "C81",
   "status": "partial",
   "theorems": [
    "C81_init",
    "C81_contains",
    "C81_inside",
    "C81_inside_beyond",
    "C81_safety_to_in",
    "C81_safety_to_out",
    "C81_to_out",
    "C81_to_out_outside",
    "C81_to_in",
    "C81_normal",
    "C81_extent",
    "C81_contains_any",
    "C81_inside_any",
    "C81_safety_to_in_any",
    "C81_safety_to_out_any",
    "C81_normal_any",
    "C81_to_out_any",
    "C81_to_in_any",
    "C81_inside_refuted",
    "C81_edge_refuted",
    "C81_area_refuted",
    "C81_off_centre_refuted",
    "C81_grazing_refuted"
   ],
   "note": "Convex polygons (given either way round, tidy: components of the stored normals zero or at least 1e-9): Contains, Inside, both safeties, the normal and the capacity in full; DistanceToOut for solids with their middle at height zero and directions that go along a face exactly or by at least 2^-46; DistanceToIn for directions along a side exactly or by at least 1e-9. Any other polygon, also crossing itself, against the crossing parity: Contains, Inside, safeties, extent; DistanceToIn/Out against exact crossings of sides. Refuted: Inside at exactly the tolerance above the solid (C81_inside_refuted) and next to edges of concave solids (C81_edge_refuted), the surface area (C81_area_refuted), DistanceToOut of solids off centre (C81_off_centre_refuted), DistanceToIn of grazing rays (C81_grazing_refuted). Missing: that a ray inside a concave solid crosses only sides that face it (needs the orientation of simple polygons), and level rays where the concave code divides by dir.z() = 0."
  },
  {
   "property": "C82",
   "status": "proved",
   "theorems": [
    "C82_solid",
    "C82_contains",
    "C82_inside",
    "C82_safety_to_out",
    "C82_safety_to_in",
    "C82_to_out",
    "C82_to_out_outside",
    "C82_to_in",
    "C82_to_in_level",
    "C82_normal_wall",
    "C82_normal_lid",
    "C82_normal_buried",
    "C82_normal_buried_refuted",
    "C82_make",
    "C82_make_trd2",
    "C82_make_trd1",
    "C82_make_para",
    "C82_make_box",
    "C82_corners",
    "C82_extent",
    "C82_capacity",
    "C82_section",
    "C82_area",
    "C82_side_areas",
    "C82_sample_face",
    "C82_sample_point",
    "C82_sample_uniform_refuted",
    "C82_set_angles",
    "C82_setters_refuted",
    "C82_angles_refuted",
    "C82_twisted_refuted",
    "C82_normal_edge",
    "C82_setter_members"
   ],
   "note": "Proper trapezoids: positive dz, dy1, dy2, non-negative dx, side faces at -x and +x flat (the constructor's own requirement). Solid = convex hull of the eight corners = intersection of six half spaces; Contains, Inside, safeties in full; ray distances for directions that go along a face exactly or by at least 2^-46 (where NonZero is absorbed), DistanceToIn for points not within half a tolerance of a wall's plane. Refuted: normals a tolerance under a lid (C82_normal_buried_refuted), SetDz/SetDx1 and the like (C82_setters_refuted), theta()/phi() (C82_angles_refuted), MakePlanes' answer (C82_twisted_refuted), uniformity of surface samples (C82_sample_uniform_refuted)."
  },
  {
   "property": "C83",
   "status": "proved",
   "theorems": [
    "C83_solid",
    "C83_contains",
    "C83_inside",
    "C83_safety_to_out",
    "C83_safety_to_in",
    "C83_to_out",
    "C83_to_out_outside",
    "C83_to_in",
    "C83_to_in_infinite",
    "C83_normal",
    "C83_normal_valid",
    "C83_normal_invalid",
    "C83_history",
    "C83_dimensions_refuted",
    "C83_extent",
    "C83_capacity",
    "C83_area",
    "C83_sample",
    "C83_sample_face",
    "C83_mesh_refuted",
    "C83_trapezoid",
    "C83_normal_unit_refuted",
    "C83_normal_valid_refuted"
   ],
   "note": "Every parallelepiped made by the constructor and any sequence of setters. Solid = combinations of three edge directions with bounded coefficients = intersection of six half spaces = hull of the eight corners of the trapezoid with the same parameters. Contains (strict), Inside and safeties in full; ray distances are exact for a direction off by at most kTiny along each edge (what NonZero makes of it). Refuted: SurfaceArea and bounding box after SetDimensions (C83_dimensions_refuted), normals of length one (C83_normal_unit_refuted), validity away from the face (C83_normal_valid_refuted), meshes of straight boxes (C83_mesh_refuted)."
  },
  {
   "property": "C84",
   "status": "proved",
   "theorems": [
    "C84_solid",
    "C84_contains",
    "C84_inside",
    "C84_inside_slack",
    "C84_safety_to_out",
    "C84_safety_to_in",
    "C84_inside_refuted",
    "C84_to_out_outside",
    "C84_to_out",
    "C84_to_in_inside",
    "C84_to_in",
    "C84_to_in_sign_refuted",
    "C84_to_out_slide_refuted",
    "C84_hull",
    "C84_trapezoid",
    "C84_capacity",
    "C84_shares",
    "C84_face_areas",
    "C84_area",
    "C84_choose",
    "C84_sample",
    "C84_sample_face",
    "C84_extent",
    "C84_mesh",
    "C84_setters",
    "C84_bbox_refuted",
    "C84_set_y_refuted",
    "C84_make",
    "C84_make1",
    "C84_make_inside",
    "C84_make_to_in",
    "C84_make1_to_in",
    "C84_normal",
    "C84_normal_valid_refuted"
   ],
   "note": "Every Trd (UniversalTrd, Trd2, and Trd1 with one length in y) with positive height and no negative lengths. Contains and the safeties in full; Inside with the slack of the y faces that the code uses (C84_inside), equal to the usual one for equal slopes or Trd1 (C84_inside_slack). Ray distances for directions that run along each face or leave it by at least 2^-46 (the code adds kTiny to a denominator); DistanceToOut of solids without slope in y not for rays in the plane of a face, DistanceToIn not from points within half a tolerance under the plane of a lid. Refuted in full generality: C84_inside_refuted, C84_to_in_sign_refuted, C84_to_out_slide_refuted, C84_bbox_refuted, C84_set_y_refuted, C84_normal_valid_refuted; C84_area says exactly when SurfaceArea is right."
  },
  {
   "property": "C85",
   "status": "partial",
   "theorems": [
    "C85_contains",
    "C85_contains_negative",
    "C85_inside",
    "C85_inside_hole_refuted",
    "C85_safety_to_in",
    "C85_safety_to_in_exact",
    "C85_safety_to_out",
    "C85_to_out_outside",
    "C85_to_out",
    "C85_to_in",
    "C85_to_in_inside",
    "C85_to_out_half_refuted",
    "C85_to_out_tangent_refuted",
    "C85_to_out_wide_refuted",
    "C85_to_out_axis_refuted",
    "C85_to_in_axis_refuted",
    "C85_to_in_sign_refuted",
    "C85_setters",
    "C85_set_rmin_refuted",
    "C85_set_sphi_stale",
    "C85_set_sphi_refuted",
    "C85_set_dphi_stale",
    "C85_make",
    "C85_make_contains",
    "C85_capacity",
    "C85_area",
    "C85_choose",
    "C85_sample",
    "C85_piece",
    "C85_convex",
    "C85_extent",
    "C85_normal",
    "C85_normal_one",
    "C85_normal_unit_refuted",
    "C85_set_sphi_safety",
    "C85_set_dphi_safety",
    "C85_to_in_outer_wall",
    "C85_to_in_inner_wall"
   ],
   "note": "Every tube type that fits the solid. Contains in full; Inside for radii of at least two tolerances (C85_inside_hole_refuted); safeties sound in full, exact away from the tolerances; ray distances for directions that run along each plane or leave it by at least 2^-46 and for the rays listed in C85_to_out and C85_to_in. Outside these lists the code goes wrong: DistanceToOut of half tubes (C85_to_out_half_refuted), of tangents (C85_to_out_tangent_refuted), of tubes wider than half a turn (C85_to_out_wide_refuted) and through the axis (C85_to_out_axis_refuted); DistanceToIn through the axis (C85_to_in_axis_refuted) and its sign (C85_to_in_sign_refuted). SetRMin takes radii the constructor refuses (C85_set_rmin_refuted); SetSPhi and SetDPhi leave the wedge of the tube as it was (C85_set_sphi_stale, C85_set_dphi_stale). Normals on the surface in full; they are not always of length one (C85_normal_unit_refuted). Convexity and extent in full; capacity and areas over the reals, as closed formulas."
  },
  {
   "property": "C86",
   "status": "partial",
   "theorems": [
    "C86_contains",
    "C86_inside",
    "C86_safety_in",
    "C86_safety_out",
    "C86_convex",
    "C86_extent",
    "C86_to_out",
    "C86_to_out_outside",
    "C86_to_in",
    "C86_to_in_hit",
    "C86_to_out_parallel_refuted",
    "C86_normal",
    "C86_normal_unit",
    "C86_normal_valid_refuted",
    "C86_measures",
    "C86_perimeter_stops",
    "C86_perimeter_circle",
    "C86_choose",
    "C86_sample",
    "C86_mesh",
    "C86_setters",
    "C86_make",
    "C86_dz_refuted",
    "C86_on_ellipse_first",
    "C86_in_ellipse_first"
   ],
   "note": "Half axes of at least two tolerances, which the constructor enforces (C86_make). Contains, Inside, safeties, convexity, extent, samples, mesh and setters in full. Ray distances for directions along the axis or off it by a slant of at least 2^-52 (refuted otherwise: C86_to_out_parallel_refuted), DistanceToIn also with a z component that is zero or at least 2^-46. The perimeter enters the area as a parameter; EllipsePerimeter is shown to stop and to be exact for circles, not to be within rounding of the elliptic integral. The half length is not checked (C86_dz_refuted) and a valid normal does not imply a surface point (C86_normal_valid_refuted). Uniformity of the samples is not treated."
  },
  {
   "property": "C87",
   "status": "partial",
   "theorems": [
    "C87_contains",
    "C87_inside",
    "C87_safety_in",
    "C87_safety_out",
    "C87_convex",
    "C87_extent",
    "C87_to_out",
    "C87_to_out_outside",
    "C87_to_in",
    "C87_to_in_hit",
    "C87_to_in_needle_refuted",
    "C87_normal",
    "C87_normal_unit_refuted",
    "C87_normal_valid_refuted",
    "C87_measures",
    "C87_facets",
    "C87_choose",
    "C87_sample",
    "C87_mesh",
    "C87_mesh_cut_refuted",
    "C87_make",
    "C87_dz_refuted",
    "C87_set_axes_refuted"
   ],
   "note": "Semi-axes of at least two tolerances with cuts in range, which the constructor gives for any cuts (C87_make) except that the third semi-axis is not checked (C87_dz_refuted). Contains, Inside, safeties, convexity, extent, measures, samples and SetZCuts in full. DistanceToOut in full up to points within rounding of the side, where zero is given with no more than a 2^24th of the shortest semi-axis ahead. DistanceToIn for directions whose squeezed z component is zero or at least 2^-46; it may miss a ray whose depth is below the rounding test, which grows with the distance of the start (C87_to_in_needle_refuted shows a miss at a depth of 1/32 of the radius). The area of the side is the model's own sum of facets with corners on the side, not compared with the integral. Mesh vertices lie on the ellipsoid but not between the cuts (C87_mesh_cut_refuted). Normals: refuted unit length on edges below the middle, refuted validity off the surface. Uniformity of the samples is not treated."
  },
  {
   "property": "C88",
   "status": "partial",
   "theorems": [
    "C88_rims",
    "C88_contains",
    "C88_inside",
    "C88_convex",
    "C88_extent",
    "C88_safety_in",
    "C88_safety_in_far",
    "C88_safety_out",
    "C88_safety_wide_bottom_refuted",
    "C88_set",
    "C88_to_out",
    "C88_to_out_outside",
    "C88_to_out_level_refuted",
    "C88_to_in",
    "C88_to_in_hit",
    "C88_to_in_refuted",
    "C88_normal",
    "C88_normal_side_refuted",
    "C88_capacity",
    "C88_area",
    "C88_mesh",
    "C88_sample",
    "C88_area_wide_bottom_refuted"
   ],
   "note": "Radii 0 <= Rlo < Rhi and positive half height, which the setter does not require: with Rlo > Rhi the safeties and the area are wrong (C88_safety_wide_bottom_refuted, C88_area_wide_bottom_refuted), with Rlo = Rhi every member divides by zero (not treated). Classes, convexity, extent, safeties, capacity, area, mesh, samples and setters in full for those. Ray distances for directions without components lost in rounding and surfaces steep enough that a tolerance is not; level rays within a tolerance above the upper lid get a hugely negative distance to leave (C88_to_out_level_refuted), points on the side continued beyond the lids get zero to enter (C88_to_in_refuted). The normal on the side is refuted: it is the upward direction everywhere and none on the lower rim. Uniformity of the samples, the bounding box kept by the placed volume and printing are not treated."
  },
  {
   "property": "C89",
   "status": "partial",
   "theorems": [
    "C89_make",
    "C89_contains",
    "C89_inside",
    "C89_convex",
    "C89_extent",
    "C89_safety_in",
    "C89_safety_out",
    "C89_capacity",
    "C89_lateral_scale",
    "C89_area",
    "C89_lateral",
    "C89_choose",
    "C89_sample",
    "C89_sample_side",
    "C89_mesh",
    "C89_normal",
    "C89_normal_axis_refuted",
    "C89_normal_valid_refuted",
    "C89_to_out",
    "C89_to_out_outside",
    "C89_to_in",
    "C89_to_in_hit"
   ],
   "note": "Parameters of at least two tolerances and the cut not beyond the apex, which the constructor sees to (C89_make). Constructor, classes, convexity, extent, safeties, volume, samples and mesh in full for those. The lateral area for an exact complete elliptic integral (C89_lateral); that comp_ellint_2 computes it is not proved. DistanceToOut for points of the solid, DistanceToIn for all points, both for rays whose slope differs from that of the side by more than the rounding; the replacement of the direction for rays along the side is modelled but not treated, nor is DistanceToOut from the layer of half a tolerance outside. DistanceToIn also needs a z component that is zero or not below 2^-46, distances below kInfLength / 2^46, and a starting point on the axis or off it by a tenth of half a tolerance; what it may miss is spelled out in `hardly`. The normal off the axis in full; on the axis it is refuted (C89_normal_axis_refuted). Uniformity of the samples and printing are not treated."
  },
  {
   "property": "C90",
   "status": "partial",
   "theorems": [
    "C90_make",
    "C90_make_solid",
    "C90_contains",
    "C90_inside",
    "C90_safety_in",
    "C90_safety_out",
    "C90_to_out",
    "C90_limits",
    "C90_lateral",
    "C90_capacity",
    "C90_lids",
    "C90_sides",
    "C90_area",
    "C90_sample",
    "C90_piece",
    "C90_convex",
    "C90_mesh",
    "C90_set_dz",
    "C90_normal",
    "C90_mesh_refuted",
    "C90_normal_refuted",
    "C90_inside_crossing_refuted",
    "C90_extent",
    "C90_choose",
    "C90_planes_in",
    "C90_to_in_inside",
    "C90_to_in_lid",
    "C90_to_in_wall",
    "C90_to_in_near",
    "C90_to_in_far",
    "C90_to_in_move",
    "C90_to_in_far_refuted",
    "C90_normal_wall"
   ],
   "note": "Inner radius not negative and below the outer one, opening up to a full turn, normals with clean components (zero or not tiny against their length, which set_plane would otherwise round). Constructor, Contains, safeties, measures, convexity flag (one direction), mesh offset, SetDz and the normal on the lids in full for those; Inside for points up to the stored length of the inner tube (kInfLength). DistanceToOut for points of the closed solid and rays that are not along z, with the conditions of the tube (C85_to_out) and rays that are not almost parallel to a plane. SamplePointOnSurface for planes that do not cross within the tube; the distribution is not treated (the lids are sampled uniformly in the radius, not in the area). Extent encloses the solid for all of these and is the smallest box when the planes do not cross within the tube. CutPlanes::DistanceToIn finds the first point between the planes for rays not almost parallel to a plane; DistanceToIn is proved from inside, for rays that enter the tube through a plane, and from points a tolerance between the planes, with the conditions of the tube (C85_to_in) (near points, the limit on the step infinite). From far away the kernel is asked from a moved point (C90_to_in_far), and the move passes over the solid when steep lids reach farther (C90_to_in_far_refuted). The normal on the walls for points below both planes which are near no other piece of the tube. Missing: DistanceToIn for rays that pass a plane before they enter through a wall or a side, the normal on the sides, rays along z, the faces of the mesh."
  }
 ]
}