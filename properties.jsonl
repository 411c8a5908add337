{"id": "C01", "title": "BitSet reads back the last write", "statement": "After any sequence of SetBitNumber / ResetBitNumber calls on positions inside the allocated capacity, TestBitNumber(i) is true exactly when the last call that named i wrote true (false if none did), for every i; a write never changes the answer for a different position, and a SetBitNumber that does not fit the capacity returns false and changes nothing.", "quantifier": "every initial size, every finite sequence of operations, every queried position", "why_tests_cant": "the claim quantifies over histories of unbounded length and over every (written, queried) pair of positions; byte/bit aliasing shows up only for particular pairs", "anchors": ["VecGeom/base/BitSet.h: BitSet::SetBitNumber, ResetBitNumber, TestBitNumber, operator[]"]}
{"id": "C02", "title": "BitSet::CountBits counts the set bits", "statement": "CountBits() equals the number of positions i for which TestBitNumber(i) is true, for every bit set reachable through the public interface; CountBits(startBit) equals the number of such positions >= startBit.", "quantifier": "every reachable bit set, every start position", "why_tests_cant": "a 256-entry table and two code paths (byte aligned or not) are involved; a test samples a handful of patterns", "anchors": ["VecGeom/base/BitSet.h: BitSet::CountBits"]}
{"id": "C03", "title": "BitSet searches return the extremal position", "statement": "FirstSetBit(s) / FirstNullBit(s) return the least position >= s holding a one / zero, and LastSetBit(s) / LastNullBit(s) return the greatest position <= s holding a one / zero, with the documented out-of-range answer when there is none.", "quantifier": "every byte content, every start position", "why_tests_cant": "four 256-entry tables plus a partial-byte prologue; extremality ('no earlier position qualifies') is a universally quantified statement", "anchors": ["VecGeom/base/BitSet.h: FirstNullBit, FirstSetBit, LastNullBit, LastSetBit"]}
{"id": "C04", "title": "BitSet logical operators act pointwise", "statement": "operator&=, |= and ^= compute, at every position of the left operand, the Boolean combination of the two operands, positions missing on the right reading as zero; operator~ style Flip inverts each position.", "quantifier": "every pair of bit sets of any two sizes", "why_tests_cant": "operands of different length take a different path for the tail bytes; only a proof covers all length pairs", "anchors": ["VecGeom/base/BitSet.h: DoAndEqual, DoOrEqual, DoXorEqual, DoFlip"]}
{"id": "C05", "title": "BitSet shifts move every bit by the requested amount", "statement": "x <<= k moves the bit at position i to position i+k and fills with zeroes; x >>= k moves the bit at position i+k to position i and fills with zeroes, for every shift amount.", "quantifier": "every bit set, every shift amount", "why_tests_cant": "the multi-byte carry code has separate paths for byte-aligned shifts, and the interesting amounts (>= size) are boundary cases over all sizes", "anchors": ["VecGeom/base/BitSet.h: DoLeftShift, DoRightShift"]}
{"id": "C06", "title": "BitSet bulk writes and raw import/export", "statement": "ResetAllBits(v) makes every position read as v; Set(n,array) followed by Get(array') writes back the same bits; both reject arrays that do not fit and then leave the set unchanged.", "quantifier": "every size, every value, every byte array", "why_tests_cant": "value-level claim over all sizes and array contents", "anchors": ["VecGeom/base/BitSet.h: ResetAllBits, Set, Get"]}
{"id": "C07", "title": "Vector behaves as a sequence", "statement": "Any sequence of push_back / resize / reserve / clear / erase / set operations on a vecgeom Vector constructed with non-zero capacity never writes outside the allocated buffer and yields exactly the element sequence that the same operations produce on a mathematical sequence.", "quantifier": "every element type value, every initial capacity, every operation sequence", "why_tests_cant": "memory safety and content after unbounded histories with re-allocations at data-dependent moments", "anchors": ["VecGeom/base/Vector.h: VectorBase"]}
{"id": "C08", "title": "Vector construction and assignment copy the source", "statement": "Constructing a Vector from an initializer list of n elements or assigning one Vector to another leaves the destination with exactly the source's elements, without touching memory outside the destination's buffer.", "quantifier": "every list length, every prior content of the destination", "why_tests_cant": "tests use fresh destinations and empty lists, where the wrong code is harmless", "anchors": ["VecGeom/base/Vector.h: VectorBase(std::initializer_list), operator="]}
{"id": "C09", "title": "Fixed arrays survive self-assignment", "statement": "a = a leaves the container's content unchanged, and b = a makes b equal to a without sharing storage with a.", "quantifier": "every content, every size, every aliasing pattern between source and destination", "why_tests_cant": "aliasing is a property of all pairs of objects, including identical ones", "anchors": ["VecGeom/base/Array.h: Array::operator=", "VecGeom/base/SOA3D.h: SOA3D::operator=", "VecGeom/base/AOS3D.h: AOS3D::operator="]}
{"id": "C10", "title": "The navigation index table has the size computed for it", "statement": "The table-filling pass ends exactly at the number of bytes computed by the sizing pass and no write falls outside the allocation, whatever the hierarchy and the matrix-cache depth limit.", "quantifier": "every finite placement hierarchy, every cache depth limit, every set of volumes flagged for caching", "why_tests_cant": "two independently coded recursions must agree node by node, including alignment padding; quantifies over all trees", "anchors": ["source/NavIndexTable.cpp: BuildNavIndexVisitor, NavIndexTable::AllocateTable", "VecGeom/management/NavIndexTable.h"]}
{"id": "C11", "title": "Navigation indices are in one-to-one correspondence with placement paths", "statement": "Different placement paths get different non-zero navigation indices, and from the index of a path the table recovers its mother's index, the identity of its placed volume, its depth and the indices of all its daughters.", "quantifier": "every finite placement hierarchy, every path in it", "why_tests_cant": "injectivity and decoding over all pairs of paths of all hierarchies", "anchors": ["source/NavIndexTable.cpp: BuildNavIndexVisitor::apply", "VecGeom/navigation/NavStateIndex.h: PushImpl, PopImpl, TopImpl, GetPhysicalVolumeId..."]}
{"id": "C12", "title": "The compact navigation state is a faithful stack of placements", "statement": "For every sequence of Push / Pop / Clear calls that only pushes daughters of the current top volume, the compact (table-index) state reports the same Top, the same level, the same At(l) for every l, the same IsOutside and the same emptiness as a plain list of placements.", "quantifier": "every hierarchy, every legal call history", "why_tests_cant": "refinement over unbounded histories", "anchors": ["VecGeom/navigation/NavStateIndex.h: Push, Pop, Top, At, ValueAt, GetLevel, GetCurrentLevel, IsOutside, Clear"]}
{"id": "C13", "title": "The path navigation state is a faithful stack of placements", "statement": "For every sequence of Push / Pop / Clear calls not exceeding the maximum depth, the path-array state reports the same Top, At(l), level and emptiness as a plain list of placements, and never accesses its array out of bounds.", "quantifier": "every depth limit, every call history", "why_tests_cant": "refinement over unbounded histories including the boundary at full depth", "anchors": ["VecGeom/navigation/NavStatePath.h: Push, Pop, Top, At, GetCurrentLevel, IsOutside, Clear, CopyTo"]}
{"id": "C14", "title": "Both navigation state flavours are interchangeable", "statement": "Replaying the same legal history on the compact state and on the path state gives states that describe the same path (same Top, same depth, same volume at every level).", "quantifier": "every hierarchy, every legal history", "why_tests_cant": "simulation between two representations over all histories", "anchors": ["VecGeom/navigation/NavStateIndex.h", "VecGeom/navigation/NavStatePath.h"]}
{"id": "C15", "title": "Exporting a state as daughter indices and importing it restores the path", "statement": "ResetPathFromListOfIndices(world, GetPathAsListOfIndices()) restores a state equal to the original, for every path in every hierarchy.", "quantifier": "every hierarchy, every path", "why_tests_cant": "round trip over all trees and all paths", "anchors": ["VecGeom/navigation/NavStateIndex.h / source/NavStateIndex.cpp: GetPathAsListOfIndices, ResetPathFromListOfIndices", "source/NavStatePath.cpp"]}
{"id": "C16", "title": "The global transformation of a state is the product along its path", "statement": "The matrix returned for a navigation state maps a global point to the same local point as applying the placement transformations of the path one after another, no matter which levels have their matrix cached in the table.", "quantifier": "every hierarchy, every path, every cache depth limit, every global point", "why_tests_cant": "cached and uncached levels interleave; equality must hold for all points and all cut-offs", "anchors": ["VecGeom/navigation/NavStateIndex.h: TopMatrixImpl, TopMatrix, GlobalToLocal", "source/NavIndexTable.cpp"]}
{"id": "C17", "title": "Transform and InverseTransform are mutually inverse isometries", "statement": "For a transformation whose rotation part is orthogonal, InverseTransform(Transform(p)) = p = Transform(InverseTransform(p)), distances between points are preserved, TransformDirection preserves lengths and angles, and Inverse() denotes the inverse map.", "quantifier": "every orthogonal rotation, every translation, every point and direction", "why_tests_cant": "algebraic identity over a continuum", "anchors": ["VecGeom/base/Transformation3D.h: Transform, InverseTransform, TransformDirection, InverseTransformDirection, Inverse"]}
{"id": "C18", "title": "Multiplying transformations composes the maps", "statement": "After a.MultiplyFromRight(b), Transform of the product equals b.Transform after a.Transform for every point and direction, including when either operand is flagged as pure translation, pure rotation or identity; the product of orthogonal transformations is orthogonal, and the product is associative.", "quantifier": "every pair / triple of transformations with every combination of identity flags", "why_tests_cant": "four flag-dependent code paths; equality over a continuum", "anchors": ["VecGeom/base/Transformation3D.h: MultiplyFromRight, CopyFrom, SetProperties", "source/Transformation3D.cpp"]}
{"id": "C19", "title": "Every specialised rotation kernel equals the general one", "statement": "For each rotation code that GenerateRotationCode can return, the specialised rotation code path yields the same rotated vector as the full 3x3 product.", "quantifier": "every rotation matrix, every vector, every rotation code", "why_tests_cant": "ten specialisations times a continuum of matrices; only matrices with a specific zero pattern reach each", "anchors": ["VecGeom/base/Transformation3D.h: DoRotation", "source/Transformation3D.cpp: GenerateRotationCode"]}
{"id": "C20", "title": "Euler-angle construction yields a rotation", "statement": "SetRotation(phi, theta, psi) produces a matrix with orthonormal rows and determinant +1 for all angles.", "quantifier": "every triple of angles", "why_tests_cant": "trigonometric identity over a continuum", "anchors": ["source/Transformation3D.cpp: SetRotation"]}
{"id": "C21", "title": "Scale3D conversions are exact and safeties stay conservative", "statement": "Transform and InverseTransform of a scale with non-zero factors are mutually inverse; InverseTransformDistance converts a distance along a unit local direction into the exact distance in the scaled frame; TransformSafety / InverseTransformSafety never overestimate the distance between any two points after mapping.", "quantifier": "every triple of non-zero scale factors, every point, direction and safety", "why_tests_cant": "inequality over a continuum", "anchors": ["VecGeom/base/Scale3D.h"]}
{"id": "C22", "title": "AABB ray test never misses a box the ray goes through", "statement": "If some point origin + t*dir with 0 <= t < step lies in the box then Intersect reports a hit, and ComputeIntersectionInvDir's entry distance is a lower bound on every such t; Safety never exceeds the distance from an outside point to any point of the box; Union contains both operands.", "quantifier": "every box, ray and step length (exact arithmetic)", "why_tests_cant": "geometric completeness over a continuum", "anchors": ["VecGeom/base/AABB.h: ComputeIntersectionInvDir, Distance, Intersect, Safety, Union"]}
{"id": "C23", "title": "BVH construction partitions the primitives and bounds them", "statement": "After building a BVH over n primitives with any splitting heuristic, the leaves' index ranges contain every primitive exactly once, the children of an internal node split its range, and every node's box contains the boxes of all primitives in its range.", "quantifier": "every number of primitives, every depth, every outcome of the partition heuristic", "why_tests_cant": "structural invariant over all inputs and heuristics", "anchors": ["source/BVH.cpp: BVH::BVH, ComputeNodes", "VecGeom/base/BVH.h"]}
{"id": "C24", "title": "BVH point location finds a containing daughter iff one exists", "statement": "LevelLocate with the BVH returns true exactly when some daughter (other than the excluded one) contains the point, and then returns such a daughter.", "quantifier": "every BVH built by the constructor, every set of daughter shapes contained in their boxes, every point", "why_tests_cant": "agreement with exhaustive search over all trees", "anchors": ["VecGeom/base/BVH.h: LevelLocate", "VecGeom/navigation/BVHLevelLocator.h"]}
{"id": "C25", "title": "BVH ray query returns the brute-force nearest daughter", "statement": "CheckDaughterIntersections with the BVH yields the same step as the minimum over all daughters of their DistanceToIn (ignoring the last exited one), and the hit candidate attains it.", "quantifier": "every BVH, every family of daughters, every ray, every initial step", "why_tests_cant": "pruning correctness over all trees and traversal orders", "anchors": ["VecGeom/base/BVH.h: CheckDaughterIntersections", "VecGeom/navigation/BVHNavigator.h"]}
{"id": "C26", "title": "BVH safety equals the brute-force minimum", "statement": "ComputeSafety with the BVH returns the minimum of the initial safety and all daughters' SafetyToIn values.", "quantifier": "every BVH, every family of daughters with box-consistent safeties, every point, every initial safety", "why_tests_cant": "pruning correctness over all trees", "anchors": ["VecGeom/base/BVH.h: ComputeSafety", "VecGeom/navigation/BVHSafetyEstimator.h"]}
{"id": "C27", "title": "BVH traversal never overflows its fixed stack", "statement": "For a BVH of depth at most 31 the traversal never holds more than depth+1 node ids, so the 32-entry stack is never exceeded.", "quantifier": "every BVH, every query", "why_tests_cant": "resource bound over all executions", "anchors": ["VecGeom/base/BVH.h: LevelLocate, CheckDaughterIntersections, ComputeSafety"]}
{"id": "C28", "title": "Voxel keys identify cells uniquely", "statement": "For points strictly inside the voxelised box the key determines and is determined by the integer cell coordinates, lies in [0, Nx*Ny*Nz), and decoding a key gives back the cell the point is in.", "quantifier": "every grid size, every point of the box", "why_tests_cant": "bijection over all grids", "anchors": ["VecGeom/base/FlatVoxelHashMap.h: getVoxelKey, keyToCell, keyToPos"]}
{"id": "C29", "title": "Voxel hash map returns exactly the properties recorded for a key", "statement": "If properties are recorded key by key (all entries of one key consecutively), then a lookup returns exactly the recorded values of that key in insertion order, and reports zero properties for keys never recorded; this remains true after clear() and refilling.", "quantifier": "every insertion history", "why_tests_cant": "map semantics over unbounded histories", "anchors": ["VecGeom/base/FlatVoxelHashMap.h: addPropertyForKey, getProperties, isOccupied, clear"]}
{"id": "C30", "title": "Voxelised bounding boxes give a conservative candidate list", "statement": "After marking each object's box, the voxel of any point inside the box of object i lists i among its candidates.", "quantifier": "every family of boxes, every grid, every point", "why_tests_cant": "coverage statement over a continuum of points", "anchors": ["VecGeom/base/FlatVoxelHashMap.h: markFromBoundingBoxes, getVoxelKey"]}
{"id": "C31", "title": "Global location returns the deepest containing path", "statement": "LocateGlobalPoint returns a path in which every volume contains the (locally transformed) point, whose last volume has no daughter containing the point, and returns 'outside' exactly when the top volume does not contain the point.", "quantifier": "every hierarchy, every point, every level locator that is correct on one level", "why_tests_cant": "induction over depth for arbitrary hierarchies", "anchors": ["VecGeom/navigation/GlobalLocator.h: LocateGlobalPoint, LocateGlobalPointExclVolume"]}
{"id": "C32", "title": "A computed step is the distance to the first boundary", "statement": "ComputeStepAndPropagatedState returns a non-negative step equal to min(step limit, distance to exit the current volume, smallest daughter entry distance); the out-state is flagged on-boundary exactly when a boundary limited the step, and points into the candidate daughter or is left for relocation accordingly.", "quantifier": "every volume, every family of daughters, every ray, every step limit", "why_tests_cant": "case analysis across limits, sentinels and negative distances that tests only sample", "anchors": ["VecGeom/navigation/VNavigator.h: ComputeStepAndPropagatedState, PrepareOutState, TreatDistanceToMother"]}
{"id": "C33", "title": "All daughter-search strategies agree", "statement": "Brute force, sorted hybrid-tree and BVH strategies return the same step for the same query.", "quantifier": "every family of daughters, boxes, rays and initial steps", "why_tests_cant": "equivalence of three algorithms over all inputs", "anchors": ["VecGeom/navigation/NewSimpleNavigator.h", "VecGeom/navigation/HybridNavigator2.h: CheckDaughterIntersections, BVHSortedIntersectionsLooper", "VecGeom/base/BVH.h"]}
{"id": "C34", "title": "Reported safety never exceeds the true distance to any boundary", "statement": "Every safety estimator returns a value that is at most the distance from the point to the mother's boundary and to every daughter, provided each shape's own safety has that property.", "quantifier": "every volume, every family of daughters, every point inside the mother", "why_tests_cant": "inequality over a continuum of points and all daughter families", "anchors": ["VecGeom/navigation/SimpleSafetyEstimator.h", "VecGeom/navigation/SimpleABBoxSafetyEstimator.h", "VecGeom/navigation/HybridSafetyEstimator.h"]}
{"id": "C35", "title": "Hybrid clustering assigns every daughter to exactly one cluster", "statement": "The greedy clustering used by the hybrid accelerator puts each daughter box in exactly one cluster, no cluster exceeds the vector width, and each node box contains its members' boxes.", "quantifier": "every number of daughters, every vector width, every choice of cluster centres", "why_tests_cant": "partition invariant for all inputs", "anchors": ["source/HybridManager2.cpp: BuildStructure, InitClustersWithKMeans, EqualizeClusters..."]}
{"id": "C36", "title": "Hit list sorting is a stable sort", "statement": "insertionsort orders the hit list by increasing distance, keeps exactly the same entries, and keeps equal-distance entries in their original order.", "quantifier": "every hit list", "why_tests_cant": "sortedness and permutation over all lists", "anchors": ["VecGeom/navigation/HybridNavigator2.h: insertionsort"]}
{"id": "C37", "title": "Box point classification is consistent", "statement": "Contains, Inside and the two safeties of a box never contradict each other: Inside=kInside implies Contains, Inside=kOutside implies not Contains, kSurface exactly within half tolerance of the boundary; the safety inside (outside) never exceeds the distance to any point outside (inside).", "quantifier": "every box, every point", "why_tests_cant": "inequality over a continuum", "anchors": ["VecGeom/volumes/kernel/BoxImplementation.h: Contains, Inside, SafetyToIn, SafetyToOut"]}
{"id": "C38", "title": "Box ray distances are exact", "statement": "For a point inside a box DistanceToOut is the exit distance: every earlier ray point is inside the closed box, every later one outside. For a point outside, a finite DistanceToIn is the entry distance and an infinite one means that the ray does not enter the interior by more than the tolerance.", "quantifier": "every box, every point, every unit direction", "why_tests_cant": "first-hit statement over all ray parameters", "anchors": ["VecGeom/volumes/kernel/BoxImplementation.h: DistanceToIn, DistanceToOut"]}
{"id": "C39", "title": "Bounding boxes of placed volumes contain the volume", "statement": "The axis-aligned box computed for a placed volume contains the image of every point of the unplaced extent under the placement, for every rotation.", "quantifier": "every extent, every rotation and translation, every point of the extent", "why_tests_cant": "convexity argument over a continuum; corners only are computed", "anchors": ["source/ABBoxManager.cpp: ComputeABBox", "source/PlacedVolume.cpp: VPlacedVolume::Extent"]}
{"id": "C40", "title": "Boolean solids are the set-theoretic combinations", "statement": "Union, intersection and subtraction Contains are the Boolean combinations of the operands' Contains, and Inside never reports kInside for a point that Contains denies or kOutside for a point strictly inside.", "quantifier": "every pair of operand shapes with consistent classification, every point", "why_tests_cant": "nine combinations of operand states, for all points", "anchors": ["VecGeom/volumes/kernel/BooleanImplementation.h", "VecGeom/volumes/kernel/BooleanUnionImplementation.h", "VecGeom/volumes/kernel/BooleanIntersectionImplementation.h: Contains, Inside"]}
{"id": "C41", "title": "Boolean safeties are conservative", "statement": "SafetyToIn / SafetyToOut of a Boolean solid never exceed the true distance to the solid / to its complement when the operands' safeties are conservative.", "quantifier": "every pair of operand shapes, every point", "why_tests_cant": "inequality over a continuum and all operands", "anchors": ["VecGeom/volumes/kernel/Boolean*.h: SafetyToIn, SafetyToOut"]}
{"id": "C42", "title": "Boolean ray distances follow the operands", "statement": "Subtraction and intersection DistanceToOut, and union DistanceToIn, equal the first boundary crossing of the combined solid when the operands' distances are exact.", "quantifier": "every pair of operand shapes, every ray", "why_tests_cant": "first-crossing statement over all ray parameters and all operands", "anchors": ["VecGeom/volumes/kernel/Boolean*.h: DistanceToIn, DistanceToOut"]}
{"id": "C43", "title": "Flattening a union tree preserves the point set", "statement": "The multi-union produced by flattening a tree of unions contains exactly the points contained in the original tree, whatever the nesting and placements, and a tree that has too few unions is left unflattened.", "quantifier": "every Boolean expression tree, every point", "why_tests_cant": "structural induction over trees with accumulated transformations", "anchors": ["source/UnplacedBooleanVolume.cpp: BooleanHelper::Flatten, CountBooleanNodes"]}
{"id": "C44", "title": "Multi-union classification and safety are conservative", "statement": "A multi-union contains a point exactly when some component does; SafetyToIn never exceeds the distance to any component; the overlap lists used for exit distances are symmetric.", "quantifier": "every family of components, every point", "why_tests_cant": "quantifies over all component families", "anchors": ["VecGeom/volumes/kernel/MultiUnionImplementation.h", "VecGeom/volumes/MultiUnionStruct.h: Close"]}
{"id": "C45", "title": "Scaled shapes report distances and safeties in the scaled frame", "statement": "A scaled shape contains p exactly when the unscaled one contains the inversely scaled p; its ray distances are exact and its safeties conservative whenever those of the unscaled shape are.", "quantifier": "every shape, every non-zero scale, every point and unit direction", "why_tests_cant": "relative to arbitrary shapes over a continuum", "anchors": ["VecGeom/volumes/kernel/ScaledShapeImplementation.h"]}
{"id": "C46", "title": "Sphere (Orb) distances and safeties", "statement": "For an orb, DistanceToOut from an interior point is the exit distance on the sphere, DistanceToIn from an exterior point the first hit or infinity when the line misses, and the safeties never exceed the true distance.", "quantifier": "every radius, point and unit direction", "why_tests_cant": "quadratic-root selection over a continuum", "anchors": ["VecGeom/volumes/kernel/OrbImplementation.h"]}
{"id": "C47", "title": "Phi wedge classification matches the angle interval", "statement": "A point with polar angle phi is inside a wedge [sphi, sphi+dphi] exactly when phi lies in the interval modulo 2 pi, for dphi below and above pi; wedge safeties never exceed the distance to the wedge boundary; this stays true after SetStartPhi / SetDeltaPhi.", "quantifier": "every start angle, opening angle and point", "why_tests_cant": "trigonometric case analysis over a continuum", "anchors": ["VecGeom/volumes/Wedge_Evolution.h"]}
{"id": "C48", "title": "Convex plane shells classify, bound and intersect correctly", "statement": "For a solid bounded by planes with outward unit normals, safeties never exceed the distance to the boundary, Contains/Inside agree with the half-space intersection, and DistanceToOut is the exit distance.", "quantifier": "every finite family of planes, every point and direction", "why_tests_cant": "induction over the number of planes, continuum of points", "anchors": ["VecGeom/volumes/Planes.h", "VecGeom/base/PlaneShell.h", "VecGeom/volumes/kernel/TetImplementation.h"]}
{"id": "C49", "title": "Planar polygon convex queries", "statement": "For a convex polygon InsideConvex distinguishes inside, surface and outside consistently with ContainsConvex, and SafetyConvex never exceeds the distance to the boundary.", "quantifier": "every convex polygon, every point", "why_tests_cant": "continuum of points, all vertex counts", "anchors": ["VecGeom/volumes/PlanarPolygon.h: ContainsConvex, InsideConvex, SafetyConvex, SafetySqr"]}
{"id": "C50", "title": "Polycone section lookup", "statement": "GetSectionIndex returns an index whose z-range contains the position, -1 exactly below and -2 exactly above the z range, for every increasing sequence of z planes.", "quantifier": "every z plane sequence, every position", "why_tests_cant": "search correctness over all sequences", "anchors": ["VecGeom/volumes/PolyconeStruct.h: GetSectionIndex"]}
{"id": "C51", "title": "Registered volumes get unique ids and can be found", "statement": "Volume ids handed out by the geometry manager are pairwise different while registered, FindLogicalVolume / FindPlacedVolume by id returns the registered object and null for unknown ids, and deregistering one volume does not affect another.", "quantifier": "every sequence of registrations and deregistrations", "why_tests_cant": "history property", "anchors": ["VecGeom/management/GeoManager.h", "source/GeoManager.cpp: RegisterLogicalVolume, RegisterPlacedVolume, FindLogicalVolume, FindPlacedVolume"]}
{"id": "C52", "title": "Compacting placed volumes preserves the hierarchy", "statement": "After closing the geometry every placed volume is reachable at the same path with the same logical volume and transformation as before, and index <-> pointer conversions are mutually inverse.", "quantifier": "every hierarchy, every registration history", "why_tests_cant": "pointer rewriting over all hierarchies and id histories", "anchors": ["source/GeoManager.cpp: CompactifyMemory, CloseGeometry", "VecGeom/management/GeoManager.h: Convert"]}
{"id": "C53", "title": "Node counting and path enumeration agree", "statement": "The total node count, the maximum depth and the list of all paths of the manager are consistent: the count equals the number of root-to-node paths and the depth their maximal length.", "quantifier": "every finite placement DAG", "why_tests_cant": "induction over all hierarchies with sharing", "anchors": ["source/GeoManager.cpp", "VecGeom/management/GeoVisitor.h: GetMaxDepthVisitor, GetTotalNodeCountVisitor, GetPathsForLogicalVolumeVisitor", "source/LogicalVolume.cpp: GetNTotal"]}
{"id": "C54", "title": "Poisson sampling terminates with the right distribution support", "statement": "RNG::Poisson(mean) terminates with probability one and can return any non-negative integer.", "quantifier": "every mean, every stream of uniform numbers", "why_tests_cant": "termination over all random streams", "anchors": ["VecGeom/base/RNG.h: Poisson"]}
{"id": "C55", "title": "Bit set comparison is equality of contents", "statement": "Two bit sets compare equal with operator== exactly when every position reads the same in both, whatever their nominal sizes.", "quantifier": "all pairs of bit sets, all sizes, all histories", "why_tests_cant": "all pairs of contents and sizes; the tail handling differs per size combination", "anchors": ["VecGeom/base/BitSet.h: operator=="]}
{"id": "C56", "title": "Bit set copies preserve contents", "statement": "After assignment or a sized copy, the target reads the same value as the source at every position and no memory outside the target is written.", "quantifier": "all pairs of sizes and contents, any previous content of the target memory", "why_tests_cant": "all size combinations and arbitrary uninitialised memory", "anchors": ["VecGeom/base/BitSet.h: operator=, MakeCopy, MakeCopyAt"]}
{"id": "C57", "title": "Distance and RelativePath compare navigation states correctly", "statement": "Distance of two states equals the number of levels below their deepest common volume in both, and replaying the moves of RelativePath (up, horizontal, down) on the first path gives the second path, for both state flavours.", "quantifier": "every hierarchy, every pair of states reached by legal histories", "why_tests_cant": "all pairs of paths of all hierarchies", "anchors": ["VecGeom/navigation/NavStateIndex.h: Distance, RelativePath", "VecGeom/navigation/NavStatePath.h: Distance, RelativePath"]}
{"id": "C58", "title": "The table self-check accepts every state", "statement": "NavIndexTable's ValidateState succeeds for every state over a freshly built table and returns its navigation index.", "quantifier": "every hierarchy, every path, every cache depth limit", "why_tests_cant": "all paths of all hierarchies", "anchors": ["source/NavIndexTable.cpp: BuildNavIndexVisitor::ValidateState"]}
{"id": "C59", "title": "Comparing and copying path states", "statement": "HasSamePathAsOther is equality of the stored paths, and after operator= or CopyTo the target holds the source's path and flags without touching memory outside it.", "quantifier": "every pair of depth limits and call histories", "why_tests_cant": "all size combinations, boundary at full depth", "anchors": ["VecGeom/navigation/NavStatePath.h: operator=, CopyTo, HasSamePathAsOther"]}
{"id": "C60", "title": "Transformation between two navigation states", "statement": "DeltaTransformation of two states maps the local point of the first state to the local point of the second, for the compact and the path flavour; FixZeroes changes no entry by more than the tolerance and nothing at all when every entry is zero or above the tolerance.", "quantifier": "every pair of orthogonal global matrices whose entries (and those of the inverse and the product) are zero or above the tolerance, every point", "why_tests_cant": "all pairs of states and all points", "anchors": ["source/NavStateIndex.cpp: DeltaTransformation", "source/NavStatePath.cpp: DeltaTransformation", "VecGeom/base/Transformation3D.h: FixZeroes"]}
{"id": "C61", "title": "Axis constructor aligns z with the given direction", "statement": "The Transformation3D built from the spherical angles of an axis is orthogonal; with inverse set it maps that axis to +z, without it maps +z to that axis.", "quantifier": "every pair of angles", "why_tests_cant": "continuum of angles", "anchors": ["VecGeom/base/Transformation3D.h: Transformation3D(axis, inverse)"]}
{"id": "C62", "title": "BVH splitting heuristics only reorder their range", "statement": "Each of the three splitting functions leaves the set of primitive ids in its range unchanged and returns a pivot inside the range; the surface areas compared by the surface area heuristic never exceed the total area (its two assertions hold); the term said to prefer balanced splits distinguishes splits.", "quantifier": "every set of boxes, every range, every correct std::partition and std::sort", "why_tests_cant": "all inputs and all admissible library behaviours", "anchors": ["source/BVH.cpp: splitAlongLongestAxis, largestDistanceAlongAxis, surfaceAreaHeuristic, sweepSurfaceArea"]}
{"id": "C63", "title": "Location voxels find the daughter", "statement": "The tasks that build the location voxels of a volume handle every voxel exactly once, and locating a point of the mother's extent through the voxels returns the first daughter (in list order) whose bounding box strictly contains the point and which accepts it, and no daughter if there is none.", "quantifier": "every number of tasks, every family of daughters, every point", "why_tests_cant": "coverage of a continuum of points for all daughter lists and thread counts", "anchors": ["source/FlatVoxelManager.cpp: BuildLocateVoxels", "VecGeom/navigation/VoxelLevelLocator.h: LevelLocate"]}
{"id": "C64", "title": "Relocation agrees with location from the world", "statement": "RelocatePointFromPath applied to a state and the point in its local frame gives the same state and volume as LocateGlobalPoint from the world; HasSamePath is true exactly when that state is the given one; RelocatePointFromPathForceDifferent never returns a state containing the volume left, and agrees with location from the world when the point really is outside that volume.", "quantifier": "every hierarchy, every state, every point (agreement: non-overlapping geometries)", "why_tests_cant": "arbitrary hierarchies and start states, climbing and descending any number of levels", "anchors": ["VecGeom/navigation/GlobalLocator.h: RelocatePointFromPath, RelocatePointFromPathForceDifferent, HasSamePath", "VecGeom/navigation/BVHNavigator.h"]}
{"id": "C65", "title": "Box normals are unit vectors pointing outwards", "statement": "Normal returns a unit vector for every point; for a point on the surface (within half the tolerance) it is flagged valid and no point of the box lies more than three tolerances in front of the plane through the point; a valid flag is only given for points on the surface.", "quantifier": "every box, every point", "why_tests_cant": "case analysis on edges and corners over a continuum", "anchors": ["VecGeom/volumes/kernel/BoxImplementation.h: NormalKernel", "VecGeom/volumes/UnplacedBox.h: Normal"]}
{"id": "C66", "title": "Sampled box points are on the surface", "statement": "SamplePointOnSurface never reads past its three face areas and always returns a point of the surface, classified kSurface by Inside; the extent of a box contains exactly the points of the closed box.", "quantifier": "every box with non-negative half lengths, every outcome of the random generator", "why_tests_cant": "boundary outcomes of the generator have probability zero", "anchors": ["source/UnplacedBox.cpp: SamplePointOnSurface", "VecGeom/volumes/UnplacedBox.h: Extent"]}
{"id": "C67", "title": "Assemblies contain exactly their daughters", "statement": "Contains of an assembly answers true exactly for the points contained in one of its placed daughters, and its extent contains all of them, provided the tree of assemblies was filled before being placed.", "quantifier": "every tree of assemblies, every placement, every point, every order of PlaceDaughter calls from the bottom up", "why_tests_cant": "tests place a few boxes; nesting depth, placements and call orders are unbounded", "anchors": ["VecGeom/volumes/UnplacedAssembly.h: Contains", "source/UnplacedAssembly.cpp: Extent", "source/LogicalVolume.cpp: PlaceDaughter"]}
{"id": "C68", "title": "Boolean normals are those of the operand at whose surface the point lies", "statement": "At a point on the surface of one operand and clear of the other one, Normal of a union, intersection or subtraction is the normal of that operand in the common frame, reversed for the subtracted operand.", "quantifier": "every pair of operands, every placement, every such point", "why_tests_cant": "case analysis over operations and sides for a continuum of points", "anchors": ["VecGeom/volumes/kernel/Boolean*.h: NormalKernel", "source/UnplacedBooleanVolume.cpp: Normal"]}
{"id": "C69", "title": "Boolean extents contain the solid", "statement": "Extent of a Boolean solid is a box that contains every point of the solid if the extents of the operands contain the operands.", "quantifier": "every pair of operands, every placement, every operation", "why_tests_cant": "containment over a continuum of points and all placements", "anchors": ["source/UnplacedBooleanVolume.cpp: TransformedExtent, Extent"]}
{"id": "C70", "title": "Multi-union ray distances and normals", "statement": "DistanceToIn of a multi-union is the least distance of its components below the step limit; DistanceToOut follows overlapping components until none goes on, the way up to it lies in the union and behind it no other component is kInside; Normal is the normal of a component that the point is not outside of.", "quantifier": "every family of components, every ray and every step limit", "why_tests_cant": "quantifies over all component families and rays; the exit loop runs over an unbounded chain of overlapping components", "anchors": ["VecGeom/volumes/kernel/MultiUnionImplementation.h: DistanceToIn, DistanceToOut, NormalKernel", "VecGeom/volumes/MultiUnionStruct.h: Close"]}
{"id": "C71", "title": "Polycone containment is the union of its sections", "statement": "Contains of a constructed polycone answers true exactly for the points of the union of the conical bodies between neighbouring planes, cut by the phi section.", "quantifier": "every list of planes (in either order, with repeated heights), every opening angle, every point", "why_tests_cant": "quantifies over all plane lists and a continuum of points, including the seams", "anchors": ["VecGeom/volumes/PolyconeStruct.h: Init", "VecGeom/volumes/kernel/PolyconeImplementation.h: Contains, GenericKernelForContainsAndInside"]}
{"id": "C72", "title": "Polycone classes agree with the solid", "statement": "Inside answers kOutside only for points not in the polycone and kInside only for points in it.", "quantifier": "every list of planes, every point", "why_tests_cant": "the tolerance layers around seams have measure close to zero", "anchors": ["VecGeom/volumes/kernel/PolyconeImplementation.h: Inside, GenericKernelForContainsAndInside"]}
{"id": "C73", "title": "Polycone safeties are conservative", "statement": "SafetyToIn does not exceed the distance to any point of the polycone, SafetyToOut of a point of it does not exceed the distance to any point outside.", "quantifier": "every list of planes, every pair of points", "why_tests_cant": "depends on the early stop of the search over an unbounded number of sections", "anchors": ["VecGeom/volumes/kernel/PolyconeImplementation.h: SafetyToIn, SafetyToOut"]}
{"id": "C74", "title": "Polycone ray distances compose the sections", "statement": "With right ray distances of the sections, DistanceToIn is the distance to the first section the ray enters or infinity, and DistanceToOut follows the ray through the sections until it leaves all of them.", "quantifier": "every list of sections, every ray", "why_tests_cant": "quantifies over all chains of sections and all rays", "anchors": ["VecGeom/volumes/kernel/PolyconeImplementation.h: DistanceToIn, DistanceToOut"]}
{"id": "C75", "title": "Polycones declared convex are convex", "statement": "If DetectConvexity sets the flag, the segment between any two points of the polycone stays in it.", "quantifier": "every list of planes, every pair of points", "why_tests_cant": "convexity is a statement about all segments", "anchors": ["source/UnplacedPolycone.cpp: DetectConvexity", "VecGeom/volumes/PolyconeStruct.h: CheckContinuity, CheckContinuityInRmax, CheckContinuityInSlope"]}
{"id": "C76", "title": "Reset rebuilds the same polycone", "statement": "After Reset the polycone has the same heights, sections and capacity as after construction.", "quantifier": "every list of planes", "why_tests_cant": "quantifies over all plane lists", "anchors": ["source/UnplacedPolycone.cpp: Reset"]}
{"id": "C77", "title": "The polycone maker keeps the solid", "statement": "The specialised solid that the maker returns contains exactly the points of the polycone described by the planes.", "quantifier": "every list of at least two planes, every opening angle, every point", "why_tests_cant": "quantifies over all parameters that select a specialisation", "anchors": ["source/UnplacedPolycone.cpp: Maker<UnplacedPolycone>::MakeInstance"]}
{"id": "C78", "title": "Cone containment, classes and safeties", "statement": "Contains of a cone is membership in the conical body cut by the phi section; Inside agrees with it outside the tolerance; the safeties do not exceed the distance to the body or to its complement.", "quantifier": "every cone with inner radii below outer radii, every type of the kernel that fits, every point", "why_tests_cant": "continuum of points and parameters", "anchors": ["VecGeom/volumes/kernel/ConeImplementation.h: Contains, Inside, SafetyToIn, SafetyToOut", "VecGeom/volumes/kernel/shapetypes/ConeTypes.h", "VecGeom/volumes/ConeStruct.h"]}
{"id": "C79", "title": "Tetrahedra behave as the hull of their four corners", "statement": "The solid of the four face planes is the convex hull of the four vertices; Contains/Inside agree with it up to half a tolerance, safeties never exceed the true distance and are tight inside, DistanceToOut is the exit and DistanceToIn the entry, the normal is outward, Extent is the least box, Capacity is a third of base times height, and sampled surface points lie on the face they were drawn from.", "quantifier": "all four-tuples of points not in one plane, all points, all unit directions, all random numbers", "why_tests_cant": "continuum of vertex positions, points and directions; edges and grazing rays have measure zero", "anchors": ["VecGeom/volumes/TetStruct.h", "VecGeom/volumes/kernel/TetImplementation.h", "source/UnplacedTet.cpp"]}
{"id": "C80", "title": "Uniform and Gaussian sampling", "statement": "uniform(min,max) returns a value of [min,max) using one number and can return each of them; uniform_array(n) stores n such values; Gauss(ave,sig) ends at the first pair of numbers inside the unit disc, returns a number, can return every number, and mirrored streams give mirrored answers.", "quantifier": "every stream of numbers, every range, mean, width and array length", "why_tests_cant": "all random streams, a set no finite number of seeds covers", "anchors": ["VecGeom/base/RNG.h: uniform, uniform_array, Gauss"]}
{"id": "C81", "title": "Simple extruded solids: classes, safeties, ray distances, normals, capacity and extent", "statement": "For a solid made of a polygon and two heights: Capacity is the polygon's area times the height and Extent holds the solid and touches it; Contains is true exactly for points over the polygon between the heights; Inside answers kInside only to points with everything nearer than the tolerance inside and kOutside only to points not in the solid; SafetyToIn and SafetyToOut never exceed the distance to the solid and to its outside; DistanceToIn of a convex solid is the first point of the ray in the solid, DistanceToOut the last one; valid normals have length one and no point of a convex solid lies ahead of them by the tolerance.", "quantifier": "every polygon (any number of corners, convex or not), every pair of heights, every point, every direction outside of the stated tolerances", "why_tests_cant": "real-valued points, directions and corners and any number of corners; the point-in-polygon facts need that the crossing parity is constant off the border, a completeness argument", "anchors": ["VecGeom/volumes/PolygonalShell.h: SurfaceArea, Extent, DistanceToIn, DistanceToInConvex, DistanceToOut, DistanceToOutConvex", "VecGeom/volumes/kernel/SExtruImplementation.h: Contains, Inside, DistanceToIn, DistanceToOut, SafetyToIn, SafetyToOut, NormalKernel", "VecGeom/volumes/UnplacedSExtruVolume.h: Capacity, SurfaceArea, Extent"]}
{"id": "C82", "title": "Trapezoids: solid of the eight corners, classes, safeties, ray distances, normals, capacity, area, extent and sampling", "statement": "For a trapezoid with flat side faces, made by any of the constructors: Contains is true exactly in the convex hull of its eight corners; Inside answers kInside only with more than half a tolerance of room and kOutside only farther than that from the solid; SafetyToOut is the radius of the largest ball around a point that fits, SafetyToIn never exceeds the distance and is positive exactly outside; DistanceToOut is where a ray leaves the solid, DistanceToIn where it enters (infinity when it misses), DistanceToOut of outside points is at most -1; Normal is the unit normal of the face above all others by half a tolerance; Capacity is the integral of the section areas, SurfaceArea the sum of the areas of the faces, Extent the smallest box; making a trapezoid from its corners gives its parameters back; surface samples lie on faces, each chosen with its share of the area.", "quantifier": "every choice of the eleven parameters with flat faces, every point and direction outside the stated tolerances", "why_tests_cant": "eleven real parameters, points and directions; hull equality is a statement about a continuum", "anchors": ["VecGeom/volumes/kernel/TrapezoidImplementation.h: Contains, Inside, DistanceToIn, DistanceToOut, SafetyToIn, SafetyToOut, NormalKernel", "VecGeom/volumes/TrapezoidStruct.h", "source/UnplacedTrapezoid.cpp: MakePlanes, MakeAPlane, fromCornersToParameters, fromParametersToCorners, fromPlanesToCorners, Capacity, SurfaceArea, Extent, SamplePointOnSurface", "VecGeom/volumes/UnplacedTrapezoid.h: constructors, SetTheta, SetPhi, SetDz"]}
{"id": "C83", "title": "Parallelepipeds: solid, classes, safeties, ray distances, normals, setters, capacity, area, extent, sampling and agreement with trapezoids", "statement": "For a parallelepiped made by its constructor and changed by any sequence of setters: Contains is true exactly inside the solid spanned by its three edges; Inside answers kInside or kOutside only with half a tolerance of room or distance; SafetyToOut is the radius of the largest ball that fits, SafetyToIn never exceeds the distance; DistanceToOut is where the ray leaves, DistanceToIn where it enters; Normal near one face is the outward unit normal of it; Capacity is the triple product of the edges, SurfaceArea (lengths not changed after construction) the sum of the areas of the faces, Extent the smallest box; surface samples cover exactly the chosen face, which is chosen by its share of the area; all members but the areas are those of a new solid with the lengths and angles last set; the trapezoid with the same parameters has the same solid, and answers alike except on the surface and exactly half a tolerance from it.", "quantifier": "every choice of lengths and angles, every sequence of setters, every point and direction", "why_tests_cant": "six real parameters, unbounded histories of setters, a continuum of points and directions", "anchors": ["VecGeom/volumes/kernel/ParallelepipedImplementation.h: Contains, Inside, SafetyToIn, SafetyToOut, DistanceToIn, DistanceToOut, NormalKernel", "VecGeom/volumes/ParallelepipedStruct.h", "VecGeom/volumes/UnplacedParallelepiped.h: setters", "source/UnplacedParallelepiped.cpp: Extent, SamplePointOnSurface, CreateMesh3D"]}
{"id": "C84", "title": "Trds (frustums over rectangles): solid, classes, safeties, ray distances, normals, capacity, areas, sampling, extent, mesh, setters and makers", "statement": "A Trd is the hull of its eight corners, the intersection of six half spaces. Contains is true exactly on it, surface included; kInside and kOutside of Inside leave room; SafetyToOut is the radius of the largest ball that fits, SafetyToIn never exceeds the distance and is positive exactly outside; DistanceToOut from a point of it is where the ray leaves (zero below half a tolerance), -1 from points more than half a tolerance outside; DistanceToIn is -1 from points deeper than half a tolerance under all faces, otherwise where the ray enters, or infinity when from outside the ray never meets it (without slope in y: the open solid). Normal near one face is the outward unit normal of it. Capacity is the integral of the section areas, SurfaceArea the sum of the face areas exactly when the slopes in x and y have the same size or there is no length in x. The triangles of SamplePointOnSurface are chosen by their areas, which sum to that of the faces, and samples cover exactly the triangle, which lies in a face. Extent is the smallest box; the mesh has one outward polygon for each face. After any history of setters every member but the bounding box is that of a new solid. The maker's specialisation contains the same points except the surface of boxes.", "quantifier": "every choice of lengths, every sequence of setters, every point and direction", "why_tests_cant": "five real parameters, unbounded histories of setters, a continuum of points and directions", "anchors": ["VecGeom/volumes/TrdStruct.h: CalculateCached", "VecGeom/volumes/kernel/TrdImplementation.h: Contains, Inside, DistanceToIn, DistanceToOut, SafetyToIn, SafetyToOut", "VecGeom/volumes/UnplacedTrd.h: setters, Extent", "source/UnplacedTrd.cpp: Maker, SurfaceArea, Capacity, SamplePointOnSurface, Normal, CreateMesh3D"]}
{"id": "C85", "title": "Tubes and sectors of tubes: solid, classes, safeties, ray distances, normals, measures and setters", "statement": "A tube is the set of points between two radii, between two lids and within a sector. Contains is true exactly on it, the inner surface left out; kInside and kOutside of Inside leave room for the tolerance; SafetyToIn never exceeds the distance to the tube and is not positive on it, SafetyToOut never exceeds the distance to the complement; DistanceToOut from a point of the tube is where the ray leaves, -1 from points clearly outside; DistanceToIn passes over no point of the inside, leads to the tube thickened by one tolerance, and is -1 from points deeper than half a tolerance. Normal on the surface is the sum of the normals of the pieces within a tolerance over the root of their number; Extent is the smallest box; a tube is told convex exactly when its solid is; Capacity and SurfaceArea are the closed formulas, the surface point sampler draws each piece in proportion to its area and lands on it; setters and the maker give the tube that the constructor gives for the new numbers.", "quantifier": "every pair of radii, half length, start angle and width up to a full turn, every tube type that fits, every point and unit direction (for rays: with denominators that are zero or at least 2^-46)", "why_tests_cant": "Uncountably many tubes, points and directions; the tolerances matter on sets that random points never hit.", "anchors": ["VecGeom/volumes/kernel/TubeImplementation.h", "VecGeom/volumes/TubeStruct.h", "VecGeom/volumes/UnplacedTube.h", "source/UnplacedTube.cpp"]}
{"id": "C86", "title": "Elliptical tubes: solid, classes, safeties, ray distances, normals, measures, samples, mesh and setters", "statement": "An elliptical tube is the set of points with (x/dx)^2+(y/dy)^2 <= 1 and |z| <= dz. Contains is true exactly on it moved outwards by half a tolerance; kInside points have a ball of half a tolerance in it, kOutside points are further than half a tolerance from it; SafetyToIn never exceeds the distance to the solid and SafetyToOut never the distance to its complement, each with the right sign; DistanceToOut from a point of the solid is where the ray leaves, -1 from points that are not contained; DistanceToIn is where the line enters the solid, kInfLength only for rays that stay shallow or pass through for less than half a tolerance. Normal on the surface is the outward gradient, the lid normal, or halfway between on an edge; Extent is the smallest box; the solid is convex; Capacity and SurfaceArea are the closed formulas, EllipsePerimeter always stops; the sampler draws each piece in proportion to its area and lands on it; mesh vertices are on the rims and polygons use existing vertices; setters give the tube that the constructor gives.", "quantifier": "every pair of half axes, every half length, every point, every unit direction (for rays: along the axis or with a slant of at least 2^-52), every stream of random numbers, every number of mesh segments", "why_tests_cant": "Uncountably many tubes, points and directions; the tolerance shells have measure near zero, and the wrong answers for nearly parallel rays need very long tubes.", "anchors": ["VecGeom/volumes/kernel/EllipticalTubeImplementation.h", "VecGeom/volumes/UnplacedEllipticalTube.h", "source/UnplacedEllipticalTube.cpp", "VecGeom/volumes/EllipticUtilities.h"]}
{"id": "C87", "title": "Ellipsoids with cuts: solid, classes, safeties, ray distances, normals, measures, samples, mesh and setters", "statement": "An ellipsoid is the set of points with (x/dx)^2+(y/dy)^2+(z/dz)^2 <= 1 between the two z cuts. Contains is true exactly on it moved outwards by half a tolerance after squeezing it to the ball of the shortest semi-axis; kInside points have a ball of half a tolerance in it, kOutside points are further than half a tolerance from it; SafetyToIn never exceeds the distance to the solid and SafetyToOut never the distance to its complement, each with the right sign; DistanceToOut from a point of the solid is where the ray leaves, -1 from points that are not contained; DistanceToIn is where the line enters the solid, kInfLength only for rays that stay shallow or pass through for no more than half a tolerance. Normal on the surface is the outward gradient, the normal of the cut, or a positive multiple of their sum; Extent is the smallest box; the solid is convex; Capacity is the volume between the cuts and SurfaceArea adds the two ellipses to the side, whose facets have their corners on it; the sampler picks the pieces by area and lands on the picked piece; mesh vertices are on the ellipsoid and polygons use existing vertices; SetZCuts gives what the constructor gives.", "quantifier": "every three semi-axes of at least two tolerances, every pair of cuts in range (every pair for the constructor), every point, every unit direction (for DistanceToIn: squeezed z component zero or at least 2^-46), every stream of random numbers in [0,1], every number of mesh segments and facets", "why_tests_cant": "Uncountably many ellipsoids, cuts, points and directions; the tolerance shells and the rounding test only show on sets of measure zero or at extreme aspect ratios; a safety that is too large by little is never noticed by sampling.", "anchors": ["VecGeom/volumes/EllipsoidStruct.h", "VecGeom/volumes/kernel/EllipsoidImplementation.h", "VecGeom/volumes/UnplacedEllipsoid.h", "source/UnplacedEllipsoid.cpp"]}
{"id": "C88", "title": "Paraboloids: solid, classes, safeties, ray distances, normals, measures, samples and mesh", "statement": "A paraboloid with radii Rlo < Rhi and half height dz is the set of points between the planes z = -dz and z = dz whose squared distance from the axis is at most the linear function of z that is Rlo^2 below and Rhi^2 above. Contains is true exactly where z is at most a tolerance beyond the planes and the squared radius at most a tolerance beyond that function; kInside points are in the solid without its surface, kOutside points are those not contained, points of the surface are kSurface. The solid is convex and Extent is its smallest box. SafetyToIn never exceeds the distance to the solid, SafetyToOut never exceeds the distance to its outside and is not negative inside. DistanceToOut is the length after which the ray leaves, DistanceToIn the length to the first point of the solid or infinity if there is none, up to points within a tolerance of the surface, where zero is given. Capacity is the volume, SurfaceArea the area of the side as a surface of revolution plus the two lids. Samples lie on the surface, lids and side being picked by their share of the area; mesh vertices lie on the side. The setter ignores negative radii and half heights that are not positive. Refuted: the normal on the side points inwards, the distance to enter is zero on the continued side however far the solid is, level rays just above the upper lid get a negative distance, safeties and area fail for Rlo > Rhi.", "quantifier": "All radii, half heights, points and directions of the stated kind.", "why_tests_cant": "Whether a safety is too large, a ray misses the solid or a zero is given away from it depends on points and directions in a continuum; tests sample few of them and compare with a sampled solid.", "anchors": ["VecGeom/volumes/kernel/ParaboloidImplementation.h:50-453", "VecGeom/volumes/ParaboloidStruct.h:19-115", "source/UnplacedParaboloid.cpp:36-177"]}
{"id": "C89", "title": "Elliptical cones: constructor, classes, safeties, ray distances, normals, measures, samples and mesh", "statement": "An elliptical cone (a, b, h, zcut) is the set of points with |z| <= zcut whose section at the height z is the ellipse with the half axes a (h - z) and b (h - z). The constructor raises each parameter to two tolerances at least and lowers the cut to h. Contains is true exactly where neither |z| - zcut nor the height above the side times the cosine of the steepest inclination exceeds half a tolerance. The ball of half a tolerance around a kInside point belongs to the solid, every point of the solid is farther than half a tolerance from a kOutside point, and points of the surface are kSurface. The solid is convex and Extent its smallest box. SafetyToIn never exceeds the distance to the solid and is positive where Contains is false; the ball of radius SafetyToOut around a point of the solid belongs to it. DistanceToOut from a point of the solid is the length after which the ray leaves it, for rays not parallel to the side, and -1 where Contains is false. DistanceToIn is where the line enters the solid, to stay in it for half a tolerance at least, and positive off the solid; kInfLength is given only to rays that never get half a tolerance deep, stay in the solid for less than half a tolerance, or only scratch it for less than a 2^-24th of the distances involved. Capacity is the integral of the areas of the slices, SurfaceArea the two ellipses and the difference of the lateral areas of the cones down to both cuts, each the area swept by the spokes from the apex. Samples lie on the piece picked by the shares of SurfaceArea; on the side the first accepted angle is taken. Mesh vertices lie on the rims. Normal off the axis is the outward gradient on the side, the axis direction on a lid, halfway on an edge and marked invalid elsewhere. Refuted: on the axis one below the apex Normal says valid deep inside, and far outside level with a cut.", "quantifier": "all parameters, points, unit directions, random numbers and segment counts; slopes that differ by rounding from that of the side excluded for the ray distances, for DistanceToIn also z components below 2^-46 that are not zero and starting points closer than a 20th of the tolerance to the axis but not on it", "why_tests_cant": "The shape tests sample points and rays at random, so rays through the apex, points on the axis at one height and the exact boundary of the safety balls are never hit; areas and volumes are only compared with estimates.", "anchors": ["VecGeom/volumes/kernel/EllipticalConeImplementation.h", "VecGeom/volumes/UnplacedEllipticalCone.h", "source/UnplacedEllipticalCone.cpp", "VecGeom/volumes/EllipticalConeStruct.h", "VecGeom/volumes/EllipticUtilities.h"]}
{"id": "C90", "title": "Cut tubes: constructor, classes, safeties, way out, way in through the planes, extent, normals on the lids, measures, samples and mesh", "statement": "A cut tube (rmin, rmax, z, sphi, dphi, bottom, top) is the part of the infinite tube between the plane through (0, 0, -z) with the normal bottom and the plane through (0, 0, z) with the normal top. The constructor throws exactly when the bottom normal does not point down or the top one not up. Contains is true exactly in the tube strictly between the planes. Inside gives kInside only a tolerance below both planes and within the tube's own margins, and kOutside only off the closed solid. SafetyToIn never exceeds the distance to any point of the closed solid, SafetyToOut never the distance to any point off it, and both have the right sign. A ray from the closed solid stays in it up to DistanceToOut and leaves it right after. GetLateralArea, Capacity, GetTopArea, GetBottomArea and the side areas are the integrals of the height between the planes, of the lateral area, of the ring stretched by the slope and of the height along the radius; SurfaceArea is their sum. SamplePointOnSurface reaches exactly the points of the chosen piece. The vertices of CreateMesh3D are z (1 - |nz|) off the planes. SetDz cuts by planes across the axis and changes neither z() nor the tilted planes. Tubes flagged convex are. Extent gives a box that encloses the closed solid, and the smallest one when the planes do not cross within the tube. SamplePointOnSurface chooses its six pieces in the shares of their areas. CutPlanes::DistanceToIn from a point that is not between the planes is the first distance at which the ray is between them, if it ever is; DistanceToIn is that distance for rays which are then in the tube (zero when tiny), -1 from points that Inside calls kInside, and from points between the planes it passes over no point of the inside and, when finite, leads to a point between the planes and within a tolerance of the tube. From a point farther than 100 max(rmax, z) from the origin DistanceToIn is the excess plus the answer from the point moved by it along the ray; the move passes over nothing of a solid that is nearer than that to the origin. On the walls, below both planes and away from the other pieces of the tube, Normal is the radial direction.", "quantifier": "all radii, lengths, angles and normals in the stated ranges, all points, all rays in the stated ranges, all random numbers", "why_tests_cant": "Points, rays, angles and plane normals are continua; samples do not meet the sliver between two crossing planes or the lid below the height zero, nor do they show that a safety is never too large.", "anchors": ["VecGeom/volumes/CutPlanes.h:100-173", "VecGeom/volumes/CutTubeStruct.h:38-50", "VecGeom/volumes/kernel/CutTubeImplementation.h:82-336", "VecGeom/volumes/UnplacedCutTube.h:35-209", "source/UnplacedCutTube.cpp:36-225"]}
