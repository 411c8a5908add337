# Formal model of VecGeom: design

Source: `/repo` (amadio/vecgeom, pinned commit), read as text. Prover: Rocq/Coq 8.16.1.
All Coq files live in `rocq/theories`; every model definition cites file and lines in `/repo`.

## 1. Layout

| kind | files | contents |
|---|---|---|
| model | `*Model.v` | executable Gallina transcription of the C++ functions; no proofs except termination |
| spec | `*Spec.v` | small independent vocabulary the theorems are stated in |
| proofs | `*Proofs.v` | lemmas |
| properties | `Prop*.v` | only property theorems (`Cxx_...`), each closed by `exact lemma`, followed by `Print Assumptions`, with an `Example` showing that the hypotheses are met by a non-trivial case |

Naming: `Cxx_name` = proved as stated, `Cxx_name_partial` = a strictly weaker part,
`Cxx_name_refuted` = the full statement is false of the faithful model, with a witness.

## 2. Modelling conventions

* **Discrete code** (bit sets, containers, navigation tables, trees, hash maps) is modelled
  over `nat`/`N`/`Z`/`list`. Undefined behaviour (out-of-bounds access, null dereference, shift
  by a negative amount, use of uninitialised memory) is a distinct outcome: the function returns
  `option`/`UB`, and theorems state either that it does not happen or under which precondition.
* **Geometry kernels** are modelled over Coq's real numbers `R`: the C++ formula with exact
  arithmetic, with the tolerance constants (`kTolerance` = 1e-9, `kHalfTolerance`, `kInfLength`,
  `kTiny`, ...) kept as explicit parameters or literals. Rounding is therefore *not* covered,
  except where a file says so (Flocq).
* **SIMD**: only the scalar backend is modelled (`Real_v = double`, masks are `bool`).
  For the clustering code the vector width is a parameter.
* **Abstract shapes**: code that is generic in the shape (Booleans, scaled shapes, navigators,
  accelerators) is modelled over a record of functions (`Contains`, `Inside`, `DistanceToIn`,
  ...), and theorems are relative to an explicit contract on those functions. Each contract is
  shown satisfiable by an instance.
* **Heuristics and random choices** (SAH split, k-means centres, random numbers) are universally
  quantified functions.
* **NonZero** (`nz` in PlanesModel.v): `x + copysign(1e-30, x)` is computed in binary64, where the sum is absorbed for |x| >= 2^-46. `nz` is `x` there and the exact sum below. C48_nonzero proves the absorption with Flocq for round-to-nearest with any tie rule; below 2^-46 the rounding of the sum is ignored.
* **kMinimum** (`kmin` in TetModel.v): `Unit()` adds the least normal double to the squared length. The theorems hold for every `kmin >= 0`; those that need exact unit normals assume `kmin = 0`.

## 3. Trusted base

1. Coq 8.16.1 kernel (`coqc`; `vm_compute` is used for finite checks).
2. The axioms listed by `Print Assumptions` under each property theorem. Discrete theorems:
   none ("Closed under the global context"). Theorems about `R`: the axioms of the standard
   library's real numbers (`ClassicalDedekindReals.sig_forall_dec`, `sig_not_dec`,
   `FunctionalExtensionality.functional_extensionality_dep`) and, where trigonometry or
   completeness lemmas are used, `Classical_Prop.classic`. No axiom is declared here.
3. The transcription from C++ to Gallina, done by hand from the cited lines.
4. Not modelled: floating-point rounding (unless stated), CUDA, SIMD lanes, I/O, GDML parsing,
   multi-threading, allocation failure, C++ object lifetime except where a property is about it.

## 4. Plan per property

| id | modelled | method |
|---|---|---|
| C01 | BitSet bytes as `list N`, nbits | history invariant: fold over operations refines function `nat -> bool` |
| C02 | `CountBits`, 256-table | table check over all bytes lifted by `forallb_forall`, induction over bytes; the `startBit` variant is suspected wrong (mask index), expect refutation |
| C03 | four searches with tables | induction over bytes + finite table check |
| C04 | And/Or/Xor/Flip | pointwise lemma per byte |
| C05 | shifts as index maps | arithmetic on `div`/`mod`; amounts >= size hit UB, expect restricted theorem + refutation |
| C06 | ResetAllBits/Set/Get | value `true` suspected wrong (memset 1) |
| C07 | Vector buffer with capacity and explicit OOB outcome | simulation by list, invariant size <= capacity |
| C08 | initializer list ctor, operator= | refutations + corrected domain |
| C09 | Array / SOA3D / AOS3D objects in a small heap | aliasing; refutation for self assignment, proof for distinct objects |
| C10 | table size pass and fill pass over rose trees | mutual induction over trees, writes as list of (address, word) with NoDup and bound |
| C11 | table decode | invariant of the fill pass, injectivity from disjoint address intervals |
| C12 | NavStateIndex functions on the filled table | refinement to path list |
| C13 | NavStatePath array | refinement, bounds invariant |
| C14 | both | composition of C12 and C13 |
| C15 | Get/Reset path by indices | induction on paths |
| C16 | TopMatrix over cached/uncached levels | induction on path using C18 |
| C17, C18 | Transformation3D over R | ring/nra |
| C19 | DoRotation specialisations | case per code; code 0x16A suspected wrong |
| C20 | Euler matrix | trigonometric identities |
| C21 | Scale3D | nra / Cauchy-Schwarz style bounds |
| C22 | AABB | lra/nra on slabs |
| C23 | ComputeNodes with arbitrary partition predicate | induction on depth |
| C24-C26 | traversals with explicit stack | generic traversal lemma: every leaf not pruned is visited |
| C27 | stack height | invariant on the stack contents |
| C28-C30 | key arithmetic, map + property vector | arithmetic; history induction |
| C31 | GlobalLocator over an abstract hierarchy | induction on depth; branch without locator suspected wrong |
| C32 | VNavigator step logic | case analysis over contracts |
| C33 | looper with sorted hits | equality with brute force minimum under box-distance contract |
| C34 | safety estimators | inequality from contracts |
| C35 | greedy clustering | invariant for arbitrary selection |
| C36 | insertionsort with array writes | sortedness, permutation, stability |
| C37, C38 | Box kernels | lra/nra, case analysis |
| C40-C42 | Boolean kernels over abstract shapes | case analysis, contracts |
| C43 | Flatten | tree induction |
| C44 | MultiUnion | contracts; safety suspected to overestimate |
| C45 | ScaledShape | contract transport |
| C46 | Orb | quadratic algebra |
| C47 | Wedge | trigonometry |
| C48 | Planes, PlaneShell, Tet | induction over planes |
| C49 | PlanarPolygon convex queries | suspected wrong |
| C50 | GetSectionIndex | induction |
| C51-C53 | GeoManager maps, compaction, visitors | history induction; tree induction |
| C54 | Poisson loop | suspected non-terminating |
| C64 | RelocatePointFromPath over the same hierarchy | uniqueness of the deepest chain in a geometry without overlaps |
| C65, C66 | Box normal, surface sampling | case analysis |
| C39, C67 | bounding boxes of placed volumes, assemblies | extreme corners of an affine map, induction over the build |
| C40, C41, C42, C68, C69 | `ShapeModel` (functions of unplaced and placed volumes), `BoolModel` (all kernels of the three operations, extents; loops with fuel) | sets of points and of ray parameters (`BoolSpec`); loop invariants along the ray, termination from a bound on the operands and the push; trees by induction |
| C43 | BooleanHelper::Flatten, CountBooleanNodes on a heap of unplaced volumes (FlattenModel) | points of a volume as a relation on the heap; one-step evolution of the heap keeps all of them; ranks for termination |
| C44, C70 | Multi-unions: adding, closing, neighbour rows, all queries through the hybrid structure | invariants over the neighbour table; refinement to the union of the components; induction on the exit loop |
| C51, C52, C53 | GeoManager registries, CloseGeometry with compaction, Clear, Convert, visitors, GetNTotal | invariants over all histories; simulation relation between the heaps before and after closing; induction over the placement DAG |
| C50, C71-C77 | Polycones: Init, CheckContinuity, section lookup, all point and safety queries, ray distances over any cone distances, DetectConvexity, Reset, the maker | induction on the plane list (sections = bodies between neighbouring planes), invariants of the search and ray loops, refinement to the union |
| C78 | Cones: cached values, point kernels, safeties; phi section by contract | real analysis of the tilted surfaces |
| C47 | phi wedge: construction, setters, Contains / Inside / boundary variants, surface tests, safeties, ray distances, moving tests, the sector test of cones and tubes, start angle normalisation | polar coordinates by acos; sector iff side tests; Lipschitz sides; crossings of lines; instances of the cone and polycone contracts |
| C46 | orb: construction, setter, Contains, Inside, ray distances, safeties, normal, extent, surface samples | roots of the quadratic; first and last place of a line in a ball |
| C45 | Scale3D, scaled shapes: all queries, normal, extent, samples, copies | transfer along the scaling bijection; Lipschitz bound by the smallest factor |
| C48 | Plane, Planes (any number of planes), PlaneShell; NonZero in binary64 with Flocq | induction over the list of planes, folds as minima and maxima, half-space algebra |
| C79 | tetrahedra: TetStruct, TetImplementation, UnplacedTet | barycentric coordinates from triple products; the plane theorems |
| C54, C80 | RNG::Poisson, uniform, uniform_array, Gauss over any stream of uniform numbers | induction on loop turns, real analysis |
| C49 | PlanarPolygon: constructor, Contains, ContainsConvex, InsideConvex, SafetyConvex, SafetySqr, OnSegment, Area, extent, CalcConvexity; templates and scalar specialisations | plane geometry of hulls, parity algebra, folds |
| C49, C81 | crossing parity constant off the border, any polygon | sums over the closed chain, completeness of the reals |
| C81 | PolygonalShell, SExtruImplementation, UnplacedSExtruVolume over PlanarPolygon | slab loops over sides, refutations by computation |
| C82 | TrapezoidStruct, TrapezoidImplementation, UnplacedTrapezoid over PlaneShell | explicit wall normals, trilinear weights for the hull, largest of six heights |
| C83 | ParallelepipedStruct, ParallelepipedImplementation, UnplacedParallelepiped | coordinates along the edges turn it into a box, heights over the six faces, comparison with the trapezoid |
| C84 | TrdStruct, TrdImplementation, UnplacedTrd | heights over six planes, hits with each face sound and complete, first face left or last face entered over a finite list of planes |
| C85 | TubeStruct, TubeImplementation, UnplacedTube | sector tests as signs of two planes, quadratic roots of the two circles, first surface left or entered by a case list of the kernels |
| C86 | EllipticalTubeStruct, EllipticalTubeImplementation, UnplacedEllipticalTube, EllipticUtilities | ellipse squeezed to a circle of the shorter half axis, which shortens distances; quadratic roots; gap of the arithmetic-geometric mean halves |
| C87 | EllipsoidStruct, EllipsoidImplementation, UnplacedEllipsoid | ellipsoid squeezed to the ball of the shortest semi-axis, which shortens distances; quadratic roots and z window as for elliptical tubes |
| C88 | ParaboloidStruct, ParaboloidImplementation, UnplacedParaboloid | squared radius linear in z; the surface along a ray is a quadratic, roots as for ellipsoids; area by antiderivatives |
| C89 | EllipticalConeStruct, EllipticalConeImplementation, UnplacedEllipticalCone, EllipticUtilities | height above the cone times a cosine is 1-Lipschitz; rays by the sign of the leading coefficient and a double root at the apex; lateral area by the swept spokes |
| C90 | CutPlanes, CutTubeStruct, CutTubeImplementation, UnplacedCutTube | signed distances from the planes are 1-Lipschitz and meet the tube's theorems (C85) for an infinite tube; the exit of the tube does not depend on its infinity; measures by antiderivatives; extent from the farthest point of a ring sector in a direction; the way in through the planes, and through the walls from between the planes |

## 5. Findings

Each is a theorem named `_refuted` about the faithful model (witness inside), unless marked *read*,
which means seen in the source but not formalised.

* **BitSet.h** `ResetAllBits(true)` writes bytes 0x01; `CountBits(startBit)` uses the wrong mask for an
  unaligned start; shifts by the full size or more leave the buffer; slack bits of the last byte become
  dirty after `<<=`, `|=`, `^=`, `Set`, so `==` and `CountBits` disagree with the visible bits; searches
  from the end are undefined for zero bits; assignment from a larger set keeps the smaller buffer.
* **Vector.h** `operator=` appends to what is there; the `initializer_list` constructor writes into a
  buffer of the wrong size; `push_back` on zero capacity writes outside; `reserve` on a fixed buffer
  destroys the caller's elements.
* **Array.h, AOS3D.h, SOA3D.h** self-assignment loses the data or leaves dangling pointers.
* **NavStateIndex** `PushImpl(0, v)` ignores `v`; levels of an outside state are read from the world's
  record. **NavStatePath** the level counter wraps at 256; `GetLastExited` is null near full depth;
  `CopyTo` of a full state copies one slot too many, and into a smaller state corrupts the capacity;
  `GlobalToLocal` applies the world's transformation and `TopMatrix` does not.
* **Transformation3D.h** `DoRotation` for code 0x16A uses `master[2]*r5` instead of `master[1]*r5`
  (wrong result for a proper rotation); the kernel for code 0x046 belongs to another code (only
  reachable for non-orthogonal matrices); translations below 1e-9 are dropped by `MultiplyFromRight`;
  scaled constructors are not undone by `InverseTransform`; the documentation of the Euler angles says
  y where the code rotates about x.
* **Scale3D.h** normals point inward after a reflecting scale.
* **AABB.h** `Intersect(point, dir, step)` misses a box when the ray lies in the plane of a maximal face
  (zero direction component). *Read:* `Expand` is documented to add `amount` in each direction but adds
  half of it.
* **BVH.cpp** a single daughter with the default depth evaluates `(int)log2(0)`; the term of the surface
  area heuristic meant to prefer balanced splits is constant (integer division). *Read:* depths of 30 and
  31 overflow `2 << fDepth` minus one; the comment "check closest one first" is the reverse of what the
  last-in-first-out stack does (performance only).
* **FlatVoxelHashMap.h** `keyToPos` multiplies the cell index by 1.5 instead of adding 0.5 and leaves the
  voxel from cell 3 on; `clear()` keeps `fLastKey`, so that refilling with the same key dereferences an end
  iterator; keys are not range checked: upper-face points get the key of another cell, and truncation
  towards zero gives points just below the grid the key of cell 0.
* **FlatVoxelManager.cpp** with `hardware_concurrency() == 0` no task is created and the voxels stay empty.
  *Read:* safety voxels are filled from sampled points, so their candidate lists can miss objects.
* **GlobalLocator.h** the search used when a volume has no level locator descends only one level in
  `LocateGlobalPoint` (`godeeper` is false after the loop). **BVHNavigator.h** a volume with daughters but no BVH is a null
  dereference in location (the ray query guards against it). *Read:* the same branch of
  `LocateGlobalPointExclVolume` does not update `lvol` (harmless, proved).
* **Blocked volumes** the overloads of `CheckDaughterIntersections` with a blocked volume use three rules: the simple
  navigator leaves the volume out when its normal points along the ray, the box navigator when the distance is
  not positive and either it is the candidate or the normal points along, the hybrid navigator when the distance
  is not positive and it is the candidate. They return different daughters (C33_blocked_refuted).
* **insertionsort** index `unsigned short`, hole `short`: more than 32768 entries index before the array.
* **HybridSafetyEstimator.h** the candidate array has `VECGEOM_MAXDAUGHTERS` (2000) entries and the assertion checks
  `VECGEOM_MAXFACETS` (20000). **BVHSafetyEstimator.h** dereferences a null BVH for a volume without daughters.
  *Read:* the daughter index is checked after the lookup and with `>` instead of `>=`.
* **HybridManager2.cpp** *read:* the structure vector is sized by the number of volumes and indexed by id;
  `EqualizeClusters` is commented out; `AssignVolumesToClusters` and `RecalculateCentres` are unused.
  **SimpleABBoxNavigator.h** *read:* divides by direction components without `NonZero`.
* **VNavigator.h** `PrepareOutState`: an infinite geometric step becomes a step of kTolerance even if the limit is
  smaller, and popping while the top is an assembly dereferences null once the world is popped;
  `ComputeStepAndSafetyAndPropagatedState` lacks the loop that removes trailing assemblies.

* **Box::DistanceToOut near the surface.**  A point outside a face by less than half the tolerance, moving along the face, gets
  the quotient of its excess and 1e-30 as exit distance, e.g. -2.5e20 (`C38_to_out_near_refuted`).
* **Box normal, valid flag.**  `valid` compares with the planes of the faces, so a point far outside the box but in the plane of
  a face is reported as valid (`C65_valid_refuted`).

* **Split bounding boxes of asymmetric shapes** (proved, `C39_splitted_refuted`).  `ComputeSplittedABBox` builds its
  slices as if the extent were centred on the origin; for other extents parts of the volume are outside all slices.
  It also uses a placed slice whose temporary logical volume is already destroyed (source/ABBoxManager.cpp:102-103, read).
* **Stale corners of nested assemblies** (proved, `C67_order_refuted`).  `PlaceDaughter` updates the corners of the
  assembly itself only.  A daughter added to an assembly which is already placed in another one is invisible to the outer one.
* `UnplacedAssembly::Inside` throws; an empty nested assembly has the extent (inf, -inf), whose image is NaN (read).

* **Boolean solids, moved operands.** `TransformedExtent` (source/UnplacedBooleanVolume.cpp:380-420) transforms the extent returned by the placed operand, which is already in the common frame, again; a union with a box moved by 1 loses points, an intersection can get an empty extent (C69_moved_refuted). The normal kernels transform the point and then call `VPlacedVolume::Normal`, which transforms it again (C68_moved_refuted). SafetyToOut and the intersection's DistanceToOut ask a moved left operand in the wrong frame (C41_left_placed_refuted, C42_left_placed_refuted).
* **Boolean solids, points in the tolerance of both operands.** Union: kInside although not contained, if the normals face each other; subtraction: kOutside although contained (C40).
* **Subtraction DistanceToIn** returns the entry plus kPushTolerance (C42_subtraction_overshoot_refuted). If the right operand has a gap narrower than the push, the point advances by the push while the returned distance does not (BooleanImplementation.h:115-157).

* **Flatten with `min_unions = 0` dereferences null** (UnplacedBooleanVolume.cpp:211, 217-218): the count test cannot stop at the first volume that is not Boolean, whose Boolean structure is null. `C43_zero_refuted`: for every volume and placement.

* **Multi-union corners (C44, C70).** `SafetyToInComp` ignores components with a safety of 0 or less, so a point outside all components next to one that answers 0 gets kInfLength (C44_safety_in_zero_refuted). Without components `Close` leaves a null structure that every query dereferences (C44_empty_refuted). `DistanceToOut` starts with whichever component is found first; on its surface the step is 0 and the loop ends, even deep in another component (C70_to_out_refuted). `NormalKernel` transforms the point and then calls `Normal` of the placed volume, which transforms it again (C70_normal_moved_refuted).

* **Geometry manager (C51, C52).** The compact buffer has as many slots as there are registered placed volumes but is indexed by volume id: after one volume was destroyed and a later one created, CloseGeometry writes outside it (C52_gap_refuted; C52_fits gives the exact condition). fVolumeToIndexMap is filled before the compaction, so Convert(pointer) of every volume of the closed geometry is 0 (C52_convert_refuted). Clear() resets the id counters but not the volumes: destroying an old volume deregisters the new one with its id (C51_stale_refuted). Convert(index) uses operator[] and enters null pointers, which the searches by label dereference (C51_convert_unknown_refuted). CompactifyMemory rewrites the placed volumes of Boolean and scaled shapes only, those held by multi-unions keep the old addresses.

* **Polycones (C71-C77).** A section thinner than 2 kTolerance lets every point at its height in (C71_thin_refuted). On the seam of two sections a point just outside the lateral surface is kInside (C72_seam_refuted). SafetyToIn going left measures from the plane one section too far down and stops early; below or above the range it only asks the first or last section (C73_left_refuted, C73_below_refuted). DetectConvexity ignores sections dropped when a height is repeated (C75_convex_refuted), and reads an empty list when a height is given three times (C75_triple_refuted). Reset appends to the sections instead of replacing them (C76_reset_refuted). The maker turns two planes into a cone centred at the origin wherever they are (C77_two_refuted). Read but not formalised: the assertion of GetRmaxAtPlane uses `||`; the constructor from r, z corners leaves the flags unset; for phiTotal <= 0 the polycone counts as a full turn but its sections keep the angle.
* **Cones (C78).** Near the tip of a conical hole, MakeMinusTolerantSquare takes the absolute value of a negative square: a contained point is kOutside (C78_tip_refuted). SafetyToOut tests the phi sector only for points that are outside already.

* **Wedge setters.** `PhiWedge::SetStartPhi`, `SetDeltaPhi` and the two-argument setter store the angles but leave the
  vectors and normals unchanged (Wedge_Evolution.h:68-78), so the wedge answers for the old sector (C47_setter_refuted); opening a quarter
  turn past half a turn switches the test from and to or over the old vectors.  A wedge with dphi = 0 also contains the
  opposite half line (C47_zero_refuted).
* **Narrow sectors.** The tolerant sector test of cones and tubes compares both side tests with minus the tolerance and never
  looks at the direction, so it accepts points at any distance behind the apex up to tolerance / dphi (C47_behind_refuted).

* **Orb corners (C46).** A tangent start in the outer half of the surface shell is contained, yet `DistanceToOut` is infinite
  (C46_graze_refuted).  A tangent start in the inner half has a negative `DistanceToIn` of the order of sqrt(r tol), not the -1 marker
  (C46_negative_refuted).  `SetRadius` recomputes volume and area but not the bounding box (C46_setter_refuted).  For radii below the
  tolerance the square of r - tol grows again and `Inside` answers kInside for points outside (C46_small_refuted).

* **Scaled shapes (C45).** `UnplacedScaledShape::Normal` returns false for every point: NormalKernel never sets `valid`
  (C45_normal_valid_refuted).  With a reflection (negative product of factors), which Scale3D accepts, `Extent` is inside out, `Capacity` is
  negative and the normal points inwards (C45_reflection_refuted).  The -1 marker of the unscaled shape is scaled like a distance
  (C45_marker_refuted).  Copying or assigning re-places the logical volume and drops the transformation (C45_copy_refuted); assigning keeps
  the bounding box of the old shape (C45_assign_refuted).

* **Planes::Contains of a non-convex family is always true** (Planes.h:214-222: `result` starts as true and is or-ed): C48_contains_union_refuted.
* **Planes::operator= does not copy fConvex** (source/Planes.cpp:13-24): C48_assign_refuted.
* **Planes::Distance<pointInsideT>(point) flips the sign when the point is NOT inside** (Planes.h:345-355): with the parameter true, a point inside sees no plane and gets kInfLength: C48_safety_flag_refuted.
* **NonZero turns parallel into a finite distance** (Plane.h:131-171): a ray parallel to a plane gets height * 1e30 instead of infinity: C48_parallel_refuted. For tetrahedra the same gives 0 on a face and -1e20 a hair outside (C79_face_refuted, C79_hair_refuted).
* **PlaneShell::NormalKernel loops over four planes whatever N is** (PlaneShell.h:330-358): C48_shell_normal_size_refuted. Near an edge the sum of normals is lost when the later face is a little higher: C48_shell_normal_tie_refuted.
* **PlaneShell::DistanceToIn misses the shell for grazing rays** within half a tolerance below a face: C48_shell_grazing_refuted; DistanceToOut of wrong-side points may be below -1: C48_shell_marker_refuted.
* **TetImplementation::NormalKernel normalises only sums longer than one**: at sharp edges the returned normal is shorter than a unit vector: C79_edge_refuted.
* **TetStruct::CalculateCached ignores CheckDegeneracy**: C79_degenerate_refuted. The default constructor of UnplacedTet leaves the vertices uninitialised. In TetImplementation::DistanceToIn the test `absSafe <= -kHalfTolerance` can never hold.

* **RNG::Poisson**: the loop condition is the wrong way round (`while (p < target)`): the answer is 0 or the loop never ends (C54).
* **RNG::Gauss**: the pair at the centre of the disc is not rejected and gives NaN (C80).

* **PlanarPolygon.h templates** (used for vector types): InsideConvex overwrites kInside by kSurface, SafetyConvex turns the sign in every round (C49_inside_template_refuted, C49_safety_template_refuted).
* **PlanarPolygon constructor**: components of unit normals below 1e-9 are zeroed, so for long thin polygons ContainsConvex denies inner points (C49_untidy_refuted); CalcConvexity calls the five-pointed star convex and denies polygons with a corner on a straight line (C49_star_refuted, C49_straight_corner_refuted).
* **PlanarPolygon copies**: the SOA3D copy does not copy the entries behind the last vertex that SafetySqr reads (C49_copy_refuted).
* **PlanarPolygon::OnSegment**: the tolerance is on the cross product, so it is 1e-9 over the length of the side (C49_short_side_refuted).

* **PolygonalShell::DistanceToOutConvex** uses `dz - point.z()` although `dz` is half the height: wrong for every solid whose middle is not at height zero, e.g. -1 from the middle of a solid between 1 and 3 (C81_off_centre_refuted).
* **PolygonalShell::DistanceToInConvex** counts directions that approach a side by less than 1e-9 as leaving it: a level square prism is missed by an almost level ray through its middle (C81_grazing_refuted).
* **PolygonalShell::SurfaceArea** takes one square root of the sum of the squared lengths (C81_area_refuted).
* **SExtruImplementation::Inside** answers kInside to points exactly 1e-9 above a convex solid (C81_inside_refuted); concave solids get kOutside next to edges, closer than the tolerance (C81_edge_refuted).
* **SExtruImplementation::DistanceToIn/Out** of concave solids divide by dir.z() without a test for zero.

* **TrapezoidImplementation::NormalKernel** looks at the z faces only within kHalfTolerance of them but calls the answer valid within 1000 kTolerance: 1e-9 under the lid of a cube of half length 10 it answers the normal of a wall five away, as valid (C82_normal_buried, C82_normal_buried_refuted).
* **UnplacedTrapezoid::SetDz, SetDy1, SetDx1, ...** do not make the planes again; Contains keeps the old walls (C82_setters_refuted). SetTheta and SetPhi make them (C82_set_angles) but leave the bounding box.
* **UnplacedTrapezoid::theta()** answers |theta| for negative theta while phi() stays: together they describe the mirrored solid (C82_angles_refuted).
* **UnplacedTrapezoid::MakePlanes** overwrites `good` for each face: only the +X face is reported; a twisted -X face passes (C82_twisted_refuted).
* **UnplacedTrapezoid::GetPointOnPlane** draws lambda2 from [0, lambda1): half of the points land in a quarter of the triangle (C82_sample_uniform_refuted).

* **UnplacedParallelepiped::SetDimensions** keeps the areas (SurfaceArea, and the shares of SamplePointOnSurface) of the former lengths; no setter computes the bounding box again (C83_history, C83_dimensions_refuted).
* **ParallelepipedImplementation::Contains** is strict: points of the surface are not contained, while the trapezoid of the same shape contains them (C83_contains, C83_trapezoid).
* **ParallelepipedImplementation::NormalKernel** normalises sums longer than one only: at the sharp edge of a solid with tan(alpha) = 4/3 the normal is (3/5, 1/5, 0) (C83_normal_unit_refuted); and calls a point eight away valid when it is in the plane of a face (C83_normal_valid_refuted).
* **UnplacedParallelepiped::CreateMesh3D** divides by zero or takes the root of a negative number for every solid with alpha = theta = 0 (C83_mesh_refuted).

* **TrdStruct::CalculateCached** computes fToleranceY from the slope in x: with steep x faces Inside answers kSurface from points more than one unit deep (C84_inside_refuted).
* **UnplacedTrd::SurfaceArea** uses the slant height of the x faces for the y faces too: the sum of the areas of the faces only when |dx1-dx2| = |dy1-dy2| or there are no y faces (C84_area).
* **TrdImplementation::DistanceToIn** takes points less than half a tolerance under the plane of a lid for points above it: on flat rays the distance is negative, -0.25 for a ray that has left the box behind (C84_to_in_sign_refuted).
* **TrdImplementation::DistanceToOut** answers zero on rays in the plane of an x face when there is no slope in y (C84_to_out_slide_refuted).
* **UnplacedTrd setters** leave the bounding box of the first lengths, and SetYHalfLength1/2 on a Trd1 leave kernels that know one length only (C84_bbox_refuted, C84_set_y_refuted).
* **UnplacedTrd::Normal** measures distances to planes, not faces: eight units away from a box the normal is called valid (C84_normal_valid_refuted).
* **Maker<UnplacedTrd>** makes boxes of straight Trds; their Contains leaves out the surface, that of every other Trd does not (C84_make).

* **TubeImplementation** compares with |rmin*(rmin-2*kTolerance)|: for an inner radius below two tolerances points of the tube answer kOutside (C85_inside_hole_refuted).

* **TubeImplementation PiSector** of DistanceToOut passes GetNormal2().x() twice where the second line of a half tube needs x and y (TubeImplementation.h:747-750), so half tubes answer wrong distances (C85_to_out_half_refuted). Rays through the axis miss the sides they cross there (C85_to_out_axis_refuted, C85_to_in_axis_refuted), DistanceToIn may be negative (C85_to_in_sign_refuted).
* **TubeStruct setters**: SetSPhi and SetDPhi do not rebuild the wedge, so the kernels keep the old sector (C85_set_sphi_stale, C85_set_dphi_stale, C85_set_sphi_refuted); SetRMin takes a negative radius (C85_set_rmin_refuted).
* **TubeImplementation::NormalKernel** divides the sum of n normals by the root of n, which gives a unit vector only when they are perpendicular (C85_normal_unit_refuted).

* **UnplacedEllipticalTube::CheckParameters** compares fDy twice and fDz never (source/UnplacedEllipticalTube.cpp:31): SetDz(-1) is accepted, the tube then holds no point and its capacity is negative (C86_dz_refuted).
* **EllipticalTubeImplementation::NormalKernel** answers valid for points level with a lid however far out they are (C86_normal_valid_refuted).
* **EllipticalTubeImplementation::DistanceToOut** takes a direction with a squared slant below 2^-52 for parallel to the axis; in a tube longer than about 2^26 radii the ray has left through the side before (C86_to_out_parallel_refuted).

* **UnplacedEllipsoid::CheckParameters** compares fDy twice and fDz never (source/UnplacedEllipsoid.cpp:44): a negative third semi-axis is accepted (C87_dz_refuted).
* **UnplacedEllipsoid::SetSemiAxes** keeps the cuts of the old size: an uncut ball of radius 1 made larger becomes a ball with cuts at -1 and 1 (C87_set_axes_refuted).
* **EllipsoidImplementation::NormalKernel** normalises the sum of two normals only when it is longer than one; on the edge of a cut on the far side of the middle the sum is shorter and is returned as valid with a wrong length (C87_normal_unit_refuted). It also answers valid for points level with a cut however far out they are (C87_normal_valid_refuted).
* **EllipsoidImplementation::DistanceToIn** compares the discriminant with a rounding bound that grows with the square of the distance of the start, but moves only starts up that are further than 32 times the longest semi-axis: needles are missed by rays that go clearly through them (C87_to_in_needle_refuted).
* **UnplacedEllipsoid::CreateMesh3D** spreads the rows by an angle in proportion to the cut instead of the angle of the cut, so the mesh of a cut ellipsoid goes beyond its cuts (C87_mesh_cut_refuted).

* **Paraboloids (C88).** `NormalKernel` declares a second `normParabolic` inside its block (ParaboloidImplementation.h:412-414), so the normal computed there is lost: on the side the answer is always the upward direction, which points into the solid, and on the lower rim the zero vector is normalised, all with valid = true (C88_normal_side_refuted). `DistanceToIn` gives zero on the side continued beyond the lids, however far the solid is (C88_to_in_refuted). `DistanceToOut` of a level ray within a tolerance above the upper lid is about minus tolerance/1e-30 (C88_to_out_level_refuted). The setter accepts Rlo > Rhi, for which SafetyToIn is negative outside, SafetyToOut negative inside, and SurfaceArea may be negative (C88_safety_wide_bottom_refuted, C88_area_wide_bottom_refuted), and Rlo = Rhi, for which the constants divide by zero. The setters do not recompute the bounding box. The proved side: classes, safeties, ray distances away from the skin, volume, area, samples and mesh for Rlo < Rhi.

* **Elliptical cones (C89).** `NormalKernel` replaces the radius of a point on the axis by one (EllipticalConeImplementation.h:335) before it computes the distance from the side with it (337): on the axis one below the apex, deep inside, the normal (0, 0, 1) comes out as valid (C89_normal_axis_refuted). As for the other elliptic shapes a point far outside but level with a cut gets a valid normal (C89_normal_valid_refuted). The proved side: constructor, classes, safeties, both ray distances, volume, area, samples, mesh, and the normal off the axis.

* **Cut tubes (C90).** `CreateMesh3D` solves nx x + ny y + nz z' = z for its vertices (UnplacedCutTube.cpp:217-224), while the planes go through (0, 0, z) and (0, 0, -z): the vertices are z (1 - |nz|) off a tilted plane (C90_mesh, C90_mesh_refuted). `Normal` chooses the plane by the sign of z (CutTubeImplementation.h:332-335): a point of a steep top lid below the height zero gets the normal of the bottom (C90_normal_refuted). `CutPlanes::Inside` calls every point near one of the planes surface, also far beyond the other one; nothing checks that the planes do not cross within the tube (C90_inside_crossing_refuted). `SetDz` sets the length of the inner tube, which the constructor makes infinite, and neither fDz nor the planes: z() keeps the old value and the lids stay where they are unless the new length is shorter (C90_set_dz). `DistanceToIn` moves points farther than 100 max(rmax, z) from the origin up to that distance (CutTubeImplementation.h:128-144), but steep lids reach farther: the move can pass over the solid, and the answer is then a miss (C90_to_in_far_refuted; C90_to_in_move for solids nearer than that). Read but not proved: SetSPhi and SetDPhi leave fCosPhi1 .. fSinPhi2 stale, SetRMax leaves fMaxVal stale, and the lids are sampled uniformly in the radius, so too densely near the axis.

## 6. Print Assumptions

Generated by `tools/assumptions.py` from the `Print Assumptions` commands in `Prop*.v`.

**Closed under the global context** (125 theorems)

C01_last_write, C01_reference_write, C02_count_bits_after_shift_refuted, C02_count_bits_partial, C02_count_bits_unaligned_refuted, C03_first_null_bit, C03_first_set_after_shift_refuted, C03_first_set_bit, C03_last_bit_of_empty_refuted, C03_last_null_bit, C03_last_set_bit, C04_and, C04_flip, C04_or, C04_xor, C05_shift_left, C05_shift_left_too_far_refuted, C05_shift_right, C05_shift_right_too_far_refuted, C06_reset_all_false, C06_reset_all_true_refuted, C06_set_rejects, C06_set_then_get, C07_fixed_vector, C07_vector_is_sequence, C07_zero_capacity_refuted, C08_assign_appends, C08_assign_refuted, C08_assign_to_empty_partial, C08_copy_construct, C08_initializer_list_refuted, C09_aos_assign_partial, C09_aos_self_assign_refuted, C09_array_assign_partial, C09_array_self_assign_refuted, C09_assign_no_leak, C09_soa_assign_partial, C09_soa_empty_source_shares_refuted, C09_soa_self_assign_refuted, C10_table_size, C11_index_of_path, C12_compact_stack, C12_outside_refuted, C12_same_path, C13_last_exited_refuted, C13_path_stack, C13_wrap_refuted, C14_interchangeable, C15_compact_round_trip, C15_path_round_trip, C16_compact_matrix, C16_compact_matrix_level, C16_path_matrix, C16_path_world_refuted, C23_single_daughter_refuted, C28_boundary_refuted, C28_keys, C29_any_history, C29_grouped, C29_interleaved_refuted, C29_refill_partial, C29_refill_refuted, C29_scalar, C31_abbox_locator, C31_assembly_locator, C31_bvh_locate, C31_bvh_locate_excluding, C31_locate, C31_locate_excluding, C31_missing_bvh_refuted, C31_no_locator_partial, C31_no_locator_refuted, C31_simple_locator, C32_no_assembly, C35_clusters, C35_no_daughters, C45_normal_valid_refuted, C48_assign_refuted, C48_set_distance, C51_after_closing_refuted, C51_convert_unknown_refuted, C51_count, C51_deregister_logical, C51_deregister_placed, C51_logical, C51_logical_label, C51_placed, C51_placed_label, C51_stale_refuted, C51_unique, C52_build, C52_convert_old, C52_convert_refuted, C52_fits, C52_gap_refuted, C52_hierarchy, C52_index, C52_index_back, C52_parts, C53_count, C53_depth, C53_logical, C53_ntotal, C53_paths, C53_placed, C55_equality, C55_equality_after_shift_refuted, C56_assign, C56_assign_to_smaller_refuted, C56_copy_grow, C56_copy_shrink_refuted, C57_compact_distance, C57_path_distance, C58_validate, C59_assign_slots, C59_copy_full_refuted, C59_path_copies, C59_small_target_refuted, C62_balance_refuted, C63_tasks, C64_bvh_leave, C64_leave, C64_leave_agrees, C64_relocate, C64_same_path.

**`ClassicalDedekindReals.sig_forall_dec`** (4 theorems)

C23_every_daughter_once, C43_when, C66_extent, C80_array.

**`ClassicalDedekindReals.sig_forall_dec`, `FunctionalExtensionality.functional_extensionality_dep`** (159 theorems)

C16_transformation3d, C16_transformation3d_path, C17_directions, C17_inverse, C17_inverse_invertible, C17_round_trip, C18_associative, C18_closed, C18_composition, C18_composition_directions, C18_flags, C18_tiny_translation_refuted, C19_code_046_refuted, C19_code_16A_refuted, C19_new_kernel, C19_orthogonal_partial, C19_specialised_kernels_partial, C19_specialised_transform_partial, C21_normals, C21_reflected_normal_refuted, C22_face_plane_refuted, C22_hit_near_box, C22_ray_direction_partial, C22_ray_never_misses, C22_union, C23_construction, C23_construction_succeeds, C24_locate, C24_locate_direction, C25_nearest_daughter, C26_minimum_refuted, C26_safety_minimum, C27_stack, C27_stack_32, C28_below_refuted, C28_midpoint_refuted, C28_points, C30_conservative, C30_exact, C30_points, C31_bvh_locator, C32_and_safety, C32_assembly_refuted, C32_bounds, C32_bvh_propagated, C32_infinite_refuted, C32_propagated, C32_safety_propagated, C32_step, C33_abbox, C33_abbox_blocked, C33_blocked_partial, C33_blocked_refuted, C33_bvh, C33_hybrid, C33_same_answer, C33_simple, C34_capacity_refuted, C34_no_daughters_refuted, C34_same_value, C35_containing, C35_layout, C35_ray, C36_insertionsort, C36_long_arrays_refuted, C37_classes, C37_consistent, C37_generic, C38_to_in, C38_to_out, C38_to_out_near_refuted, C38_true_direction, C39_abbox, C39_abbox_least, C39_placed_extent, C39_search_boxes, C39_splitted, C39_splitted_refuted, C40_classes, C40_contains, C40_inside, C40_tree, C40_union_gap_refuted, C42_intersection_to_in, C42_intersection_to_out, C42_left_placed_refuted, C42_subtraction_overshoot_refuted, C42_subtraction_to_in, C42_subtraction_to_out, C42_union_to_in, C42_union_to_out, C43_components, C43_flat, C43_points, C43_total, C43_zero_refuted, C44_capacity_refuted, C44_close, C44_empty_refuted, C45_assign_refuted, C45_contains, C45_copy, C45_copy_refuted, C45_extent, C45_extent_tight, C45_inside, C45_round_trip, C45_sample, C45_set_scale, C48_contains, C48_contains_union_refuted, C48_distance, C48_distance_entry_refuted, C48_flip, C48_inside, C48_inside_one, C48_inside_union, C48_parallel_refuted, C48_plane_contains, C48_plane_inside, C48_plane_to_in, C48_plane_to_out, C48_safety_flag_refuted, C48_shell_closest, C48_shell_contains, C48_shell_grazing_refuted, C48_shell_in, C48_shell_inside, C48_shell_marker_refuted, C48_shell_normal, C48_shell_normal_edge, C48_shell_normal_safety, C48_shell_normal_size_refuted, C48_shell_normal_tie_refuted, C48_shell_out, C48_shell_wrong_side, C49_contains_lanes, C49_inside_template_refuted, C50_lookup, C60_delta_transformation, C60_fix_zeroes, C62_areas, C62_splitting, C63_locate, C63_no_threads_refuted, C66_sample, C67_contains, C67_extent, C67_order_refuted, C68_normal, C69_extent, C74_to_in_partial, C76_frustum, C80_uniform, C80_uniform_onto, C82_capacity, C86_in_ellipse_first, C88_rims, C88_set.

**`ClassicalDedekindReals.sig_forall_dec`, `ClassicalDedekindReals.sig_not_dec`, `FunctionalExtensionality.functional_extensionality_dep`** (389 theorems)

C17_isometry, C17_scaled_refuted, C20_about_y_refuted, C20_euler, C21_scale, C22_contains_expand, C22_safety, C26_safety_underestimates, C34_abbox, C34_bvh, C34_hybrid, C34_simple, C34_to_daughters, C35_lowered_limit, C35_safety, C37_safeties, C40_subtraction_touching_refuted, C41_left_placed_refuted, C41_safety_in, C41_safety_out, C41_tree, C44_component, C44_contains, C44_extent, C44_inside, C44_neighbours, C44_safety_in, C44_safety_in_inside, C44_safety_in_zero_refuted, C44_safety_out, C44_safety_out_outside, C45_ellipsoid, C45_lengths, C45_marker_refuted, C45_normal, C45_reflection_refuted, C45_safeties_shrink, C45_safety_in, C45_safety_out, C45_tangent, C45_to_in, C45_to_out, C45_wrong_side, C46_contains, C46_extent, C46_graze_refuted, C46_inside, C46_negative_refuted, C46_normal, C46_safety, C46_safety_tight, C46_setter, C46_setter_refuted, C46_small_refuted, C46_to_in, C46_to_in_shell, C46_to_out, C46_to_out_above, C46_to_out_shell, C46_wrong_side, C47_moving, C47_start_angle, C47_to_in, C47_to_out, C47_zero_refuted, C48_inside_room, C48_inside_tight, C48_plane_safety, C48_safety_in, C48_safety_out, C48_set, C48_shell_safety_in, C48_shell_safety_out, C49_component, C49_contains, C49_contains_convex, C49_contains_extent, C49_contains_hull, C49_copy_refuted, C49_corner_refuted, C49_extent, C49_init, C49_inside_convex, C49_on_segment, C49_safety_contains, C49_safety_convex, C49_safety_sqr, C49_safety_template_refuted, C49_short_side_refuted, C49_star_refuted, C49_straight_corner_refuted, C49_untidy_refuted, C50_constructed, C50_planes, C54_poisson_partial, C54_poisson_refuted, C61_axis_constructor, C65_normal, C65_valid_refuted, C68_moved_refuted, C69_moved_refuted, C70_normal, C70_normal_moved_refuted, C70_to_in, C70_to_out, C70_to_out_refuted, C71_contains_partial, C71_thin_refuted, C72_inside_partial, C72_outside_partial, C72_seam_refuted, C73_below_refuted, C73_beyond_partial, C73_left_refuted, C73_marker, C73_safety_in_partial, C73_safety_out, C74_start, C74_to_out_partial, C75_step, C75_triple_refuted, C76_capacity, C76_reset_refuted, C77_two_partial, C77_two_refuted, C78_capacity, C78_contains, C78_inside_partial, C78_outside_partial, C78_safety_in, C78_safety_out, C78_tip_refuted, C79_capacity, C79_contains, C79_degeneracy, C79_degenerate_refuted, C79_edge_refuted, C79_extent, C79_face_refuted, C79_hair_refuted, C79_in, C79_inside, C79_normal, C79_normal_face, C79_normal_off, C79_out, C79_safety_in, C79_safety_out, C79_sample, C79_solid, C79_symmetric, C79_wrong_side, C81_area_refuted, C81_contains, C81_contains_any, C81_edge_refuted, C81_extent, C81_grazing_refuted, C81_init, C81_inside, C81_inside_any, C81_inside_beyond, C81_inside_refuted, C81_normal, C81_normal_any, C81_off_centre_refuted, C81_safety_to_in, C81_safety_to_in_any, C81_safety_to_out, C81_safety_to_out_any, C81_to_in, C81_to_in_any, C81_to_out, C81_to_out_any, C81_to_out_outside, C82_area, C82_contains, C82_extent, C82_inside, C82_make, C82_make_box, C82_make_para, C82_make_trd1, C82_make_trd2, C82_normal_buried, C82_normal_buried_refuted, C82_normal_edge, C82_normal_lid, C82_normal_wall, C82_safety_to_in, C82_safety_to_out, C82_sample_face, C82_sample_point, C82_sample_uniform_refuted, C82_section, C82_set_angles, C82_setter_members, C82_setters_refuted, C82_side_areas, C82_solid, C82_to_in, C82_to_in_level, C82_to_out, C82_to_out_outside, C83_area, C83_capacity, C83_contains, C83_dimensions_refuted, C83_extent, C83_history, C83_inside, C83_mesh_refuted, C83_normal, C83_normal_invalid, C83_normal_valid, C83_safety_to_in, C83_safety_to_out, C83_sample, C83_sample_face, C83_solid, C83_to_in, C83_to_in_infinite, C83_to_out, C83_to_out_outside, C83_trapezoid, C84_area, C84_bbox_refuted, C84_capacity, C84_choose, C84_contains, C84_extent, C84_face_areas, C84_hull, C84_inside, C84_inside_refuted, C84_inside_slack, C84_make, C84_make1, C84_make1_to_in, C84_make_inside, C84_make_to_in, C84_mesh, C84_normal, C84_normal_valid_refuted, C84_safety_to_in, C84_safety_to_out, C84_sample, C84_sample_face, C84_set_y_refuted, C84_setters, C84_shares, C84_solid, C84_to_in, C84_to_in_inside, C84_to_in_sign_refuted, C84_to_out, C84_to_out_outside, C84_to_out_slide_refuted, C84_trapezoid, C85_area, C85_capacity, C85_choose, C85_make, C85_normal, C85_normal_one, C85_piece, C85_safety_to_in_exact, C85_sample, C85_set_dphi_safety, C85_set_dphi_stale, C85_set_rmin_refuted, C85_set_sphi_safety, C85_set_sphi_stale, C85_setters, C85_to_in_inner_wall, C85_to_in_inside, C85_to_in_outer_wall, C85_to_in_sign_refuted, C86_choose, C86_contains, C86_convex, C86_dz_refuted, C86_extent, C86_inside, C86_make, C86_measures, C86_mesh, C86_normal, C86_normal_unit, C86_normal_valid_refuted, C86_on_ellipse_first, C86_perimeter_circle, C86_perimeter_stops, C86_safety_in, C86_safety_out, C86_sample, C86_setters, C86_to_in, C86_to_in_hit, C86_to_out, C86_to_out_outside, C86_to_out_parallel_refuted, C87_choose, C87_contains, C87_convex, C87_dz_refuted, C87_extent, C87_facets, C87_inside, C87_make, C87_measures, C87_mesh, C87_mesh_cut_refuted, C87_normal, C87_normal_unit_refuted, C87_normal_valid_refuted, C87_safety_in, C87_safety_out, C87_sample, C87_set_axes_refuted, C87_to_in, C87_to_in_hit, C87_to_in_needle_refuted, C87_to_out, C87_to_out_outside, C88_area, C88_area_wide_bottom_refuted, C88_capacity, C88_contains, C88_convex, C88_extent, C88_inside, C88_mesh, C88_normal, C88_normal_side_refuted, C88_safety_in, C88_safety_in_far, C88_safety_out, C88_safety_wide_bottom_refuted, C88_sample, C88_to_in, C88_to_in_hit, C88_to_in_refuted, C88_to_out, C88_to_out_level_refuted, C88_to_out_outside, C89_area, C89_capacity, C89_choose, C89_contains, C89_convex, C89_extent, C89_inside, C89_lateral, C89_lateral_scale, C89_make, C89_mesh, C89_normal, C89_normal_axis_refuted, C89_normal_valid_refuted, C89_safety_in, C89_safety_out, C89_sample, C89_sample_side, C89_to_in, C89_to_in_hit, C89_to_out, C89_to_out_outside, C90_area, C90_capacity, C90_lateral, C90_lids, C90_limits, C90_make, C90_make_solid, C90_mesh, C90_mesh_refuted, C90_normal, C90_normal_refuted, C90_piece, C90_planes_in, C90_sample, C90_sides, C90_to_in_far, C90_to_in_far_refuted, C90_to_in_inside, C90_to_in_lid, C90_to_in_move, C90_to_in_near.

**`ClassicalDedekindReals.sig_forall_dec`, `ClassicalDedekindReals.sig_not_dec`, `Classical_Prop.classic`, `FunctionalExtensionality.functional_extensionality_dep`** (70 theorems)

C46_sample, C47_arrived, C47_behind_refuted, C47_boundary, C47_cone_sector, C47_contains, C47_enter, C47_gone, C47_inside, C47_leave, C47_safety_in, C47_safety_out, C47_safety_tight, C47_sector_test, C47_setter_refuted, C48_nonzero, C71_sector_partial, C72_sector_inside_partial, C72_sector_outside_partial, C73_sector_in_partial, C73_sector_out, C75_convex_partial, C75_convex_refuted, C75_sector_partial, C77_maker_partial, C77_sector_partial, C78_sector_contains, C78_sector_inside_partial, C78_sector_outside_partial, C78_sector_safety, C80_gauss, C80_gauss_centre_refuted, C80_gauss_mirror, C80_gauss_onto, C82_angles_refuted, C82_corners, C82_twisted_refuted, C83_normal_unit_refuted, C83_normal_valid_refuted, C85_contains, C85_contains_negative, C85_convex, C85_extent, C85_inside, C85_inside_hole_refuted, C85_make_contains, C85_normal_unit_refuted, C85_safety_to_in, C85_safety_to_out, C85_set_sphi_refuted, C85_to_in, C85_to_in_axis_refuted, C85_to_out, C85_to_out_axis_refuted, C85_to_out_half_refuted, C85_to_out_outside, C85_to_out_tangent_refuted, C85_to_out_wide_refuted, C90_choose, C90_contains, C90_convex, C90_extent, C90_inside, C90_inside_crossing_refuted, C90_normal_wall, C90_safety_in, C90_safety_out, C90_set_dz, C90_to_in_wall, C90_to_out.
