# Formal model of arl/go-detour in Rocq

## Layout

| directory | content |
|---|---|
| `rocq/theories/Base` | Go integers, slices, the result monad, IEEE binary32 |
| `rocq/theories/Model` | the model, one file per Go file (or part of it); every definition cites the Go lines |
| `rocq/theories/Spec` | small, model-independent specifications |
| `rocq/theories/Proofs` | lemmas and invariants |
| `rocq/theories/Properties` | the property theorems `Cxx_...`, the examples beside them and `Print Assumptions` |

`properties.jsonl` is generated by `tools/props.py`; `MANIFEST.json` maps properties to theorems;
`seeded/LOG.jsonl` records mutation tests of the theorems. There `theorems_failed` are the
declarations (lemmas or theorems) coqc stopped at, one per file; `theorems_blocked` are the other theorems of the
property in files that could then not be built, which may or may not hold of the changed model.

## Conventions of the model

* **Integers.** All Go integers are `Z`. Arithmetic that can leave the range of its Go type is wrapped explicitly
  (`u8`, `u16`, `u32`, `i32` ...). `int` is 64 bit and is not wrapped where the operands are lengths or indices.
* **Slices and arrays** are `list`s; an access out of range is a Go panic. `get`/`set` return `Panic`.
* **Results.** `res A = Ok a | Panic | Exit | NoFuel`. `Panic` is a Go run-time panic or explicit `panic`,
  `Exit` is `log.Fatal*`, `NoFuel` marks an unbounded loop that ran out of the fuel given to the model. Theorems
  either rule `NoFuel` out or say so.
* **Pointers** into pools (nodes, tiles, links, spans) are indices into the pool's list; nil is `None` or the sentinel
  used by the code.
* **Floats.** `float32` is `SpecFloat.spec_float` of the standard library with the binary32 format (24, 128) and
  round-to-nearest-even: exact IEEE semantics including NaN, infinities and signed zeros. Fused multiply-add (which the Go
  compiler may use on arm64, ppc64, s390x) is not modelled: the model is that of amd64. Where a theorem is about geometry
  that only holds in exact arithmetic, the Go function is modelled once, over a record of arithmetic operations, and the
  theorem is about the instance over `Q` (or `Z`); this is said in the theorem's comment, and rounding is then not covered.
* **Refuted properties.** Where the faithful model contradicts the English property (a bug in the code), there is a
  `..._refuted` theorem with a concrete witness, and a theorem for the guarded statement that does hold.

## Trusted base

* The Coq 8.16.1 kernel (and `coqchk`), including `vm_compute`.
* `Print Assumptions` of each property theorem, printed at the end of each `Properties` file when building and
  collected in `ASSUMPTIONS.md` (`tools/assumptions.py`). Every theorem is closed under the global context: no axiom of
  the standard library is used either. (`coqchk` also lists seven constants of `Coq.ssr.ssrunder.Under_rel`: a sealed
  module of the standard library that comes along with the library's own imports; no theorem here depends on them.)
* The reading of the Go code into Gallina (function by function, lines cited).
* External code that is not in the sandbox, modelled from its documented behaviour:
  * `math32`: `NextPow2`, `Ilog2` on uint32; `Sqrt`, `Abs`, `Floor`, `Ceil`, `Min`, `Max` on float32. `Sqrt` is correctly
    rounded. `Floor`/`Ceil` are exact. `Min`/`Max` follow the comparison order.
  * `gogeo/f32` and `gogeo/f32/d3`: `Clamp`, `SetMin`, `SetMax`, `Vec3` arithmetic, `Vec3Min`, `Vec3Max`, component by
    component in the order of the source.
  * `assertgo`: assertions are no-ops (the default build).
  * `encoding/binary`, little endian; `binary.Read` fails on short input.
  * `sort.Slice`, `sort.SliceStable`, `sort.Sort`: a parameter of the model. The theorems assume that it permutes its
    input; those that need an order say so.
  * `gobj.Decode` and `fmt.Sprintf`: parameters or their documented result.
  * Conversion of an out-of-range float to an integer: the amd64 result (0x80000000 for int32).
  * `unsafe.Sizeof`: 32, 12, 12, 16 and 36 bytes for `Poly`, `Link`, `PolyDetail`, `BvNode`, `OffMeshConnection`.
* Slices are modelled with capacity equal to length. Memory exhaustion and aliasing of caller-owned slices are not
  modelled. Query filters are stateless functions.

## What is modelled

`COVERAGE.md` lists every function of `detour` and `recast` with the model files citing it
(generated by `tools/coverage.py`). Of `sample`, the steps of the two
builders between the compact heightfield and the tile (`Model/SoloMesh.v`, `Model/NavData.v`) are modelled, the rest is
not. The packages `cmd` and `internal` are not modelled.

## Plan per property

| id | modelled | proof |
|---|---|---|
| C01 | status words, `detour/status.go` | bit-vector reasoning with `Z.testbit` |
| C02 | packed area/type byte | `Z.testbit`; history by induction |
| C03 | `PassFilter`, cost table | `Z.land` and `testbit` |
| C04 | overlap tests over Z, float32 (order only) | order reasoning; `SFcompare` is a total preorder without NaN |
| C05 | encode/decode with shifts and masks | `Z.testbit`/div-mod |
| C06 | `Init` with wrapping uint32 subtraction | case analysis; refutation witness for wrap-around |
| C07, C08 | `NodePool` with `first`/`next` chains | invariant: chains partition the used nodes by hash; refinement to a finite map |
| C09 | binary heap in a slice, `bubbleUp`/`trickleDown` | heap invariant with one hole, multiset preservation |
| C10-C13 | the whole of `Init`, `AddTile`, `RemoveTile` (slots, salts, hash buckets, tile data, links) and the lookups | invariant (partition of slots into chains), refinement to a map of live tiles |
| C14-C17 | link pool of a tile, `connectIntLinks`, `unconnectLinks` | chain invariant |
| C18-C20 | byte-level serializers | round trip by induction on section lengths; refutation for off-mesh connections |
| C21-C23 | `subdivide`, traversal, batching | induction on recursion; escape-index invariant |
| C24-C26 | `FindPath` over an abstract link graph with the modelled node pool and heap, real float32 costs | loop invariant (parent chain = path); lexicographic termination |
| C27 | `InitSlicedFindPath`, `UpdateSlicedFindPath` (with `Raycast` for any-angle steps), `FinalizeSlicedFindPath`, `FinalizeSlicedFindPathPartial` | loop over k1 + k2 iterations split at k1; the state between calls is the query object |
| C28 | the same and `FindPath` | lock-step simulation of the two loops under the conditions that make their skipping rules agree; refuted without these conditions (triangle of polygons; crossing side and full pool) |
| C67 | the same | invariant of the search (as C24-C26) over slices, reversal of the parent chain as a list; refuted: delivery without a search reports success |
| C68 | simplifyContour and distancePtSeg of `contour.go`, the loops over an inserting list | the list of kept indices is cyclic (induction over the loop with fuel 2n+4 shown to suffice); the result is the first one filled by a recursive splitting of edges, which is mirrored for the other side of a border; order of floats without NaN |
| C69 | markBoundaries, walkContour2, cornerHeight and the loop of BuildContours (`contour.go`) | a step of the walk is a function on pairs of span and direction, injective because connections are mutual, so each walk is an orbit of it; marks = edges not yet passed (invariant over all spans); every orbit has an edge that is the first outline edge of its span, so none is missed |
| C70 | the rest of BuildContours, removeDegenerateSegments | total by C68; the same run with and without limit compared; refuted: one contour per region (holes are counted in uint8 < 0), no panic for many holes, no double points for three equal ones |
| C71 | BuildPolyMesh (Model/BuildMesh.v) as a whole: loops over contours, merging loop, storing, adjacency, portals | one merge step keeps directed edges distinct, areas, vertices and left turns (EdgeProofs, MergeLoop); invariant over contours with C51-C54 |
| C72 | canRemoveVertex, removeVertex (Model/BuildMesh.v) on meshes as vertex list and polygons; `torn`, `patched` in BuildSpec | edge counts as multiset counts; the walk as invariant of the passes; filling as in C71 |
| C73 | BuildPolyMesh with marked vertices; `trimmed` in BuildSpec | loop invariant with C72; then C71's last stage |
| C74 | delaunayHull, completeFacet, addEdge, findEdge, updateLeftFace, overlapEdges, circumCircle (Model/Delaunay.v), float32 as in Go; `table`, `fits`, `circle3` in DelaunaySpec | invariant of the edge table over the worklist (DelaunayLoop); areas by pairing the two sides of each edge (DelaunayArea); refuted: it can panic, and triangles can overlap |
| C75 | circumCentre, overlapSegSeg2d, distPtTri over any numbers (numQ exact), getEdgeFlags, getTriFlags | field arithmetic over Q; induction over the polygon sides |
| C76 | `getHeightData`, `seedArrayWithPolyCenter`, compact heightfield with links; queue with its 256-entry retraction | owner map as ghost state: flood invariant (owned cells pending or closed), walk invariant (popped set), minimum over candidates |
| C77 | `buildPolyDetail` with its outline, grid samples and refinement; float32, capacities of the arrays | recursion on the span of a segment equals the insertion loop (Douglas-Peucker); induction over sides; invariant of the samples added, with C56, C60 and C74 for the parts |
| C78 | `BuildPolyMeshDetail`: bounds, patches, sub-meshes, growing arrays; sums of sizes not wrapped | invariant over the polygons (arrays as long as their capacities, sub-meshes packed), with C76 and C77 for the parts |
| C79 | `recast.go`: bounds, grid size, triangle normals, marking and clearing; cosine a parameter, d3 helpers written out | invariant of the loops; zero or NaN through the normal of a degenerate triangle; rounding commutes with negation |
| C80 | the calls of `solomesh`/`tilemesh` from the compact heightfield to the detail mesh, with the fields passed between them | the theorems of the single steps (C41-C45, C48-C49, C66-C76) joined: regions and heights of contour vertices through simplification, mesh and removal of vertices to the detail input |
| C81 | flags and areas of the polygons, the parameters of `CreateNavMeshData` from both meshes, the whole chain to the bytes (`Model/NavData.v`) | the mesh of C80 meets `sized` and `detailed` of C33; the sections of the tile of C33 computed from the packed detail mesh and the table of polygons. With connections the vertices and the direction and side of a connection are not stated: reading them back is wrong in the code (C33) |
| C82 | `Model/Holes.v`: leftmost vertex, joining two contours, the tests of a segment against a contour and of the cone, the search for a vertex and the loop over the holes; the two sorts are arguments; vertex indices do not wrap | induction over the copies, the sides and the holes; shoelace sums for the area; `intersect` is exact by C50. The cone test by solving for the two sides. Not proved: that the segment avoids the outline (entry `i` of the candidates is used where `j` is meant), which vertices besides vertex 0 are candidates, that a call with several holes returns. `C82_nearest_refuted`: the nearest clear vertex is not always used |
| C29 | `FindStraightPath`, `appendVertex`, `appendPortals`, `portalPoints6/8`, funnel loop; floats as in Go | buffer invariant for any floats and any approximate equality; refuted: a call can panic |
| C65 | the same | invariant of the funnel (apex and sides are ends of portals passed), quadratic measure for termination |
| C66 | `ClosestPointOnPolyBoundary`, `distancePtPolyEdgesSqr` | minimum over float32 distances shown finite by magnitude bounds |
| C30 | `Raycast`, `Raycast2`; floats as in Go | relational trace of the ray (Spec/RaySpec.v), loop invariant, uniqueness of the trace; refuted: T and cost are not reset; the call need not end on a mesh with a self-linked polygon |
| C31, C35, C47 | exact-arithmetic instances over Q | algebra |
| C32 | nearest-polygon fold | fold invariant on float order |
| C33 | the whole of `CreateNavMeshData` | equality with a list specification of header and sections, then the round trip of C18/C19; length preservation for the panics |
| C34 | comparison logic | order reasoning |
| C36, C37 | `addSpan` on a column (pool and free list abstracted to a list per column) | invariant and set semantics of columns |
| C38-C40 | filters | induction on columns |
| C41-C42 | `BuildCompactHeightfield` | induction on columns; uniqueness of the matching span |
| C43, C44 | connection fields, direction tables | `testbit`, case analysis |
| C45 | two-pass 8-bit distance transform | invariant on distances; refutation for wide fields |
| C46 | clamping and grid bounds of `rasterizeTri` | interval reasoning |
| C48, C49 | monotone sweep, `mergeAndFilterRegions`, `BuildRegionsMonotone` | invariants of the sweep; renaming of regions as an equivalence; connectedness |
| C50 | predicates of `contour.go` | `nia`/`lia` |
| C51, C52 | ear clipping, polygon merge | signed-area invariant |
| C53 | edge table | invariant over edges |
| C54 | bucket chains | chain invariant |
| C55 | recursive subdivision | induction |
| C56 | spiral walk | induction on rings |
| C57-C60 | list stores, fan triangulation, hull triangulation | induction |
| C61 | `Status.Error` | case analysis; refutation |
| C62 | links of all tiles through all histories | history invariant on top of C10-C16 |
| C63 | `MarkConvexPolyArea` and friends | column-wise invariant |
| C64 | quantized boxes of `createBVTree` and `queryPolygonsInTile` in float32 | monotonicity of float32 subtraction, multiplication and truncation |
