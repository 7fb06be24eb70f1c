{
 "C05": {
  "note": ""
 },
 "C06": {
  "note": "The guard (widths sum to at most 32) is needed: without it the uint32 subtraction wraps and Init accepts parameters that leave no salt, see the _refuted theorems."
 },
 "C07": {
  "note": "Pos of a recycled node is not reset by the code (C07_new_node_fields). A pool with hash size 0, which a query with maxNodes < 4 creates, panics (C07_tiny_pool_refuted)."
 },
 "C09": {
  "note": "Totals must not be NaN, see C09_nan_refuted."
 },
 "C61": {
  "status": "partial",
  "note": "The message of a status in progress that carries details is wrong in the code (refuted); failure messages are proved."
 },
 "C37": {
  "note": "Extents only; areas of merged spans depend on the insertion order (C37_area_order_refuted)."
 },
 "C41": {
  "note": "Guard: at most 255 walkable spans per column, since Count is 8 bits (C41_count_wrap_refuted)."
 },
 "C42": {
  "note": "Mutuality needs walkableClimb <= walkableHeight (C42_mutual_refuted otherwise) and at most 63 walkable spans per column."
 },
 "C43": {
  "status": "partial",
  "note": "SetCon or-s the value into the complemented old field, so the round trip holds exactly when old|i = 63; refuted otherwise. The builder only writes over 0 (with 63) and over 63."
 },
 "C18": {
  "note": "Set header, parameters and tile header are read by encoding/binary (binary.Read); its field-by-field behaviour is written down in Model/Serial.v."
 },
 "C19": {
  "status": "partial",
  "note": "Holds for tiles without off-mesh connections. With them the code writes and reads Flags/Side at absolute offsets 30/31 (refuted); C19_tile_data_offmesh_exact says precisely what is read back instead."
 },
 "C11": {
  "note": "Histories in which the slot is not overwritten with an explicit lastRef. The bound is exact (C11_salt_cycle_exact)."
 },
 "C12": {
  "note": "If the slot is taken the program ends with log.Fatalln (C12_slot_taken_exits)."
 },
 "C13": {
  "note": "With no free slot AddTile does not return an error but ends the program (log.Fatalln), see C13_add_iff_free_slot. Tile data with off-mesh connections can panic (queryPolygonsInTile), hence the guard."
 },
 "C15": {
  "note": "With too few link slots a suffix of the links is there (the first edges are missing)."
 },
 "C62": {
  "note": "More than 32 layers at a location are excluded because AddTile and RemoveTile look at 32 neighbours only."
 },
 "C20": {
  "note": "Tiles without off-mesh connections (see C19), reader returning whole buffers: Decode uses one Read per tile, refuted for short reads. Links are rebuilt by AddTile; their order depends on the order of additions and is not claimed."
 },
 "C21": {
  "note": "sort.Slice is a parameter: any function returning a permutation. Boxes are the uint16 boxes; createBVTree for the DetailMeshes branch (the other branch panics with UNTESTED in the code)."
 },
 "C22": {
  "note": "C22_tree_query: query.go over a tree; C22_padded_tree: what the zero padding node of CreateNavMeshData adds (C22_once_refuted: polygon 0 reported twice on such a tile). The copy of the query in mesh.go is off by one: C22_mesh_query_shifted / C22_mesh_query_refuted."
 },
 "C23": {
  "note": "Both branches (BV tree, linear scan), for every callback. Linear scan requires no off-mesh polygon in the tile (C23_offmesh_scan_refuted: log.Fatalf) and vertex slices below 65536 floats (uint16 index arithmetic). C23_collect_refuted: collectPolysQuery.process always ends the program."
 },
 "C32": {
  "note": "Candidates are characterised by C32_candidates (tiles of the spanned cells, at most 32 per cell as in TilesAt) and C22/C23 per tile. Ref 0 is returned iff no candidate has a measure below MaxFloat32 (float comparison, NaN included)."
 },
 "C24": {
  "note": "every mesh value, filter, cost function (including NaN and negative costs), pool of at least 4 nodes, buffer; holds for every call that returns. The query object is any state reached from NewNavMeshQuery by FindPath calls.",
  "status": "proved"
 },
 "C25": {
  "note": "exact status flags; OutOfNodes implies a full pool and a reachable polygon without node; partial without OutOfNodes implies that endRef is unreachable; invalid parameters leave everything unchanged",
  "status": "proved"
 },
 "C26": {
  "note": "The fuel of the model only bounds loops; the theorems say the result is the same for all large fuel. Float rounding of cost sums is part of the proof. Negative and NaN costs refuted (C26_negative_costs_refuted, C26_nan_costs_refuted)."
 },
 "C31": {
  "note": "Exact arithmetic (numQ instance of the code); rounding not covered. All four variants of the code.",
  "status": "proved"
 },
 "C34": {
  "note": "float32 comparisons. Refuted: closed bounds (a point on the upper bound is outside), swapped bounds.",
  "status": "proved"
 },
 "C35": {
  "note": "Exact arithmetic. 'Inside' is 'on the inner side of every edge', which for a convex polygon is the polygon. Refuted without the guard on nearly parallel edges.",
  "status": "proved"
 },
 "C50": {
  "note": "Against rational segments and lines. Refuted: equal end points, coordinates up to 65535 (int32 overflow).",
  "status": "proved"
 },
 "C57": {
  "note": "The volumes stored, with those deleted, are a permutation of those added. Refuted: deleting from an empty table (panic).",
  "status": "proved"
 },
 "C58": {
  "note": "Against an unlimited log; Sprintf is the input.",
  "status": "proved"
 },
 "C59": {
  "note": "gobj.Decode is external (its result is the input). Refuted: a second Load on the same loader can panic.",
  "status": "proved"
 },
 "C63": {
  "note": "float32. Refuted: NVerts as stored by AddConvexVolume (a count of floats) marks columns outside the triangle or panics for five vertices, and with the documented vertex count nothing is marked.",
  "status": "proved"
 },
 "C51": {
  "note": "Cutting corners off the index cycle; area follows from additivity of the shoelace formula. Independent of which ear is chosen.",
  "status": "proved"
 },
 "C52": {
  "note": "C52_same_direction_refuted and C52_large_index_refuted show that both guards are needed: the code also matches edges with the same direction, and computes vertex offsets in uint16.",
  "status": "proved"
 },
 "C53": {
  "note": "Invariant over the linked edge lists; edges of more than two polygons included.",
  "status": "proved"
 },
 "C54": {
  "note": "Refinement of the hash table to a scan of all vertices. C54_both_sides_refuted: the tolerance is one-sided.",
  "status": "proved"
 },
 "C56": {
  "note": "Closed form of the spiral; invariant of the search, float comparison included.",
  "status": "proved"
 },
 "C46": {
  "note": "for all floats including NaN and infinities, given that the call returns; C46_top_refuted shows the empty span at the topmost height. That the clipping buffers never overflow in floating point is not claimed.",
  "status": "proved"
 },
 "C47": {
  "note": "the array version (offsets into one array, as the aliased slices of rasterizeTri) is refined to lists for every arithmetic; the geometric part is for rational arithmetic",
  "status": "proved"
 },
 "C45": {
  "note": "C45_hypothesis shows that built heightfields qualify. C45_overflow_refuted: without the size guard the 8-bit distances wrap and spans in the middle of a large floor are removed (257 x 257 cells, radius 1). C45_radius_refuted: radius 128 removes nothing.",
  "status": "proved"
 },
 "C55": {
  "note": "Build, leaves and rectangle query for float32; the segment query in exact rational arithmetic (rounding of the float32 test is not covered). sort.SliceStable is any rearranging function. C55_chunk_size_refuted: with a chunk size near the largest int32 the sum ntris + trisPerChunk wraps and the program panics.",
  "status": "proved"
 },
 "C60": {
  "note": "C60_triangulateHull: any float32 positions including NaN and infinities. C60_first_triangle / C60_shortest_ear_refuted: dmin starts with 0, so the ear search of meshdetail.go:745-761 is dead code and the comment's claim is false.",
  "status": "proved"
 },
 "C48": {
  "note": "The guards are needed: a row with max(w,h) runs overruns the sweeps array, already for a 1x1 field (C48_few_runs_refuted), and with walkableClimb > walkableHeight two floors of one cell can share a region (C48_no_overlap_refuted). C48_mutual_hypothesis: fields built with climb <= height meet the last guard.",
  "status": "proved"
 },
 "C49": {
  "note": "Full statement about the model of collecting, filtering, merging and renumbering regions, and of BuildRegionsMonotone. That every number up to MaxRegions is used by a span is false (C49_all_used_refuted): unused table entries get numbers too.",
  "status": "proved"
 },
 "C64": {
  "note": "Monotonicity of float32 subtraction, multiplication and truncation is proved (Proofs/FloatMono.v). C64_above_refuted and C64_far_refuted show that the provisos cannot be dropped."
 },
 "C33": {
  "note": "Whole function modelled (classification of connections, counts, sections, tree, bytes) and compared with a list specification of header and tile; connections come back damaged as in C19. Panics without BuildBvTree (buffer 32 bytes per polygon too short) and without detail meshes (panic UNTESTED).",
  "status": "proved"
 },
 "C30": {
  "note": "T and PathCost of the hit structure are not reset by the code (C30_stale_refuted); on a mesh where a polygon is linked to itself the call never returns (C30_endless_refuted). startRef itself is not asked to pass the filter."
 },
 "C29": {
  "note": "Every returning call, for any mesh, corridor, floats (NaN included), options and approximate equality: C29_buffers, C29_full. The broken-corridor branch ignores the status of appendPortals and can write behind a full buffer, which panics: C29_panic_refuted.",
  "status": "proved"
 },
 "C65": {
  "note": "C65_points gives the shape of the result (spec: outcome, along, portal in Spec/StraightSpec.v), C65_ends the bound on iterations. Hypotheses: reflexive approximate equality on finite positions, coordinates at most 2^60, link lists that end.",
  "status": "proved"
 },
 "C66": {
  "note": "C66_nearest; ties are between equally distant edges (C66_tie).",
  "status": "proved"
 },
 "C27": {
  "note": "UpdateSlicedFindPath is modelled with its any-angle steps (Raycast as of C30). C27_slices: two calls equal one call with both budgets (query, status, doneIters), for all states, also for panics; C27_budgets/C27_result: any budgets with the same sum give the same query and the same delivered path. C27_ray_fields justifies that the reused hit structure is modelled as fresh for each ray.",
  "status": "proved"
 },
 "C28": {
  "note": "Proved with the stated conditions on the mesh; C28_triangle_refuted and C28_sides_refuted show that they are needed: the sliced search skips neighbours that the parent of a node is linked to, and keeps one node per polygon instead of one per polygon and side.",
  "status": "proved"
 },
 "C67": {
  "note": "C67_path (prefix of a corridor, exact flags), C67_complete, C67_ends, C67_returns for any list of budgets. maxPath has to be at most the length of the buffer (Go would panic otherwise) and positive. C67_no_search_refuted: on a query object without a search FinalizeSlicedFindPath reports success with path [0].",
  "status": "proved"
 },
 "C68": {
  "note": "C68_opposite needs borders without repeated places; splitting may leave raw points farther away than maxError, which is why the error bound is about the list before splitting. Coordinates are integers of the model, differences and squares wrap to int32 as in the code."
 },
 "C69": {
  "note": "C69_monotone composes with BuildRegionsMonotone; C69_short: regions of at most 9999 spans satisfy the length condition",
  "status": "proved"
 },
 "C70": {
  "note": "refuted beside it: one contour per region (holes are never merged), no panic for many holes, no double points for three equal ones",
  "status": "proved"
 },
 "C71": {
  "note": "BuildPolyMesh without marked vertices, for total vertices * nvp <= 65535 (beyond, the 16 bit numbers of the adjacency table overflow). Polygons with repeated vertex numbers (contours touching themselves) keep validity, region, area and vertex sets, but the claims on edges and areas ask for distinct numbers."
 },
 "C72": {
  "note": "Proved with the guards that all vertex offsets and edges fit 16 bits. That the test of canRemoveVertex rules out panics is false: C72_no_panic_refuted (overlapping polygons)."
 },
 "C73": {
  "note": "Proved as stated. Refuted: that BuildPolyMesh never panics (C73_no_panic_refuted, overlapping contours), and that its polygons have distinct vertices (C73_distinct_refuted: around an inner vertex the walk closes and its first vertex occurs twice)."
 },
 "C74": {
  "note": "The table describes every float32 input; the choice of the third corner is stated with the float32 circle (circle3). The covering of the hull is proved when the table is complete (every face on three sides, outside only along the hull); without that condition C74_area_refuted shows overlapping triangles, and C74_no_panic_refuted shows the panic with a convex hull and points strictly inside.",
  "status": "proved"
 },
 "C75": {
  "note": "Exact arithmetic (numQ instance of the same functions that numF runs); flags in float32.",
  "status": "proved"
 },
 "C76": {
  "note": "Field well-formed as in C33 and the following, patch inside the field, heights below 65535 (the package's limit is 8191). Vertex numbers up to 21844: poly[j]*3+2 is computed in 16 bits. int32 sums of coordinates that would wrap are outside slices and are not modelled."
 },
 "C77": {
  "note": "C77_no_panic_refuted: with sane heights, a square, sample distance 2 and error 1 the call panics (a Delaunay face on one side only). C77_no_sampling_panics: sample distance 0 always panics. Seamless needs the same heights on both sides and at most 95 vertices used before."
 },
 "C78": {
  "note": "C78_vertex_wrap_refuted: from vertex 21846 on the 16-bit product reads another vertex. The panics of buildPolyDetail are those of C77_detail."
 },
 "C80": {
  "note": "Assumes short outlines (below the limit of the walk; shown for fields of up to 9999 spans) and few region runs, as C48 and C69 do. Monotone partitioning, as in the samples."
 },
 "C81": {
  "note": "From the compact heightfield to the bytes of the tile. Guards: those of C80, at most six vertices per polygon, extra detail vertices with at most 65535 coordinates (a 16-bit limit, see C33), connections in range. With connections the vertices, and direction and side of a connection, are not stated (C33: reading them back is wrong); which heights let a connection in is in C33. sort.Sort is any permuting function; adding the tile to a mesh is in C10-C13.",
  "status": "proved"
 },
 "C82": {
  "note": "mergeRegionHoles by itself, with sort functions as arguments; not claimed: that the joining segment avoids the outline, which vertices besides vertex 0 are candidates (one mutant of collect survives), that a call with several holes returns; that the segment is the shortest clear one is refuted",
  "status": "proved"
 }
}