{
 "claims": [
  {
   "property": "C01",
   "status": "proved",
   "theorems": [
    "C01_status_base",
    "C01_status_detail_neutral",
    "C01_status_detail"
   ],
   "note": ""
  },
  {
   "property": "C02",
   "status": "proved",
   "theorems": [
    "C02_area_type_fields",
    "C02_area_type_history",
    "C02_setters_frame"
   ],
   "note": ""
  },
  {
   "property": "C03",
   "status": "proved",
   "theorems": [
    "C03_pass_filter",
    "C03_setters",
    "C03_area_cost",
    "C03_cost_uses_area"
   ],
   "note": ""
  },
  {
   "property": "C04",
   "status": "proved",
   "theorems": [
    "C04_overlap_quant",
    "C04_overlap_bounds",
    "C04_recast_overlap_bounds",
    "C04_overlap_rect"
   ],
   "note": ""
  },
  {
   "property": "C05",
   "status": "proved",
   "theorems": [
    "C05_decode_encode",
    "C05_encode_injective",
    "C05_ref_not_null",
    "C05_encode_decode",
    "C05_init_bits_ok"
   ],
   "note": ""
  },
  {
   "property": "C06",
   "status": "proved",
   "theorems": [
    "C06_init_accepts",
    "C06_init_accepts_refuted",
    "C06_wrapped_init_confuses_refs_refuted"
   ],
   "note": "The guard (widths sum to at most 32) is needed: without it the uint32 subtraction wraps and Init accepts parameters that leave no salt, see the _refuted theorems."
  },
  {
   "property": "C07",
   "status": "proved",
   "theorems": [
    "C07_pool_refines_map",
    "C07_new_node_fields",
    "C07_tiny_pool_refuted"
   ],
   "note": "Pos of a recycled node is not reset by the code (C07_new_node_fields). A pool with hash size 0, which a query with maxNodes < 4 creates, panics (C07_tiny_pool_refuted)."
  },
  {
   "property": "C08",
   "status": "proved",
   "theorems": [
    "C08_idx_inverse",
    "C08_idx_nil",
    "C08_at_idx"
   ],
   "note": ""
  },
  {
   "property": "C09",
   "status": "proved",
   "theorems": [
    "C09_priority_queue",
    "C09_nan_refuted"
   ],
   "note": "Totals must not be NaN, see C09_nan_refuted."
  },
  {
   "property": "C10",
   "status": "proved",
   "theorems": [
    "C10_TileAt",
    "C10_TileAt_finds",
    "C10_unique_location",
    "C10_TilesAt"
   ],
   "note": ""
  },
  {
   "property": "C11",
   "status": "proved",
   "theorems": [
    "C11_accepted_while_loaded",
    "C11_rejected_after_removal",
    "C11_dead_at_once",
    "C11_salt_cycle_exact"
   ],
   "note": "Histories in which the slot is not overwritten with an explicit lastRef. The bound is exact (C11_salt_cycle_exact)."
  },
  {
   "property": "C12",
   "status": "proved",
   "theorems": [
    "C12_readd_restores_reference",
    "C12_remove_then_readd",
    "C12_slot_taken_exits"
   ],
   "note": "If the slot is taken the program ends with log.Fatalln (C12_slot_taken_exits)."
  },
  {
   "property": "C13",
   "status": "proved",
   "theorems": [
    "C13_slots_conserved",
    "C13_add_iff_free_slot",
    "C13_location_taken",
    "C13_remove_returns_slot"
   ],
   "note": "With no free slot AddTile does not return an error but ends the program (log.Fatalln), see C13_add_iff_free_slot. Tile data with off-mesh connections can panic (queryPolygonsInTile), hence the guard."
  },
  {
   "property": "C14",
   "status": "proved",
   "theorems": [
    "C14_links_partitioned",
    "C14_alloc",
    "C14_free"
   ],
   "note": ""
  },
  {
   "property": "C15",
   "status": "proved",
   "theorems": [
    "C15_internal_links"
   ],
   "note": "With too few link slots a suffix of the links is there (the first edges are missing)."
  },
  {
   "property": "C16",
   "status": "proved",
   "theorems": [
    "C16_unconnect_exact"
   ],
   "note": ""
  },
  {
   "property": "C17",
   "status": "proved",
   "theorems": [
    "C17_opposite_involution",
    "C17_neighbour_back",
    "C17_neighbours_distinct"
   ],
   "note": ""
  },
  {
   "property": "C18",
   "status": "proved",
   "theorems": [
    "C18_mesh_header",
    "C18_set_header",
    "C18_params",
    "C18_tile_header",
    "C18_small_buffer_panics"
   ],
   "note": "Set header, parameters and tile header are read by encoding/binary (binary.Read); its field-by-field behaviour is written down in Model/Serial.v."
  },
  {
   "property": "C19",
   "status": "partial",
   "theorems": [
    "C19_tile_data_partial",
    "C19_tile_data_offmesh_exact",
    "C19_tile_data_offmesh_refuted"
   ],
   "note": "Holds for tiles without off-mesh connections. With them the code writes and reads Flags/Side at absolute offsets 30/31 (refuted); C19_tile_data_offmesh_exact says precisely what is read back instead."
  },
  {
   "property": "C20",
   "status": "proved",
   "theorems": [
    "C20_save_and_load",
    "C20_references_survive",
    "C20_short_read_refuted"
   ],
   "note": "Tiles without off-mesh connections (see C19), reader returning whole buffers: Decode uses one Read per tile, refuted for short reads. Links are rebuilt by AddTile; their order depends on the order of additions and is not claimed."
  },
  {
   "property": "C21",
   "status": "proved",
   "theorems": [
    "C21_tree",
    "C21_createBVTree"
   ],
   "note": "sort.Slice is a parameter: any function returning a permutation. Boxes are the uint16 boxes; createBVTree for the DetailMeshes branch (the other branch panics with UNTESTED in the code)."
  },
  {
   "property": "C22",
   "status": "proved",
   "theorems": [
    "C22_tree_query",
    "C22_padded_tree",
    "C22_once_refuted",
    "C22_mesh_query_shifted",
    "C22_mesh_query_refuted"
   ],
   "note": "C22_tree_query: query.go over a tree; C22_padded_tree: what the zero padding node of CreateNavMeshData adds (C22_once_refuted: polygon 0 reported twice on such a tile). The copy of the query in mesh.go is off by one: C22_mesh_query_shifted / C22_mesh_query_refuted."
  },
  {
   "property": "C23",
   "status": "proved",
   "theorems": [
    "C23_batches_tree",
    "C23_batches_scan",
    "C23_offmesh_scan_refuted",
    "C23_collect_refuted"
   ],
   "note": "Both branches (BV tree, linear scan), for every callback. Linear scan requires no off-mesh polygon in the tile (C23_offmesh_scan_refuted: log.Fatalf) and vertex slices below 65536 floats (uint16 index arithmetic). C23_collect_refuted: collectPolysQuery.process always ends the program."
  },
  {
   "property": "C24",
   "status": "proved",
   "theorems": [
    "C24_path"
   ],
   "note": "every mesh value, filter, cost function (including NaN and negative costs), pool of at least 4 nodes, buffer; holds for every call that returns. The query object is any state reached from NewNavMeshQuery by FindPath calls."
  },
  {
   "property": "C25",
   "status": "proved",
   "theorems": [
    "C25_flags",
    "C25_out_of_nodes",
    "C25_complete",
    "C25_invalid"
   ],
   "note": "exact status flags; OutOfNodes implies a full pool and a reachable polygon without node; partial without OutOfNodes implies that endRef is unreachable; invalid parameters leave everything unchanged"
  },
  {
   "property": "C26",
   "status": "proved",
   "theorems": [
    "C26_terminates",
    "C26_returns",
    "C26_standard_filter",
    "C26_new_query",
    "C26_negative_costs_refuted",
    "C26_nan_costs_refuted"
   ],
   "note": "The fuel of the model only bounds loops; the theorems say the result is the same for all large fuel. Float rounding of cost sums is part of the proof. Negative and NaN costs refuted (C26_negative_costs_refuted, C26_nan_costs_refuted)."
  },
  {
   "property": "C27",
   "status": "proved",
   "theorems": [
    "C27_slices",
    "C27_budgets",
    "C27_result",
    "C27_ray_fields"
   ],
   "note": "UpdateSlicedFindPath is modelled with its any-angle steps (Raycast as of C30). C27_slices: two calls equal one call with both budgets (query, status, doneIters), for all states, also for panics; C27_budgets/C27_result: any budgets with the same sum give the same query and the same delivered path. C27_ray_fields justifies that the reused hit structure is modelled as fresh for each ray."
  },
  {
   "property": "C28",
   "status": "proved",
   "theorems": [
    "C28_same_path",
    "C28_invalid",
    "C28_triangle_refuted",
    "C28_sides_refuted"
   ],
   "note": "Proved with the stated conditions on the mesh; C28_triangle_refuted and C28_sides_refuted show that they are needed: the sliced search skips neighbours that the parent of a node is linked to, and keeps one node per polygon instead of one per polygon and side."
  },
  {
   "property": "C29",
   "status": "proved",
   "theorems": [
    "C29_buffers",
    "C29_full",
    "C29_panic_refuted"
   ],
   "note": "Every returning call, for any mesh, corridor, floats (NaN included), options and approximate equality: C29_buffers, C29_full. The broken-corridor branch ignores the status of appendPortals and can write behind a full buffer, which panics: C29_panic_refuted."
  },
  {
   "property": "C30",
   "status": "proved",
   "theorems": [
    "C30_raycast",
    "C30_trace_unique",
    "C30_corridor",
    "C30_independent",
    "C30_raycast2",
    "C30_invalid",
    "C30_stale_refuted",
    "C30_endless_refuted"
   ],
   "note": "T and PathCost of the hit structure are not reset by the code (C30_stale_refuted); on a mesh where a polygon is linked to itself the call never returns (C30_endless_refuted). startRef itself is not asked to pass the filter."
  },
  {
   "property": "C31",
   "status": "proved",
   "theorems": [
    "C31_detour",
    "C31_recast_2d",
    "C31_recast_3d",
    "C31_contour"
   ],
   "note": "Exact arithmetic (numQ instance of the code); rounding not covered. All four variants of the code."
  },
  {
   "property": "C32",
   "status": "proved",
   "theorems": [
    "C32_candidates",
    "C32_nearest"
   ],
   "note": "Candidates are characterised by C32_candidates (tiles of the spanned cells, at most 32 per cell as in TilesAt) and C22/C23 per tile. Ref 0 is returned iff no candidate has a measure below MaxFloat32 (float comparison, NaN included)."
  },
  {
   "property": "C33",
   "status": "proved",
   "theorems": [
    "C33_create",
    "C33_quant_factor",
    "C33_rejects",
    "C33_needs_tree_and_details"
   ],
   "note": "Whole function modelled (classification of connections, counts, sections, tree, bytes) and compared with a list specification of header and tile; connections come back damaged as in C19. Panics without BuildBvTree (buffer 32 bytes per polygon too short) and without detail meshes (panic UNTESTED)."
  },
  {
   "property": "C34",
   "status": "proved",
   "theorems": [
    "C34_classify",
    "C34_closed_bounds_refuted",
    "C34_swapped_bounds_refuted"
   ],
   "note": "float32 comparisons. Refuted: closed bounds (a point on the upper bound is outside), swapped bounds."
  },
  {
   "property": "C35",
   "status": "proved",
   "theorems": [
    "C35_interval",
    "C35_edge_numbers",
    "C35_near_parallel_refuted"
   ],
   "note": "Exact arithmetic. 'Inside' is 'on the inner side of every edge', which for a convex polygon is the polygon. Refuted without the guard on nearly parallel edges."
  },
  {
   "property": "C36",
   "status": "proved",
   "theorems": [
    "C36_columns_wf",
    "C36_other_columns",
    "C36_insert_shape"
   ],
   "note": ""
  },
  {
   "property": "C37",
   "status": "proved",
   "theorems": [
    "C37_union",
    "C37_order_independent",
    "C37_area_order_refuted"
   ],
   "note": "Extents only; areas of merged spans depend on the insertion order (C37_area_order_refuted)."
  },
  {
   "property": "C38",
   "status": "proved",
   "theorems": [
    "C38_low_hanging"
   ],
   "note": ""
  },
  {
   "property": "C39",
   "status": "proved",
   "theorems": [
    "C39_ledge"
   ],
   "note": ""
  },
  {
   "property": "C40",
   "status": "proved",
   "theorems": [
    "C40_low_ceiling"
   ],
   "note": ""
  },
  {
   "property": "C41",
   "status": "proved",
   "theorems": [
    "C41_layout",
    "C41_count_wrap_refuted"
   ],
   "note": "Guard: at most 255 walkable spans per column, since Count is 8 bits (C41_count_wrap_refuted)."
  },
  {
   "property": "C42",
   "status": "proved",
   "theorems": [
    "C42_connection_exact",
    "C42_mutual",
    "C42_mutual_refuted"
   ],
   "note": "Mutuality needs walkableClimb <= walkableHeight (C42_mutual_refuted otherwise) and at most 63 walkable spans per column."
  },
  {
   "property": "C43",
   "status": "partial",
   "theorems": [
    "C43_setcon_partial",
    "C43_roundtrip_refuted"
   ],
   "note": "SetCon or-s the value into the complemented old field, so the round trip holds exactly when old|i = 63; refuted otherwise. The builder only writes over 0 (with 63) and over 63."
  },
  {
   "property": "C44",
   "status": "proved",
   "theorems": [
    "C44_directions",
    "C44_periodic"
   ],
   "note": ""
  },
  {
   "property": "C45",
   "status": "proved",
   "theorems": [
    "C45_hypothesis",
    "C45_only_removes",
    "C45_border_removed",
    "C45_exact",
    "C45_far_kept",
    "C45_radius_refuted",
    "C45_overflow_refuted"
   ],
   "note": "C45_hypothesis shows that built heightfields qualify. C45_overflow_refuted: without the size guard the 8-bit distances wrap and spans in the middle of a large floor are removed (257 x 257 cells, radius 1). C45_radius_refuted: radius 128 removes nothing."
  },
  {
   "property": "C46",
   "status": "proved",
   "theorems": [
    "C46_triangle",
    "C46_triangles",
    "C46_top_refuted"
   ],
   "note": "for all floats including NaN and infinities, given that the call returns; C46_top_refuted shows the empty span at the topmost height. That the clipping buffers never overflow in floating point is not claimed."
  },
  {
   "property": "C47",
   "status": "proved",
   "theorems": [
    "C47_divide"
   ],
   "note": "the array version (offsets into one array, as the aliased slices of rasterizeTri) is refined to lists for every arithmetic; the geometric part is for rational arithmetic"
  },
  {
   "property": "C48",
   "status": "proved",
   "theorems": [
    "C48_values",
    "C48_connected",
    "C48_no_overlap",
    "C48_mutual_hypothesis",
    "C48_no_overlap_refuted",
    "C48_few_runs_refuted"
   ],
   "note": "The guards are needed: a row with max(w,h) runs overruns the sweeps array, already for a 1x1 field (C48_few_runs_refuted), and with walkableClimb > walkableHeight two floors of one cell can share a region (C48_no_overlap_refuted). C48_mutual_hypothesis: fields built with climb <= height meet the last guard."
  },
  {
   "property": "C49",
   "status": "proved",
   "theorems": [
    "C49_renaming",
    "C49_connected",
    "C49_large_kept",
    "C49_small_removed",
    "C49_no_overlaps",
    "C49_build",
    "C49_all_used_refuted"
   ],
   "note": "Full statement about the model of collecting, filtering, merging and renumbering regions, and of BuildRegionsMonotone. That every number up to MaxRegions is used by a span is false (C49_all_used_refuted): unused table entries get numbers too."
  },
  {
   "property": "C50",
   "status": "proved",
   "theorems": [
    "C50_left",
    "C50_between",
    "C50_intersectProp",
    "C50_intersect",
    "C50_cyclic",
    "C50_swap",
    "C50_degenerate_refuted",
    "C50_overflow_refuted"
   ],
   "note": "Against rational segments and lines. Refuted: equal end points, coordinates up to 65535 (int32 overflow)."
  },
  {
   "property": "C51",
   "status": "proved",
   "theorems": [
    "C51_triangulate"
   ],
   "note": "Cutting corners off the index cycle; area follows from additivity of the shoelace formula. Independent of which ear is chosen."
  },
  {
   "property": "C52",
   "status": "proved",
   "theorems": [
    "C52_merge",
    "C52_value",
    "C52_same_direction_refuted",
    "C52_large_index_refuted"
   ],
   "note": "C52_same_direction_refuted and C52_large_index_refuted show that both guards are needed: the code also matches edges with the same direction, and computes vertex offsets in uint16."
  },
  {
   "property": "C53",
   "status": "proved",
   "theorems": [
    "C53_symmetric",
    "C53_complete"
   ],
   "note": "Invariant over the linked edge lists; edges of more than two polygons included."
  },
  {
   "property": "C54",
   "status": "proved",
   "theorems": [
    "C54_welded",
    "C54_meaning",
    "C54_both_sides_refuted"
   ],
   "note": "Refinement of the hash table to a scan of all vertices. C54_both_sides_refuted: the tolerance is one-sided."
  },
  {
   "property": "C55",
   "status": "proved",
   "theorems": [
    "C55_build",
    "C55_one_leaf",
    "C55_rect_query",
    "C55_rect_finds",
    "C55_segment_query",
    "C55_meets_exact",
    "C55_chunk_size_refuted"
   ],
   "note": "Build, leaves and rectangle query for float32; the segment query in exact rational arithmetic (rounding of the float32 test is not covered). sort.SliceStable is any rearranging function. C55_chunk_size_refuted: with a chunk size near the largest int32 the sum ntris + trisPerChunk wraps and the program panics."
  },
  {
   "property": "C56",
   "status": "proved",
   "theorems": [
    "C56_walk",
    "C56_height"
   ],
   "note": "Closed form of the spiral; invariant of the search, float comparison included."
  },
  {
   "property": "C57",
   "status": "proved",
   "theorems": [
    "C57_add",
    "C57_delete",
    "C57_history",
    "C57_delete_empty_refuted"
   ],
   "note": "The volumes stored, with those deleted, are a permutation of those added. Refuted: deleting from an empty table (panic)."
  },
  {
   "property": "C58",
   "status": "proved",
   "theorems": [
    "C58_log",
    "C58_disabled"
   ],
   "note": "Against an unlimited log; Sprintf is the input."
  },
  {
   "property": "C59",
   "status": "proved",
   "theorems": [
    "C59_load",
    "C59_fan",
    "C59_second_load_refuted"
   ],
   "note": "gobj.Decode is external (its result is the input). Refuted: a second Load on the same loader can panic."
  },
  {
   "property": "C60",
   "status": "proved",
   "theorems": [
    "C60_triangulateHull",
    "C60_first_triangle",
    "C60_shortest_ear_refuted"
   ],
   "note": "C60_triangulateHull: any float32 positions including NaN and infinities. C60_first_triangle / C60_shortest_ear_refuted: dmin starts with 0, so the ear search of meshdetail.go:745-761 is dead code and the comment's claim is false."
  },
  {
   "property": "C61",
   "status": "partial",
   "theorems": [
    "C61_failure_message",
    "C61_no_false_failure",
    "C61_in_progress_message_refuted"
   ],
   "note": "The message of a status in progress that carries details is wrong in the code (refuted); failure messages are proved."
  },
  {
   "property": "C62",
   "status": "proved",
   "theorems": [
    "C62_links_valid"
   ],
   "note": "More than 32 layers at a location are excluded because AddTile and RemoveTile look at 32 neighbours only."
  },
  {
   "property": "C63",
   "status": "proved",
   "theorems": [
    "C63_mark",
    "C63_vertex_count_refuted",
    "C63_stored_volume_refuted",
    "C63_five_vertices_refuted"
   ],
   "note": "float32. Refuted: NVerts as stored by AddConvexVolume (a count of floats) marks columns outside the triangle or panics for five vertices, and with the documented vertex count nothing is marked."
  },
  {
   "property": "C64",
   "status": "proved",
   "theorems": [
    "C64_conservative",
    "C64_above_refuted",
    "C64_far_refuted"
   ],
   "note": "Monotonicity of float32 subtraction, multiplication and truncation is proved (Proofs/FloatMono.v). C64_above_refuted and C64_far_refuted show that the provisos cannot be dropped."
  },
  {
   "property": "C65",
   "status": "proved",
   "theorems": [
    "C65_points",
    "C65_ends"
   ],
   "note": "C65_points gives the shape of the result (spec: outcome, along, portal in Spec/StraightSpec.v), C65_ends the bound on iterations. Hypotheses: reflexive approximate equality on finite positions, coordinates at most 2^60, link lists that end."
  },
  {
   "property": "C66",
   "status": "proved",
   "theorems": [
    "C66_nearest",
    "C66_tie"
   ],
   "note": "C66_nearest; ties are between equally distant edges (C66_tie)."
  },
  {
   "property": "C67",
   "status": "proved",
   "theorems": [
    "C67_path",
    "C67_complete",
    "C67_ends",
    "C67_returns",
    "C67_no_search_refuted"
   ],
   "note": "C67_path (prefix of a corridor, exact flags), C67_complete, C67_ends, C67_returns for any list of budgets. maxPath has to be at most the length of the buffer (Go would panic otherwise) and positive. C67_no_search_refuted: on a query object without a search FinalizeSlicedFindPath reports success with path [0]."
  },
  {
   "property": "C68",
   "status": "proved",
   "theorems": [
    "C68_simplify",
    "C68_opposite"
   ],
   "note": "C68_opposite needs borders without repeated places; splitting may leave raw points farther away than maxError, which is why the error bound is about the list before splitting. Coordinates are integers of the model, differences and squares wrap to int32 as in the code."
  },
  {
   "property": "C69",
   "status": "proved",
   "theorems": [
    "C69_outlines",
    "C69_short",
    "C69_monotone",
    "C69_same_area_refuted"
   ],
   "note": "C69_monotone composes with BuildRegionsMonotone; C69_short: regions of at most 9999 spans satisfy the length condition"
  },
  {
   "property": "C70",
   "status": "proved",
   "theorems": [
    "C70_stored",
    "C70_degenerate",
    "C70_no_double_refuted",
    "C70_one_contour_refuted",
    "C70_no_panic_refuted"
   ],
   "note": "refuted beside it: one contour per region (holes are never merged), no panic for many holes, no double points for three equal ones"
  },
  {
   "property": "C71",
   "status": "proved",
   "theorems": [
    "C71_fills",
    "C71_too_many",
    "C71_origin"
   ],
   "note": "BuildPolyMesh without marked vertices, for total vertices * nvp <= 65535 (beyond, the 16 bit numbers of the adjacency table overflow). Polygons with repeated vertex numbers (contours touching themselves) keep validity, region, area and vertex sets, but the claims on edges and areas ask for distinct numbers."
  },
  {
   "property": "C72",
   "status": "proved",
   "theorems": [
    "C72_can",
    "C72_removes",
    "C72_chain",
    "C72_no_panic_refuted"
   ],
   "note": "Proved with the guards that all vertex offsets and edges fit 16 bits. That the test of canRemoveVertex rules out panics is false: C72_no_panic_refuted (overlapping polygons)."
  },
  {
   "property": "C73",
   "status": "proved",
   "theorems": [
    "C73_builds",
    "C73_keeps",
    "C73_origin",
    "C73_no_panic_refuted",
    "C73_distinct_refuted"
   ],
   "note": "Proved as stated. Refuted: that BuildPolyMesh never panics (C73_no_panic_refuted, overlapping contours), and that its polygons have distinct vertices (C73_distinct_refuted: around an inner vertex the walk closes and its first vertex occurs twice)."
  },
  {
   "property": "C74",
   "status": "proved",
   "theorems": [
    "C74_delaunay",
    "C74_area",
    "C74_area_refuted",
    "C74_no_panic_refuted"
   ],
   "note": "The table describes every float32 input; the choice of the third corner is stated with the float32 circle (circle3). The covering of the hull is proved when the table is complete (every face on three sides, outside only along the hull); without that condition C74_area_refuted shows overlapping triangles, and C74_no_panic_refuted shows the panic with a convex hull and points strictly inside."
  },
  {
   "property": "C75",
   "status": "proved",
   "theorems": [
    "C75_circumcircle",
    "C75_overlap",
    "C75_distPtTri",
    "C75_flags"
   ],
   "note": "Exact arithmetic (numQ instance of the same functions that numF runs); flags in float32."
  },
  {
   "property": "C76",
   "status": "proved",
   "theorems": [
    "C76_region",
    "C76_center",
    "C76_panic"
   ],
   "note": "Field well-formed as in C33 and the following, patch inside the field, heights below 65535 (the package's limit is 8191). Vertex numbers up to 21844: poly[j]*3+2 is computed in 16 bits. int32 sums of coordinates that would wrap are outside slices and are not modelled."
  },
  {
   "property": "C77",
   "status": "proved",
   "theorems": [
    "C77_detail",
    "C77_result",
    "C77_no_sampling_panics",
    "C77_seamless",
    "C77_no_panic_refuted"
   ],
   "note": "C77_no_panic_refuted: with sane heights, a square, sample distance 2 and error 1 the call panics (a Delaunay face on one side only). C77_no_sampling_panics: sample distance 0 always panics. Seamless needs the same heights on both sides and at most 95 vertices used before."
  },
  {
   "property": "C78",
   "status": "proved",
   "theorems": [
    "C78_detail",
    "C78_empty",
    "C78_vertex_wrap_refuted"
   ],
   "note": "C78_vertex_wrap_refuted: from vertex 21846 on the 16-bit product reads another vertex. The panics of buildPolyDetail are those of C77_detail."
  },
  {
   "property": "C79",
   "status": "proved",
   "theorems": [
    "C79_mark",
    "C79_clear",
    "C79_settled",
    "C79_degenerate",
    "C79_one_side",
    "C79_bounds",
    "C79_gridSize"
   ],
   "note": ""
  },
  {
   "property": "C80",
   "status": "proved",
   "theorems": [
    "C80_field",
    "C80_eroded",
    "C80_marked",
    "C80_regions",
    "C80_contours",
    "C80_mesh",
    "C80_place",
    "C80_builds"
   ],
   "note": "Assumes short outlines (below the limit of the walk; shown for fields of up to 9999 spans) and few region runs, as C48 and C69 do. Monotone partitioning, as in the samples."
  },
  {
   "property": "C81",
   "status": "proved",
   "theorems": [
    "C81_flags",
    "C81_none",
    "C81_tile",
    "C81_builds",
    "C81_added"
   ],
   "note": "From the compact heightfield to the bytes of the tile. Guards: those of C80, at most six vertices per polygon, extra detail vertices with at most 65535 coordinates (a 16-bit limit, see C33), connections in range. With connections the vertices, and direction and side of a connection, are not stated (C33: reading them back is wrong); which heights let a connection in is in C33. sort.Sort is any permuting function; adding the tile to a mesh is in C10-C13."
  },
  {
   "property": "C82",
   "status": "proved",
   "theorems": [
    "C82_leftmost",
    "C82_join",
    "C82_cone",
    "C82_merge",
    "C82_tail_panics",
    "C82_one_hole",
    "C82_nearest_refuted"
   ],
   "note": "mergeRegionHoles by itself, with sort functions as arguments; not claimed: that the joining segment avoids the outline, which vertices besides vertex 0 are candidates (one mutant of collect survives), that a call with several holes returns; that the segment is the shortest clear one is refuted"
  }
 ]
}