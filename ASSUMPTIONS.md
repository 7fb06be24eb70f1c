# Assumptions of the property theorems

Output of `Print Assumptions`, collected by `tools/assumptions.py`.

| theorem | file | Print Assumptions |
|---|---|---|
| `C01_status_base` | DetourBasics | Closed under the global context |
| `C01_status_detail` | DetourBasics | Closed under the global context |
| `C01_status_detail_neutral` | DetourBasics | Closed under the global context |
| `C02_area_type_fields` | DetourBasics | Closed under the global context |
| `C02_area_type_history` | DetourBasics | Closed under the global context |
| `C02_setters_frame` | DetourBasics | Closed under the global context |
| `C03_area_cost` | DetourBasics | Closed under the global context |
| `C03_cost_uses_area` | DetourBasics | Closed under the global context |
| `C03_pass_filter` | DetourBasics | Closed under the global context |
| `C03_setters` | DetourBasics | Closed under the global context |
| `C04_overlap_bounds` | DetourBasics | Closed under the global context |
| `C04_overlap_quant` | DetourBasics | Closed under the global context |
| `C04_overlap_rect` | DetourBasics | Closed under the global context |
| `C04_recast_overlap_bounds` | DetourBasics | Closed under the global context |
| `C05_decode_encode` | DetourBasics | Closed under the global context |
| `C05_encode_decode` | DetourBasics | Closed under the global context |
| `C05_encode_injective` | DetourBasics | Closed under the global context |
| `C05_init_bits_ok` | DetourBasics | Closed under the global context |
| `C05_ref_not_null` | DetourBasics | Closed under the global context |
| `C06_init_accepts` | DetourBasics | Closed under the global context |
| `C06_init_accepts_refuted` | DetourBasics | Closed under the global context |
| `C06_wrapped_init_confuses_refs_refuted` | DetourBasics | Closed under the global context |
| `C07_new_node_fields` | DetourNodes | Closed under the global context |
| `C07_pool_refines_map` | DetourNodes | Closed under the global context |
| `C07_tiny_pool_refuted` | DetourNodes | Closed under the global context |
| `C08_at_idx` | DetourNodes | Closed under the global context |
| `C08_idx_inverse` | DetourNodes | Closed under the global context |
| `C08_idx_nil` | DetourNodes | Closed under the global context |
| `C09_nan_refuted` | DetourNodes | Closed under the global context |
| `C09_priority_queue` | DetourNodes | Closed under the global context |
| `C10_TileAt` | DetourMesh | Closed under the global context |
| `C10_TileAt_finds` | DetourMesh | Closed under the global context |
| `C10_TilesAt` | DetourMesh | Closed under the global context |
| `C10_unique_location` | DetourMesh | Closed under the global context |
| `C11_accepted_while_loaded` | DetourMesh | Closed under the global context |
| `C11_dead_at_once` | DetourMesh | Closed under the global context |
| `C11_rejected_after_removal` | DetourMesh | Closed under the global context |
| `C11_salt_cycle_exact` | DetourMesh | Closed under the global context |
| `C12_readd_restores_reference` | DetourMesh | Closed under the global context |
| `C12_remove_then_readd` | DetourMesh | Closed under the global context |
| `C12_slot_taken_exits` | DetourMesh | Closed under the global context |
| `C13_add_iff_free_slot` | DetourMesh | Closed under the global context |
| `C13_location_taken` | DetourMesh | Closed under the global context |
| `C13_remove_returns_slot` | DetourMesh | Closed under the global context |
| `C13_slots_conserved` | DetourMesh | Closed under the global context |
| `C14_alloc` | DetourMesh | Closed under the global context |
| `C14_free` | DetourMesh | Closed under the global context |
| `C14_links_partitioned` | DetourMesh | Closed under the global context |
| `C15_internal_links` | DetourMesh | Closed under the global context |
| `C16_unconnect_exact` | DetourMesh | Closed under the global context |
| `C17_neighbour_back` | DetourBasics | Closed under the global context |
| `C17_neighbours_distinct` | DetourBasics | Closed under the global context |
| `C17_opposite_involution` | DetourBasics | Closed under the global context |
| `C18_mesh_header` | DetourSerial | Closed under the global context |
| `C18_params` | DetourSerial | Closed under the global context |
| `C18_set_header` | DetourSerial | Closed under the global context |
| `C18_small_buffer_panics` | DetourSerial | Closed under the global context |
| `C18_tile_header` | DetourSerial | Closed under the global context |
| `C19_tile_data_offmesh_exact` | DetourSerial | Closed under the global context |
| `C19_tile_data_offmesh_refuted` | DetourSerial | Closed under the global context |
| `C19_tile_data_partial` | DetourSerial | Closed under the global context |
| `C20_references_survive` | DetourSave | Closed under the global context |
| `C20_save_and_load` | DetourSave | Closed under the global context |
| `C20_short_read_refuted` | DetourSave | Closed under the global context |
| `C21_createBVTree` | DetourBv | Closed under the global context |
| `C21_tree` | DetourBv | Closed under the global context |
| `C22_mesh_query_refuted` | DetourBv | Closed under the global context |
| `C22_mesh_query_shifted` | DetourBv | Closed under the global context |
| `C22_once_refuted` | DetourBv | Closed under the global context |
| `C22_padded_tree` | DetourBv | Closed under the global context |
| `C22_tree_query` | DetourBv | Closed under the global context |
| `C23_batches_scan` | DetourBv | Closed under the global context |
| `C23_batches_tree` | DetourBv | Closed under the global context |
| `C23_collect_refuted` | DetourBv | Closed under the global context |
| `C23_offmesh_scan_refuted` | DetourBv | Closed under the global context |
| `C24_path` | DetourPath | Closed under the global context |
| `C25_complete` | DetourPath | Closed under the global context |
| `C25_flags` | DetourPath | Closed under the global context |
| `C25_invalid` | DetourPath | Closed under the global context |
| `C25_out_of_nodes` | DetourPath | Closed under the global context |
| `C26_nan_costs_refuted` | DetourPathEnd | Closed under the global context |
| `C26_negative_costs_refuted` | DetourPathEnd | Closed under the global context |
| `C26_new_query` | DetourPathEnd | Closed under the global context |
| `C26_returns` | DetourPathEnd | Closed under the global context |
| `C26_standard_filter` | DetourPathEnd | Closed under the global context |
| `C26_terminates` | DetourPathEnd | Closed under the global context |
| `C27_budgets` | DetourSliced | Closed under the global context |
| `C27_ray_fields` | DetourSliced | Closed under the global context |
| `C27_result` | DetourSliced | Closed under the global context |
| `C27_slices` | DetourSliced | Closed under the global context |
| `C28_invalid` | DetourSliced | Closed under the global context |
| `C28_same_path` | DetourSliced | Closed under the global context |
| `C28_sides_refuted` | DetourSliced | Closed under the global context |
| `C28_triangle_refuted` | DetourSliced | Closed under the global context |
| `C29_buffers` | DetourStraight | Closed under the global context |
| `C29_full` | DetourStraight | Closed under the global context |
| `C29_panic_refuted` | DetourStraight | Closed under the global context |
| `C30_corridor` | DetourRay | Closed under the global context |
| `C30_endless_refuted` | DetourRay | Closed under the global context |
| `C30_independent` | DetourRay | Closed under the global context |
| `C30_invalid` | DetourRay | Closed under the global context |
| `C30_raycast` | DetourRay | Closed under the global context |
| `C30_raycast2` | DetourRay | Closed under the global context |
| `C30_stale_refuted` | DetourRay | Closed under the global context |
| `C30_trace_unique` | DetourRay | Closed under the global context |
| `C31_contour` | Geometry | Closed under the global context |
| `C31_detour` | Geometry | Closed under the global context |
| `C31_recast_2d` | Geometry | Closed under the global context |
| `C31_recast_3d` | Geometry | Closed under the global context |
| `C32_candidates` | DetourBv | Closed under the global context |
| `C32_nearest` | DetourBv | Closed under the global context |
| `C33_create` | DetourCreate | Closed under the global context |
| `C33_needs_tree_and_details` | DetourCreate | Closed under the global context |
| `C33_quant_factor` | DetourCreate | Closed under the global context |
| `C33_rejects` | DetourCreate | Closed under the global context |
| `C34_classify` | Geometry | Closed under the global context |
| `C34_closed_bounds_refuted` | Geometry | Closed under the global context |
| `C34_swapped_bounds_refuted` | Geometry | Closed under the global context |
| `C35_edge_numbers` | Geometry | Closed under the global context |
| `C35_interval` | Geometry | Closed under the global context |
| `C35_near_parallel_refuted` | Geometry | Closed under the global context |
| `C36_columns_wf` | RecastHeightfield | Closed under the global context |
| `C36_insert_shape` | RecastHeightfield | Closed under the global context |
| `C36_other_columns` | RecastHeightfield | Closed under the global context |
| `C37_area_order_refuted` | RecastHeightfield | Closed under the global context |
| `C37_order_independent` | RecastHeightfield | Closed under the global context |
| `C37_union` | RecastHeightfield | Closed under the global context |
| `C38_low_hanging` | RecastHeightfield | Closed under the global context |
| `C39_ledge` | RecastHeightfield | Closed under the global context |
| `C40_low_ceiling` | RecastHeightfield | Closed under the global context |
| `C41_count_wrap_refuted` | RecastHeightfield | Closed under the global context |
| `C41_layout` | RecastHeightfield | Closed under the global context |
| `C42_connection_exact` | RecastHeightfield | Closed under the global context |
| `C42_mutual` | RecastHeightfield | Closed under the global context |
| `C42_mutual_refuted` | RecastHeightfield | Closed under the global context |
| `C43_roundtrip_refuted` | RecastHeightfield | Closed under the global context |
| `C43_setcon_partial` | RecastHeightfield | Closed under the global context |
| `C44_directions` | RecastHeightfield | Closed under the global context |
| `C44_periodic` | RecastHeightfield | Closed under the global context |
| `C45_border_removed` | Erode | Closed under the global context |
| `C45_exact` | Erode | Closed under the global context |
| `C45_far_kept` | Erode | Closed under the global context |
| `C45_hypothesis` | Erode | Closed under the global context |
| `C45_only_removes` | Erode | Closed under the global context |
| `C45_overflow_refuted` | Erode | Closed under the global context |
| `C45_radius_refuted` | Erode | Closed under the global context |
| `C46_top_refuted` | Raster | Closed under the global context |
| `C46_triangle` | Raster | Closed under the global context |
| `C46_triangles` | Raster | Closed under the global context |
| `C47_divide` | Raster | Closed under the global context |
| `C48_connected` | Regions | Closed under the global context |
| `C48_few_runs_refuted` | Regions | Closed under the global context |
| `C48_mutual_hypothesis` | Regions | Closed under the global context |
| `C48_no_overlap` | Regions | Closed under the global context |
| `C48_no_overlap_refuted` | Regions | Closed under the global context |
| `C48_values` | Regions | Closed under the global context |
| `C49_all_used_refuted` | RegionMerge | Closed under the global context |
| `C49_build` | RegionMerge | Closed under the global context |
| `C49_connected` | RegionMerge | Closed under the global context |
| `C49_large_kept` | RegionMerge | Closed under the global context |
| `C49_no_overlaps` | RegionMerge | Closed under the global context |
| `C49_renaming` | RegionMerge | Closed under the global context |
| `C49_small_removed` | RegionMerge | Closed under the global context |
| `C50_between` | Geometry | Closed under the global context |
| `C50_cyclic` | Geometry | Closed under the global context |
| `C50_degenerate_refuted` | Geometry | Closed under the global context |
| `C50_intersect` | Geometry | Closed under the global context |
| `C50_intersectProp` | Geometry | Closed under the global context |
| `C50_left` | Geometry | Closed under the global context |
| `C50_overflow_refuted` | Geometry | Closed under the global context |
| `C50_swap` | Geometry | Closed under the global context |
| `C51_triangulate` | PolyMesh | Closed under the global context |
| `C52_large_index_refuted` | PolyMesh | Closed under the global context |
| `C52_merge` | PolyMesh | Closed under the global context |
| `C52_same_direction_refuted` | PolyMesh | Closed under the global context |
| `C52_value` | PolyMesh | Closed under the global context |
| `C53_complete` | PolyMesh | Closed under the global context |
| `C53_symmetric` | PolyMesh | Closed under the global context |
| `C54_both_sides_refuted` | PolyMesh | Closed under the global context |
| `C54_meaning` | PolyMesh | Closed under the global context |
| `C54_welded` | PolyMesh | Closed under the global context |
| `C55_build` | Chunky | Closed under the global context |
| `C55_chunk_size_refuted` | Chunky | Closed under the global context |
| `C55_meets_exact` | Chunky | Closed under the global context |
| `C55_one_leaf` | Chunky | Closed under the global context |
| `C55_rect_finds` | Chunky | Closed under the global context |
| `C55_rect_query` | Chunky | Closed under the global context |
| `C55_segment_query` | Chunky | Closed under the global context |
| `C56_height` | HeightSearch | Closed under the global context |
| `C56_walk` | HeightSearch | Closed under the global context |
| `C57_add` | RecastTools | Closed under the global context |
| `C57_delete` | RecastTools | Closed under the global context |
| `C57_delete_empty_refuted` | RecastTools | Closed under the global context |
| `C57_history` | RecastTools | Closed under the global context |
| `C58_disabled` | RecastTools | Closed under the global context |
| `C58_log` | RecastTools | Closed under the global context |
| `C59_fan` | RecastTools | Closed under the global context |
| `C59_load` | RecastTools | Closed under the global context |
| `C59_second_load_refuted` | RecastTools | Closed under the global context |
| `C60_first_triangle` | Hull | Closed under the global context |
| `C60_shortest_ear_refuted` | Hull | Closed under the global context |
| `C60_triangulateHull` | Hull | Closed under the global context |
| `C61_failure_message` | DetourBasics | Closed under the global context |
| `C61_in_progress_message_refuted` | DetourBasics | Closed under the global context |
| `C61_no_false_failure` | DetourBasics | Closed under the global context |
| `C62_links_valid` | DetourMesh | Closed under the global context |
| `C63_five_vertices_refuted` | RecastTools | Closed under the global context |
| `C63_mark` | RecastTools | Closed under the global context |
| `C63_stored_volume_refuted` | RecastTools | Closed under the global context |
| `C63_vertex_count_refuted` | RecastTools | Closed under the global context |
| `C64_above_refuted` | DetourQuant | Closed under the global context |
| `C64_conservative` | DetourQuant | Closed under the global context |
| `C64_far_refuted` | DetourQuant | Closed under the global context |
| `C65_ends` | DetourStraight | Closed under the global context |
| `C65_points` | DetourStraight | Closed under the global context |
| `C66_nearest` | DetourStraight | Closed under the global context |
| `C66_tie` | DetourStraight | Closed under the global context |
| `C67_complete` | DetourSliced | Closed under the global context |
| `C67_ends` | DetourSliced | Closed under the global context |
| `C67_no_search_refuted` | DetourSliced | Closed under the global context |
| `C67_path` | DetourSliced | Closed under the global context |
| `C67_returns` | DetourSliced | Closed under the global context |
| `C68_opposite` | ContourSimplify | Closed under the global context |
| `C68_simplify` | ContourSimplify | Closed under the global context |
| `C69_monotone` | Contours | Closed under the global context |
| `C69_outlines` | Contours | Closed under the global context |
| `C69_same_area_refuted` | Contours | Closed under the global context |
| `C69_short` | Contours | Closed under the global context |
| `C70_degenerate` | Contours | Closed under the global context |
| `C70_no_double_refuted` | Contours | Closed under the global context |
| `C70_no_panic_refuted` | Contours | Closed under the global context |
| `C70_one_contour_refuted` | Contours | Closed under the global context |
| `C70_stored` | Contours | Closed under the global context |
| `C71_fills` | BuildMesh | Closed under the global context |
| `C71_origin` | BuildMesh | Closed under the global context |
| `C71_too_many` | BuildMesh | Closed under the global context |
| `C72_can` | RemoveVertex | Closed under the global context |
| `C72_chain` | RemoveVertex | Closed under the global context |
| `C72_no_panic_refuted` | RemoveVertex | Closed under the global context |
| `C72_removes` | RemoveVertex | Closed under the global context |
| `C73_builds` | RemoveVertex | Closed under the global context |
| `C73_distinct_refuted` | RemoveVertex | Closed under the global context |
| `C73_keeps` | RemoveVertex | Closed under the global context |
| `C73_no_panic_refuted` | RemoveVertex | Closed under the global context |
| `C73_origin` | RemoveVertex | Closed under the global context |
| `C74_area` | Delaunay | Closed under the global context |
| `C74_area_refuted` | Delaunay | Closed under the global context |
| `C74_delaunay` | Delaunay | Closed under the global context |
| `C74_no_panic_refuted` | Delaunay | Closed under the global context |
| `C75_circumcircle` | Delaunay | Closed under the global context |
| `C75_distPtTri` | Delaunay | Closed under the global context |
| `C75_flags` | Delaunay | Closed under the global context |
| `C75_overlap` | Delaunay | Closed under the global context |
| `C76_center` | HeightData | Closed under the global context |
| `C76_panic` | HeightData | Closed under the global context |
| `C76_region` | HeightData | Closed under the global context |
| `C77_detail` | PolyDetail | Closed under the global context |
| `C77_no_panic_refuted` | PolyDetail | Closed under the global context |
| `C77_no_sampling_panics` | PolyDetail | Closed under the global context |
| `C77_result` | PolyDetail | Closed under the global context |
| `C77_seamless` | PolyDetail | Closed under the global context |
| `C78_detail` | MeshDetail | Closed under the global context |
| `C78_empty` | MeshDetail | Closed under the global context |
| `C78_vertex_wrap_refuted` | MeshDetail | Closed under the global context |
| `C79_bounds` | WalkableTris | Closed under the global context |
| `C79_clear` | WalkableTris | Closed under the global context |
| `C79_degenerate` | WalkableTris | Closed under the global context |
| `C79_gridSize` | WalkableTris | Closed under the global context |
| `C79_mark` | WalkableTris | Closed under the global context |
| `C79_one_side` | WalkableTris | Closed under the global context |
| `C79_settled` | WalkableTris | Closed under the global context |
| `C80_builds` | Pipeline | Closed under the global context |
| `C80_contours` | Pipeline | Closed under the global context |
| `C80_eroded` | Pipeline | Closed under the global context |
| `C80_field` | Pipeline | Closed under the global context |
| `C80_marked` | Pipeline | Closed under the global context |
| `C80_mesh` | Pipeline | Closed under the global context |
| `C80_place` | Pipeline | Closed under the global context |
| `C80_regions` | Pipeline | Closed under the global context |
| `C81_added` | TileBuild | Closed under the global context |
| `C81_builds` | TileBuild | Closed under the global context |
| `C81_flags` | TileBuild | Closed under the global context |
| `C81_none` | TileBuild | Closed under the global context |
| `C81_tile` | TileBuild | Closed under the global context |
| `C82_cone` | HoleMerge | Closed under the global context |
| `C82_join` | HoleMerge | Closed under the global context |
| `C82_leftmost` | HoleMerge | Closed under the global context |
| `C82_merge` | HoleMerge | Closed under the global context |
| `C82_nearest_refuted` | HoleMerge | Closed under the global context |
| `C82_one_hole` | HoleMerge | Closed under the global context |
| `C82_tail_panics` | HoleMerge | Closed under the global context |
