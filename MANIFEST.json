{
 "claims": [
  {
   "property": "C01",
   "status": "proved",
   "theorems": [
    "C01_quadtree_search_exact",
    "C01_quadtree_search_exact_rational",
    "C01_doubles_refuted"
   ],
   "note": "Proved for every coordinate type with an order and a midpoint strictly below the upper end (the exact rationals meet this). For IEEE doubles the midpoint law fails on adjacent numbers and C01_doubles_refuted exhibits points whose construction leaves a dangling pointer."
  },
  {
   "property": "C02",
   "status": "proved",
   "theorems": [
    "C02_quadtree_terminates",
    "C02_quadtree_len_bbox",
    "C02_quadtree_leaves_not_full",
    "C02_quadtree_low_capacity_refuted",
    "C02_quadtree_nan",
    "C02_search_loop_terminates"
   ],
   "note": "Termination over exact rationals for capacity >= 2; C02_quadtree_low_capacity_refuted shows that a capacity of one or less never returns."
  },
  {
   "property": "C03",
   "status": "proved",
   "theorems": [
    "C03_quadtree_capacity_independent",
    "C03_quadtree_order_independent"
   ],
   "note": ""
  },
  {
   "property": "C04",
   "status": "proved",
   "theorems": [
    "C04_search_sound"
   ],
   "note": "For maxchildren >= 4, exact coordinates (the C floats are not modelled). Overlap means shared inner points."
  },
  {
   "property": "C05",
   "status": "partial",
   "theorems": [
    "C05_complete_partial",
    "C05_staggered_partial",
    "C05_staggered_root_refuted",
    "C05_moved_box_missed_refuted",
    "C05_default_maxchildren_refuted",
    "C05_equal_boxes_refuted",
    "C05_root_split_refuted",
    "C05_point_refuted",
    "C05_own_box_refuted"
   ],
   "note": "Proved while there are no more boxes than maxchildren, and for up to 3 maxchildren - 2 boxes none of whose ranges is in that of another if the query meets all boxes (nothing is repeated whatever the query); otherwise false after splits, and for boxes without area or touching the lower edges of the query."
  },
  {
   "property": "C06",
   "status": "proved",
   "theorems": [
    "C06_setfield_column_store",
    "C06_setfield_wrong_length",
    "C06_empty_table_refuted"
   ],
   "note": "Proved for every table with rows; the claim already excludes empty tables, and C06_empty_table_refuted shows why."
  },
  {
   "property": "C07",
   "status": "proved",
   "theorems": [
    "C07_extend_by_name"
   ],
   "note": "For rectangular tables (one value per field in each row)."
  },
  {
   "property": "C08",
   "status": "proved",
   "theorems": [
    "C08_updated_from_table",
    "C08_updated_from_dict",
    "C08_updated_bad_length",
    "C08_empty_table_refuted"
   ],
   "note": "For every iteration order of the field sets. That the receiver is unchanged is part of C51."
  },
  {
   "property": "C09",
   "status": "proved",
   "theorems": [
    "C09_merge_inner_join"
   ],
   "note": "For every iteration order of the intersection set."
  },
  {
   "property": "C10",
   "status": "proved",
   "theorems": [
    "C10_compressed_band_is_an_array",
    "C10_out_of_bounds_read_refuted",
    "C10_out_of_bounds_write_refuted"
   ],
   "note": "blosc and the dtype conversion are taken to be the identity. The refuted theorems show what windows outside the band do."
  },
  {
   "property": "C11",
   "status": "proved",
   "theorems": [
    "C11_chunksize_unobservable"
   ],
   "note": ""
  },
  {
   "property": "C12",
   "status": "partial",
   "theorems": [
    "C12_getitem_is_numpy",
    "C12_single_slice",
    "C12_forward_if_nonempty",
    "C12_getmask_is_numpy",
    "C12_mask_order",
    "C12_iteration_by_rows",
    "C12_out_of_range_integer_refuted",
    "C12_backward_slice_refuted"
   ],
   "note": "Proved for integers inside the axis and every slice that does not run against its step; outside that the full claim is false, as the two refuted theorems show."
  },
  {
   "property": "C13",
   "status": "proved",
   "theorems": [
    "C13_setitem_writes_selection",
    "C13_stepped_not_implemented",
    "C13_masked_assignment",
    "C13_mask_read_back",
    "C13_column_assignment_refuted",
    "C13_mask3_read_back_refuted"
   ],
   "note": "The refuted theorems record two places where the accepted values differ from numpy."
  },
  {
   "property": "C14",
   "status": "proved",
   "theorems": [
    "C14_positions_of_world",
    "C14_world_of_positions",
    "C14_indices_of_coordinates",
    "C14_indices_contain",
    "C14_coordinates_of_slices",
    "C14_center_coords",
    "C14_rotated_refuted",
    "C14_negative_index_refuted",
    "C14_single_row_refuted"
   ],
   "note": "Over exact rationals, for invertible transforms with dy /= 0 (needed: C14_rotated_refuted)."
  },
  {
   "property": "C15",
   "status": "proved",
   "theorems": [
    "C15_aschunks_tiles",
    "C15_default_size",
    "C15_overlap_never_ends_refuted",
    "C15_narrow_default_refuted"
   ],
   "note": ""
  },
  {
   "property": "C16",
   "status": "partial",
   "theorems": [
    "C16_clip_partial",
    "C16_beyond_corner_refuted"
   ],
   "note": "Proved for boxes that do not reach beyond the first row or column; the full claim is false beyond it."
  },
  {
   "property": "C17",
   "status": "partial",
   "theorems": [
    "C17_resize_partial",
    "C17_half_cell_refuted",
    "C17_disjoint_refuted"
   ],
   "note": "Proved for unskewed grids with positive resolution when the box meets the grid and its corner is within half a cell of a cell corner; false otherwise."
  },
  {
   "property": "C18",
   "status": "partial",
   "theorems": [
    "C18_extent_edge_partial",
    "C18_extent_centre_partial",
    "C18_bbox",
    "C18_opposite_skew_refuted"
   ],
   "note": "Proved for skew of the sign of the resolution (or none); false for the opposite sign."
  },
  {
   "property": "C19",
   "status": "partial",
   "theorems": [
    "C19_merge_partial",
    "C19_refuses_resolution",
    "C19_refuses_offset",
    "C19_negative_resolution_refuted",
    "C19_hardly_below_refuted"
   ],
   "note": "Proved for any number of unskewed grids of positive resolution with common spacing, whole-cell offsets and weights with non-zero sum; a negative row spacing raises. Other resolutions, rotations, offsets and numbers of bands are refused; so is an offset that falls short of a whole number of cells by however little. The dtype conversions of numpy are not modelled."
  },
  {
   "property": "C20",
   "status": "partial",
   "theorems": [
    "C20_data_mask",
    "C20_set_nodata_value",
    "C20_apply_partial",
    "C20_apply_two_bands_refuted"
   ],
   "note": "apply is proved for single-band grids; it raises for several bands."
  },
  {
   "property": "C21",
   "status": "partial",
   "theorems": [
    "C21_sample_nearest_point",
    "C21_cell_unique",
    "C21_sample_nearest_partial",
    "C21_two_bands_refuted",
    "C21_all_outside_refuted",
    "C21_edge_parity_refuted"
   ],
   "note": "Single points: proved in full (closed cells; unique away from borders). Vectors: one band or one point, with some point in the grid; otherwise false."
  },
  {
   "property": "C22",
   "status": "partial",
   "theorems": [
    "C22_sample_bilinear_partial",
    "C22_unsigned_partial",
    "C22_signed_partial",
    "C22_reproduces_linear",
    "C22_reproduces_bilinear",
    "C22_bounded",
    "C22_exact_at_centres",
    "C22_nodata_blended_refuted",
    "C22_nan_neighbour_refuted",
    "C22_first_row_refuted",
    "C22_integer_outside_refuted"
   ],
   "note": "Grids (floating point, unsigned, and signed integers for points between the centres) with at least two rows and columns whose cells near the point are numbers. The refuted theorems show what happens elsewhere."
  },
  {
   "property": "C23",
   "status": "partial",
   "theorems": [
    "C23_gridpoints_means_partial",
    "C23_gridpoints_order_partial",
    "C23_below_origin_refuted"
   ],
   "note": "Unskewed transforms of positive resolution, points not below the origin (those raise)."
  },
  {
   "property": "C24",
   "status": "partial",
   "theorems": [
    "C24_gradient_exact",
    "C24_gradient_linear",
    "C24_gradient_translation",
    "C24_skewed_raises",
    "C24_divergence_exact",
    "C24_divergence_nodata_refuted",
    "C24_one_row_refuted",
    "C24_slope_exact",
    "C24_slope_plane"
   ],
   "note": "Exact arithmetic: exact even on quadratic surfaces, for all sizes with two (slope: three) rows and columns. Divergence uses nodata values as numbers; a one-row grid has a two-row gradient. The float32 conversion is not modelled."
  },
  {
   "property": "C25",
   "status": "proved",
   "theorems": [
    "C25_bbox_tight",
    "C25_multipart_bbox_tight",
    "C25_overlap"
   ],
   "note": "Planar; geometries without vertices have a box of NaN."
  },
  {
   "property": "C26",
   "status": "partial",
   "theorems": [
    "C26_area",
    "C26_signed_area",
    "C26_area_invariant",
    "C26_area_transform",
    "C26_moved_holes_refuted"
   ],
   "note": "Proved over exact rationals; invariance under moves holds without sub-polygons only, since apply_transform loses them."
  },
  {
   "property": "C27",
   "status": "partial",
   "theorems": [
    "C27_apply_transform_partial",
    "C27_apply_transform_3d",
    "C27_apply_transform_flat",
    "C27_invalid",
    "C27_compose",
    "C27_shift",
    "C27_shift_back",
    "C27_point_shift",
    "C27_point_transform",
    "C27_point_transform_3d",
    "C27_rotate",
    "C27_turned_determines",
    "C27_rotate_isometry",
    "C27_rotate_compose",
    "C27_rotate_full_turn",
    "C27_subs_lost_refuted"
   ],
   "note": "Sub-polygons are lost by every transformation."
  },
  {
   "property": "C28",
   "status": "partial",
   "theorems": [
    "C28_sound",
    "C28_complete_partial",
    "C28_none",
    "C28_unique",
    "C28_symmetric",
    "C28_first_end_refuted",
    "C28_overlap_refuted"
   ],
   "note": "Exact arithmetic. Sound, unique, symmetric; complete except at the first end of each segment and on overlaps, where the code answers no point."
  },
  {
   "property": "C29",
   "status": "partial",
   "theorems": [
    "C29_intersections_partial",
    "C29_intersections_symmetric",
    "C29_intersections_first_vertex_refuted",
    "C29_closing_edge_refuted",
    "C29_boxes",
    "C29_boxes_float_refuted",
    "C29_intersects_sound",
    "C29_intersects_no_error",
    "C29_intersects_answers_partial",
    "C29_intersects_endless_refuted",
    "C29_intersects_partial",
    "C29_intersects_vertical",
    "C29_end_on_vertical_refuted",
    "C29_two_verticals_refuted",
    "C29_start_on_other_refuted",
    "C29_self_crossing_refuted"
   ],
   "note": "intersects (Shamos-Hoey sweep): sound and never raises for all inputs; ends when no edge is repeated; exact for simple paths in general position; complete for a vertical edge against an edge that goes on. False outside general position, and endless for a repeated edge. Planar coordinates only."
  },
  {
   "property": "C30",
   "status": "partial",
   "theorems": [
    "C30_contains_partial",
    "C30_winding_number",
    "C30_answers",
    "C30_not_ring",
    "C30_start_vertex",
    "C30_reversed",
    "C30_holes_partial",
    "C30_bbox",
    "C30_inside",
    "C30_both_sides",
    "C30_convex",
    "C30_joined",
    "C30_sub_polygon",
    "C30_boundary_refuted"
   ],
   "note": "Planar coordinates. Off the boundary the answer is that of the winding number (sum of angles over the reals). On the boundary the answer is half-open: some points are in, some out."
  },
  {
   "property": "C31",
   "status": "partial",
   "theorems": [
    "C31_segment_partial",
    "C31_line_partial",
    "C31_too_short",
    "C31_repeated_vertex_refuted",
    "C31_short_horizontal_refuted",
    "C31_closing_edge_refuted"
   ],
   "note": "Proved for lines in the plane whose segments have length and are not both horizontal and shorter than 1e-4. False for polygons: the closing edge is left out."
  },
  {
   "property": "C32",
   "status": "partial",
   "theorems": [
    "C32_line_segments",
    "C32_polygon_segments",
    "C32_empty_polygon",
    "C32_line_tuples",
    "C32_polygon_tuples",
    "C32_to_line",
    "C32_to_polygon",
    "C32_line_and_back_refuted",
    "C32_length",
    "C32_perimeter",
    "C32_length_additive",
    "C32_length_reversed",
    "C32_length_rotated",
    "C32_cumulength",
    "C32_displacement",
    "C32_displacement_shortest",
    "C32_cumulength_3d_refuted"
   ],
   "note": "Proved for planar vertices; with a third coordinate length is horizontal and cumulength is not."
  },
  {
   "property": "C33",
   "status": "partial",
   "theorems": [
    "C33_transparent_partial",
    "C33_setitem_refuted",
    "C33_extend_refuted"
   ],
   "note": "Proved for every history of calls, arguments and Line.extend, with the nested calls of bbox and extent and the shared key. Refuted: replacing a vertex of a Multipoint leaves the cached box; after Line.extend the cached methods raise, because the vertices are then a plain array."
  },
  {
   "property": "C34",
   "status": "partial",
   "theorems": [
    "C34_bbox_partial",
    "C34_rows_refuted",
    "C34_stale_index_refuted",
    "C34_radius_partial",
    "C34_radius_any_partial",
    "C34_radius_geographic_refuted",
    "C34_polygon_partial",
    "C34_polygon_region_partial",
    "C34_polygon_refuted"
   ],
   "note": "Proved for every multipoint with one record per vertex, with and without the index, if the set of field names is iterated in the order of the fields. Refuted: another order of that set puts values under other names; after an assignment the index is stale; a radius across the date line misses points when the index is used; points on the left and bottom boundary of a polygon are treated unlike those on the right and top."
  },
  {
   "property": "C35",
   "status": "partial",
   "theorems": [
    "C35_parts",
    "C35_parts_checked",
    "C35_table_refuted",
    "C35_member",
    "C35_member_range",
    "C35_override_refuted",
    "C35_iterate",
    "C35_slice",
    "C35_subset_partial",
    "C35_subset_names",
    "C35_subset_refuted",
    "C35_points_partial",
    "C35_points_data_partial",
    "C35_points_lost_refuted",
    "C35_no_common_refuted",
    "C35_set_point_partial",
    "C35_set_point_refuted",
    "C35_set_vertex_refuted",
    "C35_merge_partial",
    "C35_merge_refuted",
    "C35_select_partial",
    "C35_select_refuted"
   ],
   "note": "Members, slices and iteration are proved. Subsets, assignment of a point and merging are right if sets of names are iterated in the order of the fields. Refuted: points without a common property give unreadable members; properties not common to all are dropped; a Table of another length is accepted; a property of the multipart hides a field; assigning coordinates makes the member unreadable."
  },
  {
   "property": "C36",
   "status": "partial",
   "theorems": [
    "C36_vertices",
    "C36_plane_partial",
    "C36_clear_partial",
    "C36_general_partial",
    "C36_refuted",
    "C36_collinear_refuted",
    "C36_azimuth",
    "C36_sphere_partial",
    "C36_sphere_clear_partial",
    "C36_repeated_refuted",
    "C36_dateline_refuted"
   ],
   "note": "Plane: proved for every list of vertices not on one line, duplicates and collinear vertices included, except that vertices on the continuation of the first edge may be left out; in full if the first edge has no third vertex. Sphere: the same for different vertices between the poles within less than 180 degrees of longitude. Refuted: a grid of points given row by row loses a corner; vertices on one line raise IndexError in some orders; on the sphere a repeated vertex gives a ring that is not convex, and so does a region across the date line."
  },
  {
   "property": "C37",
   "status": "partial",
   "theorems": [
    "C37_crosses",
    "C37_antisymmetric",
    "C37_geometry_crosses",
    "C37_bbox_partial",
    "C37_bbox_segment",
    "C37_bbox_latitudes",
    "C37_bbox_refuted"
   ],
   "note": "The crossing test is right for longitudes in [-180, 180). The box is right when no edge passes the 180th meridian and for single segments; otherwise vertices may be outside. Exact arithmetic, latitude bounds of segments as an oracle."
  },
  {
   "property": "C38",
   "status": "partial",
   "theorems": [
    "C38_unroll",
    "C38_reduce",
    "C38_unroll_normal",
    "C38_reduce_normal",
    "C38_between_partial",
    "C38_between_symmetric",
    "C38_between_refuted",
    "C38_unroll_rad",
    "C38_reduce_rad",
    "C38_unroll_rad_normal",
    "C38_reduce_rad_normal",
    "C38_between_real"
   ],
   "note": "Normalisation proved in full over exact numbers; isbetween_circular is right unless the end points are exactly opposite, when nothing is between."
  },
  {
   "property": "C39",
   "status": "proved",
   "theorems": [
    "C39_canonical"
   ],
   "note": "Exact arithmetic."
  },
  {
   "property": "C40",
   "status": "proved",
   "theorems": [
    "C40_not_bracketed",
    "C40_no_division",
    "C40_sound",
    "C40_continuous",
    "C40_returns",
    "C40_exhausted"
   ],
   "note": "Over the reals, every function. C40_returns: monotone functions are answered within the 1000 passes when bracket and tolerance are not too far apart."
  },
  {
   "property": "C41",
   "status": "proved",
   "theorems": [
    "C41_contains",
    "C41_exists",
    "C41_disjoint",
    "C41_extent",
    "C41_corner",
    "C41_children",
    "C41_equal",
    "C41_east_edge_refuted"
   ],
   "note": "Over the reals, Python 3 division. Longitude 180 itself gets a column that does not exist."
  },
  {
   "property": "C42",
   "status": "partial",
   "theorems": [
    "C42_round_trip_refuted",
    "C42_bands_refuted",
    "C42_written",
    "C42_file",
    "C42_georeference_partial",
    "C42_mirrored_partial",
    "C42_orientation_refuted",
    "C42_read",
    "C42_twice_partial",
    "C42_square",
    "C42_skew_refuted",
    "C42_nodata_refuted"
   ],
   "note": "Refuted for every grid: self[:,:] has three dimensions, so to_aai writes each value in brackets and read_aai raises ValueError. The written file is described exactly. With the brackets deleted the georeference is restored for both reference kinds, and the values come back upside down because the rows are written from south to north; a skew in x is lost without error, and a value equal to nodata becomes nan. Reading files of the format is right. Text of numbers identified with the numbers."
  },
  {
   "property": "C43",
   "status": "partial",
   "theorems": [
    "C43_written_places",
    "C43_transform_partial",
    "C43_skew_refuted",
    "C43_read_places_partial",
    "C43_memory_partial",
    "C43_disk",
    "C43_lazy_is_memory",
    "C43_window_outside",
    "C43_thin_refuted",
    "C43_no_nodata_refuted",
    "C43_type_partial",
    "C43_type_refuted",
    "C43_ellipsoid_refuted",
    "C43_sphere_refuted"
   ],
   "note": "GDAL is modelled as a store. The file written is right for every transform; reading is right if and only if there is no skew. Values come back in memory (two rows and columns at least) and on disk; a file of one row or column cannot be read into memory. The inverse flattening of a geographical file is taken for the flattening."
  },
  {
   "property": "C44",
   "status": "partial",
   "theorems": [
    "C44_terminates",
    "C44_names",
    "C44_fields",
    "C44_values",
    "C44_plain",
    "C44_written_partial",
    "C44_written_refuted",
    "C44_id_refuted",
    "C44_late_refuted",
    "C44_order_refuted"
   ],
   "note": "Proved for every set of attributes and every iteration order: the renaming loop ends; the names differ (also case-insensitively) and have at most ten characters for fewer than 8e8 attributes; fields and rows hold exactly the exported attributes and their values. Refuted: an attribute called id takes the name of the id field; an empty list as a value aborts the export; an attribute whose first storable value comes after the hundredth object is dropped; which attribute is renamed depends on the order of a set. Attribute names are ASCII; what OGR does with the fields is not modelled."
  },
  {
   "property": "C45",
   "status": "partial",
   "theorems": [
    "C45_partition",
    "C45_columns_partial",
    "C45_single",
    "C45_collection",
    "C45_geometries",
    "C45_point",
    "C45_line",
    "C45_multipoint_partial",
    "C45_multiline_partial",
    "C45_empty_part",
    "C45_multipolygon_partial",
    "C45_polygon_refuted",
    "C45_holes_refuted",
    "C45_reprojected_refuted",
    "C45_unchanged_partial",
    "C45_unchanged_refuted",
    "C45_properties_refuted",
    "C45_strings_refuted",
    "C45_names_refuted",
    "C45_crs_refuted",
    "C45_list_refuted"
   ],
   "note": "The division into properties and data, collections and the round trip of points, lines, multipoints and multilines are proved. Refuted: writing changes the properties of a multipart geometry; polygons gain a vertex per round trip; holes read from GeoJSON cannot be written, and are dropped on reprojection; properties as long as the geometry become data, strings among them ruin the table; properties named as fields are lost; force_wgs84=False without urn raises NameError. picogeojson and JSON text are trusted to return what was written, up to the direction of rings."
  },
  {
   "property": "C46",
   "status": "partial",
   "theorems": [
    "C46_round_trip_partial",
    "C46_positions",
    "C46_properties_refuted",
    "C46_extensions_refuted",
    "C46_values_refuted",
    "C46_structure_refuted",
    "C46_waypoints_refuted",
    "C46_no_waypoint_read",
    "C46_add_waypoint",
    "C46_track",
    "C46_line_refuted",
    "C46_route_refuted",
    "C46_attributes_refuted",
    "C46_elevation_refuted"
   ],
   "note": "Documents without waypoints come back with the same tracks, segments, routes, points and extensions, positions to six decimals, properties with an additional \"extensions\". Refuted: documents with waypoints cannot be read; a second round trip loses the extensions of tracks and routes; None becomes a word; properties called like structural elements; lines as tracks, data in routes, unknown attributes, elevations without a known field. The XML text is trusted to return the elements written, but for empty texts."
  },
  {
   "property": "C47",
   "status": "partial",
   "theorems": [
    "C47_consistent",
    "C47_given",
    "C47_parse_partial",
    "C47_named",
    "C47_axes",
    "C47_flattening",
    "C47_datum_partial",
    "C47_datum_refuted",
    "C47_alpha_refuted",
    "C47_inverse_flattening_refuted",
    "C47_sphere_refuted"
   ],
   "note": "The datum \"carthage\" refers to a missing ellipsoid; any parameter beginning with +a is taken for the semi-major axis; +rf and +f=0 raise."
  },
  {
   "property": "C48",
   "status": "proved",
   "theorems": [
    "C48_forward",
    "C48_inverse",
    "C48_round_trip",
    "C48_distance"
   ],
   "note": "Over the reals."
  },
  {
   "property": "C49",
   "status": "proved",
   "theorems": [
    "C49_table_from_columns",
    "C49_table_from_list",
    "C49_table_from_rows",
    "C49_scalar_among_columns",
    "C49_ragged_and_scalar_refuted",
    "C49_rows_refuted"
   ],
   "note": "For every dict of equally long columns, and also for lists and for rows. Refuted beyond the statement: unequal columns are cut, a dict of scalars becomes one row per field, only the first of the rows is checked."
  },
  {
   "property": "C50",
   "status": "proved",
   "theorems": [
    "C50_row_and_column_views_agree",
    "C50_get_range",
    "C50_repeated_field_refuted"
   ],
   "note": ""
  },
  {
   "property": "C51",
   "status": "partial",
   "theorems": [
    "C51_calls_change_only_their_receiver",
    "C51_assigned_row",
    "C51_deleted_row",
    "C51_copy_shares_rows_refuted"
   ],
   "note": "Holds for histories without Table(t); false with it, as C51_copy_shares_rows_refuted shows."
  },
  {
   "property": "C52",
   "status": "proved",
   "theorems": [
    "C52_add_grids_cellwise",
    "C52_add_grids_mismatch",
    "C52_nodata_added_refuted"
   ],
   "note": "Grids of equal shape; nodata cells are added like others (C52_nodata_added_refuted)."
  },
  {
   "property": "C53",
   "status": "partial",
   "theorems": [
    "C53_vertex_coords_partial",
    "C53_last_row_refuted"
   ],
   "note": "All rows but the last; the last is uninitialised."
  },
  {
   "property": "C54",
   "status": "partial",
   "theorems": [
    "C54_data_extent_partial",
    "C54_data_bbox_partial",
    "C54_right_end_refuted",
    "C54_bands_refuted"
   ],
   "note": "Unskewed grids of positive resolution whose data reach to the right of y0; false otherwise. Grids with several bands raise IndexError."
  },
  {
   "property": "C55",
   "status": "partial",
   "theorems": [
    "C55_resample_nearest_partial",
    "C55_nonpositive_resolution",
    "C55_one_column_refuted",
    "C55_two_bands_refuted"
   ],
   "note": "Method 'nearest', one band, unskewed, at least two rows and columns in the result."
  },
  {
   "property": "C56",
   "status": "partial",
   "theorems": [
    "C56_aspect_partial",
    "C56_points_uphill_refuted",
    "C56_flat_refuted",
    "C56_west_slope"
   ],
   "note": "The x component is right and the y component mirrored: the aspect of a slope rising north is north. Flat ground gets the aspect of a slope falling to the west."
  },
  {
   "property": "C57",
   "status": "proved",
   "theorems": [
    "C57_normed_vectors"
   ],
   "note": "Grids with at least two rows and columns."
  },
  {
   "property": "C58",
   "status": "partial",
   "theorems": [
    "C58_hillshade_partial",
    "C58_cell_size_refuted"
   ],
   "note": "Proved for quadratic surfaces in cells of size one; with other cell sizes the normal is wrong. Percentiles are an arbitrary function of the list of shades."
  },
  {
   "property": "C59",
   "status": "partial",
   "theorems": [
    "C59_always_answers",
    "C59_small_maxchildren_refuted"
   ],
   "note": "Proved for maxchildren >= 4; a smaller value ends the process."
  },
  {
   "property": "C60",
   "status": "partial",
   "theorems": [
    "C60_zero_partial",
    "C60_limit_refuted"
   ],
   "note": "Only the limit 0 is kept."
  },
  {
   "property": "C61",
   "status": "partial",
   "theorems": [
    "C61_freed_once_partial",
    "C61_staggered_partial",
    "C61_freed_twice_refuted"
   ],
   "note": "Proved while unsplit, and after splits for up to 3 maxchildren - 2 boxes none of whose ranges is in that of another; false after a split of equal boxes."
  },
  {
   "property": "C62",
   "status": "partial",
   "theorems": [
    "C62_bbox_partial",
    "C62_bbox_refuted"
   ],
   "note": "Proved while unsplit; false just after a root split."
  },
  {
   "property": "C63",
   "status": "proved",
   "theorems": [
    "C63_isclockwise",
    "C63_centroid"
   ],
   "note": "Planar; rings of non-zero signed area for the centroid. Sub-polygons are ignored by both, as in the code."
  },
  {
   "property": "C64",
   "status": "partial",
   "theorems": [
    "C64_distance",
    "C64_azimuth",
    "C64_walk",
    "C64_azimuth_of_walk",
    "C64_walk_there",
    "C64_azimuth_back",
    "C64_walk_3d_refuted",
    "C64_geographical_partial",
    "C64_geographical_meridian_refuted"
   ],
   "note": "Proved in projected systems; the geographical azimuth is nan along meridians."
  },
  {
   "property": "C65",
   "status": "partial",
   "theorems": [
    "C65_to_npoints_partial",
    "C65_one_point_refuted",
    "C65_zero_length_refuted"
   ],
   "note": "Proved for planar lines with steps of at least 1e-8; the last point may be up to 1e-8 short of the end."
  },
  {
   "property": "C66",
   "status": "partial",
   "theorems": [
    "C66_to_points_partial",
    "C66_long_segments_partial",
    "C66_short_segments_refuted",
    "C66_zero_spacing_refuted"
   ],
   "note": "Proved for single segments and for lines of any number of segments none of which is shorter than the spacing; false with shorter ones."
  },
  {
   "property": "C67",
   "status": "partial",
   "theorems": [
    "C67_within_distance_partial",
    "C67_sound",
    "C67_within_distance_refuted"
   ],
   "note": "The code asks every segment to be near."
  },
  {
   "property": "C68",
   "status": "proved",
   "theorems": [
    "C68_nearest_vertex"
   ],
   "note": ""
  },
  {
   "property": "C69",
   "status": "partial",
   "theorems": [
    "C69_ispolar",
    "C69_one_way_partial",
    "C69_small_polygon_refuted"
   ],
   "note": "The code tells whether any edge passes the 180th meridian; right for rings that pass it in one direction only."
  },
  {
   "property": "C70",
   "status": "partial",
   "theorems": [
    "C70_answer",
    "C70_outside_refuted",
    "C70_inside_refuted"
   ],
   "note": "The answer is characterised for every azimuth function and is not membership: it depends on the direction of the ring and on where north is."
  },
  {
   "property": "C71",
   "status": "partial",
   "theorems": [
    "C71_equator_partial",
    "C71_equator_refuted"
   ],
   "note": "Azimuths are right; the distance is right only if the longitudes differ by less than 180 as given."
  },
  {
   "property": "C72",
   "status": "partial",
   "theorems": [
    "C72_area_partial",
    "C72_area_exists",
    "C72_edge_north",
    "C72_edge_south",
    "C72_equator_refuted"
   ],
   "note": "Right for rings on one side of the equator whose edges span less than 180 degrees of longitude as given; across the equator the two parts are subtracted, so a balanced rectangle has area 0. Over the reals; spherical systems only."
  },
  {
   "property": "C73",
   "status": "partial",
   "theorems": [
    "C73_bounds_partial",
    "C73_attained",
    "C73_answers",
    "C73_across_refuted"
   ],
   "note": "Containment for segments in one hemisphere or on one meridian; bounds attained always; false across the equator."
  },
  {
   "property": "C74",
   "status": "partial",
   "theorems": [
    "C74_to_cartesian",
    "C74_round_trip_partial",
    "C74_direction_partial",
    "C74_south_refuted",
    "C74_pole_refuted"
   ],
   "note": "cart2sph is wrong in the southern hemisphere (latitude + 180) and raises at the poles."
  },
  {
   "property": "C75",
   "status": "proved",
   "theorems": [
    "C75_distance",
    "C75_segment_distance",
    "C75_metric",
    "C75_azimuth"
   ],
   "note": "Unit sphere, over the reals; the azimuth formula uses tan(lat2), so the second point is not a pole."
  },
  {
   "property": "C76",
   "status": "partial",
   "theorems": [
    "C76_sound_partial",
    "C76_complete_partial",
    "C76_south_refuted",
    "C76_south_example_refuted",
    "C76_southward_refuted",
    "C76_short_refuted"
   ],
   "note": "Sound and complete when the computed direction points north (or nearly level) and is not near the plane x = 0 on the far side, and neither segment runs along a meridian. Otherwise: latitudes beyond 90, southward meridian segments never meet anything, short segments beyond 90 degrees of longitude are missed."
  },
  {
   "property": "C77",
   "status": "partial",
   "theorems": [
    "C77_named_partial",
    "C77_axes_refuted"
   ],
   "note": "Given by axes with the default datum, the text describes WGS84 instead."
  },
  {
   "property": "C78",
   "status": "proved",
   "theorems": [
    "C78_equal",
    "C78_equivalence"
   ],
   "note": "pyproj objects are taken as the strings they carry."
  },
  {
   "property": "C79",
   "status": "partial",
   "theorems": [
    "C79_bands",
    "C79_transforms_refuted",
    "C79_keyword_refuted"
   ],
   "note": "Bands and sizes are right; transforms are never compared, and any in_memory argument raises TypeError."
  },
  {
   "property": "C80",
   "status": "partial",
   "theorems": [
    "C80_values",
    "C80_clear_partial",
    "C80_rectilinear_partial",
    "C80_oblong_refuted",
    "C80_south_refuted",
    "C80_holes_refuted",
    "C80_turns_refuted",
    "C80_skew_refuted"
   ],
   "note": "Proved: every cell keeps its values or becomes nodata in all bands, the same in place and in a copy; with square north-up cells all cells further than one cell from the outlines are kept exactly if an outline winds round them; with outlines of horizontal and vertical edges all cells whose centre is on no outline, for any north-up cells; both for fewer than 256 vertices. Refuted: cells that are not square (the slope of edges is taken in map units), rows going south (the mask is upside down), holes (ignored), 256 turns (eight-bit overflow), skewed cells (ZeroDivisionError)."
  },
  {
   "property": "C81",
   "status": "proved",
   "theorems": [
    "C81_path",
    "C81_across",
    "C81_sides"
   ],
   "note": "For all polygons with holes of any nesting, and all open or closed paths of straight segments with rational vertices. C81_sides: of two points on the two sides of one edge of a polygon without holes at least one is contained (winding numbers other than 0 count as inside)."
  },
  {
   "property": "C82",
   "status": "partial",
   "theorems": [
    "C82_within_partial",
    "C82_touching_partial",
    "C82_touching_line_partial",
    "C82_sound_partial",
    "C82_query_type",
    "C82_straight_refuted",
    "C82_hole_within_refuted",
    "C82_hole_touching_refuted",
    "C82_closing_within_refuted",
    "C82_closing_touching_refuted",
    "C82_many_refuted",
    "C82_bare_refuted"
   ],
   "note": "Exact for up to 50 members that have width and height and are in general position to a line or to a polygon without holes, taking the members as open paths; for any number of members those returned are right. Refuted: straight level or vertical members are never found; holes are not considered; the last side of the members of a Multipolygon is left out; with 51 members one is missed (the tree of boxes loses it); without data the result cannot be read."
  },
  {
   "property": "C83",
   "status": "partial",
   "theorems": [
    "C83_polygons_partial",
    "C83_rings",
    "C83_contains_refuted",
    "C83_intersects_refuted",
    "C83_nested_refuted"
   ],
   "note": "Vertices, holes, common properties, box, centroid, orientation and segments agree for every list of polygons, the area if the holes have no holes. Refuted: contains of any member raises TypeError (its coordinates are not marked as a ring); intersects leaves out the closing side; islands in holes are lost."
  },
  {
   "property": "C84",
   "status": "partial",
   "theorems": [
    "C84_lines",
    "C84_other_types",
    "C84_polygons_partial",
    "C84_mixed_refuted",
    "C84_holes_refuted"
   ],
   "note": "Lines: in full. Polygons of one rank, multipolygons made of rings. Refuted: polygons of different ranks raise NameError; a multipolygon made of polygons with holes raises AttributeError, as does its vertices method."
  },
  {
   "property": "C85",
   "status": "partial",
   "theorems": [
    "C85_lines",
    "C85_polygons_partial",
    "C85_holes_refuted",
    "C85_data_refuted"
   ],
   "note": "Every vertex of lines and of the outlines of polygons is moved, members keep their values. Refuted: the holes are lost; properties of the multipart become fields of its data."
  },
  {
   "property": "C86",
   "status": "partial",
   "theorems": [
    "C86_points",
    "C86_lines_partial",
    "C86_holes_refuted",
    "C86_multipoints_partial",
    "C86_rank_refuted",
    "C86_fields_refuted",
    "C86_equivalence_partial",
    "C86_points_equivalence_partial",
    "C86_systems_refuted",
    "C86_members"
   ],
   "note": "Points in full; lines and polygons up to holes; multipoints of one rank. Refuted: holes are not compared; multipoints of different ranks raise ValueError; the same data in another order of fields are unequal; not transitive across geographical and projected systems."
  },
  {
   "property": "C87",
   "status": "partial",
   "theorems": [
    "C87_points_partial",
    "C87_lines_partial",
    "C87_zero_refuted",
    "C87_names_refuted",
    "C87_multipart_refuted"
   ],
   "note": "Proved for systems of one name and coordinates without negative zeros. Refuted: 0.0 and -0.0; projected systems of different names are equal but hash differently; Multiline and Multipolygon have no hash."
  },
  {
   "property": "C88",
   "status": "partial",
   "theorems": [
    "C88_lines",
    "C88_polygons_partial",
    "C88_holes_refuted",
    "C88_step",
    "C88_vertices",
    "C88_multipoints"
   ],
   "note": "Vertices, records, properties and the type of the result for every slice. Refuted: poly[:] loses the holes."
  },
  {
   "property": "C89",
   "status": "partial",
   "theorems": [
    "C89_vertices_partial",
    "C89_properties_partial",
    "C89_polygon_partial",
    "C89_multipolygon_partial",
    "C89_ring_refuted",
    "C89_system_refuted",
    "C89_multipart_refuted",
    "C89_argument_refuted"
   ],
   "note": "Vertices of the kinds without rings, properties of all but multilines and multipolygons, areas of polygons. Refuted: rings gain a closing vertex; the system becomes Cartesian and data are lost; multilines and multipolygons lose their properties; the properties argument is ignored."
  },
  {
   "property": "C90",
   "status": "partial",
   "theorems": [
    "C90_geometries_partial",
    "C90_elevation_refuted",
    "C90_point_refuted",
    "C90_multipolygon_refuted",
    "C90_system_refuted"
   ],
   "note": "Lines, polygons with holes, multipoints and multilines keep order, kind, rings, parts and horizontal coordinates. Refuted: third coordinates are lost; points gain a third coordinate; multipolygons are lost; all geometries get the system of the first."
  },
  {
   "property": "C91",
   "status": "partial",
   "theorems": [
    "C91_text_partial",
    "C91_geographical",
    "C91_ellipsoid_partial",
    "C91_projected",
    "C91_latlong_refuted",
    "C91_cartesian_refuted",
    "C91_sphere_refuted"
   ],
   "note": "Texts without aliases and those of geographical systems; ellipsoids of layers that are not spheres. Refuted: latlong becomes latlongg; Cartesian geometries are written as longitudes and latitudes; a geographical layer on a sphere raises ZeroDivisionError."
  },
  {
   "property": "C92",
   "status": "partial",
   "theorems": [
    "C92_min_max_partial",
    "C92_minmax_partial",
    "C92_nan_is_missing",
    "C92_one_band",
    "C92_nan_refuted",
    "C92_bands_refuted"
   ],
   "note": "Every grid: minmax is exact on the values that are data if none of them is nan (always so if nan is the nodata value); min and max are exact on the cells that are data in every band. Refuted: with a number for nodata a nan makes all of them nan; with several bands min and max leave out cells that are missing in another band."
  },
  {
   "property": "C93",
   "status": "partial",
   "theorems": [
    "C93_nearest_partial",
    "C93_bilinear_partial",
    "C93_arrays",
    "C93_point_bilinear",
    "C93_point_nearest_partial",
    "C93_profile_bilinear_partial",
    "C93_profile_nearest_partial",
    "C93_band_names",
    "C93_numbers_refuted",
    "C93_outside_refuted",
    "C93_default_spacing",
    "C93_negative_resolution_refuted"
   ],
   "note": "As for C21 and C22 (one band or one point for nearest; some point beyond the first centres for bilinear). Refuted: two numbers raise TypeError; a Point outside gives a bare number and a Multipoint of it ValueError; if a resolution is negative the default spacing is, and the profile never ends."
  },
  {
   "property": "C94",
   "status": "partial",
   "theorems": [
    "C94_sphere_partial",
    "C94_ellipsoid_partial",
    "C94_clairaut",
    "C94_equator",
    "C94_great_circles",
    "C94_radians_refuted"
   ],
   "note": "Exact on spheres and along equators; on ellipsoids with third flattening n up to 1/10 the end point is on the geodesic within 700 (b+|d|) |n|^7 in length and 40 |f| (1+|d|/b) |n|^6 in longitude (truncated series), for ways that do not end that close to a pole; Clairaut holds exactly on all ellipsoids. Missing: ends at the poles. Refuted: the azimuth documented in radians is taken in degrees."
  },
  {
   "property": "C95",
   "status": "partial",
   "theorems": [
    "C95_geodesic_partial",
    "C95_meridian_partial",
    "C95_sphere_partial",
    "C95_equator_partial",
    "C95_symmetric",
    "C95_directions_partial",
    "C95_sphere_refuted",
    "C95_sphere_fails",
    "C95_opposite_refuted",
    "C95_shortest_refuted"
   ],
   "note": "Every result returned without the warning is the length and the directions of a geodesic to within the stated tolerance, no longer than half a circumference; always returned along meridians, along equators and for most pairs on spheres, where it is the shortest; distances are symmetric. Missing: that the iteration converges on every ellipsoid, and that the geodesic is the shortest. Refuted: on spheres opposite latitudes raise ZeroDivisionError; on oblate ellipsoids nearly antipodal points raise ValueError; opposite points of the equator get the longer way."
  },
  {
   "property": "C96",
   "status": "partial",
   "theorems": [
    "C96_direction",
    "C96_start",
    "C96_back",
    "C96_meridian",
    "C96_equator",
    "C96_balanced_refuted",
    "C96_prolate_refuted"
   ],
   "note": "Direction, start, reversed edges, meridians and the equator: in full. Refuted: a rectangle symmetric about the equator has area zero; on prolate ellipsoids every polygon raises ValueError."
  },
  {
   "property": "C97",
   "status": "partial",
   "theorems": [
    "C97_edge",
    "C97_polygon",
    "C97_earth",
    "C97_growth",
    "C97_low",
    "C97_balanced_refuted",
    "C97_dateline_refuted",
    "C97_coefficient_refuted"
   ],
   "note": "Edges in general position and polygons in one hemisphere: error bound in full. Refuted: polygons across the equator (halves cancel), polygons across the date line with longitudes between -180 and 180, and one coefficient (90/9009 for 80/9009), which costs one order of accuracy."
  },
  {
   "property": "C98",
   "status": "partial",
   "theorems": [
    "C98_point",
    "C98_coords",
    "C98_vertices_partial",
    "C98_multiline",
    "C98_multipolygon",
    "C98_multipoint_of_points_partial",
    "C98_multiline_of_lines_partial",
    "C98_line_of_points_partial",
    "C98_sum_points_partial",
    "C98_sum_lines_partial",
    "C98_sum_polygons_partial",
    "C98_cells",
    "C98_elevation_refuted",
    "C98_height_refuted",
    "C98_mixed_rank_refuted",
    "C98_line_of_points_refuted",
    "C98_sum_holes_refuted",
    "C98_identity_refuted"
   ],
   "note": "Horizontal places: in full for all methods and for two coordinates in constructors and sums. Refuted: third coordinates are lost (points, multilines) or raise AttributeError (lines, polygons, multipoints); Line and Polygon made of points in different systems mix raw coordinates; a sum of polygons loses the holes."
  },
  {
   "property": "C99",
   "status": "partial",
   "theorems": [
    "C99_best_partial",
    "C99_exists",
    "C99_exact",
    "C99_unique",
    "C99_recovered",
    "C99_lengths",
    "C99_rank_refuted",
    "C99_collinear_refuted"
   ],
   "note": "Two coordinates: in full, given that numpy.linalg.lstsq answers the call with a least squares solution (one exists: C99_exists). Refuted: control points with a third coordinate raise ValueError or LinAlgError; points on a line give one of infinitely many matrices without warning."
  },
  {
   "property": "C100",
   "status": "partial",
   "theorems": [
    "C100_edge_partial",
    "C100_ends",
    "C100_sphere_partial",
    "C100_methods",
    "C100_farther_refuted",
    "C100_short_refuted"
   ],
   "note": "On spheres for edges both ends of which are within a quarter of the circumference of the point; on ellipsoids given that the distance along the edge falls and then rises. The error also contains a ten-millionth of the edge (step of the numerical derivative). Refuted: when the distance first rises and then falls the wrong end is returned; without edges the distance is -1."
  },
  {
   "property": "C101",
   "status": "partial",
   "theorems": [
    "C101_answers",
    "C101_single",
    "C101_steady_found",
    "C101_steady_partial",
    "C101_meridian",
    "C101_polygon_refuted",
    "C101_turn_refuted",
    "C101_end_to_end_refuted",
    "C101_along_refuted",
    "C101_short_refuted",
    "C101_date_line_refuted",
    "C101_to_180_refuted",
    "C101_across_refuted",
    "C101_twice_refuted"
   ],
   "note": "Returns whenever no edge is repeated; exact for two edges, and for lines always eastward or westward with the heights of exact arithmetic; meeting such lines, and edges on meridians, are found whatever the heights. Refuted: polygons and turning lines are reported with others they do not meet; end-to-end contact, overlaps along a circle, short edges beyond 90E or 90W, lines over or up to the date line and edges across the equator are missed; a repeated edge never returns."
  },
  {
   "property": "C102",
   "status": "partial",
   "theorems": [
    "C102_quadtree_memory_partial",
    "C102_quadtree_memory_rational",
    "C102_quadtree_nan_memory",
    "C102_search_memory_refuted",
    "C102_doubles_refuted"
   ],
   "note": "Memory is safe, answers are those of C01 and the tree itself is given back, also after a NaN, for coordinates with exact midpoints. Missing because false: every search loses two blocks (its pool of results is never destroyed), and with doubles close together a freed leaf is used."
  },
  {
   "property": "C103",
   "status": "partial",
   "theorems": [
    "C103_moments",
    "C103_returned_partial",
    "C103_returns",
    "C103_closed",
    "C103_history",
    "C103_objects",
    "C103_kept_partial",
    "C103_geojson_refuted",
    "C103_emptied_refuted",
    "C103_deleted_refuted",
    "C103_unnoticed_refuted",
    "C103_unbound_refuted",
    "C103_object_closed_refuted"
   ],
   "note": "For all faults and crash points only the target changes, to a beginning of the new contents (shapefiles may be missing or have gaps); exports to text files that return are complete, all files are closed, and histories keep this. Refuted: an export that raises mostly has emptied or deleted the old file; shapefiles cut short are not reported; to_geojson hides why a file cannot be opened; to_aai closes the object it was given."
  },
  {
   "property": "C104",
   "status": "partial",
   "theorems": [
    "C104_resample_linear_partial",
    "C104_transform_nearest_partial",
    "C104_transform_linear_partial",
    "C104_align_nearest_partial",
    "C104_align_linear_partial",
    "C104_aligned_nearest",
    "C104_aligned_linear",
    "C104_refused",
    "C104_far_refuted",
    "C104_integers_refuted",
    "C104_nan_refuted"
   ],
   "note": "Grids (floating point, unsigned, and signed integers for points between the centres) with at least two rows and columns before and after; unskewed ones where the extent or the distance moved matters; one band with nearest (C55 refutes more). Refuted: multiples larger than the grid raise ValueError; integer grids aligned linearly mix in the opposite edge or raise IndexError; a nan spreads although nothing moves."
  },
  {
   "property": "C105",
   "status": "partial",
   "theorems": [
    "C105_balance_partial",
    "C105_unsplit_partial",
    "C105_leak_refuted",
    "C105_raised_refuted",
    "C105_twice_refuted"
   ],
   "note": "Dropping frees only blocks of the index, and what stays allocated is described exactly for every index. Refuted: every dropped index leaves the array of children of each node, all of each inner node and one block for each search; a constructor that raises leaves everything; equal boxes are freed twice after a split."
  },
  {
   "property": "C106",
   "status": "partial",
   "theorems": [
    "C106_methods",
    "C106_coordinates",
    "C106_properties",
    "C106_in_common",
    "C106_data_partial",
    "C106_independent",
    "C106_copies",
    "C106_settled",
    "C106_rows",
    "C106_vertices",
    "C106_moved_refuted",
    "C106_vertex_refuted",
    "C106_table_refuted",
    "C106_table_parts_refuted",
    "C106_half_refuted"
   ],
   "note": "Methods, coordinates, properties, and independence of unrelated geometries: in full, for all histories; data exactly for geometries that hold one Table. Missing: which changes of data are in common after Table(t). Refuted: assigning to a moved multipoint replaces data of the original; naming a vertex names its line; Table(t) has rows in common with t until a field is set; a failed m[k] = point has moved the vertex."
  },
  {
   "property": "C107",
   "status": "partial",
   "theorems": [
    "C107_contains",
    "C107_contains_raster",
    "C107_positions_partial",
    "C107_indices_partial",
    "C107_centres_partial",
    "C107_columns",
    "C107_rows",
    "C107_area_raster",
    "C107_area",
    "C107_contains_refuted",
    "C107_gap_refuted",
    "C107_cell_refuted",
    "C107_centre_refuted",
    "C107_area_refuted"
   ],
   "note": "Point in polygon exact for points clear of the edges and for coordinates of up to 25 bits; positions, cells, centres and their order in unrotated grids; areas exact for coordinates with few digits, with an error bound in general. Missing: rotated grids. Refuted: a point next to an edge of a triangle with coordinates below 16 is in both triangles that share the edge, or in neither; 2.2 is in the wrong cell of a grid of 0.2; centres 2^51 cells from the origin; areas 2^53 from the origin."
  },
  {
   "property": "C108",
   "status": "partial",
   "theorems": [
    "C108_always_answers",
    "C108_overlapping_sound",
    "C108_within_sound",
    "C108_within_found_partial",
    "C108_overlapping_found_partial",
    "C108_whole_sound",
    "C108_whole_exact_partial",
    "C108_bbox_partial",
    "C108_inside_missed_refuted",
    "C108_outside_found_refuted",
    "C108_small_missed_refuted",
    "C108_underflow_refuted",
    "C108_nan_refuted",
    "C108_bbox_refuted"
   ],
   "note": "The whole R-tree in floats. For every index: it answers for any doubles, what search_overlapping finds does overlap, what search_within finds sticks out by no more than the rounding. With no more boxes than maxchildren (C05 refutes more): everything inside or overlapping by more than the rounding is found, whole numbers up to 2^24 are treated exactly, the box is tight but for the rounding. Refuted: at a northing of 5000000, geometries 0.2 inside are missed and 0.2 outside are found, ones less than 0.5 high are never found by search_overlapping, the box of the index leaves out 0.2; areas below 2^-150 and NaN."
  },
  {
   "property": "C109",
   "status": "partial",
   "theorems": [
    "C109_methods",
    "C109_assigned",
    "C109_apart",
    "C109_new",
    "C109_stays_apart",
    "C109_independent",
    "C109_same_list",
    "C109_copy",
    "C109_nodata",
    "C109_in_place",
    "C109_read",
    "C109_rows",
    "C109_blocks",
    "C109_array_set",
    "C109_classes",
    "C109_bands_stay",
    "C109_nodata_shared_refuted",
    "C109_rows_refuted",
    "C109_rebind_refuted",
    "C109_append_refuted"
   ],
   "note": "For all histories: what is returned is new, what is assigned reaches exactly the grids with that band. Refuted: after set_nodata_value, cells without data are data in a grid with the same bands; rows of a grid with one simple band are windows into it, others are copies; g.bands = other changes nbands but not g[...]; a band appended to one grid is a band of the others with its list."
  },
  {
   "property": "C110",
   "status": "partial",
   "theorems": [
    "C110_clip",
    "C110_piece",
    "C110_fit",
    "C110_own_extent",
    "C110_clip_partial",
    "C110_piece_partial",
    "C110_accepted_partial",
    "C110_own_extent_refuted",
    "C110_pieces_refuted",
    "C110_half_cell_refuted"
   ],
   "note": "Exact for grids and boxes in multiples of a power of two with up to 26 bits; margins of error for all other unrotated grids. Missing: rotated grids. Refuted: clipping a grid with cells of 0.1 to the extent of its centres leaves no column; merge refuses pieces of a grid with cells of 0.1, and accepts grids half a cell apart that are 2^53 cells apart."
  },
  {
   "property": "C111",
   "status": "partial",
   "theorems": [
    "C111_table",
    "C111_extend_partial",
    "C111_assignment",
    "C111_history",
    "C111_one_band",
    "C111_mask_partial",
    "C111_apply_partial",
    "C111_vertex",
    "C111_extend_refuted",
    "C111_columns_refuted",
    "C111_mask_bands_refuted",
    "C111_apply_refuted",
    "C111_vertex_refuted"
   ],
   "note": "In full for assignments by key and for tables but extend; masks with one band, or that fit all bands or none; apply with one band; multipoints with a row for each vertex. Refuted: values with too few columns, masks with too few bands and apply on two bands leave the first band written; extend leaves the rows before an incomplete one; a vertex without a row of data is replaced."
  },
  {
   "property": "C112",
   "status": "partial",
   "theorems": [
    "C112_values",
    "C112_asjson_partial",
    "C112_asjson_error",
    "C112_asjson_refuted",
    "C112_checked_same",
    "C112_checktypes_refuted",
    "C112_checktypes_empty_refuted",
    "C112_checktypes_mixed_refuted",
    "C112_indexer_agrees",
    "C112_indexer_int",
    "C112_indexer_str",
    "C112_indexer_slice",
    "C112_contains",
    "C112_contains_refuted"
   ],
   "note": "The indexer in full. asjson writes every column correctly but inside one more list. The check of types exchanges the arguments of isinstance: it refuses every table with an ordinary value and every empty one, and accepts mixed columns of classes. in looks at the names of fields only. JSON as a tree; dictionaries and nan as values are not modelled."
  },
  {
   "property": "C113",
   "status": "partial",
   "theorems": [
    "C113_point",
    "C113_inside",
    "C113_outside",
    "C113_rows",
    "C113_columns",
    "C113_edge_refuted",
    "C113_sample",
    "C113_vector",
    "C113_vector_error"
   ],
   "note": "In exact arithmetic, for transforms that can be inverted and have dy other than zero. Refuted at the outer border: with an even number of rows (columns) the points on the far border raise, with an odd number they do not."
  },
  {
   "property": "C114",
   "status": "partial",
   "theorems": [
    "C114_compress",
    "C114_keywords",
    "C114_only",
    "C114_tiled_refuted",
    "C114_unknown_refuted",
    "C114_keyword_refuted",
    "C114_alias",
    "C114_shapefile",
    "C114_names",
    "C114_write_refuted"
   ],
   "note": "Compression, keywords and the names used by to_shapefile in full. Refuted: tiled is never passed on; unknown compressions are ignored without a word; a COMPRESS keyword comes after the default; write_shapefile does not add the ending that read_shapefile adds."
  },
  {
   "property": "C115",
   "status": "partial",
   "theorems": [
    "C115_default",
    "C115_own",
    "C115_all_partial",
    "C115_unchanged",
    "C115_read_all",
    "C115_urn_refuted",
    "C115_urn",
    "C115_force_refuted",
    "C115_read",
    "C115_line",
    "C115_label_refuted"
   ],
   "note": "In full for the default call and for urn with force_wgs84=False; every geometry read is in the system given to the reader. Refuted: as_geojson(urn=...) writes WGS84 positions under that URN; force_wgs84=False without a URN is a NameError; read_geojson does not look at the crs member."
  },
  {
   "property": "C116",
   "status": "partial",
   "theorems": [
    "C116_wgs84_partial",
    "C116_numbers",
    "C116_system_refuted",
    "C116_waypoint",
    "C116_route"
   ],
   "note": "For geometries in WGS84, to six decimals. Refuted for all others: numbers are written as they are and read as longitudes and latitudes, so eastings of 500 km become longitudes."
  },
  {
   "property": "C117",
   "status": "partial",
   "theorems": [
    "C117_extent_partial",
    "C117_centres_partial",
    "C117_tight_partial",
    "C117_bbox",
    "C117_bend_refuted",
    "C117_clip_partial",
    "C117_clip_more_refuted",
    "C117_clip_lost_refuted",
    "C117_sum_refuted"
   ],
   "note": "For transformations that keep straight lines the extent holds all of the grid and clip keeps all cells in the box. Refuted: with transformations that bend lines parts of the grid are outside of its extent and clip loses cells inside the box; clip keeps cells outside of a turned box; grids in different systems are added without a word. data_extent with crs is not modelled."
  },
  {
   "property": "C118",
   "status": "partial",
   "theorems": [
    "C118_nearest_partial",
    "C118_bilinear",
    "C118_forms",
    "C118_profile",
    "C118_profile_refuted",
    "C118_twice_refuted"
   ],
   "note": "Samples at points in other systems are those at the transformed points, however the positions are given (nearest: with one band or one point, as in C93). Refuted: profile with crs= transforms its points twice. A crs= beside a geometry has no effect (the theorems hold for every keyword kw). Transformations are a parameter that always succeeds."
  },
  {
   "property": "C119",
   "status": "partial",
   "theorems": [
    "C119_contains_partial",
    "C119_same_partial",
    "C119_numbers_partial",
    "C119_missed_refuted",
    "C119_false_refuted",
    "C119_intersections_refuted"
   ],
   "note": "contains transforms the point and is right off the edges (C30). Refuted for intersects and intersections: only the boxes are compared in one system, the vertices of the second geometry are used untransformed, so crossings are missed, invented or put in the wrong place. In one system intersects is as in C29. Geographical systems are not included."
  },
  {
   "property": "C120",
   "status": "partial",
   "theorems": [
    "C120_radius",
    "C120_polygon_partial",
    "C120_order",
    "C120_same",
    "C120_polygon_same_partial",
    "C120_straight_partial",
    "C120_radius_index",
    "C120_polygon_index",
    "C120_radius_refuted",
    "C120_polygon_refuted"
   ],
   "note": "Without an index exact in all systems (polygons: without holes, off the edges, as in C30); in one system the index makes no difference to within_radius, nor to within_polygon for points off the edges; the latter also for transformations that keep straight lines. Refuted with an index: within_radius searches round the untransformed numbers of the point and loses points at the very centre; within_polygon searches the box of the transformed vertices and loses points if the transformation bends lines. Geographical systems are not included."
  }
 ]
}