{
 "claims": [
  {
   "property": "C01",
   "status": "proved",
   "theorems": [
    "C01_count_children_exact",
    "C01_count_immediate_children",
    "C01_counts_add_up",
    "C01_counts_add_up_to_rows",
    "C01_count_all_levels_below",
    "C01_count_empty_level_raises"
   ],
   "note": "any depth; sums proved separately for unique ids"
  },
  {
   "property": "C02",
   "status": "proved",
   "theorems": [
    "C02_replicate_parent_ids",
    "C02_ancestor_is_unique",
    "C02_replicate_on_consistent_tree"
   ],
   "note": "unique ids per level; KeyError exactly when a chain is broken"
  },
  {
   "property": "C03",
   "status": "proved",
   "theorems": [
    "C03_prune_keeps_exactly_descendants",
    "C03_prune_empty_level_raises"
   ],
   "note": "any depth, any request list; empty dimensions raise AttributeError (also proved)"
  },
  {
   "property": "C04",
   "status": "proved",
   "theorems": [
    "C04_prune_request_order",
    "C04_prune_children_follow_parents"
   ],
   "note": "unique ids"
  },
  {
   "property": "C05",
   "status": "proved",
   "theorems": [
    "C05_prune_keeps_ancestors_once"
   ],
   "note": "order needs unique ids"
  },
  {
   "property": "C06",
   "status": "proved",
   "theorems": [
    "C06_prune_preserves_consistency",
    "C06_prune_chain_consistent"
   ],
   "note": "also for chains of requests"
  },
  {
   "property": "C07",
   "status": "proved",
   "theorems": [
    "C07_prune_composes",
    "C07_prune_idempotent"
   ],
   "note": "equality of the whole dataset, ancestors included"
  },
  {
   "property": "C08",
   "status": "proved",
   "theorems": [
    "C08_check_parent_child_exact",
    "C08_check_empty_level_raises",
    "C08_check_clean_iff"
   ],
   "note": "any depth"
  },
  {
   "property": "C09",
   "status": "partial",
   "theorems": [
    "C09_open_prunes_exactly_partial",
    "C09_open_self_consistent_partial",
    "C09_intact_tree_untouched",
    "C09_open_broken_succeeds",
    "C09_tree_becomes_consistent_refuted"
   ],
   "note": "exact description of what is kept; the claim that the whole tree becomes self-consistent is refuted (orphan and childless groups survive) and proved under the condition that every group names a flash and has an event"
  },
  {
   "property": "C10",
   "status": "partial",
   "theorems": [
    "C10_empty_file_opens_refuted",
    "C10_empty_file_opens_unchecked_partial",
    "C10_partly_empty_refuted"
   ],
   "note": "refuted: any empty dimension raises AttributeError with check_tree, ValueError without it unless all three are empty"
  },
  {
   "property": "C11",
   "status": "proved",
   "theorems": [
    "C11_opened_rows",
    "C11_counts_add_up"
   ],
   "note": "consistent files, any set order, any navigation"
  },
  {
   "property": "C12",
   "status": "proved",
   "theorems": [
    "C12_subset_exact",
    "C12_open_then_subset",
    "C12_subset_of_empty_raises"
   ],
   "note": "any set order; selection of the opened file and of further selections"
  },
  {
   "property": "C13",
   "status": "partial",
   "theorems": [
    "C13_check_off_refuted",
    "C13_events_in_view_refuted",
    "C13_some_event_in_view_partial"
   ],
   "note": "both readings of the flag refuted; each returned flash has one returned event in view"
  },
  {
   "property": "C14",
   "status": "proved",
   "theorems": [
    "C14_energies_after_opening",
    "C14_converted_once",
    "C14_reopen_never_scales_twice"
   ],
   "note": "reals, not floats: multiplication is exact in Q"
  },
  {
   "property": "C15",
   "status": "proved",
   "theorems": [
    "C15_areas_after_opening",
    "C15_area_checks_idempotent"
   ],
   "note": "reals, not floats"
  },
  {
   "property": "C16",
   "status": "partial",
   "theorems": [
    "C16_netcdf_exact_partial",
    "C16_functions_agree",
    "C16_one_step_partial",
    "C16_one_step_location_partial",
    "C16_locations_refuted",
    "C16_northernmost_refuted",
    "C16_fix_unsigned_refuted"
   ],
   "note": "Bit exact binary64 through SpecFloat. netCDF path exact; xarray path off by at most one code towards zero (error analysis in FloatProofs.v for every scale and offset of ordinary size), with explicit wrong codes."
  },
  {
   "property": "C17",
   "status": "proved",
   "theorems": [
    "C17_round_trip",
    "C17_output_names_parse",
    "C17_output_names_exist",
    "C17_accepted_stamps"
   ],
   "note": "years 1 to 9999 for parsing, 1000 to 9999 for output names; converse for 15-character stamps"
  },
  {
   "property": "C18",
   "status": "proved",
   "theorems": [
    "C18_stamp_order",
    "C18_name_order",
    "C18_stamp_injective"
   ],
   "note": ""
  },
  {
   "property": "C19",
   "status": "partial",
   "theorems": [
    "C19_revision_step_partial",
    "C19_dataset_revision",
    "C19_radii_refuted"
   ],
   "note": "Step function proved for all valid dates, and for the revision a dataset infers from its product time; ltg_ellps_radii calls the undefined name ltg_ellps_rev and raises NameError for every date."
  },
  {
   "property": "C20",
   "status": "proved",
   "theorems": [
    "C20_line_of_sight",
    "C20_every_location",
    "C20_unknown_revision",
    "C20_not_geodetic_on_lightning_ellipsoid"
   ],
   "note": "Exact reals; also shows the latitude is geodetic on GRS80, not on the lightning ellipsoid."
  },
  {
   "property": "C21",
   "status": "proved",
   "theorems": [
    "C21_subsatellite_point",
    "C21_mirror_latitude",
    "C21_mirror_longitude",
    "C21_whole_turns"
   ],
   "note": "Whole turns: any number, since the offset only enters through cos and sin."
  },
  {
   "property": "C22",
   "status": "proved",
   "theorems": [
    "C22_visible_one_to_one",
    "C22_visible_cap"
   ],
   "note": "Visibility defined as: no point strictly before it on the line of sight is in or on the ellipsoid."
  },
  {
   "property": "C23",
   "status": "partial",
   "theorems": [
    "C23_id_is_row_major_partial",
    "C23_same_id_iff_same_cell_partial",
    "C23_cells_are_intervals",
    "C23_default_fits_partial",
    "C23_ids_unique_refuted"
   ],
   "note": "ids are unique while the range is a whole number of cells along x; refuted otherwise by a counterexample; fits 64 bits for the default scale"
  },
  {
   "property": "C24",
   "status": "proved",
   "theorems": [
    "C24_table_conserves",
    "C24_position_is_mean",
    "C24_table_exists"
   ],
   "note": "exact rationals"
  },
  {
   "property": "C25",
   "status": "proved",
   "theorems": [
    "C25_counts_areas_minima",
    "C25_each_flash_once",
    "C25_missing_parent_raises"
   ],
   "note": ""
  },
  {
   "property": "C26",
   "status": "proved",
   "theorems": [
    "C26_chunks_split_selection",
    "C26_pixels_do_not_depend_on_chunks",
    "C26_chunk_size_does_not_matter"
   ],
   "note": "All chunk sizes, datasets and selections: chunks partition the selection, sizes even and below 2*chunk_size, whole flashes stay together; per pixel id sums, occupancy and minimum over the chunk tables are those of the whole selection, hence equal for any two chunk sizes. That positions (means) and so grids do depend on chunks is C51."
  },
  {
   "property": "C27",
   "status": "proved",
   "theorems": [
    "C27_area_is_signed_area",
    "C27_vectorized_agrees",
    "C27_translation",
    "C27_linear_map",
    "C27_start_vertex",
    "C27_reversal",
    "C27_diagonal_cut",
    "C27_fan_of_triangles",
    "C27_rectangle"
   ],
   "note": "exact rationals, any number of vertices"
  },
  {
   "property": "C28",
   "status": "proved",
   "theorems": [
    "C28_quads_are_cells",
    "C28_areas_add_up",
    "C28_regular_mesh",
    "C28_regular_mesh_ij",
    "C28_centres"
   ],
   "note": "signed areas; with meshgrid indexing ij all areas are negative"
  },
  {
   "property": "C29",
   "status": "partial",
   "theorems": [
    "C29_valid_and_distinct",
    "C29_box_inside_partial",
    "C29_nearest",
    "C29_enclosing_box_refuted",
    "C29_box_at_border_refuted",
    "C29_search",
    "C29_search_refuted"
   ],
   "note": "The lookup never fails on a mesh made by np.meshgrid (either indexing) from monotone edges, returns valid distinct cells, and finds every cell that meets a box whose lower limits are above the smallest edge and upper limits not above the largest; returned cells are at most two away from one that meets the box. Refuted beyond that: a box that touches the smallest edge or reaches outside loses cells, an enclosing box finds none. The point lookup is exact."
  },
  {
   "property": "C30",
   "status": "partial",
   "theorems": [
    "C30_aligned",
    "C30_succeeds_with_boxes",
    "C30_succeeds_without_box",
    "C30_explicit_box_refuted",
    "C30_single_cell_refuted"
   ],
   "note": "Alignment holds for any number of pieces per cell. The claim fails for an explicit box (UnboundLocalError for every non-empty input) and for a mesh of one cell without a box (ValueError)."
  },
  {
   "property": "C31",
   "status": "partial",
   "theorems": [
    "C31_fractions",
    "C31_mesh_fraction",
    "C31_mesh_fraction_ij_refuted",
    "C31_energy"
   ],
   "note": "Fractions and energy proved for every clipping function; the mesh fraction for the 'xy' mesh the gridding code builds. With 'ij' indexing the mesh fraction is negative (refuted)."
  },
  {
   "property": "C32",
   "status": "proved",
   "theorems": [
    "C32_rows",
    "C32_lookup_path",
    "C32_lookup_path_exists",
    "C32_plain_path"
   ],
   "note": "Both paths, any number of pieces; the time column is not modelled."
  },
  {
   "property": "C33",
   "status": "proved",
   "theorems": [
    "C33_one_row_per_cell",
    "C33_sums_preserved",
    "C33_merged_iff_same_cell"
   ],
   "note": "All batches of split events with non-negative mesh indices; the empty batch raises ValueError, see C50."
  },
  {
   "property": "C34",
   "status": "proved",
   "theorems": [
    "C34_adds_every_value_once",
    "C34_order_and_batching_free",
    "C34_repeated_cell_keeps_last",
    "C34_outside_raises",
    "C34_selection"
   ],
   "note": "exact rationals; NaN absorbs"
  },
  {
   "property": "C35",
   "status": "proved",
   "theorems": [
    "C35_least_positive_value",
    "C35_continues",
    "C35_order_and_batching_free",
    "C35_outside_raises"
   ],
   "note": "exact rationals"
  },
  {
   "property": "C36",
   "status": "proved",
   "theorems": [
    "C36_observed_energy",
    "C36_cells",
    "C36_total_share",
    "C36_total_energy",
    "C36_full_coverage",
    "C36_minimum",
    "C36_succeeds",
    "C36_file_order"
   ],
   "note": "From opened datasets (any number of files and chunks) to the six grids of one frame; pyclipper, the KD-tree and the corner lookup are parameters with stated hypotheses. C36_observed_energy joins it with the selection (C12), chunks (C26) and table (C24): the grid total is the energy of all events of the selected flashes, each once."
  },
  {
   "property": "C37",
   "status": "proved",
   "theorems": [
    "C37_pixels_at_their_coordinates",
    "C37_writing_succeeds"
   ],
   "note": "All grids, paddings, frame counts, both output modes, from the arrays of the gridder to the content of the files; includes that earlier frames and fields do not leak into later files."
  },
  {
   "property": "C38",
   "status": "partial",
   "theorems": [
    "C38_every_average",
    "C38_averages_partial",
    "C38_small_counts_refuted",
    "C38_writing_again_refuted",
    "C38_writing_again_partial"
   ],
   "note": "Refuted twice: in scaled output a density below 1/16 is raised to 1/16 before dividing (100 written as 50), and writing divides the arrays themselves so a second write divides again. C38_every_average is exact for every density: the total over the larger of density and step. Partial: the quotient is the true average for all densities of at least one step, all frames, both modes; undivided fields are the same however often written."
  },
  {
   "property": "C39",
   "status": "proved",
   "theorems": [
    "C39_lightning_is_not_lost",
    "C39_order_is_kept"
   ],
   "note": "For every undivided field of every file: zero missing, positive within half a step up to 65535 steps, order kept; xarray's packing (half-even rounding, low 16 bits, fill 0) is modelled from its documentation."
  },
  {
   "property": "C40",
   "status": "partial",
   "theorems": [
    "C40_each_frame_once_partial",
    "C40_interval_values",
    "C40_fields",
    "C40_other_fields_refuted",
    "C40_totals_partial",
    "C40_succeeds",
    "C40_first_frame_refuted",
    "C40_first_frame_lost_refuted",
    "C40_group_area_refuted",
    "C40_group_area_partial",
    "C40_files_to_totals_partial"
   ],
   "note": "Refuted: with the default range the first frame of every series is in no interval (bins are open on the left), and average_group_area is computed from the flash fields. Partial: every later frame is in exactly one interval, sums over intervals equal sums over those frames, average flash area is the density-weighted mean, minimum is the minimum; also from listed files to totals. Refuted too: fields outside a fixed list (event_density, DQF, ...) are dropped, not summed; C40_fields gives the exact variables of the result."
  },
  {
   "property": "C41",
   "status": "proved",
   "theorems": [
    "C41_edges",
    "C41_tiles_join"
   ],
   "note": "All bounds, spacings, tile counts in exact arithmetic: edges, whole cells per tile, unique tile per point; and when the domain is a whole number of cells the coordinates written by the tiles join to those of the undivided grid."
  },
  {
   "property": "C42",
   "status": "proved",
   "theorems": [
    "C42_trim_inverts_padding",
    "C42_captured_call",
    "C42_tiles"
   ],
   "note": "Any padding including zero: trimming inverts padding for coordinates and 2-D grids (captured call), and for every tile of every subdivision; the pixels of the files are C37."
  },
  {
   "property": "C43",
   "status": "partial",
   "theorems": [
    "C43_options_partial",
    "C43_options_refuted"
   ],
   "note": "Refuted for every run with two or more tiles: the shared dictionary of options is emptied by the first tile, so later tiles are always scaled. Partial: first tile uses the options, all tiles use their own padding, all tiles agree if the options ask for scaled output."
  },
  {
   "property": "C44",
   "status": "partial",
   "theorems": [
    "C44_frames_have_own_names_partial",
    "C44_tiles_partial",
    "C44_names_partial",
    "C44_tiles_overwrite_refuted"
   ],
   "note": "Refuted for tiles: tiles of one frame written within the same second get one name and overwrite each other (computed run). Partial: names differ, and no file is lost, when start, end or time of writing are a second apart."
  },
  {
   "property": "C45",
   "status": "partial",
   "theorems": [
    "C45_custom_grid",
    "C45_sector_grid",
    "C45_latlong_grid",
    "C45_limits_and_options",
    "C45_tiles",
    "C45_nearest_resolution",
    "C45_binary_width_refuted"
   ],
   "note": "Bounds, sector grids, lat/lon grids, limits and tiles of the example driver over exact numbers (C45_*). Refuted for binary floating point: 0.6/0.2 truncates to 2 cells (C45_binary_width_refuted)."
  },
  {
   "property": "C46",
   "status": "proved",
   "theorems": [
    "C46_records_kept",
    "C46_one_kind"
   ],
   "note": "Three readers on ASCII text with universal newlines; exact decimals instead of binary64; inf, nan and underscores are outside the model. The later xarray merge is not modelled."
  },
  {
   "property": "C47",
   "status": "proved",
   "theorems": [
    "C47_rows_are_pixels",
    "C47_nearest_pixel",
    "C47_both_masked_needed"
   ],
   "note": "Shapes equal, at least one row; the KDTree is any function returning a row of least distance. The docstring example queries (lat, lon) against a tree of (lon, lat): not modelled (documentation)."
  },
  {
   "property": "C48",
   "status": "partial",
   "theorems": [
    "C48_products",
    "C48_plain_class_refuted",
    "C48_centroids"
   ],
   "note": "Proved for the class with the lookup table: arrays, names and statistics line up for all six area, energy and extent products (equal to gridding the files of the frame) and both centroid counts. Refuted for the plain class: it asks for more pipelines than it unpacks, so setting it up always raises."
  },
  {
   "property": "C49",
   "status": "partial",
   "theorems": [
    "C49_lookup_covers_partial",
    "C49_far_cells_refuted",
    "C49_boxes_cover"
   ],
   "note": "Proved for polygons that extend at most two cells from their vertex mean; refuted for all others: cells three or more away are never looked up, so their share of the energy is lost (example: 5/8 kept). With bbox=True every cell the extent meets is looked up, and none further than two cells (C49_boxes_cover)."
  },
  {
   "property": "C50",
   "status": "partial",
   "theorems": [
    "C50_chunk_off_grid_refuted"
   ],
   "note": "Refuted: a chunk all of whose pixels are off the grid makes the whole run raise, for every such input. C36_succeeds gives the condition under which runs succeed."
  },
  {
   "property": "C51",
   "status": "partial",
   "theorems": [
    "C51_chunk_size_partial",
    "C51_chunk_size_refuted",
    "C51_all_grids_partial"
   ],
   "note": "Refuted by a computed counterexample (two flashes in one pixel, chunk size 1 and 2). Partial: all six grids equal whenever the polygon of a pixel is the same in all chunks."
  },
  {
   "property": "C52",
   "status": "partial",
   "theorems": [
    "C52_saturation_refuted"
   ],
   "note": "Refuted: 65536 steps come back as missing (low 16 bits of the integer are kept)."
  },
  {
   "property": "C53",
   "status": "partial",
   "theorems": [
    "C53_one_column_refuted",
    "C53_two_columns_partial",
    "C53_narrow_tiles_refuted"
   ],
   "note": "Refuted: one column (or none) raises IndexError for every content; subdividing into tiles of fewer than two columns always fails. Partial: two columns or more always succeed, one file per frame."
  },
  {
   "property": "C54",
   "status": "proved",
   "theorems": [
    "C54_series_of_files"
   ],
   "note": "All lists of files."
  },
  {
   "property": "C55",
   "status": "proved",
   "theorems": [
    "C55_angles_small"
   ],
   "note": "Exact reals."
  },
  {
   "property": "C56",
   "status": "proved",
   "theorems": [
    "C56_corners_around_event",
    "C56_inflation",
    "C56_exact_at_nodes",
    "C56_outside",
    "C56_table_from_file"
   ],
   "note": "scipy interpolators are parameters with their assumed behaviour as hypotheses (linear values lie between the table's extremes; nearest values are table values)."
  },
  {
   "property": "C57",
   "status": "partial",
   "theorems": [
    "C57_cut_file_partial",
    "C57_cut_count_refuted"
   ],
   "note": "Proved up to the last column of the cut line; refuted for that column (a count of 12 cut to 1 is read without an error)."
  },
  {
   "property": "C58",
   "status": "partial",
   "theorems": [
    "C58_window_from_names",
    "C58_consecutive_files",
    "C58_command_line_times",
    "C58_only_times_accepted",
    "C58_other_names_partial",
    "C58_explicit_times_partial",
    "C58_other_names_refuted"
   ],
   "note": "Window and ISO times proved for standard names (C58_window_from_names, C58_consecutive_files, C58_command_line_times); texts that name no time are refused (C58_only_times_accepted). Names outside the standard pattern: without explicit times, or mixed with them, the run fails (C58_other_names_refuted); with both explicit times it works when no name parses (C58_other_names_partial)."
  },
  {
   "property": "C59",
   "status": "partial",
   "theorems": [
    "C59_one_frame",
    "C59_frames_add_up",
    "C59_event_times_partial",
    "C59_event_times_refuted",
    "C59_same_frame_refuted"
   ],
   "note": "Edges partition times and summed products add up over frames. Refuted: energies and extents are put in the frame of the product time of their file, not of the event, so with frames not aligned to files a frame can miss the energy of its events and have flash positions without extents. Partial: under alignment (every event in the frame of its file's product time) a frame holds exactly the energy of its events."
  },
  {
   "property": "C60",
   "status": "partial",
   "theorems": [
    "C60_every_average",
    "C60_written_products_partial",
    "C60_written_counts"
   ],
   "note": "Whole run from opened files to written files. C60_every_average says what an average shows at any extent density: the total over the larger of the density and its stored step; it is the true average for densities of at least one step (see C38)."
  },
  {
   "property": "C61",
   "status": "partial",
   "theorems": [
    "C61_calls_refuted",
    "C61_calls_partial"
   ],
   "note": "Refuted for calls without ellipse_rev (KeyError), without clip_events (ValueError) and without lightning in any file (AttributeError). Partial: with both, some lightning, at least two columns and one row, and files that can be gridded, the run completes with one file per frame."
  },
  {
   "property": "C62",
   "status": "partial",
   "theorems": [
    "C62_scene_and_resolution",
    "C62_sector_grids_fit",
    "C62_custom_grids_refuted"
   ],
   "note": "Scene and resolution of every written file are characterised; sector grids of 100+ columns are recognised. Refuted: images of different size with the same times can share a path because unlisted sizes use the mesoscale letter."
  },
  {
   "property": "C63",
   "status": "partial",
   "theorems": [
    "C63_coordinates_partial",
    "C63_fine_grids_refuted",
    "C63_half_way_refuted"
   ],
   "note": "Within half a step always; distinct and exact under the stated spacing and phase. Refuted without: finer spacing, or centres half way between codes, collide."
  },
  {
   "property": "C64",
   "status": "proved",
   "theorems": [
    "C64_times_of_frames"
   ],
   "note": "Exact for times 1678-2261 (range of pandas timestamps)."
  },
  {
   "property": "C65",
   "status": "partial",
   "theorems": [
    "C65_paths_and_files",
    "C65_frames_keep_their_files",
    "C65_writing_succeeds",
    "C65_bare_name_refuted",
    "C65_coarse_template_refuted"
   ],
   "note": "Paths, contents and frame condition for all file systems; success with a directory template. Refuted: template without directory always raises; template coarser than frames keeps the last only."
  },
  {
   "property": "C66",
   "status": "partial",
   "theorems": [
    "C66_nothing_lost",
    "C66_reading_back",
    "C66_counts_survive_partial"
   ],
   "note": "Reading back proved for any frames in any order (distinct paths). Counts survive: partial because the first frame is dropped by aggregate's default binning (C40); C66_nothing_lost: with a range that starts before the first frame all frames are counted."
  },
  {
   "property": "C67",
   "status": "proved",
   "theorems": [
    "C67_points",
    "C67_sent",
    "C67_joining",
    "C67_chunk_size"
   ],
   "note": "Float32 rounding of the columns is not modelled; ids are kept as 32-bit signed integers, and joining by id is proved for ids within a range of 2^32."
  },
  {
   "property": "C68",
   "status": "partial",
   "theorems": [
    "C68_n_points_partial",
    "C68_n_points_refuted"
   ],
   "note": "Refuted in general (n_points is the low 16 bits of the number of events of the chunk); partial: right with one flash per chunk."
  },
  {
   "property": "C69",
   "status": "partial",
   "theorems": [
    "C69_one_file",
    "C69_collection_partial",
    "C69_same_second_refuted"
   ],
   "note": "Partial: under distinct whole seconds. LMAh5Collection of lmatools is assumed to collect and sort the times and to iterate data_for_time."
  },
  {
   "property": "C70",
   "status": "partial",
   "theorems": [
    "C70_base_date_refuted"
   ],
   "note": "Refuted: the argument never reaches the data."
  },
  {
   "property": "C71",
   "status": "partial",
   "theorems": [
    "C71_flashes_in_polygon",
    "C71_events_refuted",
    "C71_bounds_partial",
    "C71_bounds_refuted"
   ],
   "note": "Flashes proved; events refuted. The polygon test of lmatools is an arbitrary mask."
  },
  {
   "property": "C72",
   "status": "proved",
   "theorems": [
    "C72_flash_init",
    "C72_without_groups"
   ],
   "note": "Ids of flashes are assumed to fit 32-bit signed integers."
  },
  {
   "property": "C73",
   "status": "partial",
   "theorems": [
    "C73_fixed_grid_refuted",
    "C73_single_grid_partial"
   ],
   "note": "Refuted for the fixed grid: GLMlutGridder.write_grids never calls the writer through which names are captured, so every entry is an empty list although all files are written (make_grids.py 599-609, 728-757). Proved exact for the single grid (latlong or other projections)."
  },
  {
   "property": "C74",
   "status": "partial",
   "theorems": [
    "C74_missing_arguments",
    "C74_value_not_used_refuted",
    "C74_sufficient_arguments_partial",
    "C74_arguments_passed_on"
   ],
   "note": "Missing arguments proved to raise with the state unchanged; arguments proved to reach the gridder and the data by name and value, and nothing else to be asked. Refuted: the value of clip_events is never looked at (False acts as True), and output_writer must be given for the fixed grid although its value makes no difference. Sufficient arguments proved for the fixed grid when the data prepared for each tile can be written and the output goes to the working directory."
  },
  {
   "property": "C75",
   "status": "partial",
   "theorems": [
    "C75_calls_without_options",
    "C75_caller_dictionary_refuted"
   ],
   "note": "Calls without output_kwargs proved independent of any history of calls. Refuted for a dictionary owned by the caller: every successful call removes scale_and_offset and pad from it, so the second call ignores scale_and_offset=False."
  },
  {
   "property": "C76",
   "status": "proved",
   "theorems": [
    "C76_whole_files_only",
    "C76_every_file_complete"
   ],
   "note": "Exceptions within to_netcdf itself (part of one file) are not modelled."
  },
  {
   "property": "C77",
   "status": "partial",
   "theorems": [
    "C77_times_corrected_partial",
    "C77_other_files_unchanged",
    "C77_rows_removed_refuted",
    "C77_dataset_refuted",
    "C77_rearranged_refuted"
   ],
   "note": "Proved for files with an intact tree (or check_tree off), and for files outside of the period with any tree. Refuted: if the repair of the tree removes a flash or an event, opening raises; if it only rearranges rows (a group without events), times are put beside other groups; a dataset in memory of that period can not be opened. Times are exact (xarray rounds to nanoseconds)."
  },
  {
   "property": "C78",
   "status": "partial",
   "theorems": [
    "C78_degrees_refuted",
    "C78_near_zero_partial"
   ],
   "note": "Refuted for every coordinate more than 2 degrees from zero: the packing for radians (int16 steps of 56 microradians) is used for all grids, so what is read lies between -2 and 2. Proved up to half a step within 1.6 degrees of zero. Arithmetic of packing is exact; conversion to int16 keeps the low 16 bits (the refutation does not depend on that)."
  },
  {
   "property": "C79",
   "status": "partial",
   "theorems": [
    "C79_split_points",
    "C79_default_table_refuted"
   ],
   "note": "Full description of parents and points for every chunk, mesh and table (C79_split_points). corner_pickle=None, documented as the built-in table, raises for every chunk (C79_default_table_refuted)."
  },
  {
   "property": "C80",
   "status": "partial",
   "theorems": [
    "C80_event_energy",
    "C80_footprint_energy",
    "C80_flash_energy_partial",
    "C80_separate_parts_refuted"
   ],
   "note": "Events: energy times the covered share (C80_event_energy). Groups and flashes: energy times the sum of the shares of all parts (C80_footprint_energy); kept for a footprint of one part (C80_flash_energy_partial), multiplied by the number of parts otherwise (C80_separate_parts_refuted)."
  },
  {
   "property": "C81",
   "status": "partial",
   "theorems": [
    "C81_lonlat_not_used_refuted",
    "C81_western_hemisphere_refuted"
   ],
   "note": "The image of a chunk is the same whatever the longitudes and latitudes (C81_lonlat_not_used_refuted); for every grid west of one degree west, any selection with a flash stops the run (C81_western_hemisphere_refuted), because scan angles are taken for degrees. Runs without clip_events are C48/C59."
  },
  {
   "property": "C82",
   "status": "proved",
   "theorems": [
    "C82_fractions",
    "C82_grid_energy",
    "C82_full_cell",
    "C82_pixel_error"
   ],
   "note": "scale_to_clipper truncates v*2**31 towards zero; pyclipper's own rounding of intersection points is the parameter eta. Replaces the exact covering of C36 by a bound that truncated coordinates can meet."
  },
  {
   "property": "C83",
   "status": "partial",
   "theorems": [
    "C83_panels_show_the_data",
    "C83_plots_when",
    "C83_products_shown",
    "C83_all_products_refuted",
    "C83_drawn_near_coordinates_partial",
    "C83_drawn_at_coordinates_refuted",
    "C83_increasing_y_refuted",
    "C83_written_image_partial",
    "C83_example_keeps_data_refuted",
    "C83_captions_partial",
    "C83_event_caption_refuted"
   ],
   "note": "Values, order, labels and success proved exactly (C83_panels_show_the_data, C83_plots_when). The extent runs between the centers of the outer pixels, so only the middle is drawn at its coordinates (C83_drawn_at_coordinates_refuted); the exact displacement, below half a pixel, is C83_drawn_near_coordinates_partial. All eight products do not fit the default layout; y increasing is drawn upside down; the plotting function of the examples overwrites missing values in memory. Captions and colour limits are right for every field (C83_captions_partial) except that event_density is labelled Group Extent Density (C83_event_caption_refuted)."
  },
  {
   "property": "C84",
   "status": "proved",
   "theorems": [
    "C84_flash_drawn",
    "C84_drawn_when",
    "C84_same_after_selection"
   ],
   "note": "Exact rows drawn (C84_flash_drawn), success exactly when the flash exists (C84_drawn_when), independence of earlier selections (C84_same_after_selection). Colours and markers are not modelled."
  },
  {
   "property": "C85",
   "status": "partial",
   "theorems": [
    "C85_invalid_reported_refuted",
    "C85_completes_when",
    "C85_empty_file_ends_script_refuted",
    "C85_valid_files_pass_partial"
   ],
   "note": "Refuted for every list of files: opening repairs broken links and no step raises KeyError, so no file is ever reported (C85_invalid_reported_refuted), and any file that cannot be opened ends the script (C85_completes_when, C85_empty_file_ends_script_refuted). Valid files pass (C85_valid_files_pass_partial). Missing variables, which would raise KeyError, are outside the model."
  },
  {
   "property": "C86",
   "status": "partial",
   "theorems": [
    "C86_bounds_of_events",
    "C86_selection_keeps_all_refuted",
    "C86_selection_partial"
   ],
   "note": "Tight bounds proved (C86_bounds_of_events). Ranges are open intervals, so a flash on the bounds is lost (C86_selection_keeps_all_refuted); otherwise nothing is (C86_selection_partial)."
  },
  {
   "property": "C87",
   "status": "partial",
   "theorems": [
    "C87_pixels_of_the_sector",
    "C87_check_of_the_sector",
    "C87_standard_sectors_pass_partial",
    "C87_any_centre_refuted"
   ],
   "note": "The check passes exactly if the centre is one where the pixels can be stored, up to its tolerance; for other centres it fails."
  },
  {
   "property": "C88",
   "status": "partial",
   "theorems": [
    "C88_methods_agree",
    "C88_without_groups_refuted"
   ],
   "note": "The three ways agree when every flash has a group; for a flash without groups the calculation raises while the other ways skip it."
  },
  {
   "property": "C89",
   "status": "partial",
   "theorems": [
    "C89_images_partial",
    "C89_same_minute_refuted",
    "C89_blank_in_directory_refuted",
    "C89_place_of_minute"
   ],
   "note": "all images saved and right (also which file); refuted: a later time of the same minute replaces the earlier image, and a directory with a blank or colon makes the script fail because only the file name is tidied after the directory was made"
  },
  {
   "property": "C90",
   "status": "partial",
   "theorems": [
    "C90_units_partial",
    "C90_other_projections_partial",
    "C90_area_refuted",
    "C90_interval_refuted"
   ],
   "note": "Proved: the eight variables with their names, long names and units; the area in the label is the nominal one or one less; the interval is the nearest tenth of a minute, exact for multiples of 6 s. Refuted: at 280 microradians (10 km) the label says 78399 instead of 78400 square microradians (bit exact); intervals that are no multiple of 6 s (20 s) are written wrong."
  },
  {
   "property": "C91",
   "status": "partial",
   "theorems": [
    "C91_lines_partial",
    "C91_valid_at_time",
    "C91_last_image",
    "C91_time_column_refuted",
    "C91_next_lasso_refuted"
   ],
   "note": "Proved for the lassos valid one second after the time of the image (the code adds a second), with times that are exact in 32 bits; this is the lasso valid at the time if none changes within that second (C91_valid_at_time). Refuted: an image less than a second before a change gets the next lasso; lines without positive values have a time that is not ISO. An image at the end of the last lasso is listed with zeros whatever it shows (C91_last_image). The lookup by times and polygons of lmatools is a parameter."
  },
  {
   "property": "C92",
   "status": "partial",
   "theorems": [
    "C92_line_of_sight_partial",
    "C92_other_satellite_refuted",
    "C92_consistent_variables",
    "C92_flag_number_refuted"
   ],
   "note": "partial: the line of sight theorem needs the longitude of the run to be that of the files, which the code does not check (refuted otherwise); attribute number_of_qf_values is wrong (refuted)"
  },
  {
   "property": "C93",
   "status": "partial",
   "theorems": [
    "C93_counts_exact",
    "C93_sums",
    "C93_counts_stop_refuted"
   ],
   "note": "partial: exact and error-bounded totals are proved; counting beyond 2^24 per cell is refuted"
  },
  {
   "property": "C94",
   "status": "partial",
   "theorems": [
    "C94_any_bounds_partial",
    "C94_tiles_partial",
    "C94_total_partial",
    "C94_full_disk_refuted",
    "C94_conus_refuted",
    "C94_padding"
   ],
   "note": "Refuted: cells are shared by tiles or lie beyond the grid because the numbers of cells are computed in binary arithmetic (bit exact, standard grids). Partial: positions right to two millionths of a cell, at most one cell more per tile, none lost. The edges np.arange(lo, hi+d, d) of lmatools are assumed as in C41, with the length numpy computes."
  },
  {
   "property": "C95",
   "status": "proved",
   "theorems": [
    "C95_cells_found",
    "C95_no_cell_missed",
    "C95_box_around"
   ],
   "note": "Exact arithmetic. The function is not called by the rest of the code. For boxes around the mesh it finds every cell where the lookup in use (C29) finds none."
  },
  {
   "property": "C96",
   "status": "partial",
   "theorems": [
    "C96_dataset_of_listing",
    "C96_tree_of_listing",
    "C96_opened_as_production_refuted"
   ],
   "note": "Names, order, coordinates and the tree are proved for every listing. That the file opens as a production file is refuted: the converted dataset has no field of view bounds, product times or units, so the reader raises for every listing unless all four of its options are switched off."
  },
  {
   "property": "C97",
   "status": "partial",
   "theorems": [
    "C97_other_files",
    "C97_last_saved",
    "C97_without_name",
    "C97_never_saved",
    "C97_saving_works",
    "C97_three_parts_refuted",
    "C97_interrupted_refuted"
   ],
   "note": "Histories, names and bytes are proved. Refuted: a loaded lookup always has five parts, so unpacking the documented three raises; and a process ending anywhere before the last byte leaves a file that cannot be loaded, the old contents being lost."
  },
  {
   "property": "C98",
   "status": "partial",
   "theorems": [
    "C98_lookup_of_file",
    "C98_nearest_partial",
    "C98_west_negative_refuted",
    "C98_documented_query_refuted"
   ],
   "note": "Every located pixel is listed once; with east longitudes of 180 to 360 in the file and a query (lon, lat) the answer is the nearest pixel. Refuted: files with other longitudes (all pixels beyond 180 west) and the documented query (lat, lon)."
  },
  {
   "property": "C99",
   "status": "partial",
   "theorems": [
    "C99_every_history",
    "C99_every_schedule",
    "C99_each_chunk_once",
    "C99_ends",
    "C99_call_raises_when",
    "C99_results_before_exception_refuted"
   ],
   "note": "Order, single computation, death of workers and termination proved for every history. Refuted: the results of arguments in the same chunk before one that raises are lost, in every history (default chunks of 100)."
  },
  {
   "property": "C100",
   "status": "partial",
   "theorems": [
    "C100_id_of_cell_partial",
    "C100_exact_inside_partial",
    "C100_same_id_close_partial",
    "C100_pixels_apart_partial",
    "C100_same_cell_refuted",
    "C100_last_column_refuted"
   ],
   "note": "Refuted by computation: locations 448 and 449 cells of 28e-6 above -0.31 lie in different cells and share an id, and a location 0.4 cells before the first lies in its cell with another id; the last column shares ids with the next row as in exact arithmetic (C23). Proved: ids are row-major pairs of floors of positions at most 1.5e-8 of a cell away, equal to the exact ids away from boundaries; one id means at most a cell apart; 224 microradian pixels are never merged up to x = 0.30997. Left out: locations above the lower end by less than 2^-800."
  },
  {
   "property": "C101",
   "status": "partial",
   "theorems": [
    "C101_options_and_files",
    "C101_any_order",
    "C101_two_dashes",
    "C101_files_in_two_places_refuted",
    "C101_exponent_refuted",
    "C101_unknown_refused",
    "C101_ambiguous_refused",
    "C101_corner_points_refuted",
    "C101_runs_alike",
    "C101_what_is_gridded"
   ],
   "note": "argparse is modelled after CPython 3.8-3.11. Refuted: file names on both sides of an option exit with status 2; a negative value with an exponent (-9.5e1) is refused as an argument of its own; --corner_points has no effect on the gridding call. Left out: --lma, infinities and NaN as values, texts of messages, line ends in arguments."
  },
  {
   "property": "C102",
   "status": "partial",
   "theorems": [
    "C102_succeeds_with_its_parts",
    "C102_runs_add_up",
    "C102_aggregated_runs_partial",
    "C102_whole_period_refuted",
    "C102_group_area_refuted"
   ],
   "note": "Success and all sums hold for every split without conditions. Aggregated intervals agree for counts, energy, average and minimum flash area if the files are usable and flash areas and pixel sizes are positive. Refuted: nothing is lost when aggregating from the start of the first run (intervals are open on the left, so the first run falls in none), and the average group area (computed from the flash fields)."
  },
  {
   "property": "C103",
   "status": "proved",
   "theorems": [
    "C103_part",
    "C103_parts_add_up",
    "C103_cells",
    "C103_total",
    "C103_observed_energy",
    "C103_full_cell",
    "C103_integer_energy"
   ],
   "note": "The clipping library is a parameter: exact on convex polygons and rectangles (C103_cells, C103_total, C103_observed_energy, C103_full_cell), or exact up to eta square steps on integer coordinates (C103_integer_energy). C103_part and C103_parts_add_up say what the reference overlap is. Pixels that are not convex, or reach further than two cells from their centre (C49), are left out."
  },
  {
   "property": "C104",
   "status": "proved",
   "theorems": [
    "C104_edges",
    "C104_centres",
    "C104_cell",
    "C104_tiles",
    "C104_column_code",
    "C104_row_code",
    "C104_two_km",
    "C104_two_km_tiles",
    "C104_order"
   ],
   "note": "Bit exact in binary64. The edges are those of numpy's arange (the first two elements and their difference) as lmatools calls it, and the packing is xarray's (subtract, divide, round to even, cast); both are external and modelled from their documentation and sources as we know them. What is read back for a code is in C63."
  },
  {
   "property": "C105",
   "status": "partial",
   "theorems": [
    "C105_selection",
    "C105_table",
    "C105_grids",
    "C105_any_chunks_partial",
    "C105_small_chunks_refuted"
   ],
   "note": "Selection, table and (one chunk per file) all six grids are proved independent of row order; with several chunks per file it is proved when a pixel's polygon is the same in all chunks, and refuted otherwise by a four-flash example (the same defect as C51: a pixel's position is the mean over the chunk)."
  },
  {
   "property": "C106",
   "status": "proved",
   "theorems": [
    "C106_total",
    "C106_files_in_any_order",
    "C106_regions_add",
    "C106_larger_region",
    "C106_gridded_total"
   ],
   "note": "Sums are exact (xarray sums doubles); NaN energies are skipped as xarray does. Files are assumed complete and consistent (broken ones are C09, C10)."
  },
  {
   "property": "C107",
   "status": "partial",
   "theorems": [
    "C107_chain",
    "C107_any_order",
    "C107_combined_partial",
    "C107_combined_refuted",
    "C107_nothing_left_refuted"
   ],
   "note": "Refuted parts: an empty intermediate selection makes the next one raise AttributeError; two selections with fixed grid ranges are weaker than one with both (one event must lie in both ranges)."
  },
  {
   "property": "C108",
   "status": "partial",
   "theorems": [
    "C108_common_cell",
    "C108_selection",
    "C108_noted_minima",
    "C108_corner_pickle",
    "C108_tiles_partial",
    "C108_long_flash_refuted"
   ],
   "note": "C108_common_cell is unconditional on where the flashes are; C108_tiles_partial is the same for a tile and the undivided grid and needs the centroid of every flash with light in the cell within the padded bounds of the tile. C108_long_flash_refuted shows a flash whose light is missing from a tile because its centroid is beyond the padding of 28e-4 rad. Files are read in one chunk each (C51 shows what chunks change)."
  },
  {
   "property": "C109",
   "status": "proved",
   "theorems": [
    "C109_counts",
    "C109_empty_together",
    "C109_average_area",
    "C109_minimum_below_average",
    "C109_at_most_selected"
   ],
   "note": "Run over usable files (C26's notion); pixel outlines must not have size zero; the bound by the number of selected flashes needs outlines that do not overlap in the cell."
  },
  {
   "property": "C110",
   "status": "proved",
   "theorems": [
    "C110_writing_succeeds",
    "C110_directories",
    "C110_own_files",
    "C110_calls_keep_files"
   ],
   "note": "The month is abbreviated as in the C locale; the two templates are those in make_GLM_grids.py and in the docstrings of write_goes_imagery and the gridder."
  },
  {
   "property": "C111",
   "status": "proved",
   "theorems": [
    "C111_resolutions",
    "C111_between",
    "C111_minimum"
   ],
   "note": "Exact clipping as in C103; the pixels must be on both grids and no larger than the lookup of the finer grid reaches (two cells from the mean of the corners)."
  },
  {
   "property": "C112",
   "status": "proved",
   "theorems": [
    "C112_grids",
    "C112_selection",
    "C112_table"
   ],
   "note": "Grids compared cell by cell as numbers (feq). The polygon of a pixel must depend on its position only (by_position). One chunk per file as in C105; with several chunks the order decides which flashes are put together (C105_small_chunks_refuted)."
  },
  {
   "property": "C113",
   "status": "partial",
   "theorems": [
    "C113_selection",
    "C113_table",
    "C113_grids_partial",
    "C113_grids_refuted"
   ],
   "note": "Selection and lookup table hold without conditions. The grids are compared when the polygon of a pixel (from the mean position of its events) is the same in both runs; without that C113_grids_refuted shows a cell that gains energy when a flash is dropped. Both runs are assumed to succeed (a selection with nothing in the grid can raise, C36)."
  },
  {
   "property": "C114",
   "status": "partial",
   "theorems": [
    "C114_table_partial",
    "C114_table_refuted",
    "C114_one_window"
   ],
   "note": "Proved when every file has a flash in the rectangle around the polygons with enough events and groups and the product times of the files differ (C69). Refuted otherwise: one file without such a flash makes the script stop with ValueError (np.hstack of nothing) and there is no table. The windows and the polygon mask of lmatools and its flash_size_stats are parameters."
  },
  {
   "property": "C115",
   "status": "proved",
   "theorems": [
    "C115_any_frames",
    "C115_long_frames",
    "C115_regular_frames"
   ],
   "note": "Extents, areas and energy are put into a frame by the product time of their file and centroids by their own time (C59); the division of each kind is covered. The minimum needs positive flash areas as in C36. How lmatools makes the edges is not modelled: the edges are any increasing list."
  },
  {
   "property": "C116",
   "status": "partial",
   "theorems": [
    "C116_counts_add_up",
    "C116_one_class",
    "C116_spectra_partial",
    "C116_braces_refuted"
   ],
   "note": "Partial: a directory with a part in braces becomes part of the template of the file names and nothing is drawn (C116_braces_refuted); as in C114 every file needs a flash in the rectangle around the polygons. The edges (get_energy_spectrum_bins) and the drawing itself are lmatools; numpy.histogram is modelled by its counts of smaller values."
  },
  {
   "property": "C117",
   "status": "partial",
   "theorems": [
    "C117_extents",
    "C117_centroids_partial",
    "C117_succeeds",
    "C117_written_partial",
    "C117_centroids_refuted",
    "C117_quiet_refuted"
   ],
   "note": "Extent densities, areas and energy and the written pixels agree exactly for any superset of the files of the frame; centroid densities agree if no file left out has a flash or group of its own time in the frame, and are refuted otherwise by a flash that begins after the end of its file's frame. Refuted as well: a frame without lightning is written by a run over all frames and raises AttributeError in a run of its own. File names are not compared (they contain the time of creation)."
  },
  {
   "property": "C118",
   "status": "proved",
   "theorems": [
    "C118_ends_do_not_matter",
    "C118_frames_cover",
    "C118_every_file",
    "C118_one_frame",
    "C118_consecutive",
    "C118_nothing_lost"
   ],
   "note": "lmatools time_edges, which is not in the repository, is modelled from its source (ceil of duration over frame length, edges start + i*frame) in exact numbers; timedelta rounds the duration to microseconds. For the grids the product time of a file is assumed to be in the twenty seconds from the start in its name."
  },
  {
   "property": "C119",
   "status": "proved",
   "theorems": [
    "C119_sums",
    "C119_energy",
    "C119_counts",
    "C119_run_energy",
    "C119_all_files"
   ],
   "note": "Whole run. Values must be storable (C39: larger ones wrap). Energy compared with the observed energy needs no padding and pixel polygons covered by cells (C36)."
  },
  {
   "property": "C120",
   "status": "partial",
   "theorems": [
    "C120_range_partial",
    "C120_nothing_lost",
    "C120_succeeds",
    "C120_first_minute_refuted",
    "C120_shifted",
    "C120_tail_refuted",
    "C120_images",
    "C120_energy"
   ],
   "note": "Refuted: intervals are open on the left, so the frame that starts at s is in no interval and the one that starts at e is in the last (universal; C120_shifted gives the exact balance of the sums), and frames after the last whole interval are in none. Partial: for a range of a whole number of intervals every frame with s < time <= e is in exactly one and sums over intervals equal sums over these frames; C120_nothing_lost: a range that starts before the first frame loses nothing. C120_images and C120_energy: end to end, gridded, written, opened and aggregated images hold together what the written images hold, and the energy of the events in the files (exactly unscaled, up to one step per lit cell scaled)."
  },
  {
   "property": "C121",
   "status": "partial",
   "theorems": [
    "C121_number",
    "C121_succeeds",
    "C121_clock",
    "C121_same_day_partial",
    "C121_midnight_refuted",
    "C121_proportional_refuted"
   ],
   "note": "Proved: every series of valid times gets positions from 0 to 1 that follow the clock (microseconds since midnight) exactly; so within one day later edges are later (partial). Refuted: for every series across midnight an edge of a later day that is earlier on the clock comes before (universal), and positions are not proportional to time (HHMMSS read as a decimal number jumps at full minutes and hours)."
  },
  {
   "property": "C122",
   "status": "partial",
   "theorems": [
    "C122_succeeds",
    "C122_range",
    "C122_default",
    "C122_counted_within",
    "C122_within_counted_partial",
    "C122_coverage_refuted",
    "C122_end_refuted"
   ],
   "note": "Proved: the values of the two attributes, with a range (C122_range) and without (C122_default); every counted frame starts within them (C122_counted_within) and every frame that starts after the first instant and not after the last is counted (C122_within_counted_partial). Not as a user expects: without a range the coverage begins with the first frame, which is never counted (C122_coverage_refuted), and with one a frame that starts when the coverage ends is counted (C122_end_refuted). The attributes are modelled as instants, not as ISO texts."
  },
  {
   "property": "C123",
   "status": "partial",
   "theorems": [
    "C123_altitude",
    "C123_altitude_refuted",
    "C123_minima",
    "C123_defaults_partial",
    "C123_large_refuted",
    "C123_spectra_partial",
    "C123_spectra_altitude_refuted",
    "C123_nowhere"
   ],
   "note": "Proved: the table does not depend on altitude bounds that admit 0 (C123_altitude) nor on minima below two (C123_minima), and without options it is the table of any wider bounds if all areas are between 0 and 1e10 and all energies between 0 and 1e38 (C123_defaults_partial); the same for the energy spectra (C123_spectra_partial). Not as a user expects: GLM flashes get altitude 0, so bounds on altitude that exclude 0 remove every flash whatever the polygons (C123_altitude_refuted, C123_spectra_altitude_refuted, with only zeros in the spectra by C123_nowhere); the default maximum area, described as km^2, is compared with the numbers of the files, and larger flashes are dropped without being asked to (C123_large_refuted). argparse itself is not modelled for this script."
  },
  {
   "property": "C124",
   "status": "partial",
   "theorems": [
    "C124_colors",
    "C124_names",
    "C124_points_partial"
   ],
   "note": "Proved: one point per flash of the whole time, at its place and with its start as color (C124_points_partial, when every file has a flash in the rectangle around the polygons; otherwise the script fails as in C114_table_refuted); colors within the scale for any files and edges (C124_colors); names that differ when the times differ by a second or more within a century (C124_names). Labels, sizes and what matplotlib does with NaN coordinates are not modelled."
  }
 ]
}