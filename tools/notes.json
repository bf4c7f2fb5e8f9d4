{
 "C01": {
  "note": "any depth; sums proved separately for unique ids"
 },
 "C02": {
  "note": "unique ids per level; KeyError exactly when a chain is broken"
 },
 "C03": {
  "note": "any depth, any request list; empty dimensions raise AttributeError (also proved)"
 },
 "C04": {
  "note": "unique ids"
 },
 "C05": {
  "note": "order needs unique ids"
 },
 "C06": {
  "note": "also for chains of requests"
 },
 "C07": {
  "note": "equality of the whole dataset, ancestors included"
 },
 "C08": {
  "note": "any depth"
 },
 "C09": {
  "note": "exact description of what is kept; the claim that the whole tree becomes self-consistent is refuted (orphan and childless groups survive) and proved under the condition that every group names a flash and has an event"
 },
 "C10": {
  "note": "refuted: any empty dimension raises AttributeError with check_tree, ValueError without it unless all three are empty"
 },
 "C100": {
  "note": "Refuted by computation: locations 448 and 449 cells of 28e-6 above -0.31 lie in different cells and share an id, and a location 0.4 cells before the first lies in its cell with another id; the last column shares ids with the next row as in exact arithmetic (C23). Proved: ids are row-major pairs of floors of positions at most 1.5e-8 of a cell away, equal to the exact ids away from boundaries; one id means at most a cell apart; 224 microradian pixels are never merged up to x = 0.30997. Left out: locations above the lower end by less than 2^-800."
 },
 "C101": {
  "note": "argparse is modelled after CPython 3.8-3.11. Refuted: file names on both sides of an option exit with status 2; a negative value with an exponent (-9.5e1) is refused as an argument of its own; --corner_points has no effect on the gridding call. Left out: --lma, infinities and NaN as values, texts of messages, line ends in arguments."
 },
 "C102": {
  "note": "Success and all sums hold for every split without conditions. Aggregated intervals agree for counts, energy, average and minimum flash area if the files are usable and flash areas and pixel sizes are positive. Refuted: nothing is lost when aggregating from the start of the first run (intervals are open on the left, so the first run falls in none), and the average group area (computed from the flash fields)."
 },
 "C103": {
  "note": "The clipping library is a parameter: exact on convex polygons and rectangles (C103_cells, C103_total, C103_observed_energy, C103_full_cell), or exact up to eta square steps on integer coordinates (C103_integer_energy). C103_part and C103_parts_add_up say what the reference overlap is. Pixels that are not convex, or reach further than two cells from their centre (C49), are left out."
 },
 "C104": {
  "note": "Bit exact in binary64. The edges are those of numpy's arange (the first two elements and their difference) as lmatools calls it, and the packing is xarray's (subtract, divide, round to even, cast); both are external and modelled from their documentation and sources as we know them. What is read back for a code is in C63."
 },
 "C105": {
  "note": "Selection, table and (one chunk per file) all six grids are proved independent of row order; with several chunks per file it is proved when a pixel's polygon is the same in all chunks, and refuted otherwise by a four-flash example (the same defect as C51: a pixel's position is the mean over the chunk)."
 },
 "C106": {
  "note": "Sums are exact (xarray sums doubles); NaN energies are skipped as xarray does. Files are assumed complete and consistent (broken ones are C09, C10)."
 },
 "C107": {
  "note": "Refuted parts: an empty intermediate selection makes the next one raise AttributeError; two selections with fixed grid ranges are weaker than one with both (one event must lie in both ranges)."
 },
 "C108": {
  "note": "C108_common_cell is unconditional on where the flashes are; C108_tiles_partial is the same for a tile and the undivided grid and needs the centroid of every flash with light in the cell within the padded bounds of the tile. C108_long_flash_refuted shows a flash whose light is missing from a tile because its centroid is beyond the padding of 28e-4 rad. Files are read in one chunk each (C51 shows what chunks change)."
 },
 "C109": {
  "note": "Run over usable files (C26's notion); pixel outlines must not have size zero; the bound by the number of selected flashes needs outlines that do not overlap in the cell."
 },
 "C11": {
  "note": "consistent files, any set order, any navigation"
 },
 "C110": {
  "note": "The month is abbreviated as in the C locale; the two templates are those in make_GLM_grids.py and in the docstrings of write_goes_imagery and the gridder."
 },
 "C111": {
  "note": "Exact clipping as in C103; the pixels must be on both grids and no larger than the lookup of the finer grid reaches (two cells from the mean of the corners)."
 },
 "C112": {
  "note": "Grids compared cell by cell as numbers (feq). The polygon of a pixel must depend on its position only (by_position). One chunk per file as in C105; with several chunks the order decides which flashes are put together (C105_small_chunks_refuted)."
 },
 "C113": {
  "note": "Selection and lookup table hold without conditions. The grids are compared when the polygon of a pixel (from the mean position of its events) is the same in both runs; without that C113_grids_refuted shows a cell that gains energy when a flash is dropped. Both runs are assumed to succeed (a selection with nothing in the grid can raise, C36)."
 },
 "C114": {
  "note": "Proved when every file has a flash in the rectangle around the polygons with enough events and groups and the product times of the files differ (C69). Refuted otherwise: one file without such a flash makes the script stop with ValueError (np.hstack of nothing) and there is no table. The windows and the polygon mask of lmatools and its flash_size_stats are parameters."
 },
 "C115": {
  "note": "Extents, areas and energy are put into a frame by the product time of their file and centroids by their own time (C59); the division of each kind is covered. The minimum needs positive flash areas as in C36. How lmatools makes the edges is not modelled: the edges are any increasing list."
 },
 "C116": {
  "note": "Partial: a directory with a part in braces becomes part of the template of the file names and nothing is drawn (C116_braces_refuted); as in C114 every file needs a flash in the rectangle around the polygons. The edges (get_energy_spectrum_bins) and the drawing itself are lmatools; numpy.histogram is modelled by its counts of smaller values."
 },
 "C117": {
  "note": "Extent densities, areas and energy and the written pixels agree exactly for any superset of the files of the frame; centroid densities agree if no file left out has a flash or group of its own time in the frame, and are refuted otherwise by a flash that begins after the end of its file's frame. Refuted as well: a frame without lightning is written by a run over all frames and raises AttributeError in a run of its own. File names are not compared (they contain the time of creation)."
 },
 "C118": {
  "note": "lmatools time_edges, which is not in the repository, is modelled from its source (ceil of duration over frame length, edges start + i*frame) in exact numbers; timedelta rounds the duration to microseconds. For the grids the product time of a file is assumed to be in the twenty seconds from the start in its name."
 },
 "C119": {
  "note": "Whole run. Values must be storable (C39: larger ones wrap). Energy compared with the observed energy needs no padding and pixel polygons covered by cells (C36)."
 },
 "C12": {
  "note": "any set order; selection of the opened file and of further selections"
 },
 "C120": {
  "note": "Refuted: intervals are open on the left, so the frame that starts at s is in no interval and the one that starts at e is in the last (universal; C120_shifted gives the exact balance of the sums), and frames after the last whole interval are in none. Partial: for a range of a whole number of intervals every frame with s < time <= e is in exactly one and sums over intervals equal sums over these frames; C120_nothing_lost: a range that starts before the first frame loses nothing. C120_images and C120_energy: end to end, gridded, written, opened and aggregated images hold together what the written images hold, and the energy of the events in the files (exactly unscaled, up to one step per lit cell scaled)."
 },
 "C121": {
  "note": "Proved: every series of valid times gets positions from 0 to 1 that follow the clock (microseconds since midnight) exactly; so within one day later edges are later (partial). Refuted: for every series across midnight an edge of a later day that is earlier on the clock comes before (universal), and positions are not proportional to time (HHMMSS read as a decimal number jumps at full minutes and hours)."
 },
 "C122": {
  "note": "Proved: the values of the two attributes, with a range (C122_range) and without (C122_default); every counted frame starts within them (C122_counted_within) and every frame that starts after the first instant and not after the last is counted (C122_within_counted_partial). Not as a user expects: without a range the coverage begins with the first frame, which is never counted (C122_coverage_refuted), and with one a frame that starts when the coverage ends is counted (C122_end_refuted). The attributes are modelled as instants, not as ISO texts."
 },
 "C123": {
  "note": "Proved: the table does not depend on altitude bounds that admit 0 (C123_altitude) nor on minima below two (C123_minima), and without options it is the table of any wider bounds if all areas are between 0 and 1e10 and all energies between 0 and 1e38 (C123_defaults_partial); the same for the energy spectra (C123_spectra_partial). Not as a user expects: GLM flashes get altitude 0, so bounds on altitude that exclude 0 remove every flash whatever the polygons (C123_altitude_refuted, C123_spectra_altitude_refuted, with only zeros in the spectra by C123_nowhere); the default maximum area, described as km^2, is compared with the numbers of the files, and larger flashes are dropped without being asked to (C123_large_refuted). argparse itself is not modelled for this script."
 },
 "C124": {
  "note": "Proved: one point per flash of the whole time, at its place and with its start as color (C124_points_partial, when every file has a flash in the rectangle around the polygons; otherwise the script fails as in C114_table_refuted); colors within the scale for any files and edges (C124_colors); names that differ when the times differ by a second or more within a century (C124_names). Labels, sizes and what matplotlib does with NaN coordinates are not modelled."
 },
 "C13": {
  "note": "both readings of the flag refuted; each returned flash has one returned event in view"
 },
 "C14": {
  "note": "reals, not floats: multiplication is exact in Q"
 },
 "C15": {
  "note": "reals, not floats"
 },
 "C16": {
  "note": "Bit exact binary64 through SpecFloat. netCDF path exact; xarray path off by at most one code towards zero (error analysis in FloatProofs.v for every scale and offset of ordinary size), with explicit wrong codes."
 },
 "C17": {
  "note": "years 1 to 9999 for parsing, 1000 to 9999 for output names; converse for 15-character stamps"
 },
 "C18": {
  "note": ""
 },
 "C19": {
  "note": "Step function proved for all valid dates, and for the revision a dataset infers from its product time; ltg_ellps_radii calls the undefined name ltg_ellps_rev and raises NameError for every date."
 },
 "C20": {
  "note": "Exact reals; also shows the latitude is geodetic on GRS80, not on the lightning ellipsoid."
 },
 "C21": {
  "note": "Whole turns: any number, since the offset only enters through cos and sin."
 },
 "C22": {
  "note": "Visibility defined as: no point strictly before it on the line of sight is in or on the ellipsoid."
 },
 "C23": {
  "note": "ids are unique while the range is a whole number of cells along x; refuted otherwise by a counterexample; fits 64 bits for the default scale"
 },
 "C24": {
  "note": "exact rationals"
 },
 "C25": {
  "note": ""
 },
 "C26": {
  "note": "All chunk sizes, datasets and selections: chunks partition the selection, sizes even and below 2*chunk_size, whole flashes stay together; per pixel id sums, occupancy and minimum over the chunk tables are those of the whole selection, hence equal for any two chunk sizes. That positions (means) and so grids do depend on chunks is C51."
 },
 "C27": {
  "note": "exact rationals, any number of vertices"
 },
 "C28": {
  "note": "signed areas; with meshgrid indexing ij all areas are negative"
 },
 "C29": {
  "note": "The lookup never fails on a mesh made by np.meshgrid (either indexing) from monotone edges, returns valid distinct cells, and finds every cell that meets a box whose lower limits are above the smallest edge and upper limits not above the largest; returned cells are at most two away from one that meets the box. Refuted beyond that: a box that touches the smallest edge or reaches outside loses cells, an enclosing box finds none. The point lookup is exact."
 },
 "C30": {
  "note": "Alignment holds for any number of pieces per cell. The claim fails for an explicit box (UnboundLocalError for every non-empty input) and for a mesh of one cell without a box (ValueError)."
 },
 "C31": {
  "note": "Fractions and energy proved for every clipping function; the mesh fraction for the 'xy' mesh the gridding code builds. With 'ij' indexing the mesh fraction is negative (refuted)."
 },
 "C32": {
  "note": "Both paths, any number of pieces; the time column is not modelled."
 },
 "C33": {
  "note": "All batches of split events with non-negative mesh indices; the empty batch raises ValueError, see C50."
 },
 "C34": {
  "note": "exact rationals; NaN absorbs"
 },
 "C35": {
  "note": "exact rationals"
 },
 "C36": {
  "note": "From opened datasets (any number of files and chunks) to the six grids of one frame; pyclipper, the KD-tree and the corner lookup are parameters with stated hypotheses. C36_observed_energy joins it with the selection (C12), chunks (C26) and table (C24): the grid total is the energy of all events of the selected flashes, each once."
 },
 "C37": {
  "note": "All grids, paddings, frame counts, both output modes, from the arrays of the gridder to the content of the files; includes that earlier frames and fields do not leak into later files."
 },
 "C38": {
  "note": "Refuted twice: in scaled output a density below 1/16 is raised to 1/16 before dividing (100 written as 50), and writing divides the arrays themselves so a second write divides again. C38_every_average is exact for every density: the total over the larger of density and step. Partial: the quotient is the true average for all densities of at least one step, all frames, both modes; undivided fields are the same however often written."
 },
 "C39": {
  "note": "For every undivided field of every file: zero missing, positive within half a step up to 65535 steps, order kept; xarray's packing (half-even rounding, low 16 bits, fill 0) is modelled from its documentation."
 },
 "C40": {
  "note": "Refuted: with the default range the first frame of every series is in no interval (bins are open on the left), and average_group_area is computed from the flash fields. Partial: every later frame is in exactly one interval, sums over intervals equal sums over those frames, average flash area is the density-weighted mean, minimum is the minimum; also from listed files to totals. Refuted too: fields outside a fixed list (event_density, DQF, ...) are dropped, not summed; C40_fields gives the exact variables of the result."
 },
 "C41": {
  "note": "All bounds, spacings, tile counts in exact arithmetic: edges, whole cells per tile, unique tile per point; and when the domain is a whole number of cells the coordinates written by the tiles join to those of the undivided grid."
 },
 "C42": {
  "note": "Any padding including zero: trimming inverts padding for coordinates and 2-D grids (captured call), and for every tile of every subdivision; the pixels of the files are C37."
 },
 "C43": {
  "note": "Refuted for every run with two or more tiles: the shared dictionary of options is emptied by the first tile, so later tiles are always scaled. Partial: first tile uses the options, all tiles use their own padding, all tiles agree if the options ask for scaled output."
 },
 "C44": {
  "note": "Refuted for tiles: tiles of one frame written within the same second get one name and overwrite each other (computed run). Partial: names differ, and no file is lost, when start, end or time of writing are a second apart."
 },
 "C45": {
  "note": "Bounds, sector grids, lat/lon grids, limits and tiles of the example driver over exact numbers (C45_*). Refuted for binary floating point: 0.6/0.2 truncates to 2 cells (C45_binary_width_refuted)."
 },
 "C46": {
  "note": "Three readers on ASCII text with universal newlines; exact decimals instead of binary64; inf, nan and underscores are outside the model. The later xarray merge is not modelled."
 },
 "C47": {
  "note": "Shapes equal, at least one row; the KDTree is any function returning a row of least distance. The docstring example queries (lat, lon) against a tree of (lon, lat): not modelled (documentation)."
 },
 "C48": {
  "note": "Proved for the class with the lookup table: arrays, names and statistics line up for all six area, energy and extent products (equal to gridding the files of the frame) and both centroid counts. Refuted for the plain class: it asks for more pipelines than it unpacks, so setting it up always raises."
 },
 "C49": {
  "note": "Proved for polygons that extend at most two cells from their vertex mean; refuted for all others: cells three or more away are never looked up, so their share of the energy is lost (example: 5/8 kept). With bbox=True every cell the extent meets is looked up, and none further than two cells (C49_boxes_cover)."
 },
 "C50": {
  "note": "Refuted: a chunk all of whose pixels are off the grid makes the whole run raise, for every such input. C36_succeeds gives the condition under which runs succeed."
 },
 "C51": {
  "note": "Refuted by a computed counterexample (two flashes in one pixel, chunk size 1 and 2). Partial: all six grids equal whenever the polygon of a pixel is the same in all chunks."
 },
 "C52": {
  "note": "Refuted: 65536 steps come back as missing (low 16 bits of the integer are kept)."
 },
 "C53": {
  "note": "Refuted: one column (or none) raises IndexError for every content; subdividing into tiles of fewer than two columns always fails. Partial: two columns or more always succeed, one file per frame."
 },
 "C54": {
  "note": "All lists of files."
 },
 "C55": {
  "note": "Exact reals."
 },
 "C56": {
  "note": "scipy interpolators are parameters with their assumed behaviour as hypotheses (linear values lie between the table's extremes; nearest values are table values)."
 },
 "C57": {
  "note": "Proved up to the last column of the cut line; refuted for that column (a count of 12 cut to 1 is read without an error)."
 },
 "C58": {
  "note": "Window and ISO times proved for standard names (C58_window_from_names, C58_consecutive_files, C58_command_line_times); texts that name no time are refused (C58_only_times_accepted). Names outside the standard pattern: without explicit times, or mixed with them, the run fails (C58_other_names_refuted); with both explicit times it works when no name parses (C58_other_names_partial)."
 },
 "C59": {
  "note": "Edges partition times and summed products add up over frames. Refuted: energies and extents are put in the frame of the product time of their file, not of the event, so with frames not aligned to files a frame can miss the energy of its events and have flash positions without extents. Partial: under alignment (every event in the frame of its file's product time) a frame holds exactly the energy of its events."
 },
 "C60": {
  "note": "Whole run from opened files to written files. C60_every_average says what an average shows at any extent density: the total over the larger of the density and its stored step; it is the true average for densities of at least one step (see C38)."
 },
 "C61": {
  "note": "Refuted for calls without ellipse_rev (KeyError), without clip_events (ValueError) and without lightning in any file (AttributeError). Partial: with both, some lightning, at least two columns and one row, and files that can be gridded, the run completes with one file per frame."
 },
 "C62": {
  "note": "Scene and resolution of every written file are characterised; sector grids of 100+ columns are recognised. Refuted: images of different size with the same times can share a path because unlisted sizes use the mesoscale letter."
 },
 "C63": {
  "note": "Within half a step always; distinct and exact under the stated spacing and phase. Refuted without: finer spacing, or centres half way between codes, collide."
 },
 "C64": {
  "note": "Exact for times 1678-2261 (range of pandas timestamps)."
 },
 "C65": {
  "note": "Paths, contents and frame condition for all file systems; success with a directory template. Refuted: template without directory always raises; template coarser than frames keeps the last only."
 },
 "C66": {
  "note": "Reading back proved for any frames in any order (distinct paths). Counts survive: partial because the first frame is dropped by aggregate's default binning (C40); C66_nothing_lost: with a range that starts before the first frame all frames are counted."
 },
 "C67": {
  "note": "Float32 rounding of the columns is not modelled; ids are kept as 32-bit signed integers, and joining by id is proved for ids within a range of 2^32."
 },
 "C68": {
  "note": "Refuted in general (n_points is the low 16 bits of the number of events of the chunk); partial: right with one flash per chunk."
 },
 "C69": {
  "note": "Partial: under distinct whole seconds. LMAh5Collection of lmatools is assumed to collect and sort the times and to iterate data_for_time."
 },
 "C70": {
  "note": "Refuted: the argument never reaches the data."
 },
 "C71": {
  "note": "Flashes proved; events refuted. The polygon test of lmatools is an arbitrary mask."
 },
 "C72": {
  "note": "Ids of flashes are assumed to fit 32-bit signed integers."
 },
 "C73": {
  "note": "Refuted for the fixed grid: GLMlutGridder.write_grids never calls the writer through which names are captured, so every entry is an empty list although all files are written (make_grids.py 599-609, 728-757). Proved exact for the single grid (latlong or other projections)."
 },
 "C74": {
  "note": "Missing arguments proved to raise with the state unchanged; arguments proved to reach the gridder and the data by name and value, and nothing else to be asked. Refuted: the value of clip_events is never looked at (False acts as True), and output_writer must be given for the fixed grid although its value makes no difference. Sufficient arguments proved for the fixed grid when the data prepared for each tile can be written and the output goes to the working directory."
 },
 "C75": {
  "note": "Calls without output_kwargs proved independent of any history of calls. Refuted for a dictionary owned by the caller: every successful call removes scale_and_offset and pad from it, so the second call ignores scale_and_offset=False."
 },
 "C76": {
  "note": "Exceptions within to_netcdf itself (part of one file) are not modelled."
 },
 "C77": {
  "note": "Proved for files with an intact tree (or check_tree off), and for files outside of the period with any tree. Refuted: if the repair of the tree removes a flash or an event, opening raises; if it only rearranges rows (a group without events), times are put beside other groups; a dataset in memory of that period can not be opened. Times are exact (xarray rounds to nanoseconds)."
 },
 "C78": {
  "note": "Refuted for every coordinate more than 2 degrees from zero: the packing for radians (int16 steps of 56 microradians) is used for all grids, so what is read lies between -2 and 2. Proved up to half a step within 1.6 degrees of zero. Arithmetic of packing is exact; conversion to int16 keeps the low 16 bits (the refutation does not depend on that)."
 },
 "C79": {
  "note": "Full description of parents and points for every chunk, mesh and table (C79_split_points). corner_pickle=None, documented as the built-in table, raises for every chunk (C79_default_table_refuted)."
 },
 "C80": {
  "note": "Events: energy times the covered share (C80_event_energy). Groups and flashes: energy times the sum of the shares of all parts (C80_footprint_energy); kept for a footprint of one part (C80_flash_energy_partial), multiplied by the number of parts otherwise (C80_separate_parts_refuted)."
 },
 "C81": {
  "note": "The image of a chunk is the same whatever the longitudes and latitudes (C81_lonlat_not_used_refuted); for every grid west of one degree west, any selection with a flash stops the run (C81_western_hemisphere_refuted), because scan angles are taken for degrees. Runs without clip_events are C48/C59."
 },
 "C82": {
  "note": "scale_to_clipper truncates v*2**31 towards zero; pyclipper's own rounding of intersection points is the parameter eta. Replaces the exact covering of C36 by a bound that truncated coordinates can meet."
 },
 "C83": {
  "note": "Values, order, labels and success proved exactly (C83_panels_show_the_data, C83_plots_when). The extent runs between the centers of the outer pixels, so only the middle is drawn at its coordinates (C83_drawn_at_coordinates_refuted); the exact displacement, below half a pixel, is C83_drawn_near_coordinates_partial. All eight products do not fit the default layout; y increasing is drawn upside down; the plotting function of the examples overwrites missing values in memory. Captions and colour limits are right for every field (C83_captions_partial) except that event_density is labelled Group Extent Density (C83_event_caption_refuted)."
 },
 "C84": {
  "note": "Exact rows drawn (C84_flash_drawn), success exactly when the flash exists (C84_drawn_when), independence of earlier selections (C84_same_after_selection). Colours and markers are not modelled."
 },
 "C85": {
  "note": "Refuted for every list of files: opening repairs broken links and no step raises KeyError, so no file is ever reported (C85_invalid_reported_refuted), and any file that cannot be opened ends the script (C85_completes_when, C85_empty_file_ends_script_refuted). Valid files pass (C85_valid_files_pass_partial). Missing variables, which would raise KeyError, are outside the model."
 },
 "C86": {
  "note": "Tight bounds proved (C86_bounds_of_events). Ranges are open intervals, so a flash on the bounds is lost (C86_selection_keeps_all_refuted); otherwise nothing is (C86_selection_partial)."
 },
 "C87": {
  "note": "The check passes exactly if the centre is one where the pixels can be stored, up to its tolerance; for other centres it fails."
 },
 "C88": {
  "note": "The three ways agree when every flash has a group; for a flash without groups the calculation raises while the other ways skip it."
 },
 "C89": {
  "note": "all images saved and right (also which file); refuted: a later time of the same minute replaces the earlier image, and a directory with a blank or colon makes the script fail because only the file name is tidied after the directory was made"
 },
 "C90": {
  "note": "Proved: the eight variables with their names, long names and units; the area in the label is the nominal one or one less; the interval is the nearest tenth of a minute, exact for multiples of 6 s. Refuted: at 280 microradians (10 km) the label says 78399 instead of 78400 square microradians (bit exact); intervals that are no multiple of 6 s (20 s) are written wrong."
 },
 "C91": {
  "note": "Proved for the lassos valid one second after the time of the image (the code adds a second), with times that are exact in 32 bits; this is the lasso valid at the time if none changes within that second (C91_valid_at_time). Refuted: an image less than a second before a change gets the next lasso; lines without positive values have a time that is not ISO. An image at the end of the last lasso is listed with zeros whatever it shows (C91_last_image). The lookup by times and polygons of lmatools is a parameter."
 },
 "C92": {
  "note": "partial: the line of sight theorem needs the longitude of the run to be that of the files, which the code does not check (refuted otherwise); attribute number_of_qf_values is wrong (refuted)"
 },
 "C93": {
  "note": "partial: exact and error-bounded totals are proved; counting beyond 2^24 per cell is refuted"
 },
 "C94": {
  "note": "Refuted: cells are shared by tiles or lie beyond the grid because the numbers of cells are computed in binary arithmetic (bit exact, standard grids). Partial: positions right to two millionths of a cell, at most one cell more per tile, none lost. The edges np.arange(lo, hi+d, d) of lmatools are assumed as in C41, with the length numpy computes."
 },
 "C95": {
  "note": "Exact arithmetic. The function is not called by the rest of the code. For boxes around the mesh it finds every cell where the lookup in use (C29) finds none."
 },
 "C96": {
  "note": "Names, order, coordinates and the tree are proved for every listing. That the file opens as a production file is refuted: the converted dataset has no field of view bounds, product times or units, so the reader raises for every listing unless all four of its options are switched off."
 },
 "C97": {
  "note": "Histories, names and bytes are proved. Refuted: a loaded lookup always has five parts, so unpacking the documented three raises; and a process ending anywhere before the last byte leaves a file that cannot be loaded, the old contents being lost."
 },
 "C98": {
  "note": "Every located pixel is listed once; with east longitudes of 180 to 360 in the file and a query (lon, lat) the answer is the nearest pixel. Refuted: files with other longitudes (all pixels beyond 180 west) and the documented query (lat, lon)."
 },
 "C99": {
  "note": "Order, single computation, death of workers and termination proved for every history. Refuted: the results of arguments in the same chunk before one that raises are lost, in every history (default chunks of 100)."
 }
}