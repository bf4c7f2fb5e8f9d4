{"id": "C01", "title": "Child counts are exact at every level", "statement": "count_children(entity, child) returns one array per level from just below entity down to child (only the first one when child is omitted); entry i of an array is exactly the number of rows of that level whose parent id equals the id of row i of the level above. If every row of the lower level names exactly one row above, the array sums to the number of rows of the lower level.", "quantifier": "all hierarchies of any depth, any number of rows, any ids (unique, repeated, missing), every entity/child pair", "why_tests_cant": "tests check one four-level and one three-level sample; the claim is about every id assignment, including childless parents and orphan children", "anchors": ["glmtools/io/traversal.py:OneToManyTraversal.count_children"]}
{"id": "C02", "title": "Replicated ancestor ids name the true ancestor", "statement": "replicate_parent_ids(entity, parent_var) returns one id per row of the parent_var dimension, and entry k is the id of the unique ancestor of row k at the entity level; if a row on the way up names a parent that does not exist the call raises KeyError instead of returning a wrong or shorter answer.", "quantifier": "all hierarchies of any depth with unique ids per level, every (descendant level, ancestor level) pair", "why_tests_cant": "wrong ancestor labels only show on particular orders and interleavings of ids; a finite sample cannot rule them out", "anchors": ["glmtools/io/traversal.py:OneToManyTraversal.replicate_parent_ids"]}
{"id": "C03", "title": "Pruning keeps exactly the requested entities and their descendants", "statement": "reduce_to_entities(entity, ids) keeps, at the entity level, exactly the rows whose id was requested, and at every lower level exactly the rows whose chain of parents reaches a requested id; no row is invented and no column of a kept row changes.", "quantifier": "all hierarchies of any depth and size, every entity level, every list of requested ids (unknown ids included)", "why_tests_cant": "a dropped or extra grandchild depends on the shape of the whole tree; tests only sample a few trees", "anchors": ["glmtools/io/traversal.py:OneToManyTraversal.reduce_to_entities", "glmtools/io/glm.py:GLMDataset.get_flashes"]}
{"id": "C04", "title": "Pruning keeps request order and replication at the requested level", "statement": "With unique ids, the rows returned at the entity level are the requested rows in the order of the request, repeated as often as they were requested; children follow in the order of their parents.", "quantifier": "all datasets, all request lists with any order and repetition", "why_tests_cant": "split_events.replicate_and_weight_split_child_dataset silently multiplies by the wrong weight if the order is off for one row in one input", "anchors": ["glmtools/io/traversal.py:OneToManyTraversal.reduce_to_entities", "glmtools/grid/split_events.py:replicate_and_weight_split_child_dataset"]}
{"id": "C05", "title": "Pruning keeps exactly the ancestors of what is kept, once each", "statement": "At every level above the entity level, reduce_to_entities keeps exactly the rows that are named as parent by a kept row one level below, each once, ordered by increasing id.", "quantifier": "all hierarchies of any depth with unique ids per level, all requests", "why_tests_cant": "same as C03, upward direction", "anchors": ["glmtools/io/traversal.py:OneToManyTraversal.reduce_to_entities"]}
{"id": "C06", "title": "Pruning a consistent tree gives a consistent tree", "statement": "If every non-root row names an existing parent and ids are unique, the same is true of the dataset returned by reduce_to_entities for any duplicate-free request; so subset datasets can be fed back to the same API.", "quantifier": "all consistent hierarchies, all duplicate-free requests, chains of requests", "why_tests_cant": "invariant over every tree and every sequence of subsettings", "anchors": ["glmtools/io/traversal.py:OneToManyTraversal.reduce_to_entities"]}
{"id": "C07", "title": "Repeated pruning composes", "statement": "Pruning to ids A and then pruning the result to ids B contained in A gives the same rows at and below the entity level as pruning to B directly; pruning twice to the same ids changes nothing at and below the entity level.", "quantifier": "all consistent hierarchies, all duplicate-free A and B contained in A", "why_tests_cant": "algebraic law over all pairs of requests", "anchors": ["glmtools/io/traversal.py:OneToManyTraversal.reduce_to_entities"]}
{"id": "C08", "title": "check_parent_child reports exactly the broken links", "statement": "For each pair of adjacent levels check_parent_child reports the number of distinct ids, and exactly the set (and its size) of parent rows without children and of parent ids named by children but absent from the level above; it raises if any level is empty.", "quantifier": "all hierarchies of any depth", "why_tests_cant": "a missed broken link needs a specific id pattern", "anchors": ["glmtools/io/traversal.py:OneToManyTraversal.check_parent_child"]}
{"id": "C09", "title": "Opening a file repairs its flash/group/event tree", "statement": "After GLMDataset(file) with check_tree on, no flash lacks groups and no event lacks its group, whatever broken links the file had, and consistent trees are not touched. The code comment claims the whole tree becomes self-consistent.", "quantifier": "all flash/group/event tables with any broken links, any iteration order of Python sets", "why_tests_cant": "the repair works through a set difference followed by pruning, correctness depends on every combination of broken links", "anchors": ["glmtools/io/glm.py:GLMDataset.__init__", "glmtools/io/traversal.py:OneToManyTraversal.check_parent_child"]}
{"id": "C10", "title": "Opening a file with no lightning", "statement": "GLMDataset(file) on a file whose flash, group or event dimension is empty gives a dataset with empty derived variables (so that gridding can skip the file) instead of raising.", "quantifier": "all files with at least one empty dimension, both values of check_tree", "why_tests_cant": "interaction between two independent code paths (tree check and no_data branch)", "anchors": ["glmtools/io/glm.py:GLMDataset.__init__", "glmtools/io/glm.py:GLMDataset.__init_parent_child_data", "glmtools/grid/make_grids.py:proc_each_grid"]}
{"id": "C11", "title": "Derived parent/child variables agree with each other", "statement": "On a consistent file, event_parent_flash_id of an event is the flash of its group; flash_child_event_count of a flash equals the sum of group_child_event_count over its groups and the number of events labelled with it; the three count arrays add up to the number of groups, events and events.", "quantifier": "all consistent files of any size", "why_tests_cant": "double counting identity over all trees", "anchors": ["glmtools/io/glm.py:GLMDataset.__init_parent_child_data"]}
{"id": "C12", "title": "subset_flashes returns exactly the flashes asked for, with all their children", "statement": "A flash is in the result iff its coordinates lie strictly inside every given range, its event and group counts reach the given minima and at least one of its events lies strictly inside the (clipped) field of view; each such flash appears once with all its groups and events, whatever order Python sets iterate in.", "quantifier": "all consistent files, all combinations of optional ranges and minima, all set iteration orders", "why_tests_cant": "conjunction of optional filters over all data and all hash orders", "anchors": ["glmtools/io/glm.py:GLMDataset.subset_flashes", "glmtools/io/glm.py:GLMDataset._check_event_xy"]}
{"id": "C13", "title": "Field-of-view filtering options of subset_flashes", "statement": "The check_event_xy flag: with True every event returned is inside the field of view, with False no event check is made.", "quantifier": "all datasets and arguments", "why_tests_cant": "the False branch is never exercised by tests and the True branch only filters on data with out-of-view events", "anchors": ["glmtools/io/glm.py:GLMDataset.subset_flashes", "glmtools/io/glm.py:GLMDataset._check_event_xy"]}
{"id": "C14", "title": "Energies are strictly positive and converted exactly once", "statement": "After loading, every event energy that was a number is at least half the smallest representable energy, energies that were already representable are only multiplied by 1e9, and a second conversion of the same dataset raises ValueError rather than scaling twice.", "quantifier": "all energy arrays, scale factors and offsets with positive minimum, NaN included, any number of repeated calls", "why_tests_cant": "unit errors depend on call history", "anchors": ["glmtools/io/glm.py:GLMDataset._eliminate_zero_energy", "glmtools/io/glm.py:GLMDataset._change_energy_units"]}
{"id": "C15", "title": "Areas are never missing and always km^2", "statement": "After the area checks no flash or group area is NaN, areas that were numbers keep their physical value, units say km2 iff the numbers are km2, and running the checks again changes nothing.", "quantifier": "all area arrays, both unit conventions independently for flash and group", "why_tests_cant": "history-dependent unit handling with four unit combinations and arbitrary NaN positions", "anchors": ["glmtools/io/glm.py:GLMDataset._check_area_overflow", "glmtools/io/glm.py:GLMDataset._check_area_units"]}
{"id": "C16", "title": "Signed-to-unsigned repair recovers the stored code", "statement": "fix_unsigned and fix_event_locations applied to values that were decoded as signed 16 bit integers return the value the same 16 bits denote as unsigned integers.", "quantifier": "all 65536 stored codes, with the scale factor and offsets written in the code, IEEE double arithmetic", "why_tests_cant": "off-by-one truncation occurs only for particular codes", "anchors": ["glmtools/io/glm.py:fix_unsigned", "glmtools/io/glm.py:fix_event_locations"]}
{"id": "C17", "title": "GLM file names round-trip through the parser", "statement": "parse_glm_filename applied to a file name built from environment, algorithm, platform and three instants following the documented convention returns those components, for instants with tenths of a second; in particular it accepts every dataset name that get_glm_global_attrs produces and returns its start and end to the second.", "quantifier": "all years 1000 to 9999, all days of year, times of day and tenths; all component strings without underscore or \".nc\"", "why_tests_cant": "leap years, day 366 and variable-width strptime directives: too many dates to enumerate in tests", "anchors": ["glmtools/io/glm.py:parse_glm_filename", "glmtools/io/glm.py:parse_glm_filename_time", "glmtools/io/imagery.py:get_glm_global_attrs"]}
{"id": "C18", "title": "Lexicographic file order is time order", "statement": "For two well-formed GLM time stamps of the same prefix letter, string comparison orders them exactly as the instants they denote, so sorting file names sorts files by time.", "quantifier": "all pairs of well-formed time stamps", "why_tests_cant": "order-embedding over all pairs", "anchors": ["glmtools/io/glm.py:parse_glm_filename_time", "glmtools/grid/make_grids.py:proc_each_grid"]}
{"id": "C19", "title": "Lightning ellipsoid revision is chosen by date", "statement": "ltg_ellpse_rev is a step function of the date: launch ellipsoid before 2018-10-15 00:00, revision 1 from then on, for every date, and ltg_ellps_radii(date=d) returns the radii of that revision.", "quantifier": "all dates", "why_tests_cant": "the documented default call path of ltg_ellps_radii is never exercised by tests", "anchors": ["glmtools/io/lightning_ellipse.py:ltg_ellpse_rev", "glmtools/io/lightning_ellipse.py:ltg_ellps_radii"]}
{"id": "C20", "title": "Navigation looks at a point of the lightning ellipsoid", "statement": "For each longitude/latitude and satellite longitude, ltg_ellps_lon_lat_to_fixed_grid returns exactly the pair of angles under which the satellite sees the point of the selected lightning ellipsoid whose direction from the centre of the earth is that of the GRS80 point with that longitude and geodetic latitude; every revision that exists is accepted and every other one raises KeyError.", "quantifier": "all longitudes, latitudes, satellite longitudes, both ellipsoids, over exact real numbers", "why_tests_cant": "Uncountably many inputs; a handful of reference points cannot show that the formula is the geometry it is meant to be, everywhere.", "anchors": ["glmtools/io/lightning_ellipse.py:ltg_ellps_lon_lat_to_fixed_grid", "glmtools/io/lightning_ellipse.py:lightning_ellipse_rev"]}
{"id": "C21", "title": "Fixed-grid navigation symmetries", "statement": "The sub-satellite point maps to (0,0); mirroring latitude flips only the elevation angle, mirroring longitude about the satellite flips only the scan angle; adding 360 degrees to the longitude does not change the result while the offset stays within one wrap.", "quantifier": "all coordinates, both ellipsoids", "why_tests_cant": "continuum of inputs", "anchors": ["glmtools/io/lightning_ellipse.py:ltg_ellps_lon_lat_to_fixed_grid"]}
{"id": "C22", "title": "Navigation is one-to-one on the visible side", "statement": "Two points of the lightning ellipsoid that are both visible from the satellite and have the same fixed-grid angles have the same longitude offset and latitude.", "quantifier": "all pairs of visible points", "why_tests_cant": "injectivity over a continuum", "anchors": ["glmtools/io/lightning_ellipse.py:ltg_ellps_lon_lat_to_fixed_grid"]}
{"id": "C23", "title": "Pixel identifiers are unique", "statement": "discretize_2d_location gives two locations the same id iff they fall in the same discretisation cell (so different pixels are never merged), and the id fits the declared integer type.", "quantifier": "all scales, ranges and locations inside the ranges", "why_tests_cant": "collisions occur on a measure-small edge set that depends on the ratio of range and scale", "anchors": ["glmtools/io/glm.py:discretize_2d_location"]}
{"id": "C24", "title": "Event lookup table conserves energy and event count", "statement": "get_lutevents returns one row per occupied cell, in increasing id; energies and event counts of all rows add up to those of the dataset, each row holds exactly the events of its cell, and its position is their mean, hence inside their bounding box.", "quantifier": "all event sets", "why_tests_cant": "conservation law over all datasets", "anchors": ["glmtools/io/glm.py:get_lutevents", "glmtools/io/glm.py:event_lut_iter"]}
{"id": "C25", "title": "Event lookup table counts each flash and group once per cell", "statement": "Row counts of flashes and groups are the numbers of distinct flashes and groups with an event in the cell, total areas are the sums of their areas once each, the minimum flash area is attained by one of these flashes and bounds them all; an event that names a missing flash raises KeyError.", "quantifier": "all consistent event sets", "why_tests_cant": "depends on multiplicity pattern of ids per cell", "anchors": ["glmtools/io/glm.py:event_lut_iter"]}
{"id": "C26", "title": "Chunked reading visits each flash exactly once and does not change the result", "statement": "read_flashes splits the selected flashes in consecutive chunks that together are the whole selection in order, sizes differing by at most one; per-cell sums of flash count, group count, areas, energy and event count over the chunks equal those of processing all flashes at once, and the minimum over chunks equals the overall minimum.", "quantifier": "all datasets, all chunk sizes >= 1", "why_tests_cant": "independence of a tuning parameter over all data", "anchors": ["glmtools/io/mimic_lma.py:read_flashes", "glmtools/io/glm.py:get_lutevents"]}
{"id": "C27", "title": "Polygon area is the signed planar area", "statement": "poly_area/vectorized_poly_area: invariant under translation and rotation of the vertex list, negated by reversal, bilinear under scaling, additive when a polygon is cut along a diagonal, equal to width times height for rectangles, and equal for both implementations.", "quantifier": "all polygons with any number of vertices, rational coordinates", "why_tests_cant": "algebraic identities over all vertex lists", "anchors": ["glmtools/grid/clipping.py:poly_area", "glmtools/grid/clipping.py:vectorized_poly_area"]}
{"id": "C28", "title": "Mesh quads tile the mesh", "statement": "For any quad mesh, polys_from_quadmesh yields one quad per cell with the four surrounding corners in cyclic order, and signed quad areas add up to the signed area of the outer boundary; for a mesh from 1-D edges each quad area is the product of the edge spacings.", "quantifier": "all meshes of any size and shape, curvilinear included", "why_tests_cant": "discrete Green theorem over all meshes", "anchors": ["glmtools/grid/clipping.py:polys_from_quadmesh", "glmtools/grid/clipping.py:vectorized_poly_area"]}
{"id": "C29", "title": "Bounding-box lookup finds the cells around a polygon", "statement": "On a regular mesh, quads_in_bbox returns, without repetition and with valid indices, all cells that meet the bounding box; quads_nearest returns all cells within the padding of the point.", "quantifier": "all regular meshes and boxes: inside, straddling and enclosing the mesh", "why_tests_cant": "boundary behaviour over all relative positions", "anchors": ["glmtools/grid/clipping.py:QuadMeshSubset._quads_in_bbox_fast", "glmtools/grid/clipping.py:QuadMeshSubset.quads_in_bbox", "glmtools/grid/clipping.py:QuadMeshSubset.quads_nearest"]}
{"id": "C30", "title": "Slicing keeps polygons, fractions and cell indices aligned", "statement": "In the result of QuadMeshPolySlicer.slice, the k-th sub-polygon, area fraction and pair of cell indices of a polygon all refer to the same (polygon, cell) intersection, whatever number of pieces each intersection has; an explicit bbox argument is accepted.", "quantifier": "all polygons, meshes and numbers of pieces per cell (including zero and many)", "why_tests_cant": "np.repeat alignment depends on the pattern of piece counts", "anchors": ["glmtools/grid/clipping.py:QuadMeshPolySlicer.slice", "glmtools/grid/clipping.py:clip_polys_by_one_poly", "glmtools/grid/clipping.py:make_sub_polys"]}
{"id": "C31", "title": "Split area fractions", "statement": "If the pieces of a polygon cover it without overlap then its area fractions are non-negative and add up to one, and the mesh fraction of a cell is the fraction of that cell covered; splitting then conserves the energy of the parent exactly.", "quantifier": "all polygons and clippings that preserve area", "why_tests_cant": "conservation law over all geometries", "anchors": ["glmtools/grid/clipping.py:make_sub_polys", "glmtools/grid/clipping.py:quad_frac_from_poly_frac_area", "glmtools/grid/split_events.py:split_event_data", "glmtools/io/mimic_lma.py:replicate_and_weight_split_child_dataset_new"]}
{"id": "C32", "title": "Split events inherit their own parent", "statement": "After splitting, every split event carries the id, time and (weighted) values of the parent polygon it was cut from, for both the lookup-table and the plain replication path.", "quantifier": "all numbers of pieces per parent, parents without pieces included", "why_tests_cant": "row alignment across four flattened structures", "anchors": ["glmtools/grid/split_events.py:gen_split_events", "glmtools/grid/split_events.py:split_event_data", "glmtools/grid/split_events.py:replicate_and_weight_split_child_dataset", "glmtools/io/mimic_lma.py:replicate_and_weight_split_child_dataset_new"]}
{"id": "C33", "title": "Regrouping split events by mesh cell is exact and gives each cell once", "statement": "Before accumulation split events are merged per mesh cell: two events merge iff they are in the same cell, every cell occurs at most once in the batch, sums are preserved and minima are the minima of the merged events.", "quantifier": "all batches of split events", "why_tests_cant": "collision-freeness of the flattened cell key over all index ranges", "anchors": ["glmtools/io/mimic_lma.py:_fake_lma_events_from_split_glm_lutevents"]}
{"id": "C34", "title": "Direct-index accumulation adds every value exactly once", "statement": "Feeding any sequence of batches to the direct-index accumulator leaves in each cell its initial value plus the sum of all values sent to it, independent of order and batching, provided no batch addresses a cell twice; a batch that addresses a cell twice keeps only one of its values.", "quantifier": "all grids, all sequences of batches", "why_tests_cant": "history and batching independence", "anchors": ["glmtools/grid/accumulate.py:accumulate_var_on_grid_direct_idx"]}
{"id": "C35", "title": "Minimum accumulation keeps the minimum positive value", "statement": "Feeding any sequence of batches with positive values to the minimum accumulator leaves in each cell the minimum of the values sent to it and zero where none was sent, independent of order.", "quantifier": "all grids, all sequences of batches", "why_tests_cant": "zero is used both as \"empty\" and as a value; order dependence shows only on some histories", "anchors": ["glmtools/grid/accumulate.py:accumulate_minvar_on_grid_direct_idx"]}
{"id": "C36", "title": "Gridded totals equal observed totals, in the right cell", "statement": "Events that go through lookup table, splitting, regrouping and accumulation add to the grid cell with x index i and y index j exactly the energy times the fraction of their polygon in that cell; if all polygons are covered by the grid, the sum of the energy grid equals the total event energy, over any number of chunks and files.", "quantifier": "all datasets, all chunkings, all rectangular grids (also non-square)", "why_tests_cant": "composition of five stages with two transpositions", "anchors": ["glmtools/io/mimic_lma.py:fast_fixed_grid_read_chunk", "glmtools/io/mimic_lma.py:_fake_lma_events_from_split_glm_lutevents", "glmtools/grid/accumulate.py:accumulate_var_on_grid_direct_idx", "glmtools/grid/make_grids.py:proc_each_grid"]}
{"id": "C37", "title": "Written image, coordinates and data agree", "statement": "In each written file the pixel at row r, column c holds the value of the grid cell whose centre has the x coordinate of column c and the y coordinate of row r, with rows ordered north to south, for every padding.", "quantifier": "all grid sizes and paddings", "why_tests_cant": "two flips, a transpose and a trim over all shapes", "anchors": ["glmtools/io/imagery.py:write_goes_imagery", "glmtools/grid/make_grids.py:GridOutputPreprocess.get_pad_slices"]}
{"id": "C38", "title": "Average areas are totals divided by counts", "statement": "write_goes_imagery writes average_flash_area = total flash area / flash extent density where both are non-zero and nothing (missing) elsewhere, likewise for groups, in every frame, for scaled and float output, and writing the same grids again writes the same values.", "quantifier": "all grids, both output modes, all frame counts, repeated calls", "why_tests_cant": "division happens in place on views of shared arrays after the denominator was itself modified; only an argument over all values, frames and modes shows where the result is the quotient", "anchors": ["glmtools/io/imagery.py:write_goes_imagery", "glmtools/io/imagery.py:glm_image_to_var", "glmtools/grid/make_grids.py:GLMlutGridder.output_setup"]}
{"id": "C39", "title": "Packing never turns lightning into missing data", "statement": "A positive value within the packing range is written as a non-fill integer and read back within half a scale step (values below one step read back as one step); zero reads back as missing; no two values are reordered.", "quantifier": "all values from zero to 65535 scale steps, all fields of the scaling table", "why_tests_cant": "quantisation over a continuum of values", "anchors": ["glmtools/io/imagery.py:glm_image_to_var", "glmtools/io/imagery.py:glm_scaling"]}
{"id": "C40", "title": "Aggregating frames conserves totals", "statement": "aggregate(glm, minutes) puts every frame in exactly one output interval, sums of summed fields are conserved, average flash/group area is the density-weighted mean of the frame averages and minimum area the minimum. The result has a summed variable for every other field of the frames, as its documentation says.", "quantifier": "all series of frames, all interval lengths", "why_tests_cant": "edge conventions of bins over all time series", "anchors": ["glmtools/io/imagery.py:aggregate"]}
{"id": "C41", "title": "Tile boundaries partition the domain", "statement": "subdivide_bnd(bnd, delta, s) returns s+1 non-decreasing edges from bnd[0] to bnd[1], all segments but the last of the same whole number of cells, the last at least as long; no point of the domain is lost or covered twice.", "quantifier": "all bounds, spacings and numbers of tiles", "why_tests_cant": "integer truncation of a quotient over all ratios", "anchors": ["glmtools/grid/make_grids.py:subdivide_bnd", "glmtools/grid/make_grids.py:subdivided_fixed_grid"]}
{"id": "C42", "title": "Padding is removed exactly", "statement": "Trimming with the padding slices inverts padding by the same number of cells (zero included), in both directions and for every tile.", "quantifier": "all grid sizes and paddings", "why_tests_cant": "negative-slice corner case at zero", "anchors": ["glmtools/grid/make_grids.py:GridOutputPreprocess.get_pad_slices", "glmtools/grid/make_grids.py:subdivided_fixed_grid", "glmtools/grid/make_grids.py:GridOutputPreprocess.capture_write_call"]}
{"id": "C43", "title": "Output options apply to every tile", "statement": "When a grid is subdivided, each tile is written with the output options given by the user (float or scaled output) and its own padding.", "quantifier": "all numbers of tiles, all option dictionaries", "why_tests_cant": "shared mutable dictionary: depends on the history of previously written tiles", "anchors": ["glmtools/grid/make_grids.py:subdivided_fixed_grid", "glmtools/grid/make_grids.py:proc_each_grid", "glmtools/grid/make_grids.py:GLMlutGridder.write_grids"]}
{"id": "C44", "title": "Each tile and frame gets its own file", "statement": "Output file names of different frames differ whenever their start times differ by at least a second, and files of different tiles do not overwrite each other.", "quantifier": "all frame edges, tiles and creation times", "why_tests_cant": "depends on wall-clock schedule", "anchors": ["glmtools/io/imagery.py:get_glm_global_attrs", "glmtools/io/imagery.py:write_goes_imagery"]}
{"id": "C45", "title": "Grid setup bounds are symmetric and whole", "statement": "For explicit width and height the example driver uses bounds symmetric about the requested centre which span a whole number of cells of the requested spacing; minimum event/group counts of one or less disable the filter.", "quantifier": "all centres, spacings and widths", "why_tests_cant": "arithmetic identity over all values", "anchors": ["examples/grid/make_GLM_grids.py:grid_setup"]}
{"id": "C46", "title": "LCFA ASCII conversion keeps records", "statement": "The three line readers together classify each record line as exactly one of flash, group or event and return its identifiers and values in file order, for any interleaving of lines; formatting a record and reading it back gives the record.", "quantifier": "all files, any number of lines", "why_tests_cant": "parser round trip over all inputs", "anchors": ["glmtools/io/convert_lcfa.py:gen_flash_data", "glmtools/io/convert_lcfa.py:gen_group_data", "glmtools/io/convert_lcfa.py:gen_event_data"]}
{"id": "C47", "title": "Pixel lookup indices point at the pixel they came from", "statement": "For every mask of usable pixels the index arrays of create_pixel_lookup satisfy lon[X[k],Y[k]] = flat longitude k (same for latitude), and every usable pixel occurs exactly once.", "quantifier": "all rectangular pixel tables and masks", "why_tests_cant": "flattening and transposition over all shapes", "anchors": ["glmtools/io/ccd.py:create_pixel_lookup"]}
{"id": "C48", "title": "Pipelines and output tables line up", "statement": "Every gridder class can be set up, and the k-th output grid is written under the k-th field name with the statistics it accumulated.", "quantifier": "all gridder classes and configurations", "why_tests_cant": "positional coupling between three separately maintained tuples; one class is never constructed by tests", "anchors": ["glmtools/grid/make_grids.py:GLMGridder.pipeline_setup", "glmtools/grid/make_grids.py:GLMGridder.output_setup", "glmtools/grid/make_grids.py:GLMlutGridder.output_setup"]}
{"id": "C49", "title": "Splitting without a bounding box loses no part of a polygon; with one it misses no cell", "statement": "QuadMeshPolySlicer.slice called without bbox (as the gridding code does) cuts each polygon by every mesh cell it overlaps, whatever its size relative to the cells, so that no area and no energy is lost inside the mesh. With a bounding box (bbox=True), every cell that the extent of the polygon meets is looked up.", "quantifier": "all regular meshes, spacings and polygons whose vertex mean lies in the mesh", "why_tests_cant": "depends on the ratio between polygon size and mesh spacing; tests use one resolution", "anchors": ["glmtools/grid/clipping.py:QuadMeshSubset.quads_nearest", "glmtools/grid/clipping.py:QuadMeshPolySlicer.slice", "glmtools/io/mimic_lma.py:fast_fixed_grid_read_chunk"]}
{"id": "C50", "title": "Lightning outside the target grid never stops the gridding", "statement": "Gridding a set of files succeeds whenever the files can be read, also when all pixels of some chunk of flashes lie outside of the target grid; such data add nothing.", "quantifier": "all files, selections, chunk sizes and rectangular grids", "why_tests_cant": "which chunks are empty depends on data, grid and chunk size together", "anchors": ["glmtools/io/mimic_lma.py:fast_fixed_grid_read_chunk", "glmtools/io/mimic_lma.py:_fake_lma_events_from_split_glm_lutevents", "glmtools/grid/split_events.py:replicate_and_weight_split_child_dataset_new"]}
{"id": "C51", "title": "The grids do not depend on the chunk size", "statement": "For fixed files, selection and grid, the gridded fields are the same for every chunk size.", "quantifier": "all files, selections, grids and pairs of chunk sizes", "why_tests_cant": "independence of a tuning parameter over all data", "anchors": ["glmtools/io/mimic_lma.py:read_flashes", "glmtools/io/glm.py:get_lutevents"]}
{"id": "C52", "title": "Values beyond the packing range saturate", "statement": "A value of more than 65535 scale steps is written as the largest value of the range (or larger), never as missing or as a smaller value.", "quantifier": "all grids and fields of the scaling table, scaled output", "why_tests_cant": "tests use ordinary values; the wrap-around needs a value above 65535 steps", "anchors": ["glmtools/io/imagery.py:glm_image_to_var", "glmtools/io/imagery.py:glm_scaling"]}
{"id": "C53", "title": "Every grid with at least one cell can be written", "statement": "write_goes_imagery ends without exception for every grid or tile that has at least one cell, whatever the values, and writes one file per frame.", "quantifier": "all grid and tile sizes, paddings, numbers of frames, values", "why_tests_cant": "sizes used in tests are ordinary; the exception depends only on the number of columns", "anchors": ["glmtools/io/imagery.py:infer_scene_from_dataset", "glmtools/io/imagery.py:write_goes_imagery"]}
{"id": "C54", "title": "A series of image files keeps order, times and coverage", "statement": "open_glm_time_series(files) gives one frame per file in the order listed, each timed by the start of its file, and records as coverage the earliest start and the latest end, whatever the order of the list.", "quantifier": "all non-empty lists of files in any order", "why_tests_cant": "the order of the list is arbitrary; a few sorted lists cannot show that unsorted lists keep frames and coverage right", "anchors": ["glmtools/io/imagery.py:open_glm_time_series", "glmtools/io/imagery.py:gen_file_times"]}
{"id": "C55", "title": "Navigated angles are small", "statement": "Every location, on the near or the far side of the earth, navigates to angles below 0.16 radian in magnitude, so every event with a location lies well inside the +-0.31 radian range on which the event lookup table assigns its ids.", "quantifier": "all longitudes, latitudes, satellite longitudes and both ellipsoids", "why_tests_cant": "A property of the range of a real function of three variables.", "anchors": ["glmtools/io/lightning_ellipse.py:ltg_ellps_lon_lat_to_fixed_grid", "glmtools/io/glm.py:get_lutevents"]}
{"id": "C56", "title": "Event polygons from the corner table stay around the event", "statement": "The polygon of an event computed from a table of corner offsets exists for every event when extrapolation is on, and without it for every event inside the hull of the table (outside its corners are NaN); each of its corners lies within (inflation times the largest tabulated offset) of the event, inflation scales it about the event, at a node of the table it is the tabulated one, and a table read from an official file keeps the corner order of the file.", "quantifier": "every table of any size, every number of corners, event location, inflation and nadir longitude, every interpolator whose values lie between those of the table", "why_tests_cant": "Tests interpolate a few pixels of one table; NaN outside the hull and mixed-up corners need all locations.", "anchors": ["glmtools/io/ccd.py:quads_from_corner_lookup", "glmtools/io/ccd.py:read_official_corner_lut"]}
{"id": "C57", "title": "A listing cut short never corrupts earlier records", "statement": "Reading an ASCII listing of flashes, groups and events that was cut anywhere in its last line either raises or returns every earlier record unchanged plus at most the record of the cut line; that record is the complete one.", "quantifier": "every listing, every position of the cut", "why_tests_cant": "The cut can fall at any character of any line.", "anchors": ["glmtools/io/convert_lcfa.py:gen_flash_data", "glmtools/io/convert_lcfa.py:gen_group_data", "glmtools/io/convert_lcfa.py:gen_event_data"]}
{"id": "C58", "title": "The time window of a run is that of its files", "statement": "Without explicit times, the example driver grids the interval from the earliest start time in the names of the input files to twenty seconds after the latest one, whatever order the files are given in, so that a run over consecutive files covers exactly their common span; explicit ISO times replace either end, and only texts that name an existing time are accepted. Explicit times make the run independent of the names of the files.", "quantifier": "all non-empty lists of file names, all start and end times, all texts given as times", "why_tests_cant": "the set and order of files is unbounded and the calendar arithmetic crosses minute, day and year boundaries", "anchors": ["examples/grid/make_GLM_grids.py:grid_setup", "glmtools/io/glm.py:parse_glm_filename"]}
{"id": "C59", "title": "Time frames partition a run", "statement": "Every instant of the gridded interval is in exactly one frame, the frames of a summed field add up to the field gridded over the whole interval, and the lightning shown in a frame is that which occurred during the frame.", "quantifier": "all frame edges, files, times of files, flashes, groups and events, and all cells", "why_tests_cant": "Frames of any number and duration and times at or near the edges; double counting or loss at an edge shows up only for particular times.", "anchors": ["glmtools/grid/make_grids.py:proc_each_grid", "glmtools/io/mimic_lma.py:fast_fixed_grid_read_chunk", "glmtools/grid/make_grids.py:GLMlutGridder.pipeline_setup"]}
{"id": "C60", "title": "Written files show the products", "statement": "After a run, there is one file per frame with all fields; the pixel at the coordinates of a cell shows, to the precision of the stored steps, the total energy, extent densities, mean and minimum areas and exact counts of flash and group positions that the files of the frame give for the cell.", "quantifier": "all files, selections, edges, frames, paddings, chunk sizes, scaled or not, all pixels of all files", "why_tests_cant": "The composition of reading, cutting, accumulating, trimming, flipping, dividing and packing; a test sees one scene.", "anchors": ["glmtools/grid/make_grids.py:proc_each_grid", "glmtools/io/imagery.py:write_goes_imagery", "glmtools/io/mimic_lma.py:read_flash"]}
{"id": "C61", "title": "A run completes with one file per frame", "statement": "A call of the gridding function for the fixed grid ends with one file for every frame, whichever of the optional keywords are given and whether or not there was any lightning.", "quantifier": "all combinations of keywords, files (with or without lightning), frames and selections", "why_tests_cant": "Test data always contain lightning and always use the full set of keywords.", "anchors": ["glmtools/grid/make_grids.py:proc_each_grid", "glmtools/grid/make_grids.py:GLMGridder.pipeline_setup", "glmtools/io/imagery.py:write_goes_imagery"]}
{"id": "C62", "title": "Scene and resolution written with an image follow from its extent and column distance", "statement": "For every call of write_goes_imagery that returns, each file's name carries the scene letter and its attributes the scene name of the first sector (full disk, CONUS, mesoscale) whose extent is within one percent of the extent of the image's coordinates, and otherwise the fallbacks of the code; spatial_resolution is the last of the listed nadir resolutions within one percent of the distance of the first two columns, without '.0', or else the distance in whole microradians. A grid of at least 100 evenly spaced columns and rows that fills a sector is recognised as that sector. (A user would also expect different sizes to have different names; images of any unlisted size share the mesoscale letter, and one written for the same time replaces the other.)", "quantifier": "all grids (edges, padding, sizes), scenes, resolution tables, time edges, templates and arrays for which the call returns", "why_tests_cant": "The extent is compared with a tolerance on real numbers; tests use a few standard grids and cannot show that no other grid of any size is named wrongly.", "anchors": ["glmtools/io/imagery.py:infer_scene_from_dataset", "glmtools/io/imagery.py:write_goes_imagery", "glmtools/io/imagery.py:get_glm_global_attrs", "glmtools/io/imagery.py:new_goes_imagery_dataset"]}
{"id": "C63", "title": "Packed coordinates read back at the pixel they belong to", "statement": "The 16-bit codes of x and y in a written file read back within half of 56 microradians of the true pixel centres; if the columns are at least 56 microradians apart and no centre is exactly half way between two codes, different columns (rows) keep different coordinates, and centres on the 2 km fixed grid are exact. (Without these conditions it fails: with finer spacing, or centres at whole multiples of 56 microradians, distinct columns read back as the same coordinate.)", "quantifier": "all grids within 0.2 radian of the nadir, all paddings and sizes, all rows and columns", "why_tests_cant": "Whether two of several thousand columns collide after rounding depends on the phase of the grid; a test grid with an even number of columns never shows it.", "anchors": ["glmtools/io/imagery.py:get_goes_imager_fixedgrid_coords", "glmtools/io/imagery.py:write_goes_imagery"]}
{"id": "C64", "title": "Times of a frame agree between its attributes, its file name and its neighbours", "statement": "In the file of every frame, time_coverage_start and time_coverage_end are the ISO texts of the frame's edges and read back to exactly these times; the file name parses to the same times in whole seconds and to the same platform; the end of each frame is the start of the next.", "quantifier": "all calls, all frames, all times from 1678 to 2261 including fractions of a second, leap years and year ends, all platforms that are a component of a name", "why_tests_cant": "Ranges over all instants and through three formatters and two parsers.", "anchors": ["glmtools/io/imagery.py:write_goes_imagery", "glmtools/io/imagery.py:get_glm_global_attrs", "glmtools/io/imagery.py:glm_image_to_var", "glmtools/io/imagery.py:open_glm_time_series"]}
{"id": "C65", "title": "Every frame ends up in its own file under the path that is returned", "statement": "write_goes_imagery returns one path for each frame, in order: the template with the frame's times and file name filled in. What a path holds afterwards is the file of the last frame written to it; all other files and directories are as before. With a directory and the default name, frames at least a second apart keep separate files, and writing succeeds unless a file is in place of one of the directories. (It fails for a template without a directory, which always raises FileNotFoundError, and a template coarser than the frames keeps only the last of them.)", "quantifier": "all file systems, templates, times, grids and arrays", "why_tests_cant": "Depends on the state of the file system and on all combinations of templates with times.", "anchors": ["glmtools/io/imagery.py:write_goes_imagery", "examples/grid/make_GLM_grids.py"]}
{"id": "C66", "title": "Imagery that is written, opened and aggregated keeps what was counted", "statement": "The files of any frames of a call, in any order, opened with open_glm_time_series: the result has the same fields, one frame per file at the start time of the frame with the pixels of that file, and the attributes are the first start and the last end. If a summed field holds whole numbers of its storage step, then after writing, opening and aggregating, the sum over all intervals at a pixel equals the sum of the gridded arrays over the frames that start after the first one. (The first frame is dropped by the default binning, see C40.) With start_end given, starting before the first frame and a whole number of intervals long, the sum equals that over all frames.", "quantifier": "all grids, paddings, numbers and orders of frames, array contents, minutes", "why_tests_cant": "Composition of five stages with rounding and formatting in between, over all arrays.", "anchors": ["glmtools/io/imagery.py:write_goes_imagery", "glmtools/io/imagery.py:open_glm_time_series", "glmtools/io/imagery.py:aggregate"]}
{"id": "C67", "title": "Reading without clipping gives every selected flash, group and event once, whatever the chunk size", "statement": "read_flashes(glm, None, ..., clip_events=False) returns batches in which, taken together, every selected flash, group and event is exactly one parent with its position, energy, area, start and duration, and every event of the selection is exactly one child at each level with its position, energy and time; children and parents of a batch belong together by id; except for n_points nothing depends on the chunk size.", "quantifier": "every opened file, selection, base date, chunk size and order of sets", "why_tests_cant": "Unit tests use one file and one chunk size; the claim is about every tree of flashes, groups and events and every way of cutting it.", "anchors": ["glmtools/io/mimic_lma.py:read_flashes", "glmtools/io/mimic_lma.py:read_flash_chunk", "glmtools/io/mimic_lma.py:mimic_lma_dataset", "glmtools/io/mimic_lma.py:sec_since_basedate"]}
{"id": "C68", "title": "n_points is the number of events of the flash", "statement": "In the point data, n_points of a flash is the number of its events. This is false: it is the number of all events of the chunk, cut to 16 bits; it holds when every chunk has a single flash with fewer than 32768 events.", "quantifier": "every opened file, selection and chunk size", "why_tests_cant": "A test with one flash sees the right number; the failure depends on how flashes are cut into chunks and on totals above 32767.", "anchors": ["glmtools/io/mimic_lma.py:_fake_lma_from_glm_flashes", "glmtools/io/mimic_lma.py:_fake_lma_from_glm_groups", "glmtools/io/mimic_lma.py:_fake_lma_from_glm_events"]}
{"id": "C69", "title": "A collection of files delivers every file once in order of time", "statement": "Iterating GLMncCollection gives the selected flashes and events of every file once, in order of product time, and data_for_time gives those of the file with that time. This holds when the product times differ by whole seconds and every file has a selected flash; of two files in one second the later listed is delivered twice and the other never, and one file without a selected flash makes the iteration raise ValueError.", "quantifier": "every list of files, product times, selection and base date", "why_tests_cant": "It is about arbitrary lists of files, their order and coinciding times.", "anchors": ["glmtools/io/mimic_lma.py:GLMncCollection", "glmtools/io/mimic_lma.py:read_flashes"]}
{"id": "C70", "title": "Times of a time series count from the base date that is given", "statement": "Events and flashes of TimeSeriesGLMFlashSubset(..., base_date=b) have times in seconds from b. This is false: the argument is replaced by None before it is used, so any two base dates give the same times.", "quantifier": "every list of files, start time, base date and choice of base date by the superclass", "why_tests_cant": "A test with the base date that the superclass would choose anyway passes.", "anchors": ["glmtools/io/mimic_lma.py:TimeSeriesGLMFlashSubset", "glmtools/io/mimic_lma.py:GLMncCollection"]}
{"id": "C71", "title": "Statistics in a polygon use the flashes and events inside it", "statement": "Reading the flashes in a box around the polygons and then applying the polygons keeps exactly the flashes whose centroid is in a polygon, and bounds on area, altitude and energy keep exactly the flashes within them. Events do not follow: one inside the polygon is lost when the centroid of its flash is outside the box, one may be kept whose flash is not, and no bound removes events.", "quantifier": "every opened file, polygon mask, box around it, bounds and base date", "why_tests_cant": "The agreement of two selections must hold for every arrangement of flashes, events and polygons.", "anchors": ["glmtools/io/mimic_lma.py:TimeSeriesGLMPolygonFlashSubset", "glmtools/io/mimic_lma.py:GLMncCollection", "examples/glm-lasso-stats.py:gen_filtered_time_series"]}
{"id": "C72", "title": "The initiation point of a flash is the position of its first group", "statement": "Adding initiation points gives every flash the longitude and latitude of the earliest of its groups, the first in the file among groups of the same time, whatever the order of groups and flashes in the file.", "quantifier": "every consistent dataset in which every flash has a group, every assignment of times", "why_tests_cant": "It is a statement about every order of rows and about ties, including alignment of ids.", "anchors": ["examples/flash_init_dataset.py:get_first_group", "examples/flash_init_dataset.py:get_flash_init_data", "examples/flash_init_dataset.py:add_flash_init_data"]}
{"id": "C73", "title": "Gridding returns the names of the files it wrote", "statement": "A successful call of grid_GLM_flashes returns one entry per tile, in the order of the tile indices, and each entry names exactly the files that were written for that tile: as many as there are frames, all present afterwards, and no other path has changed.", "quantifier": "every set of keyword arguments, every number of tiles and frames, every grid and data, every state of the file system and of the shared dictionaries", "why_tests_cant": "The result depends on the way the grid is divided, on which of the writers is called, and on the state left by earlier calls; tests run a few fixed cases and never look at the returned names.", "anchors": ["glmtools/grid/make_grids.py:grid_GLM_flashes", "glmtools/grid/make_grids.py:proc_each_grid", "glmtools/grid/make_grids.py:GridOutputPreprocess"]}
{"id": "C74", "title": "Keyword arguments of gridding act by name and value", "statement": "A call of grid_GLM_flashes without an argument it needs raises before anything is written or changed; with all of them, and data that can be written, it succeeds; an on/off option (clip_events=False) acts by its value; an argument whose value is never used may be left out.", "quantifier": "every set of keyword arguments, in any order, with any values; every data set, grid, division into tiles and state of the file system", "why_tests_cant": "There are dozens of optional arguments and exponentially many combinations of them being given or left out; tests try a handful.", "anchors": ["glmtools/grid/make_grids.py:grid_GLM_flashes", "glmtools/grid/make_grids.py:subdivided_fixed_grid", "glmtools/grid/make_grids.py:proc_each_grid"]}
{"id": "C75", "title": "A call of gridding does not depend on earlier calls", "statement": "What grid_GLM_flashes returns, raises and writes depends on its arguments, the data and the files, and not on what was called before in the same process, whether that succeeded or raised; and it leaves the dictionaries it was given as they were.", "quantifier": "every history of calls with any arguments, including calls that raise at any point, followed by any call", "why_tests_cant": "It is a statement over all histories of calls sharing mutable default arguments and caller-owned dictionaries; a test sees one history.", "anchors": ["glmtools/grid/make_grids.py:GLMlutGridder.write_grids", "glmtools/grid/make_grids.py:proc_each_grid", "glmtools/grid/make_grids.py:grid_GLM_flashes"]}
{"id": "C76", "title": "A gridding run that raises leaves whole files only", "statement": "If grid_GLM_flashes raises at any tile or frame, what is on disk is what was there before, plus complete files: all frames of the tiles before, and the first frames of the tile at which it stopped. Each of these files carries the times and attributes (slot, instrument) of its frame and all of the fields. Directories and files of earlier runs are not removed.", "quantifier": "every point at which an exception can arise, in any tile and any frame, for any arguments, data and state of the file system", "why_tests_cant": "The point of failure ranges over all tiles and frames and all reasons to raise; fault injection covers a few.", "anchors": ["glmtools/grid/make_grids.py:grid_GLM_flashes", "glmtools/io/imagery.py:write_goes_imagery"]}
{"id": "C77", "title": "Times of the files of October and November 2018 are corrected", "statement": "Opening a GLM file made between 2018-10-15 and 2018-11-06, when the _Unsigned attribute was missing, gives every flash, group and event the times that its 16 bit codes stand for as unsigned numbers; files of other periods, and all other variables, are not touched. This holds also if the tree of the file had to be repaired on opening, and if the source is a dataset in memory.", "quantifier": "every file: any number of flashes, groups and events, any codes, any packing attributes and fill values, any product time bounds, intact and broken trees, any iteration order of sets, all options of the constructor", "why_tests_cant": "The correction is put beside the rows by position after the tree was pruned and rearranged; whether positions still agree depends on the whole tree. Tests have no file of that period.", "anchors": ["glmtools/io/glm.py:GLMDataset._check_and_fix_missing_unsigned_time", "glmtools/io/glm.py:GLMDataset.__init__"]}
{"id": "C78", "title": "Images on longitude-latitude grids keep their coordinates", "statement": "The coordinates read from an image file of a grid of longitude and latitude (proj_name='latlong', the default of the example script) are the longitudes and latitudes of the columns and rows, up to the rounding of the file format.", "quantifier": "every grid, of any extent and spacing, every frame and every padding", "why_tests_cant": "Every pair of coordinates on Earth and every spacing has to survive a packing into 16 bits that was chosen for radians.", "anchors": ["glmtools/io/imagery.py:get_goes_imager_fixedgrid_coords", "glmtools/io/imagery.py:new_goes_imagery_dataset", "glmtools/grid/make_grids.py:grid_GLM_flashes"]}
{"id": "C79", "title": "Points of a chunk split by a mesh", "statement": "read_flash_chunk with a mesh as clip_events and a corner table returns for every flash, group and event the same parent row as without a mesh; as points of each event the pieces of its polygon, of each group and flash the pieces of every separate part of the union of the slightly inflated polygons of its events, in ascending order of ids; each point carries the id and time of what it belongs to, the centroid of the piece, the share of the energy that the piece has of the polygon, the fraction of the cell and the indices of the cell. corner_pickle=None selects the built-in table.", "quantifier": "all consistent chunks of an opened file, meshes, corner tables, clipping, union and projection functions, base dates, both coordinate modes", "why_tests_cant": "the tables for the three levels are built from one event table by polygons, unions, lookups and replication; alignment must hold for every number of events, parts and pieces", "anchors": ["glmtools/io/mimic_lma.py:read_flash_chunk", "glmtools/grid/split_events.py:split_event_dataset_from_props", "glmtools/grid/split_events.py:replicate_and_weight_split_child_dataset", "glmtools/grid/clipping.py:join_polys"]}
{"id": "C80", "title": "Energy of events, groups and flashes split by a mesh", "statement": "When a chunk is split by a mesh that covers it, the power of the points of an event adds up to the energy of the event, and that of a group or flash to the energy of the group or flash.", "quantifier": "all chunks as in C79, all energies, numbers of separate parts of a footprint", "why_tests_cant": "depends on how unions fall apart into several polygons, for any layout of events", "anchors": ["glmtools/io/mimic_lma.py:read_flash_chunk", "glmtools/grid/split_events.py:replicate_and_weight_split_child_dataset"]}
{"id": "C81", "title": "Longitude-latitude grids with clip_events", "statement": "grid_GLM_flashes with proj_name='latlong', longitudes and latitudes as bounds and clip_events puts every selected flash at its longitude and latitude.", "quantifier": "all grids, files, selections and chunk sizes; all longitudes and latitudes of the data", "why_tests_cant": "the run ends without data for any grid of the western hemisphere, or places data by other coordinates; a test with one grid sees one of the two", "anchors": ["glmtools/grid/make_grids.py:grid_GLM_flashes", "glmtools/grid/make_grids.py:proc_each_grid", "glmtools/io/mimic_lma.py:fast_fixed_grid_read_chunk"]}
{"id": "C82", "title": "Clipping in integer coordinates changes the gridded totals only within a stated bound", "statement": "Pixels and cells are clipped in integer coordinates (units of 2**-31, truncated). If the clipping library tiles the integer polygons up to eta square units, the fractions of each pixel add up to 1 within (2**-31 times the length of its diagonals + 4*2**-62 + eta*2**-62) divided by its size; the energy on the grid is the energy of the selected events within the same relative error; and a cell filled by pixels of n flashes shows n within the relative error of the cell. For pixels of 200 microradians or more the error is below 1/30000.", "quantifier": "every polygon with four corners, mesh, set of files, selection, chunk size and clipping library that returns non-empty paths and meets the tiling bound", "why_tests_cant": "the totals are exact in no run; the bound is about every position of pixel corners relative to the integer lattice", "anchors": ["glmtools/grid/clipping.py:clip_poly_pair", "glmtools/grid/clipping.py:clip_polys_by_one_poly", "glmtools/grid/clipping.py:QuadMeshPolySlicer.slice", "glmtools/grid/make_grids.py:FlashGridder"]}
{"id": "C83", "title": "Plotted grids show the data at its place", "statement": "Plotting fields of a gridded dataset at a time draws one panel per field, in order; each pixel of a panel shows the value stored for that time (zero where missing), the label gives the largest value, and the dataset is not changed. Every product the gridder writes can be plotted. Each pixel is drawn at its coordinates. The caption of a panel gives its place as a letter, the name of its field and its unit, and the range of colours depends on the field alone.", "quantifier": "all datasets, times, lists of fields and layouts; every pixel of every image", "why_tests_cant": "images are judged by eye; a displacement of part of a pixel or a change of the data in memory is visible in no single plot", "anchors": ["glmtools/plot/grid.py:plot_glm_grid", "glmtools/plot/values.py:display_params", "examples/plot/plots.py:plot_glm"]}
{"id": "C84", "title": "The picture of a flash shows that flash", "statement": "Plotting a flash by its id draws the positions and energies of exactly its groups and of exactly the events of those groups, its own position, and its id and the times of its first and last event in the title. It makes no difference whether flashes were selected before. An id that is not in the dataset raises.", "quantifier": "all datasets with unique ids, all flash ids, all selections", "why_tests_cant": "any mix-up of children of other flashes depends on the tree of the file; trees are unbounded", "anchors": ["glmtools/plot/locations.py:plot_flash", "glmtools/io/glm.py:GLMDataset.get_flashes"]}
{"id": "C85", "title": "The script that checks files reports the invalid ones", "statement": "Given a list of files, the checking script prints the name of each file in which, for instance, an event_parent_group_id has no group_id, goes on with the other files, and prints nothing for valid files.", "quantifier": "all lists of files, whatever is wrong with each", "why_tests_cant": "the exception that a defect leads to depends on every step of the constructor and on the contents of the file", "anchors": ["examples/check_glm_data.py", "glmtools/io/glm.py:GLMDataset"]}
{"id": "C86", "title": "The field of view bounds enclose the events", "statement": "The bounds of a dataset are the least and largest longitude and latitude of its events, skipping missing ones; passing them as ranges to subset_flashes keeps every flash.", "quantifier": "all datasets with at least one located event", "why_tests_cant": "whether a flash lies on the bounds depends on the data", "anchors": ["glmtools/io/glm.py:GLMDataset.fov_bounds", "glmtools/io/glm.py:GLMDataset.subset_flashes"]}
{"id": "C87", "title": "Images of a sector are those of the product definition", "statement": "Calling the example driver for a sector of the product definition, the images it writes have, side by side over all tiles, the sector's numbers of columns and rows, and every coordinate read from the files is within 28 microradians of the middle of its pixel around the sector's centre, rows from the north. For resolutions that are a multiple of the storage step (2 km and coarser) the comparison in test_grid_specs.py passes exactly if the pixels lie where coordinates can be stored, up to its tolerance. (For a mesoscale sector centred elsewhere all coordinates are off by the same distance and the comparison fails.)", "quantifier": "every command line with a sector, every definition of a sector within 0.2 rad, every number of tiles per side, all frames", "why_tests_cant": "the repository's test compares two sectors with one tile; the driver accepts any position, sector, resolution, centre and subdivision", "anchors": ["examples/grid/test_grid_specs.py:check_against_pug", "examples/grid/make_GLM_grids.py:grid_setup", "glmtools/grid/make_grids.py:subdivided_fixed_grid", "glmtools/io/imagery.py:write_goes_imagery"]}
{"id": "C88", "title": "The three ways to get initiation points agree", "statement": "For every consistent file, printing the first group of every flash, assigning initiation points by alignment of ids and assigning them flash by flash give the same points: the two datasets in the order of the flashes, the printed lines by ascending id. (If a flash has no groups, both assignments raise and the printed lines leave it out.)", "quantifier": "all consistent files, all orders of flashes and groups, all times", "why_tests_cant": "the example runs on one file and prints all three; equality for every order of rows and every tie in time is a statement about all inputs", "anchors": ["examples/flash_init_dataset.py:flash_init_manual", "examples/flash_init_dataset.py:calculate_flash_init", "examples/flash_init_dataset.py:add_flash_init_data"]}
{"id": "C89", "title": "The plotting script saves an image for every time", "statement": "Run on gridded files, the plotting script saves for every time an image of the six fields of that time, below the directory given, in a directory for its day and under a name with its date, hour and minute; files elsewhere are left alone. Any directory may be given, and no image replaces that of another time.", "quantifier": "all series of gridded files, times of this century, directories and states of the file system", "why_tests_cant": "an image that silently replaced another looks right; needs times in the same minute, or a directory with a blank in its name", "anchors": ["examples/plot/plot_glm_file.py", "examples/plot/plots.py:plot_glm"]}
{"id": "C90", "title": "Names and units in the files are those of the data", "statement": "Every gridded file has the eight fields, each once, with long name and units that belong to it: counts per nominal pixel area and per frame interval, areas in km^2 per flash or group, energy in nJ. Area and interval in the units are those of the grid: dx times dy in square microradians on the fixed grid, dx times dy in km^2 to the tenth on other projections, the word grid on longitude and latitude.", "quantifier": "all spacings (any microradians, up to rounding), all projections and all frame intervals", "why_tests_cant": "The label is computed in binary floating point and cut off or rounded; tests with one resolution do not show for which it is wrong.", "anchors": ["glmtools/grid/make_grids.py:GLMGridder.output_setup", "glmtools/io/imagery.py:write_goes_imagery", "glmtools/io/imagery.py:glm_image_to_var"]}
{"id": "C91", "title": "Table of gridded fields within lassos", "statement": "The table that glm-lasso-stats.py writes for a field has one line for every image between the start and the end of the lassos, in order: the ISO time of the image, the largest value and the sum of the values of the cells whose centres lie in the lasso valid at that time, and the 5th, 50th and 95th percentile of the positive ones among them; zeros where there is none.", "quantifier": "all series of images, grids, values and lassos that change in time", "why_tests_cant": "Depends on every combination of image times with lasso times, and on which cells are inside.", "anchors": ["examples/glm-lasso-stats.py:plot_lasso_grid_subset"]}
{"id": "C92", "title": "An image says where lightning is", "statement": "In a run for the satellite of the data (same longitude, however written), the projection variable of every image and the fixed grid coordinates computed for any event, group or flash give the line of sight to its point on the lightning ellipsoid of the product revision, and no other coordinates do. The subpoint equals the origin of the projection, the flattening fits the axes, the quality flags cover the image and use listed values. The longitude of the run is not compared with the files: for another satellite no position off the equator is right. The number of flag values written is not the number of values listed.", "quantifier": "all files, product revisions, positions of events, groups and flashes, longitudes of runs, coordinates of images", "why_tests_cant": "a continuum of positions and longitudes; agreement of two independently written projections, over the reals", "anchors": ["glmtools/io/imagery.py:get_goes_imager_proj", "glmtools/io/imagery.py:get_goes_imager_subpoint_vars", "glmtools/io/imagery.py:get_goes_imager_all_valid_dqf", "glmtools/io/imagery.py:new_goes_imagery_dataset", "glmtools/io/glm.py:GLMDataset.__init_fixed_grid_data", "glmtools/io/lightning_ellipse.py:ltg_ellps_lon_lat_to_fixed_grid"]}
{"id": "C93", "title": "Totals on single precision grids", "statement": "Totals are kept in single precision. Over any sequence of batches, a cell that receives whole values (counts) holds exactly their sum as long as it is at most 2^24, and a cell that receives n finite values that are not negative holds their sum to within a relative error of (n+1) 2^-21 (and n 2^-146). Beyond 2^24 counting stops: any number of further events leaves the cell unchanged.", "quantifier": "all grid shapes, sequences of batches, cells and binary64 values; at most 2^20 values per cell for the error bound", "why_tests_cant": "rounding accumulates over histories of any length; the loss needs more than sixteen million events to show", "anchors": ["glmtools/grid/accumulate.py:accumulate_var_on_grid_direct_idx", "glmtools/grid/make_grids.py:GLMlutGridder"]}
{"id": "C94", "title": "Tiles of a grid in binary arithmetic", "statement": "Computed in binary64 as the code does, for every grid of the gridding script (n cells of size d about a centre) and every number s < n of tiles: the cells per tile are those of n or of n-1 cells, every tile begins and ends where it should to within two millionths of a cell, every tile has its share of the cells or one more, and together the tiles have at least n and at most n + s cells. The padding is the whole number of cells in 2.8 milliradians. That they have exactly n cells is false: the full disk at 2 km in four tiles has a column too many, the continental sector at 2 km in two tiles has a row twice.", "quantifier": "all finite binary64 spacings between 2^-20 and 1 radian, centres up to half a radian, widths up to 2 radians, numbers of tiles", "why_tests_cant": "depends on the rounding of every operation for every combination of size, spacing, centre and number of tiles", "anchors": ["glmtools/grid/make_grids.py:subdivide_bnd", "glmtools/grid/make_grids.py:subdivided_fixed_grid", "glmtools/grid/make_grids.py:GridOutputPreprocess", "examples/grid/make_GLM_grids.py:grid_setup"]}
{"id": "C95", "title": "Lookup of cells by arithmetic misses none", "statement": "On an evenly spaced mesh, the lookup of the cells of a bounding box by arithmetic returns every cell that meets the box, each once and with indices of the mesh, wherever the box lies: within the mesh, partly outside or around it; and no cell more than three spacings from the box.", "quantifier": "all evenly spaced increasing meshes of at least two cells per axis, in both index orders, all boxes (within two thousand million spacings of the first edge), all paddings of at least two", "why_tests_cant": "The result depends on where the box lies between cell centres and on clipping at both borders; the code itself says the function is untested.", "anchors": ["glmtools/grid/clipping.py:QuadMeshSubset._quads_in_bbox_regular"]}
{"id": "C96", "title": "The dataset made from an ASCII listing is the tree of the listing", "statement": "Converting an ASCII listing of flashes, groups and events produces a dataset in which each number of each line stands under its production-format variable name, along the dimension of its kind, in listing order, with ids, parent ids, times and positions marked as coordinates and each name once. If the listing is nested with matching parent ids and distinct ids, the dataset's tree is consistent: each event is attributed to the flash under which it is listed and the children counted are the lines listed below. The converted file can be opened as a production file.", "quantifier": "every listing made of well-formed flash, group and event lines and any other lines, with LF or CR LF line ends; every nesting; every combination of the opening options", "why_tests_cant": "A test converts one listing; the claim is about all listings, of any length and nesting, with any literals, ids and order.", "anchors": ["glmtools/io/convert_lcfa.py: parse_LCFA_ASCII", "glmtools/io/convert_lcfa.py: merge_dataframes_to_xarray", "glmtools/io/glm.py: GLMDataset", "glmtools/io/traversal.py: OneToManyTraversal"]}
{"id": "C97", "title": "Saved lookups come back as they were saved", "statement": "What was last saved under a name by save_pixel_lookup or save_pixel_corner_lookup is what the matching load function returns, in order, after any history of saving; files not named are untouched; without a name nothing is written and the returned bytes load to the same objects. A loaded pixel lookup is equivalent to what create_pixel_lookup returned (lookup, X, Y). A process that ends while saving leaves the old contents or the new.", "quantifier": "every history of saving calls over any names and objects, every point at which a process can end while writing", "why_tests_cant": "A test saves and loads once; histories, crash points and all contents are beyond it.", "anchors": ["glmtools/io/ccd.py: save_pixel_lookup", "glmtools/io/ccd.py: load_pixel_lookup", "glmtools/io/ccd.py: save_pixel_corner_lookup", "glmtools/io/ccd.py: load_pixel_corner_lookup"]}
{"id": "C98", "title": "The lookup finds the pixel of a location", "statement": "Every pixel with a location in the file read by read_pixel_location_mat_file is in the lookup made from it exactly once, and a query for a location in degrees east (west negative), made as the documentation shows, answers the pixel nearest to it.", "quantifier": "all tables of any shape with any pixels missing, all locations, every answer of a nearest neighbour search", "why_tests_cant": "Tests use one table of one satellite and one order of the coordinates.", "anchors": ["glmtools/io/ccd.py: read_pixel_location_mat_file", "glmtools/io/ccd.py: create_pixel_lookup"]}
{"id": "C99", "title": "The parallel map gives what a map gives", "statement": "Iterating over run_pool_map(f, a) gives f's results for the arguments in their order, each computed once, for every number of workers, chunk size and schedule. If an argument raises, the results of the arguments before it are given and then its exception. If a worker dies, only a beginning of the right results is given and then an error, never wrong or misplaced results. Every run ends.", "quantifier": "every function, every list of arguments of any length, number of workers, chunk size, every interleaving of workers taking and finishing chunks and every point at which a worker can die", "why_tests_cant": "A test sees one schedule; which worker finishes first and where one dies cannot be enumerated.", "anchors": ["glmtools/grid/clipping.py: run_pool_map"]}
{"id": "C100", "title": "Pixel identifiers in binary arithmetic", "statement": "discretize_2d_location in binary64 gives two locations the same id iff they fall in the same discretisation cell; where rounding matters the id is that of a location at most 1.5e-8 of a cell away, no intermediate value overflows, locations with one id are at most a cell apart, and with the defaults of get_lutevents pixels of the instrument (224 microradians apart) are never merged.", "quantifier": "every finite binary64 scale in [2^-20, 1] rad, every range in [-2, 2] rad, every pair of locations at or above the lower ends; every result of out-of-range casts", "why_tests_cant": "rounding faults sit at isolated floating point values: 71 of the 22142 neighbouring cells of the default scale", "anchors": ["glmtools/io/glm.py: discretize_2d_location", "glmtools/io/glm.py: get_lutevents"]}
{"id": "C101", "title": "The command line means what its help says", "statement": "Options of make_GLM_grids.py may come before or after the file names, in any order, as two arguments, with an equals sign or abbreviated: every attribute is what the last option for it gives or the documented default, file names come in order, and the gridding call is the same for every such order. Any text that float reads may be a value, file names may stand anywhere, after two dashes any text is a file name, unknown and ambiguous options are refused, and every documented option has an effect.", "quantifier": "every command line: any number of options in any order, spelling and place, any file names and values", "why_tests_cant": "orders, spellings and places of options multiply without end; argparse decides from the whole line", "anchors": ["examples/grid/make_GLM_grids.py: create_parser", "examples/grid/make_GLM_grids.py: grid_setup"]}
{"id": "C102", "title": "Runs on parts of the data add up to a run on all of it", "statement": "Gridding a list of files succeeds iff gridding each part of it does, and the grids of sums of the whole are the cell by cell sums of those of the parts (the minimum the least positive one), so a day may be gridded in parts. Aggregating the imagery of runs over intervals gives, for every interval, what one run on the files of the runs in the interval gives: counts, energy, average and minimum areas. Aggregated over the whole period from the start of the first run, nothing is lost.", "quantifier": "every list of files split into any number of parts, every grid, query, chunk size and order of sets, every series of runs and every aggregation interval", "why_tests_cant": "the two ways of gridding must agree for every split of every day's files; a test compares a few", "anchors": ["glmtools/grid/make_grids.py: grid_GLM_flashes", "glmtools/io/imagery.py: aggregate"]}
{"id": "C103", "title": "Every pixel is shared among the cells in proportion to the overlap", "statement": "On a grid with equal cells, if every pixel quadrilateral is convex, has a size, is centred on the grid and reaches no further than two cells from its centre, then every cell holds, of the energy of every pixel, the share of the pixel's size that lies in the cell; the flash and group counts and areas are weighted by the share of the cell that the pixel covers; the energy on the whole grid is the energy of each pixel times the share of it that is on the grid, so all of the observed energy when no pixel reaches over the border. With a clipping library that works on integer coordinates the total is the observed energy up to the rounding of corners. The share is the area of the part of the pixel inside the cell, not whatever the clipping returned.", "quantifier": "all files, flash selections, chunk sizes, grids with equal cells, convex pixels of any number of corners and either orientation, and clipping functions that are exact on convex polygons", "why_tests_cant": "The overlap areas depend on real coordinates; that no part of a pixel is lost between cells or counted twice needs an argument for every position of pixel and grid.", "anchors": ["glmtools/io/mimic_lma.py:fast_fixed_grid_read_chunk", "glmtools/grid/clipping.py:QuadMeshPolySlicer.slice", "glmtools/grid/clipping.py:QuadMeshSubset.quads_nearest", "glmtools/grid/clipping.py:clip_polys_by_one_poly", "glmtools/io/mimic_lma.py:replicate_and_weight_split_child_dataset_new"]}
{"id": "C104", "title": "Pixel coordinates in binary arithmetic", "statement": "Computed in binary64 as the code does, for every grid of the gridding script with cells of at least 2^-17 radian: every edge and every pixel centre, of the whole grid and of every tile after the removal of its padding, is at its exact place to within a thousandth of a cell; a location farther than that from the edges is put in its own cell. The 16-bit code written for a column or row is the code nearest to its exact place unless that place is within a microradian of half way between two codes. On the 2 km fixed grid every column and row of the whole grid and of every tile has exactly the code of its place (column k of the full disk has code k). With cells of 58 microradians or more, different columns have different codes, in order.", "quantifier": "all finite binary64 spacings between 2^-17 and 1 radian, centres up to half a radian, widths up to 2 radians, numbers of tiles, columns and rows, locations", "why_tests_cant": "depends on the accumulated rounding of every operation for every combination of spacing, centre, size and tile", "anchors": ["glmtools/io/imagery.py:write_goes_imagery", "glmtools/io/imagery.py:get_goes_imager_fixedgrid_coords", "glmtools/grid/make_grids.py:subdivided_fixed_grid", "glmtools/grid/make_grids.py:GridOutputPreprocess", "glmtools/grid/clipping.py:QuadMeshSubset", "examples/grid/make_GLM_grids.py:grid_setup"]}
{"id": "C105", "title": "Order of the rows of a file", "statement": "The order in which the flashes, groups and events are stored in an L2 file does not matter. Selecting flashes gives the same rows; the event lookup table has the same pixels in the same order with equal means, sums, counts and minima; and when every file is read in a single chunk, gridding the reordered files succeeds too and gives the same six grids. With smaller chunks the same holds if the polygon of a pixel is the same in every chunk; otherwise reordering can move the light inside a pixel (shown by a counterexample).", "quantifier": "every list of usable files, every reordering of the rows of each level in each file, every query, every chunk size (two different ones for the two runs), every grid and every clipping routine with the assumed behaviour", "why_tests_cant": "A test reads files in the order they were written; the claim is over all permutations of all three levels at once, and the sums, means, minima and groupings must each be shown insensitive to order.", "anchors": ["glmtools/io/glm.py:GLMDataset.subset_flashes", "glmtools/io/glm.py:get_lutevents", "glmtools/io/mimic_lma.py:read_flash_chunk", "glmtools/io/mimic_lma.py:read_flashes"]}
{"id": "C106", "title": "Energy observed in a region", "statement": "The energy that the sample runs read from the L2 files for a longitude/latitude region is the sum, in nanojoules, of all events of the flashes whose centroid lies strictly inside the region and that have an event in the field of view, each event counted once. It does not depend on the order of the files; the energies of two regions with a common border add up when no flash lies on the border; a larger region never has less; and when the region holds the same flashes as the selection of a gridding run whose grid covers every pixel, it equals the total of the gridded energy.", "quantifier": "every list of complete files in joules, every region, every order of the files, every cut along a meridian or parallel, every gridding run over the same files", "why_tests_cant": "The sample test compares one number for three files and one region; the equality must hold for all files and selections, and the conservation along opening, repair, selection, merging, splitting and accumulation cannot be enumerated.", "anchors": ["examples/grid/grid_sample_data.py:total_energy_in_L2", "glmtools/io/glm.py:GLMDataset.subset_flashes", "glmtools/grid/make_grids.py:grid_GLM_flashes"]}
{"id": "C107", "title": "Selections one after the other", "statement": "Selections of flashes can be applied one after the other, each to the dataset the last one returned. If some flash is wanted by all of them, every step succeeds and what is left are exactly the flashes wanted by all of them, judged on the whole dataset, with all their groups and events, each once; the order and repetition of the selections do not matter; and two selections are the same as one with the ranges intersected when at most one has a range on the fixed grid. (With fixed grid ranges in both this is false, and a selection after one that left nothing raises: counterexamples.)", "quantifier": "every opened dataset, every list of queries, every order and repetition, every iteration order of sets", "why_tests_cant": "The claim is about all sequences of selections and all datasets; counts and ranges of later selections are evaluated on pruned data and must agree with the whole.", "anchors": ["glmtools/io/glm.py:GLMDataset.subset_flashes", "glmtools/io/glm.py:GLMDataset.get_flashes", "glmtools/io/traversal.py:OneToManyTraversal.reduce_to_entities"]}
{"id": "C108", "title": "The flashes that reach a tile, and cells that two grids share", "statement": "For every call, the flashes selected for a grid are: on longitude and latitude those between the bounds of the grid; for each tile of the fixed grid those whose centroid (and an event) lie in the bounds of that tile with its padding, the same bounds as those of its grid; otherwise only those meeting the minima. The minima noted by the gridder are those the selection went by, and the value of corner_pickle has no influence. Whenever two runs over the same files have a cell in common, with edges and selections that may differ elsewhere, and take the same of the flashes with an event in a pixel that meets the cell, the cell has the same energy, counts, areas and minimum flash area in both. In particular a cell of a tile has the value it has in the undivided grid, if the flashes with light in it have their centroid in the padded bounds of the tile. (A flash whose centroid is farther away is missing from the tile although it has light in it: counterexample.)", "quantifier": "every call and its arguments, every list of opened files read in one chunk each, every two grids with increasing edges, every pair of selections, every subdivision and tile, every cell, every clipping function whose pieces depend on the corners only", "why_tests_cant": "Two runs of the whole pipeline are compared for all files and all subdivisions; a test compares one tile with one grid.", "anchors": ["glmtools/grid/make_grids.py:GLMGridder.process_flashes", "glmtools/grid/make_grids.py:subdivided_fixed_grid", "glmtools/grid/make_grids.py:grid_GLM_flashes", "glmtools/io/mimic_lma.py:read_flashes"]}
{"id": "C109", "title": "The products of a cell agree with each other", "statement": "When files are gridded in fixed grid lookup table mode, the values of the different products in one grid cell agree with each other, whatever files, selection, grid and chunk size: the flash count (flash extent density) is at least zero and at most the group count; if every event energy and every flash and group area is above zero, then energy, flash count, group count, total flash area and total group area are all zero in the cell or none of them is; if all flash areas lie between two bounds, so does the quotient of total flash area and flash count (the average flash area), and the same for groups; the minimum flash area is not above the average flash area and is above zero where the flash count is; and if the pixel outlines of a chunk do not cover the cell more than once, the cell counts no more flashes and no more groups than were selected from all files.", "quantifier": "every list of opened readable files, every selection, every rectilinear grid, every chunk size, every outline of the pixels, every polygon clipper that splits exactly, every cell", "why_tests_cant": "The products of a cell are sums over all pixels that touch it of different quantities with different weights, made by separate code for each product; a test compares a few cells.", "anchors": ["glmtools/io/mimic_lma.py: fast_fixed_grid_read_chunk", "glmtools/io/glm.py: get_lutevents", "glmtools/grid/make_grids.py: FixedGridGridder", "glmtools/grid/accumulate.py"]}
{"id": "C110", "title": "The documented path templates make a tree by day and keep the files of every frame", "statement": "With one of the path templates that the documentation shows ({start_time:%Y/%b/%d}/{dataset_name} below a directory, or ./{start_time:%y/%b/%d}/GLM_{start_time:%Y%m%d_%H%M%S}.nc) writing the imagery of a call succeeds, makes the directories of the day where they are missing and leaves the tree fit for the next call. The file of a frame is in the directory of the year, month and day on which the frame starts, under its own name or that of its start. Frames of a call that start a second apart or more keep separate files, and a later call below the same directory, with either template, keeps the files of the frames that start at least a second before or after its own.", "quantifier": "every call with at least two columns and one row, dates of years 1 to 9999 (1000 to 9999 where files are kept apart), any directory text, any file system in which nothing stands where a directory or a file of the tree must be, any sequence of two calls", "why_tests_cant": "A test writes a few files of one day in an empty temporary directory; that no day, directory text or order of calls makes a path collide or a directory step fail needs an argument over all dates and file systems.", "anchors": ["glmtools/io/imagery.py:write_goes_imagery", "glmtools/grid/make_grids.py:GLMlutGridder.write_grids", "examples/grid/make_GLM_grids.py"]}
{"id": "C111", "title": "Grids of different resolution agree", "statement": "When the same files are gridded on a grid and on a finer one whose cells divide its cells, the total energy of a cell is the sum of the energies of the smaller cells it consists of, the flash and group extent densities and the area sums (which are weighted by the covered share of the cell) are the means of those of the smaller cells and so lie between their extremes, and the minimum flash area is the smallest of theirs; a cell without lightning consists of cells without lightning.", "quantifier": "all files and selections, all pairs of uniform grids (any sizes, any ratio of the cells, any position of the coarse cell in the fine grid), all convex pixel shapes not larger than the lookup reaches, every clipping function that is exact", "why_tests_cant": "A test compares one pair of grids and one set of flashes; that no position of a pixel relative to the cells of either grid gains, loses or double counts lightning needs an argument over all polygons and grids.", "anchors": ["glmtools/io/mimic_lma.py:fast_fixed_grid_read_chunk", "glmtools/grid/clipping.py:QuadMeshPolySlicer.slice", "glmtools/io/mimic_lma.py:replicate_and_weight_split_child_dataset_new", "glmtools/grid/accumulate.py:accumulate_var_on_grid_direct_idx", "glmtools/grid/accumulate.py:accumulate_minvar_on_grid_direct_idx"]}
{"id": "C112", "title": "Numbers of flashes, groups and events are only labels", "statement": "Renumber the flashes, groups and events of the files one to one (as happens when the numbers start again), put the rows in any order and multiply all energies by a factor k: the selection takes the same flashes with the same groups and events, the event lookup table has the same pixels with the same positions, counts, areas and minima, and the grids hold the same counts, areas and minima and k times the energy.", "quantifier": "all complete opened files, one-to-one renumberings of each level, orders of rows, factors, selections and grids; files whose selected flashes are read in one chunk", "why_tests_cant": "A dependence on the numbers (sorting, grouping by value, mixing ids of different levels) shows only for particular numberings; tests use the numbers of a few files.", "anchors": ["glmtools/io/glm.py:GLMDataset.subset_flashes", "glmtools/io/glm.py:get_lutevents", "glmtools/io/traversal.py:OneToManyTraversal", "glmtools/io/mimic_lma.py:fast_fixed_grid_read_chunk", "glmtools/grid/make_grids.py:GLMlutGridder"]}
{"id": "C113", "title": "A stricter selection takes lightning away and adds none", "statement": "If one call of subset_flashes or one gridding run asks for everything that another one asks for (each range inside the other's, each minimum number of events or groups at least as large, or a selection instead of none), its flashes, groups and events are among those of the other. In the event lookup table no pixel then has more events, groups, flashes, energy or area, and its smallest flash is not smaller. In the grids no cell has more energy, flashes, groups or area, and the minimum flash area of a cell with lightning does not fall.", "quantifier": "all datasets and files with unique, linked ids and energies and areas that are not negative; all pairs of selections of which one is stricter; all grids, all chunk sizes of either run, all numbers of files", "why_tests_cant": "A test compares two selections of one file; the claim is about all pairs of selections and all files, and fails when leaving out a flash moves the mean position of a pixel.", "anchors": ["glmtools/io/glm.py:GLMDataset.subset_flashes", "glmtools/io/glm.py:get_lutevents", "glmtools/io/mimic_lma.py:read_flash_chunk", "glmtools/io/mimic_lma.py:read_flashes", "glmtools/grid/make_grids.py:GLMlutGridder"]}
{"id": "C114", "title": "The table of flash statistics counts every flash of the polygons once, in the line of its time", "statement": "The flash_stats.csv that glm-lasso-stats.py writes has one line per window of time, in order, with the start and end of the window and the statistics under the names in the header. The statistics of a line are those of exactly the flashes of the given files that start at or after the start and before the end of the window, have their centroid in the polygon of that time, and satisfy the bounds on area, altitude and energy and the minimum numbers of events and groups; each flash is taken once. A flash between the first and the last edge belongs to exactly one line. Reading only the rectangle around the polygons, and ignoring minima below two, changes nothing.", "quantifier": "all lists of files with consistent data, in any order; all polygons, all increasing edges of windows, all bounds and minima; any statistics function with the named fields", "why_tests_cant": "A test runs the script for one polygon and one set of files; the claim is about all of them, and fails when a single file has no flash near the polygons.", "anchors": ["examples/glm-lasso-stats.py:gen_filtered_time_series", "examples/glm-lasso-stats.py:gen_flash_summary_time_series", "examples/glm-lasso-stats.py:write_size_stat_data", "glmtools/io/mimic_lma.py:TimeSeriesGLMPolygonFlashSubset", "glmtools/io/mimic_lma.py:GLMncCollection"]}
{"id": "C115", "title": "Runs with frames of different duration agree", "statement": "When the same files are gridded with long frames and with shorter frames whose edges include those of a long one (in particular frames of d seconds and of m times d seconds from the same start), the flash and group extent densities, the flash and group centroid densities, the sums of flash and group areas and the total energy of a cell in the long frame are the sums of those in the short frames it consists of, and the minimum flash area is the smallest positive one of theirs. Whether a run succeeds, and the platform it reports, do not depend on the frames.", "quantifier": "all files and selections, all lists of frame edges, every long frame and every division of it into any number of frames, all cells, every clipping function that keeps within its cell", "why_tests_cant": "A test compares one pair of durations on a few files; lightning lost or counted twice at an edge of a frame appears only for other edges and product times.", "anchors": ["glmtools/grid/make_grids.py:GLMGridder.process_flashes", "glmtools/grid/accumulate.py:select_dataset", "glmtools/grid/accumulate.py:accumulate_var_on_grid_direct_idx", "glmtools/grid/accumulate.py:accumulate_minvar_on_grid_direct_idx", "examples/grid/make_GLM_grids.py"]}
{"id": "C116", "title": "Every window has its energy spectrum, with every flash in its class", "statement": "The script for statistics within polygons draws, for each window of time, one histogram of flash areas in a file of its own in the output directory, named after the start and the end of the window, with the duration of the window. The count of a class is the number of the flashes that count for the window (as in the table of statistics) and whose area is from the lower to below the upper edge of the class; only the last class includes its upper edge. The counts of a window add up to the number of its flashes between the first and the last edge, and with increasing edges each of these is in exactly one class. This holds for every output directory.", "quantifier": "all files, polygons, selections, windows at least a second apart within a century, all lists of edges that do not decrease, all output directories", "why_tests_cant": "A test draws a few windows of one data set; a flash lost at an edge of a class or window, or a file overwritten by another window, appears only for other values.", "anchors": ["examples/glm-lasso-stats.py:footprint_bin_edges", "examples/glm-lasso-stats.py:spectrum_save_file_base", "examples/glm-lasso-stats.py:gen_filtered_time_series", "glmtools/io/mimic_lma.py:TimeSeriesGLMPolygonFlashSubset"]}
{"id": "C117", "title": "Gridding frame by frame gives what one run gives", "statement": "A frame (say, a minute) gridded by a call of its own, given the files of that frame, yields the same products as that frame of one call over all frames: the call succeeds where the long one does, the extent densities, areas and total energy are the same numbers, and the file written has the same pixels at the same coordinates. For centroid densities this needs that no file left out has a flash or group that began in the frame; without it they differ. For a frame in whose files there is no lightning the separate call raises, while one call over all frames writes a file for it.", "quantifier": "for all files, frame edges, frames, selections of files that include those of the frame, chunk sizes, queries, grids, paddings and clipping procedures", "why_tests_cant": "Tests grid one minute; whether operational minute-by-minute runs and reprocessing in one run agree depends on every file, frame boundary and flash that straddles it.", "anchors": ["glmtools/grid/make_grids.py:proc_each_grid", "glmtools/grid/make_grids.py:GLMGridder.process_flashes", "glmtools/grid/make_grids.py:GLMlutGridder", "glmtools/io/imagery.py:write_goes_imagery", "examples/grid/make_GLM_grids.py"]}
{"id": "C118", "title": "A run has the frames its files need, and every file is in one of them", "statement": "The frames of a run of make_GLM_grids.py last --dt each, start with the run and end with the first frame that reaches its end; every instant from start to end is in exactly one of them. Without --start and --end every instant of the twenty seconds of each input file is in exactly one frame, the first frame starts with the earliest file and the last one no later than within the latest; only the start times in the names matter, so a name whose end time leaks into the next minute adds no frame. Files within one frame length make one frame; m*r consecutive files with m per frame make r frames, file i in frame i/m, in whatever order they are given. The frames together show exactly what all of the files show.", "quantifier": "for all lists of files with standard names in any order, all frame durations of at least half a microsecond, all explicit times, and all contents of the files", "why_tests_cant": "Tests use the three files of one minute; a frame too many, or a file after the last frame, depends on the arithmetic of start times, durations and file order.", "anchors": ["examples/grid/make_GLM_grids.py:grid_setup", "glmtools/grid/make_grids.py:proc_each_grid", "glmtools/grid/make_grids.py:GLMlutGridder"]}
{"id": "C119", "title": "What a written image adds up to", "statement": "After a run, the pixels of a written image (missing counting as zero) add up to what was gridded: total energy and extent densities exactly in unscaled output, and within one stored step for every cell that has any in scaled output; flash and group positions to exactly the number of selected flashes and groups located in the image during the frame; and without padding the energy image adds up to the energy of the events observed in the files of the frame. The energy images of all frames of a run without times on the command line add up to the energy of the events of all files, whatever --dt.", "quantifier": "all files, selections, frames, grids, padding, chunk sizes, durations of frames, scaled and unscaled output, values that can be stored", "why_tests_cant": "Sums over arbitrary images of arbitrarily many cells and files cannot be enumerated by tests; errors of single pixels can add up unnoticed.", "anchors": ["glmtools/io/imagery.py:write_goes_imagery", "glmtools/grid/make_grids.py:proc_each_grid", "glmtools/grid/accumulate.py:accumulate_var_on_grid_direct_idx", "glmtools/grid/make_grids.py:GLMlutGridder"]}
{"id": "C120", "title": "Aggregating over an interval of interest", "statement": "aggregate(glm, minutes, start_end=(s, e)) divides the range into consecutive intervals of the given length and aggregates the frames of the range: every frame that starts at s or later and before e is in exactly one interval, no other frame is, and summed fields add up to those of these frames. So when files are gridded, written, opened and aggregated over a range that contains all frames, the pixels of all intervals add up to what the written images add up to, and without padding to the energy of the events in the files.", "quantifier": "all series of frames, all interval lengths, all ranges; all files, selections, grids and frames gridded and written before", "why_tests_cant": "edge conventions of bins for arbitrary frame times and ranges", "anchors": ["glmtools/io/imagery.py:aggregate", "glmtools/io/imagery.py:open_glm_time_series", "glmtools/io/imagery.py:write_goes_imagery", "glmtools/grid/make_grids.py:proc_each_grid"]}
{"id": "C121", "title": "The colors of the lasso script's spectra follow time", "statement": "examples/glm-lasso-stats.py gives every edge of the time windows a position on a color scale from 0 to 1 made from its time; every series of times gets one, later edges have later positions, and positions are proportional to time.", "quantifier": "all series of times of windows", "why_tests_cant": "order of numbers made from texts of arbitrary times, across days and hours", "anchors": ["examples/glm-lasso-stats.py:time_array", "examples/glm-lasso-stats.py:norm"]}
{"id": "C122", "title": "The coverage that an aggregated series claims is that of its frames", "statement": "The attributes time_coverage_start and time_coverage_end of an aggregated series delimit what was aggregated: with a range of interest they are its start and the end of its last whole interval, without one the start of the first frame and an instant after the start of the last; a frame is counted exactly when it starts within them.", "quantifier": "every series of frames, every interval length, with every range of interest or none", "why_tests_cant": "Which frames fall within the attributes depends on all start times, the length and the range; a few series do not show the frames at the edges.", "anchors": ["glmtools/io/imagery.py:aggregate"]}
{"id": "C123", "title": "The options of the statistics within polygons select flashes as they say", "statement": "In examples/glm-lasso-stats.py, an option that is not given restricts nothing: without options the table of statistics and the energy spectra are those of all flashes within the polygons, as with any wider bounds. Minimum numbers of events and groups below two change nothing. Bounds on altitude keep the flashes between them.", "quantifier": "every list of consistent files, all polygons and windows of time, all values of the options, any statistics function", "why_tests_cant": "A script run shows one table for one set of options; that an option is without effect, or removes everything, is a claim about all files and all values.", "anchors": ["examples/glm-lasso-stats.py:gen_filtered_time_series", "examples/glm-lasso-stats.py:parser", "glmtools/io/mimic_lma.py:_fake_lma_from_glm_flashes", "glmtools/io/mimic_lma.py:GLMncCollection"]}
{"id": "C124", "title": "The figure of flash locations shows every flash of the polygons once", "statement": "The figure that examples/glm-lasso-stats.py draws of the flashes within moving polygons has one point for each flash that starts between the first and the last edge of the windows of time, is in the polygon of its time and satisfies the options; the point is at the place of the flash and its color shows the seconds of its start, within the color scale. Figures in one directory for times that differ are in different files.", "quantifier": "every list of consistent files, all polygons, increasing edges, options and directories", "why_tests_cant": "One point too many or too few among thousands is not seen in a figure; the claim is about all files and windows.", "anchors": ["examples/glm-lasso-stats.py:FlashCentroidPlotter", "examples/glm-lasso-stats.py:flash_location_plotter", "glmtools/io/mimic_lma.py:TimeSeriesGLMPolygonFlashSubset"]}
