# Formal model of glmtools in Rocq (Coq 8.16.1)

The source under study is /repo (glmtools, Python), read as text.  The model is a
set of total Gallina functions, one per Python function, in `rocq/theories/`.
Nothing of /repo is executed.

## Layout

For a topic `X` there are up to four files.

* `X.v`        model: one definition per Python function, each with a comment
               that cites file and lines and says what is simplified.
* `XSpec.v`    specification vocabulary used in theorem statements, written
               without the helper functions of the model.
* `XProofs*.v` lemmas.
* `PropX.v`    the property theorems (`C01_...`), each followed by
               `Print Assumptions`, with `Example`s which show that the
               hypotheses are met by a concrete, non-trivial case.

Python exceptions are values (`res A := Ok a | Err exn`, `Base.v`).
Floating point numbers are exact rationals `Q` with NaN as `None` (fixed grid
geometry: the reals `R` of the standard library).  Where rounding itself is the
subject (C16, C90, C93, C94, refutation in C45) the model uses the IEEE arithmetic of
`Coq.Floats.SpecFloat`, which is axiom free.  External libraries (clipper, scipy
interpolation, KD-tree, set iteration order, uninitialised memory, wall clock,
polygon test) are section variables, closed at the end of the section; each
theorem states what it assumes about them.

Theorems ending in `_refuted` prove that the property, as a user would read it
from the documentation, is false of the code: by an explicit counterexample, or
where possible for every input of the described kind.  The matching `_partial`
theorems prove it under the additional condition stated.  `MANIFEST.json` gives
status `partial` to every property that has a `_refuted` or `_partial` theorem.

## Properties: status, model and method

| id | property | status | model | how it is proved |
|----|----------|--------|-------|------------------|
| C01 | Child counts are exact at every level | proved | `Traversal` | induction on levels; sums by double counting |
| C02 | Replicated ancestor ids name the true ancestor | proved | `Traversal` | induction on levels against an inductive ancestor relation |
| C03 | Pruning keeps exactly the requested entities and their descendants | proved | `Traversal` | refinement of the descending and ascending loops, with the pending indexer as state, to a recursive specification for any depth |
| C04 | Pruning keeps request order and replication at the requested level | proved | `Traversal` | same refinement |
| C05 | Pruning keeps exactly the ancestors of what is kept, once each | proved | `Traversal` | same refinement |
| C06 | Pruning a consistent tree gives a consistent tree | proved | `Traversal` | corollary of the refinement, induction on chains of requests |
| C07 | Repeated pruning composes | proved | `Traversal` | corollary of the refinement |
| C08 | check_parent_child reports exactly the broken links | proved | `Traversal` | set reasoning, induction on levels |
| C09 | Opening a file repairs its flash/group/event tree | partial | `Glm` | refinement of the constructor; set order is an oracle; counterexample |
| C10 | Opening a file with no lightning | partial | `Glm` | case analysis on empty dimensions |
| C11 | Derived parent/child variables agree with each other | proved | `Glm` | double counting |
| C12 | subset_flashes returns exactly the flashes asked for, with all their children | proved | `Glm` | membership characterisation for every set order |
| C13 | Field-of-view filtering options of subset_flashes | partial | `Glm` | counterexamples |
| C14 | Energies are strictly positive and converted exactly once | proved | `Glm` | state transformers, induction on call sequences |
| C15 | Areas are never missing and always km^2 | proved | `Glm` | same |
| C16 | Signed-to-unsigned repair recovers the stored code | partial | `Unsigned` | binary64 through SpecFloat; error analysis for every scale and offset of ordinary size (FloatProofs), explicit wrong codes |
| C17 | GLM file names round-trip through the parser | proved | `FileName` | digit lemmas, calendar arithmetic |
| C18 | Lexicographic file order is time order | proved | `FileName` | order of digit strings |
| C19 | Lightning ellipsoid revision is chosen by date | partial | `Ellipse` | case analysis; NameError as a value |
| C20 | Navigation looks at a point of the lightning ellipsoid | proved | `Ellipse` | trigonometric identities over R |
| C21 | Fixed-grid navigation symmetries | proved | `Ellipse` | trigonometric identities over R |
| C22 | Navigation is one-to-one on the visible side | proved | `Ellipse` | convexity of the ellipsoid over R |
| C23 | Pixel identifiers are unique | partial | `Lut` | integer division |
| C24 | Event lookup table conserves energy and event count | proved | `Lut` | group-by lemmas |
| C25 | Event lookup table counts each flash and group once per cell | proved | `Lut` | group-by lemmas |
| C26 | Chunked reading visits each flash exactly once and does not change the result | proved | `Pipeline, ChunkSpec` | array_split lemmas, additivity of per-cell statistics |
| C27 | Polygon area is the signed planar area | proved | `Poly` | ring identities by induction on vertex lists |
| C28 | Mesh quads tile the mesh | proved | `Poly` | induction on meshes |
| C29 | Bounding-box lookup finds the cells around a polygon | partial | `BBox` | order reasoning on sorted edges |
| C30 | Slicing keeps polygons, fractions and cell indices aligned | partial | `Slice` | list alignment lemmas, clipper as oracle |
| C31 | Split area fractions | partial | `Slice` | same |
| C32 | Split events inherit their own parent | proved | `Slice` | same |
| C33 | Regrouping split events by mesh cell is exact and gives each cell once | proved | `Regroup` | group-by lemmas |
| C34 | Direct-index accumulation adds every value exactly once | proved | `Accum` | induction on batches |
| C35 | Minimum accumulation keeps the minimum positive value | proved | `Accum` | induction on batches |
| C36 | Gridded totals equal observed totals, in the right cell | proved | `Pipeline` | composition of C12, C24, C26, C31-C34 |
| C37 | Written image, coordinates and data agree | proved | `Imagery` | grids as mutable state, index arithmetic |
| C38 | Average areas are totals divided by counts | partial | `Imagery` | same; counterexamples |
| C39 | Packing never turns lightning into missing data | proved | `Imagery` | rounding lemmas |
| C40 | Aggregating frames conserves totals | partial | `Aggregate` | bins as half-open intervals |
| C41 | Tile boundaries partition the domain | proved | `Tiles` | arithmetic |
| C42 | Padding is removed exactly | proved | `Tiles` | index arithmetic |
| C43 | Output options apply to every tile | partial | `Tiles` | state over the sequence of tiles |
| C44 | Each tile and frame gets its own file | partial | `FileName, Tiles` | injectivity of the name format; counterexample |
| C45 | Grid setup bounds are symmetric and whole | partial | `GridSetup` | arithmetic; SpecFloat for the refutation |
| C46 | LCFA ASCII conversion keeps records | proved | `Lcfa` | parser round trip |
| C47 | Pixel lookup indices point at the pixel they came from | proved | `Ccd` | list index lemmas |
| C48 | Pipelines and output tables line up | partial | `Gridder` | symbolic set-up of the pipelines |
| C49 | Splitting without a bounding box loses no part of a polygon; with one it misses no cell | partial | `Slice` | geometry of the neighbour stencil |
| C50 | Lightning outside the target grid never stops the gridding | partial | `Pipeline` | case analysis on empty batches |
| C51 | The grids do not depend on the chunk size | partial | `Pipeline, ChunkSpec` | from C36; counterexample |
| C52 | Values beyond the packing range saturate | partial | `Imagery` | arithmetic modulo 2^16 |
| C53 | Every grid with at least one cell can be written | partial | `Imagery, Tiles` | case analysis |
| C54 | A series of image files keeps order, times and coverage | proved | `Aggregate` | sorting lemmas |
| C55 | Navigated angles are small | proved | `Ellipse` | bounds over R |
| C56 | Event polygons from the corner table stay around the event | proved | `Ccd` | interpolators as parameters with stated behaviour |
| C57 | A listing cut short never corrupts earlier records | partial | `Lcfa` | prefixes of the text |
| C58 | The time window of a run is that of its files | partial | `GridSetup, FileName` | calendar arithmetic |
| C59 | Time frames partition a run | partial | `Gridder` | partition by edges |
| C60 | Written files show the products | partial | `Gridder` | composition of C36, C37, C59 |
| C61 | A run completes with one file per frame | partial | `Gridder` | composition |
| C62 | Scene and resolution written with an image follow from its extent and column distance | partial | `Output` | case analysis on the written attributes |
| C63 | Packed coordinates read back at the pixel they belong to | partial | `Output` | rounding lemmas |
| C64 | Times of a frame agree between its attributes, its file name and its neighbours | proved | `Output` | calendar arithmetic |
| C65 | Every frame ends up in its own file under the path that is returned | partial | `Output` | file system as a map, induction on frames |
| C66 | Imagery that is written, opened and aggregated keeps what was counted | partial | `Output, Aggregate` | composition of C37, C39, C40, C65 |
| C67 | Reading without clipping gives every selected flash, group and event once, whatever the chunk size | proved | `Points` | from C26; map and permutation lemmas |
| C68 | n_points is the number of events of the flash | partial | `Points` | from C26; counterexample |
| C69 | A collection of files delivers every file once in order of time | partial | `Points` | dictionary and sorting lemmas |
| C70 | Times of a time series count from the base date that is given | partial | `Points` | equality of runs; counterexample |
| C71 | Statistics in a polygon use the flashes and events inside it | partial | `Points` | from C12; counterexamples |
| C72 | The initiation point of a flash is the position of its first group | proved | `Points` | induction on argmin, alignment by id |
| C73 | Gridding returns the names of the files it wrote | partial | `Calls` | Calls.v follows grid_GLM_flashes, subdivided_fixed_grid, proc_each_grid and write_grids over a state of dictionaries and files; induction over tiles and frames. Refuted for the fixed grid, exact for a single grid. |
| C74 | Keyword arguments of gridding act by name and value | partial | `Calls` | Inversion of the handling of keyword arguments; a simulation between calls that differ in one value; for success, induction over tiles with the file system kept writable. |
| C75 | A call of gridding does not depend on earlier calls | partial | `Calls` | Invariant over any history of calls: the default dictionary of write_grids stays empty; then a simulation between the two states. |
| C76 | A gridding run that raises leaves whole files only | proved | `Calls` | Induction over tiles and frames with the state kept also when a step raises; each new file is traced to its frame. |
| C77 | Times of the files of October and November 2018 are corrected | partial | `Times` | Times.v follows the constructor with the columns of times; naturality of the repair of the tree in the payload of rows; induction over the columns put beside the rows. |
| C78 | Images on longitude-latitude grids keep their coordinates | partial | `Output` | On the model of Output.v: range of int16 codes, rounding. |
| C79 | Points of a chunk split by a mesh | partial | `Footprint` | slice succeeds (C30), rows of the split table are the pieces in order, the dictionary of polygons per parent is the filter of the events by parent, replicated rows found by uniqueness of ids |
| C80 | Energy of events, groups and flashes split by a mesh | partial | `Footprint` | sums of the shares per block; the blocks of an id are the parts of its union |
| C81 | Longitude-latitude grids with clip_events | partial | `Pipeline` | naturality of the lookup table in the unused columns; C26 for the chunks, C24 for mean positions, then C50 |
| C82 | Clipping in integer coordinates changes the gridded totals only within a stated bound | proved | `Scaled, Slice, Pipeline` | the corners of each quadrilateral move by at most 2^-31, which moves its size by at most slack; the pieces are known up to eta square steps; the errors of the fractions are summed over the rows of the tables |
| C83 | Plotted grids show the data at its place | partial | `Plot` | images as functions; linear arithmetic for the place of pixels; the dataset as state |
| C84 | The picture of a flash shows that flash | proved | `Inspect, Glm` | from the exact levels of get_flashes (C03); regrouping lemmas |
| C85 | The script that checks files reports the invalid ones | partial | `Inspect, Times` | every step of the constructor raises no KeyError; induction on the files |
| C86 | The field of view bounds enclose the events | partial | `Inspect` | induction on the column; from C12 |
| C87 | Images of a sector are those of the product definition | partial | `Pug` | check_against_pug as a function of the coordinates a reader gets; composition of the driver's bounds (C45), the tiles (C41, C42) and the stored coordinates (C63); on evenly spaced coordinates the check is equivalent to a bound on the common shift |
| C88 | The three ways to get initiation points agree | partial | `InitMethods` | the two further methods as functions of the tables; both determined by the (unique) earliest group of each flash; order by permutation of the sorted ids |
| C89 | The plotting script saves an image for every time | partial | `PlotFiles` | loop invariant over the sorted times: the data stay the same up to missing values that became zero, directories have at most three and images four components below the one given; names are injective in the minute |
| C90 | Names and units in the files are those of the data | partial | `Units` | texts computed bit exactly in binary64 (SpecFloat) with the error bounds of FloatProofs; every name paired with its units by cases; decimal texts specified by their digits |
| C91 | Table of gridded fields within lassos | partial | `LassoGrid` | one line per image by recursion over the images; cells as a list of indices without repetition; percentiles specified through a sorted permutation; refutations by the half-open times of the lassos and the texts of times |
| C92 | An image says where lightning is | partial | `Georef` | over the reals: turning by the longitude of the satellite commutes with the projection, then the theorems of C20; refutation by the plane of the two satellites |
| C93 | Totals on single precision grids | partial | `Single` | bit exact in binary32 (SpecFloat): one cell at a time by induction over the batches, relative error of one addition from Float32Proofs, exactness of whole numbers up to 2^24 through their normal forms |
| C94 | Tiles of a grid in binary arithmetic | partial | `TilesBinary` | bit exact in binary64 (SpecFloat): errors of the chain of operations from FloatExact and FloatProofs, integer division by exactness of whole quotients; refutations computed for standard grids |
| C95 | Lookup of cells by arithmetic misses none | proved | `BBoxRegular` | floor of (limit - first centre)/spacing per axis, clipped; exact set of cells found as inequalities on centres, cells that meet the box are within it |
| C96 | The dataset made from an ASCII listing is the tree of the listing | partial | `Convert` | refinement: the merged dataset equals an explicit list of variables (made_ok); with C46 each column is the list of literals' values; the tree theorem composes it with the tree theorems C01 and C02 by induction on the nesting; opening it as a production file is refuted for every listing |
| C97 | Saved lookups come back as they were saved | partial | `Saved` | invariant over histories of saving calls (induction on the list of calls); pickle is a parameter assumed to invert; crash points are all prefixes of the bytes |
| C98 | The lookup finds the pixel of a location | partial | `Saved` | composition of the reader with the index theorem C47; nearest rows as a specification of the tree's answers; universal failure and counterexamples for other longitudes and for the documented order |
| C99 | The parallel map gives what a map gives | partial | `Pool` | transition system of a pool (chunks begin in order, end in any order, workers may die); invariant kept by every step; iterating over the outcomes is a prefix of the sequential map; a decreasing measure for termination |
| C100 | Pixel identifiers in binary arithmetic | partial | `LutBinary` | bit exact model in SpecFloat; error bound of subtraction and division (FloatProofs), then floor; counterexamples by computation |
| C101 | The command line means what its help says | partial | `CommandLine` | model of argparse as a state machine over classified arguments; induction on the list of options; the tables of the parser compared with the documented ones; the record handed to grid_setup compared with the one of the last values |
| C102 | Runs on parts of the data add up to a run on all of it | partial | `Runs` | files read in a list are read in its parts (induction on the parts); sums over concatenated batches; aggregation of C40 and C54 on the series of the runs; counterexamples with one small file |
| C103 | Every pixel is shared among the cells in proportion to the overlap | proved | `Overlap` | The part of a polygon in a cell is defined on its own (`Overlap.v`: four cuts by half planes, Sutherland and Hodgman). Its area is shown to be a difference of four quadrant areas, by sums along the sides of the polygon that can be split at any point of a side and vanish along the cutting lines; the areas of the cells then telescope. Convexity (all turns to the same side) survives insertion of points on sides and removal of corners, so no signs get lost. Cells that the lookup does not return lie beside the pixel (C49). Combined with C36, and with C82 for integer coordinates. |
| C104 | Pixel coordinates in binary arithmetic | proved | `PixelsBinary` | bit exact in binary64 (SpecFloat): error of every edge from the chain of operations, with the error of the spacing multiplied by the number of the cell; codes by the distance of the quotient from a whole number; division is bounded for all finite quotients, subnormal ones included (`div_any`) |
| C105 | Order of the rows of a file | partial | `RowOrder` | same_rows relates files level by level by Permutation. selection: membership in the selection is order-free and ids are unique, so the selections are permutations. table: the sorted unique pixel list is equal, and sums, means and minima of permuted lists agree. grids: with one chunk per file the tables agree row by row, then the cell formulas of C36 give the grids; with other chunk sizes the pixel sums of C26 are carried across the permutation. |
| C106 | Energy observed in a region | proved | `SampleTotal` | total_energy_in_L2 over the models of opening (Glm.glm_open) and subset_flashes. The selected events in memory are traced back to rows of the file through the row relations of C11; uniqueness of ids turns equal membership into Permutation, so sums agree. The gridded total follows from C36_observed_energy. |
| C107 | Selections one after the other | partial | `Chain` | select_all folds subset_flashes over the queries, reopening the result. Invariant by induction on the queries: what is left is a whole-flash selection of the first dataset, for which a query wants the same flashes as on the whole (children counts and events of a kept flash are unchanged). |
| C108 | The flashes that reach a tile, and cells that two grids share | partial | `Reach` | process_flashes and the selecting part of read_flashes give the query of a tile; C108_selection follows from C74. For two runs over the same files, the rows of the lookup tables that meet the common cell are shown equal one by one (files_meeting: the table of a selection is sorted by pixel, and a pixel meeting the cell gets its events only from flashes both take), then the sums and minima of C36 over these rows agree. Edges of tiles are computed exactly (axis_common). |
| C109 | The products of a cell agree with each other | proved | `CellProducts` | The tables behind a run are traced back to chunks of the selection (C26); for each table row the counts, area lists and energies come from C24 and C25, with flash count at most group count because an event's flash is a function of its group; all weights are non-negative, so row-wise inequalities give the inequalities of the cell sums of C36, and the minimum is compared through C36_minimum. |
| C110 | The documented path templates make a tree by day and keep the files of every frame | proved | `Templates` | The path of a frame is three plain directory names below the directory of the template and a plain base name; the loop of writes keeps the invariant that files stand more than three steps below and directories at most three, so no step of makedirs or to_netcdf fails. Equal paths have equal base names, from which the start second is read back (the name by C17's parser, the other by the fixed width of its fields). |
| C111 | Grids of different resolution agree | proved | `Nested` | The size of the part of a convex pixel in a rectangle is an alternating sum over the corners of the rectangle (C103), so the parts in the cells of a block telescope to the part in the whole; weighted sums over the rows of the lookup tables, which are the same for both runs, are then exchanged with the sums over the block. For minima a row contributes to a cell exactly if its part there has positive size. |
| C112 | Numbers of flashes, groups and events are only labels | proved | `Relabel` | one-to-one renumbering of the ids of a file is extended to all numbers; pruning, counts, lookup table and grids shown equivariant under it, energies linear in the factor |
| C113 | A stricter selection takes lightning away and adds none | partial | `Stricter` | wanted is shown monotone in the query, so the stricter selection is included level by level. Pixel sums of any chunking are those of the whole selection (C26), and lengths, totals of non-negative numbers and minima are monotone under inclusion; the cell formulas of C36 add these with non-negative weights. Refuted in general: dropping a flash moves the mean position of a pixel, so part of its light enters another cell. |
| C114 | The table of flash statistics counts every flash of the polygons once, in the line of its time | partial | `LassoTable` | The text is read back by a small reader (lines, cells). The flashes of a file come from C69, the rectangle and minima from C12 (a flash in view has at least one event and group, so minima below two are vacuous), and the window, polygon and bounds are one filter on the points, which commutes with joining the files. Windows of increasing edges are disjoint and cover. |
| C115 | Runs with frames of different duration agree | proved | `PropDurations` | The files of a long frame are, up to their order, the files of its short frames (each product time is during exactly one of them), so C48, C36 (order of the files) and C102 (runs add up) give the sums and the minimum; centroid densities are counts of points, which are divided in the same way. |
| C116 | Every window has its energy spectrum, with every flash in its class | partial | `Spectra` | numpy.histogram is modelled by differences of cumulated counts, from which the count of each class and the sum follow by induction over the edges; the flashes of a window are those of C114; two-digit years determine the time up to the second within a century, so names of windows a second apart differ. |
| C117 | Gridding frame by frame gives what one run gives | partial | `PropMinutes` | The files during the frame are the same list in both runs, so by C48 both show the grids of the same call; the centroids are filters of the points of the batches, and those of a file left out come from its own tables (C12), where none has a time in the frame. The writer's pixels are a function of the arrays at the frame (C37's lemma on written files). |
| C118 | A run has the frames its files need, and every file is in one of them | proved | `TimeFrames` | The number of frames is characterised by the two inequalities of the ceiling; the edges are then an arithmetic progression that covers the window of C58, and C59 gives uniqueness. For consecutive files the frame number is a division with remainder. With every product time in a frame, files_within is the whole list and C59's sum applies. |
| C119 | What a written image adds up to | proved | `PropImageSums` | Sums over rows and columns of pixels near given values, reordered to cells; every position lies in exactly one cell of the image; composed with C60 and C36. |
| C120 | Aggregating over an interval of interest | partial | `PropAggregateRange, PropAggregateSums` | The bins of aggregate with an explicit range are consecutive from its start to the last whole interval (consecutive_whole, whole_unique); totals from C40_totals_partial. The frame at the start is never included, the one at the end always (C120_first_minute_refuted, C120_shifted gives the exact balance), the frames after the last whole interval are lost (C120_tail_refuted); C66_nothing_lost composes it with writing and reading back. C120_images: sums over pixels and intervals exchanged with sums over frames; C120_energy composes it with C119_run_energy, from instrument files to the aggregated series. |
| C121 | The colors of the lasso script's spectra follow time | partial | `PropColors` | The texts HHMMSS and HHMMSS.ffffff are computed for every valid time (clock_text_eq) and read as decimal numbers (C121_number); their order is that of microseconds since midnight (shown_lt, C121_clock), hence that of time within a day only. |
| C122 | The coverage that an aggregated series claims is that of its frames | partial | `PropAggregateAttrs` | The smallest left and largest right edge of consecutive bins are the ends of their chain (edges); the rest by C40_each_frame_once_partial and the arithmetic of the number of bins. The first frame lies on the open edge (C122_coverage_refuted), a frame at the end on the closed one (C122_end_refuted). |
| C123 | The options of the statistics within polygons select flashes as they say | partial | `PropLassoDefaults, PropSpectraDefaults` | Every row that is read comes from a flash of a file that was named (rows_from: the lookup holds only given names, box_selection gives flashes of the file), with altitude 0; two runs whose rows pass polygons and bounds alike have the same table (table_ext) and spectra (spectra_ext). The theorems are instances for pairs of options, or of polygons. |
| C124 | The figure of flash locations shows every flash of the polygons once | partial | `PropCentroids` | By induction over the windows: the flashes of a window by all_rows (as for C114), the times from the first edge split at the second (counts_split, counts_apart). Colors from the test of the window against the least and greatest edge. Names from the fixed length and injectivity of the two times (compact_second). |

No property of the list was found inexpressible; parts of the code without a
property are listed under "not modelled" below.

## Trusted base

1. Coq's kernel (and `coqchk`), version 8.16.1.  No plugin, no native compilation,
   no switched-off check.
2. The correspondence between the Gallina definitions and the Python code, which is
   documented definition by definition in comments and is not itself verified.
3. The assumed behaviour of external libraries, listed below.
4. The axioms printed by `Print Assumptions`.

### Print Assumptions

`Print Assumptions` is run after every property theorem.  Of 492 theorems,
477 are *closed under the global context* (no axiom at all).  The other
15 are the theorems over the real numbers; they use only axioms of Coq's
standard library:

* `C20_line_of_sight`, `C20_every_location`, `C20_unknown_revision`, `C21_subsatellite_point`, `C21_mirror_latitude`, `C21_mirror_longitude`, `C21_whole_turns`, `C22_visible_one_to_one`, `C55_angles_small`, `C92_line_of_sight_partial`, `C92_other_satellite_refuted`:
  `ClassicalDedekindReals.sig_forall_dec`, `ClassicalDedekindReals.sig_not_dec`, `Classical_Prop.classic`, `FunctionalExtensionality.functional_extensionality_dep`.
* `C20_not_geodetic_on_lightning_ellipsoid`:
  `ClassicalDedekindReals.sig_forall_dec`, `ClassicalDedekindReals.sig_not_dec`, `FunctionalExtensionality.functional_extensionality_dep`.
* `C22_visible_cap`, `C92_consistent_variables`, `C92_flag_number_refuted`:
  `ClassicalDedekindReals.sig_forall_dec`, `FunctionalExtensionality.functional_extensionality_dep`.

`functional_extensionality_dep`, `classic`, `sig_not_dec` and `sig_forall_dec` come
with `Coq.Reals`.  No axiom is added by this development and no library other than
the standard library is used.

Closed under the global context: `C34_adds_every_value_once`, `C34_order_and_batching_free`, `C34_repeated_cell_keeps_last`, `C34_outside_raises`, `C34_selection`, `C35_least_positive_value`, `C35_continues`, `C35_order_and_batching_free`, `C35_outside_raises`, `C40_each_frame_once_partial`, `C40_interval_values`, `C40_fields`, `C40_other_fields_refuted`, `C40_totals_partial`, `C40_succeeds`, `C40_first_frame_refuted`, `C40_first_frame_lost_refuted`, `C40_group_area_refuted`, `C40_group_area_partial`, `C54_series_of_files`, `C40_files_to_totals_partial`, `C122_succeeds`, `C122_range`, `C122_default`, `C122_counted_within`, `C122_within_counted_partial`, `C122_coverage_refuted`, `C122_end_refuted`, `C120_range_partial`, `C120_nothing_lost`, `C120_succeeds`, `C120_first_minute_refuted`, `C120_shifted`, `C120_tail_refuted`, `C66_nothing_lost`, `C120_images`, `C120_energy`, `C38_every_average`, `C60_every_average`, `C29_valid_and_distinct`, `C29_box_inside_partial`, `C29_nearest`, `C29_enclosing_box_refuted`, `C29_box_at_border_refuted`, `C29_search`, `C29_search_refuted`, `C95_cells_found`, `C95_no_cell_missed`, `C95_box_around`, `C73_fixed_grid_refuted`, `C73_single_grid_partial`, `C74_missing_arguments`, `C74_value_not_used_refuted`, `C74_sufficient_arguments_partial`, `C74_arguments_passed_on`, `C75_calls_without_options`, `C75_caller_dictionary_refuted`, `C76_whole_files_only`, `C76_every_file_complete`, `C47_rows_are_pixels`, `C47_nearest_pixel`, `C47_both_masked_needed`, `C56_corners_around_event`, `C56_inflation`, `C56_exact_at_nodes`, `C56_outside`, `C56_table_from_file`, `C109_counts`, `C109_empty_together`, `C109_average_area`, `C109_minimum_below_average`, `C109_at_most_selected`, `C124_colors`, `C124_names`, `C124_points_partial`, `C107_chain`, `C107_any_order`, `C107_combined_partial`, `C107_combined_refuted`, `C107_nothing_left_refuted`, `C26_chunks_split_selection`, `C26_pixels_do_not_depend_on_chunks`, `C26_chunk_size_does_not_matter`, `C36_observed_energy`, `C51_chunk_size_partial`, `C51_chunk_size_refuted`, `C121_number`, `C121_succeeds`, `C121_clock`, `C121_same_day_partial`, `C121_midnight_refuted`, `C121_proportional_refuted`, `C101_options_and_files`, `C101_any_order`, `C101_two_dashes`, `C101_files_in_two_places_refuted`, `C101_exponent_refuted`, `C101_unknown_refused`, `C101_ambiguous_refused`, `C101_corner_points_refuted`, `C101_runs_alike`, `C101_what_is_gridded`, `C96_dataset_of_listing`, `C96_tree_of_listing`, `C96_opened_as_production_refuted`, `C78_degrees_refuted`, `C78_near_zero_partial`, `C115_any_frames`, `C115_long_frames`, `C115_regular_frames`, `C19_revision_step_partial`, `C19_dataset_revision`, `C19_radii_refuted`, `C17_round_trip`, `C17_output_names_parse`, `C17_output_names_exist`, `C17_accepted_stamps`, `C18_stamp_order`, `C18_name_order`, `C18_stamp_injective`, `C44_frames_have_own_names_partial`, `C79_split_points`, `C79_default_table_refuted`, `C80_event_energy`, `C80_footprint_energy`, `C80_flash_energy_partial`, `C80_separate_parts_refuted`, `C09_open_prunes_exactly_partial`, `C09_open_self_consistent_partial`, `C09_intact_tree_untouched`, `C09_open_broken_succeeds`, `C09_tree_becomes_consistent_refuted`, `C10_empty_file_opens_refuted`, `C10_empty_file_opens_unchecked_partial`, `C10_partly_empty_refuted`, `C11_opened_rows`, `C11_counts_add_up`, `C12_subset_exact`, `C12_open_then_subset`, `C12_subset_of_empty_raises`, `C13_check_off_refuted`, `C13_events_in_view_refuted`, `C13_some_event_in_view_partial`, `C14_energies_after_opening`, `C14_converted_once`, `C14_reopen_never_scales_twice`, `C15_areas_after_opening`, `C15_area_checks_idempotent`, `C58_window_from_names`, `C58_consecutive_files`, `C58_command_line_times`, `C58_only_times_accepted`, `C58_other_names_partial`, `C58_explicit_times_partial`, `C58_other_names_refuted`, `C45_custom_grid`, `C45_sector_grid`, `C45_latlong_grid`, `C45_limits_and_options`, `C45_tiles`, `C45_nearest_resolution`, `C45_binary_width_refuted`, `C48_products`, `C48_plain_class_refuted`, `C48_centroids`, `C59_one_frame`, `C59_frames_add_up`, `C59_event_times_partial`, `C59_event_times_refuted`, `C59_same_frame_refuted`, `C60_written_products_partial`, `C60_written_counts`, `C61_calls_refuted`, `C61_calls_partial`, `C119_sums`, `C119_energy`, `C119_counts`, `C37_pixels_at_their_coordinates`, `C37_writing_succeeds`, `C38_averages_partial`, `C38_small_counts_refuted`, `C38_writing_again_refuted`, `C38_writing_again_partial`, `C39_lightning_is_not_lost`, `C39_order_is_kept`, `C52_saturation_refuted`, `C53_one_column_refuted`, `C53_two_columns_partial`, `C88_methods_agree`, `C88_without_groups_refuted`, `C84_flash_drawn`, `C84_drawn_when`, `C84_same_after_selection`, `C85_invalid_reported_refuted`, `C85_completes_when`, `C85_empty_file_ends_script_refuted`, `C85_valid_files_pass_partial`, `C86_bounds_of_events`, `C86_selection_keeps_all_refuted`, `C86_selection_partial`, `C123_altitude`, `C123_altitude_refuted`, `C123_minima`, `C123_defaults_partial`, `C123_large_refuted`, `C91_lines_partial`, `C91_valid_at_time`, `C91_last_image`, `C91_time_column_refuted`, `C91_next_lasso_refuted`, `C114_table_partial`, `C114_table_refuted`, `C114_one_window`, `C46_records_kept`, `C46_one_kind`, `C57_cut_file_partial`, `C57_cut_count_refuted`, `C81_lonlat_not_used_refuted`, `C81_western_hemisphere_refuted`, `C23_id_is_row_major_partial`, `C23_same_id_iff_same_cell_partial`, `C23_cells_are_intervals`, `C23_default_fits_partial`, `C23_ids_unique_refuted`, `C24_table_conserves`, `C24_position_is_mean`, `C24_table_exists`, `C25_counts_areas_minima`, `C25_each_flash_once`, `C25_missing_parent_raises`, `C100_id_of_cell_partial`, `C100_exact_inside_partial`, `C100_same_id_close_partial`, `C100_pixels_apart_partial`, `C100_same_cell_refuted`, `C100_last_column_refuted`, `C117_succeeds`, `C117_extents`, `C117_centroids_partial`, `C117_written_partial`, `C117_centroids_refuted`, `C117_quiet_refuted`, `C111_resolutions`, `C111_between`, `C111_minimum`, `C65_paths_and_files`, `C65_frames_keep_their_files`, `C65_writing_succeeds`, `C65_bare_name_refuted`, `C65_coarse_template_refuted`, `C64_times_of_frames`, `C63_coordinates_partial`, `C63_fine_grids_refuted`, `C63_half_way_refuted`, `C62_scene_and_resolution`, `C62_sector_grids_fit`, `C62_custom_grids_refuted`, `C103_part`, `C103_parts_add_up`, `C103_cells`, `C103_total`, `C103_observed_energy`, `C103_full_cell`, `C103_integer_energy`, `C36_cells`, `C36_total_share`, `C36_total_energy`, `C36_full_coverage`, `C36_minimum`, `C36_succeeds`, `C36_file_order`, `C50_chunk_off_grid_refuted`, `C104_edges`, `C104_centres`, `C104_cell`, `C104_tiles`, `C104_column_code`, `C104_row_code`, `C104_two_km`, `C104_two_km_tiles`, `C104_order`, `C83_panels_show_the_data`, `C83_plots_when`, `C83_products_shown`, `C83_all_products_refuted`, `C83_drawn_near_coordinates_partial`, `C83_drawn_at_coordinates_refuted`, `C83_increasing_y_refuted`, `C83_written_image_partial`, `C83_example_keeps_data_refuted`, `C83_captions_partial`, `C83_event_caption_refuted`, `C89_images_partial`, `C89_same_minute_refuted`, `C89_blank_in_directory_refuted`, `C89_place_of_minute`, `C67_points`, `C67_sent`, `C67_joining`, `C67_chunk_size`, `C68_n_points_partial`, `C68_n_points_refuted`, `C69_one_file`, `C69_collection_partial`, `C69_same_second_refuted`, `C70_base_date_refuted`, `C71_flashes_in_polygon`, `C71_events_refuted`, `C71_bounds_partial`, `C71_bounds_refuted`, `C72_flash_init`, `C72_without_groups`, `C27_area_is_signed_area`, `C27_vectorized_agrees`, `C27_translation`, `C27_linear_map`, `C27_start_vertex`, `C27_reversal`, `C27_diagonal_cut`, `C27_fan_of_triangles`, `C27_rectangle`, `C28_quads_are_cells`, `C28_areas_add_up`, `C28_regular_mesh`, `C28_regular_mesh_ij`, `C28_centres`, `C99_every_history`, `C99_every_schedule`, `C99_each_chunk_once`, `C99_ends`, `C99_call_raises_when`, `C99_results_before_exception_refuted`, `C87_pixels_of_the_sector`, `C87_check_of_the_sector`, `C87_standard_sectors_pass_partial`, `C87_any_centre_refuted`, `C108_common_cell`, `C108_selection`, `C108_noted_minima`, `C108_corner_pickle`, `C108_tiles_partial`, `C108_long_flash_refuted`, `C66_reading_back`, `C66_counts_survive_partial`, `C33_one_row_per_cell`, `C33_sums_preserved`, `C33_merged_iff_same_cell`, `C112_grids`, `C112_selection`, `C112_table`, `C105_selection`, `C105_table`, `C105_grids`, `C105_any_chunks_partial`, `C51_all_grids_partial`, `C105_small_chunks_refuted`, `C119_run_energy`, `C119_all_files`, `C102_succeeds_with_its_parts`, `C102_runs_add_up`, `C102_aggregated_runs_partial`, `C102_whole_period_refuted`, `C102_group_area_refuted`, `C106_total`, `C106_files_in_any_order`, `C106_regions_add`, `C106_larger_region`, `C106_gridded_total`, `C97_other_files`, `C97_last_saved`, `C97_without_name`, `C97_never_saved`, `C97_saving_works`, `C97_three_parts_refuted`, `C97_interrupted_refuted`, `C98_lookup_of_file`, `C98_nearest_partial`, `C98_west_negative_refuted`, `C98_documented_query_refuted`, `C82_fractions`, `C82_grid_energy`, `C82_full_cell`, `C82_pixel_error`, `C93_counts_exact`, `C93_sums`, `C93_counts_stop_refuted`, `C49_boxes_cover`, `C49_lookup_covers_partial`, `C49_far_cells_refuted`, `C30_aligned`, `C30_succeeds_with_boxes`, `C30_succeeds_without_box`, `C30_explicit_box_refuted`, `C30_single_cell_refuted`, `C31_fractions`, `C31_mesh_fraction`, `C31_mesh_fraction_ij_refuted`, `C31_energy`, `C32_rows`, `C32_lookup_path`, `C32_lookup_path_exists`, `C32_plain_path`, `C116_counts_add_up`, `C116_one_class`, `C116_spectra_partial`, `C116_braces_refuted`, `C123_spectra_partial`, `C123_spectra_altitude_refuted`, `C123_nowhere`, `C113_selection`, `C113_table`, `C113_grids_partial`, `C113_grids_refuted`, `C110_writing_succeeds`, `C110_directories`, `C110_own_files`, `C110_calls_keep_files`, `C41_edges`, `C41_tiles_join`, `C42_trim_inverts_padding`, `C42_captured_call`, `C42_tiles`, `C43_options_partial`, `C43_options_refuted`, `C44_tiles_partial`, `C44_names_partial`, `C44_tiles_overwrite_refuted`, `C53_narrow_tiles_refuted`, `C94_any_bounds_partial`, `C94_tiles_partial`, `C94_total_partial`, `C94_full_disk_refuted`, `C94_conus_refuted`, `C94_padding`, `C118_ends_do_not_matter`, `C118_frames_cover`, `C118_every_file`, `C118_one_frame`, `C118_consecutive`, `C118_nothing_lost`, `C77_times_corrected_partial`, `C77_other_files_unchanged`, `C77_rows_removed_refuted`, `C77_dataset_refuted`, `C77_rearranged_refuted`, `C01_count_children_exact`, `C01_count_immediate_children`, `C01_counts_add_up`, `C01_counts_add_up_to_rows`, `C01_count_all_levels_below`, `C01_count_empty_level_raises`, `C02_replicate_parent_ids`, `C02_ancestor_is_unique`, `C02_replicate_on_consistent_tree`, `C03_prune_keeps_exactly_descendants`, `C03_prune_empty_level_raises`, `C04_prune_request_order`, `C04_prune_children_follow_parents`, `C05_prune_keeps_ancestors_once`, `C06_prune_preserves_consistency`, `C06_prune_chain_consistent`, `C07_prune_composes`, `C07_prune_idempotent`, `C08_check_parent_child_exact`, `C08_check_empty_level_raises`, `C08_check_clean_iff`, `C90_units_partial`, `C90_other_projections_partial`, `C90_area_refuted`, `C90_interval_refuted`, `C16_netcdf_exact_partial`, `C16_functions_agree`, `C16_one_step_partial`, `C16_one_step_location_partial`, `C16_locations_refuted`, `C16_northernmost_refuted`, `C16_fix_unsigned_refuted`.

### What is modelled

| file | modelled | where |
|------|----------|-------|
| `io/traversal.py` | all: construction, `_descend`, `_ascend`, `count_children`, `replicate_parent_ids`, `reduce_to_entities`, `check_parent_child` | `Traversal.v` |
| `io/glm.py` | file names (16-46), unsigned repair (48-120), `GLMDataset` constructor with all its steps, selection, fixed grid data, lookup table (584-735), times of October and November 2018 (425-467), `fov_bounds` | `FileName.v`, `Unsigned.v`, `Glm.v`, `Lut.v`, `Times.v`, `Inspect.v` |
| `io/lightning_ellipse.py` | all | `Ellipse.v` |
| `io/mimic_lma.py` | `read_flashes` in both modes, `fast_fixed_grid_read_chunk`, `read_flash_chunk` with and without clipping, replication and weighting, merging per cell, collections and time series | `Pipeline.v`, `Slice.v`, `Regroup.v`, `Points.v`, `Footprint.v` |
| `io/ccd.py` | corner lookup (53-115), official table (117-148), pixel lookup (172-218), MATLAB reader (152-170), saved lookups (219-266) | `Ccd.v`, `Saved.v` |
| `io/convert_lcfa.py` | the three readers, `parse_LCFA_ASCII`, `merge_dataframes_to_xarray` | `Lcfa.v`, `Convert.v` |
| `io/imagery.py` | image variables, packing, coordinates, global attributes that depend on data, scene, writing, aggregation, opening of series, projection and subpoint and quality variables | `Imagery.v`, `Output.v`, `Aggregate.v`, `AggregateAttrs.v`, `Georef.v` |
| `grid/clipping.py` | areas, meshes, neighbour lookup, box lookup, slicer, fractions, integer scaling of coordinates, parallel map | `Poly.v`, `BBox.v`, `BBoxRegular.v`, `Slice.v`, `Scaled.v`, `Pool.v` |
| `grid/split_events.py` | all | `Slice.v`, `Footprint.v` |
| `grid/accumulate.py` | all three coroutines; float32 grids bit exact | `Accum.v`, `Single.v` |
| `grid/make_grids.py` | both gridder classes, framing, output tables, subdivision, padding, captured writing, `grid_GLM_flashes`, `proc_each_grid`; calls with keyword arguments, default and shared dictionaries, captured names, failures | `Pipeline.v`, `Gridder.v`, `Tiles.v`, `Imagery.v`, `Calls.v` |
| `examples/grid/make_GLM_grids.py` | the parser with argparse, `nearest_resolution`, `grid_setup`, time window, the main part (no `--lma`) | `CommandLine.v`, `GridSetup.v` |
| `grid/make_grids.py` 612-680, `make_GLM_grids.py` 245-253 | bounds and tiles bit exact in binary64 | `TilesBinary.v` |
| `io/imagery.py` 186-212, 487-491, `grid/make_grids.py` 671-736 | edges, centres and packed coordinates bit exact in binary64 | `PixelsBinary.v` |
| `io/imagery.py` 533-552, 663-694 with `make_grids.py` 313-323, 596-597 | what the files of several runs hold, as a series; scaling off | `Runs.v` |
| `grid/make_grids.py` 366-405, `io/mimic_lma.py` 73-87 | the reader call of a tile and the selection it makes | `Reach.v` |
| (no code; the answer expected of pyclipper, `grid/clipping.py` 392-446) | reference for the part of a convex polygon in a cell | `Overlap.v` |
| `io/glm.py` 712-735 | pixel identifiers bit exact in binary64 | `LutBinary.v` |
| `examples/glm-lasso-stats.py` | `gen_filtered_time_series` | `Points.v` |
| `plot/grid.py`, `plot/values.py`, `examples/plot/plots.py` | `plot_glm_grid`, `display_params`, `plot_glm`: values, place and labels of the images (not colours or map decorations) | `Plot.v` |
| `examples/plot/plot_glm_file.py` | the loop: image, directory and file of each time (C locale; data in memory) | `PlotFiles.v` |
| `grid/make_grids.py` `output_setup` | names, descriptions and units of the variables, bit exact | `Units.v` |
| `examples/glm-lasso-stats.py` | statistics of gridded fields within lassos (408-446, 497-546; no drawing, no slicer) | `LassoGrid.v` |
| `examples/glm-lasso-stats.py` | table of flash statistics (32-50 defaults, 57-69, 104-165, 223-266; no drawing, no profiles by altitude) | `LassoTable.v`, `LassoDefaults.v` |
| `examples/glm-lasso-stats.py` | figure of flash locations (167-199; points, color scale and file name) | `Centroids.v` |
| `examples/glm-lasso-stats.py` | numbers and color scale of the energy spectra (330-342; no drawing), `str` of a datetime, decimal texts as exact numbers | `Colors.v` |
| `examples/glm-lasso-stats.py` | histograms of flash areas and the names of their files (314-322; no drawing), numpy.histogram with given edges, str.format with two positions | `Spectra.v` |
| `examples/grid/make_GLM_grids.py`, lmatools time_edges | frame edges of a run from the names of its files, --start, --end and --dt | `TimeFrames.v` |
| `plot/locations.py`, `examples/check_glm_data.py` | rows and title drawn by `plot_flash`; the loop of the script with the constructor | `Inspect.v` |
| `examples/flash_init_dataset.py` | first group of each flash, alignment | `Points.v` |

### What is not modelled

* `glm.py` 141-150 `event_areas` (it returns nothing), logging everywhere; files in which
  variables are missing.
* The command line of `convert_lcfa.py` (159-167),
  `imagery.py` 402-417
  (`xy_to_2D_lonlat`, which reads two names that are never bound and so always raises).
* Map decorations and colours, the other plotting examples, and the unit tests; in
  `examples/glm-lasso-stats.py` the profiles by altitude (281-312) and the drawing of energy spectra from charge density (343-375).
* Rounding of binary floating point outside C16, C45, C90, C93, C94 and C100; in particular float32 columns.
* Attributes of variables that do not affect data, compression, chunking on disk.

### Assumed behaviour of external libraries

* NumPy: `np.unique` sorts; fancy indexing; `array_split` sizes; comparisons with NaN
  are False; assignment to narrower integers keeps the low bits; `hstack` accepts
  generators and raises ValueError for nothing; `arange`, `meshgrid`, `histogramdd`
  by their documentation; conversion of a float to uint16 keeps the low 16 bits.
* xarray and pandas: `groupby(...).groups` is a dictionary from value to positions
  (AttributeError on an empty dimension); assignment of a variable of the wrong length
  raises ValueError; packing rounds half to even, keeps the low 16 bits and uses the
  fill values 0 and -999; attributes and encodings are retained; `groupby_bins`
  intervals are open on the left, empty bins give NaN; parsing of time stamps in the
  range 1678-2261.
* lmatools: grid edges by `np.arange`; `FlashGridder` calls `pipeline_setup` when
  constructed; `flashes_to_frames` sorts and uses `searchsorted`; `LMAh5Collection`
  collects and sorts times and iterates `data_for_time`; the fixed grid transforms.
* pyclipper: any function from two polygons to a list of pieces, and from a list of
  polygons to the parts of their union; theorems that need
  geometry state it (pieces of positive size and their coverage).  In C82 it is a function
  of integer polygons, its coordinates truncated towards zero, and its own rounding is
  bounded by a parameter.
* scipy: the KD-tree returns a row of least distance; linear interpolation returns
  values between the extremes of the table, and the tabulated value at nodes; nearest
  interpolation returns tabulated values.
* Python: sets iterate in any order (a permutation of the elements); `strptime` and
  `strftime` for the directives used (month names of the C locale); ASCII text and decimal numerals; paths without
  `..`; dictionaries keep the last value of a key; argparse as in CPython 3.8 to 3.11; loading a pickle gives what was
  dumped and no proper beginning of a pickle can be loaded; a process pool takes chunks in
  order, keeps what is finished, and marks the rest as failed when a worker dies.
* matplotlib: `imshow` with an extent divides it evenly among the pixels, first row on top;
  `add_subplot(r, c, n)` raises ValueError unless 1 <= n <= r*c.
* The file system: a map from normalised paths to contents and a set of directories.
* Flash, group and event times enter as functions of their ids.

## Findings

Deviations from what documentation and names promise, each proved as a `_refuted`
theorem or as part of one:

* opening files: an empty dimension raises (C10); orphan and childless groups survive
  the repair (C09); turning off the field of view check always raises, and turning it on
  does not remove events out of view (C13); the repair of unsigned data can be off by
  one code towards zero on the xarray path and is exact on the netCDF path (C16); `ltg_ellps_radii` always raises NameError (C19);
* lookup tables: pixel ids collide when the range is not a whole number of cells along x
  (C23);
* slicing: an explicit box always raises, a mesh of one cell raises (C30); the box
  lookup misses cells at the border and finds none for an enclosing box (C29); parts of
  a polygon more than two cells away are lost (C49); mesh fractions are negative with
  'ij' indexing (C31);
* gridding: a chunk entirely off the grid stops the run (C50); grids depend on the chunk
  size (C51); energies go to the frame of the file, not of the event (C59); the plain
  gridder class cannot be set up (C48); required options are undocumented (C61);
* writing: small densities spoil averages, and writing twice divides twice (C38); values
  beyond 65535 steps become missing (C52); one column cannot be written (C53); options
  are lost after the first tile (C43); tiles overwrite each other (C44); bare file names
  raise (C65); coordinates of fine grids collide (C63); grids of different size share
  names (C62);
* aggregation: the first frame is dropped, group areas come from flash fields (C40);
* example driver: binary division truncates the number of cells (C45); names outside the
  pattern stop the run (C58);
* text conversion: a file cut within the last number is accepted (C57);
* point data: n_points counts the events of the chunk (C68); files of the same second
  replace each other and an empty selection raises (C69); the base date of a time series
  is ignored (C70); events do not follow their flashes through polygons and bounds (C71);
* calls: fixed grid runs return no file names (C73); `clip_events=False` acts as True
  (C74); options are removed from the caller's dictionary (C75);
* files of October and November 2018: opening raises when the repair removes rows, and
  puts times beside other groups when it rearranges them (C77);
* points split by a mesh: `corner_pickle=None` raises (C79); energies of groups and flashes
  are counted once for every separate part of their footprint (C80);
* longitude-latitude grids: coordinates beyond two degrees can not be read back (C78);
  with `clip_events`, data are placed by scan angles instead of longitude and latitude, and
  grids of the western hemisphere are never made (C81);
* plots: images are drawn up to half a pixel off, all eight products do not fit the default
  layout, and the example overwrites missing values in memory (C83);
* the script that checks files never reports one (C85); the field of view bounds, used as
  ranges, lose flashes on them (C86).

## Testing the theorems

`seeded/LOG.jsonl` records edits of the model as a realistic bug would make them, made
in a scratch copy.  A script replaces each failing proof by a cheat and continues, so
that the log lists every theorem which depends on a failed proof.  Where a wrong program
satisfied all theorems, the entry names the theorem that was tightened or added.
