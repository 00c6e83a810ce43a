{"id": "C01", "title": "Tiles cover the raster", "statement": "For a raster with positive pixel sizes and a non-negative upwind buffer, every pixel of the raster lies in the unbuffered window of at least one tile of the tile grid, and every unbuffered window lies inside the raster.", "quantifier": "all raster sizes, all positive pixel widths/heights, all buffer lengths >= 0, every admissible float rounding", "why_tests_cant": "depends on ceil/truncation/clamping for every combination of raster size, pixel size and buffer; tests use one raster", "anchors": ["all_multipliers.py: TileGrid.__init__, TileGrid.tile_grid, TileGrid.get_gridlimit"]}
{"id": "C02", "title": "Tiles do not overlap (exact condition)", "statement": "Unbuffered windows of two different tiles are disjoint for the whole grid exactly when, on each axis with more than one tile, the last tile is strictly wider than the buffer. Otherwise (e.g. 3601 columns, step 3600, buffer 36) two tiles share pixels, so the claim 'tiles never overlap' is false in general.", "quantifier": "all raster sizes, steps, buffers; all pairs of tiles", "why_tests_cant": "the bad configurations depend on the remainder of raster size modulo tile size; a sample of rasters does not reveal them", "anchors": ["all_multipliers.py: TileGrid.tile_grid, TileGrid.get_gridlimit"]}
{"id": "C03", "title": "Buffered window is the tile dilated by the buffer and clipped", "statement": "The buffered window of tile (i,j) is exactly the nominal tile window enlarged by the buffer on each side and clipped to the raster; so every raster pixel within the buffer distance of a pixel of the tile is inside the buffered window, and no other pixels are.", "quantifier": "all rasters, buffers, tiles and pixels", "why_tests_cant": "universally quantified over geometry; boundary tiles differ from interior tiles", "anchors": ["all_multipliers.py: TileGrid.tile_grid, TileGrid.get_gridlimit_buffer"]}
{"id": "C04", "title": "Tile enumeration is complete and column-major", "statement": "The tile grid lists exactly columns*rows tiles; tile number k is the tile in column k div rows and row k mod rows, and the list of tiles handed to the workers contains each tile number exactly once in increasing order.", "quantifier": "all rasters, all tile numbers", "why_tests_cant": "the numbering must be right for every number of columns and rows; a test checks one grid", "anchors": ["all_multipliers.py: TileGrid.tile_grid, Multipliers.get_tiles, Multipliers.get_tileinfo"]}
{"id": "C05", "title": "Clipping a processed tile recovers exactly the tile's pixels", "statement": "When a result computed on the buffered tile is clipped to the tile extent, the pixels kept are exactly those of the unbuffered tile window: the recovered row/column offsets and sizes equal the integer window differences, for every admissible float rounding of the coordinate arithmetic.", "quantifier": "all rasters with fewer than 2^40 pixels per axis between the raster edge and the coordinate origin, all tiles, all rounding behaviours with relative error <= 2^-53", "why_tests_cant": "floating-point offsets are divided by the pixel size and rounded; an off-by-one for one tile among thousands is invisible to tests", "anchors": ["utilities/nctools.py: clip_array", "all_multipliers.py: TileGrid.get_tile_extent, TileGrid.get_tile_extent_buffer, Multipliers.clip_dataset"]}
{"id": "C06", "title": "Saved coordinates match saved data", "statement": "The latitude and longitude vectors written with a tile have exactly as many entries as the clipped data has rows and columns, and entry n is the centre of pixel n: half a pixel inside the tile edge plus n pixels, latitudes descending.", "quantifier": "all extents, pixel sizes and tiles", "why_tests_cant": "the coordinate vectors and the clipped data are sized by two computations that must agree for every extent and pixel size", "anchors": ["utilities/nctools.py: get_lat_lon, clip_array, save_multiplier"]}
{"id": "C07", "title": "Tile names are unique (exact condition)", "statement": "If the buffer is smaller than a tile and coordinates are below 10^5/10^4 in magnitude and printed in fixed notation, different tiles get different names, so no tile's files overwrite another's. If the buffer reaches a whole tile, several tiles collapse to the same name.", "quantifier": "all tile grids; every float printing function that prints a decimal within relative 2^-53 of the value", "why_tests_cant": "truncating str(float) to 8/7 characters may collide for some coordinates among all grids", "anchors": ["all_multipliers.py: TileGrid.get_tilename, TileGrid.get_startcord"]}
{"id": "C08", "title": "Tile identity round-trips through file names", "statement": "For every tile and direction, the converter recovers from an output file name the tile name that produced it, and the names under which the terrain, shielding and topographic stages save their results are exactly the names the converter later opens.", "quantifier": "all tile names without underscore, all 8 directions, all three multiplier kinds", "why_tests_cant": "string surgery (splitext, slicing) must be right for every name length", "anchors": ["utilities/mpi_runner.py: run", "utilities/convert.py: Converter.process_tile", "topographic/topo_mult.py: topomult", "terrain/terrain_mult.py: terrain", "shielding/shield_mult.py: convo_combine"]}
{"id": "C09", "title": "Direction attribute is parsed correctly from file names", "statement": "For each of the 8 directions, the direction recovered from a saved file's name is the direction the file was computed for, whatever the tile name.", "quantifier": "all tile names, all 8 directions", "why_tests_cant": "one- and two-letter directions share a suffix parser; it must work behind every possible tile name", "anchors": ["utilities/nctools.py: save_multiplier"]}
{"id": "C10", "title": "Every tile is processed exactly once under any MPI schedule", "statement": "With at least one worker, in every execution of the master/worker protocol (any message arrival order, any interleaving, any worker speeds), when the run ends each tile has been processed exactly once, by exactly one worker.", "quantifier": "all tile counts, all worker counts >= 1, all interleavings", "why_tests_cant": "the number of message orders and worker speeds is unbounded; a test sees the one the machine happened to choose", "anchors": ["all_multipliers.py: Multipliers.parallelise_on_tiles"]}
{"id": "C11", "title": "The master/worker protocol never deadlocks and terminates", "statement": "From every reachable state of the protocol either some process can take a step or all processes have finished; every execution is finite with an explicit bound; at the end every worker has received the stop signal and no message is left undelivered.", "quantifier": "all tile counts, all worker counts >= 1, all reachable states", "why_tests_cant": "deadlocks appear only for particular interleavings and counts (e.g. fewer tiles than workers)", "anchors": ["all_multipliers.py: Multipliers.parallelise_on_tiles"]}
{"id": "C12", "title": "Parallel run equals serial run", "statement": "The multiset of tiles processed by any complete parallel execution equals that of the single-process run, and since tiles have distinct output files the resulting output store is the same for every schedule.", "quantifier": "all tile lists, all worker counts, all schedules", "why_tests_cant": "equality must hold for every schedule and worker count, and a test run shows one schedule", "anchors": ["all_multipliers.py: Multipliers.parallelise_on_tiles"]}
{"id": "C13", "title": "A failing tile stalls the run (robustness refuted)", "statement": "If the processing of a tile raises in a worker, the run does not finish: in every continuation the master waits forever for the missing result. Without failures it always finishes. So 'the run always ends' is false in the presence of a failing tile.", "quantifier": "all tile counts, worker counts, positions of the failing tile, schedules", "why_tests_cant": "hangs cannot be exhibited by a finishing test; needs all continuations", "anchors": ["all_multipliers.py: Multipliers.parallelise_on_tiles"]}
{"id": "C14", "title": "Phase ordering", "statement": "In every interleaving of the processes, all tile work happens after the output directories have been (re)created, and the conversion to combined multipliers starts only after all processes have finished tile work.", "quantifier": "all process counts, all interleavings", "why_tests_cant": "races between ranks depend on the schedule and may never show on the machine the tests run on", "anchors": ["all_multipliers.py: run"]}
{"id": "C15", "title": "Static distribution of conversion work is a partition", "statement": "Splitting the tile list over the processes by stride gives each tile to exactly one process, for every number of processes, the parts differ in size by at most one, gathering returns the two output files of every tile exactly once, and for every interleaving of the processes the files written are those of each tile converted on its own.", "quantifier": "all lists, all process counts >= 1", "why_tests_cant": "must hold for every number of tiles and processes; a test has one of each", "anchors": ["utilities/mpi_runner.py: run", "utilities/parallel.py: DummyCommWorld"]}
{"id": "C16", "title": "Combined multiplier is the product per direction and cell", "statement": "For every tile whose 24 input files exist and have the tile's shape, band b of the M3 file holds at every pixel exactly the product of the shielding, terrain and topographic multipliers of the b-th direction at the same pixel (rows not flipped), and no other file is written.", "quantifier": "all tile shapes, all values, all 8 bands", "why_tests_cant": "a transposed axis or a shifted band shows only for particular shapes and values; must hold for every array", "anchors": ["utilities/convert.py: Converter.process_tile"]}
{"id": "C17", "title": "Missing values in combined multipliers", "statement": "A NaN in any of the three inputs gives NaN in the product (never a finite number). A -9999 sentinel is not preserved: the product of a sentinel with ordinary values is written as an ordinary-looking number, so 'missing in any input means missing in the output' is false for sentinel inputs.", "quantifier": "all arrays with missing cells", "why_tests_cant": "every combination of missing and present cells in 24 arrays must give the right mask; tests use a few arrays", "anchors": ["utilities/convert.py: Converter.process_tile"]}
{"id": "C18", "title": "Missing multiplier files act as factor one (exact condition)", "statement": "If some input files of a tile are absent, the combined product is the product of the present ones provided the tile is square and the first file read (shielding, east) is present; otherwise conversion of the tile fails, except in the listed cases.", "quantifier": "all subsets of missing files, all tile shapes", "why_tests_cant": "there are 2^24 sets of missing files for every tile shape", "anchors": ["utilities/convert.py: Converter.process_tile"]}
{"id": "C19", "title": "Maximum multiplier is the maximum over directions", "statement": "Every pixel of the M3_max file is the largest of the eight directional values at that pixel, it is attained by some direction, a pixel that is NaN in one direction is NaN, and -9999 sentinels are ignored unless all eight are missing. The file has a second, all-zero band although one band is announced.", "quantifier": "all arrays, all tile shapes", "why_tests_cant": "must hold for every eight values at every cell, missing ones included", "anchors": ["utilities/convert.py: Converter.process_max_tile"]}
{"id": "C20", "title": "Upwind neighbour lookup is in bounds and points upwind", "statement": "For each of the 8 directions, every neighbour offset used for a pixel lies inside the raster and on the ray from the pixel towards where the wind comes from, at distances lag+1, lag+2, ..., with no gaps, cut only by the raster edge.", "quantifier": "all raster shapes, lags, averaging lengths, pixels, directions", "why_tests_cant": "edge pixels differ from inner ones in all 8 directions, for every raster shape, lag and averaging length", "anchors": ["utilities/value_lookup.py: ALL_NEIGHB, POINT_R, POINT_C", "terrain/terrain_mult.py: convo"]}
{"id": "C21", "title": "Terrain averaging is the mean of the upwind fetch", "statement": "The terrain multiplier at a pixel is the arithmetic mean of the initial values over exactly the upwind pixels at distances lag+1..lag+averaging length that exist; when none exists it is the pixel's own initial value; it never raises when the averaging length is positive. For the west and east directions the whole stage satisfies this only on rasters with at least lag+averaging length rows: with fewer rows the fetch is cut to the number of rows although it runs along columns.", "quantifier": "all rasters, all directions, all lags >= 0 and averaging lengths >= 1", "why_tests_cant": "the mean must be right at every pixel of rasters of every size, in every direction; tests check a small raster", "anchors": ["terrain/terrain_mult.py: convo"]}
{"id": "C22", "title": "Terrain averaging stays within bounds and preserves constants", "statement": "Every averaged terrain multiplier lies between the minimum and the maximum initial multiplier of the tile (no-data pixels counting as multiplier 1), and a uniform tile stays uniform.", "quantifier": "all rasters, directions", "why_tests_cant": "an inequality over all real-valued rasters of all sizes cannot be sampled", "anchors": ["terrain/terrain_mult.py: convo"]}
{"id": "C23", "title": "Averaging never divides by zero (refuted; exact condition)", "statement": "With at least one row and column, directional averaging raises a division error exactly when the lag width does not exceed the number of rows, the raster extends more than lag+1 pixels in that direction, and either the averaging width is zero pixels (pixels of 1000 m or more in cardinal directions, above 500/1.414 m diagonally, up to float rounding) or the lag width equals the number of rows; otherwise it returns a full raster. Tiles with pixels up to 353 m complete unless a lag width equals the number of rows.", "quantifier": "all pixel sizes, raster shapes, directions", "why_tests_cant": "the division fails only for thresholds of pixel size and raster size that a test does not hit by chance", "anchors": ["terrain/terrain_mult.py: terrain, convo"]}
{"id": "C24", "title": "No-data stays missing in terrain multipliers (exact condition)", "statement": "After averaging, a pixel is missing (NaN) exactly when its terrain class has no usable value in the table (unlisted, NaN or zero). In the small-raster branch (lag wider than the number of rows) such pixels come out as ordinary value 1, so the claim is false there. A tile is skipped exactly when none of its pixels has a listed class (tables of positive multipliers).", "quantifier": "all rasters, all class tables", "why_tests_cant": "which branch is taken depends on the size of the raster; small test rasters take only one", "anchors": ["terrain/terrain_mult.py: terrain"]}
{"id": "C25", "title": "Terrain results do not depend on the tiling", "statement": "If the buffer is at least lag plus averaging length pixels, the terrain multiplier computed on a buffered tile and clipped to the tile equals the one computed on the whole raster with the same pixel size, for every direction and pixel; a tile that is skipped has only missing values in the whole-raster result. With a smaller buffer it can differ.", "quantifier": "all rasters, tiles, buffers, directions", "why_tests_cant": "seams show only at tile edges, and the claim must hold for every way of cutting every raster into tiles", "anchors": ["terrain/terrain_mult.py: convo", "all_multipliers.py: TileGrid"]}
{"id": "C26", "title": "Reclassification follows the table", "statement": "Each pixel's initial terrain (shielding) multiplier is that of the last table row whose category equals the pixel's class; pixels of unlisted classes get 0 for terrain (treated as missing) and 1 for shielding.", "quantifier": "all tables (with duplicates), all rasters", "why_tests_cant": "tables are supplied by the user, with repeated and missing categories", "anchors": ["terrain/terrain_mult.py: terrain_class2mz_orig", "shielding/shield_mult.py: terrain_class2ms_orig"]}
{"id": "C27", "title": "Rougher terrain gives a smaller multiplier", "statement": "The roughness-length to terrain-multiplier formula is strictly decreasing wherever it is defined, so a rougher class never yields a larger multiplier. It has a value exactly for roughness lengths above exp(-3.734/0.4554) (about 0.27 mm), where each multiplier belongs to exactly one roughness, and for 2 mm to 3 m the multiplier is positive, so no listed class is taken for no-data.", "quantifier": "all pairs of roughness lengths in the formula's domain", "why_tests_cant": "a monotonicity claim over a continuum of roughness lengths", "anchors": ["terrain/terrain_mult.py: terrain_class2mz_orig"]}
{"id": "C28", "title": "Aspect classes are the 8 compass sectors", "statement": "For every aspect in [0,360) exactly one of the eight classes is assigned and it is the compass direction whose centre is within 22.5 degrees of the aspect.", "quantifier": "all aspects", "why_tests_cant": "the edges of the sectors lie in a continuum of angles; a test picks a few angles inside them", "anchors": ["shielding/shield_mult.py: reclassify_aspect"]}
{"id": "C29", "title": "Shielding kernels are normalised and one-sided", "statement": "For every direction and every kernel size >= 1 the kernel has non-negative weights summing to 1, all non-zero weights are equal, and the cells that contribute to a pixel are: in the cardinal directions the cells 1..size steps upwind plus, from the second step on, one cell on either side; in the diagonal directions the cells x steps along one upwind axis and y along the other with x,y >= 1 and x+y <= size+1. All of them lie upwind and within the kernel size; the pixel itself never contributes.", "quantifier": "all kernel sizes, all 8 directions", "why_tests_cant": "kernels of every size are built by rotations and flips that compose; tests look at one size", "anchors": ["shielding/shield_mult.py: kern_n, kern_e, kern_s, kern_w, kern_ne, kern_nw, kern_se, kern_sw, init_kern, init_kern_diag"]}
{"id": "C30", "title": "Directional blur is the upwind mean", "statement": "The blurred shielding value at a pixel is the equally weighted mean of the initial shielding of the kernel's upwind cells, cells outside the raster counting as 1; so it lies between the min and max of the initial values and 1, and a uniform value-1 tile stays 1.", "quantifier": "all rasters, directions, kernel sizes >= 1", "why_tests_cant": "must hold for every kernel size, direction and raster, including the pixels near the edge", "anchors": ["shielding/shield_mult.py: convo_combine, kern_*"]}
{"id": "C31", "title": "Slope correction of shielding", "statement": "After combination, a pixel facing the wind with slope >= 12.30 has shielding 1; between 3.27 and 12.30 the value is interpolated linearly towards 1 (continuous and monotone in slope); otherwise unchanged by slope; then values below 0.9 are multiplied by 0.9 and others squared; results stay in (0,1] for inputs in (0,1]; missing stays missing and only missing becomes missing.", "quantifier": "all values, slopes, aspects, directions", "why_tests_cant": "a piecewise function of a real slope; continuity and bounds cannot be sampled", "anchors": ["shielding/shield_mult.py: combine"]}
{"id": "C32", "title": "Directions are independent (refuted for coarse pixels)", "statement": "The shielding result of a direction does not depend on which directions were processed before, whenever the pixel is at most 100 m wide. For coarser pixels the eight results are computed in place on one array and compound: later directions differ from their independent value.", "quantifier": "all rasters, all prefixes of directions", "why_tests_cant": "aliasing only shows with kernel size 0 and multiple directions", "anchors": ["shielding/shield_mult.py: convo_combine, combine"]}
{"id": "C33", "title": "Shielding is unaffected on flat ground", "statement": "On a flat elevation model the slope is 0 everywhere and the slope correction leaves every direction's shielding value unchanged.", "quantifier": "all flat tiles, all rasters, directions", "why_tests_cant": "must hold for flat tiles of every size and elevation and every land cover on them", "anchors": ["shielding/shield_mult.py: get_slope_aspect, combine"]}
{"id": "C34", "title": "No-data handling in shielding (refuted)", "statement": "A pixel without data should stay missing and a pixel with data should not become missing. The kernel excludes the pixel itself, so a no-data pixel surrounded by data gets a value and a data pixel becomes missing exactly when one of its upwind kernel cells is missing.", "quantifier": "all rasters, all no-data patterns", "why_tests_cant": "whether a pixel becomes missing depends on the pattern of missing pixels around it, and there are unboundedly many", "anchors": ["shielding/shield_mult.py: terrain_class2ms_orig, convo_combine, combine"]}
{"id": "C35", "title": "Peak finder", "statement": "For every elevation profile of at least two points the reported ridge indices are increasing, in range, and are exactly the points higher than their predecessor and not lower than their successor (the last point needs no successor), plus the first point when the first change along the profile is a fall; a flat profile has none.", "quantifier": "all profiles of any length", "why_tests_cant": "plateaus and end points occur in arbitrary combinations in profiles of any length", "anchors": ["topographic/findpeaks.py: findpeaks"]}
{"id": "C36", "title": "Valley finder", "statement": "The valley finder returns, in increasing order, exactly the points lower than their successor and not higher than their predecessor (the first point needs no predecessor), plus the last point when the last change along the profile is a fall.", "quantifier": "all profiles", "why_tests_cant": "plateaus and end points occur in arbitrary combinations in profiles of any length", "anchors": ["topographic/findpeaks.py: findvalleys"]}
{"id": "C37", "title": "Ridges and valleys alternate and pair up safely", "statement": "For every profile, between two consecutive ridges there is exactly one valley; every ridge that is processed is paired with the valley immediately upwind of it, which is strictly lower; so index errors, zero half-lengths, zero heights and divisions by zero never occur.", "quantifier": "all profiles of any length with positive spacing", "why_tests_cant": "index errors and zero divisions depend on the order of ridges, valleys and plateaus in profiles of any length", "anchors": ["topographic/multiplier_calc.py: multiplier_calc", "topographic/findpeaks.py"]}
{"id": "C38", "title": "Hill-shape multiplier bounds along a line", "statement": "For every profile and positive spacing the line multiplier has the length of the profile and every value is between 1 and 1.71; flat, and monotonically descending profiles give 1 everywhere.", "quantifier": "all profiles, all spacings > 0", "why_tests_cant": "a bound on the result for every profile and spacing; tests check a few profiles to a few digits", "anchors": ["topographic/multiplier_calc.py: multiplier_calc", "topographic/mh.py: mh_calc"]}
{"id": "C39", "title": "Escarpment factor is bounded", "statement": "The downwind length factor is always between 0.5 and 3 never raises, and is 1 when the ridge is the last point or the land falls back to the valley's level over the distance of the rise, and 2.5 for a plateau behind the ridge.", "quantifier": "all profiles, ridges, half-lengths", "why_tests_cant": "the factor depends on where the land behind the ridge falls back to a level; must be bounded for every profile", "anchors": ["topographic/mh.py: escarpment_factor"]}
{"id": "C40", "title": "A hill only affects its neighbourhood (refuted)", "statement": "Away from the upwind/downwind influence zone of a ridge the multiplier is not changed by that ridge - except that the cell index computed upwind can be -1, which wraps round to the last point of the line. Exact condition for the wrap and a witness where a far-away last cell is raised.", "quantifier": "all profiles, ridges", "why_tests_cant": "the index wraps round only for particular distances between ridge and start of the line", "anchors": ["topographic/mh.py: mh_calc"]}
{"id": "C41", "title": "Lines partition the raster in every direction", "statement": "For each of the 8 directions the traversal lines visit every raster cell exactly once, each line steps one cell in the wind direction at every step, and never leaves the raster.", "quantifier": "all raster shapes, all 8 directions", "why_tests_cant": "diagonals start along two edges, and their number and length differ for every shape of the raster", "anchors": ["topographic/make_path.py: make_path", "topographic/topo_mult.py: topomult"]}
{"id": "C42", "title": "Conservatism removal", "statement": "The correction maps [1,1.71] into [1,1.539], never increases a value, is monotone and continuous at 1.4, and leaves values <= 1 unchanged.", "quantifier": "all values", "why_tests_cant": "a piecewise function of a real value; monotonicity and continuity cannot be sampled", "anchors": ["topographic/topo_mult.py: remove_conservatism"]}
{"id": "C43", "title": "Tasmanian elevation factor", "statement": "Inside the Tasmanian box cells above 500 m are multiplied by 1 + 0.00015*height, all other cells and all rasters outside the box are unchanged.", "quantifier": "all rasters, elevations, origins", "why_tests_cant": "the factor depends on the position of the raster and on every height; a test has one raster", "anchors": ["topographic/topo_mult.py: tasmania, topomult"]}
{"id": "C44", "title": "Smoothed topographic multiplier never drops below 1 (refuted at the edge)", "statement": "After the 3x3 smoothing, every cell not on the raster's outer border is the average of nine values and lies in [1,1.539] (mainland); border cells are averaged with zeros and drop to as little as 4/9, so the bound is false there.", "quantifier": "all rasters, all directions", "why_tests_cant": "the smoothing treats the border differently from the inside; the bound must hold for every raster and cell", "anchors": ["topographic/topo_mult.py: topomult"]}
{"id": "C45", "title": "Topographic stage is total", "statement": "For every elevation raster with at least one row and column, every direction completes without raising and yields a full raster of the same shape.", "quantifier": "all rasters, all directions", "why_tests_cant": "totality of a long composition over every terrain: one profile that raises is enough to break it", "anchors": ["topographic/topo_mult.py: topomult", "topographic/multiplier_calc.py", "topographic/mh.py"]}
{"id": "C46", "title": "All requested variables are written to netCDF (refuted)", "statement": "Saving a grid with several variables should write all of them. Only the first variable is written: the coordinate-reference variable passed by the multiplier writer never reaches the file. With one variable the file holds exactly that variable with its values and dimensions.", "quantifier": "all dimension and variable collections", "why_tests_cant": "the loss shows only when more than one variable is passed; the claim is about every collection", "anchors": ["utilities/nctools.py: nc_save_grid, save_multiplier"]}
{"id": "C47", "title": "Malformed netCDF requests are rejected", "statement": "A request is accepted exactly when every dimension is complete and distinctly named and the first variable is complete, new, uses declared dimensions and has values of matching shape (or there is no variable). A missing key or a wrong number of dimensions raises and closes the file; a wrong size raises but leaves the file open; defects of later variables go unnoticed.", "quantifier": "all requests", "why_tests_cant": "there are unboundedly many malformed requests; each must be refused before anything is written", "anchors": ["utilities/nctools.py: nc_save_grid"]}
{"id": "C48", "title": "Bilinear interpolation of a block", "statement": "For block shapes of at least 2x2 the interpolated block has the requested shape, equals the four given corner values at its corners, has every value between the smallest and largest corner value, and is exact for functions a + b*i + c*j + d*i*j; a block one cell high or wide contains only NaN.", "quantifier": "all shapes, all corner values", "why_tests_cant": "must hold for blocks of every shape and every four corner values", "anchors": ["utilities/blrb.py: bilinear"]}
{"id": "C49", "title": "Recursive grid interpolation", "statement": "With one bisection (the depth the program uses) every grid of at least 3x3 cells is filled completely. For even sizes the nine sampled cells carry the exact function value and no cell leaves the range of the sampled values; for odd sizes the split point is fractional and the last row and column are extrapolated (k/(2k-1) too large for the row number on 2k+1 rows). A constant is reproduced for sizes >= 3, and at any depth nothing but the constant or NaN is ever written. One row raises; two rows leave the last row NaN.", "quantifier": "all grid sizes and sampled functions at depth 1; all depths, origins and shapes for constant functions", "why_tests_cant": "depth of the recursion and size of the grid are unbounded, and blocks share their borders", "anchors": ["utilities/blrb.py: subdivide, interpolate_block, interpolate_grid"]}
{"id": "C50", "title": "Pixel sizes are evaluated at the right location (refuted)", "statement": "Grid functions of longitude and latitude should be evaluated at column/row positions in that order; the pixel-size functions are called with row and column swapped, so the pixel size at (row, col) is that of the transposed location. The mean used for line and window lengths is unaffected on square rasters and on projected rasters, and wrong on others.", "quantifier": "all rasters", "why_tests_cant": "the swap of rows and columns does not show on symmetric test data", "anchors": ["utilities/get_pixel_size_grid.py: get_pixel_size_grids", "utilities/blrb.py: interpolate_grid"]}
{"id": "C51", "title": "Configuration loading", "statement": "After any sequence of loads, an option of a section has the value of the last loaded file giving it in that section, else the last value given under DEFAULT (for known sections), else it is unset. Loading a file overrides exactly the options it contains and keeps the others; a missing file changes nothing and raises nothing; a file is rejected exactly when it repeats a section or an option.", "quantifier": "all sequences of loads", "why_tests_cant": "the value of an option depends on the whole sequence of files read before", "anchors": ["utilities/config.py: set_config_file, config"]}
{"id": "C52", "title": "Singleton creates at most one instance", "statement": "Whatever the interleaving of threads requesting the instance, the constructor runs at most once and all callers get the same object - provided the instance is truthy; a falsy instance is re-created. This holds also for constructors that call their own class, but such a call never returns: from then on no call on any thread returns and nothing is constructed, because the thread waits for a lock that it holds itself.", "quantifier": "all thread counts, all interleavings", "why_tests_cant": "the number of threads and interleavings is unbounded; the race may never show in a test", "anchors": ["utilities/meta.py: Singleton"]}
{"id": "C53", "title": "Serial fallback of the MPI communicator", "statement": "Without MPI the fallback communicator's collectives return exactly what a one-process MPI communicator returns: scatter of a one-element list gives its element, gather gives a one-element list, and work decorated as root-only runs.", "quantifier": "all values", "why_tests_cant": "must hold for every object passed to the communicator", "anchors": ["utilities/parallel.py: DummyCommWorld, disable_on_workers"]}
{"id": "C54", "title": "Elapsed time formatting", "statement": "The elapsed time string decodes to the elapsed seconds rounded down, hours*3600+minutes*60+seconds with minutes and seconds below 60; the timed function's result or exception is passed on unchanged and the time is logged exactly when it returns. When the clock has gone back by whole seconds the hours are negative and minutes and seconds count on from there.", "quantifier": "all durations from 0 to below 2^53 seconds, all rounding modes", "why_tests_cant": "must hold for every elapsed time, in particular next to full minutes and hours", "anchors": ["all_multipliers.py: timer"]}
{"id": "C55", "title": "Chunked checksum equals whole-file checksum", "statement": "The file checksum is the digest of the whole content and does not depend on the block size, positive or negative; block size zero is the exception and gives the digest of the empty content.", "quantifier": "all contents, all block sizes", "why_tests_cant": "must hold for every content and block size, in particular contents that end on a block boundary", "anchors": ["utilities/files.py: fl_get_stat"]}
{"id": "C56", "title": "Land-use/settlement code is decodable", "statement": "The category of a feature decodes to its settlement class (hundreds) and its land use (remainder), or tells that a name is not a documented one; it lies between 0 and 511, so it fits the 16-bit raster, and is 0, the raster's no-data value, exactly when neither name is known. No other attribute changes, and it fails exactly when an attribute is missing.", "quantifier": "all features", "why_tests_cant": "all pairs of settlement class and land use, known or not, must be told apart", "anchors": ["pre_process.py"]}
{"id": "C57", "title": "Dissolve groups features by attribute", "statement": "Dissolving yields one feature per distinct label, in the order of the labels whatever the order of the input, with the attributes of the first feature of the label and as geometry the union of all and only the features with that label. Labels are the attribute values, except that features without a value, with an empty one and with the value 'None' are merged.", "quantifier": "all feature lists, any order", "why_tests_cant": "grouping works only on sorted features; must hold for every order and mixture of attributes", "anchors": ["utilities/shapefiles.py: dissolve"]}
{"id": "C58", "title": "Spatial join picks the best overlap", "statement": "Every feature is kept once, in order, with its geometry and other attributes. If no other geometry intersects it, it gets no value, otherwise the value of one sharing the largest area with it (a single touching one is taken even without common area; ties are decided by the search tree). It fails exactly when a geometry without area intersects two others.", "quantifier": "all feature lists", "why_tests_cant": "the answer of the search tree has no fixed order; the best overlap must be found for every order and every tie", "anchors": ["utilities/shapefiles.py: spatial_join"]}
{"id": "C59", "title": "Output directory is recreated from scratch", "statement": "After preparation the output folder contains exactly the five empty stage folders whatever it contained before; everything previously below it is deleted, including inputs stored there; nothing outside it changes. Preparation fails exactly when a file is in the way.", "quantifier": "all previous file-system states", "why_tests_cant": "the folder may hold anything before; tests start from an empty one", "anchors": ["all_multipliers.py: do_output_directory_creation"]}
{"id": "C60", "title": "Temporary files are removed", "statement": "After a tile is processed without error both temporary rasters of that tile are gone and no other tile's temporaries are touched; a tile without land skips the computation. After a crash the temporaries may remain.", "quantifier": "all tiles, all crash points", "why_tests_cant": "the process may be interrupted between any two steps; a test runs to the end", "anchors": ["all_multipliers.py: Multipliers.multipliers_calculate"]}
{"id": "C61", "title": "Relative output directory survives the pipeline (refuted)", "statement": "All stages of a tile should write under the same output folder. The shielding stage changes the working directory and does not restore it, so with a relative output path the later stage resolves the folder against a different directory, and a single-process run completes exactly when no tile has data; with an absolute path it always completes and leaves exactly the result files of the tiles with data.", "quantifier": "all working directories, relative paths", "why_tests_cant": "fails only for relative paths, after the change of directory", "anchors": ["shielding/shield_mult.py: convo_combine", "all_multipliers.py: multipliers_calculate"]}
{"id": "C62", "title": "The geodesic distance and azimuths describe a geodesic of the ellipsoid", "statement": "vinc_dist(f, a, ...) for latitudes strictly between the poles, flattening at most 1/100 and longitudes at most pi apart: two points within 1e-8 radians in both coordinates give (0, 0, 0). Otherwise the loop ends, after at most nine passes, whenever the points are not both on the equator and their arc on the reduced sphere is at most 2.4 radians. Every answer that is given describes a geodesic of the ellipsoid between the two reduced latitudes: the distance is its length up to the relative error f^4/4, the longitudes of its ends differ by lon2 - lon1 up to 1e-9 relative plus 2 f^4 times the arc, both azimuths lie in [0, 2 pi], are measured clockwise from north, and point from each point to the other. Hence the distance is positive and lies between the distances on the spheres of the two radii. Exchanging the points leaves it unchanged, shifting both longitudes changes nothing, on a sphere (f = 0) it is exactly the great-circle distance, and along a meridian it is the length of the meridian ellipse with azimuths due north and south. The only error is a division by zero, and only for points on the equator or coincident or antipodal images.", "quantifier": "all pairs of points, all flattenings 0 <= f <= 1/100, all radii, all numbers of passes", "why_tests_cant": "a continuum of inputs: tests compare a handful of distances with published ones and cannot show termination or an error bound", "anchors": ["utilities/vincenty.py: vinc_dist"]}
{"id": "C63", "title": "Tiles that share a name interfere (exact condition)", "statement": "Workers handle their temporary files by tile name. If two tiles handed to two workers have the same name there is a schedule in which one worker deletes the temporary elevation raster of the other while it is in use and the second tile fails (so the run never finishes, see C13); if all names are distinct no schedule makes a tile fail because of another.", "quantifier": "all tile lists, all numbers of processes, all schedules", "why_tests_cant": "a race between two particular tiles under a particular schedule; a test observes one schedule", "anchors": ["all_multipliers.py: Multipliers.parallelise_on_tiles, Multipliers.multipliers_calculate"]}
{"id": "C64", "title": "The whole run produces the product of the stage results", "statement": "For every schedule of the tile phase and of the conversion phase and any numbers of processes, the tiles converted are exactly those with elevation data; when the run ends without error, each such tile's combined raster holds the product of the shielding, terrain and topographic multipliers computed for that tile and the maximum raster holds their maximum. A tile with elevation but no land cover makes the conversion fail unless it is square.", "quantifier": "all tile lists, process counts, schedules of both phases, stage results", "why_tests_cant": "combines two concurrent phases and the file-name conventions between them", "anchors": ["all_multipliers.py: run, Multipliers.parallelise_on_tiles, Multipliers.multipliers_calculate", "utilities/mpi_runner.py: parallelise_convert_on_tiles", "utilities/convert.py: Converter"]}
{"id": "C65", "title": "Shielding results do not depend on the tiling", "statement": "With a tile buffer of at least one pixel and at least the shielding kernel size, the shielding multiplier computed from a buffered tile equals, at every pixel of the tile proper and in every direction, the one computed from the whole raster.", "quantifier": "all rasters, elevation models, tiles, buffers >= max(1, kernel size), pixel sizes, slope and aspect functions", "why_tests_cant": "covers all tile positions including raster edges with reflected boundaries", "anchors": ["shielding/shield_mult.py:get_slope_aspect", "shielding/shield_mult.py:blur_image", "shielding/shield_mult.py:convo_combine"]}
{"id": "C66", "title": "Cropping clips to the bounding box of the mask", "statement": "Cropping intersects each geometry with the bounding box of the first mask polygon (not the polygon itself) and keeps exactly those with non-zero area, in order, with their attributes.", "quantifier": "all feature lists, all masks", "why_tests_cant": "must hold for every list of features and every mask; the difference from cutting to the polygon shows only for masks that are no boxes", "anchors": ["utilities/shapefiles.py: crop"]}
{"id": "C67", "title": "Land-cover preparation end to end", "statement": "The prepared land-cover map contains every land-use feature with geometry (clipped, if a mask is given) once, in order; its category decodes to its own land use and to the settlement class whose combined area shares most of it, unauthorised settlements counting as no class. Preparation succeeds whenever the attributes exist, the mask is not empty and the geometries have area.", "quantifier": "all settlement, land-use and mask files", "why_tests_cant": "composition of filter, dissolve, crop, join and coding over all inputs", "anchors": ["pre_process.py: pre_process", "utilities/shapefiles.py"]}
{"id": "C68", "title": "Slope and aspect are those of the ground", "statement": "At every pixel whose nine surrounding heights exist (border pixels standing in beyond the raster's edge), the slope is the angle of the third-order finite-difference gradient in metres, and the aspect class is that of the compass direction in which the ground falls, whenever that direction is inside its sector by more than the numerical error; on a plane away from the edge this gradient is the plane's. At the raster's edge it is half the true one across the edge. Slope is missing, and the aspect class is that of no direction, exactly when one of the nine heights is missing.", "quantifier": "all elevation rasters, no-data values, pixel sizes, pixels; all numerical slope and aspect functions within an error of eps degrees", "why_tests_cant": "sign conventions of rows, columns and compass angles must be right in all directions; tests look at a few rasters", "anchors": ["shielding/shield_mult.py: get_slope_aspect, reclassify_aspect"]}
{"id": "C69", "title": "Pixel sizes of a raster in degrees are the sizes on the ground", "statement": "For a raster in geographic coordinates, get_pixel_size answers for every pixel between the poles that is not centred on the equator and spans between 1e-8 and 1/50 radians of longitude: the width is the length of the part of the pixel's parallel on the WGS84 ellipsoid up to 1 part in 10000 (the geodesic cuts the corner), the height is the length of the part of its meridian up to 1 part in 10^10, whether the raster runs north to south or south to north. Pixels below 1e-8 radians (6 cm) in both directions have size (0, 0).", "quantifier": "all rasters in degrees (origin, pixel size, orientation), all pixel positions including fractional ones, any number of passes from nine on", "why_tests_cant": "a continuum of positions; tests compare single pixels with constants computed by the same code", "anchors": ["utilities/get_pixel_size_grid.py: get_pixel_size, Earth", "utilities/vincenty.py: vinc_dist"]}
{"id": "C70", "title": "The end of a geodesic", "statement": "vinc_pt, given a start between the poles, a direction and a positive length, answers after at most five passes with the point at which the geodesic that leaves the start in that direction has that length, up to 1 part in 10^9 and some (f^3/25 for flattening f), with latitude between -90 and 90 degrees and a direction back along which the start is reached. On a sphere the answer is exact, and vinc_dist recovers the length and both directions from it. A length of zero raises ZeroDivisionError instead of giving the start; some negative lengths raise UnboundLocalError.", "quantifier": "all flattenings up to 1/100, radii, starts between the poles, directions, positive lengths, any number of passes from five on", "why_tests_cant": "a continuum of starts and directions, and an iteration whose end must be shown; tests compare a few published lines", "anchors": ["utilities/vincenty.py: vinc_pt, vinc_dist"]}
{"id": "C71", "title": "Points along a great circle", "statement": "GreatCircle stores the end points in radians, the distance and directions vinc_dist gives and the spherical arc between them, and is antipodal exactly when the arc is half a turn. points(n) refuses n < 2 and, for n > 2, antipodal ends; n = 2 gives the ends. Otherwise, on a sphere, it gives n points equally spaced along the great circle, both ends included, as degrees in [-90, 90] and (-180, 180]; on an ellipsoid it gives n points, the ends and n - 2 points each a geodesic step of distance/(n-1) from the one before in the direction of the second end. For two equal end points and n > 2 it gives no finite point (sphere) or raises ZeroDivisionError (ellipsoid).", "quantifier": "all end points, radii, numbers of points, any number of passes in the inner iterations", "why_tests_cant": "a continuum of end points and unbounded numbers of points along the way", "anchors": ["utilities/vincenty.py: GreatCircle.__init__, GreatCircle.points"]}
{"id": "C72", "title": "Metadata of a multiplier file", "statement": "The file saved for a multiplier names it in its title and, with the wind direction of its file name, in its abstract; it names the terrain and elevation data used, holds the version of the source, and records every option of the configuration under section_option provided these names differ. The recorded ranges of latitude, longitude and multiplier are the smallest and largest value (NaN cells ignored; NaN, NaN if there is no other). The working directory is as before. An unknown multiplier raises KeyError and an empty array ValueError, and no file is left. Three expectations fail: when the version cannot be found the working directory stays changed; options whose joined names coincide overwrite one another and the version; grid_mapping names a variable that is not in the file.", "quantifier": "all multipliers, arrays, coordinates, directions, configurations and working directories", "why_tests_cant": "all arrays and all configurations, and failures at every step; tests read the data of one file back, not its metadata", "anchors": ["utilities/nctools.py: save_multiplier, nc_save_grid"]}
{"id": "C73", "title": "Starting a log", "statement": "The first call of fl_start_log makes the directory of the log file if need be and sends messages to that file, started anew or continued as asked; if the directory can be neither found nor made, to the file of the same name in the working directory, and if that cannot be opened the call fails and no log is started. datestamp puts the time before the extension (a name without one ends with a dot) and keeps the directory. After any number of calls, once the first has succeeded no call fails, messages go to exactly one file, that of the first call, and to the console at most once, namely if some call asked for it on a terminal. So a later call does not start its own file, against the documentation.", "quantifier": "all file names, directories that exist or can be made, flags, and sequences of calls of any length", "why_tests_cant": "sequences of calls of any length and all states of the file system; the root logger is global state that a test harness has already configured", "anchors": ["utilities/files.py: fl_start_log"]}
{"id": "C74", "title": "Log files of the processes of a run", "statement": "In a run of n processes no two processes log to the same file, in whatever order they look for the log directory and create it; rank 0 uses the configured name, the others append their rank, and only rank 0 may write to the console. A process that logs to the log directory finds it there. A process turns to the working directory only if the directory was missing at the start and cannot be made or has been made by another process in between; a run of one process does so only if it cannot be made. With two or more processes and a missing directory, logs can be split over both places although the directory can be made.", "quantifier": "all numbers of processes and all interleavings of their checks and creations", "why_tests_cant": "depends on the interleaving of processes in the file system; tests run one process", "anchors": ["all_multipliers.py: run"]}
{"id": "C75", "title": "A failing master leaves the workers waiting (robustness refuted)", "statement": "If the elevation data cannot be opened, or some tile can never be cut from them, the master of a parallel run never gets to the end of its loop. Once it has raised, no worker ever leaves its loop: the run comes to rest with every worker waiting for a message nobody will send (or dead from an error of its own), the tiles handed out before having been processed. In a single process the same failures end the run with an error after the tiles before. If the master cannot raise, the executions are those of C10 to C13.", "quantifier": "all numbers of workers, tile lists, interleavings, moments of the failure", "why_tests_cant": "all interleavings and all moments of failure; the observable effect is that nothing ever happens", "anchors": ["all_multipliers.py: Multipliers.parallelise_on_tiles, Multipliers.open_dem, Multipliers.cut_dem"]}
{"id": "C76", "title": "Classes and heights survive cutting and resampling", "statement": "reproject_dataset raises OSError when a named file is missing or cannot be opened; otherwise its result has the grid and size of the raster to match, that raster's projection or the one asked for, and 32 bit integers if the source has, else single precision. Each pixel holds the value of the source pixel that contains its centre, provided the value is one of a 32 bit integer raster or has at most 24 significant bits; 0 where there is no such pixel or it holds no data. So no land-cover class appears that is not in the source, except 0. The elevation tile cut for each tile of the grid holds exactly the pixels of the buffered window of that tile, in spite of rounding in its corner. Two expectations fail: larger codes of an unsigned 32 bit raster are changed, and pixels beside the source become class 0, not missing.", "quantifier": "all rasters, grids, projections and coordinate transformations; all tiles of all accepted grids, all admissible roundings", "why_tests_cant": "all rasters and alignments: an error shows as a shift by one pixel at some tile corner only", "anchors": ["all_multipliers.py: reproject_dataset, Multipliers.clip_dataset, Multipliers.cut_dem"]}
{"id": "C77", "title": "Inputs of different sizes in the combined file (coverage refuted)", "statement": "The combined file of a tile has the size of the northern shielding file. If the three files of a direction have one size and it fits, the products are written from the north-western corner and the rest of the band is 0; if it is wider or higher, the whole band is 0; neither raises. If two of the three files of a direction differ in width or height and neither is 1, the conversion fails and no file is written. So it is false that every band of a combined file that was written covers the tile.", "quantifier": "all sizes of the inputs, all tiles, directions and values", "why_tests_cant": "the sizes of 24 files vary independently; tests use one size", "anchors": ["utilities/convert.py: Converter.process_tile"]}
{"id": "C78", "title": "The rasterised land cover holds the code of the last polygon over each pixel", "statement": "rasterize writes a raster with the grid and projection of the elevation raster, 16 bits without sign and no-data value 0; a missing shapefile or raster is an AttributeError. Each pixel holds the category of the last feature in the file that covers its centre (in the coordinates of the shapefile), 0 if none does; categories outside 0 to 65535 become the nearest of these, and without the field CAT all is 0 and nothing is raised. For a file made by pre_process the pixel's code is 0 to 511 and spells out the settlement class and land use of that polygon, and if the raster was made on the grid of the elevation data, the land cover of every tile holds exactly these codes for the pixels of its buffered window. rasterize.py writes test.tiff, with a mask also test_crop.tiff and the cut elevation raster, and nothing else. Expectations that fail: rasterize.py uses the attribute given to it (it always uses CAT); 0 means no polygon (it also means category 0 or less); an unusable mask is an error (an elevation raster cut earlier is used silently).", "quantifier": "all geometries, coordinate transformations, feature lists and their order, rasters, tiles, roundings", "why_tests_cant": "overlaps, order of features and alignment of grids and tiles vary without bound", "anchors": ["pre_process.py: rasterize, pre_process", "rasterize.py", "all_multipliers.py: reproject_dataset, Multipliers.clip_dataset"]}
{"id": "C79", "title": "Progress reports depend on the numbers of tiles and workers alone", "statement": "With a progress callback and n tiles on k workers, the i-th call receives min(n, min(n,k) + i), whatever the order of events; by then at least i tiles have been processed. A run that ends has made exactly one call per tile, the last with n. A single process calls back with 0, 1, ... after each tile, up to the tile that fails. Reporting does not change the executions. Expectations that fail: a report of n means that all tiles are done (with as many workers as tiles every report says n), and the last report of a single process is n (it is n - 1).", "quantifier": "all tile lists, numbers of workers, interleavings and moments", "why_tests_cant": "the sequence must be the same for all interleavings; tests see one", "anchors": ["all_multipliers.py: Multipliers.parallelise_on_tiles"]}
{"id": "C80", "title": "Topographic multipliers depend on the tiling, however wide the buffer (independence refuted)", "statement": "The multiplier of a pixel computed on a tile's window equals that computed on the whole raster if, for the nine pixels averaged, the window holds enough of the wind line through each: every hill of the line lies in the window with the ground that decides the length of its lee, or the pixel is beyond its reach (three times that on the lee side), or the hill is negligible (and lower than 10 m if the window's edge cuts its slope), and the pixel is not the line's last in the window. This holds for all eight directions and for the files clipped from the tiles of the tile grid, provided the corner of window and raster fall on the same side of the Tasmanian box. Without it the multipliers differ: for every buffer width there are land and a window such that a pixel that far inside gets strictly less than on the whole raster (an even slope that starts before the window); and level land above 500 m gets the Tasmanian factor, or not, according to the corner of the tile.", "quantifier": "every profile, part and point; every elevation raster, window, direction, spacing and no-data value; every tile of every tile grid; every buffer width", "why_tests_cant": "The equality ranges over all terrain and all windows, and the refutation over all buffer widths; a test fixes one terrain and one tiling.", "anchors": ["topographic/topo_mult.py: topomult", "topographic/multiplier_calc.py: multiplier_calc", "topographic/mh.py: mh_calc, escarpment_factor", "all_multipliers.py: TileGrid.get_gridlimit_buffer"]}
{"id": "C81", "title": "What the terrain table file means, and when it silently means nothing (documented example refuted)", "statement": "However the terrain table is written down (bare fields or double-quoted ones with doubled quotes inside, remarks after '#', blank lines, columns in any order, further columns, no last newline, Windows line ends), each pixel starts from the multiplier of the roughness in the last row whose CATEGORY is its class (zero if none), and from the last such row's SHIELDING divided by 100 (one if none); files that agree on the columns used are interchangeable. A data row longer than both the header and the first data row, a file without rows and an unclosed quote are a ValueError, a missing column of a non-empty table a KeyError, a non-numeric value a TypeError, and the run then exits with status 1 without finishing a tile; everything else is accepted. But one CATEGORY that is not a number silently disables the whole table: every terrain tile is skipped and shielding starts from one everywhere; a row cut short by a '#' in a bare description leaves its class without a multiplier; a missing table file ends the run with status 0 and nothing done; the example table in the documentation is refused; and the SHIELDING of 1.0 it prescribes for open ground counts as 0.01.", "quantifier": "every table file of rows, remarks and blank lines; every land-cover raster; every number syntax and multiplier formula; every sequence of tiles", "why_tests_cant": "The claim ranges over all ways of writing a table; a test reads one file.", "anchors": ["terrain/terrain_mult.py: get_terrain_table, terrain_class2mz_orig", "shielding/shield_mult.py: get_shielding_table, terrain_class2ms_orig", "docs/run_instructions.rst: terrain_table"]}
{"id": "C82", "title": "What a run checks before it deletes earlier results, and what only after (refuted for its input files)", "statement": "A run whose settings are not all there and acceptable (root, upwind length, log file, log level, verbosity, land cover, elevation raster, output folder) fails leaving every existing file and folder in place; only the log file and the folders leading to it can be new. Nothing is ever lost unless all those settings are right. But the input files are looked at only after the output folder has been emptied: with the settings there, everything below it goes whatever the inputs are, and the run goes on to its tiles exactly when the elevation raster, and where some tile has data also the land cover and the terrain table, were there, readable and not below the output folder. A mistyped raster name thus costs the earlier results (OSError); an input kept below the output folder is itself deleted; so is the log file; a missing terrain_table setting is a KeyError and a missing table file ends the run with status 0, both after the deletion.", "quantifier": "every configuration, file system, location of log, inputs and output folder, with or without the -v option, with or without a tile that has data", "why_tests_cant": "The claim ranges over all configurations and file systems, and is about what is left after a failure; a test starts from one prepared folder.", "anchors": ["all_multipliers.py: run, do_output_directory_creation, TileGrid.__init__, Multipliers.open_dem, reproject_dataset", "utilities/files.py: fl_start_log", "terrain/terrain_mult.py: get_terrain_table"]}
{"id": "C83", "title": "No direction is special: turned or mirrored inputs give turned or mirrored results", "statement": "If the input rasters of a tile are mirrored, turned upside down or turned by a quarter (any of the eight symmetries of a raster), the multipliers are those of the original tile, mirrored or turned in the same way and filed under the mirrored or turned wind direction. For the topographic multiplier this holds for every raster. For the terrain multiplier it holds for every mirroring and half turn, including tiles that are skipped or fail; for quarter turns and mirrorings at a diagonal it holds for square tiles and tiles of at least about 700 metres plus a pixel each way, and fails for narrow strips. For shielding it holds for pixels up to 100 metres provided slope and aspect are computed even-handedly (a turned gradient has the same slope and, above 3.27 degrees, an aspect in the turned sector), and fails for coarser pixels, where the results of the directions depend on their order.", "quantifier": "every land cover, elevation, pixel size, table, rounding of floats, raster shape and each of the eight symmetries", "why_tests_cant": "It compares two runs on every pair of related rasters; a test turns one raster.", "anchors": ["terrain/terrain_mult.py: terrain, convo", "utilities/value_lookup.py: POINT_R, POINT_C, ALL_NEIGHB", "topographic/topo_mult.py: topomult", "topographic/make_path.py: make_path", "shielding/shield_mult.py: get_slope_aspect, convo_combine, combine, kern_*"]}
{"id": "C84", "title": "What the text of a configuration file means to a run", "statement": "A configuration file is read exactly when its text is laid out as comments and blank lines, then sections, each a [header] line followed by name = value (or name : value) lines and deeper-indented lines that continue a value; it then gives each setting its name and its value without surrounding space, comments left out and continuation lines joined by newlines. One text never has two meanings, the line ends of other systems make no difference, and any other text raises instead of being read in part. If nothing is indented every value is exactly the text after the sign. After a file is loaded, each of its settings is what config.get returns, however the name is capitalised; it loads exactly when in addition no section and no option of a section is given twice. Refuted expectations: a remark after a value on the same line is part of the value (upwind_length = 0.01  # degrees is not a number), and a setting indented deeper than the one above it silently becomes part of that one's value.", "quantifier": "every text (sequence of ASCII characters), every layout of every document, every earlier state of the parser, every capitalisation of option names", "why_tests_cant": "the space of texts and layouts is unbounded and the meaning of a line depends on all lines before it; the tests read one file", "anchors": ["utilities/config.py: _ConfigParser._read_file, set_config_file", "multiplier_conf.cfg", "all_multipliers.py: run (config.get)"]}
{"id": "C85", "title": "What the topographic multiplier takes from the elevations", "statement": "Outside the high country of Tasmania, adding the same whole number of metres to every elevation of a raster without missing cells changes no topographic multiplier in any direction, whatever the arithmetic, and so does moving elevations within their metre: only whole-metre height differences count. A missing cell (or one holding the no-data value) gets no multiplier and acts on the others exactly as land at sea level. Refuted expectations: adding half a metre everywhere can remove a hill; with a missing cell, raising all the land by 100 m makes a 104 m hill beside it; in Tasmania the height itself counts above 500 m.", "quantifier": "every raster size, all elevations, every whole shift, every pixel size and position, every rounding of the arithmetic, every pattern of missing cells, every no-data value", "why_tests_cant": "a relation between two runs on rasters of any size and content; the tests compare single runs with stored numbers", "anchors": ["topographic/topo_mult.py: topomult, tasmania", "topographic/multiplier_calc.py: multiplier_calc (math.floor)", "topographic/mh.py: mh_calc, escarpment_factor", "topographic/findpeaks.py: findpeaks, findvalleys"]}
{"id": "C86", "title": "What a command line starts, and with which settings", "statement": "A command line starts a run exactly when it can be read as words that name a configuration file (-c F, -cF, -c=F, --config_file F, --config_file=F, any shortening of the long name, after any number of v's in the same word) or ask for verbose output; the run is told the last file named and is verbose exactly when some word says so. Lines that agree on these two give the same run; any other line stops before anything is looked up, created or deleted. The settings of the run are those of the file named last over those of the default file, with their DEFAULT sections behind. A request for help before any error prints it and stops; help is printed only when some word asks for it. Refuted expectations: naming a file that does not exist (or an empty name) is not reported, the run goes ahead on the default settings and empties the default output folder; -c=F names F but -vc=F names =F.", "quantifier": "every list of words, every disk content, every default file, every state of the file system", "why_tests_cant": "the space of command lines is unbounded and words interact (abbreviations, joined letters, values that look like options); the tests never parse a command line", "anchors": ["all_multipliers.py: run (ArgumentParser, parse_args, config.set_config_file)", "utilities/config.py: _ConfigParser", "wmenv.yml (python=3.7)"]}
{"id": "C87", "title": "What rounding does to stored multipliers", "statement": "With the single- and double-precision arithmetic of the arrays: the terrain multiplier stored for a pixel is the exact average of the stored table values, rounded once to single precision, so a tile of one class keeps its value exactly, averages stay between the smallest and largest table value (and 1), and a tile cut with a large enough border stores exactly the number the whole raster stores. The shielding multiplier stored is within a millionth of the exact one and missing at the same pixels. The stored product of three multipliers is within one part in 8388607 of the exact product. Sums kept in single precision, as NumPy 2 would keep them, would break this: a tile of one class with multiplier 0.81 would get another value.", "quantifier": "every raster, every terrain table with multipliers 0 or between 1/2 and 2, every shielding table with percentages, pixels of 1 m and more (up to 100 m for shielding), every rounding to 24 and 53 bits with the usual laws, in particular to nearest even", "why_tests_cant": "rounding errors depend on every value and every order of summation; a test compares a few results with a tolerance and cannot bound the error for all rasters nor show that tile seams agree to the last bit", "anchors": ["terrain/terrain_mult.py: terrain, terrain_class2mz_orig, convo", "shielding/shield_mult.py: terrain_class2ms_orig, convo_combine, combine, blur_image, kernel functions", "utilities/convert.py: Converter.process_tile", "wmenv.yml (python=3.7, numpy)"]}
{"id": "C88", "title": "Tiles count pixels with their own mean pixel size", "statement": "Each tile converts the 500 m, 200 m and 100 m distances into numbers of pixels with its own mean pixel size. Two mean pixel sizes give the same terrain multipliers of a direction on all rasters exactly when they give the same two numbers of pixels, and the same shielding multipliers exactly when the same whole number of pixels fits into 100 m. A tile with a large enough border then agrees with a run over the whole raster even though its mean pixel size differs. If the smallest and the largest mean pixel size agree on these numbers, all sizes between them do. Sizes that differ by as little as one likes may disagree (25 m and a little more), so neighbouring tiles at different latitudes need not match at their seam.", "quantifier": "every pair of mean pixel sizes (up to 353 m for terrain, 100 m for shielding), every direction, every raster, table, slope and aspect, every pixel, exact arithmetic and every rounding with the usual laws", "why_tests_cant": "whether two tiles match at a seam depends on the latitudes of both and on every raster; a test runs one tile with one pixel size and never compares neighbours", "anchors": ["terrain/terrain_mult.py: terrain", "shielding/shield_mult.py: convo_combine", "utilities/get_pixel_size_grid.py: get_pixel_size_grids"]}
{"id": "C89", "title": "A tiled parallel run on actual rasters gives the values of the whole raster", "statement": "Take an elevation raster and a land-cover raster, cut the elevation into buffered tiles, bring the land cover onto each tile, compute terrain, shielding and topographic multipliers tile by tile on any number of processes, cut off the borders, and combine the files with the converter on any number of processes. If the run ends without error, the tile has data and a listed class, the buffer holds the fetch and the shielding distance, and the tile's mean pixel size gives the same numbers of pixels as that of the whole raster, then each band of the combined raster is, at every pixel of the tile, the product of the terrain and shielding multipliers computed on the whole raster at once and the topographic multiplier of the buffered tile. No stage of such a tile fails, and each file has exactly the size of the tile.", "quantifier": "every elevation raster and land-cover raster (any projection of the land cover), every tile, table, direction and pixel, every number of processes and schedule of both phases, exact arithmetic and every rounding with the usual laws", "why_tests_cant": "the result goes through cutting, resampling, three stages, border removal, parallel scheduling and conversion; a test runs single functions on one small array and never compares a tiled run with an untiled one", "anchors": ["all_multipliers.py: multipliers_calculate, parallelise_on_tiles, TileGrid, reproject_dataset", "terrain/terrain_mult.py: terrain", "shielding/shield_mult.py: shield", "topographic/topo_mult.py: topomult", "utilities/nctools.py: clip_array", "utilities/convert.py: run"]}
{"id": "C90", "title": "More open land never lowers a multiplier, and errors in the tables stay small", "statement": "Compare two runs that differ in the land cover or in the tables. If the terrain multiplier assigned to each pixel is in the second run at least that of the first, every terrain multiplier of the second run is at least that of the first, in every direction; if they differ by at most e, so do the results. The same holds for shielding with initial shieldings between 0 and 1 and pixels up to 100 m, except that a difference of e can become 2 e: removing conservatism squares values near 1. The factor is needed: 95 % instead of 100 % in the table lowers a shielding multiplier by almost a tenth.", "quantifier": "every pair of land covers of one size, every pair of tables, every elevation raster, pixel size, direction and pixel, exact arithmetic", "why_tests_cant": "it compares two runs for all rasters and tables; a test checks single rasters against stored results", "anchors": ["terrain/terrain_mult.py: terrain, terrain_class2mz_orig, convo", "shielding/shield_mult.py: shield, terrain_class2ms_orig, convo_combine, combine", "utilities/value_lookup.py"]}
{"id": "C91", "title": "Which elevation rasters get topographic multipliers (refuted for 32 bit integers)", "statement": "The topographic stage accepts an elevation tile if and only if its cells are floating-point numbers: an integer tile ends in ValueError before any direction is computed, whether or not a height is missing. In a run a tile is floating point unless the elevation raster holds 32 bit integers, because cutting a tile turns all other types into single precision. So elevation rasters of 8 and 16 bit integers, unsigned 32 bit integers and floating-point numbers get all eight topographic multipliers for every tile, and a raster of signed 32 bit integers with the same heights gets none.", "quantifier": "every cell type, elevation raster, tile, pixel size, no-data value and rounding with the usual laws", "why_tests_cant": "the tests call the stage on one floating-point tile; which rasters fail depends on the type chosen when the tile is cut, two modules away", "anchors": ["topographic/topo_mult.py: topomult", "all_multipliers.py: clip_dataset", "shielding/shield_mult.py: get_slope_aspect"]}
{"id": "C92", "title": "Running again after interrupted runs (refuted for the converter on its own)", "statement": "Take any sequence of runs into one output folder, with any settings and numbers of processes, each stopped at any point (before or while emptying the folder, in any state of the tile phase with any tile failed or half written, in the middle of the conversion) or completed. Nothing outside the output folder has changed. A later complete run leaves on disk, path by path, exactly what the same run would have left had none of the earlier ones happened, and it fails exactly if that one would have failed; it may use another number of processes and any schedule, and if the first was possible so is the second, without ever blocking. A run stopped during its conversion can also be finished by running the converter alone. A run stopped earlier cannot: the converter then runs without error on a square tile whose topographic files are not there yet and writes combined multipliers that differ from those of a complete run.", "quantifier": "every initial disk, history of interrupted runs, crash point, content of torn files below the output folder, schedule and number of processes", "why_tests_cant": "a run may be interrupted at any point, any number of times; the tests run on an empty folder, once, to the end", "anchors": ["all_multipliers.py: run, do_output_directory_creation, Multipliers.parallelise_on_tiles, Multipliers.multipliers_calculate", "utilities/mpi_runner.py: parallelise_convert_on_tiles", "utilities/convert.py: Converter.run"]}
{"id": "C93", "title": "Rounding along a terrain line (refuted on the limits of the formula)", "statement": "For a terrain line of any length and shape computed in double precision (every operation rounded to 53 bits, ties to even): the downwind stretch of each hill is within 2^-47 of its exact value, whatever the spacing; in particular the point behind the crest at which the fall is measured is never off by one, although the division that locates it can come out below a whole number. The multiplier of every point but the last is within 2^-45 of the one exact arithmetic gives, as long as no hill of the line is within one part in 2^40 of a limit at which the formula jumps (upwind slope 0.05 and 0.45, stretch 0.2 away from 1, a quarter of the height from the crest). On such a limit it is false: a rise that is too gentle to matter by one unit in the last place is ignored in exact arithmetic and raises its crest to more than 1.06 in double precision.", "quantifier": "every line of up to 2^50 points with elevations up to 2^50 m, every positive spacing that is a double, every hill, every point", "why_tests_cant": "a test compares a handful of lines with stored values; the bound and the index must hold for every spacing", "anchors": ["topographic/mh.py: escarpment_factor, mh_calc", "topographic/multiplier_calc.py: multiplier_calc"]}
{"id": "C94", "title": "Rounding of the whole topographic stage", "statement": "Let the topographic stage run in the precision of its arrays: multipliers in double, elevations in single or better, the variable written in single, the smoothing with any method whose error is at most 2^-40 times the largest value. Then the value written for a cell differs from the one of exact arithmetic (line multipliers, removal of conservatism, Tasmanian factor, mean over the nine cells) by at most 2^-23 outside the Tasmanian box and 2^-20 inside it, unless one of the nine cells sits on a limit of the hill formula or ends its wind line. Away from the edges of the raster and outside the box every value written lies between 1 and 1.54 without any such proviso, and is exactly 1 where no hill acts on the nine cells. Cells without elevation stay missing.", "quantifier": "every elevation raster of up to 2^50 rows and columns with elevations between -10 km and 10 km, every direction, cell size, position and smoothing method of the given accuracy, every cell", "why_tests_cant": "tests compare a few rasters with stored results to a few digits; the bound must hold for every raster", "anchors": ["topographic/topo_mult.py: topomult, remove_conservatism, tasmania", "utilities/nctools.py: save_multiplier"]}
{"id": "C95", "title": "Helpers that look at the calling program and at files (refuted in places)", "statement": "From whatever depth of calls, without a level (or with level 0) the default configuration file is the one beside the main program's real file, with the prefix before its name and its extension exchanged, and the program version is the main program's. The module path at level k+1 is the directory, name and extension of the file of caller k. Levels beyond the main program raise ValueError. Saving a table makes its directory if need be, and writes without the header when the library refuses one. Refuted as documented: the module name helper returns the name of the calling function; an explicit level means different callers to the two top-level helpers; a table is never saved under a name without a directory; the file statistics raise IOError, not TypeError, for what is not text, except for the number of an open descriptor, which they close; a process that gives up through the fatal error helper reports success, after logging every line without its leading white space.", "quantifier": "every call stack, level, path, prefix, extension, file system and list of lines", "why_tests_cant": "the result depends on the whole call stack and file system of the process; a test has only its own", "anchors": ["utilities/files.py: fl_module_path, fl_module_name, fl_program_version, fl_config_file, fl_save_file, fl_get_stat, fl_log_fatal_error"]}
{"id": "C96", "title": "Logged calls (refuted for one parameter name)", "statement": "Wrapping a function in the call logger does not change what it does: for every signature and every call the wrapped function starts, it gets the same arguments, and returns or raises the same. Each call that starts leaves a line naming every parameter exactly once with the value that the function sees (keywords over defaults, extra positional and keyword arguments collected), and a line saying SUCCESS exactly when it returns. A call that Python would refuse is refused with TypeError before the function is run and nothing is logged. Under a documentation build the decorator is the identity. Consequently the interpolation of the pixel size grids, at any depth of recursion, gives what the undecorated functions give. Refuted: a function with a parameter or keyword called func cannot be called that way.", "quantifier": "every signature (positional, defaults, *args, **kwargs), every call, every wrapped function; every grid, depth and nested interpolation", "why_tests_cant": "the wrapper is applied to functions of any signature and must be transparent for every way of calling them; a test shows one signature and one call", "anchors": ["utilities/meta.py: create_arg_string, print_call", "utilities/blrb.py: bilinear, indices, subdivide, interpolate_block, interpolate_grid", "utilities/get_pixel_size_grid.py: get_pixel_size_grids"]}
{"id": "C97", "title": "The preparation program, from its command line to its files (refuted in one place)", "statement": "The preparation program starts exactly on a readable command line that names a configuration file; only the last file named counts, and asking it to be verbose changes nothing. Each setting comes from the named file, else from the default one, else from their DEFAULT sections; the elevation raster is dem_data when input_topo is True. A run either raises and changes no file, or writes the vector file and then the map and nothing else, except that without an elevation raster it raises AttributeError after the vector file. It succeeds whenever the settings and files are there, both fields are present and different and no polygon is degenerate. Then the vector file holds the land-use polygons, cut to the mask if one is set, with a category that spells out settlement class and use, and each pixel of the map the category of the last polygon that covers its centre, or 0. Refuted: a named configuration file that does not exist goes unnoticed and the default settings are used.", "quantifier": "every command line, configuration text, set of vector files and rasters, geometry library satisfying the tree and area laws", "why_tests_cant": "the outcome depends on the words of the command line, the text of two files and all the polygons; tests run the functions on one set of data", "anchors": ["pre_process.py: cmd_line, __main__, pre_process, rasterize", "utilities/config.py: set_config_file", "utilities/shapefiles.py: shp_file"]}
{"id": "C98", "title": "Options with values on the command lines of rasterize.py and the converter", "statement": "rasterize.py (options -i/--input, -a/--attribute, -t/--topography, -c/--crop) and the tile converter (-p/--path) accept exactly the lines made of options with a value each, in any of five forms: name (perhaps cut short) and value in the next word, name=value, letter and value in the next word, letter=value, letter with the value joined on. A value in a word of its own may not start with a dash, unless it is a lone dash, a negative number, or holds a space and does not begin like an option; '--' is never a value. Every accepted line means one thing; when an option is repeated the last value counts. rasterize.py stops at its command line with nothing read or written unless the line is accepted and names both a shapefile and a raster. Without a mask, or with an empty mask name, it writes test.tiff and nothing else; with a mask also the cut elevation raster and test_crop.tiff; a missing shapefile or raster makes it raise. The option -a has no effect: lines that differ only in it give the same run, always from the field CAT.", "quantifier": "all argument vectors (any number of words, any characters), all tables of options whose names begin with their distinct small letters, all collections of shapefiles and rasters, all cutting functions", "why_tests_cant": "The line may hold any number of words of any content, and abbreviation, joining and the rule for words that may be values interact; that -a never matters is a statement about all pairs of lines and all inputs.", "anchors": ["rasterize.py: cmdline, __main__", "utilities/mpi_runner.py: __main__"]}
{"id": "C99", "title": "Which programs start, given Python's search path, and whose functions they use", "statement": "Run from the directory of the repository with the third-party libraries installed, all_multipliers.py gets past its imports exactly when the rest of the search path offers top-level modules meta (with print_call), convert (with Converter and create_sub_dirs_for_convert) and parallel (with attempt_parallel); those in the repository's utilities directory do. Installed as the README describes, without that directory on the path, it stops with ModuleNotFoundError for meta before reading any setting. When it starts, the functions used under these names come from the first place on the path that has such a module, whatever it is, and never from the package utilities. Functions kept to the first process run there only, once the program has looked for MPI; before that they raise NameError, and the look for MPI of the converter's program does not count, since it writes to another copy of the module. pre_process.py and rasterize.py start whatever the rest of the path; the converter as a program starts exactly when the package utilities is found as well.", "quantifier": "all search paths (any number of directories in any order, each offering any set of foreign modules and names) on which the libraries are installed; all communicator sizes and ranks; MPI installed or not", "why_tests_cant": "Whether an import finds a module depends on every directory of the search path and everything in it; a test runs with one path, and the project's own tests run with a path the documentation does not mention.", "anchors": ["all_multipliers.py: imports, run", "utilities/blrb.py: imports", "utilities/mpi_runner.py: imports, __main__", "utilities/parallel.py: attempt_parallel, disable_on_workers", "pre_process.py: imports", "rasterize.py: imports", "README.rst: Usage"]}
{"id": "C100", "title": "The converter as several processes, to its virtual rasters (refuted when something fails)", "statement": "The converter with any number of processes in any order of their steps: when every tile named by a file of the shielding folder converts, the processes never block one another, take at most 2 steps for every process and file plus 4, and end with both folders, the rasters of every tile, and in each of M3 and M3_max a virtual raster over exactly that folder's rasters, each once; other rasters are untouched. A virtual raster is written only after every other process has ended, and when it is, all rasters it refers to have their final content. When some tile does not convert (a stray file is enough) no virtual raster is written in any order, an old one stays, and rank 0 either raises or waits for ever for the process that raised. Without a path, without permission to make the folders, or without the shielding folder, rank 0 raises before handing out work (TypeError, else OSError) and the others wait for ever. The warning that no raster was found is never given: an empty folder gives two empty virtual rasters.", "quantifier": "all numbers of processes, all orders of their steps, all listings of the folder, all contents of the disk, all earlier virtual rasters; GDAL's statistics and the building of virtual rasters may fail arbitrarily where stated", "why_tests_cant": "What is on disk when a virtual raster appears, and whether anybody waits for ever, depends on the order of the steps of any number of processes; tests run one process.", "anchors": ["utilities/mpi_runner.py: parallelise_convert_on_tiles, __main__", "utilities/convert.py: Converter.run, create_sub_dirs_for_convert", "utilities/parallel.py: DummyCommWorld"]}
{"id": "C101", "title": "Which tiles are calculated: a checksum as the test for data (refuted: some land is skipped)", "statement": "A tile of the elevation model is calculated exactly if its GDAL checksum is positive, and the files of a run, on any number of processes, are those of such tiles only. Give the pixels, row by row, the primes 7, 11, 13, 17, 19, 23, 29, 31, 37, 41, 43 over and over; take the heights in whole metres (the nearest one for floating-point heights, but at most 2^31 - 1 in size, and - 2^31 for a cell that is no number). A tile is skipped exactly if the remainders of the heights by their primes add up to a multiple of 65536. So the expectation that every tile with land is calculated is false: a tile of floating-point heights within half a metre of sea level is skipped, a plain of x < 7 metres is skipped exactly if x times its number of pixels is a multiple of 65536 (256 by 256 pixels at one metre), and a tile of at most 1560 pixels with no height below 0, or none above 0, is skipped exactly if each height is a multiple of its pixel's prime. Of two tiles that differ in one pixel, and there not by a multiple of its prime, at most one is skipped.", "quantifier": "all tiles, of any number of rows and columns, all heights and cells without a number, integer and floating-point types; all runs, numbers of processes and schedules", "why_tests_cant": "Which rasters a checksum maps to 0 is a question about all rasters; a test tries a few, and the ones that are skipped by mistake look like any other.", "anchors": ["all_multipliers.py: Multipliers.multipliers_calculate (lines 389-393)", "all_multipliers.py: Multipliers.clip_dataset (lines 343-346)"]}
{"id": "C102", "title": "Which rasters and tiles can be worked on at all (refuted: small tiles, rasters in metres, upside-down rasters)", "statement": "A tile whose window, with its buffer, has fewer than three rows or fewer than three columns stops with ValueError in the terrain and the shielding stage, whatever its land cover and pixel sizes, and only such a tile does (a NaN from the interpolation of the pixel sizes); with pixels of one size every other tile gets a width for every direction: 500 m and 200 m in cells, the nearest whole number along the axes and rounded down on the diagonals, and 100 m in cells, rounded down, for shielding. A buffer of two pixels on both axes makes every tile of a raster of at least three by three pixels large enough; with a narrower buffer the tiles of the last column can be too small in a raster of any size. An elevation raster in metres (pixels of at least one unit, buffer at most half a pixel) is cut into one tile for each pixel, in column order, each without its surroundings, and each of them stops with ValueError. A raster with a zero pixel size raises ZeroDivisionError. A raster whose rows go from south to north raises ZeroDivisionError if a tile would have no rows, ValueError if a tile's rows fit into it, and otherwise is cut into no tiles at all, so that the run ends without calculating anything and without an exception. A raster turned by 180 degrees gives tiles that all are its first pixel.", "quantifier": "all tiles, pixel sizes and land covers; all raster sizes and geotransforms of the stated sign; all configured buffers; every correctly rounding arithmetic", "why_tests_cant": "Whether some tile of a raster is too small depends on the sizes of the raster, the tile and the buffer together, and a test uses one raster whose tiles are all large.", "anchors": ["all_multipliers.py: TileGrid.__init__, TileGrid.tile_grid, TileGrid.get_gridlimit_buffer (lines 86-186)", "utilities/get_pixel_size_grid.py: get_pixel_size_grids", "utilities/blrb.py: interpolate_grid", "terrain/terrain_mult.py: terrain (lines 60-116)", "shielding/shield_mult.py: convo_combine (lines 282-305)"]}
{"id": "C103", "title": "Dates and sizes of files (refuted when clocks are set back, and for the order of fl_get_stat's dates)", "statement": "fl_mod_date, with its default format, gives the calendar date and time of day, in the zone's time, of the second in which the file was last changed, for the years 1000 to 9999: year in four, the other fields in two digits, by the Gregorian calendar. Two such dates compare as text exactly as the local times compare, so, under an unchanged offset, as the times of change to the second; but if the clocks were set back by more than the time between two changes the later change has the earlier date, and by exactly that time both have the same. fl_get_stat's date (time.ctime) has the right day of the week, month, day, time and year and tells local seconds apart, but does not order them: a file of any Friday comes before one of the Thursday before. fl_size gives the size of what the name or open descriptor refers to; both fl_size and fl_mod_date raise OSError exactly for a path or descriptor that does not exist, TypeError for something that is no path and ValueError for a path with a null character. Two logs started with a date stamp have the same file exactly if they start in the same local minute.", "quantifier": "all times of change (fractions of seconds included) in the years 1000 to 9999, all time zones (any offset at any time), all file systems, names and descriptors", "why_tests_cant": "A test looks at a few dates; leap years, ends of months, clock changes and order over all pairs of dates need an argument about the calendar.", "anchors": ["utilities/files.py: fl_mod_date (lines 306-330)", "utilities/files.py: fl_size (lines 333-357)", "utilities/files.py: fl_get_stat (line 166)", "utilities/files.py: fl_start_log (lines 239-244)"]}
{"id": "C104", "title": "From polygons to multipliers: preparation, multipliers and conversion in a row", "statement": "After a run of the preparation program that succeeds, the multiplier program, run on the elevation raster and the map the preparation wrote, works for every pixel of the elevation raster with the class the polygons over the centre of the pixel give it: 0 where there is none, else the code of the last one in the file (cut to the mask), spelling out its land use and the settlement class that overlaps it most. Bringing the map onto the tiles loses and shifts nothing. For a documented land use with code j and settlement class with code i (0 for none) the class is 100 i + j, and the terrain and shielding multipliers start from the last row of that class in their tables (0 and 1 without one). Under the conditions of C89, for every schedule of the processes, the converter then leaves for every tile with data a file of eight bands that hold the products of the terrain and shielding multipliers of this land cover on the whole raster and the topographic multiplier of the tile.", "quantifier": "all polygon layers, masks, geometries and overlaps, all elevation rasters with north up, configuration files and command lines of the preparation, all tables, tile grids, numbers and schedules of processes, all pixels, directions and tiles", "why_tests_cant": "The two programs are run one after the other on files of gigabytes, and no test runs both; that each pixel ends up with the class of its own polygon is a statement about all pixels, polygons, tiles and schedules.", "anchors": ["pre_process.py: __main__, pre_process, rasterize", "utilities/shapefiles.py", "all_multipliers.py: multipliers_calculate, parallelise_on_tiles, TileGrid, reproject_dataset", "terrain/terrain_mult.py: terrain, terrain_class2mz_orig", "shielding/shield_mult.py: shield, terrain_class2ms_orig", "topographic/topo_mult.py: topomult", "utilities/convert.py: run"]}
{"id": "C105", "title": "Arrays saved as text are loaded again", "statement": "A finite double written with the default format, or with any number of at least 16 digits after the point, is read back exactly, and so different doubles have different texts; with 15 digits this fails (0.3 and 0.1 + 0.2 have the same text). With any number of digits the number read differs from the one written by at most one unit in its last digit. An array saved by fl_save_file and loaded by fl_load_file comes back with all its cells, NaN included, in order, for every header without carriage returns and every delimiter that is no part of a number, whether or not the lines of the header are skipped. Its shape comes back except that dimensions of length 1 are dropped, so a vector, a matrix with one row and one with one column cannot be told apart; an array without cells comes back as an empty vector. Skipping more lines than the header has drops as many rows. A file of numbers that something else wrote (signs, points and exponents in the usual ways, blanks around a line, comments after %, empty lines, newlines with or without a carriage return, the last line ended or not) is read as the array of its rows, each number as the double nearest to it; rows of different lengths raise ValueError and a missing file OSError. What follows a carriage return in a header is loaded as a row of the array or makes the file one that cannot be loaded.", "quantifier": "all finite doubles and NaN, all vectors and matrices of them, all headers, delimiters, numbers of digits and of skipped lines, all file systems", "why_tests_cant": "Exact reading needs the gap between any two doubles of 64 bits to exceed the error of the decimal text, over all exponents; tests try a few numbers. The texts are of any length.", "anchors": ["utilities/files.py: fl_save_file, fl_load_file"]}
{"id": "C106", "title": "Creating a netCDF variable with its values (refuted for arrays)", "statement": "nc_create_var stores values given as a non-empty list, all of them, with the attributes; without values the variable holds the fill value. But values given as an array, which is what the documentation asks for, are stored only if there is exactly one and it is not 0: with more than one the function raises ValueError, after it has created the variable with the fill value and without attributes, and a single 0 is silently left out. A name in use raises RuntimeError and an unknown dimension KeyError, and the data set is unchanged. The values of dimensions, which nc_create_dim writes itself, are always stored.", "quantifier": "all data sets, names, dimensions, types, fill values, lists, arrays of any shape and attributes", "why_tests_cant": "Whether values are written depends on their number and on one of them being 0; the program itself never passes values, so no run shows it.", "anchors": ["utilities/nctools.py: nc_create_var, nc_create_dim"]}
{"id": "C107", "title": "Dates of files in any format", "statement": "fl_mod_date with a format returns the format with each directive replaced by what it shows of the local time of the last change: the fields in digits of fixed width, the day of the year counted from the first of January, the names of months and days, and the twelve-hour clock. A single percent sign at the end stays. The default format is one of these formats. Texts sort as times do for every format that has year, month, day, hour, minute and second in this order, whatever words stand between them, and are equal only for equal seconds. With the day first they do not sort so: a smaller day of the month comes first whatever follows. A format that has neither the hour of the day nor the half of the day gives times twelve hours apart the same text. A missing file raises what fl_size raises, and a null character in the format of an existing file raises ValueError.", "quantifier": "all files, times with years of four digits, local time zones, and formats made of words and listed directives", "why_tests_cant": "Whether a date format can be compared as text depends on every pair of times and on the order of fields; a test sees a few dates.", "anchors": ["utilities/files.py: fl_mod_date"]}
{"id": "C108", "title": "A run needs the version of its source (refuted where git cannot tell it)", "statement": "The results of a run should not depend on whether git can describe the source. Where it can, a single-process run does what C61 says. Where it cannot (no repository, no tag, no git), a run completes exactly if no tile has data. Otherwise it stops with git's exception at its first tile with data, in the folder of the source instead of its own working directory, leaves the two temporary rasters of that tile, and has written no multiplier file of any tile: the output folder, whose earlier content is deleted, is otherwise as freshly prepared. This holds for absolute and relative output folders.", "quantifier": "all file systems, working directories, output folders, source folders, exceptions and lists of tiles with and without data", "why_tests_cant": "The tests run inside a checkout with tags; an installed copy has none, and the failure comes after the earlier results are deleted.", "anchors": ["utilities/nctools.py: save_multiplier", "all_multipliers.py: Multipliers.multipliers_calculate, run"]}
