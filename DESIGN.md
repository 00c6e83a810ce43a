# Formal model of Wind_multipliers in Rocq (Coq 8.16.1)

## Layout

`rocq/theories/`

| kind | files | content |
|------|-------|---------|
| base | `Base.v`, `Rounding.v`, `BaseLemmas.v` | Python/numpy vocabulary, float rounding interface and its binary53 instance |
| models | `*Model.v` | Gallina functions mirroring the Python functions branch by branch, each with a `/repo` citation; no proofs |
| specs | `*Spec.v` | small independent definitions the property statements use |
| proofs | `*Proofs.v` | lemmas |
| properties | `*Props.v` | nothing but `Theorem … exact lemma`, `Print Assumptions`, and `Example`s showing that hypotheses are met |

## Conventions

* Python exceptions are values (`res A := Ok a | Err e`).
* Finite floats are rationals `Q`. Where integers are derived from floats
  (tile steps, clip offsets, tile names) every float operation is followed by an
  arbitrary rounding function `fl` with `fl_ok fl` (monotone, relative error at
  most 2^-53, exact on integers up to 2^53, symmetric); theorems quantify over
  all such `fl`. `FloatModel` (C87) repeats the terrain and shielding functions
  with every operation rounded, `TopoRndModel` (C94) the topographic stage.
  Elsewhere arithmetic is exact.
* NaN is a separate constructor where the code handles it. Infinities are not
  modelled; operations that would produce one return `Err NonFinite`.
* Numpy index wrapping (negative indices) and IndexError are modelled.
* External libraries (GDAL, netCDF4, MPI, shapely, the file system) are small
  state machines or universally quantified functions.
* A property that the code violates gets a `…_refuted` theorem with a witness
  and a theorem giving the exact condition under which it does hold.

## Plan per property

Every row below is carried out; the theorem names are in `MANIFEST.json`, and
each theorem `Cnn_…` stands in the `*Props.v` file named here.

| id | model | spec and theorems | how it is proved |
|----|-------|-------------------|------------------|
| C01–C04 | `TileModel`: `TileGrid.__init__`, `tile_grid`, `get_gridlimit(_buffer)`, `get_tiles` | `TileSpec`, `TileProps`, `TilingProps` | arithmetic per axis; enumeration by `nth_error` of `flat_map`; overlap condition as an iff, witness by computation |
| C05, C06 | `ClipModel`: extents, `clip_array`, `get_lat_lon` | `TileSpec`, `TileProps` | error analysis for any `fl_ok` rounding: the quotient is within 1/2 of the integer offset |
| C07–C09 | `NameModel`: `get_tilename`, file names, direction parsing | `NameSpec`, `NameProps` | string lemmas; decimal printing quantified over |
| C10–C13 | `SchedModel`: master and workers as a transition system with message bags | `SchedSpec`, `SchedProps` | inductive invariant, variant function, progress lemma, stuck invariant for a failing tile |
| C12, C60, C63 | `PipeModel`: file-system actions of one tile | `PipeSpec`, `PipeProps` | refinement of the parallel run to the serial run; crash points as prefixes of the action list |
| C14 | `PhaseModel`: ranks as programs over barriers | `PhaseSpec`, `PhaseProps` | invariant over interleavings |
| C15, C53 | `DistModel`: stride slices, scatter/gather/reduce, dummy communicator | `DistProps` | permutation lemmas |
| C16–C19 | `ConvModel`: `process_tile`, `process_max_tile` over file maps and masked arrays | `ConvSpec`, `ConvRunSpec`, `ConvProps` | pointwise evaluation; witnesses |
| C20–C26 | `TerrModel`: `value_lookup`, `convo`, `terrain`, class table | `TerrSpec`, `TerrProps`, `TilingProps` | neighbour lists in closed form, mean bounds, locality |
| C27 | `MzModel` over the reals | `TerrProps` | monotonicity of `ln` |
| C28–C34, C65 | `ShldModel`: kernels, convolution, `combine`, direction loop | `ShldSpec`, `ShldProps`, `TilingProps` | kernel cells in closed form for all sizes; sums; piecewise inequalities |
| C35–C45 | `TopoModel`: `findpeaks`, `make_path`, `mh`, `multiplier_calc`, `topo_mult` | `TopoSpec`, `TopoProps` | induction over profiles, alternation invariant, range invariants, piecewise polynomials |
| C46, C47 | `NcModel` | `NcSpec`, `NcProps` | induction over variables |
| C48–C50 | `BlrbModel` | `BlrbSpec`, `BlrbProps` | convex combinations, recursion |
| C51, C54, C55 | `UtilModel`: configuration, timer, checksum | `UtilSpec`, `UtilProps` | induction over file contents and chunks |
| C52 | `SingModel`: threads stepping through the singleton metaclass; `SingReModel`: the same with stacks of calls, for constructors that call the class | `SingProps`, `SingReProps` | invariant over interleavings; the model with stacks refines the one without as long as calls return |
| C56–C58, C66, C67 | `PreModel`: land-cover preparation | `PreSpec`, `PreProps` | list induction; geometry operations quantified over |
| C59, C61 | `RunModel`: file-system state machine with a working directory | `RunSpec`, `RunProps` | case analysis |
| C62 | `VincModel` over the reals | `VincSpec`, `VincProps` | series bounds by interval arithmetic on polynomials (`RPoly`), contraction of the loop, integration |
| C64 | `WholeSpec` composes Tile, Pipe and Conv models | `WholeProps` | composition of the stage theorems |
| C68 | slope and aspect of `ShldModel` over `Q`, read over the reals | `SlopeSpec`, `SlopeProps` | `atan2` characterised in `Atan2` |
| C69 | `PixModel`: `get_pixel_size` calling the model of `vinc_dist` | `PixSpec`, `PixProps` | bounds on the length of a parallel and of a meridian arc |
| C70 | `vinc_pt` of `VincModel`, over the reals | `DirSpec`, `DirProofs`, `DirProps` | contraction of the loop; great-circle algebra; the series bounds of C62 |
| C71 | `GcModel`: the class `GreatCircle` | `GcSpec`, `GcProps` | spherical interpolation is a walk along the great circle; induction on the points of the ellipsoidal line |
| C72 | `SaveModel`: the attributes and failures of `save_multiplier` | `SaveSpec`, `SaveProps` | case analysis of the dictionary updates; induction on the options; witnesses for the three failures |
| C73 | `LogModel`: `fl_start_log` and the handlers of the root logger | `LogProps` | induction on the calls; string lemmas for the names |
| C74 | `LogModel`: lines 723-752 of `run` as a transition system | `LogProps` | invariant of all interleavings; injectivity of decimal numerals |
| C75 | `FailModel`: the protocol of `SchedModel` with a master that may raise | `FailProps` | simulation by `SchedModel`; its invariant; the measure of C11 |
| C76 | `ReprModel`: `reproject_dataset`, `clip_dataset` | `ReprSpec`, `ReprProps` | floor and pixel containment; rounding to 24 bits; coordinate error of C05 |
| C77 | `ConvModel`: `process_tile` with inputs of any size | `SizeProps` | one direction at a time; broadcasting of three shapes |
| C78 | `RastModel`: `rasterize`, `script`; `PreModel`, `ReprModel` | `RastSpec`, `RastProps` | last covering feature of a fold; C67 and C76 composed |
| C79 | `ProgModel`: the protocol of `SchedModel` with the list of reports; the single process | `ProgProps` | invariant of the master's counters; tiles held by workers bounded by the workers still expected to answer |
| C80 | `TopoModel`, `TileModel`, `ClipModel` | `TcutSpec`, `TcutProps` | a rising piece of the part extends to one maximal rise of the line; hills kept contribute the same, others 1; window lines are parts of raster lines; on an even slope the value grows strictly with the length kept |
| C81 | `CsvModel`, `TerrModel`, `ShldModel` | `CsvSpec`, `CsvProps` | the tokenizer run over any written file gives back its rows, by induction on fields and lines; columns by name; last row wins |
| C82 | `StartModel`, `RunModel` | `StartSpec`, `RunSpec`, `StartProps` | case analysis along the start of run(); what makedirs and open add, by induction on the path; C59 for the output folder |
| C83 | `TerrModel`, `TopoModel`, `ShldModel` | `TurnSpec`, `TurnProps` | the upwind walk commutes with the turn, hence fetches, wind lines, shielding cells (a permutation) and Sobel gradients do; C45, C31 give the values in those terms |
| C84 | the scanner of RawConfigParser._read line by line (IniModel) against a grammar of documents (IniSpec): soundness by induction over the document, completeness by induction over the lines with an invariant relating the scanner state to the document so far |
| C85 | relational proof over TopoModel: lines whose whole metres differ by a common shift give equal slopes, peaks, valleys and factors (list induction), lifted through paths, directions and smoothing; fills with k = 0 |
| C86 | the word classification and main loop of argparse for this parser (CmdModel) against a grammar of words (CmdSpec): case analysis on the shape of a word, induction on letters in a word and on the line; then composition with the configuration theorems |
| C87 | the terrain and shielding functions again with every operation rounded (FloatModel), rounding given by its laws (FloatSpec) and by round-to-nearest-even; table values are multiples of 2^-25 so sums up to 500 terms are exact in double precision; error analysis of blur and slope correction by exact rational bounds |
| C88 | from the terrain and shielding models; equality of widths is sufficient by C25's window argument and necessary by a raster with one exceptional pixel at a distance only one of the two fetches contains; the numbers of pixels are antitone in the size |
| C89 | stage functions on raster files (StageModel.v) instantiate the abstract stages of C10 and C64; the tile's arrays are shown to be windows of the raster's arrays, then the window theorems of the single stages apply, then the end-to-end theorem |
| C90 | means of pairwise shifted lists are shifted (induction over the fetch or the shielding cells); the slope correction is a contraction and the removal of conservatism is monotone with slope at most 2 on [0, 1] |
| C91 | case distinction on the cell type; the type of a tile follows from the model of cutting (C76), success from C45 |
| C92 | every state of an interrupted run agrees with its start outside the folder (frame of the schedule invariant of C12), preparation then makes the two starts equal, and both phases are determined by their start (C12, C15) |
| C93 | relative errors as powers of one factor 1 + 2^-52, closed under product, quotient, sum and maximum; clamps and ramps are Lipschitz, so only the four comparisons that switch formulas need a margin; the index because lowering a whole number by at most half a unit in the last place of a coarser binade is a tie that goes back to the even neighbour |
| C94 | each correction is Lipschitz and its rounded version is within a few units of it, also where 1.4 is rounded across the switch of formulas; the mean keeps a bound; values within 2^-26 of 1 are cast to 1 because the cast is monotone |
| C95 | stacks as lists of frames; the length computed by the two helpers picks the last frame; paths through the string lemmas of C63 and C88; extension unique by its specification |
| C96 | argument binding as total functions; the log is a writer; transparency by unfolding, the interpolation by induction on the depth; the specification receives relates call and bindings without the binding algorithm |
| C97 | composition of the models of C86 (command line), C84/C51 (configuration), C67 (preparation) and C78 (raster); settings as an iff with the specification set_to, which needs its decidability |
| C98 | argparse for any table of one-value options as a function on words; the accepted lines are an inductive relation with five forms; equivalence by induction on the line, outcomes of rasterize.py through C78 |
| C99 | search path as a list of places, imports as an interpreter over a table of the import statements of every file, with partially filled modules; the path is reduced to three answers and the finitely many combinations are computed, lifted to all paths by an agreement lemma |
| C100 | a transition system with one small program per process; an inductive invariant relates each process to its part of the tiles, the disk to the operations done, and bounds the steps by a weight |
| C101 | the fold over the pixels equals the sum of remainders modulo 65536, by induction over rows and columns; the run by C64_converted_tiles |
| C102 | TinyModel: the mean of the interpolated pixel sizes (BlrbModel) and the widths calculated from it, for the terrain and the shielding stage. TinyProofs: interpolation of a grid with fewer than three rows or columns has a NaN (BlrbProofs), of a constant grid none; the sizes of the buffered windows from the tile arithmetic; mk_tilegrid for pixels of one unit and more, and for the other signs of the geotransform. |
| C103 | DateModel: the calendar as a succession of days, localtime with any offset function, the two formats and ctime, os.stat. DateSpec: the calendar by counting days (before_year, before_month). DateProofs: both agree by induction on days; dates are ordered as their fields; text of fixed width compares as numbers. |
| C104 | the map of C97 is shown to be a land cover in the sense of C89 (points within 1/2048 pixel of a centre lie in the same pixel of the map, 0 is its no-data value, codes are exact); codes by decoding, then C26 and C89_run |
| C105 | decimal text by correctly rounded scaling, reading by rounding to the nearest double; the decimal error is below a quarter of the gap between doubles; lines and fields by induction on the text; files of other origin by a grammar of numbers and lines (`TxtReadSpec`) |
| C106 | case analysis on the truth value of the data; state of the data set after each step as in C46 |
| C107 | induction on the items of the format; fixed-width digits compare as numbers; calendar lemmas of C103 for the day of the year |
| C108 | induction on the tiles with the state between tiles of C61; the run with a version by erasing the question |

## Trusted base

* The kernel of Coq 8.16.1, run with the flags in `rocq/_CoqProject`. No kernel
  check is switched off, and there are no plugins, functors, module types,
  `Declare Module`, axioms, `Admitted` or open obligations.
* Libraries: the Coq standard library only. The installed third-party libraries
  are not imported.
* The reading of the Python text by the `*Model.v` files. Every definition cites
  the lines it models and states its simplifications.
* The `*Spec.v` files, which say in a few definitions what the words of each
  property mean.

### What `Print Assumptions` lists

Every `*Props.v` file ends with `Print Assumptions` for each of its theorems.

* 487 theorems: `Closed under the global context`.
* 31 theorems about real-valued functions (the six `C27_…` theorems, `C68_slope`, `C68_faces_downhill`, the ten `C62_…` theorems,
  `C69_pixel_size`, `C69_tiny`, the five `C70_…` and the six `C71_…` theorems) use exactly these axioms of the standard
  library's classical reals:
  `ClassicalDedekindReals.sig_forall_dec`,
  `ClassicalDedekindReals.sig_not_dec`,
  `Classical_Prop.classic`,
  `FunctionalExtensionality.functional_extensionality_dep`.

### What is modelled

| file in `/repo` | modelled | not modelled |
|-----------------|----------|--------------|
| `all_multipliers.py` | `TileGrid` and tile lists, clipping, `reproject_dataset`, `multipliers_calculate` (with GDAL's checksum algorithm, from its published source), `parallelise_on_tiles`, `timer`, `run` (command line, phases, directories, working directory, log files) | `gdal.ReprojectImage` other than exact nearest-neighbour resampling; `open_dem` other than its failure; digits outside ASCII on the command line |
| `terrain/terrain_mult.py` | `terrain`, `get_terrain_table`, `terrain_class2mz_orig`, `convo` | the library's number syntax (any function) and carriage returns without a newline in the table; writing GeoTIFF bytes |
| `shielding/shield_mult.py` | reclassification, kernels, blur, slope, aspect, `combine`, the direction loop, file effects | as for the terrain table |
| `topographic/*.py` | all five modules | logging |
| `utilities/value_lookup.py` | all | — |
| `utilities/nctools.py` | `get_lat_lon`, `clip_array`, `nc_create_var`, `nc_create_dim`, `nc_save_grid` and its checks, `save_multiplier` with its file names, attributes and change of directory | compression and the format of the file on disk; the `_FillValue` attribute; failures to open the file |
| `utilities/convert.py` | all | GeoTIFF encoding |
| `utilities/mpi_runner.py`, `utilities/parallel.py` | distribution, dummy communicator, `attempt_parallel`, root-only decorator, imports | MPI itself (a message bag) |
| `utilities/blrb.py`, `utilities/get_pixel_size_grid.py` | all | coordinate transformation (a parameter) |
| `utilities/vincenty.py` | `vinc_dist`, `vinc_pt`, `GreatCircle` | — |
| `utilities/config.py`, `utilities/meta.py` | all, including the library's reading of the text of a configuration file | letters outside ASCII; logged functions with keyword-only parameters |
| `utilities/files.py` | chunked checksum, `fl_start_log`, module, version and configuration names, `fl_save_file`, `fl_load_file`, `fl_get_stat`, `fl_log_fatal_error`, `fl_mod_date`, `fl_size` | `strftime` flags, widths and directives not listed in C107; number formats other than `%.Ne` and infinities in text files |
| `utilities/shapefiles.py`, `pre_process.py` | dissolve, join, crop, code, the driver, `rasterize`, the program from its command line, `rasterize.py` from its command line | shapely geometry, GDAL's point-in-polygon test and cutting to a mask (parameters) |
| `conf.py`, tests | | not part of the program |

### What the theorems do not say

* Finite floats are rationals. Rounding is modelled (for every rounding function
  with the stated properties, and for `rnd53` in particular) where it decides an
  integer, a comparison or a name. C87 bounds the rounding of terrain and
  shielding multipliers and of their product, C93 and C94 that of topographic
  multipliers. Elsewhere results hold for exact arithmetic.
  Statements over the reals hold for exact arithmetic.
* Infinities and float overflow are not modelled.
* Operating-system failures outside the modelled ones (full disk, lost network)
  are not modelled, except crash points of C60.

## Seeded bugs

`seeded/LOG.jsonl` has one line per edit of a model that a realistic bug would
make, with the theorems that failed and those that had to be tightened.
