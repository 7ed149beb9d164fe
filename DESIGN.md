# Design of the formal model of Triumvirate

The code under study is the tree in `/repo` (paths below are relative to
`/repo/src/triumvirate` unless they start with `/`).  The model is written in
Coq 8.16.1 under `rocq/theories`.

## Method

* Every modelled function is a total Gallina function that mirrors the source
  branch by branch.  Exceptions are values (`inl error` / `inr result` or
  `option`).  Loops are structural recursion or folds.
* Index arithmetic uses `Z` or `nat`.  Real-valued code uses Coq's `R`.
  Floating-point rounding is **not** modelled unless a model says so: theorems over `R` speak about
  the exact-arithmetic reading of the code.  Division by zero in the code
  (NaN/inf in IEEE arithmetic) is modelled explicitly as an error value or the
  theorem carries the hypothesis that the divisor is not zero.
* Files come in groups: `XModel.v` (definitions that mirror the code, each with a
  citation), `XProofs.v` (lemmas), `XProps.v` (the theorems of the
  claims, a concrete case beside each, and `Print Assumptions`).  Specifications that
  the statements need are small definitions at the head of `XProps.v` or in
  `XSpec.v`, and do not use the model's helpers.
* Where the faithful model breaks the wished-for property the file contains a
  theorem ending in `_refuted` with the witness, and a theorem that states
  what does hold.  These are findings about the code.
* A theorem ending in `_partial` proves a part of the property; the comment
  beside it says what is missing.

## Trusted base

* Coq's kernel (checked again by `coqchk`).
* The axioms printed by `Print Assumptions`.  `ASSUMPTIONS.md` lists, for every theorem
  named in `MANIFEST.json`, the axioms it rests on; the same commands stand at the end
  of each `XProps.v`.  They are all from the standard library: those of `Coq.Reals`
  (`ClassicalDedekindReals.sig_forall_dec`, `sig_not_dec`),
  `FunctionalExtensionality.functional_extensionality_dep`, and
  `Classical_Prop.classic` where Coquelicot or Flocq lemmas use it.  No axiom of
  another library and none of ours.
* The reading of the source into Gallina.  This is by hand; each definition cites
  the lines it mirrors.

## Plan per property

| Id | Model | Proof plan |
|----|-------|------------|
| C01 | `allocate_tasks` loop with fuel-free recursion on processes left | induction on processes, floor/ceil invariant |
| C02 | `distribute_tasks`, gather of per-rank results | cumulative sums, list concatenation; the documented "proc_total ignored" is refuted |
| C03 | `restore_warnings` | induction on the list |
| C04 | Python 1-d extrapolators | list reasoning over R |
| C05 | C++ 1-d extrapolators | equality with the Python model |
| C06 | Python 2-d extrapolators | matrix as list of rows; transposition; swap in `extrap2d_pad` refuted |
| C07 | array checkers | refutation plus exact characterisation of what is accepted |
| C08 | `extrap_loglin_oscil` | sign of fitted exponent; monotone exponentials |
| C09 | `reshape_threept_datatab`, triu flat index | bijection of index set |
| C10, C11 | `compute_binning` | real arithmetic, induction on bins |
| C12 | grid-based `set_bins` | refuted with exact width; proved width formula |
| C13 | Python/C++ binning state | state machine; refuted and partial |
| C14, C15 | index maps | Z arithmetic |
| C16, C17 | window weights and assignment | real algebra, sums over cells modulo n |
| C18 | interleavings of atomic adds | permutation invariance of sums |
| C19 | interlaced variant | NGP, CIC, PCS proved; TSC refuted |
| C20 | alias functions | polynomial integrals (Coquelicot) |
| C21 | window function and cache | sin bounds; state machine |
| C22 | `record_binned_vectors` | filter over index box; bound argument |
| C23 | fine-sampled binning | exact statement of what is counted; refutation near edges |
| C24 | three-point data vector maps | Z arithmetic; out-of-range write refuted |
| C25 | order triplet skipping | sum over symmetric index set |
| C26, C27 | normalisation, shot noise | list sums over R |
| C28 | ngrid from cutoff | Flocq ceilings |
| C29 | validation | decision function and independent predicate |
| C30, C31 | Python parameter updates | finite maps, histories |
| C32, C33, C34, C35 | catalogues | lists of positions over R, histories |
| C36 | counters | histories |
| C37, C38, C39 | FFTLog | Z sizes, real exponentials, DFT over Coquelicot's C |
| C40 | caller's array as a store | store semantics; refuted for in-place cases |
| C41 | prefactors | powers of i |
| C42, C43 | Multipole | list order; strings |
| C44 | wilson+16 | Legendre polynomials, integrals of polynomials |
| C45, C46 | winconv control flow | exceptions as values |
| C47 | file names | strings |
| C48–C52 | monitor utilities | strings, Z, histories |
| C53 | assignment as a kernel sum, window as its transform | Fourier integral of the spline by induction on the order |
| C54 | reduced spherical harmonics | algebra over C; the Legendre function enters by its symmetries, which the explicit formula has |
| C55 | components of the three-point statistics | reindexing of sums over modes |
| C56, C57 | C++/Python parameter sets | decision functions, finite maps, histories |
| C58–C60 | FFTLog round trips and double transforms | DFT inversion, matrices |
| C61–C66 | window convolution classes | exceptions as values; sums over formula terms; Wigner symbols by the Racah sum |
| C67–C72 | mesh fields, two-point functions in configuration space | triple sums over the mesh (`Dft3.v`), pair counting |
| C73–C76 | power spectra, interlacing | transform of one object, sums over objects |
| C77, C78 | bispectra | inverse transforms as convolution, sums over pairs of modes |
| C79–C81, C87 | three-point shot noise | pair sums, loops over orders as weighted sums |
| C82–C84 | three-point correlation functions | Bessel-weighted mode sums |
| C85, C86 | placement on the mesh | phases of shifted objects |
| C88 | interlaced aliasing | two-scale relation of splines, polynomial integrals |
| C89, C90, C92 | parameter files | words of a line, last line giving a name; texts of any length |
| C91 | used-parameter files | decimal printing and reading as inverse up to rounding |
| C93 | environment overrides | fixpoint of validation, one block changed |
| C94–C96 | catalogue files | numerals and words of a line, lines of a text; texts of any length |
| C97–C103 | the command-line program | stages composed, early ends as values, the theorems on each stage reused |
| C104–C109 | measurements from Python, given arguments, repetition | the calls of both programs as values, compared stage by stage; placements as shifts and whole-box moves |
| C110 | saved tables | printed numbers as numerals within half a unit; texts of any length as lines and rows |
| C111 | headers of saved files | every line found in the text and its numbers read; statements tied to the call made; a window with "pad" as refutation |
| C112 | saving from Python | a measurement followed by saving, by cases on `save`; missing entries and wide-angle orders as refutations |
| C113–C116 | convolution in Fourier space | forward and backward transforms as inverse for any directions; the caller's arrays as values before and after; odd degrees, unequal pivots, second calls and vanishing samples as refutations |
| C117 | output wavenumbers of convolutions | points reflected twice come back; pivots within half a spacing, hence ranges overlap; given points as refutation |
| C118 | coefficients of convolution terms | 9-j symbols with a row of zeros collapse to one product of Racah coefficients, each one summand; selection rules from 3-j symbols; division by a vanishing symbol as refutation |
| C119 | the named three-point formulae | every triangle coefficient occurs twice or is divided out, so coefficients equal an expression in exact fractions that Coq evaluates; missing coupling as refutation |
| C120 | the window convolution matrix | every step of `convolve`, with extrapolation 0 to 3, is linear and accepts by shape alone, so three runs side by side (`res3`) fail alike or stay combined; unit models then give the product; zero rows as refutation of log-linear extrapolation |
| C121 | recording vectors from Python | the template with box and grid is run through the parser for all numbers; a parse keeps the box and grid its entries show; composed with C22; the cases of one bin and of the caller's set as refutations |
| C122 | the Python logger | `str.format` and `%` as functions on text; escaping undone by formatting by induction on the message; the length of a successful format shows a braced file name never comes out; stages, tags and handlers by cases |
| C123 | output directories | a file system as a function from paths; `create_directories` as a walk that creates what is missing; invariants of the walk by induction on the names; composed with validation and the save path (C103) |
| C124 | HDF5 catalogues | files as the HighFive library shows them (objects, datasets, attributes, tables); the loader file by file; tables and faults as relations independent of the loader, shown exclusive and exhaustive; the particles through the same relation as text files (C94) |
| C125 | resampling as public functions | every operation of `linspace` rounded to binary64 with unbounded exponent (Flocq), `log10` and `power` arbitrary; relative error bounds for linear spacing; a pigeonhole count of floating-point logarithms as refutation for logarithmic spacing |
| C126 | bins computed in floating point | every operation of `compute_binning` rounded to binary64 with unbounded exponent and no fused operations (Flocq), `std::log` and `std::exp` arbitrary; relative error bounds keep the last edge below the limit; edges in order cover the range once, by induction; counterexamples one unit of rounding wide |
| C127 | catalogues read in Python | tables as named columns, any readers; `Table.rename_column` and nbodykit item access as those libraries document them; what a mapping asks for is a relation independent of the loop, shown to be what the loop leaves by induction on the mapping; composed with the constructor of C34 |
| C128 | measured windows loaded from text | from the characters of the saved table (C110) through the layout of pairs of bins (C24), the derived shape (parameters.cpp 843-848), sorted keys, columns, reshaping (C09) and construction (C46); a measurement is given by functions of pairs of bins, independent of any layout; `np.loadtxt` as numpy documents it for such tables |
| C129 | formulae as LaTeX | rational coefficients, any degrees, any symbol; how a formula is written is a relation between words and terms, independent of the printing; printing satisfies it, and it is shown to be unambiguous by cutting words off |
| C130 | environment switches | any number of devices, any environment; numerals are built from a table of ten digits; the digits test is shown to accept exactly these, the loop over indices by induction on their number |
| C131 | windows saved and loaded | files as a map from paths to archives; any window, any path; `np.savez` and `np.load` as numpy documents them (objects pickled, numbers exact); by cases on the extension |
| C132 | mesh locations in floating point | `ngrid * pos / boxsize` and `fmod(pos, boxsize) + boxsize` rounded to binary64 with unbounded exponent (Flocq), for any numbers; half-ulp bounds against the next number below the box size; cells and windows as in MeshModel at the rounded location |
| C133 | Lanczos gamma function | complex exponential, sine, power and logarithm by their real parts (Coquelicot), division by zero an error, recursion with fuel; zeros of the series excluded by a verified Routh-Hurwitz check on its numerator (GammaProofs) |
| C134 | mixed-mesh normalisation (`mixed_sum`, `mixed_norm`) | the state and alignment of C26; two reached states with the same positions and rescaled weights |

## What is modelled

Line ranges are given beside each definition; the head of each model file lists its
simplifications.

| Source | Model files | Covered |
|--------|-------------|---------|
| `src/arrayops.cpp`, `_arrayops.py` | ArrayModel, Array2dModel, OscilModel, ReshapeModel | all extrapolators, checkers, reshaping |
| `_mpitools.py` | MpiModel | all but the transport |
| `src/dataobjs.cpp`, `dataobjs.pyx` | BinningModel, BinRoundModel, BinVecModel | binning schemes, binned vectors |
| `src/field.cpp` | MeshModel, MeshRoundModel, FieldModel, BinVecModel, BispecModel, SphHarmModel, CounterModel | assignment (four schemes, interlacing, parallel execution), index maps, windows and their cache, aliasing, field construction, transforms by their defining sums, band-limited and Bessel-weighted inverse transforms, two-point statistics, uncoupled three-point shot noise |
| `src/twopt.cpp` | NormModel, FieldModel | normalisations, shot noise, power spectra and correlation functions of surveys, boxes and windows |
| `src/threept.cpp` | ThreePtModel, BispecModel, NormModel | couplings, data vectors, order loops, bispectra, 3PCFs, windows, wide-angle corrections, boxes |
| `src/maths.cpp` | SphHarmModel, MeshModel, FftlogModel, GammaModel | harmonics, index maps, gamma-function ratios, Lanczos gamma function |
| `src/fftlog.cpp`, `_fftlog.pyx`, `transforms.py` | FftlogModel, TransformModel, WindowModel, ResampleModel | transforms, extrapolation, double transforms, resampling |
| `src/particles.cpp`, `catalogue.py` | CatModel, LoadModel, H5Model, PyCatModel, PyReadModel, MeshRoundModel | text and HDF5 catalogue files, storage, extents, shifts, box alignment, periodic wrapping, lines of sight |
| `src/parameters.cpp`, `parameters.pyx` | ParamModel, ParamFileModel, PyParamModel, PyAmalgModel | parameter files read and printed, environment overrides, validation, copies, Python dictionaries and their C++ counterpart, overrides by measurement arguments |
| `src/monitor.cpp`, `src/io.cpp`, `logger.py` | MonitorModel, StrModel, CounterModel, PyLogModel, DirModel, EnvModel | logging, progress bars, durations, counters, strings, environment expansion, GPU and colour switches |
| `main/triumvirate.cpp` | MainModel | arguments, the order of all stages, bins, catalogues, box, normalisation, which function is called with what, file names, headers (SaveModel) and tables |
| `winconv.py` | MultipoleModel, WinFormulaModel, WinConvModel, CoeffModel, FourierConvModel, WinMatModel, WinMatConvModel, WindowModel, WinTextModel, NpzModel, LatexModel | multipoles, formulae, convolution in configuration and Fourier space, integral constraint, window matrix, window samples |
| `twopt.py`, `threept.py`, `_twopt.pyx`, `_threept.pyx` | PyAmalgModel, PyRunModel, FileNameModel, SaveModel | parameter handling, the ten measurement functions up to the call of the C++ function, file names, headers and tables (finite results; opening files succeeds; archives by their header only) |
| `fieldmesh.py`, `_field.pyx` | FieldMeshModel | recording binned vectors |

## Not modelled

* Floating-point rounding and overflow, except where a model says so (binary32 progress
  nodes, binary64 wrapping, resampling points, bin edges and mesh locations).
* FFTW (the DFT is its defining sum), GSL special functions (associated Legendre,
  spherical Bessel and log-gamma functions are parameters with the stated symmetries, the
  Wigner 3-j symbol is the Racah sum), sympy's Racah coefficients and 9-j symbols (the sums sympy documents), scipy splines (an
  arbitrary interpolant).
* astropy and nbodykit readers (any table may come back; renaming and setting columns as documented).
* The HDF5 library (what it shows of a file is the model's input), contents of `.npz` archives, the operating system, MPI transport, GPU code, OpenMP
  other than the interleaving of atomic additions in mesh assignment.
* `compute_bispec_for_los_choice` (compiled only under `TRV_USE_LEGACY_CODE`), `apps/`,
  `deploy/`.

## Findings

Each item is a theorem ending in `_refuted` (or stating an error outcome), with a witness.

* Arrays: `extrap2d_pad` swaps the extents; the sortedness check accepts only constant
  arrays; log-linear extrapolation has a 0/0 hole; oscillatory extrapolation from two
  samples always raises.  C++ and Python accept different log-linear inputs.
* MPI: the documented "proc_total is ignored" is false.
* Binning: reversed ranges are accepted; padded schemes can decrease and with few bins
  have six edges; grid-based widths are wrong by 1 + 1/N; a refused `set_bins` leaves Python
  and C++ out of step; a custom scheme blocks `set_bins`.
* Mesh: the interlaced TSC wrap loses weight, as does a particle half a cell from the upper
  face for every scheme; the window of a single-cell axis is zero; the middle mode of an odd
  grid is outside the minimal range; binned vectors beyond the last edge are dropped; fine
  sampling can count a mode in the bin below.
* Two-point: interlaced box overdensities keep half the zero mode, so the correlation
  function is offset by N²/(4V); interlaced windows apply alpha to one mesh only; field
  compatibility never compares the volume of the first field; box multipoles of odd degree do
  not vanish at the Nyquist frequency; mixed-mesh normalisation is not restored after failure
  or for one object given twice, and zero sums are not refused; with the "estimate" planner
  it always fails.
* Three-point: shot noise with `full` shape writes past the end; the amplitude has +α³
  where −α³ is documented, so a lone random counts −5α³w³; the 3PCF shot-noise sign is applied
  twice; modes at the Nyquist frequency break the mirror symmetry, make 3PCFs imaginary and close
  triangles that are not; wide-angle windows depend on the place on the mesh; three-point
  parameter sets silently turn interlacing off.
* Catalogues: centring and padding can leave particles outside; one catalogue given twice is
  shifted twice; periodic wrapping can give exactly L; Python item assignment leaves extents
  stale; a second measurement uses another line of sight; reloading drifts the memory counter.
* Parameters: two negative box sides pass; zero cutoff recurses for ever; re-validation
  refuses or changes valid sets; copies lose the shape; wisdom paths are lower-cased and grow;
  unset box sizes are kept by C++; `save_binned_vectors` never reaches C++; some progress-bar
  values raise after the set was changed; both paddings are refused late; the caller's set is
  modified.
* Strings and reporting: joining and splitting lose a final delimiter; nested references are
  skipped and expansion is not idempotent; `Logger::log` throws at every named level; progress
  bars overrun or never complete; negative durations throw.
* File names: dotted tags are truncated and collide; digit-leading, multi-digit and `_wa`
  tags collide; an unknown form is a NameError.
* Transforms: negative points are accepted; native extrapolation reads out of bounds; even
  sizes lose the mid-point mode; outer extrapolation with exponents below one half is empty;
  arrays are multiplied in place; gamma poles end the process; double transforms return the points
  of axis 0 for axis 1; `pivot` of a double transform and tuple `extrap` always raise.
* Window convolution: multipole comparison skips a degree; strings of multi-digit degrees
  are misread and collide; the serial matrix always raises; idle MPI roots use the wrong buffer
  type; default resampling gives one sample; default subselection raises or loses points; range
  keys raise; extra input multipoles are refused; string keys are never found; the integral
  constraint cannot be computed from one array; shared keyword dictionaries change; the
  sugiyama+19 table is truncated.
* Parameter files: a parameter is set by any line whose text contains its name, so a value
  or a comment after a blank can set another; a directory such as `/data/mocks/uniform`
  overflows the buffer of `form`; box sizes and grid numbers left out are indeterminate; the
  used-parameter file a run leaves behind is always refused when read again
  (`assignment_order` sets `assignment`).
* Environment overrides: the wisdom directory gets no separator; the binned-vector file
  keeps the old output tag; a verbosity that is not a number terminates the program.
* Catalogue files: a line of blanks (such as an empty line of a file with CRLF line ends), a
  comma-separated line, a line that is too short or a missing coordinate column is read out of
  bounds; after a failed load the catalogue object refuses every file; a file without data rows
  raises an error the command-line program does not catch.
* Command-line program: a lone unknown option is taken for a parameter file; custom bins are
  one too many and stop short of `bin_max`; custom bins in Fourier space, log bins from zero and
  catalogue files that are empty or HDF5 terminate it; padded bins are made before the box is
  sized; the box is sized by the data alone, so randoms can be outside; all normalisations are
  computed whatever the convention, so a catalogue without densities or the "estimate" planner
  (two-point surveys) stops every run; "mesh-mixed" for boxes gives factor 0; wide-angle windows
  are named differently from Python.
* Measurements from Python: a box left to be sized from the catalogue raises TypeError, though
  documented; alignments, padding scales and conventions are read letter for letter, although
  their C++ counterparts are not ("Centre" leaves catalogues unmoved, "Box" and "Particle" raise
  NameError); "mesh-mixed" raises NameError for boxes; padded bins have other widths than in the
  program and custom bins raise; boxes are centred before wrapping, unlike in the program; window
  functions ignore the alignment "pad"; wide-angle windows keep the statistic type of plain ones;
  too few lines of sight are read out of bounds; a catalogue measured again is where the first
  measurement left it: it has the mean density of the first box, other positions if it is wider
  than the box, and lines of sight from moved positions unless they are given.
* Saved files: the program cuts the degrees in three-point column names off after seven
  characters; the headers of window functions from Python state an alignment that is not
  applied; saving needs entries that measuring does not and refuses formats only after measuring;
  a path ending in ".npz" is ignored but for the ending; wide-angle windows from Python are saved
  under the name of the plain one, whatever their orders.
* Convolution in Fourier space (`PowspecWinConv`, `BispecWinConv`): odd degrees (odd sums of
  degrees) come out zero; without extrapolation the caller's samples are multiplied in place by
  powers of the wavenumber, so that a second call differs; with the default extrapolation a
  vanishing multipole gives not-a-number; with low-ringing pivots and unequal degrees a bispectrum
  comes back multiplied by the cube of the ratio of the pivots; output wavenumbers outside the
  range of the transforms are extrapolated to without a warning.
* `calc_threept_winconv_coeff` divides by the 3-j symbols of two multipoles: where one vanishes,
  as for degrees (1, 1, 1), it returns not-a-number or raises a TypeError.
* The formulae named 'sugiyama+19' leave out couplings among their own multipoles, as of (2, 0, 2)
  and (1, 1, 2) to (1, 1, 0) with coefficient 1/5.
* `gen_winconv_mat` of a convolution with log-linear extrapolation (`extrap=4`) has no result: the
  unit models it convolves have rows of zeros, whose extrapolation is not a number. The default
  (`extrap=5`) accepts them, and is not additive: the extrapolation of a row is not the sum of
  those of its entries, on which the use of the matrix rests.
* `fieldmesh.record_binned_vectors` without a parameter set refuses a binning of one bin; with one, the
  box size and grid numbers given stay in the caller's set.
* A warning raised in a file whose path has braces is not logged as it is: its name is formatted a
  second time, so that an undoubled brace raises from the logger and a doubled one is halved.
* The root as measurement directory is always refused: validation makes it `//`, and the slashes are
  then stripped to nothing.  A slash in the output tag leads to a directory nothing creates.
* HDF5 catalogues in several files whose columns come from attributes: all rows are read by the
  columns of the last file (`h5_own_columns_refuted`, C124).
* A path of several files is read as HDF5 or as text by the ending of its last file
  (`h5_own_ending_refuted`, C124).
* 1-d `resample_lglin` raises a ValueError whenever `10**log10` of the last point rounds up, or that of
  the first rounds down: at most 3 in 8 of the numbers between 16 and 32 come back exactly, whatever the
  implementations.  In 2-d the points returned leave the range instead (C125).
* Two arrays of sample points of different lengths, which the documentation of both functions allows,
  are refused (`resample_lengths_refused`, C125).
* Linear bins in double precision always cover the range once, but bins narrower than the numbers are
  apart can be empty (`lin_rounded_refuted`); logarithmic bins that narrow can overshoot `bin_max`, even
  with an exact logarithm and a correctly rounded exponential (`log_rounded_refuted`, C126).
* `name_mapping` is applied one item at a time: exchanging two columns is refused with astropy and gives
  one of them twice, silently, with nbodykit (`exchange_refuted`); a field mapped away keeps its name with
  nbodykit and takes the default with astropy (`readers_agree_refuted`); a field not in the file can be
  found (`absent_field_refuted`, C127).
* `read_from_file` changes the `table_kwargs` dictionary of the caller, and drops `names` given there
  (`kwargs_changed`, `names_dropped_refuted`); an unknown format is reported by the file path
  (`read_refused`, C127).
* A three-point window measured in a single bin cannot be loaded from its text file: `np.loadtxt` returns
  single numbers for a table of one row (`one_bin_fails`, C128).  The `sources` of a loaded window are in
  the order of the keys as they were written, its `multipoles` in another (`sources_refuted`, C128).
* In LaTeX, degrees of two digits run together, so that (1, 10, 1) and (11, 0, 1) are printed alike
  (`degrees_refuted`); a formula whose first coefficient is zero is printed with a leading plus sign
  (`leading_plus_refuted`, C129).
* A numeral in TRV_GPU_MAXNUM beyond the range of `int` ends every program, even one built without GPUs
  (`limit_refuted`); TRV_GPU_MODE is compared with its case, so that "False" leaves GPU mode on
  (`mode_refuted`); with TRV_INTERACTIVE=false the Python log is coloured and the C++ log is not
  (`colours_refuted`, C130).
* `save_to_file("window")` writes "window.npz", `load_from_file("window")` reads "window"
  (`extension_refuted`); a window returned by `subselect` is saved, but loading it raises ValueError
  (`subselected_refuted`, C131).
* In floating point, `ngrid * pos / boxsize` of a particle just inside the upper face can be `ngrid` when that
  is not a power of two; the particle is then dropped by the bounds check or put into the next row of cells
  (`face_refuted`).  A particle at a coordinate just below zero is wrapped to `boxsize` itself and meets the
  same fate for every grid (`wrap_refuted`, C132).  Interlaced meshes lose particles within rounding of half a
  cell from the upper face, not only those exactly there (`shadow_refuted`).
