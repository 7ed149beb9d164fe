{"id": "C01", "title": "Task allocation over processes is complete and balanced", "statement": "allocate_tasks(task_total, proc_total) returns, for positive arguments, one non-negative count per process; the counts add up to task_total and no two counts differ by more than one. It always terminates. Non-positive arguments are rejected.", "quantifier": "every pair of integers (task_total, proc_total)", "why_tests_cant": "The pairs are unbounded, and the loop's termination and the number of entries it yields are facts about every pair (including more processes than tasks).", "anchors": ["src/triumvirate/_mpitools.py:allocate_tasks"]}
{"id": "C02", "title": "Task segments tile the task range, so a gathered parallel run equals the serial run", "statement": "The slices returned by distribute_tasks are consecutive, start at 0, end at the total, and contain every task exactly once; concatenating per-process results in rank order (as gen_winconv_mat gathers them) gives the serial result for any number of processes.", "quantifier": "every task count, every process count, every per-task function", "why_tests_cant": "Any finite set of (tasks, processes) pairs leaves others unchecked, and equality with the serial run must hold for any work function.", "anchors": ["src/triumvirate/_mpitools.py:distribute_tasks", "src/triumvirate/winconv.py:BispecWinConv.gen_winconv_mat"]}
{"id": "C03", "title": "Unique warnings are restored exactly once, in order", "statement": "restore_warnings(unique=True) returns the first occurrence of every distinct warning, in the order captured, with no duplicate and none lost; on an MPI communicator only the root shows them.", "quantifier": "every list of captured warnings, every communicator rank/root", "why_tests_cant": "Quantifies over all warning lists.", "anchors": ["src/triumvirate/_mpitools.py:restore_warnings"]}
{"id": "C04", "title": "1-d extrapolation keeps the samples and continues the progression", "statement": "extrap_pad/extrap_lin/extrap_loglin with n extra points per side return n+len(a)+n values whose middle is exactly the input; linear extrapolation continues the end spacing and log-linear extrapolation continues the end ratio at every added point; extrapolating n points and then m points equals extrapolating n+m points at once.", "quantifier": "every 1-d array of at least two samples, every number of extra points", "why_tests_cant": "Array lengths, values and extension counts are unbounded.", "anchors": ["src/triumvirate/_arrayops.py:extrap_pad", "src/triumvirate/_arrayops.py:extrap_lin", "src/triumvirate/_arrayops.py:extrap_loglin"]}
{"id": "C05", "title": "Python and C++ 1-d extrapolations agree", "statement": "For the same input and extension the Python extrapolators and the C++ extrapolators used inside the Hankel transform return the same array (up to floating-point rounding), and they accept the same inputs.", "quantifier": "every array and extension", "why_tests_cant": "Equality of two implementations over all inputs.", "anchors": ["src/triumvirate/_arrayops.py:extrap_lin", "src/triumvirate/src/arrayops.cpp:extrap_lin", "src/triumvirate/src/arrayops.cpp:extrap_loglin", "src/triumvirate/src/arrayops.cpp:extrap_pad"]}
{"id": "C06", "title": "2-d extrapolation shape, interior and axis-order independence", "statement": "extrap2d_lin/extrap2d_loglin on an R x C array with n_ext=(nrow, ncol) return an (R+2 nrow) x (C+2 ncol) array whose centre block is the input, and extrapolating along rows first or columns first gives the same array. extrap2d_pad honours the same convention for (nrow, ncol).", "quantifier": "every array shape, values and pair of extensions", "why_tests_cant": "Unbounded shapes; order independence is an algebraic identity over all values.", "anchors": ["src/triumvirate/_arrayops.py:extrap2d_lin", "src/triumvirate/_arrayops.py:extrap2d_loglin", "src/triumvirate/_arrayops.py:extrap2d_pad"]}
{"id": "C07", "title": "The sortedness check accepts exactly the sorted arrays", "statement": "With check_sorted enabled, the array checker accepts an array if and only if it is monotone (non-decreasing or non-increasing), raising OrderError otherwise.", "quantifier": "every array of at least two values", "why_tests_cant": "Characterises acceptance for all arrays.", "anchors": ["src/triumvirate/_arrayops.py:_check_1d_array", "src/triumvirate/_arrayops.py:_check_2d_array", "src/triumvirate/src/arrayops.cpp:check_1d_array"]}
{"id": "C08", "title": "Oscillatory extrapolation never diverges", "statement": "Each tail added by extrap_loglin_oscil keeps the sign of the endpoint and is bounded in magnitude by it, decaying away from the data; the interior is the input.", "quantifier": "every array for which the routine returns", "why_tests_cant": "All oscillation patterns (turning-point counts and positions) matter; tests can only sample some.", "anchors": ["src/triumvirate/_arrayops.py:extrap_loglin_oscil"]}
{"id": "C09", "title": "Flattened three-point tables and matrices correspond", "statement": "reshape_threept_datatab turns a flattened upper triangle (row-major) into a symmetric matrix whose (i,j) entry is the flat entry the C++ bispectrum code writes for bins (i,j), and a flattened full table into the matrix with entry i*n+j; flattening back recovers the input; lengths that are not triangular/square numbers are rejected.", "quantifier": "every number of bins and every table", "why_tests_cant": "The position map must be right for every matrix size.", "anchors": ["src/triumvirate/_arrayops.py:reshape_threept_datatab", "src/triumvirate/src/threept.cpp:compute_bispec"]}
{"id": "C10", "title": "Bins cover the requested range once", "statement": "After set_bins with scheme 'lin' or 'log' (valid range), there are num_bins+1 strictly increasing edges from bin_min to bin_max, widths are edge differences, centres are arithmetic (lin) or as defined for log, and every coordinate in [bin_min, bin_max) lies in exactly one bin.", "quantifier": "every valid (bin_min, bin_max, num_bins)", "why_tests_cant": "Real-valued ranges and any number of bins.", "anchors": ["src/triumvirate/src/dataobjs.cpp:Binning::compute_binning", "src/triumvirate/dataobjs.pyx:Binning"]}
{"id": "C11", "title": "Padded bins", "statement": "With 'linpad'/'logpad' the first five bins have the pad width starting from zero and the rest divide the remaining range up to bin_max; edges are strictly increasing and each coordinate in [0, bin_max) lies in exactly one bin whenever the parameters pass validation.", "quantifier": "every parameter set accepted by validation", "why_tests_cant": "The condition couples box size, range and bin count over the reals.", "anchors": ["src/triumvirate/src/dataobjs.cpp:Binning::compute_binning", "src/triumvirate/src/parameters.cpp:ParameterSet::validate"]}
{"id": "C12", "title": "Grid-based bins have the documented width and maximum", "statement": "Grid-based binning has bin width equal to the grid resolution (config) or fundamental wavenumber (Fourier), minimum zero and maximum half the box size or the Nyquist wavenumber.", "quantifier": "every box size and grid number", "why_tests_cant": "Universal over sizes; a numerical tolerance in a test hides a relative error of 1/ngrid.", "anchors": ["src/triumvirate/src/dataobjs.cpp:Binning::set_bins", "src/triumvirate/include/dataobjs.hpp:Binning"]}
{"id": "C13", "title": "A rejected binning update leaves the binning unchanged", "statement": "If set_bins raises, the Python-visible attributes and the bins used by the measurement code are those from before the call.", "quantifier": "every sequence of set_bins calls, valid or not", "why_tests_cant": "Quantifies over histories with failures at any point.", "anchors": ["src/triumvirate/dataobjs.pyx:Binning.set_bins", "src/triumvirate/src/dataobjs.cpp:Binning::set_bins"]}
{"id": "C14", "title": "Flat mesh indexing is a bijection", "statement": "The flat index (i*ny+j)*nz+k maps the mesh cells one-to-one onto 0..nx*ny*nz-1.", "quantifier": "all mesh dimensions", "why_tests_cant": "Unbounded dimensions.", "anchors": ["src/triumvirate/src/field.cpp:MeshField::ret_grid_index", "src/triumvirate/src/field.cpp:FieldStats::ret_grid_index"]}
{"id": "C15", "title": "Wavenumber index convention", "statement": "The signed index assigned to mesh index i is congruent to i modulo n, lies in the minimal range [-n/2, n/2), is injective, and for even n maps mirrored indices to opposite modes except at the Nyquist index.", "quantifier": "every grid number", "why_tests_cant": "Must hold for every n; odd and degenerate n are usually untested.", "anchors": ["src/triumvirate/src/field.cpp:MeshField::shift_grid_indices_fourier", "src/triumvirate/src/field.cpp:FieldStats::shift_grid_indices_fourier", "src/triumvirate/src/maths.cpp"]}
{"id": "C16", "title": "Mesh assignment conserves weight", "statement": "For each assignment scheme the mesh values times cell volume add up to the total particle weight, for every set of particles inside the box (including cells that wrap around the box faces).", "quantifier": "every catalogue in the box, every grid size, all four schemes", "why_tests_cant": "Requires real-valued positions at every boundary and every mesh size.", "anchors": ["src/triumvirate/src/field.cpp:MeshField::assign_weighted_field_to_mesh_ngp", "src/triumvirate/src/field.cpp:assign_weighted_field_to_mesh_cic", "src/triumvirate/src/field.cpp:assign_weighted_field_to_mesh_tsc", "src/triumvirate/src/field.cpp:assign_weighted_field_to_mesh_pcs"]}
{"id": "C17", "title": "Mesh assignment is positive and centred", "statement": "Every weight given by NGP/CIC/TSC/PCS is non-negative and at most the particle weight, and for CIC/TSC/PCS the weighted mean of the (unwrapped) cell positions is the particle position.", "quantifier": "every real position", "why_tests_cant": "Continuum of positions.", "anchors": ["src/triumvirate/src/field.cpp:MeshField::assign_weighted_field_to_mesh"]}
{"id": "C18", "title": "Mesh assignment is independent of thread schedule", "statement": "With atomic accumulation, the assigned mesh is the same for every particle order and every interleaving of threads' updates, and equals the sum over particles.", "quantifier": "every interleaving, any number of threads", "why_tests_cant": "Schedules are exponential in number and not controllable in tests.", "anchors": ["src/triumvirate/src/field.cpp:assign_weighted_field_to_mesh_*", "src/triumvirate/include/monitor.hpp:OMP_ATOMIC"]}
{"id": "C19", "title": "Interlaced meshes conserve weight too", "statement": "The half-cell-shifted (interlaced) mesh conserves weight for every scheme, grid size and position in the box.", "quantifier": "every position, grid size and scheme", "why_tests_cant": "The failing cells are the last two planes of the mesh only.", "anchors": ["src/triumvirate/src/field.cpp:assign_weighted_field_to_mesh_tsc", "src/triumvirate/src/field.cpp:assign_weighted_field_to_mesh_pcs"]}
{"id": "C20", "title": "Shot-noise aliasing functions are the exact mean assignment power", "statement": "The closed-form aliasing functions C1 for NGP/CIC/TSC/PCS equal the squared modulus of the assignment weights' discrete transform averaged over the sub-cell position, for every wavenumber.", "quantifier": "every wavenumber", "why_tests_cant": "An identity between a polynomial in sin^2 and an integral for all wavenumbers.", "anchors": ["src/triumvirate/src/field.cpp:FieldStats::calc_shotnoise_aliasing_cic", "src/triumvirate/src/field.cpp:FieldStats::calc_shotnoise_aliasing_tsc", "src/triumvirate/src/field.cpp:FieldStats::calc_shotnoise_aliasing_pcs"]}
{"id": "C21", "title": "Assignment window is never zero and cached values are right", "statement": "For even grids the assignment window used as a divisor is non-zero at every mode, and a value returned after any sequence of window computations equals the direct formula for the requested order.", "quantifier": "every mode, every grid, every history of window requests", "why_tests_cant": "History- and size-dependent.", "anchors": ["src/triumvirate/src/field.cpp:MeshField::calc_assignment_window_in_fourier", "src/triumvirate/src/field.cpp:MeshField::compute_assignment_window_in_fourier"]}
{"id": "C22", "title": "Recorded binned vectors are exactly the mesh vectors in the bins", "statement": "record_binned_vectors lists each mesh vector whose length falls in a bin exactly once, tagged with that bin, and none other, for any thread order.", "quantifier": "every mesh, binning and thread order", "why_tests_cant": "The index-range shortcut must not lose vectors for any box/grid/bin combination.", "anchors": ["src/triumvirate/src/field.cpp:FieldStats::record_binned_vectors", "src/triumvirate/fieldmesh.py:record_binned_vectors"]}
{"id": "C23", "title": "Two-point mode counts", "statement": "Each mesh mode below the sampling cutoff contributes to at most one bin, namely the bin containing its wavenumber; mode counts per bin equal those of record_binned_vectors.", "quantifier": "every mesh and binning", "why_tests_cant": "Depends on real edges versus the internal fine sampling.", "anchors": ["src/triumvirate/src/field.cpp:FieldStats::compute_ylm_wgtd_2pt_stats_in_fourier"]}
{"id": "C24", "title": "Three-point data vector indexing", "statement": "For each form/shape the number of data-vector entries is right and every computed bin pair is written to its own in-range entry, covering all entries.", "quantifier": "every number of bins and offset", "why_tests_cant": "In-range/bijection for all sizes; out-of-range writes are silent in tests.", "anchors": ["src/triumvirate/src/threept.cpp:compute_bispec", "src/triumvirate/src/threept.cpp:compute_bispec_in_gpp_box"]}
{"id": "C25", "title": "Mirror symmetry of spherical orders", "statement": "Skipping order triplets whose negation was already evaluated and adding a mirrored contribution gives the same multipole as summing over all order triplets.", "quantifier": "all degrees (ell1, ell2, L) and all per-triplet values obeying the conjugation symmetry", "why_tests_cant": "All degrees, all complex contributions.", "anchors": ["src/triumvirate/src/threept.cpp:compute_bispec", "src/triumvirate/src/threept.cpp:SphericalOrderTriplet"]}
{"id": "C26", "title": "Normalisation leaves the catalogues in place", "statement": "Computing the mixed-mesh normalisation leaves particle positions as they were.", "quantifier": "every pair of catalogues", "why_tests_cant": "Universal over positions and paddings.", "anchors": ["src/triumvirate/src/twopt.cpp:calc_powspec_normalisation_from_meshes"]}
{"id": "C27", "title": "Normalisation and shot noise scale as they should", "statement": "The particle-based normalisation is the reciprocal of the weighted sum and scales with weights with the stated powers; zero sums are rejected instead of dividing by zero; shot noise is a non-negative sum of squared weights; the result is independent of particle order.", "quantifier": "every catalogue, alpha and scale factor", "why_tests_cant": "Universal over catalogues.", "anchors": ["src/triumvirate/src/twopt.cpp:calc_powspec_normalisation_from_particles", "src/triumvirate/src/twopt.cpp:calc_powspec_shotnoise_from_particles", "src/triumvirate/src/threept.cpp:calc_bispec_normalisation_from_particles"]}
{"id": "C28", "title": "Mesh number from the Nyquist cutoff", "statement": "The grid number derived from a cutoff is positive, even, resolves the cutoff, is minimal among even numbers that do, and the Python and C++ rules agree.", "quantifier": "every positive box size and cutoff, both spaces", "why_tests_cant": "Ceilings over reals.", "anchors": ["src/triumvirate/parameters.pyx:_set_ngrid_from_cutoff", "src/triumvirate/src/parameters.cpp:ParameterSet::set_ngrid_from_cutoff"]}
{"id": "C29", "title": "Parameter validation accepts exactly the documented combinations", "statement": "Validation accepts a parameter set exactly when the documented constraints hold, and derived fields (assignment order, point number, space, shape, interlacing for three-point statistics) are consistent afterwards; validating twice changes nothing more.", "quantifier": "every parameter set", "why_tests_cant": "Combinatorial space of strings, integers and reals.", "anchors": ["src/triumvirate/src/parameters.cpp:ParameterSet::validate"]}
{"id": "C30", "title": "A rejected parameter update leaves the parameter set unchanged", "statement": "If setting an entry or updating a ParameterSet raises, subsequent reads return the previous values; repeated identical updates are idempotent.", "quantifier": "every history of updates", "why_tests_cant": "Histories with failures.", "anchors": ["src/triumvirate/parameters.pyx:ParameterSet.__setitem__", "src/triumvirate/parameters.pyx:ParameterSet.update"]}
{"id": "C31", "title": "Overrides replace exactly the named parameters", "statement": "Supplying sampling or measurement overrides changes exactly the corresponding entries, leaves all others as they were, and reports as defaults exactly the untouched default entries.", "quantifier": "every parameter dictionary and override subset", "why_tests_cant": "Subsets and prior values are unbounded.", "anchors": ["src/triumvirate/parameters.pyx:_modify_sampling_parameters", "src/triumvirate/parameters.pyx:_modify_measurement_parameters"]}
{"id": "C32", "title": "Catalogue alignment postconditions", "statement": "centre puts the midpoint of the reference extents at the box centre, pad puts the reference minimum at the padding, both shift every particle of both catalogues by one common vector so separations are preserved, and if the extents fit the box the particles end inside it.", "quantifier": "every pair of catalogues, box size and padding", "why_tests_cant": "Universal over positions.", "anchors": ["src/triumvirate/catalogue.py:ParticleCatalogue.centre", "src/triumvirate/catalogue.py:ParticleCatalogue.pad", "src/triumvirate/src/particles.cpp:centre_in_box", "src/triumvirate/src/particles.cpp:pad_in_box"]}
{"id": "C33", "title": "Periodic wrapping lands inside the box", "statement": "After periodic wrapping each coordinate lies in [0, boxsize) and differs from the original by a whole number of box lengths (after the stated recentring in Python).", "quantifier": "every real coordinate and box size", "why_tests_cant": "Boundary values such as exact multiples of the box size.", "anchors": ["src/triumvirate/catalogue.py:ParticleCatalogue.periodise", "src/triumvirate/src/particles.cpp:ParticleCatalogue::offset_coords_for_periodicity"]}
{"id": "C34", "title": "Catalogue attributes stay in step with the data", "statement": "After any sequence of catalogue operations the reported bounds, spans, totals equal those recomputed from the columns.", "quantifier": "every history of operations", "why_tests_cant": "Histories.", "anchors": ["src/triumvirate/catalogue.py:ParticleCatalogue", "src/triumvirate/src/particles.cpp:ParticleCatalogue"]}
{"id": "C35", "title": "Lines of sight are unit vectors and survive repeated measurements", "statement": "compute_los returns unit vectors along the position (zero for a particle at the origin); measuring a statistic twice from the same catalogues uses the same lines of sight.", "quantifier": "every catalogue, every sequence of measurements", "why_tests_cant": "Depends on the history of measurements on shared catalogue objects.", "anchors": ["src/triumvirate/catalogue.py:ParticleCatalogue.compute_los", "src/triumvirate/twopt.py:_compute_2pt_stats_survey_like"]}
{"id": "C36", "title": "Resource counters return to their starting values", "statement": "The global grid and memory counters are never negative and return to their previous values when all fields and catalogues created have been destroyed; maxima are running maxima.", "quantifier": "every sequence of constructions, loads and destructions", "why_tests_cant": "Histories.", "anchors": ["src/triumvirate/src/field.cpp:MeshField", "src/triumvirate/src/monitor.cpp:update_maxmem", "src/triumvirate/src/particles.cpp:ParticleCatalogue::initialise_particles"]}
{"id": "C37", "title": "FFTLog sample sizes and points", "statement": "With extrapolation, the transform size is the smallest power of two at least extrap_exp times the sample size, splits evenly, and trimming recovers the input length; post-transform points are logarithmically spaced with the same resolution, ascending, and paired products with the pre-transform points are constant.", "quantifier": "every sample size, expansion factor, pivot", "why_tests_cant": "All sizes.", "anchors": ["src/triumvirate/src/fftlog.cpp:HankelTransform::initialise", "src/triumvirate/transforms.py:SphericalBesselTransform"]}
{"id": "C38", "title": "Low-ringing pivot", "statement": "The low-ringing pivot makes the mid-point kernel coefficient real and stays within half a log-spacing of the requested pivot.", "quantifier": "every order, bias, spacing and pivot", "why_tests_cant": "Real-analytic identity.", "anchors": ["src/triumvirate/src/fftlog.cpp:HankelTransform::calc_lowring_pivot", "src/triumvirate/src/fftlog.cpp:HankelTransform::compute_kernel_coeff"]}
{"id": "C39", "title": "FFTLog maps real samples to real samples and is invertible", "statement": "The transform of real samples is real; the unbiased transform preserves the sum of squares and applying the transform twice with the same kernel and pivot returns the samples.", "quantifier": "every sample size and real sample vector", "why_tests_cant": "Algebraic identity over all sizes and vectors.", "anchors": ["src/triumvirate/src/fftlog.cpp:HankelTransform::biased_transform", "src/triumvirate/src/fftlog.cpp:HankelTransform::compute_kernel_coeff"]}
{"id": "C40", "title": "Transforms do not modify their input", "statement": "Calling transform leaves the caller's samples unchanged, so repeating the call returns the same result.", "quantifier": "every sample array and extrapolation option", "why_tests_cant": "Aliasing for all options and call sequences.", "anchors": ["src/triumvirate/transforms.py:SphericalBesselTransform.transform", "src/triumvirate/transforms.py:DoubleSphericalBesselTransform.transform"]}
{"id": "C41", "title": "Forward and backward multipole prefactors are inverse", "statement": "The product of forward and backward prefactors is (2 pi)^-3 per dimension with unit parity, and Python and C++ conventions agree.", "quantifier": "every degree", "why_tests_cant": "All degrees.", "anchors": ["src/triumvirate/transforms.py:SphericalBesselTransform.transform_cosmo_multipoles", "src/triumvirate/src/fftlog.cpp:SphericalBesselTransform::transform_cosmological_multipole"]}
{"id": "C42", "title": "Multipole ordering is a total order consistent with equality", "statement": "For multipoles of the same length exactly one of <, ==, > holds and < is transitive, so sorted multipole lists do not depend on the input order.", "quantifier": "every pair/triple of multipoles", "why_tests_cant": "All index tuples.", "anchors": ["src/triumvirate/winconv.py:Multipole.__lt__", "src/triumvirate/winconv.py:WinConvFormulae"]}
{"id": "C43", "title": "Multipole string round-trip", "statement": "Multipole(str(m)) == m, and abbreviated strings are parsed digit by digit.", "quantifier": "every multipole", "why_tests_cant": "All index tuples.", "anchors": ["src/triumvirate/winconv.py:Multipole"]}
{"id": "C44", "title": "Two-point window convolution formulae are exact", "statement": "The named formulae 'wilson+16' give exactly the Legendre multipoles of the product of window and correlation function.", "quantifier": "every set of multipole values and every extra window multipole", "why_tests_cant": "Identity over all values.", "anchors": ["src/triumvirate/winconv.py:NAMED_FORMULAE", "src/triumvirate/winconv.py:TwoPCFWinConv.convolve"]}
{"id": "C45", "title": "Window convolution matrix generation works serially", "statement": "gen_winconv_mat without MPI returns the convolution matrix, whose product with a flattened model equals convolving the model (for linear convolution), row selection for diag picks the diagonal rows.", "quantifier": "every formula set, sizes and flags", "why_tests_cant": "All inputs.", "anchors": ["src/triumvirate/winconv.py:BispecWinConv.gen_winconv_mat"]}
{"id": "C46", "title": "Window sub-selection and resampling keep the requested samples", "statement": "subselect returns a window whose samples are those within the requested range, in either mode, and the default make_loglin resampling keeps the number of samples.", "quantifier": "every window, range and mode", "why_tests_cant": "All windows.", "anchors": ["src/triumvirate/winconv.py:ThreePointWindow.subselect", "src/triumvirate/winconv.py:ThreePointWindow.__init__"]}
{"id": "C47", "title": "Output file names are distinct for distinct measurements", "statement": "Two measurements differing in statistic, degrees, form, bin index or output tag are saved to different paths.", "quantifier": "every pair of parameter sets", "why_tests_cant": "Pairs of strings are unbounded.", "anchors": ["src/triumvirate/twopt.py:_get_measurement_filename", "src/triumvirate/threept.py:_get_measurement_filename"]}
{"id": "C48", "title": "String splitting and joining", "statement": "Joining the parts obtained by splitting a delimited string gives back the string; suffix tests and directory prefixes behave as documented.", "quantifier": "every string and delimiter", "why_tests_cant": "All strings.", "anchors": ["src/triumvirate/src/monitor.cpp:split_string", "src/triumvirate/src/monitor.cpp:join_strings", "src/triumvirate/src/monitor.cpp:has_extension"]}
{"id": "C49", "title": "Environment-variable expansion in paths", "statement": "Each ${NAME} of a set variable is replaced by its value exactly once, unset ones are left alone, text outside is unchanged, and the routine terminates.", "quantifier": "every path and environment", "why_tests_cant": "All strings.", "anchors": ["src/triumvirate/src/monitor.cpp:expand_envar_in_path"]}
{"id": "C50", "title": "Elapsed-time display", "statement": "The formatted hours, minutes and seconds are in range and recombine to the whole number of elapsed seconds, in C++ and Python.", "quantifier": "every non-negative duration", "why_tests_cant": "All durations.", "anchors": ["src/triumvirate/src/monitor.cpp:show_elapsed_time", "src/triumvirate/logger.py:_ElapsedColourLogFormatter.format"]}
{"id": "C51", "title": "Log level threshold", "statement": "A message is emitted exactly when its level is at least the threshold, with the tag of its level.", "quantifier": "every level and threshold", "why_tests_cant": "All integers.", "anchors": ["src/triumvirate/src/monitor.cpp:Logger"]}
{"id": "C52", "title": "Progress bar", "statement": "Progress displayed is non-decreasing, never exceeds 100%, reaches 100% on the final update, and node indexing stays in range.", "quantifier": "every sequence of updates", "why_tests_cant": "Histories.", "anchors": ["src/triumvirate/src/monitor.cpp:ProgressBar"]}
{"id": "C53", "title": "Assigned mesh is the kernel estimate and the window is the kernel's transform", "statement": "For each scheme the mesh value at a cell is the sum over particles of weight / cell volume times the standard NGP/CIC/TSC/PCS kernel summed over periodic images, and the window by which a Fourier mode is divided is exactly the Fourier transform of that kernel at the mode's frequency.", "quantifier": "every catalogue in the box, grid, scheme and mode", "why_tests_cant": "Unit tests compare a few meshes with stored numbers; they cannot show that the piecewise formulae agree with the kernels and with the sinc-power window for all positions and modes.", "anchors": ["src/triumvirate/src/field.cpp:MeshField::assign_weighted_field_to_mesh_*", "src/triumvirate/src/field.cpp:MeshField::calc_assignment_window_in_fourier"]}
{"id": "C54", "title": "Reduced spherical harmonics", "statement": "The reduced spherical harmonic of a direction uses the azimuth of that direction, depends on the direction only, is conjugated with sign (-1)^m at opposite order, changes by (-1)^l for the opposite direction, is one at degree zero and zero at the origin.", "quantifier": "all degrees, orders and vectors on the polar axis or at least 1e-9 away from it", "why_tests_cant": "Quadrant logic of arccos and the sign convention at negative order hold for all directions; tests take a few vectors.", "anchors": ["src/triumvirate/src/maths.cpp:calc_reduced_spherical_harmonic"]}
{"id": "C55", "title": "Conjugation symmetry of three-point components", "statement": "The bispectrum component at negated orders is the conjugate of the component at the orders times (-1)^(l1+l2), so that the mirrored contribution the code adds in place of skipped orders is the true one.", "quantifier": "all catalogues, even grids, bins, degrees and orders", "why_tests_cant": "An identity over all fields and all modes, including modes at the Nyquist frequency.", "anchors": ["src/triumvirate/src/field.cpp:inv_fourier_transform_ylm_wgtd_field_band_limited", "src/triumvirate/src/field.cpp:compute_ylm_wgtd_field", "src/triumvirate/src/threept.cpp:compute_bispec"]}
{"id": "C56", "title": "Re-validating a parameter set inside the library", "statement": "The mixed-mesh power-spectrum normalisation, which works on a re-validated copy of the caller's parameter set with its own box and grid, accepts every validated parameter set and leaves the FFTW wisdom settings as the caller chose them; copying a parameter set preserves every field.", "quantifier": "for every parameter set accepted by validation, every build configuration, box side, grid number and assignment scheme", "why_tests_cant": "Needs validation to be idempotent under re-initialisation for all parameter sets; a test would have to combine a planner choice with the normalisation path and compare internal fields after the copy.", "anchors": ["src/triumvirate/src/twopt.cpp:230-262", "src/triumvirate/src/parameters.cpp:35-92", "src/triumvirate/src/parameters.cpp:466-1270"]}
{"id": "C57", "title": "Python parameters are the ones C++ uses", "statement": "After an assignment to or update of a Python ParameterSet succeeds, every value readable from the set is the value the C++ code will use, and fields derived or normalised by C++ read back as C++ holds them.", "quantifier": "all parameter sets, keys, values, environments and histories of earlier updates", "why_tests_cant": "Needs the readable dictionary and the C++ structure to agree after every sequence of updates, including entries taken back to None.", "anchors": ["src/triumvirate/parameters.pyx:ParameterSet.__setitem__", "src/triumvirate/parameters.pyx:ParameterSet._parse_params"]}
{"id": "C58", "title": "Forward then backward multipole transforms return the samples", "statement": "Transforming multipole samples forward and transforming the result backward, with the bias negated and on the points the forward transform returned, gives back the original points and samples.", "quantifier": "all degrees, biases, log-spaced points, pivots and samples without extrapolation, of odd size or with the low-ringing pivot", "why_tests_cant": "The identity rests on kernel phases and sample weights cancelling for every size and degree.", "anchors": ["src/triumvirate/transforms.py:180-239", "src/triumvirate/src/fftlog.cpp:480-577", "src/triumvirate/_fftlog.pyx:108-145"]}
{"id": "C59", "title": "Double transforms return each index at its own points", "statement": "A two-dimensional transform returns, for each index, the points of that index's own transform, so that transforming back on the returned points gives the original samples; its pivots can be read, and extrapolation options may be given per dimension as documented.", "quantifier": "all pairs of degrees and biases, points, pivots and sample matrices", "why_tests_cant": "Tests use equal degrees or do not compare the second index's points.", "anchors": ["src/triumvirate/transforms.py:270-504"]}
{"id": "C60", "title": "A double transform is two single transforms", "statement": "The two-dimensional transform of a product of samples is the product of the one-dimensional transforms, and exchanging the degrees with the indices of the samples exchanges the indices of the result.", "quantifier": "all pairs of degrees and biases, points, pivots and sample matrices without extrapolation", "why_tests_cant": "It is a statement about every matrix of samples of every size.", "anchors": ["src/triumvirate/transforms.py:436-474"]}
{"id": "C61", "title": "Window convolution accepts exactly the points its formulae need", "statement": "Constructing a window convolution from a formula set, window samples and input points succeeds exactly when points and samples are given for every multipole that the formulae use; extra multipoles do no harm, a missing one is refused with ValueError, and a warning of coverage is issued exactly for those output multipoles whose output points reach beyond the points of a term.", "quantifier": "For every formula set that can be built, every window dictionary, and every input-point array or dictionary with any number of keys and points.", "why_tests_cant": "The subset check is written the wrong way round, so tests that pass exactly the needed keys, as the ones in the suite do, cannot see what happens to more or fewer keys.", "anchors": ["src/triumvirate/winconv.py:1540-1771", "src/triumvirate/winconv.py:1831-1837", "src/triumvirate/winconv.py:2186-2204"]}
{"id": "C62", "title": "Configuration-space window convolution is the stated sum, linear and neutral for a unit window", "statement": "Each output multipole of convolve is the sum over the terms of its formula of coefficient times window multipole times input multipole at the output points; the result is linear in the input, a window equal to one in the monopole and zero elsewhere returns the input at its own points, only the real part of three-point samples enters, the diagonal convolution is the diagonal of the full one, and the input dictionary may be keyed by anything that names a multipole.", "quantifier": "For every formula set, every sample array, every number of multipoles and points, and every interpolation that is linear in the samples, passes through them and keeps constants.", "why_tests_cant": "The sum runs over arbitrary user formulae and arbitrary arrays; linearity and neutrality are statements over all of them, and spline output can only be compared within rounding for chosen examples.", "anchors": ["src/triumvirate/winconv.py:1839-1882", "src/triumvirate/winconv.py:2206-2292", "src/triumvirate/winconv.py:2294-2370"]}
{"id": "C63", "title": "The integral constraint removes a constant correlation exactly", "statement": "For a three-point correlation function that is constant, the integral constraint calculated from any window is that constant, whatever common separations are used, so that with formulae whose 'ic' coefficients cancel the monopole ones the convolution of a constant is zero; without a monopole in both dictionaries the calculation is refused with ValueError, and convolve calculates it by itself whenever the formulae ask for it and none is given.", "quantifier": "For every window with any multipoles and points, every constant, every homogeneous integration rule and every interpolation that keeps constants.", "why_tests_cant": "Cancellation holds only if normalisation, Wigner factor, weights and splines of numerator and denominator agree for every window; a numerical test sees it within rounding for one window.", "anchors": ["src/triumvirate/winconv.py:1378-1516", "src/triumvirate/winconv.py:2236-2251"]}
{"id": "C64", "title": "Derived convolution ranges lie within every set of points", "statement": "The points derived when output points are not given lie between the largest of the lowest and the smallest of the highest points, are as many as the shortest array has, and with enforce_coverage no warning of coverage is raised; sets of points that do not overlap are refused.", "quantifier": "For every number of arrays of any length with positive points, and both spacings.", "why_tests_cant": "Ranges from logarithmic spacing of arbitrary arrays; whether all points lie inside all arrays is a universal statement and the non-overlapping case is never exercised.", "anchors": ["src/triumvirate/winconv.py:1323-1353", "src/triumvirate/winconv.py:1683-1771"]}
{"id": "C65", "title": "Fourier-space convolutions leave the caller's arguments alone and keep the number of points", "statement": "Transform keyword arguments given by the caller are used as given, the two defaults apply only where absent, and the caller's dictionary is not changed, so that sharing one dictionary between a power-spectrum and a bispectrum convolution does not alter either; input points that are not logarithmically spaced are replaced by as many points over the same range.", "quantifier": "For every dictionary of keyword arguments and every dictionary of input points.", "why_tests_cant": "Aliasing of a mutable argument shows only when one dictionary is used twice, and the wrong number of points only when arrays of different lengths are mixed.", "anchors": ["src/triumvirate/winconv.py:1957-1970", "src/triumvirate/winconv.py:2464-2525"]}
{"id": "C66", "title": "The coefficients of the named three-point formulae are exact", "statement": "Every coefficient in NAMED_FORMULAE['sugiyama+19'] is the projection, over all pairs of directions, of the product of the window's and the correlation function's multipole functions on that of the output multipole; the 'ic' coefficients are minus those of a constant, and the functions involved are mutually orthogonal.", "quantifier": "For every output multipole and term of the table, the mean being over all directions of both separations.", "why_tests_cant": "The coefficients are typed-in fractions; a test repeating the table checks nothing and the defining integrals over the sphere are not computed anywhere.", "anchors": ["src/triumvirate/winconv.py:135-158"]}
{"id": "C67", "title": "The zero mode of a mesh field is the total weight, and overdensities have zero mean", "statement": "The Fourier transform of an assigned field at zero wavenumber equals the sum of the complex weights of the particles; after the mean number density of a periodic-box catalogue is subtracted the zero mode vanishes and every other mode stays that of the counts.", "quantifier": "For every particle list inside the box, every assignment scheme, mesh and box, with and without interlacing.", "why_tests_cant": "A test sees one catalogue; whether weight leaks or a mean survives in the transform for some scheme, mesh or interlacing setting is a statement about all catalogues.", "anchors": ["src/triumvirate/src/field.cpp:1208-1244", "src/triumvirate/src/field.cpp:1496-1655"]}
{"id": "C68", "title": "The correlation function of a periodic box carries no constant offset", "statement": "The measured monopole of a periodic-box catalogue, averaged over all separations of the mesh, equals minus the removed self-pairs (minus 1/N with the box normalisation), so interlacing does not shift the correlation function.", "quantifier": "For every catalogue inside the box, every scheme, mesh and thread order, with and without interlacing.", "why_tests_cant": "An offset of the whole curve looks like clustering in a single measurement; only an identity over all catalogues separates the two.", "anchors": ["src/triumvirate/src/twopt.cpp:703-793", "src/triumvirate/src/field.cpp:1229-1244", "src/triumvirate/src/field.cpp:2705-2945"]}
{"id": "C69", "title": "The window correlation function scales with the square of alpha", "statement": "Scaling the contrast alpha passed to compute_corrfunc_window by a factor scales the raw window by its square, including the self-pair subtraction.", "quantifier": "For every random catalogue, degree, scheme, mesh and alpha, with and without interlacing.", "why_tests_cant": "Tests run with one alpha; agreement for all alpha needs the alpha dependence of field and shot noise followed through the whole estimator.", "anchors": ["src/triumvirate/src/field.cpp:1325-1362", "src/triumvirate/src/twopt.cpp:795-903"]}
{"id": "C70", "title": "Two-point statistics refuse fields of different shape", "statement": "Two fields are accepted for a two-point statistic only if box sizes, grids, mesh sizes and volumes of both agree with those of the statistic.", "quantifier": "For all box sizes, grids, mesh sizes and volumes.", "why_tests_cant": "Acceptance of a mismatched pair shows only for the untested combination of attributes.", "anchors": ["src/triumvirate/src/field.cpp:2273-2302"]}
{"id": "C71", "title": "The survey correlation function is the weighted count of distinct pairs", "statement": "With nearest-grid-point assignment and no interlacing, the raw multipole returned for a separation bin is the normalisation times (2 L + 1) over the cell volume times the mean, over the mesh separations of the bin, of the sum over ordered pairs of two different objects at that periodic separation of the product of their weights (minus alpha times the weight for random particles) and of the harmonics of the first object's line of sight and of the separation; pairs of an object with itself are removed exactly. The same holds for the window with alpha-scaled random particles.", "quantifier": "For all catalogues inside the box, degrees, bins, meshes, boxes, alpha, normalisations and thread orders.", "why_tests_cant": "The estimator works through Fourier transforms; its equality with direct pair counting for every catalogue is an algebraic identity which no finite set of catalogues establishes.", "anchors": ["src/triumvirate/src/twopt.cpp:498-607", "src/triumvirate/src/twopt.cpp:795-903", "src/triumvirate/src/field.cpp:2705-2945"]}
{"id": "C72", "title": "The periodic-box correlation function is the natural estimator", "statement": "With nearest-grid-point assignment, no interlacing and the box normalisation, the monopole of a non-empty bin is the number of ordered pairs of different particles with mesh separation in the bin divided by the expected number N^2 times the fraction of mesh separations in the bin, minus one.", "quantifier": "For all non-empty catalogues inside the box, bins, meshes, boxes and thread orders.", "why_tests_cant": "Equality with pair counting must hold for every particle configuration, including coinciding particles and pairs across the periodic boundary.", "anchors": ["src/triumvirate/src/twopt.cpp:703-793", "src/triumvirate/src/field.cpp:1229-1244"]}
{"id": "C73", "title": "Measured power spectra are exact averages over modes", "statement": "For a survey, compute_powspec returns in each bin the normalisation times 2 L + 1 times the mean, over the mesh modes falling in the bin, of the sum over galaxies and randoms of weight times harmonic product of line of sight and wavevector times the particle's transform, multiplied by the conjugate of the plain weighted sum and divided by the mesh correction of the mode. The shot noise is the same average of the sum of squared weights. Without interlacing the monopole shot noise is the normalisation times the sum of squared data weights plus alpha squared times the random one, in every bin. The box version is the mean of the squared amplitude of the sum over particles times the harmonic.", "quantifier": "all catalogues of particles handled by the mesh, all weights, all degrees, schemes, meshes, bins and thread orders", "why_tests_cant": "Tests compare one stored spectrum; the identity is for every catalogue, mesh and bin.", "anchors": ["src/triumvirate/src/twopt.cpp:388-497", "src/triumvirate/src/field.cpp:2511-2703", "src/triumvirate/src/twopt.cpp:609-701"]}
{"id": "C74", "title": "Parity and positivity of power spectrum multipoles", "statement": "Raw monopoles of compute_powspec and compute_powspec_in_gpp_box are real and never negative. Even survey multipoles are real and odd ones purely imaginary, and odd multipoles of a box vanish.", "quantifier": "all catalogues, meshes, degrees and bins", "why_tests_cant": "The symmetry is about every catalogue; it hinges on which modes a mesh holds, which a single comparison does not reveal.", "anchors": ["src/triumvirate/src/twopt.cpp:388-497", "src/triumvirate/src/twopt.cpp:609-701", "src/triumvirate/src/maths.cpp:172-230"]}
{"id": "C75", "title": "Power spectra do not depend on catalogue order and scale with the weights", "statement": "Permuting the data or random catalogue, or changing the order in which threads add modes, leaves every raw power and shot noise value unchanged. Multiplying all weights of both catalogues by one nonzero factor multiplies raw power and shot noise by its square.", "quantifier": "all catalogues, permutations, nonzero factors, degrees, meshes and bins", "why_tests_cant": "There are factorially many orders and infinitely many factors.", "anchors": ["src/triumvirate/src/twopt.cpp:388-497", "src/triumvirate/src/field.cpp:569-616"]}
{"id": "C76", "title": "Interlacing removes the odd aliased images and keeps the even ones", "statement": "With interlacing, a plane wave of any integer wave numbers sampled on the main and on the shifted shadow mesh comes out at the mode it folds onto with its full amplitude when the number of foldings over the three axes is even (none included), and with amplitude zero when it is odd.", "quantifier": "all meshes, all modes, all integer wave numbers", "why_tests_cant": "The claim is over infinitely many wave numbers; tests only see a sum of images.", "anchors": ["src/triumvirate/src/field.cpp:1496-1655"]}
{"id": "C77", "title": "Bispectra are means over triangles of modes", "statement": "A survey bispectrum multipole equals the normalisation times the mean, over all pairs of modes in the two wavenumber bins, of the product of the two transformed density contrasts with the transform at the mode closing the triangle, weighted with the line-of-sight harmonics coupled by 3-j symbols and compensated for the assignment windows; a box bispectrum likewise. The three wavevectors of every term sum to zero.", "quantifier": "all catalogues, degrees accepted by the code, meshes, bins and assignment schemes", "why_tests_cant": "The code computes it by transforms of band-limited fields over a mirrored half of the orders; the number of triangles grows with the sixth power of the mesh size.", "anchors": ["src/triumvirate/src/threept.cpp:248-1012", "src/triumvirate/src/threept.cpp:1473-2188"]}
{"id": "C78", "title": "Symmetries of bispectra", "statement": "Raw bispectrum multipoles of even L are real and of odd L imaginary; exchanging the two degrees together with the two bins leaves the value unchanged; catalogue order does not matter; scaling all weights by a factor scales the raw bispectrum by its cube; reported effective wavenumbers lie in their bins and mode counts are exact.", "quantifier": "all catalogues, accepted degrees, nonzero factors, permutations, meshes and bins with modes", "why_tests_cant": "Tests compare stored numbers for a few degrees; the symmetries hold between runs of different configurations.", "anchors": ["src/triumvirate/src/threept.cpp:248-1012"]}
{"id": "C79", "title": "The three-point shot-noise amplitude subtracts the randoms", "statement": "The shot-noise amplitude of bispectra and three-point correlation functions is the harmonic-weighted sum of cubed data weights minus alpha cubed times that of the randoms, the contribution of triplets of an object with itself.", "quantifier": "all catalogues, alpha, degrees and orders", "why_tests_cant": "The value is only seen inside longer sums, and with many randoms alpha cubed makes the difference small.", "anchors": ["src/triumvirate/src/threept.cpp:156-237", "src/triumvirate/include/threept.hpp:159-190"]}
{"id": "C80", "title": "Shot noise of three-point correlation functions is a sum over pairs", "statement": "The shot noise reported for equal bins is the mean, over the mesh separations in the bin, of ordered pairs of different objects at that separation, one weight squared, with the coupled harmonics of the separation and the sign (-1)^(l1+l2) of the documented estimator; other bin pairs have none.", "quantifier": "all catalogues, accepted degrees, meshes and bins (NGP, no interlacing)", "why_tests_cant": "The pair sum is evaluated by transforms and a mirrored half of the orders; the sign shows only for odd l1+l2.", "anchors": ["src/triumvirate/src/threept.cpp:1014-1471", "src/triumvirate/src/field.cpp:2947-3196", "src/triumvirate/include/field.hpp:679-703"]}
{"id": "C81", "title": "Shot noise of bispectra is the contribution of coincident objects", "statement": "The bispectrum shot noise is the sum of the contributions of triplets with two or three equal objects: pairs of different objects in the bins of either side when the other degree is zero, pairs with spherical Bessel functions of their separation, and each object cubed once when both degrees are zero.", "quantifier": "all catalogues, accepted degrees, meshes and bins below the Nyquist frequency (NGP, no interlacing)", "why_tests_cant": "Four different code paths add up to it, two of them through transforms; a wrong multiple of one is hidden in the sum.", "anchors": ["src/triumvirate/src/threept.cpp:800-964", "src/triumvirate/src/field.cpp:3198-3396"]}
{"id": "C82", "title": "Three-point correlation functions are sums over pairs of modes", "statement": "The raw three-point correlation function of a bin pair is norm times i^(l1+l2)/V^2 times the sum over all pairs of modes of the spherical Bessel functions at the mean separations of the bins, the two field amplitudes, the coupled harmonics of the pair with the line of sight of each object, and the amplitude of the closing mode, all corrected for the assignment window.", "quantifier": "all catalogues, accepted degrees, schemes, meshes and bins without populated Nyquist modes; no condition on Nyquist modes for the monopole", "why_tests_cant": "The sum over pairs is never formed by the code; it arises from products of inverse transforms summed over half of the orders.", "anchors": ["src/triumvirate/src/threept.cpp:1014-1471", "src/triumvirate/src/field.cpp:1646-1770"]}
{"id": "C83", "title": "Three-point correlation functions are real and symmetric", "statement": "The raw three-point correlation function of real weights has no imaginary part, is unchanged when degrees and bins are exchanged together or the catalogue rows reordered, and scales with the cube of the weights.", "quantifier": "all catalogues, accepted degrees, schemes, meshes and bins", "why_tests_cant": "Each is a relation between two complete measurements or an exact cancellation over all modes.", "anchors": ["src/triumvirate/src/threept.cpp:1014-1471", "src/triumvirate/src/threept.cpp:2190-2620"]}
{"id": "C84", "title": "Window functions and boxes use the survey estimator", "statement": "The three-point window function without wide-angle corrections equals the three-point correlation function of the randoms weighted by alpha with no random catalogue; the box measurement is the same sum with overdensities and a fixed line of sight, and its shot noise is the excess of object pairs at each separation over the mean.", "quantifier": "all catalogues, accepted degrees, meshes and bins", "why_tests_cant": "Three separately written routines; tests compare each with stored numbers only.", "anchors": ["src/triumvirate/src/threept.cpp:2190-2620", "src/triumvirate/src/threept.cpp:2621-3060"]}
{"id": "C85", "title": "Measurements do not depend on where the catalogue sits on the mesh", "statement": "Moving all objects of the catalogues by the same whole number of mesh cells along each axis, with periodic wrapping and the lines of sight kept, leaves every power spectrum, correlation function, bispectrum and three-point correlation function, raw value, shot noise, counts and effective coordinates, unchanged.", "quantifier": "all catalogues, displacements, schemes, interlacing settings, degrees, meshes and bins; shadow meshes away from the seam of C19", "why_tests_cant": "The claim relates pairs of measurements for arbitrary displacements; wrapping errors show only for objects near the faces.", "anchors": ["src/triumvirate/src/twopt.cpp:388-903", "src/triumvirate/src/threept.cpp:248-2619", "src/triumvirate/src/field.cpp:493-1180"]}
{"id": "C86", "title": "Wide-angle corrections to windows are independent of placement on the mesh", "statement": "Wide-angle orders change only the raw window function, order zero changes nothing, and the corrected window, like the plain one, does not depend on where the catalogue sits on the mesh.", "quantifier": "all random catalogues, orders, displacements, degrees, meshes and bins", "why_tests_cant": "Stored reference numbers fix one placement; only moved catalogues show that distances are measured from the mesh corner.", "anchors": ["src/triumvirate/src/field.cpp:1727-1762", "src/triumvirate/src/threept.cpp:2621-2975"]}
{"id": "C87", "title": "The shot noise of a box bispectrum is a sum over coincident objects", "statement": "For nearest-grid-point assignment without interlacing, the shot noise reported by compute_bispec_in_gpp_box is the normalisation times: the number of objects (both degrees zero), plus, when the second (first) degree is zero, the mean over the modes of the first (second) bin of the product of amplitudes summed over ordered pairs of distinct objects (less the mean density in the zero mode) times the coupled harmonic, plus a phase times the sum over ordered pairs of distinct objects of the Bessel product and harmonic at their separation on the mesh, less the mean over all separations times the squared number of objects.", "quantifier": "all box catalogues, meshes, bins, degrees with a non-vanishing coupling, and loop orders", "why_tests_cant": "The decomposition into pairs holds for arbitrary numbers of objects; tests compare with stored numbers of the same code.", "anchors": ["src/triumvirate/src/threept.cpp:1473-2188", "src/triumvirate/src/field.cpp:3198-3396"]}
{"id": "C88", "title": "Along the axes the interlaced aliasing function is the exact mean power", "statement": "With interlacing, on the modes along any of the three axes the shot-noise aliasing function equals the squared modulus of the mean of the main-mesh and phase-corrected shadow-mesh assignment of one object averaged over its position in the cell, for NGP, CIC, TSC and PCS and grids with different numbers of cells per axis.", "quantifier": "all schemes, all grids with at least two cells per axis, all modes along the axes", "why_tests_cant": "An identity between closed forms and an integral over positions for every mode.", "anchors": ["src/triumvirate/src/field.cpp:3402-3440", "src/triumvirate/src/field.cpp:3459-3530"]}
{"id": "C89", "title": "A line of a parameter file sets the parameter it names and no other", "statement": "Reading a parameter file with `ParameterSet::read_from_file`, each line `<name> = <value>` sets exactly the parameter called <name>, comments set nothing, the last of several lines for one name wins, and the order of lines for different names does not matter.", "quantifier": "for every file text, every initial parameter set and memory content", "why_tests_cant": "tests read a few template files; which substrings of values or comments happen to be parameter names is unbounded", "anchors": ["src/triumvirate/src/parameters.cpp:94-464"]}
{"id": "C90", "title": "Parameters left out of a parameter file keep their defaults", "statement": "A parameter no line of the file names has, after `read_from_file`, its documented default: strings and numbers their initial value, and a box size or grid number left out is unset (zero), so that it is derived from the catalogue or the cutoff.", "quantifier": "for every file text and every content of the uninitialised local variables", "why_tests_cant": "uninitialised variables hold zero in most test runs", "anchors": ["src/triumvirate/src/parameters.cpp:94-464"]}
{"id": "C91", "title": "The used-parameter file reproduces the run", "statement": "The file written by `ParameterSet::print_to_file` can be given to the program again: `read_from_file` accepts it and yields the same parameters, up to the rounding of the printed decimals.", "quantifier": "for every parameter set with texts free of blanks, and every reading program state", "why_tests_cant": "no test reads back a printed file; the claim is over all parameter values", "anchors": ["src/triumvirate/src/parameters.cpp:1272-1380", "src/triumvirate/src/parameters.cpp:94-464"]}
{"id": "C92", "title": "Reading a parameter file never writes past a buffer", "statement": "`read_from_file` of any text file returns or throws; no value is stored beyond the character array it is scanned into.", "quantifier": "for every file text with lines of any length", "why_tests_cant": "overflows need particular long values and often go unnoticed when they happen", "anchors": ["src/triumvirate/src/parameters.cpp:94-464"]}
{"id": "C93", "title": "Environment overrides change the named parameter and what derives from it", "statement": "`override_paramset_by_envvars` replaces the output tag, FFTW scheme, wisdom directory, verbosity and progress-bar setting by the variables that are set, exactly as if the parameter file had said so, changes nothing else, and reports an unusable value as a parameter error.", "quantifier": "for every environment and every validated parameter set", "why_tests_cant": "tests do not set these variables; derived paths are not compared", "anchors": ["src/triumvirate/src/parameters.cpp:1382-1414", "src/triumvirate/main/triumvirate.cpp:100-180"]}
{"id": "C94", "title": "Catalogue files give one particle per line of numbers", "statement": "Loading a text catalogue with column names containing x, y and z gives one particle for each line that is neither empty nor a comment, in the order of the lines, with each field taken from the first column of its name whatever the order of the columns; absent densities are the particle number over the volume, absent weights 1, and w = ws wc; totals and extents are those of the particles. Any layout numbers are commonly written in (line ends, blank lines, separators) is either read or refused with a data error.", "quantifier": "all files, line lists, numerals (sign, point, exponent), column lists containing x, y and z, volumes and catalogues not loaded before", "why_tests_cant": "File contents, column orders and numeral spellings are unbounded; reading outside a row is undefined behaviour that a test may or may not notice.", "anchors": ["src/triumvirate/src/particles.cpp:134-158", "src/triumvirate/src/particles.cpp:383-509"]}
{"id": "C95", "title": "A catalogue load that failed can be repeated", "statement": "When load_catalogue_file fails (say because a file is missing), the catalogue keeps its particles and the same call succeeds once the files are there; a catalogue already loaded refuses another source.", "quantifier": "all catalogues, paths, column lists, and states of the disk before and after", "why_tests_cant": "Needs every failing state of the disk followed by every later call on the same object.", "anchors": ["src/triumvirate/src/particles.cpp:94-131", "src/triumvirate/src/particles.cpp:383-434"]}
{"id": "C96", "title": "A catalogue may be split over several files", "statement": "Loading files joined with `::` gives the same result and the same particles as loading one file with their texts one after the other.", "quantifier": "all lists of files and texts, column lists, volumes and catalogues", "why_tests_cant": "Number of files, their sizes and the places of the cuts are unbounded.", "anchors": ["src/triumvirate/src/particles.cpp:164-166", "src/triumvirate/src/particles.cpp:384-490"]}
{"id": "C97", "title": "Command-line arguments do what they say", "statement": "The program prints help or version and ends with success if the first option given asks for it, ends with failure at an option it does not know and without a parameter file, and otherwise runs with the first argument as parameter file; arguments after it that are no options change nothing.", "quantifier": "all argument lists and states of the machine", "why_tests_cant": "Argument lists are unbounded in length and content.", "anchors": ["src/triumvirate/main/triumvirate.cpp:108-127", "src/triumvirate/main/triumvirate.cpp:149-158"]}
{"id": "C98", "title": "The bins of the command-line program cover the range asked for", "statement": "The program makes num_bins bins from bin_min to bin_max with edges increasing, widths their differences and centres their midpoints, for every accepted scheme including `custom` and the padded ones.", "quantifier": "all validated parameter sets, box sizes and ranges", "why_tests_cant": "The range, number of bins and scheme are continuous or unbounded; the failing cases end the process.", "anchors": ["src/triumvirate/main/triumvirate.cpp:51-98", "src/triumvirate/main/triumvirate.cpp:311-321"]}
{"id": "C99", "title": "Only the catalogues a run needs are loaded, and faults are reported", "statement": "A survey run loads data and randoms, a simulation run the data, a window run the randoms, and no others; a run goes on only with particles, totals and extents of the files; a catalogue that cannot be loaded ends the program with a failure status.", "quantifier": "all validated parameter sets, files and states of the disk", "why_tests_cant": "Needs every file content and disk state.", "anchors": ["src/triumvirate/main/triumvirate.cpp:198-287"]}
{"id": "C100", "title": "A box without size is sized to hold the catalogue", "statement": "When no box size is given it is set to the extent of the particles times the expansion factor and the grid follows; a box size that is given is kept; data and randoms then fit the box.", "quantifier": "all catalogues, expansion factors and validated parameter sets", "why_tests_cant": "Particle positions are continuous and catalogues of any size.", "anchors": ["src/triumvirate/main/triumvirate.cpp:406-477"]}
{"id": "C101", "title": "Measurements are normalised by the convention asked for", "statement": "The factor given to a measurement is 1 for `none`, one over alpha times the particle sum for `particle`, one over alpha^k times the mesh integral for `mesh`, with alpha the ratio of data to random sample weights for surveys and 1 otherwise; normalisations of other conventions cannot stop a run.", "quantifier": "all validated parameter sets, catalogues and conventions", "why_tests_cant": "Sums over catalogues of any size with real weights; which conventions abort depends on every other parameter.", "anchors": ["src/triumvirate/main/triumvirate.cpp:483-594"]}
{"id": "C102", "title": "A run measures the statistic asked for on the catalogues as placed", "statement": "A run that ends has called the one measurement function of the statistic, for the box version exactly if the catalogue is a simulation, with the particles as moved into the box (one common shift for surveys, whole box lengths for simulations), weights and densities unchanged, and unit lines of sight to where the particles were loaded; once catalogues, bins and box are made, a run ends.", "quantifier": "all argument lists, parameter files, environments and catalogues", "why_tests_cant": "Composition of every stage of the program over unbounded inputs.", "anchors": ["src/triumvirate/main/triumvirate.cpp:336-391", "src/triumvirate/main/triumvirate.cpp:406-477", "src/triumvirate/main/triumvirate.cpp:600-890"]}
{"id": "C103", "title": "C++ and Python name measurement files alike", "statement": "The program saves its result in the measurement directory under the name the Python interface uses (without the suffix).", "quantifier": "all validated parameter sets, degrees, bin indices, wide-angle orders and tags", "why_tests_cant": "Degrees, indices, orders and tags are unbounded.", "anchors": ["src/triumvirate/main/triumvirate.cpp:606-866", "src/triumvirate/threept.py:196-242", "src/triumvirate/twopt.py:158-192"]}
{"id": "C104", "title": "A survey measured from Python asks the C++ library for what the command-line program asks for", "statement": "With the same parameters and catalogues, compute_powspec, compute_corrfunc, compute_bispec and compute_3pcf hand the C++ measurement function the same particles, lines of sight, parameters, bins and normalisation factor as the program does.", "quantifier": "all parameter sets, catalogues with any particles, binning schemes, alignments and conventions", "why_tests_cant": "Compares two programs over all catalogues and parameter sets; a test compares a handful of runs.", "anchors": ["src/triumvirate/twopt.py:322-665", "src/triumvirate/threept.py:384-740", "src/triumvirate/main/triumvirate.cpp:200-700", "src/triumvirate/dataobjs.pyx:139-160", "src/triumvirate/catalogue.py:490-782"]}
{"id": "C105", "title": "A periodic box measured from Python gives what the command-line program gives", "statement": "With the same parameters and catalogue the box functions hand the C++ functions the same particles and factor, or at least particles that give the same statistics.", "quantifier": "all parameter sets, catalogues with any particles and box sizes", "why_tests_cant": "Positions are continuous; equality of statistics under the displacement is a statement on every mode of the mesh.", "anchors": ["src/triumvirate/twopt.py:883-1176", "src/triumvirate/threept.py:1312-1621", "src/triumvirate/catalogue.py:648-681"]}
{"id": "C106", "title": "A window function measured from Python asks for what the command-line program asks for", "statement": "compute_corrfunc_window and compute_3pcf_window place the random catalogue as the program does for the same parameters and hand over the same lines of sight, bins and factor.", "quantifier": "all parameter sets, random catalogues, alignments and box sizes", "why_tests_cant": "Positions and box sizes are continuous; rare coordinates are wrapped differently.", "anchors": ["src/triumvirate/twopt.py:1348-1640", "src/triumvirate/threept.py:1832-2190", "src/triumvirate/main/triumvirate.cpp:406-477"]}
{"id": "C107", "title": "A parameter set that was accepted is understood by the measurement", "statement": "Entries that construction of a ParameterSet accepts (letter case of alignment, padding scale and convention; a box left to be sized from the catalogue; every planner scheme) are read by the measurement functions in the sense the C++ side took them, and never raise errors such as NameError.", "quantifier": "all accepted parameter sets and catalogues", "why_tests_cant": "The entries are texts of any spelling and combine with every other parameter.", "anchors": ["src/triumvirate/twopt.py:463-512", "src/triumvirate/twopt.py:545-600", "src/triumvirate/threept.py:470-520", "src/triumvirate/threept.py:625-668"]}
{"id": "C108", "title": "Lines of sight and bins given to a Python measurement are those it uses", "statement": "los_data, los_rand and binning arguments reach the C++ measurement function unchanged, entry by entry for the particle of the same row; where they cannot be used the function raises an error before measuring.", "quantifier": "all lists of lines of sight of any length, all Binning objects, catalogues of any size and parameter sets", "why_tests_cant": "Lists of any length against catalogues of any size; reading past the end of a list need not show in a run.", "anchors": ["src/triumvirate/twopt.py:439-460", "src/triumvirate/twopt.py:522-534", "src/triumvirate/threept.py:524-531", "src/triumvirate/_twopt.pyx:160-245", "src/triumvirate/_threept.pyx:128-225"]}
{"id": "C109", "title": "Measuring again with the same catalogue objects gives the same measurement", "statement": "Calling a measurement function of the Python package a second time with the same arguments, or after another measurement with the same catalogue object, measures the same particles, densities and lines of sight as the first call did.", "quantifier": "all catalogues, parameter sets, box sizes and sequences of measurements", "why_tests_cant": "The catalogue objects are moved and filled in place; whether this shows depends on the extent of the catalogue against the box and on the earlier calls.", "anchors": ["src/triumvirate/twopt.py:439-512", "src/triumvirate/twopt.py:1020-1045", "src/triumvirate/twopt.py:1466-1490", "src/triumvirate/threept.py:500-560", "src/triumvirate/threept.py:1464-1490", "src/triumvirate/catalogue.py:460-488", "src/triumvirate/catalogue.py:648-782"]}
{"id": "C110", "title": "A saved table is read back as the measurement", "statement": "A measurement file names its columns in order, holds one line for each bin in the order of the bins, and reading it gives back every count exactly and every other number to ten significant digits; files of the program and of Python agree.", "quantifier": "all measurements of any number of bins, all finite results, all degrees", "why_tests_cant": "Numbers of every size and sign and any number of bins; formats agree on most values and differ on a few.", "anchors": ["src/triumvirate/src/io.cpp:305-556", "src/triumvirate/twopt.py:195-317", "src/triumvirate/twopt.py:633-665", "src/triumvirate/threept.py:245-379", "src/triumvirate/threept.py:707-740"]}
{"id": "C111", "title": "The header of a saved file describes the measurement", "statement": "The header of a measurement file states the factor the measurement was multiplied by and its convention, the three alternative factors, the box, mesh and alignment in use, and the source, number, total weights and extents of the very particles measured.", "quantifier": "all parameter sets, catalogues and measurements saved as text by the program or by Python", "why_tests_cant": "Every statement must hold together for any catalogue and convention; a header stays plausible when it describes an earlier state.", "anchors": ["src/triumvirate/src/io.cpp:102-298", "src/triumvirate/twopt.py:195-274", "src/triumvirate/threept.py:245-328", "src/triumvirate/catalogue.py:821-861", "src/triumvirate/threept.py:1985-2010"]}
{"id": "C112", "title": "Saving from Python never costs the measurement", "statement": "A measurement that can be made can be saved: the argument `save` only decides on the kind of file, a wrong one is refused before measuring, and measurements of different quantities with one output tag are saved to different files.", "quantifier": "all measurement functions, arguments, catalogues and values of `save`", "why_tests_cant": "Refusals depend on entries present, spellings and the order of steps in combination; overwriting shows only across two runs.", "anchors": ["src/triumvirate/twopt.py:158-192", "src/triumvirate/twopt.py:633-665", "src/triumvirate/threept.py:196-242", "src/triumvirate/threept.py:707-740", "src/triumvirate/threept.py:1942-1947"]}
{"id": "C113", "title": "A power spectrum convolved with a trivial window in Fourier space is unchanged", "statement": "`PowspecWinConv.convolve` with a window whose monopole is one and whose other multipoles vanish returns, at the output wavenumbers, the power-spectrum multipoles it was given.", "quantifier": "all formulae with a unit monopole term, multipole degrees, sampling points, pivots, low-ringing settings and samples", "why_tests_cant": "The result passes through two logarithmic Hankel transforms, two interpolations and a real part; only a general argument covers every degree and sampling.", "anchors": ["src/triumvirate/winconv.py:1885-2131", "src/triumvirate/transforms.py:35-273"]}
{"id": "C114", "title": "Convolving a power spectrum leaves the caller's samples alone", "statement": "`PowspecWinConv.convolve` does not change the arrays it is given: the same call made twice returns the same result, and a multipole that vanishes is convolved like any other.", "quantifier": "all window convolutions of power-spectrum multipoles, extrapolation options and samples", "why_tests_cant": "A change in place shows only in what the caller does next, and vanishing samples only fail with some extrapolation options.", "anchors": ["src/triumvirate/winconv.py:1885-2131", "src/triumvirate/transforms.py:35-273"]}
{"id": "C115", "title": "A bispectrum convolved with a trivial window in Fourier space is unchanged", "statement": "`BispecWinConv.convolve` with a window whose monopole is one and whose other multipoles vanish returns, at the output wavenumbers, the bispectrum multipoles it was given.", "quantifier": "all formulae with a unit monopole term, pairs of degrees, sampling points, pivots, low-ringing settings and samples", "why_tests_cant": "Two-dimensional transforms with different low-ringing pivots per degree agree for the pairs usually tested.", "anchors": ["src/triumvirate/winconv.py:2378-2675", "src/triumvirate/transforms.py:275-520"]}
{"id": "C116", "title": "Convolving a bispectrum leaves the caller's samples alone", "statement": "`BispecWinConv.convolve` does not change the matrices it is given: the same call made twice returns the same result.", "quantifier": "all window convolutions of bispectrum multipoles, extrapolation options, spacings and samples", "why_tests_cant": "A change in place shows only in what the caller does next and depends on the spacing and extrapolation chosen.", "anchors": ["src/triumvirate/winconv.py:2378-2675", "src/triumvirate/transforms.py:275-520"]}
{"id": "C117", "title": "Convolved spectra are returned at wavenumbers the transforms reach", "statement": "Unless output wavenumbers are given, `PowspecWinConv` and `BispecWinConv` return their results at the wavenumbers of the input or, if common separations are given, at wavenumbers inside the range of the transform of every multipole; output wavenumbers given outside of that range are refused or warned about; input points that are not logarithmically spaced are refused or resampled over the same range.", "quantifier": "all formulae, degrees, pivots, extrapolation options, input wavenumbers and common separations", "why_tests_cant": "Each degree has its own low-ringing pivot and hence its own output points; whether their ranges share anything depends on all of them and on the spacing.", "anchors": ["src/triumvirate/winconv.py:1999-2077", "src/triumvirate/winconv.py:2493-2597", "src/triumvirate/winconv.py:1323-1375", "src/triumvirate/transforms.py:106-160", "src/triumvirate/transforms.py:345-396"]}
{"id": "C118", "title": "Window convolution coefficients are those of the convolution formula", "statement": "`calc_threept_winconv_coeff` returns the coefficient of the convolution formula for every three multipoles: 1 for a multipole with itself and 0 with another one under the monopole of the window, 1 for the window of the same multipole and 0 for another one on a constant correlation function, the negative of these for 'ic', and nothing but 0 unless the degrees couple.", "quantifier": "all triples of multipoles in any accepted form, of any degrees", "why_tests_cant": "The coefficient is a quotient of Wigner symbols over all degrees; tests compare a few rows of a published table.", "anchors": ["src/triumvirate/winconv.py:395-487"]}
{"id": "C119", "title": "Named three-point formulae are those of the coefficient function", "statement": "Every term of the formulae named 'sugiyama+19' has the coefficient `calc_threept_winconv_coeff` returns for its multipoles, every two multipoles of the formulae that couple to one of its multipoles appear in it, and all coefficients are exact fractions.", "quantifier": "all terms of the named formulae; fractions for all triples of multipoles of any degrees", "why_tests_cant": "The table is typed in by hand and the function computes Wigner symbols; floating-point comparison of some rows shows neither that all agree exactly nor that none is missing.", "anchors": ["src/triumvirate/winconv.py:136-166", "src/triumvirate/winconv.py:436-487"]}
{"id": "C120", "title": "Window convolution matrix times a model is the convolved model", "statement": "For every model, the product of the matrix of `BispecWinConv.gen_winconv_mat` with the model's multipoles laid out as one vector holds the samples of the multipoles that `convolve` returns for that model with the same integral constraint.", "quantifier": "all formulae, windows, sampling points and transform parameters accepted by the constructor; all models sampled at the input points; serial runs and any number of processes", "why_tests_cant": "It needs the convolution, a chain of transforms, splines and sums, to be linear in the samples for all models at once; a test multiplies the matrix with one model to some tolerance, and building the matrix takes hours.", "anchors": ["src/triumvirate/winconv.py:2749-3072", "src/triumvirate/winconv.py:2599-2682", "src/triumvirate/winconv.py:1503-1571", "src/triumvirate/transforms.py:436-523"]}
{"id": "C121", "title": "Vectors recorded from Python are those of the mesh asked for", "statement": "`fieldmesh.record_binned_vectors(binning, boxsize=..., ngrid=...)` returns, for every binning, one record for each mesh vector in each bin for exactly that box and grid, bin after bin; with a parameter set the box and grid given override those of the set for this call, no other entry of the set matters, and the caller's set is as it was afterwards.", "quantifier": "all binnings, box sizes and grid numbers given as one number or one for each axis, all parameter sets and dictionaries, with or without overrides", "why_tests_cant": "The call builds a set from a template with placeholders and validates it; whether a placeholder ever gets in the way, or the caller's object is written to, is a question about all binnings and sets, and tests try three.", "anchors": ["src/triumvirate/fieldmesh.py:24-89", "src/triumvirate/_field.pyx:21-74", "src/triumvirate/parameters.pyx:612-780"]}
{"id": "C122", "title": "What the Python logger writes", "statement": "Every message logged through the logger of `setup_logger` at or above its level is written once, unchanged, after its level tag and followed by the C++ stage given and nothing else, however often the logger was set up; named levels have distinct tags; every warning is written with its message, file, line, category and source line as they are.", "quantifier": "all messages, arguments, states, levels and earlier set-ups; all warning messages, file names, line numbers and source lines", "why_tests_cant": "A warning goes through `str.format` twice, so whether text is taken as a format is a question about all texts; tests check a few messages.", "anchors": ["src/triumvirate/logger.py:52-71", "src/triumvirate/logger.py:73-106", "src/triumvirate/logger.py:110-147", "src/triumvirate/logger.py:150-201"]}
{"id": "C123", "title": "The measurement directory is there when results are written", "statement": "When the program has prepared its measurement directory, the result file can be opened in it; preparing it succeeds whenever it exists or can be created, creates only the missing directories on the way, changes nothing else, does nothing the second time, and raises with nothing created when a file is in the way.", "quantifier": "all file systems, working directories, directory texts, permissions, parameter sets and output tags", "why_tests_cant": "Whether a directory text with extra slashes or dots leads where the file is later opened is a question about all texts and file systems; there is no test of it.", "anchors": ["src/triumvirate/src/io.cpp:59-87", "src/triumvirate/src/parameters.cpp:475-486", "src/triumvirate/main/triumvirate.cpp:188-196", "src/triumvirate/main/triumvirate.cpp:597-866"]}
{"id": "C124", "title": "HDF5 catalogues give a particle for every row, by the columns of its file", "statement": "Loading a catalogue from HDF5 files succeeds exactly when every file has the dataset asked for (or a first one) with real numbers, column names and a table, and the rows reach the coordinates; then there is one particle for every row, in the order of the files and rows, with position, density and weights from the columns of the file the row is in, and the same catalogue as a text file with the same rows and columns would give. Otherwise the first faulty file decides the error and the particles are left as they were.", "quantifier": "all sets of HDF5 files, numbers of rows and columns, column lists, attribute and dataset names, volumes and prior states of the catalogue", "why_tests_cant": "The repository has no test of HDF5 input, and tests with one file cannot show which file's columns a row is read by.", "anchors": ["src/triumvirate/src/particles.cpp:94-380", "src/triumvirate/src/particles.cpp:494-509"]}
{"id": "C125", "title": "Resampling returns as many points as asked for, within the original range", "statement": "resample_lin and resample_lglin, given increasing (and for the latter positive) sample points in 1-d or one or two arrays of them in 2-d, return the number of points asked for (by default as many as before), running from the first to the last of the original points without leaving their range, with the interpolated samples at those points, and raise no error.", "quantifier": "all increasing arrays of binary64 points, samples, sizes up to 2^50, spline degrees and interpolants, and all implementations of log10 and power", "why_tests_cant": "Whether 10**log10(x) falls within the range depends on the rounding at the end points: a test on a few arrays passes or fails by the points it happens to use.", "anchors": ["src/triumvirate/transforms.py:524-614", "src/triumvirate/transforms.py:616-704"]}
{"id": "C126", "title": "Bins computed in floating point cover the range without gap or overlap", "statement": "For every binning scheme, with the edges computed in double precision, set_bins leaves num_bins + 1 edges that start at bin_min (at zero when padded), end at bin_max itself and are in increasing order, so that every coordinate from the lowest edge up to bin_max is counted in exactly one bin and no other coordinate in any; each bin contains its centre, half-way between its edges, and its width is the difference of its edges, up to rounding.", "quantifier": "all binary64 limits, numbers of bins up to 2^50, padding widths, and all logarithm and exponential functions of stated accuracy", "why_tests_cant": "Rounding of the step and of every edge depends on the limits and the number of bins: the last computed edge could pass bin_max for some of them, and tests compare a few configurations with a tolerance.", "anchors": ["src/triumvirate/src/dataobjs.cpp:133-249"]}
{"id": "C127", "title": "A catalogue read in Python has the columns the name mapping asks for", "statement": "ParticleCatalogue.read_from_file returns the catalogue that ParticleCatalogue(...) makes from the columns of the file, each under the name name_mapping gives it and otherwise under its own, with nz zero and weights unity where the file has none and a warning for each; a mapping the file cannot serve is refused; either reader gives the same catalogue; unknown readers and formats are refused by name; and the arguments given are left as they were.", "quantifier": "all tables, mappings, readers, formats, names and keyword arguments", "why_tests_cant": "The columns are moved one by one, so that what a mapping gives depends on its order and on which names are in the file; a test tries one mapping on one file with the reader that is installed.", "anchors": ["src/triumvirate/catalogue.py:150-392"]}
{"id": "C128", "title": "A measured three-point window saved as text is loaded back as the window measured", "statement": "ThreePointWindow.load_from_textfiles, given for each multipole the table that a measurement with form='full' saved, returns the window whose separations are the effective ones and whose (i, j) sample is the square of alpha_contrast times the real part of raw minus shot noise (or of raw) for bins i and j, to the digits printed, whatever the order of the files; its multipoles are those of the keys in order, its sources their paths in the same order; wrong numbers of columns are refused.", "quantifier": "all sets of multipoles, numbers of bins, measured values, contrasts, orders of files and ways of writing keys", "why_tests_cant": "The result depends on the layout the measurement stores pairs of bins in, on the columns and digits printed, and on how keys sort and tables are reshaped, in three languages' worth of code; a test loads a file or two made by hand.", "anchors": ["src/triumvirate/winconv.py:949-1029", "src/triumvirate/_arrayops.py:745-825", "src/triumvirate/src/threept.cpp:2621-3078"]}
{"id": "C129", "title": "The LaTeX text of a window convolution formula writes that formula and no other", "statement": "WinConvFormulae.get_latex_expr returns the formula as one writes it: its terms in order, a minus sign or, between terms, a plus sign in front, the coefficient (nothing for one, an integer or a fraction), the window multipole and the correlation function multipole with their degrees; terms with zero coefficients are left out; and formulae with the same text are the same.", "quantifier": "all formulae with integer or fractional coefficients and all symbols without blanks", "why_tests_cant": "Whether a text can be read in two ways is a question about all pairs of formulae; a test compares a few texts with expected ones.", "anchors": ["src/triumvirate/winconv.py:569-616", "src/triumvirate/winconv.py:792-820"]}
{"id": "C130", "title": "Environment variables limit the use of GPUs and colours as documented", "statement": "The number of GPUs used is the number of devices, or TRV_GPU_MAXNUM if that is a smaller number, and their indices are 0, 1, ...; anything else in TRV_GPU_MAXNUM is ignored; GPU mode is on exactly when that number is positive and TRV_GPU_MODE is none of false, no, off and 0, and never without a device; C++ and Python logs are coloured exactly when TERM contains color and TRV_INTERACTIVE is true, yes, 1 or on.", "quantifier": "all numbers of devices and all environments", "why_tests_cant": "Whether GPUs are used depends on hardware tests do not have, and the settings are arbitrary texts.", "anchors": ["src/triumvirate/src/monitor.cpp:258-324", "src/triumvirate/src/monitor.cpp:506-521", "src/triumvirate/logger.py:61-69"]}
{"id": "C131", "title": "A window function saved to a file is loaded from it as it was", "statement": "ThreePointWindow.load_from_file(path), after save_to_file(path), returns a window with the same points, samples, diagonals, multipoles and sources, for every window and path; saving changes no other file, and windows saved under different paths are kept apart.", "quantifier": "all windows, all paths and all states of the file system", "why_tests_cant": "A test saves one window under one path with the customary extension.", "anchors": ["src/triumvirate/winconv.py:1072-1119", "src/triumvirate/winconv.py:1204-1215"]}
{"id": "C132", "title": "No particle in the box is lost or misplaced by rounding", "statement": "Computed in binary64 arithmetic, the grid location of a particle in the box is on the grid and differs from the exact one by rounding only, so that mesh assignment conserves weight and is that of particles moved by rounding errors; and a coordinate wrapped into the periodic box is in the box and differs from the original by a whole number of boxes up to rounding.", "quantifier": "all binary64 positions, box sizes, grid numbers below 2^31, assignment schemes and catalogues", "why_tests_cant": "Particles within a few units in the last place of a face hardly occur in tests, but do in catalogues of many millions or after wrapping.", "anchors": ["src/triumvirate/src/field.cpp:639-652", "src/triumvirate/src/field.cpp:752-787", "src/triumvirate/src/particles.cpp:678-699"]}
{"id": "C133", "title": "The Lanczos gamma function keeps the symmetries of the gamma function", "statement": "eval_gamma_lanczos returns for every complex number after at most one nested call; it fails exactly at 0, -1, -2, ... and is never zero; its values at conjugate arguments are conjugate; Euler's reflection formula holds exactly off the line Re z = 1/2; and on the real axis its values are real, positive for positive arguments and of the sign of sin(pi x) to the left of 1/2.", "quantifier": "all complex arguments", "why_tests_cant": "Tests compare a few values with tables; that a sum of nine terms of both signs vanishes nowhere in a half plane, and that the recursion ends everywhere, cannot be sampled.", "anchors": ["src/triumvirate/src/maths.cpp:64-115"]}
{"id": "C134", "title": "Mixed-mesh normalisation is linear in the weights of both catalogues", "statement": "Multiplying the weights of the data catalogue by ka, those of the random catalogue by kb and the contrast alpha by t (none zero), positions unchanged, divides the mixed-mesh power-spectrum normalisation factor by t ka kb, whatever the alignment, mesh and assignment scheme; the two fields enter the mesh sum symmetrically. The overload that makes its own box uses a cube of an even number of cells of the side asked for, with the volume of a cube of that side per cell, holding both catalogues with the padding asked for.", "quantifier": "every pair of distinct catalogues holding particles, however obtained, every alignment, mesh, assignment scheme and scaling", "why_tests_cant": "Universal over catalogues, meshes and weights; a test with equal data and random weights cannot tell the product of the two fields from the square of one.", "anchors": ["src/triumvirate/src/twopt.cpp:calc_powspec_normalisation_from_meshes"]}
