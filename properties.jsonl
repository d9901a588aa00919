{"id": "C01", "title": "Combining datasets conserves counts", "statement": "In exact arithmetic (for floating point see C105), for any two Data objects with the standard columns and any tolerances, the sums of the detector, monitor and time columns of d1.combine_data(d2, ret=True) (and of d1 + d2) equal the sums over d1 plus the sums over d2.", "quantifier": "every pair of datasets (any number of points, including empty), every choice of tolerances (also negative or zero)", "why_tests_cant": "A test fixes one pair of grids; the claim is about all pairs, including grids where several points of d2 fall on the same point of d1 or on none.", "anchors": ["neutronpy/data/data.py:Data.combine_data", "neutronpy/data/data.py:Data.__add__"]}
{"id": "C02", "title": "Combining merges or appends each added point, never loses or alters coordinates", "statement": "After d1.combine_data(d2) every point of d1 is still present with its own coordinates, its counts increased by exactly the counts of those points of d2 whose first within-tolerance partner in d1 it is; every point of d2 without a partner is present unchanged; nothing else is present.", "quantifier": "every pair of datasets and every tolerance vector", "why_tests_cant": "The correspondence is between all rows of input and output; a test can only enumerate the correspondence on one grid.", "anchors": ["neutronpy/data/data.py:Data.combine_data"]}
{"id": "C03", "title": "Combined data are sorted and the columns stay aligned", "statement": "The rows returned by combine_data are ordered lexicographically by (temp, e, l, k, h), temp most significant, and the ordering permutes whole points: no column is permuted differently from another.", "quantifier": "every pair of datasets, including ties in any subset of columns", "why_tests_cant": "Sortedness with aligned columns for arbitrary ties cannot be enumerated.", "anchors": ["neutronpy/data/data.py:Data.combine_data"]}
{"id": "C04", "title": "When is addition of datasets order-independent", "statement": "If all points of d1 are pairwise distinct, all points of d2 are pairwise distinct and matching is exact, then d1 + d2 and d2 + d1 hold the same points with equal counts. Without those conditions it is not: with non-zero tolerances the coordinates kept are those of the left operand, and two equal points inside d2 are merged when they match d1 but stay separate when they do not.", "quantifier": "all pairs of datasets with distinct coordinates, plus witnesses that each condition is needed", "why_tests_cant": "Commutativity is a statement about all pairs of datasets.", "anchors": ["neutronpy/data/data.py:Data.combine_data", "neutronpy/data/data.py:Data.__add__"]}
{"id": "C05", "title": "Arithmetic operators leave their operand and all other columns alone", "statement": "d * x, d / x, d // x and d ** x return a new dataset whose detector column is the elementwise result and whose other columns equal those of d; d itself is unchanged. The augmented forms d += x, d -= x, d *= x, d /= x leave the name bound to None, and d //= x raises NameError.", "quantifier": "every dataset, every scalar operand, every history of operator applications", "why_tests_cant": "Frame conditions (what does not change) and operator histories range over all columns and inputs.", "anchors": ["neutronpy/data/data.py:Data.__mul__", "neutronpy/data/data.py:Data.__truediv__", "neutronpy/data/data.py:Data.__floordiv__", "neutronpy/data/data.py:Data.__pow__", "neutronpy/data/data.py:Data.__iadd__", "neutronpy/data/data.py:Data.__ifloordiv__"]}
{"id": "C06", "title": "Normalised intensity", "statement": "For a freshly built dataset, intensity is detector/monitor*max(monitor) point by point (detector/time*max(time) when time_norm is set), is unchanged when every monitor reading is multiplied by the same positive factor, is linear in the detector column, and error is sqrt(detector) under the same normalisation. The reference value is frozen at construction: changing the monitor column afterwards, or combining in place, leaves the old reference in use.", "quantifier": "every dataset with positive monitor and time readings; every later history of edits", "why_tests_cant": "Scaling and linearity laws quantify over all datasets and factors; staleness is a history property.", "anchors": ["neutronpy/data/data.py:Data.intensity", "neutronpy/data/data.py:Data.error", "neutronpy/data/data.py:Data.__init__", "neutronpy/data/data.py:Data.combine_data"]}
{"id": "C07", "title": "Background subtraction law", "statement": "Without an interpolation key, d1.subtract_background(d2, ret=True) yields, point by point, intensity I1 - I2 and an error whose square is the larger of the two squared errors, with unit monitor and time; d1 and d2 are unchanged; d.subtract_background(d) has zero intensity everywhere. Datasets of different length are rejected with ValueError unless one of them has a single point; a one-point background is broadcast and leaves an error column of length one. Over a named column each point is reduced by the background intensity at a nearest background point.", "quantifier": "every pair of datasets with non-zero monitors and equal length", "why_tests_cant": "Pointwise law over all data.", "anchors": ["neutronpy/data/data.py:Data.subtract_background"]}
{"id": "C08", "title": "Rebinning does not depend on the number of worker processes", "statement": "Data.bin returns the same rows in the same order whatever number of worker processes the machine offers.", "quantifier": "every dataset, every bin request, every positive number of processes", "why_tests_cant": "The host fixes one CPU count per test run; chunk boundaries depend on both the number of bins and processes.", "anchors": ["neutronpy/data/data.py:Data.bin", "neutronpy/data/data.py:call_bin_parallel", "neutronpy/data/data.py:Data._bin_parallel"]}
{"id": "C09", "title": "Each rebinned point is the average of the measured points in its cell", "statement": "Every output row of Data.bin carries, for each column, the arithmetic mean over exactly the measured points within half a step (inclusive) of the cell centre in all coordinates; cells without measured points are absent; in exact arithmetic (for floating point see C104) every measured point inside the requested range lies in at least one cell, and a point on a shared cell boundary contributes to both neighbours, so counts are not conserved. The binned error is stored normalised and normalised again when read; a request for a coordinate stored under another column name is silently ignored.", "quantifier": "every dataset and every bin request with at least one bin per axis", "why_tests_cant": "Coverage of all points by the grid and the averaging law quantify over continuous positions.", "anchors": ["neutronpy/data/data.py:Data._bin_parallel", "neutronpy/data/data.py:Data.bin"]}
{"id": "C10", "title": "Columns of a dataset have one common length", "statement": "Building Data from scalars and equal-length sequences gives columns that all have the common length, scalars being repeated. With Q= given, scalars for detector, monitor and time are repeated five times regardless of the number of points, so the columns agree only for five-point data.", "quantifier": "every mixture of scalar and array arguments and every number of points", "why_tests_cant": "All combinations of argument shapes.", "anchors": ["neutronpy/data/data.py:Data.__init__"]}
{"id": "C11", "title": "Column setters are all-or-nothing", "statement": "Assigning a number to h, k, l, e or temp fills the column to the number of detector readings, assigning an array of the right length stores it, assigning one of any other length raises ValueError and leaves the dataset as it was, and assigning a plain list raises AttributeError; no other column changes. Any history of such assignments keeps all columns the same length. The detector, monitor and time setters store their value unchecked. No assignment to a column that is there, raising or not, adds a column or changes the order of the columns.", "quantifier": "every dataset, every assigned value, every history of assignments", "why_tests_cant": "Invariant over histories.", "anchors": ["neutronpy/data/data.py:Data.h", "neutronpy/data/data.py:Data.k", "neutronpy/data/data.py:Data.l", "neutronpy/data/data.py:Data.e", "neutronpy/data/data.py:Data.temp"]}
{"id": "C12", "title": "Background estimates are bounded by the data", "statement": "In exact arithmetic (for floating point see C114), estimate_background returns 0 for None, the number itself for a number, the given value for 'constant', the minimum intensity for 'minimum', and for 'percent' the mean of the requested share of lowest non-negative intensities, which lies between the smallest and the largest non-negative intensity and never decreases when the percentage increases. A share that amounts to no point gives nan.", "quantifier": "every dataset and every background specification", "why_tests_cant": "Bounds and monotonicity over all data.", "anchors": ["neutronpy/data/analysis.py:Analysis.estimate_background"]}
{"id": "C13", "title": "Default bounds select the data", "statement": "With bounds=None analysis is expected to use all points. It uses exactly the points whose h is non-zero, so points with h = 0 are silently dropped, and data with h = 0 throughout give an empty selection.", "quantifier": "every dataset", "why_tests_cant": "The error only shows for data containing h = 0; the claim characterises the selection for all data.", "anchors": ["neutronpy/data/analysis.py:Analysis.get_bounds"]}
{"id": "C14", "title": "Peak position and width are those of a weighted distribution", "statement": "For non-negative background-subtracted intensity with positive integral, position lies between the smallest and largest coordinate, moves by the same shift when the coordinate column is shifted, and squared width is non-negative and unchanged by such a shift. The width bound and shift law need a dataset without further coordinate columns: with another varying column the centre used by width leaves the data range. A scan along opposite coordinates integrates to zero.", "quantifier": "every dataset with non-negative net intensity and positive integral over ascending coordinates", "why_tests_cant": "Bounds and equivariance over all data.", "anchors": ["neutronpy/data/analysis.py:Analysis.integrate", "neutronpy/data/analysis.py:Analysis.position", "neutronpy/data/analysis.py:Analysis.width"]}
{"id": "C15", "title": "Detailed balance", "statement": "detailed_balance_factor at energy -E equals -exp(E/kT) times the factor at E, so the susceptibility computed from a scattering function obeying S(-E) = exp(-E/kT) S(E) is odd in E; the factor is 0 at E = 0, has the sign of E and is below 1.", "quantifier": "every energy and positive temperature", "why_tests_cant": "Identity over all real E and T.", "anchors": ["neutronpy/data/analysis.py:Analysis.detailed_balance_factor", "neutronpy/data/analysis.py:Analysis.dynamic_susceptibility"]}
{"id": "C16", "title": "A Scans collection after any history of updates", "statement": "After any sequence of update calls the collection holds, for every key ever supplied, the most recently supplied scan, in order of first insertion. The per-scan summaries (min_col, max_col, mean_col) are complete exactly when the last update supplied as many scans as the collection holds; otherwise they fail with IndexError. A collection created without scans rejects every update with AttributeError.", "quantifier": "every history of update calls", "why_tests_cant": "Invariant over histories.", "anchors": ["neutronpy/data/scans.py:Scans.update", "neutronpy/data/scans.py:Scans._col_func", "neutronpy/data/scans.py:Scans.min_col"]}
{"id": "C17", "title": "Neutron unit conversions are mutually inverse", "statement": "For every positive value, building an Energy from any one of energy, wavelength, wavevector, velocity, temperature or frequency and rebuilding from any other of its six properties gives the same six values; E = (hbar k)^2/2m, lambda = 2 pi/k, E = kB T = h f hold up to the unit factors in use. With several arguments the first of energy, wavelength, velocity, wavevector, temperature, frequency counts; with none construction raises.", "quantifier": "every positive real value and every ordered pair of the six quantities", "why_tests_cant": "Continuum of inputs; 30 conversions.", "anchors": ["neutronpy/energy.py:Energy.__init__", "neutronpy/energy.py:Energy.energy"]}
{"id": "C18", "title": "Energy objects stay consistent under any history of assignments", "statement": "After any sequence of assignments to energy, wavelength, wavevector, velocity, temperature or frequency the six properties are those of a fresh object built from the last assignment that did not raise, alone; only a zero wavelength or wavevector raises, and leaves the object as it was.", "quantifier": "every sequence of real-valued assignments", "why_tests_cant": "History property.", "anchors": ["neutronpy/energy.py:Energy._update_values", "neutronpy/energy.py:Energy.energy", "neutronpy/energy.py:Energy.wavelength"]}
{"id": "C19", "title": "Zero energy", "statement": "A scalar zero energy gives zero wavevector, velocity, temperature and frequency and an undefined wavelength without raising, although assigning a zero wavevector or wavelength raises. Inside an array a zero entry gets zero wavevector and undefined wavelength, and the wavelengths of the other entries are unaffected, but every other entry's wavevector becomes infinite: the conversion is not entrywise.", "quantifier": "every array of non-negative energies", "why_tests_cant": "All arrays and positions of zeros.", "anchors": ["neutronpy/energy.py:Energy._update_values"]}
{"id": "C20", "title": "Energy equality is a tolerance, not an equivalence", "statement": "Energy objects compare equal when their energies differ by less than 1e-6: reflexive and symmetric for all values, but not transitive.", "quantifier": "all triples of energies", "why_tests_cant": "Relation laws over all values.", "anchors": ["neutronpy/energy.py:Energy.__eq__"]}
{"id": "C21", "title": "Direct and reciprocal lattice are dual", "statement": "For every cell with positive lengths and angles spanning a cell: the metric tensors satisfy G * Gstar = Gstar * G = 4 pi^2 I, volume * reciprocal_volume = (2 pi)^3, the reciprocal lengths are positive, the reciprocal angles lie strictly between 0 and 180 degrees and together reproduce Gstar, and taking the reciprocal of the reciprocal parameters gives back the original cell. Bmatrix is upper triangular, and Bmatrix^T * Bmatrix = Gstar holds exactly when sin(alpha*) = sin(alpha); that includes every cell with alpha and one further angle right, and fails for instance for a rhombohedral 60 degree cell.", "quantifier": "every non-degenerate triclinic cell", "why_tests_cant": "Six real parameters.", "anchors": ["neutronpy/crystal/lattice.py:Lattice.G", "neutronpy/crystal/lattice.py:Lattice.Gstar", "neutronpy/crystal/lattice.py:Lattice.Bmatrix", "neutronpy/crystal/lattice.py:Lattice.volume", "neutronpy/crystal/lattice.py:Lattice.astar"]}
{"id": "C22", "title": "Bragg geometry", "statement": "For every cell and non-zero hkl: get_q and get_d_spacing are positive, get_q * get_d_spacing = 2 pi, get_q squared is the quadratic form of Gstar, both are unchanged by hkl -> -hkl, d scales as 1/|n| under hkl -> n hkl, and for every positive wavelength either lambda <= 2d and the reported angle lies in (0, 180] and satisfies lambda = 2 d sin(2theta/2), or lambda > 2d and the result is nan.", "quantifier": "every cell, every non-zero real hkl, every wavelength up to 2d", "why_tests_cant": "Continuum.", "anchors": ["neutronpy/crystal/lattice.py:Lattice.get_d_spacing", "neutronpy/crystal/lattice.py:Lattice.get_q", "neutronpy/crystal/lattice.py:Lattice.get_two_theta"]}
{"id": "C23", "title": "Angle between planes", "statement": "get_angle_between_planes is symmetric in its two planes, lies in [0, 180] degrees, is 0 for a plane and any positive multiple of itself, 180 for a negative multiple, and is unchanged when the whole cell is scaled.", "quantifier": "every cell, every pair of non-zero hkl", "why_tests_cant": "Continuum; needs Cauchy-Schwarz in the reciprocal metric.", "anchors": ["neutronpy/crystal/lattice.py:Lattice.get_angle_between_planes"]}
{"id": "C24", "title": "Lattice type classification", "statement": "For every cell the reported lattice type is exactly the one given by the table: triclinic (lengths pairwise distinct, angles pairwise distinct), monoclinic (lengths distinct, alpha = gamma = 90, beta not), orthorhombic (lengths distinct, all angles 90), rhombohedral (lengths equal, angles equal, below 120, not 90), tetragonal (a = b, c different, all 90), hexagonal (a = b, c different, 90, 90, 120), cubic. The rows exclude each other, a cell in no row raises ValueError, and a common scaling of the lengths changes nothing. The labelling of the axes matters: a tetragonal cell with another unique axis, a monoclinic cell with unique axis c, or a triclinic cell with two equal angles raises ValueError.", "quantifier": "every sextuple of lengths and angles", "why_tests_cant": "All equality patterns.", "anchors": ["neutronpy/crystal/lattice.py:Lattice.lattice_type"]}
{"id": "C25", "title": "Orientation matrix is a rotation and UB preserves lengths", "statement": "For every pair of orientation vectors an orientation matrix exists exactly when they are not collinear; it is a proper rotation, sends the index vector u to |u| along the first axis and v into the first two with a positive second component. |UB hkl| = get_q(hkl) for every cell whose B matrix reproduces the metric (see C21), not in general. Because U is built from the Miller indices as if they were Cartesian components, UB sends u along the first axis for cubic cells but not in general, and get_phi of a vector in the scattering plane is 90 degrees for cubic cells but not in general.", "quantifier": "every cell and pair of orientation vectors", "why_tests_cant": "Continuum.", "anchors": ["neutronpy/crystal/sample.py:Sample.Umatrix", "neutronpy/crystal/sample.py:Sample.UBmatrix", "neutronpy/crystal/tools.py:gram_schmidt"]}
{"id": "C26", "title": "Every tabulated space group is a group of the tabulated order", "statement": "For each of the 230 space groups, the operations built from its generators are pairwise distinct modulo lattice translations, number exactly total_operations, contain the identity, and are closed under composition and inverse modulo lattice translations. Each generator occurs among the operations and each operation is a product of generators; translations are reported in [0, 1).", "quantifier": "all 230 groups and all pairs of their operations", "why_tests_cant": "Tests list operations of some groups; closure of all pairs for all groups is not tested.", "anchors": ["neutronpy/crystal/symmetry.py:SpaceGroup._symmetry_operations_from_generators", "neutronpy/crystal/symmetry.py:SpaceGroup.symmetry_operations", "neutronpy/database/symmetry.json"]}
{"id": "C27", "title": "Equivalent positions form an orbit", "statement": "For every tabulated group and every position, the set of symmetrised positions modulo lattice translations contains the position, is mapped to itself by every operation of the group, and every member generates the same set; the multiplicity of distinct positions divides the number of operations.", "quantifier": "every group, every position with finite coordinates", "why_tests_cant": "Continuum of positions.", "anchors": ["neutronpy/crystal/symmetry.py:SpaceGroup.symmetrize_position"]}
{"id": "C28", "title": "Operation strings and matrices", "statement": "Parsing the text of an operation gives the rotation and translation it denotes for every triple of components of the form [-]axis{-axis}[+n/d], which includes every generator in the table, and writing a table generator again gives its text. Writing and re-reading a component returns it for rows in which no positive term follows another and translations 0, 1/n, 2/3, 3/4 and 5/6. In every other non-zero row, such as -x+y, re-reading raises NameError without a translation and silently loses the later positive terms with one; so the operations of a group re-read as themselves exactly for the groups that are neither trigonal nor hexagonal. Other translations (3/8) are rounded to 1/n when written, and a subtracted translation (x-1/2) is ignored when read. More than three components raise ValueError; components left out are zero rows.", "quantifier": "all operation strings of that form, all rows and listed translations, all operations of the 230 groups", "why_tests_cant": "Round trip over all operations in all groups.", "anchors": ["neutronpy/crystal/symmetry.py:get_generator_from_str", "neutronpy/crystal/symmetry.py:get_str_from_generator"]}
{"id": "C29", "title": "A space group can be named in any supported way", "statement": "Selecting a group by number, by table symbol, by Hermann-Mauguin symbol or by full name yields the same operations and the same reported fields; no two groups share a name or number. Constructing a group from anything else raises (AttributeError for an unknown number or string, KeyError for another type). Assigning a known name to the symbol of an existing group switches it; assigning an unknown name is not rejected and silently keeps the old group.", "quantifier": "all 230 groups, all spellings in the table, every other string", "why_tests_cant": "All lookups including strings not in the table.", "anchors": ["neutronpy/crystal/symmetry.py:SpaceGroup.__init__"]}
{"id": "C30", "title": "Generation of operations only produces products of generators", "statement": "For any generators and any stated total, everything the closure procedure returns is a finite product of the generators modulo lattice translations. If it stops by itself (no new operations) the result is closed under composition with the generators; if it reaches the stated total and that is the true number of products, likewise. A stated total smaller than the true order is not noticed, and repeated generators are counted repeatedly.", "quantifier": "every finite generator list", "why_tests_cant": "Induction over an unbounded closure procedure.", "anchors": ["neutronpy/crystal/symmetry.py:SpaceGroup._symmetry_operations_from_generators"]}
{"id": "C31", "title": "Monochromator crystal names", "statement": "GetTau accepts exactly the fifteen documented crystal names, in any case, and returns a positive tau within 1e-5 of the documented value; an unknown name raises MonochromatorError or AnalyzerError when called by such an object, KeyError without a caller and returns None for any other caller. Looking up the label of a number returns the name of the closest crystal if its tau is within 5e-4 and the empty label otherwise, and any number that close to a crystal gets that crystal's name. After any history of assignments tau of a monochromator is the value assigned last and d * tau = 2 pi whenever that value is acceptable; a rejected assignment however stays stored while d keeps the value of an earlier one.", "quantifier": "every string, every real number, every history of tau assignments", "why_tests_cant": "All reals for the label lookup; histories for the invariant.", "anchors": ["neutronpy/instrument/tools.py:GetTau", "neutronpy/instrument/monochromator.py:Monochromator.tau"]}
{"id": "C32", "title": "Argument cleaning", "statement": "_CleanArgs returns the length of the longest argument and arguments all of that length, each the given one followed by copies of its last value (the documentation says the first); it is idempotent. It fails exactly without arguments (ValueError) or when an empty argument stands beside a non-empty one (IndexError).", "quantifier": "every list of argument lists", "why_tests_cant": "All shapes.", "anchors": ["neutronpy/instrument/tools.py:_CleanArgs"]}
{"id": "C33", "title": "chop removes only negligible entries", "statement": "For arrays chop replaces exactly the entries (for complex arrays the real and imaginary parts) of magnitude below the tolerance by zero, leaves all others unchanged and is idempotent. A real number below the tolerance becomes zero even if it is large and negative; a complex number without imaginary part raises TypeError, so chop can fail on its own result; items of lists and tuples are chopped with 1e-12 whatever tolerance the caller gave.", "quantifier": "every array, list nesting and tolerance", "why_tests_cant": "All values.", "anchors": ["neutronpy/instrument/tools.py:chop"]}
{"id": "C34", "title": "Projecting out a coordinate of a resolution matrix", "statement": "project_into_plane is defined for every positive definite matrix of any size and any coordinate; the result is positive definite (and symmetric if the input is), its quadratic form is the minimum of the original form over the removed coordinate, attained at exactly one point, and the returned prefactor and matrix are the Gaussian integral r0 exp(-Q/2) over that coordinate. Projecting out two coordinates gives the same matrix and prefactor in either order.", "quantifier": "every dimension, positive definite matrix, prefactor and coordinate index", "why_tests_cant": "Continuum of matrices.", "anchors": ["neutronpy/instrument/tools.py:project_into_plane"]}
{"id": "C35", "title": "Plotted ellipses are the half-maximum contours", "statement": "ellipse returns the requested number of points at equal parameter steps of a full turn, each satisfying the ellipse equation for the given half-widths, rotation and centre; first and last point coincide. For every positive definite symmetric 2x2 matrix the curve from calculate_projection_hwhm lies on x^T M x = 2 ln 2 to 1e-7 and the two full widths belong to the eigenvalues, narrower first. The six curves of calc_projections are the half-maximum contours of the sections, and of the shadows, of the resolution ellipsoid cut at vertical momentum zero; the vertical direction is never integrated, so with a vertical correlation the plotted shadow is too small. They are drawn around the coordinates of Q along the orientation vectors if those are at right angles as index triples, otherwise around another point.", "quantifier": "every half-width pair, rotation, centre, number of points and positive definite 2x2 or 4x4 matrix", "why_tests_cant": "Continuum.", "anchors": ["neutronpy/instrument/tools.py:ellipse", "neutronpy/instrument/tools.py:calculate_projection_hwhm", "neutronpy/instrument/general.py:GeneralInstrument.calc_projections"]}
{"id": "C36", "title": "Scattering triangle", "statement": "For an energy loss W >= 0 get_kfree returns the non-negative wavevector for which the kinetic energies differ by W, and raises ScatteringTriangleError exactly when the incident energy is smaller than W; for W < 0 (energy gain) it returns nan although such a wavevector exists. For non-zero Q get_angle_ki_Q returns an angle with |kf|^2 = |ki|^2 + |Q|^2 - 2 |ki||Q| cos(angle), with the sign of the goniometer direction, its supplement if asked, and ScatteringTriangleError exactly when no triangle exists; at Q = 0 it returns a right angle for any ki and kf. The direction decides nothing but the sign: reversing it reverses the angle, its size does not matter, and zero gives zero.", "quantifier": "every ki, kf, Q, direction and energy transfer", "why_tests_cant": "Continuum, error exactly-when.", "anchors": ["neutronpy/instrument/tools.py:get_angle_ki_Q", "neutronpy/instrument/tools.py:get_kfree"]}
{"id": "C37", "title": "One-dimensional peak profiles and peak lists", "statement": "For a positive full width, gaussian and lorentzian are the linear background plus a profile that scales with the area parameter, is symmetric about the centre, takes half of its central height exactly half a full width away, decreases strictly with the distance from the centre and whose integral over [-T,T] tends to the area parameter. For all six profile functions (also voigt, gaussian2d, resolution and gaussian_ring) parameter lists concatenate: appending the parameters of further peaks adds the profile these give on a zero background, and an incomplete group at the end is ignored.", "quantifier": "every area, centre, positive width, background and position; every number of peaks", "why_tests_cant": "Continuum of parameters, improper integrals; unbounded number of peaks.", "anchors": ["neutronpy/functions.py:gaussian", "neutronpy/functions.py:lorentzian", "neutronpy/functions.py:voigt", "neutronpy/functions.py:gaussian2d", "neutronpy/functions.py:resolution", "neutronpy/functions.py:gaussian_ring"]}
{"id": "C38", "title": "Oscillator and dispersion models", "statement": "damped_harmonic_oscillator solves y'' = -p4 y' - (p2^2 + p4^2/4)(y - p0) with the starting values given by amplitude and phase; with p4 = 0 it equals simple_harmonic_oscillator, whose period is 2 pi / p2 although p[2] is documented as the period. For positive p0 and non-zero p1 the dispersions are even, lie between 0 and their top, are periodic, vanish exactly at multiples of the period and reach the top at half of it: period pi/p1 and top 2 sqrt(p0) for acoustic phonons, 2 pi/p1 and 8 p0 for ferromagnets, pi/p1 and p0 for antiferromagnets. Near zero they are linear, quadratic and linear with slopes 2 sqrt(p0)|p1|, 2 p0 p1^2 and p0 |p1|. A negative p0 gives nan for acoustic phonons and non-positive energies for magnets; too few parameters raise IndexError.", "quantifier": "every parameter vector and position", "why_tests_cant": "Differential equation over all times.", "anchors": ["neutronpy/models.py:simple_harmonic_oscillator", "neutronpy/models.py:damped_harmonic_oscillator", "neutronpy/models.py:acoustic_phonon_dispersion", "neutronpy/models.py:ferromagnetic_disperion", "neutronpy/models.py:antiferromagnetic_disperion"]}
{"id": "C39", "title": "Fixed parameters stay fixed and free ones come back in order", "statement": "For list or array starting values, tuple data and a parinfo list of the same length whose entries are None or dictionaries with documented keys: whatever the optimiser does, fit hands it one parameter per starting value with that value, the documented limits and free exactly if not fixed; every call of the residual function gets all parameters in the order of params0 with the fixed ones at their starting values, and so do the reported parameters. If all are fixed the fit raises an Exception before the residual function is called and the previous result stays; a length mismatch raises AssertionError, params0=None TypeError, other types ValueError. The first entry of parinfo whose limits are None raises TypeError, with less than two limits IndexError, before the residual function is called.", "quantifier": "every parameter vector, every fixed mask, every optimiser behaviour", "why_tests_cant": "Quantifies over all optimiser trajectories.", "anchors": ["neutronpy/lsfit/fitter.py:Fitter.fit", "neutronpy/lsfit/tools.py:convert_params"]}
{"id": "C40", "title": "What a resolution calculation depends on besides its point", "statement": "calc_resolution stores for each point, in order, a positive prefactor, the matrix RM in the frame of Q and RMS, the same quadratic form for a displacement given along the sample axes (orient1, across it, vertical, energy), positive definite for Q in the scattering plane. Without a sample shape a call gives the same results whatever calls were made before, failed ones included. Within one call the points are independent of each other if no divergence is negative and, in Popovici's method, both crystals have sense +1; otherwise each point sees guide divergences frozen by the first point and curvatures whose sign has been applied once per earlier point, so equal points can get different matrices. With a sample shape every call at one point, also one that raises, turns the stored shape once more by the direction of Q, and after a call at two or more points every later call raises ValueError.", "quantifier": "every spectrometer, cell and orientation, every list of points, every history of calls", "why_tests_cant": "History dependence: the effect appears only in sequences of calls on one object, and agreement must hold for all of them.", "anchors": ["neutronpy/instrument/tas_instrument.py:TripleAxisInstrument.calc_resolution", "neutronpy/instrument/tas_instrument.py:TripleAxisInstrument.calc_resolution_in_Q_coords"]}
{"id": "C41", "title": "Results kept by get_resolution", "statement": "get_resolution returns the stored results of the last successful calculation whenever the points compare equal to the stored ones: also after the spectrometer, sample or orientation has been changed (even if the point has become unreachable), and also for points whose calculation has just raised an exception, which then get the results of other points. If nothing has been changed since the last successful calculation and the sample has no shape, it agrees with a new calculation, exceptions included, for the same number of points. A number in place of an array of copies, or the reverse, returns as many results as there were points in the calculation.", "quantifier": "every interleaving of parameter changes, calculations and queries", "why_tests_cant": "Schedules of calls.", "anchors": ["neutronpy/instrument/general.py:GeneralInstrument.get_resolution", "neutronpy/instrument/tas_instrument.py:TripleAxisInstrument.calc_resolution"]}
{"id": "C42", "title": "Resolution matrices of a triple-axis spectrometer are valid", "statement": "A triple-axis spectrometer with no vanishing divergence, mosaic, size, radius or length and senses +1 or -1 gives, for every list of points it can reach (positive energies, Bragg angles that exist, Q strictly between |ki - kf| and ki + kf), one positive prefactor and one symmetric positive definite resolution matrix per point, in order, by every method and with any combination of guides, mosaics, sizes, curvature and analyzer thickness. A point is rejected with ScatteringTriangleError exactly if the cosine of the scattering angle exceeds 1 in absolute value by more than about 5e-25. Reversing all three senses of scattering (and viewing the sample in the mirror) leaves prefactors unchanged and reflects the matrices. Opening collimators or enlarging mosaics or pieces never narrows the resolution in any direction. The vertical direction is independent of the others unless a sample shape given for Popovici's method couples it.", "quantifier": "every spectrometer, every list of reachable points, every direction", "why_tests_cant": "Continuum in more than ten parameters.", "anchors": ["neutronpy/instrument/tas_instrument.py:TripleAxisInstrument.calc_resolution_in_Q_coords"]}
{"id": "C43", "title": "Sample axes are orthonormal", "statement": "For every unit cell and non-collinear orienting vectors the axes x, y, z of the sample's coordinate system are orthonormal in the reciprocal metric and right-handed, x is along orient1 and orient2 lies in the x-y plane on the positive y side; the lattice returned for this purpose has the cell's volume, the reciprocal volume and lengths 2 pi / d. The in-plane components of the direction of Q have squares adding up to at most one, and to one exactly if Q lies in the plane of orient1 and orient2. Collinear vectors raise ScatteringTriangleError, except that a zero orient1 gives nan axes without an exception.", "quantifier": "every unit cell, every pair of orienting vectors, every momentum transfer", "why_tests_cant": "Continuum.", "anchors": ["neutronpy/instrument/tas_instrument.py:TripleAxisInstrument._StandardSystem", "neutronpy/instrument/tas_instrument.py:TripleAxisInstrument.get_lattice", "neutronpy/instrument/tools.py:_scalar", "neutronpy/instrument/tools.py:_star"]}
{"id": "C44", "title": "Time-of-flight resolution", "statement": "Whenever a time-of-flight instrument returns numbers for (Q, W), the matrix is 8 ln 2 times the inverse covariance, turned by the angle between ki and Q, of the four components (momentum and energy transfer computed from flight times, distances and angles) when the nine numbers of the flight vary independently with the stated uncertainties; it is positive definite and the prefactor positive. The inversion fails exactly when some combination of the components is insensitive to every uncertain number; otherwise, wherever the scattering triangle closes, numbers are returned, and where it does not ScatteringTriangleError is raised. The default instrument has a matrix at every point of its plane with nonzero Q below 2 ki for which the triangle closes. W below zero never gives numbers. Choppers are used in order of distance whatever order they are given in, only the nearest two count, and one alone makes every calculation raise IndexError. The orientation of a cylindrical detector has no effect. The flight the derivatives are taken at has energy transfer W, but its momentum transfer has the length of Q only for elastic points (or q^2 = ki (ki - kf)) in the horizontal plane. The prefactor depends on the size of the cell. An empty list of choppers is the same as none given: two default ones.", "quantifier": "every instrument, every (Q, W)", "why_tests_cant": "Continuum, permutations, and derivatives.", "anchors": ["neutronpy/instrument/tof_instrument.py:TimeOfFlightInstrument.__init__", "neutronpy/instrument/tof_instrument.py:TimeOfFlightInstrument.calc_resolution_in_Q_coords"]}
{"id": "C45", "title": "Component parameters reach the component", "statement": "A Monochromator and a Sample store exactly the arguments they are given, an omitted one leaving no attribute. An Analyzer stores tau, mosaic, horifoc, thickness and Q, but whatever direct, vmosaic, height, width, depth, rh and rv are passed, its direct is -1 and the others are missing; assigned afterwards, each attribute reads as assigned and no other changes, except that tau renews the spacing d. A Material stores its mosaic as orientation vector u, its vmosaic as v, its dir as mosaic, its u as vmosaic and its v as direct.", "quantifier": "every argument value, given or omitted", "why_tests_cant": "Holds for every combination of given and omitted arguments, not for the defaults tests use.", "anchors": ["neutronpy/instrument/monochromator.py:Monochromator.__init__", "neutronpy/instrument/analyzer.py:Analyzer.__init__", "neutronpy/crystal/material.py:Material.__init__", "neutronpy/crystal/sample.py:Sample.__init__"]}
{"id": "C46", "title": "Chopper opening time", "statement": "The tau of a chopper is the override if one is given, whatever the rest. Otherwise it is positive and inversely proportional to the speed. For a disk with radius it is the standard deviation of the time the opening takes to pass, divided by 10^6/(2 pi), and grows with the opening; for a disk without radius it is the time divided by the square of the opening in degrees, and for a Fermi chopper the time of an angle in radians taken as degrees divided by its square, regardless of counter rotation: both shrink as the opening grows. ChopperError is raised exactly without override for a kind other than 'disk' and 'fermi' and for a Fermi chopper without depth. With a number as opening, ZeroDivisionError is raised exactly without override for a disk at rest, a disk of radius 0, a disk without radius and of opening 0, and a Fermi chopper of depth 0; a Fermi chopper at rest or of opening 0 has an infinite tau. repr of a chopper always raises.", "quantifier": "every chopper configuration, all positive numbers", "why_tests_cant": "All configurations and a continuum of values; units and monotonicity are not visible at one value.", "anchors": ["neutronpy/instrument/chopper.py:Chopper.tau", "neutronpy/instrument/chopper.py:Chopper.__repr__"]}
{"id": "C47", "title": "Nuclear structure factor", "statement": "Nuclear structure factor of a Material. It is a number exactly when every atom position, read as hkl, satisfies Bragg's law at the material's wavelength, and nan otherwise. With real scattering lengths F(-h) is the conjugate of F(h) (this fails with complex lengths), and a list of atoms together with their inverses has real F. For atoms without displacements: F is the sum over atoms of occupancy times scattering length times exp(2 pi i (hx + ky + lz)); shifting all atoms changes the phase only; moving atoms by lattice vectors changes nothing at integral hkl; in a Material built with a space group F(hR) = exp(-2 pi i h.t) F(h) for every operation (R, t), so reflections fixed by an operation with a non-integral phase, and those forbidden by the lattice centring, have F = 0. Displacement factors are evaluated at the atom's position instead of hkl: one atom has the same |F| at every hkl, and moving a displaced atom by a lattice vector changes |F|. With massNorm the occupancy enters squared.", "quantifier": "every material, atom list, space group and hkl", "why_tests_cant": "All structures, space groups and reflections.", "anchors": ["neutronpy/crystal/structure_factors.py:NuclearStructureFactor.calc_nuc_str_fac"]}
{"id": "C48", "title": "Magnetic form factor", "statement": "The magnetic form factor depends on q only through q^2; at q = 0 it is the sum of the four j0 amplitudes for every g (j2 = j4 = 0), within 0.0025 of one for every tabulated ion; with the default g it equals j0 and stays within the sum of the absolute amplitudes for every ion except Cr2+, Mn2+ and Mn3+, whose tabulated negative exponents make it unbounded. Arrays are evaluated entry by entry, lists raise TypeError, unknown ions raise KeyError.", "quantifier": "every ion's coefficients and every q", "why_tests_cant": "Continuum.", "anchors": ["neutronpy/crystal/structure_factors.py:MagneticFormFactor.calc_mag_form_fac"]}
{"id": "C49", "title": "File type detection and loading several files", "statement": "The type of a data file is decided by its name first (.nxs is grasp; .iexy, .spe, .xye and lower-case .xyie are dcs_mslice; .h5 and .npy are neutronpy, in any case of letters and even if the file is missing), otherwise by the first sign found in its first two lines, in the order ice, spice, grasp, icp, mad, neutronpy; without any sign ValueError. Text files written by save_data are recognised under any undecided name. With 'auto' the type of the first file is used for all, so a later file of another type is handed to the wrong loader. Type names ignore case except 'auto'. Loading several files with the same columns always succeeds and the total detector, monitor and time counts are the sums over the files, whatever the tolerance.", "quantifier": "every file name and content; every list of files; every loader result", "why_tests_cant": "All names, contents and lists.", "anchors": ["neutronpy/fileio/data.py:detect_filetype", "neutronpy/fileio/data.py:load_data"]}
{"id": "C50", "title": "Saving data does not change it", "statement": "save_data as ascii leaves a dataset without errors of its own untouched. If errors were given, they are added as a column 'error': nothing else changes, but the dataset is no longer equal to a copy, cannot be combined with an unsaved dataset of two or more coordinates (ValueError either way), and cannot be saved as hdf5 any more. If a dataset without errors was once asked for its error attribute, saving it as ascii fails from then on and leaves a None column. Saving again changes nothing more and the files load alike. An ascii file is replaced even with overwrite=False; an hdf5 file is not.", "quantifier": "every dataset and every history of saves", "why_tests_cant": "Frame condition over histories of saves.", "anchors": ["neutronpy/fileio/data.py:save_data", "neutronpy/fileio/data.py:Neutronpy", "neutronpy/data/data.py:Data.__eq__"]}
{"id": "C51", "title": "Instrument files round trip", "statement": "Saving a triple-axis instrument as ascii and loading the file restores each of the 51 attributes in it (numbers, texts, arrays; numbers come back as floats, arrays as lists, None and booleans as texts), everything else is as in a new instrument: the monitor width, the choice of a focusing analyzer and the sample shape are lost. This holds if texts fit on one line, arrays have equally wide elements (not 40, 40, 120, 40) and there is no smoothing; otherwise the file is written but loading it raises ValueError, with smoothing AttributeError. A loaded instrument with collimations can be saved but its file cannot be loaded. With overwrite=False, the default, saving to a new file raises OSError; over a longer file its last characters stay, and loading can then fail or give attributes the instrument does not have. Infinities and nan are read as numbers too, in capitals or not, with or without a sign.", "quantifier": "every instrument with printable attributes; every previous file content", "why_tests_cant": "All attribute values and previous file contents.", "anchors": ["neutronpy/fileio/instrument.py:save_tas_instrument", "neutronpy/fileio/instrument.py:load_instrument"]}
{"id": "C52", "title": "Goniometer rotations", "statement": "The tilt matrices N and M of a goniometer, and their product, preserve lengths, angles and handedness; N fixes the first and M the second axis; N turns the second axis towards the third and M the third towards the first, by the tilt in degrees; they compose and invert as the angles add and negate. Omega and R raise RecursionError and Theta raises AttributeError for every goniometer. u_phi gives unit vectors that, for equal tilts, enclose the difference of their angles. U exists exactly for non-parallel u and v and maps u, v and their cross product to the measured directions and the vertical axis; for orthonormal u and v measured 90 degrees apart it is a rotation exactly if the lower tilt is zero (modulo a turn), and for u, v not of unit length it is none.", "quantifier": "all angles, all pairs of vectors", "why_tests_cant": "Continuum.", "anchors": ["neutronpy/instrument/goniometer.py:Goniometer"]}
{"id": "C53", "title": "Space-group operations are isometries of the cells of their lattice type", "statement": "For every tabulated space group and every unit cell of the lattice type it reports (monoclinic with unique axis b, trigonal and hexagonal in hexagonal axes), every operation preserves all lengths and angles of the cell's metric and has determinant 1 or -1. Hence the images of two atom positions under one operation are as far apart as the atoms, and symmetry-equivalent reflections have the same d-spacing and |Q|. In rhombohedral axes this fails for the R groups.", "quantifier": "all 230 groups, all their operations, all real cells of the lattice type, all positions and reflections", "why_tests_cant": "Continuum of cells, positions and reflections for every operation of every group.", "anchors": ["neutronpy/crystal/symmetry.py:SpaceGroup", "neutronpy/crystal/lattice.py:Lattice.G", "neutronpy/crystal/lattice.py:Lattice.get_d_spacing", "neutronpy/database/symmetry.json"]}
{"id": "C54", "title": "Centring, point group and crystal system of a space group are consistent", "statement": "For every tabulated group the pure translations among its operations are exactly the centring translations of the first letter of its symbol; its rotations are, kind by kind, those of the point group it reports, each occurring once per centring translation; and its lattice type is the crystal system of its number, with every number from 1 to 230 present. No two of the 230 groups have the same operations.", "quantifier": "all 230 groups and all their operations", "why_tests_cant": "Relates every operation of every group to independent tables; tests sample a few groups.", "anchors": ["neutronpy/crystal/symmetry.py:SpaceGroup", "neutronpy/database/symmetry.json"]}
{"id": "C55", "title": "Ions a Material can contain", "statement": "Without a space group a Material can be built exactly when every ion has a mass in the periodic table and a scattering length; an ion without a mass raises KeyError, so none of the 266 isotopes of the scattering table can be used although Atom accepts them. Of the periodic table thirteen elements raise KeyError (no scattering entry) and seven, among them Pu, raise TypeError (unknown length).", "quantifier": "every composition and every ion name", "why_tests_cant": "All compositions and the whole tables.", "anchors": ["neutronpy/crystal/material.py:Material.__init__", "neutronpy/crystal/atom.py:Atom.__init__"]}
{"id": "C56", "title": "Material with a space group", "statement": "The atoms are, entry by entry, the images of the position under every operation; each image is kept, so an entry always contributes as many atoms as the group has operations and an atom on a special position is counted repeatedly. If the last entry has no Uaniso every atom gets zero Uaniso; if it has one and another entry has none, no Material is built. No Material is built without a lattice or with a magnetic unit cell.", "quantifier": "every composition and space group", "why_tests_cant": "All compositions and 230 groups.", "anchors": ["neutronpy/crystal/material.py:Material.__init__", "neutronpy/crystal/symmetry.py:SpaceGroup.symmetrize_position"]}
{"id": "C57", "title": "Cross sections, thickness and number of units", "statement": "For every Material with positive occupancies in a valid cell the optimal thickness is a positive number d with exp(-Sigma d) equal to the requested transmission, where Sigma is the occupancy-weighted sum of coherent, incoherent and sqrt(25.3/E)-scaled absorption cross sections per cell volume; it never decreases with the energy and strictly decreases with the transmission. total_scattering_cross_section always exists, is the plain sum over atoms and ignores occupancies. N_atoms is Avogadro's number times mass over the mass of the listed composition, i.e. it counts composition units, whatever the space group. The incoherent elastic cross section is proportional to the mass and without displacements is the sum of the incoherent cross sections over 4 pi.", "quantifier": "every material, energy, transmission and mass", "why_tests_cant": "All materials and a continuum of energies and transmissions.", "anchors": ["neutronpy/crystal/material.py:Material.calc_optimal_thickness", "neutronpy/crystal/material.py:Material.total_scattering_cross_section", "neutronpy/crystal/material.py:Material.N_atoms", "neutronpy/crystal/material.py:Material.calc_incoh_elas_xs"]}
{"id": "C58", "title": "Reported Bragg, phonon and extent widths", "statement": "For every positive definite 4x4 matrix get_phonon_width returns the full width at half maximum seen through the dispersion plane c.x: half of it is reached on the half-maximum contour and exceeded nowhere inside. fproject returns the half-extent of the half-maximum ellipsoid along coordinate 0, 1 or 2 and raises ValueError for any other index. get_bragg_widths returns five numbers, for Qx, Qy, Qz, the energy of an incoherent scatterer and E, each twice the full width at half maximum: the Gaussian is 1/2 at a quarter and 1/16 at half of the returned width.", "quantifier": "every positive definite matrix and dispersion plane with non-zero energy slope", "why_tests_cant": "All positive definite matrices; extremality over a continuum of points.", "anchors": ["neutronpy/instrument/tools.py:get_bragg_widths", "neutronpy/instrument/tools.py:get_phonon_width", "neutronpy/instrument/tools.py:fproject"]}
{"id": "C59", "title": "Two-dimensional peaks and the Voigt profile", "statement": "For positive widths gaussian2d has its only maximum at the centre, half maximum on the ellipse with half-axes half the full widths, and volume p[2]. resolution has half maximum exactly on the contour x^T M x = 2 ln 2 and volume p[2] for every positive definite M; its documented prefactor R0 has no effect, and for any mode but 'gaussian' only the background is returned. gaussian_ring depends only on the elliptic radius, is largest on the ring, has half of that half a width inside and outside it and volume p[2]. voigt is the area times the convolution of the unit-area gaussian and lorentzian with the given full widths and is symmetric about the centre. Fewer than two parameters raise IndexError.", "quantifier": "every volume, centre, positive width or positive definite matrix, background and position", "why_tests_cant": "Improper double integrals and convolutions over a continuum of parameters.", "anchors": ["neutronpy/functions.py:gaussian2d", "neutronpy/functions.py:resolution", "neutronpy/functions.py:gaussian_ring", "neutronpy/functions.py:voigt"]}
{"id": "C60", "title": "Reuse of a fitter and its reported statistics", "statement": "After a successful fit, calling the fitter returns the previous parameters without fitting, whatever data and starting values are given since. The first fit without parinfo fixes the number of parameters: later fits with another number raise AssertionError. A tuple params0 is accepted but no fit with it succeeds, nor one whose data was not a tuple, since such data is silently ignored. dof reports the number of free parameters and nfree the number of residuals minus free parameters (the documented meanings exchanged), and stderr is the standard error multiplied once more by the square root of the reduced chi squared.", "quantifier": "every optimiser behaviour, every sequence of fits and settings, every parinfo", "why_tests_cant": "Quantifies over optimiser behaviours and call histories.", "anchors": ["neutronpy/lsfit/fitter.py:Fitter.__call__", "neutronpy/lsfit/fitter.py:Fitter.fit", "neutronpy/lsfit/fitter.py:Fitter.dof", "neutronpy/lsfit/fitter.py:Fitter.nfree", "neutronpy/lsfit/fitter.py:Fitter.stderr"]}
{"id": "C61", "title": "The resolution matrix describes the spread of rays", "statement": "The inverse of the resolution matrix is the covariance of momentum and energy transfer when rays occur with the Gaussian weight of collimator angles over divergences, block orientations over mosaics and, in Popovici's method, positions over sizes of guide, curved crystals, sample and detector: for every direction it equals the maximum over rays of twice the first-order change of the transfer minus the weight, plus sample mosaic times Q squared. A negative divergence is a guide of that coating. With a horizontally focusing analyzer the in-plane spread of kf is replaced by the mosaic and divergence contributions taken as independent.", "quantifier": "every usable spectrometer, every reachable point, every direction of (Q, energy), every ray", "why_tests_cant": "A continuum of instruments, points and rays; regression values cannot show that the matrix means what it should.", "anchors": ["neutronpy/instrument/tas_instrument.py:TripleAxisInstrument.calc_resolution_in_Q_coords"]}
{"id": "C62", "title": "What the prefactor leaves out", "statement": "With sample mosaic the prefactor goes down as the square root of the determinant of the resolution matrix only if horizontal and vertical mosaic agree up to sign or the two widths across Q do; otherwise each mosaic is combined with the width of the other direction. The width of a monitor whose height is given has no influence on any result. Leaving moncor undefined gives the results of moncor=1; every other whole number gives those of moncor=0, and then the monitor has no influence on any result at all.", "quantifier": "every usable spectrometer, every reachable point, all mosaics and widths", "why_tests_cant": "Continuum; the usual tests give one mosaic for both directions.", "anchors": ["neutronpy/instrument/tas_instrument.py:TripleAxisInstrument.calc_resolution_in_Q_coords"]}
{"id": "C63", "title": "Parameters of the resolution in a plane", "statement": "get_resolution_params works only for the point of a single-point calculation: mode 'project' returns the matrix of the Gaussian integrated over the remaining axis at vertical coordinate 0, with the factor sqrt(2 pi / M) of that integral applied to the prefactor twice; mode 'slice' returns the entries of the matrix with that factor applied once, although nothing is integrated. A point other than those calculated last raises InstrumentError without calculating, unless nothing has been calculated before. After a calculation at several points the planes QxQy, QxW, QyW raise UnboundLocalError. Every other plane, the documented 'QxQySlice', 'QxWSlice' and 'QyWSlice' included, and every other mode gives None.", "quantifier": "every instrument state, point, plane and mode, every positive definite matrix", "why_tests_cant": "Continuum of matrices; the prefactor is compared with an improper integral.", "anchors": ["neutronpy/instrument/general.py:GeneralInstrument.get_resolution_params", "neutronpy/instrument/tools.py:project_into_plane"]}
{"id": "C64", "title": "Smoothing", "statement": "Smoothing widths with X = 0 have no effect, whatever Y, E and Z. With X nonzero the matrix RM is unchanged, but the prefactor and every off-diagonal entry of RMS become nan; on the diagonal the inverse entries grow by the squared smoothing widths over 8 ln 2, in the order X, Y, E, Z, so that E acts on the vertical and Z on the energy.", "quantifier": "every usable spectrometer, every list of reachable points in the scattering plane, all smoothing widths", "why_tests_cant": "Continuum of instruments and widths.", "anchors": ["neutronpy/instrument/tas_instrument.py:TripleAxisInstrument.calc_resolution", "neutronpy/instrument/tas_instrument.py:TripleAxisInstrument.Smooth"]}
{"id": "C65", "title": "Numbers a time-of-flight instrument works with", "statement": "Each of the thirteen override attributes replaces exactly one of the numbers used, in microseconds, centimetres or degrees, but does not help an instrument whose parts cannot provide that number: without a sample distance every calculation raises AttributeError. Moving both choppers and the sample by the same amount changes the path from second chopper to sample used by that amount: the path is the distance of the sample from the source. Detector pixels smaller than the mosaic have no effect. A detector without vertical pixels never gives numbers, unless the vertical angle is overridden. The guide divergence is multiplied by the wavelength and then, though in radians, converted as if in degrees, so it is less than a fiftieth of the accepted angle.", "quantifier": "every instrument", "why_tests_cant": "Quantifies over all configurations.", "anchors": ["neutronpy/instrument/tof_instrument.py:TimeOfFlightInstrument.calc_resolution_in_Q_coords", "neutronpy/instrument/guide.py:Guide.sigma_theta"]}
{"id": "C66", "title": "Equality of components", "statement": "Two Monochromators, and two Samples, compare equal exactly when they were given the same arguments, an omitted argument differing from any given one. Hence a crystal given by name differs from the one given by the number the name stands for, although both have the same spacing. Two Analyzers compare equal exactly when reflection, mosaic, focusing, thickness and reflectivity agree, whatever directions, vertical mosaics, sizes and curvatures they were given.", "quantifier": "all argument values, orientation vectors being arrays and the others not", "why_tests_cant": "An equivalence over all pairs of objects.", "anchors": ["neutronpy/instrument/monochromator.py:Monochromator.__eq__", "neutronpy/crystal/sample.py:Sample.__eq__"]}
{"id": "C67", "title": "Guides", "statement": "The path length uncertainty of a guide is not negative, zero only without cross-section, and at most (w^2 + h^2) / 2l. Its divergence is 2.03 mrad for m = 1, increases with m, and its sine grows with the square root of m, so that m = 4 gives less than three times the value for m = 1; the vertical equals the horizontal one; negative m gives nan.", "quantifier": "all lengths and cross-sections, m from 0 to 100", "why_tests_cant": "Continuum.", "anchors": ["neutronpy/instrument/guide.py:Guide"]}
{"id": "C68", "title": "Time-of-flight matrix in reciprocal lattice units", "statement": "The matrix RMS of a time-of-flight instrument weights a displacement in reciprocal lattice units like RM weights its components along and across the scattering vector, for cubic cells with u and v along the first two axes. For orthorhombic cells it does not: at (0, k, 0) a displacement along h is weighted (a/b)^2 times, one along k (b/a)^2 times what it should be.", "quantifier": "every point, every resolution matrix, every displacement", "why_tests_cant": "Quantifies over all displacements and matrices; with a cubic sample nothing is visible.", "anchors": ["neutronpy/instrument/tof_instrument.py:TimeOfFlightInstrument.calc_resolution"]}
{"id": "C69", "title": "Data files round trip", "statement": "Saving a dataset with at least two points and columns as ascii and loading the file gives back every column and the names of the special columns; no other file is touched. Errors come back as an ordinary column and not as errors, so points that used to be merged when combining may stay separate. The header comes back with a tab before every line, without blanks after hashes and without its last line. A dataset with one point comes back with numbers instead of columns. Datasets of one point, which come back with numbers instead of columns, compare equal only if these numbers are equal.", "quantifier": "every dataset with at least one point and two columns whose names and header lines do not look like the file's own marks", "why_tests_cant": "All datasets.", "anchors": ["neutronpy/fileio/data.py:save_data", "neutronpy/fileio/data.py:Neutronpy.load"]}
{"id": "C70", "title": "Instruments from par and cfg files", "statement": "load_instrument with a par and a cfg file needs a line KFIX that the documentation of the format does not name: files with only documented names fail with KeyError, whatever the cfg file; a line of fewer than two words fails with IndexError. Of every line of the cfg file the number at its start is read; the first blank line fails with IndexError, the first that does not start with a number with ValueError. Complete files load and give the lattice, orientation vectors, d-spacings, mosaics, collimations, arms, fixed energy and crystal curvatures of the files; a neutron guide limits the first collimation. The sample mosaic and scattering sense have no influence on the loaded instrument; with flat crystals no scattering sense has. Sizes of source, detector and monitor are converted to standard deviations and then taken for widths again, so their variances are too small by a factor 12, while those of the crystals are right; the sample variances are proportional to its sizes instead of their squares. A crystal spacing of zero raises ZeroDivisionError.", "quantifier": "every pair of files and every conversion of texts to numbers", "why_tests_cant": "All files; relation between files and physical variances.", "anchors": ["neutronpy/fileio/instrument.py:load_instrument"]}
{"id": "C71", "title": "Instruments as Takin files", "statement": "save_instrument(filetype='taz') fails with IndexError, writing nothing, when there are fewer than four collimations or five arms. Otherwise load_instrument gives back the last four horizontal and vertical collimations and the last five arms as numbers, while all other attributes in the file come back as texts; fixed energy, reflections, lattice and orientation are not in the file and come back as those of a new instrument. Attributes the saved instrument does not have come back as numbers that belong to other attributes (an analyzer without sizes is 100 m wide). No instrument loaded from such a file can calculate a resolution (TypeError). A second round trip changes nothing more. With overwrite=False the file has to exist, and becomes unreadable if it held more text than is written now. Loading a missing file raises OSError, a document without one of the elements AttributeError.", "quantifier": "every instrument, every state of the files", "why_tests_cant": "All instruments and all histories of saves.", "anchors": ["neutronpy/fileio/instrument.py:load_instrument", "neutronpy/fileio/instrument.py:save_tas_instrument"]}
{"id": "C72", "title": "Instruments as hdf5 files", "statement": "Saving an instrument as hdf5 and loading it gives back every attribute the format knows, with lists as arrays and texts of the instrument itself (such as method) as bytes; what the instrument does not have is that of a new one; no other file is touched; a second round trip changes nothing more. Smoothing parameters are written but make the file unloadable (AttributeError). One attribute that is None makes saving fail with TypeError half way and leaves a file that cannot be loaded and to which no instrument can be added. With overwrite=False a file with an instrument is left alone (ValueError), one without gets the instrument beside what it holds. Loading a file that does not exist raises OSError, one without an instrument KeyError; neither gives a default instrument.", "quantifier": "every instrument, every state of the files", "why_tests_cant": "All instruments and all histories of saves.", "anchors": ["neutronpy/fileio/instrument.py:load_instrument", "neutronpy/fileio/instrument.py:save_tas_instrument"]}
{"id": "C73", "title": "Column files of other programs", "statement": "Loading an ICP, MAD, ICE, SPICE or GRASP ascii file pairs every name of the line with names with the column of that position: one number per point, or a single number if there is one point only. ICP: points are whatever follows the twelfth line, so a header one line shorter loses the first point and one line longer turns the names into a point without numbers; every point gets the monitor given by the product of the two numbers in the first line. MAD: the last line that is not blank is never a point, so a file without the closing text loses its last point. ICE: the first nine columns only. SPICE: Pt. is left out and a file without it is refused (KeyError); the comment lines are kept as header. GRASP: monitor and time are one, the errors are the column Err_I, there is no h, k, l, e or temperature, and a text that is not a number is refused. Points with different numbers of cells are refused with ValueError (ICE: only with less than nine). An ICP file whose first line does not give a whole number of points is refused (ValueError).", "quantifier": "every file with at least one point and two columns, every text to number conversion", "why_tests_cant": "All files; tests read five sample files and do not compare columns.", "anchors": ["neutronpy/fileio/loaders/icp.py:Icp.load", "neutronpy/fileio/loaders/mad.py:Mad.load", "neutronpy/fileio/loaders/ice.py:Ice.load", "neutronpy/fileio/loaders/spice.py:Spice.load", "neutronpy/fileio/loaders/grasp.py:Grasp.load_dat"]}
{"id": "C74", "title": "Grid files of DCS_MSLICE", "statement": "Loading a well-formed XYIE file, or an SPE file whose x values fill no line before the last and are fewer than its rows, gives intensity, error and x of every point of the grid as in the file; the y column is always a copy of the x column, so that files with different y values give the same dataset; monitor and time have one entry per row instead of one per point. The intensity of such a dataset cannot be read (ValueError) for any grid with at least two rows and columns, the error only for square grids. An SPE file with all wanted x values before its last line of x values loads without x, with the y values and errors as intensities and the intensities as errors; one with as many x values as rows is refused. IEXY and XYE files keep all columns and their intensity and error can be read. By content alone no file of two lines or more is taken for XYIE. Numbers written without blanks are set apart at a minus that does not follow the letter e.", "quantifier": "every grid and file layout", "why_tests_cant": "All grid sizes and layouts of lines; tests load one file per format and compare nothing.", "anchors": ["neutronpy/fileio/loaders/dcs_mslice.py:DcsMslice.load_spe", "neutronpy/fileio/loaders/dcs_mslice.py:DcsMslice.load_xyie", "neutronpy/fileio/loaders/dcs_mslice.py:DcsMslice.load_iexy", "neutronpy/fileio/loaders/dcs_mslice.py:DcsMslice.load_xye", "neutronpy/fileio/loaders/dcs_mslice.py:DcsMslice.determine_subtype", "neutronpy/data/data.py:Data.intensity", "neutronpy/data/data.py:Data.error"]}
{"id": "C75", "title": "Folding a cross section with the resolution function", "statement": "resolution_convolution with METHOD 'fix': as both numbers of ACCURACY grow, the result at every point tends to R0 times the sum over modes of the prefactor times the integral over all offsets d (three directions of the standard system and energy) of the cross section at the displaced point times exp(-d.M.d/2), plus the background. A cross section linear in H, K, L and W gives exactly R0 c(A0)^3 c(A1)/sqrt(det M) times its value at the point, with c tending to sqrt(2 pi) and within 1e-4 of it for the single-point setting 0. METHOD 'mc' gives R0 pi^4/sqrt(det M) times the mean over the 1000 n drawn points of that integrand in the sampling angles; with a seed every turn draws the same points, so that the result depends neither on ACCURACY nor on earlier random numbers. Both methods are linear and increasing in the cross section, multiply R0 and the prefactor on and add the background once, and ignore the entries of M that couple the vertical direction. A single point is refused (IndexError), as are an unknown METHOD, another number of prefactor outputs than 1 or 2, and an ACCURACY that is not of the form the method wants; 'mc' with ACCURACY 0 gives nan.", "quantifier": "every continuous bounded cross section, every positive definite resolution matrix with uncoupled vertical direction, every number of points and modes, every source of random numbers", "why_tests_cant": "Convergence to a four-dimensional integral for all cross sections and matrices, and independence of the state of the random numbers, cannot be sampled; tests call it for one instrument and one cross section.", "anchors": ["neutronpy/instrument/tas_instrument.py:TripleAxisInstrument.resolution_convolution"]}
{"id": "C76", "title": "Folding single-mode cross sections with the resolution function", "statement": "resolution_convolution_SMA: for modes without line width, continuous in dispersion and intensity and bounded by b in intensity, METHOD 'fix' comes, as both numbers of ACCURACY grow, within 5e-5 (2 pi)^(3/2) / sqrt(det M / Mww) times R0 times the sum over modes of |prefactor| b of R0 times the sum over modes of prefactor times the integral over all displacements of the intensity times exp(-d.M.d/2) with d's energy the distance to the dispersion surface, plus the background. The line shape is finite for every position and every width >= 0, even in the position, exactly exp(-x^2) without width for |x| > 176/195 and within 5e-5 of it everywhere (but not equal to it at x = 1/2), and within two percent of the Lorentzian for widths >= 0.75 when |x| + width >= 15. A mode whose dispersion follows the resolution ellipsoid, with linear intensity and constant width, gives exactly R0 c(A0)^2 c(A1) / sqrt(det M / Mww) times its intensity at the point times the line shape at sqrt(Mww/2) (w0 - W) for the width sqrt(Mww/2) Gamma, with c tending to sqrt(2 pi) and within 1e-4 of it for the setting 0. METHOD 'mc' gives R0 pi^3 / sqrt(det M / Mww) times the mean over the 1000 n points drawn; with a seed the result depends neither on ACCURACY nor on earlier random numbers. Both methods are linear in the intensities (increasing for modes without width), multiply R0 and the prefactor on, add the background once and ignore the entries of M that couple the vertical direction. Leaving out the prefactor is always refused (TypeError), as are a single point (IndexError), an unknown METHOD, a number of prefactor outputs other than 1 or 2, and an ACCURACY of the wrong form; 'mc' with ACCURACY 0 gives nan.", "quantifier": "every dispersion, intensity and width function of the stated kind, every positive definite resolution matrix with uncoupled vertical direction, every number of points and modes, every source of random numbers", "why_tests_cant": "The limit is a three-dimensional integral for arbitrary dispersion surfaces, and the line shape is a piecewise rational approximation whose error bound and freedom from division by zero hold on a continuum; tests compare one call.", "anchors": ["neutronpy/instrument/tas_instrument.py:TripleAxisInstrument.resolution_convolution_SMA", "neutronpy/instrument/tools.py:_voigt"]}
{"id": "C77", "title": "Angles of the spectrometer for a position", "statement": "get_angles_and_Q(h, k, l, w) of a triple-axis instrument: ki^2 - kf^2 = 0.4826 w, with ki fixed for infin = 1 and kf fixed for infin = -1 or unset. A1 and A5 solve Bragg's law for the planes of monochromator and analyzer on the side of their dir, within [-90, 90], A2 = 2 A1, A6 = 2 A5, and are nan when the planes are too close together or the energy is out of reach (then A3 and A4 are nan as well); a tau of 0 is refused (ZeroDivisionError). With orient1 along the first axis and orient2 in the plane of the first two, Q has the components (\u00b1a* h, \u00b12 pi k/(b sin alpha), \u00b12 pi l/c), signs those of orient1 and orient2; turning it by A3 (in the sense of the sample's dir) makes the triangle ki - Q = kf close with the scattering angle A4 between 0 and 180 degrees on that side, and A3 and A4 are nan exactly when no triangle closes. For cells with right angles the length of Q is that of get_q. For other cells it is not (hexagonal cell at (1,1,0)), nor for other scattering planes: with orient (1,1,0), (0,0,1) of any cubic cell the position (0,0,1) gets length 0 and no A3.", "quantifier": "every cell, position, energy, fixed energy and side", "why_tests_cant": "Closing of the scattering triangle for every cell and position; tests compare a handful of numbers for one cubic sample.", "anchors": ["neutronpy/instrument/tas_instrument.py:TripleAxisInstrument.get_angles_and_Q"]}
{"id": "C78", "title": "Warnings about Currat-Axe scattering", "statement": "spurion.currat_axe_peaks(instrument, [start, end, n], peaks, tol) warns about exactly those of the n equally spaced scan points, both ends included, whose sample and scattering angles from get_angles_and_Q both lie within tol degrees of those of one of the peaks at energy 0, once for each such peak and in scan order. A reachable scan point on a peak at energy 0 is always reported for tol >= 0, a point or peak that cannot be reached never. The ends are qx u + qy v with the given energy, except that the energy is cut to a whole number when u, v, qx and qy are all whole (a scan at 3/2 meV is then judged at 1 meV). Angles are compared as numbers: beside the peak (-1 0 0) of a cubic sample, points with negative k are not reported for any tol < 90 however near they are. Peaks must have three components: the documented two raise IndexError, more than three ValueError, as does a negative number of points.", "quantifier": "every instrument with named crystals, every cell and orientation, every scan, list of peaks and tolerance", "why_tests_cant": "The claim is an equivalence over all scans and peaks, and the failures are silent (missing warnings at a cut energy or one turn apart).", "anchors": ["neutronpy/spurion.py:currat_axe_peaks"]}
{"id": "C79", "title": "Positions of aluminium rings", "statement": "spurion.aluminum(energy) lists, for every positive energy, the four reflections of aluminium at the wavelength and at a half and a third of it, twelve lines in all. The lines that can be reached come first, in one and the same order at every energy (by |hkl| over the divisor), with strictly increasing angles 2 theta between 0 and 180 degrees that obey Bragg's law; the others follow without an angle (nan), and their wavelength fraction exceeds twice the spacing.", "quantifier": "every positive energy and every positive choice of the physical constants", "why_tests_cant": "The order of the lines and the split between reachable and unreachable rings are claims for all energies; tests only check that the call returns.", "anchors": ["neutronpy/spurion.py:aluminum"]}
{"id": "C80", "title": "Accuracy of the line shape of a mode with width", "statement": "The line shape used by resolution_convolution_SMA for a mode of positive width is, at every position x and for every width a > 0 (in units of the resolution), finite and within 3e-4 of the Voigt profile, the integral over all u of exp(-u^2) a / (pi ((x - u)^2 + a^2)).", "quantifier": "every real position and every positive width, across all the regions in which different rational approximations are used", "why_tests_cant": "A bound on an approximation error against an improper integral over an unbounded two-parameter continuum; the approximations are switched at region boundaries that sampled tests may miss.", "anchors": ["neutronpy/instrument/tools.py:_voigt"]}
{"id": "C81", "title": "Folding single modes with line width with the resolution function", "statement": "resolution_convolution_SMA with METHOD 'fix' and modes that each have either no width anywhere or a positive width everywhere, continuous in dispersion, intensity and width and bounded by b in intensity: as both numbers of ACCURACY grow, the result for every point comes within 3e-4 (2 pi)^(3/2) / sqrt(det M / Mww) times |R0| times the sum over modes of |prefactor| b of R0 times the sum over modes of prefactor times the folded intensity, plus the background. The folded intensity of a mode with width is the integral over all displacements in wave vector and energy of the intensity times a Lorentzian of unit area around the dispersion surface, whose half width at half maximum is the width given, times exp(-d.M.d/2).", "quantifier": "every dispersion, intensity and width function of the stated kind, every positive definite resolution matrix with uncoupled vertical direction, every number of points and modes mixing both kinds", "why_tests_cant": "The limit is a four-dimensional improper integral for arbitrary dispersion surfaces and widths; which width convention (half or full) is meant shows only in the limit.", "anchors": ["neutronpy/instrument/tas_instrument.py:TripleAxisInstrument.resolution_convolution_SMA", "neutronpy/instrument/tools.py:_voigt"]}
{"id": "C82", "title": "The false-colour map of a collection of scans shows the nearest measurement", "statement": "Scans.pcolor(x, y, z) on scans with rising or falling mean y, each with points at rising or falling x: at every position of the picture the colour is the z of the point nearest in x of the scan nearest in mean y, and the coloured region ends half a step outside the outermost points. A single scan is drawn from y = 0 to twice its mean y and a single point from x = 0 to twice its x. The colour scale runs between clims; by default from the smallest of one and the positive minima of the scans to the largest of zero and all values, so the documented 'maximum and minimum of all data' does not hold. In a scan that turns back a measured point can lie outside everything drawn. No scans, and scans added by update since the last count, give IndexError; a collection never given scans gives RuntimeError.", "quantifier": "every number of scans, every number and position of points per scan, every colour limits, every position in the picture", "why_tests_cant": "The statement is about every position of the picture for arbitrary spacing; a test can only compare a picture for one data set.", "anchors": ["neutronpy/data/scans.py:Scans.pcolor"]}
{"id": "C83", "title": "Which points and positions the plots of a dataset show", "statement": "Data.plot with x and y draws the rows of the dataset, with the errors of the intensity (or the square roots of another column) as bars; with z and w it draws in space exactly the rows with positive w. With z alone it draws a map: for columns on a regular grid from a to b in steps s with at most four decimals the number of positions along the axis is the integer part of b - a/s plus one, spread evenly from a to b. For steps of one these are the measured positions; from zero in steps below one fewer positions are drawn than were measured; with b + 2 <= a/s, for example 1.0, 1.1, 1.2, the plot fails with ValueError; with a single value along an axis it fails with IndexError.", "quantifier": "every dataset and choice of columns; for maps every regular grid in every order of rows and with repetitions", "why_tests_cant": "Which grids are shown, thinned or refused depends on start, end and step together; tests draw one data set and do not look at the picture.", "anchors": ["neutronpy/data/plot.py:PlotData.plot", "neutronpy/data/plot.py:PlotData.plot_contour", "neutronpy/data/plot.py:PlotData.plot_volume", "neutronpy/data/plot.py:PlotData.plot_line"]}
{"id": "C84", "title": "The layout drawn follows the angles", "statement": "plot_instrument draws the beam of a triple-axis spectrometer from the source along y; seen from above its sections are as long as the arms and it turns to the left by A2 at the monochromator, A4 at the sample and A6 at the analyzer. Fewer than four arms give IndexError. A crystal of width w at the angle a is drawn with the width w sqrt(1 - cos(a)^4), the right one only for cos(a) = 0.", "quantifier": "every set of angles, arms and widths", "why_tests_cant": "Tests draw the picture without looking at it; lengths and turns hold for all real angles by trigonometric identities.", "anchors": ["neutronpy/instrument/plot.py:PlotInstrument.plot_instrument"]}
{"id": "C85", "title": "The resolution ellipsoid drawn", "statement": "plot_ellipsoid at one point, with an even number of grid intervals: the surface drawn is not the half-maximum surface of the resolution function but the set of points whose displacement d satisfies Mxx dx^2 + Myy dy^2 + 2 Mxy dx dy + Mww dw^2 = ln(2)/2: half the size, and without the coupling of energy and wave vector, so it is never tilted in energy. It is not cut off by the grid. At two or more points the plot fails with IndexError or ValueError, except at four points, where the entry (i, j) of the matrix used for point p is the entry (i, p) of the matrix of point j.", "quantifier": "every symmetric positive definite resolution matrix without vertical coupling, every centre, prefactor and even grid, every point in space", "why_tests_cant": "The surface is an infinite set depending on a real matrix; tests only call the function.", "anchors": ["neutronpy/instrument/plot.py:PlotInstrument.plot_ellipsoid", "neutronpy/instrument/tools.py:fproject"]}
{"id": "C86", "title": "Which ellipses are shown", "statement": "plot_projections, interleaved only with calc_projections and other plots on an unchanged spectrometer, shows the ellipses of the points asked for, though with the number of positions of the calculation that is reused. After calc_projections at p and calc_resolution at q, a plot at q shows the ellipses of the first points of p, or fails with IndexError if there are fewer of them than of q; after a change of the spectrometer a plot at the same points shows the ellipses before the change. Each axis finally covers exactly the smallest range holding all curves.", "quantifier": "every history of calculations and plots, every list of points, every change of settings, every number of curves", "why_tests_cant": "The defect needs a particular order of calls; only a statement about all histories says when pictures can be trusted.", "anchors": ["neutronpy/instrument/plot.py:PlotInstrument.plot_projections", "neutronpy/instrument/plot.py:PlotInstrument.plot_slice", "neutronpy/instrument/general.py:GeneralInstrument.calc_projections"]}
{"id": "C87", "title": "The text describing a resolution calculation", "statement": "description_string of a triple-axis spectrometer describes the first point of the last calculation: its matrix (over 10^4) to whole numbers of the matrix, its prefactor and widths to three decimals. The volume V_0 printed is twice the integral of exp(-(1/2) x M x) over momentum and energy. Matrix, volume, prefactor and widths stay those of the last calculation whatever is changed since, while fixed energy, angles and parameters are those of the present instrument. FX is 1 or 2 for the energy the calculation keeps fixed if infin is 1, -1 or unset, and 0 for every other value, with angles that do not belong to the calculation. The method named is the one used for 0, 1 or unset; a method given by its name raises TypeError; before any calculation AttributeError is raised.", "quantifier": "every instrument, list of points, positive definite matrix and prefactor", "why_tests_cant": "The volume is a statement about a four-dimensional improper integral for all matrices; tests print the text.", "anchors": ["neutronpy/instrument/plot.py:PlotInstrument.description_string"]}
{"id": "C88", "title": "The table of fitted parameters", "statement": "The table of fitted parameters drawn beside a fit prints one row per parameter, in order: the error with two significant digits and the parameter to the same decimal place, so that what is printed is within a twentieth of the error of the fitted value, if the parameter is at least as large as the decade of its error, and with three significant digits, within |p|/200, if it is smaller. Chi squared is printed with six decimals. A missing error raises TypeError and an error of zero - that of every parameter kept fixed - raises ValueError; no table is drawn then.", "quantifier": "every list of parameters, every list of errors, every chi squared", "why_tests_cant": "The distance of what is printed from what was fitted is bounded for every pair of magnitudes; a test prints a handful of tables.", "anchors": ["neutronpy/lsfit/plot.py:PlotFit.build_param_table"]}
{"id": "C89", "title": "Equality of datasets", "statement": "Two datasets compare equal exactly if they have the same columns, in any order, and either the same numbers point by point, or one of them has a single point and every point of the other agrees with it. Equality is symmetric but therefore not transitive, and a dataset without points equals every single point with its columns. Datasets with different numbers of points, neither being one, are unequal, or raise ValueError, depending on the version of numpy. A dataset with a missing number (nan) is not equal to itself. Monitor normalisation is not compared: datasets that compare equal may report different intensities.", "quantifier": "every pair and triple of datasets with any columns and numbers of points", "why_tests_cant": "Tests compare a dataset with itself and with one other; symmetry, the cases of broadcasting and the failure of transitivity concern all pairs and triples.", "anchors": ["neutronpy/data/data.py:Data.__eq__"]}
{"id": "C90", "title": "Instruments and the components they share", "statement": "A triple-axis instrument made without a sample, and not handed components, shows what its own constructor and the assignments made to it and to its components say, whatever is done to other instruments. In general an assignment to an attribute of an instrument's component is seen by exactly the instruments that have the same component, and changes no other attribute. A sample given to the constructor is used, not copied, and left unchanged: instruments made with one sample always show the same orientation vectors, so that two instruments for one crystal cannot be set to two orientations. A sample without both orientation vectors raises AttributeError. Assigning orient1 or orient2 of an instrument sets u or v of its sample and leaves the other.", "quantifier": "every sequence of constructions, assignments to attributes, and replacements of components of any number of instruments", "why_tests_cant": "Independence is a statement about all interleavings of operations on any number of objects; a test follows one sequence.", "anchors": ["neutronpy/instrument/tas_instrument.py:TripleAxisInstrument.__init__", "neutronpy/instrument/tas_instrument.py:TripleAxisInstrument.sample", "neutronpy/instrument/tas_instrument.py:TripleAxisInstrument.orient1", "neutronpy/instrument/tas_instrument.py:TripleAxisInstrument.orient2"]}
{"id": "C91", "title": "Widths printed beside projections of the resolution", "statement": "For a valid resolution matrix each panel of projections has axes centred near the point, reaching on either side at most as far (to one part in ten million) as the set where the resolution function, cut at its vertical coordinate, is above half of its maximum, and at least cos(pi/(npts-1)) of that; the slice drawn is within that range. The widths printed in the labels are those of the frame to three decimals, hence with the default number of points between 99.59 per cent and 100 per cent of the full width at half maximum of the projection. A panel that was not calculated raises KeyError, a point that was not calculated IndexError.", "quantifier": "every positive definite resolution matrix, every position and pair of orientation vectors, every number of points per curve of at least three", "why_tests_cant": "The printed width comes from sampled points; how far it can be from the width of the ellipse is a statement about all ellipses.", "anchors": ["neutronpy/instrument/plot.py:PlotInstrument.plot_slice", "neutronpy/instrument/general.py:GeneralInstrument.calc_projections"]}
{"id": "C92", "title": "Equality of instruments", "statement": "Two triple-axis instruments compare equal exactly if no attribute of the instrument and none of its monochromator, analyzer, sample, detector, monitor and guide tells them apart: an attribute is missing from both, or its values are the same, where a number counts as the same as an array of this number. Comparison is reflexive and symmetric. Instruments made without a sample and with the same arguments are equal as long as the same assignments are made to both, whatever happens to other instruments; instruments made with the same arguments for one sample are equal whatever is done to the sample. A resolution calculation is part of the comparison: an instrument that has done one differs from one that has not, or whose resolution matrix is another, and is equal again once both have done it with the same outcome. Equality is not transitive.", "quantifier": "every history of making components and instruments, handing over components and assigning attributes", "why_tests_cant": "Whether two instruments are equal depends on everything that was done to them and to objects they share, so that a claim of equality concerns all histories.", "anchors": ["neutronpy/instrument/tas_instrument.py:TripleAxisInstrument.__eq__", "neutronpy/instrument/tools.py:_Dummy.__eq__"]}
{"id": "C93", "title": "Settings and reports of a fitter", "statement": "Each setting of a fitter reads the last value given of a kind it takes - by the constructor, an assignment or, for the starting values, a fit - where None stands for 2^-52 for epsfcn and for 0 for maxfev; a value of another kind raises ValueError and changes nothing, except that data other than a tuple is dropped without an exception (and then cannot be read). A fit calls the optimiser with exactly the values read at that moment; covtol, maxiter and nofinitecheck change no fit, other setting or report. Reports raise AttributeError until a fit has ended and are afterwards those of the last fit that ended; niter, nfev, npegged and the setting nofinitecheck can never be read. The initial norm is that of the last fit that called the residual function, so that after a fit that raised it and the final norm may belong to different fits.", "quantifier": "every constructor call, every history of assignments and fits, every behaviour of the optimiser and of the residual function", "why_tests_cant": "The claim ranges over all histories of assignments and failing or succeeding fits, and over every optimiser.", "anchors": ["neutronpy/lsfit/fitter.py:Fitter.__init__", "neutronpy/lsfit/fitter.py:Fitter.fit", "neutronpy/lsfit/fitter.py:Fitter.nofinitecheck", "neutronpy/lsfit/fitter.py:Fitter.orignorm"]}
{"id": "C94", "title": "The window of the resolution calculator", "statement": "A picture drawn by the resolution calculator window is that of the instrument whose attributes are, each by itself, what its own field shows at that moment (numbers, comma-separated numbers, choices of the lists), at the point shown; no other attribute is set. Exceptions: the fixed energy is the number shown when the window opened, in the unit chosen when the picture is drawn - what is typed into the energy field afterwards, or into the two crystal-spacing fields, never changes a picture; the vertical radius of the analyzer is never set, and the analyzer's horizontal radius is its vertical field whenever the monochromator's vertical field is not 'None', otherwise its horizontal field. Nothing is drawn while any field cannot be read; in particular while 'Custom' is chosen for a crystal nothing is ever drawn. Changing the point or the unit of energy draws nothing until another field is edited.", "quantifier": "every text in every field, every order of edits after the window opens, every behaviour of float and of the resolution calculation", "why_tests_cant": "The claim is over all sequences of edits and all texts; a test clicks through a few.", "anchors": ["neutronpy/gui.py:MainWindow.__init__", "neutronpy/gui.py:MainWindow.load_instrument", "neutronpy/gui.py:MainWindow.load_signals", "neutronpy/ui/resolution.ui"]}
{"id": "C95", "title": "Rotations and translations of operations", "statement": "Asked for the rotation (translation) of an operation written as text, of a list of texts, of one array or of a list of arrays, the library gives the 3x3 rotation (the three components of the translation) of every operation in the order given, a single one without its list; an empty list is an IndexError and a text that is not an operation raises what reading it raises. Given the single array in which a space group keeps all its operations it gives instead the first three rows of the first three operations, and rows (0, 0, 0, 1) as translations; for none of the 230 groups is that the rotations or the translations of its operations in any arrangement. The image of a position under an operation is rotation times position plus translation.", "quantifier": "every operation, list of operations, text and position; all 230 space groups", "why_tests_cant": "Tests compare a few operations; the claim is over every operation and every form in which operations can be handed over.", "anchors": ["neutronpy/crystal/symmetry.py:get_rotation", "neutronpy/crystal/symmetry.py:get_translation", "neutronpy/crystal/symmetry.py:get_formatted_operations", "neutronpy/crystal/symmetry.py:SpaceGroup.symmetrize_position"]}
{"id": "C96", "title": "The fit drawn over a plot of a dataset", "statement": "Plotting a dataset with a function to fit draws the points, then a curve from the smallest to the largest position shown, with ten points per point of the data at equal steps, of the function at the parameters the fit ended with - the fixed ones at their starting values, the others those the optimiser ended with - and prints chi squared and the parameters to three decimals; what is minimised is (y - f(x)) / error of the points shown, smoothed if asked for. This happens exactly if there is a point, the starting values are a list or an array, the marks of fixed parameters are as many, one parameter is free, and the plot options are empty or contain a format that is not empty. Otherwise the points alone are drawn and the call raises: KeyError if the function is missing, a plain Exception in all other cases - also when the fit itself succeeded but the options given have no format. Options given by the caller are left as they are, except that an empty dictionary gets the format 'rs'.", "quantifier": "every dataset, column, function, starting values, fixed marks, smoothing, plot options, and every behaviour of the optimiser", "why_tests_cant": "A test looks at one fit with one optimiser; the claim is about every function, optimiser and set of options.", "anchors": ["neutronpy/data/plot.py:PlotData.plot", "neutronpy/data/plot.py:PlotData.plot_line", "neutronpy/lsfit/fitter.py:Fitter.fit"]}
{"id": "C97", "title": "Which routine reads a file", "statement": "When the type of a file is left to the library, a missing file is an OSError whatever its name. Names in .nxs or .h5 (any letter case) go to the HDF5 routine of their format; .npy goes to the text routine only if the first line contains 'NeutronPy' and is an OSError otherwise. Tables: .iexy is always read as iexy; .xyie as iexy if its first line has four words, else as xyie; .spe as iexy if the first line has four words, as xyie if it has two and there is only that line, else as spe; .xye as whatever its first lines show (four words iexy; two words and one line xyie; two words and '###' in the second line spe), else as xye. The same extensions in another letter case are decided by the first lines alone, three words meaning xye, and nothing matching is an OSError. A name without a known ending is decided by the sign in the content (ICE, SPICE, GRASP, ICP, MAD, NeutronPy); a GRASP file whose mark is not in capitals is refused unless its name ends in dat; content without a sign is a ValueError.", "quantifier": "every file name and every content, and every file system", "why_tests_cant": "Tests load a handful of sample files; the claim is over all names and all contents.", "anchors": ["neutronpy/fileio/data.py:load_data", "neutronpy/fileio/data.py:detect_filetype", "neutronpy/fileio/loaders/grasp.py:Grasp.load", "neutronpy/fileio/loaders/neutronpy.py:Neutronpy.load", "neutronpy/fileio/loaders/dcs_mslice.py:DcsMslice.load", "neutronpy/fileio/loaders/dcs_mslice.py:DcsMslice.determine_subtype"]}
{"id": "C98", "title": "Collections of scans share the dictionary they are made of", "statement": "A collection of scans shows at every moment the entries of the very dictionary it was made of: what the program assigns to that dictionary, or adds through any other collection made of it, is seen by all of them, and updating a collection changes the caller's dictionary. For every key the entry is the one written last. An update changes no other dictionary, and never the one it is given. Scans keep their places: later actions only add scans at the end. The reported num_scans is the size that the collection's own last argument (of the constructor or of update) had at that time, not the number of scans in the collection.", "quantifier": "every sequence of making dictionaries and collections, updates and assignments", "why_tests_cant": "The claim is over all histories of a program and all ways of sharing; a test runs one.", "anchors": ["neutronpy/data/scans.py:Scans.__init__", "neutronpy/data/scans.py:Scans.update"]}
{"id": "C99", "title": "Waterfall plots", "statement": "A waterfall plot draws one curve per scan, in the order of the collection; the curve at place i (from 0) shows the x column against the y column raised by i times the offset, and its label is the label column's name with the mean of that column to three decimals. At the first scan that lacks one of the three columns the call is a KeyError and the curves before it have been drawn. A scan that is still the same keeps its curve and its height whatever scans are updated or added later. A collection of nothing is a RuntimeError; an installed matplotlib without pyplot.hold makes every call fail with nothing drawn.", "quantifier": "every collection, columns, offset, and every later history of the collection", "why_tests_cant": "A test draws one plot and does not look at the curves; the claim is over all collections and histories.", "anchors": ["neutronpy/data/scans.py:Scans.waterfall", "neutronpy/data/scans.py:Scans.scans_check", "neutronpy/data/scans.py:Scans.update"]}
{"id": "C100", "title": "A dataset through an hdf5 file", "statement": "save_data as hdf5 succeeds exactly for datasets without None whose column names (the given errors count as a column 'error') differ from each other and from 'data_keys' and 'Q_keys'; without overwriting, a file that has data is left alone with a ValueError. Loading gives every column and the errors back by name, in alphabetical order, plus an empty column 'data_keys' (and 'Q_keys' if the dataset had Q_keys); the header is lost. What the columns mean is lost under Python 3: detector, monitor and time of the loaded dataset are a KeyError whatever the data_keys were, and so are h, k, l, e and temp, unless the load was told not to build them. A loaded dataset cannot be saved again: as hdf5 it is a ValueError that, when overwriting, destroys the old file's instrument and every column from 'Q_keys' (or else 'data_keys') on in the alphabet; as ascii it is a ValueError as soon as there is one non-empty column. With the instrument: a triple-axis instrument comes back as from an hdf5 file of its own; any other kind, or none, is passed over in silence, and such a file can be loaded only without the instrument. Into a file that has an instrument but no data, the data are saved, the new instrument is refused with a ValueError and the old one stays. Loading a file that is not there is an OSError, loading an hdf5 file without data a KeyError.", "quantifier": "every dataset, every instrument, every file system, with and without overwriting and building of h, k, l, e", "why_tests_cant": "The tests save one dataset as hdf5 and compare nothing that was loaded; the claim is over all datasets and what can still be done with them afterwards.", "anchors": ["neutronpy/fileio/data.py:save_data", "neutronpy/fileio/loaders/neutronpy.py:Neutronpy.load_hdf5", "neutronpy/fileio/instrument.py:save_instrument", "neutronpy/data/data.py:Data.detector"]}
{"id": "C101", "title": "Printed objects as program text", "statement": "repr shows objects as calls of their constructors; run as Python these give the following. A Monochromator given in numbers, a Lattice, a Goniometer of numbers and lists, and every SpaceGroup come back with all their attributes. An Analyzer comes back with its reflection, mosaic, focusing, thickness and reflectivity, but with direction -1 and without vertical mosaic, sizes and curvatures. A Sample without orientation vectors comes back with cell, mosaics, direction and size, but rectangular and without its distance. The text of a crystal given by name, of a Sample with orientation vectors and of a Goniometer with an array for a vector cannot be run. That of a Detector, an Atom or a MagneticAtom never makes one. That of an instrument never makes that instrument (unless it has the type tas and an engine that does not exist): with the neutronpy engine it fails, and with the Takin engine it makes a triple-axis instrument whose fixed energy is the text tas or tof. The text of a detector would not make one even with the numbers of pixels added, that of a time-of-flight instrument is not Python, and no named argument is shown as None for crystals and samples. Arguments left out mean: direction -1 for monochromators and analyzers, no horizontal focusing (-1), direction 1 and a rectangular shape for samples, omega 0, and 14.7 meV (triple-axis) or 3 meV (time-of-flight).", "quantifier": "every object of these classes, whatever was assigned to it", "why_tests_cant": "The tests never run a printed object; the claim is over all objects.", "anchors": ["neutronpy/instrument/monochromator.py:Monochromator.__repr__", "neutronpy/instrument/analyzer.py:Analyzer.__repr__", "neutronpy/crystal/sample.py:Sample.__repr__", "neutronpy/crystal/lattice.py:Lattice.__repr__", "neutronpy/crystal/symmetry.py:SpaceGroup.__repr__", "neutronpy/crystal/atom.py:Atom.__repr__", "neutronpy/instrument/goniometer.py:Goniometer.__repr__", "neutronpy/instrument/detector.py:Detector.__repr__", "neutronpy/instrument/instrument.py:Instrument", "neutronpy/instrument/tas_instrument.py:TripleAxisInstrument.__repr__", "neutronpy/instrument/tof_instrument.py:TimeOfFlightInstrument.__repr__", "neutronpy/instrument/takin.py:TakinTripleAxis"]}
{"id": "C102", "title": "Magnetic unit cells", "statement": "A MagneticUnitCell can be made exactly if every entry of its atoms names ion, pos, moment and occupancy (none has a default), the space group if given is known, and a propagation_vector and a lattice are given. Each entry then gives one MagneticAtom in order or, with a space group, one for each operation, at the image of the position. The moment of the entry is copied to all the images without being turned: for one magnetic atom the space group is a symmetry of the positions and the (axial) moments exactly if each operation leaves the moment as it is, which fails e.g. for moments along a in P2. chirality and phase are 0 if not given; if given they are lost and the attributes do not exist. A Material has a magnetic_unit_cell exactly if its dictionary has both the keys magnetic_unit_cell and magnetic_cell, and reads the latter: magnetic_cell alone is passed over and magnetic_unit_cell alone raises KeyError.", "quantifier": "every dictionary, every space group in the table, every position and moment", "why_tests_cant": "The tests make no magnetic unit cell; the claim is over all space groups and a continuum of positions and moments.", "anchors": ["neutronpy/crystal/material.py:MagneticUnitCell", "neutronpy/crystal/material.py:Material", "neutronpy/crystal/atom.py:MagneticAtom"]}
{"id": "C103", "title": "Unit conversions in floating-point arithmetic", "statement": "In double precision, with squares good to one unit in the last place and all other operations rounded to nearest: a beam made from an energy, wavelength, velocity, wavevector, temperature or frequency between 1e-12 and 1e12 (in its unit) overflows nowhere, every quantity read from it is that of the exact formulas with the same constants to within a relative error of 25 * 2^-53, and the quantity it was made from is read back to within that error. Making an Energy from any quantity read of a beam with energy between 1e-12 and 1e8 meV gives a beam that compares equal to it.", "quantifier": "every quantity, every value in the range, every squaring with that error bound, all constants in the decades of h, hbar, k, m_n and meV per joule", "why_tests_cant": "About 2^60 inputs; tests compare a few of them to a few decimals, and with one C library.", "anchors": ["neutronpy/energy.py:Energy._update_values", "neutronpy/energy.py:Energy.__eq__"]}
{"id": "C104", "title": "Rebinning in floating-point arithmetic", "statement": "In double precision a measured point lies in some cell of Data.bin exactly if on each axis it lies between the bounds of some cell. A point within the requested range on an axis of two or more cells (at most 2^53) that lies in no cell is within 16 * 2^-53 times the larger bound of a boundary between two cells; on an axis of one cell it is within 8 * 2^-53 times the larger bound of an end. If the bounds and half the step are multiples of a power of two with 53 bits, no point is lost and the cells are those of exact arithmetic. Otherwise points can be lost: the request [-0.2, 0.2, 9] loses the point 0.075, and a coordinate that is not asked for, running from 1.0 to 1.3, loses the points at 1.3.", "quantifier": "every bin request with bounds of double precision, every measured position", "why_tests_cant": "Loss depends on the last bit of the bounds; whether a given grid loses a point is decided by rounding in each cell, and all requests are too many to try.", "anchors": ["neutronpy/data/data.py:Data.bin", "neutronpy/data/data.py:Data._bin_parallel"]}
{"id": "C105", "title": "Combining data in floating-point arithmetic", "statement": "In double precision, if the detector counts (or monitor counts, or times) of two datasets are whole multiples of a power of two (such as whole numbers) and add up to fewer than 2^53 of it, the total of that column of d1.combine_data(d2) is exactly the sum of the two totals, whichever points are merged; for non-negative counts that are not whole it is between (1-2^-53)^n and (1+2^-53)^n times that, n the number of points of d2. Points within the tolerances are merged, and points that are merged are within the tolerances times 1+2^-52; if every coordinate of d2 is 0 or at least four times its tolerance and the counts are whole, the result is exactly that of exact arithmetic. Not true: that a count added to 2^53 counts, that times add up alike in any order (0.1, 0.2, 0.3), and that decimals as far apart as the default tolerance are treated alike (1 and 1.0005 are merged, 2 and 2.0005 are not).", "quantifier": "every pair of datasets with the same columns of finite doubles, every choice of tolerances", "why_tests_cant": "Exactness for all counts below 2^53 and a bound for all sums of rounded times cannot be sampled; the merging decision depends on the last bit.", "anchors": ["neutronpy/data/data.py:Data.combine_data"]}
{"id": "C106", "title": "Space-group operations in floating-point arithmetic", "statement": "In double precision, in whatever order the machine adds the four products of a row and a column, SpaceGroup(key) for each tabulated group is made without failing its assertion, and its symmetry operations are those of exact arithmetic in the same order: equal rotations, and translations within 3*10^-16 of the exact fractions, equal to them for halves, quarters and zero. So the tolerance 10^-15 of the code neither keeps an operation twice nor loses one. The translations are the same doubles for every order of addition, and get_str_from_generator gives the texts of the exact operations (see C28 for these). Not true: that a translation is the double nearest to its fraction (in P3_2 the translation 1/3 is not).", "quantifier": "every tabulated space group, every function that adds four numbers by one of the 15 orders of rounded additions", "why_tests_cant": "A test runs with the summation order of one machine and numpy version; the claim is about all of them, and about the margin left to the tolerance.", "anchors": ["neutronpy/crystal/symmetry.py:SpaceGroup._symmetry_operations_from_generators", "neutronpy/crystal/symmetry.py:get_str_from_generator"]}
{"id": "C107", "title": "Numbers of points in floating-point arithmetic", "statement": "In double precision, a background of a whole percentage p of n < 2^40 intensities that are not negative averages the floor(n*p/100) smallest, or one fewer if n*p/100 is whole; it is exactly that for 0, 25, 50, 75 and 100 percent. A magnetic form factor with qrange=(a, b), b - a at least 0.03, has points that are never closer than 0.025 and, if there are N, at most N/(N-1) times 0.025 apart, both up to one part in 2^50; if b - a is k times 0.025 there are k+1 or k of them; without qrange there are 81. Not true: that 29 percent of 100 points are 29 (they are 28), and that the range from 0 to 0.3 has 13 points (it has 12).", "quantifier": "every number of points below 2^40 and whole percentage; every range", "why_tests_cant": "Whether a rounded quotient falls below a whole number depends on the last bit of each input; tests sample a few of them.", "anchors": ["neutronpy/data/analysis.py:Analysis.estimate_background", "neutronpy/crystal/structure_factors.py:MagneticFormFactor.calc_mag_form_fac"]}
{"id": "C108", "title": "Equivalent positions in floating-point arithmetic", "statement": "In double precision, symmetrize_position of every tabulated space group gives one position for each operation of exact arithmetic, in the same order, right to within 10^-15 times the largest coordinate (or 1, if that is more). The positions are the same doubles in whatever order the machine adds, for coordinates of any size. If the coordinates are multiples of 2^-50 and at most 1 and the translations of the operation are halves, quarters or eighths, they are exact. Positions of two such operations that coincide in exact arithmetic are the same doubles, for every position given in doubles. Not true: this for thirds and sixths; in P6_122 the two equal positions z + 1/6 and 2/3 - z of (0, 0, 1/4) are different doubles.", "quantifier": "every tabulated space group, every position of doubles, every order of addition", "why_tests_cant": "There are infinitely many positions, and a test runs on one machine with one order of addition.", "anchors": ["neutronpy/crystal/symmetry.py:SpaceGroup.symmetrize_position"]}
{"id": "C109", "title": "The printed properties of a neutron", "statement": "str of an Energy, like its values, names each of the six quantities exactly once, with its unit and a number that is right to half a thousandth; what is not a finite number is shown as nan or inf. Two neutrons with the same text agree to a thousandth in every quantity. Energies from 0 to below 0.0005 meV are all shown as 0.000; for energy 0 the wavelength is nan and all else 0.000; for a negative energy wavelength, wavevector and velocity are nan and the energy has a minus sign.", "quantifier": "every neutron", "why_tests_cant": "Tests compare the text of a few neutrons; that every text can be read back to half a thousandth holds for all.", "anchors": ["neutronpy/energy.py:Energy.values", "neutronpy/energy.py:Energy.__str__"]}
{"id": "C110", "title": "HDF5 files exported by GRASP", "statement": "A GRASP nxs file is read exactly when its six datasets (intensity, qx, qy, angle, modulus of q, error of the intensity) are there; otherwise KeyError. The dataset has these six columns with the stored numbers in the stored order, axes of length one dropped, and monitor and time of one for every number; intensity and error are the stored ones with either normalisation. There are no columns h, k, l, e, temp: asking for one of them or for Q is a KeyError. A file without numbers can be read but has no intensity or error (ValueError). Of two files read together a point of the second is added to one of the first only when the coordinates and also the errors agree within the tolerance, otherwise it is a point of its own; the intensities add up; the points are ordered by their errors; the errors reported remain the list of the first file. So measurements of the same pixels with different errors are not added, and after reading two files the errors may belong to other points.", "quantifier": "every file; the statement about two files for files whose datasets are lists of points", "why_tests_cant": "Tests read one file; which points of two files are merged depends on all their numbers.", "anchors": ["neutronpy/fileio/loaders/grasp.py:Grasp.load_nxs", "neutronpy/fileio/data.py:load_data", "neutronpy/data/data.py:Data.combine_data"]}
{"id": "C111", "title": "Strength and label of the aluminium rings", "statement": "Every line printed by aluminum shows the same |F|^2, 4385, for every wavelength up to 2 sqrt 2 times the lattice constant (11.45 angstroem, about 0.62 meV), and nan on every line above. It is the strength of 192 atoms scattering in phase (the 192 images of the atom under the operations of the space group), which lie on the four sites of the cell, so it is 2304 times the strength of the cell. The label lambda/n names the fraction of the wavelength the line was calculated for, in spite of rounding.", "quantifier": "every positive wavelength and every line; the label for every wavelength of at least 2^-800", "why_tests_cant": "Tests print the list for one energy; that strength and labels do not depend on the energy, and where they stop being numbers, is about all energies.", "anchors": ["neutronpy/spurion.py:aluminum", "neutronpy/crystal/structure_factors.py:NuclearStructureFactor.calc_nuc_str_fac"]}
{"id": "C112", "title": "Normalised intensity in floating-point arithmetic", "statement": "The intensity of a point in double precision is counts / norm * largest norm up to a relative error of 3 * 2^-53, its error sqrt(counts) / norm * largest norm up to 5 * 2^-53; no counts give exactly 0. At equal norm more counts never have less intensity, and different whole counts up to 2^50 have different intensities in the same order. Where the norm is the largest one, whole counts up to 2^50 are recovered by rounding the intensity, but the intensity itself may differ from the counts (one count at monitor 49 gives less than 1). With norms of one it is exactly the counts. Without points there is a ValueError.", "quantifier": "all scans whose norms and counts (other than 0) lie between 2^-200 and 2^200; norms of one: all scans of doubles", "why_tests_cant": "Tests compare a few intensities within a tolerance; the bounds and the order hold for all numbers.", "anchors": ["neutronpy/data/data.py:Data.intensity", "neutronpy/data/data.py:Data.error"]}
{"id": "C113", "title": "Background subtraction in floating-point arithmetic", "statement": "After subtracting a background of equally many points in double precision, the intensity of a point has the sign of the difference of the two floating-point intensities, is 0 exactly when they are equal (data minus themselves are exactly 0 wherever the norm is not 0), and is exactly their difference when neither is more than twice the other. It is the exact difference of the normalised intensities up to 5 * 2^-53 of their sum (plus 2^-1075), which may be much more than that relative to the difference. The error afterwards is the larger of the two errors up to a relative 4 * 2^-53. Without points, and for numbers of points that differ and of which neither is one, there is a ValueError. Where one of the two has no intensity (monitor counts of 0) the difference has none.", "quantifier": "all pairs of scans; accuracy: norms and counts (other than 0) between 2^-200 and 2^200; error: errors that are both 0 or of which the larger is at least 2^-300, and any power function whose squares are right to two units", "why_tests_cant": "Tests subtract a few backgrounds and compare within a tolerance; that only equal intensities cancel and that no sign is lost concerns all pairs of numbers.", "anchors": ["neutronpy/data/data.py:Data.subtract_background"]}
{"id": "C114", "title": "Background from the lowest intensities in floating-point arithmetic", "statement": "For bg_params of type 'percent' in double precision the background is the mean of the lowest non-negative intensities up to a relative error of (k + 1) * 2^-53 for k points averaged (plus 2^-1075), in whatever order they are added; no points give nan. A negative percentage averages all but that share of the highest instead of being refused. It does not depend on the order of the measured points. For whole numbers of total below 2^53 it is the exact mean rounded once and lies between the lowest and the highest of them; for one point it is exactly the lowest intensity. In general it may exceed every intensity: three points of 0.1 have a background above 0.1, so subtracting it leaves only negative numbers.", "quantifier": "all lists of double-precision intensities, all percentages, all orders of addition; the bound up to ten million points averaged", "why_tests_cant": "Tests compare the background of a few data sets within a tolerance; the bound holds for all data and orders of addition, and the case outside the range needs particular numbers.", "anchors": ["neutronpy/data/analysis.py:Analysis.estimate_background"]}
{"id": "C115", "title": "Integrated intensity in floating-point arithmetic", "statement": "In double precision integrate gives, for n selected points and c columns, the trapezoids under the background-subtracted points up to (n + c + 5) * 2^-53 of their total size (each side counted positive; plus n * c * 2^-1073), in whatever order they are added. Over ascending coordinates higher intensities or a lower background never give a lower integral, and intensities not below the background never a negative one. A column that does not change contributes exactly nothing; reversing the sign of the coordinates reverses the sign of the result exactly. Whole counts at coordinates that are multiples of a power of two are integrated exactly as long as the total stays below 2^52 of these steps. Exactly one selected point raises ValueError; none gives 0.", "quantifier": "all lists of double-precision intensities and coordinate columns, all scalar backgrounds, all orders of addition; the bound up to ten million points; no overflow", "why_tests_cant": "Tests compare a few integrals within a tolerance; monotonicity, the sign and the bound hold for all data and all orders of addition numpy may choose.", "anchors": ["neutronpy/data/analysis.py:Analysis.integrate"]}
{"id": "C116", "title": "Peak position in floating-point arithmetic", "statement": "In double precision position raises ValueError when exactly one point is selected and gives no number (nan or infinite) when the integrated intensity is 0; otherwise every coordinate has a position. Over ascending coordinates and intensities not below the background, a column that is nowhere larger than another has no larger position. Reversing the sign of a column reverses its position exactly. In a scan in which only one coordinate changes, with whole counts and coordinates that are multiples of a power of two, the position is the exact centre of mass rounded once, so it lies between the smallest and the largest value of the column. This is not so in general: two points with three counts each, both at h = 0.1, have a position above 0.1. But it stays close: in such a scan of n points (up to a million, coordinates up to 2^100, integrated intensity at least 2^-500, no intensity below the background) the position is outside the range of the column by at most (2n + 15) * 2^-53 times the end of the range, plus 2^-400. Under the same conditions it differs from the exact centre of mass by at most (2n + 16) * 2^-53 times the largest absolute value of the column, plus 2^-400.", "quantifier": "all lists of double-precision intensities and coordinate columns, all scalar backgrounds, all orders of addition; no overflow", "why_tests_cant": "Tests compare a few positions within a tolerance; the order of positions, the sign and the exact cases hold for all data and all orders of addition numpy may choose.", "anchors": ["neutronpy/data/analysis.py:Analysis.position"]}
{"id": "C117", "title": "Peak width in floating-point arithmetic", "statement": "In double precision width raises ValueError when exactly one point is selected and gives no number when the integrated intensity is 0; otherwise every coordinate has a width. Over ascending coordinates and intensities not below the background no squared width is negative, so with fwhm=True the result is always a number, not below 0 (with intensities below the background it can be nan: counts 0, 5, 0 at the energies 0, 1, 2 above a background of 1); a larger squared width never has a smaller full width at half maximum. Reversing the sign of a column leaves its width unchanged exactly. In a scan of one coordinate with whole counts and coordinates that are multiples of a power of two, a column that keeps its value has a width of exactly 0. This is not so in general: two points with three counts each, both at h = 0.1, have a positive width in h. In a scan of n points in which only one coordinate changes (up to a million points, coordinates up to 2^100, integrated intensity at least 2^-500, no intensity below the background) the width is at most (1 + (2n + 23) * 2^-53) * S^2 + 2^-400, where S is the range of the column plus (2n + 15) * 2^-53 times its largest absolute value plus 2^-400: the error of a column that does not change is of second order. Under the same conditions it differs from the exact second moment about the exact centre of mass by at most (20n + 180) * 2^-53 times the square of M, for every M not below 2^-100 and not below any absolute value of the column. For squared widths from 2^-900 on, the full width is 2 sqrt(2 ln 2) times the root up to a relative error of 4 * 2^-53 plus twice that of the computed constant sqrt(2 ln 2).", "quantifier": "all lists of double-precision intensities and coordinate columns, all scalar backgrounds, all orders of addition, every non-negative value of the constant of the full width; no overflow", "why_tests_cant": "Tests compare a few widths within a tolerance; the sign, and with it the absence of nan, the symmetry and the exact cases hold for all data and all orders of addition numpy may choose.", "anchors": ["neutronpy/data/analysis.py:Analysis.width"]}
{"id": "C118", "title": "Scattering function and susceptibility of a dataset", "statement": "scattering_function(material, ei) gives every point with energy transfer e below ei its counts times 4 pi / sigma times sqrt(ei / (ei - e)), sigma being the total cross section of the cell, and nan where e is above ei - as long as no point has e equal to ei. If one has, every other point becomes 0 whatever its counts and that point infinite (nan without counts), so the value of a point does not depend on that point alone. dynamic_susceptibility multiplies this by 1 - exp(-e/kT): at a temperature above 0 it is 0 at e = 0, between 0 and the scattering function for e > 0 and negative for e < 0; at temperature 0 it is the scattering function for e > 0, nan for e = 0. A material without cross section raises ZeroDivisionError.", "quantifier": "every positive incident energy, all lists of energies, temperatures and counts, every cross section", "why_tests_cant": "Tests use one dataset; the dependence of every point on a single point with e = ei, and the sign of the susceptibility, concern all datasets.", "anchors": ["neutronpy/data/analysis.py:Analysis.scattering_function", "neutronpy/data/analysis.py:Analysis.dynamic_susceptibility", "neutronpy/energy.py:Energy._update_values"]}
