# Design of the formal model of neutronpy

## Toolchain and layout

Rocq/Coq 8.16.1, logical name `Verif`, sources in `rocq/theories/`.

For each area of the code there are up to four files:

| suffix | content |
|---|---|
| `XModel.v` | the code, function by function; every definition cites file and lines in /repo and states simplifications; no proofs |
| `XSpec.v`  | small definitions used only to *state* properties (independent of the model's helpers) |
| `XProof.v` | lemmas and proofs |
| `XProps.v` | the property theorems, each closed by `exact`, each followed by a non-trivial `Example` meeting its hypotheses and by `Print Assumptions` |

Small areas merge some of these files.

## Trusted base

* the Coq 8.16.1 kernel (including `vm_compute`, used for the finite space-group table);
* what `Print Assumptions` lists: theorems over `Z`, `Q`, lists and strings are closed under the global
  context. Theorems over the real numbers `R` list the axioms of the standard library's classical
  reals (`ClassicalDedekindReals.sig_forall_dec`, `ClassicalDedekindReals.sig_not_dec`,
  `FunctionalExtensionality.functional_extensionality_dep`) and, where analysis from the standard
  library or Coquelicot is used, possibly `Classical_Prop.classic`. No other axiom is used and none is declared.
  The table at the end of this file records them per theorem group.
* the reading of the Python source: the model is a hand translation, function by function.

## General modelling decisions

* **Floating point is not modelled.** Table data (counts, coordinates) are rationals `Q`; geometry and
  analysis use `R`. Rounding, overflow and signed zero are out of scope, except in C103 (rounding of unit conversions), C104 (rounding of the cells of rebinned data), C105 (rounding when data are combined), C106 (rounding of the operations of space groups), C107 (rounded numbers of points), C108 (rounding of equivalent positions), the labels of C111, C112 (rounding of normalised intensities), C113 (rounding of subtracted backgrounds), C114 (rounding of estimated backgrounds), C115 (rounding of integrated intensities), C116 (rounding of peak positions) and C117 (rounding of peak widths). Non-finite results (division by zero,
  nan) are modelled by `option`/a result type, never by the totalised `x/0 = 0`.
* **Exceptions are values** (`sum`/`result` types naming the Python exception class).
* **Mutation is state passing**: a method that changes `self` returns the new state.
* numpy library functions (`lexsort`, `linspace`, `unique`, `nanmax`, `inv`, `det`, `griddata`, `trapz`/`simps`) are
  modelled by their documented mathematical meaning; this is part of the trusted reading.
* Not modelled at all: rendering by matplotlib (what it is given is modelled in C82-C86), the GUI, HDF5/pickle/zip encodings, multiprocessing transport
  (only the split into chunks and the re-concatenation), `wofz`, the external optimiser (universally quantified instead).

## Properties
* **C01 Combining datasets conserves counts** - `DataModel.v`: rows over Q, `combine_data` branch by branch (first-match scan over the original rows, accumulate or append, lexsort). Proof: induction over d2's rows with the sum as invariant; lexsort is a permutation.
* **C02 Combining merges or appends each added point, never loses or alters coordinates** - Same model. Spec: a declarative description of the result (for each row of d1 the fold of its partners, then the unmatched rows), shown to be a permutation of the output.
* **C03 Combined data are sorted and the columns stay aligned** - Same model, stable insertion sort for lexsort with numpy's key order (last key primary). Spec: `Sorted` for an independently defined lexicographic order plus `Permutation` of rows. `ColCombModel.v`, `ColCombProps.v` have `combine_data` on the columns as they are stored (a dict of columns, updated, lengthened and rearranged one by one through the positions of lexsort) and prove that it gives the columns of the row-wise result, exceptions included, so the row-wise model of C01-C06 is no assumption about alignment.
* **C04 When is addition of datasets order-independent** - Same model. Commutativity up to permutation and Qeq under distinctness and tolerance 0; `_refuted` witnesses without.
* **C05 Arithmetic operators leave their operand and all other columns alone** - Same model: objects with a store of columns; operator semantics as functions on a name environment. `_refuted` for the augmented forms.
* **C06 Normalised intensity** - Same model with m0/t0/_err fields; division guarded by option. Histories as op lists.
* **C07 Background subtraction law** - Same model; error squared instead of sqrt (monotone). The variant over a column takes any nearest-point selection (griddata) as a parameter.
* **C08 Rebinning does not depend on the number of worker processes** - `BinModel.v`: the chunk slices `Q[n*N//p:(n+1)*N//p]` and concatenation of pool.map results. Proof: slices concatenate to the whole for every p>0.
* **C09 Each rebinned point is the average of the measured points in its cell** - `BinModel.v`: grid construction (linspace/midpoint), closed cells, averages, removal of empty cells. Coverage: every point in range lies in a cell.
* **C10 Columns of a dataset have one common length** - `DataModel.v`: constructor's length logic, exact.
* **C11 Column setters are all-or-nothing** - `DataModel.v`: setters; invariant over op histories.
* **C12 Background estimates are bounded by the data** - `AnalysisModel.v`: sorted intensities over Q; mean of a prefix of a sorted list.
* **C13 Default bounds select the data** - `AnalysisModel.v`: `np.where(Q[:,0])` as filter of non-zero h.
* **C14 Peak position and width are those of a weighted distribution** - `AnalysisModel.v`: trapezoid sums with abstract non-negative weights over Q.
* **C15 Detailed balance** - `AnalysisModel.v` over R with exp.
* **C16 A Scans collection after any history of updates** - `ScansModel.v`: OrderedDict as association list, num_scans, np.empty and indexed assignment with IndexError.
* **C17 Neutron unit conversions are mutually inverse** - `EnergyModel.v` over R with symbolic positive constants.
* **C18 Energy objects stay consistent under any history of assignments** - `EnergyModel.v`: setter op lists.
* **C19 Zero energy** - `EnergyModel.v`: extended values (finite / nan / inf) for the zero branches, scalar and array.
* **C20 Energy equality is a tolerance, not an equivalence** - `EnergyModel.v`: over R.
* **C21 Direct and reciprocal lattice are dual** - `LatticeModel.v` over R, 3x3 matrices as records/functions; cos/sin of the angles; hypothesis: the Gram determinant is positive.
* **C22 Bragg geometry** - `LatticeModel.v` with asin/sqrt from the standard library.
* **C23 Angle between planes** - `LatticeModel.v`, Cauchy-Schwarz for the Gram form.
* **C24 Lattice type classification** - `LatticeModel.v`: decision procedure with a decidable equality on the six values (Q).
* **C25 Orientation matrix is a rotation and UB preserves lengths** - `LatticeModel.v`: gram_schmidt on two rows and cross product.
* **C26 Every tabulated space group is a group of the tabulated order** - `SymData.v` (generated from symmetry.json, all 230 groups) and `SymModel.v` (exact rationals in 24ths); vm_compute over the finite table, lifted to a universally quantified statement.
* **C27 Equivalent positions form an orbit** - `SymProof.v`: for every tabulated group and every rational position; orbit-stabiliser for multiplicity.
* **C28 Operation strings and matrices** - `SymModel.v`: parser and formatter on strings.
* **C29 A space group can be named in any supported way** - `SymModel.v`: lookup logic over the table.
* **C30 Generation of operations only produces products of generators** - `SymProof.v`: generated-subgroup inductive predicate, induction over the loop.
* **C31 Monochromator crystal names** - `ToolsModel.v`: table of (name, tau) with tau over Q multiples/decimals; label search.
* **C32 Argument cleaning** - `ToolsModel.v`: lists.
* **C33 chop removes only negligible entries** - `ToolsModel.v`: nested value type.
* **C34 Projecting out a coordinate of a resolution matrix** - `MatModel.v` over R: Schur complement on n x n matrices as functions; `Gauss.v` proves the Gaussian integral so that the projection is stated as an integral.
* **C35 Plotted ellipses are the half-maximum contours** - `MatModel.v` over R.
* **C36 Scattering triangle** - `KinModel.v` over R with acos.
* **C37 Peak profile functions** - `FuncModel.v` over R; `PeakProps.v` with the Gaussian integral of `Gauss.v` and atan; `FuncProps.v` for parameter lists.
* **C38 Oscillator and dispersion models** - `FuncModel.v`, `OscProps.v` with derivatives and limits from Coquelicot.
* **C39 Fixed parameters stay fixed and free ones come back in order** - `FitModel.v`: optimiser as an arbitrary function/trace.
* **C40 What a resolution calculation depends on besides its point** - `HistModel.v` (calc_resolution as a state transition), `HistProof.v`, `HistProps.v`, `StateProps.v`, `CacheProps.v`: simulation between loop states, calls as lists of transitions, the turned shape as a quadratic form.
* **C41 Results kept by get_resolution** - `HistModel.v`, `CacheProps.v`: the comparison with numpy broadcasting, hit and miss.
* **C42 Resolution matrices of a triple-axis spectrometer are valid** - `TasModel.v` (calc_resolution_in_Q_coords over R, `MatInv.v` for inverse and determinant by elimination), `TasProof.v`, `TasMirror.v`, `TasWide.v`, `TasProps.v`, `TasMoreProps.v`: positive definiteness by congruences of full rank, Loewner order, conjugation by signs.
* **C43 Sample axes are orthonormal** - `SysModel.v`, `SysProps.v`: _scalar, _star, _modvec, get_lattice, _StandardSystem and the components of Q over exact reals.
* **C44 Time-of-flight resolution** - `TofModel.v` (all of the Q-coordinate calculation for one point), `TofProps.v` (the flight written down independently, its derivatives with Coquelicot), `TofCovProps.v`, `TofDefProps.v`, `TofGeoProps.v`. Numpy's inversion is the exact inverse, failing exactly for singular matrices.
* **C45 Component parameters reach the component** - `CompModel.v`, `CompProps.v`: instance dictionaries as association lists, positional arguments.
* **C46 Chopper opening time** - `CompModel.v`, `ChopProps.v`.
* **C47 Nuclear structure factor** - `StructModel.v`: complex sums as pairs of reals with cos/sin.
* **C48 Magnetic form factor** - `StructModel.v`, `MagProps.v`: sums of three exponentials over R; facts about the 95 tabulated ions by evaluation over the table (exact decimals).
* **C49 File type detection and loading several files** - `DetectModel.v` (detection on names and lines; loaders are parameters), `DetectProps.v`, totals by the theorems on combining.
* **C50 Saving data does not change it** - `DataFileModel.v` (saving changes the dataset and the files; hdf5 reduced to which names can be created), `DataFileProps.v`.
* **C51 Instrument files round trip** - `TextModel.v` (Python's string methods and float syntax on ASCII text), `InstrFileModel.v` (printing, parsing, files), `InstrFileProps.v`. Numbers are represented by their printed text.
* **C52 Goniometer rotations** - `CompModel.v`, `ChopProps.v`: 3x3 matrices; an infinitely recursive property is RecursionError.
* **C53 Space-group operations are isometries** - `SymMetricProps.v`: integer check of R^T G R = G on a basis of the metric tensors each cell type allows, lifted to all cells.
* **C54 Centring, point group and system** - `SymMetricProps.v`: evaluation over the 230 groups.
* **C55 Ions a Material can contain** - `StructModel.v`, `MaterialProps.v`: the constructor as a partial function over the generated tables.
* **C56 Material with a space group** - `StructModel.v`, `MaterialProps.v`: list of atoms as images under the operations; the loop variable left over from an earlier loop is modelled.
* **C57 Cross sections** - `StructModel.v`, `MaterialProps.v`: sums, logarithm and square root over R.
* **C58 Bragg, phonon and extent widths** - `MatModel.v`, `WidthProps.v`: quadratic forms over R, successive projections as minimisation.
* **C59 Two-dimensional peaks and the Voigt profile** - `FuncModel.v`, `PlaneProps.v`: iterated improper integrals; scipy's `wofz` is taken as its integral representation in the upper half plane and `erf` as its integral (trusted).
* **C60 Reuse of a fitter and its reported statistics** - `FitModel.v`, `FitProps.v`: as C39; lmfit's nfree, redchi and scaled covariance are trusted.
* **C61 The resolution matrix describes the spread of rays** - `TasVar.v`, `TasRaysProps.v`, `TasMoreProps.v`: the inverse of a positive definite form as a maximum, constrained maxima for Popovici's positions; the projection to (Q, energy) as the derivative of the transfer.
* **C62 What the prefactor leaves out** - `TasMosProps.v`: determinant of a rank-two update; inverse of a matrix with an isolated row. `TasMonProps.v`: the monitor enters through the correction alone.
* **C63 Parameters of the resolution in a plane** - `ParamModel.v`, `ParamProps.v`: with the Gaussian integral of C34.
* **C64 Smoothing** - `HistModel.v`, `ParamProps.v`: elementwise division with 0 / 0 as nan.
* **C66 Equality of components** - `CompModel.v`, `CompProps.v`: comparison of dictionaries.
* **C67 Guides** - `CompModel.v`, `ChopProps.v`.
* **C65 Numbers a time-of-flight instrument works with** - `TofModel.v`, `TofParProps.v`.
* **C68 Time-of-flight matrix in reciprocal lattice units** - `TofModel.v`, `TofRmsProps.v`: quadratic forms of displacements.
* **C69 Data files round trip** - `DataFileModel.v` (header text, columns as numbers), `DataFileProof.v`, `DataFileProps.v`. Number formatting is not modelled: a number in the file is the number.
* **C70 Instruments from par and cfg files** - `ParCfgModel.v` (lines to words to dictionary; the instrument as in `HistModel.v`; conversion of text to number is a parameter), `ParCfgProps.v`. Which missing name or line raises first is not modelled beyond the kind of error.
* **C71 Instruments as Takin files** - `TazModel.v` (the xml document as its element texts, with the length of what follows it in the file), `TazProps.v`. The xml library itself is not modelled: element texts are read as written.
* **C72 Instruments as hdf5 files** - `H5InstrModel.v` (groups and attributes), `H5InstrProps.v`. The hdf5 library is reduced to: groups must not exist, None has no type, texts come back as bytes.
* **C73 Column files of other programs** - `LoadersModel.v` (files as lines of text; numpy's genfromtxt with comments, blank lines, usecols, skipped headers and footers and its treatment of invalid lines), `LoadersProps.v`. The conversion of texts to numbers is a parameter. load_instrument=True and plot defaults are not modelled; GRASP's nxs files are C110.
* **C74 Grid files of DCS_MSLICE** - `GridModel.v` (files as lines of text; arrays as shape and numbers, squeeze, meshgrid and broadcasting), `GridProps.v`. Rows of different lengths are an error, as in current versions of numpy.
* **C75 Folding a cross section with the resolution function** - `ConvModel.v` (after calc_resolution: its R0 and RMS are arguments; the cross section works point by point; the random numbers are any function of a state), `Quad.v` (midpoint rule in four dimensions, substitution of the tangent in improper integrals), `ConvProps.v`. That the matrices of calc_resolution are of the kind assumed is C42. Rounding and the complex arithmetic of non-positive pivots are not modelled (None).
* **C77 Angles of the spectrometer for a position** - `AngleModel.v`, `AngleProps.v`. The whole of get_angles_and_Q over the reals, nan and infinities as None. Left out: the lookup of tau by name (C31) and the conversion of the nested list with arrays of one number.
* **C76 Folding single-mode cross sections with the resolution function** - `SmaModel.v`, `Quad3.v`, `VoigtProps.v`, `SmaProps.v`. The whole of resolution_convolution_SMA after calc_resolution, and _voigt with its four rational approximations on pairs of reals; each masked assignment overwrites, as in the code. Division by zero and nan are None. Left out: rounding (the arrays of _voigt are complex64 and float32), calls of the user's function that do not work point by point. The limit for modes with width is C81, the accuracy of the line shape for positive widths C80.
* **C78 Warnings about Currat-Axe scattering** - `SpurionModel.v`, `SpurionProps.v`. currat_axe_peaks with integers and floats kept apart, on top of get_angles_and_Q of `AngleModel.v`. The result is the list of points warned about; what Python's warning filters show of it is left out, and u and v have three components.
* **C79 Positions of aluminium rings** - `SpurionModel.v`, `SpurionProps.v`. The printed lines without |F|^2 and without the formatting of numbers; argsort of twelve numbers as insertion sort with nan last.
* **C80 Accuracy of the line shape of a mode with width** - `SmaModel.v` (`voigt`), `VoigtAccProps.v`. The Voigt convolution is the real part of the Faddeeva function, which obeys a linear differential equation along every ray of fixed argument. The rational approximations obey the same equation up to a defect that is a quotient of two polynomials with rational coefficients; the defect is bounded on each region by covering it with discs, checked by computation in the kernel (`VoigtDisk.v`, `VoigtCert.v`), and integrated along the ray (`VoigtAcc.v`, `VoigtInt.v`, `VoigtRay.v`). Single-precision storage of the result (complex64) is not modelled.
* **C81 Folding single modes with line width** - `SmaModel.v`, `SmaWideProps.v`. Same model as C76. The line shape is replaced by the Voigt profile at the cost of C80; the profile is continuous, so the sums over the grid tend to the integral as in C76. The iterated integral runs over energy, vertical, first and second axis, in this order.
* **C82 False-colour map of scans** - `PcolorModel.v`, `PcolorProps.v`. The result is the list of coloured rectangles handed to matplotlib and the colour limits. The theorem characterises, for every position, the values shown there by nearness to the measured points. Labels, colour maps and the choice of a logarithmic scale are left out.
* **C83 Plots of a dataset** - `PlotModel.v`, `PlotProps.v`. What is handed to matplotlib, without rebinning, smoothing and fits; the interpolation of the map between its positions is scipy's. The number of positions is proved for every regular grid by showing that the sorted different values of the column are the grid.
* **C84 Layout drawn** - `InstrPlotModel.v`, `InstrPlotProps.v`. Positions of the five elements and edges of the crystals; heights and labels are left out. The angles are parameters (C46 and others say what they are).
* **C85 Ellipsoid drawn** - same files. Marching cubes is idealised: its vertices are taken to lie exactly on the level surface. The theorem is an equivalence for every point of space, including that the grid is large enough.
* **C86 Ellipses shown** - same files. Points and settings are abstract; the ellipses themselves are C35. Points compare as lists (C41 treats numbers in place of arrays).
* **C87 Description** - `DescribeModel.v`, `DescribeProps.v`. The text is the list of numbers printed, each with its number of decimals. The integral is iterated over the four coordinates, each an improper integral over the line (Coquelicot's `is_RInt_gen`); it is proved for any number of dimensions by completing squares (`gauss_total`). The time-of-flight branch and lines repeating attributes are left out.
* **C88 Table of parameters** - `FitTableModel.v`, `FitTableProps.v`. Numbers printed with a number of digits are the rationals they denote; `%1.ne` and `%f` round to nearest. Decimal exponents are found exactly, where the code takes the logarithm in floating point. The layout of the table is left out.
* **C89 Equality of datasets** - `DataEqModel.v`, `DataEqProps.v`. Numbers are rationals, a missing one is nan; `==` of arrays of different lengths broadcasts a single element and otherwise answers False or raises, according to a parameter for the version of numpy. Columns holding text are left out.
* **C90 Shared components** - `ShareModel.v`, `ShareProps.v`. Components are places in a heap of attribute lists; an instrument is a map from its properties to places, and a list of other attributes. Histories of operations are lists. The arrays within attributes are values: `hcol` and the orientation vectors are copied by `np.array` in the code.
* **C91 Panels of projections** - `SliceModel.v`, `SliceProps.v`, over the curves of `MatModel.v`. Curves are lists of points of reals, so those with nan are left out; colours and the vectors repeated in labels are left out. The reach of a set is characterised by its farthest elements, not by a formula.
* **C92 Equality of instruments** - `InstEqModel.v`, `InstEqProps.v`, over the heap of `ShareModel.v` and the comparison of components of `CompModel.v`. Arrays are lists of numbers; arrays of different shapes are unequal (numpy warns or raises, depending on its version). Proved through the invariant that attribute names of an object are distinct, and for instruments used alike from C90_independent.
* **C93 Settings of a fitter** - `SettingsModel.v`, `SettingsProps.v`. Values are a small type of Python values the isinstance tests tell apart (bool is an int; numpy integers, which are numbers but not ints, count as numbers). The optimiser, the first residuals and the preparation of parameters (C39, `FitModel.v`) are arbitrary functions that may raise. Deprecation warnings, and residual functions themselves, are left out. What a setting takes is given by an inductive relation apart from the code.
* **C94 The window of the calculator** - `GuiModel.v`, `GuiProps.v`. A widget is its name and its text; the statements of load_instrument are a list of tasks over widget and attribute names, executed in order, the last assignment counting. float, calc_resolution, calc_projections and the description are arbitrary functions that may raise. What each field means (`fields`, `means`) is stated apart from the task list. Drawing, layout and fonts, and the text written back beside the crystal, which nothing reads, are left out; an exception in a slot is taken to leave the window as it is.
* **C95 Rotations and translations** - `PartsModel.v`, `PartsProps.v`. numpy's slices of nested arrays over a small inductive type of arrays; the four forms of argument are a variant. The 230 groups are those of the table of C26, taken through the model of the constructor; the refutation compares the shapes and the last rows.
* **C96 The fit over a plot** - `PlotFitModel.v`, `PlotFitProps.v`. The picture is the list of what matplotlib is told; the fit is that of FitModel.v (C39), the optimiser an arbitrary function of the residuals. Residuals for an error of zero are not numbers (`None`). Rebinning before the plot (C09) and labels, files and windows are left out; the function fitted is taken to be total.
* **C97 Which routine reads a file** - `RouteModel.v`, `RouteProps.v`. `detect_filetype` (C49) composed with the `load` method of each loader; the routine chosen is the result, what it then does with the file is C69 and C73. Names and contents are strings and lists of lines; a file that is not there is `None`.
* **C98 Sharing of scans** - `ScansShareModel.v`, `ScansShareProps.v`. A store of numbered dictionaries and collections pointing into it; histories are lists of actions, references are to things made before. The theorems describe the store by a function of the history alone (who was made of what, what was written last), not by the store. Arguments that are no OrderedDict are part of C16.
* **C99 Waterfall plots** - `ScansShareModel.v`, `ScansShareProps.v`. The picture is the list of curves handed to matplotlib; columns are lists of reals and the two columns of a scan are taken to be of one length. Legend, axis labels and windows are left out.
* **C100 A dataset through an hdf5 file** - `H5DataModel.v`, `H5DataProps.v`. A file is the group of the data, the group of the instrument and the names of the rest; h5py lists the members of a group by name, np.copy of a group without members is an empty array, and str of the bytes of an attribute is its text in Python 3 (`b'...'`; texts without quotes and backslashes). The instrument part is the model of C72. Saving as text is that of C50.
* **C101 Printed objects as program text** - `PrintModel.v`, `PrintProps.v`. A repr is modelled as the call it shows: positional and named arguments, each by what its text is the text of. What Python makes of a text is part of the model, not of the code: numbers and lists are read back, a text without quotes and an array of two or more entries (no commas) are errors. Matching of arguments with parameters is Python's. The constructors are those of C45 (components) and C29 (space groups); of instruments only the class and the energy are followed.
* **C102 Magnetic unit cells** - `MagCellModel.v`, `MagCellProps.v`. The dictionary as a record of optional keys; the loop over entries and symmetrized positions as recursions. Not modelled: a dictionary with `lattice` but without `abc` or `abg` in it, and entries of wrong types. Symmetry is stated with the operations as mathematical maps: positions modulo lattice vectors, moments along the axes of the cell as axial vectors, i.e. turned by det(R) R; that the images of one atom are closed under the group comes from C26.
* **C103 Unit conversions in floating-point arithmetic** - `EnergyFloatModel.v`, `EnergyFloatProps.v`. The one place where rounding is modelled, with Flocq: every operation of `_update_values` and `__eq__` in its order, rounded to nearest even in binary64 with gradual underflow, overflow and what is not a number as `None`. The square (`**` calls the C library) is any function within one unit in the last place. Constants are the numbers stored, whatever they are within their decades. Errors are added up on a logarithmic scale and compared with the exact formulas of `EnergyModel.v` (C17). Scalars only.
* **C104 Rebinning in floating-point arithmetic** - `BinFloatModel.v`, `BinFloatProps.v`. The cells of `Data.bin` (exact model: C09) with every operation rounded to nearest even in binary64: `linspace` (step, products with the step, last point the stop), `average` of two numbers, half the width, the two comparisons. The number of points is exact. Range: no overflow, larger bound at least 2^-900. The two witnesses are the doubles nearest to the decimals named, rounded step by step with integers.
* **C105 Combining data in floating-point arithmetic** - `CombFloatModel.v`, `CombFloatProps.v`. The loop of `combine_data` (exact model with column names and failures: C01-C04) with the differences and the sums rounded to nearest even in binary64. The rounding is an argument of the model, so that the machine's and the exact result can be compared. The final sort only moves points, so the theorems speak of any permutation. Columns of integers (numpy's int64) are not meant.
* **C106 Space-group operations in floating-point arithmetic** - `SymFloatModel.v`, `SymFloatProps.v`. The closure loop of `_symmetry_operations_from_generators` (exact model: C26-C30) with every product, sum, remainder and difference of the translations rounded to nearest even in binary64. The entries of rotations are small integers, whose arithmetic is exact, and are kept as integers. The order in which `np.einsum` adds is an argument, any of the 15 binary trees over four numbers. Proved by running the loop on intervals with dyadic ends, shown to contain the rounded values (the domain, the tabulated groups, is finite). All intervals of kept operations turn out to be points, hence the same doubles in all orders. The texts of `get_str_from_generator` are computed with rounded inverses and `np.round`. Fused multiply-add gives the same results, since the products are exact; this is said in the comment, not proved.
* **C107 Numbers of points in floating-point arithmetic** - `PointsFloatModel.v`, `PointsFloatProps.v`. The quotients of `estimate_background` (percent) and of the form factor's default points, rounded to nearest even in binary64, and cut off by `int`. The averaging and the form factor themselves are in C12 and C48.
* **C108 Equivalent positions in floating-point arithmetic** - `PosFloatModel.v`, `PosFloatProps.v`. The rotated and translated positions with every product and sum rounded to nearest even in binary64; the order in which `np.dot` adds is an argument. Uses the operations of C106, and that rows of the tabulated rotations have at most two entries that are not 0 (checked for the finite table), which is why the order makes no difference. Overflow is left out.
* **C109 The printed properties of a neutron** - `EnergyTextModel.v`, `EnergyTextProps.v`. The format 3.3f as the nearest whole number of thousandths, halves to even, and the texts of that number's digits; the numbers are those of `EnergyModel.v`. Read back with the standard library's reader of decimal digits. Signed zero is left out (a negative zero would be shown as -0.000).
* **C110 HDF5 files exported by GRASP** - `NxsModel.v`, `NxsProps.v`. A file is the list of its datasets by path, an array its shape and entries; `np.squeeze`, the columns, `data_keys`, `_err` and the accessors intensity, error, h ... temp, Q. For two files the model of combination of C01-C03 (`DataModel.v`) on files whose datasets have one axis left. Broadcasting between different shapes and combination of arrays with more axes are not modelled.
* **C111 Strength and label of the aluminium rings** - `RingModel.v`, `RingProps.v`. The material of `StructModel.v` (C47) built from the dictionary of `aluminum`, with the operations of Fm-3m computed from the table (C26); structure factors over the reals, the quotient of wavelengths in the label in binary64. The angles and the order of the lines are C79.
* **C112 Normalised intensity in floating-point arithmetic** - `NormFloatModel.v`, `NormFloatProps.v`. The operations of `intensity` and `error` in their order, each rounded to nearest even in binary64 (Flocq), square root included; the largest norm is exact. Overflow and norms of zero or below are left out of the bounds (a norm of zero gives `None`).
* **C113 Background subtraction in floating-point arithmetic** - `SubFloatModel.v`, `SubFloatProps.v`. Builds on C112: the difference, the larger of the squares and its root, each rounded to nearest even in binary64 (Flocq), and the intensity and error read back from the result with norms and references of one. The square comes from the power function of the C library and is any function right to two units. One point against many (C07), interpolated backgrounds and overflow are not in this model.
* **C114 Background from the lowest intensities in floating-point arithmetic** - `BgFloatModel.v`, `BgFloatProps.v`. Selection, sorting and cutting are exact; the number of points is that of C107; the sum is any binary tree over the entries (numpy's choice), every addition and the division rounded to nearest even in binary64 (Flocq). Overflow and nan are left out.
* **C115 Integrated intensity in floating-point arithmetic** - `IntFloatModel.v`, `IntFloatProps.v`. The selected points are given (C13 says which); every subtraction, sum, product, halving and addition is rounded to nearest even in binary64 (Flocq); the sum of np.trapz is any binary tree over the positions, chosen by their number. The background is one number. Overflow and nan are left out.
* **C116 Peak position in floating-point arithmetic** - `IntFloatModel.v`, `PosnFloatProps.v`, `PosnCloseProps.v`, `PosnAccProps.v`. As C115: the selected points are given, each operation is rounded to nearest even in binary64 (Flocq), the sums of np.trapz are any binary tree. Division by a total of 0 is `None` (nan or infinite), never a number. The background is one number. Overflow and nan in the data are left out.
* **C117 Peak width in floating-point arithmetic** - `WidthFloatModel.v`, `WidthFloatProps.v`, `WidthCloseProps.v`, `WidthAccProps.v`. As C116; the position subtracted is the one over all coordinate columns, as in the code. Squares are rounded products. The root of fwhm=True is the rounded root; its constant factor is any number not below 0, because np.log is not specified exactly. Overflow and nan in the data are left out.
* **C118 Scattering function and susceptibility of a dataset** - `ScatterModel.v`, `ScatterProps.v`. The columns of energies, temperatures and counts are lists of reals; wavevectors are those of `EnergyModel.v` (C17, C19), the factor of one point that of `BalanceModel.v` (C15). nan and infinity are values; the sign of an infinity is not kept. The cross section is given.

## Not expressible here

* Numerical accuracy of any float computation, convergence of the optimiser, visual output of plots, binary file formats.

## Print Assumptions, per theorem

All axioms are of the standard library: `ClassicalDedekindReals.sig_forall_dec`, `ClassicalDedekindReals.sig_not_dec`,
`FunctionalExtensionality.functional_extensionality_dep` and `Classical_Prop.classic`. One row per set of axioms; theorems
are grouped by property (the part after the underscore).

| Axioms listed | Theorems |
|---|---|
| none (closed under the global context) (233 theorems) | C01: `counts_conserved`, `combine_succeeds`; C02: `row_correspondence`, `columns_compared_by_name_refuted`; C03: `aligned`, `points`, `sorted`; C04: `counts_add_pointwise`, `exact_commutes`, `default_tolerance_commutes_refuted`, `result_has_distinct_points_refuted`; C05: `operator_frame`, `operator_history`, `mul_div`, `operator_values`, `augmented_loses_dataset`, `augmented_keeps_dataset_refuted`; C06: `fresh_intensity`, `intensity_total`, `norm_scale_invariant`, `detector_linear`, `fresh_error`, `explicit_error`, `reference_frozen`, `combined_renormalises`, `inplace_combination_normalised_refuted`; C07: `subtraction_law`, `self_subtraction`, `unit_norm`, `length_mismatch`, `one_point_background_refuted`, `subtraction_over_column`; C08: `worker_count`; C09: `cell_averages`, `binned_columns`, `every_point_covered`, `bins_share_boundary`, `boundary_in_both`, `points_counted_once_refuted`, `binned_intensity`, `error_preserved_refuted`, `request_honoured_refuted`; C10: `columns_rectangular`, `columns_hold_arguments`, `scalars_one_point`, `Q_argument`, `Q_argument_rectangular_refuted`; C11: `coordinate_assignment`, `assignment_history`, `count_assignment`, `count_assignment_refuted`, `columns_kept`; C12: `simple_backgrounds`, `percent_mean_of_lowest`, `percent_bounded`, `percent_monotone`, `percent_defined_refuted`; C13: `default_selection`, `zero_h_loses_everything`, `all_points_used_refuted`; C14: `position_in_range`, `position_shift`, `width_nonneg`, `width_bounded`, `width_shift`, `further_columns_refuted`, `positive_integral_refuted`, `default_bounds_shift_refuted`, `background_lowers_integral`, `integration_columns`; C16: `history`, `summaries`, `summaries_after_update_refuted`, `empty_collection_unusable`, `argument_types`; C24: `lattice_type`, `scaling`, `axis_labels_refuted`, `triclinic_two_equal_angles_refuted`, `monoclinic_unique_c_refuted`; C26: `space_groups`, `generated`; C27: `orbit`, `multiplicity`; C28: `parse_component`, `parse_operation`, `number_of_components`, `table_generators`, `round_trip`, `no_round_trip`, `translation_refuted`, `subtracted_refuted`, `generators_text`, `operations_text`; C29: `any_name`, `no_alias`, `unknown`, `assign_known`, `assign_unknown`, `assign_unknown_refuted`; C30: `products`, `closed`, `stops_closed`, `wrong_total_refuted`, `duplicate_generators_refuted`; C32: `result`, `defined`, `idempotent`, `first_refuted`; C45: `sample`; C48: `ions`; C49: `by_name`, `case_refuted`, `signs`, `supported`, `own_files`, `first_type`, `mixed`, `names`, `counts`; C50: `without_errors`, `error_column`, `combine`, `read_then_save`, `save_again`, `always_overwrites`, `hdf5`; C51: `roundtrip`, `unreadable`, `numbers`, `infinities`, `smooth`, `second`, `missing_refuted`, `save`, `leftover_refuted`, `leftover_error_refuted`; C54: `system`, `distinct`; C60: `data`; C69: `roundtrip`, `one_point`, `compare_numbers`, `merge_refuted`; C70: `lines`, `cfg_lines`; C71: `save`, `short`, `roundtrip`, `unusable`, `invented`, `again`, `missing`, `over`, `over_refuted`; C72: `roundtrip`, `smooth`, `none`, `append`, `again`, `missing`; C73: `icp_points`, `icp`, `icp_shift`, `mad`, `ice`, `ragged`, `spice`, `grasp`; C74: `xyie`, `y_lost`, `unusable`, `error`, `spe`, `spe_swapped`, `spe_refused`, `spe_unusable`, `columns`, `subtype`, `minus`; C83: `map_axes`, `unit_steps_show_measured_positions`, `fine_steps_lose_positions`, `no_map_away_from_zero`, `no_map_of_single_line`, `volume_shows_positive_rows`, `line_shows_rows`; C86: `pictures_show_points_asked`, `other_points_shown`, `change_not_shown`; C87: `method`; C89: `equal_iff`, `symmetric`, `answers`, `transitive_refuted`, `empty_equals_point`, `missing_number_differs`, `intensity_refuted`; C95: `parts`, `refused`, `stack`, `kept_array`, `image`; C97: `tables`, `names`, `content`, `missing`, `name_refuted`, `grasp_refuted`; C98: `shared`, `order`, `untouched`, `count`, `caller_refuted`, `count_refuted`; C100: `saves`, `roundtrip`, `meaning_lost`, `again`, `no_text`, `instrument`, `old_instrument`, `missing`; C101: `lattice`, `shown`, `space_group`; C110: `readable`, `columns`, `values`, `empty`, `two`, `merge_refuted`, `errors_refuted` |
| `sig_forall_dec` (6 theorems) | C45: `material`; C57: `total_ignores_occupancy`; C85: `several_points`; C101: `oriented_sample`, `sample`, `goniometer` |
| `sig_forall_dec`, `functional_extensionality_dep` (58 theorems) | C20: `reflexive_symmetric`; C33: `arrays`, `complex_arrays`, `numbers`, `negative_refuted`, `complex_refuted`, `nested`, `nested_refuted`; C35: `vertical_refuted`; C39: `fit`, `all_fixed`, `rejects`, `limits`; C44: `chopper_order`; C45: `material_refuted`; C54: `centring`, `point_group`; C60: `call_is_stale`, `length_is_frozen`, `never`, `nfree_refuted`; C65: `default_guides`; C66: `sample`; C78: `energy_refuted`; C82: `map_shows_nearest_measurement`, `unsorted_point_missing_refuted`, `default_limits_refuted`, `no_map`; C86: `axes_hold_all_curves`; C87: `fixed_energy`; C91: `no_panel`; C93: `assignment`, `last_value`, `constructor`, `by_name`, `never_readable`, `options`, `no_effect`, `fit_reports`, `last_fit`, `no_fit_yet`, `number`, `one_fit_refuted`; C99: `curves`, `places`, `refused`; C101: `detector_atom`, `detector_pixels`, `instrument`, `takin`, `time_of_flight`; C102: `made`, `cell`, `moments`, `symmetry_refuted`, `material`; C109: `read`, `distinguish` |
| `sig_forall_dec`, `sig_not_dec`, `functional_extensionality_dep` (140 theorems) | C15: `factor_reflection`, `susceptibility_odd`, `cross_section`; C17: `conversions_inverse`, `relations`, `energy_argument_wins`, `first_argument_counts`, `some_argument_needed`; C18: `last_assignment_counts`, `positive_history`; C19: `scalar_zero`, `zero_wavevector_raises`, `array`, `zero_is_local_refuted`; C20: `transitive_refuted`, `equal_values_refuted`; C21: `metric_duality`; C22: `q_times_d`, `multiples`, `inversion`; C25: `Umatrix`; C31: `label`, `history`, `rejected_refuted`; C34: `form`, `minimum`, `order`; C35: `points`, `equation`; C36: `kfree`, `gain`, `gain_refuted`; C38: `undamped`, `dispersions`, `stiffness`, `invalid`; C45: `monochromator`, `analyzer`, `analyzer_refuted`, `assign`; C47: `mass_norm`; C48: `even`, `zero`, `normalised`, `spin_only`, `calls`; C52: `tilts`, `rotation`, `sense`, `directions`, `orientation`, `orientation_rotation`, `orientation_lengths`, `orientation_refuted`; C53: `isometry`, `distances`, `reflections`, `rhombohedral_refuted`; C55: `material`, `unknown_mass`, `isotopes`, `elements`; C56: `positions`, `uaniso_dropped`, `uaniso_missing`, `unbuildable`; C57: `total`, `number`; C59: `mode`; C60: `statistics`; C61: `wavevectors`; C66: `monochromator`, `name_refuted`, `analyzer`, `analyzer_refuted`; C67: `length`; C70: `documented`, `loads`, `spacing`, `ignored`, `senses`, `sample`; C75: `mc`, `seed`, `functional`, `unused`, `errors`; C76: `mc`, `seed`, `unused`, `errors`, `line_even`, `line_finite`, `line_sharp`, `line_exact_refuted`; C84: `layout_follows_angles`, `four_arms_needed`, `crystal_width`; C87: `other_infin_refuted`; C90: `assignment`, `orientation`, `one_sample_one_orientation`, `independent`, `sample_kept`, `sample_without_plane`, `handed_component`, `new_instrument`, `two_orientations_refuted`; C92: `equal_iff`, `reflexive_symmetric`, `used_alike`, `one_sample`, `calculation`, `transitive_refuted`; C94: `attributes`, `curvature`, `frame`, `energy`, `unread`, `redrawn`, `unreadable`, `custom`, `stale`, `no_effect_refuted`; C96: `curve`, `points`, `drawn`, `format_refuted`; C101: `monochromator`, `analyzer`, `named_crystal`, `defaults`; C109: `small`, `zero`, `negative`; C111: `atoms`; C118: `points`, `stopped`, `local_refuted`, `no_cross_section` |
| `sig_forall_dec`, `sig_not_dec`, `classic`, `functional_extensionality_dep` (247 theorems) | C15: `factor_sign`; C21: `reciprocal_parameters`, `reciprocal_involution`, `Bmatrix`, `Bmatrix_right_angles`, `Bmatrix_metric_refuted`, `basis_vectors`; C22: `bragg`, `q_is_vector_length`; C23: `angle`, `multiples`, `scaling`; C25: `UB_preserves_Q`, `UB_preserves_Q_refuted`, `u_along_first_axis_refuted`, `u_along_first_axis_cubic`, `phi_cubic`, `phi_in_plane_refuted`; C31: `names`, `label_name`; C34: `integral`; C35: `contour`, `projections`, `centre`, `centre_refuted`; C36: `angle`, `zero`, `zero_refuted`, `directions`; C37: `concatenates`, `gaussian`, `lorentzian`; C38: `damped`, `period_refuted`; C40: `shape_turns`, `shape_repeat_refuted`, `shape_dead`, `split`, `independent`, `sense_refuted`, `axes`, `no_history`; C41: `stale`, `failed`, `fresh`, `copies`, `current_refuted`; C42: `vertical`, `positive`, `triangle`, `mirror`, `wider`; C43: `star`, `axes`, `collinear`, `zero_is_not_rejected_refuted`, `components`; C44: `covariance`, `outcome`, `exists`, `default`, `range`, `orientation`, `horizontal_refuted`, `shape`, `no_choppers`, `two_choppers`, `one_chopper`, `own_point`, `frame`, `own_point_refuted`, `prefactor_units`, `jacobian`; C46: `override`, `value`, `time_refuted`, `speed`, `opening`, `error`, `zero`, `repr`; C47: `centring`, `defined`, `displacement`, `one_atom`, `translation_displaced_refuted`, `translation_nan_refuted`, `friedel_complex_refuted`, `sum`, `friedel`, `shift`, `lattice_translation`, `inversion`, `space_group`, `absences`; C48: `bounded`, `unbounded_refuted`; C56: `special_position_refuted`; C57: `thickness`, `thickness_monotone`, `incoherent`; C58: `phonon`, `bragg`, `fwhm_refuted`, `extent`; C59: `gaussian2d`, `resolution`, `ring`, `voigt`, `short`; C61: `focusing`, `cooper_nathans`, `popovici`; C62: `moncor`, `no_monitor`, `sample_mosaic`, `monitor_width`; C63: `value`, `prefactor_refuted`, `nothing`, `first`; C64: `smooth`; C65: `override`, `needs_distance`, `moved`, `path_refuted`, `pixels`, `no_pixels`, `divergence`, `divergence_refuted`; C67: `divergence`, `supermirror_refuted`; C68: `cubic`, `swapped`, `refuted`; C70: `sizes`; C75: `converges`, `linear`; C76: `converges`, `focused`, `linear`, `line_wide`; C77: `crystals`, `no_planes`, `axes`, `right_angles`, `hexagonal_refuted`, `plane_refuted`, `numbers`; C78: `warnings`, `order`, `answers`, `on_peak`, `turn_refuted`; C79: `rings`; C80: `line_accuracy`; C81: `converges`; C85: `ellipsoid_drawn`, `half_maximum_surface_refuted`, `no_energy_tilt`; C87: `volume`, `first_point`, `old_matrix`, `fixed_wavevector`, `no_text`; C88: `table`, `no_table`; C91: `panels`, `printed_widths`; C103: `conversions`, `read_back`, `equal`; C104: `axes`, `missed`, `missed_one`, `exact`, `gap_refuted`, `averaged_refuted`; C105: `counts`, `large_refuted`, `bound`, `place`, `same`, `tolerance_refuted`, `order_refuted`; C106: `operations`, `same`, `text`, `nearest_refuted`; C107: `percent`, `quarters`, `percent_refuted`, `distance`, `number`, `default`, `range_refuted`; C108: `positions`, `same`, `exact`, `coincide`, `coincide_refuted`; C111: `strength`, `cell_refuted`, `label`; C112: `intensity`, `error`, `order`, `counts`, `unit`, `empty`, `counts_refuted`; C113: `answers`, `sign`, `self`, `missing`, `accuracy`, `error`; C114: `mean`, `order`, `whole`, `one`, `bounded_refuted`; C115: `answers`, `monotone`, `sign`, `constant`, `opposite`, `accuracy`, `exact`; C116: `accurate`, `close`, `answers`, `monotone`, `opposite`, `range`, `range_refuted`; C117: `accurate`, `fwhm_accurate`, `close`, `answers`, `sign`, `number_refuted`, `opposite`, `fwhm`, `still`, `still_refuted`; C118: `susceptibility` |
