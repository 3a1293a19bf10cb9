# Formal model of BladeX: design

Source: `/repo` (mathLab/BladeX, python) at the pinned commit, read as text only and left
unchanged. Prover: Coq 8.16.1. Build: `cd rocq && coq_makefile -f _CoqProject -o Makefile && make -j4`.

## 1. Approach

* Shallow embedding. Each modelled Python function is a total, computable-in-form Gallina
  function that follows the Python branch by branch and cites file and lines. Python
  exceptions are values (`res A = Ok a | Err e`, `Base.v`). Methods that mutate an object
  return the new state together with the outcome, so the state left behind by a raising
  call is part of the model.
* numpy float arrays are `list R` (exact real numbers). Rounding is outside these models.
  The files `Float*.v`, `ShapeFloat*.v`, `SectionFloat*.v`, `NacaFloat*.v`, `NacaFive*.v`, `ChordFloat*.v`, `ChordSample*.v`, `WrapFloat*.v`, `PitchFloat*.v`, `RakeFloat*.v`, `TurnFloat*.v` and `PpgFloat*.v` are second, binary64 (Flocq) models of the motions of a
  profile, of its checks, thickness, camber and section parameters, and of the two conversions of `export_ppg`, with error bounds and
  counterexamples to exactness.
* numpy turns a division by zero or an inverse sine outside [-1,1] silently into inf/nan.
  The model returns the pseudo exception `NonFinite` there; Coq's `x / 0 = 0` is never
  used. Inputs outside the scope of a model give the pseudo exception `Unmodelled`, so no
  theorem about `Ok` results silently covers them.
* Array identity matters for `+=` and `*=`. `Heap*.v` is a second model of the profile
  operations on an explicit heap of arrays, related to the pure model by a refinement
  theorem under a separation hypothesis; what happens without it is proved as well (C05).
* External libraries (OpenCASCADE, scipy.interpolate, the Voronoi diagram, the file
  system's outcome, texts printed by numpy) are function parameters; theorems quantify over
  all of them, with explicit hypotheses where a property of the library is needed.
  `numpy.linalg.solve`/`lstsq`, FITPACK's B-spline evaluation, `configparser`, `float()`,
  `str.format('%.8e')` and `csv.writer` are modelled concretely.
* Files: `XModel.v` (definitions following the code), `XSpec.v` (vocabulary of the
  statements, independent of the model's helpers), `XProofs*.v` (lemmas), `PropX.v`
  (the property theorems, each with `Print Assumptions`, and examples which meet the
  hypotheses).
* If a claim suggested by the documentation is false of the code, the property states what
  is true and a theorem `..._refuted` gives the counterexample.

## 2. Trusted base

* The Coq kernel (8.16.1). `vm_compute` is used in a few places; `coqchk` re-checks them
  without it.
* Axioms: only those of the standard library below. `ASSUMPTIONS.md` lists for each
  theorem what `Print Assumptions` reports (regenerated by `tools/assumptions.py`).
  - `ClassicalDedekindReals.sig_forall_dec`, `ClassicalDedekindReals.sig_not_dec` (real numbers),
  - `FunctionalExtensionality.functional_extensionality_dep`,
  - `Classical_Prop.classic` (through Reals, Coquelicot and Flocq lemmas).
* No axioms, section-less variables, `Admitted`, functors, module types, plugins or
  switched-off checks of our own.
* Libraries: Coq standard library; Coquelicot in `WendlandPD.v` (integrals); Flocq in
  `PpgFloat*.v`, `Float*.v`, `ShapeFloat*.v`, `SectionFloat*.v`, `NacaFloat*.v`, `NacaFive*.v`, `ChordFloat*.v`, `ChordSample*.v`, `WrapFloat*.v`, `PitchFloat*.v`, `RakeFloat*.v`, `TurnFloat*.v` and `Repr*.v`.
* The correspondence of the model with the Python text, checked by reading only (nothing
  can be run here), and the assumptions on libraries listed in section 4.

## 3. Map

| properties | code | files |
|---|---|---|
| C01-C04, C06-C12 | `profile/baseprofile.py` | `Profile*` |
| C05 | `profile/baseprofile.py` on a heap of arrays | `Heap*` |
| C13-C16, C66, C67 | `profile/customprofile.py` | `Custom*` |
| C92-C94 | `baseprofile.py`, `customprofile.py`: American thickness; `newton` and the RBF curve are parameters | `American*` |
| C96-C98 | `profile/*.py`: profile objects with all attributes, plot | `Airfoil*` |
| C17-C21, C68 | `profile/nacaprofile.py` | `Naca*` |
| C22-C26, C95 | `ndinterpolator.py`: RBF, reconstruct_f, `numpy.linalg.solve` | `Rbf*`, `Solve*`, `WendlandPD`, `WendlandProofs`, `Kernel*` |
| C27-C29, C69 | `ndinterpolator.py`: scipy_bspline (FITPACK recursion) | `Bspline*` |
| C30-C34, C70, C89-C91 | `params.py`, `configparser`, `float`, `int` | `Params*`, `Text*` |
| C35-C41, C71, C72 | `deform.py`, `numpy.linalg.lstsq` | `Deform*`, `Lstsq*` |
| C42-C52 | `blade.py`: construction, transformations, faces, motions | `Blade*` |
| C53, C54 | `blade.py`: export_ppg, `'%.8e'` and `'%.2f'` formats | `Ppg*`, `PpgFloat*`, `Format*` |
| C55, C56 | `propeller.py`: shapes, caches, exports | `Propeller*` |
| C57, C58 | `propeller.py`: OBJ meshes | `Obj*` |
| C59, C60, C63, C73, C74 | `reversepropeller/*.py` | `Reverse*`, `Reconstruct*` |
| C61, C62 | `reversepropeller/reversepropeller.py`: path and polygon | `Path*` |
| C64, C65, C75 | `shaft/*.py`, `intepolatedface.py` | `Shaft*` |
| C76-C79 | `blade.py`: exports, leading edge, error file, plot | `Export*` |
| C80-C83 | `reversepropeller/*.py`: cylinder, chord, camber points | `Chord*` |
| C99, C100 | `reversepropeller.py`: `_camber_curve`, points on the wires | `Camber*` |
| C101 | `basereversepropeller.py`: `_extract_solid_from_file` | `Solid*`, `Print*` |
| C102 | `blade.py`, `params.py`: `__str__`; `Blade.display` | `Print*` |
| C103 | `blade.py`: `apply_transformations` on section objects with arrays | `HeapBlade*` |
| C104 | `reversepropellerbladex.py`: faces, edges and wires of a section; `display_*` | `Slice*` |
| C105 | `deform.py`: superposition of distributions and displacements | `DeformProofs5` |
| C106 | `scipy_bspline`, `_optimum_control_points`: samples determine the control points exactly when there are as many of them (zeros counted by Rolle along the control polygon); Greville abscissae | `BsplineProofs3`, `BsplineProofs4`, `DeformProofs6` |
| C107 | `deform.py` with resampling: abscissae of control points and curve, exact success condition of `compute_all` | `DeformProofs6` |
| C108 | `deform.py` without resampling: distributions affine in the radius | `DeformProofs6` |
| C109 | `deform.py`, `scipy_bspline`: at most as many data as control points, the fitted curve goes through them | `BsplineProofs4`, `DeformProofs7` |
| C110, C111 | `str(x)` and `float(s)` of binary64 numbers as used by `params.py` | `Repr*` |
| C112 | `params.py` with binary64 entries, no assumption on number texts | `ReprProofs6` |
| C85-C88 | `profile/baseprofile.py` in binary64 (Flocq): motions | `Float*` |
| C113 | `profile/customprofile.py` in binary64: `_check_coordinates`, `np.isclose` | `ShapeFloatProofs`, `ShapeFloatProofs7` |
| C114, C115 | `profile/baseprofile.py` in binary64: thickness and camber without interpolation | `ShapeFloat*` |
| C116 | `profile/customprofile.py` in binary64: `_check_parameters`, `generate_coordinates` (British convention) | `SectionFloatProofs`-`SectionFloatProofs3` |
| C117 | `profile/baseprofile.py` in binary64: `generate_parameters` (British convention) and back to coordinates | `SectionFloatProofs4`-`SectionFloatProofs8` |
| C118 | `profile/nacaprofile.py` in binary64: four-digit foils, both spacings, and the constructor; `np.power`, `np.arctan`, `np.sin`, `np.cos` are parameters with stated accuracy | `NacaFloatProofs`-`NacaFloatProofs7` |
| C119 | the same file: five-digit foils with a tabulated second digit or none, standard and reflex; the splines are parameters within 2^-30 (junction) and 2^-10 (strength) of the table | `NacaFiveProofs`-`NacaFiveProofs3` |
| C120 | `baseprofile.py` 277-317, 601-638 without interpolation, surfaces with equal abscissae, in binary64; the rounding order inside `norm` is a parameter | `ChordFloatProofs`-`ChordFloatProofs5` |
| C121 | `max_thickness` (`ShapeFloatModel.v`) of the foils of C118 and C119, linear spacing or no camber | `ChordFloatProofs6` |
| C122 | `baseprofile.py` 277-317 with any number of points: `np.linspace` between the edges in binary64 | `ChordSampleProofs` |
| C123 | `blade.py` 255-296 in binary64: `wrap64`, `cylinder64`; `np.sin` and `np.cos` are parameters, assumed within 2 roundings | `WrapFloatProofs` |
| C124 | `blade.py` 233-241 in binary64: `pitch_angles64`; `np.arctan` is a parameter, assumed within 2 roundings; `np.pi` against `PI` by the alternating series of `Machin` | `PitchFloatProofs` |
| C125 | `blade.py` 243-253 in binary64: `induced_rake64`; `np.arctan` and `np.tan` are parameters, assumed within 2 roundings (the tangent at angles with a tangent up to 8) | `RakeFloatProofs` |
| C126 | `blade.py` 369-445 in binary64: `turn64`, the coordinates only; `np.sin` and `np.cos` are parameters, each product of `np.einsum` fused or not, the three terms added in order | `TurnFloatProofs` |
| C127 | `blade.py` 348-365 in binary64 for one scaled section: `place64`; `np.arctan`, `np.tan`, `np.sin`, `np.cos` are parameters, assumed within 2 roundings, the last two never above 1; the scaling (335-338) is C87, the changes of thickness and camber (340-346) are C114 and C115, and are not composed here | `PlaceFloatProofs` |
| C128 | `blade.py` 348-367 in binary64 for one scaled section: `lay64`, the composition of `place64` and `wrap64`; exact side: the real placement wound on the cylinder | `LayFloatProofs` |
| C129 | `blade.py` 333 and 348-367 with 275-296 in binary64 for all scaled sections of a blade: `blade64`; the arrays of equal lengths are one list of entries; sections are distinct objects, scaling and the changes of thickness and camber are not included | `RowFloatProofs` |
| C84 | `basereversepropeller.py`: save_global_parameters, `csv.writer` | `Csv*` |

Proof methods: list induction and ring/field/trigonometric identities (profiles, blades);
elimination invariants for the linear solvers; positive definiteness of the Wendland
kernel by an integral representation, of the Gaussian and multiquadrics by power series; induction on the degree for B-splines;
induction on lines and characters for parsers and formatters; state invariants over
arbitrary method sequences for `Deformation`, `Propeller`, blades and the heap.

Not modelled: the CAD kernel beyond point-set semantics of its transformations and the
parameters named above; the pixels drawn by matplotlib (which curves and options are
requested is modelled); display windows; rounding of LAPACK, FITPACK and of the profile and
blade arithmetic (except section 1); docs, tests, packaging.

## 4. Assumptions on Python and libraries built into the models

* Profiles: coordinates are one-dimensional float arrays (in `Heap*.v` also int64);
  arrays own their data. `RBF`/`interp1d` in the profile code are parameters where only
  totality matters.
* Parameter files: ASCII text, universal newlines, one option per line as written by the
  class; interpolation of `%` is not used (RawConfigParser).
* `float(text)` reads the exact decimal value and `'%.8e' % x` is the nearest decimal in the models
  over the reals. C30-C34 leave the number texts open (any `codec`); `ReprModel.v` computes them for
  binary64: `float(s)` is correct rounding, `str(x)` of a numpy float the shortest numeral (numpy
  before 2 prints as Python does). `np.arange` is start, start + step, start + i * delta.
* Blade: a face that is `None` given to the CAD kernel raises TypeError, `gp_Dir(0,0,0)`
  raises RuntimeError, scale factor 0 is `Unmodelled`, `deepcopy` of a face copies geometry.
* OBJ: the inverse of `np.unique` is one-dimensional; meshes without triangles are
  `Unmodelled`.
* Shaft: cylinders with non-positive sizes and calls without coordinates are `Unmodelled`.
* csv: text mode with line feed line ends; numpy's print threshold is the default 1000.

## 5. Findings about the code

Places where code and documentation, or code and plausible intent, disagree. All are
consequences of theorems or of `_refuted` theorems unless marked (note).

Profiles
* `max_camber()` is not invariant under vertical translation (C11).
* `rotate` with unequal numbers of points collapses surplus lower points or raises IndexError (C02).
* Thin-plate reconstruction can be singular (C26). So can the Beckert-Wendland one for distinct points
  in high dimension (C24).
* The in-place operations change the caller's arrays; shared abscissae are moved twice,
  and `scale` then gives k²(x-2r)+2r; int arrays make `translate` by a float and `scale`
  raise TypeError possibly half done; `rotate` by 0 still detaches the arrays (C05).
* `camber_max < 0` and `thickness_max < 0` are false for NaN: such parameters are accepted and all
  ordinates become NaN (C116). A section asked to be 0.1 thick measures 0.10000000000000002 with a
  camber of 0.1, exactly 0.1 without (C116). A foil curved downwards gets camber fractions of -1 and
  below, the maximum being taken before the absolute value (C117). One NaN coordinate spreads to all
  fractions, and a chord of at most 2^-539 measures 0, so that the fractions are no numbers (C117).
* `max_camber` divides by the extent of the chord without a check: edges with one abscissa give NaN and no
  exception, and so does one NaN ordinate (C120).
* The coefficients of the NACA thickness are chosen for a closed trailing edge, but rounded to binary64
  they add up to -2^-55 at x = 1: every foil of positive thickness ends with its upper surface below
  its lower one (C118). The recorded foils of the tests show it, `naca4_0012_yup.npy` ends with
  -1.67e-17 (`ValidNacaFloat.v`). The checks of CustomProfile exempt the ends and accept such foils (C118).
* CustomProfile: consistent coordinates of magnitude above about 10 may fail the 1e-4
  tolerance of `_update_edges` (C13); profiles hanging below their camber are not
  reproduced (C14).
* CustomProfile accepts NaN abscissae between the ends and equal infinities at the ends; between
  surfaces of different lengths a NaN ordinate passes (C113). One NaN ordinate, or a thickness that
  overflows, makes `set_thickness_max` replace every ordinate by NaN or by zero silently; a thin
  foil away from the axis misses the wanted thickness by a quarter (C114).
* American thickness depends on the horizontal position of the profile: the camber points are
  measured from the smallest abscissa, the lower points are not (C93). The American coordinates pair
  abscissae of the orthogonal construction with ordinates at the chord stations, so the points
  leave the interpolated surface and the parameters do not survive a round trip (C94).
* `chord_line` and `camber_line` are created by no constructor: `plot(chord_line=True)` on a new
  profile raises AttributeError instead of the announced ValueError. Motions leave the lines, the
  edges and the six parameters of the old position, and `plot` draws the old line (C96, C97).
  `generate_coordinates` after a motion silently undoes it; `generate_parameters` with an
  unknown convention raises NameError after replacing half of the parameters (C98).
* NACA: 5-digit second digit 6-9 extrapolates the tables; reflex 8/9 do not close; the
  reflex uses the standard camber formula; cosine spacing scales the camber but not the
  slope; "00-5" is accepted; n_points=0 raises IndexError, n_points=1 gives NaN (C17-C21, C68).

Parameters and deformation
* A failed read is not atomic (C34); a missing file read with a non-fitting object clobbers
  the radii and creates no file (C33); files with empty radii or nbasis=0 cannot be read back (C30).
* The exported degree may equal nbasis, which makes the re-exported file unusable; a
  parameter not computed is exported as zeros; `rbf_points=1` makes both ends X[0];
  the guard of the deformed parameters rejects any zero value (C38-C41).

Blade
* Root and tip faces are swapped; a y-rotation turns faces opposite to coordinates; `mirror`
  does not touch the coordinates; the last camber override is ignored; `rotate`/`scale`
  before `build` raise TypeError after the coordinates changed; a second
  `apply_transformations` changes the sections again; the docstring of `build` says it does not apply
  transformations but it does (C47-C52).
* Nothing demands equally many upper and lower points: with fewer lower ones `apply_transformations`
  raises IndexError, the first section being half transformed; with more it succeeds and `build`
  raises ValueError when two of the four faces are already replaced (C45, C47).
* `apply_transformations` leaves the arrays the sections were made from centred, scaled and
  reflected. Sections made from the same four arrays get the product of the chords so far and are
  reflected again each time; a section with one array for both abscissae is scaled by the square of
  its chord, not centred, and mirrored instead of reflected. Nothing is raised (C103).
* Leading-edge curves take the index from section i but the point from coordinate row i;
  without reflection they follow the trailing edge; they are not mirrored (C77).
* Writers' status is ignored (C76); `_write_blade_errors` reads attributes never set and
  truncates the file (C78).
* PPG: a failed write leaves the parameters normalised; `xdown` is not written; the hub
  offsets are a constant table whatever the hub diameter; exact
  restoration in binary64 holds for a power of two diameter but not for 0.3 (C53, C54).

Propeller
* Cached shapes ignore later changes; writer status ignored; a float number of blades is
  rejected only after the blade was built; a second propeller from the same blade has
  different profiles (C55, C56).
* OBJ: `generate_obj` reads attributes never set; shaft cell indices beyond the shaft
  points silently refer to blade points in one mode and raise IndexError in the other (C57, C58).

Reverse propeller
* `_camber_curve` does not initialise the vertex explorer again, so its second loop never runs:
  a vertex at the end of the camber curve is never taken as edge, one at the start is (C99). The
  kept part of the spline is asymmetric: 0.5 % are cut at the start, 1.5 % at the end (C99).
* Unrolling to angles in [0, 2 pi) tears a section crossing the half plane y=0, z>0 (C100). The
  1000 airfoil points of a closed section contain its first point twice (C100).
* `_extract_solid_from_file` looks at the type of the first root only: behind a root that is not a
  face the other roots are not read (C101).
* The intersection cylinder misses part of the blade unless |xmin| <= xmax-xmin (C80).
* The chord uses arcsin and misses edges with z<0; the cutting plane is not perpendicular
  to the unrolled chord (C81). The isinstance test on the section is never true, so the
  last vertex is used, and a stale one when a cut is empty (C82).
* Camber points use [0,2π) while edges use (-π,π]; the edges' second coordinate is never
  divided by the chord; the skew sign is opposite in the two classes; the pitch sign is lost (C59, C60).
* `reconstruct_*` use `num_sections`, which is never set, and a method that does not exist (C63).
* `optimized_path` empties the caller's list (C61); a point level with a vertex is
  misclassified by `point_inside_polygon` (C62).
* ReversePropellerBladeX takes the trailing edge at parameter 0.0 and not at the first parameter of
  the wire; a section of one edge has no lower wire; a cylinder whose lateral normal is not exactly
  perpendicular to the axis in floating point has no lateral face and raises TypeError; the display
  methods need exactly one lateral face per cylinder (C104).
* `save_global_parameters` abbreviates sections of more than 1000 points and omits the skew list (C84).

Shaft and faces
* IGES read status ignored; extension test is case-sensitive and rejects ".igs" (C64).
  InterpolatedFace takes columns as points, so a 3x3 array of rows is silently transposed;
  zero sections raise UnboundLocalError (C65).

## 6. Mutation testing

`tools/mutate.py` applies one edit of a model definition at a time to a scratch copy outside
this repository, rebuilds with `make -k` and records which property theorems no longer
compile (their own proof or a lemma they use fails). `seeded/LOG.jsonl` has one line per
attempt; where an attempt survived, the theorems tightened are named there.

A theorem listed under `failed` is one whose proof no longer goes through. That is weaker than
the theorem being false of the edited model: a proof can break on an edit that changes no
result (S1826, `-(r a)` for `(-r) a`, is listed as failing `C127_placed`, which stays true). The
number of lines with a non-empty `failed` is therefore an upper bound on the edits detected.

## 7. Validation against the project's tests

The tests of the repository cannot be run here, but many of them state numbers or
files. `Valid*.v` state those as examples about the model. They are evidence that
the model computes what the program computes; they are not claims.

| tests | examples | content |
|---|---|---|
| test_profiles.py, recorded NACA foils | `ValidNaca.v`: `recorded_0012`, `recorded_2412_cosine`, `recorded_2412_linear`, `recorded_00012`, `recorded_23012_cosine`, `recorded_23012_linear`, `recorded_23112` | all 240 points of each foil, 4 arrays, within 1.5e-7 (the bound of `assert_almost_equal`) |
| the same, NACA 0012 and 2412 linear, binary64 | `ValidNacaFloat.v`: `recorded_0012_bits`, `recorded_2412_bits` | all 240 points, equal bit for bit |
| NACA 00012 and 23012 linear, binary64 | `ValidNacaFive.v`: `recorded_00012_bits`, `recorded_23012_bits` | all 240 points, equal bit for bit; the two values of the splines, not recorded, were searched for among the neighbours of the table |
| test_params.py 124-502 | `ValidParams.v` | `parameters.prm`, `pptc.prm`, `default.prm` are read as asserted and written back byte for byte; the six corrupted files are rejected; default and failing writes |
| the same files, binary64 numbers | `ValidRepr.v` | read with correctly rounded numbers and written back byte for byte; the default file is the recorded one |
| test_ndinterpolator.py | `ValidRbf.v` | the basis functions, the weight matrix, the scalar and vectorial reconstruction, the wrong basis name |
| test_blade.py 11-43, 273-389 | `ValidBlade.v`: `recorded_planar`, `recorded_reflect`, `recorded_no_reflect`, `rotated` | 11 of the 240 points in each of the 10 sections, both surfaces, 3 coordinates, within 1.5e-7; the two rotation tests |
| test_deform.py 133-147 | `ValidDeform.v`: `recorded_no_rbf` | pitch control points without resampling, within 1.5e-7 |

`Enclose.v` is integer interval arithmetic with denominator 2^32, each operation
proved to enclose the real one (`isin`, `icos`, `isqrt`, `ipi` included).
`ValidNacaData.v`, `ValidParamsData.v` and `ValidBladeData.v` hold the recorded data, converted by a script. The
recorded arrays of test_deform.py that involve 1000 resampled points (control points,
updated control points, spline, the five deformed distributions) are not examples:
`tools/check_deform.py` evaluates the same formulas in exact fractions and finds the
recorded values within 2e-13. That comparison is outside the machine-checked part.

