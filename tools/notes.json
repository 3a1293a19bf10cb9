{
 "C01": {
  "note": "Arrays as values; array identity is C05."
 },
 "C02": {
  "note": "Includes profiles whose surfaces have different numbers of points and arbitrary sequences of moves."
 },
 "C03": {
  "note": ""
 },
 "C04": {
  "note": "Edges of the scaled profile may leave the 1e-4 tolerance when |k| > 1 and the end abscissae differ; stated exactly."
 },
 "C06": {
  "note": ""
 },
 "C07": {
  "note": "Exact success condition included."
 },
 "C08": {
  "note": "Direct and RBF-interpolated thickness."
 },
 "C09": {
  "note": "Also the resampled variant (n_interpolated_points given)."
 },
 "C10": {
  "note": ""
 },
 "C11": {
  "note": "Thickness claims proved; invariance of max_camber() under vertical translation is refuted (the interpolant does not reproduce constants), under horizontal translation proved."
 },
 "C12": {
  "note": "Exact success condition: abscissae of each surface pairwise distinct."
 },
 "C22": {
  "note": "All five basis functions over the reals; rounding not modelled."
 },
 "C23": {
  "note": "Any basis, radius, dimension and node set for which the call succeeds; the solver is Gaussian elimination with partial pivoting over the reals instead of LAPACK."
 },
 "C24": {
  "note": "Well-posedness iff distinct nodes for nodes on a line, with the quantitative lower bound and symmetry of the matrix. Distinct nodes are not enough in 1296 dimensions (counterexample proved); dimensions between are not treated."
 },
 "C25": {
  "note": ""
 },
 "C26": {
  "note": ""
 },
 "C13": {
  "note": "Upper and lower surfaces equally long and non-empty; a scalar passed for an array is outside the model."
 },
 "C14": {
  "note": "Exact characterisation; the unconditional round trip is refuted."
 },
 "C15": {
  "note": "Values; distinctness of the two abscissa arrays is in the heap model (C05)."
 },
 "C16": {
  "note": "The lower-surface interpolant (scipy RBFInterpolator) is an arbitrary function."
 },
 "C17": {
  "note": "Stations are equally spaced in both modes (the code's cosine option changes how thickness is applied, not the stations)."
 },
 "C18": {
  "note": "Bound 1.0002 t proved by Bernstein certificates."
 },
 "C19": {
  "note": ""
 },
 "C20": {
  "note": "Exact characterisation of orthogonality included."
 },
 "C21": {
  "note": "The claim that accepted codes consist of digits is refuted ('00-5')."
 },
 "C68": {
  "note": "scipy's splrep/splev modelled as the exact not-a-knot cubic interpolant; closure of reflex codes 8/9 and camber below chord refuted."
 },
 "C27": {
  "note": "Degree must be below the number of control points (FITPACK reads beyond its knots otherwise, outside the model), npoints >= 1."
 },
 "C28": {
  "note": ""
 },
 "C29": {
  "note": ""
 },
 "C69": {
  "note": "FITPACK's splev/fpbspl recurrence is modelled, not its compiled code."
 },
 "C30": {
  "note": "str/float of array entries are parameters of the model; the round trip assumes they are inverse on the entries (true of Python floats), proved for integer entries."
 },
 "C31": {
  "note": "configparser (Python 3.11 RawConfigParser) is modelled on ASCII text."
 },
 "C32": {
  "note": "Writing to disk is assumed to succeed."
 },
 "C33": {
  "note": ""
 },
 "C34": {
  "note": "Atomicity refuted."
 },
 "C70": {
  "note": ""
 },
 "C35": {
  "note": "lstsq is modelled as the minimum-norm least-squares solution in exact arithmetic."
 },
 "C36": {
  "note": ""
 },
 "C37": {
  "note": ""
 },
 "C38": {
  "note": "Abscissae compared in exact arithmetic."
 },
 "C39": {
  "note": ""
 },
 "C40": {
  "note": "Keeping all other values refuted."
 },
 "C41": {
  "note": "Plottability of computed values refuted."
 },
 "C71": {
  "note": ""
 },
 "C72": {
  "note": "Grid, title and legend are not modelled."
 },
 "C44": {
  "note": "wrap is the spec-side winding map; C44_points_on_cylinder is about the coordinates stored by the model"
 },
 "C47": {
  "note": "the surface builder (InterpolatedFace) is an arbitrary function parameter"
 },
 "C49": {
  "note": "the last-camber theorem holds for any outcome, including raising runs"
 },
 "C51": {
  "note": "two refutation theorems document the operations that break the agreement"
 },
 "C52": {
  "note": "gp_Dir of a zero vector raising and reflection formula of gp_Trsf.SetMirror are part of the modelled OCC semantics"
 },
 "C53": {
  "note": "Exact-arithmetic model for the full method (PpgModel.v) with a disk that can refuse to open or fill up; binary64 model of the two conversions on Flocq floats (PpgFloatModel.v). C53_binary64_restores_refuted: diameter 0.3 and length 0.35."
 },
 "C54": {
  "note": "The reader read_ppg (PpgSpec.v) is written independently of the writer. str() of a float is a parameter assumed not to contain a line end. C54_lower_abscissas_recoverable_refuted shows the omission of xdown."
 },
 "C55": {
  "note": "Proved for an arbitrary face builder; real arithmetic. deepcopy is modelled as copying the profiles together with the blade."
 },
 "C56": {
  "note": "The CAD kernel is a record of arbitrary functions, a new one for every access."
 },
 "C57": {
  "note": "Meshes without triangles are outside the model; np.unique is assumed to return a one-dimensional inverse. The documentation speaks of regions propellerTip and propellerStem, which the code never uses."
 },
 "C58": {
  "note": "Histories are lists of public accesses including assignments of blades and shaft."
 },
 "C59": {
  "note": "What OpenCASCADE yields for a section (edges, sampled points) and the interpolant are parameters; numbers are reals; a tangent of zero or a zero chord is NonFinite; n < 2 and, for the BladeX class, n > 500 are Unmodelled."
 },
 "C60": {
  "note": "The slice is assumed to return the blade points themselves (in mm); OpenCASCADE surface fitting and intersection are not modelled."
 },
 "C63": {
  "note": "Sections views aliasing the rows of xup etc. are not tracked; slots of recons_sections without a profile are Unmodelled in reconstruct_blade."
 },
 "C73": {
  "note": "Voronoi and sampling are parameters."
 },
 "C74": {
  "note": "The failing comparison of a Python list with a float is OtherException (IndexError or ValueError depending on numpy)."
 },
 "C64": {
  "note": "Characters are 8-bit; OpenCASCADE and read_stl_file are parameters."
 },
 "C65": {
  "note": "Interpolation and lofting by OpenCASCADE are parameters."
 },
 "C75": {
  "note": "The point set made by BRepPrimAPI_MakeCylinder is modelled directly; non-positive radius or height and calls without coordinates are Unmodelled."
 },
 "C05": {
  "note": "Arrays are one-dimensional objects that own their data (the rows bound by rotate do not overlap); element types other than int64 and float64 and integer overflow are not modelled."
 },
 "C76": {
  "note": "External CAD functions are parameters: surface builder (assumed equivariant under linear similarities where stated), curve builder, exception for a missing face, writability of the file. Tessellation is represented by its inputs (faces, sewing tolerance, deflection)."
 },
 "C77": {
  "note": "Three refutations record where the docstring's claims fail: index taken from another section, trailing edge without reflection, not moved by mirror."
 },
 "C78": {
  "note": "The attributes generated_upper_face and generated_lower_face are never set anywhere in the repository; the model takes them as optional values and the theorem is for None."
 },
 "C79": {
  "note": "Decorations of the figure are not modelled."
 },
 "C80": {
  "note": "The point set of the OpenCASCADE cylinder and the blade as a point set are modelled directly."
 },
 "C81": {
  "note": "Real arithmetic; numpy arcsin is the inverse sine with NonFinite outside [-1,1]."
 },
 "C82": {
  "note": "Sections by planes and midpoints are parameters."
 },
 "C83": {
  "note": "The order in which the explorer returns the edges is an input."
 },
 "C84": {
  "note": "str(list) and str(array) are parameters, except that numpy abbreviates arrays above its print threshold of 1000 entries; text mode with line feed as line end."
 },
 "C85": {
  "note": "NaN payloads are not distinguished (Flocq BinarySingleNaN)."
 },
 "C86": {
  "note": "Round to nearest even, as numpy on float64."
 },
 "C87": {
  "note": "Bounds are relative to the computed reference point."
 },
 "C88": {
  "note": "Accuracy of sine and cosine is a hypothesis."
 },
 "C89": {
  "note": "The grammar of int() is stated as a relation on texts and proved equivalent to the model's reader; a second theorem links it to the values found in the object after a successful read."
 },
 "C90": {
  "note": "Option lines start in the first column; the rest of the file is arbitrary."
 },
 "C91": {
  "note": "Four kinds of malformed files; header and option lines are in the first column, the surrounding lines are arbitrary. Repeating [DEFAULT] is not an error."
 },
 "C92": {
  "note": "Newton and the RBF interpolant are parameters; exactness of the roots is a hypothesis."
 },
 "C93": {
  "note": "Refuted with a concrete profile, for all oracles meeting the hypotheses; an example shows such oracles."
 },
 "C94": {
  "note": "Both claims refuted with a concrete normalised section."
 },
 "C95": {
  "note": "Real arithmetic. Proved by expanding the kernels in power series of the scalar product (multiquadrics after lifting the nodes into the unit ball) and separating the nodes by polynomials."
 },
 "C96": {
  "note": "AirfoilModel.v: objects with all attributes, calls as a state-exception monad; noninterference by a two-run simulation."
 },
 "C97": {
  "note": "matplotlib.plot refuses arrays of different lengths; nothing else of it is modelled."
 },
 "C98": {
  "note": "The American thickness and curve are parameters."
 },
 "C99": {
  "note": "Spline, wire, its vertices and the solutions of BRepExtrema_DistShapeShape are parameters; points coincide for MakeEdge if equal."
 },
 "C100": {
  "note": "Points at a distance along a wire, Voronoi map, spline and full camber wire are parameters."
 },
 "C101": {
  "note": "Sewing and MakeSolid are parameters; files without roots and sewn shapes other than compound or shell are not modelled."
 },
 "C102": {
  "note": "numpy printing of arrays is a parameter; line theorems need arrays printed on one line."
 },
 "C103": {
  "note": "float64 arrays; the sharing cases are all four arrays shared by all sections and the two abscissae shared within each section, without thickness and camber overrides."
 },
 "C104": {
  "note": "OpenCASCADE results (faces, edges, wires, camber spline) are parameters; all control flow, sampling, unrolling and lists are modelled."
 },
 "C105": {
  "note": "Exact arithmetic; lstsq is the smallest least-squares solution, which is linear in its data. The guards of the plotting methods are not involved."
 },
 "C106": {
  "note": "Real arithmetic. Zeros of a spline are counted along its control polygon: the derivative of the Cox-de Boor recurrence and Rolle on every stretch where the curve does not vanish."
 },
 "C107": {
  "note": "Real arithmetic. With the default rbf_points of 1000 the bound holds for every nbasis up to 1000."
 },
 "C108": {
  "note": "Real arithmetic. With resampling the Wendland interpolant of an affine function is not affine, so the statement is restricted to rbf_points of zero or None."
 },
 "C109": {
  "note": "Real arithmetic; numpy.linalg.lstsq is modelled as any minimiser."
 },
 "C110": {
  "note": "The printing and reading of binary64 numbers are computed with integers in the model, not assumed; that numpy prints the shortest numeral is an assumption on the library."
 },
 "C111": {
  "note": "ASCII texts."
 },
 "C112": {
  "note": "Composes C30/C31/C33 with C110; no assumption on number texts is left."
 },
 "C113": {
  "note": "np.isclose as documented: numbers by tolerance, other values by ==."
 },
 "C114": {
  "note": "Without interpolation: abscissae of the two surfaces equal, no number of points given."
 },
 "C115": {
  "note": "Without interpolation: abscissae of the two surfaces equal, no number of points given."
 },
 "C116": {
  "note": "British convention; arrays given as numpy arrays of binary64 numbers."
 },
 "C117": {
  "note": "British convention. Ordinates of the two surfaces combined without broadcasting."
 },
 "C118": {
  "note": "np.power, np.arctan, np.sin and np.cos are parameters: any library with relative error at most 8 * 2^-53 (powers of 0 and 1 exact) meets the hypotheses, and one such library is exhibited. Five-digit foils in binary64: C119. ValidNacaFloat.v compares the model with the recorded arrays of the test suite bit for bit."
 },
 "C119": {
  "note": "scipy splines and the functions of the math library are parameters of stated accuracy; one instance meeting the hypotheses is exhibited. Second digits 6-9, where the splines extrapolate, and the reflex digit 1 are outside C119_coordinates. ValidNacaFive.v compares the model with recorded arrays bit for bit."
 },
 "C120": {
  "note": "The interpolating branch (default of 500 points) is not modelled in binary64. The camber is measured vertically, not perpendicularly to the chord as the docstring says."
 },
 "C121": {
  "note": "Cosine spacing of cambered foils gives surfaces with different abscissae, for which the code interpolates; that branch is not modelled in binary64."
 },
 "C122": {
  "note": "n_interpolated_points is a natural number or None; surfaces of different lengths are outside (their comparison raises)."
 },
 "C123": {
  "note": "np.sin and np.cos are parameters with a stated accuracy. Arrays of different lengths raise ValueError in np.array, as in numpy from 1.24; earlier versions build an object array there, which is not modelled."
 },
 "C124": {
  "note": "np.arctan is a parameter with a stated accuracy."
 },
 "C125": {
  "note": "np.arctan and np.tan are parameters with a stated accuracy; np.radians multiplies by the rounded quotient pi/180 as numpy does."
 },
 "C126": {
  "note": "np.sin and np.cos are parameters with a stated accuracy. The rotation of the CAD faces is in C50 and C51 (real model). np.einsum is assumed to add the three terms in order from zero."
 },
 "C127": {
  "note": "np.arctan, np.tan, np.sin and np.cos are parameters with a stated accuracy. One section, already scaled; the scaling and the changes of thickness and camber are C87, C114 and C115, not composed with this bound."
 },
 "C128": {
  "note": "np.arctan, np.tan, np.sin and np.cos are parameters with a stated accuracy. One section, already scaled (C87); several sections are stacked in C123."
 },
 "C129": {
  "note": "np.arctan, np.tan, np.sin and np.cos are parameters with a stated accuracy. Sections are distinct objects and already scaled (C87); changes of thickness and camber (C114, C115) are not composed."
 }
}