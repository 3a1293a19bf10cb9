{"id": "C01", "title": "Profile.translate moves every point by exactly the given vector", "statement": "After profile.translate(v) every upper-surface and every lower-surface point is its old position plus v, the number of points is unchanged, and translating by v then by -v restores the profile.", "quantifier": "all profiles (any number of points, any coordinates) whose four coordinate arrays are distinct objects, and all vectors v", "why_tests_cant": "unit tests translate one fixed foil; the claim is about every foil and every vector", "anchors": ["bladex/profile/baseprofile.py: BaseProfile.translate"]}
{"id": "C02", "title": "Profile.rotate is a rigid rotation about the origin", "statement": "profile.rotate(angle) maps every surface point by the plane rotation of that angle: all pairwise distances and distances to the origin are preserved, rotations add up, the inverse angle undoes it, degrees and radians agree, and exactly the calls giving both or neither angle raise ValueError leaving the profile unchanged.", "quantifier": "all profiles with four equally long arrays, all angles", "why_tests_cant": "tests compare a handful of rotated coordinates; rigidity and additivity range over all points and angles", "anchors": ["bladex/profile/baseprofile.py: BaseProfile.rotate"]}
{"id": "C03", "title": "Profile.reflect is the point reflection through the origin and an involution", "statement": "profile.reflect() negates both coordinates of every point of both surfaces; reflecting twice restores the profile, and it equals a rotation by pi.", "quantifier": "all profiles with distinct coordinate arrays", "why_tests_cant": "tests check single foils only", "anchors": ["bladex/profile/baseprofile.py: BaseProfile.reflect"]}
{"id": "C04", "title": "Profile.scale is a homothety about the reference point", "statement": "profile.scale(k) maps each point p to ref + k (p - ref) where ref is the mid-chord reference point computed before the call; it leaves the reference point in place (k >= 0 or any k for a profile whose edges stay within tolerance), multiplies the chord length by |k|, and with translate=False it multiplies all coordinates by k. A call that raises leaves the profile unchanged.", "quantifier": "all profiles for which the edges are defined, all factors", "why_tests_cant": "tests use a factor and a foil; the claim covers all", "anchors": ["bladex/profile/baseprofile.py: BaseProfile.scale, reference_point"]}
{"id": "C05", "title": "Aliased coordinate arrays", "statement": "translate, reflect, scale and set_thickness_max change the coordinate arrays in place; rotate binds four new arrays; camber deformation binds new ordinates, and new abscissae only when it interpolates. Whenever the profiles of a program own different float arrays, each behaves under any interleaving of calls as if it were alone and no other array changes. A CustomProfile built from arrays uses the caller's array objects, which follow every in-place call until the profile is rotated; one built from lists or parameters has new arrays. An array a profile uses several times is translated, scaled or reflected that many times; two profiles on the same arrays both undergo all in-place calls. Integer arrays make translating by floats or scaling raise TypeError, possibly half done.", "quantifier": "all heaps, all array identities and element types, all sequences of calls", "why_tests_cant": "aliasing bugs depend on object identity, which value-comparing tests do not explore", "anchors": ["bladex/profile/baseprofile.py: BaseProfile.translate, reflect, scale, rotate", "bladex/profile/customprofile.py: CustomProfile.__init__", "tests/test_blade.py: create_sample_blade_custom"]}
{"id": "C06", "title": "Leading and trailing edge are derived consistently", "statement": "The leading edge is the first upper point and the trailing edge is the last upper point with the ordinate averaged over both surfaces; they exist exactly when the first and last abscissae of the two surfaces agree within 1e-4, otherwise ValueError; the reference point is their midpoint, and edges and reference point commute with translation.", "quantifier": "all profiles", "why_tests_cant": "tests check fixed foils", "anchors": ["bladex/profile/baseprofile.py: _update_edges, reference_point"]}
{"id": "C07", "title": "Chord line runs from leading edge to trailing edge", "statement": "compute_chord_line yields points on the straight line through leading and trailing edge, starting at the leading edge and (with n >= 2 or equal abscissae) ending at the trailing edge.", "quantifier": "all profiles with leading edge abscissa different from trailing edge abscissa, all n", "why_tests_cant": "tests compare arrays for one foil", "anchors": ["bladex/profile/baseprofile.py: compute_chord_line"]}
{"id": "C08", "title": "set_thickness_max sets the measured maximum thickness", "statement": "After set_thickness_max(t) on a profile with non-zero maximum thickness, max_thickness() returns |t| (t for t >= 0), in both the direct and the RBF-interpolated case; on a profile of zero maximum thickness every ordinate becomes 0.", "quantifier": "all profiles whose thickness is computable, all t", "why_tests_cant": "needs linearity of the interpolation for every profile", "anchors": ["bladex/profile/baseprofile.py: set_thickness_max, max_thickness"]}
{"id": "C09", "title": "deform_camber_line scales the camber and keeps the thickness", "statement": "After deform_camber_line(percent) on a profile with common abscissae the mean line is multiplied by 1+percent/100 pointwise, the local thickness |yup-ydown| is unchanged, the upper surface is above the lower one, and abscissae are unchanged.", "quantifier": "all profiles with identical xup and xdown, all percentages", "why_tests_cant": "tests use a few values", "anchors": ["bladex/profile/baseprofile.py: deform_camber_line"]}
{"id": "C10", "title": "set_camber_line_max sets the measured maximum camber", "statement": "For a closed profile in reference position (edges on the x axis) whose current max_camber() is non-zero, set_camber_line_max(c) makes max_camber() return exactly c, sign included. For a profile with zero camber the call divides by zero.", "quantifier": "all closed reference-position profiles with distinct common abscissae, all c", "why_tests_cant": "depends on RBF interpolation at 500 points of every profile", "anchors": ["bladex/profile/baseprofile.py: set_camber_line_max, max_camber, deform_camber_line"]}
{"id": "C11", "title": "max_thickness is invariant under translation, max_camber only under horizontal translation", "statement": "On profiles with common abscissae max_thickness() is unchanged by translate and reflect and multiplied by |k| by scale(k). max_camber() and the interpolated max_thickness are unchanged by horizontal translations; a vertical translation can change max_camber() (flat plate lifted by 1).", "quantifier": "all profiles, vectors and factors", "why_tests_cant": "range over all profiles", "anchors": ["bladex/profile/baseprofile.py: max_thickness"]}
{"id": "C12", "title": "interpolate_coordinates validates its arguments and interpolates the data", "statement": "interpolate_coordinates(num, radius) raises TypeError for a non-integer num, ValueError for num <= 0 or radius <= 0; otherwise, for pairwise distinct abscissae, it always succeeds, returns num samples with equally spaced abscissae running from the first to the last data abscissa, and the sampled curve passes through the data points.", "quantifier": "all profiles with distinct abscissae, all num and radius", "why_tests_cant": "non-singularity of the RBF matrix for every node set cannot be tested", "anchors": ["bladex/profile/baseprofile.py: interpolate_coordinates", "bladex/ndinterpolator.py: reconstruct_f"]}
{"id": "C13", "title": "CustomProfile accepts exactly consistent coordinates", "statement": "Constructing from coordinates reaches parameter generation exactly when all four (equally long) arrays are given, yup >= ydown in the interior and the end points agree within the isclose tolerance; otherwise ValueError. Reaching parameter generation implies success for end abscissae of magnitude up to 9, but not for larger ones, where the edge tolerance is the stricter test. Parameters are accepted exactly when the maxima are non-negative and the lengths agree. Any other keyword set raises RuntimeError.", "quantifier": "all keyword sets and arrays", "why_tests_cant": "infinitely many inconsistent inputs", "anchors": ["bladex/profile/customprofile.py: CustomProfile.__init__, _check_coordinates, _check_parameters"]}
{"id": "C14", "title": "Coordinates -> parameters -> coordinates round trip (British convention)", "statement": "For a profile accepted from coordinates, regenerating the coordinates from the generated parameters reproduces the original coordinates if and only if both surfaces have the same abscissae, the smallest abscissa is 0, the upper ordinate is nowhere below the lower one, and the camber vanishes identically whenever its maximum is 0. In particular a profile whose camber is non-positive and touches zero is not reproduced.", "quantifier": "all coordinate arrays satisfying the conditions", "why_tests_cant": "tests round trip specific foils", "anchors": ["bladex/profile/baseprofile.py: generate_parameters", "bladex/profile/customprofile.py: _compute_coordinates_british_convention"]}
{"id": "C15", "title": "Parameters -> coordinates is symmetric about the camber line", "statement": "For every parameter set accepted by the constructor, the mean of upper and lower ordinates is camber_perc*camber_max, their difference is thickness_max*thickness_perc, abscissae are chord_perc*chord_len on both surfaces, and the two abscissa arrays are distinct objects.", "quantifier": "all accepted parameter sets", "why_tests_cant": "all inputs", "anchors": ["bladex/profile/customprofile.py: _compute_coordinates_british_convention"]}
{"id": "C16", "title": "American convention places the surfaces orthogonally to the camber line", "statement": "The orthogonal construction puts upper and lower points symmetric about the camber point at distance thickness_max*thickness_perc, on a line orthogonal to the discrete camber slope (except for the documented second-point correction).", "quantifier": "all parameter sets with increasing chord percentages", "why_tests_cant": "all inputs", "anchors": ["bladex/profile/customprofile.py: _compute_orth_camber_coordinates"]}
{"id": "C17", "title": "NACA 4-digit foils are closed, ordered and correctly sized", "statement": "For every 4-digit code, every n_points >= 2 and both spacings NacaProfile succeeds, gives n_points points per surface, starts at (0,0) and ends at (1,0) on both surfaces, has chord length exactly 1, and at every index the upper ordinate is not below the lower one.", "quantifier": "all 4-digit codes, both spacings, all n_points", "why_tests_cant": "10000 codes times unbounded n_points", "anchors": ["bladex/profile/nacaprofile.py: NacaProfile.generate_coordinates"]}
{"id": "C18", "title": "NACA thickness distribution", "statement": "At every index the distance between the upper and lower point of a 4- or 5-digit foil equals the NACA thickness distribution for the last two digits; that distribution is positive strictly inside [0,1], zero at both ends, reaches at least t at 0.3 and never exceeds 1.0002 t; foils with position digit 0 satisfy yup = -ydown and xup = xdown.", "quantifier": "all codes, both spacings, all n_points >= 2, all stations in [0,1]", "why_tests_cant": "a continuum of stations", "anchors": ["bladex/profile/nacaprofile.py: NacaProfile.generate_coordinates"]}
{"id": "C19", "title": "NACA 4-digit camber line", "statement": "The midpoint of the i-th upper and lower points of a cambered 4-digit foil is (i/(n-1), camber line there); the camber line has a continuous derivative everywhere, is bounded by m, attains m at p and vanishes at both ends; the thickness is laid perpendicular to it with cosine spacing and vertically with linear spacing.", "quantifier": "all cambered 4-digit codes, all stations in [0,1]", "why_tests_cant": "a continuum of stations", "anchors": ["bladex/profile/nacaprofile.py: NacaProfile.generate_coordinates"]}
{"id": "C20", "title": "NACA 5-digit design lift digit", "statement": "With cosine spacing the first digit of a 5-digit code scales the camber line and nothing else, and the thickness is perpendicular to the resulting camber line only for first digit 2 (or zero slope); with linear spacing codes differing only in the first digit give identical coordinates.", "quantifier": "all 5-digit codes", "why_tests_cant": "all codes and stations", "anchors": ["bladex/profile/nacaprofile.py: NacaProfile.generate_coordinates"]}
{"id": "C21", "title": "NACA argument validation", "statement": "Non-string digits or non-numeric n_points raise TypeError, negative n_points ValueError, float n_points are truncated, 0 points pass the check but raise IndexError, other digit lengths and non-digits raise, a third digit above 1 of a 5-digit code raises ValueError; not every accepted code consists of digits. The two thickness characters are read as Python float() reads them: two digits, or a blank or plus sign and a digit, or a digit followed by a blank or a point, or a point and a digit; a minus sign gives a negative thickness and anything else ValueError.", "quantifier": "all digits/n_points", "why_tests_cant": "all inputs", "anchors": ["bladex/profile/nacaprofile.py: _check_args, generate_coordinates"]}
{"id": "C22", "title": "Radial basis functions have the documented shape", "statement": "The Wendland basis is 1 at distance 0, in [0,1], non-increasing and 0 beyond the radius; Gaussian is in (0,1] and decreasing; multiquadric and inverse multiquadric are reciprocal; thin plate is 0 at 0 and at distance r. An unknown basis name raises NameError.", "quantifier": "all distances and radii", "why_tests_cant": "continuum of distances", "anchors": ["bladex/ndinterpolator.py: RBF"]}
{"id": "C23", "title": "RBF reconstruction interpolates the data exactly", "statement": "Whenever reconstruct_f succeeds with a zero-initialised output and the evaluation points are the nodes, the output equals the data; more generally the value written at point x equals the same function s(x) for any set of evaluation points, and s(node_i)=data_i.", "quantifier": "all bases, radii, node sets, data", "why_tests_cant": "all inputs", "anchors": ["bladex/ndinterpolator.py: reconstruct_f"]}
{"id": "C24", "title": "Wendland interpolation is always well posed", "statement": "With the Beckert-Wendland basis and a positive radius, reconstruct_f succeeds if and only if the one-dimensional nodes are pairwise distinct; the matrix is positive definite with smallest eigenvalue at least min(1, gap/r)^4. In sufficiently many dimensions this fails: for the origin and the 1296 unit vectors of R^1296 there is a radius for which the pairwise distinct nodes give a singular matrix and LinAlgError.", "quantifier": "all finite sets of real nodes, all radii > 0, all data", "why_tests_cant": "positive definiteness for every node set is a theorem, not a test", "anchors": ["bladex/ndinterpolator.py: reconstruct_f, RBF.beckert_wendland_c2_basis"]}
{"id": "C25", "title": "RBF reconstruction is linear in the data and accumulates into the output", "statement": "The reconstruction is linear in the data and invariant under reordering the nodes; it adds to whatever rbf_output contains, so calling it twice on the same output doubles the result; rbf_output shorter than rbf_input raises IndexError.", "quantifier": "all inputs", "why_tests_cant": "all inputs", "anchors": ["bladex/ndinterpolator.py: reconstruct_f"]}
{"id": "C26", "title": "Thin plate reconstruction can be singular", "statement": "With the thin plate basis a single node, or two nodes at distance equal to the radius, always makes reconstruct_f raise LinAlgError.", "quantifier": "all nodes and data", "why_tests_cant": "all inputs", "anchors": ["bladex/ndinterpolator.py: RBF.thin_plate_spline, reconstruct_f"]}
{"id": "C27", "title": "B-spline curve interpolates its end control points", "statement": "scipy_bspline(cv, npoints, degree) with degree <= number of control points - 1 returns npoints points, the first equal to the first control point and (npoints >= 2) the last equal to the last control point.", "quantifier": "all control polygons, degrees, npoints", "why_tests_cant": "all sizes", "anchors": ["bladex/ndinterpolator.py: scipy_bspline"]}
{"id": "C28", "title": "B-spline curve stays in the convex hull of its control points", "statement": "Every returned value is a convex combination of the control values: weights non-negative, summing to one, the same for each coordinate; hence bounds are respected, constants are reproduced and affine maps commute.", "quantifier": "all control polygons, degrees, npoints", "why_tests_cant": "all sizes", "anchors": ["bladex/ndinterpolator.py: scipy_bspline"]}
{"id": "C29", "title": "B-spline evaluation is linear in the control points", "statement": "The curve of a linear combination of control polygons is the linear combination of the curves; the matrix built from unit vectors reproduces scipy_bspline.", "quantifier": "all control polygons", "why_tests_cant": "all sizes", "anchors": ["bladex/ndinterpolator.py: scipy_bspline", "bladex/deform.py: _optimum_control_points"]}
{"id": "C30", "title": "Parameter file write/read round trip", "statement": "write_parameters followed by read_parameters of the same file into any ParamFile object yields exactly the written radii, parameters, degrees, npoints, nbasis and deformations, provided radii is non-empty and every nbasis >= 1; for empty radii or nbasis = 0 the written file cannot be read back. The written file consists of the documented lines: a header, the radii, the five distributions and the five spline sections, the numbers of an entry standing one per line in one column.", "quantifier": "all parameter values, all array lengths", "why_tests_cant": "text format round trip over unbounded data", "anchors": ["bladex/params.py: ParamFile.write_parameters, read_parameters"]}
{"id": "C31", "title": "A successful read is internally consistent and depends on the file only", "statement": "If read_parameters returns normally, radii and the five distributions have equal non-zero length, every nbasis equals the (non-zero) number of its deformations, every array entry is the number on its line of the file, the result does not depend on the earlier contents of the object, no other file is touched, and writing the object again succeeds. If it raises for an existing file the exception is a ValueError or a configparser error.", "quantifier": "all file contents", "why_tests_cant": "all byte strings", "anchors": ["bladex/params.py: ParamFile.read_parameters"]}
{"id": "C32", "title": "write_parameters validates and completes", "statement": "write_parameters raises ValueError exactly if radii is None, a given distribution length differs from radii, or a deformation length differs from nbasis; missing distributions are written as zeros; nothing is written when it raises.", "quantifier": "all object states", "why_tests_cant": "all states", "anchors": ["bladex/params.py: _check_params, write_parameters"]}
{"id": "C33", "title": "Reading a missing file creates the default file", "statement": "read_parameters on a missing file writes a file with radii np.arange(0.3, 1.1, 0.1) and zero-filled missing distributions and reads it back; for a fresh object all distributions are zero. If the object already holds distributions or deformations that do not fit, ValueError is raised, no file is created, but radii has been replaced. An existing file is left untouched.", "quantifier": "all object states with default distributions", "why_tests_cant": "interaction of write and read", "anchors": ["bladex/params.py: read_parameters"]}
{"id": "C34", "title": "A failed read is not atomic", "statement": "When read_parameters raises the object may be left partially updated: there is a file content for which a consistent object becomes inconsistent. Only a file configparser cannot parse leaves the object unchanged; in general either the B-spline data are unchanged or radii and the distributions already agree in length.", "quantifier": "existence over file contents", "why_tests_cant": "error-path state is rarely tested", "anchors": ["bladex/params.py: read_parameters"]}
{"id": "C35", "title": "Control points: fixed end points, least-squares fit in between", "statement": "compute_control_points yields nbasis control points, starting at the first (radius, value) pair and ending at the last one (unless a single rbf point is used: then the first pair is used at both ends). Among all control polygons with these ends their spline is nearest to the data - the original arrays with rbf off, the Wendland-C2 interpolant at rbf_points uniform radii otherwise - and of the nearest ones it has the smallest norm; data that are samples of a spline with these ends are reproduced exactly. It succeeds exactly if nbasis >= 2, 0 <= degree <= 19, degree < nbasis and, with rbf on, the radii are distinct. A float number of rbf points counts as its integer part, and None, any float below one and any integer up to zero mean no resampling. With radii set to None it raises TypeError and changes nothing.", "quantifier": "all parameter files, all rbf_points", "why_tests_cant": "optimality against all control polygons for all data", "anchors": ["bladex/deform.py: _optimum_control_points, compute_control_points"]}
{"id": "C36", "title": "update_control_points shifts ordinates by the deformations only", "statement": "update_control_points adds deformation i to the ordinate of control point i, leaves abscissae, other parameters and the ParamFile unchanged, and raises when control points were not computed or the lengths differ; calling it twice adds the deformation twice.", "quantifier": "all states", "why_tests_cant": "all states", "anchors": ["bladex/deform.py: update_control_points"]}
{"id": "C37", "title": "Deformation methods respect the documented order", "statement": "generate_spline and update_control_points require control points, compute_deformed_parameters a spline; called too early they raise ValueError and change nothing; an unknown name raises ValueError and changes nothing in every method; any failing call but compute_deformed_parameters leaves the object unchanged; generate_spline stores the npoints-sample curve of the stored control points. After any sequence of calls, failing ones included, the ParamFile is unchanged and all stored arrays have the sizes it prescribes. Fewer than two control points are refused with ValueError before anything is fitted.", "quantifier": "all states and call sequences", "why_tests_cant": "all histories", "anchors": ["bladex/deform.py: _check_param, _check_control_points, _check_spline"]}
{"id": "C38", "title": "compute_deformed_parameters samples the spline within tolerance", "statement": "On success each deformed value is the ordinate of the first spline sample whose abscissa is within tol of the section radius; ValueError is raised exactly if some radius has no sample within tol, in which case the values of the radii before it have already been replaced and the others are kept. Nothing else changes.", "quantifier": "all states and tolerances", "why_tests_cant": "all states", "anchors": ["bladex/deform.py: compute_deformed_parameters"]}
{"id": "C39", "title": "compute_all is a function of the parameter file", "statement": "On objects with the same ParamFile compute_all has the same outcome and, if it succeeds, yields the same object, whatever control points, splines or deformed parameters were stored before; so running it twice does not apply the deformation twice. With admissible sizes and tolerances larger than the radial extent it succeeds.", "quantifier": "all histories", "why_tests_cant": "all histories", "anchors": ["bladex/deform.py: compute_all"]}
{"id": "C40", "title": "export_param_file writes the deformed parameters and keeps the spline data", "statement": "Exporting always succeeds on a reachable object and writes, to the given file only, the radii, the original values of parameters whose deformations are all zero, the deformed values of the others, zero deformations and unchanged npoints and nbasis; reading the file back gives exactly these. The documentation also promises that all other values are kept; this is violated: the degree written is nbasis, so that nothing can be computed from the exported file; and a deformed parameter that has not been computed is exported as zeros. With a negative number of control points it raises ValueError and writes nothing.", "quantifier": "all states", "why_tests_cant": "all states", "anchors": ["bladex/deform.py: export_param_file"]}
{"id": "C41", "title": "Deformed-parameter guard rejects legitimate results", "statement": "Plotting the deformed points raises ValueError exactly if some deformed value equals 0, so correctly computed distributions that contain a zero cannot be plotted.", "quantifier": "all arrays", "why_tests_cant": "boundary values", "anchors": ["bladex/deform.py: _check_deformed"]}
{"id": "C42", "title": "Blade construction accepts exactly consistent arrays", "statement": "Blade(...) raises ValueError exactly when the number of sections, radii, chords, pitch, rake and skew are not all equal.", "quantifier": "all array lengths", "why_tests_cant": "all inputs", "anchors": ["bladex/blade.py: Blade.__init__, _check_params"]}
{"id": "C43", "title": "Pitch angle and induced rake formulas", "statement": "tan(pitch angle) = pitch/(2 pi r) with the angle in (-pi/2, pi/2), and the rake induced by skew equals skew_angle[rad] * pitch/(2 pi).", "quantifier": "all radii > 0, pitches, skews", "why_tests_cant": "continuum of inputs", "anchors": ["bladex/blade.py: _compute_pitch_angle, _induced_rake_from_skew"]}
{"id": "C44", "title": "Every generated blade point lies on the cylinder of its section radius", "statement": "After a successful apply_transformations each 3D point of section i satisfies y^2+z^2 = r_i^2 and its axial coordinate is one of the planar abscissas of the section; the winding map has speed equal to the planar speed of any differentiable planar curve (local isometry), turns by the planar y distance divided by r, and never increases straight-line distance.", "quantifier": "all blades; the winding facts for every non-zero radius and every pair of points / curve", "why_tests_cant": "all blades", "anchors": ["bladex/blade.py: _planar_to_cylindrical, apply_transformations"]}
{"id": "C45", "title": "Section placement: pitch, rake and skew are realised as specified", "statement": "With distinct section objects, without thickness/camber overrides and on success, the planar section left by apply_transformations is the old one, centred at its reference point, scaled by the chord, optionally reflected, rotated by pi/2 - pitch angle and translated to (-(rake + induced rake), -r*skew[rad]). For closed unit profiles the chord vector is +-c(sin phi, cos phi) with phi the pitch angle and the mid-chord 3D point is (-(rake+induced), -r sin(skew), r cos(skew)). Other profiles are untouched. The call succeeds for every such blade with equally long sections and non-zero radii. With fewer lower than upper points the call raises IndexError and changes neither the blade nor any section but the first; with more lower points it succeeds and keeps both counts.", "quantifier": "all blades with consistent arrays, distinct sections and non-zero radii", "why_tests_cant": "all blades", "anchors": ["bladex/blade.py: apply_transformations"]}
{"id": "C46", "title": "Section transformation preserves shape", "statement": "The planar transformation multiplies all pairwise distances of a section by |chord| (without overrides); reflect=True gives the point reflection of the reflect=False section in the placed reference point.", "quantifier": "all blades", "why_tests_cant": "all blades", "anchors": ["bladex/blade.py: apply_transformations"]}
{"id": "C47", "title": "Order of the generated sections", "statement": "blade_coordinates_up/down list the sections from the last to the first; consequently tip_face is spanned by the first section and root_face by the last one. build succeeds whenever the surface builder does. With more lower than upper points build raises ValueError after storing the upper and lower faces; tip and root faces stay as they were.", "quantifier": "all blades", "why_tests_cant": "tests use index conventions of the implementation", "anchors": ["bladex/blade.py: _planar_to_cylindrical, build"]}
{"id": "C48", "title": "apply_transformations consumes the sections", "statement": "apply_transformations consumes its sections: for any aliasing pattern the final profile of a section object is obtained by running the placement of every index that refers to it, in order; an object used at two radii is placed twice and both radii show the final shape. A second call always leaves a section different from the first call (non-zero chord, two distinct points) and succeeds for closed sections.", "quantifier": "all blades, all aliasing patterns of the section list", "why_tests_cant": "histories", "anchors": ["bladex/blade.py: apply_transformations"]}
{"id": "C49", "title": "Thickness and camber overrides", "statement": "If thickness is given, section i has max_thickness equal to |thickness[i]| before it is rotated (all zero ordinates if it had no thickness), abscissas unchanged. If camber is given, every section except the last has max_camber(n_interpolated_points=500) equal to camber[i] before rotation; the last section's camber value is ignored.", "quantifier": "all blades", "why_tests_cant": "all inputs", "anchors": ["bladex/blade.py: apply_transformations"]}
{"id": "C50", "title": "Blade.rotate is a rigid rotation of the coordinates", "statement": "rotate on a built blade applies one rotation to every coordinate; it preserves all distances, is additive in the angle, is the identity for 2 pi, and about x preserves axial coordinate and radius; degree and radian calls agree; invalid calls raise ValueError and change nothing. Rotating a blade that has coordinates but no faces raises TypeError after the coordinates have been rotated.", "quantifier": "all blades, angles, axes", "why_tests_cant": "continuum", "anchors": ["bladex/blade.py: Blade.rotate"]}
{"id": "C51", "title": "Faces and coordinates of a blade stay in agreement", "statement": "After build, any sequence of rotations about x or z and of non-zero scalings moves all coordinates and all faces by one and the same similarity whose ratio is the product of the factors, so every face remains the surface through 1000 times the corresponding coordinates (for a surface builder that commutes with similarities). Rotation about y and mirror break the agreement (refutation theorems). scale raises TypeError without coordinates, and without faces after it has scaled the coordinates.", "quantifier": "all operation sequences of any length", "why_tests_cant": "unbounded histories", "anchors": ["bladex/blade.py: build, rotate, scale, mirror"]}
{"id": "C52", "title": "Blade.mirror reflects through the requested plane", "statement": "mirror with a point and a normal, or with three non collinear points, replaces every face by its reflection in that plane (which contains the three points); reflection is an involution, an isometry, fixes exactly the plane and exchanges its sides; mirroring twice restores the faces; keyword and positional forms agree for the documented order and raise ValueError for another order of point1/point2/point3; wrong argument counts raise ValueError and degenerate planes RuntimeError, changing nothing; coordinates are never changed.", "quantifier": "all planes and faces", "why_tests_cant": "continuum", "anchors": ["bladex/blade.py: Blade.mirror"]}
{"id": "C53", "title": "export_ppg leaves the blade parameters unchanged", "statement": "After a successful export_ppg every blade parameter equals its value before the call (exact arithmetic, any diameter, any section data); with params_normalized=True no outcome changes the blade; if thickness or camber of a section cannot be computed nothing changes. If opening or writing the file fails the parameters stay divided by the diameter, and a later successful export does not repair them. In binary64 the restored lengths are exact when the diameter is a power of two (the default 0.25 is one), otherwise within a relative error 2^-51, and in general not exact.", "quantifier": "all blades, diameters, crash points", "why_tests_cant": "rounding and failure points", "anchors": ["bladex/blade.py: export_ppg, _abs_to_norm, _norm_to_abs"]}
{"id": "C54", "title": "PPG file content is complete", "statement": "A successful export_ppg writes exactly one file, and from its text alone one recovers, to nine significant digits, for every section: radius, chord, skew, rake, pitch (non-dimensional unless params_normalized), maximum thickness and camber, and the xup, yup and ydown coordinates together with their number. The ten header lines show the two diameters and the number of blades as given and the number of sections three times; the last part is always the same table of 15 hub offsets, whatever the hub diameter. The lower abscissas (xdown) are not in the file: blades that differ only there can give identical files.", "quantifier": "all blades", "why_tests_cant": "all sizes", "anchors": ["bladex/blade.py: export_ppg"]}
{"id": "C55", "title": "Propeller blades are evenly spaced congruent copies", "statement": "Whenever building the given blade succeeds, Propeller(shaft, blade, n) for an integer n holds max(n, 0) blades; blade i has the coordinates and faces of the built blade rotated by i*2*pi/n about x; the caller's blade is left built and unrotated. Any two blades differ by the rotation through the angle between them, turning by 2*pi/n maps every blade onto the next and the last onto the first, all distances between blade points are the same on every blade, and for n >= 2 the positions of corresponding points sum to a point of the axis. A float number of blades raises TypeError after the blade was built, a failed build raises its exception; a second propeller made from the same blade has different profiles.", "quantifier": "all blades, all n, all face builders", "why_tests_cant": "Tests use one propeller; the symmetry is claimed for every blade and number of blades.", "anchors": ["bladex/propeller.py: Propeller.__init__"]}
{"id": "C56", "title": "Propeller shape caching", "statement": "The first successful access to solid fuses the shaft and the solids of the blades present at that moment, the shape is that solid sewn; from then on every access and export uses the same object, whatever accesses, changes of blades or shaft or changes in the behaviour of the CAD kernel happen in between. A failed access caches nothing. tmp_stl, in contrast, always writes the blades as they are now.", "quantifier": "all access histories, all CAD kernels varying over time", "why_tests_cant": "histories of arbitrary length", "anchors": ["bladex/propeller.py: Propeller.shape, solid, export_iges, export_stl, tmp_stl"]}
{"id": "C57", "title": "OBJ export preserves geometry and partitions faces", "statement": "For meshes with triangles and in-range indices the exported object has the distinct points of both meshes as vertices, in lexicographic order and without repetition; its 1-based polygons draw exactly the triangles of the meshes. With blades_and_stem the blade triangles come first and form the region blades, the shaft triangles the region shaft. With by_coords the shaft triangles are split, in order, into those all of whose corners satisfy x <= max blade x (if at least as many shaft points lie beyond the blades' maximum as before it) or x >= min blade x (otherwise), and the rest; the regions are shaftHead, shaftTail, blades. Names can be overridden by keyword. Unknown selectors raise ValueError, blade indices out of range IndexError. A region carries the name passed under its keyword, otherwise the default one.", "quantifier": "all triangle meshes", "why_tests_cant": "all meshes", "anchors": ["bladex/propeller.py: generate_obj, generate_obj_blades"]}
{"id": "C58", "title": "generate_obj is unusable as shipped", "statement": "generate_obj and generate_obj_blades read attributes (shaft_solid, blades_solid) which no method of the class ever sets: after every history of accesses of a new propeller they raise AttributeError, write no file and change nothing. If a user assigns both attributes, the written file is the merged mesh (C57), and two temporary files are left behind, also when merging fails.", "quantifier": "all histories", "why_tests_cant": "histories", "anchors": ["bladex/propeller.py: generate_obj, generate_obj_blades"]}
{"id": "C59", "title": "Reverse normalisation puts the edges at (0,0) and (1,0)", "statement": "For every section read successfully by ReversePropellerBladeX or ReversePropeller there is one planar map, multiplying all distances by 1/chord and reversing orientation, that sends the unrolled leading edge to (0,0) and the trailing edge to (1,0); the stored edges, mid-chord (1/2,0), section points and (sorted, end-pinned) camber line are the images under this map, and the stored profile interpolates the images of the sampled surface points at n equally spaced abscissae, is closed at both ends and starts at (0,0) and ends at (1,0). Edges at the same angle give a division by zero. Unrolling inverts the winding of the blade on the cylinder.", "quantifier": "all section data, all interpolants, all radii and n", "why_tests_cant": "continuum", "anchors": ["bladex/reversepropeller/basereversepropeller.py: _extract_parameters_and_transform_profile", "bladex/reversepropeller/reversepropellerbladex.py"]}
{"id": "C60", "title": "Reverse engineering inverts blade generation", "statement": "For a blade generated from closed profiles with horizontal chord, read on its own blade coordinates, ReversePropellerBladeX returns at every station |pitch|, the skew angle, the rake and |chord| exactly, and the profile in the frame of its chord (exactly, at the given points, when these are equally spaced and ordered); the Blade then rebuilt from the lists and profiles has the same blade coordinates point by point. ReversePropeller does so for the blade turned by pi about x, with opposite skew; on the unturned blade it can return a wrong chord.", "quantifier": "all blades, parameters in range, exact interpolants, slices through the blade points", "why_tests_cant": "continuum", "anchors": ["bladex/reversepropeller/reversepropellerbladex.py: _store_properties, _initial_leading_trailing_edges_plane", "bladex/blade.py: apply_transformations"]}
{"id": "C61", "title": "optimized_path visits every point once, greedily", "statement": "If the start point is in the list (by default the first element), optimized_path returns a path that is a permutation of the list, begins with the start point, and whose every next point is at least as near as all points still to come, ties going to the point that comes earlier in the list; the caller's list is left empty. A start that is not in the list raises ValueError and leaves the list unchanged; an empty list without start raises IndexError.", "quantifier": "all point lists and start points", "why_tests_cant": "all inputs", "anchors": ["bladex/reversepropeller/reversepropeller.py: optimized_path"]}
{"id": "C62", "title": "point_inside_polygon", "statement": "Points on an edge yield include_edges. Off the boundary and level with no vertex, the result is the parity of the edges crossed by the ray to the right, for a triangle exactly membership in its interior, and for any polygon the parity of the fan triangles containing the point. For all points the result does not depend on the starting vertex nor on the orientation, and cutting along a diagonal xors the two results. Repeating the first vertex changes nothing if the point is not level with it. Level with a vertex, interior points can be reported outside and the repeated vertex can change the answer (contrary to the docstring). The empty polygon raises IndexError.", "quantifier": "all polygons and points", "why_tests_cant": "all polygons", "anchors": ["bladex/reversepropeller/reversepropeller.py: point_inside_polygon"]}
{"id": "C63", "title": "reconstruct methods are unusable as shipped", "statement": "In any sequence of calls to reconstruct_sections, reconstruct_blade and reconstruct_propeller on an object left as the constructor made it, every call raises AttributeError and nothing changes. Whatever attributes the user assigns, reconstruct_blade and reconstruct_propeller never return normally. With num_sections and recons_sections assigned, reconstruct_sections returns the profiles made from the rows. When reconstruct_blade has stored a blade, its sections are the profiles listed by the object, and the recovered values are unchanged.", "quantifier": "all histories, all assigned attribute values", "why_tests_cant": "histories", "anchors": ["bladex/reversepropeller/basereversepropeller.py: reconstruct_sections, reconstruct_blade, reconstruct_propeller"]}
{"id": "C64", "title": "Shaft file type dispatch", "statement": "Shaft(name).generate_solid reads the file as STL exactly if the name has extension stl and as IGES exactly if it has extension iges, where the extension is the text after the last dot of the last path component and the name before it must contain something other than dots; any other name raises before anything is read. What was read is sewn with tolerance 0.01 and made a solid, RuntimeError if that is not done; the status of the IGES reader has no influence.", "quantifier": "all file names, all results of the libraries", "why_tests_cant": "all strings", "anchors": ["bladex/shaft/shaft.py: Shaft.generate_solid"]}
{"id": "C65", "title": "InterpolatedFace validates its point arrays", "statement": "InterpolatedFace accepts exactly arrays of shape (3, n) or (m, 3, n), otherwise raises ValueError (after printing the shape); for an accepted array it returns the face of the first curve of the surface through the curves interpolating the columns of each block, i.e. the rows of points of the blade. An array of points as rows is rejected unless it has exactly three points, whose coordinates are then silently exchanged. No sections: NameError.", "quantifier": "all arrays, all kernel behaviours", "why_tests_cant": "all shapes", "anchors": ["bladex/intepolatedface.py: InterpolatedFace.__init__"]}
{"id": "C66", "title": "Parameters -> coordinates -> parameters round trip (British convention)", "statement": "For normalised parameters (chord stations from 0 to 1, camber and thickness fractions peaking at 1 or vanishing with their maximum, camber zero at both ends, thickness zero at the leading edge) generating coordinates and then parameters returns exactly the original parameters.", "quantifier": "all normalised parameter sets", "why_tests_cant": "tests compare one foil with tolerance", "anchors": ["bladex/profile/customprofile.py: _compute_coordinates_british_convention", "bladex/profile/baseprofile.py: generate_parameters"]}
{"id": "C67", "title": "American and British conventions agree without camber", "statement": "When the maximum camber is 0 the construction orthogonal to the camber line returns the British coordinates.", "quantifier": "all accepted parameter sets with zero camber and non-negative second station", "why_tests_cant": "all inputs", "anchors": ["bladex/profile/customprofile.py: _compute_orth_camber_coordinates, _compute_coordinates_british_convention"]}
{"id": "C68", "title": "NACA 5-digit foils", "statement": "For every 5-digit code with third digit 0 or 1 and n_points >= 2 the construction succeeds, has n_points points per surface, upper not below lower, midpoints on the (scaled) 5-digit camber line with the published junction and k1 for the tabulated position digits; it is closed from (0,0) to (1,0) for all standard codes and reflex codes up to position digit 7. Reflex codes with position digit 8 or 9 do not close, and extrapolated codes can have a camber larger than the chord.", "quantifier": "all 5-digit codes, both spacings, all n_points >= 2", "why_tests_cant": "all codes and unbounded n_points", "anchors": ["bladex/profile/nacaprofile.py: NacaProfile.generate_coordinates"]}
{"id": "C69", "title": "B-spline evaluation is the Cox-de Boor curve with local control", "statement": "FITPACK's interval search and recurrence, as called by scipy_bspline, return at sample i the Cox-de Boor curve on the clamped uniform knots at i*(c-degree)/(npoints-1); moving control point j leaves every sample outside [j-degree, j+1] unchanged; increasing control values give increasing samples; consecutive samples differ by at most degree*variation*(c-degree)/(npoints-1).", "quantifier": "all control polygons, degrees, npoints", "why_tests_cant": "all sizes; the reference definition is recursive over real knots", "anchors": ["bladex/ndinterpolator.py: scipy_bspline"]}
{"id": "C70", "title": "Line ends and comment lines do not matter in parameter files", "statement": "Replacing line feeds by carriage return + line feed, or inserting a line starting (after white space) with # or ;, anywhere in a file does not change the result of reading it.", "quantifier": "all file contents", "why_tests_cant": "all texts and positions", "anchors": ["bladex/params.py: read_parameters"]}
{"id": "C71", "title": "Dense splines satisfy the tolerance and compute_all honours the end deformations", "statement": "If degree * variation of the control abscissae * (nbasis-degree)/(npoints-1) < 2 tol and the radii lie between the end control abscissae then compute_deformed_parameters succeeds. After a successful compute_all the spline starts at (first radius, first value + first deformation) and ends at (last radius, last value + last deformation), and the first deformed value is exactly first value + first deformation.", "quantifier": "all parameter files, tolerances and histories", "why_tests_cant": "bound over all data", "anchors": ["bladex/deform.py: compute_deformed_parameters, compute_all", "bladex/ndinterpolator.py: scipy_bspline"]}
{"id": "C72", "title": "Plots draw exactly what was asked for", "statement": "plot of one parameter succeeds exactly if every requested series is available and the output name is falsy or a string; it then draws exactly the requested series in the documented order with the stored data, to the screen or to that file. Plotting a list is plotting each in turn.", "quantifier": "all reachable objects and options", "why_tests_cant": "all option combinations and states", "anchors": ["bladex/deform.py: _plot_parametric_curve, plot"]}
{"id": "C73", "title": "Candidates for the camber line", "statement": "The points of the camber spline are exactly the Voronoi vertices for which point_inside_polygon (boundary included) holds for the unrolled section points, sorted by axial coordinate, equal ones in their original order; this fails only if the section or the Voronoi computation does.", "quantifier": "all point sets and Voronoi results", "why_tests_cant": "all polygons and vertex sets", "anchors": ["bladex/reversepropeller/reversepropeller.py: _camber_points, _voronoi_points, point_inside_polygon"]}
{"id": "C74", "title": "Index used by display_cylinder and display_section", "statement": "If radii_list is an array the index used is the first one whose radius equals the argument and a missing radius raises ValueError; if it is the documented list no index is ever found for a float argument: every call raises.", "quantifier": "all radii lists and radii", "why_tests_cant": "all lists; needs a display", "anchors": ["bladex/reversepropeller/basereversepropeller.py: display_cylinder, display_section"]}
{"id": "C75", "title": "Cylinder shaft", "statement": "CylinderShaft makes the solid of the points at most radius away from the axis, between the origin and height along the orientation; the default is the unit cylinder along x from 0 to 1. The length of the orientation vector is irrelevant, reversing it shifts the cylinder by its height; a shaft along x is invariant under turns about x. A zero orientation raises RuntimeError, a wrong number of components TypeError.", "quantifier": "all radii, heights > 0, orientations, origins", "why_tests_cant": "continuum", "anchors": ["bladex/shaft/cylinder_shaft.py: CylinderShaft"]}
{"id": "C76", "title": "The exported blade files contain the current four faces and nothing is written on failure", "statement": "After build and any sequence of rotations about x or z and non-zero scalings, export_iges and export_stl write exactly one file with the upper, lower, root and tip face in this order; the upper and lower ones are the surfaces through 1000 times the current coordinates, and the faces are the images of the built ones under one similarity; export does not change the blade; include_le_curves adds exactly the two curves and stores them; blades whose sections have equally many points can always be exported with curves when the CAD library succeeds. If an exception is raised no file is written and the blade is unchanged; without faces there is always an exception. If the file cannot be written the call still succeeds silently.", "quantifier": "all blades, surface and curve builders, motion sequences, file names and outcomes of the writers", "why_tests_cant": "tests check that a file exists after one export; the claim relates the written geometry to the blade's state after any motions", "anchors": ["bladex/blade.py: Blade.export_iges, Blade.export_stl, Blade.build, Blade.rotate, Blade.scale"]}
{"id": "C77", "title": "The leading-edge curves: which points they interpolate", "statement": "After apply_transformations curve point n-1-i lies at distance 1000*|radius i| from the axis and is 1000 times a point of section i, at the index nearest to 95% of the axial extent of section n-1-i; when all sections share this index every point is the marked one of its own section, in general it is not (refuted). With a flat lower surface and positive pitch the marked sample is the one nearest to 5% of the chord with reflection, but 95% without, so the curve is then not near the leading edge (refuted). The points follow all rotations about x or z and scalings together with the faces and lie on the upper and lower face of an interpolating surface; after mirror they stay where they were and leave the faces (refuted).", "quantifier": "all blades, sections, motion sequences and surface builders", "why_tests_cant": "no test looks at the curve points; the statement ranges over all blades and motions", "anchors": ["bladex/blade.py: Blade._generate_leading_edge_curves, Blade.apply_transformations, Blade.mirror"]}
{"id": "C78", "title": "_write_blade_errors always fails and empties the file", "statement": "For every generated blade and every valid request for at least one face the method raises AttributeError, because the face attribute it reads is never set, and leaves the error file existing but empty, whatever it contained before; _check_errors accepts exactly the requests with a non-empty upper or lower name and raises ValueError otherwise. If the two faces are assigned from outside, the file consists of a title, the column names and one tab separated row per point for every requested face: section, point, coordinates in millimetres, distance. _check_string accepts exactly the strings and raises TypeError otherwise.", "quantifier": "all generated blades, file systems, file names and requests", "why_tests_cant": "the method is not tested at all; the failure and the destruction of the old file hold for all blades", "anchors": ["bladex/blade.py: Blade._write_blade_errors, Blade._check_errors"]}
{"id": "C79", "title": "Blade.plot draws each section's two curves once", "statement": "After apply_transformations plot draws exactly 2n curves, the upper and lower curve of section i being numbers 2(n-1-i) and 2(n-1-i)+1 with exactly the wrapped points of the section, and saves to outfile exactly when a non-empty name is given; before apply_transformations it raises ValueError.", "quantifier": "all consistent blades and outfile arguments", "why_tests_cant": "tests only check that plotting does not crash", "anchors": ["bladex/blade.py: Blade.plot"]}
{"id": "C80", "title": "The intersection cylinder meets the whole blade exactly when |xmin| <= xmax - xmin", "statement": "The lateral face built for a radius cuts a blade lying between xmin and xmax in exactly its points at that radius whenever |xmin| <= xmax - xmin; the face reaches every point of the cylinder between xmin and xmax if and only if that inequality holds, and otherwise a blade exists one of whose points at that radius is lost (refuted). A radius that is not positive or an empty range raises RuntimeError.", "quantifier": "all radii, bounding boxes and blades", "why_tests_cant": "the bounds come from one IGES file in the tests", "anchors": ["bladex/reversepropeller/basereversepropeller.py: _build_cylinder", "bladex/reversepropeller/reversepropellerbladex.py: _build_intersection_cylinder_blade"]}
{"id": "C81", "title": "The parametrised chord of a section is a geodesic of the cylinder, for edges with z >= 0", "statement": "For leading and trailing edge on a cylinder of positive radius the chord curve exists, all its points lie on the cylinder, it is straight when unrolled with constant speed, and its coded tangent is its derivative. It starts at the leading edge iff that has z >= 0 and ends at the trailing edge iff that has z >= 0; otherwise it joins the points reflected to the front half (refuted). The plane cut at a station meets the cylinder in a curve which, for a chord turning around the axis, is the perpendicular of the unrolled chord in no other point.", "quantifier": "all radii, edge points, parameters and stations", "why_tests_cant": "correctness for all edge positions is a trigonometric identity; samples cannot show where arcsin picks the wrong branch", "anchors": ["bladex/reversepropeller/reversepropellerbladex.py: _camber_curve"]}
{"id": "C82", "title": "The camber points: 500 stations, first and last are the edges, a cut may reuse an earlier vertex", "statement": "When the camber search succeeds with n >= 2 points, it returns n points, the first being the leading edge and the last the trailing edge, all on the cylinder when the midpoints are; point i is the midpoint computed at the i-th uniform station, with unit normal, from the last vertex found on the top and bottom edges at this or an earlier station. If the first cut meets no top or no bottom edge the result is NameError; coinciding edges give RuntimeError. A cut meeting no edge silently uses an earlier vertex, so a camber point need not come from its own cut (refuted).", "quantifier": "all edge points, radii, numbers of points and CAD oracles for cuts and midpoints", "why_tests_cant": "needs arbitrary outcomes of the CAD kernel at 500 stations; stale values are invisible in a successful run", "anchors": ["bladex/reversepropeller/reversepropellerbladex.py: _camber_curve"]}
{"id": "C83", "title": "Section edges are dealt alternately to the upper and lower wire", "statement": "For every list of section edges the two wires together contain every edge exactly once, alternately in the order met, the upper wire getting the first and at most one more than the lower.", "quantifier": "all lists of edges", "why_tests_cant": "one IGES file has one number of edges", "anchors": ["bladex/reversepropeller/reversepropellerbladex.py: _build_intersection_cylinder_blade"]}
{"id": "C84", "title": "The csv file of a reverse propeller says exactly the printed lists and section arrays", "statement": "Saving a computed reverse propeller writes one file which a csv reader decodes to exactly 6 + 4n rows: the six lists in order, then for each section the upper x, lower x, upper y and lower y coordinates with their labels; any row of fields survives writing and reading; the file determines every printed text; other files are untouched. If a section array has no row for some radius the call raises IndexError leaving a file with only the first rows; if the file cannot be opened nothing changes. A section of more than 1000 points is abbreviated: changing any inner coordinate does not change the file. The skew list is not written although the docstring says all properties are (refuted).", "quantifier": "all reversed propellers, texts printed by numpy, file systems, disk outcomes and csv rows", "why_tests_cant": "tests only check that a file is produced; decoding for all field contents needs an induction over the text", "anchors": ["bladex/reversepropeller/basereversepropeller.py: save_global_parameters"]}
{"id": "C85", "title": "In binary64 reflect is exact and an involution bit for bit", "statement": "Reflecting float64 coordinates twice gives back exactly the same array contents, including infinities, NaN and signed zeros; the reflected coordinates are the exact negatives, and finite coordinates stay finite.", "quantifier": "all binary64 coordinate arrays", "why_tests_cant": "2^64 values per entry", "anchors": ["bladex/profile/baseprofile.py: BaseProfile.reflect"]}
{"id": "C86", "title": "Rounding of translate in binary64", "statement": "Each translated coordinate differs from the exact one by at most 2^-53 relatively, if below 2^1023; sorted abscissae stay sorted; if coordinates and vector are multiples of one power of two within 2^52 steps the translation and the way back are exact; in general the way back errs by at most 2^-52 (|x| + |x+v|), and is not exact (refuted); distinct points may coincide after translation (refuted).", "quantifier": "all finite binary64 profiles and vectors", "why_tests_cant": "error bounds over all floating-point inputs", "anchors": ["bladex/profile/baseprofile.py: BaseProfile.translate"]}
{"id": "C87", "title": "Edges and scaling in binary64", "statement": "The leading edge is the first upper point and the trailing edge ordinate lies between the two last ordinates despite rounding; profiles whose end abscissae differ by at most 1e-4 are always accepted and accepted ones differ by at most 1e-4 + 1e-15, the only error is ValueError; NaN end abscissae are never rejected. Scaling errs by at most 2^-53 relatively plus 2^-1075, powers of two are exact, and scaling about the computed reference point c errs by at most 2^-53 |c + k(x-c)| + 3 2^-53 |k(x-c)| + 2^-1074. The tolerance used is the double nearest to 1e-4. The reference point errs by at most the stated rounding bound from the exact midpoint of the edges.", "quantifier": "all binary64 profiles and factors in the stated ranges", "why_tests_cant": "error bounds over all floating-point inputs", "anchors": ["bladex/profile/baseprofile.py: BaseProfile._update_edges, BaseProfile.reference_point, BaseProfile.scale"]}
{"id": "C88", "title": "Rounding of rotate in binary64", "statement": "With sine and cosine accurate to delta and coordinates at most M, every coordinate of the rotated binary64 profile is within 2M(delta + 3 2^-53) + 3 2^-1075 of the exact rotation, whether or not the linear algebra library fuses multiplication and addition in each dot product; both fail with the same exception for unequal surfaces.", "quantifier": "all finite binary64 profiles, angles, bounds and evaluation orders of each dot product", "why_tests_cant": "depends on the evaluation order chosen by the platform's linear algebra library", "anchors": ["bladex/profile/baseprofile.py: BaseProfile.rotate"]}
{"id": "C89", "title": "Which integers a parameter file may hold", "statement": "Spline degree, number of points and number of control points are read from exactly the texts made of optional white space, an optional sign, groups of decimal digits separated by single underscores and optional white space, and denote the base-ten value; anything else is a ValueError.", "quantifier": "all texts", "why_tests_cant": "an equivalence over all strings", "anchors": ["bladex/params.py: read_parameters"]}
{"id": "C90", "title": "Spelling of an option does not matter", "statement": "In a parameter file, changing the case of the letters of an option name, the delimiter (= or :), the white space before the delimiter or around the value does not change the result of read_parameters.", "quantifier": "all files, lines and spellings", "why_tests_cant": "unboundedly many files and spellings", "anchors": ["bladex/params.py: read_parameters"]}
{"id": "C91", "title": "Malformed parameter files are refused untouched", "statement": "A file in which a section header is repeated, an option is repeated within a section (up to case), text precedes the first section, or a first-column line is neither comment, header nor option, makes read_parameters raise configparser's error and leaves the object exactly as it was. So is an option line without a name.", "quantifier": "all files of each malformed kind", "why_tests_cant": "the rest of the file is arbitrary", "anchors": ["bladex/params.py: read_parameters"]}
{"id": "C92", "title": "American thickness is measured orthogonally to the camber line", "statement": "With convention='american' and non-zero camber, if the interpolated lower surface is the graph of f and the root finder returns exact roots, every thickness equals twice the distance from the camber point of a station to a point of the lower surface on the line through it orthogonal to the arriving camber segment (the point above/below the given abscissa where the camber line is horizontal); the station is the same one, except that the second station takes the value of the third when its mirrored upper point lies before the first upper point.", "quantifier": "all profiles with equally many points, all interpolants and root finders", "why_tests_cant": "arbitrary curves, profiles and numerical libraries", "anchors": ["bladex/profile/baseprofile.py: _compute_thickness_american, generate_parameters"]}
{"id": "C93", "title": "American thickness and horizontal position", "statement": "Translating a profile horizontally leaves its American thickness unchanged. (False: for a profile on a horizontal camber line at height 1, a shift by 1/4 turns the thickness at the leading edge from 0 into 1/2, whatever the numerical libraries do.)", "quantifier": "all profiles and shifts; refuted for every interpolant and root finder", "why_tests_cant": "quantifies over numerical libraries", "anchors": ["bladex/profile/baseprofile.py: _compute_thickness_american"]}
{"id": "C94", "title": "American coordinates lie on the surface they interpolate", "statement": "generate_coordinates('american') gives lower points on the interpolated lower surface and generate_parameters recovers the parameters. (False: the ordinates are taken at the chord stations but paired with the abscissae of the orthogonal construction; a normalised section exists whose chord percentages are never recovered.)", "quantifier": "all parameters; refuted for every curve, convention and thickness routine", "why_tests_cant": "quantifies over curves", "anchors": ["bladex/profile/customprofile.py: generate_coordinates", "bladex/profile/baseprofile.py: generate_parameters"]}
{"id": "C95", "title": "Gaussian and multiquadric interpolation is always well posed, in any dimension", "statement": "With the Gaussian, multiquadric or inverse multiquadric basis and a non-zero radius, reconstruct_f succeeds if and only if the nodes (points of any common dimension) are pairwise distinct, otherwise it raises LinAlgError. The Gaussian and inverse multiquadric matrices are positive definite; the multiquadric one is regular although its quadratic form takes both signs.", "quantifier": "all node sets of any dimension and size, all data, evaluation points and radii", "why_tests_cant": "unboundedly many node sets; regularity is a theorem of approximation theory", "anchors": ["bladex/ndinterpolator.py: RBF.gaussian_spline, multi_quadratic_biharmonic_spline, inv_multi_quadratic_biharmonic_spline, reconstruct_f"]}
{"id": "C96", "title": "The lines and edges a profile keeps influence nothing but the drawing of the lines", "statement": "A profile keeps chord_line, camber_line, leading_edge and trailing_edge between calls. Every method computes with the present coordinates and, if it raises, leaves them alone; two profiles differing in kept lines and edges only give the same results in every program that does not plot a line. The kept chord line is always the one computed or assigned last; translate, reflect, rotate, scale and set_thickness_max leave lines and parameters alone, so after any proper translation the line is wrong, and after scale the edges are those of before unless the factor is 1 or the edges coincide. deform_camber_line without resampling keeps the camber line in step.", "quantifier": "all profile objects, all finite sequences of calls, caught exceptions included", "why_tests_cant": "unboundedly many call sequences and states", "anchors": ["bladex/profile/baseprofile.py: all methods", "bladex/profile/customprofile.py: __init__, generate_coordinates", "bladex/profile/nacaprofile.py: __init__, generate_coordinates"]}
{"id": "C97", "title": "What plot shows, when it succeeds, and its errors", "statement": "plot succeeds exactly if the coordinates are there, every requested curve has as many abscissae as ordinates, every requested line was computed, the reference point exists when requested, and outfile is false or a string; it then shows upper and lower profile, chord line, camber line and reference point in this order and saves or shows the picture. It changes at most the edges. A true outfile that is no string is refused only after drawing. The ValueError announced for a missing line is never raised for a new profile: it raises AttributeError. The line shown is the one computed before any motions since.", "quantifier": "all profile objects and options; all sequences of motions", "why_tests_cant": "unbounded sequences of calls", "anchors": ["bladex/profile/baseprofile.py: plot"]}
{"id": "C98", "title": "Parameters do not follow the coordinates", "statement": "Only generate_parameters and assignment change the six parameters, so generate_coordinates gives after any other calls the same coordinates as before them; for a profile made from parameters and for NACA profiles these are the original coordinates. The British parameters of a profile scaled by k>0 are those of the profile with lengths and maxima multiplied by k; a horizontal shift changes none. generate_parameters with an unknown convention raises NameError after replacing chord and camber but not thickness.", "quantifier": "all profile objects and call sequences; all factors and shifts", "why_tests_cant": "unbounded sequences of calls, real parameters", "anchors": ["bladex/profile/baseprofile.py: generate_parameters", "bladex/profile/customprofile.py: generate_coordinates", "bladex/profile/nacaprofile.py: generate_coordinates"]}
{"id": "C99", "title": "Edges of a section found from its camber curve", "statement": "ReversePropeller keeps the camber spline from 0.5 % to 98.5 % of its parameter range and prolongs it at both ends by a fortieth of its length. The edge at the start is the last vertex of the section within 0.25 % of the length of the start, else the first of the nearest points where the section comes closest to the prolongation; the edge at the end is always the latter, vertices there having no influence. The edge with the larger axial coordinate is the leading one; trailing edge, kept part and leading edge form one path; both edges lie on the section. AttributeError exactly if an edge was not found; RuntimeError for zero tangents, lengths or coincident points.", "quantifier": "all splines, all sections, all answers of the CAD kernel", "why_tests_cant": "universally quantified geometry and kernel answers", "anchors": ["bladex/reversepropeller/reversepropeller.py: _camber_curve"]}
{"id": "C100", "title": "Points of a section on the plane", "statement": "_camber_points takes n points a n-th of the length apart and never the end of the wire; the camber and airfoil points are 1/(n-1) of the length apart and contain both ends. Unrolling gives arc lengths in [0, 2 pi r), is undone by winding, never shortens distances, but tears points near the half plane y=0, z>0 apart by at least pi r. Winding is undone by unrolling exactly for arc lengths in [0, 2 pi r). The whole section is built from these points: chord length, airfoil and camber points are the images of the wire's points under the similarity sending the edges found to (0,0) and (1,0).", "quantifier": "all wires, radii, numbers of points, Voronoi maps, splines", "why_tests_cant": "universally quantified real geometry", "anchors": ["bladex/reversepropeller/reversepropeller.py: _camber_points", "bladex/reversepropeller/reversepropeller.py: _initial_camber_points_plane", "bladex/reversepropeller/reversepropeller.py: _initial_airfoil_points_plane"]}
{"id": "C101", "title": "Solid read from an IGES file", "statement": "All faces of the file are sewn exactly if its first root is a face or no other root has faces, so the order of the roots decides what is read. The blade is the solid made of all shells of the sewn shape, or the sewn shape if no solid can be made; faces left loose by the sewing are not in the solid.", "quantifier": "all files (lists of shape trees), all sewing results", "why_tests_cant": "all shape trees", "anchors": ["bladex/reversepropeller/basereversepropeller.py: _extract_solid_from_file"]}
{"id": "C102", "title": "Text forms and display", "statement": "The text of a parameter file has 31 lines, the text of a blade eight, in a fixed order; two parameter files print the same exactly if all integers agree and all arrays print the same. A blade with equally long lists and non-zero radii can be printed. Blade.display shows upper, lower, root and tip face in this order and opens the window exactly if all four were generated.", "quantifier": "all objects, all one-line printers of arrays", "why_tests_cant": "all objects", "anchors": ["bladex/params.py: __str__", "bladex/blade.py: __str__", "bladex/blade.py: display"]}
{"id": "C103", "title": "Blades whose sections share arrays", "statement": "Section objects with arrays of their own behave as independent profiles in apply_transformations, and the arrays they were made from are left centred, scaled and reflected while the sections go on with new arrays. Section objects made from the same four arrays are all accepted, but section i is scaled by the product of the first i+1 chords and reflected i+1 times. Sections with one array for upper and lower abscissae are accepted, but scaled by the squared chord, not centred, and mirrored instead of reflected. The blade coordinates are always the final section coordinates wound on the cylinders.", "quantifier": "all heaps, all section objects, all blades, both reflection settings", "why_tests_cant": "all aliasing patterns and chord lists", "anchors": ["bladex/blade.py: apply_transformations", "bladex/blade.py: _planar_to_cylindrical", "bladex/profile/baseprofile.py: scale, translate, rotate, reflect"]}
{"id": "C104", "title": "Sections cut by ReversePropellerBladeX", "statement": "At every radius the last face of the cylinder whose normal has no axial part is cut with the blade; the first, third, ... edges of the section form the upper wire, the others the lower one. The points of the upper, lower and whole section are equidistant along these wires, the edges of the blade are the values of the upper wire at its last parameter and at 0, and chord, airfoil and surfaces follow from them by one similarity. Without such a face, with one edge only or one point per surface the constructor raises; otherwise it succeeds when the camber points and the spline exist. If every cylinder has one lateral face, the display methods show the surface, wire and camber curve of the radius asked for, and raise ValueError for a radius not in the list.", "quantifier": "all radii lists, all faces, edges, wires, camber splines and interpolants", "why_tests_cant": "all geometries OpenCASCADE may return", "anchors": ["bladex/reversepropeller/reversepropellerbladex.py: ReversePropellerBladeX.__init__", "bladex/reversepropeller/reversepropellerbladex.py: _build_intersection_wires", "bladex/reversepropeller/basereversepropeller.py: display_cylinder, display_section"]}
{"id": "C105", "title": "The deformation is linear in the values and the displacements", "statement": "Take three Deformation objects with the same radii, degrees, npoints and nbasis such that in the third every radial distribution and every displacement array is a times that of the first plus b times that of the second. With the same rbf_points and tolerances compute_all succeeds on all three or raises the same exception on all three; on success the spline curves have the same abscissae, and the ordinates of the curves and the deformed parameters of the third are a times those of the first plus b times those of the second. The same holds of compute_control_points alone. In particular the effect of a displacement does not depend on the distribution it is applied to.", "quantifier": "all parameter files, all real factors, all rbf_points and tolerances", "why_tests_cant": "relates three runs for all data and factors", "anchors": ["bladex/deform.py: compute_all, compute_control_points, _optimum_control_points", "bladex/ndinterpolator.py: reconstruct_f, scipy_bspline"]}
{"id": "C106", "title": "As many samples as control points determine them", "statement": "Two control polygons of the same size with the same scipy_bspline samples are equal as soon as there are at least as many samples as control points, and for fewer samples this fails: uniqueness holds exactly then. Hence, with at least as many data (radii, or rbf_points when resampling) as control points, those stored by compute_control_points are the only ones between the given end points whose curve is as near to the data. The control values made of Greville abscissae have a curve that runs in equal steps between its end values, whatever the number of points.", "quantifier": "all control polygons, degrees 0 to 19, numbers of points; all parameter files", "why_tests_cant": "injectivity and uniqueness over all control polygons", "anchors": ["bladex/ndinterpolator.py: scipy_bspline", "bladex/deform.py: _optimum_control_points, compute_control_points"]}
{"id": "C107", "title": "Resampled deformation: equally spaced curve points, exact success condition", "statement": "Let the degree be at least 1 and rbf_points at least nbasis. Then the abscissae of the control points are the Greville abscissae between the first and the last radius, independent of the distribution, and the curve left by compute_all has its npoints abscissae in equal steps from the first to the last radius. If this holds of all five parameters and the radii are distinct, compute_all succeeds exactly when for every parameter every radius is less than the tolerance from one of these abscissae; it does so when all radii lie between the first and the last one and the step is less than twice the tolerance.", "quantifier": "all parameter files, rbf_points, tolerances", "why_tests_cant": "equivalence over all radii, tolerances and point numbers", "anchors": ["bladex/deform.py: _optimum_control_points, generate_spline, compute_deformed_parameters, compute_all"]}
{"id": "C108", "title": "Affine distributions are kept without resampling", "statement": "Without resampling and with at least nbasis radii, a radial distribution that is a times the radius plus b gets control points on the same line. If moreover its displacements are zero, every deformed value that compute_all leaves differs from the given one by at most |a| times the tolerance; a constant distribution is reproduced exactly.", "quantifier": "all parameter files, all a and b, all tolerances", "why_tests_cant": "all affine distributions, degrees and sizes", "anchors": ["bladex/deform.py: _optimum_control_points, compute_all"]}
{"id": "C109", "title": "At most as many data as control points: the curve goes through them", "statement": "Any given values are the scipy_bspline samples of some control values if there are at least as many control values as samples. Hence with at most nbasis radii (or rbf_points) the control points stored by compute_control_points have a curve whose samples are exactly the data. Without resampling, if moreover npoints - 1 is a multiple of the number of radii minus one, compute_all succeeds with every choice of positive tolerances; and if npoints is the number of radii and the tolerance does not exceed the distance between different radii, the deformed values are the given ones plus the curve of the displacements, so zero displacements give back the distribution exactly.", "quantifier": "all sample values, degrees 0 to 19, numbers of points; all parameter files and tolerances", "why_tests_cant": "surjectivity and exactness over all data, sizes and tolerances", "anchors": ["bladex/ndinterpolator.py: scipy_bspline", "bladex/deform.py: _optimum_control_points, compute_control_points, generate_spline, compute_deformed_parameters, compute_all"]}
{"id": "C110", "title": "Printed numbers are read back bit for bit and are the shortest texts that are", "statement": "For every binary64 number x, including both zeros, infinities and NaN, float(str(x)) is x. If x is finite and not zero, str(x) is a minus sign for negative x and then a numeral of at most 17 significant digits, the last one not zero, with a point for values from 1e-4 up to but not including 1e16 and with a two or more digit exponent otherwise, without superfluous zeros; no decimal numeral that is read as x has fewer significant digits, and none with as few is closer to x.", "quantifier": "all binary64 numbers; all decimal numerals", "why_tests_cant": "2^64 numbers; minimality is over all numerals", "anchors": ["bladex/params.py: __str__ (lines 230, 240, 266)", "bladex/params.py: read_parameters (lines 149, 164, 199)"]}
{"id": "C111", "title": "Which texts are numbers, and which number they are", "statement": "float(s) succeeds exactly on: white space, an optional sign, and inf, infinity or nan in any case or digits with at most one point among them and an optional exponent, then white space, where single underscores may stand between digits. A numeral is read as the binary64 number nearest to its exact value, ties to even, with the sign of the text even for zero, and as infinity if that rounded value is 2^1024 or more; there is exactly one such number.", "quantifier": "all texts, all numerals", "why_tests_cant": "infinitely many texts and values between representable numbers", "anchors": ["bladex/params.py: read_parameters (lines 149, 164, 199)"]}
{"id": "C112", "title": "Parameter files of binary64 numbers lose nothing", "statement": "Any ParamFile object of binary64 numbers that write_parameters accepts, with at least one radius and one control point per parameter, is read back bit for bit, whatever the numbers are (NaN, infinities and signed zeros included). An object that was read from a file can be written to any other file and is read back from there unchanged. Reading a missing file with a fresh object succeeds; the default radii it stores are printed 0.3, 0.4, 0.5, 0.6000000000000001, ..., 1.0000000000000002, so the last one exceeds 1.", "quantifier": "all objects, file contents and file names", "why_tests_cant": "all numbers and lists of numbers; the tests compare files with few digits", "anchors": ["bladex/params.py: read_parameters, write_parameters, __str__, _check_params"]}
{"id": "C113", "title": "Coordinate checks of CustomProfile in binary64", "statement": "For equally long arrays of binary64 numbers _check_coordinates accepts only if the interior upper ordinates are not below the lower ones (exactly, without tolerance) and the end points agree within (1 + 2^-50) times 1e-6 + 1e-5 |b|; it accepts whenever they are ordered and agree within (1 - 2^-50) times that; otherwise ValueError. No overflow condition is needed. With NaN and infinities: nothing accepted contains a NaN ordinate or a NaN end abscissa, an infinite end coordinate is accepted only against the same infinity, and the abscissae between the ends are never looked at (NaN passes). For surfaces of different lengths a NaN ordinate can pass by broadcasting. Surfaces whose ends are the same number, infinite ones included, pass the end checks.", "quantifier": "all binary64 arrays", "why_tests_cant": "2^64 values per coordinate, including NaN, infinities and differences that overflow", "anchors": ["bladex/profile/customprofile.py: _check_coordinates"]}
{"id": "C114", "title": "Measured and set thickness in binary64", "statement": "For common abscissae the measured maximum thickness of numbers is within one relative rounding (2^-53) of the exact one. set_thickness_max(T) moves every ordinate y to y*T/e within 5 roundings relative, and the thickness measured afterwards differs from |T| by at most 15*2^-53*M|T|/e + 3*2^-1075 when the ordinates are bounded by M; relative accuracy in T itself is refuted (a thin foil away from the axis, off by more than a quarter). A flat profile becomes zero for every T, NaN included; one NaN ordinate makes every ordinate NaN; a thickness beyond the largest number is measured as infinite and set_thickness_max then flattens the profile.", "quantifier": "all binary64 profiles with common abscissae and all T", "why_tests_cant": "quantifies over all doubles; tests use one foil and compare with a tolerance", "anchors": ["bladex/profile/baseprofile.py: max_thickness, set_thickness_max"]}
{"id": "C115", "title": "Camber line and its deformation in binary64", "statement": "For common abscissae every computed camber ordinate lies between the two surface ordinates and within 3 roundings of their mean. deform_camber_line(pc) keeps the upper surface not below the lower one, leaves the abscissae alone, and puts the ordinates within 10*2^-53*(W|m| + h) + 5*W*2^-1075 of m*(pc/100+1) +- h, where m is the mean, h half the distance and W = 1 + |pc|/100. A change of 0 percent moves ordered ordinates by at most 5 roundings of the larger one, is the identity on ordinates that are multiples of a common power of two, and is not the identity in general (0.2 and 0.1).", "quantifier": "all binary64 profiles with common abscissae and all percentages", "why_tests_cant": "quantifies over all doubles; tests use one foil and compare with a tolerance", "anchors": ["bladex/profile/baseprofile.py: compute_camber_line, deform_camber_line"]}
{"id": "C116", "title": "Coordinates from section parameters in binary64", "statement": "For numbers, CustomProfile(chord_perc, camber_perc, thickness_perc, chord_len, camber_max, thickness_max) in the British convention succeeds exactly when both maxima are not negative and the arrays are equally long, and raises ValueError otherwise. Away from overflow the abscissae are within one rounding of c*chord_len, the ordinates within 5*2^-53*(|m|+|h|) + 3*(2+|t|)*2^-1075 of m+h and m-h (m = camber*camber_max, h = t*thickness_max/2), and the upper surface is never below the lower one for non-negative thickness. A section whose thickness is zero at both ends passes the check of coordinates. The measured thickness is within 12*2^-53*(K + thickness_max) + 20*2^-1075 of thickness_max, K bounding the mean line; without camber it is exactly thickness_max, with camber 0.1 and thickness 0.1 it is not. A NaN maximum is not rejected and makes every ordinate NaN.", "quantifier": "all binary64 section parameters", "why_tests_cant": "quantifies over all doubles; tests use one section and compare with a tolerance", "anchors": ["bladex/profile/customprofile.py: _check_parameters, generate_coordinates"]}
{"id": "C117", "title": "Section parameters from coordinates in binary64, and back", "statement": "For numbers away from overflow, generate_parameters (British convention) yields thickness fractions in [0,1] with 1 attained, all zero exactly when the surfaces coincide, and the maximum is the one max_thickness measures; camber fractions are at most 1 with 1 attained when some mean is positive, and at most -1 when all means are negative or zero (the sign of the maximum is lost). For a horizontal chord of length between 2^-511 and 2^511 the length is within one rounding, the first fraction is exactly 0, the last exactly 1, all lie in [0,1] and keep their order; in general, for a closed trailing edge, the length is within 7 roundings, whatever order of operations the norm uses. Turning the parameters back into coordinates moves ordinates bounded by B by at most 20*2^-53*B + 12*2^-1075 and returns the abscissae shifted to start at 0 within 4 roundings. For surfaces that share their abscissae it always returns (IndexError when there is no point). One NaN abscissa makes every chord fraction NaN; one NaN ordinate makes every camber or thickness fraction and their maxima NaN; a horizontal chord of at most 2^-539 has measured length 0 and no chord fraction is a number.", "quantifier": "all binary64 profiles with equally many points on both surfaces, all orders of summation in the norm", "why_tests_cant": "quantifies over all doubles; tests use one foil and compare with a tolerance", "anchors": ["bladex/profile/baseprofile.py: generate_parameters", "bladex/profile/customprofile.py: generate_coordinates"]}
{"id": "C118", "title": "Four-digit NACA foils in binary64", "statement": "For digits 0-9 and between 2 and 2^30 points, and a math library whose powers, arctangent, sine and cosine are accurate to 8 roundings, NacaProfile's coordinates are finite, the leading edge is exactly the origin on both surfaces, and for a nonzero thickness the upper surface lies strictly above the lower at every interior point. At the last point it lies strictly below: the rounded coefficients sum to -2^-55, so the trailing edge is crossed by at most 2 roundings (by 5*T*2^-55 for linear spacing). For linear spacing the abscissae are shared, increasing and within 3 roundings of i/(n-1), and half the difference of ordinates is the exact half thickness within 91 roundings. For both spacings every coordinate is within 420 (abscissae) or 1060 (ordinates) roundings of the exact camber, thickness and inclination formulas at a station within 3 roundings of i/(n-1). The coordinates pass the checks of the constructor, whose parameters have one entry per point; with no points it raises IndexError.", "quantifier": "all digits, all numbers of points up to 2^30, both spacings, all math libraries of the stated accuracy", "why_tests_cant": "two recorded foils compared with tolerance 1e-7; the crossed trailing edge is hidden by it", "anchors": ["bladex/profile/nacaprofile.py: generate_coordinates", "bladex/profile/baseprofile.py: _check_coordinates"]}
{"id": "C119", "title": "Five-digit NACA foils in binary64", "statement": "For five-digit codes whose second digit is 0 or tabulated (standard 1-5, reflex 2-5), between 2 and 2^30 points, a math library accurate to 8 roundings and splines within 2^-30 (junction) and 2^-10 (strength) of the table, NacaProfile's coordinates are finite, the leading edge is exactly the origin, and for a nonzero thickness the upper surface lies strictly above the lower at every interior point while the trailing edge is crossed by at most 2 roundings. Every coordinate is within 90 (abscissae) or 160 (ordinates) roundings of the exact formulas at a station within 3 roundings of i/(n-1), for the junction and strength the splines return; only cosine spacing scales the camber by the design lift. With linear spacing or no camber both surfaces share increasing abscissae. The coordinates pass the checks of the constructor, whose parameters have one entry per point; with no points it raises IndexError, and a third digit of 2-9 raises ValueError.", "quantifier": "all such codes, all numbers of points up to 2^30, both spacings, all math libraries and splines of the stated accuracy", "why_tests_cant": "three recorded foils compared with tolerance 1e-7", "anchors": ["bladex/profile/nacaprofile.py: generate_coordinates", "bladex/profile/baseprofile.py: _check_coordinates"]}
{"id": "C120", "title": "Chord line and largest camber in binary64", "statement": "Without interpolation and for surfaces with equal abscissae, the chord line is exactly the height of the edges when these are level, and otherwise lies within 6 roundings of its rise and 2 of its height of the straight line through the edges, passing through the leading edge exactly. max_camber returns, to 6 (level chord) or 20 (inclined chord) roundings of the largest ordinate, the signed vertical distance of a camber point from the chord, and no camber point is further away; with both edges on the axis it is exactly the first entry of largest magnitude of the camber line, with its sign. For four-digit NACA foils with linear spacing it is the exact camber curve's value at a station to 1067 roundings, hence at most a/100 to that accuracy; for five-digit foils to 167 roundings. Edges with one abscissa, or a NaN ordinate, give NaN without an exception.", "quantifier": "all finite profiles with equal abscissae in the stated ranges, all rounding orders of the two-term sums of squares", "why_tests_cant": "the recorded test compares one value for one foil with a tolerance", "anchors": ["bladex/profile/baseprofile.py: compute_chord_line", "bladex/profile/baseprofile.py: max_camber"]}
{"id": "C121", "title": "Largest thickness of NACA foils in binary64", "statement": "For four-digit and tabulated five-digit foils with linear spacing or without camber, max_thickness without interpolation returns, to 2122 (four digits) or 322 (five digits) roundings, twice the exact half thickness at a station within 3 roundings of some i/(n-1), and no station is thicker. It exceeds the nominal thickness by at most 1 part in 5000, and is not below it, to that accuracy, whenever a station lies at three tenths of the chord. Camber does not change it.", "quantifier": "all such codes, all numbers of points from 2 to 2^30, all math libraries and splines of the stated accuracy", "why_tests_cant": "the thickness of generated foils is not tested", "anchors": ["bladex/profile/baseprofile.py: max_thickness", "bladex/profile/nacaprofile.py: generate_coordinates"]}
{"id": "C122", "title": "Sampled chord line in binary64", "statement": "For finite edges a moderate distance apart, compute_chord_line with n points stores n abscissae in order from exactly the leading edge's to exactly the trailing edge's, each within 4 roundings of the chord and one of the abscissae of its place a + i/(n-1)(b-a), and ordinates on the straight line through the edges to 6 roundings of the rise and 2 of the height, starting exactly at the leading edge. One point is the leading edge. Without a number of points, or with 0, surfaces with common abscissae keep their own abscissae; if any abscissa differs 500 points are used.", "quantifier": "all profiles with finite edges in the stated ranges, all n from 1 to 2^30", "why_tests_cant": "tests use a few sizes and compare with a tolerance", "anchors": ["bladex/profile/baseprofile.py: compute_chord_line"]}
{"id": "C123", "title": "Sections wrapped around cylinders in binary64", "statement": "With a sine and a cosine accurate to 2 roundings, _planar_to_cylindrical stores one section for each pair of a section and a radius taken from the last back; every point of either surface keeps its abscissa exactly, satisfies Y^2 + Z^2 = r^2 to 13 roundings of r^2, and lies within eps (4 r + |y|) of (r sin(y/r), r cos(y/r)). Sections of equal sizes are always wrapped; sections of different sizes, or a section whose arrays differ in length, or no section or radius at all, raise ValueError.", "quantifier": "all lists of sections and radii; for the position, radii from 2^-300 to 2^300 and ordinates up to 2^300", "why_tests_cant": "tests compare a single blade with a tolerance and never bound the rounding error", "anchors": ["bladex/blade.py: Blade._planar_to_cylindrical"]}
{"id": "C124", "title": "Pitch angles in binary64", "statement": "With an arc tangent accurate to 2 roundings, pitch_angles has one entry per section, a finite number within 3.3 roundings (3.3 * 2^-53 rad) of the angle whose tangent is pitch / (2 pi radius), pi being the real number and not np.pi; arrays of different lengths are refused.", "quantifier": "all arrays of pitches up to 2^300 in magnitude and radii from 2^-300 to 2^300", "why_tests_cant": "tests compare a few angles with a tolerance and with np.pi itself", "anchors": ["bladex/blade.py: Blade.pitch_angles"]}
{"id": "C125", "title": "Rake induced by skew in binary64", "statement": "With an arc tangent and a tangent accurate to 2 roundings, induced_rake has one entry per section, equal to pitch * skew / 360 (the radius drops out) to 9 roundings of r |skew in radians| (1 + v^2), v = pitch / (2 pi r), plus an underflow term; a section without skew has rake exactly 0; arrays of different lengths are refused.", "quantifier": "all arrays of pitches and skews up to 2^300 in magnitude and radii from 2^-300 to 2^300 with |v| <= 4", "why_tests_cant": "tests compare one blade with recorded values", "anchors": ["bladex/blade.py: Blade.induced_rake"]}
{"id": "C126", "title": "Rotation of a blade in binary64", "statement": "With a sine and a cosine accurate to 2 roundings, rotate about x, y or z keeps the coordinate along the axis of every finite point exactly and puts the other two within 8.1 roundings of the largest coordinate (plus an underflow term) of the true rotation by the given radians, or within 8.2 + 5.1 |t| roundings for an angle of t radians given in degrees, whichever products are fused with the additions; numbers of sections and points are kept. No coordinates, both angles, neither angle or another axis raise ValueError.", "quantifier": "all blades with finite coordinates up to 2^1000, all finite angles (in degrees up to 10^6), all three axes, all choices of fused products", "why_tests_cant": "tests rotate one blade by one angle and compare with a tolerance", "anchors": ["bladex/blade.py: Blade.rotate"]}
{"id": "C127", "title": "Placement of a scaled section in binary64", "statement": "With library functions accurate to 2 roundings, the steps of apply_transformations after the scaling - reflection if asked for, rotation by a right angle less the pitch angle, shift by the skew, shift by the total rake - succeed in binary64 exactly when they do in real numbers (same exception otherwise), and put every coordinate within 39 + 10 / cos^2(pitch angle) roundings of the largest length at play (coordinates, skew arm, rake, induced rake) of its exact place, plus an underflow term; all results are finite.", "quantifier": "all finite profiles with coordinates up to 2^600, all pitches, radii, skew angles and rakes of moderate size with a pitch angle whose tangent is at most 4, both values of the reflect option, all orders of summation in the matrix product", "why_tests_cant": "tests compare a few transformed sections with a tolerance; the bound holds for every section and names the growth with the pitch angle", "anchors": ["bladex/blade.py: Blade.apply_transformations", "bladex/blade.py: Blade.pitch_angles", "bladex/blade.py: Blade.induced_rake", "bladex/profile/baseprofile.py: rotate, translate, reflect"]}
{"id": "C128", "title": "A section placed and laid on its cylinder in binary64", "statement": "With library functions accurate to 2 roundings, placing a scaled section (reflection, pitch, skew, rake) and laying both faces on the cylinder of its radius gives in binary64, for every point, three finite coordinates within (45 + 10 / cos^2(pitch angle)) roundings of the largest planar length plus 4 roundings of the radius (plus an underflow term) of the exactly placed point wound on the cylinder; the numbers of points agree, and it fails with the same exception as the placement in real numbers.", "quantifier": "all finite profiles with coordinates up to 2^290, all pitches, radii, skew angles and rakes of moderate size with a pitch angle whose tangent is at most 4, both values of the reflect option, all orders of summation in the matrix product", "why_tests_cant": "tests compare the blade coordinates of one propeller with a tolerance; the bound composes every rounding of the whole chain for every section", "anchors": ["bladex/blade.py: Blade.apply_transformations", "bladex/blade.py: Blade._planar_to_cylindrical"]}
{"id": "C129", "title": "All sections of a blade placed and laid on their cylinders in binary64", "statement": "With library functions accurate to 2 roundings, the steps of apply_transformations after the scaling give in binary64 one array per section and face, from the last section to the first; every point of a section of moderate size lies within (45 + 10 / cos^2(pitch angle)) roundings of its largest planar length plus 4 roundings of its radius (plus an underflow term) of the exactly placed point wound on the cylinder of its own radius, whatever the other sections hold. Sections of equal sizes with no more upper than lower points always succeed, whatever the numbers; a first section with fewer lower than upper points raises IndexError.", "quantifier": "all blades of any number of sections, both values of the reflect option, all orders of summation in the matrix products, error bound for every section with coordinates up to 2^290 and a pitch angle whose tangent is at most 4", "why_tests_cant": "tests build one propeller; the bound and the pairing of sections with radii hold for every blade and each section separately", "anchors": ["bladex/blade.py: Blade.apply_transformations", "bladex/blade.py: Blade._planar_to_cylindrical"]}
