{"id": "C01", "title": "number validation accepts exactly the documented numbers", "statement": "validate.number(v, name, check_integer, lower, upper, exclusive) returns v itself, unchanged, exactly when v has an accepted type (bool/int/np.int8..64 when check_integer, additionally float/np.float16..128 otherwise), lower and upper are numbers with not (lower > upper), and v does not compare below lower or above upper (<=, >= when exclusive); a wrong type raises TypeError and any bound failure raises ValueError, with the type error taking precedence. For a v that is not NaN and real bounds, acceptance is the same as lower <= v <= upper (lower < v < upper when exclusive) over the real numbers.", "quantifier": "all Python values v, all bounds, both flags", "why_tests_cant": "the input space (any object, any float incl. infinities) is infinite", "anchors": ["validate.py:number", "validate.py:_number_type", "validate.py:_number_bounds", "validate.py:_integer_type", "validate.py:_float_type"]}
{"id": "C02", "title": "NaN passes every bound check (violated expectation)", "statement": "A user expects that a value accepted by validate.number / validate.array with bounds lies within the bounds. This is false: a NaN float is accepted by validate.number for every lower/upper/exclusive setting with lower <= upper, and NaN entries are invisible to validate.array's bounds; NaN is the only such exception.", "quantifier": "all bounds, both exclusive settings, all arrays", "why_tests_cant": "requires ranging over all bounds; NaN comparisons are never sampled by the tests", "anchors": ["validate.py:_number_bounds", "validate.py:_array_bounds"]}
{"id": "C03", "title": "array validation accepts exactly the documented arrays", "statement": "validate.array(a, ...) returns a unchanged exactly when a is an ndarray, every non-NaN entry respects the given bounds (when any bound is given), the number of dimensions equals num_dimensions (when given) and dtype matches (when given); the error raised is decided in the order not-an-array (TypeError), bounds (ValueError), dimensions (InvalidDimensionsError), dtype (TypeError). One offending entry anywhere rejects the whole array.", "quantifier": "all objects, arrays of every shape and length, all option combinations", "why_tests_cant": "arrays of unbounded size and content", "anchors": ["validate.py:array", "validate.py:_array_bounds", "validate.py:_array_dimensions", "validate.py:_array_type"]}
{"id": "C04", "title": "same_shape_arrays accepts exactly lists of equally shaped arrays", "statement": "validate.same_shape_arrays(arrays, names) returns normally exactly when there are at least two arrays, as many names as arrays, and all shapes are equal; fewer than two arrays or a name-count mismatch raises AttributeError, and unequal shapes raise InvalidShapeError.", "quantifier": "all lists of arrays of any length and shapes", "why_tests_cant": "unbounded list length and shapes", "anchors": ["validate.py:same_shape_arrays", "errors.py:InvalidShapeError"]}
{"id": "C05", "title": "ring invariant under every history of setters", "statement": "Every Ring obtained from the constructor followed by any sequence of attribute assignments (each of which may raise) has, unless some stored value is NaN, 0 < inner_radius < outer_radius < inf, 0 <= transmission <= 1, 0 <= inclination <= 90 and -180 <= tilt <= 180.", "quantifier": "all constructor arguments and all finite histories of setter calls, including failing ones", "why_tests_cant": "unbounded histories", "anchors": ["Ring.py:Ring.__init__", "Ring.py:Ring.inner_radius", "Ring.py:Ring.outer_radius", "Ring.py:Ring.transmission", "Ring.py:Ring.inclination", "Ring.py:Ring.tilt"]}
{"id": "C06", "title": "ring setters are atomic and independent", "statement": "An attribute assignment on a Ring that raises leaves every attribute unchanged; one that succeeds stores the given value (0 becoming 1e-16 for inner_radius) and leaves the other four attributes unchanged.", "quantifier": "all rings, all values", "why_tests_cant": "all values/states", "anchors": ["Ring.py:Ring"]}
{"id": "C07", "title": "a ring can be built from NaN (violated expectation)", "statement": "A user expects Ring(...) to reject values outside the documented ranges. Ring(nan, outer, t) is accepted for every outer radius and the resulting ring does not satisfy inner < outer; NaN is the only way: a ring without NaN fields always satisfies the ranges.", "quantifier": "all outer radii / transmissions", "why_tests_cant": "NaN is never tested", "anchors": ["Ring.py:Ring.inner_radius", "validate.py:_number_bounds"]}
{"id": "C08", "title": "ring patch traces the projected annulus", "statement": "Every vertex v on the unit circle is mapped by get_patch's outer transform to a point of the ellipse centred at (x_shift, y_shift) with semi-major axis outer_radius along the tilt direction and semi-minor axis outer_radius*cos(inclination), and by the inner transform to the same ellipse scaled to inner_radius; the two outlines are traversed in opposite directions so that the hole is cut out; the opacity is 1 - transmission.", "quantifier": "all radii, inclinations, tilts, shifts and curve points", "why_tests_cant": "continuum of angles and points", "anchors": ["Ring.py:Ring.get_patch"]}
{"id": "C09", "title": "ring edits keep the rings ordered and disjoint", "statement": "If the rings of a RingSystem are ordered (each ring's outer radius <= the next ring's inner radius), then after any sequence of add_ring, remove_ring, replace_ring and merge_rings calls with rings free of NaN (each call may raise) they are still ordered.", "quantifier": "all ordered systems and all finite operation sequences", "why_tests_cant": "unbounded histories", "anchors": ["RingSystem.py:RingSystem.add_ring", "RingSystem.py:RingSystem.remove_ring", "RingSystem.py:RingSystem.replace_ring", "RingSystem.py:RingSystem._prevent_ring_overlap"]}
{"id": "C10", "title": "add, remove and replace are exact list edits", "statement": "add_ring(i, r) succeeds exactly when 0 <= i <= n and r fits between its neighbours, and then inserts r at i shifting later rings; remove_ring(i) succeeds exactly when 0 <= i < n and deletes only ring i; replace_ring(i, r) succeeds exactly when 0 <= i < n and r fits between rings i-1 and i+1, and changes only slot i. Removing the ring just added restores the system.", "quantifier": "all systems, indices and rings", "why_tests_cant": "all sizes and positions", "anchors": ["RingSystem.py:RingSystem.add_ring", "RingSystem.py:RingSystem.remove_ring", "RingSystem.py:RingSystem.replace_ring"]}
{"id": "C11", "title": "failed ring-system operations change nothing", "statement": "If add_ring, remove_ring, replace_ring, split_rings or merge_rings raises, the ring system's rings and every ring object are exactly as before the call.", "quantifier": "all systems, all arguments, all failure points", "why_tests_cant": "every failure point", "anchors": ["RingSystem.py:RingSystem"]}
{"id": "C12", "title": "constructor does not check overlap (violated expectation)", "statement": "A user expects a RingSystem never to contain overlapping rings. The constructor accepts any valid per-ring data: for every list of individually valid (inner, outer, transmission) triples, ordered or not, construction succeeds with exactly these rings (inner radius 0 stored as 1e-16).", "quantifier": "all lists of valid ring data", "why_tests_cant": "all lists", "anchors": ["RingSystem.py:RingSystem._set_rings"]}
{"id": "C13", "title": "split_rings partitions every ring", "statement": "split_rings(n) replaces ring k by n_k ringlets of equal width and the same transmission; the total number is the sum of the divisions, order is preserved, consecutive ringlets share a boundary, the first starts at the ring's inner radius and the last ends at its outer radius (exact arithmetic), so the transmission profile is unchanged.", "quantifier": "all systems, all division counts (scalar or per ring)", "why_tests_cant": "all counts and radii", "anchors": ["RingSystem.py:RingSystem.split_rings"]}
{"id": "C14", "title": "split_rings in binary64 may not tile exactly (violated expectation)", "statement": "In IEEE binary64 the ringlets produced by split_rings need not share boundaries: there are valid rings for which a ringlet's outer radius exceeds the inner radius of the next ringlet (overlap), and for which the last ringlet ends above the original outer radius.", "quantifier": "existence over binary64 rings; every number of divisions for counts/transmissions", "why_tests_cant": "rounding effects of specific floats", "anchors": ["RingSystem.py:RingSystem.split_rings"]}
{"id": "C15", "title": "merge_rings preserves the transmission profile", "statement": "merge_rings(tolerance > 0) on an ordered system succeeds and yields an ordered system in which every radius covered by an original ring keeps its transmission, every radius newly covered lies in a gap narrower than the tolerance between two rings of the same transmission, the first inner and last outer radius are unchanged, and no two neighbouring result rings could be merged again (merging twice equals merging once).", "quantifier": "all ordered systems and tolerances > 0", "why_tests_cant": "all sizes", "anchors": ["RingSystem.py:RingSystem.merge_rings"]}
{"id": "C16", "title": "merging undoes splitting", "statement": "For every ordered system and every valid division, merge_rings after split_rings gives the same rings as merge_rings alone (exact arithmetic); if no two neighbouring rings are mergeable this is the original system.", "quantifier": "all ordered systems, all divisions, all tolerances > 0", "why_tests_cant": "all sizes", "anchors": ["RingSystem.py:RingSystem.merge_rings", "RingSystem.py:RingSystem.split_rings"]}
{"id": "C17", "title": "merge_rings fails on an empty system and on non-positive tolerance", "statement": "merge_rings raises IndexError on a system without rings, and raises ValueError for every tolerance that is not > 0 (including NaN), leaving the system unchanged.", "quantifier": "all systems, all tolerances <= 0 or NaN", "why_tests_cant": "all systems", "anchors": ["RingSystem.py:RingSystem.merge_rings"]}
{"id": "C18", "title": "ring objects are shared, not copied (violated expectation)", "statement": "add_ring/replace_ring overwrite the inclination and tilt of the caller's Ring object with those of the system and store the object itself. In a history in which no Ring object is given to two systems every ring of a system has the system's inclination and tilt; handing one Ring to two systems makes the first system's ring change geometry.", "quantifier": "all histories over any number of ring objects and systems", "why_tests_cant": "aliasing histories", "anchors": ["RingSystem.py:RingSystem._override_ring_geometry", "RingSystem.py:RingSystem.add_ring"]}
{"id": "C19", "title": "plot limits (violated expectation)", "statement": "RingSystem.plot is expected to show the window centred on (x_shift, y_shift). The x window always is; the upper y limit uses x_shift, so the y window is centred on y_shift exactly when x_shift = y_shift. With no rings plot raises IndexError.", "quantifier": "all shifts and systems", "why_tests_cant": "all shifts", "anchors": ["RingSystem.py:RingSystem.plot"]}
{"id": "C20", "title": "grid vectors span the requested ranges", "statement": "GridParameters(min_x, max_x, num_x, ...) succeeds exactly when the numbers validate, min < max per axis, max_rf >= 1 and counts >= 1; then dx has num_x entries starting at min_x and (num_x > 1) ending at max_x, equally spaced (exact arithmetic), likewise dy; rf runs from 1 to max_rf; rf_array has 2*num_rf-1 entries, is symmetric, has 1 in the middle and max_rf at both ends (num_rf > 1); grid_shape = (num_y, num_x, 2 num_rf - 1).", "quantifier": "all ranges and counts", "why_tests_cant": "all sizes", "anchors": ["GridParameters.py:GridParameters.__init__", "GridParameters.py:GridParameters._determine_rf"]}
{"id": "C21", "title": "extend_grid mirrors the grid about both axes, once", "statement": "extend_grid on a grid with dx[0] = dy[0] = 0 and at least two points per axis succeeds, makes dx and dy of size 2n-1 whose entry n-1+j is the old entry j and entry n-1-j its negation (exact arithmetic), updates the shapes, leaves rf alone and clears extendable, so every further extend_grid raises AttributeError. On a non-extendable grid it raises AttributeError and changes nothing.", "quantifier": "all grids", "why_tests_cant": "all sizes", "anchors": ["GridParameters.py:GridParameters.extend_grid"]}
{"id": "C22", "title": "extend_grid of a one-point axis fails half-way (violated expectation)", "statement": "A grid with dx[0] = dy[0] = 0 advertises extendable = True. If num_x = 1 or num_y = 1, extend_grid nevertheless raises ValueError; with num_x > 1, num_y = 1 it does so after having already replaced dx, leaving dx inconsistent with grid_shape.", "quantifier": "all such grids", "why_tests_cant": "all sizes", "anchors": ["GridParameters.py:GridParameters.extend_grid"]}
{"id": "C23", "title": "the extended binary64 grid need not contain zero (violated expectation)", "statement": "A user expects the mirrored grid to contain the axis dx = 0 exactly. In binary64 there are grids (e.g. GridParameters(0,1,50,0,1,50,...)) whose extended centre coordinate is a tiny non-zero number, so the origin gets a shear different from 0 after extension.", "quantifier": "existence over binary64 grids", "why_tests_cant": "depends on rounding of specific sizes", "anchors": ["GridParameters.py:GridParameters.extend_grid", "Shallot.py:ShallotGrid._determine_shear"]}
{"id": "C24", "title": "grid parameters survive save and load", "statement": "For every GridParameters object g and directory d, GridParameters.load(d) after g.save(d) yields an object with the same dx, dy, rf, rf_array, shapes and extendable flag; files with other names in d are untouched; load from a directory lacking any of the four files raises LoadError.", "quantifier": "all objects, directories and file-system states", "why_tests_cant": "all contents", "anchors": ["GridParameters.py:GridParameters.save", "GridParameters.py:GridParameters.load"]}
{"id": "C25", "title": "diagnostics behave as a map until extended", "statement": "Before extend(), get_diagnostic(y, x) returns the arrays of the latest successful save_diagnostic(y, x, ...), raises KeyError if there was none, and ValueError/TypeError outside 0 <= y < ny, 0 <= x < nx; saves to other points do not interfere. After extend() every save_diagnostic raises RuntimeError and changes nothing.", "quantifier": "all histories of save/get/extend", "why_tests_cant": "unbounded histories", "anchors": ["GridDiagnostics.py:GridDiagnostics"]}
{"id": "C26", "title": "extended diagnostics are looked up at shifted points (violated expectation)", "statement": "After extend(), index (y, x) of the (2ny-1, 2nx-1) grid should return the diagnostic of its mirror image (|y-(ny-1)|, |x-(nx-1)|). The code looks up (|y-ny|, |x-nx|) instead, so index 0 never finds anything (KeyError), the centre finds the neighbour's data, and whenever both lookups succeed with distinct data the result is that of a different grid point.", "quantifier": "all sizes, all histories, all indices", "why_tests_cant": "all sizes", "anchors": ["GridDiagnostics.py:GridDiagnostics._generate_key"]}
{"id": "C27", "title": "diagnostics save/load loses the extended flag (violated expectation)", "statement": "GridDiagnostics.load after save restores both dictionaries and the sizes, but never the extended flag: the loaded object is always un-extended, so it accepts save_diagnostic again and looks keys up un-mirrored.", "quantifier": "all diagnostics objects", "why_tests_cant": "all contents", "anchors": ["GridDiagnostics.py:GridDiagnostics.save", "GridDiagnostics.py:GridDiagnostics.load"]}
{"id": "C28", "title": "masked reads give NaN exactly at masked points", "statement": "get_data(masked=True) returns an array of the same shape which is NaN at every masked point and equals the stored data elsewhere; get_data(masked=False) returns the stored data; without a mask both are the stored data.", "quantifier": "all cubes and masks", "why_tests_cant": "all sizes", "anchors": ["GridProperty.py:GridProperty.get_data", "GridProperty.py:GridProperty.set_mask"]}
{"id": "C29", "title": "masked reads destroy data permanently (violated expectation)", "statement": "A user expects a read not to change the property. get_data(masked=True) overwrites the stored data: afterwards get_data(masked=False) returns NaN at every point that was masked, and no sequence of further reads and set_mask calls ever turns a NaN point back into a number; points never masked keep their value.", "quantifier": "all properties and all histories of reads and mask changes", "why_tests_cant": "unbounded histories", "anchors": ["GridProperty.py:GridProperty.get_data"]}
{"id": "C30", "title": "shape discipline of grid properties", "statement": "A GridProperty can only be constructed from a float64 3-D array of exactly the grid's shape; set_mask only accepts bool arrays of the data's shape and otherwise raises leaving the mask unchanged; so in every reachable state data, mask and grid shape agree.", "quantifier": "all histories", "why_tests_cant": "unbounded histories", "anchors": ["GridProperty.py:GridProperty.__init__", "GridProperty.py:GridProperty.set_mask"]}
{"id": "C31", "title": "contrast limits are the extrema of the data", "statement": "set_contrast_parameters() with defaults sets vmin and vmax to the smallest and largest non-NaN data value (so every non-NaN value lies in [vmin, vmax]) and to None exactly when the whole cube is NaN; num_colors below 2 is rejected.", "quantifier": "all cubes", "why_tests_cant": "all contents", "anchors": ["GridProperty.py:GridProperty.set_contrast_parameters"]}
{"id": "C32", "title": "gradient mask keeps exactly the compatible disks", "statement": "After a successful determine_mask(m, s, t, e) a grid point is unmasked exactly when its gradient value is not NaN and not less than m*s/t; the scaled gradient reported is that number and is <= 1 (or NaN); the stored data are unchanged.", "quantifier": "all gradient cubes and all measured values", "why_tests_cant": "all contents", "anchors": ["GridProperty.py:GridGradient.determine_mask", "GridProperty.py:GridGradient.get_scaled_gradient"]}
{"id": "C33", "title": "a rejected measurement leaves the gradient inconsistent (violated expectation)", "statement": "When determine_mask raises because the scaled gradient exceeds one, the measured values have already been overwritten while the mask still belongs to the old ones, and from then on get_scaled_gradient raises on every call until a valid measurement is set.", "quantifier": "all gradients and rejected measurements", "why_tests_cant": "every failure point", "anchors": ["GridProperty.py:GridGradient.determine_mask"]}
{"id": "C34", "title": "a gradient survives save_gradient and load", "statement": "For every gradient whose mask was set by determine_mask (or never), and any history of reads in between, GridGradient.load of its saved directory gives the same data, position, measured values, and mask.", "quantifier": "all gradients and read histories", "why_tests_cant": "all contents", "anchors": ["GridProperty.py:GridGradient.save_gradient", "GridProperty.py:GridGradient.load"]}
{"id": "C35", "title": "every ellipse passes through the contact points", "statement": "For every grid point (dx, dy), dy != 0, and every scale factor fx (or fy) for which the code yields a number, the ellipse used by the grid (circle of radius hypot(1/2, dy) stretched by (fx, fy), sheared by -dx/dy, centred on (dx, dy)) passes through (-1/2, 0) and (1/2, 0); determine_fx and determine_fy are inverse to each other.", "quantifier": "all reals dx, dy != 0, fx, fy", "why_tests_cant": "continuum", "anchors": ["Shallot.py:ShallotGrid._determine_fx", "Shallot.py:ShallotGrid._determine_fy", "Shallot.py:ShallotGrid._determine_circular_radius", "Shallot.py:ShallotGrid._determine_shear"]}
{"id": "C36", "title": "disk radius, inclination and tilt are those of the ellipse", "statement": "For positive fx, fy, any shear and radius, the reported disk radius is the largest and cos(inclination) times it the smallest distance from the centre over all points of the ellipse, 0 <= inclination < 90, and the tilt is the direction of a point of the ellipse at distance disk radius (the major axis).", "quantifier": "all reals fx, fy > 0, shear, radius > 0, all points of the ellipse", "why_tests_cant": "continuum", "anchors": ["Shallot.py:ShallotGrid._determine_disk_parameters", "Shallot.py:ShallotGrid._calculate_vertex_and_covertex_angles", "Shallot.py:ShallotGrid._calculate_xy_from_parameteric_angle"]}
{"id": "C37", "title": "mirrored quadrants hold the mirrored disks", "statement": "After the quadrant extension the value at row i, column j of disk radius, inclination, fx and fy is the value at (|i-(ny-1)|, |j-(nx-1)|) of the built quadrant, and the tilt is that value or 180 degrees minus it; with negated shear (the mirrored grid point) the disk radius and inclination formulas give the same number and the tilt formula gives 180 minus the tilt modulo 180.", "quantifier": "all cubes and sizes; all reals", "why_tests_cant": "all sizes", "anchors": ["Shallot.py:ShallotGrid._fill_quadrants", "Shallot.py:ShallotGrid._extend_grid"]}
{"id": "C38", "title": "disk gradients are the local tangent of the concentric ellipse", "statement": "The gradient computed for position p at grid point (dx, dy) is |sin(angle)| of the tangent at (p, 0) to the concentric ellipse through that point; it always lies in [0, 1) or is NaN, and is NaN where the tangent is vertical (denominator 0) although the true value there is 1.", "quantifier": "all reals", "why_tests_cant": "continuum", "anchors": ["Shallot.py:ShallotGrid._determine_disk_gradients"]}
{"id": "C39", "title": "orbital scale", "statement": "For 0 <= limb darkening <= 1 and transverse velocity > 0 the orbital scale is a positive number, strictly decreasing in the velocity; velocity 0 (given as a Python number) is accepted by set_eclipse_parameters but makes add_gradients fail.", "quantifier": "all reals in range", "why_tests_cant": "continuum", "anchors": ["Shallot.py:ShallotGrid._determine_orbital_scale", "Shallot.py:ShallotGrid.set_eclipse_parameters"]}
{"id": "C40", "title": "the scale-factor search always terminates", "statement": "The loops extending the grid horizontally and vertically of a grid with finite maximum stop after at most max(1, floor(100*max)+1) rounds whatever the numeric values are; on normal return the outermost radius fraction is not below the requested maximum rf, with max < 0.01 they always raise AttributeError (such grids cannot be built), and grids whose maxima leave enough room are always built.", "quantifier": "all grids and numeric behaviours", "why_tests_cant": "loop length unbounded", "anchors": ["Shallot.py:ShallotGrid._extend_grid_horizontally", "Shallot.py:ShallotGrid._extend_grid_vertically"]}
{"id": "C41", "title": "the smallest disk sits at the middle of the rf axis", "statement": "For every built grid point the entry at index num_rf-1 is generated by the scale factor of the smallest sampled disk radius, to either side the scale factor is interpolated linearly between neighbouring samples (never outside their range), and wherever that middle radius is a non-zero number the diagnostic value there is exactly 0 in binary64.", "quantifier": "all sample arrays", "why_tests_cant": "all contents", "anchors": ["Shallot.py:ShallotGrid._interpolate_scale_values", "Shallot.py:ShallotGrid.diagnose_fxfy_resolution"]}
{"id": "C42", "title": "exactly the degenerate grid points stay NaN", "statement": "The shear is NaN exactly at points with dy = 0 and dx != 0, is 0 at the origin and -dx/dy elsewhere; the build writes a column of values at exactly the points with non-NaN shear and leaves NaN in all five properties at the others.", "quantifier": "all grids", "why_tests_cant": "all sizes", "anchors": ["Shallot.py:ShallotGrid._determine_shear", "Shallot.py:ShallotGrid._build_grid"]}
{"id": "C43", "title": "the combined mask is the union of all masks", "statement": "get_combined_mask marks a point exactly when the disk radius, inclination or tilt mask or the mask of some gradient marks it (absent masks mark nothing).", "quantifier": "all grids and any number of gradients", "why_tests_cant": "unbounded number of gradients", "anchors": ["Shallot.py:ShallotGrid.get_combined_mask"]}
{"id": "C44", "title": "Hill mask keeps exactly the stable disks, but cannot be relaxed", "statement": "generate_hill_radius_mask(h) masks exactly the points whose stored disk radius is NaN or > h. Once masked data have been read, a later call with a larger h does not recover the points (violated expectation): they stay masked for every h.", "quantifier": "all grids, radii and histories", "why_tests_cant": "unbounded histories", "anchors": ["Shallot.py:ShallotGrid.generate_hill_radius_mask"]}
{"id": "C45", "title": "add_gradients / remove_gradients edit the gradient list exactly", "statement": "A successful add_gradients(times, ...) appends one gradient per time, at position -time/eclipse_duration, in order, leaving earlier gradients untouched; remove_gradients(indices) with distinct valid indices deletes exactly these and keeps the order of the rest.", "quantifier": "all lists and index arrays", "why_tests_cant": "unbounded lists", "anchors": ["Shallot.py:ShallotGrid.add_gradients", "Shallot.py:ShallotGrid.remove_gradients"]}
{"id": "C46", "title": "duplicate indices remove the wrong gradients (violated expectation)", "statement": "remove_gradients with a repeated index deletes further gradients that were not named, or raises IndexError half-way with some gradients already deleted and the gradient fit kept.", "quantifier": "all lists with a repeated index", "why_tests_cant": "all lists", "anchors": ["Shallot.py:ShallotGrid.remove_gradients"]}
{"id": "C47", "title": "the gradient fit is never stale after successful changes", "statement": "After every successful add_gradients, remove_gradients, set_eclipse_parameters or effective update_gradient_scaling the gradient fit is absent, so a fit obtained later belongs to the current gradients; in every reachable state a fit exists only if gradients exist.", "quantifier": "all histories", "why_tests_cant": "unbounded histories", "anchors": ["Shallot.py:ShallotGrid._reset_gradient_fit"]}
{"id": "C48", "title": "the gradient fit is the weighted sum of squares", "statement": "determine_gradient_fit stores at every point the sum over the gradients of (value - scaled gradient)^2 / weight with weight error^2 or 1, NaN exactly where a term is NaN, masked exactly where NaN; it is >= 0 (exact arithmetic).", "quantifier": "all gradient lists", "why_tests_cant": "unbounded lists", "anchors": ["Shallot.py:ShallotGrid.determine_gradient_fit"]}
{"id": "C49", "title": "extract_solutions returns the best solutions in order", "statement": "When the fit is a finite number at every unmasked point, extract_solutions(k) with k at most the number of unmasked points returns k distinct unmasked grid points in order of non-decreasing fit, each at most the fit of every point not returned, with the disk radius, inclination, tilt, dx and dy of that point; any other k raises ValueError or TypeError.", "quantifier": "all grids and k", "why_tests_cant": "all sizes", "anchors": ["Shallot.py:ShallotGrid.extract_solutions"]}
{"id": "C50", "title": "extract_solutions consumes the fit (violated expectation)", "statement": "Calling extract_solutions twice should give the same answer. The first call erases the returned points from the stored fit: a second call returns the following ones, and asking again for all solutions raises ValueError.", "quantifier": "all grids", "why_tests_cant": "histories", "anchors": ["Shallot.py:ShallotGrid.extract_solutions"]}
{"id": "C51", "title": "closest grid point minimises the documented distance only on a shifted dy axis (violated expectation)", "statement": "determine_closest_grid_point returns a point minimising sqrt(dR^2+di^2+dtilt^2+(yy-b)^2) over the non-NaN points, where yy is the row coordinate min + i/n*(max-min); this is not the row's dy (min + i/(n-1)*(max-min)), except for row 0, so the returned point need not be the closest one.", "quantifier": "all grids and inputs", "why_tests_cant": "all sizes", "anchors": ["Shallot.py:ShallotGrid.determine_closest_grid_point"]}
{"id": "C52", "title": "grid point lookup bounds are off by one (violated expectation)", "statement": "get_grid_point_data(y, x, r) returns the stored data of that point for every index in range and raises ValueError/TypeError for negative, too large or non-integer indices, except that an index equal to the axis length passes the validation and raises IndexError.", "quantifier": "all indices and grids", "why_tests_cant": "all sizes", "anchors": ["Shallot.py:ShallotGrid.get_grid_point_data"]}
{"id": "C53", "title": "getters change later results (violated expectation)", "statement": "Reading a grid property with masked=True (the default) permanently sets the masked points to NaN in the grid; afterwards reads with masked=False, property_masked=False return NaN there.", "quantifier": "all grids and histories of getters", "why_tests_cant": "histories", "anchors": ["Shallot.py:ShallotGrid.get_disk_radius", "Shallot.py:ShallotGrid.get_inclination", "Shallot.py:ShallotGrid.get_tilt"]}
{"id": "C54", "title": "set_eclipse_parameters and update_gradient_scaling are not atomic (violated expectation)", "statement": "If a later argument is invalid, earlier ones have already been stored while the gradients of the old parameters are kept: set_eclipse_parameters(valid, invalid, _) leaves the new eclipse duration with gradients and fit of the old one. On success all three are stored and gradients and fit are cleared.", "quantifier": "all states and argument triples", "why_tests_cant": "every failure point", "anchors": ["Shallot.py:ShallotGrid.set_eclipse_parameters", "Shallot.py:ShallotGrid.update_gradient_scaling"]}
{"id": "C55", "title": "a grid survives save and load (without gradients)", "statement": "ShallotGrid.load(d) after save(d) of a finished grid without diagnostics restores num_fxfy, the grid parameters, and the data and masks of disk radius, inclination, tilt, fx and fy.", "quantifier": "all grids, directories not yet existing", "why_tests_cant": "all contents", "anchors": ["Shallot.py:ShallotGrid.save", "Shallot.py:ShallotGrid.load", "Shallot.py:ShallotGrid._load_grid_attributes"]}
{"id": "C56", "title": "gradients never survive save and load (violated expectation)", "statement": "save writes each gradient into gradient_<position>; load ignores every such directory because the decimal point makes it look like a file extension, so a loaded grid never has gradients; two gradients whose positions agree to four decimals overwrite each other.", "quantifier": "all grids with gradients at finite positions", "why_tests_cant": "all positions", "anchors": ["Shallot.py:ShallotGrid._load_grid_attributes", "GridProperty.py:GridGradient.save_gradient"]}
{"id": "C57", "title": "a grid keeping diagnostics cannot be saved (violated expectation)", "statement": "save of a grid built with keep_diagnostics=True always raises TypeError, after the directory and the property files have been written; with intermittent saving the build itself fails after its first row.", "quantifier": "all grids with diagnostics", "why_tests_cant": "all contents", "anchors": ["Shallot.py:ShallotGrid.save"]}
{"id": "C58", "title": "an interrupted build can be resumed from a copy at every crash point", "statement": "If an intermittent build crashes between any two file-system operations after its first row was saved, loading a copy of the temporary directory completes the build with exactly the grid the uninterrupted build produces.", "quantifier": "all grids, all crash points, all row functions", "why_tests_cant": "all crash points", "anchors": ["Shallot.py:ShallotGrid._build_grid", "Shallot.py:ShallotGrid.save", "Shallot.py:ShallotGrid.load"]}
{"id": "C59", "title": "loading the temporary directory itself destroys it (violated expectation)", "statement": "ShallotGrid.load('./.temp_shallot') always fails and leaves the directory deleted: the throw-away grid built first removes the temporary directory. Likewise constructing or loading any other grid in the same working directory deletes another build's progress.", "quantifier": "all file-system states", "why_tests_cant": "all states", "anchors": ["Shallot.py:ShallotGrid.load", "Shallot.py:ShallotGrid._delete_temp_save_dir"]}
{"id": "C60", "title": "the viewer index stays inside the cube", "statement": "For every sequence of scroll events the slice index of a GridPropertyViewer stays within 0..n-1, moves by at most one per event, up at the top and down at the bottom change nothing, and a frozen viewer never moves.", "quantifier": "all event sequences", "why_tests_cant": "unbounded histories", "anchors": ["GridProperty.py:GridPropertyViewer.onscroll"]}
{"id": "C61", "title": "plotted coordinates accumulate (violated expectation)", "statement": "The points shown are expected to be those of the current slice. The viewer only clears points when the current slice has none, so points of earlier slices stay visible; the shown set is exactly the union of the points of all slices visited since the last slice without points.", "quantifier": "all event sequences and coordinate lists", "why_tests_cant": "unbounded histories", "anchors": ["GridProperty.py:GridPropertyViewer.plot_coordinates"]}
{"id": "C62", "title": "property file names never collide", "statement": "The files written for different (property, unit) pairs, their masks and the grid-parameter, num_fxfy and y_value files all have different names, so saving one never overwrites another.", "quantifier": "all pairs of names and units", "why_tests_cant": "all pairs", "anchors": ["GridPropertyName.py:GridPropertyName", "GridPropertyUnit.py:GridPropertyUnit", "GridProperty.py:GridProperty.save"]}
{"id": "C63", "title": "an interrupted save of grid parameters is recognised, unless it overwrites", "statement": "If the process dies at any point of GridParameters.save into a directory that held no rf_array file, load afterwards either raises LoadError or returns exactly the saved object. When an older save is overwritten this fails (violated expectation): a crash can leave a mixture of both objects that loads without error.", "quantifier": "all objects, file systems and crash points", "why_tests_cant": "all crash points", "anchors": ["GridParameters.py:GridParameters.save", "GridParameters.py:GridParameters.load"]}
{"id": "C64", "title": "a grid property survives save and load", "statement": "GridProperty.load after save into a directory without an older mask file gives back the same name, unit, grid parameters, data and mask (only the contrast is set anew); saving succeeds in every directory that exists or can be made.", "quantifier": "all reachable properties and file systems", "why_tests_cant": "all contents", "anchors": ["GridProperty.py:GridProperty.save", "GridProperty.py:GridProperty.load"]}
{"id": "C65", "title": "saving over an older save resurrects its mask or measurement (violated expectation)", "statement": "When a property without mask is saved over a save of one with a mask, load returns the new data with the old mask; when an unmeasured gradient is saved over a measured one, load never returns an unmeasured gradient.", "quantifier": "all pairs of properties and file systems", "why_tests_cant": "all histories of saves", "anchors": ["GridProperty.py:GridProperty.save", "GridProperty.py:GridGradient.save_gradient"]}
{"id": "C66", "title": "an interrupted save of a property is recognised; of a gradient it may lose the measurement (violated expectation)", "statement": "If the process dies at any point of GridProperty.save into a new directory, load raises LoadError or gives back the whole property. For save_gradient there is a third outcome: the gradient loads without error as one that was never measured, and for every measured gradient some crash point leads to it.", "quantifier": "all properties, gradients, file systems and crash points", "why_tests_cant": "all crash points", "anchors": ["GridProperty.py:GridProperty.save", "GridProperty.py:GridGradient.save_gradient", "GridProperty.py:GridGradient.load"]}
{"id": "C67", "title": "making a viewer: accepted arguments, and looking is not pure (violated expectation)", "statement": "A GridPropertyViewer is made exactly for a plain integer axis 0..2, an Axes object, a boolean masked flag, an index inside the axis (by default its middle), coordinates of length three and an axis of at least two slices; along an axis of one slice it always fails. Making it with masked = True destroys the masked values of the property for ever.", "quantifier": "all arguments and properties, all later histories", "why_tests_cant": "all argument combinations and histories", "anchors": ["GridProperty.py:GridPropertyViewer.__init__", "GridProperty.py:GridProperty.get_data"]}
{"id": "C68", "title": "Titles, extent and tick labels of the viewer describe the slice shown", "statement": "The title of a slice along rf gives the rf of the slice and 'horizontal' before the middle, 'vertical' after it and neither at the middle slice, which is that of the first rf; along x and y it gives the value of the slice. The extent of the image is the first and last value of each of the two displayed axes, with (0, 2 (rf_max - 1)) for rf; the number written at the place of each of the 2 num_rf - 1 columns is the rf of that column; each grid point lies inside its own pixel, in its centre only at the middle of the axis. plot_slice yields a viewer that no scroll event changes, plot_cube one that starts at the middle slice and scrolls.", "quantifier": "all viewers reachable by any scroll events, all prefixes and number formats; all grids with at least two points per axis and finite limits, exact arithmetic", "why_tests_cant": "the test file checks the prefix of the title and one extent of one grid; it reads no title, label or tick", "anchors": ["GridProperty.py:218-285", "GridProperty.py:649-674", "GridProperty.py:711-797"]}
{"id": "C69", "title": "Coordinates on an rf axis are drawn at the wrong place (violated expectation)", "statement": "Expected: a coordinate (y, x, rf) is drawn where the axis reads rf. On the axes that show rf it is drawn at x = rf, where the axis reads 1 + |rf - (rf_max - 1)|; for 1 <= rf <= rf_max that is rf exactly if rf_max = 2 or rf = rf_max / 2, and the point lies outside the image if rf > 2 (rf_max - 1). When scrolling along rf, a coordinate is shown in the horizontal and in the vertical slice of its rf alike.", "quantifier": "all reachable viewers, coordinates and grids with at least two rf values and finite limits, exact arithmetic", "why_tests_cant": "the picture looks plausible for any one coordinate; only the comparison of the label formula with the plotted position for all rf shows when they agree", "anchors": ["GridProperty.py:739-797", "GridProperty.py:837-856"]}
{"id": "C70", "title": "Numbers are written correctly rounded", "statement": "The text of a float written with k decimals, read back, has the sign of the number and the integer nearest to |x| 10^k, the even one of two equally near; nan, inf and -inf are written so. Two finite numbers are written alike exactly if they have the same sign (that of a zero counts) and the same rounded value; numbers more than 10^-k apart are written differently.", "quantifier": "all binary64 numbers, all numbers of decimals", "why_tests_cant": "the tests compare a few texts; ties, signed zeros and subnormals are not among them", "anchors": ["Ring.py:50-81", "RingSystem.py:94-153", "GridProperty.py:534", "GridProperty.py:716"]}
{"id": "C71", "title": "Gradients share a directory when their positions agree to four decimals (violated expectation)", "statement": "Expected: gradients at different positions saved to one directory can all be loaded again. Two gradients get the same directory exactly if their positions have the same sign and the same value rounded to four decimals. Positions more than 10^-4 apart are safe: after both saves both gradients load back. If the names agree, a measured second gradient replaces the first, and an unmeasured second gradient comes back masked with the measurement of the first.", "quantifier": "all gradients measured by successful calls, all directories and file systems, all finite binary64 positions", "why_tests_cant": "tests save one gradient; the collision needs two positions that differ after the fourth decimal", "anchors": ["GridProperty.py:522-548", "GridProperty.py:551-588", "Shallot.py:207-209"]}
{"id": "C72", "title": "Which properties, gradients and grids can be printed (violated expectation)", "statement": "Expected: every object can be printed. A property can be printed exactly if its contrast limits are there, which for a new one means that not all its values are NaN; a gradient moreover needs a complete measurement if it has a mask; a grid needs this of its radius, tilt and inclination maps and of all its gradients. All others raise TypeError, and no sequence of calls repairs a property or grid map without limits; set_contrast without limits removes them if all values have been masked away.", "quantifier": "all properties, gradients and grids reachable by any calls, failed ones included; any formatting of floats", "why_tests_cant": "tests print one healthy object of each kind", "anchors": ["GridProperty.py:79-127", "GridProperty.py:404-431", "GridParameters.py:70-100", "Shallot.py:117-172"]}
{"id": "C73", "title": "The texts of a ring and of a ring system show its numbers", "statement": "The text of a ring has twelve lines, five of which give inner and outer radius, transmission, inclination and tilt, each with label, unit and the number correctly rounded to four decimals. The text of a ring system gives planet radius, inclination and tilt to two decimals and one line per ring, in order, numbered from 1, with the ring's radii and transmission.", "quantifier": "all binary64 rings and ring systems of any number of rings", "why_tests_cant": "tests compare the text of one ring and of one system", "anchors": ["Ring.py:50-81", "RingSystem.py:82-153"]}
{"id": "C74", "title": "Every point of a built grid holds a disk that casts the measured eclipse", "statement": "After a successful build, for every dy, dx and rf of the (possibly mirrored) grid with dy not 0, the stored inclination lies in [0, 90) and the edge of the disk of the stored radius, inclination and tilt centred on (dx, dy) passes through (-1/2, 0) and (1/2, 0), the two ends of the eclipse; the edge is exactly the circle around (dx, dy) through these points, stretched by the stored fx, fy and sheared by -dx/dy. Where dy = 0 and dx is not 0 all five numbers are NaN.", "quantifier": "all grids of at least two points along each axis reaching to 1 or further, all values and numbers of samples, all points, exact arithmetic", "why_tests_cant": "tests compare arrays with stored arrays; no test intersects a disk of the grid with the line of the eclipse", "anchors": ["Shallot.py:ShallotGrid._build_grid", "Shallot.py:ShallotGrid._interpolate_scale_values", "Shallot.py:ShallotGrid._determine_disk_parameters", "Shallot.py:ShallotGrid._fill_quadrants"]}
{"id": "C75", "title": "At the origin the right half of the rf axis is exact, the left half is not", "statement": "In a grid built in exact arithmetic whose largest dx and dy are at least 1 and whose largest rf exceeds 1, the point dx = dy = 0 holds in the middle of its rf axis the circle of radius 1/2; e places to the right, where rf = q, a disk with fx = 1, fy = q and radius exactly q/2. The left half does not hold disks of radius q/2: there is one number b > 1 such that e places to the left lies a disk of radius 1/2 with fy = (b-q)/(b-1) when q < b, and when b <= q no disk at all (fy = 0 and NaN in every other cube). The expectation that both halves hold the radius rf times the smallest is refuted.", "quantifier": "every grid of finite parameters with at least two points along dx and dy, every nf >= 2, every bracketing search, every built grid, every index of the rf axis", "why_tests_cant": "The tests compare the cubes of one grid with stored arrays and never look at the origin's left half; no finite set of grids shows the exact values for all of them.", "anchors": ["Shallot.py:ShallotGrid._build_grid", "Shallot.py:ShallotGrid._extend_grid_horizontally", "Shallot.py:ShallotGrid._extend_grid_vertically", "Shallot.py:ShallotGrid._interpolate_scale_values"]}
{"id": "C76", "title": "Along the rf axis the radius is rf times the radius in the middle, to within the sampling resolution", "statement": "In a grid built in exact arithmetic whose largest dx and dy are at least 1, at every point with dy /= 0: if m is the radius in the middle of the rf axis, then e places to the left and e places to the right, where rf = q, the radius cube holds a number r with |r - q m| at most twice the resolution sqrt(1/4+dy^2) * max(x1 (1 + (1+|dx/dy|)/(4 dy^2)), y1 (4 dy^2 + 1 + |dx/dy|)) / (nf - 1), where x1, y1 are the largest dx and dy. For fixed point and ranges the resolution tends to 0 as nf grows.", "quantifier": "every grid of finite parameters with at least two points along dx and dy, every nf >= 2, every bracketing search, every built grid, every point off the row dy = 0, every index of the rf axis", "why_tests_cant": "The error depends on the position, the ranges and nf without bound; the tests compare one grid with stored arrays and assert nothing about the meaning of the rf axis.", "anchors": ["Shallot.py:ShallotGrid._build_grid", "Shallot.py:ShallotGrid._extend_grid_horizontally", "Shallot.py:ShallotGrid._extend_grid_vertically", "Shallot.py:ShallotGrid._interpolate_scale_values"]}
{"id": "C77", "title": "The disk in the middle of the rf axis is the smallest disk casting the eclipse, to within the sampling resolution", "statement": "Every disk centred on (dx, dy), dy /= 0, whose edge passes through (-1/2, 0) and (1/2, 0) has as its edge the circle through these points stretched by factors (fx, fy) that the code relates by _determine_fx, and sheared by -dx/dy: the family the code searches is complete. In a grid built in exact arithmetic with largest dx, dy at least 1 and some rf above 1, the radius in the middle of the rf axis at (dx, dy) exceeds the radius of no such disk by more than the resolution of C76. At the origin no such disk is smaller than the stored 1/2.", "quantifier": "every disk of any radius, inclination below 90 degrees and tilt; every grid of finite parameters with at least two points along dx and dy, every nf >= 2, every bracketing search, every built grid, every point off the row dy = 0", "why_tests_cant": "The smallest disk is a minimum over a continuum of disks; a test can only compare with a reference computed the same way.", "anchors": ["Shallot.py:ShallotGrid._build_grid", "Shallot.py:ShallotGrid._extend_grid_horizontally", "Shallot.py:ShallotGrid._extend_grid_vertically", "Shallot.py:ShallotGrid._determine_fx"]}
{"id": "C78", "title": "get_gradients lists every gradient with exactly the requested masks and leaves the combined mask out of the stored data", "statement": "For every reachable grid with gradients, a successful get_gradients(combined, own) returns, gradient by gradient in order, the position, scaled gradient and error (NaN where missing) and the data with NaN exactly where the combined mask (if requested) or the gradient's own mask (if requested) says so; the stored gradients afterwards have NaN under their own masks only. It succeeds iff every scaled gradient is defined, otherwise raises the error of the first that is not.", "quantifier": "all reachable grids, lists of gradients, masks and flags, exact reals and binary64", "why_tests_cant": "depends on arbitrary combinations of masks left by earlier calls and on mutation of the stored arrays by a getter", "anchors": ["Shallot.py:1677-1731", "GridProperty.py:147-168"]}
{"id": "C79", "title": "A failing add_gradients leaves its gradients half measured in the grid", "statement": "If add_gradients raises, the grid is either unchanged or holds all the new gradients at the end of its list, with the old gradient fit kept: those before the failing one are measured and masked, the failing one has no mask and no usable scaled gradient, those after it are unmeasured; if any gradient was to be added, no gradient fit can be determined in that state. Hence the expectation that a failing call changes nothing is false.", "quantifier": "all grids, all array arguments", "why_tests_cant": "the state after an exception depends on which of arbitrarily many gradients fails first", "anchors": ["Shallot.py:1316-1360", "Shallot.py:1385-1449", "Shallot.py:1462-1528"]}
{"id": "C80", "title": "update_gradient_scaling rescales each gradient exactly and agrees with adding under the new values", "statement": "A successful update_gradient_scaling keeps data, position, measurement and error of each gradient, gives it the orbital scale of the new velocity and limb darkening (the old one if neither is given) and the given transmission (the old one if none), re-derives its mask as the values that are NaN or below the new scaled gradient (which is at most 1), and drops the fit. Rescaling freshly added gradients gives the very grid that setting the values first and then adding would give.", "quantifier": "all grids, all numbers of gradients, all values", "why_tests_cant": "an equivalence between two call sequences for every input", "anchors": ["Shallot.py:1590-1674", "GridProperty.py:447-519"]}
{"id": "C81", "title": "Colour maps and limits of built and loaded grids", "statement": "After construction the tilt has the colour map twilight and all other cubes viridis, each with 11 colours and the extrema of its values (ignoring NaN) as limits, no limits if all are NaN; a loaded grid likewise if load had to finish or extend it, else the tilt has viridis too. Hence saving and loading does not preserve the colour map of the tilt.", "quantifier": "all constructions and loads that succeed", "why_tests_cant": "limits are universal statements over the built data; the loss through save and load concerns every saved grid", "anchors": ["Shallot.py:905-922", "Shallot.py:1224-1286", "Shallot.py:215-297", "GridProperty.py:171-217"]}
{"id": "C82", "title": "Grid gradients are the sines of the tangents of the disk's rings", "statement": "For every disk that casts the eclipse, through each point of the star's path (other than the centre) passes a ring with the disk's centre, inclination and tilt, and the gradient computed from the scale factors fx, fy is |sin| of the angle between that ring's tangent (its derivative) and the path of the star. If the tangent is vertical the code divides by zero and stores NaN. Hence each gradient add_gradients stores for a grid of disks is that sine at the position -t/duration, or NaN at a vertical tangent.", "quantifier": "all disks over the reals, all positions, all grids of disks, all gradient lists", "why_tests_cant": "relates the closed formula of the code to derivatives of curves, for a continuum of disks and positions", "anchors": ["Shallot.py:1316-1361", "Shallot.py:1462-1529", "GridProperty.py:447-519"]}
{"id": "C83", "title": "The whole search finds exactly the disks that explain the measured gradients, best first", "statement": "On a grid of disks (every grid built by the constructor from axes reaching at least 1 is one), set_eclipse_parameters, add_gradients, generate_hill_radius_mask, determine_gradient_fit and extract_solutions with valid settings and measurements all succeed; the unmasked points are exactly the points holding a disk that casts the eclipse, is at most as large as the Hill radius and has at each measured time a tangent of sine at least the one required; each extracted solution is such a disk with its chi squared misfit, none twice, in non-decreasing order of misfit, and no better disk is left out. Expecting disks with a vertical tangent to be found too is refuted.", "quantifier": "all built grids, all settings, all lists of measurements, all numbers of solutions asked for, weighted and unweighted fits", "why_tests_cant": "soundness and completeness of a search over every grid and every light curve", "anchors": ["Shallot.py:1316-1529", "Shallot.py:1555-1588", "Shallot.py:1733-1923"]}
{"id": "C84", "title": "Diagnostics kept while a grid is built: what they change and what is found in them", "statement": "Building with keep_diagnostics changes neither the outcome (success or the exception) nor the resulting grid. After building, the diagnostics of a grid that was not mirrored give, at every grid point (i, j), the sampled scale factors and radii of that point: disks casting the eclipse, whose smallest radius is the one stored in the middle of the rf axis; points without disk raise KeyError. In a mirrored grid the lookup at (i, j) gives the samples of (i - 1, j - 1) and raises KeyError in the first row and column. Expecting the samples of the point asked for is refuted.", "quantifier": "all grids the constructor builds of axes reaching at least 1, all grid points, all num_fxfy >= 2; the first part for all number types and any outcome", "why_tests_cant": "the lookup after mirroring is off by one for every grid, and the samples are a continuum of real values", "anchors": ["Shallot.py:925-1004", "Shallot.py:1289-1313", "GridDiagnostics.py:63-165"]}
{"id": "C85", "title": "Texts of validation errors say exactly what was demanded", "statement": "validate.number and validate.array raise exactly when a demand (type, order of the bounds, lower bound, upper bound, number of dimensions, dtype) is not met, and the message is the one of that demand: the name of the argument, the phrase for the violated bound (strict or not) and the bound with four decimals; for arrays both phrases joined by 'and' when entries lie on both sides. same_shape_arrays lists every name with its shape. The printed bound is the bound rounded to nearest. For a number both phrases appear, glued together, exactly when exclusive is set and the number equals both bounds. Expecting that the number refused violates the bound as printed is refuted: 0.00001 is refused with 'must be greater than or equal to 0.0000'. Leaving the text away gives the results of C01-C04.", "quantifier": "all Python values, names, bounds (ints up to 2^53 in absolute value), both flags; all arrays of any size", "why_tests_cant": "the texts range over all names, bounds and shapes; tests assert about thirty of them", "anchors": ["validate.py:39-402", "errors.py:7-69"]}
{"id": "C86", "title": "Texts of errors of rings and ring systems name the first demand not met", "statement": "Ring(...), each of its setters, RingSystem(...), add_ring, remove_ring and replace_ring raise exactly when one of their demands is not met, and the message is that of the first such demand in the documented order (inner radius, outer radius, transmission, inclination, tilt; for placing a ring: index, class, preceding ring, succeeding ring); an error of split_rings' argument leaves the system unchanged and is that of its integer or its array. Expecting the two radii shown in the overlap message to differ is refuted (they can be printed equal), and so is the '>' the message demands (touching rings are accepted). Removing a ring from a system without rings blames an upper_bound the user never gave.", "quantifier": "all Python arguments (ints up to 2^53 in absolute value, inner radius a plain value), all rings, all systems of at most 2^53 rings", "why_tests_cant": "all combinations of failing arguments cannot be tried", "anchors": ["Ring.py:95-216", "RingSystem.py:223-265", "RingSystem.py:358-531", "validate.py:39-176"]}
{"id": "C87", "title": "Texts of errors of grid objects, diagnostics and loading", "statement": "GridParameters(...), GridProperty(...), GridGradient(...), set_mask, set_contrast_parameters, determine_mask and save_diagnostic raise exactly when one of their demands is not met, with the message of the first such demand. A failed load raises LoadError naming what was to be loaded and the directory, and different properties, units or directories give different messages. A missing diagnostic raises KeyError with the internal key: for mirrored diagnostics that is not the index asked for (refuted).", "quantifier": "all Python arguments (ints up to 2^53 in absolute value), all grids and file systems; determine_mask for transmission changes other than zero", "why_tests_cant": "all combinations of failing arguments cannot be tried", "anchors": ["GridParameters.py:103-302", "GridDiagnostics.py:63-230", "GridProperty.py:38-217", "GridProperty.py:311-588", "errors.py:7-69"]}
{"id": "C88", "title": "Scale factors and contact points in binary64", "statement": "With the shear and the other scale factor computed in IEEE binary64, rounding at every operation, the ellipse of a grid point passes through (1/2,0) and (-1/2,0) up to a relative 2^-49 (1+|dx|) of its size. The computed scale factor is a finite number where the exact condition for such an ellipse holds by a relative margin of 2^-49 and NaN where it fails by this margin. Expecting the circle fx = fy = 1, which fits every point, to be kept is refuted: at dy = 0.7 both computed factors are smaller than 1 and at dy = 2^27 the result is NaN.", "quantifier": "all binary64 dx, all binary64 dy and scale factors that are zero (dy) or between 2^-100 and 2^100 in size", "why_tests_cant": "rounding differs at every point; no finite set of floats shows a bound", "anchors": ["Shallot.py:354-491"]}
{"id": "C89", "title": "Accuracy of the disk computed in binary64", "statement": "With elementary functions right up to e (2^-52 <= e <= 10^-6), the disk computed in IEEE binary64 from scale factors, shear and radius consists of three finite numbers; its radius is the largest distance from the centre of a point of the ellipse up to a relative 22 e, and the cosine of its inclination is the ratio of the smallest to the largest distance up to 50 e. The radius of the circle is sqrt(1/4+dy^2) up to a relative 2e. Correctly rounded functions are right up to 2^-51.", "quantifier": "all binary64 scale factors and radii between 2^-100 and 2^100, shears zero or of such size, all accurate elementary functions", "why_tests_cant": "the error has to be followed through twenty operations and two angles for all inputs", "anchors": ["Shallot.py:354-359", "Shallot.py:494-663"]}
{"id": "C90", "title": "Texts of grid objects show their numbers; labels name the axes", "statement": "The text of diagnostics shows how many points are saved; that of parameters the first and last value and the length of each axis and the shape; that of a property its name, unit, colour limits, mean, median and, with a mask, the share of masked points up to a relative 2^-51 before rounding to four decimals; that of a gradient also its position and measurement; that of a grid the texts of its parts, the share of points masked by any mask and the largest size of a deviation of the interpolation. Each number stands on its own line after its own label, rounded to nearest with ties to even. The texts of changes of a ring system say Before or After, the action, and the text of the system. The labels of a picture are the names of the axes whose ends are its extent, the title names the third. Expecting 'min value' to be a value of the map, or 100.0000% to mean all points, is refuted.", "quantifier": "all diagnostics, parameters, properties, gradients and grids reachable by any calls in binary64, all functions for mean and median, all ring systems and one-line actions, all axes", "why_tests_cant": "the texts depend on unboundedly many states and on the rounding of every number", "anchors": ["GridDiagnostics.py:44-60", "GridParameters.py:70-100", "GridProperty.py:96-130", "GridProperty.py:404-431", "GridProperty.py:652-654", "GridProperty.py:729-770", "Shallot.py:130-172", "RingSystem.py:188-221"]}
{"id": "C91", "title": "Axes of a grid in binary64", "statement": "The vectors dx, dy and rf computed in IEEE binary64 by np.linspace are finite, run in (weakly) increasing order from the lower to the upper limit, stay between them, and each point is at its equally spaced place up to a relative 2^-49 of the larger limit. A grid of at least two points per axis starting at 0 can be extended, and its axes are then the mirror images of the old ones up to a relative 2^-48 of the upper limit. Expecting strictly increasing axes is refuted by four points from 1 to the next number; expecting increasing ones at all by eight points from 0 to 11 * 2^-1074; expecting numbers by limits -2^1023 and 2^1023.", "quantifier": "all accepted arguments with limits up to 2^1000 in size and at least 2^-900 apart, up to 2^50 points per axis (2^48 for extension)", "why_tests_cant": "rounding differs for every limit and count; tests use a few grids", "anchors": ["GridParameters.py:103-196", "GridParameters.py:217-232"]}
{"id": "C92", "title": "Gradients in binary64", "statement": "With elementary functions right up to e that give NaN for NaN, the gradient of a grid point computed in IEEE binary64 is the exact one up to 5e plus 2^-47 times the ratio of the terms that cancel to the length of the tangent direction; this holds for a given shear and for the shear computed from the grid point. It is NaN only where the tangent is upright up to 2^-48 of these terms. On the vertical axis the ratio is at most 2. Where the exact gradient is NaN (upright tangent), the computed one is NaN or 1 up to the same bound; expecting NaN there is refuted by a grid point at which rounding leaves a denominator of -2^k instead of 0.", "quantifier": "all positions, centres and scale factors that are 0 or between 2^-50 and 2^50 in size, all shears up to 2^101, all elementary functions right up to e <= 10^-6", "why_tests_cant": "the rounding error depends on cancellation between four terms, which varies over the grid; tests compare a few points", "anchors": ["Shallot.py:1341-1360", "Shallot.py:362-390"]}
{"id": "C93", "title": "Edges of the disks in binary64", "statement": "With elementary functions right up to e, the edge of the disk computed in IEEE binary64 (radius, inclination and tilt together) and the sheared ellipse it stands for are nowhere further apart than 525 e R^2/m, with R and m the largest and smallest distance of the ellipse from its centre. The edge of the disk stored for a grid point passes the ends of the eclipse, (-1/2,0) and (1/2,0), within 528 e R^2/m plus 2^-48 (1+|dx|) R; this holds for the disks of a grid that is not mirrored and, with 552 e R^2/m plus 2^-48 ((1+|dx|) R + x1 + y1), for those of a mirrored grid around the points of its own axes. Expecting a bound without R/m is refuted: the disk of an ellipse 2 wide and 2^-69 high stands upright, because the tilt is read off the smaller axis.", "quantifier": "all ellipses with scale factors, shears and radii of ordinary size (2^-100 to 2^100, shear possibly 0), all grids the constructor builds, all elementary functions right up to e between 2^-52 and 10^-6", "why_tests_cant": "the distance between two curves is a statement about all their points, and the error of the tilt depends on the ratio of the axes; tests compare single numbers of a few disks", "anchors": ["Shallot.py:ShallotGrid._determine_disk_parameters", "Shallot.py:ShallotGrid._calculate_vertex_and_covertex_angles", "Shallot.py:ShallotGrid._calculate_xy_from_parameteric_angle", "Shallot.py:ShallotGrid._fill_quadrants"]}
{"id": "C94", "title": "Texts of the exceptions of grids and viewers", "statement": "Every call on a built grid (the seven getters, the Hill radius mask, adding, removing and rescaling gradients, setting eclipse parameters, reading gradients, extracting solutions, data of one grid point, the closest grid point, save, the attributes read by load, mirroring) and the constructors of ShallotGrid and of the property viewer raise an exception with a text of the program exactly when one of the documented checks fails, and it is the exception and the text of the first one that fails, with the names, bounds, lengths and shapes written into it; when all pass the call returns or Python itself raises. Adding gradients before the eclipse parameters are set says nothing and changes nothing. Dropping the texts gives the model of the calls used everywhere else. Expecting a wrong property_masked to be named in its text is refuted: both masks are called masked.", "quantifier": "all grids after any calls, all arguments (integers within 2^53), all elementary functions", "why_tests_cant": "the order of some fifty checks in a call and in the calls it makes is observable only when several arguments are wrong at once; tests provoke one error at a time and do not compare the texts", "anchors": ["Shallot.py:ShallotGrid.__init__", "Shallot.py:ShallotGrid.add_gradients", "Shallot.py:ShallotGrid.update_gradient_scaling", "Shallot.py:ShallotGrid.get_grid_point_data", "Shallot.py:ShallotGrid.determine_closest_grid_point", "Shallot.py:ShallotGrid.extract_solutions", "Shallot.py:ShallotGrid.save", "Shallot.py:ShallotGrid._load_grid_attributes", "GridProperty.py:GridPropertyViewer.__init__"]}
{"id": "C95", "title": "Logs of ring systems", "statement": "A successful add_ring, remove_ring, replace_ring, split_rings or merge_rings writes exactly the documented records in order: one per attribute of the ring that is really overridden (inclination, then tilt, old and new value), one at level DEBUG with the whole text of the system before and after, and one at level INFO with the index or the numbers of rings before and after. A call that raises logs nothing. In any history of calls on several systems that may share ring objects, the DEBUG records of each system lead from what it was to what it is without a gap, and the console shows all records, those of level INFO, or none, by the logging level. Dropping the log gives the model of the calls used everywhere else. Expecting the logged index to be a numeral is refuted: True is logged as True.", "quantifier": "all systems and shared ring objects, all histories of calls with any arguments, all logging levels", "why_tests_cant": "a log that misses a change made through a shared ring object, or that reports an override that did not happen, raises nothing and changes no result; tests do not read the console", "anchors": ["RingSystem.py:RingSystem._set_logger", "RingSystem.py:RingSystem._override_ring_geometry", "RingSystem.py:RingSystem.add_ring", "RingSystem.py:RingSystem.remove_ring", "RingSystem.py:RingSystem.replace_ring", "RingSystem.py:RingSystem.split_rings", "RingSystem.py:RingSystem.merge_rings", "RingSystem.py:RingSystem._print_changes"]}
{"id": "C96", "title": "Logs of grids", "statement": "A call on a grid that loses the gradient fit logs once that it has been cleared, and no other call does; the same holds for gradients dropped with the eclipse parameters. In any history each clearing is matched by an earlier determination. A call that does nothing (no eclipse parameters, no gradients, no fit, no changes) says so exactly then, leaves the grid as it is and raises nothing. add_gradients and determine_gradient_fit log the number of gradients, extract_solutions the numbers of solutions returned and unmasked, determine_closest_grid_point the values of the point that is returned, the construction and resumption of a grid one record per row built and at the end the greatest deviation. Calls that raise log at most what they were going to do; calls that read are silent; all records are of level INFO. Dropping the log gives the model of the calls used everywhere else. Two expectations are refuted: that the logged impact parameter is that of the returned point, and that announced gradients are added.", "quantifier": "all grids and reachable histories, all arguments, any number format, all logging levels", "why_tests_cant": "a fit that disappears without a record, or a record about the wrong grid point, changes no result and raises nothing; tests do not read the console, and the order of calls that lead to a lost fit is unbounded", "anchors": ["Shallot.py:ShallotGrid._set_logger", "Shallot.py:ShallotGrid._reset_gradient_fit", "Shallot.py:ShallotGrid.add_gradients", "Shallot.py:ShallotGrid.remove_gradients", "Shallot.py:ShallotGrid.set_eclipse_parameters", "Shallot.py:ShallotGrid.update_gradient_scaling", "Shallot.py:ShallotGrid.determine_gradient_fit", "Shallot.py:ShallotGrid.get_gradient_fit", "Shallot.py:ShallotGrid.extract_solutions", "Shallot.py:ShallotGrid.determine_closest_grid_point", "Shallot.py:ShallotGrid._build_grid", "Shallot.py:ShallotGrid.diagnose_fxfy_resolution"]}
{"id": "C97", "title": "Gradient fits in binary64", "statement": "With elementary functions accurate to 2^-51, the scale of the light curve gradients computed in binary64 for a limb darkening in [0, 1] and a velocity between 2^-500 and 2^500 exists and differs from (6-2u)/(12-12u+3 pi u) pi/v by at most 21 roundings, and the scaled gradient of each gradient that add_gradients appends from |m| scale / transmission change by at most 24. Where gradients, scaled gradients and errors are neither tiny nor huge, the fit of n gradients at a grid point, weighted or not, is finite, unmasked and within n+5 roundings of the sum of the squared misfits in real numbers; it is zero exactly where all gradients are matched exactly; fits that differ by more than the roundings are compared rightly; and the solutions that extract_solutions returns are, up to 2(n+5) roundings, the points of least true fit in ascending order. Two expectations are refuted: that a point matching a measurement exactly takes part in the fit (with a measured error of zero it is masked), and, for tiny measurements, that a fit of zero is an exact match (the square underflows).", "quantifier": "all reachable binary64 grids, all gradients and eclipse parameters in the stated ranges, all grid points, any number of gradients up to 2^50, any number of solutions asked for", "why_tests_cant": "the bound holds for every rounding of every operation over sums of any length; tests compare a few values with a tolerance and do not say which order of solutions the roundings may change", "anchors": ["Shallot.py:ShallotGrid._determine_orbital_scale", "Shallot.py:ShallotGrid.add_gradients", "Shallot.py:ShallotGrid.determine_gradient_fit", "Shallot.py:ShallotGrid.extract_solutions", "GridProperty.py:GridGradient.get_scaled_gradient", "GridProperty.py:GridGradient.determine_mask"]}
{"id": "C98", "title": "How far the closest grid point is from the closest", "statement": "Where the rows of the grid are equally spaced in binary64 and the numbers involved are neither tiny nor huge, the point that determine_closest_grid_point returns is, up to eight roundings, no further from the disk asked for than any other grid point in a row clearly on the side of the impact parameter, plus two steps between rows: the row coordinates the method uses are off by up to one step. The distance returned differs from the true distance of the returned point by at most four roundings and one step, where that point is in such a row; elsewhere it is never too small by more. That the bound holds for every point not on the other side of the star is refuted: for a positive impact parameter rows on the axis are passed over, however close.", "quantifier": "all reachable binary64 grids with equally spaced rows (2 to 2^20 of them), all arguments and all pairs of grid points in the stated ranges, masked or not", "why_tests_cant": "the bound covers every rounding of the row coordinates and distances and compares the returned point with every other point of grids of any size; tests check that a point comes back for one or two grids", "anchors": ["Shallot.py:ShallotGrid.determine_closest_grid_point"]}
{"id": "C99", "title": "Assigning to the rings of a system (violated expectation)", "statement": "A RingSystem holds the caller's Ring objects, whose attributes can still be assigned. In every history of calls and assignments each Ring object without NaN keeps all attributes in their documented ranges. The rings stay ordered in histories whose assignments only narrow rings; a single accepted assignment keeps the order exactly if the ring still fits between its neighbours. Nothing checks this: that the rings stay ordered under accepted assignments, and that they keep the inclination and tilt of their system, is refuted. A successful split_rings or merge_rings brings all rings back to the inclination and tilt of the system.", "quantifier": "all systems, all ring objects, all histories of calls and assignments of any values", "why_tests_cant": "aliasing: the assignment happens outside the class under test, so tests of RingSystem never make it; the histories are unbounded", "anchors": ["RingSystem.py:RingSystem._set_rings", "RingSystem.py:RingSystem.add_ring", "RingSystem.py:RingSystem.replace_ring", "RingSystem.py:RingSystem.split_rings", "RingSystem.py:RingSystem.merge_rings", "Ring.py:Ring.inner_radius", "Ring.py:Ring.outer_radius", "Ring.py:Ring.inclination", "Ring.py:Ring.tilt"]}
{"id": "C100", "title": "What is drawn of a ring system (violated expectation)", "statement": "RingSystem._get_patches succeeds exactly for numeric shifts and a string colour, TypeError otherwise, and returns the planet's disk followed by one patch per ring in order, all at the given shift, with opacity 1 - transmission and the given colour. plot appends these to the patches the axes hold and sets labels and limits; with rings present it fails only with a TypeError and leaves the axes alone. Without rings it has already drawn the planet and set the labels when it raises IndexError, so that a failed plot leaves the axes alone is refuted. In exact arithmetic, for ordered rings, the window shows every outline from side to side and down to its bottom, and up to its top if y_shift <= x_shift + 2; that it always shows the top is refuted. The planet is shown from side to side exactly if its radius is at most 2 more than the outer radius of the last ring; that this is always so is refuted.", "quantifier": "all ring systems, all argument values, all contents of the axes, all points of all outlines", "why_tests_cant": "images are not compared by tests, and the points of the outlines are a continuum", "anchors": ["RingSystem.py:RingSystem._get_patches", "RingSystem.py:RingSystem.plot", "Ring.py:Ring.get_patch"]}
{"id": "C101", "title": "Inclination of a disk in binary64", "statement": "With elementary functions right up to e (2^-52 <= e <= 10^-6), the inclination computed in IEEE binary64 lies between 0 and 90 degrees up to 5 e. Compared with the angle whose cosine is the ratio of the smallest to the largest distance of the ellipse from its centre, its error is at most 21 sqrt(e), and its error times that angle at most 420 e (radians). The same holds of every inclination stored in a grid, in a mirrored grid with the ellipse of the quadrant it was built from. Expecting an error of the order of e for every ellipse is refuted: with a cosine of 0 that is 2^-21 too small a circle gets an inclination of more than 600 e.", "quantifier": "all binary64 scale factors and radii between 2^-100 and 2^100, shears zero or of such size, all accurate elementary functions", "why_tests_cant": "the loss of accuracy is confined to nearly circular ellipses, which sampled grid points hardly meet", "anchors": ["Shallot.py:ShallotGrid._determine_disk_parameters"]}
{"id": "C102", "title": "Tilt of a disk in binary64", "statement": "With elementary functions right up to e (2^-52 <= e <= 10^-6), the tilt computed in IEEE binary64 points along the longest axis of the ellipse: the ends of that axis are at most 130 e R^4 / (m (R^2 - m^2)) away from the line through the centre in the direction of the tilt, R and m the largest and the smallest distance of the ellipse from its centre. The tilts stored in a grid, plain or mirrored, do so up to 142 instead of 130, in two quadrants for the mirrored ellipse. Neither factor can be left out: without R/m it is refuted by an ellipse 2 wide and 2^-69 high, without R^2/(R^2 - m^2) by a circle.", "quantifier": "all binary64 scale factors and radii between 2^-100 and 2^100, shears zero or of such size, all accurate elementary functions, all cells of all grids built", "why_tests_cant": "the error grows without bound towards circles and towards flat ellipses, far from the sampled ones", "anchors": ["Shallot.py:ShallotGrid._determine_disk_parameters", "Shallot.py:ShallotGrid._calculate_vertex_and_covertex_angle", "Shallot.py:ShallotGrid._fill_quadrants"]}
{"id": "C103", "title": "Radii of grids and the Hill mask in binary64", "statement": "With elementary functions right up to e (2^-52 <= e <= 10^-6), every radius stored in a grid built in IEEE binary64, plain or mirrored, is the largest distance from its centre of the ellipse with the stored scale factors, up to a relative 22 e. Hence generate_hill_radius_mask with a Hill radius h leaves every point whose ellipse is at most h/(1 + 22 e) large unmasked and masks every point whose ellipse is larger than h/(1 - 22 e).", "quantifier": "all grids, all cells with scale factors between 2^-100 and 2^100, all Hill radii, all accurate elementary functions", "why_tests_cant": "the points at stake lie within rounding of the Hill radius", "anchors": ["Shallot.py:ShallotGrid._build_grid", "Shallot.py:ShallotGrid.generate_hill_radius_mask"]}
{"id": "C104", "title": "Outlines of rings in binary64", "statement": "With elementary functions and vertices of the unit circle right up to e (2^-52 <= e <= 10^-6), every vertex that get_patch computes in IEEE binary64 for a ring is finite and in both coordinates within 29 e (outer radius + |x shift| + |y shift|) + 2^-1000 of the point of the ring's outer or inner ellipse; control points likewise. Two rings of the same inclination and tilt that touch have the same edge bit by bit: no gap or overlap is drawn between them.", "quantifier": "all rings with radii up to 2^200, all inclinations and tilts, all shifts up to 2^200, all lists of vertices, all accurate elementary functions (the shared edge: all rings and functions)", "why_tests_cant": "needs an error analysis of every rounding for all rings; tests compare a few vertices with a tolerance", "anchors": ["Ring.py:Ring.get_patch"]}
{"id": "C105", "title": "Splitting and merging rings in binary64", "statement": "For a usable ring system whose rings are cut into pieces no narrower than 16 half ulps of the ring's outer radius (+2^-990), split_rings computed in IEEE binary64 succeeds and replaces every ring by exactly as many ringlets as asked, with its transmission; each has inner < outer, the first begins exactly at the ring's inner radius, and all radii are those of equal pieces within 8 half ulps of the outer radius (+2^-1000). merge_rings with a tolerance above 14 half ulps of the outer radii then gives every ring back when neighbouring rings differ in transmission: inner radius and transmission exactly, outer radius within 8 half ulps.", "quantifier": "all ring systems in binary64 with outer radii up to 2^1000, all valid numbers of divisions, all tolerances above the bound", "why_tests_cant": "needs an error analysis of every rounding for all radii and numbers of divisions, and the chain of comparisons made while merging; tests look at a few round numbers", "anchors": ["RingSystem.py:RingSystem.split_rings", "RingSystem.py:RingSystem.merge_rings"]}
{"id": "C106", "title": "Merging rings in several steps", "statement": "For an ordered system of valid rings with transmissions that are numbers and positive tolerances t1 <= t2: merging with t1 and then t2 leaves exactly the rings (bit by bit in binary64) that merging with t2 leaves at once; merging with t1 after t2 changes nothing; a larger tolerance leaves no more rings; and no two neighbouring rings that are left could be merged under the same tolerance. Over the reals merging n rings widens what they cover by at most n - 1 times the tolerance; the expectation that it widens it by at most the tolerance is false.", "quantifier": "all ordered ring systems, all pairs of positive tolerances, over the reals and in IEEE binary64", "why_tests_cant": "relates three different runs over every list of rings, including the rounding of every difference of radii; tests run one merge on one system", "anchors": ["RingSystem.py:RingSystem.merge_rings"]}
{"id": "C107", "title": "Splitting rings in two steps (violated expectation)", "statement": "In exact arithmetic, splitting every ring of a usable system in m and then every ringlet in n leaves exactly the rings that splitting in m n leaves at once. In IEEE binary64 this is false: the ring from 1 to 2 split in 3 and then 2 has a first ringlet that ends before the one of the ring split in 6.", "quantifier": "all ring systems and all m, n >= 2 over the reals; a witness in binary64", "why_tests_cant": "relates three runs for every system and every pair of divisions; a test of a few round numbers may or may not meet the rounding", "anchors": ["RingSystem.py:RingSystem.split_rings"]}
