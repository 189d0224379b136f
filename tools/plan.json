{
"C01": "Validate.v models number/_number_type/_number_bounds branch by branch over pyval; proved by case analysis for every Num with NumLaws, and linked to real comparison through val.",
"C02": "Same model; universally quantified acceptance of NaN, refutation of the naive statement by a witness.",
"C03": "array/_array_bounds/_array_dimensions/_array_type over ndarray values with arbitrary shape and entries; list induction for the any() scan.",
"C04": "same_shape_arrays over lists of pyval; list induction.",
"C05": "Ring.v models the five setters and the constructor; invariant by induction over the list of setter calls.",
"C06": "Frame lemmas for each setter.",
"C07": "Universally quantified acceptance of NaN, and the converse (no NaN implies ranges).",
"C08": "get_patch vertex map over R with the true sin/cos; the ellipse is specified by its quadratic equation; orientation by the signed area of (v, v') pairs.",
"C09": "RingSystem.v: list of ring references on a heap; induction over operation sequences.",
"C10": "Exact characterisation of each operation as firstn/skipn edits.",
"C11": "State equality on every error branch (state-passing model).",
"C12": "Constructor loop by induction.",
"C13": "split loops by induction, exact arithmetic instance XR.",
"C14": "vm_compute witness on F64 and generic count/transmission theorems.",
"C15": "merge loop invariant; the transmission profile is a separate function of radius.",
"C16": "Normal-form argument on merge for split lists.",
"C17": "Case analysis.",
"C18": "Heap model; ownership invariant by induction over histories; two-system witness.",
"C19": "Arithmetic of the limits.",
"C20": "linspace model; list lemmas; XR for spacing.",
"C21": "as C20.",
"C22": "State-passing model of extend_grid.",
"C23": "F64 witness by vm_compute.",
"C24": "File system map; four files; frame.",
"C25": "Dictionary keyed by the pair of printed indices; histories by induction.",
"C26": "Key arithmetic.",
"C27": "FS model with pickled dictionaries.",
"C28": "Pointwise on cubes.",
"C29": "History induction on reads/mask updates.",
"C30": "Invariant by induction over histories.",
"C31": "nanmin/nanmax folds.",
"C32": "Pointwise, generic Num.",
"C33": "State-passing model.",
"C34": "FS model.",
"C35": "Real algebra (field/nra) on the code's formulas over R.",
"C36": "Real trigonometry: closed form of squared distance.",
"C37": "Index arithmetic on cubes; real trigonometry for the symmetry.",
"C38": "Implicit differentiation over R (derivable_pt_lim) and the algebra of the code's formula.",
"C39": "Real inequalities.",
"C40": "Fuel bound on the while loops: with fuel past 100 max the result never is OutOfFuel and does not depend on the fuel, for generic numeric functions; success by real inequalities on the sampled radii.",
"C41": "Inversion of grid_point, contracts of nanargmin and np.interp's search; binary64 lemma x/x = 1.",
"C42": "Column-by-column induction on the build loop; real-number positivity of the sampled radii.",
"C43": "List induction over gradients.",
"C44": "Histories.",
"C45": "List lemmas on add/remove.",
"C46": "as C45 with duplicates.",
"C47": "State machine of the Shallot object, invariant over histories.",
"C48": "Pointwise fold.",
"C49": "argmin/argsort model, selection lemmas.",
"C50": "as C49, two calls.",
"C51": "argmin over computed distances; witness.",
"C52": "Index bounds.",
"C53": "Histories of getters.",
"C54": "State-passing model, failure points.",
"C55": "FS model of save/load.",
"C56": "String model of the directory name and splitext.",
"C57": "State-passing model.",
"C58": "Crash at every prefix of the write sequence.",
"C59": "FS model.",
"C60": "Event-sequence induction.",
"C61": "Event-sequence induction.",
"C62": "String computation over the finite enumerations.",
"C63": "Crash semantics of step lists: any prefix, last write possibly torn; the last file is the commit point.",
"C64": "FS model: what each file holds after the step list, then load branch by branch.",
"C65": "FS model: files a save does not touch.",
"C66": "Crash semantics; commit point for properties, all three outcomes for gradients.",
"C67": "Exact characterisation of the constructor; consequences of get_data (C29).",
"C68": "Viewer state machine of C60 with the title function; extent and ticks computed from the spacing theorem C20; real arithmetic for pixels.",
"C69": "Exact characterisation over the reals and a witness grid for the refutation.",
"C70": "Exact integer arithmetic on mantissa and exponent (Fmt.v), an independent reader of decimal texts and nearest_even over the reals (SpecFmt.v).",
"C71": "Frame lemma for the steps of save_gradient, C70 for the names, binary64 witnesses 2^-20 and 2^-21 for the refutations.",
"C72": "Texts as results (Text.v); an invariant on limits and stored numbers over all calls; witnesses for each refutation.",
"C73": "The text is split into lines and words again and each number read back (SpecText.v).",
"C74": "An invariant of the search and the interpolation keeps every fy where fx exists (ColumnP.v); an ellipse is the edge of the disk with its largest and smallest distances (EdgeP.v); mirror images; all points of the cubes (WholeP.v).",
"C75": "Follow the rounds of the two extension loops at dy = 0 with an invariant giving every sample, locate the interpolation bracket on each side of the smallest sample, and lift to the cubes through the mirror image of the point.",
"C76": "The radius is Lipschitz in the scale factors and the scale factors in each other (LipP.v); an invariant of both loops keeps neighbouring samples close, so that the chord of the interpolation cannot stray (ErrorP.v); lift to the cubes through mirror images (WholeEP.v).",
"C77": "Write the edge as a quadratic form; the two contact points fix the shear and relate the scale factors (FamilyP.v). The radius has a single minimum along the family because its square is a largest value of convex functions (LipP.v); inside the sampled range neighbouring samples are close, outside it the radius is at least that of the last sample (ErrorP.v).",
"C78": "Loop lemma over the gradients.",
"C79": "Loop lemma for the first failure; refutation by a computed grid.",
"C80": "determine_mask characterised by an iff; composition of loops.",
"C81": "Case analysis of the build, extension and load.",
"C82": "Ellipse of the cast disk as a quadratic form of fx and fy; tangent as derivative of the parametrised ring; sign and uniqueness of the direction.",
"C83": "Composition of the characterisations of each operation; C76 for built grids; C82 for the gradients.",
"C84": "Invariant of the building loops on what is stored; erasure of the diagnostics commutes with every step; C76 for the samples.",
"C85": "Texts as values of the model's exceptions; erasing them commutes with every function; a check that passes or complains, and the first failing check of a sequence.",
"C86": "First failing check of a list, composed along the calls.",
"C87": "First failing check of a list, as in C86; the texts of names and units are pairwise different.",
"C88": "Relative error calculus over Flocq's rounding theorems; the residual of the equation of the ellipse.",
"C89": "Errors of the angle of the vertex as of second order in the distance; absolute errors relative to the largest distance.",
"C90": "Lines and words of joined texts; the format theorems of C70; the union of masks of C43.",
"C91": "Monotonicity of rounding; relative errors of the step and of each multiple; exact slack of the last step.",
"C92": "Relative error of each term; sums of binary64 numbers are 0 or not tiny; the direction of a vector moves by at most twice its relative change.",
"C93": "Forward error of the vertex, of the tilt read off it and of the inclination give the error of the parametrised edge; axes of mirrored grids are mirror images up to 2^-48, tilts are reflected with one rounding.",
"C94": "Model with texts beside the plain one, the two related by dropping the texts; each call heeds its list of checks, composed call by call.",
"C95": "Model with records beside the plain one, the two related by dropping them; each call's log is computed, and the debug records chain through any history because no call changes what the text shows of a ring object that exists.",
"C96": "State, result and log threaded together beside the plain model; the records of each call are computed case by case, and losing the fit is compared with them, then summed over histories.",
"C97": "FitF64P bounds the roundings of the scale, of a term and of a sum; FitGridP carries them to grids and solutions; FitExP gives the example and refutations",
"C98": "ClosestF64P bounds the roundings of the distance and the row coordinate and uses C51_least; ClosestExP gives the example and the refutation on a concrete grid",
"C99": "histories of calls and assignments over a heap of Ring objects; ring invariant of C05 on the whole heap, order by monotonicity, witnesses in binary64 (AssignP)",
"C100": "drawing as data (RingDraw); arguments by cases, bounding box of a tilted ellipse, widest ring by the order of the rings, witnesses in exact arithmetic (RingDrawP)",
"C101": "range of the computed inclination by rounding of the quotient and the error of acos; angle from the difference of the cosines; circle with a cosine in error computed in the kernel (InclF64P, InclExP)",
"C102": "the end of the longest axis as a combination of the two nearly conjugate radii whose angles were computed; the coefficient of the shorter one is small by the excess of R^2 over its square; reflected cells by the identity of the built quadrant (TiltF64P, TiltGridP, TiltExP)",
"C103": "cells of the built quadrant and of its reflections as disks of their own scale factors, accuracy of the disk, exactness of the mask on the stored numbers (HillF64P, HillExP)",
"C104": "absolute error of each product relative to the radius, degrees to radians, sums and shift (PatchF64P); signs of products are exact in binary64 (PatchExP)",
"C105": "radii of ringlets as rounded sums and products (SplitF64P); ringlets are good rings and consecutive ones are linked below the tolerance, so the loop of merging joins exactly the pieces of a ring (SplitSysP)",
"C106": "the loop of merging run on its own result: induction on the rings with the running ring generalised (MergeStepP); rings of the result are valid, so the second call succeeds",
"C107": "ringlet j of ringlet k of m is ringlet k n + j of m n; the indices below m n listed row by row (SplitStepP); the witness is computed"
}