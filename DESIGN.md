# Design of the formal model of beyonce

The code under study is the Python package in `/repo` (dmvandam/beyonce):
rings around an occulting body and the "Shallot" explorer, a three
dimensional grid (dy, dx, rf) of ellipses compatible with an eclipse.

## What is modelled, and how

* **Numbers.**  Every model definition is generic over a class `Num T`
  (`Num.v`) of numeric operations with IEEE style comparisons (false on NaN).
  Two instances are given:
  * `F64`: IEEE-754 binary64 with round-to-nearest-even, Flocq's
    `binary_float 53 1024` (executable; used for witnesses and for the theorems
    about rounding);
  * `XR`: real numbers extended with NaN and the two infinities ("exact
    arithmetic"); there is one zero only, so `x/0` is the signed infinity of x.
    The sign of zero is visible only through division by zero, atan2 and the
    formatting of numbers; where that matters the theorem says so.

  Comparison-only theorems are proved once for all instances of the law class
  `NumLaws` (an embedding `val : T -> XR` through which every comparison factors),
  which both instances satisfy.  Elementary functions (sin, cos, atan2, arccos, ...)
  are an argument `Libm T`: theorems on floats hold for *every* libm.
* **Python.**  Arguments of unknown type are values of `pyval` (bool, int, numpy
  ints/floats, str, None, ndarray, list, other object); exceptions are values
  (`Err ValueError` ...).  A method that can mutate its object before raising is a
  function `state -> state * res A`, so a failing call still has a state.
* **Objects.**  Ring objects live on a heap (aliasing is observable in this code).
* **Arrays.**  numpy arrays are a shape together with the C-order list of entries.
* **Files.**  The file system is a finite map from path strings to files or
  directories.  `np.save`, `os.mkdir`, `shutil.rmtree` are single atomic steps; the
  crash theorems quantify over every prefix of the step sequence.

## Which code is modelled where

| model file | code |
|---|---|
| `Py.v` | Python values, exceptions, `errors.py` |
| `Validate.v` | `validate.py` |
| `Ring.v`, `RingSystem.v`, `RingDraw.v` | `Ring.py`, `RingSystem.py` |
| `FS.v` | os / shutil / np.save / np.load, as far as used |
| `GridParams.v`, `GridDiag.v` | `GridParameters.py`, `GridDiagnostics.py` |
| `Names.v` | `GridPropertyName.py`, `GridPropertyUnit.py` |
| `GridProp.v` | `GridProperty.py:19-588` (GridProperty, GridGradient) |
| `Viewer.v`, `ViewerDraw.v` | `GridProperty.py:590-856` and the plot methods 218-285 |
| `Geometry.v` | the formulas of `Shallot.py`, at one grid point |
| `Build.v`, `Shallot.v` | `Shallot.py`: constructor, build loop, quadrants, save, load, resume |
| `ShallotOps.v` | `Shallot.py`: all methods of a finished grid |
| `Fmt.v`, `Text.v` | the formatting of floats and every `__str__` / `__repr__` |
| `Message.v` | the texts of the exceptions of `errors.py`, `validate.py`, rings, ring systems, grid parameters, diagnostics and properties |

Every function of these files has a counterpart.  `TestsP.v` and `TestsMsgP.v` evaluate the assertions of the
repository's test files in the binary64 instance of the model: this is the check that the
model agrees with the code, short of running it.

The build is parametrised by a record `env`: the elementary functions, the interval search of
`np.interp` (any search meeting its contract), the formatting `{:.4f}` of positions, and the
fuel of the `while` loops (`OutOfFuel` is an outcome of its own, never success).  Theorems are
stated for every `env`; those which need Python's formatting set it to `fmt_fixed 4` (`Fmt.v`),
which is exact.  `AddLaws` collects the few facts on sums and quotients that hold for both
number instances.

## Specifications

`SpecNum`, `SpecRing`, `SpecGrid`, `SpecProp`, `SpecViewer`, `SpecGeom`, `SpecBuild`, `SpecOps`,
`SpecSave`, `SpecResume`, `SpecFmt`, `SpecText`, `SpecError`, `SpecSearch`, `SpecMsg`, `SpecMsgGrid`, `SpecMsgOps`, `SpecLog`, `SpecLogOps`, `SpecF64`, `SpecShow`, `SpecAxis`, `SpecGrad`, `SpecEdge`, `SpecFit`, `SpecClosest`, `SpecAssign`, `SpecDraw`, `SpecTilt`, `SpecPatch`, `SpecSplit`, `SpecMerge`: the vocabulary of the statements.  Sets of
states are inductive: `reachable` (grid parameters), `preach` (properties after any calls),
`greach` and `measured` (gradients after any calls / after successful measurements), `vreach`
(viewers), `sreach` (grids: the constructor followed by any calls, failed ones included).

An expectation that the code violates is treated in two parts: an exact characterisation of what
happens, and a theorem `..._refuted` that the expectation is false, with a concrete witness.

## Not modelled

matplotlib drawing (only the numbers and texts handed to it are), `tqdm`, the names of loggers
and the times of their records, the texts of exceptions raised by Python and numpy themselves, numpy float16/32/128 arithmetic (values of these types are accepted by validation and
treated as binary64), numpy integer overflow, Python ints beyond the float range (where stated in
the model file), pickling, concurrent processes other than crash interleavings, memory and time.
Paths are compared literally: the current directory written in another way, links and `..` are
different paths.  Simplifications of a single function are stated in the comment above it.

## Layout of `rocq/theories`

Model files (definitions only, each citing file:lines of /repo), `Spec*.v` (specification
vocabulary), `*P.v` proof files (`*ExP.v`: concrete witnesses), `Props*.v` (theorem statements
closed by `exact lemma`, with an `Example` beside each and `Print Assumptions` beneath).
`seeded/LOG.jsonl` records wrong programs against which the theorems were tried.
How to read it: each edit was made in a copy, which was rebuilt with `make -k`.  `failed_lemmas` are the
proofs Coq rejected (the first of each file; it stops there).  `failed_theorems` was not observed one by one:
it lists the property theorems that use one of those lemmas, found by following references through the unedited sources.
So it is approximate both ways: it may name theorems that remain true of the wrong program, and miss ones
resting only on lemmas after the first rejected one of a file.  A rejected proof
shows that the proof broke, not by itself that the claim is false.  The claim an edit was meant to break is in
`claim`.  `survived` means the whole copy built; `tightened` names what was added then.

## Trusted base

* The Coq 8.16.1 kernel (including its `vm_compute` machine).
* Axioms, as printed by `Print Assumptions` for each theorem of `Props*.v` (the list is
  kept below): only those of the standard library's classical real numbers
  (`ClassicalDedekindReals.sig_forall_dec`, `ClassicalDedekindReals.sig_not_dec`,
  `FunctionalExtensionality.functional_extensionality_dep`, and `Classical_Prop.classic`
  where Flocq's proofs use it).  No axiom is added by this development.
* Theorems on the accuracy of results in binary64 suppose elementary functions that are right up to a stated error
  (`accurate`, `SpecF64.v`); nothing is claimed about any particular libm.
* The correspondence between the Python source and the model, by reading.
  numpy functions are modelled by their documented behaviour (linspace, interp, argmin,
  argsort, nanmin, nanmax, nan comparisons, np.save/np.load round trip).


## Per property

### C01. number validation accepts exactly the documented numbers

Validate.v models number/_number_type/_number_bounds branch by branch over pyval; proved by case analysis for every Num with NumLaws, and linked to real comparison through val.

Status: proved. Theorems: `C01_number_accepts`, `C01_number_errors`, `C01_number_in_range`. 

### C02. NaN passes every bound check (violated expectation)

Same model; universally quantified acceptance of NaN, refutation of the naive statement by a witness.

Status: proved. Theorems: `C02_nan_accepted`, `C02_accepted_is_inside_refuted`, `C02_only_nan`, `C02_array_nan_invisible`. 

### C03. array validation accepts exactly the documented arrays

array/_array_bounds/_array_dimensions/_array_type over ndarray values with arbitrary shape and entries; list induction for the any() scan.

Status: proved. Theorems: `C03_array_on_ndarray`, `C03_array_on_others`, `C03_one_bad_entry`. 

### C04. same_shape_arrays accepts exactly lists of equally shaped arrays

same_shape_arrays over lists of pyval; list induction.

Status: proved. Theorems: `C04_same_shape`. 

### C05. ring invariant under every history of setters

Ring.v models the five setters and the constructor; invariant by induction over the list of setter calls.

Status: proved. Theorems: `C05_ring_invariant`. 

### C06. ring setters are atomic and independent

Frame lemmas for each setter.

Status: proved. Theorems: `C06_failed_assignment_changes_nothing`, `C06_assignment`, `C06_not_a_number`. 

### C07. a ring can be built from NaN (violated expectation)

Universally quantified acceptance of NaN, and the converse (no NaN implies ranges).

Status: proved. Theorems: `C07_nan_ring_accepted`, `C07_inner_below_outer_refuted`, `C07_only_nan`. 

### C08. ring patch traces the projected annulus

get_patch vertex map over R with the true sin/cos; the ellipse is specified by its quadratic equation; orientation by the signed area of (v, v') pairs.

Status: proved. Theorems: `C08_patch_outlines`, `C08_ellipse`, `C08_affine`, `C08_opacity`. 

### C09. ring edits keep the rings ordered and disjoint

RingSystem.v: list of ring references on a heap; induction over operation sequences.

Status: proved. Theorems: `C09_history_ordered`, `C09_history_ordered_with_split`. 

### C10. add, remove and replace are exact list edits

Exact characterisation of each operation as firstn/skipn edits.

Status: proved. Theorems: `C10_add_ring`, `C10_remove_ring`, `C10_replace_ring`, `C10_remove_after_add`. 

### C11. failed ring-system operations change nothing

State equality on every error branch (state-passing model).

Status: proved. Theorems: `C11_failed_operation_changes_nothing`. 

### C12. constructor does not check overlap (violated expectation)

Constructor loop by induction.

Status: proved. Theorems: `C12_constructor_accepts`, `C12_rings_disjoint_refuted`. 

### C13. split_rings partitions every ring

split loops by induction, exact arithmetic instance XR.

Status: proved. Theorems: `C13_split_exact`, `C13_split_profile`. 

### C14. split_rings in binary64 may not tile exactly (violated expectation)

vm_compute witness on F64 and generic count/transmission theorems.

Status: proved. Theorems: `C14_split_counts`, `C14_split_ordered_refuted`, `C14_split_end_refuted`, `C14_split_succeeds_refuted`. 

### C15. merge_rings preserves the transmission profile

merge loop invariant; the transmission profile is a separate function of radius.

Status: proved. Theorems: `C15_merge_profile`. 

### C16. merging undoes splitting

Normal-form argument on merge for split lists.

Status: proved. Theorems: `C16_merge_after_split`, `C16_merge_after_split_id`. 

### C17. merge_rings fails on an empty system and on non-positive tolerance

Case analysis.

Status: proved. Theorems: `C17_merge_empty`, `C17_merge_bad_tolerance`, `C17_index_error_only_empty`. 

### C18. ring objects are shared, not copied (violated expectation)

Heap model; ownership invariant by induction over histories; two-system witness.

Status: proved. Theorems: `C18_own_geometry`, `C18_geometry_refuted`. 

### C19. plot limits (violated expectation)

Arithmetic of the limits.

Status: proved. Theorems: `C19_plot_fails_iff_empty`, `C19_plot_window`. 

### C20. grid vectors span the requested ranges

linspace model; list lemmas; XR for spacing.

Status: proved. Theorems: `C20_accepted`, `C20_sizes`, `C20_rf_array`, `C20_spacing`, `C20_first_binary64`. 

### C21. extend_grid mirrors the grid about both axes, once

as C20.

Status: proved. Theorems: `C21_extend_mirrors`, `C21_not_extendable`. 

### C22. extend_grid of a one-point axis fails half-way (violated expectation)

State-passing model of extend_grid.

Status: proved. Theorems: `C22_one_column`, `C22_one_row`, `C22_extendable_refuted`. 

### C23. the extended binary64 grid need not contain zero (violated expectation)

F64 witness by vm_compute.

Status: proved. Theorems: `C23_extended_grid_contains_zero_refuted`. 

### C24. grid parameters survive save and load

File system map; four files; frame.

Status: proved. Theorems: `C24_load_after_save`, `C24_save_succeeds`, `C24_other_files_untouched`, `C24_load_error`, `C24_half_extended_refuted`. 

### C25. diagnostics behave as a map until extended

Dictionary keyed by the pair of printed indices; histories by induction.

Status: proved. Theorems: `C25_get_returns_latest_save`, `C25_get_errors`, `C25_extended_refuses_saves`, `C25_bool_index_refuted`. 

### C26. extended diagnostics are looked up at shifted points (violated expectation)

Key arithmetic.

Status: proved. Theorems: `C26_extended_lookup`, `C26_mirror_lookup_refuted`. 

### C27. diagnostics save/load loses the extended flag (violated expectation)

FS model with pickled dictionaries.

Status: proved. Theorems: `C27_load_after_save`, `C27_save_succeeds`, `C27_flag_lost_refuted`. 

### C28. masked reads give NaN exactly at masked points

Pointwise on cubes.

Status: proved. Theorems: `C28_masked`, `C28_unmasked`. 

### C29. masked reads destroy data permanently (violated expectation)

History induction on reads/mask updates.

Status: proved. Theorems: `C29_destroyed`, `C29_nan_stays`, `C29_unmasked_kept`, `C29_only_reads`, `C29_pure_read_refuted`. 

### C30. shape discipline of grid properties

Invariant by induction over histories.

Status: proved. Theorems: `C30_constructed`, `C30_fields`, `C30_set_mask`, `C30_set_mask_refused`, `C30_shapes`, `C30_extended_refuted`. 

### C31. contrast limits are the extrema of the data

nanmin/nanmax folds.

Status: proved. Theorems: `C31_limits`, `C31_colors`. 

### C32. gradient mask keeps exactly the compatible disks

Pointwise, generic Num.

Status: proved. Theorems: `C32_mask`, `C32_accepted`, `C32_real`. 

### C33. a rejected measurement leaves the gradient inconsistent (violated expectation)

State-passing model.

Status: proved. Theorems: `C33_rejected`, `C33_mask_kept`, `C33_repaired`, `C33_atomic_refuted`. 

### C34. a gradient survives save_gradient and load

FS model.

Status: proved. Theorems: `C34_survives`, `C34_save_succeeds`, `C34_bool_position_refuted`. 

### C35. every ellipse passes through the contact points

Real algebra (field/nra) on the code's formulas over R.

Status: proved. Theorems: `C35_contact_fx`, `C35_contact_fy`, `C35_radius`, `C35_inverse_fy`, `C35_inverse_fx`. 

### C36. disk radius, inclination and tilt are those of the ellipse

Real trigonometry: closed form of squared distance.

Status: proved. Theorems: `C36_disk`. 

### C37. mirrored quadrants hold the mirrored disks

Index arithmetic on cubes; real trigonometry for the symmetry.

Status: proved. Theorems: `C37_fill`, `C37_fill_mismatch`, `C37_constructor`, `C37_mirror`, `C37_shear`, `C37_scale`. 

### C38. disk gradients are the local tangent of the concentric ellipse

Implicit differentiation over R (derivable_pt_lim) and the algebra of the code's formula.

Status: proved. Theorems: `C38_tangent`, `C38_concentric`, `C38_range`, `C38_nan`, `C38_vertical_refuted`, `C38_formula`. 

### C39. orbital scale

Real inequalities.

Status: proved. Theorems: `C39_positive`, `C39_velocity`, `C39_limb`, `C39_zero_velocity`, `C39_zero_accepted`. 

### C40. the scale-factor search always terminates

Fuel bound on the while loops: with fuel past 100 max the result never is OutOfFuel and does not depend on the fuel, for generic numeric functions; success by real inequalities on the sampled radii.

Status: proved. Theorems: `C40_terminates`, `C40_rounds`, `C40_reaches`, `C40_small`, `C40_small_grid`, `C40_succeeds`. 

### C41. the smallest disk sits at the middle of the rf axis

Inversion of grid_point, contracts of nanargmin and np.interp's search; binary64 lemma x/x = 1.

Status: proved. Theorems: `C41_middle`, `C41_least`, `C41_lines`, `C41_range`, `C41_search`, `C41_diagnostic`. 

### C42. exactly the degenerate grid points stay NaN

Column-by-column induction on the build loop; real-number positivity of the sampled radii.

Status: proved. Theorems: `C42_shear`, `C42_shear_binary64`, `C42_columns`, `C42_degenerate`. 

### C43. the combined mask is the union of all masks

List induction over gradients.

Status: proved. Theorems: `C43_union`. 

### C44. Hill mask keeps exactly the stable disks, but cannot be relaxed

Histories.

Status: proved. Theorems: `C44_exact`, `C44_stays`, `C44_refuted`. 

### C45. add_gradients / remove_gradients edit the gradient list exactly

List lemmas on add/remove.

Status: proved. Theorems: `C45_added`, `C45_nothing`, `C45_removed`. 

### C46. duplicate indices remove the wrong gradients (violated expectation)

as C45 with duplicates.

Status: proved. Theorems: `C46_repeated`, `C46_refuted`. 

### C47. the gradient fit is never stale after successful changes

State machine of the Shallot object, invariant over histories.

Status: proved. Theorems: `C47_cleared`, `C47_later`, `C47_gradients`. 

### C48. the gradient fit is the weighted sum of squares

Pointwise fold.

Status: proved. Theorems: `C48_sum`, `C48_total`, `C48_failed`, `C48_reals`. 

### C49. extract_solutions returns the best solutions in order

argmin/argsort model, selection lemmas.

Status: proved. Theorems: `C49_best`, `C49_refused`, `C49_nofit`. 

### C50. extract_solutions consumes the fit (violated expectation)

as C49, two calls.

Status: proved. Theorems: `C50_continues`, `C50_all_again`, `C50_refuted`. 

### C51. closest grid point minimises the documented distance only on a shifted dy axis (violated expectation)

argmin over computed distances; witness.

Status: proved. Theorems: `C51_least`, `C51_found`, `C51_rows`, `C51_refuted`. 

### C52. grid point lookup bounds are off by one (violated expectation)

Index bounds.

Status: proved. Theorems: `C52_inside`, `C52_outside`, `C52_edge`, `C52_refuted`. 

### C53. getters change later results (violated expectation)

Histories of getters.

Status: proved. Theorems: `C53_read`, `C53_destroyed`, `C53_plain`, `C53_only_lost`, `C53_refuted`. 

### C54. set_eclipse_parameters and update_gradient_scaling are not atomic (violated expectation)

State-passing model, failure points.

Status: proved. Theorems: `C54_outcome`, `C54_scaling`, `C54_refuted`, `C54_scaling_refuted`. 

### C55. a grid survives save and load (without gradients)

FS model of save/load.

Status: proved. Theorems: `C55_save_load`. 

### C56. gradients never survive save and load (violated expectation)

String model of the directory name and splitext.

Status: proved. Theorems: `C56_no_gradients`, `C56_refuted`, `C56_overwritten`, `C56_not_finite`. 

### C57. a grid keeping diagnostics cannot be saved (violated expectation)

State-passing model.

Status: proved. Theorems: `C57_intermittent`, `C57_files_written`, `C57_never`, `C57_refuted`. 

### C58. an interrupted build can be resumed from a copy at every crash point

Crash at every prefix of the write sequence.

Status: proved. Theorems: `C58_resume`, `C58_crash`, `C58_bool_refuted`. num_fxfy must be an int that is not a bool (True makes the resumed build raise: C58_bool_refuted); num_fxfy comes back as numpy integer. C58_crash also covers torn writes and a half-removed directory.

### C59. loading the temporary directory itself destroys it (violated expectation)

FS model.

Status: proved. Theorems: `C59_load_temp`, `C59_load_temp_deletes`, `C59_load_deletes`, `C59_construct_deletes`, `C59_refuted`. 

### C60. the viewer index stays inside the cube

Event-sequence induction.

Status: proved. Theorems: `C60_range`, `C60_slice`, `C60_walk`, `C60_step`, `C60_many`, `C60_frozen`, `C60_frame`. 

### C61. plotted coordinates accumulate (violated expectation)

Event-sequence induction.

Status: proved. Theorems: `C61_shown`, `C61_current`, `C61_points`, `C61_current_only_refuted`. 

### C62. property file names never collide

String computation over the finite enumerations.

Status: proved. Theorems: `C62_distinct`, `C62_distinct_caseless`, `C62_display`, `C62_display_units`. 

### C63. an interrupted save of grid parameters is recognised, unless it overwrites

Crash semantics of step lists: any prefix, last write possibly torn; the last file is the commit point.

Status: proved. Theorems: `C63_interrupted_save`, `C63_interrupted_overwrite_refuted`. 

### C64. a grid property survives save and load

FS model: what each file holds after the step list, then load branch by branch.

Status: proved. Theorems: `C64_survives`, `C64_save_succeeds`. 

### C65. saving over an older save resurrects its mask or measurement (violated expectation)

FS model: files a save does not touch.

Status: proved. Theorems: `C65_stale_mask`, `C65_stale_measurement`. 

### C66. an interrupted save of a property is recognised; of a gradient it may lose the measurement (violated expectation)

Crash semantics; commit point for properties, all three outcomes for gradients.

Status: proved. Theorems: `C66_property`, `C66_gradient`, `C66_gradient_refuted`. 

### C67. making a viewer: accepted arguments, and looking is not pure (violated expectation)

Exact characterisation of the constructor; consequences of get_data (C29).

Status: proved. Theorems: `C67_constructor`, `C67_viewing_pure_refuted`, `C67_one_slice_refuted`. 

### C68. Titles, extent and tick labels of the viewer describe the slice shown

Viewer state machine of C60 with the title function; extent and ticks computed from the spacing theorem C20; real arithmetic for pixels.

Status: proved. Theorems: `C68_title_rf`, `C68_title_xy`, `C68_extent`, `C68_ticks`, `C68_own_pixel`, `C68_plot_slice`, `C68_plot_cube`. 

### C69. Coordinates on an rf axis are drawn at the wrong place (violated expectation)

Exact characterisation over the reals and a witness grid for the refutation.

Status: proved. Theorems: `C69_drawn_at`, `C69_reading`, `C69_place_refuted`, `C69_both_halves`. 

### C70. Numbers are written correctly rounded

Exact integer arithmetic on mantissa and exponent (Fmt.v), an independent reader of decimal texts and nearest_even over the reals (SpecFmt.v).

Status: proved. Theorems: `C70_rounded`, `C70_special`, `C70_same`, `C70_apart`. 

### C71. Gradients share a directory when their positions agree to four decimals (violated expectation)

Frame lemma for the steps of save_gradient, C70 for the names, binary64 witnesses 2^-20 and 2^-21 for the refutations.

Status: proved. Theorems: `C71_directory`, `C71_apart`, `C71_last`, `C71_mixed`, `C71_names`, `C71_distinct_refuted`, `C71_own_measurement_refuted`. 

### C72. Which properties, gradients and grids can be printed (violated expectation)

Texts as results (Text.v); an invariant on limits and stored numbers over all calls; witnesses for each refutation.

Status: proved. Theorems: `C72_property`, `C72_property_str`, `C72_new`, `C72_forever`, `C72_contrast`, `C72_gradient`, `C72_grid`, `C72_built`, `C72_grid_forever`, `C72_property_refuted`, `C72_gradient_refuted`, `C72_grid_refuted`. 

### C73. The texts of a ring and of a ring system show its numbers

The text is split into lines and words again and each number read back (SpecText.v).

Status: proved. Theorems: `C73_ring`, `C73_system`. 

### C74. Every point of a built grid holds a disk that casts the measured eclipse

An invariant of the search and the interpolation keeps every fy where fx exists (ColumnP.v); an ellipse is the edge of the disk with its largest and smallest distances (EdgeP.v); mirror images; all points of the cubes (WholeP.v).

Status: proved. Theorems: `C74_edge`, `C74_grid`. 

### C75. At the origin the right half of the rf axis is exact, the left half is not

Follow the rounds of the two extension loops at dy = 0 with an invariant giving every sample, locate the interpolation bracket on each side of the smallest sample, and lift to the cubes through the mirror image of the point.

Status: proved. Theorems: `C75_origin`, `C75_refuted`. 

### C76. Along the rf axis the radius is rf times the radius in the middle, to within the sampling resolution

The radius is Lipschitz in the scale factors and the scale factors in each other (LipP.v); an invariant of both loops keeps neighbouring samples close, so that the chord of the interpolation cannot stray (ErrorP.v); lift to the cubes through mirror images (WholeEP.v).

Status: proved. Theorems: `C76_axis`, `C76_vanishes`. 

### C77. The disk in the middle of the rf axis is the smallest disk casting the eclipse, to within the sampling resolution

Write the edge as a quadratic form; the two contact points fix the shear and relate the scale factors (FamilyP.v). The radius has a single minimum along the family because its square is a largest value of convex functions (LipP.v); inside the sampled range neighbouring samples are close, outside it the radius is at least that of the last sample (ErrorP.v).

Status: proved. Theorems: `C77_family`, `C77_smallest`, `C77_origin`. 

### C78. get_gradients lists every gradient with exactly the requested masks and leaves the combined mask out of the stored data

Loop lemma over the gradients.

Status: proved. Theorems: `C78_listed`, `C78_returns`, `C78_raises`, `C78_none`. 

### C79. A failing add_gradients leaves its gradients half measured in the grid

Loop lemma for the first failure; refutation by a computed grid.

Status: proved. Theorems: `C79_failed`, `C79_no_fit`, `C79_refuted`. 

### C80. update_gradient_scaling rescales each gradient exactly and agrees with adding under the new values

determine_mask characterised by an iff; composition of loops.

Status: proved. Theorems: `C80_rescaled`, `C80_same`. 

### C81. Colour maps and limits of built and loaded grids

Case analysis of the build, extension and load.

Status: proved. Theorems: `C81_built`, `C81_loaded`, `C81_refuted`. 

### C82. Grid gradients are the sines of the tangents of the disk's rings

Ellipse of the cast disk as a quadratic form of fx and fy; tangent as derivative of the parametrised ring; sign and uniqueness of the direction.

Status: proved. Theorems: `C82_tangent_exists`, `C82_gradient_is_sine`, `C82_grid_gradients`. 

### C83. The whole search finds exactly the disks that explain the measured gradients, best first

Composition of the characterisations of each operation; C76 for built grids; C82 for the gradients.

Status: proved. Theorems: `C83_built`, `C83_search`, `C83_vertical_refuted`. 

### C84. Diagnostics kept while a grid is built: what they change and what is found in them

Invariant of the building loops on what is stored; erasure of the diagnostics commutes with every step; C76 for the samples.

Status: proved. Theorems: `C84_same`, `C84_lookup`, `C84_lookup_refuted`. 

### C85. Texts of validation errors say exactly what was demanded

Texts as values of the model's exceptions; erasing them commutes with every function; a check that passes or complains, and the first failing check of a sequence.

Status: proved. Theorems: `C85_number`, `C85_array`, `C85_shapes`, `C85_both`, `C85_written`, `C85_printed_refuted`, `C85_integers`, `C85_tuples`, `C85_misuse`, `C85_outcome`. 

### C86. Texts of errors of rings and ring systems name the first demand not met

First failing check of a list, composed along the calls.

Status: proved. Theorems: `C86_ring`, `C86_setter`, `C86_system`, `C86_add`, `C86_remove`, `C86_replace`, `C86_split`, `C86_empty`, `C86_merge`, `C86_equal_radii_refuted`, `C86_demand_refuted`, `C86_outcome`. 

### C87. Texts of errors of grid objects, diagnostics and loading

First failing check of a list, as in C86; the texts of names and units are pairwise different.

Status: proved. Theorems: `C87_params`, `C87_extend`, `C87_property`, `C87_gradient`, `C87_mask`, `C87_contrast`, `C87_measure`, `C87_keep`, `C87_missing`, `C87_missing_refuted`, `C87_load`, `C87_load_distinct`, `C87_outcome`. 

### C88. Scale factors and contact points in binary64

Relative error calculus over Flocq's rounding theorems; the residual of the equation of the ellipse.

Status: proved. Theorems: `C88_contact_fx`, `C88_contact_fy`, `C88_fx_defined`, `C88_fx_undefined`, `C88_fy_defined`, `C88_fy_undefined`, `C88_circle_refuted`, `C88_circle_lost_refuted`. 

### C89. Accuracy of the disk computed in binary64

Errors of the angle of the vertex as of second order in the distance; absolute errors relative to the largest distance.

Status: proved. Theorems: `C89_disk`, `C89_radius`, `C89_accurate`. 

### C90. Texts of grid objects show their numbers; labels name the axes

Lines and words of joined texts; the format theorems of C70; the union of masks of C43.

Status: proved. Theorems: `C90_diagnostics`, `C90_parameters`, `C90_property`, `C90_gradient`, `C90_grid`, `C90_changes`, `C90_title`, `C90_labels`, `C90_minimum_refuted`, `C90_full_share_refuted`. 

### C91. Axes of a grid in binary64

Monotonicity of rounding; relative errors of the step and of each multiple; exact slack of the last step.

Status: proved. Theorems: `C91_axes`, `C91_extended`, `C91_increasing_refuted`, `C91_ordered_refuted`, `C91_number_refuted`. 

### C92. Gradients in binary64

Relative error of each term; sums of binary64 numbers are 0 or not tiny; the direction of a vector moves by at most twice its relative change.

Status: proved. Theorems: `C92_gradient`, `C92_grid_point`, `C92_upright`, `C92_axis`, `C92_upright_refuted`, `C92_functions`. 

### C93. Edges of the disks in binary64

Forward error of the vertex, of the tilt read off it and of the inclination give the error of the parametrised edge; axes of mirrored grids are mirror images up to 2^-48, tilts are reflected with one rounding.

Status: proved. Theorems: `C93_edge`, `C93_contact`, `C93_grid`, `C93_mirrored`, `C93_flat_refuted`. 

### C94. Texts of the exceptions of grids and viewers

Model with texts beside the plain one, the two related by dropping the texts; each call heeds its list of checks, composed call by call.

Status: proved. Theorems: `C94_viewer`, `C94_getters`, `C94_hill`, `C94_point`, `C94_extract`, `C94_closest`, `C94_gradients`, `C94_eclipse`, `C94_removal`, `C94_addition`, `C94_addition_refused`, `C94_scaling`, `C94_construct`, `C94_construct_later`, `C94_save`, `C94_load`, `C94_quadrants`, `C94_outcome`, `C94_named_refuted`. 

### C95. Logs of ring systems

Model with records beside the plain one, the two related by dropping them; each call's log is computed, and the debug records chain through any history because no call changes what the text shows of a ring object that exists.

Status: proved. Theorems: `C95_add`, `C95_replace`, `C95_remove`, `C95_split`, `C95_merge`, `C95_error`, `C95_history`, `C95_levels`, `C95_outcome`, `C95_numeral_refuted`. 

### C96. Logs of grids

State, result and log threaded together beside the plain model; the records of each call are computed case by case, and losing the fit is compared with them, then summed over histories.

Status: proved. Theorems: `C96_cleared`, `C96_dropped`, `C96_history`, `C96_refusals`, `C96_refused`, `C96_add`, `C96_edits`, `C96_extract`, `C96_closest`, `C96_impact_refuted`, `C96_error`, `C96_announced_refuted`, `C96_quiet`, `C96_built`, `C96_resumed`, `C96_outcome`. 

### C97. Gradient fits in binary64

FitF64P bounds the roundings of the scale, of a term and of a sum; FitGridP carries them to grids and solutions; FitExP gives the example and refutations

Status: proved. Theorems: `C97_scale`, `C97_added`, `C97_fit`, `C97_zero`, `C97_order`, `C97_best`, `C97_perfect_refuted`, `C97_tiny_refuted`. 

### C98. How far the closest grid point is from the closest

ClosestF64P bounds the roundings of the distance and the row coordinate and uses C51_least; ClosestExP gives the example and the refutation on a concrete grid

Status: proved. Theorems: `C98_near`, `C98_reported`, `C98_axis_refuted`. 

### C99. Assigning to the rings of a system (violated expectation)

histories of calls and assignments over a heap of Ring objects; ring invariant of C05 on the whole heap, order by monotonicity, witnesses in binary64 (AssignP)

Status: proved. Theorems: `C99_valid`, `C99_narrowing`, `C99_fits`, `C99_order_refuted`, `C99_plane_refuted`, `C99_split_plane`, `C99_merge_plane`. 

### C100. What is drawn of a ring system (violated expectation)

drawing as data (RingDraw); arguments by cases, bounding box of a tilted ellipse, widest ring by the order of the rings, witnesses in exact arithmetic (RingDrawP)

Status: proved. Theorems: `C100_patches`, `C100_patches_fail`, `C100_drawn`, `C100_refused`, `C100_empty`, `C100_atomic_refuted`, `C100_shown`, `C100_top_refuted`, `C100_planet`, `C100_planet_refuted`. 

### C101. Inclination of a disk in binary64

range of the computed inclination by rounding of the quotient and the error of acos; angle from the difference of the cosines; circle with a cosine in error computed in the kernel (InclF64P, InclExP)

Status: proved. Theorems: `C101_inclination`, `C101_grid`, `C101_circle_refuted`. 

### C102. Tilt of a disk in binary64

the end of the longest axis as a combination of the two nearly conjugate radii whose angles were computed; the coefficient of the shorter one is small by the excess of R^2 over its square; reflected cells by the identity of the built quadrant (TiltF64P, TiltGridP, TiltExP)

Status: proved. Theorems: `C102_tilt`, `C102_grid`, `C102_flat_refuted`, `C102_round_refuted`. 

### C103. Radii of grids and the Hill mask in binary64

cells of the built quadrant and of its reflections as disks of their own scale factors, accuracy of the disk, exactness of the mask on the stored numbers (HillF64P, HillExP)

Status: proved. Theorems: `C103_radius`, `C103_hill`. 

### C104. Outlines of rings in binary64

absolute error of each product relative to the radius, degrees to radians, sums and shift (PatchF64P); signs of products are exact in binary64 (PatchExP)

Status: proved. Theorems: `C104_outlines`, `C104_vertex`, `C104_shared`. 

### C105. Splitting and merging rings in binary64

radii of ringlets as rounded sums and products (SplitF64P); ringlets are good rings and consecutive ones are linked below the tolerance, so the loop of merging joins exactly the pieces of a ring (SplitSysP)

Status: proved. Theorems: `C105_split`, `C105_merge`, `C105_gaps`. 

### C106. Merging rings in several steps

the loop of merging run on its own result: induction on the rings with the running ring generalised (MergeStepP); rings of the result are valid, so the second call succeeds

Status: proved. Theorems: `C106_steps`, `C106_back`, `C106_fewer`, `C106_apart`, `C106_closed`, `C106_closed_refuted`. 

### C107. Splitting rings in two steps (violated expectation)

ringlet j of ringlet k of m is ringlet k n + j of m n; the indices below m n listed row by row (SplitStepP); the witness is computed

Status: proved. Theorems: `C107_steps`, `C107_steps_refuted`. 

## Assumptions of each theorem

As printed by `Print Assumptions` beneath the theorems.

**No axioms** (63 theorems): C40_terminates, C40_reaches, C68_title_xy, C21_not_extendable, C24_load_after_save, C24_save_succeeds, C24_other_files_untouched, C24_load_error, C25_get_returns_latest_save, C25_get_errors, C25_extended_refuses_saves, C26_extended_lookup, C27_load_after_save, C27_save_succeeds, C27_flag_lost_refuted, C63_interrupted_save, C28_unmasked, C29_only_reads, C30_set_mask, C30_set_mask_refused, C33_mask_kept, C34_save_succeeds, C62_distinct, C62_distinct_caseless, C62_display, C62_display_units, C64_save_succeeds, C95_remove, C95_merge, C95_levels, C95_outcome, C96_outcome, C85_shapes, C85_integers, C85_tuples, C85_misuse, C85_outcome, C86_outcome, C87_extend, C87_load, C87_load_distinct, C87_outcome, C94_addition_refused, C94_load, C94_quadrants, C94_outcome, C45_nothing, C54_scaling, C78_none, C57_intermittent, C06_failed_assignment_changes_nothing, C06_not_a_number, C10_remove_ring, C17_merge_empty, C19_plot_fails_iff_empty, C57_never, C90_diagnostics, C90_title, C70_special, C03_array_on_others, C60_slice, C60_frozen, C60_frame.

**`ClassicalDedekindReals.sig_forall_dec`** (1 theorems): C08_opacity.

**`ClassicalDedekindReals.sig_forall_dec`, `FunctionalExtensionality.functional_extensionality_dep`** (209 theorems): C99_valid, C99_narrowing, C99_fits, C99_split_plane, C99_merge_plane, C37_fill, C37_fill_mismatch, C37_constructor, C40_small, C41_middle, C41_range, C42_columns, C84_same, C68_title_rf, C68_own_pixel, C68_plot_slice, C68_plot_cube, C69_drawn_at, C69_both_halves, C20_accepted, C20_sizes, C20_rf_array, C22_one_column, C22_one_row, C28_masked, C29_destroyed, C29_nan_stays, C29_unmasked_kept, C29_pure_read_refuted, C30_constructed, C30_fields, C30_shapes, C30_extended_refuted, C31_limits, C31_colors, C32_mask, C32_accepted, C33_rejected, C33_repaired, C34_survives, C34_bool_position_refuted, C64_survives, C65_stale_mask, C65_stale_measurement, C66_property, C66_gradient, C66_gradient_refuted, C95_add, C95_replace, C95_split, C95_error, C95_history, C96_cleared, C96_dropped, C96_history, C96_refusals, C96_refused, C96_add, C96_edits, C96_extract, C96_closest, C96_error, C96_quiet, C96_built, C96_resumed, C85_number, C85_array, C85_both, C86_ring, C86_setter, C86_system, C86_add, C86_remove, C86_replace, C86_split, C86_empty, C87_params, C87_property, C87_gradient, C87_mask, C87_contrast, C87_measure, C87_keep, C87_missing, C87_missing_refuted, C94_viewer, C94_getters, C94_hill, C94_point, C94_extract, C94_closest, C94_gradients, C94_eclipse, C94_removal, C94_addition, C94_scaling, C94_construct, C94_construct_later, C94_save, C39_zero_velocity, C39_zero_accepted, C43_union, C44_exact, C44_stays, C45_added, C45_removed, C46_repeated, C47_cleared, C47_later, C47_gradients, C48_sum, C48_total, C48_failed, C49_best, C49_refused, C49_nofit, C50_continues, C50_all_again, C51_least, C51_found, C52_inside, C52_outside, C52_edge, C53_read, C53_destroyed, C53_plain, C53_only_lost, C54_outcome, C78_listed, C78_returns, C78_raises, C79_failed, C79_no_fit, C80_rescaled, C80_same, C58_resume, C58_crash, C05_ring_invariant, C06_assignment, C07_nan_ring_accepted, C07_only_nan, C100_patches, C100_patches_fail, C100_drawn, C100_refused, C100_empty, C09_history_ordered, C10_add_ring, C10_replace_ring, C10_remove_after_add, C11_failed_operation_changes_nothing, C12_constructor_accepts, C14_split_counts, C15_merge_profile, C17_merge_bad_tolerance, C17_index_error_only_empty, C18_own_geometry, C55_save_load, C56_no_gradients, C56_overwritten, C56_not_finite, C57_files_written, C59_load_temp, C59_load_temp_deletes, C59_load_deletes, C59_construct_deletes, C81_built, C81_loaded, C70_rounded, C70_same, C70_apart, C71_last, C71_mixed, C72_property, C72_property_str, C72_new, C72_forever, C72_contrast, C72_gradient, C72_grid, C72_built, C72_grid_forever, C72_property_refuted, C72_gradient_refuted, C73_ring, C01_number_accepts, C01_number_errors, C01_number_in_range, C02_nan_accepted, C02_only_nan, C02_array_nan_invisible, C03_array_on_ndarray, C03_one_bad_entry, C04_same_shape, C60_range, C60_walk, C60_step, C60_many, C61_shown, C61_current, C61_points, C67_constructor, C67_viewing_pure_refuted, C67_one_slice_refuted, C86_merge, C106_steps, C106_back, C106_fewer, C106_apart.

**`ClassicalDedekindReals.sig_forall_dec`, `ClassicalDedekindReals.sig_not_dec`, `FunctionalExtensionality.functional_extensionality_dep`** (34 theorems): C40_rounds, C40_small_grid, C41_lines, C42_shear, C68_extent, C68_ticks, C69_reading, C69_place_refuted, C35_contact_fx, C35_contact_fy, C35_inverse_fy, C35_inverse_fx, C37_shear, C92_axis, C20_spacing, C21_extend_mirrors, C32_real, C33_atomic_refuted, C48_reals, C51_rows, C08_ellipse, C100_planet, C100_planet_refuted, C09_history_ordered_with_split, C13_split_exact, C13_split_profile, C16_merge_after_split, C16_merge_after_split_id, C19_plot_window, C61_current_only_refuted, C76_vanishes, C77_origin, C106_closed, C107_steps.

**`ClassicalDedekindReals.sig_forall_dec`, `ClassicalDedekindReals.sig_not_dec`, `Classical_Prop.classic`, `FunctionalExtensionality.functional_extensionality_dep`** (156 theorems): C99_order_refuted, C99_plane_refuted, C91_axes, C91_extended, C91_increasing_refuted, C91_ordered_refuted, C91_number_refuted, C40_succeeds, C41_least, C41_search, C41_diagnostic, C42_shear_binary64, C42_degenerate, C98_near, C98_reported, C98_axis_refuted, C84_lookup, C84_lookup_refuted, C93_edge, C93_contact, C93_grid, C93_mirrored, C93_flat_refuted, C93_ex_edge, C93_ex_contact, C93_ex_grid, C93_ex_mirrored, C88_contact_fx, C88_contact_fy, C88_fx_defined, C88_fx_undefined, C88_fy_defined, C88_fy_undefined, C88_circle_refuted, C88_circle_lost_refuted, C89_disk, C89_radius, C89_accurate, C97_scale, C97_added, C97_fit, C97_zero, C97_order, C97_best, C97_perfect_refuted, C97_tiny_refuted, C35_radius, C36_disk, C37_mirror, C37_scale, C38_tangent, C38_concentric, C38_range, C38_nan, C38_vertical_refuted, C38_formula, C39_positive, C39_velocity, C39_limb, C92_gradient, C92_grid_point, C92_upright, C92_upright_refuted, C92_functions, C20_first_binary64, C22_extendable_refuted, C23_extended_grid_contains_zero_refuted, C24_half_extended_refuted, C25_bool_index_refuted, C26_mirror_lookup_refuted, C63_interrupted_overwrite_refuted, C103_radius, C103_hill, C103_ex, C101_inclination, C101_grid, C101_circle_refuted, C101_ex, C101_ex_grid, C95_numeral_refuted, C96_impact_refuted, C96_announced_refuted, C85_written, C85_printed_refuted, C86_equal_radii_refuted, C86_demand_refuted, C94_named_refuted, C44_refuted, C46_refuted, C50_refuted, C51_refuted, C52_refuted, C53_refuted, C54_refuted, C54_scaling_refuted, C79_refuted, C58_bool_refuted, C07_inner_below_outer_refuted, C08_patch_outlines, C08_affine, C100_atomic_refuted, C100_shown, C100_top_refuted, C100_ex, C12_rings_disjoint_refuted, C14_split_ordered_refuted, C14_split_end_refuted, C14_split_succeeds_refuted, C18_geometry_refuted, C56_refuted, C57_refuted, C59_refuted, C81_refuted, C82_tangent_exists, C82_gradient_is_sine, C82_grid_gradients, C83_built, C83_search, C83_vertical_refuted, C90_parameters, C90_property, C90_gradient, C90_grid, C90_changes, C90_labels, C90_minimum_refuted, C90_full_share_refuted, C71_directory, C71_apart, C71_names, C71_distinct_refuted, C71_own_measurement_refuted, C72_grid_refuted, C73_system, C102_tilt, C102_grid, C102_flat_refuted, C102_round_refuted, C102_ex, C102_ex_grid, C02_accepted_is_inside_refuted, C74_edge, C74_grid, C75_origin, C75_refuted, C76_axis, C77_family, C77_smallest, C104_outlines, C104_vertex, C104_shared, C105_split, C105_merge, C105_gaps, C106_closed_refuted, C107_steps_refuted.
