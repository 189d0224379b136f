# Design of the formal model of beyonce

The code under study is the Python package in `/repo` (dmvandam/beyonce):
rings around an occulting body and the "Shallot" explorer, a three
dimensional grid (dy, dx, rf) of ellipses compatible with an eclipse.

## What is modelled, and how

* **Numbers.**  Every model definition is generic over a class `Num T`
  (`Num.v`) of numeric operations with IEEE style comparisons (false on NaN).
  Two instances are given:
  * `F64`: IEEE-754 binary64 with round-to-nearest-even, Flocq's
    `binary_float 53 1024` (executable; used for witnesses and for the theorems
    about rounding);
  * `XR`: real numbers extended with NaN and the two infinities ("exact
    arithmetic"); there is one zero only, so `x/0` is the signed infinity of x.
    The sign of zero is visible only through division by zero, atan2 and the
    formatting of numbers; where that matters the theorem says so.

  Comparison-only theorems are proved once for all instances of the law class
  `NumLaws` (an embedding `val : T -> XR` through which every comparison factors),
  which both instances satisfy.  Elementary functions (sin, cos, atan2, arccos, ...)
  are an argument `Libm T`: theorems on floats hold for *every* libm.
* **Python.**  Arguments of unknown type are values of `pyval` (bool, int, numpy
  ints/floats, str, None, ndarray, list, other object); exceptions are values
  (`Err ValueError` ...).  A method that can mutate its object before raising is a
  function `state -> state * res A`, so a failing call still has a state.
* **Objects.**  Ring objects live on a heap (aliasing is observable in this code).
* **Arrays.**  numpy arrays are a shape together with the C-order list of entries.
* **Files.**  The file system is a finite map from path strings to files or
  directories.  `np.save`, `os.mkdir`, `shutil.rmtree` are single atomic steps; the
  crash theorems quantify over every prefix of the step sequence.

## Which code is modelled where

| model file | code |
|---|---|
| `Py.v` | Python values, exceptions, `errors.py` |
| `Validate.v` | `validate.py` |
| `Ring.v`, `RingSystem.v`, `RingDraw.v` | `Ring.py`, `RingSystem.py` |
| `FS.v` | os / shutil / np.save / np.load, as far as used |
| `GridParams.v`, `GridDiag.v` | `GridParameters.py`, `GridDiagnostics.py` |
| `Names.v` | `GridPropertyName.py`, `GridPropertyUnit.py` |
| `GridProp.v` | `GridProperty.py:19-588` (GridProperty, GridGradient) |
| `Viewer.v`, `ViewerDraw.v` | `GridProperty.py:590-856` and the plot methods 218-285 |
| `Geometry.v` | the formulas of `Shallot.py`, at one grid point |
| `Build.v`, `Shallot.v` | `Shallot.py`: constructor, build loop, quadrants, save, load, resume |
| `ShallotOps.v` | `Shallot.py`: all methods of a finished grid |
| `Fmt.v`, `Text.v` | the formatting of floats and every `__str__` / `__repr__` |
| `Message.v` | the texts of the exceptions of `errors.py`, `validate.py`, rings, ring systems, grid parameters, diagnostics and properties |

Every function of these files has a counterpart.  `TestsP.v` and `TestsMsgP.v` evaluate the assertions of the
repository's test files in the binary64 instance of the model: this is the check that the
model agrees with the code, short of running it.

The build is parametrised by a record `env`: the elementary functions, the interval search of
`np.interp` (any search meeting its contract), the formatting `{:.4f}` of positions, and the
fuel of the `while` loops (`OutOfFuel` is an outcome of its own, never success).  Theorems are
stated for every `env`; those which need Python's formatting set it to `fmt_fixed 4` (`Fmt.v`),
which is exact.  `AddLaws` collects the few facts on sums and quotients that hold for both
number instances.

## Specifications

`SpecNum`, `SpecRing`, `SpecGrid`, `SpecProp`, `SpecViewer`, `SpecGeom`, `SpecBuild`, `SpecOps`,
`SpecSave`, `SpecResume`, `SpecFmt`, `SpecText`, `SpecError`, `SpecSearch`, `SpecMsg`, `SpecMsgGrid`, `SpecMsgOps`, `SpecLog`, `SpecLogOps`, `SpecF64`, `SpecShow`, `SpecAxis`, `SpecGrad`, `SpecEdge`, `SpecFit`, `SpecClosest`, `SpecAssign`, `SpecDraw`, `SpecTilt`, `SpecPatch`, `SpecSplit`, `SpecMerge`: the vocabulary of the statements.  Sets of
states are inductive: `reachable` (grid parameters), `preach` (properties after any calls),
`greach` and `measured` (gradients after any calls / after successful measurements), `vreach`
(viewers), `sreach` (grids: the constructor followed by any calls, failed ones included).

An expectation that the code violates is treated in two parts: an exact characterisation of what
happens, and a theorem `..._refuted` that the expectation is false, with a concrete witness.

## Not modelled

matplotlib drawing (only the numbers and texts handed to it are), `tqdm`, the names of loggers
and the times of their records, the texts of exceptions raised by Python and numpy themselves, numpy float16/32/128 arithmetic (values of these types are accepted by validation and
treated as binary64), numpy integer overflow, Python ints beyond the float range (where stated in
the model file), pickling, concurrent processes other than crash interleavings, memory and time.
Paths are compared literally: the current directory written in another way, links and `..` are
different paths.  Simplifications of a single function are stated in the comment above it.

## Layout of `rocq/theories`

Model files (definitions only, each citing file:lines of /repo), `Spec*.v` (specification
vocabulary), `*P.v` proof files (`*ExP.v`: concrete witnesses), `Props*.v` (theorem statements
closed by `exact lemma`, with an `Example` beside each and `Print Assumptions` beneath).
`seeded/LOG.jsonl` records wrong programs against which the theorems were tried.
How to read it: each edit was made in a copy, which was rebuilt with `make -k`.  `failed_lemmas` are the
proofs Coq rejected (the first of each file; it stops there).  `failed_theorems` was not observed one by one:
it lists the property theorems that use one of those lemmas, found by following references through the unedited sources.
So it is approximate both ways: it may name theorems that remain true of the wrong program, and miss ones
resting only on lemmas after the first rejected one of a file.  A rejected proof
shows that the proof broke, not by itself that the claim is false.  The claim an edit was meant to break is in
`claim`.  `survived` means the whole copy built; `tightened` names what was added then.

## Trusted base

* The Coq 8.16.1 kernel (including its `vm_compute` machine).
* Axioms, as printed by `Print Assumptions` for each theorem of `Props*.v` (the list is
  kept below): only those of the standard library's classical real numbers
  (`ClassicalDedekindReals.sig_forall_dec`, `ClassicalDedekindReals.sig_not_dec`,
  `FunctionalExtensionality.functional_extensionality_dep`, and `Classical_Prop.classic`
  where Flocq's proofs use it).  No axiom is added by this development.
* Theorems on the accuracy of results in binary64 suppose elementary functions that are right up to a stated error
  (`accurate`, `SpecF64.v`); nothing is claimed about any particular libm.
* The correspondence between the Python source and the model, by reading.
  numpy functions are modelled by their documented behaviour (linspace, interp, argmin,
  argsort, nanmin, nanmax, nan comparisons, np.save/np.load round trip).

