# Formal model of TurbuStat in Rocq: design and trusted base

## 1. What is modelled, and how

TurbuStat is a numerical Python library.  The model is a shallow embedding:
each function is a total Gallina function that follows the Python branch by
branch, with exceptions as values (`result` type, `Lib/PyBase.v`).

* **Numbers.**  A Python float is modelled by the type `fl` (`Lib/Fl.v`):
  a real number, `+inf`, `-inf` or `NaN`, with IEEE-style propagation of
  the special values.  Rounding, overflow to infinity, and the sign of zero are
  *not* modelled.  Where a function only ever sees finite numbers (its
  callers have removed blanks) plain `R` is used, and the comment on the
  definition says so.  A *blank* in the property text is a NaN.
* **Integers** (sizes, indices, shifts) are unbounded `nat`/`Z`.
* **Arrays** are lists (1D), lists of rows (2D) or of planes (3D) where the
  index manipulation is the subject, and functions of the indices with explicit
  extents where sums over the indices are the subject.
* **Python slices** `a[start:stop:step]` are interpreted by `Lib/PySlice.v`, a
  transcription of CPython's `slice.indices`.  Models therefore contain the
  literal slice bounds of the source.
* **numpy/scipy/astropy calls** (FFT, convolution, `label`, fitters, WCS,
  pickle) are either given by their mathematical definition (DFT as a
  finite sum; `np.roll`; `nansum`; `cumsum`; connected components by
  reachability) or are universally quantified oracles (least-squares solvers,
  random draws, schedulers).  Nothing is assumed about an oracle beyond what
  the theorem's hypotheses say.
* **Objects** with setters or caches are records with a step function.

Layout of `/verif/rocq/theories`:

| directory | content |
|---|---|
| `Lib/` | mathematics and Python semantics: finite sums, `fl`, slices, DFT |
| `Spec/` | the small specifications the properties are stated with |
| `Model/` | the model of the code, one file per source file, no proofs |
| `Proofs/` | lemmas |
| `Properties/` | only theorems closed by `exact`, with `Print Assumptions`, and the non-vacuity examples |

When the code violates a property the theorem is named `..._refuted` and
exhibits a witness; the part that does hold is proved as `..._partial`.
Section 4 collects these findings.

## 2. Plan per property

| id | model | proof |
|---|---|---|
| C01, C02 | `rfft_to_fft` on lists of rows/planes with the literal slices; `np.fft.rfftn` = textbook DFT restricted to half the last axis | Hermitian symmetry of the DFT of a real array; characterise each slice by `nth` |
| C03 | `np.roll` on lists, `int()` truncation | modular arithmetic, permutation |
| C04 | `_shifter` = inverse DFT of DFT times phase ramp with `fftfreq` | DFT inversion (geometric sums of roots of unity) |
| C05, C06 | `hellinger` over `fl` lists | l2 triangle inequality (Cauchy-Schwarz on lists) |
| C07 | four schemes over `fl` lists with `nanmean`, `nanstd`, `nanmin`, `nanmax` | algebra of finite sums |
| C08 | filter then pointwise sum | Gibbs inequality from `ln x <= x-1` |
| C09, C10, C11 | direct | direct |
| C12, C13 | `binned_statistic(mean)` over the list of pixels with digitised distances | partition of a list by bin index |
| C14, C15 | `compute_pspec` as axis sums of the squared C02 output | Parseval over one or two axes |
| C16-C19 | `compute_surface` over `fl` cubes, lag by lag | (a-b)^2 <= 2(a^2+b^2); re-indexing of cyclic sums; witness for C19 |
| C20 | weighted l2 | Minkowski inequality |
| C21, C22 | triple loop of `cramer_statistic` | re-indexing for C21; for C22 conditional negative definiteness of sqrt(euclid) |
| C23, C24 | `set_n_eigs`, normalised spectra | list induction, l2 inequalities |
| C25 | `noise_ACF` sum and division | witness (sign) |
| C26 | circular autocorrelation by the FFT expression in the source | DFT inversion, Cauchy-Schwarz |
| C27, C28 | walk-down loop, beam correction formula | induction over the loop; witness for C28 |
| C29, C30 | `_delvar`, NaN rule, normalised curve distance | Jensen / Cauchy-Schwarz |
| C31 | setters as step functions on object state | invariant over assignment histories |
| C32 | closed forms | algebra; radial integral by antiderivative |
| C33, C34 | threshold masks; connected components | reachability, graph symmetry |
| C35 | formula | witness |
| C36, C37 | `compute_moments` over `fl` | Cauchy-Schwarz; witness for C37 |
| C38 | pad + slice + mask | modular arithmetic |
| C39, C40 | histogram, cumsum; object state | list induction; witness for C40 |
| C41, C42 | both loop orders | sum exchange |
| C43-C46 | base class state machine; units as dimension tags with scale factors | case analysis, field algebra, histories by induction |
| C47, C48 | fit loop with the solver as oracle | measure on the loop |
| C49, C50 | direct | direct; witness |
| C51 | closed forms piecewise | trigonometric bounds |
| C52-C54 | closed forms | trigonometry, `ln`/`exp` |
| C55, C56 | slice assignments on a half-spectrum array | index algebra; witness for odd sizes |
| C57 | pool results as an arbitrary permutation of tagged results | permutation invariance |
| C58, C59 | loop over channels and cells | sums; `ceil` |
| C60, C61 | sums of complex samples; index formulas | triangle inequality; bounds |
| C62-C64 | lag differences, model, clipping | re-indexing; monotonicity; witness |
| C65-C75 | direct | direct; witnesses where the code violates the claim |

The properties appended later (C76 on), by properties file:

@@PLAN@@

## 3. Trusted base

* Coq 8.16.1's kernel.
* Axioms: only those of Coq's standard library, as printed by `Print
  Assumptions` beneath each theorem (see section 5).
* The reading of the Python source: each definition in `Model/` cites the
  lines it models.

