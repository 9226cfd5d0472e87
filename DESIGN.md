# Formal model of anticipy: design

Source: sky-uk/anticipy, read as text in `/repo` (`anticipy/forecast_models.py`, `forecast.py`,
`model_utils.py`, `forecast_plot.py`, `app.py`).  Nothing in `/repo` was executed or changed.
The model is written in Coq 8.16.1 under `rocq/theories/`.

## 1. How Python values are modelled

| Python | Coq | Remarks |
|---|---|---|
| float | a carrier `T` with operations `NumOps T` (`Num.v`) | the code is modelled *once*, for any carrier |
| exceptions | `res A := Ok a \| Err e` with `e` the Python exception class | messages are dropped |
| numpy 1-D array | `list T` | broadcasting of scalars and length-1 arrays is modelled |
| timestamps | `Z`, nanoseconds since 1970-01-01 (proleptic Gregorian, as numpy/pandas) | NaT and the 1677..2262 overflow of int64 ns are not modelled |
| x column | `Z` | float valued user supplied x is not modelled |
| strings | Coq `string`, order `String.compare` (code points, as Python `str` on ASCII) | |
| data frame | record: presence flag per optional column and a list of row records | pandas index labels only where the code reads them |
| `ForecastModel` | record of functions (`Model.v`) | theorems quantify over *arbitrary* records, not only shipped models |
| random numbers | an oracle stream `nat -> T` / list of indices, universally quantified | composites split the stream, so every joint outcome is covered |
| `scipy.optimize.least_squares` | an oracle argument, universally quantified; may raise | nothing is assumed about it unless a theorem says so in its hypotheses |
| logging, timing (`fit_time`), plotting back ends, CSV I/O | not modelled | |

Instances of `NumOps`:
* `XR`: `NaN | +inf | -inf | Fin r`, `r` a Coq real (`Reals`), IEEE rules for specials, exact arithmetic for
  finite values.  Used for theorems that need algebra or order ("real arithmetic" in the property text).
* `float`: Coq primitive binary64 floats.  Used for executable examples which reproduce values from the
  project's own tests and for witnesses of defects.
* Theorems stated for every `NumOps` hold for IEEE doubles as well; no rounding assumption is involved.

## 2. Trusted base

* Coq's kernel (`coqc`, re-checked by `coqchk`), including the VM for `vm_compute`.
* The axioms printed by `Print Assumptions` under each theorem in the `Properties*.v` files.  Only standard-library
  axioms occur: classical real numbers (`ClassicalDedekindReals.sig_forall_dec`, `sig_not_dec`,
  `functional_extensionality_dep`, `Classical_Prop.classic`) for theorems over `XR` (extensionality also for C75), and primitive float/int63 constants for executable examples and some refutations.
  The theorems about binary64 (C20_doubles_faithful, C29) use the specification axioms of `Coq.Floats.FloatAxioms` and
  `Coq.Numbers.Cyclic.Int63.Uint63` (IEEE division, comparison, conversion).
  C78 uses `ClassicalEpsilon.constructive_indefinite_description` to define an optimizer that always finds a minimum.
  No axiom is declared in this development.
* The reading of the Python source recorded in the comment above every definition (file and lines), and the reading of
  the pandas/numpy functions it calls, listed in `Py.v` next to each helper.
* The simplifications listed in section 1 and at the individual definitions.

Coverage.  Every function of `forecast.py`, `forecast_models.py`, `model_utils.py` and `app.py` is modelled except
logging helpers, `array_transpose` (never called), `ForecastInput.__str__`/`__repr__` and the columns `fit_time` and `params_str` of the metadata table.  Of
`forecast_plot.py` the grid of subplots, the placement of series, return codes, sizes, output paths, plotted rows and shaded intervals are modelled; drawing,
colours and axis formats are not.  `utils_test.py` (helpers of the test suite) is not modelled.

## 3. Layout

`Num.v` numbers; `Py.v` exceptions, numpy/pandas primitives; `Cal.v` calendar; `Model.v` the ForecastModel class;
`Base.v` the shipped model functions; further model files per source region.  `*Proofs.v` hold lemmas,
`Properties*.v` hold only the property theorems (closed by `exact`) with `Print Assumptions`, and non-vacuity `Example`s
beside them.

## 4. Properties: what is modelled and how it is proved

* **C01 Sum of models evaluates to the sum of the parts** — `__add__` and the closure it builds are modelled over arbitrary model records; equational proof for any carrier and any keyword arguments, error order included.
* **C02 Product of models evaluates to the product of the parts** — same, for `__mul__`.
* **C03 Parameter bookkeeping is consistent for every composite** — expression trees (`tree`) over a class of well-sized leaves; induction; each shipped model is shown to be well-sized. Random draws are an oracle.
* **C04 Null model disappears from every composition** — `prune` removes null leaves from a tree; induction shows the built model is literally the same record.
* **C05 Composite names identify the composition** — printing function on trees proved injective by a bracket-counting argument on strings.
* **C06 A composite accepts an input iff every part accepts it** — validators are functions into `res bool` with an identity used by `set`; the de-duplicating union is any list with the same elements; induction over trees.
* **C07 Caching does not change predictions** — `init_cache` and keyword lookup modelled; invariant `cache agrees with every leaf`; induction over trees; collision witness by computation.
* **C08 Fixing parameters is partial application** — the shared array is modelled as state threaded through calls; an invariant (non-null positions never change) gives history independence.
* **C09 Fully fixed models ignore parameters and caller mode rules** — default-argument handling modelled by an optional mode argument; witness for the direct call.
* **C10 Simplification fixes exactly the parameters with equal bounds** — bounds tagged as list or ndarray; equality of bounds by the carrier; proof through C08.
* **C11 Initial guesses respect bounds** — guess functions modelled with oracle draws; inequality proofs over XR; witness for sigmoid_step over floats.
* **C12 Trend models match their documented formulas** — pointwise specifications (`nth`) for any carrier, spike by index arithmetic on lists.
* **C13 Shape guarantees of trend models** — Reals: monotonicity of exp, sign arguments.
* **C14 Weekday seasonality depends on the weekday only** — weekday from day number; specification through a separate 7-way table; periodicity by Z arithmetic.
* **C15 Month seasonality depends on the calendar month only, January being the baseline** — civil calendar proved correct (round trip); specification through month number; guess inconsistency stated as equation.
* **C16 Yearly Fourier seasonality is a linear, 4-year periodic function of the day** — sum over harmonics modelled as matmul; periodicity from `sin_period` over Reals.
* **C17 Dummy models apply their effect exactly on the masked samples** — mask functions modelled; pointwise specification.
* **C18 UK and Italian holiday rules fall on the intended days** — holiday observance rules modelled on day numbers; proofs for all years by calendar arithmetic.
* **C19 Calendar and date-list models apply one parameter per list** — fold of + / * over dummies; induction over the list of calendars.
* **C20 Naive forecast repeats the last known actual** — the merge/sort/shift/ffill/bfill pipeline is modelled operation by operation; specification: `last non-null before` defined by its own recursion.
* **C21 Seasonal naive forecast repeats the last known value of the same weekday** — group-by-weekday pipeline modelled; same style of specification.
* **C22 Frequency detection ignores order and duplicates** — sort+dedup modelled; specification on the set of dates with `min gap` characterised by quantifiers.
* **C23 Regular series are recognised** — through C22 and calendar arithmetic, for all starts/lengths.
* **C24 Date-derived x counts days from the Monday of the first row's week** — Z arithmetic.
* **C25 Date extrapolation grid covers actuals plus horizon with the x used in fitting** — `date_range` modelled for fixed-step and anchored frequencies; Z arithmetic.
* **C26 Numeric extrapolation grid doubles the start offset** — index arithmetic; equation for all inputs.
* **C27 Frequency errors in extrapolation** — decision table proved by cases.
* **C28 AICc: domain, formula and monotonicity** — over XR with `ln`; monotonicity proofs in Reals.
* **C29 Perfect fits on long series crash the score** — double rounding of the division through Flocq's specification of primitive floats.
* **C30 Best result key selects a minimal score** — list induction.
* **C31 Gap filling keeps the data and completes the grid** — reindex/asfreq modelled on explicit grids; specification by membership.
* **C32 Residuals are absolute weighted deviations** — pointwise.
* **C33 Normalization sorts and preserves samples and is idempotent** — stable insertion sort; permutation, sortedness, idempotence.
* **C34 Normalization treats sources independently** — filter/sort commutation.
* **C35 Fit status is decided by sample count and validation** — decision table over an arbitrary optimizer oracle.
* **C36 Scoring never fails on length** — consequence of the branch conditions, for every oracle.
* **C37 Null and zero-weight samples do not influence a fit** — filter fusion: the fit only sees the filtered table.
* **C38 Samples sharing an x share one unit of weight** — counting lemma on lists; sum over the group over XR.
* **C39 Candidate list is all combinations without repetition** — list membership, NoDup of names, first-occurrence order.
* **C40 Automatic seasonality follows data coverage** — threshold decision table on spans and gaps.
* **C41 Best fit is unique and minimal** — any sort (permutation + sorted) resolving ties arbitrarily.
* **C42 Forecast output keeps the actuals and only the requested fits** — structure of the concatenations/merges.
* **C43 Multi-source forecast equals independent forecasts** — filter by source commutes with the pipeline; two-run non-interference.
* **C44 Outlier detection is well-behaved** — pipeline modelled step by step with pandas quantile; XR algebra for invariances.
* **C45 Ignoring outliers only zeroes spike weights** — pointwise on the weight column.
* **C46 Prediction interval bounds are ordered** — percentile modelled as numpy linear interpolation; monotone in q for every sample list.
* **C47 Prediction interval table partitions the forecast** — partition of rows; for every sampling oracle.
* **C48 Intervals widen every n_cum samples** — index arithmetic on cumsum/repeat.
* **C49 Widening period and interval errors by frequency** — decision table.
* **C50 Plot grid has a cell per source** — Z.sqrt_up arithmetic; cell placement loop modelled as state machine with invariant.
* **C51 Command line output location** — string functions (basename, dirname, split) modelled; proofs by string induction.
* **C52 Composition type is reported correctly** — case analysis.
* **C53 Ignored samples are hidden from naive models unless they share their position** — left merge modelled; membership specification, witness for the leak.
* **C54 Start date filter** — filter lemma.
* **C55 Default trend and calendar gating** — decision table.
* **C56 Automatic additive/multiplicative choice exceptions** — decision table with the correlation as an oracle.
* **C57 Sigmoid x scaling is consistent between fit and forecast** — both paths modelled; equality by Z arithmetic.
* **C58 Fitted simplified models cannot be extrapolated** — composition of C10 with extrapolation; witness run and general length-mismatch theorem.
* **C59 Plot return codes** — case analysis on the output, the path and the libraries.
* **C60 Evidence for multiplicative composition** — textbook statistics over the reals against the modelled statistics; affine invariance of the sample variance.
* **C61 Composed forecasts** — the extrapolation grid depends on the model only through its scaling; entrywise evaluation of compositions.
* **C62 Lists of forecasts** — induction over the list.
* **C63 Order of the input rows** — sorting by distinct keys is canonical; arithmetic of week origins.
* **C64 Dates of a forecast** — strict monotonicity of the extrapolation grid carried through the loop over candidates.
* **C65 Exact data are recovered** — least squares over the reals with the modelled residuals; the optimizer is only assumed to minimize.
* **C66 Weighted least squares** — first-order conditions of a minimum of a quadratic; algebra of the regression line.
* **C67 Metadata and labels** — the loop over candidates described entry by entry; reading of the label strings.
* **C68 Forecasts agree with the fit** — the grid index determines x; pointwise models are closed under sums and products.
* **C69 Candidate lists** — independent description of combining two lists, proved of the modelled functions.
* **C70 Fits complete** — case analysis of fit_model with the exceptions of every step excluded; induction over compositions.
* **C71 Forecasts complete** — every step of run_forecast_single shown to succeed on a regular series: normalisation, outlier removal, composition, interpolation, fits, extrapolation, prediction intervals.
* **C72 Least-squares fits are unique and linear in the data** — both fits satisfy the normal equations of C66; the weighted sum of squares of the difference of their predictions vanishes.
* **C73 Forecasts do not depend on the unit or the zero of the values** — step-by-step commutation of every stage (outliers, weights, interpolation, fits by C72, extrapolation, selection, intervals) with y -> k y + h.
* **C74 The command line** — argparse is modelled (classification of words, abbreviations, consumption); a word list parses iff it is the rendering of settings.
* **C75 Moving the calendar by whole weeks** — every stage of run_forecast commutes with moving the dates; labels of date ranges are erased on both sides.
* **C76 Inputs of a list of forecasts** — run_l_forecast unfolded to C62; the length of the fitted series is bounded by that of the table, so the ramp is never added.
* **C77 The debugging table** — both tables are computed by one modelled fit_model; case analysis of its branches, carried through the loop over candidates.
* **C78 Least-squares fits exist** — orthogonal projection by induction on the number of coefficients; the optimizer picks a minimum by the choice axiom of the standard library.
* **C79 Monthly and yearly forecasts complete** — the proof of C71 over an abstract set of dates, instantiated with the days of months and years: no period is missing, so filling in leaves the rows as they are.
* **C80 Exact models win and carry no doubt** — centred residuals of equal misses are zero, so all draws are; an exact fit scores with the replacement cost 1e-320, which every rival's score exceeds; the table of the chosen model is the input of get_pi.
* **C81 Only the ratios of the weights matter** — residuals are multiplied by the factor, so the same parameters are the best; scores move by the same amount, so their order and the first of the sorted scores stay; outlier removal, gating and intervals test weights only for zero.
* **C82 Names identify models and days** — digits of fixed width compare like numbers; the day after a date has a larger year, month, day triple, so triples compare like day numbers.
* **C83 The mask marks the rows that gap filling added** — grid points are whole days apart, so that between neighbouring samples x grows by at least one per grid point and the truncated interpolation stays strictly between them; counting by inclusion of duplicate-free lists.
* **C84 Switching the cache off changes no fit and no forecast** — the candidates chosen by default are closed under the same building rules, so C07 applies to each of them; the residual functions handed to the optimizer are then equal (functional extensionality).
* **C85 Names of series are only labels** — three steps: the source argument only reaches labels (no condition on models); all steps for one series commute with erasing the source column; restricting a renamed table to a new name is renaming the restriction, which C43 turns into the statement about tables.
* **C86 The order of the lists of models does not matter** — names identify compositions (the parsing argument of C05 on null-free trees); every step that builds candidates preserves having the same members; after deduplication and the sort by name the lists are equal.
* **C87 Candidates that lose leave no trace** — every step that builds candidates is monotone, so the sorted lists are sublists; fits are per model; a stable sort keeps the first minimal row first among fewer; the rows kept for the best fit are those of one fit.
* **C88 A longer horizon only appends** — the end of the horizon is monotone in the years (rounding half to even, month arithmetic), grids are sorted lists of all grid points up to the end, hence prefixes; models are shown to commute with cutting off later samples; residuals and past rows of the interval table are unchanged because added rows come after all actuals.
* **C89 Values of samples with weight zero do not matter** — values of weight zero are replaced by missing ones and every step is shown to commute with that: normalisation, filtering, fits on positive weights, gap filling, the table for naive models, assembly; residuals of the interval table join by date with usable samples only, so hidden rows contribute nothing.
* **C90 Intervals are bounded by the errors seen** — a linearly interpolated percentile lies between the least and the greatest value; a simulated deviation is one centred residual, plus the sum of i div step + 1 others after the last sample; a mean lies between the bounds of its terms.
* **C91 Optional columns default as documented** — normalisation is a function of the expected rows (C33); a weight column of ones gives the same fitted table, and the table of actuals does not contain the input weights; blanking the source column changes nothing for models that ignore it.
* **C92 Shaded intervals of a plot are the intervals of the forecast** — the forecast rows of a series are contiguous in the table, whether one series (actuals, past, future) or several (sorted by source and kind); then the condition of fill_between holds on one stretch; the order of the bounds is C46.
* **C93 Gap filling is idempotent** — a filled table is equally spaced, or its smallest gap falls into the range of days of its own frequency (28 to 31, 89 to 92, 365 to 366, from the calendar theorems), so that the same grid is made again; a column interpolated once has nulls only before its first value.
* **C94 Samples entered several times** — the gradients of the two least-squares problems are proportional (every sample k times) or equal (means), so a solution of the normal equations of one solves the other; solutions agree on all samples of positive weight.
* **C95 A further component never worsens the fit and is chosen iff it pays for its parameters** — a minimizer of the smaller problem is carried over to a parameter vector of the larger one with the same residuals; scores of positive costs are the closed formula, whose difference separates into penalty and logarithm; mutual containment makes the normal equations equivalent.
* **C96 Fixing parameters** — residuals of the fixed model are those of the original at the filled-in vector; minima over a subset are compared with the minimum over all vectors, and equal costs force equal predictions by the normal equations.
* **C97 A forecast that comes true confirms the fit** — the further samples contribute nothing to the loss or to its gradient at the fitted parameters, so these still satisfy the normal equations of the larger table, whose predictions are unique.
* **C98 Errors in the values are not amplified by a fit** — the difference of two fits satisfies the normal equations for the difference of the values, which makes the changes of the residuals orthogonal to the changes of the fitted values; the costs are compared by the Cauchy-Schwarz inequality.
* **C99 Samples pull the fit towards them** — the gradients of both fits differ by the further pull of the one sample; along the difference of the parameters this gives a square that cannot be negative.
* **C100 Levels are the means of their days, and days of their own are fitted exactly** — the normal equations are applied to the curve that marks the group; where the curves are constant on the group the sum becomes a mean, and where it has one sample the sum is that sample alone.
* **C101 Errors that are the same on all days only move the intervals** — the residuals of the moved table are the residuals moved by the difference; centring removes it, so the simulated deviations are identical; per source by filtering.
* **C102 Mirrored series have mirrored intervals** — residuals, centring, sampling and cumulating commute with the change of sign; the interpolated quantile at 1 - p of the negated list is minus the quantile at p, by the uniqueness of the specification quantile_of.
* **C103 Days without a prediction cost a naive model nothing** — the residual list is related sample by sample to the predictions, nansum skips the null ones; C21 gives null predictions in the first week; the score order follows from C28.
