{"id": "C01", "title": "Sum of models evaluates to the sum of the parts", "statement": "Calling (m1 + m2) with parameters p1 followed by p2 (p1 as long as m1.n_params) returns, sample by sample, m1(p1) + m2(p2), each part being evaluated in additive mode whatever mode the composite is called in; any error raised by a part is the error raised by the composite.", "quantifier": "for all models m1, m2 not named 'null', all sample arrays, parameter vectors, keyword arguments and both values of is_mult", "why_tests_cant": "models are arbitrary closures nested to arbitrary depth and arrays have arbitrary length; a test samples a few", "anchors": ["anticipy/forecast_models.py:_get_f_add_2_f_models", "anticipy/forecast_models.py:ForecastModel.__add__", "anticipy/forecast_models.py:ForecastModel.__call__"]}
{"id": "C02", "title": "Product of models evaluates to the product of the parts", "statement": "Calling (m1 * m2) with parameters p1 followed by p2 returns, sample by sample, m1(p1) * m2(p2), each part evaluated in multiplicative mode whatever mode the composite is called in.", "quantifier": "for all models m1, m2 not named 'null', all sample arrays, parameter vectors, keyword arguments and both values of is_mult", "why_tests_cant": "same as C01: quantifies over arbitrary closures, depths and lengths", "anchors": ["anticipy/forecast_models.py:_get_f_mult_2_f_models", "anticipy/forecast_models.py:ForecastModel.__mul__"]}
{"id": "C03", "title": "Parameter bookkeeping is consistent for every composite", "statement": "For any model built from the shipped models with + and *: n_params is the total over the non-null leaves; the initial guess for a series has exactly n_params entries; both bound vectors have exactly n_params entries. So a fitted vector can always be split back into the parts. Called with a wrong number of parameters, models with a formula of their own raise ValueError (TypeError without any); a Fourier season wants all 20 parameters, weekday and month seasons raise IndexError exactly when a day occurs whose parameter is missing and ignore spare ones. Without dates, weekday and month seasons raise AttributeError and the other dated models TypeError.", "quantifier": "for all expression trees over the shipped models, all series with at least the samples a fit requires, all random draws", "why_tests_cant": "infinitely many expression trees and series; tests try a handful of pairs", "anchors": ["anticipy/forecast_models.py:ForecastModel.__add__", "anticipy/forecast_models.py:ForecastModel.__mul__", "anticipy/forecast_models.py:_get_f_add_2_f_init_params", "anticipy/forecast_models.py:_get_f_concat_2_bounds", "anticipy/forecast_models.py:_get_f_init_params_default", "anticipy/forecast_models.py:_get_f_bounds_default"]}
{"id": "C04", "title": "Null model disappears from every composition", "statement": "Composing with the null model under + or *, at any depth, gives the same model as leaving it out: same name, parameters, predictions, guesses, bounds, validation and cache. A tree of nulls only is the null model, which predicts 0 in additive and 1 in multiplicative mode.", "quantifier": "for all expression trees over arbitrary models", "why_tests_cant": "arbitrary nesting depth", "anchors": ["anticipy/forecast_models.py:ForecastModel.__add__", "anticipy/forecast_models.py:ForecastModel.__mul__", "anticipy/forecast_models.py:_f_model_null", "anticipy/forecast_models.py:model_null"]}
{"id": "C05", "title": "Composite names identify the composition", "statement": "Two composites built from models whose names contain no parentheses compare equal (==, and therefore deduplicate) only if they are the same composition of equally named models: names of different trees never clash. Equality, ordering and hashing depend on the name only.", "quantifier": "for all pairs of expression trees whose leaf names are non-empty and free of '(' ')' '+' '*'", "why_tests_cant": "needs injectivity of a printing function over all trees", "anchors": ["anticipy/forecast_models.py:ForecastModel.__eq__", "anticipy/forecast_models.py:ForecastModel.__lt__", "anticipy/forecast_models.py:ForecastModel.__add__", "anticipy/forecast_models.py:ForecastModel.__mul__", "anticipy/forecast.py:get_list_model"]}
{"id": "C06", "title": "A composite accepts an input iff every part accepts it", "statement": "validate_input of a composite is True exactly when validate_input of each non-null part is True, regardless of nesting and of repeated validators; a validator rejects by raising AssertionError, and any other exception propagates. A validator that merely returns False does NOT reject, contrary to the class documentation.", "quantifier": "for all expression trees, validators and inputs", "why_tests_cant": "validators are arbitrary functions and the composite list is de-duplicated through a set whose order is unspecified", "anchors": ["anticipy/forecast_models.py:ForecastModel.validate_input", "anticipy/forecast_models.py:ForecastModel.__add__", "anticipy/forecast_models.py:_f_validate_input_decay", "anticipy/forecast_models.py:_f_validate_input_season_wday"]}
{"id": "C07", "title": "Caching does not change predictions", "statement": "Evaluating a composite of shipped models with the cache variables prepared by init_cache gives the same result as evaluating it without any cache, provided dummy models with different masks have different names. With two dummies of the same name and different masks the cached prediction is wrong.", "quantifier": "for all expression trees over cacheable models, all dates, all parameters", "why_tests_cant": "tests compare cached and uncached fits on a few models; the collision needs a specific combination", "anchors": ["anticipy/forecast_models.py:ForecastModel.init_cache", "anticipy/forecast_models.py:_f_init_cache_a_month", "anticipy/forecast_models.py:_f_init_cache_a_weekday", "anticipy/forecast_models.py:_f_init_cache_a_t_fourier", "anticipy/forecast_models.py:_get_f_model_dummy", "anticipy/forecast.py:optimize_least_squares"]}
{"id": "C08", "title": "Fixing parameters is partial application", "statement": "fix_params_fmodel(m, fixed) has as many parameters as there are nulls in fixed; called with those it predicts what m predicts with the nulls filled in, in order; its guess and bounds are the corresponding entries of m's. Although the fixed vector is mutated by calls, no sequence of earlier calls changes the result of a later one.", "quantifier": "for all models, all fixed vectors of the right length, all histories of calls", "why_tests_cant": "the shared mutable array makes results potentially history dependent; tests make one call", "anchors": ["anticipy/forecast_models.py:fix_params_fmodel"]}
{"id": "C09", "title": "Fully fixed models ignore parameters and caller mode rules", "statement": "get_fixed_model returns the model unchanged if it has no parameters, raises ValueError when the number of fixed values is wrong, and otherwise yields a 0-parameter model predicting m(fixed) in the mode passed by the caller; the is_mult given at construction is only used when f_model is called directly without mode, never through a plain call of the model, so create_fixed_spike_ignored called directly yields 0 instead of 1 outside the spike. create_fixed_step(diff, x) predicts diff from x on and the neutral value of the mode before; create_fixed_spike(diff, i, n) predicts diff on the n samples from the i-th and the neutral value elsewhere; without a mode they are additive.", "quantifier": "for all models, fixed vectors and inputs", "why_tests_cant": "depends on default-argument plumbing for arbitrary models", "anchors": ["anticipy/forecast_models.py:get_fixed_model", "anticipy/forecast_models.py:create_fixed_step", "anticipy/forecast_models.py:create_fixed_spike", "anticipy/forecast_models.py:create_fixed_spike_ignored"]}
{"id": "C10", "title": "Simplification fixes exactly the parameters with equal bounds", "statement": "simplify_model returns the same model when no parameter has equal finite lower and upper bounds; otherwise the result's free parameters are those with different bounds, and predictions agree with the original model with the pinned values inserted. If bounds are plain lists and some are equal it raises TypeError.", "quantifier": "for all models and inputs", "why_tests_cant": "arbitrary bound vectors", "anchors": ["anticipy/forecast_models.py:simplify_model", "anticipy/forecast.py:fit_model"]}
{"id": "C11", "title": "Initial guesses respect bounds", "statement": "validate_initial_guess is True iff every entry lies within its bounds. The guesses of the shipped models lie within their own bounds for every series (constant, linear, non-decreasing linear, decay on positive data, step, ramp on series with distinct increasing x, seasonality), so fitting does not abort; for sigmoid_step this fails on ordinary series. Without values the guess is random: each parameter anywhere in its range, independently of the others, also in sums and products; the decay guess is zero and the spike guess has one number instead of three. A missing value makes the whole Fourier guess missing, and guesses that read the samples fail if there are none. With values: the constant starts at their mean plus a draw from [0, 1); the line goes from the first value to the last over the number of different x less one (slope cut at 0 for the non-decreasing line); steps start where the largest change is (the first of them), spikes at the largest increase, ramps at the sharpest bend outside the first and last 15% of the samples; month seasons start at the monthly means relative to December, Fourier seasons at draws times the range of the values. The bounds of the sigmoid step and the ramp need samples and fail without; those of the other trend models do not depend on the data. No model guesses for samples with a missing position (ValueError).", "quantifier": "for all series and random draws", "why_tests_cant": "a guess outside bounds aborts the whole forecast with AssertionError; whether some series triggers it cannot be settled by examples", "anchors": ["anticipy/forecast_models.py:validate_initial_guess", "anticipy/forecast_models.py:f_init_params_linear_nondec", "anticipy/forecast_models.py:f_bounds_linear_nondec", "anticipy/forecast_models.py:f_init_params_decay", "anticipy/forecast_models.py:f_bounds_decay", "anticipy/forecast_models.py:_f_init_params_ramp", "anticipy/forecast_models.py:_f_init_bounds_ramp", "anticipy/forecast_models.py:_f_init_params_sigmoid_step", "anticipy/forecast_models.py:_f_init_bounds_sigmoid_step", "anticipy/forecast.py:optimize_least_squares"]}
{"id": "C12", "title": "Trend models match their documented formulas", "statement": "constant, linear, quasilinear, exponential, decay, step, two-step, ramp, spike, step_date, spike_date and sigmoid models return one value per sample equal to the documented formula at that sample, with the documented boundary behaviour (step and ramp include their start point, spikes include start and exclude end) and neutral value 0 (additive) or 1 (multiplicative) where the effect is off. The spike model counts positions: it can be drawn iff both ends are finite, start after position -1 and lie in order within the samples (up to truncation); otherwise it fails with OverflowError for infinite ends and ValueError else.", "quantifier": "for all sample arrays and parameters", "why_tests_cant": "formulas over all arrays and boundary positions", "anchors": ["anticipy/forecast_models.py:_f_model_constant", "anticipy/forecast_models.py:_f_model_linear", "anticipy/forecast_models.py:_f_model_quasilinear", "anticipy/forecast_models.py:_f_model_exp", "anticipy/forecast_models.py:_f_model_decay", "anticipy/forecast_models.py:_f_step", "anticipy/forecast_models.py:_f_n_steps", "anticipy/forecast_models.py:_f_ramp", "anticipy/forecast_models.py:_f_model_spike", "anticipy/forecast_models.py:_f_model_step_date", "anticipy/forecast_models.py:_f_model_spike_date", "anticipy/forecast_models.py:_f_sigmoid"]}
{"id": "C13", "title": "Shape guarantees of trend models", "statement": "On real numbers: a non-decreasing linear fit (slope within its bounds) is non-decreasing; decay with parameters in bounds is monotone towards its level; a sigmoid stays between its neutral value and its level and is monotone; linear+ramp is continuous piecewise linear with a single slope change at the ramp start.", "quantifier": "for all real parameters in bounds and all pairs of samples", "why_tests_cant": "inequalities over real numbers", "anchors": ["anticipy/forecast_models.py:f_bounds_linear_nondec", "anticipy/forecast_models.py:f_bounds_decay", "anticipy/forecast_models.py:_f_sigmoid", "anticipy/forecast_models.py:_f_ramp"]}
{"id": "C14", "title": "Weekday seasonality depends on the weekday only", "statement": "The weekday model assigns Monday the neutral value (0 additive, 1 multiplicative) and each other weekday its own parameter; dates a whole number of weeks apart get the same value. Input is accepted iff all seven weekdays occur.", "quantifier": "for all dates and parameters", "why_tests_cant": "infinitely many dates", "anchors": ["anticipy/forecast_models.py:_f_model_season_wday", "anticipy/forecast_models.py:_f_validate_input_season_wday", "anticipy/forecast_models.py:_f_init_cache_a_weekday"]}
{"id": "C15", "title": "Month seasonality depends on the calendar month only, January being the baseline", "statement": "The month model assigns January (not December, as its comment says) the neutral value and each other month its own parameter; the initial guess computes month means relative to December and is thus shifted by one month relative to what the model uses.", "quantifier": "for all dates, series and parameters", "why_tests_cant": "infinitely many dates and series", "anchors": ["anticipy/forecast_models.py:_f_model_season_month", "anticipy/forecast_models.py:_f_init_params_season_month", "anticipy/forecast_models.py:_f_init_cache_a_month"]}
{"id": "C16", "title": "Yearly Fourier seasonality is a linear, 4-year periodic function of the day", "statement": "The Fourier model value depends only on the day (time of day ignored), is linear in its 20 parameters, and repeats exactly every 1461 days (over the reals).", "quantifier": "for all dates and parameters", "why_tests_cant": "trigonometric identity over all days", "anchors": ["anticipy/forecast_models.py:_f_model_yearly_season_fourier", "anticipy/forecast_models.py:_f_init_cache_a_t_fourier"]}
{"id": "C17", "title": "Dummy models apply their effect exactly on the masked samples", "statement": "A dummy model gives A on masked samples and 0 elsewhere in additive mode. In multiplicative mode it gives 1 elsewhere and A+1 (documentation says A) on masked samples. Numeric lists mask exactly the listed x, date lists exactly the listed timestamps; an empty list is refused. The shipped dummy models mark exactly December 25th, the first day of each month, and Monday to Friday.", "quantifier": "for all masks, samples, parameters and lists", "why_tests_cant": "arbitrary masks and lists", "anchors": ["anticipy/forecast_models.py:_get_f_model_dummy", "anticipy/forecast_models.py:get_model_dummy", "anticipy/forecast_models.py:_get_f_dummy_from_list", "anticipy/forecast_models.py:_validate_f_dummy", "anticipy/forecast_models.py:model_season_wday_2", "anticipy/forecast_models.py:model_dummy_christmas", "anticipy/forecast_models.py:model_dummy_month_start"]}
{"id": "C18", "title": "UK and Italian holiday rules fall on the intended days", "statement": "For every year: UK Early May holiday is the first Monday in May and Spring holiday the last Monday in May; observed New Year, Christmas and Boxing Day are never on a weekend, Christmas and Boxing Day never coincide and are at most two days later than the nominal date. The August rule is the last Monday in August except when 31 August is a Monday, when it is a week early.", "quantifier": "for all years of the proleptic Gregorian calendar", "why_tests_cant": "property over all years; tests check no specific year", "anchors": ["anticipy/forecast_models.py:CalendarBankHolUK", "anticipy/forecast_models.py:CalendarChristmasUK", "anticipy/forecast_models.py:CalendarChristmasIta", "anticipy/forecast_models.py:CalendarBankHolIta"]}
{"id": "C19", "title": "Calendar and date-list models apply one parameter per list", "statement": "get_model_from_calendars and get_model_from_datelist have one parameter per calendar/list; prediction is the sum (product) over lists of the individual dummy effects, so the i-th parameter only affects dates in list i; calendars without rules are ignored and no calendar at all is refused. The initial guess is neutral in additive mode, but in multiplicative mode it doubles every holiday.", "quantifier": "for all collections of calendars/lists, dates, parameters", "why_tests_cant": "arbitrary many lists with arbitrary overlaps", "anchors": ["anticipy/forecast_models.py:get_model_from_calendars", "anticipy/forecast_models.py:get_model_from_datelist"]}
{"id": "C20", "title": "Naive forecast repeats the last known actual", "statement": "On samples sorted by x with distinct x, the naive model predicts at each position the last non-null actual strictly before it, the earliest one where none exists before, and beyond the actuals the last non-null actual for every future position. One value is returned per requested sample. Without actuals it raises ValueError. It succeeds iff there is a table of actuals, no cached column is passed, dates (if given) are as many as samples, and dates are given if the actuals have them; else it raises TypeError (cached column) or ValueError.", "quantifier": "for all actuals tables with distinct x and all requested positions", "why_tests_cant": "null runs and gaps of arbitrary shape", "anchors": ["anticipy/forecast_models.py:_f_model_naive", "anticipy/forecast_models.py:model_naive"]}
{"id": "C21", "title": "Seasonal naive forecast repeats the last known value of the same weekday", "statement": "The seasonal naive model predicts, for each actuals date, the last non-null actual of an earlier sample on the same weekday (null if none); for each later date the last non-null actual on that weekday. Values come out in date order when the requested dates extend the actuals. It succeeds iff there is a dated table of actuals, no cached column is passed and there is one date for each sample; else it raises TypeError (cached column), AttributeError (no dates) or ValueError.", "quantifier": "for all actuals tables with distinct x, and all requested dates", "why_tests_cant": "null runs and gaps of arbitrary shape", "anchors": ["anticipy/forecast_models.py:_f_model_snaive_wday", "anticipy/forecast_models.py:_fillna_wday"]}
{"id": "C22", "title": "Frequency detection ignores order and duplicates", "statement": "detect_freq depends only on the set of dates; it returns None for fewer than two distinct dates, and otherwise is decided by the smallest gap between distinct dates (plus day/month/weekday facts) exactly as tabulated: 1h H; 7d W-<weekday of first date>; 28..31d MS if all dates are first of month else M; 89..92d Q; 365..366d YS if all are 1 January else Y; otherwise D if at least 23h, else None.", "quantifier": "for all multisets of dates", "why_tests_cant": "all permutations and duplications of all date sets", "anchors": ["anticipy/model_utils.py:detect_freq"]}
{"id": "C23", "title": "Regular series are recognised", "statement": "Every regular series with at least two samples is recognised: hourly H, daily D, weekly W-<its weekday>, month starts MS, month ends M, quarter starts or quarter ends Q, year starts YS, year ends Y.", "quantifier": "for all starts and lengths in the Gregorian calendar", "why_tests_cant": "calendar arithmetic over all start dates and lengths", "anchors": ["anticipy/model_utils.py:detect_freq"]}
{"id": "C24", "title": "Date-derived x counts days from the Monday of the first row's week", "statement": "For midnight dates the x column derived from dates satisfies x(first row) = weekday of first row, differences of x equal differences in days, x mod 7 is the weekday; the origin is the first row's date, not the earliest, so earlier rows may get negative x.", "quantifier": "for all date columns", "why_tests_cant": "all dates", "anchors": ["anticipy/model_utils.py:get_normalized_x_from_date", "anticipy/forecast.py:normalize_df"]}
{"id": "C25", "title": "Date extrapolation grid covers actuals plus horizon with the x used in fitting", "statement": "For daily, hourly and weekly frequencies with start date on the grid, the extrapolation grid starts at the first actual, has constant step, ends within one step of last actual + horizon, contains every grid date of the actuals; its x values equal x_start plus whole days since start, hence coincide with the x of the same dates used in fitting for midnight dates. x is divided by 100 exactly for models named logistic or sigmoid.", "quantifier": "for all start/end dates, frequencies and horizons", "why_tests_cant": "unbounded date ranges and horizons", "anchors": ["anticipy/model_utils.py:get_s_x_extrapolate", "anticipy/forecast.py:extrapolate_model"]}
{"id": "C26", "title": "Numeric extrapolation grid doubles the start offset", "statement": "For series without dates the forecast index runs from the first x over the actuals plus 100 samples per year, excluding the end point, and the x fed to the model is index + first x: it equals the fitted x only if the first x is 0. With horizon 0 the last actual is not predicted.", "quantifier": "for all integer start/end/x_start and horizons", "why_tests_cant": "all numeric ranges; tests use x_start 0", "anchors": ["anticipy/model_utils.py:get_s_x_extrapolate", "anticipy/forecast.py:extrapolate_model"]}
{"id": "C27", "title": "Frequency errors in extrapolation", "statement": "Extrapolation raises AssertionError iff a weekly frequency does not match the weekday of the start date, TypeError for quarterly frequency, ValueError for a fractional number of months or years; an undetected frequency is silently treated as weekly.", "quantifier": "for all start dates, frequencies and horizons", "why_tests_cant": "error conditions over all inputs", "anchors": ["anticipy/model_utils.py:get_s_x_extrapolate", "anticipy/model_utils.py:dict_dateoffset_input", "anticipy/model_utils.py:dict_freq_units_per_year"]}
{"id": "C28", "title": "AICc: domain, formula and monotonicity", "statement": "get_aic_c raises ValueError iff n <= n_params + 1 or n = 0; otherwise for positive error it equals n ln(E/n) + 2k + 2k(k+1)/(n-k-1); it is strictly increasing in the error, and for equal error strictly increasing in the number of parameters; for zero error it is -infinity for one-parameter models and a finite number below any realistic positive-error score otherwise.", "quantifier": "for all n, k and errors (real arithmetic)", "why_tests_cant": "inequalities over reals and integers", "anchors": ["anticipy/model_utils.py:get_aic_c"]}
{"id": "C29", "title": "Perfect fits on long series crash the score", "statement": "In double precision the zero-error branch of get_aic_c takes the logarithm of (10^-320)/n, which underflows to 0 for every n >= 4048, so a perfect fit of a model with k != 1 on such a series raises instead of returning a score; below that it returns a finite score.", "quantifier": "for all n", "why_tests_cant": "threshold located by rounding semantics for all n", "anchors": ["anticipy/model_utils.py:get_aic_c", "anticipy/forecast.py:fit_model"]}
{"id": "C30", "title": "Best result key selects a minimal score", "statement": "get_s_aic_c_best_result_key returns None iff the series is empty or all null; if exactly one score is -infinity returns its key; without -infinity returns the position of the first minimum among non-null scores; with two or more -infinity scores it raises ValueError.", "quantifier": "for all score series", "why_tests_cant": "arbitrary mixes of null, infinite and finite scores", "anchors": ["anticipy/model_utils.py:get_s_aic_c_best_result_key"]}
{"id": "C31", "title": "Gap filling keeps the data and completes the grid", "statement": "interpolate_df returns the input unchanged if x (or dates) are regularly spaced; otherwise, with duplicates it raises ValueError, and without duplicates the result has exactly one row per grid point between first and last, original rows on the grid keep their values, filled rows have null y (interpolate_y=False) or linear interpolation. Numeric x are always on the grid, dates are if they match the detected frequency; otherwise samples are silently dropped or it fails with ValueError (e.g. mid-month dates with a gap).", "quantifier": "for all frames", "why_tests_cant": "arbitrary gap patterns", "anchors": ["anticipy/model_utils.py:interpolate_df"]}
{"id": "C32", "title": "Residuals are absolute weighted deviations", "statement": "get_residuals returns one non-negative value |w*(y - prediction)| per sample (|y - prediction| without weights).", "quantifier": "for all series, models, parameters, weights", "why_tests_cant": "arbitrary arrays", "anchors": ["anticipy/forecast.py:get_residuals"]}
{"id": "C33", "title": "Normalization sorts and preserves samples and is idempotent", "statement": "normalize_df keeps exactly the rows with their y, weight, date values, ordered by source then x (ties in any order), computes x from date or row position only if absent, returns None for an empty frame, AssertionError if y is missing. Normalizing a normalized frame changes nothing. Forecasting from the normalized frame gives the same result as forecasting from the frame. The input is not modified.", "quantifier": "for all frames", "why_tests_cant": "permutation/sortedness/idempotence over all frames; the app normalizes twice", "anchors": ["anticipy/forecast.py:normalize_df", "anticipy/app.py:run_forecast_app"]}
{"id": "C34", "title": "Normalization treats sources independently", "statement": "The normalized rows of a source are the same as when normalizing that source's rows alone.", "quantifier": "for all multi-source frames", "why_tests_cant": "interleavings of arbitrary many sources", "anchors": ["anticipy/forecast.py:normalize_df"]}
{"id": "C35", "title": "Fit status is decided by sample count and validation", "statement": "With v usable samples (y non-null, weight positive) and k = n_params: status TS_TOO_SHORT iff 0 < v < k+2; otherwise INPUT_ERR iff validation fails; otherwise FIT or NO-FIT following the optimizer (0-parameter models always FIT). With no usable samples fit_model raises instead of reporting EMPTY_TS.", "quantifier": "for all models, frames and optimizer behaviours", "why_tests_cant": "optimizer is a black box; all its outcomes must be covered", "anchors": ["anticipy/forecast.py:fit_model"]}
{"id": "C36", "title": "Scoring never fails on length", "statement": "Whenever fit_model computes AICc the series is long enough for it: the 'too short for AIC_C' error is never raised from a fit.", "quantifier": "for all models, frames and optimizer behaviours", "why_tests_cant": "interaction of two thresholds", "anchors": ["anticipy/forecast.py:fit_model", "anticipy/model_utils.py:get_aic_c"]}
{"id": "C37", "title": "Null and zero-weight samples do not influence a fit", "statement": "fit_model's result for a frame equals its result for the frame without rows whose y is null or whose weight is zero, negative or null (except for the recorded weight range).", "quantifier": "for all models, frames and optimizer behaviours", "why_tests_cant": "arbitrary placement of ignored samples, black-box optimizer", "anchors": ["anticipy/forecast.py:fit_model"]}
{"id": "C38", "title": "Samples sharing an x share one unit of weight", "statement": "When x values repeat, each sample's residual weight is its weight divided by the number of usable samples at the same x; with unit weights the weights at each x add up to 1.", "quantifier": "for all frames", "why_tests_cant": "arbitrary multiplicities", "anchors": ["anticipy/forecast.py:fit_model"]}
{"id": "C39", "title": "Candidate list is all combinations without repetition", "statement": "get_list_model returns, for 'add', every trend+season once per distinct name in first-occurrence order; for 'mult' products; for 'both' sums then products; an empty or missing list on one side yields the other side's models.", "quantifier": "for all lists of models", "why_tests_cant": "arbitrary lists", "anchors": ["anticipy/forecast.py:get_list_model"]}
{"id": "C40", "title": "Automatic seasonality follows data coverage", "statement": "get_l_model_auto_season always contains the null model, is sorted by name, includes weekday seasonality iff the dates span more than 10.5 days with some gap of at most a day, yearly seasonality iff they span more than 547.5 days with some gap of at most 92 days, and their combination iff both; depends only on the set of dates.", "quantifier": "for all date multisets and season lists", "why_tests_cant": "thresholds over all date sets", "anchors": ["anticipy/forecast_models.py:get_l_model_auto_season"]}
{"id": "C41", "title": "Best fit is unique and minimal", "statement": "In the metadata of a single-source forecast, if any candidate fits, exactly the rows carrying the name of one fitted candidate are flagged best fit and its score is not above any other fitted candidate's; if none fits, none is flagged.", "quantifier": "for all candidate lists and fit outcomes, for any sort resolving ties arbitrarily", "why_tests_cant": "arbitrary scores incl. null/-inf and ties", "anchors": ["anticipy/forecast.py:run_forecast_single"]}
{"id": "C42", "title": "Forecast output keeps the actuals and only the requested fits", "statement": "The data table starts with the actuals in order, unchanged in date and y; then for each fitted candidate in name order its non-null forecast samples; without include_all_fits only the best fit's rows and the actuals remain. The actuals carry the weights of the prepared input (1 without a weight column), the forecasts weight 1.", "quantifier": "for all inputs and optimizer behaviours", "why_tests_cant": "end-to-end over a black-box optimizer", "anchors": ["anticipy/forecast.py:run_forecast_single", "anticipy/forecast.py:get_df_actuals_clean", "anticipy/forecast.py:_get_df_fcast_clean"]}
{"id": "C43", "title": "Multi-source forecast equals independent forecasts", "statement": "run_forecast on a frame with several sources returns the concatenation, in sorted source order, of the results of running each source alone; changing one source's rows does not affect the others. Empty input gives None.", "quantifier": "for all frames, models and optimizer behaviours", "why_tests_cant": "non-interference over all pairs of inputs", "anchors": ["anticipy/forecast.py:run_forecast", "anticipy/forecast.py:aggregate_forecast_dict_results", "anticipy/forecast.py:normalize_df"]}
{"id": "C44", "title": "Outlier detection is well-behaved", "statement": "get_model_outliers raises ValueError iff sample positions repeat; otherwise returns two masks with one flag per sample; changes are judged against fences 1.5 interquartile ranges below the lower and above the upper quartile, computed by linear interpolation of the ordered changes; spikes/steps are flagged only between changed samples of one change group (except, without dates, a step at x = 0); a series with constant increments has no outliers; a single jump, or bump larger than the slope, of a straight line is flagged as a step or spike at exactly that sample unless it is too close to the end; the earliest and latest samples of a dated series in order are never spikes, and next to every spike a changed sample of its group is not one; masks do not change when a constant is added to the series or it is scaled by a positive factor (real arithmetic).", "quantifier": "for all series", "why_tests_cant": "invariances over all series", "anchors": ["anticipy/forecast_models.py:get_model_outliers", "anticipy/forecast_models.py:get_iqr_thresholds"]}
{"id": "C45", "title": "Ignoring outliers only zeroes spike weights", "statement": "With find_outliers, the weights used for fitting are the original ones (1 if absent) except exactly at spike samples where they are 0; dates and y are unchanged; a series with a usable sample keeps one, if all its samples with a value have positive weight or the usable one is the earliest or the latest (a series whose only weighed sample is a spike loses it, and its forecast raises ValueError).", "quantifier": "for all frames", "why_tests_cant": "arbitrary masks", "anchors": ["anticipy/forecast.py:run_forecast_single", "anticipy/forecast_models.py:get_model_outliers"]}
{"id": "C46", "title": "Prediction interval bounds are ordered", "statement": "For percentiles 0 < q1 <= q2 <= 50 the columns satisfy q1 <= q2 <= 100-q2 <= 100-q1 at every forecast row, whatever residuals are sampled; percentiles outside (0,100) raise AssertionError.", "quantifier": "for all forecasts and all random samples (real arithmetic)", "why_tests_cant": "random sampling: tests see one draw", "anchors": ["anticipy/forecast.py:_df_add_pi_percentiles", "anticipy/forecast.py:_get_pi_single_source"]}
{"id": "C47", "title": "Prediction interval table partitions the forecast", "statement": "For one source get_pi returns first the non-null actuals, then the past forecast rows (date up to the last usable actual), then future rows, each with unchanged date, model and y: no row lost or duplicated, except null-y actuals and non-best fits; if no forecast row matches a usable actual the whole forecast is dropped and only the actuals are returned. For several sources the result is that of each source, sorted by source, is_actuals (forecast first) and date.", "quantifier": "for all forecasts and random samples", "why_tests_cant": "random sampling and arbitrary tables", "anchors": ["anticipy/forecast.py:get_pi", "anticipy/forecast.py:_get_pi_single_source"]}
{"id": "C48", "title": "Intervals widen every n_cum samples", "statement": "Future row i's sampled deviation is one residual plus the sum of the first floor(i/n_cum)+1 cumulative residuals; enough residuals are always drawn; the residuals sampled from have zero mean.", "quantifier": "for all row counts, n_cum >= 1 and samples", "why_tests_cant": "index arithmetic over all sizes", "anchors": ["anticipy/forecast.py:_get_pi_single_source"]}
{"id": "C49", "title": "Widening period and interval errors by frequency", "statement": "The widening step is max(1, floor(period days / days of data frequency)) with 365/30/7/1 days for Y/M/W/other: hourly and quarterly data count as daily. If the frequency of a dated table cannot be detected the function raises AttributeError.", "quantifier": "for all frequencies and n_cum", "why_tests_cant": "all frequency strings", "anchors": ["anticipy/forecast.py:_get_days_from_freq", "anticipy/forecast.py:get_pi", "anticipy/forecast.py:_get_pi_single_source", "anticipy/model_utils.py:detect_freq"]}
{"id": "C50", "title": "Plot grid has a cell per source", "statement": "For n >= 1 sources the grid is nrows = ceil(sqrt n) by ncols = ceil(n / nrows); sources get distinct in-range cells in row-major order, the remaining cells and only those are hidden, every row but the last is full and the last is not empty; each cell shows the rows of its source. Sources without actuals get no cell, and if there are several sources and no actuals the layout raises ZeroDivisionError.", "quantifier": "for all n >= 1", "why_tests_cant": "all n", "anchors": ["anticipy/forecast_plot.py:plot_forecast", "anticipy/forecast_plot.py:_matplotlib_forecast_create", "anticipy/forecast_plot.py:_plotly_forecast_create"]}
{"id": "C51", "title": "Command line output location", "statement": "The application writes <dir>/<stem>_fcast.csv and <dir>/<stem>_metadata.csv where stem is the input file name up to the first dot and dir is the parent of path_out (of path_in by default): a path_out folder given without trailing slash makes it write in the folder's parent; input files differing only after the first dot overwrite each other's output.", "quantifier": "for all paths", "why_tests_cant": "string manipulation over all paths", "anchors": ["anticipy/app.py:run_forecast_app"]}
{"id": "C52", "title": "Composition type is reported correctly", "statement": "The add_mult label is the requested mode when it is 'add' or 'mult'; with 'both' it is 'add' exactly for models whose name is among the additive candidates.", "quantifier": "for all models and lists", "why_tests_cant": "arbitrary lists", "anchors": ["anticipy/forecast.py:_get_model_is_add_mult"]}
{"id": "C53", "title": "Ignored samples are hidden from naive models unless they share their position", "statement": "The actuals table handed to naive models has null y at every position without a usable sample; but if an ignored (zero-weight) sample shares x with a usable one, its y is kept and can be the one used.", "quantifier": "for all frames", "why_tests_cant": "arbitrary weights and multiplicities", "anchors": ["anticipy/forecast.py:run_forecast_single", "anticipy/forecast_models.py:_f_model_naive"]}
{"id": "C54", "title": "Start date filter", "statement": "With date_start_actuals and dated input only samples at or after that date appear among the actuals and are fitted; for input without dates the argument is silently ignored.", "quantifier": "for all frames and dates", "why_tests_cant": "arbitrary frames", "anchors": ["anticipy/forecast.py:run_forecast_single"]}
{"id": "C55", "title": "Default trend and calendar gating", "statement": "By default the trend candidates are linear, plus linear+ramp iff the usable dates span more than 730 days; calendar models are only combined in iff usable dates span more than 365 days with some gap of at most one day; the default naive model is seasonal exactly for daily data.", "quantifier": "for all frames", "why_tests_cant": "thresholds over all date sets", "anchors": ["anticipy/forecast.py:_get_use_ramp", "anticipy/forecast.py:_get_use_calendar", "anticipy/forecast.py:run_forecast_single"]}
{"id": "C56", "title": "Automatic additive/multiplicative choice exceptions", "statement": "is_multiplicative returns False, without fitting anything, when some value is <= 0, dates are missing, the dates span less than 60 days, or fewer than 4 usable samples exist; otherwise it returns whether the correlation is at least 0.8.", "quantifier": "for all frames and correlations", "why_tests_cant": "all frames", "anchors": ["anticipy/model_utils.py:is_multiplicative"]}
{"id": "C57", "title": "Sigmoid x scaling is consistent between fit and forecast", "statement": "The x seen by a model at a date when extrapolating equals the x seen when fitting for the same date, including the division by 100 applied to the models named 'sigmoid' and 'logistic' (composites containing them are not scaled in either); false for hourly data whose first usable sample is not at the time of day of the first sample, and for numeric x, where the first x is added twice.", "quantifier": "for all models, dates", "why_tests_cant": "two code paths must agree for all models", "anchors": ["anticipy/model_utils.py:model_requires_scaling", "anticipy/model_utils.py:apply_a_x_scaling", "anticipy/model_utils.py:get_s_x_extrapolate", "anticipy/forecast.py:fit_model"]}
{"id": "C58", "title": "Fitted simplified models cannot be extrapolated", "statement": "When fitting pins some parameters because their bounds coincide, the stored parameter vector is shorter than the original model needs, and run_forecast_single evaluates the original model with it: for trend models and their composites the run raises an error unless that candidate's fit fails; a pinned candidate never contributes a forecast.", "quantifier": "for all models with some equal bounds", "why_tests_cant": "interaction of fit and extrapolation for arbitrary models", "anchors": ["anticipy/forecast.py:fit_model", "anticipy/forecast.py:run_forecast_single", "anticipy/forecast_models.py:simplify_model"]}
{"id": "C59", "title": "Plot return codes", "statement": "plot_forecast returns 1 without drawing exactly for output html or png without a path and for an unknown output; otherwise it draws if and only if the libraries of the output could be imported, into path plus '.png' or '.html' (no file for jupyter); with a missing library it draws nothing and still returns 0. It is provided that the size can be used: a png needs a width, a height and a dpi other than zero, an html plot or notebook a height other than zero if one is given; otherwise the call raises TypeError or ZeroDivisionError, in particular every call for a png with the default size.", "quantifier": "for all outputs, paths, sizes, tables and sets of installed libraries", "why_tests_cant": "combinations of missing libraries and arguments are not exercised", "anchors": ["anticipy/forecast_plot.py:plot_forecast"]}
{"id": "C60", "title": "Evidence for multiplicative composition", "statement": "When none of the exceptions of is_multiplicative applies and the linear fit has finite parameters (a, b), the answer is true exactly when, over the calendar months with at least two samples, the correlation between the monthly mean of y and the monthly sample variance of y - (a x + b) is defined and at least 0.8 (the trend is evaluated at x minus its minimum, which does not change the variances). Data on the fitted line give additive composition; multiplying the data and the fitted line by a positive number does not change the answer. If the linear fit ends in LinAlgError, ValueError is raised. run_forecast_single in mode 'auto' gives the result of mode 'mult' if the answer for the prepared table is true, and that of mode 'add' otherwise.", "quantifier": "for all series with finite or null values, optimizer outcomes and positive factors", "why_tests_cant": "a statement about all data sets and the exact statistic used", "anchors": ["anticipy/model_utils.py:is_multiplicative", "anticipy/model_utils.py:_get_mult_sum_stats", "anticipy/model_utils.py:_fit_linear"]}
{"id": "C61", "title": "Composed forecasts", "statement": "Extrapolating a sum of two models (neither null, sigmoid nor logistic) with the concatenated parameters gives the same index as extrapolating each part, and at every index the sum of the two values; a product gives the product of the two parts evaluated in multiplicative mode. With a sigmoid or logistic part this fails: x is divided by 100 only when the model stands alone.", "quantifier": "for all pairs of models, parameters, ranges, frequencies and lengths of extrapolation", "why_tests_cant": "tests extrapolate a few compositions and do not compare them with their parts", "anchors": ["anticipy/forecast.py:extrapolate_model", "anticipy/model_utils.py:get_s_x_extrapolate", "anticipy/model_utils.py:apply_a_x_scaling"]}
{"id": "C62", "title": "Lists of forecasts", "statement": "run_l_forecast succeeds exactly when the list is not empty and every input yields a result, and returns the tables of the inputs one after the other in list order; otherwise it raises the exception of the first failing input, or TypeError if none fails but some input yields None; an empty list raises ValueError. Running one table with several sources equals running the list of its single-source tables in sorted order.", "quantifier": "for all lists of inputs and optimizer outcomes", "why_tests_cant": "tests run one short list in which everything succeeds", "anchors": ["anticipy/forecast.py:run_l_forecast", "anticipy/forecast.py:run_forecast", "anticipy/forecast.py:aggregate_forecast_dict_results"]}
{"id": "C63", "title": "Order of the input rows", "statement": "normalize_df and run_forecast do not depend on the order of the input rows when no two rows of a source share an x and either x is given or the first row of every source stays in the same week. For dates at midnight, another order moves the x of each source by whole weeks and changes nothing else. Without x and dates, or for rows at the same x, the result does depend on the order.", "quantifier": "for all tables and permutations of their rows", "why_tests_cant": "a statement about all permutations", "anchors": ["anticipy/forecast.py:normalize_df", "anticipy/forecast.py:run_forecast"]}
{"id": "C64", "title": "Dates of a forecast", "statement": "In the result of run_forecast_single with include_all_fits, the forecast rows of each candidate have strictly increasing dates (or x), none before the first sample of positive weight; so, if candidate names are distinct, no model has two values for a date.", "quantifier": "for all configurations, series and optimizer outcomes", "why_tests_cant": "tests look at a few forecasts", "anchors": ["anticipy/forecast.py:run_forecast_single", "anticipy/forecast.py:extrapolate_model", "anticipy/model_utils.py:get_s_x_extrapolate"]}
{"id": "C65", "title": "Exact data are recovered", "statement": "If the optimizer minimizes the sum of squared residuals when it reports success, then fitting an unbounded model that is linear in its parameters to data it can represent gives cost 0 and predictions equal to the data at every sample of nonzero weight; for the linear trend with at least two distinct x the parameters are the slope and the intercept, and the forecast continues the line at every date of the table.", "quantifier": "for all models linear in their parameters, series on a line, weights and minimizing optimizers", "why_tests_cant": "tests use noisy data and compare within a tolerance", "anchors": ["anticipy/forecast.py:fit_model", "anticipy/forecast.py:optimize_least_squares", "anticipy/forecast.py:get_residuals", "anticipy/forecast.py:run_forecast_single"]}
{"id": "C66", "title": "Weighted least squares", "statement": "If the optimizer minimizes the sum of squared residuals when it reports success, the parameters fitted to an unbounded model linear in its parameters solve the normal equations in which every sample counts with the square of its weight divided by the number of samples at its x, and no other parameters have a smaller loss. The constant model gives the mean with these squared weights; the linear trend the closed-form regression line; for the linear trend plus the weekly season the errors, counted in this way, cancel on every weekday and are uncorrelated with x.", "quantifier": "for all series of finite values and weights and minimizing optimizers", "why_tests_cant": "tests do not check optimality or how weights enter", "anchors": ["anticipy/forecast.py:fit_model", "anticipy/forecast.py:get_residuals", "anticipy/forecast.py:optimize_least_squares"]}
{"id": "C67", "title": "Metadata and labels", "statement": "In the result of run_forecast_single with include_all_fits there is one metadata row per candidate, in candidate order, with the fit of the rows of positive weight, the source, the frequency, the weights label of the whole input, the date range of the fitted samples and the label of the composition. source_long of the forecasts shows weights and range of the fitted samples, that of the actuals those of the whole input; without a weight column the two always differ. The weights column of the metadata is '1' without weights and otherwise shows the least and the greatest weight from the start date on.", "quantifier": "for all configurations, series and optimizer outcomes", "why_tests_cant": "tests do not compare the labels of actuals and forecasts", "anchors": ["anticipy/forecast.py:run_forecast_single", "anticipy/forecast.py:_get_empty_df_metadata", "anticipy/forecast.py:_get_df_fit_metadata", "anticipy/forecast.py:fit_model"]}
{"id": "C68", "title": "Forecasts agree with the fit", "statement": "If x counts days from t0 and all samples are at the hour of t0, then for a model whose value for a sample depends only on its own x and date, every forecast row is the model at that date with x the days since t0 and the fitted parameters; in particular on the date of a fitted sample it is the value predicted during the fit, even when leading samples are ignored. Constant, linear, weekly and monthly models and all their sums and products qualify.", "quantifier": "for all such models, configurations, series and optimizer outcomes", "why_tests_cant": "tests do not compare in-sample forecasts with fitted values", "anchors": ["anticipy/forecast.py:run_forecast_single", "anticipy/forecast.py:extrapolate_model", "anticipy/model_utils.py:get_s_x_extrapolate"]}
{"id": "C69", "title": "Candidate lists", "statement": "The additive and multiplicative candidate lists of run_forecast_single are the trend list of the configuration (or the default one) combined with the season list (or the automatic one), every trend with every season in order, duplicates by name removed, and, when calendar models are given and the samples of positive weight span more than 365 days with some two at most a day apart, combined in the same way with the calendar models.", "quantifier": "for all configurations and series", "why_tests_cant": "tests look at a few configurations", "anchors": ["anticipy/forecast.py:run_forecast_single", "anticipy/forecast.py:get_list_model"]}
{"id": "C70", "title": "Fits complete", "statement": "If the initial guess and bounds of a model can be computed and fit together, no bound pins a parameter, the validator accepts and there are at least two samples more than parameters, fit_model returns the answer of the optimizer, status NO-FIT if the optimizer raised LinAlgError, and otherwise raises exactly what the optimizer raised. The first condition holds for all sums and products of models with a well placed guess on any series of at least four finite values with increasing x.", "quantifier": "for all models, series and optimizer outcomes", "why_tests_cant": "a statement about the absence of exceptions on all inputs", "anchors": ["anticipy/forecast.py:fit_model", "anticipy/forecast.py:optimize_least_squares", "anticipy/forecast_models.py:simplify_model", "anticipy/forecast_models.py:validate_initial_guess"]}
{"id": "C71", "title": "Forecasts complete", "statement": "run_forecast returns a result, without an exception, for every input table with dates in which each source has distinct dates that are all whole days apart, two of them one day apart (or the same with weeks), values and weights are real or missing, at least two rows and one sample with a value and positive weight lie on or after the start date, candidates are the null, naive and weekly naive models, the trends, the seasons by weekday, month and Fourier series, dummy variables, calendars and date lists under any names, and their sums and products (the last three kinds for forecasts of at least zero years), percentiles lie between 0 and 100 and the widening frequency is given - provided the optimizer, when started at real residuals, returns as many parameters as it was given and a real cost or raises LinAlgError. With outlier removal the same holds if, moreover, that sample is the earliest or latest of its source or all samples with a value have positive weight; with automatic composition if the optimizer answers. With one row left by the start date it raises AttributeError; without a sample of positive weight, or with repeated dates and a gap, ValueError. A calendar raises ValueError if a negative number of years leaves no date to predict.", "quantifier": "for all daily or weekly tables, configurations with these candidates, random draws and optimizer outcomes", "why_tests_cant": "the absence of exceptions on all inputs cannot be sampled", "anchors": ["anticipy/forecast.py:run_forecast", "anticipy/forecast.py:run_forecast_single", "anticipy/forecast.py:fit_model", "anticipy/forecast.py:extrapolate_model", "anticipy/forecast.py:get_pi", "anticipy/model_utils.py:interpolate_df", "anticipy/forecast_models.py:get_model_outliers", "anticipy/forecast_models.py:get_model_dummy", "anticipy/forecast_models.py:get_model_from_calendars", "anticipy/forecast_models.py:get_model_from_datelist"]}
{"id": "C72", "title": "Least-squares fits are unique and linear in the data", "statement": "If the optimizer's successes are least-squares minima, then for the models that are linear in their parameters (constant, linear, weekday season, month seasons in both forms, Fourier season, date step, date spike, dummy variables, calendars, lists of dates, and their sums as long as no two summands put a mask under the same name into the cache): any two fits to the same samples predict the same values at the samples and report the same cost, whatever the starting point, random draws, cache and optimizer; if the samples determine the parameters (for a line: two positions; for a line plus weekdays: all weekdays and one of them twice; for a line plus calendars: two positions on no holiday, and for every calendar a holiday of it alone) the parameters agree. The fit to c1*y1 + c2*y2 is c1 times the fit to y1 plus c2 times the fit to y2. Changing units by a factor k and adding a curve of the model scales the parameters, adds the curve's parameters, multiplies the cost by k^2 and moves AICc by n ln k^2, the same amount for every model.", "quantifier": "for all tables, linear models, optimizers that minimize, random draws", "why_tests_cant": "uniqueness and linearity over all data and optimizers", "anchors": ["anticipy/forecast.py:fit_model", "anticipy/forecast.py:optimize_least_squares", "anticipy/forecast.py:get_residuals", "anticipy/model_utils.py:get_aic_c", "anticipy/forecast_models.py:get_model_dummy", "anticipy/forecast_models.py:get_model_from_calendars", "anticipy/forecast_models.py:get_model_from_datelist"]}
{"id": "C73", "title": "Forecasts do not depend on the unit or the zero of the values", "statement": "Multiplying all values of a series by k > 0 and adding h does the same to the values of the forecast table, its prediction intervals and the data table. The same model is selected, every metadata row keeps its model, labels, status and best-fit flag, costs are multiplied by k^2 and scores move by n ln k^2. This holds for whole runs of run_forecast_single on dated series when the candidates are naive models (for h = 0 also the null model) or least-squares models that can take the constant value h, that the samples determine and whose validation does not read the values, no fitted cost is zero, and no two fits have equal scores. The automatic choice between sums and products is covered for h = 0, when the line it rests on is determined and found; it does depend on the level. Constants, lines and their sums with other regressions reach every level; a weekly season alone does not. Prediction intervals alone move for every table. A fit of cost zero is scored as if it had cost 10^-320 in every unit, so the order of scores can change with the unit. In a table of several series every series may be in a unit of its own: the rows of each are converted by its unit, whatever the units of the others.", "quantifier": "for all series, k > 0, h, configurations, optimizers that minimize, draws", "why_tests_cant": "relates two whole runs over all data and units", "anchors": ["anticipy/forecast.py:run_forecast_single", "anticipy/forecast.py:get_pi", "anticipy/forecast.py:fit_model", "anticipy/forecast.py:extrapolate_model", "anticipy/model_utils.py:get_aic_c"]}
{"id": "C74", "title": "The command line", "statement": "The program runs the application exactly when its arguments are a sequence of settings: an option name in full or shortened to a prefix starting with -- that no other option shares, with its value as the next word or after '='; or the flag --include_all_fits. The application then gets the last value given for each option and the defaults of the others; the order of the options, abbreviations and the form of values make no difference. A next word is a value only if argparse does not take it for an option; words that begin with '-' and match no option count as values if they are '-', contain a space, or are negative numbers written with decimal digits. The help options end with code 0 unless a word is ambiguous; all other command lines end with code 1 or 2. Without --path_in the application fails with AssertionError.", "quantifier": "for all argument lists, number parsers, file systems and runs", "why_tests_cant": "quantifies over all argument lists", "anchors": ["anticipy/app.py:main", "anticipy/app.py:run_forecast_app"]}
{"id": "C75", "title": "Moving the calendar by whole weeks", "statement": "If every date of the input table and date_start_actuals move by the same whole number of weeks, the forecast moves with them: the same models with the same parameters, costs, scores and labels, the same best fits, the same values, weights, prediction bounds and failures, at dates moved by the same amount. Only the labels that spell out date ranges change. This holds for series without a month, quarter or year frequency, a composition mode other than 'auto', and models that see dates only through weekdays; the trend, weekday and naive models and everything composed of them or fixed from them are of that kind. It fails for month seasons and monthly series.", "quantifier": "for all tables, numbers of weeks, carriers (in particular IEEE doubles), configurations of such models, optimizers and random draws", "why_tests_cant": "quantifies over all tables and shifts", "anchors": ["anticipy/forecast.py:run_forecast", "anticipy/forecast.py:run_forecast_single", "anticipy/forecast.py:normalize_df", "anticipy/forecast.py:get_pi", "anticipy/model_utils.py:detect_freq", "anticipy/model_utils.py:interpolate_df", "anticipy/model_utils.py:get_s_x_extrapolate"]}
{"id": "C76", "title": "Inputs of a list of forecasts", "statement": "A list of inputs gives the results of run_forecast for each of them one after the other, each with its own table, trend and season models, start date and source id; a single input is a list of one. The weights stored in an input have no effect. An input without trend models uses a line only: the result is that of run_forecast's default if no series exceeds two years of 365 days, and may differ otherwise, since run_forecast then also tries a piecewise linear trend. An input made with create without trend models has no trend candidates at all.", "quantifier": "for all lists of inputs, common arguments, optimizers and random draws", "why_tests_cant": "quantifies over all lists and tables", "anchors": ["anticipy/forecast.py:ForecastInput", "anticipy/forecast.py:run_l_forecast", "anticipy/forecast.py:to_str_function_list"]}
{"id": "C77", "title": "The debugging table", "statement": "The optimize_info table has a row for every candidate of every series, in the order of the full metadata table, whether or not all fits are requested. Each row agrees with the metadata on source, long source name, model, success and cost. Its status, message, parameters and counters distinguish candidates that were not tried, models without parameters, models handed to the optimizer (whose report is shown) and fits stopped by a singular matrix.", "quantifier": "for all models, tables, configurations, optimizers and reports", "why_tests_cant": "quantifies over all candidates and optimizer outcomes", "anchors": ["anticipy/forecast.py:fit_model", "anticipy/forecast.py:optimize_least_squares", "anticipy/forecast.py:_get_empty_df_result_optimize", "anticipy/forecast.py:run_forecast_single", "anticipy/forecast.py:aggregate_forecast_dict_results"]}
{"id": "C78", "title": "Least-squares fits exist", "statement": "For any samples the weighted least-squares problem of a model that is linear in its parameters has a solution. There is one optimizer, the same for all models and series, that satisfies every assumption the other properties make about the optimizer (C65, C66, C71, C72, C73), and with it every such model that accepts the input and has two samples more than parameters is fitted. With this optimizer a daily or weekly series that follows such a model exactly, possibly with gaps, is forecast without an exception; the parameters are recovered, the cost is zero, and the forecast is the same curve at every date of the grid. Holiday effects of a calendar are recovered in this way and repeated at the next holidays.", "quantifier": "for all samples, linear models, series, configurations and random draws", "why_tests_cant": "existence of a minimum for every input; no test can show it", "anchors": ["anticipy/forecast.py:optimize_least_squares", "anticipy/forecast.py:fit_model", "anticipy/forecast.py:run_forecast_single"]}
{"id": "C79", "title": "Monthly and yearly forecasts complete", "statement": "Under the conditions of C71 a series with one row for each of at least two consecutive months (on the first or on the last day) or years (on January 1st or December 31st), at any one time of the day and in any order, is forecast without an exception if the horizon is a whole number of months or years; likewise an input table whose sources are daily, weekly, monthly or yearly. Without the whole number, or with quarterly dates, ValueError.", "quantifier": "for all such tables, candidates, settings and optimizers as in C71", "why_tests_cant": "tests run a few monthly series; whether every one completes depends on all calendars and horizons", "anchors": ["anticipy/forecast.py:run_forecast", "anticipy/forecast.py:run_forecast_single", "anticipy/model_utils.py:get_s_x_extrapolate", "anticipy/model_utils.py:interpolate_df", "anticipy/model_utils.py:detect_freq"]}
{"id": "C80", "title": "Exact models win and carry no doubt", "statement": "If forecast and actual values of a source differ by the same amount on all dates where both exist, every percentile of its prediction interval equals the forecast value; in particular a constant bias does not widen the intervals. With the optimizer of C78, a daily or weekly series that follows a candidate model exactly, where the model is linear in its parameters and determined by the samples, is forecast with that model: it is selected over every candidate that either has more parameters and is exact as well, or leaves an error that scores worse than an exact fit; its cost is zero, the parameters are those of the series, the forecast is the same curve at every date of the grid, and all percentiles equal the forecast value.", "quantifier": "for all tables, draws and percentiles; for all such series, configurations and candidates", "why_tests_cant": "tests compare a few fits; that an exact model is chosen against every rival and has zero-width intervals quantifies over all series", "anchors": ["anticipy/forecast.py:get_pi", "anticipy/forecast.py:_get_pi_single_source", "anticipy/forecast.py:run_forecast_single", "anticipy/forecast.py:fit_model", "anticipy/model_utils.py:get_aic_c", "anticipy/model_utils.py:get_s_aic_c_best_result_key"]}
{"id": "C81", "title": "Only the ratios of the weights matter", "statement": "Multiplying every weight of the input by the same positive number changes neither the fitted parameters nor the chosen model nor the forecast and its prediction intervals: the cost of every fit is multiplied by the square of the number and its score grows by n times the logarithm of that square, n the number of fitted samples, for every model alike. In the data table only the weights of the actuals and labels that name the weights differ. This holds when every candidate has a single best set of parameters which the optimizer finds, no fit is exact, and no two models have the same score; with an optimizer that finds the best fit, a daily or weekly series, and candidates that are linear in determined parameters or have none, both forecasts complete and agree. In a table of several series only the ratios within a series matter, not those between series.", "quantifier": "for all positive factors, weighted series, configurations and candidates as described", "why_tests_cant": "tests use a few weights; independence of the common factor quantifies over all factors and series and involves fitting, scoring, selection and intervals together", "anchors": ["anticipy/forecast.py:get_residuals", "anticipy/forecast.py:fit_model", "anticipy/forecast.py:run_forecast_single", "anticipy/forecast.py:get_pi", "anticipy/model_utils.py:get_aic_c", "anticipy/model_utils.py:is_multiplicative"]}
{"id": "C82", "title": "Names identify models and days", "statement": "Dates written into names and labels identify the day and sort as text in the order of the days, for years up to 9999. So two step models built from dates are equal exactly if the dates are on the same day, and sort by day; spike models are equal exactly if first and last day agree, and sort by first and then by last day; the date ranges in the metadata and in the long source names are equal exactly if first and last day are. The names of the models in the package are all different, differ from those of dated models, and contain none of the characters that composite names are built with, so that composites of all of them are identified by their names (C05). Two steps at different hours of a day count as equal though they predict different values. Step and spike dates are named step_date[yyyy-mm-dd] and spike_date[yyyy-mm-dd,yyyy-mm-dd].", "quantifier": "for all dates with years up to 9999", "why_tests_cant": "tests look at a few names; that text order agrees with the calendar and that no two days share a name is about all days", "anchors": ["anticipy/forecast_models.py:get_model_step_date", "anticipy/forecast_models.py:get_model_spike_date", "anticipy/forecast_models.py:ForecastModel.__eq__", "anticipy/forecast_models.py:ForecastModel.__lt__", "anticipy/forecast.py:fit_model"]}
{"id": "C83", "title": "The mask marks the rows that gap filling added", "statement": "Asked for a mask, gap filling returns the same table (or the same exception) and, if it filled anything, one mark per row: a row is marked exactly if its position (its x, or its date) does not occur in the input, so as many rows are marked as were added. A table without gaps gets no mask. With dates this holds when x counts days and the dates lie on the grid of a daily, weekly, monthly, quarterly or yearly frequency. In daily and weekly series the added rows also have the x of their day; in monthly series they do not (x is interpolated over positions), and in hourly series the added rows are not marked because x counts days.", "quantifier": "for all tables with distinct positions, with or without interpolation of y", "why_tests_cant": "tests check one table; that no added row gets the x of a sample depends on the spacing of every frequency", "anchors": ["anticipy/model_utils.py:interpolate_df", "anticipy/forecast.py:is_null_model"]}
{"id": "C84", "title": "Switching the cache off changes no fit and no forecast", "statement": "For dated series, fit_model and run_forecast return the same result with use_cache on and off, whatever the optimizer does, if all models are built by + and * from the trend and season models, dummies, calendars and date lists, and every name of a mask stands for one mask. Naive models may be candidates of their own. A naive model that is part of a composition raises TypeError with the cache only, and two different masks under one name give different fits.", "quantifier": "for all optimizers, random draws, sorts, configurations with such models, and input tables with dates", "why_tests_cant": "tests run with the default use_cache=True; comparing both settings for all models needs a proof about every model function", "anchors": ["anticipy/forecast.py:optimize_least_squares", "anticipy/forecast.py:run_forecast", "anticipy/forecast_models.py:ForecastModel.init_cache", "anticipy/forecast_models.py:get_model_dummy"]}
{"id": "C85", "title": "Names of series are only labels", "statement": "Forecasting one series under another name changes nothing but the source columns and the prefix of source_long. In a table of several series the names can be replaced by others, as long as different series keep different names: the outcome consists of the same forecasts under the new names, in the order of the new names, and it fails exactly if it failed before. All shipped models and their compositions qualify; a user's model that reads the source column of the actuals would notice. Two series given the same name become one.", "quantifier": "for all carriers, optimizers, random draws, configurations with models that do not read the source column, and input tables", "why_tests_cant": "the tests use fixed names such as src1 and test; a name that takes part in a comparison, a sort or a cache key would go unnoticed", "anchors": ["anticipy/forecast.py:run_forecast", "anticipy/forecast.py:run_forecast_single", "anticipy/forecast.py:normalize_df", "anticipy/forecast.py:_get_df_fit_model"]}
{"id": "C86", "title": "The order of the lists of models does not matter", "statement": "Reordering the lists of trend, season, yearly, weekly and calendar models given to run_forecast, or repeating entries in them, and reordering the list of naive models, changes nothing in the outcome: candidates, fits, labels, choice of the best model, forecast, intervals, or error. This holds if different parts have different names without the characters of composite names, which is so for the shipped models; then names identify compositions with all their functions. Repeating a naive model makes it fitted twice, and of two different models with the same name only the first is fitted.", "quantifier": "for all carriers, optimizers, random draws, configurations with lists of models composed of parts with different plain names, and input tables", "why_tests_cant": "the tests give each list in one order; an order that leaks into the choice of the best model or into the output would go unnoticed, all the more as list(set(..)) has no fixed order", "anchors": ["anticipy/forecast.py:run_forecast_single", "anticipy/forecast.py:_get_list_model", "anticipy/forecast.py:run_forecast", "anticipy/forecast_models.py:get_model_auto_season", "anticipy/forecast_models.py:ForecastModel.__eq__"]}
{"id": "C87", "title": "Candidates that lose leave no trace", "statement": "If the lists of models given to run_forecast are replaced by parts of them which still give the best model of every series, and only the best fits are returned, the outcome stays the same: data, metadata, forecast and prediction intervals. Every fit of the smaller run is a fit of the larger one, with the same parameters, score and label. This holds in season modes auto, add and mult, for parts with different plain names, if no candidate is simplified because of equal bounds and the candidates have different names. In mode both the label of the best model may change.", "quantifier": "for all carriers, optimizers, random draws, sorts by score that prefer the same row among fewer, configurations, parts of their lists of models, and input tables", "why_tests_cant": "tests compare the chosen model with an expected name for one list of candidates; that another candidate changes parameters, labels or the forecast of the winner shows only when runs with different lists are compared", "anchors": ["anticipy/forecast.py:run_forecast_single", "anticipy/forecast.py:run_forecast", "anticipy/forecast.py:_get_list_model", "anticipy/forecast.py:_get_df_fit_model", "anticipy/forecast.py:fit_model"]}
{"id": "C88", "title": "A longer horizon only appends", "statement": "Running the same input with more extrapolation years gives the same fits, scores, labels and best model. For a model whose value at a sample does not depend on later samples (all shipped models but spike and the two naive ones, and all sums and products of such models) the extrapolation over more years starts with the one over fewer years, and what is added comes after the last sample. If the best model is of that kind and the candidates have different names, the returned table of actuals and best fit is continued by later rows; in the forecast table all rows up to the last sample are the same including their intervals, and the later rows have the same dates and values. The intervals of the later rows may differ. The extrapolations of the two naive models of daily and weekly series are continued as well, provided that some value has a later sample (naive), respectively that the horizon is not empty (seasonal naive); so the tables of such series are continued too when the best model is one of them.", "quantifier": "for all carriers, optimizers, random draws, sorts, configurations, series, frequencies and pairs of horizons for which both runs succeed", "why_tests_cant": "tests check one horizon at a time; that a value already forecast changes when more years are asked for shows only when runs with two horizons are compared", "anchors": ["anticipy/model_utils.py:get_s_x_extrapolate", "anticipy/forecast.py:extrapolate_model", "anticipy/forecast.py:run_forecast_single", "anticipy/forecast.py:run_forecast", "anticipy/forecast.py:_get_pi_single_source"]}
{"id": "C89", "title": "Values of samples with weight zero do not matter", "statement": "Two tables with weights that agree except for the values of samples whose weight is zero give the same fits, scores, labels, metadata, best model, fitted values, forecasts and intervals; only the reproduced actuals of those samples differ. In particular such values may be missing. Conditions: no outlier detection, season mode not 'auto', weights zero or positive, and within a series no sample of weight zero shares its x or date with one of positive weight. Each condition is needed.", "quantifier": "for all carriers with the usual comparison of zero with itself (for the reals without further conditions), optimizers, random draws, sorts, configurations and pairs of tables with any number of series", "why_tests_cant": "tests that set a weight to zero check one value there; that an ignored value leaks into a score or an interval shows only when it is varied", "anchors": ["anticipy/forecast.py:normalize_df", "anticipy/forecast.py:run_forecast", "anticipy/forecast.py:run_forecast_single", "anticipy/forecast.py:fit_model", "anticipy/forecast.py:_get_pi_single_source", "anticipy/model_utils.py:interpolate_df"]}
{"id": "C90", "title": "Intervals are bounded by the errors seen", "statement": "Whatever is drawn, the bounds of a prediction interval are at most a known multiple of the spread of the errors of the fit away from the forecast: if sample minus forecast lies between lo and hi for all dates with both, then the bounds of rows up to the last sample are within hi - lo of the forecast, and those of the i-th row after it (from 0) within (i div step + 2)(hi - lo), where step is the number of rows between widenings. In terms of the residuals drawn from the bound is exact: it is attained. The forecast itself may be outside its interval.", "quantifier": "for all finite tables, draws, numbers of simulations, percentiles, widening settings, and runs on one series (reals with NaN and infinities)", "why_tests_cant": "tests draw at random and check typical widths; the bound holds for every draw and horizon", "anchors": ["anticipy/forecast.py:_get_pi_single_source", "anticipy/forecast.py:get_pi", "anticipy/forecast.py:_df_add_pi_percentiles", "anticipy/forecast.py:run_forecast_single"]}
{"id": "C91", "title": "Optional columns default as documented", "statement": "A forecast depends on an input table only through its rows with their dates and positions. Dates in the index count as a date column with these dates (a date column takes precedence); a missing position column counts as one with the days since the Monday before the first row of the series, or the rank within the series when there are no dates; a missing weight column counts as a column of ones, up to the text that describes the weights (and exactly, when outliers are removed); a missing source column counts as a column that contains source_id everywhere, for models that do not read that column themselves.", "quantifier": "for all tables, numbers of series, configurations, candidate models (source column: models that ignore it; all shipped ones do), optimizers and draws; any number type with 1*0=0 and 1*1=1 for outlier removal", "why_tests_cant": "tests give each layout its own example and compare a few columns; that two layouts of the same data always agree needs a relation over all tables", "anchors": ["anticipy/forecast.py:normalize_df", "anticipy/forecast.py:run_forecast", "anticipy/forecast.py:run_forecast_single", "anticipy/model_utils.py:get_normalized_x_from_date"]}
{"id": "C92", "title": "Shaded intervals of a plot are the intervals of the forecast", "statement": "For a table of prediction intervals with percentiles 5 and 20 and finite values, every panel of a png shades two bands, each one polygon over exactly the forecast rows of its series, in their order, with the bounds of the table; the inner band lies within the outer one. An html plot or notebook does so for any pair of percentiles up to 50 that it is told. Nothing is shaded without percentile columns or when intervals are switched off. A png ignores the percentiles it is told, so that others than 5 and 20 are not shown.", "quantifier": "for all tables with intervals, numbers of series, draws and percentiles; the rows shaded for any table and number type", "why_tests_cant": "the tests look at files on disk only; which rows are shaded, and that a series' band is not broken up or joined with that of another, is not observable there", "anchors": ["anticipy/forecast_plot.py:_matplotlib_forecast_create", "anticipy/forecast_plot.py:_plotly_forecast_create", "anticipy/forecast.py:get_pi"]}
{"id": "C93", "title": "Gap filling is idempotent", "statement": "Filling the gaps of a table that interpolate_df returned changes nothing: the positions are complete, values and weights interpolated once stay as they are, and the mask of a second pass marks no row. Grids of hours, days and weeks are equally spaced; grids of months, quarters and years are recognised by their own dates with the frequency they were made with. The two steps cannot be separated: a table whose gaps are filled without values keeps null values in a second pass with interpolation when it is equally spaced.", "quantifier": "for all tables, with and without dates, with and without interpolation of finite or null values (real numbers); positions for any number type", "why_tests_cant": "the tests fill a handful of tables once; whether the frequency detected after filling is the one used for filling depends on month lengths and leap years across all ranges of dates", "anchors": ["anticipy/model_utils.py:interpolate_df", "anticipy/model_utils.py:detect_freq"]}
{"id": "C94", "title": "Samples entered several times", "statement": "If every sample is entered k times, a least-squares fit of a model linear in its parameters predicts the same values and, where the samples determine them, has the same parameters, at a k-th of the cost. In general the samples at one position act like a single sample at their mean, weighted down by the root of their number: n samples of weight 1 at the same x have together the influence of 1/n of a sample, because their residuals are divided by n before they are squared. So entering one sample again does not strengthen it, as one might expect, nor leave the fit alone: it counts half, and the fit moves away from it.", "quantifier": "for all models linear in their parameters, all tables with finite values and weights, all multiplicities, orders of the rows and minimizing optimizers", "why_tests_cant": "tests have few tables with repeated positions and none compares them with the table of means; the influence of a repeated sample shows only when two fits are compared", "anchors": ["anticipy/forecast.py:fit_model", "anticipy/forecast.py:get_residuals"]}
{"id": "C95", "title": "A further component never worsens the fit and is chosen iff it pays for its parameters", "statement": "If every curve of one model is also a curve of another (a sum contains each of its components, a line contains the constants), the least-squares cost of the larger model is not above that of the smaller one on the same samples. Its score changes by what its further parameters cost under the corrected Akaike criterion, 2k + 2k(k+1)/(n-k-1), less n times the logarithm of the ratio of the costs; so in a forecast over both, the larger model is flagged as best only if its gain covers that price, and the smaller one only if it does not. A model with the same curves and more parameters is scored worse unless the fit is exact, and the order of the components of a sum changes neither cost nor score nor fitted values.", "quantifier": "for all models linear in their parameters, all tables with finite values and weights, all optimizers that minimize, and all forecasts that consider both models", "why_tests_cant": "tests compare scores of a few models on a few series; that a composite cannot be fitted worse than its parts, and the exact trade between fit and parameters, are relations between two fits for all inputs", "anchors": ["anticipy/forecast.py:fit_model", "anticipy/forecast.py:run_forecast_single", "anticipy/model_utils.py:get_aic_c", "anticipy/forecast_models.py:_get_f_add_2_f_models"]}
{"id": "C96", "title": "Fixing parameters", "statement": "A model made by fixing some parameters of a model that is linear in its parameters is fitted as the best among the curves of the original model with these values; its cost is never below that of the original model. If the parameters are fixed at their fitted values the cost and the fitted values stay the same, and so do the other parameters where the samples determine them. Because fixed parameters are not counted, the score of the fixed model is then strictly better than that of the original, unless the fit is exact, although both are the same curve.", "quantifier": "for all models linear in their parameters, all choices of parameters to fix with at least one left to fit, all tables with finite values and weights, all optimizers that minimize", "why_tests_cant": "tests fix parameters of one or two models on one series and compare a few numbers; that the constrained fit is optimal among all curves, and that the score always prefers it, quantifies over all parameter values", "anchors": ["anticipy/forecast_models.py:fix_params_fmodel", "anticipy/forecast.py:fit_model", "anticipy/model_utils.py:get_aic_c"]}
{"id": "C97", "title": "A forecast that comes true confirms the fit", "statement": "Further samples that lie on the fitted curve change neither the cost nor the fitted values nor, where the samples determine them, the parameters; conversely samples that lie on the fitted curve can be taken away without effect on the rest. The values that extrapolation gives for later dates lie on the fitted curve, so a series that goes on exactly as forecast is fitted by the same parameters again. Only the score changes: it is that of the same cost shared among more samples.", "quantifier": "for all models linear in their parameters, all tables with finite values and weights, all further samples at other positions and in any order, all optimizers that minimize", "why_tests_cant": "a test refits after appending one forecast and compares rounded parameters; that the refit is unchanged for every model, every table, every weighting and every set of further samples is beyond enumeration", "anchors": ["anticipy/forecast.py:fit_model", "anticipy/forecast.py:get_residuals", "anticipy/forecast.py:extrapolate_model", "anticipy/model_utils.py:get_aic_c"]}
{"id": "C98", "title": "Errors in the values are not amplified by a fit", "statement": "If the values of some samples change, the sum of the squared changes, weighted as in the fit, is the sum of the squared changes of the fitted values and of the squared changes of the residuals. So neither the fitted values nor the residuals change by more than the values did, and the roots of the costs differ by no more either. If a single value changes, the fitted value at that place moves in the same direction and by no more than the value.", "quantifier": "for all models linear in their parameters, all pairs of tables with the same dates, positions and weights and arbitrary finite values, all optimizers that minimize", "why_tests_cant": "tests perturb one series at random and look at the result; a bound that holds for every perturbation of every table and every such model is a statement about infinitely many pairs of inputs", "anchors": ["anticipy/forecast.py:fit_model", "anticipy/forecast.py:get_residuals", "anticipy/forecast.py:optimize_least_squares"]}
{"id": "C99", "title": "Samples pull the fit towards them", "statement": "A fit that includes a sample misses it by no more than the fit without it does, and on the same side; the cost grows by no more than the fit without it would pay for the sample. Raising the weight of a sample has the same effect: the fit misses it by no more than before, on the same side, and fits the table with the old weights no better.", "quantifier": "for all models linear in their parameters, all tables with finite values and weights, all samples at new positions and all larger weights, all optimizers that minimize", "why_tests_cant": "tests raise one weight or leave out one sample of one series; that no sample, weight or model exists for which the fit moves away needs a proof", "anchors": ["anticipy/forecast.py:fit_model", "anticipy/forecast.py:get_residuals", "anticipy/forecast.py:optimize_least_squares"]}
{"id": "C100", "title": "Levels are the means of their days, and days of their own are fitted exactly", "statement": "Over every group of days that a model can tell from the others, what the fit misses adds up to nothing: all days for constants and lines, each weekday or month for seasons, the days after a step, in a spike, in a list of dates or of a calendar. So a constant with weekday or month seasonality forecasts every weekday or month as the weighted mean of its samples. A single sample in a group of its own, such as a holiday or a spike seen once, is fitted exactly whatever its value.", "quantifier": "for all models linear in their parameters and their sums, all groups of days they tell apart, all tables with finite values and weights, all optimizers that minimize", "why_tests_cant": "tests compare fitted levels with means on one series within a tolerance; the identities hold for every table, weighting and composition, and that a single marked day is always met shows which effects a fit cannot check", "anchors": ["anticipy/forecast.py:fit_model", "anticipy/forecast_models.py:_f_model_season_wday", "anticipy/forecast_models.py:_f_model_season_month", "anticipy/forecast_models.py:get_model_spike_date", "anticipy/forecast_models.py:get_model_from_calendars", "anticipy/forecast_models.py:get_model_from_datelist"]}
{"id": "C101", "title": "Errors that are the same on all days only move the intervals", "statement": "A forecast that is too high or too low by the same amount on all days has the same prediction intervals moved by that amount: the distance of every bound from the forecast is unchanged on every past and future day, for the same draws. The same holds if the actuals are moved, and in tables of several series if every series has an error of its own. Errors that differ between days do change the intervals.", "quantifier": "for all tables, with and without dates, weights, sources and flags of the best fit, all numbers of simulations, widening periods, percentiles and draws, all amounts for actuals and forecasts", "why_tests_cant": "tests check that columns exist and bounds are ordered on a few tables with random draws; that the deviations are centred exactly needs an equation between two runs with the same draws", "anchors": ["anticipy/forecast.py:_get_pi_single_source", "anticipy/forecast.py:_df_add_pi_percentiles", "anticipy/forecast.py:get_pi"]}
{"id": "C102", "title": "Mirrored series have mirrored intervals", "statement": "If all actuals and forecasts change their sign, the prediction intervals change their sign and lower bounds become upper bounds: for the same draws, percentile q of the table is minus percentile 100 - q of the mirrored table on every past and future day, so no side of the interval is favoured by centring, sampling, cumulating or interpolating between samples.", "quantifier": "for all tables whose values are real numbers or missing, with and without dates, weights, sources and flags of the best fit, all numbers of simulations, widening periods, percentiles and draws", "why_tests_cant": "tests check that columns exist and bounds are ordered on a few tables with random draws; a symmetry relates two runs with the same draws on all tables", "anchors": ["anticipy/forecast.py:_get_pi_single_source", "anticipy/forecast.py:_df_add_pi_percentiles", "anticipy/forecast.py:get_pi"]}
{"id": "C103", "title": "Days without a prediction cost a naive model nothing", "statement": "The cost of a model without parameters is half the sum of the squared weighted deviations over the samples for which it has a prediction; samples without prediction add nothing, while the score counts all samples. So a series without two samples on the same weekday is taken by the seasonal naive model for a perfect fit though it predicts none of the samples, and its score beats that of every model whose fit is not exact. On such series the forecast can have no rows beyond the actuals.", "quantifier": "for all tables with real values and weights, both naive models, all environments, all competing models and fits", "why_tests_cant": "tests use series of several weeks and years; the zero cost of a model that predicts nothing shows only on short series and in the comparison with all other models", "anchors": ["anticipy/forecast.py:fit_model", "anticipy/forecast_models.py:_f_model_snaive_wday", "anticipy/forecast_models.py:_fillna_wday", "anticipy/model_utils.py:get_aic_c"]}
