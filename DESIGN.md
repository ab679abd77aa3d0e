# Formal model of GeoRegression in Coq 8.16 — design

## Layout

* `rocq/theories/Model/*.v` — the model: total Gallina functions mirroring the Python
  functions branch by branch; every definition cites file and lines in /repo.
* `rocq/theories/Spec/*.v` — small declarative specifications, written without the model's
  helpers, in which the theorem statements are phrased.
* `rocq/theories/Proofs/*.v` — lemmas.
* `rocq/theories/Properties/*.v` — only the property theorems (each closed by `exact lemma`,
  with `Print Assumptions`), and next to each an `Example` exhibiting a concrete case that
  meets its hypotheses.

## Modelling conventions

* **Exceptions are values**: `result A = Ok a | Raise e`.  Python control flow is monadic bind.
  Where an object is mutated before the failure (e.g. `self.is_fitted_`), the model returns the
  new object state together with the result.
* **Numbers**: real numbers `R` (exact arithmetic).  Operations that can leave the finite
  range (division by a zero bandwidth) are done in `ext = Fin r | PInf | NInf | NaN` with the
  IEEE rules; signed zeros are not modelled.  Rounding is not modelled, except for the kernels and the row normalisation (C120–C123).  The float32 casts of the distance code are an arbitrary
  function `f32` (theorems that need it assume it monotone, or compare the code with itself);
  the storage type of X (ALE, ICE) is an arbitrary function `store`.
* **Arrays** are lists; a 2-D array is a list of rows.  Indexing that NumPy would reject is a
  `Raise`.  CSR matrices are the three arrays plus the column count.
* **External code as oracles** (section variables, hence universally quantified in every
  theorem): the local estimator (`fit`/`predict`, deterministic given its own private
  randomness, may raise), the meta estimator, `np.random` (state, `seed`, `choice`,
  `permutation`), metrics other than euclidean/great-circle, `np.linalg.solve`, uninitialised
  memory, the zarr file system.  Assumptions on an oracle appear as hypotheses of the theorem
  and are met by a concrete instance in the accompanying example.
* **Parallelism**: joblib `Parallel` and numba `prange` are executions of independent tasks in an
  arbitrary order (a permutation), each writing its own slot.
* Properties users would expect but which are false of the code are proved in negated form
  (`..._refuted`, with an explicit witness, or a universal "always raises" theorem).

## Plan per property

| Property | Model | Proof |
|---|---|---|
| C01–C08, C80 kernels | `Model/Kernel.v` (`kernel_function` over `ext`, `Model/Ext.v`) | case analysis on kernel, real analysis (`exp`, powers), `ext` arithmetic; textbook formulas in `Spec/KernelSpec.v` |
| C09–C12 adaptive bandwidth | `Model/Kernel.v` on `Model/Sort.v` (insertion sort, order statistics, linear quantile) | counting lemmas on sorted lists; monotonicity of interpolation |
| C13–C18, C21, C81 weight matrix | `Model/WeightMatrix.v` | refinement of the `ext` pipeline to a real-valued spec, then sums and products |
| C19, C20, C24 | `Model/Distance.v`, `Model/WeightMatrix.v` | case analysis over the call chain |
| C22 euclidean | `Model/Distance.v` | Cauchy–Schwarz over lists |
| C23 great circle | `Model/Distance.v` | haversine = chord of unit vectors; Gram determinant for the triangle inequality |
| C25 cache | `Model/Distance.v`, file map from paths to matrices | two-call histories over an arbitrary store |
| C26–C29 second order | `Model/Neighbour.v`, `Model/Csr.v` | list and boolean reasoning, schedule permutations |
| C30–C32 shrink | `Model/Neighbour.v` | order-statistic bounds, counting |
| C33–C35 sampling | `Model/Neighbour.v` with RNG oracle | validity of `choice`; equality of the draw sequences |
| C36–C43, C82–C84, C93 WeightModel.fit | `Model/WeightModel.v`, object state | congruence of masked training sets; `array_split` concatenation; permutations |
| C44–C48 prediction | `Model/WeightModel.v`, `Model/Inspect.v` | convexity; reduction to C13/C09 |
| C49–C57, C59, C85–C87 stacking fit | `Model/Stacking.v` | non-interference by index reasoning; coverage via C26; CSR/dense refinement |
| C58, C88 stacking prediction | `Model/StackingPredict.v` | coverage of the second-order mask; object state |
| C60–C61 ridge, r2 | `Model/NumbaImpl.v`, `np.linalg.solve` as oracle | normal equations imply global minimum; positive definiteness; the solver hypothesis is shown satisfiable (`Proofs/SolverExists.v`) |
| C141–C142 ridge under changes of its data | the same model | every change of the data maps one objective onto a multiple of the other, so by C60's uniqueness the results correspond; shrinkage by comparing two objectives; zero gradient in the intercept (`Proofs/RidgeChanges.v`) |
| C62–C65, C89–C92 importance, PD, ICE | `Model/Inspect.v` | index arithmetic of tile/reshape; induction over call histories |
| C66–C70, C94–C96 ALE | `Model/Ale.v` | bisection invariant; counting in bins; telescoping sums |
| C71–C74, C97–C100 Moran | `Model/Moran.v` | algebra of finite sums; exact average over all permutations for C99 |
| C75–C78, C101–C109 visualisation | `Model/Visualize.v` | list reasoning; weighted sums of line segments |
| C79, C110–C116 simulation | `Model/Simulation.v` | real analysis; validity of the RNG oracles |
| C117–C118 cache files and crashes | `Model/Cache.v`: the run as a list of single disk effects (delete, mkdir, metadata, one write per row block in any order); a crash keeps a prefix | disk invariants over prefixes; agreement of the uninterrupted run with `Model/Distance.v` |
| C119 Moran diagram | `Model/Moran.v`; `LinearRegression(fit_intercept=False)` as any least-squares slope | uniqueness of the minimiser of a quadratic |
| C120–C123 rounding | `Model/KernelFloat.v`: kernels and normalisation with a rounding after every operation; `Model/Float64.v`: binary64 via Flocq's `FLT(-1074, 53)`, nearest-even, with overflow | monotonicity of rounding; quotients of distinct floats stay below 1 − 2⁻⁵³; error accumulation over arbitrary summation trees; binary64 is shown to satisfy every assumption |
| C124–C128 end to end | `Model/WeightModel.v` (sparse weights in both predictions) with the concrete `points_weights` | composition of the weight-matrix and fit theorems; permutation of training sets; the transposed CSR arrays read literally |
| C129–C131 constructors and scikit-learn | `Model/Constructor.v`: Python's binding of positional and keyword arguments, the three `__init__`, and what scikit-learn 1.2 reads from a signature (`get_params`, `set_params`, `clone`, `repr`, `score`); `Model/FitCall.v`: the log statement at the start of fit | generic lemmas on argument binding for any signature; the inner `super().__init__` call composed with them |
| C132–C133 simulated surfaces | `Model/Surfaces.v`: the coefficient surfaces, feature functions and `generate_sample` of the fitting and importance experiments | closed forms of the sums and of the quadratic forms; definiteness of 2×2 precision matrices |
| C134–C136 success of a stacking fit | `Model/Stacking.v` | the fit characterisation read backwards: each stage's success condition, composed; what the last-column condition of the sparse loops costs |
| C137 stacking from coordinates | `Model/StackingPoints.v` composing `Model/WeightMatrix.v` and `Model/Stacking.v` | own weight is positive and maximal (C15), shrinking keeps maxima (C30), so the last observation is its own neighbour and C54/C134/C135 lose their side conditions |
| C138 success of stacking predictions | `Model/StackingPredict.v` | each stage's success condition, composed; the base learner of a training point nobody needs is asked to predict zero rows |
| C139, C140 ICE curves, grid sizes | `Model/Inspect.v`, `store` = conversion to X's dtype; number of grid points as documented by sklearn | from the characterisation C90 |
| C143–C148 plots | `Model/Plots.v`: a figure is the data of its traces (lines, times, hover numbers, legend flags, colours, ranges); colormap, UMAP, HDBSCAN = oracles | inversion of the model plus the sampling theorems C75; uniqueness of minimum and maximum for the colours; witnesses for the false expectations |
| C149 locality of stacking | `Model/Stacking.v`, `Model/StackingPredict.v` | the characterisation of a fit (C49, C134) names the training set of every base learner and meta model; both lie within two steps; a four-point path refutes one step |
| C150, C151 unit of the target | `Model/WeightModel.v`, `Model/Stacking.v`, `Model/NumbaImpl.v` | simulation of the two runs through every stage; for the ridge the minimiser of the scaled objective; a closed-form three-point fit refutes the unscaled penalty |
| C152–C154 rounded weight matrices | `Model/WeightFloat.v`: the whole of `weight_matrix_from_distance` with a rounding after every operation, any order of row sums, any computed quantile; `Model/Float32.v`: binary32 via Flocq's `FLT(-149, 24)`, nearest-even, with overflow | inversion as for the exact model; C120–C122 per entry; products of rounded weights stay in [0,1]; with binary32, a kernel weight strictly inside the support is at least 2⁻⁷², so one dimension cannot underflow and three can; with the identity as rounding the model equals `Model/WeightMatrix.v` |
| C155–C157 histories and shared arrays | `Model/History.v`: sequences of the modelled calls on one object, whatever they return; the caller's arrays as a heap of cells, models holding references to the cells `fit` keeps (`self.X`, `self.y`, `self.coordinate_vector_list`, `self.weight_matrix_`), fits of any number of models and writes by the caller as events. Simplified: check_X_y is taken to return the caller's own array, as it does for numeric arrays | induction over the calls and events; inversion of `fit` at each failure point; idempotence of clearing the diagonal of dense and CSR matrices; concrete failed refit and overwritten target for the refuted parts |
| C158, C159 contents of the embedding and scatter plots | `Model/Plots.v`, including `scatter_3d` of continuous values (plotly draws as many points as the shortest coordinate array has) | groups of equal labels as sorted index lists; induction over the features; ranks of the sorted values |
| C160 linear relations are recovered | the local estimator is any function that returns a minimiser of the weighted squared error (`Spec/LinearSpec.v`); the rest is `Model/WeightModel.v` | exact data has error 0, so every minimiser agrees with the relation on the rows of positive weight, hence on their affine combinations; least squares on one feature is proved to be an instance |
| C161 histories of the stacking model | `Model/StackingHistory.v`: sequences of `fit` and `predict_by_fit` on `Model/Stacking.v`, `Model/StackingPredict.v` | case analysis over the stages of the fit, induction over the calls |
| C162 values of stacked predictions | the meta estimator is any minimiser of the penalised weighted squared error (`Spec/RidgeMetaSpec.v`), or the modelled numba ridge with an exact solver | minimisers are unique for a positive penalty, so it suffices to minimise by hand for constant targets and for identical columns |
| C163 observations out of reach | `Model/WeightMatrix.v`, `Model/WeightModel.v`; `Spec/ExtensionSpec.v` says which observations are far away | the order statistics of a row are not changed by larger further entries, zero weights change no sum, and a fit at all locations is characterised location by location; a counterexample for fractions |
| C164 leaving out is omitting | `Model/WeightModel.v`: `fit` with leave_local_out, `predict_by_fit` with a given matrix | the training set of a location without itself is the image of the training set in the reduced data |
| C165 repeated stacking fits | `Spec/RefitSpec.v`: any number of successful `sfit`s that share a matrix object | induction over the fits: each cuts every row at a quantile; counting of the distinct weights |
| C166 rounding error of weights | `Model/KernelFloat.v`, `Model/WeightFloat.v` beside `Model/Kernel.v`, `Model/WeightMatrix.v`; constants in `Spec/FloatErrorSpec.v` | absolute error of each kernel by its Lipschitz constant in d/b, then of products, sums and quotients of the row; binary32 and binary64 as instances (Flocq); a far point as counterexample |
| C167 lazily read distances | `Model/CacheLazy.v`: the dask array as a plan whose blocks are read at given moments, on the effects of `Model/Cache.v` | invariant of the directory after each effect of the overwriting call; the plan evaluated at once is `dask_run` |
| C168 shapes of ALE curves | `Model/Ale.v`; `Spec/AleShapeSpec.v`: increasing and Lipschitz in one feature, rowwise predictors | steps of the curve as averages over a bin; monotonicity and linearity of averages; permuting observations permutes the members of a bin |
| C169 the README's models | `Model/Readme.v`: the constructor calls and the local ALE snippet, on `Model/Constructor.v`, `Model/Inspect.v`, `Model/Ale.v` | evaluation of the calls; a fit without cache_data leaves a new object without data; one round of `local_ALE` is the snippet |
| C170 ALE figures | `Model/AlePlot.v`: `numpy.histogram`, `plot_ale`, the lines of `simulation_for_ale.py` | bin index against bin ends; counting; integral by its primitive (Coquelicot's `is_RInt`); induction over the grid |
| C171 inspecting a stacking model | `Model/StackingInspect.v`: the stacking object as the inherited methods see it, on `Model/Inspect.v`, `Model/Ale.v` | attributes left by the stacking fit; the trials of global importance with another reference score; predictions of rows that differ in an unused feature; linear combinations of ALE steps |
| C172 local permutation importance | `Model/LocalImportance.v`: sklearn's `permutation_importance` and `r2_score` with sample weights, plugged into `importance_score_local` of `Model/Inspect.v` | composition of shuffles is a rearrangement; the baseline and the shuffled score share the denominator |
| C173 partial dependence and ICE curves | `Model/PartialDependence.v`: sklearn's `_grid_from_X` (scipy's `mquantiles`, `np.allclose`, `np.linspace`) and brute-force `partial_dependence`, plugged into `partial_dependence` and `local_ICE` of `Model/Inspect.v` | the grid characterised by order statistics; curves are weighted averages, so linear and monotone |
| C174 units of the features | `Model/WeightModel.v`, `Model/PartialDependence.v`; learners that overlook a rewriting of the rows (`Spec/FeatureUnitsSpec.v`) | two fits run in lockstep; affine-combination rows determine least-squares predictions; the grid's order statistics commute with increasing units, `np.allclose`'s absolute tolerance does not |
| C175 scores with and without the location | `Model/WeightModel.v`; learners that minimise a penalised squared error (`Spec/LeaveOutSpec.v`) | the two minimisers of a location compared on both errors; R² falls with the squared residuals; interpolating relations have error 0 |
| C176 growing neighbourhoods | `Model/Kernel.v`, `Model/WeightMatrix.v`, `Model/WeightModel.v` | kernels depend on d/b only; order statistics and type-8 quantiles are monotone; Bernoulli-type bounds for the kernels near 0 |
| C177 neighbours in several dimensions | `Model/WeightMatrix.v`, `Model/WeightModel.v`; places on two lines (`Spec/ManyDimsSpec.v`) | inclusion-exclusion on supports; order statistics of a ramp and of its reversal |
| C178 repeated observations | `Model/WeightModel.v`; learners that reproduce training targets (`Spec/TwinsSpec.v`) | the twin is in the training set; R² of exact predictions |
| C179 scripts that cannot finish | `Model/Scripts.v`: objective and search of parameter_tuning.py, residual step of simulation_data_fitting.py | constructor results by cases; attribute lookup through assignments |
| C180 typical curves of the clusters | `Model/TypicalPlot.v`: the lines `partial_plot_2d` draws | medoids (C77), styles (C109, strict), colour normalisation |
| C181 range and mean of Moran's I | `Model/Moran.v`; `Spec/MoranRangeSpec.v` | 2ab <= a² + b² entry by entry; two hubs with k² followers each; moments over all permutations (C99) |
| C182 maps of local importances | `Model/ImportanceMaps.v`: NumPy broadcasting, both normalisations, the maps of three scripts | shapes of the table from C172; extremes of a list |
| C183 parameter search | `Model/GridSearch.v`: loops, files, Python's max over arbitrary fits | index arithmetic of the grid; induction over the running maximum |
| C184 order of the features | `Model/Inspect.v`, `Model/LocalImportance.v`, `Model/PartialDependence.v`, `Model/Ale.v`; learners as in C174 | two fits in lockstep (C174), then each analysis in lockstep: setting a column commutes with reordering |
| C185 a dimension given several times | `Model/WeightMatrix.v` | product form of the weights (C14) with equal factors; powers of shares; sums bounded by the largest share |
| C186 variation of stacking scores over repeated fits | `Model/Variation.v` | induction over the successive fits; variance bounds of Popoviciu and Bhatia-Davis; a fit forgets the object (C161), does not depend on schedules (C87) and reseeds its sampling |
| C187 leave-one-out scores | `Model/LeaveOneOut.v` | characterisation of both procedures by the same left-out predictions; the mean of the others is an affine function of the target |
| C188 simulation script for seven models | `Model/Robust.v` | the dict as a function of the training outcomes, by induction over the models; binding of the arguments by computation |
| C189 range of the predictions | no new model | training sets of the local models (C36) and convex combinations (C44); a computed ridge regression for the refutation |
| C190 the unit of the weights | no new model | the quantile cut of a row commutes with a positive factor, so neighbours and left-out sets agree; the ridge objective is multiplied by the factor (C141) |
| C191 stacking predictions from coordinates | no new model | C138's condition with the entries of the weight matrices traced back to kernel supports (C15); one column makes the adaptive bandwidth the distance itself; two batches evaluated with a weighted mean as meta learner |
| C192 small errors in the coordinates | no new model | Lipschitz constants of the kernels (mean value theorem); order statistics compared by counting; products and ratios of numbers in [0,1] with totals of at least 1 |
| C193 local Moran values | no new model | values as quadratic forms in the deviations; means over rearrangements from the pair moments of C99; witnesses with unequal row sums |
| C194 several dimensions as one | no new model | products of exponentials; squared lengths of joined coordinates; support of the kernels |
| C195 mutual neighbours | no new model | symmetry of the unnormalised weights; totals of the rows; exchange of sums; four points on a line |
| C196 predicting the training points | no new model | both calls characterised by the training set and weights of each location (C47, C126); C195; a three-point fit computed by hand |

Every property of the list could be expressed; none is "not applicable".  The extra rows added
while the model grew are in `properties.jsonl` in order.

## Trusted base

1. **Coq 8.16.1's kernel** (and `coqc`/`coqchk` as its front ends).  No axiom, parameter,
   functor, module type or plugin of our own; no kernel check is switched off; no `Admitted`.
2. **Standard-library axioms.**  `ASSUMPTIONS.md` (generated by `tools/assumptions.py`) lists, for
   every theorem of the manifest, what `Print Assumptions` prints.  Only these four occur:
   `ClassicalDedekindReals.sig_not_dec`, `ClassicalDedekindReals.sig_forall_dec`,
   `FunctionalExtensionality.functional_extensionality_dep` (all three come with the type `R`)
   and `Classical_Prop.classic` (comes with real analysis, e.g. derivatives of `exp`).
   Outside the standard library only Flocq is imported, in the files about binary32 and binary64 rounding, and Coquelicot's integral, in the files about C170; they add no axiom.
3. **The reading of the Python code**: the model was written by hand from the text of /repo; each
   definition cites the lines it models.  Nothing checks this correspondence mechanically.
4. **The oracles' contracts** (below) where a theorem assumes one.

### Oracles and their hypotheses

| Oracle | What theorems may assume |
|---|---|
| local estimator `train`/`predict` | nothing, except where stated (e.g. `predict` returns one value per row; for C89 that it ignores a feature).  It is a function of its training rows, targets and weights: its private randomness is fixed |
| meta estimator | nothing; for ridge see `solve` |
| `np.linalg.solve` | returns a solution of the system when one exists uniquely; satisfiable (`SolverExists.v`) |
| `np.random.choice(n, k, replace=False)` | `k` distinct indices below `n` when `k <= n`, raises otherwise |
| `np.random.permutation` | a permutation of the indices |
| `np.random.uniform/normal/exponential` | values in the interval / any reals / non-negative reals |
| float32 cast `f32`, storage cast `store` | nothing, or monotone and fixing 0, as written in each theorem |
| uninitialised memory (`np.empty`) | nothing: arbitrary contents |
| execution order of joblib/prange tasks | a permutation of the task indices |
| distance metrics other than euclidean and great circle | nothing |
| rounding (`fl`), `np.exp`, `x ** 3` in `Model/KernelFloat.v` | order preserving, onto its format, 0 and 1 exact; `exp` (on non-positive) and the cube (on [0,1]) faithful, i.e. no float strictly between result and exact value; increasing only where stated |
| zarr store | `Model/Distance.v`: a map from path to matrix. `Model/Cache.v`: `to_zarr` deletes, makes the directory, writes the metadata, then each row block once, in any order; blocks never written read as the fill value 0; a directory without metadata raises when read |
| `LinearRegression(fit_intercept=False)` on one feature | its slope minimises the squared error |

Each hypothesis is met by a concrete instance in an `Example` beside the theorem.

### What is modelled, file by file (line ranges are in the comments of each definition)

| File | Modelled | Not modelled |
|---|---|---|
| `kernel.py` | all of it: kernels, adaptive bandwidth and adaptive kernel, NumPy and dask branches | how the adaptive quantile is rounded (any value; the kernels are also modelled with rounding, `Model/KernelFloat.v`); signed zero |
| `distance_utils.py` | `_distance_matrices`, `_distance_matrix` (NumPy and dask branch with zarr files), `great_circle_distance` | dask's scheduler (each block may be made at any moment: `Model/CacheLazy.v`); the internals of `pdist`/`cdist` metrics other than euclidean |
| `weight_matrix.py` | `weight_matrix_from_points`, `weight_matrix_from_distance` (exactly, and with rounding in `Model/WeightFloat.v`), `weight_by_distance` | deprecated aliases, logging, sparse conversion of the dask result beyond its entries |
| `neighbour_utils.py` | all functions, dense and CSR | numba compilation itself |
| `numba_impl.py` | `mean` (axis 0), `ridge_cholesky`, `r2_score` | numba compilation, the `__main__` demo |
| `weight_model.py` | `fit_local_estimator`, `_fit`, `fit`, both predictions, importance, interaction, partial dependence, ICE, ALE methods, the constructor and its interplay with scikit-learn's `BaseEstimator`, `log_before_fitting` as far as it can fail | the text of the log message, the `distance_args` keyword variants already covered by C20 |
| `stacking_model.py` | `_fit_local_estimator`, `_fit`, `fit` (dense, CSR and numba loops), `predict_by_fit`, `StackingEstimator.predict/fit/score`, both constructors; weights computed from coordinates (`Model/StackingPoints.v`) | timing and logging; shared-memory transport of arrays to workers (values only) |
| `local_pd.py`, `local_ale.py`, `ale_utils.py` | all functions | — |
| `spatial_temporal_moran.py` | `spatiotemporal_MI`, `STMI`, `spatiotemporal_LMI`, `plot_moran_diagram` (data drawn) | the normal CDF (an arbitrary function; C97 assumes it increasing with value 1/2 at 0) |
| `visualize/*` | the computations feeding the plots: sampling, line distances, medoids, colour normalisation, margins, hover/legend indices, importance order, aspect ratio, line style, and `plot_ale`, and the data of the traces of `partial_plot_3d`, `embedding_plot`, `scatter_3d`, `partial_compound_plot`, `partial_plot_2d` | drawing calls, layout, titles, file output, UMAP/HDBSCAN/t-SNE embeddings (oracles), the subplot layout of `compass_plot` |
| `simulation/simulation_utils.py`, `simulation/simulation.py` | coefficients, responses, sampling, wrapper, random bumps, `generate_sample` | `show_sample`, `main` |
| `simulation/simulation_for_fitting.py`, `simulation_for_importance.py` | `generate_sample`, `f_*`, `coef_*` (`Model/Surfaces.v`; the same text appears in the robust, data_size and STST_variation scripts) | `fit_models`, `test_*`, plotting |
| `README.md`, `simulation_for_ale.py` | the constructor calls and the local ALE snippet (`Model/Readme.v`), the lines drawn (`Model/AlePlot.v`) | the other plots |
| `simulation_data_fitting.py`, `parameter_tuning.py` | the steps that always fail (`Model/Scripts.v`), the importance map (`Model/ImportanceMaps.v`) | other plots |
| `test_models` etc. of the experiment scripts, `simulation_for_STST_variation.py` | grids, files, choice of the best (`Model/GridSearch.v`); the repeated fits (`Model/Variation.v`); `fit_llocv_models` (`Model/LeaveOneOut.v`); `fit_models` of the robust script (`Model/Robust.v`) | — |
| `test/*`, `Archive`, `Examples` | the maps of `Examples/local_importance.py`; C177 cites a setting of an example | everything else |

### Expectations that turned out false of the code

Phrased "Relied on: … False: …" in `properties.jsonl`; a theorem exhibits or characterises each
failure: C10, C17, C18 (README lines 66–69), C19, C20, C45, C46, C49 (with `estimator_sample_rate`),
C64, C73, C74, C83, C85, C88, C91, C95, C96, C97, C104, C105, C106, C110, C112, C113, C114, C116, C117, C118, C121, C125, C129, C130, C131, C132, C135, C138, C139, C140, C141, C144, C145, C146, C147, C149, C151, C153, C156, C157, C160, C161, C162, C163, C165, C166, C167, C168, C169, C170, C171, C172, C173, C174, C175, C177, C178, C179, C180, C181, C182, C183, C184, C185, C186, C187, C188, C189, C190, C191, C192, C193, C194, C195, C196.
Surprising but not contradicting a stated promise: C25 (stale cache), C29, C32 and C42 (caller's
matrix overwritten), C39, C43, C48, C51, C52, C55–C57, C59, C63, C70.
