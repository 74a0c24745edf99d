# Formal model of diffstar in Rocq: design

## 1. Value domain

`theories/XReal.v` defines `xr := Fin r | PInf | NInf | NaN` with `r : R`.
Every arithmetic function of the Python code is written over `xr`, operation by
operation, so division by zero, `log` of a non-positive number, `0/0` and
comparisons with NaN have IEEE-like results instead of Coq's totalised ones.

Simplifications of floating point made by this domain:

* finite arithmetic is exact (no rounding, no overflow, no underflow; C106-C108 are about rounded arithmetic);
* zero has no sign: `a/0` is `+inf` for `a>0`, `-inf` for `a<0`, NaN for `a=0`.

Arrays are lists.  `vmap` is `map`.  Python exceptions (shape mismatch, failed
assertion, missing key, index out of range) are `None`.
A theorem states finiteness explicitly: `f (Fin a) = Fin r` with a property of `r`.

The optimiser wrappers use the same domain for losses, so NaN and infinite losses are covered.

## 2. External code: oracles

Quantified universally (section variables, so they become arguments of each theorem):

* diffmah: `_log_mah_kern`, `mah_singlehalo` (and `mah_halopop` = per-halo map of `mah_singlehalo`);
* `jax.random`: `split`, `uniform`, `multivariate_normal` as arbitrary functions of the key;
* `scipy.optimize.minimize`, `np.random.normal` with its global state, Adam's `opt_init`,
  `opt_update`, `get_params` (modelled in C124-C126), and the gradients (modelled in C112, C120);
* `np.random.choice` (members; distinct ones when drawn without replacement), Planck13's age-redshift relation
  (strictly decreasing on [0, 10]);
* file contents.

Modelled from their documentation: `jnp.interp`, `np.searchsorted`, `np.array_split`,
`np.genfromtxt` shapes, `lax.scan`, `lax.cond`, `jnp.where`, `np.diff`, `np.clip`,
`nanargmin`, namedtuple `_replace`/`_make`/slicing.

## 3. Layout

* `XReal.v`: value domain (part of the model).
* `Model*.v`: the code, function by function, each citing file and lines. No proofs.
* `Spec*.v`: independent mathematical specifications.
* `*Proofs.v`, `*Facts.v`: lemmas.
* `Prop*.v`: only theorems closed by `exact lemma.`, examples, and `Print Assumptions`.

## 4. Plan per property

| ids | modelled code | how proved |
|---|---|---|
| C01 C05 C06 C08 C11 C13 | `history_kernel_builders.py`, `sfh_model.py` | refinement of the `xr` code to real-valued formulas, then real analysis |
| C02 C03 C04 C24 C26 | `utils.py` integrals | induction on the scan; Coquelicot `RInt` of the interpolant |
| C09 C10 C28 | triweight and quenching kernels | polynomial factorisation; Coquelicot derivatives |
| C12 | main-sequence kernel | bound on `x/(1+e^x)` |
| C14-C18 | sigmoid bounding and inverses | exp/ln algebra |
| C07 C19-C22 | `mgas_model.py`, dt arrays | induction |
| C23 C25 | `compute_fstar`, interpolation | Lipschitz bound of the interpolant |
| C27 | `get_1d_arrays` | list reasoning |
| C29-C44 | `diffstarpop` | same sigmoid lemmas; oracles for randomness |
| C45-C49 C67 | histograms, summary statistics, losses | list sums |
| C50-C53 C70 | fit data, weights, loss | refinement to real formulas, case analysis |
| C54-C57 C68 C69 C71 | optimiser wrappers | loop invariants over arbitrary outcome histories |
| C58-C61 C72 C73 | fit-table text, scripts | number printing and parsing over strings; partition of the catalog; refinement of each script to a per-galaxy table |
| C62-C66 | data loaders | list reasoning, loop invariants |
| C74-C79 | `smhm_utils_*_mgash.py`, `measure_smhm_*` | bin membership, inverse interpolation, table algebra, partition over ranks |
| C80-C84 | `fit_get_loss_helpers_mgash.py`, `fit_mstar_ssfr_pdfs_mgash.py`, `save_loss_data.py` | refinement of the helpers to per-cell formulas; loop invariant; string order of zero-padded numbers; exponential bounds |
| C85-C87 | the same measuring programs, end to end | selection as filtering, composition with C74-C79, pooling over parts |
| C88-C93 | comparison of simulated and fitted histories (`calculate_quality_diffstar_fits_mgash.py`) | accumulation as sums over galaxy lists, piecewise-linear interpolation |
| C94-C96 | numbered subvolume files: listing, loading, and both programs from directories to results | decimal numerals over strings, sorting, composition with C85 and C88 |
| C97 | fitting of halo histories (`galacticus_diffmah_fitter_script.py`) | partition of the catalog over ranks, running maxima, refinement to a per-halo table |
| C98 | data of the stellar-mass and sSFR fits from the measured galaxies | composition of the measurement (C85-C87) with the loss data (C80, C81); refutation by galaxies on a bin edge |
| C99 | data of the mean-mass fits, and all fits from files on disk | same, with `get_loss_data_smhm`; composition with C86, C87, C96 |
| C100 | starting point of the population-fit program | splitting of strings |
| C101 | the population-fit program: exceptions, saved result, restart | composition of the loop (C82) with the parameter transforms (C29, C30) |
| C102 | when a fit of measured galaxies runs | finiteness of mean squared errors; composition of C98 with the simulated samples |
| C103 | what each of the 88 population parameters does | sigmoids of lines; smooth clipping |
| C104 | distributions and keys of the draws | composition of C103 with the parameter transforms |
| C105 | quenched fraction versus halo mass | monotone sigmoids between a floor and a ceiling; the ten published tables |
| C106 | bounded parameters in single precision stay in range | monotone rounding; the ends by computation |
| C107 | round trip in single precision is lost at saturation | saturated values give lnarg = 0 and log 0 = -inf |
| C108 | single-precision parameters are accurate | relative error of each operation; logistic insensitive to relative error |
| C109 | Galacticus data, raw arrays to fits | block reads of the written file; composition with the script theorem of C59 |
| C110 | fitted Galacticus masses lag behind the mass formed | trapezoid rule on step averages, induction over steps |
| C111 | masses formed in single precision | relative error of each operation, induction over the table; stagnation by computation |
| C112 | gradient of the fit loss | each number carries eight derivatives; chain rule operation by operation, list induction |
| C113 | starved galaxies give no gradient | the SFR table is locally constant; uniqueness of derivatives |
| C114 | triweight kernel in single precision | absolute error bounds operation by operation; excursions by computation |
| C115 | quenching function in single precision | C114, Lipschitz bounds, error of the power of ten |
| C116 | bin weights in single precision | C114, relative error of the argument |
| C117 | star formation rates in single precision | C106, C114, C115, logistic tails, relative error of powers |
| C118 | masses of a whole history in single precision | C111, C117, C106 |
| C119 | SMDPL and Galacticus measuring and comparing programs as committed (`fb` omitted) | the omitted keyword as an absent value; case analysis |
| C120 | the gradients of the population losses are the gradients | dual numbers carried through draw, history and histogram; Cholesky recurrence differentiable on positive definite matrices |
| C121 | drawn parameters are the mean plus a triangular root of the covariance times normals | induction on Cholesky rows; diagonal covariances |
| C122 | central populations ignore satellite parameters and conversely | the fields each quenched fraction reads; derivative of a constant, which needs no smoothness |
| C123 | a population loss raises, is finite with finite derivatives, or is NaN, never infinite; an empty redshift makes it NaN | every normalised histogram entry is a nonnegative number or 0/0 |
| C124 | what Adam does: exact positions, reach of a step, parameters without gradient | invariant (mean)^2 <= 370/7 (mean square) of the two running means; closed form by induction |
| C125 | reach of the fallback fit, its loss, the starved galaxy | C124 through the loops of the wrappers with the gradients of C112, C113 |
| C126 | reach of the population-fit program, no all-zero result, unused parameters kept | C124 through the loop of C101 with the gradients of C120, C122 |
| C127 | stellar mass converges to the integral of the SFR as the table is refined; second-order error | uniform continuity of the rate; chord bounds from convexity |
| C128 | direction in which each parameter moves SFR and stellar mass | monotone weights of the two power laws and of the two quenching ramps |
| C129 | population predictions and losses agree | all entries of a finite mean square are finite; C123 |
| C130 | transforms of arrays of galaxies | rowwise C15 |
| C131 | averaged SFR converges to the mean over the last tau; not the mean of the tabulated history | C127 at the two ends of the interval; lookback index within one spacing |
| C132 | halo-mass histograms of fitted galaxies today, SMDPL and TNG; missing baryon fraction | smooth-histogram lemmas on the loaded tables; chunks partition the galaxies |
| C133 | fits started at a galaxy that quenches after the data end | SFRs constant along every quenching direction; C124 as in C125 |
| C134 | changes of units of a history | closed forms of C01/C02 under shifts of one parameter |
| C135 | histories determine the parameters | asymptotic power laws of the efficiency; minimum, onset and plateau of the quenching curve |
| C136 | tables that start before 1 Myr are never fitted | first formed mass is negative; restart loop of C54 |
| C137 | the star-forming efficiency has one peak | sign of the slope is a strictly decreasing function of mass |
| C138 | targets with a NaN or a negative mass are never fitted | NaN in the target log masses; restart loop of C54 |
| C139 | stars formed against the baryons of the halo | mass at most the highest rate times age; default parameters as counterexample |
| C140 | specific rates are limited by the time grid | last trapezium of the mass integral; triweight support; mean squared error |
| C141 | errors of the inputs move a history by a bounded factor | mean value theorem on the efficiency; triweight is Lipschitz; masses are sums of positive rates |
| C142 | rounding in a fit table barely moves the histories | error of single precision and of printing per parameter, then C141; the binary32 rounding of Flocq meets the hypothesis on `f4` |

Not expressible in this model: gradients as computed by JAX autodiff other than those of the
fit loss (C112, C113) and the population losses (C120, C122), run time, GPU determinism, statistical quality of the PRNG.

## 5. Trusted base

* Coq 8.16.1 kernel (including `vm_compute`, used to check facts about the concrete
  parameter tables).
* The standard-library axioms listed by `Print Assumptions`
  (`ClassicalDedekindReals.sig_forall_dec`, `ClassicalDedekindReals.sig_not_dec`,
  `FunctionalExtensionality.functional_extensionality_dep`, `Classical_Prop.classic`).
  No other axioms.
* The model-to-code correspondence, by reading. `ModelPopTables.v` (the parameter dictionaries
  of `diffstarpop/kernels`) was transcribed by a script from the source text; decimal literals
  are exact rationals.
* Contracts of external code, stated as hypotheses of the theorems that need them
  (`SpecPop.v`): `splits_ok` (`jax.random.split(key, n)` yields n keys) and `mvn_ok`
  (`multivariate_normal` returns a finite vector of the right length when the mean is finite and
  the covariance positive definite). Theorems about populations of one galaxy per row need no
  more than these.
* `diffmah.utils.get_cholesky_from_params` is modelled from its documentation
  (diagonal first, then the strict lower triangle row by row).

## 6. Modelled and not modelled

Modelled: `utils.py`, `defaults.py`, `sfh_model.py`, `mgas_model.py`, `kernels/*.py` (core);
in `diffstarpop/`: `kernels/*_mgash.py`, `kernels/satquenchpop_model.py`, `kernels/params/*mgash*.py`,
`mc_diffstarpop_mgash.py`, `param_utils.py`, `utils.py`, `sumstats/diffndhist.py`, `sumstats/smhm.py`,
`loss_kernels/mstar_ssfr_loss_mgash_anyz.py`;
`fitting_helpers/utils.py` and the numerical part of `fitting_helpers/diffstar_fitting_helpers.py`.

Fitting: float32 storage (`astype("f4")`) is exact; the Python `while` loops are bounded by fuel equal
to their own iteration limits; `loss_data` is a record; the loss of `_jax_adam_wrapper` is total.
C69 assumes `get_params(opt_init(p)) = p`, C71 that the minimiser returns eight finite numbers.

In the loss kernels `tw_ndhist_weighted` is imported from diffsky; the repository's own copy in
`sumstats/diffndhist.py` is used in its place. Arguments stacked along the redshift axis are a list
of records. `jnp.take` is modelled for non-negative indices, filling NaN when out of range. `_mse`
operands have equal shapes.

Files and scripts (`ModelLoad.v`, `ModelIO.v`): `data_loaders/*.py` (the functions cited there),
`get_header`, `get_outline`, `get_outline_nofit`, `write_collated_data`, and the main programs of
`galacticus_diffstar_fitter_script_mgash.py`, `diffstar_fitting_script_umachine_mgash.py` (one
subvolume) and `history_fitting_script_TNG_mgash.py` without `-test`. A file is its list of named
datasets or its text; names and directories are dropped; the MPI ranks' files are exchanged as
texts. Printing `%.5e` rounds half to even on the exact real. `np.genfromtxt(dtype=str)` is modelled
for blank-separated rows with `#` comments, including its squeeze of one-row files;
`np.concatenate` refuses mixed dimensions. `f4` (rounding to single precision before printing) and
`fit` (the fitter, which may depend on rank and loop position through numpy's global generator) are
universally quantified; the script theorems assume that `fit` raises nothing and that
`mah_singlehalo` returns one mass per time.

Population targets (`ModelTargets.v`): the three `smhm_utils_*_mgash.py` (everything but
`compute_weighted_histograms_z0` and path handling) and the main programs of the three
`measure_smhm_*_script_mpi_mgash.py`. The three variants of a function are one definition with a flag where they
differ. `scipy.stats.binned_statistic` puts values on the last edge in the last bin by comparison; its
rounding of near-edge values is dropped. It raises on empty input, whose minimum it takes. Temporary files left by an earlier run are ignored. A
subvolume's processing is a value, a missing file, or another exception.
The SMDPL and Galacticus files call `calc_sfh_galpop` without its required keyword `fb`. The model takes the
keyword's default as a parameter (`galpop_fb`): `None` as committed (C119), while the theorems on what these programs
compute are about `Some FB`, the program with `fb=FB` added as in the TNG file.

Population fits (`ModelPopFit.v`): the five `get_loss_data_pdfs_*` helpers (without their `plot_data`, the
same construction with more halos), the optimisation loop of `fit_mstar_ssfr_pdfs_mgash.py`, and
`save_loss_data.py`. An HDF5 group is a list of named items read back in name order; arrays and
numbers are opaque values with a shape. `get_loss_data_smhm` is in `ModelSmhmFit.v`.

Population-fit program (`ModelPopProgram.v`): `fit_mstar_ssfr_pdfs_mgash.py` from its arguments to the saved
file, with the gradient wrappers and `loss_combined*` of `mstar_ssfr_loss_mgash_anyz.py`. The gradient and the
optimiser are arguments of every theorem; the only assumption on the optimiser is that the parameters of a
fresh state are those it was made from. `np.load` is a function of the path. Printing, timing and plots
are not modelled.

C98 and C99 read the files the measurement writes as the measured values themselves (`measured`): HDF5
is taken to give back what was stored. They assume of diffmah that the history of a halo is computed
time by time (`timewise`), of `choice` that it draws from what it is given, and of `split` that it
gives as many keys as asked for.

Quality comparison (`ModelQuality.v`): the five `calculate_plot_*` functions and `save_data_plot` of
`calculate_quality_diffstar_fits_mgash.py`; the in-situ and total Galacticus variants are one definition.
C85-C90 assume finite fitted parameters and, of diffmah, one finite halo mass per time for the fitted galaxies. C90 assumes that the two sets
of halo fits list the galaxies in the same order.

Subvolume files (`ModelSubvol.v`): `return_subvol_str`, `return_subvol_str_diffmah`, `load_diffstar_subvolume` of
`smhm_utils_smdpl_mgash.py`, the listing in `measure_smhm_smdpl_script_mpi_mgash.py` and
`calculate_quality_diffstar_fits_mgash.py`, and the file names of `diffstar_fitting_script_umachine_mgash.py`. A
directory is a list of (name, content) that exists; names are ASCII; `upid` and the simulated histories of a
subvolume (`load_mock_from_binaries`) are given by number. The scripts `history_fitting_script*.py` import modules
that are not in the repository and are not modelled.

Fits of halo histories (`ModelMah.v`): the main program of `galacticus_diffmah_fitter_script.py` with
`get_nhalos_tot` and `extract_galacticus_mah_tables`. diffmah's fitter, header and row format are
variables, required to raise nothing and to print one line of blank-separated fields per fit; the run
ends with the table handed to diffmah's `write_collated_data`. Histories are finite and not empty.

Scaling relations of the population (`SpecScaling.v`): the relations of C103 are written over real numbers
with the parameter names only, without the code's argument lists, indices or clipping helpers; they are about
parameters in bounds with no slope exactly zero (a zero slope makes the code's clipped line undefined).

Single precision (`ModelFloat.v`, Flocq's binary32 with one NaN): the parameter transforms again, in the
arithmetic jax uses by default (nothing in the repository enables double precision). Each operation rounds to
nearest, ties to even, and overflows to infinity; Python literals are binary64 first; a product and a sum
may be fused (`fused`). `nn.sigmoid` and `jnp.log` are variables with the requirements stated in
`SpecFloat32.v`; `FloatDemo.v` shows a correctly rounded sigmoid meets them. Subnormal results are kept
rather than flushed to zero. All other properties are about exact arithmetic.

`ModelGalacticus.v` is the rest of `load_galacticus_sfh.py`: the target data from the raw
arrays, the file written for the fitting script and the bundle of tables.  Directory and
file names are left out (the arrays and tables are arguments).  C110 is about exact real
numbers; the average rates are those of C109.

Masses in single precision (`ModelFloatMass.v`): `cumulative_mstar_formed` in binary32, the scan run in
order as written, with the halving and the addition as one operation (`fused`) or two. Tables are one row;
C111 is for at most 2^20 entries, times from 1 Myr to 2^20 Gyr and rates from 0 to 2^40 Msun/yr. The
reference is the exact trapezoid sum through the single-precision table, not the integral of a smooth history.

`ModelGrad.v` is `jax.grad` of the fit loss. Every number carries its derivatives with respect to the eight
parameters and every operation of the program applies JAX's rule for it; that these are JAX's rules (the
zero multiplying a branch not taken, halves at ties of max and min, the guarded division in `interp`) is
trusted. Reverse mode multiplies the same factors in another order, which is the same in exact arithmetic as long as
they are all finite. At a loss of NaN it is not: reverse mode passes zero, not NaN, into a branch of `where` or
`cond` that was not taken, so some of JAX's derivatives may be finite there. No theorem says anything about the
derivatives at a loss of NaN (C123 only about the value and their number).
diffmah's masses do not depend on the parameters, so they carry no derivative.

`ModelPopGrad.v` is `value_and_grad` of the population losses, in the same way with 88 parameters. JAX reaches
galaxies as rows of stacked arrays, the model by index; both are the same numbers. `multivariate_normal` is here
`jax.random`'s default method, mean plus Cholesky factor times `jax.random.normal`, with `normal` a variable that
returns finite vectors of the length asked for (`normals_ok`). Its derivative is taken through the row-by-row
computation of the factor; JAX uses a closed formula, which is the same in exact arithmetic because the factor is
unique. `mc_is_q` and the key carry no derivative. Slopes of the mean relations are supposed non-zero: at zero
slope the value itself is NaN (C32).

`ModelFloatTw.v` is the triweight kernel, the quenching function and the bin weights in binary32. A division
by a constant may be compiled as a division, as a multiplication by the rounded reciprocal, or with the
constants of a term folded into one, and products may be fused with the addition after them (`style`); the
choice is the same for all terms, and sums are taken in the order written. Integer powers are formed by squaring
(`lax.integer_pow`). The power of ten is a variable, accurate to 2^-22 for exponents from -4 to 1.

`ModelFloatSfh.v` is the whole star formation history of one galaxy in binary32, from the eight parameters to
the masses formed. diffmah's log mass, `nn.sigmoid`, `jnp.log10` and the power of ten are variables: the
sigmoid within 2^-22, the logarithm within 2^-22 from 0.5 Myr to 1024 Gyr, the power of ten to one part in 2^18
(plus 2^-120) for exponents from -90 to 20. The exact reference takes the halo mass as given in binary32.

`ModelAdam.v` is Adam from `jax.example_libraries.optimizers`, which is not part of the repository: written after
its published source, with its default decay rates 0.9, 0.999 and 1e-8, in exact arithmetic; that the installed
version is this one is trusted. C54-C57, C68, C69, C98 and C101 hold for any optimiser, C124-C126 for this one. C125
takes the loss and gradient functions as NaN where they would raise. C126 supposes of the gradients
(`own_gradients`) that they are those of `ModelPopGrad.v` wherever the loss is finite and no slope is exactly zero,
and that at an exactly zero slope, where the derivative divides by it, one of them is not finite, so that the
loop stops as at any other non-finite gradient.

`ModelWrappers.v` holds the prediction wrappers of the population losses (the satellite copies are the same text and
share one definition) and the `_vmap` transforms of parameter arrays, one list per row.

`ModelWeighted.v` holds `compute_weighted_histograms_z0` of the SMDPL and TNG scripts, on the tables of
`ModelTargets.v`.

Where the model simplifies: `jnp.where` and `vmap` only on equal shapes (no broadcasting beyond
`get_1d_arrays`); `upid` is an integer; named tuples are association lists; keyword arguments are
positional; jit/vmap compilation is the identity.

Not modelled: plotting, notebooks, tests, warnings, other autodiff, binary file formats, command-line parsing, MPI transport.
Also not modelled: `umachine_smhm_z0_allhalos` (returns two columns of a file), `save_data` of the quality script,
the `-test` modes of scripts, and four scripts that import modules or names absent from the repository and so cannot
start (`history_fitting_script.py`, `history_fitting_script_TNG.py`, `history_fitting_script_SMDPL_tpeak.py`,
`generate_unit_testing_data.py`). `galacticus_diffstar_fitter_script.py` is the same text as its `_mgash` copy, and
`diffstar_fitting_script_umachine.py` differs from its `_mgash` copy in a file-name pattern only; the model of the
`_mgash` copies stands for both.
