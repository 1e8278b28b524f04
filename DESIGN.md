# Formal model of LCQPow in Rocq (Coq 8.16.1)

Written before the proofs; kept current afterwards (section 6 records the outcome per property).

## 1. What is modelled and how

The model is a set of total, computable Gallina functions, one per C++ function, over:

* **Numbers.** The code is parametric in a record `Arith T` of double operations (`Arith.v`): 0, 1, + - * /,
  unary minus, fabs, `<`, `<=`, infinities, decimal literals, int->double.  Three uses:
  - theorems *for every* `Arith T` (nothing assumed about the operations): control flow, termination, counters,
    memory safety, status codes.  They hold for IEEE doubles including NaN and any rounding;
  - `xq` = canonical rationals `Qc` extended by +inf, -inf, NaN: exact arithmetic.  Every finite double is a
    rational and the code uses only + - * / and comparisons, so "exact arithmetic on all finite double inputs" is
    covered.  Algebraic theorems are about this instance;
  - `f64` = `SpecFloat` with prec 53, emax 1024 (Coq standard library): bit-exact IEEE binary64, computable.  Used
    for witnesses (NaN, rounding) of refuted properties and for properties about IEEE comparison.
* **Undefined behaviour** is an explicit outcome: `res A := Ok a | UB reason`, reasons `NullDeref`, `OutOfBounds`,
  `Uninit`, `IntOverflow`, `BadAlloc`.  Arrays are `list (option X)` (`None` = uninitialised cell); every read and
  write goes through checked `rd`/`wr`; pointers are `option`; ints are `Z` with overflow checked wherever counters or
  sizes are computed.
* **QP solvers** (qpOASES, OSQP; not in the repository) are an oracle, a function from the whole history of calls to
  an arbitrary answer (return code, iteration count, exit flag, primal, dual).  `rand()` is an arbitrary stream.
  Both are universally quantified in every theorem.
* **Objects** (`LCQProblem`, `Options`, `OutputStatistics`) are records; a method is a function from state to
  `res (result * state)`; failed calls return the state they leave behind.
* **Loops** are bounded `for_` combinators (checked reads inside); `while(true)` of runSolver is recursion on fuel with
  a distinct `OutOfFuel` outcome which C01 excludes.

Every definition cites file and lines of /repo.

## 2. Trusted base

* Coq 8.16.1 kernel (and coqchk).
* The reading of the C++ source (the code is not executed here).  Evaluation order of floating point expressions is
  modelled as written (no FMA contraction, no x87 excess precision, round to nearest).
* Axioms: listed by `Print Assumptions` below each theorem in the `Properties*.v` files; no axiom of our own; see
  section 5.

## 3. What is modelled, file by file, and what is not

| source | model |
|--------|-------|
| include/Utilities.hpp (enumerations) | `Codes.v` |
| src/Utilities.cpp: dense and csc kernels, conversions, copies, MaxAbs, getMax/getMin/isZero | `Utilities.v` |
| src/Utilities.cpp: readFromFile, writeToFile | `FileIO.v`, `Printf.v` (`%f` in exact arithmetic) |
| src/Options.cpp | `Options.v`, `OptionsGet.v`; ownership of the OSQP settings in `OwnOptions.v` |
| src/OutputStatistics.cpp, interfaces/python/lcqpow/OutputStatistics.cpp | `Stats.v`, `StatGetters.v` |
| src/Subsolver.cpp, SubsolverQPOASES.cpp, SubsolverOSQP.cpp | `Subsolver.v` (marshalling and result mapping; the libraries are an oracle) |
| include/LCQProblem.hpp, .ipp, src/LCQProblem.cpp | `State.v` (members), `LCQProblem.v` (methods, incl. printIteration, perturbGradient, mode switches, file loading, getters); allocation and release of every array in `OwnProblem.v`, `OwnCopy.v` |
| src/MessageHandler.cpp | `Messages.v` |
| interfaces/matlab/LCQPow.cpp, LCQPow_options.m | `Matlab.v`; option structs of the QP solvers in `MatlabQP.v` |
| interfaces/python/lcqpow | `Python.v` |

Specification files (`Spec*.v`) hold the vocabulary of the theorems; `Properties_*.v` hold the theorems, each closed by
one `exact` and followed by `Print Assumptions` and an `Example` meeting its hypotheses; `Examples*.v` hold the concrete
data; all other files are proofs.  `Pure.v` is a list-level restatement of the solver loop used only inside proofs;
`Refine.v`, `StartDense.v`, `StartSparse.v`, `Reuse.v` prove that the model of the C++ functions behaves like it.

Not modelled:

* the internals of qpOASES and OSQP; their option objects, which LCQPow only hands through, are maps from names to values
  in the MATLAB interface and opaque elsewhere;
* `srand(time)`: `rand()` is an arbitrary stream;
* allocation failure, threads, the time of anything;
* the layout of the printed iteration table (which rows are printed, with which values, is modelled) and the debugging
  helpers `printStep`, `printMatrix`, `printBounds`, which nothing calls;
* the example programs, the test programs and the build files;
* MATLAB and pybind11 themselves: the model starts at the MEX arguments and at the bound C++ signatures.

Simplifications are stated in the comment of the definition concerned.  The main ones: matrices handed to a QP library
are snapshots taken at the call; a member of type `double*` is an optional array owned by the member (aliasing inside one
kernel call is modelled by `src`); sizes passed to `new` are not compared with the available memory.

## 4. Plan per property

| id | modelled by | proof |
|----|-------------|-------|
| C01 | `runSolver` loop on fuel, QP oracle history | measure maxIterations+1-totalIter; any arithmetic |
| C02 | `runSolver`, `getPhi`, `MaxAbs`, stats | invariant of loop pass; any arithmetic |
| C03 | load + run, exact | C34 + loop invariant "data unchanged" |
| C04 | load + run + getters, exact | stationarity formula + transformDuals; expected false for non-zero lower bounds -> refuted + partial |
| C05 | run, getters | case analysis of exits; expected false for failed initialisation after a success -> refuted + partial |
| C06 | run | loop invariant iterTotal = totalIter |
| C07 | run, stats | invariant rho = iterate; bound by induction |
| C08 | run, oracle history | induction over passes |
| C09 | run, stats, oracle history | invariant sum over history |
| C10 | run, stats | invariant on vector lengths |
| C11 | leyfferCheckPositive, updatePenalty | characterisation by max over last n; size_t conversion explicit |
| C12 | determineStationarityType | decision table against separate definitions |
| C13 | run | expected false -> refuted with witness + partial |
| C14 | run, exact | convexity invariant |
| C15 | perturbStep, run | loop lemma; oracle independence by induction |
| C16 | getOptimalStepLength, exact | quadratic in one variable |
| C17 | run, exact, optimal QP oracle | optimality inequality + C16 |
| C18 | run, oracle history | history invariant; expected false before the first penalty update if lower bounds non-zero |
| C19 | loadLCQP dense + initializeSolver | loop lemmas per block |
| C20 | loadLCQP csc | column-wise loop lemma |
| C21 | load functions | expected false (L, R, Q) -> refuted, partial for g and A |
| C22 | setComplementarityBounds | loop with early exit |
| C23 | constructor, load | uninitialised dims as None -> refuted |
| C24 | initializeSolver | refuted (NULL dereference), partial otherwise |
| C25 | load after history | refuted (stale lbL/lbR, stale history), partial |
| C26 | run twice | refuted (box bounds lost), partial without box |
| C27 | sparse run twice | refuted (index list grows) |
| C28 | initializeSolver (OSQP) | refuted (byte count), qpOASES part proved |
| C29 | initializeSolver (OSQP) | refuted by history, partial for fresh objects |
| C30 | load + run dense | UB-freedom invariant, any arithmetic |
| C31 | load + run sparse | UB-freedom invariant, any arithmetic |
| C32 | initializeSolver, switches | case analysis |
| C33 | dense kernels | loop lemmas, exact (and evaluation order for any arithmetic) |
| C34 | symmetrisation, getPhi | sum algebra |
| C35 | csc kernels | loop over column segments = sum over entries |
| C36 | csc symmetrisation | sorted search lemma; refuted for unsorted |
| C37 | csc_to_dns | loop invariant incl. early exits |
| C38 | dns_to_csc | loop invariant + composition |
| C39 | setQk/updateQk/updatePenalty | merge invariant, induction over updates |
| C40 | copyCSC | loop lemma |
| C41 | MaxAbs | order lemma (exact); refuted for IEEE NaN |
| C42 | Options | invariant over command lists; NaN refuted |
| C43 | Options heap model | small pointer model of OSQP settings |
| C44 | stats, run | reset lemma; refuted for failed initialisation |
| C45 | readFromFile over token streams | induction; refuted for truncated files |
| C46 | writeToFile %f | rounding bound; exactness refuted |
| C47 | field table | refuted by computation on the finite table |
| C48 | colMajorToRowMajor | index lemma |
| C49 | Python marshalling | index lemma |
| C50 | enum table | refuted by computation |
| C51 | message table | finite case analysis |
| C52 | getters | uninitialised members -> refuted |
| C53 | switches | C38 |
| C54 | run dense vs sparse | simulation relation |
| C55 | counters | overflow outcome reachable -> refuted, partial bound |
| C56 | ownership ledger | separate small model of allocations; refuted for reload |
| C57 | wrappers | case analysis |
| C58-C60 | MATLAB call forms | equality with the load of the meant problem; totality; refutations per argument |
| C61 | file loading | equality with the load of the numbers read |
| C62 | Python calls | equality with the load of the meant problem |
| C63 | run, recorded values | simulation of the schedule of SpecSchedule.v |
| C64 | printed output | frame lemmas for the log |
| C65 | LCQPow_options.m | computation, for every problem |
| C66 | output options, any sequence of calls | relational proof: erasing log, recorded steps and the two options commutes with every method |
| C67 | recorded step sizes, stationarity values | trace of the run, semantics of the max norm |
| C69 | bounds set by index | frame of the update, refuted before bounds exist |
| C68 | scalar helpers | order axioms proved for exact numbers and for IEEE doubles |
| C70 | numbers of variables, solution vectors | invariant on vector lengths over all histories, refuted for mixed solvers |
| C71 | QP solver option structs (MatlabQP.v) | induction over the list of options, refuted for defaults, flags, limits |
| C72 | refused loads | frame lemma per setup step, refuted by two executions |
| C73 | run, two sides exchanged | lockstep of two runs of Pure.v related by an exchange of multipliers; commutativity and associativity of exact sums |
| C74 | run, another order of rows | lockstep of two runs of Pure.v related by a permutation; sums and searches over permuted index ranges |
| C75 | run, variables in another order | lockstep of two runs of Pure.v with permuted vectors; sums, maxima and merged columns over permuted index ranges |
| C76 | two calls compared: equal dense_ops / sparse_ops up to the penalty's linear term, then equal runs (DefaultsFacts) |
| C77 | OutputStatistics, updaters and getters | induction over the sequence of calls, invariant relating members and recorded calls (StatsFacts) |
| C78 | Raising the limits does not change a run before it meets them | simulation of both loops, with growth of calls and statistics; Properties_Limits.v |
| C79 | A run ends at the first step that meets both tolerances | loop invariant on the recorded values; Properties_First.v |
| C80 | A smaller complementarity tolerance only makes a run go on | simulation of both loops, with growth of calls and statistics; Properties_Tol.v |
| C81 | etaDynamicPenalty has no effect with nDynamicPenalty zero | equality of both loops; Properties_Off.v |
| C82 | One QP per reported iteration | loop invariant on calls and counter; Properties_Count.v |
| C83 | The QPs of a run differ in the gradient only | invariant on the calls; Properties_Series.v |
| C84 | An unreachable dynamic penalty is off | simulation up to the recorded values, with a bound on their number; Properties_Far.v |

## 5. Axioms

`Print Assumptions` answers "Closed under the global context" for every theorem in the `Properties_*.v` files: none of
them depends on an axiom.  No file declares one.  The development loads parts of the standard library (through `Lqa`,
`QArith`, `Qcanon`, `SpecFloat`) whose own files contain axioms; a check of the compiled library lists seven axioms of
`Coq.ssr.ssrunder`, which no theorem uses.

## 6. Outcome

84 properties: 34 proved as stated, 50 in part.  For nearly all of the latter the claim is false of the code; a theorem named
`..._refuted` gives the witness and `..._partial` what does hold.  `MANIFEST.json` lists the theorems.

| id | property | status | remark |
|----|----------|--------|--------|
| C01 | runSolver always terminates within the iteration limit | proved | any arithmetic, any QP answers |
| C02 | Success is returned only when both tolerance tests hold at the returned iterate | proved | any arithmetic; the residual is the state's stationarity vector, tied to the user's data by C04 |
| C03 | On success the returned point satisfies the user's complementarity constraint up to tolerance | proved | exact arithmetic, dense and sparse, any rational QP answers |
| C04 | On success the returned primal-dual pair is stationary for the user's LCQP | partial | proved in full when lbL, lbR do not shift the penalty gradient; otherwise the exact deviation rho*g_phi is proved (the claim is false then) |
| C05 | Return code and reported algorithm status agree | partial | runs that reach the QP solver; false for runs failing before (refuted) |
| C06 | MAX_ITERATIONS_REACHED means the iteration budget was really used up | proved |  |
| C07 | The penalty parameter follows the documented geometric law and stays bounded | proved | law and bounds in exact arithmetic; law also in any arithmetic |
| C08 | A failing QP subproblem is always reported and ends the run | partial | all failures the solver reports; OSQP setup failures make the code read an uninitialised value (refuted) |
| C09 | Subproblem iterations are fully accounted for | partial | as C08 |
| C10 | Recorded step statistics are complete and consistent | proved |  |
| C11 | The dynamic (Leyffer) penalty strategy follows its documented rule | proved | fresh object (empty history); stale history after a second run is part of C25/C26 |
| C12 | The reported stationarity type matches the definitions of S-, M-, C- and W-stationarity | partial | for the multipliers of the penalised problem; pairs of negative multipliers with product exactly tol excluded (false there) |
| C13 | The reported stationarity type is that of the returned solution | partial | see C12_partial; the claim itself is false |
| C14 | Iterates remain feasible for the linear constraints | proved | exact arithmetic; after a failed first QP the initial guess is returned |
| C15 | Step perturbation moves each coordinate by at most EPS | proved | first half in exact arithmetic, second half in any arithmetic |
| C16 | The step length is the exact minimiser of the penalised objective on the segment | partial | before the first penalty update only if lbL, lbR do not shift the penalty gradient (false otherwise) |
| C17 | The penalised objective decreases monotonically while the penalty is unchanged | partial | as C16 |
| C18 | Every QP subproblem is the linearisation of the penalised problem at the current iterate | partial | as C16; matrices and bounds are C19/C20 |
| C19 | Dense loading builds exactly the stacked constraint system | proved | any arithmetic, any QP answers |
| C20 | Sparse loading builds the same constraint system as dense loading | proved | any arithmetic; L'R + R'L must have a stored entry (otherwise loading fails, C22_sparse_zero_product) |
| C21 | Missing mandatory data is rejected with an error code | partial | proved for missing g (dense, sparse) and missing dense A with nC>0; refuted for Q, L, R (NULL dereference for every problem) and sparse A (accepted) |
| C22 | Complementarity lower bounds of -infinity are rejected | proved | dense, sparse; IEEE reading in C22_f64 |
| C23 | An object constructed with invalid dimensions refuses to work | partial | false for every invalid dimension triple (uninitialised read); C23_refuted is universal |
| C24 | Omitting one of the complementarity lower bounds is supported | partial | false: every such run dereferences NULL (proved for all data) |
| C25 | Loading a new problem replaces the old one completely | partial | False in general: lower complementarity bounds and the complementarity history of earlier uses survive a load (C25_bounds_refuted, C25_history_refuted). C25_partial and C25_sparse_partial: for every history of option changes, dense and sparse loads and dense runs, loading dense data (or sparse data, with sparse qpOASES) and running equals a fresh object's run, under conditions that exclude exactly these leftovers. C25_boxes and C25_sparse_boxes say which box bounds are left over. Missing: histories with sparse runs (C27), OSQP. |
| C26 | Running the solver again solves the same problem | partial | False for box bounds, which the first run consumes (C26_refuted); C26_boxes_given, C26_boxes_lost: exactly when they are in force, for any past. C26_data_dense, C26_data_sparse: after a successful load of dense or sparse data into an object with any past (loads of all kinds, mode changes, runs), every QP of every later run has the Hessian, constraint matrix and constraint bounds of that data. C26_partial: the same with the box bounds given since the previous run, in histories of loads and dense runs. C26_continues: a second dense run is the run of a new object without box bounds started at the solution found. Missing: data loaded from files; a load that gives only one of lb and ub; C26_continues for sparse data (see C27). |
| C27 | Repeated sparse runs are memory safe | partial | false: a second sparse run writes out of bounds; for any history a later sparse run never raises the penalty (C27_never_again) |
| C28 | A dual initial guess reaches the QP solver unchanged | partial | qpOASES; false for OSQP |
| C29 | OSQP can be used on an object without box constraints | partial | false after a qpOASES run: then every later OSQP run is rejected (C29_qpoases_rejects, any history); true for all histories without one (C29_accepted_partial) |
| C30 | Dense use of the API is free of undefined behaviour | partial | paired lbL/lbR (else C24), QP iteration counts and maxIterations small enough that the counters fit |
| C31 | Sparse use of the API is free of undefined behaviour | partial | as C30; OSQP: no box bounds, no dual guess, setup succeeds |
| C32 | Dense/sparse mismatches are detected | proved |  |
| C33 | The dense linear algebra kernels compute the documented expressions | proved | any arithmetic (left-to-right sums) and exact |
| C34 | The penalty function is the complementarity product | proved | exact arithmetic |
| C35 | Sparse kernels agree with dense kernels | proved | exact arithmetic; the affine kernel for symmetric matrices, as stated; refuted for unsymmetric ones |
| C36 | The sparse symmetrised product agrees with the dense one | proved | sorted columns; unsorted columns give wrong results (refuted) |
| C37 | csc_to_dns is exact and rejects bad row indices | partial | row indices whose product with n fits an int; otherwise signed overflow (refuted) |
| C38 | dns_to_csc is exact | partial | everything except NaN entries, which are lost (refuted) |
| C39 | The penalised Hessian is Q + rho*C at all times | proved | merit value; step length through C16_partial, stationarity through C67_stationarity_partial |
| C40 | OSQP receives the upper triangle of Q | proved |  |
| C41 | MaxAbs is the infinity norm | partial | vectors without NaN; refuted for NaN |
| C42 | Options always stay in their documented domain | partial | effect of each call for any arithmetic; domain and acceptance for exact numbers and doubles other than NaN; refuted for NaN arguments; default values are accepted and unchanged by their setters |
| C43 | Copied options are independent | partial | every program with Options objects that uses live objects only; refuted for setOSQPOptions(getOSQPOptions()) of the same object |
| C44 | Statistics are reset at each run and copied faithfully | partial | runs that pass initialisation |
| C45 | Data files are read completely or rejected | partial | enough numbers, non-numeric token, missing file (double); refuted for truncated files and for missing files of integers |
| C46 | Writing and re-reading data preserves it | partial | up to half a unit of the sixth decimal in exact arithmetic, equality for multiples of 1e-6; refuted in general |
| C47 | The MATLAB statistics struct carries each value under its name | partial | calls that do not store steps; refuted if steps are stored |
| C48 | MATLAB matrices are converted to row-major correctly | proved | any arithmetic |
| C49 | The Python dense interface loads the matrix the caller means | proved | any arithmetic; Q arrives transposed, L, R, A as the caller means them |
| C50 | All return codes are available to Python under their C++ name | partial | all but six codes; refuted for these |
| C51 | Reporting an error does not change it | proved | texts are also pairwise different |
| C52 | Solution getters are safe at any time | partial | false before the first run (universal); proved after a run: primal always, dual after success |
| C53 | Switching between dense and sparse mode preserves the problem | partial | Idle switches, failed switches (no later run can tell) and round trips for any object and arithmetic when every entry is zero or compares with zero; every rational dense problem; both formats give the same object after a switch. A NaN or -0 entry is lost (C53_nan_refuted). |
| C54 | Dense and sparse mode solve the problem identically | partial | Dense against sparse qpOASES (C54_partial): exact arithmetic, rational QP answers, symmetric Q, no entries of C in (0,1e-25], lbL and lbR both given or both absent. Sparse qpOASES against OSQP (C54_osqp_partial): exact arithmetic, no box, no dual guess; the exit flag of the QP library is excepted. Missing: doubles, OSQP with a dual guess. |
| C55 | Counters cannot overflow silently | partial | proved when counts are small enough; false in general; limit INT_MAX is never reported |
| C56 | The object's memory is owned and released exactly once | partial | Proved for an object that is loaded once and run at most once (not with sparse qpOASES), with any number of refused runs and successful mode switches. Absence of double frees and uses after free: for every history in which OSQP does not reject data after accepting earlier ones. The full property is false: C56_refuted, C56_safe_refuted, C56_assign_refuted, and for every copied object C56_copy_refuted; the leaks are characterised for all histories by C56_reload, C56_rerun, C56_sparse_qpoases, C56_files, C56_empty_product, C56_failed_switch. |
| C57 | QP solver results are classified correctly | partial | qpOASES and dual signs proved; OSQP proved except statuses 3,4, which are wrongly accepted (refuted) |
| C58 | A MATLAB call solves the problem the caller passed | partial | all four argument lists, with and without params, dense (symmetric Q; otherwise Q arrives transposed, C58_transposed) and sparse matrices; bound vectors are full arrays |
| C59 | Every MATLAB parameter reaches the option of the same name | partial | all four argument lists, dense and sparse; refuted for a maxPenaltyParameter that is no integer; option structs of the QP solvers are C71 |
| C60 | The MATLAB interface never reads memory it should not | partial | refuted (bounds of complementarities of the wrong size; dual output of failed runs; dual guess with OSQP, for every problem; sparse g with dense Q); C60_load_partial and C60_call_partial show that full matrices of any sizes outside these cases are read correctly or rejected |
| C61 | Loading from files loads the arrays in the files | partial | Proved for files with enough numbers and without a dual guess, and for unreadable files. False with a file for y0 (always reads beyond the end of an array, C61_dual_refuted) and for short files (accepted, C61_short_refuted). |
| C62 | The Python interface adds nothing to the C++ one | proved | All problems whose vectors have the right lengths; bounds on constraints only if there are constraints. |
| C63 | The penalty parameter is raised exactly by the documented rule | partial | Proved for the first run of an object (any history of loads, switches and option changes before it) and, relative to the values the object still holds, for any run. False for a later run read as a fresh one, even after loading again (C63_rerun_refuted): the values of the dynamic strategy are not cleared. |
| C64 | What is printed is determined by the print level and the result | partial | Proved for loads (dense, sparse, files), mode switches, refused runs and all runs that call the QP solver. False for runs that end at the iteration or penalty limit: they print no message (C64_silent_refuted). The layout of the text is abstracted. |
| C65 | The MATLAB struct of default options stands for the default options | partial | refuted: the struct is rejected for every problem, and with corrected flags it stands for other tolerances and another print level; all other options agree with the defaults |
| C66 | Output options do not influence results | proved | Any arithmetic, any sequence of calls. The comparison of two loud runs assumes both are free of undefined behaviour; for a silent run this follows from the loud one. |
| C67 | Recorded step sizes and stationarity values are those of the passes | partial | Exact arithmetic. Stationarity values before the first penalty update only if lbL, lbR do not shift the gradient of the penalty. |
| C68 | Scalar helpers | proved | isEqual, isZero in exact arithmetic; getMax, getMin also for IEEE doubles. |
| C69 | Bounds set by index | proved | As stated, for any arithmetic. Before bounds were set as a vector the call dereferences NULL (C69_unset). |
| C70 | Numbers of variables and solution vectors | partial | Refuted for the dual solution when runs with OSQP and refused runs with qpOASES are mixed (reads outside the vector); the number of duals is uninitialised before the first run; an OSQP run refused for box bounds left by qpOASES keeps the old number. |
| C71 | QP solver options passed from MATLAB | partial | Proved for numeric scalars: values, frame and warnings. Refuted: options not given fall back to the library's defaults, not LCQPow's (C71_defaults_refuted); logical values are read as doubles (C71_flag_refuted); maxIter and maxCpuTime of qpOASES are ignored silently (C71_limit_refuted). |
| C72 | A refused load changes nothing | partial | Proved: solutions, sizes, statistics, options and mode are unchanged and exactly one message is printed (dense, sparse, files); a valid load afterwards gives the object it would have given without the refused call, if bounds given by that call are given again. Refuted for the problem data: the next run solves a mixture of both problems (C72_mixture_refuted) or reads uninitialised memory (C72_unusable_refuted). |
| C73 | The two sides of complementarity play the same role | partial | Proved for qpOASES dense, qpOASES sparse and OSQP in exact arithmetic, for accepted problems with lower complementarity bounds for both sides or none, if no multiplier delivered by the library is NaN. C73_nan_refuted: with a NaN multiplier the run succeeds and the reported status depends on the side. False in doubles, where sums in another order round differently (C73_doubles_refuted). |
| C74 | The order of constraints and complementarity pairs does not matter | partial | Proved for qpOASES dense, qpOASES sparse and OSQP in exact arithmetic, for accepted problems with lower complementarity bounds for both sides or none; if sides are exchanged, no multiplier delivered by the library may be NaN (C73_nan_refuted). Sparse problems must store the same entries. False in doubles, where sums in another order round differently (C74_doubles_refuted). |
| C75 | The order of the variables does not matter | partial | Proved for qpOASES dense, qpOASES sparse and OSQP in exact arithmetic, for accepted problems with lower complementarity bounds for both sides or none. Sparse problems must store the same entries, and with OSQP the Hessian must be stored with both triangles. With random perturbations the draws of a step are permuted, too. Missing: doubles, where it is false (C75_doubles_refuted). |
| C76 | Leaving out an optional argument means its documented default | partial | Bounds other than lbL, lbR and the initial guess: every arithmetic, doubles included, all three modes. lbL and lbR both left out or both zero: exact arithmetic and rational answers. False if exactly one of lbL, lbR is left out (NULL dereference, also C24_dense_refuted and C24_sparse_refuted for all data) and, with OSQP, for infinite boxes that are written out. Text output is not compared; multipliers are compared after success. |
| C77 | An OutputStatistics object shows exactly what was recorded in it since the last reset | proved | History by induction over the call sequence; no undefined behaviour if the counts stay within int. Copying into Python objects by pybind11 is not modelled. |
| C78 | Raising maxIterations or maxPenaltyParameter does not change what a run does before it meets them | proved | The QP library is a function of the calls made so far. Undefined behaviour of the longer run after the shorter one ended is not excluded here (C19-C21). |
| C79 | A run stops at the first step that meets both tolerances | proved | Runs that fail before the first QP is solved are left out (hypothesis started): they keep the statistics of the run before. |
| C80 | Without the dynamic penalty, a smaller complementarityTolerance only makes a run go on | proved | C80_dynamic_refuted: with nDynamicPenalty = 1 two runs of the example differ from the third step on, although neither met its tolerance. |
| C81 | With nDynamicPenalty zero, etaDynamicPenalty has no effect | proved | Equality of whole runs, undefined behaviour included. C81_eta_on shows that the hypothesis is needed. |
| C82 | A run solves one QP per reported iteration | proved | Runs that fail before the first QP is solved are left out (hypothesis started). |
| C83 | The QPs of a run go to the chosen solver and differ in the gradient only | proved | Runs that fail before the first QP is solved are left out (hypothesis started). |
| C84 | An nDynamicPenalty that is negative or larger than maxIterations switches the dynamic penalty off | proved | The run with the given nDynamicPenalty has to be free of undefined behaviour. C84_bound_sharp: with nDynamicPenalty = maxIterations = 2 the example run makes a penalty update that it does not make with zero. |

## 7. Tests against wrong programs

`seeded/LOG.jsonl` has one line for each of 195 edits of the model made in a scratch copy: the edited definition, the claims
that the edit makes false, the first lemmas that fail, and the theorems that rest on them.  A theorem counts as failed if
its proof uses a lemma whose proof no longer goes through.  This is weaker than a proof of its negation.  Where that left a
doubt, the line has a note saying how it was settled.  Edits that a theorem survived led to new or stronger theorems, named
under `theorems_tightened`.
