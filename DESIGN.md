# Formal model of distclus in Rocq (Coq 8.16.1)

## Layout

* `rocq/theories/Base` — Go semantics helpers (panics as values, slice reads and writes), number systems.
* `rocq/theories/Model` — executable model of the Go code, one file per Go package or file group.
  Every definition cites the file and lines it models and says where it simplifies. No proofs.
* `rocq/theories/Spec` — small independent specifications, written without the model's helpers.
* `rocq/theories/Proofs` — proofs.
* `rocq/theories/Props` — property theorems only: each is closed by `exact <lemma>` and followed by
  `Print Assumptions`; non-vacuity `Example`s stand beside them.
* `tools` — `manifest.py` (MANIFEST.json from the theorems and `notes.json`), `assumptions.py` (the table at the
  end of this file), `mutate.py` and `mutants.py` (mutation testing, results in `seeded/LOG.jsonl`).

## Modelling conventions

* `Elemt` is an arbitrary type; nil is `None`. A slice is a list, except in the aliasing model
  (`Model/Heap.v`, C38) where it is a window on a heap array.
* A Go panic (index out of range, division by zero, nil type assertion, closed channel) is the value `Panic`, or an
  event of the controller model.
* Go `int` is `Z`, without overflow (simplification; lengths, weights and counters only).
* `float64` code is written once, polymorphic in a record of number operations (`Base/Num.v`), and instantiated
  with the reals `R` (exact arithmetic, for algebraic claims) and with Flocq's IEEE-754 binary64, round to nearest
  even, without fused multiply-add (for claims about computed values, NaN and infinities included).
  `math.Pow`, `math.Exp`, `math.Log`, `math.Gamma` are parameters in the polymorphic code and are only given a
  meaning over `R`. `math.Sqrt` is the correctly rounded square root.
* Random generators are oracles: the draws are universally quantified inputs, with the documented range as
  hypothesis where it is needed (`Intn(n)` in `[0,n)`, `Float64()` in `[0,1)`).
* The data-parallel goroutines of `core/par_*.go` are modelled by the interleavings of their memory writes; the
  controller and LateDistrib by interleaving small-step semantics over explicit program points. Memory is
  sequentially consistent; the places where the Go memory model promises less are the data races of C70 and C76.
* A property the code violates is stated in full and its negation is proved on a concrete execution
  (`…_refuted`), next to the strongest positive theorems found (`…_partial`).

### The two controller models

* **Interleaving model** (`Model/CtrlLang.v`, `Model/CtrlCode.v`): core/ctrl.go, core/algo.go, core/model.go and
  core/timeout.go transcribed statement by statement into a small language with RW mutexes (writer preference),
  unbuffered channels, `select` with default, goroutines, defer/recover and timers. One step is one statement of one
  goroutine. Any number of clients, any calls, the notifier may itself make calls. The implementation, the clock and the
  errors are oracles chosen at every step. Theorems for all executions are proved with a static checker of the code
  (`Proofs/CtrlCheck.v`) whose soundness for every interleaving is proved, refutations by explicit schedules
  (`Proofs/CtrlTraces.v`) computed by the semantics.
* **Call-granularity model** (`Model/CtrlSeq.v`): one client whose calls happen while the run goroutine is over, at
  the select of its loop or waiting for a status; any number of loop turns and timer expirations happen between calls,
  during the polls of Wait and between Play and Wait in Batch. It shares the updates of the model fields with the first
  model. It is where functional claims (C55, C56, C58, C64) hold; the races inside the calls break them, as the
  refutations over the interleaving model show.

## Plan per property

| id | model | proof |
|----|-------|-------|
| C01, C02 | `nearest`/`Assign` over a number record with comparison laws | induction on the scan with a "best so far" invariant; instances R and binary64 |
| C03, C04 | `Par` as the list of ranges; goroutines as interleaved write lists | partition arithmetic; disjoint writes commute |
| C05–C07 | folds over the data with Go panics | generalised accumulator invariant: label i sees exactly the sublist of label i |
| C08, C09 | partitions + aggregation | sums split over concatenation; associativity of Combine |
| C10, C13 | vectors as lists over R | closed form of the running average; permutation invariance |
| C11, C14 | R | Cauchy–Schwarz on lists |
| C12, C15, C25 | binary64 through Flocq | sign/NaN case analysis; concrete refutations by computation |
| C16 | index panics of the loops | induction |
| C17–C19 | seq/par strategies over R | mean minimises the sum of squares; nearest minimises per element |
| C20, C26–C29, C68 | buffer + k-means impl as a state machine | invariants over operation lists; ring buffer refinement |
| C21–C24 | initializers with random oracle | induction, prefix sums |
| C30, C31 | finishing expressions, configurations | structural induction, case analysis |
| C32–C37 | streaming impl as a state machine | invariants over histories |
| C38 | heap of arrays with slices | refutation for streaming; freshness invariant for k-means |
| C39–C43, C72–C74 | mcmc impl as a state machine with draws | invariants over histories; simulation with k-means (C73) |
| C44, C70 | threads with program counters | inductive invariant over schedules; reachable race |
| C45, C71 | R with `ln`, `sqrt`, `exp` | monotonicity of `ln`; closed forms |
| C46–C53, C69 | cost matrix in a flat list with Go indices | refinement to a recursive cost, optimality over paths, index arithmetic |
| C54, C57, C59–C63, C66, C67, C75–C79 | interleaving model of the controller | checker soundness, inductive invariants; explicit schedules for the refutations |
| C54–C56, C58, C59, C64, C79 | call-granularity model | invariants over call/progress histories |
| C56–C58 in every interleaving | interleaving model; the events of one goroutine read off an execution (`Spec/CtrlIterSpec.v`) | abstract interpretation of the code of a run by sets of facts (`Proofs/CtrlIter.v`): which event may follow which |
| C65 | polling loop with a clock oracle | induction on polls |
| C80, C81, C84, C85, C106 | k-means, streaming and the distance instantiated with binary64 | rounding error of one Combine (Flocq), then an invariant "average within n·2^(k-51) of the exact mean" preserved by Combine, lifted to every reduction (`Proofs/Represent.v`); relative error of the distance by induction on the sum of squares (`Proofs/FloatDist.v`), from it the exact optimality of the assignment and, with the error of the means, the bound on the exact loss (`Proofs/FloatLoss.v`); refutations by computation |
| C82, C83 | k-means over R | strict decrease of the loss unless fixed; finitely many centroid tuples (pigeonhole); permutation invariance of means |
| C86–C90 | call-granularity controller with k-means or streaming as implementation (`Model/System.v`) | simulation by `CtrlSeq` (so C54–C58 and C64 hold), one invariant principle `sys_invariant` over all call histories, instantiated with the buffer and streaming invariants; Batch as budgeted iterations; refutations by computation |
| C91, C92 | the same with MCMC (`Model/SystemMcmc.v`) | `sys_invariant` with "the history is one of `Model/Mcmc.v`", so that C39–C43, C72, C73 apply; Batch by the same lemma as k-means, then C73 for the Dirac law |
| C93 | `Model/Mcmc.v` over vectors and over series (`Model/DtwSpace.v`) | invariant: the recorded dimension is that of the initial centroids |
| C94 | `Model/Dtw.v`, `DtwSpace.v`, instances of `Model/System.v` | weights of every Combine inside DBA and Resize are bounded by the given ones; then the closure of C69 and C86 |
| C95–C98 | `Model/Copy.v`: Copy of k-means and streaming, Predict | unfolding of NewAlgo on the copied configuration (defaults are idempotent); C97 from the determinism of the budgeted Batch (C87) on both algorithms; C98 from the boxes of C80/C81 kept by every call history (C86, C88); counterexamples computed |
| C99 | `Model/CtrlSeq.v` figures with `Model/System.v`, `Model/SystemMcmc.v` | own figures are those of the last saved iteration (any implementation); invariants of C88/C91 tie them to the state of the implementation; counterexample: two Batch of one accepted iteration each |
| C100 | `Model/Pace.v`: the turns of a run with a clock | induction on the turns: the ends of the sleeps are a period apart; Flocq for the period; counterexample: two iterations after a pause |
| C101 | `Model/CtrlSeq.v` (sequential account) against `Model/CtrlCode.v` (code run by the interleaving semantics) | relation between the two states (status, model, history, one run goroutine at its select, at its test or in receiveStatus, one notification loop at rest, an armed timer); each piece of code is executed from related states to related states (`does`), the run and the timer between calls likewise (`quietly`); induction on the actions |
| C102 | the same | answers are chosen that make each call return (one failing turn, then the deadline), then C101 |
| C103–C105, and the positive halves of C60–C63, C75–C77 | interleaving model, restricted to four classes of sessions of one client (`Spec/ExploreSpec.v`): endless runs; endless runs with a notifier that reads the model; endless runs started by Push; one run of any kind | explicit-state exploration inside Coq: a finite abstraction of the states (`Proofs/Explore.v`: counters, centroids and logs forgotten, the session kept as an automaton), closed under all moves of all goroutines and checked state by state by evaluation (25,000 to 55,000 states per class); soundness of the abstraction proved once (`Proofs/ExploreSound.v`); "can be led to" by a ranking of the explored states |
| C107 | call-granularity controller with every implementation; elements that remember whether Copy or Combine made them (`Spec/OwnSpec.v`); arrays of float64 in memory (`Model/HeapVec.v`) | each reduction stores only results of Copy and Combine, or keeps the centroid of an empty cluster at its position (`iterate_each`); lifted with `sys_invariant`; memory: the loops of PointCombine and PointCopy executed on a heap |
| C108 | `Model/CopyMcmc.v`: Copy of MCMC; `replay` (Init, then runs) in `Spec/CopySpec.v` | unfolding of NewAlgo as C95; invariant over call histories: without acceptation the store is empty; the rest of the state is overwritten by Init (`same_replay`); counterexample executed |
| C109, C110 | `Model/HeapBuffer.v`: buffers whose data are slices of arrays in memory; `Spec/HeapBufferSpec.v`: the same programs on values | simulation: all slices held are on distinct arrays (`good`), each operation writes to the array of its own slice or to a new one; C110: writes of a buffer with room are behind every slice it returned |
| C111 | `Model/HeapPar.v`: the slices of the goroutines of core.Par in memory, one step per element, arbitrary schedules; aggregation in place and new result | invariant `par_inv`: each goroutine's slice is on its own new array and holds the reduction of the elements it has processed; then `join_sim` |
| C112 | `Model/HeapMcmc.v`: MCMC with its store, current proposal and published centroids as slices of a memory that also holds the client's | simulation `iterate_sim` between memory and values for every schedule, with existence of a schedule; `keeps` composed along executions |
| C113 | `Model/Dtw.v` in binary64 against the least sum of exact distances over warping paths | error of a float64 sum along one path (`path_near`: no underflow in additions, no overflow), then both minima are compared through C47 (`least_near`) |
| C114 | `Model/Clustering.v`, `Model/Par.v` in binary64 against `exact_loss`; `summed` is the relation of all float64 sums of a list | a tree of additions of n nonnegative terms has relative error n 2^-52 (`acc_add`, `summed_acc`), composed over members, chunks and clusters by `rsum_partition`; the term of an element by the accuracy of the distances (`square_near`, `term_near`) |
| C115 | `Model/Cosinus.v` in binary64 against `exact_cos_dist` | error of a float64 scalar product relative to the sum of absolute products (`dot_step`), bounded by Cauchy-Schwarz; norms by `sqrt_near`; two quotients (`quo_near`) and a difference |
| C116, C117 | `Model/Checked.v`: k-means and streaming over spaces whose Dist and Combine may panic; goroutines of Par with panics and the end of the process; `agrees`, `sized`, `fatal` in `Spec/CheckedSpec.v` | agreement with the total spaces by induction over the folds; a centroid is at most as large as each of its elements, so that the larger element panics in the next iteration; every execution with a doomed goroutine is extended to the end of the process |
| C118 | `Model/RaceBuffer.v`: goroutines that share a buffer, one step per load or store of b.data, s.position or an element; `exclusive`, `accounts` in `Spec/RaceBufferSpec.v` | a push is entered in the account when its goroutine starts storing; `half` says what the statements executed so far have done; the account is a history of `Model/Buffer.v`, to which C26 and C27 apply |
| C119 | `iterations` of `Model/Kmeans.v` in float64; the witness is 4 elements near 1.5 (scaled to integers) | the averages the code may compute of the sublists of the data are finitely many (`trees`), then a pigeonhole; the cycle is two computed steps; products, sums and quotients of values of few bits are exact, signs of zero included, so the mean of equal such elements is that element in whatever order the parts are joined |
| C120 | `accept` of `Model/Mcmc.v`, `new_multivt`, `mt_pdf` of `Model/MultivT.v` in float64, Exp, Log and Gamma as in `Spec/GoMathSpec.v` | NaN is absorbing in rho and never compares greater; invariant over the steps of MCMC; for the positive part, bounds of each rounded operation |
| C121 | `Model/InitPanic.v`: a panic of impl.Init as a step of the controller of `Model/CtrlCode.v`; `inert` in `Spec/InitPanicSpec.v` | the static check of `Proofs/CtrlCheck.v` knows what is locked when impl.Init and impl.Push are called; a mutex left locked stays so (C59); inert goroutines stay inert while the status is Initializing |
| C122 | `Model/FigMap.v`: maps of figures in memory, written by the controller and by the client | what one operation does to each map and each key, then induction; simulation with the value model of `Model/CtrlLang.v` |
| C123 | `Model/Generators.v`, `Model/GenStreaming.v`: generators in memory, k-means, MCMC and streaming drawing from them in the order of the code, several algorithms and their copies | a computation only uses the generators it is given, closed under sequencing; then a simulation of the run with all algorithms by that with one |

## Findings (properties the code violates)

| id | what happens |
|----|--------------|
| C15 | float rounding makes a cosinus distance negative; `nearest` takes a negative minimum for "unset" and returns a farther centroid |
| C20, C68 | `Iterate` works on `Data()` before `Apply`: an element pushed while alive is ignored by the next iteration |
| C25 | `WeightedChoice` returns -1 for a draw 0, and reads past the end when the float subtractions leave a positive rest |
| C29 | a copied frame buffer restarts its eviction position, and loses staged elements |
| C37 | the ratio of `GetRelativeDistance` is not capped |
| C38 | streaming returns the slice it later writes to |
| C49, C50 | DTW without window is in fact constrained by the length of the second series; it panics if len(s1) > 2 len(s2) and is not symmetric |
| C54, C62 | Pause racing with the end of a run leaves the algorithm Idle without run goroutine |
| C59 | a Play whose initialization fails leaves statusMutex locked for ever |
| C60, C75 | lock order inversion between Push and init/recover; recursive read lock in the automatic Play |
| C61 | a notifier that calls Status() deadlocks with setStatus |
| C60 | one client: Push after Play, Pause, Stop, or after Batch, can deadlock with the end of its own run |
| C103 | one client: Stop of a run that is reaching its iteration budget blocks for ever (the run leaves without reading the status channel) |
| C77 | one client: after Play, Wait, a second Play can be killed by the end of the first run, which closes its ack channel |
| C63, C77 | Stop; Play may have two run goroutines, the first of which closes the channel of the second |
| C66 | notifications may be delivered in another order than the changes |
| C70, C76 | data races on LateDistrib.initialized, on the status and on the figures map |
| C71 | MultivT.Pdf has not the scale of MultivT.Sample |
| C78 | the timer of a run that is over stops a Ready algorithm (what it does otherwise: C78_timer_partial) |
| C79 | Batch returns nil when the run failed before Wait read the status |
| C84 | float64: the parallel iteration, or another order of the data, gives other centroids (bounded difference) |
| C85 | float64: an iteration may increase the loss (mean of three times 0.1 is not 0.1); C85_exact_partial bounds the increase |
| C89 | a second Batch with IterPerData does no iteration: Init resets the count of pushed elements |
| C90 | re-initialized streaming publishes only its newest center |
| C95 | Copy(conf) ignores conf.FrameSize and Par (k-means), BufferSize and OutAfter (streaming): the implementation is made with the old configuration |
| C96 | a copy of a streaming algorithm has the centers as queued data, without their cardinalities, the maximal distance or the queue; Copy panics when there are more centers than BufferSize |
| C98 | after an Init that fails for lack of data (RandInitializer, PPInitializer), Predict panics: the published Clust holds nil elements |
| C99 | Init resets the iterations but not MCMC's acceptations: after a second Batch the published acceptations exceed the published iterations |
| C100 | after a Pause two iterations follow each other without sleep, whatever IterFreq |
| C107 | kmeans++ publishes the client's own vector as first centroid (no Copy), and streaming every vector that founds a center: a client that reuses its vector changes the centroids |
| C108 | the store of centers and the acceptation count of MCMC survive Init: a second run reuses the centers of the first although data was pushed since, and a copy, which starts with an empty store, gives other centroids |
| C110 | Data() of a buffer with a frame returns the live ring: the next push changes the slice obtained before |
| C116 | vectors of different dimensions: with Par the panic in a goroutine ends the process; otherwise a truncated mean may be published before the error |
| C117 | a vector of smaller dimension that founds a center of streaming makes every later iteration panic |
| C118 | the data buffer has no lock: concurrent pushes while the algorithm is not alive lose elements, may panic, or make a frame grow for ever |
| C119 | the float64 mean of three equal elements may differ from them; k-means may alternate for ever between two sets of centroids, and an iteration may increase the loss; values of few significant bits are safe (`C119_copies_partial`, `C119_rest_partial`) |
| C120 | in dimension 341 and above math.Gamma overflows in NewMultivT (default Nu): MCMC then rejects every proposal for ever; a negative B, accepted by Verify, has the same effect |
| C121 | an initializer that panics within Play leaves the status mutex locked for ever; within Init, the status stays Initializing for ever and Play returns nil without starting a run |
| C122 | RuntimeFigures() returns the live map of the algorithm: it changes with the next Push, and a client that writes to it changes when the next run ends |
| C123 | a copy draws from the generator of the algorithm copied: always for MCMC and streaming, even when given its own (the store and the acceptance; the thresholds), so that using the copy changes the results of the algorithm |

## What is modelled and what is not

| Go code | model | not modelled |
|---------|-------|--------------|
| core/clustering.go, core/space.go | Model/Clustering.v | summation order of gonum `floats.Sum` (exact claims about totals are over R; C114 bounds the float64 total for every order) |
| core/util.go, core/par_*.go | Model/Par.v; HeapPar.v (goroutines and slices in memory, C111); Checked.v (panics in the goroutines of k-means, C116) | panics in the goroutines of mcmc (the same Par) |
| core/buffer.go | Model/Buffer.v; HeapBuffer.v (slices in memory, C109); RaceBuffer.v (goroutines, C118) | slices that do not start at the beginning of their array, but for reading |
| core/conf.go, kmeans/mcmc/streaming conf.go and algo.go | Model/Conf.v | StatusNotifier field; unused private fields |
| core/finish.go, core/figures.go | Model/Finish.v, FigMap.v (maps in memory, C122) | conversion to int of NaN, infinities and huge values |
| core/status.go, core/error.go | Model/Status.v | texts of the errors |
| core/ctrl.go, core/algo.go, core/model.go, core/timeout.go | Model/CtrlLang.v, CtrlCode.v, CtrlSeq.v, Pace.v (IterFreq), InitPanic.v (C121) | durations of sleeps (a sleep may last any time; at least its argument in Pace.v); memory model weaker than SC; commented-out SetConf/SetSpace |
| core/impl.go | interfaces: oracles in the controller models; `implem` in Model/System.v with k-means, streaming and (Model/SystemMcmc.v) mcmc as instances | the LateDistrib a copy of mcmc shares with the original (Copy itself: Model/Copy.v, CopyMcmc.v; the generators shared: Model/Generators.v, C123) |
| kmeans/*.go | Model/Kmeans.v, KmeansInit.v | generator seeds |
| mcmc/*.go | Model/Mcmc.v, MultivT.v, LateDistrib.v; HeapMcmc.v (slices in memory, C112) | gonum's samplers (draws are inputs) |
| streaming/*.go | Model/Streaming.v, Heap.v | |
| euclid/vectors.go, cosinus/cosinus.go | Model/Euclid.v, Cosinus.v; HeapVec.v (vectors in memory, C107) | vectors that are parts of one array |
| dtw/*.go | Model/Dtw.v, DtwSpace.v | points of different dimensions inside DTW (C16 covers the point space) |
| template/, internal/test/ | — | skeleton and test code |

## Trusted base

* Coq 8.16.1's kernel and its virtual machine (`vm_compute` is used in Examples, in refutations and to
  evaluate the explorations of C103–C105; `coqchk` re-evaluates all of them without the virtual machine); no plugin, no
  axiom of our own, no `Admitted`.
* The faithfulness of the model: every definition cites the lines it transcribes; simplifications are in its comment
  and in the table above. The Go code was read, not run.
* Flocq 4.1.0's definition of binary64 arithmetic as a model of Go's float64 on amd64 (Go may fuse multiply-add on
  other architectures).
* The axioms of the standard library listed below.

### Print Assumptions of every property theorem

Generated by `tools/assumptions.py`. "closed" is "Closed under the global context". The numbers are axioms of
Coq's standard library (real numbers, functional extensionality, excluded middle):

1. `ClassicalDedekindReals.sig_not_dec`
2. `ClassicalDedekindReals.sig_forall_dec`
3. `FunctionalExtensionality.functional_extensionality_dep`
4. `Classical_Prop.classic`

| theorem | file | assumptions |
|---|---|---|
| `C01_assign_nearest_exact` | AssignProps | 1, 2, 3 |
| `C01_assign_nearest_float64` | AssignProps | 1, 2, 3, 4 |
| `C02_assign_total` | AssignProps | 1, 2, 3, 4 |
| `C03_map_label_assign` | AssignProps | closed |
| `C03_par_map_label` | AssignProps | closed |
| `C03_par_map_label_no_race` | AssignProps | closed |
| `C04_par_partition` | AssignProps | closed |
| `C05_reduce_dba` | ReduceProps | closed |
| `C06_for_any_labels` | ReduceProps | closed |
| `C06_for_map_labels` | ReduceProps | closed |
| `C07_reduce_loss` | ReduceProps | closed |
| `C07_total_loss` | ReduceProps | 1, 2, 3 |
| `C08_par_loss` | ReduceProps | closed |
| `C08_par_loss_exact` | ReduceProps | 1, 2, 3 |
| `C09_euclid_applies` | ReduceProps | 1, 2, 3 |
| `C09_par_dba` | ReduceProps | closed |
| `C100_period_partial` | PaceProps | 1, 2, 3, 4 |
| `C100_prompt_partial` | PaceProps | closed |
| `C100_rate_partial` | PaceProps | closed |
| `C100_rate_refuted` | PaceProps | 1, 2, 3, 4 |
| `C101_executed` | SimProps | 1, 2, 3, 4 |
| `C101_session` | SimProps | 1, 2, 3, 4 |
| `C101_transfer` | SimProps | 1, 2, 3, 4 |
| `C102_returns` | SimProps | 1, 2, 3, 4 |
| `C103_endless_partial` | ExploreProps | 1, 2, 3, 4 |
| `C103_once_partial` | ExploreProps | 1, 2, 3, 4 |
| `C103_stop_refuted` | ExploreProps | 1, 2, 3, 4 |
| `C104_documented` | ExploreProps | 1, 2, 3, 4 |
| `C104_no_crash` | ExploreProps | 1, 2, 3, 4 |
| `C105_run_over` | ExploreProps | 1, 2, 3, 4 |
| `C106_distance` | FloatProps | 1, 2, 3, 4 |
| `C106_nearest` | FloatProps | 1, 2, 3, 4 |
| `C107_arrays` | OwnProps | closed |
| `C107_initializers` | OwnProps | closed |
| `C107_kmeans_partial` | OwnProps | 1, 2, 3, 4 |
| `C107_mcmc_partial` | OwnProps | 1, 2, 3, 4 |
| `C107_pp_partial` | OwnProps | 1, 2, 3, 4 |
| `C107_pp_refuted` | OwnProps | 1, 2, 3, 4 |
| `C107_series` | OwnProps | closed |
| `C107_streaming_partial` | OwnProps | 1, 2, 3, 4 |
| `C107_streaming_refuted` | OwnProps | 1, 2, 3, 4 |
| `C108_conf_partial` | CopyMcmcProps | 1, 2, 3, 4 |
| `C108_conf_refuted` | CopyMcmcProps | 1, 2, 3, 4 |
| `C108_mixed_partial` | CopyMcmcProps | 1, 2, 3, 4 |
| `C108_same_partial` | CopyMcmcProps | 1, 2, 3, 4 |
| `C108_same_refuted` | CopyMcmcProps | 1, 2, 3, 4 |
| `C109_values` | HeapBufferProps | closed |
| `C10_dba_mean` | SpaceProps | 1, 2, 3 |
| `C10_dba_order` | SpaceProps | 1, 2, 3 |
| `C10_weighted_dba` | SpaceProps | 1, 2, 3 |
| `C110_data_partial` | HeapBufferProps | closed |
| `C110_data_refuted` | HeapBufferProps | closed |
| `C111_interleavings` | HeapParProps | closed |
| `C111_snapshots` | HeapParProps | closed |
| `C112_initializers` | HeapMcmcProps | closed |
| `C112_snapshots` | HeapMcmcProps | closed |
| `C112_values` | HeapMcmcProps | closed |
| `C113_distance` | FloatDtwProps | 1, 2, 3, 4 |
| `C113_nearest` | FloatDtwProps | 1, 2, 3, 4 |
| `C114_any_order` | FloatTotalProps | 1, 2, 3, 4 |
| `C114_totals` | FloatTotalProps | 1, 2, 3, 4 |
| `C115_distance` | FloatCosProps | 1, 2, 3, 4 |
| `C115_nearest` | FloatCosProps | 1, 2, 3, 4 |
| `C116_controller_partial` | CheckedProps | 1, 2, 3, 4 |
| `C116_missing_partial` | CheckedProps | closed |
| `C116_par_partial` | CheckedProps | closed |
| `C116_process_refuted` | CheckedProps | 1, 2, 3, 4 |
| `C116_same_partial` | CheckedProps | closed |
| `C116_seq_partial` | CheckedProps | closed |
| `C116_skipped_refuted` | CheckedProps | 1, 2, 3, 4 |
| `C116_spaces_partial` | CheckedProps | closed |
| `C116_truncated_refuted` | CheckedProps | 1, 2, 3, 4 |
| `C117_failed_partial` | CheckedProps | closed |
| `C117_poison_partial` | CheckedProps | closed |
| `C117_poison_refuted` | CheckedProps | 1, 2, 3, 4 |
| `C117_same_partial` | CheckedProps | closed |
| `C118_alive_partial` | RaceBufferProps | closed |
| `C118_exclusive_partial` | RaceBufferProps | closed |
| `C118_frame_refuted` | RaceBufferProps | closed |
| `C118_init_refuted` | RaceBufferProps | closed |
| `C118_lost_refuted` | RaceBufferProps | closed |
| `C118_panic_refuted` | RaceBufferProps | closed |
| `C118_position_refuted` | RaceBufferProps | closed |
| `C119_bound_partial` | CycleProps | 4 |
| `C119_copies_partial` | CycleProps | 1, 2, 3, 4 |
| `C119_cycle_refuted` | CycleProps | 1, 2, 3, 4 |
| `C119_loss_refuted` | CycleProps | 1, 2, 3, 4 |
| `C119_mean_refuted` | CycleProps | 1, 2, 3, 4 |
| `C119_period_partial` | CycleProps | 4 |
| `C119_rest_partial` | CycleProps | 1, 2, 3, 4 |
| `C11_euclid_metric` | SpaceProps | 1, 2, 3 |
| `C120_accept_partial` | StuckProps | 1, 2, 3, 4 |
| `C120_density_partial` | StuckProps | 1, 2, 3, 4 |
| `C120_dimension_refuted` | StuckProps | 1, 2, 3, 4 |
| `C120_negative_refuted` | StuckProps | 1, 2, 3, 4 |
| `C121_inert_partial` | InitPanicProps | closed |
| `C121_init_refuted` | InitPanicProps | 1, 2, 3, 4 |
| `C121_nil_refuted` | InitPanicProps | 1, 2, 3, 4 |
| `C121_play_refuted` | InitPanicProps | 1, 2, 3, 4 |
| `C121_push_partial` | InitPanicProps | 1, 2, 3, 4 |
| `C122_live_refuted` | FigMapProps | 1, 2, 3, 4 |
| `C122_old_partial` | FigMapProps | 1, 2, 3, 4 |
| `C122_repair_partial` | FigMapProps | 1, 2, 3, 4 |
| `C122_values_partial` | FigMapProps | 1, 2, 3, 4 |
| `C122_write_refuted` | FigMapProps | 1, 2, 3, 4 |
| `C123_apart_partial` | GeneratorsProps | closed |
| `C123_draws_partial` | GeneratorsProps | closed |
| `C123_init_refuted` | GeneratorsProps | closed |
| `C123_initializers_partial` | GeneratorsProps | closed |
| `C123_kmeans_apart_partial` | GeneratorsProps | closed |
| `C123_kmeans_partial` | GeneratorsProps | closed |
| `C123_own_refuted` | GeneratorsProps | 1, 2, 3, 4 |
| `C123_stream_apart_partial` | GenStreamingProps | closed |
| `C123_stream_draws_partial` | GenStreamingProps | closed |
| `C123_stream_refuted` | GenStreamingProps | 1, 2, 3, 4 |
| `C12_euclid_float64` | SpaceProps | 1, 2, 3, 4 |
| `C12_predict_finite` | SpaceProps | 1, 2, 3, 4 |
| `C13_euclid_barycentre` | SpaceProps | 1, 2, 3 |
| `C14_cosinus` | SpaceProps | 1, 2, 3 |
| `C15_cosinus_predict_partial` | SpaceProps | 1, 2, 3, 4 |
| `C15_cosinus_predict_refuted` | SpaceProps | 1, 2, 3, 4 |
| `C16_vector_panics` | SpaceProps | closed |
| `C17_loss_decreases` | KmeansProps | 1, 2, 3 |
| `C18_any_space` | KmeansProps | closed |
| `C18_means` | KmeansProps | 1, 2, 3 |
| `C19_box` | KmeansProps | 1, 2, 3 |
| `C20_data_used_partial` | KmeansProps | closed |
| `C20_next_iteration_refuted` | KmeansProps | closed |
| `C21_given` | InitProps | closed |
| `C22_rand` | InitProps | closed |
| `C22_rand_terminates` | InitProps | closed |
| `C23_pp` | InitProps | 1, 2, 3 |
| `C24_weighted_choice` | InitProps | 1, 2, 3 |
| `C25_float_partial` | InitProps | 1, 2, 3, 4 |
| `C25_float_refuted` | InitProps | 1, 2, 3, 4 |
| `C26_concurrent` | BufferProps | closed |
| `C26_histories_run` | BufferProps | closed |
| `C26_unbounded` | BufferProps | closed |
| `C27_frame` | BufferProps | closed |
| `C28_staging` | BufferProps | closed |
| `C29_copy_frame_refuted` | BufferProps | closed |
| `C29_copy_partial` | BufferProps | closed |
| `C29_copy_staged_refuted` | BufferProps | closed |
| `C30_finishing` | ConfProps | 1, 2, 3, 4 |
| `C30_iterations` | ConfProps | 1, 2, 3, 4 |
| `C31_kmeans` | ConfProps | 1, 2, 3, 4 |
| `C31_mcmc` | ConfProps | 1, 2, 3, 4 |
| `C31_prepare_idempotent` | ConfProps | 1, 2, 3, 4 |
| `C31_streaming` | ConfProps | 1, 2, 3, 4 |
| `C32_accounting` | StreamingProps | closed |
| `C32_step` | StreamingProps | closed |
| `C33_means` | StreamingProps | 1, 2, 3 |
| `C34_queue` | StreamingProps | closed |
| `C35_maximal_distance` | StreamingProps | closed |
| `C36_outlier_ratio` | StreamingProps | 1, 2, 3 |
| `C36_outlier_rule` | StreamingProps | closed |
| `C37_capped_refuted` | StreamingProps | 1, 2, 3 |
| `C37_first_partial` | StreamingProps | 1, 2, 3 |
| `C37_ratio_partial` | StreamingProps | 1, 2, 3 |
| `C38_kmeans_partial` | StreamingProps | closed |
| `C38_kmeans_values_partial` | StreamingProps | closed |
| `C38_snapshot_refuted` | StreamingProps | 1, 2, 3, 4 |
| `C38_streaming_partial` | StreamingProps | closed |
| `C38_values_partial` | StreamingProps | closed |
| `C39_bounds` | McmcProps | closed |
| `C39_initializers` | McmcProps | closed |
| `C40_bookkeeping` | McmcProps | closed |
| `C41_accepted` | McmcProps | closed |
| `C41_dirac` | McmcProps | 1, 2, 3, 4 |
| `C41_metropolis` | McmcProps | 1, 2, 3, 4 |
| `C42_rejected` | McmcProps | closed |
| `C43_added_is_new` | McmcProps | 1, 2, 3, 4 |
| `C43_store` | McmcProps | closed |
| `C44_no_deadlock` | McmcProps | closed |
| `C44_once` | McmcProps | closed |
| `C44_panicking_builder` | McmcProps | closed |
| `C45_pdf` | McmcProps | 1, 2, 3, 4 |
| `C46_in_bounds` | DtwProps | closed |
| `C47_euclid` | DtwProps | 1, 2, 3, 4 |
| `C47_least` | DtwProps | 1, 2, 3, 4 |
| `C47_least_exact` | DtwProps | 1, 2, 3 |
| `C48_any_distance` | DtwProps | closed |
| `C48_path` | DtwProps | 1, 2, 3, 4 |
| `C49_nowindow_panics` | DtwProps | closed |
| `C49_nowindow_symmetric_partial` | DtwProps | 1, 2, 3, 4 |
| `C49_nowindow_total_partial` | DtwProps | closed |
| `C49_self_partial` | DtwProps | 1, 2, 3, 4 |
| `C49_symmetric_refuted` | DtwProps | 1, 2, 3, 4 |
| `C49_total_refuted` | DtwProps | 1, 2, 3, 4 |
| `C49_window_partial` | DtwProps | 1, 2, 3, 4 |
| `C49_window_total_partial` | DtwProps | closed |
| `C50_constrained_partial` | DtwProps | 1, 2, 3, 4 |
| `C50_unconstrained_partial` | DtwProps | 1, 2, 3, 4 |
| `C50_unconstrained_refuted` | DtwProps | 1, 2, 3, 4 |
| `C51_resize` | DtwProps | closed |
| `C51_single_point` | DtwProps | closed |
| `C52_shrink` | DtwProps | closed |
| `C53_average` | DtwProps | closed |
| `C53_combine` | DtwProps | closed |
| `C54_all_schedules_partial` | CtrlProps | 1, 2, 3, 4 |
| `C54_between_calls_partial` | CtrlSeqProps | 1, 2, 3, 4 |
| `C54_workflow_refuted` | CtrlProps | 1, 2, 3, 4 |
| `C55_calls` | CtrlSeqProps | 1, 2, 3, 4 |
| `C56_budget` | CtrlSeqProps | 1, 2, 3, 4 |
| `C56_no_budget` | CtrlSeqProps | 1, 2, 3, 4 |
| `C56_tested` | CtrlIterProps | 1, 2, 3, 4 |
| `C57_figures` | CtrlProps | 1, 2, 3, 4 |
| `C57_saved_once` | CtrlIterProps | 1, 2, 3, 4 |
| `C58_failure` | CtrlSeqProps | 1, 2, 3, 4 |
| `C58_failures` | CtrlIterProps | 1, 2, 3, 4 |
| `C59_failed_play_refuted` | CtrlProps | 1, 2, 3, 4 |
| `C59_leaked_partial` | CtrlProps | 1, 2, 3, 4 |
| `C59_locked_partial` | CtrlSeqProps | 1, 2, 3, 4 |
| `C60_batch_push_refuted` | ExploreProps | 1, 2, 3, 4 |
| `C60_calm_partial` | ExploreProps | 1, 2, 3, 4 |
| `C60_push_end_refuted` | CtrlProps | 1, 2, 3, 4 |
| `C60_push_init_refuted` | CtrlProps | 1, 2, 3, 4 |
| `C60_push_stop_refuted` | ExploreProps | 1, 2, 3, 4 |
| `C61_model_partial` | ExploreProps | 1, 2, 3, 4 |
| `C61_notifier_refuted` | CtrlProps | 1, 2, 3, 4 |
| `C62_endless_partial` | ExploreProps | 1, 2, 3, 4 |
| `C62_pause_refuted` | CtrlProps | 1, 2, 3, 4 |
| `C63_endless_partial` | ExploreProps | 1, 2, 3, 4 |
| `C63_once_partial` | ExploreProps | 1, 2, 3, 4 |
| `C63_two_runs_refuted` | CtrlProps | 1, 2, 3, 4 |
| `C64_auto_start` | CtrlSeqProps | 1, 2, 3, 4 |
| `C65_wait` | CtrlSeqProps | 1, 2, 3, 4 |
| `C66_once_partial` | CtrlProps | 1, 2, 3, 4 |
| `C66_order_refuted` | CtrlProps | 1, 2, 3, 4 |
| `C67_lock_hygiene` | CtrlProps | 1, 2, 3, 4 |
| `C68_data_used` | KmeansProps | closed |
| `C69_box` | DtwProps | 1, 2, 3 |
| `C69_closed` | DtwProps | closed |
| `C70_data_race_refuted` | McmcProps | closed |
| `C70_flag_partial` | McmcProps | closed |
| `C71_density_refuted` | McmcProps | 1, 2, 3, 4 |
| `C71_pdf_value_partial` | McmcProps | 1, 2, 3, 4 |
| `C71_sample_value_partial` | McmcProps | 1, 2, 3 |
| `C72_no_panic` | McmcProps | 1, 2, 3, 4 |
| `C73_kmeans` | McmcProps | 1, 2, 3, 4 |
| `C74_pdf_term` | McmcProps | 1, 2, 3, 4 |
| `C75_auto_play_refuted` | CtrlProps | 1, 2, 3, 4 |
| `C75_not_ready_partial` | ExploreProps | 1, 2, 3, 4 |
| `C76_endless_partial` | ExploreProps | 1, 2, 3, 4 |
| `C76_figures_race_refuted` | CtrlProps | 1, 2, 3, 4 |
| `C76_once_partial` | ExploreProps | 1, 2, 3, 4 |
| `C76_status_race_refuted` | CtrlProps | 1, 2, 3, 4 |
| `C77_replay_refuted` | ExploreProps | 1, 2, 3, 4 |
| `C77_restart_partial` | ExploreProps | 1, 2, 3, 4 |
| `C77_restart_refuted` | CtrlProps | 1, 2, 3, 4 |
| `C78_stale_timer_refuted` | CtrlProps | 1, 2, 3, 4 |
| `C78_timer_partial` | CtrlSeqProps | 1, 2, 3, 4 |
| `C79_batch_partial` | CtrlSeqProps | 1, 2, 3, 4 |
| `C79_batch_refuted` | CtrlSeqProps | 1, 2, 3, 4 |
| `C80_box` | FloatProps | 1, 2, 3, 4 |
| `C80_predict` | FloatProps | 1, 2, 3, 4 |
| `C81_means` | FloatProps | 1, 2, 3, 4 |
| `C81_streaming` | FloatProps | 1, 2, 3, 4 |
| `C82_converges` | ConvergeProps | 1, 2, 3, 4 |
| `C82_strict` | ConvergeProps | 1, 2, 3, 4 |
| `C83_order` | ConvergeProps | 1, 2, 3 |
| `C84_grouping_refuted` | FloatProps | 1, 2, 3, 4 |
| `C84_par_seq_partial` | FloatProps | 1, 2, 3, 4 |
| `C85_exact_partial` | FloatProps | 1, 2, 3, 4 |
| `C85_loss_refuted` | FloatProps | 1, 2, 3, 4 |
| `C86_float64` | SystemProps | 1, 2, 3, 4 |
| `C86_given` | SystemProps | closed |
| `C86_pp` | SystemProps | closed |
| `C86_rand` | SystemProps | closed |
| `C86_use` | SystemProps | 1, 2, 3, 4 |
| `C87_batch` | SystemProps | 1, 2, 3, 4 |
| `C87_euclid` | SystemProps | 1, 2, 3, 4 |
| `C87_new` | SystemProps | 1, 2, 3, 4 |
| `C88_streaming` | SystemProps | 1, 2, 3, 4 |
| `C89_budget_refuted` | SystemProps | 1, 2, 3, 4 |
| `C89_iter_partial` | SystemProps | 1, 2, 3, 4 |
| `C90_published_partial` | SystemProps | 1, 2, 3, 4 |
| `C90_published_refuted` | SystemProps | 1, 2, 3, 4 |
| `C91_initializers` | SystemMcmcProps | closed |
| `C91_no_failure` | SystemMcmcProps | 1, 2, 3, 4 |
| `C91_use` | SystemMcmcProps | 1, 2, 3, 4 |
| `C92_batch` | SystemMcmcProps | 1, 2, 3, 4 |
| `C92_kmeans` | SystemMcmcProps | 1, 2, 3, 4 |
| `C93_dimension` | SystemMcmcProps | closed |
| `C93_ratio` | SystemMcmcProps | 1, 2, 3, 4 |
| `C93_series` | DtwSpaceProps | closed |
| `C94_float64` | DtwSpaceProps | 1, 2, 3, 4 |
| `C94_kept` | DtwSpaceProps | closed |
| `C94_kmeans` | DtwSpaceProps | 1, 2, 3, 4 |
| `C94_total` | DtwSpaceProps | closed |
| `C95_conf_partial` | CopyProps | 1, 2, 3, 4 |
| `C95_kmeans_refuted` | CopyProps | 1, 2, 3, 4 |
| `C95_streaming_refuted` | CopyProps | 1, 2, 3, 4 |
| `C96_copy_partial` | CopyProps | 1, 2, 3, 4 |
| `C96_forgets_refuted` | CopyProps | 1, 2, 3, 4 |
| `C96_panics_refuted` | CopyProps | 1, 2, 3, 4 |
| `C97_batch` | CopyProps | 1, 2, 3, 4 |
| `C98_kmeans_partial` | CopyProps | 1, 2, 3, 4 |
| `C98_predict_refuted` | CopyProps | 1, 2, 3, 4 |
| `C98_streaming_partial` | CopyProps | 1, 2, 3, 4 |
| `C98_values_partial` | CopyProps | closed |
| `C99_acceptations_refuted` | FiguresProps | 1, 2, 3, 4 |
| `C99_iteration_partial` | FiguresProps | 1, 2, 3, 4 |
| `C99_kmeans_partial` | FiguresProps | 1, 2, 3, 4 |
| `C99_mcmc_partial` | FiguresProps | 1, 2, 3, 4 |
| `C99_streaming_partial` | FiguresProps | 1, 2, 3, 4 |
