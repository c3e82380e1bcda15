{
"C01": "Bit-exact over IEEE-754 binary64 and over the reals, for every Space; the only hypothesis is that no distance is NaN or negative.",
"C02": "No hypothesis on the distances: NaN and negative distances included.",
"C03": "MapLabel equals Assign element by element; ParMapLabel equals MapLabel for every interleaving of the goroutines' single-cell writes, and two goroutines never write the same cell.",
"C04": "Par's ranges cover 0..size-1 in order with sizes differing by at most one; non-positive degree panics.",
"C05": "Any Space and any number type with the ordering laws (binary64 and reals instantiate them).",
"C06": "Same.",
"C07": "math.Pow is an arbitrary function parameter; exact total only over the reals because float addition is not associative.",
"C08": "Cardinalities exact for floats; losses exact over the reals, and over floats the loss is the stated left sum of chunk losses.",
"C09": "Requires the weighted-mean associativity law mean_space; C09_euclid_applies discharges it for vectors over the reals. Over binary64 the two results may differ by rounding.",
"C10": "Over the reals.",
"C100": "Refuted: the pacing measures from the end of the previous sleep, so after a Pause two iterations follow each other at once. Proved: over any time of one run at most 2 iterations more than the periods that fit (1 more without pause or delay); the period is the inverse of IterFreq up to rounding (quotients out of int64 excluded). The clock and the sleeps are inputs: the clock is monotone, Sleep lasts at least its argument.",
"C101": "For configurations without a notification callback. The sequential account is Model/CtrlSeq.v, the code Model/CtrlCode.v; goroutine numbers and notifications are left out of the comparison of the histories.",
"C102": "For configurations without a notification callback. Existence of a schedule, not fairness: C60 to C63 and C75 to C78 exhibit schedules that go wrong.",
"C103": "C103_endless_partial: runs that end only when stopped, calm sessions, from every reached state and whatever the implementation answers next the pending call can be led to its return. C103_once_partial: one run of any kind, then only Wait and accessors: from every reached state, if the implementation fails from now on the pending call can be led to its return. By exploration of the state space in Coq (Proofs/Explore*.v): the explored abstraction is proved sound for every session, answer and interleaving of the class.",
"C104": "By exploration of the state space in Coq (Proofs/Explore*.v): the explored abstraction is proved sound for every session, answer and interleaving of the class. The class of sessions is calm_session in Spec/ExploreSpec.v: the excluded sessions are those of C60_push_stop_refuted, C63 and C77.",
"C105": "By exploration of the state space in Coq (Proofs/Explore*.v): the explored abstraction is proved sound for every session, answer and interleaving of the class. That a nil result does not mean success is C79.",
"C11": "Over the reals.",
"C12": "Bit-exact binary64, including overflow to infinity.",
"C13": "Over the reals.",
"C14": "Over the reals.",
"C15": "Witness checked in binary64: centroids (1,1,1) and (0,1,0), element (1,1,1) gets label 1. The positive theorem keeps the case where no computed distance is NaN or negative.",
"C16": "All number types.",
"C17": "Over the reals; math.Pow only through pow x 2 = x*x for x >= 0. Sequential and every parallel degree >= 1.",
"C18": "The count, the kept centroids of empty clusters and the dba of the others for every Space and number type; the arithmetic mean over the reals. Equality of the parallel strategy needs an exact weighted mean (mean_space).",
"C19": "Over the reals, sequential and parallel.",
"C20": "The iteration runs on Data() before calling Apply, so an element pushed while alive between two iterations is ignored by the next one. C20_data_used_partial (also C68) says exactly what is used.",
"C21": "Every Space.",
"C22": "Draws are an arbitrary list of positions; termination for every stream that draws every position.",
"C23": "Over the reals, any Space with non-negative distances, draws in the open interval (0,1). Float64() = 0 is covered by C25.",
"C24": "Over the reals.",
"C25": "Float64() = 0 gives index -1 (then PPInitializer panics); weights 1 and five times 3*2^-54 with Float64() = 1-2^-53 read past the end. Proved: apart from these two failures the index has a positive weight.",
"C26": "Any number of operations; also for asynchronous pushes interleaved with the receiving loop of Apply.",
"C27": "Up to a rotation of the slice; eviction order exact.",
"C28": "For every reachable buffer.",
"C29": "Proved without staged data and for a buffer that is unbounded or has not overflowed; otherwise the copy evicts recent elements or loses staged ones.",
"C30": "Every tree of finishings, user-defined ones included; figures are float64 values converted with truncation.",
"C31": "All three constructors. NaN IterFreq is accepted (NaN < 0 is false).",
"C32": "All number types, spaces, queue sizes, histories and draws. Model/Streaming.v mirrors streaming/impl.go; draws of norm.Rand() are inputs of the iterations.",
"C33": "Exact arithmetic (reals) with the Euclidean space; floats would only give approximate means.",
"C34": "The channel is a bounded list; that select with default never blocks is built into the model of the channel operations.",
"C35": "Any number type whose comparisons form a total preorder on the values used (reals; binary64 without NaN) and distances >= 0 that are numbers. Iterating before any successful Init (the controller never does) would set the maximum to -1.",
"C36": "First theorem: any number type, in terms of the float quotient the code computes; second: over the reals the test is d > OutRatio*max.",
"C37": "The doc comment is wrong: no cap at 1 (max 1, distance 2 gives 2). The ratio is in [0,1] when d <= max.",
"C38": "For streaming, Iterate returns the slice later merges write to. Proved: what does hold for streaming; sequential k-means never writes to an older slice. Parallel k-means is C111. MCMC is C112.",
"C39": "Any number type, Space, distribution and history (pushes, initializations, iterations, panics included); the hypothesis on the initializer is proved for the three initializers of kmeans/init.go (C39_initializers).",
"C40": "Same histories as C39; the centroids of the state are those that the controller stores.",
"C41": "Formula over the reals with ln and exp; the Dirac part is over all reachable states. C41_accepted is for any number type.",
"C42": "Any number type (binary64 included), Space, distribution and functions log, exp, pow.",
"C43": "Any number type; that the added element is on no center is over the reals (C43_added_is_new).",
"C44": "Interleavings of single memory accesses under sequential consistency (the code has a data race, C70, so the Go memory model promises less). A builder that panics is called again (C44_panicking_builder).",
"C45": "Over the reals; math.Gamma is an arbitrary function.",
"C46": "For every number type, distance and comparison (NaN included). Points of a common dimension: PointDist does not panic (C16).",
"C47": "binary64 sums in path order, distances non-negative, +Inf allowed, no NaN; also in exact arithmetic, and for the Euclidean distance on finite points of equal dimension without further hypothesis.",
"C48": "Path() is listed from the last cell to (0,0), so its reverse is the warping path. With NaN distances only the steps are guaranteed, not the window.",
"C49": "With window 0 the effective window is the length of the second series (dtw/cost.go:52-54): Dist panics exactly if len(s1) > 2 len(s2), and may differ when the series are swapped. With window > 0 totality, symmetry and zero on identical series are proved; with window 0 zero on identical series, and symmetry when the lengths differ by at most 1.",
"C50": "With window 0 cells farther than len(s2) from the diagonal are excluded; the unconstrained minimum is proved when len(s1) <= len(s2)+1.",
"C51": "Stated for an arbitrary PointCombine; the interpolation weights are exact integers. Series of one point panic (proved).",
"C52": "Stated for an arbitrary PointCombine.",
"C53": "For every distance; the position of each point of the average on the path is characterised too. C53_combine covers dtw.Space.Combine including the resizing.",
"C54": "Witness: one client calls Play; Pause; Play and the run ends while Pause sends its status: recover() stores Idle over Ready. C54_between_calls_partial: the workflow holds for one client whose calls are made while the run is between two turns, waiting or over. C54_all_schedules_partial: what holds for any number of clients and all interleavings.",
"C55": "A Play whose initialization fails returns the error and leaves statusMutex locked (C59). Call granularity: races inside the calls are the subject of C54, C59-C63, C66, C75-C79.",
"C56": "C56_budget and C56_no_budget describe every turn: a turn that saves centroids counts one, a turn without centroids none, and the status after it. They are at call granularity: races inside the calls are the subject of C54, C59-C63, C66, C75-C79. C56_tested holds in every interleaving of any number of clients: each call of Iterate comes just after a test that found neither budget nor finishing condition reached.",
"C57": "All interleavings of any number of clients, at any moment when modelMutex is not held for writing. C57_figures counts the iterations saved (saveIterContext); C57_saved_once: these are the calls of Iterate that return centroids without error, each saved once by the goroutine that called it.",
"C58": "Panics in goroutines started by an implementation (core/par.go) are not recovered by run(): they are outside this property. A Wait called after the failure returns nil (C55). C58_failure is at call granularity; C58_failures holds in every interleaving: the run that failed next sets Finished with the error, and the program does not crash.",
"C59": "Play returns at ctrl.go:112 without unlocking statusMutex. C59_leaked_partial: from then on the status is frozen and every goroutine that needs statusMutex is blocked, in all executions. C59_locked_partial: the same for one client, every call but the readers of the model.",
"C60": "Push takes modelMutex then statusMutex (ctrl.go:25,29), init and recover take statusMutex then modelMutex (ctrl.go:61,70 and :208,219). Also for a single client: Push right after Stop of a paused run, and right after Batch, can deadlock with the end of its own run. C60_calm_partial: no Push of a calm session with endless runs blocks. By exploration of the state space in Coq (Proofs/Explore*.v): the explored abstraction is proved sound for every session, answer and interleaving of the class.",
"C61": "Statuses are sent to the unbuffered notifChannel while statusMutex is held (setStatus with safe=false); the notification loop blocks on Status(). C61_model_partial: a notifier that reads the centroids or the figures never blocks a client with endless runs. By exploration of the state space in Coq (Proofs/Explore*.v): the explored abstraction is proved sound for every session, answer and interleaving of the class.",
"C62": "recover() receives the Idle status of Pause and sets it after the run is over. C62_endless_partial: for a run that does not end by itself, a Pause that returns leaves Idle with its run goroutine, and nil. By exploration of the state space in Coq (Proofs/Explore*.v): the explored abstraction is proved sound for every session, answer and interleaving of the class.",
"C63": "After Play; Pause; Stop; Play the loop condition of the first run reads the status set by the second one. C63_endless_partial and C63_once_partial: never two live run goroutines for a client with endless runs in calm sessions, nor for a client that starts one run and waits. By exploration of the state space in Coq (Proofs/Explore*.v): the explored abstraction is proved sound for every session, answer and interleaving of the class.",
"C64": "pushes_since_start counts in the history, it does not use newData. The start happens on the push after n were counted. Call granularity: races inside the calls are the subject of C54, C59-C63, C66, C75-C79.",
"C65": "Generic in the observed model and in what happens between polls. The clock readings are any integers. The result of the status may itself be ErrTimeout when the run timed out (Timeout of the configuration).",
"C66": "The status is set under statusMutex but notified after it is released (algo.go:61-70). C66_once_partial: per goroutine, every status it sets is notified exactly once and in order (the last one possibly still to be sent).",
"C67": "Any number of clients and calls; notifiers may make any calls that start no goroutine. Holders always have a statement left, returns hold no mutex: a mutex is left locked only by the two marked returns of Play (ILeak), and never modelMutex.",
"C68": "The initializer and the iteration are arbitrary functions of the data.",
"C69": "Any set Q closed under PointCombine; box instance for Euclidean points over R.",
"C70": "The unlocked read of d.initialized (latedistrib.go:42) races with the write under the lock (latedistrib.go:52). Partial: in every reachable state this is the only pair of conflicting accesses that are both next; d.distrib is never written while another goroutine is about to access it. Sequentially consistent memory: what the race allows beyond it is not modelled.",
"C71": "Sample uses the scale 1/sqrt(20t), so its law has scale matrix 1/(20t); Pdf uses Nu/sqrt(20t) where the density needs Nu/(20t). The partial theorems give the exact value of both.",
"C72": "Over the reals. The hypothesis on draws is needed: a Float64() equal to 0 makes WeightedChoice return -1 (see C25). The hypotheses are met by vectors with any distribution that keeps the dimension.",
"C73": "Over the reals; both Seq and Par. Holds for the first initialization: the center store is not cleared by a new one, so later runs may start from centers of the previous run.",
"C74": "Over the reals; proba is called with the same centers as both arguments.",
"C75": "Push holds modelMutex.RLock while it calls Play, which calls Conf() (another RLock); a pending writer in between blocks both. C75_not_ready_partial: with automatic Play configured and no Push on a Ready algorithm, no call of a calm session with endless runs blocks. By exploration of the state space in Coq (Proofs/Explore*.v): the explored abstraction is proved sound for every session, answer and interleaving of the class.",
"C76": "RuntimeFigures() returns the live map (model.go), read by IterFinishing without a lock; in Go a concurrent map read and map write is a fatal error. Also algo.status is read without statusMutex by the loop condition. C76_endless_partial: no race but on the figures for endless runs in calm sessions; C76_once_partial: none on any field for a client that starts one run and waits. By exploration of the state space in Coq (Proofs/Explore*.v): the explored abstraction is proved sound for every session, answer and interleaving of the class.",
"C77": "recover() of the late run closes the ackChannel made by the new run; the new run panics on its send and the status becomes Finished with that error. Also after Play and Wait (C77_replay_refuted): the end of the first run closes the ack channel of the second. C77_restart_partial: with endless runs, a run started after a running run has been stopped is still there, Running, at the return of each later call until it is paused or stopped. By exploration of the state space in Coq (Proofs/Explore*.v): the explored abstraction is proved sound for every session, answer and interleaving of the class.",
"C78": "interrupt() finishes a Ready algorithm; the timer is only disabled by the next Play. C78_timer_partial: what a firing timer does in every state of the sequential controller (the run ends with the timeout error, a Finished algorithm is left alone, a Play replaces the timer).",
"C79": "Witness over the interleaving model: the first iteration fails before Wait reads the status, Wait returns nil for Finished, Stop's ErrNotAlive is dropped. C79_batch_partial: a nil result means budget spent and Finished without error, or Finished with an error that Batch does not report.",
"C80": "Over Flocq's binary64 with the order of operations of PointCombine; the scratch slices of the parallel reduction are covered.",
"C81": "Bounds on the coordinates are needed for a bound on the error; n < 2^53.",
"C82": "Over the reals. In float64 strict decrease fails (C85). C82_converges also says that the iterations are unique and that the count of centroids is kept; the strict decrease is lemma lloyd_strict.",
"C83": "Over the reals. In float64: C84.",
"C84": "Witness: elements 0.1, 0.1, 0.4 in one cluster, degree 2; the same elements in another order. C84_par_seq_partial: the results differ by at most |data|*2^(k-50) per coordinate.",
"C85": "Witness: three elements 0.1 and the centroid 0.1: the float64 mean of 0.1, 0.1, 0.1 is another number, the loss goes from 0 to a positive number. For any pow that squares exactly rounded. C85_exact_partial bounds the increase: the exact loss of the new centroids is at most 1 + 8(d+4)2^-52 times the exact loss of the old ones, plus n·d·(n·2^(k-51))^2 and a negligible underflow term.",
"C86": "One client, call granularity (Model/System.v: controller with the k-means implementation). C86_float64 instantiates the kept property with bounded float64 vectors; C86_given/rand/pp: the three initializers satisfy the hypothesis.",
"C87": "One client, call granularity. Returns when the schedule lets the run goroutine take enough turns (fairness is explicit in the hypothesis). The Clust of a failed initialization is taken for nil.",
"C88": "One client, call granularity. The theorem also gives the history of the streaming implementation, to which C32-C38 apply.",
"C89": "Witness: IterPerData 2, two pushes, Batch (4 iterations), one push, Batch: init in Finished resets pushedData to 0, so the budget is 0 iterations and the pushed element is ignored. Partial: with Iter and IterPerData 0, after any history that ends Finished, pushes then Batch run exactly Iter iterations on the data with the pushed elements. The positive side for new algorithms is C87.",
"C90": "Witness: Init in Finished appends the next queued element to the centers but returns only that one; the published centroids are one out of three, cardinals [2;1;1], until the next iteration. C90_published_partial: what is published is always the end of the list of centers.",
"C91": "One client, call granularity (Model/SystemMcmc.v). C91_use holds for any number type; C91_no_failure is in exact arithmetic, the draws of WeightedChoice being in (0,1) (0 is the exception of C25). C91_initializers: the hypothesis on the initializer holds for the three of the package.",
"C92": "One client, call granularity, exact arithmetic; draws in (0,1). Returns when the schedule lets the run goroutine take enough turns.",
"C93": "C93_dimension and C93_series hold for any number type; C93_ratio in exact arithmetic.",
"C94": "Window > 0; with no window NewDTWWindow may panic (C49). Float64 points: series of less than 2^53 points.",
"C95": "C95_conf_partial: K and the settings of the controller are those given; all of the configuration holds when FrameSize, Par and NumCPU do not change. The space is a parameter of the calls in the model. For mcmc see C108.",
"C96": "C96_copy_partial says what a copy holds: the centers as queue, everything else as new.",
"C97": "One client, call granularity. Budget-only configurations without timeout, IterPerData 0 or the algorithm already initialized (otherwise the budgets differ by the pushes counted). Any number type; panics are excluded by the hypotheses of C86.",
"C98": "The two partial theorems: one client, float64 vectors in a box; the Clust of a failed initialization taken for nil, as GivenInitializer gives; RandInitializer and PPInitializer give nil elements there, which is the counterexample.",
"C99": "Refuted for acceptations, which Init does not reset while it resets iterations. The partial theorems give the value of every figure, one client, call granularity, any number type; the time is stated of the result of each iteration.",
"C106": "The underflow term d·2^-536 is needed: squares below 2^-1074 vanish. Beyond 2^511 squares overflow; 2^480 leaves room for any dimension up to 2^47. The predicted centroid is compared with the exact real distances of the float64 vectors.",
"C107": "Refuted for PPInitializer, whose first centroid is the client's element (kmeans/init.go:56, no Copy), and for streaming, which keeps the pushed element itself as a center until a second element joins it. The partial theorems: k-means with an initializer that copies (given and random do, C107_initializers), all but the first centroid with kmeans++, MCMC, streaming centers of cardinality 2 or more; one client, call granularity, any space. For spaces where Copy is the identity on values the statement is about `made` being provable for every value; it speaks through spaces that mark the results of Copy and Combine (`tracked`), over which it is quantified too. C107_arrays and C107_series are about memory.",
"C108": "Refuted: Init clears neither the store of centers nor the acceptation count, so after one run, Stop and a push, the algorithm takes the centers of its first run where its copy (fresh store) computes them from the current data; the centroids of the next run differ for the same draws. Also FrameSize, Par and NumCPU given to Copy are ignored (as C95 for k-means). Positive part: Copy never panics on an algorithm made by NewAlgo in any state a client can bring it to, and holds the data, an empty store and the zero count; while no proposal was accepted and no element is staged both algorithms give the same answers, for every draw sequence, space and distribution. Outside: the copy shares the initializer, the LateDistrib and the generator with the original; here the draws are inputs.",
"C109": "Memory model of core/buffer.go: arrays, slices, append with an arbitrary growth policy; nil elements allowed. The program in memory gives exactly the contents, panics and waits of the program where slices and buffers are values (Model/Buffer.v), so all theorems on buffers hold in memory. Elements themselves (vectors) are values here; their sharing is C107.",
"C110": "Witness: a full frame of two elements; the next push overwrites the first element seen through the slice obtained before. Positive: an unbounded buffer never changes such a slice, a fixed one does not while it has room for the staged and later elements. In the module only the iterations read Data(), before they call Apply, so the effect is reached only by users of the exported Buffer.",
"C111": "Memory model of core/par_dba.go: each goroutine owns the slices of its ReduceDBA; a step is the processing of one element (its reads of the centroids and its write). Any space and number type with a total order on distances, binary64 included. The pushes staged while a run is alive do not touch the data read here (C28).",
"C112": "Memory model of mcmc/impl.go and mcmc/store.go over the one of parallel k-means (C111). The events are atomic: the model mutex serialises Push and Iterate as in C39. An iteration that panics leaves the memory as it was (the process dies). The vectors inside the slices are values here; who owns them is C107. For the initializers of the library and any other that writes to no existing slice.",
"C113": "Any positive window; when the lengths differ by more than the window the exact distance is that of the series the code aligns (the longest one resized in float64, which C51 and C52 describe). Binary64 with rounding to nearest and no fused multiply-add.",
"C114": "math.Pow is any function that squares to two units in the last place (hypothesis `squares`, which one multiplication satisfies, C114_case); gonum's floats.Sum is any order and grouping of float64 additions. Norm 2 only, the one k-means and the default configurations use. Binary64 with rounding to nearest and no fused multiply-add.",
"C115": "An absolute error: a relative one cannot hold because of cancellation. The hypothesis on the centroids is needed, by C15. Binary64 with rounding to nearest and no fused multiply-add.",
"C116": "The work of a goroutine is one step; the end of the process may come any time after the panic. That an unrecovered panic in a goroutine ends the process is the Go specification's rule, modelled by ps_exit.",
"C117": "Sequences of calls on the implementation; the controller recovers the panics of Iterate and ends the run with the error (C116_controller_partial shows this for k-means).",
"C118": "Sequentially consistent memory; append is one step. The status read by Push is a variable changed at any time. One run is C63's claim, which is itself refuted in corner cases.",
"C119": "The witness uses IEEE arithmetic without fused multiply-add (amd64). Data are fixed between iterations.",
"C120": "math.Exp, math.Log and math.Gamma are any functions that satisfy the record go_math of Spec/GoMathSpec.v (documented special values, overflow of Gamma from 172 on, ranges); that Go's own functions satisfy it is not proved.",
"C121": "The panic is a step of its own (Model/InitPanic.v); panics of impl.Init reached through the Play of a Push are left out, and C121_init_refuted assumes that no run is under way (others_inert).",
"C122": "Sequential: the races on the map are the subject of C76. The map returned by Iterate is taken to be new, as in the three implementations.",
"C123": "Sequential: calls on different algorithms are taken one after the other; two runs at once on one *rand.Rand would be a data race besides. The witness assumes of math.Pow, math.Log and math.Exp only that Pow(x, 2) = x*x, Log(1) = 0 and Exp(x) > 1 for x > 0. RandInitializer is not written with generators (an unbounded number of draws); the theorem holds for any initializer that uses only its generator. The distribution draws from one generator shared by the copies. For streaming, the slices published are values (their sharing is C38), and a copy of more centers than BufferSize, which would not return, is a panic."
}