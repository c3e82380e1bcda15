{
 "claims": [
  {
   "property": "C01",
   "status": "proved",
   "theorems": [
    "C01_assign_nearest_float64",
    "C01_assign_nearest_exact"
   ],
   "note": "Bit-exact over IEEE-754 binary64 and over the reals, for every Space; the only hypothesis is that no distance is NaN or negative."
  },
  {
   "property": "C02",
   "status": "proved",
   "theorems": [
    "C02_assign_total"
   ],
   "note": "No hypothesis on the distances: NaN and negative distances included."
  },
  {
   "property": "C03",
   "status": "proved",
   "theorems": [
    "C03_map_label_assign",
    "C03_par_map_label",
    "C03_par_map_label_no_race"
   ],
   "note": "MapLabel equals Assign element by element; ParMapLabel equals MapLabel for every interleaving of the goroutines' single-cell writes, and two goroutines never write the same cell."
  },
  {
   "property": "C04",
   "status": "proved",
   "theorems": [
    "C04_par_partition"
   ],
   "note": "Par's ranges cover 0..size-1 in order with sizes differing by at most one; non-positive degree panics."
  },
  {
   "property": "C05",
   "status": "proved",
   "theorems": [
    "C05_reduce_dba"
   ],
   "note": "Any Space and any number type with the ordering laws (binary64 and reals instantiate them)."
  },
  {
   "property": "C06",
   "status": "proved",
   "theorems": [
    "C06_for_map_labels",
    "C06_for_any_labels"
   ],
   "note": "Same."
  },
  {
   "property": "C07",
   "status": "proved",
   "theorems": [
    "C07_reduce_loss",
    "C07_total_loss"
   ],
   "note": "math.Pow is an arbitrary function parameter; exact total only over the reals because float addition is not associative."
  },
  {
   "property": "C08",
   "status": "proved",
   "theorems": [
    "C08_par_loss",
    "C08_par_loss_exact"
   ],
   "note": "Cardinalities exact for floats; losses exact over the reals, and over floats the loss is the stated left sum of chunk losses."
  },
  {
   "property": "C09",
   "status": "proved",
   "theorems": [
    "C09_par_dba",
    "C09_euclid_applies"
   ],
   "note": "Requires the weighted-mean associativity law mean_space; C09_euclid_applies discharges it for vectors over the reals. Over binary64 the two results may differ by rounding."
  },
  {
   "property": "C10",
   "status": "proved",
   "theorems": [
    "C10_dba_mean",
    "C10_dba_order",
    "C10_weighted_dba"
   ],
   "note": "Over the reals."
  },
  {
   "property": "C11",
   "status": "proved",
   "theorems": [
    "C11_euclid_metric"
   ],
   "note": "Over the reals."
  },
  {
   "property": "C12",
   "status": "proved",
   "theorems": [
    "C12_euclid_float64",
    "C12_predict_finite"
   ],
   "note": "Bit-exact binary64, including overflow to infinity."
  },
  {
   "property": "C13",
   "status": "proved",
   "theorems": [
    "C13_euclid_barycentre"
   ],
   "note": "Over the reals."
  },
  {
   "property": "C14",
   "status": "proved",
   "theorems": [
    "C14_cosinus"
   ],
   "note": "Over the reals."
  },
  {
   "property": "C15",
   "status": "partial",
   "theorems": [
    "C15_cosinus_predict_refuted",
    "C15_cosinus_predict_partial"
   ],
   "note": "REFUTED by theorem C15_cosinus_predict_refuted. Witness checked in binary64: centroids (1,1,1) and (0,1,0), element (1,1,1) gets label 1. The positive theorem keeps the case where no computed distance is NaN or negative."
  },
  {
   "property": "C16",
   "status": "proved",
   "theorems": [
    "C16_vector_panics"
   ],
   "note": "All number types."
  },
  {
   "property": "C17",
   "status": "proved",
   "theorems": [
    "C17_loss_decreases"
   ],
   "note": "Over the reals; math.Pow only through pow x 2 = x*x for x >= 0. Sequential and every parallel degree >= 1."
  },
  {
   "property": "C18",
   "status": "proved",
   "theorems": [
    "C18_means",
    "C18_any_space"
   ],
   "note": "The count, the kept centroids of empty clusters and the dba of the others for every Space and number type; the arithmetic mean over the reals. Equality of the parallel strategy needs an exact weighted mean (mean_space)."
  },
  {
   "property": "C19",
   "status": "proved",
   "theorems": [
    "C19_box"
   ],
   "note": "Over the reals, sequential and parallel."
  },
  {
   "property": "C20",
   "status": "partial",
   "theorems": [
    "C20_data_used_partial",
    "C20_next_iteration_refuted"
   ],
   "note": "REFUTED by theorem C20_next_iteration_refuted. The iteration runs on Data() before calling Apply, so an element pushed while alive between two iterations is ignored by the next one. C20_data_used_partial (also C68) says exactly what is used."
  },
  {
   "property": "C21",
   "status": "proved",
   "theorems": [
    "C21_given"
   ],
   "note": "Every Space."
  },
  {
   "property": "C22",
   "status": "proved",
   "theorems": [
    "C22_rand",
    "C22_rand_terminates"
   ],
   "note": "Draws are an arbitrary list of positions; termination for every stream that draws every position."
  },
  {
   "property": "C23",
   "status": "proved",
   "theorems": [
    "C23_pp"
   ],
   "note": "Over the reals, any Space with non-negative distances, draws in the open interval (0,1). Float64() = 0 is covered by C25."
  },
  {
   "property": "C24",
   "status": "proved",
   "theorems": [
    "C24_weighted_choice"
   ],
   "note": "Over the reals."
  },
  {
   "property": "C25",
   "status": "partial",
   "theorems": [
    "C25_float_partial",
    "C25_float_refuted"
   ],
   "note": "REFUTED by theorem C25_float_refuted. Float64() = 0 gives index -1 (then PPInitializer panics); weights 1 and five times 3*2^-54 with Float64() = 1-2^-53 read past the end. Proved: apart from these two failures the index has a positive weight."
  },
  {
   "property": "C26",
   "status": "proved",
   "theorems": [
    "C26_unbounded",
    "C26_histories_run",
    "C26_concurrent"
   ],
   "note": "Any number of operations; also for asynchronous pushes interleaved with the receiving loop of Apply."
  },
  {
   "property": "C27",
   "status": "proved",
   "theorems": [
    "C27_frame"
   ],
   "note": "Up to a rotation of the slice; eviction order exact."
  },
  {
   "property": "C28",
   "status": "proved",
   "theorems": [
    "C28_staging"
   ],
   "note": "For every reachable buffer."
  },
  {
   "property": "C29",
   "status": "partial",
   "theorems": [
    "C29_copy_partial",
    "C29_copy_frame_refuted",
    "C29_copy_staged_refuted"
   ],
   "note": "REFUTED by theorem C29_copy_frame_refuted, C29_copy_staged_refuted. Proved without staged data and for a buffer that is unbounded or has not overflowed; otherwise the copy evicts recent elements or loses staged ones."
  },
  {
   "property": "C30",
   "status": "proved",
   "theorems": [
    "C30_finishing",
    "C30_iterations"
   ],
   "note": "Every tree of finishings, user-defined ones included; figures are float64 values converted with truncation."
  },
  {
   "property": "C31",
   "status": "proved",
   "theorems": [
    "C31_kmeans",
    "C31_mcmc",
    "C31_streaming",
    "C31_prepare_idempotent"
   ],
   "note": "All three constructors. NaN IterFreq is accepted (NaN < 0 is false)."
  },
  {
   "property": "C32",
   "status": "proved",
   "theorems": [
    "C32_accounting",
    "C32_step"
   ],
   "note": "All number types, spaces, queue sizes, histories and draws. Model/Streaming.v mirrors streaming/impl.go; draws of norm.Rand() are inputs of the iterations."
  },
  {
   "property": "C33",
   "status": "proved",
   "theorems": [
    "C33_means"
   ],
   "note": "Exact arithmetic (reals) with the Euclidean space; floats would only give approximate means."
  },
  {
   "property": "C34",
   "status": "proved",
   "theorems": [
    "C34_queue"
   ],
   "note": "The channel is a bounded list; that select with default never blocks is built into the model of the channel operations."
  },
  {
   "property": "C35",
   "status": "proved",
   "theorems": [
    "C35_maximal_distance"
   ],
   "note": "Any number type whose comparisons form a total preorder on the values used (reals; binary64 without NaN) and distances >= 0 that are numbers. Iterating before any successful Init (the controller never does) would set the maximum to -1."
  },
  {
   "property": "C36",
   "status": "proved",
   "theorems": [
    "C36_outlier_rule",
    "C36_outlier_ratio"
   ],
   "note": "First theorem: any number type, in terms of the float quotient the code computes; second: over the reals the test is d > OutRatio*max."
  },
  {
   "property": "C37",
   "status": "partial",
   "theorems": [
    "C37_capped_refuted",
    "C37_ratio_partial",
    "C37_first_partial"
   ],
   "note": "REFUTED by theorem C37_capped_refuted. The doc comment is wrong: no cap at 1 (max 1, distance 2 gives 2). The ratio is in [0,1] when d <= max."
  },
  {
   "property": "C38",
   "status": "partial",
   "theorems": [
    "C38_snapshot_refuted",
    "C38_streaming_partial",
    "C38_values_partial",
    "C38_kmeans_partial",
    "C38_kmeans_values_partial"
   ],
   "note": "REFUTED by theorem C38_snapshot_refuted. For streaming, Iterate returns the slice later merges write to. Proved: what does hold for streaming; sequential k-means never writes to an older slice. Parallel k-means is C111. MCMC is C112."
  },
  {
   "property": "C39",
   "status": "proved",
   "theorems": [
    "C39_bounds",
    "C39_initializers"
   ],
   "note": "Any number type, Space, distribution and history (pushes, initializations, iterations, panics included); the hypothesis on the initializer is proved for the three initializers of kmeans/init.go (C39_initializers)."
  },
  {
   "property": "C40",
   "status": "proved",
   "theorems": [
    "C40_bookkeeping"
   ],
   "note": "Same histories as C39; the centroids of the state are those that the controller stores."
  },
  {
   "property": "C41",
   "status": "proved",
   "theorems": [
    "C41_dirac",
    "C41_accepted",
    "C41_metropolis"
   ],
   "note": "Formula over the reals with ln and exp; the Dirac part is over all reachable states. C41_accepted is for any number type."
  },
  {
   "property": "C42",
   "status": "proved",
   "theorems": [
    "C42_rejected"
   ],
   "note": "Any number type (binary64 included), Space, distribution and functions log, exp, pow."
  },
  {
   "property": "C43",
   "status": "proved",
   "theorems": [
    "C43_store",
    "C43_added_is_new"
   ],
   "note": "Any number type; that the added element is on no center is over the reals (C43_added_is_new)."
  },
  {
   "property": "C44",
   "status": "proved",
   "theorems": [
    "C44_once",
    "C44_no_deadlock",
    "C44_panicking_builder"
   ],
   "note": "Interleavings of single memory accesses under sequential consistency (the code has a data race, C70, so the Go memory model promises less). A builder that panics is called again (C44_panicking_builder)."
  },
  {
   "property": "C45",
   "status": "proved",
   "theorems": [
    "C45_pdf"
   ],
   "note": "Over the reals; math.Gamma is an arbitrary function."
  },
  {
   "property": "C46",
   "status": "proved",
   "theorems": [
    "C46_in_bounds"
   ],
   "note": "For every number type, distance and comparison (NaN included). Points of a common dimension: PointDist does not panic (C16)."
  },
  {
   "property": "C47",
   "status": "proved",
   "theorems": [
    "C47_least",
    "C47_least_exact",
    "C47_euclid"
   ],
   "note": "binary64 sums in path order, distances non-negative, +Inf allowed, no NaN; also in exact arithmetic, and for the Euclidean distance on finite points of equal dimension without further hypothesis."
  },
  {
   "property": "C48",
   "status": "proved",
   "theorems": [
    "C48_path",
    "C48_any_distance"
   ],
   "note": "Path() is listed from the last cell to (0,0), so its reverse is the warping path. With NaN distances only the steps are guaranteed, not the window."
  },
  {
   "property": "C49",
   "status": "partial",
   "theorems": [
    "C49_total_refuted",
    "C49_symmetric_refuted",
    "C49_window_partial",
    "C49_window_total_partial",
    "C49_self_partial",
    "C49_nowindow_symmetric_partial",
    "C49_nowindow_panics",
    "C49_nowindow_total_partial"
   ],
   "note": "REFUTED by theorem C49_total_refuted, C49_symmetric_refuted. With window 0 the effective window is the length of the second series (dtw/cost.go:52-54): Dist panics exactly if len(s1) > 2 len(s2), and may differ when the series are swapped. With window > 0 totality, symmetry and zero on identical series are proved; with window 0 zero on identical series, and symmetry when the lengths differ by at most 1."
  },
  {
   "property": "C50",
   "status": "partial",
   "theorems": [
    "C50_unconstrained_refuted",
    "C50_unconstrained_partial",
    "C50_constrained_partial"
   ],
   "note": "REFUTED by theorem C50_unconstrained_refuted. With window 0 cells farther than len(s2) from the diagonal are excluded; the unconstrained minimum is proved when len(s1) <= len(s2)+1."
  },
  {
   "property": "C51",
   "status": "proved",
   "theorems": [
    "C51_resize",
    "C51_single_point"
   ],
   "note": "Stated for an arbitrary PointCombine; the interpolation weights are exact integers. Series of one point panic (proved)."
  },
  {
   "property": "C52",
   "status": "proved",
   "theorems": [
    "C52_shrink"
   ],
   "note": "Stated for an arbitrary PointCombine."
  },
  {
   "property": "C53",
   "status": "proved",
   "theorems": [
    "C53_average",
    "C53_combine"
   ],
   "note": "For every distance; the position of each point of the average on the path is characterised too. C53_combine covers dtw.Space.Combine including the resizing."
  },
  {
   "property": "C54",
   "status": "partial",
   "theorems": [
    "C54_workflow_refuted",
    "C54_all_schedules_partial",
    "C54_between_calls_partial"
   ],
   "note": "REFUTED by theorem C54_workflow_refuted. Witness: one client calls Play; Pause; Play and the run ends while Pause sends its status: recover() stores Idle over Ready. C54_between_calls_partial: the workflow holds for one client whose calls are made while the run is between two turns, waiting or over. C54_all_schedules_partial: what holds for any number of clients and all interleavings."
  },
  {
   "property": "C55",
   "status": "proved",
   "theorems": [
    "C55_calls"
   ],
   "note": "A Play whose initialization fails returns the error and leaves statusMutex locked (C59). Call granularity: races inside the calls are the subject of C54, C59-C63, C66, C75-C79."
  },
  {
   "property": "C56",
   "status": "proved",
   "theorems": [
    "C56_tested",
    "C56_budget",
    "C56_no_budget"
   ],
   "note": "C56_budget and C56_no_budget describe every turn: a turn that saves centroids counts one, a turn without centroids none, and the status after it. They are at call granularity: races inside the calls are the subject of C54, C59-C63, C66, C75-C79. C56_tested holds in every interleaving of any number of clients: each call of Iterate comes just after a test that found neither budget nor finishing condition reached."
  },
  {
   "property": "C57",
   "status": "proved",
   "theorems": [
    "C57_saved_once",
    "C57_figures"
   ],
   "note": "All interleavings of any number of clients, at any moment when modelMutex is not held for writing. C57_figures counts the iterations saved (saveIterContext); C57_saved_once: these are the calls of Iterate that return centroids without error, each saved once by the goroutine that called it."
  },
  {
   "property": "C58",
   "status": "proved",
   "theorems": [
    "C58_failures",
    "C58_failure"
   ],
   "note": "Panics in goroutines started by an implementation (core/par.go) are not recovered by run(): they are outside this property. A Wait called after the failure returns nil (C55). C58_failure is at call granularity; C58_failures holds in every interleaving: the run that failed next sets Finished with the error, and the program does not crash."
  },
  {
   "property": "C59",
   "status": "partial",
   "theorems": [
    "C59_failed_play_refuted",
    "C59_leaked_partial",
    "C59_locked_partial"
   ],
   "note": "REFUTED by theorem C59_failed_play_refuted. Play returns at ctrl.go:112 without unlocking statusMutex. C59_leaked_partial: from then on the status is frozen and every goroutine that needs statusMutex is blocked, in all executions. C59_locked_partial: the same for one client, every call but the readers of the model."
  },
  {
   "property": "C60",
   "status": "partial",
   "theorems": [
    "C60_push_init_refuted",
    "C60_push_end_refuted",
    "C60_push_stop_refuted",
    "C60_batch_push_refuted",
    "C60_calm_partial"
   ],
   "note": "REFUTED by theorem C60_push_init_refuted, C60_push_end_refuted, C60_push_stop_refuted, C60_batch_push_refuted. Push takes modelMutex then statusMutex (ctrl.go:25,29), init and recover take statusMutex then modelMutex (ctrl.go:61,70 and :208,219). Also for a single client: Push right after Stop of a paused run, and right after Batch, can deadlock with the end of its own run. C60_calm_partial: no Push of a calm session with endless runs blocks. By exploration of the state space in Coq (Proofs/Explore*.v): the explored abstraction is proved sound for every session, answer and interleaving of the class."
  },
  {
   "property": "C61",
   "status": "partial",
   "theorems": [
    "C61_notifier_refuted",
    "C61_model_partial"
   ],
   "note": "REFUTED by theorem C61_notifier_refuted. Statuses are sent to the unbuffered notifChannel while statusMutex is held (setStatus with safe=false); the notification loop blocks on Status(). C61_model_partial: a notifier that reads the centroids or the figures never blocks a client with endless runs. By exploration of the state space in Coq (Proofs/Explore*.v): the explored abstraction is proved sound for every session, answer and interleaving of the class."
  },
  {
   "property": "C62",
   "status": "partial",
   "theorems": [
    "C62_pause_refuted",
    "C62_endless_partial"
   ],
   "note": "REFUTED by theorem C62_pause_refuted. recover() receives the Idle status of Pause and sets it after the run is over. C62_endless_partial: for a run that does not end by itself, a Pause that returns leaves Idle with its run goroutine, and nil. By exploration of the state space in Coq (Proofs/Explore*.v): the explored abstraction is proved sound for every session, answer and interleaving of the class."
  },
  {
   "property": "C63",
   "status": "partial",
   "theorems": [
    "C63_two_runs_refuted",
    "C63_endless_partial",
    "C63_once_partial"
   ],
   "note": "REFUTED by theorem C63_two_runs_refuted. After Play; Pause; Stop; Play the loop condition of the first run reads the status set by the second one. C63_endless_partial and C63_once_partial: never two live run goroutines for a client with endless runs in calm sessions, nor for a client that starts one run and waits. By exploration of the state space in Coq (Proofs/Explore*.v): the explored abstraction is proved sound for every session, answer and interleaving of the class."
  },
  {
   "property": "C64",
   "status": "proved",
   "theorems": [
    "C64_auto_start"
   ],
   "note": "pushes_since_start counts in the history, it does not use newData. The start happens on the push after n were counted. Call granularity: races inside the calls are the subject of C54, C59-C63, C66, C75-C79."
  },
  {
   "property": "C65",
   "status": "proved",
   "theorems": [
    "C65_wait"
   ],
   "note": "Generic in the observed model and in what happens between polls. The clock readings are any integers. The result of the status may itself be ErrTimeout when the run timed out (Timeout of the configuration)."
  },
  {
   "property": "C66",
   "status": "partial",
   "theorems": [
    "C66_order_refuted",
    "C66_once_partial"
   ],
   "note": "REFUTED by theorem C66_order_refuted. The status is set under statusMutex but notified after it is released (algo.go:61-70). C66_once_partial: per goroutine, every status it sets is notified exactly once and in order (the last one possibly still to be sent)."
  },
  {
   "property": "C67",
   "status": "proved",
   "theorems": [
    "C67_lock_hygiene"
   ],
   "note": "Any number of clients and calls; notifiers may make any calls that start no goroutine. Holders always have a statement left, returns hold no mutex: a mutex is left locked only by the two marked returns of Play (ILeak), and never modelMutex."
  },
  {
   "property": "C68",
   "status": "proved",
   "theorems": [
    "C68_data_used"
   ],
   "note": "The initializer and the iteration are arbitrary functions of the data."
  },
  {
   "property": "C69",
   "status": "proved",
   "theorems": [
    "C69_closed",
    "C69_box"
   ],
   "note": "Any set Q closed under PointCombine; box instance for Euclidean points over R."
  },
  {
   "property": "C70",
   "status": "partial",
   "theorems": [
    "C70_data_race_refuted",
    "C70_flag_partial"
   ],
   "note": "REFUTED by theorem C70_data_race_refuted. The unlocked read of d.initialized (latedistrib.go:42) races with the write under the lock (latedistrib.go:52). Partial: in every reachable state this is the only pair of conflicting accesses that are both next; d.distrib is never written while another goroutine is about to access it. Sequentially consistent memory: what the race allows beyond it is not modelled."
  },
  {
   "property": "C71",
   "status": "partial",
   "theorems": [
    "C71_density_refuted",
    "C71_pdf_value_partial",
    "C71_sample_value_partial"
   ],
   "note": "REFUTED by theorem C71_density_refuted. Sample uses the scale 1/sqrt(20t), so its law has scale matrix 1/(20t); Pdf uses Nu/sqrt(20t) where the density needs Nu/(20t). The partial theorems give the exact value of both."
  },
  {
   "property": "C72",
   "status": "proved",
   "theorems": [
    "C72_no_panic"
   ],
   "note": "Over the reals. The hypothesis on draws is needed: a Float64() equal to 0 makes WeightedChoice return -1 (see C25). The hypotheses are met by vectors with any distribution that keeps the dimension."
  },
  {
   "property": "C73",
   "status": "proved",
   "theorems": [
    "C73_kmeans"
   ],
   "note": "Over the reals; both Seq and Par. Holds for the first initialization: the center store is not cleared by a new one, so later runs may start from centers of the previous run."
  },
  {
   "property": "C74",
   "status": "proved",
   "theorems": [
    "C74_pdf_term"
   ],
   "note": "Over the reals; proba is called with the same centers as both arguments."
  },
  {
   "property": "C75",
   "status": "partial",
   "theorems": [
    "C75_auto_play_refuted",
    "C75_not_ready_partial"
   ],
   "note": "REFUTED by theorem C75_auto_play_refuted. Push holds modelMutex.RLock while it calls Play, which calls Conf() (another RLock); a pending writer in between blocks both. C75_not_ready_partial: with automatic Play configured and no Push on a Ready algorithm, no call of a calm session with endless runs blocks. By exploration of the state space in Coq (Proofs/Explore*.v): the explored abstraction is proved sound for every session, answer and interleaving of the class."
  },
  {
   "property": "C76",
   "status": "partial",
   "theorems": [
    "C76_figures_race_refuted",
    "C76_status_race_refuted",
    "C76_endless_partial",
    "C76_once_partial"
   ],
   "note": "REFUTED by theorem C76_figures_race_refuted, C76_status_race_refuted. RuntimeFigures() returns the live map (model.go), read by IterFinishing without a lock; in Go a concurrent map read and map write is a fatal error. Also algo.status is read without statusMutex by the loop condition. C76_endless_partial: no race but on the figures for endless runs in calm sessions; C76_once_partial: none on any field for a client that starts one run and waits. By exploration of the state space in Coq (Proofs/Explore*.v): the explored abstraction is proved sound for every session, answer and interleaving of the class."
  },
  {
   "property": "C77",
   "status": "partial",
   "theorems": [
    "C77_restart_refuted",
    "C77_replay_refuted",
    "C77_restart_partial"
   ],
   "note": "REFUTED by theorem C77_restart_refuted, C77_replay_refuted. recover() of the late run closes the ackChannel made by the new run; the new run panics on its send and the status becomes Finished with that error. Also after Play and Wait (C77_replay_refuted): the end of the first run closes the ack channel of the second. C77_restart_partial: with endless runs, a run started after a running run has been stopped is still there, Running, at the return of each later call until it is paused or stopped. By exploration of the state space in Coq (Proofs/Explore*.v): the explored abstraction is proved sound for every session, answer and interleaving of the class."
  },
  {
   "property": "C78",
   "status": "partial",
   "theorems": [
    "C78_stale_timer_refuted",
    "C78_timer_partial"
   ],
   "note": "REFUTED by theorem C78_stale_timer_refuted. interrupt() finishes a Ready algorithm; the timer is only disabled by the next Play. C78_timer_partial: what a firing timer does in every state of the sequential controller (the run ends with the timeout error, a Finished algorithm is left alone, a Play replaces the timer)."
  },
  {
   "property": "C79",
   "status": "partial",
   "theorems": [
    "C79_batch_refuted",
    "C79_batch_partial"
   ],
   "note": "REFUTED by theorem C79_batch_refuted. Witness over the interleaving model: the first iteration fails before Wait reads the status, Wait returns nil for Finished, Stop's ErrNotAlive is dropped. C79_batch_partial: a nil result means budget spent and Finished without error, or Finished with an error that Batch does not report."
  },
  {
   "property": "C80",
   "status": "proved",
   "theorems": [
    "C80_box",
    "C80_predict"
   ],
   "note": "Over Flocq's binary64 with the order of operations of PointCombine; the scratch slices of the parallel reduction are covered."
  },
  {
   "property": "C81",
   "status": "proved",
   "theorems": [
    "C81_means",
    "C81_streaming"
   ],
   "note": "Bounds on the coordinates are needed for a bound on the error; n < 2^53."
  },
  {
   "property": "C82",
   "status": "proved",
   "theorems": [
    "C82_converges",
    "C82_strict"
   ],
   "note": "Over the reals. In float64 strict decrease fails (C85). C82_converges also says that the iterations are unique and that the count of centroids is kept; the strict decrease is lemma lloyd_strict."
  },
  {
   "property": "C83",
   "status": "proved",
   "theorems": [
    "C83_order"
   ],
   "note": "Over the reals. In float64: C84."
  },
  {
   "property": "C84",
   "status": "partial",
   "theorems": [
    "C84_grouping_refuted",
    "C84_par_seq_partial"
   ],
   "note": "REFUTED by theorem C84_grouping_refuted. Witness: elements 0.1, 0.1, 0.4 in one cluster, degree 2; the same elements in another order. C84_par_seq_partial: the results differ by at most |data|*2^(k-50) per coordinate."
  },
  {
   "property": "C85",
   "status": "partial",
   "theorems": [
    "C85_loss_refuted",
    "C85_exact_partial"
   ],
   "note": "REFUTED by theorem C85_loss_refuted. Witness: three elements 0.1 and the centroid 0.1: the float64 mean of 0.1, 0.1, 0.1 is another number, the loss goes from 0 to a positive number. For any pow that squares exactly rounded. C85_exact_partial bounds the increase: the exact loss of the new centroids is at most 1 + 8(d+4)2^-52 times the exact loss of the old ones, plus n\u00b7d\u00b7(n\u00b72^(k-51))^2 and a negligible underflow term."
  },
  {
   "property": "C86",
   "status": "proved",
   "theorems": [
    "C86_use",
    "C86_float64",
    "C86_given",
    "C86_rand",
    "C86_pp"
   ],
   "note": "One client, call granularity (Model/System.v: controller with the k-means implementation). C86_float64 instantiates the kept property with bounded float64 vectors; C86_given/rand/pp: the three initializers satisfy the hypothesis."
  },
  {
   "property": "C87",
   "status": "proved",
   "theorems": [
    "C87_batch",
    "C87_new",
    "C87_euclid"
   ],
   "note": "One client, call granularity. Returns when the schedule lets the run goroutine take enough turns (fairness is explicit in the hypothesis). The Clust of a failed initialization is taken for nil."
  },
  {
   "property": "C88",
   "status": "proved",
   "theorems": [
    "C88_streaming"
   ],
   "note": "One client, call granularity. The theorem also gives the history of the streaming implementation, to which C32-C38 apply."
  },
  {
   "property": "C89",
   "status": "partial",
   "theorems": [
    "C89_budget_refuted",
    "C89_iter_partial"
   ],
   "note": "REFUTED by theorem C89_budget_refuted. Witness: IterPerData 2, two pushes, Batch (4 iterations), one push, Batch: init in Finished resets pushedData to 0, so the budget is 0 iterations and the pushed element is ignored. Partial: with Iter and IterPerData 0, after any history that ends Finished, pushes then Batch run exactly Iter iterations on the data with the pushed elements. The positive side for new algorithms is C87."
  },
  {
   "property": "C90",
   "status": "partial",
   "theorems": [
    "C90_published_refuted",
    "C90_published_partial"
   ],
   "note": "REFUTED by theorem C90_published_refuted. Witness: Init in Finished appends the next queued element to the centers but returns only that one; the published centroids are one out of three, cardinals [2;1;1], until the next iteration. C90_published_partial: what is published is always the end of the list of centers."
  },
  {
   "property": "C91",
   "status": "proved",
   "theorems": [
    "C91_use",
    "C91_no_failure",
    "C91_initializers"
   ],
   "note": "One client, call granularity (Model/SystemMcmc.v). C91_use holds for any number type; C91_no_failure is in exact arithmetic, the draws of WeightedChoice being in (0,1) (0 is the exception of C25). C91_initializers: the hypothesis on the initializer holds for the three of the package."
  },
  {
   "property": "C92",
   "status": "proved",
   "theorems": [
    "C92_batch",
    "C92_kmeans"
   ],
   "note": "One client, call granularity, exact arithmetic; draws in (0,1). Returns when the schedule lets the run goroutine take enough turns."
  },
  {
   "property": "C93",
   "status": "proved",
   "theorems": [
    "C93_series",
    "C93_dimension",
    "C93_ratio"
   ],
   "note": "C93_dimension and C93_series hold for any number type; C93_ratio in exact arithmetic."
  },
  {
   "property": "C94",
   "status": "proved",
   "theorems": [
    "C94_total",
    "C94_kept",
    "C94_float64",
    "C94_kmeans"
   ],
   "note": "Window > 0; with no window NewDTWWindow may panic (C49). Float64 points: series of less than 2^53 points."
  },
  {
   "property": "C95",
   "status": "partial",
   "theorems": [
    "C95_kmeans_refuted",
    "C95_streaming_refuted",
    "C95_conf_partial"
   ],
   "note": "REFUTED by theorem C95_kmeans_refuted, C95_streaming_refuted. C95_conf_partial: K and the settings of the controller are those given; all of the configuration holds when FrameSize, Par and NumCPU do not change. The space is a parameter of the calls in the model. For mcmc see C108."
  },
  {
   "property": "C96",
   "status": "partial",
   "theorems": [
    "C96_forgets_refuted",
    "C96_panics_refuted",
    "C96_copy_partial"
   ],
   "note": "REFUTED by theorem C96_forgets_refuted, C96_panics_refuted. C96_copy_partial says what a copy holds: the centers as queue, everything else as new."
  },
  {
   "property": "C97",
   "status": "proved",
   "theorems": [
    "C97_batch"
   ],
   "note": "One client, call granularity. Budget-only configurations without timeout, IterPerData 0 or the algorithm already initialized (otherwise the budgets differ by the pushes counted). Any number type; panics are excluded by the hypotheses of C86."
  },
  {
   "property": "C98",
   "status": "partial",
   "theorems": [
    "C98_predict_refuted",
    "C98_values_partial",
    "C98_kmeans_partial",
    "C98_streaming_partial"
   ],
   "note": "REFUTED by theorem C98_predict_refuted. The two partial theorems: one client, float64 vectors in a box; the Clust of a failed initialization taken for nil, as GivenInitializer gives; RandInitializer and PPInitializer give nil elements there, which is the counterexample."
  },
  {
   "property": "C99",
   "status": "partial",
   "theorems": [
    "C99_acceptations_refuted",
    "C99_mcmc_partial",
    "C99_iteration_partial",
    "C99_streaming_partial",
    "C99_kmeans_partial"
   ],
   "note": "REFUTED by theorem C99_acceptations_refuted. Refuted for acceptations, which Init does not reset while it resets iterations. The partial theorems give the value of every figure, one client, call granularity, any number type; the time is stated of the result of each iteration."
  },
  {
   "property": "C100",
   "status": "partial",
   "theorems": [
    "C100_rate_refuted",
    "C100_rate_partial",
    "C100_prompt_partial",
    "C100_period_partial"
   ],
   "note": "REFUTED by theorem C100_rate_refuted. Refuted: the pacing measures from the end of the previous sleep, so after a Pause two iterations follow each other at once. Proved: over any time of one run at most 2 iterations more than the periods that fit (1 more without pause or delay); the period is the inverse of IterFreq up to rounding (quotients out of int64 excluded). The clock and the sleeps are inputs: the clock is monotone, Sleep lasts at least its argument."
  },
  {
   "property": "C101",
   "status": "proved",
   "theorems": [
    "C101_executed",
    "C101_session",
    "C101_transfer"
   ],
   "note": "For configurations without a notification callback. The sequential account is Model/CtrlSeq.v, the code Model/CtrlCode.v; goroutine numbers and notifications are left out of the comparison of the histories."
  },
  {
   "property": "C102",
   "status": "proved",
   "theorems": [
    "C102_returns"
   ],
   "note": "For configurations without a notification callback. Existence of a schedule, not fairness: C60 to C63 and C75 to C78 exhibit schedules that go wrong."
  },
  {
   "property": "C103",
   "status": "partial",
   "theorems": [
    "C103_stop_refuted",
    "C103_endless_partial",
    "C103_once_partial"
   ],
   "note": "REFUTED by theorem C103_stop_refuted. C103_endless_partial: runs that end only when stopped, calm sessions, from every reached state and whatever the implementation answers next the pending call can be led to its return. C103_once_partial: one run of any kind, then only Wait and accessors: from every reached state, if the implementation fails from now on the pending call can be led to its return. By exploration of the state space in Coq (Proofs/Explore*.v): the explored abstraction is proved sound for every session, answer and interleaving of the class."
  },
  {
   "property": "C104",
   "status": "proved",
   "theorems": [
    "C104_documented",
    "C104_no_crash"
   ],
   "note": "By exploration of the state space in Coq (Proofs/Explore*.v): the explored abstraction is proved sound for every session, answer and interleaving of the class. The class of sessions is calm_session in Spec/ExploreSpec.v: the excluded sessions are those of C60_push_stop_refuted, C63 and C77."
  },
  {
   "property": "C105",
   "status": "proved",
   "theorems": [
    "C105_run_over"
   ],
   "note": "By exploration of the state space in Coq (Proofs/Explore*.v): the explored abstraction is proved sound for every session, answer and interleaving of the class. That a nil result does not mean success is C79."
  },
  {
   "property": "C106",
   "status": "proved",
   "theorems": [
    "C106_distance",
    "C106_nearest"
   ],
   "note": "The underflow term d\u00b72^-536 is needed: squares below 2^-1074 vanish. Beyond 2^511 squares overflow; 2^480 leaves room for any dimension up to 2^47. The predicted centroid is compared with the exact real distances of the float64 vectors."
  },
  {
   "property": "C107",
   "status": "partial",
   "theorems": [
    "C107_pp_refuted",
    "C107_streaming_refuted",
    "C107_kmeans_partial",
    "C107_initializers",
    "C107_pp_partial",
    "C107_mcmc_partial",
    "C107_streaming_partial",
    "C107_arrays",
    "C107_series"
   ],
   "note": "REFUTED by theorem C107_pp_refuted, C107_streaming_refuted. Refuted for PPInitializer, whose first centroid is the client's element (kmeans/init.go:56, no Copy), and for streaming, which keeps the pushed element itself as a center until a second element joins it. The partial theorems: k-means with an initializer that copies (given and random do, C107_initializers), all but the first centroid with kmeans++, MCMC, streaming centers of cardinality 2 or more; one client, call granularity, any space. For spaces where Copy is the identity on values the statement is about `made` being provable for every value; it speaks through spaces that mark the results of Copy and Combine (`tracked`), over which it is quantified too. C107_arrays and C107_series are about memory."
  },
  {
   "property": "C108",
   "status": "partial",
   "theorems": [
    "C108_same_refuted",
    "C108_conf_refuted",
    "C108_same_partial",
    "C108_conf_partial",
    "C108_mixed_partial"
   ],
   "note": "REFUTED by theorem C108_same_refuted, C108_conf_refuted. Refuted: Init clears neither the store of centers nor the acceptation count, so after one run, Stop and a push, the algorithm takes the centers of its first run where its copy (fresh store) computes them from the current data; the centroids of the next run differ for the same draws. Also FrameSize, Par and NumCPU given to Copy are ignored (as C95 for k-means). Positive part: Copy never panics on an algorithm made by NewAlgo in any state a client can bring it to, and holds the data, an empty store and the zero count; while no proposal was accepted and no element is staged both algorithms give the same answers, for every draw sequence, space and distribution. Outside: the copy shares the initializer, the LateDistrib and the generator with the original; here the draws are inputs."
  },
  {
   "property": "C109",
   "status": "proved",
   "theorems": [
    "C109_values"
   ],
   "note": "Memory model of core/buffer.go: arrays, slices, append with an arbitrary growth policy; nil elements allowed. The program in memory gives exactly the contents, panics and waits of the program where slices and buffers are values (Model/Buffer.v), so all theorems on buffers hold in memory. Elements themselves (vectors) are values here; their sharing is C107."
  },
  {
   "property": "C110",
   "status": "partial",
   "theorems": [
    "C110_data_partial",
    "C110_data_refuted"
   ],
   "note": "REFUTED by theorem C110_data_refuted. Witness: a full frame of two elements; the next push overwrites the first element seen through the slice obtained before. Positive: an unbounded buffer never changes such a slice, a fixed one does not while it has room for the staged and later elements. In the module only the iterations read Data(), before they call Apply, so the effect is reached only by users of the exported Buffer."
  },
  {
   "property": "C111",
   "status": "proved",
   "theorems": [
    "C111_interleavings",
    "C111_snapshots"
   ],
   "note": "Memory model of core/par_dba.go: each goroutine owns the slices of its ReduceDBA; a step is the processing of one element (its reads of the centroids and its write). Any space and number type with a total order on distances, binary64 included. The pushes staged while a run is alive do not touch the data read here (C28)."
  },
  {
   "property": "C112",
   "status": "proved",
   "theorems": [
    "C112_snapshots",
    "C112_values",
    "C112_initializers"
   ],
   "note": "Memory model of mcmc/impl.go and mcmc/store.go over the one of parallel k-means (C111). The events are atomic: the model mutex serialises Push and Iterate as in C39. An iteration that panics leaves the memory as it was (the process dies). The vectors inside the slices are values here; who owns them is C107. For the initializers of the library and any other that writes to no existing slice."
  },
  {
   "property": "C113",
   "status": "proved",
   "theorems": [
    "C113_distance",
    "C113_nearest"
   ],
   "note": "Any positive window; when the lengths differ by more than the window the exact distance is that of the series the code aligns (the longest one resized in float64, which C51 and C52 describe). Binary64 with rounding to nearest and no fused multiply-add."
  },
  {
   "property": "C114",
   "status": "proved",
   "theorems": [
    "C114_any_order",
    "C114_totals"
   ],
   "note": "math.Pow is any function that squares to two units in the last place (hypothesis `squares`, which one multiplication satisfies, C114_case); gonum's floats.Sum is any order and grouping of float64 additions. Norm 2 only, the one k-means and the default configurations use. Binary64 with rounding to nearest and no fused multiply-add."
  },
  {
   "property": "C115",
   "status": "proved",
   "theorems": [
    "C115_distance",
    "C115_nearest"
   ],
   "note": "An absolute error: a relative one cannot hold because of cancellation. The hypothesis on the centroids is needed, by C15. Binary64 with rounding to nearest and no fused multiply-add."
  },
  {
   "property": "C116",
   "status": "partial",
   "theorems": [
    "C116_process_refuted",
    "C116_truncated_refuted",
    "C116_skipped_refuted",
    "C116_missing_partial",
    "C116_same_partial",
    "C116_spaces_partial",
    "C116_seq_partial",
    "C116_par_partial",
    "C116_controller_partial"
   ],
   "note": "REFUTED by theorem C116_process_refuted, C116_truncated_refuted, C116_skipped_refuted. The work of a goroutine is one step; the end of the process may come any time after the panic. That an unrecovered panic in a goroutine ends the process is the Go specification's rule, modelled by ps_exit."
  },
  {
   "property": "C117",
   "status": "partial",
   "theorems": [
    "C117_poison_refuted",
    "C117_poison_partial",
    "C117_failed_partial",
    "C117_same_partial"
   ],
   "note": "REFUTED by theorem C117_poison_refuted. Sequences of calls on the implementation; the controller recovers the panics of Iterate and ends the run with the error (C116_controller_partial shows this for k-means)."
  },
  {
   "property": "C118",
   "status": "partial",
   "theorems": [
    "C118_lost_refuted",
    "C118_init_refuted",
    "C118_panic_refuted",
    "C118_frame_refuted",
    "C118_position_refuted",
    "C118_exclusive_partial",
    "C118_alive_partial"
   ],
   "note": "REFUTED by theorem C118_lost_refuted, C118_init_refuted, C118_panic_refuted, C118_frame_refuted, C118_position_refuted. Sequentially consistent memory; append is one step. The status read by Push is a variable changed at any time. One run is C63's claim, which is itself refuted in corner cases."
  },
  {
   "property": "C119",
   "status": "partial",
   "theorems": [
    "C119_cycle_refuted",
    "C119_loss_refuted",
    "C119_mean_refuted",
    "C119_period_partial",
    "C119_bound_partial",
    "C119_copies_partial",
    "C119_rest_partial"
   ],
   "note": "REFUTED by theorem C119_cycle_refuted, C119_loss_refuted, C119_mean_refuted. The witness uses IEEE arithmetic without fused multiply-add (amd64). Data are fixed between iterations."
  },
  {
   "property": "C120",
   "status": "partial",
   "theorems": [
    "C120_dimension_refuted",
    "C120_negative_refuted",
    "C120_accept_partial",
    "C120_density_partial"
   ],
   "note": "REFUTED by theorem C120_dimension_refuted, C120_negative_refuted. math.Exp, math.Log and math.Gamma are any functions that satisfy the record go_math of Spec/GoMathSpec.v (documented special values, overflow of Gamma from 172 on, ranges); that Go's own functions satisfy it is not proved."
  },
  {
   "property": "C121",
   "status": "partial",
   "theorems": [
    "C121_play_refuted",
    "C121_init_refuted",
    "C121_inert_partial",
    "C121_nil_refuted",
    "C121_push_partial"
   ],
   "note": "REFUTED by theorem C121_play_refuted, C121_init_refuted, C121_nil_refuted. The panic is a step of its own (Model/InitPanic.v); panics of impl.Init reached through the Play of a Push are left out, and C121_init_refuted assumes that no run is under way (others_inert)."
  },
  {
   "property": "C122",
   "status": "partial",
   "theorems": [
    "C122_live_refuted",
    "C122_write_refuted",
    "C122_old_partial",
    "C122_repair_partial",
    "C122_values_partial"
   ],
   "note": "REFUTED by theorem C122_live_refuted, C122_write_refuted. Sequential: the races on the map are the subject of C76. The map returned by Iterate is taken to be new, as in the three implementations."
  },
  {
   "property": "C123",
   "status": "partial",
   "theorems": [
    "C123_stream_refuted",
    "C123_stream_apart_partial",
    "C123_stream_draws_partial",
    "C123_init_refuted",
    "C123_own_refuted",
    "C123_apart_partial",
    "C123_kmeans_apart_partial",
    "C123_initializers_partial",
    "C123_kmeans_partial",
    "C123_draws_partial"
   ],
   "note": "REFUTED by theorem C123_stream_refuted, C123_init_refuted, C123_own_refuted. Sequential: calls on different algorithms are taken one after the other; two runs at once on one *rand.Rand would be a data race besides. The witness assumes of math.Pow, math.Log and math.Exp only that Pow(x, 2) = x*x, Log(1) = 0 and Exp(x) > 1 for x > 0. RandInitializer is not written with generators (an unbounded number of draws); the theorem holds for any initializer that uses only its generator. The distribution draws from one generator shared by the copies. For streaming, the slices published are values (their sharing is C38), and a copy of more centers than BufferSize, which would not return, is a panic."
  }
 ]
}