{"id": "C01", "title": "Predict and Assign return a nearest centroid", "statement": "For a non-empty set of centroids and an element whose distances to all of them are numbers >= 0, Assign (hence Predict) returns a label in range, the centroid stored at this label, exactly Dist(element, centroid) as distance; no other centroid is closer, and every centroid with a smaller label is strictly farther (first one wins ties).", "quantifier": "every space, every non-empty centroid list, every element, every float64 distance that is not NaN and not negative", "why_tests_cant": "the claim ranges over all centroid lists and all float64 distance patterns, including ties, infinities and signed zeros", "anchors": ["core/clustering.go:Assign", "core/clustering.go:nearest", "core/ctrl.go:Predict"]}
{"id": "C02", "title": "Assign is total and its label is always usable", "statement": "On an empty centroid set Assign returns no centroid, label -1 and distance -1; on a non-empty one the label is always a valid index and the returned centroid and distance are the ones of this label, even when distances are NaN, infinite or negative.", "quantifier": "every space, centroid list and element, all float64 distances including NaN and negative ones", "why_tests_cant": "requires all float64 classes at all positions", "anchors": ["core/clustering.go:Assign", "core/clustering.go:nearest"]}
{"id": "C03", "title": "Parallel labelling equals sequential labelling", "statement": "MapLabel gives for each element, in order, the label and distance of Assign; ParMapLabel gives the same two lists for every degree >= 1 whatever the interleaving of its goroutines.", "quantifier": "every space, centroid list, data list, degree >= 1 and every interleaving of the writes of the goroutines", "why_tests_cant": "the schedules and the sizes/degrees are unbounded", "anchors": ["core/clustering.go:MapLabel", "core/clustering.go:ParMapLabel", "core/par_assign.go:parMapLabel", "core/util.go:Par"]}
{"id": "C04", "title": "Par splits the data exactly once and evenly", "statement": "Par runs the function once for every rank 0..degree-1 on consecutive ranges that start at 0, end at size, cover each index exactly once and whose lengths differ by at most one; degree 0 and negative degrees panic.", "quantifier": "every size >= 0 and every degree", "why_tests_cant": "all (size, degree) pairs, including more goroutines than data", "anchors": ["core/util.go:Par"]}
{"id": "C05", "title": "ReduceDBA computes one average per cluster and loses no element", "statement": "ReduceDBA returns for each label the average (DBA) of exactly the elements assigned to this label, in order, and their number; the cardinalities sum to the number of elements; a label without element has cardinality 0 and a nil average; it panics exactly when there is data but no centroid.", "quantifier": "every space, centroid list and data list", "why_tests_cant": "unbounded data and centroid lists, any distance function", "anchors": ["core/clustering.go:ReduceDBA", "core/clustering.go:DBA"]}
{"id": "C06", "title": "Label-based reductions agree with the direct ones", "statement": "ReduceDBAForLabels and ReduceLossForLabels applied to the labels given by MapLabel return exactly (bit for bit) what ReduceDBA and ReduceLoss return; with arbitrary in-range labels they aggregate exactly the elements carrying each label.", "quantifier": "every space, centroid list, data list, norm and every in-range label list", "why_tests_cant": "unbounded inputs; equality must be exact, not approximate", "anchors": ["core/clustering.go:ReduceDBAForLabels", "core/clustering.go:ReduceLossForLabels", "core/clustering.go:MapLabel"]}
{"id": "C07", "title": "ReduceLoss charges every element to its nearest centroid once", "statement": "ReduceLoss returns for each label the sum of dist^norm over exactly the elements whose nearest centroid it is, and their number; TotalLoss is the sum over all elements of the dist^norm to their nearest centroid.", "quantifier": "every space, centroid list, data list and norm", "why_tests_cant": "unbounded inputs, any distance function", "anchors": ["core/clustering.go:ReduceLoss", "core/clustering.go:TotalLoss"]}
{"id": "C08", "title": "Parallel losses equal sequential losses", "statement": "ParReduceLoss, ParReduceLossForLabels and ParTotalLoss return the same cardinalities as their sequential version and, up to the order of floating-point additions (exactly, in exact arithmetic), the same losses, for every degree >= 1.", "quantifier": "every space, centroid list, data list, norm and degree >= 1", "why_tests_cant": "unbounded sizes and degrees (degree may exceed the data size)", "anchors": ["core/par_loss.go:parLoss", "core/par_loss.go:parLossForLabels", "core/par_loss.go:lossAggregate"]}
{"id": "C09", "title": "Parallel averages equal sequential averages", "statement": "For a space whose Combine is a weighted average (associative), ParReduceDBA and ParReduceDBAForLabels return the same cardinalities and averages as the sequential version for every degree >= 1, ParReduceDBA putting the previous centroid in place of an empty cluster.", "quantifier": "every space with associative Combine, centroid list, data list, degree >= 1", "why_tests_cant": "unbounded sizes and degrees, empty partitions and clusters empty in some partitions only", "anchors": ["core/par_dba.go:parReduceDBA", "core/par_dba.go:parDBAForLabels", "core/par_dba.go:dbaCombine", "core/par_dba.go:buildResult"]}
{"id": "C10", "title": "DBA and WeightedDBA are the mean and the weighted mean", "statement": "On vectors DBA is the arithmetic mean and WeightedDBA the weighted mean of the elements (exact arithmetic), independently of their order; both return an error exactly on an empty list.", "quantifier": "every non-empty list of vectors of a common dimension, every list of positive weights", "why_tests_cant": "unbounded lists and dimensions; order independence quantifies over permutations", "anchors": ["core/clustering.go:DBA", "core/clustering.go:WeightedDBA", "euclid/vectors.go:PointCombine"]}
{"id": "C11", "title": "The Euclidean distance is a metric", "statement": "In exact arithmetic euclid Dist is >= 0, zero exactly for equal vectors, symmetric, and satisfies the triangle inequality.", "quantifier": "all vectors of a common dimension", "why_tests_cant": "all dimensions and all real vectors", "anchors": ["euclid/vectors.go:PointDist"]}
{"id": "C12", "title": "Euclidean distances computed in float64 are usable by Assign", "statement": "For finite float64 vectors, the float64 value computed by euclid Dist is never NaN and never negative, is exactly symmetric, and is 0 for a vector and itself; hence Predict on finite vectors always satisfies C01.", "quantifier": "all vectors of finite float64 values of a common dimension, including overflowing ones", "why_tests_cant": "2^64 values per coordinate, rounding and overflow cases", "anchors": ["euclid/vectors.go:PointDist", "core/clustering.go:nearest"]}
{"id": "C13", "title": "Euclidean Combine is a weighted barycentre", "statement": "In exact arithmetic Combine(a,wa,b,wb) is the barycentre of a and b; it is commutative, associative in the weighted sense, keeps the dimension, and each coordinate stays between those of a and b.", "quantifier": "all vectors of a common dimension and all positive integer weights", "why_tests_cant": "all dimensions, weights and values", "anchors": ["euclid/vectors.go:PointCombine"]}
{"id": "C14", "title": "The cosinus distance is a bounded, symmetric, scale-free dissimilarity", "statement": "In exact arithmetic, for non-zero vectors, cosinus Dist lies in [0,2], is symmetric, does not change when a vector is multiplied by a positive factor, and is 0 exactly for positively proportional vectors.", "quantifier": "all non-zero real vectors of a common dimension and all positive factors", "why_tests_cant": "all dimensions and values; the bound is Cauchy-Schwarz", "anchors": ["cosinus/cosinus.go:PointDist", "cosinus/cosinus.go:Cosinus"]}
{"id": "C15", "title": "Predict with the cosinus space returns a nearest centroid", "statement": "With the cosinus space computed in float64, Predict returns a centroid at minimal distance.", "quantifier": "all finite non-zero float64 vectors and centroid lists", "why_tests_cant": "depends on the rounding of sqrt and division for every pair of vectors", "anchors": ["cosinus/cosinus.go:PointDist", "core/clustering.go:nearest"]}
{"id": "C16", "title": "Vector operations panic exactly on short second vectors", "statement": "euclid/cosinus Dist and Combine return normally exactly when the second vector has at least as many coordinates as the first one, and then depend only on the leading coordinates; otherwise they panic.", "quantifier": "all pairs of vectors of any lengths", "why_tests_cant": "all lengths", "anchors": ["euclid/vectors.go:PointDist", "euclid/vectors.go:PointCombine", "cosinus/cosinus.go:ScalarProduct"]}
{"id": "C17", "title": "A k-means iteration never increases the loss", "statement": "On Euclidean vectors, in exact arithmetic, the total squared loss of the centroids returned by one k-means iteration (sequential or parallel) is at most the loss of the previous centroids on the same data; hence losses are non-increasing along any number of iterations on fixed data.", "quantifier": "all data lists, all non-empty centroid lists, all degrees and any number of iterations", "why_tests_cant": "an inequality over all data sets and all iteration counts", "anchors": ["kmeans/seq.go:Iterate", "kmeans/par.go:Iterate", "core/clustering.go:TotalLoss"]}
{"id": "C18", "title": "A k-means iteration keeps K centroids, seq and par agree", "statement": "An iteration returns as many centroids as it was given; the new centroid of a non-empty cluster is the mean of its elements and an empty cluster keeps its previous centroid; the parallel strategy returns the same centroids as the sequential one for every degree >= 1 (exact arithmetic for the averages).", "quantifier": "all data lists, non-empty centroid lists, degrees >= 1", "why_tests_cant": "unbounded sizes and degrees", "anchors": ["kmeans/seq.go:Iterate", "kmeans/seq.go:buildResult", "kmeans/par.go:Iterate", "core/par_dba.go:buildResult"]}
{"id": "C19", "title": "k-means centroids stay in the box of the data", "statement": "After any number of iterations each centroid coordinate lies between the minimum and the maximum of that coordinate over the data and the initial centroids (exact arithmetic).", "quantifier": "all data, initial centroids and iteration counts", "why_tests_cant": "unbounded iterations", "anchors": ["kmeans/seq.go:Iterate", "euclid/vectors.go:PointCombine"]}
{"id": "C20", "title": "Data pushed while alive is used from the next iteration on, once and in order", "statement": "An iteration of k-means works on exactly the data applied before it started; elements pushed while the algorithm is alive are all included, once and in push order, in the data of the next iteration (and of the next initialization).", "quantifier": "all histories of pushes, initializations and iterations", "why_tests_cant": "unbounded interleavings of pushes and iterations", "anchors": ["kmeans/impl.go:Iterate", "kmeans/impl.go:Init", "kmeans/impl.go:Push", "core/buffer.go:Apply"]}
{"id": "C21", "title": "The given initializer returns the k first elements", "statement": "GivenInitializer returns copies of the k first elements in order, and an error exactly when k < 1 or there are fewer than k elements.", "quantifier": "every k and every element list", "why_tests_cant": "all k, all lists", "anchors": ["kmeans/init.go:GivenInitializer", "kmeans/init.go:check"]}
{"id": "C22", "title": "The random initializer returns k elements of distinct positions", "statement": "When RandInitializer returns without error, its k centroids are copies of elements at k pairwise distinct positions; it returns for every random sequence that eventually draws every position.", "quantifier": "every k, element list and random sequence", "why_tests_cant": "all random sequences, termination included", "anchors": ["kmeans/init.go:RandInitializer"]}
{"id": "C23", "title": "The k-means++ initializer returns k pairwise distinct elements or an error", "statement": "When PPInitializer returns without error it returns k centroids taken from the data, each at a non-zero distance of all the previous ones; it returns ErrNullSet when every element coincides with a centroid already chosen; k < 1 or too few elements is an error (a panic for negative k).", "quantifier": "every k, element list, space with distances >= 0 and random sequence with draws in (0,1)", "why_tests_cant": "all random sequences and data sets", "anchors": ["kmeans/init.go:PPInitializer", "kmeans/init.go:PPIter"]}
{"id": "C24", "title": "WeightedChoice draws each index with a probability proportional to its weight", "statement": "In exact arithmetic, for non-negative weights of positive sum and a uniform draw r in (0,1), WeightedChoice returns index i exactly when prefix(i) < r*sum <= prefix(i+1): the draws giving i form an interval of length w_i/sum, so a zero weight is never chosen and the index is always in range; it returns ErrNullSet exactly when the sum is zero.", "quantifier": "all non-negative weight lists and all draws r in (0,1)", "why_tests_cant": "a continuum of draws and weights", "anchors": ["kmeans/init.go:WeightedChoice"]}
{"id": "C25", "title": "WeightedChoice never fails on valid weights in float64", "statement": "For finite non-negative float64 weights of positive sum and every value r in [0,1) that Float64() can return, WeightedChoice returns an index in range whose weight is positive.", "quantifier": "all float64 weights, all float64 r in [0,1)", "why_tests_cant": "needs rounding and the r = 0 corner, hit with probability 2^-53", "anchors": ["kmeans/init.go:WeightedChoice", "kmeans/init.go:PPIter", "mcmc/impl.go:nextK"]}
{"id": "C26", "title": "The data buffer neither loses, duplicates nor reorders data", "statement": "With an unbounded buffer, after any sequence of synchronous pushes, asynchronous pushes and Apply, Data() is the initial data followed by the applied elements: synchronous pushes appear immediately, asynchronous ones at the next Apply, in push order, each exactly once.", "quantifier": "every initial data, every sequence of operations", "why_tests_cant": "unbounded histories", "anchors": ["core/buffer.go:NewDataBuffer", "core/buffer.go:Push", "core/buffer.go:Apply", "core/buffer.go:Data"]}
{"id": "C27", "title": "A frame buffer holds exactly the most recent elements", "statement": "With size > 0, Data() holds exactly the min(size, n) most recent of the n elements stored so far (initial data first), each once; the element evicted by a store into a full frame is the oldest one.", "quantifier": "every size > 0, initial data and sequence of operations", "why_tests_cant": "unbounded histories and sizes, wrap-around at each position", "anchors": ["core/buffer.go:NewDataBuffer", "core/buffer.go:fixedSizeStrategy.push"]}
{"id": "C28", "title": "An asynchronous push waits exactly when 2000 elements are staged", "statement": "Push in asynchronous mode completes iff fewer than 2000 elements are staged; synchronous pushes always complete; Apply always empties the stage. Hence an alive algorithm that does not iterate accepts exactly 2000 pushes and then blocks the pusher until an iteration or an initialization.", "quantifier": "every sequence of operations", "why_tests_cant": "long histories", "anchors": ["core/buffer.go:Push", "core/buffer.go:pipeSize"]}
{"id": "C29", "title": "Copying an algorithm keeps the data and its order of eviction", "statement": "The implementation copied from a k-means or MCMC algorithm holds the data of the original, and pushing the same elements in the copy and in the original leaves the same data set in both.", "quantifier": "every history before the copy and every sequence of pushes after it", "why_tests_cant": "the frame position depends on the whole history", "anchors": ["kmeans/impl.go:Copy", "mcmc/impl.go:Copy", "core/buffer.go:NewDataBuffer"]}
{"id": "C30", "title": "Finishing conditions combine as documented", "statement": "Or is finished iff one of its members is; And iff it has members and all are (an empty And is never finished); a nil finishing is never finished; the iteration finishing is finished iff a budget is set (Iter > 0 or IterPerData > 0) and iterations >= Iter + pushedData*IterPerData; the status finishing iff the error flag is set and there is an error, or the status is listed.", "quantifier": "every finishing expression (any nesting) and every model state", "why_tests_cant": "unbounded nesting", "anchors": ["core/finish.go:AndFinishing.IsFinished", "core/finish.go:OrFinishing.IsFinished", "core/finish.go:IterFinishing.IsFinished", "core/finish.go:StatusFinishing.IsFinished"]}
{"id": "C31", "title": "A constructor accepts exactly the valid configurations", "statement": "kmeans/mcmc/streaming NewAlgo panics exactly on: negative IterPerData, DataPerIter, IterFreq, Timeout or Iter; K < 1; InitK < 1 or InitK > MaxK (after the default 16 for MaxK = 0); OutAfter < 2 when not 0; more initial data than BufferSize (default 100). Preparing a configuration twice is the same as once.", "quantifier": "all configurations", "why_tests_cant": "all integer and float values of all fields", "anchors": ["core/conf.go:PrepareConf", "core/conf.go:Verify", "kmeans/conf.go:Verify", "mcmc/conf.go:Verify", "streaming/conf.go:Verify", "streaming/algo.go:NewAlgo"]}
{"id": "C32", "title": "Streaming accounts for every processed element exactly once", "statement": "After any history, the number of centers equals the number of cardinalities, every cardinality is >= 1, and the cardinalities sum to the number of elements taken from the queue by initializations and iterations; each iteration takes at most one element and either adds one center or increments one cardinality.", "quantifier": "all histories of pushes, initializations and iterations, all random draws and spaces", "why_tests_cant": "unbounded histories and random sequences", "anchors": ["streaming/impl.go:Process", "streaming/impl.go:AddCenter", "streaming/impl.go:AddOutlier", "streaming/impl.go:UpdateCenter", "streaming/impl.go:Init"]}
{"id": "C33", "title": "A streaming center is the mean of the elements it absorbed", "statement": "On vectors, in exact arithmetic, the elements processed so far can be partitioned so that each center is the mean of its part and its cardinality the size of its part.", "quantifier": "all histories and random draws", "why_tests_cant": "unbounded histories", "anchors": ["streaming/impl.go:UpdateCenter", "streaming/impl.go:AddCenter"]}
{"id": "C34", "title": "The streaming queue is first-in first-out and bounded", "statement": "Elements are processed in push order, each once; Push returns 'buffer is full' and changes nothing exactly when BufferSize elements are waiting; it never blocks; initialization fails exactly when the queue is empty; an iteration on an empty queue changes nothing and is not counted.", "quantifier": "all histories", "why_tests_cant": "unbounded histories", "anchors": ["streaming/impl.go:Push", "streaming/impl.go:Init", "streaming/impl.go:Iterate", "streaming/impl.go:NewImpl"]}
{"id": "C35", "title": "The streaming maximal distance only grows and bounds the accepted distances", "statement": "The maxDistance figure never decreases along any history and is at least every distance with which a center was added or updated; outliers do not change it, except that it takes the first processed distance while it is zero.", "quantifier": "all histories in which iterations follow a successful initialization (as the controller does) and random draws, spaces with distances >= 0", "why_tests_cant": "unbounded histories", "anchors": ["streaming/impl.go:UpdateMaxDistance", "streaming/impl.go:GetRelativeDistance", "streaming/impl.go:AddOutlier"]}
{"id": "C36", "title": "Streaming outlier rule", "statement": "Once OutAfter elements were processed, an element whose distance to its nearest center exceeds OutRatio times the maximal distance becomes a center of its own whatever the random draw and leaves all other centers, cardinalities and the maximal distance unchanged; otherwise it becomes a center exactly when the normal draw is below the relative distance, else it is merged into its nearest center.", "quantifier": "all states, elements and draws", "why_tests_cant": "all float values", "anchors": ["streaming/impl.go:Process"]}
{"id": "C37", "title": "GetRelativeDistance is a ratio capped at 1", "statement": "GetRelativeDistance returns the ratio of the given distance with the maximal distance if less than 1, otherwise 1 (doc comment).", "quantifier": "all states and distances", "why_tests_cant": "all float values", "anchors": ["streaming/impl.go:GetRelativeDistance"]}
{"id": "C38", "title": "Centroids obtained earlier are not modified by later iterations", "statement": "The value returned by Centroids() is a snapshot: later iterations do not change the elements seen through it.", "quantifier": "all algorithms, all histories, all snapshot instants", "why_tests_cant": "aliasing depends on slice capacities along the whole history", "anchors": ["core/model.go:Centroids", "streaming/impl.go:UpdateCenter", "kmeans/seq.go:Iterate", "core/par_dba.go:buildResult"]}
{"id": "C39", "title": "The number of MCMC clusters stays within its bounds", "statement": "Starting from InitK <= min(MaxK, number of data), after any number of iterations and pushes the number of centroids is between 1 and min(MaxK, number of data), and differs by at most one between consecutive iterations.", "quantifier": "all histories, all random draws, ProbaK of length 3", "why_tests_cant": "unbounded random histories", "anchors": ["mcmc/impl.go:nextK", "mcmc/impl.go:getKCenters", "mcmc/store.go:GetCenters", "mcmc/conf.go:Verify"]}
{"id": "C40", "title": "MCMC bookkeeping is consistent", "statement": "After any history the published centroids are the centers of the current accepted proposal, whose recorded k is their number; the center store maps each k to a set of exactly k centers; the acceptations figure counts the accepted proposals and never exceeds the number of iterations.", "quantifier": "all histories and random draws", "why_tests_cant": "unbounded random histories", "anchors": ["mcmc/impl.go:doIter", "mcmc/impl.go:Iterate", "mcmc/store.go:SetCenters", "mcmc/store.go:genCenters"]}
{"id": "C41", "title": "MCMC acceptance is the Metropolis rule", "statement": "A proposal is accepted iff the uniform draw is below exp(lambda*(loss_cur - loss_prop) + dim*(k_cur - k_prop)*log(2B) + pdf_cur - pdf_prop) with lambda = Amp*sqrt((dim+3)/n); in exact arithmetic, with the same k and the Dirac distribution and Amp >= 0, a proposal that does not increase the loss is always accepted.", "quantifier": "all proposals, draws and parameters", "why_tests_cant": "continuum of values", "anchors": ["mcmc/impl.go:accept", "mcmc/dirac.go:Pdf"]}
{"id": "C42", "title": "Rejected proposals leave the model unchanged", "statement": "An MCMC iteration whose proposal is rejected returns the centroids it received, and does not change the current proposal, the center store or the acceptation count.", "quantifier": "all states and draws", "why_tests_cant": "all states", "anchors": ["mcmc/impl.go:doIter"]}
{"id": "C43", "title": "Center store proposals differ from the current centers by one center", "statement": "When no centers are stored for k, GetCenters returns the current centers with one data element appended (k = n+1), with exactly one center removed at the drawn position (k = n-1), or unchanged (k = n); stored centers are returned as stored.", "quantifier": "all stores, centers, k and draws", "why_tests_cant": "all positions and sizes", "anchors": ["mcmc/store.go:addCenter", "mcmc/store.go:delCenter", "mcmc/store.go:genCenters", "mcmc/store.go:GetCenters"]}
{"id": "C44", "title": "LateDistrib builds its distribution exactly once under any schedule", "statement": "Whatever the number of goroutines calling Sample and Pdf and their interleaving, as long as the builder does not panic it runs at most once; every call that returns used the distribution built by that single run; no deadlock.", "quantifier": "all numbers of goroutines and all interleavings", "why_tests_cant": "all schedules", "anchors": ["mcmc/latedistrib.go:initialize", "mcmc/latedistrib.go:tryInitialize", "mcmc/latedistrib.go:Sample", "mcmc/latedistrib.go:Pdf"]}
{"id": "C45", "title": "The multivariate T log-density is symmetric and peaks at its center", "statement": "In exact arithmetic, for Nu > 0 and t > 0, MultivT.Pdf(mu,x,t) = Pdf(x,mu,t), depends only on the distance between x and mu, and is maximal exactly at x = mu.", "quantifier": "all vectors of a common dimension, all Nu > 0 and all times > 0", "why_tests_cant": "continuum", "anchors": ["mcmc/multivt.go:Pdf"]}
{"id": "C46", "title": "The DTW cost matrix is accessed in bounds and without collisions", "statement": "When the lengths of two non-empty series differ by at most the window (window > 0), NewDTWWindow never panics: every access to the series and to the matrix is in range, and distinct cells inside the window use distinct storage.", "quantifier": "all series lengths and windows", "why_tests_cant": "all lengths, windows and cells", "anchors": ["dtw/cost.go:computeCumCost", "dtw/cost.go:ravel", "dtw/cost.go:setStride", "dtw/cost.go:inWindow"]}
{"id": "C47", "title": "The DTW distance is the minimum over warping paths", "statement": "The value returned by Dist is the minimum, over all warping paths from (0,0) to the last cells that stay inside the window, of the sum of the point distances along the path (float64 sums accumulated in path order).", "quantifier": "all non-empty series with lengths differing by at most the window, all non-negative point distances", "why_tests_cant": "exponentially many paths for each pair of series", "anchors": ["dtw/cost.go:computeCumCost", "dtw/dtw.go:Dist", "dtw/cost.go:min"]}
{"id": "C48", "title": "The DTW path is a valid path realizing the distance", "statement": "Path() lists, from the last cells down to (0,0), a warping path: each step decreases one index or both by one, all cells are inside the window, and the sum of the point distances along it is Dist().", "quantifier": "all non-empty series with lengths differing by at most the window, all non-negative point distances (no NaN)", "why_tests_cant": "all series", "anchors": ["dtw/cost.go:computePath", "dtw/cost.go:decrPath", "dtw/dtw.go:Path"]}
{"id": "C49", "title": "dtw.Space.Dist is total, symmetric, and zero on identical series", "statement": "For non-empty series, dtw.Space.Dist returns without panic, Dist(a,b) = Dist(b,a), and Dist(a,a) = 0, for every window including 0 (unconstrained).", "quantifier": "all non-empty series and all windows >= 0", "why_tests_cant": "all lengths; failure depends on the ratio of the lengths", "anchors": ["dtw/series.go:Dist", "dtw/cost.go:setStride"]}
{"id": "C50", "title": "Without window the DTW distance is the unconstrained one", "statement": "With Window = 0 Dist is the minimum over all warping paths, without any constraint.", "quantifier": "all non-empty series", "why_tests_cant": "all series", "anchors": ["dtw/cost.go:setStride", "dtw/series.go:Dist"]}
{"id": "C51", "title": "Resize keeps the ends and gives the requested length", "statement": "Resize(s,size) of a series of at least two points returns size points without panic, starting with the first point and ending with the last point of s; each other point is a point of s or the linear interpolation of two consecutive points of s at the right position; size = len(s) returns s.", "quantifier": "all series of length >= 2 and all sizes >= 1 (>= 2 for the last point)", "why_tests_cant": "all lengths and sizes", "anchors": ["dtw/interpolate.go:Resize", "dtw/interpolate.go:Interpolate"]}
{"id": "C52", "title": "ShrinkLongest brings the lengths within the window", "statement": "With window > 0, after ShrinkLongest the lengths of two non-empty series differ by at most the window and the shortest series is unchanged; series already within the window are both unchanged; with window = 0 both are unchanged.", "quantifier": "all series and windows", "why_tests_cant": "all lengths", "anchors": ["dtw/interpolate.go:ShrinkLongest"]}
{"id": "C53", "title": "The DTW average of two series is well formed", "statement": "DBA(w1,w2) with positive weights returns without panic a series of floor(((n1-1)*w1+(n2-1)*w2)/(w1+w2))+1 points, hence between the two lengths, whose first point is the weighted average of the first points.", "quantifier": "all non-empty series with lengths differing by at most the window, all positive weights", "why_tests_cant": "all lengths and weights", "anchors": ["dtw/dtw.go:DBA", "dtw/interpolate.go:Interpolate"]}
{"id": "C54", "title": "Status changes follow the documented workflow", "statement": "Whatever the sequence of calls of one client and the progress of the algorithm between the calls, the status goes from Created or Finished to Initializing, from there to Ready or Finished(with error), from Ready to Running or Finished, between Running and Idle, from Running to Ready (budget spent) or Finished, from Idle to Running or Finished; no other change occurs, and an error is attached only to Finished.", "quantifier": "all call sequences, implementations, configurations and progress interleavings", "why_tests_cant": "unbounded histories", "anchors": ["core/ctrl.go:Play", "core/ctrl.go:Pause", "core/ctrl.go:interrupt", "core/ctrl.go:init", "core/ctrl.go:run"]}
{"id": "C55", "title": "Controller calls succeed exactly in the right status", "statement": "Play fails with ErrRunning exactly when Running, and otherwise starts or resumes unless the initialization fails; Pause succeeds exactly when Running, otherwise ErrNotRunning; Stop returns ErrNotAlive exactly when Created or Finished, otherwise it finishes without error; Init returns ErrAlreadyCreated exactly when alive; Wait returns ErrIdle when Idle, ErrNotRunning before any initialization, nil when Ready or Finished, ErrNeverFinish when Running and nothing can finish it; a call refused because of the status changes nothing.", "quantifier": "all configurations, implementations, answers of the implementation and of the clock, and all sequences of calls of one client, each made while the run goroutine is over, between two turns of its loop or waiting in a pause", "why_tests_cant": "all reachable states", "anchors": ["core/ctrl.go:Play", "core/ctrl.go:Pause", "core/ctrl.go:Wait", "core/ctrl.go:interrupt", "core/ctrl.go:Init", "core/ctrl.go:CanNeverFinish"]}
{"id": "C56", "title": "The iteration budget is respected exactly", "statement": "A run with Iter > 0 or IterPerData > 0 and no other finishing condition performs iterations until the iterations figure reaches Iter + pushedData*IterPerData and then becomes Ready; it never performs an iteration when the budget is already reached; without budget it never becomes Ready by itself. (Counts up to 2^53.)", "quantifier": "all configurations, implementations, answers of the implementation and of the clock, and all sequences of calls of one client, each made while the run goroutine is over, between two turns of its loop or waiting in a pause", "why_tests_cant": "unbounded runs", "anchors": ["core/ctrl.go:run", "core/finish.go:IterFinishing.IsFinished"]}
{"id": "C57", "title": "Runtime figures count iterations and pushes", "statement": "The iterations figure is the number of iterations that returned centroids since the last initialization that followed a stop or failure; the pushedData figure is the number of successful pushes since then; every other figure returned by the implementation at the last iteration is kept as is until then.", "quantifier": "all histories", "why_tests_cant": "unbounded histories", "anchors": ["core/ctrl.go:saveIterContext", "core/ctrl.go:updateRuntimeFigures", "core/ctrl.go:init", "core/ctrl.go:Push"]}
{"id": "C58", "title": "Failures of an iteration finish the algorithm with the error and are not fatal", "statement": "When Iterate returns an error or panics in its own goroutine, the status becomes Finished with this error, the last centroids and the iteration count are kept, the run is over, a Wait that is polling returns this error, and Play can start again.", "quantifier": "all configurations, implementations, answers of the implementation and of the clock, and all sequences of calls of one client, each made while the run goroutine is over, between two turns of its loop or waiting in a pause", "why_tests_cant": "every iteration index as crash point", "anchors": ["core/ctrl.go:run", "core/ctrl.go:recover", "core/timeout.go:wait"]}
{"id": "C59", "title": "A failed Play leaves the algorithm usable", "statement": "When Play fails because the initialization fails (for instance too few data), the algorithm is Finished with the error and further calls (Status, Push, Play again with enough data) work.", "quantifier": "all failing initializations and all subsequent calls", "why_tests_cant": "a blocked call has no observable failure in a unit test other than a hang", "anchors": ["core/ctrl.go:Play", "core/ctrl.go:init"]}
{"id": "C60", "title": "Concurrent Push never deadlocks the algorithm", "statement": "Pushing from one goroutine while another one initializes, or while the run loop terminates, never blocks forever.", "quantifier": "all interleavings of Push with Init and with the end of a run", "why_tests_cant": "all schedules", "anchors": ["core/ctrl.go:Push", "core/ctrl.go:init", "core/ctrl.go:recover"]}
{"id": "C61", "title": "A status notifier may read the algorithm", "statement": "A StatusNotifier receives the algorithm as argument and may call its accessors, such as Status(), without blocking the algorithm.", "quantifier": "all schedules of the notification goroutine", "why_tests_cant": "depends on the schedule of the notification goroutine", "anchors": ["core/algo.go:notify", "core/algo.go:setStatus", "core/ctrl.go:init"]}
{"id": "C62", "title": "Pause racing with the natural end of a run is harmless", "statement": "When Pause is called while the run is spending its last iteration, the algorithm ends either Idle with a live run goroutine or Ready, and can be played again.", "quantifier": "all interleavings of Pause with the end of the run", "why_tests_cant": "the window is a few instructions wide", "anchors": ["core/ctrl.go:Pause", "core/ctrl.go:recover", "core/algo.go:sendStatus"]}
{"id": "C63", "title": "At most one run goroutine iterates", "statement": "Whatever the call sequence of a client, two run goroutines never execute the implementation concurrently.", "quantifier": "all call sequences and interleavings", "why_tests_cant": "all schedules", "anchors": ["core/ctrl.go:run", "core/ctrl.go:Play", "core/ctrl.go:interrupt"]}
{"id": "C64", "title": "DataPerIter restarts a ready algorithm periodically", "statement": "With DataPerIter = n > 0, a Ready algorithm is started by a push exactly if at least n pushes were counted since the last automatic start, and the count restarts from 0; with DataPerIter <= 0 or in another status a push never starts it and the count grows by one.", "quantifier": "all configurations, implementations, answers of the implementation and of the clock, and all sequences of calls of one client, each made while the run goroutine is over, between two turns of its loop or waiting in a pause", "why_tests_cant": "unbounded histories", "anchors": ["core/ctrl.go:Push"]}
{"id": "C65", "title": "Wait times out only when it should", "statement": "Wait returns ErrTimeout without reading the status exactly if d > 0 and a poll finds the finishing condition false after the deadline, all polls before finding it false before the deadline; it returns the error of the status, read after the poll, exactly if a poll finds the condition true and no poll before ended the wait; otherwise it goes on waiting.", "quantifier": "all clock readings and status histories", "why_tests_cant": "all timings", "anchors": ["core/timeout.go:WaitTimeout", "core/timeout.go:wait", "core/timeout.go:isTimeout"]}
{"id": "C66", "title": "Notifications report every status change in order", "statement": "The StatusNotifier is called once for each status change, with the status set, in the order of the changes.", "quantifier": "all histories of one client and a run", "why_tests_cant": "all schedules", "anchors": ["core/algo.go:setStatus", "core/algo.go:notificationLoop"]}
{"id": "C67", "title": "Mutual exclusion and lock hygiene of the controller", "statement": "Under every interleaving of any number of clients, timers, run goroutines and the notification loop: writes of the status and of the model fields happen under their mutex, no unlock is applied to a free mutex, and a lock is always released by its holder except on the failed-Play path.", "quantifier": "all numbers of threads and all interleavings", "why_tests_cant": "all schedules", "anchors": ["core/ctrl.go", "core/algo.go:setStatus", "core/model.go:Status"]}
{"id": "C68", "title": "Exactly which data an iteration uses", "statement": "An initialization uses all the elements pushed before it. An iteration uses the elements pushed while the algorithm was not alive before it and the elements pushed while alive before the previous initialization or iteration, each once, in order of storage; with a positive FrameSize it uses the FrameSize most recent of them. Elements pushed while alive since the previous initialization or iteration are used from the iteration after it on.", "quantifier": "all initial data, frame sizes, and histories of pushes, initializations and iterations", "why_tests_cant": "Tests push a few elements and look at the final centroids; the data seen by each iteration of a running algorithm is never observed.", "anchors": ["kmeans/impl.go:20-36", "mcmc/impl.go:43-81", "core/buffer.go:54-89"]}
{"id": "C69", "title": "DTW averages stay in every set closed under weighted means", "statement": "For every set of points closed under PointCombine with positive weights that contains all points of both series, Combine of the dtw space returns, without panic, a non-empty series of points of that set; with Euclidean points in exact arithmetic this holds for every box containing both series.", "quantifier": "all non-empty series, windows > 0, positive weights, and closed sets", "why_tests_cant": "Tests compare a few averages with expected values; they cannot show that interpolation and averaging never leave the convex range of the data.", "anchors": ["dtw/series.go:Combine", "dtw/dtw.go:DBA", "dtw/interpolate.go:Interpolate"]}
{"id": "C70", "title": "LateDistrib is free of data races", "statement": "Whatever the calls of Sample and Pdf made concurrently on a LateDistrib, two goroutines never access the same field without an order between the accesses, one of them writing.", "quantifier": "all numbers of goroutines and all interleavings", "why_tests_cant": "a race detector only sees the schedules that are run", "anchors": ["mcmc/latedistrib.go:initialize", "mcmc/latedistrib.go:tryInitialize"]}
{"id": "C71", "title": "MultivT.Pdf is the density of MultivT.Sample", "statement": "In exact arithmetic, exp(Pdf(mu, x, t)) is the density at x of the law of Sample(mu, t): the t distribution with Nu degrees of freedom whose scale matrix is that of Sample.", "quantifier": "all dimensions, Nu > 0, vectors and times > 0", "why_tests_cant": "a density cannot be compared with a sampler by running it a finite number of times", "anchors": ["mcmc/multivt.go:Pdf", "mcmc/multivt.go:Sample"]}
{"id": "C72", "title": "MCMC iterations never panic and stay in the space of the data", "statement": "In exact arithmetic, on elements where weighted means and copies stay in the set of the data (for instance vectors of one dimension), with a ProbaK of three non-negative numbers and random draws in the open interval (0,1), no iteration that follows a successful initialization panics, and all the centroids stay in the set.", "quantifier": "all histories, data, spaces, distributions and draws", "why_tests_cant": "unbounded random histories", "anchors": ["mcmc/impl.go:Iterate", "mcmc/impl.go:doIter", "mcmc/impl.go:propose", "mcmc/store.go:GetCenters"]}
{"id": "C73", "title": "MCMC with the Dirac distribution and a constant number of centers is k-means", "statement": "In exact arithmetic, for vectors, Norm = 2, ProbaK = (0,1,0), Amp >= 0 and the Dirac distribution, after a first initialization and without pushes every iteration is accepted and the centroids after n iterations are those of n k-means iterations from the same initial centroids.", "quantifier": "all data, initial centroids, numbers of iterations and draws", "why_tests_cant": "unbounded number of iterations over a continuum of data", "anchors": ["mcmc/impl.go:Iterate", "mcmc/impl.go:accept", "mcmc/dirac.go:Sample", "kmeans/par.go:Iterate"]}
{"id": "C74", "title": "The density term of a MultivT proposal only depends on its number of centers and the time", "statement": "In exact arithmetic, with the MultivT distribution the density term of an MCMC proposal is the number of its centers times a constant that only depends on the number of elements: the perturbation that was drawn has no effect on the acceptance.", "quantifier": "all states, draws and times > 0", "why_tests_cant": "continuum of values", "anchors": ["mcmc/impl.go:propose", "mcmc/impl.go:proba", "mcmc/multivt.go:Pdf"]}
{"id": "C75", "title": "DataPerIter pushes never block", "statement": "With DataPerIter > 0, a client that pushes to a Ready algorithm, from a single goroutine, is never blocked forever by the automatic Play.", "quantifier": "all schedules of the run started by the push", "why_tests_cant": "depends on the run requesting its write lock between two reads of one call", "anchors": ["core/ctrl.go:Push", "core/ctrl.go:Play", "core/ctrl.go:saveIterContext"]}
{"id": "C76", "title": "The controller is free of data races", "statement": "Whatever the calls and the interleaving, two goroutines are never about to access the same field of Algo, one of them writing it.", "quantifier": "all clients, calls and interleavings", "why_tests_cant": "a race detector only sees the schedules that are run", "anchors": ["core/ctrl.go:Push", "core/ctrl.go:run", "core/finish.go:IsFinished", "core/model.go:RuntimeFigures"]}
{"id": "C77", "title": "A run started after a stop is not disturbed by the previous one", "statement": "When Play returns nil after Stop, the new run iterates until it is stopped, paused, fails or spends its budget.", "quantifier": "all interleavings of the new run with the end of the previous one", "why_tests_cant": "depends on the previous run goroutine being late", "anchors": ["core/ctrl.go:run", "core/ctrl.go:recover", "core/ctrl.go:Play"]}
{"id": "C78", "title": "The timeout of a run only finishes this run", "statement": "The timer started by Play has no effect once the run it was started for is over.", "quantifier": "all schedules of the timer", "why_tests_cant": "depends on when the timer fires", "anchors": ["core/timeout.go:interrupt", "core/ctrl.go:Play", "core/ctrl.go:interrupt"]}
{"id": "C79", "title": "A nil result of Batch means the batch was done", "statement": "When Batch returns nil the run spent its budget without error and the status is Finished without error.", "quantifier": "all schedules of the run with respect to Batch", "why_tests_cant": "depends on the run failing before Wait reads the status", "anchors": ["core/ctrl.go:Batch", "core/ctrl.go:Wait"]}
{"id": "C80", "title": "float64 k-means never leaves a power-of-two box around its data", "statement": "In float64 Euclidean k-means, if all elements and initial centroids are finite with coordinates in [-2^k, 2^k], every iteration exists without panic and all centroids stay finite in the same box, with no NaN, no infinity and no overflow in between; Predict then returns a valid label of a nearest centroid for any finite vector.", "quantifier": "all dimensions, data (fewer than 2^53 elements), centroids, par degrees, numbers of iterations and k from -1074 to 970", "why_tests_cant": "rounding and overflow depend on all bits of unboundedly many elements", "anchors": ["euclid/space.go:PointCombine", "core/clust.go:ParReduceDBA", "core/clust.go:ReduceDBA", "kmeans/impl.go:Iterate"]}
{"id": "C81", "title": "float64 averages are accurate", "statement": "In float64 every non-empty cluster's new centroid is, in every coordinate, within n*2^(k-51) of the exact mean of its n elements (coordinates in [-2^k, 2^k]), sequentially and in parallel; every streaming center likewise, for the group of elements merged into it, the groups partitioning all processed elements.", "quantifier": "all data in the box, k from -1020 to 970, par degrees, schedules and draws", "why_tests_cant": "rounding errors accumulate over unboundedly many elements", "anchors": ["euclid/space.go:PointCombine", "core/clust.go:DBA", "streaming/impl.go:Iterate"]}
{"id": "C82", "title": "k-means converges in finitely many iterations", "statement": "Over the reals, k-means stops moving after at most (k + 2^n)^k iterations: from then on every iteration returns the same centroids, and every non-empty cluster's centroid is its mean. An iteration that moves any centroid makes the squared loss strictly smaller.", "quantifier": "all data, non-empty initial centroids, dimensions and par degrees", "why_tests_cant": "convergence is a statement about all runs, of unbounded length", "anchors": ["kmeans/impl.go:Iterate", "kmeans/impl.go:Iterate"]}
{"id": "C83", "title": "A k-means iteration does not depend on the order of the data", "statement": "Over the reals, permuting the data and changing the par degree leaves the result of an iteration, and of any number of iterations, unchanged.", "quantifier": "all permutations, par degrees, numbers of iterations", "why_tests_cant": "n! orders", "anchors": ["kmeans/impl.go:Iterate", "core/clust.go:ParReduceDBA"]}
{"id": "C84", "title": "Parallel and sequential float64 k-means agree bit for bit", "statement": "In float64 a parallel iteration gives exactly the same centroids as the sequential one, whatever the order of the data.", "quantifier": "all data, par degrees", "why_tests_cant": "floating-point addition is not associative", "anchors": ["core/clust.go:ParReduceDBA", "kmeans/impl.go:Iterate"]}
{"id": "C85", "title": "The float64 loss never increases", "statement": "In float64 a k-means iteration never increases the total squared loss.", "quantifier": "all data and centroids", "why_tests_cant": "rounding of a mean", "anchors": ["kmeans/impl.go:Iterate", "core/clust.go:TotalLoss"]}
{"id": "C86", "title": "k-means used through the controller never loses data and never fails in an iteration", "statement": "Whatever calls (Init, Play, Pause, Stop, Wait, Push, Batch) one client makes on a k-means algorithm and however the run goroutine is scheduled: every accepted element is in the buffer (no frame) or the data have at most the frame's size; all data and published centroids satisfy any property kept by Copy and Combine (same dimension; float64 coordinates in a box, hence no NaN or overflow); while a run is alive there are exactly k centroids and an iteration can neither panic nor return an error.", "quantifier": "all call sequences, schedules, initializers, par degrees, data", "why_tests_cant": "unboundedly many calls and schedules of the run goroutine", "anchors": ["core/ctrl.go:Push", "core/ctrl.go:runLoop", "kmeans/impl.go:Iterate", "kmeans/impl.go:Push", "core/buffer.go:Apply"]}
{"id": "C87", "title": "k-means Batch runs exactly the budgeted iterations on exactly the pushed data", "statement": "Pushing elements to a new k-means algorithm and calling Batch (with a budget of iterations as only finishing condition) returns without error, status Finished, after exactly the budgeted iterations from the initial centroids on all the elements given and pushed (the last ones with a frame); if the initializer fails, Batch returns its error. Over the reals the loss of the result does not exceed that of the initialization, and with budget at least (k + 2^n)^k an iteration would change nothing.", "quantifier": "all elements, configurations with a budget, initializers, schedules with enough turns", "why_tests_cant": "the outcome depends on goroutine schedules and unbounded data", "anchors": ["core/ctrl.go:Batch", "core/ctrl.go:run", "kmeans/impl.go:Init", "core/finish.go:IsFinished"]}
{"id": "C88", "title": "Streaming used through the controller accounts for every accepted element", "statement": "Whatever calls one client makes on a streaming algorithm: the cardinals sum up to the elements processed, cardinals plus queue equal the elements given plus those accepted, the queue holds at most BufferSize elements, and once initialized an iteration never fails.", "quantifier": "all call sequences, schedules, thresholds, spaces", "why_tests_cant": "unboundedly many calls and schedules", "anchors": ["core/ctrl.go:Push", "streaming/impl.go:Iterate", "streaming/impl.go:Push", "streaming/impl.go:Init"]}
{"id": "C89", "title": "A Batch after further pushes processes them", "statement": "After a Batch, pushing elements and calling Batch again performs the iterations of the budget for all the data, as the first Batch does.", "quantifier": "all uses of Batch", "why_tests_cant": "needs the interplay of the counters with re-initialization", "anchors": ["core/ctrl.go:Batch", "core/ctrl.go:init", "core/figures.go:pushedData", "core/conf.go:IterPerData"]}
{"id": "C90", "title": "The published centroids of streaming are all its centers", "statement": "Centroids() of an initialized streaming algorithm are the centers held by the implementation, one per cardinal.", "quantifier": "all call sequences, including re-initialization", "why_tests_cant": "requires re-Init after a finished run", "anchors": ["streaming/impl.go:Init", "core/ctrl.go:Centroids"]}
{"id": "C91", "title": "MCMC used through the controller keeps its books and never fails in an iteration", "statement": "Whatever calls one client makes on an MCMC algorithm and however the run goroutine is scheduled: the accepted-proposal counter equals the accepted iterations and never exceeds the iterations done; the published centroids are those of the current proposal, at least one and at most min(MaxK, number of data); in exact arithmetic, while a run is alive, no iteration panics or fails, whatever the draws.", "quantifier": "all call sequences, schedules, configurations, distributions, initializers, draws in (0,1)", "why_tests_cant": "unboundedly many calls, schedules and random draws", "anchors": ["core/ctrl.go:Push", "core/ctrl.go:runLoop", "mcmc/impl.go:Iterate", "mcmc/impl.go:Init", "mcmc/impl.go:Push"]}
{"id": "C92", "title": "MCMC Batch performs the budgeted iterations, and is k-means with the Dirac law", "statement": "Batch of an MCMC algorithm with a budget returns without error, Finished, after exactly the budgeted iterations from the initialization, or returns the error of the initializer. With the Dirac distribution and ProbaK = [0 1 0] on a new algorithm over real vectors, it accepts every proposal and returns the centroids of the same number of k-means iterations.", "quantifier": "all data, configurations with a budget, draws, schedules with enough turns", "why_tests_cant": "needs all draws and schedules; relates two packages", "anchors": ["core/ctrl.go:Batch", "mcmc/impl.go:Iterate", "mcmc/dirac.go:Sample", "kmeans/impl.go:Iterate"]}
{"id": "C93", "title": "The acceptance ratio of MCMC uses the dimension of the elements", "statement": "In any history where all elements are vectors of dimension d (or non-empty series of points of dimension d), after a successful Init the dimension entering lambda and the prior ratio is d, so lambda = Amp*sqrt((d+3)/n) and the exponent holds d*(k-k')*ln(2B).", "quantifier": "all histories of calls, data and draws", "why_tests_cant": "the dimension only shows in acceptance probabilities", "anchors": ["mcmc/impl.go:accept", "mcmc/impl.go:Init", "euclid/vectors.go:Dim", "dtw/series.go:Dim"]}
{"id": "C94", "title": "Series can be clustered without panic or overflow", "statement": "With a positive window, Dist and Combine of non-empty series do not panic; the average series is non-empty, no longer than the longest one, and its points stay in every set closed under weighted means (with weights bounded by those given), in particular in a box of float64 vectors; hence k-means on such series never fails under the controller and its centroids stay in the box.", "quantifier": "all series, windows, weights, call sequences and schedules", "why_tests_cant": "unboundedly many series lengths and weights; float rounding", "anchors": ["dtw/series.go:Dist", "dtw/series.go:Combine", "dtw/interpolate.go:Interpolate", "dtw/dtw.go:DBA", "kmeans/impl.go:Iterate"]}
{"id": "C95", "title": "Copy gives an algorithm with the configuration given", "statement": "After Copy(conf, space) the new algorithm behaves as its Conf() says: data kept within conf.FrameSize, strategy by conf.Par and NumCPU (k-means), queue bounded by conf.BufferSize and outliers by conf.OutAfter (streaming).", "quantifier": "all algorithms, configurations given to Copy", "why_tests_cant": "tests copy with the same configuration only", "anchors": ["core/ctrl.go:Copy", "kmeans/impl.go:Copy", "streaming/impl.go:Copy"]}
{"id": "C96", "title": "A copy of a streaming algorithm holds what was learned", "statement": "Copy of a streaming algorithm keeps the centers, their cardinalities, the maximal distance and the queued elements, and does not panic, whatever the state of the algorithm.", "quantifier": "all reachable states of streaming algorithms", "why_tests_cant": "reachable states are unboundedly many; the copied fields are private", "anchors": ["streaming/impl.go:Copy", "core/ctrl.go:Copy", "streaming/algo.go:NewAlgo"]}
{"id": "C97", "title": "A k-means algorithm and its copy give the same results", "statement": "In every state a client can bring a k-means algorithm to, Copy with its own configuration succeeds and holds the same data; when no element is staged, a Batch on the copy and a Batch on the original with the same initialization give the same error, status, centroids and data.", "quantifier": "all call sequences and schedules before Copy, all data, initializers, schedules of the two runs", "why_tests_cant": "all histories before the copy, all pairs of schedules after it", "anchors": ["core/ctrl.go:Copy", "kmeans/impl.go:Copy", "core/buffer.go:NewDataBuffer", "core/ctrl.go:Batch"]}
{"id": "C98", "title": "Predict never panics and gives the nearest published centroid", "statement": "At any moment of any use by a client, Predict of a finite element of the right dimension does not panic: it gives the first nearest of the published centroids, its index and distance, or (nil, -1, -1) while there are none.", "quantifier": "all call sequences, schedules, data in a float64 box, elements", "why_tests_cant": "needs the states after failed initializations and in the middle of runs", "anchors": ["core/ctrl.go:Predict", "core/clustering.go:Assign", "kmeans/init.go:RandInitializer", "kmeans/init.go:PPInitializer"]}
{"id": "C99", "title": "Runtime figures agree with each other", "statement": "The figures of RuntimeFigures describe the same run: acceptations of MCMC are at most the iterations published beside them, time is the number of data of the last iteration, maxDistance is the maximal distance that streaming uses; no figure of an implementation is published before its first iteration since Init.", "quantifier": "all call sequences, schedules, data, draws", "why_tests_cant": "needs several runs of one algorithm; figures are compared to private state", "anchors": ["mcmc/impl.go:runtimeFigures", "mcmc/impl.go:Iterate", "streaming/impl.go:runtimeFigures", "core/ctrl.go:saveIterContext"]}
{"id": "C100", "title": "IterFreq is the maximal number of iterations per second", "statement": "With IterFreq > 0 no more than IterFreq iterations per second are begun (doc comment of IterFreq).", "quantifier": "all runs, pauses, durations of iterations and of sleeps", "why_tests_cant": "wall-clock times; all interleavings of pauses with the pacing", "anchors": ["core/conf.go:IterFreq", "core/ctrl.go:run"]}
{"id": "C101", "title": "The calls of one client do what the sequential account says", "statement": "With no notification callback configured, for every sequence of calls by one client and every answer of the implementation and of the clock, whatever the sequential account of the controller predicts (the errors returned, the statuses in order, the centroids and figures saved) is produced by some schedule of the goroutines of the code: the client, the run, the notification loop and the timers. So each behaviour exhibited for one client (C54, C79, C86 to C99) is one of the concurrent code.", "quantifier": "all sequences of calls, answers, iterations and timers between calls", "why_tests_cant": "existence of a schedule for unboundedly many sessions; goroutines cannot be scheduled at will", "anchors": ["core/ctrl.go", "core/algo.go", "core/timeout.go", "core/status.go"]}
{"id": "C102", "title": "No client is bound to block", "statement": "With no notification callback configured, whatever one client has done so far, unless an initialization has failed inside Play, the calls it makes next can all return: there is a schedule and answers of the implementation for which they do. (A Wait on a condition of the client needs a deadline.)", "quantifier": "all sessions and all sequences of further calls", "why_tests_cant": "existence of a schedule after unboundedly many histories", "anchors": ["core/ctrl.go", "core/algo.go", "core/timeout.go"]}
{"id": "C103", "title": "No call of a single client blocks forever", "statement": "Whatever one client has called and however its goroutine, the run and the notification loop have been interleaved so far, the pending call can still return.", "quantifier": "all sessions of one client and all interleavings", "why_tests_cant": "a lost handshake needs one precise interleaving of two goroutines; a blocked state is never reached by running the code a few times", "anchors": ["core/ctrl.go", "core/algo.go", "core/status.go"]}
{"id": "C104", "title": "One client with endless runs sees the documented controller", "statement": "When runs end only when they are stopped (no budget, finishing condition, timeout, notification callback nor automatic Play) and the implementation initializes and iterates without error, each call of one client that returns leaves the status and returns the error of the documented state machine, in every interleaving of the goroutines, and nothing panics. The client does not initialize, play, push or batch after stopping a paused run, nor batch while a run is paused; its Waits have no condition nor deadline.", "quantifier": "all such sessions of any length, all interleavings, all answers of Push", "why_tests_cant": "infinitely many sessions and interleavings", "anchors": ["core/ctrl.go", "core/algo.go", "core/status.go"]}
{"id": "C105", "title": "A client that waits for its run is told the truth", "statement": "When runs may end by themselves, fail or panic, a client that starts one run (Play or Batch) and then only waits and reads is told the truth in every interleaving: Play returns nil with the algorithm Running, Ready or Finished; Wait returns only when the algorithm is Ready without error or Finished, Batch only when it is Finished, and they return an error only if the run failed.", "quantifier": "all such sessions of any length, all budgets, finishing conditions, answers of the implementation and interleavings", "why_tests_cant": "infinitely many sessions and interleavings", "anchors": ["core/ctrl.go", "core/algo.go", "core/status.go"]}
{"id": "C106", "title": "The float64 Euclidean distance is accurate, and so is the choice of a centroid", "statement": "For vectors of float64 coordinates of the same dimension d with no coordinate beyond 2^480, the Euclidean distance computed by the code is finite and within (d+4)\u00b72^-52 of the exact distance relatively, plus at most d\u00b72^-536. So the centroid that the code assigns to an element is at most a factor 1 + 3(d+4)\u00b72^-52 (plus 3d\u00b72^-536) farther, exactly measured, than any other centroid.", "quantifier": "all dimensions up to 2^47, all float64 vectors in the box [-2^480, 2^480]^d, all lists of centroids", "why_tests_cant": "infinitely many vectors; the rounding errors depend on the values", "anchors": ["euclid/vectors.go:PointDist", "core/clustering.go:Assign", "core/clustering.go:nearest"]}
{"id": "C107", "title": "Published centroids are elements of the algorithm's own, not the client's", "statement": "Every centroid that Centroids() returns is a new element, made by Copy or Combine of the space (or sampled from such an element by MCMC), never an element that the client gave to the constructor or to Push: the client and the algorithm do not share the memory of a centroid. Copy and Combine themselves return a newly allocated vector and write to no other vector.", "quantifier": "all spaces, all implementations (k-means with every initializer, MCMC, streaming), all lists of calls of one client and all schedules of the run goroutine; all memories and vectors for Copy and Combine", "why_tests_cant": "sharing shows only if somebody later writes to the shared vector; all call histories cannot be enumerated", "anchors": ["kmeans/init.go:GivenInitializer", "kmeans/init.go:PPInitializer", "kmeans/init.go:PPIter", "kmeans/init.go:RandInitializer", "core/clustering.go:DBA", "core/par_dba.go", "kmeans/seq.go", "kmeans/par.go", "mcmc/store.go", "mcmc/impl.go", "streaming/impl.go:AddCenter", "streaming/impl.go:AddOutlier", "euclid/vectors.go:PointCopy", "euclid/vectors.go:PointCombine", "dtw/series.go:Copy"]}
{"id": "C108", "title": "A copy of an MCMC algorithm behaves as the algorithm copied", "statement": "Copy of an MCMC algorithm that is not running gives an algorithm with the same data, the same configuration and no run in progress; a run from either, with the same draws, gives the same centroids and figures.", "quantifier": "all configurations, spaces, distributions, initializers, call histories before Copy, draws after it", "why_tests_cant": "the difference shows only after an accepted iteration, a new push and a second run with the same draws; the tests compare no copy that was run", "anchors": ["core/ctrl.go:Copy", "mcmc/impl.go:Copy", "mcmc/impl.go:Init", "mcmc/store.go:GetCenters"]}
{"id": "C109", "title": "Data buffers share no memory with the client or with each other", "statement": "A buffer made from a slice of the client, or from Data() of another buffer as Copy does, holds the elements given and pushed to it whatever the client stores to its slices and whatever is pushed to other buffers; it never modifies the slices of the client.", "quantifier": "all programs of slice stores, NewDataBuffer, copies, Push and Apply, all allocation policies of append", "why_tests_cant": "aliasing shows only for certain capacities and orders of pushes", "anchors": ["core/buffer.go:NewDataBuffer", "core/buffer.go:push", "kmeans/impl.go:Copy", "mcmc/impl.go:Copy"]}
{"id": "C110", "title": "A slice returned by Data() is a snapshot", "statement": "The elements of a slice obtained from Data() do not change afterwards.", "quantifier": "all programs, frame sizes, later pushes", "why_tests_cant": "needs a slice kept across pushes to a full frame", "anchors": ["core/buffer.go:Data", "core/buffer.go:push"]}
{"id": "C111", "title": "Parallel k-means writes only to memory of its own, whatever the interleaving of its goroutines", "statement": "During an iteration of parallel k-means no goroutine and no aggregation modifies a slice of centroids that existed before; the goroutines cannot block or crash each other, process each element exactly once, and whatever their interleaving the result is the value the parallel strategy has when its parts are computed one after the other, held in a slice on a new array.", "quantifier": "all data, centroids, degrees of parallelism and interleavings of the goroutines element by element", "why_tests_cant": "a test sees the few interleavings the scheduler happens to choose", "anchors": ["core/par_dba.go:parReduceDBA", "core/par_dba.go:dbaCombine", "core/par_dba.go:buildResult", "core/clustering.go:ReduceDBA", "kmeans/par.go:Iterate"]}
{"id": "C112", "title": "MCMC never modifies a slice of centroids it has published, nor the client's initial centroids", "statement": "The centers kept in the store, in the current proposal and in the published centroids may be the same slice, and the first published one may be the client's own slice (Clust.Initializer). Yet no push, initialization or iteration of MCMC, whatever its random draws and the interleaving of the goroutines of its k-means step, writes to a slice that existed before: each one reads the same for ever. The executions in memory have the events, figures, errors and centroids of the description by values.", "quantifier": "all memories and initial slices of the client, data, configurations, distributions, spaces, random draws, sequences of pushes, initializations and iterations, and interleavings", "why_tests_cant": "aliasing between store, proposal and published slices shows only when some later iteration writes to one of them and a test still holds the older one", "anchors": ["mcmc/impl.go:Init", "mcmc/impl.go:Iterate", "mcmc/impl.go:doIter", "mcmc/impl.go:propose", "mcmc/impl.go:alter", "mcmc/store.go:GetCenters", "mcmc/store.go:SetCenters", "mcmc/par.go:Iterate", "core/clustering.go:Initializer"]}
{"id": "C113", "title": "The float64 DTW distance is accurate, and so is the choice of a series", "statement": "dtw.Space.Dist on float64 points with the Euclidean distance never overflows and differs from the exact DTW distance of the series aligned (the least sum of exact distances over the warping paths in the window) by at most a relative error of (d + 4) 2^-52 + L 2^-50 plus an underflow term, d being the dimension of the points and L the greatest length. Hence the centroid that Predict chooses among series is nearest up to three times this error: rounding may choose another warping path, but not a worse one beyond the bound.", "quantifier": "all pairs of non-empty series of float64 points of the same dimension with coordinates up to 2^480, all lengths up to 2^45, all positive windows", "why_tests_cant": "the exact distance needs real arithmetic and a minimum over exponentially many paths", "anchors": ["dtw/cost.go:computeCumCost", "dtw/cost.go:min", "dtw/dtw.go:NewDTWWindow", "dtw/series.go:Dist", "euclid/vectors.go:PointDist", "core/clustering.go:Assign"]}
{"id": "C114", "title": "Total losses in float64 are accurate, whatever the order of the additions", "statement": "The losses of the clusters computed with Euclidean distances and norm 2, sequentially or in parallel with any degree, never overflow and every float64 sum of them, in whatever order and grouping (gonum's Sum adds with several accumulators), differs from the exact loss (the sum of the squared exact distances to the exactly nearest centroids) by at most a relative error of 5 (d + 4) 2^-52 + n 2^-51 plus an underflow term, d being the dimension and n the number of elements. So the parallel total and the sequential one, which differ in rounding, agree up to twice this error, and a nearest centroid wrongly chosen by rounding does not matter beyond it.", "quantifier": "all non-empty lists of centroids, all data of up to 2^50 elements with coordinates up to 2^450, all degrees, all orders of summation, all power functions that square up to two units in the last place", "why_tests_cant": "the exact loss needs real arithmetic and the orders of summation are exponentially many", "anchors": ["core/clustering.go:TotalLoss", "core/clustering.go:ParTotalLoss", "core/clustering.go:ReduceLoss", "core/par_loss.go:parLoss", "core/par_loss.go:lossAggregate", "euclid/vectors.go:PointDist"]}
{"id": "C115", "title": "The float64 cosinus distance is accurate, and so is the choice of a centroid that is not parallel to the element", "statement": "cosinus.Space.Dist on float64 vectors of dimension d, with coordinates up to 2^480 and norms of at least 2^-400, never overflows, is never NaN and differs from the exact distance 1 - cos by at most 5 (d + 3) 2^-52. Hence it may be negative (C15) only for vectors that are parallel up to this error, and when no centroid is that close to the element, Predict returns a centroid that is nearest up to twice this error.", "quantifier": "all pairs of float64 vectors of the same dimension up to 2^45 in these bounds, all non-empty lists of centroids", "why_tests_cant": "the exact distance needs real arithmetic; scalar products cancel, so that no relative error bound holds and random tests rarely meet the worst cases", "anchors": ["cosinus/cosinus.go:PointDist", "cosinus/cosinus.go:Cosinus", "cosinus/cosinus.go:Norm", "cosinus/cosinus.go:ScalarProduct", "core/clustering.go:Assign"]}
{"id": "C116", "title": "Data of different dimensions is reported, and nothing computed from it is published", "statement": "When the data of k-means holds vectors of different dimensions the run finishes with an error, the program goes on, and no centroids computed from part of the coordinates or part of the data are published. False: with Par the panic is in a goroutine that nothing recovers and the whole process ends; a short vector that comes first in its cluster gives a published mean of the first coordinates only; and the deferred wg.Done lets the caller publish a result without the data of the failed goroutine before the process ends. What holds: with one dimension no operation panics and no goroutine ends the process; with two, no second iteration succeeds: sequentially the run finishes with an error within two turns, in parallel the process ends within two iterations; the caller itself panics when the part that is missing comes after one that was written, and skips it when it comes before.", "quantifier": "all data, all centroids, all degrees of parallelism, all interleavings of the goroutines with the end of the process; all spaces in which Dist(x, c) panics exactly when c is smaller than x and Combine(m, x) exactly when x is smaller than m (proved of euclid and cosinus)", "why_tests_cant": "the process that ends takes the test binary with it, and whether the incomplete result is published before that depends on the scheduler", "anchors": ["core/util.go:Par", "core/par_dba.go:parReduceDBA", "core/par_dba.go:dbaAggregate", "core/clustering.go:ReduceDBA", "euclid/vectors.go:PointDist", "euclid/vectors.go:PointCombine", "kmeans/seq.go", "kmeans/par.go", "core/ctrl.go:recover"]}
{"id": "C117", "title": "Streaming survives an element of another dimension", "statement": "An element whose dimension differs from that of the centers is refused with an error, and the elements that follow are processed as if it had not been pushed. False: an element of smaller dimension may become a center, and then every element of the usual dimension makes the iteration panic, for ever. What holds: an iteration that panics loses exactly the element at the head of the queue and changes no center and no cardinality; as long as some center is smaller than all queued and pushed elements nothing is absorbed; with one dimension nothing panics.", "quantifier": "all sequences of Push, Init and Iterate, all thresholds and outlier settings, all float64 vectors", "why_tests_cant": "that no later element is ever processed is a statement on all continuations", "anchors": ["streaming/impl.go:Process", "streaming/impl.go:Iterate", "streaming/impl.go:UpdateCenter", "streaming/impl.go:AddCenter", "euclid/vectors.go:PointDist"]}
{"id": "C118", "title": "Elements pushed by concurrent clients are all kept, and a frame keeps its size", "statement": "When several goroutines push, and others initialise or iterate, every element whose Push returned nil is stored or staged exactly once (or was evicted from the frame by later elements), no push panics and a frame never holds more than FrameSize elements. False: the buffer has no lock, and Push stores directly when the algorithm is not alive. Two clients that push before Init lose an element; so do a Push after the end of a run and the Init of the next one; two clients that push to a full frame may panic, or leave the position of the ring beyond its size, after which the frame grows for ever, or take the position back, after which a new element is overwritten while an older one is kept. What holds: every execution in which no two goroutines are between a load of b.data and its store keeps every element once, in an order that respects each goroutine; this is so in particular while the algorithm is alive, for any number of clients and one run.", "quantifier": "all numbers of goroutines, all sequences of jobs, all interleavings of the single loads and stores, all frame sizes, all growth policies of append", "why_tests_cant": "a lost element needs two goroutines between the same two memory operations, and the race detector sees only the executions that happen", "anchors": ["core/buffer.go:Push", "core/buffer.go:Apply", "core/buffer.go:applyNext", "core/buffer.go:fixedSizeStrategy.push", "core/buffer.go:infiniteSizeStrategy.push", "kmeans/impl.go:Push", "mcmc/impl.go:Push", "core/ctrl.go:Push"]}
{"id": "C119", "title": "float64 k-means comes to rest", "statement": "On fixed data, the centroids of float64 k-means stop moving after finitely many iterations, no iteration increases the loss, and equal elements have that element as their mean (C82 proves this in exact arithmetic). False in float64: (x*2+x)/3 may differ from x, so a centroid alone on three equal elements leaves them; one iteration takes a clustering of loss 0 to loss 3; and four elements with two centroids alternate for ever between two sets of centroids. What holds, for any space and arithmetic and both strategies: the successive centroids are eventually periodic, sequentially with pre-period plus period at most (k + 2^n)^k for k centroids and n elements. In float64, the claim about equal elements and the rest it gives do hold for values z*2^e with |z|*n < 2^53 (integers below 2^53/n): n equal elements have that element as their mean, and centroids such that every element is assigned to a centroid equal to it never move, under both strategies.", "quantifier": "all spaces, ordered arithmetics, data, initial centroids, degrees and numbers of iterations", "why_tests_cant": "the cycle needs elements one rounding unit apart, and no finite run shows that a sequence is periodic for ever", "anchors": ["euclid/space.go:PointCombine", "core/clust.go:ReduceDBA", "core/clust.go:ParReduceDBA", "kmeans/impl.go:Iterate"]}
{"id": "C120", "title": "float64 MCMC can accept a proposal that is no worse", "statement": "Whatever the dimension of the data and whatever the configuration that Conf.Verify accepts, an iteration of MCMC in float64 can accept a proposal with as many centers and no greater loss. False: from dimension 341 on, math.Gamma overflows in NewMultivT with the default Nu, every density is +Inf, the difference of two densities is NaN and no proposal is ever accepted in any run, so the centroids stay those of the initializer; and a negative B, which Verify accepts, makes math.Log(2*B) NaN with the same effect in every space and for every distribution. What holds: when B is positive, the densities finite and equal, and the numbers of centers equal, a proposal of no greater finite loss is accepted for every draw below 1; and the density of finite centers at themselves is finite, the same for all centers, as soon as the quotient of the Gamma values is finite and positive.", "quantifier": "all functions Exp, Log, Gamma that satisfy the stated documented facts, all dimensions up to 2^53, configurations, data, initializers, draws and runs", "why_tests_cant": "the tests use dimension below 10 and B = 1, and a run that accepts nothing is not distinguished from a run with unlucky draws", "anchors": ["mcmc/multivt.go:NewMultivT", "mcmc/multivt.go:Pdf", "mcmc/impl.go:accept", "mcmc/conf.go:Verify"]}
{"id": "C121", "title": "A panic of the initializer that the client recovers leaves the algorithm usable", "statement": "If impl.Init panics and the client recovers the panic, the algorithm can be used again: no mutex stays locked and a later Play starts a run or returns an error. False. impl.Init is always called with the status mutex locked and the status Initializing. A panic within Play or Batch, where no unlock is deferred, leaves the status mutex locked for ever: in every continuation of every interleaving the status stays Initializing, whoever waits for the mutex waits for ever and the client never returns from its next call unless it only reads the model. A panic within Init releases the mutex, but the status stays Initializing for ever: no goroutine is ever started, centroids and iterations never change, whatever the clients call, and Play returns nil although it has started no run, leaving the mutex locked. What holds: impl.Push is called without any mutex, so its panic leaves none locked.", "quantifier": "all configurations with a notifier that starts no goroutine, client programs, reachable states, interleavings and continuations", "why_tests_cant": "no test makes an initializer panic, and the calls after the panic block or return nil instead of failing", "anchors": ["core/ctrl.go:Init", "core/ctrl.go:init", "core/ctrl.go:Play", "core/ctrl.go:Batch", "core/ctrl.go:Push"]}
{"id": "C122", "title": "The map returned by RuntimeFigures is a snapshot that belongs to the client", "statement": "The map a client obtains from RuntimeFigures() keeps its contents and writing to it has no effect on the algorithm. False: it is the map of the algorithm itself; a map obtained before a Push shows the counters after the Push, and a client that writes to it changes what the finishing conditions read, so that a run may end before its first iteration. What holds: once an iteration has been saved or the algorithm initialized again, earlier maps are never written nor returned again; in the map in use the algorithm only writes iterations, pushedData, lastDataTime and duration; what a client has written to the counters is corrected by the next Push, iteration or Init and never reaches the counters of the algorithm; and without writes of the client the figures are those of the value model used by the other properties.", "quantifier": "all sequences of pushes, iterations, ends of runs, initializations and writes of the client, all figures returned by the implementation", "why_tests_cant": "the tests read the figures at once after obtaining them and never write to them; in Go a map parameter looks like a value", "anchors": ["core/model.go:RuntimeFigures", "core/ctrl.go:updateRuntimeFigures", "core/ctrl.go:saveIterContext", "core/finish.go:IsFinished"]}
{"id": "C123", "title": "Using an algorithm does not change the results of another", "statement": "Whatever is done with another algorithm, one made by Copy included, an algorithm gives the results that the calls made on it alone give. False: RGen is a pointer. A copy made with the configuration of the algorithm draws from its generator, so initializing the copy changes the initial centroids of the algorithm; and a copy of an MCMC algorithm given a generator of its own still draws the deleted or added center and the acceptance from the generator of the algorithm copied, because Copy makes the implementation with the old configuration, so one iteration of the copy changes the centroids of the next iteration of the algorithm. The same holds for streaming: a copy takes its thresholds from the generator of the algorithm copied. What holds: algorithms that hold no generator in common (and are not copied) do not disturb each other, in their state, their centroids and their generators; k-means draws nothing once initialized, so it is not disturbed even by copies of the same generator; an iteration with generators in memory is an iteration of the model with explicit draws.", "quantifier": "all spaces, arithmetics, generators, initializers that use only the generator they are given, distributions, configurations, numbers of algorithms and sequences of initializations, iterations, pushes and copies", "why_tests_cant": "the effect shows only when the same seed is used twice, with and without the copy, and looks like ordinary randomness; the tests never run an algorithm and its copy with a fixed seed", "anchors": ["mcmc/impl.go:Copy", "mcmc/seq.go:NewSeqImpl", "mcmc/store.go:GetCenters", "core/ctrl.go:Copy", "kmeans/impl.go:Init", "kmeans/init.go:WeightedChoice", "streaming/impl.go:NewImpl", "streaming/impl.go:Copy"]}
