import json
P=[]
def p(title, statement, quant, why, *anchors):
    P.append(dict(id="C%02d"%(len(P)+1), title=title, statement=statement, quantifier=quant, why_tests_cant=why, anchors=list(anchors)))

p("Rows are split exactly among worker threads",
  "For a data set of nrow rows (1 <= nrow < 2^32) and any requested thread count >= 1, the row ranges given to the worker threads are non-empty, pairwise disjoint, in order, and together cover exactly rows 0..nrow-1: every row is processed by exactly one thread.",
  "every row count below 2^32 and every thread count", "the number of (nrow, nthreads) pairs is astronomically large; off-by-one loss of the last rows appears only for particular remainders",
  "libman/coordinator.cpp:29-55,71-79 coordinator::coordinator, coordinator::get_rid_len_tup")
p("Row lookup through the thread partition returns the requested row",
  "Looking up row r through the coordinator yields exactly the ncol numbers the user supplied as row r of the data set, whatever the number of threads, and whether the data came from a user buffer, from the data file or from the NUMA re-organiser.",
  "every data set, row id and thread count", "depends on every combination of nrow, nthreads, remainder and row id",
  "libman/coordinator.cpp:93-101 coordinator::get_thd_data", "libman/kmeans_coordinator.cpp:51-64 build_thread_state", "libman/thread.cpp:111-134 numa_alloc_mem, set_local_data_ptr", "binding/numa_reorg.hpp:72-96 memory_distributor::numa_reorg")
p("A task queue hands out every row exactly once per pass",
  "After a reset, repeatedly asking a worker's task queue for work until it reports no more work yields tasks whose row ranges are consecutive, disjoint and cover exactly the worker's rows; every task holds between 1 and 8193 rows; asking again returns an empty task.",
  "every queue size (number of rows) and every number of requests", "boundary at MIN_TASK_ROWS interacts with the last row; only a proof covers every size",
  "libman/task_queue.hpp:91-175 task_queue::get_task, reset, has_task", "libman/task_thread.cpp:63-95 request_task")
p("The data pointer of a task is the data of its first row",
  "For every matrix size the program accepts, the data handed out with a task starting at local row r is row r of that worker's data.",
  "every row count and column count", "the failure needs more than 2^32 matrix entries per worker; no unit test allocates them",
  "libman/task_queue.hpp:107-139 task_queue::get_task (curr_rid*ncol in 32-bit unsigned arithmetic)")
p("MPI processes own each global row exactly once",
  "With nprocs processes, for every global row g < g_nrow exactly one process answers is_local(g)=true; on that process local_rid(g) is a valid local row and global_rid(local_rid(g)) = g; the processes' local row counts sum to g_nrow. A row id that is not local must be rejected by local_rid.",
  "every global row count, process count, rank and row", "wrap-around of the unsigned subtraction and the remainder rows depend on all of them",
  "libdist/dist_coordinator.cpp:55-69,107-127 init, global_rid, local_rid, is_local", "libdist/dist_task_coordinator.cpp:56-70,89-108")
p("The root process gathers the assignment vector in global row order",
  "The assignment vector collected at the root process equals the concatenation of all processes' local assignments in rank order: entry g is the assignment computed for global row g, no entry is missing or written twice.",
  "every global row count, process count and assignment content", "offsets and counts depend on every (g_nrow, nprocs) pair",
  "libdist/dist_coordinator.cpp:375-420 run (result gathering)", "libdist/dist_task_coordinator.cpp:398-440")
p("Adding and removing a member are exact inverses and touch only one cluster",
  "add_member(x, c) adds x to the running sum of cluster c and 1 to its count and changes nothing else; remove_member(x, c) undoes it exactly (exact arithmetic); swap_membership(x, a, b) equals removing x from a and adding it to b, so the total over all clusters is unchanged.",
  "every cluster container, row, and cluster index", "must hold for all contents, dimensions and cluster indices",
  "libkcommon/clusters.hpp:122-183 add_member, remove_member, swap_membership")
p("Finalizing turns sums into means, once, and unfinalizing undoes it",
  "finalize(c) divides cluster c's sum by its member count (leaving it when the count is below 2), marks it complete, and a second finalize changes nothing; unfinalize restores the sum, so finalize/unfinalize round-trip (exact arithmetic); no other cluster is affected.",
  "every cluster container state and cluster index", "must hold for all states including counts 0, 1 and negative deltas",
  "libkcommon/clusters.cpp:55-89 finalize, unfinalize, finalize_all, unfinalize_all")
p("Merging cluster containers adds sums and counts",
  "a.peq(b) yields componentwise sum of means and counts and aborts when sizes differ; merging a list of per-thread containers gives the same result for every order and grouping (exact arithmetic).",
  "every list of containers and every permutation of it", "permutations and sizes are unbounded",
  "libkcommon/clusters.cpp:111-137 operator+=, peq, means_peq, num_members_v_peq")
p("Setting a mean from an iterator stores the whole row",
  "Setting the centroid of cluster c from a row iterator stores every component of that row as the centroid, as the pointer and vector overloads do.",
  "every row and cluster index", "must hold for every dimension and content",
  "libkcommon/clusters.hpp:187-195 set_mean(T& it, int)", "libkcommon/clusters.cpp:36-53 set_mean")
p("Mini-batch centroid scaling is a convex combination",
  "scale_centroid(f, c, x) replaces centroid c by (1-f)*old + f*x in every coordinate and changes nothing else; for 0 <= f <= 1 every coordinate stays between the old coordinate and x's coordinate.",
  "every factor, cluster, row", "real-valued ranges",
  "libkcommon/clusters.cpp:192-199 scale_centroid")
p("A growing cluster container keeps existing clusters and zero-fills new ones",
  "Adding a member to an index beyond the current capacity of the growing container enlarges it to exactly hold that index, keeps all existing sums and counts, and zero-fills the new ones; merging another container enlarges it just enough to hold the other's clusters.",
  "every container state and index", "all sizes and indices",
  "libkcommon/clusters.cpp:224-246,260-269 sparse_clusters::resize, peq", "libkcommon/clusters.hpp:414-420 sparse_clusters::add_member")
p("Each row is assigned to the nearest centroid, lowest index on ties",
  "In every unpruned k-means iteration each row's assignment becomes the smallest index c such that no centroid is strictly closer to the row under the chosen metric, and the index is below k. This holds in IEEE double arithmetic as executed, not only in exact arithmetic.",
  "every data set, set of centroids, metric, k and thread count", "infinitely many inputs; tie-breaking and rounding cases are rare",
  "libman/kmeans_thread.cpp:75-105 kmeans_thread::EM_step", "libkcommon/util.hpp:151-166 dist_comp_raw")
p("A row with no usable distance aborts instead of producing a bogus assignment",
  "If no centroid of a row has a distance below the largest double (for instance the row contains a NaN) the iteration aborts; if the iteration completes, no row holds the invalid cluster id.",
  "every data set including NaN and infinities", "requires reasoning about all non-finite values in all positions",
  "libman/kmeans_thread.cpp:79-95 assert(asgnd_clust != INVALID_CLUSTER_ID)")
p("Reported cluster sizes equal the number of rows assigned to each cluster",
  "After every iteration the reported size of cluster c is exactly the number of rows assigned to c, and the sizes sum to nrow.",
  "every data set, k, thread count, iteration", "must hold on all inputs and partitions",
  "libman/kmeans_coordinator.cpp:66-89 update_clusters", "libman/kmeans_thread.cpp:75-105")
p("Each centroid is the mean of the rows assigned to it",
  "After every unpruned iteration, in exact arithmetic, the centroid of every non-empty cluster is the arithmetic mean of the rows assigned to it, and the centroid of an empty cluster is the origin (this is what the code does).",
  "every data set, k, thread count, iteration", "all inputs; empties are rare in tests",
  "libman/kmeans_coordinator.cpp:66-89 update_clusters", "libkcommon/clusters.cpp:55-66 finalize")
p("The number of changed assignments is counted exactly",
  "The per-iteration change count equals the number of rows whose assignment differs from the previous iteration, for any number of threads.",
  "every data set, previous assignment, thread count", "all inputs and partitions",
  "libman/kmeans_thread.cpp:97-101", "libman/kmeans_coordinator.cpp:66-76")
p("The clustering result does not depend on the number of threads",
  "In exact arithmetic, starting from the same centroids, assignments, sizes, centroids and number of iterations are the same for every thread count.",
  "every data set, initial centroids, pair of thread counts, iteration bound", "quantifies over pairs of configurations and all data",
  "libman/kmeans_coordinator.cpp:51-89,165-241", "libman/coordinator.cpp:71-79")
p("k-means never increases the within-cluster sum of squares",
  "In exact arithmetic with the Euclidean or squared Euclidean metric, the within-cluster sum of squared distances of the (assignment, centroids) pair after an iteration is at most that before it.",
  "every data set, assignment, k, iteration", "a global inequality over real-valued inputs",
  "libman/kmeans_thread.cpp:75-105", "libman/kmeans_coordinator.cpp:66-89")
p("k-means always converges",
  "In exact arithmetic with the Euclidean metric, the iteration reaches a state where no assignment changes after at most k^nrow + 1 iterations: with an unlimited iteration bound the run terminates.",
  "every data set, k and initial centroids", "termination over all inputs",
  "libman/kmeans_coordinator.cpp:186-213 run loop")
p("A converged result is a fixed point",
  "If a run stops because no assignment changed, then the returned centroids are the ones the last assignment step used, every row is assigned to its nearest returned centroid (lowest index), and running another iteration changes nothing. Holds in IEEE arithmetic as executed.",
  "every data set, initial centroids, k, thread count", "all inputs",
  "libman/kmeans_coordinator.cpp:165-241 run")
p("The reported iteration count is the number of iterations performed",
  "The iteration count in the returned result equals the number of assignment/update iterations that were executed, and never exceeds the iteration limit.",
  "every iteration limit and data set", "holds on converging inputs (all tests) and fails on non-converging ones",
  "libman/kmeans_coordinator.cpp:183-213,239 run", "libman/kmeans_task_coordinator.cpp run")
p("The run stops exactly when the changed fraction is within tolerance or the limit is hit",
  "A run performs at most max_iters iterations, stops after the first iteration in which no assignment changed or the changed fraction is at most the tolerance, and with max_iters = 0 returns the initialisation unchanged.",
  "every max_iters, tolerance, data set", "loop over unbounded iterations",
  "libman/kmeans_coordinator.cpp:183-213 run")
p("The distance functions are what their names say",
  "In exact arithmetic the Euclidean and taxicab distances are metrics (zero iff equal, symmetric, triangle inequality), the squared Euclidean distance is the square of the Euclidean one, and the cosine dissimilarity lies in [0,2] and is scale invariant for non-zero vectors.",
  "every pair and triple of vectors of every dimension", "real-valued universally quantified inequalities",
  "libkcommon/util.hpp:76-166")
p("Metric and initialisation names select the named option and everything else is rejected",
  "The strings eucl, cos, taxi, sqeucl and random, forgy, kmeanspp, none map to distinct options, and every other string is rejected with an exception.",
  "every string", "infinitely many strings",
  "libkcommon/util.cpp:95-123 get_init_type, get_dist_type")
p("Forgy initialisation uses data rows as centroids",
  "After Forgy initialisation every initial centroid is a row of the data set, whatever the random draws.",
  "every data set, k, thread count and random draws", "all random streams",
  "libman/kmeans_coordinator.cpp:152-160 forgy_init", "libauto/kmeans.cpp forgy_init")
p("Random-partition initialisation uses the means of a random partition",
  "After random-partition initialisation the centroid of cluster c is the mean of the rows drawn into c (exact arithmetic), and the origin if there are none, whatever the random draws.",
  "every data set, k and random draws", "all random streams",
  "libman/kmeans_coordinator.cpp:137-150 random_partition_init")
p("kmeans++ picks data rows and tracks the distance to the nearest chosen centre",
  "kmeans++ initialisation completes without aborting (exact arithmetic, draws in [0,1]), every centre is a data row, and the tracked distance of each row is the minimum of its distances to the centres chosen so far, its tentative assignment being a closest one.",
  "every data set, k, thread count, random draws", "all random streams",
  "libman/kmeans_coordinator.cpp:91-135 kmeanspp_init", "libman/kmeans_thread.cpp:110-125 kmspp_dist")
p("kmeans++ draws the next centre with probability proportional to its distance",
  "For each row with positive tracked distance there are draws in [0,1) that select it as the next centre.",
  "every data set and draw", "a distributional property; tests see only a few seeds",
  "libman/kmeans_coordinator.cpp:119 (division by RAND_MAX - 1.0)", "libauto/kmeans.cpp:kmeanspp_init", "libdist/dist_coordinator.cpp:kmeanspp_init")
p("The centroid distance table is symmetric and holds half distances",
  "After recomputation, the table's entry for clusters i and j (in either order) is half the distance between their centroids, and each cluster's stored value is the smallest half distance to any other centroid.",
  "every k >= 2, all centroids and index pairs", "triangular index arithmetic for every k",
  "libkcommon/dist_matrix.cpp:30-120 translate, get, set, compute_dist")
p("The pruned assignment step finds a nearest centroid when its bounds are valid",
  "With the Euclidean metric in exact arithmetic: if every row's stored distance plus its cluster's drift is an upper bound on the distance to its assigned centroid and the centroid table is current, the triangle-inequality-pruned step assigns every row to a nearest centroid, stores a valid upper bound again and counts changes exactly.",
  "every data set, centroids, bounds satisfying the premise, k", "real-valued geometry over all inputs",
  "libman/kmeans_task_thread.cpp:184-266 EM_step", "libauto/min-tri-kmeans.cpp EM_step")
p("The pruned step's bounds stay valid from one iteration to the next",
  "In exact arithmetic the centroid update after a non-initial pruned iteration records each centroid's drift so that stored distance plus drift is again an upper bound on the distance to the new centroid.",
  "every data set, k, iteration", "invariant over unbounded iterations",
  "libman/kmeans_task_coordinator.cpp:131-170 update_clusters")
p("Pruned k-means assigns every row to a nearest centroid",
  "In every iteration of pruned k-means with the Euclidean metric every row is assigned to a nearest centroid, as unpruned k-means does (up to ties).",
  "every data set, initial centroids and iteration", "needs the second iteration of specific data; tests compare only a few data sets",
  "libman/kmeans_task_coordinator.cpp:131-170 update_clusters(prune_init=true), 424-532 run", "libauto/min-tri-kmeans.cpp:322-344")
p("Pruning is sound for every selectable metric",
  "Pruned k-means run with any metric that can be selected (eucl, cos, taxi, sqeucl) assigns each row to a nearest centroid under that metric.",
  "every data set and metric", "requires adversarial geometry",
  "libman/kmeans_task_thread.cpp:184-266", "libkcommon/dist_matrix.cpp:87-120", "libman/kmeans_task_coordinator.cpp:150-153")
p("Distributed pruned k-means assigns every row to a nearest centroid",
  "In exact arithmetic with the Euclidean metric, every iteration of the MPI pruned k-means leaves every row of every process assigned to a nearest centroid, and the replicated centroids are the means of the global assignment.",
  "every data set, number of processes, threads, iterations", "invariant over unbounded iterations and all process counts",
  "libdist/dist_task_coordinator.cpp:250-380 run, 458-470 pp_aggregate")
p("Incremental centroid maintenance equals recomputation",
  "In exact arithmetic the pruned variants' incremental update (un-finalise, add per-thread membership changes, finalise) gives the same centroids and sizes as recomputing from the assignment.",
  "every sequence of assignment changes, data set, thread count", "histories of membership changes are unbounded",
  "libman/kmeans_task_coordinator.cpp:131-170", "libman/kmeans_task_thread.cpp:240-262", "libkcommon/clusters.cpp:55-127")
p("Pruned k-means accepts every k the unpruned version accepts",
  "Any k >= 1 accepted by unpruned k-means is accepted by the pruned version.",
  "every k", "the failing value k=1 is never used with pruning in tests",
  "libkcommon/dist_matrix.cpp:30-41", "libman/kmeans_task_coordinator.cpp constructor", "libman/coordinator.cpp:42")
p("Waiting for completion returns only when all workers have finished",
  "When the coordinator's wait returns, every worker has finished the work of the current round, in every interleaving.",
  "every number of workers and every schedule", "schedules are exponentially many and not controllable in tests",
  "libman/coordinator.cpp:57-63,82-86 wait4complete, wake4run", "libman/thread.cpp:34-74 sleep, wait, wake")
p("Waiting for completion always returns",
  "In every fair schedule the coordinator's wait returns after the workers finish (no lost wake-up).",
  "every schedule", "the bad window is a few instructions wide",
  "libman/coordinator.cpp:57-63", "libman/thread.cpp:34-47 sleep signals without holding the coordinator's mutex")
p("Every wake-up processes the worker's rows exactly once",
  "In every interleaving, one round of work makes each worker process each of its rows exactly once.",
  "every schedule", "data race on the state flag; scheduler-dependent",
  "libman/thread.hpp:62-76 callback", "libman/kmeans_task_thread.cpp:104-135 wake", "libman/task_thread.cpp:63-95")
p("The byte-per-flag boolean vector behaves as an independent array of booleans",
  "Setting flag i makes get(i) return the value and leaves every other flag unchanged; a checked set at an index outside the vector grows the vector and never writes out of bounds.",
  "every vector size, index, operation history", "histories and the boundary index",
  "libkcommon/thd_safe_bool_vector.cpp:28-87")
p("The integer-keyed map enumerates exactly its present keys in order",
  "The key iterator yields exactly the keys whose slot differs from the empty marker, each once, in increasing order; writing a key never creates other keys; membership queries never read out of bounds.",
  "every map content, key, history", "unbounded key sets and gaps",
  "libkcommon/types.hpp:70-185 vmap, iterator")
p("Hierarchical cluster ids are unique among live clusters",
  "If every id is returned at most once after being handed out, the id generator never hands out an id that is still in use, in any sequence of requests and returns.",
  "every sequence of next/reclaim calls", "histories are unbounded",
  "libman/hclust_id_generator.hpp:39-85")
p("Pruning statistics add up",
  "The pruning counters accumulate exactly the recorded events per iteration, totals over iterations are preserved, and finalising an iteration aborts iff the counters exceed nrow*k.",
  "every event history", "unbounded histories",
  "libkcommon/prune_stats.cpp:26-202")
p("Compacting cluster ids renumbers densely and consistently",
  "Compaction after hierarchical clustering maps the used cluster ids to 0..m-1 preserving order, two rows share a new id iff they shared the old id, and sizes and centroids are attached to the new id of their cluster.",
  "every assignment vector and centroid map", "arbitrary id sets with gaps",
  "libkcommon/hclust_compactor.hpp:30-45", "libkcommon/types.cpp:46-72 cluster_t::cluster_t")
p("Result equality means equal results",
  "Two clustering results compare equal only if they have the same dimensions, iteration count, assignments, sizes and centroids.",
  "every pair of results", "all pairs, including different lengths",
  "libkcommon/types.cpp cluster_t::operator==", "libkcommon/util.hpp:58-74 v_eq, eq_all")
p("Dense matrix operations compute the textbook result",
  "Row/column sums and means, matrix product, transposition-free updates and element access of the dense matrix compute the mathematical result in row-major order.",
  "every shape and content", "all shapes",
  "libkcommon/dense_matrix.hpp:40-352")
p("argmax returns the index of a largest element",
  "argmax over each row (or column) returns an index of a largest element of it.",
  "every matrix including non-positive ones", "wrong only for rows without positive entries",
  "libkcommon/dense_matrix.hpp:353-387 argmax")
p("The matrix inverse is the inverse",
  "For every invertible matrix, the computed inverse times the matrix is the identity (exact arithmetic).",
  "every invertible matrix of every size", "sign errors cancel on symmetric test cases",
  "libkcommon/linalg.hpp:40-141 getCofactor, determinant, adjoint, inverse")
p("Spherical projection normalises every row",
  "After spherical projection every non-zero row has unit Euclidean norm and unchanged direction (exact arithmetic).",
  "every matrix", "all matrices",
  "libkcommon/util.cpp:55-67 spherical_projection")
p("Parallel random streams reproduce the serial stream",
  "The strided generators of p ranks interleave to exactly the serial stream, and the skip-ahead generators of the MPI processes concatenate to exactly the serial stream over the global rows.",
  "every rank count, row count, stream", "all rank/row counts and stream contents",
  "libkcommon/util.hpp:168-234 mpi_random_generator, rand123emulator", "libdist/dist_coordinator.cpp:71-80")
p("Writing and reading matrices round-trips",
  "Reading a binary row-major file written by the library gives back the same matrix, row by row and at once; the text reader returns the rows in file order.",
  "every matrix shape and content", "all shapes",
  "libkcommon/io.hpp bin_io, bin_rm_reader, text_reader", "libkcommon/io.cpp store_cluster")
p("Hierarchical assignment moves rows only inside their partition",
  "In every hierarchical iteration a row belonging to an active partition is assigned to the nearer of its partition's two centroids (first on ties) and to one of its two child ids; rows of inactive partitions are untouched; the child counts equal the number of rows with that id.",
  "every data set, partition tree state", "all tree shapes",
  "libman/hclust.cpp:81-133 H_EM_step", "libman/hclust_coordinator.cpp:343-396 update_clusters")
p("Hierarchical seeding picks a member of the partition",
  "When a partition is split, each new seed is a row of that partition.",
  "every partition membership and random draw", "fails only when the last row of the data set is involved",
  "libman/hclust_coordinator.cpp:115-140 forgy_select")
p("A rejected split restores the parent partition",
  "When X-means or G-means rejects a split, every row of both children is assigned to the parent id again, the parent's count is the sum of the children's, and the children's counts are zero; accepted splits are unchanged.",
  "every partition state and score", "all tree states",
  "libman/xmeans_coordinator.cpp:181-248 partition_decision", "libman/gmeans_coordinator.cpp:100-180")
p("A partition mean is the mean of its rows",
  "The mean that X-means uses to score keeping a partition unsplit is the mean of the rows in the partition, in every round.",
  "every data set and round", "needs several rounds with recycled ids",
  "libman/xmeans_coordinator.cpp:75-83 combine_partition_means")
p("Medoids are members and their energy never increases",
  "Each medoid update replaces a medoid only by a sampled member of the same cluster with strictly smaller total distance, so total energy never increases and medoids are always data rows.",
  "every data set, sample, iteration", "all inputs and samples",
  "libman/medoid_coordinator.cpp:99-138 choose_global_medoids", "libman/medoid.cpp:85-154")
p("The medoid run stops when medoids stop changing",
  "The medoid run stops after the first iteration in which no medoid changed.",
  "every data set", "depends on the whole run",
  "libman/medoid_coordinator.cpp:54,125,240 medoids_changed")
p("A fuzzy c-means point at a centre belongs most to that centre",
  "In fuzzy c-means, a row coinciding with exactly one centre gets its largest membership in that centre.",
  "every data set and centre set", "exact coincidence is rare in tests",
  "libman/fcm.cpp:42-57 Estep")
p("Fuzzy c-means centres are membership-weighted means",
  "After an update each centre is the sum over all rows of membership times row divided by the sum of memberships, independent of the number of threads (exact arithmetic).",
  "every data set, memberships, thread count", "all inputs and partitions",
  "libman/fcm_coordinator.cpp:97-123", "libman/fcm.cpp:58-90")
p("Scaled k-means normalises every feature to [0,1]",
  "Feature scaling maps every non-constant feature to [0,1] with minimum 0 and maximum 1.",
  "every data set", "fails only for features without positive values",
  "libman/skmeans.cpp:30-60", "libman/skmeans_coordinator.cpp:60-110")
p("OpenMP k-means validates k and performs the requested iterations",
  "The OpenMP entry points reject k < 2 and k > nrow by exception, and otherwise perform up to max_iters iterations.",
  "every k, nrow, max_iters", "off-by-one in the limit is visible only with small limits",
  "libauto/kmeans.cpp:296-470 compute_kmeans", "libauto/min-tri-kmeans.cpp:380-596 compute_min_kmeans")
p("Mini-batch updates use the per-cluster learning rate",
  "In a mini-batch iteration each sampled row moves its centroid by 1/n_c of the difference where n_c is the number of rows assigned to c so far (sampled), and unsampled rows are not used.",
  "every data set, sample, iteration", "all samples",
  "libman/kmeans_task_coordinator.cpp:97-129,322-422", "libman/kmeans_task_thread.cpp:146-182 mb_EM_step")
p("Best-of-n kmeans++ returns the lowest-energy start",
  "The multi-start initialiser returns a start whose energy is minimal among all starts, the smallest such index, with the clustering of that start.",
  "every number of starts and data set", "all random streams",
  "binding/kmeanspp.hpp:28-60 kmeansPP", "libman/kmeans_task_coordinator.cpp:280-320")
p("Gaussian-mixture responsibilities are per-row probability distributions",
  "After the expectation step each row's responsibilities are non-negative, sum to one, are stored at the row's global position and use each component's own mean and covariance.",
  "every data set, k, thread count", "all inputs and partitions",
  "libman/gmm.cpp:50-110", "libman/gmm_coordinator.cpp:75-130")
p("The result of a run does not depend on how threads are scheduled",
  "For a fixed thread count and fixed random draws, two k-means runs return bit-for-bit the same assignments, sizes, centroids and iteration count, whatever the interleaving of the worker threads, in IEEE double arithmetic as executed.",
  "every input, thread count, initialisation and pair of schedules", "schedules cannot be enumerated",
  "libman/kmeans_coordinator.cpp:170-250 run", "libman/kmeans_thread.cpp:81-112 EM_step")
p("A k-means run never leaves its arrays",
  "With k >= 1, data of nrow*ncol numbers and centres of k*ncol numbers, an unpruned k-means run never reads or writes outside an array; it either returns a result or stops at one of its own assertions.",
  "every input, thread count, initialisation, random draw and schedule", "an out-of-bounds access need not be visible",
  "libman/kmeans_coordinator.cpp:29-250", "libman/kmeans_thread.cpp:81-133")
p("All MPI processes start from the centroids one process would start from",
  "Before the first iteration of the MPI k-means every process holds the same centroids: the user's centres, the drawn rows (forgy), or the means of the random partition of all rows (random), whatever the number of processes.",
  "every data set, number of processes up to nrow, initialisation and random stream", "every split of the rows over processes",
  "libdist/dist_task_coordinator.cpp:227-296", "libdist/dist_coordinator.cpp:82-110")
p("Destroying a coordinator never leaves a worker with a destroyed condition variable",
  "After the destructor has destroyed the coordinator's condition variable no worker thread uses it, in any interleaving.",
  "every number of threads, history of rounds and schedule", "a window of a few instructions at the very end of a run",
  "libman/coordinator.cpp:161-171 ~coordinator", "libman/thread.cpp:34-47 sleep", "libman/task_thread.cpp:63-122")
p("Destroying a coordinator ends every worker thread",
  "Once destruction has begun, in every schedule without endless spurious wake-ups all worker threads leave their loop and are joined; there is no deadlock.",
  "every number of threads, history of rounds and schedule", "schedules cannot be enumerated",
  "libman/coordinator.cpp:88-90,161-171", "libman/thread.hpp:62-83 callback", "libman/thread.cpp:87-94 join")
p("Standardising a vector gives mean 0 and variance 1",
  "The scale function of the linear-algebra helpers, documented as identical to scikit-learn's scale, maps every non-constant vector to one of mean 0 and variance 1 by one increasing affine map (exact arithmetic).",
  "every vector of reals", "inputs with fractional parts are infinitely many and the error depends on the order of the entries",
  "libkcommon/linalg.hpp:190-214 scale", "libman/gmeans_coordinator.cpp:118")
p("A hierarchical run passes its own consistency check",
  "On valid arguments and data with usable distances a hierarchical k-means run returns a result instead of aborting in its final consistency check.",
  "every data set, k, thread count, schedule and random draw", "depends on how rows fall over all the splits",
  "libman/hclust_coordinator.cpp:398-421 verify_consistency, complete_final_centroids", "libman/hclust_coordinator.cpp:426-516 run")
p("A hierarchical run terminates inside its arrays",
  "With k >= 2, a minimum cluster size of at least 2 and at least one iteration, a hierarchical k-means run finishes within 2*floor2(k) - 2 rounds of splits without any out-of-bounds access, whatever the data; it returns or stops at an assertion.",
  "every data set, k, thread count, schedule and random draw", "all trees of splits",
  "libman/hclust_coordinator.cpp:143-305 spawn, init_splits", "libman/hclust_coordinator.cpp:426-516 run")
p("Hierarchical clustering returns at most k clusters",
  "The number of clusters returned by a hierarchical run is at least 2 and at most the k asked for.",
  "every data set, k, thread count, schedule and random draw", "all trees of splits",
  "libman/hclust_coordinator.cpp:33-62", "libman/hclust_coordinator.cpp:426-516 run", "libkcommon/util.hpp get_hclust_floor, get_max_hnodes")
p("Hierarchical clusters have unique ids, true sizes and true means",
  "In the result of a hierarchical run every row carries the id of exactly one returned cluster, each returned cluster's size is its number of rows and its centroid is the mean of its rows (the origin if it has none).",
  "every data set, k, thread count, schedule and random draw", "all trees of splits",
  "libman/hclust_coordinator.cpp:343-421", "libman/hclust_coordinator.cpp:426-516 run")
p("K-medoids clusters with the metric asked for",
  "A k-medoids run assigns every row to the nearest medoid in the distance metric the caller requested.",
  "every data set and requested metric", "all inputs; the default metric hides the difference",
  "libman/medoid.cpp:30-46", "libman/medoid_coordinator.cpp:30-38", "libman/medoid.cpp:80-117 EM_step")
p("The k-medoids result is consistent with its medoids",
  "The returned centroids are rows of the data, every row is assigned to the first nearest returned centroid, and the returned counts count the rows of each cluster.",
  "every data set, k, thread count, draw, sample, schedule and iteration limit", "all runs",
  "libman/medoid_coordinator.cpp:197-297 run", "libman/medoid_coordinator.cpp:141-166 compute_globals")
p("K-medoids does not depend on thread scheduling",
  "For the same draws and samples, two k-medoids runs with different thread interleavings return identical results, bit for bit.",
  "every pair of schedules that let the workers finish", "interleavings cannot be enumerated",
  "libman/medoid.cpp:80-155", "libman/medoid_coordinator.cpp:102-166")
p("K-medoids rejects what it does not support",
  "Every initialisation other than Forgy, supplied medoids included, and reorganised NUMA data are rejected by an exception.",
  "every input", "all inputs", "libman/medoid_coordinator.cpp:182-210 run_init, run")
p("Fuzzy c-means does not depend on thread scheduling",
  "On valid input a fuzzy c-means run completes without any out-of-bounds access, and two runs with the same start return identical results whatever the interleavings of the workers and the order in which the membership rows are summed.",
  "every data set, k, thread count, fuzzifier and pair of schedules", "interleavings cannot be enumerated",
  "libman/fcm.cpp:42-80 Estep, Mstep", "libman/fcm_coordinator.cpp:110-230")
p("The fuzzy c-means assignment is the largest membership",
  "Each row is assigned to the first cluster of largest weight (cluster 0 if no weight of it exceeds the smallest positive normal double), and the counts count the assigned rows.",
  "every run", "all data sets and numbers of iterations",
  "libman/fcm_coordinator.cpp:150-230 run", "libkcommon/dense_matrix.hpp argmax")
p("Fuzzy c-means stops exactly when its centres stop moving",
  "The run ends after the first iteration that moves the centres by less than the tolerance in Frobenius norm and otherwise after exactly the maximum number of iterations.",
  "every run and tolerance", "all trajectories", "libman/fcm_coordinator.cpp:150-230 run")
p("Fuzzy c-means starts from the centres asked for",
  "The start centres are the supplied ones, the drawn rows for Forgy, or the origin when none is given; k-means++ and random-partition initialisation are rejected by an exception.",
  "every input", "all inputs", "libman/fcm_coordinator.cpp:81-150 forgy_init, run_init")
p("Fuzzy memberships form a probability distribution",
  "In every iteration the membership degrees of a row are positive and sum to one, and the stored weight is the degree raised to the fuzzifier.",
  "every run in exact arithmetic", "all real data", "libman/fcm.cpp:42-66 Estep", "libman/fcm_coordinator.cpp:150-230 run")
p("Fuzzy c-means never increases its objective",
  "With squared Euclidean distance, an iteration that starts with no row exactly at a centre never increases the fuzzy objective (sum of weights times squared distances).",
  "every run in exact arithmetic", "all real data, a descent argument", "libman/fcm.cpp:42-80", "libman/fcm_coordinator.cpp:110-230")
p("X-means terminates and stays within its arrays",
  "With valid arguments an X-means run ends after finitely many rounds without throwing and without any access outside its arrays, for every way the split decisions fall.",
  "every data set, k, thread count, schedule and order of decisions", "depends on the whole tree of accepted and rejected splits and on recycled ids",
  "libman/xmeans_coordinator.cpp:259-369 run", "libman/hclust_coordinator.cpp:196-305")
p("The X-means consistency check passes",
  "An X-means run on valid input with usable distances passes its final consistency check and returns.",
  "every data set", "depends on the data", "libman/hclust_coordinator.cpp:398-407 verify_consistency", "libman/xmeans_coordinator.cpp:350-360")
p("X-means clusters, ids and sizes agree",
  "Every row is assigned to one of the returned clusters, the ids are distinct, every reported size is the number of rows assigned, and the number of clusters is between 1 and (3*floor2(k)+3)/2.",
  "every run", "all trees", "libman/xmeans_coordinator.cpp:185-369")
p("X-means centroids are the means of their clusters",
  "Each centroid X-means returns is the mean of the rows assigned to it.",
  "every run in exact arithmetic", "fails only after an id has been recycled", "libman/xmeans_coordinator.cpp:75-83 combine_partition_means", "libman/xmeans_coordinator.cpp:199-240 partition_decision")
p("X-means decides on the rows of the partition",
  "The two scores compared for a partition are computed from exactly the rows of the partition: the parent's from the distances to its mean, the children's from the distance to the nearer child, and each row carries the id of the nearer child.",
  "every round of every run in exact arithmetic", "all data and rounds", "libman/xmeans_coordinator.cpp:93-182 bic, compute_bic_scores", "libman/xmeans.cpp:77-138 H_EM_step")
p("X-means scores children with the Bayesian information criterion",
  "The score of a split is the sum over the two children of the BIC term of a cluster with its own number of rows.",
  "every partition", "the formula holds for no finite sample of partitions in particular", "libman/xmeans_coordinator.cpp:129-146 bic")
p("Scaled k-means is k-means on one scaled matrix",
  "For every input there is one scaled matrix, the same for every interleaving of the worker threads, such that the scaled run returns exactly what k-means returns on that matrix and leaves the matrix in the caller's buffer; the scaling never fails.",
  "every data set, thread count, schedule, initialisation", "all interleavings of two parallel phases", "libman/skmeans.cpp:40-63", "libman/skmeans_coordinator.cpp:64-100,191-270")
p("The OpenMP entry point computes the library's k-means",
  "On valid arguments the OpenMP k-means returns the assignments, counts, centroids and convergence flag that the thread-pool k-means returns when given the same data, metric, initialisation, random draws and one iteration fewer; it fails only where that run fails, and never accesses memory out of bounds or throws.",
  "every dataset, k, metric, initialisation, distribution of rows over OpenMP threads, schedule and reduction order (exact reals); for binary64, every case with the same row partition",
  "two separate implementations with different row distributions and reduction orders; agreement must hold for all of them",
  "libauto/kmeans.cpp:57-482 compute_kmeans", "libman/kmeans_coordinator.cpp:170-250 run")
p('Mini-batch centroids stay inside the range of the data', 'In every iteration each coordinate of each centroid lies between the smallest and the largest value that coordinate takes over the rows and the initial centroids, and a run in which no point of that box is at an overflowing distance from a row always completes.', 'every data set, initialiser, batch size, sample, iteration, schedule', 'all samples and iterations', 'libman/kmeans_task_coordinator.cpp:97-129,322-422', 'libman/kmeans_task_thread.cpp:146-182', 'libkcommon/clusters.cpp scale_centroid')
p('Mini-batch ends with every row assigned to its nearest returned centroid', 'The assignments returned by a mini-batch run map every row, sampled or not, to a cluster whose returned centroid is nearest, and the returned counts are the cluster sizes and sum to the number of rows.', 'every data set, initialiser, batch size, sample, schedule', 'all inputs and samples', 'libman/kmeans_task_coordinator.cpp:392-422')
p('Mini-batch stops on the change of the centroid matrix and reports its iterations', 'A mini-batch run stops after the first iteration in which the Euclidean length of the change of the centroid matrix is below the tolerance, or after the maximum number of iterations, and reports the number of iterations it performed.', 'every data set, tolerance, maximum and sample', 'all histories', 'libman/kmeans_task_coordinator.cpp:354-392')
p('Mini-batch samples the requested fraction of rows', 'A run with batch size b on n rows draws each row with probability b/n in each iteration, whatever the number of threads.', 'every batch size, number of rows and threads', 'all configurations', 'libman/kmeans_task_coordinator.cpp:327-338')
p("A Gaussian-mixture run returns a model", "On valid arguments (any number of rows, columns, components and threads, any initialisation) the mixture driver returns a fitted model instead of ending the process or leaving its arrays.", "every valid argument tuple and build", "holds for no finite set of argument sizes in particular", "libman/gmm_coordinator.cpp:236-327 soft_run", "libman/gmm.cpp:64-103 Estep", "libman/gmm.cpp:105-124 run")
p("A Gaussian-mixture run iterates until stable", "The mixture driver repeats its two steps until the model is stable or the maximum number of iterations is reached, and reports the number performed.", "every data set, tolerance and maximum", "all histories", "libman/gmm_coordinator.cpp:268-296", "libman/coordinator.cpp:39 num_changed")
p("The mixture model reported is complete", "The returned model holds every mean, covariance, weight and every responsibility the driver computed.", "every nrow, ncol and k", "all sizes", "libkcommon/types.cpp:178-198 gmm_t")
p("A G-means run returns a consistent clustering", "In a G-means run that returns, every row is assigned to one of the returned clusters, the returned ids are distinct, every reported size is the number of rows assigned, and every centroid has as many components as a row.", "every run that returns: data, initialiser, strictness, schedule, number of rounds", "all trees of kept and undone splits", "libman/gmeans_coordinator.cpp:199-300 run", "libman/gmeans_coordinator.cpp:108-178 partition_decision")
p("A G-means run returns", "On valid arguments a G-means run ends and returns a clustering; it does not abort the process or access memory out of bounds.", "every data set, k, strictness, minimum cluster size, schedule", "all data sets, including repeated rows", "libman/gmeans_coordinator.cpp:108-178 partition_decision", "libkcommon/linalg.hpp:196-214 scale", "libkcommon/AndersonDarling.hpp:36-42")
p("G-means undoes splits of normal groups at the critical value of their size", "A split of n rows is undone exactly when the Anderson-Darling statistic of its projected rows is at most the critical value for a sample of n values at the chosen strictness, in every round.", "every data set, strictness and round (exact arithmetic)", "the statement is about all samples", "libkcommon/AndersonDarling.hpp:36-74", "libman/gmeans_coordinator.cpp:116-119 compute_critical_values(ad_vecs.size())")
p('kmeans++ seeding does not depend on threads or processes', 'In exact arithmetic the rows that kmeans++ chooses are a function of the data, the metric, the first row and the random draws: any number of threads in any interleaving chooses them, and any number of MPI processes starts from the same centroids as a single process.', 'every data set, metric with well-defined distances, number of threads and processes, interleaving, random stream', 'ranges over all splits of the rows and all interleavings', 'libman/kmeans_task_coordinator.cpp kmeanspp_init', 'libman/kmeans_coordinator.cpp kmeanspp_init', 'libdist/dist_task_coordinator.cpp kmeanspp_init', 'libdist/dist_coordinator.cpp kmeanspp_init')
p('MPI k-means without pruning is Lloyd’s algorithm', 'An unpruned MPI run starts every process from the same centroids (the given ones, the drawn rows, the means of the drawn partition or the kmeans++ rows); every turn assigns every row of every process to the nearest centroid, the lowest index on ties; afterwards every process holds the same centroids and sizes, the means and numbers of the rows assigned anywhere; the run stops at the first turn that moves few enough rows or at the maximum, and the root returns the assignment of all rows in order, the sizes, the centroids and the number of turns. It never accesses memory out of bounds.', 'every data set, metric, initialisation, random stream, number of processes up to the number of rows, number of threads, thread interleaving on every process (exact arithmetic)', 'ranges over all splits of the rows, interleavings and histories', 'libdist/dist_coordinator.cpp run', 'libdist/dist_coordinator.cpp pp_aggregate')
p('An MPI run returns what a single process returns', 'For the same data, parameters, starting centroids and random draws, an unpruned MPI run with any number of processes and threads and a single-process run with any number of threads return the same assignment, sizes and centroids and agree on convergence; they report the same number of iterations when they converge, and one of them fails exactly when the other does.', 'every data set, metric, initialisation, random stream, number of processes and threads on either side, interleavings (exact arithmetic)', 'relates two families of executions', 'libdist/dist_coordinator.cpp run', 'libman/kmeans_coordinator.cpp run')
p('A pruned run stops at the first pass that moves few enough rows', 'A pruned single-process run makes a first pass over all rows, then passes until one moves no row or a fraction of the rows within the tolerance, and at most the maximum number of passes in total; it reports convergence exactly in the former case, and then the number of passes it made.', 'every data set, metric, initialisation, tolerance, maximum, number of threads, interleaving (exact arithmetic)', 'all histories', 'libman/kmeans_task_coordinator.cpp run', 'libman/kmeans_task_coordinator.cpp update_clusters')
p('Pruning does not change the result of an MPI run', 'With the Euclidean metric, if in the unpruned MPI run no row is ever equally near to two centroids when it is assigned, then the pruned MPI run on the same data, parameters and draws succeeds and returns the same assignment, sizes, centroids and number of iterations, with any number of processes and threads on either side.', 'every data set, initialisation, random stream, tolerance, maximum, numbers of processes and threads, interleavings (exact arithmetic)', 'relates two families of executions over all histories', 'libdist/dist_task_coordinator.cpp run', 'libdist/dist_coordinator.cpp run')
p('Pruning does not change the result of a single-process run', 'With the Euclidean metric, if in the unpruned run no row is ever equally near to two centroids when it is assigned, then the pruned run on the same data, parameters and draws succeeds and returns the same assignment, sizes, centroids and number of iterations, with any number of threads on either side.', 'every data set, initialisation, random stream, tolerance, maximum, number of threads, interleavings (exact arithmetic)', 'relates two families of executions over all histories', 'libman/kmeans_task_coordinator.cpp run', 'libman/kmeans_coordinator.cpp run')
p('A pruned OpenMP run returns the sizes and means of its assignment', 'A valid call of the pruned OpenMP entry point returns; every row has a cluster, each reported size is the number of rows of the cluster and each centroid their mean (zero if none). With a limit M it makes at least one pass and at most max(1, M-1); on convergence it reports the passes made, otherwise max(2, M).', 'every data set, metric, initialisation, random stream, distribution of the rows over OpenMP threads, schedule and reduction order (exact arithmetic)', 'ranges over all distributions, schedules and histories', 'libauto/kmeans.cpp compute_min_kmeans', 'libauto/kmeans.cpp EM_step (pruned)')
p('Pruning does not change the result of an OpenMP run', 'With the Euclidean metric, if in the unpruned OpenMP run no row is ever equally near to two centroids when it is assigned, then the pruned entry point on the same data, parameters and draws succeeds and returns the same assignment, sizes, centroids, convergence and number of iterations, with any distribution of the rows on either side.', 'every data set, initialisation, random stream, tolerance, maximum, distributions, schedules, reduction orders (exact arithmetic)', 'relates two families of executions over all histories', 'libauto/kmeans.cpp compute_min_kmeans', 'libauto/kmeans.cpp compute_kmeans')
p('Pruned, mini-batch and multi-start runs do not depend on thread scheduling', 'For a fixed number of threads and fixed random draws, two pruned runs, two mini-batch runs or two multi-start kmeans++ runs return bit-for-bit the same result, and one succeeds exactly when the other does, whatever the interleaving of the worker threads in the seeding rounds and in the passes, in IEEE double arithmetic as executed.', 'every input, metric, thread count, initialisation, limits and pair of interleavings', 'schedules cannot be enumerated', 'libman/kmeans_task_coordinator.cpp run', 'libman/kmeans_task_thread.cpp EM_step', 'libman/kmeans_task_coordinator.cpp:mb_run, mb_iteration_end', 'libauto/kmeans.cpp kmeansPP')
p('OpenMP runs do not depend on thread interleaving', 'For a fixed distribution of the rows over the OpenMP threads, fixed random draws and a fixed order of the reductions, both OpenMP entry points return bit-for-bit the same result, and one call succeeds exactly when the other does, whatever the interleaving of the threads.', 'every input, metric, initialisation, distribution of the rows and pair of interleavings', 'schedules cannot be enumerated', 'libauto/kmeans.cpp compute_kmeans', 'libauto/kmeans.cpp compute_min_kmeans')
p('MPI runs do not depend on thread interleaving', 'For a fixed number of processes and threads and fixed random draws, the unpruned and the pruned MPI runs return bit-for-bit the same result, and one succeeds exactly when the other does, whatever the interleaving of the worker threads of every process in every round.', 'every input, metric, initialisation, number of processes and threads, and pair of interleavings', 'schedules cannot be enumerated', 'libdist/dist_coordinator.cpp', 'libdist/dist_task_coordinator.cpp')
p('Hierarchical, X-means and G-means runs do not depend on thread interleaving', 'For a fixed number of threads, fixed random draws and a fixed visiting order of the hash maps, two hierarchical, two X-means or two G-means runs return bit-for-bit the same result, and one succeeds exactly when the other does, whatever the interleaving of the worker threads in every parallel phase of every round.', 'every input, metric, initialisation, thread count, strictness and pair of interleavings', 'schedules cannot be enumerated', 'libman/hclust_coordinator.cpp run', 'libman/xmeans_coordinator.cpp run', 'libman/gmeans_coordinator.cpp run')
p("The result file contains the result",
  "The file written for a clustering result (cluster_t.yml) can be read back as YAML and then gives exactly the number of clusters, iterations, rows and columns, the cluster sizes, the assignment of every row and every centroid of the result; writing a result returned by any of the entry points never fails.",
  "every result returned by every entry point: any number of clusters, rows, columns, any sizes, assignment and centroid values",
  "A test reads back a few files; the claim covers every shape (no rows, no columns, one cluster) and every double, of which no finite set of files is representative.",
  "libkcommon/types.cpp:cluster_t::write")
p("A truncated result file is never taken for a complete one",
  "If the process stops while it writes the result file, at any character, the part already written is not a complete result file: a reader rejects it instead of returning a result with missing rows, clusters or centroids.",
  "every result and every crash point during the write",
  "The crash point ranges over every prefix of every file.",
  "libkcommon/types.cpp:cluster_t::write")
p("knori, from its files to its result file",
  "Given a data file of exactly nsamples x dim doubles, a known metric, and either a named initialisation or a centroid file with (at least) k x dim doubles, the knori program with -o ends normally and its result file describes a partition of the rows of the data file: it names the right k, nsamples and dim, gives every row exactly one cluster in 0..k-1, gives each cluster's number of rows, and prints for each cluster the mean of its rows (zeros for an empty one).  With pruning this needs the initial centroids to be within the largest double of every row; without pruning the only other outcome is the abort of the assertion on overflowing distances.  This holds for threads and OpenMP, pruned or not.",
  "every command line, data file, centroid file, draw of the initialiser, number of threads, distribution of rows over OpenMP threads and interleaving, in exact arithmetic",
  "It composes reading, initialisation, every iteration of every engine and the writing of the file; a test fixes one file, one schedule and one seed.",
  "exec/knori.cpp:main","libkcommon/io.hpp:bin_io::read","libkcommon/types.cpp:cluster_t::write","libauto/kmeans.cpp:compute_kmeans","libauto/min-tri-kmeans.cpp:compute_min_kmeans","libman/kmeans_coordinator.cpp:kmeans_coordinator::run","libman/kmeans_task_coordinator.cpp:kmeans_task_coordinator::run")
p("Files that do not match the command are refused",
  "knori never produces a result when the data file does not hold exactly nsamples x dim doubles, when the centroid file does not hold exactly k x dim doubles, when either file is missing, when 'none' is asked without a centroid file, or when the initialisation or metric is unknown: it stops with an error instead.",
  "every command line and every content of the files",
  "Acceptance of a wrong file depends on 64-bit wrap-around of sizes no test allocates and on every possible file length.",
  "exec/knori.cpp:main","libkcommon/util.cpp:filesize","libkcommon/io.hpp:bin_io::read","libkcommon/util.cpp:get_init_type","libkcommon/util.cpp:get_dist_type")
p("What hierarchical clustering, X-means and G-means return",
  "When hierarchical clustering, X-means or G-means returns (build with the consistency check), its result numbers the clusters 0..k-1 without gaps, whatever internal ids were allocated and freed and in whatever order the centroid table is visited: every row has exactly one cluster below k, no cluster is empty, the size array has exactly k entries equal to the numbers of rows, the centroid array has k rows, rows are together iff they were together in the last iteration, and (hierarchical clustering, exact arithmetic) centroid j is the mean of the rows assigned to j.",
  "every data set, initialisation, draw, thread count, interleaving, and order of the hash table",
  "The ids depend on the history of splits and deactivations and the result on the unspecified iteration order of a hash table.",
  "libman/hclust_coordinator.cpp:hclust_coordinator::run","libman/xmeans_coordinator.cpp:xmeans_coordinator::run","libman/gmeans_coordinator.cpp:gmeans_coordinator::run","libkcommon/types.cpp:cluster_t::cluster_t","libkcommon/hclust_compactor.hpp:compactor::remap")
p("knord, from its files to its result file, on any number of processes",
  "Given a data file of exactly nsamples x dim doubles, a known metric, and a named initialisation (or 'none' with a centroid file of at least k x dim doubles), the MPI program knord with -o ends normally and the file its root writes describes a partition of the rows of the data file: the right k, nsamples and dim, one cluster in 0..k-1 for every row, each cluster's number of rows, and each cluster's mean (zeros for an empty one).  With pruning this needs k at least 2 and the initial centroids within the largest double of every row; without pruning the only other outcome is the abort of the assertion on overflowing distances.  A missing or wrongly sized data file (size below 2^64), a missing or short centroid file, or 'none' without one never give a result.",
  "every command line, data file, centroid file, draw of the initialiser, number of processes up to the number of rows, number of threads, and interleaving, in exact arithmetic",
  "It composes reading, distribution over processes, reductions, every iteration, gathering and writing; a test fixes one file, one process count, one schedule and one seed.",
  "exec/knord.cpp:main","libdist/dist_coordinator.cpp:run","libdist/dist_task_coordinator.cpp:run","libkcommon/types.cpp:cluster_t::write")
p('Equality of cluster sets','Comparing two cluster sets never fails and answers yes exactly when they have the same dimension, the same number of clusters, the same member counts and coordinate-wise equal centroids.','every pair of cluster sets, of any dimensions','all pairs, including different shapes and NaN or signed-zero coordinates','libkcommon/clusters.cpp clusters::operator==','libkcommon/util.hpp v_eq')
p("The other command line programs write what the library computes", "Run on a data file of exactly nsamples x dim numbers, with a known metric, and with either a centroid file or an initialisation the library accepts, each of the programs hmeans, xmeans, gmeans, skmeans, fcm, mb_knori, kmeanspp, medoids and gmm ends normally or stops on a failed assertion, and with -o writes a result file that, read back, is the library's clustering of the numbers in the data file: hmeans, xmeans, gmeans a partition into non-empty clusters with the right sizes (hmeans: and the means), skmeans k clusters of the rescaled rows with their sizes and means, fcm the clusters of largest membership, mb_knori, kmeanspp and medoids the clusters of a nearest written centroid.", "all file contents, options, random draws, schedules and ways of printing numbers", "The file contents, options and schedules are unbounded; the programs are only ever run by hand on one sample file.", "exec/hmeans.cpp:main", "exec/xmeans.cpp:main", "exec/gmeans.cpp:main", "exec/skmeans.cpp:main", "exec/fcm.cpp:main", "exec/mb_knori.cpp:main", "exec/kmeanspp.cpp:main", "exec/medoids.cpp:main", "exec/gmm.cpp:main")
p("The other command line programs refuse bad files and options", "hmeans, xmeans, gmeans, skmeans, fcm, mb_knori, kmeanspp, medoids and gmm stop with an error, writing nothing, if the data file is missing or does not hold nsamples x dim numbers (whose byte count fits in 64 bits), if the centroid file is missing, if the initialisation is 'none' without a centroid file, or if the initialisation or the metric is unknown; those that read the centroid file also if it is too short.", "all file contents and options", "Unboundedly many wrong sizes and names.", "exec/hmeans.cpp:main", "exec/skmeans.cpp:main", "exec/fcm.cpp:main", "exec/mb_knori.cpp:main", "exec/kmeanspp.cpp:main", "exec/medoids.cpp:main", "exec/gmm.cpp:main")
p("Hierarchical clustering and X-means do not depend on the number of threads","In exact arithmetic, if a hierarchical clustering or X-means run returns, then a run on the same data, start and random draws with any other number of threads, any other way of loading the data and any other schedule returns the same clusters, sizes and centres. With the cosine distance every such pair of runs does return.","all inputs, starts, random draws, thread counts, loading paths and fair schedules; real arithmetic","The number of threads and the schedules cannot be enumerated, and floating-point runs on one machine only sample them.","libman/hclust_coordinator.cpp:343-516 update_clusters, run","libman/hclust.cpp:81-133 H_EM_step","libman/xmeans_coordinator.cpp:run, partition_decision")
p("What a mixture run starts from and reports","A Gaussian-mixture run started with forgy or random reports as means exactly the drawn data rows, in the order of the draws, and a run with given means reports those; with random the mixing weights, the rows of every covariance matrix and (before any iteration) the responsibilities are the uniform draws divided by their row sums, so the weights sum to one. Forgy and given means should also start from usable weights and covariances.","all inputs, draws, iteration limits and processing orders","All draws and all data sets; a test sees one seed and cannot tell which draw went to which component.","libman/gmm_coordinator.cpp:40-59,153-201 forgy_init, random_prob_fill","libkcommon/types.cpp:178-198 gmm_t")
p("The Anderson-Darling test G-means uses is the textbook one","In exact arithmetic the statistic G-means computes for a sample is the textbook Anderson-Darling statistic of the sample standardised with its mean and its n-1 standard deviation, whatever order the values arrive in; shifting the sample or scaling it by a positive number changes nothing; the statistic is never reported negative; the five critical values are 0.576, 0.656, 0.787, 0.918 and 1.092 divided by 1 + 4/n - 25/n^2, and from four values on they are positive and increasing. The sort it starts from returns the same numbers in increasing order, for floating-point numbers too.","every sample of at least one value, every distribution function in the place of the normal one, every positive scale and every shift","An algebraic identity about every sample of every size, plus invariances under every permutation and affine map; a test compares a few samples up to a tolerance.","libkcommon/AndersonDarling.hpp:AndersonDarling::compute_statistic","libkcommon/AndersonDarling.hpp:AndersonDarling::compute_critical_values")
p("The pairwise distance matrix","The matrix of pairwise distances of k >= 2 rows holds, for every two different rows and in either order of the indices, exactly the Euclidean, cosine or Manhattan distance of those rows; on the diagonal one reader answers 0 and the other the largest double; squared Euclidean is refused; storing a value for a pair changes that pair only; the smallest entry of a row is one of its entries and none is smaller.","every number of rows of at least two, every data, dimension, metric and pair of indices","The triangular index translation must be right for every size and pair; a test checks a few sizes.","libkcommon/dist_matrix.cpp:dist_matrix::compute_pairwise_dist","libkcommon/dist_matrix.cpp:dist_matrix::get","libkcommon/dist_matrix.cpp:dist_matrix::set","libkcommon/dist_matrix.cpp:dist_matrix::translate","libkcommon/dist_matrix.cpp:dist_matrix::get_min_dist","libkcommon/dist_matrix.hpp:dist_matrix::pw_get")
p("A run that may make no iterations returns its start","With an iteration limit of 0, k-means with or without pruning returns normally, reports 0 iterations and describes the start: the given centroids (no row assigned); with forgy exactly the drawn rows in the order of the draws (no row assigned); with a random partition the drawn assignment; with kmeans++ (exact arithmetic) k data rows with every row assigned to a nearest of them. The sizes it reports are the numbers of rows assigned.","every data, shape, number of clusters, number of threads, centroid array, random draws and schedule of the initialiser","It is a boundary of the main loop combined with every initialiser; the member sizes are filled by different code than in a normal run, and a test at max_iters 0 sees one start.","libman/kmeans_coordinator.cpp:kmeans_coordinator::run","libman/kmeans_task_coordinator.cpp:kmeans_task_coordinator::run","libman/kmeans_task_coordinator.cpp:kmeans_task_coordinator::tally_assignment_counts")
p("Fuzzy c-means and k-medoids do not depend on the number of threads", "In exact arithmetic, a fuzzy c-means run gives one and the same result (centres, memberships, assignments, iteration count) for every number of threads, every way of loading the data and every scheduling of the worker threads; and a k-medoids run that succeeds with one number of threads, one loading path and one scheduling gives the same result, with the same intermediate states, with every other.", "every matrix, k, start (given centres or Forgy draws), sampling outcome, nthreads in [1, 2^32), loading path the algorithm accepts, and worker schedules", "Tests compare a few thread counts on one file; the candidates, energies and sums are merged from per-thread pieces whose boundaries move with the thread count.", "libman/fcm_coordinator.cpp:run", "libman/fcm.cpp:M_step", "libman/medoid_coordinator.cpp:choose_global_medoids", "libman/medoid_coordinator.cpp:compute_globals", "libman/medoid.cpp:medoid_step")
p("Pruned and mini-batch k-means do not depend on the number of threads",
  "In exact arithmetic, a pruned k-means run that succeeds with one number of threads, one loading path and one scheduling of the workers gives the same result (centroids, assignments, sizes, iteration count, converged flag) with every other, for every distance function, including the inputs on which pruning itself is unsound. The same holds of mini-batch k-means when the draws are the same and the batch is at least as large as the number of threads; a smaller batch is replaced by one row, so that the sampled fraction then depends on the number of threads.",
  "every matrix, k >= 2, metric, initialisation and its draws, tolerance, iteration limit, batch size, sampling draws, nthreads in [1, 2^32), loading path and fair worker schedules",
  "Tests compare one or two thread counts on one file; the bounds, drifts and incremental sums carried from round to round are merged from per-thread deltas whose boundaries move with the thread count.",
  "libman/kmeans_task_coordinator.cpp:run", "libman/kmeans_task_coordinator.cpp:mb_run", "libman/kmeans_task_thread.cpp:EM_step", "libman/kmeans_task_thread.cpp:mb_EM_step", "libman/kmeans_task_coordinator.cpp:update_clusters")
p("G-means does not depend on the number of threads", "In exact arithmetic, two G-means runs on the same matrix with the same parameters, start and draws that both return give the same result - every row's cluster, the clusters' ids, sizes and centroids - whatever number of threads, loading path and worker scheduling each of them used, and whatever number of rounds each was allowed. If one of them returns and none of its nodes is ever numbered at or above the number of clusters the run's containers start with, the other returns too.", "every matrix, k, minimum cluster size, strictness, start (given centres or Forgy draws), logarithm, normal distribution function and conversion to int used by the normality test, pair of thread counts, loading paths, workers' schedules and binding choices for which both runs return", "a test compares particular thread counts on particular data; the partial sums of the workers are added up in every round, once per group and once over all nodes of the tree, and each keep-or-undo decision depends on all of them", "libman/gmeans_coordinator.cpp:gmeans_coordinator::run", "libman/gmeans.cpp:gmeans::H_split_step", "libman/xmeans_coordinator.cpp:xmeans_coordinator::combine_partition_means", "libman/xmeans.cpp:xmeans::partition_mean")
p("Scaled k-means does not depend on the number of threads", "In exact arithmetic, a scaled k-means run that succeeds with one number of threads, one loading path and one scheduling of the workers succeeds with every other, with the same per-feature bounds, the same scaled matrix left in the buffer, and the same centroids, assignments, sizes, iteration count and converged flag. It does succeed whenever no feature is constant and the given centres, if any, are within the double range.", "every matrix, distance function, k, start (given centres, Forgy, random partition, kmeans++), thread counts, loading paths, schedules of the bounds, scaling, seeding and main rounds", "a test compares particular thread counts on particular data; the bounds are folded first per worker and then over the workers, the scaling is done in place by whichever worker owns the row, and the per-worker sums of the main loop are merged in worker order", "libman/skmeans_coordinator.cpp:skmeans_coordinator::bounds_reduction", "libman/skmeans_coordinator.cpp:skmeans_coordinator::run", "libman/skmeans.cpp:skmeans::feature_bounds_reduction", "libman/skmeans.cpp:skmeans::feature_normalize")
p("Multi-start k-means++ does not depend on the number of threads", "In exact arithmetic, kmeansPP called on the same rows with the same first rows and real draws for each start has one outcome - the winning start, its energy, its clustering and the energies of all starts, or the same failure - whatever the number of threads, the loading path and the scheduling of the workers; and when all distances are below the largest double it returns.",
  "every matrix, k >= 2, number of starts, metric, pair of thread counts in [1, 2^32), loading paths, draws, and fair worker schedules",
  "The energies that select the winner come from per-thread partial sums merged over every round of every start; a tie broken differently by one thread count would change the answer on inputs no test contains.",
  "binding/kmeanspp.hpp:kmeansPP", "libman/kmeans_task_coordinator.cpp:reinit", "libman/kmeans_task_coordinator.cpp:kmeanspp_init", "libman/kmeans_task_coordinator.cpp:compute_cluster_energy", "libman/kmeans_task_thread.cpp:kmspp_dist")
p("The model-selection score", "The BIC score of a clustering is twice the sum of the rows' distances plus ln(nrow) * ncol * k, whatever the number of OpenMP threads, the way the rows are shared among them, the order each runs its share in and the order the partial sums are combined in; with the same k the smaller total distance has the smaller score, and with the same total distance the smaller k has it.",
  "every vector of fewer than 2^32 distances, nrow, ncol, k and every sharing of the iterations among threads, in exact arithmetic",
  "The sharing and the order of combination are chosen by the OpenMP runtime at each call.",
  "libkcommon/util.cpp:get_bic", "libauto/kmeans.cpp:compute_kmeans")
p("Assigning and adding cluster containers", "Assigning one cluster container to another gives it the other's size, sums and counts, whatever its own size was, and keeps its own finalisation marks; += of two containers of one size has the effect of peq: the sums and counts are added and nothing else changes. (Neither checks sizes: after the assignment of a larger container, finalizing a cluster that is new to the destination is undefined; += cuts a larger right-hand side to the left one's clusters and reads outside a smaller one, where peq aborts.)",
  "every pair of cluster containers, of equal or different sizes, and every cluster index",
  "Sizes, counts, sums and marks are unbounded and independent; the tests assign and add containers of one size only.",
  "libkcommon/clusters.cpp:operator=", "libkcommon/clusters.cpp:operator+=", "libkcommon/clusters.cpp:finalize", "libkcommon/clusters.cpp:peq")
open('/verif/properties.jsonl','w').write(''.join(json.dumps(x)+'\n' for x in P))
print(len(P))
for x in P: print(x['id'],x['title'])
