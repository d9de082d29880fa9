{"id": "C01", "title": "Rows are split exactly among worker threads", "statement": "For a data set of nrow rows (1 <= nrow < 2^32) and any requested thread count >= 1, the row ranges given to the worker threads are non-empty, pairwise disjoint, in order, and together cover exactly rows 0..nrow-1: every row is processed by exactly one thread.", "quantifier": "every row count below 2^32 and every thread count", "why_tests_cant": "the number of (nrow, nthreads) pairs is astronomically large; off-by-one loss of the last rows appears only for particular remainders", "anchors": ["libman/coordinator.cpp:29-55,71-79 coordinator::coordinator, coordinator::get_rid_len_tup"]}
{"id": "C02", "title": "Row lookup through the thread partition returns the requested row", "statement": "Looking up row r through the coordinator yields exactly the ncol numbers the user supplied as row r of the data set, whatever the number of threads, and whether the data came from a user buffer, from the data file or from the NUMA re-organiser.", "quantifier": "every data set, row id and thread count", "why_tests_cant": "depends on every combination of nrow, nthreads, remainder and row id", "anchors": ["libman/coordinator.cpp:93-101 coordinator::get_thd_data", "libman/kmeans_coordinator.cpp:51-64 build_thread_state", "libman/thread.cpp:111-134 numa_alloc_mem, set_local_data_ptr", "binding/numa_reorg.hpp:72-96 memory_distributor::numa_reorg"]}
{"id": "C03", "title": "A task queue hands out every row exactly once per pass", "statement": "After a reset, repeatedly asking a worker's task queue for work until it reports no more work yields tasks whose row ranges are consecutive, disjoint and cover exactly the worker's rows; every task holds between 1 and 8193 rows; asking again returns an empty task.", "quantifier": "every queue size (number of rows) and every number of requests", "why_tests_cant": "boundary at MIN_TASK_ROWS interacts with the last row; only a proof covers every size", "anchors": ["libman/task_queue.hpp:91-175 task_queue::get_task, reset, has_task", "libman/task_thread.cpp:63-95 request_task"]}
{"id": "C04", "title": "The data pointer of a task is the data of its first row", "statement": "For every matrix size the program accepts, the data handed out with a task starting at local row r is row r of that worker's data.", "quantifier": "every row count and column count", "why_tests_cant": "the failure needs more than 2^32 matrix entries per worker; no unit test allocates them", "anchors": ["libman/task_queue.hpp:107-139 task_queue::get_task (curr_rid*ncol in 32-bit unsigned arithmetic)"]}
{"id": "C05", "title": "MPI processes own each global row exactly once", "statement": "With nprocs processes, for every global row g < g_nrow exactly one process answers is_local(g)=true; on that process local_rid(g) is a valid local row and global_rid(local_rid(g)) = g; the processes' local row counts sum to g_nrow. A row id that is not local must be rejected by local_rid.", "quantifier": "every global row count, process count, rank and row", "why_tests_cant": "wrap-around of the unsigned subtraction and the remainder rows depend on all of them", "anchors": ["libdist/dist_coordinator.cpp:55-69,107-127 init, global_rid, local_rid, is_local", "libdist/dist_task_coordinator.cpp:56-70,89-108"]}
{"id": "C06", "title": "The root process gathers the assignment vector in global row order", "statement": "The assignment vector collected at the root process equals the concatenation of all processes' local assignments in rank order: entry g is the assignment computed for global row g, no entry is missing or written twice.", "quantifier": "every global row count, process count and assignment content", "why_tests_cant": "offsets and counts depend on every (g_nrow, nprocs) pair", "anchors": ["libdist/dist_coordinator.cpp:375-420 run (result gathering)", "libdist/dist_task_coordinator.cpp:398-440"]}
{"id": "C07", "title": "Adding and removing a member are exact inverses and touch only one cluster", "statement": "add_member(x, c) adds x to the running sum of cluster c and 1 to its count and changes nothing else; remove_member(x, c) undoes it exactly (exact arithmetic); swap_membership(x, a, b) equals removing x from a and adding it to b, so the total over all clusters is unchanged.", "quantifier": "every cluster container, row, and cluster index", "why_tests_cant": "must hold for all contents, dimensions and cluster indices", "anchors": ["libkcommon/clusters.hpp:122-183 add_member, remove_member, swap_membership"]}
{"id": "C08", "title": "Finalizing turns sums into means, once, and unfinalizing undoes it", "statement": "finalize(c) divides cluster c's sum by its member count (leaving it when the count is below 2), marks it complete, and a second finalize changes nothing; unfinalize restores the sum, so finalize/unfinalize round-trip (exact arithmetic); no other cluster is affected.", "quantifier": "every cluster container state and cluster index", "why_tests_cant": "must hold for all states including counts 0, 1 and negative deltas", "anchors": ["libkcommon/clusters.cpp:55-89 finalize, unfinalize, finalize_all, unfinalize_all"]}
{"id": "C09", "title": "Merging cluster containers adds sums and counts", "statement": "a.peq(b) yields componentwise sum of means and counts and aborts when sizes differ; merging a list of per-thread containers gives the same result for every order and grouping (exact arithmetic).", "quantifier": "every list of containers and every permutation of it", "why_tests_cant": "permutations and sizes are unbounded", "anchors": ["libkcommon/clusters.cpp:111-137 operator+=, peq, means_peq, num_members_v_peq"]}
{"id": "C10", "title": "Setting a mean from an iterator stores the whole row", "statement": "Setting the centroid of cluster c from a row iterator stores every component of that row as the centroid, as the pointer and vector overloads do.", "quantifier": "every row and cluster index", "why_tests_cant": "must hold for every dimension and content", "anchors": ["libkcommon/clusters.hpp:187-195 set_mean(T& it, int)", "libkcommon/clusters.cpp:36-53 set_mean"]}
{"id": "C11", "title": "Mini-batch centroid scaling is a convex combination", "statement": "scale_centroid(f, c, x) replaces centroid c by (1-f)*old + f*x in every coordinate and changes nothing else; for 0 <= f <= 1 every coordinate stays between the old coordinate and x's coordinate.", "quantifier": "every factor, cluster, row", "why_tests_cant": "real-valued ranges", "anchors": ["libkcommon/clusters.cpp:192-199 scale_centroid"]}
{"id": "C12", "title": "A growing cluster container keeps existing clusters and zero-fills new ones", "statement": "Adding a member to an index beyond the current capacity of the growing container enlarges it to exactly hold that index, keeps all existing sums and counts, and zero-fills the new ones; merging another container enlarges it just enough to hold the other's clusters.", "quantifier": "every container state and index", "why_tests_cant": "all sizes and indices", "anchors": ["libkcommon/clusters.cpp:224-246,260-269 sparse_clusters::resize, peq", "libkcommon/clusters.hpp:414-420 sparse_clusters::add_member"]}
{"id": "C13", "title": "Each row is assigned to the nearest centroid, lowest index on ties", "statement": "In every unpruned k-means iteration each row's assignment becomes the smallest index c such that no centroid is strictly closer to the row under the chosen metric, and the index is below k. This holds in IEEE double arithmetic as executed, not only in exact arithmetic.", "quantifier": "every data set, set of centroids, metric, k and thread count", "why_tests_cant": "infinitely many inputs; tie-breaking and rounding cases are rare", "anchors": ["libman/kmeans_thread.cpp:75-105 kmeans_thread::EM_step", "libkcommon/util.hpp:151-166 dist_comp_raw"]}
{"id": "C14", "title": "A row with no usable distance aborts instead of producing a bogus assignment", "statement": "If no centroid of a row has a distance below the largest double (for instance the row contains a NaN) the iteration aborts; if the iteration completes, no row holds the invalid cluster id.", "quantifier": "every data set including NaN and infinities", "why_tests_cant": "requires reasoning about all non-finite values in all positions", "anchors": ["libman/kmeans_thread.cpp:79-95 assert(asgnd_clust != INVALID_CLUSTER_ID)"]}
{"id": "C15", "title": "Reported cluster sizes equal the number of rows assigned to each cluster", "statement": "After every iteration the reported size of cluster c is exactly the number of rows assigned to c, and the sizes sum to nrow.", "quantifier": "every data set, k, thread count, iteration", "why_tests_cant": "must hold on all inputs and partitions", "anchors": ["libman/kmeans_coordinator.cpp:66-89 update_clusters", "libman/kmeans_thread.cpp:75-105"]}
{"id": "C16", "title": "Each centroid is the mean of the rows assigned to it", "statement": "After every unpruned iteration, in exact arithmetic, the centroid of every non-empty cluster is the arithmetic mean of the rows assigned to it, and the centroid of an empty cluster is the origin (this is what the code does).", "quantifier": "every data set, k, thread count, iteration", "why_tests_cant": "all inputs; empties are rare in tests", "anchors": ["libman/kmeans_coordinator.cpp:66-89 update_clusters", "libkcommon/clusters.cpp:55-66 finalize"]}
{"id": "C17", "title": "The number of changed assignments is counted exactly", "statement": "The per-iteration change count equals the number of rows whose assignment differs from the previous iteration, for any number of threads.", "quantifier": "every data set, previous assignment, thread count", "why_tests_cant": "all inputs and partitions", "anchors": ["libman/kmeans_thread.cpp:97-101", "libman/kmeans_coordinator.cpp:66-76"]}
{"id": "C18", "title": "The clustering result does not depend on the number of threads", "statement": "In exact arithmetic, starting from the same centroids, assignments, sizes, centroids and number of iterations are the same for every thread count.", "quantifier": "every data set, initial centroids, pair of thread counts, iteration bound", "why_tests_cant": "quantifies over pairs of configurations and all data", "anchors": ["libman/kmeans_coordinator.cpp:51-89,165-241", "libman/coordinator.cpp:71-79"]}
{"id": "C19", "title": "k-means never increases the within-cluster sum of squares", "statement": "In exact arithmetic with the Euclidean or squared Euclidean metric, the within-cluster sum of squared distances of the (assignment, centroids) pair after an iteration is at most that before it.", "quantifier": "every data set, assignment, k, iteration", "why_tests_cant": "a global inequality over real-valued inputs", "anchors": ["libman/kmeans_thread.cpp:75-105", "libman/kmeans_coordinator.cpp:66-89"]}
{"id": "C20", "title": "k-means always converges", "statement": "In exact arithmetic with the Euclidean metric, the iteration reaches a state where no assignment changes after at most k^nrow + 1 iterations: with an unlimited iteration bound the run terminates.", "quantifier": "every data set, k and initial centroids", "why_tests_cant": "termination over all inputs", "anchors": ["libman/kmeans_coordinator.cpp:186-213 run loop"]}
{"id": "C21", "title": "A converged result is a fixed point", "statement": "If a run stops because no assignment changed, then the returned centroids are the ones the last assignment step used, every row is assigned to its nearest returned centroid (lowest index), and running another iteration changes nothing. Holds in IEEE arithmetic as executed.", "quantifier": "every data set, initial centroids, k, thread count", "why_tests_cant": "all inputs", "anchors": ["libman/kmeans_coordinator.cpp:165-241 run"]}
{"id": "C22", "title": "The reported iteration count is the number of iterations performed", "statement": "The iteration count in the returned result equals the number of assignment/update iterations that were executed, and never exceeds the iteration limit.", "quantifier": "every iteration limit and data set", "why_tests_cant": "holds on converging inputs (all tests) and fails on non-converging ones", "anchors": ["libman/kmeans_coordinator.cpp:183-213,239 run", "libman/kmeans_task_coordinator.cpp run"]}
{"id": "C23", "title": "The run stops exactly when the changed fraction is within tolerance or the limit is hit", "statement": "A run performs at most max_iters iterations, stops after the first iteration in which no assignment changed or the changed fraction is at most the tolerance, and with max_iters = 0 returns the initialisation unchanged.", "quantifier": "every max_iters, tolerance, data set", "why_tests_cant": "loop over unbounded iterations", "anchors": ["libman/kmeans_coordinator.cpp:183-213 run"]}
{"id": "C24", "title": "The distance functions are what their names say", "statement": "In exact arithmetic the Euclidean and taxicab distances are metrics (zero iff equal, symmetric, triangle inequality), the squared Euclidean distance is the square of the Euclidean one, and the cosine dissimilarity lies in [0,2] and is scale invariant for non-zero vectors.", "quantifier": "every pair and triple of vectors of every dimension", "why_tests_cant": "real-valued universally quantified inequalities", "anchors": ["libkcommon/util.hpp:76-166"]}
{"id": "C25", "title": "Metric and initialisation names select the named option and everything else is rejected", "statement": "The strings eucl, cos, taxi, sqeucl and random, forgy, kmeanspp, none map to distinct options, and every other string is rejected with an exception.", "quantifier": "every string", "why_tests_cant": "infinitely many strings", "anchors": ["libkcommon/util.cpp:95-123 get_init_type, get_dist_type"]}
{"id": "C26", "title": "Forgy initialisation uses data rows as centroids", "statement": "After Forgy initialisation every initial centroid is a row of the data set, whatever the random draws.", "quantifier": "every data set, k, thread count and random draws", "why_tests_cant": "all random streams", "anchors": ["libman/kmeans_coordinator.cpp:152-160 forgy_init", "libauto/kmeans.cpp forgy_init"]}
{"id": "C27", "title": "Random-partition initialisation uses the means of a random partition", "statement": "After random-partition initialisation the centroid of cluster c is the mean of the rows drawn into c (exact arithmetic), and the origin if there are none, whatever the random draws.", "quantifier": "every data set, k and random draws", "why_tests_cant": "all random streams", "anchors": ["libman/kmeans_coordinator.cpp:137-150 random_partition_init"]}
{"id": "C28", "title": "kmeans++ picks data rows and tracks the distance to the nearest chosen centre", "statement": "kmeans++ initialisation completes without aborting (exact arithmetic, draws in [0,1]), every centre is a data row, and the tracked distance of each row is the minimum of its distances to the centres chosen so far, its tentative assignment being a closest one.", "quantifier": "every data set, k, thread count, random draws", "why_tests_cant": "all random streams", "anchors": ["libman/kmeans_coordinator.cpp:91-135 kmeanspp_init", "libman/kmeans_thread.cpp:110-125 kmspp_dist"]}
{"id": "C29", "title": "kmeans++ draws the next centre with probability proportional to its distance", "statement": "For each row with positive tracked distance there are draws in [0,1) that select it as the next centre.", "quantifier": "every data set and draw", "why_tests_cant": "a distributional property; tests see only a few seeds", "anchors": ["libman/kmeans_coordinator.cpp:119 (division by RAND_MAX - 1.0)", "libauto/kmeans.cpp:kmeanspp_init", "libdist/dist_coordinator.cpp:kmeanspp_init"]}
{"id": "C30", "title": "The centroid distance table is symmetric and holds half distances", "statement": "After recomputation, the table's entry for clusters i and j (in either order) is half the distance between their centroids, and each cluster's stored value is the smallest half distance to any other centroid.", "quantifier": "every k >= 2, all centroids and index pairs", "why_tests_cant": "triangular index arithmetic for every k", "anchors": ["libkcommon/dist_matrix.cpp:30-120 translate, get, set, compute_dist"]}
{"id": "C31", "title": "The pruned assignment step finds a nearest centroid when its bounds are valid", "statement": "With the Euclidean metric in exact arithmetic: if every row's stored distance plus its cluster's drift is an upper bound on the distance to its assigned centroid and the centroid table is current, the triangle-inequality-pruned step assigns every row to a nearest centroid, stores a valid upper bound again and counts changes exactly.", "quantifier": "every data set, centroids, bounds satisfying the premise, k", "why_tests_cant": "real-valued geometry over all inputs", "anchors": ["libman/kmeans_task_thread.cpp:184-266 EM_step", "libauto/min-tri-kmeans.cpp EM_step"]}
{"id": "C32", "title": "The pruned step's bounds stay valid from one iteration to the next", "statement": "In exact arithmetic the centroid update after a non-initial pruned iteration records each centroid's drift so that stored distance plus drift is again an upper bound on the distance to the new centroid.", "quantifier": "every data set, k, iteration", "why_tests_cant": "invariant over unbounded iterations", "anchors": ["libman/kmeans_task_coordinator.cpp:131-170 update_clusters"]}
{"id": "C33", "title": "Pruned k-means assigns every row to a nearest centroid", "statement": "In every iteration of pruned k-means with the Euclidean metric every row is assigned to a nearest centroid, as unpruned k-means does (up to ties).", "quantifier": "every data set, initial centroids and iteration", "why_tests_cant": "needs the second iteration of specific data; tests compare only a few data sets", "anchors": ["libman/kmeans_task_coordinator.cpp:131-170 update_clusters(prune_init=true), 424-532 run", "libauto/min-tri-kmeans.cpp:322-344"]}
{"id": "C34", "title": "Pruning is sound for every selectable metric", "statement": "Pruned k-means run with any metric that can be selected (eucl, cos, taxi, sqeucl) assigns each row to a nearest centroid under that metric.", "quantifier": "every data set and metric", "why_tests_cant": "requires adversarial geometry", "anchors": ["libman/kmeans_task_thread.cpp:184-266", "libkcommon/dist_matrix.cpp:87-120", "libman/kmeans_task_coordinator.cpp:150-153"]}
{"id": "C35", "title": "Distributed pruned k-means assigns every row to a nearest centroid", "statement": "In exact arithmetic with the Euclidean metric, every iteration of the MPI pruned k-means leaves every row of every process assigned to a nearest centroid, and the replicated centroids are the means of the global assignment.", "quantifier": "every data set, number of processes, threads, iterations", "why_tests_cant": "invariant over unbounded iterations and all process counts", "anchors": ["libdist/dist_task_coordinator.cpp:250-380 run, 458-470 pp_aggregate"]}
{"id": "C36", "title": "Incremental centroid maintenance equals recomputation", "statement": "In exact arithmetic the pruned variants' incremental update (un-finalise, add per-thread membership changes, finalise) gives the same centroids and sizes as recomputing from the assignment.", "quantifier": "every sequence of assignment changes, data set, thread count", "why_tests_cant": "histories of membership changes are unbounded", "anchors": ["libman/kmeans_task_coordinator.cpp:131-170", "libman/kmeans_task_thread.cpp:240-262", "libkcommon/clusters.cpp:55-127"]}
{"id": "C37", "title": "Pruned k-means accepts every k the unpruned version accepts", "statement": "Any k >= 1 accepted by unpruned k-means is accepted by the pruned version.", "quantifier": "every k", "why_tests_cant": "the failing value k=1 is never used with pruning in tests", "anchors": ["libkcommon/dist_matrix.cpp:30-41", "libman/kmeans_task_coordinator.cpp constructor", "libman/coordinator.cpp:42"]}
{"id": "C38", "title": "Waiting for completion returns only when all workers have finished", "statement": "When the coordinator's wait returns, every worker has finished the work of the current round, in every interleaving.", "quantifier": "every number of workers and every schedule", "why_tests_cant": "schedules are exponentially many and not controllable in tests", "anchors": ["libman/coordinator.cpp:57-63,82-86 wait4complete, wake4run", "libman/thread.cpp:34-74 sleep, wait, wake"]}
{"id": "C39", "title": "Waiting for completion always returns", "statement": "In every fair schedule the coordinator's wait returns after the workers finish (no lost wake-up).", "quantifier": "every schedule", "why_tests_cant": "the bad window is a few instructions wide", "anchors": ["libman/coordinator.cpp:57-63", "libman/thread.cpp:34-47 sleep signals without holding the coordinator's mutex"]}
{"id": "C40", "title": "Every wake-up processes the worker's rows exactly once", "statement": "In every interleaving, one round of work makes each worker process each of its rows exactly once.", "quantifier": "every schedule", "why_tests_cant": "data race on the state flag; scheduler-dependent", "anchors": ["libman/thread.hpp:62-76 callback", "libman/kmeans_task_thread.cpp:104-135 wake", "libman/task_thread.cpp:63-95"]}
{"id": "C41", "title": "The byte-per-flag boolean vector behaves as an independent array of booleans", "statement": "Setting flag i makes get(i) return the value and leaves every other flag unchanged; a checked set at an index outside the vector grows the vector and never writes out of bounds.", "quantifier": "every vector size, index, operation history", "why_tests_cant": "histories and the boundary index", "anchors": ["libkcommon/thd_safe_bool_vector.cpp:28-87"]}
{"id": "C42", "title": "The integer-keyed map enumerates exactly its present keys in order", "statement": "The key iterator yields exactly the keys whose slot differs from the empty marker, each once, in increasing order; writing a key never creates other keys; membership queries never read out of bounds.", "quantifier": "every map content, key, history", "why_tests_cant": "unbounded key sets and gaps", "anchors": ["libkcommon/types.hpp:70-185 vmap, iterator"]}
{"id": "C43", "title": "Hierarchical cluster ids are unique among live clusters", "statement": "If every id is returned at most once after being handed out, the id generator never hands out an id that is still in use, in any sequence of requests and returns.", "quantifier": "every sequence of next/reclaim calls", "why_tests_cant": "histories are unbounded", "anchors": ["libman/hclust_id_generator.hpp:39-85"]}
{"id": "C44", "title": "Pruning statistics add up", "statement": "The pruning counters accumulate exactly the recorded events per iteration, totals over iterations are preserved, and finalising an iteration aborts iff the counters exceed nrow*k.", "quantifier": "every event history", "why_tests_cant": "unbounded histories", "anchors": ["libkcommon/prune_stats.cpp:26-202"]}
{"id": "C45", "title": "Compacting cluster ids renumbers densely and consistently", "statement": "Compaction after hierarchical clustering maps the used cluster ids to 0..m-1 preserving order, two rows share a new id iff they shared the old id, and sizes and centroids are attached to the new id of their cluster.", "quantifier": "every assignment vector and centroid map", "why_tests_cant": "arbitrary id sets with gaps", "anchors": ["libkcommon/hclust_compactor.hpp:30-45", "libkcommon/types.cpp:46-72 cluster_t::cluster_t"]}
{"id": "C46", "title": "Result equality means equal results", "statement": "Two clustering results compare equal only if they have the same dimensions, iteration count, assignments, sizes and centroids.", "quantifier": "every pair of results", "why_tests_cant": "all pairs, including different lengths", "anchors": ["libkcommon/types.cpp cluster_t::operator==", "libkcommon/util.hpp:58-74 v_eq, eq_all"]}
{"id": "C47", "title": "Dense matrix operations compute the textbook result", "statement": "Row/column sums and means, matrix product, transposition-free updates and element access of the dense matrix compute the mathematical result in row-major order.", "quantifier": "every shape and content", "why_tests_cant": "all shapes", "anchors": ["libkcommon/dense_matrix.hpp:40-352"]}
{"id": "C48", "title": "argmax returns the index of a largest element", "statement": "argmax over each row (or column) returns an index of a largest element of it.", "quantifier": "every matrix including non-positive ones", "why_tests_cant": "wrong only for rows without positive entries", "anchors": ["libkcommon/dense_matrix.hpp:353-387 argmax"]}
{"id": "C49", "title": "The matrix inverse is the inverse", "statement": "For every invertible matrix, the computed inverse times the matrix is the identity (exact arithmetic).", "quantifier": "every invertible matrix of every size", "why_tests_cant": "sign errors cancel on symmetric test cases", "anchors": ["libkcommon/linalg.hpp:40-141 getCofactor, determinant, adjoint, inverse"]}
{"id": "C50", "title": "Spherical projection normalises every row", "statement": "After spherical projection every non-zero row has unit Euclidean norm and unchanged direction (exact arithmetic).", "quantifier": "every matrix", "why_tests_cant": "all matrices", "anchors": ["libkcommon/util.cpp:55-67 spherical_projection"]}
{"id": "C51", "title": "Parallel random streams reproduce the serial stream", "statement": "The strided generators of p ranks interleave to exactly the serial stream, and the skip-ahead generators of the MPI processes concatenate to exactly the serial stream over the global rows.", "quantifier": "every rank count, row count, stream", "why_tests_cant": "all rank/row counts and stream contents", "anchors": ["libkcommon/util.hpp:168-234 mpi_random_generator, rand123emulator", "libdist/dist_coordinator.cpp:71-80"]}
{"id": "C52", "title": "Writing and reading matrices round-trips", "statement": "Reading a binary row-major file written by the library gives back the same matrix, row by row and at once; the text reader returns the rows in file order.", "quantifier": "every matrix shape and content", "why_tests_cant": "all shapes", "anchors": ["libkcommon/io.hpp bin_io, bin_rm_reader, text_reader", "libkcommon/io.cpp store_cluster"]}
{"id": "C53", "title": "Hierarchical assignment moves rows only inside their partition", "statement": "In every hierarchical iteration a row belonging to an active partition is assigned to the nearer of its partition's two centroids (first on ties) and to one of its two child ids; rows of inactive partitions are untouched; the child counts equal the number of rows with that id.", "quantifier": "every data set, partition tree state", "why_tests_cant": "all tree shapes", "anchors": ["libman/hclust.cpp:81-133 H_EM_step", "libman/hclust_coordinator.cpp:343-396 update_clusters"]}
{"id": "C54", "title": "Hierarchical seeding picks a member of the partition", "statement": "When a partition is split, each new seed is a row of that partition.", "quantifier": "every partition membership and random draw", "why_tests_cant": "fails only when the last row of the data set is involved", "anchors": ["libman/hclust_coordinator.cpp:115-140 forgy_select"]}
{"id": "C55", "title": "A rejected split restores the parent partition", "statement": "When X-means or G-means rejects a split, every row of both children is assigned to the parent id again, the parent's count is the sum of the children's, and the children's counts are zero; accepted splits are unchanged.", "quantifier": "every partition state and score", "why_tests_cant": "all tree states", "anchors": ["libman/xmeans_coordinator.cpp:181-248 partition_decision", "libman/gmeans_coordinator.cpp:100-180"]}
{"id": "C56", "title": "A partition mean is the mean of its rows", "statement": "The mean that X-means uses to score keeping a partition unsplit is the mean of the rows in the partition, in every round.", "quantifier": "every data set and round", "why_tests_cant": "needs several rounds with recycled ids", "anchors": ["libman/xmeans_coordinator.cpp:75-83 combine_partition_means"]}
{"id": "C57", "title": "Medoids are members and their energy never increases", "statement": "Each medoid update replaces a medoid only by a sampled member of the same cluster with strictly smaller total distance, so total energy never increases and medoids are always data rows.", "quantifier": "every data set, sample, iteration", "why_tests_cant": "all inputs and samples", "anchors": ["libman/medoid_coordinator.cpp:99-138 choose_global_medoids", "libman/medoid.cpp:85-154"]}
{"id": "C58", "title": "The medoid run stops when medoids stop changing", "statement": "The medoid run stops after the first iteration in which no medoid changed.", "quantifier": "every data set", "why_tests_cant": "depends on the whole run", "anchors": ["libman/medoid_coordinator.cpp:54,125,240 medoids_changed"]}
{"id": "C59", "title": "A fuzzy c-means point at a centre belongs most to that centre", "statement": "In fuzzy c-means, a row coinciding with exactly one centre gets its largest membership in that centre.", "quantifier": "every data set and centre set", "why_tests_cant": "exact coincidence is rare in tests", "anchors": ["libman/fcm.cpp:42-57 Estep"]}
{"id": "C60", "title": "Fuzzy c-means centres are membership-weighted means", "statement": "After an update each centre is the sum over all rows of membership times row divided by the sum of memberships, independent of the number of threads (exact arithmetic).", "quantifier": "every data set, memberships, thread count", "why_tests_cant": "all inputs and partitions", "anchors": ["libman/fcm_coordinator.cpp:97-123", "libman/fcm.cpp:58-90"]}
{"id": "C61", "title": "Scaled k-means normalises every feature to [0,1]", "statement": "Feature scaling maps every non-constant feature to [0,1] with minimum 0 and maximum 1.", "quantifier": "every data set", "why_tests_cant": "fails only for features without positive values", "anchors": ["libman/skmeans.cpp:30-60", "libman/skmeans_coordinator.cpp:60-110"]}
{"id": "C62", "title": "OpenMP k-means validates k and performs the requested iterations", "statement": "The OpenMP entry points reject k < 2 and k > nrow by exception, and otherwise perform up to max_iters iterations.", "quantifier": "every k, nrow, max_iters", "why_tests_cant": "off-by-one in the limit is visible only with small limits", "anchors": ["libauto/kmeans.cpp:296-470 compute_kmeans", "libauto/min-tri-kmeans.cpp:380-596 compute_min_kmeans"]}
{"id": "C63", "title": "Mini-batch updates use the per-cluster learning rate", "statement": "In a mini-batch iteration each sampled row moves its centroid by 1/n_c of the difference where n_c is the number of rows assigned to c so far (sampled), and unsampled rows are not used.", "quantifier": "every data set, sample, iteration", "why_tests_cant": "all samples", "anchors": ["libman/kmeans_task_coordinator.cpp:97-129,322-422", "libman/kmeans_task_thread.cpp:146-182 mb_EM_step"]}
{"id": "C64", "title": "Best-of-n kmeans++ returns the lowest-energy start", "statement": "The multi-start initialiser returns a start whose energy is minimal among all starts, the smallest such index, with the clustering of that start.", "quantifier": "every number of starts and data set", "why_tests_cant": "all random streams", "anchors": ["binding/kmeanspp.hpp:28-60 kmeansPP", "libman/kmeans_task_coordinator.cpp:280-320"]}
{"id": "C65", "title": "Gaussian-mixture responsibilities are per-row probability distributions", "statement": "After the expectation step each row's responsibilities are non-negative, sum to one, are stored at the row's global position and use each component's own mean and covariance.", "quantifier": "every data set, k, thread count", "why_tests_cant": "all inputs and partitions", "anchors": ["libman/gmm.cpp:50-110", "libman/gmm_coordinator.cpp:75-130"]}
{"id": "C66", "title": "The result of a run does not depend on how threads are scheduled", "statement": "For a fixed thread count and fixed random draws, two k-means runs return bit-for-bit the same assignments, sizes, centroids and iteration count, whatever the interleaving of the worker threads, in IEEE double arithmetic as executed.", "quantifier": "every input, thread count, initialisation and pair of schedules", "why_tests_cant": "schedules cannot be enumerated", "anchors": ["libman/kmeans_coordinator.cpp:170-250 run", "libman/kmeans_thread.cpp:81-112 EM_step"]}
{"id": "C67", "title": "A k-means run never leaves its arrays", "statement": "With k >= 1, data of nrow*ncol numbers and centres of k*ncol numbers, an unpruned k-means run never reads or writes outside an array; it either returns a result or stops at one of its own assertions.", "quantifier": "every input, thread count, initialisation, random draw and schedule", "why_tests_cant": "an out-of-bounds access need not be visible", "anchors": ["libman/kmeans_coordinator.cpp:29-250", "libman/kmeans_thread.cpp:81-133"]}
{"id": "C68", "title": "All MPI processes start from the centroids one process would start from", "statement": "Before the first iteration of the MPI k-means every process holds the same centroids: the user's centres, the drawn rows (forgy), or the means of the random partition of all rows (random), whatever the number of processes.", "quantifier": "every data set, number of processes up to nrow, initialisation and random stream", "why_tests_cant": "every split of the rows over processes", "anchors": ["libdist/dist_task_coordinator.cpp:227-296", "libdist/dist_coordinator.cpp:82-110"]}
{"id": "C69", "title": "Destroying a coordinator never leaves a worker with a destroyed condition variable", "statement": "After the destructor has destroyed the coordinator's condition variable no worker thread uses it, in any interleaving.", "quantifier": "every number of threads, history of rounds and schedule", "why_tests_cant": "a window of a few instructions at the very end of a run", "anchors": ["libman/coordinator.cpp:161-171 ~coordinator", "libman/thread.cpp:34-47 sleep", "libman/task_thread.cpp:63-122"]}
{"id": "C70", "title": "Destroying a coordinator ends every worker thread", "statement": "Once destruction has begun, in every schedule without endless spurious wake-ups all worker threads leave their loop and are joined; there is no deadlock.", "quantifier": "every number of threads, history of rounds and schedule", "why_tests_cant": "schedules cannot be enumerated", "anchors": ["libman/coordinator.cpp:88-90,161-171", "libman/thread.hpp:62-83 callback", "libman/thread.cpp:87-94 join"]}
{"id": "C71", "title": "Standardising a vector gives mean 0 and variance 1", "statement": "The scale function of the linear-algebra helpers, documented as identical to scikit-learn's scale, maps every non-constant vector to one of mean 0 and variance 1 by one increasing affine map (exact arithmetic).", "quantifier": "every vector of reals", "why_tests_cant": "inputs with fractional parts are infinitely many and the error depends on the order of the entries", "anchors": ["libkcommon/linalg.hpp:190-214 scale", "libman/gmeans_coordinator.cpp:118"]}
{"id": "C72", "title": "A hierarchical run passes its own consistency check", "statement": "On valid arguments and data with usable distances a hierarchical k-means run returns a result instead of aborting in its final consistency check.", "quantifier": "every data set, k, thread count, schedule and random draw", "why_tests_cant": "depends on how rows fall over all the splits", "anchors": ["libman/hclust_coordinator.cpp:398-421 verify_consistency, complete_final_centroids", "libman/hclust_coordinator.cpp:426-516 run"]}
{"id": "C73", "title": "A hierarchical run terminates inside its arrays", "statement": "With k >= 2, a minimum cluster size of at least 2 and at least one iteration, a hierarchical k-means run finishes within 2*floor2(k) - 2 rounds of splits without any out-of-bounds access, whatever the data; it returns or stops at an assertion.", "quantifier": "every data set, k, thread count, schedule and random draw", "why_tests_cant": "all trees of splits", "anchors": ["libman/hclust_coordinator.cpp:143-305 spawn, init_splits", "libman/hclust_coordinator.cpp:426-516 run"]}
{"id": "C74", "title": "Hierarchical clustering returns at most k clusters", "statement": "The number of clusters returned by a hierarchical run is at least 2 and at most the k asked for.", "quantifier": "every data set, k, thread count, schedule and random draw", "why_tests_cant": "all trees of splits", "anchors": ["libman/hclust_coordinator.cpp:33-62", "libman/hclust_coordinator.cpp:426-516 run", "libkcommon/util.hpp get_hclust_floor, get_max_hnodes"]}
{"id": "C75", "title": "Hierarchical clusters have unique ids, true sizes and true means", "statement": "In the result of a hierarchical run every row carries the id of exactly one returned cluster, each returned cluster's size is its number of rows and its centroid is the mean of its rows (the origin if it has none).", "quantifier": "every data set, k, thread count, schedule and random draw", "why_tests_cant": "all trees of splits", "anchors": ["libman/hclust_coordinator.cpp:343-421", "libman/hclust_coordinator.cpp:426-516 run"]}
{"id": "C76", "title": "K-medoids clusters with the metric asked for", "statement": "A k-medoids run assigns every row to the nearest medoid in the distance metric the caller requested.", "quantifier": "every data set and requested metric", "why_tests_cant": "all inputs; the default metric hides the difference", "anchors": ["libman/medoid.cpp:30-46", "libman/medoid_coordinator.cpp:30-38", "libman/medoid.cpp:80-117 EM_step"]}
{"id": "C77", "title": "The k-medoids result is consistent with its medoids", "statement": "The returned centroids are rows of the data, every row is assigned to the first nearest returned centroid, and the returned counts count the rows of each cluster.", "quantifier": "every data set, k, thread count, draw, sample, schedule and iteration limit", "why_tests_cant": "all runs", "anchors": ["libman/medoid_coordinator.cpp:197-297 run", "libman/medoid_coordinator.cpp:141-166 compute_globals"]}
{"id": "C78", "title": "K-medoids does not depend on thread scheduling", "statement": "For the same draws and samples, two k-medoids runs with different thread interleavings return identical results, bit for bit.", "quantifier": "every pair of schedules that let the workers finish", "why_tests_cant": "interleavings cannot be enumerated", "anchors": ["libman/medoid.cpp:80-155", "libman/medoid_coordinator.cpp:102-166"]}
{"id": "C79", "title": "K-medoids rejects what it does not support", "statement": "Every initialisation other than Forgy, supplied medoids included, and reorganised NUMA data are rejected by an exception.", "quantifier": "every input", "why_tests_cant": "all inputs", "anchors": ["libman/medoid_coordinator.cpp:182-210 run_init, run"]}
{"id": "C80", "title": "Fuzzy c-means does not depend on thread scheduling", "statement": "On valid input a fuzzy c-means run completes without any out-of-bounds access, and two runs with the same start return identical results whatever the interleavings of the workers and the order in which the membership rows are summed.", "quantifier": "every data set, k, thread count, fuzzifier and pair of schedules", "why_tests_cant": "interleavings cannot be enumerated", "anchors": ["libman/fcm.cpp:42-80 Estep, Mstep", "libman/fcm_coordinator.cpp:110-230"]}
{"id": "C81", "title": "The fuzzy c-means assignment is the largest membership", "statement": "Each row is assigned to the first cluster of largest weight (cluster 0 if no weight of it exceeds the smallest positive normal double), and the counts count the assigned rows.", "quantifier": "every run", "why_tests_cant": "all data sets and numbers of iterations", "anchors": ["libman/fcm_coordinator.cpp:150-230 run", "libkcommon/dense_matrix.hpp argmax"]}
{"id": "C82", "title": "Fuzzy c-means stops exactly when its centres stop moving", "statement": "The run ends after the first iteration that moves the centres by less than the tolerance in Frobenius norm and otherwise after exactly the maximum number of iterations.", "quantifier": "every run and tolerance", "why_tests_cant": "all trajectories", "anchors": ["libman/fcm_coordinator.cpp:150-230 run"]}
{"id": "C83", "title": "Fuzzy c-means starts from the centres asked for", "statement": "The start centres are the supplied ones, the drawn rows for Forgy, or the origin when none is given; k-means++ and random-partition initialisation are rejected by an exception.", "quantifier": "every input", "why_tests_cant": "all inputs", "anchors": ["libman/fcm_coordinator.cpp:81-150 forgy_init, run_init"]}
{"id": "C84", "title": "Fuzzy memberships form a probability distribution", "statement": "In every iteration the membership degrees of a row are positive and sum to one, and the stored weight is the degree raised to the fuzzifier.", "quantifier": "every run in exact arithmetic", "why_tests_cant": "all real data", "anchors": ["libman/fcm.cpp:42-66 Estep", "libman/fcm_coordinator.cpp:150-230 run"]}
{"id": "C85", "title": "Fuzzy c-means never increases its objective", "statement": "With squared Euclidean distance, an iteration that starts with no row exactly at a centre never increases the fuzzy objective (sum of weights times squared distances).", "quantifier": "every run in exact arithmetic", "why_tests_cant": "all real data, a descent argument", "anchors": ["libman/fcm.cpp:42-80", "libman/fcm_coordinator.cpp:110-230"]}
{"id": "C86", "title": "X-means terminates and stays within its arrays", "statement": "With valid arguments an X-means run ends after finitely many rounds without throwing and without any access outside its arrays, for every way the split decisions fall.", "quantifier": "every data set, k, thread count, schedule and order of decisions", "why_tests_cant": "depends on the whole tree of accepted and rejected splits and on recycled ids", "anchors": ["libman/xmeans_coordinator.cpp:259-369 run", "libman/hclust_coordinator.cpp:196-305"]}
{"id": "C87", "title": "The X-means consistency check passes", "statement": "An X-means run on valid input with usable distances passes its final consistency check and returns.", "quantifier": "every data set", "why_tests_cant": "depends on the data", "anchors": ["libman/hclust_coordinator.cpp:398-407 verify_consistency", "libman/xmeans_coordinator.cpp:350-360"]}
{"id": "C88", "title": "X-means clusters, ids and sizes agree", "statement": "Every row is assigned to one of the returned clusters, the ids are distinct, every reported size is the number of rows assigned, and the number of clusters is between 1 and (3*floor2(k)+3)/2.", "quantifier": "every run", "why_tests_cant": "all trees", "anchors": ["libman/xmeans_coordinator.cpp:185-369"]}
{"id": "C89", "title": "X-means centroids are the means of their clusters", "statement": "Each centroid X-means returns is the mean of the rows assigned to it.", "quantifier": "every run in exact arithmetic", "why_tests_cant": "fails only after an id has been recycled", "anchors": ["libman/xmeans_coordinator.cpp:75-83 combine_partition_means", "libman/xmeans_coordinator.cpp:199-240 partition_decision"]}
{"id": "C90", "title": "X-means decides on the rows of the partition", "statement": "The two scores compared for a partition are computed from exactly the rows of the partition: the parent's from the distances to its mean, the children's from the distance to the nearer child, and each row carries the id of the nearer child.", "quantifier": "every round of every run in exact arithmetic", "why_tests_cant": "all data and rounds", "anchors": ["libman/xmeans_coordinator.cpp:93-182 bic, compute_bic_scores", "libman/xmeans.cpp:77-138 H_EM_step"]}
{"id": "C91", "title": "X-means scores children with the Bayesian information criterion", "statement": "The score of a split is the sum over the two children of the BIC term of a cluster with its own number of rows.", "quantifier": "every partition", "why_tests_cant": "the formula holds for no finite sample of partitions in particular", "anchors": ["libman/xmeans_coordinator.cpp:129-146 bic"]}
{"id": "C92", "title": "Scaled k-means is k-means on one scaled matrix", "statement": "For every input there is one scaled matrix, the same for every interleaving of the worker threads, such that the scaled run returns exactly what k-means returns on that matrix and leaves the matrix in the caller's buffer; the scaling never fails.", "quantifier": "every data set, thread count, schedule, initialisation", "why_tests_cant": "all interleavings of two parallel phases", "anchors": ["libman/skmeans.cpp:40-63", "libman/skmeans_coordinator.cpp:64-100,191-270"]}
{"id": "C93", "title": "The OpenMP entry point computes the library's k-means", "statement": "On valid arguments the OpenMP k-means returns the assignments, counts, centroids and convergence flag that the thread-pool k-means returns when given the same data, metric, initialisation, random draws and one iteration fewer; it fails only where that run fails, and never accesses memory out of bounds or throws.", "quantifier": "every dataset, k, metric, initialisation, distribution of rows over OpenMP threads, schedule and reduction order (exact reals); for binary64, every case with the same row partition", "why_tests_cant": "two separate implementations with different row distributions and reduction orders; agreement must hold for all of them", "anchors": ["libauto/kmeans.cpp:57-482 compute_kmeans", "libman/kmeans_coordinator.cpp:170-250 run"]}
{"id": "C94", "title": "Mini-batch centroids stay inside the range of the data", "statement": "In every iteration each coordinate of each centroid lies between the smallest and the largest value that coordinate takes over the rows and the initial centroids, and a run in which no point of that box is at an overflowing distance from a row always completes.", "quantifier": "every data set, initialiser, batch size, sample, iteration, schedule", "why_tests_cant": "all samples and iterations", "anchors": ["libman/kmeans_task_coordinator.cpp:97-129,322-422", "libman/kmeans_task_thread.cpp:146-182", "libkcommon/clusters.cpp scale_centroid"]}
{"id": "C95", "title": "Mini-batch ends with every row assigned to its nearest returned centroid", "statement": "The assignments returned by a mini-batch run map every row, sampled or not, to a cluster whose returned centroid is nearest, and the returned counts are the cluster sizes and sum to the number of rows.", "quantifier": "every data set, initialiser, batch size, sample, schedule", "why_tests_cant": "all inputs and samples", "anchors": ["libman/kmeans_task_coordinator.cpp:392-422"]}
{"id": "C96", "title": "Mini-batch stops on the change of the centroid matrix and reports its iterations", "statement": "A mini-batch run stops after the first iteration in which the Euclidean length of the change of the centroid matrix is below the tolerance, or after the maximum number of iterations, and reports the number of iterations it performed.", "quantifier": "every data set, tolerance, maximum and sample", "why_tests_cant": "all histories", "anchors": ["libman/kmeans_task_coordinator.cpp:354-392"]}
{"id": "C97", "title": "Mini-batch samples the requested fraction of rows", "statement": "A run with batch size b on n rows draws each row with probability b/n in each iteration, whatever the number of threads.", "quantifier": "every batch size, number of rows and threads", "why_tests_cant": "all configurations", "anchors": ["libman/kmeans_task_coordinator.cpp:327-338"]}
{"id": "C98", "title": "A Gaussian-mixture run returns a model", "statement": "On valid arguments (any number of rows, columns, components and threads, any initialisation) the mixture driver returns a fitted model instead of ending the process or leaving its arrays.", "quantifier": "every valid argument tuple and build", "why_tests_cant": "holds for no finite set of argument sizes in particular", "anchors": ["libman/gmm_coordinator.cpp:236-327 soft_run", "libman/gmm.cpp:64-103 Estep", "libman/gmm.cpp:105-124 run"]}
{"id": "C99", "title": "A Gaussian-mixture run iterates until stable", "statement": "The mixture driver repeats its two steps until the model is stable or the maximum number of iterations is reached, and reports the number performed.", "quantifier": "every data set, tolerance and maximum", "why_tests_cant": "all histories", "anchors": ["libman/gmm_coordinator.cpp:268-296", "libman/coordinator.cpp:39 num_changed"]}
{"id": "C100", "title": "The mixture model reported is complete", "statement": "The returned model holds every mean, covariance, weight and every responsibility the driver computed.", "quantifier": "every nrow, ncol and k", "why_tests_cant": "all sizes", "anchors": ["libkcommon/types.cpp:178-198 gmm_t"]}
{"id": "C101", "title": "A G-means run returns a consistent clustering", "statement": "In a G-means run that returns, every row is assigned to one of the returned clusters, the returned ids are distinct, every reported size is the number of rows assigned, and every centroid has as many components as a row.", "quantifier": "every run that returns: data, initialiser, strictness, schedule, number of rounds", "why_tests_cant": "all trees of kept and undone splits", "anchors": ["libman/gmeans_coordinator.cpp:199-300 run", "libman/gmeans_coordinator.cpp:108-178 partition_decision"]}
{"id": "C102", "title": "A G-means run returns", "statement": "On valid arguments a G-means run ends and returns a clustering; it does not abort the process or access memory out of bounds.", "quantifier": "every data set, k, strictness, minimum cluster size, schedule", "why_tests_cant": "all data sets, including repeated rows", "anchors": ["libman/gmeans_coordinator.cpp:108-178 partition_decision", "libkcommon/linalg.hpp:196-214 scale", "libkcommon/AndersonDarling.hpp:36-42"]}
{"id": "C103", "title": "G-means undoes splits of normal groups at the critical value of their size", "statement": "A split of n rows is undone exactly when the Anderson-Darling statistic of its projected rows is at most the critical value for a sample of n values at the chosen strictness, in every round.", "quantifier": "every data set, strictness and round (exact arithmetic)", "why_tests_cant": "the statement is about all samples", "anchors": ["libkcommon/AndersonDarling.hpp:36-74", "libman/gmeans_coordinator.cpp:116-119 compute_critical_values(ad_vecs.size())"]}
{"id": "C104", "title": "kmeans++ seeding does not depend on threads or processes", "statement": "In exact arithmetic the rows that kmeans++ chooses are a function of the data, the metric, the first row and the random draws: any number of threads in any interleaving chooses them, and any number of MPI processes starts from the same centroids as a single process.", "quantifier": "every data set, metric with well-defined distances, number of threads and processes, interleaving, random stream", "why_tests_cant": "ranges over all splits of the rows and all interleavings", "anchors": ["libman/kmeans_task_coordinator.cpp kmeanspp_init", "libman/kmeans_coordinator.cpp kmeanspp_init", "libdist/dist_task_coordinator.cpp kmeanspp_init", "libdist/dist_coordinator.cpp kmeanspp_init"]}
{"id": "C105", "title": "MPI k-means without pruning is Lloyd\u2019s algorithm", "statement": "An unpruned MPI run starts every process from the same centroids (the given ones, the drawn rows, the means of the drawn partition or the kmeans++ rows); every turn assigns every row of every process to the nearest centroid, the lowest index on ties; afterwards every process holds the same centroids and sizes, the means and numbers of the rows assigned anywhere; the run stops at the first turn that moves few enough rows or at the maximum, and the root returns the assignment of all rows in order, the sizes, the centroids and the number of turns. It never accesses memory out of bounds.", "quantifier": "every data set, metric, initialisation, random stream, number of processes up to the number of rows, number of threads, thread interleaving on every process (exact arithmetic)", "why_tests_cant": "ranges over all splits of the rows, interleavings and histories", "anchors": ["libdist/dist_coordinator.cpp run", "libdist/dist_coordinator.cpp pp_aggregate"]}
{"id": "C106", "title": "An MPI run returns what a single process returns", "statement": "For the same data, parameters, starting centroids and random draws, an unpruned MPI run with any number of processes and threads and a single-process run with any number of threads return the same assignment, sizes and centroids and agree on convergence; they report the same number of iterations when they converge, and one of them fails exactly when the other does.", "quantifier": "every data set, metric, initialisation, random stream, number of processes and threads on either side, interleavings (exact arithmetic)", "why_tests_cant": "relates two families of executions", "anchors": ["libdist/dist_coordinator.cpp run", "libman/kmeans_coordinator.cpp run"]}
{"id": "C107", "title": "A pruned run stops at the first pass that moves few enough rows", "statement": "A pruned single-process run makes a first pass over all rows, then passes until one moves no row or a fraction of the rows within the tolerance, and at most the maximum number of passes in total; it reports convergence exactly in the former case, and then the number of passes it made.", "quantifier": "every data set, metric, initialisation, tolerance, maximum, number of threads, interleaving (exact arithmetic)", "why_tests_cant": "all histories", "anchors": ["libman/kmeans_task_coordinator.cpp run", "libman/kmeans_task_coordinator.cpp update_clusters"]}
{"id": "C108", "title": "Pruning does not change the result of an MPI run", "statement": "With the Euclidean metric, if in the unpruned MPI run no row is ever equally near to two centroids when it is assigned, then the pruned MPI run on the same data, parameters and draws succeeds and returns the same assignment, sizes, centroids and number of iterations, with any number of processes and threads on either side.", "quantifier": "every data set, initialisation, random stream, tolerance, maximum, numbers of processes and threads, interleavings (exact arithmetic)", "why_tests_cant": "relates two families of executions over all histories", "anchors": ["libdist/dist_task_coordinator.cpp run", "libdist/dist_coordinator.cpp run"]}
{"id": "C109", "title": "Pruning does not change the result of a single-process run", "statement": "With the Euclidean metric, if in the unpruned run no row is ever equally near to two centroids when it is assigned, then the pruned run on the same data, parameters and draws succeeds and returns the same assignment, sizes, centroids and number of iterations, with any number of threads on either side.", "quantifier": "every data set, initialisation, random stream, tolerance, maximum, number of threads, interleavings (exact arithmetic)", "why_tests_cant": "relates two families of executions over all histories", "anchors": ["libman/kmeans_task_coordinator.cpp run", "libman/kmeans_coordinator.cpp run"]}
{"id": "C110", "title": "A pruned OpenMP run returns the sizes and means of its assignment", "statement": "A valid call of the pruned OpenMP entry point returns; every row has a cluster, each reported size is the number of rows of the cluster and each centroid their mean (zero if none). With a limit M it makes at least one pass and at most max(1, M-1); on convergence it reports the passes made, otherwise max(2, M).", "quantifier": "every data set, metric, initialisation, random stream, distribution of the rows over OpenMP threads, schedule and reduction order (exact arithmetic)", "why_tests_cant": "ranges over all distributions, schedules and histories", "anchors": ["libauto/kmeans.cpp compute_min_kmeans", "libauto/kmeans.cpp EM_step (pruned)"]}
{"id": "C111", "title": "Pruning does not change the result of an OpenMP run", "statement": "With the Euclidean metric, if in the unpruned OpenMP run no row is ever equally near to two centroids when it is assigned, then the pruned entry point on the same data, parameters and draws succeeds and returns the same assignment, sizes, centroids, convergence and number of iterations, with any distribution of the rows on either side.", "quantifier": "every data set, initialisation, random stream, tolerance, maximum, distributions, schedules, reduction orders (exact arithmetic)", "why_tests_cant": "relates two families of executions over all histories", "anchors": ["libauto/kmeans.cpp compute_min_kmeans", "libauto/kmeans.cpp compute_kmeans"]}
{"id": "C112", "title": "Pruned, mini-batch and multi-start runs do not depend on thread scheduling", "statement": "For a fixed number of threads and fixed random draws, two pruned runs, two mini-batch runs or two multi-start kmeans++ runs return bit-for-bit the same result, and one succeeds exactly when the other does, whatever the interleaving of the worker threads in the seeding rounds and in the passes, in IEEE double arithmetic as executed.", "quantifier": "every input, metric, thread count, initialisation, limits and pair of interleavings", "why_tests_cant": "schedules cannot be enumerated", "anchors": ["libman/kmeans_task_coordinator.cpp run", "libman/kmeans_task_thread.cpp EM_step", "libman/kmeans_task_coordinator.cpp:mb_run, mb_iteration_end", "libauto/kmeans.cpp kmeansPP"]}
{"id": "C113", "title": "OpenMP runs do not depend on thread interleaving", "statement": "For a fixed distribution of the rows over the OpenMP threads, fixed random draws and a fixed order of the reductions, both OpenMP entry points return bit-for-bit the same result, and one call succeeds exactly when the other does, whatever the interleaving of the threads.", "quantifier": "every input, metric, initialisation, distribution of the rows and pair of interleavings", "why_tests_cant": "schedules cannot be enumerated", "anchors": ["libauto/kmeans.cpp compute_kmeans", "libauto/kmeans.cpp compute_min_kmeans"]}
{"id": "C114", "title": "MPI runs do not depend on thread interleaving", "statement": "For a fixed number of processes and threads and fixed random draws, the unpruned and the pruned MPI runs return bit-for-bit the same result, and one succeeds exactly when the other does, whatever the interleaving of the worker threads of every process in every round.", "quantifier": "every input, metric, initialisation, number of processes and threads, and pair of interleavings", "why_tests_cant": "schedules cannot be enumerated", "anchors": ["libdist/dist_coordinator.cpp", "libdist/dist_task_coordinator.cpp"]}
{"id": "C115", "title": "Hierarchical, X-means and G-means runs do not depend on thread interleaving", "statement": "For a fixed number of threads, fixed random draws and a fixed visiting order of the hash maps, two hierarchical, two X-means or two G-means runs return bit-for-bit the same result, and one succeeds exactly when the other does, whatever the interleaving of the worker threads in every parallel phase of every round.", "quantifier": "every input, metric, initialisation, thread count, strictness and pair of interleavings", "why_tests_cant": "schedules cannot be enumerated", "anchors": ["libman/hclust_coordinator.cpp run", "libman/xmeans_coordinator.cpp run", "libman/gmeans_coordinator.cpp run"]}
{"id": "C116", "title": "The result file contains the result", "statement": "The file written for a clustering result (cluster_t.yml) can be read back as YAML and then gives exactly the number of clusters, iterations, rows and columns, the cluster sizes, the assignment of every row and every centroid of the result; writing a result returned by any of the entry points never fails.", "quantifier": "every result returned by every entry point: any number of clusters, rows, columns, any sizes, assignment and centroid values", "why_tests_cant": "A test reads back a few files; the claim covers every shape (no rows, no columns, one cluster) and every double, of which no finite set of files is representative.", "anchors": ["libkcommon/types.cpp:cluster_t::write"]}
{"id": "C117", "title": "A truncated result file is never taken for a complete one", "statement": "If the process stops while it writes the result file, at any character, the part already written is not a complete result file: a reader rejects it instead of returning a result with missing rows, clusters or centroids.", "quantifier": "every result and every crash point during the write", "why_tests_cant": "The crash point ranges over every prefix of every file.", "anchors": ["libkcommon/types.cpp:cluster_t::write"]}
{"id": "C118", "title": "knori, from its files to its result file", "statement": "Given a data file of exactly nsamples x dim doubles, a known metric, and either a named initialisation or a centroid file with (at least) k x dim doubles, the knori program with -o ends normally and its result file describes a partition of the rows of the data file: it names the right k, nsamples and dim, gives every row exactly one cluster in 0..k-1, gives each cluster's number of rows, and prints for each cluster the mean of its rows (zeros for an empty one).  With pruning this needs the initial centroids to be within the largest double of every row; without pruning the only other outcome is the abort of the assertion on overflowing distances.  This holds for threads and OpenMP, pruned or not.", "quantifier": "every command line, data file, centroid file, draw of the initialiser, number of threads, distribution of rows over OpenMP threads and interleaving, in exact arithmetic", "why_tests_cant": "It composes reading, initialisation, every iteration of every engine and the writing of the file; a test fixes one file, one schedule and one seed.", "anchors": ["exec/knori.cpp:main", "libkcommon/io.hpp:bin_io::read", "libkcommon/types.cpp:cluster_t::write", "libauto/kmeans.cpp:compute_kmeans", "libauto/min-tri-kmeans.cpp:compute_min_kmeans", "libman/kmeans_coordinator.cpp:kmeans_coordinator::run", "libman/kmeans_task_coordinator.cpp:kmeans_task_coordinator::run"]}
{"id": "C119", "title": "Files that do not match the command are refused", "statement": "knori never produces a result when the data file does not hold exactly nsamples x dim doubles, when the centroid file does not hold exactly k x dim doubles, when either file is missing, when 'none' is asked without a centroid file, or when the initialisation or metric is unknown: it stops with an error instead.", "quantifier": "every command line and every content of the files", "why_tests_cant": "Acceptance of a wrong file depends on 64-bit wrap-around of sizes no test allocates and on every possible file length.", "anchors": ["exec/knori.cpp:main", "libkcommon/util.cpp:filesize", "libkcommon/io.hpp:bin_io::read", "libkcommon/util.cpp:get_init_type", "libkcommon/util.cpp:get_dist_type"]}
{"id": "C120", "title": "What hierarchical clustering, X-means and G-means return", "statement": "When hierarchical clustering, X-means or G-means returns (build with the consistency check), its result numbers the clusters 0..k-1 without gaps, whatever internal ids were allocated and freed and in whatever order the centroid table is visited: every row has exactly one cluster below k, no cluster is empty, the size array has exactly k entries equal to the numbers of rows, the centroid array has k rows, rows are together iff they were together in the last iteration, and (hierarchical clustering, exact arithmetic) centroid j is the mean of the rows assigned to j.", "quantifier": "every data set, initialisation, draw, thread count, interleaving, and order of the hash table", "why_tests_cant": "The ids depend on the history of splits and deactivations and the result on the unspecified iteration order of a hash table.", "anchors": ["libman/hclust_coordinator.cpp:hclust_coordinator::run", "libman/xmeans_coordinator.cpp:xmeans_coordinator::run", "libman/gmeans_coordinator.cpp:gmeans_coordinator::run", "libkcommon/types.cpp:cluster_t::cluster_t", "libkcommon/hclust_compactor.hpp:compactor::remap"]}
{"id": "C121", "title": "knord, from its files to its result file, on any number of processes", "statement": "Given a data file of exactly nsamples x dim doubles, a known metric, and a named initialisation (or 'none' with a centroid file of at least k x dim doubles), the MPI program knord with -o ends normally and the file its root writes describes a partition of the rows of the data file: the right k, nsamples and dim, one cluster in 0..k-1 for every row, each cluster's number of rows, and each cluster's mean (zeros for an empty one).  With pruning this needs k at least 2 and the initial centroids within the largest double of every row; without pruning the only other outcome is the abort of the assertion on overflowing distances.  A missing or wrongly sized data file (size below 2^64), a missing or short centroid file, or 'none' without one never give a result.", "quantifier": "every command line, data file, centroid file, draw of the initialiser, number of processes up to the number of rows, number of threads, and interleaving, in exact arithmetic", "why_tests_cant": "It composes reading, distribution over processes, reductions, every iteration, gathering and writing; a test fixes one file, one process count, one schedule and one seed.", "anchors": ["exec/knord.cpp:main", "libdist/dist_coordinator.cpp:run", "libdist/dist_task_coordinator.cpp:run", "libkcommon/types.cpp:cluster_t::write"]}
{"id": "C122", "title": "Equality of cluster sets", "statement": "Comparing two cluster sets never fails and answers yes exactly when they have the same dimension, the same number of clusters, the same member counts and coordinate-wise equal centroids.", "quantifier": "every pair of cluster sets, of any dimensions", "why_tests_cant": "all pairs, including different shapes and NaN or signed-zero coordinates", "anchors": ["libkcommon/clusters.cpp clusters::operator==", "libkcommon/util.hpp v_eq"]}
{"id": "C123", "title": "The other command line programs write what the library computes", "statement": "Run on a data file of exactly nsamples x dim numbers, with a known metric, and with either a centroid file or an initialisation the library accepts, each of the programs hmeans, xmeans, gmeans, skmeans, fcm, mb_knori, kmeanspp, medoids and gmm ends normally or stops on a failed assertion, and with -o writes a result file that, read back, is the library's clustering of the numbers in the data file: hmeans, xmeans, gmeans a partition into non-empty clusters with the right sizes (hmeans: and the means), skmeans k clusters of the rescaled rows with their sizes and means, fcm the clusters of largest membership, mb_knori, kmeanspp and medoids the clusters of a nearest written centroid.", "quantifier": "all file contents, options, random draws, schedules and ways of printing numbers", "why_tests_cant": "The file contents, options and schedules are unbounded; the programs are only ever run by hand on one sample file.", "anchors": ["exec/hmeans.cpp:main", "exec/xmeans.cpp:main", "exec/gmeans.cpp:main", "exec/skmeans.cpp:main", "exec/fcm.cpp:main", "exec/mb_knori.cpp:main", "exec/kmeanspp.cpp:main", "exec/medoids.cpp:main", "exec/gmm.cpp:main"]}
{"id": "C124", "title": "The other command line programs refuse bad files and options", "statement": "hmeans, xmeans, gmeans, skmeans, fcm, mb_knori, kmeanspp, medoids and gmm stop with an error, writing nothing, if the data file is missing or does not hold nsamples x dim numbers (whose byte count fits in 64 bits), if the centroid file is missing, if the initialisation is 'none' without a centroid file, or if the initialisation or the metric is unknown; those that read the centroid file also if it is too short.", "quantifier": "all file contents and options", "why_tests_cant": "Unboundedly many wrong sizes and names.", "anchors": ["exec/hmeans.cpp:main", "exec/skmeans.cpp:main", "exec/fcm.cpp:main", "exec/mb_knori.cpp:main", "exec/kmeanspp.cpp:main", "exec/medoids.cpp:main", "exec/gmm.cpp:main"]}
{"id": "C125", "title": "Hierarchical clustering and X-means do not depend on the number of threads", "statement": "In exact arithmetic, if a hierarchical clustering or X-means run returns, then a run on the same data, start and random draws with any other number of threads, any other way of loading the data and any other schedule returns the same clusters, sizes and centres. With the cosine distance every such pair of runs does return.", "quantifier": "all inputs, starts, random draws, thread counts, loading paths and fair schedules; real arithmetic", "why_tests_cant": "The number of threads and the schedules cannot be enumerated, and floating-point runs on one machine only sample them.", "anchors": ["libman/hclust_coordinator.cpp:343-516 update_clusters, run", "libman/hclust.cpp:81-133 H_EM_step", "libman/xmeans_coordinator.cpp:run, partition_decision"]}
{"id": "C126", "title": "What a mixture run starts from and reports", "statement": "A Gaussian-mixture run started with forgy or random reports as means exactly the drawn data rows, in the order of the draws, and a run with given means reports those; with random the mixing weights, the rows of every covariance matrix and (before any iteration) the responsibilities are the uniform draws divided by their row sums, so the weights sum to one. Forgy and given means should also start from usable weights and covariances.", "quantifier": "all inputs, draws, iteration limits and processing orders", "why_tests_cant": "All draws and all data sets; a test sees one seed and cannot tell which draw went to which component.", "anchors": ["libman/gmm_coordinator.cpp:40-59,153-201 forgy_init, random_prob_fill", "libkcommon/types.cpp:178-198 gmm_t"]}
{"id": "C127", "title": "The Anderson-Darling test G-means uses is the textbook one", "statement": "In exact arithmetic the statistic G-means computes for a sample is the textbook Anderson-Darling statistic of the sample standardised with its mean and its n-1 standard deviation, whatever order the values arrive in; shifting the sample or scaling it by a positive number changes nothing; the statistic is never reported negative; the five critical values are 0.576, 0.656, 0.787, 0.918 and 1.092 divided by 1 + 4/n - 25/n^2, and from four values on they are positive and increasing. The sort it starts from returns the same numbers in increasing order, for floating-point numbers too.", "quantifier": "every sample of at least one value, every distribution function in the place of the normal one, every positive scale and every shift", "why_tests_cant": "An algebraic identity about every sample of every size, plus invariances under every permutation and affine map; a test compares a few samples up to a tolerance.", "anchors": ["libkcommon/AndersonDarling.hpp:AndersonDarling::compute_statistic", "libkcommon/AndersonDarling.hpp:AndersonDarling::compute_critical_values"]}
{"id": "C128", "title": "The pairwise distance matrix", "statement": "The matrix of pairwise distances of k >= 2 rows holds, for every two different rows and in either order of the indices, exactly the Euclidean, cosine or Manhattan distance of those rows; on the diagonal one reader answers 0 and the other the largest double; squared Euclidean is refused; storing a value for a pair changes that pair only; the smallest entry of a row is one of its entries and none is smaller.", "quantifier": "every number of rows of at least two, every data, dimension, metric and pair of indices", "why_tests_cant": "The triangular index translation must be right for every size and pair; a test checks a few sizes.", "anchors": ["libkcommon/dist_matrix.cpp:dist_matrix::compute_pairwise_dist", "libkcommon/dist_matrix.cpp:dist_matrix::get", "libkcommon/dist_matrix.cpp:dist_matrix::set", "libkcommon/dist_matrix.cpp:dist_matrix::translate", "libkcommon/dist_matrix.cpp:dist_matrix::get_min_dist", "libkcommon/dist_matrix.hpp:dist_matrix::pw_get"]}
{"id": "C129", "title": "A run that may make no iterations returns its start", "statement": "With an iteration limit of 0, k-means with or without pruning returns normally, reports 0 iterations and describes the start: the given centroids (no row assigned); with forgy exactly the drawn rows in the order of the draws (no row assigned); with a random partition the drawn assignment; with kmeans++ (exact arithmetic) k data rows with every row assigned to a nearest of them. The sizes it reports are the numbers of rows assigned.", "quantifier": "every data, shape, number of clusters, number of threads, centroid array, random draws and schedule of the initialiser", "why_tests_cant": "It is a boundary of the main loop combined with every initialiser; the member sizes are filled by different code than in a normal run, and a test at max_iters 0 sees one start.", "anchors": ["libman/kmeans_coordinator.cpp:kmeans_coordinator::run", "libman/kmeans_task_coordinator.cpp:kmeans_task_coordinator::run", "libman/kmeans_task_coordinator.cpp:kmeans_task_coordinator::tally_assignment_counts"]}
{"id": "C130", "title": "Fuzzy c-means and k-medoids do not depend on the number of threads", "statement": "In exact arithmetic, a fuzzy c-means run gives one and the same result (centres, memberships, assignments, iteration count) for every number of threads, every way of loading the data and every scheduling of the worker threads; and a k-medoids run that succeeds with one number of threads, one loading path and one scheduling gives the same result, with the same intermediate states, with every other.", "quantifier": "every matrix, k, start (given centres or Forgy draws), sampling outcome, nthreads in [1, 2^32), loading path the algorithm accepts, and worker schedules", "why_tests_cant": "Tests compare a few thread counts on one file; the candidates, energies and sums are merged from per-thread pieces whose boundaries move with the thread count.", "anchors": ["libman/fcm_coordinator.cpp:run", "libman/fcm.cpp:M_step", "libman/medoid_coordinator.cpp:choose_global_medoids", "libman/medoid_coordinator.cpp:compute_globals", "libman/medoid.cpp:medoid_step"]}
{"id": "C131", "title": "Pruned and mini-batch k-means do not depend on the number of threads", "statement": "In exact arithmetic, a pruned k-means run that succeeds with one number of threads, one loading path and one scheduling of the workers gives the same result (centroids, assignments, sizes, iteration count, converged flag) with every other, for every distance function, including the inputs on which pruning itself is unsound. The same holds of mini-batch k-means when the draws are the same and the batch is at least as large as the number of threads; a smaller batch is replaced by one row, so that the sampled fraction then depends on the number of threads.", "quantifier": "every matrix, k >= 2, metric, initialisation and its draws, tolerance, iteration limit, batch size, sampling draws, nthreads in [1, 2^32), loading path and fair worker schedules", "why_tests_cant": "Tests compare one or two thread counts on one file; the bounds, drifts and incremental sums carried from round to round are merged from per-thread deltas whose boundaries move with the thread count.", "anchors": ["libman/kmeans_task_coordinator.cpp:run", "libman/kmeans_task_coordinator.cpp:mb_run", "libman/kmeans_task_thread.cpp:EM_step", "libman/kmeans_task_thread.cpp:mb_EM_step", "libman/kmeans_task_coordinator.cpp:update_clusters"]}
{"id": "C132", "title": "G-means does not depend on the number of threads", "statement": "In exact arithmetic, two G-means runs on the same matrix with the same parameters, start and draws that both return give the same result - every row's cluster, the clusters' ids, sizes and centroids - whatever number of threads, loading path and worker scheduling each of them used, and whatever number of rounds each was allowed. If one of them returns and none of its nodes is ever numbered at or above the number of clusters the run's containers start with, the other returns too.", "quantifier": "every matrix, k, minimum cluster size, strictness, start (given centres or Forgy draws), logarithm, normal distribution function and conversion to int used by the normality test, pair of thread counts, loading paths, workers' schedules and binding choices for which both runs return", "why_tests_cant": "a test compares particular thread counts on particular data; the partial sums of the workers are added up in every round, once per group and once over all nodes of the tree, and each keep-or-undo decision depends on all of them", "anchors": ["libman/gmeans_coordinator.cpp:gmeans_coordinator::run", "libman/gmeans.cpp:gmeans::H_split_step", "libman/xmeans_coordinator.cpp:xmeans_coordinator::combine_partition_means", "libman/xmeans.cpp:xmeans::partition_mean"]}
{"id": "C133", "title": "Scaled k-means does not depend on the number of threads", "statement": "In exact arithmetic, a scaled k-means run that succeeds with one number of threads, one loading path and one scheduling of the workers succeeds with every other, with the same per-feature bounds, the same scaled matrix left in the buffer, and the same centroids, assignments, sizes, iteration count and converged flag. It does succeed whenever no feature is constant and the given centres, if any, are within the double range.", "quantifier": "every matrix, distance function, k, start (given centres, Forgy, random partition, kmeans++), thread counts, loading paths, schedules of the bounds, scaling, seeding and main rounds", "why_tests_cant": "a test compares particular thread counts on particular data; the bounds are folded first per worker and then over the workers, the scaling is done in place by whichever worker owns the row, and the per-worker sums of the main loop are merged in worker order", "anchors": ["libman/skmeans_coordinator.cpp:skmeans_coordinator::bounds_reduction", "libman/skmeans_coordinator.cpp:skmeans_coordinator::run", "libman/skmeans.cpp:skmeans::feature_bounds_reduction", "libman/skmeans.cpp:skmeans::feature_normalize"]}
{"id": "C134", "title": "Multi-start k-means++ does not depend on the number of threads", "statement": "In exact arithmetic, kmeansPP called on the same rows with the same first rows and real draws for each start has one outcome - the winning start, its energy, its clustering and the energies of all starts, or the same failure - whatever the number of threads, the loading path and the scheduling of the workers; and when all distances are below the largest double it returns.", "quantifier": "every matrix, k >= 2, number of starts, metric, pair of thread counts in [1, 2^32), loading paths, draws, and fair worker schedules", "why_tests_cant": "The energies that select the winner come from per-thread partial sums merged over every round of every start; a tie broken differently by one thread count would change the answer on inputs no test contains.", "anchors": ["binding/kmeanspp.hpp:kmeansPP", "libman/kmeans_task_coordinator.cpp:reinit", "libman/kmeans_task_coordinator.cpp:kmeanspp_init", "libman/kmeans_task_coordinator.cpp:compute_cluster_energy", "libman/kmeans_task_thread.cpp:kmspp_dist"]}
{"id": "C135", "title": "The model-selection score", "statement": "The BIC score of a clustering is twice the sum of the rows' distances plus ln(nrow) * ncol * k, whatever the number of OpenMP threads, the way the rows are shared among them, the order each runs its share in and the order the partial sums are combined in; with the same k the smaller total distance has the smaller score, and with the same total distance the smaller k has it.", "quantifier": "every vector of fewer than 2^32 distances, nrow, ncol, k and every sharing of the iterations among threads, in exact arithmetic", "why_tests_cant": "The sharing and the order of combination are chosen by the OpenMP runtime at each call.", "anchors": ["libkcommon/util.cpp:get_bic", "libauto/kmeans.cpp:compute_kmeans"]}
{"id": "C136", "title": "Assigning and adding cluster containers", "statement": "Assigning one cluster container to another gives it the other's size, sums and counts, whatever its own size was, and keeps its own finalisation marks; += of two containers of one size has the effect of peq: the sums and counts are added and nothing else changes. (Neither checks sizes: after the assignment of a larger container, finalizing a cluster that is new to the destination is undefined; += cuts a larger right-hand side to the left one's clusters and reads outside a smaller one, where peq aborts.)", "quantifier": "every pair of cluster containers, of equal or different sizes, and every cluster index", "why_tests_cant": "Sizes, counts, sums and marks are unbounded and independent; the tests assign and add containers of one size only.", "anchors": ["libkcommon/clusters.cpp:operator=", "libkcommon/clusters.cpp:operator+=", "libkcommon/clusters.cpp:finalize", "libkcommon/clusters.cpp:peq"]}
