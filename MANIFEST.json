{
 "claims": [
  {
   "property": "C01",
   "status": "proved",
   "theorems": [
    "C01_threads_split_rows",
    "C01_above_limit_refuted"
   ],
   "note": "Full statement (nrow < 2^32). At 2^32 rows the property fails; shown separately."
  },
  {
   "property": "C02",
   "status": "proved",
   "theorems": [
    "C02_row_lookup"
   ],
   "note": "All three data-loading paths, any Num."
  },
  {
   "property": "C03",
   "status": "partial",
   "theorems": [
    "C03_tasks_cover_rows",
    "C03_near_limit_refuted"
   ],
   "note": "Proved for start+nrow <= 2^32-8192. For 2^32-8190 <= nrow < 2^32 the cursor wraps and the worker gets tasks forever (refuted)."
  },
  {
   "property": "C04",
   "status": "partial",
   "theorems": [
    "C04_task_data_partial",
    "C04_task_data_refuted"
   ],
   "note": "Proved while a worker holds fewer than 2^32 numbers; refuted above (32-bit product curr_rid*ncol)."
  },
  {
   "property": "C05",
   "status": "partial",
   "theorems": [
    "C05_processes_own_rows",
    "C05_worker_rows",
    "C05_worker_data",
    "C05_local_rid_refuted"
   ],
   "note": "Ownership, local/global round trip and counts proved; \"a non-local row is rejected by local_rid\" is false (off-by-one bound)."
  },
  {
   "property": "C06",
   "status": "proved",
   "theorems": [
    "C06_gather",
    "C06_gather_position"
   ],
   "note": "nprocs <= g_nrow < 2^32."
  },
  {
   "property": "C07",
   "status": "proved",
   "theorems": [
    "C07_add_remove",
    "C07_swap"
   ],
   "note": "Exact arithmetic (NumR)."
  },
  {
   "property": "C08",
   "status": "proved",
   "theorems": [
    "C08_finalize",
    "C08_round_trip"
   ],
   "note": "Closed form for any arithmetic; round trip in exact arithmetic."
  },
  {
   "property": "C09",
   "status": "proved",
   "theorems": [
    "C09_merge_two",
    "C09_size_mismatch",
    "C09_merge_order",
    "C09_merge_grouping"
   ],
   "note": ""
  },
  {
   "property": "C10",
   "status": "partial",
   "theorems": [
    "C10_set_mean_partial",
    "C10_set_mean_iter_refuted",
    "C10_set_mean_iter_1d_partial"
   ],
   "note": "Pointer and vector overloads proved; the iterator overload is refuted (its index is never incremented) except in dimension 1."
  },
  {
   "property": "C11",
   "status": "proved",
   "theorems": [
    "C11_scale_centroid"
   ],
   "note": "Exact arithmetic."
  },
  {
   "property": "C12",
   "status": "partial",
   "theorems": [
    "C12_grow_add_partial",
    "C12_count_bounds",
    "C12_grow_merge_refuted"
   ],
   "note": "Growth by adding a member proved; growth by merging refuted (sparse_clusters::peq resizes to the number of doubles)."
  },
  {
   "property": "C13",
   "status": "proved",
   "theorems": [
    "C13_nearest"
   ],
   "note": "Any arithmetic satisfying the order laws of <, proved for IEEE binary64 (NumF_laws) and R (NumR_laws)."
  },
  {
   "property": "C14",
   "status": "proved",
   "theorems": [
    "C14_iteration_aborts",
    "C14_no_invalid_id"
   ],
   "note": "Any arithmetic."
  },
  {
   "property": "C15",
   "status": "proved",
   "theorems": [
    "C15_sizes",
    "C15_returned_sizes"
   ],
   "note": "Any arithmetic, nrow < 2^32."
  },
  {
   "property": "C16",
   "status": "proved",
   "theorems": [
    "C16_centroids_are_means"
   ],
   "note": "Exact arithmetic; every iteration of every run."
  },
  {
   "property": "C17",
   "status": "proved",
   "theorems": [
    "C17_changes_counted"
   ],
   "note": "Any arithmetic."
  },
  {
   "property": "C18",
   "status": "proved",
   "theorems": [
    "C18_threads_irrelevant"
   ],
   "note": "Exact arithmetic, all four initialisations."
  },
  {
   "property": "C19",
   "status": "proved",
   "theorems": [
    "C19_objective_never_increases"
   ],
   "note": "Exact arithmetic."
  },
  {
   "property": "C20",
   "status": "proved",
   "theorems": [
    "C20_converges",
    "C20_returns"
   ],
   "note": "Exact arithmetic; C20_returns: on bounded data no run aborts, all initialisations."
  },
  {
   "property": "C21",
   "status": "proved",
   "theorems": [
    "C21_fixed_point"
   ],
   "note": "Any arithmetic satisfying the order laws (IEEE included)."
  },
  {
   "property": "C22",
   "status": "partial",
   "theorems": [
    "C22_iteration_count_partial",
    "C22_refuted"
   ],
   "note": "Proved for runs that converge (or max_iters = 0); refuted otherwise: a run stopped by the limit reports max_iters+1."
  },
  {
   "property": "C23",
   "status": "proved",
   "theorems": [
    "C23_stops"
   ],
   "note": "Any arithmetic."
  },
  {
   "property": "C24",
   "status": "proved",
   "theorems": [
    "C24_values",
    "C24_metric_laws",
    "C24_squared",
    "C24_cosine"
   ],
   "note": "Exact arithmetic (NumR)."
  },
  {
   "property": "C25",
   "status": "proved",
   "theorems": [
    "C25_dist_names",
    "C25_init_names"
   ],
   "note": ""
  },
  {
   "property": "C26",
   "status": "proved",
   "theorems": [
    "C26_forgy"
   ],
   "note": "Any arithmetic."
  },
  {
   "property": "C27",
   "status": "proved",
   "theorems": [
    "C27_random_partition"
   ],
   "note": "Exact arithmetic."
  },
  {
   "property": "C28",
   "status": "proved",
   "theorems": [
    "C28_kmeanspp"
   ],
   "note": "Exact arithmetic; cosine metric only for data without zero rows (0/0 in the code). Assignment part under distances < DBL_MAX."
  },
  {
   "property": "C29",
   "status": "partial",
   "theorems": [
    "C29_selectable_partial",
    "C29_rule",
    "C29_refuted"
   ],
   "note": "Refuted: the draw is divided by RAND_MAX-1, so only the rows whose preceding distances sum to less than total/(RAND_MAX-1) can be picked; the exact rule is proved (iff) and proved to be what every seeding round does."
  },
  {
   "property": "C30",
   "status": "proved",
   "theorems": [
    "C30_distance_table",
    "C30_example"
   ],
   "note": "exact arithmetic; every k >= 2, both index orders, the per-cluster minimum (if no half distance overflows)"
  },
  {
   "property": "C31",
   "status": "proved",
   "theorems": [
    "C31_pruned_step_nearest"
   ],
   "note": "any schedule, thread count and data; the table is the one recomputed from the current centroids"
  },
  {
   "property": "C32",
   "status": "proved",
   "theorems": [
    "C32_bounds_stay_valid",
    "C33_premises_met"
   ],
   "note": "every non-first iteration of every run of the single-process pruned algorithm"
  },
  {
   "property": "C33",
   "status": "partial",
   "theorems": [
    "C33_pruned_nearest_partial",
    "C33_first_pass_nearest",
    "C33_refuted",
    "C33_premises_met"
   ],
   "note": "the English statement is false: C33_refuted exhibits a converged run with a misassigned row (the first update measures drift from a zero vector). Proved: the first pass always, and all later iterations when no centroid moves, in the first update, farther than its new norm"
  },
  {
   "property": "C34",
   "status": "partial",
   "theorems": [
    "C34_taxi_refuted",
    "C34_cos_refuted",
    "C34_sqeucl_refuted",
    "C33_pruned_nearest_partial"
   ],
   "note": "the English statement is false for every metric but the Euclidean one: the three refutations are converged runs with a misassigned row; the Euclidean case is C33"
  },
  {
   "property": "C35",
   "status": "proved",
   "theorems": [
    "C35_run_succeeds",
    "C35_dist_nearest",
    "C35_dist_means",
    "C35_dist_result",
    "C35_premises_met",
    "C35_example_none",
    "C35_example_forgy",
    "C35_example_random",
    "C35_example_plusplus"
   ],
   "note": "exact arithmetic; every number of processes, threads, schedule, and every initialisation (user centres, forgy, random partition, kmeans++)"
  },
  {
   "property": "C36",
   "status": "proved",
   "theorems": [
    "C36_incremental_means",
    "C36_result"
   ],
   "note": "every metric, initialisation, schedule and iteration, whether or not the bounds are valid"
  },
  {
   "property": "C37",
   "status": "partial",
   "theorems": [
    "C37_prune_accepts_k_partial",
    "C37_refuted",
    "C37_unpruned_accepts"
   ],
   "note": "the English statement is false for k = 1 (C37_refuted: always aborts; C37_unpruned_accepts: the unpruned version does not). Proved for every k >= 2"
  },
  {
   "property": "C38",
   "status": "proved",
   "theorems": [
    "C38_wait_means_finished",
    "C38_example"
   ],
   "note": "any number of threads, rounds, tasks; every interleaving, spurious wake-ups included (sequentially consistent memory)"
  },
  {
   "property": "C39",
   "status": "partial",
   "theorems": [
    "C39_wait_returns_partial",
    "C39_refuted"
   ],
   "note": "the English statement is false: C39_refuted is a reachable deadlock (the last worker signals between the test and the cond_wait). Proved: no deadlock and termination in all schedules where no worker reports in that window"
  },
  {
   "property": "C40",
   "status": "partial",
   "theorems": [
    "C40_plain_once_per_round",
    "C40_queue_once_per_round_partial",
    "C40_queue_refuted",
    "C40_example"
   ],
   "note": "proved for plain threads in every interleaving; false for task-queue threads (C40_queue_refuted: a stale task is processed twice and the first one dropped), proved for them when no worker tests its state while being woken. Rows of the tasks: C03"
  },
  {
   "property": "C41",
   "status": "partial",
   "theorems": [
    "c41_create",
    "c41_history_partial",
    "c41_set_get",
    "c41_sets_commute",
    "c41_check_set_refuted",
    "c41_in_bounds_iff"
   ],
   "note": "Refuted at one index: a checked set exactly at size() writes out of bounds (c41_check_set_refuted). Proved for every other history: the vector behaves as an array of independent flags and grows without out-of-bounds writes (c41_history_partial), and the failing index is the only one (c41_in_bounds_iff)."
  },
  {
   "property": "C42",
   "status": "partial",
   "theorems": [
    "c42_iterate",
    "c42_keys",
    "c42_has_key_partial",
    "c42_has_key_refuted",
    "c42_history_partial",
    "c42_write_refuted",
    "c42_set_capacity"
   ],
   "note": "Iteration and key listing proved for every map. Two clauses are false of the code: membership on a map without slots reads out of bounds (c42_has_key_refuted), and with an empty marker other than T() writing a key creates others (c42_write_refuted); both are proved outside these cases (c42_has_key_partial, c42_history_partial)."
  },
  {
   "property": "C43",
   "status": "proved",
   "theorems": [
    "c43_ids_unique",
    "c43_ids_dense",
    "c43_double_return_breaks"
   ],
   "note": "For unboundedly many requests and returns; the only bound is that the ids simultaneously in use fit in an unsigned."
  },
  {
   "property": "C44",
   "status": "proved",
   "theorems": [
    "c44_iteration",
    "c44_run",
    "c44_percentages",
    "c44_activations",
    "c44_active_rows",
    "c44_activation_history",
    "c44_active_history"
   ],
   "note": "Counters are 64-bit words in the model; the sums recorded in one iteration (and for the totals, in the run) are assumed to fit."
  },
  {
   "property": "C45",
   "status": "partial",
   "theorems": [
    "c45_compact_partial",
    "c45_empty_cluster_refuted",
    "c45_negative_size_aborts"
   ],
   "note": "Proved for every visiting order of the centroid map when it has exactly one centroid per used id. False when the map also has a centroid for an empty cluster: it overwrites the centroid of the first used cluster (c45_empty_cluster_refuted)."
  },
  {
   "property": "C46",
   "status": "partial",
   "theorems": [
    "c46_same_shape_partial",
    "c46_equal_means_prefix",
    "c46_refuted",
    "c46_eq_all_ignores_last",
    "c46_gmm_partial"
   ],
   "note": "Refuted in general (c46_refuted: different dimensions, iteration counts and contents compare equal). Proved for results of one shape, and the exact meaning of a positive answer is characterised (c46_equal_means_prefix)."
  },
  {
   "property": "C47",
   "status": "proved",
   "theorems": [
    "c47_get_set",
    "c47_set_buffers",
    "c47_mean",
    "c47_product",
    "c47_plus_minus",
    "c47_sums",
    "c47_divisions",
    "c47_minus_vector",
    "c47_equality",
    "c47_resize",
    "c47_copy_from",
    "c47_linalg",
    "c47_zero_power_norm",
    "c47_column_sums_exact",
    "c47_product_exact",
    "c47_means_exact"
   ],
   "note": "For every shape; the results with unspecified OpenMP row order hold for every order. Left-to-right sums for an arbitrary number type, mathematical sums over R. operator*(matrix) performs no dimension check and operator-(vector) accepts square matrices only, as stated."
  },
  {
   "property": "C48",
   "status": "partial",
   "theorems": [
    "c48_argmax_partial",
    "c48_refuted"
   ],
   "note": "Refuted: the running maximum starts at the smallest positive normal double, so a line without a value above it always gives index 0 (c48_refuted). Proved for every line that has a value above it, with the smallest index."
  },
  {
   "property": "C49",
   "status": "partial",
   "theorems": [
    "c49_computes",
    "c49_inverse_partial",
    "c49_two_by_two",
    "c49_refuted"
   ],
   "note": "The adjoint never alternates the sign. Proved: the determinant is the Laplace determinant and what is returned for every matrix (c49_computes); the result is the inverse for every invertible diagonal matrix; for 2 x 2 matrices exactly then; refuted for (2 1; 1 1)."
  },
  {
   "property": "C50",
   "status": "partial",
   "theorems": [
    "c50_projection_partial",
    "c50_rows_kept",
    "c50_refuted",
    "c50_second_row_refuted"
   ],
   "note": "The loops index data[row] and data[col] instead of data[row*ncol+col]. Proved: never out of bounds and all rows except the first are unchanged; correct for a single row with coordinates of equal absolute value; refuted for (3,4) and for any second row."
  },
  {
   "property": "C51",
   "status": "proved",
   "theorems": [
    "c51_strided",
    "c51_interleave",
    "c51_skip",
    "c51_processes"
   ],
   "note": "For an arbitrary engine/distribution (a deterministic state transformer), any number of ranks and rows."
  },
  {
   "property": "C52",
   "status": "proved",
   "theorems": [
    "c52_write_pieces",
    "c52_read_all",
    "c52_read_rows",
    "c52_readline_to",
    "c52_short_file",
    "c52_stream_read",
    "c52_stream_lines",
    "c52_store_cluster",
    "c52_text_line",
    "c52_text_all"
   ],
   "note": "Byte-level model of fread/fwrite and ifstream::read, for every fixed-size representation. Tokenising a text line is not modelled (a line is its list of tokens). Also proved: with NDEBUG read(pointer) silently accepts a short file."
  },
  {
   "property": "C53",
   "status": "proved",
   "theorems": [
    "C53_iteration",
    "C53_iteration_total"
   ],
   "note": "For every state a run goes through (h_state), any arithmetic with an ordered comparison, any schedule. A partition that has converged (no row moved) is skipped: its rows keep one of its two child ids."
  },
  {
   "property": "C54",
   "status": "proved",
   "theorems": [
    "C54_seeds",
    "C54_first_seeds",
    "C54_forgy_select_member",
    "C54_forgy_select_refuted"
   ],
   "note": "Every partition created by a round of splits starts from two different rows assigned to it, for any state; the first one from the two drawn rows. The anchored helper forgy_select is dead code: it is modelled and shown to be wrong (out-of-bounds read, missed member)."
  },
  {
   "property": "C55",
   "status": "proved",
   "theorems": [
    "C55_rejected_split_restored",
    "xmeans_nonvacuous",
    "C55_gmeans_split_restored",
    "C55_gmeans_run",
    "gmeans_nonvacuous",
    "C55_gmeans_count"
   ],
   "note": "X-means: every round of every run (any arithmetic, any log). G-means: every decision reached, whatever happens afterwards, and every round of a run that returns; a split is undone exactly when the Anderson-Darling statistic of the scaled projections of its rows is at most the critical value (any arithmetic, log, distribution function and conversion)."
  },
  {
   "property": "C56",
   "status": "partial",
   "theorems": [
    "C56_accumulated",
    "C56_partial",
    "C56_refuted"
   ],
   "note": "Refuted: combine_partition_means never clears the container, so a recycled id averages in the rows it had before. Proved over R: the stored mean is the mean of all rows the id had in any round so far, hence right while the id is new."
  },
  {
   "property": "C57",
   "status": "proved",
   "theorems": [
    "C57_medoid_update",
    "C57_medoids_are_rows",
    "C57_energy_never_increases",
    "C57_recorded_energy",
    "C57_total_distance",
    "C57_run_succeeds",
    "medoid_nonvacuous"
   ],
   "note": "Update rule and membership for any arithmetic with an ordered comparison; total energy over R (strictly falling whenever a medoid changes). The metric is the Euclidean one (see C76). C57_run_succeeds excludes the two failure modes: a row whose distance to every medoid is not below DBL_MAX (abort), and a cluster energy above DBL_MAX (out-of-bounds candidate id)."
  },
  {
   "property": "C58",
   "status": "proved",
   "theorems": [
    "C58_stops_when_stable",
    "C58_nonvacuous"
   ],
   "note": "The flag medoids_changed is never reset, so its test never stops the run; the next EM step reassigns no row and the run stops all the same."
  },
  {
   "property": "C59",
   "status": "partial",
   "theorems": [
    "C59_refuted",
    "C59_at_centre_smaller",
    "C59_closer_larger_partial"
   ],
   "note": "Refuted: a row that coincides with a centre gets raw weight 2.2e-16 for it, so it belongs least to the centre it sits on. Proved: with no row at a centre, a strictly closer centre has a strictly larger weight."
  },
  {
   "property": "C60",
   "status": "proved",
   "theorems": [
    "C60_weighted_means"
   ],
   "note": "Exact reals, any number of threads."
  },
  {
   "property": "C61",
   "status": "partial",
   "theorems": [
    "C61_partial",
    "C61_refuted",
    "C61_constant_feature_aborts"
   ],
   "note": "Refuted for features without a value of at least DBL_MIN (the running maximum starts at numeric_limits<double>::min()). Proved over R for the others. A constant feature becomes NaN and the run aborts (example in IEEE arithmetic)."
  },
  {
   "property": "C62",
   "status": "partial",
   "theorems": [
    "C62_rejects_k",
    "C62_rejects_strings",
    "C62_iterations_partial",
    "C62_pruned_iterations_partial",
    "C62_refuted"
   ],
   "note": "The exceptions are proved. Refuted for the iterations: at most max_iters-1 are performed, and none at all with max_iters = 1. Proved: the exact number."
  },
  {
   "property": "C63",
   "status": "partial",
   "theorems": [
    "C63_partial",
    "C63_any_init",
    "C63_rate_refuted",
    "mb_premises_met"
   ],
   "note": "With Forgy or caller-supplied centroids the rate is 1/(rows of the cluster sampled so far), exactly as stated (C63_partial). With random-partition or kmeans++ starts the program counts every row the initialiser assigned: C63_any_init gives the exact rate for every start, C63_rate_refuted is a run where the stated rate is wrong."
  },
  {
   "property": "C64",
   "status": "partial",
   "theorems": [
    "C64_call_partial",
    "C64_best_start_partial",
    "C64_reinit_refuted"
   ],
   "note": "The model follows kmeansPP and reinit. Proved over the reals, every number of starts, data set, draws and schedule, for a library whose vector storage stays usable after clear(): every start is a full kmeans++ clustering with its energy, and the first start of least energy is returned with its clustering. Missing: as written, reinit clears the assignment vector and goes on indexing it, so by the C++ standard every call with two or more starts has undefined behaviour (C64_reinit_refuted)."
  },
  {
   "property": "C65",
   "status": "partial",
   "theorems": [
    "C65_rows_sum_partial",
    "C65_mean_refuted",
    "C65_position_refuted",
    "C65_negative_refuted",
    "C65_nan_refuted",
    "C65_result_nan_refuted"
   ],
   "note": "Proved: with one worker and at most k rows, exact arithmetic, the stored values are the quotients of the weights and each row with non-zero total sums to one. Refuted in general: the mean is indexed by the row instead of the component (out of bounds past k rows), values are stored at the local row, values can be negative (log densities are normalised), and in IEEE arithmetic the first E step, the only one ever run, yields NaN everywhere."
  },
  {
   "property": "C66",
   "status": "proved",
   "theorems": [
    "C66_schedule_independent"
   ],
   "note": "Any arithmetic (bit-for-bit in IEEE)."
  },
  {
   "property": "C67",
   "status": "proved",
   "theorems": [
    "C67_no_out_of_bounds"
   ],
   "note": "Any arithmetic; valid_args states what the user must supply."
  },
  {
   "property": "C68",
   "status": "proved",
   "theorems": [
    "C68_dist_start",
    "C35_premises_met"
   ],
   "note": "exact arithmetic; user centres, forgy, random partition and kmeans++"
  },
  {
   "property": "C69",
   "status": "partial",
   "theorems": [
    "C69_destructor_safe_partial",
    "C69_refuted"
   ],
   "note": "false in general (the last worker signals after the wait has returned); proved when every worker has left its report when destruction starts"
  },
  {
   "property": "C70",
   "status": "proved",
   "theorems": [
    "C70_destruction_ends"
   ],
   "note": "every interleaving without spurious wake-ups"
  },
  {
   "property": "C71",
   "status": "partial",
   "theorems": [
    "c71_scale_partial",
    "c71_refuted"
   ],
   "note": "std::accumulate with the int initial value 0 truncates every partial sum. Proved when all partial sums are integers in range; refuted for (1/2, 3/2)."
  },
  {
   "property": "C72",
   "status": "partial",
   "theorems": [
    "C72_consistency_partial",
    "C72_refuted"
   ],
   "note": "Refuted: a run on four equal rows aborts. Proved: the check fails exactly when some output cluster has no row; then and only then the run aborts."
  },
  {
   "property": "C73",
   "status": "proved",
   "theorems": [
    "C73_safe_and_terminates",
    "hclust_nonvacuous",
    "hclust_valid_needed"
   ],
   "note": "log2 in get_hclust_floor is taken exact. The premises are needed: minimum size 1 leads to an out-of-bounds access, k = 1 and max_iters = 0 abort."
  },
  {
   "property": "C74",
   "status": "partial",
   "theorems": [
    "C74_cluster_bound_partial",
    "C74_refuted"
   ],
   "note": "Refuted: k = 2 returns four clusters. Proved: between 2 and (3*floor2(k)+3)/2 (at most twice the rounded k) clusters."
  },
  {
   "property": "C75",
   "status": "proved",
   "theorems": [
    "C75_ids_and_sizes",
    "C75_centroids"
   ],
   "note": "Ids and sizes for any arithmetic, centroids over R."
  },
  {
   "property": "C76",
   "status": "partial",
   "theorems": [
    "C76_metric_ignored",
    "C76_refuted",
    "C76_euclidean_partial"
   ],
   "note": "Refuted: the worker threads are created without the metric, so Euclidean distance is used whatever was asked for. Proved: the result is independent of the requested metric, and right for EUCL."
  },
  {
   "property": "C77",
   "status": "proved",
   "theorems": [
    "C77_result_consistent",
    "medoid_nonvacuous"
   ],
   "note": "Any arithmetic with an ordered comparison."
  },
  {
   "property": "C78",
   "status": "proved",
   "theorems": [
    "C78_schedule_independent",
    "medoid_nonvacuous"
   ],
   "note": "Any arithmetic; also all intermediate states."
  },
  {
   "property": "C79",
   "status": "proved",
   "theorems": [
    "C79_only_forgy",
    "C79_no_reorganised_data"
   ],
   "note": ""
  },
  {
   "property": "C80",
   "status": "proved",
   "theorems": [
    "C80_schedule_independent",
    "f_fair_exists",
    "C81_nonvacuous"
   ],
   "note": "Any arithmetic and any power function."
  },
  {
   "property": "C81",
   "status": "proved",
   "theorems": [
    "C81_result",
    "C81_nearest_centre",
    "C81_nonvacuous"
   ],
   "note": "Any arithmetic with an ordered comparison."
  },
  {
   "property": "C82",
   "status": "proved",
   "theorems": [
    "C82_stops"
   ],
   "note": "Any arithmetic. The reported iteration count is max_iters+1 for a run that did not converge."
  },
  {
   "property": "C83",
   "status": "proved",
   "theorems": [
    "C83_start",
    "C83_unsupported"
   ],
   "note": ""
  },
  {
   "property": "C84",
   "status": "proved",
   "theorems": [
    "C84_memberships",
    "fx_ran"
   ],
   "note": "Exact reals; std::pow is Rpower on positive arguments."
  },
  {
   "property": "C85",
   "status": "proved",
   "theorems": [
    "C85_objective_decreases",
    "C85_nonvacuous"
   ],
   "note": "Exact reals, squared Euclidean distance."
  },
  {
   "property": "C86",
   "status": "proved",
   "theorems": [
    "C86_safe_and_terminates",
    "xmeans_nonvacuous"
   ],
   "note": "Err Abort (assertion: a row without a usable distance, or the consistency check, see C87) is the only alternative. Any arithmetic, any function in place of log."
  },
  {
   "property": "C87",
   "status": "partial",
   "theorems": [
    "C87_consistency_partial",
    "C87_refuted"
   ],
   "note": "Refuted: four equal rows abort. Proved: the check fails exactly when some output cluster is empty."
  },
  {
   "property": "C88",
   "status": "proved",
   "theorems": [
    "C88_ids_and_sizes",
    "xmeans_nonvacuous"
   ],
   "note": ""
  },
  {
   "property": "C89",
   "status": "partial",
   "theorems": [
    "C89_output_centroids",
    "C89_partial",
    "C89_refuted"
   ],
   "note": "Refuted: a run returns a negative centroid for the rows 0, 2, 4, 6 (rejected split of a recycled id). Proved over R: exact characterisation; right if the id belonged to one partition only."
  },
  {
   "property": "C90",
   "status": "proved",
   "theorems": [
    "C90_scores",
    "xmeans_nonvacuous"
   ],
   "note": "Over R with ln. The distances are not squared (as in the code); the stored mean is characterised by C56."
  },
  {
   "property": "C91",
   "status": "partial",
   "theorems": [
    "C91_partial",
    "C91_refuted"
   ],
   "note": "Refuted: the code uses the size of the parent in place of the child. Proved: by how much the score differs."
  },
  {
   "property": "C92",
   "status": "proved",
   "theorems": [
    "C92_scaled_kmeans"
   ],
   "note": "Any arithmetic satisfying the order laws (NumR_laws, NumF_laws)."
  },
  {
   "property": "C93",
   "status": "proved",
   "theorems": [
    "C93_openmp_is_library",
    "C93_no_out_of_bounds",
    "C93_openmp_bits"
   ],
   "note": "Exact reals for any chunks and reduction order; any arithmetic when the chunks are the library partition."
  },
  {
   "property": "C94",
   "status": "proved",
   "theorems": [
    "C94_centroids_in_box",
    "C94_completes",
    "mb_premises_met"
   ],
   "note": ""
  },
  {
   "property": "C95",
   "status": "proved",
   "theorems": [
    "C95_final_assignment",
    "mb_premises_met"
   ],
   "note": "nearest when no row-to-centroid distance reaches DBL_MAX"
  },
  {
   "property": "C96",
   "status": "partial",
   "theorems": [
    "C96_stop_partial",
    "C96_iterations_refuted"
   ],
   "note": "The stop rule is as stated; the reported number is one less than the number performed exactly when the run converged (C96_iterations_refuted)."
  },
  {
   "property": "C97",
   "status": "partial",
   "theorems": [
    "C97_fraction_partial",
    "C97_fraction_refuted"
   ],
   "note": "A batch size below the number of threads is silently replaced by 1."
  },
  {
   "property": "C98",
   "status": "partial",
   "theorems": [
    "C98_completes_partial",
    "C98_exit_refuted",
    "C98_kmeanspp_refuted",
    "C98_bounds_refuted",
    "C98_dets_refuted"
   ],
   "note": "Proved for a binding build with given means, at most k columns and at most k rows per worker. Refuted: the executable calls exit(911) after the initialisation, kmeans++ initialisation terminates the process, more columns or rows per worker than components is an out-of-bounds access."
  },
  {
   "property": "C99",
   "status": "partial",
   "theorems": [
    "C99_bounded_partial",
    "C99_one_iteration_refuted"
   ],
   "note": "Never more than max_iters iterations; but every completed run stops after its first iteration and reports convergence, because the change counter is never written."
  },
  {
   "property": "C100",
   "status": "partial",
   "theorems": [
    "C100_fields_partial",
    "C100_resp_refuted"
   ],
   "note": "Means, covariances and weights are reported in full; only nrow of the nrow*k responsibilities are."
  },
  {
   "property": "C101",
   "status": "proved",
   "theorems": [
    "C101_gmeans_result",
    "gmeans_nonvacuous"
   ],
   "note": "Any arithmetic, schedule and data; a run that returns."
  },
  {
   "property": "C102",
   "status": "partial",
   "theorems": [
    "C102_first_round_partial",
    "C102_one_round_partial",
    "C102_first_projections_refuted",
    "gmeans_run_exists_R",
    "C102_refuted"
   ],
   "note": "Proved (C102_one_round_partial): when no cluster can have enough rows to be split again, the strictness indexes the table and the projections of the first round can be normalised, the run returns after one round (C102_one_round_example in doubles; gmeans_run_exists_R over R). Proved: on valid arguments, the first round reaches its decision, for every data set and schedule, or the program aborts because a row has no usable distance to two centres. Refuted beyond that: groups of equal rows abort the process or convert a NaN to int, a strictness outside 0..4 (never checked) reads past the table of critical values."
  },
  {
   "property": "C103",
   "status": "partial",
   "theorems": [
    "C55_gmeans_run",
    "ad_statistic_nonneg",
    "C103_few_groups_refuted",
    "C103_first_split_refuted"
   ],
   "note": "What is undone: exactly the splits whose statistic is at most the value computed (C55_gmeans_run). Refuted: the value is computed from the number of groups instead of the number of rows; in exact arithmetic the statistic of any sample is non-negative and with at most three groups the value is negative, so no split is undone in such a round, and the first split of every run is kept whatever the data."
  },
  {
   "property": "C104",
   "status": "proved",
   "theorems": [
    "C104_seeding",
    "C104_processes_agree",
    "C104_example_dist",
    "C104_example_serial",
    "C35_premises_met"
   ],
   "note": "exact arithmetic; the single-process seeding and the MPI seeding both equal the function kpp_seeds of SpecKmspp.v"
  },
  {
   "property": "C105",
   "status": "proved",
   "theorems": [
    "C105_start",
    "C105_nearest",
    "C105_means",
    "C105_result",
    "C105_no_ub",
    "C105_example",
    "C105_example_random",
    "C105_premises_met"
   ],
   "note": "exact arithmetic; the only failure left is the abort of a process whose row has no finite distance (C105_no_ub)"
  },
  {
   "property": "C106",
   "status": "proved",
   "theorems": [
    "C106_same_result",
    "C106_example",
    "C106_iterations_differ",
    "C106_premises_met"
   ],
   "note": "exact arithmetic; when neither run converges the single-process run reports one iteration more (F6): C106_iterations_differ"
  },
  {
   "property": "C107",
   "status": "proved",
   "theorems": [
    "C107_pruned_stop",
    "C107_premises_met"
   ],
   "note": "exact arithmetic; a run stopped by the limit reports one iteration more (F6), as the unpruned one"
  },
  {
   "property": "C108",
   "status": "proved",
   "theorems": [
    "C108_pruned_mpi",
    "C108_example",
    "C108_tie_differs",
    "C108_premises_met"
   ],
   "note": "exact arithmetic; both drivers are proved to compute a Lloyd run in the sense of SpecLloyd.v, which is unique without ties; C108_tie_differs shows the premise is needed"
  },
  {
   "property": "C109",
   "status": "partial",
   "theorems": [
    "C109_pruned_threads_partial",
    "C109_refuted",
    "C109_tolerance_refuted",
    "C109_premises_met"
   ],
   "note": "Refuted as stated: the first update measures the drift of the centroids from the origin (F1, C109_refuted), and a tolerance of 1 or more stops the unpruned run after its first turn but not the pruned one. Proved when the tolerance is below 1 and no centroid moves, in the first update, farther than its new norm."
  },
  {
   "property": "C110",
   "status": "proved",
   "theorems": [
    "C110_pruned_openmp",
    "C111_premises_met"
   ],
   "note": "exact arithmetic; premise: the starting centroids are at finite distance of every row (otherwise no row can be assigned)"
  },
  {
   "property": "C111",
   "status": "partial",
   "theorems": [
    "C111_pruned_is_unpruned_partial",
    "C111_refuted",
    "C111_first_move_refuted",
    "C111_one_iteration_refuted",
    "C111_one_iteration_example",
    "C111_premises_met"
   ],
   "note": "Refuted as stated: with a limit of one iteration the unpruned entry point makes no pass and the pruned one makes one; the first update measures the drift from the origin (F1). Proved for a limit of at least 2, a tolerance below 1 and when no centroid moves, in the first update, farther than its new norm. C111_refuted shows that ties matter."
  },
  {
   "property": "C112",
   "status": "proved",
   "theorems": [
    "C112_pruned",
    "C112_minibatch",
    "C112_multistart",
    "C112_premises_met"
   ],
   "note": "any arithmetic; a step of a thread (one row) is atomic, which is sound because threads touch disjoint rows and their own accumulators (ParModel)"
  },
  {
   "property": "C113",
   "status": "proved",
   "theorems": [
    "C113_openmp",
    "C113_premises_met",
    "C113_premises_met_pp"
   ],
   "note": "any arithmetic; the distribution of rows over threads and the reduction order are parameters, equal on both sides"
  },
  {
   "property": "C114",
   "status": "proved",
   "theorems": [
    "C114_mpi",
    "C114_premises_met"
   ],
   "note": "any arithmetic; MPI collectives are modelled with a fixed reduction order"
  },
  {
   "property": "C115",
   "status": "proved",
   "theorems": [
    "C115_hierarchical",
    "C115_premises_met"
   ],
   "note": "any arithmetic; the order in which X-means visits its scores is a parameter, equal on both sides; the unsynchronised insertion into an unordered_map by X-means threads (F35) is outside the model, where the step of one row is atomic"
  },
  {
   "property": "C116",
   "status": "partial",
   "theorems": [
    "C116_file_partial",
    "C116_same_file",
    "C116_kmeans",
    "C116_short_sizes",
    "C116_digits_refuted",
    "C116_hierarchical_refuted",
    "C116_premises_met"
   ],
   "note": "Refuted as stated: doubles are streamed with the default six significant digits, so different centroids give the same file (C116_digits_refuted, for every printing of at most 13 characters), and the result of a hierarchical run of the library build has fewer sizes than clusters, which the writer reads past its end (C116_hierarchical_refuted). Proved: the file of a complete result reads back as the result with its centroids as printed; every k-means result is complete."
  },
  {
   "property": "C117",
   "status": "proved",
   "theorems": [
    "C117_truncated",
    "C116_premises_met"
   ],
   "note": "a crash is any proper prefix of the file; the reader is the one of SpecYaml.v"
  },
  {
   "property": "C118",
   "status": "proved",
   "theorems": [
    "C118_threads",
    "C118_threads_returns",
    "C118_threads_pruned",
    "C118_openmp",
    "C118_openmp_pruned",
    "C118_premises_met"
   ],
   "note": "exact arithmetic; option parsing is not modelled; unpruned OpenMP needs -i at least 2 (F29: with -i 1 it makes no iteration); a centroid file may be longer than needed; the printing of a number is any function to text free of YAML syntax"
  },
  {
   "property": "C119",
   "status": "partial",
   "theorems": [
    "C119_no_data_file",
    "C119_wrong_size_partial",
    "C119_wrong_size_refuted",
    "C119_no_centers_file",
    "C119_short_centers",
    "C119_long_centers_refuted",
    "C119_none_needs_centers",
    "C119_unknown_names",
    "C119_premises_met"
   ],
   "note": "Refuted as stated: the expected size is computed modulo 2^64 (2^61 x 1 accepts an empty file, C119_wrong_size_refuted) and a centroid file that is too long is accepted and its rest ignored (C119_long_centers_refuted). The rest is proved."
  },
  {
   "property": "C120",
   "status": "proved",
   "theorems": [
    "C120_hierarchical",
    "C120_hierarchical_means",
    "C120_xmeans",
    "C120_gmeans",
    "C120_written",
    "C120_premises_met"
   ],
   "note": "any arithmetic, means over R; without the consistency check (BIND builds) empty clusters make the size array short: c45_empty_cluster_refuted, C116_hierarchical_refuted"
  },
  {
   "property": "C121",
   "status": "proved",
   "theorems": [
    "C121_knord",
    "C121_knord_pruned",
    "C121_wrong_files",
    "C121_wrong_centers",
    "C121_premises_met"
   ],
   "note": "exact arithmetic; option parsing is not modelled (ka_init is the initialisation after parsing: a -t after -C overrides none); MPI as in C35/C105"
  },
  {
   "property": "C122",
   "status": "proved",
   "theorems": [
    "C122_equality",
    "C122_equality_R"
   ],
   "note": "clusters::operator== (dense sets); over doubles == is IEEE equality, so a set holding a NaN is not equal to itself."
  },
  {
   "property": "C123",
   "status": "partial",
   "theorems": [
    "C123_same_as_library",
    "C123_hmeans",
    "C123_hmeans_means",
    "C123_xmeans",
    "C123_gmeans",
    "C123_fcm",
    "C123_skmeans",
    "C123_mb_knori",
    "C123_kmeanspp",
    "C123_medoids_partial",
    "C123_medoids_refuted",
    "C123_gmm_refuted"
   ],
   "note": "Refuted for two programs: medoids with a centroid file never yields a result (the file is not read and the library throws), and gmm never writes a file (and without the NUMA library never ends normally). Proved for the others and for medoids from random rows. kmeanspp is proved for builds where the elements of a cleared vector stay usable memory (C64); for gmeans the statement is about the runs that come to an end (C103). Over exact reals except the hierarchical programs, fcm and same_as_library (any arithmetic)."
  },
  {
   "property": "C124",
   "status": "proved",
   "theorems": [
    "C124_bad_files",
    "C124_short_centers",
    "C124_unknown_names",
    "C124_kmeanspp"
   ],
   "note": "Builds with assertions. The expected byte count must fit in 64 bits, as the statement says (otherwise the check wraps, C119_wrong_size_refuted)."
  },
  {
   "property": "C125",
   "status": "proved",
   "theorems": [
    "C125_hclust",
    "C125_xmeans",
    "C125_hclust_returns",
    "C125_xmeans_returns"
   ],
   "note": "Real arithmetic, any fair schedules. The two unconditional theorems are for the cosine distance with assertions on; for the other distances a run can abort when every distance reaches the type's largest value (C72_consistency_partial), so the theorems say: if one run returns, so does the other."
  },
  {
   "property": "C126",
   "status": "partial",
   "theorems": [
    "C126_means",
    "C126_given_means",
    "C126_weights",
    "C126_weights_sum",
    "C126_zero_weights_refuted"
   ],
   "note": "The last sentence is refuted: with forgy or given means, weights and covariances are all zero in the result (C126_zero_weights_refuted). The sum is over real arithmetic; everything else holds for every arithmetic. The means are those drawn at the start because no step of the loop changes them."
  },
  {
   "property": "C127",
   "status": "proved",
   "theorems": [
    "C127_sort",
    "C127_statistic",
    "C127_order_free",
    "C127_affine",
    "C127_nonneg",
    "C127_critical",
    "C127_critical_order",
    "C127_critical_negative"
   ],
   "note": "The normal distribution function is a parameter (the code calls it through erfc), the logarithm is ln; C127_nonneg asks it to stay strictly between 0 and 1. With at most three values every critical value is negative (C127_critical_negative), so such a split is never undone. Concrete sample: C127_sample."
  },
  {
   "property": "C128",
   "status": "proved",
   "theorems": [
    "C128_pairwise",
    "C128_unsupported",
    "C128_too_small",
    "C128_set_get",
    "C128_min"
   ],
   "note": "Distances in exact arithmetic; C128_set_get and C128_min hold for every arithmetic (C128_min for every ordered one). C128_min also says when get_min_dist aborts. Concrete matrix: C128_example."
  },
  {
   "property": "C129",
   "status": "partial",
   "theorems": [
    "C129_given",
    "C129_forgy",
    "C129_random",
    "C129_pruned_kmeanspp",
    "C129_plain_kmeanspp_partial",
    "C129_refuted"
   ],
   "note": "Refuted for the sizes: tally_assignment_counts is called only by the pruned coordinator and only after kmeans++, so a plain kmeans++ run (C129_refuted, every input) and a random partition (C129_random, both coordinators) return an assignment of every row and sizes that are all 0. Everything else is proved; the kmeans++ parts in exact arithmetic with proper distances. Concrete input: C129_example."
  },
  {
   "property": "C130",
   "status": "proved",
   "theorems": [
    "C130_fcm",
    "C130_kmedoids",
    "C130_kmedoids_one_result"
   ],
   "note": "Over R. Fuzzy c-means: one result for all threads, loading paths and fair orders. K-medoids: a run that succeeds is reproduced exactly, trace included; with distances far below the largest double there is one result for all. NumaReorg is excluded for k-medoids because the code throws. C130_example meets the hypotheses."
  },
  {
   "property": "C131",
   "status": "proved",
   "theorems": [
    "C131_pruned",
    "C131_minibatch",
    "C131_fraction",
    "C131_premises_met"
   ],
   "note": "Over R, equal draws. The mini-batch sampling draws are a function of the round and the row; in the program each worker has its own generator, so equal seeds do not give equal draws to different thread counts. C131_fraction gives the sampled fraction on both sides of the threshold."
  },
  {
   "property": "C132",
   "status": "proved",
   "theorems": [
    "C132_gmeans",
    "C132_returns",
    "C132_nonvacuous"
   ],
   "note": "Over R, equal draws. C132_gmeans: two runs that return give the same result. C132_returns: a run that returns also returns for every other thread count, schedule and loading path, as long as no partition of a round is numbered 2F-1 or above (F = k rounded up as the program does: the containers are created with 2F-1 clusters); past that bound a row of a retired node makes the program read past the container of the group means, which has grown by an amount that depends on the workers (F34, F36), so that one run may stop where the other goes on. C132_nonvacuous is a concrete pair of runs with one and with two threads in IEEE arithmetic, C132_bound shows its ids are within the bound; C132_premises (exact arithmetic) meets the other premises."
  },
  {
   "property": "C133",
   "status": "proved",
   "theorems": [
    "C133_skmeans",
    "C133_returns"
   ],
   "note": "Over R. C133_returns covers the distances other than cosine. C133_example (two threads and one thread) meets the premises of both."
  },
  {
   "property": "C134",
   "status": "proved",
   "theorems": [
    "C134_same",
    "C134_returns"
   ],
   "note": "Over R, in builds where the elements of a cleared vector stay usable (by the C++ standard every call with two or more starts is undefined: C64_reinit_refuted). C134_example (one thread and two, two starts) meets the premises of both."
  },
  {
   "property": "C135",
   "status": "proved",
   "theorems": [
    "C135_bic",
    "C135_order"
   ],
   "note": "Over R, with ln for std::log; printing is not modelled. C135_shares: a sharing among three threads."
  },
  {
   "property": "C136",
   "status": "proved",
   "theorems": [
    "C136_assign",
    "C136_marks_stay",
    "C136_assign_larger",
    "C136_plus",
    "C136_plus_larger",
    "C136_plus_smaller"
   ],
   "note": "Any arithmetic. C136_example meets the premises of each."
  }
 ]
}