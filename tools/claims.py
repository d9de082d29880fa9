claim('C01','proved','C01_threads_split_rows C01_above_limit_refuted','Full statement (nrow < 2^32). At 2^32 rows the property fails; shown separately.')
claim('C02','proved','C02_row_lookup','All three data-loading paths, any Num.')
claim('C03','partial','C03_tasks_cover_rows C03_near_limit_refuted','Proved for start+nrow <= 2^32-8192. For 2^32-8190 <= nrow < 2^32 the cursor wraps and the worker gets tasks forever (refuted).')
claim('C04','partial','C04_task_data_partial C04_task_data_refuted','Proved while a worker holds fewer than 2^32 numbers; refuted above (32-bit product curr_rid*ncol).')
claim('C05','partial','C05_processes_own_rows C05_worker_rows C05_worker_data C05_local_rid_refuted','Ownership, local/global round trip and counts proved; "a non-local row is rejected by local_rid" is false (off-by-one bound).')
claim('C06','proved','C06_gather C06_gather_position','nprocs <= g_nrow < 2^32.')
claim('C07','proved','C07_add_remove C07_swap','Exact arithmetic (NumR).')
claim('C08','proved','C08_finalize C08_round_trip','Closed form for any arithmetic; round trip in exact arithmetic.')
claim('C09','proved','C09_merge_two C09_size_mismatch C09_merge_order C09_merge_grouping','')
claim('C10','partial','C10_set_mean_partial C10_set_mean_iter_refuted C10_set_mean_iter_1d_partial','Pointer and vector overloads proved; the iterator overload is refuted (its index is never incremented) except in dimension 1.')
claim('C11','proved','C11_scale_centroid','Exact arithmetic.')
claim('C12','partial','C12_grow_add_partial C12_count_bounds C12_grow_merge_refuted','Growth by adding a member proved; growth by merging refuted (sparse_clusters::peq resizes to the number of doubles).')
claim('C24','proved','C24_values C24_metric_laws C24_squared C24_cosine','Exact arithmetic (NumR).')
claim('C25','proved','C25_dist_names C25_init_names','')
claim('C13','proved','C13_nearest','Any arithmetic satisfying the order laws of <, proved for IEEE binary64 (NumF_laws) and R (NumR_laws).')
claim('C14','proved','C14_iteration_aborts C14_no_invalid_id','Any arithmetic.')
claim('C15','proved','C15_sizes C15_returned_sizes','Any arithmetic, nrow < 2^32.')
claim('C16','proved','C16_centroids_are_means','Exact arithmetic; every iteration of every run.')
claim('C17','proved','C17_changes_counted','Any arithmetic.')
claim('C18','proved','C18_threads_irrelevant','Exact arithmetic, all four initialisations.')
claim('C19','proved','C19_objective_never_increases','Exact arithmetic.')
claim('C20','proved','C20_converges C20_returns','Exact arithmetic; C20_returns: on bounded data no run aborts, all initialisations.')
claim('C21','proved','C21_fixed_point','Any arithmetic satisfying the order laws (IEEE included).')
claim('C22','partial','C22_iteration_count_partial C22_refuted','Proved for runs that converge (or max_iters = 0); refuted otherwise: a run stopped by the limit reports max_iters+1.')
claim('C23','proved','C23_stops','Any arithmetic.')
claim('C26','proved','C26_forgy','Any arithmetic.')
claim('C27','proved','C27_random_partition','Exact arithmetic.')
claim('C66','proved','C66_schedule_independent','Any arithmetic (bit-for-bit in IEEE).')
claim('C67','proved','C67_no_out_of_bounds','Any arithmetic; valid_args states what the user must supply.')
claim('C28','proved','C28_kmeanspp','Exact arithmetic; cosine metric only for data without zero rows (0/0 in the code). Assignment part under distances < DBL_MAX.')
claim('C29','partial','C29_selectable_partial C29_rule C29_refuted','Refuted: the draw is divided by RAND_MAX-1, so only the rows whose preceding distances sum to less than total/(RAND_MAX-1) can be picked; the exact rule is proved (iff) and proved to be what every seeding round does.')
claim('C30','proved','C30_distance_table C30_example','exact arithmetic; every k >= 2, both index orders, the per-cluster minimum (if no half distance overflows)')
claim('C31','proved','C31_pruned_step_nearest','any schedule, thread count and data; the table is the one recomputed from the current centroids')
claim('C32','proved','C32_bounds_stay_valid C33_premises_met','every non-first iteration of every run of the single-process pruned algorithm')
claim('C33','partial','C33_pruned_nearest_partial C33_first_pass_nearest C33_refuted C33_premises_met','the English statement is false: C33_refuted exhibits a converged run with a misassigned row (the first update measures drift from a zero vector). Proved: the first pass always, and all later iterations when no centroid moves, in the first update, farther than its new norm')
claim('C34','partial','C34_taxi_refuted C34_cos_refuted C34_sqeucl_refuted C33_pruned_nearest_partial','the English statement is false for every metric but the Euclidean one: the three refutations are converged runs with a misassigned row; the Euclidean case is C33')
claim('C36','proved','C36_incremental_means C36_result','every metric, initialisation, schedule and iteration, whether or not the bounds are valid')
claim('C37','partial','C37_prune_accepts_k_partial C37_refuted C37_unpruned_accepts','the English statement is false for k = 1 (C37_refuted: always aborts; C37_unpruned_accepts: the unpruned version does not). Proved for every k >= 2')
claim('C35','proved','C35_run_succeeds C35_dist_nearest C35_dist_means C35_dist_result C35_premises_met C35_example_none C35_example_forgy C35_example_random C35_example_plusplus','exact arithmetic; every number of processes, threads, schedule, and every initialisation (user centres, forgy, random partition, kmeans++)')
claim('C68','proved','C68_dist_start C35_premises_met','exact arithmetic; user centres, forgy, random partition and kmeans++')
claim('C38','proved','C38_wait_means_finished C38_example','any number of threads, rounds, tasks; every interleaving, spurious wake-ups included (sequentially consistent memory)')
claim('C39','partial','C39_wait_returns_partial C39_refuted','the English statement is false: C39_refuted is a reachable deadlock (the last worker signals between the test and the cond_wait). Proved: no deadlock and termination in all schedules where no worker reports in that window')
claim('C40','partial','C40_plain_once_per_round C40_queue_once_per_round_partial C40_queue_refuted C40_example','proved for plain threads in every interleaving; false for task-queue threads (C40_queue_refuted: a stale task is processed twice and the first one dropped), proved for them when no worker tests its state while being woken. Rows of the tasks: C03')
claim('C69','partial','C69_destructor_safe_partial C69_refuted','false in general (the last worker signals after the wait has returned); proved when every worker has left its report when destruction starts')
claim('C70','proved','C70_destruction_ends','every interleaving without spurious wake-ups')
claim('C41','partial','c41_create c41_history_partial c41_set_get c41_sets_commute c41_check_set_refuted c41_in_bounds_iff','Refuted at one index: a checked set exactly at size() writes out of bounds (c41_check_set_refuted). Proved for every other history: the vector behaves as an array of independent flags and grows without out-of-bounds writes (c41_history_partial), and the failing index is the only one (c41_in_bounds_iff).')
claim('C42','partial','c42_iterate c42_keys c42_has_key_partial c42_has_key_refuted c42_history_partial c42_write_refuted c42_set_capacity','Iteration and key listing proved for every map. Two clauses are false of the code: membership on a map without slots reads out of bounds (c42_has_key_refuted), and with an empty marker other than T() writing a key creates others (c42_write_refuted); both are proved outside these cases (c42_has_key_partial, c42_history_partial).')
claim('C43','proved','c43_ids_unique c43_ids_dense c43_double_return_breaks','For unboundedly many requests and returns; the only bound is that the ids simultaneously in use fit in an unsigned.')
claim('C44','proved','c44_iteration c44_run c44_percentages c44_activations c44_active_rows c44_activation_history c44_active_history','Counters are 64-bit words in the model; the sums recorded in one iteration (and for the totals, in the run) are assumed to fit.')
claim('C45','partial','c45_compact_partial c45_empty_cluster_refuted c45_negative_size_aborts','Proved for every visiting order of the centroid map when it has exactly one centroid per used id. False when the map also has a centroid for an empty cluster: it overwrites the centroid of the first used cluster (c45_empty_cluster_refuted).')
claim('C46','partial','c46_same_shape_partial c46_equal_means_prefix c46_refuted c46_eq_all_ignores_last c46_gmm_partial','Refuted in general (c46_refuted: different dimensions, iteration counts and contents compare equal). Proved for results of one shape, and the exact meaning of a positive answer is characterised (c46_equal_means_prefix).')
claim('C47','proved','c47_get_set c47_set_buffers c47_mean c47_product c47_plus_minus c47_sums c47_divisions c47_minus_vector c47_equality c47_resize c47_copy_from c47_linalg c47_zero_power_norm c47_column_sums_exact c47_product_exact c47_means_exact','For every shape; the results with unspecified OpenMP row order hold for every order. Left-to-right sums for an arbitrary number type, mathematical sums over R. operator*(matrix) performs no dimension check and operator-(vector) accepts square matrices only, as stated.')
claim('C48','partial','c48_argmax_partial c48_refuted','Refuted: the running maximum starts at the smallest positive normal double, so a line without a value above it always gives index 0 (c48_refuted). Proved for every line that has a value above it, with the smallest index.')
claim('C49','partial','c49_computes c49_inverse_partial c49_two_by_two c49_refuted','The adjoint never alternates the sign. Proved: the determinant is the Laplace determinant and what is returned for every matrix (c49_computes); the result is the inverse for every invertible diagonal matrix; for 2 x 2 matrices exactly then; refuted for (2 1; 1 1).')
claim('C50','partial','c50_projection_partial c50_rows_kept c50_refuted c50_second_row_refuted','The loops index data[row] and data[col] instead of data[row*ncol+col]. Proved: never out of bounds and all rows except the first are unchanged; correct for a single row with coordinates of equal absolute value; refuted for (3,4) and for any second row.')
claim('C71','partial','c71_scale_partial c71_refuted','std::accumulate with the int initial value 0 truncates every partial sum. Proved when all partial sums are integers in range; refuted for (1/2, 3/2).')
claim('C51','proved','c51_strided c51_interleave c51_skip c51_processes','For an arbitrary engine/distribution (a deterministic state transformer), any number of ranks and rows.')
claim('C52','proved','c52_write_pieces c52_read_all c52_read_rows c52_readline_to c52_short_file c52_stream_read c52_stream_lines c52_store_cluster c52_text_line c52_text_all','Byte-level model of fread/fwrite and ifstream::read, for every fixed-size representation. Tokenising a text line is not modelled (a line is its list of tokens). Also proved: with NDEBUG read(pointer) silently accepts a short file.')
claim('C53','proved','C53_iteration C53_iteration_total','For every state a run goes through (h_state), any arithmetic with an ordered comparison, any schedule. A partition that has converged (no row moved) is skipped: its rows keep one of its two child ids.')
claim('C54','proved','C54_seeds C54_first_seeds C54_forgy_select_member C54_forgy_select_refuted','Every partition created by a round of splits starts from two different rows assigned to it, for any state; the first one from the two drawn rows. The anchored helper forgy_select is dead code: it is modelled and shown to be wrong (out-of-bounds read, missed member).')
claim('C72','partial','C72_consistency_partial C72_refuted','Refuted: a run on four equal rows aborts. Proved: the check fails exactly when some output cluster has no row; then and only then the run aborts.')
claim('C73','proved','C73_safe_and_terminates hclust_nonvacuous hclust_valid_needed','log2 in get_hclust_floor is taken exact. The premises are needed: minimum size 1 leads to an out-of-bounds access, k = 1 and max_iters = 0 abort.')
claim('C74','partial','C74_cluster_bound_partial C74_refuted','Refuted: k = 2 returns four clusters. Proved: between 2 and (3*floor2(k)+3)/2 (at most twice the rounded k) clusters.')
claim('C75','proved','C75_ids_and_sizes C75_centroids','Ids and sizes for any arithmetic, centroids over R.')
claim('C57','proved','C57_medoid_update C57_medoids_are_rows C57_energy_never_increases C57_recorded_energy C57_total_distance C57_run_succeeds medoid_nonvacuous','Update rule and membership for any arithmetic with an ordered comparison; total energy over R (strictly falling whenever a medoid changes). The metric is the Euclidean one (see C76). C57_run_succeeds excludes the two failure modes: a row whose distance to every medoid is not below DBL_MAX (abort), and a cluster energy above DBL_MAX (out-of-bounds candidate id).')
claim('C58','proved','C58_stops_when_stable C58_nonvacuous','The flag medoids_changed is never reset, so its test never stops the run; the next EM step reassigns no row and the run stops all the same.')
claim('C76','partial','C76_metric_ignored C76_refuted C76_euclidean_partial','Refuted: the worker threads are created without the metric, so Euclidean distance is used whatever was asked for. Proved: the result is independent of the requested metric, and right for EUCL.')
claim('C77','proved','C77_result_consistent medoid_nonvacuous','Any arithmetic with an ordered comparison.')
claim('C78','proved','C78_schedule_independent medoid_nonvacuous','Any arithmetic; also all intermediate states.')
claim('C79','proved','C79_only_forgy C79_no_reorganised_data','')
claim('C59','partial','C59_refuted C59_at_centre_smaller C59_closer_larger_partial','Refuted: a row that coincides with a centre gets raw weight 2.2e-16 for it, so it belongs least to the centre it sits on. Proved: with no row at a centre, a strictly closer centre has a strictly larger weight.')
claim('C60','proved','C60_weighted_means','Exact reals, any number of threads.')
claim('C80','proved','C80_schedule_independent f_fair_exists C81_nonvacuous','Any arithmetic and any power function.')
claim('C81','proved','C81_result C81_nearest_centre C81_nonvacuous','Any arithmetic with an ordered comparison.')
claim('C82','proved','C82_stops','Any arithmetic. The reported iteration count is max_iters+1 for a run that did not converge.')
claim('C83','proved','C83_start C83_unsupported','')
claim('C84','proved','C84_memberships fx_ran','Exact reals; std::pow is Rpower on positive arguments.')
claim('C85','proved','C85_objective_decreases C85_nonvacuous','Exact reals, squared Euclidean distance.')
claim('C55','proved','C55_rejected_split_restored xmeans_nonvacuous C55_gmeans_split_restored C55_gmeans_run gmeans_nonvacuous C55_gmeans_count','X-means: every round of every run (any arithmetic, any log). G-means: every decision reached, whatever happens afterwards, and every round of a run that returns; a split is undone exactly when the Anderson-Darling statistic of the scaled projections of its rows is at most the critical value (any arithmetic, log, distribution function and conversion).')
claim('C56','partial','C56_accumulated C56_partial C56_refuted','Refuted: combine_partition_means never clears the container, so a recycled id averages in the rows it had before. Proved over R: the stored mean is the mean of all rows the id had in any round so far, hence right while the id is new.')
claim('C86','proved','C86_safe_and_terminates xmeans_nonvacuous','Err Abort (assertion: a row without a usable distance, or the consistency check, see C87) is the only alternative. Any arithmetic, any function in place of log.')
claim('C87','partial','C87_consistency_partial C87_refuted','Refuted: four equal rows abort. Proved: the check fails exactly when some output cluster is empty.')
claim('C88','proved','C88_ids_and_sizes xmeans_nonvacuous','')
claim('C89','partial','C89_output_centroids C89_partial C89_refuted','Refuted: a run returns a negative centroid for the rows 0, 2, 4, 6 (rejected split of a recycled id). Proved over R: exact characterisation; right if the id belonged to one partition only.')
claim('C90','proved','C90_scores xmeans_nonvacuous','Over R with ln. The distances are not squared (as in the code); the stored mean is characterised by C56.')
claim('C91','partial','C91_partial C91_refuted','Refuted: the code uses the size of the parent in place of the child. Proved: by how much the score differs.')
claim('C61','partial','C61_partial C61_refuted C61_constant_feature_aborts','Refuted for features without a value of at least DBL_MIN (the running maximum starts at numeric_limits<double>::min()). Proved over R for the others. A constant feature becomes NaN and the run aborts (example in IEEE arithmetic).')
claim('C92','proved','C92_scaled_kmeans','Any arithmetic satisfying the order laws (NumR_laws, NumF_laws).')
claim('C62','partial','C62_rejects_k C62_rejects_strings C62_iterations_partial C62_pruned_iterations_partial C62_refuted','The exceptions are proved. Refuted for the iterations: at most max_iters-1 are performed, and none at all with max_iters = 1. Proved: the exact number.')
claim('C93','proved','C93_openmp_is_library C93_no_out_of_bounds C93_openmp_bits','Exact reals for any chunks and reduction order; any arithmetic when the chunks are the library partition.')
claim('C63','partial','C63_partial C63_any_init C63_rate_refuted mb_premises_met','With Forgy or caller-supplied centroids the rate is 1/(rows of the cluster sampled so far), exactly as stated (C63_partial). With random-partition or kmeans++ starts the program counts every row the initialiser assigned: C63_any_init gives the exact rate for every start, C63_rate_refuted is a run where the stated rate is wrong.')
claim('C94','proved','C94_centroids_in_box C94_completes mb_premises_met','')
claim('C95','proved','C95_final_assignment mb_premises_met','nearest when no row-to-centroid distance reaches DBL_MAX')
claim('C96','partial','C96_stop_partial C96_iterations_refuted','The stop rule is as stated; the reported number is one less than the number performed exactly when the run converged (C96_iterations_refuted).')
claim('C97','partial','C97_fraction_partial C97_fraction_refuted','A batch size below the number of threads is silently replaced by 1.')
claim('C64','partial','C64_call_partial C64_best_start_partial C64_reinit_refuted','The model follows kmeansPP and reinit. Proved over the reals, every number of starts, data set, draws and schedule, for a library whose vector storage stays usable after clear(): every start is a full kmeans++ clustering with its energy, and the first start of least energy is returned with its clustering. Missing: as written, reinit clears the assignment vector and goes on indexing it, so by the C++ standard every call with two or more starts has undefined behaviour (C64_reinit_refuted).')
claim('C65','partial','C65_rows_sum_partial C65_mean_refuted C65_position_refuted C65_negative_refuted C65_nan_refuted C65_result_nan_refuted','Proved: with one worker and at most k rows, exact arithmetic, the stored values are the quotients of the weights and each row with non-zero total sums to one. Refuted in general: the mean is indexed by the row instead of the component (out of bounds past k rows), values are stored at the local row, values can be negative (log densities are normalised), and in IEEE arithmetic the first E step, the only one ever run, yields NaN everywhere.')
claim('C98','partial','C98_completes_partial C98_exit_refuted C98_kmeanspp_refuted C98_bounds_refuted C98_dets_refuted','Proved for a binding build with given means, at most k columns and at most k rows per worker. Refuted: the executable calls exit(911) after the initialisation, kmeans++ initialisation terminates the process, more columns or rows per worker than components is an out-of-bounds access.')
claim('C99','partial','C99_bounded_partial C99_one_iteration_refuted','Never more than max_iters iterations; but every completed run stops after its first iteration and reports convergence, because the change counter is never written.')
claim('C100','partial','C100_fields_partial C100_resp_refuted','Means, covariances and weights are reported in full; only nrow of the nrow*k responsibilities are.')
claim('C101','proved','C101_gmeans_result gmeans_nonvacuous','Any arithmetic, schedule and data; a run that returns.')
claim('C102','partial','C102_first_round_partial C102_one_round_partial C102_first_projections_refuted gmeans_run_exists_R C102_refuted','Proved (C102_one_round_partial): when no cluster can have enough rows to be split again, the strictness indexes the table and the projections of the first round can be normalised, the run returns after one round (C102_one_round_example in doubles; gmeans_run_exists_R over R). Proved: on valid arguments, the first round reaches its decision, for every data set and schedule, or the program aborts because a row has no usable distance to two centres. Refuted beyond that: groups of equal rows abort the process or convert a NaN to int, a strictness outside 0..4 (never checked) reads past the table of critical values.')
claim('C103','partial','C55_gmeans_run ad_statistic_nonneg C103_few_groups_refuted C103_first_split_refuted','What is undone: exactly the splits whose statistic is at most the value computed (C55_gmeans_run). Refuted: the value is computed from the number of groups instead of the number of rows; in exact arithmetic the statistic of any sample is non-negative and with at most three groups the value is negative, so no split is undone in such a round, and the first split of every run is kept whatever the data.')
claim('C104','proved','C104_seeding C104_processes_agree C104_example_dist C104_example_serial C35_premises_met','exact arithmetic; the single-process seeding and the MPI seeding both equal the function kpp_seeds of SpecKmspp.v')
claim('C105','proved','C105_start C105_nearest C105_means C105_result C105_no_ub C105_example C105_example_random C105_premises_met','exact arithmetic; the only failure left is the abort of a process whose row has no finite distance (C105_no_ub)')
claim('C106','proved','C106_same_result C106_example C106_iterations_differ C106_premises_met','exact arithmetic; when neither run converges the single-process run reports one iteration more (F6): C106_iterations_differ')
claim('C107','proved','C107_pruned_stop C107_premises_met','exact arithmetic; a run stopped by the limit reports one iteration more (F6), as the unpruned one')
claim('C108','proved','C108_pruned_mpi C108_example C108_tie_differs C108_premises_met','exact arithmetic; both drivers are proved to compute a Lloyd run in the sense of SpecLloyd.v, which is unique without ties; C108_tie_differs shows the premise is needed')
claim('C109','partial','C109_pruned_threads_partial C109_refuted C109_tolerance_refuted C109_premises_met','Refuted as stated: the first update measures the drift of the centroids from the origin (F1, C109_refuted), and a tolerance of 1 or more stops the unpruned run after its first turn but not the pruned one. Proved when the tolerance is below 1 and no centroid moves, in the first update, farther than its new norm.')
claim('C110','proved','C110_pruned_openmp C111_premises_met','exact arithmetic; premise: the starting centroids are at finite distance of every row (otherwise no row can be assigned)')
claim('C111','partial','C111_pruned_is_unpruned_partial C111_refuted C111_first_move_refuted C111_one_iteration_refuted C111_one_iteration_example C111_premises_met','Refuted as stated: with a limit of one iteration the unpruned entry point makes no pass and the pruned one makes one; the first update measures the drift from the origin (F1). Proved for a limit of at least 2, a tolerance below 1 and when no centroid moves, in the first update, farther than its new norm. C111_refuted shows that ties matter.')
claim('C112','proved','C112_pruned C112_minibatch C112_multistart C112_premises_met','any arithmetic; a step of a thread (one row) is atomic, which is sound because threads touch disjoint rows and their own accumulators (ParModel)')
claim('C113','proved','C113_openmp C113_premises_met C113_premises_met_pp','any arithmetic; the distribution of rows over threads and the reduction order are parameters, equal on both sides')
claim('C114','proved','C114_mpi C114_premises_met','any arithmetic; MPI collectives are modelled with a fixed reduction order')
claim('C115','proved','C115_hierarchical C115_premises_met','any arithmetic; the order in which X-means visits its scores is a parameter, equal on both sides; the unsynchronised insertion into an unordered_map by X-means threads (F35) is outside the model, where the step of one row is atomic')
claim('C116','partial','C116_file_partial C116_same_file C116_kmeans C116_short_sizes C116_digits_refuted C116_hierarchical_refuted C116_premises_met','Refuted as stated: doubles are streamed with the default six significant digits, so different centroids give the same file (C116_digits_refuted, for every printing of at most 13 characters), and the result of a hierarchical run of the library build has fewer sizes than clusters, which the writer reads past its end (C116_hierarchical_refuted). Proved: the file of a complete result reads back as the result with its centroids as printed; every k-means result is complete.')
claim('C117','proved','C117_truncated C116_premises_met','a crash is any proper prefix of the file; the reader is the one of SpecYaml.v')
claim('C118','proved','C118_threads C118_threads_returns C118_threads_pruned C118_openmp C118_openmp_pruned C118_premises_met','exact arithmetic; option parsing is not modelled; unpruned OpenMP needs -i at least 2 (F29: with -i 1 it makes no iteration); a centroid file may be longer than needed; the printing of a number is any function to text free of YAML syntax')
claim('C119','partial','C119_no_data_file C119_wrong_size_partial C119_wrong_size_refuted C119_no_centers_file C119_short_centers C119_long_centers_refuted C119_none_needs_centers C119_unknown_names C119_premises_met','Refuted as stated: the expected size is computed modulo 2^64 (2^61 x 1 accepts an empty file, C119_wrong_size_refuted) and a centroid file that is too long is accepted and its rest ignored (C119_long_centers_refuted). The rest is proved.')
claim('C120','proved','C120_hierarchical C120_hierarchical_means C120_xmeans C120_gmeans C120_written C120_premises_met','any arithmetic, means over R; without the consistency check (BIND builds) empty clusters make the size array short: c45_empty_cluster_refuted, C116_hierarchical_refuted')
claim('C121','proved','C121_knord C121_knord_pruned C121_wrong_files C121_wrong_centers C121_premises_met','exact arithmetic; option parsing is not modelled (ka_init is the initialisation after parsing: a -t after -C overrides none); MPI as in C35/C105')
claim('C122','proved','C122_equality C122_equality_R','clusters::operator== (dense sets); over doubles == is IEEE equality, so a set holding a NaN is not equal to itself.')
claim('C123','partial','C123_same_as_library C123_hmeans C123_hmeans_means C123_xmeans C123_gmeans C123_fcm C123_skmeans C123_mb_knori C123_kmeanspp C123_medoids_partial C123_medoids_refuted C123_gmm_refuted','Refuted for two programs: medoids with a centroid file never yields a result (the file is not read and the library throws), and gmm never writes a file (and without the NUMA library never ends normally). Proved for the others and for medoids from random rows. kmeanspp is proved for builds where the elements of a cleared vector stay usable memory (C64); for gmeans the statement is about the runs that come to an end (C103). Over exact reals except the hierarchical programs, fcm and same_as_library (any arithmetic).')
claim('C124','proved','C124_bad_files C124_short_centers C124_unknown_names C124_kmeanspp','Builds with assertions. The expected byte count must fit in 64 bits, as the statement says (otherwise the check wraps, C119_wrong_size_refuted).')
claim('C125','proved','C125_hclust C125_xmeans C125_hclust_returns C125_xmeans_returns','Real arithmetic, any fair schedules. The two unconditional theorems are for the cosine distance with assertions on; for the other distances a run can abort when every distance reaches the type\'s largest value (C72_consistency_partial), so the theorems say: if one run returns, so does the other.')
claim('C126','partial','C126_means C126_given_means C126_weights C126_weights_sum C126_zero_weights_refuted','The last sentence is refuted: with forgy or given means, weights and covariances are all zero in the result (C126_zero_weights_refuted). The sum is over real arithmetic; everything else holds for every arithmetic. The means are those drawn at the start because no step of the loop changes them.')
claim('C127','proved','C127_sort C127_statistic C127_order_free C127_affine C127_nonneg C127_critical C127_critical_order C127_critical_negative','The normal distribution function is a parameter (the code calls it through erfc), the logarithm is ln; C127_nonneg asks it to stay strictly between 0 and 1. With at most three values every critical value is negative (C127_critical_negative), so such a split is never undone. Concrete sample: C127_sample.')
claim('C128','proved','C128_pairwise C128_unsupported C128_too_small C128_set_get C128_min','Distances in exact arithmetic; C128_set_get and C128_min hold for every arithmetic (C128_min for every ordered one). C128_min also says when get_min_dist aborts. Concrete matrix: C128_example.')
claim('C129','partial','C129_given C129_forgy C129_random C129_pruned_kmeanspp C129_plain_kmeanspp_partial C129_refuted','Refuted for the sizes: tally_assignment_counts is called only by the pruned coordinator and only after kmeans++, so a plain kmeans++ run (C129_refuted, every input) and a random partition (C129_random, both coordinators) return an assignment of every row and sizes that are all 0. Everything else is proved; the kmeans++ parts in exact arithmetic with proper distances. Concrete input: C129_example.')
claim('C130','proved','C130_fcm C130_kmedoids C130_kmedoids_one_result','Over R. Fuzzy c-means: one result for all threads, loading paths and fair orders. K-medoids: a run that succeeds is reproduced exactly, trace included; with distances far below the largest double there is one result for all. NumaReorg is excluded for k-medoids because the code throws. C130_example meets the hypotheses.')
claim('C131','proved','C131_pruned C131_minibatch C131_fraction C131_premises_met','Over R, equal draws. The mini-batch sampling draws are a function of the round and the row; in the program each worker has its own generator, so equal seeds do not give equal draws to different thread counts. C131_fraction gives the sampled fraction on both sides of the threshold.')
claim('C132','proved','C132_gmeans C132_returns C132_nonvacuous','Over R, equal draws. C132_gmeans: two runs that return give the same result. C132_returns: a run that returns also returns for every other thread count, schedule and loading path, as long as no partition of a round is numbered 2F-1 or above (F = k rounded up as the program does: the containers are created with 2F-1 clusters); past that bound a row of a retired node makes the program read past the container of the group means, which has grown by an amount that depends on the workers (F34, F36), so that one run may stop where the other goes on. C132_nonvacuous is a concrete pair of runs with one and with two threads in IEEE arithmetic, C132_bound shows its ids are within the bound; C132_premises (exact arithmetic) meets the other premises.')
claim('C133','proved','C133_skmeans C133_returns','Over R. C133_returns covers the distances other than cosine. C133_example (two threads and one thread) meets the premises of both.')
claim('C134','proved','C134_same C134_returns','Over R, in builds where the elements of a cleared vector stay usable (by the C++ standard every call with two or more starts is undefined: C64_reinit_refuted). C134_example (one thread and two, two starts) meets the premises of both.')
claim('C135','proved','C135_bic C135_order','Over R, with ln for std::log; printing is not modelled. C135_shares: a sharing among three threads.')
claim('C136','proved','C136_assign C136_marks_stay C136_assign_larger C136_plus C136_plus_larger C136_plus_smaller','Any arithmetic. C136_example meets the premises of each.')
