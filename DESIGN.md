# Formal model of flashxio/knor in Rocq (Coq 8.16.1)

## Approach

The C++ is modelled function by function as total, executable Gallina.

* `Base.v` – the modelling language: a result monad `res` whose outcomes are `Ok`,
  and `Err` with a *kind*: out-of-bounds access / other undefined behaviour (`UB`), failed
  `assert` (`Abort`), thrown exception (`Throw`), and loop fuel exhaustion (`Fuel`).
  Arrays are lists with checked access, C `for` loops are `for_` in the monad.
  A theorem `f x = Ok y /\ ...` therefore also says: no undefined behaviour, no abort.
* `Num.v` – `double` is a record `Num` of operations passed explicitly. Instances:
  `NumR` (exact real arithmetic, for laws that are false in floating point) and `NumF`
  (IEEE binary64 from the standard library's `SpecFloat`, including NaN and infinities;
  computable and axiom-free). A theorem quantified over all `Num` holds for both.
  Refutations use `NumF` (or plain integers), i.e. the arithmetic the program really uses.
* Unsigned 32-bit arithmetic is written out (`w32`) where a property is about it.
* Concurrency: small-step interleaving transition systems for the wake/sleep/wait protocol.
* MPI: a list of per-rank states; collectives are functions on the list.
* Random draws: arbitrary streams given as arguments (the theorem quantifies over them).

Files `*Model.v` contain model definitions only (every definition cites file:lines in /repo).
`Spec.v` contains the specification vocabulary, independent of the model.
`*Proofs.v` contain lemmas. `Properties*.v` contain only the property theorems, the
non-vacuity examples and `Print Assumptions`.

Naming: `Cxx_...` for a property theorem; `_partial` = only part of the property;
`_refuted` = the unchanged code violates the property, with a concrete witness.

## Plan per property

| id | model | proof |
|----|-------|-------|
| C01 | row partition with 32-bit wrap | arithmetic; limits (nrow >= 2^32) refuted separately |
| C02 | get_thd_data (upper_bound search), three ways of loading data | list lemmas |
| C03 | task_queue state machine | induction on remaining rows |
| C04 | task pointer with 32-bit product | proved below 2^32 entries, refuted above |
| C05, C06 | rank row ranges with size_t wrap; gather | arithmetic, list lemmas; `local_rid` bound refuted |
| C07–C12 | `clusters`, `sparse_clusters` | array lemmas, field laws over R; iterator set_mean and sparse peq refuted |
| C13, C14 | kmeans_thread::EM_step | loop invariants, any `Num` with transitive `<` |
| C15–C18 | EM_step + update_clusters over all threads | refinement to `assign all rows; sum; divide` |
| C19, C20 | same, over R | variance decomposition; potential + pigeonhole |
| C21–C23 | run loop | determinism of the update; induction on fuel |
| C24 | distance functions over R | Cauchy–Schwarz on lists |
| C25 | string maps | case analysis |
| C26–C29 | initialisers with arbitrary draws | invariants; C29 refuted |
| C30 | dist_matrix | triangular index arithmetic |
| C31, C32, C36 | kmeans_task_thread::EM_step, update_clusters(false) | triangle inequality |
| C33, C34, C37 | whole pruned run | refuted by computed witnesses |
| C35 | dist_task_coordinator::run | invariant over iterations |
| C38–C40 | interleaving semantics | inductive invariant; C39/C40 refuted by schedules |
| C41–C46 | small containers | invariants / refutations at boundaries |
| C47–C50 | dense_matrix, linalg, spherical_projection | index lemmas / refutations |
| C51, C52 | streams, row-major files | induction |
| C53–C56 | hclust / xmeans / gmeans | per-row invariants / refutations |
| C57–C61, C63–C65 | medoid, fcm, skmeans, mini-batch, multi-start, gmm | per-function theorems / refutations |
| C62, C93 | OpenMP entry points (libauto): chunks and reduction order arbitrary | simulation with the thread-pool run |
| C66, C67 | whole runs of the thread-pool k-means | schedule independence (par_run_det), safety invariant |
| C68 | MPI initialisation | per-rank equality |
| C69, C70 | coordinator destruction in the interleaving semantics | inductive invariant; C69 refuted in general |
| C71 | `linalg::scale` (int accumulator) | algebra over R; refuted in general |
| C72–C75 | hierarchical clustering runs (HclustModel) | run invariant over the split tree; C72, C74 refuted |
| C76–C79 | k-medoids (MedoidModel) | exchange argument on the energy; C76 refuted |
| C80–C85 | fuzzy c-means (FcmModel) | algebra over R with `pow` a parameter / `Rpower` |
| C86–C91 | X-means (XmeansModel) | run invariant; C87, C89, C91 refuted |
| C92 | scaled k-means (SkmeansModel) | the scaling phase refines one matrix; then C27 |
| C94–C97 | mini-batch k-means (MbModel) | convexity invariant; stop rule; C96, C97 refuted in general |
| C98–C100 | Gaussian mixtures (GmmModel) | refuted in general, restricted cases proved |
| C101 | G-means result (GmeansModel) | invariant of the main loop (GmeansRun), final completion as in hierarchical clustering |
| C102 | whole G-means run (GmeansModel) | first round by the X-means half-round lemma; whole runs of one round (GmeansOne: the decision on a single group, small children always retire); any run whose first projections cannot be scaled fails (GmeansAbort); refuted by concrete runs |
| C103 | Anderson-Darling statistic and critical values over the reals | A >= 0 for all samples (Gibbs inequality and the sum of m ln m over odd m); sign of the divisor; refuted for at most three groups |
| C104 | kmeans++ seeding by threads and by MPI processes | both equal a sequential specification function (SpecKmspp) |
| C105, C106 | libdist/dist_coordinator.cpp run (unpruned MPI k-means): every process’ Lloyd turn, the reductions, the gather | per-process turn as in C13-C16; processes agree; simulation with the single-process loop |
| C107-C109 | stop rule of the pruned driver; pruned against unpruned, threads and MPI | every driver yields a `lloyd` run (SpecLloyd.v); `lloyd_unique`: without ties there is one such run |
| C110, C111 | pruned OpenMP entry point (libauto/kmeans.cpp compute_min_kmeans) | PrunePasses.v: the facts of a pruned driver for any chunks; the OpenMP loop equals it; then lloyd_unique |
| C112 – C115 | schedule independence of every remaining driver (pruned, mini-batch, multi-start, OpenMP, MPI, hierarchical, X-means, G-means), any arithmetic | ParFree.v: steps of different threads commute, two complete schedules are permutations of one another after dropping idle steps, so a phase that succeeds under one succeeds with the same state under the other; FreeRuns.v lifts this through every loop by a monotone "same success" order on results |
| C116, C117 | the result file (cluster_t::write, libkcommon/types.cpp:106-168) | WriteModel.v prints into a list of characters, with the printing of a double as a parameter; SpecYaml.v is a reader written from the YAML syntax. Round trip by induction on the lists; a proper prefix has fewer newlines. Not modelled: the python subprocess that makes the directory, and whether the file can be opened. |
| C118, C119 | the knori program (exec/knori.cpp:112-193) | CliModel.v composes the checks, the reading of both files, the four engines (models of C13-C23, C31-C37, C93, C110) and the writer of C116; files are lists of bytes with an 8-byte encoding as parameter. Not modelled: cxxopts, atol, stod and the printed messages. `good_call`/`good_output` in PropertiesCli.v state the claim on file contents only. |
| C120 | results of hierarchical clustering, X-means, G-means (types.cpp:46-72 applied to the final state) | PropertiesHresult.v composes the run theorems of C75/C88/C101 with the compactor of C45, for any visiting order of the centroid table; the check (verify_consistency) rules out empty clusters. |
| C121 | exec/knord.cpp main with -o (checks, reading of the centroid file, either MPI engine, writing by the root) | PropertiesCliDist.v composes C105/C35 (the result is the partition of the last turn with its means) with C116 (the text reads back). |
| C122 | clusters::operator== as clusters_eq (ClustersModel) | direct: v_eq compared element by element, index arithmetic for rows |
| C123 | the mains of exec/{hmeans,xmeans,gmeans,skmeans,fcm,mb_knori,kmeanspp,medoids,gmm}.cpp (ExecModel): checks, reading of the files, engine, writing | PropertiesExec.v: exec_check/C123_same_as_library reduce each program to the engine on the numbers of the files; then C120, C92, C81, C94/C95, C64, C57/C77 and the YAML read-back of C116. Two programs are refuted. |
| C124 | the same mains, error paths | case analysis of the checks; read_short for the centroid file |
| C125 | `HclustModel`, `XmeansModel` run twice with different thread counts | relational simulation of the two runs (`HclustThreads`, `XmeansThreads`): every counter and sum the coordinator reads is a sum over all rows |
| C126 | `GmmModel`: construction, forgy_init, random_prob_fill, the loop and gmm_t | a frame invariant (means, covariances, weights are never written by the loop) and loop invariants of the fills (`PropertiesGmmInit`) |
| C127 | `GmeansModel`: the insertion of sorted values, ad_statistic, ad_critical, over R | the sort is a permutation and sorted, sorted permutations over R are unique, so the statistic equals the formula `AD` of the sorted sample; standardisation cancels affine maps |
| C128 | `PruneModel`: dist_matrix create/translate/get/set/pw_get/get_min_dist/compute_pairwise_dist | `dm_ok`/`dmv` view of the triangle; loop invariant 'all pairs with smaller index below i are done' |
| C129 | `KmeansModel.run`, `PruneModel.prune_run` at max_iters 0 | the loop makes no step, so the result is the initialiser's state; C26/C28 lemmas describe it; sizes are zero unless tallied (refutation) |
| C130 | FcmModel, MedoidModel with two thread counts and loading paths side by side. Fuzzy c-means: each state is determined by the data (C80), the M step's sums regroup over R. K-medoids: the merged candidates are the strict running minimum over the rows in order (isbest), which does not depend on where the row ranges are cut; energies over R are sums over the cluster. Loop induction carries equality of states. |
| C131 | PruneModel, MbModel with two thread counts and loading paths side by side. Relation between the two coordinator states: equal centroids, per-row assignments and stored distances, drifts and change counts (not the workers' containers). One round preserves it: each row's scan reads the row, the centroids, the drift, the half-distance table and s_val, which are determined by the centroids; the workers' deltas add up to per-cluster sums over all rows (ClusterSums). Start: creation, the four initialisers (kmspp_loop_eq for kmeans++). Loop induction, for both run functions. |
| C132 | GmeansModel with two thread counts side by side. Relation between the states: equal hclust state, group means with equal cells (a cell is zero past the end of a container, since sparse containers grow to the largest id any worker saw), nothing about the workers' containers. A MEAN step, every iteration, every decision and every split preserve it: the cells are sums over the rows of a group, and the projections are determined by the row and the split's two centroids. Loop induction with two fuels; start: creation and the initialisers. C132_returns (GmeansThreadsEx.v) gives the second run its existence: merging sparse containers never fails, the group means are read below their initial size under the bound on the ids, H_SPLIT writes the same projections, and every decision is then the same function of the same state. |
| C133 | SkmeansModel with two thread counts. C92 gives the bounds of each as the least and greatest of the values and DBL_MAX/DBL_MIN, which are unique, hence one scaled matrix; the workers' ranges do not depend on the values; C18 on the scaled matrix. Returning: the scaled values lie in [0,1], then C20_returns. |
| C134 | BestOfModel with two thread counts. The two coordinators' states are equal but for the workers' own clusters: kept by seeding (every kmeans++ round computes the same distances, and the total of the partial sums is the sum over the rows), by reinit and by the tally; energies and outputs read only the equal parts. Induction over the starts. |
| C135 | get_bic (PropertiesBic): an OpenMP reduction is a list of threads in finishing order, each a list of iterations in execution order, together a permutation of all iterations; the sum over R is invariant under permutation. |
| C136 | assign_op and plus_eq (PropertiesClusterOps): directly; plus_eq on a larger right-hand side equals plus_eq on its truncation |

## Trusted base

* The kernel of Coq 8.16.1 (`vm_compute` included: the examples and the computed refutations use it).
* The axioms listed below per theorem. All come from the standard library: those of its classical
  reals (`sig_not_dec`, `sig_forall_dec`, `functional_extensionality_dep`) and, through lemmas on
  `ln`, `Rpower`, `PI`, `classic`. Nothing of mathcomp, std++, Iris, Coquelicot or Flocq is used.
* The fidelity of the hand-written model to /repo. Every definition cites the lines it models.

### What is modelled

* libman: coordinator.cpp, thread.cpp (row partition, wake/sleep/wait protocol, destruction),
  kmeans_coordinator.cpp, kmeans_thread.cpp, kmeans_task_coordinator.cpp, kmeans_task_thread.cpp
  (pruned, mini-batch, multi-start), task_queue, hclust*, xmeans*, gmeans*, medoid*, fcm*, skmeans*, gmm*.
* libkcommon: clusters.cpp (all containers), dense_matrix.hpp, linalg.hpp, dist_matrix, thd_safe_bool_vector,
  vmap, types.cpp, the distance functions and id/string maps, readers and writers of row-major files.
* libauto: kmeans.cpp (both OpenMP entry points). mpi/libdist: the pruned driver. binding: kmeanspp.hpp.

### What is not modelled, and the assumptions made instead

* Weak memory: the interleaving semantics is sequentially consistent. Row steps of one round are
  atomic because the row ranges are disjoint (C01), except where stated (gmm).
* Random generators: theorems quantify over all draws (uniform draws are arbitrary numbers in range;
  mini-batch sampling is an arbitrary function of iteration and row; medoid sampling an arbitrary outcome).
* Libm: `sqrt` is exact over R and correctly rounded in `NumF`; `pow`, `log`, `log2` are parameters.
* Builds have assertions on, except where IoModel's `ndebug` flag says otherwise; `BIND` is a flag where
  it changes behaviour (hclust, gmm). Vector storage after `clear()` is a flag (`keep`) in C64, C98.
* MPI: reliable, collectives complete; reduction order arbitrary. OpenMP: chunks, schedules and reduction
  orders arbitrary; `max_threads <= 0` not modelled; the `unordered_map` insertion race of X-means excluded.
* Skipped: timing, printing, NUMA placement (only the data each thread sees), SEM/SAFS external-memory
  code, Python/R bindings other than kmeanspp.hpp, command-line parsing.

### Axioms per theorem

<!-- assumptions begin -->
Generated by tools/assumptions.py from `Print Assumptions` of every theorem named in MANIFEST.json.

**Closed under the global context (no axioms)** (266 theorems):
C01_above_limit_refuted, C01_threads_split_rows, C02_row_lookup, C03_near_limit_refuted, C03_tasks_cover_rows, C04_task_data_partial, C04_task_data_refuted, C05_local_rid_refuted, C05_processes_own_rows, C05_worker_data, C05_worker_rows, C06_gather, C06_gather_position, C08_finalize, C09_merge_two, C09_size_mismatch, C100_fields_partial, C100_resp_refuted, C101_gmeans_result, C102_first_projections_refuted, C102_first_round_partial, C102_one_round_partial, C102_refuted, C104_example_dist, C104_example_serial, C105_example, C105_example_random, C106_example, C106_iterations_differ, C108_example, C108_tie_differs, C109_refuted, C109_tolerance_refuted, C10_set_mean_iter_1d_partial, C10_set_mean_iter_refuted, C10_set_mean_partial, C111_first_move_refuted, C111_one_iteration_example, C111_refuted, C112_minibatch, C112_multistart, C112_premises_met, C112_pruned, C113_openmp, C113_premises_met, C113_premises_met_pp, C114_mpi, C114_premises_met, C115_hierarchical, C115_premises_met, C116_digits_refuted, C116_file_partial, C116_hierarchical_refuted, C116_kmeans, C116_premises_met, C116_same_file, C116_short_sizes, C117_truncated, C119_long_centers_refuted, C119_no_centers_file, C119_no_data_file, C119_none_needs_centers, C119_short_centers, C119_unknown_names, C119_wrong_size_partial, C119_wrong_size_refuted, C120_gmeans, C120_hierarchical, C120_premises_met, C120_written, C120_xmeans, C121_wrong_centers, C121_wrong_files, C122_equality, C123_fcm, C123_gmeans, C123_gmm_refuted, C123_hmeans, C123_medoids_refuted, C123_same_as_library, C123_xmeans, C124_bad_files, C124_kmeanspp, C124_short_centers, C124_unknown_names, C126_given_means, C126_means, C126_weights, C126_zero_weights_refuted, C127_sort, C128_min, C128_set_get, C128_too_small, C128_unsupported, C129_forgy, C129_given, C129_random, C12_count_bounds, C12_grow_add_partial, C12_grow_merge_refuted, C132_nonvacuous, C136_assign, C136_assign_larger, C136_marks_stay, C136_plus, C136_plus_larger, C136_plus_smaller, C13_nearest, C14_iteration_aborts, C14_no_invalid_id, C15_returned_sizes, C15_sizes, C17_changes_counted, C21_fixed_point, C22_iteration_count_partial, C22_refuted, C23_stops, C25_dist_names, C25_init_names, C26_forgy, C33_refuted, C34_cos_refuted, C34_sqeucl_refuted, C34_taxi_refuted, C35_example_forgy, C35_example_none, C35_example_plusplus, C35_example_random, C37_refuted, C37_unpruned_accepts, C38_example, C38_wait_means_finished, C39_refuted, C39_wait_returns_partial, C40_example, C40_plain_once_per_round, C40_queue_once_per_round_partial, C40_queue_refuted, C53_iteration, C53_iteration_total, C54_first_seeds, C54_forgy_select_member, C54_forgy_select_refuted, C54_seeds, C55_gmeans_count, C55_gmeans_run, C55_gmeans_split_restored, C55_rejected_split_restored, C56_refuted, C57_medoid_update, C57_medoids_are_rows, C58_nonvacuous, C58_stops_when_stable, C61_constant_feature_aborts, C62_iterations_partial, C62_pruned_iterations_partial, C62_refuted, C62_rejects_k, C62_rejects_strings, C63_rate_refuted, C64_reinit_refuted, C65_mean_refuted, C65_nan_refuted, C65_position_refuted, C65_result_nan_refuted, C66_schedule_independent, C67_no_out_of_bounds, C69_destructor_safe_partial, C69_refuted, C70_destruction_ends, C72_consistency_partial, C72_refuted, C73_safe_and_terminates, C74_cluster_bound_partial, C74_refuted, C75_ids_and_sizes, C76_euclidean_partial, C76_metric_ignored, C76_refuted, C77_result_consistent, C78_schedule_independent, C79_no_reorganised_data, C79_only_forgy, C80_schedule_independent, C81_result, C82_stops, C83_start, C83_unsupported, C86_safe_and_terminates, C87_consistency_partial, C87_refuted, C88_ids_and_sizes, C89_refuted, C92_scaled_kmeans, C93_openmp_bits, C96_iterations_refuted, C98_bounds_refuted, C98_dets_refuted, C98_exit_refuted, C98_kmeanspp_refuted, C99_bounded_partial, C99_one_iteration_refuted, c41_check_set_refuted, c41_create, c41_history_partial, c41_in_bounds_iff, c41_set_get, c41_sets_commute, c42_has_key_partial, c42_has_key_refuted, c42_history_partial, c42_iterate, c42_keys, c42_set_capacity, c42_write_refuted, c43_double_return_breaks, c43_ids_dense, c43_ids_unique, c44_activation_history, c44_activations, c44_active_history, c44_active_rows, c44_iteration, c44_run, c45_compact_partial, c45_empty_cluster_refuted, c45_negative_size_aborts, c46_eq_all_ignores_last, c46_equal_means_prefix, c46_gmm_partial, c46_refuted, c46_same_shape_partial, c47_copy_from, c47_divisions, c47_equality, c47_get_set, c47_linalg, c47_mean, c47_minus_vector, c47_plus_minus, c47_product, c47_resize, c47_set_buffers, c47_sums, c47_zero_power_norm, c48_argmax_partial, c51_interleave, c51_processes, c51_skip, c51_strided, c52_read_all, c52_read_rows, c52_readline_to, c52_short_file, c52_store_cluster, c52_stream_lines, c52_stream_read, c52_text_all, c52_text_line, c52_write_pieces, f_fair_exists, gmeans_nonvacuous, hclust_nonvacuous, hclust_valid_needed, medoid_nonvacuous, xmeans_nonvacuous.

**Axioms: `functional_extensionality_dep`, `sig_forall_dec`** (1 theorems):
C81_nonvacuous.

**Axioms: `functional_extensionality_dep`, `sig_forall_dec`, `sig_not_dec`** (140 theorems):
C07_add_remove, C07_swap, C08_round_trip, C09_merge_grouping, C09_merge_order, C104_processes_agree, C104_seeding, C105_means, C105_nearest, C105_no_ub, C105_premises_met, C105_result, C105_start, C106_premises_met, C106_same_result, C107_premises_met, C107_pruned_stop, C108_premises_met, C108_pruned_mpi, C109_premises_met, C109_pruned_threads_partial, C110_pruned_openmp, C111_one_iteration_refuted, C111_premises_met, C111_pruned_is_unpruned_partial, C118_openmp, C118_openmp_pruned, C118_premises_met, C118_threads, C118_threads_pruned, C118_threads_returns, C119_premises_met, C11_scale_centroid, C120_hierarchical_means, C121_knord, C121_knord_pruned, C121_premises_met, C122_equality_R, C123_hmeans_means, C123_kmeanspp, C123_mb_knori, C123_medoids_partial, C123_skmeans, C125_hclust, C125_hclust_returns, C125_xmeans, C125_xmeans_returns, C126_weights_sum, C127_critical, C127_critical_negative, C127_critical_order, C128_pairwise, C129_plain_kmeanspp_partial, C129_pruned_kmeanspp, C129_refuted, C130_fcm, C130_kmedoids, C130_kmedoids_one_result, C131_fraction, C131_minibatch, C131_premises_met, C131_pruned, C132_gmeans, C132_returns, C133_returns, C133_skmeans, C134_returns, C134_same, C16_centroids_are_means, C18_threads_irrelevant, C19_objective_never_increases, C20_converges, C20_returns, C24_cosine, C24_metric_laws, C24_squared, C24_values, C27_random_partition, C28_kmeanspp, C29_refuted, C29_rule, C29_selectable_partial, C30_distance_table, C30_example, C31_pruned_step_nearest, C32_bounds_stay_valid, C33_first_pass_nearest, C33_premises_met, C33_pruned_nearest_partial, C35_dist_means, C35_dist_nearest, C35_dist_result, C35_premises_met, C35_run_succeeds, C36_incremental_means, C36_result, C37_prune_accepts_k_partial, C56_accumulated, C56_partial, C57_energy_never_increases, C57_recorded_energy, C57_run_succeeds, C57_total_distance, C61_partial, C61_refuted, C63_any_init, C63_partial, C64_best_start_partial, C64_call_partial, C65_rows_sum_partial, C68_dist_start, C75_centroids, C89_output_centroids, C89_partial, C93_no_out_of_bounds, C93_openmp_is_library, C94_centroids_in_box, C94_completes, C95_final_assignment, C96_stop_partial, C97_fraction_partial, C97_fraction_refuted, C98_completes_partial, c44_percentages, c47_column_sums_exact, c47_means_exact, c47_product_exact, c48_refuted, c49_computes, c49_inverse_partial, c49_refuted, c49_two_by_two, c50_projection_partial, c50_refuted, c50_rows_kept, c50_second_row_refuted, c71_refuted, c71_scale_partial, gmeans_run_exists_R, mb_premises_met.

**Axioms: `classic`, `functional_extensionality_dep`, `sig_forall_dec`, `sig_not_dec`** (22 theorems):
C103_few_groups_refuted, C103_first_split_refuted, C127_affine, C127_nonneg, C127_order_free, C127_statistic, C135_bic, C135_order, C59_at_centre_smaller, C59_closer_larger_partial, C59_refuted, C60_weighted_means, C65_negative_refuted, C81_nearest_centre, C84_memberships, C85_nonvacuous, C85_objective_decreases, C90_scores, C91_partial, C91_refuted, ad_statistic_nonneg, fx_ran.
<!-- assumptions end -->
