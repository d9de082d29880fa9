(** C62, C93: the OpenMP entry points. *)
From Coq Require Import Reals Lra Permutation.
From Verif Require Import Base Num Spec DistModel ClustersModel ClustersView PartitionModel ParModel KmeansModel PruneModel.
From Verif Require Import MatLemmas VecLemmas ClustersProofs DistProofs PartitionProofs ParProofs NearProofs KmeansProofs UpdateProofs RunProofs.
From Verif Require Import InitProofs SimProofs KmeansR SseProofs PropertiesKmeans PropertiesKmeansR PropertiesRun OmpModel OmpProofs.
Set Implicit Arguments.

(** ** C62, the exceptions *)
Theorem C62_rejects_k : forall N (g : kcfg N) da ia centers data chunks red d scheds,
  (g_k g < 2 \/ g_nrow g < g_k g) ->
  compute_kmeans g da ia centers data chunks red d scheds = Err Throw /\
  compute_min_kmeans g da ia centers data chunks red d scheds = Err Throw.
Proof.
  intros N g da ia centers data chunks red d scheds H.
  assert (E : k_rejected (g_k g) (g_nrow g) = true).
  { unfold k_rejected. destruct (Nat.ltb_spec (g_nrow g) (g_k g)); [reflexivity|]. destruct (Nat.ltb_spec (g_k g) 2); [reflexivity|]. lia. }
  unfold compute_kmeans, compute_min_kmeans. rewrite E. auto.
Qed.
Print Assumptions C62_rejects_k.

Theorem C62_rejects_strings : forall N (g : kcfg N) da ia centers data chunks red d scheds,
  da = DOther \/ ia = IOther -> (ia = INone -> g_k g * g_ncol g <= length centers) ->
  compute_kmeans g da ia centers data chunks red d scheds = Err Throw.
Proof.
  intros N g da ia centers data chunks red d scheds H Hc. unfold compute_kmeans. destruct (k_rejected _ _); [reflexivity|].
  assert (Eo : exists o, omp_create g ia centers = Ok o).
  { unfold omp_create. destruct ia; cbn [Base.bind]; eauto.
    rewrite (@set_mean_all_ok N (g_k g) (g_ncol g) (clusters_create N (g_k g) (g_ncol g)) (centers, 0) (firstn (g_k g * g_ncol g) centers)); [|apply shaped_create|simpl; auto|reflexivity]. cbn [Base.bind]. eauto. }
  destruct Eo as (o & ->). cbn [Base.bind]. destruct H as [-> | ->]; [reflexivity|]. destruct da; reflexivity.
Qed.

(** ** C62, the number of iterations *)
Lemma omp_loop_len N (g : kcfg N) ws scheds : forall n iter s t i c f tr,
  omp_loop g ws scheds n iter s t = Ok (i, c, f, tr) ->
  length tr <= length t + n /\ (c = false -> length tr = length t + n /\ i = iter + n) /\ (c = true -> i + length t + 1 = iter + length tr).
Proof.
  induction n as [|n IH]; intros iter s t i c f tr H; cbn [omp_loop] in H.
  - injection H as <- <- _ <-. splits; try lia; discriminate.
  - apply bind_ok in H as (s' & _ & H). destruct (stop_test g (s_changed s')).
    + injection H as <- <- _ <-. rewrite app_length. cbn [length]. splits; try lia; discriminate.
    + apply IH in H as (H1 & H2 & H3). rewrite app_length in *. cbn [length] in *. splits; try lia.
Qed.

(** the entry point performs at most max_iters-1 iterations, exactly that many
    when it does not converge *)
Theorem C62_iterations_partial : forall N (g : kcfg N) da ia centers data chunks red d scheds rr,
  compute_kmeans g da ia centers data chunks red d scheds = Ok rr ->
  length (rr_trace rr) <= g_max_iters g - 1 /\
  (rr_converged rr = false -> length (rr_trace rr) = g_max_iters g - 1 /\ ct_iters (rr_out rr) = g_max_iters g) /\
  (rr_converged rr = true -> ct_iters (rr_out rr) = length (rr_trace rr)).
Proof.
  intros N g da ia centers data chunks red d scheds rr H. unfold compute_kmeans in H. destruct (k_rejected _ _); [discriminate|].
  apply bind_ok in H as (o & _ & H). destruct (match da with DEucl => _ | _ => _ end) as [dt|]; [|discriminate].
  apply bind_ok in H as (s & _ & H). apply bind_ok in H as ([[[i c] f] tr] & E & H). injection H as <-. cbn [rr_trace rr_converged rr_out ct_iters].
  change (g_max_iters (with_dt g dt)) with (g_max_iters g) in E.
  apply omp_loop_len in E as (E1 & E2 & E3). cbn [length] in *.
  destruct (Nat.ltb_spec 0 (g_max_iters g)); splits; try lia; intros Ec; specialize (E2 Ec) || specialize (E3 Ec); lia.
Qed.
Print Assumptions C62_iterations_partial.

(** so the requested number is never performed; with a limit of one nothing is
    computed at all: the result is the state after the initialisation *)
Theorem C62_refuted : forall N (g : kcfg N) da ia centers data chunks red d scheds rr,
  compute_kmeans g da ia centers data chunks red d scheds = Ok rr ->
  (1 <= g_max_iters g -> length (rr_trace rr) < g_max_iters g) /\
  (g_max_iters g = 1 -> rr_trace rr = [] /\ ct_iters (rr_out rr) = 1 /\ rr_converged rr = false /\
     ct_asg (rr_out rr) = s_asg (rr_init rr) /\ ct_counts (rr_out rr) = s_counts (rr_init rr) /\
     ct_centroids (rr_out rr) = c_means (s_cltrs (rr_init rr))).
Proof.
  intros N g da ia centers data chunks red d scheds rr H. split.
  - intros Hm. apply C62_iterations_partial in H as (H & _). lia.
  - intros Hm. unfold compute_kmeans in H. destruct (k_rejected _ _); [discriminate|].
    apply bind_ok in H as (o & _ & H). destruct (match da with DEucl => _ | _ => _ end) as [dt|]; [|discriminate].
    apply bind_ok in H as (s & _ & H). apply bind_ok in H as ([[[i c] f] tr] & E & H). injection H as <-.
    change (g_max_iters (with_dt g dt)) with (g_max_iters g) in E. rewrite Hm in E. cbn [Nat.ltb Nat.leb Nat.sub omp_loop] in E.
    injection E as <- <- <- <-. cbn. auto 10.
Qed.
Print Assumptions C62_refuted.

Lemma omp_ploop_len N (g : kcfg N) ws scheds : forall n iter s t i c f tr,
  omp_ploop g ws scheds n iter s t = Ok (i, c, f, tr) ->
  length tr <= length t + n /\ (c = false -> length tr = length t + n /\ i = iter + n).
Proof.
  induction n as [|n IH]; intros iter s t i c f tr H; cbn [omp_ploop] in H.
  - injection H as <- <- _ <-. splits; try lia.
  - apply bind_ok in H as (mp & _ & H). apply bind_ok in H as (s' & _ & H). destruct (stop_test g (ps_changed s')).
    + injection H as <- <- _ <-. rewrite app_length. cbn [length]. splits; try lia; discriminate.
    + apply IH in H as (H1 & H2). rewrite app_length in *. cbn [length] in *. splits; try lia.
Qed.

(** the pruned entry point: the first pass, then max_iters-2 more *)
Theorem C62_pruned_iterations_partial : forall N (g : kcfg N) da ia centers data chunks red d scheds rr,
  compute_min_kmeans g da ia centers data chunks red d scheds = Ok rr ->
  length (pr_trace rr) <= max (min 1 (g_max_iters g)) (g_max_iters g - 1) /\
  (pr_converged rr = false -> length (pr_trace rr) = max (min 1 (g_max_iters g)) (g_max_iters g - 1)).
Proof.
  intros N g da ia centers data chunks red d scheds rr H. unfold compute_min_kmeans in H. destruct (k_rejected _ _); [discriminate|].
  apply bind_ok in H as (o & _ & H). apply bind_ok in H as (dm & _ & H). destruct (match da with DEucl => _ | _ => _ end) as [dt|]; [|discriminate].
  apply bind_ok in H as (s & _ & H). apply bind_ok in H as (mp & _ & H). apply bind_ok in H as (s1 & _ & H).
  apply bind_ok in H as ([[[i c] f] tr] & E & H). injection H as <-. cbn [pr_trace pr_converged].
  change (g_max_iters (with_dt g dt)) with (g_max_iters g) in E.
  apply omp_ploop_len in E as (E1 & E2).
  destruct (Nat.ltb_spec 0 (g_max_iters g)); cbn [length] in *; split; try lia; intros Ec; specialize (E2 Ec); lia.
Qed.
Print Assumptions C62_pruned_iterations_partial.

(** ** C93: an OpenMP run is a library run *)
(** the hypotheses: a valid input, an accepted k, chunks that tile the rows,
    complete schedules on both sides, the same draws *)
Definition omp_args N (g : kcfg N) (it : init_t) centers data chunks (d d' : draws N) (scheds scheds' : nat -> list nat) : Prop :=
  valid_input g data /\ 2 <= g_k g <= g_nrow g /\ Z.of_nat (g_k g) <> (2 ^ 32 - 1)%Z /\
  ntiles 0 (g_nrow g) chunks /\ fair g data scheds /\ (forall i, complete chunks (scheds' i)) /\
  d_int d = d_int d' /\ d_real d = d_real d' /\ draws_ok g data it d /\
  (it = PLUSPLUS -> forall i, complete chunks (d_sched d' i)) /\ centers_ok g (Some centers) it.

Local Open Scope R_scope.

Lemma rsum_perm l l' : Permutation l l' -> rsum l = rsum l'.
Proof. induction 1; simpl; lra. Qed.

Theorem C93_openmp_is_library : forall (g0 : kcfg NumR) da dt ia it centers data chunks red d d' scheds scheds',
  (* the library run with the same metric and initialisation and one iteration fewer *)
  let g := mkCfg NumR (g_nrow g0) (g_ncol g0) (g_k g0) (g_max_iters g0 - 1) (g_nthreads g0) (g_tol g0) dt (g_kind g0) in
  dist_of da = Some dt -> init_of ia = Some it ->
  omp_args g it centers data chunks d d' scheds scheds' ->
  (* the reduction adds the partial sums in some order *)
  (forall l, exists l', Permutation l l' /\ red l = fold_left Rplus l' 0) ->
  match run g (Some centers) it data d scheds, compute_kmeans g0 da ia centers data chunks red d' scheds' with
  | Ok a, Ok b =>
      ct_asg (rr_out a) = ct_asg (rr_out b) /\ ct_counts (rr_out a) = ct_counts (rr_out b) /\
      ct_centroids (rr_out a) = ct_centroids (rr_out b) /\ rr_converged a = rr_converged b /\
      length (rr_trace a) = length (rr_trace b)
  | Err e, Err e' => e = Abort /\ e' = Abort
  | _, _ => False
  end.
Proof.
  intros g0 da dt ia it centers data chunks red d d' scheds scheds' g Hda Hia (V & (Hk & Hkn) & Hkm & Ht & F & F' & Ei & Er & D & Fp & Hc) Hred.
  destruct (get_workers V) as (ws & B & W). pose proof V as (V1 & V2 & V3 & V4). pose proof W as (Wt & _).
  set (ws2 := omp_workers NumR chunks data (g_ncol g)).
  assert (W2 : ntiles 0 (g_nrow g) (w_ranges ws2)) by (unfold ws2; rewrite omp_workers_ranges; exact Ht).
  pose proof (@omp_run_sim NumR g0 da dt ia it centers data chunks red d d' scheds scheds' ws Hda Hia V Hk Hkn Hkm B W Ht F F' Ei Er D) as H. cbv zeta in H. change (with_iters (with_dt g0 dt) (g_max_iters g0 - 1)) with g in H. fold ws2 in H.
  specialize (H ltac:(intros E; apply Fp; subst ia; cbn in Hia; congruence) Hc).
  specialize (H ltac:(intros A j LA Hj; rewrite (@ucel_R g data ws A j V4 LA Wt), (@ucel_R g data ws2 A j V4 LA W2); reflexivity)).
  assert (Htot : ia = IKmeanspp -> forall cells : list (R * option nat), length cells = g_nrow g ->
    fold_left Rplus (wsums ws cells) 0 = red (wsums ws2 cells)).
  { intros _ cells L. destruct (Hred (wsums ws2 cells)) as (l' & P & ->). rewrite (@wsums_total cells (g_nrow g) ws Wt L).
    pose proof (@wsums_total cells (g_nrow g) ws2 W2 L) as E2. rewrite fold_left_Rplus, <- (rsum_perm P), <- E2, fold_left_Rplus. reflexivity. }
  specialize (H Htot).
  destruct (run g (Some centers) it data d scheds) as [a|e]; destruct (compute_kmeans g0 da ia centers data chunks red d' scheds') as [b|e']; try contradiction.
  - destruct H as ((H1 & H2 & H3 & H4 & H5) & _). splits; auto. eapply Forall2_length_eq; eauto.
  - destruct H as (-> & ->). auto.
Qed.
Print Assumptions C93_openmp_is_library.

(** hence, no other outcome on valid arguments: no out-of-bounds access and no
    exception *)
Theorem C93_no_out_of_bounds : forall (g0 : kcfg NumR) da dt ia it centers data chunks red d d' scheds scheds',
  let g := mkCfg NumR (g_nrow g0) (g_ncol g0) (g_k g0) (g_max_iters g0 - 1) (g_nthreads g0) (g_tol g0) dt (g_kind g0) in
  dist_of da = Some dt -> init_of ia = Some it ->
  omp_args g it centers data chunks d d' scheds scheds' ->
  (forall l, exists l', Permutation l l' /\ red l = fold_left Rplus l' 0) ->
  (exists b, compute_kmeans g0 da ia centers data chunks red d' scheds' = Ok b) \/
  compute_kmeans g0 da ia centers data chunks red d' scheds' = Err Abort.
Proof.
  intros g0 da dt ia it centers data chunks red d d' scheds scheds' g Hda Hia A Hred.
  pose proof (@C93_openmp_is_library g0 da dt ia it centers data chunks red d d' scheds scheds' Hda Hia A Hred) as H.
  cbv zeta in H. fold g in H. destruct (run g (Some centers) it data d scheds) as [a|e]; destruct (compute_kmeans g0 da ia centers data chunks red d' scheds') as [b|e']; try contradiction; [left; eauto|right].
  destruct H as (_ & ->). reflexivity.
Qed.

Close Scope R_scope.

(** bit for bit, for any arithmetic (binary64 included), when the runtime's
    chunks are the library's partition of the rows *)
Theorem C93_openmp_bits : forall N (g0 : kcfg N) da dt ia it centers data chunks red d d' scheds scheds' ws,
  let g := mkCfg N (g_nrow g0) (g_ncol g0) (g_k g0) (g_max_iters g0 - 1) (g_nthreads g0) (g_tol g0) dt (g_kind g0) in
  dist_of da = Some dt -> init_of ia = Some it ->
  omp_args g it centers data chunks d d' scheds scheds' ->
  build_workers g data = Ok ws -> chunks = w_ranges ws ->
  (forall l, red l = fold_left (nadd N) l (nzero N)) ->
  match run g (Some centers) it data d scheds, compute_kmeans g0 da ia centers data chunks red d' scheds' with
  | Ok a, Ok b =>
      ct_asg (rr_out a) = ct_asg (rr_out b) /\ ct_counts (rr_out a) = ct_counts (rr_out b) /\
      ct_centroids (rr_out a) = ct_centroids (rr_out b) /\ rr_converged a = rr_converged b /\
      length (rr_trace a) = length (rr_trace b)
  | Err e, Err e' => e = Abort /\ e' = Abort
  | _, _ => False
  end.
Proof.
  intros N g0 da dt ia it centers data chunks red d d' scheds scheds' ws g Hda Hia (V & (Hk & Hkn) & Hkm & Ht & F & F' & Ei & Er & D & Fp & Hc) B Ech Hred.
  destruct (get_workers V) as (ws' & B' & W). rewrite B in B'. injection B' as <-.
  set (ws2 := omp_workers N chunks data (g_ncol g)).
  assert (E2 : w_ranges ws2 = w_ranges ws) by (unfold ws2; rewrite omp_workers_ranges; exact Ech).
  assert (E3 : map (fun w : worker N => (w_start w, w_nrow w)) ws2 = map (fun w : worker N => (w_start w, w_nrow w)) ws) by exact E2.
  pose proof (@omp_run_sim N g0 da dt ia it centers data chunks red d d' scheds scheds' ws Hda Hia V Hk Hkn Hkm B W Ht F F' Ei Er D) as H. cbv zeta in H. change (with_iters (with_dt g0 dt) (g_max_iters g0 - 1)) with g in H. fold ws2 in H.
  specialize (H ltac:(intros E; apply Fp; subst ia; cbn in Hia; congruence) Hc).
  assert (Hu : forall A j, length A = g_nrow g -> j < g_k g -> ucel g ws data A j = ucel g ws2 data A j).
  { clear -E2. intros A j _ _. unfold ucel, usum.
    assert (G : forall (h : list (car N) -> nat -> nat -> list (car N)) (l l' : list (worker N)) a,
       w_ranges l' = w_ranges l -> fold_left (fun acc w => h acc (w_start w) (w_nrow w)) l a = fold_left (fun acc w => h acc (w_start w) (w_nrow w)) l' a).
    { intros h. induction l as [|w l IH]; intros [|w' l'] a E; try discriminate; [reflexivity|].
      cbn [w_ranges map] in E. injection E as E1 E2' E3. cbn [fold_left]. rewrite E1, E2'. apply IH. exact E3. }
    rewrite (G (fun s st nr => map2 (nadd N) s (csum N (g_ncol g) j (xas g data st (slice A st nr)))) ws ws2 _ E2). reflexivity. }
  assert (Htot : ia = IKmeanspp -> forall cells : list (car N * option nat), length cells = g_nrow g ->
    fold_left (nadd N) (wsums ws cells) (nzero N) = red (wsums ws2 cells)).
  { intros _ cells L. rewrite Hred. f_equal. unfold wsums.
    transitivity (map (fun sn => fold_left (nadd N) (map fst (slice cells (fst sn) (snd sn))) (nzero N)) (w_ranges ws)).
    - unfold w_ranges. rewrite map_map. reflexivity.
    - rewrite <- E2. unfold w_ranges. rewrite map_map. reflexivity. }
  specialize (H Hu Htot).
  destruct (run g (Some centers) it data d scheds) as [a|e]; destruct (compute_kmeans g0 da ia centers data chunks red d' scheds') as [b|e']; try contradiction.
  - destruct H as ((H1 & H2 & H3 & H4 & H5) & _). splits; auto. eapply Forall2_length_eq; eauto.
  - destruct H as (-> & ->). auto.
Qed.
Print Assumptions C93_openmp_bits.
