(** C01-C06: how rows are distributed over threads, tasks and processes. *)
From Verif Require Import Base Num Spec PartitionModel PartitionProofs.
Local Open Scope Z_scope.

(** C01. [thread_ranges nrow nthreads] are the (first row, number of rows) pairs
    the coordinator gives its workers when the user asks for [nthreads]. *)
Theorem C01_threads_split_rows : forall nrow nthreads,
  1 <= nrow < 2 ^ 32 -> 1 <= nthreads < 2 ^ 32 ->
  exists rngs, thread_ranges nrow nthreads = Ok rngs /\
    Z.of_nat (length rngs) = Z.min nthreads nrow /\
    tiles 0 nrow rngs /\ covers_once 0 nrow rngs.
Proof.
  intros nrow nthreads Hn Ht.
  destruct (@thread_ranges_tile nrow nthreads Ht Hn) as (r & H1 & H2 & H3).
  exists r. splits; auto; apply tiles_cover; exact H3.
Qed.
Print Assumptions C01_threads_split_rows.

Example C01_example : thread_ranges 10 4 = Ok [(0, 2); (2, 2); (4, 2); (6, 4)].
Proof. vm_compute. reflexivity. Qed.

(** The bound on the row count is needed: at 2^32 rows a single thread is given
    no row at all. *)
Theorem C01_above_limit_refuted :
  exists nrow nthreads rngs, 1 <= nrow /\ 1 <= nthreads /\
    thread_ranges nrow nthreads = Ok rngs /\ ~ covers_once 0 nrow rngs.
Proof.
  exists (2 ^ 32), 1, [(0, 0)]. repeat split; try lia.
  intros (H & _). destruct (H 0 ltac:(lia)) as (i & (sn & Hi & Hr) & _).
  destruct i as [|i]; [|destruct i; discriminate]. injection Hi as <-.
  unfold in_range in Hr; simpl in Hr. lia.
Qed.
Print Assumptions C01_above_limit_refuted.

(** C02. For each of the three ways data gets to the workers. *)
Theorem C02_row_lookup : forall (N : Num) kind (data : list (car N)) nrow ncol nthreads r,
  1 <= nrow < 2 ^ 32 -> 1 <= nthreads < 2 ^ 32 -> 0 <= ncol ->
  Z.of_nat (length data) = nrow * ncol -> 0 <= r < nrow ->
  exists p, get_thd_data N kind data nrow ncol nthreads r = Ok p /\
    slice (fst p) (snd p) (Z.to_nat ncol) = slice data (Z.to_nat r * Z.to_nat ncol) (Z.to_nat ncol).
Proof.
  intros N kind data nrow ncol nthreads r Hn Ht Hc Hl Hr.
  exact (@get_thd_data_ok N kind data nrow ncol nthreads r Ht Hn Hc Hl Hr).
Qed.
Print Assumptions C02_row_lookup.

Example C02_example :
  exists p, get_thd_data NumF NumaReorg (map fofZ [1; 2; 3; 4; 5; 6]) 3 2 2 2 = Ok p /\
    slice (fst p) (snd p) 2 = map fofZ [5; 6].
Proof. eexists; split; vm_compute; reflexivity. Qed.

(** C03. [drain] asks for tasks until the queue reports no more work. *)
Theorem C03_tasks_cover_rows : forall q fuel,
  0 <= q_start q -> 1 <= q_nrow q -> q_start q + q_nrow q <= 2 ^ 32 - 8192 -> 0 <= q_ncol q ->
  (Z.to_nat (q_nrow q) < fuel)%nat ->
  exists ts q', drain fuel (q_reset q) = Ok (ts, q') /\
    let rngs := map (fun t => (t_start t, t_nrow t)) ts in
    tiles (q_start q) (q_start q + q_nrow q) rngs /\
    covers_once (q_start q) (q_start q + q_nrow q) rngs /\
    Forall (fun t => 1 <= t_nrow t <= 8193) ts /\
    (exists t, get_task q' = Ok (t, q') /\ t_nrow t = 0).
Proof.
  intros q fuel Hs Hn Hb Hc Hf.
  destruct (@drain_tiles fuel (q_reset q)) as (ts & q' & Hd & Hti & Hfo & Hh & _);
    unfold q_reset in *; cbn [q_start q_nrow q_ncol q_curr q_has] in *; try lia.
  { destruct (Z.ltb_spec 0 (q_nrow q)); [reflexivity|lia]. }
  exists ts, q'. rewrite Z.add_0_r in Hti. splits; auto; try apply tiles_cover; auto.
  unfold get_task. rewrite Hh. eexists; split; reflexivity.
Qed.
Print Assumptions C03_tasks_cover_rows.

Example C03_example :
  let q := mkTQ 100 20000 3 7 false in
  exists q', drain 20 (q_reset q) =
    Ok ([mkTask 0 100 8192; mkTask 24576 8292 8192; mkTask 49152 16484 3616], q').
Proof. eexists; vm_compute; reflexivity. Qed.

(** The bound 2^32-8192 is needed: just below 2^32 rows the worker's cursor wraps
    around and it is handed tasks forever. *)
Theorem C03_near_limit_refuted : forall nrow fuel,
  2 ^ 32 - 8190 <= nrow < 2 ^ 32 ->
  drain fuel (q_reset (mkTQ 0 nrow 1 0 false)) = Err Fuel.
Proof.
  intros nrow fuel Hn. apply drain_diverges; unfold q_reset; cbn [q_start q_nrow q_ncol q_curr q_has];
    try lia; auto. destruct (Z.ltb_spec 0 nrow); [reflexivity|lia].
Qed.
Print Assumptions C03_near_limit_refuted.

(** C04. Proved for workers holding fewer than 2^32 numbers. *)
Theorem C04_task_data_partial : forall (A : Type) (local : list A) q fuel,
  0 <= q_start q -> 1 <= q_nrow q -> q_start q + q_nrow q <= 2 ^ 32 - 8192 -> 0 <= q_ncol q ->
  q_nrow q * q_ncol q < 2 ^ 32 ->
  (Z.to_nat (q_nrow q) < fuel)%nat ->
  exists ts q', drain fuel (q_reset q) = Ok (ts, q') /\
    forall t, In t ts ->
      slice local (Z.to_nat (t_data t)) (Z.to_nat (q_ncol q))
      = slice local (Z.to_nat (t_start t - q_start q) * Z.to_nat (q_ncol q)) (Z.to_nat (q_ncol q)).
Proof.
  intros A local q fuel Hs Hn Hb Hc Hw Hf.
  destruct (@drain_tiles fuel (q_reset q)) as (ts & q' & Hd & Hti & Hfo & Hh & Hda);
    unfold q_reset in *; cbn [q_start q_nrow q_ncol q_curr q_has] in *; try lia.
  { destruct (Z.ltb_spec 0 (q_nrow q)); [reflexivity|lia]. }
  exists ts, q'. split; [exact Hd|]. intros t Ht.
  specialize (Hda Hw). rewrite Forall_forall in Hda. rewrite (Hda t Ht).
  assert (Hge : q_start q <= t_start t).
  { apply tiles_cover in Hti as ((_ & H2) & _). apply In_nth_error in Ht as (i & Hi).
    rewrite Forall_forall in Hfo. pose proof (Hfo t (nth_error_In _ _ Hi)) as Hpos.
    specialize (H2 i (task_rng t) (t_start t)).
    rewrite nth_error_map, Hi in H2. specialize (H2 eq_refl). unfold in_range, task_rng in H2.
    cbn [fst snd] in H2. lia. }
  rewrite Z2Nat.inj_mul by lia. reflexivity.
Qed.
Print Assumptions C04_task_data_partial.

(** With 2^32 or more numbers per worker the property fails: the second task of a
    worker with 20000 rows and 2^19 columns is handed the data of row 0. *)
Theorem C04_task_data_refuted :
  exists q ts q' t, drain 20 (q_reset q) = Ok (ts, q') /\ In t ts /\
    0 < t_start t - q_start q < q_nrow q /\ t_data t = 0 /\ 0 < q_ncol q.
Proof.
  exists (mkTQ 0 20000 (2 ^ 19) 0 false). do 2 eexists.
  exists (mkTask 0 8192 8192). split; [vm_compute; reflexivity|].
  split; [simpl; auto|]. simpl. lia.
Qed.
Print Assumptions C04_task_data_refuted.

(** C05 *)
Theorem C05_processes_own_rows : forall g_nrow nprocs x,
  1 <= nprocs <= g_nrow -> g_nrow < 2 ^ 63 -> 0 <= x < g_nrow ->
  (exists r, (0 <= r < nprocs /\ is_local g_nrow nprocs r x = true) /\
     forall r', 0 <= r' < nprocs -> is_local g_nrow nprocs r' x = true -> r' = r) /\
  (forall r, 0 <= r < nprocs -> is_local g_nrow nprocs r x = true ->
     exists l, local_rid g_nrow nprocs r x = Ok l /\ 0 <= l < dist_nrow g_nrow nprocs r /\
       global_rid g_nrow nprocs r l = x) /\
  tiles 0 g_nrow (map (fun r => (r * (g_nrow / nprocs), dist_nrow g_nrow nprocs r))
                      (map Z.of_nat (seq 0 (Z.to_nat nprocs)))).
Proof.
  intros g p x Hp Hg Hx. pose proof (dist_tiles Hp) as Hti.
  split; [|split].
  - apply tiles_cover in Hti as ((H1 & _) & _). destruct (H1 x Hx) as (i & (sn & Hi & Hin) & Hu).
    assert (Hget : forall j, 0 <= j < p ->
              nth_error (map (dist_rng g p) (zseq (Z.to_nat p))) (Z.to_nat j) = Some (dist_rng g p j)).
    { intros j Hj. rewrite nth_error_map. unfold zseq. rewrite nth_error_map, nth_error_seq.
      destruct (Nat.ltb_spec (Z.to_nat j) (Z.to_nat p)); [|lia]. cbn [option_map Nat.add].
      rewrite Z2Nat.id by lia. reflexivity. }
    assert (Hil : (i < Z.to_nat p)%nat).
    { assert (i < length (map (dist_rng g p) (zseq (Z.to_nat p))))%nat by (apply nth_error_Some; congruence).
      unfold zseq in H. rewrite !map_length, seq_length in H. exact H. }
    exists (Z.of_nat i). assert (Hir : 0 <= Z.of_nat i < p) by lia. split.
    + split; [exact Hir|]. apply is_local_spec; try lia.
      pose proof (Hget _ Hir) as E. rewrite Nat2Z.id, Hi in E. injection E as <-. exact Hin.
    + intros r' Hr' Hl. apply is_local_spec in Hl; try lia.
      specialize (Hu _ _ (Hget r' Hr') Hl). lia.
  - intros r Hr Hl. apply local_global; auto.
  - exact Hti.
Qed.
Print Assumptions C05_processes_own_rows.

Example C05_example : map (fun r => is_local 10 3 r 7) [0; 1; 2] = [false; false; true].
Proof. vm_compute. reflexivity. Qed.

(** the workers of a process read the file at their global rows, and keep their
    assignments at the process's own (local) rows: the shift applied at
    construction is the process's first global row plus the worker's first local
    row, no other, and the shift before the first iteration undoes it exactly *)
Theorem C05_worker_rows : forall g_nrow nprocs r l,
  1 <= nprocs <= g_nrow -> g_nrow < 2 ^ 32 -> 0 <= r < nprocs ->
  0 <= l < dist_nrow g_nrow nprocs r ->
  dist_start_rid g_nrow nprocs r l = r * (g_nrow / nprocs) + l /\
  dist_start_rid g_nrow nprocs r l = global_rid g_nrow nprocs r l /\
  is_local g_nrow nprocs r (dist_start_rid g_nrow nprocs r l) = true /\
  shift_thread_start_rid g_nrow nprocs r (dist_start_rid g_nrow nprocs r l) = l.
Proof.
  intros g p r l Hp Hg Hr Hl.
  assert (E := Z.div_mod g p ltac:(lia)). assert (B := Z.mod_pos_bound g p ltac:(lia)).
  assert (Q : 0 <= r * (g / p) + l < g).
  { unfold dist_nrow in Hl. destruct (Z.eqb_spec r (p - 1)); nia. }
  assert (Q1 : 0 <= r * (g / p)) by (assert (0 <= g / p) by (apply Z.div_pos; lia); nia).
  unfold dist_start_rid, shift_thread_start_rid, global_rid, is_local.
  replace (l + g / p * r) with (r * (g / p) + l) by lia.
  replace (g / p * r + l) with (r * (g / p) + l) by lia.
  replace (g / p * r) with (r * (g / p)) by lia.
  rewrite !(@w32_small (r * (g / p) + l)) by lia.
  rewrite !(@w64_small (r * (g / p) + l)) by lia.
  rewrite !(@w64_small (r * (g / p))) by lia.
  replace (r * (g / p) + l - r * (g / p)) with l by lia.
  rewrite !(@w64_small l) by lia. rewrite !(@w32_small l) by lia.
  splits; try reflexivity. destruct (Z.leb_spec (dist_nrow g p r) l); [lia|reflexivity].
Qed.
Print Assumptions C05_worker_rows.

(** hence, whatever the way the data is given, the [n] rows a worker of process
    [r] loads with its shifted start row are the rows it would load from the
    process's own slice of the data with its local start row (the model of the MPI
    programs, DistRunModel.proc_data, uses the latter) *)
Theorem C05_worker_data : forall (N : Num) (file : list (car N)) g_nrow nprocs r l n d,
  1 <= nprocs <= g_nrow -> g_nrow < 2 ^ 32 -> 0 <= r < nprocs -> 0 <= d ->
  length file = Z.to_nat (g_nrow * d) ->
  0 <= l < dist_nrow g_nrow nprocs r -> 0 <= n -> l + n <= dist_nrow g_nrow nprocs r ->
  numa_alloc_mem N file (dist_start_rid g_nrow nprocs r l) n d
  = numa_alloc_mem N (slice file (Z.to_nat (r * (g_nrow / nprocs) * d))
                                 (Z.to_nat (dist_nrow g_nrow nprocs r * d))) l n d /\
  exists p, numa_alloc_mem N file (dist_start_rid g_nrow nprocs r l) n d = Ok p /\
    p = (slice file (Z.to_nat ((r * (g_nrow / nprocs) + l) * d)) (Z.to_nat (n * d)), 0%nat).
Proof.
  intros N file g p r l n d Hp Hg Hr Hd Lf Hl Hn Hln.
  destruct (@C05_worker_rows g p r l Hp Hg Hr Hl) as (E & _). rewrite E.
  assert (Eg := Z.div_mod g p ltac:(lia)). assert (B := Z.mod_pos_bound g p ltac:(lia)).
  assert (Q0 : 0 <= g / p) by (apply Z.div_pos; lia).
  assert (Q : r * (g / p) + dist_nrow g p r <= g).
  { unfold dist_nrow. destruct (Z.eqb_spec r (p - 1)); nia. }
  assert (Q1 : 0 <= r * (g / p)) by nia.
  unfold numa_alloc_mem. rewrite slice_slice.
  2:{ nia. }
  replace (Z.to_nat (r * (g / p) * d) + Z.to_nat (l * d))%nat
    with (Z.to_nat ((r * (g / p) + l) * d)) by nia.
  split; [reflexivity|]. rewrite slice_length by (rewrite Lf; nia).
  rewrite Nat.eqb_refl. cbn. eexists. split; reflexivity.
Qed.
Print Assumptions C05_worker_data.

Example C05_worker_rows_example :
  dist_start_rid 10 3 2 1 = 7 /\ shift_thread_start_rid 10 3 2 7 = 1.
Proof. split; reflexivity. Qed.


(** A row that is not local is not always rejected: the bound test is off by one. *)
Theorem C05_local_rid_refuted :
  exists g p r x l, 1 <= p <= g /\ 0 <= r < p /\ 0 <= x < g /\
    is_local g p r x = false /\ local_rid g p r x = Ok l.
Proof. exists 10, 2, 0, 5, 5. repeat split; try lia; reflexivity. Qed.
Print Assumptions C05_local_rid_refuted.

(** C06. [locals] are the processes' assignment vectors in rank order. *)
Theorem C06_gather : forall (A : Type) g_nrow nprocs (init : A) locals,
  1 <= nprocs <= g_nrow -> nprocs < 2 ^ 31 -> g_nrow < 2 ^ 32 ->
  Z.of_nat (length locals) = nprocs ->
  (forall r l, nth_error locals r = Some l ->
     Z.of_nat (length l) = dist_nrow g_nrow nprocs (Z.of_nat r)) ->
  gather_root g_nrow nprocs init locals = Ok (concat locals).
Proof. intros A g p init locals H1 H2 H3 H4 H5. exact (gather_ok init locals H1 H2 H3 H4 H5). Qed.
Print Assumptions C06_gather.

(** ... and the position of a row in that vector is its global row id. *)
Theorem C06_gather_position : forall (A : Type) g_nrow nprocs (init : A) locals a r l i,
  1 <= nprocs <= g_nrow -> nprocs < 2 ^ 31 -> g_nrow < 2 ^ 32 ->
  Z.of_nat (length locals) = nprocs ->
  (forall r l, nth_error locals r = Some l ->
     Z.of_nat (length l) = dist_nrow g_nrow nprocs (Z.of_nat r)) ->
  gather_root g_nrow nprocs init locals = Ok a ->
  nth_error locals r = Some l -> (i < length l)%nat ->
  nth_error a (Z.to_nat (global_rid g_nrow nprocs (Z.of_nat r) (Z.of_nat i))) = nth_error l i.
Proof.
  intros A g p init locals a r l i Hp Hp31 Hg Hlen Hloc Ha Hr Hi.
  rewrite (gather_ok init locals Hp Hp31 Hg Hlen Hloc) in Ha. injection Ha as <-.
  assert (Hrp : (r < length locals)%nat) by (apply nth_error_Some; congruence).
  pose proof (Hloc _ _ Hr) as Hll.
  assert (Hq : 1 <= g / p) by (apply Z.div_le_lower_bound; lia).
  assert (Hm : 0 <= g mod p < p) by (apply Z.mod_pos_bound; lia).
  assert (Hd : g = p * (g / p) + g mod p) by (apply Z.div_mod; lia).
  assert (Hpre : Z.of_nat (length (concat (firstn r locals))) = Z.of_nat r * (g / p)).
  { destruct r as [|r']; [reflexivity|].
    rewrite (@concat_prefix_length _ locals (dist_nrow g p)); auto; try lia.
    - unfold dist_nrow. destruct (Z.eqb_spec 0 (p - 1)); [lia|reflexivity].
    - intros j Hj. unfold dist_nrow.
      destruct (Z.eqb_spec 0 (p - 1)); destruct (Z.eqb_spec (Z.of_nat j) (p - 1)); lia. }
  unfold global_rid. rewrite w64_small.
  2:{ unfold dist_nrow in Hll. destruct (Z.eqb_spec (Z.of_nat r) (p - 1)); nia. }
  replace (Z.to_nat (g / p * Z.of_nat r + Z.of_nat i)) with (length (concat (firstn r locals)) + i)%nat by lia.
  rewrite <- (firstn_skipn r locals) at 1. rewrite concat_app, nth_error_app2 by lia.
  rewrite Nat.add_comm, Nat.add_sub.
  assert (Hsk : skipn r locals = l :: skipn (S r) locals).
  { clear - Hr. revert r Hr. induction locals as [|h t IH]; intros [|r] Hr; try discriminate; simpl in *.
    - congruence.
    - apply IH; exact Hr. }
  rewrite Hsk. cbn [concat]. apply nth_error_app1. exact Hi.
Qed.
Print Assumptions C06_gather_position.

Example C06_example : gather_root 7 3 0%nat [[1; 2]; [3; 4]; [5; 6; 7]]%nat = Ok [1; 2; 3; 4; 5; 6; 7]%nat.
Proof. vm_compute. reflexivity. Qed.
