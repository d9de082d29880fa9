(** Model of mini-batch k-means (exec/mb_knori.cpp): mb_run and
    mb_iteration_end of libman/kmeans_task_coordinator.cpp, mb_EM_step and
    mb_finalize_centroids of libman/kmeans_task_thread.cpp.

    A row's uniform draw comes from the generator of the thread that owns the
    row; the model takes the draws as an arbitrary function of iteration and
    row.  Not modelled: printing, timing, the profiler. *)
From Verif Require Import Base Num DistModel ClustersModel PartitionModel ParModel KmeansModel PruneModel MatrixModel.
Set Implicit Arguments.

Section Mb.
Variable N : Num.
Notation T := (car N).
Notation clusters := (clusters N).
Notation pst := (pst N).

(** kmeans_task_coordinator.cpp:327-331: the fraction of rows to sample;
    [nthreads] is the member, i.e. the effective number of threads *)
Definition mb_perctg (g : kcfg N) (mb_size : Z) : T :=
  let nthreads := eff_threads (g_nthreads g) (Z.of_nat (g_nrow g)) in
  let mb_size := if nltb N (ndiv N (nofZ N mb_size) (nofZ N nthreads)) (none N) then 1%Z else mb_size in
  ndiv N (nofZ N mb_size) (nofZ N (Z.of_nat (g_nrow g))).

(** kmeans_task_thread.cpp:160-182 mb_EM_step, one row; the worker's state is
    its mb_selected (local row ids) *)
Definition mb_row (g : kcfg N) (ws : list (worker N)) (p : prune_clusters N) (perctg : T) (u : nat -> T)
  (t r : nat) (sel : list nat) (cell : pcell N) : res (list nat * pcell N) :=
  let* w := aget ws t in
  if nltb N perctg (u (w_start w + r)) then Ok (sel, cell)
  else
    let '(dv, a, rc) := cell in
    let* s := prow_init N (wrow w (g_ncol g) r) (c_means (p_cl p)) (g_ncol g) (c_nclust (p_cl p)) (g_dt g) dv a in
    Ok (sel ++ [r], (fst s, snd s, rc)).

(** kmeans_task_coordinator.cpp:99-109 the learning rates *)
Definition mb_eta (k : nat) (cells : list (pcell N)) : res (list T) :=
  let* v := for_each (asg_of cells) (fun cid v =>
      match cid with None => Ok v | Some c => amod v c (fun x => nadd N x (none N)) end)
      (repeat (nzero N) k) in
  loop k (fun cid v => amod v cid (fun x => ndiv N (none N) x)) v.

(** kmeans_task_thread.cpp:146-158 mb_finalize_centroids of one worker *)
Definition mb_finalize (g : kcfg N) (eta : list T) (cells : list (pcell N)) (w : worker N) (sel : list nat) (c : clusters)
  : res clusters :=
  for_each sel (fun local_rid c =>
    let* a := aget (asg_of cells) (w_start w + local_rid) in
    match a with
    | None => Err Abort
    | Some cid =>
      let* _ := assert_ (cid <? c_nclust c) in
      let* e := aget eta cid in
      scale_centroid c e cid (wrow w (g_ncol g) local_rid)
    end) c.

(** kmeans_task_coordinator.cpp:359-363 with 97-129: one iteration *)
Definition mb_iterate (g : kcfg N) (ws : list (worker N)) (perctg : T) (u : nat -> T) (sched : list nat) (s : pst) : res pst :=
  let p := set_prev_means (ps_cltrs s) in
  let* lc := par_run (mb_row g ws p perctg u) (w_ranges ws) sched (ps_cells s) (map (fun _ => []) ws) in
  let cells := snd lc in
  let* eta := mb_eta (g_k g) cells in
  let* c := for_each (combine ws (fst lc)) (fun (x : worker N * list nat) c => mb_finalize g eta cells (fst x) (snd x) c) (p_cl p) in
  Ok (mkPst (with_cl p c) (ps_dm s) (map (fun e => (nmax N, snd (fst e), snd e)) cells) (ps_counts s) (ps_changed s) (ps_local s)).

(** kmeans_task_coordinator.cpp:365-376 the convergence test *)
Definition mb_change (s : pst) : res T :=
  let m := c_means (p_cl (ps_cltrs s)) in
  let* diff := vdiff (m, 0) (p_prev_means (ps_cltrs s), 0) (length m) [] in
  frobenius_norm (diff, 0) (length diff).

(** kmeans_task_coordinator.cpp:354-377 the loop; [trace] is not in the program *)
Fixpoint mb_loop (g : kcfg N) (ws : list (worker N)) (perctg : T) (u : nat -> nat -> T) (scheds : nat -> list nat)
  (n iter : nat) (s : pst) (trace : list pst) : res (nat * bool * pst * list pst) :=
  match n with
  | 0 => Ok (iter, false, s, trace)
  | S n' =>
    let* s := mb_iterate g ws perctg (u iter) (scheds iter) s in
    let* _ := assert_ (g_k g * g_ncol g =? length (c_means (p_cl (ps_cltrs s)))) in
    let* frob_norm := mb_change s in
    if nltb N frob_norm (g_tol g) then Ok (iter, true, s, trace ++ [s])
    else mb_loop g ws perctg u scheds n' (S iter) s (trace ++ [s])
  end.

Record mb_result := mkMb {
  mb_out : cluster_t N;
  mb_converged : bool;
  mb_init : pst;           (* after run_init *)
  mb_trace : list pst      (* after every mini-batch iteration *)
}.

(** kmeans_task_coordinator.cpp:322-422 mb_run; [scheds max_iters] is the
    schedule of the last, full pass *)
Definition mb_run (g : kcfg N) (mb_size : Z) (centers : option (list T)) (it : init_t) (data : list T)
  (d : draws N) (u : nat -> nat -> T) (scheds : nat -> list nat) : res mb_result :=
  let* s := prune_create_coord g centers it in
  let* ws := build_workers g data in
  let* s0 := prune_run_init g it ws data d s in
  let* r := mb_loop g ws (mb_perctg g mb_size) u scheds (g_max_iters g) 0 s0 [] in
  let '(iter, conv, s, trace) := r in
  let* lc := pEM_round g ws (ps_cltrs s) (ps_dm s) true (scheds (g_max_iters g)) (ps_local s) (ps_cells s) in
  let* counts := tally (snd lc) (repeat 0%Z (g_k g)) in
  Ok (mkMb (mkCluster N (g_nrow g) (g_ncol g) iter (g_k g) (asg_of (snd lc)) counts (c_means (p_cl (ps_cltrs s)))) conv s0 trace).

End Mb.
