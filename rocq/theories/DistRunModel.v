(** The MPI coordinators: libdist/dist_task_coordinator.cpp (pruned) and
    libdist/dist_coordinator.cpp (unpruned), libdist/mpi.hpp.

    Every process runs the same program on its own rows; processes interact only
    through collectives that all of them execute in the same order (MPI_Allreduce
    with MPI_SUM), so a run is modelled in lock step: each process' local phase
    (with its own thread schedule), then the collective, then the rest.

    Simplifications: each process reads its rows of the file through the shifted
    start rows ([dist_start_rid], C05); the model hands the process the slice of
    the global matrix that starts at its offset.  MPI_SUM is a left fold in rank
    order (only exact arithmetic is reasoned about). *)
From Coq Require Import ZArith.
From Verif Require Import Base Num Spec MatLemmas VecLemmas DistModel ClustersModel PartitionModel ParModel KmeansModel PruneModel.
Set Implicit Arguments.

(** mpi.hpp:41-68 reduce_double, reduce_llong_t: MPI_Allreduce with MPI_SUM *)
Definition allreduce {A} (add : A -> A -> A) (bufs : list (list A)) : list A :=
  match bufs with
  | [] => []
  | b :: bs => fold_left (map2 add) bs b
  end.

(** conversion of a sum accumulated in an [int] (std::accumulate(..., 0)) *)
Definition s32 (z : Z) : Z := ((z + 2 ^ 31) mod 2 ^ 32 - 2 ^ 31)%Z.

Section DistRun.
Variable N : Num.
Notation T := (car N).
Notation clusters := (clusters N).
Notation prune_clusters := (prune_clusters N).

(** dist_coordinator.cpp:55-69 init: this process' number of rows *)
Definition proc_nrow (G P rank : nat) : nat :=
  Z.to_nat (dist_nrow (Z.of_nat G) (Z.of_nat P) (Z.of_nat rank)).
(** its first global row, dist_coordinator.cpp:43-46 *)
Definition proc_off (G P rank : nat) : nat := G / P * rank.

(** the base class constructor is called with the local number of rows *)
Definition proc_cfg (g : kcfg N) (P rank : nat) : kcfg N :=
  mkCfg N (proc_nrow (g_nrow g) P rank) (g_ncol g) (g_k g) (g_max_iters g) (g_nthreads g)
    (g_tol g) (g_dt g) DataFile.
Definition proc_data (g : kcfg N) (P : nat) (data : list T) (rank : nat) : list T :=
  slice data (proc_off (g_nrow g) P rank * g_ncol g) (proc_nrow (g_nrow g) P rank * g_ncol g).

(** one process *)
Record dproc := mkDp {
  dp_rank : nat;
  dp_cfg : kcfg N;
  dp_ws : list (worker N);
  dp_st : pst N;
  dp_prev : list Z          (* prev_num_members *)
}.
Definition dp_p (q : dproc) : prune_clusters := ps_cltrs (dp_st q).
Definition dp_cl (q : dproc) : clusters := p_cl (dp_p q).
Definition dp_with (q : dproc) (s : pst N) : dproc := mkDp (dp_rank q) (dp_cfg q) (dp_ws q) s (dp_prev q).
Definition st_with (s : pst N) (p : prune_clusters) : pst N :=
  mkPst p (ps_dm s) (ps_cells s) (ps_counts s) (ps_changed s) (ps_local s).
Definition dp_with_cl (q : dproc) (c : clusters) : dproc :=
  dp_with q (st_with (dp_st q) (with_cl (dp_p q) c)).

(** dist_task_coordinator.cpp:33-50 constructor *)
Definition dproc_create (g : kcfg N) (P : nat) (data : list T) (centers : option (list T)) (it : init_t)
  (rank : nat) : res dproc :=
  let gp := proc_cfg g P rank in
  let* s := prune_create_coord gp centers it in
  let* ws := build_workers gp (proc_data g P data rank) in
  Ok (mkDp rank gp ws s (repeat 0%Z (g_k g))).

(* ------------------------------------------------------------------ *)
(** * kmeans++ over MPI *)

(** what kmeans++ uses of one process: its centroids and its rows' entries of
    dist_v and cluster_assignments (paired up, as in [kmspp_row]) *)
Record kproc := mkKp {
  kp_rank : nat;
  kp_ws : list (worker N);
  kp_cl : clusters;
  kp_cells : list (T * option nat)
}.
Definition kp_with (q : kproc) (c : clusters) (cells : list (T * option nat)) : kproc :=
  mkKp (kp_rank q) (kp_ws q) c cells.

(** dist_task_coordinator.cpp:130-134 and :192-198, dist_coordinator.cpp:148-152
    and :208-213: the process that owns global row [gid] makes it
    centroid [clust_idx] and sets its entries; [zero] = its distance is reset
    too; [other] = what a process that does not own it does *)
Definition kp_choose (g : kcfg N) (P : nat) (data : list T) (gid clust_idx : nat) (zero : bool) (other : kproc -> kproc) (q : kproc)
  : res kproc :=
  let G := Z.of_nat (g_nrow g) in let P' := Z.of_nat P in let rk := Z.of_nat (kp_rank q) in
  if is_local G P' rk (Z.of_nat gid) then
    let* l := local_rid G P' rk (Z.of_nat gid) in
    let* p := thd_row (proc_cfg g P (kp_rank q)) (proc_data g P data (kp_rank q)) (Z.to_nat l) in
    let* c := set_mean_at (kp_cl q) p clust_idx in
    let* cells := amod (kp_cells q) (Z.to_nat l) (fun e => (if zero then nzero N else fst e, Some clust_idx)) in
    Ok (kp_with q c cells)
  else Ok (other q).

(** dist_task_coordinator.cpp:136-138, :204-206: the centroids are summed over
    the processes and replace every process' own *)
Definition kp_share (qs : list kproc) : res (list kproc) :=
  let means := allreduce (nadd N) (map (fun q => c_means (kp_cl q)) qs) in
  mapM (fun q => let* c := set_mean_all (kp_cl q) (means, 0) in Ok (kp_with q c (kp_cells q))) qs.

(** dist_task_coordinator.cpp:152-155 one KMSPP_INIT round of a process and
    its local_cuml_dist *)
Definition kp_round (g : kcfg N) (P clust_idx : nat) (sched : nat -> list nat) (q : kproc) : res (kproc * T) :=
  let* lc := par_run (kmspp_row (proc_cfg g P (kp_rank q)) (kp_ws q) (kp_cl q) clust_idx) (w_ranges (kp_ws q))
               (sched (kp_rank q)) (kp_cells q) (map (fun _ => nzero N) (kp_ws q)) in
  Ok (kp_with q (kp_cl q) (snd lc), fold_left (nadd N) (fst lc) (nzero N)).

(** dist_task_coordinator.cpp:165-180: MPI_Allgather of the first g_nrow/nprocs
    entries of every process' dist_v, then the last process broadcasts the
    remaining g_nrow%nprocs ones *)
Definition kp_gather (g : kcfg N) (P : nat) (qs : list kproc) : res (list T) :=
  let n := g_nrow g / P in
  let* parts := mapM (fun q => mapM (fun i => aget (map fst (kp_cells q)) i) (seq 0 n)) qs in
  let* tail :=
    if g_nrow g mod P =? 0 then Ok []
    else let* q := aget qs (P - 1) in mapM (fun i => aget (map fst (kp_cells q)) i) (seq n (g_nrow g mod P)) in
  Ok (concat parts ++ tail).

(** dist_task_coordinator.cpp:151-208 / dist_coordinator.cpp:168-223, the
    [while (true)] loop; [n] = turns left.  The chosen rows and all the row
    entries after every round are recorded (not in the program).  [zero]: only
    the pruned coordinator resets the distance of a chosen row (:195). *)
Fixpoint dkmspp_loop (g : kcfg N) (P : nat) (data : list T) (zero : bool) (scheds : nat -> nat -> list nat) (ur : nat -> T)
  (n clust_idx : nat) (qs : list kproc) (trace : list (list T)) (chosen : list nat)
  : res (list kproc * list (list T) * list nat) :=
  match n with
  | 0 => Err Fuel
  | S n' =>
    let* rs := mapM (kp_round g P clust_idx (scheds clust_idx)) qs in
    let qs := map fst rs in
    let cuml := match map snd rs with [] => nzero N | x :: l => fold_left (nadd N) l x end in
    let cuml := ndiv N (nmul N cuml (ur clust_idx)) (nsub N (nofZ N RAND_MAX) (none N)) in
    let trace := trace ++ [concat (map (fun q => map fst (kp_cells q)) qs)] in
    if g_k g <=? S clust_idx then Ok (qs, trace, chosen)
    else
      let* gdist := kp_gather g P qs in
      let '(pick, cuml) := kmspp_pick N gdist 0 cuml in
      let* qs := match pick with
        | Some r => mapM (kp_choose g P data r (S clust_idx) zero (fun q => kp_with q (clear (kp_cl q)) (kp_cells q))) qs
        | None => Ok qs
        end in
      let* qs := kp_share qs in
      let* _ := assert_ (nleb N cuml (nzero N)) in
      dkmspp_loop g P data zero scheds ur n' (S clust_idx) qs trace
        (chosen ++ match pick with Some r => [r] | None => [] end)
  end.

(** dist_task_coordinator.cpp:116-224 / dist_coordinator.cpp:132-239
    kmeanspp_init; every process draws the same sequence *)
Definition dkmspp_init (g : kcfg N) (P : nat) (data : list T) (zero : bool) (scheds : nat -> nat -> list nat) (first : nat)
  (ur : nat -> T) (qs : list kproc) : res (list kproc * list (list T) * list nat) :=
  let* qs := mapM (kp_choose g P data first 0 true (fun q => q)) qs in
  let* qs := kp_share qs in
  dkmspp_loop g P data zero scheds ur (g_k g) 0 qs [] [first].

(** the pruned coordinator's dist_v is a member, filled with the maximum at
    construction *)
Definition dp_kp (q : dproc) : kproc := mkKp (dp_rank q) (dp_ws q) (dp_cl q) (map fst (ps_cells (dp_st q))).
Definition dp_of_kp (q : dproc) (p : kproc) : dproc :=
  let s := dp_st q in
  dp_with q (mkPst (with_cl (dp_p q) (kp_cl p)) (ps_dm s) (combine (kp_cells p) (map snd (ps_cells s)))
               (ps_counts s) (ps_changed s) (ps_local s)).

(* ------------------------------------------------------------------ *)
(** * Initialisation *)

(** dist_task_coordinator.cpp:227-236 forgy_init on process [rank]'s centroids;
    every process draws the same sequence [draw] *)
Definition forgy_local (g : kcfg N) (P : nat) (data : list T) (draw : nat -> nat) (rank : nat) (c : clusters) : res clusters :=
  let G := Z.of_nat (g_nrow g) in let P' := Z.of_nat P in let rk := Z.of_nat rank in
  loop (g_k g) (fun clust_idx c =>
    let gid := Z.of_nat (draw clust_idx) in
    if is_local G P' rk gid then
      let* l := local_rid G P' rk gid in
      let* p := thd_row (proc_cfg g P rank) (proc_data g P data rank) (Z.to_nat l) in
      set_mean_at c p clust_idx
    else Ok c) c.
Definition dist_forgy (g : kcfg N) (P : nat) (data : list T) (draw : nat -> nat) (q : dproc) : res dproc :=
  let* c := forgy_local g P data draw (dp_rank q) (dp_cl q) in
  Ok (dp_with_cl q c).

(** dist_task_coordinator.cpp:70-86 random_partition_init on one process: its
    generator is advanced to the process' first row, so row r of the process
    uses draw (offset + r) of the common stream (C51).  [cells] are the entries
    of the array the assignment is stored in, [set] stores it. *)
Definition random_local {Cell} (set : nat -> Cell -> Cell) (g : kcfg N) (P : nat) (data : list T) (draw : nat -> nat)
  (rank : nat) (ca : clusters * list Cell) : res (clusters * list Cell) :=
  let off := proc_off (g_nrow g) P rank in
  loop (proc_nrow (g_nrow g) P rank) (fun r (ca : clusters * list Cell) =>
    let* p := thd_row (proc_cfg g P rank) (proc_data g P data rank) r in
    let* c := add_member (fst ca) p (draw (off + r)) in
    let* cells := amod (snd ca) r (set (draw (off + r))) in
    Ok (c, cells)) ca.
Definition set_asg (a : nat) (cell : pcell N) : pcell N := (fst (fst cell), Some a, snd cell).
Definition dist_random (g : kcfg N) (P : nat) (data : list T) (draw : nat -> nat) (q : dproc) : res dproc :=
  let s := dp_st q in
  let* ca := random_local set_asg g P data draw (dp_rank q) (dp_cl q, ps_cells s) in
  Ok (dp_with q (mkPst (with_cl (dp_p q) (fst ca)) (ps_dm s) (snd ca) (ps_counts s) (ps_changed s) (ps_local s))).

Definition reduce_means (qs : list dproc) : list T := allreduce (nadd N) (map (fun q => c_means (dp_cl q)) qs).
Definition reduce_members (qs : list dproc) : list Z := allreduce Z.add (map (fun q => c_members (dp_cl q)) qs).

(** dist_task_coordinator.cpp:268-296: after run_init, the processes' centroids
    are summed for FORGY and RANDOM; RANDOM also sums the counts and finalises;
    kmeans++ has shared them itself *)
Definition dist_init (g : kcfg N) (P : nat) (data : list T) (it : init_t) (draw : nat -> nat)
  (ur : nat -> T) (ksched : nat -> nat -> list nat) (qs : list dproc) : res (list dproc) :=
  match it with
  | FORGY =>
    let* qs := mapM (dist_forgy g P data draw) qs in
    let means := reduce_means qs in
    mapM (fun q => let* c := set_mean_all (dp_cl q) (means, 0) in Ok (dp_with_cl q c)) qs
  | RANDOM =>
    let* qs := mapM (dist_random g P data draw) qs in
    let means := reduce_means qs in
    let nmemb := reduce_members qs in
    mapM (fun q =>
      let* c := set_mean_all (dp_cl q) (means, 0) in
      let* c := set_num_members_v c (nmemb, 0) in
      let* c := finalize_all c in
      Ok (dp_with_cl q c)) qs
  | PLUSPLUS =>
    let* r := dkmspp_init g P data true ksched (draw 0) ur (map dp_kp qs) in
    let '(ks, _, _) := r in Ok (map2 dp_of_kp qs ks)
  | NONE => Ok qs
  end.

(* ------------------------------------------------------------------ *)
(** * The pruned run *)

(** dist_task_coordinator.cpp:458-470 pp_aggregate *)
Definition pp_aggregate (q : dproc) : res dproc :=
  let s := dp_st q in
  let p := set_prev_means (ps_cltrs s) in
  let prev := c_members (p_cl p) in
  let* cc := for_each (ps_local s) (fun (l : wstate N) (cc : clusters * nat) =>
      let* c := peq (fst cc) (fst l) in Ok (c, snd cc + snd l)) (clear (p_cl p), 0) in
  Ok (mkDp (dp_rank q) (dp_cfg q) (dp_ws q)
        (mkPst (with_cl p (fst cc)) (ps_dm s) (ps_cells s) (ps_counts s) (snd cc) (ps_local s)) prev).

(** dist_task_coordinator.cpp:300-325: a process' work up to the collectives;
    [first] = this is iteration 0 (prune_init is still set) *)
Definition dp_local (first : bool) (sched : nat -> list nat) (q : dproc) : res dproc :=
  let s := dp_st q in
  let* mp := compute_dist (g_ncol (dp_cfg q)) (ps_dm s) (ps_cltrs s) in
  let* lc := pEM_round (dp_cfg q) (dp_ws q) (snd mp) (fst mp) first (sched (dp_rank q)) (ps_local s) (ps_cells s) in
  pp_aggregate (dp_with q (mkPst (snd mp) (fst mp) (snd lc) (ps_counts s) (ps_changed s) (fst lc))).

(** dist_task_coordinator.cpp:336-353: the new centroid sums and counts *)
Definition dp_combine (first : bool) (means : list T) (nmemb : list Z) (q : dproc) : res clusters :=
  if first then
    let* c := set_mean_all (dp_cl q) (means, 0) in
    set_num_members_v c (nmemb, 0)
  else
    let* c := set_mean_vec (dp_cl q) (p_prev_means (dp_p q)) None in
    let* c := set_num_members_v c (dp_prev q, 0) in
    let* c := set_complete_all c true in
    let* c := unfinalize_all c in
    let* c := means_peq c (means, 0) in
    num_members_v_peq c (nmemb, 0).

(** dist_task_coordinator.cpp:336-381: a process' work after the collectives *)
Definition dp_finish (g : kcfg N) (first : bool) (means : list T) (nmemb : list Z) (q : dproc) : res dproc :=
  let* c := dp_combine first means nmemb q in
  let* _ := assert_ (Z.eqb (s32 (fold_left Z.add (c_members c) 0%Z)) (Z.of_nat (g_nrow g))) in
  let* p := loop (g_k g) (fun i p =>
      let* c := finalize (p_cl p) i in
      let p := with_cl p c in
      let* d := eucl_dist N (c_means c, i * g_ncol g) (p_prev_means p, i * g_ncol g) (g_ncol g) in
      set_prev_dist p d i) (with_cl (dp_p q) c) in
  Ok (dp_with q (st_with (dp_st q) p)).

(** dist_task_coordinator.cpp:299-381 one turn of the loop on all processes, and
    the global number of changed rows *)
Definition dist_step (g : kcfg N) (first : bool) (sched : nat -> list nat) (qs : list dproc)
  : res (list dproc * nat) :=
  let* ls := mapM (dp_local first sched) qs in
  let means := reduce_means ls in
  let nmemb := reduce_members ls in
  let nchanged := list_sum (map (fun q => ps_changed (dp_st q)) ls) in
  let* qs := mapM (dp_finish g first means nmemb) ls in
  Ok (qs, nchanged).

(** dist_task_coordinator.cpp:299-393 the loop; [n] = turns the loop condition
    still allows; the iteration count is the root's *)
Fixpoint dist_loop (g : kcfg N) (scheds : nat -> nat -> list nat) (n iters : nat) (qs : list dproc)
  (trace : list (list dproc)) : res (nat * bool * list dproc * list (list dproc)) :=
  match n with
  | 0 => Ok (iters, false, qs, trace)
  | S n' =>
    let* r := dist_step g (iters =? 0) (scheds iters) qs in
    let '(qs, nchanged) := r in
    if stop_test g nchanged then Ok (S iters, true, qs, trace ++ [qs])
    else dist_loop g scheds n' (S iters) qs (trace ++ [qs])
  end.

Record drun_result := mkDRun {
  dr_out : cluster_t N;              (* what the root returns *)
  dr_converged : bool;
  dr_init : list dproc;
  dr_trace : list (list dproc)
}.

(** dist_task_coordinator.cpp:238-446 run with an output directory, so that
    the root gathers.  [draw], [ur] and [ksched] are the draws and the thread
    schedules of the initialisation *)
Definition dist_prune_run (g : kcfg N) (P : nat) (centers : option (list T)) (it : init_t) (data : list T)
  (draw : nat -> nat) (ur : nat -> T) (ksched scheds : nat -> nat -> list nat) : res drun_result :=
  let* qs := mapM (dproc_create g P data centers it) (seq 0 P) in
  let* qs0 := dist_init g P data it draw ur ksched qs in
  let* r := dist_loop g scheds (g_max_iters g) 0 qs0 [] in
  let '(iters, conv, qs, trace) := r in
  let* asg := gather_root (Z.of_nat (g_nrow g)) (Z.of_nat P) None (map (fun q => asg_of (ps_cells (dp_st q))) qs) in
  let* q0 := aget qs 0 in
  Ok (mkDRun (mkCluster N (g_nrow g) (g_ncol g) iters (g_k g) asg (c_members (dp_cl q0)) (c_means (dp_cl q0)))
        conv qs0 trace).

End DistRun.
