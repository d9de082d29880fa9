(** Model of unpruned k-means: libman/kmeans_thread.cpp, libman/kmeans_coordinator.cpp
    and the parts of libman/coordinator.cpp they use.

    Cluster ids: C++ uses [unsigned] with 2^32-1 as INVALID_CLUSTER_ID; ids are
    below k < 2^32, so the model uses [option nat] with [None] for INVALID.
    Iteration and change counters are unbounded here ([size_t] / bounded by nrow
    in C++). *)
From Verif Require Import Base Num DistModel ClustersModel PartitionModel ParModel.
Set Implicit Arguments.

Section Kmeans.
Variable N : Num.
Notation T := (car N).
Notation clusters := (clusters N).

(** coordinator.hpp:44-56 configuration data members *)
Record kcfg := mkCfg {
  g_nrow : nat; g_ncol : nat; g_k : nat;
  g_max_iters : nat;
  g_nthreads : Z;          (* requested *)
  g_tol : T;
  g_dt : dist_t;
  g_kind : load_kind       (* how run() obtains the data *)
}.

(** a worker: first row, number of rows, its local_data pointer *)
Record worker := mkWorker { w_start : nat; w_nrow : nat; w_data : ptr T }.

(** kmeans_coordinator.cpp:51-64 build_thread_state and 171-178 (data loading) *)
Definition build_workers (g : kcfg) (data : list T) : res (list worker) :=
  let* rng := thread_ranges (Z.of_nat (g_nrow g)) (g_nthreads g) in
  mapM (fun sn =>
    let* p := load_local N (g_kind g) data (fst sn) (snd sn) (Z.of_nat (g_ncol g)) in
    Ok (mkWorker (Z.to_nat (fst sn)) (Z.to_nat (snd sn)) p)) rng.

(** &local_data[row*ncol] *)
Definition wrow (w : worker) (ncol r : nat) : ptr T :=
  (fst (w_data w), snd (w_data w) + r * ncol).

(** kmeans_thread.cpp:85-100, the inner loop of EM_step over the clusters:
    nearest centroid so far and its distance *)
Definition find_nearest (x : ptr T) (means : list T) (ncol k : nat) (dt : dist_t)
  : res (option nat * T) :=
  loop k (fun clust_idx (s : option nat * T) =>
    let* dist := dist_comp_raw N x (means, clust_idx * ncol) ncol dt in
    if nltb N dist (snd s) then Ok (Some clust_idx, dist) else Ok s) (None, nmax N).

(** option ids compared with [!=] *)
Definition id_eqb (a b : option nat) : bool :=
  match a, b with
  | Some x, Some y => Nat.eqb x y
  | None, None => true
  | _, _ => false
  end.

(** worker-local state: local_clusters and meta.num_changed *)
Definition wstate := (clusters * nat)%type.

(** kmeans_thread.cpp:85-111, one iteration of the row loop of EM_step *)
Definition EM_row (g : kcfg) (ws : list worker) (gcl : clusters)
  (t r : nat) (l : wstate) (asg : option nat) : res (wstate * option nat) :=
  let* w := aget ws t in
  let* best := find_nearest (wrow w (g_ncol g) r) (c_means gcl) (g_ncol g) (c_nclust gcl) (g_dt g) in
  match fst best with
  | None => Err Abort                   (* assert(asgnd_clust != INVALID_CLUSTER_ID) *)
  | Some c =>
    let changed := if id_eqb (Some c) asg then snd l else S (snd l) in
    let* lc := add_member (fst l) (wrow w (g_ncol g) r) c in
    Ok ((lc, changed), Some c)
  end.

Definition w_ranges (ws : list worker) : list (nat * nat) :=
  map (fun w => (w_start w, w_nrow w)) ws.

(** kmeans_thread.cpp:81-112 EM_step of all workers, interleaved by [sched] *)
Definition EM_round (g : kcfg) (ws : list worker) (gcl : clusters) (sched : list nat)
  (locals : list wstate) (asg : list (option nat)) : res (list wstate * list (option nat)) :=
  par_run (EM_row g ws gcl) (w_ranges ws) sched asg
    (map (fun l => (clear (fst l), 0)) locals).

(** coordinator state *)
Record kst := mkSt {
  s_cltrs : clusters;
  s_asg : list (option nat);          (* cluster_assignments *)
  s_counts : list Z;                  (* cluster_assignment_counts *)
  s_changed : nat;                    (* num_changed *)
  s_local : list wstate
}.

(** kmeans_coordinator.cpp:66-92 update_clusters *)
Definition update_clusters (g : kcfg) (s : kst) : res kst :=
  let* cc := for_each (s_local s) (fun (l : wstate) (cc : clusters * nat) =>
      let* c := peq (fst cc) (fst l) in Ok (c, snd cc + snd l)) (clear (s_cltrs s), 0) in
  let* r := loop (g_k g) (fun i (st : clusters * list Z * Z) =>
      let '(c, counts, chk) := st in
      let* c := finalize c i in
      let* n := aget (c_members c) i in
      let* counts := aset counts i n in
      Ok (c, counts, w32 (chk + n))) (fst cc, s_counts s, 0%Z) in
  let '(c, counts, chk) := r in
  let* _ := assert_ (Z.eqb chk (Z.of_nat (g_nrow g))) in
  let* _ := assert_ (snd cc <=? g_nrow g) in
  Ok (mkSt c (s_asg s) counts (snd cc) (s_local s)).

(** coordinator.hpp:132-135 clear_cluster_assignments *)
Definition clear_asg (s : kst) : kst :=
  mkSt (s_cltrs s) (map (fun _ => None) (s_asg s)) (s_counts s) (s_changed s) (s_local s).

(** kmeans_coordinator.cpp:190-196: one turn of the main loop *)
Definition iterate (g : kcfg) (ws : list worker) (sched : list nat) (s : kst) : res kst :=
  let* la := EM_round g ws (s_cltrs s) sched (s_local s) (s_asg s) in
  update_clusters g (mkSt (s_cltrs s) (snd la) (s_counts s) (s_changed s) (fst la)).

(** kmeans_coordinator.cpp:204-205 the stopping test *)
Definition stop_test (g : kcfg) (changed : nat) : bool :=
  (changed =? 0) ||
  nleb N (ndiv N (nofZ N (Z.of_nat changed)) (nofZ N (Z.of_nat (g_nrow g)))) (g_tol g).

(** kmeans_coordinator.cpp:181-210 the main loop.  [n] is the number of turns
    the loop condition still allows (max_iters + 1 - iter), [scheds] gives each
    iteration's schedule, [trace] collects the state after every iteration
    (not in the program; it lets statements speak about what happened). *)
Fixpoint main_loop (g : kcfg) (ws : list worker) (scheds : nat -> list nat)
  (n iter : nat) (s : kst) (trace : list kst) : res (nat * bool * kst * list kst) :=
  match n with
  | 0 => Ok (iter, false, s, trace)
  | S n' =>
    let s := if iter =? 1 then clear_asg s else s in
    let* s := iterate g ws (scheds iter) s in
    if stop_test g (s_changed s) then Ok (iter, true, s, trace ++ [s])
    else main_loop g ws scheds n' (S iter) s (trace ++ [s])
  end.

(** libkcommon/types.hpp:41-55 cluster_t, as filled by set_computed
    (types.cpp:28-48) *)
Record cluster_t := mkCluster {
  ct_nrow : nat; ct_ncol : nat; ct_iters : nat; ct_k : nat;
  ct_asg : list (option nat); ct_counts : list Z; ct_centroids : list T }.

(** coordinator.cpp:31-55, kmeans_coordinator.cpp:29-49 the constructor *)
Definition coordinator_create (g : kcfg) (centers : option (list T)) (it : init_t) : res kst :=
  let* _ := assert_ (1 <=? g_k g) in
  let c0 := clusters_create N (g_k g) (g_ncol g) in
  let* c := match centers, it with
            | Some m, NONE => set_mean_all c0 (m, 0)
            | _, _ => Ok c0
            end in
  Ok (mkSt c (repeat None (g_nrow g)) (repeat 0%Z (g_k g)) 0
        (repeat (clusters_create N (g_k g) (g_ncol g), 0)
           (Z.to_nat (eff_threads (g_nthreads g) (Z.of_nat (g_nrow g)))))).

(* ------------------------------------------------------------------ *)
(** * Initialisation *)

(** a row looked up through the coordinator (coordinator.cpp:93-101) *)
Definition thd_row (g : kcfg) (data : list T) (r : nat) : res (ptr T) :=
  get_thd_data N (g_kind g) data (Z.of_nat (g_nrow g)) (Z.of_nat (g_ncol g)) (g_nthreads g) (Z.of_nat r).

(** kmeans_coordinator.cpp:157-165 forgy_init; [draw c] is the c-th draw of
    uniform_int_distribution(0, nrow-1) *)
Definition forgy_init (g : kcfg) (data : list T) (draw : nat -> nat) (s : kst) : res kst :=
  let* c := loop (g_k g) (fun clust_idx c =>
    let* p := thd_row g data (draw clust_idx) in
    set_mean_at c p clust_idx) (s_cltrs s) in
  Ok (mkSt c (s_asg s) (s_counts s) (s_changed s) (s_local s)).

(** kmeans_coordinator.cpp:142-155 random_partition_init; [draw r] is the draw
    of uniform_int_distribution(0, k-1) for row r *)
Definition random_partition_init (g : kcfg) (data : list T) (draw : nat -> nat) (s : kst) : res kst :=
  let* ca := loop (g_nrow g) (fun r (ca : clusters * list (option nat)) =>
    let* p := thd_row g data r in
    let* c := add_member (fst ca) p (draw r) in
    let* asg := aset (snd ca) r (Some (draw r)) in
    Ok (c, asg)) (s_cltrs s, s_asg s) in
  let* c := finalize_all (fst ca) in
  Ok (mkSt c (snd ca) (s_counts s) (s_changed s) (s_local s)).

(** kmeans_thread.cpp:117-133 one row of kmspp_dist.  The per-row entries are
    dist_v and cluster_assignments (two arrays, paired up in the model); the
    worker-local state is cuml_dist, reset by wake (thread.cpp:68-69). *)
Definition kmspp_row (g : kcfg) (ws : list worker) (gcl : clusters) (clust_idx : nat)
  (t r : nat) (cuml : T) (cell : T * option nat) : res (T * (T * option nat)) :=
  let* w := aget ws t in
  let* dist := dist_comp_raw N (wrow w (g_ncol g) r) (c_means gcl, clust_idx * g_ncol g)
                 (g_ncol g) (g_dt g) in
  let cell := if nltb N dist (fst cell) then (dist, Some clust_idx) else cell in
  Ok (nadd N cuml (fst cell), cell).

(** kmeans_coordinator.cpp:123-130: find the next centre.  The loop subtracts
    dist_v\[row\] until the remainder is <= 0. *)
Fixpoint kmspp_pick (dist_v : list T) (row : nat) (cuml : T) : option nat * T :=
  match dist_v with
  | [] => (None, cuml)
  | d :: rest =>
    let cuml := nsub N cuml d in
    if nleb N cuml (nzero N) then (Some row, cuml) else kmspp_pick rest (S row) cuml
  end.

(** stdlib RAND_MAX on the supported platforms *)
Definition RAND_MAX : Z := (2 ^ 31 - 1)%Z.

(** kmeans_coordinator.cpp:111-133, the [while (true)] loop; [n] is the number
    of turns left (the loop breaks when ++clust_idx >= k), [ur] the draws of
    uniform_real_distribution(0,1), one per turn.  The chosen rows and the row
    entries after every turn are recorded (not in the program). *)
Definition kpp := (clusters * list (T * option nat))%type.
Fixpoint kmspp_loop (g : kcfg) (ws : list worker) (data : list T)
  (scheds : nat -> list nat) (ur : nat -> T) (n clust_idx : nat) (s : kpp)
  (trace : list (list T)) (chosen : list nat) : res (kpp * list (list T) * list nat) :=
  match n with
  | 0 => Err Fuel
  | S n' =>
    let* lc := par_run (kmspp_row g ws (fst s) clust_idx) (w_ranges ws) (scheds clust_idx)
                 (snd s) (map (fun _ => nzero N) ws) in
    let cells := snd lc in
    let trace := trace ++ [map fst cells] in
    (* coordinator.cpp:137-143 reduction_on_cuml_sum *)
    let cuml := fold_left (nadd N) (fst lc) (nzero N) in
    let cuml := ndiv N (nmul N cuml (ur clust_idx)) (nsub N (nofZ N RAND_MAX) (none N)) in
    if g_k g <=? S clust_idx then Ok ((fst s, cells), trace, chosen)
    else
      let '(pick, cuml) := kmspp_pick (map fst cells) 0 cuml in
      let* s' := match pick with
        | Some r =>
          let* p := thd_row g data r in
          let* c := set_mean_at (fst s) p (S clust_idx) in
          let* cells := amod cells r (fun e => (fst e, Some (S clust_idx))) in
          Ok (c, cells)
        | None => Ok (fst s, cells)
        end in
      let* _ := assert_ (nleb N cuml (nzero N)) in
      kmspp_loop g ws data scheds ur n' (S clust_idx) s' trace
        (chosen ++ match pick with Some r => [r] | None => [] end)
  end.

(** kmeans_coordinator.cpp:94-140 kmeanspp_init; [first] is the draw of
    uniform_int_distribution(0, nrow-1) *)
Definition kmeanspp_init_t (g : kcfg) (ws : list worker) (data : list T)
  (scheds : nat -> list nat) (first : nat) (ur : nat -> T) (s : kst)
  : res (kst * list T * list (list T) * list nat) :=
  let* p := thd_row g data first in
  let* c := set_mean_at (s_cltrs s) p 0 in
  let* dist_v := aset (repeat (nmax N) (g_nrow g)) first (nzero N) in
  let* asg := aset (s_asg s) first (Some 0) in
  let* r := kmspp_loop g ws data scheds ur (g_k g) 0 (c, combine dist_v asg) [] [first] in
  let '(c, cells, trace, chosen) := r in
  Ok (mkSt c (map snd cells) (s_counts s) (s_changed s) (s_local s), map fst cells, trace, chosen).

(** sources of nondeterminism of an initialisation *)
Record draws := mkDraws {
  d_int : nat -> nat;          (* integer draws *)
  d_real : nat -> T;           (* real draws in [0,1) *)
  d_sched : nat -> list nat    (* schedules of the kmeans++ rounds *)
}.

(** coordinator.cpp:145-161 run_init *)
Definition run_init (g : kcfg) (it : init_t) (ws : list worker) (data : list T) (d : draws)
  (s : kst) : res kst :=
  match it with
  | RANDOM => random_partition_init g data (d_int d) s
  | FORGY => forgy_init g data (d_int d) s
  | PLUSPLUS =>
    let* r := kmeanspp_init_t g ws data (d_sched d) (d_int d 0) (d_real d) s in
    let '(s, _, _, _) := r in Ok s
  | NONE => Ok s
  end.

(** kmeans_coordinator.cpp:170-250 run *)
Record run_result := mkRun {
  rr_out : cluster_t;
  rr_converged : bool;
  rr_init : kst;             (* state after initialisation *)
  rr_trace : list kst        (* state after every iteration *)
}.

Definition run (g : kcfg) (centers : option (list T)) (it : init_t) (data : list T)
  (d : draws) (scheds : nat -> list nat) : res run_result :=
  let* s := coordinator_create g centers it in
  let* ws := build_workers g data in
  let* s := run_init g it ws data d s in
  let iter0 := if 0 <? g_max_iters g then 1 else 0 in
  let* r := main_loop g ws scheds (g_max_iters g) iter0 s [] in
  let '(iter, conv, s', trace) := r in
  Ok (mkRun (mkCluster (g_nrow g) (g_ncol g) iter (g_k g) (s_asg s') (s_counts s')
               (c_means (s_cltrs s'))) conv s trace).

End Kmeans.
