(** Model of the OpenMP entry points: libauto/kmeans.cpp (compute_kmeans) and
    libauto/min-tri-kmeans.cpp (compute_min_kmeans).

    A [parallel for] hands contiguous chunks of rows to the threads (static
    scheduling, the default of the supported compilers); which chunk a thread
    gets is the runtime's choice, so the model takes the chunks as an argument.
    The per-row steps are those of the coordinator version
    (kmeans_thread.cpp:85-111 and kmeans_task_thread.cpp:184-266 have the same
    bodies as libauto/kmeans.cpp:200-243 and min-tri-kmeans.cpp:226-307), so
    [EM_row], [kmspp_row] and [pEM_row] are reused.
    Not modelled: printing, the profiler, max_threads <= 0. *)
From Verif Require Import Base Num DistModel ClustersModel PartitionModel ParModel KmeansModel PruneModel.
Set Implicit Arguments.

Section Omp.
Variable N : Num.
Notation T := (car N).
Notation clusters := (clusters N).

(** the values of the string arguments that are distinguished
    (kmeans.cpp:333-365) *)
Inductive init_arg := IRandom | IForgy | IKmeanspp | INone | IOther.
Inductive dist_arg := DEucl | DCos | DOther.

(** chunk [s, s+n) of the matrix: rows are addressed as &matrix\[row*ncol\] *)
Definition omp_workers (chunks : list (nat * nat)) (data : list T) (ncol : nat) : list (worker N) :=
  map (fun sn => mkWorker N (fst sn) (snd sn) (data, fst sn * ncol)) chunks.

(** kmeans.cpp:310-316: the check of k (an unsigned) against the rows *)
Definition k_rejected (k nrow : nat) : bool :=
  (nrow <? k) || (k <? 2) || Z.eqb (Z.of_nat k) (2 ^ 32 - 1).

(** kmeans.cpp:57-87 random_partition_init and 344-348 finalize_all *)
Definition omp_random_init (g : kcfg N) (data : list T) (draw : nat -> nat) (s : kst N) : res (kst N) :=
  let* ca := loop (g_nrow g) (fun r (ca : clusters * list (option nat)) =>
    let* c := add_member (fst ca) (data, r * g_ncol g) (draw r) in
    let* asg := aset (snd ca) r (Some (draw r)) in
    Ok (c, asg)) (s_cltrs s, s_asg s) in
  let* c := finalize_all (fst ca) in
  Ok (mkSt c (snd ca) (s_counts s) (s_changed s) (s_local s)).

(** kmeans.cpp:95-115 forgy_init *)
Definition omp_forgy_init (g : kcfg N) (data : list T) (draw : nat -> nat) (s : kst N) : res (kst N) :=
  let* c := loop (g_k g) (fun clust_idx c =>
    set_mean_at c (data, draw clust_idx * g_ncol g) clust_idx) (s_cltrs s) in
  Ok (mkSt c (s_asg s) (s_counts s) (s_changed s) (s_local s)).

(** kmeans.cpp:144-183 the loop of kmeanspp_init; [red] combines the threads'
    partial sums (the order of an OpenMP reduction is unspecified) *)
Fixpoint omp_kmspp_loop (g : kcfg N) (ws : list (worker N)) (data : list T) (red : list T -> T)
  (scheds : nat -> list nat) (ur : nat -> T) (n clust_idx : nat) (s : kpp N)
  : res (kpp N) :=
  match n with
  | 0 => Err Fuel
  | S n' =>
    let* lc := par_run (kmspp_row g ws (fst s) clust_idx) (w_ranges ws) (scheds clust_idx)
                 (snd s) (map (fun _ => nzero N) ws) in
    let cells := snd lc in
    let cuml := red (fst lc) in
    let cuml := ndiv N (nmul N cuml (ur clust_idx)) (nsub N (nofZ N RAND_MAX) (none N)) in
    if g_k g <=? S clust_idx then Ok (fst s, cells)
    else
      let '(pick, cuml) := kmspp_pick N (map fst cells) 0 cuml in
      let* s' := match pick with
        | Some r =>
          let* cells := amod cells r (fun e => (fst e, Some (S clust_idx))) in
          let* c := set_mean_at (fst s) (data, r * g_ncol g) (S clust_idx) in
          Ok (c, cells)
        | None => Ok (fst s, cells)
        end in
      let* _ := assert_ (nleb N cuml (nzero N)) in
      omp_kmspp_loop g ws data red scheds ur n' (S clust_idx) s'
  end.

(** kmeans.cpp:121-143 kmeanspp_init *)
Definition omp_kmspp_init (g : kcfg N) (ws : list (worker N)) (data : list T) (red : list T -> T)
  (scheds : nat -> list nat) (first : nat) (ur : nat -> T) (s : kst N) : res (kst N) :=
  let* c := set_mean_at (s_cltrs s) (data, first * g_ncol g) 0 in
  let* dist_v := aset (repeat (nmax N) (g_nrow g)) first (nzero N) in
  let* asg := aset (s_asg s) first (Some 0) in
  let* r := omp_kmspp_loop g ws data red scheds ur (g_k g) 0 (c, combine dist_v asg) in
  Ok (mkSt (fst r) (map snd (snd r)) (s_counts s) (s_changed s) (s_local s)).

(** kmeans.cpp:187-281 EM_step: fresh per-thread containers, the parallel loop,
    then the aggregation; g_num_changed is added to; chk_nmemb is a size_t *)
Definition omp_EM_step (g : kcfg N) (ws : list (worker N)) (sched : list nat) (s : kst N) : res (kst N) :=
  let* la := par_run (EM_row g ws (s_cltrs s)) (w_ranges ws) sched (s_asg s)
               (map (fun _ => (clusters_create N (g_k g) (g_ncol g), 0)) ws) in
  let* cc := for_each (fst la) (fun (l : wstate N) (cc : clusters * nat) =>
      let* c := peq (fst cc) (fst l) in Ok (c, snd cc + snd l)) (clear (s_cltrs s), s_changed s) in
  let* r := loop (g_k g) (fun i (st : clusters * list Z * Z) =>
      let '(c, counts, chk) := st in
      let* c := finalize c i in
      let* n := aget (c_members c) i in
      let* counts := aset counts i n in
      Ok (c, counts, w64 (chk + n))) (fst cc, s_counts s, 0%Z) in
  let '(c, counts, chk) := r in
  let* _ := assert_ (Z.eqb chk (Z.of_nat (g_nrow g))) in
  Ok (mkSt c (snd la) counts (snd cc) (fst la)).

Definition reset_changed (s : kst N) : kst N :=
  mkSt (s_cltrs s) (s_asg s) (s_counts s) 0 (s_local s).

(** kmeans.cpp:400-439 the main loop, [while (iter < MAX_ITERS)]; [n] is the
    number of turns the condition still allows; [trace] is not in the program *)
Fixpoint omp_loop (g : kcfg N) (ws : list (worker N)) (scheds : nat -> list nat)
  (n iter : nat) (s : kst N) (trace : list (kst N)) : res (nat * bool * kst N * list (kst N)) :=
  match n with
  | 0 => Ok (iter, false, s, trace)
  | S n' =>
    let s := if iter =? 1 then clear_asg s else s in
    let* s := omp_EM_step g ws (scheds iter) s in
    if stop_test g (s_changed s) then Ok (iter, true, s, trace ++ [s])
    else omp_loop g ws scheds n' (S iter) (reset_changed s) (trace ++ [s])
  end.

(** kmeans.cpp:324-331: INVALID assignments, zero counts, zero centroids, or
    the supplied ones for "none" *)
Definition omp_create (g : kcfg N) (ia : init_arg) (centers : list T) : res (kst N) :=
  let c0 := clusters_create N (g_k g) (g_ncol g) in
  let* c := match ia with INone => set_mean_all c0 (centers, 0) | _ => Ok c0 end in
  Ok (mkSt c (repeat None (g_nrow g)) (repeat 0%Z (g_k g)) 0 []).

Definition with_dt (g : kcfg N) (dt : dist_t) : kcfg N :=
  mkCfg N (g_nrow g) (g_ncol g) (g_k g) (g_max_iters g) (g_nthreads g) (g_tol g) dt (g_kind g).

(** kmeans.cpp:287-482 compute_kmeans; [da], [ia] are the string arguments,
    [chunks] the runtime's distribution of rows, [red] its reduction *)
Definition compute_kmeans (g0 : kcfg N) (da : dist_arg) (ia : init_arg) (centers data : list T)
  (chunks : list (nat * nat)) (red : list T -> T) (d : draws N) (scheds : nat -> list nat)
  : res (run_result N) :=
  if k_rejected (g_k g0) (g_nrow g0) then Err Throw else
  let* s := omp_create g0 ia centers in
  match match da with DEucl => Some EUCL | DCos => Some COS | DOther => None end with
  | None => Err Throw
  | Some dt =>
    let g := with_dt g0 dt in
    let ws := omp_workers chunks data (g_ncol g) in
    let* s := match ia with
      | IRandom => omp_random_init g data (d_int d) s
      | IForgy => omp_forgy_init g data (d_int d) s
      | IKmeanspp => omp_kmspp_init g ws data red (d_sched d) (d_int d 0) (d_real d) s
      | INone => Ok s
      | IOther => Err Throw
      end in
    let iter0 := if 0 <? g_max_iters g then 1 else 0 in
    let* r := omp_loop g ws scheds (g_max_iters g - iter0) iter0 s [] in
    let '(iter, conv, s', trace) := r in
    Ok (mkRun (mkCluster N (g_nrow g) (g_ncol g) iter (g_k g) (s_asg s') (s_counts s')
                 (c_means (s_cltrs s'))) conv s trace)
  end.

(* ------------------------------------------------------------------ *)
(** * The pruned entry point *)

(** min-tri-kmeans.cpp:204-354 EM_step; chk_nmemb is an int (a negative sum
    would be converted; the model wraps at 64 bits like the size_t it is
    compared with) *)
Definition omp_pEM_step (g : kcfg N) (ws : list (worker N)) (prune_init : bool) (sched : list nat) (s : pst N)
  : res (pst N) :=
  let* lc := par_run (pEM_row g ws (ps_cltrs s) (ps_dm s) prune_init) (w_ranges ws) sched (ps_cells s)
               (map (fun _ => (clusters_create N (g_k g) (g_ncol g), 0)) ws) in
  let p0 := ps_cltrs s in
  let* p := if prune_init then Ok (with_cl p0 (clear (p_cl p0)))
            else let p1 := set_prev_means p0 in
                 let* c := unfinalize_all (p_cl p1) in Ok (with_cl p1 c) in
  let* cc := for_each (fst lc) (fun (l : wstate N) (cc : clusters * nat) =>
      let* c := peq (fst cc) (fst l) in Ok (c, snd cc + snd l)) (p_cl p, ps_changed s) in
  let* r := loop (g_k g) (fun i (st : prune_clusters N * list Z * Z) =>
      let '(p, counts, chk) := st in
      let* c := finalize (p_cl p) i in
      let p := with_cl p c in
      let* d := eucl_dist N (c_means c, i * g_ncol g) (p_prev_means p, i * g_ncol g) (g_ncol g) in
      let* p := set_prev_dist p d i in
      let* n := aget (c_members c) i in
      let* counts := aset counts i n in
      Ok (p, counts, w64 (chk + n))) (with_cl p (fst cc), ps_counts s, 0%Z) in
  let '(p, counts, chk) := r in
  let* _ := assert_ (Z.eqb chk (Z.of_nat (g_nrow g))) in
  Ok (mkPst p (ps_dm s) (snd lc) counts (snd cc) (fst lc)).

(** min-tri-kmeans.cpp:508-561 the main loop *)
Fixpoint omp_ploop (g : kcfg N) (ws : list (worker N)) (scheds : nat -> list nat)
  (n iter : nat) (s : pst N) (trace : list (pst N)) : res (nat * bool * pst N * list (pst N)) :=
  match n with
  | 0 => Ok (iter, false, s, trace)
  | S n' =>
    let* mp := compute_dist (g_ncol g) (ps_dm s) (ps_cltrs s) in
    let* s := omp_pEM_step g ws false (scheds iter)
       (mkPst (snd mp) (fst mp) (ps_cells s) (ps_counts s) (ps_changed s) (ps_local s)) in
    if stop_test g (ps_changed s) then Ok (iter, true, s, trace ++ [s])
    else omp_ploop g ws scheds n' (S iter) (with_changed s 0) (trace ++ [s])
  end.

(** min-tri-kmeans.cpp:380-596 compute_min_kmeans.  kmeans++ uses its own
    dist_v here, so the stored distances stay at the maximum after every
    initialisation. *)
Definition compute_min_kmeans (g0 : kcfg N) (da : dist_arg) (ia : init_arg) (centers data : list T)
  (chunks : list (nat * nat)) (red : list T -> T) (d : draws N) (scheds : nat -> list nat)
  : res (prun_result N) :=
  if k_rejected (g_k g0) (g_nrow g0) then Err Throw else
  let* ks := omp_create g0 ia centers in
  let* dm := dm_create N (g_k g0) in
  match match da with DEucl => Some EUCL | DCos => Some COS | DOther => None end with
  | None => Err Throw
  | Some dt =>
    let g := with_dt g0 dt in
    let ws := omp_workers chunks data (g_ncol g) in
    let* ks := match ia with
      | IRandom => omp_random_init g data (d_int d) ks
      | IForgy => omp_forgy_init g data (d_int d) ks
      | IKmeanspp => omp_kmspp_init g ws data red (d_sched d) (d_int d 0) (d_real d) ks
      | INone => Ok ks
      | IOther => Err Throw
      end in
    let p := with_cl (prune_create N (g_k g) (g_ncol g)) (s_cltrs ks) in
    let* mp := match ia with INone => compute_dist (g_ncol g) dm p | _ => Ok (dm, p) end in
    let s0 := mkPst (snd mp) (fst mp) (map (fun a => (nmax N, a, false)) (s_asg ks)) (s_counts ks) 0 [] in
    let* s1 := if 0 <? g_max_iters g then omp_pEM_step g ws true (scheds 1) s0 else Ok s0 in
    let s1 := with_changed s1 0 in
    let iter0 := if 0 <? g_max_iters g then 2 else 0 in
    let* r := omp_ploop g ws scheds (g_max_iters g - iter0) iter0 s1
                (if 0 <? g_max_iters g then [s1] else []) in
    let '(iter, conv, s', trace) := r in
    Ok (mkPRun (mkCluster N (g_nrow g) (g_ncol g) iter (g_k g) (asg_of (ps_cells s')) (ps_counts s')
                 (c_means (p_cl (ps_cltrs s')))) conv s0 trace)
  end.

End Omp.
