(** Triangle-inequality pruned k-means (knori with pruning):
    libkcommon/dist_matrix.cpp, libman/kmeans_task_thread.cpp,
    libman/kmeans_task_coordinator.cpp.

    A task worker processes its rows task by task; the tasks of one wake-up are
    its rows in increasing order, each once ([drain], C03), so the worker loop is
    modelled as the row loop over the worker's rows and the interleaving of the
    workers is [par_run] as for the unpruned version. *)
From Coq Require Import ZArith.
From Verif Require Import Base Num DistModel ClustersModel PartitionModel ParModel KmeansModel.
Set Implicit Arguments.

Section Prune.
Variable N : Num.
Notation T := (car N).
Notation clusters := (clusters N).
Notation prune_clusters := (prune_clusters N).

(* ------------------------------------------------------------------ *)
(** * dist_matrix *)

(** dist_matrix.hpp:44-47: ragged upper triangle; [dm_rows] is the member
    [rows] = number of clusters - 1 *)
Record dist_matrix := mkDM { dm_rows : nat; dm_mat : list (list T) }.

(** dist_matrix.cpp:30-40 constructor *)
Definition dm_create (rows : nat) : res dist_matrix :=
  let* _ := assert_ (1 <? rows) in
  Ok (mkDM (rows - 1) (map (fun r => repeat (nmax N) (rows - 1 - r)) (seq 0 (rows - 1)))).

(** dist_matrix.cpp:42-49 translate.  For row = col the unsigned subtraction
    wraps and the second assertion fails. *)
Definition dm_translate (m : dist_matrix) (row col : nat) : res (nat * nat) :=
  let '(row, col) := if col <? row then (col, row) else (row, col) in
  let* _ := assert_ (row <? dm_rows m) in
  let* _ := assert_ (negb (row =? col)) in
  let col := col - row - 1 in
  let* _ := assert_ (col <? dm_rows m - row) in
  Ok (row, col).

(** dist_matrix.cpp:52-56 get *)
Definition dm_get (m : dist_matrix) (row col : nat) : res T :=
  if row =? col then Ok (nmax N) else
  let* rc := dm_translate m row col in
  let* l := aget (dm_mat m) (fst rc) in
  aget l (snd rc).

(** dist_matrix.cpp:72-76 set *)
Definition dm_set (m : dist_matrix) (row col : nat) (val : T) : res dist_matrix :=
  let* _ := assert_ (negb (row =? col)) in
  let* rc := dm_translate m row col in
  let* l := aget (dm_mat m) (fst rc) in
  let* l := aset l (snd rc) val in
  let* mat := aset (dm_mat m) (fst rc) l in
  Ok (mkDM (dm_rows m) mat).

(** dist_matrix.cpp:59-69 get_min_dist *)
Definition dm_get_min_dist (m : dist_matrix) (row : nat) : res T :=
  let* best := loop (dm_rows m + 1) (fun col best =>
    if negb (col =? row) then
      let* v := dm_get m row col in
      Ok (if nltb N v best then v else best)
    else Ok best) (nmax N) in
  let* _ := assert_ (nltb N best (nmax N)) in
  Ok best.

(** dist_matrix.hpp:73-78 pw_get *)
Definition dm_pw_get (m : dist_matrix) (row col : nat) : res T :=
  if row <? col then let* l := aget (dm_mat m) row in aget l (col - row - 1)
  else if col <? row then let* l := aget (dm_mat m) col in aget l (row - col - 1)
  else Ok (nzero N).

(** dist_matrix.cpp:99-111 the body of compute_dist's inner loop *)
Definition compute_dist_cell (ncol i j : nat) (s : dist_matrix * prune_clusters)
  : res (dist_matrix * prune_clusters) :=
  let '(m, p) := s in
  let* d := eucl_dist N (c_means (p_cl p), i * ncol) (c_means (p_cl p), j * ncol) ncol in
  let dist := ndiv N d (nofZ N 2) in
  let* m := dm_set m i j dist in
  let* si := aget (p_s_val p) i in
  let* p := if nltb N dist si then set_s_val p dist i else Ok p in
  let* sj := aget (p_s_val p) j in
  let* p := if nltb N dist sj then set_s_val p dist j else Ok p in
  Ok (m, p).

(** dist_matrix.cpp:86-114 compute_dist *)
Definition compute_dist (ncol : nat) (m : dist_matrix) (p : prune_clusters)
  : res (dist_matrix * prune_clusters) :=
  let nclust := c_nclust (p_cl p) in
  if nclust <=? 1 then Ok (m, p) else
  let* _ := assert_ (dm_rows m =? nclust - 1) in
  loop nclust (fun i s =>
    for_ (nclust - (i + 1)) (i + 1) (fun j s => compute_dist_cell ncol i j s) s)
    (m, reset_s_val_v p).

(** dist_matrix.cpp:126-158 compute_pairwise_dist.  Every OpenMP thread of the
    parallel region runs the whole double loop (there is no work sharing), all
    writing the same values; the model runs it once. *)
Definition compute_pairwise_dist (data : list T) (ncol : nat) (metric : dist_t) (m : dist_matrix)
  : res dist_matrix :=
  loop (dm_rows m) (fun i m =>
    for_ (dm_rows m + 1 - (i + 1)) (i + 1) (fun j m =>
      match metric with
      | SQEUCL => Err Throw
      | _ => let* d := dist_comp_raw N (data, i * ncol) (data, j * ncol) ncol metric in
             dm_set m i j d
      end) m) m.

(* ------------------------------------------------------------------ *)
(** * The worker *)

(** the row's entries: dist_v, cluster_assignments, recalculated_v *)
Definition pcell := (T * option nat * bool)%type.

(** kmeans_task_thread.cpp:189-204 the scan of the first iteration *)
Definition prow_init (x : ptr T) (means : list T) (ncol k : nat) (dt : dist_t)
  (dv : T) (a : option nat) : res (T * option nat) :=
  loop k (fun clust_idx (s : T * option nat) =>
    let* dist := dist_comp_raw N x (means, clust_idx * ncol) ncol dt in
    Ok (if nltb N dist (fst s) then (dist, Some clust_idx) else s)) (dv, a).

(** kmeans_task_thread.cpp:216-247 one turn of the pruned scan: [(dist_v, asg,
    recalculated)] for one row *)
Definition prow_turn (x : ptr T) (means : list T) (ncol : nat) (dt : dist_t) (dm : dist_matrix)
  (clust_idx : nat) (s : T * nat * bool) : res (T * nat * bool) :=
  let '(dv, a, rc) := s in
  let* m := dm_get dm a clust_idx in
  if nleb N dv m then Ok (dv, a, rc) else
  let* dv := if rc then Ok dv else dist_comp_raw N x (means, a * ncol) ncol dt in
  let* m := dm_get dm a clust_idx in
  if nleb N dv m then Ok (dv, a, true) else
  let* jdist := dist_comp_raw N x (means, clust_idx * ncol) ncol dt in
  if nltb N jdist dv then Ok (jdist, clust_idx, true) else Ok (dv, a, true).

(** kmeans_task_thread.cpp:206-249 the pruned scan *)
Definition prow_pruned (x : ptr T) (p : prune_clusters) (dm : dist_matrix) (ncol : nat) (dt : dist_t)
  (dv : T) (a : option nat) : res (T * nat * bool) :=
  match a with
  | None => Err UB       (* index INVALID_CLUSTER_ID into prev_dist_v *)
  | Some a =>
    let* pd := aget (p_prev_dist p) a in
    let dv := nadd N dv pd in
    let* s := aget (p_s_val p) a in
    if nleb N dv s then Ok (dv, a, false) else
    loop (c_nclust (p_cl p)) (prow_turn x (c_means (p_cl p)) ncol dt dm) (dv, a, false)
  end.

(** kmeans_task_thread.cpp:184-266 one row of EM_step *)
Definition pEM_row (g : kcfg N) (ws : list (worker N)) (p : prune_clusters) (dm : dist_matrix)
  (prune_init : bool) (t r : nat) (l : wstate N) (cell : pcell) : res (wstate N * pcell) :=
  let '(dv, old, rc) := cell in
  let* w := aget ws t in
  let x := wrow w (g_ncol g) r in
  let k := c_nclust (p_cl p) in
  if prune_init then
    let* s := prow_init x (c_means (p_cl p)) (g_ncol g) k (g_dt g) dv old in
    match snd s with
    | None => Err Abort
    | Some a =>
      let* _ := assert_ (a <? k) in
      let* lc := add_member (fst l) x a in
      Ok ((lc, S (snd l)), (fst s, Some a, rc))
    end
  else
    let* s := prow_pruned x p dm (g_ncol g) (g_dt g) dv old in
    let '(dv, a, rc) := s in
    let* _ := assert_ (a <? k) in
    if id_eqb old (Some a) then Ok (l, (dv, Some a, rc))
    else
      match old with
      | None => Err UB
      | Some o =>
        let* lc := swap_membership (fst l) x o a in
        Ok ((lc, S (snd l)), (dv, Some a, rc))
      end.

(** one wake-up of all workers (kmeans_task_thread.cpp:104-135 clears the local
    clusters and num_changed) *)
Definition pEM_round (g : kcfg N) (ws : list (worker N)) (p : prune_clusters) (dm : dist_matrix)
  (prune_init : bool) (sched : list nat) (locals : list (wstate N)) (cells : list pcell)
  : res (list (wstate N) * list pcell) :=
  par_run (pEM_row g ws p dm prune_init) (w_ranges ws) sched cells
    (map (fun l => (clear (fst l), 0)) locals).

(* ------------------------------------------------------------------ *)
(** * The coordinator *)

Record pst := mkPst {
  ps_cltrs : prune_clusters;
  ps_dm : dist_matrix;
  ps_cells : list pcell;             (* dist_v, cluster_assignments, recalculated_v *)
  ps_counts : list Z;                (* cluster_assignment_counts *)
  ps_changed : nat;                  (* num_changed *)
  ps_local : list (wstate N)
}.

Definition asg_of (cells : list pcell) : list (option nat) := map (fun c => snd (fst c)) cells.
Definition dist_of (cells : list pcell) : list T := map (fun c => fst (fst c)) cells.

(** kmeans_task_coordinator.cpp:131-170 update_clusters(prune_init) *)
Definition prune_update (g : kcfg N) (prune_init : bool) (s : pst) : res pst :=
  let p0 := ps_cltrs s in
  let* p := if prune_init then Ok (with_cl p0 (clear (p_cl p0)))
            else let p1 := set_prev_means p0 in
                 let* c := unfinalize_all (p_cl p1) in Ok (with_cl p1 c) in
  let* cc := for_each (ps_local s) (fun (l : wstate N) (cc : clusters * nat) =>
      let* c := peq (fst cc) (fst l) in Ok (c, snd cc + snd l)) (p_cl p, ps_changed s) in
  let* r := loop (g_k g) (fun i (st : prune_clusters * list Z * Z) =>
      let '(p, counts, chk) := st in
      let* c := finalize (p_cl p) i in
      let p := with_cl p c in
      let* d := eucl_dist N (c_means c, i * g_ncol g) (p_prev_means p, i * g_ncol g) (g_ncol g) in
      let* p := set_prev_dist p d i in
      let* n := aget (c_members c) i in
      let* counts := aset counts i n in
      Ok (p, counts, w32 (chk + n))) (with_cl p (fst cc), ps_counts s, 0%Z) in
  let '(p, counts, chk) := r in
  let* _ := assert_ (Z.eqb chk (Z.of_nat (g_nrow g))) in
  Ok (mkPst p (ps_dm s) (ps_cells s) counts (snd cc) (ps_local s)).

Definition with_changed (s : pst) (n : nat) : pst :=
  mkPst (ps_cltrs s) (ps_dm s) (ps_cells s) (ps_counts s) n (ps_local s).

(** kmeans_task_coordinator.cpp:453-456 the init engine: one unpruned pass *)
Definition prune_first (g : kcfg N) (ws : list (worker N)) (sched : list nat) (s : pst) : res pst :=
  let* lc := pEM_round g ws (ps_cltrs s) (ps_dm s) true sched (ps_local s) (ps_cells s) in
  let* s := prune_update g true (mkPst (ps_cltrs s) (ps_dm s) (snd lc) (ps_counts s) (ps_changed s) (fst lc)) in
  Ok (with_changed s 0).

(** kmeans_task_coordinator.cpp:473-477 one turn of the main loop *)
Definition prune_iterate (g : kcfg N) (ws : list (worker N)) (sched : list nat) (s : pst) : res pst :=
  let* mp := compute_dist (g_ncol g) (ps_dm s) (ps_cltrs s) in
  let* lc := pEM_round g ws (snd mp) (fst mp) false sched (ps_local s) (ps_cells s) in
  prune_update g false (mkPst (snd mp) (fst mp) (snd lc) (ps_counts s) (ps_changed s) (fst lc)).

(** kmeans_task_coordinator.cpp:466-495 the main loop; [n] = turns the loop
    condition still allows; [trace] is not in the program *)
Fixpoint prune_loop (g : kcfg N) (ws : list (worker N)) (scheds : nat -> list nat)
  (n iter : nat) (s : pst) (trace : list pst) : res (nat * bool * pst * list pst) :=
  match n with
  | 0 => Ok (iter, false, s, trace)
  | S n' =>
    let* s := prune_iterate g ws (scheds iter) s in
    if stop_test g (ps_changed s) then Ok (iter, true, s, trace ++ [s])
    else prune_loop g ws scheds n' (S iter) (with_changed s 0) (trace ++ [s])
  end.

(** kmeans_task_coordinator.cpp:33-64 constructor (coordinator.cpp:31-55) *)
Definition prune_create_coord (g : kcfg N) (centers : option (list T)) (it : init_t) : res pst :=
  let* _ := assert_ (1 <=? g_k g) in
  let p0 := prune_create N (g_k g) (g_ncol g) in
  let* c := match centers, it with
            | Some m, NONE => set_mean_all (p_cl p0) (m, 0)
            | _, _ => Ok (p_cl p0)
            end in
  let* dm := dm_create (g_k g) in
  Ok (mkPst (with_cl p0 c) dm
        (repeat (nmax N, None, false) (g_nrow g)) (repeat 0%Z (g_k g)) 0
        (repeat (clusters_create N (g_k g) (g_ncol g), 0)
           (Z.to_nat (eff_threads (g_nthreads g) (Z.of_nat (g_nrow g)))))).

(** kmeans_task_coordinator.cpp:180-275 the initialisers: the same code as
    kmeans_coordinator.cpp:94-165, except that dist_v is a member, filled with
    the maximum at construction and left as kmeans++ set it *)
Definition prune_run_init (g : kcfg N) (it : init_t) (ws : list (worker N)) (data : list T) (d : draws N)
  (s : pst) : res pst :=
  let ks := mkSt (p_cl (ps_cltrs s)) (asg_of (ps_cells s)) (ps_counts s) (ps_changed s) (ps_local s) in
  let back (ks : kst N) (dv : list T) :=
    mkPst (with_cl (ps_cltrs s) (s_cltrs ks)) (ps_dm s)
      (combine (combine dv (s_asg ks)) (map snd (ps_cells s))) (s_counts ks) (s_changed ks) (s_local ks) in
  match it with
  | PLUSPLUS =>
    let* r := kmeanspp_init_t g ws data (d_sched d) (d_int d 0) (d_real d) ks in
    let '(ks, dv, _, _) := r in Ok (back ks dv)
  | _ => let* ks := run_init g it ws data d ks in Ok (back ks (dist_of (ps_cells s)))
  end.

(** kmeans_task_coordinator.cpp:313-316 tally_assignment_counts *)
Definition tally (cells : list pcell) (counts : list Z) : res (list Z) :=
  for_each (asg_of cells) (fun a counts =>
    match a with None => Err UB | Some c => amod counts c (fun n => n + 1)%Z end) counts.

(** kmeans_task_coordinator.cpp:424-532 run *)
Record prun_result := mkPRun {
  pr_out : cluster_t N;
  pr_converged : bool;
  pr_init : pst;             (* after run_init *)
  pr_trace : list pst        (* after the init engine and after every iteration *)
}.

Definition prune_run (g : kcfg N) (centers : option (list T)) (it : init_t) (data : list T)
  (d : draws N) (scheds : nat -> list nat) : res prun_result :=
  let* s := prune_create_coord g centers it in
  let* ws := build_workers g data in
  let* s0 := prune_run_init g it ws data d s in
  if 0 <? g_max_iters g then
    let* s1 := prune_first g ws (scheds 1) s0 in
    let* r := prune_loop g ws scheds (g_max_iters g - 1) 2 s1 [s1] in
    let '(iter, conv, s', trace) := r in
    Ok (mkPRun (mkCluster N (g_nrow g) (g_ncol g) iter (g_k g) (asg_of (ps_cells s')) (ps_counts s')
                  (c_means (p_cl (ps_cltrs s')))) conv s0 trace)
  else
    let* counts := match it with PLUSPLUS => tally (ps_cells s0) (ps_counts s0) | _ => Ok (ps_counts s0) end in
    Ok (mkPRun (mkCluster N (g_nrow g) (g_ncol g) 0 (g_k g) (asg_of (ps_cells s0)) counts
                  (c_means (p_cl (ps_cltrs s0)))) false s0 []).

End Prune.
