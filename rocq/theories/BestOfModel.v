(** Model of the multi-start kmeans++ entry point kmeansPP (binding/kmeanspp.hpp)
    and of the coordinator functions it calls: reinit, tally_assignment_counts,
    compute_cluster_energy, dump_state.  Not modelled: printing, timing. *)
From Verif Require Import Base Num DistModel ClustersModel PartitionModel ParModel KmeansModel PruneModel.
Set Implicit Arguments.

Section BestOf.
Variable N : Num.
Notation T := (car N).
Notation pst := (pst N).

(** kmeanspp.hpp:37-40: the coordinator's arguments: no iterations, tolerance -1 *)
Definition pp_cfg (nrow ncol k : nat) (nthread : Z) (dt : dist_t) kind : kcfg N :=
  mkCfg N nrow ncol k 0 nthread (nofZ N (-1)) dt kind.

(** kmeans_task_coordinator.cpp:295-300 compute_cluster_energy *)
Definition cluster_energy (s : pst) : T := fold_left (nadd N) (dist_of (ps_cells s)) (nzero N).

(** kmeans_task_coordinator.cpp:302-309 reinit.  cluster_assignments.clear()
    makes the vector empty, and the code goes on writing to its elements.
    [keep]: the elements past the end are still usable memory holding the old
    values (an unchecked vector, in practice); otherwise the accesses are
    undefined behaviour (the C++ standard). *)
Definition reinit (keep : bool) (g : kcfg N) (ws : list (worker N)) (data : list T) (d : draws N) (s : pst) : res pst :=
  let cells := if keep then map (fun e => (nmax N, snd (fst e), snd e)) (ps_cells s) else [] in
  prune_run_init g PLUSPLUS ws data d
    (mkPst (with_cl (ps_cltrs s) (clear (p_cl (ps_cltrs s)))) (ps_dm s) cells (repeat 0%Z (g_k g)) (ps_changed s) (ps_local s)).

Definition with_counts (s : pst) (c : list Z) : pst := mkPst (ps_cltrs s) (ps_dm s) (ps_cells s) c (ps_changed s) (ps_local s).

(** kmeans_task_coordinator.cpp:311-314 on the state *)
Definition tally_state (s : pst) : res pst := let* c := tally (ps_cells s) (ps_counts s) in Ok (with_counts s c).

(** kmeans_task_coordinator.cpp:316-320 dump_state *)
Definition dump_state (g : kcfg N) (s : pst) : cluster_t N :=
  mkCluster N (g_nrow g) (g_ncol g) 0 (g_k g) (asg_of (ps_cells s)) (ps_counts s) (c_means (p_cl (ps_cltrs s))).

Record pp_result := mkPP {
  pp_best : nat;                        (* best_start, counted from 1 *)
  pp_energy : T;
  pp_out : cluster_t N;
  pp_starts : list (T * cluster_t N)    (* not in the program: energy and clustering of every start *)
}.

(** kmeanspp.hpp:48-57 the loop over the remaining starts *)
Fixpoint pp_loop (keep : bool) (g : kcfg N) (ws : list (worker N)) (data : list T) (drs : nat -> draws N)
  (n start : nat) (s : pst) (r : pp_result) : res pp_result :=
  match n with
  | 0 => Ok r
  | S n' =>
    let* s := reinit keep g ws data (drs start) s in
    let* s := tally_state s in
    let energy := cluster_energy s in
    let starts := pp_starts r ++ [(energy, dump_state g s)] in
    let r := if nltb N energy (pp_energy r) then mkPP (start + 1) energy (dump_state g s) starts
             else mkPP (pp_best r) (pp_energy r) (pp_out r) starts in
    pp_loop keep g ws data drs n' (S start) s r
  end.

(** kmeanspp.hpp:29-61 and 63-106 kmeansPP; [drs i] are the draws of start i *)
Definition kmeansPP (keep : bool) (g : kcfg N) (nstart : nat) (data : list T) (drs : nat -> draws N) : res pp_result :=
  let* ws := build_workers g data in
  let* rr := prune_run g None PLUSPLUS data (drs 0) (fun _ => []) in
  let s := with_counts (pr_init rr) (ct_counts (pr_out rr)) in
  let* s := tally_state s in
  let e := cluster_energy s in
  pp_loop keep g ws data drs (nstart - 1) 1 s (mkPP 1 e (pr_out rr) [(e, pr_out rr)]).

End BestOf.
