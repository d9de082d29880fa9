(** The unpruned MPI coordinator: libdist/dist_coordinator.cpp.  Same conventions
    as DistRunModel.v (lock step, collectives, each process owns its slice). *)
From Coq Require Import ZArith.
From Verif Require Import Base Num Spec MatLemmas VecLemmas DistModel ClustersModel PartitionModel ParModel KmeansModel PruneModel DistRunModel.
Set Implicit Arguments.

Section DistLloyd.
Variable N : Num.
Notation T := (car N).
Notation clusters := (clusters N).

(** one process: a kmeans_coordinator on the process' rows, dist_coordinator.cpp:32-47 *)
Record uproc := mkUp {
  up_rank : nat;
  up_ws : list (worker N);
  up_st : kst N
}.
Definition up_cl (q : uproc) : clusters := s_cltrs (up_st q).
Definition up_with (q : uproc) (s : kst N) : uproc := mkUp (up_rank q) (up_ws q) s.
Definition up_with_ca (q : uproc) (c : clusters) (asg : list (option nat)) : uproc :=
  let s := up_st q in up_with q (mkSt c asg (s_counts s) (s_changed s) (s_local s)).
Definition up_with_cl (q : uproc) (c : clusters) : uproc := up_with_ca q c (s_asg (up_st q)).

(** dist_coordinator.cpp:32-69, :258-262 construction and data loading *)
Definition uproc_create (g : kcfg N) (P : nat) (data : list T) (centers : option (list T)) (it : init_t)
  (rank : nat) : res uproc :=
  let gp := proc_cfg g P rank in
  let* s := coordinator_create gp centers it in
  let* ws := build_workers gp (proc_data g P data rank) in
  Ok (mkUp rank ws s).

(** dist_coordinator.cpp:140-141: kmeans++ uses a distance vector of its own,
    filled with the maximum *)
Definition up_kp (q : uproc) : kproc N :=
  mkKp (up_rank q) (up_ws q) (up_cl q) (map (fun a => (nmax N, a)) (s_asg (up_st q))).
Definition up_of_kp (q : uproc) (p : kproc N) : uproc := up_with_ca q (kp_cl p) (map snd (kp_cells p)).

Definition ureduce_means (qs : list uproc) : list T := allreduce (nadd N) (map (fun q => c_means (up_cl q)) qs).
Definition ureduce_members (qs : list uproc) : list Z := allreduce Z.add (map (fun q => c_members (up_cl q)) qs).

(** dist_coordinator.cpp:71-90 random_partition_init, :241-250 forgy_init,
    :132-239 kmeanspp_init and :275-303 the sums over the processes in run *)
Definition udist_init (g : kcfg N) (P : nat) (data : list T) (it : init_t) (draw : nat -> nat)
  (ur : nat -> T) (ksched : nat -> nat -> list nat) (qs : list uproc) : res (list uproc) :=
  match it with
  | FORGY =>
    let* qs := mapM (fun q => let* c := forgy_local g P data draw (up_rank q) (up_cl q) in Ok (up_with_cl q c)) qs in
    let means := ureduce_means qs in
    mapM (fun q => let* c := set_mean_all (up_cl q) (means, 0) in Ok (up_with_cl q c)) qs
  | RANDOM =>
    let* qs := mapM (fun q =>
      let* ca := random_local (fun a (_ : option nat) => Some a) g P data draw (up_rank q) (up_cl q, s_asg (up_st q)) in
      Ok (up_with_ca q (fst ca) (snd ca))) qs in
    let means := ureduce_means qs in
    let nmemb := ureduce_members qs in
    mapM (fun q =>
      let* c := set_mean_all (up_cl q) (means, 0) in
      let* c := set_num_members_v c (nmemb, 0) in
      let* c := finalize_all c in
      Ok (up_with_cl q c)) qs
  | PLUSPLUS =>
    let* r := dkmspp_init g P data false ksched (draw 0) ur (map up_kp qs) in
    let '(ks, _, _) := r in Ok (map2 up_of_kp qs ks)
  | NONE => Ok qs
  end.

(** dist_coordinator.cpp:433-445 pp_aggregate *)
Definition u_aggregate (s : kst N) : res (kst N) :=
  let* cc := for_each (s_local s) (fun (l : wstate N) (cc : clusters * nat) =>
      let* c := peq (fst cc) (fst l) in Ok (c, snd cc + snd l)) (clear (s_cltrs s), 0) in
  Ok (mkSt (fst cc) (s_asg s) (s_counts s) (snd cc) (s_local s)).

(** dist_coordinator.cpp:307-322: a process' part of a turn up to the collectives *)
Definition up_local (g : kcfg N) (P : nat) (first : bool) (sched : nat -> list nat) (q : uproc) : res uproc :=
  let s := if first then clear_asg (up_st q) else up_st q in
  let* la := EM_round (proc_cfg g P (up_rank q)) (up_ws q) (s_cltrs s) (sched (up_rank q)) (s_local s) (s_asg s) in
  let* s := u_aggregate (mkSt (s_cltrs s) (snd la) (s_counts s) (s_changed s) (fst la)) in
  Ok (up_with q s).

(** dist_coordinator.cpp:331-352: after the collectives *)
Definition up_finish (g : kcfg N) (means : list T) (nmemb : list Z) (q : uproc) : res uproc :=
  let* c := set_mean_all (up_cl q) (means, 0) in
  let* c := set_num_members_v c (nmemb, 0) in
  let* _ := assert_ (Z.eqb (s32 (fold_left Z.add (c_members c) 0%Z)) (Z.of_nat (g_nrow g))) in
  let* c := finalize_all c in
  Ok (up_with_cl q c).

(** dist_coordinator.cpp:307-352 one turn on all processes and the global number
    of changed rows *)
Definition udist_step (g : kcfg N) (P : nat) (first : bool) (sched : nat -> list nat) (qs : list uproc)
  : res (list uproc * nat) :=
  let* ls := mapM (up_local g P first sched) qs in
  let means := ureduce_means ls in
  let nmemb := ureduce_members ls in
  let nchanged := list_sum (map (fun q => s_changed (up_st q)) ls) in
  let* qs := mapM (up_finish g means nmemb) ls in
  Ok (qs, nchanged).

(** dist_coordinator.cpp:305-366 the loop; the iteration count is the root's *)
Fixpoint udist_loop (g : kcfg N) (P : nat) (scheds : nat -> nat -> list nat) (n iters : nat) (qs : list uproc)
  (trace : list (list uproc)) : res (nat * bool * list uproc * list (list uproc)) :=
  match n with
  | 0 => Ok (iters, false, qs, trace)
  | S n' =>
    let* r := udist_step g P (iters =? 0) (scheds iters) qs in
    let '(qs, nchanged) := r in
    if stop_test g nchanged then Ok (S iters, true, qs, trace ++ [qs])
    else udist_loop g P scheds n' (S iters) qs (trace ++ [qs])
  end.

Record udrun_result := mkUDRun {
  ud_out : cluster_t N;              (* what the root returns *)
  ud_converged : bool;
  ud_init : list uproc;
  ud_trace : list (list uproc)
}.

(** dist_coordinator.cpp:252-426 run with an output directory *)
Definition udist_run (g : kcfg N) (P : nat) (centers : option (list T)) (it : init_t) (data : list T)
  (draw : nat -> nat) (ur : nat -> T) (ksched scheds : nat -> nat -> list nat) : res udrun_result :=
  let* qs := mapM (uproc_create g P data centers it) (seq 0 P) in
  let* qs0 := udist_init g P data it draw ur ksched qs in
  let* r := udist_loop g P scheds (g_max_iters g) 0 qs0 [] in
  let '(iters, conv, qs, trace) := r in
  let* asg := gather_root (Z.of_nat (g_nrow g)) (Z.of_nat P) None (map (fun q => s_asg (up_st q)) qs) in
  let* q0 := aget qs 0 in
  Ok (mkUDRun (mkCluster N (g_nrow g) (g_ncol g) iters (g_k g) asg (c_members (up_cl q0)) (c_means (up_cl q0)))
        conv qs0 trace).

End DistLloyd.
