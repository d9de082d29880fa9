(** k-medoids: libman/medoid.cpp and libman/medoid_coordinator.cpp.

    Conventions as in KmeansModel: [None] is the all-ones unsigned value (an
    unassigned row, no candidate); [scheds] give the interleavings of the workers.
    The workers' uniform draws only matter through the comparison with the sample
    rate (medoid.cpp:129), so the model takes the outcome for every row and
    iteration ([smp it r]: row [r] is looked at in iteration [it]). *)
From Verif Require Import Base Num DistModel ClustersModel PartitionModel ParModel KmeansModel.
Set Implicit Arguments.

Section Medoid.
Variable N : Num.
Notation T := (car N).
Notation clusters := (clusters N).

(** medoid.cpp:36-37 constructs its [thread] without a metric, so the default
    argument of thread.hpp is used whatever the coordinator was asked for *)
Definition medoid_metric : dist_t := EUCL.

(** coordinator state, medoid_coordinator.hpp:38-52 *)
Record mst := mkMst {
  m_cl : clusters;                (* medoids in the means, their row ids in num_members_v *)
  m_asg : list (option nat);      (* cluster_assignments *)
  m_counts : list Z;              (* cluster_assignment_counts *)
  m_energy : list T;              (* medoid_energy *)
  m_changed : nat;                (* num_changed *)
  m_memb : list (list nat);       (* membership *)
  m_flag : bool                   (* medoids_changed *)
}.

(* ------------------------------------------------------------------ *)
(** * EM step *)

(** worker-local: local_clusters (only its counts are used), local_medoid_energy,
    meta.num_changed *)
Definition mlocal := (list Z * list T * nat)%type.

(** medoid.cpp:83-84 *)
Definition m_local0 (k : nat) : mlocal := (repeat 0%Z k, repeat (nzero N) k, 0).

(** medoid.cpp:86-117, one row *)
Definition mEM_row (g : kcfg N) (ws : list (worker N)) (gcl : clusters)
  (t r : nat) (l : mlocal) (asg : option nat) : res (mlocal * option nat) :=
  let* w := aget ws t in
  let* best := find_nearest N (wrow w (g_ncol g) r) (c_means gcl) (g_ncol g) (c_nclust gcl) medoid_metric in
  match fst best with
  | None => Err Abort
  | Some c =>
    let '(cnt, en, ch) := l in
    let ch := if id_eqb (Some c) asg then ch else S ch in
    let* en := amod en c (fun e => nadd N e (snd best)) in
    let* cnt := amod cnt c (fun n => n + 1)%Z in
    Ok ((cnt, en, ch), Some c)
  end.

(** medoid_coordinator.cpp:62-72 populate_membership: appends *)
Definition populate (g : kcfg N) (asg : list (option nat)) (memb : list (list nat)) : res (list (list nat)) :=
  loop (g_k g) (fun cid memb =>
    loop (g_nrow g) (fun rid memb =>
      let* a := aget asg rid in
      if id_eqb a (Some cid) then amod memb cid (fun l => l ++ [rid]) else Ok memb) memb) memb.

(** medoid_coordinator.cpp:141-166 compute_globals *)
Definition compute_globals (g : kcfg N) (locs : list mlocal) (s : mst) : res mst :=
  let* memb := populate g (m_asg s) (m_memb s) in
  let* r := for_each locs (fun (l : mlocal) (st : list Z * list T * nat) =>
      let '(counts, energy, ch) := st in
      let '(lcnt, len, lch) := l in
      let* ce := loop (g_k g) (fun c (ce : list Z * list T) =>
        let* n := aget lcnt c in
        let* counts := amod (fst ce) c (fun x => x + n)%Z in
        let* e := aget len c in
        let* energy := amod (snd ce) c (fun x => nadd N x e) in
        Ok (counts, energy)) (counts, energy) in
      Ok (ce, ch + lch))
    (map (fun _ => 0%Z) (m_counts s), map (fun _ => nzero N) (m_energy s), 0) in
  let '(counts, energy, ch) := r in
  let* _ := assert_ (ch <=? g_nrow g) in
  Ok (mkMst (m_cl s) (m_asg s) counts energy ch memb (m_flag s)).

(** wake4run(EM); wait4complete(); compute_globals() *)
Definition mEM_round (g : kcfg N) (ws : list (worker N)) (sched : list nat) (s : mst) : res mst :=
  let* la := par_run (mEM_row g ws (m_cl s)) (w_ranges ws) sched (m_asg s) (map (fun _ => m_local0 (g_k g)) ws) in
  compute_globals g (fst la)
    (mkMst (m_cl s) (snd la) (m_counts s) (m_energy s) (m_changed s) (m_memb s) (m_flag s)).

(* ------------------------------------------------------------------ *)
(** * Medoid step *)

(** worker-local: candidate_medoids, candidate_medoid_energy *)
Definition mcand := (list (option nat) * list T)%type.
(** medoid.cpp:121-124 (and medoid_coordinator.cpp:104-109) *)
Definition m_cand0 (k : nat) : mcand := (repeat None k, repeat (nmax N) k).

(** medoid.cpp:127-152, one row *)
Definition medoid_row (g : kcfg N) (ws : list (worker N)) (data : list T) (memb : list (list nat)) (smp : nat -> bool)
  (t r : nat) (l : mcand) (asg : option nat) : res (mcand * option nat) :=
  let* w := aget ws t in
  let true_rid := w_start w + r in
  if negb (smp true_rid) then Ok (l, asg) else
  match asg with
  | None => Err UB                       (* membership[(unsigned)-1] *)
  | Some cid =>
    let* members := aget memb cid in
    let* energy := for_each members (fun member_id e =>
      if member_id =? true_rid then Ok e
      else
        let* p := thd_row g data member_id in
        let* dd := dist_comp_raw N (wrow w (g_ncol g) r) p (g_ncol g) medoid_metric in
        Ok (nadd N e dd)) (nzero N) in
    let* ce := aget (snd l) cid in
    if nltb N energy ce then
      let* en := aset (snd l) cid energy in
      let* cm := aset (fst l) cid (Some true_rid) in
      Ok ((cm, en), asg)
    else Ok (l, asg)
  end.

(** medoid_coordinator.cpp:112-123 *)
Definition m_reduce (g : kcfg N) (locs : list mcand) : res mcand :=
  for_each locs (fun (l : mcand) (agg : mcand) =>
    loop (g_k g) (fun cid (agg : mcand) =>
      let* ce := aget (snd l) cid in
      let* ae := aget (snd agg) cid in
      if nltb N ce ae then
        let* en := aset (snd agg) cid ce in
        let* m := aget (fst l) cid in
        let* cm := aset (fst agg) cid m in
        Ok (cm, en)
      else Ok agg) agg) (m_cand0 (g_k g)).

(** the row of a candidate: medoid_coordinator.cpp:132-135; [gdata] is the caller's
    matrix if there is one *)
Definition cand_row (g : kcfg N) (data : list T) (id : nat) : res (ptr T) :=
  match g_kind g with
  | UserBuffer => Ok (data, id * g_ncol g)
  | _ => thd_row g data id
  end.

(** medoid_coordinator.cpp:125-138 *)
Definition m_replace (g : kcfg N) (data : list T) (agg : mcand) (s : mst) : res mst :=
  loop (g_k g) (fun cid s =>
    let* ae := aget (snd agg) cid in
    let* e := aget (m_energy s) cid in
    if nltb N ae e then
      let* energy := aset (m_energy s) cid ae in
      let* m := aget (fst agg) cid in
      match m with
      | None => Err UB
      | Some id =>
        let* nm := aset (c_members (m_cl s)) cid (Z.of_nat id) in
        let* p := cand_row g data id in
        let* c := set_mean_at (with_members (m_cl s) nm) p cid in
        Ok (mkMst c (m_asg s) (m_counts s) energy (m_changed s) (m_memb s) true)
      end
    else Ok s) s.

(** wake4run(MEDOID); wait4complete(); choose_global_medoids *)
Definition medoid_round (g : kcfg N) (ws : list (worker N)) (data : list T) (smp : nat -> bool) (sched : list nat)
  (s : mst) : res mst :=
  let* la := par_run (medoid_row g ws data (m_memb s) smp) (w_ranges ws) sched (m_asg s) (map (fun _ => m_cand0 (g_k g)) ws) in
  let* agg := m_reduce g (fst la) in
  m_replace g data agg s.

(** medoid_coordinator.hpp:82-85 clear_membership *)
Definition clear_memb (s : mst) : mst :=
  mkMst (m_cl s) (m_asg s) (m_counts s) (m_energy s) (m_changed s) (map (fun _ => []) (m_memb s)) (m_flag s).

(* ------------------------------------------------------------------ *)
(** * The run *)

(** medoid_coordinator.cpp:31-60 and coordinator.cpp:31-55 the constructor *)
Definition m_create (g : kcfg N) (centers : option (list T)) (it : init_t) : res mst :=
  let* _ := assert_ (1 <=? g_k g) in
  let c0 := clusters_create N (g_k g) (g_ncol g) in
  let* c := match centers, it with
            | Some m, NONE => set_mean_all c0 (m, 0)
            | _, _ => Ok c0
            end in
  Ok (mkMst c (repeat None (g_nrow g)) (repeat 0%Z (g_k g)) (repeat (nzero N) (g_k g)) 0 (repeat [] (g_k g)) true).

(** medoid_coordinator.cpp:169-180 forgy_init *)
Definition m_forgy (g : kcfg N) (data : list T) (draw : nat -> nat) (s : mst) : res mst :=
  let* c := loop (g_k g) (fun cid c =>
    let* p := thd_row g data (draw cid) in
    let* c := set_mean_at c p cid in
    let* nm := aset (c_members c) cid (Z.of_nat (draw cid)) in
    Ok (with_members c nm)) (m_cl s) in
  Ok (mkMst c (m_asg s) (m_counts s) (m_energy s) (m_changed s) (m_memb s) (m_flag s)).

(** medoid_coordinator.cpp:182-192 run_init *)
Definition m_init (g : kcfg N) (ws : list (worker N)) (it : init_t) (data : list T) (draw : nat -> nat) (sched : list nat)
  (s : mst) : res mst :=
  match it with
  | FORGY => let* s := m_forgy g data draw s in mEM_round g ws sched s
  | _ => Err Throw
  end.

(** medoid_coordinator.cpp:222-264: one turn of the loop; [true]: left the loop *)
Definition m_turn (g : kcfg N) (ws : list (worker N)) (data : list T) (smp : nat -> bool) (sm se : list nat) (s : mst)
  : res (mst * bool) :=
  let* s := medoid_round g ws data smp sm s in
  if m_flag s then
    let* s := mEM_round g ws se (clear_memb s) in
    Ok (s, stop_test g (m_changed s))
  else Ok (s, true).

(** the loop; [n] = max_iters + 1 - iter; [trace]: the states after every turn *)
Fixpoint m_loop (g : kcfg N) (ws : list (worker N)) (data : list T) (smp : nat -> nat -> bool) (sm se : nat -> list nat)
  (n iter : nat) (s : mst) (trace : list mst) : res (nat * bool * mst * list mst) :=
  match n with
  | 0 => Ok (iter, false, s, trace)
  | S n' =>
    let* r := m_turn g ws data (smp iter) (sm iter) (se iter) s in
    if snd r then Ok (iter, true, fst r, trace ++ [fst r])
    else m_loop g ws data smp sm se n' (S iter) (fst r) (trace ++ [fst r])
  end.

Record mrun_result := mkMRun {
  mr_out : cluster_t N; mr_converged : bool; mr_init : mst; mr_trace : list mst }.

(** medoid_coordinator.cpp:197-297 run *)
Definition m_run (g : kcfg N) (centers : option (list T)) (it : init_t) (data : list T) (draw : nat -> nat)
  (smp : nat -> nat -> bool) (sm se : nat -> list nat) : res mrun_result :=
  let* s := m_create g centers it in
  let* _ := match g_kind g with NumaReorg => Err Throw | _ => Ok tt end in
  let* ws := build_workers g data in
  let* s := m_init g ws it data draw (se 0) s in
  let iter0 := if 0 <? g_max_iters g then 1 else 0 in
  let* r := m_loop g ws data smp sm se (g_max_iters g) iter0 s [] in
  let '(iter, conv, s', trace) := r in
  Ok (mkMRun (mkCluster N (g_nrow g) (g_ncol g) iter (g_k g) (m_asg s') (m_counts s') (c_means (m_cl s')))
        conv s trace).
End Medoid.
