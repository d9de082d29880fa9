(** Model of X-means: libman/xmeans.cpp, xmeans_coordinator.{hpp,cpp}, on top of
    HclustModel (hclust_coordinator is the base class).

    Simplifications: the base class's (see HclustModel); [std::log] and the
    constant 2 pi are parameters; the unordered map of cluster members is computed
    from the assignment vector it is built from (the insertions its operator[]
    makes in the OpenMP loop when a child has no rows are not modelled: they are a
    data race); the two OpenMP loops over the scores process whole scores in an
    arbitrary order given by [ord]; [assert(kv.first == kv.second->get_id())]
    (xmeans_coordinator.cpp:153) is left out: every h_clusters is given the id under
    which it is stored (hclust_coordinator.cpp:60, 266, 279). *)
From Verif Require Import Base Num DistModel ClustersModel PartitionModel ParModel KmeansModel.
From Verif Require Import ContainersModel HclustModel.
Set Implicit Arguments.
Unset Strict Implicit.

Section Xmeans.
Variable N : Num.
Notation T := (car N).
Notation clusters := (clusters N).
(** std::log and 2.0 * M_PI *)
Variable nlog : T -> T.
Variable two_pi : T.

(** xmeans_coordinator.hpp:62-65 data members added to the base class, and the
    workers' local_clusters (xmeans.cpp:44-46) *)
Record xst := mkX {
  xh : hst N;
  x_pd : list T;                     (* partition_dist *)
  x_cd : list T;                     (* nearest_cdist *)
  x_cl : clusters;                   (* cltrs *)
  x_loc : list clusters              (* threads\[t\]->local_clusters *)
}.

(** xmeans_coordinator.cpp:33-49 the constructor, and the workers' containers;
    vectors of double are zero-initialised by resize *)
Definition x_create (g : hcfg N) (centers : option (list T)) (nthr : nat) : res xst :=
  let* s := h_coordinator_create g centers in
  let* mn := get_max_hnodes (w32 (Z.of_nat (h_k g) * 2)) in
  let c := clusters_create N (Z.to_nat mn) (g_ncol g) in
  Ok (mkX s (repeat (nzero N) (g_nrow g)) (repeat (nzero N) (g_nrow g)) (clear c) (repeat c nthr)).

(* ------------------------------------------------------------------ *)
(** * Means of whole partitions *)

(** xmeans.cpp:63-73, one row of partition_mean *)
Definition MEAN_row (g : hcfg N) (ws : list (worker N)) (part : list nat) (act : list bool)
  (t r : nat) (l : clusters) (asg : nat) : res (clusters * nat) :=
  let* w := aget ws t in
  let* active := aget act asg in
  if negb active then Ok (l, asg) else
  let* p := aget part (w_start w + r) in
  let* l := sparse_add_member l (wrow w (g_ncol g) r) p in
  Ok (l, asg).

(** xmeans.cpp:60-74 partition_mean of all workers *)
Definition MEAN_round (g : hcfg N) (ws : list (worker N)) (sched : list nat) (s : xst)
  : res (list clusters * list nat) :=
  par_run (MEAN_row g ws (x_part (xh s)) (x_act (xh s))) (w_ranges ws) sched (x_asg (xh s))
    (map (fun c => clear c) (x_loc s)).

(** xmeans_coordinator.cpp:74-82 combine_partition_means *)
Definition combine_means (cl : clusters) (locs : list clusters) : res clusters :=
  let* c := unfinalize_all cl in
  let* c := for_each locs (fun l c => sparse_peq c l) c in
  finalize_all c.

(** xmeans_coordinator.cpp:290-293 *)
Definition x_mean (g : hcfg N) (ws : list (worker N)) (sched : list nat) (s : xst) : res xst :=
  let* la := MEAN_round g ws sched s in
  let* c := combine_means (x_cl s) (fst la) in
  Ok (mkX (with_asg (xh s) (snd la)) (x_pd s) (x_cd s) c (fst la)).

(* ------------------------------------------------------------------ *)
(** * One iteration *)

(** xmeans.cpp:93-137, one row of H_EM_step; the shared entry of a row is its
    assignment, partition distance and centroid distance *)
Definition XH_EM_row (g : hcfg N) (ws : list (worker N)) (part : list nat) (act : list bool)
  (hcl : list (option (hclu N))) (cl : clusters) (pdist : bool)
  (t r : nat) (l : hlocal N) (a : nat * (T * T)) : res (hlocal N * (nat * (T * T))) :=
  let '(asg, (pd, cd)) := a in
  let* w := aget ws t in
  let* p := aget part (w_start w + r) in
  let* pd := (if pdist then dist_comp_raw N (wrow w (g_ncol g) r) (c_means cl, p * g_ncol g) (g_ncol g) (g_dt g)
              else Ok pd) in
  let* active := aget act asg in
  if negb active then Ok (l, (asg, (pd, cd))) else
  let* h := hm_ref hcl p in
  if h_conv h then Ok (l, (asg, (pd, cd))) else
  let* best := find_nearest N (wrow w (g_ncol g) r) (c_means (h_cl h)) (g_ncol g) 2 (g_dt g) in
  match fst best with
  | None => Err Abort               (* assert(asgnd_clust != INVALID_CLUSTER_ID) *)
  | Some flag =>
    let asgnd := if flag =? 0 then h_zero h else h_one h in
    let nch := if asgnd =? asg then snd l else nc_add (snd l) p 1 in
    let* lc := hm_ref (fst l) p in
    let* lc := add_member lc (wrow w (g_ncol g) r) flag in
    Ok ((hm_put (fst l) p lc, nch), (asgnd, (pd, snd best)))
  end.

(** xmeans.cpp:77-138 H_EM_step of all workers *)
Definition XH_EM_round (g : hcfg N) (ws : list (worker N)) (sched : list nat) (pdist : bool) (s : xst)
  : res (list (hlocal N) * list (nat * (T * T))) :=
  par_run (XH_EM_row g ws (x_part (xh s)) (x_act (xh s)) (x_hcl (xh s)) (x_cl s) pdist) (w_ranges ws) sched
    (combine (x_asg (xh s)) (combine (x_pd s) (x_cd s)))
    (map (fun _ => h_local0 g (x_hcl (xh s))) ws).

(** xmeans_coordinator.cpp:296-312, one turn of the inner loop *)
Definition x_iter (g : hcfg N) (ws : list (worker N)) (sched : list nat) (pdist : bool) (s : xst) : res xst :=
  let* la := XH_EM_round g ws sched pdist s in
  let* h := h_update g (fst la) (with_asg (xh s) (map fst (snd la))) in
  Ok (mkX h (map (fun a => fst (snd a)) (snd la)) (map (fun a => snd (snd a)) (snd la)) (x_cl s) (x_loc s)).

(* ------------------------------------------------------------------ *)
(** * Deciding on splits *)

(** xmeans_coordinator.hpp:30-48 split_score_t *)
Record score := mkSc { sc_pid : nat; sc_lid : nat; sc_rid : nat; sc_p : T; sc_c : T }.

(** xmeans_coordinator.hpp:90-95 accumulate: the rows of one cluster, in order *)
Definition memb (asg : list nat) (id : nat) : list nat :=
  filter (fun i => nth i asg 0 =? id) (seq 0 (length asg)).

(** xmeans_coordinator.cpp:103-112 a running sum of the entries [idx] *)
Definition sum_at (v : list T) (idx : list nat) (acc : T) : res T :=
  for_each idx (fun i a => let* x := aget v i in Ok (nadd N a x)) acc.

(** the literal 0.5 *)
Definition half : T := ndiv N (none N) (nofZ N 2).

(** xmeans_coordinator.cpp:118-127 and 133-146: the BIC value of [K] clusters over
    [n] rows with variance estimate [sigma]; [m] is the number multiplying the
    second log(N) *)
Definition bic_value (ncol : nat) (n K m sigma : T) : T :=
  let p := nadd N (nadd N (nsub N K (none N)) (nmul N (nofZ N (Z.of_nat ncol)) K)) (none N) in
  let L := nsub N (nsub N (nsub N (nsub N (nmul N n (nlog n)) (nmul N m (nlog n)))
             (nmul N (nmul N n (nlog two_pi)) half))
             (nmul N (nmul N (nmul N n (nofZ N (Z.of_nat ncol))) (nlog sigma)) half))
             (nmul N (nsub N n K) half) in
  nsub N L (nmul N (nmul N p half) (nlog n)).

(** xmeans_coordinator.cpp:93-147 bic; [nmin] is numeric_limits<double>::min().
    The operations of each score are left-associated as in the source. *)
Definition bic (g : hcfg N) (s : xst) (pid lid rid : nat) : res score :=
  let h := xh s in
  let* nl := aget (x_counts h) lid in
  let* nr := aget (x_counts h) rid in
  let n := nofZ N (nl + nr)%Z in
  let pK := none N in
  let cK := nofZ N 2 in
  let ml := memb (x_asg h) lid in
  let mr := memb (x_asg h) rid in
  let* ps := sum_at (x_pd s) ml (nzero N) in
  let* cs := sum_at (x_cd s) ml (nzero N) in
  let* ps := sum_at (x_pd s) mr ps in
  let* cs := sum_at (x_cd s) mr cs in
  let pscore := if nltb N (nzero N) (nsub N n pK)
                then bic_value (g_ncol g) n pK n (ndiv N ps (nsub N n pK)) else nmin N in
  let cscore := if nltb N (nzero N) (nsub N n cK)
                then let sg := ndiv N cs (nsub N n cK) in
                     nadd N (bic_value (g_ncol g) n cK (nofZ N nl) sg)
                            (bic_value (g_ncol g) n cK (nofZ N nr) sg) else nmin N in
  Ok (mkSc pid lid rid pscore cscore).

(** xmeans_coordinator.cpp:149-182 compute_bic_scores: one score per partition *)
Definition bic_scores (g : hcfg N) (s : xst) : res (list score) :=
  mapM (fun p => let* h := hm_ref (x_hcl (xh s)) p in bic g s p (h_zero h) (h_one h))
    (hm_keys (x_hcl (xh s))).

(** xmeans_coordinator.hpp:30-48, the comparison of partition_decision
    (xmeans_coordinator.cpp:194): the parent's score beats the children's *)
Definition rejected (sc : score) : bool := nltb N (sc_c sc) (sc_p sc).
(** xmeans_coordinator.cpp:199-240, a split undone *)
Definition reject (g : hcfg N) (cl : clusters) (asg0 : list nat) (sc : score) (s : hst N) : res (hst N) :=
    let* a := for_each (memb asg0 (sc_lid sc)) (fun i a => aset a i (sc_pid sc)) (x_asg s) in
    let* a := for_each (memb asg0 (sc_rid sc)) (fun i a => aset a i (sc_pid sc)) a in
    let s := with_asg s a in
    let* nl := aget (x_counts s) (sc_lid sc) in
    let* nr := aget (x_counts s) (sc_rid sc) in
    let* c := aset (x_counts s) (sc_pid sc) (nl + nr)%Z in
    let* c := aset c (sc_rid sc) 0%Z in
    let* c := aset c (sc_lid sc) 0%Z in
    let s := with_counts s c in
    let* s := deactivate s (sc_lid sc) in
    let* s := deactivate s (sc_rid sc) in
    let* s := deactivate s (sc_pid sc) in
    let s := with_ider s (id_reclaim (x_ider s) (Z.of_nat (sc_lid sc))) in
    let s := with_ider s (id_reclaim (x_ider s) (Z.of_nat (sc_rid sc))) in
    (* clusters.hpp:412-417 get_mean_rawptr checks the index *)
    if c_nclust cl <=? sc_pid sc then Err Throw else
    Ok (with_final s (fc_set (x_final s) (sc_pid sc) (slice (c_means cl) (sc_pid sc * g_ncol g) (g_ncol g)))).
(** xmeans_coordinator.cpp:199-240, one score of the loop of partition_decision *)
Definition decide (g : hcfg N) (cl : clusters) (asg0 : list nat) (sc : score) (s : hst N) : res (hst N) :=
  if rejected sc then reject g cl asg0 sc s else Ok s.

(** xmeans_coordinator.cpp:185-255 partition_decision; [ord] is the order in which
    the threads take the scores *)
Definition partition_decision (g : hcfg N) (ord : list score -> list score) (s : xst) : res xst :=
  let* scs := bic_scores g s in
  let* h := for_each (ord scs) (decide g (x_cl s) (x_asg (xh s))) (xh s) in
  let* h := for_each scs (fun sc h => if rejected sc then let* m := hm_erase (x_hcl h) (sc_pid sc) in Ok (with_hcl h m) else Ok h) h in
  Ok (mkX h (x_pd s) (x_cd s) (x_cl s) (x_loc s)).

Definition with_h (s : xst) (h : hst N) : xst := mkX h (x_pd s) (x_cd s) (x_cl s) (x_loc s).

(* ------------------------------------------------------------------ *)
(** * The run *)

(** hclust_coordinator.cpp:336-341 steady_state *)
Definition steady_state (s : hst N) : bool := forallb negb (x_act s).

(** which partition each row is in at the start of a round; rows of finished
    clusters get [z] *)
Definition live_asg (z : nat) (s : hst N) : list nat :=
  map (fun a => if nth a (x_act s) false then a else z) (x_asg s).

(** what the theorems say of a round (not in the program): [rr_live] at its start,
    the state when the decisions start and the state they leave *)
Record rrec := mkRR { rr_live : list nat; rr_mid : xst; rr_end : xst }.

(** xmeans_coordinator.cpp:284-336 the main loop; [fuel] bounds the rounds (the
    program has no bound); [scheds i 0] is the schedule of the MEAN step of round
    [i], [scheds i (S j)] that of its iteration [j].  The trace records the rounds. *)
Fixpoint x_loop (g : hcfg N) (ws : list (worker N)) (data : list T) (scheds : nat -> nat -> list nat)
  (ords : nat -> list score -> list score) (fuel round : nat) (s : xst) (tr : list rrec)
  : res (xst * list rrec) :=
  match fuel with
  | 0 => Err Fuel
  | S f =>
    let* s1 := x_mean g ws (scheds round 0) s in
    let* s2 := loop (g_max_iters g) (fun i s => x_iter g ws (scheds round (S i)) (i =? 0) s) s1 in
    let* s3 := partition_decision g (ords round) s2 in
    let tr := tr ++ [mkRR (live_asg (c_nclust (x_cl s)) (xh s)) s2 s3] in
    if at_cluster_cap g (xh s3) then Ok (s3, tr)
    else
      let* h := init_splits g data (xh s3) in
      if hm_keyless (x_hcl h) then
        let* _ := assert_ (steady_state h) in Ok (with_h s3 h, tr)
      else x_loop g ws data scheds ords f (S round) (with_h s3 h) tr
  end.

(** xmeans_coordinator.cpp:259-369 run; [bind] as in h_run *)
Definition x_run (g : hcfg N) (bind : bool) (centers : option (list T)) (it : init_t) (data : list T)
  (d : nat -> nat) (scheds : nat -> nat -> list nat) (ords : nat -> list score -> list score) (fuel : nat)
  : res (hst N * list rrec) :=
  let* s := x_create g centers (Z.to_nat (eff_threads (g_nthreads g) (Z.of_nat (g_nrow g)))) in
  let* ws := build_workers g data in
  let* h := run_hinit g it data d (xh s) in
  let* st := x_loop g ws data scheds ords fuel 0 (with_h s h) [] in
  let* h := complete_final g (xh (fst st)) in
  let* _ := if bind then Ok tt else verify_consistency g h in
  Ok (h, snd st).
End Xmeans.
