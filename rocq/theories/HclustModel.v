(** Model of hierarchical clustering: libman/hclust.cpp, hclust_coordinator.cpp
    and the parts of coordinator.cpp, types.hpp and util.cpp they use.

    Simplifications: the active-cluster vector (thd_safe_bool_vector, modelled in
    ContainersModel) is a list of booleans; cluster ids and change counters are
    unbounded naturals (bounded by 2^32 in C++); the printed output and the timer
    are left out; [h_clusters::id] is written but never read here. *)
From Verif Require Import Base Num DistModel ClustersModel PartitionModel ParModel KmeansModel.
From Verif Require Import ContainersModel.
Set Implicit Arguments.
Unset Strict Implicit.

(* ------------------------------------------------------------------ *)
(** * vmap of pointers / of counters, as used here *)

Section Hmap.
Variable A : Type.

(** types.hpp:119-123 [m\[i\]->...]: a missing slot (grown to a null pointer) or a
    null slot is a null-pointer dereference *)
Definition hm_ref (m : list (option A)) (i : nat) : res A :=
  match nth_error m i with Some (Some x) => Ok x | _ => Err UB end.

(** types.hpp:119-123 [m\[i\] = v], growing the vector when needed *)
Definition hm_put (m : list (option A)) (i : nat) (v : A) : list (option A) :=
  if i <? length m then upd m i (Some v)
  else m ++ repeat None (i - length m) ++ [Some v].

(** types.hpp:117 erase: no bounds check *)
Definition hm_erase (m : list (option A)) (i : nat) : res (list (option A)) := aset m i None.

(** types.hpp:153-159 get_keys, and the keys visited by the iterator
    (types.hpp:191-222): theorems c42_keys and c42_iterate *)
Fixpoint hm_keys_from (i : nat) (m : list (option A)) : list nat :=
  match m with
  | [] => []
  | Some _ :: t => i :: hm_keys_from (S i) t
  | None :: t => hm_keys_from (S i) t
  end.
Definition hm_keys (m : list (option A)) : list nat := hm_keys_from 0 m.

(** types.hpp:171-177 keyless *)
Definition hm_keyless (m : list (option A)) : bool :=
  forallb (fun x => match x with None => true | Some _ => false end) m.
End Hmap.

(** [m\[i\] += v] on a vmap of counters (new slots are 0) *)
Definition nc_add (m : list nat) (i v : nat) : list nat :=
  if i <? length m then upd m i (nth i m 0 + v)
  else m ++ repeat 0 (i - length m) ++ [v].

(** util.cpp:73-75 get_hclust_floor: largest power of two not above k (the
    floating-point log2 is taken to be exact; k >= 1) *)
Definition hclust_floor (k : nat) : nat := 2 ^ Nat.log2 k.

(** util.hpp:49-55 get_max_hnodes<unsigned>: [fuel] is the number of turns
    allowed; i doubles in 32 bits *)
Fixpoint max_hnodes_loop (fuel : nat) (v i nodes : Z) : res Z :=
  match fuel with
  | 0 => Err Fuel
  | S f => if (i <=? v)%Z then max_hnodes_loop f v (w32 (i * 2)) (w32 (nodes + i)) else Ok nodes
  end.
Definition get_max_hnodes (v : Z) : res Z := max_hnodes_loop 40 v 1 0.

Section Hclust.
Variable N : Num.
Notation T := (car N).
Notation clusters := (clusters N).

(** clusters.hpp:308-312 h_clusters *)
Record hclu := mkH { h_cl : clusters; h_zero : nat; h_one : nat; h_conv : bool }.

(** clusters.hpp:317-331 the two- and five-argument create *)
Definition h_create (ncol zero one : nat) : hclu := mkH (clusters_create N 2 ncol) zero one false.

(** configuration: as for k-means ([g_k] is the user's k), plus the minimum
    cluster size *)
Record hcfg := mkHc { hg :> kcfg N; h_min : nat }.

(** hclust_coordinator.cpp:38: the k of the base class *)
Definition h_k (g : hcfg) : nat := hclust_floor (g_k g) / 2.

(** hclust_coordinator.hpp:68-84 data members *)
Record hst := mkHs {
  x_asg : list nat;                  (* cluster_assignments *)
  x_part : list nat;                 (* part_id *)
  x_act : list bool;                 (* cltr_active_vec *)
  x_hcl : list (option hclu);        (* hcltrs *)
  x_counts : list Z;                 (* cluster_assignment_counts *)
  x_ider : idgen;                    (* ider *)
  x_curr : Z;                        (* curr_nclust, size_t *)
  x_final : list (nat * list T)      (* final_centroids, keys distinct *)
}.
Definition with_asg s v := mkHs v (x_part s) (x_act s) (x_hcl s) (x_counts s) (x_ider s) (x_curr s) (x_final s).
Definition with_part s v := mkHs (x_asg s) v (x_act s) (x_hcl s) (x_counts s) (x_ider s) (x_curr s) (x_final s).
Definition with_act s v := mkHs (x_asg s) (x_part s) v (x_hcl s) (x_counts s) (x_ider s) (x_curr s) (x_final s).
Definition with_hcl s v := mkHs (x_asg s) (x_part s) (x_act s) v (x_counts s) (x_ider s) (x_curr s) (x_final s).
Definition with_counts s v := mkHs (x_asg s) (x_part s) (x_act s) (x_hcl s) v (x_ider s) (x_curr s) (x_final s).
Definition with_ider s v := mkHs (x_asg s) (x_part s) (x_act s) (x_hcl s) (x_counts s) v (x_curr s) (x_final s).
Definition with_curr s v := mkHs (x_asg s) (x_part s) (x_act s) (x_hcl s) (x_counts s) (x_ider s) v (x_final s).
Definition with_final s v := mkHs (x_asg s) (x_part s) (x_act s) (x_hcl s) (x_counts s) (x_ider s) (x_curr s) v.

(** [hcltrs\[p\]->op] *)
Definition hcl_mod (m : list (option hclu)) (p : nat) (f : hclu -> res hclu) : res (list (option hclu)) :=
  let* h := hm_ref m p in
  let* h' := f h in
  Ok (hm_put m p h').
Definition h_with_cl (h : hclu) (c : clusters) : hclu := mkH c (h_zero h) (h_one h) (h_conv h).

(** hclust_coordinator.cpp:318-321, 323-327 deactivate, activate *)
Definition deactivate (s : hst) (id : nat) : res hst :=
  let* v := aset (x_act s) id false in Ok (with_act s v).
Definition activate (s : hst) (id : nat) : res hst :=
  let* v := aset (x_act s) id true in
  Ok (with_curr (with_act s v) (if 0 <? id then w64 (x_curr s + 1) else x_curr s)).

(** hclust_coordinator.hpp:147 at_cluster_cap: k*2 is unsigned *)
Definition at_cluster_cap (g : hcfg) (s : hst) : bool :=
  (w32 (Z.of_nat (h_k g) * 2) <? x_curr s)%Z.

(** std::unordered_map: [m\[key\] = v] *)
Fixpoint fc_set (m : list (nat * list T)) (key : nat) (v : list T) : list (nat * list T) :=
  match m with
  | [] => [(key, v)]
  | (k', v') :: t => if k' =? key then (k', v) :: t else (k', v') :: fc_set t key v
  end.

(** hclust_coordinator.cpp:32-66 the constructor ([centers] may be null) *)
Definition h_coordinator_create (g : hcfg) (centers : option (list T)) : res hst :=
  let* _ := assert_ (1 <=? h_k g) in                   (* coordinator.cpp:43 *)
  let* mn := get_max_hnodes (w32 (Z.of_nat (g_k g) * 2)) in
  let max_nodes := Z.to_nat mn in
  let s := mkHs (repeat 0 (g_nrow g)) (repeat 0 (g_nrow g)) (repeat false max_nodes)
             (repeat None max_nodes) (repeat 0%Z max_nodes) idgen_create 0%Z [] in
  let* s := activate s 0 in
  let* h := match centers with
            | Some m => let* c := clusters_create_means N 2 (g_ncol g) (m, 0) in
                        Ok (mkH c 0 0 false)
            | None => Ok (h_create (g_ncol g) 0 0)
            end in
  Ok (with_hcl s (hm_put (x_hcl s) 0 h)).

(** one pair of ids from the generator *)
Definition split_ids (s : hst) : (nat * nat) * hst :=
  let '(lr, ider) := id_split (x_ider s) in
  ((Z.to_nat (fst lr), Z.to_nat (snd lr)), with_ider s ider).

(** hclust_coordinator.cpp:141-156 forgy_init; [d i] is the i-th draw *)
Definition h_forgy_init (g : hcfg) (data : list T) (d : nat -> nat) (s : hst) : res hst :=
  let '(lr, s) := split_ids s in
  let* h := hm_ref (x_hcl s) 0 in
  let* p := thd_row g data (d 0) in
  let* c := set_mean_at (h_cl h) p 0 in
  let* s := activate s (fst lr) in
  let* p := thd_row g data (d 1) in
  let* c := set_mean_at c p 1 in
  let* s := activate s (snd lr) in
  Ok (with_hcl s (hm_put (x_hcl s) 0 (mkH c (fst lr) (snd lr) (h_conv h)))).

(** hclust_coordinator.cpp:158-167 none_init *)
Definition h_none_init (s : hst) : res hst :=
  let '(lr, s) := split_ids s in
  let* h := hm_ref (x_hcl s) 0 in
  let* s := activate s (fst lr) in
  let* s := activate s (snd lr) in
  Ok (with_hcl s (hm_put (x_hcl s) 0 (mkH (h_cl h) (fst lr) (snd lr) (h_conv h)))).

(** hclust_coordinator.cpp:169-180 run_hinit *)
Definition run_hinit (g : hcfg) (it : init_t) (data : list T) (d : nat -> nat) (s : hst) : res hst :=
  match it with
  | FORGY => h_forgy_init g data d s
  | NONE => h_none_init s
  | _ => Err Throw
  end.

(* ------------------------------------------------------------------ *)
(** * The parallel step *)

(** worker-local state: local_hcltrs and nchanged *)
Definition hlocal := (list (option clusters) * list nat)%type.

(** hclust.cpp:78-92, start of H_EM_step: fresh cleared containers for the
    partitions that have not converged *)
Definition h_local0 (g : hcfg) (hcl : list (option hclu)) : hlocal :=
  (map (fun o => match o with
                 | Some h => if h_conv h then None
                             else Some (clear (clusters_create N 2 (g_ncol g)))
                 | None => None
                 end) hcl, []).

(** hclust.cpp:94-132, one row of H_EM_step.  The loop over the two means is the
    loop of k-means' EM_step with k = 2 ([find_nearest]). *)
Definition H_EM_row (g : hcfg) (ws : list (worker N)) (part : list nat) (act : list bool)
  (hcl : list (option hclu)) (t r : nat) (l : hlocal) (asg : nat) : res (hlocal * nat) :=
  let* w := aget ws t in
  let* p := aget part (w_start w + r) in
  let* active := aget act asg in
  if negb active then Ok (l, asg) else
  let* h := hm_ref hcl p in
  if h_conv h then Ok (l, asg) else
  let* best := find_nearest N (wrow w (g_ncol g) r) (c_means (h_cl h)) (g_ncol g) 2 (g_dt g) in
  match fst best with
  | None => Err Abort               (* assert(asgnd_clust != INVALID_CLUSTER_ID) *)
  | Some flag =>
    let asgnd := if flag =? 0 then h_zero h else h_one h in
    let nch := if asgnd =? asg then snd l else nc_add (snd l) p 1 in
    let* lc := hm_ref (fst l) p in
    let* lc := add_member lc (wrow w (g_ncol g) r) flag in
    Ok ((hm_put (fst l) p lc, nch), asgnd)
  end.

(** hclust.cpp:77-133 H_EM_step of all workers, interleaved by [sched] *)
Definition H_EM_round (g : hcfg) (ws : list (worker N)) (sched : list nat) (s : hst)
  : res (list hlocal * list nat) :=
  par_run (H_EM_row g ws (x_part s) (x_act s) (x_hcl s)) (w_ranges ws) sched (x_asg s)
    (map (fun _ => h_local0 g (x_hcl s)) ws).

(** hclust_coordinator.cpp:347-354: the first loop of update_clusters *)
Definition h_clear_all (act : list bool) (m : list (option hclu)) : res (list (option hclu)) :=
  for_each (hm_keys m) (fun p m =>
    let* a := aget act p in
    let* _ := assert_ a in
    hcl_mod m p (fun h => Ok (if h_conv h then h else h_with_cl h (clear (h_cl h))))) m.

(** hclust_coordinator.cpp:357-372: merging the workers' results *)
Definition h_merge (locs : list hlocal) (m : list (option hclu)) : res (list (option hclu) * list nat) :=
  for_each locs (fun (l : hlocal) st =>
    let nch := fold_left (fun nch i => nc_add nch i (nth i (snd l) 0)) (seq 0 (length (snd l))) (snd st) in
    let* m := for_each (hm_keys (fst l)) (fun p m =>
      let* lc := hm_ref (fst l) p in
      hcl_mod m p (fun h => let* c := peq (h_cl h) lc in Ok (h_with_cl h c))) (fst st) in
    Ok (m, nch)) (m, []).

(** hclust_coordinator.cpp:375-395: counts, finalisation, convergence *)
Definition h_settle (g : hcfg) (nch : list nat) (m : list (option hclu)) (counts : list Z)
  : res (list (option hclu) * list Z) :=
  for_each (hm_keys m) (fun p st =>
    let* h := hm_ref (fst st) p in
    let* n0 := aget (c_members (h_cl h)) 0 in
    let* n1 := aget (c_members (h_cl h)) 1 in
    let* counts := aset (snd st) p 0%Z in
    let* counts := aset counts (h_zero h) n0 in
    let* counts := aset counts (h_one h) n1 in
    if h_conv h then Ok (fst st, counts) else
    let* c := finalize (h_cl h) 0 in
    let* c := finalize c 1 in
    let n := nth p nch 0 in
    let conv := (n =? 0) ||
      nleb N (ndiv N (nofZ N (Z.of_nat n)) (nofZ N (n0 + n1)%Z)) (g_tol g) in
    Ok (hm_put (fst st) p (mkH c (h_zero h) (h_one h) conv), counts)) (m, counts).

(** hclust_coordinator.cpp:343-396 update_clusters *)
Definition h_update (g : hcfg) (locs : list hlocal) (s : hst) : res hst :=
  let* m := h_clear_all (x_act s) (x_hcl s) in
  let* mn := h_merge locs m in
  let* mc := h_settle g (snd mn) (fst mn) (x_counts s) in
  Ok (with_counts (with_hcl s (fst mc)) (snd mc)).

(** hclust_coordinator.cpp:460-472: one turn of the inner loop *)
Definition h_iter (g : hcfg) (ws : list (worker N)) (sched : list nat) (s : hst) : res hst :=
  let* la := H_EM_round g ws sched s in
  h_update g (fst la) (with_asg s (snd la)).

(* ------------------------------------------------------------------ *)
(** * Splitting *)

(** hclust_coordinator.hpp:38-65 c_part; [None] is numeric_limits<unsigned>::max() *)
Record c_part := mkCp { l0 : option nat; l1 : option nat; r0 : option nat; r1 : option nat }.
Definition cp_none := mkCp None None None None.

(** hclust_coordinator.cpp:229-259, one turn of the scan.  State: c_part, the
    four completion flags, and whether the loop has been left. *)
Record scan := mkScan { sc_cp : c_part; sc_l0 : bool; sc_l1 : bool; sc_r0 : bool; sc_r1 : bool; sc_done : bool }.
Definition scan_row (act : list bool) (asg : list nat) (zeroid oneid vid : nat) (c : scan) : res scan :=
  if sc_done c then Ok c
  else if sc_l0 c && sc_l1 c && sc_r0 c && sc_r1 c then
    Ok (mkScan (sc_cp c) (sc_l0 c) (sc_l1 c) (sc_r0 c) (sc_r1 c) true)
  else
  let cp := sc_cp c in
  let* a := aget asg vid in
  if a =? zeroid then
    if negb (sc_l0 c) then
      Ok (mkScan (mkCp (Some vid) (l1 cp) (r0 cp) (r1 cp)) true (sc_l1 c) (sc_r0 c) (sc_r1 c) false)
    else if negb (sc_l1 c) then
      let* b := aget act oneid in
      Ok (mkScan (mkCp (l0 cp) (Some vid) (r0 cp) (r1 cp)) (sc_l0 c) true (sc_r0 c) (sc_r1 c) (negb b))
    else Ok c
  else if a =? oneid then
    if negb (sc_r0 c) then
      Ok (mkScan (mkCp (l0 cp) (l1 cp) (Some vid) (r1 cp)) (sc_l0 c) (sc_l1 c) true (sc_r1 c) false)
    else if negb (sc_r1 c) then
      let* b := aget act zeroid in
      Ok (mkScan (mkCp (l0 cp) (l1 cp) (r0 cp) (Some vid)) (sc_l0 c) (sc_l1 c) (sc_r0 c) true (negb b))
    else Ok c
  else Ok c.

(** hclust_coordinator.cpp:264-275 (and 277-286): one child becomes a partition *)
Definition spawn1 (g : hcfg) (data : list T) (id : nat) (a b : option nat) (s : hst) : res hst :=
  match a, b with
  | Some a, Some b =>
    let '(lr, s) := split_ids s in
    let h := h_create (g_ncol g) (fst lr) (snd lr) in
    let* p := thd_row g data a in
    let* c := set_mean_at (h_cl h) p 0 in
    let* p := thd_row g data b in
    let* c := set_mean_at c p 1 in
    let s := with_hcl s (hm_put (x_hcl s) id (h_with_cl h c)) in
    let* s := activate s (fst lr) in
    activate s (snd lr)
  | _, _ => Ok s
  end.

(** hclust_coordinator.cpp:261-288 spawn *)
Definition spawn (g : hcfg) (data : list T) (zeroid oneid : nat) (cp : c_part) (s : hst) : res hst :=
  let* s := spawn1 g data zeroid (l0 cp) (l1 cp) s in
  spawn1 g data oneid (r0 cp) (r1 cp) s.

(** hclust_coordinator.cpp:206-227: too small or too many clusters: the child
    becomes an output cluster *)
Definition retire (g : hcfg) (h : hclu) (j id : nat) (s : hst) : res (hst * bool) :=
  let* n := aget (x_counts s) id in
  (* a signed 64-bit count compared with an unsigned *)
  if (n <? Z.of_nat (h_min g))%Z || at_cluster_cap g s then
    let* s := deactivate s id in
    let c := slice (c_means (h_cl h)) (j * g_ncol g) (g_ncol g) in
    Ok (with_final s (fc_set (x_final s) id c), true)
  else Ok (s, false).

(** hclust_coordinator.cpp:196-260, one partition of inner_init *)
Definition init_part (g : hcfg) (data : list T) (id : nat) (st : hst * list nat) : res (hst * list nat) :=
  let '(s, cache) := st in
  let* h := hm_ref (x_hcl s) id in
  let zeroid := h_zero h in
  let oneid := h_one h in
  let* sb := retire g h 0 zeroid s in
  let '(s, lb) := sb in
  let* sb := retire g h 1 oneid s in
  let '(s, rb) := sb in
  let* n := aget (x_counts s) id in
  let* _ := assert_ (n =? 0)%Z in
  let* c := loop (g_nrow g) (scan_row (x_act s) (x_asg s) zeroid oneid)
              (mkScan cp_none lb lb rb rb false) in
  let* s := spawn g data zeroid oneid (sc_cp c) s in
  Ok (s, cache ++ [id]).

(** hclust_coordinator.cpp:290-305 init_splits *)
Definition init_splits (g : hcfg) (data : list T) (s : hst) : res hst :=
  let* sc := for_each (hm_keys (x_hcl s)) (init_part g data) (s, []) in
  let* s := for_each (snd sc) (fun id s =>
    let* m := hm_erase (x_hcl s) id in
    let* s := deactivate (with_hcl s m) id in
    Ok (with_curr (with_ider s (id_reclaim (x_ider s) (Z.of_nat id))) (w64 (x_curr s - 1)))) (fst sc) in
  Ok (with_part s (x_asg s)).

(* ------------------------------------------------------------------ *)
(** * The run *)

(** hclust_coordinator.cpp:455-491 the main loop; [fuel] bounds the rounds (the
    program has no bound), [scheds] gives the schedule of every iteration *)
Fixpoint h_loop (g : hcfg) (ws : list (worker N)) (data : list T) (scheds : nat -> nat -> list nat)
  (fuel round : nat) (s : hst) : res hst :=
  match fuel with
  | 0 => Err Fuel
  | S f =>
    let* s := loop (g_max_iters g) (fun i s => h_iter g ws (scheds round i) s) s in
    if at_cluster_cap g s then Ok s
    else
      let* s := init_splits g data s in
      if hm_keyless (x_hcl s) then Ok s
      else h_loop g ws data scheds f (S round) s
  end.

(** hclust_coordinator.cpp:409-421 complete_final_centroids *)
Definition complete_final (g : hcfg) (s : hst) : res hst :=
  for_each (hm_keys (x_hcl s)) (fun p s =>
    let* h := hm_ref (x_hcl s) p in
    let c j := slice (c_means (h_cl h)) (j * g_ncol g) (g_ncol g) in
    Ok (with_final s (fc_set (fc_set (x_final s) (h_zero h) (c 0)) (h_one h) (c 1)))) s.

(** hclust_coordinator.cpp:398-407 verify_consistency; the sum is accumulated in
    an [int] (the initial value's type) *)
Definition i32 (z : Z) : Z := (w32 (z + 2 ^ 31) - 2 ^ 31)%Z.
Definition verify_consistency (g : hcfg) (s : hst) : res unit :=
  let cnt := length (filter (fun c => 0 <? c)%Z (x_counts s)) in
  let* _ := assert_ (length (x_final s) =? cnt) in
  assert_ (w64 (fold_left (fun a c => i32 (a + c)) (x_counts s) 0%Z) =? Z.of_nat (g_nrow g))%Z.

(** hclust_coordinator.cpp:426-516 run up to the construction of the result;
    [bind] is the BIND build flag, which omits the consistency check *)
Definition h_run (g : hcfg) (bind : bool) (centers : option (list T)) (it : init_t) (data : list T)
  (d : nat -> nat) (scheds : nat -> nat -> list nat) (fuel : nat) : res hst :=
  let* s := h_coordinator_create g centers in
  let* ws := build_workers g data in
  let* s := run_hinit g it data d s in
  let* s := h_loop g ws data scheds fuel 0 s in
  let* s := complete_final g s in
  let* _ := if bind then Ok tt else verify_consistency g s in
  Ok s.

(** hclust_coordinator.cpp:513-515: the returned cluster_t; [ord] is the order
    in which the unordered map of centroids is visited *)
Definition h_result (g : hcfg) (ord : list (nat * list T) -> list (nat * list T)) (s : hst) : res (cresult T) :=
  compact (nzero N) (g_nrow g) (g_ncol g) (g_max_iters g) (x_asg s) (x_counts s) (ord (x_final s)).

(* ------------------------------------------------------------------ *)
(** * forgy_select *)

(** hclust_coordinator.cpp:112-139 (no caller in the library): [rand_idx] is
    the draw.  The second loop counts a signed long down; reading
    [cluster_assignments\[-1\]] is undefined. *)
Fixpoint fs_back (asg : list nat) (cid cnt : nat) : res nat :=
  match cnt with
  | 0 => Err UB                                   (* cnt becomes -1 < max_rid *)
  | S c => let* a := aget asg c in if a =? cid then Ok c else fs_back asg cid c
  end.
Fixpoint fs_fwd (asg : list nat) (cid : nat) (n cnt : nat) : res (option nat) :=
  match n with
  | 0 => Ok None
  | S n' => let* a := aget asg cnt in
            if a =? cid then Ok (Some cnt) else fs_fwd asg cid n' (S cnt)
  end.
Definition forgy_select (asg : list nat) (nrow cid rand_idx : nat) : res nat :=
  let* a := aget asg rand_idx in
  if a =? cid then Ok rand_idx
  else
    (* while (++cnt < max_rid), max_rid = nrow - 1 *)
    let* f := fs_fwd asg cid (nrow - 1 - (rand_idx + 1)) (rand_idx + 1) in
    match f with
    | Some r => Ok r
    | None =>
      (* while (--cnt < max_rid): cnt <= rand_idx - 1 < max_rid always holds *)
      fs_back asg cid rand_idx
    end.
End Hclust.
