(** Model of G-means: libman/gmeans.cpp, gmeans_coordinator.{hpp,cpp} and
    libkcommon/AndersonDarling.hpp, on top of XmeansModel (xmeans_coordinator is the
    base class).

    Simplifications: the base classes' (see HclustModel, XmeansModel); [std::log], the
    normal distribution function [phi] (AndersonDarling.hpp:31-33, erfc) and the
    conversion of a double to an int are parameters; [std::sort] is an insertion sort;
    the unordered map of vectors is an association list (its traversals treat every
    entry independently); the overridden activate and deactivate
    (gmeans_coordinator.cpp:47-55) call check_set, which on an id below the size of the
    vector is [set] and on an id equal to the size writes out of bounds: ids are handed
    out consecutively, so [activate] of HclustModel, for which any id not below the size
    is an error, is used. *)
From Verif Require Import Base Num DistModel ClustersModel PartitionModel ParModel KmeansModel.
From Verif Require Import ContainersModel MatrixModel HclustModel XmeansModel.
Set Implicit Arguments.
Unset Strict Implicit.

Section Gmeans.
Variable N : Num.
Notation T := (car N).
Notation clusters := (clusters N).
Variable nlog : T -> T.                 (* std::log *)
Variable phi : T -> T.                  (* AndersonDarling::phi *)
Variable trunc : T -> Z.                (* double to int *)

(* ------------------------------------------------------------------ *)
(** * AndersonDarling.hpp *)

(** AndersonDarling.hpp:37 the literals *)
Definition ad_levels : list T := map (fun z => ndiv N (nofZ N z) (nofZ N 1000)) [576; 656; 787; 918; 1092]%Z.

(** AndersonDarling.hpp:36-42 compute_critical_values *)
Definition ad_critical (n : T) : list T :=
  let divisor := nsub N (nadd N (none N) (ndiv N (nofZ N 4) n)) (ndiv N (nofZ N 25) (nmul N n n)) in
  map (fun i => ndiv N i divisor) ad_levels.

(** std::sort *)
Fixpoint insert (x : T) (l : list T) : list T :=
  match l with
  | [] => [x]
  | y :: t => if nltb N x y then x :: l else y :: insert x t
  end.
Definition nsort (l : list T) : list T := fold_right insert [] l.

(** AndersonDarling.hpp:44-74 compute_statistic ([n] is the length of [X]); [n-1] is
    a size_t *)
Definition ad_statistic (X0 : list T) : T :=
  let X := nsort X0 in
  let n := nofZ N (Z.of_nat (length X)) in
  let avg := ndiv N (fold_left (nadd N) X (nzero N)) n in
  let ss := fold_left (fun s x => let diff := nsub N x avg in nadd N s (nmul N diff diff)) X (nzero N) in
  let sig := nsqrt N (ndiv N ss (nofZ N (w64 (Z.of_nat (length X) - 1)))) in
  let Y := map (fun x => ndiv N (nsub N x avg) sig) X in
  fold_left (fun A i =>
      nadd N A (nmul N (nmul N (ndiv N (nofZ N (-1)) n) (nofZ N (2 * (Z.of_nat i + 1) - 1)%Z))
        (nadd N (nlog (phi (nth i Y (nzero N))))
                (nlog (nsub N (none N) (phi (nth (length X - 1 - i) Y (nzero N))))))))
    (seq 0 (length X)) (nofZ N (- Z.of_nat (length X))).

(* ------------------------------------------------------------------ *)
(** * Projections *)

(** gmeans_coordinator.cpp:182-195, one partition of compute_cluster_diffs: the
    difference is written [ncol] times *)
Definition g_diff (g : hcfg N) (c : clusters) : res (list T) :=
  let* v := loop (g_ncol g) (fun _ v => vdiff (c_means c, 0) (c_means c, g_ncol g) (g_ncol g) v)
              (repeat (nzero N) (g_ncol g + 1)) in
  let* dd := dot_vv (v, 0) (v, 0) (g_ncol g) in
  aset v (g_ncol g) dd.

(** gmeans_coordinator.cpp:180-196 compute_cluster_diffs: the [metadata] of every
    partition *)
Definition g_diffs (g : hcfg N) (m : list (option (hclu N))) : res (list (option (list T))) :=
  mapM (fun o => match o with
                 | Some h => let* v := g_diff g (h_cl h) in Ok (Some v)
                 | None => Ok None
                 end) m.

(** gmeans.cpp:40-59, one row of H_split_step; the shared entry of a row is its
    nearest_cdist *)
Definition SPLIT_row (g : hcfg N) (ws : list (worker N)) (part : list nat) (act : list bool) (asg : list nat)
  (dfs : list (option (list T))) (t r : nat) (l : unit) (c : T) : res (unit * T) :=
  let* w := aget ws t in
  let* a := aget asg (w_start w + r) in
  let* active := aget act a in
  if negb active then Ok (l, c) else
  let* p := aget part (w_start w + r) in
  let* v := hm_ref dfs p in
  let* dotprod := loop (g_ncol g) (fun col s => let* x := pget (wrow w (g_ncol g) r) col in
                    let* y := aget v col in Ok (nadd N s (nmul N x y))) (nzero N) in
  let* dv := aget v (g_ncol g) in
  Ok (l, ndiv N dotprod dv).

(** gmeans_coordinator.cpp:246-249: compute_cluster_diffs and H_SPLIT *)
Definition g_split (g : hcfg N) (ws : list (worker N)) (sched : list nat) (s : xst N) : res (xst N) :=
  let* dfs := g_diffs g (x_hcl (xh s)) in
  let* la := par_run (SPLIT_row g ws (x_part (xh s)) (x_act (xh s)) (x_asg (xh s)) dfs) (w_ranges ws) sched (x_cd s)
               (map (fun _ => tt) ws) in
  Ok (mkX (xh s) (x_pd s) (snd la) (x_cl s) (x_loc s)).

(* ------------------------------------------------------------------ *)
(** * Deciding on splits *)

(** [ad_vecs\[p\].push_back(x)] *)
Fixpoint ad_push (m : list (nat * list T)) (p : nat) (x : T) : list (nat * list T) :=
  match m with
  | [] => [(p, [x])]
  | (q, v) :: t => if q =? p then (q, v ++ [x]) :: t else (q, v) :: ad_push t p x
  end.
(** [ad_vecs\[p\]]; a missing entry would be an empty vector, whose back() is undefined *)
Fixpoint ad_find {A} (m : list (nat * A)) (p : nat) : res A :=
  match m with
  | [] => Err UB
  | (q, v) :: t => if q =? p then Ok v else ad_find t p
  end.

(** gmeans_coordinator.cpp:79-84 assemble_ad_vecs *)
Definition g_assemble (part : list nat) (cd : list T) : res (list (nat * list T)) :=
  loop (length cd) (fun i m => let* p := aget part i in let* x := aget cd i in Ok (ad_push m p x)) [].

(** gmeans_coordinator.cpp:86-105 compute_ad_stats, and 114-119 before it: the vectors,
    scaled, and their statistics *)
Definition g_scores (part : list nat) (cd : list T) : res (list (nat * T)) :=
  let* m := g_assemble part cd in
  let* m := mapM (fun kv => let* v := scale trunc (snd kv) in Ok (fst kv, v)) m in
  Ok (map (fun kv => (fst kv, ad_statistic (snd kv))) m).

(** [critical_values\[strictness\]]: the index is a short, converted to size_t *)
Definition strict_at (cv : list T) (strictness : Z) : res T :=
  if (strictness <? 0)%Z then Err UB else aget cv (Z.to_nat strictness).

(** gmeans_coordinator.cpp:136-163, one partition; the state and revert_cache *)
Definition g_decide (g : hcfg N) (strictness : Z) (cl : clusters) (scores : list (nat * T)) (cv : list T)
  (pid : nat) (st : hst N * list bool) : res (hst N * list bool) :=
  let '(s, rev) := st in
  let* score := ad_find scores pid in
  let* c := strict_at cv strictness in
  if nleb N score c then
    let* h := hm_ref (x_hcl s) pid in
    let lid := h_zero h in
    let rid := h_one h in
    let* s := deactivate s lid in
    let* s := deactivate s rid in
    let* s := deactivate s pid in
    let* rev := aset rev pid true in
    let* m := hm_erase (x_hcl s) pid in
    let s := with_hcl s m in
    let s := with_ider s (id_reclaim (x_ider s) (Z.of_nat lid)) in
    let s := with_ider s (id_reclaim (x_ider s) (Z.of_nat rid)) in
    let s := with_curr s (w64 (x_curr s - 2)) in
    (* clusters.hpp:412-417 get_mean_rawptr checks the index *)
    if c_nclust cl <=? pid then Err Throw else
    let s := with_final s (fc_set (x_final s) pid (slice (c_means cl) (pid * g_ncol g) (g_ncol g))) in
    let* nl := aget (x_counts s) lid in
    let* nr := aget (x_counts s) rid in
    let* c := aset (x_counts s) pid (nl + nr)%Z in
    let* c := aset c rid 0%Z in
    let* c := aset c lid 0%Z in
    Ok (with_counts s c, rev)
  else Ok (s, rev).

(** gmeans_coordinator.cpp:108-178 partition_decision *)
Definition g_decision (g : hcfg N) (strictness : Z) (s : xst N) : res (xst N) :=
  let h := xh s in
  let* scores := g_scores (x_part h) (x_cd s) in
  let cv := ad_critical (nofZ N (Z.of_nat (length scores))) in
  let keys := hm_keys (x_hcl h) in
  (* *std::max_element of an empty range is undefined *)
  let* _ := match keys with [] => Err UB | _ => Ok tt end in
  let* sr := for_each keys (g_decide g strictness (x_cl s) scores cv) (h, repeat false (list_max keys + 1)) in
  let '(h, rev) := sr in
  let* a := loop (g_nrow g) (fun rid a =>
      let* p := aget (x_part h) rid in
      if (p <? length rev) && nth p rev false then aset a rid p else Ok a) (x_asg h) in
  Ok (with_h s (with_asg h a)).

(* ------------------------------------------------------------------ *)
(** * The run *)

(** gmeans_coordinator.cpp:222-272, one turn of the main loop: the record of the round,
    the state, and whether the loop goes on.  [scheds 0] is the schedule of the MEAN
    step, [scheds 1] that of H_SPLIT, [scheds (j+2)] that of iteration [j]. *)
Definition g_round (g : hcfg N) (strictness : Z) (ws : list (worker N)) (data : list T)
  (scheds : nat -> list nat) (s : xst N) : res (rrec N * (xst N * bool)) :=
  let* s1 := x_mean g ws (scheds 0) s in
  let* s2 := loop (g_max_iters g) (fun i s => x_iter g ws (scheds (i + 2)) (i =? 0) s) s1 in
  let* s3 := g_split g ws (scheds 1) s2 in
  let* s4 := g_decision g strictness s3 in
  let rr := mkRR (x_part (xh s3)) s3 s4 in
  if at_cluster_cap g (xh s4) then Ok (rr, (s4, false))
  else
    let* h := init_splits g data (xh s4) in
    if hm_keyless (x_hcl h) then
      let* _ := assert_ (steady_state h) in Ok (rr, (with_h s4 h, false))
    else Ok (rr, (with_h s4 h, true)).

(** gmeans_coordinator.cpp:222-272 the main loop; [fuel] bounds the rounds (the program
    has no bound) *)
Fixpoint g_loop (g : hcfg N) (strictness : Z) (ws : list (worker N)) (data : list T)
  (scheds : nat -> nat -> list nat) (fuel round : nat) (s : xst N) (tr : list (rrec N))
  : res (xst N * list (rrec N)) :=
  match fuel with
  | 0 => Err Fuel
  | S f =>
    let* r := g_round g strictness ws data (scheds round) s in
    let '(rr, (s', more)) := r in
    if more then g_loop g strictness ws data scheds f (S round) s' (tr ++ [rr])
    else Ok (s', tr ++ [rr])
  end.

(** gmeans_coordinator.cpp:199-217: the state before the first round *)
Definition g_start (g : hcfg N) (centers : option (list T)) (it : init_t) (data : list T) (d : nat -> nat)
  : res (xst N * list (worker N)) :=
  let* s := x_create g centers (Z.to_nat (eff_threads (g_nthreads g) (Z.of_nat (g_nrow g)))) in
  let* ws := build_workers g data in
  let* h := run_hinit g it data d (xh s) in
  Ok (with_h s h, ws).

(** gmeans_coordinator.cpp:199-300 run; [bind] as in h_run *)
Definition g_run (g : hcfg N) (strictness : Z) (bind : bool) (centers : option (list T)) (it : init_t)
  (data : list T) (d : nat -> nat) (scheds : nat -> nat -> list nat) (fuel : nat) : res (hst N * list (rrec N)) :=
  let* sw := g_start g centers it data d in
  let '(s, ws) := sw in
  let* st := g_loop g strictness ws data scheds fuel 0 s [] in
  let* h := complete_final g (xh (fst st)) in
  let* _ := if bind then Ok tt else verify_consistency g h in
  Ok (h, snd st).
End Gmeans.
