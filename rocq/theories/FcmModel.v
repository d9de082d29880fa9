(** Fuzzy c-means: libman/fcm.cpp and libman/fcm_coordinator.cpp.

    [um] is the k x nrow contribution matrix.  During the E step worker [t]
    writes only the columns of its own rows, so the shared per-row entry of the
    concurrent round is that column (a list of k values).  [npow] is
    [std::pow(double, double)], which the arithmetic record does not contain. *)
From Verif Require Import Base Num DistModel ClustersModel PartitionModel ParModel KmeansModel MatrixModel.
Set Implicit Arguments.

Section Fcm.
Variable N : Num.
Notation T := (car N).
Variable npow : T -> T -> T.

(** configuration: the coordinator's, and [fuzzindex] (fcm_coordinator.hpp:35) *)
Record fcfg := mkFcfg { f_g : kcfg N; f_m : Z }.

(** fcm_coordinator.cpp:137-142: [numa_opt] is not looked at, a matrix passed by
    the caller is always used in place *)
Definition fcm_kind (kd : load_kind) : load_kind :=
  match kd with NumaReorg => UserBuffer | _ => kd end.
Definition fcm_cfg (g : kcfg N) : kcfg N :=
  mkCfg N (g_nrow g) (g_ncol g) (g_k g) (g_max_iters g) (g_nthreads g) (g_tol g) (g_dt g) (fcm_kind (g_kind g)).

(** the literal 2.2E-16, fcm.cpp:54 *)
Definition fuzz_eps : T := ndiv N (nofZ N 22) (nofZ N (10 ^ 17)).

(** fcm.cpp:51-52, the exponent 1.0 / (fuzzindex-1), an [unsigned] difference *)
Definition fuzz_exp (m : Z) : T := ndiv N (none N) (nofZ N (w32 (m - 1))).

(** coordinator state, fcm_coordinator.hpp:31-35 *)
Record fst_ := mkFst { f_centers : dmat N; f_prev : dmat N; f_um : dmat N }.

(* ------------------------------------------------------------------ *)
(** * E step *)

(** the columns of a matrix, and the matrix with the given columns *)
Definition dm_cols (m : dmat N) : list (list T) :=
  map (fun c => map (fun r => nth (r * dm_ncol m + c) (dm_mat m) (nzero N)) (seq 0 (dm_nrow m))) (seq 0 (dm_ncol m)).
Definition dm_of_cols (k : nat) (cols : list (list T)) : dmat N :=
  mkDm (concat (map (fun r => map (fun col => nth r col (nzero N)) cols) (seq 0 k))) k (length cols).

(** fcm.cpp:42-58, one row *)
Definition estep_row (f : fcfg) (ws : list (worker N)) (centers : dmat N)
  (t r : nat) (l : unit) (col : list T) : res (unit * list T) :=
  let g := f_g f in
  let* w := aget ws t in
  let* col := loop (g_k g) (fun cid col =>
    let* dist := dist_comp_raw N (wrow w (g_ncol g) r) (dm_mat centers, cid * g_ncol g) (g_ncol g) (g_dt g) in
    aset col cid (if nltb N (nzero N) dist then npow (ndiv N (none N) dist) (fuzz_exp (f_m f)) else fuzz_eps)) col in
  Ok (l, col).

(** wake4run(E); wait4complete() *)
Definition e_round (f : fcfg) (ws : list (worker N)) (sched : list nat) (s : fst_) : res fst_ :=
  let* la := par_run (estep_row f ws (f_centers s)) (w_ranges ws) sched (dm_cols (f_um s)) (map (fun _ => tt) ws) in
  Ok (mkFst (f_centers s) (f_prev s) (dm_of_cols (g_k (f_g f)) (snd la))).

(** fcm_coordinator.cpp:97-101 update_contribution_matrix *)
Definition update_contribution (f : fcfg) (s : fst_) : res fst_ :=
  let* colsums := dm_sum_axis (f_um s) 0 [] in
  let* um := dm_div_eq (f_um s) colsums 0 (fun x => npow x (nofZ N (f_m f))) in
  Ok (mkFst (f_centers s) (f_prev s) um).

(* ------------------------------------------------------------------ *)
(** * M step *)

(** fcm.cpp:66-74, one row; the local state is [innerprod], nothing shared is
    written *)
Definition mstep_row (f : fcfg) (ws : list (worker N)) (um : dmat N)
  (t r : nat) (ip : dmat N) (c : unit) : res (dmat N * unit) :=
  let g := f_g f in
  let* w := aget ws t in
  let* ip := loop (g_k g) (fun lrid ip => loop (g_ncol g) (fun rcid ip =>
    let* u := dm_get um lrid (w_start w + r) in
    let* x := pget (wrow w (g_ncol g) r) rcid in
    dm_peq ip lrid rcid (nmul N u x)) ip) ip in
  Ok (ip, c).

(** fcm_coordinator.cpp:103-124 update_centers; [rows] is the order in which
    OpenMP sums the rows of [um] *)
Definition f_update_centers (f : fcfg) (ips : list (dmat N)) (rows : list nat) (s : fst_) : res fst_ :=
  let* c :=
    if length ips =? 1 then
      let* ip := aget ips 0 in dm_copy_from (f_centers s) ip
    else
      let* a := aget ips 0 in
      let* b := aget ips 1 in
      let* sum := dm_plus a b in
      let* c := dm_copy_from (f_centers s) sum in
      for_each (skipn 2 ips) (fun ip c => dm_plus_eq c ip) c in
  let* sum := dm_sum_axis (f_um s) 1 rows in
  let* c := dm_div_eq c sum 1 (fun x => x) in
  Ok (mkFst c (f_prev s) (f_um s)).

(** fcm.cpp:64 [innerprod->zero()]; wake4run(M); wait4complete(); update_centers() *)
Definition m_round (f : fcfg) (ws : list (worker N)) (sched : list nat) (rows : list nat) (s : fst_) : res fst_ :=
  let g := f_g f in
  let* la := par_run (mstep_row f ws (f_um s)) (w_ranges ws) sched (repeat tt (g_nrow g))
               (map (fun _ => dm_zero (dm_new N (g_k g) (g_ncol g))) ws) in
  f_update_centers f (fst la) rows s.

(* ------------------------------------------------------------------ *)
(** * The run *)

(** fcm_coordinator.cpp:34-56 and coordinator.cpp:31-55 the constructor: given
    centres are used whatever the initialisation *)
Definition f_create (f : fcfg) (centers : option (list T)) : res fst_ :=
  let g := f_g f in
  let* _ := assert_ (1 <=? g_k g) in
  let c0 := dm_new N (g_k g) (g_ncol g) in
  let* c := match centers with Some m => dm_set_all c0 (m, 0) | None => Ok c0 end in
  Ok (mkFst c c0 (dm_new N (g_k g) (g_nrow g))).

(** fcm_coordinator.cpp:81-88 forgy_init *)
Definition f_forgy (f : fcfg) (data : list T) (draw : nat -> nat) (s : fst_) : res fst_ :=
  let g := f_g f in
  let* c := loop (g_k g) (fun cid c =>
    let* p := thd_row g data (draw cid) in dm_set_row c p cid) (f_centers s) in
  Ok (mkFst c (f_prev s) (f_um s)).

(** coordinator.cpp:145-161 run_init with coordinator.hpp:78-83 *)
Definition f_init (f : fcfg) (it : init_t) (data : list T) (draw : nat -> nat) (s : fst_) : res fst_ :=
  match it with
  | FORGY => f_forgy f data draw s
  | NONE => Ok s
  | _ => Err Throw
  end.

(** the orders of one turn: schedules of the E and M rounds, row order of the sum *)
Record forder := mkForder { o_e : list nat; o_m : list nat; o_rows : list nat }.

(** fcm_coordinator.cpp:158-191: one turn of the loop; [true]: converged *)
Definition f_turn (f : fcfg) (ws : list (worker N)) (o : forder) (s : fst_) : res (fst_ * bool) :=
  let* s := e_round f ws (o_e o) s in
  let* s := update_contribution f s in
  let* prev := dm_copy_from (f_prev s) (f_centers s) in
  let* s := m_round f ws (o_m o) (o_rows o) (mkFst (f_centers s) prev (f_um s)) in
  let* diff := dm_minus (f_centers s) (f_prev s) in
  let* frob := dm_frobenius diff in
  Ok (s, nltb N frob (g_tol (f_g f))).

(** the loop; [n] = max_iters + 1 - iter; [trace]: the states after every turn *)
Fixpoint f_loop (f : fcfg) (ws : list (worker N)) (os : nat -> forder)
  (n iter : nat) (s : fst_) (trace : list fst_) : res (nat * bool * fst_ * list fst_) :=
  match n with
  | 0 => Ok (iter, false, s, trace)
  | S n' =>
    let* r := f_turn f ws (os iter) s in
    if snd r then Ok (iter, true, fst r, trace ++ [fst r])
    else f_loop f ws os n' (S iter) (fst r) (trace ++ [fst r])
  end.

Record frun_result := mkFRun {
  fr_out : cluster_t N; fr_converged : bool; fr_init : fst_; fr_trace : list fst_ }.

(** fcm_coordinator.cpp:129-229 run *)
Definition f_run (f0 : fcfg) (centers : option (list T)) (it : init_t) (data : list T) (draw : nat -> nat)
  (os : nat -> forder) : res frun_result :=
  let f := mkFcfg (fcm_cfg (f_g f0)) (f_m f0) in
  let g := f_g f in
  let* s := f_create f centers in
  let* ws := build_workers g data in
  let* s := f_init f it data draw s in
  let iter0 := if 0 <? g_max_iters g then 1 else 0 in
  let* r := f_loop f ws os (g_max_iters g) iter0 s [] in
  let '(iter, conv, s', trace) := r in
  let* asg := dm_argmax (f_um s') 1 in
  let* counts := for_each asg (fun i cnt => amod cnt i (fun x => x + 1)%Z) (repeat 0%Z (g_k g)) in
  Ok (mkFRun (mkCluster N (g_nrow g) (g_ncol g) iter (g_k g) (map Some asg) counts (dm_mat (f_centers s')))
        conv s trace).
End Fcm.
