(** Model of how rows are distributed: over threads (libman/coordinator.cpp),
    over tasks (libman/task_queue.hpp), over MPI processes (libdist/). All
    unsigned arithmetic that the C++ does in 32 bits (or 64 bits) wraps here. *)
From Verif Require Import Base Num.
Set Implicit Arguments.
Local Open Scope Z_scope.

(* ------------------------------------------------------------------ *)
(** * Threads *)

(** coordinator.cpp:36-37: nthreads = min(nthreads, nrow) *)
Definition eff_threads (nthreads nrow : Z) : Z := w32 (Z.min nthreads nrow).

(** coordinator.cpp:71-79 get_rid_len_tup: (start_rid, number of rows).
    [nrow] is a size_t, the results are [unsigned].  Division by zero is UB. *)
Definition get_rid_len_tup (nrow nthreads thd_id : Z) : res (Z * Z) :=
  if nthreads =? 0 then Err UB else
  let rows_per_thread := w32 (nrow / nthreads) in
  let start_rid := w32 (thd_id * rows_per_thread) in
  let rows_per_thread :=
    if thd_id =? nthreads - 1 then w32 (rows_per_thread + nrow mod nthreads)
    else rows_per_thread in
  Ok (start_rid, rows_per_thread).

(** kmeans_coordinator.cpp:51-64 build_thread_state (also
    kmeans_task_coordinator.cpp:65-80): the row ranges and thd_max_row_idx *)
Definition thd_max_row (nrow nthreads thd_id : Z) : res Z :=
  if nthreads =? 0 then Err UB else
  let thds_row := w32 (nrow / nthreads) in
  let* t := get_rid_len_tup nrow nthreads thd_id in
  Ok (w32 (w32 (thd_id * thds_row) + snd t)).

Definition zseq (n : nat) : list Z := map Z.of_nat (seq 0 n).

Fixpoint mapM {A B} (f : A -> res B) (l : list A) : res (list B) :=
  match l with
  | [] => Ok []
  | x :: t => let* y := f x in let* ys := mapM f t in Ok (y :: ys)
  end.

(** the thread row ranges for a given request: [nthreads] is what the user asked for *)
Definition thread_ranges (nrow nthreads : Z) : res (list (Z * Z)) :=
  let nt := eff_threads nthreads nrow in
  if nt =? 0 then Err UB else
  mapM (get_rid_len_tup nrow nt) (zseq (Z.to_nat nt)).

Definition max_row_idx (nrow nthreads : Z) : res (list Z) :=
  let nt := eff_threads nthreads nrow in
  if nt =? 0 then Err UB else
  mapM (thd_max_row nrow nt) (zseq (Z.to_nat nt)).

(** std::upper_bound on a sorted range: index of the first element > v *)
Fixpoint upper_bound (l : list Z) (v : Z) : Z :=
  match l with
  | [] => 0
  | x :: t => if v <? x then 0 else 1 + upper_bound t v
  end.

Section Data.
Variable N : Num.
Notation T := (car N).

(** How a worker gets its data.
    thread.cpp:129-134 set_local_data_ptr(data, offset=true): pointer into the
    user's buffer at start_rid*ncol (size_t arithmetic, no wrap modelled) *)
Definition set_local_data_ptr (data : list T) (start_rid ncol : Z) : ptr T :=
  (data, Z.to_nat (start_rid * ncol)).

(** thread.cpp:111-127 numa_alloc_mem: allocate data_size bytes
    (kmeans_thread.cpp:41: sizeof(double)*nprocrows*ncol), seek to
    start_rid*ncol*sizeof(double), read one blob, assert it was complete.
    [file] is the file contents as doubles. *)
Definition numa_alloc_mem (file : list T) (start_rid nprocrows ncol : Z) : res (ptr T) :=
  let n := Z.to_nat (nprocrows * ncol) in
  let off := Z.to_nat (start_rid * ncol) in
  let blob := slice file off n in
  let* _ := assert_ (Nat.eqb (length blob) n) in
  Ok (blob, 0%nat).

(** binding/numa_reorg.hpp:72-96 numa_reorg for one thread: copy
    nbytes/sizeof(T) values from the user's buffer at start_rid*ncol *)
Definition numa_reorg (data : list T) (start_rid nprocrows ncol : Z) : res (ptr T) :=
  let n := Z.to_nat (nprocrows * ncol) in
  let off := Z.to_nat (start_rid * ncol) in
  let* d := copy_to (data, off) n (repeat (nzero N) n) 0 in
  Ok (d, 0%nat).

(** the three loading paths of kmeans_coordinator::run,
    kmeans_coordinator.cpp:171-178 *)
Inductive load_kind := UserBuffer | DataFile | NumaReorg.

Definition load_local (kind : load_kind) (data : list T) (start_rid nprocrows ncol : Z)
  : res (ptr T) :=
  match kind with
  | UserBuffer => Ok (set_local_data_ptr data start_rid ncol)
  | DataFile => numa_alloc_mem data start_rid nprocrows ncol
  | NumaReorg => numa_reorg data start_rid nprocrows ncol
  end.

(** coordinator.cpp:93-101 get_thd_data: pointer to the row's first value *)
Definition get_thd_data (kind : load_kind) (data : list T) (nrow ncol nthreads row_id : Z)
  : res (ptr T) :=
  let nt := eff_threads nthreads nrow in
  let* idx := max_row_idx nrow nthreads in
  let parent_thd := upper_bound idx row_id in
  let rows_per_thread := w32 (nrow / nt) in
  let* rng := thread_ranges nrow nthreads in
  let* t := aget rng (Z.to_nat parent_thd) in
  let* p := load_local kind data (fst t) (snd t) ncol in
  let local := w32 (row_id - w32 (parent_thd * rows_per_thread)) in
  Ok (fst p, (snd p + Z.to_nat (local * ncol))%nat).

End Data.

(* ------------------------------------------------------------------ *)
(** * Tasks *)

(** task_queue.hpp:30 *)
Definition MIN_TASK_ROWS : Z := 8192.

(** task_queue.hpp:84-90,33-41 task: data index, first row id, number of rows *)
Record task := mkTask { t_data : Z; t_start : Z; t_nrow : Z }.

(** task_queue.hpp:104-116 task_queue (data members; the data pointer itself is
    represented by index 0 of the worker's local data) *)
Record task_queue := mkTQ {
  q_start : Z; q_nrow : Z; q_ncol : Z; q_curr : Z; q_has : bool }.

(** task_queue.hpp:169-173 reset *)
Definition q_reset (q : task_queue) : task_queue :=
  mkTQ (q_start q) (q_nrow q) (q_ncol q) 0 (if 0 <? q_nrow q then true else q_has q).

(** task_queue.hpp:123-151 get_task.  The empty task is (NULL, -1, 0). *)
Definition get_task (q : task_queue) : res (task * task_queue) :=
  if negb (q_has q) then Ok (mkTask 0 (w32 (-1)) 0, q)
  else
    let* _ := assert_ (q_curr q <? q_nrow q) in
    let data := w32 (q_curr q * q_ncol q) in
    let start := w32 (q_start q + q_curr q) in
    if w32 (q_curr q + MIN_TASK_ROWS) <? w32 (q_nrow q - 1) then
      Ok (mkTask data start MIN_TASK_ROWS,
          mkTQ (q_start q) (q_nrow q) (q_ncol q) (w32 (q_curr q + MIN_TASK_ROWS)) true)
    else
      let n := w32 (q_nrow q - q_curr q) in
      let* _ := assert_ (0 <? n) in
      Ok (mkTask data start n,
          mkTQ (q_start q) (q_nrow q) (q_ncol q) (w32 (q_nrow q - 1)) false).

(** kmeans_task_thread.cpp:104-116 (wake: reset, then get_task) followed by the
    worker loop: process curr_task, request_task (task_thread.cpp:63-95) until
    has_task() is false.  Returns the tasks in order. *)
Fixpoint drain (fuel : nat) (q : task_queue) : res (list task * task_queue) :=
  match fuel with
  | O => Err Fuel
  | S f =>
    if q_has q then
      let* tq := get_task q in
      let* _ := assert_ (t_nrow (fst tq) <=? q_nrow q) in
      let* _ := assert_ (negb (t_nrow (fst tq) =? 0)) in
      let* r := drain f (snd tq) in
      Ok (fst tq :: fst r, snd r)
    else Ok ([], q)
  end.

(* ------------------------------------------------------------------ *)
(** * MPI processes *)

(** dist_coordinator.cpp:55-69 init: number of local rows
    (dist_task_coordinator.cpp:56-70 is identical) *)
Definition dist_nrow (g_nrow nprocs rank : Z) : Z :=
  if rank =? nprocs - 1 then g_nrow / nprocs + g_nrow mod nprocs else g_nrow / nprocs.

(** dist_coordinator.cpp:107-109 global_rid (size_t arithmetic) *)
Definition global_rid (g_nrow nprocs rank local : Z) : Z :=
  w64 (g_nrow / nprocs * rank + local).

(** dist_coordinator.cpp:111-118 local_rid: throws only when rid > nrow *)
Definition local_rid (g_nrow nprocs rank grid : Z) : res Z :=
  let rid := w64 (grid - w64 (rank * (g_nrow / nprocs))) in
  if dist_nrow g_nrow nprocs rank <? rid then Err Throw else Ok rid.

(** dist_coordinator.cpp:120-125 is_local *)
Definition is_local (g_nrow nprocs rank grid : Z) : bool :=
  let rid := w64 (grid - w64 (rank * (g_nrow / nprocs))) in
  if dist_nrow g_nrow nprocs rank <=? rid then false else true.

(** dist_coordinator.cpp:43-46: the workers' start rows are shifted to global
    row ids for reading the file, and (92-103) shifted back before the first
    EM step *)
Definition dist_start_rid (g_nrow nprocs rank start : Z) : Z :=
  w32 (start + g_nrow / nprocs * rank).
Definition shift_thread_start_rid (g_nrow nprocs rank start : Z) : Z :=
  w32 (w64 (start - g_nrow / nprocs * rank)).

Section Gather.
Variable A : Type.
(** dist_coordinator.cpp:375-405: every non-root process sends its [get_nrow()]
    assignments; the root copies its own and receives [count] values from
    process [pid] at offset pid*(g_nrow/nprocs), [count] computed from the
    root's own row count.  MPI_Recv of a message of a different length than
    [count] is an error for longer messages (truncation); shorter ones fill only
    a part.  [locals] are the processes' assignment vectors in rank order. *)
Definition recv_count (g_nrow nprocs root_nrow pid : Z) : Z :=
  if pid =? nprocs - 1 then w32 (root_nrow + g_nrow mod nprocs) else w32 root_nrow.

Definition gather_root (g_nrow nprocs : Z) (init : A) (locals : list (list A)) : res (list A) :=
  match locals with
  | [] => Err UB
  | l0 :: _ =>
    let root_nrow := dist_nrow g_nrow nprocs 0 in
    let asg := repeat init (Z.to_nat g_nrow) in
    let* asg := copy_to (l0, 0%nat) (Z.to_nat root_nrow) asg 0 in
    for_ (Z.to_nat nprocs - 1) 1 (fun pid asg =>
      let* l := aget locals pid in
      let count := recv_count g_nrow nprocs root_nrow (Z.of_nat pid) in
      if Z.to_nat count <? length l then Err Throw  (* MPI_ERR_TRUNCATE *)
      else copy_to (l, 0%nat) (length l) asg (Z.to_nat (Z.of_nat pid * (g_nrow / nprocs))))%nat asg
  end.
End Gather.
