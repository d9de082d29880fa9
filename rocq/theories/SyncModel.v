(** How the coordinator and its worker threads hand over work:
    libman/coordinator.cpp:57-90, libman/thread.hpp:62-76, libman/thread.cpp:34-75,87-94,
    libman/task_thread.cpp:63-140, libman/kmeans_task_thread.cpp:66-135.

    A small-step model with one step per shared-memory access or pthread call, any
    number of workers, any interleaving.

    Simplifications:
    - memory is sequentially consistent (the code's unlocked accesses to
      thread::state are data races in C++; here they are atomic reads);
    - the coordinator's mutex is taken by the coordinator only (coordinator.cpp:58,
      kmeans_task_coordinator.cpp:89), so locking it never blocks and is not a step;
    - EM, KMSPP_INIT, ... are one state WORK; processing one task is one step (a
      task-queue thread's ALLOC_DATA round, which uses no task, is not modelled);
    - a worker's task queue is the number of tasks it hands out (C03) and the index
      of the next one; plain threads (kmeans_thread etc.) have exactly one task,
      which wake does not touch;
    - pthread_cond_signal wakes the one thread that can be waiting on the variable. *)
From Verif Require Import Base.
Set Implicit Arguments.

(** libkcommon/thread_state.hpp:24-40 *)
Inductive tstate := WAIT | WORK | EXIT.
(** who holds a worker's mutex *)
Inductive holder := Free | Coord | Self.

(** where a worker is *)
Inductive wpc :=
| WTop        (* thread.hpp:69  if (get_state() == WAIT), no lock *)
| WLock       (* thread.cpp:51  wait(): lock *)
| WLoop       (* thread.cpp:54  while (state == WAIT), holding the lock *)
| WBlocked    (* thread.cpp:56  inside cond_wait *)
| WRelock     (* thread.cpp:56  woken, has to get the lock back *)
| WUnlock1    (* thread.cpp:60  unlock *)
| WExitT      (* thread.hpp:72  if (get_state() == EXIT) *)
| WRun        (* thread.hpp:75  run(): process the current task *)
| WReq        (* task_thread.cpp:65 request_task: lock; thread.cpp:36 sleep: lock *)
| WHas        (* task_thread.cpp:68 has_task()? *)
| WDec        (* thread.cpp:39  ( *parent_pending_threads)-- *)
| WSet        (* thread.cpp:40  set_thread_state(WAIT) *)
| WTest       (* thread.cpp:42  if ( *parent_pending_threads == 0) *)
| WSig        (* thread.cpp:43  cond_signal(parent_cond) *)
| WUnlock2    (* thread.cpp:46, task_thread.cpp:82,92  unlock *)
| WGone.      (* thread.hpp:79  pthread_exit *)

(** where the coordinator is; [m] is the state it wakes the workers with *)
Inductive cpc :=
| CIdle              (* between wait4complete and the next wake4run *)
| CLock (m : tstate) (i : nat)    (* thread.cpp:65   wake: lock *)
| CSet (m : tstate) (i : nat)     (* thread.cpp:67   set_thread_state(state) *)
| CReset (i : nat)                (* kmeans_task_thread.cpp:114 tasks->reset() *)
| CGet (i : nat)                  (* kmeans_task_thread.cpp:115 curr_task = tasks->get_task() *)
| CUnl (m : tstate) (i : nat)     (* thread.cpp:70   unlock *)
| CSig (m : tstate) (i : nat)     (* thread.cpp:73   cond_signal(&cond) *)
| CTest              (* coordinator.cpp:59  while (pending_threads != 0) *)
| CGo                (* coordinator.cpp:60  about to call cond_wait *)
| CBlocked           (* coordinator.cpp:60  inside cond_wait *)
| CJoin (i : nat)    (* thread.cpp:89       pthread_join *)
| CDone.

Record worker := mkW {
  w_pc : wpc;
  w_lk : holder;                 (* its mutex *)
  w_st : tstate;                 (* thread::state *)
  w_nxt : nat;                   (* next task of its queue *)
  w_cur : option nat;            (* curr_task; None = never set *)
  w_log : list (option nat)      (* the tasks it has processed so far *)
}.

Record sys := mkSys {
  s_c : cpc;
  s_rnd : nat;        (* how often work was handed out *)
  s_pend : Z;         (* pending_threads *)
  s_dead : bool;      (* the coordinator's condition variable is destroyed *)
  s_bad : bool;       (* ... and was used after that *)
  s_w : nat -> worker
}.

Definition with_c (s : sys) (c : cpc) : sys := mkSys c (s_rnd s) (s_pend s) (s_dead s) (s_bad s) (s_w s).
Definition set_w (f : nat -> worker) (i : nat) (w : worker) : nat -> worker := fun j => if j =? i then w else f j.
Definition with_w (s : sys) (i : nat) (w : worker) : sys :=
  mkSys (s_c s) (s_rnd s) (s_pend s) (s_dead s) (s_bad s) (set_w (s_w s) i w).

Definition w_pc_ (w : worker) (p : wpc) : worker := mkW p (w_lk w) (w_st w) (w_nxt w) (w_cur w) (w_log w).
Definition w_lk_ (w : worker) (h : holder) : worker := mkW (w_pc w) h (w_st w) (w_nxt w) (w_cur w) (w_log w).
Definition w_st_ (w : worker) (t : tstate) : worker := mkW (w_pc w) (w_lk w) t (w_nxt w) (w_cur w) (w_log w).

Definition is_wait (t : tstate) : bool := match t with WAIT => true | _ => false end.
Definition is_exit (t : tstate) : bool := match t with EXIT => true | _ => false end.
Definition is_free (h : holder) : bool := match h with Free => true | _ => false end.
Definition at_blocked (p : wpc) : bool := match p with WBlocked => true | _ => false end.
Definition at_gone (p : wpc) : bool := match p with WGone => true | _ => false end.

Section Sync.
Variable n : nat.               (* number of worker threads *)
Variable plain : bool.          (* plain threads, or threads with a task queue *)
Variable nt : nat -> nat.       (* tasks of worker i's queue *)

(** the worker threads are started in state WAIT (thread.hpp:142, start(WAIT)) *)
Definition w_init (i : nat) : worker :=
  mkW WTop Free WAIT (nt i) (if plain then Some 0 else None) [].
Definition s_init : sys := mkSys CIdle 0 0%Z false false w_init.

(** the part of wake4run after worker [i] *)
Definition next_wake (m : tstate) (i : nat) : cpc :=
  if S i <? n then CLock m (S i) else match m with EXIT => CJoin 0 | _ => CTest end.

(** coordinator.cpp:82-90 wake4run, destroy_threads; coordinator.cpp:57-63
    wait4complete; coordinator.cpp:163-171 the destructor, then the threads are
    joined.  [again]: hand out work once more, or destroy the coordinator. *)
Definition cstep (again : bool) (s : sys) : option sys :=
  match s_c s with
  | CIdle =>
    if again then
      Some (mkSys (if 0 <? n then CLock WORK 0 else CTest) (S (s_rnd s)) (Z.of_nat n) (s_dead s) (s_bad s) (s_w s))
    else
      Some (mkSys (if 0 <? n then CLock EXIT 0 else CJoin 0) (s_rnd s) (Z.of_nat n) true (s_bad s) (s_w s))
  | CLock m i =>
    let w := s_w s i in
    if is_free (w_lk w) then Some (with_c (with_w s i (w_lk_ w Coord)) (CSet m i)) else None
  | CSet m i =>
    let w := s_w s i in
    Some (with_c (with_w s i (w_st_ w m))
      (if negb plain && negb (is_exit m) then CReset i else CUnl m i))
  | CReset i =>
    let w := s_w s i in
    Some (with_c (with_w s i (mkW (w_pc w) (w_lk w) (w_st w) 0 (w_cur w) (w_log w))) (CGet i))
  | CGet i =>
    let w := s_w s i in
    Some (with_c (with_w s i (mkW (w_pc w) (w_lk w) (w_st w) (S (w_nxt w)) (Some (w_nxt w)) (w_log w))) (CUnl WORK i))
  | CUnl m i => Some (with_c (with_w s i (w_lk_ (s_w s i) Free)) (CSig m i))
  | CSig m i =>
    let w := s_w s i in
    Some (with_c (with_w s i (if at_blocked (w_pc w) then w_pc_ w WRelock else w)) (next_wake m i))
  | CTest => Some (with_c s (if (s_pend s =? 0)%Z then CIdle else CGo))
  | CGo => Some (with_c s CBlocked)
  | CBlocked => None
  | CJoin i =>
    if i <? n then (if at_gone (w_pc (s_w s i)) then Some (with_c s (CJoin (S i))) else None)
    else Some (with_c s CDone)
  | CDone => None
  end.

(** signalling the coordinator *)
Definition c_signal (s : sys) : sys :=
  mkSys (match s_c s with CBlocked => CTest | c => c end) (s_rnd s) (s_pend s) (s_dead s)
    (s_bad s || s_dead s) (s_w s).

(** thread.hpp:62-83 callback, thread.cpp:34-61 sleep and wait, task_thread.cpp:63-140
    request_task, sleep, lock_sleep and wait *)
Definition wstep (i : nat) (s : sys) : option sys :=
  let w := s_w s i in
  let go p := Some (with_w s i (w_pc_ w p)) in
  match w_pc w with
  | WTop => go (if is_wait (w_st w) then WLock else WExitT)
  | WLock | WRelock => if is_free (w_lk w) then Some (with_w s i (w_lk_ (w_pc_ w WLoop) Self)) else None
  | WLoop => if is_wait (w_st w) then Some (with_w s i (w_lk_ (w_pc_ w WBlocked) Free)) else go WUnlock1
  | WBlocked => None
  | WUnlock1 => Some (with_w s i (w_lk_ (w_pc_ w WExitT) Free))
  | WExitT => go (if is_exit (w_st w) then WGone else WRun)
  | WRun => Some (with_w s i (mkW WReq (w_lk w) (w_st w) (w_nxt w) (w_cur w) (w_log w ++ [w_cur w])))
  | WReq => if is_free (w_lk w) then Some (with_w s i (w_lk_ (w_pc_ w WHas) Self)) else None
  | WHas =>
    if w_nxt w <? nt i
    then Some (with_w s i (mkW WUnlock2 (w_lk w) (w_st w) (S (w_nxt w)) (Some (w_nxt w)) (w_log w)))
    else go WDec
  | WDec => Some (with_w (mkSys (s_c s) (s_rnd s) (s_pend s - 1) (s_dead s) (s_bad s) (s_w s)) i (w_pc_ w WSet))
  | WSet => Some (with_w s i (w_st_ (w_pc_ w WTest) WAIT))
  | WTest => go (if (s_pend s =? 0)%Z then WSig else WUnlock2)
  | WSig => Some (c_signal (with_w s i (w_pc_ w WUnlock2)))
  | WUnlock2 => Some (with_w s i (w_lk_ (w_pc_ w WTop) Free))
  | WGone => None
  end.

(** a schedule: who moves next.  POSIX allows cond_wait to return without a
    signal ([LSpurC], [LSpurW]). *)
Inductive lab := LC (again : bool) | LW (i : nat) | LSpurC | LSpurW (i : nat).

Definition step (l : lab) (s : sys) : option sys :=
  match l with
  | LC again => cstep again s
  | LW i => if i <? n then wstep i s else None
  | LSpurC => match s_c s with CBlocked => Some (with_c s CTest) | _ => None end
  | LSpurW i =>
    if (i <? n) && at_blocked (w_pc (s_w s i)) then Some (with_w s i (w_pc_ (s_w s i) WRelock)) else None
  end.

Fixpoint exec (ls : list lab) (s : sys) : option sys :=
  match ls with
  | [] => Some s
  | l :: t => match step l s with Some s' => exec t s' | None => None end
  end.

End Sync.
