(** Worker threads processing their rows concurrently.

    A round of work (libman/coordinator.cpp:81-85 wake4run followed by 57-63
    wait4complete) lets every worker run over its rows; worker [t] owns rows
    [s .. s+n-1] and each row step reads and writes only (a) the worker's own
    state and (b) the shared per-row entries of that row (cluster_assignments,
    dist_v, ...).  The model interleaves the workers' row steps in an arbitrary
    order given by a schedule: each occurrence of [t] in the schedule lets
    worker [t] process its next row (nothing if it has finished).
    Simplification: a row step is atomic; this is justified by (a) and (b): the
    row ranges are disjoint (C01), so no two workers touch the same memory.
    Waking, sleeping and the mutexes are modelled separately in SyncModel. *)
From Verif Require Import Base Spec.
Set Implicit Arguments.

Section Par.
Variables C L : Type.      (* shared per-row entry, worker-local state *)
Variable step : nat -> nat -> L -> C -> res (L * C).   (* worker, local row *)
Variable ranges : list (nat * nat).                    (* (first row, number of rows) *)

Record pstate := mkP { ps_cells : list C; ps_loc : list (nat * L) (* cursor, state *) }.

Definition par_step (t : nat) (st : pstate) : res pstate :=
  match nth_error ranges t, nth_error (ps_loc st) t with
  | Some (s, n), Some (r, l) =>
    if r <? n then
      let* c := aget (ps_cells st) (s + r) in
      let* lc := step t r l c in
      let* cells := aset (ps_cells st) (s + r) (snd lc) in
      Ok (mkP cells (upd (ps_loc st) t (S r, fst lc)))
    else Ok st
  | _, _ => Ok st
  end.

Definition par_run (sched : list nat) (cells : list C) (locs : list L) : res (list L * list C) :=
  let* st := for_each sched par_step (mkP cells (map (fun l => (0, l)) locs)) in
  Ok (map snd (ps_loc st), ps_cells st).

(** a schedule that lets every worker finish *)
Definition complete (sched : list nat) : Prop :=
  forall t s n, nth_error ranges t = Some (s, n) -> n <= count_eq t sched.

End Par.

(** running the workers one after the other is a complete schedule *)
Definition seq_sched (ranges : list (nat * nat)) : list nat :=
  concat (map (fun tr => repeat (fst tr) (snd (snd tr))) (combine (seq 0 (length ranges)) ranges)).
