(** Model of scaled k-means: libman/skmeans.cpp and libman/skmeans_coordinator.cpp.

    After the preprocessing step the coordinator runs the same initialisations,
    the same EM step and the same loop as kmeans_coordinator (compare
    skmeans_coordinator.cpp:102-225 with kmeans_coordinator.cpp:66-210), so the
    model calls [KmeansModel.run] on the normalised data.  Each worker
    overwrites its own rows of local_data; with a caller-supplied buffer these
    are the caller's rows, so the model returns the final buffer.
    Simplification: the workers' buffers after NORMALIZE_DATA are written as
    "what loading the normalised matrix would give", which is what overwriting
    every row of every worker in place amounts to. *)
From Verif Require Import Base Num DistModel ClustersModel PartitionModel ParModel KmeansModel.
Set Implicit Arguments.

Section Skmeans.
Variable N : Num.
Notation T := (car N).

(** skmeans.hpp: min_feature_val, max_feature_val *)
Definition fbounds := (list T * list T)%type.

(** skmeans.cpp:36-37, skmeans_coordinator.cpp:65-66: initial bounds *)
Definition bounds0 (ncol : nat) : fbounds := (repeat (nmax N) ncol, repeat (nmin N) ncol).

(** skmeans.cpp:44-47, skmeans_coordinator.cpp:75-78: fold one value per
    column into the bounds *)
Definition bounds_upd (col : nat) (lo hi : T) (b : fbounds) : res fbounds :=
  let* m := aget (fst b) col in
  let* mins := if nltb N lo m then aset (fst b) col lo else Ok (fst b) in
  let* M := aget (snd b) col in
  let* maxs := if nltb N M hi then aset (snd b) col hi else Ok (snd b) in
  Ok (mins, maxs).

(** skmeans.cpp:41-51 feature_bounds_reduction, one row *)
Definition bounds_row (g : kcfg N) (ws : list (worker N)) (t r : nat) (b : fbounds) (u : unit)
  : res (fbounds * unit) :=
  let* w := aget ws t in
  let* b := loop (g_ncol g) (fun col b =>
    let* x := pget (wrow w (g_ncol g) r) col in
    bounds_upd col x x b) b in
  Ok (b, u).

(** skmeans_coordinator.cpp:64-90 bounds_reduction: merge the workers' bounds *)
Definition bounds_reduction (g : kcfg N) (bs : list fbounds) : res fbounds :=
  for_each bs (fun (b : fbounds) acc =>
    loop (g_ncol g) (fun col acc =>
      let* lo := aget (fst b) col in
      let* hi := aget (snd b) col in
      bounds_upd col lo hi acc) acc) (bounds0 (g_ncol g)).

(** skmeans.cpp:54-63 feature_normalize, one row.  The row's values are read
    through the worker's pointer and the new ones written to the row's entry. *)
Definition normalize_row (g : kcfg N) (ws : list (worker N)) (b : fbounds) (t r : nat) (u : unit)
  (cell : list T) : res (unit * list T) :=
  let* w := aget ws t in
  let* cell := loop (g_ncol g) (fun col cell =>
    let* x := pget (wrow w (g_ncol g) r) col in
    let* m := aget (fst b) col in
    let* M := aget (snd b) col in
    aset cell col (ndiv N (nsub N x m) (nsub N M m))) cell in
  Ok (u, cell).

(** skmeans_coordinator.cpp:92-100 preprocess_data: the bounds and the
    normalised matrix; [sb], [sn] are the schedules of the two rounds *)
Definition preprocess_data (g : kcfg N) (data : list T) (sb sn : list nat)
  : res (fbounds * list T) :=
  let* ws := build_workers g data in
  let* lb := par_run (bounds_row g ws) (w_ranges ws) sb (repeat tt (g_nrow g))
               (map (fun _ => bounds0 (g_ncol g)) ws) in
  let* b := bounds_reduction g (fst lb) in
  let* lr := par_run (normalize_row g ws b) (w_ranges ws) sn
               (map (row data (g_ncol g)) (seq 0 (g_nrow g))) (map (fun _ => tt) ws) in
  Ok (b, concat (snd lr)).

(** skmeans_coordinator.cpp:29-48 constructor, 191-270 run: the k-means result
    and the buffer left behind *)
Record sk_result := mkSk { sk_run : run_result N; sk_bounds : fbounds; sk_data : list T }.

Definition skmeans (g : kcfg N) (centers : option (list T)) (it : init_t) (data : list T)
  (sb sn : list nat) (d : draws N) (scheds : nat -> list nat) : res sk_result :=
  let* _ := coordinator_create g centers it in
  let* p := preprocess_data g data sb sn in
  let* rr := run g centers it (snd p) d scheds in
  Ok (mkSk rr (fst p) (snd p)).

End Skmeans.
