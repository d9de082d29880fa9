(** Model of exec/knori.cpp, main, from the parsed options to the result file.
    The option parser (cxxopts), atol/stod and the warnings are not modelled;
    nor is what the program prints.  A file is a list of bytes.  [ndebug]:
    compiled with RELEASE (-DNDEBUG), which turns assert_msg into a no-op; the
    models of the clustering functions are of the build with assertions, so
    [knori] is that build's main. *)
From Coq Require Import String.
From Verif Require Import Base Num DistModel ClustersModel PartitionModel ParModel KmeansModel PruneModel OmpModel.
From Verif Require Import ContainersModel IoModel WriteModel DistRunModel DistLloydModel.
Set Implicit Arguments.
Local Open Scope list_scope.

Section Cli.
Variable N : Num.
Notation T := (car N).
Variables (B : Type) (enc : T -> list B) (dec : list B -> T).

(** knori.cpp:44-61 the variables the options are parsed into; [ka_nrow],
    [ka_ncol] are size_t; [ka_out]: outdir is not empty *)
Record kargs := mkArgs {
  ka_nrow : Z; ka_ncol : Z; ka_k : nat; ka_threads : Z; ka_iters : nat; ka_tol : T;
  ka_init : string; ka_dist : string; ka_noprune : bool; ka_omp : bool; ka_out : bool }.

(** the files: the data file, and the one named by -C ([None]: no -C) *)
Record kfiles := mkFiles { kf_data : option (list B); kf_centers : option (option (list B)) }.

(** what is not determined by arguments and files: random draws, interleavings,
    the OpenMP distribution and reduction, the contents of fresh memory *)
Record kworld := mkWorld {
  kw_draws : draws N; kw_scheds : nat -> list nat; kw_chunks : list (nat * nat); kw_red : list T -> T;
  kw_junk : nat -> T }.

(** util.cpp:125-128 is_file_exist *)
Definition is_some {A} (o : option A) : bool := match o with Some _ => true | None => false end.
(** util.cpp:130-134 filesize: tellg of a stream that is not open is -1 *)
Definition filesize (f : option (list B)) : Z :=
  match f with Some b => Z.of_nat (length b) | None => (2 ^ 64 - 1)%Z end.

(** knori.cpp:112-133 the checks: the initialisation to use, and the bytes of the
    data file *)
Definition k_check (ndebug : bool) (a : kargs) (f : kfiles) : res (string * list B) :=
  let* _ := checked ndebug (is_some (kf_data f)) in
  let* init := match kf_centers f with
               | Some c => let* _ := checked ndebug (is_some c) in Ok "none"%string
               | None => Ok (ka_init a)
               end in
  let* _ := checked ndebug (negb ((init =? "none")%string && negb (is_some (kf_centers f)))) in
  if (filesize (kf_data f) =? w64 (8 * ka_nrow a * ka_ncol a))%Z then
    match kf_data f with Some b => Ok (init, b) | None => Err UB end
  else Err Throw.

(** a fresh array *)
Definition fresh (w : kworld) (n : nat) : list T := map (kw_junk w) (seq 0 n).

(** knori.cpp:135-145 the centroids of the -C file, if it can be opened *)
Definition k_centers (ndebug : bool) (a : kargs) (f : kfiles) (w : kworld) : res (option (list T)) :=
  match kf_centers f with
  | Some (Some b) =>
    let k := ka_k a in
    let ncol := Z.to_nat (ka_ncol a) in
    let* r := bin_read_ptr 8 enc dec ndebug (fresh w (k * ncol)) k ncol (mkFile b 0) in
    Ok (Some (fst r))
  | _ => Ok None
  end.

Definition k_cfg (a : kargs) (dt : dist_t) : kcfg N :=
  mkCfg N (Z.to_nat (ka_nrow a)) (Z.to_nat (ka_ncol a)) (ka_k a) (ka_iters a) (ka_threads a) (ka_tol a) dt DataFile.

(** the strings as compute_kmeans tells them apart (libauto/kmeans.cpp:330-361) *)
Definition init_arg_of (s : string) : init_arg :=
  if (s =? "random")%string then IRandom else if (s =? "forgy")%string then IForgy
  else if (s =? "kmeanspp")%string then IKmeanspp else if (s =? "none")%string then INone else IOther.
Definition dist_arg_of (s : string) : dist_arg :=
  if (s =? "eucl")%string then DEucl else if (s =? "cos")%string then DCos else DOther.

(** knori.cpp:146-189 the clustering.  With threads, the coordinator's workers
    read their rows from the file (PartitionModel, DataFile); the file's values
    are [objects_of].  With OpenMP the file is read into an array first, and
    centroids that were not given are an uninitialised array (which only "none"
    would use). *)
Definition k_cluster (a : kargs) (init : string) (bytes : list B) (centers : option (list T)) (w : kworld)
  : res (cluster_t N) :=
  let n := Z.to_nat (ka_nrow a) in
  let d := Z.to_nat (ka_ncol a) in
  if ka_omp a then
    let* r := bin_read_ptr 8 enc dec false (fresh w (n * d)) n d (mkFile bytes 0) in
    let c := match centers with Some c => c | None => fresh w (ka_k a * d) end in
    if ka_noprune a then
      let* rr := compute_kmeans (k_cfg a EUCL) (dist_arg_of (ka_dist a)) (init_arg_of init) c (fst r) (kw_chunks w) (kw_red w) (kw_draws w) (kw_scheds w) in
      Ok (rr_out rr)
    else
      let* rr := compute_min_kmeans (k_cfg a EUCL) (dist_arg_of (ka_dist a)) (init_arg_of init) c (fst r) (kw_chunks w) (kw_red w) (kw_draws w) (kw_scheds w) in
      Ok (pr_out rr)
  else
    let* it := get_init_type init in
    let* dt := get_dist_type (ka_dist a) in
    let data := objects_of 8 dec (n * d) bytes in
    if ka_noprune a then
      let* rr := run (k_cfg a dt) centers it data (kw_draws w) (kw_scheds w) in Ok (rr_out rr)
    else
      let* rr := prune_run (k_cfg a dt) centers it data (kw_draws w) (kw_scheds w) in Ok (pr_out rr).

(** knori.cpp:41-204 main: the text of the result file, if one is written *)
Definition knori (inv : nat) (showd : T -> text) (a : kargs) (f : kfiles) (w : kworld) : res (option text) :=
  let* ib := k_check false a f in
  let* c := k_centers false a f w in
  let* o := k_cluster a (fst ib) (snd ib) c w in
  if ka_out a then let* t := write showd (as_result inv o) in Ok (Some t) else Ok None.

(* ------------------------------------------------------------------ *)
(** * knord *)
(** what a knord run depends on besides arguments and files: the draws (the same
    stream on every process), per process thread interleavings *)
Record kdworld := mkDWorld {
  kdw_draw : nat -> nat; kdw_real : nat -> T; kdw_ksched : nat -> nat -> list nat; kdw_scheds : nat -> nat -> list nat;
  kdw_junk : nat -> T }.

(** exec/knord.cpp:112-117 the checks.  [ka_init] is the initialisation after all
    options have been parsed (lines 83-94: -C sets it to "none", a -t that comes
    later overrides that); the file named by -C is checked to exist while parsing *)
Definition kd_check (ndebug : bool) (a : kargs) (f : kfiles) : res (list B) :=
  let* _ := match kf_centers f with Some c => checked ndebug (is_some c) | None => Ok tt end in
  let* _ := checked ndebug (negb ((ka_init a =? "none")%string && negb (is_some (kf_centers f)))) in
  if (filesize (kf_data f) =? w64 (8 * ka_nrow a * ka_ncol a))%Z then
    match kf_data f with Some b => Ok b | None => Err UB end
  else Err Throw.

(** exec/knord.cpp:37-147 main, with -o: the text the root process writes
    (dist_coordinator.cpp:385-423, dist_task_coordinator.cpp:405-443) *)
Definition knord (inv : nat) (showd : T -> text) (P : nat) (a : kargs) (f : kfiles) (w : kdworld) : res text :=
  let* bytes := kd_check false a f in
  let* c := k_centers false a f (mkWorld (mkDraws N (kdw_draw w) (kdw_real w) (fun _ => [])) (fun _ => []) [] (fun _ => nzero N) (kdw_junk w)) in
  let* it := get_init_type (ka_init a) in
  let* dt := get_dist_type (ka_dist a) in
  let data := objects_of 8 dec (Z.to_nat (ka_nrow a) * Z.to_nat (ka_ncol a)) bytes in
  let* o := if ka_noprune a then
      let* rr := udist_run (k_cfg a dt) P c it data (kdw_draw w) (kdw_real w) (kdw_ksched w) (kdw_scheds w) in Ok (ud_out rr)
    else
      let* rr := dist_prune_run (k_cfg a dt) P c it data (kdw_draw w) (kdw_real w) (kdw_ksched w) (kdw_scheds w) in Ok (dr_out rr) in
  write showd (as_result inv o).
End Cli.
