(** Models of the remaining programs of exec/: hmeans, xmeans, gmeans, skmeans,
    fcm, mb_knori, kmeanspp, medoids and gmm, from the parsed options to the
    result file (as in CliModel: the option parser, atol/stod, the warnings and
    what the programs print are not modelled; the build is the one with
    assertions; [junk] is the contents of fresh memory). *)
From Coq Require Import String.
From Verif Require Import Base Num DistModel ClustersModel PartitionModel ParModel KmeansModel PruneModel OmpModel.
From Verif Require Import ContainersModel IoModel WriteModel DistRunModel DistLloydModel CliModel.
From Verif Require Import HclustModel XmeansModel GmeansModel SkmeansModel FcmModel MbModel BestOfModel MedoidModel GmmModel.
Set Implicit Arguments.
Local Open Scope list_scope.

Section Exec.
Variable N : Num.
Notation T := (car N).
Variables (B : Type) (enc : T -> list B) (dec : list B -> T).
Variables (inv : nat) (showd : T -> text).

(** the same options with another number of clusters *)
Definition with_k (a : kargs N) (kc : nat) : kargs N :=
  mkArgs N (ka_nrow a) (ka_ncol a) kc (ka_threads a) (ka_iters a) (ka_tol a) (ka_init a) (ka_dist a) (ka_noprune a) (ka_omp a) (ka_out a).

Definition mem_world (junk : nat -> T) : kworld N :=
  mkWorld (mkDraws N (fun _ => 0) (fun _ => nzero N) (fun _ => [])) (fun _ => []) [] (fun _ => nzero N) junk.

(** the end of every main: ret.write(outdir) if -o was given *)
Definition save (a : kargs N) (r : cresult T) : res (option text) :=
  if ka_out a then let* t := write showd r in Ok (Some t) else Ok None.

(** What hmeans.cpp:95-136, xmeans.cpp:95-136, gmeans.cpp:98-139,
    skmeans.cpp:90-134, fcm.cpp:92-134 and mb_knori.cpp:98-145 have in common: the
    checks (the same code as knori.cpp:112-133), the centroid file of [rows]
    centroids (2 for the first three, k for the others), the names parsed by the
    coordinator's [create], the engine on the values of the data file, the output.
    skmeans and fcm pass [&centers[0]] of a vector that is empty without -C
    (modelled as NULL). *)
Definition prog (rows : nat) (eng : kcfg N -> option (list T) -> init_t -> list T -> res (cresult T))
  (a : kargs N) (f : kfiles B) (junk : nat -> T) : res (option text) :=
  let* ib := k_check false a f in
  let* c := k_centers enc dec false (with_k a rows) f (mem_world junk) in
  let* it := get_init_type (fst ib) in
  let* dt := get_dist_type (ka_dist a) in
  let data := objects_of 8 dec (Z.to_nat (ka_nrow a) * Z.to_nat (ka_ncol a)) (snd ib) in
  let* r := eng (k_cfg a dt) c it data in
  save a r.

(** exec/hmeans.cpp; [ord]: the iteration order of the map of finished centroids *)
Definition hmeans (minsz : nat) (ord : list (nat * list T) -> list (nat * list T)) dr scheds fuel :=
  prog 2 (fun g c it data =>
    let* s := h_run (mkHc g minsz) false c it data dr scheds fuel in h_result (mkHc g minsz) ord s).

(** exec/xmeans.cpp *)
Definition xmeans (nlog : T -> T) (two_pi : T) (minsz : nat) (ord : list (nat * list T) -> list (nat * list T)) dr scheds ords fuel :=
  prog 2 (fun g c it data =>
    let* st := x_run nlog two_pi (mkHc g minsz) false c it data dr scheds ords fuel in h_result (mkHc g minsz) ord (fst st)).

(** exec/gmeans.cpp *)
Definition gmeans (nlog phi : T -> T) (trunc : T -> Z) (strictness : Z) (minsz : nat) (ord : list (nat * list T) -> list (nat * list T)) dr scheds fuel :=
  prog 2 (fun g c it data =>
    let* st := g_run nlog phi trunc (mkHc g minsz) strictness false c it data dr scheds fuel in h_result (mkHc g minsz) ord (fst st)).

(** exec/skmeans.cpp *)
Definition skmeans_prog (sb sn : list nat) (dr : draws N) (scheds : nat -> list nat) (a : kargs N) :=
  prog (ka_k a) (fun g c it data =>
    let* r := skmeans g c it data sb sn dr scheds in Ok (as_result inv (rr_out (sk_run r)))) a.

(** exec/fcm.cpp *)
Definition fcm_prog (npow : T -> T -> T) (fuzz : Z) (draw : nat -> nat) (os : nat -> forder) (a : kargs N) :=
  prog (ka_k a) (fun g c it data =>
    let* r := f_run npow (mkFcfg g fuzz) c it data draw os in Ok (as_result inv (fr_out r))) a.

(** exec/mb_knori.cpp *)
Definition mb_prog (mb_size : Z) (dr : draws N) (u : nat -> nat -> T) (scheds : nat -> list nat) (a : kargs N) :=
  prog (ka_k a) (fun g c it data =>
    let* r := mb_run g mb_size c it data dr u scheds in Ok (as_result inv (mb_out r))) a.

(** exec/kmeanspp.cpp:93-114: no initialisation or centroid options.  [keep]: see
    BestOfModel *)
Definition kmeanspp_prog (keep : bool) (nstarts : nat) (drs : nat -> draws N) (a : kargs N) (f : kfiles B) : res (option text) :=
  let* _ := checked false (is_some (kf_data f)) in
  if (filesize (kf_data f) =? w64 (8 * ka_nrow a * ka_ncol a))%Z then
    match kf_data f with
    | None => Err UB
    | Some bytes =>
      let* dt := get_dist_type (ka_dist a) in
      let n := Z.to_nat (ka_nrow a) in let d := Z.to_nat (ka_ncol a) in
      let* r := kmeansPP keep (pp_cfg N n d (ka_k a) (ka_threads a) dt DataFile) nstarts (objects_of 8 dec (n * d) bytes) drs in
      save a (as_result inv (pp_out r))
    end
  else Err Throw.

(** exec/medoids.cpp:89-139: the data file is read into a vector; p_centers is
    NULL whether or not -C is given (the file is only checked to exist) *)
Definition medoids_prog (draw : nat -> nat) (smp : nat -> nat -> bool) (sm se : nat -> list nat) (a : kargs N) (f : kfiles B) : res (option text) :=
  let* ib := k_check false a f in
  let* it := get_init_type (fst ib) in
  let* dt := get_dist_type (ka_dist a) in
  let n := Z.to_nat (ka_nrow a) in let d := Z.to_nat (ka_ncol a) in
  let* v := bin_read_vec 8 enc dec false (repeat (nzero N) (n * d)) n d (mkFile (snd ib) 0) in
  let g := mkCfg N n d (ka_k a) (ka_iters a) (ka_threads a) (ka_tol a) dt UserBuffer in
  let* r := m_run g None it (fst v) draw smp sm se in
  save a (as_result inv (mr_out r)).

(** exec/gmm.cpp:96-143: the write is commented out.  [bindlib], [keep]: see GmmModel *)
Definition gmm_prog (log2 : T -> T) (two_pi : T) (bindlib keep : bool) (dr : draws N) (orders : nat -> list (nat * nat))
  (a : kargs N) (f : kfiles B) (junk : nat -> T) : res (option text) :=
  let* ib := k_check false a f in
  let* c := k_centers enc dec false a f (mem_world junk) in
  let* it := get_init_type (fst ib) in
  let* dt := get_dist_type (ka_dist a) in
  let data := objects_of 8 dec (Z.to_nat (ka_nrow a) * Z.to_nat (ka_ncol a)) (snd ib) in
  let* _ := soft_run log2 two_pi bindlib keep (k_cfg a dt) c it data dr orders in
  Ok None.

End Exec.
