(** Model of the Gaussian-mixture driver: libman/gmm.cpp, libman/gmm_coordinator.cpp
    and the result record gmm_t (libkcommon/types.cpp:178-198).  Not modelled:
    printing, timing, the log-likelihood L (never returned). *)
From Verif Require Import Base Num DistModel ClustersModel PartitionModel ParModel KmeansModel MatrixModel.
Set Implicit Arguments.

Section Gmm.
Variable N : Num.
Notation T := (car N).
Variable log2 : T -> T.        (* std::log2 *)
Variable two_pi : T.           (* 2*M_PI *)

Definition ghalf : T := ndiv N (none N) (nofZ N 2).
(** gmm.cpp:81 [M] is the enumerator thread_state_t::M (thread_state.hpp:25-30), the integer 5 *)
Definition enum_M : T := nofZ N 5.

(** gmm_coordinator.hpp:34-47 *)
Record gst := mkG {
  gm_mu : list T;              (* k x ncol *)
  gm_sigma : list (list T);    (* k matrices ncol x ncol *)
  gm_inv : list (list T);
  gm_P : list T;               (* nrow x k *)
  gm_Pk : list T;
  gm_dets : list T;
  gm_Px : list T
}.

(** gmm_coordinator.cpp:40-59: everything zero, then the given means *)
Definition gmm_create (g : kcfg N) (mu : option (list T)) : res gst :=
  let z := repeat (nzero N) in
  let d := g_ncol g in
  let sq := repeat (z (d * d)) (g_k g) in
  let* m := match mu with
            | None => Ok (z (g_k g * d))
            | Some c => copy_to (c, 0) (g_k g * d) (z (g_k g * d)) 0
            end in
  Ok (mkG m sq sq (z (g_nrow g * g_k g)) (z (g_k g)) (z (g_k g)) (z (g_nrow g))).

(** gmm.cpp:71-87: row [row] of worker [w], component [cid]: the value stored in
    P_nk; the mean is read at [row*ncol] *)
Definition weight (g : kcfg N) (w : worker N) (s : gst) (row cid : nat) : res T :=
  let d := g_ncol g in
  let* diff := vdiff (wrow w d row) (gm_mu s, row * d) d (repeat (nzero N) d) in
  let* inv := aget (gm_inv s) cid in
  let* resdot := dot_vm (diff, 0) (inv, 0) d d in
  let* q := dot_vec resdot diff in
  let lhs := nmul N (nsub N (nzero N) ghalf) q in
  let* det := aget (gm_dets s) cid in
  let rhs := nsub N (nmul N (nmul N ghalf enum_M) (log2 two_pi)) (nmul N ghalf (log2 det)) in
  let* pk := aget (gm_Pk s) cid in
  Ok (nmul N (nsub N lhs rhs) pk).

Definition with_P (s : gst) (P Px : list T) : gst := mkG (gm_mu s) (gm_sigma s) (gm_inv s) P (gm_Pk s) (gm_dets s) Px.

(** gmm.cpp:68-94: one row of the E step.  P_nk is indexed by the worker's local
    row, Px by the global row. *)
Definition estep_row (g : kcfg N) (w : worker N) (row : nat) (s : gst) : res gst :=
  let trow := w_start w + row in
  let* s := loop (g_k g) (fun cid s =>
    let* tmp := weight g w s row cid in
    let* Px := amod (gm_Px s) trow (fun x => nadd N x tmp) in
    let* P := aset (gm_P s) (row * g_k g + cid) tmp in
    Ok (with_P s P Px)) s in
  loop (g_k g) (fun cid s =>
    let* px := aget (gm_Px s) trow in
    let* P := amod (gm_P s) (row * g_k g + cid) (fun x => ndiv N x px) in
    Ok (with_P s P (gm_Px s))) s.

(** gmm.cpp:65-99 by all the workers: [order] lists (worker, local row) in the
    order in which the rows are processed.  Simplification: rows are atomic; the
    workers share P_nk rows, so a run of the program can also be less regular. *)
Definition estep (g : kcfg N) (ws : list (worker N)) (order : list (nat * nat)) (s : gst) : res gst :=
  for_each order (fun tr s => let* w := aget ws (fst tr) in estep_row g w (snd tr) s) s.

(** gmm_coordinator.cpp:222-231 compute_shared_linalg; a singular matrix leaves
    its inverse alone.  dets.clear() is followed by writes to its elements:
    [keep] as in BestOfModel. *)
Definition shared_linalg (keep : bool) (g : kcfg N) (s : gst) : res gst :=
  let d := g_ncol g in
  let dets0 := if keep then gm_dets s else [] in
  let* (invs, dets) := loop (g_k g) (fun cid st =>
    let* A := aget (gm_sigma s) cid in
    let* i0 := aget (fst st) cid in
    let* r := inverse A i0 d in
    let* invs := match r with Some x => aset (fst st) cid x | None => Ok (fst st) end in
    let* det := determinant d A d d in
    let* dets := aset (snd st) cid det in
    Ok (invs, dets)) (gm_inv s, dets0) in
  Ok (mkG (gm_mu s) (gm_sigma s) invs (gm_P s) (gm_Pk s) dets (gm_Px s)).

(** gmm_coordinator.cpp:83-101 update_clusters; Pnk_sum is not used afterwards *)
Definition g_update (keep : bool) (g : kcfg N) (s : gst) : res gst :=
  let* _ := loop (g_nrow g) (fun row sum => loop (g_ncol g) (fun col sum =>
    let* x := aget (gm_P s) (row * g_k g + col) in
    amod sum col (fun a => nadd N a x)) sum) (repeat (nzero N) (g_k g)) in
  let* s := shared_linalg keep g s in
  Ok (with_P s (gm_P s) (repeat (nzero N) (g_nrow g))).

(** gmm_coordinator.cpp:153-161 forgy_init; get_thd_data as in KmeansModel *)
Definition g_forgy (g : kcfg N) (ws : list (worker N)) (data : list T) (d : draws N) (s : gst) : res gst :=
  let* mu := loop (g_k g) (fun c mu =>
    let* p := thd_row g data (d_int d c) in
    copy_to p (g_ncol g) mu (c * g_ncol g)) (gm_mu s) in
  Ok (mkG mu (gm_sigma s) (gm_inv s) (gm_P s) (gm_Pk s) (gm_dets s) (gm_Px s)).

(** gmm_coordinator.cpp:166-201 random_prob_fill of n rows of m values: the draws
    start again at 0 in every call *)
Definition prob_fill (u : nat -> T) (n m : nat) (v : list T) : res (list T) :=
  loop n (fun row v =>
    let* (v, sum) := loop m (fun col vs =>
      let x := u (row * m + col) in
      let* v := aset (fst vs) (row * m + col) x in
      Ok (v, nadd N (snd vs) x)) (v, nzero N) in
    loop m (fun col v => amod v (row * m + col) (fun x => ndiv N x sum)) v) v.

(** coordinator.cpp:144-160 run_init.  kmeans++: the workers have no KMSPP_INIT
    case (gmm.cpp:105-124), the exception leaves the thread: std::terminate *)
Definition g_init (g : kcfg N) (it : init_t) (ws : list (worker N)) (data : list T) (d : draws N) (s : gst) : res gst :=
  match it with
  | NONE => Ok s
  | FORGY => g_forgy g ws data d s
  | PLUSPLUS => Err Abort
  | RANDOM =>
    let* s := g_forgy g ws data d s in
    let* pk := prob_fill (d_real d) 1 (g_k g) (gm_Pk s) in
    let* P := prob_fill (d_real d) (g_nrow g) (g_k g) (gm_P s) in
    let* sg := mapM (fun m => prob_fill (d_real d) (g_ncol g) (g_ncol g) m) (gm_sigma s) in
    Ok (mkG (gm_mu s) sg (gm_inv s) P pk (gm_dets s) (gm_Px s))
  end.

(** types.hpp:78-85, types.cpp:178-198 *)
Record gmm_t := mkGmm {
  go_nrow : nat; go_ncol : nat; go_iters : nat; go_k : nat;
  go_means : list T; go_cov : list (list T); go_resp : list T; go_prob : list T }.
Definition gmm_result (g : kcfg N) (iters : nat) (s : gst) : res gmm_t :=
  let z := repeat (nzero N) in
  let* means := copy_to (gm_mu s, 0) (g_k g * g_ncol g) (z (g_k g * g_ncol g)) 0 in
  let* cov := mapM (fun m => copy_to (m, 0) (length m) (z (g_ncol g * g_ncol g)) 0) (gm_sigma s) in
  let* resp := copy_to (gm_P s, 0) (g_nrow g) (z (g_nrow g)) 0 in
  let* prob := copy_to (gm_Pk s, 0) (g_k g) (z (g_k g)) 0 in
  Ok (mkGmm (g_nrow g) (g_ncol g) iters (g_k g) means cov resp prob).

(** gmm_coordinator.cpp:268-296 the main loop.  num_changed is set to 0 by the
    coordinator (coordinator.cpp:39) and nothing in the driver writes it.  The M
    step is empty (gmm.cpp:101-103).  Result: (iterations, converged, state). *)
Definition g_num_changed : nat := 0.
Fixpoint g_loop (keep : bool) (g : kcfg N) (ws : list (worker N)) (orders : nat -> list (nat * nat))
  (n iter : nat) (s : gst) : res (nat * bool * gst) :=
  match n with
  | 0 => Ok (iter, false, s)
  | S n' =>
    let* s := estep g ws (orders iter) s in
    let* s := g_update keep g s in
    if (g_num_changed =? 0)
       || nleb N (ndiv N (nofZ N (Z.of_nat g_num_changed)) (nofZ N (Z.of_nat (g_nrow g)))) (g_tol g)
    then Ok (iter, true, s)
    else g_loop keep g ws orders n' (S iter) s
  end.

(** gmm_coordinator.cpp:236-327 soft_run.  [bindlib]: compiled with BIND; otherwise
    the program calls exit(911) after the initialisation. *)
Definition soft_run (bindlib keep : bool) (g : kcfg N) (mu : option (list T)) (it : init_t) (data : list T)
  (d : draws N) (orders : nat -> list (nat * nat)) : res (bool * gmm_t) :=
  let* s := gmm_create g mu in
  let it := match mu with Some _ => NONE | None => it end in
  let* ws := build_workers g data in
  let* s := g_init g it ws data d s in
  if negb bindlib then Err Abort else
  let iter0 := if 0 <? g_max_iters g then 1 else 0 in
  let* r := g_loop keep g ws orders (g_max_iters g) iter0 s in
  let '(iter, conv, s) := r in
  let* out := gmm_result g iter s in
  Ok (conv, out).

End Gmm.
