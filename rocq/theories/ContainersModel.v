(** Models of knor's small containers and counters: the thread-safe boolean
    vector, the vector-backed map and its iterator, the id generator of the
    hierarchical algorithms, the pruning counters, the cluster-id compactor and
    the comparison operators of the result types. *)
From Coq Require Import Ascii.
From Verif Require Import Base Num.
Set Implicit Arguments.
Unset Strict Implicit.

(* ------------------------------------------------------------------ *)
(** * thd_safe_bool_vector *)

(** libkcommon/thd_safe_bool_vector.hpp:28-36: [_bool] is [char _\[2\]]; the
    default constructor leaves both characters indeterminate ([None]). *)
Definition cbool := (option ascii * option ascii)%type.
Definition nul : ascii := ascii_of_nat 0.
Definition cb_indet : cbool := (None, None).

(** thd_safe_bool_vector.cpp:27-30 *)
Definition cb_make (c : ascii) : cbool := (Some c, Some nul).

(** thd_safe_bool_vector.cpp:32-36: [strcmp(_, "1")], character by character up
    to the terminating NUL of the literal; reading an indeterminate character
    is undefined behaviour. *)
Definition cb_bool (b : cbool) : res bool :=
  match fst b with
  | None => Err UB
  | Some c0 =>
      if Ascii.eqb c0 "1"%char then
        match snd b with
        | None => Err UB
        | Some c1 => Ok (Ascii.eqb c1 nul)
        end
      else Ok false
  end.

Definition bvec := list cbool.

(** thd_safe_bool_vector.hpp:48-50: [data.resize(len)] *)
Definition bv_create (len : nat) : bvec := repeat cb_indet len.

(** the constant written for a flag (cpp:47-51, 58-62) *)
Definition cb_of (v : bool) : cbool := if v then cb_make "1"%char else cb_make "0"%char.

(** thd_safe_bool_vector.hpp:52-61: create with an initial value.  (The [false]
    branch counts with an [unsigned]; lengths are below 2^32 here.) *)
Definition bv_create_init (len : nat) (init : bool) : res bvec :=
  loop len (fun i d => aset d i (cb_of init)) (bv_create len).

(** thd_safe_bool_vector.cpp:38-44 *)
Definition bv_get (d : bvec) (idx : nat) : res bool :=
  let* b := aget d idx in cb_bool b.

(** thd_safe_bool_vector.cpp:46-52 *)
Definition bv_set (d : bvec) (idx : nat) (v : bool) : res bvec := aset d idx (cb_of v).

(** thd_safe_bool_vector.cpp:73-86 *)
Definition bv_resize (d : bvec) (tosize : nat) (init : bool) : res bvec :=
  let old := length d in
  let d1 := if tosize <? old then firstn tosize d
            else d ++ repeat cb_indet (tosize - old) in
  for_ (tosize - old) old (fun i d => aset d i (cb_of init)) d1.

(** thd_safe_bool_vector.cpp:54-63 *)
Definition bv_check_set (d : bvec) (idx : nat) (v : bool) : res bvec :=
  let* d1 := if length d <? idx then bv_resize d (idx + 1) false else Ok d in
  aset d1 idx (cb_of v).

(** One call of the public interface, and a history of calls. *)
Inductive bop := BSet (i : nat) (v : bool) | BCheckSet (i : nat) (v : bool).
Definition bv_do (o : bop) (d : bvec) : res bvec :=
  match o with BSet i v => bv_set d i v | BCheckSet i v => bv_check_set d i v end.
Definition bv_run (l : list bop) (d : bvec) : res bvec := for_each l bv_do d.

(* ------------------------------------------------------------------ *)
(** * vmap *)

Section Vmap.
Variable T : Type.
Variable teq : T -> T -> bool.    (* operator== of T *)
Variable tdef : T.                (* T() *)

(** types.hpp:100-105 *)
Record vmap := mkVmap { vm_data : list T; vm_empty : T }.

(** types.hpp:107-114 *)
Definition vm_create (cap : nat) (e : T) : vmap := mkVmap (repeat e cap) e.
Definition vm_set_capacity (m : vmap) (cap : nat) : vmap :=
  mkVmap (repeat (vm_empty m) cap) (vm_empty m).
Definition vm_size (m : vmap) : nat := length (vm_data m).

(** types.hpp:117: no bounds check *)
Definition vm_erase (m : vmap) (i : nat) : res vmap :=
  let* d := aset (vm_data m) i (vm_empty m) in Ok (mkVmap d (vm_empty m)).

(** types.hpp:119-123, 131-135: the growing access ([resize] value-initialises
    the new slots with [T()]) *)
Definition vm_grow (m : vmap) (i : nat) : vmap :=
  if length (vm_data m) <=? i
  then mkVmap (vm_data m ++ repeat tdef (i + 1 - length (vm_data m))) (vm_empty m)
  else m.

(** [m\[i\] = v] *)
Definition vm_put (m : vmap) (i : nat) (v : T) : res vmap :=
  let m1 := vm_grow m i in
  let* d := aset (vm_data m1) i v in Ok (mkVmap d (vm_empty m1)).

(** [m\[i\]] on a non-const map: grows, then reads *)
Definition vm_ref (m : vmap) (i : nat) : res (T * vmap) :=
  let m1 := vm_grow m i in
  let* x := aget (vm_data m1) i in Ok (x, m1).

(** types.hpp:125-129: [m\[i\]] on a const map *)
Definition vm_cget (m : vmap) (i : nat) : res T :=
  if length (vm_data m) <=? i then Err Throw else aget (vm_data m) i.

(** types.hpp:141-143 *)
Definition vm_clear (m : vmap) : vmap :=
  mkVmap (repeat (vm_empty m) (vm_size m)) (vm_empty m).

(** types.hpp:147-151: [size()-1] is computed in [size_t] *)
Definition vm_has_key (m : vmap) (i : nat) : res bool :=
  if (w64 (Z.of_nat (vm_size m) - 1) <? Z.of_nat i)%Z then Ok false
  else let* x := aget (vm_data m) i in Ok (negb (teq (vm_empty m) x)).

(** types.hpp:153-159: appends to [ids] *)
Definition vm_get_keys (m : vmap) (ids : list nat) : res (list nat) :=
  loop (vm_size m)
    (fun i ids => let* x := aget (vm_data m) i in
       Ok (if negb (teq (vm_empty m) x) then ids ++ [i] else ids)) ids.

(** types.hpp:161-169 *)
Definition vm_keycount (m : vmap) : res nat :=
  loop (vm_size m)
    (fun i c => let* x := aget (vm_data m) i in
       Ok (if negb (teq (vm_empty m) x) then c + 1 else c)) 0.

(** types.hpp:171-177 *)
Definition vm_keyless (m : vmap) : bool :=
  forallb (fun x => teq (vm_empty m) x) (vm_data m).

(** types.hpp:199-202, 216-218: advance to the next slot in use; [fuel] slots
    remain to be looked at *)
Fixpoint vm_seek (fuel : nat) (m : vmap) (o : nat) : res nat :=
  match fuel with
  | 0 => Ok o
  | S f => let* x := vm_cget m o in
           if negb (teq (vm_empty m) x) then Ok o else vm_seek f m (S o)
  end.

(** types.hpp:197-203: the iterator is its offset (the map is held by
    reference; it is not modified while iterating here) *)
Definition it_begin (m : vmap) : res nat := vm_seek (vm_size m) m 0.

(** types.hpp:212-221 *)
Definition it_has_next (m : vmap) (o : nat) : res (bool * nat) :=
  if (o =? vm_size m) || (vm_size m =? 0) then Ok (false, o)
  else let* o' := vm_seek (vm_size m - o) m o in Ok (o' <? vm_size m, o').

(** types.hpp:206-210 *)
Definition it_next (m : vmap) (o : nat) : res ((nat * T) * nat) :=
  let* x := vm_cget m o in Ok ((o, x), o + 1).

(** the way every caller uses it (e.g. libman/hclust_coordinator.cpp:84-112):
    [auto it = m.get_iterator(); while (it.has_next()) use(it.next());] *)
Fixpoint it_walk (fuel : nat) (m : vmap) (o : nat) : res (list (nat * T)) :=
  match fuel with
  | 0 => Err Fuel
  | S f => let* (b, o1) := it_has_next m o in
           if b then let* (kv, o2) := it_next m o1 in
                     let* rest := it_walk f m o2 in Ok (kv :: rest)
           else Ok []
  end.
Definition vm_iterate (m : vmap) : res (list (nat * T)) :=
  let* o := it_begin m in it_walk (vm_size m + 1) m o.

(** One call of the interface that changes the map. *)
Inductive vop := VPut (i : nat) (v : T) | VTouch (i : nat) | VErase (i : nat) | VClear.
Definition vm_do (o : vop) (m : vmap) : res vmap :=
  match o with
  | VPut i v => vm_put m i v
  | VTouch i => let* (_, m') := vm_ref m i in Ok m'
  | VErase i => vm_erase m i
  | VClear => Ok (vm_clear m)
  end.
Definition vm_run (l : list vop) (m : vmap) : res vmap := for_each l vm_do m.
End Vmap.
Arguments VTouch {T} i.
Arguments VErase {T} i.
Arguments VClear {T}.

(* ------------------------------------------------------------------ *)
(** * hclust_id_generator *)

(** libman/hclust_id_generator.hpp:39-45; the recycler's back is the head *)
Record idgen := mkIdgen { id_max : Z; id_rec : list Z }.
Definition idgen_create : idgen := mkIdgen 0 [].

(** hclust_id_generator.hpp:51-53 *)
Definition id_reclaim (g : idgen) (id : Z) : idgen := mkIdgen (id_max g) (id :: id_rec g).

(** hclust_id_generator.hpp:70-75 (and 77-82): one id; [unsigned] increment *)
Definition id_one (g : idgen) : Z * idgen :=
  match id_rec g with
  | l :: t => (l, mkIdgen (id_max g) t)
  | [] => (w32 (id_max g + 1), mkIdgen (w32 (id_max g + 1)) [])
  end.

(** hclust_id_generator.hpp:67-84 *)
Definition id_split (g : idgen) : (Z * Z) * idgen :=
  let (l, g1) := id_one g in
  let (r, g2) := id_one g1 in
  ((l, r), g2).

(* ------------------------------------------------------------------ *)
(** * prune_stats, activation_counter, active_counter *)

(** libkcommon/prune_stats.hpp:29-46; all counters are [size_t] *)
Record pstats := mkPS {
  ps_l1 : Z; ps_3a : Z; ps_3b : Z; ps_3c : Z; ps_4 : Z;
  ps_tl1 : Z; ps_t3a : Z; ps_t3b : Z; ps_t3c : Z; ps_t4 : Z;
  ps_iter : Z; ps_nrow : Z; ps_nclust : Z }.
Definition ps_create (nrow nclust : Z) : pstats :=
  mkPS 0 0 0 0 0 0 0 0 0 0 0 nrow nclust.

(** prune_stats.cpp:27-31 *)
Definition ps_pp_l1 (s : pstats) (v : Z) : pstats :=
  mkPS (w64 (ps_l1 s + v)) (ps_3a s) (ps_3b s) (ps_3c s) (ps_4 s)
       (ps_tl1 s) (ps_t3a s) (ps_t3b s) (ps_t3c s) (ps_t4 s)
       (ps_iter s) (ps_nrow s) (ps_nclust s).
Definition ps_pp_3a (s : pstats) : pstats :=
  mkPS (ps_l1 s) (w64 (ps_3a s + 1)) (ps_3b s) (ps_3c s) (ps_4 s)
       (ps_tl1 s) (ps_t3a s) (ps_t3b s) (ps_t3c s) (ps_t4 s)
       (ps_iter s) (ps_nrow s) (ps_nclust s).
Definition ps_pp_3b (s : pstats) : pstats :=
  mkPS (ps_l1 s) (ps_3a s) (w64 (ps_3b s + 1)) (ps_3c s) (ps_4 s)
       (ps_tl1 s) (ps_t3a s) (ps_t3b s) (ps_t3c s) (ps_t4 s)
       (ps_iter s) (ps_nrow s) (ps_nclust s).
Definition ps_pp_3c (s : pstats) : pstats :=
  mkPS (ps_l1 s) (ps_3a s) (ps_3b s) (w64 (ps_3c s + 1)) (ps_4 s)
       (ps_tl1 s) (ps_t3a s) (ps_t3b s) (ps_t3c s) (ps_t4 s)
       (ps_iter s) (ps_nrow s) (ps_nclust s).
Definition ps_pp_4 (s : pstats) : pstats :=
  mkPS (ps_l1 s) (ps_3a s) (ps_3b s) (ps_3c s) (w64 (ps_4 s + 1))
       (ps_tl1 s) (ps_t3a s) (ps_t3b s) (ps_t3c s) (ps_t4 s)
       (ps_iter s) (ps_nrow s) (ps_nclust s).

(** prune_stats.cpp:39-46 operator+= *)
Definition ps_add (s o : pstats) : pstats :=
  mkPS (w64 (ps_l1 s + ps_l1 o)) (w64 (ps_3a s + ps_3a o)) (w64 (ps_3b s + ps_3b o))
       (w64 (ps_3c s + ps_3c o)) (w64 (ps_4 s + ps_4 o))
       (ps_tl1 s) (ps_t3a s) (ps_t3b s) (ps_t3c s) (ps_t4 s)
       (ps_iter s) (ps_nrow s) (ps_nclust s).

(** prune_stats.cpp:48-75 finalize (printing omitted) *)
Definition ps_finalize (s : pstats) : res pstats :=
  let* _ := assert_ (w64 (ps_l1 s + ps_3a s + ps_3b s + ps_3c s + ps_4 s)
                     <=? w64 (ps_nrow s * ps_nclust s))%Z in
  Ok (mkPS 0 0 0 0 0
        (w64 (ps_tl1 s + ps_l1 s)) (w64 (ps_t3a s + ps_3a s)) (w64 (ps_t3b s + ps_3b s))
        (w64 (ps_t3c s + ps_3c s)) (w64 (ps_t4 s + ps_4 s))
        (w64 (ps_iter s + 1)) (ps_nrow s) (ps_nclust s)).

(** One recorded event, and one iteration of the callers
    (libman/kmeans_task_coordinator.cpp:190-215): every thread records its
    events in its own object, the coordinator adds them up and finalises. *)
Inductive pev := EvL1 (v : Z) | Ev3a | Ev3b | Ev3c | Ev4.
Definition ps_event (e : pev) (s : pstats) : pstats :=
  match e with
  | EvL1 v => ps_pp_l1 s v | Ev3a => ps_pp_3a s | Ev3b => ps_pp_3b s
  | Ev3c => ps_pp_3c s | Ev4 => ps_pp_4 s
  end.
Definition ps_events (l : list pev) (s : pstats) : pstats :=
  fold_left (fun s e => ps_event e s) l s.
Definition ps_iteration (thds : list (list pev)) (s : pstats) : res pstats :=
  ps_finalize
    (fold_left (fun s evs => ps_add s (ps_events evs (ps_create (ps_nrow s) (ps_nclust s))))
               thds s).
Definition ps_run (hist : list (list (list pev))) (s : pstats) : res pstats :=
  for_each hist ps_iteration s.

(** prune_stats.cpp:77-104 get_stats (printing omitted): the five percentages and
    their total *)
Definition ps_get_stats (N : Num) (s : pstats) : list (car N) :=
  let den := nofZ N (w64 (w64 (ps_nrow s * ps_iter s) * ps_nclust s)) in
  let perc t := nmul N (ndiv N (nofZ N t) den) (nofZ N 100) in
  [perc (ps_tl1 s); perc (ps_t3a s); perc (ps_t3b s); perc (ps_t3c s); perc (ps_t4 s);
   perc (w64 (ps_t3b s + ps_t3a s + ps_t3c s + ps_t4 s + ps_tl1 s))].

(** prune_stats.hpp:71-89, prune_stats.cpp:107-123 activation_counter: per
    thread counts and the list of totals of the finished iterations *)
Record actc := mkActc { ac_cnt : list Z; ac_agg : list Z }.
Definition ac_create (nthread : nat) : actc := mkActc (repeat 0%Z nthread) [].
Definition ac_active (s : actc) (thd : nat) : res actc :=
  let* c := amod (ac_cnt s) thd (fun x => w64 (x + 1)) in Ok (mkActc c (ac_agg s)).
Definition ac_complete (s : actc) : actc :=
  mkActc (repeat 0%Z (length (ac_cnt s)))
         (ac_agg s ++ [fold_left (fun t x => w64 (t + x)) (ac_cnt s) 0%Z]).

(** prune_stats.hpp:91-107, prune_stats.cpp:126-146 active_counter;
    [av_active] is stored newest iteration first *)
Record actv := mkActv { av_prev : list bool; av_active : list (list bool); av_nrow : nat }.
Definition av_init_iter (s : actv) : actv :=
  mkActv (av_prev s) (repeat false (av_nrow s) :: av_active s) (av_nrow s).
Definition av_create (nrow : nat) : actv :=
  av_init_iter (mkActv (repeat false nrow) [] nrow).
Definition av_is_active (s : actv) (r : nat) (v : bool) : res actv :=
  let* w := aget (av_prev s) r in
  match av_active s with
  | [] => Err UB
  | cur :: old =>
      let* cur' := aset cur r (v && w) in
      let* prev' := aset (av_prev s) r v in
      Ok (mkActv prev' (cur' :: old) (av_nrow s))
  end.

(* ------------------------------------------------------------------ *)
(** * compactor::remap and the cluster_t constructor that uses it *)

(** [std::unordered_map<unsigned, unsigned>] as a finite function *)
Definition idmap := nat -> option nat.
Definition im_empty : idmap := fun _ => None.
Definition im_set (m : idmap) (k v : nat) : idmap := fun x => if x =? k then Some v else m x.
(** [m\[k\]]: inserts 0 for a missing key *)
Definition im_ref (m : idmap) (k : nat) : nat * idmap :=
  match m k with Some v => (v, m) | None => (0, im_set m k 0) end.

(** libkcommon/hclust_compactor.hpp:33-45 *)
Definition remap (counts : list Z) (st : list Z * idmap) : res (list Z * idmap) :=
  loop (length counts)
    (fun i st => let* c := aget counts i in
       let* _ := assert_ (0 <=? c)%Z in
       if (0 <? c)%Z
       then Ok (fst st ++ [c], im_set (snd st) i (length (fst st)))
       else Ok st) st.

Section Compact.
Variable T : Type.
Variable tzero : T.   (* double() *)

(** libkcommon/types.hpp:41-55 cluster_t as filled here (assignments are
    initialised: [resize] zero-fills them) *)
Record cresult := mkCR {
  cr_nrow : nat; cr_ncol : nat; cr_iters : nat; cr_k : nat;
  cr_asg : list nat; cr_counts : list Z; cr_centroids : list T }.

(** types.cpp:46-72.  [centroids] is the unordered map in the order in which
    the range-for visits it, which the standard leaves unspecified. *)
Definition compact (nrow ncol iters : nat) (asg : list nat) (counts : list Z)
    (centroids : list (nat * list T)) : res cresult :=
  let* (cnts, im) := remap counts ([], im_empty) in
  let* (a, im) := loop (length asg)
      (fun i st => let* o := aget asg i in
         let (v, im') := im_ref (snd st) o in
         let* a' := aset (fst st) i v in Ok (a', im')) (repeat 0 nrow, im) in
  let* (cs, _) := for_each centroids
      (fun kv st => let (v, im') := im_ref (snd st) (fst kv) in
         let* cs' := copy_to (snd kv, 0) (length (snd kv)) (fst st) (v * ncol) in
         Ok (cs', im')) (repeat tzero (length centroids * ncol), im) in
  Ok (mkCR nrow ncol iters (length centroids) a cnts cs).

(* ------------------------------------------------------------------ *)
(** * result comparison *)

(** [std::equal(l.begin(), l.end(), r.begin())] as used by
    libkcommon/util.hpp:58-61 v_eq: no length check; reading past the end of
    [r] is undefined behaviour *)
Fixpoint v_eq {A} (eqb : A -> A -> bool) (l r : list A) : res bool :=
  match l with
  | [] => Ok true
  | x :: l' => match r with
               | [] => Err UB
               | y :: r' => if eqb x y then v_eq eqb l' r' else Ok false
               end
  end.

(** util.hpp:71-74 eq_all: the end pointer is [&v1\[len-1\]]; [len = 0] would
    form [&v1\[2^32-1\]] *)
Definition eq_all {A} (eqb : A -> A -> bool) (a b : list A) (len : nat) : res bool :=
  match len with
  | 0 => Err UB
  | S n => if n <=? length a then v_eq eqb (firstn n a) b else Err UB
  end.

(** types.cpp:171-176 *)
Definition cr_eq (eqb : T -> T -> bool) (a b : cresult) : res bool :=
  let* x := v_eq Nat.eqb (cr_asg a) (cr_asg b) in
  if x then
    let* y := v_eq Z.eqb (cr_counts a) (cr_counts b) in
    if y then v_eq eqb (cr_centroids a) (cr_centroids b) else Ok false
  else Ok false.

(** types.hpp:78-92 gmm_t *)
Record gresult := mkGR {
  gr_nrow : nat; gr_ncol : nat; gr_iters : nat; gr_k : nat;
  gr_means : list T; gr_covs : list (list T); gr_resp : list T; gr_prob : list T }.

(** types.cpp:200-211 *)
Fixpoint covs_eq (eqb : T -> T -> bool) (l r : list (list T)) : res bool :=
  match l with
  | [] => Ok true
  | x :: l' => match r with
               | [] => Err UB
               | y :: r' => let* b := v_eq eqb x y in
                            if b then covs_eq eqb l' r' else Ok false
               end
  end.
Definition gr_eq (eqb : T -> T -> bool) (a b : gresult) : res bool :=
  let* c := covs_eq eqb (gr_covs a) (gr_covs b) in
  if negb c then Ok false
  else if negb ((gr_nrow a =? gr_nrow b) && (gr_ncol a =? gr_ncol b) &&
                (gr_iters a =? gr_iters b) && (gr_k a =? gr_k b)) then Ok false
  else let* m := v_eq eqb (gr_means a) (gr_means b) in
       if negb m then Ok false
       else let* r := v_eq eqb (gr_resp a) (gr_resp b) in
            if negb r then Ok false else v_eq eqb (gr_prob a) (gr_prob b).
End Compact.
