(** Model of the cluster containers: libkcommon/clusters.hpp, clusters.cpp.
    Simplification: the products [idx*ncol], [ncol*nclust] are 32-bit unsigned
    in C++ (clusters.hpp:41-42); the model uses unbounded naturals, which agrees
    with the code as long as nclust*ncol < 2^32.  Vector sizes, element access
    and member counts (signed 64-bit, unbounded here) are modelled explicitly;
    any access outside a vector is [Err UB]. *)
From Verif Require Import Base Num DistModel.
Set Implicit Arguments.

Section Clusters.
Variable N : Num.
Notation T := (car N).

(** clusters.hpp:38-48 class clusters (data members) *)
Record clusters := mkClusters {
  c_ncol : nat;
  c_nclust : nat;
  c_members : list Z;       (* num_members_v *)
  c_complete : list bool;   (* complete_v *)
  c_means : list T          (* means, row-major nclust x ncol *)
}.

Definition with_means (c : clusters) (m : list T) : clusters :=
  mkClusters (c_ncol c) (c_nclust c) (c_members c) (c_complete c) m.
Definition with_members (c : clusters) (v : list Z) : clusters :=
  mkClusters (c_ncol c) (c_nclust c) v (c_complete c) (c_means c).
Definition with_complete (c : clusters) (v : list bool) : clusters :=
  mkClusters (c_ncol c) (c_nclust c) (c_members c) v (c_means c).

(** clusters.cpp:158-165 clusters(nclust, ncol): value-initialised vectors *)
Definition clusters_create (nclust ncol : nat) : clusters :=
  mkClusters ncol nclust (repeat 0%Z nclust) (repeat false nclust)
             (repeat (nzero N) (ncol * nclust)).

(** clusters.cpp:28-32 clear *)
Definition clear (c : clusters) : clusters :=
  mkClusters (c_ncol c) (c_nclust c)
    (map (fun _ => 0%Z) (c_members c)) (map (fun _ => false) (c_complete c))
    (map (fun _ => nzero N) (c_means c)).

(** clusters.cpp:45-49 set_mean(const double* mean, -1): resize if needed, copy all *)
Definition resize_to (n : nat) (d : T) (l : list T) : list T :=
  if n <=? length l then firstn n l else l ++ repeat d (n - length l).
Definition set_mean_all (c : clusters) (mean : ptr T) : res clusters :=
  let n := c_ncol c * c_nclust c in
  let m := if length (c_means c) =? n then c_means c else resize_to n (nzero N) (c_means c) in
  let* m' := copy_to mean n m 0 in
  Ok (with_means c m').

(** clusters.cpp:50-52 set_mean(const double* mean, idx) *)
Definition set_mean_at (c : clusters) (mean : ptr T) (idx : nat) : res clusters :=
  let* m' := copy_to mean (c_ncol c) (c_means c) (idx * c_ncol c) in
  Ok (with_means c m').

(** clusters.cpp:36-43 set_mean(const kmsvector& mean, idx); [None] is idx = -1 *)
Definition set_mean_vec (c : clusters) (mean : list T) (idx : option nat) : res clusters :=
  match idx with
  | None => Ok (with_means c mean)
  | Some i =>
    let* m' := copy_to (mean, 0) (length mean) (c_means c) (i * c_ncol c) in
    Ok (with_means c m')
  end.

(** clusters.hpp:187-195 set_mean(T& it, idx): [nid] is never incremented *)
Definition set_mean_iter (c : clusters) (it : list T) (idx : nat) : res clusters :=
  let offset := idx * c_ncol c in
  let nid := 0 in
  let* m' := for_each it (fun e m => aset m (offset + nid) e) (c_means c) in
  Ok (with_means c m').

(** clusters.cpp:167-175 clusters(nclust, ncol, means): starts complete *)
Definition clusters_create_means (nclust ncol : nat) (means : ptr T) : res clusters :=
  let c := mkClusters ncol nclust [] [] [] in
  let* c := set_mean_all c means in
  Ok (mkClusters ncol nclust (repeat 0%Z nclust) (repeat true nclust) (c_means c)).

(** clusters.cpp:55-66 finalize *)
Definition finalize (c : clusters) (idx : nat) : res clusters :=
  let* done := aget (c_complete c) idx in
  if done then Ok c else
  let* n := aget (c_members c) idx in
  let* m := (if (1 <? n)%Z
    then loop (c_ncol c) (fun i m =>
           amod m (idx * c_ncol c + i) (fun x => ndiv N x (nofZ N n))) (c_means c)
    else Ok (c_means c)) in
  let* cv := aset (c_complete c) idx true in
  Ok (with_complete (with_means c m) cv).

(** clusters.cpp:68-79 unfinalize *)
Definition unfinalize (c : clusters) (idx : nat) : res clusters :=
  let* done := aget (c_complete c) idx in
  if negb done then Ok c else
  let* cv := aset (c_complete c) idx false in
  let c1 := with_complete c cv in
  let* n := aget (c_members c1) idx in
  if (n <? 2)%Z then Ok c1 else
  let* m := loop (c_ncol c) (fun col m =>
           amod m (c_ncol c * idx + col) (fun x => nmul N x (nofZ N n))) (c_means c1) in
  Ok (with_means c1 m).

(** clusters.cpp:81-84, 86-89 *)
Definition finalize_all (c : clusters) : res clusters :=
  loop (c_nclust c) (fun i c' => finalize c' i) c.
Definition unfinalize_all (c : clusters) : res clusters :=
  loop (c_nclust c) (fun i c' => unfinalize c' i) c.

(** clusters.hpp:87-90 set_complete_all *)
Definition set_complete_all (c : clusters) (b : bool) : res clusters :=
  let* cv := loop (c_nclust c) (fun i v => aset v i b) (c_complete c) in
  Ok (with_complete c cv).

(** clusters.cpp:91-93 set_num_members_v *)
Definition set_num_members_v (c : clusters) (arg : ptr Z) : res clusters :=
  let* v := copy_to arg (c_nclust c) (c_members c) 0 in
  Ok (with_members c v).

(** clusters.cpp:95-101 operator= : [complete_v] is not copied *)
Definition assign_op (c other : clusters) : clusters :=
  mkClusters (c_ncol other) (c_nclust other) (c_members other) (c_complete c) (c_means other).

(** clusters.hpp:122-128 add_member(const double*, idx) *)
Definition add_member (c : clusters) (arr : ptr T) (idx : nat) : res clusters :=
  let offset := idx * c_ncol c in
  let* m := loop (c_ncol c) (fun i m =>
      let* a := pget arr i in amod m (offset + i) (fun x => nadd N x a)) (c_means c) in
  let* v := amod (c_members c) idx (fun n => n + 1)%Z in
  Ok (with_members (with_means c m) v).

(** clusters.hpp:150-157 remove_member(const T*, idx) *)
Definition remove_member (c : clusters) (arr : ptr T) (idx : nat) : res clusters :=
  let offset := idx * c_ncol c in
  let* m := loop (c_ncol c) (fun i m =>
      let* a := pget arr i in amod m (offset + i) (fun x => nsub N x a)) (c_means c) in
  let* v := amod (c_members c) idx (fun n => n - 1)%Z in
  Ok (with_members (with_means c m) v).

(** clusters.hpp:159-164 swap_membership(const T*, from, to) *)
Definition swap_membership (c : clusters) (arr : ptr T) (from_idx to_idx : nat) : res clusters :=
  let* c1 := remove_member c arr from_idx in
  add_member c1 arr to_idx.

(** clusters.hpp:105-107 num_members_peq *)
Definition num_members_peq (c : clusters) (val : Z) (idx : nat) : res clusters :=
  let* v := amod (c_members c) idx (fun n => n + val)%Z in
  Ok (with_members c v).

(** clusters.cpp:120-127 peq *)
Definition peq (c rhs : clusters) : res clusters :=
  let* _ := assert_ (length (c_means rhs) =? length (c_means c)) in
  let* m := loop (length (c_means c)) (fun i m =>
      let* x := aget (c_means rhs) i in amod m i (fun y => nadd N y x)) (c_means c) in
  loop (c_nclust c) (fun idx c' =>
      let* n := aget (c_members rhs) idx in num_members_peq c' n idx) (with_means c m).

(** clusters.cpp:111-118 operator+= (same loop without the size assertion) *)
Definition plus_eq (c rhs : clusters) : res clusters :=
  let* m := loop (length (c_means c)) (fun i m =>
      let* x := aget (c_means rhs) i in amod m i (fun y => nadd N y x)) (c_means c) in
  loop (c_nclust c) (fun idx c' =>
      let* n := aget (c_members rhs) idx in num_members_peq c' n idx) (with_means c m).

(** clusters.cpp:129-132 means_peq *)
Definition means_peq (c : clusters) (other : ptr T) : res clusters :=
  let* m := loop (length (c_means c)) (fun i m =>
      let* x := pget other i in amod m i (fun y => nadd N y x)) (c_means c) in
  Ok (with_means c m).

(** clusters.cpp:134-137 num_members_v_peq.  The argument is a [size_t] array
    holding possibly negative deltas as two's complement; adding it to a signed
    64-bit value adds the delta, hence [Z] addition. *)
Definition num_members_v_peq (c : clusters) (other : ptr Z) : res clusters :=
  let* v := loop (length (c_members c)) (fun i v =>
      let* x := pget other i in amod v i (fun n => n + x)%Z) (c_members c) in
  Ok (with_members c v).

(** clusters.cpp:192-199 scale_centroid *)
Definition scale_centroid (c : clusters) (factor : T) (idx : nat) (member : ptr T) : res clusters :=
  let* _ := assert_ (idx <? c_nclust c) in
  let* m := loop (c_ncol c) (fun col m =>
      let* x := aget m (idx * c_ncol c + col) in
      let* y := pget member col in
      aset m (c_ncol c * idx + col)
        (nadd N (nmul N (nsub N (none N) factor) x) (nmul N factor y))) (c_means c) in
  Ok (with_means c m).

(** util.hpp:58-61 v_eq: std::equal over the first range only; reading past
    the end of the second vector is undefined *)
Fixpoint v_eq {A} (eqb : A -> A -> bool) (lhs rhs : list A) : res bool :=
  match lhs, rhs with
  | [], _ => Ok true
  | _ :: _, [] => Err UB
  | x :: l, y :: r => if eqb x y then v_eq eqb l r else Ok false
  end.

(** clusters.cpp:103-109 operator== *)
Definition clusters_eq (a b : clusters) : res bool :=
  if negb (c_ncol a =? c_ncol b) then Ok false
  else if negb (c_nclust a =? c_nclust b) then Ok false
  else let* e := v_eq Z.eqb (c_members a) (c_members b) in
       if negb e then Ok false
       else v_eq (neqb N) (c_means a) (c_means b).

(* ------------------------------------------------------------------ *)
(** ** sparse_clusters *)

(** clusters.cpp:224-246 sparse_clusters::resize *)
Definition sparse_resize (c : clusters) (idx : nat) : res clusters :=
  let* _ := assert_ (c_nclust c =? length (c_members c)) in
  let* _ := assert_ (length (c_members c) =? length (c_complete c)) in
  let* _ := assert_ (length (c_means c) =? c_nclust c * c_ncol c) in
  (* (idx+1) - nclust etc. are size_t: callers only resize upwards *)
  if idx + 1 <? c_nclust c then Err UB else
  Ok (mkClusters (c_ncol c) (idx + 1)
        (c_members c ++ repeat 0%Z (idx + 1 - c_nclust c))
        (c_complete c ++ repeat false (idx + 1 - c_nclust c))
        (c_means c ++ repeat (nzero N) ((idx + 1) * c_ncol c - length (c_means c)))).

(** clusters.hpp:414-419 sparse_clusters::add_member *)
Definition sparse_add_member (c : clusters) (arr : ptr T) (idx : nat) : res clusters :=
  let* c' := (if c_nclust c <=? idx then sparse_resize c idx else Ok c) in
  add_member c' arr idx.

(** clusters.hpp:387-391 sparse_clusters::num_members_peq *)
Definition sparse_num_members_peq (c : clusters) (val : Z) (idx : nat) : res clusters :=
  if c_nclust c <=? idx then Err Throw else num_members_peq c val idx.

(** clusters.cpp:260-269 sparse_clusters::peq: [resize(rhs->size())], where
    size() is the number of doubles, not of clusters *)
Definition sparse_peq (c rhs : clusters) : res clusters :=
  let* c1 := (if length (c_means c) <? length (c_means rhs)
              then sparse_resize c (length (c_means rhs)) else Ok c) in
  let* m := loop (length (c_means rhs)) (fun i m =>
      let* x := aget (c_means rhs) i in amod m i (fun y => nadd N y x)) (c_means c1) in
  loop (c_nclust rhs) (fun idx c' =>
      let* n := aget (c_members rhs) idx in sparse_num_members_peq c' n idx) (with_means c1 m).

(* ------------------------------------------------------------------ *)
(** ** prune_clusters *)

(** clusters.hpp:243-258 class prune_clusters *)
Record prune_clusters := mkPrune {
  p_cl : clusters;
  p_s_val : list T;        (* s_val_v *)
  p_prev_means : list T;
  p_prev_dist : list T     (* prev_dist_v *)
}.

(** clusters.hpp:249-263 prune_clusters(nclust, ncol) and init(): the previous
    means and previous distances start at zero *)
Definition prune_create (nclust ncol : nat) : prune_clusters :=
  mkPrune (clusters_create nclust ncol) (repeat (nmax N) nclust)
          (repeat (nzero N) (ncol * nclust)) (repeat (nzero N) nclust).

Definition with_cl (p : prune_clusters) (c : clusters) : prune_clusters :=
  mkPrune c (p_s_val p) (p_prev_means p) (p_prev_dist p).

(** clusters.hpp:291-293 set_prev_means *)
Definition set_prev_means (p : prune_clusters) : prune_clusters :=
  mkPrune (p_cl p) (p_s_val p) (c_means (p_cl p)) (p_prev_dist p).

(** clusters.hpp:295-297 set_prev_dist *)
Definition set_prev_dist (p : prune_clusters) (dist : T) (idx : nat) : res prune_clusters :=
  let* v := aset (p_prev_dist p) idx dist in
  Ok (mkPrune (p_cl p) (p_s_val p) (p_prev_means p) v).

(** clusters.hpp:280-282 set_s_val *)
Definition set_s_val (p : prune_clusters) (val : T) (idx : nat) : res prune_clusters :=
  let* v := aset (p_s_val p) idx val in
  Ok (mkPrune (p_cl p) v (p_prev_means p) (p_prev_dist p)).

(** clusters.cpp:202-205 reset_s_val_v *)
Definition reset_s_val_v (p : prune_clusters) : prune_clusters :=
  mkPrune (p_cl p) (map (fun _ => nmax N) (p_s_val p)) (p_prev_means p) (p_prev_dist p).

End Clusters.
