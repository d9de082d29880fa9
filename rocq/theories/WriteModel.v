(** Model of cluster_t::write (libkcommon/types.cpp:101-168): the text of the
    result file.  Opening the file and the mkdir helper are not modelled: the
    text is what is sent to the stream.  [showd] is [operator<<] on [double]
    (default precision); unsigned and signed integers are printed in decimal. *)
From Coq Require Import String Ascii DecimalString List.
From Verif Require Import Base Num ContainersModel ClustersModel PartitionModel ParModel KmeansModel.
Set Implicit Arguments.
Local Open Scope list_scope.

Definition text := list ascii.
Definition lit (s : string) : text := list_ascii_of_string s.
Definition nl : ascii := ascii_of_nat 10.

(** [operator<<] on size_t / unsigned, and on long long *)
Definition show_nat (n : nat) : text := lit (NilZero.string_of_uint (Nat.to_uint n)).
Definition show_Z (z : Z) : text := lit (NilZero.string_of_int (Z.to_int z)).

Section Write.
Variable T : Type.
Variable showd : T -> text.

(** types.cpp:128-133, 138-143 (and 152-157 with an offset): the first element
    without a comma, the others preceded by one *)
Definition w_seq {A} (show : A -> text) (arr : list A) (off n : nat) (o : text) : res text :=
  loop n (fun i o => let* x := aget arr (off + i) in
    Ok (if i =? 0 then o ++ show x else o ++ lit "," ++ show x)) o.

(** types.cpp:101-168 *)
Definition write (r : cresult T) : res text :=
  let o := lit "k: " ++ show_nat (cr_k r) ++ [nl]
    ++ lit "niter: " ++ show_nat (cr_iters r) ++ [nl]
    ++ lit "nsamples: " ++ show_nat (cr_nrow r) ++ [nl]
    ++ lit "dim: " ++ show_nat (cr_ncol r) ++ [nl] in
  let* o := w_seq show_Z (cr_counts r) 0 (cr_k r) (o ++ lit "size: [") in
  let o := o ++ lit "]" in
  let* o := w_seq show_nat (cr_asg r) 0 (cr_nrow r) (o ++ [nl] ++ lit "cluster: [") in
  let o := o ++ lit "]" in
  let* o := loop (cr_k r) (fun row o =>
      let o := if row =? 0 then o ++ lit "[" else o ++ lit ",[" in
      let* o := w_seq showd (cr_centroids r) (row * cr_ncol r) (cr_ncol r) o in
      Ok (o ++ lit "]")) (o ++ [nl] ++ lit "centroids: [") in
  Ok (o ++ lit "]" ++ [nl]).
End Write.

(** libkcommon/types.hpp:55-76: the returned cluster_t as [write] sees it; [inv]
    is the id of an unassigned row (INVALID_CLUSTER_ID, printed as an unsigned) *)
Definition as_result {N} (inv : nat) (o : cluster_t N) : cresult (car N) :=
  mkCR (ct_nrow o) (ct_ncol o) (ct_iters o) (ct_k o) (map (fun a => match a with Some c => c | None => inv end) (ct_asg o)) (ct_counts o) (ct_centroids o).
