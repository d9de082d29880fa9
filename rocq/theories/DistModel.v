(** Model of the dissimilarity functions, libkcommon/util.hpp:76-166, and of the
    option-name parsers, libkcommon/util.cpp:95-123. *)
From Verif Require Import Base Num.
From Coq Require Import String.
Set Implicit Arguments.

(** libkcommon/types.hpp: enum class dist_t { EUCL, COS, TAXI, SQEUCL } *)
Inductive dist_t := EUCL | COS | TAXI | SQEUCL.
(** libkcommon/types.hpp: enum class init_t { RANDOM, FORGY, PLUSPLUS, NONE } *)
Inductive init_t := RANDOM | FORGY | PLUSPLUS | NONE.

Section Dist.
Variable N : Num.
Notation T := (car N).

(** util.hpp:89-100 sqeucl_dist *)
Definition sqeucl_dist (lhs rhs : ptr T) (size : nat) : res T :=
  loop size (fun col dist =>
    let* a := pget lhs col in
    let* b := pget rhs col in
    let diff := nsub N a b in
    Ok (nadd N dist (nmul N diff diff))) (nzero N).

(** util.hpp:76-87 eucl_dist *)
Definition eucl_dist (lhs rhs : ptr T) (size : nat) : res T :=
  let* dist := loop size (fun col dist =>
    let* a := pget lhs col in
    let* b := pget rhs col in
    let diff := nsub N a b in
    Ok (nadd N dist (nmul N diff diff))) (nzero N) in
  Ok (nsqrt N dist).

(** util.hpp:102-111 taxi_dist *)
Definition taxi_dist (lhs rhs : ptr T) (size : nat) : res T :=
  loop size (fun col dist =>
    let* a := pget lhs col in
    let* b := pget rhs col in
    Ok (nadd N dist (nabs N (nsub N a b)))) (nzero N).

(** util.hpp:113-128 cos_dist *)
Definition cos_dist (lhs rhs : ptr T) (size : nat) : res T :=
  let* s := loop size (fun col (s : T * T * T) =>
    let '(numr, ldenom, rdenom) := s in
    let* a := pget lhs col in
    let* b := pget rhs col in
    Ok (nadd N numr (nmul N a b), nadd N ldenom (nmul N a a), nadd N rdenom (nmul N b b)))
    (nzero N, nzero N, nzero N) in
  let '(numr, ldenom, rdenom) := s in
  Ok (nsub N (none N) (ndiv N numr (nmul N (nsqrt N ldenom) (nsqrt N rdenom)))).

(** util.hpp:151-166 dist_comp_raw.  The [default] branch of the switch
    (unknown enum value) is unreachable for a [dist_t] and is left out. *)
Definition dist_comp_raw (arg0 arg1 : ptr T) (len : nat) (dt : dist_t) : res T :=
  match dt with
  | EUCL => eucl_dist arg0 arg1 len
  | COS => cos_dist arg0 arg1 len
  | TAXI => taxi_dist arg0 arg1 len
  | SQEUCL => sqeucl_dist arg0 arg1 len
  end.

End Dist.

(** util.cpp:95-108 get_init_type *)
Definition get_init_type (init : string) : res init_t :=
  if (init =? "random")%string then Ok RANDOM
  else if (init =? "forgy")%string then Ok FORGY
  else if (init =? "kmeanspp")%string then Ok PLUSPLUS
  else if (init =? "none")%string then Ok NONE
  else Err Throw.

(** util.cpp:110-123 get_dist_type *)
Definition get_dist_type (dt : string) : res dist_t :=
  if (dt =? "eucl")%string then Ok EUCL
  else if (dt =? "cos")%string then Ok COS
  else if (dt =? "taxi")%string then Ok TAXI
  else if (dt =? "sqeucl")%string then Ok SQEUCL
  else Err Throw.
