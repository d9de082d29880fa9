(** Model of libkcommon/dense_matrix.hpp, libkcommon/linalg.hpp and
    spherical_projection (libkcommon/util.cpp:55-67). *)
From Verif Require Import Base Num.
Set Implicit Arguments.
Unset Strict Implicit.

Section M.
Variable N : Num.
Notation T := (car N).

(** dense_matrix.hpp:39-43: a row-major vector with its dimensions *)
Record dmat := mkDm { dm_mat : list T; dm_nrow : nat; dm_ncol : nat }.

(** dense_matrix.hpp:50-56: both forms zero-fill ([resize] value-initialises) *)
Definition dm_new (nrow ncol : nat) : dmat := mkDm (repeat (nzero N) (nrow * ncol)) nrow ncol.

(** dense_matrix.hpp:67-73 *)
Definition dm_copy (m : dmat) : res dmat :=
  let* d := copy_to (dm_mat m, 0) (dm_nrow m * dm_ncol m) (dm_mat (dm_new (dm_nrow m) (dm_ncol m))) 0 in
  Ok (mkDm d (dm_nrow m) (dm_ncol m)).

(** dense_matrix.hpp:80-82 *)
Definition dm_set_all (m : dmat) (d : ptr T) : res dmat :=
  let* x := copy_to d (dm_nrow m * dm_ncol m) (dm_mat m) 0 in Ok (mkDm x (dm_nrow m) (dm_ncol m)).
(** dense_matrix.hpp:84-86 *)
Definition dm_set_row (m : dmat) (d : ptr T) (rid : nat) : res dmat :=
  let* x := copy_to d (dm_ncol m) (dm_mat m) (rid * dm_ncol m) in Ok (mkDm x (dm_nrow m) (dm_ncol m)).
(** dense_matrix.hpp:89-95 *)
Definition dm_get (m : dmat) (row col : nat) : res T := aget (dm_mat m) (row * dm_ncol m + col).
Definition dm_set (m : dmat) (row col : nat) (v : T) : res dmat :=
  let* x := aset (dm_mat m) (row * dm_ncol m + col) v in Ok (mkDm x (dm_nrow m) (dm_ncol m)).
(** dense_matrix.hpp:203-205 *)
Definition dm_peq (m : dmat) (row col : nat) (v : T) : res dmat :=
  let* x := amod (dm_mat m) (row * dm_ncol m + col) (fun x => nadd N x v) in
  Ok (mkDm x (dm_nrow m) (dm_ncol m)).

(** dense_matrix.hpp:102-124; other values of [dim] leave the vector alone *)
Definition dm_mean (m : dmat) (mean0 : list T) (dim : nat) : res (list T) :=
  if dim =? 1 then
    let* s := loop (dm_nrow m) (fun row s => loop (dm_ncol m) (fun col s =>
                let* x := aget (dm_mat m) (row * dm_ncol m + col) in
                amod s col (fun a => nadd N a x)) s) (repeat (nzero N) (dm_ncol m)) in
    loop (length s) (fun i s => amod s i (fun a => ndiv N a (nofZ N (Z.of_nat (dm_nrow m))))) s
  else if dim =? 0 then
    let* s := loop (dm_nrow m) (fun row s => loop (dm_ncol m) (fun col s =>
                let* x := aget (dm_mat m) (row * dm_ncol m + col) in
                amod s row (fun a => nadd N a x)) s) (repeat (nzero N) (dm_nrow m)) in
    loop (length s) (fun i s => amod s i (fun a => ndiv N a (nofZ N (Z.of_nat (dm_ncol m))))) s
  else Ok mean0.

(** dense_matrix.hpp:126-149 *)
Definition dm_minus_vec (m : dmat) (v : list T) : res dmat :=
  let* _ := assert_ (dm_nrow m =? dm_ncol m) in
  let* r := dm_copy m in
  if length v =? dm_nrow m then
    let* x := loop (dm_nrow m) (fun row a => loop (dm_ncol m) (fun col a =>
                let* y := aget v row in
                amod a (row * dm_ncol m + col) (fun b => nsub N b y)) a) (dm_mat r) in
    Ok (mkDm x (dm_nrow m) (dm_ncol m))
  else if length v =? dm_ncol m then
    let* x := loop (dm_nrow m) (fun row a => loop (dm_ncol m) (fun col a =>
                let* y := aget v col in
                amod a (row * dm_ncol m + col) (fun b => nsub N b y)) a) (dm_mat r) in
    Ok (mkDm x (dm_nrow m) (dm_ncol m))
  else Err Throw.

(** dense_matrix.hpp:151-169 matrix product.  With OpenMP the rows of the
    result are computed in any order; [rows] is that order. *)
Definition dm_mul_row (a b : dmat) (lrow : nat) (rp : list T) : res (list T) :=
  loop (dm_nrow b) (fun rrow rp => loop (dm_ncol b) (fun rcol rp =>
    let* x := aget (dm_mat a) (lrow * dm_ncol a + rrow) in
    let* y := dm_get b rrow rcol in
    amod rp (lrow * dm_ncol b + rcol) (fun s => nadd N s (nmul N x y))) rp) rp.
Definition dm_mul (a b : dmat) (rows : list nat) : res dmat :=
  let* x := for_each rows (dm_mul_row a b) (dm_mat (dm_new (dm_nrow a) (dm_ncol b))) in
  Ok (mkDm x (dm_nrow a) (dm_ncol b)).

(** dense_matrix.hpp:171-201: element-wise minus, plus and += *)
Definition dm_zip (op : T -> T -> T) (a b : dmat) : res dmat :=
  let* _ := assert_ ((dm_nrow a =? dm_nrow b) && (dm_ncol a =? dm_ncol b)) in
  let* x := loop (dm_nrow a * dm_ncol a) (fun i r =>
              let* p := aget (dm_mat a) i in
              let* q := aget (dm_mat b) i in
              aset r i (op p q)) (dm_mat (dm_new (dm_nrow a) (dm_ncol a))) in
  Ok (mkDm x (dm_nrow a) (dm_ncol a)).
Definition dm_minus := dm_zip (nsub N).
Definition dm_plus := dm_zip (nadd N).
Definition dm_plus_eq (a b : dmat) : res dmat :=
  let* _ := assert_ ((dm_nrow a =? dm_nrow b) && (dm_ncol a =? dm_ncol b)) in
  let* x := loop (dm_nrow a * dm_ncol a) (fun i r =>
              let* q := aget (dm_mat b) i in
              amod r i (fun p => nadd N p q)) (dm_mat a) in
  Ok (mkDm x (dm_nrow a) (dm_ncol a)).

(** dense_matrix.hpp:207-212 *)
Definition dm_frobenius (m : dmat) : res T :=
  let* s := loop (dm_nrow m * dm_ncol m) (fun i s =>
              let* x := aget (dm_mat m) i in Ok (nadd N s (nmul N x x))) (nzero N) in
  Ok (nsqrt N s).

(** dense_matrix.hpp:214-216 *)
Definition dm_zero (m : dmat) : dmat :=
  mkDm (repeat (nzero N) (length (dm_mat m))) (dm_nrow m) (dm_ncol m).

(** dense_matrix.hpp:218-245; axis 0: sum of every column, axis 1: of every
    row (with OpenMP in any order [rows]).  The incoming [res] is resized, so
    its old contents do not matter when it is overwritten completely. *)
Definition dm_sum_axis (m : dmat) (axis : nat) (rows : list nat) : res (list T) :=
  if axis =? 0 then
    let* r0 := copy_to (dm_mat m, 0) (dm_ncol m) (repeat (nzero N) (dm_ncol m)) 0 in
    for_ (dm_nrow m - 1) 1 (fun row s => loop (dm_ncol m) (fun col s =>
       let* x := aget (dm_mat m) (row * dm_ncol m + col) in
       amod s col (fun a => nadd N a x)) s) r0
  else if axis =? 1 then
    for_each rows (fun row s => loop (dm_ncol m) (fun col s =>
       let* x := aget (dm_mat m) (row * dm_ncol m + col) in
       amod s row (fun a => nadd N a x)) s) (repeat (nzero N) (dm_nrow m))
  else Err Throw.

(** dense_matrix.hpp:247-252 *)
Definition dm_sum (m : dmat) : res T :=
  loop (dm_nrow m * dm_ncol m) (fun i s =>
    let* x := aget (dm_mat m) i in Ok (nadd N s x)) (nzero N).

(** dense_matrix.hpp:254-258 *)
Definition dm_div_scalar (m : dmat) (v : T) : res dmat :=
  let* x := loop (dm_nrow m * dm_ncol m) (fun i r => amod r i (fun p => ndiv N p v)) (dm_mat m) in
  Ok (mkDm x (dm_nrow m) (dm_ncol m)).

(** the row-wise and column-wise divisions used by 260-327, with the function
    [post] applied to each quotient (the identity, or [std::pow(_, exp)]) *)
Definition dm_div_by_row (m : dmat) (v : list T) (post : T -> T) : res dmat :=
  let* x := loop (dm_nrow m) (fun row a => loop (dm_ncol m) (fun col a =>
              let* y := aget v row in
              amod a (row * dm_ncol m + col) (fun b => post (ndiv N b y))) a) (dm_mat m) in
  Ok (mkDm x (dm_nrow m) (dm_ncol m)).
Definition dm_div_by_col (m : dmat) (v : list T) (post : T -> T) : res dmat :=
  let* x := loop (dm_nrow m) (fun row a => loop (dm_ncol m) (fun col a =>
              let* y := aget v col in
              amod a (row * dm_ncol m + col) (fun b => post (ndiv N b y))) a) (dm_mat m) in
  Ok (mkDm x (dm_nrow m) (dm_ncol m)).

(** dense_matrix.hpp:260-281 *)
Definition dm_div_vec (m : dmat) (v : list T) : res dmat :=
  if dm_nrow m =? dm_ncol m then Err Throw
  else if length v =? dm_nrow m then dm_div_by_row m v (fun x => x)
  else if length v =? dm_ncol m then dm_div_by_col m v (fun x => x)
  else Err Throw.

(** dense_matrix.hpp:283-299 and 301-327 ([post] is [std::pow(_, exp)]) *)
Definition dm_div_eq (m : dmat) (v : list T) (axis : nat) (post : T -> T) : res dmat :=
  if (axis =? 0) && (length v =? dm_ncol m) then dm_div_by_col m v post
  else if (axis =? 1) && (length v =? dm_nrow m) then dm_div_by_row m v post
  else Err Throw.

(** dense_matrix.hpp:330-333, [pw] is [std::pow(_, exp)] *)
Definition dm_pow_eq (m : dmat) (pw : T -> T) : res dmat :=
  let* x := loop (dm_nrow m * dm_ncol m) (fun i r => amod r i pw) (dm_mat m) in
  Ok (mkDm x (dm_nrow m) (dm_ncol m)).

(** dense_matrix.hpp:335-344; the loop returns at the first difference *)
Fixpoint dm_eq_from (fuel i : nat) (a b : list T) : res bool :=
  match fuel with
  | 0 => Ok true
  | S f => let* x := aget a i in
           let* y := aget b i in
           if negb (neqb N x y) then Ok false else dm_eq_from f (S i) a b
  end.
Definition dm_eq (a b : dmat) : res bool :=
  if negb (dm_nrow a =? dm_nrow b) || negb (dm_ncol a =? dm_ncol b) then Ok false
  else dm_eq_from (dm_ncol a * dm_nrow a) 0 (dm_mat a) (dm_mat b).

(** dense_matrix.hpp:389-393 [std::vector::resize] *)
Definition dm_resize (m : dmat) (nrow ncol : nat) : dmat :=
  mkDm (firstn (nrow * ncol) (dm_mat m) ++ repeat (nzero N) (nrow * ncol - length (dm_mat m))) nrow ncol.
(** dense_matrix.hpp:346-351 *)
Definition dm_copy_from (m o : dmat) : res dmat :=
  let m1 := dm_resize m (dm_nrow o) (dm_ncol o) in
  let* x := copy_to (dm_mat o, 0) (dm_nrow o * dm_ncol o) (dm_mat m1) 0 in
  Ok (mkDm x (dm_nrow m1) (dm_ncol m1)).

(** dense_matrix.hpp:353-387; the running maxima start at
    [std::numeric_limits<double>::min()].  State: (values, indices). *)
Definition dm_argmax (m : dmat) (axis : nat) : res (list nat) :=
  if axis =? 0 then
    let* (_, idx) := loop (dm_nrow m) (fun row st => loop (dm_ncol m) (fun col st =>
      let* v := aget (dm_mat m) (row * dm_ncol m + col) in
      let* best := aget (fst st) row in
      if nltb N best v then
        let* vs := aset (fst st) row v in
        let* ix := aset (snd st) row col in Ok (vs, ix)
      else Ok st) st) (repeat (nmin N) (dm_nrow m), repeat 0 (dm_nrow m)) in Ok idx
  else if axis =? 1 then
    let* (_, idx) := loop (dm_nrow m) (fun row st => loop (dm_ncol m) (fun col st =>
      let* v := aget (dm_mat m) (row * dm_ncol m + col) in
      let* best := aget (fst st) col in
      if nltb N best v then
        let* vs := aset (fst st) col v in
        let* ix := aset (snd st) col row in Ok (vs, ix)
      else Ok st) st) (repeat (nmin N) (dm_ncol m), repeat 0 (dm_ncol m)) in Ok idx
  else Err Throw.

(* ------------------------------------------------------------------ *)
(** * linalg *)

(** linalg.hpp:32-53 getCofactor: copies the elements of the leading [n] x [n]
    block of [A] (row stride [st]) outside row [p] and column [q] to [temp]
    (same stride).  State: (temp, i, j).  [p] and [n] are passed as [double];
    the comparisons are exact for these sizes. *)
Definition get_cofactor (A : list T) (temp : list T) (p q n st : nat) : res (list T) :=
  let* (t, _, _) :=
    loop n (fun row s => loop n (fun col s =>
      let '(t, i, j) := s in
      if negb (row =? p) && negb (col =? q) then
        let* x := aget A (row * st + col) in
        let* t := aset t (i * st + j) x in
        if j + 1 =? n - 1 then Ok (t, i + 1, 0) else Ok (t, i, j + 1)
      else Ok s) s) (temp, 0, 0) in
  Ok t.

(** linalg.hpp:64-86 determinant by expansion along the first row; [fuel] bounds
    the recursion, which ends at [n = 1] ([n = 0] gives 0) *)
Fixpoint determinant (fuel : nat) (A : list T) (n st : nat) : res T :=
  match fuel with
  | 0 => Err Fuel
  | S f =>
    if n =? 1 then aget A 0
    else
      let* (d, _, _) :=
        loop n (fun c s =>
          let '(d, sign, temp) := s in
          let* temp := get_cofactor A temp 0 c n st in
          let* a := aget A c in
          let* sub := determinant f temp (n - 1) st in
          Ok (nadd N d (nmul N (nmul N sign a) sub), nsub N (nzero N) sign, temp))
          (nzero N, none N, repeat (nzero N) (st * st)) in
      Ok d
  end.

(** linalg.hpp:97-119 adjoint.  [sign] is never changed. *)
Definition adjoint (A adj : list T) (n : nat) : res (list T) :=
  if n =? 1 then aset adj 0 (none N)
  else
    let sign := none N in
    let* (adj, _) :=
      loop n (fun i s => loop n (fun j s =>
        let* temp := get_cofactor A (snd s) i j n n in
        let* d := determinant n temp (n - 1) n in
        let* adj := aset (fst s) (j * n + i) (nmul N sign d) in
        Ok (adj, temp)) s) (adj, repeat (nzero N) (n * n)) in
    Ok adj.

(** linalg.hpp:123-141; [None]: reported singular *)
Definition inverse (A inv : list T) (n : nat) : res (option (list T)) :=
  let* det := determinant n A n n in
  if neqb N det (nzero N) then Ok None
  else
    let* adj := adjoint A (repeat (nzero N) (n * n)) n in
    let* r := loop n (fun i r => loop n (fun j r =>
                let* x := aget adj (i * n + j) in
                aset r (i * n + j) (ndiv N x det)) r) inv in
    Ok (Some r).

(** linalg.hpp:143-149; an empty result vector is resized *)
Definition vdiff (l r : ptr T) (size : nat) (res0 : list T) : res (list T) :=
  let r0 := if length res0 =? 0 then repeat (nzero N) size else res0 in
  loop size (fun i o => let* x := pget l i in let* y := pget r i in
                        aset o i (nsub N x y)) r0.

(** linalg.hpp:152-158 *)
Definition frobenius_norm (v : ptr T) (size : nat) : res T :=
  let* s := loop size (fun i s => let* x := pget v i in Ok (nadd N s (nmul N x x))) (nzero N) in
  Ok (nsqrt N s).

(** linalg.hpp:161-169 vector-matrix product *)
Definition dot_vm (v mat : ptr T) (nrow ncol : nat) : res (list T) :=
  loop nrow (fun row s => loop ncol (fun col s =>
    let* x := pget v row in
    let* y := pget mat (row * ncol + col) in
    amod s col (fun a => nadd N a (nmul N x y))) s) (repeat (nzero N) ncol).

(** linalg.hpp:176-182 *)
Definition dot_vv (v1 v2 : ptr T) (sz : nat) : res T :=
  loop sz (fun i s => let* x := pget v1 i in let* y := pget v2 i in
                      Ok (nadd N s (nmul N x y))) (nzero N).
(** linalg.hpp:184-188 *)
Definition dot_vec (v1 v2 : list T) : res T :=
  let* _ := assert_ (length v1 =? length v2) in dot_vv (v1, 0) (v2, 0) (length v1).

(** linalg.hpp:196-214 scale.  [std::accumulate(v, v+sz, 0)] accumulates in an
    [int]: after every addition the double is converted back by [trunc]
    (undefined outside the range of [int]). *)
Definition int_ok (z : Z) : bool := ((- 2 ^ 31 <=? z) && (z <? 2 ^ 31))%Z.
Definition accumulate_int (trunc : T -> Z) (v : list T) : res Z :=
  for_each v (fun x acc =>
    let z := trunc (nadd N (nofZ N acc) x) in
    if int_ok z then Ok z else Err UB) 0%Z.
Definition scale (trunc : T -> Z) (v : list T) : res (list T) :=
  let* isum := accumulate_int trunc v in
  let mean := ndiv N (nofZ N isum) (nofZ N (Z.of_nat (length v))) in
  let* ss := loop (length v) (fun i s => let* x := aget v i in
               let tmp := nsub N x mean in Ok (nadd N s (nmul N tmp tmp))) (nzero N) in
  let sd := nsqrt N (ndiv N ss (nofZ N (Z.of_nat (length v)))) in
  let* _ := assert_ (negb (neqb N sd (nzero N))) in
  loop (length v) (fun i v => amod v i (fun x => ndiv N (nsub N x mean) sd)) v.

(** libkcommon/util.cpp:55-67 (serial row order) *)
Definition spherical_projection (data : list T) (nrow ncol : nat) : res (list T) :=
  loop nrow (fun row d =>
    let* norm2 := loop ncol (fun _ s => let* x := aget d row in
                    Ok (nadd N s (nmul N x x))) (nzero N) in
    loop ncol (fun col d => amod d col (fun x => ndiv N x (nsqrt N norm2))) d) data.
End M.
