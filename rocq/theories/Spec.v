(** Specification vocabulary used in the statements of the properties.  Nothing
    in this file refers to the model of knor. *)
From Coq Require Import List Arith ZArith Bool Reals.
Import ListNotations.
Set Implicit Arguments.

(* ------------------------------------------------------------------ *)
(** * Ranges *)

(** [tiles lo hi l]: the ranges [l] (start, length) are non-empty, adjacent, in
    order, start at [lo] and end at [hi]. *)
Fixpoint tiles (lo hi : Z) (l : list (Z * Z)) : Prop :=
  match l with
  | [] => lo = hi
  | (s, n) :: t => s = lo /\ (0 < n)%Z /\ tiles (lo + n)%Z hi t
  end.

(** index [r] lies in the range (start, length) *)
Definition in_range (r : Z) (sn : Z * Z) : Prop := (fst sn <= r < fst sn + snd sn)%Z.

(** every index of [lo,hi) lies in exactly one of the ranges and nothing else
    lies in any of them *)
Definition covers_once (lo hi : Z) (l : list (Z * Z)) : Prop :=
  (forall r, (lo <= r < hi)%Z ->
     exists i, (exists sn, nth_error l i = Some sn /\ in_range r sn) /\
     forall i' sn', nth_error l i' = Some sn' -> in_range r sn' -> i' = i) /\
  (forall i sn r, nth_error l i = Some sn -> in_range r sn -> (lo <= r < hi)%Z).

(* ------------------------------------------------------------------ *)
(** * Counting *)

(** number of entries of [l] equal to [c] *)
Definition count_eq (c : nat) (l : list nat) : nat :=
  length (filter (fun x => Nat.eqb x c) l).

(** number of positions at which two vectors differ *)
Fixpoint count_diff (l l' : list nat) : nat :=
  match l, l' with
  | x :: t, y :: t' => (if Nat.eqb x y then 0 else 1) + count_diff t t'
  | _, _ => 0
  end.

(* ------------------------------------------------------------------ *)
(** * Vectors over the reals *)

Local Open Scope R_scope.

Fixpoint rsum (l : list R) : R := match l with [] => 0 | x :: t => x + rsum t end.

Fixpoint map2 {A B C} (f : A -> B -> C) (l : list A) (m : list B) : list C :=
  match l, m with x :: l', y :: m' => f x y :: map2 f l' m' | _, _ => [] end.

Definition vadd (x y : list R) : list R := map2 Rplus x y.
Definition vsub (x y : list R) : list R := map2 Rminus x y.
Definition vscale (a : R) (x : list R) : list R := map (Rmult a) x.
Definition vzero (n : nat) : list R := repeat 0 n.
Definition dot (x y : list R) : R := rsum (map2 Rmult x y).

(** squared Euclidean distance, Euclidean distance, taxicab distance *)
Definition sqdist (x y : list R) : R := rsum (map2 (fun a b => (a - b) * (a - b)) x y).
Definition edist (x y : list R) : R := sqrt (sqdist x y).
Definition tdist (x y : list R) : R := rsum (map2 (fun a b => Rabs (a - b)) x y).
Definition cosdis (x y : list R) : R := 1 - dot x y / (sqrt (dot x x) * sqrt (dot y y)).

(** sum of a list of vectors of dimension [n] *)
Definition vsum (n : nat) (l : list (list R)) : list R := fold_right vadd (vzero n) l.

(** arithmetic mean of a non-empty list of vectors *)
Definition vmean (n : nat) (l : list (list R)) : list R :=
  map (fun s => s / INR (length l)) (vsum n l).
