(** The modelling language: a result monad with undefined behaviour, failed
    assertions and exceptions as distinct outcomes, checked arrays, pointers
    into arrays, and C-style [for] loops.  Nothing here models knor itself. *)
From Coq Require Export List Arith ZArith Bool Lia.
From Coq Require Import ZifyBool.
Export ListNotations.
Set Implicit Arguments.

(** Abnormal outcomes.  [UB]: out-of-bounds access or other undefined
    behaviour; [Abort]: a failed [assert]; [Throw]: a C++ exception;
    [Fuel]: the model's own loop bound ran out (excluded by statements). *)
Inductive err := UB | Abort | Throw | Fuel.

Inductive res (A : Type) := Ok (a : A) | Err (e : err).
Arguments Ok {A} a.
Arguments Err {A} e.

Definition bind {A B} (r : res A) (f : A -> res B) : res B :=
  match r with Ok a => f a | Err e => Err e end.

Declare Scope res_scope.
Delimit Scope res_scope with res.
Notation "'let*' x := e 'in' f" := (bind e (fun x => f))
  (at level 200, x pattern, e at level 100, f at level 200, right associativity) : res_scope.
Open Scope res_scope.

(** [assert(b)] *)
Definition assert_ (b : bool) : res unit := if b then Ok tt else Err Abort.

(** [v\[i\]] on an array or vector: out of bounds is undefined behaviour. *)
Definition aget {A} (l : list A) (i : nat) : res A :=
  match nth_error l i with Some x => Ok x | None => Err UB end.

Fixpoint upd {A} (l : list A) (i : nat) (v : A) : list A :=
  match l, i with
  | [], _ => []
  | _ :: t, 0 => v :: t
  | h :: t, S i' => h :: upd t i' v
  end.

(** [v\[i\] = x] *)
Definition aset {A} (l : list A) (i : nat) (v : A) : res (list A) :=
  if i <? length l then Ok (upd l i v) else Err UB.

(** [v\[i\] = f(v\[i\])] (compound assignment, [++], ...) *)
Definition amod {A} (l : list A) (i : nat) (f : A -> A) : res (list A) :=
  let* x := aget l i in aset l i (f x).

(** A pointer into an array: base array and offset; [pget p i] is [p\[i\]]. *)
Definition ptr (A : Type) := (list A * nat)%type.
Definition pget {A} (p : ptr A) (i : nat) : res A := aget (fst p) (snd p + i).

(** [for (i = lo; i < lo+n; i++) body] *)
Fixpoint for_ {St} (n i : nat) (body : nat -> St -> res St) (s : St) : res St :=
  match n with
  | 0 => Ok s
  | S n' => let* s' := body i s in for_ n' (S i) body s'
  end.

(** [for (i = 0; i < n; i++) body] *)
Definition loop {St} (n : nat) (body : nat -> St -> res St) (s : St) : res St :=
  for_ n 0 body s.

(** iterate over a list of values (range-for) *)
Fixpoint for_each {A St} (l : list A) (body : A -> St -> res St) (s : St) : res St :=
  match l with
  | [] => Ok s
  | x :: t => let* s' := body x s in for_each t body s'
  end.

(** [std::copy(p, p+n, dst.begin()+off)] *)
Definition copy_to {A} (src : ptr A) (n : nat) (dst : list A) (off : nat) : res (list A) :=
  loop n (fun i d => let* x := pget src i in aset d (off + i) x) dst.

(** The [len] values starting at [off]. *)
Definition slice {A} (l : list A) (off len : nat) : list A := firstn len (skipn off l).

(** Row [i] of a row-major matrix with [ncol] columns. *)
Definition row {A} (l : list A) (ncol i : nat) : list A := slice l (i * ncol) ncol.

(** 32-bit and 64-bit unsigned wrap-around. *)
Definition w32 (z : Z) : Z := Z.modulo z (2 ^ 32).
Definition w64 (z : Z) : Z := Z.modulo z (2 ^ 64).

(* ------------------------------------------------------------------ *)
(** * Reasoning principles *)

(** total correctness of a result *)
Definition okp {A} (r : res A) (Q : A -> Prop) : Prop :=
  match r with Ok a => Q a | Err _ => False end.
(** partial correctness of a result *)
Definition rp {A} (r : res A) (Q : A -> Prop) : Prop :=
  match r with Ok a => Q a | Err _ => True end.

Lemma okp_iff {A} (r : res A) Q : okp r Q <-> exists a, r = Ok a /\ Q a.
Proof.
  destruct r; simpl; split; intros H.
  - eauto.
  - destruct H as (x & H & HQ); injection H as ->; exact HQ.
  - contradiction.
  - destruct H as (x & H & _); discriminate.
Qed.

Lemma rp_iff {A} (r : res A) Q : rp r Q <-> forall a, r = Ok a -> Q a.
Proof.
  destruct r; simpl; split; intros H; try congruence; auto.
Qed.

Lemma okp_bind {A B} (r : res A) (f : A -> res B) Q :
  okp r (fun a => okp (f a) Q) -> okp (bind r f) Q.
Proof. destruct r; simpl; auto. Qed.

Lemma rp_bind {A B} (r : res A) (f : A -> res B) Q :
  rp r (fun a => rp (f a) Q) -> rp (bind r f) Q.
Proof. destruct r; simpl; auto. Qed.

Lemma bind_ok {A B} (r : res A) (f : A -> res B) b :
  bind r f = Ok b -> exists a, r = Ok a /\ f a = Ok b.
Proof. destruct r; simpl; intros H; [eauto|discriminate]. Qed.

Lemma okp_mono {A} (r : res A) (Q Q' : A -> Prop) :
  okp r Q -> (forall a, Q a -> Q' a) -> okp r Q'.
Proof. destruct r; simpl; auto. Qed.

Lemma rp_mono {A} (r : res A) (Q Q' : A -> Prop) :
  rp r Q -> (forall a, Q a -> Q' a) -> rp r Q'.
Proof. destruct r; simpl; auto. Qed.

Lemma okp_rp {A} (r : res A) Q : okp r Q -> rp r Q.
Proof. destruct r; simpl; tauto. Qed.

Lemma for_okp {St} (P : nat -> St -> Prop) body :
  forall n i s, P i s ->
  (forall j s', i <= j < i + n -> P j s' -> okp (body j s') (P (S j))) ->
  okp (for_ n i body s) (P (i + n)).
Proof.
  induction n as [|n IH]; intros i s HP Hb; cbn [for_].
  - rewrite Nat.add_0_r. exact HP.
  - apply okp_bind. eapply okp_mono; [apply Hb; [lia|exact HP]|].
    intros s' HP'. replace (i + S n) with (S i + n) by lia.
    apply IH; [exact HP'|]. intros j s'' Hj. apply Hb; lia.
Qed.

Lemma loop_okp {St} (P : nat -> St -> Prop) n body s :
  P 0 s -> (forall j s', j < n -> P j s' -> okp (body j s') (P (S j))) ->
  okp (loop n body s) (P n).
Proof.
  intros HP Hb. apply (@for_okp St P body n 0 s); [exact HP|].
  intros j s' Hj; apply Hb; lia.
Qed.

Lemma for_rp {St} (P : nat -> St -> Prop) body :
  forall n i s, P i s ->
  (forall j s', i <= j < i + n -> P j s' -> rp (body j s') (P (S j))) ->
  rp (for_ n i body s) (P (i + n)).
Proof.
  induction n as [|n IH]; intros i s HP Hb; cbn [for_].
  - rewrite Nat.add_0_r. exact HP.
  - apply rp_bind. eapply rp_mono; [apply Hb; [lia|exact HP]|].
    intros s' HP'. replace (i + S n) with (S i + n) by lia.
    apply IH; [exact HP'|]. intros j s'' Hj. apply Hb; lia.
Qed.

Lemma loop_rp {St} (P : nat -> St -> Prop) n body s :
  P 0 s -> (forall j s', j < n -> P j s' -> rp (body j s') (P (S j))) ->
  rp (loop n body s) (P n).
Proof.
  intros HP Hb. apply (@for_rp St P body n 0 s); [exact HP|].
  intros j s' Hj; apply Hb; lia.
Qed.

Lemma for_ext {St} (f g : nat -> St -> res St) :
  forall n i s, (forall j s', i <= j < i + n -> f j s' = g j s') ->
  for_ n i f s = for_ n i g s.
Proof.
  induction n as [|n IH]; intros i s H; cbn [for_]; [reflexivity|].
  rewrite H by lia. destruct (g i s); cbn [bind]; [|reflexivity].
  apply IH. intros j s' Hj. apply H; lia.
Qed.

(** a loop whose body is a pure update is a fold *)
Lemma for_pure {St} (f : nat -> St -> St) :
  forall n i s, for_ n i (fun j s' => Ok (f j s')) s
                = Ok (fold_left (fun s' j => f j s') (seq i n) s).
Proof.
  induction n as [|n IH]; intros i s; cbn [for_ seq fold_left bind]; [reflexivity|].
  apply IH.
Qed.

Lemma for_app {St} (body : nat -> St -> res St) :
  forall n m i s, for_ (n + m) i body s = bind (for_ n i body s) (for_ m (i + n) body).
Proof.
  induction n as [|n IH]; intros m i s; cbn [for_ Nat.add bind].
  - rewrite Nat.add_0_r. reflexivity.
  - destruct (body i s) as [s'|e]; cbn [bind]; [|reflexivity].
    rewrite IH. replace (S i + n) with (i + S n) by lia. reflexivity.
Qed.

Lemma for_each_okp {A St} (P : list A -> St -> Prop) (body : A -> St -> res St) :
  forall l s, P l s ->
  (forall x t s', P (x :: t) s' -> okp (body x s') (P t)) ->
  okp (for_each l body s) (P []).
Proof.
  induction l as [|x t IH]; intros s HP Hb; cbn [for_each]; [exact HP|].
  apply okp_bind. eapply okp_mono; [apply Hb; exact HP|].
  intros s' HP'. apply IH; auto.
Qed.

Lemma for_each_rp {A St} (P : list A -> St -> Prop) (body : A -> St -> res St) :
  forall l s, P l s ->
  (forall x t s', P (x :: t) s' -> rp (body x s') (P t)) ->
  rp (for_each l body s) (P []).
Proof.
  induction l as [|x t IH]; intros s HP Hb; cbn [for_each]; [exact HP|].
  apply rp_bind. eapply rp_mono; [apply Hb; exact HP|].
  intros s' HP'. apply IH; auto.
Qed.

(* ------------------------------------------------------------------ *)
(** * Arrays *)

Lemma upd_length {A} (l : list A) i v : length (upd l i v) = length l.
Proof. revert i; induction l as [|h t IH]; intros [|i]; simpl; auto. Qed.

Lemma nth_error_upd {A} (l : list A) i v j :
  nth_error (upd l i v) j =
  if j =? i then (if i <? length l then Some v else None) else nth_error l j.
Proof.
  revert i j; induction l as [|h t IH]; intros [|i] [|j]; cbn [upd nth_error length Nat.eqb]; auto.
  - destruct (Nat.eqb_spec j i) as [->|]; auto.
  - rewrite IH. destruct (Nat.eqb_spec j i); auto.
Qed.

Lemma nth_upd {A} (l : list A) i v j d :
  i < length l -> nth j (upd l i v) d = if j =? i then v else nth j l d.
Proof.
  revert i j; induction l as [|h t IH]; intros [|i] [|j] H; cbn [upd nth length Nat.eqb] in *; auto; try lia.
  apply IH; lia.
Qed.

Lemma upd_same {A} (l : list A) i v : nth_error l i = Some v -> upd l i v = l.
Proof.
  revert i; induction l as [|h t IH]; intros [|i] H; simpl in *; try congruence.
  f_equal; auto.
Qed.

Lemma upd_comm {A} (l : list A) i j x y :
  i <> j -> upd (upd l i x) j y = upd (upd l j y) i x.
Proof.
  revert i j; induction l as [|h t IH]; intros [|i] [|j] H; simpl; auto; try lia.
  f_equal. apply IH. lia.
Qed.

Lemma upd_app_l {A} (l1 l2 : list A) i v :
  i < length l1 -> upd (l1 ++ l2) i v = upd l1 i v ++ l2.
Proof.
  revert i; induction l1 as [|h t IH]; intros [|i] H; simpl in *; auto; try lia.
  f_equal. apply IH. lia.
Qed.

Lemma nth_error_ext {A} (l l' : list A) :
  (forall i, nth_error l i = nth_error l' i) -> l = l'.
Proof.
  revert l'; induction l as [|h t IH]; intros [|h' t'] H.
  - reflexivity.
  - specialize (H 0); discriminate.
  - specialize (H 0); discriminate.
  - pose proof (H 0) as H0; simpl in H0; injection H0 as ->. f_equal.
    apply IH; intros i; exact (H (S i)).
Qed.

Lemma aget_ok {A} (l : list A) i x : aget l i = Ok x <-> nth_error l i = Some x.
Proof. unfold aget; destruct (nth_error l i); split; intros; congruence. Qed.

Lemma aget_lt {A} (l : list A) i : i < length l -> exists x, aget l i = Ok x /\ nth_error l i = Some x.
Proof.
  intros H. destruct (nth_error l i) as [x|] eqn:E.
  - exists x; unfold aget; rewrite E; auto.
  - apply nth_error_None in E; lia.
Qed.

Lemma aget_nth {A} (l : list A) i d : i < length l -> aget l i = Ok (nth i l d).
Proof.
  intros H. unfold aget. rewrite (nth_error_nth' l d H). reflexivity.
Qed.

Lemma aget_err {A} (l : list A) i : length l <= i -> aget l i = Err UB.
Proof. intros H. unfold aget. apply nth_error_None in H. rewrite H. reflexivity. Qed.

Lemma aset_ok {A} (l : list A) i v : i < length l -> aset l i v = Ok (upd l i v).
Proof. intros H. unfold aset. apply Nat.ltb_lt in H. rewrite H. reflexivity. Qed.

Lemma aset_inv {A} (l : list A) i v l' : aset l i v = Ok l' -> i < length l /\ l' = upd l i v.
Proof.
  unfold aset. destruct (Nat.ltb_spec i (length l)); intros E; [|discriminate].
  injection E as <-; auto.
Qed.

Lemma amod_ok {A} (l : list A) i f x :
  nth_error l i = Some x -> amod l i f = Ok (upd l i (f x)).
Proof.
  intros H. unfold amod, aget. rewrite H. simpl. apply aset_ok.
  apply nth_error_Some. congruence.
Qed.

Lemma amod_nth {A} (l : list A) i f d :
  i < length l -> amod l i f = Ok (upd l i (f (nth i l d))).
Proof. intros H. apply amod_ok. apply nth_error_nth'. exact H. Qed.

Lemma amod_inv {A} (l : list A) i f l' :
  amod l i f = Ok l' -> exists x, nth_error l i = Some x /\ l' = upd l i (f x).
Proof.
  unfold amod. intros H. apply bind_ok in H as (x & Hx & H).
  apply aget_ok in Hx. apply aset_inv in H as (_ & ->). eauto.
Qed.

Lemma nth_error_firstn {A} (l : list A) n i :
  nth_error (firstn n l) i = if i <? n then nth_error l i else None.
Proof.
  revert n i; induction l as [|h t IH]; intros [|n] [|i]; simpl; auto.
  - destruct (_ <? _); reflexivity.
  - rewrite IH. reflexivity.
Qed.

Lemma nth_error_skipn {A} (l : list A) n i : nth_error (skipn n l) i = nth_error l (n + i).
Proof.
  revert n i; induction l as [|h t IH]; intros [|n] i; simpl; auto.
  destruct i; reflexivity.
Qed.

Lemma nth_error_slice {A} (l : list A) off len i :
  nth_error (slice l off len) i = if i <? len then nth_error l (off + i) else None.
Proof. unfold slice. rewrite nth_error_firstn, nth_error_skipn. reflexivity. Qed.

Lemma slice_length {A} (l : list A) off len :
  off + len <= length l -> length (slice l off len) = len.
Proof. intros H. unfold slice. rewrite firstn_length, skipn_length. lia. Qed.

Lemma row_length {A} (l : list A) ncol i n :
  length l = n * ncol -> i < n -> length (row l ncol i) = ncol.
Proof. intros H Hi. apply slice_length. nia. Qed.

Lemma nth_slice {A} (l : list A) off len i d :
  i < len -> nth i (slice l off len) d = nth (off + i) l d.
Proof.
  intros H. unfold slice.
  destruct (Nat.lt_ge_cases (off + i) (length l)) as [Hl|Hl].
  - apply nth_error_nth with (d := d).
    change (firstn len (skipn off l)) with (slice l off len).
    rewrite nth_error_slice. apply Nat.ltb_lt in H. rewrite H.
    apply nth_error_nth'. exact Hl.
  - rewrite !nth_overflow; auto. rewrite firstn_length, skipn_length. lia.
Qed.

Lemma nth_row {A} (l : list A) ncol i j d :
  j < ncol -> nth j (row l ncol i) d = nth (i * ncol + j) l d.
Proof. intros H. unfold row. apply nth_slice. exact H. Qed.

Lemma slice_all {A} (l : list A) : slice l 0 (length l) = l.
Proof. unfold slice. simpl. apply firstn_all. Qed.

Lemma slice_slice {A} (l : list A) o1 n1 o2 n2 :
  o2 + n2 <= n1 -> slice (slice l o1 n1) o2 n2 = slice l (o1 + o2) n2.
Proof.
  intros H. apply nth_error_ext; intros i. rewrite !nth_error_slice.
  destruct (Nat.ltb_spec i n2); [|reflexivity].
  destruct (Nat.ltb_spec (o2 + i) n1); [|lia]. f_equal; lia.
Qed.

Lemma slice_S {A} (l : list A) o n x :
  nth_error l o = Some x -> slice l o (S n) = x :: slice l (S o) n.
Proof.
  intros H. apply nth_error_ext; intros [|i]; rewrite nth_error_slice; simpl.
  - rewrite Nat.add_0_r; exact H.
  - rewrite nth_error_slice. destruct (Nat.ltb_spec i n);
      destruct (Nat.ltb_spec (S i) (S n)); try lia; auto. f_equal; lia.
Qed.

Lemma slice_S_last {A} (l : list A) o n x :
  nth_error l (o + n) = Some x -> slice l o (S n) = slice l o n ++ [x].
Proof.
  intros H.
  assert (Hl : o + n < length l) by (apply nth_error_Some; congruence).
  apply nth_error_ext; intros i. rewrite nth_error_slice.
  destruct (Nat.ltb_spec i n).
  - rewrite nth_error_app1 by (rewrite slice_length; lia).
    rewrite nth_error_slice. destruct (Nat.ltb_spec i n); [|lia].
    destruct (Nat.ltb_spec i (S n)); [reflexivity|lia].
  - rewrite nth_error_app2 by (rewrite slice_length; lia).
    rewrite slice_length by lia. destruct (Nat.ltb_spec i (S n)).
    + replace (i - n) with 0 by lia. simpl. rewrite <- H. f_equal; lia.
    + destruct (i - n) eqn:E; [lia|]. simpl. destruct n0; reflexivity.
Qed.

Lemma pget_ok {A} (p : ptr A) i x : pget p i = Ok x <-> nth_error (fst p) (snd p + i) = Some x.
Proof. apply aget_ok. Qed.

Lemma pget_slice {A} (l : list A) off n i x :
  nth_error (slice l off n) i = Some x -> pget (l, off) i = Ok x.
Proof.
  rewrite nth_error_slice. destruct (i <? n); intros H; [|discriminate].
  apply pget_ok. exact H.
Qed.

Lemma for_last {St} n i (body : nat -> St -> res St) s :
  for_ (S n) i body s = bind (for_ n i body s) (body (i + n)).
Proof.
  replace (S n) with (n + 1) by lia. rewrite for_app.
  destruct (for_ n i body s) as [s'|e]; cbn [bind for_]; [|reflexivity].
  destruct (body (i + n) s'); reflexivity.
Qed.

Lemma loop_S {St} n (body : nat -> St -> res St) s :
  loop (S n) body s = bind (loop n body s) (body n).
Proof. unfold loop. rewrite for_last. simpl. reflexivity. Qed.

(** Pointwise modification of a range of an array. *)
Definition mapr {A} (off n : nat) (g : nat -> A -> A) (l : list A) : list A :=
  firstn off l ++ map (fun p => g (fst p) (snd p)) (combine (seq 0 n) (slice l off n)) ++ skipn (off + n) l.

Lemma firstn_exact {A} (l1 l2 : list A) n : length l1 = n -> firstn n (l1 ++ l2) = l1.
Proof. intros <-. rewrite firstn_app, firstn_all, Nat.sub_diag, app_nil_r. reflexivity. Qed.

Lemma nth_error_combine {A B} (l : list A) (m : list B) i :
  nth_error (combine l m) i =
  match nth_error l i, nth_error m i with Some a, Some b => Some (a, b) | _, _ => None end.
Proof.
  revert m i; induction l as [|h t IH]; intros [|h' t'] [|i]; simpl; auto.
  - destruct (nth_error t i); reflexivity.
Qed.

Lemma nth_error_seq n s i : nth_error (seq s n) i = if i <? n then Some (s + i) else None.
Proof.
  revert s i; induction n as [|n IH]; intros s [|i]; cbn [seq nth_error]; auto.
  - rewrite Nat.add_0_r; reflexivity.
  - rewrite IH. destruct (Nat.ltb_spec i n); destruct (Nat.ltb_spec (S i) (S n)); auto; try lia.
    f_equal; lia.
Qed.

Lemma mapr_length {A} off n (g : nat -> A -> A) l :
  off + n <= length l -> length (mapr off n g l) = length l.
Proof.
  intros H. unfold mapr. rewrite !app_length, map_length, combine_length, seq_length.
  rewrite slice_length by lia. rewrite firstn_length, skipn_length. lia.
Qed.

Lemma nth_error_mapr {A} off n (g : nat -> A -> A) l i :
  off + n <= length l ->
  nth_error (mapr off n g l) i =
  if (off <=? i) && (i <? off + n) then option_map (g (i - off)) (nth_error l i)
  else nth_error l i.
Proof.
  intros H. unfold mapr.
  assert (L1 : length (firstn off l) = off) by (rewrite firstn_length; lia).
  assert (L2 : length (map (fun p => g (fst p) (snd p)) (combine (seq 0 n) (slice l off n))) = n).
  { rewrite map_length, combine_length, seq_length, slice_length by lia. lia. }
  destruct (Nat.leb_spec off i) as [Ho|Ho]; simpl.
  - rewrite nth_error_app2 by lia. rewrite L1.
    destruct (Nat.ltb_spec i (off + n)).
    + rewrite nth_error_app1 by lia. rewrite nth_error_map, nth_error_combine, nth_error_seq, nth_error_slice.
      destruct (Nat.ltb_spec (i - off) n); [|lia]. simpl.
      replace (off + (i - off)) with i by lia. destruct (nth_error l i); reflexivity.
    + rewrite nth_error_app2 by lia. rewrite L2, nth_error_skipn. f_equal; lia.
  - rewrite nth_error_app1 by lia. rewrite nth_error_firstn.
    destruct (Nat.ltb_spec i off); [reflexivity|lia].
Qed.

(** The usual shape of a C loop over one row: [for i<n: a\[off+i\] = f(i, a\[off+i\])]. *)
Lemma loop_mapr {A} (l : list A) off n (g : nat -> A -> A) (body : nat -> list A -> res (list A)) :
  off + n <= length l ->
  (forall i a x, i < n -> length a = length l -> nth_error a (off + i) = Some x ->
     body i a = Ok (upd a (off + i) (g i x))) ->
  loop n body l = Ok (mapr off n g l).
Proof.
  intros Hl Hb.
  assert (H : okp (loop n body l) (fun a => length a = length l /\
     forall j, nth_error a j = if (off <=? j) && (j <? off + n)
                               then option_map (g (j - off)) (nth_error l j) else nth_error l j)).
  { apply (@loop_okp _ (fun k a => length a = length l /\
       forall j, nth_error a j = if (off <=? j) && (j <? off + k)
                                 then option_map (g (j - off)) (nth_error l j) else nth_error l j)).
    - split; [reflexivity|]. intros j.
      destruct (Nat.leb_spec off j); destruct (Nat.ltb_spec j (off + 0)); simpl; auto; lia.
    - intros i a Hi (La & Ha).
      destruct (nth_error a (off + i)) as [x|] eqn:Ex.
      2:{ apply nth_error_None in Ex; lia. }
      rewrite (Hb i a x) by auto. simpl. split; [rewrite upd_length; exact La|].
      intros j. rewrite nth_error_upd. rewrite Ha in Ex.
      destruct (Nat.eqb_spec j (off + i)) as [->|Hne].
      + destruct (Nat.ltb_spec (off + i) (length a)); [|lia].
        destruct (Nat.leb_spec off (off + i)); [|lia].
        destruct (Nat.ltb_spec (off + i) (off + i)); [lia|].
        destruct (Nat.ltb_spec (off + i) (off + S i)); [|lia]. simpl in *.
        rewrite Ex. simpl. do 2 f_equal; lia.
      + rewrite Ha. destruct (Nat.leb_spec off j); simpl; auto.
        destruct (Nat.ltb_spec j (off + i)); destruct (Nat.ltb_spec j (off + S i)); auto; lia. }
  apply okp_iff in H as (a & -> & La & Ha). f_equal.
  apply nth_error_ext; intros j. rewrite Ha, nth_error_mapr by lia. reflexivity.
Qed.

Lemma row_mapr_same {A} (l : list A) ncol c n (g : nat -> A -> A) :
  length l = n * ncol -> c < n ->
  row (mapr (c * ncol) ncol g l) ncol c =
  map (fun p => g (fst p) (snd p)) (combine (seq 0 ncol) (row l ncol c)).
Proof.
  intros Hl Hc. apply nth_error_ext; intros i. unfold row.
  rewrite nth_error_slice, nth_error_map, nth_error_combine, nth_error_seq, nth_error_slice.
  destruct (Nat.ltb_spec i ncol) as [Hi|Hi]; [|reflexivity].
  rewrite nth_error_mapr by nia.
  destruct (Nat.leb_spec (c * ncol) (c * ncol + i)); [|lia].
  destruct (Nat.ltb_spec (c * ncol + i) (c * ncol + ncol)); [|lia]. simpl.
  replace (c * ncol + i - c * ncol) with i by lia.
  destruct (nth_error l (c * ncol + i)); reflexivity.
Qed.

Lemma row_mapr_other {A} (l : list A) ncol c c' n (g : nat -> A -> A) :
  length l = n * ncol -> c < n -> c' <> c ->
  row (mapr (c * ncol) ncol g l) ncol c' = row l ncol c'.
Proof.
  intros Hl Hc Hne. apply nth_error_ext; intros i. unfold row.
  rewrite !nth_error_slice. destruct (Nat.ltb_spec i ncol) as [Hi|Hi]; [|reflexivity].
  rewrite nth_error_mapr by nia.
  destruct (Nat.leb_spec (c * ncol) (c' * ncol + i)); simpl; auto.
  destruct (Nat.ltb_spec (c' * ncol + i) (c * ncol + ncol)); auto.
  exfalso. assert (c' < c \/ c < c') by lia. nia.
Qed.

(** Two row-major matrices with equal rows are equal. *)
Lemma rows_ext {A} (l l' : list A) n ncol :
  length l = n * ncol -> length l' = n * ncol ->
  (forall c, c < n -> row l ncol c = row l' ncol c) -> l = l'.
Proof.
  intros Hl Hl' H. apply nth_error_ext; intros i.
  destruct (Nat.lt_ge_cases i (n * ncol)) as [Hi|Hi].
  - assert (Hc : ncol <> 0) by nia.
    pose proof (Nat.div_mod i ncol Hc) as E.
    pose proof (Nat.mod_upper_bound i ncol Hc) as Hm.
    set (c := i / ncol) in *. set (j := i mod ncol) in *.
    assert (Hcn : c < n) by nia. specialize (H c Hcn).
    assert (H' : nth_error (row l ncol c) j = nth_error (row l' ncol c) j) by (rewrite H; reflexivity).
    unfold row in H'. rewrite !nth_error_slice in H'.
    destruct (Nat.ltb_spec j ncol); [|lia].
    replace (c * ncol + j) with i in H' by lia. exact H'.
  - rewrite (proj2 (nth_error_None l i)) by lia.
    rewrite (proj2 (nth_error_None l' i)) by lia. reflexivity.
Qed.

Lemma copy_to_ok {A} (src : ptr A) n (dst : list A) off :
  off + n <= length dst -> snd src + n <= length (fst src) ->
  copy_to src n dst off =
    Ok (firstn off dst ++ slice (fst src) (snd src) n ++ skipn (off + n) dst).
Proof.
  destruct src as (s & so); simpl; intros Hd Hs. unfold copy_to.
  destruct n as [|n].
  { cbn. unfold slice. simpl. rewrite Nat.add_0_r, firstn_skipn. reflexivity. }
  destruct (nth_error s so) as [d0|] eqn:E0; [|apply nth_error_None in E0; lia].
  rewrite (@loop_mapr _ dst off (S n) (fun i _ => nth (so + i) s d0)).
  - f_equal. unfold mapr. do 2 f_equal.
    apply nth_error_ext; intros i.
    rewrite nth_error_map, nth_error_combine, nth_error_seq, !nth_error_slice.
    destruct (Nat.ltb_spec i (S n)); [|reflexivity].
    destruct (nth_error dst (off + i)) as [y|] eqn:Ey; [|apply nth_error_None in Ey; lia].
    simpl. symmetry. apply nth_error_nth'. lia.
  - exact Hd.
  - intros i a x Hi La Hx. unfold pget; simpl.
    rewrite (@aget_nth _ s (so + i) d0) by lia. simpl. apply aset_ok.
    apply nth_error_Some; congruence.
Qed.

Lemma copy_to_mapr {A} (src : ptr A) n (dst : list A) off d :
  off + n <= length dst -> snd src + n <= length (fst src) ->
  copy_to src n dst off = Ok (mapr off n (fun i _ => nth (snd src + i) (fst src) d) dst).
Proof.
  destruct src as (s & so); simpl; intros Hd Hs. unfold copy_to.
  apply loop_mapr; [exact Hd|].
  intros i a x Hi La Hx. unfold pget; simpl.
  rewrite (@aget_nth _ s (so + i) d) by lia. simpl. apply aset_ok.
  apply nth_error_Some; congruence.
Qed.

(** inversion of a successful loop, with an invariant proved from the successes *)
Lemma loop_inv_ok {St} (P : nat -> St -> Prop) n body s s' :
  loop n body s = Ok s' -> P 0 s ->
  (forall j a b, j < n -> P j a -> body j a = Ok b -> P (S j) b) -> P n s'.
Proof.
  intros H H0 Hb.
  assert (Hr : rp (loop n body s) (P n)).
  { apply loop_rp; [exact H0|]. intros j a Hj Ha. apply rp_iff. intros b Hbb. eapply Hb; eauto. }
  rewrite H in Hr. exact Hr.
Qed.

Ltac splits := repeat match goal with |- _ /\ _ => split end.

(** observe a result; used to run the model on concrete inputs *)
Definition okmap {A B} (f : A -> B) (r : res A) : option B :=
  match r with Ok a => Some (f a) | Err _ => None end.
Lemma okmap_ex {A B} (f : A -> B) (r : res A) v :
  okmap f r = Some v -> exists a, r = Ok a /\ f a = v.
Proof. destruct r; simpl; intros H; [injection H as <-; eauto|discriminate]. Qed.
