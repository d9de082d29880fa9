(** C41: the byte-per-flag boolean vector. *)
From Coq Require Import Ascii.
From Verif Require Import Base ContainersModel.
Set Implicit Arguments.
Unset Strict Implicit.

(** Specification: a vector of [n] flags is a size and, per index, nothing
    (never set) or a boolean. *)
Record flags := mkFlags { fl_n : nat; fl : nat -> option bool }.

Definition spec_new (n : nat) (init : option bool) : flags := mkFlags n (fun _ => init).

Definition spec_do (o : bop) (s : flags) : flags :=
  match o with
  | BSet i v => mkFlags (fl_n s) (fun j => if j =? i then Some v else fl s j)
  | BCheckSet i v =>
      mkFlags (Nat.max (fl_n s) (S i))
        (fun j => if j =? i then Some v
                  else if j <? fl_n s then fl s j else Some false)
  end.

(** what is allowed: an unchecked set inside the vector; a checked set anywhere
    except exactly one past the end *)
Definition legal (o : bop) (s : flags) : Prop :=
  match o with BSet i _ => i < fl_n s | BCheckSet i _ => i <> fl_n s end.

Fixpoint legal_history (l : list bop) (s : flags) : Prop :=
  match l with [] => True | o :: t => legal o s /\ legal_history t (spec_do o s) end.

Definition shows (d : bvec) (s : flags) : Prop :=
  length d = fl_n s /\
  forall i, i < fl_n s ->
    bv_get d i = match fl s i with Some b => Ok b | None => Err UB end.

Lemma cb_bool_of v : cb_bool (cb_of v) = Ok v.
Proof. destruct v; reflexivity. Qed.

Lemma bv_get_upd d i v j : i < length d ->
  bv_get (upd d i (cb_of v)) j = if j =? i then Ok v else bv_get d j.
Proof.
  intros H. unfold bv_get, aget. rewrite nth_error_upd.
  destruct (Nat.eqb_spec j i).
  - apply Nat.ltb_lt in H. rewrite H. apply cb_bool_of.
  - reflexivity.
Qed.

Lemma fill_ok v : forall n i (d : bvec), i + n <= length d ->
  exists d', for_ n i (fun i d => aset d i (cb_of v)) d = Ok d' /\ length d' = length d /\
    forall j, bv_get d' j = if (i <=? j) && (j <? i + n) then Ok v else bv_get d j.
Proof.
  induction n as [|n IH]; intros i d H; cbn [for_].
  - exists d; splits; auto. intros j.
    destruct (Nat.leb_spec i j), (Nat.ltb_spec j (i + 0)); auto; lia.
  - rewrite aset_ok by lia. cbn [bind].
    destruct (IH (S i) (upd d i (cb_of v))) as (d' & E & L & G).
    { rewrite upd_length; lia. }
    rewrite upd_length in L. exists d'; splits; auto.
    intros j. rewrite G, bv_get_upd by lia.
    destruct (Nat.leb_spec (S i) j), (Nat.ltb_spec j (S i + n)), (Nat.leb_spec i j),
      (Nat.ltb_spec j (i + S n)), (Nat.eqb_spec j i); cbn [andb]; auto; lia.
Qed.

Lemma bv_get_app_l (d e : bvec) j : j < length d -> bv_get (d ++ e) j = bv_get d j.
Proof. intros H. unfold bv_get, aget. rewrite nth_error_app1 by exact H. reflexivity. Qed.

Lemma bv_do_ok o d s : shows d s -> legal o s ->
  exists d', bv_do o d = Ok d' /\ shows d' (spec_do o s).
Proof.
  intros (L & G) Hl. destruct o as [i v|i v]; cbn [bv_do spec_do legal] in *.
  - unfold bv_set. rewrite aset_ok by lia. eexists; split; [reflexivity|].
    split; cbn [fl_n fl]; [rewrite upd_length; exact L|].
    intros j Hj. rewrite bv_get_upd by lia. destruct (Nat.eqb_spec j i); auto.
  - unfold bv_check_set. rewrite L. destruct (Nat.ltb_spec (fl_n s) i) as [Hi|Hi].
    + unfold bv_resize. rewrite L.
      destruct (Nat.ltb_spec (i + 1) (fl_n s)); [lia|].
      destruct (@fill_ok false (i + 1 - fl_n s) (fl_n s)
                  (d ++ repeat cb_indet (i + 1 - fl_n s))) as (d1 & E1 & L1 & G1).
      { rewrite app_length, repeat_length, L. lia. }
      rewrite app_length, repeat_length, L in L1. rewrite E1. cbn [bind].
      rewrite aset_ok by lia. eexists; split; [reflexivity|].
      split; cbn [fl_n fl]; [rewrite upd_length; lia|].
      intros j Hj. rewrite bv_get_upd by lia. destruct (Nat.eqb_spec j i); auto.
      rewrite G1. destruct (Nat.ltb_spec j (fl_n s)).
      * destruct (Nat.leb_spec (fl_n s) j); [lia|]. cbn [andb].
        rewrite bv_get_app_l by lia. auto.
      * destruct (Nat.leb_spec (fl_n s) j); [|lia].
        destruct (Nat.ltb_spec j (fl_n s + (i + 1 - fl_n s))); [reflexivity|lia].
    + cbn [bind]. rewrite aset_ok by lia. eexists; split; [reflexivity|].
      split; cbn [fl_n fl]; [rewrite upd_length; lia|].
      intros j Hj. rewrite bv_get_upd by lia. destruct (Nat.eqb_spec j i); auto.
      destruct (Nat.ltb_spec j (fl_n s)); [auto|lia].
Qed.

Lemma bv_run_ok : forall ops d s, shows d s -> legal_history ops s ->
  exists d', bv_run ops d = Ok d' /\ shows d' (fold_left (fun s o => spec_do o s) ops s).
Proof.
  induction ops as [|o t IH]; intros d s Hs Hl.
  - exists d; split; [reflexivity|exact Hs].
  - destruct Hl as (H1 & H2). destruct (bv_do_ok Hs H1) as (d1 & E1 & S1).
    destruct (IH _ _ S1 H2) as (d' & E & S'). exists d'; split; [|exact S'].
    unfold bv_run in *. cbn [for_each]. rewrite E1. exact E.
Qed.

(** A freshly created vector (both constructors). *)
Theorem c41_create : forall n v,
  shows (bv_create n) (spec_new n None) /\
  exists d, bv_create_init n v = Ok d /\ shows d (spec_new n (Some v)).
Proof.
  intros n v. split.
  - split; cbn [spec_new fl_n fl]; [apply repeat_length|].
    intros i Hi. unfold bv_get, bv_create.
    rewrite (aget_nth (repeat cb_indet n) cb_indet) by (rewrite repeat_length; lia).
    cbn [bind]. assert (E : nth i (repeat cb_indet n) cb_indet = cb_indet) by
      (clear; revert i; induction n; intros [|i]; cbn; auto).
    rewrite E. reflexivity.
  - unfold bv_create_init, loop.
    destruct (@fill_ok v n 0 (bv_create n)) as (d & E & L & G).
    { unfold bv_create; rewrite repeat_length; lia. }
    exists d; split; [exact E|]. split; cbn [spec_new fl_n fl].
    + rewrite L. apply repeat_length.
    + intros i Hi. rewrite G. cbn [Nat.leb andb]. destruct (Nat.ltb_spec i (0 + n)); auto; lia.
Qed.

(** C41, for every history of sets (checked or not, in any interleaving of the
    threads that issue them: each call writes its own flag) in which no checked
    set is exactly one past the end: nothing goes out of bounds and every flag
    reads back the value last set, the value it was created with, or [false] if
    the vector grew over it. *)
Theorem c41_history_partial : forall n v ops,
  legal_history ops (spec_new n (Some v)) ->
  exists d0 d, bv_create_init n v = Ok d0 /\ bv_run ops d0 = Ok d /\
    let s := fold_left (fun s o => spec_do o s) ops (spec_new n (Some v)) in
    length d = fl_n s /\
    forall i, i < fl_n s -> exists b, fl s i = Some b /\ bv_get d i = Ok b.
Proof.
  intros n v ops H. destruct (c41_create n v) as (_ & d0 & E0 & S0).
  destruct (bv_run_ok S0 H) as (d & E & (L & G)).
  exists d0, d. split; [exact E0|]. split; [exact E|]. cbv zeta. split; [exact L|]. intros i Hi.
  assert (T : forall ops s, (forall i, i < fl_n s -> fl s i <> None) ->
     forall i, i < fl_n (fold_left (fun s o => spec_do o s) ops s) ->
       fl (fold_left (fun s o => spec_do o s) ops s) i <> None).
  { clear. induction ops as [|o t IH]; intros s Hs; [exact Hs|]. cbn [fold_left]. apply IH.
    intros i Hi. destruct o; cbn [spec_do fl_n fl] in *; destruct (Nat.eqb_spec i i0); try discriminate.
    - auto.
    - destruct (Nat.ltb_spec i (fl_n s)); [auto|discriminate]. }
  specialize (T ops (spec_new n (Some v))). cbn [spec_new fl_n fl] in T.
  specialize (T ltac:(discriminate) i Hi). fold (spec_new n (Some v)) in T.
  specialize (G i Hi). destruct (fl _ i) as [b|] eqn:E2; [|congruence].
  exists b; auto.
Qed.

(** One set, read back; all other flags as before. *)
Theorem c41_set_get : forall d i v, i < length d ->
  exists d', bv_set d i v = Ok d' /\ length d' = length d /\ bv_get d' i = Ok v /\
    forall j, j <> i -> bv_get d' j = bv_get d j.
Proof.
  intros d i v H. exists (upd d i (cb_of v)). unfold bv_set. rewrite aset_ok by exact H.
  splits; auto.
  - apply upd_length.
  - rewrite bv_get_upd by exact H. rewrite Nat.eqb_refl. reflexivity.
  - intros j Hj. rewrite bv_get_upd by exact H. destruct (Nat.eqb_spec j i); congruence.
Qed.

(** Sets of different flags commute, so threads that set different flags can be
    interleaved in any way. *)
Theorem c41_sets_commute : forall d i j v w, i <> j -> i < length d -> j < length d ->
  bind (bv_set d i v) (fun d => bv_set d j w) = bind (bv_set d j w) (fun d => bv_set d i v).
Proof.
  intros d i j v w Hn Hi Hj. unfold bv_set.
  rewrite !aset_ok by assumption. cbn [bind].
  rewrite !aset_ok by (rewrite upd_length; assumption). f_equal. apply upd_comm; exact Hn.
Qed.

(** The bound the check misses: a checked set exactly one past the end writes
    out of bounds, whatever the vector. *)
Theorem c41_check_set_refuted : forall d v, bv_check_set d (length d) v = Err UB.
Proof.
  intros d v. unfold bv_check_set. rewrite Nat.ltb_irrefl. cbn [bind].
  unfold aset. rewrite Nat.ltb_irrefl. reflexivity.
Qed.

(** ... and that is the only way: a single call is in bounds iff it is legal. *)
Theorem c41_in_bounds_iff : forall o d s, shows d s ->
  ((exists d', bv_do o d = Ok d') <-> legal o s).
Proof.
  intros o d s Hs. split.
  - intros (d' & E). destruct Hs as (L & _). destruct o as [i v|i v]; cbn [bv_do legal] in *.
    + apply aset_inv in E as (H & _). lia.
    + intros ->. rewrite <- L, c41_check_set_refuted in E. discriminate.
  - intros H. destruct (bv_do_ok Hs H) as (d' & E & _); eauto.
Qed.

(** Non-vacuity: a history with unchecked sets, a checked set inside and one
    that grows the vector over a gap. *)
Example c41_ex :
  legal_history [BSet 1 true; BCheckSet 0 true; BCheckSet 5 true; BSet 1 false; BSet 4 true]
                (spec_new 3 (Some false)).
Proof. cbn. repeat split; lia. Qed.
Example c41_ex_run :
  okmap (fun d => map (fun i => okmap (fun b => b) (bv_get d i)) (seq 0 7))
    (let* d := bv_create_init 3 false in
     bv_run [BSet 1 true; BCheckSet 0 true; BCheckSet 5 true; BSet 1 false; BSet 4 true] d)
  = Some [Some true; Some false; Some false; Some false; Some true; Some true; None].
Proof. vm_compute. reflexivity. Qed.
