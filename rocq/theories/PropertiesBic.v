(** The score get_bic and its OpenMP sum: model and proof. *)
From Coq Require Import Reals Permutation Lra.
From Verif Require Import Base Num Spec.
Set Implicit Arguments.
Local Open Scope R_scope.

(** ** Model *)
Section Bic.
Variable N : Num.
Notation T := (car N).

(** util.cpp:42-47, one thread of `parallel for reduction(+:bic)`: a private sum
    starting at 0, to which the thread's iterations add in the order it runs them *)
Fixpoint bic_thread (v : list T) (its : list nat) (acc : T) : res T :=
  match its with
  | [] => Ok acc
  | i :: l => let* x := aget v i in bic_thread v l (nadd N acc x)
  end.

(** the private sums are added to the shared one, in any order: [threads] lists the
    threads in the order in which they finish *)
Fixpoint bic_sum (v : list T) (threads : list (list nat)) (bic : T) : res T :=
  match threads with
  | [] => Ok bic
  | its :: l => let* p := bic_thread v its (nzero N) in bic_sum v l (nadd N bic p)
  end.

(** util.cpp:38-53 get_bic; [nlog] is std::log.  The index is an `unsigned`: with 2^32
    or more distances the loop does not end.  Printing is not modelled. *)
Definition get_bic (nlog : T -> T) (dist_v : list T) (nrow ncol k : nat) (threads : list (list nat)) : res T :=
  if (Z.of_nat (length dist_v) <? 2 ^ 32)%Z then
    let* bic := bic_sum dist_v threads (nzero N) in
    Ok (nadd N (nmul N (nofZ N 2) bic) (nmul N (nmul N (nlog (nofZ N (Z.of_nat nrow))) (nofZ N (Z.of_nat ncol))) (nofZ N (Z.of_nat k))))
  else Err Fuel.
End Bic.

(** ** Property *)

(** every iteration is run exactly once, by some thread *)
Definition shares (n : nat) (threads : list (list nat)) : Prop := Permutation (concat threads) (seq 0 n).

Lemma rsum_perm (l m : list R) : Permutation l m -> rsum l = rsum m.
Proof. induction 1; cbn [rsum]; lra. Qed.
Lemma rsum_app2 (l m : list R) : rsum (l ++ m) = rsum l + rsum m.
Proof. induction l as [|x l IH]; cbn [app rsum] in *; [lra|]. rewrite IH. lra. Qed.

Lemma thread_R (v : list R) : forall its acc, (forall i, In i its -> (i < length v)%nat) ->
  @bic_thread NumR v its acc = Ok (acc + rsum (map (fun i => nth i v 0) its)).
Proof.
  induction its as [|i l IH]; intros acc H; cbn [bic_thread map rsum]; [f_equal; lra|].
  replace (@aget (car NumR) v i) with (@Ok R (nth i v 0)) by (symmetry; apply (@aget_nth R v i 0); apply H; left; reflexivity). cbn [Base.bind].
  etransitivity; [apply IH; intros j Hj; apply H; right; exact Hj|]. f_equal. change (nadd NumR) with Rplus. lra.
Qed.

Lemma sum_R (v : list R) : forall ts b, (forall i, In i (concat ts) -> (i < length v)%nat) ->
  @bic_sum NumR v ts b = Ok (b + rsum (map (fun i => nth i v 0) (concat ts))).
Proof.
  induction ts as [|its l IH]; intros b H; cbn [bic_sum concat map rsum]; [f_equal; lra|].
  rewrite thread_R by (intros i Hi; apply H; apply in_or_app; left; exact Hi). cbn [Base.bind].
  etransitivity; [apply IH; intros j Hj; apply H; apply in_or_app; right; exact Hj|]. f_equal. rewrite map_app, rsum_app2.
  change (nadd NumR) with Rplus. change (nzero NumR) with 0. lra.
Qed.

Lemma map_nth_all (v : list R) : map (fun i => nth i v 0) (seq 0 (length v)) = v.
Proof.
  apply nth_ext with (d := 0) (d' := 0); [rewrite map_length, seq_length; reflexivity|]. intros i Hi. rewrite map_length, seq_length in Hi.
  apply nth_error_nth. rewrite nth_error_map, (nth_error_nth' (seq 0 (length v)) 0%nat) by (rewrite seq_length; exact Hi). rewrite seq_nth by exact Hi. reflexivity.
Qed.

(** C135: whatever the number of threads, the split of the rows among them, the order
    in which each runs its share and the order in which they finish, the score is
    twice the sum of the distances plus ln(nrow) * ncol * k. *)
Theorem C135_bic : forall (dist_v : list R) nrow ncol k threads,
  (Z.of_nat (length dist_v) < 2 ^ 32)%Z -> shares (length dist_v) threads ->
  @get_bic NumR ln dist_v nrow ncol k threads = Ok (2 * rsum dist_v + ln (INR nrow) * INR ncol * INR k).
Proof.
  intros v nrow ncol k ts Hl Hs. unfold get_bic. change (list (car NumR)) with (list R) in *. change (@length (car NumR) v) with (@length R v). rewrite (proj2 (Z.ltb_lt _ _) Hl).
  rewrite sum_R. 2:{ intros i Hi. apply (Permutation_in _ Hs) in Hi. apply in_seq in Hi. lia. }
  cbn [Base.bind]. rewrite (rsum_perm (Permutation_map (fun i => nth i v 0) Hs)), map_nth_all.
  cbn [nadd nmul nofZ nzero NumR]. rewrite <- !INR_IZR_INZ. f_equal. rewrite Rplus_0_l. reflexivity.
Qed.
Print Assumptions C135_bic.

(** so of two clusterings of the same rows with the same number of clusters, the one
    with the smaller total distance has the smaller score, and of two with the same
    total distance the one with fewer clusters (two rows or more, one column or more) *)
Theorem C135_order : forall (v w : list R) nrow ncol k k' threads threads' a b,
  length v = nrow -> length w = nrow -> (Z.of_nat nrow < 2 ^ 32)%Z -> shares nrow threads -> shares nrow threads' ->
  @get_bic NumR ln v nrow ncol k threads = Ok a -> @get_bic NumR ln w nrow ncol k' threads' = Ok b ->
  (k = k' -> (a < b <-> rsum v < rsum w)) /\
  (rsum v = rsum w -> (2 <= nrow)%nat -> (1 <= ncol)%nat -> (a < b <-> (k < k')%nat)).
Proof.
  intros v w nrow ncol k k' ts ts' a b Lv Lw Hl S S' E E'.
  rewrite C135_bic in E by (rewrite Lv; assumption). rewrite C135_bic in E' by (rewrite Lw; assumption). injection E as <-. injection E' as <-. split.
  - intros <-. lra.
  - intros H Hn Hc. rewrite H. assert (Hln : 0 < ln (INR nrow) * INR ncol).
    { apply Rmult_lt_0_compat; [|apply lt_0_INR; lia]. rewrite <- ln_1. apply ln_increasing; [lra|]. change 1 with (INR 1). apply lt_INR. lia. }
    split.
    + intros A. apply INR_lt. apply Rmult_lt_reg_l with (ln (INR nrow) * INR ncol); [exact Hln|]. lra.
    + intros A. apply lt_INR in A. apply Rmult_lt_compat_l with (r := ln (INR nrow) * INR ncol) in A; [|exact Hln]. lra.
Qed.
Print Assumptions C135_order.

(** the premise is met: five rows, three threads *)
Example C135_shares : shares 5 [[3; 1]; []; [4; 0; 2]]%nat.
Proof.
  unfold shares. cbn [concat app seq]. symmetry. apply Permutation_cons_app with (l1 := [3; 1; 4]%nat). cbn.
  apply Permutation_cons_app with (l1 := [3]%nat). cbn. apply Permutation_cons_app with (l1 := [3; 4]%nat). cbn. apply Permutation_refl.
Qed.
