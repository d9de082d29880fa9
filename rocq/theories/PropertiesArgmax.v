(** C48: argmax; and C47 in exact arithmetic. *)
From Coq Require Import Reals Lra Permutation.
From Verif Require Import Base Num Spec MatrixModel PropertiesMatrix.
Set Implicit Arguments.
Unset Strict Implicit.

(** In exact arithmetic the left-to-right sum is the mathematical sum. *)
Lemma bigsum_rsum : forall n f, bigsum NumR n f = rsum (map f (seq 0 n)).
Proof.
  intros n f. 
  assert (G : forall l, rsum (map f (l)) = fold_left Rplus (map f l) 0%R).
  { intros l. assert (K : forall (l : list R) a, fold_left Rplus l a = (a + rsum l)%R).
    { clear. induction l as [|x l IH]; intros a; cbn [fold_left rsum]; [lra|]. rewrite IH. lra. }
    rewrite K. lra. }
  rewrite G. induction n as [|n IH]; [reflexivity|].
  rewrite seq_S, map_app, fold_left_app. cbn [map fold_left bigsum Nat.add].
  change (nadd NumR (bigsum NumR n f) (f n)) with (bigsum NumR n f + f n)%R. rewrite IH. reflexivity.
Qed.

(** C47, exact arithmetic: column sums, row sums, means and products are the
    mathematical ones. *)
Theorem c47_column_sums_exact : forall (m : dmat NumR) rows, shaped m -> 1 <= dm_nrow m ->
  exists v, dm_sum_axis m 0 rows = Ok v /\ is_vector v (dm_ncol m)
    (fun c => rsum (map (fun r => cell m r c) (seq 0 (dm_nrow m)))).
Proof.
  intros m rows S Hn. destruct (@sum0 NumR m rows S Hn) as (v & E & L & C).
  exists v. split; [exact E|]. split; [exact L|]. intros c Hc. etransitivity; [exact (C c Hc)|].
  assert (K : forall l (a : R), fold_left (fun s r => nadd NumR s (cell m r c)) l a
              = (a + rsum (map (fun r => cell m r c) l))%R).
  { clear. induction l as [|x l IH]; intros a; cbn [fold_left map rsum].
    - apply (eq_sym (Rplus_0_r a)).
    - etransitivity; [exact (IH _)|]. apply Rplus_assoc. }
  etransitivity; [exact (K _ _)|].
  replace (seq 0 (dm_nrow m)) with (0 :: seq 1 (dm_nrow m - 1)).
  - reflexivity.
  - replace (dm_nrow m) with (Datatypes.S (dm_nrow m - 1)) at 2 by lia. reflexivity.
Qed.

Theorem c47_product_exact : forall (a b : dmat NumR) rows,
  shaped a -> shaped b -> dm_ncol a = dm_nrow b -> Permutation rows (seq 0 (dm_nrow a)) ->
  exists m, dm_mul a b rows = Ok m /\
    is_matrix m (dm_nrow a) (dm_ncol b)
      (fun r c => rsum (map (fun k => (cell a r k * cell b k c)%R) (seq 0 (dm_ncol a)))).
Proof.
  intros a b rows Sa Sb H P. destruct (@c47_product NumR a b rows Sa Sb H P) as (m & E & A & B & C & D).
  exists m. split; [exact E|]. unfold is_matrix. splits; auto.
  intros r c Hr Hc. etransitivity; [exact (D r c Hr Hc)|]. exact (bigsum_rsum _ _).
Qed.

Theorem c47_means_exact : forall (m : dmat NumR) mean0, shaped m ->
  (exists v, dm_mean m mean0 1 = Ok v /\ is_vector v (dm_ncol m)
     (fun c => (rsum (map (fun r => cell m r c) (seq 0 (dm_nrow m))) / INR (dm_nrow m))%R)) /\
  (exists v, dm_mean m mean0 0 = Ok v /\ is_vector v (dm_nrow m)
     (fun r => (rsum (map (fun c => cell m r c) (seq 0 (dm_ncol m))) / INR (dm_ncol m))%R)).
Proof.
  intros m mean0 S. destruct (@c47_mean NumR m mean0 S) as ((v1 & E1 & L1 & C1) & (v0 & E0 & L0 & C0)).
  split.
  - exists v1. split; [exact E1|]. split; [exact L1|]. intros c Hc. etransitivity; [exact (C1 c Hc)|].
    cbn [ndiv nofZ NumR]. rewrite bigsum_rsum, INR_IZR_INZ. reflexivity.
  - exists v0. split; [exact E0|]. split; [exact L0|]. intros c Hc. etransitivity; [exact (C0 c Hc)|].
    cbn [ndiv nofZ NumR]. rewrite bigsum_rsum, INR_IZR_INZ. reflexivity.
Qed.

(** Non-vacuity: a 2 x 3 by 3 x 2 product, rows computed in the order 1, 0. *)
Example c47_ex : exists (a b : dmat NumR), shaped a /\ shaped b /\ dm_ncol a = dm_nrow b /\
  Permutation [1; 0] (seq 0 (dm_nrow a)) /\ dm_nrow a = 2 /\ dm_ncol b = 2.
Proof.
  exists (@mkDm NumR [1%R; 2%R; 3%R; 4%R; 5%R; 6%R] 2 3), (@mkDm NumR [1%R; 0%R; 0%R; 1%R; 1%R; 1%R] 3 2).
  splits; try reflexivity. apply perm_swap.
Qed.

(* ------------------------------------------------------------------ *)
(** * C48 *)
Lemma nth_rep {A} (x d : A) n i : i < n -> nth i (repeat x n) d = x.
Proof. revert i; induction n as [|n IH]; intros [|i] H; cbn; auto; try lia. apply IH; lia. Qed.

Section A.
Variable N : Num.
Hypothesis OL : OrdLaws N.
Notation T := (car N).
Notation z := (nzero N).

(** what one line of the scan does *)
Fixpoint scan (f : nat -> T) (n : nat) : T * nat :=
  match n with
  | 0 => (nmin N, 0)
  | S k => let (b, i) := scan f k in if nltb N b (f k) then (f k, k) else (b, i)
  end.

Lemma scan_spec f n :
  (forall c, c < n -> nltb N (fst (scan f n)) (f c) = false) /\
  ((snd (scan f n) = 0 /\ fst (scan f n) = nmin N /\ forall c, c < n -> nltb N (nmin N) (f c) = false) \/
   (snd (scan f n) < n /\ fst (scan f n) = f (snd (scan f n)) /\ nltb N (nmin N) (fst (scan f n)) = true /\
    forall c, c < snd (scan f n) -> neqb N (f c) (f c) = true -> nltb N (f c) (fst (scan f n)) = true)).
Proof.
  induction n as [|n IH]; cbn [scan].
  - split; [intros; lia|]. left. splits; auto. intros; lia.
  - destruct (scan f n) as (b & i). cbn [fst snd] in *. destruct IH as (M & D).
    destruct (nltb N b (f n)) eqn:E; cbn [fst snd].
    + split.
      * intros c Hc. destruct (Nat.eq_dec c n) as [->|]; [apply (lt_irrefl OL)|].
        destruct (nltb N (f n) (f c)) eqn:E2; auto.
        rewrite <- (M c) by lia. symmetry. apply (lt_trans OL) with (f n); auto.
      * right. splits; auto.
        -- destruct D as [(_ & -> & _)|(_ & _ & D & _)]; auto. apply (lt_trans OL) with b; auto.
        -- intros c Hc Hn. destruct (nltb N (f c) (f n)) eqn:E2; auto.
           rewrite (lt_ntrans OL b (f c) (f n)) in E; auto.
    + split.
      * intros c Hc. destruct (Nat.eq_dec c n) as [->|]; [exact E|]. apply M; lia.
      * destruct D as [(A & B & C)|(A & B & C & D)]; [left|right]; splits; auto.
        intros c Hc. destruct (Nat.eq_dec c n) as [->|]; [congruence|]. apply C; lia.
Qed.

Lemma argmax_rows (m : dmat N) : shaped m ->
  exists idx, dm_argmax m 0 = Ok idx /\ length idx = dm_nrow m /\
    forall r, r < dm_nrow m -> nth r idx 0 = snd (scan (fun c => cell m r c) (dm_ncol m)).
Proof.
  intros S. unfold dm_argmax. cbn [Nat.eqb].
  set (nr := dm_nrow m) in *. set (nc := dm_ncol m) in *.
  pose (P := fun i (st : list T * list nat) => length (fst st) = nr /\ length (snd st) = nr /\
    forall r, r < nr -> (nth r (fst st) z, nth r (snd st) 0) =
      if r <? i then scan (fun c => cell m r c) nc else (nmin N, 0)).
  match goal with |- context [loop nr ?b ?s] => assert (H : okp (loop nr b s) (P nr)) end.
  { apply loop_okp.
    - unfold P; cbn [fst snd]. rewrite !repeat_length. splits; auto. intros r Hr.
      cbn [Nat.ltb Nat.leb]. f_equal.
      + apply nth_rep; exact Hr.
      + apply nth_rep; exact Hr.
    - intros r st0 Hr (A & B & C).
      pose (Q := fun j (st : list T * list nat) => length (fst st) = nr /\ length (snd st) = nr /\
         forall r', r' < nr -> (nth r' (fst st) z, nth r' (snd st) 0) =
           if r' =? r then scan (fun c => cell m r c) j else (nth r' (fst st0) z, nth r' (snd st0) 0)).
      match goal with |- okp (loop nc ?b ?s) _ => assert (HQ : okp (loop nc b s) (Q nc)) end.
      { apply loop_okp.
        - unfold Q. splits; auto. intros r' Hr'. destruct (Nat.eqb_spec r' r) as [->|]; auto.
          rewrite C by lia. rewrite Nat.ltb_irrefl. reflexivity.
        - intros c st Hc (QA & QB & QC). fold nc.
          rewrite (aget_cell (m := m)) by auto. cbn [bind].
          rewrite (aget_nth (fst st) z) by lia. cbn [bind].
          pose proof (QC r ltac:(lia)) as Er. rewrite Nat.eqb_refl in Er.
          assert (E1 : nth r (fst st) z = fst (scan (fun c => cell m r c) c)) by (rewrite <- Er; reflexivity).
          assert (E2 : nth r (snd st) 0 = snd (scan (fun c => cell m r c) c)) by (rewrite <- Er; reflexivity).
          assert (SC : scan (fun c => cell m r c) (Datatypes.S c) =
             if nltb N (nth r (fst st) z) (cell m r c) then (cell m r c, c)
             else (nth r (fst st) z, nth r (snd st) 0)).
          { cbn [scan]. rewrite E1, E2. destruct (scan _ c); reflexivity. }
          destruct (nltb N (nth r (fst st) z) (cell m r c)) eqn:E.
          + rewrite !aset_ok by lia. cbn [bind okp].
            unfold Q; cbn [fst snd]. rewrite !upd_length. splits; auto.
            intros r' Hr'. rewrite !nth_upd by lia. destruct (Nat.eqb_spec r' r) as [->|Hne].
            * rewrite SC. reflexivity.
            * rewrite QC by auto. destruct (Nat.eqb_spec r' r); [congruence|reflexivity].
          + cbn [okp]. unfold Q. splits; auto. intros r' Hr'.
            destruct (Nat.eqb_spec r' r) as [->|Hne].
            * rewrite SC. reflexivity.
            * rewrite QC by auto. destruct (Nat.eqb_spec r' r); [congruence|reflexivity]. }
      eapply okp_mono; [exact HQ|]. intros st (QA & QB & QC). unfold P. splits; auto.
      intros r' Hr'. rewrite QC by auto. destruct (Nat.eqb_spec r' r) as [->|Hne].
      + destruct (Nat.ltb_spec r (Datatypes.S r)); [reflexivity|lia].
      + rewrite C by auto. destruct (Nat.ltb_spec r' r), (Nat.ltb_spec r' (Datatypes.S r)); auto; lia. }
  apply okp_iff in H as ((vs & ix) & E & A & B & C). cbn [fst snd] in *. rewrite E. cbn [bind].
  exists ix. splits; auto. intros r Hr. specialize (C r Hr). destruct (Nat.ltb_spec r nr); [|lia].
  rewrite <- C. reflexivity.
Qed.

Lemma argmax_cols (m : dmat N) : shaped m ->
  exists idx, dm_argmax m 1 = Ok idx /\ length idx = dm_ncol m /\
    forall c, c < dm_ncol m -> nth c idx 0 = snd (scan (fun r => cell m r c) (dm_nrow m)).
Proof.
  intros S. unfold dm_argmax. cbn [Nat.eqb].
  set (nr := dm_nrow m) in *. set (nc := dm_ncol m) in *.
  pose (P := fun i (st : list T * list nat) => length (fst st) = nc /\ length (snd st) = nc /\
    forall c, c < nc -> (nth c (fst st) z, nth c (snd st) 0) = scan (fun r => cell m r c) i).
  match goal with |- context [loop nr ?b ?s] => assert (H : okp (loop nr b s) (P nr)) end.
  { apply loop_okp.
    - unfold P; cbn [fst snd]. rewrite !repeat_length. splits; auto. intros r Hr. cbn [scan]. f_equal.
      + apply nth_rep; exact Hr.
      + apply nth_rep; exact Hr.
    - intros r st0 Hr (A & B & C).
      pose (Q := fun j (st : list T * list nat) => length (fst st) = nc /\ length (snd st) = nc /\
         forall c, c < nc -> (nth c (fst st) z, nth c (snd st) 0) =
           scan (fun r => cell m r c) (if c <? j then Datatypes.S r else r)).
      match goal with |- okp (loop nc ?b ?s) _ => assert (HQ : okp (loop nc b s) (Q nc)) end.
      { apply loop_okp.
        - unfold Q. splits; auto.
        - intros c st Hc (QA & QB & QC). fold nc.
          rewrite (aget_cell (m := m)) by auto. cbn [bind].
          rewrite (aget_nth (fst st) z) by lia. cbn [bind].
          pose proof (QC c ltac:(lia)) as Er. rewrite Nat.ltb_irrefl in Er.
          assert (E1 : nth c (fst st) z = fst (scan (fun r => cell m r c) r)) by (rewrite <- Er; reflexivity).
          assert (E2 : nth c (snd st) 0 = snd (scan (fun r => cell m r c) r)) by (rewrite <- Er; reflexivity).
          assert (SC : scan (fun r => cell m r c) (Datatypes.S r) =
             if nltb N (nth c (fst st) z) (cell m r c) then (cell m r c, r)
             else (nth c (fst st) z, nth c (snd st) 0)).
          { cbn [scan]. rewrite E1, E2. destruct (scan _ r); reflexivity. }
          assert (OTH : forall c', c' <> c -> (if c' <? c then Datatypes.S r else r) = (if c' <? Datatypes.S c then Datatypes.S r else r)).
          { intros c' Hne. destruct (Nat.ltb_spec c' c), (Nat.ltb_spec c' (Datatypes.S c)); auto; lia. }
          destruct (nltb N (nth c (fst st) z) (cell m r c)) eqn:E.
          + rewrite !aset_ok by lia. cbn [bind okp].
            unfold Q; cbn [fst snd]. rewrite !upd_length. splits; auto.
            intros c' Hc'. rewrite !nth_upd by lia. destruct (Nat.eqb_spec c' c) as [->|Hne].
            * destruct (Nat.ltb_spec c (Datatypes.S c)); [|lia]. rewrite SC. reflexivity.
            * rewrite QC by auto. rewrite OTH by auto. reflexivity.
          + cbn [okp]. unfold Q. splits; auto. intros c' Hc'.
            destruct (Nat.eq_dec c' c) as [->|Hne].
            * destruct (Nat.ltb_spec c (Datatypes.S c)); [|lia]. rewrite SC. reflexivity.
            * rewrite QC by auto. rewrite OTH by auto. reflexivity. }
      eapply okp_mono; [exact HQ|]. intros st (QA & QB & QC). unfold P. splits; auto.
      intros c Hc. rewrite QC by auto. destruct (Nat.ltb_spec c nc); [reflexivity|lia]. }
  apply okp_iff in H as ((vs & ix) & E & A & B & C). cbn [fst snd] in *. rewrite E. cbn [bind].
  exists ix. splits; auto. intros r Hr. rewrite <- C by auto. reflexivity.
Qed.

(** what it means that [i] is the index of a largest of the [n] values [f] (the
    first one, when none of the values before it is a NaN) *)
Definition largest (f : nat -> T) (n i : nat) : Prop :=
  i < n /\ (forall c, c < n -> nltb N (f i) (f c) = false) /\
  (forall c, c < i -> neqb N (f c) (f c) = true -> nltb N (f c) (f i) = true).

(** C48 for the lines that contain a value above DBL_MIN (the smallest positive
    normal number): the answer is the first index of a largest element.  A line
    without such a value gets index 0.  Axis 0 answers per row, axis 1 per
    column; every other axis throws. *)
Theorem c48_argmax_partial : forall (m : dmat N), shaped m ->
  (exists idx, dm_argmax m 0 = Ok idx /\ length idx = dm_nrow m /\
     forall r, r < dm_nrow m ->
       ((exists c, c < dm_ncol m /\ nltb N (nmin N) (cell m r c) = true) ->
         largest (fun c => cell m r c) (dm_ncol m) (nth r idx 0)) /\
       ((forall c, c < dm_ncol m -> nltb N (nmin N) (cell m r c) = false) -> nth r idx 0 = 0)) /\
  (exists idx, dm_argmax m 1 = Ok idx /\ length idx = dm_ncol m /\
     forall c, c < dm_ncol m ->
       ((exists r, r < dm_nrow m /\ nltb N (nmin N) (cell m r c) = true) ->
         largest (fun r => cell m r c) (dm_nrow m) (nth c idx 0)) /\
       ((forall r, r < dm_nrow m -> nltb N (nmin N) (cell m r c) = false) -> nth c idx 0 = 0)) /\
  (forall axis, 2 <= axis -> dm_argmax m axis = Err Throw).
Proof.
  intros m S.
  assert (K : forall f n,
     ((exists c, c < n /\ nltb N (nmin N) (f c) = true) -> largest f n (snd (scan f n))) /\
     ((forall c, c < n -> nltb N (nmin N) (f c) = false) -> snd (scan f n) = 0)).
  { intros f n. destruct (scan_spec f n) as (M & [(A & B & C)|(A & B & C & D)]); split.
    - intros (c & Hc & E). rewrite C in E by exact Hc. discriminate.
    - intros _. exact A.
    - intros _. unfold largest. rewrite <- B. auto.
    - intros H. rewrite B, H in C by exact A. discriminate. }
  splits.
  - destruct (argmax_rows S) as (idx & E & L & C). exists idx. splits; auto. intros r Hr.
    rewrite C by exact Hr. apply K.
  - destruct (argmax_cols S) as (idx & E & L & C). exists idx. splits; auto. intros r Hr.
    rewrite C by exact Hr. apply K.
  - intros axis Ha. unfold dm_argmax. destruct axis as [|[|a]]; try lia. reflexivity.
Qed.
End A.

Lemma nmin_pos : (0 < nmin NumR)%R.
Proof. cbn. apply Rinv_0_lt_compat. apply IZR_lt. reflexivity. Qed.

(** C48 is false for lines without a positive value: the largest element of
    (-2, -1) is at index 1, the answer is 0. *)
Theorem c48_refuted : exists m : dmat NumR, shaped m /\ dm_nrow m = 1 /\ dm_ncol m = 2 /\
  (cell m 0 0 < cell m 0 1)%R /\ dm_argmax m 0 = Ok [0].
Proof.
  exists (@mkDm NumR [(-2)%R; (-1)%R] 1 2). split; [reflexivity|]. splits; try reflexivity.
  - unfold cell; cbn [dm_mat dm_ncol nth Nat.mul Nat.add]. lra.
  - destruct (@argmax_rows NumR (@mkDm NumR [(-2)%R; (-1)%R] 1 2) eq_refl) as (idx & E & L & C).
    rewrite E. cbn [dm_nrow dm_ncol] in *. specialize (C 0 ltac:(lia)).
    destruct idx as [|i [|? ?]]; cbn [length] in L; try lia. cbn [nth] in C. subst i. do 2 f_equal.
    pose proof nmin_pos as P. cbn [scan].
    assert (N1 : forall x : R, (x <= 0)%R -> nltb NumR (nmin NumR) x = false).
    { intros x Hx. apply Rltb_false. lra. }
    unfold cell; cbn [dm_mat dm_ncol nth Nat.mul Nat.add].
    rewrite (N1 (-2)%R) by lra. rewrite (N1 (-1)%R) by lra. reflexivity.
Qed.

(** Non-vacuity: a row with positive values. *)
Example c48_ex : exists m : dmat NumR, shaped m /\
  exists c, c < dm_ncol m /\ nltb NumR (nmin NumR) (cell m 0 c) = true.
Proof.
  exists (@mkDm NumR [3%R; 5%R; 1%R] 1 3). split; [reflexivity|]. exists 1. split; [cbn; lia|].
  apply Rltb_true. unfold cell; cbn [dm_mat dm_ncol nth Nat.mul Nat.add].
  apply Rlt_trans with 1%R; [|lra].
  cbn. rewrite <- Rinv_1. apply Rinv_1_lt_contravar; [lra|]. apply IZR_lt. reflexivity.
Qed.
