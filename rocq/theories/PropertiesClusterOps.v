(** C136: assigning one cluster container to another, and [+=]. *)
From Verif Require Import Base Num Spec MatLemmas VecLemmas ClustersModel ClustersProofs PropertiesClusters.
From Coq Require Import Reals Lra.
Set Implicit Arguments.

Lemma loop_cong {S} n : forall (f f' : nat -> S -> res S) s, (forall i v, (i < n)%nat -> f i v = f' i v) -> loop n f s = loop n f' s.
Proof.
  induction n as [|n IH]; intros f f' s H; [reflexivity|]. rewrite !loop_S, (IH f f' s) by (intros; apply H; lia).
  destruct (loop n f' s) as [v|]; cbn [bind]; [apply H; lia|reflexivity].
Qed.

Section Any.
Variable N : Num.

(** after [a = b], whatever the sizes, [a] has the size, the sums and the counts of [b];
    its finalisation marks are its own *)
Theorem C136_assign : forall k d k' d' (a b : clusters N), shaped k d a -> shaped k' d' b ->
  let c := assign_op a b in
  c_nclust c = k' /\ c_ncol c = d' /\ (forall j, crow c j = crow b j /\ cnum c j = cnum b j /\ cdone c j = cdone a j) /\
  (k = k' -> shaped k' d' c).
Proof.
  intros k d k' d' a b (A1 & A2 & A3 & A4 & A5) (B1 & B2 & B3 & B4 & B5) c. unfold c, assign_op. cbn [c_nclust c_ncol]. splits; auto.
  intros ->. unfold shaped, cwf. cbn [c_nclust c_ncol c_members c_complete c_means] in *. splits; auto; congruence.
Qed.

(** a mark that [a] had before the assignment stays: finalizing the copy leaves the sums
    of [b] undivided *)
Theorem C136_marks_stay : forall k d (a b : clusters N) i, shaped k d a -> shaped k d b -> (i < k)%nat -> cdone a i = true ->
  finalize (assign_op a b) i = Ok (assign_op a b).
Proof.
  intros k d a b i (A1 & A2 & A3 & A4 & A5) (B1 & B2 & B3 & B4 & B5) Hi Hd. unfold finalize, assign_op. cbn [c_complete].
  rewrite (@aget_nth _ (c_complete a) i false) by lia. cbn [bind]. unfold cdone in Hd. rewrite Hd. reflexivity.
Qed.

(** assigned a larger container, [a] has no marks for the clusters that are new to it:
    finalizing or unfinalizing one of them reads outside the vector of marks *)
Theorem C136_assign_larger : forall k d k' d' (a b : clusters N) i, shaped k d a -> shaped k' d' b -> (k <= i < k')%nat ->
  finalize (assign_op a b) i = Err UB /\ unfinalize (assign_op a b) i = Err UB /\ finalize_all (assign_op a b) = Err UB.
Proof.
  intros k d k' d' a b i (A1 & A2 & A3 & A4 & A5) (B1 & B2 & B3 & B4 & B5) Hi.
  assert (X : forall j (c : clusters N), length (c_complete c) = k -> (k <= j)%nat -> aget (c_complete c) j = Err UB).
  { intros j c L Hj. unfold aget. rewrite (proj2 (nth_error_None _ _)) by lia. reflexivity. }
  assert (F : forall j (c : clusters N), length (c_complete c) = k -> (k <= j)%nat -> finalize c j = Err UB).
  { intros j c L Hj. unfold finalize. rewrite (X j c L Hj). reflexivity. }
  assert (L0 : length (c_complete (assign_op a b)) = k) by (cbn; congruence).
  split; [apply F; [exact L0|lia]|]. split; [unfold unfinalize; rewrite (X i _ L0 (proj1 Hi)); reflexivity|].
  unfold finalize_all. replace (c_nclust (assign_op a b)) with k' by (cbn; congruence).
  destruct k' as [|m]; [lia|].
  assert (G : forall m (c : clusters N), length (c_complete c) = k -> match loop m (fun i c' => finalize c' i) c with Ok c' => length (c_complete c') = k | Err e => e = UB end).
  { clear - N. induction m as [|m IH]; intros c L; [exact L|]. rewrite loop_S. specialize (IH c L). destruct (loop m _ c) as [c1|e]; cbn [bind]; [|exact IH].
    unfold finalize. unfold aget at 1. destruct (nth_error (c_complete c1) m) as [b0|] eqn:Eb; cbn [bind]; [|reflexivity]. destruct b0; [exact IH|].
    unfold aget at 1. destruct (nth_error (c_members c1) m) as [n0|]; cbn [bind]; [|reflexivity].
    destruct (1 <? n0)%Z.
    - assert (Q : match loop (c_ncol c1) (fun i m0 => amod m0 (m * c_ncol c1 + i)%nat (fun x => ndiv N x (nofZ N n0))) (c_means c1) with Ok _ => True | Err e => e = UB end).
      { generalize (c_ncol c1) at 1. induction n as [|n IHn]; [exact Logic.I|]. rewrite loop_S. destruct (loop n _ _) as [v|e]; cbn [bind]; [|exact IHn].
        unfold amod, aset. destruct (aget v _) as [y|e] eqn:Ey; cbn [bind].
        - destruct (_ <? _)%nat; [exact Logic.I|reflexivity].
        - unfold aget in Ey. destruct (nth_error v _); [discriminate|injection Ey as <-; reflexivity]. }
      destruct (loop (c_ncol c1) _ _) as [v|e]; cbn [bind]; [|exact Q].
      unfold aset. destruct (_ <? _)%nat; cbn [bind]; [|reflexivity]. cbn. rewrite upd_length. exact IH.
    - cbn [bind]. unfold aset. destruct (_ <? _)%nat; cbn [bind]; [|reflexivity]. cbn. rewrite upd_length. exact IH. }
  assert (Hm : (k <= m)%nat) by lia. rewrite loop_S. specialize (G m (assign_op a b) L0).
  destruct (loop m _ _) as [c1|e]; cbn [bind]; [|congruence]. apply F; assumption.
Qed.

(** [a += b] is [a.peq(b)] for containers of one size *)
Theorem C136_plus : forall k d (a b : clusters N), shaped k d a -> shaped k d b ->
  exists c, plus_eq a b = Ok c /\ peq a b = Ok c /\ shaped k d c /\
    forall j, (j < k)%nat -> crow c j = map2 (nadd N) (crow a j) (crow b j) /\ cnum c j = (cnum a j + cnum b j)%Z /\ cdone c j = cdone a j.
Proof.
  intros k d a b Ha Hb. destruct (C09_merge_two Ha Hb) as (c & E & Hs & H). exists c. splits; auto.
  rewrite <- E. unfold peq. pose proof Ha as (A1 & A2 & A3 & A4 & A5). pose proof Hb as (B1 & B2 & B3 & B4 & B5).
  replace (length (c_means b) =? length (c_means a))%nat with true by (symmetry; apply Nat.eqb_eq; congruence). reflexivity.
Qed.

(** it checks no sizes: a larger right-hand side of the same dimension is cut to the left
    one's clusters, where [peq] aborts; a smaller one is read outside its sums *)
Theorem C136_plus_larger : forall k k' d (a b : clusters N), shaped k d a -> shaped k' d b -> (k < k')%nat -> (1 <= d)%nat ->
  peq a b = Err Abort /\
  exists c, plus_eq a b = Ok c /\ shaped k d c /\
    forall j, (j < k)%nat -> crow c j = map2 (nadd N) (crow a j) (crow b j) /\ cnum c j = (cnum a j + cnum b j)%Z /\ cdone c j = cdone a j.
Proof.
  intros k k' d a b Ha Hb Hk Hd. pose proof Ha as (A1 & A2 & A3 & A4 & A5). pose proof Hb as (B1 & B2 & B3 & B4 & B5). split.
  { apply peq_size_mismatch. rewrite A3, B3, A1, A2, B1, B2. nia. }
  set (b' := @mkClusters N d k (firstn k (c_members b)) (firstn k (c_complete b)) (firstn (k * d) (c_means b))).
  assert (Hb' : shaped k d b').
  { unfold shaped, cwf, b'. cbn [c_nclust c_ncol c_members c_complete c_means]. rewrite !firstn_length. splits; auto; nia. }
  destruct (C136_plus Ha Hb') as (c & E & _ & Hs & H). exists c. split; [|split; [exact Hs|]].
  - rewrite <- E. unfold plus_eq.
    assert (X1 : forall m, loop (length (c_means a)) (fun i m => let* x := aget (c_means b) i in amod m i (fun y => nadd N y x)) m =
       loop (length (c_means a)) (fun i m => let* x := aget (c_means b') i in amod m i (fun y => nadd N y x)) m).
    { intros m. apply loop_cong. intros i v Hi. unfold b'. cbn [c_means]. rewrite A3, A1, A2 in Hi.
      unfold aget. rewrite nth_error_firstn. destruct (Nat.ltb_spec i (k * d)) as [_|X]; [|lia]. reflexivity. }
    rewrite X1. destruct (loop (length (c_means a)) _ (c_means a)) as [m|]; cbn [bind]; [|reflexivity].
    apply loop_cong. intros i v Hi. unfold b'. cbn [c_members]. unfold aget. rewrite nth_error_firstn. destruct (Nat.ltb_spec i k) as [_|X]; [|lia]. reflexivity.
  - intros j Hj. destruct (H j Hj) as (R1 & R2 & R3). rewrite R1, R2, R3. splits; auto.
    + f_equal. unfold crow, b'. cbn [c_means c_ncol]. rewrite B2. unfold row, slice. rewrite skipn_firstn_comm, firstn_firstn. f_equal. nia.
    + f_equal. unfold cnum, b'. cbn [c_members]. symmetry. rewrite <- (firstn_skipn k (c_members b)) at 1. apply app_nth1. rewrite firstn_length. lia.
Qed.

Theorem C136_plus_smaller : forall k k' d (a b : clusters N), shaped k d a -> shaped k' d b -> (k' < k)%nat -> (1 <= d)%nat ->
  plus_eq a b = Err UB.
Proof.
  intros k k' d a b (A1 & A2 & A3 & A4 & A5) (B1 & B2 & B3 & B4 & B5) Hk Hd. unfold plus_eq. rewrite A3.
  assert (G : forall m, (m <= c_nclust a * c_ncol a)%nat -> match loop m (fun i m => let* x := aget (c_means b) i in amod m i (fun y => nadd N y x)) (c_means a) with
     | Ok v => length v = length (c_means a) /\ (m <= c_nclust b * c_ncol b)%nat | Err e => e = UB end).
  { induction m as [|m IH]; intros Hm; [cbn; split; [auto|lia]|]. rewrite loop_S. specialize (IH ltac:(lia)).
    destruct (loop m _ _) as [v|e]; cbn [bind]; [|exact IH]. destruct IH as (L & Hm').
    unfold aget at 1. destruct (nth_error (c_means b) m) as [x|] eqn:Ex; cbn [bind]; [|reflexivity].
    assert (Q : (m < length (c_means b))%nat) by (apply nth_error_Some; congruence).
    destruct (nth_error v m) as [y|] eqn:Ey; [|apply nth_error_None in Ey; lia].
    rewrite (amod_ok _ _ _ Ey). rewrite upd_length. split; [exact L|]. rewrite B3 in Q. lia. }
  specialize (G _ (le_n _)). destruct (loop _ _ _) as [v|e]; cbn [bind]; [|congruence]. destruct G as (_ & X). rewrite A1, A2, B1, B2 in X. nia.
Qed.
End Any.
Print Assumptions C136_assign.
Print Assumptions C136_marks_stay.
Print Assumptions C136_assign_larger.
Print Assumptions C136_plus.
Print Assumptions C136_plus_larger.
Print Assumptions C136_plus_smaller.

(** two containers, of different sizes and marks *)
Local Open Scope R_scope.
Definition opa : clusters NumR := @mkClusters NumR 2 1 [3%Z] [true] [1; 2].
Definition opb : clusters NumR := @mkClusters NumR 2 2 [4%Z; 5%Z] [false; false] [8; 4; 10; 5].
Example C136_example : shaped 1 2 opa /\ shaped 2 2 opb /\ cdone opa 0 = true /\
  shaped 2 2 (@mkClusters NumR 2 2 [1%Z; 1%Z] [true; false] [0; 0; 0; 0]) /\
  crow (assign_op opa opb) 1 = [10; 5] /\ cnum (assign_op opa opb) 1 = 5%Z /\ finalize (assign_op opa opb) 0 = Ok (assign_op opa opb) /\
  finalize (assign_op opa opb) 1 = Err UB /\ plus_eq opb opa = Err UB /\ exists c, plus_eq opa opb = Ok c /\ cnum c 0 = 7%Z.
Proof.
  assert (Ha : shaped 1 2 opa) by (unfold shaped, cwf; cbn; splits; auto).
  assert (Hb : shaped 2 2 opb) by (unfold shaped, cwf; cbn; splits; auto).
  splits; auto; try reflexivity; try (unfold shaped, cwf; cbn; splits; auto; fail).
  destruct (@C136_plus_larger NumR 1 2 2 opa opb Ha Hb ltac:(lia) ltac:(lia)) as (_ & c & E & _ & H). exists c. split; [exact E|].
    rewrite (proj1 (proj2 (H 0%nat ltac:(lia)))). reflexivity.
Qed.
