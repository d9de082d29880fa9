(** C127: the Anderson-Darling statistic and its critical values
    (AndersonDarling.hpp:36-74). *)
From Coq Require Import Reals Permutation Sorted Lra.
From Verif Require Import Base Num Spec MatrixModel DistModel ClustersModel PartitionModel ParModel KmeansModel ContainersModel HclustModel XmeansModel GmeansModel.
From Verif Require Import PropertiesGmeansR.
Set Implicit Arguments.

(** ** std::sort *)
Section Sort.
Variable N : Num.
Notation T := (car N).
Lemma insert_perm (x : T) l : Permutation (x :: l) (@insert N x l).
Proof. induction l as [|y l IH]; cbn; [constructor; constructor|]. destruct (nltb N x y); [apply Permutation_refl|]. rewrite perm_swap. constructor. exact IH. Qed.
Lemma nsort_perm (l : list T) : Permutation l (@nsort N l).
Proof. induction l as [|x l IH]; cbn; [constructor|]. rewrite <- insert_perm. constructor. exact IH. Qed.

(** not one after the other in decreasing order; numbers only *)
Definition up (x y : T) : Prop := nltb N y x = false.
Hypothesis L : OrdLaws N.
Definition isnum (x : T) : Prop := neqb N x x = true.
Lemma up_trans x y w : isnum y -> up x y -> up y w -> up x w.
Proof. unfold up. intros Hy A B. exact (lt_ntrans L _ y _ Hy B A). Qed.
Lemma insert_sorted (x : T) l : isnum x -> Forall isnum l -> StronglySorted up l -> StronglySorted up (@insert N x l).
Proof.
  intros Hx. induction l as [|y l IH]; intros HN HS; cbn.
  - constructor; [constructor|constructor].
  - inversion HN; subst. inversion HS; subst. destruct (nltb N x y) eqn:E.
    + assert (U : up x y) by (unfold up; destruct (nltb N y x) eqn:E'; [|reflexivity]; pose proof (lt_trans L _ _ _ E E') as Q; rewrite (lt_irrefl L) in Q; discriminate).
      constructor; [exact HS|]. constructor; [exact U|]. rewrite Forall_forall in *. intros w Hw. apply (up_trans (y := y)); auto.
    + constructor; [apply IH; auto|]. rewrite Forall_forall in *. intros w Hw.
      apply (Permutation_in _ (Permutation_sym (insert_perm x l))) in Hw. destruct Hw as [<-|Hw]; [exact E|auto].
Qed.
Lemma nsort_num (l : list T) : Forall isnum l -> Forall isnum (@nsort N l).
Proof. intros H. rewrite Forall_forall in *. intros x Hx. apply H. exact (Permutation_in _ (Permutation_sym (nsort_perm l)) Hx). Qed.
Lemma nsort_sorted (l : list T) : Forall isnum l -> StronglySorted up (@nsort N l).
Proof.
  induction l as [|x l IH]; intros H; cbn; [constructor|]. inversion H; subst. apply insert_sorted; auto. apply nsort_num. assumption.
Qed.
End Sort.

(** The same numbers, none after a larger one; for doubles and for reals. *)
Theorem C127_sort : forall N (l : list (car N)), OrdLaws N -> (forall x, In x l -> neqb N x x = true) ->
  Permutation l (nsort l) /\ StronglySorted (fun x y => nltb N y x = false) (nsort l).
Proof. intros N l L H. split; [apply nsort_perm|]. apply (nsort_sorted L). apply Forall_forall. exact H. Qed.

Local Open Scope R_scope.

Lemma Rnum (l : list R) : Forall (@isnum NumR) l.
Proof. apply Forall_forall. intros x _. unfold isnum. cbn. apply Reqb_true. reflexivity. Qed.
Lemma nsortR_sorted (l : list R) : StronglySorted Rle (@nsort NumR l).
Proof.
  pose proof (@nsort_sorted NumR NumR_laws l (Rnum l)) as H. change (car NumR) with R in *. revert H. generalize (@nsort NumR l). intros s H.
  induction H as [|x s H IH F]; constructor; auto. rewrite Forall_forall in *. intros y Hy. specialize (F y Hy). unfold up in F. cbn [nltb NumR] in F.
  apply Rltb_false in F. lra.
Qed.
Lemma sorted_unique : forall l l' : list R, StronglySorted Rle l -> StronglySorted Rle l' -> Permutation l l' -> l = l'.
Proof.
  induction l as [|x l IH]; intros l' S1 S2 P.
  - apply Permutation_nil in P. auto.
  - destruct l' as [|y l']; [apply Permutation_sym, Permutation_nil in P; discriminate|].
    inversion S1; subst. inversion S2; subst. rewrite Forall_forall in *.
    assert (E : x = y).
    { assert (Hx : In x (y :: l')) by (apply (Permutation_in _ P); left; reflexivity). assert (Hy : In y (x :: l)) by (apply (Permutation_in _ (Permutation_sym P)); left; reflexivity).
      destruct Hx as [->|Hx]; [reflexivity|]. destruct Hy as [->|Hy]; [reflexivity|]. apply Rle_antisym; auto. }
    subst y. f_equal. apply IH; auto. eapply Permutation_cons_inv; exact P.
Qed.
Lemma nsortR_unique (l l' : list R) : Permutation l l' -> StronglySorted Rle l' -> @nsort NumR l = l'.
Proof. intros P S. apply sorted_unique; auto; [apply nsortR_sorted|]. rewrite <- (nsort_perm NumR l). exact P. Qed.

(** ** Specification *)
Definition mean (X : list R) : R := rsum X / INR (length X).
(** the sample standard deviation, with divisor n-1 *)
Definition deviation (X : list R) : R := sqrt (rsum (map (fun x => (x - mean X) ^ 2) X) / (INR (length X) - 1)).
(** A^2 = -n - (1/n) sum_{i=1}^n (2i-1) (ln Phi(Y_i) + ln (1 - Phi(Y_{n+1-i}))), Y the standardised sample in increasing order *)
Definition AD (phi : R -> R) (X : list R) : R :=
  let n := length X in
  let Y i := (nth (i - 1) X 0 - mean X) / deviation X in
  - INR n - / INR n * rsum (map (fun i => (2 * INR i - 1) * (ln (phi (Y i)) + ln (1 - phi (Y (n + 1 - i)%nat)))) (seq 1 n)).

Lemma rsum_fold (l : list R) : forall a, fold_left Rplus l a = a + rsum l.
Proof. induction l as [|x l IH]; intros a; unfold rsum; cbn; [ring|]. rewrite IH. unfold rsum. ring. Qed.
Lemma fold_sum {A} (f : A -> R) (l : list A) : forall a, fold_left (fun s x => s + f x) l a = a + rsum (map f l).
Proof. induction l as [|x l IH]; intros a; unfold rsum; cbn; [ring|]. rewrite IH. unfold rsum. ring. Qed.
Lemma rsum_scal {A} c (f : A -> R) (l : list A) : rsum (map (fun x => c * f x) l) = c * rsum (map f l).
Proof. induction l as [|x l IH]; unfold rsum in *; cbn; [ring|]. rewrite IH. ring. Qed.
Lemma rsum_ext {A} (f h : A -> R) (l : list A) : (forall x, In x l -> f x = h x) -> rsum (map f l) = rsum (map h l).
Proof. intros H. f_equal. apply map_ext_in. exact H. Qed.

Lemma nth_map_in (f : R -> R) (l : list R) i d d' : (i < length l)%nat -> nth i (map f l) d = f (nth i l d').
Proof. revert i. induction l as [|x l IH]; intros [|i] H; cbn in *; try lia; [reflexivity|]. apply IH. lia. Qed.
Lemma ad_ok (phi : R -> R) (X : list R) : (1 <= length X)%nat -> (Z.of_nat (length X) < 2 ^ 64)%Z -> @ad_statistic NumR ln phi X = AD phi (@nsort NumR X).
Proof.
  intros H1 H2. unfold ad_statistic. cbv zeta. assert (HL : @length R (@nsort NumR X) = length X) by (symmetry; apply Permutation_length, (nsort_perm NumR)).
  change (car NumR) with R in *. rewrite <- HL in H1, H2. set (Xs := @nsort NumR X) in *. clear HL. clearbody Xs. clear X.
  change (car NumR) with R in *. set (n := @length R Xs) in *. cbn [nadd nmul nsub ndiv nzero none nsqrt nofZ NumR car]. change (car NumR) with R in *.
  assert (E1 : fold_left Rplus Xs 0 = rsum Xs) by (rewrite rsum_fold; apply Rplus_0_l).
  assert (E2 : IZR (Z.of_nat n) = INR n) by (symmetry; apply INR_IZR_INZ).
  rewrite E1, E2. change (rsum Xs / INR n) with (mean Xs).
  assert (E3 : fold_left (fun s x => s + (x - mean Xs) * (x - mean Xs)) Xs 0 = rsum (map (fun x => (x - mean Xs) ^ 2) Xs)).
  { rewrite (fold_sum (fun x => (x - mean Xs) * (x - mean Xs))), Rplus_0_l. apply rsum_ext. intros x _. ring. }
  rewrite E3. assert (E4 : IZR (w64 (Z.of_nat n - 1)) = INR n - 1).
  { unfold w64. rewrite Z.mod_small by lia. rewrite minus_IZR, <- INR_IZR_INZ. reflexivity. }
  rewrite E4. change (sqrt (rsum (map (fun x => (x - mean Xs) ^ 2) Xs) / (INR n - 1))) with (deviation Xs).
  unfold AD. fold n. cbv zeta. rewrite fold_sum.
  assert (E5 : IZR (- Z.of_nat n) = - INR n) by (rewrite opp_IZR, <- INR_IZR_INZ; reflexivity).
  rewrite E5. transitivity (- INR n + - / INR n * rsum (map (fun i => (2 * INR i - 1) * (ln (phi ((nth (i - 1) Xs 0 - mean Xs) / deviation Xs)) + ln (1 - phi ((nth (n + 1 - i - 1) Xs 0 - mean Xs) / deviation Xs)))) (seq 1 n))); [|ring]. f_equal. rewrite <- rsum_scal. rewrite <- seq_shift, map_map. apply rsum_ext. intros i Hi. apply in_seq in Hi.
  rewrite !(@nth_map_in (fun x => (x - mean Xs) / deviation Xs) Xs _ 0 0) by (fold n; lia).
  replace (S i - 1)%nat with i by lia. replace (n + 1 - S i - 1)%nat with (n - 1 - i)%nat by lia.
  rewrite S_INR, minus_IZR, mult_IZR, plus_IZR, <- INR_IZR_INZ. field. apply not_0_INR. lia.
Qed.

(** The value of the statistic: the textbook formula on the sample in increasing order. *)
Theorem C127_statistic : forall (phi : R -> R) (X Xs : list R), (1 <= length X)%nat -> (Z.of_nat (length X) < 2 ^ 64)%Z ->
  Permutation X Xs -> StronglySorted Rle Xs -> @ad_statistic NumR ln phi X = AD phi Xs.
Proof. intros phi X Xs H1 H2 P S. rewrite ad_ok by assumption. f_equal. apply nsortR_unique; assumption. Qed.

Theorem C127_order_free : forall (phi : R -> R) (X X' : list R), Permutation X X' -> @ad_statistic NumR ln phi X = @ad_statistic NumR ln phi X'.
Proof.
  intros phi X X' P. unfold ad_statistic. assert (E : @nsort NumR X = @nsort NumR X'); [|rewrite E; reflexivity].
  apply nsortR_unique; [|apply nsortR_sorted]. rewrite <- (nsort_perm NumR X'). exact P.
Qed.

(** ** It depends on neither the position nor the scale of the sample *)
Lemma rsum_lin a b (X : list R) : rsum (map (fun x => a * x + b) X) = a * rsum X + b * INR (length X).
Proof. induction X as [|x X IH]; [unfold rsum; cbn; ring|]. unfold rsum in *. cbn [map fold_right length]. rewrite S_INR. rewrite IH. ring. Qed.

Lemma AD_affine phi a b (X : list R) : 0 < a -> AD phi (map (fun x => a * x + b) X) = AD phi X.
Proof.
  intros Ha. unfold AD. rewrite map_length. destruct (Nat.eq_dec (length X) 0) as [Hn|Hn].
  { destruct X; [reflexivity|discriminate]. }
  cbv zeta. f_equal. f_equal.
  assert (HN : INR (length X) <> 0) by (apply not_0_INR; exact Hn).
  assert (Em : mean (map (fun x => a * x + b) X) = a * mean X + b) by (unfold mean; rewrite map_length, rsum_lin; field; exact HN).
  assert (Ed : deviation (map (fun x => a * x + b) X) = a * deviation X).
  { unfold deviation. rewrite map_length, Em, map_map.
    rewrite (rsum_ext _ (fun x => a ^ 2 * (x - mean X) ^ 2)) by (intros x _; ring). rewrite rsum_scal.
    unfold Rdiv. rewrite Rmult_assoc, sqrt_mult_alt by nra. rewrite sqrt_pow2 by lra. reflexivity. }
  apply rsum_ext. intros i Hi. apply in_seq in Hi.
  assert (EY : forall j, (j < length X)%nat -> (nth j (map (fun x => a * x + b) X) 0 - mean (map (fun x => a * x + b) X)) / deviation (map (fun x => a * x + b) X) = (nth j X 0 - mean X) / deviation X).
  { intros j Hj. rewrite (@nth_map_in (fun x => a * x + b) X j 0 0) by exact Hj. rewrite Em, Ed. unfold Rdiv. rewrite Rinv_mult.
    replace (a * nth j X 0 + b - (a * mean X + b)) with (a * (nth j X 0 - mean X)) by ring.
    transitivity ((a * / a) * ((nth j X 0 - mean X) * / deviation X)); [ring|]. rewrite Rinv_r by lra. ring. }
  rewrite !EY by lia. reflexivity.
Qed.

Theorem C127_affine : forall (phi : R -> R) (X : list R) a b, 0 < a -> (1 <= length X)%nat -> (Z.of_nat (length X) < 2 ^ 64)%Z ->
  @ad_statistic NumR ln phi (map (fun x => a * x + b) X) = @ad_statistic NumR ln phi X.
Proof.
  intros phi X a b Ha H1 H2. rewrite !ad_ok by (try rewrite map_length; assumption). rewrite <- (AD_affine phi b (@nsort NumR X) Ha).
  f_equal. apply nsortR_unique; [apply Permutation_map; apply (nsort_perm NumR)|].
  pose proof (nsortR_sorted X) as S. revert S. generalize (@nsort NumR X). change (car NumR) with R. intros l S. induction S as [|x l S IH F]; cbn [map]; constructor; auto.
  rewrite Forall_forall in *. intros y Hy. apply in_map_iff in Hy as (w & <- & Hw). specialize (F w Hw). nra.
Qed.

Theorem C127_nonneg : forall (phi : R -> R) (X : list R), (forall x, 0 < phi x < 1) -> 0 <= @ad_statistic NumR ln phi X.
Proof. exact ad_statistic_nonneg. Qed.

(** ** The critical values *)
(** the five levels 0.576, 0.656, 0.787, 0.918, 1.092 divided by 1 + 4/n - 25/n^2 *)
Theorem C127_critical : forall n : R, n <> 0 ->
  @ad_critical NumR n = map (fun c => c / 1000 / (1 + 4 / n - 25 / n ^ 2)) [576; 656; 787; 918; 1092].
Proof.
  intros n Hn. unfold ad_critical, ad_levels. rewrite map_map. cbn [map nadd nsub nmul ndiv nofZ none NumR].
  replace (n * n) with (n ^ 2) by ring. reflexivity.
Qed.
(** From four values on the divisor is positive: the critical values are positive
    and grow with the strictness, so a stricter run undoes more splits. *)
Theorem C127_critical_order : forall (n : nat), (4 <= n)%nat ->
  StronglySorted Rlt (0 :: @ad_critical NumR (INR n)).
Proof.
  intros n Hn. assert (H4 : 4 <= INR n) by (replace 4 with (INR 4) by (cbn; ring); apply le_INR; exact Hn). rewrite C127_critical by lra.
  assert (Hd : 0 < 1 + 4 / INR n - 25 / INR n ^ 2).
  { replace (1 + 4 / INR n - 25 / INR n ^ 2) with ((INR n ^ 2 + 4 * INR n - 25) * / (INR n ^ 2)) by (field; lra).
    apply Rmult_lt_0_compat; [nra|]. apply Rinv_0_lt_compat. nra. }
  set (v := 1 + 4 / INR n - 25 / INR n ^ 2) in *. clearbody v. apply Rinv_0_lt_compat in Hd. unfold Rdiv. cbn [map]. set (w := / v) in *. clearbody w.
  repeat (constructor; [|repeat (constructor; [lra|]); constructor]); try constructor.
Qed.
(** With at most three values it is negative. *)
Theorem C127_critical_negative : forall (n : nat), (1 <= n <= 3)%nat -> forall c, In c (@ad_critical NumR (INR n)) -> c < 0.
Proof.
  intros n Hn c Hc. assert (Hd : 1 + 4 / INR n - 25 / INR n ^ 2 < 0).
  { destruct n as [|[|[|[|n]]]]; try lia; cbn [INR]; lra. }
  rewrite C127_critical in Hc by (apply not_0_INR; lia). apply Rinv_lt_0_compat in Hd. unfold Rdiv in Hc at 1. set (w := / (1 + 4 / INR n - 25 / INR n ^ 2)) in *. clearbody w.
  cbn [map In] in Hc. unfold Rdiv in Hc. repeat (destruct Hc as [<-|Hc]; [lra|]). destruct Hc.
Qed.

(** a sample that meets the hypotheses, sorted and shifted *)
Example C127_sample : @nsort NumR [3; 1; 2] = [1; 2; 3] /\ AD (fun _ => / 2) [1; 2; 3] = -3 - / 3 * (1 * (ln (/ 2) + ln (1 - / 2)) + (3 * (ln (/ 2) + ln (1 - / 2)) + (5 * (ln (/ 2) + ln (1 - / 2)) + 0))).
Proof.
  split.
  - apply nsortR_unique; [|repeat (constructor; [|repeat (constructor; [lra|]); constructor]); constructor].
    transitivity [1; 3; 2]; [apply perm_swap|]. constructor. apply perm_swap.
  - unfold AD, rsum. cbn [length seq map fold_right INR Nat.add Nat.sub]. f_equal; [ring|]. f_equal; [f_equal; ring|]. f_equal; [f_equal; ring|]. f_equal; [f_equal; ring|]. f_equal; f_equal; ring.
Qed.
