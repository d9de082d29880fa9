(** Unpruned k-means in exact arithmetic: centroids are means, the objective. *)
From Coq Require Import Reals Lra.
From Verif Require Import Base Num Spec DistModel ClustersModel ClustersView PartitionModel ParModel KmeansModel.
From Verif Require Import MatLemmas VecLemmas ClustersProofs DistProofs PartitionProofs ParProofs NearProofs KmeansProofs UpdateProofs RunProofs.
Set Implicit Arguments.
Local Open Scope R_scope.

(** the rows of [xas] tagged [j] *)
Definition picks (j : nat) (l : list (list R * nat)) : list (list R) :=
  map fst (filter (fun xa => Nat.eqb (snd xa) j) l).

Lemma picks_app j l m : picks j (l ++ m) = picks j l ++ picks j m.
Proof. unfold picks. rewrite filter_app, map_app. reflexivity. Qed.

Lemma picks_dim d j l : alldim d (map fst l) -> alldim d (picks j l).
Proof.
  unfold picks, alldim. intros H. apply Forall_forall. intros x Hx. apply in_map_iff in Hx as (y & <- & Hy).
  apply filter_In in Hy as (Hy & _). rewrite Forall_forall in H. apply H. apply in_map. exact Hy.
Qed.

Lemma csum_R d j l : alldim d (map fst l) -> csum NumR d j l = vsum d (picks j l).
Proof.
  intros H.
  assert (G : forall l a, alldim d (map fst l) -> length a = d ->
    fold_left (fun s (xa : list R * nat) => if (snd xa =? j)%nat then map2 Rplus s (fst xa) else s) l a = vadd a (vsum d (picks j l))).
  { clear. induction l as [|[x c] l IH]; intros a H La; cbn [fold_left].
    - unfold picks, vsum; cbn. symmetry. apply vadd_zero_r. exact La.
    - inversion H as [|? ? Hx Hl]; subst. cbn [fst snd] in *. unfold picks. cbn [filter snd].
      destruct (Nat.eqb_spec c j).
      + rewrite IH; auto; [|rewrite map2_length; lia]. cbn [map fst]. rewrite vsum_cons.
        unfold picks. change (map2 Rplus a x) with (vadd a x). symmetry. apply vadd_assoc.
      + apply IH; auto. }
  unfold csum. change (nadd NumR) with Rplus. change (repeat (nzero NumR) d) with (vzero d).
  change (fold_left (fun s (xa : list R * nat) => if (snd xa =? j)%nat then map2 Rplus s (fst xa) else s) l (vzero d) = vsum d (picks j l)).
  rewrite G; auto; [|apply vzero_length]. apply vadd_zero_l. apply vsum_length. apply picks_dim. exact H.
Qed.

Section KR.
Variables (g : kcfg NumR) (data : list R).
Let d := g_ncol g.
Let nrow := g_nrow g.

Lemma xas_alldim s A : length data = (nrow * d)%nat -> (s + length A <= nrow)%nat -> alldim d (map fst (xas g data s A)).
Proof.
  intros Hd Hs. apply Forall_forall. intros x Hx. apply in_map_iff in Hx as ([y a] & <- & Hy). cbn [fst].
  unfold xas in Hy. apply in_combine_l in Hy. apply in_map_iff in Hy as (r & <- & Hr). apply in_seq in Hr.
  apply (@row_length _ data d r nrow); [exact Hd|lia].
Qed.

Lemma xas_split lo A n : (n <= length A)%nat ->
  xas g data lo A = xas g data lo (firstn n A) ++ xas g data (lo + n) (skipn n A).
Proof.
  intros H. unfold xas.
  rewrite <- (firstn_skipn n A) at 1 2. rewrite app_length, seq_app, map_app.
  rewrite firstn_length, Nat.min_l by exact H.
  assert (G : forall (X Y : list (list R)) (B C : list nat), length X = length B -> combine (X ++ Y) (B ++ C) = combine X B ++ combine Y C).
  { clear. induction X as [|x X IH]; intros Y [|b B] C L; simpl in *; try lia; auto. f_equal. apply IH. lia. }
  change (car NumR) with R. rewrite G; [reflexivity|]. rewrite map_length, seq_length, firstn_length. lia.
Qed.

Lemma usum_R A j : length data = (nrow * d)%nat -> length A = nrow ->
  forall (ws : list (worker NumR)) lo, ntiles lo nrow (w_ranges ws) ->
  forall acc, length acc = d ->
  fold_left (fun s (w : worker NumR) => map2 Rplus s (csum NumR d j (xas g data (w_start w) (slice A (w_start w) (w_nrow w))))) ws acc
  = vadd acc (vsum d (picks j (xas g data lo (skipn lo A)))).
Proof.
  intros Hd LA. induction ws as [|w ws IH]; intros lo Ht acc La; cbn [w_ranges map ntiles fold_left] in *.
  - subst lo. rewrite skipn_all2 by lia. unfold xas, picks. simpl. symmetry. apply vadd_zero_r. exact La.
  - destruct Ht as (Hs & Ht). pose proof (@ntiles_le _ _ _ Ht) as Hle. subst lo.
    assert (Ls : length (slice A (w_start w) (w_nrow w)) = w_nrow w) by (apply slice_length; lia).
    assert (Dx : alldim d (map fst (xas g data (w_start w) (slice A (w_start w) (w_nrow w))))).
    { apply xas_alldim; [exact Hd|]. change (list (car NumR)) with (list R). lia. }
    rewrite (csum_R j _ Dx).
    pose proof (vsum_length (picks_dim j _ Dx)) as Lv.
    rewrite (IH _ Ht) by (rewrite map2_length; lia).
    rewrite (@xas_split (w_start w) (skipn (w_start w) A) (w_nrow w)) by (rewrite skipn_length; lia).
    rewrite picks_app, vsum_app.
    + change (map2 Rplus acc (vsum d (picks j (xas g data (w_start w) (slice A (w_start w) (w_nrow w))))))
        with (vadd acc (vsum d (picks j (xas g data (w_start w) (slice A (w_start w) (w_nrow w)))))).
      rewrite <- vadd_assoc. unfold slice. f_equal. f_equal. f_equal. f_equal. f_equal.
      clear. revert A. generalize (w_start w). intros n A. rewrite Nat.add_comm. revert A. induction n; intros A; simpl.
      * rewrite Nat.add_0_r. reflexivity.
      * rewrite Nat.add_succ_r. destruct A; [rewrite !skipn_nil; reflexivity|]. apply IHn.
    + apply picks_dim. exact Dx.
    + apply picks_dim. apply xas_alldim; [exact Hd|]. rewrite skipn_length, skipn_length. lia.
Qed.

(** the members of cluster [j] *)
Definition mems (A : list nat) (j : nat) : list (list R) := picks j (xas g data 0 A).

Lemma mems_length A j : length (mems A j) = count_eq j A.
Proof.
  unfold mems, picks. rewrite map_length.
  rewrite <- (@xas_snd NumR g data 0 A) at 2. unfold count_eq.
  generalize (xas g data 0 A). intros l. induction l as [|[x a] l IH]; [reflexivity|]. cbn [filter map snd].
  destruct (a =? j)%nat; simpl; auto.
Qed.

Lemma mems_dim A j : length data = (nrow * d)%nat -> (length A <= nrow)%nat -> alldim d (mems A j).
Proof. intros Hd LA. apply picks_dim. apply xas_alldim; auto. Qed.

Definition mean_or_zero (l : list (list R)) : list R := match l with [] => vzero d | _ => vmean d l end.

Lemma map_div1 (l : list R) : map (fun s => s / 1) l = l.
Proof. induction l; simpl; f_equal; auto. field. Qed.

Lemma fin1_mean (l : list (list R)) :
  fin1 NumR (vsum d l, Z.of_nat (length l), false) = (mean_or_zero l, Z.of_nat (length l), true).
Proof.
  unfold fin1. destruct l as [|x [|y l]].
  - reflexivity.
  - cbn [length]. destruct (Z.ltb_spec 1 (Z.of_nat 1)); [lia|]. f_equal. f_equal. unfold mean_or_zero, vmean.
    cbn [length INR]. rewrite map_div1. reflexivity.
  - destruct (Z.ltb_spec 1 (Z.of_nat (length (x :: y :: l)))) as [_|H]; [|cbn [length] in H; lia].
    f_equal. f_equal. unfold mean_or_zero, vmean. apply map_ext. intros a. change (a / IZR (Z.of_nat (length (x :: y :: l))) = a / INR (length (x :: y :: l))). rewrite <- INR_IZR_INZ. reflexivity.
Qed.

Lemma ucel_R (ws : list (worker NumR)) A j : length data = (nrow * d)%nat -> length A = nrow -> ntiles 0 nrow (w_ranges ws) ->
  ucel g ws data A j = (mean_or_zero (mems A j), Z.of_nat (count_eq j A), true).
Proof.
  intros Hd LA Ht. unfold ucel, usum. change (repeat (nzero NumR) (g_ncol g)) with (vzero d). change (nadd NumR) with Rplus.
  pose proof (@usum_R A j Hd LA ws 0%nat Ht (vzero d) (vzero_length d)) as E. cbn [skipn] in E.
  change (fin1 NumR (fold_left (fun s (w : worker NumR) => map2 Rplus s (csum NumR d j (xas g data (w_start w) (slice A (w_start w) (w_nrow w))))) ws (vzero d),
     Z.of_nat (count_eq j A), false) = (mean_or_zero (mems A j), Z.of_nat (count_eq j A), true)).
  rewrite E. rewrite vadd_zero_l.
  - fold (mems A j). rewrite <- mems_length. apply fin1_mean.
  - apply vsum_length. apply mems_dim; [exact Hd|lia].
Qed.

(** the random-partition record *)
Lemma rcel_R A j : length data = (nrow * d)%nat -> length A = nrow ->
  fin1 NumR (csum NumR d j (xas g data 0 A), Z.of_nat (count_eq j A), false)
  = (mean_or_zero (mems A j), Z.of_nat (count_eq j A), true).
Proof.
  intros Hd LA. rewrite csum_R by (apply xas_alldim; [exact Hd|simpl; lia]).
  fold (mems A j). rewrite <- mems_length. apply fin1_mean.
Qed.

End KR.
