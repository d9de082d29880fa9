(** The k-means objective: minimality of means, monotonicity, termination. *)
From Coq Require Import Reals Lra.
From Verif Require Import Base Num Spec DistModel MatLemmas VecLemmas DistProofs.
Set Implicit Arguments.
Local Open Scope R_scope.

Lemma dot_vadd_l x y z : length x = length y -> length y = length z -> dot (vadd x y) z = dot x z + dot y z.
Proof.
  unfold dot, vadd. revert y z. induction x as [|a x IH]; intros [|b y] [|c z] H1 H2; simpl in *; try lia; try lra.
  rewrite IH by lia. lra.
Qed.
Lemma dot_vsub_l x y z : length x = length y -> length y = length z -> dot (vsub x y) z = dot x z - dot y z.
Proof.
  unfold dot, vsub. revert y z. induction x as [|a x IH]; intros [|b y] [|c z] H1 H2; simpl in *; try lia; try lra.
  rewrite IH by lia. lra.
Qed.
Lemma dot_vzero_l n z : dot (vzero n) z = 0.
Proof. unfold dot, vzero. revert z. induction n; intros [|c z]; simpl; try lra. rewrite IHn. lra. Qed.
Lemma dot_vsum_l n l z : alldim n l -> length z = n -> dot (vsum n l) z = rsum (map (fun x => dot x z) l).
Proof.
  intros Hl Hz. induction Hl as [|x l Hx Hl IH]; cbn [map rsum].
  - unfold vsum. simpl. apply dot_vzero_l.
  - rewrite vsum_cons, dot_vadd_l; [rewrite IH; reflexivity| |]; rewrite vsum_length by exact Hl; congruence.
Qed.
Lemma dot_div_l x n z : dot (map (fun s => s / n) x) z = dot x z / n.
Proof. unfold dot. revert z. induction x as [|a x IH]; intros [|c z]; simpl; try lra. rewrite IH. unfold Rdiv. lra. Qed.

(** total squared distance to a point = total to the mean + n times the squared distance of the mean *)
Lemma mean_split n l y : alldim n l -> length y = n -> l <> [] ->
  rsum (map (fun x => sqdist x y) l) =
  rsum (map (fun x => sqdist x (vmean n l)) l) + INR (length l) * sqdist (vmean n l) y.
Proof.
  intros Hl Hy Hne.
  assert (Lm : length (vmean n l) = n) by (unfold vmean; rewrite map_length; apply vsum_length; exact Hl).
  assert (Hn : INR (length l) <> 0). { apply not_0_INR. destruct l; [congruence|simpl; lia]. }
  set (m := vmean n l) in *.
  assert (E : forall x, length x = n -> sqdist x y = (sqdist x m + sqdist m y) + 2 * (dot x (vsub m y) - dot m (vsub m y))).
  { intros x Lx. rewrite <- dot_vsub_l; [|congruence|unfold vsub; rewrite map2_length; lia].
    clear - Lx Lm Hy. clearbody m. revert x m y Lx Lm Hy. unfold sqdist, dot, vsub. induction n as [|n IH]; intros [|a x] [|b m] [|c y] L1 L2 L3; simpl in *; try lia; try lra.
    rewrite (IH x m y) by lia. lra. }
  rewrite (rsum_ext (fun x => sqdist x y) (fun x => (sqdist x m + sqdist m y) + 2 * (dot x (vsub m y) - dot m (vsub m y)))).
  2:{ intros x Hx. apply E. unfold alldim in Hl. rewrite Forall_forall in Hl. apply Hl. exact Hx. }
  rewrite rsum_map_plus, rsum_map_scale, rsum_map_minus, rsum_map_plus, !rsum_map_const.
  rewrite <- (@dot_vsum_l n l (vsub m y) Hl) by (unfold vsub; rewrite map2_length; lia).
  assert (Ed : dot m (vsub m y) = dot (vsum n l) (vsub m y) / INR (length l)).
  { unfold m at 1. unfold vmean. apply dot_div_l. }
  rewrite Ed. field. exact Hn.
Qed.

Lemma mean_minimal n l y : alldim n l -> length y = n -> l <> [] ->
  rsum (map (fun x => sqdist x (vmean n l)) l) <= rsum (map (fun x => sqdist x y) l).
Proof.
  intros Hl Hy Hne. rewrite (@mean_split n l y Hl Hy Hne). pose proof (sqdist_pos (vmean n l) y). pose proof (pos_INR (length l)).
  assert (0 <= INR (length l) * sqdist (vmean n l) y) by (apply Rmult_le_pos; auto). lra.
Qed.

(** grouping a sum by cluster *)
Lemma rsum_indicator k c (v : nat -> R) : (c < k)%nat ->
  rsum (map (fun j => if (c =? j)%nat then v j else 0) (seq 0 k)) = v c.
Proof.
  intros Hck. assert (G : forall n s, rsum (map (fun j => if (c =? j)%nat then v j else 0) (seq s n)) =
     if (s <=? c)%nat && (c <? s + n)%nat then v c else 0).
  { induction n as [|n IH]; intros s; cbn [seq map rsum].
    - destruct (Nat.leb_spec s c); destruct (Nat.ltb_spec c (s + 0)); simpl; try lia; lra.
    - rewrite IH. destruct (Nat.eqb_spec c s) as [Ec|Ec].
      + subst s. replace (S c <=? c)%nat with false by (symmetry; apply Nat.leb_gt; lia).
        rewrite Nat.leb_refl. replace (c <? c + S n)%nat with true by (symmetry; apply Nat.ltb_lt; lia). simpl. lra.
      + replace (S s <=? c)%nat with (s <=? c)%nat by (destruct (Nat.leb_spec s c); destruct (Nat.leb_spec (S s) c); auto; lia).
        replace (c <? S s + n)%nat with (c <? s + S n)%nat by (f_equal; lia). lra. }
  rewrite G. destruct (Nat.leb_spec 0 c); [|lia]. destruct (Nat.ltb_spec c (0 + k)); [|lia]. reflexivity.
Qed.

Lemma rsum_group k (a : nat -> nat) (f : nat -> nat -> R) L : (forall r, In r L -> (a r < k)%nat) ->
  rsum (map (fun r => f r (a r)) L) =
  rsum (map (fun j => rsum (map (fun r => f r j) (filter (fun r => (a r =? j)%nat) L))) (seq 0 k)).
Proof.
  induction L as [|r L IH]; intros H; cbn [map rsum filter].
  - rewrite rsum_map_const. lra.
  - rewrite IH by (intros; apply H; right; auto).
    rewrite <- (@rsum_indicator k (a r) (fun j => f r j)) by (apply H; left; auto).
    rewrite <- rsum_map_plus. apply rsum_ext. intros j _. destruct (a r =? j)%nat; cbn [map rsum]; lra.
Qed.

(* ------------------------------------------------------------------ *)
(** * The objective *)

Section Sse.
Variables (n d k : nat) (x : nat -> list R).   (* rows *)
Hypothesis Hx : forall r, (r < n)%nat -> length (x r) = d.

Definition mem_rows (A : list nat) (j : nat) : list (list R) :=
  map x (filter (fun r => (nth r A 0%nat =? j)%nat) (seq 0 n)).
Definition ssum (A : list nat) (c : nat -> list R) : R :=
  rsum (map (fun r => sqdist (x r) (c (nth r A 0%nat))) (seq 0 n)).
Definition means_of (A : list nat) (c : nat -> list R) : Prop :=
  forall j, (j < k)%nat -> length (c j) = d /\ (mem_rows A j <> [] -> c j = vmean d (mem_rows A j)).

Lemma mem_rows_dim A j : alldim d (mem_rows A j).
Proof.
  apply Forall_forall. intros v Hv. unfold mem_rows in Hv. apply in_map_iff in Hv as (r & <- & Hr).
  apply filter_In in Hr as (Hr & _). apply in_seq in Hr. apply Hx. lia.
Qed.

Lemma ssum_min A c c' : (forall r, (r < n)%nat -> (nth r A 0 < k)%nat) -> means_of A c ->
  (forall j, (j < k)%nat -> length (c' j) = d) -> ssum A c <= ssum A c'.
Proof.
  intros HA Hc Hc'. unfold ssum.
  rewrite (@rsum_group k (fun r => nth r A 0%nat) (fun r j => sqdist (x r) (c j))) by (intros r Hr; apply in_seq in Hr; apply HA; lia).
  rewrite (@rsum_group k (fun r => nth r A 0%nat) (fun r j => sqdist (x r) (c' j))) by (intros r Hr; apply in_seq in Hr; apply HA; lia).
  apply rsum_le. intros j Hj. apply in_seq in Hj.
  destruct (Hc j ltac:(lia)) as (Lc & Hm).
  pose proof (mem_rows_dim A j) as Hd. unfold mem_rows in Hm, Hd.
  rewrite <- (map_map x (fun v => sqdist v (c j))), <- (map_map x (fun v => sqdist v (c' j))).
  set (l := map x (filter (fun r => (nth r A 0%nat =? j)%nat) (seq 0 n))) in *.
  assert (Hl : l = [] \/ l <> []) by (destruct l; [left; reflexivity|right; discriminate]).
  destruct Hl as [El|El]; [rewrite El; simpl; lra|].
  rewrite Hm by exact El. apply mean_minimal; [exact Hd|apply Hc'; lia|exact El].
Qed.

Lemma ssum_nearest A A' c : 
  (forall r, (r < n)%nat -> sqdist (x r) (c (nth r A' 0%nat)) <= sqdist (x r) (c (nth r A 0%nat))) ->
  ssum A' c <= ssum A c.
Proof. intros H. unfold ssum. apply rsum_le. intros r Hr. apply in_seq in Hr. apply H. lia. Qed.

(** one step of k-means: assign to the nearest (lowest index), move centroids to the means *)
Definition kstep (A : list nat) (c : nat -> list R) (A' : list nat) : Prop :=
  forall r, (r < n)%nat ->
    sqdist (x r) (c (nth r A' 0%nat)) <= sqdist (x r) (c (nth r A 0%nat)) /\
    (sqdist (x r) (c (nth r A' 0%nat)) = sqdist (x r) (c (nth r A 0%nat)) -> (nth r A' 0 <= nth r A 0%nat)%nat).

Lemma list_sum_le : forall (A A' : list nat), length A = length A' ->
  (forall r, (r < length A)%nat -> (nth r A' 0 <= nth r A 0%nat)%nat) -> (list_sum A' <= list_sum A)%nat /\ (list_sum A' = list_sum A -> A' = A).
Proof.
  induction A as [|a A IH]; intros [|a' A'] L H; simpl in L; try lia; [simpl; auto|].
  destruct (IH A') as (I1 & I2); [lia|intros r Hr; apply (H (S r)); simpl; lia|].
  pose proof (H 0%nat ltac:(simpl; lia)) as H0. simpl in H0. cbn [list_sum fold_right] in *. unfold list_sum in *. cbn [fold_right]. split; [lia|].
  intros E. f_equal; [lia|]. apply I2. lia.
Qed.

Lemma rsum_eq_terms {B} (f g : B -> R) l : (forall a, In a l -> f a <= g a) -> rsum (map f l) = rsum (map g l) ->
  forall a, In a l -> f a = g a.
Proof.
  intros H E a Ha. destruct (Rle_lt_or_eq_dec _ _ (H a Ha)) as [Hlt|]; auto. exfalso.
  assert (rsum (map f l) < rsum (map g l)) by (apply rsum_lt; eauto). lra.
Qed.

Definition pot_lt (A' : list nat) (c' : nat -> list R) (A : list nat) (c : nat -> list R) : Prop :=
  ssum A' c' < ssum A c \/ (ssum A' c' = ssum A c /\ (list_sum A' < list_sum A)%nat).

Lemma kstep_pot A c A' c' : length A = n -> length A' = n ->
  (forall r, (r < n)%nat -> (nth r A' 0 < k)%nat) -> (forall j, (j < k)%nat -> length (c j) = d) ->
  means_of A' c' -> kstep A c A' -> A' <> A -> pot_lt A' c' A c.
Proof.
  intros LA LA' HA' Hc Hc' Hs Hne.
  pose proof (@ssum_min A' c' c HA' Hc' Hc) as H1.
  pose proof (@ssum_nearest A A' c (fun r Hr => proj1 (Hs r Hr))) as H2.
  destruct (Rle_lt_or_eq_dec _ _ (Rle_trans _ _ _ H1 H2)) as [Hlt|Heq]; [left; exact Hlt|right].
  split; [exact Heq|].
  assert (E : ssum A' c = ssum A c) by lra. unfold ssum in E.
  pose proof (@rsum_eq_terms _ (fun r => sqdist (x r) (c (nth r A' 0%nat))) (fun r => sqdist (x r) (c (nth r A 0%nat))) (seq 0 n)) as Ht.
  destruct (@list_sum_le A A') as (Hl1 & Hl2); [congruence| |].
  - intros r Hr. apply (Hs r ltac:(lia)). apply Ht; [|exact E|apply in_seq; lia]. intros a Ha. apply in_seq in Ha. apply Hs. lia.
  - destruct (Nat.eq_dec (list_sum A') (list_sum A)); [exfalso; auto|lia].
Qed.

Lemma pot_trans A c A' c' A'' c'' : pot_lt A c A' c' -> pot_lt A' c' A'' c'' -> pot_lt A c A'' c''.
Proof. unfold pot_lt. intros [H|(H & ?)] [H'|(H' & ?)]; [left; lra|left; lra|left; lra|right; split; [lra|lia]]. Qed.

End Sse.

(* ------------------------------------------------------------------ *)
(** * Counting assignment vectors *)

Fixpoint all_vecs (n k : nat) : list (list nat) :=
  match n with
  | O => [[]]
  | S n' => flat_map (fun v => map (fun a => a :: v) (seq 0 k)) (all_vecs n' k)
  end.
Lemma all_vecs_length n k : length (all_vecs n k) = Nat.pow k n.
Proof.
  induction n as [|n IH]; [reflexivity|]. cbn [all_vecs Nat.pow].
  rewrite <- IH. generalize (all_vecs n k). intros l. induction l as [|v l IHl]; simpl; [lia|].
  rewrite app_length, map_length, seq_length, IHl. lia.
Qed.
Lemma all_vecs_in k : forall n v, length v = n -> Forall (fun a => (a < k)%nat) v -> In v (all_vecs n k).
Proof.
  induction n as [|n IH]; intros [|a v] L H; simpl in L; try lia; [left; reflexivity|].
  inversion H; subst. cbn [all_vecs]. apply in_flat_map. exists v. split; [apply IH; auto; lia|].
  apply in_map_iff. exists a. split; auto. apply in_seq. lia.
Qed.
Lemma nodup_vecs n k (l : list (list nat)) : NoDup l ->
  Forall (fun v => length v = n /\ Forall (fun a => (a < k)%nat) v) l -> (length l <= Nat.pow k n)%nat.
Proof.
  intros Hn Hf. rewrite <- all_vecs_length. apply NoDup_incl_length; auto.
  intros v Hv. rewrite Forall_forall in Hf. destruct (Hf v Hv). apply all_vecs_in; auto.
Qed.
