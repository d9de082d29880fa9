(** Cluster containers in exact arithmetic, coordinate by coordinate. *)
From Coq Require Import Reals Lra.
From Verif Require Import Base Num Spec ClustersModel ClustersView MatLemmas VecLemmas ClustersProofs.
Set Implicit Arguments.
Local Open Scope R_scope.

Section CIS.
Variables (k d : nat).

(** the container's coordinates, sizes and completeness flags *)
Definition cis (c : clusters NumR) (F : nat -> nat -> R) (M : nat -> Z) (D : nat -> bool) : Prop :=
  shaped k d c /\ forall j, (j < k)%nat -> cnum c j = M j /\ cdone c j = D j /\
    forall i, (i < d)%nat -> nth i (crow c j) 0 = F j i.

Lemma cis_ext c F M D F' M' D' : cis c F M D ->
  (forall j i, (j < k)%nat -> (i < d)%nat -> F j i = F' j i) -> (forall j, (j < k)%nat -> M j = M' j) ->
  (forall j, (j < k)%nat -> D j = D' j) -> cis c F' M' D'.
Proof.
  intros (Hs & H) HF HM HD. split; auto. intros j Hj. destruct (H j Hj) as (H1 & H2 & H3).
  splits; try congruence.
  - rewrite <- HM; auto.
  - rewrite <- HD; auto.
  - intros i Hi. rewrite H3, HF; auto.
Qed.

Lemma cis_row c F M D j : cis c F M D -> (j < k)%nat -> @length R (crow c j) = d.
Proof. intros ((Hk & Hd & Hwf) & _) Hj. rewrite <- Hd. apply (@crow_length NumR); [exact Hwf|lia]. Qed.

Lemma cis_vec c F M D j : cis c F M D -> (j < k)%nat -> crow c j = map (F j) (seq 0 d).
Proof.
  intros H Hj. apply (@vec_ext d).
  - eapply cis_row; eauto.
  - rewrite map_length, seq_length. reflexivity.
  - intros i Hi. destruct H as (_ & H). destruct (H j Hj) as (_ & _ & H3). rewrite H3 by exact Hi.
    rewrite (nth_indep _ 0 (F j 0%nat)) by (rewrite map_length, seq_length; exact Hi).
    rewrite map_nth, seq_nth by exact Hi. reflexivity.
Qed.

Lemma cis_create : cis (clusters_create NumR k d) (fun _ _ => 0) (fun _ => 0%Z) (fun _ => false).
Proof.
  split; [apply (@shaped_create NumR)|]. intros j Hj.
  pose proof (@cel_create NumR k d j Hj) as E. unfold cel in E. injection E as E1 E2 E3. rewrite E1, E2, E3.
  splits; auto. intros i Hi. exact (nth_vzero d i).
Qed.

Lemma cis_of_cel c F M D c' : cis c F M D -> shaped k d c' -> (forall j, (j < k)%nat -> cel c' j = cel c j) -> cis c' F M D.
Proof.
  intros (Hs & H) Hs' He. split; auto. intros j Hj. specialize (He j Hj). unfold cel in He.
  injection He as E1 E2 E3. rewrite E1, E2, E3. auto.
Qed.

Lemma cis_self c : shaped k d c -> cis c (fun j i => nth i (crow c j) 0) (cnum c) (cdone c).
Proof. intros H. split; auto. Qed.

Lemma cis_add c F M D arr x a : cis c F M D -> (a < k)%nat -> length x = d -> slice (fst arr) (snd arr) d = x ->
  exists c', @add_member NumR c arr a = Ok c' /\
    cis c' (fun j i => F j i + (if (j =? a)%nat then nth i x 0 else 0)) (fun j => M j + (if (j =? a)%nat then 1 else 0))%Z D.
Proof.
  intros H Ha Lx Hx. pose proof H as (Hs & Hc).
  destruct (@add_member_ok NumR k d c arr x a Hs Ha Lx Hx) as (c' & E & Hs' & Hc'). exists c'. split; [exact E|].
  split; auto. intros j Hj. pose proof (Hc' j Hj) as Ej. destruct (Hc j Hj) as (H1 & H2 & H3).
  assert (Lr : @length R (crow c j) = d) by (eapply cis_row; eauto).
  destruct (Nat.eqb_spec j a) as [->|Hne]; unfold cel in Ej; injection Ej as E1 E2 E3; rewrite E1, E2, E3.
  - splits; auto; [lia|]. intros i Hi. etransitivity; [apply (@nth_vadd (crow c a) x i); exact (eq_trans Lr (eq_sym Lx))|]. rewrite H3 by exact Hi. reflexivity.
  - splits; auto; [lia|]. intros i Hi. rewrite H3 by exact Hi. lra.
Qed.

Lemma cis_rem c F M D arr x a : cis c F M D -> (a < k)%nat -> length x = d -> slice (fst arr) (snd arr) d = x ->
  exists c', @remove_member NumR c arr a = Ok c' /\
    cis c' (fun j i => F j i - (if (j =? a)%nat then nth i x 0 else 0)) (fun j => M j - (if (j =? a)%nat then 1 else 0))%Z D.
Proof.
  intros H Ha Lx Hx. pose proof H as (Hs & Hc).
  destruct (@remove_member_ok NumR k d c arr x a Hs Ha Lx Hx) as (c' & E & Hs' & Hc'). exists c'. split; [exact E|].
  split; auto. intros j Hj. pose proof (Hc' j Hj) as Ej. destruct (Hc j Hj) as (H1 & H2 & H3).
  assert (Lr : @length R (crow c j) = d) by (eapply cis_row; eauto).
  destruct (Nat.eqb_spec j a) as [->|Hne]; unfold cel in Ej; injection Ej as E1 E2 E3; rewrite E1, E2, E3.
  - splits; auto; [lia|]. intros i Hi. etransitivity; [apply (@nth_vsub (crow c a) x i); exact (eq_trans Lr (eq_sym Lx))|]. rewrite H3 by exact Hi. reflexivity.
  - splits; auto; [lia|]. intros i Hi. rewrite H3 by exact Hi. lra.
Qed.

Lemma cis_swap c F M D arr x o a : cis c F M D -> (o < k)%nat -> (a < k)%nat -> length x = d -> slice (fst arr) (snd arr) d = x ->
  exists c', @swap_membership NumR c arr o a = Ok c' /\
    cis c' (fun j i => F j i - (if (j =? o)%nat then nth i x 0 else 0) + (if (j =? a)%nat then nth i x 0 else 0))
      (fun j => M j - (if (j =? o)%nat then 1 else 0) + (if (j =? a)%nat then 1 else 0))%Z D.
Proof.
  intros H Ho Ha Lx Hx. unfold swap_membership.
  destruct (cis_rem arr H Ho Lx Hx) as (c1 & -> & H1). cbn [bind].
  destruct (cis_add arr H1 Ha Lx Hx) as (c2 & -> & H2). exists c2. auto.
Qed.

Lemma cis_peq c F M D c' F' M' D' : cis c F M D -> cis c' F' M' D' ->
  exists c2, @peq NumR c c' = Ok c2 /\ cis c2 (fun j i => F j i + F' j i) (fun j => M j + M' j)%Z D.
Proof.
  intros H H'. pose proof H as (Hs & Hc). pose proof H' as (Hs' & Hc').
  destruct (@peq_ok NumR k d c c' Hs Hs') as (c2 & E & Hs2 & H2). exists c2. split; [exact E|].
  split; auto. intros j Hj. pose proof (H2 j Hj) as Ej. unfold cel in Ej. injection Ej as E1 E2 E3. rewrite E1, E2, E3.
  destruct (Hc j Hj) as (A1 & A2 & A3). destruct (Hc' j Hj) as (B1 & B2 & B3). splits; try congruence.
  intros i Hi. etransitivity; [apply (@nth_vadd (crow c j) (crow c' j) i)|].
  - transitivity d; [eapply cis_row; eauto|symmetry; eapply cis_row; eauto].
  - rewrite A3, B3 by exact Hi. reflexivity.
Qed.

Lemma nth_map0 (f : R -> R) (l : list R) i : (i < @length R l)%nat -> nth i (map f l) 0 = f (nth i l 0).
Proof.
  intros H. rewrite (nth_indep _ 0 (f 0)) by (rewrite map_length; exact H). apply map_nth.
Qed.

Lemma cis_fin c F M D a : cis c F M D -> (a < k)%nat ->
  exists c', @finalize NumR c a = Ok c' /\
    cis c' (fun j i => if (j =? a)%nat then if D j then F j i else if (1 <? M j)%Z then F j i / IZR (M j) else F j i else F j i)
      M (fun j => if (j =? a)%nat then true else D j).
Proof.
  intros H Ha. pose proof H as (Hs & Hc).
  destruct (@finalize_ok NumR k d c a Hs Ha) as (c' & E & Hs' & H'). exists c'. split; [exact E|].
  split; auto. intros j Hj. pose proof (H' j Hj) as Ej. destruct (Hc j Hj) as (A1 & A2 & A3).
  assert (Lr : @length R (crow c j) = d) by (eapply cis_row; eauto).
  destruct (Nat.eqb_spec j a) as [->|Hne].
  - unfold cel, fin1 in Ej. rewrite A2 in Ej. destruct (D a) eqn:ED.
    + injection Ej as E1 E2 E3. rewrite E1, E2, E3. splits; auto.
    + injection Ej as E1 E2 E3. rewrite E1, E2, E3, A1. splits; auto. intros i Hi.
      destruct (1 <? M a)%Z; [|apply A3; exact Hi].
      etransitivity; [apply (@nth_map0 (fun x => x / IZR (M a)) (crow c a) i); rewrite Lr; exact Hi|]. rewrite A3 by exact Hi. reflexivity.
  - unfold cel in Ej. injection Ej as E1 E2 E3. rewrite E1, E2, E3. splits; auto.
Qed.

Lemma cis_unfin_all c F M D : cis c F M D ->
  exists c', @unfinalize_all NumR c = Ok c' /\
    cis c' (fun j i => if D j then if (M j <? 2)%Z then F j i else F j i * IZR (M j) else F j i) M (fun _ => false).
Proof.
  intros H. pose proof H as (Hs & Hc).
  destruct (@unfinalize_all_ok NumR k d c Hs) as (c' & E & Hs' & H'). exists c'. split; [exact E|].
  split; auto. intros j Hj. pose proof (H' j Hj) as Ej. destruct (Hc j Hj) as (A1 & A2 & A3).
  assert (Lr : @length R (crow c j) = d) by (eapply cis_row; eauto).
  unfold cel, unfin1 in Ej. rewrite A2 in Ej. destruct (D j) eqn:ED; cbn [negb] in Ej.
  - rewrite A1 in Ej. destruct (M j <? 2)%Z eqn:EM; injection Ej as E1 E2 E3; rewrite E1, E2, E3; splits; auto.
    intros i Hi. etransitivity; [apply (@nth_map0 (fun x => x * IZR (M j)) (crow c j) i); rewrite Lr; exact Hi|]. rewrite A3 by exact Hi. reflexivity.
  - injection Ej as E1 E2 E3. rewrite E1, E2, E3, A1. splits; auto.
Qed.

End CIS.

(* ------------------------------------------------------------------ *)
(** * Weighted sums over processed rows *)
Fixpoint zsum (l : list Z) : Z := match l with [] => 0 | x :: t => x + zsum t end%Z.
Lemma zsum_app l m : zsum (l ++ m) = (zsum l + zsum m)%Z.
Proof. induction l; simpl; lia. Qed.
