(** Which rows an MPI process holds. *)
From Coq Require Import Reals Lra.
From Verif Require Import Base Num Spec ClustersModel PartitionModel ParModel KmeansModel DistRunModel.
From Verif Require Import MatLemmas VecLemmas PartitionProofs ClusterSums.
Set Implicit Arguments.
Local Open Scope R_scope.

Lemma list_sum_app'' l m : list_sum (l ++ m) = (list_sum l + list_sum m)%nat.
Proof. induction l as [|a l IH]; [reflexivity|]. cbn [app list_sum fold_right]. unfold list_sum in *. cbn [fold_right]. rewrite IH. lia. Qed.

Section Proc.
Variables (G P : nat).
Hypothesis HP : (1 <= P <= G)%nat.

Lemma proc_nrow_val rk : (rk < P)%nat -> proc_nrow G P rk = if (S rk =? P)%nat then (G / P + G mod P)%nat else (G / P)%nat.
Proof.
  intros H. unfold proc_nrow, dist_nrow. rewrite <- Nat2Z.inj_div, <- Nat2Z.inj_mod, <- Nat2Z.inj_add.
  destruct (Z.eqb_spec (Z.of_nat rk) (Z.of_nat P - 1)), (Nat.eqb_spec (S rk) P); try lia; rewrite Nat2Z.id; reflexivity.
Qed.

Lemma proc_nrow_pos rk : (rk < P)%nat -> (1 <= proc_nrow G P rk)%nat.
Proof.
  intros H. rewrite proc_nrow_val by exact H. assert (1 <= G / P)%nat by (apply Nat.div_le_lower_bound; lia).
  destruct (S rk =? P)%nat; lia.
Qed.

Lemma proc_end rk : (rk < P)%nat -> (proc_off G P rk + proc_nrow G P rk = if (S rk =? P)%nat then G else proc_off G P (S rk))%nat.
Proof.
  intros H. rewrite proc_nrow_val by exact H. unfold proc_off. pose proof (Nat.div_mod G P ltac:(lia)) as E.
  destruct (Nat.eqb_spec (S rk) P) as [<-|Hne]; nia.
Qed.

Lemma proc_bound rk : (rk < P)%nat -> (proc_off G P rk + proc_nrow G P rk <= G)%nat.
Proof.
  intros H. rewrite proc_end by exact H. destruct (Nat.eqb_spec (S rk) P); [lia|]. unfold proc_off.
  pose proof (Nat.div_mod G P ltac:(lia)). nia.
Qed.

Lemma proc_sum : list_sum (map (proc_nrow G P) (seq 0 P)) = G.
Proof.
  assert (H : forall m, (m <= P)%nat -> list_sum (map (proc_nrow G P) (seq 0 m)) = if (m =? P)%nat then G else proc_off G P m).
  { induction m as [|m IH]; intros Hm.
    - cbn [seq map list_sum fold_right]. destruct (Nat.eqb_spec 0 P); [lia|]. unfold proc_off. rewrite Nat.mul_0_r. reflexivity.
    - rewrite seq_S, map_app, list_sum_app'', IH by lia. cbn [map list_sum fold_right plus].
      pose proof (proc_end (rk:=m) ltac:(lia)) as E. destruct (Nat.eqb_spec m P); [lia|].
      rewrite Nat.add_0_r. exact E. }
  rewrite H by lia. rewrite Nat.eqb_refl. reflexivity.
Qed.

(** the global rows of the processes, in rank order, are all the rows in order *)
Definition prows (rk : nat) : list nat := map (fun r => (proc_off G P rk + r)%nat) (seq 0 (proc_nrow G P rk)).

Lemma prows_seq rk : prows rk = seq (proc_off G P rk) (proc_nrow G P rk).
Proof.
  unfold prows. generalize (proc_nrow G P rk) as m. generalize (proc_off G P rk) as s. clear.
  assert (H : forall m s a, map (fun r => (s + r)%nat) (seq a m) = seq (s + a) m).
  { induction m as [|m IH]; intros s a; [reflexivity|]. cbn [seq map]. rewrite IH. f_equal. f_equal. lia. }
  intros s m. rewrite H, Nat.add_0_r. reflexivity.
Qed.

Lemma prows_concat : concat (map prows (seq 0 P)) = seq 0 G.
Proof.
  assert (H : forall m, (m <= P)%nat -> concat (map prows (seq 0 m)) = seq 0 (if (m =? P)%nat then G else proc_off G P m)).
  { induction m as [|m IH]; intros Hm.
    - cbn [seq map concat]. destruct (Nat.eqb_spec 0 P); [lia|]. unfold proc_off. rewrite Nat.mul_0_r. reflexivity.
    - rewrite seq_S, map_app, concat_app, IH by lia. cbn [map concat]. rewrite app_nil_r, prows_seq.
      destruct (Nat.eqb_spec m P); [lia|]. cbn [plus].
      pose proof (@proc_end m ltac:(lia)) as E. rewrite <- E. rewrite seq_app. reflexivity. }
  rewrite H by lia. rewrite Nat.eqb_refl. reflexivity.
Qed.

Lemma rsum_app l m : rsum (l ++ m) = rsum l + rsum m.
Proof. induction l; cbn [app rsum]; lra. Qed.

Lemma rsum_concat {A} (f : A -> R) (ls : list (list A)) : rsum (map f (concat ls)) = rsum (map (fun l => rsum (map f l)) ls).
Proof. induction ls as [|l ls IH]; [reflexivity|]. cbn [concat map rsum]. rewrite map_app, rsum_app, IH. reflexivity. Qed.
Lemma zsum_concat {A} (f : A -> Z) (ls : list (list A)) : zsum (map f (concat ls)) = zsum (map (fun l => zsum (map f l)) ls).
Proof. induction ls as [|l ls IH]; [reflexivity|]. cbn [concat map zsum]. rewrite map_app, zsum_app, IH. reflexivity. Qed.

(** a sum over all rows is the sum over the processes of their rows *)
Lemma rsum_rows (f : nat -> R) : rsum (map f (seq 0 G)) = rsum (map (fun rk => rsum (map (fun r => f (proc_off G P rk + r)%nat) (seq 0 (proc_nrow G P rk)))) (seq 0 P)).
Proof. rewrite <- prows_concat, rsum_concat, map_map. unfold prows. f_equal. apply map_ext. intros rk. rewrite map_map. reflexivity. Qed.
Lemma zsum_rows (f : nat -> Z) : zsum (map f (seq 0 G)) = zsum (map (fun rk => zsum (map (fun r => f (proc_off G P rk + r)%nat) (seq 0 (proc_nrow G P rk)))) (seq 0 P)).
Proof. rewrite <- prows_concat, zsum_concat, map_map. unfold prows. f_equal. apply map_ext. intros rk. rewrite map_map. reflexivity. Qed.

Hypothesis HG : (Z.of_nat G < 2 ^ 63)%Z.

(* ------------------------------------------------------------------ *)
(** * Ownership *)
Definition own (rk x : nat) : bool := ((proc_off G P rk <=? x) && (x <? proc_off G P rk + proc_nrow G P rk))%nat.

Lemma own_local rk x : (rk < P)%nat -> (x < G)%nat -> is_local (Z.of_nat G) (Z.of_nat P) (Z.of_nat rk) (Z.of_nat x) = own rk x.
Proof.
  intros Hrk Hx. apply Bool.eq_iff_eq_true. rewrite is_local_spec by lia. unfold own, in_range, dist_rng. cbn [fst snd].
  rewrite Bool.andb_true_iff, Nat.leb_le, Nat.ltb_lt. unfold proc_nrow, proc_off.
  assert (Ed : (0 <= dist_nrow (Z.of_nat G) (Z.of_nat P) (Z.of_nat rk))%Z).
  { pose proof (@proc_nrow_pos rk Hrk) as H1. unfold proc_nrow in H1. lia. }
  rewrite <- Nat2Z.inj_div. pose proof (Nat2Z.inj_mul (G / P) rk). lia.
Qed.

Lemma own_rid rk x : (rk < P)%nat -> (x < G)%nat -> own rk x = true ->
  exists l, local_rid (Z.of_nat G) (Z.of_nat P) (Z.of_nat rk) (Z.of_nat x) = Ok l /\
    (Z.to_nat l < proc_nrow G P rk)%nat /\ (proc_off G P rk + Z.to_nat l = x)%nat.
Proof.
  intros Hrk Hx Ho. rewrite <- own_local in Ho by auto.
  destruct (@local_global (Z.of_nat G) (Z.of_nat P) (Z.of_nat rk) (Z.of_nat x)) as (l & E & Hl & Hg); try lia; auto.
  exists l. split; [exact E|]. unfold proc_nrow. split; [lia|].
  rewrite own_local in Ho by auto. unfold own in Ho. apply Bool.andb_true_iff in Ho as (H1 & H2). apply Nat.leb_le in H1. apply Nat.ltb_lt in H2.
  unfold local_rid in E. destruct (Z.ltb _ _); [discriminate|]. injection E as <-.
  unfold proc_off in *. revert H1. rewrite <- Nat2Z.inj_div. pose proof (Nat2Z.inj_mul (G / P) rk) as Em. intros H1.
  assert (Hb : (G / P * rk <= G)%nat) by lia.
  assert (Em' : (Z.of_nat rk * Z.of_nat (G / P) = Z.of_nat (G / P * rk))%Z) by lia. rewrite Em'. rewrite (@w64_small (Z.of_nat (G / P * rk))) by lia. rewrite w64_small; lia.
Qed.

(** exactly one process owns a row *)
Lemma own_rsum x v : (x < G)%nat -> rsum (map (fun rk => if own rk x then v else 0) (seq 0 P)) = v.
Proof.
  intros Hx.
  assert (H : forall m, (m <= P)%nat -> rsum (map (fun rk => if own rk x then v else 0) (seq 0 m)) =
      if (x <? (if (m =? P)%nat then G else proc_off G P m))%nat then v else 0).
  { induction m as [|m IH]; intros Hm.
    - cbn [seq map rsum]. destruct (Nat.eqb_spec 0 P); [lia|]. unfold proc_off. rewrite Nat.mul_0_r. reflexivity.
    - rewrite seq_S, map_app, rsum_app, IH by lia. cbn [map rsum plus]. destruct (Nat.eqb_spec m P); [lia|].
      pose proof (@proc_end m ltac:(lia)) as E. rewrite <- E. unfold own.
      destruct (Nat.ltb_spec x (proc_off G P m)), (Nat.leb_spec (proc_off G P m) x), (Nat.ltb_spec x (proc_off G P m + proc_nrow G P m)); cbn [andb]; try lia; lra. }
  rewrite H by lia. rewrite Nat.eqb_refl. apply Nat.ltb_lt in Hx. rewrite Hx. reflexivity.
Qed.

End Proc.

Section Data.
Variables (N : Num) (g : kcfg N) (P : nat) (data : list (car N)).
Let d := g_ncol g.
Let G := g_nrow g.
Hypothesis HP : (1 <= P <= G)%nat.
Hypothesis Hdata : length data = (G * d)%nat.

Lemma proc_data_len rk : (rk < P)%nat -> length (proc_data g P data rk) = (proc_nrow G P rk * d)%nat.
Proof.
  intros H. unfold proc_data. apply slice_length. pose proof (proc_bound HP H). fold d G.
  etransitivity; [|apply Nat.eq_le_incl; symmetry; exact Hdata]. nia.
Qed.

(** a process' row is the global row *)
Lemma proc_row rk r : (rk < P)%nat -> (r < proc_nrow G P rk)%nat ->
  row (proc_data g P data rk) d r = row data d (proc_off G P rk + r).
Proof.
  intros H Hr. unfold row, proc_data. fold d G. rewrite slice_slice by nia. f_equal. nia.
Qed.


End Data.
