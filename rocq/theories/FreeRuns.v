(** Every driver is monotone in its schedules for [rle]: replacing complete
    schedules by other complete schedules keeps a completing run's whole result. *)
From Coq Require Import Lia List ZArith.
From Verif Require Import Base Num Spec DistModel ClustersModel PartitionModel ParModel KmeansModel PruneModel ParProofs ParFree.
From Verif Require Import MbModel BestOfModel OmpModel DistRunModel DistLloydModel MatrixModel ContainersModel HclustModel XmeansModel GmeansModel.
Set Implicit Arguments.

Section Kmeans.
Variable N : Num.
Variables (g : kcfg N) (ws : list (worker N)) (n : nat).
Hypothesis Ht : ntiles 0 n (w_ranges ws).

Lemma pEM_round_free p dm f sched sched' locals cells : complete (w_ranges ws) sched -> complete (w_ranges ws) sched' ->
  rle (pEM_round g ws p dm f sched locals cells) (pEM_round g ws p dm f sched' locals cells).
Proof. intros H H'. unfold pEM_round. apply (@par_run_free _ _ _ _ _ _ Ht); assumption. Qed.

Lemma EM_round_free p sched sched' locals cells : complete (w_ranges ws) sched -> complete (w_ranges ws) sched' ->
  rle (EM_round g ws p sched locals cells) (EM_round g ws p sched' locals cells).
Proof. intros H H'. unfold EM_round. apply (@par_run_free _ _ _ _ _ _ Ht); assumption. Qed.

Lemma kmspp_loop_free data scheds scheds' ur : (forall i, complete (w_ranges ws) (scheds i)) -> (forall i, complete (w_ranges ws) (scheds' i)) ->
  forall m ci s tr ch, rle (kmspp_loop g ws data scheds ur m ci s tr ch) (kmspp_loop g ws data scheds' ur m ci s tr ch).
Proof.
  intros H H'. induction m as [|m IH]; intros ci s tr ch; cbn [kmspp_loop]; [apply rle_refl|].
  apply rle_bind; [apply (@par_run_free _ _ _ _ _ _ Ht); auto|]. intros lc. destruct (g_k g <=? S ci); [apply rle_refl|].
  destruct (kmspp_pick _ _ _ _) as (pick & cuml). apply rle_bind; [apply rle_refl|]. intros s'. apply rle_bind; [apply rle_refl|]. intros _. apply IH.
Qed.

Lemma kmeanspp_init_free data scheds scheds' first ur s : (forall i, complete (w_ranges ws) (scheds i)) -> (forall i, complete (w_ranges ws) (scheds' i)) ->
  rle (kmeanspp_init_t g ws data scheds first ur s) (kmeanspp_init_t g ws data scheds' first ur s).
Proof. intros H H'. unfold kmeanspp_init_t. do 4 (apply rle_bind; [apply rle_refl|intros ?]). apply rle_bind; [apply kmspp_loop_free; assumption|]. intros r. apply rle_refl. Qed.

Lemma prune_run_init_free it data d d' s : d_int d' = d_int d -> d_real d' = d_real d ->
  (it = PLUSPLUS -> (forall i, complete (w_ranges ws) (d_sched d i)) /\ forall i, complete (w_ranges ws) (d_sched d' i)) ->
  rle (prune_run_init g it ws data d s) (prune_run_init g it ws data d' s).
Proof.
  intros Ei Er Hp. unfold prune_run_init, run_init. destruct it; rewrite ?Ei, ?Er; try apply rle_refl.
  apply rle_bind; [apply kmeanspp_init_free; apply Hp; reflexivity|]. intros r. apply rle_refl.
Qed.

Lemma prune_loop_free scheds scheds' : (forall i, complete (w_ranges ws) (scheds i)) -> (forall i, complete (w_ranges ws) (scheds' i)) ->
  forall m iter s tr, rle (prune_loop g ws scheds m iter s tr) (prune_loop g ws scheds' m iter s tr).
Proof.
  intros H H'. induction m as [|m IH]; intros iter s tr; cbn [prune_loop]; [apply rle_refl|].
  apply rle_bind.
  - unfold prune_iterate. apply rle_bind; [apply rle_refl|]. intros mp. apply rle_bind; [apply pEM_round_free; auto|]. intros lc. apply rle_refl.
  - intros s1. destruct (stop_test g (ps_changed s1)); [apply rle_refl|apply IH].
Qed.

Lemma mb_loop_free pc u scheds scheds' : (forall i, complete (w_ranges ws) (scheds i)) -> (forall i, complete (w_ranges ws) (scheds' i)) ->
  forall m iter s tr, rle (mb_loop g ws pc u scheds m iter s tr) (mb_loop g ws pc u scheds' m iter s tr).
Proof.
  intros H H'. induction m as [|m IH]; intros iter s tr; cbn [mb_loop]; [apply rle_refl|].
  apply rle_bind.
  - unfold mb_iterate. apply rle_bind; [apply (@par_run_free _ _ _ _ _ _ Ht); auto|]. intros lc. apply rle_refl.
  - intros s1. apply rle_bind; [apply rle_refl|]. intros _. apply rle_bind; [apply rle_refl|]. intros fr. destruct (nltb N fr (g_tol g)); [apply rle_refl|apply IH].
Qed.

Lemma omp_kmspp_loop_free data red scheds scheds' ur : (forall i, complete (w_ranges ws) (scheds i)) -> (forall i, complete (w_ranges ws) (scheds' i)) ->
  forall m ci s, rle (omp_kmspp_loop g ws data red scheds ur m ci s) (omp_kmspp_loop g ws data red scheds' ur m ci s).
Proof.
  intros H H'. induction m as [|m IH]; intros ci s; cbn [omp_kmspp_loop]; [apply rle_refl|].
  apply rle_bind; [apply (@par_run_free _ _ _ _ _ _ Ht); auto|]. intros lc. destruct (g_k g <=? S ci); [apply rle_refl|].
  destruct (kmspp_pick _ _ _ _) as (pick & cuml). apply rle_bind; [apply rle_refl|]. intros s'. apply rle_bind; [apply rle_refl|]. intros _. apply IH.
Qed.

Lemma omp_kmspp_free data red scheds scheds' first ur s : (forall i, complete (w_ranges ws) (scheds i)) -> (forall i, complete (w_ranges ws) (scheds' i)) ->
  rle (omp_kmspp_init g ws data red scheds first ur s) (omp_kmspp_init g ws data red scheds' first ur s).
Proof. intros H H'. unfold omp_kmspp_init. do 3 (apply rle_bind; [apply rle_refl|intros ?]). apply rle_bind; [apply omp_kmspp_loop_free; assumption|]. intros r. apply rle_refl. Qed.

Lemma omp_loop_free scheds scheds' : (forall i, complete (w_ranges ws) (scheds i)) -> (forall i, complete (w_ranges ws) (scheds' i)) ->
  forall m iter s tr, rle (omp_loop g ws scheds m iter s tr) (omp_loop g ws scheds' m iter s tr).
Proof.
  intros H H'. induction m as [|m IH]; intros iter s tr; cbn [omp_loop]; [apply rle_refl|].
  apply rle_bind.
  - unfold omp_EM_step. apply rle_bind; [apply (@par_run_free _ _ _ _ _ _ Ht); auto|]. intros la. apply rle_refl.
  - intros s1. destruct (stop_test g (s_changed s1)); [apply rle_refl|apply IH].
Qed.

Lemma omp_pEM_free f sched sched' s : complete (w_ranges ws) sched -> complete (w_ranges ws) sched' ->
  rle (omp_pEM_step g ws f sched s) (omp_pEM_step g ws f sched' s).
Proof. intros H H'. unfold omp_pEM_step. apply rle_bind; [apply (@par_run_free _ _ _ _ _ _ Ht); auto|]. intros lc. apply rle_refl. Qed.

Lemma omp_ploop_free scheds scheds' : (forall i, complete (w_ranges ws) (scheds i)) -> (forall i, complete (w_ranges ws) (scheds' i)) ->
  forall m iter s tr, rle (omp_ploop g ws scheds m iter s tr) (omp_ploop g ws scheds' m iter s tr).
Proof.
  intros H H'. induction m as [|m IH]; intros iter s tr; cbn [omp_ploop]; [apply rle_refl|].
  apply rle_bind; [apply rle_refl|]. intros mp. apply rle_bind; [apply omp_pEM_free; auto|].
  intros s1. destruct (stop_test g (ps_changed s1)); [apply rle_refl|apply IH].
Qed.

End Kmeans.

Section Hc.
Variable N : Num.
Variables (g : hcfg N) (ws : list (worker N)) (n : nat).
Hypothesis Ht : ntiles 0 n (w_ranges ws).
Variables scheds scheds' : nat -> nat -> list nat.
Hypothesis H : forall r i, complete (w_ranges ws) (scheds r i).
Hypothesis H' : forall r i, complete (w_ranges ws) (scheds' r i).

Lemma h_loop_free data : forall fuel round s, rle (h_loop g ws data scheds fuel round s) (h_loop g ws data scheds' fuel round s).
Proof.
  induction fuel as [|f IH]; intros round s; cbn [h_loop]; [apply rle_refl|].
  apply rle_bind.
  - apply rle_loop. intros i s1. unfold h_iter. apply rle_bind; [unfold H_EM_round; apply (@par_run_free _ _ _ _ _ _ Ht); auto|]. intros la. apply rle_refl.
  - intros s1. destruct (at_cluster_cap g s1); [apply rle_refl|]. apply rle_bind; [apply rle_refl|]. intros s2. destruct (hm_keyless (x_hcl s2)); [apply rle_refl|apply IH].
Qed.

Lemma x_mean_free sched sched' s : complete (w_ranges ws) sched -> complete (w_ranges ws) sched' -> rle (x_mean g ws sched s) (x_mean g ws sched' s).
Proof. intros A B. unfold x_mean. apply rle_bind; [unfold MEAN_round; apply (@par_run_free _ _ _ _ _ _ Ht); auto|]. intros la. apply rle_refl. Qed.
Lemma x_iter_free sched sched' b s : complete (w_ranges ws) sched -> complete (w_ranges ws) sched' -> rle (x_iter g ws sched b s) (x_iter g ws sched' b s).
Proof. intros A B. unfold x_iter. apply rle_bind; [unfold XH_EM_round; apply (@par_run_free _ _ _ _ _ _ Ht); auto|]. intros la. apply rle_refl. Qed.

Lemma x_loop_free nlog tp data ords : forall fuel round s tr,
  rle (x_loop nlog tp g ws data scheds ords fuel round s tr) (x_loop nlog tp g ws data scheds' ords fuel round s tr).
Proof.
  induction fuel as [|f IH]; intros round s tr; cbn [x_loop]; [apply rle_refl|].
  apply rle_bind; [apply x_mean_free; auto|]. intros s1. apply rle_bind; [apply rle_loop; intros i s2; apply x_iter_free; auto|]. intros s2.
  apply rle_bind; [apply rle_refl|]. intros s3. destruct (at_cluster_cap g (xh s3)); [apply rle_refl|]. apply rle_bind; [apply rle_refl|]. intros h.
  destruct (hm_keyless (x_hcl h)); [apply rle_refl|apply IH].
Qed.

Lemma g_loop_free nlog phi trunc st data : forall fuel round s tr,
  rle (GmeansModel.g_loop nlog phi trunc g st ws data scheds fuel round s tr) (GmeansModel.g_loop nlog phi trunc g st ws data scheds' fuel round s tr).
Proof.
  induction fuel as [|f IH]; intros round s tr; cbn [GmeansModel.g_loop]; [apply rle_refl|].
  apply rle_bind.
  - unfold g_round. apply rle_bind; [apply x_mean_free; auto|]. intros s1. apply rle_bind; [apply rle_loop; intros i s2; apply x_iter_free; auto|]. intros s2.
    apply rle_bind; [|intros s3; apply rle_refl]. unfold g_split. apply rle_bind; [apply rle_refl|]. intros dfs. apply rle_bind; [apply (@par_run_free _ _ _ _ _ _ Ht); auto|]. intros la. apply rle_refl.
  - intros r. destruct r as (rr & (s' & more)). destruct more; [apply IH|apply rle_refl].
Qed.
End Hc.


(* ------------------------------------------------------------------ *)
(** * MPI: every process has its own workers and schedules *)
Lemma rle_mapM_in {A B} (f h : A -> res B) : forall l, (forall a, In a l -> rle (f a) (h a)) -> rle (mapM f l) (mapM h l).
Proof.
  induction l as [|x l IH]; intros H; cbn [mapM]; [apply rle_refl|]. apply rle_bind; [apply H; left; reflexivity|]. intros y.
  apply rle_bind; [apply IH; intros a Ha; apply H; right; exact Ha|]. intros ys. apply rle_refl.
Qed.

Lemma mapM_pred {A B} (P : A -> Prop) (Q : B -> Prop) (f : A -> res B) : (forall a b, P a -> f a = Ok b -> Q b) ->
  forall l l', Forall P l -> mapM f l = Ok l' -> Forall Q l'.
Proof.
  intros H l. induction l as [|x l IH]; intros l' F E; cbn [mapM] in E.
  - injection E as <-. constructor.
  - apply bind_ok in E as (y & Ey & E). apply bind_ok in E as (ys & Eys & E). injection E as <-.
    inversion F as [|? ? F1 F2]; subst. constructor; [exact (H x y F1 Ey)|exact (IH ys F2 Eys)].
Qed.

Section Mpi.
Variable N : Num.
Variables (g : kcfg N) (P : nat) (data : list (car N)).

(** the workers of a process, and a pair of schedules for them *)
Definition good (ks ks' : nat -> nat -> list nat) (rank : nat) (ws : list (worker N)) : Prop :=
  (exists n, ntiles 0 n (w_ranges ws)) /\ (forall i, complete (w_ranges ws) (ks i rank)) /\ (forall i, complete (w_ranges ws) (ks' i rank)).

Section Kp.
Variables ks ks' : nat -> nat -> list nat.
Let ok (q : kproc N) : Prop := good ks ks' (kp_rank q) (kp_ws q).

Lemma kp_round_free i ci q : ok q -> rle (kp_round g P ci (ks i) q) (kp_round g P ci (ks' i) q).
Proof. intros ((n & Ht) & H1 & H2). unfold kp_round. apply rle_bind; [apply (@par_run_free _ _ _ _ _ _ Ht); auto|]. intros lc. apply rle_refl. Qed.
Lemma kp_round_keep i ci q r : ok q -> kp_round g P ci (ks i) q = Ok r -> ok (fst r).
Proof. intros H E. unfold kp_round in E. apply bind_ok in E as (lc & _ & E). injection E as <-. exact H. Qed.
Lemma kp_choose_keep gid ci zero other q q' : (ok q -> ok (other q)) -> ok q -> kp_choose g P data gid ci zero other q = Ok q' -> ok q'.
Proof.
  intros Ho H E. unfold kp_choose in E. destruct (is_local _ _ _ _); [|injection E as <-; auto].
  apply bind_ok in E as (l & _ & E). apply bind_ok in E as (p & _ & E). apply bind_ok in E as (c & _ & E). apply bind_ok in E as (cl & _ & E). injection E as <-. exact H.
Qed.
Lemma kp_share_keep qs qs' : Forall ok qs -> kp_share qs = Ok qs' -> Forall ok qs'.
Proof.
  intros F E. unfold kp_share in E. revert F E. apply mapM_pred. intros q q' H E. apply bind_ok in E as (c & _ & E). injection E as <-. exact H.
Qed.

Lemma dkmspp_loop_free zero ur : forall n ci qs tr ch, Forall ok qs ->
  rle (dkmspp_loop g P data zero ks ur n ci qs tr ch) (dkmspp_loop g P data zero ks' ur n ci qs tr ch).
Proof.
  induction n as [|n IH]; intros ci qs tr ch F; cbn [dkmspp_loop]; [apply rle_refl|].
  apply rle_bind_ok; [apply rle_mapM_in; intros q Hq; apply kp_round_free; rewrite Forall_forall in F; exact (F q Hq)|]. intros rs Ers.
  assert (F1 : Forall ok (map fst rs)).
  { apply Forall_map. revert F Ers. apply mapM_pred. intros q r H E. exact (kp_round_keep _ _ H E). }
  destruct (g_k g <=? S ci); [apply rle_refl|]. apply rle_bind; [apply rle_refl|]. intros gd.
  destruct (kmspp_pick _ _ _ _) as (pick & cuml). apply rle_bind_ok; [apply rle_refl|]. intros q1 E1.
  assert (F2 : Forall ok q1).
  { destruct pick as [r|]; [|injection E1 as <-; exact F1]. revert F1 E1. apply mapM_pred. intros q q' H E. revert E. apply kp_choose_keep; auto. }
  apply rle_bind_ok; [apply rle_refl|]. intros q2 E2. apply rle_bind; [apply rle_refl|]. intros _. apply IH. exact (kp_share_keep F2 E2).
Qed.

Lemma dkmspp_init_free zero first ur qs : Forall ok qs ->
  rle (dkmspp_init g P data zero ks first ur qs) (dkmspp_init g P data zero ks' first ur qs).
Proof.
  intros F. unfold dkmspp_init. apply rle_bind_ok; [apply rle_refl|]. intros q1 E1.
  assert (F1 : Forall ok q1) by (revert F E1; apply mapM_pred; intros q q' H E; revert E; apply kp_choose_keep; auto).
  apply rle_bind_ok; [apply rle_refl|]. intros q2 E2. apply dkmspp_loop_free. exact (kp_share_keep F1 E2).
Qed.
End Kp.

(** pruned *)
Section Dp.
Variables ks ks' : nat -> nat -> list nat.
Let ok (q : dproc N) : Prop := good ks ks' (dp_rank q) (dp_ws q).

Lemma dp_local_free b i q : ok q -> rle (dp_local b (ks i) q) (dp_local b (ks' i) q).
Proof.
  intros ((n & Ht) & H1 & H2). unfold dp_local. apply rle_bind; [apply rle_refl|]. intros mp. apply rle_bind; [unfold pEM_round; apply (@par_run_free _ _ _ _ _ _ Ht); auto|]. intros lc. apply rle_refl.
Qed.
Lemma dp_local_keep b i q q' : ok q -> dp_local b (ks i) q = Ok q' -> ok q'.
Proof.
  intros H E. unfold dp_local in E. apply bind_ok in E as (mp & _ & E). apply bind_ok in E as (lc & _ & E). unfold pp_aggregate in E. apply bind_ok in E as (cc & _ & E). injection E as <-. exact H.
Qed.
Lemma dp_finish_keep b m nm q q' : ok q -> dp_finish g b m nm q = Ok q' -> ok q'.
Proof. intros H E. unfold dp_finish in E. apply bind_ok in E as (c & _ & E). apply bind_ok in E as (u & _ & E). apply bind_ok in E as (p & _ & E). injection E as <-. exact H. Qed.

Lemma dist_loop_free : forall n iters qs tr, Forall ok qs -> rle (dist_loop g ks n iters qs tr) (dist_loop g ks' n iters qs tr).
Proof.
  induction n as [|n IH]; intros iters qs tr F; cbn [dist_loop]; [apply rle_refl|].
  apply rle_bind_ok.
  - unfold dist_step. apply rle_bind; [|intros ls; apply rle_refl]. apply rle_mapM_in. intros q Hq. apply dp_local_free. rewrite Forall_forall in F. exact (F q Hq).
  - intros (q1 & nch) E. destruct (stop_test g nch); [apply rle_refl|]. apply IH. unfold dist_step in E. apply bind_ok in E as (ls & El & E). apply bind_ok in E as (q2 & E2 & E). injection E as <- _.
    assert (F1 : Forall ok ls) by (revert F El; apply mapM_pred; intros q q' H E; exact (dp_local_keep _ _ H E)).
    revert F1 E2. apply mapM_pred. intros q q' H E. exact (dp_finish_keep _ _ _ H E).
Qed.
End Dp.

Lemma map2_pred {A B C} (Q : A -> Prop) (R : C -> Prop) (f : A -> B -> C) : (forall a b, Q a -> R (f a b)) -> forall l l', Forall Q l -> Forall R (map2 f l l').
Proof. intros H l. induction l as [|x l IH]; intros [|y l'] F; cbn; constructor; inversion F; subst; auto. Qed.

Lemma dist_init_free ks ks' it draw ur qs : Forall (fun q => it = PLUSPLUS -> good ks ks' (dp_rank q) (dp_ws q)) qs ->
  rle (dist_init g P data it draw ur ks qs) (dist_init g P data it draw ur ks' qs).
Proof.
  intros F. unfold dist_init. destruct it; try apply rle_refl. apply rle_bind; [|intros r; apply rle_refl]. apply dkmspp_init_free.
  apply Forall_map. revert F. apply Forall_impl. intros q H. apply H. reflexivity.
Qed.

Lemma dist_init_keep ks (Q : nat -> list (worker N) -> Prop) it draw ur qs qs' : Forall (fun q => Q (dp_rank q) (dp_ws q)) qs ->
  dist_init g P data it draw ur ks qs = Ok qs' -> Forall (fun q => Q (dp_rank q) (dp_ws q)) qs'.
Proof.
  intros F E. unfold dist_init in E. destruct it.
  - apply bind_ok in E as (q1 & E1 & E).
    assert (F1 : Forall (fun q : dproc N => Q (dp_rank q) (dp_ws q)) q1).
    { revert F E1. apply mapM_pred. intros q q' H E1. unfold dist_random in E1. apply bind_ok in E1 as (ca & _ & E1). injection E1 as <-. exact H. }
    revert F1 E. apply mapM_pred. intros q q' H E. apply bind_ok in E as (c & _ & E). apply bind_ok in E as (c2 & _ & E). apply bind_ok in E as (c3 & _ & E). injection E as <-. exact H.
  - apply bind_ok in E as (q1 & E1 & E).
    assert (F1 : Forall (fun q : dproc N => Q (dp_rank q) (dp_ws q)) q1).
    { revert F E1. apply mapM_pred. intros q q' H E1. unfold dist_forgy in E1. apply bind_ok in E1 as (c & _ & E1). injection E1 as <-. exact H. }
    revert F1 E. apply mapM_pred. intros q q' H E. apply bind_ok in E as (c & _ & E). injection E as <-. exact H.
  - apply bind_ok in E as (((k & t) & c) & _ & E). injection E as <-. revert F. apply map2_pred. intros a b H. exact H.
  - injection E as <-. exact F.
Qed.

(** unpruned *)
Section Up.
Variables ks ks' : nat -> nat -> list nat.
Let ok (q : uproc N) : Prop := good ks ks' (up_rank q) (up_ws q).

Lemma up_local_free b i q : ok q -> rle (up_local g P b (ks i) q) (up_local g P b (ks' i) q).
Proof.
  intros ((n & Ht) & H1 & H2). unfold up_local. apply rle_bind; [unfold EM_round; apply (@par_run_free _ _ _ _ _ _ Ht); auto|]. intros la. apply rle_refl.
Qed.
Lemma up_local_keep b i q q' : ok q -> up_local g P b (ks i) q = Ok q' -> ok q'.
Proof. intros H E. unfold up_local in E. apply bind_ok in E as (la & _ & E). apply bind_ok in E as (s & _ & E). injection E as <-. exact H. Qed.
Lemma up_finish_keep m nm q q' : ok q -> up_finish g m nm q = Ok q' -> ok q'.
Proof.
  intros H E. unfold up_finish in E. apply bind_ok in E as (c & _ & E). apply bind_ok in E as (c2 & _ & E). apply bind_ok in E as (u & _ & E). apply bind_ok in E as (c3 & _ & E). injection E as <-. exact H.
Qed.

Lemma udist_loop_free : forall n iters qs tr, Forall ok qs -> rle (udist_loop g P ks n iters qs tr) (udist_loop g P ks' n iters qs tr).
Proof.
  induction n as [|n IH]; intros iters qs tr F; cbn [udist_loop]; [apply rle_refl|].
  apply rle_bind_ok.
  - unfold udist_step. apply rle_bind; [|intros ls; apply rle_refl]. apply rle_mapM_in. intros q Hq. apply up_local_free. rewrite Forall_forall in F. exact (F q Hq).
  - intros (q1 & nch) E. destruct (stop_test g nch); [apply rle_refl|]. apply IH. unfold udist_step in E. apply bind_ok in E as (ls & El & E). apply bind_ok in E as (q2 & E2 & E). injection E as <- _.
    assert (F1 : Forall ok ls) by (revert F El; apply mapM_pred; intros q q' H E; exact (up_local_keep _ _ H E)).
    revert F1 E2. apply mapM_pred. intros q q' H E. exact (up_finish_keep _ _ H E).
Qed.
End Up.

Lemma udist_init_free ks ks' it draw ur qs : Forall (fun q => it = PLUSPLUS -> good ks ks' (up_rank q) (up_ws q)) qs ->
  rle (udist_init g P data it draw ur ks qs) (udist_init g P data it draw ur ks' qs).
Proof.
  intros F. unfold udist_init. destruct it; try apply rle_refl. apply rle_bind; [|intros r; apply rle_refl]. apply dkmspp_init_free.
  apply Forall_map. revert F. apply Forall_impl. intros q H. apply H. reflexivity.
Qed.

Lemma udist_init_keep ks (Q : nat -> list (worker N) -> Prop) it draw ur qs qs' : Forall (fun q => Q (up_rank q) (up_ws q)) qs ->
  udist_init g P data it draw ur ks qs = Ok qs' -> Forall (fun q => Q (up_rank q) (up_ws q)) qs'.
Proof.
  intros F E. unfold udist_init in E. destruct it.
  - apply bind_ok in E as (q1 & E1 & E).
    assert (F1 : Forall (fun q : uproc N => Q (up_rank q) (up_ws q)) q1).
    { revert F E1. apply mapM_pred. intros q q' H E1. apply bind_ok in E1 as (ca & _ & E1). injection E1 as <-. exact H. }
    revert F1 E. apply mapM_pred. intros q q' H E. apply bind_ok in E as (c & _ & E). apply bind_ok in E as (c2 & _ & E). apply bind_ok in E as (c3 & _ & E). injection E as <-. exact H.
  - apply bind_ok in E as (q1 & E1 & E).
    assert (F1 : Forall (fun q : uproc N => Q (up_rank q) (up_ws q)) q1).
    { revert F E1. apply mapM_pred. intros q q' H E1. apply bind_ok in E1 as (c & _ & E1). injection E1 as <-. exact H. }
    revert F1 E. apply mapM_pred. intros q q' H E. apply bind_ok in E as (c & _ & E). injection E as <-. exact H.
  - apply bind_ok in E as (((k & t) & c) & _ & E). injection E as <-. revert F. apply map2_pred. intros a b H. exact H.
  - injection E as <-. exact F.
Qed.
End Mpi.
