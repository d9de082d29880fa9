(** C112-C115: what a run returns does not depend on how its threads are
    interleaved, for any arithmetic (binary64 included). *)
From Coq Require Import Lia List ZArith.
From Verif Require Import Base Num Spec DistModel ClustersModel PartitionModel ParModel KmeansModel PruneModel ParProofs KmeansProofs RunProofs ParFree.
From Verif Require Import MbModel BestOfModel OmpModel DistRunModel DistLloydModel MatrixModel ContainersModel HclustModel XmeansModel GmeansModel PropertiesRun OmpProofs FreeRuns.
Set Implicit Arguments.

(** the same random numbers; the schedules of the kmeans++ rounds, if there are any, let every thread finish *)
Definition same_draws {N} (g : kcfg N) (data : list (car N)) (it : init_t) (d d' : draws N) : Prop :=
  d_int d' = d_int d /\ d_real d' = d_real d /\ (it = PLUSPLUS -> fair g data (d_sched d) /\ fair g data (d_sched d')).

Lemma same_draws_sym {N} (g : kcfg N) data it d d' : same_draws g data it d d' -> same_draws g data it d' d.
Proof. intros (A & B & C). split; [auto|]. split; [auto|]. intros E. destruct (C E). auto. Qed.

(* ------------------------------------------------------------------ *)
(** * C112: pruned, mini-batch and multi-start k-means *)
Section Single.
Variable N : Num.
Variables (g : kcfg N) (data : list (car N)).
Hypothesis V : valid_input g data.

Lemma workers_tile ws : build_workers g data = Ok ws -> ntiles 0 (g_nrow g) (w_ranges ws).
Proof. intros E. destruct (get_workers V) as (ws' & E' & (Ht & _)). assert (Q := eq_trans (eq_sym E) E'). injection Q as <-. exact Ht. Qed.

Lemma prune_run_free centers it d d' scheds scheds' : fair g data scheds -> fair g data scheds' -> same_draws g data it d d' ->
  rle (prune_run g centers it data d scheds) (prune_run g centers it data d' scheds').
Proof.
  intros F F' (Ei & Er & Hp). unfold prune_run. apply rle_bind; [apply rle_refl|]. intros s. apply rle_bind_ok; [apply rle_refl|]. intros ws Ews.
  pose proof (workers_tile Ews) as Ht.
  apply rle_bind; [apply (@prune_run_init_free _ g _ _ Ht); auto; intros E; destruct (Hp E) as (P1 & P2); split; [exact (P1 ws Ews)|exact (P2 ws Ews)]|]. intros s0.
  destruct (0 <? g_max_iters g); [|apply rle_refl]. apply rle_bind.
  - unfold prune_first. apply rle_bind; [apply (@pEM_round_free _ g _ _ Ht); [exact (F ws Ews 1)|exact (F' ws Ews 1)]|]. intros lc. apply rle_refl.
  - intros s1. apply rle_bind; [apply (@prune_loop_free _ g _ _ Ht); [exact (F ws Ews)|exact (F' ws Ews)]|]. intros r. apply rle_refl.
Qed.

Lemma mb_run_free mb centers it d d' u scheds scheds' : fair g data scheds -> fair g data scheds' -> same_draws g data it d d' ->
  rle (mb_run g mb centers it data d u scheds) (mb_run g mb centers it data d' u scheds').
Proof.
  intros F F' (Ei & Er & Hp). unfold mb_run. apply rle_bind; [apply rle_refl|]. intros s. apply rle_bind_ok; [apply rle_refl|]. intros ws Ews.
  pose proof (workers_tile Ews) as Ht.
  apply rle_bind; [apply (@prune_run_init_free _ g _ _ Ht); auto; intros E; destruct (Hp E) as (P1 & P2); split; [exact (P1 ws Ews)|exact (P2 ws Ews)]|]. intros s0.
  apply rle_bind; [apply (@mb_loop_free _ g _ _ Ht); [exact (F ws Ews)|exact (F' ws Ews)]|]. intros (((iter & conv) & s1) & tr).
  apply rle_bind; [apply (@pEM_round_free _ g _ _ Ht); [exact (F ws Ews _)|exact (F' ws Ews _)]|]. intros lc. apply rle_refl.
Qed.

Lemma pp_loop_free keep ws drs drs' : build_workers g data = Ok ws -> (forall i, same_draws g data PLUSPLUS (drs i) (drs' i)) ->
  forall n start s r, rle (pp_loop keep g ws data drs n start s r) (pp_loop keep g ws data drs' n start s r).
Proof.
  intros Ews Hd. pose proof (workers_tile Ews) as Ht. induction n as [|n IH]; intros start s r; cbn [pp_loop]; [apply rle_refl|].
  apply rle_bind; [|intros s1; apply rle_bind; [apply rle_refl|]; intros s2; apply IH].
  unfold reinit. destruct (Hd start) as (Ei & Er & Hp). destruct (Hp eq_refl) as (P1 & P2). apply (@prune_run_init_free _ g _ _ Ht); [exact Ei|exact Er|]. intros _. split; [exact (P1 ws Ews)|exact (P2 ws Ews)].
Qed.

Lemma kmeansPP_free keep nstart drs drs' : g_max_iters g = 0 -> (forall i, same_draws g data PLUSPLUS (drs i) (drs' i)) ->
  rle (kmeansPP keep g nstart data drs) (kmeansPP keep g nstart data drs').
Proof.
  intros Hm Hd. unfold kmeansPP. apply rle_bind_ok; [apply rle_refl|]. intros ws Ews. pose proof (workers_tile Ews) as Ht.
  apply rle_bind.
  - unfold prune_run. apply rle_bind; [apply rle_refl|]. intros s. rewrite Ews. cbn [Base.bind]. apply rle_bind; [|intros s0; rewrite Hm; apply rle_refl].
    destruct (Hd 0) as (Ei & Er & Hp). destruct (Hp eq_refl) as (P1 & P2). apply (@prune_run_init_free _ g _ _ Ht); [exact Ei|exact Er|]. intros _. split; [exact (P1 ws Ews)|exact (P2 ws Ews)].
  - intros rr. apply rle_bind; [apply rle_refl|]. intros s. apply pp_loop_free; assumption.
Qed.
End Single.

Theorem C112_pruned : forall N (g : kcfg N) data centers it d d' scheds scheds' rr,
  valid_input g data -> fair g data scheds -> fair g data scheds' -> same_draws g data it d d' ->
  prune_run g centers it data d scheds = Ok rr <-> prune_run g centers it data d' scheds' = Ok rr.
Proof. intros N g data centers it d d' scheds scheds' rr V F F' D. split; apply prune_run_free; auto using same_draws_sym. Qed.

(** [u]: the random numbers of the sampling *)
Theorem C112_minibatch : forall N (g : kcfg N) mb data centers it d d' u scheds scheds' rr,
  valid_input g data -> fair g data scheds -> fair g data scheds' -> same_draws g data it d d' ->
  mb_run g mb centers it data d u scheds = Ok rr <-> mb_run g mb centers it data d' u scheds' = Ok rr.
Proof. intros N g mb data centers it d d' u scheds scheds' rr V F F' D. split; apply mb_run_free; auto using same_draws_sym. Qed.

Theorem C112_multistart : forall N (nrow ncol k : nat) nthread dt kind keep nstart data drs drs' rr,
  let g := pp_cfg N nrow ncol k nthread dt kind in
  valid_input g data -> (forall i, same_draws g data PLUSPLUS (drs i) (drs' i)) ->
  kmeansPP keep g nstart data drs = Ok rr <-> kmeansPP keep g nstart data drs' = Ok rr.
Proof. intros N nrow ncol k nthread dt kind keep nstart data drs drs' rr g V D. split; apply kmeansPP_free; auto using same_draws_sym. Qed.
Print Assumptions C112_pruned.

(* ------------------------------------------------------------------ *)
(** * C113: the OpenMP entry points, for a given distribution of the rows *)
Section Omp.
Variable N : Num.
Variables (g0 : kcfg N) (data : list (car N)) (chunks : list (nat * nat)) (red : list (car N) -> car N) (n : nat).
Hypothesis Ht : ntiles 0 n chunks.

Let tile ncol : ntiles 0 n (w_ranges (omp_workers N chunks data ncol)).
Proof. rewrite omp_workers_ranges. exact Ht. Qed.

Lemma compute_kmeans_free da ia centers d d' scheds scheds' : (forall i, complete chunks (scheds i)) -> (forall i, complete chunks (scheds' i)) ->
  d_int d' = d_int d -> d_real d' = d_real d -> (ia = IKmeanspp -> (forall i, complete chunks (d_sched d i)) /\ forall i, complete chunks (d_sched d' i)) ->
  rle (compute_kmeans g0 da ia centers data chunks red d scheds) (compute_kmeans g0 da ia centers data chunks red d' scheds').
Proof.
  intros F F' Ei Er Hp. unfold compute_kmeans. destruct (k_rejected _ _); [apply rle_refl|]. apply rle_bind; [apply rle_refl|]. intros s.
  destruct (match da with DEucl => _ | _ => _ end) as [dt|]; [|apply rle_refl]. cbv zeta. apply rle_bind.
  - destruct ia; rewrite ?Ei, ?Er; try apply rle_refl. destruct (Hp eq_refl) as (P1 & P2). apply (@omp_kmspp_free _ _ _ _ (tile _)); rewrite omp_workers_ranges; assumption.
  - intros s1. apply rle_bind; [|intros r; apply rle_refl]. apply (@omp_loop_free _ _ _ _ (tile _)); rewrite omp_workers_ranges; assumption.
Qed.

Lemma compute_min_kmeans_free da ia centers d d' scheds scheds' : (forall i, complete chunks (scheds i)) -> (forall i, complete chunks (scheds' i)) ->
  d_int d' = d_int d -> d_real d' = d_real d -> (ia = IKmeanspp -> (forall i, complete chunks (d_sched d i)) /\ forall i, complete chunks (d_sched d' i)) ->
  rle (compute_min_kmeans g0 da ia centers data chunks red d scheds) (compute_min_kmeans g0 da ia centers data chunks red d' scheds').
Proof.
  intros F F' Ei Er Hp. unfold compute_min_kmeans. destruct (k_rejected _ _); [apply rle_refl|]. apply rle_bind; [apply rle_refl|]. intros ks. apply rle_bind; [apply rle_refl|]. intros dm.
  destruct (match da with DEucl => _ | _ => _ end) as [dt|]; [|apply rle_refl]. cbv zeta. apply rle_bind.
  - destruct ia; rewrite ?Ei, ?Er; try apply rle_refl. destruct (Hp eq_refl) as (P1 & P2). apply (@omp_kmspp_free _ _ _ _ (tile _)); rewrite omp_workers_ranges; assumption.
  - intros s1. apply rle_bind; [apply rle_refl|]. intros mp. apply rle_bind.
    + destruct (0 <? g_max_iters (with_dt g0 dt)); [|apply rle_refl]. apply (@omp_pEM_free _ _ _ _ (tile _)); rewrite omp_workers_ranges; auto.
    + intros s2. apply rle_bind; [|intros r; apply rle_refl]. apply (@omp_ploop_free _ _ _ _ (tile _)); rewrite omp_workers_ranges; assumption.
Qed.
End Omp.

Theorem C113_openmp : forall N (g0 : kcfg N) da ia centers data chunks red d d' scheds scheds',
  ntiles 0 (g_nrow g0) chunks -> (forall i, complete chunks (scheds i)) -> (forall i, complete chunks (scheds' i)) ->
  d_int d' = d_int d -> d_real d' = d_real d ->
  (ia = IKmeanspp -> (forall i, complete chunks (d_sched d i)) /\ forall i, complete chunks (d_sched d' i)) ->
  (forall rr, compute_kmeans g0 da ia centers data chunks red d scheds = Ok rr <-> compute_kmeans g0 da ia centers data chunks red d' scheds' = Ok rr) /\
  (forall rr, compute_min_kmeans g0 da ia centers data chunks red d scheds = Ok rr <-> compute_min_kmeans g0 da ia centers data chunks red d' scheds' = Ok rr).
Proof.
  intros N g0 da ia centers data chunks red d d' scheds scheds' Ht F F' Ei Er Hp.
  assert (Hp' : ia = IKmeanspp -> (forall i, complete chunks (d_sched d' i)) /\ forall i, complete chunks (d_sched d i)) by (intros E; destruct (Hp E); auto).
  split; intros rr; split.
  - exact (@compute_kmeans_free N g0 data chunks red _ Ht da ia centers d d' scheds scheds' F F' Ei Er Hp rr).
  - exact (@compute_kmeans_free N g0 data chunks red _ Ht da ia centers d' d scheds' scheds F' F (eq_sym Ei) (eq_sym Er) Hp' rr).
  - exact (@compute_min_kmeans_free N g0 data chunks red _ Ht da ia centers d d' scheds scheds' F F' Ei Er Hp rr).
  - exact (@compute_min_kmeans_free N g0 data chunks red _ Ht da ia centers d' d scheds' scheds F' F (eq_sym Ei) (eq_sym Er) Hp' rr).
Qed.
Print Assumptions C113_openmp.

(* ------------------------------------------------------------------ *)
(** * C114: the MPI drivers *)
(** the schedule of every process in every round lets its threads finish *)
Definition mpi_fair {N} (g : kcfg N) (P : nat) (data : list (car N)) (scheds : nat -> nat -> list nat) : Prop :=
  forall i rank ws, rank < P -> build_workers (proc_cfg g P rank) (proc_data g P data rank) = Ok ws -> complete (w_ranges ws) (scheds i rank).
(** every process has a valid share of the rows *)
Definition mpi_valid {N} (g : kcfg N) (P : nat) (data : list (car N)) : Prop :=
  forall rank, rank < P -> valid_input (proc_cfg g P rank) (proc_data g P data rank).

Lemma seq_below P : Forall (fun r => r < P) (seq 0 P).
Proof. apply Forall_forall. intros x H. apply in_seq in H. lia. Qed.

Section Mpi.
Variable N : Num.
Variables (g : kcfg N) (P : nat) (data : list (car N)).
Hypothesis V : mpi_valid g P data.

Lemma good_proc ks ks' rank ws : rank < P -> mpi_fair g P data ks -> mpi_fair g P data ks' ->
  build_workers (proc_cfg g P rank) (proc_data g P data rank) = Ok ws -> good ks ks' rank ws.
Proof.
  intros Hr F F' E. split; [exists (g_nrow (proc_cfg g P rank)); exact (workers_tile (V Hr) E)|]. split; intros i; [exact (F i rank ws Hr E)|exact (F' i rank ws Hr E)].
Qed.

Let mine rank ws := rank < P /\ build_workers (proc_cfg g P rank) (proc_data g P data rank) = Ok ws.

Lemma dist_run_free centers it draw ur ks ks' scheds scheds' : mpi_fair g P data scheds -> mpi_fair g P data scheds' ->
  (it = PLUSPLUS -> mpi_fair g P data ks /\ mpi_fair g P data ks') ->
  rle (dist_prune_run g P centers it data draw ur ks scheds) (dist_prune_run g P centers it data draw ur ks' scheds').
Proof.
  intros F F' Hp. unfold dist_prune_run. apply rle_bind_ok; [apply rle_refl|]. intros qs Eqs.
  assert (M : Forall (fun q => mine (dp_rank q) (dp_ws q)) qs).
  { apply (@mapM_pred _ _ (fun r => r < P) _ _) with (2 := seq_below P) (3 := Eqs).
    intros r q Hr E. unfold dproc_create in E. apply bind_ok in E as (s & _ & E). apply bind_ok in E as (ws & Ew & E). injection E as <-. split; assumption. }
  apply rle_bind_ok.
  - apply dist_init_free. revert M. apply Forall_impl. intros q (Hr & E) Hit. destruct (Hp Hit). apply good_proc; assumption.
  - intros q0 E0. apply rle_bind; [|intros r; apply rle_refl]. apply dist_loop_free.
    pose proof (@dist_init_keep N g P data ks mine it draw ur qs q0 M E0) as M0. revert M0. apply Forall_impl. intros q (Hr & E). apply good_proc; assumption.
Qed.

Lemma udist_run_free centers it draw ur ks ks' scheds scheds' : mpi_fair g P data scheds -> mpi_fair g P data scheds' ->
  (it = PLUSPLUS -> mpi_fair g P data ks /\ mpi_fair g P data ks') ->
  rle (udist_run g P centers it data draw ur ks scheds) (udist_run g P centers it data draw ur ks' scheds').
Proof.
  intros F F' Hp. unfold udist_run. apply rle_bind_ok; [apply rle_refl|]. intros qs Eqs.
  assert (M : Forall (fun q => mine (up_rank q) (up_ws q)) qs).
  { apply (@mapM_pred _ _ (fun r => r < P) _ _) with (2 := seq_below P) (3 := Eqs).
    intros r q Hr E. unfold uproc_create in E. apply bind_ok in E as (s & _ & E). apply bind_ok in E as (ws & Ew & E). injection E as <-. split; assumption. }
  apply rle_bind_ok.
  - apply udist_init_free. revert M. apply Forall_impl. intros q (Hr & E) Hit. destruct (Hp Hit). apply good_proc; assumption.
  - intros q0 E0. apply rle_bind; [|intros r; apply rle_refl]. apply udist_loop_free.
    pose proof (@udist_init_keep N g P data ks mine it draw ur qs q0 M E0) as M0. revert M0. apply Forall_impl. intros q (Hr & E). apply good_proc; assumption.
Qed.
End Mpi.

Theorem C114_mpi : forall N (g : kcfg N) P data centers it draw ur ks ks' scheds scheds',
  mpi_valid g P data -> mpi_fair g P data scheds -> mpi_fair g P data scheds' ->
  (it = PLUSPLUS -> mpi_fair g P data ks /\ mpi_fair g P data ks') ->
  (forall rr, udist_run g P centers it data draw ur ks scheds = Ok rr <-> udist_run g P centers it data draw ur ks' scheds' = Ok rr) /\
  (forall rr, dist_prune_run g P centers it data draw ur ks scheds = Ok rr <-> dist_prune_run g P centers it data draw ur ks' scheds' = Ok rr).
Proof.
  intros N g P data centers it draw ur ks ks' scheds scheds' V F F' Hp.
  assert (Hp' : it = PLUSPLUS -> mpi_fair g P data ks' /\ mpi_fair g P data ks) by (intros E; destruct (Hp E); auto).
  split; intros rr; split.
  - exact (@udist_run_free N g P data V centers it draw ur ks ks' scheds scheds' F F' Hp rr).
  - exact (@udist_run_free N g P data V centers it draw ur ks' ks scheds' scheds F' F Hp' rr).
  - exact (@dist_run_free N g P data V centers it draw ur ks ks' scheds scheds' F F' Hp rr).
  - exact (@dist_run_free N g P data V centers it draw ur ks' ks scheds' scheds F' F Hp' rr).
Qed.
Print Assumptions C114_mpi.

(* ------------------------------------------------------------------ *)
(** * C115: hierarchical, X-means and G-means *)
(** every parallel phase of every round lets every thread finish (= [h_fair] of HclustVerify) *)
Definition hier_fair {N} (g : kcfg N) (data : list (car N)) (scheds : nat -> nat -> list nat) : Prop :=
  forall ws, build_workers g data = Ok ws -> forall i j, complete (w_ranges ws) (scheds i j).

Section Hier.
Variable N : Num.
Variables (g : hcfg N) (data : list (car N)).
Hypothesis V : valid_input g data.
Variables scheds scheds' : nat -> nat -> list nat.
Hypothesis F : hier_fair g data scheds.
Hypothesis F' : hier_fair g data scheds'.

Lemma h_run_free bind centers it d fuel : rle (h_run g bind centers it data d scheds fuel) (h_run g bind centers it data d scheds' fuel).
Proof.
  unfold h_run. apply rle_bind; [apply rle_refl|]. intros s. apply rle_bind_ok; [apply rle_refl|]. intros ws Ews.
  apply rle_bind; [apply rle_refl|]. intros s0. apply rle_bind; [|intros s1; apply rle_refl].
  exact (@h_loop_free N g ws _ (workers_tile V Ews) scheds scheds' (F Ews) (F' Ews) data fuel 0 s0).
Qed.

Lemma x_run_free nlog tp bind centers it d ords fuel :
  rle (x_run nlog tp g bind centers it data d scheds ords fuel) (x_run nlog tp g bind centers it data d scheds' ords fuel).
Proof.
  unfold x_run. apply rle_bind; [apply rle_refl|]. intros s. apply rle_bind_ok; [apply rle_refl|]. intros ws Ews.
  apply rle_bind; [apply rle_refl|]. intros s0. apply rle_bind; [|intros s1; apply rle_refl].
  exact (@x_loop_free N g ws _ (workers_tile V Ews) scheds scheds' (F Ews) (F' Ews) nlog tp data ords fuel 0 _ _).
Qed.

Lemma g_run_free nlog phi trunc st bind centers it d fuel :
  rle (g_run nlog phi trunc g st bind centers it data d scheds fuel) (g_run nlog phi trunc g st bind centers it data d scheds' fuel).
Proof.
  unfold g_run. apply rle_bind_ok; [apply rle_refl|]. intros (s & ws) Es. unfold g_start in Es. apply bind_ok in Es as (s1 & _ & Es). apply bind_ok in Es as (ws' & Ews & Es).
  apply bind_ok in Es as (h & _ & Es). injection Es as _ <-. apply rle_bind; [|intros s2; apply rle_refl].
  exact (@g_loop_free N g ws' _ (workers_tile V Ews) scheds scheds' (F Ews) (F' Ews) nlog phi trunc st data fuel 0 _ _).
Qed.
End Hier.

(** [ords]: the order in which a round visits the scored partitions, the same in both runs *)
Theorem C115_hierarchical : forall N (g : hcfg N) data centers it d bind fuel scheds scheds',
  valid_input g data -> hier_fair g data scheds -> hier_fair g data scheds' ->
  (forall rr, h_run g bind centers it data d scheds fuel = Ok rr <-> h_run g bind centers it data d scheds' fuel = Ok rr) /\
  (forall nlog two_pi ords rr, x_run nlog two_pi g bind centers it data d scheds ords fuel = Ok rr <-> x_run nlog two_pi g bind centers it data d scheds' ords fuel = Ok rr) /\
  (forall nlog phi trunc strictness rr, g_run nlog phi trunc g strictness bind centers it data d scheds fuel = Ok rr <-> g_run nlog phi trunc g strictness bind centers it data d scheds' fuel = Ok rr).
Proof.
  intros N g data centers it d bind fuel scheds scheds' V F F'. split; [|split]; intros; split; intros.
  - exact (@h_run_free N g data V scheds scheds' F F' bind centers it d fuel _ H).
  - exact (@h_run_free N g data V scheds' scheds F' F bind centers it d fuel _ H).
  - exact (@x_run_free N g data V scheds scheds' F F' nlog two_pi bind centers it d ords fuel _ H).
  - exact (@x_run_free N g data V scheds' scheds F' F nlog two_pi bind centers it d ords fuel _ H).
  - exact (@g_run_free N g data V scheds scheds' F F' nlog phi trunc strictness bind centers it d fuel _ H).
  - exact (@g_run_free N g data V scheds' scheds F' F nlog phi trunc strictness bind centers it d fuel _ H).
Qed.
Print Assumptions C115_hierarchical.
