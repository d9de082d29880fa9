(** C104: kmeans++ seeding depends on the data and the draws only. *)
From Coq Require Import Reals Lra.
From Verif Require Import Base Num Spec DistModel ClustersModel ClustersView PartitionModel ParModel KmeansModel PruneModel DistRunModel.
From Verif Require Import MatLemmas VecLemmas ClustersProofs DistProofs PartitionProofs ParProofs NearProofs KmeansProofs UpdateProofs RunProofs InitProofs SimProofs KmeansR PropertiesKmeansR PropertiesRun KmsppR SpecKmspp PropertiesKmspp PropertiesDistRun.
Set Implicit Arguments.
Local Open Scope R_scope.

(** the two configurations describe the same problem (threads, iterations,
    tolerance ... may differ) *)
Definition same_problem (g g' : kcfg NumR) : Prop :=
  g_nrow g = g_nrow g' /\ g_ncol g = g_ncol g' /\ g_k g = g_k g' /\ g_dt g = g_dt g'.

Lemma seeds_problem g g' data first u : same_problem g g' -> forall m, kpp_seeds g data first u m = kpp_seeds g' data first u m.
Proof.
  intros (E1 & E2 & _ & E4).
  assert (Hd : forall ch r, kpp_dist g data ch r = kpp_dist g' data ch r) by (intros; unfold kpp_dist; rewrite E2, E4; reflexivity).
  assert (Hn : forall ch x, kpp_next g data ch x = kpp_next g' data ch x).
  { intros. unfold kpp_next. rewrite E1. rewrite (map_ext _ _ (Hd ch)). reflexivity. }
  induction m as [|[|m] IH]; try reflexivity. rewrite !seeds_S, IH, Hn. reflexivity.
Qed.

(** one process: whatever the threads and their interleaving, the rows chosen are
    the specified ones, and the centroids are those rows *)
Theorem C104_seeding : forall (g : kcfg NumR) centers data dr s ws s' dv trace chosen,
  valid_args g data centers PLUSPLUS dr -> (forall i, 0 <= d_real dr i <= 1) -> proper g data ->
  coordinator_create g centers PLUSPLUS = Ok s -> build_workers g data = Ok ws ->
  kmeanspp_init_t g ws data (d_sched dr) (d_int dr 0%nat) (d_real dr) s = Ok (s', dv, trace, chosen) ->
  chosen = kpp_seeds g data (d_int dr 0%nat) (d_real dr) (g_k g) /\
  forall j, (j < g_k g)%nat -> row (c_means (s_cltrs s')) (g_ncol g) j = @row R data (g_ncol g) (nth j chosen 0%nat).
Proof.
  intros g centers data dr s ws s' dv trace chosen (V & Hk & Hc & D) Hur P Es Ew Hi.
  destruct (get_workers V) as (ws' & Ew' & W). rewrite Ew in Ew'. injection Ew' as <-.
  pose proof (@stok_create NumR g centers PLUSPLUS data s ws V Es Ew) as (Sh & _).
  destruct (@create_ok NumR g centers PLUSPLUS Hk Hc) as (s0 & Es0 & _ & Hasg & _). rewrite Es in Es0. injection Es0 as <-.
  destruct D as (D & Fp).
  destruct (@kmspp_init_R g data ws V W (fun r Hr => proper_self P Hr)
     (fun r q Hr Hq => @proper_pos g data r q P (proj2 (proj2 (proj2 V))) Hr Hq)
     (d_sched dr) (d_real dr) (d_int dr 0%nat) s (Fp ws Ew) Hur D Hk Sh Hasg)
    as (s2 & dv2 & trace2 & chosen2 & E & Sh2 & Lc & Lt & H0 & Hch & Hrow & _ & _ & _ & _ & Htr & Hpk).
  pose proof (eq_trans (eq_sym E) Hi) as E2. injection E2 as -> -> -> ->. split.
  - eapply recorded_seeds; eauto.
  - intros j Hj. rewrite <- (Hrow j Hj). unfold crow. destruct Sh2 as (_ & Hd & _). rewrite Hd. reflexivity.
Qed.
Print Assumptions C104_seeding.

(** the MPI processes start from the very centroids that one process, with any
    number of threads, would choose for the same draws *)
Theorem C104_processes_agree : forall (g g' : kcfg NumR) P data centers centers' draw ur ksched scheds rr dr s ws s' dv trace chosen,
  same_problem g g' ->
  dist_args g P data centers PLUSPLUS draw ur ksched scheds -> start_finite g data centers PLUSPLUS draw ur ->
  dist_prune_run g P centers PLUSPLUS data draw ur ksched scheds = Ok rr ->
  valid_args g' data centers' PLUSPLUS dr -> d_int dr 0%nat = draw 0%nat -> d_real dr = ur ->
  coordinator_create g' centers' PLUSPLUS = Ok s -> build_workers g' data = Ok ws ->
  kmeanspp_init_t g' ws data (d_sched dr) (d_int dr 0%nat) (d_real dr) s = Ok (s', dv, trace, chosen) ->
  forall q j, In q (dr_init rr) -> (j < g_k g)%nat ->
    dcentroid (g_ncol g) q j = row (c_means (s_cltrs s')) (g_ncol g) j.
Proof.
  intros g g' P data centers centers' draw ur ksched scheds rr dr s ws s' dv trace chosen Hsp A Hfin E V' Hd0 Hur Es Ew Hi q j Hq Hj.
  pose proof (da_init A) as (_ & Hp & Hu & _). pose proof Hsp as (E1 & E2 & E3 & E4).
  assert (Hp' : proper g' data) by (unfold proper in *; rewrite <- E1, <- E2, <- E4; exact Hp).
  assert (Hu' : forall i, 0 <= d_real dr i <= 1) by (rewrite Hur; exact Hu).
  destruct (C104_seeding V' Hu' Hp' Es Ew Hi) as (Ec & Hrow).
  destruct (C68_dist_start A Hfin E) as (_ & H). rewrite (H q j Hq Hj). cbn [start_centroid]. rewrite E2, (Hrow j ltac:(lia)), Ec, Hd0, Hur.
  rewrite (seeds_problem data (draw 0%nat) ur Hsp), E3. reflexivity.
Qed.
Print Assumptions C104_processes_agree.
