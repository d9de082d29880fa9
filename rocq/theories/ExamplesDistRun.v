(** Concrete MPI runs: the premises of C35 and C68 can be met, and the model computes. *)
From Coq Require Import Reals Lra Floats.SpecFloat.
From Verif Require Import Base Num Spec DistModel ClustersModel ClustersView PartitionModel ParModel KmeansModel PruneModel DistRunModel.
From Verif Require Import MatLemmas VecLemmas ClustersProofs DistProofs PartitionProofs ParProofs NearProofs KmeansProofs UpdateProofs RunProofs ParRule DistMatProofs PruneProofs ClusterSums.
From Verif Require Import InitProofs SimProofs KmeansR PropertiesKmeansR PropertiesRun KmsppR PropertiesPrune ProcRows SpecKmspp PropertiesKmspp PropertiesDistRun ExamplesPrune.
Set Implicit Arguments.

(* ------------------------------------------------------------------ *)
(** * IEEE arithmetic *)

(** 7 rows on 3 processes (2, 2 and 3 rows), two threads each *)
Definition dg : kcfg NumF := mkCfg NumF 7 1 2 20 2 (fofZ (-1)) EUCL DataFile.
Definition dsch (_ _ : nat) : list nat := [0; 1; 0; 1; 0; 1].
Definition ddata : list F64 := fl [1; 2; 30; 3; 40; 4; 50]%Z.

Theorem C35_example_none :
  okmap (fun rr : drun_result NumF => (ct_asg (dr_out rr), ct_counts (dr_out rr), ct_iters (dr_out rr), dr_converged rr))
    (dist_prune_run dg 3 (Some (fl [1; 2]%Z)) NONE ddata (fun _ => 0) (fun _ => (fofZ 0)) dsch dsch)
  = Some ([Some 0; Some 0; Some 1; Some 0; Some 1; Some 0; Some 1], [4; 3]%Z, 3, true).
Proof. vm_compute. reflexivity. Qed.
Theorem C35_example_forgy :
  okmap (fun rr : drun_result NumF => (ct_asg (dr_out rr), ct_counts (dr_out rr), dr_converged rr))
    (dist_prune_run dg 3 None FORGY ddata (fun j => 6 - j) (fun _ => (fofZ 0)) dsch dsch)
  = Some ([Some 1; Some 1; Some 0; Some 1; Some 0; Some 1; Some 0], [3; 4]%Z, true).
Proof. vm_compute. reflexivity. Qed.
Theorem C35_example_random :
  okmap (fun rr : drun_result NumF => (ct_asg (dr_out rr), ct_counts (dr_out rr), dr_converged rr))
    (dist_prune_run dg 3 None RANDOM ddata (fun r => Nat.modulo r 2) (fun _ => (fofZ 0)) dsch dsch)
  = Some ([Some 1; Some 1; Some 0; Some 1; Some 0; Some 1; Some 0], [3; 4]%Z, true).
Proof. vm_compute. reflexivity. Qed.

(** seeds: row 4 (value 40); the draws below 1 divided by RAND_MAX - 1 always reach
    at the first row with a distance, here row 0 (F16) *)
Theorem C35_example_plusplus :
  okmap (fun rr : drun_result NumF => (ct_asg (dr_out rr), ct_counts (dr_out rr), dr_converged rr))
    (dist_prune_run dg 3 None PLUSPLUS ddata (fun _ => 4) (fun _ => fofZ 1) dsch dsch)
  = Some ([Some 1; Some 1; Some 0; Some 1; Some 0; Some 1; Some 0], [3; 4]%Z, true).
Proof. vm_compute. reflexivity. Qed.

(* ------------------------------------------------------------------ *)
(** * Exact arithmetic: two processes with a row each *)
Section ExD.
Local Open Scope R_scope.
Variables (a b : R).
Hypothesis Ha : 0 < a.
Hypothesis Hab : a < b.
Hypothesis Hb : b < 1000.

Definition drsch (_ _ : nat) : list nat := [0; 0]%nat.

Lemma drsch_complete : forall i rank ws, (rank < 2)%nat -> build_workers (proc_cfg rg 2 rank) (proc_data rg 2 (rdata a b) rank) = Ok ws -> complete (w_ranges ws) (drsch i rank).
Proof.
  intros i rank ws Hr E.
      assert (Hn : proc_nrow 2 2 rank = 1%nat) by (destruct rank as [|[|rank]]; [reflexivity|reflexivity|lia]).
      destruct (@build_workers_ok NumR (proc_cfg rg 2 rank) (proc_data rg 2 (rdata a b) rank)) as (ws' & E' & (Ht & _) & Lw & _).
      * cbn. rewrite Hn. lia.
      * cbn. rewrite Hn. lia.
      * cbn. lia.
      * destruct rank as [|[|rank]]; [reflexivity|reflexivity|lia].
      * rewrite E in E'. injection E' as <-. cbn [g_nthreads g_nrow proc_cfg rg] in Lw. try rewrite Hn in Lw. change (length ws = 1%nat) in Lw. destruct ws as [|w [|w2 ws]]; try discriminate.
        cbn [w_ranges map ntiles g_nrow proc_cfg rg] in Ht. rewrite Hn in Ht. intros [|[|t]] s n H; try discriminate. cbn in H. injection H as <- <-. cbn. cbn in Ht. lia.
Qed.

Lemma seeds_rg : forall j, (j < 2)%nat -> (nth j (kpp_seeds rg (rdata a b) 0 (fun _ => (1 / 2)%R) 2) 0 < 2)%nat.
Proof.
  intros [|[|j]] Hj; [cbn; lia| |lia]. cbn [kpp_seeds nth app]. unfold kpp_next. set (t := (rsum _ * _ / _)%R). cbn [rg g_nrow seq map first_reach].
  assert (T : t <= 0 + kpp_dist rg (rdata a b) [0%nat] 0 + kpp_dist rg (rdata a b) [0%nat] 1).
  { unfold t. cbn [rg g_nrow seq map rsum fold_right]. set (x := kpp_dist _ _ _ 0). set (y := kpp_dist _ _ _ 1).
    assert (Hx : 0 <= x) by (unfold x, kpp_dist; cbn [map fold_right]; apply Rmin_glb; [apply rdist_nonneg; discriminate|apply IZR_le; vm_compute; discriminate]).
    assert (Hy : 0 <= y) by (unfold y, kpp_dist; cbn [map fold_right]; apply Rmin_glb; [apply rdist_nonneg; discriminate|apply IZR_le; vm_compute; discriminate]).
    assert (Hm : 1 <= IZR RAND_MAX - 1) by (unfold RAND_MAX; cbn; lra).
    apply Rmult_le_reg_r with (IZR RAND_MAX - 1); [lra|]. unfold Rdiv at 1. rewrite Rmult_assoc, Rinv_l, Rmult_1_r by lra. nra. }
  destruct (Rle_dec _ _); [lia|]. destruct (Rle_dec _ _); [lia|]. exfalso. lra.
Qed.

Theorem C35_premises_met : forall it,
  dist_args rg 2 (rdata a b) (Some (rdata a b)) it (fun j => j) (fun _ => 1 / 2) drsch drsch /\
  start_finite rg (rdata a b) (Some (rdata a b)) it (fun j => j) (fun _ => 1 / 2).
Proof.
  intros it. split.
  - constructor; cbn [g_nrow g_ncol g_k g_nthreads rg]; try (cbn; lia).
    + destruct it; try exact I. cbn. lia.
    + destruct it; try exact I; try (intros; lia). split; [lia|]. split; [intros H; discriminate H|]. split; [intros; lra|exact drsch_complete].
    + exact drsch_complete.
  - intros r j Hr Hj. cbn [g_nrow g_k g_ncol g_dt rg] in *. apply lt_max.
    assert (Er : row (rdata a b) 1 r = [a] \/ row (rdata a b) 1 r = [b]) by (destruct r as [|[|r]]; [left|right|lia]; reflexivity).
    assert (Es : start_centroid rg (rdata a b) (Some (rdata a b)) it (fun j => j) (fun _ => 1 / 2) j = [a] \/ start_centroid rg (rdata a b) (Some (rdata a b)) it (fun j => j) (fun _ => 1 / 2) j = [b]).
    { assert (Hpp : it = PLUSPLUS \/ it <> PLUSPLUS) by (destruct it; auto; right; discriminate). destruct Hpp as [-> | Hpp].
      { cbn [start_centroid rg g_ncol g_k]. pose proof (seeds_rg Hj) as Hn. set (n := nth j _ 0%nat) in *. clearbody n. destruct n as [|[|n]]; [left|right|lia]; reflexivity. }
      destruct it; try congruence; cbn [start_centroid rg g_ncol]; try (destruct j as [|[|j]]; [left|right|lia]; reflexivity).
      destruct j as [|[|j]]; [left|right|lia]; unfold cluster_mean; cbn; unfold vmean; cbn; f_equal; field. }
    unfold rdist. destruct Er as [->| ->], Es as [->| ->]; rewrite ed1; apply Rabs_def1; lra.
Qed.
End ExD.

(** C104 in IEEE arithmetic: every process holds the rows 4 and 0, the rows that a
    single process with one thread chooses *)
Theorem C104_example_dist :
  okmap (fun rr : drun_result NumF => map (fun q => c_means (dp_cl q)) (dr_init rr))
    (dist_prune_run dg 3 None PLUSPLUS ddata (fun _ => 4) (fun _ => fofZ 1) dsch dsch)
  = Some (repeat (fl [40; 1]%Z) 3).
Proof. vm_compute. reflexivity. Qed.
Theorem C104_example_serial :
  okmap (fun p => let '(s', _, _, chosen) := p in (chosen, c_means (s_cltrs s')))
    (let* s := coordinator_create dg None PLUSPLUS in
     let* ws := build_workers dg ddata in
     kmeanspp_init_t dg ws ddata (fun _ => [0; 0; 0; 0; 1; 1; 1; 1]%nat) 4 (fun _ => fofZ 1) s)
  = Some ([4; 0]%nat, fl [40; 1]%Z).
Proof. vm_compute. reflexivity. Qed.
