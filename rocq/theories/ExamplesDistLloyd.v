(** Concrete unpruned MPI runs: the premises of C105 and C106 can be met, and the model computes. *)
From Coq Require Import Reals Lra Floats.SpecFloat.
From Verif Require Import Base Num Spec DistModel ClustersModel ClustersView PartitionModel ParModel KmeansModel PruneModel DistRunModel DistLloydModel.
From Verif Require Import MatLemmas VecLemmas ClustersProofs DistProofs PartitionProofs ParProofs NearProofs KmeansProofs UpdateProofs RunProofs ParRule DistMatProofs PruneProofs ClusterSums.
From Verif Require Import InitProofs SimProofs KmeansR PropertiesKmeansR PropertiesRun KmsppR PropertiesPrune ProcRows SpecKmspp PropertiesKmspp PropertiesDistRun PropertiesDistKmspp ExamplesPrune ExamplesDistRun.
From Verif Require Import DistLloyd DistLloydInit PropertiesDistLloyd PropertiesDistSame.
Set Implicit Arguments.

(* ------------------------------------------------------------------ *)
(** * IEEE arithmetic *)
Definition uout (rr : udrun_result NumF) := (ct_asg (ud_out rr), ct_counts (ud_out rr), ct_centroids (ud_out rr), ct_iters (ud_out rr), ud_converged rr).
Definition rout (rr : run_result NumF) := (ct_asg (rr_out rr), ct_counts (rr_out rr), ct_centroids (rr_out rr), ct_iters (rr_out rr), rr_converged rr).

(** 7 rows on 3 processes (2, 2 and 3 rows), two threads each *)
Theorem C105_example :
  okmap uout (udist_run dg 3 (Some (fl [1; 2]%Z)) NONE ddata (fun _ => 0) (fun _ => fofZ 0) dsch dsch)
  = Some ([Some 0; Some 0; Some 1; Some 0; Some 1; Some 0; Some 1], [4; 3]%Z,
          [ndiv NumF (fofZ 10) (fofZ 4); fofZ 40], 3, true).
Proof. vm_compute. reflexivity. Qed.
Theorem C105_example_random :
  okmap uout (udist_run dg 3 None RANDOM ddata (fun r => Nat.modulo r 2) (fun _ => fofZ 0) dsch dsch)
  = Some ([Some 1; Some 1; Some 0; Some 1; Some 0; Some 1; Some 0], [3; 4]%Z,
          [fofZ 40; ndiv NumF (fofZ 10) (fofZ 4)], 2, true).
Proof. vm_compute. reflexivity. Qed.

(** the same call in a single process with one thread *)
Definition sg : kcfg NumF := mkCfg NumF 7 1 2 20 1 (fofZ (-1)) EUCL UserBuffer.
Theorem C106_example :
  okmap rout (run sg (Some (fl [1; 2]%Z)) NONE ddata pdr (pscheds 7))
  = okmap uout (udist_run dg 3 (Some (fl [1; 2]%Z)) NONE ddata (fun _ => 0) (fun _ => fofZ 0) dsch dsch).
Proof. vm_compute. reflexivity. Qed.

(** stopped by the limit, one turn each: the reported counts of iterations differ (F6) *)
Theorem C106_iterations_differ :
  okmap (fun rr : run_result NumF => (ct_iters (rr_out rr), length (rr_trace rr)))
    (run (mkCfg NumF 7 1 2 1 1 (fofZ (-1)) EUCL UserBuffer) (Some (fl [1; 2]%Z)) NONE ddata pdr (pscheds 7)) = Some (2, 1) /\
  okmap (fun rr : udrun_result NumF => (ct_iters (ud_out rr), length (ud_trace rr)))
    (udist_run (mkCfg NumF 7 1 2 1 2 (fofZ (-1)) EUCL DataFile) 3 (Some (fl [1; 2]%Z)) NONE ddata (fun _ => 0) (fun _ => fofZ 0) dsch dsch) = Some (1, 1).
Proof. split; vm_compute; reflexivity. Qed.

(* ------------------------------------------------------------------ *)
(** * Exact arithmetic: two processes with a row each, against one process *)
Section ExU.
Local Open Scope R_scope.
Variables (a b : R).
Hypothesis Ha : 0 < a.
Hypothesis Hab : a < b.
Hypothesis Hb : b < 1000.

Definition udr : draws NumR := mkDraws NumR (fun j => j) (fun _ => 1 / 2) rsch.

Theorem C105_premises_met : forall it, udist_args rg 2 (rdata a b) (Some (rdata a b)) it (fun j => j) (fun _ => 1 / 2) drsch drsch.
Proof.
  intros it. destruct (C35_premises_met Ha Hab Hb it) as (A & _). destruct A. constructor; auto; cbn; lia.
Qed.

Theorem C106_premises_met : forall it,
  same_task rg rg /\ (1 <= g_max_iters rg)%nat /\
  udist_args rg 2 (rdata a b) (Some (rdata a b)) it (fun j => j) (fun _ => 1 / 2) drsch drsch /\
  valid_args rg (rdata a b) (Some (rdata a b)) it udr /\ fair rg (rdata a b) rsch /\
  d_int udr = (fun j => j) /\ d_real udr = (fun _ => 1 / 2).
Proof.
  intros it. destruct (rex_args a b) as (_ & (V & Hk & Hc & _) & _ & F).
  splits; auto.
  - unfold same_task, same_problem. auto 10.
  - cbn. lia.
  - apply C105_premises_met.
  - split; [exact V|]. split; [exact Hk|]. split.
    + destruct it; try exact I. exact Hc.
    + destruct it; cbn; try exact I; auto; try (split; [lia|exact F]); intros; lia.
Qed.
End ExU.
