(** The hypotheses of C112-C115 are met by concrete binary64 runs of two or more
    threads under two different interleavings. *)
From Coq Require Import Reals Floats.SpecFloat.
From Verif Require Import Base Num Spec DistModel ClustersModel ClustersView PartitionModel ParModel KmeansModel PruneModel.
From Verif Require Import ParProofs KmeansProofs RunProofs InitProofs SimProofs PropertiesKmeans PropertiesRun ExamplesKmeans MbModel BestOfModel OmpModel OmpProofs.
From Verif Require Import DistRunModel DistLloydModel ContainersModel HclustModel HclustVerify XmeansModel GmeansModel ExamplesHclust ExamplesOmp ExamplesDistRun ExamplesPrune PropertiesFree.
Set Implicit Arguments.

Definition exs2 (_ : nat) : list nat := [1; 0; 1; 0; 1].
Definition exdr2 : draws NumF := mkDraws NumF (fun i => i) (fun _ => fofZ 0) exs2.

Lemma two_ranges (g : kcfg NumF) (data : list F64) scheds : okmap (@w_ranges NumF) (build_workers g data) = Some [(0, 2); (2, 3)] ->
  (forall i, 2 <= count_eq 0 (scheds i) /\ 3 <= count_eq 1 (scheds i)) -> fair g data scheds.
Proof.
  intros H C ws E i. rewrite E in H. cbn [okmap] in H. injection H as ->. destruct (C i) as (C0 & C1).
  intros [|[|[|t]]] s n Ht; try discriminate; injection Ht as <- <-; assumption.
Qed.
Lemma fair_exs2 m : fair (exg m) exd exs2.
Proof. apply two_ranges; [apply ex_ranges|]. intros i. cbn. lia. Qed.
Lemma fair_exdr m : fair (exg m) exd (d_sched exdr).
Proof. apply two_ranges; [apply ex_ranges|]. intros i. cbn. lia. Qed.

Lemma same_exdr m it : same_draws (exg m) exd it exdr exdr2.
Proof. split; [reflexivity|]. split; [reflexivity|]. intros _. split; [apply fair_exdr|apply fair_exs2]. Qed.

(** C112: a pruned run with kmeans++ seeds *)
Theorem C112_premises_met : valid_input (exg 10) exd /\ fair (exg 10) exd exs /\ fair (exg 10) exd exs2 /\ same_draws (exg 10) exd PLUSPLUS exdr exdr2 /\
  exs 0 <> exs2 0 /\
  okmap (fun rr : prun_result NumF => (ct_asg (pr_out rr), ct_counts (pr_out rr), pr_converged rr)) (prune_run (exg 10) None PLUSPLUS exd exdr exs)
    = Some ([Some 1; Some 1; Some 0; Some 0; Some 0], [3; 2]%Z, true) /\
  okmap (fun rr : mb_result NumF => (ct_asg (mb_out rr), ct_counts (mb_out rr))) (mb_run (exg 3) 2 (Some exc) NONE exd exdr (fun _ _ => fofZ 0) exs)
    = Some ([Some 0; Some 0; Some 1; Some 1; Some 1], [2; 3]%Z).
Proof.
  split; [apply ex_valid|]. split; [apply ex_fair|]. split; [apply fair_exs2|]. split; [apply same_exdr|]. split; [discriminate|].
  split; vm_compute; reflexivity.
Qed.

(** C113 *)
Theorem C113_premises_met : ntiles 0 5 exchunks /\ (forall i, complete exchunks (exso i)) /\ (forall i : nat, complete exchunks [0; 1; 2; 0; 1]) /\
  okmap show (compute_kmeans (exg 10) DEucl IKmeanspp exc exd exchunks exsum exdr_omp exso)
  = Some (2, true, [Some 0; Some 0; Some 1; Some 1; Some 1], [2; 3]%Z, 2, [5; 0]).
Proof.
  split; [cbn; lia|]. split; [|split; [|exact omp_kmspp_example]].
  - intros i [|[|[|[|t]]]] s n H; try discriminate; injection H as <- <-; unfold exso; destruct (Nat.even i); cbn; lia.
  - intros i [|[|[|[|t]]]] s n H; try discriminate; injection H as <- <-; cbn; lia.
Qed.
Theorem C113_premises_met_pp : (forall i, complete exchunks (d_sched exdr_omp i)) /\ forall i : nat, complete exchunks [2; 1; 1; 0; 0].
Proof. split; intros i [|[|[|[|t]]]] s n H; try discriminate; injection H as <- <-; cbn; lia. Qed.

(** C114: three processes of two threads *)
Definition dsch2 (_ _ : nat) : list nat := [1; 1; 1; 0; 0; 0].
Lemma dg_ranges rank : rank < 3 -> exists l, okmap (@w_ranges NumF) (build_workers (proc_cfg dg 3 rank) (proc_data dg 3 ddata rank)) = Some l /\
  length l <= 2 /\ Forall (fun sn => snd sn <= 3) l.
Proof.
  intros H. destruct rank as [|[|[|r]]]; [| | |lia]; (eexists; split; [vm_compute; reflexivity|]; split; [cbn; lia|repeat constructor; cbn; lia]).
Qed.
Lemma dg_fair sch : (forall i r, 3 <= count_eq 0 (sch i r) /\ 3 <= count_eq 1 (sch i r)) -> mpi_fair dg 3 ddata sch.
Proof.
  intros C i rank ws Hr E. destruct (dg_ranges Hr) as (l & H & L & B). rewrite E in H. cbn [okmap] in H. injection H as <-.
  destruct (C i rank) as (C0 & C1). intros t s n Ht. assert (Hn : n <= 3) by (apply nth_error_In in Ht; rewrite Forall_forall in B; exact (B _ Ht)).
  assert (Hl : t < length (w_ranges ws)) by (apply nth_error_Some; rewrite Ht; discriminate).
  destruct t as [|[|t]]; lia.
Qed.
Theorem C114_premises_met : mpi_valid dg 3 ddata /\ mpi_fair dg 3 ddata dsch /\ mpi_fair dg 3 ddata dsch2 /\
  okmap (fun rr : drun_result NumF => (ct_asg (dr_out rr), ct_counts (dr_out rr), dr_converged rr))
    (dist_prune_run dg 3 None PLUSPLUS ddata (fun _ => 4) (fun _ => fofZ 1) dsch dsch)
  = Some ([Some 1; Some 1; Some 0; Some 1; Some 0; Some 1; Some 0], [3; 4]%Z, true).
Proof.
  split; [|split; [|split; [|exact C35_example_plusplus]]].
  - intros rank H. destruct rank as [|[|[|r]]]; [| | |lia]; (unfold valid_input; split; [apply Nat.leb_le; vm_compute; reflexivity|]; split; [vm_compute; reflexivity|]; split; [vm_compute; split; congruence|vm_compute; reflexivity]).
  - apply dg_fair. intros i r. cbn. lia.
  - apply dg_fair. intros i r. cbn. lia.
Qed.

(** C115: hierarchical clustering with two threads *)
Definition hg2 : hcfg NumF := mkHc (mkCfg NumF 8 1 4 20 2 (fofZ (-1)) EUCL UserBuffer) 2.
Definition hs1 (_ _ : nat) : list nat := [0; 1; 0; 1; 0; 1; 0; 1].
Definition hs2 (i j : nat) : list nat := if Nat.even (i + j) then [1; 1; 1; 1; 0; 0; 0; 0] else [0; 0; 1; 1; 1; 0; 0; 1].
Lemma hg2_fair sch : (forall i j, 4 <= count_eq 0 (sch i j) /\ 4 <= count_eq 1 (sch i j)) -> hier_fair hg2 d8 sch.
Proof.
  intros C ws E i j. assert (H : okmap (@w_ranges NumF) (build_workers hg2 d8) = Some [(0, 4); (4, 4)]) by (vm_compute; reflexivity).
  rewrite E in H. cbn [okmap] in H. injection H as ->. destruct (C i j) as (C0 & C1).
  intros [|[|[|t]]] s n Ht; try discriminate; injection Ht as <- <-; assumption.
Qed.
Theorem C115_premises_met : valid_input hg2 d8 /\ hier_fair hg2 d8 hs1 /\ hier_fair hg2 d8 hs2 /\
  okmap hobs (h_run hg2 false None FORGY d8 dr01 hs1 10) = Some ([3; 3; 4; 4; 5; 5; 6; 6], [3; 4; 5; 6], [0; 0; 0; 2; 2; 2; 2; 0; 0; 0; 0; 0; 0; 0; 0]%Z).
Proof.
  split; [|split; [|split]].
  - unfold valid_input. cbn. splits; lia || reflexivity.
  - apply hg2_fair. intros i j. cbn. lia.
  - apply hg2_fair. intros i j. unfold hs2. destruct (Nat.even (i + j)); cbn; lia.
  - vm_compute. reflexivity.
Qed.
