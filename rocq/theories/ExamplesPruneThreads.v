(** C131: concrete pruned and mini-batch runs with one and with two threads. *)
From Coq Require Import Reals Lra.
From Verif Require Import Base Num Spec DistModel ClustersModel ClustersView PartitionModel ParModel KmeansModel PruneModel MbModel.
From Verif Require Import DistProofs PartitionProofs ParProofs KmeansProofs RunProofs InitProofs SimProofs PropertiesRun PruneRun2 PropertiesPrune PropertiesMb ExamplesPrune ExamplesMb MbThreads PruneThreads.
Set Implicit Arguments.
Unset Strict Implicit.
Local Open Scope R_scope.

Section Ex.
Variables (a b : R).
Hypothesis Ha : 0 < a.
Hypothesis Hab : a < b.
Hypothesis Hb : b < 1000.

Definition sch2 (i : nat) : list nat := if Nat.even i then [0; 0; 1; 1]%nat else [1; 0; 1; 0]%nat.

Lemma two_args : prune_args (with_threads rg 2 NumaReorg) (rdata a b) (Some (rdata a b)) NONE rdr sch2.
Proof.
  pose proof (rex_args a b) as (Hk & (V & H1 & H2 & H3) & H4 & _). split; [exact Hk|]. split; [|split; [exact H4|]].
  - split; [|split; [exact H1|split; [exact H2|exact H3]]]. destruct V as (X1 & X2 & _ & X4). split; [exact X1|]. split; [exact X2|]. split; [cbn; lia|exact X4].
  - intros ws E i. destruct (@build_workers_ok NumR (with_threads rg 2 NumaReorg) (rdata a b)) as (ws' & E' & (Ht & _) & Lw & _); try (cbn; lia); try reflexivity.
    rewrite E in E'. injection E' as <-. intros t s n Et.
    assert (Hn : (s + n <= 2)%nat) by exact (proj2 (@ntiles_in 0 2 (w_ranges ws) Ht t s n Et)).
    assert (Htt : (t < 2)%nat). { assert (L : length (w_ranges ws) = 2%nat) by (unfold w_ranges; rewrite map_length; exact Lw). rewrite <- L. apply nth_error_Some. congruence. }
    unfold sch2. destruct (Nat.even i); destruct t as [|[|t]]; try lia; cbn; lia.
Qed.

Theorem C131_premises_met : forall (u : nat -> nat -> R),
  prune_args rg (rdata a b) (Some (rdata a b)) NONE rdr rsch /\
  (exists rr rr', prune_run rg (Some (rdata a b)) NONE (rdata a b) rdr rsch = Ok rr /\
     prune_run (with_threads rg 2 NumaReorg) (Some (rdata a b)) NONE (rdata a b) rdr sch2 = Ok rr' /\ pr_out rr' = pr_out rr) /\
  (exists rr rr', mb_run rg 2 (Some (rdata a b)) NONE (rdata a b) rdr u rsch = Ok rr /\
     mb_run (with_threads rg 2 NumaReorg) 2 (Some (rdata a b)) NONE (rdata a b) rdr u sch2 = Ok rr' /\ mb_out rr' = mb_out rr).
Proof.
  intros u. split; [apply rex_args|]. split.
  - destruct (@C33_premises_met a b Ha Hab Hb) as (rr & A & E & _).
    destruct (@C131_pruned rg 2 NumaReorg (Some (rdata a b)) NONE (rdata a b) rdr rdr rsch sch2 rr A two_args eq_refl eq_refl E) as (rr' & E' & Eo & _).
    exists rr, rr'. auto.
  - destruct (@mb_premises_met a b Ha Hab Hb 2 u) as (rr & A & E & _).
    destruct (@C131_minibatch rg 2 NumaReorg 2 (Some (rdata a b)) NONE (rdata a b) rdr rdr u rsch sch2 rr A two_args eq_refl eq_refl ltac:(vm_compute; discriminate) ltac:(vm_compute; discriminate) E) as (rr' & E' & Eo & _).
    exists rr, rr'. auto.
Qed.
End Ex.
