(** Concrete OpenMP runs in binary64: three chunks, compared with the library's
    two workers of ExamplesKmeans. *)
From Coq Require Import Reals Floats.SpecFloat.
From Verif Require Import Base Num Spec DistModel ClustersModel ClustersView PartitionModel ParModel KmeansModel PruneModel.
From Verif Require Import ParProofs KmeansProofs RunProofs InitProofs SimProofs PropertiesKmeans PropertiesRun ExamplesKmeans OmpModel OmpProofs PropertiesOmp.
Set Implicit Arguments.

Definition exchunks : list (nat * nat) := [(0, 2); (2, 2); (4, 1)].
Definition exsum (l : list F64) : F64 := fold_left (nadd NumF) l (nzero NumF).
Definition exso (i : nat) : list nat := if Nat.even i then [2; 0; 1; 0; 1] else [1; 1; 2; 0; 0].

Example omp_run_example :
  okmap show (compute_kmeans (exg 10) DEucl INone exc exd exchunks exsum exdr exso)
  = Some (3, true, [Some 0; Some 0; Some 1; Some 1; Some 1], [2; 3]%Z, 3, [5; 1; 0]).
Proof. vm_compute. reflexivity. Qed.

(** asked for 3 iterations it performs 2 and stops before convergence is seen;
    asked for one it performs none *)
Example C62_example : okmap show (compute_kmeans (exg 3) DEucl INone exc exd exchunks exsum exdr exso)
  = Some (3, false, [Some 0; Some 0; Some 1; Some 1; Some 1], [2; 3]%Z, 2, [5; 1]).
Proof. vm_compute. reflexivity. Qed.
Example C62_example_one : okmap show (compute_kmeans (exg 1) DEucl INone exc exd exchunks exsum exdr exso)
  = Some (1, false, [None; None; None; None; None], [0; 0]%Z, 0, []).
Proof. vm_compute. reflexivity. Qed.

(** kmeans++ *)
Definition exdr_omp : draws NumF := mkDraws NumF (fun i => i) (fun _ => fofZ 2147483646) (fun _ => [0; 1; 1; 0; 2]).
Example omp_kmspp_example :
  okmap show (compute_kmeans (exg 10) DEucl IKmeanspp exc exd exchunks exsum exdr_omp exso)
  = Some (2, true, [Some 0; Some 0; Some 1; Some 1; Some 1], [2; 3]%Z, 2, [5; 0]).
Proof. vm_compute. reflexivity. Qed.

(** the pruned entry point *)
Definition pshow (rr : prun_result NumF) :=
  (ct_iters (pr_out rr), pr_converged rr, ct_asg (pr_out rr), ct_counts (pr_out rr), length (pr_trace rr)).
Example omp_pruned_example :
  okmap pshow (compute_min_kmeans (exg 10) DEucl INone exc exd exchunks exsum exdr exso)
  = Some (3, true, [Some 0; Some 0; Some 1; Some 1; Some 1], [2; 3]%Z, 3).
Proof. vm_compute. reflexivity. Qed.

(** hypotheses of C93 met: over R the runs are not evaluated, the arguments are
    the same *)
Lemma exchunks_tile : ntiles 0 5 exchunks.
Proof. cbn. splits; lia || reflexivity. Qed.
Lemma exso_complete i : complete exchunks (exso i).
Proof. intros [|[|[|[|t]]]] s n Ht; try discriminate; injection Ht as <- <-; unfold exso; destruct (Nat.even i); cbn; lia. Qed.

Example C93_hyps : omp_args (with_iters (exg 10) 9) NONE exc exd exchunks exdr exdr exs exso /\
  (exists rr, compute_kmeans (exg 10) DEucl INone exc exd exchunks exsum exdr exso = Ok rr).
Proof.
  split.
  - unfold omp_args. split; [apply (ex_valid 9)|]. split; [cbn; lia|]. split; [cbn; lia|]. split; [exact exchunks_tile|].
    split; [exact (@ex_fair 9)|]. split; [exact exso_complete|]. split; [reflexivity|]. split; [reflexivity|]. split; [exact I|].
    split; [discriminate|]. cbn. lia.
  - pose proof omp_run_example as H. apply okmap_ex in H as (rr & E & _). eauto.
Qed.
