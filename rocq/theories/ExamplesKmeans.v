(** Concrete runs of unpruned k-means in IEEE arithmetic: the hypotheses of
    C13-C23, C66 and C67 are met, and C22's full statement is false. *)
From Coq Require Import Floats.SpecFloat.
From Verif Require Import Base Num Spec DistModel ClustersModel ClustersView PartitionModel ParModel KmeansModel.
From Verif Require Import KmeansProofs RunProofs InitProofs SimProofs PropertiesKmeans PropertiesRun.
Set Implicit Arguments.

Definition aborts {A} (r : res A) : bool := match r with Err Abort => true | _ => false end.

(** 5 rows, 1 column, 2 clusters, 2 threads *)
Definition exg (maxi : nat) : kcfg NumF := mkCfg NumF 5 1 2 maxi 2 (fofZ (-1)) EUCL NumaReorg.
Definition exd : list F64 := map fofZ [0; 1; 6; 10; 11]%Z.
Definition exc : list F64 := map fofZ [0; 1]%Z.
Definition exdr : draws NumF := mkDraws NumF (fun i => i) (fun _ => fofZ 0) (fun _ => [0; 1; 1; 0; 0; 1; 1; 1; 0]).
Definition exs (i : nat) : list nat := if Nat.even i then [0; 1; 0; 1; 1] else [1; 1; 1; 0; 0].

Lemma ex_valid m : valid_input (exg m) exd.
Proof. unfold valid_input. cbn. splits; lia || reflexivity. Qed.

Lemma ex_ranges m : okmap (@w_ranges NumF) (build_workers (exg m) exd) = Some [(0, 2); (2, 3)].
Proof. vm_compute. reflexivity. Qed.

Lemma ex_fair m : fair (exg m) exd exs.
Proof.
  intros ws E i. pose proof (ex_ranges m) as H. rewrite E in H. cbn [okmap] in H. injection H as ->.
  intros [|[|[|t]]] s n Ht; try discriminate; injection Ht as <- <-; unfold exs; destruct (Nat.even i); cbn; lia.
Qed.

Lemma ex_args m : valid_args (exg m) exd (Some exc) NONE exdr.
Proof. unfold valid_args. split; [apply ex_valid|]. cbn. splits; auto; lia. Qed.

(** a run of 3 iterations that converges: assignments change in the first two *)
Definition show (rr : run_result NumF) :=
  (ct_iters (rr_out rr), rr_converged rr, ct_asg (rr_out rr), ct_counts (rr_out rr), length (rr_trace rr), map (@s_changed NumF) (rr_trace rr)).

Example kmeans_run_example :
  okmap show (run (exg 10) (Some exc) NONE exd exdr exs)
  = Some (3, true, [Some 0; Some 0; Some 1; Some 1; Some 1], [2; 3]%Z, 3, [5; 1; 0]).
Proof. vm_compute. reflexivity. Qed.

(** the hypotheses shared by C13-C17 and C21-C23 are met by it *)
Example kmeans_hyps : exists rr, valid_input (exg 10) exd /\ fair (exg 10) exd exs /\
  run (exg 10) (Some exc) NONE exd exdr exs = Ok rr /\ length (rr_trace rr) = 3.
Proof.
  pose proof kmeans_run_example as H. apply okmap_ex in H as (rr & E & H). exists rr.
  split; [apply ex_valid|]. split; [apply ex_fair|]. split; [exact E|].
  unfold show in H. injection H. auto.
Qed.

(** ** C22: the full statement "the reported count is the number of iterations
    performed and never exceeds the limit" is false: a run stopped by the limit
    of 2 performs 2 iterations and reports 3. *)
Theorem C22_refuted : exists (g : kcfg NumF) centers data dr scheds rr,
  valid_input g data /\ fair g data scheds /\ run g centers NONE data dr scheds = Ok rr /\
  g_max_iters g = 2 /\ length (rr_trace rr) = 2 /\ ct_iters (rr_out rr) = 3.
Proof.
  assert (H : okmap show (run (exg 2) (Some exc) NONE exd exdr exs)
    = Some (3, false, [Some 0; Some 0; Some 1; Some 1; Some 1], [2; 3]%Z, 2, [5; 1])) by (vm_compute; reflexivity).
  apply okmap_ex in H as (rr & E & H). exists (exg 2), (Some exc), exd, exdr, exs, rr.
  split; [apply ex_valid|]. split; [apply ex_fair|]. split; [exact E|]. split; [reflexivity|].
  unfold show in H. injection H. intros; auto.
Qed.
Print Assumptions C22_refuted.

(** a NaN makes the run abort (C14): row 1 is NaN *)
Example C14_example :
  aborts (run (exg 10) (Some exc) NONE (map fofZ [0]%Z ++ [S754_nan] ++ map fofZ [6; 10; 11]%Z) exdr exs) = true.
Proof. vm_compute. reflexivity. Qed.

(** the other initialisations: Forgy and kmeans++ draws in range *)
Example C26_hyps : valid_args (exg 10) exd None FORGY exdr.
Proof. unfold valid_args. split; [apply ex_valid|]. cbn. split; [lia|]. split; [exact I|]. intros c H. lia. Qed.
Example C26_example : okmap (fun rr => (c_means (s_cltrs (rr_init rr)), ct_asg (rr_out rr))) (run (exg 10) None FORGY exd exdr exs)
  = Some (map fofZ [0; 1]%Z, [Some 0; Some 0; Some 1; Some 1; Some 1]).
Proof. vm_compute. reflexivity. Qed.

Definition exdr2 : draws NumF := mkDraws NumF (fun i => if Nat.even i then 0 else 1) (fun _ => fofZ 0) (fun _ => [0; 1; 1; 0; 0; 1; 1; 1; 0]).
Example C27_hyps : valid_args (exg 10) exd None RANDOM exdr2.
Proof.
  unfold valid_args. split; [apply ex_valid|]. cbn. split; [lia|]. split; [exact I|]. intros r H.
  destruct (Nat.even r); lia.
Qed.
