(** Concrete runs for C110, C111. *)
From Coq Require Import Reals Lra Floats.SpecFloat Permutation.
From Verif Require Import Base Num Spec DistModel ClustersModel ClustersView PartitionModel ParModel KmeansModel PruneModel DistRunModel DistLloydModel.
From Verif Require Import MatLemmas VecLemmas ClustersProofs DistProofs PartitionProofs ParProofs NearProofs KmeansProofs UpdateProofs RunProofs ParRule DistMatProofs PruneProofs ClusterSums.
From Verif Require Import InitProofs SimProofs KmeansR PropertiesKmeans PropertiesKmeansR PropertiesRun KmsppR PropertiesPrune ProcRows SpecKmspp PropertiesKmspp PropertiesDistRun PropertiesDistKmspp ExamplesPrune ExamplesDistRun.
From Verif Require Import PropertiesDistLloyd PropertiesDistSame SpecLloyd PropertiesPruneStop PropertiesPruneSame ExamplesDistLloyd ExamplesPruneSame ExamplesKmeans.
From Verif Require Import OmpModel OmpProofs PropertiesOmp ExamplesOmp PropertiesOmpPrune.
Set Implicit Arguments.

(* ------------------------------------------------------------------ *)
(** * IEEE arithmetic *)

(** a limit of one iteration: the unpruned entry point assigns no row, the pruned one assigns all *)
Theorem C111_one_iteration_example :
  okmap show (compute_kmeans (exg 1) DEucl INone exc exd exchunks exsum exdr exso) = Some (1, false, [None; None; None; None; None], [0; 0]%Z, 0, []) /\
  okmap pshow (compute_min_kmeans (exg 1) DEucl INone exc exd exchunks exsum exdr exso) = Some (2, false, [Some 0; Some 1; Some 1; Some 1; Some 1], [1; 4]%Z, 1).
Proof. split; vm_compute; reflexivity. Qed.

(** a tie: rows 0, 4, 12 from centres 0, 5 *)
Definition tc : list (nat * nat) := [(0, 2); (2, 1)].
Definition ts (_ : nat) := [1; 0; 0].
Theorem C111_refuted :
  okmap rout3 (compute_kmeans tg DEucl INone (fl [0; 5]%Z) (fl [0; 4; 12]%Z) tc exsum exdr ts)
    = Some ([Some 0; Some 0; Some 1], [2; 1]%Z, 3, true) /\
  okmap pout (compute_min_kmeans tg DEucl INone (fl [0; 5]%Z) (fl [0; 4; 12]%Z) tc exsum exdr ts)
    = Some ([Some 0; Some 1; Some 1], [1; 2]%Z, 2, true).
Proof. split; vm_compute; reflexivity. Qed.

(** no tie, but a large first move: rows 10, -10, 16 from centres 10, 21 (F1) *)
Theorem C111_first_move_refuted :
  okmap rout3 (compute_kmeans tg DEucl INone (fl [10; 21]%Z) (fl [10; -10; 16]%Z) tc exsum exdr ts)
    = Some ([Some 1; Some 0; Some 1], [1; 2]%Z, 3, true) /\
  okmap pout (compute_min_kmeans tg DEucl INone (fl [10; 21]%Z) (fl [10; -10; 16]%Z) tc exsum exdr ts)
    = Some ([Some 0; Some 0; Some 1], [2; 1]%Z, 2, true).
Proof. split; vm_compute; reflexivity. Qed.

(* ------------------------------------------------------------------ *)
(** * Exact arithmetic *)
Local Open Scope R_scope.

(** a limit of one iteration: the two reports always differ *)
Theorem C111_one_iteration_refuted : forall (g0 : kcfg NumR) da dt ia it centers data chunks red d scheds rr,
  OmpProofs.dist_of da = Some dt -> init_of ia = Some it -> g_max_iters g0 = 1%nat ->
  let g := with_dt g0 dt in
  omp_call g it centers data chunks red d scheds -> start_finite g data (Some centers) it (d_int d) (d_real d) ->
  compute_kmeans g0 da ia centers data chunks red d scheds = Ok rr ->
  exists pr, compute_min_kmeans g0 da ia centers data chunks red d scheds = Ok pr /\
    length (rr_trace rr) = 0%nat /\ length (pr_trace pr) = 1%nat /\ ct_iters (rr_out rr) = 1%nat /\
    (pr_converged pr = false -> ct_iters (pr_out pr) = 2%nat).
Proof.
  intros g0 da dt ia it centers data chunks red d scheds rr Hda Hia Hm g C Hfin E.
  destruct (@C110_pruned_openmp g0 da dt ia it centers data chunks red d scheds Hda Hia ltac:(lia) C Hfin) as (pr & Ep & H). cbv zeta in H.
  destruct H as (_ & _ & _ & H1 & _ & H2). exists pr. split; [exact Ep|].
  destruct (@C62_refuted NumR g0 da ia centers data chunks red d scheds rr E) as (_ & H3). destruct (H3 Hm) as (T & I & _).
  rewrite Hm in H1, H2. rewrite T. split; [reflexivity|]. split; [cbn in H1; lia|]. split; [exact I|].
  intros Hc. destruct (H2 Hc) as (_ & ->). reflexivity.
Qed.

Section ExO.
Variables (a b : R).
Hypothesis Ha : 0 < a.
Hypothesis Hab : a < b.
Hypothesis Hb : b < 1000.
Let cc : list (nat * nat) := [(0%nat, 1%nat); (1%nat, 1%nat)].
Let sch (_ : nat) : list nat := [1; 0]%nat.
Let g0 := with_iters rg 4.
Let rd : list R -> R := fun l => fold_left Rplus l 0.

Lemma ocall m : omp_call (with_iters rg m) NONE (rdata a b) (rdata a b) cc rd udr sch.
Proof.
  destruct (C106_premises_met Ha Hab Hb NONE) as (_ & _ & _ & VA & F & _). destruct VA as (V & _).
  constructor.
  - exact V.
  - cbn. lia.
  - cbn. lia.
  - cbn. splits; lia || reflexivity.
  - intros i [|[|[|t]]] s n Ht; try discriminate; injection Ht as <- <-; cbn; lia.
  - cbn. lia.
  - intros l. exists l. split; [apply Permutation_refl|reflexivity].
Qed.

Lemma omp_runs : exists rr, compute_kmeans g0 DEucl INone (rdata a b) (rdata a b) cc rd udr sch = Ok rr.
Proof.
  destruct (C106_premises_met Ha Hab Hb NONE) as (_ & _ & _ & VA & F & _).
  assert (A : omp_args (with_iters (with_dt g0 EUCL) (g_max_iters g0 - 1)) NONE (rdata a b) (rdata a b) cc udr udr rsch sch).
  { pose proof (ocall 3) as C. unfold omp_args. split; [exact (oc_valid C)|]. split; [exact (oc_k C)|]. split; [exact (oc_kmax C)|].
    split; [exact (oc_chunks C)|]. split; [exact F|]. split; [exact (oc_sched C)|]. split; [reflexivity|]. split; [reflexivity|]. split; [exact I|].
    split; [discriminate|]. cbn. lia. }
  pose proof (@C93_openmp_is_library g0 DEucl EUCL INone NONE (rdata a b) (rdata a b) cc rd udr udr rsch sch eq_refl eq_refl A
    (fun l => ex_intro _ l (conj (Permutation_refl l) eq_refl))) as H.
  destruct (rg_runs Ha Hab Hb) as (rr & Err). cbv zeta in H.
  match type of H with context [run ?g1 (Some (rdata a b)) NONE (rdata a b) udr rsch] => change (run g1 (Some (rdata a b)) NONE (rdata a b) udr rsch) with (run rg (Some (rdata a b)) NONE (rdata a b) udr rsch) in H end.
  rewrite Err in H. match type of H with match ?u with _ => _ end => destruct u as [x|e] eqn:Ea end; [|contradiction].
  exists x. reflexivity.
Qed.

Theorem C111_premises_met : exists rr,
  omp_call g0 NONE (rdata a b) (rdata a b) cc rd udr sch /\
  start_finite g0 (rdata a b) (Some (rdata a b)) NONE (d_int udr) (d_real udr) /\
  compute_kmeans g0 DEucl INone (rdata a b) (rdata a b) cc rd udr sch = Ok rr /\ (1 <= length (rr_trace rr))%nat /\
  no_ties g0 (rdata a b) (start_centroid g0 (rdata a b) (Some (rdata a b)) NONE (d_int udr) (d_real udr)) (map (@s_asg NumR) (rr_trace rr)) /\
  (forall s1 j, nth_error (rr_trace rr) 0 = Some s1 -> (j < g_k g0)%nat ->
     let c1 := cluster_mean g0 (rdata a b) (s_asg s1) j in
     edist (start_centroid g0 (rdata a b) (Some (rdata a b)) NONE (d_int udr) (d_real udr) j) c1 <= edist c1 (vzero (g_ncol g0))).
Proof.
  destruct omp_runs as (rr & E).
  destruct (@omp_lloyd g0 DEucl EUCL INone NONE (rdata a b) (rdata a b) cc rd udr sch rr eq_refl eq_refl ltac:(cbn; lia) (ocall 3) E) as (L & _).
  cbv zeta in L. change (with_iters (with_dt g0 EUCL) (g_max_iters g0 - 1)) with rg in L.
  assert (L' : lloyd rg (rdata a b) (start_centroid rg (rdata a b) (Some (rdata a b)) NONE (fun j => j) (fun _ => 1 / 2)) (map (@s_asg NumR) (rr_trace rr)) (rr_converged rr)) by exact L.
  exists rr. split; [exact (ocall 4)|]. split; [exact (rg_finite Ha Hab Hb)|]. split; [exact E|]. split; [|split].
  - assert (Hm : (1 <= g_max_iters rg)%nat) by (cbn; lia). pose proof (lloyd_nonempty Hm L') as Hne. destruct (rr_trace rr); [cbn in Hne; congruence|cbn; lia].
  - exact (keep_no_ties Hab L').
  - intros s1 j E1 Hj. cbv zeta.
    assert (E2 : nth_error (map (@s_asg NumR) (rr_trace rr)) 0 = Some (s_asg s1)) by (rewrite nth_error_map, E1; reflexivity).
    destruct (keep_all Hab L' _ E2) as (-> & _). change (g_k g0) with 2%nat in Hj.
    assert (Hs : cluster_mean g0 (rdata a b) [Some 0%nat; Some 1%nat] j = [nth j (rdata a b) 0]) by (destruct j as [|[|j]]; [exact (cm0 a b)|exact (cm1 a b)|lia]).
    rewrite Hs. assert (Hs2 : start_centroid g0 (rdata a b) (Some (rdata a b)) NONE (d_int udr) (d_real udr) j = [nth j (rdata a b) 0]) by (destruct j as [|[|j]]; [reflexivity|reflexivity|lia]).
    rewrite Hs2. change (vzero (g_ncol g0)) with [0]. rewrite !ed1. unfold Rabs.
    destruct j as [|[|j]]; [cbn [nth rdata]|cbn [nth rdata]|lia]; repeat match goal with |- context [Rcase_abs ?x] => destruct (Rcase_abs x) end; lra.
Qed.
End ExO.
Print Assumptions C111_premises_met.
