(** Concrete runs for C107-C109: the premises can be met; without them pruning changes the result. *)
From Coq Require Import Reals Lra Floats.SpecFloat.
From Verif Require Import Base Num Spec DistModel ClustersModel ClustersView PartitionModel ParModel KmeansModel PruneModel DistRunModel DistLloydModel.
From Verif Require Import MatLemmas VecLemmas ClustersProofs DistProofs PartitionProofs ParProofs NearProofs KmeansProofs UpdateProofs RunProofs ParRule DistMatProofs PruneProofs ClusterSums.
From Verif Require Import InitProofs SimProofs KmeansR PropertiesKmeans PropertiesKmeansR PropertiesRun KmsppR PropertiesPrune ProcRows SpecKmspp PropertiesKmspp PropertiesDistRun PropertiesDistKmspp ExamplesPrune ExamplesDistRun.
From Verif Require Import DistLloyd DistLloydInit PropertiesDistLloyd PropertiesDistSame SpecLloyd PropertiesPruneStop PropertiesPruneSame ExamplesDistLloyd.
Set Implicit Arguments.

(* ------------------------------------------------------------------ *)
(** * IEEE arithmetic *)
Definition pout (rr : prun_result NumF) := (ct_asg (pr_out rr), ct_counts (pr_out rr), ct_iters (pr_out rr), pr_converged rr).
Definition rout3 (rr : run_result NumF) := (ct_asg (rr_out rr), ct_counts (rr_out rr), ct_iters (rr_out rr), rr_converged rr).

(** agreement of the four drivers on the data of C105_example *)
Theorem C108_example :
  okmap (fun rr : drun_result NumF => (ct_asg (dr_out rr), ct_counts (dr_out rr), ct_centroids (dr_out rr), ct_iters (dr_out rr), dr_converged rr))
    (dist_prune_run dg 3 (Some (fl [1; 2]%Z)) NONE ddata (fun _ => 0) (fun _ => fofZ 0) dsch dsch)
  = okmap uout (udist_run dg 2 (Some (fl [1; 2]%Z)) NONE ddata (fun _ => 0) (fun _ => fofZ 0) (fun _ _ => [0;0;1;1;0;1;0;1;1]) (fun _ _ => [0;0;1;1;0;1;0;1;1])).
Proof. vm_compute. reflexivity. Qed.

(** with a tie the results differ: after the first turn row 4 is at equal distance of the
    centroids 0 and 8; pruning leaves it where it is, the unpruned driver takes the lower index *)
Definition tg : kcfg NumF := mkCfg NumF 3 1 2 20 1 (fofZ (-1)) EUCL UserBuffer.
Definition tsch (_ _ : nat) := [0; 0; 0].
Theorem C108_tie_differs :
  okmap uout (udist_run tg 2 (Some (fl [0; 5]%Z)) NONE (fl [0; 4; 12]%Z) (fun _ => 0) (fun _ => fofZ 0) tsch tsch)
    = Some ([Some 0; Some 0; Some 1], [2; 1]%Z, fl [2; 12]%Z, 3, true) /\
  okmap (fun rr : drun_result NumF => (ct_asg (dr_out rr), ct_counts (dr_out rr), ct_centroids (dr_out rr), ct_iters (dr_out rr), dr_converged rr))
    (dist_prune_run tg 2 (Some (fl [0; 5]%Z)) NONE (fl [0; 4; 12]%Z) (fun _ => 0) (fun _ => fofZ 0) tsch tsch)
    = Some ([Some 0; Some 1; Some 1], [1; 2]%Z, fl [0; 8]%Z, 2, true).
Proof. split; vm_compute; reflexivity. Qed.

(** C109: rows 10, -10, 16 from centres 10, 21: no row is ever equally near to both
    centroids, yet the pruned result is another one (F1) *)
Theorem C109_refuted :
  okmap rout3 (run (pcfg 3 1 EUCL) (Some (fl [10; 21]%Z)) NONE (fl [10; -10; 16]%Z) pdr (pscheds 3))
    = Some ([Some 1; Some 0; Some 1], [1; 2]%Z, 3, true) /\
  okmap pout (prune_run (pcfg 3 1 EUCL) (Some (fl [10; 21]%Z)) NONE (fl [10; -10; 16]%Z) pdr (pscheds 3))
    = Some ([Some 0; Some 0; Some 1], [2; 1]%Z, 2, true).
Proof. split; vm_compute; reflexivity. Qed.

(** a tolerance of 1 stops the unpruned driver after its first turn, but not the pruned one *)
Theorem C109_tolerance_refuted :
  okmap rout3 (run (mkCfg NumF 7 1 2 20 1 (fofZ 1) EUCL UserBuffer) (Some (fl [1; 2]%Z)) NONE ddata pdr (pscheds 7))
    = Some ([Some 0; Some 1; Some 1; Some 1; Some 1; Some 1; Some 1], [1; 6]%Z, 1, true) /\
  okmap pout (prune_run (mkCfg NumF 7 1 2 20 1 (fofZ 1) EUCL UserBuffer) (Some (fl [1; 2]%Z)) NONE ddata pdr (pscheds 7))
    = Some ([Some 0; Some 0; Some 1; Some 0; Some 1; Some 0; Some 1], [4; 3]%Z, 2, true).
Proof. split; vm_compute; reflexivity. Qed.

(* ------------------------------------------------------------------ *)
(** * Exact arithmetic: the rows a < b as their own centres *)
Section ExS.
Local Open Scope R_scope.
Variables (a b : R).
Hypothesis Ha : 0 < a.
Hypothesis Hab : a < b.
Hypothesis Hb : b < 1000.

Let start := start_centroid rg (rdata a b) (Some (rdata a b)) NONE (fun j => j) (fun _ => 1 / 2).
Let keep : list (option nat) := [Some 0%nat; Some 1%nat].

Lemma sx0 : start 0 = [a]. Proof. reflexivity. Qed.
Lemma sx1 : start 1 = [b]. Proof. reflexivity. Qed.
Lemma cm0 : cluster_mean rg (rdata a b) keep 0 = [a].
Proof. unfold cluster_mean, members. cbn. unfold vmean. cbn. f_equal. field. Qed.
Lemma cm1 : cluster_mean rg (rdata a b) keep 1 = [b].
Proof. unfold cluster_mean, members. cbn. unfold vmean. cbn. f_equal. field. Qed.

Lemma keep_near C A : C 0%nat = [a] -> C 1%nat = [b] -> length A = 2%nat ->
  (forall x, (x < 2)%nat -> exists c, nth x A None = Some c /\ near_to rg (rdata a b) C x c) -> A = keep.
Proof.
  intros C0 C1 L H. destruct A as [|x [|y [|z A]]]; try discriminate.
  assert (G : forall r, (r < 2)%nat -> nth r [x; y] None = Some r).
  { intros r Hr. destruct (H r Hr) as (c & Ec & Hc & Hle). specialize (Hle r Hr). cbn [g_ncol g_dt rg rdist g_k] in *.
    assert (R0 : row (rdata a b) 1 0 = [a]) by reflexivity. assert (R1 : row (rdata a b) 1 1 = [b]) by reflexivity.
    destruct r as [|[|r]]; try lia; destruct c as [|[|c]]; try lia; auto; exfalso.
    - rewrite C0, C1, R0, !ed1 in Hle. unfold Rabs in Hle. destruct (Rcase_abs (a - b)), (Rcase_abs (a - a)); lra.
    - rewrite C0, C1, R1, !ed1 in Hle. unfold Rabs in Hle. destruct (Rcase_abs (b - b)), (Rcase_abs (b - a)); lra. }
  pose proof (G 0%nat ltac:(lia)) as G0. pose proof (G 1%nat ltac:(lia)) as G1. cbn in G0, G1. subst. reflexivity.
Qed.

Lemma keep_all tr conv : lloyd rg (rdata a b) start tr conv ->
  forall i A, nth_error tr i = Some A -> A = keep /\ cents_before rg (rdata a b) start tr i 0 = [a] /\ cents_before rg (rdata a b) start tr i 1 = [b].
Proof.
  intros L. induction i as [|i IH]; intros A E.
  - destruct (ll_assign L _ E) as (La & Hn). split; [|split; [exact sx0|exact sx1]]. exact (keep_near _ sx0 sx1 La Hn).
  - destruct (nth_error tr i) as [B|] eqn:Eb.
    2:{ apply nth_error_None in Eb. assert (S i < length tr)%nat by (apply nth_error_Some; congruence). lia. }
    destruct (IH B eq_refl) as (-> & _). destruct (ll_assign L _ E) as (La & Hn).
    assert (C0 : cents_before rg (rdata a b) start tr (S i) 0 = [a]) by (cbn [cents_before]; rewrite (nth_of _ _ [] Eb); exact cm0).
    assert (C1 : cents_before rg (rdata a b) start tr (S i) 1 = [b]) by (cbn [cents_before]; rewrite (nth_of _ _ [] Eb); exact cm1).
    split; [|split; assumption]. exact (keep_near _ C0 C1 La Hn).
Qed.

Lemma keep_no_ties tr conv : lloyd rg (rdata a b) start tr conv -> no_ties rg (rdata a b) start tr.
Proof.
  intros L i A x c j E Hx Ec Hj Hne. destruct (keep_all L _ E) as (-> & C0 & C1). cbn [g_nrow g_k g_ncol g_dt rg rdist] in *.
  assert (R0 : row (rdata a b) 1 0 = [a]) by reflexivity. assert (R1 : row (rdata a b) 1 1 = [b]) by reflexivity.
  destruct x as [|[|x]]; try lia; cbn in Ec; injection Ec as <-; destruct j as [|[|j]]; try lia; try congruence.
  - rewrite C0, C1, R0, !ed1. unfold Rabs. destruct (Rcase_abs (a - b)), (Rcase_abs (a - a)); lra.
  - rewrite C0, C1, R1, !ed1. unfold Rabs. destruct (Rcase_abs (b - b)), (Rcase_abs (b - a)); lra.
Qed.

Lemma rg_runs : exists rr, run rg (Some (rdata a b)) NONE (rdata a b) udr rsch = Ok rr.
Proof.
  destruct (C106_premises_met Ha Hab Hb NONE) as (_ & _ & _ & VA & F & _).
  assert (HB : bounded 1000 (rdata a b)) by (unfold bounded, rdata; repeat (apply Forall_cons; [apply Rabs_le; lra|]); apply Forall_nil).
  apply (@C20_returns rg (Some (rdata a b)) NONE (rdata a b) udr rsch 1000); auto.
  - intros i. cbn. lra.
  - discriminate.
  - lra.
  - change (2 * 1000 * 1 < IZR dbl_max_Z). apply Rlt_trans with 3000; [lra|]. apply IZR_lt. vm_compute. reflexivity.
Qed.

Lemma rg_finite : start_finite rg (rdata a b) (Some (rdata a b)) NONE (fun j => j) (fun _ => 1 / 2).
Proof. exact (proj2 (C35_premises_met Ha Hab Hb NONE)). Qed.

Theorem C108_premises_met : exists ud,
  udist_args rg 2 (rdata a b) (Some (rdata a b)) NONE (fun j => j) (fun _ => 1 / 2) drsch drsch /\
  dist_args rg 2 (rdata a b) (Some (rdata a b)) NONE (fun j => j) (fun _ => 1 / 2) drsch drsch /\
  start_finite rg (rdata a b) (Some (rdata a b)) NONE (fun j => j) (fun _ => 1 / 2) /\
  udist_run rg 2 (Some (rdata a b)) NONE (rdata a b) (fun j => j) (fun _ => 1 / 2) drsch drsch = Ok ud /\
  (1 <= length (ud_trace ud))%nat /\ no_ties rg (rdata a b) start (map uassign (ud_trace ud)).
Proof.
  destruct (C106_premises_met Ha Hab Hb NONE) as (T & Hm & A & VA & F & Ei & Er).
  pose proof (@C106_same_result rg rg 2 (rdata a b) (Some (rdata a b)) NONE (fun j => j) (fun _ => 1 / 2) drsch drsch udr rsch T Hm A VA F Ei Er) as H.
  destruct rg_runs as (rr & Err). rewrite Err in H.
  destruct (udist_run rg 2 (Some (rdata a b)) NONE (rdata a b) (fun j => j) (fun _ => 1 / 2) drsch drsch) as [ud|] eqn:Eu; [|destruct H].
  exists ud. pose proof (udist_lloyd A Eu) as L. splits; auto.
  - exact (proj1 (C35_premises_met Ha Hab Hb NONE)).
  - exact rg_finite.
  - pose proof (lloyd_nonempty Hm L) as Hne. destruct (ud_trace ud); [cbn in Hne; congruence|cbn; lia].
  - exact (keep_no_ties L).
Qed.

Theorem C109_premises_met : exists rr,
  valid_args rg (rdata a b) (Some (rdata a b)) NONE udr /\ fair rg (rdata a b) rsch /\
  prune_args rg (rdata a b) (Some (rdata a b)) NONE udr rsch /\
  run rg (Some (rdata a b)) NONE (rdata a b) udr rsch = Ok rr /\ (1 <= length (rr_trace rr))%nat /\
  no_ties rg (rdata a b) start (map (@s_asg NumR) (rr_trace rr)) /\
  (forall s1 j, nth_error (rr_trace rr) 0 = Some s1 -> (j < 2)%nat ->
     edist (start j) (centroid 1 s1 j) <= edist (centroid 1 s1 j) (vzero 1)).
Proof.
  destruct (C106_premises_met Ha Hab Hb NONE) as (T & Hm & A & VA & F & Ei & Er). destruct rg_runs as (rr & E).
  assert (Hrs : real_start rg (rdata a b) NONE udr) by (intros Q; discriminate Q).
  pose proof (@run_lloyd rg (rdata a b) (Some (rdata a b)) NONE udr rsch rr VA Hrs F E) as L.
  exists rr. splits; auto.
  - split; [cbn; lia|]. split; [exact VA|]. split; [intros Q; discriminate Q|exact F].
  - pose proof (lloyd_nonempty Hm L) as Hne. destruct (rr_trace rr); [cbn in Hne; congruence|cbn; lia].
  - exact (keep_no_ties L).
  - intros s1 j E1 Hj. destruct VA as (V & _).
    assert (Ek : s_asg s1 = keep).
    { assert (E2 : nth_error (map (@s_asg NumR) (rr_trace rr)) 0 = Some (s_asg s1)) by (rewrite nth_error_map, E1; reflexivity). exact (proj1 (keep_all L _ E2)). }
    pose proof (@C16_centroids_are_means rg (Some (rdata a b)) NONE (rdata a b) udr rsch rr V F E 0%nat (rr_init rr) s1 (conj eq_refl E1) j Hj) as Hc. cbv zeta in Hc. rewrite Ek in Hc.
    assert (Hs : centroid 1 s1 j = start j).
    { etransitivity; [exact Hc|]. destruct j as [|[|j]]; [exact cm0|exact cm1|lia]. }
    rewrite Hs. destruct j as [|[|j]]; [rewrite sx0|rewrite sx1|lia]; change (vzero 1) with [0]; rewrite !ed1; unfold Rabs;
      repeat match goal with |- context [Rcase_abs ?x] => destruct (Rcase_abs x) end; lra.
Qed.

Theorem C107_premises_met : exists pr,
  prune_args rg (rdata a b) (Some (rdata a b)) NONE udr rsch /\ prune_run rg (Some (rdata a b)) NONE (rdata a b) udr rsch = Ok pr /\
  finite_init rg (rdata a b) (pr_init pr) /\ (1 <= g_max_iters rg)%nat.
Proof.
  destruct C109_premises_met as (rr & VA & F & PA & E & _ & Hn & Hd).
  destruct (@C109_pruned_threads_partial rg rg (rdata a b) (Some (rdata a b)) NONE udr udr rsch rsch rr) as (pr & Ep & _); auto.
  - unfold same_task, same_problem. auto 10.
  - cbn. lra.
  - cbn. lia.
  - exact rg_finite.
  - exists pr. splits; auto; [|cbn; lia]. intros r j Hr Hj. rewrite (prune_start PA Ep Hj). apply rg_finite; assumption.
Qed.
End ExS.
Print Assumptions C109_premises_met.
