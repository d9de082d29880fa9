(** Concrete G-means runs with one and with two threads (IEEE double arithmetic on small
    integers): both return, after three rounds and two splits undone, the same result. *)
From Coq Require Import Permutation Floats.SpecFloat.
From Verif Require Import Base Num DistModel ClustersModel ClustersView MatLemmas PartitionModel ParModel KmeansModel ParProofs RunProofs Spec.
From Verif Require Import ContainersModel HclustModel HclustProofs HclustUpdate HclustIter HclustSplit HclustRun HclustDone HclustVerify XmeansModel XmeansRound XmeansRun PropertiesXmeans PropertiesHclust ExamplesHclust ExamplesXmeans GmeansModel PropertiesGmeans HclustThreads ExamplesGmeans.
Set Implicit Arguments.

(** two threads, every row of the second before every row of the first *)
Definition hsch2 (n : nat) (_ _ : nat) : list nat := repeat 1 n ++ repeat 0 n.
Lemma hsch2_fair g data n ws r0 r1 : build_workers (h_threads g 2 UserBuffer) data = Ok ws -> w_ranges ws = [r0; r1] -> snd r0 <= n -> snd r1 <= n ->
  @h_fair NumF (h_threads g 2 UserBuffer) data (hsch2 n).
Proof.
  intros E L H0 H1 ws' E' i j t s m Ht. rewrite E in E'. injection E' as <-. rewrite L in Ht.
  unfold hsch2. rewrite count_eq_app.
  assert (G : forall a b k, count_eq a (repeat b k) = if a =? b then k else 0).
  { intros a b k. unfold count_eq. induction k as [|k IH]; simpl; [destruct (a =? b); reflexivity|]. rewrite (Nat.eqb_sym b a). destruct (a =? b); simpl; rewrite ?IH; reflexivity. }
  rewrite !G. destruct t as [|[|t]]; cbn [nth_error] in Ht; cbn [Nat.eqb]; [injection Ht as ->|injection Ht as ->|destruct t; discriminate]; cbn [snd] in *; lia.
Qed.

Definition gmeans2 := @g_run NumF flog fphi ftrunc (h_threads (hc 36 8 7 10) 2 UserBuffer) 0 false None FORGY dg36 (fun i => i * 20) (hsch2 36) 10.
Definition gres (q : hst NumF * list (rrec NumF)) := (x_asg (fst q), x_counts (fst q), x_final (fst q), length (snd q)).

Theorem C132_nonvacuous : h_fair (h_threads (hc 36 8 7 10) 2 UserBuffer) dg36 (hsch2 36) /\ exists s tr s' tr',
  grun (hc 36 8 7 10) 0 false dg36 (fun i => i * 20) 36 10 = Ok (s, tr) /\ gmeans2 = Ok (s', tr') /\
  length tr = 3 /\ length tr' = 3 /\
  x_asg s' = x_asg s /\ x_counts s' = x_counts s /\ x_final s' = x_final s.
Proof.
  split.
  { assert (W : okmap (@w_ranges NumF) (build_workers (h_threads (hc 36 8 7 10) 2 UserBuffer) dg36) = Some [(0, 18); (18, 18)]) by (vm_compute; reflexivity).
    apply okmap_ex in W as (ws & Ew & Rw). eapply hsch2_fair; [exact Ew|exact Rw| |]; cbn [snd]; lia. }
  assert (A : okmap gres (grun (hc 36 8 7 10) 0 false dg36 (fun i => i * 20) 36 10) = okmap gres gmeans2) by (vm_compute; reflexivity).
  assert (B : okmap (fun q => length (snd q)) gmeans2 = Some 3) by (vm_compute; reflexivity).
  destruct gmeans2 as [(s' & tr')|]; [|discriminate]. destruct (grun (hc 36 8 7 10) 0 false dg36 (fun i => i * 20) 36 10) as [(s & tr)|]; [|discriminate].
  cbn [okmap snd] in A, B. injection A as A1 A2 A3 A4. injection B as B. cbn [fst snd] in *.
  exists s, tr, s', tr'. splits; auto; lia.
Qed.

(** the bound on the partition ids that [C132_returns] asks for holds of that run, whose
    partitions are split, and a split undone, in every round: ids below 15 *)
Example C132_bound : okmap (fun q => forallb (fun rr => forallb (fun p => p <? 2 * hclust_floor 8 - 1)
      (x_part (xh (rr_mid rr)) ++ hm_keys (x_hcl (xh (rr_mid rr))))) (snd q)) (grun (hc 36 8 7 10) 0 false dg36 (fun i => i * 20) 36 10) = Some true
  /\ okmap (fun q => map (fun rr => nodup Nat.eq_dec (x_part (xh (rr_mid rr)))) (snd q)) (grun (hc 36 8 7 10) 0 false dg36 (fun i => i * 20) 36 10)
     = Some [[0]; [1; 2]; [3; 4; 5; 6]].
Proof. split; vm_compute; reflexivity. Qed.
