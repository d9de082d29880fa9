(** Concrete scaled k-means runs in IEEE arithmetic. *)
From Coq Require Import Floats.SpecFloat.
From Verif Require Import Base Num Spec DistModel ClustersModel ClustersView PartitionModel ParModel KmeansModel.
From Verif Require Import KmeansProofs RunProofs ExamplesKmeans SkmeansModel SkmeansProofs PropertiesSkmeans.
Set Implicit Arguments.

(** 4 rows, 2 columns: the first feature is negative, the second has values 0, 2, 4, 8 *)
Definition skg : kcfg NumF := mkCfg NumF 4 2 2 5 2 (fofZ (-1)) EUCL NumaReorg.
Definition skd : list F64 := map fofZ [-8; 0; -4; 2; -2; 4; -2; 8]%Z.
(** the second feature is constant *)
Definition skd' : list F64 := map fofZ [-8; 1; -4; 1; -2; 1; -2; 1]%Z.
Definition skdr : draws NumF := mkDraws NumF (fun i => i) (fun _ => fofZ 0) (fun _ => []).
Definition skb : list nat := [0; 1; 1; 0].
Definition sks (i : nat) : list nat := if Nat.even i then [0; 1; 0; 1] else [1; 1; 0; 0].

Lemma sk_valid : valid_input skg skd.
Proof. unfold valid_input. cbn. splits; lia || reflexivity. Qed.

Lemma sk_ranges : okmap (@w_ranges NumF) (build_workers skg skd) = Some [(0, 2); (2, 2)].
Proof. vm_compute. reflexivity. Qed.

Lemma sk_fair_ex : sk_fair skg skd skb skb.
Proof.
  intros ws E. pose proof sk_ranges as H. rewrite E in H. cbn [okmap] in H. injection H as ->.
  split; intros [|[|[|t]]] s n Ht; try discriminate; injection Ht as <- <-; cbn; lia.
Qed.

Definition tenths (x y : Z) : F64 := ndiv NumF (fofZ x) (fofZ y).

(** scaled values: the negative feature is divided by DBL_MIN + 8, which rounds
    to 8, so -2 becomes 6/8 and not 1; the other feature becomes 0, 1/4, 1/2, 1 *)
Example skmeans_run_example :
  okmap (fun r : sk_result NumF => (sk_data r, ct_asg (rr_out (sk_run r))))
    (skmeans skg None FORGY skd skb skb skdr sks)
  = Some ([tenths 0 1; tenths 0 1; tenths 1 2; tenths 1 4; tenths 3 4; tenths 1 2; tenths 3 4; tenths 1 1],
          [Some 0; Some 1; Some 1; Some 1]).
Proof. vm_compute. reflexivity. Qed.

(** hypotheses of C61 and C92 met *)
Example skmeans_hyps : exists r, valid_input skg skd /\ sk_fair skg skd skb skb /\
  skmeans skg None FORGY skd skb skb skdr sks = Ok r /\ ct_asg (rr_out (sk_run r)) = [Some 0; Some 1; Some 1; Some 1].
Proof.
  pose proof skmeans_run_example as H. apply okmap_ex in H as (r & E & H). exists r.
  split; [exact sk_valid|]. split; [exact sk_fair_ex|]. split; [exact E|]. apply pair_equal_spec in H as (_ & H). exact H.
Qed.

(** a constant feature is scaled to 0/0 = NaN; every distance is then NaN and
    the first iteration fails its assertion *)
Theorem C61_constant_feature_aborts : exists (g : kcfg NumF) (data : list F64), valid_input g data /\ sk_fair g data skb skb /\
  (exists p, preprocess_data g data skb skb = Ok p /\ @nth F64 1 (snd p) (fofZ 0) = S754_nan) /\
  skmeans g None FORGY data skb skb skdr sks = Err Abort.
Proof.
  exists skg, skd'. split; [unfold valid_input; cbn; splits; lia || reflexivity|].
  split.
  { intros ws E. assert (H : okmap (@w_ranges NumF) (build_workers skg skd') = Some [(0, 2); (2, 2)]) by (vm_compute; reflexivity).
    rewrite E in H. cbn [okmap] in H. injection H as ->.
    split; intros [|[|[|t]]] s n Ht; try discriminate; injection Ht as <- <-; cbn; lia. }
  split.
  - assert (H : okmap (fun p : fbounds NumF * list F64 => nth 1 (snd p) (fofZ 0)) (preprocess_data skg skd' skb skb) = Some S754_nan) by (vm_compute; reflexivity).
    apply okmap_ex in H as (p & E & H). exists p. auto.
  - assert (H : aborts (skmeans skg None FORGY skd' skb skb skdr sks) = true) by (vm_compute; reflexivity).
    destruct (skmeans skg None FORGY skd' skb skb skdr sks) as [|[]]; cbn in H; congruence.
Qed.
