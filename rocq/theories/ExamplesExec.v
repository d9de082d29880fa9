(** Concrete calls meeting the hypotheses of C123 and C124. *)
From Coq Require Import Reals Lra Lia ZArith List String Permutation.
From Verif Require Import Base Num Spec DistModel ClustersModel PartitionModel ParModel ParProofs KmeansModel RunProofs PropertiesRun PropertiesKmspp PropertiesPrune.
From Verif Require Import WriteModel SpecYaml WriteProofs PropertiesWrite CliModel PropertiesCli DistProofs PropertiesMb PropertiesDistRun.
From Verif Require Import HclustModel HclustVerify PropertiesSkmeans ExecModel PropertiesExec.
Local Open Scope list_scope.
Local Open Scope R_scope.

Definition xargs : kargs NumR := exargs true false.
Notation xdata := [0; 1; 6; 10; 11].
Definition xlo (_ : nat) : R := 0.
Definition xhi (_ : nat) : R := 11.

Lemma xcall : forall rows, (1 <= rows <= 2)%nat -> @exec_call NumR R exdec rows xargs exfiles EUCL NONE xdata (Some (firstn rows [0; 1])).
Proof.
  intros rows Hr. unfold exec_call. cbv zeta. cbn [xargs exargs ka_nrow ka_ncol ka_k ka_dist]. split; [lia|]. split; [lia|]. split; [lia|]. split; [lia|]. split; [reflexivity|]. split.
  - eexists. split; [reflexivity|]. split; reflexivity.
  - split; [reflexivity|]. eexists. split; [reflexivity|].
    destruct rows as [|[|[|x]]]; [lia| | |lia]; split; cbn; lia || reflexivity.
Qed.

Lemma xin : forall r, (r < 5)%nat -> exists x, row xdata 1 r = [x] /\ 0 <= x <= 11.
Proof. intros [|[|[|[|[|r]]]]] Hr; try lia; eexists; (split; [reflexivity|lra]). Qed.

Theorem C123_premises_met : forall (showd : R -> text) inv mb_size u, (forall x, plain (showd x)) ->
  ends_with xargs (fun o => exists C, (forall j, (j < 2)%nat -> @length R (C j) = 1%nat /\ within 1 xlo xhi (C j)) /\
      nearest_file 5 1 2 (rdist EUCL) (row xdata 1) C showd o)
    (@mb_prog NumR R exenc exdec inv showd mb_size exdrR u exsR xargs exfiles (fun _ => 7)).
Proof.
  intros showd inv mb_size u Hs.
  apply (@C123_mb_knori R exenc exdec (fun x => eq_refl) showd Hs inv mb_size exdrR u exsR xargs exfiles (fun _ => 7) EUCL NONE xdata (Some [0; 1]) xlo xhi (xcall 2 ltac:(lia))).
  - split; [cbn; lia|]. split; [apply ex_args|]. split; [intros H; discriminate|apply ex_fair].
  - intros r Hr. destruct (xin r Hr) as (x & E & Hx). change (Z.to_nat (ka_ncol xargs)) with 1%nat. rewrite E. intros [|i] Hi; [|lia]. exact Hx.
  - intros [|[|j]] Hj; [change (within 1 xlo xhi [0])|change (within 1 xlo xhi [1])|cbn in Hj; lia];
    (intros [|i] Hi; [|lia]); cbn [nth]; unfold xlo, xhi; lra.
  - intros r c Hr Lc Hc. destruct (xin r Hr) as (x & E & Hx). change (Z.to_nat (ka_ncol xargs)) with 1%nat in *. rewrite E.
    destruct c as [|y [|z c]]; try discriminate Lc. specialize (Hc 0%nat ltac:(lia)). cbn in Hc. unfold xlo, xhi in Hc.
    apply Rle_lt_trans with 11; [|apply Rlt_trans with 100; [lra|apply IZR_lt; vm_compute; reflexivity]].
    unfold rdist, edist, sqdist. cbn [vsub map2 dot rsum map fold_right].
    apply Rle_trans with (sqrt (11 * 11)); [apply sqrt_le_1_alt; unfold dot, map2, rsum; cbn; nra|rewrite sqrt_square by lra; lra].
Qed.

(** hmeans on the same files, splitting from the two centroids 0 and 1 *)
Theorem C123_hmeans_premises_met : forall (showd : R -> text) dr, (forall x, plain (showd x)) ->
  let r := @hmeans NumR R exenc exdec showd 2 (fun l => l) dr (fun i j => exsR (i + j)) 100 xargs exfiles (fun _ => 7) in
  r = Err Abort \/ ends_with xargs (fun o => CliProofs.describes 5 1 (f_k o) (row xdata 1) showd o) r.
Proof.
  intros showd dr Hs.
  apply (@C123_hmeans_means R exenc exdec (fun x => eq_refl) showd Hs 2 (fun l => l) dr (fun i j => exsR (i + j)) 100 xargs exfiles (fun _ => 7) EUCL NONE xdata (Some [0; 1]) (xcall 2 ltac:(lia))).
  - split; [exact (ex_valid true false)|]. split; [cbn; lia|]. split; [cbn; lia|]. split; [cbn; lia|]. split; [cbn; lia|]. split; [cbn; lia|exact I].
  - intros ws E i j. exact (@ex_fair true false ws E (i + j)%nat).
  - change (hclust_floor (ka_k xargs)) with 2%nat. lia.
  - intros l. apply Permutation_refl.
Qed.

(** a data file of four numbers, and a file with one centroid, for the same call *)
Theorem C124_premises_met : forall eng,
  @prog NumR R exenc exdec (fun _ => []) 2 eng xargs (mkFiles (Some (concat (map exenc [0; 1; 6; 10]))) (Some (Some (concat (map exenc [0; 1]))))) (fun _ => 7) = Err Throw /\
  @prog NumR R exenc exdec (fun _ => []) 2 eng xargs (mkFiles (Some (concat (map exenc xdata))) (Some (Some (concat (map exenc [0]))))) (fun _ => 7) = Err Abort.
Proof. intros eng. split; reflexivity. Qed.
Print Assumptions C123_premises_met.
