(** Pruned k-means, row by row, in exact arithmetic. *)
From Coq Require Import Reals Lra.
From Verif Require Import Base Num Spec DistModel ClustersModel ClustersView PartitionModel ParModel KmeansModel PruneModel.
From Verif Require Import MatLemmas VecLemmas ClustersProofs DistProofs PartitionProofs ParProofs NearProofs KmeansProofs ParRule DistMatProofs.
Set Implicit Arguments.
Local Open Scope R_scope.

(** cluster [c] is a nearest one of the [k] centroids [C] *)
Definition is_nearest (dt : dist_t) (k : nat) (C : nat -> list R) (x : list R) (c : nat) : Prop :=
  (c < k)%nat /\ forall j, (j < k)%nat -> rdist dt x (C c) <= rdist dt x (C j).

Section Row.
Variables (k d : nat).

Lemma dist_row dt (x : ptr R) xv (c : clusters NumR) j :
  slice (fst x) (snd x) d = xv -> length xv = d -> shaped k d c -> (j < k)%nat ->
  dist_comp_raw NumR x (c_means c, (j * d)%nat) d dt = Ok (rdist dt xv (crow c j)).
Proof.
  intros Hx Lx (Hk & Hd & Hwf) Hj. rewrite <- ldist_R.
  apply (@dist_comp_raw_ok NumR dt x (c_means c, (j * d)%nat) d xv (crow c j)); auto.
  - unfold crow, row. cbn [fst snd]. rewrite Hd. reflexivity.
  - rewrite <- Hd. apply crow_length; [exact Hwf|lia].
Qed.

Lemma crow_len (c : clusters NumR) j : shaped k d c -> (j < k)%nat -> @length R (crow c j) = d.
Proof. intros (Hk & Hd & Hwf) Hj. rewrite <- Hd. apply (@crow_length NumR); [exact Hwf|lia]. Qed.

(** the first scan: entry [(dv, a)] either still at the maximum, or the exact
    distance to cluster [a] (left by kmeans++) *)
Definition entry_ok (dt : dist_t) (C : nat -> list R) (x : list R) (dv : R) (a : option nat) : Prop :=
  (dv = nmax NumR /\ forall j, (j < k)%nat -> rdist dt x (C j) < nmax NumR) \/
  (exists c, a = Some c /\ (c < k)%nat /\ dv = rdist dt x (C c)).

Lemma prow_init_R dt (x : ptr R) xv (c : clusters NumR) dv a :
  slice (fst x) (snd x) d = xv -> length xv = d -> shaped k d c -> (1 <= k)%nat ->
  entry_ok dt (crow c) xv dv a ->
  exists a', prow_init NumR x (c_means c) d k dt dv a = Ok (rdist dt xv (crow c a'), Some a') /\
    is_nearest dt k (crow c) xv a'.
Proof.
  intros Hx Lx Hc Hk He. unfold prow_init.
  set (C := crow c) in *.
  assert (H : okp (loop k (fun clust_idx (s : R * option nat) =>
      let* dist := dist_comp_raw NumR x (c_means c, (clust_idx * d)%nat) d dt in
      Ok (if nltb NumR dist (fst s) then (dist, Some clust_idx) else s)) (dv, a))
    (fun s => entry_ok dt C xv (fst s) (snd s) /\ forall j, (j < k)%nat -> fst s <= rdist dt xv (C j))).
  { apply (@loop_okp _ (fun i s => entry_ok dt C xv (fst s) (snd s) /\ forall j, (j < i)%nat -> fst s <= rdist dt xv (C j))).
    - cbn [fst snd]. split; [exact He|intros; lia].
    - intros i [dv1 a1] Hi (H1 & H2). rewrite (@dist_row dt x xv c i Hx Lx Hc Hi). cbn [bind okp fst snd] in *. fold C.
      cbn [nltb NumR]. destruct (Rltb (rdist dt xv (C i)) dv1) eqn:E; cbn [fst snd].
      + apply Rltb_true in E. split.
        * right. exists i. auto.
        * intros j Hj. destruct (Nat.eq_dec j i) as [->|]; [apply Rle_refl|].
          eapply Rle_trans; [apply Rlt_le; exact E|]. apply H2. lia.
      + apply Rltb_false in E. split; auto. intros j Hj. destruct (Nat.eq_dec j i) as [->|]; [exact E|apply H2; lia]. }
  apply okp_iff in H as ([dv' a'] & E & Hen & Hle). cbn [fst snd] in *.
  destruct Hen as [(-> & Hlt)|(c' & -> & Hc' & ->)].
  - exfalso. specialize (Hle 0%nat ltac:(lia)). specialize (Hlt 0%nat ltac:(lia)).
    apply (Rlt_irrefl (rdist dt xv (C 0%nat))). eapply Rlt_le_trans; eauto.
  - exists c'. split; [exact E|]. split; auto.
Qed.

(** triangle inequality: a centroid at least twice as far from the assigned one
    as the row is cannot be nearer *)
Lemma half_far (x a b : list R) u : @length R x = d -> @length R a = d -> @length R b = d ->
  edist x a <= u -> u <= edist a b / 2 -> edist x a <= edist x b.
Proof.
  intros Lx La Lb H1 H2. pose proof (@edist_triangle a x b) as Ht.
  specialize (Ht ltac:(congruence) ltac:(congruence)). rewrite (edist_sym a x) in Ht. lra.
Qed.

(** one turn keeps: [dv] bounds the distance to the assigned centroid, and is
    exact once recalculated *)
Definition turn_inv (C : nat -> list R) (x : list R) (s : R * nat * bool) : Prop :=
  let '(dv, a, rc) := s in (a < k)%nat /\ edist x (C a) <= dv /\ (rc = true -> dv = edist x (C a)).

Lemma prow_turn_R (x : ptr R) xv (p : prune_clusters NumR) dm ci s :
  slice (fst x) (snd x) d = xv -> length xv = d -> @table_ok k d dm p -> (ci < k)%nat ->
  turn_inv (crow (p_cl p)) xv s ->
  exists s', @prow_turn NumR x (c_means (p_cl p)) d EUCL dm ci s = Ok s' /\ turn_inv (crow (p_cl p)) xv s' /\
    let '(dv, a, rc) := s in let '(dv', a', rc') := s' in
    edist xv (crow (p_cl p) a') <= edist xv (crow (p_cl p) a) /\ edist xv (crow (p_cl p) a') <= edist xv (crow (p_cl p) ci).
Proof.
  intros Hx Lx (Hm & Hc & Ls & Hdm & Hsv) Hci Hs. destruct s as [[dv a] rc]. destruct Hs as (Ha & Hle & Hrc).
  set (C := crow (p_cl p)) in *. unfold prow_turn.
  assert (LC : forall j, (j < k)%nat -> @length R (C j) = d) by (intros j Hj; apply crow_len; auto).
  assert (Lx' : @length R xv = d) by exact Lx.
  rewrite (@dm_get_ok NumR k dm a ci Hm Ha Hci). cbn [bind].
  set (m := if (a =? ci)%nat then nmax NumR else dmv dm a ci).
  (* skipping is sound *)
  assert (Skip : forall u, edist xv (C a) <= u -> u <= m -> edist xv (C a) <= edist xv (C ci)).
  { intros u H1 H2. unfold m in H2. destruct (Nat.eqb_spec a ci) as [->|Hne]; [apply Rle_refl|].
    rewrite Hdm in H2 by auto. exact (@half_far xv (C a) (C ci) u Lx' (LC a Ha) (LC ci Hci) H1 H2). }
  cbn [nleb NumR]. destruct (Rleb dv m) eqn:E1.
  - apply Rleb_true in E1. exists (dv, a, rc). split; [reflexivity|]. cbn. splits; auto.
    + apply Rle_refl.
    + exact (Skip dv Hle E1).
  - assert (Edv : (if rc then @Ok (car NumR) dv else dist_comp_raw NumR x (c_means (p_cl p), (a * d)%nat) d EUCL) = Ok (edist xv (C a))).
    { destruct rc; [rewrite Hrc by reflexivity; reflexivity|]. rewrite (@dist_row EUCL x xv (p_cl p) a Hx Lx Hc Ha). reflexivity. }
    rewrite Edv. cbn [bind]. destruct (Rleb (edist xv (C a)) m) eqn:E2.
    + apply Rleb_true in E2. eexists; split; [reflexivity|]. cbn. splits; auto; try apply Rle_refl.
      exact (Skip _ (Rle_refl _) E2).
    + rewrite (@dist_row EUCL x xv (p_cl p) ci Hx Lx Hc Hci). cbn [bind]. fold C.
      change (rdist EUCL xv (C ci)) with (edist xv (C ci)). cbn [nltb NumR].
      destruct (Rltb (edist xv (C ci)) (edist xv (C a))) eqn:E3.
      * apply Rltb_true in E3. eexists; split; [reflexivity|]. cbn. splits; auto; try apply Rle_refl. apply Rlt_le; exact E3.
      * apply Rltb_false in E3. eexists; split; [reflexivity|]. cbn. splits; auto; try apply Rle_refl.
Qed.

Lemma prow_pruned_R (x : ptr R) xv (p : prune_clusters NumR) dm dv a :
  slice (fst x) (snd x) d = xv -> length xv = d -> @table_ok k d dm p -> length (p_prev_dist p) = k -> (a < k)%nat ->
  edist xv (crow (p_cl p) a) <= dv + nth a (p_prev_dist p) 0 ->
  exists dv' a' rc', @prow_pruned NumR x p dm d EUCL dv (Some a) = Ok (dv', a', rc') /\
    is_nearest EUCL k (crow (p_cl p)) xv a' /\ edist xv (crow (p_cl p) a') <= dv'.
Proof.
  intros Hx Lx Htab Lpd Ha Hb. pose proof Htab as (Hm & Hc & Ls & Hdm & Hsv). unfold prow_pruned.
  set (C := crow (p_cl p)) in *.
  assert (LC : forall j, (j < k)%nat -> @length R (C j) = d) by (intros j Hj; apply crow_len; auto).
  assert (Lx' : @length R xv = d) by exact Lx.
  rewrite (@aget_nth _ (p_prev_dist p) a 0) by lia. cbn [bind].
  rewrite (@aget_nth _ (p_s_val p) a (nmax NumR)) by lia. cbn [bind].
  cbn [nleb nadd NumR]. set (u := dv + nth a (p_prev_dist p) 0) in *.
  destruct (Rleb u (nth a (p_s_val p) (nmax NumR))) eqn:E.
  - apply Rleb_true in E. exists u, a, false. splits; auto. split; auto.
    intros j Hj. cbn [rdist]. destruct (Nat.eq_dec a j) as [->|Hne]; [apply Rle_refl|].
    apply (@half_far xv (C a) (C j) u Lx' (LC a Ha) (LC j Hj) Hb).
    eapply Rle_trans; [exact E|]. apply Hsv; auto.
  - assert (H : okp (loop (c_nclust (p_cl p)) (@prow_turn NumR x (c_means (p_cl p)) d EUCL dm) (u, a, false))
      (fun s => turn_inv C xv s /\ forall j, (j < k)%nat -> edist xv (C (snd (fst s))) <= edist xv (C j))).
    { destruct Hc as (Hk' & Hc'). rewrite Hk'. assert (Hc : shaped k d (p_cl p)) by (split; auto).
      apply (@loop_okp _ (fun i s => turn_inv C xv s /\ forall j, (j < i)%nat -> edist xv (C (snd (fst s))) <= edist xv (C j))).
      - cbn. splits; auto; [intros; discriminate|intros; lia].
      - intros i s Hi (H1 & H2). destruct (@prow_turn_R x xv p dm i s Hx Lx Htab Hi H1) as (s' & -> & H3 & H4).
        cbn [okp]. split; auto. destruct s as [[dv1 a1] rc1], s' as [[dv2 a2] rc2]. cbn [fst snd] in *.
        destruct H4 as (H4 & H5). intros j Hj. destruct (Nat.eq_dec j i) as [->|]; [exact H5|].
        eapply Rle_trans; [exact H4|]. apply H2. lia. }
    apply okp_iff in H as ([[dv' a'] rc'] & E' & (Ha' & Hle & _) & Hn). cbn [fst snd] in *.
    exists dv', a', rc'. splits; auto. split; auto.
Qed.

End Row.
