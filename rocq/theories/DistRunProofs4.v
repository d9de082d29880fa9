(** Creation and initialisation of the MPI processes, and the main loop, in
    exact arithmetic. *)
From Coq Require Import Reals Lra.
From Verif Require Import Base Num Spec DistModel ClustersModel ClustersView PartitionModel ParModel KmeansModel PruneModel DistRunModel.
From Verif Require Import MatLemmas VecLemmas ClustersProofs DistProofs PartitionProofs ParProofs NearProofs KmeansProofs UpdateProofs RunProofs InitProofs ParRule DistMatProofs PruneProofs ClusterSums PruneRound PruneUpdate PruneRun PruneRun2 PropertiesPrune DistRunProofs DistRunProofs2 DistRunProofs3 ProcRows DistInitProofs.
Set Implicit Arguments.
Local Open Scope R_scope.

(** the collectives sum coordinate by coordinate *)
Lemma red_cis {A} k d (cl : A -> clusters NumR) (F : A -> nat -> nat -> R) (M : A -> nat -> Z) (l : list A) : l <> [] ->
  Forall (fun a => exists D, cis k d (cl a) (F a) (M a) D) l ->
  vecs k d (allreduce Rplus (map (fun a => c_means (cl a)) l)) (allreduce Z.add (map (fun a => c_members (cl a)) l))
    (fun j i => rsum (map (fun a => F a j i) l)) (fun j => zsum (map (fun a => M a j) l)).
Proof.
  intros Hne H.
  assert (L1 : Forall (fun v => @length R v = (k * d)%nat) (map (fun a => c_means (cl a)) l)).
  { apply Forall_forall. intros v Hv. apply in_map_iff in Hv as (a & <- & Ha). rewrite Forall_forall in H. destruct (H a Ha) as (D & Hs & _). apply (shaped_means Hs). }
  assert (L2 : Forall (fun v => length v = k) (map (fun a => c_members (cl a)) l)).
  { apply Forall_forall. intros v Hv. apply in_map_iff in Hv as (a & <- & Ha). rewrite Forall_forall in H. destruct (H a Ha) as (D & Hs & _). apply (shaped_means Hs). }
  assert (N1 : map (fun a => c_means (cl a)) l <> []) by (destruct l; [congruence|discriminate]).
  assert (N2 : map (fun a => c_members (cl a)) l <> []) by (destruct l; [congruence|discriminate]).
  split; [exact (@allreduce_length R Rplus _ _ N1 L1)|]. split; [exact (allreduce_length Z.add N2 L2)|]. split.
  - intros j i Hj Hi. etransitivity; [apply (@allreduce_nth_R _ _ N1 L1); nia|]. rewrite map_map. f_equal. apply map_ext_in.
    intros a Ha. rewrite Forall_forall in H. destruct (H a Ha) as (D & Hs & Hc). etransitivity; [symmetry; exact (nth_crow j Hs Hi)|]. apply Hc; auto.
  - intros j Hj. etransitivity; [apply (@allreduce_nth_Z _ _ N2 L2); exact Hj|]. rewrite map_map. f_equal. apply map_ext_in.
    intros a Ha. rewrite Forall_forall in H. destruct (H a Ha) as (D & Hs & Hc). apply Hc. exact Hj.
Qed.

Lemma set_means_all k d (c : clusters NumR) (v : list (car NumR)) : shaped k d c -> length v = (k * d)%nat -> set_mean_all c (v, 0%nat) = Ok (with_means c v).
Proof.
  intros Hs L. unfold set_mean_all. pose proof Hs as (Hk & Hd & _). destruct (shaped_means Hs) as (L1 & _).
  rewrite Hk, Hd. rewrite (Nat.mul_comm d k).
  assert (E : (length (c_means c) =? k * d)%nat = true) by (apply Nat.eqb_eq; exact L1). rewrite E.
  rewrite (@copy_all (car NumR) v (c_means c) (k * d) L L1). reflexivity.
Qed.

Lemma shaped_with_means k d (c : clusters NumR) (v : list (car NumR)) : shaped k d c -> length v = (k * d)%nat -> shaped k d (with_means c v).
Proof.
  intros (Hk & Hd & A & B & C) L. unfold shaped, cwf. cbn [with_means c_nclust c_ncol c_means c_members c_complete]. splits; auto.
  etransitivity; [exact L|]. rewrite Hk, Hd. reflexivity.
Qed.

Lemma cis_fin_all k d c F M : cis k d c F M (fun _ => false) ->
  exists c', @finalize_all NumR c = Ok c' /\ cis k d c' (finF F M) M (fun _ => true).
Proof.
  intros H. pose proof H as (Hs & Hc). destruct (@finalize_all_ok NumR k d c Hs) as (c' & E & Hs' & H'). exists c'. split; [exact E|].
  split; auto. intros j Hj. specialize (H' j Hj). destruct (Hc j Hj) as (A1 & A2 & A3). unfold cel, fin1 in H'. rewrite A2 in H'.
  assert (Lr : @length R (crow c j) = d) by (eapply cis_row; eauto).
  injection H' as E1 E2 E3. rewrite E1, E2, E3, A1. splits; auto. intros i Hi. unfold finF.
  destruct (1 <? M j)%Z; [|apply A3; exact Hi].
  etransitivity; [apply (@nth_map0 (fun x => x / IZR (M j)) (crow c j) i); rewrite Lr; exact Hi|]. rewrite A3 by exact Hi. reflexivity.
Qed.

Section Init.
Variables (g : kcfg NumR) (P : nat) (data : list (car NumR)).
Let d := g_ncol g.
Let k := g_k g.
Let G := g_nrow g.
Hypothesis HP : (1 <= P <= G)%nat.
Hypothesis Hdata : length data = (G * d)%nat.
Hypothesis HG : (Z.of_nat G < 2 ^ 31)%Z.
Hypothesis Hnt : (1 <= g_nthreads g < 2 ^ 32)%Z.
Hypothesis Hk2 : (2 <= k)%nat.

Definition fresh (q : dproc NumR) : Prop := forall r, (r < nq g P q)%nat -> cdist (cellat (dp_st q) r) = nmax NumR.

Lemma centers_proc rk centers it : centers_ok g centers it -> centers_ok (proc_cfg g P rk) centers it.
Proof. intros H. exact H. Qed.

Lemma create1 centers it rk : centers_ok g centers it -> (rk < P)%nat ->
  exists q, dproc_create g P data centers it rk = Ok q /\ dp_rank q = rk /\ dbody g P data q /\ fresh q /\
    build_workers (proc_cfg g P rk) (proc_data g P data rk) = Ok (dp_ws q) /\
    c_means (dp_cl q) = initial_means g centers it /\
    (forall j, (j < k)%nat -> cnum (dp_cl q) j = 0%Z /\ cdone (dp_cl q) j = false).
Proof.
  intros Hc Hrk. unfold dproc_create.
  destruct (@create_pre (proc_cfg g P rk) (proc_data g P data rk) Hk2 centers it (@centers_proc rk centers it Hc)) as (s & ks & E0 & Ek & A1 & A2 & A3 & A4 & A5 & A6 & A7 & A7' & A8 & A9 & A10 & A11).
  destruct (@proc_valid g P data HP Hdata HG Hnt rk Hrk) as (V1 & V2 & V3 & V4).
  destruct (@build_workers_ok NumR (proc_cfg g P rk) (proc_data g P data rk) V1 V2 V3 V4) as (ws & Ew & Hws & Lw & _).
  destruct (@create_ok NumR (proc_cfg g P rk) centers it ltac:(cbn; fold k; lia) (@centers_proc rk centers it Hc)) as (ks' & Ek' & B1 & B2 & B3 & B4).
  rewrite Ek in Ek'. injection Ek' as <-.
  destruct (@create_stok NumR (proc_cfg g P rk) centers it ks ws Ek Lw) as ((S1 & S2 & S3 & S4 & S5) & _).
  rewrite E0, Ew. cbn [bind]. eexists. split; [reflexivity|]. split; [reflexivity|]. split; [|split; [|split; [reflexivity|split]]].
  - unfold dbody, nq, gq, dq, dp_p. cbn [dp_rank dp_cfg dp_ws dp_st]. splits; auto.
    + unfold psized. rewrite A1, A8, A9, !repeat_length. splits; auto. apply Nat.mul_comm.
    + unfold plocals. rewrite A5. split; auto.
  - intros r Hr. cbn [dp_st dp_rank nq] in *. unfold nq in Hr. cbn [dp_rank] in Hr. rewrite <- (PropertiesPrune.pstored_cell s r).
    unfold PropertiesPrune.pstored. etransitivity; [exact (f_equal (fun l => nth r l 0) A6)|]. apply nth_repeat_d. exact Hr.
  - unfold dp_cl, dp_p. cbn [dp_st]. rewrite A1, B1. reflexivity.
  - intros j Hj. unfold dp_cl, dp_p. cbn [dp_st]. rewrite A1, B1. unfold cnum, cdone. cbn [c_members c_complete proc_cfg g_k]. fold k.
    split; apply nth_repeat_d; exact Hj.
Qed.

Definition init_cent (centers : option (list (car NumR))) (it : init_t) (draw : nat -> nat) (j i : nat) : R :=
  match it with
  | FORGY => nth i (row data d (draw j)) 0
  | RANDOM => finF (rs_sum g data draw (seq 0 G)) (rs_cnt draw (seq 0 G)) j i
  | _ => nth (j * d + i) (initial_means g centers it) 0
  end.

Definition ddraws (it : init_t) (draw : nat -> nat) : Prop :=
  match it with
  | FORGY => forall j, (j < k)%nat -> (draw j < G)%nat
  | RANDOM => forall r, (r < G)%nat -> (draw r < k)%nat
  | _ => True
  end.

Definition started (C : nat -> nat -> R) (qs : list (dproc NumR)) : Prop :=
  dranks P qs /\ Forall (fun q => dbody g P data q /\ fresh q /\
     build_workers (proc_cfg g P (dp_rank q)) (proc_data g P data (dp_rank q)) = Ok (dp_ws q) /\
     forall j i, (j < k)%nat -> (i < d)%nat -> nth i (cent (dp_st q) j) 0 = C j i) qs.

Lemma dbody_with_cl q c : dbody g P data q -> shaped k d c -> dbody g P data (dp_with_cl q c).
Proof.
  intros (B1 & B2 & B3 & (S0 & S1) & B5 & B6 & B7) Hc. unfold dbody. splits; auto. split; auto.
Qed.

Lemma ranks_nonempty qs : dranks P qs -> qs <> [].
Proof. intros H ->. unfold dranks in H. destruct P; [lia|discriminate]. Qed.

Lemma ranks_map qs {A} (f : nat -> A) : dranks P qs -> map (fun q : dproc NumR => f (dp_rank q)) qs = map f (seq 0 P).
Proof. intros H. unfold dranks in H. rewrite <- H, map_map. reflexivity. Qed.

Lemma init_means_zero centers it : it <> NONE -> initial_means g centers it = repeat 0 (k * d).
Proof. intros H. unfold initial_means. destruct centers, it; try congruence; reflexivity. Qed.

Lemma init_ok centers it draw ur ksched : centers_ok g centers it -> ddraws it draw -> it <> PLUSPLUS ->
  exists qs qs0, mapM (dproc_create g P data centers it) (seq 0 P) = Ok qs /\ dist_init g P data it draw ur ksched qs = Ok qs0 /\
    started (init_cent centers it draw) qs0.
Proof.
  intros Hco Hdr Hit.
  set (Q0 := fun rk (q : dproc NumR) => dp_rank q = rk /\ dbody g P data q /\ fresh q /\
    build_workers (proc_cfg g P rk) (proc_data g P data rk) = Ok (dp_ws q) /\
    c_means (dp_cl q) = initial_means g centers it /\
    (forall j, (j < k)%nat -> cnum (dp_cl q) j = 0%Z /\ cdone (dp_cl q) j = false)).
  destruct (@mapM_total _ _ (dproc_create g P data centers it) Q0 (seq 0 P)) as (qs & Eqs & Hqs).
  { intros rk Hrk. apply in_seq in Hrk. destruct (@create1 centers it rk Hco ltac:(lia)) as (q & E & H). exists q. split; [exact E|exact H]. }
  assert (Hr : dranks P qs).
  { unfold dranks. rewrite <- (map_id (seq 0 P)). eapply Forall2_map_eq; [exact Hqs|]. intros a b Hab. apply Hab. }
  assert (Hall : forall q, In q qs -> Q0 (dp_rank q) q).
  { intros q Hq. destruct (@Forall2_in_r _ _ _ _ _ _ Hqs Hq) as (rk & _ & H). pose proof H as (-> & _). exact H. }
  assert (Hcis : it <> NONE -> forall q, In q qs -> cis k d (dp_cl q) (fun _ _ => 0) (fun _ => 0%Z) (fun _ => false)).
  { intros Hn q Hq. destruct (Hall q Hq) as (_ & B & _ & _ & Hm & Hz). destruct B as (_ & _ & _ & (Hs & _) & _). split; [exact Hs|].
    intros j Hj. destruct (Hz j Hj) as (Z1 & Z2). splits; auto. intros i Hi. etransitivity; [exact (nth_crow j Hs Hi)|].
    etransitivity; [exact (f_equal (fun l : list R => nth (j * d + i) l 0) (eq_trans Hm (init_means_zero centers Hn)))|]. assert (Hji : (j * d + i < k * d)%nat) by nia. apply nth_repeat_d. exact Hji. }
  assert (Hlt : forall q, In q qs -> (dp_rank q < P)%nat) by (intros q Hq; destruct (Hall q Hq) as (_ & B & _); apply B).
  exists qs. destruct it; try congruence.
  - (* RANDOM *)
    cbn [dist_init]. cbn [ddraws] in Hdr.
    set (Q1 := fun q q1 : dproc NumR => dp_rank q1 = dp_rank q /\ dbody g P data q1 /\ fresh q1 /\ dp_ws q1 = dp_ws q /\
      cis k d (dp_cl q1) (rs_sum g data draw (prows G P (dp_rank q))) (rs_cnt draw (prows G P (dp_rank q))) (fun _ => false)).
    destruct (@mapM_total _ _ (dist_random g P data draw) Q1 qs) as (qs1 & E1 & H1).
    { intros q Hq. destruct (Hall q Hq) as (_ & B & Hf & _). pose proof B as (B1 & B2 & B3 & (S0 & S1) & B5 & B6 & B7).
      destruct (@random_local_ok g P data HP Hdata HG Hnt _ (@set_asg NumR) (dp_rank q) draw (dp_cl q) (ps_cells (dp_st q)) B1 Hdr B6) as (c & cells & E & Hc & Lc & Hcell).
      { apply Hcis; auto. discriminate. }
      unfold dist_random. rewrite E. cbn [bind fst snd]. eexists. split; [reflexivity|].
      unfold Q1. splits; auto.
      - unfold dbody. splits; auto.
        + destruct Hc as (Hc & _). split; auto.
        + cbn [dp_with dp_st ps_cells]. rewrite Lc. exact B6.
      - intros r Hr'. unfold nq in Hr'. cbn [dp_with dp_rank] in Hr'. specialize (Hf r Hr'). unfold cellat in *. cbn [dp_with dp_st ps_cells].
        assert (Hr2 : (r < length (ps_cells (dp_st q)))%nat) by (rewrite B6; exact Hr'). specialize (Hcell r Hr2).
        rewrite (nth_error_nth' _ dcell Hr2) in Hcell. cbn [option_map] in Hcell. rewrite (nth_error_nth _ _ dcell Hcell).
        unfold set_asg, cdist in *. cbn [fst]. exact Hf. }
    rewrite E1. cbn [bind].
    assert (Hr1 : dranks P qs1) by (unfold dranks; rewrite <- Hr; eapply Forall2_map_eq; [exact H1|]; intros a b Hab; apply Hab).
    assert (Hv : vecs k d (reduce_means qs1) (reduce_members qs1) (rs_sum g data draw (seq 0 G)) (rs_cnt draw (seq 0 G))).
    { pose proof (@red_cis (dproc NumR) k d (@dp_cl NumR) (fun q => rs_sum g data draw (prows G P (dp_rank q))) (fun q => rs_cnt draw (prows G P (dp_rank q))) qs1 (ranks_nonempty Hr1)) as Hv.
      destruct Hv as (V1 & V2 & V3 & V4).
      { apply Forall_forall. intros q1 Hq1. destruct (@Forall2_in_r _ _ _ _ _ _ H1 Hq1) as (q & Hq & (R1 & _ & _ & _ & Hc)). exists (fun _ => false). rewrite R1. exact Hc. }
      split; [exact V1|]. split; [exact V2|]. split.
      - intros j i Hj Hi. etransitivity; [exact (V3 j i Hj Hi)|]. rewrite (ranks_map (fun rk => rs_sum g data draw (prows G P rk) j i) Hr1). apply rs_sum_all; auto.
      - intros j Hj. etransitivity; [exact (V4 j Hj)|]. rewrite (ranks_map (fun rk => rs_cnt draw (prows G P rk) j) Hr1). apply rs_cnt_all; auto. }
    pose proof Hv as (V1 & V2 & _).
    set (Q2 := fun q1 q2 : dproc NumR => dp_rank q2 = dp_rank q1 /\ dbody g P data q2 /\ fresh q2 /\ dp_ws q2 = dp_ws q1 /\
      cis k d (dp_cl q2) (finF (rs_sum g data draw (seq 0 G)) (rs_cnt draw (seq 0 G))) (rs_cnt draw (seq 0 G)) (fun _ => true)).
    destruct (@mapM_total _ _ (fun q => let* c := set_mean_all (dp_cl q) (reduce_means qs1, 0%nat) in let* c := set_num_members_v c (reduce_members qs1, 0%nat) in
        let* c := finalize_all c in Ok (dp_with_cl q c)) Q2 qs1) as (qs2 & E2 & H2).
    { intros q1 Hq1. destruct (@Forall2_in_r _ _ _ _ _ _ H1 Hq1) as (q & Hq & (R1 & B & Hf & Ew & Hc)). pose proof Hc as (Hs & Hc').
      rewrite (@set_means_all k d _ _ Hs V1). cbn [bind]. rewrite (@set_members_all k d _ _ (@shaped_with_means k d _ _ Hs V1) V2). cbn [bind].
      pose proof (vecs_set Hs Hv (fun _ => false)) as Hc2. specialize (Hc2 (fun j Hj => proj1 (proj2 (Hc' j Hj)))).
      destruct (cis_fin_all Hc2) as (c3 & -> & Hc3). cbn [bind]. eexists. split; [reflexivity|]. unfold Q2. splits; auto.
      apply dbody_with_cl; auto. apply Hc3. }
    exists qs2. split; [exact Eqs|]. split; [exact E2|]. split.
    + unfold dranks. rewrite <- Hr1. eapply Forall2_map_eq; [exact H2|]. intros a b Hab. apply Hab.
    + apply Forall_forall. intros q2 Hq2. destruct (@Forall2_in_r _ _ _ _ _ _ H2 Hq2) as (q1 & Hq1 & (R2 & B2 & Hf2 & Ew2 & Hc2)).
      destruct (@Forall2_in_r _ _ _ _ _ _ H1 Hq1) as (q & Hq & (R1 & B & Hf & Ew & Hc)). destruct (Hall q Hq) as (_ & _ & _ & Eb & _).
      splits; auto.
      * rewrite R2, R1, Ew2, Ew. exact Eb.
      * intros j i Hj Hi. unfold cent. destruct Hc2 as (_ & Hc2). apply Hc2; auto.
  - (* FORGY *)
    cbn [dist_init]. cbn [ddraws] in Hdr.
    set (F1 := fun rk j i => if own G P rk (draw j) then nth i (row data d (draw j)) 0 else 0).
    set (Q1 := fun q q1 : dproc NumR => dp_rank q1 = dp_rank q /\ dbody g P data q1 /\ fresh q1 /\ dp_ws q1 = dp_ws q /\
      cis k d (dp_cl q1) (F1 (dp_rank q)) (fun _ => 0%Z) (fun _ => false)).
    destruct (@mapM_total _ _ (dist_forgy g P data draw) Q1 qs) as (qs1 & E1 & H1).
    { intros q Hq. destruct (Hall q Hq) as (_ & B & Hf & _).
      destruct (@forgy_local_ok g P data HP Hdata HG Hnt (dp_rank q) draw (dp_cl q) (Hlt q Hq) Hdr) as (c & E & Hc).
      { apply Hcis; auto. discriminate. }
      unfold dist_forgy. rewrite E. cbn [bind fst snd]. eexists. split; [reflexivity|].
      unfold Q1. splits; auto. apply dbody_with_cl; auto. apply Hc. }
    rewrite E1. cbn [bind].
    assert (Hr1 : dranks P qs1) by (unfold dranks; rewrite <- Hr; eapply Forall2_map_eq; [exact H1|]; intros a b Hab; apply Hab).
    pose proof (@red_cis (dproc NumR) k d (@dp_cl NumR) (fun q => F1 (dp_rank q)) (fun q _ => 0%Z) qs1 (ranks_nonempty Hr1)) as Hv.
    destruct Hv as (V1 & V2 & V3 & V4).
    { apply Forall_forall. intros q1 Hq1. destruct (@Forall2_in_r _ _ _ _ _ _ H1 Hq1) as (q & Hq & (R1 & _ & _ & _ & Hc)). exists (fun _ => false). rewrite R1. exact Hc. }
    change (allreduce Rplus (map (fun a => c_means (dp_cl a)) qs1)) with (reduce_means qs1) in V1, V3.
    set (Q2 := fun q1 q2 : dproc NumR => dp_rank q2 = dp_rank q1 /\ dbody g P data q2 /\ fresh q2 /\ dp_ws q2 = dp_ws q1 /\
      forall j i, (j < k)%nat -> (i < d)%nat -> nth i (crow (dp_cl q2) j) 0 = nth i (row data d (draw j)) 0).
    destruct (@mapM_total _ _ (fun q => let* c := set_mean_all (dp_cl q) (reduce_means qs1, 0%nat) in Ok (dp_with_cl q c)) Q2 qs1) as (qs2 & E2 & H2).
    { intros q1 Hq1. destruct (@Forall2_in_r _ _ _ _ _ _ H1 Hq1) as (q & Hq & (R1 & B & Hf & Ew & Hc)). pose proof Hc as (Hs & Hc').
      rewrite (@set_means_all k d _ _ Hs V1). cbn [bind]. eexists. split; [reflexivity|]. unfold Q2. splits; auto.
      - apply dbody_with_cl; auto. apply shaped_with_means; auto.
      - intros j i Hj Hi. etransitivity; [exact (nth_crow j (@shaped_with_means k d _ _ Hs V1) Hi)|]. cbn [with_means c_means].
        etransitivity; [exact (V3 j i Hj Hi)|]. cbn beta. etransitivity; [exact (f_equal rsum (ranks_map (fun rk => F1 rk j i) Hr1))|]. unfold F1. apply own_rsum; auto. }
    exists qs2. split; [exact Eqs|]. split; [exact E2|]. split.
    + unfold dranks. rewrite <- Hr1. eapply Forall2_map_eq; [exact H2|]. intros a b Hab. apply Hab.
    + apply Forall_forall. intros q2 Hq2. destruct (@Forall2_in_r _ _ _ _ _ _ H2 Hq2) as (q1 & Hq1 & (R2 & B2 & Hf2 & Ew2 & Hc2)).
      destruct (@Forall2_in_r _ _ _ _ _ _ H1 Hq1) as (q & Hq & (R1 & B & Hf & Ew & Hc)). destruct (Hall q Hq) as (_ & _ & _ & Eb & _).
      splits; auto. rewrite R2, R1, Ew2, Ew. exact Eb.
  - (* NONE *)
    exists qs. split; [exact Eqs|]. split; [reflexivity|]. split; [exact Hr|]. apply Forall_forall. intros q Hq.
    destruct (Hall q Hq) as (_ & B & Hf & Ew & Hm & _). splits; auto. intros j i Hj Hi. unfold cent.
    pose proof B as (_ & _ & _ & (Hs & _) & _). etransitivity; [exact (nth_crow j Hs Hi)|]. cbn [init_cent].
    exact (f_equal (fun l => nth (j * d + i) l 0) Hm).
Qed.

End Init.
