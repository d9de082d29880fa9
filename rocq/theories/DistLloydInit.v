(** Where the unpruned MPI k-means starts from, in exact arithmetic. *)
From Coq Require Import Reals Lra.
From Verif Require Import Base Num Spec DistModel ClustersModel ClustersView PartitionModel ParModel KmeansModel PruneModel DistRunModel DistLloydModel.
From Verif Require Import MatLemmas VecLemmas ClustersProofs DistProofs PartitionProofs ParProofs NearProofs KmeansProofs UpdateProofs RunProofs InitProofs SimProofs KmeansR SseProofs PropertiesKmeansR PropertiesRun.
From Verif Require Import ParRule DistMatProofs PruneProofs ClusterSums PruneRound PruneUpdate PruneRun PruneRun2 PropertiesPrune DistRunProofs DistRunProofs2 DistRunProofs3 ProcRows DistInitProofs DistRunProofs4 DistRunProofs5 KmsppR SpecKmspp PropertiesKmspp DistKmspp DistInitAll PropertiesDistRun DistLloyd.
Set Implicit Arguments.
Local Open Scope R_scope.

(** the arguments of a run; unlike the pruned version, one cluster is allowed *)
Record udist_args (g : kcfg NumR) (P : nat) (data : list R) (centers : option (list R)) it (draw : nat -> nat) (ur : nat -> R) (ksched scheds : nat -> nat -> list nat) : Prop := {
  ua_procs : (1 <= P <= g_nrow g)%nat;
  ua_rows : (Z.of_nat (g_nrow g) < 2 ^ 31)%Z;
  ua_data : length data = (g_nrow g * g_ncol g)%nat;
  ua_threads : (1 <= g_nthreads g < 2 ^ 32)%Z;
  ua_k : (1 <= g_k g)%nat;
  ua_centers : match centers, it with Some m, NONE => (g_k g * g_ncol g <= length m)%nat | _, _ => True end;
  ua_init : match it with
            | FORGY => forall j, (j < g_k g)%nat -> (draw j < g_nrow g)%nat
            | RANDOM => forall r, (r < g_nrow g)%nat -> (draw r < g_k g)%nat
            | NONE => True
            | PLUSPLUS => (draw 0%nat < g_nrow g)%nat /\ proper g data /\ (forall i, 0 <= ur i <= 1) /\
                forall i rank ws, (rank < P)%nat -> build_workers (proc_cfg g P rank) (proc_data g P data rank) = Ok ws -> complete (w_ranges ws) (ksched i rank)
            end;
  ua_fair : forall i rank ws, (rank < P)%nat -> build_workers (proc_cfg g P rank) (proc_data g P data rank) = Ok ws ->
      complete (w_ranges ws) (scheds i rank)
}.

Section I.
Variables (g : kcfg NumR) (P : nat) (data : list (car NumR)).
Let d := g_ncol g.
Let k := g_k g.
Let G := g_nrow g.

Section A.
Hypothesis HP : (1 <= P <= G)%nat.
Hypothesis Hdata : length data = (G * d)%nat.
Hypothesis HG : (Z.of_nat G < 2 ^ 31)%Z.
Hypothesis Hnt : (1 <= g_nthreads g < 2 ^ 32)%Z.
Hypothesis Hk : (1 <= k)%nat.

Definition ufresh (centers : option (list (car NumR))) it rk (q : uproc NumR) : Prop :=
  up_rank q = rk /\ ubody g P data q /\ c_means (up_cl q) = initial_means g centers it /\
  (forall j, (j < k)%nat -> cnum (up_cl q) j = 0%Z /\ cdone (up_cl q) j = false) /\ s_asg (up_st q) = repeat None (proc_nrow G P rk).

Lemma ucreate1 centers it rk : centers_ok g centers it -> (rk < P)%nat -> exists q, uproc_create g P data centers it rk = Ok q /\ ufresh centers it rk q.
Proof.
  intros Hc Hrk. unfold uproc_create.
  destruct (@proc_valid g P data HP Hdata HG Hnt rk Hrk) as (V1 & V2 & V3 & V4).
  destruct (@build_workers_ok NumR (proc_cfg g P rk) (proc_data g P data rk) V1 V2 V3 V4) as (ws & Ew & Hws & Lw & _).
  destruct (@create_ok NumR (proc_cfg g P rk) centers it Hk (@centers_proc g P rk centers it Hc)) as (ks & Ek & B1 & B2 & B3 & B4).
  destruct (@create_stok NumR (proc_cfg g P rk) centers it ks ws Ek Lw) as (Hst & _).
  rewrite Ek, Ew. cbn [Base.bind]. eexists. split; [reflexivity|]. split; [reflexivity|]. split; [|split; [|split]].
  - split; [exact Hrk|]. split; [exact Ew|exact Hst].
  - unfold up_cl. cbn [up_st]. rewrite B1. reflexivity.
  - intros j Hj. unfold up_cl. cbn [up_st]. rewrite B1. unfold cnum, cdone. cbn [c_members c_complete proc_cfg g_k]. fold k.
    split; apply nth_repeat_d; exact Hj.
  - exact B2.
Qed.

Lemma ubody_with_ca q c asg : ubody g P data q -> shaped k d c -> length asg = un g P q -> ubody g P data (up_with_ca q c asg).
Proof.
  clear. intros (B1 & B2 & (T1 & T2 & T3 & T4)) Hs La. split; [exact B1|]. split; [exact B2|]. split; [exact Hs|]. split; [exact T2|]. split; [exact La|exact T4].
Qed.
Lemma ubody_with_cl q c : ubody g P data q -> shaped k d c -> ubody g P data (up_with_cl q c).
Proof. clear. intros B Hs. apply ubody_with_ca; auto. destruct B as (_ & _ & (_ & _ & T3 & _)). exact T3. Qed.

Lemma rs_sum_ext draw draw' rows j i : (forall r, In r rows -> draw r = draw' r) -> rs_sum g data draw rows j i = rs_sum g data draw' rows j i.
Proof. clear. intros H. unfold rs_sum. f_equal. apply map_ext_in. intros r Hr. rewrite (H r Hr). reflexivity. Qed.
Lemma rs_cnt_ext draw draw' rows j : (forall r, In r rows -> draw r = draw' r) -> rs_cnt draw rows j = rs_cnt draw' rows j.
Proof. clear. intros H. unfold rs_cnt. f_equal. apply map_ext_in. intros r Hr. rewrite (H r Hr). reflexivity. Qed.
End A.

(** all processes hold the start centroids *)
Definition ubegun (S : nat -> list R) (qs : list (uproc NumR)) : Prop :=
  uranks P qs /\ Forall (fun q => ubody g P data q /\ forall j, (j < k)%nat -> crow (up_cl q) j = S j) qs.

Lemma u_init_ok centers it draw ur ksched scheds : udist_args g P data centers it draw ur ksched scheds ->
  exists qs qs0, mapM (uproc_create g P data centers it) (seq 0 P) = Ok qs /\ udist_init g P data it draw ur ksched qs = Ok qs0 /\
    ubegun (start_centroid g data centers it draw ur) qs0.
Proof.
  intros A. pose proof (ua_procs A) as HP. pose proof (ua_data A) as Hdata. pose proof (ua_rows A) as HG. pose proof (ua_threads A) as Hnt.
  pose proof (ua_k A) as Hk. fold k in Hk. fold G in HP, HG.
  assert (Hco : centers_ok g centers it) by (exact (ua_centers A)).
  destruct (@mapM_total _ _ (uproc_create g P data centers it) (ufresh centers it) (seq 0 P)) as (qs & Eqs & Hqs).
  { intros rk Hrk. apply in_seq in Hrk. apply ucreate1; auto. lia. }
  assert (Hr : uranks P qs).
  { unfold uranks. rewrite <- (map_id (seq 0 P)). eapply Forall2_map_eq; [exact Hqs|]. intros a b Hab. apply Hab. }
  assert (Hall : forall q, In q qs -> ufresh centers it (up_rank q) q).
  { intros q Hq. destruct (@Forall2_in_r _ _ _ _ _ _ Hqs Hq) as (rk & _ & H). pose proof H as (-> & _). exact H. }
  assert (Hcis : it <> NONE -> forall q, In q qs -> cis k d (up_cl q) (fun _ _ => 0) (fun _ => 0%Z) (fun _ => false)).
  { intros Hn q Hq. destruct (Hall q Hq) as (_ & B & Hm & Hz & _). destruct B as (_ & _ & (Hs & _)). split; [exact Hs|].
    intros j Hj. destruct (Hz j Hj) as (Z1 & Z2). splits; auto. intros i Hi. etransitivity; [exact (nth_crow j Hs Hi)|].
    etransitivity; [exact (f_equal (fun l : list R => nth (j * d + i) l 0) (eq_trans Hm (@init_means_zero g centers it Hn)))|]. assert (Hji : (j * d + i < k * d)%nat) by nia. apply nth_repeat_d. exact Hji. }
  assert (Hlt : forall q, In q qs -> (up_rank q < P)%nat) by (intros q Hq; destruct (Hall q Hq) as (_ & B & _); apply B).
  exists qs. pose proof (ua_init A) as Hdr. destruct it.
  - (* RANDOM *)
    cbn [udist_init].
    set (Q1 := fun q q1 : uproc NumR => up_rank q1 = up_rank q /\ ubody g P data q1 /\
      cis k d (up_cl q1) (rs_sum g data draw (prows G P (up_rank q))) (rs_cnt draw (prows G P (up_rank q))) (fun _ => false)).
    match goal with |- context [Base.bind (mapM ?f qs)] => destruct (@mapM_total _ _ f Q1 qs) as (qs1 & E1 & H1) end.
    { intros q Hq. destruct (Hall q Hq) as (_ & B & _). pose proof B as (B1 & B2 & (T1 & T2 & T3 & T4)).
      destruct (@random_local_ok g P data HP Hdata HG Hnt _ (fun a (_ : option nat) => Some a) (up_rank q) draw (up_cl q) (s_asg (up_st q)) B1 Hdr T3) as (c & cells & E & Hc & Lc & _).
      { apply Hcis; auto. discriminate. }
      rewrite E. cbn [Base.bind fst snd]. eexists. split; [reflexivity|].
      split; [reflexivity|]. split; [|exact Hc]. apply ubody_with_ca; [exact B|apply Hc|]. rewrite Lc. exact T3. }
    rewrite E1. cbn [Base.bind].
    assert (Hr1 : uranks P qs1) by (unfold uranks; rewrite <- Hr; eapply Forall2_map_eq; [exact H1|]; intros a b Hab; apply Hab).
    assert (Hv : vecs k d (ureduce_means qs1) (ureduce_members qs1) (rs_sum g data draw (seq 0 G)) (rs_cnt draw (seq 0 G))).
    { pose proof (@red_cis (uproc NumR) k d (@up_cl NumR) (fun q => rs_sum g data draw (prows G P (up_rank q))) (fun q => rs_cnt draw (prows G P (up_rank q))) qs1 (@uranks_nonempty g P HP qs1 Hr1)) as Hv.
      destruct Hv as (V1 & V2 & V3 & V4).
      { apply Forall_forall. intros q1 Hq1. destruct (@Forall2_in_r _ _ _ _ _ _ H1 Hq1) as (q & Hq & (R1 & _ & Hc)). exists (fun _ => false). rewrite R1. exact Hc. }
      split; [exact V1|]. split; [exact V2|]. split.
      - intros j i Hj Hi. etransitivity; [exact (V3 j i Hj Hi)|]. rewrite (uranks_map (fun rk => rs_sum g data draw (prows G P rk) j i) Hr1). apply rs_sum_all; auto.
      - intros j Hj. etransitivity; [exact (V4 j Hj)|]. rewrite (uranks_map (fun rk => rs_cnt draw (prows G P rk) j) Hr1). apply rs_cnt_all; auto. }
    pose proof Hv as (V1 & V2 & _).
    set (Q2 := fun q1 q2 : uproc NumR => up_rank q2 = up_rank q1 /\ ubody g P data q2 /\
      cis k d (up_cl q2) (finF (rs_sum g data draw (seq 0 G)) (rs_cnt draw (seq 0 G))) (rs_cnt draw (seq 0 G)) (fun _ => true)).
    match goal with |- context [mapM ?f qs1] => destruct (@mapM_total _ _ f Q2 qs1) as (qs2 & E2 & H2) end.
    { intros q1 Hq1. destruct (@Forall2_in_r _ _ _ _ _ _ H1 Hq1) as (q & Hq & (R1 & B & Hc)). pose proof Hc as (Hs & Hc').
      rewrite (@set_means_all k d _ _ Hs V1). cbn [Base.bind]. rewrite (@set_members_all k d _ _ (@shaped_with_means k d _ _ Hs V1) V2). cbn [Base.bind].
      pose proof (vecs_set Hs Hv (fun _ => false)) as Hc2. specialize (Hc2 (fun j Hj => proj1 (proj2 (Hc' j Hj)))).
      destruct (cis_fin_all Hc2) as (c3 & -> & Hc3). cbn [Base.bind]. eexists. split; [reflexivity|]. split; [reflexivity|]. split; [|exact Hc3].
      apply ubody_with_cl; auto. apply Hc3. }
    exists qs2. split; [exact Eqs|]. split; [exact E2|]. split.
    + unfold uranks. rewrite <- Hr1. eapply Forall2_map_eq; [exact H2|]. intros a b Hab. apply Hab.
    + apply Forall_forall. intros q2 Hq2. destruct (@Forall2_in_r _ _ _ _ _ _ H2 Hq2) as (q1 & Hq1 & (R2 & B2 & Hc2)).
      split; [exact B2|]. intros j Hj. cbn [start_centroid]. rewrite <- (map_map draw (@Some nat)).
      assert (Ld : length (map draw (seq 0 G)) = G) by (rewrite map_length, seq_length; reflexivity).
      assert (Hnx : forall r, In r (seq 0 G) -> draw r = nth r (map draw (seq 0 G)) 0%nat).
      { intros r Hr'. apply in_seq in Hr'. symmetry. apply nth_map_seq0. lia. }
      apply (@fin_rs_mean g data (map draw (seq 0 G)) j (crow (up_cl q2) j) Hdata Ld (cis_row Hc2 Hj)).
      intros i Hi. destruct Hc2 as (_ & Hc2). destruct (Hc2 j Hj) as (_ & _ & C3). etransitivity; [exact (C3 i Hi)|].
      apply finF_ext; [apply (rs_sum_ext _ _ _ _ _ Hnx)|apply (rs_cnt_ext _ _ _ _ Hnx)].
  - (* FORGY *)
    cbn [udist_init].
    set (F1 := fun rk j i => if own G P rk (draw j) then nth i (row data d (draw j)) 0 else 0).
    set (Q1 := fun q q1 : uproc NumR => up_rank q1 = up_rank q /\ ubody g P data q1 /\
      cis k d (up_cl q1) (F1 (up_rank q)) (fun _ => 0%Z) (fun _ => false)).
    match goal with |- context [Base.bind (mapM ?f qs)] => destruct (@mapM_total _ _ f Q1 qs) as (qs1 & E1 & H1) end.
    { intros q Hq. destruct (Hall q Hq) as (_ & B & _).
      destruct (@forgy_local_ok g P data HP Hdata HG Hnt (up_rank q) draw (up_cl q) (Hlt q Hq) Hdr) as (c & E & Hc).
      { apply Hcis; auto. discriminate. }
      rewrite E. cbn [Base.bind fst snd]. eexists. split; [reflexivity|].
      split; [reflexivity|]. split; [|exact Hc]. apply ubody_with_cl; auto. apply Hc. }
    rewrite E1. cbn [Base.bind].
    assert (Hr1 : uranks P qs1) by (unfold uranks; rewrite <- Hr; eapply Forall2_map_eq; [exact H1|]; intros a b Hab; apply Hab).
    pose proof (@red_cis (uproc NumR) k d (@up_cl NumR) (fun q => F1 (up_rank q)) (fun q _ => 0%Z) qs1 (@uranks_nonempty g P HP qs1 Hr1)) as Hv.
    destruct Hv as (V1 & V2 & V3 & V4).
    { apply Forall_forall. intros q1 Hq1. destruct (@Forall2_in_r _ _ _ _ _ _ H1 Hq1) as (q & Hq & (R1 & _ & Hc)). exists (fun _ => false). rewrite R1. exact Hc. }
    change (allreduce Rplus (map (fun a => c_means (up_cl a)) qs1)) with (ureduce_means qs1) in V1, V3.
    set (Q2 := fun q1 q2 : uproc NumR => up_rank q2 = up_rank q1 /\ ubody g P data q2 /\
      forall j i, (j < k)%nat -> (i < d)%nat -> nth i (crow (up_cl q2) j) 0 = nth i (row data d (draw j)) 0).
    match goal with |- context [mapM ?f qs1] => destruct (@mapM_total _ _ f Q2 qs1) as (qs2 & E2 & H2) end.
    { intros q1 Hq1. destruct (@Forall2_in_r _ _ _ _ _ _ H1 Hq1) as (q & Hq & (R1 & B & Hc)). pose proof Hc as (Hs & Hc').
      rewrite (@set_means_all k d _ _ Hs V1). cbn [Base.bind]. eexists. split; [reflexivity|]. split; [reflexivity|]. split.
      - apply ubody_with_cl; auto. apply shaped_with_means; auto.
      - intros j i Hj Hi. etransitivity; [exact (nth_crow j (@shaped_with_means k d _ _ Hs V1) Hi)|]. cbn [with_means c_means].
        etransitivity; [exact (V3 j i Hj Hi)|]. cbn beta. etransitivity; [exact (f_equal rsum (uranks_map (fun rk => F1 rk j i) Hr1))|]. unfold F1. apply own_rsum; auto. }
    exists qs2. split; [exact Eqs|]. split; [exact E2|]. split.
    + unfold uranks. rewrite <- Hr1. eapply Forall2_map_eq; [exact H2|]. intros a b Hab. apply Hab.
    + apply Forall_forall. intros q2 Hq2. destruct (@Forall2_in_r _ _ _ _ _ _ H2 Hq2) as (q1 & Hq1 & (R2 & B2 & Hc2)).
      split; [exact B2|]. intros j Hj. cbn [start_centroid]. apply (@vec_ext d).
      * destruct B2 as (_ & _ & ((S1 & S2 & S3) & _)). refine (eq_trans (@crow_length NumR _ j S3 _) S2). rewrite S1. exact Hj.
      * apply (@row_length _ data d (draw j) G); [exact Hdata|auto].
      * intros i Hi. apply Hc2; auto.
  - (* PLUSPLUS *)
    cbn [udist_init]. destruct Hdr as (Hdr & Hp & Hur & Hsch).
    set (ch := kpp_seeds g data (draw 0%nat) ur k).
    assert (Hself : forall r, (r < g_nrow g)%nat -> rdist (g_dt g) (row data (g_ncol g) r) (row data (g_ncol g) r) = 0) by (intros r Hr'; apply (proper_self Hp Hr')).
    assert (Hpos : forall r q, (r < g_nrow g)%nat -> (q < g_nrow g)%nat -> 0 <= rdist (g_dt g) (row data (g_ncol g) r) (row data (g_ncol g) q)) by (intros r q Hr' Hq'; apply (proper_pos Hp Hdata Hr' Hq')).
    set (ks := map (@up_kp NumR) qs).
    assert (Hkr : kranks P ks) by (unfold kranks, ks; rewrite map_map; exact Hr).
    assert (Hkall : kall g P data (fun _ _ => 0) ks).
    { split; [exact Hkr|]. apply Forall_forall. intros p Hpin. apply in_map_iff in Hpin as (q & <- & Hq).
      destruct (Hall q Hq) as (_ & B & _ & _ & Ha). destruct B as (B1 & B2 & (T1 & T2 & T3 & T4)). split.
      - destruct (@proc_valid g P data HP Hdata HG Hnt (up_rank q) B1) as (V1 & V2 & V3 & V4).
        destruct (@build_workers_ok NumR _ _ V1 V2 V3 V4) as (ws' & Ew' & Hwok & _). rewrite B2 in Ew'. injection Ew' as <-.
        split; [exact B1|]. split; [exact Hwok|]. cbn [up_kp kp_cells kp_rank]. rewrite map_length. exact T3.
      - apply Hcis; [discriminate|exact Hq]. }
    assert (Hkok : Forall (kok g P data) ks) by (destruct Hkall as (_ & H); eapply Forall_impl; [|exact H]; cbn beta; intros p H'; apply H').
    assert (Lcc : length (concat (kcl ks)) = G) by (apply (@cc_len G P _ _ HP); apply (@kcl_len g P data); auto).
    destruct (@dkmspp_init_R g P data HP Hdata HG Hnt) with (zero := false) (sch := ksched) (ur := ur) (first := draw 0%nat) (qs := ks)
      as (ks' & F & trace & E & K1 & K2 & K3 & K4 & K5 & K6); auto; try (fold k; lia).
    { intros i p Hpin. apply in_map_iff in Hpin as (q & <- & Hq). destruct (Hall q Hq) as (_ & B & _). apply (Hsch i (up_rank q)); [apply B|apply B]. }
    { intros r e He.
      assert (Hr' : (r < G)%nat) by (rewrite <- Lcc; apply nth_error_Some; intro Hx; assert (Hy := eq_trans (eq_sym He) Hx); inversion Hy).
      destruct (row_owner HP Hr') as (rk & r0 & Hrk & Hlt0 & ->).
      destruct (nth_error ks rk) as [p|] eqn:Ep.
      2:{ apply nth_error_None in Ep. rewrite <- (map_length (@kp_rank NumR)), Hkr, seq_length in Ep. lia. }
      pose proof (eq_trans (eq_sym (@kcl_at g P data HP Hdata Hself Hpos ks rk p r0 Hkr Hkok Ep Hlt0)) He) as He2.
      unfold ks in Ep. rewrite nth_error_map in Ep. destruct (nth_error qs rk) as [q|] eqn:Eq; [|discriminate]. apply Some_inj in Ep. subst p.
      cbn [up_kp kp_cells] in He2. clear - He2. revert He2. generalize (s_asg (up_st q)). intros l.
      revert r0. induction l as [|x l IH]; intros [|r0] H; cbn [map nth_error] in H; [inversion H|inversion H| |apply (IH r0 H)].
      apply Some_inj in H. subst e. reflexivity. }
    fold k in E, K1, K3, K4, K5, K6. fold ch in E, K3, K4, K5.
    set (qs0 := map2 (@up_of_kp NumR) qs ks').
    assert (Hrel : Forall2 (fun (q : uproc NumR) p => ufresh centers PLUSPLUS (up_rank q) q /\ same (up_kp q) p) qs ks').
    { assert (Hg : forall l l', (forall q, In q l -> ufresh centers PLUSPLUS (up_rank q) q) -> Forall2 (@same) (map (@up_kp NumR) l) l' -> Forall2 (fun (q : uproc NumR) p => ufresh centers PLUSPLUS (up_rank q) q /\ same (up_kp q) p) l l').
      { clear. induction l as [|q l IH]; intros l' Hl H; inversion H; subst; constructor; [split; [apply Hl; left; reflexivity|assumption]|]. apply IH; auto. intros x Hx. apply Hl. right. exact Hx. }
      apply Hg; auto. }
    pose proof (@map2_fst_F2 _ _ _ _ (@up_of_kp NumR) _ _ Hrel) as Hrel2. fold qs0 in Hrel2.
    pose proof K1 as (Hkr' & Hk1). rewrite Forall_forall in Hk1.
    exists qs0. split; [exact Eqs|]. split; [fold ks; rewrite E; reflexivity|]. split.
    + unfold uranks. rewrite <- Hr. eapply Forall2_map_eq; [exact Hrel2|]. cbn beta. intros q q' (p & _ & _ & ->). reflexivity.
    + apply Forall_forall. intros q' Hq'. destruct (@Forall2_in_r _ _ _ _ _ _ Hrel2 Hq') as (q & Hq & (p & ((_ & B & _) & (S1 & S2)) & Hpin & ->)).
      destruct (Hk1 p Hpin) as ((C1 & C2 & C3) & Hc). split.
      * apply ubody_with_ca; [exact B|apply Hc|]. rewrite map_length. etransitivity; [exact C3|]. cbn [up_kp kp_rank] in S1. rewrite S1. reflexivity.
      * intros j Hj. change (up_cl (up_of_kp q p)) with (kp_cl p). cbn [start_centroid]. fold k. fold ch.
        assert (Hn : (nth j ch 0 < G)%nat) by (rewrite Forall_forall in K3; apply K3; apply nth_In; unfold ch; rewrite seeds_length; exact Hj).
        apply (@vec_ext d).
        -- eapply cis_row; eauto.
        -- apply (@row_length R data d _ G); auto.
        -- intros i Hi. destruct Hc as (_ & Hc). destruct (Hc j Hj) as (_ & _ & ->); [|exact Hi]. apply K4; [fold k; lia|exact Hi].
  - (* NONE *)
    exists qs. split; [exact Eqs|]. split; [reflexivity|]. split; [exact Hr|]. apply Forall_forall. intros q Hq.
    destruct (Hall q Hq) as (_ & B & Hm & _). split; [exact B|]. intros j Hj.
    pose proof B as (_ & _ & (Hs & _)). cbn [start_centroid]. unfold crow. destruct Hs as (S1 & S2 & S3). etransitivity; [exact (f_equal (fun l => row l (c_ncol (up_cl q)) j) Hm)|].
    fold (up_cl q) in S2. rewrite S2. change (g_ncol (proc_cfg g P (up_rank q))) with d. unfold initial_means. fold k d. destruct centers as [m|].
    + unfold row, slice. rewrite skipn_firstn_comm, firstn_firstn. f_equal. cbn in Hco. fold k d in Hco. nia.
    + unfold row. apply (@vec_ext d).
      * apply slice_length. rewrite repeat_length. nia.
      * apply vzero_length.
      * intros i Hi. rewrite nth_slice by exact Hi. etransitivity; [apply nth_repeat_d; nia|]. symmetry. apply nth_vzero.
Qed.
End I.
