(** kmeans++ seeding over MPI processes, in exact arithmetic. *)
From Coq Require Import Reals Lra.
From Verif Require Import Base Num Spec DistModel ClustersModel ClustersView PartitionModel ParModel KmeansModel PruneModel DistRunModel.
From Verif Require Import MatLemmas VecLemmas ClustersProofs DistProofs PartitionProofs ParProofs NearProofs KmeansProofs UpdateProofs RunProofs InitProofs SimProofs KmeansR PropertiesRun PropertiesRun KmsppR SpecKmspp.
From Verif Require Import ParRule DistMatProofs PruneProofs ClusterSums PruneRound PruneUpdate PruneRun PruneRun2 PropertiesPrune DistRunProofs DistRunProofs2 DistRunProofs3 ProcRows DistInitProofs DistRunProofs4 DistRunProofs5.
Set Implicit Arguments.
Local Open Scope R_scope.

Lemma Forall2_nth_r' {A B} (R : A -> B -> Prop) l l' i b : Forall2 R l l' -> nth_error l' i = Some b -> exists a, nth_error l i = Some a /\ R a b.
Proof.
  intros H. revert i. induction H as [|x y l l' Hxy H IH]; intros [|i] E; try discriminate.
  - injection E as <-. exists x. auto.
  - apply IH. exact E.
Qed.

Lemma Forall2_imp {A B} (R Q : A -> B -> Prop) l l' : (forall a b, R a b -> Q a b) -> Forall2 R l l' -> Forall2 Q l l'.
Proof. intros H HR. induction HR; constructor; auto. Qed.

Section DKpp.
Variables (g : kcfg NumR) (P : nat) (data : list (car NumR)).
Let d := g_ncol g.
Let k := g_k g.
Let G := g_nrow g.
Hypothesis HP : (1 <= P <= G)%nat.
Hypothesis Hdata : length data = (G * d)%nat.
Hypothesis HG : (Z.of_nat G < 2 ^ 31)%Z.
Hypothesis Hnt : (1 <= g_nthreads g < 2 ^ 32)%Z.
Let HG63 : (Z.of_nat G < 2 ^ 63)%Z.
Proof. lia. Qed.
Notation X r := (@row R data d r).
Notation dst := (rdist (g_dt g)).
Hypothesis Hself : forall r, (r < G)%nat -> dst (X r) (X r) = 0.
Hypothesis Hpos : forall r q, (r < G)%nat -> (q < G)%nat -> 0 <= dst (X r) (X q).
Notation cellK := (R * option nat)%type.
Notation kpr := (kproc NumR).

Definition kok (q : kpr) : Prop :=
  (kp_rank q < P)%nat /\ @wok NumR (proc_nrow G P (kp_rank q)) d (proc_data g P data (kp_rank q)) (kp_ws q) /\
  length (kp_cells q) = proc_nrow G P (kp_rank q).
Definition kranks (qs : list kpr) : Prop := map (@kp_rank NumR) qs = seq 0 P.
Definition kcis (q : kpr) (F : nat -> nat -> R) : Prop := cis k d (kp_cl q) F (fun _ => 0%Z) (fun _ => false).
(** all processes hold the centroids [F] *)
Definition kall (F : nat -> nat -> R) (qs : list kpr) : Prop := kranks qs /\ Forall (fun q => kok q /\ kcis q F) qs.
Definition kcl (qs : list kpr) : list (list cellK) := map (fun q => kp_cells q) qs.
(** [q'] belongs to the same process as [q] *)
Definition same (q q' : kpr) : Prop := kp_rank q' = kp_rank q /\ kp_ws q' = kp_ws q.

Lemma kranks_same qs qs' (Q : kpr -> kpr -> Prop) : (forall a b, Q a b -> same a b) -> kranks qs -> Forall2 Q qs qs' -> kranks qs'.
Proof. intros HQ Hr H. unfold kranks. rewrite <- Hr. eapply Forall2_map_eq; [exact H|]. intros a b Hab. apply (HQ a b Hab). Qed.

Lemma kranks_ne qs : kranks qs -> qs <> [].
Proof. intros H ->. unfold kranks in H. destruct P; [lia|discriminate]. Qed.
Lemma kranks_map qs {A} (f : nat -> A) : kranks qs -> map (fun q : kpr => f (kp_rank q)) qs = map f (seq 0 P).
Proof. intros H. unfold kranks in H. rewrite <- H, map_map. reflexivity. Qed.
Lemma krank_at qs rk q : kranks qs -> nth_error qs rk = Some q -> kp_rank q = rk.
Proof.
  intros Hr E. assert (E2 : nth_error (map (@kp_rank NumR) qs) rk = Some (kp_rank q)) by (rewrite nth_error_map, E; reflexivity).
  unfold kranks in Hr. rewrite Hr in E2. assert (Hrk : (rk < length (seq 0 P))%nat) by (apply nth_error_Some; congruence).
  rewrite (nth_error_nth' _ 0%nat Hrk) in E2. rewrite seq_length in Hrk. rewrite seq_nth in E2 by exact Hrk. cbn in E2. congruence.
Qed.

Lemma kcl_len qs : kranks qs -> Forall kok qs -> map (@length cellK) (kcl qs) = map (proc_nrow G P) (seq 0 P).
Proof.
  intros Hr Hb. unfold kcl. rewrite map_map. rewrite <- Hr, map_map. apply map_ext_in. intros q Hq. rewrite Forall_forall in Hb.
  destruct (Hb q Hq) as (_ & _ & L). exact L.
Qed.

(** the entry of global row off+r *)
Lemma kcl_at qs rk q r : kranks qs -> Forall kok qs -> nth_error qs rk = Some q -> (r < proc_nrow G P rk)%nat ->
  nth_error (concat (kcl qs)) (proc_off G P rk + r) = nth_error (kp_cells q) r.
Proof.
  intros Hr Hb E Hlt. pose proof (krank_at rk Hr E) as Erk. pose proof (kcl_len Hr Hb) as Hl.
  rewrite Forall_forall in Hb. destruct (Hb q (nth_error_In _ _ E)) as (B1 & _ & L). rewrite Erk in *.
  assert (Eg : nth_error (kcl qs) rk = Some (kp_cells q)) by (unfold kcl; rewrite nth_error_map, E; reflexivity).
  assert (L1 : (r < @length cellK (kp_cells q))%nat) by (eapply Nat.lt_le_trans; [exact Hlt|apply Nat.eq_le_incl; symmetry; exact L]).
  pose proof (proc_bound HP B1) as Hbd. pose proof (@cc_len G P _ (kcl qs) HP Hl) as Lc.
  assert (L2 : (proc_off G P rk + r < length (concat (kcl qs)))%nat) by (rewrite Lc; lia).
  rewrite (nth_error_nth' _ (0, None) L2). etransitivity; [|symmetry; exact (nth_error_nth' _ (0, None) L1)]. f_equal.
  apply (@cc_nth G P _ (kcl qs) HP Hl rk _ r (0, None) Eg L1).
Qed.

(* ------------------------------------------------------------------ *)
(** * Sharing the centroids *)
Lemma share_ok (Fr : nat -> nat -> nat -> R) (F : nat -> nat -> R) qs : kranks qs ->
  Forall (fun q => kok q /\ kcis q (Fr (kp_rank q))) qs ->
  (forall j i, (j < k)%nat -> (i < d)%nat -> rsum (map (fun rk => Fr rk j i) (seq 0 P)) = F j i) ->
  exists qs', kp_share qs = Ok qs' /\ kall F qs' /\ kcl qs' = kcl qs /\ Forall2 same qs qs'.
Proof.
  intros Hr Hall HF. unfold kp_share.
  pose proof (@red_cis kpr k d (@kp_cl NumR) (fun q => Fr (kp_rank q)) (fun q _ => 0%Z) qs (kranks_ne Hr)) as Hv.
  destruct Hv as (V1 & V2 & V3 & V4).
  { eapply Forall_impl; [|exact Hall]. cbn beta. intros q (_ & H). exists (fun _ => false). exact H. }
  set (means := allreduce (nadd NumR) (map (fun q => c_means (kp_cl q)) qs)). cbv zeta.
  change (allreduce Rplus (map (fun a : kpr => c_means (kp_cl a)) qs)) with means in V1, V3.
  set (Q := fun q q' : kpr => same q q' /\ kok q' /\ kcis q' F /\ kp_cells q' = kp_cells q).
  destruct (@mapM_total _ _ (fun q : kpr => let* c := set_mean_all (kp_cl q) (means, 0%nat) in Ok (kp_with q c (kp_cells q))) Q qs) as (qs' & E & H).
  { intros q Hq. rewrite Forall_forall in Hall. destruct (Hall q Hq) as (B & Hs & Hc). rewrite (@set_means_all k d _ _ Hs V1). cbn [bind].
    eexists. split; [reflexivity|]. unfold Q. split; [split; reflexivity|]. split; [exact B|]. split; [|reflexivity].
    split; [apply shaped_with_means; auto|]. intros j Hj. destruct (Hc j Hj) as (C1 & C2 & C3). split; [exact C1|]. split; [exact C2|].
    intros i Hi. etransitivity; [exact (nth_crow j (@shaped_with_means k d _ _ Hs V1) Hi)|]. cbn [kp_cl kp_with with_means c_means].
    etransitivity; [exact (V3 j i Hj Hi)|]. cbn beta. rewrite (kranks_map (fun rk => Fr rk j i) Hr). apply HF; auto. }
  exists qs'. split; [exact E|]. split; [|split].
  - split; [apply (@kranks_same qs qs' Q); auto; intros a b Hab; apply Hab|]. apply Forall_forall. intros q' Hq'.
    destruct (@Forall2_in_r _ _ _ _ _ _ H Hq') as (q & _ & (_ & Hk & Hc & _)). auto.
  - unfold kcl. eapply Forall2_map_eq; [exact H|]. intros a b Hab. apply Hab.
  - eapply Forall2_imp; [|exact H]. intros a b Hab. apply Hab.
Qed.

(* ------------------------------------------------------------------ *)
(** * Choosing a row *)
Definition setF (F : nat -> nat -> R) (a gid : nat) (j i : nat) : R := if (j =? a)%nat then nth i (X gid) 0 else F j i.

Lemma choose_ok gid a zero other F Fo q : (gid < G)%nat -> (a < k)%nat -> kok q -> kcis q F ->
  (same q (other q) /\ kok (other q) /\ kcis (other q) Fo /\ kp_cells (other q) = kp_cells q) ->
  exists q', kp_choose g P data gid a zero other q = Ok q' /\ same q q' /\ kok q' /\
    kcis q' (if own G P (kp_rank q) gid then setF F a gid else Fo) /\
    forall r, (r < proc_nrow G P (kp_rank q))%nat ->
      nth_error (kp_cells q') r = if (proc_off G P (kp_rank q) + r =? gid)%nat
        then option_map (fun e : cellK => (if zero then 0 else fst e, Some a)) (nth_error (kp_cells q) r) else nth_error (kp_cells q) r.
Proof.
  intros Hg Ha (B1 & B2 & B3) Hc (O1 & O2 & O3 & O4). unfold kp_choose. fold G. rewrite (own_local HP HG63) by auto.
  destruct (own G P (kp_rank q) gid) eqn:Eo.
  - destruct (own_rid HP HG63 B1 Hg Eo) as (l & -> & Hl & Ho). cbn [bind].
    destruct (@proc_thd_row g P data HP Hdata HG Hnt (kp_rank q) (Z.to_nat l) B1 Hl) as (p & -> & Hp). cbn [bind]. fold G in Hp. rewrite Ho in Hp.
    pose proof Hc as (Hs & Hc').
    assert (Lx : @length R (X gid) = d) by (apply (@row_length R data d gid G); auto).
    destruct (@set_mean_at_ok NumR k d (kp_cl q) p (X gid) a Hs Ha Lx Hp) as (c2 & -> & Hs2 & Hc2). cbn [bind].
    destruct (amod (kp_cells q) (Z.to_nat l) (fun e => (if zero then nzero NumR else fst e, Some a))) as [cells|e] eqn:EK.
    2:{ destruct (nth_error (kp_cells q) (Z.to_nat l)) as [y|] eqn:Ey; [|apply nth_error_None in Ey; lia]. rewrite (amod_ok _ _ _ Ey) in EK. discriminate. }
    cbn [bind]. eexists. split; [reflexivity|]. split; [split; reflexivity|]. split.
    { unfold kok. cbn [kp_with kp_rank kp_ws kp_cells]. splits; auto. apply amod_inv in EK as (y & _ & ->). rewrite upd_length. exact B3. }
    split.
    + split; [exact Hs2|]. intros j Hj. specialize (Hc2 j Hj). destruct (Hc' j Hj) as (A1 & A2 & A3). unfold cel in Hc2.
      cbn [kp_with kp_cl]. unfold setF. destruct (Nat.eqb_spec j a) as [Ejm|Hne]; injection Hc2 as E1 E2 E3; rewrite E1, E2, E3; [subst j|]; splits; auto.
    + intros r Hr. cbn [kp_with kp_cells]. etransitivity; [exact (@nth_error_amod _ _ _ _ _ r EK)|].
      destruct (Nat.eqb_spec r (Z.to_nat l)) as [Er|Hne], (Nat.eqb_spec (proc_off G P (kp_rank q) + r) gid) as [He|He']; try reflexivity; lia.
  - exists (other q). split; [reflexivity|]. splits; auto. intros r Hr. rewrite O4.
    destruct (Nat.eqb_spec (proc_off G P (kp_rank q) + r) gid) as [He|He]; [|reflexivity].
    unfold own in Eo. apply Bool.andb_false_iff in Eo. rewrite Nat.leb_gt, Nat.ltb_ge in Eo. lia.
Qed.

(** ... on all processes *)
Lemma choose_all gid a zero other F Fo qs : (gid < G)%nat -> (a < k)%nat -> kall F qs ->
  (forall q, kok q -> kcis q F -> same q (other q) /\ kok (other q) /\ kcis (other q) Fo /\ kp_cells (other q) = kp_cells q) ->
  exists qs', mapM (kp_choose g P data gid a zero other) qs = Ok qs' /\ kranks qs' /\
    Forall (fun q => kok q /\ kcis q (if own G P (kp_rank q) gid then setF F a gid else Fo)) qs' /\ Forall2 same qs qs' /\
    forall x, (x < G)%nat -> nth_error (concat (kcl qs')) x =
      if (x =? gid)%nat then option_map (fun e : cellK => (if zero then 0 else fst e, Some a)) (nth_error (concat (kcl qs)) x) else nth_error (concat (kcl qs)) x.
Proof.
  intros Hg Ha (Hr & Hall) Hot.
  set (Q := fun q q' : kpr => same q q' /\ kok q /\ kok q' /\ kcis q' (if own G P (kp_rank q) gid then setF F a gid else Fo) /\
    forall r, (r < proc_nrow G P (kp_rank q))%nat ->
      nth_error (kp_cells q') r = if (proc_off G P (kp_rank q) + r =? gid)%nat
        then option_map (fun e : cellK => (if zero then 0 else fst e, Some a)) (nth_error (kp_cells q) r) else nth_error (kp_cells q) r).
  destruct (@mapM_total _ _ (kp_choose g P data gid a zero other) Q qs) as (qs' & E & H).
  { intros q Hq. rewrite Forall_forall in Hall. destruct (Hall q Hq) as (B & Hc).
    destruct (@choose_ok gid a zero other F Fo q Hg Ha B Hc (Hot q B Hc)) as (q' & E & H1 & H2 & H3 & H4). exists q'. split; [exact E|]. unfold Q. splits; auto; apply H1. }
  assert (Hr' : kranks qs') by (apply (@kranks_same qs qs' Q); auto; intros u v Huv; apply Huv).
  assert (Hk : Forall kok qs) by (eapply Forall_impl; [|exact Hall]; cbn beta; intros q Hq; apply Hq).
  assert (Hk' : Forall kok qs') by (apply Forall_forall; intros q' Hq'; destruct (@Forall2_in_r _ _ _ _ _ _ H Hq') as (q & _ & Hq); apply Hq).
  exists qs'. split; [exact E|]. split; [exact Hr'|]. split; [|split].
  - apply Forall_forall. intros q' Hq'. destruct (@Forall2_in_r _ _ _ _ _ _ H Hq') as (q & _ & ((S1 & _) & _ & H1 & H2 & _)). split; [exact H1|]. rewrite S1. exact H2.
  - eapply Forall2_imp; [|exact H]. intros u v Huv. apply Huv.
  - intros x Hx. destruct (row_owner HP Hx) as (rk & r & Hrk & Hlt & ->).
    destruct (nth_error qs' rk) as [q'|] eqn:Eq'.
    2:{ apply nth_error_None in Eq'. rewrite <- (map_length (@kp_rank NumR)), Hr', seq_length in Eq'. lia. }
    assert (Hq : exists q, nth_error qs rk = Some q /\ Q q q').
    { clear - H Eq'. revert rk Eq'. induction H as [|x y l l' Hxy H IH]; intros [|rk] E; try discriminate; [injection E as <-; exists x; auto|]. apply IH. exact E. }
    destruct Hq as (q & Eq & (_ & _ & _ & _ & Hcell)). pose proof (krank_at rk Hr Eq) as Erk.
    rewrite (@kcl_at qs' rk q' r Hr' Hk' Eq' Hlt), !(@kcl_at qs rk q r Hr Hk Eq Hlt). rewrite Erk in Hcell. apply Hcell. exact Hlt.
Qed.

(* ------------------------------------------------------------------ *)
(** * One round of distances *)
Definition roundF (ci : nat) (q : kpr) : list cellK := @kcells NumR (proc_cfg g P (kp_rank q)) (proc_data g P data (kp_rank q)) ci (crow (kp_cl q) ci) (kp_cells q).

Lemma round_ok ci sched q F : (ci < k)%nat -> kok q -> kcis q F -> complete (w_ranges (kp_ws q)) (sched (kp_rank q)) ->
  kp_round g P ci sched q = Ok (kp_with q (kp_cl q) (roundF ci q), rsum (map fst (roundF ci q))).
Proof.
  intros Hci (B1 & B2 & B3) (Hs & _) Hsch. unfold kp_round.
  pose proof (@proc_valid g P data HP Hdata HG Hnt (kp_rank q) B1) as V.
  rewrite (@kmspp_round_ok NumR (proc_cfg g P (kp_rank q)) (proc_data g P data (kp_rank q)) V (kp_ws q) (kp_cl q) ci (sched (kp_rank q)) (kp_cells q) B2 Hs Hci B3 Hsch).
  cbn [bind fst snd]. fold (roundF ci q). f_equal. f_equal.
  assert (LK : length (roundF ci q) = proc_nrow G P (kp_rank q)) by (apply (@kcells_length NumR (proc_cfg g P (kp_rank q)) (proc_data g P data (kp_rank q)) ci (crow (kp_cl q) ci) (kp_cells q) B3)).
  destruct B2 as (Wt & _). apply (@wsums_total (roundF ci q) _ (kp_ws q) Wt LK).
Qed.

Lemma cis_X (c : clusters NumR) F j : cis k d c F (fun _ => 0%Z) (fun _ => false) -> (j < k)%nat -> forall x, (x < G)%nat -> (forall i, (i < d)%nat -> F j i = nth i (X x) 0) -> crow c j = X x.
Proof.
  intros H Hj x Hx HF. apply (@vec_ext d).
  - eapply cis_row; eauto.
  - apply (@row_length R data d x G); auto.
  - intros i Hi. destruct H as (_ & H). destruct (H j Hj) as (_ & _ & ->); auto.
Qed.

Lemma rounds_ok ci sched qs F x0 : (ci < k)%nat -> kall F qs -> (x0 < G)%nat -> (forall i, (i < d)%nat -> F ci i = nth i (X x0) 0) ->
  (forall q, In q qs -> complete (w_ranges (kp_ws q)) (sched (kp_rank q))) ->
  exists rs, mapM (kp_round g P ci sched) qs = Ok rs /\ kall F (map fst rs) /\ Forall2 same qs (map fst rs) /\
    concat (kcl (map fst rs)) = @kcells NumR g data ci (X x0) (concat (kcl qs)) /\
    map snd rs = map (fun l : list cellK => rsum (map fst l)) (kcl (map fst rs)).
Proof.
  intros Hci (Hr & Hall) Hx0 HF Hsch.
  set (Q := fun (q : kpr) (qr : kpr * R) => kok q /\ kcis q F /\ qr = (kp_with q (kp_cl q) (roundF ci q), rsum (map fst (roundF ci q)))).
  destruct (@mapM_total _ _ (kp_round g P ci sched) Q qs) as (rs & E & H).
  { intros q Hq. rewrite Forall_forall in Hall. destruct (Hall q Hq) as (B & Hc). eexists. split; [exact (@round_ok ci sched q F Hci B Hc (Hsch q Hq))|]. split; [exact B|split; [exact Hc|reflexivity]]. }
  assert (Hk : Forall kok qs) by (eapply Forall_impl; [|exact Hall]; cbn beta; intros q Hq; apply Hq).
  assert (Lk : forall q, kok q -> length (roundF ci q) = proc_nrow G P (kp_rank q)).
  { intros q (_ & _ & B3). apply (@kcells_length NumR (proc_cfg g P (kp_rank q)) (proc_data g P data (kp_rank q)) ci (crow (kp_cl q) ci) (kp_cells q) B3). }
  assert (Hs : Forall2 (fun q q' => kok q /\ kcis q F /\ q' = kp_with q (kp_cl q) (roundF ci q)) qs (map fst rs)).
  { clear - H. induction H as [|q qr qs rs (H1 & H2 & H3) H IH]; cbn [map]; constructor; auto. rewrite H3. auto. }
  assert (Hall' : kall F (map fst rs)).
  { split.
    - apply (@kranks_same qs (map fst rs) (fun q q' => kok q /\ kcis q F /\ q' = kp_with q (kp_cl q) (roundF ci q))); auto. intros a b (_ & _ & ->). split; reflexivity.
    - apply Forall_forall. intros q' Hq'. destruct (@Forall2_in_r _ _ _ _ _ _ Hs Hq') as (q & _ & (B & Hc & ->)). split; [|exact Hc].
      pose proof (Lk q B) as L. destruct B as (B1 & B2 & B3). split; [exact B1|]. split; [exact B2|exact L]. }
  exists rs. split; [exact E|]. split; [exact Hall'|]. split; [|split].
  - eapply Forall2_imp; [|exact Hs]. intros a b (_ & _ & ->). split; reflexivity.
  - pose proof Hall' as (Hr' & Hk'). assert (Hk2 : Forall kok (map fst rs)) by (eapply Forall_impl; [|exact Hk']; cbn beta; intros q Hq; apply Hq).
    pose proof (@cc_len G P _ _ HP (kcl_len Hr Hk)) as L. pose proof (@cc_len G P _ _ HP (kcl_len Hr' Hk2)) as L'.
    apply nth_error_ext. intros x. etransitivity; [|symmetry; exact (@nth_error_kcells NumR g data ci (X x0) (concat (kcl qs)) x L)].
    destruct (Nat.lt_ge_cases x G) as [Hx|Hx].
    2:{ transitivity (@None cellK); [apply nth_error_None; rewrite L'; exact Hx|].
        assert (En : @nth_error cellK (concat (kcl qs)) x = None) by (apply nth_error_None; rewrite L; exact Hx).
        symmetry. exact (f_equal (option_map _) En). }
    destruct (row_owner HP Hx) as (rk & r & Hrk & Hlt & ->).
    destruct (nth_error (map fst rs) rk) as [q'|] eqn:Eq'.
    2:{ apply nth_error_None in Eq'. rewrite <- (map_length (@kp_rank NumR)), Hr', seq_length in Eq'. lia. }
    destruct (@Forall2_nth_r' _ _ _ _ _ rk q' Hs Eq') as (q & Eq & (B & Hc & Eqq)). pose proof (krank_at rk Hr Eq) as Erk.
    etransitivity; [exact (@kcl_at _ rk q' r Hr' Hk2 Eq' Hlt)|]. rewrite Eqq. cbn [kp_with kp_cells]. unfold roundF.
    destruct B as (B1 & B2 & B3).
    etransitivity; [exact (@nth_error_kcells NumR (proc_cfg g P (kp_rank q)) (proc_data g P data (kp_rank q)) ci (crow (kp_cl q) ci) (kp_cells q) r B3)|].
    rewrite (cis_X Hc Hci Hx0 HF). cbn [proc_cfg g_ncol]. fold d.
    assert (Er : row (proc_data g P data (kp_rank q)) d r = X (proc_off G P rk + r)) by (rewrite Erk; exact (@proc_row NumR g P data HP Hdata rk r Hrk Hlt)).
    rewrite Er. match goal with |- _ = option_map _ ?b => replace b with (nth_error (kp_cells q) r) by (symmetry; exact (@kcl_at qs rk q r Hr Hk Eq Hlt)) end. reflexivity.
  - clear - H. unfold kcl. induction H as [|q qr qs rs (_ & _ & H1) H IH]; [reflexivity|]. cbn [map]. rewrite IH, H1. reflexivity.
Qed.

(* ------------------------------------------------------------------ *)
(** * Gathering the distances *)
Lemma mapM_app_ok {A B} (f : A -> res B) l l' m m' : mapM f l = Ok m -> mapM f l' = Ok m' -> mapM f (l ++ l') = Ok (m ++ m').
Proof.
  clear. revert m. induction l as [|a l IH]; intros m H H'; cbn [mapM app] in *; [injection H as <-; exact H'|].
  apply bind_ok in H as (b & -> & H). apply bind_ok in H as (m0 & E & H). injection H as <-. cbn [bind]. rewrite (IH m0 E H'). reflexivity.
Qed.
Lemma mapM_aget_slice {A} (l : list A) s m : (s + m <= length l)%nat -> mapM (fun i => aget l i) (seq s m) = Ok (slice l s m).
Proof.
  clear. revert s. induction m as [|m IH]; intros s H; [reflexivity|]. cbn [seq mapM].
  destruct (nth_error l s) as [x|] eqn:E; [|apply nth_error_None in E; lia].
  rewrite (proj2 (aget_ok _ _ _) E). cbn [bind]. rewrite (IH (S s)) by lia. cbn [bind]. rewrite (@slice_S _ _ _ _ _ E). reflexivity.
Qed.

Lemma slice_0_all {A} (l : list A) n : length l = n -> slice l 0 n = l.
Proof. clear. intros <-. apply slice_all. Qed.
Lemma slice_split {A} (l : list A) n m : length l = (n + m)%nat -> slice l 0 n ++ slice l n m = l.
Proof.
  clear. intros H. unfold slice. cbn [skipn]. rewrite <- (firstn_skipn n l) at 3. f_equal. apply firstn_all2. rewrite skipn_length. lia.
Qed.

Lemma gather_dist_ok qs : kranks qs -> Forall kok qs -> kp_gather g P qs = Ok (map fst (concat (kcl qs))).
Proof.
  intros Hr Hk. unfold kp_gather. fold G. cbv zeta.
  assert (Lq : length qs = P) by (rewrite <- (map_length (@kp_rank NumR)), Hr, seq_length; reflexivity).
  destruct (@exists_last _ qs (kranks_ne Hr)) as (ini & (lst & Eqs)).
  assert (Li : length ini = (P - 1)%nat) by (rewrite Eqs, app_length in Lq; cbn in Lq; lia).
  assert (El : nth_error qs (P - 1) = Some lst) by (rewrite Eqs, nth_error_app2, Li, Nat.sub_diag by lia; reflexivity).
  assert (Dl : forall q, In q qs -> length (map fst (kp_cells q)) = if (S (kp_rank q) =? P)%nat then (G / P + G mod P)%nat else (G / P)%nat).
  { intros q Hq. rewrite Forall_forall in Hk. destruct (Hk q Hq) as (B1 & _ & L). rewrite map_length.
    etransitivity; [exact L|]. apply proc_nrow_val; auto. }
  assert (Di : forall q, In q ini -> length (map fst (kp_cells q)) = (G / P)%nat).
  { intros q Hq. apply In_nth_error in Hq as (rk & E). assert (rk < length ini)%nat by (apply nth_error_Some; congruence).
    assert (E2 : nth_error qs rk = Some q) by (rewrite Eqs, nth_error_app1 by lia; exact E). pose proof (krank_at rk Hr E2) as Er.
    rewrite (Dl q (nth_error_In _ _ E2)), Er. destruct (Nat.eqb_spec (S rk) P); [lia|reflexivity]. }
  assert (Dt : length (map fst (kp_cells lst)) = (G / P + G mod P)%nat).
  { pose proof (krank_at (P - 1) Hr El) as Er. rewrite (Dl lst (nth_error_In _ _ El)), Er. destruct (Nat.eqb_spec (S (P - 1)) P); [reflexivity|lia]. }
  set (f := fun q : kpr => mapM (fun i => aget (map fst (kp_cells q)) i) (seq 0 (G / P))).
  assert (E1 : mapM f ini = Ok (map (fun q => map fst (kp_cells q)) ini)).
  { clear - Di. induction ini as [|q ini IH]; [reflexivity|]. cbn [mapM map].
    assert (Ef : f q = Ok (map fst (kp_cells q))).
    { unfold f. rewrite mapM_aget_slice by (rewrite (Di q (or_introl eq_refl)); lia). rewrite slice_0_all; [reflexivity|]. apply Di. left. reflexivity. }
    rewrite Ef. cbn [bind]. rewrite IH by (intros x Hx; apply Di; right; exact Hx). reflexivity. }
  assert (E2 : mapM f [lst] = Ok [slice (map fst (kp_cells lst)) 0 (G / P)]).
  { cbn [mapM]. unfold f. rewrite mapM_aget_slice by (rewrite Dt; lia). reflexivity. }
  assert (E3 : mapM f qs = Ok (map (fun q => map fst (kp_cells q)) ini ++ [slice (map fst (kp_cells lst)) 0 (G / P)])) by (rewrite Eqs; apply mapM_app_ok; auto).
  fold f. rewrite E3. cbn [bind].
  assert (E4 : (if (G mod P =? 0)%nat then Ok [] else let* q := aget qs (P - 1) in mapM (fun i => aget (map fst (kp_cells q)) i) (seq (G / P) (G mod P))) =
    Ok (slice (map fst (kp_cells lst)) (G / P) (G mod P))).
  { destruct (Nat.eqb_spec (G mod P) 0) as [E0|E0]; [rewrite E0; reflexivity|]. rewrite (proj2 (aget_ok _ _ _) El). cbn [bind]. apply mapM_aget_slice. rewrite Dt. lia. }
  rewrite E4. cbn [bind]. f_equal. rewrite concat_app, <- app_assoc. cbn [concat]. rewrite app_nil_r, slice_split by exact Dt.
  rewrite Eqs. unfold kcl. rewrite map_app, concat_app, map_app. cbn [map concat]. rewrite app_nil_r. f_equal.
  rewrite concat_map, map_map. reflexivity.
Qed.

Lemma rsum_kcl qs : match map (fun l : list cellK => rsum (map fst l)) (kcl qs) with [] => 0 | x :: l => fold_left Rplus l x end = rsum (map fst (concat (kcl qs))).
Proof.
  clear. destruct (kcl qs) as [|l ls]; [reflexivity|]. cbn [map concat]. rewrite map_app, rsum_app.
  generalize (rsum (map fst l)) as a. clear l. induction ls as [|l ls IH]; intros a; cbn [map fold_left concat]; [cbn [rsum]; lra|].
  rewrite IH, map_app, rsum_app. lra.
Qed.

Lemma kcis_clear q F : kcis q F -> kcis (kp_with q (clear (kp_cl q)) (kp_cells q)) (fun _ _ => 0).
Proof. intros (Hs & _). unfold kcis. cbn [kp_with kp_cl]. rewrite (clear_create Hs). apply cis_create. Qed.

(* ------------------------------------------------------------------ *)
(** * The loop *)
Definition rowsF (ch : list nat) (ci : nat) (F : nat -> nat -> R) : Prop :=
  forall j i, (j <= ci)%nat -> (i < d)%nat -> F j i = nth i (X (nth j ch 0%nat)) 0.

Lemma dkmspp_loop_R zero sch ur :
  (forall i, 0 <= ur i <= 1) ->
  forall m ci qs F trace ch q, (m + ci = k)%nat -> (ci < k)%nat -> kall F qs ->
  (forall i p, In p qs -> complete (w_ranges (kp_ws p)) (sch i (kp_rank p))) ->
  length ch = ci -> length trace = ci -> Forall (fun r => (r < G)%nat) (ch ++ [q]) -> rowsF (ch ++ [q]) ci F ->
  (forall r e, nth_error (concat (kcl qs)) r = Some e -> pre g data ch q r e) ->
  trace_ok g data (ch ++ [q]) trace -> picks_ok ur (ch ++ [q]) trace ->
  exists qs' F' trace' chosen, dkmspp_loop g P data zero sch ur m ci qs trace (ch ++ [q]) = Ok (qs', trace', chosen) /\
    kall F' qs' /\ Forall2 same qs qs' /\ length chosen = k /\ length trace' = k /\ Forall (fun r => (r < G)%nat) chosen /\
    (exists more, chosen = (ch ++ [q]) ++ more) /\ rowsF chosen (k - 1) F' /\
    (forall r e, nth_error (concat (kcl qs')) r = Some e -> mindist g data chosen r (fst e) /\ minid g data chosen r (fst e) (snd e)) /\
    trace_ok g data chosen trace' /\ picks_ok ur chosen trace'.
Proof.
  intros Hur. induction m as [|m IH]; intros ci qs F trace ch q Hm Hci Hall Hsch Lch Lt Hch Hrows Hpre Htr Hpk; [lia|].
  cbn [dkmspp_loop].
  assert (Hq : (q < G)%nat) by (rewrite Forall_forall in Hch; apply Hch; apply in_or_app; right; left; reflexivity).
  assert (HFci : forall i, (i < d)%nat -> F ci i = nth i (X q) 0).
  { intros i Hi. rewrite (Hrows ci i (le_n _) Hi). rewrite app_nth2, Lch, Nat.sub_diag by lia. reflexivity. }
  destruct (@rounds_ok ci (sch ci) qs F q Hci Hall Hq HFci (Hsch ci)) as (rs & Ers & Hall1 & Hs1 & Ecells & Esum).
  match goal with |- context [Base.bind ?t _] => replace t with (Ok rs : res (list (kpr * car NumR))) by (symmetry; exact Ers) end. cbn [Base.bind].
  set (qs1 := map fst rs) in *.
  assert (Esum' : (match map snd rs with [] => nzero NumR | x :: l => fold_left (nadd NumR) l x end) = rsum (map fst (concat (kcl qs1)))).
  { etransitivity; [|exact (rsum_kcl qs1)]. rewrite <- Esum. reflexivity. }
  rewrite Esum'. clear Esum'.
  assert (Etr : concat (map (fun p : kpr => map fst (kp_cells p)) qs1) = map fst (concat (kcl qs1))).
  { unfold kcl. rewrite concat_map, map_map. reflexivity. }
  rewrite Etr. clear Etr.
  set (K := concat (kcl qs1)) in *.
  pose proof Hall as (Hr & Hk). assert (Hkk : Forall kok qs) by (eapply Forall_impl; [|exact Hk]; cbn beta; intros p Hp; apply Hp).
  pose proof Hall1 as (Hr1 & Hk1). assert (Hkk1 : Forall kok qs1) by (eapply Forall_impl; [|exact Hk1]; cbn beta; intros p Hp; apply Hp).
  pose proof (@cc_len G P _ _ HP (kcl_len Hr Hkk)) as L. pose proof (@cc_len G P _ _ HP (kcl_len Hr1 Hkk1)) as LK. fold K in LK.
  assert (HK : forall r e, nth_error K r = Some e -> mindist g data (ch ++ [q]) r (fst e) /\ minid g data (ch ++ [q]) r (fst e) (snd e)).
  { intros r e He. rewrite Ecells in He.
    pose proof (eq_trans (eq_sym (@nth_error_kcells NumR g data ci (X q) (concat (kcl qs)) r L)) He) as He2. clear He. rename He2 into He.
    change (option_map (upd_cell g ci (X q) (X r)) (@nth_error cellK (concat (kcl qs)) r) = Some e) in He.
    destruct (@nth_error cellK (concat (kcl qs)) r) as [e0|] eqn:E0; [|discriminate]. apply Some_inj in He. subst e.
    rewrite <- Lch. apply (@pre_step g data Hself Hpos ch q r e0); auto. change (r < G)%nat. rewrite <- L. apply nth_error_Some. rewrite E0. discriminate. }
  assert (Hdv : forall r v, nth_error (map fst K) r = Some v -> mindist g data (ch ++ [q]) r v).
  { intros r v Hv. rewrite nth_error_map in Hv. destruct (nth_error K r) as [e|] eqn:Ee; [|discriminate]. injection Hv as <-. apply (HK r e Ee). }
  assert (Lcq : length (ch ++ [q]) = S ci) by (rewrite app_length; simpl; lia).
  assert (Htr' : forall more, trace_ok g data ((ch ++ [q]) ++ more) (trace ++ [map fst K])).
  { intros more i dv Hi. destruct (Nat.lt_ge_cases i ci) as [Hlt|Hge].
    - rewrite nth_error_app1 in Hi by lia. rewrite firstn_app, Lcq. replace (S i - S ci)%nat with 0%nat by lia. cbn [firstn]. rewrite app_nil_r.
      apply Htr. exact Hi.
    - rewrite nth_error_app2 in Hi by lia. rewrite Lt in Hi. destruct (i - ci)%nat as [|z] eqn:Ez; [|destruct z; discriminate].
      injection Hi as <-. split; [rewrite map_length; exact LK|]. replace (S i) with (length (ch ++ [q])) by lia.
      rewrite firstn_app, Nat.sub_diag, firstn_all. cbn [firstn]. rewrite app_nil_r. exact Hdv. }
  fold k. destruct (Nat.leb_spec k (S ci)) as [Hk'|Hk'].
  - assert (Ek : k = S ci) by lia. exists qs1, F, (trace ++ [map fst K]), (ch ++ [q]).
    specialize (Htr' []). rewrite app_nil_r in Htr'. splits; auto; try lia.
    + rewrite app_length, Lt. cbn [length]. lia.
    + exists []. rewrite app_nil_r. reflexivity.
    + intros j i Hj Hi. apply Hrows; [lia|exact Hi].
    + intros i dv q' Hi Hq'. assert (S i < S ci)%nat by (rewrite <- Lcq; apply nth_error_Some; congruence).
      rewrite nth_error_app1 in Hi by lia. apply (Hpk i dv q' Hi Hq').
  - match goal with |- context [Base.bind (kp_gather g P qs1) _] => replace (kp_gather g P qs1) with (Ok (map fst K) : res (list (car NumR))) by (symmetry; exact (gather_dist_ok Hr1 Hkk1)) end.
    cbn [Base.bind]. cbn [nmul ndiv nsub nofZ none NumR].
    set (tgt := rsum (map fst K) * ur ci / (IZR RAND_MAX - 1)).
    pose proof RM1 as HM.
    assert (Hpos' : 0 <= rsum (map fst K)).
    { apply rsum_nonneg. intros x Hx. apply In_nth_error in Hx as (r & Hr'). destruct (Hdv r x Hr') as (_ & _ & H & _). exact H. }
    assert (Htg : tgt <= rsum (map fst K)).
    { unfold tgt. specialize (Hur ci). apply Rmult_le_reg_r with (IZR RAND_MAX - 1); [lra|].
      unfold Rdiv. rewrite Rmult_assoc, Rinv_l by lra. nra. }
    assert (Hne : map fst K <> []).
    { intros E. pose proof (map_length fst K) as Q. rewrite E in Q. cbn [length] in Q. rewrite LK in Q. clear - HP Q. lia. }
    destruct (@pick_R (map fst K) 0 tgt Hne Htg) as (r & Er & Hrl & Hr1' & Hr2).
    match goal with |- context [kmspp_pick NumR ?a 0%nat ?b] => replace (kmspp_pick NumR a 0%nat b) with (Some (0 + r)%nat, tgt - rsum (firstn (S r) (map fst K))) by (symmetry; exact Er) end.
    rewrite Nat.add_0_l. rewrite map_length in Hrl.
    assert (Hrn : (r < G)%nat) by (rewrite <- LK; exact Hrl).
    destruct (@choose_all r (S ci) zero (fun q => kp_with q (clear (kp_cl q)) (kp_cells q)) F (fun _ _ => 0) qs1 Hrn Hk' Hall1) as (qs2 & E2 & Hr2' & Hk2 & Hs2 & Hcells2).
    { intros p Bp Hp. split; [split; reflexivity|]. split; [exact Bp|]. split; [apply (kcis_clear Hp)|reflexivity]. }
    rewrite E2. cbn [Base.bind].
    destruct (@share_ok (fun rk => if own G P rk r then setF F (S ci) r else fun _ _ => 0) (setF F (S ci) r) qs2 Hr2' Hk2) as (qs3 & E3 & Hall3 & Ec3 & Hs3).
    { intros j i Hj Hi. rewrite <- (own_rsum HP (setF F (S ci) r j i) Hrn). f_equal. apply map_ext. intros rk. destruct (own G P rk r); reflexivity. }
    rewrite E3. cbn [Base.bind]. cbn [nleb nzero NumR].
    assert (Hneg : Rleb (tgt - rsum (firstn (S r) (map fst K))) 0 = true) by (apply Rleb_true; apply Rle_minus; exact Hr1').
    match goal with |- context [assert_ ?b] => replace b with true by (symmetry; exact Hneg) end. cbn [assert_ Base.bind].
    assert (Hsame : Forall2 same qs qs3).
    { clear - Hs1 Hs2 Hs3. revert qs2 qs3 Hs2 Hs3. generalize qs1 as l1, Hs1. clear. intros l1 H1. induction H1 as [|a b l l' Hab H IH]; intros l2 l3 H2 H3.
      - inversion H2; subst. inversion H3; subst. constructor.
      - inversion H2 as [|? c ? l2' Hbc H2']; subst. inversion H3 as [|? e ? l3' Hce H3']; subst. constructor; [|eapply IH; eauto].
        destruct Hab as (A1 & A2). destruct Hbc as (B1 & B2). destruct Hce as (C1 & C2). split; congruence. }
    destruct (IH (S ci) qs3 (setF F (S ci) r) (trace ++ [map fst K]) (ch ++ [q]) r) as (qs' & F' & trace' & chosen & E & R1 & R2 & R3 & R4 & R5 & R6 & R7 & R8 & R9 & R10); auto; try lia.
    + intros i p Hp. destruct (@Forall2_in_r _ _ _ _ _ _ Hsame Hp) as (p0 & Hp0 & (A1 & A2)). rewrite A1, A2. apply Hsch. exact Hp0.
    + rewrite app_length. simpl. lia.
    + apply Forall_app. split; [exact Hch|]. constructor; [exact Hrn|constructor].
    + intros j i Hj Hi. unfold setF. destruct (Nat.eqb_spec j (S ci)) as [Ej|Hne'].
      * rewrite Ej, app_nth2 by lia. rewrite Lcq, Nat.sub_diag. reflexivity.
      * rewrite app_nth1 by lia. apply Hrows; [lia|exact Hi].
    + intros r' e' He'. rewrite Ec3 in He'.
      assert (Hr' : (r' < G)%nat).
      { pose proof (@cc_len G P _ _ HP (kcl_len Hr2' (@Forall_impl _ _ _ (fun p (Hp : kok p /\ _) => proj1 Hp) _ Hk2))) as L2. rewrite <- L2. apply nth_error_Some. rewrite He'. discriminate. }
      rewrite (Hcells2 r' Hr') in He'. fold K in He'. destruct (Nat.eqb_spec r' r) as [->|Hne'].
      * destruct (nth_error K r) as [e|] eqn:Ee; [|discriminate]. cbn [option_map] in He'. apply Some_inj in He'. subst e'. right. cbn [fst snd].
        destruct (HK r e Ee) as ((H1 & H2 & H3 & _) & _). rewrite Lcq. pose proof MAX_pos as HMX. destruct zero.
        -- splits; auto; try lra. intros q' Hq'. apply Hpos; auto. rewrite Forall_forall in Hch. apply Hch. exact Hq'.
        -- splits; auto.
      * left. apply HK. exact He'.
    + intros i dv q' Hi Hq'. cbv zeta. destruct (Nat.lt_ge_cases (S i) (S ci)) as [Hlt|Hge].
      * rewrite nth_error_app1 in Hi by lia. rewrite nth_error_app1 in Hq' by lia. exact (Hpk i dv q' Hi Hq').
      * assert (i = ci).
        { assert (S i < length ((ch ++ [q]) ++ [r]))%nat by (apply nth_error_Some; congruence). rewrite app_length, Lcq in H. simpl in H. lia. }
        subst i. rewrite nth_error_app2 in Hi by lia. rewrite Lt, Nat.sub_diag in Hi. injection Hi as <-.
        rewrite nth_error_app2 in Hq' by lia. rewrite Lcq, Nat.sub_diag in Hq'. injection Hq' as <-.
        fold tgt. auto.
    + exists qs', F', trace', chosen. splits; auto.
      * clear - Hsame R2. revert qs' R2. induction Hsame as [|a b l l' Hab H IH]; intros l2 H2; inversion H2; subst; constructor; auto.
        destruct Hab as (A1 & A2). destruct H3 as (B1 & B2). split; congruence.
      * destruct R6 as (more & ->). exists ([r] ++ more). rewrite <- !app_assoc. reflexivity.
Qed.

(** seeding from fresh entries: the rows chosen are the specified ones, every
    process gets those rows as centroids, and every row its distance to the
    closest of them *)
Lemma dkmspp_init_R zero sch ur first qs :
  (forall i, 0 <= ur i <= 1) -> (first < G)%nat -> (1 <= k)%nat -> kall (fun _ _ => 0) qs ->
  (forall i p, In p qs -> complete (w_ranges (kp_ws p)) (sch i (kp_rank p))) ->
  (forall r e, nth_error (concat (kcl qs)) r = Some e -> fst e = MAX) ->
  exists qs' F trace, let ch := kpp_seeds g data first ur k in
    dkmspp_init g P data zero sch first ur qs = Ok (qs', trace, ch) /\
    kall F qs' /\ Forall2 same qs qs' /\ Forall (fun r => (r < G)%nat) ch /\ rowsF ch (k - 1) F /\
    (forall r e, nth_error (concat (kcl qs')) r = Some e -> mindist g data ch r (fst e) /\ minid g data ch r (fst e) (snd e)) /\
    trace = map (fun m => map (kpp_dist g data (firstn (S m) ch)) (seq 0 G)) (seq 0 k).
Proof.
  intros Hur Hf Hk Hall Hsch Hfresh. unfold dkmspp_init.
  destruct (@choose_all first 0%nat true (fun q => q) (fun _ _ => 0) (fun _ _ => 0) qs Hf Hk Hall) as (qs2 & E2 & Hr2' & Hk2 & Hs2 & Hcells2).
  { intros p Bp Hp. split; [split; reflexivity|]. split; [exact Bp|]. split; [exact Hp|reflexivity]. }
  rewrite E2. cbn [Base.bind].
  destruct (@share_ok (fun rk => if own G P rk first then setF (fun _ _ => 0) 0 first else fun _ _ => 0) (setF (fun _ _ => 0) 0 first) qs2 Hr2' Hk2) as (qs3 & E3 & Hall3 & Ec3 & Hs3).
  { intros j i Hj Hi. rewrite <- (own_rsum HP (setF (fun _ _ => 0) 0 first j i) Hf). f_equal. apply map_ext. intros rk. destruct (own G P rk first); reflexivity. }
  rewrite E3. cbn [Base.bind].
  assert (Hsame : Forall2 same qs qs3).
  { clear - Hs2 Hs3. revert qs3 Hs3. induction Hs2 as [|a b l l' Hab H IH]; intros l2 H2; inversion H2; subst; constructor; auto.
    destruct Hab as (A1 & A2). destruct H3 as (B1 & B2). split; congruence. }
  destruct (@dkmspp_loop_R zero sch ur Hur k 0 qs3 (setF (fun _ _ => 0) 0 first) [] [] first) as (qs' & F' & trace' & chosen & E & R1 & R2 & R3 & R4 & R5 & R6 & R7 & R8 & R9 & R10); auto; try lia.
  { intros i p Hp. destruct (@Forall2_in_r _ _ _ _ _ _ Hsame Hp) as (p0 & Hp0 & (A1 & A2)). rewrite A1, A2. apply Hsch. exact Hp0. }
  { constructor; [exact Hf|constructor]. }
  { intros j i Hj Hi. assert (j = 0)%nat by lia. subst j. reflexivity. }
  { intros r e He. rewrite Ec3 in He.
    assert (Hr' : (r < G)%nat).
    { pose proof (@cc_len G P _ _ HP (kcl_len Hr2' (@Forall_impl _ _ _ (fun p (Hp : kok p /\ _) => proj1 Hp) _ Hk2))) as L2. rewrite <- L2. apply nth_error_Some. rewrite He. discriminate. }
    rewrite (Hcells2 r Hr') in He. pose proof MAX_pos as HM. destruct (Nat.eqb_spec r first) as [->|Hne'].
    - destruct (nth_error (concat (kcl qs)) first) as [e0|] eqn:Ee; [|discriminate]. cbn [option_map] in He. apply Some_inj in He. subst e. right. cbn [fst snd length].
      splits; auto; [lra|]. intros q' [].
    - left. pose proof (Hfresh r e He) as ->. unfold mindist, minid. splits; auto; try lra. intros q' []. }
  { intros i dv Hi. destruct i; discriminate. }
  { intros i dv q' Hi. destruct i; discriminate. }
  cbn [app] in E.
  assert (Ech : chosen = kpp_seeds g data first ur k).
  { apply recorded_seeds with (trace := trace'); auto. destruct R6 as (more & ->). reflexivity. }
  subst chosen. exists qs', F', trace'. cbv zeta. split; [exact E|]. splits; auto.
  - clear - Hsame R2. revert qs' R2. induction Hsame as [|a b l l' Hab H IH]; intros l2 H2; inversion H2; subst; constructor; auto.
    destruct Hab as (A1 & A2). destruct H3 as (B1 & B2). split; congruence.
  - apply nth_error_ext. intros m. rewrite nth_error_map, nth_error_seq. destruct (Nat.ltb_spec m k) as [Hm|Hm]; [|apply nth_error_None; lia].
    cbn [option_map Nat.add]. destruct (nth_error trace' m) as [dv|] eqn:Ed; [|apply nth_error_None in Ed; lia]. f_equal.
    destruct (R9 m dv Ed) as (Ld & Hd). apply nth_error_ext. intros r. rewrite nth_error_map, nth_error_seq. destruct (Nat.ltb_spec r G) as [Hr|Hr]; [|apply nth_error_None; etransitivity; [apply Nat.eq_le_incl; exact Ld|exact Hr]].
    cbn [option_map Nat.add]. destruct (nth_error dv r) as [v|] eqn:Ev; [|exfalso; apply nth_error_None in Ev; apply (Nat.lt_irrefl r); eapply Nat.lt_le_trans; [exact Hr|]; etransitivity; [apply Nat.eq_le_incl; symmetry; exact Ld|exact Ev]]. f_equal. apply mindist_kpp. apply Hd. exact Ev.
Qed.
End DKpp.
