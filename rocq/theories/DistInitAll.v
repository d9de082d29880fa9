(** All the initialisations of the MPI processes: what the first turn starts from. *)
From Coq Require Import Reals Lra.
From Verif Require Import Base Num Spec DistModel ClustersModel ClustersView PartitionModel ParModel KmeansModel PruneModel DistRunModel.
From Verif Require Import MatLemmas VecLemmas ClustersProofs DistProofs PartitionProofs ParProofs NearProofs KmeansProofs UpdateProofs RunProofs InitProofs SimProofs KmeansR PropertiesKmeansR PropertiesRun KmsppR SpecKmspp PropertiesKmspp.
From Verif Require Import ParRule DistMatProofs PruneProofs ClusterSums PruneRound PruneUpdate PruneRun PruneRun2 PropertiesPrune DistRunProofs DistRunProofs2 DistRunProofs3 ProcRows DistInitProofs DistRunProofs4 DistRunProofs5 DistKmspp.
Set Implicit Arguments.
Local Open Scope R_scope.

Section InitPP.
Variables (g : kcfg NumR) (P : nat) (data : list (car NumR)).
Let d := g_ncol g.
Let k := g_k g.
Let G := g_nrow g.
Hypothesis HP : (1 <= P <= G)%nat.
Hypothesis Hdata : length data = (G * d)%nat.
Hypothesis HG : (Z.of_nat G < 2 ^ 31)%Z.
Hypothesis Hnt : (1 <= g_nthreads g < 2 ^ 32)%Z.
Hypothesis Hk2 : (2 <= k)%nat.

Definition begun (C : nat -> nat -> R) (qs : list (dproc NumR)) : Prop :=
  dranks P qs /\ Forall (fun q => dbody g P data q /\
     build_workers (proc_cfg g P (dp_rank q)) (proc_data g P data (dp_rank q)) = Ok (dp_ws q) /\
     forall j i, (j < k)%nat -> (i < d)%nat -> nth i (cent (dp_st q) j) 0 = C j i) qs.

Lemma map2_fst_F2 {A B C} (R : A -> B -> Prop) (f : A -> B -> C) l m : Forall2 R l m ->
  Forall2 (fun a c => exists b, R a b /\ In b m /\ c = f a b) l (map2 f l m).
Proof.
  induction 1 as [|a b l m H HR IH]; cbn [map2]; constructor.
  - exists b. split; [exact H|]. split; [left; reflexivity|reflexivity].
  - eapply Forall2_imp; [|exact IH]. cbn beta. intros x y (z & H1 & H2 & H3). exists z. split; [exact H1|]. split; [right; exact H2|exact H3].
Qed.

Lemma init_pp centers draw ur ksched : proper g data -> (draw 0%nat < G)%nat -> (forall i, 0 <= ur i <= 1) ->
  (forall i rank ws, (rank < P)%nat -> build_workers (proc_cfg g P rank) (proc_data g P data rank) = Ok ws -> complete (w_ranges ws) (ksched i rank)) ->
  let ch := kpp_seeds g data (draw 0%nat) ur k in
  exists qs qs0, mapM (dproc_create g P data centers PLUSPLUS) (seq 0 P) = Ok qs /\ dist_init g P data PLUSPLUS draw ur ksched qs = Ok qs0 /\
    begun (fun j i => nth i (row data d (nth j ch 0%nat)) 0) qs0 /\ Forall (fun r => (r < G)%nat) ch /\
    ((forall r, (r < G)%nat -> forall j, (j < k)%nat -> rdist (g_dt g) (row data d r) (row data d (nth j ch 0%nat)) < MAX) -> dpre g P data qs0).
Proof.
  intros Hp Hdr Hur Hsch ch.
  assert (Hself : forall r, (r < g_nrow g)%nat -> rdist (g_dt g) (row data (g_ncol g) r) (row data (g_ncol g) r) = 0) by (intros r Hr'; apply (proper_self Hp Hr')).
  assert (Hpos : forall r q, (r < g_nrow g)%nat -> (q < g_nrow g)%nat -> 0 <= rdist (g_dt g) (row data (g_ncol g) r) (row data (g_ncol g) q)) by (intros r q Hr' Hq'; apply (proper_pos Hp Hdata Hr' Hq')).
  assert (Hco : centers_ok g centers PLUSPLUS) by (destruct centers; exact I).
  set (Q0 := fun rk (q : dproc NumR) => dp_rank q = rk /\ dbody g P data q /\ fresh g P q /\
    build_workers (proc_cfg g P rk) (proc_data g P data rk) = Ok (dp_ws q) /\
    c_means (dp_cl q) = initial_means g centers PLUSPLUS /\
    (forall j, (j < k)%nat -> cnum (dp_cl q) j = 0%Z /\ cdone (dp_cl q) j = false)).
  destruct (@mapM_total _ _ (dproc_create g P data centers PLUSPLUS) Q0 (seq 0 P)) as (qs & Eqs & Hqs).
  { intros rk Hrk. apply in_seq in Hrk. destruct (@create1 g P data HP Hdata HG Hnt Hk2 centers PLUSPLUS rk Hco ltac:(lia)) as (q & E & H). exists q. split; [exact E|exact H]. }
  assert (Hr : dranks P qs).
  { unfold dranks. rewrite <- (map_id (seq 0 P)). eapply Forall2_map_eq; [exact Hqs|]. intros a b Hab. apply Hab. }
  assert (Hall : forall q, In q qs -> Q0 (dp_rank q) q).
  { intros q Hq. destruct (@Forall2_in_r _ _ _ _ _ _ Hqs Hq) as (rk & _ & H). pose proof H as (-> & _). exact H. }
  set (ks := map (@dp_kp NumR) qs).
  assert (Hkr : kranks P ks) by (unfold kranks, ks; rewrite map_map; exact Hr).
  assert (Hkall : kall g P data (fun _ _ => 0) ks).
  { split; [exact Hkr|]. apply Forall_forall. intros p Hpin. apply in_map_iff in Hpin as (q & <- & Hq).
    destruct (Hall q Hq) as (_ & B & _ & _ & Hm & Hz). destruct B as (B1 & B2 & B3 & (Hs & Hs') & B5 & B6 & B7). split.
    - split; [exact B1|]. split; [exact B3|]. cbn [dp_kp kp_cells kp_rank]. rewrite map_length. exact B6.
    - split; [exact Hs|]. intros j Hj. destruct (Hz j Hj) as (Z1 & Z2). splits; auto. intros i Hi. etransitivity; [exact (nth_crow j Hs Hi)|].
      etransitivity; [exact (f_equal (fun l : list R => nth (j * d + i) l 0) (eq_trans Hm (@init_means_zero g centers PLUSPLUS ltac:(discriminate))))|].
      assert (Hji : (j * d + i < k * d)%nat) by nia. apply nth_repeat_d. exact Hji. }
  assert (Hkok : Forall (kok g P data) ks) by (destruct Hkall as (_ & H); eapply Forall_impl; [|exact H]; cbn beta; intros p H'; apply H').
  assert (Lcc : length (concat (kcl ks)) = G) by (apply (@cc_len G P _ _ HP); apply (@kcl_len g P data); auto).
  destruct (@dkmspp_init_R g P data HP Hdata HG Hnt) with (zero := true) (sch := ksched) (ur := ur) (first := draw 0%nat) (qs := ks)
    as (ks' & F & trace & E & K1 & K2 & K3 & K4 & K5 & K6); auto; try (fold k; lia).
  { intros i p Hpin. apply in_map_iff in Hpin as (q & <- & Hq). destruct (Hall q Hq) as (_ & B & _ & Ew & _). apply (Hsch i (dp_rank q)); [apply B|exact Ew]. }
  { intros r e He.
    assert (Hr' : (r < G)%nat) by (rewrite <- Lcc; apply nth_error_Some; intro Hx; assert (Hy := eq_trans (eq_sym He) Hx); inversion Hy).
    destruct (row_owner HP Hr') as (rk & r0 & Hrk & Hlt & ->).
    destruct (nth_error ks rk) as [p|] eqn:Ep.
    2:{ apply nth_error_None in Ep. rewrite <- (map_length (@kp_rank NumR)), Hkr, seq_length in Ep. lia. }
    pose proof (eq_trans (eq_sym (@kcl_at g P data HP Hdata Hself Hpos ks rk p r0 Hkr Hkok Ep Hlt)) He) as He2.
    unfold ks in Ep. rewrite nth_error_map in Ep. destruct (nth_error qs rk) as [q|] eqn:Eq; [|discriminate]. apply Some_inj in Ep. subst p.
    destruct (Hall q (nth_error_In _ _ Eq)) as (_ & B & Hf & _). pose proof (rank_at rk Hr Eq) as Erk.
    cbn [dp_kp kp_cells] in He2. rewrite nth_error_map in He2. destruct (nth_error (ps_cells (dp_st q)) r0) as [cl|] eqn:Ec.
    2:{ assert (He3 : option_map fst (@None (pcell NumR)) = Some e) by (rewrite <- Ec; exact He2). inversion He3. }
    assert (He3 : option_map fst (Some cl) = Some e) by (rewrite <- Ec; exact He2). apply Some_inj in He3. subst e. specialize (Hf r0). unfold nq in Hf. rewrite Erk in Hf. specialize (Hf Hlt). unfold cellat, cdist in Hf.
    rewrite (nth_error_nth _ _ dcell Ec) in Hf. exact Hf. }
  fold k in E, K1, K3, K4, K5, K6. fold ch in E, K3, K4, K5.
  set (qs0 := map2 (@dp_of_kp NumR) qs ks').
  assert (Hrel : Forall2 (fun (q : dproc NumR) p => Q0 (dp_rank q) q /\ same (dp_kp q) p) qs ks').
  { assert (Hg : forall l l', (forall q, In q l -> Q0 (dp_rank q) q) -> Forall2 (@same) (map (@dp_kp NumR) l) l' -> Forall2 (fun (q : dproc NumR) p => Q0 (dp_rank q) q /\ same (dp_kp q) p) l l').
    { clear. induction l as [|q l IH]; intros l' Hl H; inversion H; subst; constructor; [split; [apply Hl; left; reflexivity|assumption]|]. apply IH; auto. intros x Hx. apply Hl. right. exact Hx. }
    apply Hg; auto. }
  pose proof (@map2_fst_F2 _ _ _ _ (@dp_of_kp NumR) _ _ Hrel) as Hrel2. fold qs0 in Hrel2.
  pose proof K1 as (Hkr' & Hk1). rewrite Forall_forall in Hk1.
  assert (Hkok' : Forall (kok g P data) ks') by (apply Forall_forall; intros p Hpin; apply (Hk1 p Hpin)).
  assert (Hr0 : dranks P qs0).
  { unfold dranks. rewrite <- Hr. eapply Forall2_map_eq; [exact Hrel2|]. cbn beta. intros q q' (p & _ & _ & ->). reflexivity. }
  assert (Hbody : forall q, In q qs0 -> exists p, In p ks' /\ kp_rank p = dp_rank q /\ dbody g P data q /\ map fst (ps_cells (dp_st q)) = kp_cells p /\
     build_workers (proc_cfg g P (dp_rank q)) (proc_data g P data (dp_rank q)) = Ok (dp_ws q) /\ p_cl (ps_cltrs (dp_st q)) = kp_cl p).
  { intros q' Hq'. destruct (@Forall2_in_r _ _ _ _ _ _ Hrel2 Hq') as (q & Hq & (p & ((_ & B & _ & Ew & _) & (S1 & S2)) & Hpin & ->)). exists p.
    destruct (Hk1 p Hpin) as ((C1 & C2 & C3) & (C4 & _)). cbn [dp_kp kp_rank kp_ws] in S1, S2. destruct B as (B1 & B2 & B3 & (B4 & B4') & B5 & B6 & B7).
    assert (Lp : length (kp_cells p) = length (map snd (ps_cells (dp_st q)))) by (etransitivity; [exact C3|]; symmetry; etransitivity; [apply map_length|]; etransitivity; [exact B6|]; unfold nq; rewrite <- S1; reflexivity).
    assert (Em : forall (A B : Type) (u : list A) (v : list B), length u = length v -> map fst (combine u v) = u).
    { clear. induction u as [|x u IH]; intros [|y v] H; try discriminate; [reflexivity|]. cbn. f_equal. apply IH. cbn in H. lia. }
    splits; auto.
    - split; [exact B1|]. split; [exact B2|]. split; [exact B3|]. split; [split; [exact C4|exact B4']|]. split; [exact B5|]. split; [|exact B7].
      cbn [dp_of_kp dp_with dp_st ps_cells]. etransitivity; [apply combine_length|]. rewrite Lp, Nat.min_id. etransitivity; [apply map_length|]. exact B6.
    - cbn [dp_of_kp dp_with dp_st ps_cells]. apply Em. exact Lp. }
  assert (Hcent : forall q j, In q qs0 -> (j < k)%nat -> cent (dp_st q) j = row data d (nth j ch 0%nat)).
  { intros q j Hq Hj. destruct (Hbody q Hq) as (p & Hpin & _ & _ & _ & _ & Ecl). unfold cent. rewrite Ecl. destruct (Hk1 p Hpin) as (_ & Hc).
    assert (Hn : (nth j ch 0 < G)%nat) by (rewrite Forall_forall in K3; apply K3; apply nth_In; unfold ch; rewrite seeds_length; exact Hj).
    apply (@vec_ext d).
    - eapply cis_row; eauto.
    - apply (@row_length R data d _ G); auto.
    - intros i Hi. destruct Hc as (_ & Hc). destruct (Hc j Hj) as (_ & _ & ->); [|exact Hi]. apply K4; [fold k; lia|exact Hi]. }
  exists qs, qs0. split; [exact Eqs|]. split; [cbn [dist_init]; fold ks; rewrite E; reflexivity|]. split; [|split; [exact K3|]].
  - split; [exact Hr0|]. apply Forall_forall. intros q Hq. destruct (Hbody q Hq) as (p & _ & _ & B & _ & Ew & _). splits; auto.
    intros j i Hj Hi. rewrite (Hcent q j Hq Hj). reflexivity.
  - intros Hfin. split; [exact Hr0|]. apply Forall_forall. intros q Hq. destruct (Hbody q Hq) as (p & Hpin & Er & B & Ecell & Ew & Ecl). split; [exact B|].
    intros r Hlt. unfold nq in Hlt. pose proof B as (B1 & _ & _ & _ & _ & B6 & _).
    assert (Ex : XQ g P data q r = row data d (proc_off G P (dp_rank q) + r)) by exact (@proc_row NumR g P data HP Hdata (dp_rank q) r B1 Hlt).
    set (x := (proc_off G P (dp_rank q) + r)%nat) in *.
    assert (Hx : (x < G)%nat) by (pose proof (proc_bound HP B1); unfold x; fold G in Hlt; lia).
    apply In_nth_error in Hpin as (rk & Ep). pose proof (krank_at rk Hkr' Ep) as Erk. assert (Erk' : rk = dp_rank q) by congruence. subst rk. rewrite Erk' in *.
    assert (Ec : nth_error (ps_cells (dp_st q)) r = Some (cellat (dp_st q) r)) by (apply nth_error_nth'; rewrite B6; exact Hlt).
    assert (Ecc : nth_error (concat (kcl ks')) x = Some (fst (cellat (dp_st q) r))).
    { unfold x. etransitivity; [exact (@kcl_at g P data HP Hdata Hself Hpos ks' (dp_rank q) p r Hkr' Hkok' Ep Hlt)|]. etransitivity; [exact (f_equal (fun l => nth_error l r) (eq_sym Ecell))|]. etransitivity; [apply nth_error_map|]. exact (f_equal (option_map fst) Ec). }
    destruct (K5 x _ Ecc) as (M1 & M2). right.
    destruct M2 as [Hmax|(j & q' & Ej & Eaj & Evj)].
    + exfalso. destruct M1 as (M1 & _). specialize (Hfin x Hx 0%nat ltac:(lia)). specialize (M1 (nth 0 ch 0%nat)).
      rewrite Hmax in M1. assert (Hin : In (nth 0 ch 0%nat) ch) by (apply nth_In; unfold ch; rewrite seeds_length; lia). specialize (M1 Hin). fold d in M1. exact (Rlt_irrefl _ (Rle_lt_trans _ _ _ M1 Hfin)).
    + assert (Hj : (j < k)%nat). { assert (j < length ch)%nat by (apply nth_error_Some; congruence). unfold ch in H. rewrite seeds_length in H. exact H. }
      exists j. split; [exact Eaj|]. split; [exact Hj|]. rewrite Ex, (Hcent q j Hq Hj), (nth_error_nth _ _ 0%nat Ej). exact Evj.
Qed.
End InitPP.
