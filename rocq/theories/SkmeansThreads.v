(** C133: scaled k-means returns the same result whatever the number of threads, the
    thread schedule and the way the data is loaded, in exact arithmetic. *)
From Coq Require Import Reals Lra.
From Verif Require Import Base Num Spec DistModel ClustersModel ClustersView MatLemmas PartitionModel ParModel ParProofs ParDet
  KmeansModel KmeansProofs RunProofs InitProofs SimProofs ParSim MedoidProofs SseProofs PropertiesKmeansR PropertiesRun PropertiesKmspp SkmeansModel SkmeansProofs PropertiesSkmeans.
Set Implicit Arguments.
Unset Strict Implicit.

Section G.
Variable N : Num.
Notation T := (car N).

(** the ranges of the workers do not depend on the values *)
Lemma ranges_same (g : kcfg N) (d1 d2 : list T) ws1 ws2 : build_workers g d1 = Ok ws1 -> build_workers g d2 = Ok ws2 -> w_ranges ws2 = w_ranges ws1.
Proof.
  unfold build_workers. destruct (thread_ranges _ _) as [rng|]; cbn [bind]; [|discriminate].
  revert ws1 ws2. induction rng as [|sn rng IH]; intros ws1 ws2 E1 E2; cbn [mapM] in E1, E2.
  - injection E1 as <-. injection E2 as <-. reflexivity.
  - apply bind_ok in E1 as (w1 & A1 & E1). apply bind_ok in E1 as (l1 & B1 & E1). injection E1 as <-.
    apply bind_ok in E2 as (w2 & A2 & E2). apply bind_ok in E2 as (l2 & B2 & E2). injection E2 as <-.
    apply bind_ok in A1 as (p1 & _ & A1). apply bind_ok in A2 as (p2 & _ & A2). injection A1 as <-. injection A2 as <-.
    unfold w_ranges in *. cbn [map w_start w_nrow]. f_equal. apply IH; assumption.
Qed.

Lemma fair_same (g : kcfg N) (d1 d2 : list T) scheds : valid_input g d1 -> fair g d1 scheds -> fair g d2 scheds.
Proof.
  intros V F ws E i. destruct (get_workers V) as (ws1 & E1 & _). rewrite (@ranges_same g d1 d2 ws1 ws E1 E). apply F. exact E1.
Qed.
End G.

(** ** C133: the result, the scaled data left in the buffer and the bounds are equal *)
Theorem C133_skmeans : forall (g : kcfg NumR) nthreads kind centers it (data : list R) dr dr' sb sn sb' sn' scheds scheds' sk,
  let g' := with_threads g nthreads kind in      (* another thread count and loading path *)
  valid_args g data centers it dr -> (1 <= nthreads < 2 ^ 32)%Z ->
  sk_fair g data sb sn -> sk_fair g' data sb' sn' -> fair g data scheds -> fair g' data scheds' ->
  d_int dr = d_int dr' -> d_real dr = d_real dr' -> (it = PLUSPLUS -> fair g' data (d_sched dr')) ->
  skmeans g centers it data sb sn dr scheds = Ok sk ->
  exists sk', skmeans g' centers it data sb' sn' dr' scheds' = Ok sk' /\
    rr_out (sk_run sk') = rr_out (sk_run sk) /\ rr_converged (sk_run sk') = rr_converged (sk_run sk) /\
    length (rr_trace (sk_run sk')) = length (rr_trace (sk_run sk)) /\
    sk_data sk' = sk_data sk /\ sk_bounds sk' = sk_bounds sk.
Proof.
  intros g nt kind centers it data dr dr' sb sn sb' sn' scheds scheds' sk g' (V & Hk & Hc & D) Hnt S S' F F' Ei Er Fp H.
  assert (V' : valid_input g' data). { destruct V as (V1 & V2 & V3 & V4). unfold valid_input. splits; auto; apply Hnt. }
  destruct (@C92_scaled_kmeans NumR NumR_laws (proj2 (Reqb_true _ _) eq_refl) (proj2 (Reqb_true _ _) eq_refl) g data V) as (lo & hi & L1 & L2 & Hb & Hs).
  destruct (@C92_scaled_kmeans NumR NumR_laws (proj2 (Reqb_true _ _) eq_refl) (proj2 (Reqb_true _ _) eq_refl) g' data V') as (lo' & hi' & L1' & L2' & Hb' & Hs').
  assert (Elo : lo' = lo).
  { apply nth_ext with (d := nzero NumR) (d' := nzero NumR); [etransitivity; [exact L1'|symmetry; exact L1]|].
    intros c Hcl. assert (Hcd : c < g_ncol g) by (apply Nat.lt_le_trans with (1 := Hcl); apply Nat.eq_le_incl; exact L1').
    destruct (Hb c Hcd) as ((_ & I1 & M1) & _). destruct (Hb' c Hcd) as ((_ & I2 & M2) & _).
    apply Rle_antisym; apply Rltb_false; [apply M2; exact I1|apply M1; exact I2]. }
  assert (Ehi : hi' = hi).
  { apply nth_ext with (d := nzero NumR) (d' := nzero NumR); [etransitivity; [exact L2'|symmetry; exact L2]|].
    intros c Hcl. assert (Hcd : c < g_ncol g) by (apply Nat.lt_le_trans with (1 := Hcl); apply Nat.eq_le_incl; exact L2').
    destruct (Hb c Hcd) as (_ & (_ & I1 & M1)). destruct (Hb' c Hcd) as (_ & (_ & I2 & M2)).
    apply Rle_antisym; apply Rltb_false; [apply M1; exact I2|apply M2; exact I1]. }
  rewrite Elo, Ehi in Hs'. clear Elo Ehi lo' hi' L1' L2' Hb'.
  specialize (Hs centers it sb sn dr scheds S). rewrite H in Hs.
  specialize (Hs' centers it sb' sn' dr' scheds' S').
  change (scaled g' data lo hi) with (scaled g data lo hi) in Hs'. set (sd := scaled g data lo hi) in *.
  destruct (run g centers it sd dr scheds) as [rr|] eqn:Er1; [|discriminate].
  assert (Ls : length sd = g_nrow g * g_ncol g) by apply scaled_length.
  assert (Vs : valid_args g sd centers it dr).
  { split; [|split; [exact Hk|split; [exact Hc|]]].
    - destruct V as (V1 & V2 & V3 & V4). exact (conj V1 (conj V2 (conj V3 Ls))).
    - destruct it; cbn [draws_ok] in *; auto. destruct D as (D1 & D2). split; [exact D1|]. exact (fair_same (d2 := sd) V D2). }
  destruct (@C18_threads_irrelevant g nt kind centers it sd dr dr' scheds scheds' rr Vs Hnt (fair_same (d2 := sd) V F) (fair_same (d2 := sd) V' F') Ei Er
     (fun e => fair_same (d2 := sd) V' (Fp e)) Er1) as (rr' & Er1' & E1 & E2 & E3).
  fold g' in Er1'. rewrite Er1' in Hs'. eexists. split; [exact Hs'|]. injection Hs as ->. cbn [sk_run sk_data sk_bounds]. auto.
Qed.
Print Assumptions C133_skmeans.
Local Open Scope R_scope.

Lemma in_scaled (g : kcfg NumR) (data lo hi : list R) x : In x (scaled g data lo hi) ->
  exists r c, (r < g_nrow g)%nat /\ (c < g_ncol g)%nat /\ x = (entry g data r c - nth c lo 0) / (nth c hi 0 - nth c lo 0).
Proof.
  unfold scaled. intros H. apply in_concat in H as (l & Hl & Hx). apply in_map_iff in Hl as (r & <- & Hr). apply in_map_iff in Hx as (c & <- & Hc).
  apply in_seq in Hr. apply in_seq in Hc. exists r, c. split; [lia|]. split; [lia|]. reflexivity.
Qed.

(** scaled k-means returns when no feature is constant and the given centres, if any, are
    not beyond the double range (scaling brings the data into [0,1]) *)
Theorem C133_returns : forall (g : kcfg NumR) centers it (data : list R) dr sb sn scheds M,
  valid_args g data centers it dr -> sk_fair g data sb sn -> fair g data scheds -> (forall i, 0 <= d_real dr i <= 1) ->
  g_dt g <> COS -> 1 <= M -> (it = NONE -> match centers with Some m => bounded M m | None => True end) ->
  reach (g_dt g) M (g_ncol g) < IZR dbl_max_Z ->
  (forall c, (c < g_ncol g)%nat -> exists r r', (r < g_nrow g)%nat /\ (r' < g_nrow g)%nat /\ entry g data r c <> entry g data r' c) ->
  exists sk, skmeans g centers it data sb sn dr scheds = Ok sk.
Proof.
  intros g centers it data dr sb sn scheds M (V & Hk & Hc & D) S F Hur Hdt HM Hm Hreach Hvar.
  destruct (@C92_scaled_kmeans NumR NumR_laws (proj2 (Reqb_true _ _) eq_refl) (proj2 (Reqb_true _ _) eq_refl) g data V) as (lo & hi & L1 & L2 & Hb & Hs).
  specialize (Hs centers it sb sn dr scheds S). set (sd := scaled g data lo hi) in *.
  assert (Ls : length sd = (g_nrow g * g_ncol g)%nat) by apply scaled_length.
  assert (Vs : valid_args g sd centers it dr).
  { split; [|split; [exact Hk|split; [exact Hc|]]].
    - destruct V as (V1 & V2 & V3 & V4). exact (conj V1 (conj V2 (conj V3 Ls))).
    - destruct it; cbn [draws_ok] in *; auto. destruct D as (D1 & D2). split; [exact D1|]. exact (fair_same (d2 := sd) V D2). }
  assert (Hbd : bounded M sd).
  { unfold bounded. apply Forall_forall. intros x Hx. apply in_scaled in Hx as (r & c & Hr & Hcc & ->).
    destruct (Hb c Hcc) as ((_ & _ & Hlo) & (_ & _ & Hhi)). change (nzero NumR) with 0 in *.
    assert (Bl : forall q, (q < g_nrow g)%nat -> @nth R c lo 0 <= entry g data q c) by (intros q Hq; apply Rltb_false; apply Hlo; right; exact (entry_in g data c Hq)).
    assert (Bh : forall q, (q < g_nrow g)%nat -> entry g data q c <= @nth R c hi 0) by (intros q Hq; apply Rltb_false; apply Hhi; right; exact (entry_in g data c Hq)).
    destruct (Hvar c Hcc) as (q & q' & Hq & Hq' & Hne).
    pose proof (Bl q Hq). pose proof (Bl q' Hq'). pose proof (Bh q Hq). pose proof (Bh q' Hq'). pose proof (Bl r Hr). pose proof (Bh r Hr).
    revert Hne H H0 H1 H2 H3 H4. generalize (entry g data q c) (entry g data q' c) (entry g data r c) (@nth R c lo 0) (@nth R c hi 0). intros a b x l h. intros.
    assert (0 < h - l) by (destruct (Rtotal_order a b) as [|[|]]; [lra|contradiction|lra]).
    apply Rabs_le. split.
    - apply Rle_trans with 0; [lra|]. apply Rmult_le_pos; [lra|]. left. apply Rinv_0_lt_compat. lra.
    - apply Rle_trans with 1; [|lra]. apply Rmult_le_reg_r with (h - l); [lra|]. unfold Rdiv. rewrite Rmult_assoc, Rinv_l by lra. lra. }
  destruct (@C20_returns g centers it sd dr scheds M Vs (fair_same (d2 := sd) V F) Hur Hdt ltac:(lra) Hbd Hm Hreach) as (rr & E).
  rewrite E in Hs. eauto.
Qed.
Print Assumptions C133_returns.

(** an instance: one and two threads *)
Example C133_example : let g1 := with_threads exgR 1 UserBuffer in
  valid_args exgR exdR None FORGY exdrR /\ sk_fair exgR exdR (exsR 0) (exsR 1) /\ fair exgR exdR exsR /\
  sk_fair g1 exdR [0; 0; 0; 0; 0]%nat [0; 0; 0; 0; 0]%nat /\ fair g1 exdR (fun _ => [0; 0; 0; 0; 0]%nat) /\
  exists sk, skmeans exgR None FORGY exdR (exsR 0) (exsR 1) exdrR exsR = Ok sk.
Proof.
  cbv zeta.
  assert (V : valid_input exgR exdR) by (unfold valid_input; cbn; splits; lia || reflexivity).
  assert (A : valid_args exgR exdR None FORGY exdrR) by (unfold valid_args; cbn; splits; auto; intros; lia).
  assert (Cp : forall i, complete [(0, 2); (2, 3)]%nat (exsR i)).
  { intros i [|[|[|t]]] s n Ht; try discriminate; injection Ht as <- <-; unfold exsR; destruct (Nat.even i); cbn; lia. }
  assert (S : sk_fair exgR exdR (exsR 0) (exsR 1)).
  { intros ws E. pose proof exR_ranges as H. rewrite E in H. cbn [okmap] in H. injection H as ->. split; apply Cp. }
  assert (F : fair exgR exdR exsR).
  { intros ws E i. pose proof exR_ranges as H. rewrite E in H. cbn [okmap] in H. injection H as ->. apply Cp. }
  assert (R1 : okmap (@w_ranges NumR) (build_workers (with_threads exgR 1 UserBuffer) exdR) = Some [(0, 5)]%nat).
  { unfold exdR. generalize (IZR 0), (IZR 1), (IZR 6), (IZR 10), (IZR 11). intros a b c d e. unfold exgR.
    generalize (IZR (-1)). intros t. lazy. reflexivity. }
  assert (C1 : complete [(0, 5)]%nat [0; 0; 0; 0; 0]%nat).
  { intros [|[|t]] s n Ht; try discriminate; injection Ht as <- <-; cbn; lia. }
  splits; auto.
  - intros ws E. rewrite E in R1. cbn [okmap] in R1. injection R1 as ->. auto.
  - intros ws E i. rewrite E in R1. cbn [okmap] in R1. injection R1 as ->. auto.
  - apply (@C133_returns exgR None FORGY exdR exdrR (exsR 0) (exsR 1) exsR 1); auto.
    + intros i. cbn. lra.
    + discriminate.
    + lra.
    + change (2 * 1 * 1 < IZR dbl_max_Z). apply Rlt_trans with 100; [lra|]. apply IZR_lt. vm_compute. reflexivity.
    + intros c Hc. exists 0%nat, 1%nat. cbn in Hc. assert (c = 0)%nat as -> by lia. split; [cbn; lia|]. split; [cbn; lia|]. cbn. lra.
Qed.
