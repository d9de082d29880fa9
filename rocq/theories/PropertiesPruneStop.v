(** C107: when a pruned run stops and what it reports. *)
From Coq Require Import Reals Lra Lia List.
From Verif Require Import Base Num Spec DistModel ClustersModel ClustersView PartitionModel ParModel KmeansModel PruneModel.
From Verif Require Import MatLemmas VecLemmas ClustersProofs DistProofs PartitionProofs ParProofs NearProofs KmeansProofs UpdateProofs RunProofs ParRule DistMatProofs PruneProofs ClusterSums PruneRound PruneUpdate PruneRun PruneRun2.
From Verif Require Import InitProofs SimProofs KmeansR PropertiesKmeans PropertiesKmeansR PropertiesRun KmsppR PropertiesPrune PropertiesDistRun.
Set Implicit Arguments.
Local Open Scope R_scope.

(** the number of rows whose assignment differs between two states *)
Lemma differing_moved : forall n (a b : list (option nat)), length a = n -> length b = n -> differing n a b = moved a b.
Proof.
  intros n a b Ha Hb. unfold differing, moved.
  assert (G : forall l l' s, length l = length l' ->
    (forall i, (i < length l)%nat -> nth (s + i) a None = nth i l None /\ nth (s + i) b None = nth i l' None) ->
    length (filter (fun r => negb (id_eqb (nth r a None) (nth r b None))) (seq s (length l))) =
    length (filter (fun p => negb (id_eqb (fst p) (snd p))) (combine l l'))).
  { clear. induction l as [|x l IH]; intros [|y l'] s L H; try discriminate; [reflexivity|]. cbn [length seq combine filter fst snd].
    destruct (H 0%nat) as (E1 & E2); [cbn; lia|]. rewrite Nat.add_0_r in E1, E2. cbn in E1, E2. rewrite E1, E2.
    assert (IH' := IH l' (Datatypes.S s)). injection L as L. specialize (IH' L).
    assert (Hs : forall i, (i < length l)%nat -> nth (Datatypes.S s + i) a None = nth i l None /\ nth (Datatypes.S s + i) b None = nth i l' None).
    { intros i Hi. destruct (H (Datatypes.S i)) as (F1 & F2); [cbn; lia|]. rewrite Nat.add_succ_r in F1, F2. cbn in F1, F2. auto. }
    specialize (IH' Hs). destruct (id_eqb x y); cbn [negb length]; rewrite IH'; reflexivity. }
  rewrite <- Ha. apply G; [congruence|]. intros i Hi. rewrite !Nat.add_0_l. auto.
Qed.

Lemma chg_moved (cells cells' : list cellR) n : length cells = n -> length cells' = n ->
  list_sum (map chg (triples dcell cells cells' 0 n)) = moved (asg_of cells) (asg_of cells').
Proof.
  intros L L'. rewrite <- (@differing_moved n) by (unfold asg_of; rewrite map_length; assumption).
  unfold differing, triples. rewrite map_map.
  assert (G : forall l, list_sum (map (fun r => chg (r, nth r cells dcell, nth r cells' dcell)) l) =
    length (filter (fun r => negb (id_eqb (nth r (asg_of cells) None) (nth r (asg_of cells') None))) l)).
  { induction l as [|r l IH]; [reflexivity|]. cbn [map list_sum fold_right filter]. unfold list_sum in IH. rewrite IH.
    unfold chg, casg, asg_of. cbn [fst snd].
    assert (E : forall c : list cellR, nth r (map (fun c0 : pcell NumR => snd (fst c0)) c) None = snd (fst (nth r c dcell))).
    { intros c. exact (@nth_map_pair _ _ (fun c0 : cellR => snd (fst c0)) c r dcell None eq_refl). }
    rewrite !E. destruct (id_eqb _ _); reflexivity. }
  apply G.
Qed.

Lemma prun_stop g centers it data dr scheds rr : prune_args g data centers it dr scheds -> prune_run g centers it data dr scheds = Ok rr ->
  finite_init g data (pr_init rr) -> (1 <= g_max_iters g)%nat ->
  (1 <= length (pr_trace rr) <= g_max_iters g)%nat /\
  (forall i s s', piteration rr i s s' -> (1 <= i)%nat ->
     stop_test g (moved (asg_of (ps_cells s)) (asg_of (ps_cells s'))) = (pr_converged rr && (Datatypes.S i =? length (pr_trace rr))%nat)%bool) /\
  (pr_converged rr = true -> (2 <= length (pr_trace rr))%nat /\ ct_iters (pr_out rr) = length (pr_trace rr)) /\
  (pr_converged rr = false -> length (pr_trace rr) = g_max_iters g /\ ct_iters (pr_out rr) = Datatypes.S (g_max_iters g)).
Proof.
  intros (Hk & A & Hrd & Hf) H Hfin Hm. pose proof A as (V & _). pose proof V as (V1 & V2 & V3 & V4).
  destruct (@init_pre g data Hk V centers it dr A Hrd) as (ws & sc & s0 & Ew & Hws & Ec & Ei & Hpre & Hpm & Hent).
  assert (Hsch : forall i, complete (w_ranges ws) (scheds i)) by (apply Hf; exact Ew).
  assert (E0 : pr_init rr = s0).
  { unfold prune_run in H. rewrite Ec, Ew in H. cbn [Base.bind] in H. rewrite Ei in H. cbn [Base.bind] in H.
    destruct (0 <? g_max_iters g)%nat.
    - apply bind_ok in H as (s1 & _ & H). apply bind_ok in H as ([[[iter conv] s'] tr] & _ & H). injection H as <-. reflexivity.
    - apply bind_ok in H as (cn & _ & H). injection H as <-. reflexivity. }
  rewrite E0 in Hfin. pose proof Hpre as ((Hs & _) & _). pose proof (finite_init_iff Hs Hfin) as Hfs.
  destruct (@first_ok g ws data Hws V4 V2 Hk (scheds 1%nat) s0 (Hsch 1%nat) Hpre (Hent Hfs)) as (s1 & E1 & Hi1 & Hch & _).
  destruct (@prune_loop_ok g data Hk V ws scheds Hws Hsch (g_max_iters g - 1) 2 s1 [s1] Hi1 Hch) as (iter & conv & s' & more & E2 & L1 & L2 & (c & ->) & L4 & L5 & L6).
  unfold prune_run in H. rewrite Ec, Ew in H. cbn [Base.bind] in H. rewrite Ei in H. cbn [Base.bind] in H.
  replace (0 <? g_max_iters g)%nat with true in H by (symmetry; apply Nat.ltb_lt; lia). rewrite E1 in H. cbn [Base.bind] in H. rewrite E2 in H. injection H as <-.
  cbn [pr_trace pr_init pr_converged pr_out ct_iters app length].
  assert (Hchg : forall i a b, nth_error (s1 :: more) i = Some a -> nth_error more i = Some b -> ps_changed b = moved (asg_of (ps_cells a)) (asg_of (ps_cells b))).
  { intros i a b Ea Eb. destruct (L1 i a b Ea Eb) as (sched & Hc & Eit).
    assert (Hia : pinv g ws data a).
    { destruct i as [|i]; [cbn in Ea; injection Ea as <-; exact Hi1|]. rewrite Forall_forall in L2. apply L2. apply nth_error_In with i. exact Ea. }
    assert (Hib : pinv g ws data b) by (rewrite Forall_forall in L2; apply L2; apply nth_error_In with i; exact Eb).
    destruct (@PruneRun.iterate_ok g ws data Hws V4 V2 Hk sched (with_changed a 0) Hc Hia) as (b' & Eb' & _ & Ecg & _).
    pose proof (eq_trans (eq_sym Eit) Eb') as Q. injection Q as <-. rewrite Ecg. cbn [ps_changed with_changed ps_cells Nat.add].
    destruct Hia as (_ & _ & _ & _ & (La & _) & _). destruct Hib as (_ & _ & _ & _ & (Lb & _) & _). apply chg_moved; assumption. }
  splits; try lia.
  - intros i a b (Ea & Eb) Hi. cbn [pr_init pr_trace app] in Ea, Eb. destruct i as [|i]; [lia|]. cbn [nth_error] in Ea, Eb.
    rewrite <- (Hchg i a b Ea Eb). assert (Hlen : (i < length more)%nat) by (apply nth_error_Some; congruence).
    cbn [pr_converged]. destruct conv.
    + destruct (L5 eq_refl) as (pre & f & -> & G1 & G2 & _). rewrite app_length in *. cbn [length Nat.add] in *.
      destruct (Nat.eq_dec i (length pre)) as [-> |Hne].
      * rewrite nth_error_app2 in Eb by lia. rewrite Nat.sub_diag in Eb. cbn in Eb. injection Eb as <-. rewrite G1. symmetry. cbn [andb]. apply Nat.eqb_eq. lia.
      * rewrite nth_error_app1 in Eb by lia. rewrite Forall_forall in G2. rewrite (G2 b) by (apply nth_error_In with i; exact Eb). symmetry. cbn [andb]. apply Nat.eqb_neq. lia.
    + destruct (L6 eq_refl) as (_ & G2 & _). rewrite Forall_forall in G2. rewrite (G2 b) by (apply nth_error_In with i; exact Eb). reflexivity.
  - intros ->. destruct (L5 eq_refl) as (pre & f & -> & _ & _ & G). rewrite app_length in *. cbn [length] in *. lia.
Qed.

(** a pruned run makes a first pass and then turns; it converges at the first turn
    that moves few enough rows, and reports the passes made (one more if it was
    stopped by the limit) *)
Theorem C107_pruned_stop : forall (g : kcfg NumR) centers it data dr scheds rr,
  prune_args g data centers it dr scheds -> prune_run g centers it data dr scheds = Ok rr ->
  finite_init g data (pr_init rr) -> (1 <= g_max_iters g)%nat ->
  (1 <= length (pr_trace rr) <= g_max_iters g)%nat /\
  (forall i s s', piteration rr (S i) s s' ->
     let m := moved (asg_of (ps_cells s)) (asg_of (ps_cells s')) in
     (m = 0%nat \/ INR m / INR (g_nrow g) <= g_tol g <-> pr_converged rr = true /\ S (S i) = length (pr_trace rr))) /\
  (pr_converged rr = true -> (2 <= length (pr_trace rr))%nat /\ ct_iters (pr_out rr) = length (pr_trace rr)) /\
  (pr_converged rr = false -> length (pr_trace rr) = g_max_iters g /\ ct_iters (pr_out rr) = S (g_max_iters g)).
Proof.
  intros g centers it data dr scheds rr A E Hfin Hm. destruct (prun_stop A E Hfin Hm) as (H1 & H2 & H3 & H4). splits; try lia; try apply H3; try apply H4.
  intros i s s' Hi m. specialize (H2 (S i) s s' Hi ltac:(lia)). fold m in H2.
  assert (Hst : stop_test g m = true <-> m = 0%nat \/ INR m / INR (g_nrow g) <= g_tol g).
  { unfold stop_test. rewrite Bool.orb_true_iff, Nat.eqb_eq. rewrite !INR_IZR_INZ. cbn [nleb ndiv nofZ NumR]. rewrite Rleb_true. reflexivity. }
  rewrite <- Hst, H2, Bool.andb_true_iff, Nat.eqb_eq. reflexivity.
Qed.
Print Assumptions C107_pruned_stop.
