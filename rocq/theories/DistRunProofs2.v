(** Iterations of the MPI pruned run, in exact arithmetic. *)
From Coq Require Import Reals Lra.
From Verif Require Import Base Num Spec DistModel ClustersModel ClustersView PartitionModel ParModel KmeansModel PruneModel DistRunModel.
From Verif Require Import MatLemmas VecLemmas ClustersProofs DistProofs PartitionProofs ParProofs NearProofs KmeansProofs UpdateProofs RunProofs ParRule DistMatProofs PruneProofs ClusterSums PruneRound PruneUpdate PruneRun DistRunProofs.
Set Implicit Arguments.
Local Open Scope R_scope.

(* ------------------------------------------------------------------ *)
(** * A process' local phase *)
Section Local.
Variables (g : kcfg NumR) (ws : list (worker NumR)) (data : list (car NumR)).
Let d := g_ncol g.
Let k := g_k g.
Let n := g_nrow g.
Let X (r : nat) : list R := row data d r.
Hypothesis Hws : wok n d data ws.
Hypothesis Hdata : length data = (n * d)%nat.
Hypothesis Hk2 : (2 <= k)%nat.

Definition lsum (first : bool) (cells cells' : list cellR) j i : R :=
  if first then sumF X n cells' j i else sumF X n cells' j i - sumF X n cells j i.
Definition lcnt (first : bool) (cells cells' : list cellR) j : Z :=
  if first then cntF n cells' j else (cntF n cells' j - cntF n cells j)%Z.

Lemma aggregate_ok (first : bool) (q : dproc NumR) cells0 :
  psized g (dp_p q) -> length cells0 = n ->
  locals_hold g ws data (if first then wnew else wdel) (if first then one else chg) cells0 (ps_cells (dp_st q)) (ps_local (dp_st q)) ->
  exists q', pp_aggregate q = Ok q' /\
    dp_rank q' = dp_rank q /\ dp_cfg q' = dp_cfg q /\ dp_ws q' = dp_ws q /\
    ps_cells (dp_st q') = ps_cells (dp_st q) /\ ps_dm (dp_st q') = ps_dm (dp_st q) /\ ps_local (dp_st q') = ps_local (dp_st q) /\
    psized g (dp_p q') /\ p_prev_means (dp_p q') = c_means (dp_cl q) /\ dp_prev q' = c_members (dp_cl q) /\
    cis k d (dp_cl q') (lsum first cells0 (ps_cells (dp_st q))) (lcnt first cells0 (ps_cells (dp_st q))) (fun _ => false) /\
    ps_changed (dp_st q') = list_sum (map (if first then one else chg) (triples dcell cells0 (ps_cells (dp_st q)) 0 n)).
Proof.
  intros (P1 & P2 & P3 & P4) Lc0 Hl. unfold pp_aggregate. cbn [set_prev_means p_cl].
  change (shaped k d (dp_cl q)) in P1. fold (dp_p q). fold (dp_cl q).
  rewrite (@clear_create NumR k d (dp_cl q) P1).
  destruct (@merge_all g ws data Hws _ _ cells0 (ps_cells (dp_st q)) (ps_local (dp_st q)) _ 0%nat _ _ _ Lc0 Hl (@cis_create k d)) as (c' & E & Hc').
  rewrite E. cbn [bind fst snd]. eexists. split; [reflexivity|].
  cbn [dp_rank dp_cfg dp_ws dp_st ps_cells ps_dm ps_local ps_cltrs dp_p dp_cl dp_prev ps_changed with_cl p_cl p_prev_means p_prev_dist p_s_val]. splits; auto.
  - unfold psized. cbn [p_cl p_prev_means p_prev_dist p_s_val]. splits; auto.
    + apply Hc'.
    + apply (proj1 (shaped_means P1)).
  - eapply cis_ext; [exact Hc'|..]; auto.
    + intros j i _ _. cbn beta. unfold lsum. destruct first; rewrite ?accum_new, ?accum_del; unfold X, d, n; lra.
    + intros j _. cbn beta. unfold lcnt. destruct first; rewrite ?accumZ_new, ?accumZ_del; reflexivity.
Qed.

Lemma local_ok (first : bool) sched (q : dproc NumR) : dp_cfg q = g -> dp_ws q = ws -> complete (w_ranges ws) (sched (dp_rank q)) ->
  psized g (dp_p q) -> dm_ok k (ps_dm (dp_st q)) -> length (ps_cells (dp_st q)) = n -> plocals g ws (dp_st q) ->
  (if first then forall r, (r < n)%nat -> entry_ok k (g_dt g) (cent (dp_st q)) (X r) (cdist (cellat (dp_st q) r)) (casg (cellat (dp_st q) r))
   else assigned g (ps_cells (dp_st q))) ->
  exists q', dp_local first sched q = Ok q' /\
    dp_rank q' = dp_rank q /\ dp_cfg q' = dp_cfg q /\ dp_ws q' = dp_ws q /\
    psized g (dp_p q') /\ dm_ok k (ps_dm (dp_st q')) /\ assigned g (ps_cells (dp_st q')) /\ plocals g ws (dp_st q') /\
    p_prev_means (dp_p q') = c_means (dp_cl q) /\ dp_prev q' = c_members (dp_cl q) /\
    cis k d (dp_cl q') (lsum first (ps_cells (dp_st q)) (ps_cells (dp_st q'))) (lcnt first (ps_cells (dp_st q)) (ps_cells (dp_st q'))) (fun _ => false) /\
    ps_changed (dp_st q') = list_sum (map (if first then one else chg) (triples dcell (ps_cells (dp_st q)) (ps_cells (dp_st q')) 0 n)) /\
    (forall r, (r < n)%nat -> first = true \/ (g_dt g = EUCL /\ rbound g data (dp_st q) r) ->
       exists a, casg (cellat (dp_st q') r) = Some a /\ is_nearest (g_dt g) k (cent (dp_st q)) (X r) a /\
         rdist (g_dt g) (X r) (cent (dp_st q) a) <= cdist (cellat (dp_st q') r)).
Proof.
  intros Eg Ews Hc P Hdm Lc (Hl1 & Hl2) Hcells. pose proof P as (P1 & P2 & P3 & P4). unfold dp_local. rewrite Eg, Ews.
  destruct (@compute_dist_R k d (dp_p q) Hk2 P1 P4 (ps_dm (dp_st q)) Hdm) as (dm & p & E & Ht & C1 & C2 & C3 & _).
  unfold d, dp_p in E. rewrite E. cbn [bind fst snd]. clear E.
  assert (Pp : psized g p).
  { split; [rewrite C1; exact P1|]. rewrite C2, C3. splits; auto. apply Ht. }
  assert (Ec : cent (dp_st q) = crow (p_cl p)) by (unfold cent; rewrite C1; reflexivity).
  assert (G : exists locs cells', pEM_round g ws p dm first (sched (dp_rank q)) (ps_local (dp_st q)) (ps_cells (dp_st q)) = Ok (locs, cells') /\
    assigned g cells' /\ locals_hold g ws data (if first then wnew else wdel) (if first then one else chg) (ps_cells (dp_st q)) cells' locs /\
    (forall r, (r < n)%nat -> first = true \/ (g_dt g = EUCL /\ rbound g data (dp_st q) r) ->
       exists a, casg (nth r cells' dcell) = Some a /\ is_nearest (g_dt g) k (cent (dp_st q)) (X r) a /\
         rdist (g_dt g) (X r) (cent (dp_st q) a) <= cdist (nth r cells' dcell))).
  { destruct first.
    - rewrite Ec in Hcells.
      destruct (@init_round g ws data Hws Hdata p dm (sched (dp_rank q)) (ps_local (dp_st q)) (ps_cells (dp_st q))) as (locs & cells' & E & A1 & A2 & A3 & A4); auto.
      { apply Pp. }
      { fold k. lia. }
      exists locs, cells'. splits; auto.
      + split; auto. intros r Hr. destruct (A3 r Hr) as (a & ? & (? & _) & _). eauto.
      + split; auto.
      + intros r Hr _. destruct (A3 r Hr) as (a & H1 & H2 & H3). exists a. rewrite Ec. splits; auto. rewrite H3. apply Rle_refl.
    - destruct Hcells as (_ & Has).
      assert (Lpd : length (p_prev_dist p) = k) by apply Pp.
      destruct (@pruned_round_gen g ws data Hws Hdata (fun r dv a => g_dt g = EUCL -> rbound g data (dp_st q) r ->
         is_nearest EUCL k (crow (p_cl p)) (X r) a /\ edist (X r) (crow (p_cl p) a) <= dv) p dm (sched (dp_rank q)) (ps_local (dp_st q)) (ps_cells (dp_st q)))
        as (locs & cells' & E & A1 & A2 & A3 & A4); auto.
      { apply Pp. }
      { intros r x Hr Hx. destruct (Has r Hr) as (o & Eo & Ho). exists o. splits; auto.
        destruct (@prow_pruned_any g data Hdata (g_dt g) x (X r) p dm (cdist (nth r (ps_cells (dp_st q)) dcell)) o Hx) as (dv' & a & rc' & E & Ha); auto; try apply Pp.
        { apply (@X_len g data Hdata r Hr). }
        { apply Ht. }
        exists dv', a, rc'. splits; auto. intros Hdt (o' & Eo' & _ & Hb). unfold cellat in Eo', Hb. rewrite Eo in Eo'. injection Eo' as <-.
        assert (Lx : @length R (X r) = d) by apply (@X_len g data Hdata r Hr).
        change (ps_cltrs (dp_st q)) with (dp_p q) in Hb. rewrite Ec in Hb. rewrite <- C3 in Hb.
        destruct (@prow_pruned_R k d x (X r) p dm (cdist (nth r (ps_cells (dp_st q)) dcell)) o Hx Lx Ht Lpd Ho Hb) as (dv2 & a2 & rc2 & E2 & Hn & Hle).
        fold d in E. rewrite Hdt in E. rewrite E in E2. injection E2 as <- <- <-. auto. }
      exists locs, cells'. splits; auto.
      + split; auto. intros r Hr. destruct (A3 r Hr) as (a & ? & ? & _). eauto.
      + split; auto.
      + intros r Hr [Hf|(Hdt & Hb)]; [discriminate|]. destruct (A3 r Hr) as (a & H1 & H2 & H3). destruct (H3 Hdt Hb) as (H4 & H5).
        exists a. rewrite Ec, Hdt. splits; auto. }
  destruct G as (locs & cells' & E & Has & Hlh & Hn). rewrite E. cbn [bind fst snd].
  set (q1 := dp_with q (mkPst p dm cells' (ps_counts (dp_st q)) (ps_changed (dp_st q)) locs)).
  destruct (@aggregate_ok first q1 (ps_cells (dp_st q)) Pp Lc Hlh) as (q' & Eq & A1 & A2 & A3 & A4 & A5 & A6 & A7 & A8 & A9 & A10 & A11).
  rewrite Eq. exists q'. unfold q1 in *. cbn [dp_with dp_rank dp_cfg dp_ws dp_st ps_cells ps_dm ps_local ps_cltrs dp_p dp_cl] in *.
  rewrite A4, A5. splits; auto.
  - congruence.
  - congruence.
  - apply Ht.
  - unfold plocals. rewrite A6. eapply locals_after; eauto.
  - etransitivity; [exact A8|]. exact (f_equal (fun c => c_means c) C1).
  - etransitivity; [exact A9|]. exact (f_equal (fun c => c_members c) C1).
  - intros r Hr H. destruct (Hn r Hr H) as (a & H1 & H2 & H3). exists a. unfold cellat. rewrite A4. auto.
Qed.

End Local.
