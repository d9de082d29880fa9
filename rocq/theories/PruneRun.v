(** Iterations and runs of pruned k-means, in exact arithmetic. *)
From Coq Require Import Reals Lra.
From Verif Require Import Base Num Spec DistModel ClustersModel ClustersView PartitionModel ParModel KmeansModel PruneModel.
From Verif Require Import MatLemmas VecLemmas ClustersProofs DistProofs PartitionProofs ParProofs NearProofs KmeansProofs UpdateProofs RunProofs ParRule DistMatProofs PruneProofs ClusterSums PruneRound PruneUpdate.
Set Implicit Arguments.
Local Open Scope R_scope.

Section Iter.
Variables (g : kcfg NumR) (ws : list (worker NumR)) (data : list (car NumR)).
Let d := g_ncol g.
Let k := g_k g.
Let n := g_nrow g.
Let X (r : nat) : list R := row data d r.
Hypothesis Hws : wok n d data ws.
Hypothesis Hdata : length data = (n * d)%nat.
Hypothesis Hn32 : (Z.of_nat n < 2 ^ 32)%Z.
Hypothesis Hk2 : (2 <= k)%nat.

Definition cellat (s : pst NumR) (r : nat) : cellR := nth r (ps_cells s) dcell.
Definition cent (s : pst NumR) (j : nat) : list R := crow (p_cl (ps_cltrs s)) j.
Definition plocals (s : pst NumR) : Prop :=
  length (ps_local s) = length ws /\ Forall (fun l : wstate NumR => shaped k d (fst l)) (ps_local s).

(** before the first pass *)
Definition ppre (s : pst NumR) : Prop :=
  psized g (ps_cltrs s) /\ dm_ok k (ps_dm s) /\ length (ps_counts s) = k /\ length (ps_cells s) = n /\ plocals s.

(** between rounds *)
Definition pinv (s : pst NumR) : Prop :=
  psized g (ps_cltrs s) /\ means_of g data (ps_cltrs s) (ps_cells s) /\ dm_ok k (ps_dm s) /\
  ps_counts s = map (cntF n (ps_cells s)) (seq 0 k) /\ assigned g (ps_cells s) /\ plocals s.

Definition rbound (s : pst NumR) (r : nat) : Prop :=
  exists a, casg (cellat s r) = Some a /\ (a < k)%nat /\
    edist (X r) (cent s a) <= cdist (cellat s r) + nth a (p_prev_dist (ps_cltrs s)) 0.

Lemma pinv_pre s : pinv s -> ppre s.
Proof.
  intros (H1 & H2 & H3 & H4 & (H5 & _) & H6). unfold ppre. splits; auto. rewrite H4, map_length, seq_length. reflexivity.
Qed.

Lemma locals_after w f cells cells' locs : locals_hold g ws data w f cells cells' locs ->
  length locs = length ws /\ Forall (fun l : wstate NumR => shaped k d (fst l)) locs.
Proof.
  intros (L & H). split; auto. apply Forall_forall. intros l Hin. apply In_nth_error in Hin as (t & Et).
  destruct (nth_error (w_ranges ws) t) as [[s m]|] eqn:Er.
  - destruct (H t s m l Er Et) as ((Hs & _) & _). exact Hs.
  - exfalso. apply nth_error_None in Er. unfold w_ranges in Er. rewrite map_length in Er.
    assert (t < length locs)%nat by (apply nth_error_Some; congruence). lia.
Qed.

Lemma iterate_ok sched (s : pst NumR) : complete (w_ranges ws) sched -> pinv s ->
  exists s', prune_iterate g ws sched s = Ok s' /\ pinv s' /\
    ps_changed s' = (ps_changed s + list_sum (map chg (triples dcell (ps_cells s) (ps_cells s') 0 n)))%nat /\
    (g_dt g = EUCL -> forall r, (r < n)%nat -> rbound s r ->
       rbound s' r /\ exists a, casg (cellat s' r) = Some a /\ is_nearest EUCL k (cent s) (X r) a).
Proof.
  intros Hc Hi. pose proof Hi as (P & Hmo & Hdm & Hcn & Has & (Hl1 & Hl2)). pose proof P as (P1 & P2 & P3 & P4).
  unfold prune_iterate.
  destruct (@compute_dist_R k d (ps_cltrs s) Hk2 P1 P4 (ps_dm s) Hdm) as (dm & p & E & Ht & C1 & C2 & C3 & _).
  unfold d in E. rewrite E. cbn [bind fst snd]. clear E.
  assert (Pp : psized g p).
  { split; [rewrite C1; exact P1|]. rewrite C2, C3. splits; auto. apply Ht. }
  assert (Lpd : length (p_prev_dist p) = k) by apply Pp.
  destruct Has as (Lc & Has).
  destruct (@pruned_round_gen g ws data Hws Hdata (fun r dv a => g_dt g = EUCL -> rbound s r ->
     is_nearest EUCL k (crow (p_cl p)) (X r) a /\ edist (X r) (crow (p_cl p) a) <= dv) p dm sched (ps_local s) (ps_cells s))
    as (locs & cells' & E & A1 & A2 & A3 & A4); auto.
  { apply Pp. }
  { intros r x Hr Hx. destruct (Has r Hr) as (o & Eo & Ho). exists o. splits; auto.
    destruct (@prow_pruned_any g data Hdata (g_dt g) x (X r) p dm (cdist (nth r (ps_cells s) dcell)) o Hx) as (dv' & a & rc' & E & Ha); auto; try apply Pp.
    { apply (@X_len g data Hdata r Hr). }
    { apply Ht. }
    exists dv', a, rc'. splits; auto. intros Hdt (o' & Eo' & _ & Hb). unfold cellat in Eo', Hb. rewrite Eo in Eo'. injection Eo' as <-.
    assert (Lx : @length R (X r) = d) by apply (@X_len g data Hdata r Hr).
    unfold cent in Hb. rewrite <- C1, <- C3 in Hb.
    destruct (@prow_pruned_R k d x (X r) p dm (cdist (nth r (ps_cells s) dcell)) o Hx Lx Ht Lpd Ho Hb) as (dv2 & a2 & rc2 & E2 & Hn & Hle).
    fold d in E. rewrite Hdt in E. rewrite E in E2. injection E2 as <- <- <-. auto. }
  rewrite E. cbn [bind fst snd].
  set (s1 := mkPst p dm cells' (ps_counts s) (ps_changed s) locs).
  assert (Hlh : locals_hold g ws data wdel chg (ps_cells s) cells' locs) by (split; auto).
  destruct (@update_next g ws data Hws Hn32 s1 (ps_cells s)) as (p' & E2 & B1 & B2 & B3 & B4); auto.
  { unfold s1, means_of. cbn [ps_cltrs]. rewrite C1. exact Hmo. }
  { unfold s1. cbn [ps_counts]. rewrite Hcn, map_length, seq_length. reflexivity. }
  { split; auto. intros r Hr. destruct (A3 r Hr) as (a & ? & ? & _). eauto. }
  rewrite E2. eexists. split; [reflexivity|]. unfold s1 in *. cbn [ps_cells ps_dm ps_local ps_changed ps_cltrs] in *.
  splits; auto.
  - unfold pinv. cbn [ps_cells ps_dm ps_local ps_changed ps_cltrs ps_counts]. splits; auto.
    + apply Ht.
    + split; auto. intros r Hr. destruct (A3 r Hr) as (a & ? & ? & _). eauto.
    + apply (locals_after Hlh).
  - intros Hdt r Hr Hb. destruct (A3 r Hr) as (a & Ea & Ha & HQ). destruct (HQ Hdt Hb) as (Hn & Hle).
    unfold cellat, cent. cbn [ps_cells ps_cltrs]. rewrite C1 in Hn, Hle. split; [|eauto].
    exists a. unfold cellat, cent. cbn [ps_cells ps_cltrs]. splits; auto.
    assert (Er : crow (p_cl (ps_cltrs s)) a = row (c_means (p_cl p)) (g_ncol g) a).
    { unfold crow. destruct P1 as (_ & Sd & _). rewrite Sd, C1. reflexivity. }
    assert (L1 : @length R (X r) = d) by apply (@X_len g data Hdata r Hr).
    assert (L2 : @length R (crow (p_cl (ps_cltrs s)) a) = d) by (apply (@crow_len k); auto).
    assert (L3 : @length R (crow (p_cl p') a) = d) by (apply (@crow_len k); [apply B1|auto]).
    pose proof (@edist_triangle (X r) (crow (p_cl (ps_cltrs s)) a) (crow (p_cl p') a) (eq_trans L1 (eq_sym L2)) (eq_trans L2 (eq_sym L3))) as Htri.
    rewrite (edist_sym (crow (p_cl (ps_cltrs s)) a)) in Htri.
    eapply Rle_trans; [exact Htri|]. apply Rplus_le_compat; [exact Hle|].
    right. symmetry. etransitivity; [exact (B4 a Ha)|]. f_equal. symmetry. exact Er.
Qed.

Lemma first_ok sched (s : pst NumR) : complete (w_ranges ws) sched -> ppre s ->
  (forall r, (r < n)%nat -> entry_ok k (g_dt g) (cent s) (X r) (cdist (cellat s r)) (casg (cellat s r))) ->
  exists s', prune_first g ws sched s = Ok s' /\ pinv s' /\ ps_changed s' = 0%nat /\
    (forall r, (r < n)%nat -> exists a, casg (cellat s' r) = Some a /\
       is_nearest (g_dt g) k (cent s) (X r) a /\ cdist (cellat s' r) = rdist (g_dt g) (X r) (cent s a)) /\
    p_prev_means (ps_cltrs s') = p_prev_means (ps_cltrs s) /\
    drift_of k d (ps_cltrs s') (p_prev_means (ps_cltrs s)).
Proof.
  intros Hc (P & Hdm & Lcn & Lc & (Hl1 & Hl2)) He. pose proof P as (P1 & _). unfold prune_first.
  destruct (@init_round g ws data Hws Hdata (ps_cltrs s) (ps_dm s) sched (ps_local s) (ps_cells s)) as (locs & cells' & E & A1 & A2 & A3 & A4); auto.
  { fold k. lia. }
  rewrite E. cbn [bind fst snd].
  set (s1 := mkPst (ps_cltrs s) (ps_dm s) cells' (ps_counts s) (ps_changed s) locs).
  assert (Hlh : locals_hold g ws data wnew one (ps_cells s) cells' locs) by (split; auto).
  assert (Has : assigned g cells').
  { split; auto. intros r Hr. destruct (A3 r Hr) as (a & ? & (? & _) & _). eauto. }
  destruct (@update_init g ws data Hws Hn32 s1 (ps_cells s)) as (p' & ch & E2 & B1 & B2 & B3 & B4); auto.
  rewrite E2. cbn [bind]. eexists. split; [reflexivity|]. unfold with_changed, s1 in *. cbn [ps_cells ps_dm ps_local ps_changed ps_cltrs ps_counts] in *.
  splits; auto.
  unfold pinv. cbn [ps_cells ps_dm ps_local ps_changed ps_cltrs ps_counts]. splits; auto. apply (locals_after Hlh).
Qed.

End Iter.
