(** C129: a run that may make no iterations returns its start. *)
From Coq Require Import Reals Lra.
From Verif Require Import Base Num Spec DistModel ClustersModel ClustersView PartitionModel ParModel KmeansModel PruneModel BestOfModel.
From Verif Require Import MatLemmas VecLemmas ClustersProofs DistProofs ParProofs NearProofs KmeansProofs RunProofs InitProofs SimProofs PropertiesKmeansR PropertiesRun PropertiesKmspp DistMatProofs PropertiesBestOf.
Set Implicit Arguments.

Section Any.
Variable N : Num.
Notation T := (car N).
Variables (g : kcfg N) (data : list T) (dr : draws N) (scheds : nat -> list nat).
Hypothesis Hz : g_max_iters g = 0.
Hypothesis V : valid_input g data.

Definition result (asg : list (option nat)) (counts : list Z) (means : list T) : cluster_t N :=
  mkCluster N (g_nrow g) (g_ncol g) 0 (g_k g) asg counts means.

(** what a run returns, in terms of the state its initialiser leaves *)
Lemma run_zero centers it s s' : coordinator_create g centers it = Ok s ->
  (forall ws, build_workers g data = Ok ws -> run_init g it ws data dr s = Ok s') ->
  exists rr, run g centers it data dr scheds = Ok rr /\ rr_init rr = s' /\ rr_out rr = result (s_asg s') (s_counts s') (c_means (s_cltrs s')).
Proof.
  intros Es Hi. destruct (get_workers V) as (ws & Ew & _). unfold run. rewrite Es. cbn [Base.bind]. rewrite Ew. cbn [Base.bind]. rewrite (Hi ws Ew). cbn [Base.bind].
  rewrite Hz. cbn [main_loop Nat.ltb Nat.leb Base.bind]. eexists. split; [reflexivity|]. split; reflexivity.
Qed.

Definition pstate (s : kst N) (dm : dist_matrix N) (l : list (clusters N * nat)) : pst N :=
  mkPst (with_cl (prune_create N (g_k g) (g_ncol g)) (s_cltrs s)) dm (repeat (nmax N, None, false) (g_nrow g)) (repeat 0%Z (g_k g)) 0 l.

(** the pruned coordinator is created with the same clusters *)
Lemma pcreate centers it s dm : coordinator_create g centers it = Ok s -> dm_create N (g_k g) = Ok dm ->
  prune_create_coord g centers it = Ok (pstate s dm (s_local s)).
Proof.
  intros Es Ed. unfold coordinator_create in Es. unfold prune_create_coord. apply bind_ok in Es as (u & Ea & Es). rewrite Ea. cbn [Base.bind].
  cbn [prune_create p_cl]. apply bind_ok in Es as (c & Ec & Es).
  change (match centers, it with Some m, NONE => set_mean_all (clusters_create N (g_k g) (g_ncol g)) (m, 0) | _, _ => Ok (clusters_create N (g_k g) (g_ncol g)) end = Ok c) in Ec.
  rewrite Ec. cbn [Base.bind]. rewrite Ed. cbn [Base.bind]. injection Es as <-. reflexivity.
Qed.

Lemma asg_fresh n : asg_of (repeat (nmax N, @None nat, false) n) = repeat None n.
Proof. unfold asg_of. induction n as [|n IH]; [reflexivity|]. cbn [repeat map]. rewrite IH. reflexivity. Qed.
Lemma asg_back (u : list T) : forall v w m, length u = m -> length v = m -> length w = m -> asg_of (combine (combine u v) w : list (T * option nat * bool)) = v.
Proof.
  unfold asg_of. induction u as [|x u IH]; intros [|y v] [|z w] m Hu Hv Hw; cbn in *; subst; try discriminate; [reflexivity|].
  rewrite (IH v w (length u)) by lia. reflexivity.
Qed.

Lemma prune_zero centers it s ks s' : 2 <= g_k g -> it <> PLUSPLUS -> coordinator_create g centers it = Ok s ->
  ks = mkSt (s_cltrs s) (repeat None (g_nrow g)) (repeat 0%Z (g_k g)) 0 (s_local s) ->
  (forall ws, build_workers g data = Ok ws -> run_init g it ws data dr ks = Ok s') -> length (s_asg s') = g_nrow g ->
  exists rr, prune_run g centers it data dr scheds = Ok rr /\ pr_out rr = result (s_asg s') (s_counts s') (c_means (s_cltrs s')).
Proof.
  intros Hk Hit Es Eks Hi La. destruct (get_workers V) as (ws & Ew & _). destruct (@dm_create_ok N (g_k g) Hk) as (dm & Ed & _).
  unfold prune_run. rewrite (@pcreate centers it s dm Es Ed). cbn [Base.bind]. rewrite Ew. cbn [Base.bind]. unfold prune_run_init.
  assert (E0 : mkSt (p_cl (ps_cltrs (pstate s dm (s_local s)))) (asg_of (PruneModel.ps_cells (pstate s dm (s_local s)))) (ps_counts (pstate s dm (s_local s)))
     (ps_changed (pstate s dm (s_local s))) (ps_local (pstate s dm (s_local s))) = ks).
  { rewrite Eks. cbn [pstate p_cl with_cl ps_cltrs PruneModel.ps_cells ps_counts ps_changed ps_local]. rewrite asg_fresh. reflexivity. }
  rewrite E0. specialize (Hi ws Ew). rewrite Hz. cbn [Nat.ltb Nat.leb].
  destruct it; try congruence; rewrite Hi; cbn [Base.bind]; eexists; (split; [reflexivity|]); cbn [pr_out PruneModel.ps_cells ps_counts ps_cltrs]; unfold result;
    (rewrite asg_back with (m := g_nrow g); [reflexivity| |exact La|]); unfold pstate, dist_of; cbn [PruneModel.ps_cells]; rewrite map_length, repeat_length; reflexivity.
Qed.
End Any.

(** Given centroids: they are returned, no row is assigned. *)
Theorem C129_given : forall N (g : kcfg N) data dr scheds m, g_max_iters g = 0 -> valid_input g data -> 1 <= g_k g -> length m = g_k g * g_ncol g ->
  let out := mkCluster N (g_nrow g) (g_ncol g) 0 (g_k g) (repeat None (g_nrow g)) (repeat 0%Z (g_k g)) m in
  (exists rr, run g (Some m) NONE data dr scheds = Ok rr /\ rr_out rr = out) /\
  (2 <= g_k g -> exists rr, prune_run g (Some m) NONE data dr scheds = Ok rr /\ pr_out rr = out).
Proof.
  intros N g data dr scheds m Hz V Hk Lm out. destruct (@create_ok N g (Some m) NONE Hk) as (s & Es & Hc & Ha & Hn & Hch). { cbn. lia. }
  assert (Em : c_means (s_cltrs s) = m). { rewrite Hc. cbn. rewrite <- Lm. apply firstn_all. }
  split.
  - destruct (@run_zero N g data dr scheds Hz V (Some m) NONE s s Es) as (rr & E & _ & Eo); [reflexivity|]. exists rr. split; [exact E|]. rewrite Eo, Ha, Hn, Em. reflexivity.
  - intros Hk2. destruct (@prune_zero N g data dr scheds Hz V (Some m) NONE s _ _ Hk2 ltac:(discriminate) Es eq_refl ltac:(reflexivity)) as (rr & E & Eo).
    { cbn. apply repeat_length. } exists rr. split; [exact E|]. rewrite Eo. cbn. rewrite Em. reflexivity.
Qed.

(** Forgy: the drawn rows are returned, no row is assigned. *)
Theorem C129_forgy : forall N (g : kcfg N) data dr scheds centers, g_max_iters g = 0 -> valid_input g data -> 1 <= g_k g ->
  (forall c, c < g_k g -> d_int dr c < g_nrow g) ->
  exists means, length means = g_k g * g_ncol g /\ (forall j, j < g_k g -> row means (g_ncol g) j = row data (g_ncol g) (d_int dr j)) /\
  let out := mkCluster N (g_nrow g) (g_ncol g) 0 (g_k g) (repeat None (g_nrow g)) (repeat 0%Z (g_k g)) means in
  (exists rr, run g centers FORGY data dr scheds = Ok rr /\ rr_out rr = out) /\
  (2 <= g_k g -> exists rr, prune_run g centers FORGY data dr scheds = Ok rr /\ pr_out rr = out).
Proof.
  intros N g data dr scheds centers Hz V Hk D. destruct (@create_ok N g centers FORGY Hk) as (s & Es & Hc & Ha & Hn & Hch). { destruct centers; exact I. }
  assert (Sh : shaped (g_k g) (g_ncol g) (s_cltrs s)).
  { destruct V as (V1 & V2 & V3 & V4). destruct (@build_workers_ok N g data V1 V2 V3 V4) as (ws' & E' & _ & L & _).
    destruct (@create_stok N g centers FORGY s ws' Es L) as (St & _). apply St. }
  assert (Eks : s = mkSt (s_cltrs s) (repeat None (g_nrow g)) (repeat 0%Z (g_k g)) 0 (s_local s)).
  { rewrite <- Ha, <- Hn, <- Hch. destruct s; reflexivity. }
  destruct (@forgy_ok N g data V (d_int dr) s Sh D) as (a & Ea & Sa & Hrow & Haa & Han & _).
  exists (c_means (s_cltrs a)). split.
  { destruct Sa as (A1 & A2 & A3). destruct A3 as (A3 & _). rewrite A1, A2 in A3. exact A3. }
  split.
  { intros j Hj. specialize (Hrow j Hj). unfold cel, crow in Hrow. destruct Sa as (_ & Sd & _). rewrite Sd in Hrow. injection Hrow as Hrow _ _. exact Hrow. }
  intros out. split.
  - destruct (@run_zero N g data dr scheds Hz V centers FORGY s a Es) as (rr & E & _ & Eo); [intros ws _; exact Ea|]. exists rr. split; [exact E|]. rewrite Eo, Haa, Ha, Han, Hn. reflexivity.
  - intros Hk2. destruct (@prune_zero N g data dr scheds Hz V centers FORGY s s a Hk2 ltac:(discriminate) Es Eks) as (rr & E & Eo).
    { intros ws _. exact Ea. } { rewrite Haa, Ha. apply repeat_length. } exists rr. split; [exact E|]. rewrite Eo, Haa, Ha, Han, Hn. reflexivity.
Qed.

(** Random partition: every row keeps the cluster drawn for it; the sizes
    returned are zero nevertheless. *)
Theorem C129_random : forall N (g : kcfg N) data dr scheds centers, g_max_iters g = 0 -> valid_input g data -> 1 <= g_k g ->
  (forall r, r < g_nrow g -> d_int dr r < g_k g) ->
  let asg := map (fun r => Some (d_int dr r)) (seq 0 (g_nrow g)) in
  exists means,
  let out := mkCluster N (g_nrow g) (g_ncol g) 0 (g_k g) asg (repeat 0%Z (g_k g)) means in
  (exists rr, run g centers RANDOM data dr scheds = Ok rr /\ rr_out rr = out) /\
  (2 <= g_k g -> exists rr, prune_run g centers RANDOM data dr scheds = Ok rr /\ pr_out rr = out).
Proof.
  intros N g data dr scheds centers Hz V Hk D asg. destruct (@create_ok N g centers RANDOM Hk) as (s & Es & Hc & Ha & Hn & Hch). { destruct centers; exact I. }
  assert (Eks : s = mkSt (s_cltrs s) (repeat None (g_nrow g)) (repeat 0%Z (g_k g)) 0 (s_local s)).
  { rewrite <- Ha, <- Hn, <- Hch. destruct s; reflexivity. }
  destruct (@random_ok N g data V (d_int dr) s) as (a & Ea & Sa & (Hrow & Haa) & Han & _).
  { rewrite Hc. unfold clusters_create. rewrite (Nat.mul_comm (g_ncol g)). destruct centers; reflexivity. }
  { rewrite Ha, repeat_length. reflexivity. } { exact D. }
  rewrite map_map in Haa. fold asg in Haa. exists (c_means (s_cltrs a)). intros out. split.
  - destruct (@run_zero N g data dr scheds Hz V centers RANDOM s a Es) as (rr & E & _ & Eo); [intros ws _; exact Ea|]. exists rr. split; [exact E|]. rewrite Eo, Haa, Han, Hn. reflexivity.
  - intros Hk2. destruct (@prune_zero N g data dr scheds Hz V centers RANDOM s s a Hk2 ltac:(discriminate) Es Eks) as (rr & E & Eo).
    { intros ws _. exact Ea. } { rewrite Haa. unfold asg. rewrite map_length, seq_length. reflexivity. } exists rr. split; [exact E|]. rewrite Eo, Haa, Han, Hn. reflexivity.
Qed.

Local Open Scope R_scope.
(** k-means++ with pruning: a valid start, sizes included. *)
Theorem C129_pruned_kmeanspp : forall (g : kcfg NumR) (data : list R) dr scheds centers, g_max_iters g = 0%nat -> (2 <= g_k g)%nat ->
  valid_input g data -> proper g data -> draws_ok g data PLUSPLUS dr -> (forall t, 0 <= d_real dr t <= 1) ->
  (forall r q, (r < g_nrow g)%nat -> (q < g_nrow g)%nat -> rdist (g_dt g) (row data (g_ncol g) r) (row data (g_ncol g) q) < IZR dbl_max_Z) ->
  exists rr e, prune_run g centers PLUSPLUS data dr scheds = Ok rr /\ start_ok g data (d_int dr 0%nat) e (pr_out rr).
Proof.
  intros g data dr scheds centers Hz Hk V P D Hur Hfin. destruct (get_workers V) as (ws & Ew & W).
  destruct (@create_ok NumR g centers PLUSPLUS ltac:(lia)) as (s & Es & Hc & Ha & Hn & Hch). { destruct centers; exact I. }
  destruct (@dm_create_ok NumR (g_k g) Hk) as (dm & Ed & _). pose proof (@stok_create NumR g centers PLUSPLUS data s ws V Es Ew) as (Sh & _).
  assert (PS : ppst g (pstate g s dm (s_local s))). { split; [exact Sh|]. cbn [pstate PruneModel.ps_cells]. apply repeat_length. }
  destruct (@pp_start g data ws V Ew W P Hk Hfin dr (pstate g s dm (s_local s)) D Hur PS eq_refl)
    as (s1 & s2 & E1 & Et & _ & _ & Hst & _ & C2 & K2 & _).
  unfold prune_run. rewrite (@pcreate NumR g centers PLUSPLUS s dm Es Ed). cbn [Base.bind]. rewrite Ew. cbn [Base.bind]. rewrite E1. cbn [Base.bind].
  rewrite Hz. cbn [Nat.ltb Nat.leb]. unfold tally_state in Et. apply bind_ok in Et as (cn & Et & E2). rewrite Et. cbn [Base.bind].
  eexists; exists (cluster_energy s2). split; [reflexivity|]. cbn [pr_out]. injection E2 as <-. exact Hst.
Qed.

(** k-means++ without pruning: centres that are data rows, every row assigned to a
    nearest one; but the sizes returned are zero. *)
Theorem C129_plain_kmeanspp_partial : forall (g : kcfg NumR) (data : list R) dr scheds centers, g_max_iters g = 0%nat -> (1 <= g_k g)%nat ->
  valid_input g data -> proper g data -> draws_ok g data PLUSPLUS dr -> (forall t, 0 <= d_real dr t <= 1) ->
  (forall r q, (r < g_nrow g)%nat -> (q < g_nrow g)%nat -> rdist (g_dt g) (row data (g_ncol g) r) (row data (g_ncol g) q) < IZR dbl_max_Z) ->
  exists rr, run g centers PLUSPLUS data dr scheds = Ok rr /\
  let X r := row data (g_ncol g) r in let C j := row (ct_centroids (rr_out rr)) (g_ncol g) j in
  ct_nrow (rr_out rr) = g_nrow g /\ ct_ncol (rr_out rr) = g_ncol g /\ ct_k (rr_out rr) = g_k g /\ ct_iters (rr_out rr) = 0%nat /\
  (forall j, (j < g_k g)%nat -> exists q, (q < g_nrow g)%nat /\ C j = X q) /\
  (forall r, (r < g_nrow g)%nat -> exists j, nth_error (ct_asg (rr_out rr)) r = Some (Some j) /\ (j < g_k g)%nat /\
     forall j', (j' < g_k g)%nat -> rdist (g_dt g) (X r) (C j) <= rdist (g_dt g) (X r) (C j')) /\
  ct_counts (rr_out rr) = repeat 0%Z (g_k g).
Proof.
  intros g data dr scheds centers Hz Hk V P D Hur Hfin. destruct (get_workers V) as (ws & Ew & W).
  assert (Hcn : centers_ok g centers PLUSPLUS) by (destruct centers; exact I).
  destruct (@create_ok NumR g centers PLUSPLUS Hk Hcn) as (s & Es & Hc & Ha & Hn & Hch).
  pose proof (@C28_kmeanspp g centers data dr s ws (conj V (conj Hk (conj Hcn D))) Hur P Es Ew) as G. cbv zeta in G.
  destruct G as (s' & dv & trace & chosen & E & Lch & Hcent & _ & _ & Hnear). specialize (Hnear Hfin).
  assert (Ecnt : s_counts s' = repeat 0%Z (g_k g)).
  { rewrite <- Hn. clear - E. unfold kmeanspp_init_t in E. apply bind_ok in E as (p & _ & E). apply bind_ok in E as (c & _ & E). apply bind_ok in E as (dist & _ & E). apply bind_ok in E as (asg & _ & E).
    apply bind_ok in E as ([[[c2 cells] tr'] ch'] & _ & E). injection E as <- _ _ _. reflexivity. }
  destruct (@run_zero NumR g data dr scheds Hz V centers PLUSPLUS s s' Es) as (rr & Er & _ & Eo).
  { intros ws' Ew'. rewrite Ew in Ew'. injection Ew' as <-. cbn [run_init]. rewrite E. reflexivity. }
  exists rr. split; [exact Er|]. cbv zeta. rewrite Eo. cbn [result ct_centroids ct_asg ct_counts ct_nrow ct_ncol ct_k ct_iters].
  split; [reflexivity|]. split; [reflexivity|]. split; [reflexivity|]. split; [reflexivity|]. split; [|split; [exact Hnear|exact Ecnt]].
  intros j Hj. destruct (Hcent j Hj) as (q & _ & Hq & Eq). exists q. auto.
Qed.

(** The sizes are not the numbers of assigned rows: after k-means++ without
    pruning, for any data of at least one row. *)
Theorem C129_refuted : forall (g : kcfg NumR) (data : list R) dr scheds centers, g_max_iters g = 0%nat -> (1 <= g_k g)%nat ->
  valid_input g data -> proper g data -> draws_ok g data PLUSPLUS dr -> (forall t, 0 <= d_real dr t <= 1) ->
  (forall r q, (r < g_nrow g)%nat -> (q < g_nrow g)%nat -> rdist (g_dt g) (row data (g_ncol g) r) (row data (g_ncol g) q) < IZR dbl_max_Z) ->
  (0 < g_nrow g)%nat ->
  exists rr j, run g centers PLUSPLUS data dr scheds = Ok rr /\ (j < g_k g)%nat /\
    nth j (ct_counts (rr_out rr)) 0%Z <> Z.of_nat (length (filter (fun a => match a with Some i => (i =? j)%nat | None => false end) (ct_asg (rr_out rr)))).
Proof.
  intros g data dr scheds centers Hz Hk V P D Hur Hfin Hn. destruct (@C129_plain_kmeanspp_partial g data dr scheds centers Hz Hk V P D Hur Hfin) as (rr & E & G). cbv zeta in G.
  destruct G as (_ & _ & _ & _ & _ & Hnear & Hc). destruct (Hnear 0%nat Hn) as (j & Ha & Hj & _). exists rr, j. split; [exact E|]. split; [exact Hj|].
  rewrite Hc, nth_repeat. destruct (ct_asg (rr_out rr)) as [|a l]; [discriminate|]. cbn in Ha. injection Ha as ->. cbn [filter]. rewrite Nat.eqb_refl. cbn [length]. lia.
Qed.

(** five values in two clusters meet the hypotheses of the k-means++ theorems *)
Example C129_example : let g := mkCfg NumR 5 1 2 0 2 (-1) EUCL NumaReorg in
  g_max_iters g = 0%nat /\ (2 <= g_k g)%nat /\ valid_input g exdR /\ proper g exdR /\ draws_ok g exdR PLUSPLUS exdrR /\
  (forall t, 0 <= d_real exdrR t <= 1) /\
  (forall r q, (r < g_nrow g)%nat -> (q < g_nrow g)%nat -> rdist (g_dt g) (row exdR (g_ncol g) r) (row exdR (g_ncol g) q) < IZR dbl_max_Z).
Proof.
  intros g. assert (V : valid_input g exdR) by (unfold valid_input; cbn; splits; lia || reflexivity).
  assert (H : okmap (@w_ranges NumR) (build_workers g exdR) = Some [(0, 2); (2, 3)]%nat).
  { unfold g, exdR. generalize (IZR 0), (IZR 1), (IZR 6), (IZR 10), (IZR 11). intros a b c d e. generalize (IZR (-1)). intros t. lazy. reflexivity. }
  split; [reflexivity|]. split; [cbn; lia|]. split; [exact V|]. split; [intros Q; discriminate|]. split.
  { split; [cbn; lia|]. intros ws E i. rewrite E in H. cbn [okmap] in H. injection H as ->. intros [|[|[|t]]] s n Ht; try discriminate; injection Ht as <- <-; cbn; lia. }
  split; [intros t; cbn; lra|]. intros r q Hr Hq. cbn [g_dt g g_ncol].
  assert (B : forall i, (i < 5)%nat -> exists x, row exdR 1 i = [x] /\ 0 <= x <= 11).
  { intros i Hi. destruct i as [|[|[|[|[|i]]]]]; try lia; eexists; (split; [reflexivity|lra]). }
  destruct (B r Hr) as (x & -> & Hx). destruct (B q Hq) as (y & -> & Hy).
  assert (Ht : rdist EUCL [x] [y] <= 11).
  { cbn [rdist]. unfold edist. assert (Es : sqdist [x] [y] = (x - y) * (x - y)) by (cbn; ring). rewrite Es.
    rewrite sqrt_Rsqr_abs || (change ((x - y) * (x - y)) with (Rsqr (x - y)); rewrite sqrt_Rsqr_abs). unfold Rabs; destruct (Rcase_abs _); lra. }
  eapply Rle_lt_trans; [exact Ht|]. apply IZR_lt. reflexivity.
Qed.
