(** C30-C34, C36, C37: triangle-inequality pruned k-means (one process). *)
From Coq Require Import Reals Lra.
From Verif Require Import Base Num Spec DistModel ClustersModel ClustersView PartitionModel ParModel KmeansModel PruneModel.
From Verif Require Import MatLemmas VecLemmas ClustersProofs DistProofs PartitionProofs ParProofs NearProofs KmeansProofs UpdateProofs RunProofs ParRule DistMatProofs PruneProofs ClusterSums PruneRound PruneUpdate PruneRun PruneRun2.
From Verif Require Import InitProofs SimProofs KmeansR PropertiesKmeansR PropertiesRun KmsppR.
Set Implicit Arguments.
Local Open Scope R_scope.

(* ------------------------------------------------------------------ *)
(** * Specification: what a state of the pruned algorithm shows *)
Definition passigned (s : pst NumR) (r : nat) : option nat := nth r (asg_of (ps_cells s)) None.
Definition pstored (s : pst NumR) (r : nat) : R := nth r (dist_of (ps_cells s)) 0.
Definition pcentroid (ncol : nat) (s : pst NumR) (j : nat) : list R := row (c_means (p_cl (ps_cltrs s))) ncol j.
Definition pdrift (s : pst NumR) (j : nat) : R := nth j (p_prev_dist (ps_cltrs s)) 0.

(** every row is assigned to a cluster whose centroid, among those of [C], is nearest *)
Definition all_nearest (g : kcfg NumR) (data : list R) (C : nat -> list R) (s : pst NumR) : Prop :=
  forall r, (r < g_nrow g)%nat -> exists a, passigned s r = Some a /\ (a < g_k g)%nat /\
    forall j, (j < g_k g)%nat -> rdist (g_dt g) (row data (g_ncol g) r) (C a) <= rdist (g_dt g) (row data (g_ncol g) r) (C j).

(** stored distance + drift bounds the distance to the assigned centroid *)
Definition bounds_valid (g : kcfg NumR) (data : list R) (s : pst NumR) : Prop :=
  forall r, (r < g_nrow g)%nat -> exists a, passigned s r = Some a /\ (a < g_k g)%nat /\
    edist (row data (g_ncol g) r) (pcentroid (g_ncol g) s a) <= pstored s r + pdrift s a.

(** no distance from a row to an initial centroid overflows *)
Definition finite_init (g : kcfg NumR) (data : list R) (s : pst NumR) : Prop :=
  forall r j, (r < g_nrow g)%nat -> (j < g_k g)%nat ->
    rdist (g_dt g) (row data (g_ncol g) r) (pcentroid (g_ncol g) s j) < IZR dbl_max_Z.

(* ------------------------------------------------------------------ *)
(** ** C30 *)
Theorem C30_distance_table : forall k ncol (p : prune_clusters NumR) (m : dist_matrix NumR),
  (2 <= k)%nat -> shaped k ncol (p_cl p) -> length (p_s_val p) = k -> dm_ok k m ->
  exists m' p', compute_dist ncol m p = Ok (m', p') /\ p_cl p' = p_cl p /\
    let c j := row (c_means (p_cl p)) ncol j in
    (forall i j, (i < k)%nat -> (j < k)%nat -> i <> j ->
       dm_get m' i j = Ok (edist (c i) (c j) / 2) /\ dm_get m' j i = Ok (edist (c i) (c j) / 2)) /\
    (forall i, (i < k)%nat -> exists v, nth_error (p_s_val p') i = Some v /\
       (forall j, (j < k)%nat -> j <> i -> v <= edist (c i) (c j) / 2) /\
       ((forall j, (j < k)%nat -> j <> i -> edist (c i) (c j) / 2 < IZR dbl_max_Z) ->
        exists j, (j < k)%nat /\ j <> i /\ v = edist (c i) (c j) / 2)).
Proof.
  intros k ncol p m Hk Hs Hv Hm.
  destruct (@compute_dist_R k ncol p Hk Hs Hv m Hm) as (m' & p' & E & (T1 & T2 & T3 & T4 & T5) & H1 & H2 & H3 & H4 & H5).
  exists m', p'. split; [exact E|]. split; [exact H1|]. intros c.
  assert (Ec : forall j, crow (p_cl p') j = c j) by (intros j; rewrite H1; unfold c, crow; destruct Hs as (_ & -> & _); reflexivity).
  split.
  - intros i j Hi Hj Hne. split.
    + rewrite (@dm_get_ok NumR k m' i j T1 Hi Hj). apply Nat.eqb_neq in Hne as Hb. rewrite Hb. f_equal. rewrite T4 by auto. rewrite !Ec. reflexivity.
    + rewrite (@dm_get_ok NumR k m' j i T1 Hj Hi). apply Nat.eqb_neq in Hne as Hb. rewrite Nat.eqb_sym, Hb. f_equal.
      rewrite dmv_sym, T4 by auto. rewrite !Ec. reflexivity.
  - intros i Hi. exists (nth i (p_s_val p') (nmax NumR)). split; [apply nth_error_nth'; lia|]. split.
    + intros j Hj Hne. rewrite <- !Ec. apply T5; auto.
    + intros Hfin. destruct (H4 i Hi) as [Hmax|(j & Hj & Hne & Ej)].
      * exfalso. set (j := if (i =? 0)%nat then 1%nat else 0%nat).
        assert (Hj : (j < k)%nat /\ j <> i) by (unfold j; destruct (Nat.eqb_spec i 0); lia). destruct Hj as (Hj & Hne).
        specialize (Hfin j Hj Hne). specialize (T5 i j Hi Hj (not_eq_sym Hne)). rewrite Hmax, !Ec in T5.
        apply (Rlt_irrefl (IZR dbl_max_Z)). eapply Rle_lt_trans; [exact T5|exact Hfin].
      * exists j. splits; auto. rewrite Ej. rewrite <- H1, !Ec. reflexivity.
Qed.
Print Assumptions C30_distance_table.

(** the hypotheses hold for the objects the constructor makes *)
Theorem C30_example : exists m, dm_create NumR 3 = Ok m /\ dm_ok 3 m /\
  shaped 3 2 (p_cl (prune_create NumR 3 2)) /\ length (p_s_val (prune_create NumR 3 2)) = 3%nat.
Proof.
  destruct (@dm_create_ok NumR 3 ltac:(lia)) as (m & E & H). exists m. splits; auto. apply shaped_create.
Qed.

(* ------------------------------------------------------------------ *)
(** * Bridges *)
Lemma nth_map_pair {A B} (f : A -> B) l r a b : f a = b -> nth r (map f l) b = f (nth r l a).
Proof. intros <-. apply map_nth. Qed.
Lemma passigned_cell s r : passigned s r = casg (cellat s r).
Proof. unfold passigned, asg_of, casg, cellat. apply (nth_map_pair (fun c : cellR => snd (fst c)) (ps_cells s) r dcell). reflexivity. Qed.
Lemma pstored_cell s r : pstored s r = cdist (cellat s r).
Proof. unfold pstored, dist_of, cdist, cellat. apply (nth_map_pair (fun c : cellR => fst (fst c)) (ps_cells s) r dcell). reflexivity. Qed.

Lemma pcentroid_cent (g : kcfg NumR) s j : shaped (g_k g) (g_ncol g) (p_cl (ps_cltrs s)) -> pcentroid (g_ncol g) s j = cent s j.
Proof. intros (_ & Hd & _). unfold pcentroid, cent, crow. rewrite Hd. reflexivity. Qed.

Lemma bounds_valid_iff g data ws s : pinv g ws data s ->
  bounds_valid g data s <-> forall r, (r < g_nrow g)%nat -> rbound g data s r.
Proof.
  intros ((Hs & _) & _). unfold bounds_valid, rbound. split; intros H r Hr; destruct (H r Hr) as (a & Ea & Ha & Hle); exists a.
  - rewrite passigned_cell in Ea. rewrite pstored_cell, (@pcentroid_cent g s a Hs) in Hle. auto.
  - rewrite passigned_cell. rewrite pstored_cell, (@pcentroid_cent g s a Hs). auto.
Qed.

Lemma finite_init_iff g data s : shaped (g_k g) (g_ncol g) (p_cl (ps_cltrs s)) -> finite_init g data s -> finite_start g data s.
Proof. intros Hs H r j Hr Hj. specialize (H r j Hr Hj). rewrite (@pcentroid_cent g s j Hs) in H. exact H. Qed.

(** the incremental centroids are the means of the members *)
Lemma members_sum (nrow ncol : nat) (data : list R) (cells : list cellR) j : length cells = nrow ->
  let l := members nrow ncol data (asg_of cells) j in
  cntF nrow cells j = Z.of_nat (length l) /\
  forall i, sumF (fun r => row data ncol r) nrow cells j i = rsum (map (fun x => nth i x 0) l).
Proof.
  intros Lc. unfold members, cntF, sumF. rewrite map_length.
  assert (E : forall r, nth r (asg_of cells) None = casg (nth r cells dcell)).
  { intros r. unfold asg_of, casg. apply (nth_map_pair (fun c : cellR => snd (fst c)) cells r dcell). reflexivity. }
  generalize (seq 0 nrow) as L. induction L as [|r L (IH1 & IH2)]; [split; reflexivity|].
  split.
  - cbn [map zsum filter]. rewrite IH1, E. unfold ind. destruct (casg (nth r cells dcell)) as [c|]; cbn [id_eqb]; [|lia].
    destruct (Nat.eqb c j); cbn [length]; lia.
  - intros i. cbn [map rsum filter]. rewrite IH2, E. unfold ind. destruct (casg (nth r cells dcell)) as [c|]; cbn [id_eqb]; [|lra].
    destruct (Nat.eqb c j); cbn [map rsum]; lra.
Qed.

Lemma means_members g data ws s j : length data = (g_nrow g * g_ncol g)%nat -> pinv g ws data s -> (j < g_k g)%nat ->
  let l := members (g_nrow g) (g_ncol g) data (asg_of (ps_cells s)) j in
  pcentroid (g_ncol g) s j = match l with [] => vzero (g_ncol g) | _ => vmean (g_ncol g) l end /\
  nth j (ps_counts s) 0%Z = Z.of_nat (length l).
Proof.
  intros Hd ((Hs & _) & Hmo & _ & Hcn & (Lc & Has) & _) Hj l.
  destruct (@members_sum (g_nrow g) (g_ncol g) data (ps_cells s) j Lc) as (M1 & M2). fold l in M1, M2.
  assert (Hdim : alldim (g_ncol g) l).
  { unfold alldim, l, members. apply Forall_forall. intros x Hx. apply in_map_iff in Hx as (r & <- & Hr). apply filter_In in Hr as (Hr & _). apply in_seq in Hr.
    apply (@row_length _ data (g_ncol g) r (g_nrow g)); [exact Hd|lia]. }
  split.
  - rewrite (@pcentroid_cent g s j Hs). unfold cent. rewrite (cis_vec Hmo Hj).
    assert (Lv : length (vsum (g_ncol g) l) = g_ncol g) by (apply vsum_length; exact Hdim).
    apply (@vec_ext (g_ncol g)).
    + rewrite map_length, seq_length. reflexivity.
    + destruct l; [apply vzero_length|]. unfold vmean. rewrite map_length. exact Lv.
    + intros i Hi. rewrite (nth_indep _ 0 (meanF (fun r => row data (g_ncol g) r) (g_nrow g) (ps_cells s) j 0%nat)) by (rewrite map_length, seq_length; exact Hi).
      rewrite map_nth, seq_nth by exact Hi. cbn [plus]. unfold meanF. rewrite M1, M2, <- (nth_vsum i Hdim).
      destruct l as [|x [|y t]].
      * cbn [length Z.of_nat Z.ltb Z.compare]. rewrite nth_vzero. cbn [vsum fold_right]. apply nth_vzero.
      * replace (1 <? Z.of_nat (length [x]))%Z with false by reflexivity. unfold vmean. cbn [length INR]. rewrite map_div1. reflexivity.
      * destruct (Z.ltb_spec 1 (Z.of_nat (length (x :: y :: t)))) as [_|H]; [|cbn [length] in H; lia].
        unfold vmean. rewrite <- INR_IZR_INZ. symmetry. apply (@nth_map0 (fun v => v / INR (length (x :: y :: t)))). rewrite Lv. exact Hi.
  - rewrite Hcn. rewrite (nth_indep _ 0%Z (cntF (g_nrow g) (ps_cells s) 0)) by (rewrite map_length, seq_length; exact Hj).
    rewrite map_nth, seq_nth by exact Hj. exact M1.
Qed.

(* ------------------------------------------------------------------ *)
(** * Runs *)
Definition prun_facts (g : kcfg NumR) (data : list R) ws (s0 : pst NumR) (rr : prun_result NumR) : Prop :=
  exists s1 more, pr_trace rr = s1 :: more /\ pr_init rr = s0 /\ (length more <= g_max_iters g - 1)%nat /\
    (forall r, (r < g_nrow g)%nat -> exists a, casg (cellat s1 r) = Some a /\
       is_nearest (g_dt g) (g_k g) (cent s0) (row data (g_ncol g) r) a /\ cdist (cellat s1 r) = rdist (g_dt g) (row data (g_ncol g) r) (cent s0 a)) /\
    drift_of (g_k g) (g_ncol g) (ps_cltrs s1) (repeat 0 (g_ncol g * g_k g)) /\
    Forall (pinv g ws data) (s1 :: more) /\
    (forall i a b, nth_error (s1 :: more) i = Some a -> nth_error more i = Some b -> pstep g ws a b) /\
    (let f := last more s1 in
     pr_out rr = mkCluster NumR (g_nrow g) (g_ncol g) (ct_iters (pr_out rr)) (g_k g) (asg_of (ps_cells f)) (ps_counts f) (c_means (p_cl (ps_cltrs f)))).

Lemma prun_inv g centers it data dr scheds : (2 <= g_k g)%nat -> valid_args g data centers it dr ->
  @real_draws g it dr -> fair g data scheds ->
  exists ws s0, wok (g_nrow g) (g_ncol g) data ws /\ ppre g ws s0 /\
    (finite_start g data s0 -> (1 <= g_max_iters g)%nat -> exists rr, prune_run g centers it data dr scheds = Ok rr /\ prun_facts g data ws s0 rr) /\
    (g_max_iters g = 0%nat -> exists rr, (it <> PLUSPLUS -> prune_run g centers it data dr scheds = Ok rr /\ pr_trace rr = [])) /\
    (forall rr, prune_run g centers it data dr scheds = Ok rr -> pr_init rr = s0 /\ (g_max_iters g = 0%nat -> pr_trace rr = [])).
Proof.
  intros Hk A Hrd Hf. pose proof A as (V & _). pose proof V as (V1 & V2 & V3 & V4).
  destruct (@init_pre g data Hk V centers it dr A Hrd) as (ws & sc & s0 & Ew & Hws & Ec & Ei & Hpre & Hpm & Hent).
  assert (Hsch : forall i, complete (w_ranges ws) (scheds i)) by (apply Hf; exact Ew).
  exists ws, s0. splits; auto.
  - intros Hfin Hm.
    destruct (@first_ok g ws data Hws V4 V2 Hk (scheds 1%nat) s0 (Hsch 1%nat) Hpre (Hent Hfin)) as (s1 & E1 & Hi1 & Hch & Hnear & Hpm1 & Hdr).
    destruct (@prune_loop_ok g data Hk V ws scheds Hws Hsch (g_max_iters g - 1) 2 s1 [s1] Hi1 Hch) as (iter & conv & s' & more & E2 & L1 & L2 & (c & ->) & L4 & _).
    exists (mkPRun (mkCluster NumR (g_nrow g) (g_ncol g) iter (g_k g) (asg_of (ps_cells (last more s1))) (ps_counts (last more s1)) (c_means (p_cl (ps_cltrs (last more s1))))) conv s0 (s1 :: more)).
    split.
    + unfold prune_run. rewrite Ec, Ew. cbn [bind]. rewrite Ei. cbn [bind].
      replace (0 <? g_max_iters g)%nat with true by (symmetry; apply Nat.ltb_lt; lia).
      rewrite E1. cbn [bind]. rewrite E2. reflexivity.
    + exists s1, more. cbn [pr_trace pr_init pr_out ct_iters]. splits; auto.
      rewrite Hpm in Hdr. exact Hdr.
  - intros Hm0. exists (mkPRun (mkCluster NumR (g_nrow g) (g_ncol g) 0 (g_k g) (asg_of (ps_cells s0)) (ps_counts s0) (c_means (p_cl (ps_cltrs s0)))) false s0 []).
    intros Hne. split; [|reflexivity]. unfold prune_run. rewrite Ec, Ew. cbn [bind]. rewrite Ei, Hm0. cbn [bind Nat.ltb Nat.leb].
    destruct it; try reflexivity. congruence.
  - intros rr H. unfold prune_run in H. rewrite Ec, Ew in H. cbn [bind] in H. rewrite Ei in H. cbn [bind] in H.
    destruct (Nat.ltb_spec 0 (g_max_iters g)) as [Hlt|Hge].
    + apply bind_ok in H as (s1 & _ & H). apply bind_ok in H as ([[[iter conv] s'] tr] & _ & H). injection H as <-. cbn [pr_init]. split; [reflexivity|lia].
    + apply bind_ok in H as (cn & _ & H). injection H as <-. split; reflexivity.
Qed.

Lemma prun_ok_facts g centers it data dr scheds rr : (2 <= g_k g)%nat -> valid_args g data centers it dr ->
  @real_draws g it dr -> fair g data scheds -> prune_run g centers it data dr scheds = Ok rr -> finite_init g data (pr_init rr) ->
  exists ws s0, wok (g_nrow g) (g_ncol g) data ws /\ ppre g ws s0 /\ pr_init rr = s0 /\ (pr_trace rr = [] \/ prun_facts g data ws s0 rr).
Proof.
  intros Hk A Hrd Hf H Hfin. destruct (@prun_inv g centers it data dr scheds Hk A Hrd Hf) as (ws & s0 & Hws & Hpre & Hrun & _ & Hall).
  exists ws, s0. destruct (Hall rr H) as (E & E0). splits; auto.
  destruct (Nat.eq_dec (g_max_iters g) 0) as [Hz|Hnz]; [left; auto|right].
  rewrite E in Hfin. pose proof Hpre as ((Hs & _) & _).
  destruct (Hrun (finite_init_iff Hs Hfin) ltac:(lia)) as (rr' & E' & Hfacts). rewrite H in E'. injection E' as <-. exact Hfacts.
Qed.

(** [s'] is the state after the iteration that started in [s] *)
Definition piteration (rr : prun_result NumR) (i : nat) (s s' : pst NumR) : Prop :=
  nth_error (pr_init rr :: pr_trace rr) i = Some s /\ nth_error (pr_trace rr) i = Some s'.

(** the run's arguments *)
Definition prune_args (g : kcfg NumR) (data : list R) centers it dr scheds : Prop :=
  (2 <= g_k g)%nat /\ valid_args g data centers it dr /\ @real_draws g it dr /\ fair g data scheds.

(* ------------------------------------------------------------------ *)
(** ** C31 *)
Theorem C31_pruned_step_nearest : forall (g : kcfg NumR) (data : list R) ws p0 m0 p m sched (locals : list (wstate NumR)) (cells : list (pcell NumR)),
  g_dt g = EUCL -> (2 <= g_k g)%nat ->
  valid_input g data -> build_workers g data = Ok ws -> complete (w_ranges ws) sched ->
  (* containers of the right sizes; [m], [p] is the table recomputed from the current centroids *)
  psized g p0 -> dm_ok (g_k g) m0 -> compute_dist (g_ncol g) m0 p0 = Ok (m, p) ->
  length cells = g_nrow g -> length locals = length ws -> Forall (fun l => shaped (g_k g) (g_ncol g) (fst l)) locals ->
  let X r := row data (g_ncol g) r in
  let c j := row (c_means (p_cl p)) (g_ncol g) j in
  (* valid bounds *)
  (forall r, (r < g_nrow g)%nat -> exists a, nth r (asg_of cells) None = Some a /\ (a < g_k g)%nat /\
     edist (X r) (c a) <= nth r (dist_of cells) 0 + nth a (p_prev_dist p) 0) ->
  exists locals' cells', pEM_round g ws p m false sched locals cells = Ok (locals', cells') /\ length cells' = g_nrow g /\
    (forall r, (r < g_nrow g)%nat -> exists a, nth r (asg_of cells') None = Some a /\ (a < g_k g)%nat /\
       (forall j, (j < g_k g)%nat -> edist (X r) (c a) <= edist (X r) (c j)) /\
       edist (X r) (c a) <= nth r (dist_of cells') 0) /\
    list_sum (map snd locals') = length (filter (fun r => negb (id_eqb (nth r (asg_of cells) None) (nth r (asg_of cells') None))) (seq 0 (g_nrow g))).
Proof.
  intros g data ws p0 m0 p m sched locals cells Hdt Hk V Ew Hc (P1 & P2 & P3 & P4) Hm0 Ecd Lc Ll Hsh X c Hb.
  pose proof V as (V1 & V2 & V3 & V4).
  destruct (@build_workers_ok NumR g data V1 V2 V3 V4) as (ws' & Ew' & Hws & _). rewrite Ew in Ew'. injection Ew' as <-.
  destruct (@compute_dist_R (g_k g) (g_ncol g) p0 Hk P1 P4 m0 Hm0) as (m' & p' & E & Ht & C1 & C2 & C3 & _).
  rewrite Ecd in E. injection E as <- <-.
  assert (Ec : forall j, crow (p_cl p) j = c j).
  { intros j. unfold c, crow. destruct Ht as (_ & (_ & -> & _) & _). reflexivity. }
  assert (Ea : forall (l : list cellR) r, nth r (asg_of l) None = casg (nth r l dcell)).
  { intros l r. unfold asg_of, casg. apply (nth_map_pair (fun c : cellR => snd (fst c)) l r dcell). reflexivity. }
  assert (Ed : forall (l : list cellR) r, nth r (dist_of l) 0 = cdist (nth r l dcell)).
  { intros l r. unfold dist_of, cdist. apply (nth_map_pair (fun c : cellR => fst (fst c)) l r dcell). reflexivity. }
  destruct (@pruned_round g ws data Hws V4 p m sched locals cells Hdt Ht) as (locs & cells' & E & A1 & A2 & A3 & A4); auto.
  - rewrite C3. exact P3.
  - intros r Hr. destruct (Hb r Hr) as (a & E1 & E2 & E3). exists a. rewrite <- Ea, <- Ed, Ec. auto.
  - exists locs, cells'. splits; auto.
    + intros r Hr. destruct (A3 r Hr) as (a & E1 & E2 & (_ & E3) & E4). exists a. rewrite Ea, Ed. splits; auto.
      * intros j Hj. rewrite <- !Ec. apply E3. exact Hj.
      * rewrite <- Ec. exact E4.
    + assert (Hlh : locals_hold g ws data wdel chg cells cells' locs) by (split; auto).
      destruct (@merge_all g ws data Hws wdel chg cells cells' locs _ 0%nat _ _ _ Lc Hlh (@cis_create (g_k g) (g_ncol g))) as (c' & Em & _).
      assert (G : forall (ls : list (wstate NumR)) c0 ch c1 ch1, for_each ls (fun (l : wstate NumR) (cc : clusters NumR * nat) =>
        let* c := peq (fst cc) (fst l) in Ok (c, (snd cc + snd l)%nat)) (c0, ch) = Ok (c1, ch1) -> ch1 = (ch + list_sum (map snd ls))%nat).
      { clear. induction ls as [|l ls IH]; intros c0 ch c1 ch1 H; cbn [for_each] in H; [injection H as _ <-; cbn; lia|].
        apply bind_ok in H as ([c2 ch2] & E & H). apply bind_ok in E as (c3 & _ & E). injection E as _ <-. cbn [fst snd] in *.
        apply IH in H. cbn [map list_sum fold_right]. unfold list_sum in H. lia. }
      apply G in Em. cbn [plus] in Em. change (list_sum (map snd locs) = length (filter (fun r => negb (id_eqb (nth r (asg_of cells) None) (nth r (asg_of cells') None))) (seq 0 (g_nrow g)))).
      rewrite <- Em. clear. unfold triples. rewrite map_map.
      assert (Ea : forall (l : list cellR) r, nth r (asg_of l) None = casg (nth r l dcell)).
      { intros l r. unfold asg_of, casg. apply (nth_map_pair (fun c : cellR => snd (fst c)) l r dcell). reflexivity. }
      generalize (seq 0 (g_nrow g)) as L. induction L as [|r L IH]; [reflexivity|]. cbn [map list_sum fold_right filter].
      unfold list_sum in IH. rewrite IH, !Ea. unfold chg. cbn [fst snd]. destruct (id_eqb _ _); cbn [negb length]; lia.
Qed.
Print Assumptions C31_pruned_step_nearest.

(* ------------------------------------------------------------------ *)
(** ** C32 *)
Theorem C32_bounds_stay_valid : forall (g : kcfg NumR) centers it data dr scheds rr,
  prune_args g data centers it dr scheds -> prune_run g centers it data dr scheds = Ok rr -> finite_init g data (pr_init rr) ->
  g_dt g = EUCL ->
  forall i s s', piteration rr (S i) s s' -> bounds_valid g data s ->
  bounds_valid g data s' /\ all_nearest g data (pcentroid (g_ncol g) s) s'.
Proof.
  intros g centers it data dr scheds rr (Hk & A & Hrd & Hf) H Hfin Hdt i s s' (E & E') Hb.
  destruct (@prun_ok_facts g centers it data dr scheds rr Hk A Hrd Hf H Hfin) as (ws & s0 & Hws & Hpre & Ei & [Hnil|Hfacts]).
  - rewrite Hnil in E'. discriminate.
  - destruct Hfacts as (s1 & more & Et & _ & _ & _ & _ & Hinv & Hstep & _). rewrite Et in E, E'. cbn [nth_error] in E, E'.
    destruct (Hstep i s s' E E') as (sched & Hc & Es).
    assert (Hi : pinv g ws data s) by (rewrite Forall_forall in Hinv; apply Hinv; eapply nth_error_In; eauto).
    assert (Hi' : pinv g ws data s') by (rewrite Forall_forall in Hinv; apply Hinv; right; eapply nth_error_In; eauto).
    pose proof A as ((V1 & V2 & V3 & V4) & _).
    destruct (@PruneRun.iterate_ok g ws data Hws V4 V2 Hk sched (with_changed s 0) Hc (pinv_with 0 Hi)) as (s2 & E2 & _ & _ & Hn).
    rewrite Es in E2. injection E2 as <-.
    assert (Hb' : forall r, (r < g_nrow g)%nat -> rbound g data (with_changed s 0) r) by (apply (proj1 (bounds_valid_iff Hi)); exact Hb).
    pose proof Hi as ((Hs & _) & _).
    split.
    + apply (proj2 (bounds_valid_iff Hi')). intros r Hr. apply (Hn Hdt r Hr (Hb' r Hr)).
    + intros r Hr. destruct (Hn Hdt r Hr (Hb' r Hr)) as (_ & a & Ea & Ha & Hle). exists a. rewrite passigned_cell. splits; auto.
      intros j Hj. rewrite Hdt. rewrite !(@pcentroid_cent g s _ Hs). apply Hle. exact Hj.
Qed.
Print Assumptions C32_bounds_stay_valid.

(* ------------------------------------------------------------------ *)
(** ** C33 *)
(** The first pass always assigns to nearest centroids; every later iteration
    does if no centroid moves, in the first update, farther than its new distance
    from the origin.  Missing (and false, [C33_refuted]): without that premise. *)
Theorem C33_first_pass_nearest : forall (g : kcfg NumR) centers it data dr scheds rr,
  prune_args g data centers it dr scheds -> prune_run g centers it data dr scheds = Ok rr -> finite_init g data (pr_init rr) ->
  forall s s', piteration rr 0 s s' -> all_nearest g data (pcentroid (g_ncol g) s) s'.
Proof.
  intros g centers it data dr scheds rr (Hk & A & Hrd & Hf) H Hfin s s' (E & E').
  destruct (@prun_ok_facts g centers it data dr scheds rr Hk A Hrd Hf H Hfin) as (ws & s0 & Hws & Hpre & Ei & [Hnil|Hfacts]).
  - rewrite Hnil in E'. discriminate.
  - destruct Hfacts as (s1 & more & Et & _ & _ & Hn & _). rewrite Et in E'. cbn [nth_error] in E, E'. injection E as <-. injection E' as <-. rewrite Ei.
    intros r Hr. destruct (Hn r Hr) as (a & Ea & (Ha & Hle) & _). exists a. rewrite passigned_cell. splits; auto.
    intros j Hj. pose proof Hpre as ((Hs & _) & _). rewrite !(@pcentroid_cent g s0 _ Hs). apply Hle. exact Hj.
Qed.

Theorem C33_pruned_nearest_partial : forall (g : kcfg NumR) centers it data dr scheds rr,
  prune_args g data centers it dr scheds -> prune_run g centers it data dr scheds = Ok rr -> finite_init g data (pr_init rr) ->
  g_dt g = EUCL ->
  (forall s1 j, nth_error (pr_trace rr) 0 = Some s1 -> (j < g_k g)%nat ->
     edist (pcentroid (g_ncol g) (pr_init rr) j) (pcentroid (g_ncol g) s1 j) <= edist (pcentroid (g_ncol g) s1 j) (vzero (g_ncol g))) ->
  forall i s s', piteration rr i s s' -> all_nearest g data (pcentroid (g_ncol g) s) s'.
Proof.
  intros g centers it data dr scheds rr PA H Hfin Hdt Hdrift i s s' Hit.
  assert (Hb : forall i s, nth_error (pr_trace rr) i = Some s -> bounds_valid g data s).
  { clear i s s' Hit. induction i as [|i IH]; intros s E.
    - pose proof PA as (Hk & A & Hrd & Hf).
      destruct (@prun_ok_facts g centers it data dr scheds rr Hk A Hrd Hf H Hfin) as (ws & s0 & Hws & Hpre & Ei & [Hnil|Hfacts]).
      { rewrite Hnil in E. discriminate. }
      destruct Hfacts as (s1 & more & Et & _ & _ & Hn & Hdr & Hinv & _). pose proof (Hdrift s) as Hd. rewrite Et in E, Hd. specialize (fun j => Hd j E). cbn [nth_error] in E. injection E as <-.
      assert (Hi1 : pinv g ws data s1) by (rewrite Forall_forall in Hinv; apply Hinv; left; reflexivity).
      apply (proj2 (bounds_valid_iff Hi1)). intros r Hr. destruct (Hn r Hr) as (a & Ea & (Ha & _) & Ed). exists a. splits; auto.
      specialize (Hd a Ha). rewrite Ed. rewrite (Hdr a Ha). pose proof Hpre as ((Hs0 & _) & _). pose proof Hi1 as ((Hs1 & _) & _).
      rewrite Ei, (@pcentroid_cent g s0 a Hs0), (@pcentroid_cent g s1 a Hs1) in Hd. rewrite Hdt. cbn [rdist].
      pose proof A as ((V1 & V2 & V3 & V4) & _).
      assert (L1 : @length R (row data (g_ncol g) r) = g_ncol g) by (apply (@row_length _ data (g_ncol g) r (g_nrow g)); auto).
      assert (L2 : @length R (cent s0 a) = g_ncol g) by (apply (@crow_len (g_k g)); auto).
      assert (L3 : @length R (cent s1 a) = g_ncol g) by (apply (@crow_len (g_k g)); auto).
      pose proof (@edist_triangle (row data (g_ncol g) r) (cent s0 a) (cent s1 a) (eq_trans L1 (eq_sym L2)) (eq_trans L2 (eq_sym L3))) as Htri.
      eapply Rle_trans; [exact Htri|]. apply Rplus_le_compat_l. eapply Rle_trans; [exact Hd|]. right. unfold cent. f_equal.
      unfold row, vzero. clear - Ha. symmetry.
      assert (G : forall m o c, (o + c <= m)%nat -> slice (repeat 0 m) o c = repeat 0 c).
      { clear. intros m o c Hle. unfold slice. replace m with (o + (c + (m - o - c)))%nat by lia. rewrite !repeat_app.
        rewrite skipn_app, repeat_length, Nat.sub_diag, skipn_all2 by (rewrite repeat_length; lia). cbn [app skipn].
        rewrite firstn_app, repeat_length, Nat.sub_diag, firstn_all2 by (rewrite repeat_length; lia). cbn [firstn]. apply app_nil_r. }
      apply G. nia.
    - destruct (nth_error (pr_trace rr) i) as [s0|] eqn:E0.
      2:{ apply nth_error_None in E0. assert (S i < length (pr_trace rr))%nat by (apply nth_error_Some; congruence). lia. }
      eapply (@C32_bounds_stay_valid g centers it data dr scheds rr PA H Hfin Hdt i s0 s); [split; [exact E0|exact E]|].
      apply IH. reflexivity. }
  destruct i as [|i].
  - eapply C33_first_pass_nearest; eauto.
  - eapply (@C32_bounds_stay_valid g centers it data dr scheds rr PA H Hfin Hdt i s s' Hit). destruct Hit as (E & _). eapply Hb. exact E.
Qed.
Print Assumptions C33_pruned_nearest_partial.

(* ------------------------------------------------------------------ *)
(** ** C36 *)
Theorem C36_incremental_means : forall (g : kcfg NumR) centers it data dr scheds rr,
  prune_args g data centers it dr scheds -> prune_run g centers it data dr scheds = Ok rr -> finite_init g data (pr_init rr) ->
  forall s, In s (pr_trace rr) -> forall j, (j < g_k g)%nat ->
  let l := members (g_nrow g) (g_ncol g) data (asg_of (ps_cells s)) j in
  pcentroid (g_ncol g) s j = match l with [] => vzero (g_ncol g) | _ => vmean (g_ncol g) l end /\
  nth_error (ps_counts s) j = Some (Z.of_nat (length l)).
Proof.
  intros g centers it data dr scheds rr (Hk & A & Hrd & Hf) H Hfin s Hin j Hj l.
  destruct (@prun_ok_facts g centers it data dr scheds rr Hk A Hrd Hf H Hfin) as (ws & s0 & Hws & Hpre & Ei & [Hnil|Hfacts]).
  - rewrite Hnil in Hin. contradiction.
  - destruct Hfacts as (s1 & more & Et & _ & _ & _ & _ & Hinv & _). rewrite Et in Hin.
    assert (Hi : pinv g ws data s) by (rewrite Forall_forall in Hinv; apply Hinv; exact Hin).
    pose proof A as ((V1 & V2 & V3 & V4) & _).
    destruct (@means_members g data ws s j V4 Hi Hj) as (M1 & M2). split; [exact M1|].
    destruct Hi as (_ & _ & _ & Hcn & _). etransitivity; [apply (nth_error_nth' _ 0%Z); rewrite Hcn, map_length, seq_length; exact Hj|]. f_equal. exact M2.
Qed.
Print Assumptions C36_incremental_means.

Lemma last_cons' {A} (l : list A) x y : last (x :: l) y = last l x.
Proof. revert x y. induction l as [|z l IH]; intros x y; [reflexivity|]. change (last (z :: l) y = last (z :: l) x). rewrite !IH. reflexivity. Qed.

(** the result is the last state's *)
Theorem C36_result : forall (g : kcfg NumR) centers it data dr scheds rr,
  prune_args g data centers it dr scheds -> prune_run g centers it data dr scheds = Ok rr -> finite_init g data (pr_init rr) ->
  (1 <= g_max_iters g)%nat ->
  exists f, nth_error (pr_trace rr) (length (pr_trace rr) - 1) = Some f /\ (1 <= length (pr_trace rr) <= g_max_iters g)%nat /\
    ct_asg (pr_out rr) = asg_of (ps_cells f) /\ ct_counts (pr_out rr) = ps_counts f /\ ct_centroids (pr_out rr) = c_means (p_cl (ps_cltrs f)).
Proof.
  intros g centers it data dr scheds rr (Hk & A & Hrd & Hf) H Hfin Hm.
  destruct (@prun_inv g centers it data dr scheds Hk A Hrd Hf) as (ws & s0 & Hws & Hpre & Hrun & _ & Hall).
  destruct (Hall rr H) as (E & _). rewrite E in Hfin. pose proof Hpre as ((Hs & _) & _).
  destruct (Hrun (finite_init_iff Hs Hfin) Hm) as (rr' & E' & Hfacts). rewrite H in E'. injection E' as <-.
  destruct Hfacts as (s1 & more & Et & _ & Lm & _ & _ & _ & _ & Eo). exists (last more s1). rewrite Et. cbn [length].
  split.
  - rewrite Nat.sub_succ, Nat.sub_0_r. clear. revert s1. induction more as [|x more IH]; intros s1; [reflexivity|].
    cbn [length nth_error]. specialize (IH x). cbn [length] in IH. 
    rewrite last_cons'. exact IH.
  - split; [lia|]. rewrite Eo. cbn [ct_asg ct_counts ct_centroids]. auto.
Qed.

(* ------------------------------------------------------------------ *)
(** ** C37 *)
Theorem C37_prune_accepts_k_partial : forall (g : kcfg NumR) centers it data dr scheds,
  prune_args g data centers it dr scheds -> (1 <= g_max_iters g)%nat ->
  (* the initialiser's centroids are within range of the data *)
  (forall ws s s0, build_workers g data = Ok ws -> prune_create_coord g centers it = Ok s -> prune_run_init g it ws data dr s = Ok s0 -> finite_init g data s0) ->
  exists rr, prune_run g centers it data dr scheds = Ok rr.
Proof.
  intros g centers it data dr scheds (Hk & A & Hrd & Hf) Hm Hfin.
  pose proof A as (V & _).
  destruct (@init_pre g data Hk V centers it dr A Hrd) as (ws & sc & s0 & Ew & Hws & Ec & Ei & Hpre & Hpm & Hent).
  specialize (Hfin ws sc s0 Ew Ec Ei).
  destruct (@prun_inv g centers it data dr scheds Hk A Hrd Hf) as (ws' & s0' & Hws' & Hpre' & Hrun & _ & Hall).
  assert (Hsch : forall i, complete (w_ranges ws) (scheds i)) by (apply Hf; exact Ew).
  pose proof V as (V1 & V2 & V3 & V4). pose proof Hpre as ((Hs & _) & _).
  destruct (@first_ok g ws data Hws V4 V2 Hk (scheds 1%nat) s0 (Hsch 1%nat) Hpre (Hent (finite_init_iff Hs Hfin))) as (s1 & E1 & Hi1 & Hch & _).
  destruct (@prune_loop_ok g data Hk V ws scheds Hws Hsch (g_max_iters g - 1) 2 s1 [s1] Hi1 Hch) as (iter & conv & s' & more & E2 & _).
  eexists. unfold prune_run. rewrite Ec, Ew. cbn [bind]. rewrite Ei. cbn [bind].
  replace (0 <? g_max_iters g)%nat with true by (symmetry; apply Nat.ltb_lt; lia).
  rewrite E1. cbn [bind]. rewrite E2. reflexivity.
Qed.
Print Assumptions C37_prune_accepts_k_partial.

(** with one cluster the pruned version always aborts *)
Theorem C37_refuted : forall N (g : kcfg N) it data dr scheds, g_k g = 1%nat ->
  prune_run g None it data dr scheds = Err Abort.
Proof.
  intros N g it data dr scheds Hk. unfold prune_run, prune_create_coord. rewrite Hk. cbn [Nat.leb assert_ bind].
  destruct it; rewrite dm_create_small by lia; reflexivity.
Qed.
Print Assumptions C37_refuted.
