(** C110, C111: the pruned OpenMP entry point. *)
From Coq Require Import Reals Lra Lia List Permutation.
From Verif Require Import Base Num Spec DistModel ClustersModel ClustersView PartitionModel ParModel KmeansModel PruneModel.
From Verif Require Import MatLemmas VecLemmas ClustersProofs DistProofs PartitionProofs ParProofs NearProofs KmeansProofs UpdateProofs RunProofs ParRule DistMatProofs PruneProofs ClusterSums PruneRound PruneUpdate PruneRun PruneRun2.
From Verif Require Import InitProofs SimProofs KmeansR SseProofs PropertiesKmeans PropertiesKmeansR PropertiesRun KmsppR PropertiesKmspp PropertiesPrune PropertiesDistRun PropertiesDistKmspp PropertiesDistSame SpecLloyd PropertiesPruneStop PropertiesPruneSame OmpModel OmpProofs PropertiesOmp PrunePasses OmpPrune.
Set Implicit Arguments.
Local Open Scope R_scope.

(** a valid call of an OpenMP entry point: accepted sizes, chunks that tile the
    rows, complete schedules, draws in range, a reduction that adds the partial
    sums in some order *)
Record omp_call (g : kcfg NumR) (it : init_t) (centers data : list R) (chunks : list (nat * nat)) (red : list R -> R)
  (d : draws NumR) (scheds : nat -> list nat) : Prop := {
  oc_valid : valid_input g data;
  oc_k : (2 <= g_k g <= g_nrow g)%nat;
  oc_kmax : Z.of_nat (g_k g) <> (2 ^ 32 - 1)%Z;
  oc_chunks : ntiles 0 (g_nrow g) chunks;
  oc_sched : forall i, complete chunks (scheds i);
  oc_draws : match it with
    | RANDOM => forall r, (r < g_nrow g)%nat -> (d_int d r < g_k g)%nat
    | FORGY => forall c, (c < g_k g)%nat -> (d_int d c < g_nrow g)%nat
    | PLUSPLUS => (d_int d 0 < g_nrow g)%nat /\ (forall i, complete chunks (d_sched d i)) /\ proper g data /\ forall i, 0 <= d_real d i <= 1
    | NONE => (g_k g * g_ncol g <= length centers)%nat
    end;
  oc_red : forall l, exists l', Permutation l l' /\ red l = fold_left Rplus l' 0
}.

Lemma call_iters g m it centers data chunks red d scheds :
  omp_call g it centers data chunks red d scheds -> omp_call (with_iters g m) it centers data chunks red d scheds.
Proof. intros H. destruct H; constructor; assumption. Qed.

Lemma start_iters g m data centers it draw ur j :
  start_centroid (with_iters g m) data centers it draw ur j = start_centroid g data centers it draw ur j.
Proof.
  assert (Hp : same_problem (with_iters g m) g) by (unfold same_problem; splits; reflexivity).
  unfold start_centroid. destruct it; try reflexivity. rewrite (@seeds_problem (with_iters g m) g data _ _ Hp). reflexivity.
Qed.

Lemma dist_of_eq da dt : OmpProofs.dist_of da = Some dt ->
  match da with DEucl => Some EUCL | DCos => Some COS | DOther => None end = Some dt.
Proof. intros H. exact H. Qed.

(** the state after the initialisation *)
Lemma omp_start g0 dt m ia it centers data chunks red d scheds : init_of ia = Some it ->
  omp_call (with_dt g0 dt) it centers data chunks red d scheds ->
  let g := with_iters (with_dt g0 dt) m in
  exists o b, omp_create g0 ia centers = Ok o /\ omp_init (with_dt g0 dt) ia (omp_workers NumR chunks data (g_ncol g)) data red d o = Ok b /\
    shaped (g_k g) (g_ncol g) (s_cltrs b) /\ length (s_asg b) = g_nrow g /\ length (s_counts b) = g_k g /\ s_changed b = 0%nat /\
    (forall j, (j < g_k g)%nat -> row (c_means (s_cltrs b)) (g_ncol g) j = start_centroid g data (Some centers) it (d_int d) (d_real d) j).
Proof.
  intros Hia C g. apply (@call_iters _ m) in C. fold g in C. pose proof (oc_valid C) as V. destruct (oc_k C) as (Hk2 & Hkn).
  destruct (get_workers V) as (ws & B & W). pose proof V as (V1 & V2 & V3 & V4). pose proof W as (Wt & _).
  set (dl := mkDraws NumR (d_int d) (d_real d) (fun _ => seq_sched (w_ranges ws))).
  assert (Fl : fair g data (fun _ => seq_sched (w_ranges ws))).
  { intros ws' B' i. assert (Q := eq_trans (eq_sym B) B'). injection Q as <-. apply seq_sched_complete. }
  pose proof (oc_draws C) as D.
  assert (Dl : draws_ok g data it dl) by (destruct it; cbn [draws_ok dl d_int d_sched]; auto; split; [apply D|exact Fl]).
  assert (Hc : centers_ok g (Some centers) it) by (destruct it; cbn [centers_ok]; auto).
  assert (Hpp : it = PLUSPLUS -> proper g data /\ forall i, 0 <= d_real dl i <= 1) by (intros ->; cbn [dl d_real]; apply D).
  set (ws2 := omp_workers NumR chunks data (g_ncol g)).
  assert (W2 : ntiles 0 (g_nrow g) (w_ranges ws2)) by (unfold ws2; rewrite omp_workers_ranges; exact (oc_chunks C)).
  assert (Htot : ia = IKmeanspp -> forall cells : list (R * option nat), length cells = g_nrow g ->
    fold_left Rplus (wsums ws cells) 0 = red (wsums ws2 cells)).
  { intros _ cells L. destruct (oc_red C (wsums ws2 cells)) as (l' & P & ->). rewrite (@wsums_total cells (g_nrow g) ws Wt L).
    pose proof (@wsums_total cells (g_nrow g) ws2 W2 L) as E2. rewrite fold_left_Rplus, <- (rsum_perm P), <- E2, fold_left_Rplus. reflexivity. }
  assert (Fp : ia = IKmeanspp -> forall i, complete chunks (d_sched d i)).
  { intros ->. cbn in Hia. injection Hia as <-. apply D. }
  destruct (@omp_init_sim NumR g0 dt m ia it centers data chunks red dl d ws Hia V Hk2 B W (oc_chunks C) eq_refl eq_refl Dl Fp Hc Htot) as (s & o & Es & St & Eo & RI).
  fold g in Es, St, RI. fold ws2 in RI.
  destruct (@serial_start g data V (Some centers) it dl ltac:(lia) Hc Dl Hpp) as (s' & ws' & s0 & E1 & E2 & _ & E3 & St0 & Hst).
  assert (Q := eq_trans (eq_sym B) E2). injection Q as <-. assert (Q := eq_trans (eq_sym Es) E1). injection Q as <-.
  rewrite E3 in RI. destruct (omp_init (with_dt g0 dt) ia ws2 data red d o) as [b|e] eqn:Eb; [|contradiction].
  destruct RI as (R1 & R2 & R3 & R4). pose proof St0 as (S1 & S2 & S3 & _).
  exists o, b. rewrite <- R1, <- R2, <- R3. splits; auto.
  intros j Hj. pose proof (Hst j Hj) as Hs. unfold crow in Hs. destruct S1 as (_ & Sd & _). rewrite Sd in Hs. exact Hs.
Qed.

(** the pruned entry point makes the passes of a pruned driver on the chunks *)
Lemma omin_passes g0 da dt ia it centers data chunks red d scheds : OmpProofs.dist_of da = Some dt -> init_of ia = Some it -> (1 <= g_max_iters g0)%nat ->
  let g := with_dt g0 dt in let ws := omp_workers NumR chunks data (g_ncol g) in
  omp_call g it centers data chunks red d scheds -> start_finite g data (Some centers) it (d_int d) (d_real d) ->
  exists s0 s1 iter conv s' more, ppre g ws (pfill g ws s0) /\
    (forall r, (r < g_nrow g)%nat -> entry_ok (g_k g) (g_dt g) (cent (pfill g ws s0)) (row data (g_ncol g) r) (cdist (cellat (pfill g ws s0) r)) (casg (cellat (pfill g ws s0) r))) /\
    passes g data ws scheds (pfill g ws s0) (max 1 (g_max_iters g0 - 1)) s1 iter conv s' more /\
    (forall j, (j < g_k g)%nat -> pcentroid (g_ncol g) s0 j = start_centroid g data (Some centers) it (d_int d) (d_real d) j) /\
    compute_min_kmeans g0 da ia centers data chunks red d scheds = Ok (mkPRun (mkCluster NumR (g_nrow g) (g_ncol g) iter (g_k g) (asg_of (ps_cells s')) (ps_counts s')
       (c_means (p_cl (ps_cltrs s')))) conv s0 (s1 :: more)).
Proof.
  intros Hda Hia Hm g ws C Hfin. pose proof (oc_valid C) as V. destruct (oc_k C) as (Hk2 & Hkn). pose proof V as (V1 & V2 & V3 & V4).
  destruct (@omp_start g0 dt (g_max_iters g0) ia it centers data chunks red d scheds Hia C) as (o & b & Eo & Eb & B1 & B2 & B3 & B4 & B5).
  cbv zeta in Eb, B1, B2, B3, B5. change (with_iters (with_dt g0 dt) (g_max_iters g0)) with g in *. change (with_dt g0 dt) with g in Eb. fold ws in Eb.
  destruct (@dm_create_ok NumR (g_k g) Hk2) as (dm & Edm & Hdm).
  set (p0 := with_cl (prune_create NumR (g_k g) (g_ncol g)) (s_cltrs b)).
  assert (Hp0 : psized g p0).
  { unfold psized, p0. cbn [with_cl p_cl p_prev_means p_prev_dist p_s_val prune_create]. rewrite !repeat_length. splits; auto. apply Nat.mul_comm. }
  assert (HM : exists dm1 p1, match ia with INone => compute_dist (g_ncol g) dm p0 | _ => Ok (dm, p0) end = Ok (dm1, p1) /\ dm_ok (g_k g) dm1 /\ psized g p1 /\
    p_cl p1 = s_cltrs b /\ p_prev_means p1 = repeat 0 (g_ncol g * g_k g)).
  { assert (Hd : forall u, u = @Ok (dist_matrix NumR * prune_clusters NumR) (dm, p0) -> exists dm1 p1, u = Ok (dm1, p1) /\ dm_ok (g_k g) dm1 /\ psized g p1 /\
      p_cl p1 = s_cltrs b /\ p_prev_means p1 = repeat 0 (g_ncol g * g_k g)) by (intros u ->; exists dm, p0; splits; auto).
    destruct ia; try (apply Hd; reflexivity). clear Hd.
    destruct Hp0 as (P1 & P2 & P3 & P4).
    destruct (@compute_dist_R (g_k g) (g_ncol g) p0 Hk2 P1 P4 dm Hdm) as (dm1 & p1 & E & Ht & C1 & C2 & C3 & _).
    exists dm1, p1. split; [exact E|]. destruct Ht as (T1 & T2 & T3 & _). split; [exact T1|]. split; [|split; [exact C1|exact C2]].
    unfold psized. rewrite C2, C3. splits; auto. }
  destruct HM as (dm1 & p1 & EM & Hdm1 & Hp1 & C1 & C2).
  set (s0 := mkPst p1 dm1 (map (fun a => (nmax NumR, a, false)) (s_asg b)) (s_counts b) 0 []).
  assert (Hws : wok (g_nrow g) (g_ncol g) data ws) by (apply omp_workers_wok; exact (oc_chunks C)).
  assert (Hsch : forall i, complete (w_ranges ws) (scheds i)) by (unfold ws; rewrite omp_workers_ranges; exact (oc_sched C)).
  assert (Hpre : ppre g ws (pfill g ws s0)).
  { unfold ppre. split; [exact Hp1|]. split; [exact Hdm1|]. split; [exact B3|]. split; [|apply pfill_locals].
    cbn [pfill s0 ps_cells]. rewrite map_length. exact B2. }
  assert (Hst : forall j, (j < g_k g)%nat -> pcentroid (g_ncol g) s0 j = start_centroid g data (Some centers) it (d_int d) (d_real d) j).
  { intros j Hj. unfold pcentroid. cbn [s0 ps_cltrs]. rewrite C1. exact (B5 j Hj). }
  assert (Hent : forall r, (r < g_nrow g)%nat -> entry_ok (g_k g) (g_dt g) (cent s0) (row data (g_ncol g) r) (cdist (cellat s0 r)) (casg (cellat s0 r))).
  { intros r Hr. left. split.
    - unfold cdist, cellat. cbn [s0 ps_cells]. assert (G : forall (l : list (option nat)) i, (i < length l)%nat -> fst (fst (nth i (map (fun a => (nmax NumR, a, false)) l) dcell)) = nmax NumR).
      { clear. induction l as [|x l IH]; intros [|i] H; cbn [length] in H; try lia; [reflexivity|]. cbn [map nth]. apply IH. lia. }
      apply G. rewrite B2. exact Hr.
    - intros j Hj. specialize (Hfin r j Hr Hj). rewrite <- (Hst j Hj) in Hfin. destruct Hp1 as (Sh & _). rewrite (@pcentroid_cent g s0 j) in Hfin by exact Sh. exact Hfin. }
  destruct (@passes_ok g data ws scheds (pfill g ws s0) (max 1 (g_max_iters g0 - 1)) Hk2 V Hws Hsch Hpre C2 Hent) as (s1 & iter & conv & s' & more & P).
  exists s0, s1, iter, conv, s', more. split; [exact Hpre|]. split; [exact Hent|]. split; [exact P|]. split; [exact Hst|].
  unfold compute_min_kmeans. change (g_k g0) with (g_k g). change (g_nrow g0) with (g_nrow g).
  replace (k_rejected (g_k g) (g_nrow g)) with false.
  2:{ unfold k_rejected. pose proof (oc_kmax C). destruct (Nat.ltb_spec (g_nrow g) (g_k g)); [lia|]. destruct (Nat.ltb_spec (g_k g) 2); [lia|].
      destruct (Z.eqb_spec (Z.of_nat (g_k g)) (2 ^ 32 - 1)); [lia|reflexivity]. }
  rewrite Eo. cbn [Base.bind]. rewrite Edm. cbn [Base.bind].
  rewrite (dist_of_eq _ Hda). fold g ws. unfold omp_init in Eb. rewrite Eb. cbn [Base.bind]. fold p0. rewrite EM. cbn [Base.bind fst snd]. fold s0.
  change (g_max_iters g) with (g_max_iters g0). replace (0 <? g_max_iters g0)%nat with true by (symmetry; apply Nat.ltb_lt; lia).
  destruct (@omp_first_eq g data ws Hk2 V Hws (scheds 1%nat) s0 s1 (Hsch _) Hpre Hent (pp_first P)) as (s2 & E2 & E1). rewrite E2. cbn [Base.bind]. rewrite E1.
  assert (Hi1 : pinv g ws data s1) by (apply (pp_in P); left; reflexivity).
  rewrite (@omp_ploop_eq g data ws Hk2 V Hws scheds Hsch (g_max_iters g0 - 2) 2 s1 [s1] Hi1).
  replace (g_max_iters g0 - 2)%nat with (max 1 (g_max_iters g0 - 1) - 1)%nat by lia. rewrite (pp_loop P). reflexivity.
Qed.

(** C110: a valid call returns; the sizes and centroids are those of the returned
    assignment; how many passes were made and what is reported *)
Theorem C110_pruned_openmp : forall g0 da dt ia it centers data chunks red d scheds,
  OmpProofs.dist_of da = Some dt -> init_of ia = Some it -> (1 <= g_max_iters g0)%nat ->
  let g := with_dt g0 dt in
  omp_call g it centers data chunks red d scheds -> start_finite g data (Some centers) it (d_int d) (d_real d) ->
  exists pr, compute_min_kmeans g0 da ia centers data chunks red d scheds = Ok pr /\
    let o := pr_out pr in
    (* every row has a cluster *)
    length (ct_asg o) = g_nrow g /\ (forall r, (r < g_nrow g)%nat -> exists a, nth r (ct_asg o) None = Some a /\ (a < g_k g)%nat) /\
    (* sizes and means of that assignment *)
    (forall j, (j < g_k g)%nat -> let l := members (g_nrow g) (g_ncol g) data (ct_asg o) j in
       nth_error (ct_counts o) j = Some (Z.of_nat (length l)) /\
       row (ct_centroids o) (g_ncol g) j = match l with [] => vzero (g_ncol g) | _ => vmean (g_ncol g) l end) /\
    (* passes *)
    (1 <= length (pr_trace pr) <= max 1 (g_max_iters g0 - 1))%nat /\
    (pr_converged pr = true -> ct_iters o = length (pr_trace pr)) /\
    (pr_converged pr = false -> length (pr_trace pr) = max 1 (g_max_iters g0 - 1) /\ ct_iters o = max 2 (g_max_iters g0)).
Proof.
  intros g0 da dt ia it centers data chunks red d scheds Hda Hia Hm g C Hfin.
  destruct (@omin_passes g0 da dt ia it centers data chunks red d scheds Hda Hia Hm C Hfin) as (s0 & s1 & iter & conv & s' & more & Hpre & Hent & P & Hst & E).
  eexists. split; [exact E|]. cbn [pr_out pr_trace pr_converged]. pose proof (oc_valid C) as V.
  pose proof (@pp_output g data _ scheds _ _ V s1 iter conv s' more P (mkCluster NumR (g_nrow g) (g_ncol g) iter (g_k g) (asg_of (ps_cells s')) (ps_counts s') (c_means (p_cl (ps_cltrs s')))) eq_refl eq_refl eq_refl) as O.
  destruct O as (O1 & O2 & O3 & O4). cbn [ct_asg ct_counts ct_centroids] in *.
  destruct (pp_last P) as (c & Es).
  assert (Hi : pinv g (omp_workers NumR chunks data (g_ncol g)) data (last more s1)).
  { apply (pp_in P). assert (Hne : s1 :: more <> []) by discriminate. destruct (last_in s1 Hne) as (Hin & _). rewrite last_cons' in Hin. exact Hin. }
  assert (Ec : ps_cells s' = ps_cells (last more s1)) by (rewrite Es; reflexivity).
  destruct Hi as (_ & _ & _ & _ & (La & Ha) & _).
  split; [rewrite Ec; unfold asg_of; rewrite map_length; exact La|]. split.
  { intros r Hr. destruct (Ha r Hr) as (a & Ea & Hlt). exists a. split; [|exact Hlt]. rewrite Ec. rewrite <- Ea. exact (passigned_cell (last more s1) r). }
  split.
  { intros j Hj. rewrite O1. destruct (O4 j Hj) as (H1 & H2). split; [exact H2|]. etransitivity; [exact H1|]. unfold cluster_mean. destruct (members _ _ _ _ _); reflexivity. }
  pose proof (pp_len P) as Hl. cbn [length]. splits; try lia.
  - intros Hc. destruct (pp_conv P Hc) as (pre & f & _ & _ & _ & Hi). exact Hi.
  - intros Hc. destruct (pp_full P Hc) as (Hf & _ & Hi). cbn [ct_iters]. lia.
Qed.
Print Assumptions C110_pruned_openmp.

(** the unpruned entry point computes a Lloyd run *)
Lemma same_asg (t t' : list (kst NumR)) : Forall2 (@same NumR) t t' -> map (@s_asg NumR) t = map (@s_asg NumR) t'.
Proof. induction 1 as [|x y l l' (_ & H & _) _ IH]; [reflexivity|]. cbn [map]. rewrite H, IH. reflexivity. Qed.

Lemma omp_lloyd g0 da dt ia it centers data chunks red d scheds rr : OmpProofs.dist_of da = Some dt -> init_of ia = Some it -> (2 <= g_max_iters g0)%nat ->
  let g := with_iters (with_dt g0 dt) (g_max_iters g0 - 1) in
  omp_call g it centers data chunks red d scheds -> compute_kmeans g0 da ia centers data chunks red d scheds = Ok rr ->
  lloyd g data (start_centroid g data (Some centers) it (d_int d) (d_real d)) (map (@s_asg NumR) (rr_trace rr)) (rr_converged rr) /\
  output_of g data (last (map (@s_asg NumR) (rr_trace rr)) []) (rr_out rr) /\
  ct_iters (rr_out rr) = (if rr_converged rr then length (rr_trace rr) else g_max_iters g0).
Proof.
  intros Hda Hia Hm g C E. pose proof (oc_valid C) as V. destruct (oc_k C) as (Hk2 & Hkn).
  destruct (get_workers V) as (ws & B & W). pose proof V as (V1 & V2 & V3 & V4). pose proof W as (Wt & _).
  set (fs := fun _ : nat => seq_sched (w_ranges ws)). set (dl := mkDraws NumR (d_int d) (d_real d) fs).
  assert (Fl : fair g data fs).
  { intros ws' B' i. assert (Q := eq_trans (eq_sym B) B'). injection Q as <-. apply seq_sched_complete. }
  pose proof (oc_draws C) as D.
  assert (Dl : draws_ok g data it dl) by (destruct it; cbn [draws_ok dl d_int d_sched]; auto; split; [apply D|exact Fl]).
  assert (Hc : centers_ok g (Some centers) it) by (destruct it; cbn [centers_ok]; auto).
  assert (Hpp : real_start g data it dl) by (intros ->; cbn [dl d_real]; apply D).
  set (ws2 := omp_workers NumR chunks data (g_ncol g)).
  assert (W2 : ntiles 0 (g_nrow g) (w_ranges ws2)) by (unfold ws2; rewrite omp_workers_ranges; exact (oc_chunks C)).
  assert (Htot : ia = IKmeanspp -> forall cells : list (R * option nat), length cells = g_nrow g ->
    fold_left Rplus (wsums ws cells) 0 = red (wsums ws2 cells)).
  { intros _ cells L. destruct (oc_red C (wsums ws2 cells)) as (l' & P & ->). rewrite (@wsums_total cells (g_nrow g) ws Wt L).
    pose proof (@wsums_total cells (g_nrow g) ws2 W2 L) as E2. rewrite fold_left_Rplus, <- (rsum_perm P), <- E2, fold_left_Rplus. reflexivity. }
  assert (Fp : ia = IKmeanspp -> forall i, complete chunks (d_sched d i)).
  { intros ->. cbn in Hia. injection Hia as <-. apply D. }
  assert (Hu : forall A j, length A = g_nrow g -> (j < g_k g)%nat -> ucel g ws data A j = ucel g ws2 data A j).
  { intros A j LA Hj. rewrite (@ucel_R g data ws A j V4 LA Wt), (@ucel_R g data ws2 A j V4 LA W2). reflexivity. }
  pose proof (@omp_run_sim NumR g0 da dt ia it centers data chunks red dl d fs scheds ws Hda Hia V Hk2 Hkn (oc_kmax C) B W (oc_chunks C) Fl (oc_sched C) eq_refl eq_refl Dl Fp Hc Hu Htot) as H.
  cbv zeta in H. fold g in H. rewrite E in H. match type of H with match ?u with _ => _ end => destruct u as [a|e] eqn:Ea end; [|contradiction].
  destruct H as ((H1 & H2 & H3 & H4 & H5) & H6). pose proof (same_asg H5) as Et. specialize (H6 Hm).
  assert (Av : valid_args g data (Some centers) it dl) by (unfold valid_args; splits; auto; lia).
  pose proof (@run_lloyd g data (Some centers) it dl fs a Av Hpp Fl Ea) as L. rewrite Et, H4 in L. split; [exact L|].
  assert (Hm1 : (1 <= g_max_iters g)%nat) by (change (g_max_iters g) with (g_max_iters g0 - 1)%nat; lia).
  pose proof (@map_nonempty _ _ _ _ (lloyd_nonempty Hm1 L)) as Hne.
  assert (Hna : rr_trace a <> []) by (intros Ex; apply Hne; rewrite Ex in H5; inversion H5; reflexivity).
  pose proof (@run_output g data (Some centers) it dl fs a Av Fl Ea Hm1 Hna) as O. rewrite Et in O. split.
  - destruct O as (O1 & O2 & O3 & O4). unfold output_of. rewrite <- H1, <- H2. split; [exact O1|]. split; [exact O2|].
    split; [etransitivity; [exact (f_equal (@length R) (eq_sym H3))|exact O3]|]. intros j Hj. destruct (O4 j Hj) as (Q1 & Q2). split; [|exact Q2].
    etransitivity; [exact (f_equal (fun v : list R => row v (g_ncol g) j) (eq_sym H3))|exact Q1].
  - destruct (@C62_iterations_partial NumR g0 da ia centers data chunks red d scheds rr E) as (_ & I1 & I2). destruct (rr_converged rr); [exact (I2 eq_refl)|exact (proj2 (I1 eq_refl))].
Qed.

(** C111: pruned against unpruned, each with any chunks, schedules and reductions.
    Missing (and false: [C111_one_iteration_refuted], [C111_refuted]): a limit of one
    iteration, ties, a first update that moves a centroid farther than its new norm. *)
Theorem C111_pruned_is_unpruned_partial : forall (g0 : kcfg NumR) ia it centers data chunks chunks' red red' d d' scheds scheds' rr,
  let g := with_dt g0 EUCL in
  init_of ia = Some it -> (2 <= g_max_iters g0)%nat -> g_tol g0 < 1 ->
  omp_call g it centers data chunks red d scheds -> omp_call g it centers data chunks' red' d' scheds' ->
  d_int d' = d_int d -> d_real d' = d_real d ->
  let start := start_centroid g data (Some centers) it (d_int d) (d_real d) in
  start_finite g data (Some centers) it (d_int d) (d_real d) ->
  compute_kmeans g0 DEucl ia centers data chunks red d scheds = Ok rr ->
  no_ties g data start (map (@s_asg NumR) (rr_trace rr)) ->
  (* no centroid moves, in the first update, farther than its new norm *)
  (forall s1 j, nth_error (rr_trace rr) 0 = Some s1 -> (j < g_k g)%nat ->
     let c1 := cluster_mean g data (s_asg s1) j in edist (start j) c1 <= edist c1 (vzero (g_ncol g))) ->
  exists pr, compute_min_kmeans g0 DEucl ia centers data chunks' red' d' scheds' = Ok pr /\
    ct_asg (pr_out pr) = ct_asg (rr_out rr) /\ ct_counts (pr_out pr) = ct_counts (rr_out rr) /\
    ct_centroids (pr_out pr) = ct_centroids (rr_out rr) /\
    ct_iters (pr_out pr) = ct_iters (rr_out rr) /\ pr_converged pr = rr_converged rr.
Proof.
  intros g0 ia it centers data chunks chunks' red red' d d' scheds scheds' rr g Hia Hm Ht C C' Ei Er start Hfin E Hn Hdrift.
  set (m := (g_max_iters g0 - 1)%nat). set (gm := with_iters g m).
  destruct (@omp_lloyd g0 DEucl EUCL ia it centers data chunks red d scheds rr eq_refl Hia Hm (call_iters m C) E) as (L & O & I).
  cbv zeta in L, O. change (with_iters (with_dt g0 EUCL) (g_max_iters g0 - 1)) with gm in L, O.
  assert (Hst' : forall j, start_centroid g data (Some centers) it (d_int d') (d_real d') j = start j) by (intros j; unfold start; rewrite Ei, Er; reflexivity).
  assert (Hfin' : start_finite g data (Some centers) it (d_int d') (d_real d')) by (intros r j Hr Hj; rewrite Hst'; apply Hfin; assumption).
  destruct (@omin_passes g0 DEucl EUCL ia it centers data chunks' red' d' scheds' eq_refl Hia ltac:(lia) C' Hfin') as (s0 & s1 & iter & conv & s' & more & Hpre & Hent & P & Hst & Ep).
  fold g in Hpre, P, Hst, Ep. replace (max 1 (g_max_iters g0 - 1)) with m in P by (unfold m; lia).
  eexists. split; [exact Ep|]. cbn [pr_out pr_converged]. pose proof (oc_valid C') as V. destruct (oc_k C') as (Hk2 & Hkn).
  assert (Hws : @wok NumR (g_nrow g) (g_ncol g) data (omp_workers NumR chunks' data (g_ncol g))) by (apply omp_workers_wok; exact (oc_chunks C')).
  assert (H0 : forall j, (j < g_k gm)%nat -> start j = pcentroid (g_ncol g) s0 j) by (intros j Hj; rewrite <- Hst'; symmetry; apply Hst; exact Hj).
  assert (H00 : forall j, (j < g_k gm)%nat -> start_centroid gm data (Some centers) it (d_int d) (d_real d) j = pcentroid (g_ncol g) s0 j) by (intros j Hj; rewrite <- (H0 j Hj); apply start_iters).
  assert (Hn2 : no_ties gm data (start_centroid gm data (Some centers) it (d_int d) (d_real d)) (map (@s_asg NumR) (rr_trace rr))).
  { intros i A x a j EA Hx Ea Hj Hne. pose proof (Hn i A x a j EA Hx Ea Hj Hne) as H. destruct i as [|i]; [|exact H]. cbn [cents_before] in H |- *. unfold gm. rewrite !start_iters. exact H. }
  assert (Hm1 : (1 <= g_max_iters gm)%nat) by (change (g_max_iters gm) with m; unfold m; lia).
  assert (Hi1 : pinv g (omp_workers NumR chunks' data (g_ncol g)) data s1) by (apply (pp_in P); left; reflexivity).
  pose proof V as (V1 & V2 & V3 & V4).
  (* the first passes agree *)
  assert (E1 : exists k1 tl, rr_trace rr = k1 :: tl /\ s_asg k1 = asg_of (ps_cells s1)).
  { pose proof (@map_nonempty _ _ _ _ (lloyd_nonempty Hm1 L)) as Hne. destruct (rr_trace rr) as [|k1 tl]; [congruence|]. exists k1, tl. split; [reflexivity|].
    destruct (@ll_assign _ _ _ _ _ L 0%nat (s_asg k1) eq_refl) as (La & Hx). pose proof Hi1 as (_ & _ & _ & _ & (Lc & _) & _).
    apply nth_ext with (d := None) (d' := None); [unfold asg_of; rewrite map_length, La; symmetry; exact Lc|]. intros x Hlt. rewrite La in Hlt.
    destruct (Hx x Hlt) as (a & Ea & Ha & _). destruct (@pp_first_near g data _ scheds' _ _ Hpre s1 iter conv s' more P x Hlt) as (a' & Ea' & Ha' & Hn').
    rewrite Ea. change (nth x (asg_of (ps_cells s1)) None) with (passigned s1 x). rewrite Ea'. f_equal.
    destruct (Nat.eq_dec a' a) as [Heq|Hneq]; [congruence|]. exfalso.
    pose proof (@Hn 0%nat (s_asg k1) x a a' eq_refl Hlt Ea Ha' Hneq) as Hlt'. cbn [cents_before] in Hlt'.
    specialize (Hn' a Ha). change (pcentroid (g_ncol g) (pfill g (omp_workers NumR chunks' data (g_ncol g)) s0)) with (pcentroid (g_ncol g) s0) in Hn'.
    rewrite <- !H0 in Hn' by assumption. lra. }
  destruct E1 as (k1 & tl & Er1 & Ea1).
  assert (Hd : drift_small g (pfill g (omp_workers NumR chunks' data (g_ncol g)) s0) s1).
  { intros j Hj. change (pcentroid (g_ncol g) (pfill g (omp_workers NumR chunks' data (g_ncol g)) s0)) with (pcentroid (g_ncol g) s0). rewrite <- (H0 j Hj).
    destruct (@means_members g data _ s1 j V4 Hi1 Hj) as (M1 & _). cbv zeta in M1.
    assert (M2 : pcentroid (g_ncol g) s1 j = cluster_mean g data (s_asg k1) j) by (rewrite M1, Ea1; unfold cluster_mean; destruct (members _ _ _ _ _); reflexivity).
    rewrite M2. apply (Hdrift k1 j); [rewrite Er1; reflexivity|exact Hj]. }
  assert (Hsch : forall i, complete (w_ranges (omp_workers NumR chunks' data (g_ncol g))) (scheds' i)) by (rewrite omp_workers_ranges; exact (oc_sched C')).
  pose proof (@pp_lloyd g data _ scheds' _ m Hk2 V Hws Hsch Hpre Hent s1 iter conv s' more P ltac:(unfold m; lia) eq_refl Ht Hd) as L'. fold gm in L'.
  destruct (lloyd_unique L L' H00 Hn2) as (Et & Ec).
  pose proof (@pp_output g data _ scheds' _ _ V s1 iter conv s' more P (mkCluster NumR (g_nrow g) (g_ncol g) iter (g_k g) (asg_of (ps_cells s')) (ps_counts s') (c_means (p_cl (ps_cltrs s')))) eq_refl eq_refl eq_refl) as O'.
  rewrite <- Et in O'. destruct (output_unique O' O) as (Q1 & Q2 & Q3). split; [exact Q1|]. split; [exact Q2|]. split; [exact Q3|]. split; [|congruence].
  rewrite I. cbn [ct_iters]. pose proof (f_equal (@length _) Et) as El. rewrite !map_length in El. rewrite <- Ec in P. destruct (rr_converged rr).
  - destruct (pp_conv P eq_refl) as (pre & f & _ & _ & _ & Hi). cbn [length] in El. lia.
  - destruct (pp_full P eq_refl) as (Hf & _ & Hi). unfold m in Hf. lia.
Qed.
Print Assumptions C111_pruned_is_unpruned_partial.
