(** C35, C68: the MPI version of pruned k-means. *)
From Coq Require Import Reals Lra.
From Verif Require Import Base Num Spec DistModel ClustersModel ClustersView PartitionModel ParModel KmeansModel PruneModel DistRunModel.
From Verif Require Import MatLemmas VecLemmas ClustersProofs DistProofs PartitionProofs ParProofs NearProofs KmeansProofs UpdateProofs RunProofs InitProofs KmeansR PropertiesKmeansR PropertiesPartition ParRule DistMatProofs PruneProofs ClusterSums PruneRound PruneUpdate PruneRun PruneRun2 PropertiesPrune DistRunProofs DistRunProofs2 DistRunProofs3 ProcRows DistInitProofs DistRunProofs4 DistRunProofs5 KmsppR SpecKmspp PropertiesKmspp DistKmspp DistInitAll.
Set Implicit Arguments.
Local Open Scope R_scope.

(* ------------------------------------------------------------------ *)
(** * Specification: what a state of all the processes shows *)

(** the assignment of all rows, in row order: process after process *)
Definition gassign (qs : list (dproc NumR)) : list (option nat) := concat (map (fun q => asg_of (ps_cells (dp_st q))) qs).
(** the copy of centroid [j] that a process holds, and of the cluster sizes *)
Definition dcentroid (ncol : nat) (q : dproc NumR) (j : nat) : list R := row (c_means (dp_cl q)) ncol j.
Definition dsizes (q : dproc NumR) : list Z := c_members (dp_cl q).

(** the mean of the rows of cluster [j]; the origin if there is none *)
Definition cluster_mean (g : kcfg NumR) (data : list R) (asg : list (option nat)) (j : nat) : list R :=
  match members (g_nrow g) (g_ncol g) data asg j with [] => vzero (g_ncol g) | l => vmean (g_ncol g) l end.

(** the arguments of a run: the distribution needs a row for every process, and
    the program's own check sums the cluster sizes in an int *)
Record dist_args (g : kcfg NumR) (P : nat) (data : list R) (centers : option (list R)) it (draw : nat -> nat) (ur : nat -> R) (ksched scheds : nat -> nat -> list nat) : Prop := {
  da_procs : (1 <= P <= g_nrow g)%nat;
  da_rows : (Z.of_nat (g_nrow g) < 2 ^ 31)%Z;
  da_data : length data = (g_nrow g * g_ncol g)%nat;
  da_threads : (1 <= g_nthreads g < 2 ^ 32)%Z;
  da_k : (2 <= g_k g)%nat;
  da_centers : match centers, it with Some m, NONE => (g_k g * g_ncol g <= length m)%nat | _, _ => True end;
  da_init : match it with
            | FORGY => forall j, (j < g_k g)%nat -> (draw j < g_nrow g)%nat
            | RANDOM => forall r, (r < g_nrow g)%nat -> (draw r < g_k g)%nat
            | NONE => True
            | PLUSPLUS => (draw 0%nat < g_nrow g)%nat /\ proper g data /\ (forall i, 0 <= ur i <= 1) /\
                forall i rank ws, (rank < P)%nat -> build_workers (proc_cfg g P rank) (proc_data g P data rank) = Ok ws -> complete (w_ranges ws) (ksched i rank)
            end;
  da_fair : forall i rank ws, (rank < P)%nat -> build_workers (proc_cfg g P rank) (proc_data g P data rank) = Ok ws ->
      complete (w_ranges ws) (scheds i rank)
}.

(** the centroids a run starts from *)
Definition start_centroid (g : kcfg NumR) (data : list R) (centers : option (list R)) it (draw : nat -> nat) (ur : nat -> R) (j : nat) : list R :=
  match it with
  | PLUSPLUS => row data (g_ncol g) (nth j (kpp_seeds g data (draw 0%nat) ur (g_k g)) 0%nat)
  | FORGY => row data (g_ncol g) (draw j)
  | RANDOM => cluster_mean g data (map (fun r => Some (draw r)) (seq 0 (g_nrow g))) j
  | _ => match centers with Some m => row m (g_ncol g) j | None => vzero (g_ncol g) end
  end.

(** no distance from a row to an initial centroid overflows *)
Definition start_finite (g : kcfg NumR) (data : list R) (centers : option (list R)) it draw ur : Prop :=
  forall r j, (r < g_nrow g)%nat -> (j < g_k g)%nat ->
    rdist (g_dt g) (row data (g_ncol g) r) (start_centroid g data centers it draw ur j) < IZR dbl_max_Z.

(** [qs'] is the state of all processes after turn [i], that started in [qs] *)
Definition dturn (rr : drun_result NumR) (i : nat) (qs qs' : list (dproc NumR)) : Prop :=
  nth_error (dr_init rr :: dr_trace rr) i = Some qs /\ nth_error (dr_trace rr) i = Some qs'.

(** the number of rows whose assignment differs *)
Definition moved (a b : list (option nat)) : nat :=
  length (filter (fun p => negb (id_eqb (fst p) (snd p))) (combine a b)).

(* ------------------------------------------------------------------ *)
(** * Bridges *)
Lemma nth_map_seq0 {A} (f : nat -> A) n r dd : (r < n)%nat -> nth r (map f (seq 0 n)) dd = f r.
Proof. intros H. rewrite (nth_indep _ dd (f 0%nat)) by (rewrite map_length, seq_length; exact H). rewrite map_nth, seq_nth by exact H. reflexivity. Qed.
Lemma nth_firstn_lt {A} : forall (l : list A) m i dd, (i < m)%nat -> nth i (firstn m l) dd = nth i l dd.
Proof. induction l as [|x l IH]; intros [|m] [|i] dd H; try lia; try reflexivity. cbn. apply IH. lia. Qed.
Lemma Forall2_nth_r {A B} (R : A -> B -> Prop) l l' i b : Forall2 R l l' -> nth_error l' i = Some b -> exists a, nth_error l i = Some a /\ R a b.
Proof.
  intros H. revert i. induction H as [|x y l l' Hxy H IH]; intros [|i] E; try discriminate.
  - injection E as <-. exists x. auto.
  - apply IH. exact E.
Qed.
Lemma gassign_cells qs : gassign qs = asg_of (concat (gcells qs)).
Proof. unfold gassign, gcells, asg_of. rewrite concat_map, map_map. reflexivity. Qed.

Definition rcells (draw : nat -> nat) (n : nat) : list cellR := map (fun r => (0, Some (draw r), false) : cellR) (seq 0 n).
Lemma rcells_asg draw n r : (r < n)%nat -> casg (nth r (rcells draw n) dcell) = Some (draw r).
Proof.
  intros H. unfold rcells. assert (E : nth r (map (fun r => (0, Some (draw r), false) : cellR) (seq 0 n)) dcell = (0, Some (draw r), false)) by (apply (@nth_map_seq0 cellR (fun r => (0, Some (draw r), false))); exact H).
  rewrite E. reflexivity.
Qed.
Lemma rs_sumF g (data : list R) draw j i :
  rs_sum g data draw (seq 0 (g_nrow g)) j i =
  sumF (fun r => row data (g_ncol g) r) (g_nrow g) (rcells draw (g_nrow g)) j i.
Proof.
  unfold rs_sum, sumF. f_equal. apply map_ext_in. intros r Hr. apply in_seq in Hr.
  rewrite rcells_asg by lia. unfold ind. cbn [fst snd id_eqb]. rewrite Nat.eqb_sym. destruct (draw r =? j)%nat; [symmetry; apply Rmult_1_l|symmetry; apply Rmult_0_l].
Qed.
Lemma rs_cntF n draw j : rs_cnt draw (seq 0 n) j = cntF n (rcells draw n) j.
Proof.
  unfold rs_cnt, cntF. f_equal. apply map_ext_in. intros r Hr. apply in_seq in Hr.
  rewrite rcells_asg by lia. unfold ind. cbn [fst snd id_eqb]. rewrite Nat.eqb_sym. reflexivity.
Qed.

Lemma start_len g data centers it draw ur ksched j P scheds : dist_args g P data centers it draw ur ksched scheds -> (j < g_k g)%nat ->
  length (start_centroid g data centers it draw ur j) = g_ncol g.
Proof.
  intros A Hj. pose proof (da_data A) as Hd. unfold start_centroid. destruct it.
  - unfold cluster_mean.
    assert (Hdim : alldim (g_ncol g) (members (g_nrow g) (g_ncol g) data (map (fun r => Some (draw r)) (seq 0 (g_nrow g))) j)).
    { unfold alldim, members. apply Forall_forall. intros x Hx. apply in_map_iff in Hx as (r & <- & Hr). apply filter_In in Hr as (Hr & _). apply in_seq in Hr.
      apply (@row_length _ data (g_ncol g) r (g_nrow g)); [exact Hd|lia]. }
    pose proof (vsum_length Hdim) as Ls. destruct (members _ _ _ _ _); [apply vzero_length|]. unfold vmean. rewrite map_length. exact Ls.
  - pose proof (da_init A) as Hi. cbn in Hi. apply (@row_length _ data (g_ncol g) (draw j) (g_nrow g)); [exact Hd|auto].
  - pose proof (da_init A) as (Hi & Hp & Hu & Hs).
    destruct (@init_pp g P data (da_procs A) Hd (da_rows A) (da_threads A) (da_k A) centers draw ur ksched Hp Hi Hu Hs) as (_ & _ & _ & _ & _ & Hrg & _).
    apply (@row_length _ data (g_ncol g) _ (g_nrow g)); [exact Hd|]. rewrite Forall_forall in Hrg. apply Hrg. apply nth_In. rewrite seeds_length. exact Hj.
  - pose proof (da_centers A) as Hc. cbn in Hc. destruct centers as [m|]; [|apply vzero_length]. unfold row. apply slice_length. nia.
Qed.

Lemma init_cent_start g data centers it draw ur ksched P scheds j : it <> PLUSPLUS -> dist_args g P data centers it draw ur ksched scheds -> (j < g_k g)%nat ->
  map (init_cent g data centers it draw j) (seq 0 (g_ncol g)) = start_centroid g data centers it draw ur j.
Proof.
  intros Hit A Hj. pose proof (da_data A) as Hd. pose proof (start_len A Hj) as Ls.
  apply (@vec_ext (g_ncol g)); [rewrite map_length, seq_length; reflexivity|exact Ls|].
  intros i Hi. rewrite (@nth_map_seq0 _ (init_cent g data centers it draw j) (g_ncol g) i 0) by exact Hi.
  revert Ls. unfold init_cent, start_centroid. destruct it; intros Ls.
  - revert i Hi. assert (E : map (fun i => finF (rs_sum g data draw (seq 0 (g_nrow g))) (rs_cnt draw (seq 0 (g_nrow g))) j i) (seq 0 (g_ncol g)) =
       cluster_mean g data (map (fun r => Some (draw r)) (seq 0 (g_nrow g))) j).
    { unfold cluster_mean.
      assert (Ea : map (fun r => Some (draw r)) (seq 0 (g_nrow g)) = asg_of (rcells draw (g_nrow g))).
      { unfold asg_of, rcells. rewrite map_map. reflexivity. }
      rewrite Ea. apply finF_members; auto.
      - unfold rcells. rewrite map_length, seq_length. reflexivity.
      - rewrite map_length, seq_length. reflexivity.
      - intros i Hi. rewrite nth_map_seq0 by exact Hi. apply finF_ext; [apply rs_sumF|apply rs_cntF]. }
    intros i Hi. rewrite <- E. symmetry. apply (@nth_map_seq0 _ (fun i => finF (rs_sum g data draw (seq 0 (g_nrow g))) (rs_cnt draw (seq 0 (g_nrow g))) j i)). exact Hi.
  - reflexivity.
  - congruence.
  - unfold initial_means. destruct centers as [m|].
    + pose proof (da_centers A) as Hc. cbn in Hc. unfold row. rewrite nth_slice by exact Hi. apply nth_firstn_lt. nia.
    + etransitivity; [|symmetry; apply nth_vzero]. assert (Hji : (j * g_ncol g + i < g_k g * g_ncol g)%nat) by nia. apply nth_repeat_d. exact Hji.
Qed.

(** what is known of a run *)
Definition drun_facts (g : kcfg NumR) (P : nat) (data : list R) (centers : option (list R)) it draw ur (rr : drun_result NumR) : Prop :=
  begun g P data (fun j i => nth i (start_centroid g data centers it draw ur j) 0) (dr_init rr) /\
  turns g P data true (dr_init rr) (dr_trace rr) /\ stops g P true (dr_init rr) (dr_trace rr) (dr_converged rr) /\
  (length (dr_trace rr) <= g_max_iters g)%nat /\ (dr_converged rr = false -> length (dr_trace rr) = g_max_iters g) /\
  let f := last (dr_trace rr) (dr_init rr) in
  exists q0, hd_error f = Some q0 /\
  dr_out rr = mkCluster NumR (g_nrow g) (g_ncol g) (length (dr_trace rr)) (g_k g) (gassign f) (dsizes q0) (c_means (dp_cl q0)).

Lemma drun_ok g P data centers it draw ur ksched scheds : dist_args g P data centers it draw ur ksched scheds -> start_finite g data centers it draw ur ->
  exists rr, dist_prune_run g P centers it data draw ur ksched scheds = Ok rr /\ drun_facts g P data centers it draw ur rr.
Proof.
  intros A Hfin. pose proof A as [HP HG Hd Hnt Hk Hc Hdr Hf].
  assert (Hini : exists qs qs0, mapM (dproc_create g P data centers it) (seq 0 P) = Ok qs /\ dist_init g P data it draw ur ksched qs = Ok qs0 /\
    begun g P data (fun j i => nth i (start_centroid g data centers it draw ur j) 0) qs0 /\ dpre g P data qs0).
  { assert (Hpp : it = PLUSPLUS \/ it <> PLUSPLUS) by (destruct it; auto; right; discriminate). destruct Hpp as [-> | Hit].
    - destruct Hdr as (Hi & Hp & Hu & Hs). destruct (@init_pp g P data HP Hd HG Hnt Hk centers draw ur ksched Hp Hi Hu Hs) as (qs & qs0 & E1 & E2 & Hst & Hrg & Hpre).
      exists qs, qs0. splits; auto. apply Hpre. intros r Hr j Hj. exact (Hfin r j Hr Hj).
    - destruct (@init_ok g P data HP Hd HG Hnt Hk centers it draw ur ksched) as (qs & qs0 & E1 & E2 & Hst); auto.
      { destruct it; try exact Hdr; try exact I. }
      pose proof Hst as (Hr & Hall).
      assert (Hcen0 : forall q j, In q qs0 -> (j < g_k g)%nat -> cent (dp_st q) j = start_centroid g data centers it draw ur j).
      { intros q j Hq Hj. rewrite Forall_forall in Hall. destruct (Hall q Hq) as (B & _ & _ & Hcen). pose proof B as (_ & _ & _ & (Hs & _) & _).
        rewrite <- (init_cent_start Hit A Hj). apply (@vec_ext (g_ncol g)).
        - apply (@crow_len (g_k g)); [exact Hs|exact Hj].
        - rewrite map_length, seq_length. reflexivity.
        - intros i Hi. rewrite (@nth_map_seq0 _ (init_cent g data centers it draw j) (g_ncol g) i 0) by exact Hi. apply Hcen; auto. }
      exists qs, qs0. splits; auto.
      + split; [exact Hr|]. apply Forall_forall. intros q Hq. pose proof Hall as Hall'. rewrite Forall_forall in Hall'. destruct (Hall' q Hq) as (B & _ & Ew & _). splits; auto.
        intros j i Hj Hi. rewrite (Hcen0 q j Hq Hj). reflexivity.
      + split; [exact Hr|]. apply Forall_forall. intros q Hq. pose proof Hall as Hall'. rewrite Forall_forall in Hall'. destruct (Hall' q Hq) as (B & Hfr & _). split; [exact B|].
        intros r Hr'. left. split; [apply Hfr; exact Hr'|].
        intros j Hj. pose proof B as (B1 & _). pose proof (proc_bound HP B1) as Hb.
        assert (Er : XQ g P data q r = row data (g_ncol g) (proc_off (g_nrow g) P (dp_rank q) + r)) by (exact (@proc_row NumR g P data HP Hd (dp_rank q) r B1 Hr')).
        rewrite Er, (Hcen0 q j Hq Hj). apply Hfin; [|exact Hj]. unfold nq in Hr'. lia. }
  destruct Hini as (qs & qs0 & E1 & E2 & Hst & Hpre). pose proof Hst as (Hr & Hall).
  destruct (@loop_ok g P data HP Hd HG Hk scheds (g_max_iters g) 0%nat qs0 []) as (conv & more & E3 & Ht & Hs & Hl & Hl').
  { intros i q Hq. rewrite Forall_forall in Hall. destruct (Hall q Hq) as (B & Ew & _). apply (Hf i (dp_rank q)); [apply B|exact Ew]. }
  { exact Hpre. }
  set (f := last more qs0).
  assert (Hff : dranks P f /\ Forall (dbody g P data) f).
  { assert (Hgen : forall more qs first, dranks P qs /\ Forall (dbody g P data) qs -> turns g P data first qs more -> dranks P (last more qs) /\ Forall (dbody g P data) (last more qs)).
    { clear. induction more as [|q more IH]; intros qs first Hq Ht; [exact Hq|]. rewrite last_cons'. destruct Ht as ((Hi & _) & _ & Ht). apply (IH q false); auto.
      destruct Hi as (Hr & Hi). split; [exact Hr|]. eapply Forall_impl; [|exact Hi]. cbn beta. intros x Hx. apply Hx. }
    apply (Hgen more qs0 true); auto. split; [exact Hr|]. eapply Forall_impl; [|exact Hall]. cbn beta. intros x Hx. apply Hx. }
  destruct Hff as (Hrf & Hbf).
  assert (Eg : gather_root (Z.of_nat (g_nrow g)) (Z.of_nat P) None (map (fun q => asg_of (ps_cells (dp_st q))) f) = Ok (gassign f)).
  { assert (Lm : map (@length (option nat)) (map (fun q : dproc NumR => asg_of (ps_cells (dp_st q))) f) = map (proc_nrow (g_nrow g) P) (seq 0 P)).
    { rewrite <- (gcells_len Hrf Hbf). unfold gcells. rewrite !map_map. apply map_ext. intros q. unfold asg_of. apply map_length. }
    apply C06_gather; try lia.
    - pose proof (@cc_count (g_nrow g) P _ _ Lm) as Ec. rewrite Ec. reflexivity.
    - intros r l El. destruct (@cc_at (g_nrow g) P _ _ Lm r _ El) as (Hrk & ->). unfold proc_nrow. rewrite Z2Nat.id; [reflexivity|].
      pose proof (proc_nrow_pos HP Hrk) as Hp. unfold proc_nrow in Hp. lia. }
  assert (Eh : exists q0, hd_error f = Some q0 /\ aget f 0 = Ok q0).
  { destruct f as [|q0 f'] eqn:Ef; [exfalso; exact (@ranks_nonempty g P data HP Hd Hk _ Hrf eq_refl)|]. exists q0. split; reflexivity. }
  destruct Eh as (q0 & Eh & Ea).
  exists (mkDRun (mkCluster NumR (g_nrow g) (g_ncol g) (length more) (g_k g) (gassign f) (dsizes q0) (c_means (dp_cl q0))) conv qs0 more).
  split.
  - unfold dist_prune_run. rewrite E1. cbn [bind]. rewrite E2. cbn [bind]. rewrite E3. cbn [bind app plus].
    fold f. rewrite Eg. cbn [bind]. rewrite Ea. reflexivity.
  - unfold drun_facts. cbn [dr_init dr_trace dr_converged dr_out]. splits; auto. exists q0. split; [exact Eh|reflexivity].
Qed.

Lemma drun_fact g P data centers it draw ur ksched scheds rr : dist_args g P data centers it draw ur ksched scheds -> start_finite g data centers it draw ur ->
  dist_prune_run g P centers it data draw ur ksched scheds = Ok rr -> drun_facts g P data centers it draw ur rr.
Proof. intros A Hf E. destruct (drun_ok A Hf) as (rr' & E' & H). rewrite E in E'. injection E' as <-. exact H. Qed.

Lemma dcentroid_cent g P data q j : dbody g P data q -> dcentroid (g_ncol g) q j = cent (dp_st q) j.
Proof. intros (_ & _ & _ & ((_ & Hd & _) & _) & _). unfold dcentroid, cent, crow. change (p_cl (ps_cltrs (dp_st q))) with (p_cl (dp_p q)). rewrite Hd. reflexivity. Qed.

(** the row's cell in the state of all the processes *)
Lemma gassign_at g P (data : list R) qs rk q r : (1 <= P <= g_nrow g)%nat -> dranks P qs -> Forall (dbody g P data) qs ->
  nth_error qs rk = Some q -> (r < nq g P q)%nat ->
  nth (proc_off (g_nrow g) P rk + r) (gassign qs) None = casg (cellat (dp_st q) r).
Proof.
  intros HP Hr Hb E Hlt. unfold gassign. rewrite Forall_forall in Hb. destruct (Hb q (nth_error_In _ _ E)) as (_ & _ & _ & _ & _ & L & _).
  rewrite (@cc_nth (g_nrow g) P _ (map (fun q : dproc NumR => asg_of (ps_cells (dp_st q))) qs) HP) with (l := asg_of (ps_cells (dp_st q))).
  - fold (passigned (dp_st q) r). apply passigned_cell.
  - rewrite <- (@gcells_len g P data qs Hr (proj2 (Forall_forall _ _) Hb)). unfold gcells. rewrite !map_map. apply map_ext. intros x. unfold asg_of. apply map_length.
  - rewrite nth_error_map, E. reflexivity.
  - unfold asg_of. exact (eq_ind_r (fun m => (r < m)%nat) Hlt (eq_trans (map_length _ _) L)).
Qed.

(* ------------------------------------------------------------------ *)
(** ** C35 *)

(** a run with valid arguments succeeds *)
Theorem C35_run_succeeds : forall (g : kcfg NumR) P data centers it draw ur ksched scheds,
  dist_args g P data centers it draw ur ksched scheds -> start_finite g data centers it draw ur ->
  exists rr, dist_prune_run g P centers it data draw ur ksched scheds = Ok rr.
Proof. intros. destruct (drun_ok H H0) as (rr & E & _). eauto. Qed.
Print Assumptions C35_run_succeeds.

(** Euclidean metric: after every turn every row is assigned to a nearest of the
    centroids (any process' copy of them) the turn started from *)
Theorem C35_dist_nearest : forall (g : kcfg NumR) P data centers it draw ur ksched scheds rr,
  dist_args g P data centers it draw ur ksched scheds -> start_finite g data centers it draw ur ->
  dist_prune_run g P centers it data draw ur ksched scheds = Ok rr ->
  forall i qs qs', dturn rr i qs qs' -> (g_dt g = EUCL \/ i = 0%nat) ->
  length (gassign qs') = g_nrow g /\
  forall x, (x < g_nrow g)%nat -> exists a, nth x (gassign qs') None = Some a /\ (a < g_k g)%nat /\
    forall q j, In q qs -> (j < g_k g)%nat ->
      rdist (g_dt g) (row data (g_ncol g) x) (dcentroid (g_ncol g) q a) <= rdist (g_dt g) (row data (g_ncol g) x) (dcentroid (g_ncol g) q j).
Proof.
  intros g P data centers it draw ur ksched scheds rr A Hfin E i qs qs' (E1 & E2) Hdt.
  destruct (drun_fact A Hfin E) as (Hst & Ht & _). pose proof A as [HP HG Hd Hnt Hk Hc Hdr Hf].
  destruct (@turns_nth g P data _ _ _ i qs qs' Ht E1 E2) as (f & (Hi & H2 & Hb) & Hb0 & Ef).
  destruct Hi as (Hr' & Hi').
  assert (Hb' : Forall (dbody g P data) qs') by (eapply Forall_impl; [|exact Hi']; cbn beta; intros q Hq; apply Hq).
  (* the state the turn starts from: same centroids on all processes *)
  assert (Hqs : Forall (dbody g P data) qs /\ forall q q2 j, In q qs -> In q2 qs -> (j < g_k g)%nat -> dcentroid (g_ncol g) q j = dcentroid (g_ncol g) q2 j).
  { destruct i as [|i].
    - cbn in E1. injection E1 as <-. destruct Hst as (_ & Hall). split; [eapply Forall_impl; [|exact Hall]; cbn beta; intros q Hq; apply Hq|].
      intros q q2 j Hq Hq2 Hj. rewrite Forall_forall in Hall. destruct (Hall q Hq) as (B & _ & C). destruct (Hall q2 Hq2) as (B2 & _ & C2).
      rewrite (dcentroid_cent j B), (dcentroid_cent j B2). pose proof B as (_ & _ & _ & (S & _) & _). pose proof B2 as (_ & _ & _ & (S2 & _) & _).
      apply (@vec_ext (g_ncol g)); [apply (@crow_len (g_k g)); auto|apply (@crow_len (g_k g)); auto|]. intros x Hx. rewrite C, C2 by auto. reflexivity.
    - cbn [nth_error] in E1.
      assert (E0 : exists a, nth_error (dr_init rr :: dr_trace rr) i = Some a).
      { destruct (nth_error (dr_init rr :: dr_trace rr) i) eqn:En; [eauto|]. apply nth_error_None in En. assert (i < length (dr_trace rr))%nat by (apply nth_error_Some; congruence). cbn [length] in En. lia. }
      destruct E0 as (a & E0). destruct (@turns_nth g P data _ _ _ i a qs Ht E0 E1) as (f0 & ((_ & Hi0) & _) & _).
      split; [eapply Forall_impl; [|exact Hi0]; cbn beta; intros q Hq; apply Hq|].
      intros q q2 j Hq Hq2 Hj. rewrite Forall_forall in Hi0. destruct (Hi0 q Hq) as (B & _ & C). destruct (Hi0 q2 Hq2) as (B2 & _ & C2).
      rewrite (dcentroid_cent j B), (dcentroid_cent j B2). unfold cent. change (p_cl (ps_cltrs (dp_st q))) with (dp_cl q). change (p_cl (ps_cltrs (dp_st q2))) with (dp_cl q2).
      rewrite (cis_vec C Hj), (cis_vec C2 Hj). reflexivity. }
  destruct Hqs as (Hbq & Hsame).
  split.
  { rewrite gassign_cells. unfold asg_of. rewrite map_length. apply (@cc_len (g_nrow g) P); [exact HP|]. apply (@gcells_len g P data); auto. }
  intros x Hx. destruct (row_owner HP Hx) as (rk & r & Hrk & Hr & ->).
  assert (Eq' : exists q', nth_error qs' rk = Some q').
  { destruct (nth_error qs' rk) eqn:En; [eauto|]. apply nth_error_None in En. rewrite <- (map_length (@dp_rank NumR)), Hr', seq_length in En. lia. }
  destruct Eq' as (q' & Eq'). pose proof (rank_at rk Hr' Eq') as Rq'.
  destruct (@Forall2_nth_r _ _ _ _ _ rk q' H2 Eq') as (q & Eq & (R & _ & Hnear & _)).
  assert (Hrq : (r < nq g P q)%nat) by (unfold nq; rewrite <- R, Rq'; exact Hr).
  destruct (Hnear r Hrq) as (a & Ea & Ha & Hmin).
  { destruct f; [left; reflexivity|right]. destruct i as [|i].
    - cbn in Ef. discriminate.
    - destruct Hdt as [Hdt|Hdt]; [|discriminate]. split; [exact Hdt|]. specialize (Hb0 eq_refl Hdt). unfold dbounds in Hb0. rewrite Forall_forall in Hb0.
      apply Hb0; [eapply nth_error_In; exact Eq|exact Hrq]. }
  exists a. split.
  { rewrite (@gassign_at g P data qs' rk q' r HP Hr' Hb' Eq'); [exact Ea|]. unfold nq. rewrite Rq'. exact Hr. }
  split; [exact Ha|]. intros q2 j Hq2 Hj.
  assert (Hin : In q qs) by (eapply nth_error_In; exact Eq).
  rewrite (Hsame q2 q a Hq2 Hin Ha), (Hsame q2 q j Hq2 Hin Hj). rewrite Forall_forall in Hbq. pose proof (Hbq q Hin) as B. rewrite !(dcentroid_cent _ B).
  assert (Er : XQ g P data q r = row data (g_ncol g) (proc_off (g_nrow g) P rk + r)).
  { rewrite <- Rq', R. apply (@proc_row NumR g P data HP Hd); [rewrite <- R, Rq'; exact Hrk|exact Hrq]. }
  rewrite <- Er. apply Hmin. exact Hj.
Qed.
Print Assumptions C35_dist_nearest.

(** every metric: after every turn every process holds the same centroids, the
    means of the global assignment, and the same sizes *)
Theorem C35_dist_means : forall (g : kcfg NumR) P data centers it draw ur ksched scheds rr,
  dist_args g P data centers it draw ur ksched scheds -> start_finite g data centers it draw ur ->
  dist_prune_run g P centers it data draw ur ksched scheds = Ok rr ->
  forall qs q j, In qs (dr_trace rr) -> In q qs -> (j < g_k g)%nat ->
    dcentroid (g_ncol g) q j = cluster_mean g data (gassign qs) j /\
    nth_error (dsizes q) j = Some (Z.of_nat (length (members (g_nrow g) (g_ncol g) data (gassign qs) j))).
Proof.
  intros g P data centers it draw ur ksched scheds rr A Hfin E qs q j Hqs Hq Hj.
  destruct (drun_fact A Hfin E) as (Hst & Ht & _). pose proof A as [HP HG Hd Hnt Hk Hc Hdr Hf].
  apply In_nth_error in Hqs as (i & E2).
  assert (E1 : exists a, nth_error (dr_init rr :: dr_trace rr) i = Some a).
  { destruct (nth_error (dr_init rr :: dr_trace rr) i) eqn:En; [eauto|]. apply nth_error_None in En. assert (i < length (dr_trace rr))%nat by (apply nth_error_Some; congruence). cbn [length] in En. lia. }
  destruct E1 as (a & E1). destruct (@turns_nth g P data _ _ _ i a qs Ht E1 E2) as (f0 & ((Hr & Hi0) & _) & _).
  assert (Hb : Forall (dbody g P data) qs) by (eapply Forall_impl; [|exact Hi0]; cbn beta; intros x Hx; apply Hx).
  rewrite Forall_forall in Hi0. destruct (Hi0 q Hq) as (B & _ & C).
  assert (Lg : length (concat (gcells qs)) = g_nrow g) by (apply (@cc_len (g_nrow g) P); [exact HP|]; apply (@gcells_len g P data); auto).
  rewrite (dcentroid_cent j B). unfold cent. change (p_cl (ps_cltrs (dp_st q))) with (dp_cl q). rewrite gassign_cells. split.
  - unfold cluster_mean. apply finF_members; auto.
    + eapply cis_row; eauto.
    + intros i' Hi'. destruct C as (_ & C). destruct (C j Hj) as (_ & _ & ->); [|exact Hi'].
      apply finF_ext; [apply DS_global; auto|apply DC_global with (data := data); auto].
  - destruct (@members_sum (g_nrow g) (g_ncol g) data (concat (gcells qs)) j Lg) as (M1 & _). rewrite <- M1.
    rewrite <- (@DC_global g P data HP qs j Hr Hb). destruct C as (Hs & C). destruct (C j Hj) as (C1 & _). unfold dsizes.
    rewrite <- C1. unfold cnum. apply nth_error_nth'. destruct (shaped_means Hs) as (_ & -> & _). exact Hj.
Qed.
Print Assumptions C35_dist_means.

Lemma combine_app {A B} (a a' : list A) (b b' : list B) : length a = length b -> combine (a ++ a') (b ++ b') = combine a b ++ combine a' b'.
Proof. revert b. induction a as [|x a IH]; intros [|y b] H; try discriminate; [reflexivity|]. cbn [app combine]. rewrite IH by (cbn in H; lia). reflexivity. Qed.

Lemma chg_moved : forall (a b : list cellR) s n, length a = n -> length b = n ->
  list_sum (map (fun r => chg (r, nth (r - s) a dcell, nth (r - s) b dcell)) (seq s n)) = moved (asg_of a) (asg_of b).
Proof.
  induction a as [|x a IH]; intros [|y b] s n La Lb; cbn [length] in La, Lb; subst n; try discriminate; [reflexivity|].
  cbn [length seq map]. rewrite Nat.sub_diag. change (nth 0 (x :: a) dcell) with x. change (nth 0 (y :: b) dcell) with y. change (list_sum (?h :: ?t)) with (h + list_sum t)%nat.
  assert (E : map (fun r => chg (r, nth (r - s) (x :: a) dcell, nth (r - s) (y :: b) dcell)) (seq (S s) (length a)) =
     map (fun r => chg (r, nth (r - S s) a dcell, nth (r - S s) b dcell)) (seq (S s) (length a))).
  { apply map_ext_in. intros r Hr. apply in_seq in Hr. replace (r - s)%nat with (S (r - S s)) by lia. reflexivity. }
  rewrite E, (IH b (S s) (length a) eq_refl) by (cbn in Lb; lia).
  unfold moved, asg_of. cbn [map combine filter fst snd]. unfold chg at 1. cbn [fst snd].
  unfold casg. destruct (id_eqb (snd (fst x)) (snd (fst y))); reflexivity.
Qed.

Lemma changes_moved g P (data : list R) qs qs' first : Forall (dbody g P data) qs -> Forall (dbody g P data) qs' ->
  Forall2 (dstep1 g P data first) qs qs' -> changes g P qs qs' = moved (gassign qs) (gassign qs').
Proof.
  intros Hb Hb' H. unfold changes. induction H as [|q q' qs qs' (R & _) H IH]; [reflexivity|].
  inversion_clear Hb as [|? ? B Hb2]. inversion_clear Hb' as [|? ? B' Hb2']. cbn [combine map]. change (list_sum (?h :: ?t)) with (h + list_sum t)%nat.
  rewrite (IH Hb2 Hb2'). cbn [fst snd].
  pose proof B as (_ & _ & _ & _ & _ & L & _). pose proof B' as (_ & _ & _ & _ & _ & L' & _).
  assert (L2 : length (ps_cells (dp_st q')) = nq g P q) by (rewrite L'; unfold nq; rewrite R; reflexivity).
  assert (E : list_sum (map chg (triples dcell (ps_cells (dp_st q)) (ps_cells (dp_st q')) 0 (nq g P q))) = moved (asg_of (ps_cells (dp_st q))) (asg_of (ps_cells (dp_st q')))).
  { rewrite <- (@chg_moved _ _ 0%nat (nq g P q) L L2). unfold triples. rewrite map_map. f_equal. apply map_ext. intros r. rewrite Nat.sub_0_r. reflexivity. }
  rewrite E. unfold moved, gassign. cbn [map concat]. rewrite combine_app by (unfold asg_of; rewrite !map_length; exact (eq_trans L (eq_sym L2))).
  rewrite filter_app, app_length. reflexivity.
Qed.

(** what the root returns: the gathered assignment of all rows after the last
    turn, the sizes and centroids of process 0 (all processes agree, by
    [C35_dist_means]), and the number of turns *)
Theorem C35_dist_result : forall (g : kcfg NumR) P data centers it draw ur ksched scheds rr,
  dist_args g P data centers it draw ur ksched scheds -> start_finite g data centers it draw ur ->
  dist_prune_run g P centers it data draw ur ksched scheds = Ok rr ->
  let f := last (dr_trace rr) (dr_init rr) in
  ct_asg (dr_out rr) = gassign f /\ ct_iters (dr_out rr) = length (dr_trace rr) /\
  (exists q0, hd_error f = Some q0 /\ ct_counts (dr_out rr) = dsizes q0 /\ ct_centroids (dr_out rr) = c_means (dp_cl q0)) /\
  (length (dr_trace rr) <= g_max_iters g)%nat /\
  (dr_converged rr = false -> length (dr_trace rr) = g_max_iters g) /\
  (* it converges at the first turn that moves few enough rows *)
  (forall i qs qs', dturn rr i qs qs' ->
     stop_test g (if (i =? 0)%nat then g_nrow g else moved (gassign qs) (gassign qs')) =
     (dr_converged rr && (S i =? length (dr_trace rr))%nat)%bool).
Proof.
  intros g P data centers it draw ur ksched scheds rr A Hfin E.
  destruct (drun_fact A Hfin E) as (Hst & Ht & Hs & Hl & Hl' & (q0 & Eq & Eo)). intros f. splits; auto.
  - rewrite Eo. reflexivity.
  - rewrite Eo. reflexivity.
  - exists q0. splits; auto; rewrite Eo; reflexivity.
  - assert (Hb0 : Forall (dbody g P data) (dr_init rr)) by (destruct Hst as (_ & Hst); eapply Forall_impl; [|exact Hst]; cbn beta; intros q Hq; apply Hq).
    clear - Ht Hs Hb0. unfold dturn.
    assert (Hgen : forall more first qs0 conv, Forall (dbody g P data) qs0 -> turns g P data first qs0 more -> stops g P first qs0 more conv ->
       forall i qs qs', nth_error (qs0 :: more) i = Some qs -> nth_error more i = Some qs' ->
       stop_test g (if (i =? 0)%nat then if first then g_nrow g else moved (gassign qs) (gassign qs') else moved (gassign qs) (gassign qs')) = (conv && (S i =? length more)%nat)%bool).
    { clear. induction more as [|q1 more IH]; intros first qs0 conv Hb Ht Hs [|i] qs qs' E1 E2; try discriminate.
      - cbn in E1, E2. injection E1 as <-. injection E2 as <-. destruct Ht as ((Hi & H2 & _) & _ & _).
        assert (Hb1 : Forall (dbody g P data) q1) by (destruct Hi as (_ & Hi); eapply Forall_impl; [|exact Hi]; cbn beta; intros q Hq; apply Hq).
        cbn [stops] in Hs. unfold nchg in Hs. rewrite (changes_moved Hb Hb1 H2) in Hs. cbn [Nat.eqb length].
        destruct (stop_test g (if first then g_nrow g else moved (gassign qs0) (gassign q1))).
        + destruct Hs as (-> & ->). reflexivity.
        + destruct more as [|q2 more]; [cbn in Hs; subst; reflexivity|]. cbn [length Nat.eqb]. symmetry. apply Bool.andb_false_r.
      - cbn [nth_error] in E1, E2. cbn [Nat.eqb]. destruct Ht as ((Hi & H2 & _) & _ & Ht).
        assert (Hb1 : Forall (dbody g P data) q1) by (destruct Hi as (_ & Hi); eapply Forall_impl; [|exact Hi]; cbn beta; intros q Hq; apply Hq).
        cbn [stops] in Hs. destruct (stop_test g (nchg g P first qs0 q1)).
        + destruct Hs as (_ & ->). destruct i; discriminate.
        + pose proof (IH false q1 conv Hb1 Ht Hs i qs qs' E1 E2) as H. destruct i; exact H. }
    intros i qs qs' (E1 & E2). exact (Hgen _ true _ _ Hb0 Ht Hs i qs qs' E1 E2).
Qed.
Print Assumptions C35_dist_result.

(* ------------------------------------------------------------------ *)
(** ** C68: all processes start from the centroids a single process starts from *)
Theorem C68_dist_start : forall (g : kcfg NumR) P data centers it draw ur ksched scheds rr,
  dist_args g P data centers it draw ur ksched scheds -> start_finite g data centers it draw ur ->
  dist_prune_run g P centers it data draw ur ksched scheds = Ok rr ->
  length (dr_init rr) = P /\
  forall q j, In q (dr_init rr) -> (j < g_k g)%nat ->
    dcentroid (g_ncol g) q j = start_centroid g data centers it draw ur j.
Proof.
  intros g P data centers it draw ur ksched scheds rr A Hfin E. destruct (drun_fact A Hfin E) as ((Hr & Hall) & _). split.
  - rewrite <- (map_length (@dp_rank NumR)), Hr, seq_length. reflexivity.
  - intros q j Hq Hj. rewrite Forall_forall in Hall. destruct (Hall q Hq) as (B & _ & C). rewrite (dcentroid_cent j B).
    pose proof B as (_ & _ & _ & (S & _) & _). apply (@vec_ext (g_ncol g)).
    + apply (@crow_len (g_k g)); auto.
    + exact (start_len A Hj).
    + intros i Hi. apply C; auto.
Qed.
Print Assumptions C68_dist_start.
