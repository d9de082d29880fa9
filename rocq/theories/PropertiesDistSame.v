(** C106: the unpruned MPI k-means returns what a single process returns. *)
From Coq Require Import Reals Lra.
From Verif Require Import Base Num Spec DistModel ClustersModel ClustersView PartitionModel ParModel KmeansModel PruneModel DistRunModel DistLloydModel.
From Verif Require Import MatLemmas VecLemmas ClustersProofs DistProofs PartitionProofs ParProofs NearProofs KmeansProofs UpdateProofs RunProofs InitProofs SimProofs KmeansR SseProofs PropertiesKmeans PropertiesKmeansR PropertiesRun PropertiesPartition.
From Verif Require Import ParRule DistMatProofs PruneProofs ClusterSums PruneRound PruneUpdate PruneRun PruneRun2 PropertiesPrune DistRunProofs DistRunProofs2 DistRunProofs3 ProcRows DistInitProofs DistRunProofs4 DistRunProofs5 KmsppR SpecKmspp PropertiesKmspp DistKmspp DistInitAll PropertiesDistRun PropertiesDistKmspp DistLloyd DistLloydInit PropertiesDistLloyd.
Set Implicit Arguments.
Local Open Scope R_scope.

(** the two configurations ask for the same computation; the numbers of threads
    (per process) may differ *)
Definition same_task (g g' : kcfg NumR) : Prop :=
  same_problem g g' /\ g_max_iters g = g_max_iters g' /\ g_tol g = g_tol g'.

(* ------------------------------------------------------------------ *)
(** * One process *)
Section Serial.
Variables (g : kcfg NumR) (data : list (car NumR)).
Hypothesis V : valid_input g data.

(** where a single process starts from *)
Lemma serial_start centers it dr : (1 <= g_k g)%nat -> centers_ok g centers it -> draws_ok g data it dr ->
  (it = PLUSPLUS -> proper g data /\ forall i, 0 <= d_real dr i <= 1) ->
  exists s ws s0, coordinator_create g centers it = Ok s /\ build_workers g data = Ok ws /\ wok (g_nrow g) (g_ncol g) data ws /\
    run_init g it ws data dr s = Ok s0 /\ stok g ws s0 /\
    forall j, (j < g_k g)%nat -> crow (s_cltrs s0) j = start_centroid g data centers it (d_int dr) (d_real dr) j.
Proof.
  intros Hk Hc D Hpp. destruct (@create_ok NumR g centers it Hk Hc) as (s & Es & Hs1 & Hs2 & Hs3 & Hs4).
  destruct (get_workers V) as (ws & Ew & W). pose proof (@stok_create NumR g centers it data s ws V Es Ew) as St.
  pose proof St as (Sh & _). pose proof V as (V1 & V2 & V3 & V4).
  assert (Hgoal : exists s0, run_init g it ws data dr s = Ok s0 /\ forall j, (j < g_k g)%nat -> crow (s_cltrs s0) j = start_centroid g data centers it (d_int dr) (d_real dr) j).
  { destruct it; cbn [run_init start_centroid].
    - destruct (@random_ok NumR g data V (d_int dr) s) as (a & Ea & Sa & (Ha & Hasg) & _).
      { rewrite Hs1. unfold clusters_create. rewrite (Nat.mul_comm (g_ncol g)). destruct centers; reflexivity. }
      { rewrite Hs2, repeat_length. reflexivity. } { exact D. }
      exists a. split; [exact Ea|]. intros j Hj. specialize (Ha j Hj). set (A := map (d_int dr) (seq 0 (g_nrow g))) in *.
      assert (LA : length A = g_nrow g) by (unfold A; rewrite map_length, seq_length; reflexivity).
      pose proof (eq_trans Ha (@rcel_R g data A j V4 LA)) as Hr. unfold cel in Hr. injection Hr as Hr _ _. etransitivity; [exact Hr|].
      rewrite <- (map_map (d_int dr) (@Some nat)). fold A. unfold cluster_mean. rewrite members_rows by exact LA. rewrite mems_rows by exact LA. unfold mean_or_zero. destruct (mem_rows _ _ A j); reflexivity.
    - destruct (@forgy_ok NumR g data V (d_int dr) s Sh D) as (a & Ea & Sa & Ha & _). exists a. split; [exact Ea|]. intros j Hj.
      specialize (Ha j Hj). unfold cel in Ha. injection Ha as Ha _ _. exact Ha.
    - destruct D as (D & Fp). destruct (Hpp eq_refl) as (Hp & Hur).
      destruct (@kmspp_init_R g data ws V W (fun r Hr => proper_self Hp Hr)
         (fun r q Hr Hq => @proper_pos g data r q Hp V4 Hr Hq)
         (d_sched dr) (d_real dr) (d_int dr 0%nat) s (Fp ws Ew) Hur D Hk Sh Hs2)
        as (s2 & dv2 & trace2 & chosen2 & E & Sh2 & Lc & Lt & H0 & Hch & Hrow & _ & _ & _ & _ & Htr & Hpk).
      exists s2. split; [rewrite E; reflexivity|]. intros j Hj. etransitivity; [exact (Hrow j Hj)|].
      rewrite (@recorded_seeds g data _ _ _ _ _ Htr Hpk H0 Hch Lc Lt). reflexivity.
    - exists s. split; [reflexivity|]. intros j Hj. rewrite Hs1. unfold crow. cbn [c_means c_ncol]. unfold initial_means.
      destruct centers as [m|].
      + unfold row, slice. rewrite skipn_firstn_comm, firstn_firstn. f_equal. cbn in Hc. nia.
      + unfold row. apply (@vec_ext (g_ncol g)).
        * apply slice_length. rewrite repeat_length. nia.
        * apply vzero_length.
        * intros i Hi. rewrite nth_slice by exact Hi. etransitivity; [apply nth_repeat_d; nia|]. symmetry. apply nth_vzero. }
  destruct Hgoal as (s0 & E0 & H0). exists s, ws, s0. splits; auto.
  exact (@run_init_stok NumR g it ws data dr s s0 E0 St).
Qed.
End Serial.

(* ------------------------------------------------------------------ *)
(** * Side by side *)
Section Sim.
Variables (g g' : kcfg NumR) (P : nat) (data : list (car NumR)) (ws : list (worker NumR)).
Hypothesis T : same_task g g'.
Hypothesis HP : (1 <= P <= g_nrow g)%nat.
Hypothesis Hdata : length data = (g_nrow g * g_ncol g)%nat.
Hypothesis HG : (Z.of_nat (g_nrow g) < 2 ^ 31)%Z.
Hypothesis Hnt : (1 <= g_nthreads g < 2 ^ 32)%Z.
Hypothesis V' : valid_input g' data.
Hypothesis W : wok (g_nrow g') (g_ncol g') data ws.

Lemma stop_same n : stop_test g n = stop_test g' n.
Proof. clear - T. destruct T as ((E1 & _) & _ & E5). unfold stop_test. rewrite E1, E5. reflexivity. Qed.

Lemma mean_same asg j : cluster_mean g data asg j = cluster_mean g' data asg j.
Proof. clear - T. destruct T as ((E1 & E2 & _) & _). unfold cluster_mean. rewrite E1, E2. reflexivity. Qed.

Definition srel (first : bool) (s : kst NumR) (qs : list (uproc NumR)) : Prop :=
  stok g' ws s /\ uinv g P data (c_means (s_cltrs s)) qs /\ (first = false -> s_asg s = uassign qs).
Definition sout (s : kst NumR) (qs : list (uproc NumR)) : Prop :=
  s_asg s = uassign qs /\ Forall (fun q => up_cl q = s_cltrs s) qs /\ s_counts s = c_members (s_cltrs s).

Lemma sim_step first sched usched s qs : complete (w_ranges ws) sched -> ufair usched qs -> srel first s qs ->
  match iterate g' ws sched (if first then clear_asg s else s), udist_step g P first usched qs with
  | Ok s', Ok (qs', nch) => srel false s' qs' /\ sout s' qs' /\ s_changed s' = nch /\
      Forall2 (fun q q' : uproc NumR => up_rank q' = up_rank q /\ up_ws q' = up_ws q) qs qs'
  | Err Abort, Err Abort => True
  | _, _ => False
  end.
Proof.
  intros Hsch Huf (St & Hi & Ha). pose proof T as ((E1 & E2 & E3 & E4) & E5 & E6). pose proof V' as (V1 & V2 & V3 & V4).
  set (s1 := if first then clear_asg s else s).
  assert (St1 : stok g' ws s1) by (unfold s1; destruct first; [apply stok_clear|]; exact St).
  assert (Ec : s_cltrs s1 = s_cltrs s) by (unfold s1; destruct first; reflexivity).
  assert (Hnid : forall r, nid g' data (s_cltrs s1) r = gnid g data (c_means (s_cltrs s)) r).
  { intros r. unfold nid, gnid, cents. rewrite Ec, E2, E3, E4. reflexivity. }
  pose proof (@UpdateProofs.iterate_ok NumR g' ws data W V2 V4 sched s1 Hsch St1) as H1.
  pose proof (@u_step_ok g P data HP Hdata HG Hnt first usched (c_means (s_cltrs s)) qs Hi Huf) as H2.
  destruct (iterate g' ws sched s1) as [s'|e]; destruct (udist_step g P first usched qs) as [[qs' nch]|e'].
  - destruct H1 as (A & LA & HA & EA & Hn & St' & Hcel & Hcnt & Hch).
    destruct H2 as (A2 & (LA2 & HA2 & Hn2 & EA2 & (C & (HsC & HC) & Hi' & Hall) & HF) & Enc).
    assert (EAA : A = A2).
    { apply (nth_ext _ _ 0%nat 0%nat); [congruence|]. intros r Hr. rewrite LA in Hr. pose proof (Hn r Hr) as Ha1. rewrite Hnid in Ha1.
      rewrite <- E1 in Hr. pose proof (eq_trans (eq_sym Ha1) (Hn2 r Hr)) as Hx. injection Hx as Hx. exact Hx. }
    subst A2.
    assert (Ecl : s_cltrs s' = C).
    { apply (@clusters_ext NumR (g_k g') (g_ncol g')); [apply St'|rewrite <- E2, <- E3; exact HsC|]. intros j Hj. etransitivity; [exact (Hcel j Hj)|].
      rewrite (@ucel_R g' data ws A j V4 LA (proj1 W)). rewrite <- E3 in Hj. destruct (HC j Hj) as (C1 & C2 & C3). unfold cel.
      rewrite C1, C2, C3, mean_same. f_equal. f_equal. unfold cluster_mean. rewrite members_rows by exact LA. rewrite mems_rows by exact LA.
      unfold mean_or_zero. destruct (mem_rows _ _ A j); reflexivity. }
    assert (Eas : s_asg s' = uassign qs') by (rewrite EA; symmetry; exact EA2).
    split; [|split; [|split]].
    + split; [exact St'|]. split; [rewrite Ecl; exact Hi'|intros _; exact Eas].
    + split; [exact Eas|]. split; [rewrite Ecl; exact Hall|]. rewrite Ecl, Hcnt. unfold counts_of.
      destruct (shaped_means HsC) as (_ & L & _). apply (nth_ext _ _ 0%Z 0%Z).
      * rewrite map_length, seq_length, L. symmetry. exact E3.
      * intros j Hj. rewrite map_length, seq_length in Hj.
        etransitivity; [apply (@nth_map_seq0 Z (fun j => Z.of_nat (count_eq j A))); exact Hj|]. rewrite <- E3 in Hj. destruct (HC j Hj) as (_ & C2 & _). symmetry. exact C2.
    + rewrite Hch, Enc. unfold s1, asg_before. destruct first.
      * cbn [clear_asg s_asg]. f_equal. destruct St as (_ & _ & La & _). rewrite E1, <- La. generalize (s_asg s). intros l0. induction l0 as [|x l0 IH0]; [reflexivity|]. cbn. f_equal. exact IH0.
      * rewrite (Ha eq_refl). reflexivity.
    + exact HF.
  - destruct H1 as (A & LA & HA & EA & Hn & _). destruct H2 as (_ & x & Hx & Hno). rewrite E1 in Hx. pose proof (Hn x Hx) as Hy. rewrite Hnid, Hno in Hy. discriminate.
  - destruct H1 as (-> & x & Hx & Hno). destruct H2 as (A2 & (LA2 & HA2 & Hn2 & _) & _). rewrite Hnid in Hno. rewrite <- E1 in Hx. pose proof (Hn2 x Hx) as Hy. assert (Hz := eq_trans (eq_sym Hno) Hy). discriminate.
  - destruct H1 as (-> & _). destruct H2 as (-> & _). exact I.
Qed.

Lemma sim_loop scheds uscheds : (forall i, complete (w_ranges ws) (scheds i)) ->
  forall n i s qs tr utr, (forall i, ufair (uscheds i) qs) -> srel (i =? 0)%nat s qs ->
  match main_loop g' ws scheds n (S i) s tr, udist_loop g P uscheds n i qs utr with
  | Ok (it, conv, sf, t'), Ok (uit, uconv, qf, ut') => conv = uconv /\ (exists m um, t' = tr ++ m /\ ut' = utr ++ um /\ Forall2 sout m um /\
       sf = last m s /\ qf = last um qs /\ uit = (i + length um)%nat /\ it = (i + length m + if conv then 0 else 1)%nat /\ ((1 <= n)%nat -> um <> []))
  | Err Abort, Err Abort => True
  | _, _ => False
  end.
Proof.
  intros Hsch. induction n as [|n IH]; intros i s qs tr utr Huf Hr; cbn [main_loop udist_loop].
  - split; [reflexivity|]. exists [], []. rewrite !app_nil_r. splits; auto; cbn [length last]; lia.
  - pose proof (@sim_step (i =? 0)%nat (scheds (S i)) (uscheds i) s qs (Hsch (S i)) (Huf i) Hr) as H.
    replace (S i =? 1)%nat with (i =? 0)%nat by (destruct i; reflexivity).
    destruct (iterate g' ws (scheds (S i)) (if (i =? 0)%nat then clear_asg s else s)) as [s'|e]; destruct (udist_step g P (i =? 0)%nat (uscheds i) qs) as [[qs' nch]|e']; cbn [Base.bind].
    + destruct H as (Hr' & Ho & <- & HF). rewrite stop_same. destruct (stop_test g' (s_changed s')).
      * split; [reflexivity|]. exists [s'], [qs']. splits; auto; cbn [length last]; try lia; discriminate.
      * specialize (IH (S i) s' qs' (tr ++ [s']) (utr ++ [qs']) (fun j => ufair_next (Huf j) HF) Hr').
        destruct (main_loop g' ws scheds n (S (S i)) s' (tr ++ [s'])) as [[[[it conv] sf] t']|e]; destruct (udist_loop g P uscheds n (S i) qs' (utr ++ [qs'])) as [[[[uit uconv] qf] ut']|e']; try exact IH.
        destruct IH as (-> & m & um & -> & -> & Hm & -> & -> & -> & -> & _). split; [reflexivity|]. exists (s' :: m), (qs' :: um).
        rewrite <- !app_assoc. cbn [app length]. splits; auto; try lia; try discriminate; symmetry; apply last_cons'.
    + destruct H.
    + destruct e; destruct H.
    + destruct e; try destruct H; exact H.
Qed.

End Sim.

Lemma start_same g g' (data : list R) centers it draw ur j : same_task g g' -> start_centroid g data centers it draw ur j = start_centroid g' data centers it draw ur j.
Proof.
  intros T. pose proof T as (Hp & _). pose proof Hp as (E1 & E2 & E3 & _). unfold start_centroid. destruct it.
  - unfold cluster_mean. rewrite E1, E2. reflexivity.
  - rewrite E2. reflexivity.
  - rewrite E2, E3, (@seeds_problem g g' data _ _ Hp). reflexivity.
  - rewrite E2. reflexivity.
Qed.

(* ------------------------------------------------------------------ *)
(** ** C106 *)

(** [g], [P] processes, against [g'], one process: same draws, any schedules *)
Theorem C106_same_result : forall (g g' : kcfg NumR) P data centers it draw ur ksched uscheds dr scheds,
  same_task g g' -> (1 <= g_max_iters g)%nat ->
  udist_args g P data centers it draw ur ksched uscheds ->
  valid_args g' data centers it dr -> fair g' data scheds -> d_int dr = draw -> d_real dr = ur ->
  match run g' centers it data dr scheds, udist_run g P centers it data draw ur ksched uscheds with
  | Ok rr, Ok ud =>
      ct_asg (ud_out ud) = ct_asg (rr_out rr) /\ ct_counts (ud_out ud) = ct_counts (rr_out rr) /\
      ct_centroids (ud_out ud) = ct_centroids (rr_out rr) /\
      ct_nrow (ud_out ud) = ct_nrow (rr_out rr) /\ ct_ncol (ud_out ud) = ct_ncol (rr_out rr) /\ ct_k (ud_out ud) = ct_k (rr_out rr) /\
      ud_converged ud = rr_converged rr /\ length (ud_trace ud) = length (rr_trace rr) /\
      (ud_converged ud = true -> ct_iters (ud_out ud) = ct_iters (rr_out rr))
  | Err e, Err e' => e = Abort /\ e' = Abort
  | _, _ => False
  end.
Proof.
  intros g g' P data centers it draw ur ksched uscheds dr scheds T Hm A (V & Hk & Hc & D) F Ed Er.
  pose proof A as [HP HG Hd Hnt Hk0 Hc0 Hdr Hf].
  assert (Hpp : it = PLUSPLUS -> proper g' data /\ forall i, 0 <= d_real dr i <= 1).
  { intros ->. destruct Hdr as (_ & Hp & Hu & _). destruct T as ((E1 & E2 & E3 & E4) & _). split; [unfold proper in *; rewrite <- E1, <- E2, <- E4; exact Hp|rewrite Er; exact Hu]. }
  destruct (@serial_start g' data V centers it dr Hk Hc D Hpp) as (s & ws & s0 & Es & Ew & W & Ei & St & Hst).
  destruct (u_init_ok A) as (qs & qs0 & E1 & E2 & Hb). destruct (ubegun_inv HP Hb) as (M & Hi & HM).
  assert (EM : M = c_means (s_cltrs s0)).
  { pose proof T as ((N1 & N2 & N3 & _) & _). destruct Hi as (Hur & Hbb). destruct qs0 as [|q0 qt]; [destruct (@uranks_nonempty g P HP [] Hur eq_refl)|].
    inversion Hbb as [|? ? ((_ & _ & (Sq & _)) & Eq) _]; subst. destruct (shaped_means Sq) as (L0 & _). pose proof St as (Ss & _). destruct (shaped_means Ss) as (L1 & _).
    change (g_k (proc_cfg g P (up_rank q0))) with (g_k g) in L0. change (g_ncol (proc_cfg g P (up_rank q0))) with (g_ncol g) in L0.
    set (k := g_k g) in *. set (d := g_ncol g) in *. rewrite <- N2, <- N3 in L1. fold k d in L1.
    apply (@vec_ext (k * d)); [exact L0|exact L1|]. intros p Hp.
    assert (Hd0 : d <> 0%nat) by (intros E; rewrite E, Nat.mul_0_r in Hp; lia).
    assert (Hj : (p / d < k)%nat) by (apply Nat.div_lt_upper_bound; lia). assert (Hmd : (p mod d < d)%nat) by (apply Nat.mod_upper_bound; exact Hd0).
    assert (Ep : p = (p / d * d + p mod d)%nat) by (rewrite Nat.mul_comm; apply Nat.div_mod; exact Hd0).
    pose proof (HM _ Hj) as X1. assert (Hj' : (p / d < g_k g')%nat) by (rewrite <- N3; exact Hj). pose proof (Hst _ Hj') as X2.
    rewrite <- (@start_same g g' data centers it (d_int dr) (d_real dr) _ T) in X2. pose proof (eq_trans X1 (eq_sym X2)) as E. unfold crow in E. destruct Ss as (_ & Sd & _). rewrite Sd, <- N2 in E. fold d in E.
    apply (f_equal (fun v : list R => nth (p mod d) v 0)) in E. unfold row in E. rewrite !nth_slice in E by exact Hmd. rewrite <- Ep in E. exact E. }
  subst M. pose proof T as ((N1 & N2 & N3 & _) & N5 & _).
  unfold run. rewrite Es, Ew. cbn [Base.bind]. rewrite Ei. cbn [Base.bind]. unfold udist_run. rewrite E1. cbn [Base.bind]. rewrite E2. cbn [Base.bind].
  rewrite <- N5. replace (0 <? g_max_iters g)%nat with true by (symmetry; apply Nat.ltb_lt; lia).
  pose proof (@sim_loop g g' P data ws T HP Hd HG Hnt V W scheds uscheds (F ws Ew) (g_max_iters g) 0%nat s0 qs0 [] [] (ufairs A Hi)) as H.
  specialize (H (conj St (conj Hi (fun e => match diff_false_true (eq_sym e) with end)))).
  pose proof (@u_loop_ok g P data HP Hd HG Hnt uscheds (g_max_iters g) 0%nat qs0 [] _ (ufairs A Hi) Hi) as HL.
  destruct (main_loop g' ws scheds (g_max_iters g) 1 s0 []) as [[[[it1 conv] sf] t']|e]; destruct (udist_loop g P uscheds (g_max_iters g) 0 qs0 []) as [[[[uit uconv] qf] ut']|e']; cbn [Base.bind].
  - destruct HL as (more & _ & Ef & _ & Ht & _ & _ & Hl'). destruct (@uturns_last g P data _ _ _ _ Hi Ht) as (M' & Hi'). rewrite <- Ef in Hi'.
    destruct H as (-> & m & um & -> & -> & Hmm & -> & -> & -> & -> & Hne0). rewrite (ugather HP HG Hi'). cbn [Base.bind].
    assert (Ho : sout (last m s0) (last um qs0)).
    { assert (Hne : um <> []) by (apply Hne0; exact Hm).
      destruct Hmm as [|x y m um Hx Hmm]; [congruence|]. rewrite !last_cons'. clear - Hx Hmm. revert x y Hx. induction Hmm as [|x' y' m um Hx' Hmm IH]; intros x y Hx; [exact Hx|]. rewrite !last_cons'. apply IH. exact Hx'. }
    destruct Ho as (O1 & O2 & O3). destruct (last um qs0) as [|q0 ft] eqn:Eq; [exfalso; destruct Hi' as (Hr' & _); exact (@uranks_nonempty g P HP _ Hr' eq_refl)|].
    cbn [aget nth_error Base.bind]. cbn [ud_out rr_out ct_asg ct_counts ct_centroids ct_nrow ct_ncol ct_k ct_iters ud_converged rr_converged ud_trace rr_trace app].
    inversion O2 as [|? ? Q0 _]; subst. rewrite Q0. splits; auto.
    + symmetry. exact (Forall2_length_eq Hmm).
    + intros ->. rewrite (Forall2_length_eq Hmm). lia.
  - destruct H.
  - destruct e; destruct H.
  - destruct e; try destruct H; destruct e'; try destruct H; auto.
Qed.
Print Assumptions C106_same_result.
