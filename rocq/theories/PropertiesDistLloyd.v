(** C105, C106: the unpruned MPI k-means is Lloyd's algorithm, and computes what
    one process computes. *)
From Coq Require Import Reals Lra.
From Verif Require Import Base Num Spec DistModel ClustersModel ClustersView PartitionModel ParModel KmeansModel PruneModel DistRunModel DistLloydModel.
From Verif Require Import MatLemmas VecLemmas ClustersProofs DistProofs PartitionProofs ParProofs NearProofs KmeansProofs UpdateProofs RunProofs InitProofs SimProofs KmeansR SseProofs PropertiesKmeans PropertiesKmeansR PropertiesRun PropertiesPartition.
From Verif Require Import ParRule DistMatProofs PruneProofs ClusterSums PruneRound PruneUpdate PruneRun PruneRun2 PropertiesPrune DistRunProofs DistRunProofs2 DistRunProofs3 ProcRows DistInitProofs DistRunProofs4 DistRunProofs5 KmsppR SpecKmspp PropertiesKmspp DistKmspp DistInitAll PropertiesDistRun PropertiesDistKmspp DistLloyd DistLloydInit.
Set Implicit Arguments.
Local Open Scope R_scope.

(* ------------------------------------------------------------------ *)
(** * Specification: what a state of all the processes shows *)

(** the assignment of all rows, process after process *)
Definition uassign (qs : list (uproc NumR)) : list (option nat) := concat (map (fun q => s_asg (up_st q)) qs).
(** a process' copy of centroid [j] and of the cluster sizes *)
Definition ucentroid (ncol : nat) (q : uproc NumR) (j : nat) : list R := row (c_means (s_cltrs (up_st q))) ncol j.
Definition usizes (q : uproc NumR) : list Z := c_members (s_cltrs (up_st q)).
(** [qs'] is the state of all processes after turn [i], that started in [qs] *)
Definition uturn (rr : udrun_result NumR) (i : nat) (qs qs' : list (uproc NumR)) : Prop :=
  nth_error (ud_init rr :: ud_trace rr) i = Some qs /\ nth_error (ud_trace rr) i = Some qs'.

(* ------------------------------------------------------------------ *)
(** * The loop *)
Section L.
Variables (g : kcfg NumR) (P : nat) (data : list (car NumR)).
Let d := g_ncol g.
Let k := g_k g.
Let G := g_nrow g.
Hypothesis HP : (1 <= P <= G)%nat.
Hypothesis Hdata : length data = (G * d)%nat.
Hypothesis HG : (Z.of_nat G < 2 ^ 31)%Z.
Hypothesis Hnt : (1 <= g_nthreads g < 2 ^ 32)%Z.

Definition step_rel (first : bool) (qs qs' : list (uproc NumR)) : Prop := exists M A, uinv g P data M qs /\ ustep_ok g P data first M qs qs' A.

Fixpoint uturns (first : bool) (qs : list (uproc NumR)) (more : list (list (uproc NumR))) : Prop :=
  match more with [] => True | qs' :: t => step_rel first qs qs' /\ uturns false qs' t end.

Definition unchg (first : bool) (qs qs' : list (uproc NumR)) : nat := if first then G else moved (uassign qs) (uassign qs').

Fixpoint ustops (first : bool) (qs : list (uproc NumR)) (more : list (list (uproc NumR))) (conv : bool) : Prop :=
  match more with
  | [] => conv = false
  | qs' :: t => if stop_test g (unchg first qs qs') then conv = true /\ t = [] else ustops false qs' t conv
  end.

Lemma odiff_moved : forall o A, length o = length A -> odiff o A = moved o (map Some A).
Proof.
  clear. induction o as [|x o IH]; intros [|a A] H; try discriminate; [reflexivity|]. cbn [odiff map]. unfold moved. cbn [combine filter fst snd].
  injection H as H. rewrite (IH A H). unfold moved. destruct x as [x|]; cbn [id_eqb]; [|reflexivity]. rewrite (Nat.eqb_sym a x). destruct (x =? a)%nat; reflexivity.
Qed.
Lemma odiff_none : forall A n, length A = n -> odiff (repeat None n) A = n.
Proof. clear. induction A as [|a A IH]; intros n <-; [reflexivity|]. cbn [length repeat odiff id_eqb]. rewrite IH; reflexivity. Qed.

Lemma uassign_len qs M : uinv g P data M qs -> length (uassign qs) = G.
Proof.
  intros (Hr & Hb). apply (@cc_len G P _ _ HP). apply (@ulens g P); [exact Hr|]. intros q Hq. rewrite Forall_forall in Hb.
  destruct (Hb q Hq) as ((_ & _ & T1 & T2 & T3 & _) & _). exact T3.
Qed.

Lemma step_nch first M qs qs' A : uinv g P data M qs -> ustep_ok g P data first M qs qs' A -> odiff (asg_before g first qs) A = unchg first qs qs'.
Proof.
  intros Hi (LA & _ & _ & Ea & _). unfold asg_before, unchg. destruct first; [apply odiff_none; exact LA|].
  change (uasg qs') with (uassign qs') in Ea. rewrite Ea. apply odiff_moved. rewrite LA. exact (uassign_len Hi).
Qed.

Lemma ufair_next sched qs qs' : ufair sched qs -> Forall2 (fun q q' : uproc NumR => up_rank q' = up_rank q /\ up_ws q' = up_ws q) qs qs' -> ufair sched qs'.
Proof.
  clear. intros Hf H q' Hq'. destruct (@Forall2_in_r _ _ _ _ _ _ H Hq') as (q & Hq & (R1 & W)). rewrite R1, W. apply Hf. exact Hq.
Qed.

Lemma u_loop_ok scheds : forall n iters qs trace M, (forall i, ufair (scheds i) qs) -> uinv g P data M qs ->
  match udist_loop g P scheds n iters qs trace with
  | Ok (it, conv, f, tr) => exists more, it = (iters + length more)%nat /\ f = last more qs /\ tr = trace ++ more /\
      uturns (iters =? 0)%nat qs more /\ ustops (iters =? 0)%nat qs more conv /\ (length more <= n)%nat /\ (conv = false -> length more = n)
  | Err e => e = Abort
  end.
Proof.
  induction n as [|n IH]; intros iters qs trace M Hf Hi; cbn [udist_loop].
  - exists []. cbn [length uturns ustops last]. rewrite app_nil_r, Nat.add_0_r. splits; auto.
  - pose proof (@u_step_ok g P data HP Hdata HG Hnt (iters =? 0)%nat (scheds iters) M qs Hi (Hf iters)) as H.
    destruct (udist_step g P (iters =? 0)%nat (scheds iters) qs) as [[qs' nch]|e]; cbn [Base.bind]; [|apply H].
    destruct H as (A & Hst & ->). rewrite (step_nch Hi Hst).
    assert (Hrel : step_rel (iters =? 0)%nat qs qs') by (exists M, A; auto).
    destruct (stop_test g (unchg (iters =? 0)%nat qs qs')) eqn:Est.
    + exists [qs']. cbn [length uturns ustops last]. rewrite Est. rewrite Nat.add_1_r. splits; auto; try lia.
    + pose proof Hst as (_ & _ & _ & _ & (C & _ & Hi' & _) & H2).
      specialize (IH (S iters) qs' (trace ++ [qs']) (c_means C) (fun i => ufair_next (Hf i) H2) Hi').
      destruct (udist_loop g P scheds n (S iters) qs' (trace ++ [qs'])) as [[[[it conv] f] tr]|e]; [|exact IH].
      destruct IH as (more & -> & -> & -> & H1 & H3 & H4 & H5). exists (qs' :: more). cbn [length uturns ustops]. rewrite Est.
      rewrite <- app_assoc. cbn [app Nat.eqb] in *. splits; auto; try lia. symmetry. apply last_cons'.
Qed.

Lemma uturns_nth : forall more first qs i a b, uturns first qs more -> nth_error (qs :: more) i = Some a -> nth_error more i = Some b ->
  step_rel (if (i =? 0)%nat then first else false) a b.
Proof.
  clear. induction more as [|q1 more IH]; intros first qs [|i] a b Ht E1 E2; try discriminate.
  - cbn in E1, E2. injection E1 as <-. injection E2 as <-. apply Ht.
  - destruct Ht as (H1 & H3). cbn [nth_error] in E1, E2. pose proof (IH false q1 i a b H3 E1 E2) as H. destruct i; exact H.
Qed.

(** the invariant holds in the last state *)
Lemma uturns_last : forall more first qs M, uinv g P data M qs -> uturns first qs more -> exists M', uinv g P data M' (last more qs).
Proof.
  clear. induction more as [|q more IH]; intros first qs M Hi Ht; [exists M; exact Hi|]. rewrite last_cons'. destruct Ht as ((M0 & A & _ & Hst) & Ht).
  destruct Hst as (_ & _ & _ & _ & (C & _ & Hi' & _) & _). exact (IH false q _ Hi' Ht).
Qed.

Lemma ugather qs M : uinv g P data M qs -> gather_root (Z.of_nat G) (Z.of_nat P) None (map (fun q => s_asg (up_st q)) qs) = Ok (uassign qs).
Proof.
  clear Hdata Hnt. intros (Hr & Hb). rewrite Forall_forall in Hb.
  assert (Lm : map (@length (option nat)) (map (fun q : uproc NumR => s_asg (up_st q)) qs) = map (proc_nrow G P) (seq 0 P)).
  { apply (@ulens g P); [exact Hr|]. intros q Hq. destruct (Hb q Hq) as ((_ & _ & T1 & T2 & T3 & _) & _). exact T3. }
  apply C06_gather; try lia.
  - pose proof (@cc_count G P _ _ Lm) as Ec. rewrite Ec. reflexivity.
  - intros r l El. destruct (@cc_at G P _ _ Lm r _ El) as (Hrk & ->). unfold proc_nrow. rewrite Z2Nat.id; [reflexivity|].
    pose proof (proc_nrow_pos HP Hrk) as Hp. unfold proc_nrow in Hp. lia.
Qed.

(** processes that hold the same centroids hold the same matrix *)
Lemma ubegun_inv S qs : ubegun g P data S qs -> exists M, uinv g P data M qs /\ forall j, (j < k)%nat -> row M d j = S j.
Proof.
  clear Hdata HG Hnt. intros (Hr & Hb). destruct qs as [|q0 qt]; [destruct (@uranks_nonempty g P HP [] Hr eq_refl)|]. exists (c_means (up_cl q0)). rewrite Forall_forall in Hb.
  destruct (Hb q0 (or_introl eq_refl)) as (B0 & C0). pose proof B0 as (_ & _ & ((K0 & D0 & W0) & _)). pose proof W0 as (L0 & _). fold (up_cl q0) in K0, D0, L0.
  change (g_k (proc_cfg g P (up_rank q0))) with k in K0. change (g_ncol (proc_cfg g P (up_rank q0))) with d in D0. split.
  - split; [exact Hr|]. apply Forall_forall. intros q Hq. destruct (Hb q Hq) as (B & C). split; [exact B|].
    destruct B as (_ & _ & ((K1 & D1 & W1) & _)). pose proof W1 as (L1 & _). fold (up_cl q) in K1, D1, L1.
    change (g_k (proc_cfg g P (up_rank q))) with k in K1. change (g_ncol (proc_cfg g P (up_rank q))) with d in D1.
    assert (L1' : length (c_means (up_cl q)) = (k * d)%nat) by (etransitivity; [exact L1|]; rewrite K1, D1; lia).
    assert (L0' : length (c_means (up_cl q0)) = (k * d)%nat) by (etransitivity; [exact L0|]; rewrite K0, D0; lia).
    apply (@vec_ext (k * d)); [exact L1'|exact L0'|]. intros p Hp.
    assert (Hd : d <> 0%nat) by (intros E; rewrite E, Nat.mul_0_r in Hp; lia).
    assert (Hj : (p / d < k)%nat) by (apply Nat.div_lt_upper_bound; lia). assert (Hm : (p mod d < d)%nat) by (apply Nat.mod_upper_bound; exact Hd).
    assert (Ep : p = (p / d * d + p mod d)%nat) by (rewrite Nat.mul_comm; apply Nat.div_mod; exact Hd).
    pose proof (eq_trans (C _ Hj) (eq_sym (C0 _ Hj))) as E. unfold crow in E. rewrite D1, D0 in E.
    apply (f_equal (fun v : list R => nth (p mod d) v 0)) in E. unfold row in E. rewrite !nth_slice in E by exact Hm. rewrite <- Ep in E. exact E.
  - intros j Hj. specialize (C0 j Hj). unfold crow in C0. rewrite D0 in C0. exact C0.
Qed.

End L.

(** what is known of a run *)
Definition udrun_facts (g : kcfg NumR) (P : nat) (data : list R) (centers : option (list R)) it draw ur (rr : udrun_result NumR) : Prop :=
  ubegun g P data (start_centroid g data centers it draw ur) (ud_init rr) /\
  uturns g P data true (ud_init rr) (ud_trace rr) /\ ustops g true (ud_init rr) (ud_trace rr) (ud_converged rr) /\
  (length (ud_trace rr) <= g_max_iters g)%nat /\ (ud_converged rr = false -> length (ud_trace rr) = g_max_iters g) /\
  let f := last (ud_trace rr) (ud_init rr) in
  exists q0, hd_error f = Some q0 /\
  ud_out rr = mkCluster NumR (g_nrow g) (g_ncol g) (length (ud_trace rr)) (g_k g) (uassign f) (usizes q0) (c_means (up_cl q0)).

Lemma ufairs g P data centers it draw ur ksched scheds qs M : udist_args g P data centers it draw ur ksched scheds -> uinv g P data M qs -> forall i, ufair (scheds i) qs.
Proof. intros A (_ & Hb) i q Hq. rewrite Forall_forall in Hb. destruct (Hb q Hq) as ((B1 & B2 & _) & _). apply (ua_fair A i B1 B2). Qed.

Lemma udrun_cases g P data centers it draw ur ksched scheds : udist_args g P data centers it draw ur ksched scheds ->
  match udist_run g P centers it data draw ur ksched scheds with
  | Ok rr => udrun_facts g P data centers it draw ur rr
  | Err e => e = Abort
  end.
Proof.
  intros A. pose proof A as [HP HG Hd Hnt Hk Hc Hdr Hf]. destruct (u_init_ok A) as (qs & qs0 & E1 & E2 & Hb).
  destruct (ubegun_inv HP Hb) as (M & Hi & _). unfold udist_run. rewrite E1. cbn [Base.bind]. rewrite E2. cbn [Base.bind].
  pose proof (@u_loop_ok g P data HP Hd HG Hnt scheds (g_max_iters g) 0%nat qs0 [] M (ufairs A Hi) Hi) as H.
  destruct (udist_loop g P scheds (g_max_iters g) 0 qs0 []) as [[[[its conv] f] tr]|e]; cbn [Base.bind]; [|exact H].
  destruct H as (more & -> & -> & -> & Ht & Hs & Hl & Hl'). destruct (@uturns_last g P data _ _ _ _ Hi Ht) as (M' & Hi').
  rewrite (ugather HP HG Hi'). cbn [Base.bind].
  destruct (last more qs0) as [|q0 ft] eqn:Ef; [exfalso; destruct Hi' as (Hr' & _); exact (@uranks_nonempty g P HP _ Hr' eq_refl)|].
  cbn [aget nth_error Base.bind]. unfold udrun_facts. cbn [ud_init ud_trace ud_converged ud_out app plus]. rewrite Ef. splits; auto.
  exists q0. split; reflexivity.
Qed.

Lemma udrun_fact g P data centers it draw ur ksched scheds rr : udist_args g P data centers it draw ur ksched scheds ->
  udist_run g P centers it data draw ur ksched scheds = Ok rr -> udrun_facts g P data centers it draw ur rr.
Proof. intros A E. pose proof (udrun_cases A) as H. rewrite E in H. exact H. Qed.

Lemma ucentroid_inv g P data M qs q j : uinv g P data M qs -> In q qs -> ucentroid (g_ncol g) q j = row M (g_ncol g) j.
Proof. intros (_ & Hb) Hq. rewrite Forall_forall in Hb. destruct (Hb q Hq) as (_ & E). unfold ucentroid. exact (f_equal (fun m => row m (g_ncol g) j) E). Qed.

Lemma gnid_nearest (g : kcfg NumR) (data M : list R) x a : gnid g data M x = Some a ->
  (a < g_k g)%nat /\ forall j, (j < g_k g)%nat ->
    rdist (g_dt g) (row data (g_ncol g) x) (row M (g_ncol g) a) <= rdist (g_dt g) (row data (g_ncol g) x) (row M (g_ncol g) j) /\
    ((j < a)%nat -> rdist (g_dt g) (row data (g_ncol g) x) (row M (g_ncol g) a) < rdist (g_dt g) (row data (g_ncol g) x) (row M (g_ncol g) j)).
Proof.
  intros H.
  destruct (@nid_cases NumR NumR_laws g data (@mkClusters NumR (g_ncol g) (g_k g) [] [] M) x a H) as (Ha & Hj). split; [exact Ha|].
  intros j Hlt. destruct (Hj j Hlt) as (H1 & H2). cbn [c_means] in H1, H2. rewrite !ldist_R in H1, H2. cbn [nltb neqb NumR] in H1, H2. split.
  - apply Rltb_false. exact H1.
  - intros Hl. apply Rltb_true. apply (H2 Hl). apply Reqb_true. reflexivity.
Qed.

Lemma uturn_step g P data centers it draw ur rr i qs qs' : udrun_facts g P data centers it draw ur rr -> uturn rr i qs qs' ->
  step_rel g P data (i =? 0)%nat qs qs'.
Proof.
  intros (_ & Ht & _) (E1 & E2). pose proof (@uturns_nth g P data _ _ _ i qs qs' Ht E1 E2) as H. destruct i; exact H.
Qed.

(* ------------------------------------------------------------------ *)
(** ** C105 *)

(** every process starts from the same, specified centroids *)
Theorem C105_start : forall (g : kcfg NumR) P data centers it draw ur ksched scheds rr,
  udist_args g P data centers it draw ur ksched scheds -> udist_run g P centers it data draw ur ksched scheds = Ok rr ->
  length (ud_init rr) = P /\
  forall q j, In q (ud_init rr) -> (j < g_k g)%nat -> ucentroid (g_ncol g) q j = start_centroid g data centers it draw ur j.
Proof.
  intros g P data centers it draw ur ksched scheds rr A E. destruct (udrun_fact A E) as (Hb & _). pose proof Hb as (Hr & _). split.
  - rewrite <- (map_length (@up_rank NumR)), Hr, seq_length. reflexivity.
  - intros q j Hq Hj. destruct (ubegun_inv (ua_procs A) Hb) as (M & Hi & HM). rewrite (ucentroid_inv q j Hi Hq). exact (HM j Hj).
Qed.
Print Assumptions C105_start.

(** every turn assigns every row of every process to the nearest of the centroids
    the turn started from (any process' copy), the lowest index on ties *)
Theorem C105_nearest : forall (g : kcfg NumR) P data centers it draw ur ksched scheds rr,
  udist_args g P data centers it draw ur ksched scheds -> udist_run g P centers it data draw ur ksched scheds = Ok rr ->
  forall i qs qs', uturn rr i qs qs' ->
  length (uassign qs') = g_nrow g /\
  forall x, (x < g_nrow g)%nat -> exists a, nth x (uassign qs') None = Some a /\ (a < g_k g)%nat /\
    forall q j, In q qs -> (j < g_k g)%nat ->
      rdist (g_dt g) (row data (g_ncol g) x) (ucentroid (g_ncol g) q a) <= rdist (g_dt g) (row data (g_ncol g) x) (ucentroid (g_ncol g) q j) /\
      ((j < a)%nat -> rdist (g_dt g) (row data (g_ncol g) x) (ucentroid (g_ncol g) q a) < rdist (g_dt g) (row data (g_ncol g) x) (ucentroid (g_ncol g) q j)).
Proof.
  intros g P data centers it draw ur ksched scheds rr A E i qs qs' Ht. destruct (uturn_step (udrun_fact A E) Ht) as (M & A0 & Hi & (LA & HA & Hn & Ea & _)).
  change (uasg qs') with (uassign qs') in Ea. rewrite Ea. split; [rewrite map_length; exact LA|].
  intros x Hx. exists (nth x A0 0%nat). split; [rewrite (nth_indep _ None (Some 0%nat)) by (rewrite map_length; lia); apply map_nth|].
  destruct (@gnid_nearest g data M x _ (Hn x Hx)) as (Ha & Hj). split; [exact Ha|]. intros q j Hq Hlt. rewrite !(ucentroid_inv q _ Hi Hq). exact (Hj j Hlt).
Qed.
Print Assumptions C105_nearest.

(** after every turn every process holds the means and the sizes of the clusters
    of the assignment of all rows *)
Theorem C105_means : forall (g : kcfg NumR) P data centers it draw ur ksched scheds rr,
  udist_args g P data centers it draw ur ksched scheds -> udist_run g P centers it data draw ur ksched scheds = Ok rr ->
  forall qs q j, In qs (ud_trace rr) -> In q qs -> (j < g_k g)%nat ->
    ucentroid (g_ncol g) q j = cluster_mean g data (uassign qs) j /\
    nth_error (usizes q) j = Some (Z.of_nat (length (members (g_nrow g) (g_ncol g) data (uassign qs) j))).
Proof.
  intros g P data centers it draw ur ksched scheds rr A E qs q j Hqs Hq Hj. apply In_nth_error in Hqs as (i & E2).
  assert (E1 : exists a, nth_error (ud_init rr :: ud_trace rr) i = Some a).
  { destruct (nth_error (ud_init rr :: ud_trace rr) i) eqn:En; [eauto|]. apply nth_error_None in En. assert (i < length (ud_trace rr))%nat by (apply nth_error_Some; congruence). cbn [length] in En. lia. }
  destruct E1 as (a & E1). destruct (uturn_step (udrun_fact A E) (conj E1 E2)) as (M & A0 & Hi & (LA & HA & Hn & Ea & (C & (Hs & Hc) & Hi' & Hall) & _)).
  change (uasg qs) with (uassign qs) in Ea. rewrite Ea. destruct (Hc j Hj) as (C1 & C2 & _). rewrite Forall_forall in Hall. pose proof (Hall q Hq) as Eq. split.
  - rewrite (ucentroid_inv q j Hi' Hq). unfold crow in C1. destruct Hs as (_ & Hd & _). rewrite Hd in C1. exact C1.
  - unfold usizes. change (s_cltrs (up_st q)) with (up_cl q). rewrite Eq. rewrite members_rows by exact LA. rewrite <- (mems_rows g data A0 j LA), mems_length. rewrite <- C2. unfold cnum.
    apply nth_error_nth'. destruct (shaped_means Hs) as (_ & L & _). rewrite L. exact Hj.
Qed.
Print Assumptions C105_means.

(** what the root returns, and when the loop ends *)
Theorem C105_result : forall (g : kcfg NumR) P data centers it draw ur ksched scheds rr,
  udist_args g P data centers it draw ur ksched scheds -> udist_run g P centers it data draw ur ksched scheds = Ok rr ->
  let f := last (ud_trace rr) (ud_init rr) in
  ct_asg (ud_out rr) = uassign f /\ ct_iters (ud_out rr) = length (ud_trace rr) /\
  (exists q0, hd_error f = Some q0 /\ ct_counts (ud_out rr) = usizes q0 /\ ct_centroids (ud_out rr) = c_means (s_cltrs (up_st q0))) /\
  (length (ud_trace rr) <= g_max_iters g)%nat /\
  (ud_converged rr = false -> length (ud_trace rr) = g_max_iters g) /\
  (* it converges at the first turn that moves few enough rows *)
  (forall i qs qs', uturn rr i qs qs' ->
     stop_test g (if (i =? 0)%nat then g_nrow g else moved (uassign qs) (uassign qs')) =
     (ud_converged rr && (S i =? length (ud_trace rr))%nat)%bool).
Proof.
  intros g P data centers it draw ur ksched scheds rr A E.
  destruct (udrun_fact A E) as (Hst & Ht & Hs & Hl & Hl' & (q0 & Eq & Eo)). intros f. splits; auto.
  - rewrite Eo. reflexivity.
  - rewrite Eo. reflexivity.
  - exists q0. splits; auto; rewrite Eo; reflexivity.
  - clear - Hs. unfold uturn.
    assert (Hgen : forall more first qs0 conv, ustops g first qs0 more conv ->
       forall i qs qs', nth_error (qs0 :: more) i = Some qs -> nth_error more i = Some qs' ->
       stop_test g (if (i =? 0)%nat then if first then g_nrow g else moved (uassign qs) (uassign qs') else moved (uassign qs) (uassign qs')) = (conv && (S i =? length more)%nat)%bool).
    { clear. induction more as [|q1 more IH]; intros first qs0 conv Hs [|i] qs qs' E1 E2; try discriminate.
      - cbn in E1, E2. injection E1 as <-. injection E2 as <-.
        cbn [ustops] in Hs. unfold unchg in Hs. cbn [Nat.eqb length].
        destruct (stop_test g (if first then g_nrow g else moved (uassign qs0) (uassign q1))).
        + destruct Hs as (-> & ->). reflexivity.
        + destruct more as [|q2 more]; [cbn in Hs; subst; reflexivity|]. cbn [length Nat.eqb]. symmetry. apply Bool.andb_false_r.
      - cbn [nth_error] in E1, E2. cbn [Nat.eqb].
        cbn [ustops] in Hs. destruct (stop_test g (unchg g first qs0 q1)).
        + destruct Hs as (_ & ->). destruct i; discriminate.
        + pose proof (IH false q1 conv Hs i qs qs' E1 E2) as H. destruct i; exact H. }
    intros i qs qs' (E1 & E2). exact (Hgen _ true _ _ Hs i qs qs' E1 E2).
Qed.
Print Assumptions C105_result.

(** it either succeeds or aborts, nothing else *)
Theorem C105_no_ub : forall (g : kcfg NumR) P data centers it draw ur ksched scheds,
  udist_args g P data centers it draw ur ksched scheds ->
  (exists rr, udist_run g P centers it data draw ur ksched scheds = Ok rr) \/
  udist_run g P centers it data draw ur ksched scheds = Err Abort.
Proof.
  intros g P data centers it draw ur ksched scheds A. pose proof (udrun_cases A) as H. destruct (udist_run g P centers it data draw ur ksched scheds) as [rr|e]; [left; eauto|right; rewrite H; reflexivity].
Qed.
Print Assumptions C105_no_ub.
