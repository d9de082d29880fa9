(** C108, C109: every driver computes a Lloyd run; pruning does not change the result. *)
From Coq Require Import Reals Lra Lia List.
From Verif Require Import Base Num Spec DistModel ClustersModel ClustersView PartitionModel ParModel KmeansModel PruneModel DistRunModel DistLloydModel.
From Verif Require Import MatLemmas VecLemmas ClustersProofs DistProofs PartitionProofs ParProofs NearProofs KmeansProofs UpdateProofs RunProofs ParRule DistMatProofs PruneProofs ClusterSums PruneRound PruneUpdate PruneRun PruneRun2.
From Verif Require Import InitProofs SimProofs KmeansR PropertiesKmeans PropertiesKmeansR PropertiesRun KmsppR PropertiesKmspp PropertiesPrune.
From Verif Require Import DistRunProofs DistRunProofs2 DistRunProofs3 DistRunProofs4 DistRunProofs5 SpecKmspp PropertiesDistRun PropertiesDistKmspp DistLloyd DistLloydInit PropertiesDistLloyd PropertiesDistSame SpecLloyd PropertiesPruneStop.
Set Implicit Arguments.
Local Open Scope R_scope.

Lemma nth_of {A} (l : list A) i x d : nth_error l i = Some x -> nth i l d = x.
Proof. intros E. rewrite <- (nth_default_eq i l d). unfold nth_default. rewrite E. reflexivity. Qed.

(* ------------------------------------------------------------------ *)
(** * From the states of a run to its assignments *)
Lemma lloyd_intro (S : Type) (asg : S -> list (option nat)) (cen : S -> nat -> list R) (g : kcfg NumR) data M0 s0 (tr : list S) conv :
  (forall j, (j < g_k g)%nat -> cen s0 j = M0 j) ->
  (forall i s s', nth_error (s0 :: tr) i = Some s -> nth_error tr i = Some s' ->
     length (asg s') = g_nrow g /\
     (forall x, (x < g_nrow g)%nat -> exists a, nth x (asg s') None = Some a /\ near_to g data (cen s) x a) /\
     (forall j, (j < g_k g)%nat -> cen s' j = cluster_mean g data (asg s') j) /\
     stop_test g (if (i =? 0)%nat then g_nrow g else moved (asg s) (asg s')) = (conv && (Datatypes.S i =? length tr)%nat)%bool) ->
  (length tr <= g_max_iters g)%nat -> (conv = false -> length tr = g_max_iters g) -> (conv = true -> tr <> []) ->
  lloyd g data M0 (map asg tr) conv.
Proof.
  intros H0 Ht Hl Hf Hn.
  assert (Hprev : forall i s', nth_error tr i = Some s' -> exists s, nth_error (s0 :: tr) i = Some s /\
     (forall j, (j < g_k g)%nat -> cen s j = cents_before g data M0 (map asg tr) i j) /\ (i <> 0%nat -> nth (i - 1) (map asg tr) [] = asg s)).
  { intros i s' E. assert (Hi : (i < length tr)%nat) by (apply nth_error_Some; congruence).
    destruct i as [|i]; [exists s0; splits; auto; congruence|].
    destruct (nth_error tr i) as [s|] eqn:Es; [|apply nth_error_None in Es; lia]. exists s. split; [exact Es|].
    assert (En : nth i (map asg tr) [] = asg s) by (apply nth_of; rewrite nth_error_map, Es; reflexivity).
    split; [|intros _; cbn [Nat.sub]; rewrite Nat.sub_0_r; exact En].
    intros j Hj. cbn [cents_before]. rewrite En.
    destruct (nth_error (s0 :: tr) i) as [sp|] eqn:Ep; [|apply nth_error_None in Ep; cbn in Ep; lia].
    destruct (Ht i sp s Ep Es) as (_ & _ & Hc & _). exact (Hc j Hj). }
  assert (Hinv : forall i A, nth_error (map asg tr) i = Some A -> exists s', nth_error tr i = Some s' /\ A = asg s').
  { intros i A E. rewrite nth_error_map in E. destruct (nth_error tr i) as [s'|]; [|discriminate]. injection E as <-. eauto. }
  constructor.
  - intros i A E. destruct (Hinv i A E) as (s' & Es' & ->). destruct (Hprev i s' Es') as (s & Es & Hc & _).
    destruct (Ht i s s' Es Es') as (L & Hx & _). split; [exact L|]. intros x Hlt. destruct (Hx x Hlt) as (a & Ea & Ha & Hn'). exists a. split; [exact Ea|]. split; [exact Ha|].
    intros j Hj. rewrite <- !Hc by assumption. exact (Hn' j Hj).
  - rewrite map_length. exact Hl.
  - intros i A E. destruct (Hinv i A E) as (s' & Es' & ->). destruct (Hprev i s' Es') as (s & Es & _ & Hp).
    destruct (Ht i s s' Es Es') as (_ & _ & _ & St). rewrite map_length, <- St. destruct (Nat.eqb_spec i 0) as [-> |Hne]; [reflexivity|]. rewrite (Hp Hne). reflexivity.
  - rewrite map_length. exact Hf.
  - intros Hc E. apply (Hn Hc). destruct tr; [reflexivity|discriminate].
Qed.

(* ------------------------------------------------------------------ *)
(** * The drivers *)

(** what a single-process run needs for its start to be a function of the draws *)
Definition real_start (g : kcfg NumR) data it (dr : draws NumR) : Prop :=
  it = PLUSPLUS -> proper g data /\ forall i, 0 <= d_real dr i <= 1.

Lemma run_start g data centers it dr scheds rr : valid_args g data centers it dr -> real_start g data it dr -> run g centers it data dr scheds = Ok rr ->
  forall j, (j < g_k g)%nat -> centroid (g_ncol g) (rr_init rr) j = start_centroid g data centers it (d_int dr) (d_real dr) j.
Proof.
  intros (V & Hk & Hc & D) Hpp E j Hj. destruct (@serial_start g data V centers it dr Hk Hc D Hpp) as (s & ws & s0 & E1 & E2 & W & E3 & St & Hst).
  unfold run in E. rewrite E1 in E. cbn [Base.bind] in E. rewrite E2 in E. cbn [Base.bind] in E. rewrite E3 in E. cbn [Base.bind] in E.
  assert (Ei : rr_init rr = s0).
  { apply bind_ok in E as ([[[iter conv] s'] tr] & _ & E). injection E as <-. reflexivity. }
  rewrite Ei. rewrite <- (Hst j Hj). unfold centroid, crow. destruct St as ((_ & Sd & _) & _). rewrite Sd. reflexivity.
Qed.

Lemma run_lloyd g data centers it dr scheds rr : valid_args g data centers it dr -> real_start g data it dr -> fair g data scheds ->
  run g centers it data dr scheds = Ok rr ->
  lloyd g data (start_centroid g data centers it (d_int dr) (d_real dr)) (map (@s_asg NumR) (rr_trace rr)) (rr_converged rr).
Proof.
  intros A Hpp F E. pose proof A as (V & Hk & Hc & D).
  destruct (@run_inv _ _ _ _ _ _ _ _ V F E) as (ws & _ & W & _ & St & Hit & _ & Hlen & Hct & Hcf).
  pose proof V as (V1 & V2 & V3 & V4).
  apply (@lloyd_intro _ (@s_asg NumR) (centroid (g_ncol g)) g data _ (rr_init rr)).
  - exact (@run_start g data centers it dr scheds rr A Hpp E).
  - intros i s s' Es Es'. assert (Hs : stok g ws s) by (apply St; apply nth_error_In with i; exact Es). assert (Hs' : stok g ws s') by (apply St; right; apply nth_error_In with i; exact Es').
    assert (La : length (s_asg s') = g_nrow g) by (destruct Hs' as (_ & _ & La & _); exact La).
    split; [exact La|]. split; [|split].
    + intros x Hx. destruct (@C13_nearest NumR NumR_laws g centers it data dr scheds rr V F E i s s' (conj Es Es') x Hx) as (c & Ec & Hn).
      exists c. split; [exact (nth_of _ _ _ Ec)|]. destruct Hn as (Hc1 & dc & Hdc & Hn). split; [exact Hc1|]. intros j Hj. destruct (Hn j Hj) as (dj & Hdj & Hlt & _).
      
      rewrite (row_dist_fun Hdc (@row_dist_eq NumR g ws data s x c Hs V4 Hx Hc1)), (row_dist_fun Hdj (@row_dist_eq NumR g ws data s x j Hs V4 Hx Hj)) in Hlt.
      unfold cents in Hlt. rewrite !nth_rows in Hlt by assumption. rewrite !ldist_R in Hlt. apply Rltb_false. exact Hlt.
    + intros j Hj. pose proof (@C16_centroids_are_means g centers it data dr scheds rr V F E i s s' (conj Es Es') j Hj) as Hm. cbv zeta in Hm. rewrite Hm. unfold cluster_mean. destruct (members _ _ _ _ _); reflexivity.
    + pose proof (@C17_changes_counted NumR g centers it data dr scheds rr V F E i s s' (conj Es Es')) as Hch.
      assert (Hm : (if (i =? 0)%nat then g_nrow g else moved (s_asg s) (s_asg s')) = s_changed s').
      { rewrite Hch. destruct (i =? 0)%nat; [reflexivity|]. symmetry. apply differing_moved; [destruct Hs as (_ & _ & L & _); exact L|exact La]. }
      rewrite Hm. destruct (rr_converged rr).
      * destruct (Hct eq_refl) as (pre & f & Et & G1 & G2 & _). rewrite Et in Es' |- *. rewrite app_length. cbn [length andb].
        assert (Hi : (i < length (pre ++ [f]))%nat) by (apply nth_error_Some; congruence). rewrite app_length in Hi. cbn in Hi.
        destruct (Nat.eq_dec i (length pre)) as [-> |Hne].
        -- rewrite nth_error_app2 in Es' by lia. rewrite Nat.sub_diag in Es'. cbn in Es'. injection Es' as <-. rewrite G1. symmetry. apply Nat.eqb_eq. lia.
        -- rewrite nth_error_app1 in Es' by lia. rewrite Forall_forall in G2. rewrite (G2 s') by (apply nth_error_In with i; exact Es'). symmetry. apply Nat.eqb_neq. lia.
      * destruct (Hcf eq_refl) as (_ & G2 & _). rewrite Forall_forall in G2. rewrite (G2 s') by (apply nth_error_In with i; exact Es'). reflexivity.
  - exact Hlen.
  - intros Hc'. apply Hcf. exact Hc'.
  - intros Hc' En. destruct (Hct Hc') as (pre & f & Et & _). rewrite En in Et. destruct pre; discriminate.
Qed.

Lemma udist_lloyd g P data centers it draw ur ksched scheds rr : udist_args g P data centers it draw ur ksched scheds ->
  udist_run g P centers it data draw ur ksched scheds = Ok rr ->
  lloyd g data (start_centroid g data centers it draw ur) (map uassign (ud_trace rr)) (ud_converged rr).
Proof.
  intros A E. destruct (C105_start A E) as (Lp & Hst). destruct (C105_result A E) as (_ & _ & _ & Hl & Hf & Hs).
  destruct (udrun_fact A E) as (_ & _ & Hstop & _).
  set (cen := fun qs j => match qs with q :: _ => ucentroid (g_ncol g) q j | [] => @nil R end).
  assert (Hall : forall i qs, nth_error (ud_init rr :: ud_trace rr) i = Some qs -> exists q t, qs = q :: t).
  { intros [|i] qs Eq.
    - cbn in Eq. injection Eq as <-. destruct (ud_init rr) as [|q t]; [|eauto]. exfalso. cbn in Lp. pose proof (ua_procs A). lia.
    - cbn [nth_error] in Eq. destruct (nth_error (ud_init rr :: ud_trace rr) i) as [s|] eqn:Es.
      2:{ apply nth_error_None in Es. cbn in Es. assert (i < length (ud_trace rr))%nat by (apply nth_error_Some; congruence). lia. }
      destruct (@C105_nearest g P data centers it draw ur ksched scheds rr A E i s qs (conj Es Eq)) as (La & _).
      destruct qs as [|q t]; [|eauto]. exfalso. cbn in La. pose proof (ua_procs A). lia. }
  apply (@lloyd_intro _ uassign cen g data _ (ud_init rr)); auto.
  - intros j Hj. destruct (Hall 0%nat _ eq_refl) as (q & t & Eq). rewrite Eq in Hst |- *. cbn [cen]. apply Hst; [left; reflexivity|exact Hj].
  - intros i qs qs' E1 E2. destruct (@C105_nearest g P data centers it draw ur ksched scheds rr A E i qs qs' (conj E1 E2)) as (La & Hx). split; [exact La|].
    destruct (Hall i qs E1) as (q & t & Eq). destruct (Hall (Datatypes.S i) qs' E2) as (q' & t' & Eq'). split; [|split].
    + intros x Hlt. destruct (Hx x Hlt) as (a & Ea & Ha & Hn). exists a. split; [exact Ea|]. split; [exact Ha|]. intros j Hj. rewrite Eq. cbn [cen]. apply (Hn q j); [rewrite Eq; left; reflexivity|exact Hj].
    + intros j Hj. destruct (@C105_means g P data centers it draw ur ksched scheds rr A E qs' q' j) as (Hm & _); [apply nth_error_In with i; exact E2|rewrite Eq'; left; reflexivity|exact Hj|].
      rewrite Eq' in Hm |- *. cbn [cen]. exact Hm.
    + exact (Hs i qs qs' (conj E1 E2)).
  - intros Hc En. rewrite En, Hc in Hstop. cbn in Hstop. discriminate.
Qed.

Lemma dist_lloyd g P data centers it draw ur ksched scheds rr : dist_args g P data centers it draw ur ksched scheds -> start_finite g data centers it draw ur -> g_dt g = EUCL ->
  dist_prune_run g P centers it data draw ur ksched scheds = Ok rr ->
  lloyd g data (start_centroid g data centers it draw ur) (map gassign (dr_trace rr)) (dr_converged rr).
Proof.
  intros A Hfin He E. destruct (C68_dist_start A Hfin E) as (Lp & Hst). destruct (C35_dist_result A Hfin E) as (_ & _ & _ & Hl & Hf & Hs).
  destruct (drun_fact A Hfin E) as (_ & _ & Hstop & _).
  set (cen := fun qs j => match qs with q :: _ => dcentroid (g_ncol g) q j | [] => @nil R end).
  assert (Hall : forall i qs, nth_error (dr_init rr :: dr_trace rr) i = Some qs -> exists q t, qs = q :: t).
  { intros [|i] qs Eq.
    - cbn in Eq. injection Eq as <-. destruct (dr_init rr) as [|q t]; [|eauto]. exfalso. cbn in Lp. pose proof (da_procs A). lia.
    - cbn [nth_error] in Eq. destruct (nth_error (dr_init rr :: dr_trace rr) i) as [s|] eqn:Es.
      2:{ apply nth_error_None in Es. cbn in Es. assert (i < length (dr_trace rr))%nat by (apply nth_error_Some; congruence). lia. }
      destruct (@C35_dist_nearest g P data centers it draw ur ksched scheds rr A Hfin E i s qs (conj Es Eq) (or_introl He)) as (La & _).
      destruct qs as [|q t]; [|eauto]. exfalso. cbn in La. pose proof (da_procs A). lia. }
  apply (@lloyd_intro _ gassign cen g data _ (dr_init rr)); auto.
  - intros j Hj. destruct (Hall 0%nat _ eq_refl) as (q & t & Eq). rewrite Eq in Hst |- *. cbn [cen]. apply Hst; [left; reflexivity|exact Hj].
  - intros i qs qs' E1 E2. destruct (@C35_dist_nearest g P data centers it draw ur ksched scheds rr A Hfin E i qs qs' (conj E1 E2) (or_introl He)) as (La & Hx). split; [exact La|].
    destruct (Hall i qs E1) as (q & t & Eq). destruct (Hall (Datatypes.S i) qs' E2) as (q' & t' & Eq'). split; [|split].
    + intros x Hlt. destruct (Hx x Hlt) as (a & Ea & Ha & Hn). exists a. split; [exact Ea|]. split; [exact Ha|]. intros j Hj. rewrite Eq. cbn [cen]. apply (Hn q j); [rewrite Eq; left; reflexivity|exact Hj].
    + intros j Hj. destruct (@C35_dist_means g P data centers it draw ur ksched scheds rr A Hfin E qs' q' j) as (Hm & _); [apply nth_error_In with i; exact E2|rewrite Eq'; left; reflexivity|exact Hj|].
      rewrite Eq' in Hm |- *. cbn [cen]. exact Hm.
    + exact (Hs i qs qs' (conj E1 E2)).
  - intros Hc En. rewrite En, Hc in Hstop. cbn in Hstop. discriminate.
Qed.

(** pruned, one process *)
Lemma prune_real_start g data centers it dr scheds : prune_args g data centers it dr scheds -> real_start g data it dr.
Proof. intros (_ & _ & H & _) ->. destruct (H eq_refl) as (H1 & H2). split; [intros Hc; congruence|exact H2]. Qed.

Lemma prune_init_start g data centers it dr scheds ws ps x : prune_args g data centers it dr scheds -> build_workers g data = Ok ws ->
  prune_create_coord g centers it = Ok ps -> prune_run_init g it ws data dr ps = Ok x ->
  forall j, (j < g_k g)%nat -> pcentroid (g_ncol g) x j = start_centroid g data centers it (d_int dr) (d_real dr) j.
Proof.
  intros A Ew Ep Ex j Hj. pose proof (prune_real_start A) as Hpp. pose proof A as (Hk2 & (V & Hk & Hc & D) & _ & _).
  destruct (@serial_start g data V centers it dr Hk Hc D Hpp) as (s & ws' & s0 & E1 & E2 & W & E3 & St & Hst).
  assert (Q := eq_trans (eq_sym Ew) E2). injection Q as <-.
  destruct (@create_pre g data Hk2 centers it Hc) as (ps' & ks & F1 & F2 & A1 & A2 & A3 & A4 & A5 & _).
  assert (Q := eq_trans (eq_sym E1) F2). injection Q as <-. assert (Q := eq_trans (eq_sym Ep) F1). injection Q as <-.
  assert (Eks : mkSt (p_cl (ps_cltrs ps)) (asg_of (ps_cells ps)) (ps_counts ps) (ps_changed ps) (ps_local ps) = s)
    by (rewrite A1, A2, A3, A4, A5; destruct s; reflexivity).
  assert (Hx : p_cl (ps_cltrs x) = s_cltrs s0).
  { unfold prune_run_init in Ex. rewrite Eks in Ex. destruct it.
    - rewrite E3 in Ex. cbn [Base.bind] in Ex. injection Ex as <-. reflexivity.
    - rewrite E3 in Ex. cbn [Base.bind] in Ex. injection Ex as <-. reflexivity.
    - cbn [run_init] in E3. destruct (kmeanspp_init_t g ws data (d_sched dr) (d_int dr 0) (d_real dr) s) as [[[[ks' dv] u] v]|e]; [|discriminate].
      cbn [Base.bind] in E3, Ex. injection E3 as <-. injection Ex as <-. reflexivity.
    - rewrite E3 in Ex. cbn [Base.bind] in Ex. injection Ex as <-. reflexivity. }
  rewrite <- (Hst j Hj). unfold pcentroid, crow. rewrite Hx. destruct St as ((_ & Sd & _) & _). rewrite Sd. reflexivity.
Qed.

Lemma prune_start g data centers it dr scheds rr : prune_args g data centers it dr scheds -> prune_run g centers it data dr scheds = Ok rr ->
  forall j, (j < g_k g)%nat -> pcentroid (g_ncol g) (pr_init rr) j = start_centroid g data centers it (d_int dr) (d_real dr) j.
Proof.
  intros A E j Hj. unfold prune_run in E. apply bind_ok in E as (ps & Ep & E). apply bind_ok in E as (ws & Ew & E). apply bind_ok in E as (x & Ex & E).
  assert (Ei : pr_init rr = x).
  { destruct (0 <? g_max_iters g)%nat.
    - apply bind_ok in E as (s1 & _ & E). apply bind_ok in E as ([[[iter conv] s'] tr] & _ & E). injection E as <-. reflexivity.
    - apply bind_ok in E as (cn & _ & E). injection E as <-. reflexivity. }
  rewrite Ei. exact (prune_init_start A Ew Ep Ex Hj).
Qed.

(** the first pass is not tested, so the tolerance must not accept that all rows move *)
Lemma prune_lloyd g data centers it dr scheds rr : prune_args g data centers it dr scheds ->
  start_finite g data centers it (d_int dr) (d_real dr) -> g_dt g = EUCL -> g_tol g < 1 -> (1 <= g_max_iters g)%nat ->
  prune_run g centers it data dr scheds = Ok rr ->
  (forall s1 j, nth_error (pr_trace rr) 0 = Some s1 -> (j < g_k g)%nat ->
     edist (start_centroid g data centers it (d_int dr) (d_real dr) j) (pcentroid (g_ncol g) s1 j) <= edist (pcentroid (g_ncol g) s1 j) (vzero (g_ncol g))) ->
  finite_init g data (pr_init rr) /\
  lloyd g data (start_centroid g data centers it (d_int dr) (d_real dr)) (map (fun s => asg_of (ps_cells s)) (pr_trace rr)) (pr_converged rr).
Proof.
  intros A Hfin He Ht Hm E Hdrift. pose proof (prune_start A E) as Hst.
  assert (Hfi : finite_init g data (pr_init rr)) by (intros r j Hr Hj; rewrite (Hst j Hj); apply Hfin; assumption).
  split; [exact Hfi|].
  assert (Hn : forall i s s', piteration rr i s s' -> all_nearest g data (pcentroid (g_ncol g) s) s').
  { apply (@C33_pruned_nearest_partial g centers it data dr scheds rr A E Hfi He). intros s1 j E1 Hj. rewrite (Hst j Hj). apply Hdrift; assumption. }
  destruct (prun_stop A E Hfi Hm) as (Hl & Hs & Hc & Hf).
  destruct (@prun_ok_facts g centers it data dr scheds rr (proj1 A) (proj1 (proj2 A)) (proj1 (proj2 (proj2 A))) (proj2 (proj2 (proj2 A))) E Hfi) as (ws & s0 & Hws & Hpre & Hi0 & Hfacts).
  assert (Hinv : forall s, In s (pr_trace rr) -> pinv g ws data s).
  { destruct Hfacts as [Hz|(s1 & more & Et & _ & _ & _ & _ & Hall & _)]; [rewrite Hz; intros s []|]. rewrite Et, Forall_forall in *. exact Hall. }
  pose proof A as (_ & (V & _) & _). pose proof V as (V1 & _).
  apply (@lloyd_intro _ (fun s => asg_of (ps_cells s)) (pcentroid (g_ncol g)) g data _ (pr_init rr)); auto; try lia.
  - intros i s s' E1 E2. destruct (Hinv s' (@nth_error_In _ _ _ _ E2)) as (_ & _ & _ & _ & (La & _) & _).
    split; [unfold asg_of; rewrite map_length; exact La|]. split; [|split].
    + intros x Hx. destruct (Hn i s s' (conj E1 E2) x Hx) as (a & Ea & Ha & Hj). exists a. split; [exact Ea|]. split; assumption.
    + intros j Hj. destruct (@C36_incremental_means g centers it data dr scheds rr A E Hfi s' (@nth_error_In _ _ _ _ E2) j Hj) as (Hmean & _). rewrite Hmean. unfold cluster_mean. destruct (members _ _ _ _ _); reflexivity.
    + destruct i as [|i].
      * cbn [Nat.eqb]. transitivity false.
        -- unfold stop_test. apply Bool.orb_false_iff. split; [apply Nat.eqb_neq; lia|]. cbn [nleb ndiv nofZ NumR]. apply Rleb_false. unfold Rdiv. rewrite Rinv_r; [exact Ht|].
           apply not_0_IZR. lia.
        -- symmetry. destruct (pr_converged rr); [|reflexivity]. destruct (Hc eq_refl) as (H2 & _). destruct (length (pr_trace rr)) as [|[|m]]; [lia|lia|reflexivity].
      * cbn [Nat.eqb]. exact (Hs (Datatypes.S i) s s' (conj E1 E2) ltac:(lia)).
  - intros Hcv En. destruct (Hc Hcv) as (H2 & _). rewrite En in H2. cbn in H2. lia.
Qed.

(* ------------------------------------------------------------------ *)
(** * The output *)

(** the result that goes with an assignment: its sizes and means *)
Definition output_of (g : kcfg NumR) (data : list R) (A : list (option nat)) (o : cluster_t NumR) : Prop :=
  ct_asg o = A /\ length (ct_counts o) = g_k g /\ length (ct_centroids o) = (g_k g * g_ncol g)%nat /\
  forall j, (j < g_k g)%nat -> row (ct_centroids o) (g_ncol g) j = cluster_mean g data A j /\
    nth_error (ct_counts o) j = Some (Z.of_nat (length (members (g_nrow g) (g_ncol g) data A j))).

Lemma flat_ext k d (l l' : list R) : length l = (k * d)%nat -> length l' = (k * d)%nat -> (forall j, (j < k)%nat -> row l d j = row l' d j) -> l = l'.
Proof.
  intros L L' H. apply nth_ext with (d := 0) (d' := 0); [congruence|]. intros p Hp. rewrite L in Hp.
  assert (Hd0 : d <> 0%nat) by (intros E; rewrite E, Nat.mul_0_r in Hp; lia).
  assert (Hj : (p / d < k)%nat) by (apply Nat.div_lt_upper_bound; lia). assert (Hmd : (p mod d < d)%nat) by (apply Nat.mod_upper_bound; exact Hd0).
  assert (Ep : p = (p / d * d + p mod d)%nat) by (rewrite Nat.mul_comm; apply Nat.div_mod; exact Hd0).
  pose proof (H _ Hj) as E. apply (f_equal (fun v : list R => nth (p mod d) v 0)) in E. unfold row in E. rewrite !nth_slice in E by exact Hmd. rewrite <- Ep in E. exact E.
Qed.

Lemma output_unique g data A o o' : output_of g data A o -> output_of g data A o' ->
  ct_asg o = ct_asg o' /\ ct_counts o = ct_counts o' /\ ct_centroids o = ct_centroids o'.
Proof.
  intros (A1 & B1 & C1 & D1) (A2 & B2 & C2 & D2). splits; [congruence| |].
  - apply Base.nth_error_ext. intros j. destruct (Nat.lt_ge_cases j (g_k g)) as [Hj|Hj].
    + rewrite (proj2 (D1 j Hj)), (proj2 (D2 j Hj)). reflexivity.
    + rewrite !(proj2 (nth_error_None _ j)) by lia. reflexivity.
  - apply (@flat_ext (g_k g) (g_ncol g)); auto. intros j Hj. exact (eq_trans (proj1 (D1 j Hj)) (eq_sym (proj1 (D2 j Hj)))).
Qed.

Lemma output_task g g' data A o : same_task g g' -> output_of g data A o -> output_of g' data A o.
Proof. intros ((E1 & E2 & E3 & E4) & _) H. unfold output_of, cluster_mean in *. rewrite <- E1, <- E2, <- E3. exact H. Qed.

Lemma last_in {A} (l : list A) d : l <> [] -> In (last l d) l /\ nth_error l (length l - 1) = Some (last l d).
Proof.
  intros H. destruct (exists_last H) as (pre & x & ->). rewrite last_last. split; [apply in_or_app; right; left; reflexivity|].
  rewrite app_length, nth_error_app2 by (cbn; lia). cbn [length]. replace (length pre + 1 - 1 - length pre)%nat with 0%nat by lia. reflexivity.
Qed.
Lemma last_map {A B} (f : A -> B) l d d' : l <> [] -> last (map f l) d' = f (last l d).
Proof. intros H. destruct (exists_last H) as (pre & x & ->). rewrite map_app. cbn [map]. rewrite !last_last. reflexivity. Qed.

Lemma rows_in_members n ncol (data : list R) : forall A j, length A = n -> rows_in j A = length (members n ncol data A j).
Proof.
  intros A j L. unfold members. rewrite map_length. unfold rows_in.
  assert (G : forall l s, (forall i, (i < length l)%nat -> nth (s + i) A None = nth i l None) ->
    length (filter (fun a => match a with Some c => Nat.eqb c j | None => false end) l) =
    length (filter (fun r => match nth r A None with Some c => Nat.eqb c j | None => false end) (seq s (length l)))).
  { clear. induction l as [|x l IH]; intros s H; [reflexivity|]. cbn [length seq filter].
    pose proof (H 0%nat ltac:(cbn; lia)) as E. rewrite Nat.add_0_r in E. cbn in E. rewrite E.
    assert (IH' : length (filter (fun a => match a with Some c => Nat.eqb c j | None => false end) l) =
      length (filter (fun r => match nth r A None with Some c => Nat.eqb c j | None => false end) (seq (Datatypes.S s) (length l)))).
    { apply IH. intros i Hi. pose proof (H (Datatypes.S i) ltac:(cbn; lia)) as F. rewrite Nat.add_succ_r in F. exact F. }
    destruct x as [c|]; [destruct (Nat.eqb c j)|]; cbn [length]; rewrite IH'; reflexivity. }
  rewrite <- L. apply (G A 0%nat). reflexivity.
Qed.

(* ------------------------------------------------------------------ *)
(** ** C108 *)

Lemma lloyd_nonempty g data M0 tr conv : (1 <= g_max_iters g)%nat -> lloyd g data M0 tr conv -> tr <> [].
Proof. intros H L E. destruct conv; [exact (ll_turn L eq_refl E)|]. pose proof (ll_full L eq_refl) as Hl. rewrite E in Hl. cbn in Hl. lia. Qed.

Lemma run_output g data centers it dr scheds rr : valid_args g data centers it dr -> fair g data scheds ->
  run g centers it data dr scheds = Ok rr -> (1 <= g_max_iters g)%nat -> rr_trace rr <> [] ->
  output_of g data (last (map (@s_asg NumR) (rr_trace rr)) []) (rr_out rr).
Proof.
  intros (V & Hk & Hc & D) F E Hm Hne. rewrite (last_map _ (rr_init rr)) by exact Hne.
  destruct (@run_inv _ _ _ _ _ _ _ _ V F E) as (ws & _ & W & _ & St & Hit & Ho & _).
  destruct (last_in (rr_init rr) Hne) as (Hin & Hnth). set (f := last (rr_trace rr) (rr_init rr)) in *.
  assert (Hf : stok g ws f) by (apply St; right; exact Hin). destruct Hf as (Sh & Sc & Sa & _).
  destruct (@C15_returned_sizes NumR g centers it data dr scheds rr V F E Hm) as (Lc & Hcnt & _).
  assert (Ea : ct_asg (rr_out rr) = s_asg f) by (rewrite Ho; reflexivity). assert (Em : ct_centroids (rr_out rr) = c_means (s_cltrs f)) by (rewrite Ho; reflexivity).
  split; [exact Ea|]. split; [exact Lc|]. split; [etransitivity; [exact (f_equal (@length R) Em)|]; exact (proj1 (shaped_means Sh))|].
  intros j Hj. split.
  - etransitivity; [exact (f_equal (fun m : list R => row m (g_ncol g) j) Em)|].
    destruct (nth_error (rr_init rr :: rr_trace rr) (length (rr_trace rr) - 1)) as [s|] eqn:Es.
    2:{ apply nth_error_None in Es. cbn in Es. lia. }
    pose proof (@C16_centroids_are_means g centers it data dr scheds rr V F E _ s f (conj Es Hnth) j Hj) as Hmm. cbv zeta in Hmm. unfold centroid in Hmm. etransitivity; [exact Hmm|].
    unfold cluster_mean. destruct (members _ _ _ _ _); reflexivity.
  - rewrite (nth_error_nth' _ 0%Z) by lia. f_equal. rewrite (Hcnt j Hj), Ea. f_equal. apply rows_in_members. exact Sa.
Qed.

Lemma prune_output g data centers it dr scheds rr : prune_args g data centers it dr scheds -> prune_run g centers it data dr scheds = Ok rr ->
  finite_init g data (pr_init rr) -> (1 <= g_max_iters g)%nat -> pr_trace rr <> [] ->
  output_of g data (last (map (fun s => asg_of (ps_cells s)) (pr_trace rr)) []) (pr_out rr).
Proof.
  intros A E Hfi Hm Hne. rewrite (last_map _ (pr_init rr)) by exact Hne.
  destruct (@C36_result g centers it data dr scheds rr A E Hfi Hm) as (f & Ef & _ & O1 & O2 & O3).
  destruct (last_in (pr_init rr) Hne) as (Hin & Hnth). assert (Q := eq_trans (eq_sym Hnth) Ef). injection Q as <-.
  destruct (@prun_ok_facts g centers it data dr scheds rr (proj1 A) (proj1 (proj2 A)) (proj1 (proj2 (proj2 A))) (proj2 (proj2 (proj2 A))) E Hfi) as (ws & s0 & Hws & Hpre & Hi0 & Hfacts).
  destruct Hfacts as [Hz|(s1 & more & Et & _ & _ & _ & _ & Hall & _)]; [congruence|].
  assert (Hp : pinv g ws data (last (pr_trace rr) (pr_init rr))) by (rewrite Et, Forall_forall in *; apply Hall; exact Hin).
  destruct Hp as ((Sh & _) & _ & _ & Hcn & _). split; [exact O1|]. split; [rewrite O2, Hcn, map_length, seq_length; reflexivity|].
  split; [etransitivity; [exact (f_equal (@length R) O3)|]; exact (proj1 (shaped_means Sh))|].
  intros j Hj. destruct (@C36_incremental_means g centers it data dr scheds rr A E Hfi _ Hin j Hj) as (H1 & H2). split.
  - etransitivity; [exact (f_equal (fun m : list R => row m (g_ncol g) j) O3)|]. etransitivity; [exact H1|]. unfold cluster_mean. destruct (members _ _ _ _ _); reflexivity.
  - rewrite O2. exact H2.
Qed.

Lemma udist_output g P data centers it draw ur ksched scheds rr : udist_args g P data centers it draw ur ksched scheds ->
  udist_run g P centers it data draw ur ksched scheds = Ok rr -> ud_trace rr <> [] ->
  output_of g data (last (map uassign (ud_trace rr)) []) (ud_out rr).
Proof.
  intros A E Hne. rewrite (last_map _ (ud_init rr)) by exact Hne. destruct (C105_result A E) as (O1 & _ & (q0 & Eq & O2 & O3) & _).
  destruct (last_in (ud_init rr) Hne) as (Hin & _). set (f := last (ud_trace rr) (ud_init rr)) in *.
  assert (Hq : In q0 f) by (destruct f; [discriminate|]; cbn in Eq; injection Eq as <-; left; reflexivity).
  assert (Sh : shaped (g_k g) (g_ncol g) (s_cltrs (up_st q0))).
  { destruct (udrun_fact A E) as (Hb & Ht & _). destruct (ubegun_inv (ua_procs A) Hb) as (M & Hi & _).
    destruct (@uturns_last g P data _ _ _ _ Hi Ht) as (M' & (_ & Hall)). fold f in Hall. rewrite Forall_forall in Hall.
    destruct (Hall q0 Hq) as ((_ & _ & (Sh & _)) & _). exact Sh. }
  split; [exact O1|]. split; [rewrite O2; exact (proj1 (proj2 (shaped_means Sh)))|].
  split; [etransitivity; [exact (f_equal (@length R) O3)|]; exact (proj1 (shaped_means Sh))|].
  intros j Hj. destruct (@C105_means g P data centers it draw ur ksched scheds rr A E f q0 j Hin Hq Hj) as (H1 & H2). split.
  - etransitivity; [exact (f_equal (fun m : list R => row m (g_ncol g) j) O3)|]. exact H1.
  - rewrite O2. exact H2.
Qed.

Lemma dist_output g P data centers it draw ur ksched scheds rr : dist_args g P data centers it draw ur ksched scheds -> start_finite g data centers it draw ur ->
  dist_prune_run g P centers it data draw ur ksched scheds = Ok rr -> dr_trace rr <> [] ->
  output_of g data (last (map gassign (dr_trace rr)) []) (dr_out rr).
Proof.
  intros A Hfin E Hne. rewrite (last_map _ (dr_init rr)) by exact Hne. destruct (C35_dist_result A Hfin E) as (O1 & _ & (q0 & Eq & O2 & O3) & _).
  destruct (last_in (dr_init rr) Hne) as (Hin & Hnth). set (f := last (dr_trace rr) (dr_init rr)) in *.
  assert (Hq : In q0 f) by (destruct f; [discriminate|]; cbn in Eq; injection Eq as <-; left; reflexivity).
  assert (Sh : shaped (g_k g) (g_ncol g) (dp_cl q0)).
  { destruct (drun_fact A Hfin E) as (_ & Ht & _).
    destruct (nth_error (dr_init rr :: dr_trace rr) (length (dr_trace rr) - 1)) as [s|] eqn:Es.
    2:{ apply nth_error_None in Es. cbn in Es. lia. }
    destruct (@turns_nth g P data _ _ _ _ s f Ht Es Hnth) as (fb & (Hd & _) & _). destruct Hd as (_ & Hall). rewrite Forall_forall in Hall.
    destruct (Hall q0 Hq) as ((_ & _ & _ & (Sh & _) & _) & _). exact Sh. }
  split; [exact O1|]. split; [rewrite O2; exact (proj1 (proj2 (shaped_means Sh)))|].
  split; [etransitivity; [exact (f_equal (@length R) O3)|]; exact (proj1 (shaped_means Sh))|].
  intros j Hj. destruct (@C35_dist_means g P data centers it draw ur ksched scheds rr A Hfin E f q0 j Hin Hq Hj) as (H1 & H2). split.
  - etransitivity; [exact (f_equal (fun m : list R => row m (g_ncol g) j) O3)|]. exact H1.
  - rewrite O2. exact H2.
Qed.

Lemma map_nonempty {A B} (f : A -> B) l : map f l <> [] -> l <> [].
Proof. intros H ->. apply H. reflexivity. Qed.

(** MPI: pruned against unpruned, each with any number of processes, threads and schedules *)
Theorem C108_pruned_mpi : forall (g g' : kcfg NumR) P P' data centers it draw ur ksched ksched' scheds scheds' ud,
  same_task g g' -> g_dt g = EUCL -> (1 <= g_max_iters g)%nat ->
  udist_args g P data centers it draw ur ksched scheds -> dist_args g' P' data centers it draw ur ksched' scheds' ->
  start_finite g data centers it draw ur ->
  udist_run g P centers it data draw ur ksched scheds = Ok ud ->
  (* no row is equally near to two centroids when it is assigned *)
  no_ties g data (start_centroid g data centers it draw ur) (map uassign (ud_trace ud)) ->
  exists dd, dist_prune_run g' P' centers it data draw ur ksched' scheds' = Ok dd /\
    ct_asg (dr_out dd) = ct_asg (ud_out ud) /\ ct_counts (dr_out dd) = ct_counts (ud_out ud) /\
    ct_centroids (dr_out dd) = ct_centroids (ud_out ud) /\
    ct_iters (dr_out dd) = ct_iters (ud_out ud) /\ dr_converged dd = ud_converged ud.
Proof.
  intros g g' P P' data centers it draw ur ksched ksched' scheds scheds' ud T He Hm A A' Hfin E Hn.
  pose proof T as ((N1 & N2 & N3 & N4) & N5 & N6).
  assert (Hfin' : start_finite g' data centers it draw ur).
  { intros r j Hr Hj. rewrite <- (@start_same g g' data centers it draw ur j T), <- N2, <- N4. apply Hfin; congruence. }
  destruct (C35_run_succeeds A' Hfin') as (dd & Ed). exists dd. split; [exact Ed|].
  assert (He' : g_dt g' = EUCL) by congruence.
  pose proof (udist_lloyd A E) as L. pose proof (lloyd_task (same_task_sym T) (dist_lloyd A' Hfin' He' Ed)) as L'.
  destruct (lloyd_unique L L' (fun j _ => @start_same g g' data centers it draw ur j T) Hn) as (Et & Ec).
  pose proof (@map_nonempty _ _ _ _ (lloyd_nonempty Hm L)) as Hu. pose proof (@map_nonempty _ _ _ _ (lloyd_nonempty Hm L')) as Hd.
  pose proof (udist_output A E Hu) as O. pose proof (output_task (same_task_sym T) (dist_output A' Hfin' Ed Hd)) as O'. rewrite <- Et in O'.
  destruct (output_unique O' O) as (H1 & H2 & H3). splits; auto.
  destruct (C105_result A E) as (_ & I1 & _). destruct (C35_dist_result A' Hfin' Ed) as (_ & I2 & _). rewrite I1, I2.
  pose proof (f_equal (@length _) Et) as El. rewrite !map_length in El. auto.
Qed.
Print Assumptions C108_pruned_mpi.

(** one process: pruned against unpruned, each with any number of threads and schedules *)
Theorem C109_pruned_threads_partial : forall (g g' : kcfg NumR) data centers it dr dr' scheds scheds' rr,
  same_task g g' -> g_dt g = EUCL -> g_tol g < 1 -> (1 <= g_max_iters g)%nat ->
  valid_args g data centers it dr -> fair g data scheds ->
  prune_args g' data centers it dr' scheds' -> d_int dr' = d_int dr -> d_real dr' = d_real dr ->
  let start := start_centroid g data centers it (d_int dr) (d_real dr) in
  start_finite g data centers it (d_int dr) (d_real dr) ->
  run g centers it data dr scheds = Ok rr ->
  no_ties g data start (map (@s_asg NumR) (rr_trace rr)) ->
  (* no centroid moves, in the first update, farther than its new norm *)
  (forall s1 j, nth_error (rr_trace rr) 0 = Some s1 -> (j < g_k g)%nat ->
     edist (start j) (centroid (g_ncol g) s1 j) <= edist (centroid (g_ncol g) s1 j) (vzero (g_ncol g))) ->
  exists pr, prune_run g' centers it data dr' scheds' = Ok pr /\
    ct_asg (pr_out pr) = ct_asg (rr_out rr) /\ ct_counts (pr_out pr) = ct_counts (rr_out rr) /\
    ct_centroids (pr_out pr) = ct_centroids (rr_out rr) /\
    ct_iters (pr_out pr) = ct_iters (rr_out rr) /\ pr_converged pr = rr_converged rr.
Proof.
  intros g g' data centers it dr dr' scheds scheds' rr T He Ht Hm A F A' Ei Er start Hfin E Hn Hdrift.
  pose proof T as ((N1 & N2 & N3 & N4) & N5 & N6).
  assert (Hst : forall j, start_centroid g' data centers it (d_int dr') (d_real dr') j = start j).
  { intros j. unfold start. rewrite Ei, Er. symmetry. apply start_same. exact T. }
  assert (Hfin' : start_finite g' data centers it (d_int dr') (d_real dr')).
  { intros r j Hr Hj. rewrite Hst, <- N2, <- N4. apply Hfin; congruence. }
  pose proof (prune_real_start A') as Hrs'.
  assert (Hrs : real_start g data it dr).
  { intros Hit. destruct (Hrs' Hit) as (H1 & H2). rewrite Er in H2. split; [intros Hc; congruence|exact H2]. }
  destruct (@C37_prune_accepts_k_partial g' centers it data dr' scheds' A' ltac:(lia)) as (pr & Ep).
  { intros ws s s0 Ew Es E0 r j Hr Hj. rewrite (prune_init_start A' Ew Es E0 Hj). apply Hfin'; assumption. }
  exists pr. split; [exact Ep|].
  pose proof (@run_lloyd g data centers it dr scheds rr A Hrs F E) as L. fold start in L.
  pose proof (prune_start A' Ep) as Hps.
  assert (Hfi : finite_init g' data (pr_init pr)) by (intros r j Hr Hj; rewrite (Hps j Hj); apply Hfin'; assumption).
  pose proof (@map_nonempty _ _ _ _ (lloyd_nonempty Hm L)) as Hu.
  (* the first passes agree, so the premise on the first update carries over *)
  assert (Hdrift' : forall s1 j, nth_error (pr_trace pr) 0 = Some s1 -> (j < g_k g')%nat ->
     edist (start_centroid g' data centers it (d_int dr') (d_real dr') j) (pcentroid (g_ncol g') s1 j) <= edist (pcentroid (g_ncol g') s1 j) (vzero (g_ncol g'))).
  { intros p1 j E1 Hj. rewrite Hst. destruct (rr_trace rr) as [|s1 tr] eqn:Etr; [congruence|].
    destruct (@prun_ok_facts g' centers it data dr' scheds' pr (proj1 A') (proj1 (proj2 A')) (proj1 (proj2 (proj2 A'))) (proj2 (proj2 (proj2 A'))) Ep Hfi) as (ws & s0 & Hws & Hpre & Hi0 & Hfacts).
    assert (Lp : length (asg_of (ps_cells p1)) = g_nrow g').
    { destruct Hfacts as [Hz|(q1 & more & Etp & _ & _ & _ & _ & Hall & _)]; [rewrite Hz in E1; discriminate|]. rewrite Etp in E1. cbn in E1. injection E1 as <-.
      inversion Hall as [|? ? Hp _]; subst. destruct Hp as (_ & _ & _ & _ & (La & _) & _). unfold asg_of. rewrite map_length. exact La. }
    assert (Easg : asg_of (ps_cells p1) = s_asg s1).
    { destruct (ll_assign L 0%nat eq_refl) as (Ls & Hs). apply nth_ext with (d := None) (d' := None); [congruence|]. intros x Hx. rewrite Lp, <- N1 in Hx.
      destruct (Hs x Hx) as (a & Ea & Ha & _).
      destruct (@C33_first_pass_nearest g' centers it data dr' scheds' pr A' Ep Hfi (pr_init pr) p1 (conj eq_refl E1) x ltac:(lia)) as (b & Eb & Hb & Hnb).
      unfold passigned in Eb. rewrite Eb. rewrite Ea. f_equal. destruct (Nat.eq_dec b a) as [-> |Hne]; [reflexivity|]. exfalso.
      pose proof (Hn 0%nat (s_asg s1) x a b eq_refl Hx Ea ltac:(lia) Hne) as Hlt. cbn [cents_before] in Hlt.
      specialize (Hnb a ltac:(lia)). rewrite !Hps, !Hst in Hnb by lia. rewrite <- N2, <- N4 in Hnb. lra. }
    assert (Hc : pcentroid (g_ncol g') p1 j = centroid (g_ncol g) s1 j).
    { destruct (@C36_incremental_means g' centers it data dr' scheds' pr A' Ep Hfi p1 (@nth_error_In _ _ _ _ E1) j Hj) as (Hm1 & _). cbv zeta in Hm1. etransitivity; [exact Hm1|].
      rewrite Easg. pose proof A as (V & _).
      pose proof (@C16_centroids_are_means g centers it data dr scheds rr V F E 0%nat (rr_init rr) s1) as Hm2.
      assert (Hm3 := Hm2 (conj eq_refl (f_equal (fun l => nth_error l 0) Etr)) j ltac:(lia)). cbv zeta in Hm3. etransitivity; [|symmetry; exact Hm3]. rewrite <- N1, <- N2. reflexivity. }
    rewrite Hc, <- N2. apply (Hdrift s1 j eq_refl). lia. }
  destruct (@prune_lloyd g' data centers it dr' scheds' pr A' Hfin' ltac:(congruence) ltac:(rewrite <- N6; exact Ht) ltac:(lia) Ep Hdrift') as (_ & L1).
  pose proof (lloyd_task (same_task_sym T) L1) as L'.
  destruct (lloyd_unique L L' (fun j _ => eq_sym (Hst j)) Hn) as (Et & Ec).
  pose proof (@map_nonempty _ _ _ _ (lloyd_nonempty Hm L')) as Hd.
  pose proof (@run_output g data centers it dr scheds rr A F E Hm Hu) as O.
  pose proof (output_task (same_task_sym T) (prune_output A' Ep Hfi ltac:(lia) Hd)) as O'. rewrite <- Et in O'.
  destruct (output_unique O' O) as (H1 & H2 & H3). splits; auto.
  pose proof (f_equal (@length _) Et) as El. rewrite !map_length in El.
  pose proof A as (V & _). destruct (@C22_iteration_count_partial NumR g centers it data dr scheds rr V F E) as (I1 & I2).
  destruct (prun_stop A' Ep Hfi ltac:(lia)) as (_ & _ & J1 & J2).
  destruct (rr_converged rr) eqn:Ev.
  - destruct (I1 (or_introl eq_refl)) as (-> & _). destruct (J1 (eq_sym Ec)) as (_ & ->). auto.
  - destruct (I2 eq_refl Hm) as (_ & ->). destruct (J2 (eq_sym Ec)) as (_ & ->). congruence.
Qed.
Print Assumptions C109_pruned_threads_partial.
