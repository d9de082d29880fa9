(** C57 over the reals (total energy), and C78: schedules do not matter. *)
From Coq Require Import Reals Lra.
From Verif Require Import Base Num DistModel ClustersModel ClustersView ClustersProofs MatLemmas
  PartitionModel ParModel KmeansModel ParProofs NearProofs KmeansProofs UpdateProofs RunProofs InitProofs Spec DistProofs.
From Verif Require Import VecLemmas KmeansR SseProofs PropertiesKmeansR.
From Verif Require Import ParRule Okab ParDet MedoidModel MedoidProofs MedoidStep MedoidRun PropertiesMedoid.
Set Implicit Arguments.
Unset Strict Implicit.

(* ------------------------------------------------------------------ *)
(** * Schedules *)
Section Det.
Variable N : Num.
Notation T := (car N).
Variables (g : kcfg N) (ws : list (worker N)) (data : list T).
Hypothesis Ht : ntiles 0 (g_nrow g) (w_ranges ws).

Lemma bind_ok {A B} (x : res A) (f : A -> res B) y : bind x f = Ok y -> exists a, x = Ok a /\ f a = Ok y.
Proof. destruct x; cbn; [eauto|discriminate]. Qed.

Lemma par_len {C L} (step : nat -> nat -> L -> C -> res (L * C)) sched cells locs x :
  ntiles 0 (length cells) (w_ranges ws) -> length locs = length (w_ranges ws) -> complete (w_ranges ws) sched ->
  par_run step (w_ranges ws) sched cells locs = Ok x -> length (snd x) = length cells.
Proof.
  intros H1 H2 H3 E. pose proof (@par_run_spec _ _ step _ cells locs H1 H2 sched H3) as P. rewrite E in P. destruct x. apply P.
Qed.

Lemma mEM_round_det s1 s2 s s' : length (m_asg s) = g_nrow g -> complete (w_ranges ws) s1 -> complete (w_ranges ws) s2 ->
  mEM_round g ws s1 s = Ok s' -> mEM_round g ws s2 s = Ok s' /\ length (m_asg s') = g_nrow g.
Proof.
  intros L C1 C2 E. unfold mEM_round in *. apply bind_ok in E. destruct E as (la & E1 & E2).
  assert (Ll : length (map (fun _ : worker N => m_local0 N (g_k g)) ws) = length (w_ranges ws)) by (rewrite map_length; symmetry; apply sched_ranges_len).
  assert (Ht' : ntiles 0 (length (m_asg s)) (w_ranges ws)) by (rewrite L; exact Ht).
  rewrite (@par_run_det _ _ _ _ _ _ Ht' Ll s1 s2 la C1 C2 E1). split; [exact E2|].
  apply (par_len Ht' Ll C1) in E1. unfold compute_globals in E2. apply bind_ok in E2. destruct E2 as (mb & _ & E2).
  apply bind_ok in E2. destruct E2 as (((cs & es) & ch) & _ & E2). apply bind_ok in E2. destruct E2 as ([] & _ & E2).
  injection E2 as <-. cbn [m_asg]. congruence.
Qed.

Lemma m_replace_asg agg s s' : m_replace g data agg s = Ok s' -> m_asg s' = m_asg s.
Proof.
  unfold m_replace, loop. generalize (g_k g) as m. intros m. generalize 0. revert s. induction m as [|m IH]; intros s i E; cbn [for_] in E; [congruence|].
  apply bind_ok in E. destruct E as (s1 & E1 & E2). apply IH in E2. rewrite E2. clear E2 IH.
  apply bind_ok in E1. destruct E1 as (ae & _ & E1). apply bind_ok in E1. destruct E1 as (e & _ & E1).
  destruct (nltb N ae e); [|congruence]. apply bind_ok in E1. destruct E1 as (en & _ & E1). apply bind_ok in E1. destruct E1 as (m0 & _ & E1).
  destruct m0 as [id|]; [|discriminate]. apply bind_ok in E1. destruct E1 as (nm & _ & E1). apply bind_ok in E1. destruct E1 as (p & _ & E1).
  apply bind_ok in E1. destruct E1 as (c & _ & E1). injection E1 as <-. reflexivity.
Qed.

Lemma medoid_round_det smp s1 s2 s s' : length (m_asg s) = g_nrow g -> complete (w_ranges ws) s1 -> complete (w_ranges ws) s2 ->
  medoid_round g ws data smp s1 s = Ok s' -> medoid_round g ws data smp s2 s = Ok s' /\ length (m_asg s') = g_nrow g.
Proof.
  intros L C1 C2 E. unfold medoid_round in *. apply bind_ok in E. destruct E as (la & E1 & E2).
  assert (Ll : length (map (fun _ : worker N => m_cand0 N (g_k g)) ws) = length (w_ranges ws)) by (rewrite map_length; symmetry; apply sched_ranges_len).
  assert (Ht' : ntiles 0 (length (m_asg s)) (w_ranges ws)) by (rewrite L; exact Ht).
  rewrite (@par_run_det _ _ _ _ _ _ Ht' Ll s1 s2 la C1 C2 E1). split; [exact E2|].
  apply bind_ok in E2. destruct E2 as (agg & _ & E2). apply m_replace_asg in E2. congruence.
Qed.

Lemma m_loop_det smp sm se sm' se' : (forall i, complete (w_ranges ws) (sm i)) -> (forall i, complete (w_ranges ws) (se i)) ->
  (forall i, complete (w_ranges ws) (sm' i)) -> (forall i, complete (w_ranges ws) (se' i)) ->
  forall m i s tr x, length (m_asg s) = g_nrow g -> m_loop g ws data smp sm se m i s tr = Ok x -> m_loop g ws data smp sm' se' m i s tr = Ok x.
Proof.
  intros F1 F2 F3 F4. induction m as [|m IH]; intros i s tr x L E; cbn [m_loop] in *; [exact E|].
  apply bind_ok in E. destruct E as ((s1 & b) & E1 & E2). unfold m_turn in *. apply bind_ok in E1. destruct E1 as (s2 & E1 & E3).
  destruct (medoid_round_det L (F1 i) (F3 i) E1) as (-> & L2). cbn [bind] in *.
  destruct (m_flag s2).
  - apply bind_ok in E3. destruct E3 as (s3 & E3 & E4). destruct (@mEM_round_det (se i) (se' i) (clear_memb s2) s3 L2 (F2 i) (F4 i) E3) as (-> & L3).
    cbn [bind] in *. injection E4 as <- <-. cbn [fst snd] in *. destruct (stop_test g (m_changed s3)); [exact E2|]. apply (IH _ _ _ _ L3 E2).
  - injection E3 as <- <-. cbn [fst snd] in *. exact E2.
Qed.
End Det.

(** ** C78: the result of a k-medoids run (and every intermediate state) does not
    depend on how the worker threads are scheduled *)
Theorem C78_schedule_independent : forall N (g : kcfg N) centers it data draw smp sm se sm' se' r,
  valid_input g data -> fair g data sm -> fair g data se -> fair g data sm' -> fair g data se' ->
  m_run g centers it data draw smp sm se = Ok r -> m_run g centers it data draw smp sm' se' = Ok r.
Proof.
  intros N g centers it data draw smp sm se sm' se' r V F1 F2 F3 F4 E. pose proof V as (V1 & V2 & V3 & V4).
  destruct (@build_workers_ok N g data V1 V2 V3 V4) as (ws & Ews & (Ht & _) & _ & _).
  unfold m_run in *. apply bind_ok in E. destruct E as (s0 & E0 & E). rewrite E0. cbn [bind] in *.
  apply bind_ok in E. destruct E as ([] & Ek & E). rewrite Ek. cbn [bind] in *. rewrite Ews in *. cbn [bind] in *.
  apply bind_ok in E. destruct E as (s1 & E1 & E).
  assert (L0 : length (m_asg s0) = g_nrow g).
  { unfold m_create in E0. apply bind_ok in E0. destruct E0 as ([] & _ & E0). apply bind_ok in E0. destruct E0 as (c & _ & E0). injection E0 as <-. apply repeat_length. }
  assert (Q : m_init g ws it data draw (se' 0) s0 = Ok s1 /\ length (m_asg s1) = g_nrow g).
  { unfold m_init in *. destruct it; try discriminate. apply bind_ok in E1. destruct E1 as (s2 & E1 & E2). rewrite E1. cbn [bind].
    assert (L2 : length (m_asg s2) = g_nrow g).
    { unfold m_forgy in E1. apply bind_ok in E1. destruct E1 as (c & _ & E1). injection E1 as <-. exact L0. }
    apply (@mEM_round_det N g ws Ht (se 0) (se' 0) s2 s1 L2); auto. }
  destruct Q as (-> & L1). cbn [bind]. apply bind_ok in E. destruct E as (x & E2 & E).
  rewrite (@m_loop_det N g ws data Ht smp sm se sm' se' (F1 ws Ews) (F2 ws Ews) (F3 ws Ews) (F4 ws Ews) _ _ _ _ _ L1 E2). exact E.
Qed.

(* ------------------------------------------------------------------ *)
(** * Exact arithmetic *)
Local Open Scope R_scope.

(** total energy: every row's distance to the medoid of its cluster *)
Definition m_cost (g : kcfg NumR) (data : list (car NumR)) (s : mst NumR) : R :=
  rsum (map (fun r => match nth r (m_asg s) None with
                      | Some c => edist (row data (g_ncol g) r) (medoid g s c)
                      | None => 0 end) (seq 0 (g_nrow g))).

Section RR.
Variables (g : kcfg NumR) (ws : list (worker NumR)) (data : list (car NumR)).
Let n := g_nrow g. Let d := g_ncol g. Let k := g_k g.

Definition rowR (r : nat) : list R := row data d r.

Lemma near_snd cl A r : assigned g data cl A -> (r < n)%nat ->
  snd (mnear g data cl r) = edist (rowR r) (row (c_means cl) d (nth r A 0%nat)) /\
  (forall c, (c < k)%nat -> edist (rowR r) (row (c_means cl) d (nth r A 0%nat)) <= edist (rowR r) (row (c_means cl) d c)).
Proof.
  intros (LA & HA) Hr. destruct (HA r Hr) as (Ha & Hn). unfold mnear in *.
  pose proof (near_spec NumR_laws medoid_metric (rows (g_k g) (g_ncol g) (c_means cl)) (row data (g_ncol g) r)) as P.
  destruct (near NumR medoid_metric _ _) as ([c|] & v); [|discriminate]. cbn [fst snd] in *. injection Hn as ->.
  assert (Nth : forall c, (c < k)%nat -> nth_error (rows (g_k g) (g_ncol g) (c_means cl)) c = Some (row (c_means cl) d c)).
  { intros c Hc. unfold rows. rewrite nth_error_map, nth_error_nth' with (d := 0%nat) by (rewrite seq_length; exact Hc). rewrite seq_nth by exact Hc. reflexivity. }
  destruct P as ((_ & P1) & _ & (y & Hy & Hv)). rewrite Nth in Hy by exact Ha. injection Hy as <-. split.
  - rewrite <- Hv. exact (ldist_R EUCL _ _).
  - intros c Hc. destruct (P1 c _ _ (Nth c Hc) (Nth _ Ha)) as (H & _). apply Rltb_false in H.
    pose proof (ldist_R EUCL (row data (g_ncol g) r) (row (c_means cl) d c)) as E1.
    pose proof (ldist_R EUCL (row data (g_ncol g) r) (row (c_means cl) d (nth r A 0%nat))) as E2.
    cbn [rdist] in E1, E2. unfold rowR, d in *. eapply Rle_trans; [right; symmetry; exact E2|]. eapply Rle_trans; [exact H|right; exact E1].
Qed.

Lemma fold_filter (f : nat -> R) (p : nat -> bool) l z :
  fold_left (fun e r => if p r then e + f r else e) l z = z + rsum (map f (filter p l)).
Proof.
  revert z. induction l as [|x l IH]; intros z; cbn [fold_left filter map rsum]; [lra|].
  rewrite IH. destruct (p x); cbn [map rsum]; lra.
Qed.

Lemma energy_R cl A c : ntiles 0 n (w_ranges ws) -> assigned g data cl A ->
  energy_of g ws data cl A c = rsum (map (fun r => edist (rowR r) (row (c_means cl) d c)) (members g A c)).
Proof.
  intros Ht HA. unfold energy_of.
  assert (W : forall s m, enw g data cl A c s m = 0 + rsum (map (fun r => snd (mnear g data cl r)) (filter (fun r => (nth r A 0%nat =? c)%nat) (seq s m)))).
  { intros s m. apply (fold_filter (fun r => snd (mnear g data cl r)) (fun r => (nth r A 0%nat =? c)%nat)). }
  assert (G : forall rs lo hi z, ntiles lo hi rs ->
     fold_left (fun (e : R) sm => e + enw g data cl A c (fst sm) (snd sm)) rs z =
     z + rsum (map (fun r => snd (mnear g data cl r)) (filter (fun r => (nth r A 0%nat =? c)%nat) (seq lo (hi - lo))))).
  { induction rs as [|(s & m) rs IH]; intros lo hi z H; cbn [ntiles fold_left fst snd] in *.
    - subst hi. rewrite Nat.sub_diag. cbn. lra.
    - destruct H as (-> & H). pose proof (ntiles_le _ _ _ H). rewrite (IH _ _ _ H), W.
      replace (hi - lo)%nat with (m + (hi - (lo + m)))%nat by lia. rewrite seq_app, filter_app, map_app, rsum_app. lra. }
  etransitivity; [exact (G _ 0%nat n 0 Ht)|]. rewrite Nat.sub_0_r, Rplus_0_l. apply rsum_ext.
  intros r Hr. apply members_in in Hr. destruct Hr as (Hr & E). rewrite <- E. apply near_snd; auto.
Qed.

Lemma rcost_R A id : rcost g data A id = rsum (map (fun m => edist (rowR m) (rowR id)) (members g A (nth id A 0%nat))).
Proof.
  unfold rcost, mcost. generalize (members g A (nth id A 0%nat)) as l. intros l. change (nzero NumR) with 0.
  transitivity (0 + rsum (map (fun m => edist (rowR m) (rowR id)) l)); [|lra]. generalize 0.
  induction l as [|m l IH]; intros z; cbn [fold_left map rsum]; [lra|]. rewrite IH.
  pose proof (ldist_R EUCL (rowR id) (rowR m)) as E. cbn [rdist] in E.
  destruct (Nat.eqb_spec m id) as [->|].
  - rewrite edist_refl. lra.
  - change (nadd NumR z (ldist NumR medoid_metric (row data (g_ncol g) id) (row data (g_ncol g) m))) with (z + ldist NumR EUCL (rowR id) (rowR m)).
    rewrite E, (edist_sym (rowR m)). lra.
Qed.

Lemma cost_group A (f : nat -> list R) : (forall r, (r < n)%nat -> (nth r A 0%nat < k)%nat) ->
  rsum (map (fun r => edist (rowR r) (f (nth r A 0%nat))) (seq 0 n)) =
  rsum (map (fun c => rsum (map (fun r => edist (rowR r) (f c)) (members g A c))) (seq 0 k)).
Proof.
  intros HA. apply (@rsum_group k (fun r => nth r A 0%nat) (fun r c => edist (rowR r) (f c)) (seq 0 n)).
  intros r Hr. apply in_seq in Hr. apply HA. lia.
Qed.

Lemma m_cost_eq A s : m_asg s = map Some A -> length A = n -> 
  m_cost g data s = rsum (map (fun r => edist (rowR r) (medoid g s (nth r A 0%nat))) (seq 0 n)).
Proof.
  intros E L. unfold m_cost. apply rsum_ext. intros r Hr. apply in_seq in Hr.
  rewrite E, (nth_indep _ None (Some 0%nat)) by (rewrite map_length; lia). rewrite map_nth. reflexivity.
Qed.

Lemma filter_le_length {X} (p : X -> bool) l : (length (filter p l) <= length l)%nat.
Proof. clear. induction l as [|x l IH]; cbn; [lia|]. destruct (p x); cbn; lia. Qed.

Lemma rsum_le_lt (f h : nat -> R) l : (forall x, In x l -> f x <= h x) -> (exists x, In x l /\ f x < h x) ->
  rsum (map f l) < rsum (map h l).
Proof.
  induction l as [|x l IH]; intros H (y & Hy & Hlt); [destruct Hy|]. cbn [map rsum].
  assert (X : rsum (map f l) <= rsum (map h l)) by (apply rsum_le; intros; apply H; right; auto).
  pose proof (H x (or_introl eq_refl)) as Hx. destruct Hy as [->|Hy]; [lra|].
  pose proof (IH (fun z Hz => H z (or_intror Hz)) (ex_intro _ y (conj Hy Hlt))). lra.
Qed.

Lemma turn_cost smp s s' : wok (g_nrow g) (g_ncol g) data ws -> mturned g ws data smp s s' ->
  m_cost g data s' <= m_cost g data s /\
  ((exists c, (c < k)%nat /\ medoid g s' c <> medoid g s c) -> m_cost g data s' < m_cost g data s).
Proof.
  intros (Ht & _) (A & s1 & HG & HMD & HEM). pose proof HG as (Hi & _ & HAs & EA & _ & _ & EE). pose proof HAs as (LA & HA).
  destruct HMD as (_ & _ & _ & _ & Mi & _ & Mc). destruct HEM as (EMc & _ & Hi' & A' & HAs' & EA' & _). cbn [clear_memb m_cl] in *.
  pose proof HAs' as (LA' & HA').
  assert (Med : forall c, medoid g s' c = row (c_means (m_cl s1)) d c) by (intros c; unfold medoid; rewrite EMc; reflexivity).
  rewrite (m_cost_eq EA LA), (m_cost_eq EA' LA').
  assert (Step2 : rsum (map (fun r => edist (rowR r) (medoid g s' (nth r A' 0%nat))) (seq 0 n)) <=
                  rsum (map (fun r => edist (rowR r) (medoid g s' (nth r A 0%nat))) (seq 0 n))).
  { apply rsum_le. intros r Hr. apply in_seq in Hr. rewrite !Med. assert (Hrn : (r < n)%nat) by lia. apply (proj2 (near_snd HAs' Hrn)).
    apply HA. fold n. lia. }
  rewrite (@cost_group A (medoid g s)) by (intros; apply HA; auto).
  rewrite (@cost_group A (medoid g s')) in Step2 by (intros; apply HA; auto).
  assert (Clus : forall c, (c < k)%nat -> 
      rsum (map (fun r => edist (rowR r) (medoid g s' c)) (members g A c)) <= rsum (map (fun r => edist (rowR r) (medoid g s c)) (members g A c)) /\
      (medoid g s' c <> medoid g s c -> rsum (map (fun r => edist (rowR r) (medoid g s' c)) (members g A c)) < rsum (map (fun r => edist (rowR r) (medoid g s c)) (members g A c)))).
  { intros c Hc. pose proof (EE c Hc) as Een. rewrite (energy_R c Ht HAs) in Een.
    destruct (Mc c Hc) as [(H1 & _ & _ & _)|(id & H1 & H2 & H3 & H4 & H5 & _ & _ & _ & _)].
    - assert (Em : medoid g s' c = medoid g s c).
      { rewrite Med. unfold crow in H1. destruct Mi as ((_ & S2 & _) & _). destruct Hi as ((_ & S2' & _) & _). rewrite S2, S2' in H1. exact H1. }
      rewrite Em. split; [apply Rle_refl|congruence].
    - assert (Em : medoid g s' c = rowR id).
      { rewrite Med. unfold crow in H5. destruct Mi as ((_ & S2 & _) & _). rewrite S2 in H5. exact H5. }
      rewrite Em. apply Rltb_true in H4. rewrite rcost_R, H3 in H4.
      assert (H6 : rsum (map (fun m => edist (rowR m) (rowR id)) (members g A c)) < rsum (map (fun r => edist (rowR r) (medoid g s c)) (members g A c))).
      { eapply Rlt_le_trans; [exact H4|]. right. exact Een. }
      split; [left|intros _]; exact H6. }
  split.
  - eapply Rle_trans; [exact Step2|]. apply rsum_le. intros c Hc. apply in_seq in Hc. apply Clus. lia.
  - intros (c & Hc & Hne). eapply Rle_lt_trans; [exact Step2|]. apply rsum_le_lt.
    + intros c' Hc'. apply in_seq in Hc'. apply Clus. lia.
    + exists c. split; [apply in_seq; lia|]. apply Clus; auto.
Qed.
End RR.

Lemma nmax_num : neqb NumR (nmax NumR) (nmax NumR) = true.
Proof. apply Reqb_true. reflexivity. Qed.

(** ** C57 over the reals: the total energy never increases, and falls strictly
    whenever a medoid changes *)
Theorem C57_energy_never_increases : forall (g : kcfg NumR) centers data draw smp sm se r i s s',
  m_valid g data draw -> fair g data sm -> fair g data se ->
  m_run g centers FORGY data draw smp sm se = Ok r ->
  nth_error (m_states r) i = Some s -> nth_error (m_states r) (S i) = Some s' ->
  m_cost g data s' <= m_cost g data s /\
  ((exists c, (c < g_k g)%nat /\ medoid g s' c <> medoid g s c) -> m_cost g data s' < m_cost g data s).
Proof.
  intros g centers data draw smp sm se r i s s' V Fm Fe E E1 E2.
  destruct (m_run_facts NumR_laws nmax_num V Fm Fe E) as (ws & Ews & W & Hg & Hcons).
  destruct (Hcons i s s' E1 E2) as (Ht & _). exact (@turn_cost g ws data (smp (S i)) s s' W Ht).
Qed.

(** the recorded energy of a cluster is the summed distance of its rows to its medoid *)
Theorem C57_recorded_energy : forall (g : kcfg NumR) centers data draw smp sm se r s c,
  m_valid g data draw -> fair g data sm -> fair g data se ->
  m_run g centers FORGY data draw smp sm se = Ok r ->
  In s (m_states r) -> (c < g_k g)%nat ->
  nth c (m_energy s) 0 = rsum (map (fun i => edist (row data (g_ncol g) i) (medoid g s c)) (crows g s c)).
Proof.
  intros g centers data draw smp sm se r s c V Fm Fe E Hs Hc.
  destruct (m_run_facts NumR_laws nmax_num V Fm Fe E) as (ws & Ews & W & Hg & Hcons).
  destruct (Hg s Hs) as (A & Hi & _ & HA & EA & _ & _ & EE). rewrite (@crows_members NumR g s A c EA (proj1 HA)).
  etransitivity; [exact (EE c Hc)|]. exact (@energy_R g ws data (m_cl s) A c (proj1 W) HA).
Qed.

(** total distance of a row to the others of a cluster, over the reals *)
Theorem C57_total_distance : forall (g : kcfg NumR) (data : list (car NumR)) s c id,
  tot g data s c id = rsum (map (fun m => edist (row data (g_ncol g) m) (row data (g_ncol g) id)) (crows g s c)).
Proof.
  intros g data s c id. unfold tot. generalize (crows g s c) as l. intros l. change (nzero NumR) with 0.
  transitivity (0 + rsum (map (fun m => edist (row data (g_ncol g) m) (row data (g_ncol g) id)) l)); [|lra]. generalize 0.
  induction l as [|m l IH]; intros z; cbn [fold_left map rsum]; [lra|]. rewrite IH.
  pose proof (ldist_R EUCL (row data (g_ncol g) id) (row data (g_ncol g) m)) as E. cbn [rdist] in E.
  destruct (Nat.eqb_spec m id) as [->|].
  - rewrite edist_refl. lra.
  - change (nadd NumR z (ldist NumR EUCL (row data (g_ncol g) id) (row data (g_ncol g) m))) with (z + ldist NumR EUCL (row data (g_ncol g) id) (row data (g_ncol g) m)).
    rewrite E, (edist_sym (row data (g_ncol g) m)). lra.
Qed.

(** with data whose distances are far below the largest double the run succeeds,
    for every draw, sample and schedule *)
Theorem C57_run_succeeds : forall (g : kcfg NumR) centers data draw smp sm se,
  m_valid g data draw -> fair g data sm -> fair g data se ->
  (forall i j, (i < g_nrow g)%nat -> (j < g_nrow g)%nat ->
     INR (g_nrow g) * edist (row data (g_ncol g) i) (row data (g_ncol g) j) < nmax NumR) ->
  exists r, m_run g centers FORGY data draw smp sm se = Ok r.
Proof.
  intros g centers data draw smp sm se V Fm Fe Hsmall.
  revert Hsmall. 
  assert (Gen : forall M, M = nmax NumR -> (forall i j, (i < g_nrow g)%nat -> (j < g_nrow g)%nat ->
     INR (g_nrow g) * edist (row data (g_ncol g) i) (row data (g_ncol g) j) < M) ->
     exists r, m_run g centers FORGY data draw smp sm se = Ok r); [|exact (Gen _ eq_refl)].
  intros M EM Hsmall.
  destruct (@m_run_ok NumR NumR_laws nmax_num g centers data draw smp sm se V Fm Fe) as (ws & Ews & W & H).
  destruct (m_run g centers FORGY data draw smp sm se) as [r|e]; [eauto|]. cbn [oke] in H. exfalso.
  destruct V as ((V1 & _) & _). 
  assert (Hn1 : 1 <= INR (g_nrow g)) by (apply (le_INR 1); exact V1).
  destruct H as [(_ & (i & j & Hi & Hj & Hf))|(_ & (cl & A & c & Sh & Hd & HA & Hc & Hf))].
  - apply Rltb_false in Hf. rewrite <- EM in Hf. assert (Hf' : M <= edist (row data (g_ncol g) i) (row data (g_ncol g) j)) by (eapply Rle_trans; [exact Hf|]; right; exact (ldist_R EUCL _ _)). specialize (Hsmall i j Hi Hj).
    clear EM. pose proof (edist_pos (row data (g_ncol g) i) (row data (g_ncol g) j)) as P.
    apply (Rlt_irrefl (M)). eapply Rle_lt_trans; [exact Hf'|]. eapply Rle_lt_trans; [|exact Hsmall].
    rewrite <- (Rmult_1_l (edist _ _)) at 1. apply Rmult_le_compat_r; auto.
  - apply Rltb_true in Hf. rewrite <- EM in Hf. rewrite (energy_R c (proj1 W) HA) in Hf. destruct (Hd c Hc) as (id & Hid & Erow).
    assert (Ec : row (c_means cl) (g_ncol g) c = row data (g_ncol g) id).
    { rewrite <- Erow. unfold crow. destruct Sh as (_ & S2 & _). rewrite S2. reflexivity. }
    rewrite Ec in Hf. set (f := fun r => edist (rowR g data r) (row data (g_ncol g) id)) in Hf.
    assert (B : forall l, (forall r, In r l -> (r < g_nrow g)%nat) -> (length l <= g_nrow g)%nat -> INR (g_nrow g) * rsum (map f l) <= INR (length l) * M).
    { induction l as [|x l IH]; intros Hl Hlen; cbn [map rsum length]; [cbn; lra|].
      cbn [length] in Hlen. specialize (IH (fun r Hr => Hl r (or_intror Hr)) ltac:(lia)). rewrite S_INR.
      pose proof (Hsmall x id (Hl x (or_introl eq_refl)) Hid) as Hx.
      change (edist (row data (g_ncol g) x) (row data (g_ncol g) id)) with (f x) in Hx.
      rewrite Rmult_plus_distr_l, Rmult_plus_distr_r, Rmult_1_l, Rplus_comm. apply Rplus_le_compat; [exact IH|left; exact Hx]. }
    clear EM. specialize (B (members g A c)).
    assert (Lm : (length (members g A c) <= g_nrow g)%nat).
    { unfold members. pose proof (filter_le_length (fun r => (nth r A 0 =? c)%nat) (seq 0 (g_nrow g))) as X. rewrite seq_length in X. exact X. }
    assert (B' : INR (g_nrow g) * rsum (map f (members g A c)) <= INR (length (members g A c)) * M).
    { apply B; auto. intros r Hr. apply members_in in Hr. tauto. }
    assert (Hmax : 0 < M).
    { pose proof (Hsmall id id Hid Hid) as X. rewrite edist_refl, Rmult_0_r in X. exact X. }
    assert (B2 : INR (length (members g A c)) * M <= INR (g_nrow g) * M).
    { apply Rmult_le_compat_r; [left; exact Hmax|]. apply le_INR. exact Lm. }
    assert (B3 : INR (g_nrow g) * M < INR (g_nrow g) * rsum (map f (members g A c))).
    { apply Rmult_lt_compat_l; [lra|exact Hf]. }
    lra.
Qed.
