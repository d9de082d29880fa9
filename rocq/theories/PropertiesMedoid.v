(** C57, C58, C76, C77, C78: k-medoids. *)
From Coq Require Import Reals Lra Floats.SpecFloat.
From Verif Require Import Base Num DistModel ClustersModel ClustersView ClustersProofs MatLemmas
  PartitionModel ParModel KmeansModel ParProofs NearProofs KmeansProofs UpdateProofs RunProofs InitProofs Spec DistProofs.
From Verif Require Import VecLemmas KmeansR SseProofs PropertiesKmeansR.
From Verif Require Import ParRule Okab ParDet MedoidModel MedoidProofs MedoidStep MedoidRun.
Set Implicit Arguments.
Unset Strict Implicit.

(** what a caller of the k-medoids run must provide *)
Definition m_valid {N} (g : kcfg N) (data : list (car N)) (draw : nat -> nat) : Prop :=
  valid_input g data /\ 1 <= g_k g /\ g_kind g <> NumaReorg /\ forall i, i < g_k g -> draw i < g_nrow g.

(** the states after initialisation and after every iteration *)
Definition m_states {N} (r : mrun_result N) : list (mst N) := mr_init r :: mr_trace r.
(** medoid [c] *)
Definition medoid {N} (g : kcfg N) (s : mst N) (c : nat) : list (car N) := row (c_means (m_cl s)) (g_ncol g) c.
(** the rows of cluster [c] *)
Definition crows {N} (g : kcfg N) (s : mst N) (c : nat) : list nat :=
  filter (fun r => match nth r (m_asg s) None with Some a => a =? c | None => false end) (seq 0 (g_nrow g)).
(** summed (Euclidean) distance of row [id] to the other rows of cluster [c], rows in order *)
Definition tot {N} (g : kcfg N) (data : list (car N)) (s : mst N) (c id : nat) : car N :=
  fold_left (fun e m => if m =? id then e else nadd N e (ldist N EUCL (row data (g_ncol g) id) (row data (g_ncol g) m)))
    (crows g s c) (nzero N).

Lemma count_eq_rows c A : count_eq c A = length (filter (fun i => nth i A 0 =? c) (seq 0 (length A))).
Proof.
  unfold count_eq. induction A as [|a A IH] using rev_ind; [reflexivity|].
  rewrite app_length. cbn [length]. rewrite Nat.add_1_r, seq_S, !filter_app, !app_length, IH. cbn [plus filter].
  rewrite app_nth2 by lia. rewrite Nat.sub_diag. cbn [nth]. f_equal.
  - f_equal. apply filter_ext_in. intros i Hi. apply in_seq in Hi. rewrite app_nth1 by lia. reflexivity.
  - destruct (a =? c); reflexivity.
Qed.

Section Med.
Variable N : Num.
Notation T := (car N).

Lemma crows_members g (s : mst N) A c : m_asg s = map Some A -> length A = g_nrow g -> crows g s c = members g A c.
Proof.
  intros E L. unfold crows, members. apply filter_ext_in. intros r Hr. apply in_seq in Hr.
  rewrite E, (nth_indep _ None (Some 0)) by (rewrite map_length; lia). rewrite map_nth. reflexivity.
Qed.

Lemma tot_rcost g data (s : mst N) A id : m_asg s = map Some A -> length A = g_nrow g ->
  tot g data s (nth id A 0) id = rcost g data A id.
Proof. intros E L. unfold tot. rewrite (crows_members _ E L). reflexivity. Qed.

Lemma m_run_ok (OL : OrdLaws N) (HM : neqb N (nmax N) (nmax N) = true) (g : kcfg N) centers data draw smp sm se :
  m_valid g data draw -> fair g data sm -> fair g data se ->
  exists ws, build_workers g data = Ok ws /\ wok (g_nrow g) (g_ncol g) data ws /\
  oke (m_run g centers FORGY data draw smp sm se)
   (fun r => mgood g ws data (mr_init r) /\
      (forall j, j < g_k g -> medoid g (mr_init r) j = row data (g_ncol g) (draw j)) /\
      mchain g ws data smp (if 0 <? g_max_iters g then 1 else 0) (mr_init r) (mr_trace r) (mr_converged r) /\
      length (mr_trace r) <= g_max_iters g /\ (mr_converged r = false -> length (mr_trace r) = g_max_iters g) /\
      let s := last (mr_trace r) (mr_init r) in
      mr_out r = mkCluster N (g_nrow g) (g_ncol g)
        ((if 0 <? g_max_iters g then 1 else 0) + length (mr_trace r) - (if mr_converged r then 1 else 0)) (g_k g)
        (m_asg s) (m_counts s) (c_means (m_cl s)))
   (mbad g ws data).
Proof.
  intros (V & Hk & Hkind & Hdr) Fm Fe. pose proof V as (V1 & V2 & V3 & V4).
  destruct (@build_workers_ok N g data V1 V2 V3 V4) as (ws & Ews & W & _ & _). exists ws. splits; auto.
  unfold m_run.
  pose proof (@m_start_ok N OL g ws data V Hk W centers draw (se 0) Hdr (Fe ws Ews 0)) as HS.
  destruct (m_create g centers FORGY) as [s0|e0] eqn:E0; cbn [bind] in HS |- *.
  2:{ exact HS. }
  assert (HKind : (match g_kind g with NumaReorg => Err Throw | _ => Ok tt end) = Ok tt) by (destruct (g_kind g); congruence).
  rewrite HKind. cbn [bind]. rewrite Ews. cbn [bind]. apply oke_bind.
  eapply oke_mono; [exact HS| |auto]. intros s1 (Hg & Hinit). apply oke_bind.
  eapply oke_mono; [apply (@m_loop_ok N OL HM g ws data V Hk W smp sm se (Fm ws Ews) (Fe ws Ews))| |auto]; [exact Hg|].
  intros (((it & cv) & sf) & tr) (l & E1 & E2 & E3 & E4 & E5 & E6). cbn [fst snd] in *. cbn [oke mr_init mr_trace mr_converged mr_out].
  cbn [app] in E1. subst tr. splits; auto.
  - intros j Hj. destruct (Hinit j Hj) as (_ & H). unfold medoid. destruct Hg as (A & Hi & _). destruct Hi as ((_ & S2 & _) & _).
    rewrite <- H. unfold crow. rewrite S2. reflexivity.
  - subst sf. f_equal. destruct cv; lia.
Qed.

Lemma mchain_good (g : kcfg N) ws data smp : forall l i s b, mchain g ws data smp i s l b -> mgood g ws data s -> forall s', In s' (s :: l) -> mgood g ws data s'.
Proof.
  induction l as [|x l IH]; intros i s b H Hs s' [<-|Hin]; auto; [destruct Hin|].
  inversion H; subst.
  - apply (IH (S i) x false); auto. constructor.
  - eapply IH; eauto.
Qed.

Lemma mchain_consec (g : kcfg N) ws data smp : forall l i s b, mchain g ws data smp i s l b -> forall j s1 s2,
  nth_error (s :: l) j = Some s1 -> nth_error (s :: l) (S j) = Some s2 ->
  mturned g ws data (smp (i + j)) s1 s2 /\
  (stop_test g (m_changed s2) = true <-> S (S j) = length (s :: l) /\ b = true).
Proof.
  induction l as [|x l IH]; intros i s b H j s1 s2 E1 E2; cbn [nth_error] in E2; [destruct j; discriminate|].
  destruct j as [|j].
  - cbn in E1, E2. injection E1 as <-. injection E2 as <-. rewrite Nat.add_0_r. inversion H; subst.
    + split; auto. cbn [length]. split; auto.
    + split; auto. cbn [length]. split; [congruence|]. intros (HL & Hb). assert (l = []) by (destruct l; [reflexivity|discriminate]). subst l b.
      match goal with X : mchain _ _ _ _ _ _ [] true |- _ => inversion X end.
  - cbn [nth_error] in E1. inversion H; subst.
    + cbn in E2. destruct j; discriminate.
    + destruct (IH (S i) x b ltac:(assumption) j s1 s2 E1 E2) as (Q1 & Q2). rewrite Nat.add_succ_r. split; [exact Q1|].
      rewrite Q2. cbn [length]. split; intros (? & ?); split; auto; lia.
Qed.

Section Run.
Hypothesis OL : OrdLaws N.
Hypothesis HM : neqb N (nmax N) (nmax N) = true.
Variables (g : kcfg N) (centers : option (list T)) (data : list T) (draw : nat -> nat)
  (smp : nat -> nat -> bool) (sm se : nat -> list nat) (r : mrun_result N).
Hypothesis V : m_valid g data draw.
Hypothesis Fm : fair g data sm.
Hypothesis Fe : fair g data se.
Hypothesis E : m_run g centers FORGY data draw smp sm se = Ok r.

Lemma m_run_facts : exists ws, build_workers g data = Ok ws /\ wok (g_nrow g) (g_ncol g) data ws /\
  (forall s, In s (m_states r) -> mgood g ws data s) /\
  (forall j s1 s2, nth_error (m_states r) j = Some s1 -> nth_error (m_states r) (S j) = Some s2 ->
     mturned g ws data (smp (S j)) s1 s2 /\
     (stop_test g (m_changed s2) = true <-> S (S j) = length (m_states r) /\ mr_converged r = true)).
Proof.
  destruct (@m_run_ok OL HM g centers data draw smp sm se V Fm Fe) as (ws & Ews & W & H). rewrite E in H. cbn [oke] in H.
  destruct H as (Hg & _ & Hc & Hl & _). exists ws. splits; auto.
  - eapply mchain_good; eauto.
  - intros j s1 s2 E1 E2.
    assert (Hm : 0 < g_max_iters g).
    { unfold m_states in E2. cbn [nth_error] in E2. destruct (mr_trace r); [destruct j; discriminate|]. cbn [length] in Hl. lia. }
    destruct (Nat.ltb_spec 0 (g_max_iters g)); [|lia].
    exact (@mchain_consec g ws data smp _ _ _ _ Hc j s1 s2 E1 E2).
Qed.
End Run.
End Med.

(** ** C57 any arithmetic: what one iteration does to the medoid of cluster [c] *)
Theorem C57_medoid_update : forall N, OrdLaws N -> neqb N (nmax N) (nmax N) = true ->
  forall (g : kcfg N) centers data draw smp sm se r i s s' c,
  m_valid g data draw -> fair g data sm -> fair g data se ->
  m_run g centers FORGY data draw smp sm se = Ok r ->
  nth_error (m_states r) i = Some s -> nth_error (m_states r) (S i) = Some s' -> c < g_k g ->
  (medoid g s' c = medoid g s c /\
   forall id, id < g_nrow g -> smp (S i) id = true -> nth id (m_asg s) None = Some c ->
     nltb N (tot g data s c id) (nth c (m_energy s) (nzero N)) = false) \/
  (exists id, id < g_nrow g /\ smp (S i) id = true /\ nth id (m_asg s) None = Some c /\
     medoid g s' c = row data (g_ncol g) id /\
     nltb N (tot g data s c id) (nth c (m_energy s) (nzero N)) = true /\
     forall id', id' < g_nrow g -> smp (S i) id' = true -> nth id' (m_asg s) None = Some c ->
       nltb N (tot g data s c id') (tot g data s c id) = false).
Proof.
  intros N OL HM g centers data draw smp sm se r i s s' c V Fm Fe E E1 E2 Hc.
  destruct (m_run_facts OL HM V Fm Fe E) as (ws & Ews & W & Hg & Hcons).
  destruct (Hcons i s s' E1 E2) as ((A & s1 & HG & HMD & HEM) & _).
  pose proof HG as (Hi & _ & (LA & HA) & EA & _ & _ & EE). destruct HMD as (_ & _ & _ & _ & Mi & _ & Mc). destruct HEM as (EMc & _).
  assert (Emed : medoid g s' c = crow (m_cl s1) c).
  { unfold medoid, crow. rewrite EMc. cbn [clear_memb m_cl]. destruct Mi as ((_ & S2 & _) & _). rewrite S2. reflexivity. }
  assert (Emed0 : medoid g s c = crow (m_cl s) c).
  { unfold medoid, crow. destruct Hi as ((_ & S2 & _) & _). rewrite S2. reflexivity. }
  assert (Asg : forall id, id < g_nrow g -> nth id (m_asg s) None = Some (nth id A 0)).
  { intros id Hid. rewrite EA, (nth_indep _ None (Some 0)) by (rewrite map_length; lia). apply map_nth. }
  assert (Ht : forall id, nth id A 0 = c -> tot g data s c id = rcost g data A id).
  { intros id Hid. rewrite <- Hid. apply tot_rcost; auto. }
  destruct (Mc c Hc) as [(H1 & _ & _ & H2)|(id & H1 & H2 & H3 & H4 & H5 & _ & _ & _ & H6)].
  - left. rewrite Emed, Emed0. split; auto. intros id Hid Hs Ha. rewrite Asg in Ha by auto. injection Ha as Ha. rewrite Ht by auto. apply H2; auto.
  - right. exists id. rewrite Asg, Emed, Ht, H3 by auto. splits; auto. intros id' Hid Hs Ha. rewrite Asg in Ha by auto. injection Ha as Ha. rewrite Ht by auto. apply H6; auto.
Qed.

(** medoids are always rows of the data *)
Theorem C57_medoids_are_rows : forall N, OrdLaws N -> neqb N (nmax N) (nmax N) = true ->
  forall (g : kcfg N) centers data draw smp sm se r s c,
  m_valid g data draw -> fair g data sm -> fair g data se ->
  m_run g centers FORGY data draw smp sm se = Ok r ->
  In s (m_states r) -> c < g_k g -> exists id, id < g_nrow g /\ medoid g s c = row data (g_ncol g) id.
Proof.
  intros N OL HM g centers data draw smp sm se r s c V Fm Fe E Hs Hc.
  destruct (m_run_facts OL HM V Fm Fe E) as (ws & Ews & W & Hg & _).
  destruct (Hg s Hs) as (A & ((_ & S2 & _) & _ & _ & _ & _ & Hd) & _). destruct (Hd c Hc) as (id & H1 & _ & H2).
  exists id. split; auto. rewrite <- H2. unfold medoid, crow. rewrite S2. reflexivity.
Qed.

(** ** C58: the run stops with the first iteration that leaves all medoids alone *)
Theorem C58_stops_when_stable : forall N, OrdLaws N -> neqb N (nmax N) (nmax N) = true ->
  forall (g : kcfg N) centers data draw smp sm se r i s s',
  m_valid g data draw -> fair g data sm -> fair g data se ->
  m_run g centers FORGY data draw smp sm se = Ok r ->
  nth_error (m_states r) i = Some s -> nth_error (m_states r) (S i) = Some s' ->
  (forall c, c < g_k g -> medoid g s' c = medoid g s c) ->
  S (S i) = length (m_states r) /\ mr_converged r = true /\ m_asg s' = m_asg s /\ m_changed s' = 0.
Proof.
  intros N OL HM g centers data draw smp sm se r i s s' V Fm Fe E E1 E2 Hsame.
  destruct (m_run_facts OL HM V Fm Fe E) as (ws & Ews & W & Hg & Hcons).
  destruct (Hcons i s s' E1 E2) as ((A & s1 & HG & HMD & HEM) & Hstop).
  pose proof HG as (Hi & _ & (LA & HA) & EA & _). destruct HMD as (Masg & _ & _ & _ & Mi & _ & Mc).
  destruct HEM as (EMc & _ & Hi' & A' & (LA' & HA') & EA' & _ & _ & _ & Ech). cbn [clear_memb m_cl m_asg] in *.
  assert (Erows : rows (g_k g) (g_ncol g) (c_means (m_cl s1)) = rows (g_k g) (g_ncol g) (c_means (m_cl s))).
  { unfold rows. apply map_ext_in. intros c Hc. apply in_seq in Hc. specialize (Hsame c ltac:(lia)). unfold medoid in Hsame. rewrite <- EMc. exact Hsame. }
  assert (EAA : A' = A).
  { apply nth_ext with (d := 0) (d' := 0); [congruence|]. intros j Hj. rewrite LA' in Hj.
    destruct (HA' j Hj) as (_ & X). destruct (HA j Hj) as (_ & Y). unfold mnear in X, Y. rewrite Erows in X. congruence. }
  subst A'. assert (Hch : m_changed s' = 0).
  { rewrite Ech, Masg, EA. unfold chg, trA, triples. rewrite (proj2 (length_zero_iff_nil _)); [reflexivity|].
    generalize (seq 0 (g_nrow g)). induction l as [|x l IH]; [reflexivity|]. cbn [map filter snd fst].
    replace (id_eqb (nth x (map Some A) None) (nth x (map Some A) None)) with true; [exact IH|].
    destruct (nth x (map Some A) None); cbn [id_eqb]; [rewrite Nat.eqb_refl|]; reflexivity. }
  assert (Hst : stop_test g (m_changed s') = true) by (rewrite Hch; reflexivity).
  apply Hstop in Hst. destruct Hst. splits; auto. congruence.
Qed.

(** ** C77: the returned clustering is consistent with the returned medoids *)
Theorem C77_result_consistent : forall N, OrdLaws N -> neqb N (nmax N) (nmax N) = true ->
  forall (g : kcfg N) centers data draw smp sm se r,
  m_valid g data draw -> fair g data sm -> fair g data se ->
  m_run g centers FORGY data draw smp sm se = Ok r ->
  let o := mr_out r in
  ct_nrow o = g_nrow g /\ ct_ncol o = g_ncol g /\ ct_k o = g_k g /\
  length (ct_centroids o) = g_k g * g_ncol g /\
  (forall c, c < g_k g -> exists id, id < g_nrow g /\ row (ct_centroids o) (g_ncol g) c = row data (g_ncol g) id) /\
  length (ct_asg o) = g_nrow g /\
  (forall i, i < g_nrow g -> exists a, nth i (ct_asg o) None = Some a /\
     nearest_idx N EUCL (rows (g_k g) (g_ncol g) (ct_centroids o)) (row data (g_ncol g) i) a) /\
  length (ct_counts o) = g_k g /\
  (forall c, c < g_k g -> nth c (ct_counts o) 0%Z =
     Z.of_nat (length (filter (fun i => match nth i (ct_asg o) None with Some a => a =? c | None => false end) (seq 0 (g_nrow g))))).
Proof.
  intros N OL HM g centers data draw smp sm se r V Fm Fe E o.
  destruct (@m_run_ok N OL HM g centers data draw smp sm se V Fm Fe) as (ws & Ews & W & H). rewrite E in H. cbn [oke] in H.
  destruct H as (Hg & _ & Hc & _ & _ & Ho). cbv zeta in Ho.
  assert (Hl : mgood g ws data (last (mr_trace r) (mr_init r))).
  { eapply mchain_good; [exact Hc|exact Hg|]. destruct (mr_trace r) as [|x l]; [left; reflexivity|]. right.
    rewrite last_cons'. clear. revert x. induction l as [|y l IH]; intros x; [left; reflexivity|]. right. rewrite last_cons'. apply IH. }
  destruct Hl as (A & ((S1 & S2 & S3 & _) & Lasg & Lc & _ & _ & Hd) & _ & (LA & HA) & EA & _ & Hcnt & _).
  unfold o. rewrite Ho. cbn [ct_nrow ct_ncol ct_k ct_centroids ct_asg ct_counts]. rewrite S1, S2 in S3. splits; auto.
  - intros c Hcc. destruct (Hd c Hcc) as (id & H1 & _ & H2). exists id. split; auto. rewrite <- H2. unfold crow. rewrite S2. reflexivity.
  - intros i Hi. destruct (HA i Hi) as (Ha & Hn). exists (nth i A 0). split.
    + rewrite EA, (nth_indep _ None (Some 0)) by (rewrite map_length; lia). apply map_nth.
    + unfold mnear in Hn. pose proof (near_spec OL EUCL (rows (g_k g) (g_ncol g) (c_means (m_cl (last (mr_trace r) (mr_init r))))) (row data (g_ncol g) i)) as P.
      change medoid_metric with EUCL in Hn. destruct (near N EUCL _ _) as ([c|] & v); [|discriminate]. cbn [fst] in Hn. injection Hn as <-. apply P.
  - intros c Hcc. rewrite Hcnt by auto. f_equal. rewrite count_eq_rows, LA. f_equal. apply filter_ext_in.
    intros i Hi. apply in_seq in Hi. rewrite EA, (nth_indep _ None (Some 0)) by (rewrite map_length; lia). rewrite map_nth. reflexivity.
Qed.
