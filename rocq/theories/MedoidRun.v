(** Whole runs of k-medoids, any arithmetic. *)
From Verif Require Import Base Num DistModel ClustersModel ClustersView ClustersProofs MatLemmas
  PartitionModel ParModel KmeansModel ParProofs NearProofs KmeansProofs UpdateProofs RunProofs InitProofs Spec DistProofs.
From Verif Require Import ParRule Okab MedoidModel MedoidProofs MedoidStep.
Set Implicit Arguments.
Unset Strict Implicit.

Lemma last_cons' {A} (l : list A) x y : last (x :: l) y = last l x.
Proof. revert x y. induction l as [|z l IH]; intros x y; [reflexivity|]. exact (eq_trans (IH z y) (eq_sym (IH z x))). Qed.

Section MR.
Variable N : Num.
Hypothesis OL : OrdLaws N.
Hypothesis Hmaxnum : neqb N (nmax N) (nmax N) = true.
Notation T := (car N).
Notation clusters := (clusters N).
Variables (g : kcfg N) (ws : list (worker N)) (data : list T).
Let n := g_nrow g. Let d := g_ncol g. Let k := g_k g.
Hypothesis V : valid_input g data.
Hypothesis Hk : 1 <= g_k g.
Hypothesis Hws : wok (g_nrow g) (g_ncol g) data ws.

(** a state between two turns of the loop *)
Definition mgood_with (A : list nat) (s : mst N) : Prop :=
  minv g data s /\ m_flag s = true /\ assigned g data (m_cl s) A /\ m_asg s = map Some A /\ m_memb s = memb_of g A /\
  (forall c, c < k -> nth c (m_counts s) 0%Z = Z.of_nat (count_eq c A)) /\
  (forall c, c < k -> nth c (m_energy s) (nzero N) = energy_of g ws data (m_cl s) A c).
Definition mgood (s : mst N) : Prop := exists A, mgood_with A s.

(** one turn: the medoid step on [s] gives [s1], the EM step on [s1] gives [s'] *)
Definition mturned (smp : nat -> bool) (s s' : mst N) : Prop :=
  exists A s1, mgood_with A s /\ MDpost g data smp A s s1 /\ EMpost g ws data (clear_memb s1) s'.

(** two rows at a distance not below the largest double *)
Definition far_pair : Prop :=
  exists r i, r < n /\ i < n /\ nltb N (ldist N medoid_metric (row data d r) (row data d i)) (nmax N) = false.
(** a clustering with data rows as medoids, one cluster of which has energy above
    the largest double *)
Definition over_energy : Prop :=
  exists (cl : clusters) A c, shaped k d cl /\ (forall j, j < k -> exists i, i < n /\ crow cl j = row data d i) /\
    assigned g data cl A /\ c < k /\ nltb N (nmax N) (energy_of g ws data cl A c) = true.
Definition mbad (e : err) : Prop := (e = Abort /\ far_pair) \/ (e = UB /\ over_energy).

Lemma crow_nth (cl : clusters) j : shaped k d cl -> j < k -> nth_error (rows k d (c_means cl)) j = Some (crow cl j).
Proof.
  clear. intros (S1 & S2 & _) Hj. unfold rows. rewrite nth_error_map, nth_error_nth' with (d := 0) by (rewrite seq_length; exact Hj).
  rewrite seq_nth by exact Hj. cbn. unfold crow. rewrite S2. reflexivity.
Qed.

Lemma unreachable_far s : minv g data s -> unreachable_row g data (m_cl s) -> far_pair.
Proof.
  intros (Sh & _ & _ & _ & _ & Hd) (r & Hr & E). destruct (Hd 0 Hk) as (i & Hi & _ & Ei). exists r, i. splits; auto.
  pose proof (near_spec OL medoid_metric (rows (g_k g) (g_ncol g) (c_means (m_cl s))) (row data d r)) as H.
  unfold mnear in E. fold d in E, H.
  destruct (near N medoid_metric (rows (g_k g) d (c_means (m_cl s))) (row data d r)) as ([c|] & v); [discriminate|].
  fold d in Ei. rewrite <- Ei. apply H. eapply nth_error_In. apply (@crow_nth _ 0 Sh Hk).
Qed.

Lemma minv_clear s : minv g data s -> minv g data (clear_memb s).
Proof. clear. intros (H1 & H2 & H3 & H4 & H5 & H6). unfold minv, clear_memb. cbn. rewrite map_length. auto 10. Qed.
Lemma clear_repeat s : minv g data s -> m_memb (clear_memb s) = repeat [] k.
Proof. clear. intros (H1 & H2 & H3 & H4 & H5 & H6). cbn. rewrite map_const_repeat, H5. reflexivity. Qed.

Lemma EMpost_good s s' : m_flag s = true -> EMpost g ws data s s' -> mgood s'.
Proof.
  clear. intros Hf (E1 & E2 & Hi & A & HA & EA & EM & EC & EE & _). exists A. unfold mgood_with. rewrite E1, E2. splits; auto; rewrite <- ?E1; auto.
Qed.

Lemma m_turn_ok smp sm se s : mgood s -> complete (w_ranges ws) sm -> complete (w_ranges ws) se ->
  oke (m_turn g ws data smp sm se s)
      (fun sb => mgood (fst sb) /\ mturned smp s (fst sb) /\ snd sb = stop_test g (m_changed (fst sb))) mbad.
Proof.
  intros (A & HG) Hsm Hse. pose proof HG as (Hi & Hf & HA & EA & EM & EC & EE). pose proof HA as (LA & HA').
  unfold m_turn. apply oke_bind.
  eapply oke_mono; [apply (@medoid_round_ok N OL Hmaxnum g ws data V Hws smp A LA (fun r Hr => proj1 (HA' r Hr)) sm s Hi EA EM Hsm)| |].
  - intros s1 HM. pose proof HM as (M1 & M2 & M3 & M4 & Mi & Mf & Mc). rewrite (Mf Hf).
    apply oke_bind.
    pose proof (@mEM_round_ok N g ws data V Hws se (clear_memb s1) (minv_clear Mi) (clear_repeat Mi) Hse) as HE.
    destruct (mEM_round g ws se (clear_memb s1)) as [s'|e]; cbn [okab oke] in *.
    + splits; auto; [|exists A, s1; auto]. eapply EMpost_good; [|exact HE]. cbn. auto.
    + destruct HE as (-> & HE). left. split; auto. eapply unreachable_far; [|exact HE]. apply minv_clear. exact Mi.
  - intros e (-> & c & Hc & E). right. split; auto. exists (m_cl s), A, c. pose proof Hi as (Sh & _ & _ & _ & _ & Hd).
    splits; auto.
    + intros j Hj. destruct (Hd j Hj) as (i & H1 & _ & H2). eauto.
    + rewrite <- EE by exact Hc. exact E.
Qed.

(** a run: the states between turns, in order; [true]: the last one met the
    stopping test *)
Inductive mchain (smp : nat -> nat -> bool) : nat -> mst N -> list (mst N) -> bool -> Prop :=
| mc_end : forall i s, mchain smp i s [] false
| mc_stop : forall i s s', mgood s' -> mturned (smp i) s s' -> stop_test g (m_changed s') = true -> mchain smp i s [s'] true
| mc_step : forall i s s' l b, mgood s' -> mturned (smp i) s s' -> stop_test g (m_changed s') = false ->
    mchain smp (S i) s' l b -> mchain smp i s (s' :: l) b.

Lemma m_loop_ok smp sm se : (forall i, complete (w_ranges ws) (sm i)) -> (forall i, complete (w_ranges ws) (se i)) ->
  forall m i s tr, mgood s ->
  oke (m_loop g ws data smp sm se m i s tr)
    (fun r => exists l, snd r = tr ++ l /\ mchain smp i s l (snd (fst (fst r))) /\ snd (fst r) = last l s /\
       length l <= m /\ (snd (fst (fst r)) = false -> length l = m) /\
       fst (fst (fst r)) + (if snd (fst (fst r)) then 1 else 0) = i + length l) mbad.
Proof.
  intros Hsm Hse. induction m as [|m IH]; intros i s tr Hg; cbn [m_loop].
  - cbn [oke fst snd]. exists []. rewrite app_nil_r. splits; auto. constructor.
  - apply oke_bind. eapply oke_mono; [apply (@m_turn_ok (smp i) (sm i) (se i) s Hg (Hsm i) (Hse i))| |auto].
    intros (s' & b) (Hg' & Ht & Hb). cbn [fst snd] in *. destruct b.
    + cbn [oke fst snd]. exists [s']. cbn [length last]. splits; auto; try lia; try discriminate. constructor; auto.
    + eapply oke_mono; [apply (IH (S i) s' (tr ++ [s']) Hg')| |auto].
      intros (((it & cv) & sf) & tr') (l & E1 & E2 & E3 & E4 & E5 & E6). cbn [fst snd] in *.
      exists (s' :: l). cbn [length]. splits; auto; try lia.
      * rewrite E1, <- app_assoc. reflexivity.
      * constructor; auto.
      * rewrite E3. symmetry. apply last_cons'.
Qed.

Lemma m_forgy_ok draw s : shaped k d (m_cl s) -> (forall i, i < k -> draw i < n) ->
  okp (m_forgy g data draw s) (fun s' =>
    shaped k d (m_cl s') /\ (forall j, j < k -> cnum (m_cl s') j = Z.of_nat (draw j) /\ crow (m_cl s') j = row data d (draw j)) /\
    m_asg s' = m_asg s /\ m_counts s' = m_counts s /\ m_energy s' = m_energy s /\ m_changed s' = m_changed s /\
    m_memb s' = m_memb s /\ m_flag s' = m_flag s).
Proof.
  intros Sh Hdr. unfold m_forgy. apply okp_bind. eapply okp_mono.
  { apply (@loop_okp _ (fun i c => shaped k d c /\ forall j, j < i -> j < k -> cnum c j = Z.of_nat (draw j) /\ crow c j = row data d (draw j))).
    - split; auto. intros; lia.
    - intros i c Hi (Shc & Hc). fold k in Hi.
      destruct (@thd_row_ok N g data V (draw i) (Hdr i Hi)) as (p & -> & Hp). cbn [bind].
      destruct (@set_mean_at_ok N k d c p (row data d (draw i)) i Shc Hi (@data_row_length N g data V _ (Hdr i Hi)) Hp) as (c' & -> & Sh' & Hc').
      cbn [bind]. pose proof Sh' as (S1 & S2 & S3 & S4 & S5).
      rewrite aset_ok by (rewrite S4, S1; exact Hi). cbn [bind okp]. split.
      + unfold shaped, cwf. cbn [with_members c_ncol c_nclust c_members c_complete c_means]. rewrite upd_length. auto.
      + intros j Hj Hjk. unfold cnum, crow. cbn [with_members c_ncol c_nclust c_members c_complete c_means].
        rewrite nth_upd by (rewrite S4, S1; exact Hi). specialize (Hc' j Hjk). unfold cel in Hc'.
        destruct (Nat.eqb_spec j i) as [E|Hne].
        * subst j. injection Hc' as E1 _ _. split; auto.
        * injection Hc' as E1 E2 _. destruct (Hc j ltac:(lia) Hjk) as (F1 & F2). split.
          -- rewrite <- F1. exact E2.
          -- rewrite <- F2. exact E1. }
  intros c (Shc & Hc). cbn [okp m_cl m_asg m_counts m_energy m_changed m_memb m_flag]. splits; auto; intros; apply Hc; auto.
Qed.

(** creation and initialisation *)
Lemma m_start_ok centers draw sched : (forall i, i < k -> draw i < n) -> complete (w_ranges ws) sched ->
  oke (let* s := m_create g centers FORGY in m_init g ws FORGY data draw sched s)
    (fun s => mgood s /\ forall j, j < k -> cnum (m_cl s) j = Z.of_nat (draw j) /\ crow (m_cl s) j = row data d (draw j)) mbad.
Proof.
  intros Hdr Hs. unfold m_create, assert_. destruct (Nat.leb_spec 1 (g_k g)); [|lia]. cbn [bind].
  replace (match centers with Some _ => Ok (clusters_create N (g_k g) (g_ncol g)) | None => Ok (clusters_create N (g_k g) (g_ncol g)) end)
    with (Ok (clusters_create N (g_k g) (g_ncol g))) by (destruct centers; reflexivity).
  cbn [bind m_init]. apply oke_bind. apply okp_oke.
  eapply okp_mono; [apply m_forgy_ok; [apply shaped_create|exact Hdr]|].
  cbn [m_cl m_asg m_counts m_energy m_changed m_memb m_flag]. intros s (Sh & Hc & E1 & E2 & E3 & E4 & E5 & E6).
  assert (Hi : minv g data s).
  { unfold minv. rewrite E1, E2, E3, E5, !repeat_length. splits; auto. intros j Hj. exists (draw j). destruct (Hc j Hj). auto. }
  pose proof (@mEM_round_ok N g ws data V Hws sched s Hi E5 Hs) as HE.
  destruct (mEM_round g ws sched s) as [s'|e]; cbn [okab oke] in *.
  - split; [eapply EMpost_good; eauto|]. destruct HE as (-> & _). exact Hc.
  - destruct HE as (-> & HE). left. split; auto. eapply unreachable_far; eauto.
Qed.
End MR.
