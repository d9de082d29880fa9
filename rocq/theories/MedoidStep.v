(** The medoid step of k-medoids, any arithmetic. *)
From Verif Require Import Base Num DistModel ClustersModel ClustersView ClustersProofs MatLemmas
  PartitionModel ParModel KmeansModel ParProofs NearProofs KmeansProofs UpdateProofs RunProofs InitProofs Spec DistProofs.
From Verif Require Import ParRule Okab MedoidModel MedoidProofs.
Set Implicit Arguments.
Unset Strict Implicit.

Section MS.
Variable N : Num.
Hypothesis OL : OrdLaws N.
Hypothesis Hmaxnum : neqb N (nmax N) (nmax N) = true.
Notation T := (car N).
Notation clusters := (clusters N).
Variables (g : kcfg N) (ws : list (worker N)) (data : list T).
Let n := g_nrow g. Let d := g_ncol g. Let k := g_k g.
Hypothesis V : valid_input g data.
Hypothesis Hws : wok (g_nrow g) (g_ncol g) data ws.
Variable smp : nat -> bool.
Variable A : list nat.
Hypothesis LA : length A = g_nrow g.
Hypothesis HA : forall r, r < g_nrow g -> nth r A 0 < g_k g.

(** the rows of cluster [c] *)
Definition members (c : nat) : list nat := filter (fun r => nth r A 0 =? c) (seq 0 n).

(** summed distance from row [r] to the other rows of [l] *)
Definition mcost (l : list nat) (r : nat) : T :=
  fold_left (fun e m => if m =? r then e else nadd N e (ldist N medoid_metric (row data d r) (row data d m))) l (nzero N).

Definition rcost (r : nat) : T := mcost (members (nth r A 0)) r.

(** the best of the sampled rows in [R] for cluster [c] *)
Definition candok (R : nat -> Prop) (c : nat) (m : option nat) (e : T) : Prop :=
  match m with
  | None => e = nmax N
  | Some id => R id /\ id < n /\ smp id = true /\ nth id A 0 = c /\ e = rcost id /\ nltb N e (nmax N) = true
  end /\
  forall r, R r -> r < n -> smp r = true -> nth r A 0 = c -> nltb N (rcost r) e = false.

Definition cands (R : nat -> Prop) (l : mcand N) : Prop :=
  length (fst l) = k /\ length (snd l) = k /\
  forall c, c < k -> candok R c (nth c (fst l) None) (nth c (snd l) (nmax N)).

Lemma cands0 : cands (fun _ => False) (m_cand0 N k).
Proof.
  clear. unfold cands, m_cand0. cbn [fst snd]. rewrite !repeat_length. splits; auto. intros c Hc. rewrite !nth_repeat.
  split; [reflexivity|]. intros r [].
Qed.

Lemma cands_ext R R' l : (forall r, R r <-> R' r) -> cands R l -> cands R' l.
Proof.
  clear. intros H (L1 & L2 & HC). unfold cands. splits; auto. intros c Hc. destruct (HC c Hc) as (C1 & C2). split.
  - destruct (nth c (fst l) None); auto. rewrite <- H. exact C1.
  - intros r Hr. apply C2. rewrite H. exact Hr.
Qed.

Lemma memb_nth c : c < k -> nth c (memb_of g A) [] = members c.
Proof. clear. intros Hc. unfold memb_of. rewrite (@nth_mapseq _ _ k c) by exact Hc. reflexivity. Qed.

Lemma members_in c r : In r (members c) <-> r < n /\ nth r A 0 = c.
Proof. clear. unfold members. rewrite filter_In, in_seq, Nat.eqb_eq. intuition lia. Qed.

(** a cost that is no smaller than one candidate is no smaller than a better one *)
Lemma nlt_lt x y z : nltb N z y = true -> nltb N x y = false -> nltb N x z = false.
Proof.
  intros H1 H2. destruct (nltb N x z) eqn:E; auto. rewrite (lt_trans OL _ _ _ E H1) in H2. discriminate.
Qed.

(** one more row looked at *)
Lemma candok_skip R c m e r0 : candok R c m e -> (smp r0 = true -> nth r0 A 0 = c -> nltb N (rcost r0) e = false) ->
  candok (fun r => R r \/ r = r0) c m e.
Proof.
  clear. intros (C1 & C2) H. split.
  - destruct m as [id|]; auto. destruct C1 as (C1 & C3). split; auto.
  - intros r [Hr| ->] Hn Hs Hc; auto.
Qed.

Lemma for_each_cost w r l : In w ws -> r < w_nrow w -> (forall m, In m l -> m < n) -> w_start w + r < n ->
  forall e, for_each l (fun member_id e =>
      if member_id =? w_start w + r then Ok e
      else
        let* p := thd_row g data member_id in
        let* dd := dist_comp_raw N (wrow w (g_ncol g) r) p (g_ncol g) medoid_metric in
        Ok (nadd N e dd)) e
   = Ok (fold_left (fun e m => if m =? w_start w + r then e else nadd N e (ldist N medoid_metric (row data d (w_start w + r)) (row data d m))) l e).
Proof.
  intros Hw Hr Hl Hlt. induction l as [|m l IH]; intros e; [reflexivity|]. cbn [for_each fold_left].
  assert (Hm : m < n) by (apply Hl; left; reflexivity).
  destruct (m =? w_start w + r); cbn [bind].
  - apply IH. intros; apply Hl; right; auto.
  - destruct (@thd_row_ok N g data V m Hm) as (p & -> & Hp). cbn [bind].
    rewrite (@dist_comp_raw_ok N medoid_metric _ p (g_ncol g) (row data d (w_start w + r)) (row data d m)).
    + cbn [bind]. apply IH. intros; apply Hl; right; auto.
    + apply (proj2 Hws); auto.
    + exact Hp.
    + apply (@data_row_length N g data V). exact Hlt.
    + apply (@data_row_length N g data V). exact Hm.
Qed.

Definition PMED (l : mcand N) (tr : list (nat * option nat * option nat)) : Prop :=
  cands (fun r => In r (map (fun x => fst (fst x)) tr)) l /\ Forall (fun x => snd x = snd (fst x)) tr.

Lemma medoid_row_ok t w r l tr : nth_error ws t = Some w -> r < w_nrow w -> PMED l tr ->
  exists l', medoid_row g ws data (memb_of g A) smp t r l (Some (nth (w_start w + r) A 0)) = Ok (l', Some (nth (w_start w + r) A 0)) /\
    PMED l' (tr ++ [(w_start w + r, Some (nth (w_start w + r) A 0), Some (nth (w_start w + r) A 0))]).
Proof.
  intros Ew Hr (HC & HF). pose proof (nth_error_In _ _ Ew) as Hw.
  assert (Hin : w_start w + w_nrow w <= n).
  { destruct Hws as (Ht & _). apply (@ntiles_in _ _ _ Ht t). unfold w_ranges. rewrite nth_error_map, Ew. reflexivity. }
  set (r0 := w_start w + r) in *. assert (Hr0 : r0 < n) by (unfold r0; lia).
  pose proof (HA Hr0) as Hc. set (c := nth r0 A 0) in *.
  unfold medoid_row. unfold aget at 1. rewrite Ew. cbn [bind]. fold r0.
  assert (Fin : forall l', (forall c', c' < k -> candok (fun r => In r (map (fun x : nat * option nat * option nat => fst (fst x)) tr) \/ r = r0) c' (nth c' (fst l') None) (nth c' (snd l') (nmax N))) ->
     length (fst l') = k -> length (snd l') = k -> PMED l' (tr ++ [(r0, Some c, Some c)])).
  { intros l' H1 H2 H3. split.
    - apply (@cands_ext (fun r => In r (map (fun x : nat * option nat * option nat => fst (fst x)) tr) \/ r = r0)).
      + intros r'. rewrite map_app, in_app_iff. cbn [map In fst]. intuition auto.
      + unfold cands. splits; auto.
    - apply Forall_app. split; auto. }
  destruct HC as (L1 & L2 & HC).
  destruct (smp r0) eqn:Es; cbn [negb].
  2:{ exists l. split; [reflexivity|]. apply Fin; auto. intros c' Hc'. apply candok_skip; auto. congruence. }
  rewrite (@aget_nth _ (memb_of g A) c []) by (unfold memb_of; rewrite map_length, seq_length; exact Hc).
  cbn [bind]. rewrite memb_nth by exact Hc.
  unfold r0 at 1. rewrite (@for_each_cost w r (members c) Hw Hr) by (auto; intros m Hm; apply members_in in Hm; tauto).
  cbn [bind]. fold r0.
  change (fold_left _ (members c) (nzero N)) with (mcost (members c) r0). 
  assert (Hcost : mcost (members c) r0 = rcost r0) by reflexivity. rewrite Hcost.
  rewrite (@aget_nth _ (snd l) c (nmax N)) by (rewrite L2; exact Hc). cbn [bind].
  pose proof (HC c Hc) as HCc.
  destruct (nltb N (rcost r0) (nth c (snd l) (nmax N))) eqn:El.
  - rewrite aset_ok by (rewrite L2; exact Hc). cbn [bind]. rewrite aset_ok by (rewrite L1; exact Hc). cbn [bind].
    exists (upd (fst l) c (Some r0), upd (snd l) c (rcost r0)). split; [reflexivity|]. apply Fin; cbn [fst snd]; rewrite ?upd_length; auto.
    intros c' Hc'. rewrite !nth_upd by (rewrite ?L1, ?L2; exact Hc).
    destruct (Nat.eqb_spec c' c) as [E|Hne].
    + subst c'. destruct HCc as (C1 & C2). split.
      * splits; auto. destruct (nth c (fst l) None); [|rewrite <- C1; exact El].
        destruct C1 as (_ & _ & _ & _ & _ & C1). apply (lt_trans OL _ _ _ El C1).
      * intros r' [Hr'| ->] Hn Hs Hcr.
        -- apply (nlt_lt El). apply C2; auto.
        -- apply (lt_irrefl OL).
    + apply candok_skip; auto. intros _ E. exfalso; apply Hne; symmetry; exact E.
  - exists l. split; [reflexivity|]. apply Fin; auto. intros c' Hc'. apply candok_skip; auto.
    intros _ E. unfold c in El. rewrite E in El. exact El.
Qed.

(** reduction of two sets of candidates *)
Lemma cands_merge R R' c m e m' e' : candok R c m e -> candok R' c m' e' ->
  candok (fun r => R r \/ R' r) c (if nltb N e' e then m' else m) (if nltb N e' e then e' else e).
Proof.
  intros (C1 & C2) (D1 & D2). destruct (nltb N e' e) eqn:E; split.
  - destruct m' as [id|]; auto. destruct D1 as (D1 & D3). split; auto.
  - intros r [Hr|Hr] Hn Hs Hc; auto. apply (nlt_lt E). apply C2; auto.
  - destruct m as [id|]; auto. destruct C1 as (C1 & C3). split; auto.
  - intros r [Hr|Hr] Hn Hs Hc; auto. apply (lt_ntrans OL _ e' _); auto.
    destruct m' as [id|]; [|rewrite D1; exact Hmaxnum].
    destruct D1 as (_ & _ & _ & _ & _ & D1). apply (lt_num OL _ _ D1).
Qed.

Lemma m_reduce_ok : forall locs Rs, Forall2 cands Rs locs ->
  forall R agg, cands R agg ->
  okp (for_each locs (fun (l : mcand N) (agg : mcand N) =>
    loop (g_k g) (fun cid (agg : mcand N) =>
      let* ce := aget (snd l) cid in
      let* ae := aget (snd agg) cid in
      if nltb N ce ae then
        let* en := aset (snd agg) cid ce in
        let* m := aget (fst l) cid in
        let* cm := aset (fst agg) cid m in
        Ok (cm, en)
      else Ok agg) agg) agg)
   (cands (fun r => R r \/ exists Q, In Q Rs /\ Q r)).
Proof.
  intros locs Rs H. induction H as [|Q l Rs locs HQ HF IH]; intros R agg HR; cbn [for_each].
  - cbn [okp]. eapply cands_ext; [|exact HR]. intros r. split; auto. intros [?|(Q & [] & _)]; auto.
  - destruct HQ as (Q1 & Q2 & HQ). destruct HR as (R1 & R2 & HR). apply okp_bind.
    eapply okp_mono.
    { apply (@loop_okp _ (fun j a => length (fst a) = k /\ length (snd a) = k /\
        forall c, c < k -> (c < j -> candok (fun r => R r \/ Q r) c (nth c (fst a) None) (nth c (snd a) (nmax N))) /\
          (j <= c -> candok R c (nth c (fst a) None) (nth c (snd a) (nmax N))))).
      - splits; auto. intros c Hc. split; [lia|]. intros _. apply HR. exact Hc.
      - intros j (cm & en) Hj (B1 & B2 & HB). cbn [fst snd] in *. fold k in Hj.
        rewrite (@aget_nth _ (snd l) j (nmax N)) by lia. cbn [bind]. rewrite (@aget_nth _ en j (nmax N)) by lia. cbn [bind].
        pose proof (cands_merge (proj2 (HB j Hj) ltac:(lia)) (HQ j Hj)) as HM.
        destruct (nltb N (nth j (snd l) (nmax N)) (nth j en (nmax N))).
        + rewrite aset_ok by lia. cbn [bind]. rewrite (@aget_nth _ (fst l) j None) by lia. cbn [bind]. rewrite aset_ok by lia.
          cbn [bind okp fst snd]. rewrite !upd_length. splits; auto. intros c Hc. rewrite !nth_upd by lia.
          destruct (Nat.eqb_spec c j) as [E|Hne].
          * subst c. split; [intros _; exact HM|lia].
          * destruct (HB c Hc) as (H1 & H2). split; intros; [apply H1; lia|apply H2; lia].
        + cbn [okp fst snd]. splits; auto. intros c Hc. destruct (HB c Hc) as (H1 & H2). split; intros Hcj.
          * destruct (Nat.eq_dec c j) as [E|]; [subst c; exact HM|apply H1; lia].
          * apply H2; lia. }
    intros a (B1 & B2 & HB). fold k in HB. eapply okp_mono; [apply (IH (fun r => R r \/ Q r))|].
    + unfold cands. splits; auto. intros c Hc. apply (proj1 (HB c Hc)). exact Hc.
    + intros a' Ha'. eapply cands_ext; [|exact Ha']. intros r. cbn [In]. split.
      * intros [[?|?]|(Q' & Hi & Hq)]; auto; right; [exists Q; auto|exists Q'; auto].
      * intros [?|(Q' & [<-|Hi] & Hq)]; auto. right. exists Q'. auto.
Qed.

(** what the medoid step does to cluster [c] *)
Definition MDclus (s s' : mst N) (c : nat) : Prop :=
  (crow (m_cl s') c = crow (m_cl s) c /\ cnum (m_cl s') c = cnum (m_cl s) c /\
   nth c (m_energy s') (nzero N) = nth c (m_energy s) (nzero N) /\
   (forall r, r < n -> smp r = true -> nth r A 0 = c -> nltb N (rcost r) (nth c (m_energy s) (nzero N)) = false)) \/
  (exists id, id < n /\ smp id = true /\ nth id A 0 = c /\
   nltb N (rcost id) (nth c (m_energy s) (nzero N)) = true /\
   crow (m_cl s') c = row data d id /\ cnum (m_cl s') c = Z.of_nat id /\
   nth c (m_energy s') (nzero N) = rcost id /\ m_flag s' = true /\
   (forall r, r < n -> smp r = true -> nth r A 0 = c -> nltb N (rcost r) (rcost id) = false)).

Definition MDpost (s s' : mst N) : Prop :=
  m_asg s' = m_asg s /\ m_counts s' = m_counts s /\ m_changed s' = m_changed s /\ m_memb s' = m_memb s /\
  minv g data s' /\ (m_flag s = true -> m_flag s' = true) /\ forall c, c < k -> MDclus s s' c.

Lemma cand_row_ok id : id < n -> exists p, cand_row g data id = Ok p /\ slice (fst p) (snd p) d = row data d id.
Proof.
  intros H. unfold cand_row. destruct (g_kind g); try exact (@thd_row_ok N g data V id H).
  eexists. split; [reflexivity|]. reflexivity.
Qed.

Lemma candidate_lt_number c m e R : candok R c m e -> neqb N e e = true.
Proof.
  intros (C1 & _). destruct m as [id|]; [|rewrite C1; exact Hmaxnum]. destruct C1 as (_ & _ & _ & _ & _ & C1). apply (lt_num OL _ _ C1).
Qed.

(** the one way the step can go wrong: a cluster whose energy exceeds the largest
    double has no candidate below it, and the id [(unsigned)-1] is used *)
Definition overflow (s : mst N) (e : err) : Prop :=
  e = UB /\ exists c, c < k /\ nltb N (nmax N) (nth c (m_energy s) (nzero N)) = true.

Lemma m_replace_ok agg s : minv g data s -> cands (fun r => r < n) agg ->
  oke (m_replace g data agg s) (MDpost s) (overflow s).
Proof.
  intros Hinv (C1 & C2 & HC). unfold m_replace.
  eapply oke_mono; [| |intros e He; exact He].
  { apply (@loop_oke _ (fun j s' => m_asg s' = m_asg s /\ m_counts s' = m_counts s /\ m_changed s' = m_changed s /\ m_memb s' = m_memb s /\
      minv g data s' /\ (m_flag s = true -> m_flag s' = true) /\
      forall c, c < k -> (c < j -> MDclus s s' c) /\
        (j <= c -> cel (m_cl s') c = cel (m_cl s) c /\ nth c (m_energy s') (nzero N) = nth c (m_energy s) (nzero N)))).
    - splits; auto. intros c Hc. split; [lia|auto].
    - intros j s' Hj (B1 & B2 & B3 & B4 & Binv & Bfl & HB). fold k in Hj.
      pose proof Binv as (Sh & La & Lc & Le & Lm & Hd).
      fold k in Le.
      rewrite (@aget_nth _ (snd agg) j (nmax N)) by lia. cbn [bind].
      rewrite (@aget_nth _ (m_energy s') j (nzero N)) by lia. cbn [bind].
      destruct (HB j Hj) as (_ & Hold). specialize (Hold (le_n j)) as (Hcel & Hen). pose proof (HC j Hj) as HCj.
      destruct (nltb N (nth j (snd agg) (nmax N)) (nth j (m_energy s') (nzero N))) eqn:El.
      + rewrite aset_ok by lia. cbn [bind]. rewrite (@aget_nth _ (fst agg) j None) by lia. cbn [bind].
        destruct HCj as (D1 & D2). destruct (nth j (fst agg) None) as [id|].
        2:{ cbn [oke]. split; [reflexivity|]. exists j. split; [exact Hj|]. rewrite D1, Hen in El. exact El. }
        destruct D1 as (_ & I2 & I3 & I4 & I5 & I6).
        pose proof Sh as (S1 & S2 & S3). destruct S3 as (S3 & S4 & S5). 
        assert (Lmem : j < length (c_members (m_cl s'))) by (rewrite S4, S1; exact Hj).
        rewrite aset_ok by exact Lmem. cbn [bind]. destruct (cand_row_ok I2) as (p & -> & Hp). cbn [bind].
        assert (Sh1 : shaped k d (with_members (m_cl s') (upd (c_members (m_cl s')) j (Z.of_nat id)))).
        { unfold shaped, cwf. cbn [with_members c_ncol c_nclust c_members c_complete c_means]. rewrite upd_length. auto. }
        destruct (@set_mean_at_ok N k d _ p (row data d id) j Sh1 Hj (@data_row_length N g data V id I2) Hp) as (c' & -> & Sh' & Hc').
        cbn [bind oke m_asg m_counts m_changed m_memb m_flag m_cl m_energy].
        assert (Hcel' : forall c, c < k -> cel c' c = if c =? j then (row data d id, Z.of_nat id, cdone (m_cl s') j) else cel (m_cl s') c).
        { intros c Hcc. rewrite Hc' by exact Hcc. destruct (Nat.eqb_spec c j) as [E|Hne].
          - f_equal. f_equal. unfold cnum. cbn [with_members c_members]. rewrite nth_upd by exact Lmem. rewrite Nat.eqb_refl. reflexivity.
          - unfold cel. f_equal. f_equal. unfold cnum. cbn [with_members c_members]. rewrite nth_upd by exact Lmem.
            destruct (Nat.eqb_spec c j); [contradiction|reflexivity]. }
        splits; auto.
        * unfold minv. cbn [m_asg m_counts m_changed m_memb m_flag m_cl m_energy]. rewrite upd_length. splits; auto.
          intros c Hcc. specialize (Hcel' c Hcc). destruct (Nat.eqb_spec c j) as [E|Hne].
          -- subst c. unfold cel in Hcel'. injection Hcel' as E1 E2 _. exists id. auto.
          -- unfold cel in Hcel'. injection Hcel' as E1 E2 _. destruct (Hd c Hcc) as (i & Hi & H1 & H2). exists i. rewrite E1, E2. auto.
        * intros c Hcc. specialize (Hcel' c Hcc). split.
          -- intros Hcj. destruct (Nat.eqb_spec c j) as [E|Hne].
             ++ subst c. right. unfold cel in Hcel'. injection Hcel' as E1 E2 _. exists id. rewrite <- I5, <- Hen. 
                cbn [m_asg m_counts m_changed m_memb m_flag m_cl m_energy]. rewrite nth_upd by lia. rewrite Nat.eqb_refl. splits; auto.
             ++ destruct (HB c Hcc) as (HB1 & _). specialize (HB1 ltac:(lia)).
                unfold cel in Hcel'. injection Hcel' as E1 E2 _.
                assert (E3 : nth c (upd (m_energy s') j (nth j (snd agg) (nmax N))) (nzero N) = nth c (m_energy s') (nzero N)).
                { rewrite nth_upd by lia. destruct (Nat.eqb_spec c j); [contradiction|reflexivity]. }
                destruct HB1 as [(M1 & M2 & M3 & M4)|(i & M1 & M2 & M3 & M4 & M5 & M6 & M7 & M8 & M9)]; [left|right; exists i];
                  cbn [m_asg m_counts m_changed m_memb m_flag m_cl m_energy]; rewrite E1, E2, E3; splits; auto.
          -- intros Hcj. destruct (HB c Hcc) as (_ & HB2). destruct (HB2 ltac:(lia)) as (H1 & H2).
             cbn [m_asg m_counts m_changed m_memb m_flag m_cl m_energy]. rewrite nth_upd by lia.
             destruct (Nat.eqb_spec c j); [lia|]. rewrite Hcel'. auto.
      + cbn [oke]. splits; auto. intros c Hcc. destruct (HB c Hcc) as (H1 & H2). split; intros Hcj.
        * destruct (Nat.eq_dec c j) as [E|]; [|apply H1; lia]. subst c. left.
          unfold cel in Hcel. injection Hcel as E1 E2 _. splits; auto.
          intros r Hr Hs Hcr. rewrite <- Hen. apply (lt_ntrans OL _ (nth j (snd agg) (nmax N)) _); auto.
          -- eapply candidate_lt_number. exact HCj.
          -- apply (proj2 HCj); auto.
        * apply H2; lia. }
  intros s' (B1 & B2 & B3 & B4 & Binv & Bfl & HB). unfold MDpost. splits; auto.
  intros c Hc. apply (proj1 (HB c Hc)). exact Hc.
Qed.

Lemma medoid_round_ok sched s : minv g data s -> m_asg s = map Some A -> m_memb s = memb_of g A -> complete (w_ranges ws) sched ->
  oke (medoid_round g ws data smp sched s) (MDpost s) (overflow s).
Proof.
  intros Hinv EA EM Hcs. unfold medoid_round. pose proof (proj1 Hws) as Ht.
  destruct (@par_run_rule _ _ (@None nat) (medoid_row g ws data (m_memb s) smp) (w_ranges ws) (m_asg s) (map (fun _ => m_cand0 N (g_k g)) ws))
      with (P := fun (t : nat) l tr => PMED l tr) (sched := sched) as (locs & cells & -> & Ll & Lc & HL); auto.
  - rewrite EA, map_length, LA. exact Ht.
  - rewrite map_length. symmetry. apply sched_ranges_len.
  - intros t l0 El. rewrite nth_error_map in El. destruct (nth_error ws t); [|discriminate]. injection El as <-.
    split; [|constructor]. apply cands0.
  - intros t s0 m r l tr Er Hr Hsr Htr HP. destruct (ranges_nth Er) as (w & Ew & -> & ->).
    rewrite EA in Hsr |- *. rewrite map_length in Hsr. rewrite (nth_indep _ None (Some 0)) by (rewrite map_length; exact Hsr). rewrite map_nth.
    destruct (@medoid_row_ok t w r l tr Ew Hr HP) as (l' & E & HP'). rewrite EM. exists l', (Some (nth (w_start w + r) A 0)). auto.
  - cbn [bind fst]. apply oke_bind. apply okp_oke. unfold m_reduce.
    eapply okp_mono.
    { apply (@m_reduce_ok locs (map (fun sm => (fun r => fst sm <= r < fst sm + snd sm)) (w_ranges ws))) with (R := fun _ => False).
      - apply Forall2_of_nth; [rewrite map_length; symmetry; exact Ll|].
        intros t R l E1 E2. rewrite nth_error_map in E1. destruct (nth_error (w_ranges ws) t) as [(s0 & m)|] eqn:Er; [|discriminate].
        injection E1 as <-. destruct (HL t s0 m Er) as (l' & E2' & (HP & _)). rewrite E2 in E2'. injection E2' as <-.
        eapply cands_ext; [|exact HP]. intros r. cbn [fst snd]. unfold triples. rewrite map_map. cbn [fst]. rewrite map_id, in_seq. tauto.
      - apply cands0. }
    intros agg Hagg. cbn beta in Hagg.
    apply (@m_replace_ok agg s Hinv).
    eapply cands_ext; [|exact Hagg]. intros r. cbn beta. split.
    + intros [[]|(Q & HQ & Hr)]. apply in_map_iff in HQ. destruct HQ as ((s0 & m) & <- & Hin). cbn [fst snd] in Hr.
      apply In_nth_error in Hin. destruct Hin as (t & Et). apply (@ntiles_in _ _ _ Ht t) in Et. fold n in Et. lia.
    + intros Hr. right. destruct (@ntiles_cover _ _ _ Ht r ltac:(fold n; lia)) as (t & s0 & m & Er & H1 & H2).
      exists (fun r => s0 <= r < s0 + m). split; [|lia]. apply in_map_iff. exists (s0, m). split; [reflexivity|]. apply (nth_error_In _ _ Er).
Qed.
End MS.
