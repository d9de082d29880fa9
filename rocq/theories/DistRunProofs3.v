(** The MPI pruned run as a whole, in exact arithmetic. *)
From Coq Require Import Reals Lra.
From Verif Require Import Base Num Spec DistModel ClustersModel ClustersView PartitionModel ParModel KmeansModel PruneModel DistRunModel.
From Verif Require Import MatLemmas VecLemmas ClustersProofs DistProofs PartitionProofs ParProofs NearProofs KmeansProofs UpdateProofs RunProofs ParRule DistMatProofs PruneProofs ClusterSums PruneRound PruneUpdate PruneRun DistRunProofs DistRunProofs2 ProcRows.
Set Implicit Arguments.
Local Open Scope R_scope.

Section Dist.
Variables (g : kcfg NumR) (P : nat) (data : list (car NumR)).
Let d := g_ncol g.
Let k := g_k g.
Let G := g_nrow g.
Hypothesis HP : (1 <= P <= G)%nat.
Hypothesis Hdata : length data = (G * d)%nat.
Hypothesis HG : (Z.of_nat G < 2 ^ 31)%Z.
Hypothesis Hk2 : (2 <= k)%nat.

Definition nq (q : dproc NumR) : nat := proc_nrow G P (dp_rank q).
Definition gq (q : dproc NumR) : kcfg NumR := proc_cfg g P (dp_rank q).
Definition dq (q : dproc NumR) : list (car NumR) := proc_data g P data (dp_rank q).
Definition XQ (q : dproc NumR) (r : nat) : list R := row (dq q) d r.

(* ------------------------------------------------------------------ *)
Definition sq (q : dproc NumR) j i : R := sumF (XQ q) (nq q) (ps_cells (dp_st q)) j i.
Definition cq (q : dproc NumR) j : Z := cntF (nq q) (ps_cells (dp_st q)) j.
Definition DS (qs : list (dproc NumR)) j i : R := rsum (map (fun q => sq q j i) qs).
Definition DC (qs : list (dproc NumR)) j : Z := zsum (map (fun q => cq q j) qs).

Definition dbody (q : dproc NumR) : Prop :=
  (dp_rank q < P)%nat /\ dp_cfg q = gq q /\ wok (nq q) d (dq q) (dp_ws q) /\ psized g (dp_p q) /\ dm_ok k (ps_dm (dp_st q)) /\
  length (ps_cells (dp_st q)) = nq q /\ plocals (gq q) (dp_ws q) (dp_st q).

Definition dranks (qs : list (dproc NumR)) : Prop := map (@dp_rank NumR) qs = seq 0 P.

Definition dinv (qs : list (dproc NumR)) : Prop :=
  dranks qs /\ Forall (fun q => dbody q /\ assigned (gq q) (ps_cells (dp_st q)) /\
    cis k d (dp_cl q) (finF (DS qs) (DC qs)) (DC qs) (fun _ => true)) qs.

Definition dpre (qs : list (dproc NumR)) : Prop :=
  dranks qs /\ Forall (fun q => dbody q /\
    forall r, (r < nq q)%nat -> entry_ok k (g_dt g) (cent (dp_st q)) (XQ q r) (cdist (cellat (dp_st q) r)) (casg (cellat (dp_st q) r))) qs.

Definition dfair (sched : nat -> list nat) (qs : list (dproc NumR)) : Prop :=
  forall q, In q qs -> complete (w_ranges (dp_ws q)) (sched (dp_rank q)).

Definition qbound (q : dproc NumR) r : Prop := rbound (gq q) (dq q) (dp_st q) r.

(** one process through one step *)
Definition dstep1 (first : bool) (q q' : dproc NumR) : Prop :=
  dp_rank q' = dp_rank q /\ dp_ws q' = dp_ws q /\
  (forall r, (r < nq q)%nat -> first = true \/ (g_dt g = EUCL /\ qbound q r) ->
     exists a, casg (cellat (dp_st q') r) = Some a /\ is_nearest (g_dt g) k (cent (dp_st q)) (XQ q r) a) /\
  (g_dt g = EUCL -> forall r, (r < nq q)%nat -> first = true \/ qbound q r -> qbound q' r).

Lemma DC_nonneg qs j : (0 <= DC qs j)%Z.
Proof.
  unfold DC. induction qs as [|q qs IH]; cbn [map zsum]; [lia|]. pose proof (cntF_nonneg (nq q) (ps_cells (dp_st q)) j). unfold cq at 1. lia.
Qed.

Lemma zsum_swap A (f : A -> nat -> Z) (l : list A) (m : list nat) :
  zsum (map (fun j => zsum (map (fun a => f a j) l)) m) = zsum (map (fun a => zsum (map (f a) m)) l).
Proof.
  induction l as [|a l IH]; cbn [map zsum].
  - induction m as [|j m IHm]; cbn [map zsum]; lia.
  - rewrite <- IH. clear IH. induction m as [|j m IHm]; cbn [map zsum]; lia.
Qed.

Lemma DC_total qs : dranks qs -> Forall (fun q => assigned (gq q) (ps_cells (dp_st q))) qs ->
  zsum (map (DC qs) (seq 0 k)) = Z.of_nat G.
Proof.
  intros Hr Ha. unfold DC. rewrite (zsum_swap (fun q j => cq q j)).
  assert (E : zsum (map (fun q => zsum (map (cq q) (seq 0 k))) qs) = Z.of_nat (list_sum (map (proc_nrow G P) (map (@dp_rank NumR) qs)))).
  { clear Hr. induction Ha as [|q qs Hq Ha IH]; cbn [map zsum list_sum fold_right]; [reflexivity|].
    rewrite IH, Nat2Z.inj_add. f_equal. exact (@counts_total (gq q) [] _ Hq). }
  etransitivity; [exact E|]. rewrite Hr, (proc_sum HP). reflexivity.
Qed.

Lemma rsum_const_minus {A} (f h : A -> R) (l : list A) : rsum (map (fun a => f a - h a) l) = rsum (map f l) - rsum (map h l).
Proof. induction l; cbn [map rsum]; lra. Qed.
Lemma zsum_const_minus {A} (f h : A -> Z) (l : list A) : zsum (map (fun a => f a - h a)%Z l) = (zsum (map f l) - zsum (map h l))%Z.
Proof. induction l; cbn [map zsum]; lia. Qed.

Lemma finF_ext F M F' M' j i : F j i = F' j i -> M j = M' j -> finF F M j i = finF F' M' j i.
Proof. intros H1 H2. unfold finF. rewrite H1, H2. reflexivity. Qed.

(** the reduced differences *)
Lemma reduce_vecs (first : bool) (qs ls : list (dproc NumR)) : qs <> [] ->
  Forall2 (fun q l => dp_rank l = dp_rank q /\
    cis k d (dp_cl l) (lsum (gq q) (dq q) first (ps_cells (dp_st q)) (ps_cells (dp_st l)))
       (lcnt (gq q) first (ps_cells (dp_st q)) (ps_cells (dp_st l))) (fun _ => false)) qs ls ->
  vecs k d (reduce_means ls) (reduce_members ls)
    (if first then DS ls else fun j i => DS ls j i - DS qs j i) (if first then DC ls else fun j => DC ls j - DC qs j)%Z.
Proof.
  intros Hne H.
  assert (Hne' : ls <> []) by (destruct H; [congruence|discriminate]).
  assert (Hs : Forall (fun l => shaped k d (dp_cl l)) ls) by (clear - H; induction H as [|q l qs ls (_ & Hc & _) H IH]; constructor; auto).
  assert (L1 : Forall (fun v => @length R v = (k * d)%nat) (map (fun q : dproc NumR => c_means (dp_cl q)) ls)).
  { apply Forall_forall. intros v Hv. apply in_map_iff in Hv as (l & <- & Hl). rewrite Forall_forall in Hs. apply (shaped_means (Hs l Hl)). }
  assert (L2 : Forall (fun v => length v = k) (map (fun q : dproc NumR => c_members (dp_cl q)) ls)).
  { apply Forall_forall. intros v Hv. apply in_map_iff in Hv as (l & <- & Hl). rewrite Forall_forall in Hs. apply (shaped_means (Hs l Hl)). }
  assert (N1 : map (fun q : dproc NumR => c_means (dp_cl q)) ls <> []) by (destruct ls; [congruence|discriminate]).
  assert (N2 : map (fun q : dproc NumR => c_members (dp_cl q)) ls <> []) by (destruct ls; [congruence|discriminate]).
  split; [exact (@allreduce_length R Rplus _ _ N1 L1)|]. split; [exact (allreduce_length Z.add N2 L2)|]. split.
  - intros j i Hj Hi. etransitivity; [apply (@allreduce_nth_R _ _ N1 L1); nia|]. rewrite map_map.
    assert (E : rsum (map (fun q : dproc NumR => nth (j * d + i) (c_means (dp_cl q)) 0) ls) = if first then DS ls j i else DS ls j i - DS qs j i).
    { clear - H Hj Hi. unfold DS. induction H as [|q l qs ls (Hr & Hc) H IH].
      - cbn [map rsum]. destruct first; lra.
      - cbn [map rsum]. rewrite IH. pose proof Hc as (Hs & Hc').
        assert (E : nth (j * d + i) (c_means (dp_cl l)) 0 = lsum (gq q) (dq q) first (ps_cells (dp_st q)) (ps_cells (dp_st l)) j i).
        { etransitivity; [symmetry; exact (nth_crow j Hs Hi)|]. apply Hc'; auto. }
        rewrite E. unfold lsum, sq, XQ, nq, dq. rewrite Hr. unfold gq, proc_cfg. cbn [g_nrow g_ncol]. fold d G. destruct first; lra. }
    etransitivity; [exact E|]. destruct first; reflexivity.
  - intros j Hj. etransitivity; [apply (@allreduce_nth_Z _ _ N2 L2); exact Hj|]. rewrite map_map.
    assert (E : zsum (map (fun q : dproc NumR => nth j (c_members (dp_cl q)) 0%Z) ls) = (if first then DC ls j else DC ls j - DC qs j)%Z).
    { clear - H Hj. unfold DC. induction H as [|q l qs ls (Hr & Hc) H IH].
      - cbn [map zsum]. destruct first; lia.
      - cbn [map zsum]. rewrite IH. pose proof Hc as (Hs & Hc').
        assert (E : nth j (c_members (dp_cl l)) 0%Z = lcnt (gq q) first (ps_cells (dp_st q)) (ps_cells (dp_st l)) j).
        { apply Hc'. exact Hj. }
        rewrite E. unfold lcnt, cq, nq. rewrite Hr. unfold gq, proc_cfg. cbn [g_nrow]. fold G. destruct first; lia. }
    rewrite E. destruct first; reflexivity.
Qed.

Lemma Forall2_map_eq A B C (f : A -> C) (h : B -> C) (R : A -> B -> Prop) l l' : Forall2 R l l' -> (forall a b, R a b -> h b = f a) -> map h l' = map f l.
Proof. intros H HR. induction H; cbn [map]; [reflexivity|]. rewrite IHForall2. f_equal. auto. Qed.

Lemma Forall2_in_r A B (R : A -> B -> Prop) l l' b : Forall2 R l l' -> In b l' -> exists a, In a l /\ R a b.
Proof. intros H Hb. induction H; [contradiction|]. destruct Hb as [->|Hb]; [eexists; split; [left; reflexivity|auto]|]. destruct (IHForall2 Hb) as (a & ? & ?). exists a. split; [right|]; auto. Qed.

Lemma Forall2_trans A B C (R1 : A -> B -> Prop) (R2 : B -> C -> Prop) l1 l2 l3 : Forall2 R1 l1 l2 -> Forall2 R2 l2 l3 -> Forall2 (fun a c => exists b, R1 a b /\ R2 b c) l1 l3.
Proof. intros H. revert l3. induction H; intros l3 H2; inversion_clear H2; constructor; eauto. Qed.

Lemma F2_impl A B (R R' : A -> B -> Prop) l l' : (forall a b, R a b -> R' a b) -> Forall2 R l l' -> Forall2 R' l l'.
Proof. intros H HF. induction HF; constructor; auto. Qed.

Lemma F2_in A B (R : A -> B -> Prop) l l' : Forall2 R l l' -> Forall2 (fun a b => In a l /\ R a b) l l'.
Proof.
  intros HF. induction HF as [|a b l l' H HF IH]; constructor; [split; [left|]; auto|].
  eapply F2_impl; [|exact IH]. cbn beta. intros x y (H1 & H2). split; [right|]; auto.
Qed.

Definition changes (qs qs' : list (dproc NumR)) : nat :=
  list_sum (map (fun qq => list_sum (map chg (triples dcell (ps_cells (dp_st (fst qq))) (ps_cells (dp_st (snd qq))) 0 (nq (fst qq))))) (combine qs qs')).

Lemma step_ok (first : bool) sched qs : dfair sched qs ->
  (if first then dpre qs else dinv qs) ->
  exists qs' nch, dist_step g first sched qs = Ok (qs', nch) /\ dinv qs' /\ Forall2 (dstep1 first) qs qs' /\
    nch = (if first then G else changes qs qs').
Proof.
  intros Hf Hi. unfold dist_step.
  assert (Hr : dranks qs) by (destruct first; apply Hi).
  assert (Hb : Forall dbody qs).
  { destruct first; destruct Hi as (_ & Hi); eapply Forall_impl; try exact Hi; cbn beta; intros q Hq; apply Hq. }
  assert (Hne : qs <> []).
  { intros ->. unfold dranks in Hr. destruct P; [lia|discriminate]. }
  (* local phases *)
  set (Q := fun q l : dproc NumR => dp_rank l = dp_rank q /\ dp_cfg l = dp_cfg q /\ dp_ws l = dp_ws q /\
    psized g (dp_p l) /\ dm_ok k (ps_dm (dp_st l)) /\ assigned (gq q) (ps_cells (dp_st l)) /\ plocals (gq q) (dp_ws q) (dp_st l) /\
    p_prev_means (dp_p l) = c_means (dp_cl q) /\ dp_prev l = c_members (dp_cl q) /\
    cis k d (dp_cl l) (lsum (gq q) (dq q) first (ps_cells (dp_st q)) (ps_cells (dp_st l))) (lcnt (gq q) first (ps_cells (dp_st q)) (ps_cells (dp_st l))) (fun _ => false) /\
    ps_changed (dp_st l) = list_sum (map (if first then one else chg) (triples dcell (ps_cells (dp_st q)) (ps_cells (dp_st l)) 0 (nq q))) /\
    (forall r, (r < nq q)%nat -> first = true \/ (g_dt g = EUCL /\ qbound q r) ->
       exists a, casg (cellat (dp_st l) r) = Some a /\ is_nearest (g_dt g) k (cent (dp_st q)) (XQ q r) a /\
         rdist (g_dt g) (XQ q r) (cent (dp_st q) a) <= cdist (cellat (dp_st l) r))).
  destruct (@mapM_total _ _ (dp_local first sched) Q qs) as (ls & El & Hls).
  { intros q Hq. rewrite Forall_forall in Hb. destruct (Hb q Hq) as (B1 & B2 & B3 & B4 & B5 & B6 & B7).
    destruct (@local_ok (gq q) (dp_ws q) (dq q) B3 (@proc_data_len NumR g P data HP Hdata _ B1) Hk2 first sched q B2 eq_refl (Hf q Hq) B4 B5 B6 B7) as (l & E & H).
    { destruct first; destruct Hi as (_ & Hi); rewrite Forall_forall in Hi; apply Hi; exact Hq. }
    exists l. split; [exact E|exact H]. }
  rewrite El. cbn [bind].
  assert (Hls' : Forall2 (fun q l => dp_rank l = dp_rank q /\
    cis k d (dp_cl l) (lsum (gq q) (dq q) first (ps_cells (dp_st q)) (ps_cells (dp_st l)))
       (lcnt (gq q) first (ps_cells (dp_st q)) (ps_cells (dp_st l))) (fun _ => false)) qs ls).
  { eapply F2_impl; [|exact Hls]. intros q l (H1 & _ & _ & _ & _ & _ & _ & _ & _ & H2 & _). auto. }
  pose proof (reduce_vecs Hne Hls') as Hv.
  assert (Hrl : dranks ls).
  { unfold dranks. rewrite <- Hr. eapply Forall2_map_eq; [exact Hls|]. intros a b Hab. apply Hab. }
  assert (Hgl : Forall (fun q => assigned (gq q) (ps_cells (dp_st q))) ls).
  { apply Forall_forall. intros l Hl. destruct (@Forall2_in_r _ _ _ _ _ _ Hls Hl) as (q & Hq & (H1 & _ & _ & _ & _ & H2 & _)). unfold gq. rewrite H1. exact H2. }
  set (S := DS qs). set (M := DC qs).
  assert (HM' : forall j, (if first then (if first then DC ls else fun j => DC ls j - DC qs j) else fun j => M j + (if first then DC ls else fun j => DC ls j - DC qs j) j)%Z j = DC ls j).
  { intros j. destruct first; [reflexivity|]. unfold M. lia. }
  assert (HS' : forall j i, (if first then (if first then DS ls else fun j i => DS ls j i - DS qs j i) else fun j i => S j i + (if first then DS ls else fun j i => DS ls j i - DS qs j i) j i) j i = DS ls j i).
  { intros j i. destruct first; [reflexivity|]. unfold S. lra. }
  set (Q2 := fun l q' : dproc NumR => dp_rank q' = dp_rank l /\ dp_cfg q' = dp_cfg l /\ dp_ws q' = dp_ws l /\
    ps_cells (dp_st q') = ps_cells (dp_st l) /\ ps_dm (dp_st q') = ps_dm (dp_st l) /\ ps_local (dp_st q') = ps_local (dp_st l) /\
    psized g (dp_p q') /\ cis k d (dp_cl q') (finF (DS ls) (DC ls)) (DC ls) (fun _ => true) /\ drift_of k d (dp_p q') (p_prev_means (dp_p l))).
  destruct (@mapM_total _ _ (dp_finish g first (reduce_means ls) (reduce_members ls)) Q2 ls) as (qs' & Eq & Hqs').
  { intros l Hl. destruct (@Forall2_in_r _ _ _ _ _ _ Hls Hl) as (q & Hq & (H1 & H2 & H3 & H4 & H5 & H6 & H7 & H8 & H9 & H10 & H11 & H12)).
    destruct (@finish_ok g first _ _ _ _ S M l Hv H4 HG) as (q' & E & F1 & F2 & F3 & F4 & F5 & F6 & F7 & F8 & F9).
    - intros j Hj. destruct H10 as (_ & H10). apply H10. exact Hj.
    - intros Hfirst. rewrite Hfirst in Hi. destruct Hi as (_ & Hi). rewrite Forall_forall in Hi. destruct (Hi q Hq) as (_ & _ & Hc).
      split; [|intros j; apply DC_nonneg]. rewrite H8, H9. exact (vecs_cis Hc).
    - intros j _. rewrite HM'. apply DC_nonneg.
    - etransitivity; [|exact (DC_total Hrl Hgl)]. f_equal. apply map_ext. exact HM'.
    - exists q'. split; [exact E|]. unfold Q2. splits; auto.
      eapply cis_ext; [exact F8|..]; auto.
      intros j i _ _. apply finF_ext; [apply HS'|apply HM']. }
  rewrite Eq. cbn [bind].
  assert (Hr' : dranks qs').
  { unfold dranks. rewrite <- Hrl. eapply Forall2_map_eq; [exact Hqs'|]. intros a b Hab. apply Hab. }
  assert (Hq3 : Forall2 (fun l q' : dproc NumR => dp_rank q' = dp_rank l /\ ps_cells (dp_st q') = ps_cells (dp_st l)) ls qs').
  { eapply F2_impl; [|exact Hqs']. intros l q' (H1 & _ & _ & H2 & _). auto. }
  assert (Hl3 : Forall2 (fun q l : dproc NumR => ps_changed (dp_st l) = list_sum (map (if first then one else chg) (triples dcell (ps_cells (dp_st q)) (ps_cells (dp_st l)) 0 (nq q)))) qs ls).
  { eapply F2_impl; [|exact Hls]. intros l q' Hl. apply Hl. }
  assert (EDS : forall j i, DS qs' j i = DS ls j i).
  { intros j i. unfold DS. clear - Hq3. induction Hq3 as [|l q' ls qs' (H1 & H2) H IH]; cbn [map rsum]; [reflexivity|].
    rewrite IH. f_equal. unfold sq, XQ, dq, nq. rewrite H1, H2. reflexivity. }
  assert (EDC : forall j, DC qs' j = DC ls j).
  { intros j. unfold DC. clear - Hq3. induction Hq3 as [|l q' ls qs' (H1 & H2) H IH]; cbn [map zsum]; [reflexivity|].
    rewrite IH. f_equal. unfold cq, nq. rewrite H1, H2. reflexivity. }
  assert (H13 : Forall2 (fun q q' => exists l, Q q l /\ Q2 l q') qs qs') by (eapply Forall2_trans; eauto).
  eexists qs', _. split; [reflexivity|]. splits.
  - split; [exact Hr'|]. apply Forall_forall. intros q' Hq'.
    destruct (@Forall2_in_r _ _ _ _ _ _ H13 Hq') as (q & Hq & (l & (H1 & H2 & H3 & H4 & H5 & H6 & H7 & H8 & H9 & H10 & H11 & H12) & (F1 & F2 & F3 & F4 & F5 & F6 & F7 & F8 & F9))).
    rewrite Forall_forall in Hb. destruct (Hb q Hq) as (B1 & B2 & B3 & B4 & B5 & B6 & B7).
    assert (Er : dp_rank q' = dp_rank q) by congruence.
    split; [|split].
    + unfold dbody, gq, nq, dq. rewrite Er, F3, H3, F4, F5, F2, H2. splits; auto.
      * apply H6.
      * unfold plocals. rewrite F6. apply H7.
    + unfold gq. rewrite Er, F4. exact H6.
    + eapply cis_ext; [exact F8|..]; auto.
      intros j i _ _. apply finF_ext; [symmetry; apply EDS|symmetry; apply EDC].
  - clear Hne El Hls Hls' Hv Hrl Hgl HM' HS' Eq Hqs' Hr' EDS EDC Hr Hq3 Hl3.
    eapply F2_impl; [|exact (F2_in H13)].
    intros q q' (Hin & (l & (H1 & H2 & H3 & H4 & H5 & H6 & H7 & H8 & H9 & H10 & H11 & H12) & (F1 & F2 & F3 & F4 & F5 & F6 & F7 & F8 & F9))).
    rewrite Forall_forall in Hb. destruct (Hb q Hin) as (B1 & B2 & B3 & B4 & B5 & B6 & B7).
    assert (Er : dp_rank q' = dp_rank q) by congruence.
    assert (Ec : forall r, cellat (dp_st q') r = cellat (dp_st l) r) by (intros r; unfold cellat; rewrite F4; reflexivity).
    split; [exact Er|]. split; [congruence|]. split.
    + intros r Hr Hor. destruct (H12 r Hr Hor) as (a & E1 & E2 & _). exists a. rewrite Ec. auto.
    + intros Hdt r Hr Hor. destruct (H12 r Hr) as (a & E1 & E2 & E3); [destruct Hor; auto|].
      exists a. fold (cellat (dp_st q') r). rewrite Ec. split; [exact E1|]. split; [apply E2|].
      change (ps_cltrs (dp_st q')) with (dp_p q'). rewrite (F9 a (proj1 E2)), H8.
      assert (Hs : shaped k d (dp_cl q)) by apply B4. assert (Hs' : shaped k d (dp_cl q')) by apply F7.
      change (cent (dp_st q') a) with (crow (dp_cl q') a). change (p_cl (dp_p q')) with (dp_cl q').
      assert (Ed : dq q' = dq q) by (unfold dq; rewrite Er; reflexivity). rewrite Ed.
      change (row (dq q) (g_ncol (gq q')) r) with (XQ q r).
      assert (L1 : @length R (XQ q r) = d) by (apply (@row_length _ (dq q) d r (nq q)); [exact (@proc_data_len NumR g P data HP Hdata _ B1)|exact Hr]).
      assert (L2 : @length R (crow (dp_cl q) a) = d) by (apply (@crow_len k); [exact Hs|apply E2]).
      assert (L3 : @length R (crow (dp_cl q') a) = d) by (apply (@crow_len k); [exact Hs'|apply E2]).
      rewrite Hdt in E3. cbn [rdist] in E3.
      pose proof (@edist_triangle (XQ q r) (crow (dp_cl q) a) (crow (dp_cl q') a) (eq_trans L1 (eq_sym L2)) (eq_trans L2 (eq_sym L3))) as Htri.
      rewrite (edist_sym (crow (dp_cl q) a)) in Htri.
      assert (Erow : row (c_means (dp_cl q)) d a = crow (dp_cl q) a).
      { unfold crow. destruct Hs as (_ & Sd & _). rewrite Sd. reflexivity. }
      eapply Rle_trans; [exact Htri|]. apply Rplus_le_compat; [exact E3|]. right. apply (f_equal (edist (crow (dp_cl q') a))). symmetry. exact Erow.
  - destruct first.
    + transitivity (list_sum (map (proc_nrow G P) (map (@dp_rank NumR) qs))); [|rewrite Hr; apply (proc_sum HP)].
      clear - Hl3. induction Hl3 as [|q l qs ls H2 H IH]; [reflexivity|].
      cbn [map list_sum fold_right]. unfold list_sum in IH. rewrite IH. f_equal. rewrite H2. unfold triples. rewrite map_map.
      unfold one. clear. assert (Gm : forall m s, list_sum (map (fun _ : nat => 1%nat) (seq s m)) = m).
      { induction m as [|m IHm]; intros s; [reflexivity|]. cbn [seq map list_sum fold_right]. unfold list_sum in IHm. rewrite IHm. reflexivity. }
      apply Gm.
    + unfold changes. clear - Hl3 Hq3. revert qs' Hq3.
      induction Hl3 as [|q l qs ls H2 H IH]; intros qs' Hq3; inversion_clear Hq3 as [|? q' ? ? F Ft]; [reflexivity|].
      cbn [map list_sum fold_right combine]. unfold list_sum in IH. rewrite (IH _ Ft). f_equal.
      rewrite H2. cbn [fst snd]. destruct F as (_ & ->). reflexivity.
Qed.

End Dist.
