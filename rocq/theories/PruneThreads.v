(** Pruned k-means does not depend on the number of threads, the loading path or
    the schedules: every metric, also where pruning is unsound (exact arithmetic,
    equal draws). *)
From Coq Require Import Reals Lra.
From Verif Require Import Base Num DistModel ClustersModel ClustersView PartitionModel ParModel KmeansModel PruneModel MbModel Spec KmeansR KmsppR PropertiesKmeansR InitProofs SimProofs PropertiesRun.
From Verif Require Import MatLemmas VecLemmas ClustersProofs DistProofs PartitionProofs ParProofs NearProofs KmeansProofs UpdateProofs RunProofs ParRule Okab DistMatProofs PruneProofs ClusterSums PruneRound PruneUpdate PruneRun PruneRun2.
From Verif Require MedoidThreads.
From Verif Require Import MbProofs PropertiesPrune PropertiesMb SpecKmspp PropertiesDistSame PropertiesPruneSame MbThreads.
Set Implicit Arguments.
Unset Strict Implicit.
Local Open Scope R_scope.

Section T.
Variables (g : kcfg NumR) (nt : Z) (kind : load_kind) (data : list R) (ws ws' : list (worker NumR)).
Let g' := with_threads g nt kind.
Let n := g_nrow g. Let d := g_ncol g. Let k := g_k g.
Local Notation X := (row data d).
Hypothesis W : @wok NumR n d data ws.
Hypothesis W' : @wok NumR n d data ws'.
Hypothesis Hdata : length data = (n * d)%nat.
Hypothesis Hn32 : (Z.of_nat n < 2 ^ 32)%Z.
Hypothesis Hk2 : (2 <= k)%nat.

(** the parts of two states a round reads *)
Definition psame (a b : pst NumR) : Prop :=
  (forall j, (j < k)%nat -> cent a j = cent b j) /\
  (forall r, (r < n)%nat -> casg (cellat a r) = casg (cellat b r) /\ cdist (cellat a r) = cdist (cellat b r)) /\
  (forall j, (j < k)%nat -> nth j (p_prev_dist (ps_cltrs a)) 0 = nth j (p_prev_dist (ps_cltrs b)) 0) /\
  ps_changed a = ps_changed b.

Definition tsame (m m' : dist_matrix NumR) (p p' : prune_clusters NumR) : Prop :=
  (forall i j, (i < k)%nat -> (j < k)%nat -> dm_get m i j = dm_get m' i j) /\
  (forall j, (j < k)%nat -> crow (p_cl p) j = crow (p_cl p') j) /\
  (forall j, (j < k)%nat -> nth j (p_prev_dist p) 0 = nth j (p_prev_dist p') 0) /\
  (forall j, (j < k)%nat -> nth j (p_s_val p) (nmax NumR) = nth j (p_s_val p') (nmax NumR)).

Lemma table_same a b : ppre g ws a -> ppre g' ws' b -> psame a b ->
  exists m p m' p', compute_dist d (ps_dm a) (ps_cltrs a) = Ok (m, p) /\ compute_dist d (ps_dm b) (ps_cltrs b) = Ok (m', p') /\
    table_ok k d m p /\ table_ok k d m' p' /\ psized g p /\ psized g' p' /\
    p_cl p = p_cl (ps_cltrs a) /\ p_cl p' = p_cl (ps_cltrs b) /\ tsame m m' p p'.
Proof.
  intros (P & Hdm & _) (P' & Hdm' & _) (SC & _ & SP & _). pose proof P as (P1 & P2 & P3 & P4). pose proof P' as (Q1 & Q2 & Q3 & Q4).
  destruct (@compute_dist_R k d (ps_cltrs a) Hk2 P1 P4 (ps_dm a) Hdm) as (m & p & E & Ht & C1 & C2 & C3 & C4 & C5).
  destruct (@compute_dist_R k d (ps_cltrs b) Hk2 Q1 Q4 (ps_dm b) Hdm') as (m' & p' & E' & Ht' & D1 & D2 & D3 & D4 & D5).
  exists m, p, m', p'. pose proof Ht as (T1 & T2 & T3 & T4 & T5). pose proof Ht' as (U1 & U2 & U3 & U4 & U5).
  assert (Hc : forall j, (j < k)%nat -> crow (p_cl p) j = crow (p_cl p') j) by (intros j Hj; rewrite C1, D1; exact (SC j Hj)).
  splits; auto.
  - split; [rewrite C1; exact P1|]. rewrite C2, C3. auto.
  - split; [rewrite D1; exact Q1|]. rewrite D2, D3. auto.
  - split; [|split; [exact Hc|split]].
    + intros i j Hi Hj. rewrite (@dm_get_ok NumR k m i j T1 Hi Hj), (@dm_get_ok NumR k m' i j U1 Hi Hj). destruct (Nat.eqb_spec i j) as [|Hne]; [reflexivity|].
      rewrite (T4 i j Hi Hj Hne), (U4 i j Hi Hj Hne), (Hc i Hi), (Hc j Hj). reflexivity.
    + intros j Hj. rewrite C3, D3. exact (SP j Hj).
    + intros i Hi. specialize (C4 i Hi). specialize (C5 i Hi). specialize (D4 i Hi). specialize (D5 i Hi).
      assert (T5' : forall j, (j < k)%nat -> j <> i -> nth i (p_s_val p) (nmax NumR) <= edist (cent a i) (cent a j) / 2).
      { intros j Hj Hne. pose proof (T5 i j Hi Hj (fun e => Hne (eq_sym e))) as Z. rewrite C1 in Z. exact Z. }
      assert (U5' : forall j, (j < k)%nat -> j <> i -> nth i (p_s_val p') (nmax NumR) <= edist (cent a i) (cent a j) / 2).
      { intros j Hj Hne. pose proof (U5 i j Hi Hj (fun e => Hne (eq_sym e))) as Z. rewrite D1 in Z. rewrite (SC i Hi), (SC j Hj). exact Z. }
      assert (D4' : nth i (p_s_val p') (nmax NumR) = nmax NumR \/ exists j, (j < k)%nat /\ j <> i /\ nth i (p_s_val p') (nmax NumR) = edist (cent a i) (cent a j) / 2).
      { destruct D4 as [D4|(j & Hj & Hne & D4)]; [left; exact D4|]. right. exists j. splits; auto. rewrite (SC i Hi), (SC j Hj). exact D4. }
      clear C1 C2 C3 D1 D2 D3 T4 T5 U4 U5 D4 E E'.
      change (crow (p_cl (ps_cltrs a))) with (cent a) in C4.
      remember (nmax NumR) as M eqn:EM. clear EM. remember (nth i (p_s_val p) M) as v eqn:Ev. remember (nth i (p_s_val p') M) as w eqn:Ew. clear Ev Ew.
      change (car NumR) with R in *. apply Rle_antisym.
      * destruct D4' as [->|(j & Hj & Hne & ->)]; [exact C5|]. exact (T5' j Hj Hne).
      * destruct C4 as [->|(j & Hj & Hne & ->)]; [exact D5|]. exact (U5' j Hj Hne).
Qed.

Lemma prow_same m m' p p' (x x' : ptr R) xv dv o : tsame m m' p p' -> table_ok k d m p -> table_ok k d m' p' -> psized g p -> psized g' p' ->
  slice (fst x) (snd x) d = xv -> slice (fst x') (snd x') d = xv -> @length R xv = d -> (o < k)%nat ->
  @prow_pruned NumR x p m d (g_dt g) dv (Some o) = @prow_pruned NumR x' p' m' d (g_dt g) dv (Some o).
Proof.
  intros (S1 & S2 & S3 & S4) Ht Ht' P P' Hx Hx' Lx Ho.
  destruct (@prow_pruned_any g data Hdata (g_dt g) x xv p m dv o Hx) as (dv1 & a1 & rc1 & E & Ha); auto; try apply P; try apply Ht.
  etransitivity; [exact E|]. symmetry. change (g_ncol g) with d in E. unfold prow_pruned in E |- *.
  assert (L1 : @length R (p_prev_dist p) = k) by apply P. assert (L1' : @length R (p_prev_dist p') = k) by apply P'.
  assert (L2 : @length R (p_s_val p) = k) by apply P. assert (L2' : @length R (p_s_val p') = k) by apply P'.
  rewrite (@aget_nth _ (p_prev_dist p) o 0) in E by (exact (eq_ind_r (fun m => (o < m)%nat) Ho L1)).
  rewrite (@aget_nth _ (p_prev_dist p') o 0) by (exact (eq_ind_r (fun m => (o < m)%nat) Ho L1')). cbn [Base.bind] in *.
  rewrite (@aget_nth _ (p_s_val p) o (nmax NumR)) in E by (exact (eq_ind_r (fun m => (o < m)%nat) Ho L2)).
  rewrite (@aget_nth _ (p_s_val p') o (nmax NumR)) by (exact (eq_ind_r (fun m => (o < m)%nat) Ho L2')). cbn [Base.bind] in *.
  rewrite <- (S3 o Ho), <- (S4 o Ho). destruct (nleb NumR _ _); [exact E|].
  pose proof Ht as (Hm & Hc & _). pose proof Ht' as (Hm' & Hc' & _). pose proof Hc as (Kc & _). pose proof Hc' as (Kc' & _). rewrite Kc in E. rewrite Kc'.
  destruct (@MedoidThreads.loop_rel' (R * nat * bool) (R * nat * bool) _ _ _ _ E (fun _ s s' => s = s' /\ (snd (fst s) < k)%nat) (@prow_turn NumR x' (c_means (p_cl p')) d (g_dt g) m') (nadd NumR dv (nth o (p_prev_dist p) 0), o, false) (conj eq_refl Ho)) as (t' & Et & -> & _); [|exact Et].
  intros i [[dv2 a2] rc2] s' t Hi (<- & Ha2) Et. cbn [fst snd] in Ha2. unfold prow_turn in *.
  rewrite (@dm_get_ok NumR k m a2 i Hm Ha2 Hi) in Et. rewrite <- (S1 a2 i Ha2 Hi). rewrite (@dm_get_ok NumR k m a2 i Hm Ha2 Hi). cbn [Base.bind] in *.
  destruct (nleb NumR _ _); [injection Et as <-; eexists; split; [reflexivity|split; [reflexivity|exact Ha2]]|].
  assert (Ed : (if rc2 then @Ok (car NumR) dv2 else dist_comp_raw NumR x' (c_means (p_cl p'), (a2 * d)%nat) d (g_dt g)) = (if rc2 then @Ok (car NumR) dv2 else dist_comp_raw NumR x (c_means (p_cl p), (a2 * d)%nat) d (g_dt g))).
  { destruct rc2; [reflexivity|]. rewrite (@dist_row k d (g_dt g) x xv (p_cl p) a2 Hx Lx Hc Ha2), (@dist_row k d (g_dt g) x' xv (p_cl p') a2 Hx' Lx Hc' Ha2), (S2 a2 Ha2). reflexivity. }
  rewrite Ed. apply bind_ok in Et as (dv3 & -> & Et). cbn [Base.bind].
  destruct (nleb NumR _ _); [injection Et as <-; eexists; split; [reflexivity|split; [reflexivity|exact Ha2]]|].
  rewrite (@dist_row k d (g_dt g) x xv (p_cl p) i Hx Lx Hc Hi) in Et. rewrite (@dist_row k d (g_dt g) x' xv (p_cl p') i Hx' Lx Hc' Hi), <- (S2 i Hi). cbn [Base.bind] in *.
  destruct (nltb NumR _ _); injection Et as <-; eexists; (split; [reflexivity|split; [reflexivity|]]); [exact Hi|exact Ha2].
Qed.

(** the sizes and means depend on the assignment *)
Definition asg_same (c c' : list cellR) : Prop := forall r, (r < n)%nat -> casg (nth r c dcell) = casg (nth r c' dcell).

Lemma cntF_same c c' j : asg_same c c' -> cntF n c j = cntF n c' j.
Proof. intros H. unfold cntF. f_equal. apply map_ext_in. intros r Hr. apply in_seq in Hr. rewrite (H r (proj2 Hr)). reflexivity. Qed.
Lemma sumF_same c c' j i : asg_same c c' -> sumF X n c j i = sumF X n c' j i.
Proof. intros H. unfold sumF. f_equal. apply map_ext_in. intros r Hr. apply in_seq in Hr. rewrite (H r (proj2 Hr)). reflexivity. Qed.
Lemma meanF_same c c' j i : asg_same c c' -> meanF X n c j i = meanF X n c' j i.
Proof. intros H. unfold meanF. rewrite (cntF_same j H), (@sumF_same c c' j i H). reflexivity. Qed.
Lemma counts_same c c' : asg_same c c' -> map (cntF n c) (seq 0 k) = map (cntF n c') (seq 0 k).
Proof. intros H. apply map_ext. intros j. apply cntF_same. exact H. Qed.
Lemma chg_same c0 c1 c0' c1' : asg_same c0 c0' -> asg_same c1 c1' -> list_sum (map chg (triples dcell c0 c1 0 n)) = list_sum (map chg (triples dcell c0' c1' 0 n)).
Proof.
  intros H0 H1. f_equal. unfold triples. rewrite !map_map. apply map_ext_in. intros r Hr. apply in_seq in Hr. unfold chg. cbn [fst snd].
  rewrite (H0 r (proj2 Hr)), (H1 r (proj2 Hr)). reflexivity.
Qed.
Lemma means_same p p' c c' : means_of g data p c -> means_of g' data p' c' -> asg_same c c' -> forall j, (j < k)%nat -> crow (p_cl p) j = crow (p_cl p') j.
Proof.
  intros H H' S j Hj. unfold means_of in *. etransitivity; [exact (@cis_vec k d _ _ _ _ j H Hj)|]. etransitivity; [|symmetry; exact (@cis_vec k d _ _ _ _ j H' Hj)].
  apply map_ext. intros i. apply (@meanF_same c c' j i S).
Qed.
Lemma drift_same p p' pm pm' : (forall j, (j < k)%nat -> crow (p_cl p) j = crow (p_cl p') j) -> (forall j, (j < k)%nat -> row pm d j = row pm' d j) ->
  drift_of k d p pm -> drift_of k d p' pm' -> forall j, (j < k)%nat -> nth j (p_prev_dist p) 0 = nth j (p_prev_dist p') 0.
Proof. intros H H' D D' j Hj. etransitivity; [exact (D j Hj)|]. etransitivity; [|symmetry; exact (D' j Hj)]. rewrite (H j Hj), (H' j Hj). reflexivity. Qed.

Lemma iter_threads s1 s2 a b : complete (w_ranges ws) s1 -> complete (w_ranges ws') s2 -> pinv g ws data a -> pinv g' ws' data b -> psame a b ->
  exists a' b', prune_iterate g ws s1 a = Ok a' /\ prune_iterate g' ws' s2 b = Ok b' /\ pinv g ws data a' /\ pinv g' ws' data b' /\ psame a' b'.
Proof.
  intros C1 C2 Ia Ib S. pose proof S as (SC & SA & SP & SN).
  destruct (table_same (pinv_pre Ia) (pinv_pre Ib) S) as (m & p & m' & p' & E1 & E2 & T & T' & P & P' & Ec & Ec' & TS).
  pose proof Ia as (A1 & A2 & A3 & A4 & (A5 & A5') & (A6 & A7)). pose proof Ib as (B1 & B2 & B3 & B4 & (B5 & B5') & (B6 & B7)).
  change (g_nrow g') with n in *. change (g_ncol g') with d in *. change (g_k g') with k in *.
  unfold prune_iterate. change (g_ncol g') with d. fold d. rewrite E1, E2. cbn [Base.bind fst snd].
  destruct (@pruned_round_gen g ws data W Hdata (fun r dv a1 => exists o x rc, casg (cellat a r) = Some o /\ (o < k)%nat /\ slice (fst x) (snd x) d = X r /\ @prow_pruned NumR x p m d (g_dt g) (cdist (cellat a r)) (Some o) = Ok (dv, a1, rc)) p m s1 (ps_local a) (PruneModel.ps_cells a))
    as (la & ca & Ea & F1 & F2 & F3 & F4); auto.
  { apply P. }
  { intros r x Hr Hx. destruct (A5' r Hr) as (o & Eo & Ho). exists o. splits; auto.
    destruct (@prow_pruned_any g data Hdata (g_dt g) x (X r) p m (cdist (cellat a r)) o Hx) as (dv1 & a1 & rc1 & E & Hlt); auto; try apply P; try apply T.
    { apply (@X_len g data Hdata r Hr). }
    exists dv1, a1, rc1. splits; auto. exists o, x, rc1. splits; auto. }
  destruct (@pruned_round_gen g' ws' data W' Hdata (fun r dv a1 => exists o x rc, casg (cellat b r) = Some o /\ (o < k)%nat /\ slice (fst x) (snd x) d = X r /\ @prow_pruned NumR x p' m' d (g_dt g) (cdist (cellat b r)) (Some o) = Ok (dv, a1, rc)) p' m' s2 (ps_local b) (PruneModel.ps_cells b))
    as (lb & cb & Eb & G1 & G2 & G3 & G4); auto.
  { apply P'. }
  { intros r x Hr Hx. destruct (B5' r Hr) as (o & Eo & Ho). exists o. splits; auto.
    destruct (@prow_pruned_any g' data Hdata (g_dt g) x (X r) p' m' (cdist (cellat b r)) o Hx) as (dv1 & a1 & rc1 & E & Hlt); auto; try apply P'; try apply T'.
    { apply (@X_len g data Hdata r Hr). }
    exists dv1, a1, rc1. splits; auto. exists o, x, rc1. splits; auto. }
  rewrite Ea, Eb. cbn [Base.bind fst snd].
  assert (SA' : forall r, (r < n)%nat -> casg (nth r ca dcell) = casg (nth r cb dcell) /\ cdist (nth r ca dcell) = cdist (nth r cb dcell)).
  { intros r Hr. destruct (F3 r Hr) as (a1 & Y1 & _ & o & x & rc & Y2 & Ho & Hx & Y3). destruct (G3 r Hr) as (b1 & Z1 & _ & o' & x' & rc' & Z2 & Ho' & Hx' & Z3).
    destruct (SA r Hr) as (X1 & X2). assert (Q := eq_trans (eq_sym Y2) (eq_trans X1 Z2)). injection Q as <-.
    rewrite X2 in Y3. rewrite (@prow_same m m' p p' x x' (X r) _ o TS T T' P P' Hx Hx' (@X_len g data Hdata r Hr) Ho) in Y3.
    assert (Q := eq_trans (eq_sym Y3) Z3). injection Q as Q1 Q2 _. split; [rewrite Y1, Z1, Q2; reflexivity|exact Q1]. }
  set (u := mkPst p m ca (ps_counts a) (ps_changed a) la). set (v := mkPst p' m' cb (ps_counts b) (ps_changed b) lb).
  assert (Hla : locals_hold g ws data wdel chg (PruneModel.ps_cells a) ca la) by (split; auto).
  assert (Hlb : locals_hold g' ws' data wdel chg (PruneModel.ps_cells b) cb lb) by (split; auto).
  assert (Asa : assigned g ca). { split; auto. intros r Hr. destruct (F3 r Hr) as (a1 & ? & ? & _). eauto. }
  assert (Asb : assigned g' cb). { split; auto. intros r Hr. destruct (G3 r Hr) as (a1 & ? & ? & _). eauto. }
  destruct (@update_next g ws data W Hn32 u (PruneModel.ps_cells a)) as (pa & U1 & U2 & U3 & U4 & U5); auto.
  { unfold u, means_of. cbn [ps_cltrs]. rewrite Ec. exact A2. }
  { unfold u. cbn [ps_counts]. rewrite A4, map_length, seq_length. reflexivity. }
  destruct (@update_next g' ws' data W' Hn32 v (PruneModel.ps_cells b)) as (pb & V1 & V2 & V3 & V4 & V5); auto.
  { unfold v, means_of. cbn [ps_cltrs]. rewrite Ec'. exact B2. }
  { unfold v. cbn [ps_counts]. rewrite B4, map_length, seq_length. reflexivity. }
  rewrite U1, V1. eexists. eexists. split; [reflexivity|]. split; [reflexivity|].
  unfold u, v in *. cbn [PruneModel.ps_cells ps_dm ps_local ps_changed ps_cltrs ps_counts] in *.
  split; [|split].
  - unfold pinv. cbn [PruneModel.ps_cells ps_dm ps_local ps_changed ps_cltrs ps_counts]. splits; auto; [apply T|exact (locals_after Hdata Hk2 Hla)].
  - unfold pinv. cbn [PruneModel.ps_cells ps_dm ps_local ps_changed ps_cltrs ps_counts]. splits; auto; [apply T'|exact (locals_after Hdata Hk2 Hlb)].
  - assert (Sc : asg_same ca cb) by (intros r Hr; apply (SA' r Hr)).
    assert (Hm : forall j, (j < k)%nat -> crow (p_cl pa) j = crow (p_cl pb) j) by exact (means_same U3 V3 Sc).
    unfold psame, cent, cellat. cbn [PruneModel.ps_cells ps_dm ps_local ps_changed ps_cltrs ps_counts]. splits; auto.
    + apply (drift_same (pm := c_means (p_cl p)) (pm' := c_means (p_cl p')) Hm); [|exact U5|exact V5].
      intros j Hj. pose proof (SC j Hj) as Z. unfold cent, crow in Z. rewrite Ec, Ec'. destruct A1 as ((_ & Sd & _) & _). destruct B1 as ((_ & Sd' & _) & _). rewrite Sd in Z. rewrite Sd' in Z. exact Z.
    + rewrite SN. f_equal. apply chg_same; [|exact Sc]. intros r Hr. apply (SA r Hr).
Qed.

End T.

(** the first pass, with the sums the workers hold *)
Section Pass.
Variables (g : kcfg NumR) (ws : list (worker NumR)) (data : list R).
Let n := g_nrow g. Let d := g_ncol g. Let k := g_k g.
Local Notation X := (row data d).
Hypothesis Hws : @wok NumR n d data ws.
Hypothesis Hdata : length data = (n * d)%nat.
Hypothesis Hk1 : (1 <= k)%nat.

Lemma first_round (p : prune_clusters NumR) dm sched locals (cells : list (pcell NumR)) :
  shaped k d (p_cl p) -> complete (w_ranges ws) sched -> length cells = n -> length locals = length ws ->
  Forall (fun l => shaped k d (fst l)) locals -> Forall (idok k) (asg_of cells) ->
  okab (pEM_round g ws p dm true sched locals cells)
    (fun lc => length (snd lc) = n /\ length (fst lc) = length ws /\
       (forall r, (r < n)%nat -> nth r (snd lc) dcell = fcell g data (crow (p_cl p)) r (nth r cells dcell) /\
          exists a, casg (nth r (snd lc) dcell) = Some a /\ (a < k)%nat) /\
       forall t s m l, nth_error (w_ranges ws) t = Some (s, m) -> nth_error (fst lc) t = Some l ->
         holds k d X wnew one l (triples dcell cells (snd lc) s m))
    (exists r, (r < n)%nat /\ casg (fcell g data (crow (p_cl p)) r (nth r cells dcell)) = None).
Proof.
  intros Hp Hc Lc Ll Hsh Hid. unfold pEM_round.
  destruct (@round_start g ws locals Ll Hsh) as (L0 & H0).
  set (Q := fun t : nat * pcell NumR * pcell NumR => snd t = fcell g data (crow (p_cl p)) (fst (fst t)) (snd (fst t)) /\ exists a, casg (snd t) = Some a /\ (a < k)%nat).
  assert (Ht : ntiles 0 (length cells) (w_ranges ws)) by (rewrite Lc; apply Hws).
  eapply okab_mono.
  { apply (@par_run_okab _ _ dcell (pEM_row g ws p dm true) (w_ranges ws) cells _ Ht L0 (fun t l tr => holds k d X wnew one l tr /\ Forall Q tr) _).
    - intros t l0 E. destruct (H0 t l0 E) as (A & B). split; [apply holds_nil; auto|constructor].
    - intros t s m r l tr Er Hr Hb Htr (Hl & HQ).
      destruct (@mb_range_worker ws t s m Er) as (w & Ew & <- & <-).
      unfold pEM_row. destruct (nth (w_start w + r) cells dcell) as [[dv old] rc] eqn:Ecell.
      unfold aget. rewrite Ew. cbn [Base.bind].
      assert (Hrow : slice (fst (wrow w d r)) (snd (wrow w d r)) d = row data d (w_start w + r)).
      { apply Hws; [eapply nth_error_In; eauto|exact Hr]. }
      assert (Lx : length (row data d (w_start w + r)) = d) by (apply (@mb_X_len g data Hdata); fold n; lia).
      pose proof (@prow_scan g data Hdata Hk1 (wrow w d r) _ (p_cl p) dv old Hrow Lx Hp) as E1. pose proof Hp as (Hk' & _). unfold k in Hk'.
      unfold d in E1. rewrite Hk'.
      remember (mscan g (crow (p_cl p)) (row data d (w_start w + r)) dv old) as M eqn:EM.
      assert (E1' : prow_init NumR (wrow w (g_ncol g) r) (c_means (p_cl p)) (g_ncol g) (g_k g) (g_dt g) dv old = Ok M) by (rewrite EM; exact E1).
      rewrite E1'. cbn [Base.bind fst snd]. clear E1 E1'.
      assert (Ef : fcell g data (crow (p_cl p)) (w_start w + r) (dv, old, rc) = (fst M, snd M, rc)) by (rewrite EM; reflexivity).
      assert (Hio : idok k (snd M)).
      { rewrite EM. apply (@mscan_id g data Hdata Hk1). rewrite Forall_forall in Hid. apply Hid. unfold asg_of. apply in_map_iff. exists (dv, old, rc). split; [reflexivity|]. rewrite <- Ecell. apply nth_In. exact Hb. }
      clear EM. destruct M as [dv' [a|]]; cbn [fst snd] in *.
      2:{ cbn [okab]. split; [reflexivity|]. exists (w_start w + r)%nat. split; [rewrite <- Lc; exact Hb|]. rewrite Ecell, Ef. reflexivity. }
      cbn [idok] in Hio. unfold k in Hio. pose proof Hio as Hio'. apply Nat.ltb_lt in Hio'. rewrite Hio'. cbn [assert_ Base.bind].
      destruct Hl as (Hl1 & Hl2).
      destruct (cis_add (wrow w d r) Hl1 Hio Lx Hrow) as (lc & E2 & Hlc). unfold d in E2. rewrite E2. cbn [Base.bind okab fst snd].
      split.
      + eapply holds_snoc; [split; [exact Hl1|exact Hl2]| |unfold one; lia].
        eapply cis_ext; [exact Hlc|..]; auto.
        * intros j i Hj Hi. unfold wnew, casg. cbn [fst snd]. unfold ind. cbn [id_eqb]. rewrite Nat.eqb_sym.
          match goal with |- ?a + (if _ then ?u else _) = ?b + _ * ?v => change v with u; generalize u as z; change b with a; generalize a as y end.
          intros y z. destruct (a =? j)%nat; lra.
        * intros j Hj. unfold wnew, casg. cbn [fst snd]. unfold ind. cbn [id_eqb]. rewrite Nat.eqb_sym. destruct (a =? j)%nat; lia.
      + apply Forall_app. split; [exact HQ|]. constructor; [|constructor]. unfold Q. cbn [fst snd]. rewrite Ef. split; [reflexivity|]. exists a. split; [reflexivity|exact Hio].
    - exact Hc. }
  intros [locs cells'] (Lo & Lc' & H). cbn [fst snd] in *. split; [congruence|]. split; [rewrite Lo; unfold w_ranges; apply map_length|]. split.
  - intros r Hr. pose proof (@rule_rows _ dcell cells cells' (w_ranges ws) Q Ht) as HR.
    apply HR; [|lia]. intros t s m Er. destruct (H t s m Er) as (l & _ & _ & HQ). exact HQ.
  - intros t s m l Er El. destruct (H t s m Er) as (l' & El' & Hh & _).
    assert (Z := eq_trans (eq_sym El) El'). injection Z as <-. exact Hh.
Qed.
End Pass.

(** ** The runs *)
Section Runs.
Variables (g : kcfg NumR) (nt : Z) (kind : load_kind) (data : list R) (ws ws' : list (worker NumR)).
Let g' := with_threads g nt kind.
Let n := g_nrow g. Let d := g_ncol g. Let k := g_k g.
Hypothesis W : @wok NumR n d data ws.
Hypothesis W' : @wok NumR n d data ws'.
Hypothesis Hdata : length data = (n * d)%nat.
Hypothesis Hn32 : (Z.of_nat n < 2 ^ 32)%Z.
Hypothesis Hk2 : (2 <= k)%nat.

Lemma first_threads s1 s2 a b a' : complete (w_ranges ws) s1 -> complete (w_ranges ws') s2 -> mbinv g ws a -> mbinv g' ws' b -> mbsame g a b ->
  (forall j, (j < k)%nat -> row (p_prev_means (ps_cltrs a)) d j = row (p_prev_means (ps_cltrs b)) d j) ->
  prune_first g ws s1 a = Ok a' ->
  exists b', prune_first g' ws' s2 b = Ok b' /\ pinv g ws data a' /\ pinv g' ws' data b' /\ psame g a' b'.
Proof.
  intros C1 C2 (Pa & Ia) (Pb & Ib) (SC & SA) SM E. assert (Hk1 : (1 <= k)%nat) by lia.
  pose proof Pa as (P & A2 & A3 & A4 & (A5 & A6)). pose proof Pb as (Q & B2 & B3 & B4 & (B5 & B6)). pose proof P as (P1 & _). pose proof Q as (Q1 & _).
  unfold prune_first in E |- *. apply bind_ok in E as ([la ca] & Ea & E). cbn [fst snd] in E.
  pose proof (@first_round g ws data W Hdata Hk1 (ps_cltrs a) (ps_dm a) s1 (ps_local a) (PruneModel.ps_cells a) P1 C1 A4 A5 A6 Ia) as F. rewrite Ea in F. cbn [okab fst snd] in F.
  destruct F as (F1 & F2 & F3 & F4).
  pose proof (@first_round g' ws' data W' Hdata Hk1 (ps_cltrs b) (ps_dm b) s2 (ps_local b) (PruneModel.ps_cells b) Q1 C2 B4 B5 B6 Ib) as G.
  assert (EC : forall r, (r < n)%nat -> casg (fcell g data (crow (p_cl (ps_cltrs a))) r (cellat a r)) = casg (fcell g' data (crow (p_cl (ps_cltrs b))) r (cellat b r)) /\
     cdist (fcell g data (crow (p_cl (ps_cltrs a))) r (cellat a r)) = cdist (fcell g' data (crow (p_cl (ps_cltrs b))) r (cellat b r))).
  { intros r Hr. destruct (SA r Hr) as (E1 & E2).
    assert (EM : mscan g (cent a) (row data (g_ncol g) r) (cdist (cellat a r)) (casg (cellat a r)) = mscan g (cent b) (row data (g_ncol g) r) (cdist (cellat b r)) (casg (cellat b r))).
    { rewrite E1, E2. eapply mscan_ext; first [exact Hdata|exact Hk1|exact SC|idtac]. }
    split; [exact (f_equal snd EM)|exact (f_equal fst EM)]. }
  destruct (pEM_round g' ws' _ _ _ _ _ _) as [[lb cb]|e]; cbn [okab fst snd] in G.
  2:{ exfalso. destruct G as (_ & r & Hr & Hno). destruct (F3 r Hr) as (F3a & x & Ex & _). rewrite F3a in Ex.
      pose proof (eq_trans (eq_sym Ex) (eq_trans (proj1 (EC r Hr)) Hno)) as Z. discriminate Z. }
  destruct G as (G1 & G2 & G3 & G4). cbn [Base.bind fst snd].
  assert (SA' : forall r, (r < n)%nat -> casg (nth r ca dcell) = casg (nth r cb dcell) /\ cdist (nth r ca dcell) = cdist (nth r cb dcell)).
  { intros r Hr. destruct (F3 r Hr) as (-> & _). destruct (G3 r Hr) as (-> & _). exact (EC r Hr). }
  set (u := mkPst (ps_cltrs a) (ps_dm a) ca (ps_counts a) (ps_changed a) la) in *. set (v := mkPst (ps_cltrs b) (ps_dm b) cb (ps_counts b) (ps_changed b) lb).
  assert (Hla : locals_hold g ws data wnew one (PruneModel.ps_cells a) ca la) by (split; auto).
  assert (Hlb : locals_hold g' ws' data wnew one (PruneModel.ps_cells b) cb lb) by (split; auto).
  assert (Asa : assigned g ca) by (split; [exact F1|]; intros r Hr; apply (F3 r Hr)).
  assert (Asb : assigned g' cb) by (split; [exact G1|]; intros r Hr; apply (G3 r Hr)).
  destruct (@update_init g ws data W Hn32 u (PruneModel.ps_cells a)) as (pa & cha & U1 & U2 & U3 & U4 & U5); auto.
  destruct (@update_init g' ws' data W' Hn32 v (PruneModel.ps_cells b)) as (pb & chb & V1 & V2 & V3 & V4 & V5); auto.
  rewrite U1 in E. cbn [Base.bind] in E. injection E as <-. rewrite V1. cbn [Base.bind].
  eexists. split; [reflexivity|]. unfold u, v, with_changed in *. cbn [PruneModel.ps_cells ps_dm ps_local ps_changed ps_cltrs ps_counts] in *.
  split; [|split].
  - unfold pinv. cbn [PruneModel.ps_cells ps_dm ps_local ps_changed ps_cltrs ps_counts]. splits; auto. exact (locals_after Hdata Hk2 Hla).
  - unfold pinv. cbn [PruneModel.ps_cells ps_dm ps_local ps_changed ps_cltrs ps_counts]. splits; auto. exact (locals_after Hdata Hk2 Hlb).
  - assert (Sc : asg_same g ca cb) by (intros r Hr; apply (SA' r Hr)).
    assert (Hm : forall j, (j < k)%nat -> crow (p_cl pa) j = crow (p_cl pb) j) by exact (@means_same g nt kind data pa pb ca cb U3 V3 Sc).
    unfold psame, cent, cellat. cbn [PruneModel.ps_cells ps_dm ps_local ps_changed ps_cltrs ps_counts]. splits; auto.
    exact (@drift_same g pa pb _ _ Hm SM U5 V5).
Qed.

Lemma changed_same a b : psame g a b -> pinv g ws data a -> pinv g' ws' data b -> psame g (with_changed a 0) (with_changed b 0) /\ pinv g ws data (with_changed a 0) /\ pinv g' ws' data (with_changed b 0).
Proof. intros (S1 & S2 & S3 & S4) Ia Ib. split; [split; [exact S1|split; [exact S2|split; [exact S3|reflexivity]]]|]. split; [exact Ia|exact Ib]. Qed.

Lemma prune_loop_threads s1 s2 : (forall i, complete (w_ranges ws) (s1 i)) -> (forall i, complete (w_ranges ws') (s2 i)) ->
  forall m i a b ta tb it cv a' ta', pinv g ws data a -> pinv g' ws' data b -> psame g a b ->
  prune_loop g ws s1 m i a ta = Ok (it, cv, a', ta') ->
  exists b' tb', prune_loop g' ws' s2 m i b tb = Ok (it, cv, b', tb') /\ pinv g ws data a' /\ pinv g' ws' data b' /\ psame g a' b'.
Proof.
  intros C1 C2. induction m as [|m IH]; intros i a b ta tb it cv a' ta' Ia Ib S E; cbn [prune_loop] in *.
  - injection E as <- <- <- <-. exists b, tb. auto.
  - destruct (@iter_threads g nt kind data ws ws' W W' Hdata Hn32 Hk2 (s1 i) (s2 i) a b (C1 i) (C2 i) Ia Ib S) as (a1 & b1 & E1 & E2 & Ia1 & Ib1 & S1).
    rewrite E1 in E. fold g' in E2. rewrite E2. cbn [Base.bind] in *. pose proof S1 as (_ & _ & _ & Ec).
    change (stop_test g' (ps_changed b1)) with (stop_test g (ps_changed b1)). rewrite <- Ec. destruct (stop_test g (ps_changed a1)).
    + injection E as <- <- <- <-. exists b1, (tb ++ [b1]). auto.
    + destruct (changed_same S1 Ia1 Ib1) as (S1' & Ia1' & Ib1'). apply (IH (Datatypes.S i) _ _ _ (tb ++ [b1]) it cv a' ta' Ia1' Ib1' S1' E).
Qed.

Lemma final_same a b : pinv g ws data a -> pinv g' ws' data b -> psame g a b ->
  asg_of (PruneModel.ps_cells a) = asg_of (PruneModel.ps_cells b) /\ ps_counts a = ps_counts b /\ c_means (p_cl (ps_cltrs a)) = c_means (p_cl (ps_cltrs b)).
Proof.
  intros Ia Ib (S1 & S2 & _). assert (Sm : mbsame g a b) by (split; assumption). splits.
  - apply (@asg_list g a b); [apply (pinv_pre Ia)|apply (pinv_pre Ib)|exact Sm].
  - pose proof Ia as (_ & _ & _ & -> & _). pose proof Ib as (_ & _ & _ & -> & _). apply (@counts_same g). intros r Hr. apply (S2 r Hr).
  - exact (@means_list g nt kind ws ws' a b (pinv_pre Ia) (pinv_pre Ib) Sm).
Qed.
End Runs.

(** pruned runs with different numbers of threads, loading paths and schedules *)
Theorem C131_pruned : forall (g : kcfg NumR) nt kind centers it (data : list R) (dr dr' : draws NumR) scheds scheds' rr,
  let g' := with_threads g nt kind in
  prune_args g data centers it dr scheds -> prune_args g' data centers it dr' scheds' ->
  d_int dr' = d_int dr -> d_real dr' = d_real dr ->
  prune_run g centers it data dr scheds = Ok rr ->
  exists rr', prune_run g' centers it data dr' scheds' = Ok rr' /\ pr_out rr' = pr_out rr /\ pr_converged rr' = pr_converged rr.
Proof.
  intros g nt kind centers it data dr dr' scheds scheds' rr g' A A' Ei Er E.
  destruct (@mb_run_R g 1%Z centers it data dr (fun _ _ => 0) scheds A) as (ws & s & s0 & Ew & W & Es & E0 & I0 & _ & _).
  destruct (@mb_run_R g' 1%Z centers it data dr' (fun _ _ => 0) scheds' A') as (ws' & s' & s0' & Ew' & W' & Es' & E0' & I0' & _ & _).
  change (g_nrow g') with (g_nrow g) in W'. change (g_ncol g') with (g_ncol g) in W'.
  pose proof A as (Hk2 & (V & Hk & Hco & D) & _ & F). pose proof A' as (_ & (V' & _ & _ & D') & _ & F').
  assert (Hdata : length data = (g_nrow g * g_ncol g)%nat) by apply V. assert (Hn32 : (Z.of_nat (g_nrow g) < 2 ^ 32)%Z) by apply V.
  assert (Ecell : cells_same s0 s0' /\ ps_counts s0 = ps_counts s0').
  { apply (@init_threads g nt kind data ws ws' V V' W W' centers it dr dr' s s' s0 s0' Hk2 Hco D); auto.
    intros ->. split; [exact (proj2 D ws Ew)|exact (proj2 D' ws' Ew')]. }
  destruct Ecell as (Ecell & Ecnt).
  assert (Sm : mbsame g s0 s0').
  { split.
    - intros j Hj. rewrite <- (@pcentroid_cent g s0 j) by apply I0. rewrite <- (@pcentroid_cent g' s0' j) by apply I0'.
      rewrite (@prune_init_start g data centers it dr scheds ws s s0 A Ew Es E0 j Hj).
      change (g_ncol g) with (g_ncol g'). rewrite (@prune_init_start g' data centers it dr' scheds' ws' s' s0' A' Ew' Es' E0' j Hj).
      rewrite Ei, Er. apply start_same. repeat split.
    - apply (@cells_same_at g s0 s0' Ecell); [apply I0|apply I0']. }
  assert (Epm : p_prev_means (ps_cltrs s0) = p_prev_means (ps_cltrs s0')).
  { assert (G : forall (h : kcfg NumR) w e x y, prune_run_init h it w data e x = Ok y -> p_prev_means (ps_cltrs y) = p_prev_means (ps_cltrs x)).
    { clear. intros h w e x y E. unfold prune_run_init in E. destruct it; cbn [run_init] in E.
      - apply bind_ok in E as (z & _ & E). injection E as <-. reflexivity.
      - apply bind_ok in E as (z & _ & E). injection E as <-. reflexivity.
      - apply bind_ok in E as ([[[z1 z2] z3] z4] & _ & E). injection E as <-. reflexivity.
      - apply bind_ok in E as (z & _ & E). injection E as <-. reflexivity. }
    rewrite (G _ _ _ _ _ E0), (G _ _ _ _ _ E0'). destruct (@create_threads g nt kind centers it s Es) as (l & F3).
    assert (Q := eq_trans (eq_sym Es') F3). injection Q as ->. reflexivity. }
  unfold prune_run in E |- *.
  apply bind_ok in E as (t1 & Y1 & E). assert (Q := eq_trans (eq_sym Y1) Es). injection Q as ->.
  apply bind_ok in E as (t2 & Y2 & E). assert (Q := eq_trans (eq_sym Y2) Ew). injection Q as ->.
  apply bind_ok in E as (t3 & Y3 & E). assert (Q := eq_trans (eq_sym Y3) E0). injection Q as ->. clear Y1 Y2 Y3.
  rewrite Es'. cbn [Base.bind]. rewrite Ew'. cbn [Base.bind]. rewrite E0'. cbn [Base.bind].
  change (g_max_iters g') with (g_max_iters g). destruct (0 <? g_max_iters g)%nat.
  - apply bind_ok in E as (a1 & E1 & E). apply bind_ok in E as ([[[iter cv] af] tr] & E2 & E). injection E as <-.
    destruct (@first_threads g nt kind data ws ws' W W' Hdata Hn32 Hk2 (scheds 1%nat) (scheds' 1%nat) s0 s0' a1 (F ws Ew 1%nat) (F' ws' Ew' 1%nat) I0 I0' Sm) as (b1 & G1 & Ia1 & Ib1 & S1); auto.
    { intros j _. rewrite Epm. reflexivity. }
    fold g' in G1. rewrite G1. cbn [Base.bind].
    destruct (@prune_loop_threads g nt kind data ws ws' W W' Hdata Hn32 Hk2 scheds scheds' (F ws Ew) (F' ws' Ew') _ _ _ _ _ [b1] _ _ _ _ Ia1 Ib1 S1 E2) as (bf & tb & G2 & Iaf & Ibf & Sf).
    fold g' in G2. rewrite G2. cbn [Base.bind]. eexists. split; [reflexivity|]. cbn [pr_out pr_converged]. split; [|reflexivity].
    destruct (@final_same g nt kind data ws ws' af bf Iaf Ibf Sf) as (X1 & X2 & X3). rewrite X1, X2, X3. reflexivity.
  - apply bind_ok in E as (cn & E1 & E). injection E as <-.
    assert (X1 : asg_of (PruneModel.ps_cells s0) = asg_of (PruneModel.ps_cells s0')) by (apply (@asg_list g s0 s0'); [apply I0|apply I0'|exact Sm]).
    assert (X3 := @means_list g nt kind ws ws' s0 s0' (proj1 I0) (proj1 I0') Sm).
    assert (Et : match it with PLUSPLUS => tally (PruneModel.ps_cells s0') (ps_counts s0') | _ => Ok (ps_counts s0') end = Ok cn).
    { rewrite <- E1, <- Ecnt. unfold tally. rewrite X1. reflexivity. }
    rewrite Et. cbn [Base.bind]. eexists. split; [reflexivity|]. cbn [pr_out pr_converged]. rewrite X1, X3. split; reflexivity.
Qed.
Print Assumptions C131_pruned.
