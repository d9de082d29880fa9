(** K-medoids does not depend on the number of threads nor on how the data were
    loaded (exact arithmetic). *)
From Coq Require Import Reals Lra.
From Verif Require Import Base Num Spec DistModel ClustersModel ClustersView ClustersProofs MatLemmas VecLemmas
  PartitionModel ParModel KmeansModel ParProofs NearProofs KmeansProofs UpdateProofs RunProofs InitProofs DistProofs SimProofs PropertiesRun.
From Verif Require Import ParRule Okab MedoidModel MedoidProofs MedoidStep MedoidRun PropertiesMedoid PropertiesMedoidR XmeansThreads.
Set Implicit Arguments.
Unset Strict Implicit.

(** copying from two addresses that hold the same values *)
Lemma copy_to_same {A} (p q : ptr A) n dst off : slice (fst p) (snd p) n = slice (fst q) (snd q) n -> length (slice (fst p) (snd p) n) = n ->
  copy_to p n dst off = copy_to q n dst off.
Proof.
  intros E L. unfold copy_to, loop. apply for_ext. intros j s Hj.
  destruct (nth_error (slice (fst p) (snd p) n) j) as [x|] eqn:Ex; [|apply nth_error_None in Ex; lia].
  rewrite (proj2 (pget_ok p j x) (@slice_nth_error _ _ _ _ _ _ _ eq_refl Ex)). rewrite E in Ex.
  rewrite (proj2 (pget_ok q j x) (@slice_nth_error _ _ _ _ _ _ _ eq_refl Ex)). reflexivity.
Qed.

(** ** The medoid step *)
Section Med.
Variables (g : kcfg NumR) (ws : list (worker NumR)) (data : list R).
Let n := g_nrow g. Let d := g_ncol g. Let k := g_k g.
Hypothesis V : @valid_input NumR g data.
Hypothesis W : @wok NumR (g_nrow g) (g_ncol g) data ws.
Variable smp : nat -> bool.
Variable A : list nat.
Hypothesis LA : length A = n.
Hypothesis HA : forall r, (r < n)%nat -> (nth r A 0 < k)%nat.

(** one row looked at, for cluster [c] *)
Definition upd1 (c : nat) (b : option nat * R) (r : nat) : option nat * R :=
  if smp r && (nth r A 0 =? c)%nat && Rltb (rcost g data A r) (snd b) then (Some r, rcost g data A r) else b.
Definition best1 (c : nat) (l : list nat) (b : option nat * R) : option nat * R := fold_left (upd1 c) l b.
Definition b0 : option nat * R := (None, nmax NumR).

Lemma best1_merge c (b : option nat * R) : (snd b <= nmax NumR)%R -> forall l,
  best1 c l b = if Rltb (snd (best1 c l b0)) (snd b) then best1 c l b0 else b.
Proof.
  intros Hb l. induction l as [|r l IH] using rev_ind.
  - cbn [best1 fold_left b0 snd]. destruct (Rltb (nmax NumR) (snd b)) eqn:E; [|reflexivity]. apply Rltb_true in E. exfalso. apply (Rlt_not_le _ _ E Hb).
  - unfold best1 in *. rewrite !fold_left_app. cbn [fold_left]. rewrite IH. clear IH. set (B := fold_left (upd1 c) l b0). clearbody B.
    unfold upd1 at 1. destruct (smp r && (nth r A 0 =? c)%nat) eqn:Es; unfold upd1; rewrite ?Es; cbn [andb].
    2:{ reflexivity. }
    set (e := rcost g data A r). clearbody e.
    destruct (Rltb (snd B) (snd b)) eqn:E1.
    + destruct (Rltb e (snd B)) eqn:E2; cbn [snd].
      * apply Rltb_true in E1, E2. assert (Q : Rltb e (snd b) = true) by (apply Rltb_true; eapply Rlt_trans; eauto). rewrite Q. reflexivity.
      * rewrite E1. reflexivity.
    + destruct (Rltb e (snd b)) eqn:E3.
      * apply Rltb_true in E3. apply Rltb_false in E1. assert (Q : Rltb e (snd B) = true) by (apply Rltb_true; eapply Rlt_le_trans; eauto). rewrite Q.
        cbn [snd]. assert (Q2 : Rltb e (snd b) = true) by (apply Rltb_true; exact E3). rewrite Q2. reflexivity.
      * destruct (Rltb e (snd B)) eqn:E2; cbn [snd]; [rewrite E3|rewrite E1]; reflexivity.
Qed.

Lemma best1_le c l b : (snd (best1 c l b) <= snd b)%R.
Proof.
  revert b. induction l as [|r l IH]; intros b; [apply Rle_refl|]. cbn [best1 fold_left] in *. eapply Rle_trans; [apply IH|].
  unfold upd1. destruct (smp r && (nth r A 0 =? c)%nat) eqn:Es; cbn [andb]; [|apply Rle_refl]. destruct (Rltb _ _) eqn:E; [|apply Rle_refl].
  apply Rltb_true in E. apply Rlt_le. exact E.
Qed.

(** candidates [l] that are the best of the rows [rows] *)
Definition isbest (rows : list nat) (l : mcand NumR) : Prop :=
  length (fst l) = k /\ length (snd l) = k /\ forall c, (c < k)%nat -> (nth c (fst l) None, nth c (snd l) (nmax NumR)) = best1 c rows b0.

Lemma isbest_unique rows l l' : isbest rows l -> isbest rows l' -> l = l'.
Proof.
  intros (L1 & L2 & H) (L1' & L2' & H'). destruct l as [m e], l' as [m' e']. cbn [fst snd] in *. apply f_equal2.
  - apply nth_ext with (d := None) (d' := None); [congruence|]. intros c Hc. rewrite L1 in Hc. specialize (H c Hc). specialize (H' c Hc). congruence.
  - apply nth_ext with (d := nmax NumR) (d' := nmax NumR); [congruence|]. intros c Hc. rewrite L2 in Hc. specialize (H c Hc). specialize (H' c Hc). congruence.
Qed.

Lemma isbest0 : isbest [] (m_cand0 NumR k).
Proof. unfold isbest, m_cand0; cbn [fst snd]. rewrite !repeat_length. split; [reflexivity|]. split; [reflexivity|]. intros c Hc. rewrite !nth_repeat. reflexivity. Qed.

Lemma row_threads t w r l rows : nth_error ws t = Some w -> (r < w_nrow w)%nat -> isbest rows l ->
  exists l', medoid_row g ws data (memb_of g A) smp t r l (Some (nth (w_start w + r) A 0%nat)) = Ok (l', Some (nth (w_start w + r) A 0%nat)) /\
    isbest (rows ++ [w_start w + r]%nat) l'.
Proof.
  intros Ew Hr (L1 & L2 & HB). pose proof (nth_error_In _ _ Ew) as Hw.
  assert (Hin : (w_start w + w_nrow w <= n)%nat).
  { destruct W as (Ht & _). apply (@ntiles_in _ _ _ Ht t). unfold w_ranges. rewrite nth_error_map, Ew. reflexivity. }
  set (r0 := (w_start w + r)%nat) in *. assert (Hr0 : (r0 < n)%nat) by (unfold r0; lia).
  pose proof (HA Hr0) as Hc. set (c := nth r0 A 0%nat) in *.
  unfold medoid_row. unfold aget at 1. rewrite Ew. cbn [Base.bind]. fold r0.
  assert (Fold : forall c', best1 c' (rows ++ [r0]) b0 = upd1 c' (best1 c' rows b0) r0) by (intros c'; unfold best1; rewrite fold_left_app; reflexivity).
  destruct (smp r0) eqn:Es; cbn [negb].
  2:{ exists l. split; [reflexivity|]. split; [exact L1|]. split; [exact L2|]. intros c' Hc'. rewrite (HB c' Hc'), Fold. unfold upd1. rewrite Es. reflexivity. }
  rewrite (@aget_nth _ (memb_of g A) c []) by (unfold memb_of; rewrite map_length, seq_length; exact Hc).
  cbn [Base.bind]. rewrite (memb_nth A Hc).
  unfold r0 at 1. rewrite (@for_each_cost NumR g ws data V W w r (members g A c) Hw Hr) by (auto; intros m Hm; apply members_in in Hm; tauto).
  cbn [Base.bind]. fold r0.
  change (fold_left _ (members g A c) (nzero NumR)) with (rcost g data A r0).
  rewrite (@aget_nth _ (snd l) c (nmax NumR)) by (rewrite L2; exact Hc). cbn [Base.bind].
  pose proof (HB c Hc) as HBc. set (e := rcost g data A r0) in *.
  assert (Hsel : forall c', (c' < k)%nat -> c' <> c -> best1 c' (rows ++ [r0]) b0 = best1 c' rows b0).
  { intros c' _ Hne. rewrite Fold. unfold upd1. fold c. assert (Q : (c =? c')%nat = false) by (apply Nat.eqb_neq; auto). rewrite Q, andb_false_r. reflexivity. }
  assert (Hc2 : best1 c (rows ++ [r0]) b0 = if Rltb e (nth c (snd l) (nmax NumR)) then (Some r0, e) else best1 c rows b0).
  { rewrite Fold. unfold upd1. fold c e. rewrite Es, Nat.eqb_refl. cbn [andb]. rewrite <- HBc. reflexivity. }
  change (nltb NumR) with Rltb. destruct (Rltb e (nth c (snd l) (nmax NumR))) eqn:El.
  - rewrite aset_ok by (rewrite L2; exact Hc). cbn [Base.bind]. rewrite aset_ok by (rewrite L1; exact Hc). cbn [Base.bind].
    exists (upd (fst l) c (Some r0), upd (snd l) c e). split; [reflexivity|]. unfold isbest; cbn [fst snd]. rewrite !upd_length. split; [exact L1|]. split; [exact L2|].
    intros c' Hc'. rewrite !nth_upd by (rewrite ?L1, ?L2; exact Hc).
    destruct (Nat.eqb_spec c' c) as [E|Hne]; [subst c'; symmetry; exact Hc2|]. rewrite (Hsel c' Hc' Hne). apply HB. exact Hc'.
  - exists l. split; [reflexivity|]. split; [exact L1|]. split; [exact L2|]. intros c' Hc'. destruct (Nat.eq_dec c' c) as [->|Hne]; [rewrite Hc2; exact HBc|].
    rewrite (Hsel c' Hc' Hne). apply HB. exact Hc'.
Qed.

(** the reduction over the workers *)
Lemma reduce_one rows rows' (l agg : mcand NumR) : isbest rows' l -> isbest rows agg ->
  okp (loop (g_k g) (fun cid (agg : mcand NumR) =>
    let* ce := aget (snd l) cid in
    let* ae := aget (snd agg) cid in
    if nltb NumR ce ae then
      let* en := aset (snd agg) cid ce in
      let* m := aget (fst l) cid in
      let* cm := aset (fst agg) cid m in
      Ok (cm, en)
    else Ok agg) agg) (isbest (rows ++ rows')).
Proof.
  intros (L1 & L2 & HL) (M1 & M2 & HM).
  assert (Hmg : forall c, best1 c (rows ++ rows') b0 = if Rltb (snd (best1 c rows' b0)) (snd (best1 c rows b0)) then best1 c rows' b0 else best1 c rows b0).
  { intros c. transitivity (best1 c rows' (best1 c rows b0)); [unfold best1; apply fold_left_app|]. apply best1_merge. exact (best1_le c rows b0). }
  eapply okp_mono; [apply (loop_okp (fun j a => length (fst a) = k /\ length (snd a) = k /\
    forall c, (c < k)%nat -> (nth c (fst a) None, nth c (snd a) (nmax NumR)) = if (c <? j)%nat then best1 c (rows ++ rows') b0 else best1 c rows b0))|].
  - split; [exact M1|]. split; [exact M2|]. intros c Hc. apply HM. exact Hc.
  - intros j a Hj (A1 & A2 & HAj). rewrite (@aget_nth _ (snd l) j (nmax NumR)) by (rewrite L2; exact Hj). rewrite (@aget_nth _ (snd a) j (nmax NumR)) by (rewrite A2; exact Hj).
    cbn [Base.bind]. pose proof (HL j Hj) as Elj. pose proof (HAj j Hj) as Eaj. destruct (Nat.ltb_spec j j); [lia|]. clear H.
    pose proof (Hmg j) as Ej. rewrite <- Elj, <- Eaj in Ej. cbn [snd] in Ej. change (nltb NumR) with Rltb.
    destruct (Rltb (nth j (snd l) (nmax NumR)) (nth j (snd a) (nmax NumR))) eqn:E.
    + rewrite aset_ok by (rewrite A2; exact Hj). cbn [Base.bind]. rewrite (@aget_nth _ (fst l) j None) by (rewrite L1; exact Hj). cbn [Base.bind].
      rewrite aset_ok by (rewrite A1; exact Hj). cbn [Base.bind okp fst snd]. rewrite !upd_length. split; [exact A1|]. split; [exact A2|].
      intros c Hc. rewrite !nth_upd by (rewrite ?A1, ?A2; exact Hj). destruct (Nat.eqb_spec c j) as [->|Hne].
      * destruct (Nat.ltb_spec j (S j)); [|lia]. symmetry. exact Ej.
      * rewrite (HAj c Hc). destruct (Nat.ltb_spec c j); destruct (Nat.ltb_spec c (S j)); try lia; reflexivity.
    + cbn [okp]. split; [exact A1|]. split; [exact A2|]. intros c Hc. rewrite (HAj c Hc). destruct (Nat.ltb_spec c j); destruct (Nat.ltb_spec c (S j)); try lia; try reflexivity.
      assert (c = j) as -> by lia. rewrite Ej. rewrite <- Eaj. reflexivity.
  - intros a (A1 & A2 & HAk). split; [exact A1|]. split; [exact A2|]. intros c Hc. rewrite (HAk c Hc). destruct (Nat.ltb_spec c (g_k g)); [reflexivity|unfold k in Hc; lia].
Qed.

Lemma reduce_all : forall locs rs lo hi, ntiles lo hi rs -> Forall2 (fun sm l => isbest (seq (fst sm) (snd sm)) l) rs locs ->
  forall rows agg, isbest rows agg ->
  okp (for_each locs (fun (l : mcand NumR) (agg : mcand NumR) =>
    loop (g_k g) (fun cid (agg : mcand NumR) =>
      let* ce := aget (snd l) cid in
      let* ae := aget (snd agg) cid in
      if nltb NumR ce ae then
        let* en := aset (snd agg) cid ce in
        let* m := aget (fst l) cid in
        let* cm := aset (fst agg) cid m in
        Ok (cm, en)
      else Ok agg) agg) agg) (isbest (rows ++ seq lo (hi - lo))).
Proof.
  induction locs as [|l locs IH]; intros rs lo hi Ht HF rows agg Hagg; inversion HF as [|x l0 rs0 locs0 H1 H3]; subst; cbn [for_each].
  - cbn in Ht. subst. rewrite Nat.sub_diag. cbn [seq]. rewrite app_nil_r. exact Hagg.
  - destruct x as [s m]. destruct Ht as (-> & Ht). pose proof (@ntiles_le _ _ _ Ht) as Hle. cbn [fst snd] in *.
    pose proof (reduce_one H1 Hagg) as Q. destruct (loop _ _ agg) as [agg'|]; [|destruct Q]. cbn [okp Base.bind] in *.
    eapply okp_mono; [apply (IH _ _ _ Ht H3 _ _ Q)|]. intros a Ha. rewrite <- app_assoc in Ha.
    replace (hi - lo)%nat with (m + (hi - (lo + m)))%nat by lia. rewrite seq_app. exact Ha.
Qed.

(** the candidates of a round: the best of all rows, however they are split *)
Lemma round_cands sched s : m_asg s = map Some A -> m_memb s = memb_of g A -> complete (w_ranges ws) sched ->
  exists agg, isbest (seq 0 n) agg /\ medoid_round g ws data smp sched s = m_replace g data agg s.
Proof.
  intros EA EM Hcs. unfold medoid_round. pose proof (proj1 W) as Ht.
  destruct (@par_run_rule _ _ (@None nat) (medoid_row g ws data (m_memb s) smp) (w_ranges ws) (m_asg s) (map (fun _ => m_cand0 NumR (g_k g)) ws))
      with (P := fun (t : nat) (l : mcand NumR) (tr : list (nat * option nat * option nat)) => isbest (map (fun x => fst (fst x)) tr) l) (sched := sched) as (locs & cells & -> & Ll & Lc & HL); auto.
  - rewrite EA, map_length, LA. exact Ht.
  - rewrite map_length. symmetry. apply sched_ranges_len.
  - intros t l0 El. rewrite nth_error_map in El. destruct (nth_error ws t); [|discriminate]. injection El as <-. apply isbest0.
  - intros t s0 m r l tr Er Hr Hsr Htr HP. destruct (ranges_nth Er) as (w & Ew & -> & ->).
    rewrite EA in Hsr |- *. rewrite map_length in Hsr. rewrite (nth_indep _ None (Some 0%nat)) by (rewrite map_length; exact Hsr). rewrite map_nth.
    destruct (@row_threads t w r l _ Ew Hr HP) as (l' & E & HP'). rewrite EM. exists l', (Some (nth (w_start w + r) A 0%nat)). split; [exact E|].
    rewrite map_app. exact HP'.
  - cbn [Base.bind fst].
    assert (F : Forall2 (fun sm l => isbest (seq (fst sm) (snd sm)) l) (w_ranges ws) locs).
    { apply Forall2_of_nth; [symmetry; exact Ll|]. intros t (s0 & m) l Er El. destruct (HL t s0 m Er) as (l' & El' & HP). rewrite El in El'. injection El' as <-.
      unfold triples in HP. rewrite map_map in HP. cbn [fst] in HP. cbn [fst snd]. rewrite map_id in HP. exact HP. }
    pose proof (@reduce_all locs (w_ranges ws) 0%nat n Ht F [] (m_cand0 NumR k) isbest0) as Q. rewrite Nat.sub_0_r in Q. cbn [app] in Q.
    change (okp (m_reduce g locs) (isbest (seq 0 n))) in Q.
    destruct (m_reduce g locs) as [agg|]; [|destruct Q]. exists agg. split; [exact Q|]. reflexivity.
Qed.
End Med.

Lemma loop_rel' {A B} f m (s : A) t : loop m f s = Ok t -> forall (P : nat -> A -> B -> Prop) f' (s' : B), P 0%nat s s' ->
  (forall i a a' b, (i < m)%nat -> P i a a' -> f i a = Ok b -> exists b', f' i a' = Ok b' /\ P (Datatypes.S i) b b') ->
  exists t', loop m f' s' = Ok t' /\ P m t t'.
Proof. intros E P f' s' H0 Hs. apply (@loop_rel A B P f f' m s s' t H0 Hs E). Qed.

Section T.
Variables (g : kcfg NumR) (nt : Z) (kind : load_kind) (data : list R) (ws ws' : list (worker NumR)).
Let g' := with_threads g nt kind.
Let n := g_nrow g. Let d := g_ncol g. Let k := g_k g.
Hypothesis V : @valid_input NumR g data.
Hypothesis V' : @valid_input NumR g' data.
Hypothesis Hk : (1 <= g_k g)%nat.
Hypothesis W : @wok NumR n d data ws.
Hypothesis W' : @wok NumR n d data ws'.


(** ** The EM step *)
Lemma assigned_unique cl A A' : assigned g data cl A -> assigned g data cl A' -> A = A'.
Proof.
  intros (L & H) (L' & H'). apply nth_ext with (d := 0%nat) (d' := 0%nat); [congruence|]. intros r Hr. rewrite L in Hr.
  destruct (H r Hr) as (_ & E). destruct (H' r Hr) as (_ & E'). rewrite E in E'. injection E' as ->. reflexivity.
Qed.

Lemma EM_threads s1 s2 s x : minv g data s -> m_memb s = repeat [] k -> complete (w_ranges ws) s1 -> complete (w_ranges ws') s2 ->
  mEM_round g ws s1 s = Ok x -> mEM_round g' ws' s2 s = Ok x /\ EMpost g ws data s x.
Proof.
  intros Hi Hm C1 C2 E.
  pose proof (@mEM_round_ok NumR g ws data V W s1 s Hi Hm C1) as P. rewrite E in P. cbn [okab] in P.
  pose proof (@mEM_round_ok NumR g' ws' data V' W' s2 s Hi Hm C2) as P'. split; [|exact P].
  destruct P as (Q1 & Q2 & Q3 & A & HA & Q4 & Q5 & Q6 & Q7 & Q8).
  destruct (mEM_round g' ws' s2 s) as [y|e]; cbn [okab] in P'.
  - destruct P' as (R1 & R2 & R3 & A' & HA' & R4 & R5 & R6 & R7 & R8).
    assert (A' = A) as -> by (apply (@assigned_unique (m_cl s)); auto).
    f_equal. destruct Q3 as (_ & _ & Lc & Le & _). destruct R3 as (_ & _ & Lc' & Le' & _).
    destruct x as [c1 a1 n1 e1 h1 b1 f1], y as [c2 a2 n2 e2 h2 b2 f2]; cbn [m_cl m_asg m_counts m_energy m_changed m_memb m_flag] in *.
    assert (En : n2 = n1). { apply nth_ext with (d := 0%Z) (d' := 0%Z); [etransitivity; [exact Lc'|symmetry; exact Lc]|]. intros i Hl. rewrite Lc' in Hl. rewrite R6, Q6 by exact Hl. reflexivity. }
    assert (Ee : e2 = e1).
    { apply nth_ext with (d := nzero NumR) (d' := nzero NumR); [etransitivity; [exact Le'|symmetry; exact Le]|]. intros i Hl. rewrite Le' in Hl. rewrite R7, Q7 by exact Hl.
      etransitivity; [apply (@energy_R g' ws' data)|symmetry; apply (@energy_R g ws data)]; auto; [apply W'|apply W]. }
    rewrite En, Ee, R1, Q1, R2, Q2, R4, Q4, R5, Q5, R8, Q8. reflexivity.
  - exfalso. destruct P' as (_ & r & Hr & Hn). destruct HA as (_ & HA). destruct (HA r Hr) as (_ & HA'). 
    assert (Q := eq_trans (eq_sym Hn) HA'). discriminate Q.
Qed.


(** ** The medoid step *)
Lemma best1_in smp A c rows r : fst (best1 g data smp A c rows b0) = Some r -> In r rows.
Proof.
  unfold best1. revert r. induction rows as [|x l IH] using rev_ind; intros r; [discriminate|]. rewrite fold_left_app. cbn [fold_left].
  unfold upd1 at 1. destruct (_ && _).
  - cbn [fst]. intros [= ->]. apply in_or_app. right. left. reflexivity.
  - intros E. apply in_or_app. left. apply IH. exact E.
Qed.

Lemma set_mean_same (c : clusters NumR) p q i : c_ncol c = d -> slice (fst p) (snd p) d = slice (fst q) (snd q) d -> length (slice (fst p) (snd p) d) = d ->
  set_mean_at c p i = set_mean_at c q i.
Proof. intros Hc E L. unfold set_mean_at. rewrite Hc. rewrite (copy_to_same _ _ E L). reflexivity. Qed.

Lemma set_mean_ncol (c : clusters NumR) p i c' : set_mean_at c p i = Ok c' -> c_ncol c' = c_ncol c.
Proof. unfold set_mean_at. intros E. apply bind_ok in E as (m & _ & E). injection E as <-. reflexivity. Qed.

Lemma replace_threads smp A agg s s1 : isbest g data smp A (seq 0 n) agg -> c_ncol (m_cl s) = d ->
  m_replace g data agg s = Ok s1 -> m_replace g' data agg s = Ok s1.
Proof.
  intros (L1 & L2 & HB) Hc E. unfold m_replace in *.
  destruct (@loop_rel' _ _ _ _ _ _ E (fun _ (a b : mst NumR) => a = b /\ c_ncol (m_cl a) = d)
     (fun cid s => let* ae := aget (snd agg) cid in
    let* e := aget (m_energy s) cid in
    if nltb NumR ae e then
      let* energy := aset (m_energy s) cid ae in
      let* m := aget (fst agg) cid in
      match m with
      | None => Err UB
      | Some id =>
        let* nm := aset (c_members (m_cl s)) cid (Z.of_nat id) in
        let* p := cand_row g' data id in
        let* c := set_mean_at (with_members (m_cl s) nm) p cid in
        Ok (mkMst c (m_asg s) (m_counts s) energy (m_changed s) (m_memb s) true)
      end
    else Ok s) s (conj eq_refl Hc)) as (t & Et & <- & _).
  - intros i a a' b Hi (<- & Hca) Eb. apply bind_ok in Eb as (ae & E1 & Eb). rewrite E1. cbn [Base.bind].
    apply bind_ok in Eb as (e & E2 & Eb). rewrite E2. cbn [Base.bind]. destruct (nltb NumR ae e).
    2:{ injection Eb as <-. eexists. split; [reflexivity|]. split; [reflexivity|exact Hca]. }
    apply bind_ok in Eb as (en & E3 & Eb). rewrite E3. cbn [Base.bind]. apply bind_ok in Eb as (m & E4 & Eb). rewrite E4. cbn [Base.bind].
    destruct m as [id|]; [|discriminate Eb]. apply bind_ok in Eb as (nm & E5 & Eb). rewrite E5. cbn [Base.bind].
    assert (Hid : (id < n)%nat).
    { rewrite (@aget_nth _ (fst agg) i None) in E4 by (rewrite L1; exact Hi). injection E4 as E4. specialize (HB i Hi).
      assert (Q : fst (best1 g data smp A i (seq 0 n) b0) = Some id) by (rewrite <- HB; exact E4).
      apply best1_in in Q. apply in_seq in Q. lia. }
    destruct (@cand_row_ok NumR g data V id Hid) as (p & Ep & Sp). destruct (@cand_row_ok NumR g' data V' id Hid) as (p' & Ep' & Sp').
    rewrite Ep in Eb. rewrite Ep'. cbn [Base.bind] in *. apply bind_ok in Eb as (c & E6 & Eb). injection Eb as <-.
    assert (Ec : set_mean_at (with_members (m_cl a) nm) p' i = Ok c).
    { rewrite <- E6. apply set_mean_same; [exact Hca|etransitivity; [exact Sp'|symmetry; exact Sp]|].
      etransitivity; [exact (f_equal (@length R) Sp')|]. apply (@data_row_length NumR g data V _ Hid). }
    rewrite Ec. cbn [Base.bind]. eexists. split; [reflexivity|]. split; [reflexivity|]. cbn [m_cl]. rewrite (set_mean_ncol E6). exact Hca.
  - exact Et.
Qed.

Lemma round_threads smp A s1 s2 s x : length A = n -> (forall r, (r < n)%nat -> (nth r A 0 < k)%nat) -> c_ncol (m_cl s) = d ->
  m_asg s = map Some A -> m_memb s = memb_of g A -> complete (w_ranges ws) s1 -> complete (w_ranges ws') s2 ->
  medoid_round g ws data smp s1 s = Ok x -> medoid_round g' ws' data smp s2 s = Ok x.
Proof.
  intros LA HA Hc EA EM C1 C2 E.
  destruct (@round_cands g ws data V W smp A LA HA s1 s EA EM C1) as (agg & B & Q).
  destruct (@round_cands g' ws' data V' W' smp A LA HA s2 s EA EM C2) as (agg' & B' & Q').
  assert (agg' = agg) as -> by (apply (@isbest_unique g data smp A (seq 0 n)); [exact B'|exact B]).
  rewrite Q'. rewrite Q in E. apply (replace_threads B Hc E).
Qed.

Lemma Hmaxnum : neqb NumR (nmax NumR) (nmax NumR) = true.
Proof. apply Reqb_true. reflexivity. Qed.

Lemma turn_threads smp m1 e1 m2 e2 s x : mgood g ws data s -> complete (w_ranges ws) m1 -> complete (w_ranges ws) e1 ->
  complete (w_ranges ws') m2 -> complete (w_ranges ws') e2 ->
  m_turn g ws data smp m1 e1 s = Ok x -> m_turn g' ws' data smp m2 e2 s = Ok x /\ mgood g ws data (fst x).
Proof.
  intros G C1 C2 C3 C4 E.
  pose proof (@m_turn_ok NumR NumR_laws Hmaxnum g ws data V Hk W smp m1 e1 s G C1 C2) as P. rewrite E in P. cbn [oke] in P. destruct P as (P & _).
  split; [|exact P]. destruct G as (A & Hi & Hf & HA & EA & EM & _ & _). pose proof HA as (LA & HA').
  unfold m_turn in *. apply bind_ok in E as (s1 & E1 & E).
  pose proof (@medoid_round_ok NumR NumR_laws Hmaxnum g ws data V W smp A LA (fun r Hr => proj1 (HA' r Hr)) m1 s Hi EA EM C1) as M.
  rewrite E1 in M. cbn [oke] in M. destruct M as (_ & _ & _ & _ & Mi & Mf & _). specialize (Mf Hf).
  assert (Hcol : c_ncol (m_cl s) = d) by (destruct Hi as ((_ & Q & _) & _); exact Q).
  rewrite (@round_threads smp A m1 m2 s s1 LA (fun r Hr => proj1 (HA' r Hr)) Hcol EA EM C1 C3 E1). cbn [Base.bind]. rewrite Mf in E |- *.
  apply bind_ok in E as (s2 & E2 & E).
  destruct (@EM_threads e1 e2 (clear_memb s1) s2 (minv_clear Mi) (clear_repeat Mi) C2 C4 E2) as (E2' & _). rewrite E2'. exact E.
Qed.

Lemma mloop_threads smp m1 e1 m2 e2 : (forall i, complete (w_ranges ws) (m1 i)) -> (forall i, complete (w_ranges ws) (e1 i)) ->
  (forall i, complete (w_ranges ws') (m2 i)) -> (forall i, complete (w_ranges ws') (e2 i)) -> forall m i s tr x, mgood g ws data s ->
  m_loop g ws data smp m1 e1 m i s tr = Ok x -> m_loop g' ws' data smp m2 e2 m i s tr = Ok x.
Proof.
  intros C1 C2 C3 C4. induction m as [|m IH]; intros i s tr x G E; cbn [m_loop] in *; [exact E|].
  apply bind_ok in E as (r & E1 & E). destruct (@turn_threads (smp i) (m1 i) (e1 i) (m2 i) (e2 i) s r G (C1 i) (C2 i) (C3 i) (C4 i) E1) as (E1' & G').
  rewrite E1'. cbn [Base.bind]. destruct (snd r); [exact E|]. apply (IH _ _ _ _ G' E).
Qed.

Lemma forgy_threads draw s s1 : (forall i, (i < k)%nat -> (draw i < n)%nat) -> c_ncol (m_cl s) = d ->
  m_forgy g data draw s = Ok s1 -> m_forgy g' data draw s = Ok s1.
Proof.
  intros Hdr Hc E. unfold m_forgy in *. apply bind_ok in E as (c & E & E').
  destruct (@loop_rel' _ _ _ _ _ _ E (fun _ (a b : clusters NumR) => a = b /\ c_ncol a = d)
     (fun cid c => let* p := thd_row g' data (draw cid) in
    let* c := set_mean_at c p cid in
    let* nm := aset (c_members c) cid (Z.of_nat (draw cid)) in
    Ok (with_members c nm)) (m_cl s) (conj eq_refl Hc)) as (t & Et & <- & _).
  - intros i a a' b Hi (<- & Hca) Eb.
    destruct (@thd_row_ok NumR g data V (draw i) (Hdr i Hi)) as (p & Ep & Sp). destruct (@thd_row_ok NumR g' data V' (draw i) (Hdr i Hi)) as (p' & Ep' & Sp').
    change (g_ncol g') with (g_ncol g) in Sp'.
    rewrite Ep in Eb. rewrite Ep'. cbn [Base.bind] in *. apply bind_ok in Eb as (c1 & E1 & Eb).
    assert (Q : set_mean_at a p' i = Ok c1).
    { rewrite <- E1. apply set_mean_same; [exact Hca|etransitivity; [exact Sp'|symmetry; exact Sp]|].
      etransitivity; [exact (f_equal (@length R) Sp')|]. apply (@data_row_length NumR g data V _ (Hdr i Hi)). }
    rewrite Q. cbn [Base.bind]. exists b. split; [exact Eb|]. split; [reflexivity|]. apply bind_ok in Eb as (nm & _ & Eb). injection Eb as <-.
    cbn [with_members c_ncol]. rewrite (set_mean_ncol E1). exact Hca.
  - change (g_k g') with (g_k g). rewrite Et. cbn [Base.bind]. exact E'.
Qed.
End T.

(** ** C130: k-medoids give one result for every number of threads, loading path
    and schedule *)
Theorem C130_kmedoids : forall (g : kcfg NumR) centers (data : list R) draw smp sm se r nthreads kind sm' se',
  @m_valid NumR g data draw -> @fair NumR g data sm -> @fair NumR g data se ->
  @m_run NumR g centers FORGY data draw smp sm se = Ok r ->
  (1 <= nthreads < 2 ^ 32)%Z -> kind <> NumaReorg ->
  @fair NumR (with_threads g nthreads kind) data sm' -> @fair NumR (with_threads g nthreads kind) data se' ->
  @m_run NumR (with_threads g nthreads kind) centers FORGY data draw smp sm' se' = Ok r.
Proof.
  intros g centers data draw smp sm se r nt kind sm' se' (V & Hk & Hkind & Hdr) F1 F2 E Hnt Hkd F3 F4.
  assert (V' : @valid_input NumR (with_threads g nt kind) data) by (destruct V as (X1 & X2 & X3 & X4); unfold valid_input; cbn; auto).
  destruct (get_workers V) as (ws & Ew & W). destruct (get_workers V') as (ws' & Ew' & W').
  unfold m_run in *. apply bind_ok in E as (s0 & E0 & E).
  assert (E0' : @m_create NumR (with_threads g nt kind) centers FORGY = Ok s0) by exact E0. rewrite E0'. cbn [Base.bind].
  apply bind_ok in E as (u & Eu & E).
  assert (Eu' : match g_kind (with_threads g nt kind) with NumaReorg => Err Throw | _ => Ok tt end = Ok tt) by (cbn; destruct kind; congruence).
  rewrite Eu'. cbn [Base.bind]. rewrite Ew in E. rewrite Ew'. cbn [Base.bind] in *.
  apply bind_ok in E as (s1 & E1 & E).
  pose proof (@m_start_ok NumR NumR_laws g ws data V Hk W centers draw (se 0%nat) Hdr (F2 ws Ew 0%nat)) as P.
  rewrite E0 in P. cbn [Base.bind] in P. rewrite E1 in P. cbn [oke] in P. destruct P as (G1 & _).
  assert (C0 : c_ncol (m_cl s0) = g_ncol g /\ m_asg s0 = repeat None (g_nrow g) /\ m_counts s0 = repeat 0%Z (g_k g) /\ m_energy s0 = repeat (nzero NumR) (g_k g) /\
     m_memb s0 = repeat [] (g_k g) /\ shaped (g_k g) (g_ncol g) (m_cl s0)).
  { unfold m_create in E0. apply bind_ok in E0 as ([] & _ & E0). apply bind_ok in E0 as (c & Ec & E0). injection E0 as <-. cbn.
    assert (c = clusters_create NumR (g_k g) (g_ncol g)) as -> by (destruct centers; congruence).
    pose proof (shaped_create NumR (g_k g) (g_ncol g)) as Sh. splits; auto. }
  destruct C0 as (C0 & _ & C2 & C3 & C4 & Sh).
  assert (E1' : @m_init NumR (with_threads g nt kind) ws' FORGY data draw (se' 0%nat) s0 = Ok s1).
  { cbn [m_init] in *. apply bind_ok in E1 as (s2 & E1 & E2). rewrite (@forgy_threads g nt kind data V V' draw s0 s2 Hdr C0 E1). cbn [Base.bind].
    pose proof (@m_forgy_ok NumR g data V Hk draw s0 Sh Hdr) as P. rewrite E1 in P. cbn [okp] in P. destruct P as (Q1 & Q2 & Q3 & Q4 & Q5 & Q6 & Q7 & Q8).
    apply (@EM_threads g nt kind data ws ws' V V' W W' (se 0%nat) (se' 0%nat) s2 s1); auto.
    - unfold minv. splits; auto.
      + rewrite Q3. unfold m_create in E0. apply bind_ok in E0 as ([] & _ & E0). apply bind_ok in E0 as (c & Ec & E0). injection E0 as <-. apply repeat_length.
      + rewrite Q4, C2. apply repeat_length.
      + rewrite Q5, C3. apply repeat_length.
      + rewrite Q7, C4. apply repeat_length.
      + intros j Hj. exists (draw j). destruct (Q2 j Hj). splits; auto.
    - rewrite Q7. exact C4. }
  rewrite E1'. cbn [Base.bind]. apply bind_ok in E as (x & E2 & E).
  assert (E2' : @m_loop NumR (with_threads g nt kind) ws' data smp sm' se' (g_max_iters (with_threads g nt kind)) (if (0 <? g_max_iters (with_threads g nt kind))%nat then 1%nat else 0%nat) s1 [] = Ok x).
  { apply (@mloop_threads g nt kind data ws ws' V V' Hk W W' smp sm se sm' se' (F1 ws Ew) (F2 ws Ew) (F3 ws' Ew') (F4 ws' Ew') _ _ _ _ _ G1 E2). }
  rewrite E2'. exact E.
Qed.

(** with data whose distances are far below the largest double the run succeeds and
    there is one result, whatever the threads, the loading path and the schedules *)
Theorem C130_kmedoids_one_result : forall (g : kcfg NumR) centers (data : list R) draw smp, @m_valid NumR g data draw ->
  (forall i j, (i < g_nrow g)%nat -> (j < g_nrow g)%nat ->
     (INR (g_nrow g) * edist (row data (g_ncol g) i) (row data (g_ncol g) j) < nmax NumR)%R) ->
  exists r, forall nthreads kind sm se, (1 <= nthreads < 2 ^ 32)%Z -> kind <> NumaReorg ->
    @fair NumR (with_threads g nthreads kind) data sm -> @fair NumR (with_threads g nthreads kind) data se ->
    @m_run NumR (with_threads g nthreads kind) centers FORGY data draw smp sm se = Ok r.
Proof.
  intros g centers data draw smp V Hs. destruct (get_workers (proj1 V)) as (ws & Ew & _).
  set (sc := fun _ : nat => seq_sched (w_ranges ws)).
  assert (F : @fair NumR g data sc).
  { intros w E i. assert (Q := eq_trans (eq_sym Ew) E). injection Q as <-. apply seq_sched_complete. }
  destruct (@C57_run_succeeds g centers data draw smp sc sc V F F Hs) as (r & E). exists r. intros. eapply C130_kmedoids; eauto.
Qed.

(** the hypotheses are met *)
Example C130_example : let g := mkCfg NumR 5 1 2 10 2 (IZR (-1)) EUCL UserBuffer in let data := [IZR 0; IZR 1; IZR 10; IZR 11; IZR 6] : list R in
  @m_valid NumR g data (fun i => i) /\
  (forall i j, (i < g_nrow g)%nat -> (j < g_nrow g)%nat ->
     (INR (g_nrow g) * edist (row data (g_ncol g) i) (row data (g_ncol g) j) < IZR dbl_max_Z)%R).
Proof.
  intros g data. split.
  { split; [unfold valid_input; cbn; splits; lia || reflexivity|]. split; [cbn; lia|]. split; [discriminate|]. cbn. intros i Hi. lia. }
  intros i j Hi Hj. cbn [g_nrow g_ncol g].
  assert (B : forall i, (i < 5)%nat -> exists x, row data 1 i = [x] /\ (0 <= x <= 11)%R).
  { intros q Hq. destruct q as [|[|[|[|[|q]]]]]; try lia; eexists; (split; [reflexivity|lra]). }
  destruct (B i Hi) as (x & -> & Hx). destruct (B j Hj) as (y & -> & Hy).
  assert (Ht : (edist [x] [y] <= 11)%R).
  { unfold edist. assert (Es : (sqdist [x] [y] = (x - y) * (x - y))%R) by (cbn; ring). rewrite Es.
    change ((x - y) * (x - y))%R with (Rsqr (x - y)). rewrite sqrt_Rsqr_abs. unfold Rabs; destruct (Rcase_abs _); lra. }
  apply Rle_lt_trans with (IZR 55); [|apply IZR_lt; reflexivity]. replace (INR 5) with (IZR 5) by (cbn; lra). change (IZR 55) with (IZR (5 * 11)). rewrite mult_IZR. lra.
Qed.
