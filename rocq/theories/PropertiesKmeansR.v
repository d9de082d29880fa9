(** C16, C18-C20, C26-C27: unpruned k-means in exact arithmetic; and C66, C67:
    schedule independence and memory safety in any arithmetic. *)
From Coq Require Import Reals Lra.
From Verif Require Import Base Num Spec DistModel ClustersModel ClustersView PartitionModel ParModel KmeansModel.
From Verif Require Import MatLemmas VecLemmas ClustersProofs DistProofs PartitionProofs ParProofs NearProofs KmeansProofs UpdateProofs RunProofs.
From Verif Require Import InitProofs SimProofs KmeansR SseProofs PropertiesKmeans.
Set Implicit Arguments.
Local Open Scope R_scope.

(** row [i] of a row-major matrix, as a vector *)
Definition centroid (ncol : nat) (s : kst NumR) (j : nat) : list R := row (c_means (s_cltrs s)) ncol j.

(** the rows assigned to cluster [j], in row order *)
Definition members (nrow ncol : nat) (data : list R) (asg : list (option nat)) (j : nat) : list (list R) :=
  map (fun r => row data ncol r) (filter (fun r => match nth r asg None with Some c => Nat.eqb c j | None => false end) (seq 0 nrow)).

(** within-cluster sum of squares of a state *)
Definition sse (nrow ncol : nat) (data : list R) (s : kst NumR) : R :=
  rsum (map (fun r => sqdist (row data ncol r)
     (centroid ncol s (match nth r (s_asg s) None with Some c => c | None => 0%nat end))) (seq 0 nrow)).

Lemma picks_rows (g : kcfg NumR) data j : forall A s,
  picks j (xas g data s A) = map (row data (g_ncol g)) (filter (fun r => (nth (r - s) A 0%nat =? j)%nat) (seq s (length A))).
Proof.
  induction A as [|a A IH]; intros s; [reflexivity|].
  change (xas g data s (a :: A)) with ((row data (g_ncol g) s, a) :: xas g data (S s) A).
  unfold picks in *. cbn [filter snd length seq]. rewrite Nat.sub_diag. change (nth 0 (a :: A) 0%nat) with a.
  assert (E : filter (fun r => (nth (r - s) (a :: A) 0%nat =? j)%nat) (seq (S s) (length A)) = filter (fun r => (nth (r - S s) A 0%nat =? j)%nat) (seq (S s) (length A))).
  { apply filter_ext_in. intros r Hr. apply in_seq in Hr. replace (r - s)%nat with (S (r - S s)) by lia. reflexivity. }
  destruct (a =? j)%nat; cbn [map fst]; rewrite E, IH; reflexivity.
Qed.

Lemma mems_rows (g : kcfg NumR) data A j : length A = g_nrow g ->
  mems g data A j = mem_rows (g_nrow g) (row data (g_ncol g)) A j.
Proof.
  intros LA. unfold mems, mem_rows. rewrite picks_rows, LA. f_equal. apply filter_ext. intros r. rewrite Nat.sub_0_r. reflexivity.
Qed.

Lemma members_rows nrow ncol data A j : length A = nrow ->
  members nrow ncol data (map Some A) j = mem_rows nrow (row data ncol) A j.
Proof.
  intros LA. unfold members, mem_rows. f_equal. apply filter_ext_in. intros r Hr. apply in_seq in Hr.
  rewrite (nth_indep _ None (Some 0%nat)) by (rewrite map_length; lia). rewrite map_nth. reflexivity.
Qed.

(** ** C16 *)
Theorem C16_centroids_are_means :
  forall (g : kcfg NumR) centers it data dr scheds rr,
  valid_input g data -> fair g data scheds -> run g centers it data dr scheds = Ok rr ->
  forall i s s', iteration rr i s s' -> forall j, (j < g_k g)%nat ->
  let l := members (g_nrow g) (g_ncol g) data (s_asg s') j in
  centroid (g_ncol g) s' j = match l with [] => vzero (g_ncol g) | _ => vmean (g_ncol g) l end.
Proof.
  intros g centers it data dr scheds rr V F H i s s' (E & E') j Hj.
  destruct (@run_inv _ _ _ _ _ _ _ _ V F H) as (ws & _ & (Wt & _) & _ & St & Hit & _).
  destruct (Hit i s s' E E') as (A & LA & HA & Ea & _ & Hcel & _).
  assert (Hs' : stok g ws s') by (apply St; right; eapply nth_error_In; eauto).
  destruct V as (V1 & V2 & V3 & V4).
  specialize (Hcel j Hj). rewrite (@ucel_R g data ws A j V4 LA Wt) in Hcel. unfold cel in Hcel. injection Hcel as Hc _ _.
  unfold crow in Hc. destruct Hs' as ((_ & Hd & _) & _). rewrite Hd in Hc.
  intros l. unfold l. rewrite Ea, members_rows by exact LA. unfold centroid. rewrite Hc, mems_rows by exact LA. reflexivity.
Qed.
Print Assumptions C16_centroids_are_means.

(* ------------------------------------------------------------------ *)
(** ** C19, C20 *)

Lemma sse_ssum (g : kcfg NumR) (data : list R) s A : s_asg s = map Some A -> length A = g_nrow g ->
  sse (g_nrow g) (g_ncol g) data s = ssum (g_nrow g) (row data (g_ncol g)) A (centroid (g_ncol g) s).
Proof.
  intros E L. unfold sse, ssum. apply rsum_ext. intros r Hr. apply in_seq in Hr. rewrite E.
  rewrite (nth_indep _ None (Some 0%nat)) by (rewrite map_length; lia). rewrite map_nth. reflexivity.
Qed.
Section Traj.
Variables (g : kcfg NumR) (data : list R).
Hypothesis Hdt : g_dt g = EUCL \/ g_dt g = SQEUCL.
Hypothesis V4 : length data = (g_nrow g * g_ncol g)%nat.

Lemma rdist_le_sq x y z : rdist (g_dt g) x y <= rdist (g_dt g) x z -> sqdist x y <= sqdist x z.
Proof.
  destruct Hdt as [-> | ->]; cbn [rdist]; auto. unfold edist. intros H. apply sqrt_le_0 in H; auto using sqdist_pos.
Qed.
Lemma rdist_lt_sq x y z : rdist (g_dt g) x y < rdist (g_dt g) x z -> sqdist x y < sqdist x z.
Proof.
  destruct Hdt as [-> | ->]; cbn [rdist]; auto. unfold edist. intros H. apply sqrt_lt_0_alt in H. exact H.
Qed.

Lemma nid_sq (c : clusters NumR) r a : nid g data c r = Some a ->
  (a < g_k g)%nat /\ forall j, (j < g_k g)%nat ->
    sqdist (row data (g_ncol g) r) (row (c_means c) (g_ncol g) a) <= sqdist (row data (g_ncol g) r) (row (c_means c) (g_ncol g) j) /\
    ((j < a)%nat -> sqdist (row data (g_ncol g) r) (row (c_means c) (g_ncol g) a) < sqdist (row data (g_ncol g) r) (row (c_means c) (g_ncol g) j)).
Proof.
  intros H. destruct (@nid_cases NumR NumR_laws g data c r a H) as (Ha & Hn). split; [exact Ha|]. intros j Hj.
  destruct (Hn j Hj) as (H1 & H2). rewrite !ldist_R in H1, H2.
  cbn [nltb neqb NumR] in H1, H2. apply Rltb_false in H1. split; [apply rdist_le_sq; exact H1|].
  intros Hja. apply rdist_lt_sq. apply Rltb_true. apply H2; [exact Hja|]. apply Reqb_true. reflexivity.
Qed.

Lemma step_facts ws (s0 s s' : kst NumR) A B : ntiles 0 (g_nrow g) (w_ranges ws) -> stok g ws s -> stok g ws s' ->
  produced g ws data s0 s A -> produced g ws data s s' B ->
  let c := centroid (g_ncol g) s in let c' := centroid (g_ncol g) s' in
  let x := row data (g_ncol g) in
  means_of (g_nrow g) (g_ncol g) (g_k g) x A c /\ means_of (g_nrow g) (g_ncol g) (g_k g) x B c' /\
  kstep (g_nrow g) x A c B.
Proof.
  intros Wt Ss Ss' (LA & HA & Ea & _ & HcA & _) (LB & HB & Eb & Hnid & HcB & _) c c' x.
  assert (G : forall t C, stok g ws t -> length C = g_nrow g -> (forall j, (j < g_k g)%nat -> cel (s_cltrs t) j = ucel g ws data C j) ->
     means_of (g_nrow g) (g_ncol g) (g_k g) x C (centroid (g_ncol g) t)).
  { intros t C ((Hk & Hd & Hm & _) & _) LC Hcel j Hj. split.
    - unfold centroid. apply (@row_length R (c_means (s_cltrs t)) (g_ncol g) j (g_k g)); [rewrite <- Hk, <- Hd; exact Hm|exact Hj].
    - intros Hne. specialize (Hcel j Hj). rewrite (@ucel_R g data ws C j V4 LC Wt) in Hcel.
      unfold cel, crow in Hcel. rewrite Hd in Hcel. injection Hcel as Hc _ _. unfold centroid. etransitivity; [exact Hc|]. rewrite mems_rows by exact LC.
      unfold mean_or_zero. fold x. destruct (mem_rows (g_nrow g) x C j); [congruence|reflexivity]. }
  splits; [apply G; auto|apply G; auto|].
  intros r Hr. destruct (@nid_sq (s_cltrs s) r _ (Hnid r Hr)) as (Hb & Hn).
  assert (Ha : (nth r A 0 < g_k g)%nat) by (rewrite Forall_forall in HA; apply HA; apply nth_In; lia).
  destruct (Hn _ Ha) as (H1 & H2). split; [exact H1|]. intros E.
  destruct (Nat.le_gt_cases (nth r B 0%nat) (nth r A 0%nat)) as [|Hgt]; auto. specialize (H2 Hgt).
  unfold c, centroid, x in E. lra.
Qed.

End Traj.

Lemma x_dim (g : kcfg NumR) (data : list R) : length data = (g_nrow g * g_ncol g)%nat ->
  forall r, (r < g_nrow g)%nat -> length (row data (g_ncol g) r) = g_ncol g.
Proof. intros H r Hr. apply (@row_length R data (g_ncol g) r (g_nrow g)); auto. Qed.

Theorem C19_objective_never_increases :
  forall (g : kcfg NumR) centers it data dr scheds rr,
  valid_input g data -> fair g data scheds -> run g centers it data dr scheds = Ok rr ->
  g_dt g = EUCL \/ g_dt g = SQEUCL ->
  forall i s s', iteration rr (S i) s s' ->
  sse (g_nrow g) (g_ncol g) data s' <= sse (g_nrow g) (g_ncol g) data s.
Proof.
  intros g centers it data dr scheds rr V F H Hdt i s s' (E & E').
  destruct (@run_inv _ _ _ _ _ _ _ _ V F H) as (ws & _ & (Wt & _) & _ & St & Hit & _).
  destruct V as (V1 & V2 & V3 & V4).
  destruct (Hit _ s s' E E') as (B & HB). simpl in E.
  destruct (nth_error (rr_init rr :: rr_trace rr) i) as [s0|] eqn:E0.
  2:{ apply nth_error_None in E0. simpl in E0. assert (i < length (rr_trace rr))%nat by (apply nth_error_Some; congruence). lia. }
  destruct (Hit i s0 s E0 E) as (A & HA).
  assert (Ss : stok g ws s) by (apply St; right; eapply nth_error_In; eauto).
  assert (Ss' : stok g ws s') by (apply St; right; eapply nth_error_In; eauto).
  destruct (@step_facts g data Hdt V4 ws _ _ _ A B Wt Ss Ss' HA HB) as (M1 & M2 & K).
  destruct HA as (LA & _ & Ea & _). destruct HB as (LB & HBk & Eb & _).
  rewrite (@sse_ssum g data s A Ea LA), (@sse_ssum g data s' B Eb LB).
  apply Rle_trans with (ssum (g_nrow g) (row data (g_ncol g)) B (centroid (g_ncol g) s)).
  - apply (@ssum_min (g_nrow g) (g_ncol g) (g_k g) _ (x_dim g data V4)).
    + intros r Hr. rewrite Forall_forall in HBk. apply HBk. apply nth_In. lia.
    + exact M2.
    + intros j Hj. apply M1. exact Hj.
  - apply ssum_nearest. intros r Hr. apply K. exact Hr.
Qed.
Print Assumptions C19_objective_never_increases.

(** any list whose consecutive elements strictly decrease in a transitive irreflexive order has no duplicates *)
Lemma nodup_chain {X Y} (f : X -> Y) (lt : X -> X -> Prop) (l : list X) :
  (forall a b c, lt a b -> lt b c -> lt a c) ->
  (forall a b, In a l -> In b l -> lt a b -> f a <> f b) ->
  (forall i a b, nth_error l i = Some a -> nth_error l (S i) = Some b -> lt b a) ->
  NoDup (map f l).
Proof.
  intros Ht Hf Hc.
  assert (G : forall n i a b, nth_error l i = Some a -> nth_error l (S i + n) = Some b -> lt b a).
  { induction n as [|n IH]; intros i a b Ea Eb.
    - rewrite Nat.add_0_r in Eb. eapply Hc; eauto.
    - destruct (nth_error l (S i + n)) as [m|] eqn:Em.
      + apply Ht with m; [|eapply IH; eauto]. eapply Hc; [exact Em|]. replace (S (S i + n)) with (S i + S n)%nat by lia. exact Eb.
      + apply nth_error_None in Em. assert (S i + S n < length l)%nat by (apply nth_error_Some; congruence). lia. }
  apply NoDup_nth_error. intros i j Hi E. rewrite map_length in Hi. rewrite !nth_error_map in E.
  destruct (nth_error l i) as [a|] eqn:Ea; [|apply nth_error_None in Ea; lia].
  destruct (nth_error l j) as [b|] eqn:Eb; [|discriminate]. simpl in E. injection E as E.
  destruct (Nat.lt_trichotomy i j) as [Hl|[He|Hl]]; auto; exfalso.
  - assert (lt b a). { apply (G (j - S i)%nat i); auto. replace (S i + (j - S i))%nat with j by lia. exact Eb. }
    eapply Hf; [| |eassumption|]; try (eapply nth_error_In; eauto). congruence.
  - assert (lt a b). { apply (G (i - S j)%nat j); auto. replace (S j + (i - S j))%nat with i by lia. exact Ea. }
    eapply Hf; [| |eassumption|]; try (eapply nth_error_In; eauto). congruence.
Qed.

Definition ids (s : kst NumR) : list nat := map (fun a => match a with Some c => c | None => 0%nat end) (s_asg s).
Lemma ids_some s A : s_asg s = map Some A -> ids s = A.
Proof. intros E. unfold ids. rewrite E, map_map. apply map_id. Qed.

Theorem C20_converges :
  forall (g : kcfg NumR) centers it data dr scheds rr,
  valid_input g data -> fair g data scheds -> run g centers it data dr scheds = Ok rr ->
  g_dt g = EUCL \/ g_dt g = SQEUCL ->
  (length (rr_trace rr) <= Nat.pow (g_k g) (g_nrow g) + 1)%nat /\
  ((Nat.pow (g_k g) (g_nrow g) + 1 <= g_max_iters g)%nat ->
     rr_converged rr = true /\
     (* with a negative tolerance only "no assignment changed" stops the run *)
     (g_tol g < 0 -> s_changed (last (rr_trace rr) (rr_init rr)) = 0%nat)).
Proof.
  intros g centers it data dr scheds rr V F H Hdt.
  destruct (@run_inv _ _ _ _ _ _ _ _ V F H) as (ws & _ & (Wt & _) & Hk & St & Hit & _ & Hle & Hc1 & Hc2).
  pose proof (@C17_changes_counted NumR _ _ _ _ _ _ _ V F H) as Hch.
  destruct V as (V1 & V2 & V3 & V4).
  assert (Key : forall pre post, rr_trace rr = pre ++ post -> Forall (fun x => stop_test g (s_changed x) = false) pre ->
     (length pre <= Nat.pow (g_k g) (g_nrow g))%nat).
  { intros pre post Et Hst. rewrite <- (map_length ids pre).
    assert (Hpre : forall i s, nth_error pre i = Some s -> exists s0, nth_error (rr_init rr :: rr_trace rr) i = Some s0 /\ nth_error (rr_trace rr) i = Some s).
    { intros i s Es. assert (i < length pre)%nat by (apply nth_error_Some; congruence).
      destruct (nth_error (rr_init rr :: rr_trace rr) i) as [s0|] eqn:E0.
      - exists s0. split; auto. rewrite Et, nth_error_app1 by lia. exact Es.
      - apply nth_error_None in E0. simpl in E0. rewrite Et, app_length in E0. lia. }
    apply nodup_vecs.
    - set (lt := fun a b : kst NumR => pot_lt (g_nrow g) (row data (g_ncol g)) (ids a) (centroid (g_ncol g) a) (ids b) (centroid (g_ncol g) b)).
      apply (@nodup_chain _ _ ids (fun a b => lt a b)).
      + intros a b c. unfold lt. apply pot_trans.
      + intros a b Ha Hb Hlt Eab. unfold lt in Hlt.
        apply In_nth_error in Ha as (i & Ha). apply In_nth_error in Hb as (j & Hb).
        destruct (Hpre i a Ha) as (a0 & Ea0 & Ea). destruct (Hpre j b Hb) as (b0 & Eb0 & Eb).
        destruct (Hit i a0 a Ea0 Ea) as (A & LA & HA & EA & _ & HcA & _).
        destruct (Hit j b0 b Eb0 Eb) as (B & LB & HB & EB & _ & HcB & _).
        rewrite (ids_some _ _ EA), (ids_some _ _ EB) in *. subst B.
        assert (s_cltrs a = s_cltrs b).
        { destruct (St a (or_intror (nth_error_In _ _ Ea))) as (Sa & _). destruct (St b (or_intror (nth_error_In _ _ Eb))) as (Sb & _).
          eapply (@cel_determines NumR g ws data _ _ A); eauto. }
        unfold pot_lt, centroid in Hlt. rewrite H0 in Hlt. destruct Hlt as [Hlt|(_ & Hlt)]; [lra|lia].
      + intros i s s' Es Es'.
        destruct (Hpre i s Es) as (s0 & E0 & E1). destruct (Hpre (S i) s' Es') as (s1 & E2 & E3). simpl in E2. rewrite E1 in E2. injection E2 as <-.
        destruct (Hit i s0 s E0 E1) as (A & HA). destruct (Hit (S i) s s' E1 E3) as (B & HB).
        assert (Ss : stok g ws s) by (apply St; right; eapply nth_error_In; eauto).
        assert (Ss' : stok g ws s') by (apply St; right; eapply nth_error_In; eauto).
        destruct (@step_facts g data Hdt V4 ws _ _ _ A B Wt Ss Ss' HA HB) as (M1 & M2 & K).
        destruct HA as (LA & _ & Ea & _). destruct HB as (LB & HBk & Eb & _ & _ & _ & Hod).
        unfold lt. rewrite (ids_some _ _ Ea), (ids_some _ _ Eb).
        apply (@kstep_pot (g_nrow g) (g_ncol g) (g_k g) _ (x_dim g data V4)); auto.
        * intros r Hr. rewrite Forall_forall in HBk. apply HBk. apply nth_In. lia.
        * intros j Hj. apply M1. exact Hj.
        * intros E. subst B. rewrite Forall_forall in Hst.
          assert (Hf : stop_test g (s_changed s') = false) by (apply Hst; eapply nth_error_In; eauto).
          assert (Hz : s_changed s' = 0%nat).
          { rewrite Hod. unfold before. simpl. apply odiff_zero; [rewrite Ea, map_length; reflexivity|exact Ea]. }
          unfold stop_test in Hf. rewrite Hz in Hf. discriminate.
    - apply Forall_forall. intros v Hv. apply in_map_iff in Hv as (s & <- & Hs). apply In_nth_error in Hs as (i & Es).
      destruct (Hpre i s Es) as (s0 & E0 & E1). destruct (Hit i s0 s E0 E1) as (A & LA & HA & Ea & _).
      rewrite (ids_some _ _ Ea). auto. }
  destruct (rr_converged rr).
  - destruct (Hc1 eq_refl) as (pre & f & Et & Hs & Hf & _). pose proof (Key pre [f] Et Hf) as Hl.
    split; [rewrite Et, app_length; simpl; lia|]. intros _. split; [reflexivity|]. intros Htol.
    rewrite Et, last_last. unfold stop_test in Hs. apply orb_prop in Hs as [Hs|Hs]; [apply Nat.eqb_eq; exact Hs|].
    exfalso. simpl in Hs. apply Rleb_true in Hs.
    assert (0 <= IZR (Z.of_nat (s_changed f)) / IZR (Z.of_nat (g_nrow g))); [|lra].
    unfold Rdiv. apply Rmult_le_pos; [apply IZR_le; lia|]. left. apply Rinv_0_lt_compat. apply IZR_lt. lia.
  - destruct (Hc2 eq_refl) as (El & Hf & _). pose proof (Key (rr_trace rr) [] (eq_sym (app_nil_r _)) Hf) as Hl.
    split; [lia|]. intros Hm. lia.
Qed.
Print Assumptions C20_converges.
