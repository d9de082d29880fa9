(** Whole runs of pruned k-means, in exact arithmetic. *)
From Coq Require Import Reals Lra.
From Verif Require Import Base Num Spec DistModel ClustersModel ClustersView PartitionModel ParModel KmeansModel PruneModel.
From Verif Require Import MatLemmas VecLemmas ClustersProofs DistProofs PartitionProofs ParProofs NearProofs KmeansProofs UpdateProofs RunProofs ParRule DistMatProofs PruneProofs ClusterSums PruneRound PruneUpdate PruneRun.
From Verif Require Import InitProofs SimProofs PropertiesRun KmsppR.
Set Implicit Arguments.
Local Open Scope R_scope.

Lemma pr_map_repeat {A B} (f : A -> B) a m : map f (repeat a m) = repeat (f a) m.
Proof. induction m; cbn; congruence. Qed.

Lemma comb3 {A B C} (u : list A) (v : list B) (w : list C) n : length u = n -> length v = n -> length w = n ->
  length (combine (combine u v) w) = n /\
  forall r da db dc dd, (r < n)%nat -> nth r (combine (combine u v) w) dd = (nth r u da, nth r v db, nth r w dc).
Proof.
  intros L1 L2 L3. split; [rewrite !combine_length; lia|]. intros r da db dc dd Hr.
  rewrite (nth_indep _ dd (da, db, dc)) by (rewrite !combine_length; lia).
  rewrite combine_nth by (rewrite combine_length; lia). rewrite combine_nth by lia. reflexivity.
Qed.

Section Run.
Variables (g : kcfg NumR) (data : list (car NumR)).
Let d := g_ncol g.
Let k := g_k g.
Let n := g_nrow g.
Let X (r : nat) : list R := row data d r.
Hypothesis Hk2 : (2 <= k)%nat.
Hypothesis V : valid_input g data.

(** one turn of the main loop: the change counter is reset first *)
Definition pstep (ws : list (worker NumR)) (s s' : pst NumR) : Prop :=
  exists sched, complete (w_ranges ws) sched /\ prune_iterate g ws sched (with_changed s 0) = Ok s'.

Lemma pinv_with ws s m : pinv g ws data s -> pinv g ws data (with_changed s m).
Proof. intros H. exact H. Qed.

Lemma prune_loop_ok ws scheds : wok n d data ws -> (forall i, complete (w_ranges ws) (scheds i)) ->
  forall m iter s trace, pinv g ws data s -> ps_changed s = 0%nat ->
  exists iter' conv s' more, prune_loop g ws scheds m iter s trace = Ok (iter', conv, s', trace ++ more) /\
    (forall i a b, nth_error (s :: more) i = Some a -> nth_error more i = Some b -> pstep ws a b) /\
    Forall (pinv g ws data) more /\ (exists c, s' = with_changed (last more s) c) /\ (length more <= m)%nat /\
    (conv = true -> exists pre f, more = pre ++ [f] /\ stop_test g (ps_changed f) = true /\
        Forall (fun x => stop_test g (ps_changed x) = false) pre /\ S iter' = (iter + length more)%nat) /\
    (conv = false -> length more = m /\ Forall (fun x => stop_test g (ps_changed x) = false) more /\ iter' = (iter + length more)%nat).
Proof.
  intros Hws Hc. destruct V as (V1 & V2 & V3 & V4).
  induction m as [|m IH]; intros iter s trace Hi Hch.
  - exists iter, false, s, []. cbn [prune_loop length]. rewrite app_nil_r. splits; auto.
    + intros [|i] a b _ E; discriminate.
    + exists (ps_changed s). destruct s; reflexivity.
    + intros; discriminate.
  - cbn [prune_loop].
    destruct (@PruneRun.iterate_ok g ws data Hws V4 V2 Hk2 (scheds iter) s (Hc iter) Hi) as (s1 & E & Hi1 & _).
    rewrite E. cbn [bind]. assert (Es : with_changed s 0 = s) by (destruct s; cbn in *; subst; reflexivity).
    destruct (stop_test g (ps_changed s1)) eqn:Est.
    + exists iter, true, s1, [s1]. splits; auto.
      * intros [|[|i]] a b E1 E2; try discriminate. cbn in E1, E2. injection E1 as <-. injection E2 as <-. exists (scheds iter). rewrite Es. auto.
      * exists (ps_changed s1). destruct s1; reflexivity.
      * cbn. lia.
      * intros _. exists [], s1. splits; auto. cbn. lia.
      * intros; discriminate.
    + destruct (IH (S iter) (with_changed s1 0) (trace ++ [s1]) Hi1 eq_refl) as (iter' & conv & s' & more & E2 & H1 & H2 & H3 & H4 & H5 & H6).
      exists iter', conv, s', (s1 :: more). rewrite E2, <- app_assoc. splits; auto.
      * intros [|i] a b E3 E4.
        -- cbn in E3, E4. injection E3 as <-. injection E4 as <-. exists (scheds iter). rewrite Es. auto.
        -- change (nth_error (s1 :: more) i = Some a) in E3. change (nth_error more i = Some b) in E4. destruct i as [|i].
           ++ cbn in E3. injection E3 as <-. destruct (H1 0%nat (with_changed s1 0) b eq_refl E4) as (sc & Hsc & Esc). exists sc. split; auto.
           ++ apply (H1 (S i)); auto.
      * destruct H3 as (c & ->). destruct more as [|x more]; [exists c; reflexivity|]. exists c. f_equal.
        assert (G : forall (l : list (pst NumR)) x u v, last (x :: l) u = last (x :: l) v) by (clear; induction l as [|y l IHl]; intros; [reflexivity|apply (IHl y)]).
        rewrite (G more x _ s). reflexivity.
      * cbn [length]. lia.
      * intros Hv. destruct (H5 Hv) as (pre & f & -> & G1 & G2 & G3). exists (s1 :: pre), f. splits; auto. cbn [length] in *. lia.
      * intros Hv. destruct (H6 Hv) as (G1 & G2 & G3). splits; auto; cbn [length]; lia.
Qed.

(** after the initialisation *)
Definition finite_start (s : pst NumR) : Prop :=
  forall r j, (r < n)%nat -> (j < k)%nat -> rdist (g_dt g) (X r) (cent s j) < nmax NumR.

Definition real_draws (it : init_t) (dr : draws NumR) : Prop :=
  it = PLUSPLUS -> g_dt g <> COS /\ forall i, 0 <= d_real dr i <= 1.

Lemma create_pre centers it : centers_ok g centers it ->
  exists s ks, prune_create_coord g centers it = Ok s /\ coordinator_create g centers it = Ok ks /\
    p_cl (ps_cltrs s) = s_cltrs ks /\ asg_of (ps_cells s) = s_asg ks /\ ps_counts s = s_counts ks /\ ps_changed s = s_changed ks /\ ps_local s = s_local ks /\
    dist_of (ps_cells s) = repeat (nmax NumR) n /\ length (ps_cells s) = n /\ s_asg ks = repeat None n /\
    p_prev_means (ps_cltrs s) = repeat 0 (d * k) /\ p_prev_dist (ps_cltrs s) = repeat 0 k /\ length (p_s_val (ps_cltrs s)) = k /\ dm_ok k (ps_dm s).
Proof.
  intros Hc. destruct (@create_ok NumR g centers it ltac:(lia) Hc) as (ks & E & _).
  unfold coordinator_create in E. unfold prune_create_coord.
  destruct (@assert_ (1 <=? g_k g)%nat) as [u|]; cbn [bind] in *; [|discriminate].
  destruct (@dm_create_ok NumR k Hk2) as (dm & Edm & Hdm). unfold k in Edm. rewrite Edm.
  cbn [prune_create p_cl].
  assert (G : exists c, match centers, it with Some m, NONE => set_mean_all (clusters_create NumR (g_k g) (g_ncol g)) (m, 0%nat) | _, _ => Ok (clusters_create NumR (g_k g) (g_ncol g)) end = Ok c /\
     coordinator_create g centers it = Ok ks /\ ks = mkSt c (repeat None (g_nrow g)) (repeat 0%Z (g_k g)) 0
        (repeat (clusters_create NumR (g_k g) (g_ncol g), 0%nat) (Z.to_nat (eff_threads (g_nthreads g) (Z.of_nat (g_nrow g)))))).
  { apply bind_ok in E as (c & Ec & E). exists c. split; [exact Ec|]. injection E as <-. split; [|reflexivity].
    unfold coordinator_create. replace (1 <=? g_k g)%nat with true by (symmetry; apply Nat.leb_le; unfold k in Hk2; lia).
    cbn [assert_ bind]. rewrite Ec. reflexivity. }
  destruct G as (c & Ec & Eks & ->). rewrite Ec. cbn [bind].
  eexists _, _. split; [reflexivity|]. split; [exact Eks|].
  cbn [ps_cltrs ps_cells ps_counts ps_changed ps_local ps_dm p_cl with_cl s_cltrs s_asg s_counts s_changed s_local p_prev_means p_prev_dist p_s_val prune_create].
  unfold asg_of, dist_of. rewrite !pr_map_repeat, !repeat_length. cbn [fst snd]. splits; auto.
Qed.

Lemma init_pre centers it dr : valid_args g data centers it dr -> real_draws it dr ->
  exists ws s0 s, build_workers g data = Ok ws /\ wok n d data ws /\ prune_create_coord g centers it = Ok s0 /\
    prune_run_init g it ws data dr s0 = Ok s /\
    ppre g ws s /\ p_prev_means (ps_cltrs s) = repeat 0 (d * k) /\
    (finite_start s -> forall r, (r < n)%nat -> entry_ok k (g_dt g) (cent s) (X r) (cdist (cellat s r)) (casg (cellat s r))).
Proof.
  intros (_ & Hk1 & Hco & Hdr) Hrd. pose proof V as (V1 & V2 & V3 & V4).
  destruct (@build_workers_ok NumR g data V1 V2 V3 V4) as (ws & Ew & Hws & Lw & _).
  destruct (create_pre centers it Hco) as (s0 & ks & E0 & Ek & A1 & A2 & A3 & A4 & A5 & A6 & A7 & A7' & A8 & A9 & A10 & A11).
  destruct (@create_stok NumR g centers it ks ws Ek Lw) as (Hst & _).
  exists ws, s0.
  assert (Eks : mkSt (p_cl (ps_cltrs s0)) (asg_of (ps_cells s0)) (ps_counts s0) (ps_changed s0) (ps_local s0) = ks)
    by (rewrite A1, A2, A3, A4, A5; destruct ks; reflexivity).
  (* what the initialiser leaves *)
  assert (G : forall ks' dv, stok g ws ks' -> length dv = n ->
     let s := mkPst (with_cl (ps_cltrs s0) (s_cltrs ks')) (ps_dm s0) (combine (combine dv (s_asg ks')) (map snd (ps_cells s0)))
        (s_counts ks') (s_changed ks') (s_local ks') in
     (ppre g ws s /\ p_prev_means (ps_cltrs s) = repeat 0 (d * k)) /\
     forall r, (r < n)%nat -> cdist (cellat s r) = nth r dv 0 /\ casg (cellat s r) = nth r (s_asg ks') None).
  { intros ks' dv (S1 & S2 & S3 & S4 & S5) Ldv s.
    assert (Lm : length (map snd (ps_cells s0)) = n) by (rewrite map_length; exact A7).
    pose proof (@comb3 R (option nat) bool dv (s_asg ks') (map snd (ps_cells s0)) n Ldv S3 Lm) as Lc3. split; [split|].
    - unfold ppre, s. cbn [ps_cltrs ps_dm ps_counts ps_cells ps_local with_cl]. splits; auto.
      + unfold psized. cbn [with_cl p_cl p_prev_means p_prev_dist p_s_val]. rewrite A8, A9, !repeat_length. splits; auto. apply Nat.mul_comm.
      + apply Lc3.
      + split; auto.
    - exact A8.
    - intros r Hr. unfold cellat, s, cdist, casg. cbn [ps_cells].
      destruct Lc3 as (_ & Lc3). pose proof (Lc3 r 0 None false dcell Hr) as E3.
      split; [exact (f_equal (fun c => fst (fst c)) E3)|exact (f_equal (fun c => snd (fst c)) E3)]. }
  assert (Hother : it <> PLUSPLUS -> exists s, prune_run_init g it ws data dr s0 = Ok s /\
    (ppre g ws s /\ p_prev_means (ps_cltrs s) = repeat 0 (d * k)) /\
    (forall r, (r < n)%nat -> cdist (cellat s r) = nmax NumR)).
  { intros Hit. unfold prune_run_init. rewrite Eks.
    assert (Hri : exists ks', run_init g it ws data dr ks = Ok ks').
    { destruct Hst as (S1 & S2 & S3 & S4 & S5). unfold run_init. destruct it; try congruence.
      - destruct (@random_ok NumR g data V (d_int dr) ks) as (ks' & E & _); eauto.
        rewrite <- A1. unfold prune_create_coord in E0. apply bind_ok in E0 as (u & _ & E0). apply bind_ok in E0 as (c & Ec & E0). apply bind_ok in E0 as (dm & _ & E0).
        injection E0 as <-. cbn [ps_cltrs with_cl p_cl]. destruct centers; injection Ec as <-; reflexivity.
      - destruct (@forgy_ok NumR g data V (d_int dr) ks S1 Hdr) as (ks' & E & _); eauto.
      - eauto. }
    destruct Hri as (ks' & Ei). pose proof (@run_init_stok NumR g it ws data dr ks ks' Ei Hst) as Hst'.
    destruct (G ks' (dist_of (ps_cells s0)) Hst') as (G1 & G2); [rewrite A6; apply repeat_length|].
    eexists. split; [destruct it; try congruence; rewrite Ei; reflexivity|]. split; [exact G1|].
    intros r Hr. destruct (G2 r Hr) as (Gd & _). rewrite Gd, A6. apply nth_repeat_d. exact Hr. }
  destruct it.
  1,2,4: destruct Hother as (s & E & (H1 & H2) & H3); [congruence|]; exists s; splits; auto; intros Hf r Hr; left; split; [apply H3; exact Hr|intros j Hj; apply Hf; auto].
  clear Hother. destruct Hdr as (Hfst & Hfair). destruct (Hrd eq_refl) as (Hdt & Hur).
  destruct (@kmspp_init_R g data ws V Hws) with (sch := d_sched dr) (ur := d_real dr) (first := d_int dr 0%nat) (s := ks)
    as (ks' & dv & tr & ch & E & K1 & K2 & K3 & K4 & K5 & K6 & K7 & K8 & K9 & K10 & _); auto.
  { intros r _. apply rdist_self. exact Hdt. }
  { intros r q _ _. apply rdist_nonneg. exact Hdt. }
  { apply Hst. }
  assert (Hri : run_init g PLUSPLUS ws data dr ks = Ok ks') by (cbn [run_init]; match goal with |- context [bind ?t _] => replace t with (Ok (ks', dv, tr, ch)) by (symmetry; exact E) end; reflexivity).
  pose proof (@run_init_stok NumR g PLUSPLUS ws data dr ks ks' Hri Hst) as Hst'.
  destruct (G ks' dv Hst' K9) as ((G1 & G1') & G2).
  eexists. split; [exact Ew|]. split; [exact Hws|]. split; [exact E0|]. split.
  { unfold prune_run_init. rewrite Eks. match goal with |- context [bind ?t _] => replace t with (Ok (ks', dv, tr, ch)) by (symmetry; exact E) end. cbn [bind]. reflexivity. }
  split; [exact G1|]. split; [exact G1'|]. intros Hf r Hr. destruct (G2 r Hr) as (Gd & Ga). rewrite Gd, Ga. right.
  assert (Ev : nth_error dv r = Some (nth r dv 0)) by (apply nth_error_nth'; lia).
  assert (Ea : nth_error (s_asg ks') r = Some (nth r (s_asg ks') None)) by (apply nth_error_nth'; fold n in K8; lia).
  destruct (K10 r _ _ Ev Ea) as (M1 & M2).
  assert (Hcent : forall j, (j < k)%nat -> crow (s_cltrs ks') j = X (nth j ch 0%nat)) by exact K6.
  destruct M2 as [Hmax|(j & q & Ej & Eaj & Evj)].
  - exfalso. destruct M1 as (M1 & _). specialize (Hf r 0%nat Hr ltac:(lia)). unfold cent in Hf. cbn [ps_cltrs with_cl p_cl] in Hf.
    rewrite Hcent in Hf by lia. specialize (M1 (nth 0 ch 0%nat)). rewrite Hmax in M1.
    assert (Hin : In (nth 0 ch 0%nat) ch) by (apply nth_In; fold k in K2; lia).
    apply (Rlt_irrefl (nmax NumR)). eapply Rle_lt_trans; [exact (M1 Hin)|exact Hf].
  - assert (Hj : (j < k)%nat) by (unfold k; rewrite <- K2; apply nth_error_Some; congruence).
    exists j. splits; auto. rewrite Evj. unfold cent. cbn [ps_cltrs with_cl p_cl]. rewrite Hcent by exact Hj.
    rewrite (nth_error_nth _ _ 0%nat Ej). reflexivity.
Qed.

End Run.
