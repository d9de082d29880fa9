(** The multi-start initialiser kmeansPP does not depend on the number of threads,
    the loading path or the schedules (exact arithmetic, equal draws). *)
From Coq Require Import Reals Lra.
From Verif Require Import Base Num Spec DistModel ClustersModel ClustersView PartitionModel ParModel KmeansModel PruneModel BestOfModel.
From Verif Require Import MatLemmas VecLemmas ClustersProofs DistProofs PartitionProofs ParProofs NearProofs KmeansProofs UpdateProofs RunProofs DistMatProofs PruneProofs PruneRound PruneUpdate PruneRun.
From Verif Require Import InitProofs SimProofs KmeansR PropertiesKmeansR PropertiesRun KmsppR PruneRun2 PropertiesKmspp PropertiesPrune MbProofs PropertiesMb MbThreads PropertiesBestOf.
From Verif Require ExamplesPrune.
Set Implicit Arguments.
Local Open Scope R_scope.

(** two outcomes: related results, or the same failure *)
Definition rsim {A B} (Q : A -> B -> Prop) (x : res A) (y : res B) : Prop :=
  match x, y with Ok a, Ok b => Q a b | Err e, Err e' => e = e' | _, _ => False end.

Lemma rsim_bind {A A' B B'} (Q : A -> A' -> Prop) (P : B -> B' -> Prop) x y f f' :
  rsim Q x y -> (forall a b, Q a b -> rsim P (f a) (f' b)) -> rsim P (Base.bind x f) (Base.bind y f').
Proof. destruct x, y; cbn; intros H F; try contradiction; auto. Qed.

Section T.
Variables (g : kcfg NumR) (nt : Z) (kind : load_kind) (data : list (car NumR)) (ws ws' : list (worker NumR)).
Let g' := with_threads g nt kind.
Hypothesis V : @valid_input NumR g data.
Hypothesis V' : @valid_input NumR g' data.
Hypothesis W : @wok NumR (g_nrow g) (g_ncol g) data ws.
Hypothesis W' : @wok NumR (g_nrow g) (g_ncol g) data ws'.
Hypothesis Hk : (1 <= g_k g)%nat.

(** the states of two coordinators: equal but for the workers' clusters *)
Definition peq (a b : pst NumR) : Prop :=
  ps_cltrs a = ps_cltrs b /\ ps_dm a = ps_dm b /\ PruneModel.ps_cells a = PruneModel.ps_cells b /\ ps_counts a = ps_counts b /\ ps_changed a = ps_changed b /\
  shaped (g_k g) (g_ncol g) (p_cl (ps_cltrs a)) /\ length (PruneModel.ps_cells a) = g_nrow g.

Lemma Htot : forall cells : list (R * option nat), length cells = g_nrow g ->
  fold_left (nadd NumR) (wsums ws cells) (nzero NumR) = fold_left (nadd NumR) (wsums ws' cells) (nzero NumR).
Proof. intros cl L. destruct W as (Wt & _). destruct W' as (Wt' & _). etransitivity; [apply (@wsums_total cl (g_nrow g) ws Wt L)|symmetry; apply (@wsums_total cl (g_nrow g) ws' Wt' L)]. Qed.

(** the loop keeps the shape *)
Lemma kmspp_loop_shape sch ur : (forall i, complete (w_ranges ws) (sch i)) ->
  forall n ci (c : clusters NumR) cells trace chosen r, (n + ci = g_k g)%nat -> (ci < g_k g)%nat ->
  shaped (g_k g) (g_ncol g) c -> length cells = g_nrow g ->
  kmspp_loop g ws data sch ur n ci (c, cells) trace chosen = Ok r ->
  shaped (g_k g) (g_ncol g) (fst (fst (fst r))) /\ length (snd (fst (fst r))) = g_nrow g.
Proof.
  intros C1. induction n as [|n IH]; intros ci c cells trace chosen rr Hn Hci Sh L; [lia|].
  cbn [kmspp_loop]. cbn [fst snd].
  rewrite (@kmspp_round_ok NumR g data V ws c ci (sch ci) cells W Sh Hci L (C1 ci)).
  set (K := kcells g data ci (crow c ci) cells).
  assert (LK : length K = g_nrow g) by (apply kcells_length; exact L).
  cbn [Base.bind fst snd].
  destruct (Nat.leb_spec (g_k g) (Datatypes.S ci)) as [Hk'|Hk']; [intros E; injection E as <-; cbn [fst snd]; auto|].
  destruct (kmspp_pick NumR (map fst K) 0 _) as [[r|] cuml] eqn:Ep.
  - apply kmspp_pick_range in Ep. rewrite map_length in Ep.
    assert (Hr : (r < g_nrow g)%nat) by lia.
    destruct (@thd_row_ok NumR g data V r Hr) as (p & Ep1 & Hp). rewrite Ep1. cbn [Base.bind].
    destruct (@set_mean_at_eq NumR (g_k g) (g_ncol g) c p p (row data (g_ncol g) r) (Datatypes.S ci) Sh Hk' (@data_row_length NumR g data V r Hr) Hp Hp) as (c' & E1 & _ & Sh').
    rewrite E1. cbn [Base.bind]. destruct (amod K r _) as [K'|e] eqn:EK; cbn [Base.bind]; [|intros E; discriminate E].
    destruct (nleb NumR cuml (nzero NumR)); cbn [assert_ Base.bind]; [|intros E; discriminate E].
    apply IH; try lia; auto. apply amod_inv in EK as (y & _ & ->). rewrite upd_length. exact LK.
  - cbn [Base.bind]. destruct (nleb NumR cuml (nzero NumR)); cbn [assert_ Base.bind]; [|intros E; discriminate E]. apply IH; auto; lia.
Qed.

Lemma seed_threads dr dr' a b : draws_ok g data PLUSPLUS dr ->
  (forall i, complete (w_ranges ws) (d_sched dr i)) -> (forall i, complete (w_ranges ws') (d_sched dr' i)) ->
  d_int dr' 0%nat = d_int dr 0%nat -> d_real dr' = d_real dr -> peq a b ->
  rsim peq (prune_run_init g PLUSPLUS ws data dr a) (prune_run_init g' PLUSPLUS ws' data dr' b).
Proof.
  intros (D & _) S1 S2 Ei Er (E1 & E2 & E3 & E4 & E5 & Sh & Lc). unfold prune_run_init, kmeanspp_init_t. rewrite Ei, Er, <- E1, <- E2, <- E3, <- E4, <- E5. cbn [s_cltrs s_asg].
  destruct (@thd_row_ok NumR g data V _ D) as (p & Ep & Hp). destruct (@thd_row_ok NumR g' data V' _ D) as (p' & Ep' & Hp'). rewrite Ep, Ep'. cbn [Base.bind].
  destruct (@set_mean_at_eq NumR (g_k g) (g_ncol g) (p_cl (ps_cltrs a)) p p' (row data (g_ncol g) (d_int dr 0)) 0 Sh ltac:(lia) (@data_row_length NumR g data V _ D) Hp Hp') as (c' & G1 & G2 & Sh').
  rewrite G1, G2. cbn [Base.bind]. change (g_nrow g') with (g_nrow g). change (g_k g') with (g_k g).
  assert (La : length (asg_of (PruneModel.ps_cells a)) = g_nrow g) by (unfold asg_of; rewrite map_length; exact Lc).
  rewrite !aset_ok by (rewrite ?La, ?repeat_length; exact D). cbn [Base.bind].
  set (cl0 := combine (upd (repeat (nmax NumR) (g_nrow g)) (d_int dr 0%nat) (nzero NumR)) (upd (asg_of (PruneModel.ps_cells a)) (d_int dr 0%nat) (Some 0%nat))).
  assert (Lk : length (combine (upd (repeat (nmax NumR) (g_nrow g)) (d_int dr 0%nat) (nzero NumR)) (upd (asg_of (PruneModel.ps_cells a)) (d_int dr 0%nat) (Some 0%nat))) = g_nrow g).
  { rewrite combine_length, !upd_length, repeat_length. rewrite La. lia. }
  destruct (@kmspp_loop_eq NumR g data nt kind ws ws' V V' W W' Htot (d_sched dr) (d_sched dr') (d_real dr) S1 S2 (g_k g) 0%nat c' cl0 (@nil (list (car NumR))) [d_int dr 0%nat] ltac:(lia) ltac:(lia) Sh' Lk) as (E & _).
  pose proof (@kmspp_loop_shape (d_sched dr) (d_real dr) S1 (g_k g) 0%nat c' cl0 (@nil (list (car NumR))) [d_int dr 0%nat]) as HS.
  specialize (fun r => HS r ltac:(lia) ltac:(lia) Sh' Lk).
  fold g' in E. rewrite <- E. clear E.
  destruct (kmspp_loop g ws data (d_sched dr) (d_real dr) (g_k g) 0 _ _ _) as [[[[c2 cells] tr] ch]|e]; cbn [Base.bind rsim]; [|reflexivity].
  destruct (HS _ eq_refl) as (Sh2 & L2). cbn [fst snd] in Sh2, L2. unfold peq. cbn [ps_cltrs ps_dm PruneModel.ps_cells ps_counts ps_changed s_asg s_cltrs s_counts s_changed]. splits; auto.
  etransitivity; [apply combine_length|]. etransitivity; [apply f_equal2; [apply combine_length|apply map_length]|]. rewrite !map_length. etransitivity; [apply f_equal2; [apply f_equal2; exact L2|exact Lc]|]. lia.
Qed.

Lemma tally_threads a b : peq a b -> rsim peq (tally_state a) (tally_state b).
Proof.
  intros (E1 & E2 & E3 & E4 & E5 & Sh & Lc). unfold tally_state. rewrite <- E3, <- E4. destruct (tally _ _) as [c|e]; cbn [Base.bind rsim]; [|reflexivity].
  unfold peq, with_counts. cbn [ps_cltrs ps_dm PruneModel.ps_cells ps_counts ps_changed]. splits; auto.
Qed.

Lemma loop_threads drs drs' : forall m start a b r,
  (forall i, (i < start + m)%nat -> draws_ok g data PLUSPLUS (drs i) /\ (forall t, complete (w_ranges ws) (d_sched (drs i) t)) /\ (forall t, complete (w_ranges ws') (d_sched (drs' i) t)) /\
     d_int (drs' i) 0%nat = d_int (drs i) 0%nat /\ d_real (drs' i) = d_real (drs i)) ->
  peq a b -> pp_loop true g ws data drs m start a r = pp_loop true g' ws' data drs' m start b r.
Proof.
  induction m as [|m IH]; intros start a b r Hd E; cbn [pp_loop]; [reflexivity|].
  destruct (Hd start ltac:(lia)) as (D & S1 & S2 & Ei & Er).
  assert (H : rsim peq (reinit true g ws data (drs start) a) (reinit true g' ws' data (drs' start) b)).
  { unfold reinit. apply seed_threads; auto. destruct E as (E1 & E2 & E3 & E4 & E5 & Sh & Lc). unfold peq. cbn [ps_cltrs ps_dm PruneModel.ps_cells ps_counts ps_changed with_cl p_cl]. rewrite <- E1, <- E2, <- E3, <- E5. splits; auto.
    - change (shaped (g_k g) (g_ncol g) (clear (p_cl (ps_cltrs a)))). rewrite (clear_create Sh). apply shaped_create.
    - rewrite map_length. exact Lc. }
  destruct (reinit true g ws data (drs start) a) as [a1|e], (reinit true g' ws' data (drs' start) b) as [b1|e']; cbn [rsim] in H; try contradiction; cbn [Base.bind]; [|rewrite H; reflexivity].
  pose proof (tally_threads H) as H2. destruct (tally_state a1) as [a2|e], (tally_state b1) as [b2|e']; cbn [rsim] in H2; try contradiction; cbn [Base.bind]; [|rewrite H2; reflexivity].
  assert (Ee : cluster_energy b2 = cluster_energy a2) by (unfold cluster_energy; destruct H2 as (_ & _ & E3 & _); rewrite E3; reflexivity).
  assert (Eo : dump_state g' b2 = dump_state g a2) by (unfold dump_state; destruct H2 as (E1 & _ & E3 & E4 & _); rewrite E1, E3, E4; reflexivity).
  rewrite Ee, Eo. apply IH; [intros i Hi; apply Hd; lia|exact H2].
Qed.
End T.

(** Two calls of kmeansPP on the same rows with the same draws, with any thread
    counts, loading paths and fair schedules, have the same outcome: the same best
    start, its energy and clustering, the same history of starts, or the same
    failure. *)
Theorem C134_same : forall n d k (nth1 nth2 : Z) dt kind1 kind2 nstart (data : list R) (drs1 drs2 : nat -> draws NumR),
  let g1 := pp_cfg NumR n d k nth1 dt kind1 in
  let g2 := pp_cfg NumR n d k nth2 dt kind2 in
  (2 <= k)%nat -> (1 <= n)%nat -> (Z.of_nat n < 2 ^ 32)%Z -> (1 <= nth1 < 2 ^ 32)%Z -> (1 <= nth2 < 2 ^ 32)%Z -> length data = (n * d)%nat -> (1 <= nstart)%nat ->
  (forall i, (i < nstart)%nat -> (d_int (drs1 i) 0 < n)%nat /\ fair g1 data (d_sched (drs1 i)) /\ fair g2 data (d_sched (drs2 i)) /\
     d_int (drs2 i) 0%nat = d_int (drs1 i) 0%nat /\ d_real (drs2 i) = d_real (drs1 i)) ->
  kmeansPP true g1 nstart data drs1 = kmeansPP true g2 nstart data drs2.
Proof.
  intros n d k nth1 nth2 dt kind1 kind2 nstart data drs1 drs2 g1 g2 Hk Hn Hn32 H1 H2 Hl Hs Hd.
  assert (V : valid_input g1 data) by (split; [exact Hn|split; [exact Hn32|split; [exact H1|exact Hl]]]).
  assert (V' : valid_input g2 data) by (split; [exact Hn|split; [exact Hn32|split; [exact H2|exact Hl]]]).
  destruct (get_workers V) as (ws & Ew & W). destruct (get_workers V') as (ws' & Ew' & W').
  unfold kmeansPP. rewrite Ew, Ew'. cbn [Base.bind]. unfold prune_run. rewrite Ew, Ew'.
  destruct (@create_pre g1 data Hk None PLUSPLUS I) as (s & ks & Es & Ek & A1 & A2 & A3 & A4 & A5 & A6 & A7 & A8 & _).
  destruct (@create_threads g1 nth2 kind2 None PLUSPLUS s Es) as (l & Es'). change (with_threads g1 nth2 kind2) with g2 in Es'.
  rewrite Es, Es'. cbn [Base.bind].
  assert (Hd' : forall i, (i < 1 + (nstart - 1))%nat -> draws_ok g1 data PLUSPLUS (drs1 i) /\ (forall t, complete (w_ranges ws) (d_sched (drs1 i) t)) /\ (forall t, complete (w_ranges ws') (d_sched (drs2 i) t)) /\
     d_int (drs2 i) 0%nat = d_int (drs1 i) 0%nat /\ d_real (drs2 i) = d_real (drs1 i)).
  { intros i Hi. destruct (Hd i ltac:(lia)) as (B1 & B2 & B3 & B4 & B5). splits; auto. split; [exact B1|exact B2]. }
  assert (E0 : peq g1 s (mkPst (ps_cltrs s) (ps_dm s) (PruneModel.ps_cells s) (ps_counts s) (ps_changed s) l)).
  { unfold peq. cbn [ps_cltrs ps_dm PruneModel.ps_cells ps_counts ps_changed]. splits; auto. rewrite A1. apply (@stok_create NumR g1 None PLUSPLUS data ks ws V Ek Ew). }
  destruct (Hd' 0%nat ltac:(lia)) as (D & S1 & S2 & Ei & Er).
  pose proof (@seed_threads g1 nth2 kind2 data ws ws' V V' W W' ltac:(cbn; lia) (drs1 0%nat) (drs2 0%nat) _ _ D S1 S2 Ei Er E0) as H.
  change (with_threads g1 nth2 kind2) with g2 in H.
  destruct (prune_run_init g1 PLUSPLUS ws data (drs1 0%nat) s) as [a|e], (prune_run_init g2 PLUSPLUS ws' data (drs2 0%nat) _) as [b|e']; cbn [rsim] in H; try contradiction; cbn [Base.bind]; [|rewrite H; reflexivity].
  change (0 <? g_max_iters g1)%nat with false. change (0 <? g_max_iters g2)%nat with false. cbv iota.
  pose proof H as (B1 & B2 & B3 & B4 & B5 & Sh & Lc). rewrite <- B3, <- B4. destruct (tally (PruneModel.ps_cells a) (ps_counts a)) as [c|e]; cbn [Base.bind pr_init pr_out ct_counts]; [|reflexivity].
  assert (H2' : peq g1 (with_counts a c) (with_counts b c)) by (unfold peq, with_counts; cbn [ps_cltrs ps_dm PruneModel.ps_cells ps_counts ps_changed]; splits; auto).
  pose proof (tally_threads H2') as H3. destruct (tally_state (with_counts a c)) as [a2|e], (tally_state (with_counts b c)) as [b2|e']; cbn [rsim] in H3; try contradiction; cbn [Base.bind]; [|rewrite H3; reflexivity].
  assert (Ee : cluster_energy b2 = cluster_energy a2) by (unfold cluster_energy; destruct H3 as (_ & _ & E3 & _); rewrite E3; reflexivity).
  rewrite Ee, <- B1. change (g_nrow g2) with (g_nrow g1). change (g_ncol g2) with (g_ncol g1). change (g_k g2) with (g_k g1).
  apply (@loop_threads g1 nth2 kind2 data ws ws' V V' W W' ltac:(cbn; lia) drs1 drs2 (nstart - 1) 1 a2 b2); [exact Hd'|exact H3].
Qed.
Print Assumptions C134_same.

(** With distances below the largest double and distinguishable rows both return
    and return the same. *)
Theorem C134_returns : forall n d k (nth1 nth2 : Z) dt kind1 kind2 nstart (data : list R) (drs1 drs2 : nat -> draws NumR),
  let g1 := pp_cfg NumR n d k nth1 dt kind1 in
  let g2 := pp_cfg NumR n d k nth2 dt kind2 in
  (1 <= nstart)%nat -> pp_args g1 nstart data drs1 -> (1 <= nth2 < 2 ^ 32)%Z ->
  (forall i, (i < nstart)%nat -> fair g2 data (d_sched (drs2 i)) /\
     d_int (drs2 i) 0%nat = d_int (drs1 i) 0%nat /\ d_real (drs2 i) = d_real (drs1 i)) ->
  exists r, kmeansPP true g1 nstart data drs1 = Ok r /\ kmeansPP true g2 nstart data drs2 = Ok r.
Proof.
  intros n d k nth1 nth2 dt kind1 kind2 nstart data drs1 drs2 g1 g2 Hs A H2 Hd.
  destruct (C64_best_start_partial Hs A) as (r & E & _). exists r. split; [exact E|].
  destruct A as (_ & Hk & (V1 & V2 & V3 & V4) & _ & Hdr & _).
  rewrite <- E. symmetry. apply (@C134_same n d k nth1 nth2 dt kind1 kind2 nstart data drs1 drs2 Hk V1 V2 V3 H2 V4 Hs).
  intros i Hi. destruct (Hdr i Hi) as ((D & F) & _). destruct (Hd i Hi) as (F2 & Ei & Er). splits; auto.
Qed.
Print Assumptions C134_returns.

(** the premises are met: three rows, two starts, one thread and two *)
Section Ex.
Definition bt1 : kcfg NumR := pp_cfg NumR 3 1 2 1 EUCL UserBuffer.
Definition bt2 : kcfg NumR := pp_cfg NumR 3 1 2 2 EUCL NumaReorg.
Definition btdata : list R := [1; 2; 4].
Definition bt_sched (g : kcfg NumR) : nat -> list nat := fun _ => match @build_workers NumR g btdata with Ok ws => seq_sched (w_ranges ws) | Err _ => [] end.
Definition btdr (g : kcfg NumR) (i : nat) : draws NumR := mkDraws NumR (fun _ => i) (fun _ => 1 / 2) (bt_sched g).
Lemma bt_fair (g : kcfg NumR) : @fair NumR g btdata (bt_sched g).
Proof. intros ws E j. unfold bt_sched. rewrite E. apply seq_sched_complete. Qed.

Example C134_example : exists r, kmeansPP true bt1 2 btdata (btdr bt1) = Ok r /\ kmeansPP true bt2 2 btdata (btdr bt2) = Ok r.
Proof.
  apply C134_returns; [lia| |lia|].
  - unfold pp_args. split; [reflexivity|]. split; [cbn; lia|]. split; [unfold valid_input; cbn; splits; try lia; reflexivity|].
    split; [intros H; discriminate|]. split.
    + intros i Hi. split; [split; [cbn; lia|apply bt_fair]|]. intros t. cbn [btdr d_real]. lra.
    + cbn [bt1 pp_cfg g_nrow g_dt g_ncol].
      assert (Hm : 1000 < IZR dbl_max_Z) by (apply IZR_lt; vm_compute; reflexivity). revert Hm. generalize (IZR dbl_max_Z). intros M Hm r q Hr Hq.
      assert (E : forall x y : R, 0 < x < 1000 -> 0 < y < 1000 -> rdist EUCL [x] [y] < M).
      { intros x y Hx Hy. cbn [rdist]. rewrite ExamplesPrune.ed1. unfold Rabs. destruct (Rcase_abs (x - y)); lra. }
      destruct r as [|[|[|r]]]; [| | |lia]; destruct q as [|[|[|q]]]; try lia; apply E; lra.
  - intros i Hi. splits; auto. apply bt_fair.
Qed.
End Ex.
