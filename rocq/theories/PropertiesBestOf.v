(** C64: the multi-start initialiser kmeansPP. *)
From Coq Require Import Reals Lra.
From Verif Require Import Base Num Spec DistModel ClustersModel ClustersView PartitionModel ParModel KmeansModel PruneModel BestOfModel.
From Verif Require Import MatLemmas VecLemmas ClustersProofs DistProofs PartitionProofs ParProofs NearProofs KmeansProofs UpdateProofs RunProofs DistMatProofs PruneProofs PruneRound PruneUpdate PruneRun.
From Verif Require Import InitProofs SimProofs KmeansR PropertiesKmeansR PropertiesRun KmsppR PruneRun2 PropertiesKmspp PropertiesPrune MbProofs PropertiesMb.
Set Implicit Arguments.
Local Open Scope R_scope.

(** ** Specification *)

(** A start: seeding with the first centre [first], its energy [e] and its
    clustering [out]: k centres that are data rows, every row with a nearest
    centre, the sizes of the clusters, and the energy: the sum over the rows of
    the distance to the nearest centre *)
Definition start_ok (g : kcfg NumR) (data : list R) (first : nat) (e : R) (out : cluster_t NumR) : Prop :=
  let X r := row data (g_ncol g) r in
  let C j := row (ct_centroids out) (g_ncol g) j in
  (exists chosen, length chosen = g_k g /\ nth_error chosen 0 = Some first /\
     forall j, (j < g_k g)%nat -> (nth j chosen 0 < g_nrow g)%nat /\ C j = X (nth j chosen 0%nat)) /\
  (exists near : nat -> nat,
     (forall r, (r < g_nrow g)%nat -> nth_error (ct_asg out) r = Some (Some (near r)) /\ (near r < g_k g)%nat /\
        forall j, (j < g_k g)%nat -> rdist (g_dt g) (X r) (C (near r)) <= rdist (g_dt g) (X r) (C j)) /\
     length (ct_asg out) = g_nrow g /\ length (ct_counts out) = g_k g /\
     (forall j, (j < g_k g)%nat -> nth j (ct_counts out) 0%Z = Z.of_nat (length (filter (fun r => near r =? j)%nat (seq 0 (g_nrow g))))) /\
     e = rsum (map (fun r => rdist (g_dt g) (X r) (C (near r))) (seq 0 (g_nrow g)))) /\
  ct_nrow out = g_nrow g /\ ct_ncol out = g_ncol g /\ ct_k out = g_k g /\ ct_iters out = 0%nat.

Definition pp_args (g : kcfg NumR) (nstart : nat) (data : list R) (drs : nat -> draws NumR) : Prop :=
  g_max_iters g = 0%nat /\ (2 <= g_k g)%nat /\ valid_input g data /\ proper g data /\
  (forall i, (i < nstart)%nat -> draws_ok g data PLUSPLUS (drs i) /\ forall t, 0 <= d_real (drs i) t <= 1) /\
  (forall r q, (r < g_nrow g)%nat -> (q < g_nrow g)%nat -> rdist (g_dt g) (row data (g_ncol g) r) (row data (g_ncol g) q) < IZR dbl_max_Z).

(** ** Proofs *)
Lemma energy_R (cells : list (pcell NumR)) (f : nat -> R) :
  (forall r, (r < length cells)%nat -> nth r (dist_of cells) 0 = f r) ->
  fold_left (nadd NumR) (dist_of cells) (nzero NumR) = rsum (map f (seq 0 (length cells))).
Proof.
  assert (Ld : length (dist_of cells) = length cells) by (unfold dist_of; apply map_length).
  rewrite <- Ld. generalize (dist_of cells) as l. intros l. clear. change (nadd NumR) with Rplus. change (nzero NumR) with 0. change (list (car NumR)) with (list R) in l.
  assert (G : forall (l : list R) a, fold_left Rplus l a = a + rsum l) by (induction l0 as [|x l0 IH]; intros a; cbn [fold_left rsum]; [lra|rewrite IH; lra]).
  intros H. etransitivity; [exact (G l 0)|]. rewrite Rplus_0_l. f_equal. apply nth_ext with (d := 0) (d' := 0); [rewrite map_length, seq_length; reflexivity|].
  intros i Hi. transitivity (f i); [apply H; exact Hi|]. symmetry. apply nth_error_nth. rewrite nth_error_map, (nth_error_nth' (seq 0 (length l)) 0%nat) by (rewrite seq_length; exact Hi).
  rewrite seq_nth by exact Hi. reflexivity.
Qed.

Section PP.
Variables (g : kcfg NumR) (data : list (car NumR)) (ws : list (worker NumR)).
Hypothesis V : valid_input g data.
Hypothesis Ew : build_workers g data = Ok ws.
Hypothesis W : wok (g_nrow g) (g_ncol g) data ws.
Hypothesis P : proper g data.
Hypothesis Hk : (2 <= g_k g)%nat.
Hypothesis Hfin : forall r q, (r < g_nrow g)%nat -> (q < g_nrow g)%nat -> rdist (g_dt g) (row data (g_ncol g) r) (row data (g_ncol g) q) < IZR dbl_max_Z.

(** a state the coordinator is in between starts *)
Definition ppst (s : pst NumR) : Prop := shaped (g_k g) (g_ncol g) (p_cl (ps_cltrs s)) /\ length (PruneModel.ps_cells s) = g_nrow g.

(** any seeding from zero counts, then one tally *)
Lemma pp_start dr s : draws_ok g data PLUSPLUS dr -> (forall t, 0 <= d_real dr t <= 1) -> ppst s -> ps_counts s = repeat 0%Z (g_k g) ->
  exists s1 s2, prune_run_init g PLUSPLUS ws data dr s = Ok s1 /\ tally_state s1 = Ok s2 /\ ppst s1 /\ ppst s2 /\
    start_ok g data (d_int dr 0%nat) (cluster_energy s2) (dump_state g s2) /\
    cluster_energy s2 = cluster_energy s1 /\ PruneModel.ps_cells s2 = PruneModel.ps_cells s1 /\ ps_cltrs s2 = ps_cltrs s1 /\ length (ps_counts s2) = g_k g /\
    (forall a, In a (asg_of (PruneModel.ps_cells s1)) -> exists x, a = Some x /\ (x < g_k g)%nat) /\
    tally (PruneModel.ps_cells s1) (repeat 0%Z (g_k g)) = Ok (ps_counts s2) /\ ps_counts s1 = repeat 0%Z (g_k g).
Proof.
  intros (D & Fp) Hur (Sh & Lc) Hcn. assert (Hk1 : (1 <= g_k g)%nat) by lia.
  set (ks := mkSt (p_cl (ps_cltrs s)) (asg_of (PruneModel.ps_cells s)) (ps_counts s) (ps_changed s) (ps_local s)).
  destruct (@kmspp_init_gen_R g data ws V W (fun r Hr => proper_self P Hr)
     (fun r q Hr Hq => @proper_pos g data r q P (proj2 (proj2 (proj2 V))) Hr Hq)
     (d_sched dr) (d_real dr) (d_int dr 0%nat) ks (Fp ws Ew) Hur D Hk1 Sh ltac:(unfold ks, asg_of; cbn [s_asg]; rewrite map_length; exact Lc))
    as (ks' & dv & trace & chosen & E & Sh' & Lch & Lt & Hfirst & Hch & Hrow & Hlast & La & Ld & Hmin & Htr & _).
  assert (Ecnt : s_counts ks' = repeat 0%Z (g_k g)).
  { rewrite <- Hcn. unfold kmeanspp_init_t in E. apply bind_ok in E as (p & _ & E). apply bind_ok in E as (c & _ & E). apply bind_ok in E as (dist & _ & E). apply bind_ok in E as (asg & _ & E).
    apply bind_ok in E as ([[[c2 cells] tr'] ch'] & _ & E). injection E as <- _ _ _. reflexivity. }
  set (s1 := mkPst (with_cl (ps_cltrs s) (s_cltrs ks')) (ps_dm s) (combine (combine dv (s_asg ks')) (map snd (PruneModel.ps_cells s))) (s_counts ks') (s_changed ks') (s_local ks')).
  assert (E1 : prune_run_init g PLUSPLUS ws data dr s = Ok s1) by (unfold prune_run_init; fold ks; rewrite E; reflexivity).
  assert (Ll : length (map snd (PruneModel.ps_cells s)) = g_nrow g) by (rewrite map_length; exact Lc).
  assert (Lcells : length (PruneModel.ps_cells s1) = g_nrow g).
  { unfold s1. cbn [PruneModel.ps_cells]. etransitivity; [apply combine_length|]. etransitivity; [apply f_equal2; [apply combine_length|exact Ll]|]. change (list (car NumR)) with (list R) in *. etransitivity; [apply f_equal2; [apply f_equal2; [exact Ld|exact La]|reflexivity]|]. lia. }
  assert (G3 : forall (A B C : Type) (u : list A) (v : list B) (w : list C) m, length u = m -> length v = m -> length w = m ->
     map (fun e => fst (fst e)) (combine (combine u v) w) = u /\ map (fun e => snd (fst e)) (combine (combine u v) w) = v).
  { clear. induction u as [|x u IH]; intros [|y v] [|z w] m Hu Hv Hw; cbn in *; subst; try discriminate; [split; reflexivity|].
    destruct (IH v w (length u) eq_refl ltac:(lia) ltac:(lia)) as (A1 & A2). rewrite A1, A2. split; reflexivity. }
  destruct (G3 _ _ _ dv (s_asg ks') (map snd (PruneModel.ps_cells s)) (g_nrow g) Ld La Ll) as (Edist & Easg).
  assert (Ea1 : asg_of (PruneModel.ps_cells s1) = s_asg ks') by exact Easg.
  assert (Ed1 : dist_of (PruneModel.ps_cells s1) = dv) by exact Edist.
  rewrite Forall_forall in Hch.
  assert (Hrow' : forall j, (j < g_k g)%nat -> row (c_means (s_cltrs ks')) (g_ncol g) j = row data (g_ncol g) (nth j chosen 0%nat)).
  { intros j Hj. specialize (Hrow j Hj). unfold crow in Hrow. destruct Sh' as (_ & Sd & _). rewrite Sd in Hrow. exact Hrow. }
  (* every row has a nearest centre *)
  assert (Hnear : forall r, (r < g_nrow g)%nat -> exists j, nth_error (s_asg ks') r = Some (Some j) /\ (j < g_k g)%nat /\
     nth r dv 0 = rdist (g_dt g) (row data (g_ncol g) r) (row (c_means (s_cltrs ks')) (g_ncol g) j) /\
     forall j', (j' < g_k g)%nat -> rdist (g_dt g) (row data (g_ncol g) r) (row (c_means (s_cltrs ks')) (g_ncol g) j) <= rdist (g_dt g) (row data (g_ncol g) r) (row (c_means (s_cltrs ks')) (g_ncol g) j')).
  { intros r Hr.
    destruct (nth_error dv r) as [v|] eqn:Ev; [|apply nth_error_None in Ev; change (list (car NumR)) with (list R) in *; lia].
    destruct (nth_error (s_asg ks') r) as [a|] eqn:Ea; [|apply nth_error_None in Ea; lia].
    destruct (Hmin r v a Ev Ea) as ((H1 & H2 & H3 & H4) & H5).
    assert (Hne : v <> MAX).
    { intros ->. pose proof (Hch (nth 0 chosen 0%nat) ltac:(apply nth_In; lia)) as Hq.
      specialize (H1 (nth 0 chosen 0%nat) ltac:(apply nth_In; lia)). pose proof (Hfin Hr Hq) as Hb'. unfold MAX in *. 
      apply (Rlt_irrefl (IZR dbl_max_Z)). eapply Rle_lt_trans; [exact H1|exact Hb']. }
    destruct H5 as [H5|(j & q & Hj & -> & Hv)]; [contradiction|]. exists j.
    assert (Hjk : (j < g_k g)%nat) by (rewrite <- Lch; apply nth_error_Some; congruence).
    split; [reflexivity|]. split; [exact Hjk|].
    assert (Hv' : v = rdist (g_dt g) (row data (g_ncol g) r) (row (c_means (s_cltrs ks')) (g_ncol g) j)).
    { etransitivity; [exact Hv|]. f_equal. etransitivity; [|symmetry; exact (Hrow' j Hjk)]. rewrite (nth_error_nth _ _ 0%nat Hj). reflexivity. }
    split.
    - etransitivity; [|exact Hv']. apply nth_error_nth. exact Ev.
    - intros j' Hj'. specialize (H1 (nth j' chosen 0%nat) ltac:(apply nth_In; lia)).
      eapply Rle_trans; [right; symmetry; exact Hv'|]. eapply Rle_trans; [exact H1|]. right. f_equal. symmetry. exact (Hrow' j' Hj'). }
  assert (Hids : forall a, In a (asg_of (PruneModel.ps_cells s1)) -> exists x, a = Some x /\ (x < g_k g)%nat).
  { intros a Hin. rewrite Ea1 in Hin. apply In_nth_error in Hin as (r & Hr).
    assert (Hr' : (r < g_nrow g)%nat) by (rewrite <- La; apply nth_error_Some; congruence).
    destruct (Hnear r Hr') as (j & Hj & Hjk & _). exists j. split; [congruence|exact Hjk]. }
  destruct (@tally_ok (g_k g) (PruneModel.ps_cells s1) (repeat 0%Z (g_k g)) (repeat_length _ _) Hids) as (cn & Et).
  destruct (@tally_R (g_k g) _ _ _ (repeat_length _ _) Et) as (Lcn & Hcnt).
  exists s1, (with_counts s1 cn).
  assert (Sh1 : shaped (g_k g) (g_ncol g) (p_cl (ps_cltrs s1))) by exact Sh'.
  assert (Cs1 : ps_counts s1 = repeat 0%Z (g_k g)) by exact Ecnt.
  split; [exact E1|]. split; [unfold tally_state; rewrite Cs1, Et; reflexivity|].
  split; [split; auto|]. split; [split; auto|].
  split; [|split; [reflexivity|split; [reflexivity|split; [reflexivity|split; [exact Lcn|split; [exact Hids|split; [exact Et|exact Cs1]]]]]]].
  set (near := fun r => match nth r (s_asg ks') None with Some j => j | None => 0%nat end).
  assert (Hn2 : forall r, (r < g_nrow g)%nat -> nth_error (s_asg ks') r = Some (Some (near r)) /\ (near r < g_k g)%nat /\
     nth r dv 0 = rdist (g_dt g) (row data (g_ncol g) r) (row (c_means (s_cltrs ks')) (g_ncol g) (near r)) /\
     forall j', (j' < g_k g)%nat -> rdist (g_dt g) (row data (g_ncol g) r) (row (c_means (s_cltrs ks')) (g_ncol g) (near r)) <= rdist (g_dt g) (row data (g_ncol g) r) (row (c_means (s_cltrs ks')) (g_ncol g) j')).
  { intros r Hr. destruct (Hnear r Hr) as (j & A1 & A2 & A3). unfold near. rewrite (nth_error_nth _ _ None A1). auto. }
  unfold start_ok, dump_state. cbn [ct_centroids ct_asg ct_counts ct_nrow ct_ncol ct_k ct_iters ps_counts PruneModel.ps_cells ps_cltrs with_counts].
  splits; auto.
  - exists chosen. splits; auto. intros j Hj. split; [apply Hch; apply nth_In; lia|apply Hrow'; exact Hj].
  - exists near. splits.
    + intros r Hr. destruct (Hn2 r Hr) as (A1 & A2 & A3 & A4). splits; auto.
      etransitivity; [|exact A1]. change (asg_of (PruneModel.ps_cells s1)) with (asg_of (PruneModel.ps_cells s1)). rewrite Ea1. reflexivity.
    + rewrite Ea1. exact La.
    + exact Lcn.
    + intros j Hj. rewrite (Hcnt j Hj), nth_repeat, Z.add_0_l. f_equal. rewrite Ea1. unfold acnt.
      assert (Gc : forall (l : list (option nat)) o (f : nat -> nat), (forall i, (i < length l)%nat -> nth_error l i = Some (Some (f (o + i)%nat))) ->
        length (filter (fun a => id_eqb a (Some j)) l) = length (filter (fun r => f r =? j)%nat (seq o (length l)))).
      { clear. induction l as [|a l IH]; intros o f H; [reflexivity|]. cbn [length seq filter].
        pose proof (H 0%nat ltac:(cbn; lia)) as H0. rewrite Nat.add_0_r in H0. cbn in H0. injection H0 as ->. cbn [id_eqb].
        assert (E : length (filter (fun a => id_eqb a (Some j)) l) = length (filter (fun r => f r =? j)%nat (seq (S o) (length l)))).
        { apply IH. intros i Hi. replace (S o + i)%nat with (o + S i)%nat by lia. apply (H (S i)). cbn; lia. }
        destruct (f o =? j)%nat; cbn [length]; rewrite E; reflexivity. }
      rewrite <- La. apply (Gc (s_asg ks') 0%nat near). intros i Hi. apply Hn2. rewrite <- La. exact Hi.
    + unfold cluster_energy. cbn [PruneModel.ps_cells with_counts]. rewrite <- Lcells. apply energy_R. intros r Hr. rewrite Ed1. apply Hn2. rewrite <- Lcells. exact Hr.
Qed.

(** the starts recorded so far and the best among them *)
Definition pp_inv (drs : nat -> draws NumR) (start : nat) (r : pp_result NumR) : Prop :=
  length (pp_starts r) = start /\
  (forall i e out, nth_error (pp_starts r) i = Some (e, out) -> start_ok g data (d_int (drs i) 0%nat) e out) /\
  (1 <= pp_best r <= start)%nat /\
  nth_error (pp_starts r) (pp_best r - 1) = Some (pp_energy r, pp_out r) /\
  (forall i e out, nth_error (pp_starts r) i = Some (e, out) -> pp_energy r <= e /\ ((i < pp_best r - 1)%nat -> pp_energy r < e)).

Lemma pp_loop_R drs : forall m start s r,
  (forall i, (i < start + m)%nat -> draws_ok g data PLUSPLUS (drs i) /\ forall t, 0 <= d_real (drs i) t <= 1) ->
  ppst s -> pp_inv drs start r ->
  exists r', pp_loop true g ws data drs m start s r = Ok r' /\ pp_inv drs (start + m) r'.
Proof.
  induction m as [|m IH]; intros start s r Hd Hs Hr; cbn [pp_loop].
  - exists r. rewrite Nat.add_0_r. auto.
  - destruct (Hd start ltac:(lia)) as (D & Hur). unfold reinit.
    set (s' := mkPst (with_cl (ps_cltrs s) (clear (p_cl (ps_cltrs s)))) (ps_dm s) (map (fun e : pcell NumR => (nmax NumR, snd (fst e), snd e)) (PruneModel.ps_cells s)) (repeat 0%Z (g_k g)) (ps_changed s) (ps_local s)).
    assert (Hs' : ppst s').
    { destruct Hs as (Sh & Lc). split; cbn [ps_cltrs with_cl p_cl PruneModel.ps_cells s'].
      - change (p_cl (ps_cltrs s')) with (clear (p_cl (ps_cltrs s))). rewrite (clear_create Sh). apply shaped_create.
      - unfold s'. cbn [PruneModel.ps_cells]. rewrite map_length. exact Lc. }
    destruct (@pp_start (drs start) s' D Hur Hs' eq_refl) as (s1 & s2 & E1 & E2 & _ & Hs2 & Hok & _).
    match goal with |- context [Base.bind ?t _] => replace t with (Ok s1 : res (pst NumR)) by (symmetry; exact E1) end. cbn [Base.bind].
    match goal with |- context [Base.bind ?t _] => replace t with (Ok s2 : res (pst NumR)) by (symmetry; exact E2) end. cbn [Base.bind].
    destruct Hr as (L & Hst & Hb & Hbe & Hmin).
    change (nltb NumR) with Rltb. replace (start + S m)%nat with (S start + m)%nat by lia.
    assert (Hst' : forall i e out, nth_error (pp_starts r ++ [(cluster_energy s2, dump_state g s2)]) i = Some (e, out) -> (i < start)%nat /\ nth_error (pp_starts r) i = Some (e, out) \/ i = start /\ e = cluster_energy s2 /\ out = dump_state g s2).
    { intros i e out Hi. destruct (Nat.lt_ge_cases i start) as [Hlt|Hge].
      - rewrite nth_error_app1 in Hi by lia. auto.
      - rewrite nth_error_app2 in Hi by lia. rewrite L in Hi. destruct (i - start)%nat as [|x] eqn:Ex; [|destruct x; discriminate].
        cbn in Hi. injection Hi as <- <-. right. splits; auto. lia. }
    apply IH; [intros i Hi; apply Hd; lia|exact Hs2|].
    destruct (Rltb (cluster_energy s2) (pp_energy r)) eqn:El.
    + apply Rltb_true in El. unfold pp_inv. cbn [pp_starts pp_best pp_energy pp_out]. splits; try lia.
      * rewrite app_length, L. cbn. lia.
      * intros i e out Hi. destruct (Hst' i e out Hi) as [(_ & Hi')|(-> & -> & ->)]; [eapply Hst; eauto|exact Hok].
      * rewrite nth_error_app2 by lia. replace (start + 1 - 1 - length (pp_starts r))%nat with 0%nat by lia. reflexivity.
      * intros i e out Hi. destruct (Hst' i e out Hi) as [(_ & Hi')|(-> & -> & ->)].
        -- destruct (Hmin i e out Hi') as (Q & _). split; [lra|intros _; lra].
        -- split; [lra|lia].
    + apply Rltb_false in El. unfold pp_inv. cbn [pp_starts pp_best pp_energy pp_out]. splits; try lia.
      * rewrite app_length, L. cbn. lia.
      * intros i e out Hi. destruct (Hst' i e out Hi) as [(_ & Hi')|(-> & -> & ->)]; [eapply Hst; eauto|exact Hok].
      * rewrite nth_error_app1 by lia. exact Hbe.
      * intros i e out Hi. destruct (Hst' i e out Hi) as [(_ & Hi')|(-> & -> & ->)]; [eapply Hmin; eauto|]. split; [exact El|lia].
Qed.

End PP.

(** ** C64 *)

(** Where the elements of a cleared vector remain usable memory (any usual
    build): the call returns the first start of least energy, its energy and its
    clustering. *)
Theorem C64_best_start_partial : forall (g : kcfg NumR) nstart (data : list (car NumR)) drs,
  (1 <= nstart)%nat -> pp_args g nstart data drs ->
  exists r, kmeansPP true g nstart data drs = Ok r /\
    length (pp_starts r) = nstart /\
    (forall i e out, nth_error (pp_starts r) i = Some (e, out) -> start_ok g data (d_int (drs i) 0%nat) e out) /\
    (1 <= pp_best r <= nstart)%nat /\
    nth_error (pp_starts r) (pp_best r - 1) = Some (pp_energy r, pp_out r) /\
    (forall i e out, nth_error (pp_starts r) i = Some (e, out) -> pp_energy r <= e /\ ((i < pp_best r - 1)%nat -> pp_energy r < e)).
Proof.
  intros g nstart data drs Hn (Hmi & Hk & V & P & Hd & Hfin).
  destruct (get_workers V) as (ws & Ew & W).
  unfold kmeansPP. match goal with |- context [Base.bind ?t _] => replace t with (Ok ws : res (list (worker NumR))) by (symmetry; exact Ew) end. cbn [Base.bind].
  destruct (Hd 0%nat ltac:(lia)) as (D & Hur).
  destruct (@create_pre g data Hk None PLUSPLUS I) as (s & ks & Es & Ek & A1 & A2 & A3 & A4 & A5 & A6 & A7 & A8 & _).
  assert (Hco : centers_ok g (@None (list (car NumR))) PLUSPLUS) by exact I.
  destruct (@create_ok NumR g None PLUSPLUS ltac:(lia) Hco) as (ks' & Ek' & Hc & Hasg & Hcn & _).
  assert (Q := eq_trans (eq_sym Ek) Ek'). injection Q as <-.
  assert (Hs : ppst g s).
  { split; [|exact A7]. rewrite A1. apply (@stok_create NumR g None PLUSPLUS data ks ws V Ek Ew). }
  assert (Hcs : ps_counts s = repeat 0%Z (g_k g)) by (rewrite A3; exact Hcn).
  destruct (@pp_start g data ws V Ew W P Hk Hfin (drs 0%nat) s D Hur Hs Hcs) as (s1 & s2 & E1 & E2 & Hs1 & Hs2 & Hok & Een & Ecl & Ect & Lcn & Hids & Et & Hc1).
  unfold prune_run. 
  match goal with |- context [Base.bind (prune_create_coord ?a ?b ?c) _] => replace (prune_create_coord a b c) with (Ok s : res (pst NumR)) by (symmetry; exact Es) end. cbn [Base.bind].
  match goal with |- context [Base.bind (build_workers ?a ?b) _] => replace (build_workers a b) with (Ok ws : res (list (worker NumR))) by (symmetry; exact Ew) end. cbn [Base.bind].
  match goal with |- context [Base.bind (prune_run_init ?a ?b ?c ?d ?e ?f) _] => replace (prune_run_init a b c d e f) with (Ok s1 : res (pst NumR)) by (symmetry; exact E1) end. cbn [Base.bind].
  rewrite Hmi. cbn [Nat.ltb Nat.leb]. rewrite Hc1, Et. cbn [Base.bind pr_init pr_out ct_counts].
  destruct (@tally_ok (g_k g) (PruneModel.ps_cells s1) (ps_counts s2) Lcn Hids) as (c2 & Et2).
  unfold tally_state. cbn [with_counts PruneModel.ps_cells ps_counts]. rewrite Et2. cbn [Base.bind].
  set (s3 := with_counts (with_counts s1 (ps_counts s2)) c2).
  set (out0 := mkCluster NumR (g_nrow g) (g_ncol g) 0 (g_k g) (asg_of (PruneModel.ps_cells s1)) (ps_counts s2) (c_means (p_cl (ps_cltrs s1)))).
  assert (Hok0 : start_ok g data (d_int (drs 0%nat) 0%nat) (cluster_energy s3) out0).
  { replace out0 with (dump_state g s2) by (unfold out0, dump_state; rewrite Ecl, Ect; reflexivity). change (cluster_energy s3) with (cluster_energy s1). rewrite <- Een. exact Hok. }
  assert (Hinv : pp_inv g data drs 1 (mkPP 1 (cluster_energy s3) out0 [(cluster_energy s3, out0)])).
  { unfold pp_inv. cbn [pp_starts pp_best pp_energy pp_out length]. splits; try lia; auto.
    - intros i e out Hi. destruct i as [|i]; [|destruct i; discriminate]. cbn in Hi. injection Hi as <- <-. exact Hok0.
    - intros i e out Hi. destruct i as [|i]; [|destruct i; discriminate]. cbn in Hi. injection Hi as <- _. split; [apply Rle_refl|lia]. }
  destruct (@pp_loop_R g data ws V Ew W P Hk Hfin drs (nstart - 1) 1 s3 _ ltac:(intros i Hi; apply Hd; lia) Hs1 Hinv) as (r & E & L & H1 & H2 & H3 & H4).
  exists r. split; [exact E|]. replace (1 + (nstart - 1))%nat with nstart in * by lia. splits; auto; lia.
Qed.
Print Assumptions C64_best_start_partial.

(** By the C++ standard the elements of a cleared vector may not be used: then
    every call with two or more starts has undefined behaviour. *)
Theorem C64_reinit_refuted : forall N (g : kcfg N) nstart (data : list (car N)) drs,
  (2 <= nstart)%nat -> forall r, kmeansPP false g nstart data drs <> Ok r.
Proof.
  intros N g nstart data drs Hn r H. unfold kmeansPP in H.
  apply bind_ok in H as (ws & _ & H). apply bind_ok in H as (rr & _ & H). apply bind_ok in H as (s & _ & H).
  destruct (nstart - 1)%nat as [|m] eqn:Em; [lia|]. cbn [pp_loop] in H. apply bind_ok in H as (s1 & H & _).
  unfold reinit, prune_run_init in H. apply bind_ok in H as (ks & H & _). unfold kmeanspp_init_t in H.
  apply bind_ok in H as (p & _ & H). apply bind_ok in H as (c & _ & H). apply bind_ok in H as (dv & _ & H). apply bind_ok in H as (asg & H & _).
  cbn [PruneModel.ps_cells asg_of map s_asg] in H. apply aset_inv in H as (H & _). cbn in H. lia.
Qed.

(** The whole call, in terms of its arguments: the result is that of the best start,
    with no k-means iteration. *)
Theorem C64_call_partial : forall n d k (nthread : Z) dt kind nstart (data : list R) (drs : nat -> draws NumR),
  let g := pp_cfg NumR n d k nthread dt kind in
  (1 <= nstart)%nat -> (2 <= k)%nat -> (1 <= n)%nat -> (Z.of_nat n < 2 ^ 32)%Z -> (1 <= nthread < 2 ^ 32)%Z -> length data = (n * d)%nat ->
  (dt = COS -> forall r, (r < n)%nat -> PropertiesDist.nonzero (row data d r)) ->
  (forall i, (i < nstart)%nat -> (d_int (drs i) 0 < n)%nat /\ fair g data (d_sched (drs i)) /\ forall t, 0 <= d_real (drs i) t <= 1) ->
  (forall r q, (r < n)%nat -> (q < n)%nat -> rdist dt (row data d r) (row data d q) < IZR dbl_max_Z) ->
  exists r, kmeansPP true g nstart data drs = Ok r /\ start_ok g data (d_int (drs (pp_best r - 1)%nat) 0%nat) (pp_energy r) (pp_out r) /\
    ct_nrow (pp_out r) = n /\ ct_ncol (pp_out r) = d /\ ct_k (pp_out r) = k /\ ct_iters (pp_out r) = 0%nat.
Proof.
  intros n d k nthread dt kind nstart data drs g Hn Hk Hr Hr2 Ht Hl Hp Hd Hf.
  assert (A : pp_args g nstart data drs).
  { split; [reflexivity|]. split; [exact Hk|]. split; [split; [exact Hr|split; [exact Hr2|split; [exact Ht|exact Hl]]]|]. split; [exact Hp|]. split; [|exact Hf].
    intros i Hi. destruct (Hd i Hi) as (H1 & H2 & H3). split; [split; [exact H1|exact H2]|exact H3]. }
  destruct (C64_best_start_partial Hn A) as (r & Er & _ & Hok & _ & Hb & _). exists r. split; [exact Er|]. pose proof (Hok _ _ _ Hb) as S. split; [exact S|].
  destruct S as (_ & _ & O1 & O2 & O3 & O4). auto.
Qed.
