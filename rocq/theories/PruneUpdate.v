(** The centroid update of the pruned coordinator, in exact arithmetic. *)
From Coq Require Import Reals Lra.
From Verif Require Import Base Num Spec DistModel ClustersModel ClustersView PartitionModel ParModel KmeansModel PruneModel.
From Verif Require Import MatLemmas VecLemmas ClustersProofs DistProofs PartitionProofs ParProofs NearProofs KmeansProofs UpdateProofs RunProofs ParRule DistMatProofs PruneProofs ClusterSums PruneRound.
Set Implicit Arguments.
Local Open Scope R_scope.

Definition finF (F : nat -> nat -> R) (M : nat -> Z) (j i : nat) : R := if (1 <? M j)%Z then F j i / IZR (M j) else F j i.

Section Fin.
Variables (k d : nat).

Definition fin_body (i : nat) (st : prune_clusters NumR * list Z * Z) : res (prune_clusters NumR * list Z * Z) :=
  let '(p, counts, chk) := st in
  let* c := finalize (p_cl p) i in
  let p := with_cl p c in
  let* d := eucl_dist NumR (c_means c, i * d)%nat (p_prev_means p, i * d)%nat d in
  let* p := set_prev_dist p d i in
  let* n := aget (c_members c) i in
  let* counts := aset counts i n in
  Ok (p, counts, w32 (chk + n)).

Definition drift_of (p : prune_clusters NumR) (pm : list R) : Prop :=
  forall j, (j < k)%nat -> nth j (p_prev_dist p) 0 = edist (crow (p_cl p) j) (row pm d j).

Lemma zsum_nonneg (M : nat -> Z) l : (forall j, In j l -> (0 <= M j)%Z) -> (0 <= zsum (map M l))%Z.
Proof.
  induction l as [|a l IH]; intros H; cbn [map zsum]; [lia|].
  pose proof (H a (or_introl eq_refl)). specialize (IH (fun j Hj => H j (or_intror Hj))). lia.
Qed.

Lemma fin_loop (p : prune_clusters NumR) counts F M (tot : Z) :
  cis k d (p_cl p) F M (fun _ => false) -> @length R (p_prev_means p) = (k * d)%nat -> @length R (p_prev_dist p) = k -> length counts = k ->
  (forall j, (j < k)%nat -> (0 <= M j)%Z) -> zsum (map M (seq 0 k)) = tot -> (tot < 2 ^ 32)%Z ->
  exists p', loop k fin_body (p, counts, 0%Z) = Ok (p', map M (seq 0 k), tot) /\
    cis k d (p_cl p') (finF F M) M (fun _ => true) /\ p_s_val p' = p_s_val p /\ p_prev_means p' = p_prev_means p /\
    @length R (p_prev_dist p') = k /\ drift_of p' (p_prev_means p).
Proof.
  intros Hc Lpm Lpd Lcn Hpos Htot Hlt.
  assert (H : okp (loop k fin_body (p, counts, 0%Z)) (fun st =>
     cis k d (p_cl (fst (fst st))) (fun j x => if (j <? k)%nat then finF F M j x else F j x) M (fun j => j <? k)%nat /\
     p_s_val (fst (fst st)) = p_s_val p /\ p_prev_means (fst (fst st)) = p_prev_means p /\
     @length R (p_prev_dist (fst (fst st))) = k /\
     (forall j, (j < k)%nat -> nth j (p_prev_dist (fst (fst st))) 0 = edist (map (finF F M j) (seq 0 d)) (row (p_prev_means p) d j)) /\
     length (snd (fst st)) = k /\ (forall j, (j < k)%nat -> nth j (snd (fst st)) 0%Z = M j) /\
     snd st = zsum (map M (seq 0 k)))).
  { apply (@loop_okp _ (fun m st =>
     cis k d (p_cl (fst (fst st))) (fun j x => if (j <? m)%nat then finF F M j x else F j x) M (fun j => j <? m)%nat /\
     p_s_val (fst (fst st)) = p_s_val p /\ p_prev_means (fst (fst st)) = p_prev_means p /\
     @length R (p_prev_dist (fst (fst st))) = k /\
     (forall j, (j < m)%nat -> nth j (p_prev_dist (fst (fst st))) 0 = edist (map (finF F M j) (seq 0 d)) (row (p_prev_means p) d j)) /\
     length (snd (fst st)) = k /\ (forall j, (j < m)%nat -> nth j (snd (fst st)) 0%Z = M j) /\
     snd st = zsum (map M (seq 0 m)))).
    - cbn [fst snd]. splits; auto; intros; lia.
    - intros m [[q cn] chk] Hm (H1 & H2 & H3 & H4 & H5 & H6 & H7 & H8). cbn [fst snd] in *. unfold fin_body.
      destruct (cis_fin H1 Hm) as (c' & E1 & Hc'). rewrite E1. cbn [bind with_cl p_prev_means p_cl p_prev_dist p_s_val].
      assert (Hc2 : cis k d c' (fun j x => if (j <? S m)%nat then finF F M j x else F j x) M (fun j => j <? S m)%nat).
      { eapply cis_ext; [exact Hc'|..]; auto.
        - intros j i Hj Hi. cbn beta. unfold finF. destruct (Nat.eqb_spec j m) as [->|Hne].
          + rewrite Nat.ltb_irrefl. destruct (Nat.ltb_spec m (S m)); [reflexivity|lia].
          + destruct (Nat.ltb_spec j m), (Nat.ltb_spec j (S m)); try lia; reflexivity.
        - intros j Hj. cbn beta. destruct (Nat.eqb_spec j m) as [->|Hne].
          + symmetry. apply Nat.ltb_lt. lia.
          + destruct (Nat.ltb_spec j m), (Nat.ltb_spec j (S m)); try lia; reflexivity. }
      clear Hc'. pose proof Hc2 as (Hs2 & Hv2). pose proof Hs2 as (Sk & Sd & Swf).
      assert (Er : crow c' m = map (finF F M m) (seq 0 d)).
      { rewrite (cis_vec Hc2 Hm). apply map_ext_in. intros i _. destruct (Nat.ltb_spec m (S m)); [reflexivity|lia]. }
      assert (Lr : @length R (crow c' m) = d) by (eapply cis_row; eauto).
      assert (Lp : @length R (row (p_prev_means q) d m) = d) by (rewrite H3; apply (@row_length _ (p_prev_means p) d m k); [exact Lpm|exact Hm]).
      assert (Ed : eucl_dist NumR (c_means c', (m * d)%nat) (p_prev_means q, (m * d)%nat) d = Ok (edist (crow c' m) (row (p_prev_means q) d m))).
      { change (eucl_dist NumR ?a ?b ?c) with (dist_comp_raw NumR a b c EUCL).
        change (edist (crow c' m) (row (p_prev_means q) d m)) with (rdist EUCL (crow c' m) (row (p_prev_means q) d m)). rewrite <- ldist_R.
        apply (@dist_comp_raw_ok NumR EUCL (c_means c', (m * d)%nat) (p_prev_means q, (m * d)%nat) d); auto.
        unfold crow, row. cbn [fst snd]. rewrite Sd. reflexivity. }
      rewrite Ed. cbn [bind]. unfold set_prev_dist. cbn [p_prev_dist p_cl p_s_val p_prev_means].
      rewrite aset_ok by (change (m < @length R (p_prev_dist q))%nat; lia). cbn [bind].
      destruct (Hv2 m Hm) as (Hn & _ & _).
      assert (Lm : length (c_members c') = k) by (rewrite <- Sk; apply Swf).
      rewrite (@aget_nth _ (c_members c') m 0%Z) by lia. cbn [bind].
      change (nth m (c_members c') 0%Z) with (cnum c' m). rewrite Hn.
      rewrite aset_ok by lia. cbn [bind okp fst snd p_cl p_s_val p_prev_means p_prev_dist]. splits; auto.
      + change (@length (car NumR)) with (@length R). rewrite upd_length. exact H4.
      + intros j Hj. change (car NumR) with R. rewrite nth_upd by (change (m < @length R (p_prev_dist q))%nat; lia).
        destruct (Nat.eqb_spec j m) as [->|Hne].
        * rewrite Er, H3. reflexivity.
        * apply H5. lia.
      + rewrite upd_length. exact H6.
      + intros j Hj. rewrite nth_upd by lia. destruct (Nat.eqb_spec j m) as [->|Hne]; [reflexivity|].
        apply H7. lia.
      + rewrite seq_S, map_app, zsum_app. cbn [map zsum plus]. rewrite H8, Z.add_0_r.
        assert (Hsplit : (zsum (map M (seq 0 m)) + M m + zsum (map M (seq (S m) (k - S m))) = tot)%Z).
        { rewrite <- Htot. replace k with (m + (1 + (k - S m)))%nat at 2 by lia. rewrite seq_app, map_app, zsum_app.
          cbn [seq plus map zsum]. lia. }
        assert (G1 : (0 <= zsum (map M (seq 0 m)))%Z) by (apply zsum_nonneg; intros j Hj; apply in_seq in Hj; apply Hpos; lia).
        assert (G2 : (0 <= zsum (map M (seq (S m) (k - S m))))%Z) by (apply zsum_nonneg; intros j Hj; apply in_seq in Hj; apply Hpos; lia).
        pose proof (Hpos m Hm). apply w32_small. lia. }
  apply okp_iff in H as ([[p' cn] chk] & E & H1 & H2 & H3 & H4 & H5 & H6 & H7 & H8). cbn [fst snd] in *.
  exists p'. rewrite E. splits; auto.
  - f_equal. f_equal; [f_equal|congruence]. apply nth_ext with (d := 0%Z) (d' := 0%Z).
    + rewrite map_length, seq_length. exact H6.
    + intros j Hj. rewrite H7 by lia. rewrite (nth_indep _ 0%Z (M 0%nat)) by (rewrite map_length, seq_length; lia).
      rewrite map_nth, seq_nth by lia. reflexivity.
  - eapply cis_ext; [exact H1|..]; auto.
    + intros j i Hj _. cbn beta. apply Nat.ltb_lt in Hj. rewrite Hj. reflexivity.
    + intros j Hj. cbn beta. apply Nat.ltb_lt in Hj. exact Hj.
  - intros j Hj. rewrite H5 by exact Hj. f_equal.
    rewrite (cis_vec H1 Hj). apply map_ext_in. intros i _. apply Nat.ltb_lt in Hj. rewrite Hj. reflexivity.
Qed.
End Fin.

Section Update.
Variables (g : kcfg NumR) (ws : list (worker NumR)) (data : list (car NumR)).
Let d := g_ncol g.
Let k := g_k g.
Let n := g_nrow g.
Let X (r : nat) : list R := row data d r.
Hypothesis Hws : wok n d data ws.
Hypothesis Hn32 : (Z.of_nat n < 2 ^ 32)%Z.

Definition assigned (cells : list cellR) : Prop :=
  length cells = n /\ forall r, (r < n)%nat -> exists a, casg (nth r cells dcell) = Some a /\ (a < k)%nat.

Definition psized (p : prune_clusters NumR) : Prop :=
  shaped k d (p_cl p) /\ @length R (p_prev_means p) = (k * d)%nat /\ @length R (p_prev_dist p) = k /\ @length R (p_s_val p) = k.

(** the workers' local containers after a round *)
Definition locals_hold w f (cells cells' : list cellR) (locs : list (wstate NumR)) : Prop :=
  length locs = length ws /\
  forall t s m l, nth_error (w_ranges ws) t = Some (s, m) -> nth_error locs t = Some l ->
       holds k d X w f l (triples dcell cells cells' s m).

Lemma merge_all w f cells cells' locs c ch F M D : length cells = n -> locals_hold w f cells cells' locs -> cis k d c F M D ->
  exists c', for_each locs (fun (l : wstate NumR) (cc : clusters NumR * nat) =>
      let* c := peq (fst cc) (fst l) in Ok (c, (snd cc + snd l)%nat)) (c, ch)
    = Ok (c', (ch + list_sum (map f (triples dcell cells cells' 0 n)))%nat) /\
    cis k d c' (fun j i => F j i + accum X w (triples dcell cells cells' 0 n) j i)
      (fun j => M j + accumZ w (triples dcell cells cells' 0 n) j)%Z D.
Proof.
  intros Lc (Ll & Hl) Hc. destruct Hws as (Ht & _).
  set (trs := map (fun sn => triples dcell cells cells' (fst sn) (snd sn)) (w_ranges ws)).
  destruct (@merge_holds k d X w f locs trs c ch F M D) as (c' & E & Hc').
  - unfold trs, w_ranges. rewrite !map_length. exact Ll.
  - exact Hc.
  - intros t l tr El Etr. unfold trs in Etr. rewrite nth_error_map in Etr.
    destruct (nth_error (w_ranges ws) t) as [[s m]|] eqn:Er; [|discriminate]. cbn in Etr. injection Etr as <-.
    eapply Hl; eauto.
  - unfold trs in E, Hc'. pose proof (@triples_concat _ dcell cells cells' _ _ _ Ht) as Hcat. rewrite Nat.sub_0_r in Hcat.
    rewrite Hcat in E, Hc'. eauto.
Qed.

Lemma zsum_fold l : zsum l = fold_right Z.add 0%Z l.
Proof. induction l; cbn; congruence. Qed.

Lemma counts_total cells : assigned cells -> zsum (map (cntF n cells) (seq 0 k)) = Z.of_nat n.
Proof. intros (L & H). rewrite zsum_fold. exact (@cntF_total k d X n cells H). Qed.

(** the state of the coordinator between two rounds *)
Definition means_of (p : prune_clusters NumR) (cells : list cellR) : Prop :=
  cis k d (p_cl p) (meanF X n cells) (cntF n cells) (fun _ => true).

Lemma update_init (s : pst NumR) cells0 : psized (ps_cltrs s) -> length (ps_counts s) = k -> assigned (ps_cells s) ->
  length cells0 = n -> locals_hold wnew one cells0 (ps_cells s) (ps_local s) ->
  exists p' ch, prune_update g true s = Ok (mkPst p' (ps_dm s) (ps_cells s) (map (cntF n (ps_cells s)) (seq 0 k)) ch (ps_local s)) /\
    psized p' /\ means_of p' (ps_cells s) /\ p_prev_means p' = p_prev_means (ps_cltrs s) /\
    drift_of k d p' (p_prev_means (ps_cltrs s)).
Proof.
  intros (P1 & P2 & P3 & P4) Lcn Has Lc0 Hl. unfold prune_update. cbn [bind with_cl p_cl].
  rewrite (@clear_create NumR k d (p_cl (ps_cltrs s)) P1).
  destruct (@merge_all wnew one cells0 (ps_cells s) (ps_local s) _ (ps_changed s) _ _ _ Lc0 Hl (@cis_create k d)) as (c' & E & Hc').
  rewrite E. cbn [bind fst snd]. clear E.
  set (p1 := with_cl (with_cl (ps_cltrs s) (clusters_create NumR k d)) c').
  assert (Hp1 : cis k d (p_cl p1) (sumF X n (ps_cells s)) (cntF n (ps_cells s)) (fun _ => false)).
  { eapply cis_ext; [exact Hc'|..]; auto.
    - intros j i _ _. cbn beta. rewrite accum_new. lra.
    - intros j _. cbn beta. rewrite accumZ_new. lia. }
  destruct (@fin_loop k d p1 (ps_counts s) _ _ (Z.of_nat n) Hp1 P2 P3 Lcn) as (p' & E & F1 & F2 & F3 & F4 & F5).
  - intros j _. apply cntF_nonneg.
  - apply counts_total. exact Has.
  - exact Hn32.
  - unfold fin_body in E. fold k d n. rewrite E. cbn [bind]. rewrite Z.eqb_refl. cbn [assert_ bind].
    eexists p', _. split; [reflexivity|]. splits; auto.
    split; [apply F1|]. splits; auto.
    + rewrite F3. exact P2.
    + rewrite F2. exact P4.
Qed.

Lemma update_next (s : pst NumR) cells0 : psized (ps_cltrs s) -> means_of (ps_cltrs s) cells0 -> length (ps_counts s) = k -> assigned (ps_cells s) ->
  length cells0 = n -> locals_hold wdel chg cells0 (ps_cells s) (ps_local s) ->
  exists p', prune_update g false s = Ok (mkPst p' (ps_dm s) (ps_cells s) (map (cntF n (ps_cells s)) (seq 0 k))
      (ps_changed s + list_sum (map chg (triples dcell cells0 (ps_cells s) 0 n)))%nat (ps_local s)) /\
    psized p' /\ means_of p' (ps_cells s) /\ p_prev_means p' = c_means (p_cl (ps_cltrs s)) /\
    drift_of k d p' (c_means (p_cl (ps_cltrs s))).
Proof.
  intros (P1 & P2 & P3 & P4) Hmo Lcn Has Lc0 Hl. unfold prune_update.
  destruct (cis_unfin_all Hmo) as (c0 & E0 & Hc0). cbn [set_prev_means p_cl]. rewrite E0. cbn [bind with_cl p_cl].
  destruct (@merge_all wdel chg cells0 (ps_cells s) (ps_local s) _ (ps_changed s) _ _ _ Lc0 Hl Hc0) as (c' & E & Hc').
  rewrite E. cbn [bind fst snd]. clear E.
  set (p1 := with_cl (with_cl (set_prev_means (ps_cltrs s)) c0) c').
  assert (Hp1 : cis k d (p_cl p1) (sumF X n (ps_cells s)) (cntF n (ps_cells s)) (fun _ => false)).
  { eapply cis_ext; [exact Hc'|..]; auto.
    - intros j i _ _. cbn beta. rewrite accum_del. unfold meanF.
      set (m := cntF n cells0 j). assert (Hm : (0 <= m)%Z) by apply cntF_nonneg.
      destruct (Z.ltb_spec m 2), (Z.ltb_spec 1 m); try lia; try lra.
      assert (IZR m <> 0) by (apply not_0_IZR; lia). match goal with |- ?a / ?b * ?b' + _ = _ => assert (Ea : a / b * b' = a) by (field; assumption); rewrite Ea end. lra.
    - intros j _. cbn beta. rewrite accumZ_del. lia. }
  assert (Lpm : @length R (p_prev_means p1) = (k * d)%nat).
  { cbn. destruct P1 as (Sk & Sd & Swf). rewrite <- Sk, <- Sd. apply Swf. }
  destruct (@fin_loop k d p1 (ps_counts s) _ _ (Z.of_nat n) Hp1 Lpm P3 Lcn) as (p' & E & F1 & F2 & F3 & F4 & F5).
  - intros j _. apply cntF_nonneg.
  - apply counts_total. exact Has.
  - exact Hn32.
  - unfold fin_body in E. fold k d n. rewrite E. cbn [bind]. rewrite Z.eqb_refl. cbn [assert_ bind].
    eexists p'. split; [reflexivity|]. splits; auto.
    split; [apply F1|]. splits; auto.
    + rewrite F3. exact Lpm.
    + rewrite F2. exact P4.
Qed.

End Update.
