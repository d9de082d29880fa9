(** Initialisation of k-means: closed forms, any arithmetic. *)
From Verif Require Import Base Num Spec DistModel ClustersModel ClustersView PartitionModel ParModel KmeansModel.
From Verif Require Import MatLemmas ClustersProofs DistProofs PartitionProofs ParProofs NearProofs KmeansProofs UpdateProofs RunProofs.
Set Implicit Arguments.

Section Init.
Variable N : Num.
Notation T := (car N).
Notation clusters := (clusters N).
Variables (g : kcfg N) (data : list T).
Let d := g_ncol g.
Let k := g_k g.
Let nrow := g_nrow g.
Hypothesis V : valid_input g data.

Lemma thd_row_ok r : r < nrow -> exists p, thd_row g data r = Ok p /\ slice (fst p) (snd p) d = row data d r.
Proof.
  intros Hr. destruct V as (V1 & V2 & V3 & V4). unfold thd_row.
  destruct (@get_thd_data_ok N (g_kind g) data (Z.of_nat nrow) (Z.of_nat d) (g_nthreads g) (Z.of_nat r)) as (p & E & Hp); unfold nrow, d in *; try lia.
  rewrite !Nat2Z.id in Hp. eauto.
Qed.

Lemma data_row_length r : r < nrow -> length (row data d r) = d.
Proof. intros Hr. destruct V as (V1 & V2 & V3 & V4). apply (@row_length _ data d r nrow); auto. Qed.

(** the constructor *)
Definition centers_ok (centers : option (list T)) (it : init_t) : Prop :=
  match centers, it with Some m, NONE => k * d <= length m | _, _ => True end.
Definition initial_means (centers : option (list T)) (it : init_t) : list T :=
  match centers, it with Some m, NONE => firstn (k * d) m | _, _ => repeat (nzero N) (k * d) end.

Lemma create_ok centers it : 1 <= k -> centers_ok centers it ->
  exists s, coordinator_create g centers it = Ok s /\
    s_cltrs s = mkClusters N d k (repeat 0%Z k) (repeat false k) (initial_means centers it) /\
    s_asg s = repeat None nrow /\ s_counts s = repeat 0%Z k /\ s_changed s = 0.
Proof.
  intros Hk Hc. unfold coordinator_create. fold k d nrow.
  replace (1 <=? k) with true by (symmetry; apply Nat.leb_le; exact Hk). cbn [assert_ bind].
  assert (E0 : clusters_create N k d = mkClusters N d k (repeat 0%Z k) (repeat false k) (repeat (nzero N) (k * d))).
  { unfold clusters_create. rewrite (Nat.mul_comm d k). reflexivity. }
  destruct centers as [m|]; [destruct it|]; cbn [initial_means centers_ok] in *;
    try (eexists; splits; [reflexivity|simpl; auto..]; exact E0).
  rewrite (@set_mean_all_ok N k d (clusters_create N k d) (m, 0) (firstn (k * d) m)).
  - cbn [bind]. eexists. splits; [reflexivity|simpl; auto..].
  - apply shaped_create.
  - simpl. exact Hc.
  - reflexivity.
Qed.

(** Forgy *)
Lemma forgy_ok draw s : shaped k d (s_cltrs s) -> (forall c, c < k -> draw c < nrow) ->
  exists s', forgy_init g data draw s = Ok s' /\ shaped k d (s_cltrs s') /\
    (forall j, j < k -> cel (s_cltrs s') j = (row data d (draw j), cnum (s_cltrs s) j, cdone (s_cltrs s) j)) /\
    s_asg s' = s_asg s /\ s_counts s' = s_counts s /\ s_changed s' = s_changed s /\ s_local s' = s_local s.
Proof.
  intros Hs Hd. unfold forgy_init. fold k.
  assert (H : okp (loop k (fun clust_idx c => let* p := thd_row g data (draw clust_idx) in set_mean_at c p clust_idx) (s_cltrs s))
     (fun c => shaped k d c /\ forall j, j < k -> cel c j = if j <? k then (row data d (draw j), cnum (s_cltrs s) j, cdone (s_cltrs s) j) else cel (s_cltrs s) j)).
  { apply (@loop_okp _ (fun n c => shaped k d c /\ forall j, j < k -> cel c j = if j <? n then (row data d (draw j), cnum (s_cltrs s) j, cdone (s_cltrs s) j) else cel (s_cltrs s) j)).
    - split; [exact Hs|]. intros j Hj. reflexivity.
    - intros i c Hi (Sh & Hc). destruct (thd_row_ok (Hd i Hi)) as (p & -> & Hp). cbn [bind].
      destruct (@set_mean_at_ok N k d c p (row data d (draw i)) i Sh Hi (data_row_length (Hd i Hi)) Hp) as (c' & -> & Sh' & Hc').
      simpl. split; [exact Sh'|]. intros j Hj. rewrite Hc' by exact Hj.
      destruct (Nat.eqb_spec j i) as [->|Hne].
      + destruct (Nat.ltb_spec i (S i)); [|lia]. specialize (Hc i Hi). unfold cel in Hc.
        destruct (Nat.ltb_spec i i); [lia|]. injection Hc as _ -> ->. reflexivity.
      + rewrite Hc by exact Hj. destruct (Nat.ltb_spec j i); destruct (Nat.ltb_spec j (S i)); auto; lia. }
  apply okp_iff in H as (c & -> & Sh & Hc). cbn [bind]. eexists. split; [reflexivity|]. simpl. splits; auto.
  intros j Hj. rewrite Hc by exact Hj. destruct (Nat.ltb_spec j k); [reflexivity|lia].
Qed.

(** random partition *)
Lemma random_ok draw s : s_cltrs s = clusters_create N k d -> length (s_asg s) = nrow -> (forall r, r < nrow -> draw r < k) ->
  exists s', random_partition_init g data draw s = Ok s' /\ shaped k d (s_cltrs s') /\
    (let A := map draw (seq 0 nrow) in
     (forall j, j < k -> cel (s_cltrs s') j = fin1 N (csum N d j (xas g data 0 A), Z.of_nat (count_eq j A), false)) /\
     s_asg s' = map Some A) /\
    s_counts s' = s_counts s /\ s_changed s' = s_changed s /\ s_local s' = s_local s.
Proof.
  intros Hs La Hd. unfold random_partition_init. fold nrow.
  set (body := fun r (ca : clusters * list (option nat)) => _).
  assert (H : okp (loop nrow body (s_cltrs s, s_asg s))
     (fun ca => shaped k d (fst ca) /\ length (snd ca) = nrow /\
       (forall j, j < k -> cel (fst ca) j = (csum N d j (xas g data 0 (map draw (seq 0 nrow))), ccnt N j (xas g data 0 (map draw (seq 0 nrow))), false)) /\
       firstn nrow (snd ca) = map Some (map draw (seq 0 nrow)))).
  { apply (@loop_okp _ (fun n (ca : clusters * list (option nat)) => shaped k d (fst ca) /\ length (snd ca) = nrow /\
       (forall j, j < k -> cel (fst ca) j = (csum N d j (xas g data 0 (map draw (seq 0 n))), ccnt N j (xas g data 0 (map draw (seq 0 n))), false)) /\
       firstn n (snd ca) = map Some (map draw (seq 0 n)))).
    - cbn [fst snd]. rewrite Hs. splits; auto; [apply shaped_create|]. intros j Hj. rewrite cel_create by exact Hj. reflexivity.
    - intros i [c a] Hi (Sh & Ll & Hc & Ha). unfold body; cbn [fst snd] in *.
      destruct (thd_row_ok Hi) as (p & -> & Hp). cbn [bind].
      destruct (@add_member_ok N k d c p (row data d i) (draw i) Sh (Hd i Hi) (data_row_length Hi) Hp) as (c' & -> & Sh' & Hc').
      cbn [bind]. rewrite aset_ok by lia. cbn [bind okp fst snd]. rewrite upd_length. splits; auto.
      + intros j Hj. rewrite Hc' by exact Hj. rewrite seq_S, map_app. cbn [map]. rewrite xas_snoc, map_length, seq_length. simpl plus. rewrite csum_snoc, ccnt_snoc.
        rewrite (Nat.eqb_sym (draw i) j). destruct (Nat.eqb_spec j (draw i)) as [->|Hne].
        * specialize (Hc (draw i) (Hd i Hi)). unfold cel in Hc. injection Hc as -> -> ->. reflexivity.
        * rewrite Hc by exact Hj. rewrite Z.add_0_r. reflexivity.
      + rewrite seq_S, !map_app, <- Ha. cbn [map Nat.add]. clear -Hi Ll.
        apply nth_error_ext. intros j.
        assert (L1 : length (firstn i a) = i) by (rewrite firstn_length; lia).
        rewrite nth_error_firstn, nth_error_upd.
        destruct (Nat.ltb_spec j (S i)).
        * destruct (Nat.eqb_spec j i) as [->|].
          -- destruct (Nat.ltb_spec i (length a)); [|lia]. rewrite nth_error_app2 by lia. rewrite L1, Nat.sub_diag. reflexivity.
          -- rewrite nth_error_app1 by lia. rewrite nth_error_firstn. destruct (Nat.ltb_spec j i); [reflexivity|lia].
        * symmetry. apply nth_error_None. rewrite app_length. simpl. lia. }
  apply okp_iff in H as ([c a] & -> & Sh & Ll & Hc & Ha). cbn [bind fst snd] in *.
  destruct (finalize_all_ok Sh) as (c2 & E2 & Sh2 & Hc2). rewrite E2. cbn [bind].
  eexists. split; [reflexivity|]. simpl. splits; auto.
  - intros j Hj. rewrite Hc2, Hc by exact Hj. unfold ccnt. rewrite xas_snd. reflexivity.
  - rewrite <- Ha. rewrite <- Ll. symmetry. apply firstn_all.
Qed.

(* ------------------------------------------------------------------ *)
(** * kmeans++ *)

Definition upd_cell (ci : nat) (c x : list T) (cell : T * option nat) : T * option nat :=
  let dist := ldist N (g_dt g) x c in if nltb N dist (fst cell) then (dist, Some ci) else cell.
Definition kcells (ci : nat) (c : list T) (cells : list (T * option nat)) : list (T * option nat) :=
  map2 (fun r cell => upd_cell ci c (row data d r) cell) (seq 0 nrow) cells.
Definition wsums (ws : list (worker N)) (cells : list (T * option nat)) : list T :=
  map (fun w => fold_left (nadd N) (map fst (slice cells (w_start w) (w_nrow w))) (nzero N)) ws.

Lemma nth_error_kcells ci c cells r : length cells = nrow ->
  nth_error (kcells ci c cells) r = option_map (upd_cell ci c (row data d r)) (nth_error cells r).
Proof.
  intros L. unfold kcells. rewrite nth_error_map2, nth_error_seq.
  destruct (Nat.ltb_spec r nrow); [destruct (nth_error cells r); reflexivity|].
  rewrite (proj2 (nth_error_None cells r)) by lia. reflexivity.
Qed.
Lemma kcells_length ci c cells : length cells = nrow -> length (kcells ci c cells) = nrow.
Proof. intros L. unfold kcells. rewrite map2_length, seq_length. lia. Qed.

Lemma kmspp_row_ok ws (gcl : clusters) ci t w r cuml cell : wok nrow d data ws -> shaped k d gcl -> ci < k ->
  nth_error ws t = Some w -> r < w_nrow w ->
  kmspp_row g ws gcl ci t r cuml cell =
    Ok (nadd N cuml (fst (upd_cell ci (crow gcl ci) (row data d (w_start w + r)) cell)),
        upd_cell ci (crow gcl ci) (row data d (w_start w + r)) cell).
Proof.
  intros W (Sk & Sd & Sm & _) Hci Ew Hr. unfold kmspp_row. rewrite (proj2 (aget_ok _ _ _) Ew). cbn [bind].
  pose proof W as (Wt & Ws).
  assert (Hin : w_start w + w_nrow w <= nrow).
  { apply (@ntiles_in _ _ _ Wt t). unfold w_ranges. rewrite nth_error_map, Ew. reflexivity. }
  assert (Lr : length (row data d (w_start w + r)) = d) by (apply data_row_length; lia).
  rewrite (@dist_comp_raw_ok N (g_dt g) (wrow w (g_ncol g) r) (c_means gcl, ci * g_ncol g) (g_ncol g)
     (row data d (w_start w + r)) (crow gcl ci)); auto.
  - apply Ws; [eapply nth_error_In; eauto|exact Hr].
  - unfold crow. rewrite Sd. reflexivity.
  - unfold crow. rewrite Sd. apply (@row_length _ _ d ci k); [rewrite Sm, Sk, Sd; reflexivity|exact Hci].
Qed.

Lemma seq_rows_kmspp ws (gcl : clusters) ci t w cells : wok nrow d data ws -> shaped k d gcl -> ci < k -> length cells = nrow ->
  nth_error ws t = Some w ->
  forall m r l, r + m = w_nrow w ->
  seq_rows (kmspp_row g ws gcl ci) t r l (slice cells (w_start w + r) m) =
    Ok (fold_left (nadd N) (map fst (slice (kcells ci (crow gcl ci) cells) (w_start w + r) m)) l,
        slice (kcells ci (crow gcl ci) cells) (w_start w + r) m).
Proof.
  intros W Sh Hci L Ew. pose proof W as (Wt & _).
  assert (Hin : w_start w + w_nrow w <= nrow).
  { apply (@ntiles_in _ _ _ Wt t). unfold w_ranges. rewrite nth_error_map, Ew. reflexivity. }
  induction m as [|m IH]; intros r l Hm; [reflexivity|].
  destruct (nth_error cells (w_start w + r)) as [cell|] eqn:Ec; [|apply nth_error_None in Ec; lia].
  assert (Ek : nth_error (kcells ci (crow gcl ci) cells) (w_start w + r) = Some (upd_cell ci (crow gcl ci) (row data d (w_start w + r)) cell)).
  { rewrite nth_error_kcells, Ec by exact L. reflexivity. }
  rewrite (@slice_S _ _ _ _ _ Ec), (@slice_S _ _ _ _ _ Ek). cbn [seq_rows map fold_left].
  rewrite (@kmspp_row_ok ws gcl ci t w r l cell W Sh Hci Ew) by lia. cbn [bind fst snd].
  replace (S (w_start w + r)) with (w_start w + S r) by lia. rewrite IH by lia. reflexivity.
Qed.

Lemma tiles_cells_eq {A} (a b : list A) rs n : ntiles 0 n rs -> length a = n -> length b = n ->
  (forall t s m, nth_error rs t = Some (s, m) -> slice a s m = slice b s m) -> a = b.
Proof.
  intros Ht La Lb H.
  pose proof (@ntiles_concat _ a 0 n rs Ht ltac:(lia)) as Ea. pose proof (@ntiles_concat _ b 0 n rs Ht ltac:(lia)) as Eb.
  rewrite Nat.sub_0_r in *. rewrite <- La in Ea at 1. rewrite <- Lb in Eb at 1. rewrite slice_all in Ea, Eb.
  rewrite <- Ea, <- Eb. f_equal. apply map_ext_in. intros [s m] Hin. apply In_nth_error in Hin as (t & Et). exact (H t s m Et).
Qed.

Lemma kmspp_round_ok ws (gcl : clusters) ci sched cells : wok nrow d data ws -> shaped k d gcl -> ci < k -> length cells = nrow ->
  complete (w_ranges ws) sched ->
  par_run (kmspp_row g ws gcl ci) (w_ranges ws) sched cells (map (fun _ => nzero N) ws)
  = Ok (wsums ws (kcells ci (crow gcl ci) cells), kcells ci (crow gcl ci) cells).
Proof.
  intros W Sh Hci L Hsch. pose proof W as (Wt & _).
  assert (Ht : ntiles 0 (length cells) (w_ranges ws)) by (rewrite L; exact Wt).
  assert (Hl : length (map (fun _ : worker N => nzero N) ws) = length (w_ranges ws)) by (unfold w_ranges; rewrite !map_length; reflexivity).
  assert (Hseq : forall t s n l0, nth_error (w_ranges ws) t = Some (s, n) -> nth_error (map (fun _ : worker N => nzero N) ws) t = Some l0 ->
     exists w, nth_error ws t = Some w /\ s = w_start w /\ n = w_nrow w /\
     seq_rows (kmspp_row g ws gcl ci) t 0 l0 (slice cells s n) =
     Ok (fold_left (nadd N) (map fst (slice (kcells ci (crow gcl ci) cells) s n)) (nzero N), slice (kcells ci (crow gcl ci) cells) s n)).
  { intros t s n l0 E1 E2. unfold w_ranges in E1. rewrite nth_error_map in E1, E2.
    destruct (nth_error ws t) as [w|] eqn:Ew; [|discriminate]. injection E1 as <- <-. injection E2 as <-. exists w. splits; auto.
    pose proof (@seq_rows_kmspp ws gcl ci t w cells W Sh Hci L Ew (w_nrow w) 0 (nzero N) eq_refl) as E. rewrite Nat.add_0_r in E. exact E. }
  pose proof (@par_run_spec _ _ (kmspp_row g ws gcl ci) (w_ranges ws) cells (map (fun _ => nzero N) ws) Ht Hl sched Hsch) as H.
  destruct (par_run (kmspp_row g ws gcl ci) (w_ranges ws) sched cells (map (fun _ => nzero N) ws)) as [[locs cells']|e].
  - destruct H as (H1 & H2 & H3). f_equal. f_equal.
    + apply nth_error_ext. intros t. unfold wsums. rewrite nth_error_map.
      destruct (nth_error ws t) as [w|] eqn:Ew.
      * destruct (H3 t (w_start w) (w_nrow w) (nzero N)) as (l & El & Es).
        { unfold w_ranges. rewrite nth_error_map, Ew. reflexivity. }
        { rewrite nth_error_map, Ew. reflexivity. }
        destruct (Hseq t (w_start w) (w_nrow w) (nzero N)) as (w' & Ew' & _ & _ & Eq).
        { unfold w_ranges. rewrite nth_error_map, Ew. reflexivity. }
        { rewrite nth_error_map, Ew. reflexivity. }
        rewrite Eq in Es. injection Es as <- _. exact El.
      * apply nth_error_None. rewrite H1. unfold w_ranges. rewrite map_length. apply nth_error_None. exact Ew.
    + apply (@tiles_cells_eq _ _ _ (w_ranges ws) nrow Wt); [congruence|apply kcells_length; exact L|].
      intros t s n Er. destruct (nth_error (map (fun _ : worker N => nzero N) ws) t) as [l0|] eqn:E0.
      2:{ apply nth_error_None in E0. rewrite Hl in E0. apply nth_error_None in E0. congruence. }
      destruct (H3 t s n l0 Er E0) as (l & _ & Es). destruct (Hseq t s n l0 Er E0) as (w & _ & _ & _ & Eq).
      rewrite Eq in Es. injection Es as _ ->. reflexivity.
  - exfalso. destruct H as (t & s & n & l0 & E1 & E2 & E3). destruct (Hseq t s n l0 E1 E2) as (w & _ & _ & _ & Eq). congruence.
Qed.

End Init.
