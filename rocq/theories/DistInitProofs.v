(** The MPI processes' rows, and the distributed Forgy and random-partition
    initialisations, in exact arithmetic. *)
From Coq Require Import Reals Lra.
From Verif Require Import Base Num Spec DistModel ClustersModel ClustersView PartitionModel ParModel KmeansModel PruneModel DistRunModel.
From Verif Require Import MatLemmas VecLemmas ClustersProofs DistProofs PartitionProofs ParProofs NearProofs KmeansProofs UpdateProofs RunProofs InitProofs ParRule DistMatProofs PruneProofs ClusterSums PruneRound PruneUpdate PruneRun DistRunProofs DistRunProofs2 DistRunProofs3 ProcRows.
Set Implicit Arguments.
Local Open Scope R_scope.

Section Rows.
Variables (g : kcfg NumR) (P : nat) (data : list (car NumR)).
Let d := g_ncol g.
Let k := g_k g.
Let G := g_nrow g.
Hypothesis HP : (1 <= P <= G)%nat.
Hypothesis Hdata : length data = (G * d)%nat.
Hypothesis HG : (Z.of_nat G < 2 ^ 31)%Z.
Let HG63 : (Z.of_nat G < 2 ^ 63)%Z.
Proof. lia. Qed.
Hypothesis Hnt : (1 <= g_nthreads g < 2 ^ 32)%Z.

(** a process is a valid single-process configuration *)
Lemma proc_valid rk : (rk < P)%nat -> valid_input (proc_cfg g P rk) (proc_data g P data rk).
Proof.
  intros Hrk. pose proof (proc_nrow_pos HP Hrk) as H1. pose proof (proc_bound HP Hrk) as H2.
  split; [exact H1|]. split; [|split; [exact Hnt|]].
  - cbn [proc_cfg g_nrow]. unfold G in *. lia.
  - exact (@proc_data_len NumR g P data HP Hdata rk Hrk).
Qed.

Lemma proc_thd_row rk r : (rk < P)%nat -> (r < proc_nrow G P rk)%nat ->
  exists p, thd_row (proc_cfg g P rk) (proc_data g P data rk) r = Ok p /\ slice (fst p) (snd p) d = row data d (proc_off G P rk + r).
Proof.
  intros Hrk Hr. destruct (@thd_row_ok NumR (proc_cfg g P rk) (proc_data g P data rk) (proc_valid Hrk) r Hr) as (p & E & Hp).
  exists p. split; [exact E|]. etransitivity; [exact Hp|]. exact (@proc_row NumR g P data HP Hdata rk r Hrk Hr).
Qed.

(* ------------------------------------------------------------------ *)
(** * Forgy *)
Lemma forgy_local_ok rk draw (c : clusters NumR) : (rk < P)%nat -> (forall j, (j < k)%nat -> (draw j < G)%nat) ->
  cis k d c (fun _ _ => 0) (fun _ => 0%Z) (fun _ => false) ->
  exists c', forgy_local g P data draw rk c = Ok c' /\
    cis k d c' (fun j i => if own G P rk (draw j) then nth i (row data d (draw j)) 0 else 0) (fun _ => 0%Z) (fun _ => false).
Proof.
  intros Hrk Hd Hc. unfold forgy_local. fold k G.
  assert (H : okp (loop k (fun clust_idx c =>
     if is_local (Z.of_nat G) (Z.of_nat P) (Z.of_nat rk) (Z.of_nat (draw clust_idx)) then
       let* l := local_rid (Z.of_nat G) (Z.of_nat P) (Z.of_nat rk) (Z.of_nat (draw clust_idx)) in
       let* p := thd_row (proc_cfg g P rk) (proc_data g P data rk) (Z.to_nat l) in set_mean_at c p clust_idx
     else Ok c) c) (fun c' => cis k d c' (fun j i => if (j <? k)%nat then if own G P rk (draw j) then nth i (row data d (draw j)) 0 else 0 else 0) (fun _ => 0%Z) (fun _ => false))).
  { apply (@loop_okp _ (fun m c' => cis k d c' (fun j i => if (j <? m)%nat then if own G P rk (draw j) then nth i (row data d (draw j)) 0 else 0 else 0) (fun _ => 0%Z) (fun _ => false))).
    - exact Hc.
    - intros m c1 Hm H1. rewrite (own_local HP HG63) by auto. destruct (own G P rk (draw m)) eqn:Eo.
      + destruct (own_rid HP HG63 Hrk (Hd m Hm) Eo) as (l & -> & Hl & Ho). cbn [bind].
        destruct (proc_thd_row Hrk Hl) as (p & -> & Hp). cbn [bind]. rewrite Ho in Hp.
        pose proof H1 as (Hs & H1').
        assert (Lx : @length R (row data d (draw m)) = d) by (apply (@row_length R data d (draw m) G); auto).
        destruct (@set_mean_at_ok NumR k d c1 p (row data d (draw m)) m Hs Hm Lx Hp) as (c2 & -> & Hs2 & Hc2).
        cbn [okp]. split; [exact Hs2|]. intros j Hj. specialize (Hc2 j Hj). destruct (H1' j Hj) as (A1 & A2 & A3).
        unfold cel in Hc2. destruct (Nat.eqb_spec j m) as [Ejm|Hne]; [subst j|]; injection Hc2 as E1 E2 E3; rewrite E1, E2, E3.
        * splits; auto. intros i Hi. destruct (Nat.ltb_spec m (S m)); [|lia]. rewrite Eo. reflexivity.
        * splits; auto. intros i Hi. rewrite A3 by auto. destruct (Nat.ltb_spec j m), (Nat.ltb_spec j (S m)); try lia; reflexivity.
      + cbn [okp]. eapply cis_ext; [exact H1|..]; auto. intros j i Hj Hi. cbn beta.
        destruct (Nat.ltb_spec j m), (Nat.ltb_spec j (S m)); try lia; auto.
        assert (j = m) by lia. subst. rewrite Eo. reflexivity. }
  apply okp_iff in H as (c' & E & Hc'). exists c'. split; [exact E|].
  eapply cis_ext; [exact Hc'|..]; auto. intros j i Hj Hi. cbn beta. destruct (Nat.ltb_spec j k); [reflexivity|lia].
Qed.

(* ------------------------------------------------------------------ *)
(** * Random partition *)
Definition rs_sum (draw : nat -> nat) (rows : list nat) (j i : nat) : R :=
  rsum (map (fun r => if (j =? draw r)%nat then nth i (row data d r) 0 else 0) rows).
Definition rs_cnt (draw : nat -> nat) (rows : list nat) (j : nat) : Z :=
  zsum (map (fun r => if (j =? draw r)%nat then 1 else 0)%Z rows).

Lemma random_local_ok {Cell} (set : nat -> Cell -> Cell) rk draw (c : clusters NumR) (cells : list Cell) : (rk < P)%nat ->
  (forall r, (r < G)%nat -> (draw r < k)%nat) -> length cells = proc_nrow G P rk ->
  cis k d c (fun _ _ => 0) (fun _ => 0%Z) (fun _ => false) ->
  exists c' cells', random_local set g P data draw rk (c, cells) = Ok (c', cells') /\
    cis k d c' (rs_sum draw (prows G P rk)) (rs_cnt draw (prows G P rk)) (fun _ => false) /\
    length cells' = length cells /\
    forall r, (r < length cells)%nat -> nth_error cells' r = option_map (set (draw (proc_off G P rk + r)%nat)) (nth_error cells r).
Proof.
  intros Hrk Hd Lc Hc. unfold random_local. fold G.
  set (n := proc_nrow G P rk) in *. set (off := proc_off G P rk).
  pose proof (proc_bound HP Hrk) as Hb. fold G n off in Hb.
  assert (H : okp (loop n (fun r (ca : clusters NumR * list Cell) =>
      let* p := thd_row (proc_cfg g P rk) (proc_data g P data rk) r in
      let* c := add_member (fst ca) p (draw (off + r)%nat) in
      let* cells := amod (snd ca) r (set (draw (off + r)%nat)) in Ok (c, cells)) (c, cells))
    (fun ca => cis k d (fst ca) (rs_sum draw (map (fun r => (off + r)%nat) (seq 0 n))) (rs_cnt draw (map (fun r => (off + r)%nat) (seq 0 n))) (fun _ => false) /\
      length (snd ca) = n /\ forall r, nth_error (snd ca) r = if (r <? n)%nat then option_map (set (draw (off + r)%nat)) (nth_error cells r) else nth_error cells r)).
  { apply (@loop_okp _ (fun m (ca : clusters NumR * list Cell) => cis k d (fst ca) (rs_sum draw (map (fun r => (off + r)%nat) (seq 0 m))) (rs_cnt draw (map (fun r => (off + r)%nat) (seq 0 m))) (fun _ => false) /\
      length (snd ca) = n /\ forall r, nth_error (snd ca) r = if (r <? m)%nat then option_map (set (draw (off + r)%nat)) (nth_error cells r) else nth_error cells r)).
    - cbn [fst snd]. splits; auto.
    - intros m [c1 cells1] Hm (H1 & H2 & H3). cbn [fst snd] in *.
      destruct (proc_thd_row Hrk Hm) as (p & -> & Hp). cbn [bind]. fold off in Hp.
      assert (Hx : (off + m < G)%nat) by lia.
      assert (Lx : @length R (row data d (off + m)) = d) by (apply (@row_length R data d (off + m) G); auto).
      destruct (@cis_add k d c1 _ _ _ p (row data d (off + m)) (draw (off + m)%nat) H1 (Hd _ Hx) Lx Hp) as (c2 & -> & Hc2).
      cbn [bind].
      destruct (nth_error cells1 m) as [x0|] eqn:Ex; [|apply nth_error_None in Ex; lia].
      rewrite (@amod_ok _ cells1 m (set (draw (off + m)%nat)) x0 Ex). cbn [bind okp fst snd].
      rewrite upd_length. splits; auto.
      + rewrite seq_S, map_app. cbn [map plus]. eapply cis_ext; [exact Hc2|..]; auto.
        * intros j i Hj Hi. cbn beta. unfold rs_sum. rewrite !map_app, rsum_app. cbn [map rsum]. rewrite Rplus_0_r. reflexivity.
        * intros j Hj. cbn beta. unfold rs_cnt. rewrite !map_app, zsum_app. cbn [map zsum]. lia.
      + intros r. rewrite nth_error_upd. destruct (Nat.eqb_spec r m) as [->|Hne].
        * destruct (Nat.ltb_spec m (length cells1)); [|lia]. destruct (Nat.ltb_spec m (S m)); [|lia].
          specialize (H3 m). rewrite Nat.ltb_irrefl in H3. rewrite <- H3, Ex. reflexivity.
        * rewrite H3. destruct (Nat.ltb_spec r m), (Nat.ltb_spec r (S m)); try lia; reflexivity. }
  apply okp_iff in H as ([c' cells'] & E & H1 & H2 & H3). cbn [fst snd] in *. exists c', cells'. splits; auto.
  - lia.
  - intros r Hr. rewrite H3. destruct (Nat.ltb_spec r n); [reflexivity|lia].
Qed.

Lemma rs_sum_all draw j i : rsum (map (fun rk => rs_sum draw (prows G P rk) j i) (seq 0 P)) = rs_sum draw (seq 0 G) j i.
Proof.
  unfold rs_sum. symmetry. etransitivity; [apply (@rsum_rows G P HP (fun r => if (j =? draw r)%nat then nth i (row data d r) 0 else 0))|].
  f_equal. apply map_ext. intros rk. unfold prows. rewrite map_map. reflexivity.
Qed.
Lemma rs_cnt_all draw j : zsum (map (fun rk => rs_cnt draw (prows G P rk) j) (seq 0 P)) = rs_cnt draw (seq 0 G) j.
Proof.
  unfold rs_cnt. rewrite (zsum_rows HP (fun r => if (j =? draw r)%nat then 1 else 0)%Z).
  f_equal. apply map_ext. intros rk. unfold prows. rewrite map_map. reflexivity.
Qed.

End Rows.
