(** The OpenMP k-means follows the library's k-means. *)
From Verif Require Import Base Num Spec DistModel ClustersModel ClustersView PartitionModel ParModel KmeansModel PruneModel.
From Verif Require Import MatLemmas ClustersProofs DistProofs PartitionProofs ParProofs NearProofs KmeansProofs UpdateProofs RunProofs InitProofs SimProofs OmpModel.
Set Implicit Arguments.

Lemma loop_lock {S} (I : nat -> S -> Prop) (f h : nat -> S -> res S) :
  forall n i s, I i s -> (forall j s, i <= j < i + n -> I j s -> f j s = h j s /\ rp (f j s) (I (Datatypes.S j))) ->
  for_ n i f s = for_ n i h s.
Proof.
  induction n as [|n IH]; intros i s Hi H; cbn [for_]; [reflexivity|].
  destruct (H i s ltac:(lia) Hi) as (E & Hr). rewrite <- E. destruct (f i s) as [s'|e]; cbn [Base.bind]; [|reflexivity].
  apply IH; [exact Hr|]. intros j s'' Hj. apply H. lia.
Qed.

Section Omp.
Variable N : Num.
Notation T := (car N).
Notation clusters := (clusters N).

Definition zsum (l : list Z) : Z := fold_right Z.add 0%Z l.

Lemma zsum_firstn_S l j : j < length l -> zsum (firstn (S j) l) = (zsum (firstn j l) + nth j l 0)%Z.
Proof. revert j. induction l as [|x l IH]; intros [|j] H; cbn [length] in H; cbn [firstn zsum fold_right nth] in *; try lia. fold (zsum (firstn (S j) l)) (zsum (firstn j l)). unfold zsum in *. rewrite IH by lia. lia. Qed.

Lemma firstn_upd_ge {A} (l : list A) j i v : j <= i -> firstn j (upd l i v) = firstn j l.
Proof. revert j i. induction l as [|x l IH]; intros [|j] [|i] H; cbn [firstn upd]; auto; try lia. f_equal. apply IH. lia. Qed.

(** the finalising loops of update_clusters and of the OpenMP EM_step differ
    only in the width of the check sum *)
Lemma fin_loops k (c : clusters) counts :
  match loop k (fun i (st : clusters * list Z * Z) => let '(c, counts, chk) := st in
          let* c := finalize c i in let* n := aget (c_members c) i in let* counts := aset counts i n in Ok (c, counts, w32 (chk + n))) (c, counts, 0%Z) with
  | Ok (c', counts', chk) => chk = w32 (zsum (firstn k counts')) /\
      loop k (fun i (st : clusters * list Z * Z) => let '(c, counts, chk) := st in
          let* c := finalize c i in let* n := aget (c_members c) i in let* counts := aset counts i n in Ok (c, counts, w64 (chk + n))) (c, counts, 0%Z)
      = Ok (c', counts', w64 (zsum (firstn k counts')))
  | Err e => loop k (fun i (st : clusters * list Z * Z) => let '(c, counts, chk) := st in
          let* c := finalize c i in let* n := aget (c_members c) i in let* counts := aset counts i n in Ok (c, counts, w64 (chk + n))) (c, counts, 0%Z) = Err e
  end.
Proof.
  unfold loop.
  assert (G : forall n i c counts, 
  match for_ n i (fun i (st : clusters * list Z * Z) => let '(c, counts, chk) := st in
          let* c := finalize c i in let* n := aget (c_members c) i in let* counts := aset counts i n in Ok (c, counts, w32 (chk + n))) (c, counts, w32 (zsum (firstn i counts))) with
  | Ok (c', counts', chk) => chk = w32 (zsum (firstn (i + n) counts')) /\
      for_ n i (fun i (st : clusters * list Z * Z) => let '(c, counts, chk) := st in
          let* c := finalize c i in let* n := aget (c_members c) i in let* counts := aset counts i n in Ok (c, counts, w64 (chk + n))) (c, counts, w64 (zsum (firstn i counts)))
      = Ok (c', counts', w64 (zsum (firstn (i + n) counts')))
  | Err e => for_ n i (fun i (st : clusters * list Z * Z) => let '(c, counts, chk) := st in
          let* c := finalize c i in let* n := aget (c_members c) i in let* counts := aset counts i n in Ok (c, counts, w64 (chk + n))) (c, counts, w64 (zsum (firstn i counts))) = Err e
  end).
  { clear c counts. induction n as [|n IH]; intros i c counts; cbn [for_].
    - rewrite Nat.add_0_r. auto.
    - cbn [Base.bind]. destruct (finalize c i) as [c1|e]; cbn [Base.bind]; [|reflexivity].
      destruct (aget (c_members c1) i) as [m|e]; cbn [Base.bind]; [|reflexivity].
      unfold aset. destruct (Nat.ltb_spec i (length counts)) as [Hi|Hi]; cbn [Base.bind]; [|reflexivity].
      specialize (IH (S i) c1 (upd counts i m)).
      rewrite zsum_firstn_S in IH by (rewrite upd_length; exact Hi). rewrite firstn_upd_ge in IH by lia.
      rewrite nth_upd, Nat.eqb_refl in IH by exact Hi.
      assert (E32 : w32 (w32 (zsum (firstn i counts)) + m) = w32 (zsum (firstn i counts) + m)) by (unfold w32; apply Zplus_mod_idemp_l).
      assert (E64 : w64 (w64 (zsum (firstn i counts)) + m) = w64 (zsum (firstn i counts) + m)) by (unfold w64; apply Zplus_mod_idemp_l).
      rewrite E32, E64. replace (i + S n) with (S i + n) by lia. exact IH. }
  specialize (G k 0 c counts). cbn [firstn zsum fold_right] in G. exact G.
Qed.

(** the containers an OpenMP step starts from *)
Definition fill (g : kcfg N) (ws : list (worker N)) (s : kst N) : kst N :=
  mkSt (s_cltrs s) (s_asg s) (s_counts s) (s_changed s) (map (fun _ => (clusters_create N (g_k g) (g_ncol g), 0)) ws).

Lemma omp_step_iterate (g : kcfg N) ws data sched s :
  wok (g_nrow g) (g_ncol g) data ws -> (Z.of_nat (g_nrow g) < 2 ^ 32)%Z -> length data = g_nrow g * g_ncol g ->
  complete (w_ranges ws) sched -> stok g ws (fill g ws s) -> s_changed s = 0 ->
  omp_EM_step g ws sched s = iterate g ws sched (fill g ws s).
Proof.
  intros W V2 V4 Hc St H0. pose proof (@iterate_ok N g ws data W V2 V4 sched (fill g ws s) Hc St) as HI.
  pose proof St as (S1 & S2 & S3 & S4 & S5).
  pose proof (@EM_round_ok N g ws data (s_cltrs (fill g ws s)) W S1 V4 sched (s_local (fill g ws s)) (s_asg (fill g ws s)) Hc S3 S4 S5) as HE.
  unfold iterate in *.
  assert (EL : EM_round g ws (s_cltrs (fill g ws s)) sched (s_local (fill g ws s)) (s_asg (fill g ws s)) =
    par_run (EM_row g ws (s_cltrs s)) (w_ranges ws) sched (s_asg s) (map (fun _ => (clusters_create N (g_k g) (g_ncol g), 0)) ws)).
  { unfold EM_round, fill. cbn [s_cltrs s_local s_asg]. f_equal. rewrite map_map. apply map_ext. intros w. cbn [fst]. f_equal. apply (clear_create (shaped_create N _ _)). }
  unfold omp_EM_step. rewrite EL in *.
  destruct (par_run (EM_row g ws (s_cltrs s)) (w_ranges ws) sched (s_asg s) _) as [[locs asg']|e]; cbn [Base.bind fst snd] in *; [|reflexivity].
  destruct HE as (A0 & _ & _ & Hnid & _).
  destruct (update_clusters g (mkSt (s_cltrs (fill g ws s)) asg' (s_counts (fill g ws s)) (s_changed (fill g ws s)) locs)) as [s'|e] eqn:EU.
  2:{ destruct HI as (_ & r & Hr & Hn). destruct (Hnid r Hr) as (Hs & _). rewrite Hs in Hn. discriminate. }
  destruct HI as (A & LA & HA & _ & _ & _ & _ & Hcnt & _).
  assert (Hz : zsum (s_counts s') = Z.of_nat (g_nrow g)).
  { rewrite Hcnt. unfold counts_of, zsum.
    assert (Ef : forall l, fold_right Z.add 0%Z (map (fun j => Z.of_nat (count_eq j A)) l)
                 = Z.of_nat (list_sum (map (fun j => count_eq j A) l))).
    { induction l as [|j l IH]; simpl; [reflexivity|]. rewrite IH. unfold list_sum. lia. }
    rewrite Ef, count_sum by exact HA. rewrite LA. reflexivity. }
  assert (Lc : length (s_counts s') = g_k g) by (rewrite Hcnt; unfold counts_of; rewrite map_length, seq_length; reflexivity).
  clear Hcnt. revert EU. unfold update_clusters, fill. cbn [s_cltrs s_asg s_counts s_changed s_local]. rewrite H0.
  destruct (for_each locs _ (clear (s_cltrs s), 0)) as [[c1 ch]|e]; cbn [Base.bind fst snd]; [|discriminate].
  pose proof (fin_loops (g_k g) c1 (s_counts s)) as F.
  destruct (loop (g_k g) (fun i st => let '(c, counts, chk) := st in let* c := finalize c i in let* n := aget (c_members c) i in
     let* counts := aset counts i n in Ok (c, counts, w32 (chk + n))) (c1, s_counts s, 0%Z)) as [[[c2 counts] chk]|e] eqn:E32; cbn [Base.bind]; [|discriminate].
  destruct F as (-> & ->). cbn [Base.bind]. intros EU.
  apply bind_ok in EU as (? & _ & EU). apply bind_ok in EU as (? & _ & EU). injection EU as <-.
  cbn [s_counts] in Hz, Lc. rewrite <- Lc at 1. rewrite firstn_all, Hz.
  replace (w64 (Z.of_nat (g_nrow g))) with (Z.of_nat (g_nrow g)) by (unfold w64; rewrite Z.mod_small; lia).
  rewrite Z.eqb_refl. reflexivity.
Qed.

Section Two.
Variables (g : kcfg N) (data : list T) (ws1 ws2 : list (worker N)).
Hypothesis W1 : wok (g_nrow g) (g_ncol g) data ws1.
Hypothesis W2 : wok (g_nrow g) (g_ncol g) data ws2.
Hypothesis V2 : (Z.of_nat (g_nrow g) < 2 ^ 32)%Z.
Hypothesis V4 : length data = g_nrow g * g_ncol g.
Hypothesis Hu : forall A j, length A = g_nrow g -> j < g_k g -> ucel g ws1 data A j = ucel g ws2 data A j.

(** the two loops, the library's on [ws1] and the OpenMP one on [ws2] *)
Lemma omp_loop_sim scheds1 scheds2 :
  (forall i, complete (w_ranges ws1) (scheds1 i)) -> (forall i, complete (w_ranges ws2) (scheds2 i)) ->
  forall n iter s o t1 t2, stok g ws1 s -> stok g ws2 (fill g ws2 o) ->
  s_cltrs s = s_cltrs o -> s_asg s = s_asg o -> s_counts s = s_counts o -> s_changed o = 0 ->
  Forall2 (@same N) t1 t2 ->
  match main_loop g ws1 scheds1 n iter s t1, omp_loop g ws2 scheds2 n iter o t2 with
  | Ok (i1, c1, f1, tr1), Ok (i2, c2, f2, tr2) => i1 = i2 /\ c1 = c2 /\ (s_cltrs f1 = s_cltrs f2 /\ s_asg f1 = s_asg f2 /\ s_counts f1 = s_counts f2) /\ Forall2 (@same N) tr1 tr2
  | Err e, Err e' => e = e' /\ e = Abort
  | _, _ => False
  end.
Proof.
  intros C1 C2. induction n as [|n IH]; intros iter s o t1 t2 S1 S2 E1 E2 E3 E4 Ht; cbn [main_loop omp_loop].
  - splits; auto.
  - set (a1 := if iter =? 1 then clear_asg s else s). set (a2 := if iter =? 1 then clear_asg o else o).
    assert (Sa1 : stok g ws1 a1) by (unfold a1; destruct (iter =? 1); [apply stok_clear|]; exact S1).
    assert (Sa2 : stok g ws2 (fill g ws2 a2)).
    { unfold a2. destruct (iter =? 1); [|exact S2]. exact (@stok_clear N g ws2 (fill g ws2 o) S2). }
    assert (Z2 : s_changed a2 = 0) by (unfold a2; destruct (iter =? 1); exact E4).
    assert (Sa : same (reset_changed a1) (fill g ws2 a2)).
    { unfold a1, a2. destruct (iter =? 1); unfold same, clear_asg, reset_changed, fill; cbn; splits; auto. rewrite E2. reflexivity. }
    rewrite (@omp_step_iterate g ws2 data (scheds2 iter) a2 W2 V2 V4 (C2 _) Sa2 Z2).
    change (iterate g ws1 (scheds1 iter) a1) with (iterate g ws1 (scheds1 iter) (reset_changed a1)).
    assert (Sr : stok g ws1 (reset_changed a1)) by exact Sa1.
    pose proof (@iterate_sim N g data ws1 ws2 W1 W2 V2 V4 Hu (scheds1 iter) (scheds2 iter) (reset_changed a1) (fill g ws2 a2) (C1 _) (C2 _) Sr Sa2 Sa) as H.
    pose proof (@iterate_ok N g ws1 data W1 V2 V4 (scheds1 iter) (reset_changed a1) (C1 _) Sr) as HE.
    destruct (iterate g ws1 (scheds1 iter) (reset_changed a1)) as [b1|e]; destruct (iterate g ws2 (scheds2 iter) (fill g ws2 a2)) as [b2|e']; try contradiction; cbn [Base.bind].
    + destruct H as (Hb & Sb1 & Sb2). pose proof Hb as (B1 & B2 & B3 & Ech). rewrite Ech.
      assert (Ht' : Forall2 (@same N) (t1 ++ [b1]) (t2 ++ [b2])) by (apply Forall2_app; auto).
      destruct (stop_test g (s_changed b2)); [splits; auto|]. apply IH; auto.
      destruct Sb2 as (P1 & P2 & P3 & P4 & P5). unfold stok, fill, reset_changed. cbn [s_cltrs s_asg s_counts s_local].
      splits; auto; [apply map_length|]. apply Forall_forall. intros l Hl. apply in_map_iff in Hl as (w & <- & _). cbn [fst]. apply shaped_create.
    + split; [exact H|]. apply HE.
Qed.

Hypothesis V : valid_input g data.

Lemma data_slice r : r < g_nrow g -> slice (fst (data, r * g_ncol g)) (snd (data, r * g_ncol g)) (g_ncol g) = row data (g_ncol g) r.
Proof. reflexivity. Qed.

Lemma add_member_eq (c : clusters) p p' x i : shaped (g_k g) (g_ncol g) c -> i < g_k g -> length x = g_ncol g ->
  slice (fst p) (snd p) (g_ncol g) = x -> slice (fst p') (snd p') (g_ncol g) = x ->
  exists c', add_member c p i = Ok c' /\ add_member c p' i = Ok c' /\ shaped (g_k g) (g_ncol g) c'.
Proof.
  clear. intros Sh Hi Lx Hp Hp'.
  destruct (@add_member_ok N _ _ c p x i Sh Hi Lx Hp) as (c1 & E1 & S1 & H1).
  destruct (@add_member_ok N _ _ c p' x i Sh Hi Lx Hp') as (c2 & E2 & S2 & H2).
  assert (c1 = c2) by (apply (@clusters_ext N (g_k g) (g_ncol g)); auto; intros j Hj; rewrite H1, H2; auto).
  subst. eauto.
Qed.

Lemma omp_random_eq draw s : shaped (g_k g) (g_ncol g) (s_cltrs s) -> (forall r, r < g_nrow g -> draw r < g_k g) ->
  omp_random_init g data draw s = random_partition_init g data draw s.
Proof.
  clear - V.
  intros Sh Hd. unfold omp_random_init, random_partition_init.
  assert (E : loop (g_nrow g) (fun r (ca : clusters * list (option nat)) =>
    let* p := thd_row g data r in let* c := add_member (fst ca) p (draw r) in let* asg := aset (snd ca) r (Some (draw r)) in Ok (c, asg)) (s_cltrs s, s_asg s)
   = loop (g_nrow g) (fun r (ca : clusters * list (option nat)) =>
    let* c := add_member (fst ca) (data, r * g_ncol g) (draw r) in let* asg := aset (snd ca) r (Some (draw r)) in Ok (c, asg)) (s_cltrs s, s_asg s)).
  { apply (loop_lock (fun _ (ca : clusters * list (option nat)) => shaped (g_k g) (g_ncol g) (fst ca))); [exact Sh|].
    intros j ca Hj Hs. destruct (@thd_row_ok N g data V j ltac:(lia)) as (p & -> & Hp). cbn [Base.bind].
    destruct (@add_member_eq (fst ca) p (data, j * g_ncol g) (row data (g_ncol g) j) (draw j) Hs (Hd j ltac:(lia)) (@data_row_length N g data V j ltac:(lia)) Hp eq_refl) as (c' & -> & -> & Sc).
    cbn [Base.bind]. split; [reflexivity|]. destruct (aset (snd ca) j (Some (draw j))); cbn; auto. }
  rewrite E. reflexivity.
Qed.

Lemma omp_forgy_eq draw s : shaped (g_k g) (g_ncol g) (s_cltrs s) -> (forall c, c < g_k g -> draw c < g_nrow g) ->
  omp_forgy_init g data draw s = forgy_init g data draw s.
Proof.
  clear - V.
  intros Sh Hd. unfold omp_forgy_init, forgy_init.
  assert (E : loop (g_k g) (fun clust_idx c => let* p := thd_row g data (draw clust_idx) in set_mean_at c p clust_idx) (s_cltrs s)
   = loop (g_k g) (fun clust_idx c => set_mean_at c (data, draw clust_idx * g_ncol g) clust_idx) (s_cltrs s)).
  { apply (loop_lock (fun _ c => shaped (g_k g) (g_ncol g) c)); [exact Sh|].
    intros j c Hj Hs. assert (Hr : draw j < g_nrow g) by (apply Hd; lia). destruct (@thd_row_ok N g data V _ Hr) as (p & -> & Hp). cbn [Base.bind].
    destruct (@set_mean_at_eq N (g_k g) (g_ncol g) c p (data, draw j * g_ncol g) (row data (g_ncol g) (draw j)) j Hs ltac:(lia) (@data_row_length N g data V _ Hr) Hp eq_refl) as (c' & -> & -> & Sc).
    split; [reflexivity|exact Sc]. }
  rewrite E. reflexivity.
Qed.

Variable red : list T -> T.
Hypothesis Htot : forall cells : list (T * option nat), length cells = g_nrow g ->
  fold_left (nadd N) (wsums ws1 cells) (nzero N) = red (wsums ws2 cells).

Lemma omp_kmspp_loop_eq sch sch' ur :
  (forall i, complete (w_ranges ws1) (sch i)) -> (forall i, complete (w_ranges ws2) (sch' i)) ->
  forall n ci (c : clusters) cells trace chosen, n + ci = g_k g -> ci < g_k g ->
  shaped (g_k g) (g_ncol g) c -> length cells = g_nrow g ->
  match kmspp_loop g ws1 data sch ur n ci (c, cells) trace chosen, omp_kmspp_loop g ws2 data red sch' ur n ci (c, cells) with
  | Ok (s, _, _), Ok s' => s = s'
  | Err e, Err e' => e = e' /\ e = Abort
  | _, _ => False
  end.
Proof.
  clear - W1 W2 V Htot.
  intros C1 C2. induction n as [|n IH]; intros ci c cells trace chosen Hn Hci Sh L; [lia|].
  cbn [kmspp_loop omp_kmspp_loop]. cbn [fst snd].
  rewrite (@kmspp_round_ok N g data V ws1 c ci (sch ci) cells W1 Sh Hci L (C1 ci)).
  rewrite (@kmspp_round_ok N g data V ws2 c ci (sch' ci) cells W2 Sh Hci L (C2 ci)).
  set (K := kcells g data ci (crow c ci) cells).
  assert (LK : length K = g_nrow g) by (apply kcells_length; exact L).
  cbn [Base.bind fst snd]. rewrite (Htot K LK).
  destruct (Nat.leb_spec (g_k g) (S ci)) as [Hk|Hk]; [auto|].
  destruct (kmspp_pick N (map fst K) 0 _) as [[r|] cuml] eqn:Ep.
  - apply kmspp_pick_range in Ep. rewrite map_length in Ep.
    assert (Hr : r < g_nrow g) by lia.
    destruct (@thd_row_ok N g data V r Hr) as (p & -> & Hp). cbn [Base.bind].
    destruct (@set_mean_at_eq N (g_k g) (g_ncol g) c p (data, r * g_ncol g) (row data (g_ncol g) r) (S ci) Sh Hk (@data_row_length N g data V r Hr) Hp eq_refl) as (c' & -> & -> & Sh').
    cbn [Base.bind]. destruct (amod K r _) as [K'|e] eqn:EK.
    + cbn [Base.bind]. destruct (nleb N cuml (nzero N)); cbn [assert_ Base.bind]; [|auto].
      apply IH; try lia; auto. apply amod_inv in EK as (y & _ & ->). rewrite upd_length. exact LK.
    + destruct (nth_error K r) as [y|] eqn:Ey; [|apply nth_error_None in Ey; lia]. rewrite (amod_ok _ _ _ Ey) in EK. discriminate.
  - cbn [Base.bind]. destruct (nleb N cuml (nzero N)); cbn [assert_ Base.bind]; [|auto]. apply IH; auto; lia.
Qed.

End Two.
End Omp.

Lemma omp_workers_ranges N chunks (data : list (car N)) ncol : w_ranges (omp_workers N chunks data ncol) = chunks.
Proof. unfold w_ranges, omp_workers. rewrite map_map. cbn [w_start w_nrow]. rewrite <- (map_id chunks) at 2. apply map_ext. intros []; reflexivity. Qed.

Lemma omp_workers_wok N chunks (data : list (car N)) nrow ncol :
  ntiles 0 nrow chunks -> wok nrow ncol data (omp_workers N chunks data ncol).
Proof.
  intros Ht. split; [rewrite omp_workers_ranges; exact Ht|].
  intros w r Hw Hr. unfold omp_workers in Hw. apply in_map_iff in Hw as ((s & n) & <- & _).
  unfold wrow, row. cbn [w_data fst snd w_start]. f_equal. lia.
Qed.

Section OmpRun.
Variable N : Num.
Notation T := (car N).

(** the library's configuration with another iteration limit *)
Definition with_iters (g : kcfg N) (m : nat) : kcfg N :=
  mkCfg N (g_nrow g) (g_ncol g) (g_k g) m (g_nthreads g) (g_tol g) (g_dt g) (g_kind g).

Lemma omp_loop_iters (g : kcfg N) m ws scheds : forall n iter s t,
  omp_loop (with_iters g m) ws scheds n iter s t = omp_loop g ws scheds n iter s t.
Proof.
  induction n as [|n IH]; intros iter s t; cbn [omp_loop]; [reflexivity|].
  change (omp_EM_step (with_iters g m) ws (scheds iter)) with (omp_EM_step g ws (scheds iter)).
  destruct (omp_EM_step g ws (scheds iter) _) as [s'|e]; cbn [Base.bind]; [|reflexivity].
  change (stop_test (with_iters g m) (s_changed s')) with (stop_test g (s_changed s')).
  rewrite IH. reflexivity.
Qed.

Lemma omp_kmspp_loop_iters (g : kcfg N) m ws data red scheds ur : forall n ci s,
  omp_kmspp_loop (with_iters g m) ws data red scheds ur n ci s = omp_kmspp_loop g ws data red scheds ur n ci s.
Proof.
  induction n as [|n IH]; intros ci s; cbn [omp_kmspp_loop]; [reflexivity|].
  change (kmspp_row (with_iters g m) ws (fst s) ci) with (kmspp_row g ws (fst s) ci).
  change (g_k (with_iters g m)) with (g_k g). change (g_ncol (with_iters g m)) with (g_ncol g).
  destruct (par_run _ _ _ _ _) as [[l c]|e]; cbn [Base.bind fst snd]; [|reflexivity].
  destruct (g_k g <=? S ci); [reflexivity|]. destruct (kmspp_pick N (map fst c) 0 _) as [[r|] cuml].
  - destruct (amod c r _); cbn [Base.bind]; [|reflexivity]. destruct (set_mean_at (fst s) _ _); cbn [Base.bind]; [|reflexivity].
    destruct (assert_ _); cbn [Base.bind]; auto.
  - cbn [Base.bind]. destruct (assert_ _); cbn [Base.bind]; auto.
Qed.

(** the initialisation an argument names *)
Definition init_of (ia : init_arg) : option init_t :=
  match ia with IRandom => Some RANDOM | IForgy => Some FORGY | IKmeanspp => Some PLUSPLUS | INone => Some NONE | IOther => None end.
Definition dist_of (da : dist_arg) : option dist_t :=
  match da with DEucl => Some EUCL | DCos => Some COS | DOther => None end.

(** what the two entry points return, the reported iteration aside *)
Definition same_output (a b : run_result N) : Prop :=
  ct_asg (rr_out a) = ct_asg (rr_out b) /\ ct_counts (rr_out a) = ct_counts (rr_out b) /\
  ct_centroids (rr_out a) = ct_centroids (rr_out b) /\ rr_converged a = rr_converged b /\
  Forall2 (@same N) (rr_trace a) (rr_trace b).

Definition omp_init (g : kcfg N) (ia : init_arg) (ws : list (worker N)) (data : list T) (red : list T -> T) (d : draws N) (o : kst N) : res (kst N) :=
  match ia with
  | IRandom => omp_random_init g data (d_int d) o
  | IForgy => omp_forgy_init g data (d_int d) o
  | IKmeanspp => omp_kmspp_init g ws data red (d_sched d) (d_int d 0) (d_real d) o
  | INone => Ok o
  | IOther => Err Throw
  end.

(** the initial states of the two entry points *)
Lemma omp_init_sim (g0 : kcfg N) dt m ia it centers data chunks red d d' ws :
  let g := with_iters (with_dt g0 dt) m in
  init_of ia = Some it ->
  valid_input g data -> 2 <= g_k g ->
  build_workers g data = Ok ws -> wok (g_nrow g) (g_ncol g) data ws -> ntiles 0 (g_nrow g) chunks ->
  d_int d = d_int d' -> d_real d = d_real d' -> draws_ok g data it d ->
  (ia = IKmeanspp -> forall i, complete chunks (d_sched d' i)) ->
  centers_ok g (Some centers) it ->
  (ia = IKmeanspp -> forall cells : list (T * option nat), length cells = g_nrow g ->
    fold_left (nadd N) (wsums ws cells) (nzero N) = red (wsums (omp_workers N chunks data (g_ncol g)) cells)) ->
  exists s o, coordinator_create g (Some centers) it = Ok s /\ stok g ws s /\ omp_create g0 ia centers = Ok o /\
    match run_init g it ws data d s, omp_init (with_dt g0 dt) ia (omp_workers N chunks data (g_ncol g)) data red d' o with
    | Ok a, Ok b => s_cltrs a = s_cltrs b /\ s_asg a = s_asg b /\ s_counts a = s_counts b /\ s_changed b = 0
    | Err e, Err e' => e = e' /\ e = Abort
    | _, _ => False
    end.
Proof.
  intros g Hia V Hk2 B W Ht Ei Er D Fp Hc Hred.
  destruct (@create_ok N g (Some centers) it ltac:(lia) Hc) as (s & Es & Hs1 & Hs2 & Hs3 & Hs4).
  assert (Lw : length ws = Z.to_nat (eff_threads (g_nthreads g) (Z.of_nat (g_nrow g)))).
  { destruct V as (? & ? & ? & ?). destruct (@build_workers_ok N g data) as (w & Ew & _ & Hl & _); auto. congruence. }
  destruct (@create_stok N g (Some centers) it s ws Es Lw) as (St & _).
  assert (Eo : exists o, omp_create g0 ia centers = Ok o /\ s_cltrs o = s_cltrs s /\ s_asg o = s_asg s /\ s_counts o = s_counts s /\ s_changed o = 0).
  { unfold omp_create. change (g_k g0) with (g_k g). change (g_ncol g0) with (g_ncol g). change (g_nrow g0) with (g_nrow g).
    assert (E0 : clusters_create N (g_k g) (g_ncol g) = mkClusters N (g_ncol g) (g_k g) (repeat 0%Z (g_k g)) (repeat false (g_k g)) (repeat (nzero N) (g_k g * g_ncol g))).
    { unfold clusters_create. rewrite (Nat.mul_comm (g_ncol g) (g_k g)). reflexivity. }
    rewrite Hs1, Hs2, Hs3. destruct ia; cbn in Hia; try discriminate; injection Hia as <-; cbn [initial_means];
      try (eexists; splits; [reflexivity|cbn [s_cltrs]; exact E0|reflexivity..]).
    cbn [centers_ok] in Hc. rewrite (@set_mean_all_ok N (g_k g) (g_ncol g) (clusters_create N (g_k g) (g_ncol g)) (centers, 0) (firstn (g_k g * g_ncol g) centers)); [|apply shaped_create|simpl; exact Hc|reflexivity].
    eexists. splits; reflexivity. }
  destruct Eo as (o & Eo & O1 & O2 & O3 & O4). exists s, o. splits; [exact Es|exact St|exact Eo|]. unfold omp_init.
  set (gd := with_dt g0 dt) in *. change (g_ncol gd) with (g_ncol g). set (ws2 := omp_workers N chunks data (g_ncol g)) in *.
  assert (W2 : wok (g_nrow g) (g_ncol g) data ws2) by (apply omp_workers_wok; exact Ht).
  assert (R2 : w_ranges ws2 = chunks) by apply omp_workers_ranges.
  assert (Sh : shaped (g_k g) (g_ncol g) (s_cltrs s)) by apply St.
  rewrite <- Ei, <- Er. destruct ia; cbn in Hia; try discriminate; injection Hia as <-; cbn [run_init draws_ok] in *.
    - change (omp_random_init gd data (d_int d) o) with (omp_random_init g data (d_int d) o).
      rewrite (@omp_random_eq N g data V (d_int d) o) by (rewrite ?O1; auto).
      assert (Hcr : s_cltrs s = clusters_create N (g_k g) (g_ncol g)) by (rewrite Hs1; unfold clusters_create; rewrite (Nat.mul_comm (g_ncol g)); reflexivity).
      destruct (@random_ok N g data V (d_int d) s Hcr) as (a & -> & Sa & (Ha1 & Ha2) & Ha3 & Ha4 & _); [apply St|exact D|].
      destruct (@random_ok N g data V (d_int d) o) as (b & -> & Sb & (Hb1 & Hb2) & Hb3 & Hb4 & _); [rewrite O1; exact Hcr|rewrite O2; apply St|exact D|].
      splits; try congruence.
      apply (@clusters_ext N (g_k g) (g_ncol g)); auto. intros j Hj. rewrite Ha1, (Hb1 j Hj) by exact Hj. reflexivity.
    - change (omp_forgy_init gd data (d_int d) o) with (omp_forgy_init g data (d_int d) o).
      rewrite (@omp_forgy_eq N g data V (d_int d) o) by (rewrite ?O1; auto).
      assert (Sho : shaped (g_k g) (g_ncol g) (s_cltrs o)) by (rewrite O1; exact Sh).
      destruct (@forgy_ok N g data V (d_int d) s Sh D) as (a & -> & Sa & Ha1 & Ha2 & Ha3 & Ha4 & _).
      destruct (@forgy_ok N g data V (d_int d) o Sho D) as (b & -> & Sb & Hb1 & Hb2 & Hb3 & Hb4 & _).
      splits; try congruence.
      apply (@clusters_ext N (g_k g) (g_ncol g)); auto. intros j Hj. rewrite Ha1, (Hb1 j Hj), O1 by exact Hj. reflexivity.
    - destruct D as (D & Dp). unfold kmeanspp_init_t, omp_kmspp_init. rewrite O1, O2, O3, O4.
      change (g_ncol gd) with (g_ncol g). change (g_nrow gd) with (g_nrow g). change (g_k gd) with (g_k g).
      destruct (@thd_row_ok N g data V _ D) as (p & -> & Hp). cbn [Base.bind].
      destruct St as (_ & _ & La & _).
      destruct (@set_mean_at_eq N (g_k g) (g_ncol g) (s_cltrs s) p (data, d_int d 0 * g_ncol g) (row data (g_ncol g) (d_int d 0)) 0 Sh ltac:(lia) (@data_row_length N g data V _ D) Hp eq_refl) as (c' & -> & -> & Sh').
      cbn [Base.bind]. rewrite !aset_ok by (rewrite ?repeat_length; lia). cbn [Base.bind].
      set (cells := combine _ _).
      replace (omp_kmspp_loop gd ws2 data red (d_sched d') (d_real d) (g_k g) 0 (c', cells)) with (omp_kmspp_loop g ws2 data red (d_sched d') (d_real d) (g_k g) 0 (c', cells)) by (apply omp_kmspp_loop_iters).
      pose proof (@omp_kmspp_loop_eq N g data ws ws2 W W2 V red (Hred eq_refl) (d_sched d) (d_sched d') (d_real d) (Dp ws B) ltac:(rewrite R2; exact (Fp eq_refl)) (g_k g) 0 c' cells [] [d_int d 0] ltac:(lia) ltac:(lia) Sh') as HK.
      specialize (HK ltac:(unfold cells; rewrite combine_length, !upd_length, repeat_length; lia)).
      destruct (kmspp_loop g ws data (d_sched d) (d_real d) (g_k g) 0 _ _ _) as [[[[c2 cells2] tr] ch]|e]; destruct (omp_kmspp_loop g ws2 data red (d_sched d') (d_real d) (g_k g) 0 _) as [s2|e']; try contradiction; cbn [Base.bind]; [|exact HK].
      subst s2. cbn. auto.
    - splits; auto.
Qed.

Lemma omp_run_sim (g0 : kcfg N) da dt ia it centers data chunks red d d' scheds scheds' ws :
  let g := with_iters (with_dt g0 dt) (g_max_iters g0 - 1) in
  dist_of da = Some dt -> init_of ia = Some it ->
  valid_input g data -> 2 <= g_k g -> g_k g <= g_nrow g -> Z.of_nat (g_k g) <> (2 ^ 32 - 1)%Z ->
  build_workers g data = Ok ws -> wok (g_nrow g) (g_ncol g) data ws -> ntiles 0 (g_nrow g) chunks ->
  fair g data scheds -> (forall i, complete chunks (scheds' i)) ->
  d_int d = d_int d' -> d_real d = d_real d' -> draws_ok g data it d ->
  (ia = IKmeanspp -> forall i, complete chunks (d_sched d' i)) ->
  centers_ok g (Some centers) it ->
  (forall A j, length A = g_nrow g -> j < g_k g -> ucel g ws data A j = ucel g (omp_workers N chunks data (g_ncol g)) data A j) ->
  (ia = IKmeanspp -> forall cells : list (T * option nat), length cells = g_nrow g ->
    fold_left (nadd N) (wsums ws cells) (nzero N) = red (wsums (omp_workers N chunks data (g_ncol g)) cells)) ->
  match run g (Some centers) it data d scheds, compute_kmeans g0 da ia centers data chunks red d' scheds' with
  | Ok a, Ok b => same_output a b /\ (2 <= g_max_iters g0 -> ct_iters (rr_out b) = ct_iters (rr_out a))
  | Err e, Err e' => e = e' /\ e = Abort
  | _, _ => False
  end.
Proof.
  intros g Hda Hia V Hk2 Hkn Hkm B W Ht F F' Ei Er D Fp Hc Hu Hred.
  unfold compute_kmeans. change (g_k g0) with (g_k g). change (g_nrow g0) with (g_nrow g).
  replace (k_rejected (g_k g) (g_nrow g)) with false.
  2:{ unfold k_rejected. destruct (Nat.ltb_spec (g_nrow g) (g_k g)); [lia|]. destruct (Nat.ltb_spec (g_k g) 2); [lia|].
      destruct (Z.eqb_spec (Z.of_nat (g_k g)) (2 ^ 32 - 1)); [lia|reflexivity]. }
  unfold run. destruct (@omp_init_sim g0 dt (g_max_iters g0 - 1) ia it centers data chunks red d d' ws Hia V Hk2 B W Ht Ei Er D Fp Hc Hred) as (s & o & Es & St & Eo & RI). fold g in Es, St, RI.
  rewrite Es, B, Eo. cbn [Base.bind].
  replace (match da with DEucl => Some EUCL | DCos => Some COS | DOther => None end) with (Some dt) by (symmetry; exact Hda).
  set (gd := with_dt g0 dt) in *. change (g_ncol gd) with (g_ncol g). set (ws2 := omp_workers N chunks data (g_ncol g)) in *.
  assert (W2 : wok (g_nrow g) (g_ncol g) data ws2) by (apply omp_workers_wok; exact Ht).
  assert (R2 : w_ranges ws2 = chunks) by apply omp_workers_ranges.
  unfold omp_init in RI.
  destruct (run_init g it ws data d s) as [a|e] eqn:EI;
  destruct (match ia with IRandom => _ | _ => _ end) as [b|e'] eqn:EJ; try contradiction; cbn [Base.bind]; [|exact RI].
  pose proof (@run_init_stok N g it ws data d s a EI St) as Sta. destruct RI as (I1 & I2 & I3 & I4).
  destruct V as (V1 & V2 & V3 & V4).
  assert (Stb : stok g ws2 (fill g ws2 b)).
  { destruct Sta as (P1 & P2 & P3 & P4 & P5). unfold stok, fill. cbn [s_cltrs s_asg s_counts s_local]. rewrite <- I1, <- I2, <- I3.
    splits; auto; [apply map_length|]. apply Forall_forall. intros l Hl. apply in_map_iff in Hl as (w & <- & _). cbn [fst]. apply shaped_create. }
  change (g_max_iters gd) with (g_max_iters g0). change (g_max_iters g) with (g_max_iters g0 - 1).
  set (i1 := if 0 <? g_max_iters g0 - 1 then 1 else 0). set (i2 := if 0 <? g_max_iters g0 then 1 else 0).
  replace (omp_loop gd ws2 scheds' (g_max_iters g0 - i2) i2 b []) with (omp_loop g ws2 scheds' (g_max_iters g0 - i2) i2 b []) by (apply omp_loop_iters).
  assert (En : g_max_iters g0 - i2 = g_max_iters g0 - 1) by (unfold i2; destruct (Nat.ltb_spec 0 (g_max_iters g0)); lia).
  rewrite En. destruct (Nat.leb_spec 2 (g_max_iters g0)) as [Hm|Hm].
  - assert (E1 : i1 = 1) by (unfold i1; destruct (Nat.ltb_spec 0 (g_max_iters g0 - 1)); lia).
    assert (E2 : i2 = 1) by (unfold i2; destruct (Nat.ltb_spec 0 (g_max_iters g0)); lia). rewrite E1, E2.
    pose proof (@omp_loop_sim N g data ws ws2 W W2 V2 V4 Hu scheds scheds' (F ws B) ltac:(rewrite R2; exact F') (g_max_iters g0 - 1) 1 a b [] [] Sta Stb I1 I2 I3 I4 (Forall2_nil _)) as H.
    destruct (main_loop g ws scheds (g_max_iters g0 - 1) 1 a []) as [[[[j1 c1] f1] t1]|e];
    destruct (omp_loop g ws2 scheds' (g_max_iters g0 - 1) 1 b []) as [[[[j2 c2] f2] t2]|e']; try contradiction; cbn [Base.bind]; [|exact H].
    destruct H as (-> & -> & (F1' & F2' & F3') & HT). unfold same_output. cbn. rewrite F1', F2', F3'. auto 10.
  - replace (g_max_iters g0 - 1) with 0 by lia. cbn [main_loop omp_loop Base.bind].
    unfold same_output. cbn. rewrite I1, I2, I3. split; [auto 10|lia].
Qed.

End OmpRun.
