(** The MPI pruned run, process by process, in exact arithmetic. *)
From Coq Require Import Reals Lra.
From Verif Require Import Base Num Spec DistModel ClustersModel ClustersView PartitionModel ParModel KmeansModel PruneModel DistRunModel.
From Verif Require Import MatLemmas VecLemmas ClustersProofs DistProofs PartitionProofs ParProofs NearProofs KmeansProofs UpdateProofs RunProofs ParRule DistMatProofs PruneProofs ClusterSums PruneRound PruneUpdate PruneRun.
Set Implicit Arguments.
Local Open Scope R_scope.

(* ------------------------------------------------------------------ *)
(** * Allreduce *)
Lemma fold_map2_length {A} (add : A -> A -> A) m : forall bs b, length b = m -> Forall (fun v => length v = m) bs ->
  length (fold_left (map2 add) bs b) = m.
Proof.
  induction bs as [|c bs IH]; intros b Lb H; cbn [fold_left]; auto. inversion_clear H. apply IH; auto.
  rewrite map2_length. lia.
Qed.

Lemma allreduce_length {A} (add : A -> A -> A) m bufs : bufs <> [] -> Forall (fun v => length v = m) bufs ->
  length (allreduce add bufs) = m.
Proof. destruct bufs as [|b bs]; [congruence|]. intros _ H. inversion_clear H. apply fold_map2_length; auto. Qed.

Lemma allreduce_nth_R m (bufs : list (list R)) : bufs <> [] -> Forall (fun v => length v = m) bufs ->
  forall i, (i < m)%nat -> nth i (allreduce Rplus bufs) 0 = rsum (map (fun v => nth i v 0) bufs).
Proof.
  destruct bufs as [|b bs]; [congruence|]. intros _ H i Hi. inversion_clear H as [|? ? Lb Hb]. cbn [allreduce map rsum].
  revert b Lb. induction Hb as [|c bs Lc Hb IH]; intros b Lb; cbn [fold_left map rsum]; [lra|].
  rewrite IH by (rewrite map2_length; lia). rewrite (@nth_map2 _ _ _ Rplus b c i 0 0 0) by lia. lra.
Qed.

Lemma allreduce_nth_Z m (bufs : list (list Z)) : bufs <> [] -> Forall (fun v => length v = m) bufs ->
  forall i, (i < m)%nat -> nth i (allreduce Z.add bufs) 0%Z = zsum (map (fun v => nth i v 0%Z) bufs).
Proof.
  destruct bufs as [|b bs]; [congruence|]. intros _ H i Hi. inversion_clear H as [|? ? Lb Hb]. cbn [allreduce map zsum].
  revert b Lb. induction Hb as [|c bs Lc Hb IH]; intros b Lb; cbn [fold_left map zsum]; [lia|].
  rewrite IH by (rewrite map2_length; lia). rewrite (@nth_map2 _ _ _ Z.add b c i 0%Z 0%Z 0%Z) by lia. lia.
Qed.

Lemma shaped_means k d (c : clusters NumR) : shaped k d c -> @length R (c_means c) = (k * d)%nat /\ length (c_members c) = k /\ length (c_complete c) = k.
Proof.
  intros (Hk & Hd & H1 & H2 & H3). splits.
  - etransitivity; [exact H1|]. rewrite Hk, Hd. reflexivity.
  - lia.
  - lia.
Qed.

Lemma nth_crow k d (c : clusters NumR) j i : shaped k d c -> (i < d)%nat -> nth i (crow c j) 0 = nth (j * d + i) (c_means c) 0.
Proof. intros (Hk & Hd & _) Hi. unfold crow, row. rewrite Hd. apply (@nth_slice R). exact Hi. Qed.

(** a vector of sums and a vector of counts *)
Definition vecs (k d : nat) (means : list R) (nmemb : list Z) (V : nat -> nat -> R) (W : nat -> Z) : Prop :=
  length means = (k * d)%nat /\ length nmemb = k /\
  (forall j i, (j < k)%nat -> (i < d)%nat -> nth (j * d + i) means 0 = V j i) /\
  (forall j, (j < k)%nat -> nth j nmemb 0%Z = W j).

Lemma vecs_cis k d c V W D : cis k d c V W D -> vecs k d (c_means c) (c_members c) V W.
Proof.
  intros (Hs & H). destruct (shaped_means Hs) as (L1 & L2 & _). split; [exact L1|]. split; [exact L2|]. split.
  - intros j i Hj Hi. etransitivity; [symmetry; exact (nth_crow j Hs Hi)|]. apply H; auto.
  - intros j Hj. apply H. exact Hj.
Qed.

Lemma vecs_set k d (c : clusters NumR) means nmemb V W : shaped k d c -> vecs k d means nmemb V W ->
  forall D, (forall j, (j < k)%nat -> cdone c j = D j) -> cis k d (with_members (with_means c means) nmemb) V W D.
Proof.
  intros Hs (L1 & L2 & H1 & H2) D HD.
  assert (Hs' : shaped k d (with_members (with_means c means) nmemb)).
  { destruct Hs as (Hk & Hd & A & B & C). unfold shaped, cwf. cbn [with_members with_means c_nclust c_ncol c_means c_members c_complete].
    splits; auto; try lia. etransitivity; [exact L1|]. rewrite Hk, Hd. reflexivity. }
  split; [exact Hs'|]. intros j Hj. splits.
  - apply H2. exact Hj.
  - apply HD. exact Hj.
  - intros i Hi. etransitivity; [exact (nth_crow j Hs' Hi)|]. apply H1; auto.
Qed.

Lemma copy_all {A} (src dst : list A) n : length src = n -> length dst = n -> copy_to (src, 0%nat) n dst 0 = Ok src.
Proof.
  intros L1 L2. rewrite copy_to_ok by (cbn [fst snd]; lia). cbn [firstn app fst snd]. rewrite <- L1 at 1. rewrite slice_all.
  rewrite skipn_all2 by lia. rewrite app_nil_r. reflexivity.
Qed.

Lemma set_members_all k d (c : clusters NumR) v : shaped k d c -> length v = k -> set_num_members_v c (v, 0%nat) = Ok (with_members c v).
Proof.
  intros Hs L. unfold set_num_members_v. pose proof Hs as (Hk & _). destruct (shaped_means Hs) as (_ & L2 & _).
  rewrite Hk, copy_all by lia. reflexivity.
Qed.

Lemma set_complete_all_ok k d (c : clusters NumR) b : shaped k d c -> set_complete_all c b = Ok (with_complete c (repeat b k)).
Proof.
  intros Hs. unfold set_complete_all. pose proof Hs as (Hk & _). destruct (shaped_means Hs) as (_ & _ & L3). rewrite Hk.
  assert (G : okp (loop k (fun i v => aset v i b) (c_complete c)) (fun v => v = repeat b k)).
  { eapply okp_mono.
    - apply (@loop_okp _ (fun m v => length v = k /\ forall j, (j < m)%nat -> nth j v false = b)).
      + split; [exact L3|]. intros; lia.
      + intros m v Hm (Lv & Hv). rewrite aset_ok by lia. cbn [okp]. rewrite upd_length. split; auto.
        intros j Hj. rewrite nth_upd by lia. destruct (Nat.eqb_spec j m); [reflexivity|]. apply Hv. lia.
    - intros v (Lv & Hv). apply nth_ext with (d := false) (d' := false); [rewrite repeat_length; exact Lv|].
      intros j Hj. rewrite Hv by lia. symmetry. apply nth_repeat_d. lia. }
  apply okp_iff in G as (v & E & ->). rewrite E. reflexivity.
Qed.

Lemma cis_means_peq k d c F M D (means : list (car NumR)) V : cis k d c F M D -> length means = (k * d)%nat ->
  (forall j i, (j < k)%nat -> (i < d)%nat -> nth (j * d + i) means 0 = V j i) ->
  exists c', @means_peq NumR c (means, 0%nat) = Ok c' /\ cis k d c' (fun j i => F j i + V j i) M D.
Proof.
  intros Hc Lm HV. pose proof Hc as (Hs & H).
  destruct (@means_peq_ok NumR k d c (means, 0%nat) means Hs Lm) as (c' & E & Hs' & H').
  { cbn [fst snd]. rewrite <- Lm. exact (@slice_all R means). }
  exists c'. split; [exact E|]. split; auto. intros j Hj. specialize (H' j Hj). unfold cel in H'. injection H' as E1 E2 E3.
  rewrite E1, E2, E3. destruct (H j Hj) as (A1 & A2 & A3). splits; auto. intros i Hi.
  assert (Lr : @length R (row means d j) = d) by (apply (@row_length R means d j k); auto).
  assert (Lc : @length R (crow c j) = d) by (eapply cis_row; eauto).
  etransitivity; [apply (@nth_vadd (crow c j) (row means d j : list R) i); exact (eq_trans Lc (eq_sym Lr))|]. rewrite A3 by exact Hi. f_equal.
  rewrite <- HV by auto. unfold row. apply (@nth_slice R). exact Hi.
Qed.

Lemma cis_members_peq k d c F M D v W : cis k d c F M D -> length v = k -> (forall j, (j < k)%nat -> nth j v 0%Z = W j) ->
  exists c', @num_members_v_peq NumR c (v, 0%nat) = Ok c' /\ cis k d c' F (fun j => M j + W j)%Z D.
Proof.
  intros Hc Lv HW. pose proof Hc as (Hs & H).
  destruct (@num_members_v_peq_ok NumR k d c (v, 0%nat) v Hs Lv) as (c' & E & Hs' & H').
  { cbn [fst snd]. rewrite <- Lv. apply slice_all. }
  exists c'. split; [exact E|]. split; auto. intros j Hj. specialize (H' j Hj). unfold cel in H'. injection H' as E1 E2 E3.
  rewrite E1, E2, E3. destruct (H j Hj) as (A1 & A2 & A3). splits; auto. rewrite A1, HW by auto. reflexivity.
Qed.

(* ------------------------------------------------------------------ *)
(** * After the collectives *)
Section Finish.
Variables (g : kcfg NumR).
Let d := g_ncol g.
Let k := g_k g.

Definition dfin_body (i : nat) (p : prune_clusters NumR) : res (prune_clusters NumR) :=
  let* c := finalize (p_cl p) i in
  let p := with_cl p c in
  let* x := eucl_dist NumR (c_means c, i * d)%nat (p_prev_means p, i * d)%nat d in
  set_prev_dist p x i.

(** the same loop as the in-memory coordinator's, without the counts *)
Lemma dfin_fin : forall n i (p : prune_clusters NumR) cn chk p' cn' chk', for_ n i (fin_body d) (p, cn, chk) = Ok (p', cn', chk') ->
  for_ n i dfin_body p = Ok p'.
Proof.
  induction n as [|n IH]; intros i p cn chk p' cn' chk' H; cbn [for_] in *; [injection H as -> _ _; reflexivity|].
  apply bind_ok in H as ([[p1 cn1] chk1] & E & H). unfold fin_body in E. unfold dfin_body at 1.
  apply bind_ok in E as (c & E1 & E). rewrite E1. cbn [bind].
  apply bind_ok in E as (x & E2 & E). rewrite E2. cbn [bind].
  apply bind_ok in E as (p2 & E3 & E). rewrite E3. cbn [bind].
  apply bind_ok in E as (m & E4 & E). apply bind_ok in E as (cn2 & E5 & E). injection E as <- _ _.
  eapply IH. exact H.
Qed.

Lemma s32_small z : (0 <= z < 2 ^ 31)%Z -> s32 z = z.
Proof. intros H. unfold s32. rewrite Z.mod_small; lia. Qed.

Lemma fold_add_zsum l : forall a, fold_left Z.add l a = (a + zsum l)%Z.
Proof. induction l as [|x l IH]; intros a; cbn [fold_left zsum]; [lia|]. rewrite IH. lia. Qed.

Lemma members_sum_Z c F M D : cis k d c F M D -> fold_left Z.add (c_members c) 0%Z = zsum (map M (seq 0 k)).
Proof.
  intros (Hs & H). rewrite fold_add_zsum. cbn [Z.add]. f_equal. destruct (shaped_means Hs) as (_ & L2 & _).
  apply nth_ext with (d := 0%Z) (d' := M 0%nat).
  - rewrite map_length, seq_length. exact L2.
  - intros j Hj. rewrite map_nth, seq_nth by lia. cbn [plus]. apply H. lia.
Qed.

(** [q] after its local phase: its differences are in the containers *)
Lemma finish_ok (first : bool) (means : list (car NumR)) nmemb V W S M (q : dproc NumR) :
  vecs k d means nmemb V W -> psized g (dp_p q) -> (Z.of_nat (g_nrow g) < 2 ^ 31)%Z ->
  (forall j, (j < k)%nat -> cdone (dp_cl q) j = false) ->
  (first = false -> vecs k d (p_prev_means (dp_p q)) (dp_prev q) (finF S M) M /\ forall j, (0 <= M j)%Z) ->
  let S' := if first then V else fun j i => S j i + V j i in
  let M' := if first then W else fun j => (M j + W j)%Z in
  (forall j, (j < k)%nat -> (0 <= M' j)%Z) -> zsum (map M' (seq 0 k)) = Z.of_nat (g_nrow g) ->
  exists q', dp_finish g first means nmemb q = Ok q' /\
    dp_rank q' = dp_rank q /\ dp_cfg q' = dp_cfg q /\ dp_ws q' = dp_ws q /\
    ps_cells (dp_st q') = ps_cells (dp_st q) /\ ps_dm (dp_st q') = ps_dm (dp_st q) /\ ps_local (dp_st q') = ps_local (dp_st q) /\
    psized g (dp_p q') /\ cis k d (dp_cl q') (finF S' M') M' (fun _ => true) /\ drift_of k d (dp_p q') (p_prev_means (dp_p q)).
Proof.
  intros Hv (P1 & P2 & P3 & P4) H31 Hdone Hprev S' M' Hpos Htot. unfold dp_finish. change (shaped k d (dp_cl q)) in P1.
  assert (Hcomb : exists c, @dp_combine NumR first means nmemb q = Ok c /\ cis k d c S' M' (fun _ => false)).
  { pose proof Hv as (L1 & L2 & H1 & H2). unfold dp_combine. destruct first.
    - rewrite (@set_mean_all_ok NumR k d (dp_cl q) (means, 0%nat) means P1).
      + cbn [bind]. assert (Hs : shaped k d (with_means (dp_cl q) means)).
        { destruct P1 as (Hk & Hd & A & B & C). unfold shaped, cwf. cbn [with_means c_nclust c_ncol c_means c_members c_complete].
          splits; auto. etransitivity; [exact L1|]. unfold dp_cl in *. rewrite Hk, Hd. reflexivity. }
        exists (with_members (with_means (dp_cl q) means) nmemb). split; [apply (@set_members_all k d _ nmemb Hs L2)|].
        apply (vecs_set P1 Hv). exact Hdone.
      + apply Nat.eq_le_incl. symmetry. exact L1.
      + cbn [fst snd]. rewrite <- L1. exact (@slice_all R means).
    - destruct (Hprev eq_refl) as (Hpv & HM0). pose proof Hpv as (Q1 & Q2 & _). unfold set_mean_vec. cbn [bind].
      assert (Hs : shaped k d (with_means (dp_cl q) (p_prev_means (dp_p q)))).
      { destruct P1 as (Hk & Hd & A & B & C). unfold shaped, cwf. cbn [with_means c_nclust c_ncol c_means c_members c_complete].
        splits; auto. etransitivity; [exact Q1|]. unfold dp_cl in *. rewrite Hk, Hd. reflexivity. }
      rewrite (@set_members_all k d _ (dp_prev q) Hs Q2). cbn [bind].
      pose proof (vecs_set P1 Hpv (fun j => cdone (dp_cl q) j) (fun j _ => eq_refl)) as Hc0. pose proof Hc0 as (Hs0 & Hc0').
      rewrite (@set_complete_all_ok k d _ true Hs0). cbn [bind].
      assert (Hc1 : cis k d (with_complete (with_members (with_means (dp_cl q) (p_prev_means (dp_p q))) (dp_prev q)) (repeat true k)) (finF S M) M (fun _ => true)).
      { split.
        - destruct Hs0 as (Hk & Hd & A & B & C). unfold shaped, cwf in *. cbn [with_complete with_members with_means c_nclust c_ncol c_means c_members c_complete] in *.
          splits; auto. rewrite repeat_length. symmetry. exact Hk.
        - intros j Hj. destruct (Hc0' j Hj) as (A1 & _ & A3). splits; auto.
          unfold cdone. cbn [with_complete c_complete]. apply nth_repeat_d. exact Hj. }
      destruct (cis_unfin_all Hc1) as (c2 & E2 & Hc2). rewrite E2. cbn [bind].
      assert (Hc2' : cis k d c2 S M (fun _ => false)).
      { eapply cis_ext; [exact Hc2|..]; auto. intros j i Hj Hi. cbn beta iota. unfold finF.
        pose proof (HM0 j). destruct (Z.ltb_spec (M j) 2), (Z.ltb_spec 1 (M j)); try lia; try reflexivity.
        field. apply not_0_IZR. lia. }
      destruct (@cis_means_peq k d c2 S M _ means V Hc2' L1 H1) as (c3 & E3 & Hc3). rewrite E3. cbn [bind].
      destruct (@cis_members_peq k d c3 _ M _ nmemb W Hc3 L2 H2) as (c4 & E4 & Hc4). rewrite E4. eauto. }
  destruct Hcomb as (c & Ec & Hc). rewrite Ec. cbn [bind].
  rewrite (members_sum_Z Hc), Htot, s32_small by lia. rewrite Z.eqb_refl. cbn [assert_ bind].
  set (p1 := with_cl (dp_p q) c).
  destruct (@fin_loop k d p1 (repeat 0%Z k) _ _ (Z.of_nat (g_nrow g)) Hc P2 P3 (repeat_length _ _) Hpos Htot ltac:(lia))
    as (p' & E & F1 & F2 & F3 & F4 & F5).
  apply dfin_fin in E. unfold dfin_body in E. fold d k.
  match goal with |- context [loop k ?b ?x] => change (loop k b x) with (for_ k 0 b x) end.
  rewrite E. cbn [bind]. eexists. split; [reflexivity|].
  cbn [dp_with dp_rank dp_cfg dp_ws dp_st st_with ps_cells ps_dm ps_local ps_cltrs dp_p dp_cl]. splits; auto.
  split; [apply F1|]. splits; auto.
  - rewrite F3. exact P2.
  - rewrite F2. exact P4.
Qed.

End Finish.
