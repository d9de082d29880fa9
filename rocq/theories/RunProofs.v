(** The whole run of unpruned k-means: structure of the main loop, and the
    states it goes through. *)
From Verif Require Import Base Num Spec DistModel ClustersModel ClustersView PartitionModel ParModel KmeansModel.
From Verif Require Import MatLemmas ClustersProofs DistProofs PartitionProofs ParProofs NearProofs KmeansProofs UpdateProofs.
Set Implicit Arguments.

Section Run.
Variable N : Num.
Notation T := (car N).

(** main loop *)
Inductive chain (g : kcfg N) (ws : list (worker N)) (scheds : nat -> list nat)
  : nat -> kst N -> list (kst N) -> Prop :=
| chain_nil : forall iter s, chain g ws scheds iter s []
| chain_cons : forall iter s s' l,
    iterate g ws (scheds iter) (if iter =? 1 then clear_asg s else s) = Ok s' ->
    chain g ws scheds (S iter) s' l -> chain g ws scheds iter s (s' :: l).

Lemma main_loop_inv (g : kcfg N) ws scheds : forall n iter s trace iter' conv s' trace',
  main_loop g ws scheds n iter s trace = Ok (iter', conv, s', trace') ->
  exists more, trace' = trace ++ more /\ chain g ws scheds iter s more /\
    s' = last more s /\ length more <= n /\
    (conv = true -> exists pre, more = pre ++ [s'] /\ stop_test g (s_changed s') = true /\
        Forall (fun x => stop_test g (s_changed x) = false) pre /\ S iter' = iter + length more) /\
    (conv = false -> length more = n /\ Forall (fun x => stop_test g (s_changed x) = false) more /\
        iter' = iter + length more).
Proof.
  induction n as [|n IH]; intros iter s trace iter' conv s' trace' H; cbn [main_loop] in H.
  - injection H as <- <- <- <-. exists []. rewrite app_nil_r. splits; auto; try discriminate.
    constructor.
  - apply bind_ok in H as (s1 & E1 & H).
    destruct (stop_test g (s_changed s1)) eqn:Est.
    + injection H as <- <- <- <-. exists [s1]. splits; auto; try discriminate.
      * econstructor; [exact E1|constructor].
      * simpl; lia.
      * intros _. exists []. splits; auto. simpl; lia.
    + apply IH in H as (more & -> & Hch & -> & Hlen & Hc1 & Hc2).
      exists (s1 :: more). rewrite <- app_assoc. splits; auto.
      * econstructor; eauto.
      * destruct more as [|m more]; [reflexivity|].
        cbn [last]. clear. revert m. induction more as [|x more IH]; intros m; [reflexivity|]. apply (IH x).
      * simpl; lia.
      * intros Hc. destruct (Hc1 Hc) as (pre & E & Hst & Hf & Hi). exists (s1 :: pre). splits; auto.
        -- simpl. rewrite E at 1. reflexivity.
        -- simpl; lia.
      * intros Hc. destruct (Hc2 Hc) as (E & Hf & Hi). splits; auto; simpl; lia.
Qed.

Lemma chain_nth (g : kcfg N) ws scheds : forall l iter s, chain g ws scheds iter s l ->
  forall i a b, nth_error (s :: l) i = Some a -> nth_error l i = Some b ->
  iterate g ws (scheds (iter + i)) (if iter + i =? 1 then clear_asg a else a) = Ok b.
Proof.
  induction l as [|x l IH]; intros iter s H [|i] a b Ea Eb; simpl in Eb; try discriminate.
  - injection Eb as <-. simpl in Ea. injection Ea as <-. inversion H; subst. rewrite Nat.add_0_r. assumption.
  - inversion H; subst. replace (iter + S i) with (S iter + i) by lia. eapply IH; eauto.
Qed.

(* ------------------------------------------------------------------ *)
(** * Shapes *)

(** an operation that succeeds keeps the shape *)
Lemma loop_aset_length {A} (body : nat -> list A -> res (list A)) :
  (forall i a b, body i a = Ok b -> length b = length a) ->
  forall n l l', loop n body l = Ok l' -> length l' = length l.
Proof.
  intros Hb n l l' H.
  apply (@loop_inv_ok _ (fun _ a => length a = length l) n body l l' H); [reflexivity|].
  intros j a b _ Ha E. apply Hb in E. congruence.
Qed.

Lemma copy_to_length {A} (src : ptr A) n (dst : list A) off l : copy_to src n dst off = Ok l -> length l = length dst.
Proof.
  intros H. unfold copy_to in H. eapply loop_aset_length; [|exact H].
  intros i a b E. cbv beta in E. apply bind_ok in E as (x & _ & E). apply aset_inv in E as (_ & ->). apply upd_length.
Qed.

Lemma set_mean_at_shaped k d (c c' : clusters N) p i : set_mean_at c p i = Ok c' -> shaped k d c -> shaped k d c'.
Proof.
  unfold set_mean_at. intros H (Hk & Hd & Hm & Hv & Hc). apply bind_ok in H as (m & E & H). injection H as <-.
  apply copy_to_length in E. unfold shaped, cwf; simpl. splits; auto; congruence.
Qed.

Lemma add_member_shaped k d (c c' : clusters N) p i : add_member c p i = Ok c' -> shaped k d c -> shaped k d c'.
Proof.
  unfold add_member. intros H (Hk & Hd & Hm & Hv & Hc). apply bind_ok in H as (m & E & H).
  apply bind_ok in H as (v & Ev & H). injection H as <-.
  apply loop_aset_length in E.
  - apply amod_inv in Ev as (x & _ & ->). unfold shaped, cwf; simpl. rewrite upd_length. splits; auto; congruence.
  - intros j a b Ej. apply bind_ok in Ej as (x & _ & Ej). apply amod_inv in Ej as (y & _ & ->). apply upd_length.
Qed.

Lemma par_run_length {C L} (step : nat -> nat -> L -> C -> res (L * C)) ranges sched cells locs locs' cells' :
  par_run step ranges sched cells locs = Ok (locs', cells') -> length cells' = length cells /\ length locs' = length locs.
Proof.
  unfold par_run. intros H. apply bind_ok in H as (st & E & H). injection H as <- <-. rewrite map_length.
  assert (G : forall sched st st', for_each sched (par_step step ranges) st = Ok st' ->
     length (ps_cells st') = length (ps_cells st) /\ length (ps_loc st') = length (ps_loc st)).
  { clear. induction sched as [|t sched IH]; intros st st' H; cbn [for_each] in H.
    - injection H as <-. auto.
    - apply bind_ok in H as (s1 & E & H). apply IH in H as (H1 & H2).
      unfold par_step in E. destruct (nth_error ranges t) as [[s n]|]; [|injection E as <-; auto].
      destruct (nth_error (ps_loc st) t) as [[r l]|]; [|injection E as <-; auto].
      destruct (r <? n); [|injection E as <-; auto].
      apply bind_ok in E as (c & _ & E). apply bind_ok in E as (lc & _ & E). apply bind_ok in E as (cells & Ec & E).
      injection E as <-. simpl in *. rewrite upd_length in H2. apply aset_inv in Ec as (_ & ->). rewrite upd_length in H1. auto. }
  apply G in E as (E1 & E2). simpl in E1, E2. rewrite map_length in E2. auto.
Qed.

Lemma kmspp_loop_shape (g : kcfg N) ws data scheds ur : forall n ci (s : kpp N) trace chosen (s' : kpp N) trace' chosen',
  kmspp_loop g ws data scheds ur n ci s trace chosen = Ok (s', trace', chosen') ->
  shaped (g_k g) (g_ncol g) (fst s) ->
  shaped (g_k g) (g_ncol g) (fst s') /\ length (snd s') = length (snd s).
Proof.
  induction n as [|n IH]; intros ci s trace chosen s' trace' chosen' H Hs; cbn [kmspp_loop] in H; [discriminate|].
  apply bind_ok in H as ([ls cells] & E & H). cbn [fst snd] in H.
  apply par_run_length in E as (El & _).
  destruct (g_k g <=? S ci).
  - injection H as <- _ _. simpl. auto.
  - destruct (kmspp_pick N (map fst cells) 0 _) as [pick cuml].
    apply bind_ok in H as (s1 & E1 & H). apply bind_ok in H as (_u & _ & H). apply IH in H.
    + destruct H as (H1 & H2). split; auto. rewrite H2.
      destruct pick as [r|].
      * apply bind_ok in E1 as (p & _ & E1). apply bind_ok in E1 as (c & _ & E1). apply bind_ok in E1 as (cs & Ec & E1).
        injection E1 as <-. simpl. apply amod_inv in Ec as (x & _ & ->). rewrite upd_length. exact El.
      * injection E1 as <-. exact El.
    + destruct pick as [r|].
      * apply bind_ok in E1 as (p & _ & E1). apply bind_ok in E1 as (c & Ec & E1). apply bind_ok in E1 as (cs & _ & E1).
        injection E1 as <-. simpl. eapply set_mean_at_shaped; eauto.
      * injection E1 as <-. exact Hs.
Qed.

Lemma run_init_stok (g : kcfg N) it ws data d s s' : run_init g it ws data d s = Ok s' ->
  stok g ws s -> stok g ws s'.
Proof.
  intros H (Hs & Hc & Ha & Hl & Hf). unfold run_init in H. destruct it.
  - unfold random_partition_init in H. apply bind_ok in H as ([c a] & E & H). apply bind_ok in H as (c' & E' & H).
    injection H as <-. cbn [fst snd] in *.
    assert (G : shaped (g_k g) (g_ncol g) c /\ length a = g_nrow g).
    { apply (@loop_inv_ok _ (fun _ (ca : clusters N * list (option nat)) => shaped (g_k g) (g_ncol g) (fst ca) /\ length (snd ca) = g_nrow g)
        _ _ _ _ E); auto.
      intros j [c1 a1] [c2 a2] _ (H1 & H2) Eb. cbn [fst snd] in *.
      apply bind_ok in Eb as (p & _ & Eb). apply bind_ok in Eb as (c3 & Ec & Eb). apply bind_ok in Eb as (a3 & Ea & Eb).
      injection Eb as <- <-. split; [eapply add_member_shaped; eauto|]. apply aset_inv in Ea as (_ & ->). rewrite upd_length. exact H2. }
    destruct G as (G1 & G2). destruct (finalize_all_ok G1) as (c2 & E2 & Hs2 & _). rewrite E2 in E'. injection E' as <-.
    unfold stok; cbn. splits; auto.
  - unfold forgy_init in H. apply bind_ok in H as (c & E & H). injection H as <-. unfold stok; cbn. splits; auto.
    apply (@loop_inv_ok _ (fun _ c => shaped (g_k g) (g_ncol g) c) _ _ _ _ E); auto.
    intros j c1 c2 _ H1 Eb. cbv beta in Eb. apply bind_ok in Eb as (p & _ & Eb). eapply set_mean_at_shaped; eauto.
  - apply bind_ok in H as ([[[s1 dv] tr] ch] & E & H). injection H as <-.
    unfold kmeanspp_init_t in E. apply bind_ok in E as (p & _ & E). apply bind_ok in E as (c & Ec & E).
    apply bind_ok in E as (dv0 & Ed & E). apply bind_ok in E as (a0 & Ea & E).
    apply bind_ok in E as ([[[c2 cells] tr2] ch2] & Ek & E). injection E as <- _ _ _.
    apply kmspp_loop_shape in Ek as (H1 & H2); [|simpl; eapply set_mean_at_shaped; eauto].
    cbn [fst snd] in *. unfold stok; cbn. splits; auto. rewrite map_length, H2, combine_length.
    apply aset_inv in Ed as (_ & ->). apply aset_inv in Ea as (_ & ->). rewrite !upd_length, repeat_length. lia.
  - injection H as <-. unfold stok; auto.
Qed.

Lemma create_stok (g : kcfg N) centers it s ws : coordinator_create g centers it = Ok s ->
  length ws = Z.to_nat (eff_threads (g_nthreads g) (Z.of_nat (g_nrow g))) -> stok g ws s /\ 1 <= g_k g.
Proof.
  intros H Hw. unfold coordinator_create in H. apply bind_ok in H as (_u & Hk & H).
  apply bind_ok in H as (c & Ec & H). injection H as <-.
  assert (K : 1 <= g_k g) by (destruct (Nat.leb_spec 1 (g_k g)); [lia|discriminate]).
  split; [|exact K]. unfold stok; cbn. rewrite !repeat_length. splits; auto.
  - assert (Hs := shaped_create N (g_k g) (g_ncol g)).
    assert (G : forall m c', set_mean_all (clusters_create N (g_k g) (g_ncol g)) m = Ok c' -> shaped (g_k g) (g_ncol g) c').
    { intros m c' E. unfold set_mean_all in E. apply bind_ok in E as (m' & E & E'). injection E' as <-.
      apply copy_to_length in E. destruct Hs as (H1 & H2 & H3 & H4 & H5).
      unfold shaped, cwf; simpl in *. splits; auto. rewrite E. rewrite repeat_length.
      rewrite Nat.eqb_refl. rewrite repeat_length. lia. }
    destruct centers as [m|]; [destruct it|]; try (injection Ec as <-; exact Hs). eapply G; eauto.
  - apply Forall_forall. intros l Hl. apply repeat_spec in Hl. subst l. apply shaped_create.
Qed.

(* ------------------------------------------------------------------ *)
(** * The run *)

Definition valid_input (g : kcfg N) (data : list T) : Prop :=
  1 <= g_nrow g /\ (Z.of_nat (g_nrow g) < 2 ^ 32)%Z /\ (1 <= g_nthreads g < 2 ^ 32)%Z /\
  length data = g_nrow g * g_ncol g.

(** every round's schedule lets every worker finish *)
Definition fair (g : kcfg N) (data : list T) (scheds : nat -> list nat) : Prop :=
  forall ws, build_workers g data = Ok ws -> forall i, complete (w_ranges ws) (scheds i).

(** the assignment vector that produced a state *)
Definition produced (g : kcfg N) (ws : list (worker N)) (data : list T) (s s' : kst N) (A : list nat) : Prop :=
  length A = g_nrow g /\ Forall (fun a => a < g_k g) A /\ s_asg s' = map Some A /\
  (forall r, r < g_nrow g -> nid g data (s_cltrs s) r = Some (nth r A 0)) /\
  (forall j, j < g_k g -> cel (s_cltrs s') j = ucel g ws data A j) /\
  s_counts s' = counts_of g A /\ s_changed s' = odiff (s_asg s) A.

Definition before (i : nat) (s : kst N) : kst N := if i =? 0 then clear_asg s else s.

Lemma run_inv (g : kcfg N) centers it data dr scheds rr :
  valid_input g data -> fair g data scheds -> run g centers it data dr scheds = Ok rr ->
  exists ws, build_workers g data = Ok ws /\ wok (g_nrow g) (g_ncol g) data ws /\ 1 <= g_k g /\
    (forall s, In s (rr_init rr :: rr_trace rr) -> stok g ws s) /\
    (forall i s s', nth_error (rr_init rr :: rr_trace rr) i = Some s -> nth_error (rr_trace rr) i = Some s' ->
       exists A, produced g ws data (before i s) s' A) /\
    (let f := last (rr_trace rr) (rr_init rr) in
     rr_out rr = mkCluster N (g_nrow g) (g_ncol g) (ct_iters (rr_out rr)) (g_k g) (s_asg f) (s_counts f) (c_means (s_cltrs f))) /\
    length (rr_trace rr) <= g_max_iters g /\
    (rr_converged rr = true -> exists pre f, rr_trace rr = pre ++ [f] /\ stop_test g (s_changed f) = true /\
        Forall (fun x => stop_test g (s_changed x) = false) pre /\ ct_iters (rr_out rr) = length (rr_trace rr)) /\
    (rr_converged rr = false -> length (rr_trace rr) = g_max_iters g /\
        Forall (fun x => stop_test g (s_changed x) = false) (rr_trace rr) /\
        ct_iters (rr_out rr) = (if 0 <? g_max_iters g then 1 else 0) + length (rr_trace rr)).
Proof.
  intros (V1 & V2 & V3 & V4) Hfair H. unfold run in H.
  apply bind_ok in H as (s0 & E0 & H). apply bind_ok in H as (ws & Ew & H).
  apply bind_ok in H as (s1 & E1 & H). apply bind_ok in H as ([[[iter conv] s2] trace] & E2 & H).
  injection H as <-. cbn [rr_init rr_trace rr_out rr_converged ct_iters].
  destruct (@build_workers_ok N g data V1 V2 V3 V4) as (ws' & Ew' & Hwok & Hlen & _).
  rewrite Ew in Ew'. injection Ew' as <-.
  destruct (@create_stok g centers it s0 ws E0 Hlen) as (St0 & K).
  pose proof (@run_init_stok g it ws data dr s0 s1 E1 St0) as St1.
  pose proof (main_loop_inv g ws scheds _ _ _ _ E2) as (more & Et & Hch & Es & Hle & Hc1 & Hc2).
  cbn [app] in Et. subst more s2.
  exists ws. split; [first [exact Ew|reflexivity]|]. split; [exact Hwok|]. split; [exact K|].
  assert (Hcomp : forall i, complete (w_ranges ws) (scheds i)) by (exact (Hfair ws Ew)).
  assert (Hiter : 0 < length trace -> 0 < g_max_iters g) by lia.
  set (iter0 := if 0 <? g_max_iters g then 1 else 0) in *.
  assert (Hall : forall iter (s : kst N) l, chain g ws scheds iter s l -> stok g ws s -> forall x, In x (s :: l) -> stok g ws x).
  { clear -Hwok V2 V4 Hcomp. intros iter s l H. induction H as [iter s|iter s s' l E H IH]; intros St x [<-|Hx]; auto; [destruct Hx|].
    apply IH; auto.
    assert (St' : stok g ws (if iter =? 1 then clear_asg s else s)) by (destruct (iter =? 1); [apply stok_clear|]; exact St).
    pose proof (@iterate_ok N g ws data Hwok V2 V4 (scheds iter) _ (Hcomp iter) St') as HI.
    rewrite E in HI. destruct HI as (A & _ & _ & _ & _ & HI & _). exact HI. }
  split.
  { intros s Hs. eapply Hall; eauto. }
  split.
  { intros i s s' Ei Ei'.
    assert (Hpos : 0 < g_max_iters g).
    { apply Hiter. assert (i < length trace) by (apply nth_error_Some; congruence). lia. }
    assert (Ei0 : iter0 = 1) by (unfold iter0; destruct (Nat.ltb_spec 0 (g_max_iters g)); [reflexivity|lia]).
    pose proof (chain_nth Hch i Ei Ei') as E.
    assert (Eb : (iter0 + i =? 1) = (i =? 0)) by (rewrite Ei0; destruct i; reflexivity).
    rewrite Eb in E. fold (before i s) in E.
    assert (St : stok g ws s) by (eapply Hall; eauto; eapply nth_error_In; eauto).
    assert (St' : stok g ws (before i s)) by (unfold before; destruct (i =? 0); [apply stok_clear|]; exact St).
    pose proof (@iterate_ok N g ws data Hwok V2 V4 (scheds (iter0 + i)) _ (Hcomp _) St') as HI.
    rewrite E in HI. destruct HI as (A & H1 & H2 & H3 & H4 & _ & H5 & H6 & H7). exists A.
    unfold produced. splits; auto. }
  split; [reflexivity|]. split; [exact Hle|]. split.
  - intros Hc. destruct (Hc1 Hc) as (pre & E & Hst & Hf & Hi). exists pre, (last trace s1). splits; auto.
    assert (0 < length trace) by (rewrite E, app_length; simpl; lia).
    assert (iter0 = 1) by (unfold iter0; destruct (Nat.ltb_spec 0 (g_max_iters g)); [reflexivity|lia]). lia.
  - intros Hc. destruct (Hc2 Hc) as (E & Hf & Hi). splits; auto.
Qed.

End Run.
