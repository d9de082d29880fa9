(** Hierarchical clustering goes through the same states whatever the number of
    threads and the way the data is loaded, where sums do not depend on their
    grouping ([Hu]). *)
From Verif Require Import Base Num DistModel ClustersModel ClustersView ClustersProofs MatLemmas
  PartitionModel ParModel KmeansModel ParProofs NearProofs KmeansProofs UpdateProofs RunProofs InitProofs SimProofs Spec.
From Verif Require Import ContainersModel PropertiesIds HclustModel HclustProofs HclustUpdate HclustIter HclustSplit Okab HclustRun HclustDone HclustVerify.
From Verif Require Import ParFree PropertiesHclust.
Set Implicit Arguments.
Unset Strict Implicit.

Lemma rle_for_inv {S} (P : S -> Prop) (f h : nat -> S -> res S) : (forall i s, P s -> rle (f i s) (h i s)) ->
  (forall i s s', P s -> f i s = Ok s' -> P s') -> forall n i s, P s -> rle (for_ n i f s) (for_ n i h s).
Proof.
  intros H K n. induction n as [|n IH]; intros i s Hs; cbn [for_]; [apply rle_refl|].
  apply rle_bind_ok; [apply H; exact Hs|]. intros a Ea. apply IH. exact (K _ _ _ Hs Ea).
Qed.
Lemma rle_loop_inv {S} (P : S -> Prop) (f h : nat -> S -> res S) n s : (forall i s, P s -> rle (f i s) (h i s)) ->
  (forall i s s', P s -> f i s = Ok s' -> P s') -> P s -> rle (loop n f s) (loop n h s).
Proof. intros H K Hs. unfold loop. exact (@rle_for_inv S P f h H K n 0 s Hs). Qed.
Lemma rle_eq {A} (x y : res A) : x = y -> rle x y.
Proof. intros ->. apply rle_refl. Qed.

Lemma hm_ext {A} (m m' : list (option A)) : length m = length m' -> (forall i, hget m i = hget m' i) -> m = m'.
Proof.
  revert m'. induction m as [|x m IH]; intros [|y m'] L H; try discriminate; auto. f_equal.
  - specialize (H 0). unfold hget in H. cbn [nth_error] in H. destruct x, y; congruence.
  - apply IH; [injection L; auto|]. intros i. exact (H (S i)).
Qed.

Section Threads.
Variable N : Num.
Notation T := (car N).

Lemma hclu_ext (a b : hclu N) : h_cl a = h_cl b -> h_zero a = h_zero b -> h_one a = h_one b -> h_conv a = h_conv b -> a = b.
Proof. destruct a, b. simpl. congruence. Qed.
Lemma hst_ext (a b : hst N) : x_asg a = x_asg b -> x_part a = x_part b -> x_act a = x_act b -> x_hcl a = x_hcl b -> x_counts a = x_counts b ->
  x_ider a = x_ider b -> x_curr a = x_curr b -> x_final a = x_final b -> a = b.
Proof. destruct a, b. simpl. congruence. Qed.

(** the same call with another number of threads and another data source *)
Definition h_threads (g : hcfg N) (nt : Z) (kind : load_kind) : hcfg N := mkHc (with_threads (hg g) nt kind) (h_min g).

Variables (g : hcfg N) (nt : Z) (kind : load_kind) (data : list T).
Let g' := h_threads g nt kind.
Let n := g_nrow g.
Let d := g_ncol g.
Hypothesis V : valid_input g data.
Hypothesis V' : valid_input g' data.
Variables (ws ws' : list (worker N)).
Hypothesis W : wok n d data ws.
Hypothesis W' : wok n d data ws'.
Hypothesis Hu : forall A j, length A = n -> ucel g ws data A j = ucel g ws' data A j.

Lemma einv_threads M s : einv g ws data M s -> einv g' ws' data M s.
Proof.
  intros I. destruct I. constructor; auto. intros p h Hp Hc j Hj. rewrite (e_conv p h Hp Hc j Hj).
  rewrite Hu by exact e_asg. reflexivity.
Qed.

Lemma h_iter_threads M s sched sched' : einv g ws data M s -> complete (w_ranges ws) sched -> complete (w_ranges ws') sched' ->
  h_iter g ws sched s = h_iter g' ws' sched' s.
Proof.
  intros I C C'. pose proof V as (_ & _ & _ & V4).
  pose proof (@h_iter_ok N g ws data W V4 M s sched I C) as H.
  pose proof (@h_iter_ok N g' ws' data W' V4 M s sched' (einv_threads I) C') as H'.
  change (dest g' data s) with (dest g data s) in H'.
  destruct (h_iter g ws sched s) as [a|e], (h_iter g' ws' sched' s) as [b|e'].
  - destruct H as (Ia & _ & Da & P1 & P2 & P3 & P4 & P5 & Ha & Ca). destruct H' as (Ib & _ & Db & Q1 & Q2 & Q3 & Q4 & Q5 & Hb & Cb).
    assert (Ea : x_asg a = x_asg b).
    { apply (nth_ext _ _ 0 0); [rewrite (e_asg Ia), (e_asg Ib); reflexivity|]. intros r Hr. rewrite (e_asg Ia) in Hr.
      pose proof (Da r Hr) as X. pose proof (Db r Hr) as Y. congruence. }
    assert (Eh : x_hcl a = x_hcl b).
    { apply hm_ext; [rewrite (e_hcl Ia), (e_hcl Ib); reflexivity|]. intros p. specialize (Ha p). specialize (Hb p).
      destruct (hget (x_hcl s) p) as [h|].
      - destruct Ha as (ha & Ga & Za & Oa & Va & Ka). destruct Hb as (hb & Gb & Zb & Ob & Vb & Kb).
        change (h_stop g' ?x ?y ?z) with (h_stop g x y z) in Vb. change (pchanged p s (x_asg b) 0 (g_nrow g')) with (pchanged p s (x_asg b) 0 n) in Vb.
        rewrite Ga, Gb. f_equal. rewrite <- Ea in Vb, Kb.
        destruct (e_live Ia Ga) as (_ & _ & Sa & _). destruct (e_live Ib Gb) as (_ & _ & Sb & _).
        assert (Ec : h_cl ha = h_cl hb).
        { apply (@clusters_ext N 2 d); [exact Sa|exact Sb|]. intros j Hj. rewrite (Ka j Hj), (Kb j Hj), Hu by apply (e_asg Ia). reflexivity. }
        apply hclu_ext; [exact Ec|congruence|congruence|]. exact (eq_trans Va (eq_sym Vb)).
      - congruence. }
    assert (Ec : x_counts a = x_counts b).
    { apply (nth_ext _ _ 0%Z 0%Z); [rewrite (e_counts Ia), (e_counts Ib); reflexivity|]. intros i Hi. rewrite (e_counts Ia) in Hi.
      rewrite (Ca i Hi), (Cb i Hi), Ea. reflexivity. }
    apply f_equal. apply hst_ext; congruence.
  - destruct H as (_ & _ & Da & _). destruct H' as (_ & r & Hr & Dr). rewrite (Da r Hr) in Dr. discriminate.
  - destruct H' as (_ & _ & Da & _). destruct H as (_ & r & Hr & Dr). pose proof (Da r Hr) as X. congruence.
  - destruct H as (-> & _), H' as (-> & _). reflexivity.
Qed.

Lemma thd_both r : r < n -> exists p p', thd_row g data r = Ok p /\ thd_row g' data r = Ok p' /\
  slice (fst p) (snd p) d = row data d r /\ slice (fst p') (snd p') d = row data d r.
Proof.
  intros Hr. destruct (@thd_row_ok N g data V r Hr) as (p & E & H). destruct (@thd_row_ok N g' data V' r Hr) as (p' & E' & H').
  exists p, p'. auto.
Qed.

Lemma two_means (c : clusters N) a b : shaped 2 d c -> a < n -> b < n ->
  exists p q p' q' c1 c2, thd_row g data a = Ok p /\ thd_row g data b = Ok q /\ thd_row g' data a = Ok p' /\ thd_row g' data b = Ok q' /\
    set_mean_at c p 0 = Ok c1 /\ set_mean_at c p' 0 = Ok c1 /\ set_mean_at c1 q 1 = Ok c2 /\ set_mean_at c1 q' 1 = Ok c2.
Proof.
  intros Sh Ha Hb. destruct (thd_both Ha) as (p & p' & E1 & E2 & S1 & S2). destruct (thd_both Hb) as (q & q' & E3 & E4 & S3 & S4).
  destruct (@set_mean_at_eq N 2 d c p p' (row data d a) 0 Sh ltac:(lia) (@data_row_length N g data V a Ha) S1 S2) as (c1 & F1 & F2 & Sh1).
  destruct (@set_mean_at_eq N 2 d c1 q q' (row data d b) 1 Sh1 ltac:(lia) (@data_row_length N g data V b Hb) S3 S4) as (c2 & F3 & F4 & Sh2).
  exists p, q, p', q', c1, c2. splits; auto.
Qed.

Lemma spawn1_threads id a b s : (forall x, a = Some x -> x < n) -> (forall x y, a = Some x -> b = Some y -> y < n) ->
  spawn1 g data id a b s = spawn1 g' data id a b s.
Proof.
  intros Ha Hb. unfold spawn1. destruct a as [x|]; [|reflexivity]. destruct b as [y|]; [|reflexivity].
  destruct (split_ids s) as (lr & s1).
  destruct (@two_means (h_cl (h_create N d (fst lr) (snd lr))) x y (shaped_create N 2 d) (Ha x eq_refl) (Hb x y eq_refl eq_refl))
    as (p & q & p' & q' & c1 & c2 & E1 & E2 & E3 & E4 & F1 & F2 & F3 & F4).
  change (g_ncol g') with d. fold d. rewrite E1, E3. cbn [Base.bind]. rewrite F1, F2. cbn [Base.bind]. rewrite E2, E4. cbn [Base.bind]. rewrite F3, F4. reflexivity.
Qed.

Lemma init_splits_threads s : rle (init_splits g data s) (init_splits g' data s).
Proof.
  unfold init_splits. apply rle_bind; [|intros a; apply rle_refl].
  apply rle_for_each. intros id (s1, cache). unfold init_part. apply rle_bind; [apply rle_refl|]. intros h.
  change (retire g') with (retire g). apply rle_bind; [apply rle_refl|]. intros (s2, lb). apply rle_bind; [apply rle_refl|]. intros (s3, rb).
  apply rle_bind; [apply rle_refl|]. intros m. apply rle_bind; [apply rle_refl|]. intros u.
  change (g_nrow g') with (g_nrow g). apply rle_bind_ok; [apply rle_refl|]. intros c Ec.
  pose proof (@scan_good (x_act s3) (x_asg s3) (h_zero h) (h_one h) (g_nrow g) lb rb) as G. rewrite Ec in G. cbn [rp] in G.
  destruct G as (G1 & G2 & G3 & G4 & _). apply rle_bind; [|intros x; apply rle_refl]. apply rle_eq. unfold spawn.
  rewrite (@spawn1_threads (h_zero h)) by (first [intros x Hx; apply (G1 x Hx)|intros x y Hx Hy; apply (G2 x y Hx Hy)]).
  destruct (spawn1 g' data (h_zero h) _ _ s3); cbn [Base.bind]; [|reflexivity].
  apply spawn1_threads; [intros x Hx; apply (G3 x Hx)|intros x y Hx Hy; apply (G4 x y Hx Hy)].
Qed.

Lemma run_hinit_threads it centers dr s0 : h_init_ok g it centers dr -> h_coordinator_create g centers = Ok s0 ->
  2 <= g_k g -> (Z.of_nat (g_k g) < 2 ^ 30)%Z ->
  run_hinit g it data dr s0 = run_hinit g' it data dr s0.
Proof.
  intros Hi E0 K2 K30. destruct it; try reflexivity. cbn [run_hinit]. unfold h_forgy_init.
  destruct (split_ids s0) as (lr & s1) eqn:Es. 
  assert (Ehc : x_hcl s1 = x_hcl s0). { unfold split_ids in Es. destruct (id_split (x_ider s0)). injection Es as _ <-. reflexivity. }
  destruct (hm_ref (x_hcl s1) 0) as [h|] eqn:Eh; [|reflexivity]. cbn [Base.bind].
  destruct Hi as (Hc & D0 & D1).
  assert (Sh : shaped 2 d (h_cl h)).
  { rewrite Ehc in Eh. unfold h_coordinator_create in E0. apply bind_ok in E0 as (u & _ & E0). apply bind_ok in E0 as (mn & _ & E0).
    apply bind_ok in E0 as (s2 & E2 & E0). apply bind_ok in E0 as (h2 & E3 & E0). injection E0 as <-. cbn [with_hcl x_hcl] in Eh.
    assert (h = h2). { unfold hm_ref in Eh. pose proof (hget_put (x_hcl s2) 0 h2 0) as X. cbn [Nat.eqb] in X. unfold hget in X. destruct (nth_error _ 0) as [[|]|]; congruence. }
    subst h2. destruct centers as [m|].
    - apply bind_ok in E3 as (c & E3 & E4). injection E4 as <-.
      rewrite (@create_means_ok N 2 (g_ncol g) (m, 0) (firstn (2 * d) m)) in E3; [|cbn [fst snd]; fold d; lia|reflexivity].
      injection E3 as <-. unfold shaped, cwf. cbn [h_cl c_nclust c_ncol c_means c_members c_complete]. rewrite firstn_length. fold d. splits; auto; lia.
    - injection E3 as <-. apply shaped_create. }
  destruct (@two_means (h_cl h) (dr 0) (dr 1) Sh D0 D1) as (p & q & p' & q' & c1 & c2 & E1 & E2 & E3 & E4 & F1 & F2 & F3 & F4).
  rewrite E1, E3. cbn [Base.bind]. rewrite F1, F2. cbn [Base.bind]. destruct (activate s1 (fst lr)); cbn [Base.bind]; [|reflexivity].
  rewrite E2, E4. cbn [Base.bind]. rewrite F3, F4. reflexivity.
Qed.

Lemma h_loop_threads centers it dr scheds scheds' : h_valid g data it centers dr ->
  (forall i j, complete (w_ranges ws) (scheds i j)) -> (forall i j, complete (w_ranges ws') (scheds' i j)) ->
  forall fuel round s, h_state g ws centers it data dr s false ->
  rle (h_loop g ws data scheds fuel round s) (h_loop g' ws' data scheds' fuel round s).
Proof.
  intros Hv C C'. induction fuel as [|fuel IH]; intros round s Hs; cbn [h_loop]; [apply rle_refl|].
  change (g_max_iters g') with (g_max_iters g).
  assert (Hit : 1 <= g_max_iters g) by apply Hv.
  apply rle_bind_ok.
  - apply (@rle_loop_inv _ (fun s => exists b, h_state g ws centers it data dr s b)); [| |eauto].
    + intros i s1 (b & H1). destruct (h_state_inv Hv W H1) as (R & _). apply rle_eq. exact (h_iter_threads (r_e R) (C round i) (C' round i)).
    + intros i s1 s2 (b & H1) E. exists true. exact (hs_iter H1 (C round i) E).
  - intros s1 E1. change (at_cluster_cap g') with (at_cluster_cap g). destruct (at_cluster_cap g s1) eqn:Ec; [apply rle_refl|].
    apply rle_bind_ok; [apply init_splits_threads|]. intros s2 E2. destruct (hm_keyless (x_hcl s2)) eqn:Ek; [apply rle_refl|].
    apply IH. refine (hs_split _ Ec E2 Ek).
    assert (X : exists b, h_state g ws centers it data dr s1 b /\ (1 <= g_max_iters g -> b = true)).
    { apply (@loop_inv_ok _ (fun i s => exists b, h_state g ws centers it data dr s b /\ (1 <= i -> b = true)) _ _ _ _ E1).
      - exists false. split; [exact Hs|lia].
      - intros j a b Hj (b' & Ha & _) E. exists true. split; [exact (hs_iter Ha (C round j) E)|auto]. }
    destruct X as (b & Hb & Eb). rewrite (Eb Hit) in Hb. exact Hb.
Qed.

Lemma h_run_threads bind centers it dr scheds scheds' fuel : h_valid g data it centers dr ->
  build_workers g data = Ok ws -> build_workers g' data = Ok ws' ->
  (forall i j, complete (w_ranges ws) (scheds i j)) -> (forall i j, complete (w_ranges ws') (scheds' i j)) ->
  rle (h_run g bind centers it data dr scheds fuel) (h_run g' bind centers it data dr scheds' fuel).
Proof.
  intros Hv Ew Ew' C C'. unfold h_run. change (h_coordinator_create g') with (h_coordinator_create g).
  apply rle_bind_ok; [apply rle_refl|]. intros s0 E0. change (hg g') with (with_threads (hg g) nt kind) in Ew'. rewrite Ew.
  change (build_workers (hg g') data) with (build_workers (with_threads (hg g) nt kind) data). rewrite Ew'. cbn [Base.bind].
  pose proof Hv as (_ & K2 & K30 & _ & _ & Hi).
  rewrite <- (@run_hinit_threads it centers dr s0 Hi E0 K2 K30).
  apply rle_bind_ok; [apply rle_refl|]. intros s1 E1.
  apply rle_bind; [|intros s2; apply rle_refl].
  apply (h_loop_threads Hv C C'). exact (hs_start _ E0 E1).
Qed.
End Threads.
