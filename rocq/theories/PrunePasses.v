(** A pruned driver after its initialisation: one unpruned pass, then pruned
    turns.  The facts below hold for any partition of the rows into chunks, so
    for the library's threads and for the OpenMP chunks alike. *)
From Coq Require Import Reals Lra Lia List.
From Verif Require Import Base Num Spec DistModel ClustersModel ClustersView PartitionModel ParModel KmeansModel PruneModel.
From Verif Require Import MatLemmas VecLemmas ClustersProofs DistProofs PartitionProofs ParProofs NearProofs KmeansProofs UpdateProofs RunProofs ParRule DistMatProofs PruneProofs ClusterSums PruneRound PruneUpdate PruneRun PruneRun2.
From Verif Require Import InitProofs SimProofs KmeansR PropertiesKmeans PropertiesKmeansR PropertiesRun PropertiesPrune PropertiesDistRun PropertiesDistSame SpecLloyd PropertiesPruneStop PropertiesPruneSame DistRunProofs OmpModel OmpProofs.
Set Implicit Arguments.
Local Open Scope R_scope.

Section Passes.
Variables (g : kcfg NumR) (data : list (car NumR)) (ws : list (worker NumR)) (scheds : nat -> list nat) (s0 : pst NumR) (m : nat).
Hypothesis Hk : (2 <= g_k g)%nat.
Hypothesis V : valid_input g data.
Hypothesis Hws : wok (g_nrow g) (g_ncol g) data ws.
Hypothesis Hsch : forall i, complete (w_ranges ws) (scheds i).
Hypothesis Hpre : ppre g ws s0.
Hypothesis Hpm : p_prev_means (ps_cltrs s0) = repeat 0 (g_ncol g * g_k g).
Hypothesis Hent : forall r, (r < g_nrow g)%nat ->
  entry_ok (g_k g) (g_dt g) (cent s0) (row data (g_ncol g) r) (cdist (cellat s0 r)) (casg (cellat s0 r)).

(** what the passes leave *)
Record passes (s1 : pst NumR) (iter : nat) (conv : bool) (s' : pst NumR) (more : list (pst NumR)) : Prop := {
  pp_first : prune_first g ws (scheds 1%nat) s0 = Ok s1;
  pp_loop : prune_loop g ws scheds (m - 1) 2 s1 [s1] = Ok (iter, conv, s', s1 :: more);
  pp_near1 : forall r, (r < g_nrow g)%nat -> exists a, casg (cellat s1 r) = Some a /\
    is_nearest (g_dt g) (g_k g) (cent s0) (row data (g_ncol g) r) a /\ cdist (cellat s1 r) = rdist (g_dt g) (row data (g_ncol g) r) (cent s0 a);
  pp_drift1 : drift_of (g_k g) (g_ncol g) (ps_cltrs s1) (repeat 0 (g_ncol g * g_k g));
  pp_inv : Forall (pinv g ws data) (s1 :: more);
  pp_step : forall i a b, nth_error (s1 :: more) i = Some a -> nth_error more i = Some b -> pstep g ws a b;
  pp_changed : forall i a b, nth_error (s1 :: more) i = Some a -> nth_error more i = Some b ->
    ps_changed b = moved (asg_of (ps_cells a)) (asg_of (ps_cells b));
  pp_last : exists c, s' = with_changed (last more s1) c;
  pp_len : (length more <= m - 1)%nat;
  pp_conv : conv = true -> exists pre f, more = pre ++ [f] /\ stop_test g (ps_changed f) = true /\
    Forall (fun x => stop_test g (ps_changed x) = false) pre /\ iter = S (length more);
  pp_full : conv = false -> length more = (m - 1)%nat /\ Forall (fun x => stop_test g (ps_changed x) = false) more /\ iter = (2 + length more)%nat
}.

Lemma passes_ok : exists s1 iter conv s' more, passes s1 iter conv s' more.
Proof.
  pose proof V as (V1 & V2 & V3 & V4).
  destruct (@first_ok g ws data Hws V4 V2 Hk (scheds 1%nat) s0 (Hsch 1%nat) Hpre Hent) as (s1 & E1 & Hi1 & Hch & Hnear & Hpm1 & Hdr).
  destruct (@prune_loop_ok g data Hk V ws scheds Hws Hsch (m - 1) 2 s1 [s1] Hi1 Hch) as (iter & conv & s' & more & E2 & L1 & L2 & L3 & L4 & L5 & L6).
  exists s1, iter, conv, s', more. rewrite Hpm in Hdr. constructor; auto.
  - intros i a b Ea Eb. destruct (L1 i a b Ea Eb) as (sched & Hc & Eit).
    assert (Hia : pinv g ws data a).
    { destruct i as [|i]; [cbn in Ea; injection Ea as <-; exact Hi1|]. rewrite Forall_forall in L2. apply L2. apply nth_error_In with i. exact Ea. }
    assert (Hib : pinv g ws data b) by (rewrite Forall_forall in L2; apply L2; apply nth_error_In with i; exact Eb).
    destruct (@PruneRun.iterate_ok g ws data Hws V4 V2 Hk sched (with_changed a 0) Hc Hia) as (b' & Eb' & _ & Ecg & _).
    pose proof (eq_trans (eq_sym Eit) Eb') as Q. injection Q as <-. rewrite Ecg. cbn [ps_changed with_changed ps_cells Nat.add].
    destruct Hia as (_ & _ & _ & _ & (La & _) & _). destruct Hib as (_ & _ & _ & _ & (Lb & _) & _). apply chg_moved; assumption.
  - intros Hc. destruct (L5 Hc) as (pre & f & H1 & H2 & H3 & H4). exists pre, f. splits; auto; lia.
Qed.

Variables (s1 : pst NumR) (iter : nat) (conv : bool) (s' : pst NumR) (more : list (pst NumR)).
Hypothesis P : passes s1 iter conv s' more.

Lemma pp_in s : In s (s1 :: more) -> pinv g ws data s.
Proof. intros H. pose proof (pp_inv P) as A. rewrite Forall_forall in A. exact (A s H). Qed.

Lemma pp_bounds_next i s s2 : g_dt g = EUCL -> nth_error (s1 :: more) i = Some s -> nth_error more i = Some s2 -> bounds_valid g data s ->
  bounds_valid g data s2 /\ all_nearest g data (pcentroid (g_ncol g) s) s2.
Proof.
  intros Hdt E E' Hb. destruct (pp_step P i E E') as (sched & Hc & Es).
  assert (Hi : pinv g ws data s) by (apply pp_in; eapply nth_error_In; eauto).
  assert (Hi' : pinv g ws data s2) by (apply pp_in; right; eapply nth_error_In; eauto).
  pose proof V as (V1 & V2 & V3 & V4).
  destruct (@PruneRun.iterate_ok g ws data Hws V4 V2 Hk sched (with_changed s 0) Hc (pinv_with 0 Hi)) as (s3 & E2 & _ & _ & Hn).
  assert (Q := eq_trans (eq_sym Es) E2). injection Q as <-.
  assert (Hb' : forall r, (r < g_nrow g)%nat -> rbound g data (with_changed s 0) r) by (apply (proj1 (bounds_valid_iff Hi)); exact Hb).
  pose proof Hi as ((Hs & _) & _).
  split.
  + apply (proj2 (bounds_valid_iff Hi')). intros r Hr. apply (Hn Hdt r Hr (Hb' r Hr)).
  + intros r Hr. destruct (Hn Hdt r Hr (Hb' r Hr)) as (_ & a & Ea & Ha & Hle). exists a. rewrite passigned_cell. splits; auto.
    intros j Hj. rewrite Hdt. rewrite !(@pcentroid_cent g s _ Hs). apply Hle. exact Hj.
Qed.

Lemma pp_first_near : all_nearest g data (pcentroid (g_ncol g) s0) s1.
Proof.
  intros r Hr. destruct (pp_near1 P Hr) as (a & Ea & (Ha & Hle) & _). exists a. rewrite passigned_cell. splits; auto.
  intros j Hj. pose proof Hpre as ((Hs & _) & _). rewrite !(@pcentroid_cent g s0 _ Hs). apply Hle. exact Hj.
Qed.

Lemma slice_zeros a b c : (b + c <= a)%nat -> slice (repeat 0 a) b c = repeat 0 c.
Proof.
  clear. intros Hle. unfold slice. replace a with (b + (c + (a - b - c)))%nat by lia. rewrite !repeat_app.
  rewrite skipn_app, repeat_length, Nat.sub_diag, skipn_all2 by (rewrite repeat_length; lia). cbn [app skipn].
  rewrite firstn_app, repeat_length, Nat.sub_diag, firstn_all2 by (rewrite repeat_length; lia). cbn [firstn]. apply app_nil_r.
Qed.

(** no centroid moves, in the first update, farther than its new norm *)
Definition drift_small : Prop := forall j, (j < g_k g)%nat ->
  edist (pcentroid (g_ncol g) s0 j) (pcentroid (g_ncol g) s1 j) <= edist (pcentroid (g_ncol g) s1 j) (vzero (g_ncol g)).

Lemma pp_bounds1 : g_dt g = EUCL -> drift_small -> bounds_valid g data s1.
Proof.
  intros Hdt Hd. assert (Hi1 : pinv g ws data s1) by (apply pp_in; left; reflexivity).
  apply (proj2 (bounds_valid_iff Hi1)). intros r Hr. destruct (pp_near1 P Hr) as (a & Ea & (Ha & _) & Ed). exists a. splits; auto.
  specialize (Hd a Ha). rewrite Ed. rewrite (pp_drift1 P Ha). pose proof Hpre as ((Hs0 & _) & _). pose proof Hi1 as ((Hs1 & _) & _).
  rewrite (@pcentroid_cent g s0 a Hs0), (@pcentroid_cent g s1 a Hs1) in Hd. rewrite Hdt. cbn [rdist].
  pose proof V as (V1 & V2 & V3 & V4).
  assert (L1 : @length R (row data (g_ncol g) r) = g_ncol g) by (apply (@row_length _ data (g_ncol g) r (g_nrow g)); auto).
  assert (L2 : @length R (cent s0 a) = g_ncol g) by (apply (@crow_len (g_k g)); auto).
  assert (L3 : @length R (cent s1 a) = g_ncol g) by (apply (@crow_len (g_k g)); auto).
  pose proof (@edist_triangle (row data (g_ncol g) r) (cent s0 a) (cent s1 a) (eq_trans L1 (eq_sym L2)) (eq_trans L2 (eq_sym L3))) as Htri.
  eapply Rle_trans; [exact Htri|]. apply Rplus_le_compat_l. eapply Rle_trans; [exact Hd|]. right. unfold cent. f_equal.
  unfold row, vzero. symmetry. apply slice_zeros. nia.
Qed.

Lemma pp_bounds : g_dt g = EUCL -> drift_small -> forall i s, nth_error (s1 :: more) i = Some s -> bounds_valid g data s.
Proof.
  intros Hdt Hd. induction i as [|i IH]; intros s E; [cbn in E; injection E as <-; apply pp_bounds1; assumption|].
  cbn [nth_error] in E. destruct (nth_error (s1 :: more) i) as [sp|] eqn:Ep.
  2:{ apply nth_error_None in Ep. cbn in Ep. assert (i < length more)%nat by (apply nth_error_Some; congruence). lia. }
  exact (proj1 (pp_bounds_next i Hdt Ep E (IH sp eq_refl))).
Qed.

Lemma pp_nearest : g_dt g = EUCL -> drift_small -> forall i s s2, nth_error (s0 :: s1 :: more) i = Some s -> nth_error (s1 :: more) i = Some s2 ->
  all_nearest g data (pcentroid (g_ncol g) s) s2.
Proof.
  intros Hdt Hd [|i] s s2 E E'; cbn [nth_error] in E, E'.
  - injection E as <-. injection E' as <-. exact pp_first_near.
  - exact (proj2 (pp_bounds_next i Hdt E E' (pp_bounds Hdt Hd i E))).
Qed.

Lemma pp_stop i a b : nth_error (s1 :: more) i = Some a -> nth_error more i = Some b ->
  stop_test g (moved (asg_of (ps_cells a)) (asg_of (ps_cells b))) = (conv && (Datatypes.S (Datatypes.S i) =? length (s1 :: more))%nat)%bool.
Proof.
  intros Ea Eb. rewrite <- (pp_changed P i Ea Eb). assert (Hlen : (i < length more)%nat) by (apply nth_error_Some; congruence).
  cbn [length]. destruct conv.
  + destruct (pp_conv P eq_refl) as (pre & f & Em & G1 & G2 & _). rewrite Em in *. rewrite app_length in *. cbn [length Nat.add] in *.
    destruct (Nat.eq_dec i (length pre)) as [-> |Hne].
    * rewrite nth_error_app2 in Eb by lia. rewrite Nat.sub_diag in Eb. cbn in Eb. injection Eb as <-. rewrite G1. symmetry. cbn [andb]. apply Nat.eqb_eq. lia.
    * rewrite nth_error_app1 in Eb by lia. rewrite Forall_forall in G2. rewrite (G2 b) by (apply nth_error_In with i; exact Eb). symmetry. cbn [andb]. apply Nat.eqb_neq. lia.
  + destruct (pp_full P eq_refl) as (_ & G2 & _). rewrite Forall_forall in G2. rewrite (G2 b) by (apply nth_error_In with i; exact Eb). reflexivity.
Qed.

Lemma pp_lloyd : (1 <= m)%nat -> g_dt g = EUCL -> g_tol g < 1 -> drift_small ->
  lloyd (with_iters g m) data (pcentroid (g_ncol g) s0) (map (fun s => asg_of (ps_cells s)) (s1 :: more)) conv.
Proof.
  intros Hm Hdt Ht Hd. pose proof V as (V1 & V2 & V3 & V4). set (tr := s1 :: more).
  assert (Ltr : length tr = S (length more)) by reflexivity. pose proof (pp_len P) as Hl.
  apply (@lloyd_intro _ (fun s => asg_of (ps_cells s)) (pcentroid (g_ncol g)) (with_iters g m) data _ s0); auto.
  - intros i s s2 E1 E2. pose proof (pp_in (@nth_error_In _ _ _ _ E2)) as Hi. pose proof Hi as (_ & _ & _ & _ & (La & _) & _).
    split; [unfold asg_of; rewrite map_length; exact La|]. split; [|split].
    + intros x Hx. destruct (pp_nearest Hdt Hd i E1 E2 Hx) as (a & Ea & Ha & Hj). exists a. split; [exact Ea|]. split; assumption.
    + intros j Hj. destruct (@means_members g data ws s2 j V4 Hi Hj) as (M1 & _). etransitivity; [exact M1|]. unfold cluster_mean. cbn [with_iters g_nrow g_ncol]. destruct (members _ _ _ _ _); reflexivity.
    + destruct i as [|i].
      * cbn [Nat.eqb]. transitivity false.
        -- unfold stop_test. cbn [with_iters g_nrow g_tol]. apply Bool.orb_false_iff. split; [apply Nat.eqb_neq; lia|]. cbn [nleb ndiv nofZ NumR]. apply Rleb_false. unfold Rdiv. rewrite Rinv_r; [exact Ht|].
           apply not_0_IZR. lia.
        -- symmetry. rewrite Ltr. destruct conv; [|reflexivity]. destruct (pp_conv P eq_refl) as (pre & f & Em & _). rewrite Em, app_length. cbn [andb length]. rewrite Nat.add_1_r. reflexivity.
      * cbn [Nat.eqb]. exact (pp_stop i E1 E2).
  - cbn [with_iters g_max_iters]. lia.
  - intros Hc. destruct (pp_full P Hc) as (Hf & _). cbn [with_iters g_max_iters]. lia.
  - discriminate.
Qed.

Lemma pp_output o : ct_asg o = asg_of (ps_cells s') -> ct_counts o = ps_counts s' -> ct_centroids o = c_means (p_cl (ps_cltrs s')) ->
  output_of g data (last (map (fun s => asg_of (ps_cells s)) (s1 :: more)) []) o.
Proof.
  intros O1 O2 O3. destruct (pp_last P) as (c & Es). rewrite Es in O1, O2, O3. cbn [with_changed ps_cells ps_counts ps_cltrs] in O1, O2, O3.
  assert (Hne : s1 :: more <> []) by discriminate. rewrite (last_map _ s0) by exact Hne.
  destruct (last_in s0 Hne) as (Hin & _). rewrite last_cons' in *. set (f := last more s1) in *.
  pose proof (pp_in Hin) as Hp. pose proof V as (V1 & V2 & V3 & V4). pose proof Hp as ((Sh & _) & _ & _ & Hcn & _).
  split; [exact O1|]. split; [rewrite O2, Hcn, map_length, seq_length; reflexivity|].
  split; [etransitivity; [exact (f_equal (@length R) O3)|]; exact (proj1 (shaped_means Sh))|].
  intros j Hj. destruct (@means_members g data ws f j V4 Hp Hj) as (H1 & H2). split.
  - etransitivity; [exact (f_equal (fun v : list R => row v (g_ncol g) j) O3)|]. etransitivity; [exact H1|]. unfold cluster_mean. destruct (members _ _ _ _ _); reflexivity.
  - rewrite O2. etransitivity; [apply (nth_error_nth' _ 0%Z); rewrite Hcn, map_length, seq_length; exact Hj|]. f_equal. exact H2.
Qed.
End Passes.
