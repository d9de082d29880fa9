(** C81 in exact arithmetic, C59 refuted, and non-vacuity for fuzzy c-means. *)
From Coq Require Import Reals Lra Permutation.
From Verif Require Import Base Num DistModel ClustersModel MatLemmas
  PartitionModel ParModel KmeansModel ParProofs NearProofs KmeansProofs RunProofs InitProofs Spec DistProofs VecLemmas.
From Verif Require Import ParRule Okab MedoidProofs MedoidRun MatrixModel PropertiesMatrix PropertiesArgmax FcmModel FcmProofs FcmRun PropertiesFcm PropertiesFcmR.
Set Implicit Arguments.
Unset Strict Implicit.
Local Open Scope R_scope.

(** ** C81, exact arithmetic: a row at none of the centres is assigned to a centre
    nearest to it (the centres the last iteration started from) *)
Theorem C81_nearest_centre : forall f centers it data draw os r s s' n,
  f_ran f centers it data draw os r ->
  nth_error (f_states r) n = Some s -> nth_error (f_states r) (S n) = Some s' -> S n = length (fr_trace r) ->
  INR (g_k (f_g f)) ^ Z.to_nat (f_m f) < IZR (2 ^ 1022) ->
  forall x, (x < g_nrow (f_g f))%nat ->
  (forall j, (j < g_k (f_g f))%nat -> 0 < fz_dist f data (f_centers s) j x) ->
  exists a, nth x (ct_asg (fr_out r)) None = Some a /\ (a < g_k (f_g f))%nat /\
    forall j, (j < g_k (f_g f))%nat -> fz_dist f data (f_centers s) a x <= fz_dist f data (f_centers s) j x.
Proof.
  intros f centers it data draw os r s s' n HR E1 E2 Hn Hbig x Hx HD.
  pose proof HR as (V & F & E & Hm). pose proof V as (_ & Hk & _).
  destruct (@C81_result NumR NumR_laws rpow f centers it data draw os r V F E) as (_ & _ & _ & _ & _ & A & EA & LA & HA & _).
  assert (Es : last (f_states r) (fr_init r) = s').
  { unfold f_states in *. clear - E2 Hn. cbn [nth_error] in E2. destruct (fr_trace r) as [|t l] using rev_ind; [cbn in Hn; lia|].
    rewrite app_length in Hn. cbn [length] in Hn. assert (n = length l) by lia. subst n.
    rewrite nth_error_app2 in E2 by lia. rewrite Nat.sub_diag in E2. cbn in E2. injection E2 as <-.
    rewrite app_comm_cons. apply last_last. }
  rewrite Es in HA. destruct (HA x Hx) as (Ha & H1 & _).
  exists (nth x A 0%nat). rewrite EA. splits; auto.
  { rewrite (nth_indep _ None (Some 0%nat)) by (rewrite map_length, LA; exact Hx). apply map_nth. }
  destruct (C84_memberships HR E1 E2 Hx) as (Hsum & HW).
  assert (Hex : exists j, (j < g_k (f_g f))%nat /\ / INR (g_k (f_g f)) <= fz_mu f data (f_centers s) j x).
  { assert (Hk0 : 0 < INR (g_k (f_g f))) by (apply lt_0_INR; lia).
    set (k := g_k (f_g f)) in *. set (mu := fun j => fz_mu f data (f_centers s) j x) in *.
    assert (D : (exists j, (j < k)%nat /\ / INR k <= mu j) \/ (forall j, (j < k)%nat -> mu j < / INR k)).
    { clear. generalize (/ INR k) as e. intros e. induction k as [|k IH]; [right; intros; lia|].
      destruct IH as [(j & Hj & Hl)|IH]; [left; exists j; auto|]. destruct (Rle_lt_dec e (mu k)); [left; exists k; auto|].
      right. intros j Hj. destruct (Nat.eq_dec j k) as [->|]; auto. apply IH. lia. }
    destruct D as [D|D]; auto. exfalso.
    assert (L : rsum (map mu (seq 0 k)) < rsum (map (fun _ => / INR k) (seq 0 k))).
    { apply rsum_lt.
      - intros j Hj. apply in_seq in Hj. left. apply D. lia.
      - exists 0%nat. split; [apply in_seq; lia|apply D; lia]. }
    rewrite rsum_map_const, seq_length, Rinv_r in L by lra. lra. }
  assert (Hmin : exists j, (j < g_k (f_g f))%nat /\ nltb NumR (nmin NumR) (cell (f_um s') j x) = true).
  { destruct Hex as (j & Hj & Hl). exists j. split; auto. destruct (HW j Hj) as (_ & ->). apply Rltb_true.
    assert (Hk0 : 0 < INR (g_k (f_g f))) by (apply lt_0_INR; lia).
    apply Rlt_le_trans with ((/ INR (g_k (f_g f))) ^ Z.to_nat (f_m f)).
    - rewrite pow_inv. change (nmin NumR) with (/ IZR (2 ^ 1022)). 
      assert (0 < INR (g_k (f_g f)) ^ Z.to_nat (f_m f)) by (apply pow_lt; auto). 
      apply Rinv_lt_contravar; auto. apply Rmult_lt_0_compat; auto. eapply Rlt_trans; eauto.
    - apply pow_incr. split; auto. left. apply Rinv_0_lt_compat. auto. }
  intros j Hj. destruct (Rle_lt_dec (fz_dist f data (f_centers s) (nth x A 0%nat) x) (fz_dist f data (f_centers s) j x)) as [|Hlt]; auto.
  exfalso. specialize (H1 Hmin j Hj). apply Rltb_false in H1.
  pose proof (C59_closer_larger_partial HR E1 E2 Hx Hj Ha (HD j Hj) Hlt) as Q. exact (Rlt_not_le _ _ Q H1).
Qed.

(** every valid input has fair orders *)
Lemma f_fair_exists N (f : fcfg N) data : valid_input (f_g f) data -> exists os, f_fair f data os.
Proof.
  intros V. pose proof V as (V1 & V2 & V3 & V4).
  pose proof (@build_workers_ok N (fcm_cfg (f_g f)) data V1 V2 V3 V4) as (ws & Ews & _).
  exists (fun _ => mkForder (seq_sched (w_ranges ws)) (seq_sched (w_ranges ws)) (seq 0 (g_k (f_g f)))).
  intros ws' E i. rewrite Ews in E. injection E as <-. cbn [o_e o_m o_rows]. splits; auto using seq_sched_complete.
Qed.

(** two rows 0 and 1, two threads, two clusters starting at given centres *)
Definition fx (mi : nat) (dt : dist_t) : fcfg NumR := mkFcfg (mkCfg NumR 2 1 2 mi 2 (-1) dt UserBuffer) 2.
Lemma fx_valid mi dt (c : list R) : length c = 2%nat -> @f_valid NumR (fx mi dt) (Some c) NONE [0; 1] (fun _ => 0%nat).
Proof. intros L. unfold f_valid, valid_input; cbn. splits; auto; lia. Qed.

Lemma fx_ran mi dt (c : list R) : length c = 2%nat ->
  exists os r, f_ran (fx mi dt) (Some c) NONE [0; 1] (fun _ => 0%nat) os r /\ length (fr_trace r) = mi /\
    (forall j, (j < 2)%nat -> row (dm_mat (f_centers (fr_init r))) 1 j = row c 1 j).
Proof.
  intros L. pose proof (@fx_valid mi dt c L) as V.
  destruct (@f_fair_exists NumR (fx mi dt) [0; 1] (proj1 V)) as (os & F).
  destruct (@C80_schedule_independent NumR NumR_laws rpow _ _ _ _ _ V) as (r & HR). specialize (HR os F).
  exists os, r. split; [unfold f_ran; splits; auto; cbn; lia|].
  pose proof (@C83_start NumR NumR_laws rpow _ _ _ _ _ os r V F HR) as HS. split; [|exact HS].
  destruct (@C82_stops NumR NumR_laws rpow _ _ _ _ _ os r V F HR) as (L1 & L2 & _ & HC).
  destruct (fr_converged r) eqn:Ec; [exfalso|apply L2; auto].
  destruct (@f_run_ok NumR NumR_laws rpow _ _ _ _ _ V) as (ws & r' & _ & _ & _ & HR' & _ & _ & _ & Hch & _).
  rewrite (HR' os F) in HR. injection HR as ->. rewrite Ec in Hch.
  assert (Hne : fr_trace r <> []) by (intros E; rewrite E in Hch; inversion Hch).
  set (n := (length (fr_trace r) - 1)%nat).
  assert (Hl : S n = length (fr_trace r)) by (unfold n; destruct (fr_trace r); [congruence|cbn; lia]).
  destruct (nth_error (f_states r) n) as [s|] eqn:E1; [|apply nth_error_None in E1; unfold f_states in E1; cbn [length] in E1; lia].
  destruct (nth_error (f_states r) (S n)) as [s'|] eqn:E2; [|apply nth_error_None in E2; unfold f_states in E2; cbn [length] in E2; lia].
  destruct (HC n s s' E1 E2) as (_ & H). specialize (H (conj Hl eq_refl)). apply Rltb_true in H.
  unfold centre_shift in H. cbn [nsqrt NumR] in H. pose proof (sqrt_pos (bigsum NumR (g_k (f_g (fx mi dt)) * g_ncol (f_g (fx mi dt))) (fun i =>
    let x := nsub NumR (nth i (dm_mat (f_centers s')) (nzero NumR)) (nth i (dm_mat (f_centers s)) (nzero NumR)) in nmul NumR x x))) as P.
  cbn [fx f_g g_tol] in H. cbn [fx f_g g_k g_ncol] in P, H. apply (Rlt_irrefl 0). eapply Rle_lt_trans; [exact P|]. eapply Rlt_trans; [exact H|]. lra.
Qed.

Lemma fx_dist dt mi (s : fst_ NumR) (c : list R) j x : length c = 2%nat -> dt = EUCL \/ dt = SQEUCL \/ dt = TAXI -> (j < 2)%nat -> (x < 2)%nat ->
  row (dm_mat (f_centers s)) 1 j = row c 1 j ->
  fz_dist (fx mi dt) [0; 1] (f_centers s) j x = rdist dt [INR x] [nth j c 0].
Proof.
  intros L Hdt Hj Hx E. unfold fz_dist. cbn [fx f_g g_dt g_ncol]. etransitivity.
  { apply (f_equal (rdist dt (row [0; 1] 1 x))). exact E. }
  destruct c as [|a [|b [|? ?]]]; cbn in L; try discriminate.
  destruct j as [|[|?]]; [| |lia]; destruct x as [|[|?]]; try lia; reflexivity.
Qed.

(** C59 is false: row 0 is exactly centre 0 (and not centre 1), and yet gets a
    larger membership weight in cluster 1 *)
Theorem C59_refuted : exists f centers it data draw os r s s',
  f_ran f centers it data draw os r /\
  nth_error (f_states r) 0 = Some s /\ nth_error (f_states r) 1 = Some s' /\
  g_k (f_g f) = 2%nat /\
  fz_dist f data (f_centers s) 0 0 = 0 /\ 0 < fz_dist f data (f_centers s) 1 0 /\
  cell (f_um s') 0 0 < cell (f_um s') 1 0.
Proof.
  destruct (@fx_ran 1 EUCL [0; 1] eq_refl) as (os & r & HR & Hl & HS).
  destruct (fr_trace r) as [|s' [|? ?]] eqn:Et; cbn in Hl; try discriminate.
  exists (fx 1 EUCL), (Some [0; 1]), NONE, [0; 1], (fun _ => 0%nat), os, r, (fr_init r), s'.
  assert (E1 : nth_error (f_states r) 0 = Some (fr_init r)) by reflexivity.
  assert (E2 : nth_error (f_states r) 1 = Some s') by (unfold f_states; rewrite Et; reflexivity).
  assert (D0 : fz_dist (fx 1 EUCL) [0; 1] (f_centers (fr_init r)) 0 0 = 0).
  { rewrite (@fx_dist EUCL 1 (fr_init r) [0; 1] 0 0); auto. cbn. unfold edist, sqdist. cbn.
    replace ((0 - 0) * (0 - 0) + 0) with 0 by lra. apply sqrt_0. }
  assert (D1 : fz_dist (fx 1 EUCL) [0; 1] (f_centers (fr_init r)) 1 0 = 1).
  { rewrite (@fx_dist EUCL 1 (fr_init r) [0; 1] 1 0); auto. cbn. unfold edist, sqdist. cbn.
    replace ((0 - 1) * (0 - 1) + 0) with 1 by lra. apply sqrt_1. }
  splits; auto; try lra.
  apply (C59_at_centre_smaller HR E1 E2); cbn [fx f_g g_nrow g_k]; try lia; auto. rewrite D1.
  split; [lra|]. cbn [fx f_m]. replace (2 - 1) with 1 by lra. rewrite Rpower_1 by lra. lra.
Qed.

(** Non-vacuity of C84, C60, C59_closer_larger_partial, C81_nearest_centre and C85: a run of two
    iterations with squared distances started away from the rows *)
Lemma C85_nonvacuous : exists f centers it data draw os r s0 s1 s2,
  f_ran f centers it data draw os r /\ g_dt (f_g f) = SQEUCL /\
  nth_error (f_states r) 0 = Some s0 /\ nth_error (f_states r) 1 = Some s1 /\ nth_error (f_states r) 2 = Some s2 /\
  (forall j, (j < g_k (f_g f))%nat -> 0 < fz_dist f data (f_centers s0) j 0) /\
  fz_dist f data (f_centers s0) 0 0 < fz_dist f data (f_centers s0) 1 0 /\
  (forall x j, (x < g_nrow (f_g f))%nat -> (j < g_k (f_g f))%nat ->
     row data (g_ncol (f_g f)) x <> row (dm_mat (f_centers s1)) (g_ncol (f_g f)) j).
Proof.
  destruct (@fx_ran 2 SQEUCL [1/4; 3/4] eq_refl) as (os & r & HR & Hl & HS).
  destruct (fr_trace r) as [|s1 [|s2 [|? ?]]] eqn:Et; cbn in Hl; try discriminate.
  exists (fx 2 SQEUCL), (Some [1/4; 3/4]), NONE, [0; 1], (fun _ => 0%nat), os, r, (fr_init r), s1, s2.
  assert (E1 : nth_error (f_states r) 0 = Some (fr_init r)) by reflexivity.
  assert (E2 : nth_error (f_states r) 1 = Some s1) by (unfold f_states; rewrite Et; reflexivity).
  assert (E3 : nth_error (f_states r) 2 = Some s2) by (unfold f_states; rewrite Et; reflexivity).
  assert (D0 : fz_dist (fx 2 SQEUCL) [0; 1] (f_centers (fr_init r)) 0 0 = 1/16).
  { rewrite (@fx_dist SQEUCL 2 (fr_init r) [1/4; 3/4] 0 0); auto. cbn. unfold sqdist. cbn. lra. }
  assert (D1 : fz_dist (fx 2 SQEUCL) [0; 1] (f_centers (fr_init r)) 1 0 = 9/16).
  { rewrite (@fx_dist SQEUCL 2 (fr_init r) [1/4; 3/4] 1 0); auto. cbn. unfold sqdist. cbn. lra. }
  splits; auto; try lra.
  - intros j Hj. cbn in Hj. destruct j as [|[|?]]; [rewrite D0|rewrite D1|lia]; lra.
  - intros x j Hx Hj. cbn [fx f_g g_nrow g_k g_ncol] in *. intros Heq.
    destruct (@C60_weighted_means _ _ _ _ _ _ _ 0%nat _ _ HR E1 E2 j Hj) as (Hpos & Hmean). cbn [fx f_g g_nrow g_k g_ncol] in *.
    specialize (Hmean 0%nat ltac:(lia)).
    destruct (@C84_memberships _ _ _ _ _ _ _ 0%nat _ _ HR E1 E2 0%nat ltac:(cbn; lia)) as (_ & W0).
    destruct (@C84_memberships _ _ _ _ _ _ _ 0%nat _ _ HR E1 E2 1%nat ltac:(cbn; lia)) as (_ & W1).
    destruct (W0 j Hj) as (P0 & Q0). destruct (W1 j Hj) as (P1 & Q1).
    assert (R0 : 0 < cell (f_um s1) j 0) by (rewrite Q0; apply pow_lt; exact P0).
    assert (R1 : 0 < cell (f_um s1) j 1) by (rewrite Q1; apply pow_lt; exact P1).
    clear W0 W1 Q0 Q1 P0 P1.
    assert (Hc : cell (f_centers s1) j 0 = nth 0 (row (dm_mat (f_centers s1)) 1 j) 0).
    { unfold cell. destruct (f_ran_step HR E1 E2) as (_ & (_ & -> & _)). cbn [fx f_g g_ncol].
      symmetry. unfold row. apply (@nth_slice R). lia. }
    assert (Hx2 : nth 0 (row [0; 1] 1 x) 0 = INR x) by (destruct x as [|[|?]]; [reflexivity|reflexivity|lia]).
    assert (Hc2 : cell (f_centers s1) j 0 = INR x).
    { etransitivity; [exact Hc|]. rewrite <- Hx2. symmetry. apply (f_equal (fun l => nth 0 l 0)). exact Heq. }
    cbn [seq map rsum nth Nat.mul Nat.add] in Hmean, Hpos.
    set (a := cell (f_um s1) j 0) in *. set (b := cell (f_um s1) j 1) in *.
    assert (Hmid : (a * 0 + (b * 1 + 0)) / (a + (b + 0)) = INR x) by (rewrite <- Hc2; symmetry; exact Hmean).
    clearbody a b. clear - Hmid R0 R1 Hx.
    assert (H2 : a * 0 + (b * 1 + 0) = INR x * (a + (b + 0))).
    { rewrite <- Hmid. unfold Rdiv. rewrite Rmult_assoc, Rinv_l; [ring|]. change (car NumR) with R in *. lra. }
    destruct x as [|[|?]]; [| |lia]; cbn in H2; lra.
Qed.

(** the bound on k^m is met by every practical input *)
Lemma C81_nonvacuous : INR 10 ^ 3 < IZR (2 ^ 1022).
Proof. replace (INR 10) with 10 by (cbn; lra). replace (10 ^ 3) with (IZR 1000) by (cbn; lra). apply IZR_lt. reflexivity. Qed.
