(** C102, what holds: the first round of a G-means run reaches its decision. *)
From Coq Require Import Permutation.
From Verif Require Import Base Num MatrixModel PropertiesMatrix DistModel DistProofs ClustersModel ClustersView ClustersProofs MatLemmas
  PartitionModel PartitionProofs ParModel KmeansModel ParProofs NearProofs KmeansProofs UpdateProofs RunProofs InitProofs Spec ParRule ParSim.
From Verif Require Import ContainersModel MatrixModel PropertiesIds HclustModel HclustProofs HclustUpdate HclustIter HclustSplit HclustRun Okab HclustDone HclustVerify
  XmeansModel XmeansProofs XmeansDecide XmeansRound XmeansRun PropertiesXmeans GmeansModel GmeansSplit GmeansSteps GmeansDecide GmeansRun PropertiesGmeans.
Set Implicit Arguments.
Unset Strict Implicit.

Section F.
Variable N : Num.
Notation T := (car N).
Notation z := (nzero N).
Variables (g : hcfg N) (ws : list (worker N)) (data : list T).
Let d := g_ncol g.
Let n := g_nrow g.
Hypothesis V : valid_input g data.
Hypothesis Hws : wok n d data ws.

Lemma g_diff_runs (c : clusters N) : shaped 2 d c -> exists v, g_diff g c = Ok v /\ length v = d + 1.
Proof.
  clear V Hws. intros (Ek & Ed & Em & _). unfold g_diff. fold d.
  assert (H1 : okp (loop d (fun _ v => vdiff (c_means c, 0) (c_means c, d) d v) (repeat z (d + 1))) (fun v => length v = d + 1)).
  { apply (@loop_okp _ (fun _ v => length v = d + 1)); [apply repeat_length|]. intros j v Hj Lv. unfold vdiff.
    destruct (Nat.eqb_spec (length v) 0) as [X|X]; [lia|].
    apply (@loop_okp _ (fun _ v => length v = d + 1)); [exact Lv|]. intros i a Hi La. unfold pget. cbn [fst snd].
    rewrite (@aget_nth _ _ _ z) by (rewrite Em, Ek, Ed; nia). cbn [bind]. rewrite (@aget_nth _ _ _ z) by (rewrite Em, Ek, Ed; nia). cbn [bind].
    rewrite aset_ok by lia. cbn [okp]. rewrite upd_length. exact La. }
  destruct (loop d _ _) as [v|]; [|destruct H1]. cbn [okp] in H1. cbn [bind]. unfold dot_vv.
  rewrite (@loop_bigsum N d _ (fun j => nmul N (nth j v z) (nth j v z))).
  2:{ intros j a Hj. unfold pget. cbn [fst snd Nat.add]. rewrite (@aget_nth _ v j z) by lia. reflexivity. }
  cbn [bind]. rewrite aset_ok by lia. eexists. split; [reflexivity|]. rewrite upd_length. exact H1.
Qed.

Lemma g_split_runs M (s : xst N) sched : einv g ws data M (xh s) -> length (x_cd s) = n -> complete (w_ranges ws) sched ->
  exists s', g_split g ws sched s = Ok s'.
Proof.
  intros I Lcd Hc. unfold g_split.
  assert (Hd : exists dfs, g_diffs g (x_hcl (xh s)) = Ok dfs /\ length dfs = length (x_hcl (xh s)) /\
     forall p h, hget (x_hcl (xh s)) p = Some h -> exists v, nth_error dfs p = Some (Some v) /\ length v = d + 1).
  { assert (Hsh : forall p h, hget (x_hcl (xh s)) p = Some h -> shaped 2 d (h_cl h)) by (intros p h Hp; apply (e_live I Hp)).
    revert Hsh. unfold g_diffs. generalize (x_hcl (xh s)). clear V Hws I Lcd Hc. induction l as [|o l IH]; intros Hsh.
    - exists []. splits; auto. intros p h Hp. unfold hget in Hp. destruct p; discriminate.
    - destruct IH as (t & Et & Lt & Ht); [intros p h Hp; apply (Hsh (S p) h); exact Hp|]. cbn [mapM].
      destruct o as [h0|].
      + destruct (@g_diff_runs (h_cl h0)) as (v & Ev & Lv); [apply (Hsh 0 h0); reflexivity|]. rewrite Ev. cbn [bind]. rewrite Et. cbn [bind].
        eexists. split; [reflexivity|]. split; [cbn [length]; lia|]. intros [|p] h Hp; [cbn; eauto|]. apply (Ht p h). exact Hp.
      + cbn [bind]. rewrite Et. cbn [bind]. eexists. split; [reflexivity|]. split; [cbn [length]; lia|]. intros [|p] h Hp; [discriminate|]. apply (Ht p h). exact Hp. }
  destruct Hd as (dfs & Ed & Ld & Hd). rewrite Ed. cbn [bind].
  assert (Ht : ntiles 0 (length (x_cd s)) (w_ranges ws)) by (rewrite Lcd; apply Hws).
  assert (L0 : length (map (fun _ => tt) ws) = length (w_ranges ws)) by (unfold w_ranges; rewrite !map_length; reflexivity).
  destruct (@par_run_rule T unit z (SPLIT_row g ws (x_part (xh s)) (x_act (xh s)) (x_asg (xh s)) dfs) (w_ranges ws) (x_cd s) (map (fun _ => tt) ws)
     Ht L0 (fun _ _ _ => True)) with (sched := sched) as (locs & cells & E & _); auto.
  2:{ rewrite E. cbn [bind]. eauto. }
  intros t o m r l tr Er Hr Hb _ _. unfold w_ranges in Er. rewrite nth_error_map in Er. destruct (nth_error ws t) as [w|] eqn:Ew; [|discriminate]. injection Er as <- <-.
  unfold SPLIT_row. rewrite (proj2 (aget_ok ws t w) Ew). cbn [bind]. rewrite Lcd in Hb.
  pose proof (e_asg I) as La. fold n in La. pose proof (e_part I) as Lp. fold n in Lp.
  rewrite (@aget_nth _ (x_asg (xh s)) (w_start w + r) 0) by lia. cbn [bind]. destruct (e_rows I Hb) as (Ha & Hrow). pose proof (e_act I) as Lact.
  rewrite (@aget_nth _ (x_act (xh s)) _ false) by lia. cbn [bind].
  destruct (nth (nth (w_start w + r) (x_asg (xh s)) 0) (x_act (xh s)) false) eqn:Eact; cbn [negb]; [|eauto].
  rewrite (@aget_nth _ (x_part (xh s)) (w_start w + r) 0) by lia. cbn [bind].
  destruct (hget (x_hcl (xh s)) (nth (w_start w + r) (x_part (xh s)) 0)) as [h|] eqn:Eh; [|destruct Hrow; congruence].
  destruct (Hd _ _ Eh) as (v & Ev & Lv). unfold hm_ref. rewrite Ev. cbn [bind].
  assert (Hdr : slice (fst (wrow w d r)) (snd (wrow w d r)) d = row data d (w_start w + r)) by (apply (proj2 Hws); [apply nth_error_In in Ew; exact Ew|exact Hr]).
  pose proof (@data_row_length N g data V _ Hb) as Ldr. fold d in Ldr. rewrite <- Hdr in Ldr.
  fold d. rewrite (@loop_bigsum N d _ (fun j => nmul N (nth j (row data d (w_start w + r)) z) (nth j v z))).
  2:{ intros j a0 Hj. unfold pget.
      assert (Q : snd (wrow w d r) + j < length (fst (wrow w d r))) by (unfold slice in Ldr; rewrite firstn_length, skipn_length in Ldr; lia).
      rewrite (@aget_nth _ _ _ z) by exact Q. cbn [bind]. rewrite (@aget_nth _ v j z) by lia. cbn [bind].
      rewrite <- Hdr, nth_slice by exact Hj. reflexivity. }
  cbn [bind]. rewrite (@aget_nth _ v d z) by lia. cbn [bind]. eauto.
Qed.
End F.

Section P.
Variable N : Num.
Notation T := (car N).
Variables (nlog phi : T -> T) (trunc : T -> Z).

(** ** C102, the part that holds *)
Theorem C102_first_round_partial : forall (g : hcfg N) strictness centers it data dr scheds,
  h_valid g data it centers dr -> h_fair g data scheds ->
  (exists s3, gmeans_deciding nlog phi trunc g strictness centers it data dr scheds s3) \/
  (unassignable g data /\ forall bind fuel, 1 <= fuel ->
     g_run nlog phi trunc g strictness bind centers it data dr scheds fuel = Err Abort).
Proof.
  intros g strictness centers it data dr scheds Hv Hf. pose proof Hv as (V & K2 & K30 & Hm & Hi & Hini). pose proof V as (V1 & V2 & V3 & V4).
  destruct (@build_workers_ok N g data V1 V2 V3 V4) as (ws & Ew & Hws & Lws & _).
  destruct (@create_init_ok N g data V K2 K30 it centers dr Hini) as (s0 & s1 & c & E0 & E1 & Sh & _ & Es).
  destruct (floor_facts K2 K30) as (F2 & _ & F29 & Fc).
  set (F := hclust_floor (g_k g)) in *. set (K := 2 * F - 1).
  pose proof (@start_ok N g ws data K2 K30 (FPx g ws data []) c Sh) as R. cbn zeta in R. fold F in R. rewrite <- Es in R.
  assert (Hkeys : Permutation (hm_keys (x_hcl s1)) [0] /\ x_final s1 = []).
  { rewrite Es. split; [|reflexivity]. cbn [x_hcl].
    assert (Hg : forall p x, hget (hm_put (repeat None (4 * F - 1)) 0 (mkH c 1 2 false)) p = Some x <-> In (p, x) [(0, mkH c 1 2 false)]).
    { intros p x. rewrite hget_put. cbn [In]. destruct (Nat.eqb_spec p 0) as [->|].
      - split; [intros [= <-]; auto|intros [X|[]]; injection X as <-; auto].
      - split; [|intros [X|[]]; congruence]. unfold hget. destruct (nth_error _ p) as [y|] eqn:E; [|discriminate].
        apply nth_error_In, repeat_spec in E. subst y. discriminate. }
    exact (proj1 (@keys_perm_list N _ [(0, mkH c 1 2 false)] ltac:(repeat constructor; cbn; tauto) Hg)). }
  destruct Hkeys as (Pk & Hf0).
  pose proof (max_hnodes_half K2 K30) as Hmx. fold F in Hmx. fold K in Hmx.
  set (C := clusters_create N K (g_ncol g)).
  set (nthr := Z.to_nat (eff_threads (g_nthreads g) (Z.of_nat (g_nrow g)))) in *.
  set (X0 := mkX s0 (repeat (nzero N) (g_nrow g)) (repeat (nzero N) (g_nrow g)) (clear C) (repeat C nthr)).
  assert (Ex : x_create g centers nthr = Ok X0).
  { unfold x_create. rewrite E0. cbn [Base.bind]. unfold h_k. fold F. rewrite Hmx. cbn [Base.bind]. rewrite Nat2Z.id. reflexivity. }
  assert (Est : g_start g centers it data dr = Ok (with_h X0 s1, ws)).
  { unfold g_start. fold nthr. rewrite Ex. cbn [Base.bind]. rewrite Ew. cbn [Base.bind]. change (xh X0) with s0. rewrite E1. reflexivity. }
  assert (P : xpre g ws data [] (with_h X0 s1)).
  { assert (Ecl : clear C = C) by (apply clear_create, shaped_create). constructor; cbn [with_h X0 xh x_pd x_cd x_cl x_loc]; rewrite ?Ecl.
    + rewrite Es. reflexivity.
    + intros i Hin. apply in_app_iff in Hin as [Hin|Hin].
      * apply (Permutation_in _ Pk) in Hin. cbn in Hin. fold F. lia.
      * unfold finkeys in Hin. rewrite Hf0 in Hin. destruct Hin.
    + apply repeat_length.
    + apply repeat_length.
    + apply shaped_create.
    + intros j Hj. apply cel_create. exact Hj.
    + rewrite repeat_length. congruence.
    + apply Forall_forall. intros x Hx. apply repeat_spec in Hx. subst x. apply shaped_create. }
  pose proof (@half_round N nlog (nzero N) g ws data V Hws K2 Hm Hi 0 [] (with_h X0 s1) (fun j => match j with 0 => scheds 0 0 | S i => scheds 0 (i + 2) end) R P) as H.
  specialize (H (fun j => match j with 0 => Hf ws Ew 0 0 | S i => Hf ws Ew 0 (i + 2) end)). cbv beta iota in H.
  destruct (x_mean g ws (scheds 0 0) (with_h X0 s1)) as [a1|] eqn:A1; cbn [Base.bind] in H.
  2:{ right. destruct H as (-> & U). split; [exact U|]. intros bind [|fuel] Hfu; [lia|]. unfold g_run. rewrite Est. cbn [Base.bind g_loop]. unfold g_round.
      rewrite A1. reflexivity. }
  destruct (loop (g_max_iters g) (fun i s => x_iter g ws (scheds 0 (i + 2)) (i =? 0) s) a1) as [a2|] eqn:A2; cbn [okab] in H.
  2:{ right. destruct H as (-> & U). split; [exact U|]. intros bind [|fuel] Hfu; [lia|]. unfold g_run. rewrite Est. cbn [Base.bind g_loop]. unfold g_round.
      rewrite A1. cbn [Base.bind]. rewrite A2. reflexivity. }
  left.
  destruct H as (R2 & _ & _ & Q). destruct (@g_split_runs N g ws data V Hws _ a2 (scheds 0 1) (r_e R2) (q_cd Q) (Hf ws Ew 0 1)) as (a3 & A3).
  exists a3. unfold gmeans_deciding. exists (with_h X0 s1), ws, 0, (with_h X0 s1), a1, a2. splits; auto. constructor.
Qed.
End P.
