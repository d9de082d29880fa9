(** Fuzzy c-means does not depend on the number of threads nor on how the data
    were loaded (exact arithmetic). *)
From Coq Require Import Reals Lra.
From Verif Require Import Base Num Spec DistModel ClustersModel MatLemmas
  PartitionModel ParModel KmeansModel ParProofs NearProofs KmeansProofs RunProofs InitProofs DistProofs SimProofs PropertiesRun.
From Verif Require Import ParRule Okab MedoidProofs MedoidRun MatrixModel PropertiesMatrix PropertiesArgmax FcmModel FcmProofs FcmRun PropertiesFcm.
Set Implicit Arguments.
Unset Strict Implicit.

Definition f_threads {N} (f : fcfg N) (nt : Z) (kind : load_kind) : fcfg N := mkFcfg (with_threads (f_g f) nt kind) (f_m f).

(** ** Over the reals the workers' contributions add up to the sum over all rows *)
Lemma bigsumR_app a b (F : nat -> R) : bigsum NumR (a + b) F = (bigsum NumR a F + bigsum NumR b (fun i => F (a + i)%nat))%R.
Proof.
  induction b as [|b IH]; [rewrite Nat.add_0_r; cbn; lra|]. rewrite Nat.add_succ_r. cbn [bigsum nadd NumR]. rewrite IH.
  apply Rplus_assoc.
Qed.
Lemma foldR_acc {A} (h : A -> R) l : forall a, fold_left (fun s x => (s + h x)%R) l a = (a + fold_left (fun s x => (s + h x)%R) l 0)%R.
Proof. induction l as [|x l IH]; intros a; cbn [fold_left]; [lra|]. rewrite IH, (IH (0 + h x)%R). lra. Qed.

Lemma parts_total (f : fcfg NumR) (data : list R) (W : nat -> nat -> R) j c : forall rng lo hi, ntiles lo hi rng ->
  fold_left (fun s sn => (s + @wpart NumR f data W sn j c)%R) rng 0%R =
  bigsum NumR (hi - lo) (fun i => (W j (lo + i)%nat * @xval NumR f data (lo + i) c)%R).
Proof.
  induction rng as [|[s n] rng IH]; intros lo hi H.
  - cbn in H. subst. rewrite Nat.sub_diag. reflexivity.
  - destruct H as (-> & H). pose proof (@ntiles_le _ _ _ H) as Hle. cbn [fold_left]. rewrite foldR_acc, (IH _ _ H) || (rewrite foldR_acc; rewrite (IH (lo+n)%nat hi H)).
    replace (hi - lo)%nat with (n + (hi - (lo + n)))%nat by lia. rewrite bigsumR_app. unfold wpart. cbn [fst snd nmul NumR].
    rewrite Rplus_0_l. apply (f_equal2 Rplus); [reflexivity|]. clear. generalize (hi - (lo + n))%nat. intros m.
    induction m as [|m IH]; [reflexivity|]. cbn [bigsum]. rewrite IH. cbn [nadd NumR]. rewrite !Nat.add_assoc. reflexivity.
Qed.

Lemma wtotal_R (f : fcfg NumR) (data : list R) (W : nat -> nat -> R) rng n j c : ntiles 0 n rng ->
  @wtotal NumR f data W rng j c = bigsum NumR n (fun i => (W j i * @xval NumR f data i c)%R).
Proof.
  intros H. pose proof (@parts_total f data W j c rng 0%nat n H) as E. rewrite Nat.sub_0_r in E. cbn [Nat.add] in E. rewrite <- E.
  destruct rng as [|a rest]; [reflexivity|]. cbn [wtotal fold_left nadd NumR]. rewrite Rplus_0_l. reflexivity.
Qed.

Section T.
Variable npow : R -> R -> R.
Variables (f : fcfg NumR) (nt : Z) (kind : load_kind) (data : list R) (ws ws' : list (worker NumR)).
Let g := f_g f.
Let n := g_nrow g. Let d := g_ncol g. Let k := g_k g.
Hypothesis V : @valid_input NumR g data.
Hypothesis Hk : (1 <= k)%nat.
Hypothesis W1 : @wok NumR n d data ws.
Hypothesis W2 : @wok NumR n d data ws'.
Hypothesis N1 : ws <> [].
Hypothesis N2 : ws' <> [].

Lemma fturned_threads s s1 s2 : @fturned NumR npow f ws data s s1 -> @fturned NumR npow f ws' data s s2 -> s1 = s2.
Proof.
  intros H1 (A & B & C). apply (fturned_unique H1). split; [exact A|]. split; [|exact C].
  refine (is_matrix_ext B _). intros r c _ _. unfold fmean. apply (f_equal2 Rdiv); [|reflexivity].
  rewrite !(@wtotal_R _ _ _ _ n) by (apply W1 || apply W2). reflexivity.
Qed.

Lemma f_turn_threads o o' s : @fgood NumR f s -> @ford NumR f ws o -> @ford NumR f ws' o' ->
  exists s', @f_turn NumR npow f ws o s = Ok (s', @nltb NumR (moved f (f_centers s) (f_centers s')) (g_tol g)) /\
             @f_turn NumR npow f ws' o' s = Ok (s', @nltb NumR (moved f (f_centers s) (f_centers s')) (g_tol g)) /\ @fgood NumR f s'.
Proof.
  intros G O1 O2. destruct (@f_turn_ok NumR npow f ws data V Hk W1 N1 o s G O1) as (s1 & E1 & T1).
  destruct (@f_turn_ok NumR npow f ws' data V Hk W2 N2 o' s G O2) as (s2 & E2 & T2). pose proof (fturned_threads T1 T2). subst s2.
  exists s1. split; [exact E1|]. split; [exact E2|]. exact (fturned_good T1).
Qed.

Lemma f_loop_threads os os' : (forall i, @ford NumR f ws (os i)) -> (forall i, @ford NumR f ws' (os' i)) ->
  forall m i s tr, @fgood NumR f s -> @f_loop NumR npow f ws os m i s tr = @f_loop NumR npow f ws' os' m i s tr.
Proof.
  intros O1 O2. induction m as [|m IH]; intros i s tr G; cbn [f_loop]; [reflexivity|].
  destruct (f_turn_threads G (O1 i) (O2 i)) as (s' & E1 & E2 & G'). rewrite E1, E2. cbn [Base.bind fst snd].
  destruct (nltb NumR _ _); [reflexivity|]. apply IH. exact G'.
Qed.
End T.

Lemma f_turn_cfg npow (f : fcfg NumR) nt kind ws os : forall m i s tr, @f_loop NumR npow (f_threads f nt kind) ws os m i s tr = @f_loop NumR npow f ws os m i s tr.
Proof.
  induction m as [|m IH]; intros i s tr; cbn [f_loop]; [reflexivity|].
  assert (E : @f_turn NumR npow (f_threads f nt kind) ws (os i) s = @f_turn NumR npow f ws (os i) s) by (destruct f as [[] ?]; reflexivity). rewrite E.
  destruct (@f_turn NumR npow f ws (os i) s) as [[s' b]|e]; [|reflexivity]. cbn [Base.bind fst snd]. destruct b; [reflexivity|apply IH].
Qed.

Lemma kxd_rows_eq (f : fcfg NumR) (C C' : dmat NumR) : kxd f C -> kxd f C' ->
  (forall j, (j < g_k (f_g f))%nat -> row (dm_mat C) (g_ncol (f_g f)) j = row (dm_mat C') (g_ncol (f_g f)) j) -> C = C'.
Proof.
  intros (A1 & A2 & A3) (B1 & B2 & B3) H. apply (@is_matrix_unique NumR C C' (g_k (f_g f)) (g_ncol (f_g f)) (cell C)).
  - pose proof (is_matrix_self A3) as Q. rewrite A1, A2 in Q. exact Q.
  - pose proof (is_matrix_self B3) as Q. rewrite B1, B2 in Q. refine (is_matrix_ext Q _). intros r c Hr Hc. unfold cell. rewrite A2, B2.
    specialize (H r Hr). pose proof (f_equal (fun l => nth c l (nzero NumR)) H) as E. unfold row in E. cbn beta in E. rewrite !nth_slice in E by exact Hc. symmetry. exact E.
Qed.

Lemma workers_nonempty (g : kcfg NumR) data ws : @valid_input NumR g data -> @build_workers NumR g data = Ok ws -> ws <> [].
Proof.
  intros (V1 & V2 & V3 & V4) E ->. destruct (@build_workers_ok NumR g data V1 V2 V3 V4) as (ws' & Ews & W & Lw & _).
  rewrite E in Ews. injection Ews as <-. cbn [length] in Lw. unfold eff_threads in Lw.
  assert (Q : (1 <= Z.min (g_nthreads g) (Z.of_nat (g_nrow g)))%Z) by lia. revert Lw.
  match goal with |- _ = Z.to_nat ?x -> _ => assert (1 <= x)%Z by (unfold w32; try rewrite Z.mod_small; lia) end. lia.
Qed.

(** ** C130: one result for every number of threads, loading path and schedule *)
Theorem C130_fcm : forall npow (f : fcfg NumR) centers it (data : list R) draw,
  @f_valid NumR f centers it data draw ->
  exists r, forall nthreads kind os, (1 <= nthreads < 2 ^ 32)%Z -> @f_fair NumR (f_threads f nthreads kind) data os ->
    @f_run NumR npow (f_threads f nthreads kind) centers it data draw os = Ok r.
Proof.
  intros npow f centers it data draw V. destruct (@C80_schedule_independent NumR NumR_laws npow f centers it data draw V) as (r & Hr).
  exists r. intros nt kind os' Hnt F'. destruct V as (V & Hk & Hc & Hit).
  set (f1 := mkFcfg (fcm_cfg (f_g f)) (f_m f)). set (f2 := mkFcfg (fcm_cfg (with_threads (f_g f) nt kind)) (f_m f)).
  assert (V1 : @valid_input NumR (f_g f1) data) by exact V.
  assert (V2 : @valid_input NumR (f_g f2) data) by (destruct V as (X1 & X2 & X3 & X4); unfold valid_input; cbn; auto).
  destruct (get_workers V1) as (ws & Ew & W). destruct (get_workers V2) as (ws' & Ew' & W').
  pose proof (workers_nonempty V1 Ew) as N1. pose proof (workers_nonempty V2 Ew') as N2.
  set (os := fun _ : nat => mkForder (seq_sched (w_ranges ws)) (seq_sched (w_ranges ws)) (seq 0 (g_k (f_g f)))).
  assert (Fo : @f_fair NumR f data os).
  { intros w E i. assert (Q := eq_trans (eq_sym Ew) E). injection Q as <-. unfold os; cbn [o_e o_m o_rows]. splits; auto using seq_sched_complete. }
  rewrite <- (Hr os Fo).
  (* the two runs, step by step *)
  unfold f_run. cbn [f_threads f_g f_m]. fold f1 f2.
  destruct (@f_create_ok NumR f1 Hk centers Hc) as (s0 & E0 & G0 & _ & _).
  assert (Ec : @f_create NumR f2 centers = @f_create NumR f1 centers) by (unfold f2, f1; destruct f as [[] ?]; reflexivity). rewrite Ec, E0. cbn [Base.bind].
  change (@build_workers NumR (fcm_cfg (with_threads (f_g f) nt kind)) data = Ok ws') in Ew'. change (@build_workers NumR (fcm_cfg (f_g f)) data = Ok ws) in Ew.
  rewrite Ew, Ew'. cbn [Base.bind].
  assert (Ei : exists s1, @f_init NumR f1 it data draw s0 = Ok s1 /\ @f_init NumR f2 it data draw s0 = Ok s1 /\ @fgood NumR f1 s1).
  { destruct Hit as [->|(-> & Hdr)]; cbn [f_init]; [exists s0; auto|].
    destruct (@f_forgy_ok NumR f1 data V1 Hk draw s0 (proj1 G0) Hdr) as (C & E & HC & Hrow).
    assert (G0' : kxd f2 (f_centers s0)) by exact (proj1 G0).
    destruct (@f_forgy_ok NumR f2 data V2 Hk draw s0 G0' Hdr) as (C' & E' & HC' & Hrow').
    assert (C = C') as <-. { apply (kxd_rows_eq HC HC'). intros j Hj. rewrite (Hrow j Hj). symmetry. exact (Hrow' j Hj). }
    eexists. split; [exact E|]. split; [exact E'|]. destruct G0 as (_ & G1). split; [exact HC|exact G1]. }
  destruct Ei as (s1 & E1 & E2 & G1). rewrite E1, E2. cbn [Base.bind].
  assert (El : forall m i tr, @f_loop NumR npow f2 ws' os' m i s1 tr = @f_loop NumR npow f1 ws os m i s1 tr).
  { intros m i tr. transitivity (@f_loop NumR npow f1 ws' os' m i s1 tr).
    - pose proof (@f_turn_cfg npow f1 nt (fcm_kind kind) ws' os' m i s1 tr) as Q. rewrite <- Q. reflexivity.
    - symmetry. apply (@f_loop_threads npow f1 data ws ws' V1 Hk W W' N1 N2 os os'); auto.
      + intros j. exact (Fo ws Ew j).
      + intros j. exact (F' ws' Ew' j). }
  cbn [fcm_cfg with_threads g_max_iters]. rewrite El. reflexivity.
Qed.
