(** C132: G-means returns the same result whatever the number of threads, the thread
    schedule and the way the data is loaded, in exact arithmetic. *)
From Coq Require Import Reals Permutation Lra.
From Verif Require Import Base Num MatrixModel PropertiesMatrix DistModel DistProofs ClustersModel ClustersView ClustersProofs MatLemmas
  PartitionModel PartitionProofs ParModel KmeansModel ParProofs NearProofs KmeansProofs UpdateProofs RunProofs InitProofs SimProofs Spec ParRule ParSim Okab.
From Verif Require Import VecLemmas KmeansR SseProofs PropertiesKmeansR PropertiesRun.
From Verif Require Import ContainersModel PropertiesIds HclustModel HclustProofs HclustUpdate HclustIter HclustSplit HclustRun HclustDone HclustVerify
  XmeansModel XmeansProofs XmeansDecide XmeansRound XmeansRun PropertiesXmeans PropertiesXmeansR GmeansModel GmeansSplit GmeansSteps GmeansDecide GmeansRun.
From Verif Require Import ParFree PropertiesHclust HclustThreads XmeansThreads GmeansThreads GmeansThreadsEx PropertiesThreads.
Set Implicit Arguments.
Unset Strict Implicit.
Local Open Scope R_scope.

(** the states before the first round *)
Lemma start_rel (g : hcfg NumR) nt kind (data : list R) centers it dr s0 s0' ws ws' : let g' := h_threads g nt kind in
  @valid_input NumR g data -> @valid_input NumR g' data -> @wok NumR (g_nrow g) (g_ncol g) data ws -> @wok NumR (g_nrow g) (g_ncol g) data ws' ->
  @gpre NumR g ws data s0 -> @gpre NumR g' ws' data s0' -> (2 <= g_k g)%nat -> (Z.of_nat (g_k g) < 2 ^ 30)%Z -> @h_init_ok NumR g it centers dr ->
  @g_start NumR g centers it data dr = Ok (s0, ws) -> @g_start NumR g' centers it data dr = Ok (s0', ws') ->
  @build_workers NumR g data = Ok ws -> @build_workers NumR g' data = Ok ws' ->
  grel g nt kind data ws ws' s0 s0' /\ x_cd s0' = x_cd s0 /\
  c_nclust (x_cl s0) = (2 * hclust_floor (g_k g) - 1)%nat /\ c_nclust (x_cl s0') = (2 * hclust_floor (g_k g) - 1)%nat.
Proof.
  intros g' V V' W W' P P' K2 K30 Hini Es Es' Ew Ew'.
    pose proof V as (V1 & V2 & V3 & V4).
    destruct (@build_workers_ok NumR g data V1 V2 V3 V4) as (w & Q & _ & Lw & _). rewrite Ew in Q. injection Q as <-.
    destruct (V') as (U1 & U2 & U3 & U4).
    destruct (@build_workers_ok NumR g' data U1 U2 U3 U4) as (w' & Q' & _ & Lw' & _). rewrite Ew' in Q'. injection Q' as <-.
    unfold g_start in Es, Es'. apply bind_ok in Es as (x & Ex & Es). apply bind_ok in Es' as (x' & Ex' & Es').
    rewrite Ew in Es. rewrite Ew' in Es'. cbn [Base.bind] in Es, Es'.
    apply bind_ok in Es as (hi & Eh & Es). apply bind_ok in Es' as (hi' & Eh' & Es'). injection Es as <-. injection Es' as <-.
    unfold x_create in Ex, Ex'. change (h_coordinator_create g' centers) with (h_coordinator_create g centers) in Ex'.
    change (h_k g') with (h_k g) in Ex'. change (g_ncol g') with (g_ncol g) in Ex'. change (g_nrow g') with (g_nrow g) in Ex'.
    apply bind_ok in Ex as (c & Exc & Ex). rewrite Exc in Ex'. cbn [Base.bind] in Ex'.
    apply bind_ok in Ex as (mn & Exm & Ex). rewrite Exm in Ex'. cbn [Base.bind] in Ex'.
    injection Ex as <-. injection Ex' as <-. cbn [xh] in Eh, Eh'.
    assert (Q : hi' = hi).
    { pose proof (@run_hinit_threads NumR g nt kind data V V' ws ws' (@HuR g data V ws ws' W W') it centers dr c Hini Exc K2 K30) as R.
      fold g' in R. assert (R2 := eq_trans (eq_sym Eh') (eq_trans (eq_sym R) Eh)). injection R2 as <-. reflexivity. }
    assert (Hmn : mn = Z.of_nat (2 * hclust_floor (g_k g) - 1)).
    { pose proof (max_hnodes_half K2 K30) as Hm. unfold h_k in Exm. rewrite Hm in Exm. injection Exm as <-. reflexivity. }
    splits; [|reflexivity|rewrite Hmn; cbn [with_h x_cl clear clusters_create c_nclust]; apply Nat2Z.id|rewrite Hmn; cbn [with_h x_cl clear clusters_create c_nclust]; apply Nat2Z.id].
    constructor; auto; cbn [with_h xh x_cl x_loc].
    - repeat split; auto; lia.
    - rewrite repeat_length. symmetry. exact Lw.
    - rewrite repeat_length. symmetry. exact Lw'.
Qed.

(** ** C132 *)
Theorem C132_gmeans : forall nlog phi trunc (g : hcfg NumR) nthreads kind strictness bind bind' centers it (data : list R) dr
    scheds scheds' fuel fuel' s tr s' tr',
  let g' := h_threads g nthreads kind in      (* another thread count and loading path *)
  h_valid g data it centers dr -> (1 <= nthreads < 2 ^ 32)%Z -> h_fair g data scheds -> h_fair g' data scheds' ->
  g_run nlog phi trunc g strictness bind centers it data dr scheds fuel = Ok (s, tr) ->
  g_run nlog phi trunc g' strictness bind' centers it data dr scheds' fuel' = Ok (s', tr') ->
  s' = s.
Proof.
  intros nlog phi trunc g nt kind st bind bind' centers it data dr scheds scheds' fuel fuel' s tr s' tr' g' Hv Hnt Hf Hf' E E'.
  pose proof Hv as (V & K2 & K30 & Hm & Hi & Hini). pose proof (@threads_input g nt kind data V Hnt) as V'. fold g' in V'.
  assert (Hv' : h_valid g' data it centers dr) by (unfold h_valid; splits; auto).
  destruct (@g_start_ok NumR g data centers it dr Hv) as (s0 & ws & Es & Ew & W & P).
  destruct (@g_start_ok NumR g' data centers it dr Hv') as (s0' & ws' & Es' & Ew' & W' & P').
  unfold g_run in E, E'. rewrite Es in E. rewrite Es' in E'. cbn [Base.bind] in E, E'.
  apply bind_ok in E as ((s1 & tr1) & El & E). apply bind_ok in E' as ((s1' & tr1') & El' & E').
  apply bind_ok in E as (h & Ec & E). apply bind_ok in E' as (h' & Ec' & E').
  apply bind_ok in E as (u & _ & E). apply bind_ok in E' as (u' & _ & E').
  cbn [fst snd] in *. injection E as <- <-. injection E' as <- <-.
  destruct (@start_rel g nt kind data centers it dr s0 s0' ws ws' V V' W W' P P' K2 K30 Hini Es Es' Ew Ew') as (G & _).
  assert (Q : xh s1' = xh s1).
  { exact (@gloop_both nlog phi trunc g nt kind data st V V' ws ws' W W' K2 K30 Hm Hi scheds scheds' (Hf ws Ew) (Hf' ws' Ew')
      fuel fuel' 0%nat s0 s0' [] [] (s1, tr1) (s1', tr1') G El El'). }
  rewrite Q in Ec'. change (complete_final g') with (complete_final g) in Ec'.
  assert (R := eq_trans (eq_sym Ec') Ec). injection R as <-. reflexivity.
Qed.
Print Assumptions C132_gmeans.

(** and it returns for every number of threads, when it does for one, as long as no
    partition of a round is numbered at or above the number of clusters the containers
    of the run are made for (twice the rounded-up k, less one; F36: a partition numbered
    higher is read past the end of them, or not, according to the number of threads) *)
Theorem C132_returns : forall nlog phi trunc (g : hcfg NumR) nthreads kind strictness bind centers it (data : list R) dr
    scheds scheds' fuel s tr,
  let g' := h_threads g nthreads kind in      (* another thread count and loading path *)
  h_valid g data it centers dr -> (1 <= g_ncol g)%nat -> (1 <= nthreads < 2 ^ 32)%Z -> h_fair g data scheds -> h_fair g' data scheds' ->
  g_run nlog phi trunc g strictness bind centers it data dr scheds fuel = Ok (s, tr) ->
  (forall rr p, In rr tr -> In p (x_part (xh (rr_mid rr))) \/ In p (hm_keys (x_hcl (xh (rr_mid rr)))) ->
     (p < 2 * hclust_floor (g_k g) - 1)%nat) ->
  exists tr', g_run nlog phi trunc g' strictness bind centers it data dr scheds' fuel = Ok (s, tr').
Proof.
  intros nlog phi trunc g nt kind st bind centers it data dr scheds scheds' fuel s tr g' Hv Hd Hnt Hf Hf' E HB.
  pose proof Hv as (V & K2 & K30 & Hm & Hi & Hini). pose proof (@threads_input g nt kind data V Hnt) as V'. fold g' in V'.
  assert (Hv' : h_valid g' data it centers dr) by (unfold h_valid; splits; auto).
  destruct (@g_start_ok NumR g data centers it dr Hv) as (s0 & ws & Es & Ew & W & P).
  destruct (@g_start_ok NumR g' data centers it dr Hv') as (s0' & ws' & Es' & Ew' & W' & P').
  destruct (@start_rel g nt kind data centers it dr s0 s0' ws ws' V V' W W' P P' K2 K30 Hini Es Es' Ew Ew') as (G & Ecd & N0 & N1).
  unfold g_run in E |- *. rewrite Es in E. rewrite Es'. cbn [Base.bind] in E |- *.
  apply bind_ok in E as ((s1 & tr1) & El & E). apply bind_ok in E as (h & Ec & E). apply bind_ok in E as (u & Eu & E).
  cbn [fst snd] in *. injection E as <- <-.
  assert (X : xrel g nt kind data ws ws' (2 * hclust_floor (g_k g) - 1) s0 s0').
  { constructor; auto; [rewrite N0|rewrite N1]; apply Nat.le_refl. }
  assert (HB' : Forall (ids_below (2 * hclust_floor (g_k g) - 1)) tr1).
  { apply Forall_forall. intros rr Hrr. split; intros p Hp; apply (HB rr p Hrr); auto. }
  destruct (@gloop_ex nlog phi trunc g nt kind data st V V' ws ws' W W' K2 K30 Hm Hi (2 * hclust_floor (g_k g) - 1) scheds scheds'
    Hd (Hf ws Ew) (Hf' ws' Ew') fuel 0%nat s0 s0' [] [] s1 tr1 X El HB') as ((s2 & tr2) & El2 & Eh2). cbn [fst] in Eh2.
  fold g' in El2. rewrite El2. cbn [Base.bind fst snd]. rewrite Eh2. change (complete_final g') with (complete_final g).
  change (verify_consistency g') with (verify_consistency g). rewrite Ec. cbn [Base.bind]. rewrite Eu. cbn [Base.bind].
  exists tr2. reflexivity.
Qed.
Print Assumptions C132_returns.

(* ------------------------------------------------------------------ *)
(** * The premises can be met *)

(** another thread count and fair schedules for both *)
Example C132_premises : h_valid (tg 1) tdata FORGY None (fun i => (i mod 6)%nat) /\ (1 <= 3 < 2 ^ 32)%Z /\
  h_fair (tg 1) tdata tall /\ h_fair (h_threads (tg 1) 3 UserBuffer) tdata tall.
Proof. pose proof C125_example as (_ & H1 & H2 & H3 & H4 & _). auto. Qed.
