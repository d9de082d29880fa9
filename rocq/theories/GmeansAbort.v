(** C102: a run whose first projections cannot be normalised fails, whatever the rest. *)
From Verif Require Import Base Num MatrixModel PropertiesMatrix DistModel DistProofs ClustersModel ClustersView ClustersProofs MatLemmas
  PartitionModel PartitionProofs ParModel KmeansModel ParProofs NearProofs KmeansProofs UpdateProofs RunProofs InitProofs Spec ParRule ParSim.
From Verif Require Import ContainersModel MatrixModel PropertiesIds HclustModel HclustProofs HclustUpdate HclustIter HclustSplit HclustRun Okab HclustDone HclustVerify
  XmeansModel XmeansProofs XmeansDecide XmeansRound XmeansRun PropertiesXmeans GmeansModel GmeansSplit GmeansSteps GmeansDecide GmeansRun PropertiesGmeans GmeansFirst PropertiesGmeansR GmeansOne.
Set Implicit Arguments.
Unset Strict Implicit.

Section P.
Variable N : Num.
Notation T := (car N).
Variables (nlog phi : T -> T) (trunc : T -> Z).

Theorem C102_first_projections_refuted : forall (g : hcfg N) strictness centers it data dr scheds s3 e,
  h_valid g data it centers dr -> h_fair g data scheds ->
  gmeans_first g centers it data dr scheds s3 -> scale trunc (x_cd s3) = Err e ->
  forall bind fuel, 1 <= fuel -> g_run nlog phi trunc g strictness bind centers it data dr scheds fuel = Err e.
Proof.
  intros g strictness centers it data dr scheds s3 e Hv Hf (s0 & ws & s1 & s2 & E0 & E1 & E2 & E3) Hs bind fuel Hfu.
  assert (D : gmeans_deciding nlog phi trunc g strictness centers it data dr scheds s3).
  { exists s0, ws, 0, s0, s1, s2. splits; auto. constructor. }
  destruct (@deciding_ok N nlog phi trunc g strictness centers it data dr scheds s3 Hv Hf D) as (ws' & _ & Qm).
  pose proof Hv as (V & K2 & K30 & Hm & Hi & Hini).
  destruct (@g_start_ok N g data centers it dr Hv) as (s0' & ws2 & E0' & Ew & Hws & P0). assert (X := eq_trans (eq_sym E0) E0'). injection X as <- <-.
  destruct (@g_half_frame N g ws data (scheds 0) s0 s1 s2 s3 V Hws Hi P0 (Hf ws Ew 0) E1 E2 E3) as (Fp & _).
  destruct (@create_init_ok N g data V K2 K30 it centers dr Hini) as (c0 & c1 & c & Ec0 & Ec1 & _ & _ & Es).
  assert (Hh : xh s0 = c1).
  { pose proof E0 as Y. unfold g_start in Y. apply bind_ok in Y as (x0 & Ex & Y). apply bind_ok in Y as (w0 & _ & Y). apply bind_ok in Y as (h0 & Eh & Y). injection Y as <- _. cbn [with_h xh].
    unfold x_create in Ex. rewrite Ec0 in Ex. cbn [Base.bind] in Ex. apply bind_ok in Ex as (mn & _ & Ex). injection Ex as <-. cbn [xh] in Eh. congruence. }
  assert (Ep : x_part (xh s3) = repeat 0 (g_nrow g)) by (rewrite Fp, Hh, Es; reflexivity).
  destruct V as (V1 & _).
  destruct fuel as [|fuel]; [lia|]. unfold g_run. rewrite E0. cbn [Base.bind g_loop]. unfold g_round.
  rewrite E1. cbn [Base.bind]. rewrite E2. cbn [Base.bind]. rewrite E3. cbn [Base.bind].
  unfold g_decision. rewrite Ep. unfold g_scores. rewrite (assemble_one V1 (gm_cd Qm)). cbn [Base.bind mapM fst snd]. rewrite Hs. reflexivity.
Qed.
End P.
