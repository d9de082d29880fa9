(** G-means: what the rounds of a run maintain. *)
From Coq Require Import Permutation.
From Verif Require Import Base Num MatrixModel PropertiesMatrix DistModel DistProofs ClustersModel ClustersView ClustersProofs MatLemmas
  PartitionModel PartitionProofs ParModel KmeansModel ParProofs NearProofs KmeansProofs UpdateProofs RunProofs InitProofs Spec ParRule ParSim.
From Verif Require Import ContainersModel MatrixModel PropertiesIds HclustModel HclustProofs HclustUpdate HclustIter HclustSplit HclustRun Okab HclustDone HclustVerify
  XmeansModel XmeansProofs XmeansDecide XmeansRound XmeansRun GmeansModel GmeansSplit GmeansSteps GmeansDecide.
Set Implicit Arguments.
Unset Strict Implicit.

Section Run.
Variable N : Num.
Notation T := (car N).
Notation z := (nzero N).
Variables (nlog phi : T -> T) (trunc : T -> Z).
Variables (g : hcfg N) (ws : list (worker N)) (data : list T).
Variable strictness : Z.
Let d := g_ncol g.
Let n := g_nrow g.
Hypothesis V : valid_input g data.
Hypothesis Hws : wok n d data ws.
Let F := hclust_floor (g_k g).
Let M := 4 * F - 1.
Hypothesis Hk2 : 2 <= g_k g.
Hypothesis Hk30 : (Z.of_nat (g_k g) < 2 ^ 30)%Z.
Hypothesis Hmin : 2 <= h_min g.
Hypothesis Hit : 1 <= g_max_iters g.

Definition FPt (asg : list nat) (i : nat) (v : list T) : Prop := True.
Notation ginv := (ginv g ws data M FPt).

(** between two rounds *)
Record gpre (s : xst N) : Prop := {
  gp_inv : ginv (xh s);
  gp_pd : length (x_pd s) = n;
  gp_cd : length (x_cd s) = n;
  gp_cl : gsh d (x_cl s);
  gp_loc : Forall (gsh d) (x_loc s)
}.

(** when the decisions start: the rows of a live partition carry their projections *)
Record gmid (s : xst N) : Prop := {
  gm_inv : ginv (xh s);
  gm_ready : ready g ws data M (xh s);
  gm_set : settled g (xh s);
  gm_pd : length (x_pd s) = n;
  gm_cd : length (x_cd s) = n;
  gm_cl : gsh d (x_cl s);
  gm_loc : Forall (gsh d) (x_loc s);
  gm_proj : forall p h r, hget (x_hcl (xh s)) p = Some h -> r < n -> nth r (x_part (xh s)) 0 = p ->
    nth r (x_cd s) z = gproj g (row data d r) (h_cl h)
}.

Lemma g_half (scheds : nat -> list nat) s s1 s2 s3 : gpre s -> (forall j, complete (w_ranges ws) (scheds j)) ->
  x_mean g ws (scheds 0) s = Ok s1 ->
  loop (g_max_iters g) (fun i s => x_iter g ws (scheds (i + 2)) (i =? 0) s) s1 = Ok s2 ->
  g_split g ws (scheds 1) s2 = Ok s3 -> gmid s3.
Proof.
  clear Hk2 Hk30 Hmin. intros P Hsch E1 E2 E3.
  destruct (@g_mean_ok N g ws data V Hws s s1 (scheds 0) (gp_cl P) (gp_loc P) E1) as (Eh & Epd & Ecd & Hcl & _ & Hloc).
  assert (Q : ginv (xh s2) /\ (1 <= g_max_iters g -> ready g ws data M (xh s2) /\ settled g (xh s2)) /\ length (x_pd s2) = n /\ length (x_cd s2) = n /\
     x_cl s2 = x_cl s1 /\ x_loc s2 = x_loc s1).
  { apply (@loop_inv_ok _ (fun j s2 => ginv (xh s2) /\ (1 <= j -> ready g ws data M (xh s2) /\ settled g (xh s2)) /\ length (x_pd s2) = n /\ length (x_cd s2) = n /\
     x_cl s2 = x_cl s1 /\ x_loc s2 = x_loc s1) _ _ _ _ E2).
    - rewrite Eh, Epd, Ecd. destruct P. splits; auto; lia.
    - intros j a b Hj ((c & R) & _ & Lpd & Lcd & E4 & E5) H.
      pose proof (e_asg (r_e R)) as La. change (x_asg (with_curr (xh a) c)) with (x_asg (xh a)) in La.
      destruct (@g_iter_h N g ws data Hws a b (scheds (j + 2)) (j =? 0) La Lpd Lcd (Hsch _) H) as (H1 & H2 & H3 & H4 & H5).
      assert (FPs : forall A A' i v, length A = n -> length A' = n -> (forall r, r < n -> (nth r A 0 =? i) = (nth r A' 0 =? i)) -> FPt A i v -> FPt A' i v) by (intros; exact Logic.I).
      pose proof (@iter_rinv N g ws data V Hws FPt FPs 0 (with_curr (xh a) c) (scheds (j + 2)) R (Hsch _)) as HI.
      rewrite h_iter_curr, H1 in HI. cbn [okab] in HI. destruct HI as (R3 & Rd3 & St3 & _).
      splits; auto; try congruence. eexists; exact R3. }
  destruct Q as ((c & R2) & Q1 & Lpd & Lcd & E4 & E5). destruct (Q1 Hit) as (Rd2 & St2).
  assert (Hsh : forall p h, hget (x_hcl (xh s2)) p = Some h -> shaped 2 d (h_cl h)) by apply Rd2.
  destruct (@g_split_ok N g ws data V Hws s2 s3 (scheds 1) Lcd Hsh (Hsch 1) E3) as (F1 & F2 & F3 & F4 & F5 & F6 & _).
  assert (Gi : ginv (xh s3)) by (rewrite F1; exists c; exact R2).
  constructor; auto.
  - rewrite F1. exact Rd2.
  - rewrite F1. exact St2.
  - congruence.
  - rewrite F2, E4. exact Hcl.
  - rewrite F3, E5. exact Hloc.
  - intros p h r. rewrite F1. intros Hh Hr Hp. assert (Hh' : hget (x_hcl (xh s2)) (nth r (x_part (xh s2)) 0) = Some h) by (rewrite Hp; exact Hh).
    destruct (St2 r h Hr Hh') as (j & Hj & Ej).
    destruct (e_live (r_e R2) (p := nth r (x_part (xh s2)) 0) Hh') as (_ & _ & _ & Hk). destruct (Hk j Hj) as (_ & Ha & _).
    change (x_act (with_curr (xh s2) c)) with (x_act (xh s2)) in Ha. rewrite <- Ej in Ha.
    destruct (F6 r Hr Ha) as (h' & E6 & E7). rewrite Hh' in E6. injection E6 as <-. exact E7.
Qed.

(** a round *)
Lemma g_round_ok (scheds : nat -> list nat) s rr s' more : gpre s -> (forall j, complete (w_ranges ws) (scheds j)) ->
  g_round nlog phi trunc g strictness ws data scheds s = Ok (rr, (s', more)) ->
  gmid (rr_mid rr) /\ g_decision nlog phi trunc g strictness (rr_mid rr) = Ok (rr_end rr) /\ gpre s' /\
  (more = false -> ready g ws data M (xh s') /\ settled g (xh s')).
Proof.
  intros P Hsch E. unfold g_round in E. apply bind_ok in E as (s1 & E1 & E). apply bind_ok in E as (s2 & E2 & E).
  apply bind_ok in E as (s3 & E3 & E). apply bind_ok in E as (s4 & E4 & E).
  pose proof (@g_half scheds s s1 s2 s3 P Hsch E1 E2 E3) as Q.
  assert (FPs : forall A A' i v, length A = n -> length A' = n -> (forall r, r < n -> (nth r A 0 =? i) = (nth r A' 0 =? i)) -> FPt A i v -> FPt A' i v) by (intros; exact Logic.I).
  destruct (@g_decision_ok N nlog phi trunc g ws data Hws M FPt FPs strictness s3 s4 (gm_inv Q) (gm_ready Q) (gm_set Q) (gm_cd Q) (gm_cl Q)) as
    (h' & Eh & G' & Rd' & St' & _); auto.
  { intros. exact Logic.I. }
  assert (P4 : gpre s4).
  { rewrite Eh. destruct Q. constructor; auto. }
  destruct (at_cluster_cap g (xh s4)).
  { injection E as <- <- <-. cbn [rr_mid rr_end]. splits; auto. intros _. rewrite Eh. split; assumption. }
  apply bind_ok in E as (h5 & E5 & E).
  destruct (floor_facts Hk2 Hk30) as (F2 & Fk & F29 & Fcap). fold F in F2, Fk, F29, Fcap.
  assert (H31 : (Z.of_nat M <= 2 ^ 31)%Z) by (unfold M; lia).
  assert (FPu : forall asg i v, length v = d -> v = fst (fst (ucel g ws data asg i)) -> FPt asg i v) by (intros; exact Logic.I).
  assert (X4 : xh s4 = h') by (rewrite Eh; reflexivity). rewrite X4 in E5.
  pose proof (@g_init_splits_ok N g ws data V M H31 Hmin FPt FPu h' G' Rd' St') as HS. rewrite E5 in HS. cbn [oke] in HS.
  destruct HS as (G5 & A5 & B5 & C5 & _).
  assert (P5 : gpre (with_h s4 h5)) by (destruct P4; constructor; auto).
  destruct (hm_keyless (x_hcl h5)) eqn:Ek.
  - apply bind_ok in E as (_ & _ & E). injection E as <- <- <-. cbn [rr_mid rr_end]. splits; auto. intros _.
    destruct G5 as (c & R5). change (x_hcl h5) with (x_hcl (with_curr h5 c)) in Ek.
    apply (@keyless_ready N g ws data 0 FPt _ R5); auto. cbn [with_curr x_counts x_asg]. rewrite C5, A5. apply Rd'.
  - injection E as <- <- <-. cbn [rr_mid rr_end]. splits; auto. discriminate.
Qed.

(** the states at the start of round [i] *)
Inductive g_reaches (scheds : nat -> nat -> list nat) (s0 : xst N) : nat -> xst N -> Prop :=
| reach_start : g_reaches scheds s0 0 s0
| reach_next i s rr s' : g_reaches scheds s0 i s ->
    g_round nlog phi trunc g strictness ws data (scheds i) s = Ok (rr, (s', true)) -> g_reaches scheds s0 (S i) s'.

Lemma reaches_ok scheds s0 : gpre s0 -> (forall i j, complete (w_ranges ws) (scheds i j)) -> forall i s, g_reaches scheds s0 i s -> gpre s.
Proof.
  intros P Hs i s H. induction H as [|i s rr s' H IH E]; auto. apply (@g_round_ok (scheds i) s rr s' true IH (Hs i) E).
Qed.

Lemma g_loop_ok scheds s0 : gpre s0 -> (forall i j, complete (w_ranges ws) (scheds i j)) ->
  forall fuel round s tr s' tr', g_reaches scheds s0 round s ->
  (forall rr, In rr tr -> exists i s s'' more, g_reaches scheds s0 i s /\ g_round nlog phi trunc g strictness ws data (scheds i) s = Ok (rr, (s'', more))) ->
  g_loop nlog phi trunc g strictness ws data scheds fuel round s tr = Ok (s', tr') ->
  (forall rr, In rr tr' -> exists i s s'' more, g_reaches scheds s0 i s /\ g_round nlog phi trunc g strictness ws data (scheds i) s = Ok (rr, (s'', more))) /\
  gpre s' /\ ready g ws data M (xh s') /\ settled g (xh s').
Proof.
  intros P0 Hs. induction fuel as [|fuel IH]; intros round s tr s' tr' Hr Htr E; cbn [g_loop] in E; [discriminate|].
  apply bind_ok in E as ((rr & (s1 & more)) & E1 & E).
  assert (Htr1 : forall rr', In rr' (tr ++ [rr]) -> exists i s s'' more, g_reaches scheds s0 i s /\ g_round nlog phi trunc g strictness ws data (scheds i) s = Ok (rr', (s'', more))).
  { intros rr' Hin. apply in_app_iff in Hin as [Hin|[<-|[]]]; [apply Htr; exact Hin|]. exists round, s, s1, more. auto. }
  destruct more.
  - apply (IH (S round) s1 (tr ++ [rr])); auto. econstructor; eauto.
  - injection E as <- <-. split; [exact Htr1|]. pose proof (reaches_ok P0 Hs Hr) as P.
    destruct (@g_round_ok (scheds round) s rr s1 false P (Hs round) E1) as (_ & _ & P1 & Hf). destruct (Hf eq_refl). auto.
Qed.
End Run.

Section Start.
Variable N : Num.
Notation T := (car N).
Variables (g : hcfg N) (data : list T).

Lemma g_start_ok centers it dr : h_valid g data it centers dr ->
  exists s0 ws, g_start g centers it data dr = Ok (s0, ws) /\ build_workers g data = Ok ws /\ wok (g_nrow g) (g_ncol g) data ws /\ gpre g ws data s0.
Proof.
  intros (V & K2 & K30 & Hm & Hi & Hini). pose proof V as (V1 & V2 & V3 & V4).
  destruct (@build_workers_ok N g data V1 V2 V3 V4) as (ws & Ew & Hws & Lws & _).
  destruct (@create_init_ok N g data V K2 K30 it centers dr Hini) as (s0 & s1 & c & E0 & E1 & Sh & _ & Es).
  set (F := hclust_floor (g_k g)) in *. set (K := 2 * F - 1).
  pose proof (@start_ok N g ws data K2 K30 (@FPt N) c Sh) as R. cbn zeta in R. fold F in R. rewrite <- Es in R.
  pose proof (max_hnodes_half K2 K30) as Hmx. fold F in Hmx. fold K in Hmx.
  set (C := clusters_create N K (g_ncol g)).
  set (nthr := Z.to_nat (eff_threads (g_nthreads g) (Z.of_nat (g_nrow g)))) in *.
  set (X0 := mkX s0 (repeat (nzero N) (g_nrow g)) (repeat (nzero N) (g_nrow g)) (clear C) (repeat C nthr)).
  assert (Ex : x_create g centers nthr = Ok X0).
  { unfold x_create. rewrite E0. cbn [Base.bind]. unfold h_k. fold F. rewrite Hmx. cbn [Base.bind]. rewrite Nat2Z.id. reflexivity. }
  exists (with_h X0 s1), ws. unfold g_start. fold nthr. rewrite Ex. cbn [Base.bind]. rewrite Ew. cbn [Base.bind].
  change (xh X0) with s0. rewrite E1. cbn [Base.bind]. splits; auto.
  assert (Ecl : clear C = C) by (apply clear_create, shaped_create).
  constructor; cbn [with_h X0 xh x_pd x_cd x_cl x_loc]; rewrite ?Ecl; try apply repeat_length.
  - apply (@rinv_ginv N g ws data _ (@FPt N) 0 s1 (x_curr s1)).
    match goal with |- rinv _ _ _ _ _ _ ?t => replace t with s1 by (destruct s1; reflexivity) end. exact R.
  - exists K. apply shaped_create.
  - apply Forall_forall. intros x Hx. apply repeat_spec in Hx. subst x. exists K. apply shaped_create.
Qed.
End Start.
