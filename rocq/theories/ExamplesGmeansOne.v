(** G-means runs of one round: a concrete one in IEEE double arithmetic, and one over the
    reals, for which the theorems over the reals (C101, C103, C132) speak of a run that
    exists. *)
From Coq Require Import Permutation Reals Lra.
From Verif Require Import Base Num DistModel DistProofs ClustersModel ClustersView MatLemmas PartitionModel ParModel KmeansModel ParProofs NearProofs RunProofs Spec MatrixModel PropertiesMatrix.
From Verif Require Import ContainersModel HclustModel HclustProofs HclustUpdate HclustIter HclustSplit HclustRun HclustDone HclustVerify XmeansModel XmeansRound XmeansRun PropertiesXmeans
  GmeansModel GmeansRun PropertiesGmeans PropertiesGmeansR GmeansOne ExamplesHclust ExamplesXmeans ExamplesGmeans PropertiesProjection PropertiesThreads.
Set Implicit Arguments.

(** the first deciding state, computed *)
Definition first_state (N : Num) (g : hcfg N) centers it data dr (scheds : nat -> nat -> list nat) : res (xst N) :=
  let* sw := g_start g centers it data dr in
  let* s1 := x_mean g (snd sw) (scheds 0 0) (fst sw) in
  let* s2 := loop (g_max_iters g) (fun j s => x_iter g (snd sw) (scheds 0 (j + 2)) (j =? 0) s) s1 in
  g_split g (snd sw) (scheds 0 1) s2.
Lemma first_state_eq (N : Num) (g : hcfg N) centers it data dr scheds s3 : gmeans_first g centers it data dr scheds s3 ->
  first_state g centers it data dr scheds = Ok s3.
Proof.
  intros (s0 & ws & s1 & s2 & E0 & E1 & E2 & E3). unfold first_state. rewrite E0. cbn [Base.bind fst snd]. rewrite E1. cbn [Base.bind]. rewrite E2. exact E3.
Qed.

Lemma scale_true (r : res (list F64)) : Some (match r with Ok _ => true | Err _ => false end) = Some true -> exists v, r = Ok v.
Proof. destruct r as [v|]; [exists v; reflexivity|discriminate]. Qed.

(** ** doubles: 36 rows, clusters of fewer than 37 rows are not split again *)
Example C102_one_round_example : h_valid (hc 36 8 37 10) dg36 FORGY None (fun i => i * 20) /\ h_fair (hc 36 8 37 10) dg36 (hsch 36) /\ 36 < 37 /\
  (forall s3, gmeans_first (hc 36 8 37 10) None FORGY dg36 (fun i => i * 20) (hsch 36) s3 -> exists v, @scale NumF ftrunc (x_cd s3) = Ok v) /\
  exists s rr, grun (hc 36 8 37 10) 0 true dg36 (fun i => i * 20) 36 10 = Ok (s, [rr]) /\ length (x_final s) = 2.
Proof.
  assert (W : okmap (@w_ranges NumF) (build_workers (hc 36 8 37 10) dg36) = Some [(0, 36)]) by (vm_compute; reflexivity).
  assert (H : okmap (fun s3 => match @scale NumF ftrunc (x_cd s3) with Ok _ => true | Err _ => false end)
     (first_state (hc 36 8 37 10) None FORGY dg36 (fun i => i * 20) (hsch 36)) = Some true) by (vm_compute; reflexivity).
  assert (R : okmap (fun q : hst NumF * list (rrec NumF) => (length (snd q), length (x_final (fst q)))) (grun (hc 36 8 37 10) 0 true dg36 (fun i => i * 20) 36 10) = Some (1, 2))
    by (vm_compute; reflexivity).
  apply okmap_ex in W as (ws & Ew & Rw). splits.
  - apply hc_valid; try lia; reflexivity.
  - exact (@hc_fair 36 8 37 10 dg36 ws Ew Rw).
  - lia.
  - intros s3 X. apply first_state_eq in X. rewrite X in H. cbn [okmap] in H. exact (scale_true _ H).
  - apply okmap_ex in R as ((s & tr) & E & R). cbn [fst snd] in R. injection R as R1 R2. destruct tr as [|rr [|rr' tr]]; try discriminate R1. exists s, rr. split; [exact E|exact R2].
Qed.

(** ** reals: the six rows of C125's example (cosine distance), no cluster split again *)
Local Open Scope R_scope.
Definition tgo (nt : Z) : hcfg NumR := mkHc (mkCfg NumR 6 2 4 10 nt (-1) COS UserBuffer) 7.
Definition tdr (i : nat) : nat := (i mod 6)%nat.

Lemma tgo_fair nt : (1 <= nt <= 3)%Z -> h_fair (tgo nt) tdata tall.
Proof. intros Hnt ws Ew. apply (@tall_fair nt Hnt ws). exact Ew. Qed.
Lemma tgo_valid nt : (1 <= nt <= 3)%Z -> h_valid (tgo nt) tdata FORGY None tdr.
Proof.
  intros Hnt. unfold h_valid, valid_input, h_init_ok, tgo, tdata, tdr. cbn [hg h_min g_nrow g_ncol g_nthreads g_k g_max_iters length]. splits; auto; try lia; cbn; lia.
Qed.

Lemma scale_const (v : list (car NumR)) : (1 <= length v)%nat ->
  exists c : Z, exists v', @scale NumR (fun _ => c) v = Ok v'.
Proof.
  intros L.
  assert (A : forall c, int_ok c = true -> @accumulate_int NumR (fun _ => c) v = Ok c).
  { intros c Hc. assert (G : forall (f : car NumR -> Z -> res Z), (forall x a, f x a = Ok c) -> forall l a, l <> [] -> for_each l f a = Ok c).
    { intros f Hf. induction l as [|x l IH]; intros a Hl; [congruence|]. cbn [for_each]. rewrite Hf. cbn [Base.bind].
      destruct l as [|y l]; [reflexivity|]. apply IH. discriminate. }
    apply G; [intros x a; cbv zeta; rewrite Hc; reflexivity|]. destruct v; [cbn in L; lia|discriminate]. }
  destruct (@scale_from (fun _ => 0%Z) v 0%Z L (A 0%Z eq_refl)) as (_ & S0). destruct (@scale_from (fun _ => 1%Z) v 1%Z L (A 1%Z eq_refl)) as (_ & S1).
  set (n := INR (length v)) in *. assert (Pn : 0 < n) by (unfold n; apply lt_0_INR; lia).
  destruct (Req_dec (rsum (map (fun x => (x - IZR 0 / n) * (x - IZR 0 / n)) v)) 0) as [Z0|Z0]; [|destruct (S0 Z0) as (v' & E & _); eauto].
  destruct (Req_dec (rsum (map (fun x => (x - IZR 1 / n) * (x - IZR 1 / n)) v)) 0) as [Z1|Z1]; [|destruct (S1 Z1) as (v' & E & _); eauto].
  exfalso. assert (G : forall m (l : list R), rsum (map (fun x => (x - m) * (x - m)) l) = 0 -> forall x, In x l -> x = m).
  { intros m. assert (P : forall l : list R, 0 <= rsum (map (fun x => (x - m) * (x - m)) l)).
    { induction l as [|y l IH]; cbn [map rsum]; [lra|]. pose proof (Rle_0_sqr (y - m)) as Q. unfold Rsqr in Q. lra. }
    induction l as [|y l IH]; intros H x [].
    - subst y. cbn [map rsum] in H. pose proof (P l) as P1. pose proof (Rle_0_sqr (x - m)) as Q. unfold Rsqr in Q.
      assert (X : Rsqr (x - m) = 0) by (unfold Rsqr; lra). apply Rsqr_eq_0 in X. lra.
    - cbn [map rsum] in H. pose proof (P l) as P1. pose proof (Rle_0_sqr (y - m)) as Q. unfold Rsqr in Q. apply IH; [lra|assumption]. }
  destruct v as [|x v]; [cbn in L; lia|]. pose proof (G _ _ Z0 x (or_introl eq_refl)) as X0. pose proof (G _ _ Z1 x (or_introl eq_refl)) as X1.
  assert (Q : IZR 1 / n = 0) by (rewrite <- X1, X0; unfold Rdiv; lra). assert (0 < IZR 1 / n) by (apply Rdiv_lt_0_compat; lra). lra.
Qed.

(** for every logarithm and distribution function, and every strictness the table has *)
Theorem gmeans_run_exists_R : forall (nlog phi : R -> R) nt strictness, (1 <= nt <= 3)%Z -> (0 <= strictness <= 4)%Z ->
  h_valid (tgo nt) tdata FORGY None tdr /\ h_fair (tgo nt) tdata tall /\
  exists trunc s rr, forall fuel, (1 <= fuel)%nat ->
    @g_run NumR nlog phi trunc (tgo nt) strictness true None FORGY tdata tdr tall fuel = Ok (s, [rr]).
Proof.
  intros nlog phi nt st Hnt Hst. pose proof (tgo_valid Hnt) as Hv. pose proof (tgo_fair Hnt) as Hf. split; [exact Hv|]. split; [exact Hf|].
  assert (T : exists c : Z, forall s3, gmeans_first (tgo nt) None FORGY tdata tdr tall s3 -> exists v, @scale NumR (fun _ => c) (x_cd s3) = Ok v).
  { destruct (first_state (tgo nt) None FORGY tdata tdr tall) as [s3|e] eqn:E.
    - destruct (Nat.eq_dec (length (x_cd s3)) 0) as [L|L].
      + exists 0%Z. intros s X. exfalso. pose proof (first_state_eq X) as Y. assert (Q := eq_trans (eq_sym E) Y). injection Q as <-.
        destruct X as (s0 & ws & s1 & s2 & E0 & E1 & E2 & E3).
        assert (D : @gmeans_deciding NumR nlog phi (fun _ => 0%Z) (tgo nt) st None FORGY tdata tdr tall s3).
        { exists s0, ws, 0%nat, s0, s1, s2. splits; auto. constructor. }
        destruct (@deciding_ok NumR nlog phi (fun _ => 0%Z) (tgo nt) st None FORGY tdata tdr tall s3 Hv Hf D) as (ws' & _ & Qm). pose proof (gm_cd Qm) as L9. rewrite L in L9. cbn in L9. lia.
      + destruct (@scale_const (x_cd s3)) as (c & v & Ev); [lia|]. exists c. intros s X. apply first_state_eq in X. assert (Q := eq_trans (eq_sym E) X). injection Q as <-. eauto.
    - exists 0%Z. intros s X. apply first_state_eq in X. assert (Q := eq_trans (eq_sym E) X). discriminate. }
  destruct T as (c & T). exists (fun _ => c).
  destruct (@C102_one_round_partial NumR nlog phi (fun _ => c) (tgo nt) st None FORGY tdata tdr tall Hv Hf ltac:(cbn; lia) Hst T) as [(s & rr & H)|(U & _)].
  - exists s, rr. exact H.
  - exfalso. exact (@cos_assignable (tgo nt) tdata eq_refl U).
Qed.
Print Assumptions gmeans_run_exists_R.
