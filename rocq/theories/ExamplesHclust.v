(** Concrete hierarchical runs (IEEE double arithmetic): the hypotheses of C53, C54,
    C72-C75 are met, and C72, C74 are false of the program without their premises. *)
From Coq Require Import Reals Permutation Floats.SpecFloat.
From Verif Require Import Base Num DistModel ClustersModel ClustersView ClustersProofs MatLemmas
  PartitionModel ParModel KmeansModel ParProofs NearProofs KmeansProofs UpdateProofs RunProofs InitProofs Spec.
From Verif Require Import VecLemmas KmeansR.
From Verif Require Import ContainersModel PropertiesIds HclustModel HclustProofs HclustUpdate HclustIter HclustSplit HclustRun HclustDone HclustVerify PropertiesHclust.
Set Implicit Arguments.

Definition hf (l : list Z) : list F64 := map fofZ l.
(** [n] rows of one column, [k] clusters asked for, at least [m] rows to split *)
Definition hc (n k m iters : nat) : hcfg NumF := mkHc (mkCfg NumF n 1 k iters 1 (fofZ (-1)) EUCL UserBuffer) m.
Definition hsch (n : nat) (_ _ : nat) : list nat := repeat 0 n.
Definition dr01 (i : nat) : nat := i.

Lemma hc_fair n k m iters data ws : build_workers (hc n k m iters) data = Ok ws -> w_ranges ws = [(0, n)] ->
  h_fair (hc n k m iters) data (hsch n).
Proof.
  intros E R ws' E' i j. rewrite E in E'. injection E' as <-. rewrite R. intros [|[|t]] s x H; try discriminate.
  injection H as <- <-. unfold hsch. assert (G : forall m, count_eq 0 (repeat 0 m) = m) by (induction m0; cbn; auto). rewrite G. lia.
Qed.

Definition hobs (s : hst NumF) := (x_asg s, map fst (x_final s), x_counts s).
Definition d4 := hf [0; 1; 10; 11]%Z.
Definition d8 := hf [0; 1; 10; 11; 100; 101; 110; 111]%Z.

Definition d4s := hf [5; 5; 5; 5]%Z.

Definition herr (r : res (hst NumF)) : option err := match r with Ok _ => None | Err e => Some e end.
Lemma herr_ex r e : herr r = Some e -> r = Err e.
Proof. destruct r; cbn; congruence. Qed.

Lemma hc_valid n k m iters data dr : 1 <= n -> (Z.of_nat n < 2 ^ 32)%Z -> length data = n -> 2 <= k -> (Z.of_nat k < 2 ^ 30)%Z ->
  2 <= m -> 1 <= iters -> dr 0 < n -> dr 1 < n -> h_valid (hc n k m iters) data FORGY None dr.
Proof.
  intros H1 H2 H3 H4 H5 H6 H7 H8 H9. unfold h_valid, valid_input, h_init_ok.
  cbn [g_nrow g_ncol g_k g_max_iters g_nthreads hg hc h_min]. splits; auto; try lia.
Qed.

(** the premises of the theorems of PropertiesHclust hold of this run, which makes
    three splits and returns four clusters of two rows *)
Theorem hclust_nonvacuous :
  let g := hc 8 4 2 20 in
  h_valid g d8 FORGY None dr01 /\ h_fair g d8 (hsch 8) /\
  exists s, h_run g false None FORGY d8 dr01 (hsch 8) 10 = Ok s /\
  x_asg s = [3; 3; 4; 4; 5; 5; 6; 6] /\ map fst (x_final s) = [3; 4; 5; 6].
Proof.
  cbv zeta. assert (W : okmap (@w_ranges NumF) (build_workers (hc 8 4 2 20) d8) = Some [(0, 8)]) by (vm_compute; reflexivity).
  assert (H : okmap hobs (h_run (hc 8 4 2 20) false None FORGY d8 dr01 (hsch 8) 10)
     = Some ([3; 3; 4; 4; 5; 5; 6; 6], [3; 4; 5; 6], [0; 0; 0; 2; 2; 2; 2; 0; 0; 0; 0; 0; 0; 0; 0]%Z)) by (vm_compute; reflexivity).
  apply okmap_ex in W as (ws & Ew & Rw). apply okmap_ex in H as (s & E & H). unfold hobs in H. injection H as H1 H2 _.
  splits; [|exact (@hc_fair 8 4 2 20 d8 ws Ew Rw)|exists s; auto].
  apply hc_valid; unfold dr01; try lia. reflexivity.
Qed.

(** C72 is false: four equal rows, FORGY drawing rows 0 and 1, [k = 2]: the check
    aborts the program; the BIND build returns three clusters, two of them empty *)
Theorem C72_refuted :
  let g := hc 4 2 2 20 in
  h_valid g d4s FORGY None dr01 /\ h_fair g d4s (hsch 4) /\
  h_run g false None FORGY d4s dr01 (hsch 4) 10 = Err Abort /\
  exists s, h_run g true None FORGY d4s dr01 (hsch 4) 10 = Ok s /\
  x_asg s = [3; 3; 3; 3] /\ map fst (x_final s) = [2; 3; 4].
Proof.
  cbv zeta. assert (W : okmap (@w_ranges NumF) (build_workers (hc 4 2 2 20) d4s) = Some [(0, 4)]) by (vm_compute; reflexivity).
  assert (A : herr (h_run (hc 4 2 2 20) false None FORGY d4s dr01 (hsch 4) 10) = Some Abort)
    by (vm_compute; reflexivity).
  assert (H : okmap hobs (h_run (hc 4 2 2 20) true None FORGY d4s dr01 (hsch 4) 10)
     = Some ([3; 3; 3; 3], [2; 3; 4], [0; 0; 0; 4; 0; 0; 0]%Z)) by (vm_compute; reflexivity).
  apply okmap_ex in W as (ws & Ew & Rw). apply okmap_ex in H as (s & E & H). unfold hobs in H. injection H as H1 H2 _.
  splits; [|exact (@hc_fair 4 2 2 20 d4s ws Ew Rw)| |exists s; auto].
  - apply hc_valid; unfold dr01; try lia. reflexivity.
  - exact (@herr_ex _ _ A).
Qed.

(** C74 is false: two clusters asked for, four returned, all of them non-empty *)
Theorem C74_refuted :
  let g := hc 4 2 2 20 in
  h_valid g d4 FORGY None dr01 /\ h_fair g d4 (hsch 4) /\ g_k g = 2 /\
  exists s, h_run g false None FORGY d4 dr01 (hsch 4) 10 = Ok s /\
  x_asg s = [3; 4; 5; 6] /\ map fst (x_final s) = [3; 4; 5; 6].
Proof.
  cbv zeta. assert (W : okmap (@w_ranges NumF) (build_workers (hc 4 2 2 20) d4) = Some [(0, 4)]) by (vm_compute; reflexivity).
  assert (H : okmap hobs (h_run (hc 4 2 2 20) false None FORGY d4 dr01 (hsch 4) 10)
     = Some ([3; 4; 5; 6], [3; 4; 5; 6], [0; 0; 0; 1; 1; 1; 1]%Z)) by (vm_compute; reflexivity).
  apply okmap_ex in W as (ws & Ew & Rw). apply okmap_ex in H as (s & E & H). unfold hobs in H. injection H as H1 H2 _.
  splits; [|exact (@hc_fair 4 2 2 20 d4 ws Ew Rw)|reflexivity|exists s; auto].
  apply hc_valid; unfold dr01; try lia. reflexivity.
Qed.

(** why [h_valid] asks for a minimum of two rows, for [k >= 2] and for an iteration:
    with a minimum of one row a run reads outside the cluster table; [k = 1] aborts;
    with no iteration the check aborts *)
Theorem hclust_valid_needed :
  herr (h_run (hc 3 4 1 20) false None FORGY (hf [0; 1; 10]%Z) dr01 (hsch 3) 10) = Some UB /\
  herr (h_run (hc 4 1 2 20) false None FORGY d4 dr01 (hsch 4) 10) = Some Abort /\
  herr (h_run (hc 4 2 2 0) false None FORGY d4 dr01 (hsch 4) 10) = Some Abort.
Proof. splits; vm_compute; reflexivity. Qed.
