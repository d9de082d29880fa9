(** Concrete pruned runs: the hypotheses of C31-C37 are met, and C33, C34, C37 are
    false of the program without their extra premises. *)
From Coq Require Import Reals Lra Floats.SpecFloat.
From Verif Require Import Base Num Spec DistModel ClustersModel ClustersView PartitionModel ParModel KmeansModel PruneModel.
From Verif Require Import MatLemmas VecLemmas ClustersProofs DistProofs PartitionProofs ParProofs NearProofs KmeansProofs UpdateProofs RunProofs ParRule DistMatProofs PruneProofs ClusterSums PruneRound PruneUpdate PruneRun PruneRun2.
From Verif Require Import InitProofs SimProofs KmeansR PropertiesKmeansR PropertiesRun KmsppR PropertiesPrune.
Set Implicit Arguments.

(* ------------------------------------------------------------------ *)
(** * IEEE arithmetic: rows that do not end in a nearest cluster *)

(** in the returned result row [r] is strictly closer to centroid [j] than to the
    centroid of its own cluster, under the run's metric *)
Definition misassigned (dt : dist_t) (data : list F64) (out : cluster_t NumF) (r j : nat) : bool :=
  let d := ct_ncol out in
  match nth r (ct_asg out) None with
  | None => false
  | Some a =>
    match dist_comp_raw NumF (data, r * d) (ct_centroids out, j * d) d dt,
          dist_comp_raw NumF (data, r * d) (ct_centroids out, a * d) d dt with
    | Ok dj, Ok da => (j <? ct_k out) && nltb NumF dj da
    | _, _ => false
    end
  end.

Definition pcfg nrow ncol dt : kcfg NumF := mkCfg NumF nrow ncol 2 20 1 (fofZ (-1)) dt UserBuffer.
Definition pdr : draws NumF := mkDraws NumF (fun _ => 0) (fun _ => fofZ 0) (fun _ => []).
Definition pscheds (n : nat) (_ : nat) : list nat := repeat 0 n.

Lemma pcfg_fair nrow ncol dt data ws : build_workers (pcfg nrow ncol dt) data = Ok ws -> w_ranges ws = [(0, nrow)] ->
  fair (pcfg nrow ncol dt) data (pscheds nrow).
Proof.
  intros E R ws' E' i. rewrite E in E'. injection E' as <-. rewrite R. intros [|[|t]] s n H; try discriminate.
  injection H as <- <-. unfold pscheds. assert (G : forall m, count_eq 0 (repeat 0 m) = m) by (induction m; cbn; auto). rewrite G. lia.
Qed.

(** a converged run on valid arguments that ends with a misassigned row *)
Definition bad_run (dt : dist_t) : Prop :=
  exists nrow ncol centers data rr r j,
    let g := pcfg nrow ncol dt in
    valid_args g data (Some centers) NONE pdr /\ fair g data (pscheds nrow) /\
    prune_run g (Some centers) NONE data pdr (pscheds nrow) = Ok rr /\ pr_converged rr = true /\
    r < nrow /\ misassigned dt data (pr_out rr) r j = true.

Lemma bad_run_intro dt nrow ncol centers data r j :
  1 <= nrow -> (Z.of_nat nrow < 2 ^ 32)%Z -> length data = nrow * ncol -> 2 * ncol <= length centers ->
  okmap (@w_ranges NumF) (build_workers (pcfg nrow ncol dt) data) = Some [(0, nrow)] ->
  okmap (fun rr : prun_result NumF => (pr_converged rr, misassigned dt data (pr_out rr) r j))
    (prune_run (pcfg nrow ncol dt) (Some centers) NONE data pdr (pscheds nrow)) = Some (true, true) ->
  r < nrow -> bad_run dt.
Proof.
  intros H1 H2 H3 H4 H5 H6 H7. apply okmap_ex in H5 as (ws & Ew & Rw). apply okmap_ex in H6 as (rr & E & H6). injection H6 as C M.
  exists nrow, ncol, centers, data, rr, r, j. cbv zeta. splits; auto.
  - unfold valid_args, valid_input. cbn. splits; auto; lia.
  - exact (@pcfg_fair nrow ncol dt data ws Ew Rw).
Qed.

Definition fl (l : list Z) : list F64 := map fofZ l.
Definition f8 (l : list Z) : list F64 := map (fun z => ndiv NumF (fofZ z) (fofZ 8)) l.

(** C33 without its drift premise is false, with the Euclidean metric: rows 10, -10, 16,
    centres 10, 21 end with row 10 in the cluster of centroid 0, not 16 *)
Theorem C33_refuted : bad_run EUCL.
Proof.
  apply (@bad_run_intro EUCL 3 1 (fl [10; 21]%Z) (fl [10; -10; 16]%Z) 0 1); try (cbn; lia); vm_compute; reflexivity.
Qed.
Print Assumptions C33_refuted.

(** C34: every metric but the Euclidean one; here every initial centroid is a data
    row and moves by less than its new norm, so the premise of C33 holds *)
Theorem C34_taxi_refuted : bad_run TAXI.
Proof.
  apply (@bad_run_intro TAXI 3 2 (fl [-2; 3; -2; 5]%Z) (fl [0; 0; -2; 3; -2; 5]%Z) 1 1); try (cbn; lia); vm_compute; reflexivity.
Qed.
Theorem C34_cos_refuted : bad_run COS.
Proof.
  apply (@bad_run_intro COS 3 2 (fl [5; 2; 4; 2]%Z) (fl [4; 2; 4; 4; 5; 2]%Z) 0 0); try (cbn; lia); vm_compute; reflexivity.
Qed.
Theorem C34_sqeucl_refuted : bad_run SQEUCL.
Proof.
  apply (@bad_run_intro SQEUCL 3 1 (f8 [3; -1]%Z) (f8 [3; -1; -11]%Z) 1 0); try (cbn; lia); vm_compute; reflexivity.
Qed.
Print Assumptions C34_taxi_refuted.

(** C37: the same arguments with k = 1 abort with pruning and succeed without *)
Theorem C37_unpruned_accepts : exists rr,
  run (mkCfg NumF 3 1 1 20 1 (fofZ (-1)) EUCL UserBuffer) None FORGY (fl [10; -10; 16]%Z) pdr (pscheds 3) = Ok rr.
Proof.
  destruct (@okmap_ex _ _ (fun rr : run_result NumF => rr_converged rr) (run (mkCfg NumF 3 1 1 20 1 (fofZ (-1)) EUCL UserBuffer) None FORGY (fl [10; -10; 16]%Z) pdr (pscheds 3)) true) as (rr & E & _).
  - vm_compute. reflexivity.
  - eauto.
Qed.

(* ------------------------------------------------------------------ *)
(** * Exact arithmetic: a run meeting every premise of C32, C33 and C36 *)
Section ExR.
Local Open Scope R_scope.
Variables (a b : R).
Hypothesis Ha : 0 < a.
Hypothesis Hab : a < b.
Hypothesis Hb : b < 1000.

Definition rg : kcfg NumR := mkCfg NumR 2 1 2 3 1 (-1) EUCL UserBuffer.
Definition rdata : list R := [a; b].
Definition rdr : draws NumR := mkDraws NumR (fun _ => 0%nat) (fun _ => 0) (fun _ => []).
Definition rsch (_ : nat) : list nat := [0; 0]%nat.

Lemma ed1 x y : edist [x] [y] = Rabs (x - y).
Proof. unfold edist, sqdist. cbn [map2 rsum]. rewrite Rplus_0_r. apply sqrt_Rsqr_abs. Qed.

Lemma rex_args : prune_args rg rdata (Some rdata) NONE rdr rsch.
Proof.
  unfold prune_args, valid_args, valid_input, real_draws. cbn [g_k g_nrow g_ncol g_nthreads rg]. splits; try (cbn; lia); try discriminate.
  - intros ws E i. destruct (@build_workers_ok NumR rg rdata) as (ws' & E' & (Ht & _) & Lw & _); try (cbn; lia); try reflexivity.
    rewrite E in E'. injection E' as <-. change (length ws = 1%nat) in Lw. destruct ws as [|w [|w2 ws]]; try discriminate.
    cbn [w_ranges map ntiles g_nrow rg] in Ht. intros [|[|t]] s n H; try discriminate. cbn in H. injection H as <- <-. cbn. cbn in Ht. lia.
Qed.

Lemma rex_init ws s s0 : build_workers rg rdata = Ok ws -> prune_create_coord rg (Some rdata) NONE = Ok s -> prune_run_init rg NONE ws rdata rdr s = Ok s0 ->
  pcentroid 1 s0 0 = [a] /\ pcentroid 1 s0 1 = [b].
Proof.
  intros Ew Ec Ei. pose proof rex_args as (Hk & A & Hrd & Hf). pose proof A as (V & _ & Hco & _).
  destruct (@create_pre rg rdata Hk (Some rdata) NONE Hco) as (s' & ks & E0 & Ek & A1 & _). rewrite Ec in E0. injection E0 as <-.
  destruct (@create_ok NumR rg (Some rdata) NONE ltac:(cbn; lia) Hco) as (ks' & Ek' & Hc & _). rewrite Ek in Ek'. injection Ek' as <-.
  unfold prune_run_init in Ei. cbn [run_init bind] in Ei. injection Ei as <-.
  unfold pcentroid. cbn [ps_cltrs with_cl p_cl s_cltrs]. rewrite A1, Hc. cbn [c_means]. split; reflexivity.
Qed.

Lemma lt_max x : x < 1000 -> x < IZR dbl_max_Z.
Proof. intros H. apply Rlt_trans with 1000; [exact H|]. apply IZR_lt. vm_compute. reflexivity. Qed.

Lemma rex_finite s : pcentroid 1 s 0 = [a] -> pcentroid 1 s 1 = [b] -> finite_init rg rdata s.
Proof.
  intros E0 E1 r j Hr Hj. cbn [g_nrow g_k g_ncol g_dt rg rdist] in *.
  assert (Hx : row rdata 1 r = [a] \/ row rdata 1 r = [b]) by (destruct r as [|[|r]]; [left|right|lia]; reflexivity).
  assert (Hy : pcentroid 1 s j = [a] \/ pcentroid 1 s j = [b]) by (destruct j as [|[|j]]; [left|right|lia]; auto).
  apply lt_max.
  assert (G : forall x y : R, (x = a \/ x = b) -> (y = a \/ y = b) -> Rabs (x - y) < 1000).
  { intros x y [-> | ->] [-> | ->]; apply Rabs_def1; lra. }
  destruct Hx as [Ex|Ex], Hy as [Ey|Ey]; unfold car in *; cbn [NumR] in *; rewrite Ex, Ey, ed1; apply G; auto.
Qed.

Theorem C33_premises_met : exists rr, prune_args rg rdata (Some rdata) NONE rdr rsch /\
  prune_run rg (Some rdata) NONE rdata rdr rsch = Ok rr /\ finite_init rg rdata (pr_init rr) /\
  (1 <= length (pr_trace rr))%nat /\
  (forall s1 j, nth_error (pr_trace rr) 0 = Some s1 -> (j < 2)%nat ->
     edist (pcentroid 1 (pr_init rr) j) (pcentroid 1 s1 j) <= edist (pcentroid 1 s1 j) (vzero 1)).
Proof.
  pose proof rex_args as PA. pose proof PA as (Hk & A & Hrd & Hf).
  destruct (@C37_prune_accepts_k_partial rg (Some rdata) NONE rdata rdr rsch PA) as (rr & E).
  { cbn; lia. }
  { intros ws s s0 H1 H2 H3. destruct (rex_init H1 H2 H3). apply rex_finite; assumption. }
  exists rr.
  assert (Hi : pcentroid 1 (pr_init rr) 0 = [a] /\ pcentroid 1 (pr_init rr) 1 = [b]).
  { unfold prune_run in E. apply bind_ok in E as (s & E1 & E). apply bind_ok in E as (ws & E2 & E). apply bind_ok in E as (s0 & E3 & E).
    replace (pr_init rr) with s0; [eapply rex_init; eauto|].
    apply bind_ok in E as (s1 & _ & E). apply bind_ok in E as ([[[it' cv] s'] tr] & _ & E). injection E as <-. reflexivity. }
  destruct Hi as (I0 & I1).
  assert (Hfin : finite_init rg rdata (pr_init rr)) by (apply rex_finite; assumption).
  destruct (@C36_result rg (Some rdata) NONE rdata rdr rsch rr PA E Hfin ltac:(cbn; lia)) as (f & Ef & Lt & _).
  splits; auto; [apply Lt|].
  intros s1 j E1 Hj.
  assert (Hit : piteration rr 0 (pr_init rr) s1) by (split; [reflexivity|exact E1]).
  pose proof (@C33_first_pass_nearest rg (Some rdata) NONE rdata rdr rsch rr PA E Hfin (pr_init rr) s1 Hit) as Hn.
  assert (Hr : forall r, (r < 2)%nat -> passigned s1 r = Some r).
  { intros r Hr. destruct (Hn r Hr) as (c & Ec & Hc & Hle). specialize (Hle r Hr). cbn [g_ncol g_dt rg rdist g_k] in *.
    assert (R0 : row rdata 1 0 = [a]) by reflexivity. assert (R1 : row rdata 1 1 = [b]) by reflexivity.
    destruct r as [|[|r]]; try lia; destruct c as [|[|c]]; try lia; auto; exfalso.
    - rewrite I0, I1, R0, !ed1 in Hle. unfold Rabs in Hle. destruct (Rcase_abs (a - b)), (Rcase_abs (a - a)); lra.
    - rewrite I0, I1, R1, !ed1 in Hle. unfold Rabs in Hle. destruct (Rcase_abs (b - b)), (Rcase_abs (b - a)); lra. }
  assert (Hin : In s1 (pr_trace rr)) by (eapply nth_error_In; eauto).
  pose proof (@C36_incremental_means rg (Some rdata) NONE rdata rdr rsch rr PA E Hfin s1 Hin) as Hm.
  cbn [g_k g_ncol g_nrow rg] in Hm. unfold members in Hm. cbn [seq filter] in Hm.
  pose proof (Hr 0%nat ltac:(lia)) as N0. pose proof (Hr 1%nat ltac:(lia)) as N1. unfold passigned in N0, N1.
  assert (M0 : pcentroid 1 s1 0 = [a]).
  { destruct (Hm 0%nat ltac:(lia)) as (Hc & _). etransitivity; [exact Hc|]. cbn [nth] in *. rewrite N0, N1. cbn [Nat.eqb map].
    change (row rdata 1 0) with [a]. unfold vmean, vsum. cbn. f_equal. field. }
  assert (M1 : pcentroid 1 s1 1 = [b]).
  { destruct (Hm 1%nat ltac:(lia)) as (Hc & _). etransitivity; [exact Hc|]. cbn [nth] in *. rewrite N0, N1. cbn [Nat.eqb map].
    change (row rdata 1 1) with [b]. unfold vmean, vsum. cbn. f_equal. field. }
  destruct j as [|[|j]]; try lia.
  - rewrite I0, M0, edist_refl. apply edist_pos.
  - rewrite I1, M1, edist_refl. apply edist_pos.
Qed.
End ExR.
