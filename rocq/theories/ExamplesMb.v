(** Mini-batch k-means: concrete runs in binary64, the parts of C63, C96 that are
    false of the program, and a run over R meeting the hypotheses of C63, C94-C96. *)
From Coq Require Import Reals Lra Floats.SpecFloat.
From Verif Require Import Base Num Spec DistModel ClustersModel ClustersView PartitionModel ParModel KmeansModel PruneModel MbModel.
From Verif Require Import DistProofs ParProofs KmeansProofs RunProofs InitProofs SimProofs PropertiesRun KmsppR PruneRun2 PropertiesPrune ExamplesKmeans ExamplesPrune PropertiesMb.
Set Implicit Arguments.

(** five rows 0 1 6 10 11 on two threads; [mg m t] allows m iterations with
    tolerance t.  Iteration i samples row i and row i + 2 (batch of 2: fraction 0.4). *)
Definition mg (m : nat) (t : F64) : kcfg NumF := mkCfg NumF 5 1 2 m 2 t EUCL NumaReorg.
Definition mu (i r : nat) : F64 := if (r =? i) || (r =? i + 2) then fofZ 0 else fofZ 1.
Definition mshow (rr : mb_result NumF) :=
  (ct_iters (mb_out rr), mb_converged rr, ct_asg (mb_out rr), ct_counts (mb_out rr), length (mb_trace rr), ct_centroids (mb_out rr)).

Example mb_run_example :
  okmap mshow (mb_run (mg 3 (fofZ (-1))) 2 (Some (fl [0; 10]%Z)) NONE exd exdr mu exs)
  = Some (3, false, [Some 0; Some 0; Some 1; Some 1; Some 1], [2; 3]%Z, 3, [S754_finite false 4503599627370496 (-53); S754_finite false 4816349601493448 (-49)]).
Proof. vm_compute. reflexivity. Qed.

(** C96: the number of iterations performed is the number reported, when the run
    converges: false, it is one more *)
Theorem C96_iterations_refuted : exists (g : kcfg NumF) mb_size centers it data dr u scheds rr,
  valid_args g data centers it dr /\ fair g data scheds /\
  mb_run g mb_size centers it data dr u scheds = Ok rr /\ mb_converged rr = true /\
  ct_iters (mb_out rr) <> length (mb_trace rr).
Proof.
  assert (H : okmap (fun rr : mb_result NumF => (mb_converged rr, ct_iters (mb_out rr), length (mb_trace rr)))
     (mb_run (mg 3 (fofZ 100)) 2 (Some (fl [0; 10]%Z)) NONE exd exdr mu exs) = Some (true, 0, 1)) by (vm_compute; reflexivity).
  apply okmap_ex in H as (rr & E & H). apply pair_equal_spec in H as (H & H3). apply pair_equal_spec in H as (H1 & H2).
  exists (mg 3 (fofZ 100)), 2%Z, (Some (fl [0; 10]%Z)), NONE, exd, exdr, mu, exs, rr.
  split; [|split; [|split; [exact E|split; [exact H1|]]]].
  - unfold valid_args. split; [unfold valid_input; cbn; splits; lia || reflexivity|]. cbn. lia.
  - exact (@ex_fair 3).
  - rewrite H2, H3. discriminate.
Qed.

Lemma map_one {A B} (f : A -> B) l x : map f l = [x] -> exists s, nth_error l 0 = Some s /\ f s = x.
Proof. destruct l as [|s [|t l]]; try discriminate. intros H. injection H as <-. eexists; split; reflexivity. Qed.

(** C63, its claim on the rate: with a random-partition start one row of the
    batch, the first ever sampled in its cluster, should replace the centroid
    (rate 1/1); the program counts unsampled rows and moves it by less *)
Theorem C63_rate_refuted : exists (g : kcfg NumF) mb_size centers it data dr u scheds rr r c s',
  valid_args g data centers it dr /\ fair g data scheds /\
  mb_run g mb_size centers it data dr u scheds = Ok rr /\
  r < g_nrow g /\ nth_error (mb_trace rr) 0 = Some s' /\
  forallb (fun r' => Bool.eqb (nltb NumF (mb_perctg g mb_size) (u 0 r')) (negb (r' =? r))) (seq 0 (g_nrow g)) = true /\
  nth r (asg_of (PruneModel.ps_cells s')) None = Some c /\
  row (c_means (p_cl (ps_cltrs s'))) (g_ncol g) c <> row data (g_ncol g) r.
Proof.
  set (u := fun _ r : nat => if r =? 4 then fofZ 0 else fofZ 1).
  assert (H : okmap (fun rr : mb_result NumF => map (fun s => (nth 4 (asg_of (PruneModel.ps_cells s)) None, row (c_means (p_cl (ps_cltrs s))) 1 0)) (mb_trace rr))
     (mb_run (mg 1 (fofZ (-1))) 2 None RANDOM exd exdr2 u exs) = Some [(Some 0, [S754_finite false 8381699306495090 (-50)])]) by (vm_compute; reflexivity).
  apply okmap_ex in H as (rr & E & H). apply map_one in H as (s' & Et & H). apply pair_equal_spec in H as (H1 & H2).
  exists (mg 1 (fofZ (-1))), 2%Z, None, RANDOM, exd, exdr2, u, exs, rr, 4, 0, s'.
  split; [exact C27_hyps|]. split; [exact (@ex_fair 1)|]. split; [exact E|]. split; [cbn; lia|]. split; [exact Et|].
  split; [vm_compute; reflexivity|]. split; [exact H1|]. intros Hc.
  assert (Q := eq_trans (eq_sym H2) Hc). vm_compute in Q. discriminate Q.
Qed.

(** ** a run over R *)
Section ExR.
Local Open Scope R_scope.
Variables (a b : R).
Hypothesis Ha : 0 < a.
Hypothesis Hab : a < b.
Hypothesis Hb : b < 1000.

Theorem mb_premises_met : forall mb_size (u : nat -> nat -> R), exists rr,
  mb_args rg (rdata a b) (Some (rdata a b)) NONE rdr rsch /\
  mb_run rg mb_size (Some (rdata a b)) NONE (rdata a b) rdr u rsch = Ok rr /\
  (exists s s', before rr 0 s /\ after rr 0 s' /\ finite_state rg (rdata a b) s) /\
  (forall r, (r < 2)%nat -> within 1 (fun _ => a) (fun _ => b) (row (rdata a b) 1 r)) /\
  (forall j, (j < 2)%nat -> within 1 (fun _ => a) (fun _ => b) (pcentroid 1 (mb_init rr) j)).
Proof.
  intros mb_size u. pose proof (rex_args a b) as PA.
  assert (Hr : forall r, (r < 2)%nat -> within 1 (fun _ => a) (fun _ => b) (row (rdata a b) 1 r)).
  { intros r Hr i Hi. destruct r as [|[|r]]; try lia; destruct i as [|i]; try lia; cbn; lra. }
  destruct (@C94_completes rg mb_size (Some (rdata a b)) NONE (rdata a b) rdr u rsch (fun _ => a) (fun _ => b) PA Hr) as (ws & s & s0 & Ew & Es & E0 & H).
  { intros r c Hr' Lc Hw. specialize (Hw 0%nat ltac:(cbn; lia)). specialize (Hr r Hr' 0%nat ltac:(cbn; lia)). apply lt_max.
    cbn [g_ncol g_dt rg rdist] in *. destruct c as [|y [|]]; try discriminate. cbn [nth] in *.
    assert (Hx : exists x, row (rdata a b) 1 r = [x]) by (destruct r as [|[|r]]; [eexists; reflexivity|eexists; reflexivity|cbn in Hr'; lia]).
    destruct Hx as (x & Ex). unfold car in *. cbn [NumR] in *. rewrite Ex in *. cbn [nth] in Hr. rewrite ed1. apply Rabs_def1; lra. }
  destruct (rex_init Ew Es E0) as (I0 & I1).
  assert (H0 : forall j, (j < 2)%nat -> within 1 (fun _ => a) (fun _ => b) (pcentroid 1 s0 j)).
  { intros j Hj i Hi. destruct j as [|[|j]]; try lia; destruct i as [|i]; try lia.
    - change (a <= nth 0 (pcentroid 1 s0 0) 0 <= b). rewrite I0. cbn. lra.
    - change (a <= nth 0 (pcentroid 1 s0 1) 0 <= b). rewrite I1. cbn. lra. }
  destruct (H H0) as (rr & E & Ei). exists rr. split; [exact PA|]. split; [exact E|]. split; [|split; [exact Hr|rewrite Ei; exact H0]].
  exists s0. assert (Ht : exists s', after rr 0 s').
  { destruct (@C96_stop_partial rg mb_size (Some (rdata a b)) NONE (rdata a b) rdr u rsch rr PA E) as (_ & _ & Hf & Ht).
    unfold after. destruct (mb_converged rr); [destruct (Ht eq_refl) as (L & _)|destruct (Hf eq_refl) as (L & _); cbn [g_max_iters rg] in L];
      destruct (mb_trace rr) as [|x l]; cbn [length] in *; try lia; exists x; reflexivity. }
  destruct Ht as (s' & Hs'). exists s'. split; [unfold before; rewrite Ei; reflexivity|]. split; [exact Hs'|].
  apply rex_finite; auto.
Qed.
End ExR.
