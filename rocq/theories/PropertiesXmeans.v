(** X-means, as its callers see it. *)
From Coq Require Import Reals Permutation.
From Verif Require Import Base Num DistModel DistProofs ClustersModel ClustersView ClustersProofs MatLemmas
  PartitionModel PartitionProofs ParModel KmeansModel ParProofs NearProofs KmeansProofs UpdateProofs RunProofs InitProofs Spec ParRule ParSim Okab.
From Verif Require Import VecLemmas KmeansR.
From Verif Require Import ContainersModel PropertiesIds HclustModel HclustProofs HclustUpdate HclustIter HclustSplit HclustRun HclustDone HclustVerify
  XmeansModel XmeansProofs XmeansDecide XmeansRound XmeansRun.
Set Implicit Arguments.
Unset Strict Implicit.

Section X.
Variable N : Num.
Notation T := (car N).
Variable nlog : T -> T.
Variable two_pi : T.

(** ** C86: with valid arguments the run ends after at most [2 * hclust_floor k - 2]
    rounds; it never reads or writes out of bounds and never throws *)
Theorem C86_safe_and_terminates : forall (g : hcfg N) bind centers it data dr scheds ords fuel,
  h_valid g data it centers dr -> h_fair g data scheds -> x_orders ords -> 2 * hclust_floor (g_k g) - 2 <= fuel ->
  (exists s tr, x_run nlog two_pi g bind centers it data dr scheds ords fuel = Ok (s, tr)) \/
  x_run nlog two_pi g bind centers it data dr scheds ords fuel = Err Abort.
Proof.
  intros g bind centers it data dr scheds ords fuel Hv Hf Ho Hfu.
  pose proof (@x_run_ok N nlog two_pi g data bind centers it dr scheds ords fuel Hv Hf Ho Hfu) as H.
  destruct (x_run nlog two_pi g bind centers it data dr scheds ords fuel) as [[s tr]|e]; [left; eauto|right]. destruct H as (-> & _). reflexivity.
Qed.

(** ** C87: the run aborts only for a row without usable distance, or because the
    consistency check meets an empty output cluster *)
Theorem C87_consistency_partial : forall (g : hcfg N) centers it data dr scheds ords fuel,
  h_valid g data it centers dr -> h_fair g data scheds -> x_orders ords -> 2 * hclust_floor (g_k g) - 2 <= fuel ->
  (Z.of_nat (g_nrow g) < 2 ^ 31)%Z ->
  (x_run nlog two_pi g true centers it data dr scheds ords fuel = Err Abort /\
     x_run nlog two_pi g false centers it data dr scheds ords fuel = Err Abort /\ unassignable g data) \/
  exists s tr, x_run nlog two_pi g true centers it data dr scheds ords fuel = Ok (s, tr) /\
    ((forall i, In i (map fst (x_final s)) -> 0 < count_eq i (x_asg s)) ->
       x_run nlog two_pi g false centers it data dr scheds ords fuel = Ok (s, tr)) /\
    ((exists i, In i (map fst (x_final s)) /\ count_eq i (x_asg s) = 0) ->
       x_run nlog two_pi g false centers it data dr scheds ords fuel = Err Abort).
Proof.
  intros g centers it data dr scheds ords fuel Hv Hf Ho Hfu Hn.
  pose proof (@x_run_ok N nlog two_pi g data true centers it dr scheds ords fuel Hv Hf Ho Hfu) as H.
  destruct (x_run nlog two_pi g true centers it data dr scheds ords fuel) as [[s tr]|e] eqn:E.
  2:{ left. destruct H as (-> & [X|(X & _)]); [|discriminate]. split; [reflexivity|]. split; [|exact X].
    revert E. unfold x_run. destruct (x_create g centers _) as [s0|]; cbn [Base.bind]; [|congruence].
    destruct (build_workers g data) as [ws'|]; cbn [Base.bind]; [|congruence].
    destruct (run_hinit g it data dr (xh s0)) as [s1|]; cbn [Base.bind]; [|congruence].
    destruct (x_loop nlog two_pi g ws' data scheds ords fuel 0 (with_h s0 s1) []) as [s2|]; cbn [Base.bind]; [|congruence].
    destruct (complete_final g (xh (fst s2))) as [s3|]; cbn [Base.bind]; congruence. }
  right. destruct H as (ws & Ew & Hws & HO & _). destruct (@verify_ok N g _ 1 s HO Hn) as (A & B).
  exists s, tr. split; [reflexivity|].
  assert (Q : x_run nlog two_pi g false centers it data dr scheds ords fuel = let* _ := verify_consistency g s in Ok (s, tr)).
  { revert E. unfold x_run. destruct (x_create g centers _) as [s0|]; cbn [Base.bind]; [|discriminate].
    destruct (build_workers g data) as [ws'|]; cbn [Base.bind]; [|discriminate].
    destruct (run_hinit g it data dr (xh s0)) as [s1|]; cbn [Base.bind]; [|discriminate].
    destruct (x_loop nlog two_pi g ws' data scheds ords fuel 0 (with_h s0 s1) []) as [s2|]; cbn [Base.bind]; [|discriminate].
    destruct (complete_final g (xh (fst s2))) as [s3|]; cbn [Base.bind]; [|discriminate]. intros [= -> <-]. reflexivity. }
  rewrite Q. split.
  - intros X. rewrite (A X). reflexivity.
  - intros (i & Hi & Hc). rewrite (B (fun X => Nat.lt_irrefl 0 (eq_ind _ (fun z => 0 < z) (X i Hi) _ Hc))). reflexivity.
Qed.

(** ** C88: cluster ids, sizes, number of clusters *)
Theorem C88_ids_and_sizes : forall (g : hcfg N) bind centers it data dr scheds ords fuel s tr,
  h_valid g data it centers dr -> h_fair g data scheds -> x_orders ords -> 2 * hclust_floor (g_k g) - 2 <= fuel ->
  x_run nlog two_pi g bind centers it data dr scheds ords fuel = Ok (s, tr) ->
  length (x_asg s) = g_nrow g /\ NoDup (map fst (x_final s)) /\
  (forall r, r < g_nrow g -> exists v, In (nth r (x_asg s) 0, v) (x_final s)) /\
  (forall i v, In (i, v) (x_final s) -> length v = g_ncol g /\ nth_error (x_counts s) i = Some (Z.of_nat (count_eq i (x_asg s)))) /\
  1 <= length (x_final s) /\ 2 * length (x_final s) <= 3 * hclust_floor (g_k g) + 3.
Proof.
  intros g bind centers it data dr scheds ords fuel s tr Hv Hf Ho Hfu E.
  pose proof (@x_run_ok N nlog two_pi g data bind centers it dr scheds ords fuel Hv Hf Ho Hfu) as H. rewrite E in H.
  destruct H as (ws & _ & _ & HO & _). splits.
  - apply (o_asg HO).
  - apply (o_keys HO).
  - intros r Hr. pose proof (o_rows HO Hr) as X. apply in_map_iff in X as ((i & v) & <- & X). exists v. exact X.
  - intros i v Hiv. split; [apply (o_cent HO Hiv)|].
    assert (Hi : i < 4 * hclust_floor (g_k g) - 1) by (apply (o_lt HO); apply in_map_iff; exists (i, v); auto).
    rewrite (nth_error_nth' (x_counts s) 0%Z) by (rewrite (o_lc HO); exact Hi). f_equal. apply (o_counts HO Hi).
  - apply (o_num HO).
  - apply (o_num HO).
Qed.

(** a partition being split: its id, its children *)
Definition partition_at (s : xst N) (p l r : nat) : Prop :=
  exists h, nth_error (x_hcl (xh s)) p = Some (Some h) /\ h_zero h = l /\ h_one h = r.

Lemma part_hget (s : xst N) p h : nth_error (x_hcl (xh s)) p = Some (Some h) <-> hget (x_hcl (xh s)) p = Some h.
Proof. unfold hget. destruct (nth_error (x_hcl (xh s)) p) as [[y|]|]; split; congruence. Qed.

(** the rows of a partition are those of its two children *)
Lemma part_rows (g : hcfg N) (ws : list (worker N)) data FP e (s1 : hst N) :
  rinv g ws data (4 * hclust_floor (g_k g) - 1) FP e s1 -> settled g s1 -> forall p h i, hget (x_hcl s1) p = Some h -> i < g_nrow g ->
  (nth i (x_asg s1) 0 = h_zero h \/ nth i (x_asg s1) 0 = h_one h) <-> nth i (x_part s1) 0 = p.
Proof.
  intros R St p h i Hp Hi. set (M := 4 * hclust_floor (g_k g) - 1) in *. split.
  - intros X. assert (Y : exists j, j < 2 /\ nth i (x_asg s1) 0 = ch h j) by (destruct X; [exists 0|exists 1]; split; auto).
      destruct Y as (j & Hj & Y). destruct (e_rows (r_e R) Hi) as (_ & Z).
      destruct (hget (x_hcl s1) (nth i (x_part s1) 0)) as [hq|] eqn:Eq.
      + destruct (St i hq Hi Eq) as (j' & Hj' & Y'). rewrite Y in Y'. destruct (@e_inj _ _ _ _ _ _ (r_e R) p h _ hq j j' Hp Eq Hj Hj' Y'). auto.
      + exfalso. pose proof (r_rows R Hi Eq) as W. rewrite Y in W. destruct (@ids_parts N g ws data M _ e s1 p h R Hp) as (_ & _ & _ & _ & F1 & F2 & _).
        destruct j as [|[|]]; [tauto|tauto|lia].
    - intros <-. destruct (St i h Hi Hp) as (j & Hj & ->). destruct j as [|[|]]; auto.
Qed.

(** ** C55: the decision of a round.  [bic] is the score the program computes; a split
    is rejected when the score of the two children is below the score of the parent *)
Theorem C55_rejected_split_restored : forall (g : hcfg N) bind centers it data dr scheds ords fuel s tr rr,
  h_valid g data it centers dr -> h_fair g data scheds -> x_orders ords -> 2 * hclust_floor (g_k g) - 2 <= fuel ->
  x_run nlog two_pi g bind centers it data dr scheds ords fuel = Ok (s, tr) -> In rr tr ->
  let s1 := xh (rr_mid rr) in let s2 := xh (rr_end rr) in
  (forall p l r, partition_at (rr_mid rr) p l r ->
   exists sc, bic nlog two_pi g (rr_mid rr) p l r = Ok sc /\
   if nltb N (sc_c sc) (sc_p sc) then
     (forall i, i < g_nrow g -> nth i (x_asg s1) 0 = l \/ nth i (x_asg s1) 0 = r -> nth i (x_asg s2) 0 = p) /\
     nth p (x_counts s2) 0%Z = (nth l (x_counts s1) 0 + nth r (x_counts s1) 0)%Z /\
     nth l (x_counts s2) 0%Z = 0%Z /\ nth r (x_counts s2) 0%Z = 0%Z /\
     nth_error (x_hcl s2) p = Some None /\ In (p, row (c_means (x_cl (rr_mid rr))) (g_ncol g) p) (x_final s2)
   else
     (forall i, i < g_nrow g -> nth i (x_asg s1) 0 = l \/ nth i (x_asg s1) 0 = r -> nth i (x_asg s2) 0 = nth i (x_asg s1) 0) /\
     nth l (x_counts s2) 0%Z = nth l (x_counts s1) 0%Z /\ nth r (x_counts s2) 0%Z = nth r (x_counts s1) 0%Z /\
     partition_at (rr_end rr) p l r) /\
  (forall i, i < g_nrow g -> (forall p l r, partition_at (rr_mid rr) p l r -> nth i (x_asg s1) 0 <> l /\ nth i (x_asg s1) 0 <> r) ->
     nth i (x_asg s2) 0 = nth i (x_asg s1) 0).
Proof.
  intros g bind centers it data dr scheds ords fuel s tr rr Hv Hf Ho Hfu E Hin s1 s2.
  pose proof (@x_run_ok N nlog two_pi g data bind centers it dr scheds ords fuel Hv Hf Ho Hfu) as H. rewrite E in H.
  destruct H as (ws & _ & Hws & _ & TR & _). apply in_split in Hin as (pre & post & Etr). specialize (TR pre rr post Etr).
  destruct (k_mid TR) as (e & s0 & R & Rd & St & Q). destruct (k_end TR) as (h' & Eend & (e' & R') & Rd' & Ep & (D' & HD' & Ef) & Eh & Hrow).
  assert (E2 : s2 = h') by (unfold s2; rewrite Eend; reflexivity). fold s1 in R, Rd, St, Ep, Eh, Hrow |- *. rewrite E2 in *.
  set (M := 4 * hclust_floor (g_k g) - 1) in *. set (D := rejects nlog two_pi g (rr_mid rr)) in *.
  destruct Rd as (La & Lc & Cnt & _). destruct Rd' as (La' & Lc' & Cnt' & _).
  assert (Hin : forall p h, hget (x_hcl s1) p = Some h -> forall i, i < g_nrow g ->
     (nth i (x_asg s1) 0 = h_zero h \/ nth i (x_asg s1) 0 = h_one h) <-> nth i (x_part s1) 0 = p)
    by (intros p h Hp i Hi; exact (@part_rows g ws data _ _ s1 R St p h i Hp Hi)).
  split.
  - intros p l r (h & Hp & <- & <-). apply part_hget in Hp. fold s1 in Hp.
    destruct (@ids_parts N g ws data M _ e s1 p h R Hp) as (N1 & N2 & N3 & Fp & F1 & F2 & ND & Lp & Ll & Lr).
    pose proof (q_pd Q) as Lpd. pose proof (q_cd Q) as Lcd.
    exists (bic_of nlog two_pi g (rr_mid rr) p h). split.
    { apply bic_ok; fold s1; [lia|lia|congruence|congruence]. }
    assert (HD : In p D <-> nltb N (sc_c (bic_of nlog two_pi g (rr_mid rr) p h)) (sc_p (bic_of nlog two_pi g (rr_mid rr) p h)) = true).
    { unfold D, rejects. rewrite filter_In. fold s1. rewrite Hp. unfold rejected. split; [tauto|]. intros X. split; [|exact X]. apply keys_in. eauto. }
    assert (Hc0 : forall c, (forall i, i < g_nrow g -> nth i (x_asg h') 0 <> c) -> c < M -> nth c (x_counts h') 0%Z = 0%Z).
    { intros c Hc HcM. rewrite (Cnt' c HcM). rewrite count_eq_zero; [reflexivity|]. rewrite La'. exact Hc. }
    destruct (nltb N (sc_c _) (sc_p _)) eqn:Erej.
    + assert (HpD : In p D) by (apply HD; reflexivity).
      assert (Hr : forall i, i < g_nrow g -> nth i (x_part s1) 0 = p -> nth i (x_asg h') 0 = p).
      { intros i Hi X. rewrite Hrow, X by exact Hi. destruct in_dec; [reflexivity|tauto]. }
      assert (Hn : forall i, i < g_nrow g -> nth i (x_part s1) 0 <> p -> nth i (x_asg h') 0 <> p /\ nth i (x_asg h') 0 <> h_zero h /\ nth i (x_asg h') 0 <> h_one h).
      { intros i Hi X. rewrite Hrow by exact Hi. destruct in_dec as [Y|Y].
        - assert (Z : exists hq, hget (x_hcl s1) (nth i (x_part s1) 0) = Some hq).
          { apply filter_In in Y as (Y & _). apply keys_in in Y. exact Y. }
          destruct Z as (hq & Z). splits; auto.
          + intros W. destruct (e_live (r_e R) Hp) as (_ & _ & _ & W'). destruct (W' 0 ltac:(lia)) as (_ & _ & W2). change (ch h 0) with (h_zero h) in W2. congruence.
          + intros W. destruct (e_live (r_e R) Hp) as (_ & _ & _ & W'). destruct (W' 1 ltac:(lia)) as (_ & _ & W2). change (ch h 1) with (h_one h) in W2. congruence.
        - pose proof (Hin p h Hp i Hi) as W. splits; try tauto.
          intros Z. destruct (hget (x_hcl s1) (nth i (x_part s1) 0)) as [hq|] eqn:Eq.
          + destruct (St i hq Hi Eq) as (j & Hj & Y'). destruct (e_live (r_e R) Eq) as (_ & _ & _ & W'). destruct (W' j Hj) as (_ & _ & W2). congruence.
          + pose proof (r_rows R Hi Eq) as W'. rewrite Z in W'. tauto. }
      splits.
      * intros i Hi X. apply (Hr i Hi). apply (Hin p h Hp i Hi). exact X.
      * rewrite (Cnt' p Lp), (Cnt _ Ll), (Cnt _ Lr), <- Nat2Z.inj_add. f_equal.
        assert (G : forall (A A' : list nat), length A = length A' ->
             (forall r, r < length A -> (nth r A 0 = h_zero h \/ nth r A 0 = h_one h) <-> nth r A' 0 = p) ->
             count_eq p A' = count_eq (h_zero h) A + count_eq (h_one h) A).
        { clear - N3. induction A as [|a A IH]; intros [|a' A'] HL H; cbn [length] in HL; try lia; [reflexivity|].
          rewrite !count_eq_cons. specialize (IH A' ltac:(lia)). pose proof (H 0 ltac:(cbn; lia)) as H0. cbn [nth] in H0.
          assert (H' : forall r, r < length A -> (nth r A 0 = h_zero h \/ nth r A 0 = h_one h) <-> nth r A' 0 = p) by (intros r Hr; apply (H (S r)); cbn; lia).
          specialize (IH H'). destruct (Nat.eqb_spec a (h_zero h)), (Nat.eqb_spec a (h_one h)), (Nat.eqb_spec a' p); lia || tauto. }
        apply G; [congruence|]. rewrite La. intros i Hi. rewrite (Hin p h Hp i Hi).
        destruct (Nat.eq_dec (nth i (x_part s1) 0) p) as [X|X]; [specialize (Hr i Hi X); tauto|]. destruct (Hn i Hi X). tauto.
      * apply Hc0; auto. intros i Hi. destruct (Nat.eq_dec (nth i (x_part s1) 0) p) as [X|X]; [rewrite (Hr i Hi X); auto|apply (Hn i Hi X)].
      * apply Hc0; auto. intros i Hi. destruct (Nat.eq_dec (nth i (x_part s1) 0) p) as [X|X]; [rewrite (Hr i Hi X); auto|apply (Hn i Hi X)].
      * rewrite Eh, (erased_nth nlog two_pi). destruct in_dec; [|tauto]. fold s1. rewrite (e_hcl (r_e R)).
        destruct (Nat.ltb_spec p M) as [_|X]; [reflexivity|]. fold M in X. lia.
      * rewrite Ef, in_app_iff. right. apply in_map_iff. exists p. split; [unfold crow; rewrite (proj1 (proj2 (q_cl Q))); reflexivity|].
        exact (Permutation_in _ (Permutation_sym HD') HpD).
    + assert (HpD : ~ In p D) by (intros X; apply HD in X; congruence).
      assert (Hr : forall i, i < g_nrow g -> nth i (x_part s1) 0 = p -> nth i (x_asg h') 0 = nth i (x_asg s1) 0).
      { intros i Hi X. rewrite Hrow, X by exact Hi. destruct in_dec; [tauto|reflexivity]. }
      assert (Hcc : forall j, j < 2 -> nth (ch h j) (x_counts h') 0%Z = nth (ch h j) (x_counts s1) 0%Z).
      { intros j Hj. destruct (e_live (r_e R) Hp) as (_ & _ & _ & W). destruct (W j Hj) as (W1 & _ & W3). rewrite (Cnt' _ W1), (Cnt _ W1). f_equal.
        apply count_eq_ext; [congruence|]. rewrite La'. intros i Hi.
        rewrite Hrow by exact Hi. destruct in_dec as [Y|Y]; auto.
        assert (X : nth i (x_part s1) 0 <> p) by (intros X; rewrite X in Y; tauto).
        pose proof (Hin p h Hp i Hi) as Z. transitivity false; [|symmetry]; apply Nat.eqb_neq.
        - apply filter_In in Y as (Y & _). apply keys_in in Y as (hq & Y). fold s1 in Y. congruence.
        - destruct j as [|[|]]; [change (ch h 0) with (h_zero h); tauto|change (ch h 1) with (h_one h); tauto|lia]. }
      splits.
      * intros i Hi X. apply (Hr i Hi). apply (Hin p h Hp i Hi). exact X.
      * apply (Hcc 0). lia.
      * apply (Hcc 1). lia.
      * exists h. splits; auto. apply part_hget. fold s2. rewrite E2, Eh, (erased_get nlog two_pi). fold D. destruct in_dec; [tauto|exact Hp].
  - intros i Hi Hno. rewrite Hrow by exact Hi. destruct in_dec as [Y|Y]; auto. exfalso.
    apply filter_In in Y as (Y & _). apply keys_in in Y as (hq & Y). fold s1 in Y.
    destruct (Hno (nth i (x_part s1) 0) (h_zero hq) (h_one hq)) as (A & B).
    + exists hq. splits; auto. apply part_hget. exact Y.
    + destruct (St i hq Hi Y) as (j & Hj & Z). destruct j as [|[|]]; [exact (A Z)|exact (B Z)|lia].
Qed.
End X.
