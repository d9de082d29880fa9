(** C55 (G-means): the decisions of a round. *)
From Coq Require Import Permutation.
From Verif Require Import Base Num MatrixModel PropertiesMatrix DistModel DistProofs ClustersModel ClustersView ClustersProofs MatLemmas
  PartitionModel PartitionProofs ParModel KmeansModel ParProofs NearProofs KmeansProofs UpdateProofs RunProofs InitProofs Spec ParRule ParSim.
From Verif Require Import ContainersModel MatrixModel PropertiesIds HclustModel HclustProofs HclustUpdate HclustIter HclustSplit HclustRun Okab HclustDone HclustVerify
  XmeansModel XmeansProofs XmeansDecide XmeansRound XmeansRun PropertiesXmeans GmeansModel GmeansSplit GmeansSteps GmeansDecide GmeansRun.
Set Implicit Arguments.
Unset Strict Implicit.

Section P.
Variable N : Num.
Notation T := (car N).
Notation z := (nzero N).
Variables (nlog phi : T -> T) (trunc : T -> Z).

(** Specification.  The coordinate of [x] along the line through [a] and [b]:
    (x . (a - b)) / ((a - b) . (a - b)) *)
Definition proj_on (d : nat) (a b x : list T) : T :=
  let v j := nsub N (nth j a z) (nth j b z) in
  ndiv N (bigsum N d (fun j => nmul N (nth j x z) (v j))) (bigsum N d (fun j => nmul N (v j) (v j))).
(** the rows of two clusters, in the order of the rows *)
Definition rows_of2 (asg : list nat) (l r : nat) : list nat :=
  filter (fun i => (nth i asg 0 =? l) || (nth i asg 0 =? r)) (seq 0 (length asg)).

(** what a decision does with state [s3], giving [s4]: a split is undone when the
    Anderson-Darling statistic of the scaled projections of its rows is at most the
    critical value of the chosen strictness *)
Definition gmeans_decided (g : hcfg N) (data : list T) (strictness : Z) (s3 s4 : xst N) : Prop :=
  let s1 := xh s3 in let s2 := xh s4 in let d := g_ncol g in
  (forall p h l r, nth_error (x_hcl s1) p = Some (Some h) -> h_zero h = l -> h_one h = r ->
   exists v crit,
     scale trunc (map (fun i => proj_on d (row (c_means (h_cl h)) d 0) (row (c_means (h_cl h)) d 1) (row data d i)) (rows_of2 (x_asg s1) l r)) = Ok v /\
     strict_at (ad_critical (nofZ N (Z.of_nat (length (nodup Nat.eq_dec (x_part s1)))))) strictness = Ok crit /\
   if nleb N (ad_statistic nlog phi v) crit then
     (forall i, i < g_nrow g -> nth i (x_asg s1) 0 = l \/ nth i (x_asg s1) 0 = r -> nth i (x_asg s2) 0 = p) /\
     nth p (x_counts s2) 0%Z = (nth l (x_counts s1) 0 + nth r (x_counts s1) 0)%Z /\
     nth l (x_counts s2) 0%Z = 0%Z /\ nth r (x_counts s2) 0%Z = 0%Z /\
     nth_error (x_hcl s2) p = Some None /\ In (p, row (c_means (x_cl s3)) d p) (x_final s2)
   else
     (forall i, i < g_nrow g -> nth i (x_asg s1) 0 = l \/ nth i (x_asg s1) 0 = r -> nth i (x_asg s2) 0 = nth i (x_asg s1) 0) /\
     nth l (x_counts s2) 0%Z = nth l (x_counts s1) 0%Z /\ nth r (x_counts s2) 0%Z = nth r (x_counts s1) 0%Z /\
     nth_error (x_hcl s2) p = Some (Some h)) /\
  (forall i, i < g_nrow g -> (forall p l r, partition_at s3 p l r -> nth i (x_asg s1) 0 <> l /\ nth i (x_asg s1) 0 <> r) ->
     nth i (x_asg s2) 0 = nth i (x_asg s1) 0).

Lemma decided_ok (g : hcfg N) ws data strictness s3 s4 : valid_input g data -> wok (g_nrow g) (g_ncol g) data ws ->
  gmid g ws data s3 -> g_decision nlog phi trunc g strictness s3 = Ok s4 -> gmeans_decided g data strictness s3 s4.
Proof.
  intros V Hws Q E. set (M := 4 * hclust_floor (g_k g) - 1).
  assert (FPs : forall A A' i v, length A = g_nrow g -> length A' = g_nrow g -> (forall r, r < g_nrow g -> (nth r A 0 =? i) = (nth r A' 0 =? i)) -> @FPt N A i v -> @FPt N A' i v) by (intros; exact Logic.I).
  destruct (@g_decision_ok N nlog phi trunc g ws data Hws M (@FPt N) FPs strictness s3 s4 (gm_inv Q) (gm_ready Q) (gm_set Q) (gm_cd Q) (gm_cl Q)) as
    (h' & Eend & (c' & R') & Rd' & St' & Ep & Eh & Ef & Easg & Hdec); auto.
  { intros. exact Logic.I. }
  unfold gmeans_decided. cbv zeta. set (s1 := xh s3) in *. rewrite Eend. cbn [with_h xh].
  set (D := g_rejects nlog phi trunc strictness s3) in *.
  destruct (gm_inv Q) as (c & Rc). pose proof (gm_set Q) as St. pose proof (gm_ready Q) as Rd. fold s1 in Rc, St, Rd.
  set (w := with_curr s1 c) in *.
  pose proof Rd as (La & Lc & Cnt & _). pose proof Rd' as (La' & Lc' & Cnt' & _).
  assert (Hrow : forall r, r < g_nrow g -> nth r (x_asg h') 0 = if in_dec Nat.eq_dec (nth r (x_part s1) 0) D then nth r (x_part s1) 0 else nth r (x_asg s1) 0).
  { intros r Hr. rewrite Easg. apply undone_nth. exact Hr. }
  assert (Hin : forall p h, hget (x_hcl s1) p = Some h -> forall i, i < g_nrow g ->
     (nth i (x_asg s1) 0 = h_zero h \/ nth i (x_asg s1) 0 = h_one h) <-> nth i (x_part s1) 0 = p)
    by (intros p h Hp i Hi; exact (@part_rows N nlog (nzero N) g ws data _ _ w Rc St p h i Hp Hi)).
  split.
  - intros p h l r Hp <- <-. apply part_hget in Hp. fold s1 in Hp.
    assert (Hpw : hget (x_hcl w) p = Some h) by exact Hp.
    destruct (@ids_parts N g ws data M _ 0 w p h Rc Hpw) as (N1 & N2 & N3 & Fp & F1 & F2 & ND & Lp & Ll & Lr).
    change (finkeys w) with (finkeys s1) in *.
    assert (Hk : In p (hm_keys (x_hcl s1))) by (apply keys_in; eauto).
    destruct (Hdec p Hk) as (x & crit & Hx & Hcr).
    assert (Hpart : length (x_part s1) = g_nrow g) by (pose proof (e_part (r_e Rc)) as X; exact X).
    assert (Hval : values_of (x_part s1) (x_cd s3) p =
       map (fun i => proj_on (g_ncol g) (row (c_means (h_cl h)) (g_ncol g) 0) (row (c_means (h_cl h)) (g_ncol g) 1) (row data (g_ncol g) i)) (rows_of2 (x_asg s1) (h_zero h) (h_one h))).
    { unfold values_of, members_of, rows_of2. rewrite Hpart. change (length (x_asg s1)) with (length (x_asg (xh s3))). fold s1. rewrite La.
      assert (G : forall l, (forall i, In i l -> i < g_nrow g) ->
        map (fun r => nth r (x_cd s3) z) (filter (fun r => nth r (x_part s1) 0 =? p) l) =
        map (fun i => proj_on (g_ncol g) (row (c_means (h_cl h)) (g_ncol g) 0) (row (c_means (h_cl h)) (g_ncol g) 1) (row data (g_ncol g) i))
          (filter (fun i => (nth i (x_asg s1) 0 =? h_zero h) || (nth i (x_asg s1) 0 =? h_one h)) l)).
      { induction l as [|i l IH]; intros Hl; [reflexivity|]. cbn [filter]. assert (Hi := Hl i (or_introl eq_refl)).
        pose proof (Hin p h Hp i Hi) as X.
        assert (Y : (nth i (x_asg s1) 0 =? h_zero h) || (nth i (x_asg s1) 0 =? h_one h) = (nth i (x_part s1) 0 =? p)).
        { destruct (Nat.eqb_spec (nth i (x_asg s1) 0) (h_zero h)), (Nat.eqb_spec (nth i (x_asg s1) 0) (h_one h)), (Nat.eqb_spec (nth i (x_part s1) 0) p); cbn [orb]; auto; tauto. }
        rewrite Y. destruct (Nat.eqb_spec (nth i (x_part s1) 0) p) as [Z|Z]; cbn [map]; rewrite IH by (intros j Hj; apply Hl; right; exact Hj); [|reflexivity].
        f_equal. rewrite (gm_proj Q Hp Hi Z). unfold gproj, gdir, proj_on, crow.
        destruct Rd as (_ & _ & _ & Sh & _). destruct (Sh p h Hp) as (_ & Ed & _). rewrite Ed. reflexivity. }
      apply G. intros i Hi. apply in_seq in Hi. lia. }
    pose proof Hx as Hx'. unfold g_stat in Hx'. rewrite Hval in Hx'. apply bind_ok in Hx' as (v & Hv & Hx'). injection Hx' as <-.
    exists v, crit. split; [exact Hv|]. split; [exact Hcr|].
    assert (HD : In p D <-> nleb N (ad_statistic nlog phi v) crit = true).
    { unfold D, g_rejects. rewrite filter_In. fold s1. unfold g_rejb. rewrite Hx, Hcr. tauto. }
    assert (Hc0 : forall c, (forall i, i < g_nrow g -> nth i (x_asg h') 0 <> c) -> c < M -> nth c (x_counts h') 0%Z = 0%Z).
    { intros c1 Hc HcM. rewrite (Cnt' c1 HcM). rewrite count_eq_zero; [reflexivity|]. rewrite La'. exact Hc. }
    assert (Hlive : forall q hq, hget (x_hcl s1) q = Some hq -> forall j, j < 2 -> hget (x_hcl s1) (ch hq j) = None /\ ch hq j < M).
    { intros q hq Hq j Hj. destruct (e_live (r_e Rc) (p := q) Hq) as (_ & _ & _ & W'). destruct (W' j Hj) as (W0 & _ & W2). auto. }
    destruct (nleb N (ad_statistic nlog phi v) crit) eqn:Erej.
    + assert (HpD : In p D) by (apply HD; reflexivity).
      assert (Hr : forall i, i < g_nrow g -> nth i (x_part s1) 0 = p -> nth i (x_asg h') 0 = p).
      { intros i Hi X. rewrite Hrow, X by exact Hi. destruct in_dec; [reflexivity|tauto]. }
      assert (Hn : forall i, i < g_nrow g -> nth i (x_part s1) 0 <> p -> nth i (x_asg h') 0 <> p /\ nth i (x_asg h') 0 <> h_zero h /\ nth i (x_asg h') 0 <> h_one h).
      { intros i Hi X. rewrite Hrow by exact Hi. destruct in_dec as [Y|Y].
        - assert (Z : exists hq, hget (x_hcl s1) (nth i (x_part s1) 0) = Some hq).
          { apply filter_In in Y as (Y & _). apply keys_in in Y. exact Y. }
          destruct Z as (hq & Z). destruct (Hlive p h Hp 0 ltac:(lia)) as (W0 & _). destruct (Hlive p h Hp 1 ltac:(lia)) as (W1 & _).
          change (ch h 0) with (h_zero h) in W0. change (ch h 1) with (h_one h) in W1. splits; auto; congruence.
        - pose proof (Hin p h Hp i Hi) as W. splits; try tauto.
          intros Z. destruct (hget (x_hcl s1) (nth i (x_part s1) 0)) as [hq|] eqn:Eq.
          + destruct (St i hq Hi Eq) as (j & Hj & Y'). destruct (Hlive _ _ Eq j Hj) as (W2 & _). congruence.
          + pose proof (r_rows Rc Hi Eq) as W'. change (x_asg w) with (x_asg s1) in W'. rewrite Z in W'. tauto. }
      splits.
      * intros i Hi X. apply (Hr i Hi). apply (Hin p h Hp i Hi). exact X.
      * rewrite (Cnt' p Lp), (Cnt _ Ll), (Cnt _ Lr), <- Nat2Z.inj_add. f_equal.
        assert (G : forall (A A' : list nat), length A = length A' ->
             (forall r, r < length A -> (nth r A 0 = h_zero h \/ nth r A 0 = h_one h) <-> nth r A' 0 = p) ->
             count_eq p A' = count_eq (h_zero h) A + count_eq (h_one h) A).
        { clear - N3. induction A as [|a A IH]; intros [|a' A'] HL H; cbn [length] in HL; try lia; [reflexivity|].
          rewrite !count_eq_cons. specialize (IH A' ltac:(lia)). pose proof (H 0 ltac:(cbn; lia)) as H0. cbn [nth] in H0.
          assert (H' : forall r, r < length A -> (nth r A 0 = h_zero h \/ nth r A 0 = h_one h) <-> nth r A' 0 = p) by (intros r Hr; apply (H (S r)); cbn; lia).
          specialize (IH H'). destruct (Nat.eqb_spec a (h_zero h)), (Nat.eqb_spec a (h_one h)), (Nat.eqb_spec a' p); lia || tauto. }
        apply G; [congruence|]. rewrite La. intros i Hi. rewrite (Hin p h Hp i Hi).
        destruct (Nat.eq_dec (nth i (x_part s1) 0) p) as [X|X]; [specialize (Hr i Hi X); tauto|]. destruct (Hn i Hi X). tauto.
      * apply Hc0; auto. intros i Hi. destruct (Nat.eq_dec (nth i (x_part s1) 0) p) as [X|X]; [rewrite (Hr i Hi X); auto|apply (Hn i Hi X)].
      * apply Hc0; auto. intros i Hi. destruct (Nat.eq_dec (nth i (x_part s1) 0) p) as [X|X]; [rewrite (Hr i Hi X); auto|apply (Hn i Hi X)].
      * rewrite Eh, (erased_nth nlog (nzero N)). destruct in_dec; [|tauto]. pose proof (e_hcl (r_e Rc)) as X. change (x_hcl w) with (x_hcl s1) in X. fold M in X.
        rewrite X. destruct (Nat.ltb_spec p M) as [_|Y]; [reflexivity|lia].
      * rewrite Ef, in_app_iff. right. apply in_map_iff. exists p. split; [|exact HpD].
        destruct (gm_cl Q) as (K & _ & Ed & _). unfold crow. rewrite Ed. reflexivity.
    + assert (HpD : ~ In p D) by (intros X; apply HD in X; congruence).
      assert (Hr : forall i, i < g_nrow g -> nth i (x_part s1) 0 = p -> nth i (x_asg h') 0 = nth i (x_asg s1) 0).
      { intros i Hi X. rewrite Hrow, X by exact Hi. destruct in_dec; [tauto|reflexivity]. }
      assert (Hcc : forall j, j < 2 -> nth (ch h j) (x_counts h') 0%Z = nth (ch h j) (x_counts s1) 0%Z).
      { intros j Hj. destruct (Hlive p h Hp j Hj) as (W3 & W1). rewrite (Cnt' _ W1), (Cnt _ W1). f_equal.
        apply count_eq_ext; [congruence|]. rewrite La'. intros i Hi.
        rewrite Hrow by exact Hi. destruct in_dec as [Y|Y]; auto.
        assert (X : nth i (x_part s1) 0 <> p) by (intros X; rewrite X in Y; tauto).
        pose proof (Hin p h Hp i Hi) as Z. transitivity false; [|symmetry]; apply Nat.eqb_neq.
        - apply filter_In in Y as (Y & _). apply keys_in in Y as (hq & Y). fold s1 in Y. congruence.
        - destruct j as [|[|]]; [change (ch h 0) with (h_zero h); tauto|change (ch h 1) with (h_one h); tauto|lia]. }
      splits.
      * intros i Hi X. apply (Hr i Hi). apply (Hin p h Hp i Hi). exact X.
      * apply (Hcc 0). lia.
      * apply (Hcc 1). lia.
      * assert (X : hget (x_hcl h') p = Some h) by (rewrite Eh, (erased_get nlog (nzero N)); destruct in_dec; [tauto|exact Hp]).
        unfold hget in X. destruct (nth_error (x_hcl h') p) as [[y|]|]; congruence.
  - intros i Hi Hno. rewrite Hrow by exact Hi. destruct in_dec as [Y|Y]; auto. exfalso.
    apply filter_In in Y as (Y & _). apply keys_in in Y as (hq & Y). fold s1 in Y.
    assert (X : partition_at s3 (nth i (x_part s1) 0) (h_zero hq) (h_one hq)) by (exists hq; splits; auto; apply part_hget; exact Y).
    destruct (Hno _ _ _ X) as (X1 & X2).
    destruct (Hin _ _ Y i Hi) as (_ & W). destruct (W eq_refl); tauto.
Qed.

(** the states reached just before the decision of a round, whatever happens in or
    after that decision *)
Definition gmeans_deciding (g : hcfg N) strictness centers it data dr (scheds : nat -> nat -> list nat) (s3 : xst N) : Prop :=
  exists s0 ws i s s1 s2, g_start g centers it data dr = Ok (s0, ws) /\ g_reaches nlog phi trunc g ws data strictness scheds s0 i s /\
    x_mean g ws (scheds i 0) s = Ok s1 /\
    loop (g_max_iters g) (fun j s => x_iter g ws (scheds i (j + 2)) (j =? 0) s) s1 = Ok s2 /\
    g_split g ws (scheds i 1) s2 = Ok s3.

Lemma deciding_ok (g : hcfg N) strictness centers it data dr scheds s3 : h_valid g data it centers dr -> h_fair g data scheds ->
  gmeans_deciding g strictness centers it data dr scheds s3 ->
  exists ws, wok (g_nrow g) (g_ncol g) data ws /\ gmid g ws data s3.
Proof.
  intros Hv Hf (s0 & ws & i & s & s1 & s2 & E0 & Hr & E1 & E2 & E3).
  destruct (g_start_ok Hv) as (s0' & ws' & E0' & Ew & Hws & P0). assert (X := eq_trans (eq_sym E0) E0'). injection X as <- <-.
  destruct Hv as (V & K2 & K30 & Hm & Hi & _). exists ws. split; [exact Hws|].
  assert (P : gpre g ws data s) by (apply (@reaches_ok N nlog phi trunc g ws data strictness V Hws K2 K30 Hm Hi scheds s0 P0 (Hf ws Ew) i s Hr)).
  exact (@g_half N g ws data V Hws Hi (scheds i) s s1 s2 s3 P (Hf ws Ew i) E1 E2 E3).
Qed.

(** ** C55, G-means *)
Theorem C55_gmeans_split_restored : forall (g : hcfg N) strictness centers it data dr scheds s3 s4,
  h_valid g data it centers dr -> h_fair g data scheds ->
  gmeans_deciding g strictness centers it data dr scheds s3 -> g_decision nlog phi trunc g strictness s3 = Ok s4 ->
  gmeans_decided g data strictness s3 s4.
Proof.
  intros g strictness centers it data dr scheds s3 s4 Hv Hf Hd E. destruct (deciding_ok Hv Hf Hd) as (ws & Hws & Q).
  exact (decided_ok (proj1 Hv) Hws Q E).
Qed.

Lemma g_run_ok (g : hcfg N) strictness bind centers it data dr scheds fuel s tr : h_valid g data it centers dr -> h_fair g data scheds ->
  g_run nlog phi trunc g strictness bind centers it data dr scheds fuel = Ok (s, tr) ->
  exists ws s0 st, g_start g centers it data dr = Ok (s0, ws) /\ wok (g_nrow g) (g_ncol g) data ws /\ gpre g ws data st /\
    ready g ws data (4 * hclust_floor (g_k g) - 1) (xh st) /\ settled g (xh st) /\ complete_final g (xh st) = Ok s /\
    (bind = false -> verify_consistency g s = Ok tt) /\
    (forall rr, In rr tr -> exists i s1 s2 more, g_reaches nlog phi trunc g ws data strictness scheds s0 i s1 /\
       g_round nlog phi trunc g strictness ws data (scheds i) s1 = Ok (rr, (s2, more))).
Proof.
  intros Hv Hf E. destruct (g_start_ok Hv) as (s0 & ws & E0 & Ew & Hws & P0). destruct Hv as (V & K2 & K30 & Hm & Hi & _).
  unfold g_run in E. rewrite E0 in E. cbn [Base.bind] in E. apply bind_ok in E as ((st & tr') & E1 & E).
  apply bind_ok in E as (h & E2 & E). apply bind_ok in E as (u & E3 & E). injection E as <- <-. cbn [fst snd] in *.
  destruct (@g_loop_ok N nlog phi trunc g ws data strictness V Hws K2 K30 Hm Hi scheds s0 P0 (Hf ws Ew) fuel 0 s0 [] st tr') as (A & B & C & D); auto.
  { constructor. } { intros rr []. }
  exists ws, s0, st. splits; auto. intros ->. destruct u. exact E3.
Qed.

(** every round of a run that returns *)
Theorem C55_gmeans_run : forall (g : hcfg N) strictness bind centers it data dr scheds fuel s tr rr,
  h_valid g data it centers dr -> h_fair g data scheds ->
  g_run nlog phi trunc g strictness bind centers it data dr scheds fuel = Ok (s, tr) -> In rr tr ->
  gmeans_decided g data strictness (rr_mid rr) (rr_end rr).
Proof.
  intros g strictness bind centers it data dr scheds fuel s tr rr Hv Hf E Hin.
  destruct (g_run_ok Hv Hf E) as (ws & s0 & st & E0 & Hws & _ & _ & _ & _ & _ & Htr). destruct (Htr rr Hin) as (i & s1 & s2 & more & Hr & Er).
  destruct (g_start_ok Hv) as (s0' & ws' & E0' & Ew & _ & P0). assert (X := eq_trans (eq_sym E0) E0'). injection X as <- <-.
  pose proof Hv as (V & K2 & K30 & Hm & Hi & _).
  assert (P : gpre g ws data s1) by (apply (@reaches_ok N nlog phi trunc g ws data strictness V Hws K2 K30 Hm Hi scheds s0 P0 (Hf ws Ew) i s1 Hr)).
  destruct (@g_round_ok N nlog phi trunc g ws data strictness V Hws K2 K30 Hm Hi (scheds i) s1 rr s2 more P (Hf ws Ew i) Er) as (Q & Ed & _).
  exact (decided_ok V Hws Q Ed).
Qed.

(** ** C101: the result of a run that returns *)
Theorem C101_gmeans_result : forall (g : hcfg N) strictness bind centers it data dr scheds fuel s tr,
  h_valid g data it centers dr -> h_fair g data scheds ->
  g_run nlog phi trunc g strictness bind centers it data dr scheds fuel = Ok (s, tr) ->
  length (x_asg s) = g_nrow g /\ NoDup (map fst (x_final s)) /\
  (forall r, r < g_nrow g -> exists v, In (nth r (x_asg s) 0, v) (x_final s)) /\
  (forall i v, In (i, v) (x_final s) -> length v = g_ncol g /\ nth_error (x_counts s) i = Some (Z.of_nat (count_eq i (x_asg s)))) /\
  (forall i, i < length (x_counts s) -> nth i (x_counts s) 0%Z = Z.of_nat (count_eq i (x_asg s))).
Proof.
  intros g strictness bind centers it data dr scheds fuel s tr Hv Hf E.
  destruct (g_run_ok Hv Hf E) as (ws & s0 & st & E0 & Hws & P & Rd & St & Ec & _).
  destruct (gp_inv P) as (c & R). set (M := 4 * hclust_floor (g_k g) - 1) in *.
  assert (FPu : forall asg i v, length v = g_ncol g -> v = fst (fst (ucel g ws data asg i)) -> @FPt N asg i v) by (intros; exact Logic.I).
  pose proof (@complete_final_gen N g ws data (@FPt N) FPu 0 (with_curr (xh st) c) R Rd St) as H.
  assert (Ec' : complete_final g (with_curr (xh st) c) = Ok (with_curr s c)).
  { revert Ec. unfold complete_final. change (x_hcl (with_curr (xh st) c)) with (x_hcl (xh st)). generalize (hm_keys (x_hcl (xh st))). generalize (xh st). clear.
    intros h l. revert h. induction l as [|p l IH]; intros h; cbn [for_each]; [intros E; congruence|]. sx.
    destruct (hm_ref (x_hcl h) p) as [hc|]; cbn [Base.bind]; [|discriminate]. intros E. apply IH in E. exact E. }
  rewrite Ec' in H. cbn [okp] in H. destruct H as (E1 & E2 & Pm & Fo).
  change (x_asg (with_curr s c)) with (x_asg s) in *. change (x_counts (with_curr s c)) with (x_counts s) in *. change (x_final (with_curr s c)) with (x_final s) in *.
  change (x_asg (with_curr (xh st) c)) with (x_asg (xh st)) in *. change (x_counts (with_curr (xh st) c)) with (x_counts (xh st)) in *.
  destruct Rd as (La & Lc & Cnt & _). pose proof (inv_nodup (r_ids R)) as ND. unfold all_ids in ND. apply nodup_app_r in ND.
  assert (NDk : NoDup (map fst (x_final s))) by exact (Permutation_NoDup Pm ND).
  splits; auto.
  - congruence.
  - intros r Hr. assert (X : In (nth r (x_asg s) 0) (map fst (x_final s))).
    { apply (Permutation_in _ Pm). rewrite in_app_iff, E1. destruct (hget (x_hcl (xh st)) (nth r (x_part (xh st)) 0)) as [h|] eqn:Eh.
      - left. destruct (St r h Hr Eh) as (j & Hj & ->). apply in_kids. eauto 6.
      - right. apply (r_rows R Hr Eh). }
    apply in_map_iff in X as ((i & v) & <- & X). exists v. exact X.
  - intros i v Hiv. split; [apply (Fo i v Hiv)|].
    assert (Hi : i < M).
    { apply (inv_lt (r_ids R) (r_max R)). unfold all_ids. rewrite in_app_iff. right. apply (Permutation_in _ (Permutation_sym Pm)). apply in_map_iff. exists (i, v). auto. }
    rewrite E2, E1. rewrite (nth_error_nth' _ 0%Z) by (rewrite Lc; exact Hi). f_equal. apply Cnt. exact Hi.
  - intros i Hi. rewrite E2, E1 in *. apply Cnt. rewrite <- Lc. exact Hi.
Qed.
End P.
