(** X-means in exact arithmetic: partition means, output centroids, scores. *)
From Coq Require Import Reals Permutation Lra.
From Verif Require Import Base Num DistModel DistProofs ClustersModel ClustersView ClustersProofs MatLemmas
  PartitionModel PartitionProofs ParModel KmeansModel ParProofs NearProofs KmeansProofs UpdateProofs RunProofs InitProofs Spec ParRule ParSim Okab.
From Verif Require Import VecLemmas KmeansR SseProofs PropertiesKmeansR.
From Verif Require Import ContainersModel PropertiesIds HclustModel HclustProofs HclustUpdate HclustIter HclustSplit HclustRun HclustDone HclustVerify
  XmeansModel XmeansProofs XmeansDecide XmeansRound XmeansRun PropertiesXmeans.
Set Implicit Arguments.
Unset Strict Implicit.
Local Open Scope R_scope.

(* ------------------------------------------------------------------ *)
(** * Specification *)

(** the mean of a list of [d]-vectors; zero for no vector *)
Definition mean0 (d : nat) (l : list (list R)) : list R := match l with [] => vzero d | _ => vmean d l end.
(** the rows assigned to [l] or [r] under [asg] *)
Definition child_idx (n : nat) (asg : list nat) (l r : nat) : list nat :=
  filter (fun i => ((nth i asg 0%nat =? l) || (nth i asg 0%nat =? r))%nat) (seq 0 n).
Definition child_rows (n d : nat) (data : list R) (asg : list nat) (l r : nat) : list (list R) :=
  map (row data d) (child_idx n asg l r).
(** the rows that were in partition [p] at the start of the rounds [pre] *)
Definition earlier_rows (n d : nat) (data : list R) (pre : list (rrec NumR)) (p : nat) : list (list R) :=
  flat_map (fun rr => mem_rows n (row data d) (rr_live rr) p) pre.

(* ------------------------------------------------------------------ *)
(** * The accumulated means *)

Section PR.
Variables (g : hcfg NumR) (ws : list (worker NumR)) (data : list R).
Let d := g_ncol g.
Let n := g_nrow g.
Hypothesis Hdata : length data = (n * d)%nat.
Hypothesis Ht : ntiles 0 n (w_ranges ws).

Lemma mean0_dim (L : list (list R)) : alldim d L -> length (mean0 d L) = d.
Proof. intros H. unfold mean0. destruct L; [apply vzero_length|]. unfold vmean. rewrite map_length. apply vsum_length. exact H. Qed.

Lemma unfin1_mean (L : list (list R)) : alldim d L ->
  unfin1 NumR (mean0 d L, Z.of_nat (length L), true) = (vsum d L, Z.of_nat (length L), false).
Proof.
  intros H. unfold unfin1, mean0. destruct L as [|x [|y L]].
  - reflexivity.
  - cbn [length]. destruct (Z.ltb_spec (Z.of_nat 1) 2) as [_|X]; [|lia]. f_equal. f_equal. unfold vmean. cbn [length INR]. apply map_div1.
  - destruct (Z.ltb_spec (Z.of_nat (length (x :: y :: L))) 2) as [X|_]; [cbn [length] in X; lia|]. f_equal. f_equal.
    unfold vmean. rewrite map_map. transitivity (map (fun s : R => s) (vsum d (x :: y :: L))); [|apply map_id].
    apply map_ext. intros a. change (a / INR (length (x :: y :: L)) * IZR (Z.of_nat (length (x :: y :: L))) = a).
    rewrite <- INR_IZR_INZ. field. apply not_0_INR. cbn [length]. lia.
Qed.

Lemma wsum_R A j m : length A = n -> length m = d -> wsum g ws data A j m = vadd m (vsum d (mems g data A j)).
Proof.
  intros LA Lm. exact (@usum_R g data A j Hdata LA ws 0%nat Ht m Lm).
Qed.

Definition pmems (j : nat) (tr : list (list nat)) : list (list R) := flat_map (fun A => mems g data A j) tr.
Lemma pmems_dim j tr : Forall (fun A => length A = n) tr -> alldim d (pmems j tr).
Proof.
  intros H. induction H as [|A tr HA _ IH]; [constructor|]. unfold pmems. cbn [flat_map]. apply Forall_app. split; [|exact IH].
  apply (@mems_dim g data A j Hdata). fold n. lia.
Qed.

Lemma add_round_R j (L : list (list R)) A b : length A = n -> alldim d L -> (b = false -> L = []) ->
  add_round g ws data j (mean0 d L, Z.of_nat (length L), b) A
  = (mean0 d (L ++ mems g data A j), Z.of_nat (length (L ++ mems g data A j)), true).
Proof.
  intros LA HL Hb. unfold add_round.
  assert (E : unfin1 NumR (mean0 d L, Z.of_nat (length L), b) = (vsum d L, Z.of_nat (length L), false)).
  { destruct b; [apply unfin1_mean; exact HL|]. rewrite (Hb eq_refl). reflexivity. }
  rewrite E. rewrite wsum_R by (auto; apply vsum_length; exact HL).
  assert (HA : alldim d (mems g data A j)) by (apply (@mems_dim g data A j Hdata); fold n; lia).
  rewrite <- vsum_app by assumption. rewrite <- (mems_length g data A j), <- Nat2Z.inj_add, <- app_length.
  exact (fin1_mean g (L ++ mems g data A j)).
Qed.

Lemma pcel_R j tr : Forall (fun A => length A = n) tr ->
  pcel g ws data j tr = (mean0 d (pmems j tr), Z.of_nat (length (pmems j tr)), match tr with [] => false | _ => true end).
Proof.
  induction tr as [|A tr IH] using rev_ind; intros H; [reflexivity|].
  apply Forall_app in H as (H1 & H2). inversion H2 as [|? ? HA _]; subst. rewrite pcel_snoc, IH by exact H1.
  rewrite add_round_R; auto; [|apply pmems_dim; exact H1|destruct tr; [reflexivity|discriminate]].
  unfold pmems. rewrite flat_map_app. cbn [flat_map]. rewrite app_nil_r. destruct (tr ++ [A]) eqn:E; [destruct tr; discriminate|reflexivity].
Qed.
End PR.

(** rounds of a run *)
Lemma run_rounds (nlog : R -> R) (two_pi : R) (g : hcfg NumR) bind centers it data dr scheds ords fuel s tr :
  h_valid g data it centers dr -> h_fair g data scheds -> x_orders ords -> (2 * hclust_floor (g_k g) - 2 <= fuel)%nat ->
  @x_run NumR nlog two_pi g bind centers it data dr scheds ords fuel = Ok (s, tr) ->
  exists ws, length data = (g_nrow g * g_ncol g)%nat /\ ntiles 0 (g_nrow g) (w_ranges ws) /\
    hout g (FPx g ws data (map (@rr_live NumR) tr)) 1 s /\ @trace_ok NumR nlog two_pi g ws data tr /\
    Forall (fun A => length A = g_nrow g) (map (@rr_live NumR) tr).
Proof.
  intros Hv Hf Ho Hfu E. pose proof (@x_run_ok NumR nlog two_pi g data bind centers it dr scheds ords fuel Hv Hf Ho Hfu) as H. rewrite E in H.
  destruct H as (ws & _ & Hws & HO & TR & _). exists ws. destruct Hv as ((V1 & V2 & V3 & V4) & _). destruct Hws as (Ht & _). splits; auto.
  apply Forall_forall. intros A HA. apply in_map_iff in HA as (rr & <- & Hr). apply in_split in Hr as (pre & post & Etr).
  apply (k_live (TR pre rr post Etr)).
Qed.

(** ** C56: what the stored mean of a partition is: the mean of the rows the partition
    now has together with the rows its id had in earlier rounds *)
Theorem C56_accumulated : forall (nlog : R -> R) (two_pi : R) (g : hcfg NumR) bind centers it data dr scheds ords fuel s tr pre rr post p l r,
  h_valid g data it centers dr -> h_fair g data scheds -> x_orders ords -> (2 * hclust_floor (g_k g) - 2 <= fuel)%nat ->
  @x_run NumR nlog two_pi g bind centers it data dr scheds ords fuel = Ok (s, tr) -> tr = pre ++ rr :: post ->
  partition_at (rr_mid rr) p l r ->
  row (c_means (x_cl (rr_mid rr))) (g_ncol g) p =
  mean0 (g_ncol g) (earlier_rows (g_nrow g) (g_ncol g) data pre p ++
                    child_rows (g_nrow g) (g_ncol g) data (x_asg (xh (rr_mid rr))) l r).
Proof.
  intros nlog two_pi g bind centers it data dr scheds ords fuel s tr pre rr post p l r Hv Hf Ho Hfu E Etr (h & Hp & <- & <-).
  destruct (run_rounds Hv Hf Ho Hfu E) as (ws & Hd & Ht & _ & TR & HL). specialize (TR pre rr post Etr). apply part_hget in Hp.
  destruct (k_mid TR) as (e & s0 & R & Rd & St & Q).
  assert (HpK : In p (hm_keys (x_hcl (xh (rr_mid rr))))) by (apply keys_in; eauto).
  pose proof (q_cel Q (k_keys TR HpK)) as HC. rewrite Etr, map_app in HL. apply Forall_app in HL as (HL1 & HL2).
  cbn [map] in HL2. inversion HL2 as [|? ? HL3 _]; subst.
  assert (HLL : Forall (fun A => length A = g_nrow g) (map (@rr_live NumR) pre ++ [rr_live rr])) by (apply Forall_app; split; auto).
  rewrite (@pcel_R g ws data Hd Ht p _ HLL) in HC. unfold cel in HC. injection HC as HC _ _. unfold crow in HC.
  rewrite (proj1 (proj2 (q_cl Q))) in HC. etransitivity; [exact HC|]. f_equal.
  unfold pmems. rewrite flat_map_app. cbn [flat_map]. rewrite app_nil_r. f_equal.
  - clear - HL1. unfold earlier_rows. induction pre as [|r0 pre IH]; [reflexivity|]. cbn [map flat_map] in *. inversion HL1; subst.
    rewrite IH by assumption. f_equal. apply mems_rows. assumption.
  - rewrite mems_rows by exact HL3. unfold mem_rows, child_rows, child_idx. f_equal. apply filter_ext_in. intros i Hi. apply in_seq in Hi.
    rewrite (q_live Q HpK) by lia. pose proof (@part_rows NumR nlog two_pi g ws data _ e _ R St p h i Hp ltac:(lia)) as W.
    destruct (Nat.eqb_spec (nth i (x_part (xh (rr_mid rr))) 0%nat) p) as [X|X],
      (Nat.eqb_spec (nth i (x_asg (xh (rr_mid rr))) 0%nat) (h_zero h)), (Nat.eqb_spec (nth i (x_asg (xh (rr_mid rr))) 0%nat) (h_one h)); cbn [orb]; auto; tauto.
Qed.

(** ** C56, restricted to ids not used by a partition in an earlier round *)
Theorem C56_partial : forall (nlog : R -> R) (two_pi : R) (g : hcfg NumR) bind centers it data dr scheds ords fuel s tr pre rr post p l r,
  h_valid g data it centers dr -> h_fair g data scheds -> x_orders ords -> (2 * hclust_floor (g_k g) - 2 <= fuel)%nat ->
  @x_run NumR nlog two_pi g bind centers it data dr scheds ords fuel = Ok (s, tr) -> tr = pre ++ rr :: post ->
  partition_at (rr_mid rr) p l r -> (forall rr', In rr' pre -> ~ In p (rr_live rr')) ->
  row (c_means (x_cl (rr_mid rr))) (g_ncol g) p =
  mean0 (g_ncol g) (child_rows (g_nrow g) (g_ncol g) data (x_asg (xh (rr_mid rr))) l r).
Proof.
  intros nlog two_pi g bind centers it data dr scheds ords fuel s tr pre rr post p l r Hv Hf Ho Hfu E Etr Hp Hpre.
  rewrite (C56_accumulated Hv Hf Ho Hfu E Etr Hp). f_equal.
  assert (X : earlier_rows (g_nrow g) (g_ncol g) data pre p = []); [|rewrite X; reflexivity].
  destruct (run_rounds Hv Hf Ho Hfu E) as (ws & _ & _ & _ & _ & HL). rewrite Etr, map_app in HL. apply Forall_app in HL as (HL & _).
  clear - Hpre HL. unfold earlier_rows. induction pre as [|r0 pre IH]; [reflexivity|]. cbn [map flat_map] in *. inversion HL as [|? ? L1 L2]; subst.
  rewrite IH; auto; [|intros; apply Hpre; right; assumption]. rewrite app_nil_r. unfold mem_rows.
  assert (Y : filter (fun i => (nth i (rr_live r0) 0%nat =? p)%nat) (seq 0 (g_nrow g)) = []); [|rewrite Y; reflexivity].
  destruct (filter _ _) as [|i t] eqn:Ef; auto. exfalso. assert (Hi : In i (i :: t)) by (left; reflexivity). rewrite <- Ef in Hi.
  apply filter_In in Hi as (Hi & Hn). apply in_seq in Hi. apply Nat.eqb_eq in Hn. apply (Hpre r0 (or_introl eq_refl)).
  rewrite <- Hn. apply nth_In. lia.
Qed.

(** ** C89: output centroids *)
Theorem C89_output_centroids : forall (nlog : R -> R) (two_pi : R) (g : hcfg NumR) bind centers it data dr scheds ords fuel s tr i v,
  h_valid g data it centers dr -> h_fair g data scheds -> x_orders ords -> (2 * hclust_floor (g_k g) - 2 <= fuel)%nat ->
  @x_run NumR nlog two_pi g bind centers it data dr scheds ords fuel = Ok (s, tr) -> In (i, v) (x_final s) ->
  let members := mem_rows (g_nrow g) (row data (g_ncol g)) (x_asg s) i in
  v = mean0 (g_ncol g) members \/
  exists pre rr post, tr = pre ++ rr :: post /\
    mem_rows (g_nrow g) (row data (g_ncol g)) (rr_live rr) i = members /\
    (members <> [] -> In i (rr_live rr)) /\
    v = mean0 (g_ncol g) (earlier_rows (g_nrow g) (g_ncol g) data pre i ++ members).
Proof.
  intros nlog two_pi g bind centers it data dr scheds ords fuel s tr i v Hv Hf Ho Hfu E Hi members.
  destruct (run_rounds Hv Hf Ho Hfu E) as (ws & Hd & Ht & HO & _ & HL). destruct (o_cent HO Hi) as (_ & [HP|(pre & A & post & El & LA & HA & HP)]).
  - left. rewrite (@ucel_R g data ws (x_asg s) i Hd (o_asg HO) Ht) in HP. cbn [fst snd] in HP. etransitivity; [exact HP|].
    exact (f_equal (mean_or_zero g) (@mems_rows g data (x_asg s) i (o_asg HO))).
  - right. assert (Ei : exists p1 rr p2, tr = p1 ++ rr :: p2 /\ map (@rr_live NumR) p1 = pre /\ rr_live rr = A).
    { clear - El. revert pre El. induction tr as [|r0 tr IH]; intros [|a pre] El; cbn [map app] in El; try discriminate.
      - injection El as Ea Eb. exists [], r0, tr. auto.
      - injection El as Ea Eb. destruct (IH pre Eb) as (p1 & rr & p2 & -> & <- & <-). exists (r0 :: p1), rr, p2. subst a. auto. }
    destruct Ei as (p1 & rr & p2 & Etr & <- & <-). exists p1, rr, p2. split; [exact Etr|].
    assert (Em : mem_rows (g_nrow g) (row data (g_ncol g)) (rr_live rr) i = members).
    { unfold members, mem_rows. f_equal. apply filter_ext_in. intros j Hj. apply in_seq in Hj. symmetry. apply HA. lia. }
    assert (HLL : Forall (fun A => length A = g_nrow g) (map (@rr_live NumR) p1 ++ [rr_live rr])).
    { rewrite El in HL. apply Forall_app in HL as (HL1 & _). apply Forall_app. split; auto. }
    rewrite (@pcel_R g ws data Hd Ht i _ HLL) in HP. cbn [fst] in HP. splits; auto.
    + intros Hne. rewrite <- Em in Hne. unfold mem_rows in Hne.
      destruct (filter (fun r => (nth r (rr_live rr) 0%nat =? i)%nat) (seq 0 (g_nrow g))) as [|j t] eqn:Ef; [destruct (Hne eq_refl)|].
      assert (Hj : In j (j :: t)) by (left; reflexivity). rewrite <- Ef in Hj. apply filter_In in Hj as (Hj & Hn). apply in_seq in Hj.
      apply Nat.eqb_eq in Hn. rewrite <- Hn. apply nth_In. lia.
    + etransitivity; [exact HP|]. f_equal. unfold pmems. rewrite flat_map_app. cbn [flat_map]. rewrite app_nil_r. f_equal.
      * apply Forall_app in HLL as (HL1 & _). clear - HL1. unfold earlier_rows. induction p1 as [|r0 pre IH]; [reflexivity|].
        cbn [map flat_map] in *. inversion HL1; subst. rewrite IH by assumption. f_equal. apply mems_rows. assumption.
      * rewrite mems_rows by exact LA. exact Em.
Qed.

(** ** C89, restricted: an output cluster with rows whose id no partition used twice *)
Theorem C89_partial : forall (nlog : R -> R) (two_pi : R) (g : hcfg NumR) bind centers it data dr scheds ords fuel s tr i v,
  h_valid g data it centers dr -> h_fair g data scheds -> x_orders ords -> (2 * hclust_floor (g_k g) - 2 <= fuel)%nat ->
  @x_run NumR nlog two_pi g bind centers it data dr scheds ords fuel = Ok (s, tr) -> In (i, v) (x_final s) ->
  (0 < count_eq i (x_asg s))%nat ->
  (forall pre rr post rr', tr = pre ++ rr :: post -> In i (rr_live rr) -> In rr' pre -> ~ In i (rr_live rr')) ->
  v = vmean (g_ncol g) (mem_rows (g_nrow g) (row data (g_ncol g)) (x_asg s) i).
Proof.
  intros nlog two_pi g bind centers it data dr scheds ords fuel s tr i v Hv Hf Ho Hfu E Hi Hc Hu.
  destruct (run_rounds Hv Hf Ho Hfu E) as (ws & Hd & Ht & HO & _ & HL).
  set (members := mem_rows (g_nrow g) (row data (g_ncol g)) (x_asg s) i).
  assert (Hne : members <> []).
  { intros X. pose proof (eq_trans (@mems_rows g data (x_asg s) i (o_asg HO)) X) as Y. apply (f_equal (@length _)) in Y. rewrite mems_length in Y. cbn [length] in Y. lia. }
  assert (Em : mean0 (g_ncol g) members = vmean (g_ncol g) members) by (unfold mean0; destruct members; [destruct (Hne eq_refl)|reflexivity]).
  rewrite <- Em. destruct (C89_output_centroids Hv Hf Ho Hfu E Hi) as [->|(pre & rr & post & Etr & E1 & Hin & ->)]; [reflexivity|].
  fold members in Hin |- *. f_equal. assert (X : earlier_rows (g_nrow g) (g_ncol g) data pre i = []); [|rewrite X; reflexivity].
  rewrite Etr, map_app in HL. apply Forall_app in HL as (HL & _).
  assert (Hpre : forall rr', In rr' pre -> ~ In i (rr_live rr')) by (intros rr'; apply (Hu pre rr post rr' Etr (Hin Hne))).
  clear - Hpre HL. unfold earlier_rows. induction pre as [|r0 pre IH]; [reflexivity|]. cbn [map flat_map] in *. inversion HL as [|? ? L1 L2]; subst.
  rewrite IH; auto; [|intros; apply Hpre; right; assumption]. rewrite app_nil_r. unfold mem_rows.
  assert (Y : filter (fun j => (nth j (rr_live r0) 0%nat =? i)%nat) (seq 0 (g_nrow g)) = []); [|rewrite Y; reflexivity].
  destruct (filter _ _) as [|j t] eqn:Ef; auto. exfalso. assert (Hj : In j (j :: t)) by (left; reflexivity). rewrite <- Ef in Hj.
  apply filter_In in Hj as (Hj & Hn). apply in_seq in Hj. apply Nat.eqb_eq in Hn. apply (Hpre r0 (or_introl eq_refl)).
  rewrite <- Hn. apply nth_In. lia.
Qed.

(* ------------------------------------------------------------------ *)
(** * Scores *)

(** the score of a model with [K] clusters for [N] rows of [d] numbers, as the program
    computes it; [m] multiplies the second log N *)
Definition bic_term (d : nat) (N K m sigma : R) : R :=
  N * ln N - m * ln N - N / 2 * ln (2 * PI) - N * INR d / 2 * ln sigma - (N - K) / 2 - (K - 1 + INR d * K + 1) / 2 * ln N.

Lemma bic_value_R d (N K m sg : R) : @bic_value NumR ln (2 * PI) d N K m sg = bic_term d N K m sg.
Proof.
  unfold bic_value, bic_term, half. unfold ndiv, nofZ, none, nsub, nmul, nadd, NumR. rewrite <- INR_IZR_INZ.
  generalize (ln N) (ln (2 * PI)) (ln sg) (INR d). intros a b c e. match goal with |- ?u = ?v => change (@eq R u v) end. field.
Qed.

Lemma sum_on_R (v : list R) idx : @sum_on NumR v idx = rsum (map (fun i => nth i v 0) idx).
Proof.
  unfold sum_on. assert (G : forall idx acc, fold_left (fun a i => nadd NumR a (nth i v (nzero NumR))) idx acc = acc + rsum (map (fun i => nth i v 0) idx)).
  { clear. induction idx as [|i idx IH]; intros acc; cbn [fold_left map rsum]; [lra|]. rewrite IH. change (nadd NumR acc (nth i v (nzero NumR))) with (acc + nth i v 0). lra. }
  rewrite G. change (0 + rsum (map (fun i => nth i v 0) idx) = rsum (map (fun i => nth i v 0) idx)). lra.
Qed.

Lemma near2_R dt (C0 C1 x : list R) f b : near NumR dt [C0; C1] x = (Some f, b) ->
  b = Rmin (rdist dt x C0) (rdist dt x C1) /\ ((f = 0%nat /\ rdist dt x C0 <= rdist dt x C1) \/ (f = 1%nat /\ rdist dt x C1 < rdist dt x C0)).
Proof.
  intros E. pose proof (near_spec NumR_laws dt [C0; C1] x) as H. rewrite E in H. destruct H as ((Hf & Hn) & _ & y & Hy & Hd).
  rewrite ldist_R in Hd. destruct f as [|[|f]]; [| |cbn [length] in Hf; lia]; cbn [nth_error] in Hy; injection Hy as <-.
  - destruct (Hn 1%nat C1 C0 eq_refl eq_refl) as (H1 & _). apply Rltb_false in H1. rewrite !ldist_R in H1.
    split; [|left; auto]. rewrite <- Hd. symmetry. apply Rmin_left. exact H1.
  - destruct (Hn 0%nat C0 C1 eq_refl eq_refl) as (_ & H1). specialize (H1 ltac:(lia)). 
    assert (X : neqb NumR (ldist NumR dt x C0) (ldist NumR dt x C0) = true) by (apply Reqb_true; reflexivity).
    specialize (H1 X). apply Rltb_true in H1. rewrite !ldist_R in H1. split; [|right; auto]. rewrite <- Hd. symmetry. apply Rmin_right. lra.
Qed.

Lemma child_perm n asg l r : length asg = n -> l <> r -> Permutation (memb asg l ++ memb asg r) (child_idx n asg l r).
Proof.
  intros L H. unfold memb, child_idx. rewrite L. induction (seq 0 n) as [|i t IH]; [constructor|]. cbn [filter].
  destruct (Nat.eqb_spec (nth i asg 0%nat) l) as [E|E], (Nat.eqb_spec (nth i asg 0%nat) r) as [E'|E']; cbn [orb]; [congruence|..].
  - cbn [app]. constructor. exact IH.
  - rewrite <- Permutation_middle. constructor. exact IH.
  - exact IH.
Qed.

Lemma memb_length asg i : length (memb asg i) = count_eq i asg.
Proof.
  unfold memb. assert (G : forall (l : list nat) s, length (filter (fun j => (nth (j - s) l 0 =? i)%nat) (seq s (length l))) = count_eq i l).
  { induction l as [|a l IH]; intros s; [reflexivity|]. cbn [length seq filter]. rewrite Nat.sub_diag. change (nth 0 (a :: l) 0%nat) with a. rewrite count_eq_cons, <- (IH (S s)).
    assert (E : filter (fun j => (nth (j - s) (a :: l) 0 =? i)%nat) (seq (S s) (length l)) = filter (fun j => (nth (j - S s) l 0 =? i)%nat) (seq (S s) (length l))).
    { apply filter_ext_in. intros j Hj. apply in_seq in Hj. replace (j - s)%nat with (S (j - S s)) by lia. reflexivity. }
    rewrite E. destruct (a =? i)%nat; cbn [length]; lia. }
  rewrite <- (G asg 0%nat). f_equal. apply filter_ext. intros j. rewrite Nat.sub_0_r. reflexivity.
Qed.

(** ** C90: what a split is decided on.  With [ln] and [2 * PI]: the sums range over
    exactly the rows of the partition; the parent's uses the distances to the stored
    mean of the partition, the children's the distance to the nearer one of two points
    [C0], [C1], and the rows with the two child ids are those nearer to [C0], [C1] *)
Theorem C90_scores : forall (g : hcfg NumR) bind centers it data dr scheds ords fuel s tr rr p l r,
  h_valid g data it centers dr -> h_fair g data scheds -> x_orders ords -> (2 * hclust_floor (g_k g) - 2 <= fuel)%nat ->
  @x_run NumR ln (2 * PI) g bind centers it data dr scheds ords fuel = Ok (s, tr) -> In rr tr -> partition_at (rr_mid rr) p l r ->
  let A := x_asg (xh (rr_mid rr)) in
  let idx := child_idx (g_nrow g) A l r in
  let N := INR (length idx) in
  let x := row data (g_ncol g) in
  let mean := row (c_means (x_cl (rr_mid rr))) (g_ncol g) p in
  exists sc C0 C1, @bic NumR ln (2 * PI) g (rr_mid rr) p l r = Ok sc /\
    (forall i, In i idx -> nth i A 0%nat = if Rle_dec (rdist (g_dt g) (x i) C0) (rdist (g_dt g) (x i) C1) then l else r) /\
    sc_p sc = (if (1 <? length idx)%nat
      then bic_term (g_ncol g) N 1 N (rsum (map (fun i => rdist (g_dt g) (x i) mean) idx) / (N - 1)) else nmin NumR) /\
    sc_c sc = (if (2 <? length idx)%nat
      then let sg := rsum (map (fun i => Rmin (rdist (g_dt g) (x i) C0) (rdist (g_dt g) (x i) C1)) idx) / (N - 2) in
           bic_term (g_ncol g) N 2 (INR (count_eq l A)) sg + bic_term (g_ncol g) N 2 (INR (count_eq r A)) sg else nmin NumR).
Proof.
  intros g bind centers it data dr scheds ords fuel s tr rr p l r Hv Hf Ho Hfu E Hin (h & Hp & <- & <-) A idx N x mean.
  destruct (run_rounds Hv Hf Ho Hfu E) as (ws & Hd & Ht & _ & TR & HL). apply in_split in Hin as (pre & post & Etr).
  specialize (TR pre rr post Etr). apply part_hget in Hp.
  destruct (k_mid TR) as (e & s0 & RI & Rd & St & Q).
  destruct (@ids_parts NumR g ws data _ _ e (xh (rr_mid rr)) p h RI Hp) as (N1 & N2 & N3 & Fp & F1 & F2 & ND & Lp & Ll & Lr).
  destruct Rd as (La & Lc & Cnt & _). fold A in La.
  destruct (q_cdist Q Hp) as (C & LC & HC). destruct C as [|C0 [|C1 [|]]]; try discriminate.
  exists (@bic_of NumR ln (2 * PI) g (rr_mid rr) p h), C0, C1. split.
  { apply bic_ok; [lia|lia| |]; [rewrite (q_pd Q)|rewrite (q_cd Q)]; symmetry; exact La. }
  assert (Hrow : forall i, In i idx -> (i < g_nrow g)%nat /\ nth i (x_part (xh (rr_mid rr))) 0%nat = p).
  { intros i Hi. unfold idx, child_idx in Hi. apply filter_In in Hi as (Hi & Hb). apply in_seq in Hi. split; [lia|].
    apply (@part_rows NumR ln (2 * PI) g ws data _ e _ RI St p h i Hp ltac:(lia)). apply orb_prop in Hb. rewrite !Nat.eqb_eq in Hb. exact Hb. }
  assert (Hcd : forall i, In i idx -> nth i (x_cd (rr_mid rr)) 0 = Rmin (rdist (g_dt g) (x i) C0) (rdist (g_dt g) (x i) C1) /\
     nth i A 0%nat = if Rle_dec (rdist (g_dt g) (x i) C0) (rdist (g_dt g) (x i) C1) then h_zero h else h_one h).
  { intros i Hi. destruct (Hrow i Hi) as (Hi1 & Hi2). destruct (HC i Hi1 Hi2) as (f & Hn & Ha). fold A in Ha.
    destruct (near2_R Hn) as (Hb & Hff). split; [exact Hb|]. rewrite Ha. change (x i) with (row data (g_ncol g) i) in *.
    destruct Rle_dec as [Y|Y]; destruct Hff as [(-> & Y')|(-> & Y')]; try reflexivity; exfalso; unfold x in Y; lra. }
  assert (Pm : Permutation (memb A (h_zero h) ++ memb A (h_one h)) idx) by (apply child_perm; [exact La|congruence]).
  assert (Ln : (nth (h_zero h) (x_counts (xh (rr_mid rr))) 0 + nth (h_one h) (x_counts (xh (rr_mid rr))) 0)%Z = Z.of_nat (length idx)).
  { rewrite !Cnt by assumption. fold A. rewrite <- Nat2Z.inj_add. f_equal. rewrite <- (Permutation_length Pm), app_length, !memb_length. reflexivity. }
  split; [intros i Hi; apply (Hcd i Hi)|].
  unfold bic_of, score_of. cbn [sc_p sc_c]. fold A. rewrite Ln, !bic_value_R, !sum_on_R.
  assert (Sp : forall v : list R, rsum (map (fun i => nth i v 0) (memb A (h_zero h) ++ memb A (h_one h))) = rsum (map (fun i => nth i v 0) idx))
    by (intros v; apply rsum_perm, Permutation_map; exact Pm).
  rewrite !Sp.
  change (nofZ NumR (Z.of_nat (length idx))) with (IZR (Z.of_nat (length idx))). rewrite <- INR_IZR_INZ. fold N.
  assert (HN : forall c, Rltb 0 (N - INR c) = (c <? length idx)%nat).
  { intros c. unfold N. destruct (Nat.ltb_spec c (length idx)) as [X|X].
    - apply Rltb_true. apply lt_INR in X. lra.
    - apply Rltb_false. apply le_INR in X. lra. }
  split.
  - pose proof (HN 1%nat) as H1. cbn [INR] in H1. change (nltb NumR (nzero NumR) (nsub NumR N (none NumR))) with (Rltb 0 (N - 1)). rewrite H1.
    destruct (1 <? length idx)%nat; [|reflexivity]. change (ndiv NumR) with Rdiv. change (nsub NumR N (none NumR)) with (N - 1). change (none NumR) with 1.
    f_equal. f_equal. apply rsum_ext. intros i Hi. destruct (Hrow i Hi) as (Hi1 & Hi2). etransitivity; [apply (q_pdist Q Hi1)|].
    rewrite ldist_R, Hi2. unfold crow. rewrite (proj1 (proj2 (q_cl Q))). reflexivity.
  - pose proof (HN 2%nat) as H1. change (INR 2) with 2 in H1. change (nltb NumR (nzero NumR) (nsub NumR N (nofZ NumR 2))) with (Rltb 0 (N - 2)). rewrite H1.
    destruct (2 <? length idx)%nat; [|reflexivity]. change (ndiv NumR) with Rdiv. change (nsub NumR N (nofZ NumR 2)) with (N - 2). change (nofZ NumR 2) with 2.
    change (nadd NumR) with Rplus. rewrite !Cnt by assumption. fold A. change (nofZ NumR) with IZR. rewrite <- !INR_IZR_INZ.
    assert (Es : rsum (map (fun i => nth i (x_cd (rr_mid rr)) 0) idx) = rsum (map (fun i => Rmin (rdist (g_dt g) (x i) C0) (rdist (g_dt g) (x i) C1)) idx))
      by (apply rsum_ext; intros i Hi; apply (Hcd i Hi)).
    exact (f_equal (fun q => bic_term (g_ncol g) N 2 (INR (count_eq (h_zero h) A)) (q / (N - 2)) + bic_term (g_ncol g) N 2 (INR (count_eq (h_one h) A)) (q / (N - 2))) Es).
Qed.

(** ** C91: the usual criterion (as in the program's description: the log-likelihood of
    each child with its own number of rows, [n] of [N]) *)
Definition bic_child (d : nat) (N n sigma : R) : R :=
  n * ln n - n * ln N - n / 2 * ln (2 * PI) - n * INR d / 2 * ln sigma - (n - 2) / 2 - (1 + INR d * 2 + 1) / 2 * ln N.

(** the children's score exceeds it by a quantity that depends on the data *)
Theorem C91_partial : forall d (nl nr sg : R), let N := nl + nr in
  bic_term d N 2 nl sg + bic_term d N 2 nr sg =
  bic_child d N nl sg + bic_child d N nr sg +
  (2 * N * ln N - nl * ln nl - nr * ln nr - N / 2 * (ln (2 * PI) + INR d * ln sg + 1)).
Proof. intros d nl nr sg N. unfold bic_term, bic_child, N. generalize (ln (nl + nr)) (ln (2 * PI)) (ln sg) (ln nl) (ln nr). intros. field. Qed.

(** four rows, two in each child, all at distance 1/2 of their centroid *)
Definition x91_g : hcfg NumR := mkHc (mkCfg NumR 4 1 2 1 1 0 EUCL UserBuffer) 2.
Definition x91_s : xst NumR :=
  mkX (@mkHs NumR [1; 1; 2; 2]%nat [0; 0; 0; 0]%nat [true; true; true] [] [0; 2; 2]%Z (mkIdgen 3 []) 3 [])
    [1; 1; 1; 1] [1/2; 1/2; 1/2; 1/2] (clusters_create NumR 3 1) [].
Theorem C91_refuted : exists sc, @bic NumR ln (2 * PI) x91_g x91_s 0 1 2 = Ok sc /\
  sc_c sc <> bic_child 1 4 2 (rsum [1/2; 1/2; 1/2; 1/2] / (4 - 2)) + bic_child 1 4 2 (rsum [1/2; 1/2; 1/2; 1/2] / (4 - 2)).
Proof.
  set (h := @mkH NumR (clusters_create NumR 2 1) 1 2 false).
  exists (@bic_of NumR ln (2 * PI) x91_g x91_s 0 h). split.
  { apply (@bic_ok NumR ln (2 * PI) x91_g x91_s 0%nat h); cbn; lia. }
  unfold bic_of, score_of. cbn [sc_c]. rewrite sum_on_R, !bic_value_R.
  change (memb (x_asg (xh x91_s)) (h_zero h) ++ memb (x_asg (xh x91_s)) (h_one h)) with [0; 1; 2; 3]%nat.
  change (nth (h_zero h) (x_counts (xh x91_s)) 0%Z) with 2%Z. change (nth (h_one h) (x_counts (xh x91_s)) 0%Z) with 2%Z.
  change (map (fun i => nth i (x_cd x91_s) 0) [0; 1; 2; 3]%nat) with [1/2; 1/2; 1/2; 1/2].
  change (nofZ NumR (2 + 2)) with 4. change (nofZ NumR 2) with 2. change (nsub NumR 4 2) with (4 - 2).
  change (nltb NumR (nzero NumR) (4 - 2)) with (Rltb 0 (4 - 2)).
  assert (X : Rltb 0 (4 - 2) = true) by (apply Rltb_true; lra). rewrite X.
  change (ndiv NumR) with Rdiv. change (nadd NumR) with Rplus. change (g_ncol x91_g) with 1%nat.
  change (bic_term 1 4 2 2 (rsum [1/2; 1/2; 1/2; 1/2] / (4 - 2)) + bic_term 1 4 2 2 (rsum [1/2; 1/2; 1/2; 1/2] / (4 - 2)) <>
    bic_child 1 4 2 (rsum [1/2; 1/2; 1/2; 1/2] / (4 - 2)) + bic_child 1 4 2 (rsum [1/2; 1/2; 1/2; 1/2] / (4 - 2))).
  replace (rsum [1/2; 1/2; 1/2; 1/2] / (4 - 2)) with 1 by (cbn [rsum]; field).
  pose proof (C91_partial 1 2 2 1) as H. cbv zeta in H. replace (2 + 2) with 4 in H by lra. rewrite H. clear H X h.
  rewrite ln_1. replace (ln 4) with (2 * ln 2) by (replace 4 with (2 * 2) by lra; rewrite ln_mult by lra; lra).
  assert (Hpi : 0 < PI) by apply PI_RGT_0. assert (H4 : PI <= 4) by apply PI_4.
  assert (L2 : ln (2 * PI) <= 3 * ln 2).
  { replace (3 * ln 2) with (ln (2 * 2 * 2)) by (rewrite !ln_mult by lra; lra). destruct (Req_dec (2 * PI) (2 * 2 * 2)) as [->|X]; [lra|]. left. apply ln_increasing; lra. }
  pose proof ln_lt_2 as L3. cbn [INR]. lra.
Qed.
