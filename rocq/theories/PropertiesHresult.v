(** C120: what hierarchical clustering, X-means and G-means return: the internal
    cluster ids renumbered (hclust_compactor.hpp, types.cpp:46-72). *)
From Coq Require Import Reals Lra Lia ZArith List Permutation.
From Verif Require Import Base Num Spec DistModel ClustersModel PartitionModel ParModel KmeansModel ContainersModel PropertiesCompact.
From Verif Require Import VecLemmas MatLemmas ParProofs KmeansProofs UpdateProofs RunProofs SseProofs HclustModel HclustRun HclustDone HclustVerify PropertiesHclust.
From Verif Require Import XmeansModel XmeansRun PropertiesXmeans GmeansModel PropertiesGmeans.
Set Implicit Arguments.
Local Open Scope list_scope.

(** [r] is a partition of [n] rows into [cr_k r] nonempty clusters 0 .. cr_k r - 1,
    with their sizes and one centroid each *)
Definition good_clusters {T} (n d : nat) (r : cresult T) : Prop :=
  cr_nrow r = n /\ cr_ncol r = d /\ length (cr_asg r) = n /\ (forall i, i < n -> nth i (cr_asg r) 0 < cr_k r) /\
  length (cr_counts r) = cr_k r /\ length (cr_centroids r) = cr_k r * d /\
  forall j, j < cr_k r -> 1 <= count_eq j (cr_asg r) /\ nth j (cr_counts r) 0%Z = Z.of_nat (count_eq j (cr_asg r)).

(** the returned clusters are the internal ones, with their centroids *)
Definition same_clusters {T} (n d : nat) (asg : list nat) (final : list (nat * list T)) (r : cresult T) : Prop :=
  forall j, j < cr_k r -> exists id v, In (id, v) final /\ row (cr_centroids r) d j = v /\
    forall i, i < n -> (nth i (cr_asg r) 0 = j <-> nth i asg 0 = id).

Section Gen.
Variable T : Type.

Lemma compact_good (tz : T) n d iters asg counts (final final' : list (nat * list T)) :
  length asg = n -> NoDup (map fst final) -> (forall r, r < n -> In (nth r asg 0) (map fst final)) ->
  (forall i v, In (i, v) final -> length v = d /\ i < length counts) ->
  (forall i, i < length counts -> nth i counts 0%Z = Z.of_nat (count_eq i asg)) ->
  (forall i, In i (map fst final) -> 0 < count_eq i asg) -> Permutation final final' ->
  exists r, compact tz n d iters asg counts final' = Ok r /\ good_clusters n d r /\ cr_k r = length final /\ same_clusters n d asg final r.
Proof.
  intros La ND Hr Hf Hc He Pm.
  assert (Pk : Permutation (map fst final) (map fst final')) by (apply Permutation_map; exact Pm).
  assert (Hu : forall id, In id (map fst final) <-> used counts id).
  { intros id. unfold used. split.
    - intros Hi. pose proof (He id Hi). apply in_map_iff in Hi as ((i & v) & <- & Hi). destruct (Hf _ _ Hi) as (_ & L). cbn [fst] in *. rewrite Hc by exact L. lia.
    - intros Hp. destruct (Nat.lt_ge_cases id (length counts)) as [L|L]; [|rewrite nth_overflow in Hp by lia; lia].
      rewrite Hc in Hp by exact L. assert (I : In id asg) by (apply count_pos; lia). apply In_nth with (d := 0) in I as (r & Hl & <-). apply Hr. lia. }
  destruct (@c45_compact_partial T tz n d iters asg counts final' La) as (r & f & m & E & (R1 & R2 & R3) & C1 & C2 & C3 & C4 & C5 & C6 & C7 & C8 & C9 & C10).
  - apply Forall_forall. intros c Hi. apply In_nth with (d := 0%Z) in Hi as (i & Hi & <-). rewrite Hc by exact Hi. lia.
  - intros o Ho. apply Hu. apply In_nth with (d := 0) in Ho as (i & Hi & <-). apply Hr. lia.
  - exact (Permutation_NoDup Pk ND).
  - intros id. rewrite <- Hu. split; intros X; [exact (Permutation_in _ (Permutation_sym Pk) X)|exact (Permutation_in _ Pk X)].
  - intros id v X. apply (Hf id v). exact (Permutation_in _ (Permutation_sym Pm) X).
  - assert (Inj : forall i j, used counts i -> used counts j -> f i = f j -> i = j).
    { intros i j Hi Hj Q. destruct (Nat.lt_trichotomy i j) as [H|[H|H]]; auto; [specialize (R1 i j Hi Hj H)|specialize (R1 j i Hj Hi H)]; lia. }
    assert (Na : forall i, i < n -> nth i (cr_asg r) 0 = f (nth i asg 0)).
    { intros i Hi. rewrite C5, (nth_indep _ 0 (f 0)) by (rewrite map_length; lia). apply map_nth. }
    assert (Ua : forall i, i < n -> used counts (nth i asg 0)) by (intros i Hi; apply Hu, Hr, Hi).
    assert (Cnt : forall id, used counts id -> count_eq (f id) (cr_asg r) = count_eq id asg).
    { intros id Hid. rewrite C5. assert (Ux : forall x, In x asg -> used counts x).
      { intros x Hx. apply In_nth with (d := 0) in Hx as (i & Hi & <-). apply Ua. lia. }
      clear - Hid Inj Ux. induction asg as [|x l IH]; [reflexivity|]. cbn [map]. rewrite !count_eq_cons, IH by (intros; apply Ux; right; auto). f_equal.
      destruct (Nat.eqb_spec (f x) (f id)) as [Q|Q], (Nat.eqb_spec x id) as [Q'|Q']; auto; [|congruence]. exfalso. apply Q'. apply Inj; auto. apply Ux. left. reflexivity. }
    assert (Km : m = length final).
    { rewrite (Permutation_length Pm). revert E C4. unfold compact.
      destruct (remap counts ([], im_empty)) as [(cn & im)|]; cbn [Base.bind]; [|discriminate].
      destruct (loop (length asg) _ _) as [(a0 & im1)|]; cbn [Base.bind]; [|discriminate].
      destruct (for_each final' _ _) as [(cs & im2)|]; cbn [Base.bind]; [|discriminate]. intros [= <-]. cbn [cr_k]. intros <-. reflexivity. }
    exists r. split; [exact E|]. split; [|split].
    + unfold good_clusters. split; [exact C1|]. split; [exact C2|]. rewrite C4. split; [rewrite C5, map_length; exact La|].
      split; [intros i Hi; rewrite Na by exact Hi; apply R2, Ua, Hi|]. split; [exact C7|]. split; [exact C9|].
      intros j Hj. destruct (R3 j Hj) as (id & U & <-). rewrite Cnt, C8 by exact U. apply Hu in U. split; [apply He, U|].
      apply in_map_iff in U as ((i & v) & <- & U). apply Hc. apply (Hf _ _ U).
    + congruence.
    + intros j Hj. rewrite C4 in Hj. destruct (R3 j Hj) as (id & U & <-). pose proof U as U'. apply Hu in U as X. apply in_map_iff in X as ((i & v) & Q & X). cbn [fst] in Q. subst i.
      exists id, v. split; [exact X|]. split; [apply C10; exact (Permutation_in _ Pm X)|]. intros i Hi. rewrite Na by exact Hi. split; [intros Q; apply Inj; auto|intros ->; reflexivity].
Qed.
End Gen.

(** the consistency check passes only if no cluster is empty *)
Lemma verified_no_empty N (g : hcfg N) s : length (x_asg s) = g_nrow g -> NoDup (map fst (x_final s)) ->
  (forall r, r < g_nrow g -> In (nth r (x_asg s) 0) (map fst (x_final s))) ->
  (forall i, In i (map fst (x_final s)) -> i < length (x_counts s)) ->
  (forall i, i < length (x_counts s) -> nth i (x_counts s) 0%Z = Z.of_nat (count_eq i (x_asg s))) ->
  verify_consistency g s = Ok tt -> no_empty s.
Proof.
  intros La ND Hr Hl Hc V. set (M := length (x_counts s)) in *.
  assert (Ec : x_counts s = map (fun i => Z.of_nat (count_eq i (x_asg s))) (seq 0 M)).
  { apply (nth_ext _ _ 0%Z 0%Z); [rewrite map_length, seq_length; reflexivity|]. intros i Hi. fold M in Hi. rewrite Hc by exact Hi.
    rewrite (nth_indep _ 0%Z (Z.of_nat (count_eq 0 (x_asg s)))) by (rewrite map_length, seq_length; exact Hi).
    rewrite (map_nth (fun x => Z.of_nat (count_eq x (x_asg s)))), seq_nth by exact Hi. reflexivity. }
  set (P := filter (fun i => 0 <? count_eq i (x_asg s)) (seq 0 M)).
  assert (NP : NoDup P) by (apply NoDup_filter, seq_NoDup).
  assert (InP : forall i, In i P -> In i (x_asg s)).
  { intros i. unfold P. rewrite filter_In, Nat.ltb_lt, count_pos. tauto. }
  assert (Sub : incl P (map fst (x_final s))).
  { intros i Hi. apply InP in Hi. apply In_nth with (d := 0) in Hi as (r & Hi & <-). apply Hr. lia. }
  assert (Lcnt : length (filter (fun c => 0 <? c)%Z (x_counts s)) = length P).
  { rewrite Ec, filter_map_length. unfold P. f_equal. apply filter_ext. intros i.
    destruct (Z.ltb_spec 0 (Z.of_nat (count_eq i (x_asg s)))), (Nat.ltb_spec 0 (count_eq i (x_asg s))); auto; lia. }
  unfold verify_consistency in V. rewrite Lcnt in V. destruct (Nat.eqb_spec (length (x_final s)) (length P)) as [E|E]; [|discriminate]. clear V.
  intros i Hi. apply count_pos, InP. assert (Q : incl (map fst (x_final s)) P) by (apply (NoDup_length_incl NP); [rewrite map_length; lia|exact Sub]). exact (Q i Hi).
Qed.

Section Runs.
Variable N : Num.
Notation T := (car N).

Lemma hout_result (g : hcfg N) FP lo s ord : hout g FP lo s -> no_empty s -> (forall l, Permutation l (ord l)) ->
  exists r, h_result g ord s = Ok r /\ good_clusters (g_nrow g) (g_ncol g) r /\ cr_k r = length (x_final s) /\ same_clusters (g_nrow g) (g_ncol g) (x_asg s) (x_final s) r.
Proof.
  intros O He Ho. unfold h_result. apply compact_good with (final := x_final s).
  - apply (o_asg O).
  - apply (o_keys O).
  - intros r Hr. exact (o_rows O Hr).
  - intros i v Hi. split; [apply (o_cent O Hi)|]. rewrite (o_lc O). apply (o_lt O). apply in_map_iff. exists (i, v). auto.
  - intros i Hi. rewrite (o_lc O) in Hi. exact (o_counts O Hi).
  - exact He.
  - apply Ho.
Qed.

Lemma hout_verified (g : hcfg N) FP lo s : hout g FP lo s -> verify_consistency g s = Ok tt -> no_empty s.
Proof.
  intros O. apply verified_no_empty.
  - apply (o_asg O).
  - apply (o_keys O).
  - intros r Hr. exact (o_rows O Hr).
  - intros i Hi. rewrite (o_lc O). exact (o_lt O Hi).
  - intros i Hi. rewrite (o_lc O) in Hi. exact (o_counts O Hi).
Qed.

Lemma h_run_verified (g : hcfg N) centers it data dr scheds fuel s : h_run g false centers it data dr scheds fuel = Ok s -> verify_consistency g s = Ok tt.
Proof.
  unfold h_run. intros H. repeat (apply bind_ok in H as (? & ? & H)). injection H as <-.
  match goal with H : verify_consistency g _ = Ok ?u |- _ => destruct u; exact H end.
Qed.
End Runs.

(** C120, hierarchical clustering, any arithmetic.  [ord] is the order in which the
    unordered map of centroids is visited. *)
Theorem C120_hierarchical : forall N (g : hcfg N) centers it data dr scheds fuel s ord,
  h_valid g data it centers dr -> h_fair g data scheds -> 2 * hclust_floor (g_k g) - 2 <= fuel -> (forall l, Permutation l (ord l)) ->
  h_run g false centers it data dr scheds fuel = Ok s ->
  exists r, h_result g ord s = Ok r /\ good_clusters (g_nrow g) (g_ncol g) r /\
    2 <= cr_k r /\ 2 * cr_k r <= 3 * hclust_floor (g_k g) + 3 /\ same_clusters (g_nrow g) (g_ncol g) (x_asg s) (x_final s) r.
Proof.
  intros N g centers it data dr scheds fuel s ord Hv Hf Hfu Ho E.
  pose proof (@h_run_ok N g data false centers it dr scheds fuel Hv Hf Hfu) as H. rewrite E in H. destruct H as (ws & _ & _ & O & _).
  pose proof (hout_verified O (@h_run_verified N g centers it data dr scheds fuel s E)) as He.
  destruct (@hout_result N g _ _ s ord O He Ho) as (r & Er & G & Ek & Sm). exists r. split; [exact Er|]. split; [exact G|]. rewrite Ek. destruct (o_num O). auto.
Qed.
Print Assumptions C120_hierarchical.

(** ... and over the reals the centroids are the means *)
Theorem C120_hierarchical_means : forall (g : hcfg NumR) centers it data dr scheds fuel s ord,
  h_valid g data it centers dr -> h_fair g data scheds -> 2 * hclust_floor (g_k g) - 2 <= fuel -> (forall l, Permutation l (ord l)) ->
  h_run g false centers it data dr scheds fuel = Ok s ->
  exists r, h_result g ord s = Ok r /\ good_clusters (g_nrow g) (g_ncol g) r /\
    forall j, j < cr_k r ->
      row (cr_centroids r) (g_ncol g) j = vmean (g_ncol g) (map (row data (g_ncol g)) (filter (fun i => nth i (cr_asg r) 0 =? j) (seq 0 (g_nrow g)))).
Proof.
  intros g centers it data dr scheds fuel s ord Hv Hf Hfu Ho E.
  destruct (@C120_hierarchical NumR g centers it data dr scheds fuel s ord Hv Hf Hfu Ho E) as (r & Er & G & _ & _ & Sm). exists r. split; [exact Er|]. split; [exact G|].
  intros j Hj. destruct (Sm j Hj) as (id & v & Hin & Ev & Hid). rewrite Ev.
  pose proof (@C75_centroids g false centers it data dr scheds fuel s Hv Hf Hfu E id v Hin) as M. cbv zeta in M.
  assert (Q : mem_rows (g_nrow g) (row data (g_ncol g)) (x_asg s) id = map (row data (g_ncol g)) (filter (fun i => nth i (cr_asg r) 0 =? j) (seq 0 (g_nrow g)))).
  { unfold mem_rows. apply (f_equal (map (row data (g_ncol g)))). apply filter_ext_in. intros i Hi. apply in_seq in Hi. specialize (Hid i ltac:(lia)).
    destruct (Nat.eqb_spec (nth i (x_asg s) 0) id), (Nat.eqb_spec (nth i (cr_asg r) 0) j); auto; tauto. }
  refine (eq_trans M _). change (car NumR) with R in *. rewrite Q.
  destruct (map (row data (g_ncol g)) (filter _ _)) as [|x l] eqn:El; [|reflexivity]. exfalso.
  destruct G as (_ & _ & La & _ & _ & _ & Gj). destruct (Gj j Hj) as (H1 & _). assert (I : In j (cr_asg r)) by (apply count_pos; lia).
  apply In_nth with (d := 0) in I as (i & Hi & Qi). apply map_eq_nil in El.
  assert (X : In i (filter (fun i => nth i (cr_asg r) 0 =? j) (seq 0 (g_nrow g)))) by (apply filter_In; split; [apply in_seq; lia|apply Nat.eqb_eq; exact Qi]).
  rewrite El in X. destruct X.
Qed.
Print Assumptions C120_hierarchical_means.

(** C120, X-means and G-means (any arithmetic) *)
Theorem C120_xmeans : forall N nlog two_pi (g : hcfg N) centers it data dr scheds ords fuel s tr ord,
  h_valid g data it centers dr -> h_fair g data scheds -> x_orders ords -> 2 * hclust_floor (g_k g) - 2 <= fuel -> (forall l, Permutation l (ord l)) ->
  x_run nlog two_pi g false centers it data dr scheds ords fuel = Ok (s, tr) ->
  exists r, h_result g ord s = Ok r /\ good_clusters (g_nrow g) (g_ncol g) r /\
    1 <= cr_k r /\ 2 * cr_k r <= 3 * hclust_floor (g_k g) + 3 /\ same_clusters (g_nrow g) (g_ncol g) (x_asg s) (x_final s) r.
Proof.
  intros N nlog two_pi g centers it data dr scheds ords fuel s tr ord Hv Hf Hor Hfu Ho E.
  pose proof (@x_run_ok N nlog two_pi g data false centers it dr scheds ords fuel Hv Hf Hor Hfu) as H. rewrite E in H. destruct H as (ws & _ & _ & O & _).
  assert (V : verify_consistency g s = Ok tt).
  { revert E. unfold x_run. intros H. apply bind_ok in H as (x0 & _ & H). apply bind_ok in H as (w0 & _ & H). apply bind_ok in H as (h0 & _ & H).
    apply bind_ok in H as ((x1 & t1) & _ & H). cbn [fst snd] in H. apply bind_ok in H as (x2 & _ & H). apply bind_ok in H as (u & Hu & H). injection H as <- _. destruct u. exact Hu. }
  pose proof (hout_verified O V) as He.
  destruct (@hout_result N g _ _ s ord O He Ho) as (r & Er & G & Ek & Sm). exists r. split; [exact Er|]. split; [exact G|]. rewrite Ek. destruct (o_num O). auto.
Qed.

Theorem C120_gmeans : forall N nlog phi trunc (g : hcfg N) strictness centers it data dr scheds fuel s tr ord,
  h_valid g data it centers dr -> h_fair g data scheds -> (forall l, Permutation l (ord l)) ->
  g_run nlog phi trunc g strictness false centers it data dr scheds fuel = Ok (s, tr) ->
  exists r, h_result g ord s = Ok r /\ good_clusters (g_nrow g) (g_ncol g) r /\
    cr_k r = length (x_final s) /\ same_clusters (g_nrow g) (g_ncol g) (x_asg s) (x_final s) r.
Proof.
  intros N nlog phi trunc g strictness centers it data dr scheds fuel s tr ord Hv Hf Ho E.
  destruct (@C101_gmeans_result N nlog phi trunc g strictness false centers it data dr scheds fuel s tr Hv Hf E) as (La & ND & Hr & Hfi & Hc).
  assert (Hr' : forall r, r < g_nrow g -> In (nth r (x_asg s) 0) (map fst (x_final s))).
  { intros r H. destruct (Hr r H) as (v & Hi). apply in_map_iff. exists (nth r (x_asg s) 0, v). auto. }
  assert (Hl : forall i v, In (i, v) (x_final s) -> length v = g_ncol g /\ i < length (x_counts s)).
  { intros i v Hi. destruct (Hfi i v Hi) as (L & Q). split; [exact L|]. apply nth_error_Some. congruence. }
  assert (He : no_empty s).
  { apply (@verified_no_empty N g s La ND Hr'); [|exact Hc|].
    - intros i Hi. apply in_map_iff in Hi as ((j & v) & <- & Hi). apply (Hl _ _ Hi).
    - revert E. unfold g_run. intros H. apply bind_ok in H as ((x0 & w0) & _ & H). apply bind_ok in H as ((x1 & t1) & _ & H). cbn [fst snd] in H.
      apply bind_ok in H as (x2 & _ & H). apply bind_ok in H as (u & Hu & H). injection H as <- _. destruct u. exact Hu. }
  unfold h_result. apply compact_good with (final := x_final s); auto.
Qed.
Print Assumptions C120_gmeans.

(** so the result can be written and read back (see C116; without the consistency
    check it may not: C116_hierarchical_refuted) *)
From Verif Require Import WriteModel SpecYaml WriteProofs PropertiesWrite ExamplesHclust.
Theorem C120_written : forall T (showd : T -> text) n d (r : cresult T), (forall x, plain (showd x)) -> good_clusters n d r ->
  exists t, write showd r = Ok t /\
    read_result t = Some (mkFile (cr_k r) (cr_iters r) n d (map (fun j => Z.of_nat (count_eq j (cr_asg r))) (seq 0 (cr_k r))) (cr_asg r)
      (map (fun i => map showd (row (cr_centroids r) d i)) (seq 0 (cr_k r)))).
Proof.
  intros T showd n d r Hs (G1 & G2 & G3 & _ & G5 & G6 & G7).
  destruct (@C116_file_partial T showd r Hs) as (t & Ew & Er); [unfold shaped_result; rewrite G1, G2; auto|].
  exists t. split; [exact Ew|]. rewrite Er, G1, G2. do 2 f_equal. apply (nth_ext _ _ 0%Z 0%Z); [rewrite map_length, seq_length; exact G5|].
  intros j Hj. rewrite G5 in Hj. destruct (G7 j Hj) as (_ & Q). rewrite Q. symmetry.
  rewrite (nth_indep _ 0%Z (Z.of_nat (count_eq 0 (cr_asg r)))) by (rewrite map_length, seq_length; exact Hj).
  rewrite (map_nth (fun x => Z.of_nat (count_eq x (cr_asg r)))), seq_nth by exact Hj. reflexivity.
Qed.

(** eight rows in four groups of two; the internal ids are 3, 4, 5, 6 *)
Theorem C120_premises_met : exists s r, h_run (hc 8 4 2 20) false None FORGY d8 dr01 (hsch 8) 10 = Ok s /\
  h_result (hc 8 4 2 20) (fun l => rev l) s = Ok r /\ good_clusters 8 1 r /\ cr_k r = 4 /\ cr_asg r = [0; 0; 1; 1; 2; 2; 3; 3].
Proof.
  destruct hclust_nonvacuous as (Hv & Hf & s & E & _). 
  destruct (@C120_hierarchical NumF (hc 8 4 2 20) None FORGY d8 dr01 (hsch 8) 10 s (fun l => rev l) Hv Hf) as (r & Er & G & _).
  - unfold hclust_floor. cbn. lia.
  - intros l. apply Permutation_rev.
  - exact E.
  - exists s, r. split; [exact E|]. split; [exact Er|]. split; [exact G|].
    assert (Q : okmap (fun r => (cr_k r, cr_asg r)) (let* s := h_run (hc 8 4 2 20) false None FORGY d8 dr01 (hsch 8) 10 in h_result (hc 8 4 2 20) (fun l => rev l) s)
      = Some (4, [0; 0; 1; 1; 2; 2; 3; 3])) by (vm_compute; reflexivity).
    rewrite E in Q. cbn [Base.bind] in Q. rewrite Er in Q. cbn [okmap] in Q. injection Q as Q1 Q2. auto.
Qed.
