(** X-means: the decisions of one round. *)
From Coq Require Import Permutation.
From Verif Require Import Base Num DistModel DistProofs ClustersModel ClustersView ClustersProofs MatLemmas
  PartitionModel PartitionProofs ParModel KmeansModel ParProofs NearProofs KmeansProofs UpdateProofs RunProofs InitProofs Spec ParRule ParSim.
From Verif Require Import ContainersModel PropertiesIds HclustModel HclustProofs HclustUpdate HclustIter HclustSplit HclustRun
  XmeansModel XmeansProofs XmeansDecide.
Set Implicit Arguments.
Unset Strict Implicit.

Lemma NoDup_app' {A} : forall (l l' : list A), NoDup l -> NoDup l' -> (forall x, In x l -> ~ In x l') -> NoDup (l ++ l').
Proof.
  induction l as [|x l IH]; intros l' H H' Hd; cbn [app]; auto. inversion H; subst. constructor.
  - rewrite in_app_iff. intros [X|X]; [tauto|]. apply (Hd x); [left|]; auto.
  - apply IH; auto. intros y Hy. apply Hd. right. exact Hy.
Qed.

Section Round.
Variable N : Num.
Notation T := (car N).
Notation clusters := (clusters N).
Variable nlog : T -> T.
Variable two_pi : T.
Variables (g : hcfg N) (ws : list (worker N)) (data : list T).
Let d := g_ncol g.
Let n := g_nrow g.

(** running sum of the entries [idx] of [v] *)
Definition sum_on (v : list T) (idx : list nat) : T := fold_left (fun a i => nadd N a (nth i v (nzero N))) idx (nzero N).

(** the score of a partition of [nl + nr] rows [rows] *)
Definition score_of (pd cd : list T) (rows : list nat) (nl nr : Z) (pid lid rid : nat) : score N :=
  let n := nofZ N (nl + nr)%Z in
  let pK := none N in
  let cK := nofZ N 2 in
  mkSc pid lid rid
    (if nltb N (nzero N) (nsub N n pK) then bic_value nlog two_pi (g_ncol g) n pK n (ndiv N (sum_on pd rows) (nsub N n pK)) else nmin N)
    (if nltb N (nzero N) (nsub N n cK) then
       nadd N (bic_value nlog two_pi (g_ncol g) n cK (nofZ N nl) (ndiv N (sum_on cd rows) (nsub N n cK)))
              (bic_value nlog two_pi (g_ncol g) n cK (nofZ N nr) (ndiv N (sum_on cd rows) (nsub N n cK))) else nmin N).
Definition bic_of (s : xst N) (pid : nat) (h : hclu N) : score N :=
  score_of (x_pd s) (x_cd s) (memb (x_asg (xh s)) (h_zero h) ++ memb (x_asg (xh s)) (h_one h))
    (nth (h_zero h) (x_counts (xh s)) 0%Z) (nth (h_one h) (x_counts (xh s)) 0%Z) pid (h_zero h) (h_one h).

Lemma sum_at_ok (v : list T) : forall idx acc, (forall i, In i idx -> i < length v) ->
  sum_at v idx acc = Ok (fold_left (fun a i => nadd N a (nth i v (nzero N))) idx acc).
Proof.
  unfold sum_at. induction idx as [|i idx IH]; intros acc H; [reflexivity|]. cbn [for_each fold_left].
  rewrite (@aget_nth _ v i (nzero N)) by (apply H; left; reflexivity). cbn [bind]. apply IH. intros j Hj. apply H. right. exact Hj.
Qed.

Lemma bic_ok (s : xst N) p h : h_zero h < length (x_counts (xh s)) -> h_one h < length (x_counts (xh s)) ->
  length (x_pd s) = length (x_asg (xh s)) -> length (x_cd s) = length (x_asg (xh s)) ->
  bic nlog two_pi g s p (h_zero h) (h_one h) = Ok (bic_of s p h).
Proof.
  intros H0 H1 Lp Lc. unfold bic. rewrite (@aget_nth _ _ (h_zero h) 0%Z) by exact H0. cbn [bind].
  rewrite (@aget_nth _ _ (h_one h) 0%Z) by exact H1. cbn [bind].
  assert (B : forall i x, In i (memb (x_asg (xh s)) x) -> i < length (x_asg (xh s))) by (intros i x Hi; apply in_memb in Hi; tauto).
  rewrite !sum_at_ok by (intros i Hi; apply B in Hi; lia). cbn [bind].
  rewrite sum_at_ok by (intros i Hi; apply B in Hi; lia). cbn [bind].
  rewrite sum_at_ok by (intros i Hi; apply B in Hi; lia). cbn [bind].
  unfold bic_of, score_of, sum_on. rewrite !fold_left_app. reflexivity.
Qed.

(** partitions erased *)
Definition erased (D : list nat) (m : list (option (hclu N))) : list (option (hclu N)) := fold_left (fun m p => upd m p None) D m.
Lemma erased_length : forall D m, length (erased D m) = length m.
Proof. unfold erased. induction D as [|p D IH]; intros m; auto. cbn [fold_left]. rewrite IH. apply upd_length. Qed.
Lemma erased_nth : forall D m i, nth_error (erased D m) i = if in_dec Nat.eq_dec i D then (if i <? length m then Some None else None) else nth_error m i.
Proof.
  unfold erased. induction D as [|p D IH]; intros m i; auto. cbn [fold_left]. rewrite IH, upd_length.
  destruct (in_dec Nat.eq_dec i D) as [X|X], (in_dec Nat.eq_dec i (p :: D)) as [Y|Y]; auto.
  - destruct Y. right. exact X.
  - rewrite nth_error_upd. destruct Y as [->|Y]; [|tauto]. rewrite Nat.eqb_refl. destruct (i <? length m); reflexivity.
  - rewrite nth_error_upd. destruct (Nat.eqb_spec i p) as [->|]; auto. destruct Y. left. reflexivity.
Qed.
Lemma erased_get D m i : hget (erased D m) i = if in_dec Nat.eq_dec i D then None else hget m i.
Proof. unfold hget. rewrite erased_nth. destruct (in_dec Nat.eq_dec i D); auto. destruct (i <? length m); reflexivity. Qed.
Lemma erased_ext D D' m : (forall i, In i D <-> In i D') -> erased D m = erased D' m.
Proof.
  intros H. apply nth_error_ext. intros i. rewrite !erased_nth.
  destruct (in_dec Nat.eq_dec i D) as [X|X], (in_dec Nat.eq_dec i D') as [Y|Y]; auto; rewrite H in X; tauto.
Qed.
Lemma erased_snoc D p m : erased (D ++ [p]) m = upd (erased D m) p None.
Proof. unfold erased. rewrite fold_left_app. reflexivity. Qed.

Variables (M : nat) (FP : list nat -> nat -> list T -> Prop).
Hypothesis Hws : wok n d data ws.
Hypothesis FPs : forall A A' i v, length A = n -> length A' = n ->
  (forall r, r < n -> (nth r A 0 =? i) = (nth r A' 0 =? i)) -> FP A i v -> FP A' i v.

(** the rejected partitions of a state, in the order of their ids *)
Definition rejects (s : xst N) : list nat :=
  filter (fun p => match hget (x_hcl (xh s)) p with Some h => rejected (bic_of s p h) | None => false end) (hm_keys (x_hcl (xh s))).

Lemma decision_ok e (s : xst N) K ord : rinv g ws data M FP e (xh s) -> ready g ws data M (xh s) -> settled g (xh s) ->
  length (x_pd s) = n -> length (x_cd s) = n -> shaped K d (x_cl s) -> (forall p, In p (hm_keys (x_hcl (xh s))) -> p < K) ->
  (forall p asg', In p (hm_keys (x_hcl (xh s))) -> length asg' = n ->
     (forall r, r < n -> (nth r asg' 0 =? p) = (nth r (x_part (xh s)) 0 =? p)) -> FP asg' p (crow (x_cl s) p)) ->
  (forall l : list (score N), Permutation (ord l) l) ->
  exists h', partition_decision nlog two_pi g ord s = Ok (with_h s h') /\
    rinv g ws data M FP (e + 2 * length (rejects s)) h' /\ ready g ws data M h' /\ settled g h' /\
    x_part h' = x_part (xh s) /\ x_curr h' = x_curr (xh s) /\ id_max (x_ider h') = id_max (x_ider (xh s)) /\
    x_hcl h' = erased (rejects s) (x_hcl (xh s)) /\
    (exists D, Permutation D (rejects s) /\ x_final h' = x_final (xh s) ++ map (fun p => (p, crow (x_cl s) p)) D) /\
    length (hm_keys (x_hcl h')) + length (rejects s) = length (hm_keys (x_hcl (xh s))) /\
    (forall r, r < n -> nth r (x_asg h') 0 =
       if in_dec Nat.eq_dec (nth r (x_part (xh s)) 0) (rejects s) then nth r (x_part (xh s)) 0 else nth r (x_asg (xh s)) 0).
Proof.
  intros R Rd St Lpd Lcd Hcl HkK HFP Hord. set (h0 := xh s) in *.
  pose proof (e_asg (r_e R)) as La. fold n in La. pose proof (e_counts (r_e R)) as Lc.
  set (scs := map (fun p => match hget (x_hcl h0) p with Some h => bic_of s p h | None => mkSc 0 0 0 (nzero N) (nzero N) end) (hm_keys (x_hcl h0))).
  assert (Esc : bic_scores nlog two_pi g s = Ok scs).
  { unfold bic_scores. apply mapM_ok. intros p Hp. fold h0 in Hp |- *. apply keys_in in Hp as (h & Hh). rewrite (hm_ref_ok Hh). cbn [bind]. rewrite Hh.
    destruct (e_live (r_e R) Hh) as (_ & _ & _ & Q). destruct (Q 0 ltac:(lia)) as (Q0 & _). destruct (Q 1 ltac:(lia)) as (Q1 & _).
    apply bic_ok; fold h0; [rewrite Lc; exact Q0|rewrite Lc; exact Q1|congruence|congruence]. }
  assert (Hsc : forall sc, In sc scs -> exists h, hget (x_hcl h0) (sc_pid sc) = Some h /\ sc = bic_of s (sc_pid sc) h).
  { intros sc Hin. apply in_map_iff in Hin as (p & E & Hp). apply keys_in in Hp as (h & Hh). rewrite Hh in E. subst sc. exists h. cbn [bic_of score_of sc_pid]. auto. }
  assert (Hpids : map (@sc_pid N) scs = hm_keys (x_hcl h0)).
  { unfold scs. rewrite map_map. rewrite <- (map_id (hm_keys (x_hcl h0))) at 2. apply map_ext_in. intros p Hp. apply keys_in in Hp as (h & Hh). rewrite Hh. reflexivity. }
  assert (Hrejs : map (@sc_pid N) (filter (@rejected N) scs) = rejects s).
  { unfold rejects, scs. fold h0.
    assert (G : forall l, (forall p, In p l -> In p (hm_keys (x_hcl h0))) ->
      map (@sc_pid N) (filter (@rejected N) (map (fun p => match hget (x_hcl h0) p with Some h => bic_of s p h | None => mkSc 0 0 0 (nzero N) (nzero N) end) l)) =
      filter (fun p => match hget (x_hcl h0) p with Some h => rejected (bic_of s p h) | None => false end) l).
    { induction l as [|p l IH]; intros H; auto. cbn [map filter]. assert (Hp := H p (or_introl eq_refl)). apply keys_in in Hp as (h & Hh). rewrite Hh.
      destruct (rejected (bic_of s p h)); cbn [map]; rewrite IH by (intros q Hq; apply H; right; exact Hq); reflexivity. }
    apply G. auto. }
  unfold partition_decision. rewrite Esc. cbn [bind]. fold h0.
  (* the decisions *)
  assert (L1 : okp (for_each (ord scs) (decide g (x_cl s) (x_asg h0)) h0) (fun h' => exists D,
     Permutation D (map (@sc_pid N) (filter (@rejected N) (ord scs))) /\ x_hcl h' = x_hcl h0 /\ x_part h' = x_part h0 /\ x_curr h' = x_curr h0 /\
     id_max (x_ider h') = id_max (x_ider h0) /\ x_final h' = x_final h0 ++ map (fun p => (p, crow (x_cl s) p)) D /\
     (forall r, r < n -> nth r (x_asg h') 0 = if in_dec Nat.eq_dec (nth r (x_part h0) 0) D then nth r (x_part h0) 0 else nth r (x_asg h0) 0) /\
     let v := with_hcl h' (erased D (x_hcl h0)) in
     rinv g ws data M FP (e + 2 * length D) v /\ ready g ws data M v /\ settled g v)).
  { eapply okp_mono.
    { apply (@for_each_okp _ _ (fun rem h' => exists D,
       Permutation (D ++ map (@sc_pid N) (filter (@rejected N) rem)) (map (@sc_pid N) (filter (@rejected N) (ord scs))) /\
       NoDup (map (@sc_pid N) rem) /\ (forall sc, In sc rem -> In sc scs /\ ~ In (sc_pid sc) D) /\
       x_hcl h' = x_hcl h0 /\ x_part h' = x_part h0 /\ x_curr h' = x_curr h0 /\
       id_max (x_ider h') = id_max (x_ider h0) /\ x_final h' = x_final h0 ++ map (fun p => (p, crow (x_cl s) p)) D /\
       (forall r, r < n -> nth r (x_asg h') 0 = if in_dec Nat.eq_dec (nth r (x_part h0) 0) D then nth r (x_part h0) 0 else nth r (x_asg h0) 0) /\
       let v := with_hcl h' (erased D (x_hcl h0)) in
       rinv g ws data M FP (e + 2 * length D) v /\ ready g ws data M v /\ settled g v)).
      - exists []. cbn [app length]. rewrite Nat.mul_0_r, !Nat.add_0_r. cbn [map]. rewrite app_nil_r.
        assert (Ev : with_hcl h0 (erased [] (x_hcl h0)) = h0) by (destruct h0; reflexivity). cbn zeta. rewrite Ev. splits; auto.
        + apply (Permutation_NoDup (l := map (@sc_pid N) scs)); [symmetry; apply Permutation_map, Hord|]. rewrite Hpids. apply keys_nodup.
        + intros sc Hin. split; [exact (Permutation_in _ (Hord scs) Hin)|auto].
      - intros sc rem h' (D & HP & ND & Hin & E1 & E2 & E3 & E4 & E5 & Hrow & R' & Rd' & St').
        destruct (Hin sc (or_introl eq_refl)) as (Hs & HnD). destruct (Hsc sc Hs) as (h & Hh & Eb). cbn [filter map] in HP, ND.
        apply NoDup_cons_iff in ND as (Nin & ND').
        destruct (rejected sc) eqn:Erej.
        2:{ unfold decide. rewrite Erej. cbn [okp]. exists D. splits; auto. intros sc' H'. apply Hin. right. exact H'. }
        assert (Hm : hget (erased D (x_hcl h0)) (sc_pid sc) = Some h) by (rewrite erased_get; destruct in_dec; [tauto|exact Hh]).
        assert (Hk : In (sc_pid sc) (hm_keys (x_hcl h0))) by (apply keys_in; eauto).
        destruct (@reject_ok N g ws data M FP Hws FPs (e + 2 * length D) (x_cl s) (x_asg h0) sc h' (erased D (x_hcl h0)) K h R' Rd' St' Hm)
          as (s2 & E & F1 & F2 & F3 & F4 & F5 & F6 & R2 & Rd2 & St2); auto.
        + rewrite Eb. reflexivity.
        + rewrite Eb. reflexivity.
        + intros j r Hj Hr. rewrite (Hrow r Hr). destruct (in_dec Nat.eq_dec (nth r (x_part h0) 0) D) as [X|X]; auto.
          (* a row of another rejected partition has neither child id *)
          assert (Y : In (nth r (x_part h0) 0) (hm_keys (x_hcl h0))).
          { rewrite <- Hpids. assert (Z : In (nth r (x_part h0) 0) (map (@sc_pid N) (filter (@rejected N) (ord scs)))) by (apply (Permutation_in _ HP); apply in_app_iff; auto).
            apply in_map_iff in Z as (sc' & <- & Z). apply filter_In in Z as (Z & _). apply in_map. exact (Permutation_in _ (Hord scs) Z). }
          apply keys_in in Y as (h2 & Hh2). destruct (St r h2 Hr Hh2) as (j2 & Hj2 & Ej2).
          destruct (e_live (r_e R) Hh) as (_ & _ & _ & Q). destruct (Q j Hj) as (_ & _ & Qn).
          transitivity false; [|symmetry]; apply Nat.eqb_neq; intros Z.
          * rewrite Z in Hh2. congruence.
          * rewrite Ej2 in Z. destruct (@e_inj _ _ _ _ _ _ (r_e R) _ _ _ _ j2 j Hh2 Hh Hj2 Hj Z) as (W & _). rewrite W in X. tauto.
        + intros asg' L' Hr'. apply HFP; auto. rewrite <- E2. exact Hr'.
        + unfold decide. rewrite Erej, E. cbn [okp]. exists (D ++ [sc_pid sc]). rewrite app_length. cbn [length]. cbn zeta in *.
          rewrite erased_snoc. replace (e + 2 * (length D + 1)) with (e + 2 * length D + 2) by lia. splits; auto; try congruence.
          * rewrite <- HP, <- app_assoc. cbn [app map]. reflexivity.
          * intros sc' H'. destruct (Hin sc' (or_intror H')) as (A & B). split; [exact A|]. rewrite in_app_iff. cbn [In].
            intros [X|[X|[]]]; [tauto|]. apply Nin. rewrite X. apply in_map. exact H'.
          * rewrite F5, E5, <- app_assoc, map_app. reflexivity.
          * intros r Hr. rewrite F6, E2, (Hrow r Hr) by exact Hr. rewrite E2 in *.
            destruct (in_dec Nat.eq_dec (nth r (x_part h0) 0) (D ++ [sc_pid sc])) as [X|X]; rewrite in_app_iff in X; cbn [In] in X;
            destruct (Nat.eqb_spec (nth r (x_part h0) 0) (sc_pid sc)) as [Y|Y]; destruct (in_dec Nat.eq_dec (nth r (x_part h0) 0) D) as [Z|Z]; auto; try tauto; intuition congruence. }
    intros h' (D & HP & _ & _ & E). cbn [filter map] in HP. rewrite app_nil_r in HP. exists D. split; [exact HP|exact E]. }
  apply okp_iff in L1 as (h1 & E1 & D & HP & A1 & A2 & A3 & A4 & A5 & A6 & R1 & Rd1 & St1). rewrite E1. cbn [bind].
  assert (HD : Permutation D (rejects s)).
  { rewrite HP, <- Hrejs. apply Permutation_map. clear - Hord. specialize (Hord scs). revert Hord. generalize (ord scs) scs. 
    intros l l' P. induction P as [|x a b P IH|x y a|a b c P1 IH1 P2 IH2]; cbn [filter]; auto.
    - destruct (rejected x); auto.
    - destruct (rejected x), (rejected y); auto. constructor.
    - etransitivity; eauto. }
  assert (HDin : forall i, In i D <-> In i (rejects s)) by (intros i; split; apply Permutation_in; [|apply Permutation_sym]; exact HD).
  (* the erasures *)
  assert (L2 : for_each scs (fun sc h => if rejected sc then let* m := hm_erase (x_hcl h) (sc_pid sc) in Ok (with_hcl h m) else Ok h) h1
     = Ok (with_hcl h1 (erased (rejects s) (x_hcl h0)))).
  { rewrite <- Hrejs.
    assert (G : forall l m, (forall sc, In sc l -> sc_pid sc < length m) ->
      for_each l (fun sc h => if rejected sc then let* m := hm_erase (x_hcl h) (sc_pid sc) in Ok (with_hcl h m) else Ok h) (with_hcl h1 m)
      = Ok (with_hcl h1 (erased (map (@sc_pid N) (filter (@rejected N) l)) m))).
    { clear. induction l as [|sc l IH]; intros m H; [reflexivity|]. cbn [for_each filter]. destruct (rejected sc).
      - unfold hm_erase. sx. rewrite aset_ok by (apply H; left; reflexivity). cbn [bind]. 
        change (with_hcl (with_hcl h1 m) (upd m (sc_pid sc) None)) with (with_hcl h1 (upd m (sc_pid sc) None)).
        rewrite IH by (intros x Hx; rewrite upd_length; apply H; right; exact Hx). reflexivity.
      - cbn [bind]. apply IH. intros x Hx. apply H. right. exact Hx. }
    specialize (G scs (x_hcl h0)). replace (with_hcl h1 (x_hcl h0)) with h1 in G by (rewrite <- A1; destruct h1; reflexivity).
    apply G. intros sc Hin. destruct (Hsc sc Hin) as (h & Hh & _). rewrite (e_hcl (r_e R)). apply (e_live (r_e R) Hh). }
  rewrite L2. cbn [bind]. exists (with_hcl h1 (erased (rejects s) (x_hcl h0))). split; [reflexivity|].
  rewrite (erased_ext _ HDin) in R1, Rd1, St1. rewrite (Permutation_length HD) in *. cbn zeta in *. sx. splits; auto.
  - exists D. split; auto.
  - (* number of partitions *)
    assert (P : Permutation (hm_keys (x_hcl h0)) (hm_keys (erased (rejects s) (x_hcl h0)) ++ rejects s)).
    { assert (NDr : NoDup (rejects s)) by (apply NoDup_filter, keys_nodup).
      assert (Sub : forall p, In p (rejects s) -> In p (hm_keys (x_hcl h0))) by (intros p Hp; apply filter_In in Hp as (Hp & _); exact Hp).
      apply NoDup_Permutation.
      - apply keys_nodup.
      - apply NoDup_app'; auto using keys_nodup. intros p X Y. apply keys_in in X as (h & X). rewrite erased_get in X. destruct in_dec; [discriminate|tauto].
      - intros p. rewrite in_app_iff, !keys_in, erased_get. destruct (in_dec Nat.eq_dec p (rejects s)) as [X|X].
        + split; [auto|]. intros _. apply keys_in. apply Sub. exact X.
        + split; [auto|]. intros [Y|Y]; [exact Y|tauto]. }
    apply Permutation_length in P. rewrite app_length in P. lia.
  - intros r Hr. rewrite (A6 r Hr). destruct (in_dec Nat.eq_dec (nth r (x_part h0) 0) D) as [X|X], (in_dec Nat.eq_dec (nth r (x_part h0) 0) (rejects s)) as [Y|Y]; auto; rewrite HDin in X; tauto.
Qed.
End Round.
