(** The global view of the MPI run, and its main loop, in exact arithmetic. *)
From Coq Require Import Reals Lra.
From Verif Require Import Base Num Spec DistModel ClustersModel ClustersView PartitionModel ParModel KmeansModel PruneModel DistRunModel.
From Verif Require Import MatLemmas VecLemmas ClustersProofs DistProofs PartitionProofs ParProofs NearProofs KmeansProofs UpdateProofs RunProofs InitProofs KmeansR PropertiesKmeansR ParRule DistMatProofs PruneProofs ClusterSums PruneRound PruneUpdate PruneRun PruneRun2 PropertiesPrune DistRunProofs DistRunProofs2 DistRunProofs3 ProcRows DistInitProofs DistRunProofs4.
Set Implicit Arguments.
Local Open Scope R_scope.

(** a finalised coordinate is that of the mean of the members *)
Lemma finF_members (nrow ncol : nat) (data : list R) (cells : list cellR) j (c : list R) :
  length data = (nrow * ncol)%nat -> length cells = nrow -> length c = ncol ->
  (forall i, (i < ncol)%nat -> nth i c 0 = finF (sumF (fun r => row data ncol r) nrow cells) (cntF nrow cells) j i) ->
  c = match members nrow ncol data (asg_of cells) j with [] => vzero ncol | l => vmean ncol l end.
Proof.
  intros Hd Lc Lv Hc. destruct (@members_sum nrow ncol data cells j Lc) as (M1 & M2).
  assert (Hdim : alldim ncol (members nrow ncol data (asg_of cells) j)).
  { unfold alldim, members. apply Forall_forall. intros x Hx. apply in_map_iff in Hx as (r & <- & Hr). apply filter_In in Hr as (Hr & _). apply in_seq in Hr.
    apply (@row_length _ data ncol r nrow); [exact Hd|lia]. }
  set (l := members nrow ncol data (asg_of cells) j) in *.
  assert (Ls : length (vsum ncol l) = ncol) by (apply vsum_length; exact Hdim).
  apply (@vec_ext ncol); [exact Lv| |].
  - destruct l; [apply vzero_length|]. unfold vmean. rewrite map_length. exact Ls.
  - intros i Hi. rewrite Hc by exact Hi. unfold finF. rewrite M1, M2, <- (nth_vsum i Hdim).
    destruct l as [|x [|y t]].
    + cbn [length Z.of_nat Z.ltb Z.compare]. rewrite nth_vzero. cbn [vsum fold_right]. apply nth_vzero.
    + replace (1 <? Z.of_nat (length [x]))%Z with false by reflexivity. unfold vmean. cbn [length INR]. rewrite map_div1. reflexivity.
    + destruct (Z.ltb_spec 1 (Z.of_nat (length (x :: y :: t)))) as [_|H]; [|cbn [length] in H; lia].
      unfold vmean. rewrite <- INR_IZR_INZ. symmetry. apply (@nth_map0 (fun v => v / INR (length (x :: y :: t)))). rewrite Ls. exact Hi.
Qed.

Lemma concat_nth {A} (ls : list (list A)) : forall i r l dd, nth_error ls i = Some l -> (r < length l)%nat ->
  nth (list_sum (map (@length A) (firstn i ls)) + r) (concat ls) dd = nth r l dd.
Proof.
  induction ls as [|l0 ls IH]; intros [|i] r l dd E Hr; try discriminate.
  - injection E as ->. cbn [firstn map list_sum fold_right concat plus]. rewrite app_nth1 by exact Hr. reflexivity.
  - cbn [firstn map concat]. change (list_sum (length l0 :: ?t)) with (length l0 + list_sum t)%nat. rewrite app_nth2 by lia.
    replace (length l0 + list_sum (map (@length A) (firstn i ls)) + r - length l0)%nat with (list_sum (map (@length A) (firstn i ls)) + r)%nat by lia.
    eapply IH; eauto.
Qed.

Lemma proc_prefix G P m : (1 <= P <= G)%nat -> (m < P)%nat -> list_sum (map (proc_nrow G P) (seq 0 m)) = proc_off G P m.
Proof.
  intros HP. induction m as [|m IH]; intros Hm.
  - unfold proc_off. rewrite Nat.mul_0_r. reflexivity.
  - rewrite seq_S, map_app, list_sum_app'', IH by lia. cbn [map list_sum fold_right plus].
    pose proof (@proc_end G P HP m ltac:(lia)) as E. destruct (Nat.eqb_spec (S m) P); [lia|]. rewrite Nat.add_0_r. exact E.
Qed.

(** locating a row *)
Lemma row_owner G P x : (1 <= P <= G)%nat -> (x < G)%nat ->
  exists rk r, (rk < P)%nat /\ (r < proc_nrow G P rk)%nat /\ x = (proc_off G P rk + r)%nat.
Proof.
  intros HP Hx. assert (Hin : In x (concat (map (prows G P) (seq 0 P)))) by (rewrite prows_concat by exact HP; apply in_seq; lia).
  apply in_concat in Hin as (l & Hl & Hin). apply in_map_iff in Hl as (rk & <- & Hrk). apply in_seq in Hrk.
  unfold prows in Hin. apply in_map_iff in Hin as (r & <- & Hr). apply in_seq in Hr. exists rk, r. splits; lia.
Qed.

(** per-process vectors of the right lengths, concatenated *)
Section Concat.
Variables (G P : nat) (A : Type) (ls : list (list A)).
Hypothesis HP : (1 <= P <= G)%nat.
Hypothesis Hl : map (@length A) ls = map (proc_nrow G P) (seq 0 P).

Lemma cc_len : length (concat ls) = G.
Proof.
  rewrite <- (proc_sum HP), <- Hl. clear. induction ls as [|l m IH]; [reflexivity|].
  cbn [concat map]. rewrite app_length, IH. reflexivity.
Qed.
Lemma cc_count : length ls = P.
Proof. rewrite <- (map_length (@length A)), Hl, map_length, seq_length. reflexivity. Qed.
Lemma cc_at rk l : nth_error ls rk = Some l -> (rk < P)%nat /\ length l = proc_nrow G P rk.
Proof.
  intros E. assert (Hrk : (rk < P)%nat) by (rewrite <- cc_count; apply nth_error_Some; congruence). split; [exact Hrk|].
  assert (E2 : nth_error (map (@length A) ls) rk = Some (length l)) by (rewrite nth_error_map, E; reflexivity).
  rewrite Hl, nth_error_map, (nth_error_nth' _ 0%nat) in E2 by (rewrite seq_length; exact Hrk). rewrite seq_nth in E2 by exact Hrk. cbn in E2. congruence.
Qed.
Lemma cc_nth rk l r dd : nth_error ls rk = Some l -> (r < length l)%nat -> nth (proc_off G P rk + r) (concat ls) dd = nth r l dd.
Proof.
  intros E Hr. destruct (cc_at rk E) as (Hrk & _). rewrite <- (concat_nth ls rk dd E Hr). f_equal. f_equal.
  rewrite <- (proc_prefix HP Hrk). rewrite <- firstn_map, Hl, firstn_map. f_equal. f_equal.
  clear - Hrk. replace P with (rk + (P - rk))%nat by lia. rewrite seq_app, firstn_app, seq_length, Nat.sub_diag. cbn [firstn]. rewrite app_nil_r.
  rewrite firstn_all2 by (rewrite seq_length; lia). reflexivity.
Qed.
End Concat.

Section Loop.
Variables (g : kcfg NumR) (P : nat) (data : list (car NumR)).
Let d := g_ncol g.
Let k := g_k g.
Let G := g_nrow g.
Hypothesis HP : (1 <= P <= G)%nat.
Hypothesis Hdata : length data = (G * d)%nat.
Hypothesis HG : (Z.of_nat G < 2 ^ 31)%Z.
Hypothesis Hk2 : (2 <= k)%nat.

Definition gcells (qs : list (dproc NumR)) : list (list cellR) := map (fun q => ps_cells (dp_st q)) qs.

Lemma gcells_len qs : dranks P qs -> Forall (dbody g P data) qs -> map (@length cellR) (gcells qs) = map (proc_nrow G P) (seq 0 P).
Proof.
  intros Hr Hb. unfold gcells. rewrite map_map. rewrite <- Hr, map_map. apply map_ext_in. intros q Hq. rewrite Forall_forall in Hb.
  destruct (Hb q Hq) as (_ & _ & _ & _ & _ & L & _). exact L.
Qed.

Lemma rank_at qs rk q : dranks P qs -> nth_error qs rk = Some q -> dp_rank q = rk.
Proof.
  intros Hr E. assert (E2 : nth_error (map (@dp_rank NumR) qs) rk = Some (dp_rank q)) by (rewrite nth_error_map, E; reflexivity).
  unfold dranks in Hr. rewrite Hr in E2. assert (Hrk : (rk < length (seq 0 P))%nat) by (apply nth_error_Some; congruence).
  rewrite (nth_error_nth' _ 0%nat Hrk) in E2. rewrite seq_length in Hrk. rewrite seq_nth in E2 by exact Hrk. cbn in E2. congruence.
Qed.

(** the sums over the processes are sums over the global assignment *)
Lemma DS_global qs j i : dranks P qs -> Forall (dbody g P data) qs ->
  DS g P data qs j i = sumF (fun r => row data d r) G (concat (gcells qs)) j i.
Proof.
  intros Hr Hb. unfold sumF. etransitivity; [|symmetry; apply (@rsum_rows G P HP)]. unfold DS.
  etransitivity; [|exact (f_equal rsum (@ranks_map P _ _ (fun rk => rsum (map (fun r => IZR (ind (casg (nth (proc_off G P rk + r) (concat (gcells qs)) dcell)) j) * nth i (row data d (proc_off G P rk + r)) 0) (seq 0 (proc_nrow G P rk)))) Hr))].
  f_equal. apply map_ext_in. intros q Hq. unfold sq, sumF, nq. f_equal. apply map_ext_in. intros r Hin. apply in_seq in Hin.
  apply In_nth_error in Hq as (rk & E). pose proof (rank_at rk Hr E) as Erk. subst rk.
  assert (Eg : nth_error (gcells qs) (dp_rank q) = Some (ps_cells (dp_st q))) by (unfold gcells; rewrite nth_error_map, E; reflexivity).
  rewrite Forall_forall in Hb. destruct (Hb q (nth_error_In _ _ E)) as (B1 & _ & _ & _ & _ & L & _).
  rewrite (@cc_nth G P _ (gcells qs) HP (gcells_len Hr (proj2 (Forall_forall _ _) Hb)) (dp_rank q) _ r dcell Eg) by (rewrite L; unfold nq; exact (proj2 Hin)).
  f_equal. exact (f_equal (fun l : list R => nth i l 0) (@proc_row NumR g P data HP Hdata (dp_rank q) r B1 (proj2 Hin))).
Qed.

Lemma DC_global qs j : dranks P qs -> Forall (dbody g P data) qs ->
  DC g P qs j = cntF G (concat (gcells qs)) j.
Proof.
  intros Hr Hb. unfold cntF. etransitivity; [|symmetry; apply (@zsum_rows G P HP)]. unfold DC.
  rewrite <- (@ranks_map P _ _ (fun rk => zsum (map (fun r => ind (casg (nth (proc_off G P rk + r) (concat (gcells qs)) dcell)) j) (seq 0 (proc_nrow G P rk)))) Hr).
  f_equal. apply map_ext_in. intros q Hq. unfold cq, cntF, nq. f_equal. apply map_ext_in. intros r Hin. apply in_seq in Hin.
  apply In_nth_error in Hq as (rk & E). pose proof (rank_at rk Hr E) as Erk. subst rk.
  assert (Eg : nth_error (gcells qs) (dp_rank q) = Some (ps_cells (dp_st q))) by (unfold gcells; rewrite nth_error_map, E; reflexivity).
  rewrite Forall_forall in Hb. destruct (Hb q (nth_error_In _ _ E)) as (B1 & _ & _ & _ & _ & L & _).
  rewrite (@cc_nth G P _ (gcells qs) HP (gcells_len Hr (proj2 (Forall_forall _ _) Hb)) (dp_rank q) _ r dcell Eg) by (rewrite L; unfold nq; exact (proj2 Hin)).
  reflexivity.
Qed.

(* ------------------------------------------------------------------ *)
(** * The loop *)
Definition dbounds (qs : list (dproc NumR)) : Prop := Forall (fun q => forall r, (r < nq g P q)%nat -> qbound g P data q r) qs.

Definition turn (first : bool) (qs qs' : list (dproc NumR)) : Prop :=
  dinv g P data qs' /\ Forall2 (dstep1 g P data first) qs qs' /\ (g_dt g = EUCL -> dbounds qs').

(** [more] are the states after the turns from [qs] on *)
Fixpoint turns (first : bool) (qs : list (dproc NumR)) (more : list (list (dproc NumR))) : Prop :=
  match more with
  | [] => True
  | qs' :: t => turn first qs qs' /\ (first = false -> g_dt g = EUCL -> dbounds qs) /\ turns false qs' t
  end.

Definition nchg (first : bool) (qs qs' : list (dproc NumR)) : nat := if first then G else changes g P qs qs'.

(** no turn but possibly the last meets the stop test *)
Fixpoint stops (first : bool) (qs : list (dproc NumR)) (more : list (list (dproc NumR))) (conv : bool) : Prop :=
  match more with
  | [] => conv = false
  | qs' :: t => if stop_test g (nchg first qs qs') then conv = true /\ t = [] else stops false qs' t conv
  end.

Lemma dfair_next sched qs qs' first : dfair sched qs -> Forall2 (dstep1 g P data first) qs qs' -> dfair sched qs'.
Proof.
  intros Hf H q' Hq'. destruct (@Forall2_in_r _ _ _ _ _ _ H Hq') as (q & Hq & (R & W & _)). rewrite R, W. apply Hf. exact Hq.
Qed.

Lemma loop_ok scheds : forall n iters qs trace, (forall i, dfair (scheds i) qs) ->
  (if (iters =? 0)%nat then dpre g P data qs else dinv g P data qs /\ (g_dt g = EUCL -> dbounds qs)) ->
  exists conv more, dist_loop g scheds n iters qs trace = Ok ((iters + length more)%nat, conv, last more qs, trace ++ more) /\
    turns (iters =? 0)%nat qs more /\ stops (iters =? 0)%nat qs more conv /\ (length more <= n)%nat /\ (conv = false -> length more = n).
Proof.
  induction n as [|n IH]; intros iters qs trace Hf Hi.
  - exists false, []. cbn [dist_loop length turns stops]. rewrite app_nil_r, Nat.add_0_r. splits; auto.
  - cbn [dist_loop].
    destruct (@step_ok g P data HP Hdata HG Hk2 (iters =? 0)%nat (scheds iters) qs (Hf iters)) as (qs' & nch & E & Hi' & Hst & Hn).
    { destruct (iters =? 0)%nat; [exact Hi|apply Hi]. }
    rewrite E. cbn [bind].
    assert (Hbd : g_dt g = EUCL -> dbounds qs').
    { intros Hdt. unfold dbounds. apply Forall_forall. intros q' Hq' r Hr. destruct (@Forall2_in_r _ _ _ _ _ _ Hst Hq') as (q & Hq & (R & _ & _ & H4)).
      unfold nq in Hr. rewrite R in Hr. apply H4; auto. destruct (iters =? 0)%nat; [left; reflexivity|right].
      destruct Hi as (_ & Hi). specialize (Hi Hdt). unfold dbounds in Hi. rewrite Forall_forall in Hi. apply Hi; auto. }
    assert (Ht : turn (iters =? 0)%nat qs qs') by (unfold turn; auto).
    assert (Hb0 : (iters =? 0)%nat = false -> g_dt g = EUCL -> dbounds qs) by (intros E0 Hdt; rewrite E0 in Hi; apply Hi; exact Hdt).
    assert (Hn' : nch = nchg (iters =? 0)%nat qs qs') by exact Hn. rewrite Hn'. clear Hn Hn'.
    destruct (stop_test g (nchg (iters =? 0)%nat qs qs')) eqn:Est.
    + exists true, [qs']. cbn [length turns stops last]. rewrite Est. rewrite Nat.add_1_r. splits; auto; try lia.
    + destruct (IH (S iters) qs' (trace ++ [qs'])) as (conv & more & E2 & H1 & H2 & H3 & H4).
      { intros i. eapply dfair_next; eauto. }
      { cbn [Nat.eqb]. auto. }
      exists conv, (qs' :: more). cbn [Nat.eqb] in H1, H2. rewrite E2. cbn [length turns stops]. rewrite Est.
      rewrite <- app_assoc. cbn [app]. splits; auto; try lia.
      f_equal. f_equal. f_equal; [f_equal; lia|]. symmetry. apply last_cons'.
Qed.

Lemma turns_nth : forall more first qs i a b, turns first qs more -> nth_error (qs :: more) i = Some a -> nth_error more i = Some b ->
  exists f, turn f a b /\ (f = false -> g_dt g = EUCL -> dbounds a) /\ f = (if (i =? 0)%nat then first else false).
Proof.
  induction more as [|q1 more IH]; intros first qs [|i] a b Ht E1 E2; try discriminate.
  - cbn in E1, E2. injection E1 as <-. injection E2 as <-. destruct Ht as (H1 & H2 & _). exists first. auto.
  - destruct Ht as (H1 & H2 & H3). cbn [nth_error] in E1, E2.
    destruct (IH false q1 i a b H3 E1 E2) as (f & F1 & F2 & F3). exists f. splits; auto. rewrite F3. destruct (i =? 0)%nat; reflexivity.
Qed.

End Loop.
