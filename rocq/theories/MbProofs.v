(** Mini-batch k-means in exact arithmetic. *)
From Coq Require Import Reals Lra.
From Verif Require Import Base Num Spec DistModel ClustersModel ClustersView PartitionModel ParModel KmeansModel PruneModel MatrixModel MbModel.
From Verif Require Import MatLemmas VecLemmas ClustersProofs DistProofs PartitionProofs ParProofs NearProofs KmeansProofs UpdateProofs RunProofs ParRule DistMatProofs PruneProofs ClusterSums PruneRound PruneUpdate PruneRun.
From Verif Require Import InitProofs SimProofs PropertiesRun KmsppR PruneRun2.
Set Implicit Arguments.

Section Ids.
Variable N : Num.

Lemma for_each_invok {A St} (P : St -> Prop) (body : A -> St -> res St) :
  (forall x s s', P s -> body x s = Ok s' -> P s') -> forall l s s', P s -> for_each l body s = Ok s' -> P s'.
Proof.
  intros Hb. induction l as [|x l IH]; intros s s' Hs H; cbn [for_each] in H; [injection H as <-; exact Hs|].
  apply bind_ok in H as (s1 & E & H). eapply IH; [|exact H]. eapply Hb; eauto.
Qed.

Lemma par_run_forall {C L} (Q : C -> Prop) (step : nat -> nat -> L -> C -> res (L * C)) ranges sched cells locs ls cs :
  (forall t r l c l' c', Q c -> step t r l c = Ok (l', c') -> Q c') ->
  Forall Q cells -> par_run step ranges sched cells locs = Ok (ls, cs) -> Forall Q cs.
Proof.
  intros Hs Hc H. unfold par_run in H. apply bind_ok in H as (st & E & H). injection H as _ <-.
  revert E. apply (for_each_invok (fun st => Forall Q (ParModel.ps_cells st))); [|exact Hc].
  intros t s s' Hq Hb. unfold par_step in Hb. destruct (nth_error ranges t) as [[a n]|]; [|injection Hb as <-; exact Hq].
  destruct (nth_error (ps_loc s) t) as [[r l]|]; [|injection Hb as <-; exact Hq].
  destruct (r <? n); [|injection Hb as <-; exact Hq].
  apply bind_ok in Hb as (c & Ec & Hb). apply bind_ok in Hb as ([l' c'] & El & Hb). apply bind_ok in Hb as (cl' & Ea & Hb). injection Hb as <-.
  cbn [ParModel.ps_cells fst snd] in *. apply aset_inv in Ea as (_ & ->).
  apply aget_ok in Ec. assert (Qc : Q c) by (rewrite Forall_forall in Hq; apply Hq; eapply nth_error_In; eauto).
  specialize (Hs _ _ _ _ _ _ Qc El). clear - Hq Hs.
  revert Hq. generalize (a + r) as i. induction (ParModel.ps_cells s) as [|x l IH]; intros i Hq; cbn [upd]; [constructor|].
  inversion Hq; subst. destruct i; constructor; auto.
Qed.

Definition idok (k : nat) (a : option nat) : Prop := match a with None => True | Some c => c < k end.

Lemma kmspp_loop_ids (g : kcfg N) ws data sch ur : forall n ci s trace chosen s' tr ch, ci < g_k g ->
  kmspp_loop g ws data sch ur n ci s trace chosen = Ok (s', tr, ch) ->
  Forall (fun e => idok (g_k g) (snd e)) (snd s) -> Forall (fun e => idok (g_k g) (snd e)) (snd s').
Proof.
  induction n as [|n IH]; intros ci s trace chosen s' tr ch Hci H Hs; cbn [kmspp_loop] in H; [discriminate|].
  apply bind_ok in H as ([ls cs] & E & H). cbn [fst snd] in H.
  apply (@par_run_forall _ _ (fun e => idok (g_k g) (snd e))) in E; auto.
  2:{ intros t r l c l' c' Hc Hst. unfold kmspp_row in Hst. apply bind_ok in Hst as (w & _ & Hst). apply bind_ok in Hst as (dd & _ & Hst). injection Hst as _ <-.
      destruct (nltb N dd (fst c)); cbn; auto. }
  destruct (Nat.leb_spec (g_k g) (S ci)) as [Hk|Hk]; [injection H as <- _ _; exact E|].
  destruct (kmspp_pick N (map fst cs) 0 _) as [[r|] cuml].
  - apply bind_ok in H as (s1 & E1 & H). apply bind_ok in H as (_u & _ & H).
    apply bind_ok in E1 as (p & _ & E1). apply bind_ok in E1 as (c & _ & E1). apply bind_ok in E1 as (cells & Ec & E1). injection E1 as <-.
    eapply IH; [|exact H|]; [lia|]. cbn [snd]. apply amod_inv in Ec as (y & Ey & ->).
    clear - E Hk. revert r. induction cs as [|x l IHl]; intros i; cbn [upd]; [constructor|].
    inversion E; subst. destruct i; constructor; auto.
  - cbn [Base.bind] in H. apply bind_ok in H as (_u & _ & H). eapply IH; [|exact H|]; [lia|exact E].
Qed.

Lemma upd_forall {A} (Q : A -> Prop) v : Q v -> forall l i, Forall Q l -> Forall Q (upd l i v).
Proof. intros Hv. induction l as [|x l IH]; intros i H; cbn [upd]; [constructor|]. inversion H; subst. destruct i; constructor; auto. Qed.

Lemma combine_forall_r {A B} (Q : B -> Prop) : forall (u : list A) (v : list B), Forall Q v -> Forall (fun e => Q (snd e)) (combine u v).
Proof. induction u as [|x u IH]; intros [|y v] H; cbn; try constructor; inversion H; subst; auto. Qed.

(** the initialiser's assignments are in range *)
Lemma run_init_ids (g : kcfg N) it ws data dr s s' : 1 <= g_k g -> draws_ok g data it dr ->
  run_init g it ws data dr s = Ok s' -> Forall (idok (g_k g)) (s_asg s) -> Forall (idok (g_k g)) (s_asg s').
Proof.
  intros Hk D H Hs. unfold run_init in H. destruct it; cbn [draws_ok] in D.
  - unfold random_partition_init in H. apply bind_ok in H as ([c a] & E & H). apply bind_ok in H as (c' & _ & H). injection H as <-. cbn [s_asg fst snd] in *.
    apply (@loop_inv_ok _ (fun _ (ca : clusters N * list (option nat)) => Forall (idok (g_k g)) (snd ca)) _ _ _ _ E); auto.
    intros j [c1 a1] [c2 a2] Hj H1 Eb. cbn [fst snd] in *.
    apply bind_ok in Eb as (p & _ & Eb). apply bind_ok in Eb as (c3 & Ec & Eb). apply bind_ok in Eb as (a3 & Ea & Eb).
    injection Eb as <- <-. apply aset_inv in Ea as (_ & ->). apply upd_forall; auto. cbn. apply D. lia.
  - unfold forgy_init in H. apply bind_ok in H as (c & _ & H). injection H as <-. exact Hs.
  - apply bind_ok in H as ([[[s1 dv] tr] ch] & E & H). injection H as <-. unfold kmeanspp_init_t in E.
    apply bind_ok in E as (p & _ & E). apply bind_ok in E as (c & _ & E). apply bind_ok in E as (dist & _ & E). apply bind_ok in E as (asg & Ea & E).
    apply bind_ok in E as ([[[c2 cells] tr'] ch'] & El & E). injection E as <- _ _ _. cbn [s_asg].
    apply kmspp_loop_ids in El; cbn [snd] in *; [|lia|].
    + rewrite Forall_map. exact El.
    + apply combine_forall_r. apply aset_inv in Ea as (_ & ->). apply upd_forall; auto.
  - injection H as <-. exact Hs.
Qed.

Lemma prune_run_init_ids (g : kcfg N) it ws data dr s s' : 1 <= g_k g -> draws_ok g data it dr ->
  prune_run_init g it ws data dr s = Ok s' -> Forall (idok (g_k g)) (asg_of (PruneModel.ps_cells s)) ->
  Forall (fun c => idok (g_k g) (snd (fst c))) (PruneModel.ps_cells s').
Proof.
  intros Hk D H Hs. unfold prune_run_init in H.
  set (ks := mkSt _ _ _ _ _) in H.
  assert (G : exists ks' dv, run_init g it ws data dr ks = Ok ks' /\ PruneModel.ps_cells s' = combine (combine dv (s_asg ks')) (map snd (PruneModel.ps_cells s))).
  { destruct it; cbn [run_init] in *.
    1,2,4: apply bind_ok in H as (ks' & E & H); injection H as <-; exists ks', (dist_of (PruneModel.ps_cells s)); split; [exact E|reflexivity].
    apply bind_ok in H as ([[[ks' dv] tr] ch] & E & H). injection H as <-. exists ks', dv. rewrite E. split; reflexivity. }
  destruct G as (ks' & dv & E & ->). apply run_init_ids in E; auto.
  apply (@combine_forall_r _ _ (idok (g_k g)) dv) in E. clear - E.
  revert E. generalize (combine dv (s_asg ks')) as l. generalize (map snd (PruneModel.ps_cells s)) as m.
  intros m l. revert m. induction l as [|x l IH]; intros [|y m] H; cbn [combine]; try constructor; inversion H; subst; auto.
Qed.

End Ids.

Local Open Scope R_scope.

Lemma for_fold {St} (f : St -> nat -> St) (body : nat -> St -> res St) : forall n i s,
  (forall j s, (i <= j < i + n)%nat -> body j s = Ok (f s j)) -> for_ n i body s = Ok (fold_left f (seq i n) s).
Proof.
  induction n as [|n IH]; intros i s H; cbn [for_ seq fold_left]; [reflexivity|].
  rewrite H by lia. cbn [Base.bind]. apply IH. intros j s' Hj. apply H. lia.
Qed.

Lemma for_each_concat {A B St} (h : A -> list B) (body : B -> St -> res St) : forall l s,
  for_each l (fun x s => for_each (h x) body s) s = for_each (concat (map h l)) body s.
Proof.
  assert (G : forall (a b : list B) s, for_each (a ++ b) body s = Base.bind (for_each a body s) (for_each b body)).
  { induction a as [|x a IH]; intros b s; cbn [app for_each]; [reflexivity|]. destruct (body x s); cbn [Base.bind]; auto. }
  induction l as [|x l IH]; intros s; cbn [for_each map concat]; [reflexivity|].
  rewrite G. destruct (for_each (h x) body s); cbn [Base.bind]; auto.
Qed.

(** one move of a centroid [c] towards the row [x] at rate [e] *)
Definition mv (e : R) (c x : list R) : list R := map2 (fun a b => (1 - e) * a + e * b) c x.

Section Iter.
Variables (g : kcfg NumR) (ws : list (worker NumR)) (data : list (car NumR)).
Let d := g_ncol g.
Let k := g_k g.
Let n := g_nrow g.
Let X (r : nat) : list R := row data d r.
Hypothesis Hws : wok n d data ws.
Hypothesis Hdata : length data = (n * d)%nat.
Hypothesis Hk1 : (1 <= k)%nat.

Lemma mb_X_len r : (r < n)%nat -> @length R (X r) = d.
Proof. intros Hr. apply (@row_length _ data d r n); auto. Qed.

(** the scan of a sampled row: stored distance and assignment *)
Definition mscan (C : nat -> list R) (x : list R) (dv : R) (a : option nat) : R * option nat :=
  fold_left (fun s j => if Rltb (rdist (g_dt g) x (C j)) (fst s) then (rdist (g_dt g) x (C j), Some j) else s) (seq 0 k) (dv, a).

Lemma prow_scan (x : ptr R) xv (c : clusters NumR) dv a :
  slice (fst x) (snd x) d = xv -> length xv = d -> shaped k d c ->
  prow_init NumR x (c_means c) d k (g_dt g) dv a = Ok (mscan (crow c) xv dv a).
Proof.
  intros Hx Lx Hc. unfold prow_init, loop. apply (@for_fold (R * option nat)). intros j s Hj.
  rewrite (@dist_row k d (g_dt g) x xv c j Hx Lx Hc) by lia. reflexivity.
Qed.

Lemma mscan_id C x dv a : idok k a -> idok k (snd (mscan C x dv a)).
Proof.
  intros Ha. unfold mscan. assert (G : forall l s, (forall j, In j l -> (j < k)%nat) -> idok k (snd s) ->
    idok k (snd (fold_left (fun s j => if Rltb (rdist (g_dt g) x (C j)) (fst s) then (rdist (g_dt g) x (C j), Some j) else s) l s))).
  { induction l as [|j l IH]; intros s Hl Hs; cbn [fold_left]; [exact Hs|]. apply IH; [intros; apply Hl; right; auto|].
    destruct (Rltb _ _); [cbn; apply Hl; left; reflexivity|exact Hs]. }
  apply G; [|exact Ha]. intros j Hj. apply in_seq in Hj. lia.
Qed.

Section Round.
Variables (perctg : R) (u : nat -> R).
Definition smp (r : nat) : bool := negb (Rltb perctg (u r)).
Definition newcell (C : nat -> list R) (r : nat) (c : cellR) : cellR :=
  if smp r then (fst (mscan C (X r) (cdist c) (casg c)), snd (mscan C (X r) (cdist c) (casg c)), snd c) else c.

Lemma mb_range_worker t s m : nth_error (w_ranges ws) t = Some (s, m) -> exists w, nth_error ws t = Some w /\ w_start w = s /\ w_nrow w = m.
Proof.
  unfold w_ranges. rewrite nth_error_map. destruct (nth_error ws t) as [w|]; cbn; [|discriminate]. intros H. injection H as <- <-. eauto.
Qed.

Lemma mb_round (p : prune_clusters NumR) sched (cells : list cellR) :
  shaped k d (p_cl p) -> complete (w_ranges ws) sched -> length cells = n ->
  exists locs cells', par_run (mb_row g ws p perctg u) (w_ranges ws) sched cells (map (fun _ => []) ws) = Ok (locs, cells') /\
    length locs = length ws /\ length cells' = n /\
    (forall r, (r < n)%nat -> nth r cells' dcell = newcell (crow (p_cl p)) r (nth r cells dcell)) /\
    (forall t w, nth_error ws t = Some w -> nth_error locs t = Some (filter (fun i => smp (w_start w + i)) (seq 0 (w_nrow w)))).
Proof.
  intros Hp Hc Lc.
  set (Q := fun t : nat * cellR * cellR => snd t = newcell (crow (p_cl p)) (fst (fst t)) (snd (fst t))).
  assert (Ht : ntiles 0 (length cells) (w_ranges ws)) by (rewrite Lc; apply Hws).
  assert (L0 : length (map (fun _ : worker NumR => @nil nat) ws) = length (w_ranges ws)) by (unfold w_ranges; rewrite !map_length; reflexivity).
  destruct (@par_run_rule _ _ dcell (mb_row g ws p perctg u) (w_ranges ws) cells _ Ht L0
     (fun t l tr => (forall w, nth_error ws t = Some w -> l = filter (fun i => smp (w_start w + i)) (seq 0 (length tr))) /\ Forall Q tr)) with (sched := sched)
     as (locs & cells' & E & Lo & Lc' & H).
  - intros t l0 E. rewrite nth_error_map in E. destruct (nth_error ws t); cbn in E; [|discriminate]. injection E as <-. split; [reflexivity|constructor].
  - intros t s m r l tr Er Hr Hb Htr (Hl & HQ).
    destruct (mb_range_worker t Er) as (w & Ew & <- & <-).
    unfold mb_row, aget. rewrite Ew. cbn [Base.bind]. change (nltb NumR perctg (u (w_start w + r)%nat)) with (Rltb perctg (u (w_start w + r)%nat)).
    destruct (Rltb perctg (u (w_start w + r)%nat)) eqn:Eu.
    + exists l, (nth (w_start w + r) cells dcell). split; [reflexivity|]. split.
      * intros w' Ew'. injection Ew' as <-. rewrite app_length. cbn [length]. rewrite Nat.add_1_r, seq_S, filter_app. cbn [filter plus].
        rewrite Htr. unfold smp at 2. rewrite Eu. cbn [negb]. rewrite app_nil_r, <- Htr. apply Hl. exact Ew.
      * apply Forall_app. split; auto. constructor; [|constructor]. unfold Q. cbn [fst snd]. unfold newcell, smp. rewrite Eu. reflexivity.
    + destruct (nth (w_start w + r) cells dcell) as [[dv old] rc] eqn:Ecell.
      assert (Hrow : slice (fst (wrow w d r)) (snd (wrow w d r)) d = X (w_start w + r)).
      { apply Hws; [eapply nth_error_In; eauto|exact Hr]. }
      assert (Lx : @length R (X (w_start w + r)) = d) by (apply mb_X_len; lia).
      pose proof (@prow_scan (wrow w d r) (X (w_start w + r)) (p_cl p) dv old Hrow Lx Hp) as E1. pose proof Hp as (Hk' & _). unfold k, d in E1. rewrite Hk'. unfold k. rewrite E1. cbn [Base.bind fst snd].
      eexists _, _. split; [reflexivity|]. split.
      * intros w' Ew'. injection Ew' as <-. rewrite app_length. cbn [length]. rewrite Nat.add_1_r, seq_S, filter_app. cbn [filter plus].
        rewrite Htr. unfold smp at 2. rewrite Eu. cbn [negb]. f_equal. rewrite <- Htr. apply Hl. exact Ew.
      * apply Forall_app. split; auto. constructor; [|constructor]. unfold Q. cbn [fst snd]. unfold newcell, smp, cdist, casg. cbn [fst snd]. rewrite Eu. reflexivity.
  - exact Hc.
  - exists locs, cells'. splits; auto.
    + rewrite Lo. unfold w_ranges. apply map_length.
    + congruence.
    + intros r Hr. pose proof (@rule_rows _ dcell cells cells' (w_ranges ws) Q Ht) as HR.
      apply (HR (fun t s m Er => match H t s m Er with ex_intro _ l (conj _ (conj _ HQ)) => HQ end) r). lia.
    + intros t w Ew. assert (Er : nth_error (w_ranges ws) t = Some (w_start w, w_nrow w)) by (unfold w_ranges; rewrite nth_error_map, Ew; reflexivity).
      destruct (H t _ _ Er) as (l & El & Hl & _). rewrite El. f_equal. rewrite (Hl w Ew), triples_length. reflexivity.
Qed.

End Round.

(** the learning rates *)
Definition acnt (j : nat) (l : list (option nat)) : nat := length (filter (fun a => id_eqb a (Some j)) l).

Lemma mb_eta_R (cells : list cellR) : Forall (idok k) (asg_of cells) ->
  exists v, mb_eta k cells = Ok v /\ @length R v = k /\ forall j, (j < k)%nat -> nth j v 0 = 1 / INR (acnt j (asg_of cells)).
Proof.
  intros Hid. unfold mb_eta.
  assert (G : forall l v, Forall (idok k) l -> @length R v = k ->
    exists v', for_each l (fun cid (v : list (car NumR)) => match cid with None => Ok v | Some c => amod v c (fun x => nadd NumR x (none NumR)) end) v = Ok v' /\
      @length R v' = k /\ forall j, (j < k)%nat -> nth j v' 0 = nth j v 0 + INR (acnt j l)).
  { induction l as [|a l IH]; intros v Hl Lv; cbn [for_each].
    - exists v. splits; auto. intros j _. unfold acnt. cbn. lra.
    - inversion Hl as [|? ? Ha Hl']; subst. destruct a as [c|]; cbn [idok] in Ha.
      + destruct (nth_error v c) as [y|] eqn:Ey; [|apply nth_error_None in Ey; rewrite Lv in Ey; lia].
        rewrite (amod_ok _ _ _ Ey). cbn [Base.bind]. destruct (IH (upd v c (nadd NumR y (none NumR))) Hl' ltac:(rewrite upd_length; exact Lv)) as (v' & -> & Lv' & Hv').
        exists v'. splits; auto. intros j Hj. rewrite Hv' by exact Hj. unfold acnt. cbn [filter id_eqb].
        rewrite (@nth_upd R v c _ j 0) by (rewrite Lv; exact Ha).
        rewrite (Nat.eqb_sym c j). destruct (Nat.eqb_spec j c) as [->|Hne]; [|reflexivity].
        cbn [length]. rewrite S_INR. apply nth_error_nth with (d := 0) in Ey. rewrite Ey. change (nadd NumR y (none NumR)) with (y + 1). lra.
      + cbn [Base.bind]. destruct (IH v Hl' Lv) as (v' & -> & Lv' & Hv'). exists v'. splits; auto. }
  destruct (G (asg_of cells) (repeat 0 k) Hid (repeat_length _ _)) as (v & Ev & Lv & Hv). match goal with |- context [Base.bind ?t _] => replace t with (Ok v : res (list R)) by (symmetry; exact Ev) end. cbn [Base.bind].
  assert (H : okp (loop k (fun cid (v : list (car NumR)) => amod v cid (fun x => ndiv NumR (none NumR) x)) v)
    (fun v' => @length R v' = k /\ forall j, (j < k)%nat -> nth j v' 0 = 1 / nth j v 0)).
  { eapply okp_mono; [apply (@loop_okp _ (fun i v' => @length R v' = k /\ forall j, (j < k)%nat -> nth j v' 0 = if (j <? i)%nat then 1 / nth j v 0 else nth j v 0))|].
    - split; auto.
    - intros i v' Hi (L & Hn). destruct (nth_error v' i) as [y|] eqn:Ey; [|apply nth_error_None in Ey; rewrite L in Ey; lia].
      rewrite (amod_ok _ _ _ Ey). cbn [okp]. split; [rewrite upd_length; exact L|]. intros j Hj. rewrite (@nth_upd R v' i _ j 0) by (rewrite L; exact Hi).
      apply nth_error_nth with (d := 0) in Ey. specialize (Hn j Hj).
      destruct (Nat.eqb_spec j i) as [->|Hne].
      + rewrite Nat.ltb_irrefl in Hn. destruct (Nat.ltb_spec i (S i)); [|lia]. rewrite <- Hn, Ey. reflexivity.
      + rewrite Hn. destruct (Nat.ltb_spec j i); destruct (Nat.ltb_spec j (S i)); try lia; reflexivity.
    - intros v' (L & Hn). split; auto. intros j Hj. rewrite Hn by exact Hj. apply Nat.ltb_lt in Hj. rewrite Hj. reflexivity. }
  apply okp_iff in H as (v' & -> & L & Hn). exists v'. splits; auto. intros j Hj. rewrite Hn, Hv by exact Hj.
  f_equal. rewrite nth_repeat. lra.
Qed.

Definition gid (x : worker NumR * nat) : nat := (w_start (fst x) + snd x)%nat.
Definition asg_at (cells : list cellR) (r : nat) : option nat := casg (nth r cells dcell).
Definition fin_body (eta : list R) (cells : list cellR) (x : worker NumR * nat) (c : clusters NumR) : res (clusters NumR) :=
  let* a := aget (asg_of cells) (w_start (fst x) + snd x) in
  match a with
  | None => Err Abort
  | Some cid =>
    let* _ := assert_ (cid <? c_nclust c) in
    let* e := aget eta cid in
    scale_centroid c e cid (wrow (fst x) (g_ncol g) (snd x))
  end.

Lemma fin_list (eta : list R) (cells : list cellR) : @length R eta = k -> length cells = n -> Forall (idok k) (asg_of cells) ->
  forall L c, (forall x, In x L -> In (fst x) ws /\ (snd x < w_nrow (fst x))%nat /\ (gid x < n)%nat) -> shaped k d c ->
  match for_each L (fin_body eta cells) c with
  | Ok c' => shaped k d c' /\
      (forall j, (j < k)%nat -> crow c' j = fold_left (mv (nth j eta 0)) (map X (filter (fun r => id_eqb (asg_at cells r) (Some j)) (map gid L))) (crow c j)) /\
      (forall x, In x L -> exists a, asg_at cells (gid x) = Some a /\ (a < k)%nat)
  | Err e => e = Abort /\ exists x, In x L /\ asg_at cells (gid x) = None
  end.
Proof.
  intros Le Lc Hid. induction L as [|x L IH]; intros c HL Sh; cbn [for_each].
  - splits; auto. intros x [].
  - destruct (HL x (or_introl eq_refl)) as (Hw & Hr & Hg).
    assert (Ea : aget (asg_of cells) (w_start (fst x) + snd x) = Ok (asg_at cells (gid x))).
    { apply aget_ok. unfold asg_of. rewrite nth_error_map. fold (gid x). rewrite (nth_error_nth' cells dcell) by (rewrite Lc; exact Hg). reflexivity. }
    unfold fin_body at 1. rewrite Ea. cbn [Base.bind]. destruct (asg_at cells (gid x)) as [cid|] eqn:Eg.
    2:{ split; [reflexivity|]. exists x. split; [left; reflexivity|exact Eg]. }
    assert (Hc : (cid < k)%nat).
    { rewrite Forall_forall in Hid. apply (Hid (Some cid)). unfold asg_of. apply in_map_iff. exists (nth (gid x) cells dcell). split; [exact Eg|]. apply nth_In. rewrite Lc. exact Hg. }
    pose proof Sh as (Sk & _). rewrite Sk. assert (Hb : (cid <? k)%nat = true) by (apply Nat.ltb_lt; exact Hc). rewrite Hb. cbn [assert_ Base.bind].
    rewrite (@aget_nth _ eta cid 0) by (rewrite Le; exact Hc). cbn [Base.bind].
    assert (Hrow : slice (fst (wrow (fst x) d (snd x))) (snd (wrow (fst x) d (snd x))) d = X (gid x)) by (apply Hws; auto).
    destruct (@scale_centroid_ok NumR k d c (nth cid eta 0) (wrow (fst x) d (snd x)) (X (gid x)) cid Sh Hc (mb_X_len Hg) Hrow) as (c1 & E1 & Sh1 & H1).
    change (wrow (fst x) (g_ncol g) (snd x)) with (wrow (fst x) d (snd x)). rewrite E1. cbn [Base.bind].
    specialize (IH c1 (fun y Hy => HL y (or_intror Hy)) Sh1).
    destruct (for_each L (fin_body eta cells) c1) as [c'|e].
    + destruct IH as (S' & H' & A'). splits; auto.
      * intros j Hj. rewrite H' by exact Hj. cbn [map filter]. rewrite Eg. cbn [id_eqb]. specialize (H1 j Hj). unfold cel in H1.
        rewrite (Nat.eqb_sym cid j). destruct (Nat.eqb_spec j cid) as [Hjc|Hne].
        -- rewrite Hjc in *. cbn [map fold_left]. injection H1 as H1 _ _. f_equal. exact H1.
        -- injection H1 as H1 _ _. f_equal. exact H1.
      * intros y [<-|Hy]; [exists cid; auto|apply A'; exact Hy].
    + destruct IH as (-> & y & Hy & Ey). split; [reflexivity|]. exists y. split; [right; exact Hy|exact Ey].
Qed.

Lemma filter_tiles (P : nat -> bool) : forall rs lo hi, ntiles lo hi rs ->
  concat (map (fun sn => map (fun i => (fst sn + i)%nat) (filter (fun i => P (fst sn + i)%nat) (seq 0 (snd sn)))) rs) = filter P (seq lo (hi - lo)).
Proof.
  assert (G : forall m s o, map (fun i => (s + i)%nat) (filter (fun i => P (s + i)%nat) (seq o m)) = filter P (seq (s + o) m)).
  { induction m as [|m IH]; intros s o; [reflexivity|]. cbn [seq filter]. replace (S (s + o)) with (s + S o)%nat by lia.
    destruct (P (s + o)%nat); cbn [map]; rewrite IH; reflexivity. }
  induction rs as [|[s m] rs IH]; intros lo hi H; cbn [ntiles map concat fst snd] in *.
  - subst. rewrite Nat.sub_diag. reflexivity.
  - destruct H as (-> & H). pose proof (ntiles_le _ _ _ H). rewrite (IH _ _ H), G, Nat.add_0_r, <- filter_app, <- seq_app. f_equal. f_equal. lia.
Qed.

Definition mbinv (s : pst NumR) : Prop := ppre g ws s /\ Forall (idok k) (asg_of (PruneModel.ps_cells s)).

(** one iteration *)
Lemma mb_iterate_R perctg u sched (s : pst NumR) : complete (w_ranges ws) sched -> mbinv s ->
  match mb_iterate g ws perctg u sched s with
  | Ok s' => mbinv s' /\
      (forall r, (r < n)%nat -> casg (cellat s' r) = casg (newcell perctg u (cent s) r (cellat s r)) /\ cdist (cellat s' r) = nmax NumR) /\
      (forall r, (r < n)%nat -> smp perctg u r = true -> exists a, casg (cellat s' r) = Some a /\ (a < k)%nat) /\
      (forall j, (j < k)%nat -> cent s' j =
         fold_left (mv (1 / INR (acnt j (asg_of (PruneModel.ps_cells s')))))
           (map X (filter (fun r => id_eqb (casg (cellat s' r)) (Some j)) (filter (smp perctg u) (seq 0 n)))) (cent s j)) /\
      p_prev_means (ps_cltrs s') = c_means (p_cl (ps_cltrs s))
  | Err e => e = Abort /\ exists r, (r < n)%nat /\ smp perctg u r = true /\ snd (mscan (cent s) (X r) (cdist (cellat s r)) (casg (cellat s r))) = None
  end.
Proof.
  intros Hc (Hpre & Hid). pose proof Hpre as ((P1 & P2 & P3 & P4) & Hdm & Hcn & Lc & Hl).
  unfold mb_iterate.
  destruct (@mb_round perctg u (set_prev_means (ps_cltrs s)) sched (PruneModel.ps_cells s) P1 Hc Lc) as (locs & cells' & E & Lo & Lc' & Hcell & Hsel).
  change (p_cl (set_prev_means (ps_cltrs s))) with (p_cl (ps_cltrs s)) in *.
  match goal with |- context [Base.bind ?t _] => replace t with (Ok (locs, cells') : res (list (list nat) * list cellR)) by (symmetry; exact E) end. cbn [Base.bind fst snd].
  assert (Hid' : Forall (idok k) (asg_of cells')).
  { apply Forall_forall. intros a Ha. unfold asg_of in Ha. apply in_map_iff in Ha as (c & <- & Hin). apply (In_nth _ _ dcell) in Hin as (r & Hr & <-).
    fold (casg (nth r cells' dcell)). rewrite Hcell by lia.
    assert (Hold : idok k (casg (nth r (PruneModel.ps_cells s) dcell))).
    { rewrite Forall_forall in Hid. apply Hid. unfold asg_of. apply in_map_iff. exists (nth r (PruneModel.ps_cells s) dcell). split; [reflexivity|]. apply nth_In. lia. }
    unfold newcell. destruct (smp perctg u r); [|exact Hold]. unfold casg at 1. cbn [fst snd]. apply mscan_id. exact Hold. }
  destruct (@mb_eta_R cells' Hid') as (eta & Ee & Leta & Heta). fold k.
  match goal with |- context [Base.bind (mb_eta ?a ?b) _] => replace (mb_eta a b) with (Ok eta : res (list R)) by (symmetry; exact Ee) end. cbn [Base.bind].
  set (L := concat (map (fun x : worker NumR * list nat => map (fun r => (fst x, r)) (snd x)) (combine ws locs))).
  assert (EL : for_each (combine ws locs) (fun (x : worker NumR * list nat) c => mb_finalize g eta cells' (fst x) (snd x) c) (p_cl (ps_cltrs s))
     = for_each L (fin_body eta cells') (p_cl (ps_cltrs s))).
  { unfold L. rewrite <- (@for_each_concat _ _ _ (fun x : worker NumR * list nat => map (fun r => (fst x, r)) (snd x)) (fin_body eta cells')).
    assert (G : forall (w : worker NumR) sel c, mb_finalize g eta cells' w sel c = for_each (map (fun r => (w, r)) sel) (fin_body eta cells') c).
    { intros w. unfold mb_finalize. induction sel as [|r sel IHs]; intros c; cbn [for_each map]; [reflexivity|].
      unfold fin_body at 1. cbn [fst snd].
      match goal with |- Base.bind ?t _ = Base.bind ?t' _ => change t' with t; destruct t as [c1|e]; cbn [Base.bind]; [apply IHs|reflexivity] end. }
    generalize (combine ws locs) as l. generalize (p_cl (ps_cltrs s)) as c. intros c l. revert c. induction l as [|x l IHl]; intros c; cbn [for_each]; [reflexivity|].
    rewrite G. destruct (for_each (map (fun r => (fst x, r)) (snd x)) (fin_body eta cells') c); cbn [Base.bind]; auto. }
  assert (Epairs : combine ws locs = map (fun w => (w, filter (fun i => smp perctg u (w_start w + i)) (seq 0 (w_nrow w)))) ws).
  { clear - Hsel Lo. revert Hsel Lo. generalize locs as m. clear. intros m.
    revert m. induction ws as [|w l IHl]; intros [|x m] Hsel Lo; cbn [combine map]; try discriminate; auto. f_equal.
    - specialize (Hsel 0%nat w eq_refl). cbn in Hsel. injection Hsel as ->. reflexivity.
    - apply IHl; [|cbn in Lo; lia]. intros t w' Hw. exact (Hsel (S t) w' Hw). }
  assert (Hin : forall x, In x L -> In (fst x) ws /\ (snd x < w_nrow (fst x))%nat /\ (gid x < n)%nat).
  { intros x Hx. unfold L in Hx. rewrite Epairs, map_map in Hx. apply in_concat in Hx as (l & Hl' & Hx). apply in_map_iff in Hl' as (w & <- & Hw).
    cbn [fst snd] in Hx. apply in_map_iff in Hx as (r & <- & Hr). apply filter_In in Hr as (Hr & _). apply in_seq in Hr. cbn [fst snd].
    splits; auto; try lia. unfold gid. cbn [fst snd]. apply In_nth_error in Hw as (t & Et).
    assert (Er : nth_error (w_ranges ws) t = Some (w_start w, w_nrow w)) by (unfold w_ranges; rewrite nth_error_map, Et; reflexivity).
    destruct Hws as (Ht & _). destruct (ntiles_in _ _ _ Ht t Er) as (_ & Hb). lia. }
  assert (Egid : map gid L = filter (smp perctg u) (seq 0 n)).
  { destruct Hws as (Ht & _). pose proof (@filter_tiles (smp perctg u) _ _ _ Ht) as Hf. rewrite Nat.sub_0_r in Hf. rewrite <- Hf.
    unfold L. rewrite Epairs, map_map. unfold w_ranges. rewrite map_map. cbn [fst snd]. rewrite concat_map, map_map. f_equal. apply map_ext. intros w.
    rewrite map_map. reflexivity. }
  match goal with |- context [Base.bind ?t _] => replace t with (for_each L (fin_body eta cells') (p_cl (ps_cltrs s))) by (symmetry; exact EL) end.
  pose proof (@fin_list eta cells' Leta Lc' Hid' L (p_cl (ps_cltrs s)) Hin P1) as HF.
  destruct (for_each L (fin_body eta cells') (p_cl (ps_cltrs s))) as [c'|e]; cbn [Base.bind].
  - destruct HF as (Sh' & Hm & Hasn). rewrite Egid in Hm.
    assert (Easg : asg_of (map (fun e : cellR => (nmax NumR, snd (fst e), snd e)) cells') = asg_of cells') by (unfold asg_of; rewrite map_map; reflexivity).
    assert (Ecell : forall r, (r < n)%nat -> nth r (map (fun e : cellR => (nmax NumR, snd (fst e), snd e)) cells') dcell = (nmax NumR, casg (nth r cells' dcell), snd (nth r cells' dcell))).
    { intros r Hr. apply nth_error_nth. rewrite nth_error_map. rewrite (nth_error_nth' cells' dcell) by (rewrite Lc'; exact Hr). reflexivity. }
    splits.
    + unfold mbinv. cbn [PruneModel.ps_cells]. split; [|exact (eq_ind_r (Forall (idok k)) Hid' Easg)].
      unfold ppre. cbn [ps_cltrs ps_dm ps_counts PruneModel.ps_cells]. splits; auto.
      * unfold psized. cbn. splits; auto. destruct P1 as (A & B & (M & _)). etransitivity; [exact M|]. rewrite A, B. reflexivity.
      * rewrite map_length. exact Lc'.
    + intros r Hr. unfold cellat. cbn [PruneModel.ps_cells]. rewrite Ecell by exact Hr. rewrite Hcell by exact Hr. split; reflexivity.
    + intros r Hr Hs. unfold cellat. cbn [PruneModel.ps_cells]. rewrite Ecell by exact Hr. unfold casg at 1. cbn [fst snd].
      assert (Hx : In r (map gid L)) by (rewrite Egid; apply filter_In; split; [apply in_seq; lia|exact Hs]).
      apply in_map_iff in Hx as (x & <- & Hx). exact (Hasn x Hx).
    + intros j Hj. unfold cent. cbn [ps_cltrs with_cl p_cl PruneModel.ps_cells]. 
      etransitivity; [exact (Hm j Hj)|]. unfold asg_at.
      match goal with |- _ = fold_left (mv (1 / INR (acnt j ?a))) _ _ => replace a with (asg_of cells') by (symmetry; exact Easg) end.
      f_equal; [f_equal; exact (Heta j Hj)|]. f_equal.
      apply filter_ext_in. intros r Hr. apply filter_In in Hr as (Hr & _). apply in_seq in Hr. unfold cellat. cbn [PruneModel.ps_cells]. rewrite Ecell by lia. reflexivity.
    + reflexivity.
  - destruct HF as (-> & x & Hx & Ex). split; [reflexivity|]. assert (Hg : In (gid x) (map gid L)) by (apply in_map; exact Hx).
    rewrite Egid in Hg. apply filter_In in Hg as (Hg & Hs). apply in_seq in Hg. exists (gid x). splits; auto; try lia.
    unfold asg_at in Ex. rewrite Hcell in Ex by lia. unfold newcell in Ex. rewrite Hs in Ex. exact Ex.
Qed.

End Iter.
