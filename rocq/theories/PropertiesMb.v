(** C63, C94-C97: mini-batch k-means (mb_run). *)
From Coq Require Import Reals Lra.
From Verif Require Import Base Num Spec DistModel ClustersModel ClustersView PartitionModel ParModel KmeansModel PruneModel MatrixModel MbModel.
From Verif Require Import MatLemmas VecLemmas ClustersProofs DistProofs PartitionProofs ParProofs NearProofs KmeansProofs UpdateProofs RunProofs ParRule DistMatProofs PruneProofs ClusterSums PruneRound PruneUpdate PruneRun.
From Verif Require Import InitProofs SimProofs KmeansR PropertiesKmeansR PropertiesRun KmsppR PruneRun2 PropertiesPrune MbProofs MbRun.
Set Implicit Arguments.
Local Open Scope R_scope.

(* ------------------------------------------------------------------ *)
(** * Specification *)

(** row [r] is in the batch when its draw [u r] is at most the sampled fraction [q] *)
Definition in_batch (q : R) (u : nat -> R) (r : nat) : bool := if Rle_dec (u r) q then true else false.

(** the centroid [c] moved by the fraction [e] of its difference to the row [x] *)
Definition toward (e : R) (c x : list R) : list R := map2 (fun a b => a + e * (b - a)) c x.

(** rows of a list assigned to cluster [j] in state [s], in order *)
Definition rows_of (s : pst NumR) (j : nat) (l : list nat) : list nat := filter (fun r => id_eqb (passigned s r) (Some j)) l.

(** row [r] was in the batch of some iteration up to and including [i] *)
Definition ever_in_batch (q : R) (u : nat -> nat -> R) (i r : nat) : bool := existsb (fun t => in_batch q (u t) r) (seq 0 (S i)).

(** every row-to-centroid distance in state [s] is below the largest double *)
Definition finite_state := finite_init.

Definition nearest_in (g : kcfg NumR) (data : list R) (s : pst NumR) (r a : nat) : Prop :=
  (a < g_k g)%nat /\ forall j, (j < g_k g)%nat ->
    rdist (g_dt g) (row data (g_ncol g) r) (pcentroid (g_ncol g) s a) <= rdist (g_dt g) (row data (g_ncol g) r) (pcentroid (g_ncol g) s j).

(** all coordinates of [x] between the bounds *)
Definition within (d : nat) (lo hi : nat -> R) (x : list R) : Prop := forall i, (i < d)%nat -> lo i <= nth i x 0 <= hi i.

(** the arguments a caller may pass: as for the pruned run *)
Definition mb_args := prune_args.

(* ------------------------------------------------------------------ *)
(** * Bridges *)
Lemma in_batch_smp q u r : in_batch q u r = smp q u r.
Proof.
  unfold in_batch, smp. destruct (Rle_dec (u r) q) as [H|H].
  - assert (Rltb q (u r) = false) by (apply Rltb_false; exact H). rewrite H0. reflexivity.
  - assert (Rltb q (u r) = true) by (apply Rltb_true; lra). rewrite H0. reflexivity.
Qed.

Lemma toward_mv e c x : toward e c x = mv e c x.
Proof. unfold toward, mv. apply map2_ext. intros a b. lra. Qed.

Lemma fold_toward e l : forall c, fold_left (toward e) l c = fold_left (mv e) l c.
Proof. induction l as [|x l IH]; intros c; cbn [fold_left]; [reflexivity|]. rewrite toward_mv. apply IH. Qed.

Lemma acnt_rows (s : pst NumR) j n : length (PruneModel.ps_cells s) = n -> acnt j (asg_of (PruneModel.ps_cells s)) = length (rows_of s j (seq 0 n)).
Proof.
  intros <-. unfold acnt, rows_of, passigned. set (l := asg_of (PruneModel.ps_cells s)).
  replace (length (PruneModel.ps_cells s)) with (length l) by (unfold l, asg_of; apply map_length).
  clearbody l. clear s. 
  assert (G : forall (l : list (option nat)) o (f : nat -> option nat), (forall i, (i < length l)%nat -> f (o + i)%nat = nth i l None) ->
    length (filter (fun a => id_eqb a (Some j)) l) = length (filter (fun r => id_eqb (f r) (Some j)) (seq o (length l)))).
  { clear. induction l as [|a l IH]; intros o f H; [reflexivity|]. cbn [length seq filter].
    pose proof (H 0%nat ltac:(cbn; lia)) as H0. rewrite Nat.add_0_r in H0. cbn in H0. rewrite H0.
    assert (E : length (filter (fun a => id_eqb a (Some j)) l) = length (filter (fun r => id_eqb (f r) (Some j)) (seq (S o) (length l)))).
    { apply IH. intros i Hi. replace (S o + i)%nat with (o + S i)%nat by lia. apply (H (S i)). cbn; lia. }
    destruct (id_eqb a (Some j)); cbn [length]; rewrite E; reflexivity. }
  apply (G l 0%nat). intros; reflexivity.
Qed.

Lemma tally_R (k : nat) : forall (cells : list (pcell NumR)) c0 c, length c0 = k -> tally cells c0 = Ok c ->
  length c = k /\ (forall j, (j < k)%nat -> nth j c 0%Z = (nth j c0 0 + Z.of_nat (acnt j (asg_of cells)))%Z).
Proof.
  intros cells. unfold tally. generalize (asg_of cells) as l. clear cells. induction l as [|a l IH]; intros c0 c L H; cbn [for_each] in H.
  - injection H as <-. split; auto. intros j _. unfold acnt. cbn. lia.
  - destruct a as [x|]; [|discriminate]. apply bind_ok in H as (c1 & E & H). apply amod_inv in E as (y & Ey & ->).
    assert (Hx : (x < k)%nat) by (rewrite <- L; apply nth_error_Some; congruence).
    destruct (IH _ _ (eq_trans (upd_length _ _ _) L) H) as (Lc & Hc). split; auto. intros j Hj. rewrite Hc by exact Hj.
    rewrite nth_upd by (rewrite L; exact Hx). unfold acnt. cbn [filter id_eqb]. rewrite (Nat.eqb_sym x j).
    apply nth_error_nth with (d := 0%Z) in Ey.
    destruct (Nat.eqb_spec j x) as [Hjx|Hne]; [rewrite Hjx, Ey; cbn [length]; lia|lia].
Qed.

Lemma tally_ok (k : nat) : forall (cells : list (pcell NumR)) c0, length c0 = k ->
  (forall a, In a (asg_of cells) -> exists x, a = Some x /\ (x < k)%nat) -> exists c, tally cells c0 = Ok c.
Proof.
  intros cells. unfold tally. generalize (asg_of cells) as l. clear cells. induction l as [|a l IH]; intros c0 L H; cbn [for_each]; [eauto|].
  destruct (H a (or_introl eq_refl)) as (x & -> & Hx). destruct (nth_error c0 x) as [y|] eqn:Ey; [|apply nth_error_None in Ey; lia].
  rewrite (amod_ok _ _ _ Ey). cbn [Base.bind]. apply IH; [rewrite upd_length; exact L|]. intros b Hb. apply H. right. exact Hb.
Qed.

Lemma acnt_total k : forall l, (forall a, In a l -> exists x, a = Some x /\ (x < k)%nat) ->
  fold_right Z.add 0%Z (map (fun j => Z.of_nat (acnt j l)) (seq 0 k)) = Z.of_nat (length l).
Proof.
  assert (Gz : forall js, fold_right Z.add 0%Z (map (fun j => Z.of_nat (acnt j [])) js) = 0%Z) by (induction js; cbn; auto).
  induction l as [|a l IH]; intros H; [apply Gz|].
  destruct (H a (or_introl eq_refl)) as (x & -> & Hx). cbn [length]. rewrite Nat2Z.inj_succ, <- IH by (intros; apply H; right; auto).
  assert (G : forall m o, fold_right Z.add 0%Z (map (fun j => Z.of_nat (acnt j (Some x :: l))) (seq o m))
     = (fold_right Z.add 0%Z (map (fun j => Z.of_nat (acnt j l)) (seq o m)) + (if (o <=? x)%nat && (x <? o + m)%nat then 1 else 0))%Z).
  { induction m as [|m IHm]; intros o; cbn [seq map fold_right].
    - rewrite Nat.add_0_r. destruct (Nat.leb_spec o x); destruct (Nat.ltb_spec x o); cbn; lia.
    - rewrite IHm. unfold acnt at 1. cbn [filter id_eqb]. fold (acnt o l).
      destruct (Nat.eqb_spec x o) as [->|Hne].
      + cbn [length]. fold (acnt o l). destruct (Nat.leb_spec (S o) o); [lia|]. destruct (Nat.leb_spec o o); [|lia]. destruct (Nat.ltb_spec o (o + S m)); [|lia]. cbn [andb]. 
        change (length (filter (fun a => id_eqb a (Some o)) l)) with (acnt o l). lia.
      + change (length (filter (fun a => id_eqb a (Some o)) l)) with (acnt o l).
        destruct (Nat.leb_spec (S o) x); destruct (Nat.leb_spec o x); destruct (Nat.ltb_spec x (S o + m)); destruct (Nat.ltb_spec x (o + S m)); cbn [andb]; lia. }
  rewrite G. cbn [Nat.leb andb plus]. destruct (Nat.ltb_spec x k); [|lia]. lia.
Qed.

(** the states before and after an iteration *)
Definition before (rr : mb_result NumR) (i : nat) (s : pst NumR) : Prop := nth_error (mb_init rr :: mb_trace rr) i = Some s.
Definition after (rr : mb_result NumR) (i : nat) (s : pst NumR) : Prop := nth_error (mb_trace rr) i = Some s.
Definition final_state (rr : mb_result NumR) : pst NumR := last (mb_trace rr) (mb_init rr).

Lemma mb_run_R (g : kcfg NumR) mb_size centers it (data : list (car NumR)) dr u scheds : mb_args g data centers it dr scheds ->
  let q := mb_perctg g mb_size in
  exists ws s s0, build_workers g data = Ok ws /\ wok (g_nrow g) (g_ncol g) data ws /\
    prune_create_coord g centers it = Ok s /\ prune_run_init g it ws data dr s = Ok s0 /\ mbinv g ws s0 /\
    (finite_init g data s0 -> forall r, (r < g_nrow g)%nat -> entry_ok (g_k g) (g_dt g) (cent s0) (row data (g_ncol g) r) (cdist (cellat s0 r)) (casg (cellat s0 r))) /\
    forall rr, mb_run g mb_size centers it data dr u scheds = Ok rr ->
      mb_init rr = s0 /\
      (if mb_converged rr then (ct_iters (mb_out rr) + 1 = length (mb_trace rr) /\ 1 <= length (mb_trace rr) <= g_max_iters g)%nat
       else ct_iters (mb_out rr) = g_max_iters g /\ length (mb_trace rr) = g_max_iters g) /\
      (forall i a b, before rr i a -> after rr i b ->
         mbinv g ws a /\ mbinv g ws b /\ mstep g data q (u i) a b /\
         (edist (c_means (p_cl (ps_cltrs b))) (c_means (p_cl (ps_cltrs a))) < g_tol g <-> mb_converged rr = true /\ S i = length (mb_trace rr))) /\
      mbinv g ws (final_state rr) /\
      ct_nrow (mb_out rr) = g_nrow g /\ ct_ncol (mb_out rr) = g_ncol g /\ ct_k (mb_out rr) = g_k g /\
      ct_centroids (mb_out rr) = c_means (p_cl (ps_cltrs (final_state rr))) /\
      exists locs cells, pEM_round g ws (ps_cltrs (final_state rr)) (ps_dm (final_state rr)) true (scheds (g_max_iters g)) (ps_local (final_state rr)) (PruneModel.ps_cells (final_state rr)) = Ok (locs, cells) /\
        ct_asg (mb_out rr) = asg_of cells /\ tally cells (repeat 0%Z (g_k g)) = Ok (ct_counts (mb_out rr)).
Proof.
  intros (Hk2 & Va & Hrd & Hf) q.
  destruct (@init_pre g data Hk2 ltac:(apply Va) centers it dr Va Hrd) as (ws & s & s0 & Ew & Hws & Es & E0 & Hpre & _ & He).
  assert (Hk1 : (1 <= g_k g)%nat) by lia.
  assert (Hinv : mbinv g ws s0).
  { split; [exact Hpre|]. apply prune_run_init_ids in E0; auto; try apply Va.
    - unfold asg_of. rewrite Forall_map. exact E0.
    - destruct Va as (V & _ & Hco & _). destruct (@create_pre g data Hk2 centers it Hco) as (s1 & ks & E1 & _ & _ & A2 & _ & _ & _ & _ & _ & A3 & _).
      assert (Q := eq_trans (eq_sym Es) E1). injection Q as <-. rewrite A2, A3. clear. induction (g_nrow g); cbn; constructor; cbn; auto. }
  exists ws, s, s0. splits; auto.
  { intros Hfin. apply He. apply finite_init_iff; [apply Hinv|exact Hfin]. }
  intros rr H. unfold mb_run in H. 
  replace (prune_create_coord g centers it) with (Ok s : res (pst NumR)) in H by (symmetry; exact Es). cbn [Base.bind] in H.
  replace (build_workers g data) with (Ok ws : res (list (worker NumR))) in H by (symmetry; exact Ew). cbn [Base.bind] in H.
  replace (prune_run_init g it ws data dr s) with (Ok s0 : res (pst NumR)) in H by (symmetry; exact E0). cbn [Base.bind] in H.
  pose proof (@mb_loop_R g ws data Hws ltac:(apply Va) Hk1 (mb_perctg g mb_size) u scheds (Hf ws Ew) (g_max_iters g) 0 s0 [] Hinv) as HL.
  fold q in H, HL. destruct (mb_loop g ws q u scheds (g_max_iters g) 0 s0 []) as [[[[iter conv] s1] trace]|e]; cbn [Base.bind] in H; [|discriminate].
  destruct HL as (tr & -> & El & Hinv1 & Hit & Hst). cbn [app plus] in *.
  apply bind_ok in H as ([locs cells] & Ep & H). apply bind_ok in H as (counts & Ec & H). injection H as <-. cbn [snd] in *.
  unfold before, after, final_state. cbn [mb_init mb_converged mb_trace mb_out ct_iters ct_nrow ct_ncol ct_k ct_centroids ct_asg ct_counts].
  rewrite <- El. splits; auto.
  exists locs, cells. splits; auto.
Qed.

Lemma entry_state (g : kcfg NumR) mb_size (data : list (car NumR)) q (u : nat -> nat -> R) ws centers it dr scheds rr s0 i a :
  mb_args g data centers it dr scheds -> mb_run g mb_size centers it data dr u scheds = Ok rr ->
  mb_init rr = s0 -> mbinv g ws a ->
  (finite_init g data s0 -> forall r, (r < g_nrow g)%nat -> entry_ok (g_k g) (g_dt g) (cent s0) (row data (g_ncol g) r) (cdist (cellat s0 r)) (casg (cellat s0 r))) ->
  (forall i a b, before rr i a -> after rr i b -> mstep g data q (u i) a b) ->
  before rr i a -> finite_init g data a ->
  forall r, (r < g_nrow g)%nat -> entry_ok (g_k g) (g_dt g) (cent a) (row data (g_ncol g) r) (cdist (cellat a r)) (casg (cellat a r)).
Proof.
  intros _ _ E0 Ha He Hst Hb Hfin r Hr. destruct i as [|i].
  - unfold before in Hb. cbn in Hb. injection Hb as <-. rewrite E0 in *. apply He; auto.
  - left. unfold before in Hb. cbn [nth_error] in Hb.
    assert (Hp : exists p, before rr i p).
    { unfold before. destruct (nth_error (mb_init rr :: mb_trace rr) i) as [p|] eqn:Ep; [eauto|]. apply nth_error_None in Ep. cbn [length] in Ep.
      assert (i < length (mb_trace rr))%nat by (apply nth_error_Some; congruence). lia. }
    destruct Hp as (p & Hp). destruct (Hst i p a Hp Hb) as (HA & _). destruct (HA r Hr) as (_ & ->). split; [reflexivity|].
    intros j Hj. apply (@finite_init_iff g data a) in Hfin; [|apply Ha]. apply Hfin; auto.
Qed.

(* ------------------------------------------------------------------ *)
(** ** C63 *)

(** One iteration of any run, whatever the initialiser: rows outside the batch
    keep their cluster; rows of the batch go to a nearest centroid; a centroid
    moves, for its batch rows in row order, by 1/n_j of the difference, where
    n_j is the number of rows currently assigned to it, in the batch or not. *)
Theorem C63_any_init : forall (g : kcfg NumR) mb_size centers it (data : list (car NumR)) dr (u : nat -> nat -> R) scheds rr,
  mb_args g data centers it dr scheds ->
  mb_run g mb_size centers it data dr u scheds = Ok rr ->
  let q := mb_perctg g mb_size in
  let n := g_nrow g in
  forall i s s', before rr i s -> after rr i s' ->
    (forall r, (r < n)%nat -> in_batch q (u i) r = false -> passigned s' r = passigned s r) /\
    (finite_state g data s -> forall r, (r < n)%nat -> in_batch q (u i) r = true ->
       exists a, passigned s' r = Some a /\ nearest_in g data s r a) /\
    (forall j, (j < g_k g)%nat ->
       let n_j := length (rows_of s' j (seq 0 n)) in
       pcentroid (g_ncol g) s' j =
         fold_left (toward (1 / INR n_j))
           (map (row data (g_ncol g)) (rows_of s' j (filter (in_batch q (u i)) (seq 0 n))))
           (pcentroid (g_ncol g) s j)).
Proof.
  intros g mb_size centers it data dr u scheds rr Ha Hr q n i s s' Hb Haf. fold n.
  destruct (@mb_run_R g mb_size centers it data dr u scheds Ha) as (ws & s1 & s0 & Ew & Hws & Es & E0 & Hinv0 & He & HR).
  fold q in HR. destruct (HR rr Hr) as (I0 & _ & Hst & _).
  destruct (Hst i s s' Hb Haf) as (Is & Is' & (HA & HB & HC & HD) & _).
  assert (Hdata : @length R data = (g_nrow g * g_ncol g)%nat) by apply Ha.
  assert (Hk1 : (1 <= g_k g)%nat) by (destruct Ha; lia).
  splits.
  - intros r Hr' Hnb. rewrite !passigned_cell. destruct (HA r Hr') as (-> & _). unfold newcell. rewrite <- in_batch_smp, Hnb. reflexivity.
  - intros Hfin r Hr' Hib.
    assert (Hen := @entry_state g mb_size data q u ws centers it dr scheds rr s0 i s Ha Hr I0 Is He (fun i a b A B => proj1 (proj2 (proj2 (Hst i a b A B)))) Hb Hfin r Hr').
    destruct (@mscan_near g ws data Hdata Hk1 s r Is Hr' Hen) as (a & Ea & Hn1 & Hn2). exists a. split.
    + rewrite passigned_cell. destruct (HA r Hr') as (-> & _). unfold newcell. rewrite <- in_batch_smp, Hib. exact Ea.
    + split; [exact Hn1|]. intros j Hj. rewrite !(@pcentroid_cent g s _ ltac:(apply Is)). apply Hn2. exact Hj.
  - intros j Hj n_j. rewrite (@pcentroid_cent g s' j ltac:(apply Is')), (@pcentroid_cent g s j ltac:(apply Is)).
    rewrite (HC j Hj), fold_toward.
    rewrite (@acnt_rows s' j n) by (apply Is'). fold n_j. f_equal. f_equal. unfold rows_of.
    rewrite (filter_ext (in_batch q (u i)) (smp q (u i)) (in_batch_smp q (u i))).
    rewrite (filter_ext (fun r => id_eqb (passigned s' r) (Some j)) (fun r => id_eqb (casg (cellat s' r)) (Some j)) (fun r => f_equal (fun a => id_eqb a (Some j)) (passigned_cell s' r))).
    reflexivity.
Qed.

(** an assigned row was sampled, when the initialiser assigns no row *)
Lemma asg_sampled (g : kcfg NumR) mb_size centers it (data : list (car NumR)) dr (u : nat -> nat -> R) scheds rr ws : mb_args g data centers it dr scheds ->
  mb_run g mb_size centers it data dr u scheds = Ok rr ->
  (forall i a b, before rr i a -> after rr i b -> mstep g data (mb_perctg g mb_size) (u i) a b /\ mbinv g ws b) ->
  (forall r, (r < g_nrow g)%nat -> passigned (mb_init rr) r = None) ->
  forall i s', after rr i s' -> forall r, (r < g_nrow g)%nat ->
    (passigned s' r <> None <-> ever_in_batch (mb_perctg g mb_size) u i r = true).
Proof.
  intros Ha Hr Hst H0. set (q := mb_perctg g mb_size) in *.
  induction i as [|i IH]; intros s' Haf r Hlt.
  - destruct (Hst 0%nat (mb_init rr) s' eq_refl Haf) as ((HA & HB & _) & _).
    unfold ever_in_batch. cbn [seq existsb]. rewrite orb_false_r, in_batch_smp.
    destruct (smp q (u 0%nat) r) eqn:Es.
    + destruct (HB r Hlt Es) as (c & Ec & _). rewrite passigned_cell, Ec. split; [reflexivity|discriminate].
    + rewrite passigned_cell. destruct (HA r Hlt) as (-> & _). unfold newcell. rewrite Es, <- passigned_cell, (H0 r Hlt). split; [congruence|discriminate].
  - assert (Hp : exists p, after rr i p).
    { unfold after in *. destruct (nth_error (mb_trace rr) i) as [p|] eqn:Ep; [eauto|]. apply nth_error_None in Ep.
      assert (S i < length (mb_trace rr))%nat by (apply nth_error_Some; congruence). lia. }
    destruct Hp as (p & Hp). destruct (Hst (S i) p s' Hp Haf) as ((HA & HB & _) & _). specialize (IH p Hp r Hlt).
    unfold ever_in_batch in *. rewrite (seq_S (S i)). rewrite existsb_app. cbn [existsb plus]. rewrite orb_false_r, (in_batch_smp q (u (S i))).
    destruct (smp q (u (S i)) r) eqn:Es.
    + destruct (HB r Hlt Es) as (c & Ec & _). rewrite passigned_cell, Ec, orb_true_r. split; [reflexivity|discriminate].
    + rewrite orb_false_r, <- IH, !passigned_cell. destruct (HA r Hlt) as (-> & _). unfold newcell. rewrite Es. reflexivity.
Qed.

Lemma init_unassigned (g : kcfg NumR) centers it (data : list (car NumR)) dr ws s s0 : (2 <= g_k g)%nat -> valid_args g data centers it dr -> it = FORGY \/ it = NONE ->
  prune_create_coord g centers it = Ok s -> prune_run_init g it ws data dr s = Ok s0 ->
  forall r, passigned (s0 : pst NumR) r = None.
Proof.
  intros Hk2 (V & _ & Hco & _) Hit Es E0 r.
  destruct (@create_pre g data Hk2 centers it Hco) as (s1 & ks & E1 & _ & _ & A2 & _ & _ & _ & _ & A7 & A3 & _).
  assert (Q := eq_trans (eq_sym Es) E1). injection Q as <-.
  assert (Hs : forall dl, nth r (asg_of (combine (combine (dist_of (PruneModel.ps_cells s)) (asg_of (PruneModel.ps_cells s))) (dl : list bool))) None = None).
  { intros dl. rewrite A2, A3. unfold asg_of. revert r dl. generalize (dist_of (PruneModel.ps_cells s)) as l. clear. generalize (g_nrow g) as m.
    induction m as [|m IH]; intros [|x l] r [|y dl]; destruct r; cbn; auto. }
  unfold passigned. unfold prune_run_init in E0. destruct Hit as [-> | ->]; cbn [run_init] in E0.
  - apply bind_ok in E0 as (ks' & E & E0). injection E0 as <-. cbn [PruneModel.ps_cells]. unfold forgy_init in E. apply bind_ok in E as (c & _ & E). injection E as <-. cbn [s_asg]. apply Hs.
  - cbn [Base.bind] in E0. injection E0 as <-. cbn [PruneModel.ps_cells s_asg]. apply Hs.
Qed.

(** With Forgy or caller-supplied centroids the rate of C63 is the stated one: n_j
    counts the rows now in cluster j that were in some batch so far. *)
Theorem C63_partial : forall (g : kcfg NumR) mb_size centers it (data : list (car NumR)) dr (u : nat -> nat -> R) scheds rr,
  mb_args g data centers it dr scheds -> it = FORGY \/ it = NONE ->
  mb_run g mb_size centers it data dr u scheds = Ok rr ->
  let q := mb_perctg g mb_size in
  let n := g_nrow g in
  forall i s s', before rr i s -> after rr i s' ->
    (forall r, (r < n)%nat -> in_batch q (u i) r = false -> passigned s' r = passigned s r) /\
    (forall j, (j < g_k g)%nat ->
       let n_j := length (rows_of s' j (filter (ever_in_batch q u i) (seq 0 n))) in
       pcentroid (g_ncol g) s' j =
         fold_left (toward (1 / INR n_j))
           (map (row data (g_ncol g)) (rows_of s' j (filter (in_batch q (u i)) (seq 0 n))))
           (pcentroid (g_ncol g) s j)).
Proof.
  intros g mb_size centers it data dr u scheds rr Ha Hit Hr q n i s s' Hb Haf. fold n.
  destruct (@C63_any_init g mb_size centers it data dr u scheds rr Ha Hr i s s' Hb Haf) as (A & _ & B). fold q n in A, B.
  split; [exact A|]. intros j Hj n_j. rewrite (B j Hj). do 4 f_equal.
  destruct (@mb_run_R g mb_size centers it data dr u scheds Ha) as (ws & s1 & s0 & Ew & Hws & Es & E0 & Hinv0 & He & HR).
  fold q in HR. destruct (HR rr Hr) as (I0 & _ & Hst & _).
  assert (HS := @asg_sampled g mb_size centers it data dr u scheds rr ws Ha Hr
     (fun i a b A B => conj (proj1 (proj2 (proj2 (Hst i a b A B)))) (proj1 (proj2 (Hst i a b A B))))
     ltac:(intros r _; rewrite I0; destruct Ha as (Hk2 & Va & _); exact (@init_unassigned g centers it data dr ws s1 s0 Hk2 Va Hit Es E0 r)) i s' Haf). fold q n in HS.
  unfold n_j, rows_of. 
  assert (G : forall l, (forall r, In r l -> (r < n)%nat) -> filter (fun r => id_eqb (passigned s' r) (Some j)) l
     = filter (fun r => id_eqb (passigned s' r) (Some j)) (filter (ever_in_batch q u i) l)).
  { induction l as [|r l IH]; intros Hl; [reflexivity|]. cbn [filter]. rewrite IH by (intros; apply Hl; right; auto). specialize (HS r (Hl r (or_introl eq_refl))).
    destruct (ever_in_batch q u i r); cbn [filter]; [reflexivity|]. destruct (passigned s' r); [|reflexivity]. exfalso. destruct HS as (HS & _). specialize (HS ltac:(discriminate)). discriminate. }
  rewrite <- G; [reflexivity|]. intros r Hr'. apply in_seq in Hr'. lia.
Qed.
Print Assumptions C63_partial.

(* ------------------------------------------------------------------ *)
(** ** C94: centroids stay inside the box of the rows and initial centroids *)
Lemma step_box (g : kcfg NumR) ws (data : list (car NumR)) q u a b lo hi : @length R data = (g_nrow g * g_ncol g)%nat -> mbinv g ws a -> mbinv g ws b -> mstep g data q u a b ->
  (forall r, (r < g_nrow g)%nat -> inbox (g_ncol g) lo hi (row data (g_ncol g) r)) ->
  (forall j, (j < g_k g)%nat -> inbox (g_ncol g) lo hi (cent a j)) -> forall j, (j < g_k g)%nat -> inbox (g_ncol g) lo hi (cent b j).
Proof.
  intros Hdata Ia Ib (HA & HB & HC & HD) Hx Hc j Hj. rewrite (HC j Hj).
  set (L := map _ _).
  assert (HL : forall x, In x L -> length x = g_ncol g /\ inbox (g_ncol g) lo hi x).
  { intros x Hx'. unfold L in Hx'. apply in_map_iff in Hx' as (r & <- & Hr). apply filter_In in Hr as (Hr & _). apply filter_In in Hr as (Hr & _). apply in_seq in Hr.
    split; [apply (@row_length _ data (g_ncol g) r (g_nrow g)); [exact Hdata|lia]|apply Hx; lia]. }
  destruct (acnt j (asg_of (PruneModel.ps_cells b))) as [|m] eqn:Em.
  - (* no row is assigned to j: nothing moves *)
    replace L with (@nil (list R)); [apply Hc; exact Hj|]. symmetry. unfold L.
    rewrite (@acnt_rows b j (g_nrow g) ltac:(apply Ib)) in Em. apply length_zero_iff_nil in Em.
    match goal with |- map _ ?l = [] => assert (E : l = []) end; [|rewrite E; reflexivity].
    destruct (filter _ (filter _ _)) as [|r t] eqn:E; [reflexivity|exfalso].
    assert (Hin : In r (r :: t)) by (left; reflexivity). rewrite <- E in Hin. apply filter_In in Hin as (Hin & Hr). apply filter_In in Hin as (Hin & _).
    assert (Hin2 : In r (rows_of b j (seq 0 (g_nrow g)))) by (apply filter_In; split; [exact Hin|rewrite passigned_cell; exact Hr]).
    rewrite Em in Hin2. destruct Hin2.
  - destruct (@fold_mv_box (g_ncol g) lo hi (1 / INR (S m))) with (l := L) (c := cent a j) as (_ & H); auto.
    + rewrite S_INR. pose proof (pos_INR m). split; [apply Rle_mult_inv_pos; lra|]. apply (Rmult_le_reg_r (INR m + 1)); [lra|]. unfold Rdiv. rewrite Rmult_assoc, Rinv_l by lra. lra.
    + exact (@cent_len g ws a j Ia Hj).
Qed.

Theorem C94_centroids_in_box : forall (g : kcfg NumR) mb_size centers it (data : list (car NumR)) dr (u : nat -> nat -> R) scheds rr lo hi,
  mb_args g data centers it dr scheds ->
  mb_run g mb_size centers it data dr u scheds = Ok rr ->
  (forall r, (r < g_nrow g)%nat -> within (g_ncol g) lo hi (row data (g_ncol g) r)) ->
  (forall j, (j < g_k g)%nat -> within (g_ncol g) lo hi (pcentroid (g_ncol g) (mb_init rr) j)) ->
  (forall i s, before rr i s -> forall j, (j < g_k g)%nat -> within (g_ncol g) lo hi (pcentroid (g_ncol g) s j)) /\
  (forall j, (j < g_k g)%nat -> within (g_ncol g) lo hi (row (ct_centroids (mb_out rr)) (g_ncol g) j)).
Proof.
  intros g mb_size centers it data dr u scheds rr lo hi Ha Hr Hx H0.
  destruct (@mb_run_R g mb_size centers it data dr u scheds Ha) as (ws & s1 & s0 & Ew & Hws & Es & E0 & Hinv0 & He & HR).
  destruct (HR rr Hr) as (I0 & _ & Hst & _ & _ & _ & _ & Hct & _).
  assert (G : forall i s, before rr i s -> mbinv g ws s /\ forall j, (j < g_k g)%nat -> inbox (g_ncol g) lo hi (cent s j)).
  { induction i as [|i IH]; intros s Hb.
    - unfold before in Hb. cbn in Hb. injection Hb as <-. rewrite I0. split; [exact Hinv0|]. intros j Hj. rewrite <- (@pcentroid_cent g s0 j ltac:(apply Hinv0)).
      rewrite <- I0. apply H0. exact Hj.
    - change (after rr i s) in Hb.
      assert (Hp : exists p, before rr i p).
      { unfold before, after in *. destruct (nth_error (mb_init rr :: mb_trace rr) i) as [p|] eqn:Ep; [eauto|]. apply nth_error_None in Ep. cbn [length] in Ep.
        assert (i < length (mb_trace rr))%nat by (apply nth_error_Some; congruence). lia. }
      destruct Hp as (p & Hp). destruct (Hst i p s Hp Hb) as (Ip & Is & St & _). destruct (IH p Hp) as (_ & Hcp). split; [exact Is|].
      apply (@step_box g ws data _ (u i) p s lo hi ltac:(apply Ha) Ip Is St); auto. }
  assert (G2 : forall i s, before rr i s -> forall j, (j < g_k g)%nat -> within (g_ncol g) lo hi (pcentroid (g_ncol g) s j)).
  { intros i s Hb j Hj. destruct (G i s Hb) as (Is & Hc). rewrite (@pcentroid_cent g s j ltac:(apply Is)). apply Hc. exact Hj. }
  split; [exact G2|]. intros j Hj. rewrite Hct. change (row (c_means (p_cl (ps_cltrs (final_state rr)))) (g_ncol g) j) with (pcentroid (g_ncol g) (final_state rr) j).
  assert (Hf : exists i, before rr i (final_state rr)).
  { unfold before, final_state. clear. destruct (mb_trace rr) as [|x l] using rev_ind; [exists 0%nat; reflexivity|]. exists (S (length l)). rewrite last_last. cbn [nth_error].
    rewrite nth_error_app2, Nat.sub_diag by lia. reflexivity. }
  destruct Hf as (i & Hf). exact (G2 i _ Hf j Hj).
Qed.
Print Assumptions C94_centroids_in_box.

(** A run whose box contains no point at an overflowing distance from a row always
    completes. *)
Theorem C94_completes : forall (g : kcfg NumR) mb_size centers it (data : list (car NumR)) dr (u : nat -> nat -> R) scheds lo hi,
  mb_args g data centers it dr scheds ->
  (forall r, (r < g_nrow g)%nat -> within (g_ncol g) lo hi (row data (g_ncol g) r)) ->
  (forall r c, (r < g_nrow g)%nat -> length c = g_ncol g -> within (g_ncol g) lo hi c -> rdist (g_dt g) (row data (g_ncol g) r) c < IZR dbl_max_Z) ->
  exists ws s s0, build_workers g data = Ok ws /\ prune_create_coord g centers it = Ok s /\ prune_run_init g it ws data dr s = Ok s0 /\
    ((forall j, (j < g_k g)%nat -> within (g_ncol g) lo hi (pcentroid (g_ncol g) s0 j)) ->
     exists rr, mb_run g mb_size centers it data dr u scheds = Ok rr /\ mb_init rr = s0).
Proof.
  intros g mb_size centers it data dr u scheds lo hi Ha Hx Hfin.
  destruct (@mb_run_R g mb_size centers it data dr u scheds Ha) as (ws & s & s0 & Ew & Hws & Es & E0 & Hinv0 & He & HR).
  exists ws, s, s0. splits; auto. intros H0.
  pose proof Ha as (Hk2 & Va & Hrd & Hf). assert (Hk1 : (1 <= g_k g)%nat) by lia. specialize (Hf ws Ew).
  assert (Hdata : @length R data = (g_nrow g * g_ncol g)%nat) by apply Ha.
  set (ok := fun a : pst NumR => mbinv g ws a /\ (forall j, (j < g_k g)%nat -> inbox (g_ncol g) lo hi (cent a j)) /\
     forall r, (r < g_nrow g)%nat -> entry_ok (g_k g) (g_dt g) (cent a) (row data (g_ncol g) r) (cdist (cellat a r)) (casg (cellat a r))).
  assert (Hb0 : forall j, (j < g_k g)%nat -> inbox (g_ncol g) lo hi (cent s0 j)).
  { intros j Hj. rewrite <- (@pcentroid_cent g s0 j ltac:(apply Hinv0)). apply H0. exact Hj. }
  assert (Hok0 : ok s0).
  { unfold ok. splits; auto. apply He. intros r j Hr Hj. rewrite (@pcentroid_cent g s0 j ltac:(apply Hinv0)).
    apply Hfin; [exact Hr|exact (@cent_len g ws s0 j Hinv0 Hj)|apply Hb0; exact Hj]. }
  set (q := mb_perctg g mb_size).
  assert (HL : forall m iter a trace, ok a -> exists iter' conv b trace', mb_loop g ws q u scheds m iter a trace = Ok (iter', conv, b, trace') /\ ok b).
  { induction m as [|m IH]; intros iter a trace Hoa; cbn [mb_loop]; [do 4 eexists; split; [reflexivity|exact Hoa]|].
    destruct Hoa as (Ia & Hba & Hea).
    pose proof (@mb_iterate_R g ws data Hws Hdata Hk1 q (u iter) (scheds iter) a (Hf iter) Ia) as Hi.
    destruct (mb_iterate g ws q (u iter) (scheds iter) a) as [b|e]; cbn [Base.bind].
    2:{ exfalso. destruct Hi as (_ & r & Hr & _ & Hno). destruct (@mscan_near g ws data Hdata Hk1 a r Ia Hr (Hea r Hr)) as (x & Ex & _). congruence. }
    destruct Hi as (Ib & HA & HB & HC & HD).
    assert (Hbb : forall j, (j < g_k g)%nat -> inbox (g_ncol g) lo hi (cent b j)).
    { apply (@step_box g ws data q (u iter) a b lo hi Hdata Ia Ib); auto. unfold mstep. splits; auto; intros; apply HA; auto. }
    assert (Hob : ok b).
    { unfold ok. splits; auto. intros r Hr. left. destruct (HA r Hr) as (_ & ->). split; [reflexivity|]. intros j Hj. 
      apply (Hfin r (cent b j)); [exact Hr|exact (@cent_len g ws b j Ib Hj)|apply Hbb; exact Hj]. }
    match goal with |- context [assert_ ?c] => replace c with true by (symmetry; apply Nat.eqb_eq; symmetry; exact (@means_len g ws b Ib)) end.
    cbn [assert_ Base.bind].
    rewrite mb_change_R by (rewrite HD; etransitivity; [exact (@means_len g ws a Ia)|symmetry; exact (@means_len g ws b Ib)]). cbn [Base.bind].
    destruct (nltb NumR _ (g_tol g)); [do 4 eexists; split; [reflexivity|exact Hob]|]. apply IH. exact Hob. }
  unfold mb_run.
  match goal with |- context [Base.bind ?t _] => replace t with (Ok s : res (pst NumR)) by (symmetry; exact Es) end. cbn [Base.bind].
  match goal with |- context [Base.bind ?t _] => replace t with (Ok ws : res (list (worker NumR))) by (symmetry; exact Ew) end. cbn [Base.bind].
  match goal with |- context [Base.bind ?t _] => replace t with (Ok s0 : res (pst NumR)) by (symmetry; exact E0) end. cbn [Base.bind].
  destruct (HL (g_max_iters g) 0%nat s0 [] Hok0) as (iter' & conv & b & tr & E & (Ib & Hbb & Heb)). fold q.
  match goal with |- context [Base.bind ?t _] => replace t with (Ok (iter', conv, b, tr) : res (nat * bool * pst NumR * list (pst NumR))) by (symmetry; exact E) end. cbn [Base.bind].
  destruct Ib as (((P1 & P2) & Hdm & Hcn & Lc & Hl1 & Hl2) & Hid).
  destruct (@init_round g ws data Hws Hdata (ps_cltrs b) (ps_dm b) (scheds (g_max_iters g)) (ps_local b) (PruneModel.ps_cells b) P1 Hk1 (Hf _) Lc Hl1 Hl2 Heb) as (locs & cells & Ep & _ & Lcs & Hcl & _).
  match goal with |- context [Base.bind ?t _] => replace t with (Ok (locs, cells) : res (list (wstate NumR) * list cellR)) by (symmetry; exact Ep) end. cbn [Base.bind snd].
  destruct (@tally_ok (g_k g) cells (repeat 0%Z (g_k g)) (repeat_length _ _)) as (counts & Ec).
  { intros a Hin. unfold asg_of in Hin. apply in_map_iff in Hin as (c & <- & Hin). apply (In_nth _ _ dcell) in Hin as (r & Hr & <-).
    destruct (Hcl r) as (x & Ex & (Hx1 & _) & _); [rewrite <- Lcs; exact Hr|]. exists x. split; auto. }
  match goal with |- context [Base.bind ?t _] => replace t with (Ok counts : res (list Z)) by (symmetry; exact Ec) end. cbn [Base.bind].
  eexists. split; reflexivity.
Qed.

(* ------------------------------------------------------------------ *)
(** ** C95: the returned clustering *)
Theorem C95_final_assignment : forall (g : kcfg NumR) mb_size centers it (data : list (car NumR)) dr (u : nat -> nat -> R) scheds rr,
  mb_args g data centers it dr scheds ->
  mb_run g mb_size centers it data dr u scheds = Ok rr ->
  let out := mb_out rr in
  let C j := row (ct_centroids out) (g_ncol g) j in
  let members j := filter (fun r => id_eqb (nth r (ct_asg out) None) (Some j)) (seq 0 (g_nrow g)) in
  (forall j, C j = pcentroid (g_ncol g) (final_state rr) j) /\
  length (ct_counts out) = g_k g /\
  (forall j, (j < g_k g)%nat -> length (ct_asg out) = g_nrow g -> nth j (ct_counts out) 0%Z = Z.of_nat (length (members j))) /\
  ((forall r j, (r < g_nrow g)%nat -> (j < g_k g)%nat -> rdist (g_dt g) (row data (g_ncol g) r) (C j) < IZR dbl_max_Z) ->
   length (ct_asg out) = g_nrow g /\ fold_right Z.add 0%Z (ct_counts out) = Z.of_nat (g_nrow g) /\
   forall r, (r < g_nrow g)%nat -> exists a, nth r (ct_asg out) None = Some a /\ (a < g_k g)%nat /\
     forall j, (j < g_k g)%nat -> rdist (g_dt g) (row data (g_ncol g) r) (C a) <= rdist (g_dt g) (row data (g_ncol g) r) (C j)).
Proof.
  intros g mb_size centers it data dr u scheds rr Ha Hr out C members.
  destruct (@mb_run_R g mb_size centers it data dr u scheds Ha) as (ws & s1 & s0 & Ew & Hws & Es & E0 & Hinv0 & He & HR).
  destruct (HR rr Hr) as (I0 & _ & Hst & If & _ & _ & _ & Hct & locs & cells & Ep & Easg & Et).
  pose proof Ha as (Hk2 & Va & Hrd & Hf). assert (Hk1 : (1 <= g_k g)%nat) by lia. specialize (Hf ws Ew).
  assert (Hdata : @length R data = (g_nrow g * g_ncol g)%nat) by apply Ha.
  destruct (@tally_R (g_k g) cells _ _ (repeat_length _ _) Et) as (Lcn & Hcn).
  assert (HC : forall j, C j = pcentroid (g_ncol g) (final_state rr) j) by (intros j; unfold C, out; rewrite Hct; reflexivity).
  splits; auto.
  - intros j Hj La. unfold out. rewrite (Hcn j Hj), nth_repeat. rewrite Z.add_0_l. f_equal. unfold members, out. rewrite <- La. unfold out. rewrite Easg.
    assert (G : forall (l : list (option nat)) o (f : nat -> option nat), (forall i, (i < length l)%nat -> f (o + i)%nat = nth i l None) ->
      length (filter (fun a => id_eqb a (Some j)) l) = length (filter (fun r => id_eqb (f r) (Some j)) (seq o (length l)))).
    { clear. induction l as [|a l IH]; intros o f H; [reflexivity|]. cbn [length seq filter].
      pose proof (H 0%nat ltac:(cbn; lia)) as H0. rewrite Nat.add_0_r in H0. cbn in H0. rewrite H0.
      assert (E : length (filter (fun a => id_eqb a (Some j)) l) = length (filter (fun r => id_eqb (f r) (Some j)) (seq (S o) (length l)))).
      { apply IH. intros i Hi. replace (S o + i)%nat with (o + S i)%nat by lia. apply (H (S i)). cbn; lia. }
      destruct (id_eqb a (Some j)); cbn [length]; rewrite E; reflexivity. }
    unfold acnt. apply (G (asg_of cells) 0%nat). intros; reflexivity.
  - intros Hfin.
    assert (Hfi : finite_init g data (final_state rr)) by (intros r j Hr' Hj; rewrite <- HC; apply Hfin; auto).
    assert (Hfs : exists i, before rr i (final_state rr)).
    { unfold before, final_state. clear. destruct (mb_trace rr) as [|x l] using rev_ind; [exists 0%nat; reflexivity|]. exists (S (length l)). rewrite last_last. cbn [nth_error].
      rewrite nth_error_app2, Nat.sub_diag by lia. reflexivity. }
    destruct Hfs as (i & Hb).
    assert (Hen := @entry_state g mb_size data _ u ws centers it dr scheds rr s0 i (final_state rr) Ha Hr I0 If He (fun i a b A B => proj1 (proj2 (proj2 (Hst i a b A B)))) Hb Hfi).
    destruct If as (((P1 & P2) & Hdm & Hcn' & Lc & Hl1 & Hl2) & Hid).
    destruct (@init_round g ws data Hws Hdata (ps_cltrs (final_state rr)) (ps_dm (final_state rr)) (scheds (g_max_iters g)) (ps_local (final_state rr)) (PruneModel.ps_cells (final_state rr)) P1 Hk1 (Hf _) Lc Hl1 Hl2 Hen) as (locs' & cells' & Ep' & _ & Lcs & Hcl & _).
    assert (Q := eq_trans (eq_sym Ep) Ep'). injection Q as _ <-.
    split; [unfold out; rewrite Easg; unfold asg_of; rewrite map_length; exact Lcs|].
    split.
    { rewrite <- Lcs. unfold out. transitivity (Z.of_nat (length (asg_of cells))); [|unfold asg_of; rewrite map_length; reflexivity].
      rewrite <- (@acnt_total (g_k g) (asg_of cells)).
      - apply f_equal. apply nth_ext with (d := 0%Z) (d' := 0%Z); [rewrite map_length, seq_length; exact Lcn|]. intros j Hj. rewrite Lcn in Hj.
        rewrite (Hcn j Hj), nth_repeat, Z.add_0_l. symmetry. apply nth_error_nth. rewrite nth_error_map, (nth_error_nth' (seq 0 (g_k g)) 0%nat) by (rewrite seq_length; exact Hj).
        rewrite seq_nth by exact Hj. reflexivity.
      - intros a Hin. unfold asg_of in Hin. apply in_map_iff in Hin as (c & <- & Hin). apply (In_nth _ _ dcell) in Hin as (r & Hr0 & <-).
        destruct (Hcl r) as (x & Ex & (Hx1 & _) & _); [rewrite <- Lcs; exact Hr0|]. exists x. split; auto. }
    intros r Hr'. destruct (Hcl r Hr') as (a & Ea & (Hn1 & Hn2) & _). exists a. splits; auto.
    + unfold out. rewrite Easg. unfold asg_of. unfold casg in Ea. rewrite <- Ea. apply (nth_map_pair (fun c : cellR => snd (fst c)) cells r dcell). reflexivity.
    + intros j Hj. rewrite !HC, !(@pcentroid_cent g _ _ P1). apply Hn2. exact Hj.
Qed.
Print Assumptions C95_final_assignment.

(* ------------------------------------------------------------------ *)
(** ** C96: when the iteration stops, and the reported iteration number *)

(** the change of an iteration: the Euclidean length of the difference of the
    centroid matrices (row-major) before and after it *)
Definition change (s s' : pst NumR) : R := edist (c_means (p_cl (ps_cltrs s'))) (c_means (p_cl (ps_cltrs s))).

Theorem C96_stop_partial : forall (g : kcfg NumR) mb_size centers it (data : list (car NumR)) dr (u : nat -> nat -> R) scheds rr,
  mb_args g data centers it dr scheds ->
  mb_run g mb_size centers it data dr u scheds = Ok rr ->
  let performed := length (mb_trace rr) in
  (performed <= g_max_iters g)%nat /\
  (* the run stops after the first iteration whose change is below the tolerance *)
  (forall i s s', before rr i s -> after rr i s' ->
     (change s s' < g_tol g <-> mb_converged rr = true /\ S i = performed)) /\
  (mb_converged rr = false -> performed = g_max_iters g /\ ct_iters (mb_out rr) = performed) /\
  (mb_converged rr = true -> (1 <= performed)%nat /\ S (ct_iters (mb_out rr)) = performed).
Proof.
  intros g mb_size centers it data dr u scheds rr Ha Hr performed.
  destruct (@mb_run_R g mb_size centers it data dr u scheds Ha) as (ws & s1 & s0 & Ew & Hws & Es & E0 & Hinv0 & He & HR).
  destruct (HR rr Hr) as (I0 & Hit & Hst & _). fold performed in Hit, Hst.
  splits.
  - destruct (mb_converged rr); lia.
  - intros i s s' Hb Haf. apply (Hst i s s' Hb Haf).
  - intros E. rewrite E in Hit. split; [lia|]. destruct Hit as (-> & ->). reflexivity.
  - intros E. rewrite E in Hit. split; lia.
Qed.

(* ------------------------------------------------------------------ *)
(** ** C97: the sampled fraction *)
Theorem C97_fraction_partial : forall (g : kcfg NumR) mb_size,
  (1 <= g_nthreads g < 2 ^ 32)%Z -> (1 <= g_nrow g)%nat ->
  let T := Z.min (g_nthreads g) (Z.of_nat (g_nrow g)) in
  ((T <= mb_size)%Z -> mb_perctg g mb_size = IZR mb_size / INR (g_nrow g)) /\
  ((mb_size < T)%Z -> mb_perctg g mb_size = 1 / INR (g_nrow g)).
Proof.
  intros g mb_size Ht Hn T.
  assert (HT : (1 <= T)%Z) by (unfold T; lia).
  assert (HTR : 1 <= IZR T) by (apply IZR_le in HT; exact HT).
  unfold mb_perctg. rewrite eff_threads_ok by lia. fold T. change (nltb NumR) with Rltb. change (ndiv NumR) with Rdiv. change (none NumR) with 1. change (nofZ NumR) with IZR.
  rewrite <- INR_IZR_INZ. split; intros H.
  - replace (Rltb (IZR mb_size / IZR T) 1) with false; [reflexivity|]. symmetry. apply Rltb_false. apply IZR_le in H.
    apply (Rmult_le_reg_r (IZR T)); [lra|]. unfold Rdiv. rewrite Rmult_assoc, Rinv_l by lra. lra.
  - replace (Rltb (IZR mb_size / IZR T) 1) with true; [reflexivity|]. symmetry. apply Rltb_true. apply IZR_lt in H.
    apply (Rmult_lt_reg_r (IZR T)); [lra|]. unfold Rdiv. rewrite Rmult_assoc, Rinv_l by lra. lra.
Qed.

(** a requested batch of 5 rows on 10 threads is silently a batch of one *)
Theorem C97_fraction_refuted : exists (g : kcfg NumR) mb_size, (1 < mb_size)%Z /\ (mb_size < Z.of_nat (g_nrow g))%Z /\
  (1 <= g_nthreads g)%Z /\ mb_perctg g mb_size <> IZR mb_size / INR (g_nrow g).
Proof.
  exists (mkCfg NumR 100 1 2 1 10 0 EUCL UserBuffer), 5%Z. cbn [g_nrow g_nthreads]. splits; try lia; try (cbn; lia).
  rewrite (proj2 (@C97_fraction_partial (mkCfg NumR 100 1 2 1 10 0 EUCL UserBuffer) 5%Z ltac:(cbn [g_nthreads]; lia) ltac:(cbn [g_nrow]; lia))) by (cbn [g_nthreads g_nrow]; lia).
  cbn [g_nrow]. rewrite INR_IZR_INZ. intros H. replace (IZR (Z.of_nat 100)) with 100 in H by (apply f_equal; reflexivity). lra.
Qed.
