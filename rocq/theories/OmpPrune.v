(** The pruned OpenMP entry point makes the passes of a pruned driver. *)
From Coq Require Import Reals Lra Lia List Permutation.
From Verif Require Import Base Num Spec DistModel ClustersModel ClustersView PartitionModel ParModel KmeansModel PruneModel.
From Verif Require Import MatLemmas VecLemmas ClustersProofs DistProofs PartitionProofs ParProofs NearProofs KmeansProofs UpdateProofs RunProofs ParRule DistMatProofs PruneProofs ClusterSums PruneRound PruneUpdate PruneRun PruneRun2.
From Verif Require Import InitProofs SimProofs KmeansR SseProofs PropertiesKmeans PropertiesKmeansR PropertiesRun KmsppR PropertiesKmspp PropertiesPrune PropertiesDistRun PropertiesDistSame SpecLloyd PropertiesPruneStop PropertiesPruneSame OmpModel OmpProofs PropertiesOmp PrunePasses.
Set Implicit Arguments.

Section Loops.
Variable N : Num.
Notation T := (car N).

(** the aggregation loops of the library and of the OpenMP step differ only in
    the width of the check sum *)
Definition pfin (w : Z -> Z) (ncol : nat) (i : nat) (st : prune_clusters N * list Z * Z) : res (prune_clusters N * list Z * Z) :=
  let '(p, counts, chk) := st in
  let* c := finalize (p_cl p) i in
  let p := with_cl p c in
  let* d := eucl_dist N (c_means c, i * ncol) (p_prev_means p, i * ncol) ncol in
  let* p := set_prev_dist p d i in
  let* n := aget (c_members c) i in
  let* counts := aset counts i n in
  Ok (p, counts, w (chk + n)%Z).

Lemma pfin_loops ncol k p counts p' counts' chk :
  loop k (pfin w32 ncol) (p, counts, 0%Z) = Ok (p', counts', chk) ->
  loop k (pfin w64 ncol) (p, counts, 0%Z) = Ok (p', counts', w64 (OmpProofs.zsum (firstn k counts'))) /\ length counts' = length counts.
Proof.
  unfold loop.
  assert (G : forall n i p counts p' counts' chk,
    for_ n i (pfin w32 ncol) (p, counts, w32 (OmpProofs.zsum (firstn i counts))) = Ok (p', counts', chk) ->
    for_ n i (pfin w64 ncol) (p, counts, w64 (OmpProofs.zsum (firstn i counts))) = Ok (p', counts', w64 (OmpProofs.zsum (firstn (i + n) counts'))) /\ length counts' = length counts).
  { clear. induction n as [|n IH]; intros i p counts p' counts' chk; cbn [for_].
    - rewrite Nat.add_0_r. intros H. injection H as <- <- _. auto.
    - intros H. apply bind_ok in H as ([[p1 counts1] chk1] & E & H). unfold pfin in E at 1. unfold pfin at 1.
      apply bind_ok in E as (c & -> & E). cbn [Base.bind]. apply bind_ok in E as (dd & -> & E). cbn [Base.bind]. apply bind_ok in E as (p2 & -> & E). cbn [Base.bind].
      apply bind_ok in E as (m & -> & E). cbn [Base.bind]. apply bind_ok in E as (cn & Ec & E). rewrite Ec. cbn [Base.bind]. injection E as <- <- <-.
      unfold aset in Ec. destruct (Nat.ltb_spec i (length counts)) as [Hi|Hi]; [|discriminate]. injection Ec as <-.
      specialize (IH (Datatypes.S i) p2 (upd counts i m) p' counts' chk).
      rewrite zsum_firstn_S in IH by (rewrite upd_length; exact Hi). rewrite firstn_upd_ge in IH by lia.
      rewrite nth_upd, Nat.eqb_refl in IH by exact Hi.
      assert (E32 : w32 (w32 (OmpProofs.zsum (firstn i counts)) + m) = w32 (OmpProofs.zsum (firstn i counts) + m)) by (unfold w32; apply Zplus_mod_idemp_l).
      assert (E64 : w64 (w64 (OmpProofs.zsum (firstn i counts)) + m) = w64 (OmpProofs.zsum (firstn i counts) + m)) by (unfold w64; apply Zplus_mod_idemp_l).
      rewrite E32 in H. rewrite E64. replace (i + Datatypes.S n) with (Datatypes.S i + n) by lia. rewrite upd_length in IH. exact (IH H). }
  intros H. exact (G k 0 p counts p' counts' chk H).
Qed.

(** a step of the OpenMP program from a successful round and update of the library's *)
Lemma omp_pstep (g : kcfg N) ws b sched s lc s' :
  par_run (pEM_row g ws (ps_cltrs s) (ps_dm s) b) (w_ranges ws) sched (ps_cells s) (map (fun _ => (clusters_create N (g_k g) (g_ncol g), 0)) ws) = Ok lc ->
  prune_update g b (mkPst (ps_cltrs s) (ps_dm s) (snd lc) (ps_counts s) (ps_changed s) (fst lc)) = Ok s' ->
  length (ps_counts s) = g_k g -> OmpProofs.zsum (ps_counts s') = Z.of_nat (g_nrow g) -> (Z.of_nat (g_nrow g) < 2 ^ 32)%Z ->
  omp_pEM_step g ws b sched s = Ok s'.
Proof.
  intros E EU Lc Hz V2. unfold omp_pEM_step. rewrite E. cbn [Base.bind].
  unfold prune_update in EU. cbn [ps_cltrs ps_dm ps_cells ps_counts ps_changed ps_local] in EU.
  apply bind_ok in EU as (p & -> & EU). cbn [Base.bind]. apply bind_ok in EU as (cc & -> & EU). cbn [Base.bind].
  apply bind_ok in EU as ([[p1 counts1] chk] & EL & EU). apply bind_ok in EU as (u & _ & EU). injection EU as <-. cbn [ps_counts] in Hz.
  destruct (@pfin_loops (g_ncol g) (g_k g) _ _ _ _ _ EL) as (EL2 & Lc'). unfold pfin in EL2. unfold loop in *. rewrite EL2. cbn [Base.bind].
  rewrite Lc in Lc'. rewrite <- Lc', firstn_all, Hz.
  replace (w64 (Z.of_nat (g_nrow g))) with (Z.of_nat (g_nrow g)) by (unfold w64; rewrite Z.mod_small; lia).
  rewrite Z.eqb_refl. reflexivity.
Qed.

Definition pfill (g : kcfg N) (ws : list (worker N)) (s : pst N) : pst N :=
  mkPst (ps_cltrs s) (ps_dm s) (ps_cells s) (ps_counts s) (ps_changed s) (map (fun _ => (clusters_create N (g_k g) (g_ncol g), 0)) ws).

(** the library clears its containers, the OpenMP program makes new ones *)
Lemma fresh_locals (g : kcfg N) (ws : list (worker N)) (ls : list (wstate N)) : length ls = length ws -> Forall (fun l => shaped (g_k g) (g_ncol g) (fst l)) ls ->
  map (fun l => (clear (fst l), 0)) ls = map (fun _ => (clusters_create N (g_k g) (g_ncol g), 0)) ws.
Proof.
  revert ws. induction ls as [|l ls IH]; intros [|w ws] L F; try discriminate; [reflexivity|].
  inversion F; subst. cbn [map]. f_equal; [|apply IH; auto]. f_equal. apply (clear_create (k := g_k g)). assumption.
Qed.
End Loops.

Local Open Scope R_scope.

Section Steps.
Variables (g : kcfg NumR) (data : list (car NumR)) (ws : list (worker NumR)).
Hypothesis Hk : (2 <= g_k g)%nat.
Hypothesis V : valid_input g data.
Hypothesis Hws : wok (g_nrow g) (g_ncol g) data ws.

Lemma zsum_counts cells : assigned g cells -> OmpProofs.zsum (map (cntF (g_nrow g) cells) (seq 0 (g_k g))) = Z.of_nat (g_nrow g).
Proof. intros H. rewrite <- (@counts_total g data cells H), zsum_fold. reflexivity. Qed.

Lemma pfill_locals s : plocals g ws (pfill g ws s).
Proof. clear. split; cbn [pfill ps_local]; [apply map_length|]. apply Forall_forall. intros l H. apply in_map_iff in H as (w & <- & _). cbn [fst]. apply shaped_create. Qed.

Lemma pEM_round_fill p dm b sched (ls : list (wstate NumR)) cells : length ls = length ws -> Forall (fun l : wstate NumR => shaped (g_k g) (g_ncol g) (fst l)) ls ->
  pEM_round g ws p dm b sched ls cells = par_run (pEM_row g ws p dm b) (w_ranges ws) sched cells (map (fun _ => (clusters_create NumR (g_k g) (g_ncol g), 0%nat)) ws).
Proof. clear. intros L F. unfold pEM_round. rewrite (@fresh_locals NumR g ws ls L F). reflexivity. Qed.

Lemma omp_first_eq sched s s1 : complete (w_ranges ws) sched -> ppre g ws (pfill g ws s) ->
  (forall r, (r < g_nrow g)%nat -> entry_ok (g_k g) (g_dt g) (cent s) (row data (g_ncol g) r) (cdist (cellat s r)) (casg (cellat s r))) ->
  prune_first g ws sched (pfill g ws s) = Ok s1 ->
  exists s2, omp_pEM_step g ws true sched s = Ok s2 /\ with_changed s2 0 = s1.
Proof.
  intros Hc Hp He E. pose proof V as (V1 & V2 & V3 & V4).
  destruct (@first_ok g ws data Hws V4 V2 Hk sched (pfill g ws s) Hc Hp He) as (s1' & E' & (_ & _ & _ & Hcn & Has & _) & _).
  assert (Q := eq_trans (eq_sym E) E'). injection Q as <-. clear E'.
  unfold prune_first in E. destruct (pfill_locals s) as (L & F). rewrite (pEM_round_fill _ _ _ _ _ L F) in E.
  apply bind_ok in E as (lc & El & E). apply bind_ok in E as (s2 & Eu & E). injection E as <-. exists s2. split; [|reflexivity].
  cbn [pfill ps_cltrs ps_dm ps_cells ps_counts ps_changed] in El, Eu. cbn [with_changed ps_counts ps_cells] in Hcn, Has.
  apply (@omp_pstep NumR g ws true sched s lc s2 El Eu); [|rewrite Hcn; apply zsum_counts; exact Has|exact V2].
  destruct Hp as (_ & _ & Lc & _). exact Lc.
Qed.

Lemma omp_iter_eq sched s s' : complete (w_ranges ws) sched -> pinv g ws data s -> prune_iterate g ws sched s = Ok s' ->
  (let* mp := compute_dist (g_ncol g) (ps_dm s) (ps_cltrs s) in
   omp_pEM_step g ws false sched (mkPst (snd mp) (fst mp) (ps_cells s) (ps_counts s) (ps_changed s) (ps_local s))) = Ok s'.
Proof.
  intros Hc Hi E. pose proof V as (V1 & V2 & V3 & V4).
  destruct (@PruneRun.iterate_ok g ws data Hws V4 V2 Hk sched s Hc Hi) as (s1' & E' & (_ & _ & _ & Hcn & Has & _) & _).
  assert (Q := eq_trans (eq_sym E) E'). injection Q as <-. clear E'.
  unfold prune_iterate in E. apply bind_ok in E as (mp & -> & E). cbn [Base.bind].
  pose proof Hi as (_ & _ & _ & Hcn0 & _ & (L & F)).
  rewrite (pEM_round_fill _ _ _ _ _ L F) in E. apply bind_ok in E as (lc & El & E).
  apply (@omp_pstep NumR g ws false sched (mkPst (snd mp) (fst mp) (ps_cells s) (ps_counts s) (ps_changed s) (ps_local s)) lc s' El E); [|rewrite Hcn; apply zsum_counts; exact Has|exact V2].
  cbn [ps_counts]. rewrite Hcn0, map_length, seq_length. reflexivity.
Qed.

Lemma omp_ploop_eq scheds : (forall i, complete (w_ranges ws) (scheds i)) ->
  forall n iter s t, pinv g ws data s -> omp_ploop g ws scheds n iter s t = prune_loop g ws scheds n iter s t.
Proof.
  intros Hc. pose proof V as (V1 & V2 & V3 & V4). induction n as [|n IH]; intros iter s t Hi; [reflexivity|]. cbn [omp_ploop prune_loop].
  destruct (@PruneRun.iterate_ok g ws data Hws V4 V2 Hk (scheds iter) s (Hc iter) Hi) as (s1 & E & Hi1 & _).
  rewrite E. cbn [Base.bind]. pose proof (omp_iter_eq (Hc iter) Hi E) as Eo.
  apply bind_ok in Eo as (mp & -> & Eo). cbn [Base.bind]. rewrite Eo. cbn [Base.bind].
  destruct (stop_test g (ps_changed s1)); [reflexivity|]. apply IH. exact Hi1.
Qed.
End Steps.
