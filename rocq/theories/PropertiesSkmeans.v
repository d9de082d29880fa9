(** Scaled k-means: C61 (feature scaling) and C92 (it is k-means on the scaled data). *)
From Coq Require Import Reals Lra.
From Verif Require Import Base Num Spec DistModel ClustersModel MatLemmas PartitionModel ParModel ParProofs ParDet
  KmeansModel KmeansProofs RunProofs ParSim MedoidProofs SkmeansModel SkmeansProofs.
Set Implicit Arguments.

(** the values of feature [c] *)
Definition feature {N} (g : kcfg N) (data : list (car N)) (c : nat) : list (car N) :=
  map (fun r => nth c (row data (g_ncol g) r) (nzero N)) (seq 0 (g_nrow g)).

(** both preprocessing rounds let every worker finish *)
Definition sk_fair {N} (g : kcfg N) (data : list (car N)) (sb sn : list nat) : Prop :=
  forall ws, build_workers g data = Ok ws -> complete (w_ranges ws) sb /\ complete (w_ranges ws) sn.

Section Generic.
Variable N : Num.
Notation T := (car N).
Hypothesis O : OrdLaws N.
Hypothesis Hmax : neqb N (nmax N) (nmax N) = true.
Hypothesis Hmin : neqb N (nmin N) (nmin N) = true.

(** the matrix whose entry for row [r], feature [c] is (x - lo c) / (hi c - lo c) *)
Definition scaled (g : kcfg N) (data lo hi : list T) : list T :=
  concat (map (fun r => map (fun c =>
    ndiv N (nsub N (nth c (row data (g_ncol g) r) (nzero N)) (nth c lo (nzero N)))
           (nsub N (nth c hi (nzero N)) (nth c lo (nzero N)))) (seq 0 (g_ncol g))) (seq 0 (g_nrow g))).

Lemma scaled_length g data lo hi : length (scaled g data lo hi) = g_nrow g * g_ncol g.
Proof.
  unfold scaled. set (f := fun r : nat => _). assert (L : forall r, length (f r) = g_ncol g) by (intros r; unfold f; rewrite map_length, seq_length; reflexivity).
  generalize 0. clearbody f. induction (g_nrow g) as [|n IH]; intros s; cbn [seq map concat]; [reflexivity|].
  rewrite app_length, L, IH. reflexivity.
Qed.

Lemma preprocess_det (g : kcfg N) data sb sn sb' sn' : valid_input g data -> sk_fair g data sb sn -> sk_fair g data sb' sn' ->
  preprocess_data g data sb sn = preprocess_data g data sb' sn'.
Proof.
  intros V F F'. destruct (@fair_wok N g data V) as (ws & E & W). destruct (F ws E) as (C1 & C2). destruct (F' ws E) as (C1' & C2').
  destruct (@preprocess_ok N O Hmax Hmin g data sb sn ws V E C1 C2) as (b & Hb & Ep).
  destruct (@preprocess_ok N O Hmax Hmin g data sb' sn' ws V E C1' C2') as (b' & Hb' & Ep').
  rewrite Ep, Ep'. unfold preprocess_data in Ep, Ep'. rewrite E in Ep, Ep'. cbn [Base.bind] in Ep, Ep'.
  assert (Eb : b = b'); [|rewrite Eb; reflexivity].
  apply bind_ok in Ep as ([l1 x1] & E1 & Ep). apply bind_ok in Ep' as ([l1' x1'] & E1' & Ep').
  assert (Ht : ntiles 0 (length (repeat tt (g_nrow g))) (w_ranges ws)) by (rewrite repeat_length; apply W).
  assert (Ll : length (map (fun _ : worker N => bounds0 N (g_ncol g)) ws) = length (w_ranges ws)) by (unfold w_ranges; rewrite !map_length; reflexivity).
  rewrite (@par_run_det _ _ _ _ _ _ Ht Ll sb sb' _ C1 C1' E1) in E1'. injection E1' as <- _.
  cbn [fst] in Ep, Ep'. destruct (bounds_reduction g l1) as [b1|e]; [|discriminate]. cbn [Base.bind] in Ep, Ep'.
  apply bind_ok in Ep as (? & _ & Ep). apply bind_ok in Ep' as (? & _ & Ep'). injection Ep as <- _. injection Ep' as <- _. reflexivity.
Qed.

(** ** C92: for every input there is one scaled matrix, the same for every way
    the worker threads are scheduled, such that scaled k-means is k-means on
    it; the preprocessing never fails, and the scaled matrix is left in the
    caller's buffer.  Its entries are (x - lo)/(hi - lo), where [lo] is the
    feature's smallest value (or DBL_MAX) and [hi] its largest (or DBL_MIN). *)
Theorem C92_scaled_kmeans : forall (g : kcfg N) data, valid_input g data ->
  exists lo hi : list T, length lo = g_ncol g /\ length hi = g_ncol g /\
  (forall c, c < g_ncol g ->
     lowest N (nmax N) (nth c lo (nzero N)) (feature g data c) /\
     highest N (nmin N) (nth c hi (nzero N)) (feature g data c)) /\
  forall centers it sb sn dr scheds, sk_fair g data sb sn ->
    skmeans g centers it data sb sn dr scheds =
    match run g centers it (scaled g data lo hi) dr scheds with
    | Ok rr => Ok (mkSk rr (lo, hi) (scaled g data lo hi))
    | Err e => Err e
    end.
Proof.
  intros g data V. destruct (@fair_wok N g data V) as (ws & E & W).
  assert (Cs : complete (w_ranges ws) (seq_sched (w_ranges ws))) by apply seq_sched_complete.
  destruct (@preprocess_ok N O Hmax Hmin g data _ _ ws V E Cs Cs) as ((lo & hi) & ((L1 & L2) & Hb) & Ep).
  exists lo, hi. cbn [fst snd] in *. splits; auto. intros centers it sb sn dr scheds F.
  assert (F0 : sk_fair g data (seq_sched (w_ranges ws)) (seq_sched (w_ranges ws))).
  { intros ws' E'. rewrite E in E'. injection E' as <-. auto. }
  rewrite (preprocess_det V F0 F) in Ep. unfold skmeans. rewrite Ep.
  change (concat _) with (scaled g data lo hi). cbn [Base.bind fst snd].
  destruct (coordinator_create g centers it) as [s|e] eqn:Ec; cbn [Base.bind].
  - destruct (run g centers it (scaled g data lo hi) dr scheds); reflexivity.
  - unfold run. rewrite Ec. reflexivity.
Qed.
End Generic.

Local Open Scope R_scope.

(** [x] of a feature whose smallest and largest values are [lo] and [hi] *)
Definition least (l : list R) (m : R) : Prop := In m l /\ forall x, In x l -> m <= x.
Definition greatest (l : list R) (m : R) : Prop := In m l /\ forall x, In x l -> x <= m.

(** entry of row [r], feature [c] *)
Definition entry (g : kcfg NumR) (data : list R) (r c : nat) : R := nth c (row data (g_ncol g) r) 0.

Lemma entry_in (g : kcfg NumR) data r c : (r < g_nrow g)%nat -> In (entry g data r c) (@feature NumR g data c).
Proof. intros H. unfold feature, entry. apply in_map_iff. exists r. split; [reflexivity|]. apply in_seq. lia. Qed.

Lemma entry_scaled (g : kcfg NumR) data lo hi r c : (r < g_nrow g)%nat -> (c < g_ncol g)%nat ->
  entry g (@scaled NumR g data lo hi) r c = (entry g data r c - nth c lo 0) / (nth c hi 0 - nth c lo 0).
Proof.
  intros Hr Hc. unfold entry at 1. unfold scaled.
  rewrite (@row_concat _ (g_ncol g) _) with (d := @nil R).
  2:{ apply Forall_forall. intros x Hx. apply in_map_iff in Hx as (q & <- & _). rewrite map_length, seq_length. reflexivity. }
  2:{ rewrite map_length, seq_length. exact Hr. }
  rewrite nth_mapseq by exact Hr. rewrite nth_mapseq by exact Hc. reflexivity.
Qed.

(** ** C61 over exact reals, for data within the double range: for every
    feature that has a value of at least DBL_MIN (the smallest positive normal
    double), the scaled feature is (x - lo)/(hi - lo) with lo, hi the least and
    greatest values; if the feature is not constant all scaled values lie in
    [0,1] and both 0 and 1 occur.  Missing from the full property: features
    without such a value, see C61_refuted. *)
Theorem C61_partial : forall (g : kcfg NumR) (data : list R) centers it sb sn dr scheds sk,
  valid_input g data -> @sk_fair NumR g data sb sn ->
  skmeans g centers it data sb sn dr scheds = Ok sk ->
  forall c, (c < g_ncol g)%nat ->
  (forall r, (r < g_nrow g)%nat -> entry g data r c <= nmax NumR) ->
  (exists r, (r < g_nrow g)%nat /\ nmin NumR <= entry g data r c) ->
  exists lo hi, least (@feature NumR g data c) lo /\ greatest (@feature NumR g data c) hi /\
    (forall r, (r < g_nrow g)%nat -> entry g (sk_data sk) r c = (entry g data r c - lo) / (hi - lo)) /\
    (lo < hi ->
       (forall r, (r < g_nrow g)%nat -> 0 <= entry g (sk_data sk) r c <= 1) /\
       (exists r, (r < g_nrow g)%nat /\ entry g (sk_data sk) r c = 0) /\
       (exists r, (r < g_nrow g)%nat /\ entry g (sk_data sk) r c = 1)).
Proof.
  intros g data centers it sb sn dr scheds sk V F H c Hc Hle Hge.
  destruct (@C92_scaled_kmeans NumR NumR_laws (proj2 (Reqb_true _ _) eq_refl) (proj2 (Reqb_true _ _) eq_refl) g data V) as (lo & hi & _ & _ & Hb & Hs).
  specialize (Hs centers it sb sn dr scheds F). rewrite H in Hs.
  destruct (run g centers it (scaled g data lo hi) dr scheds) as [rr|e]; [|discriminate]. injection Hs as Esk. rewrite Esk. cbn [sk_data].
  destruct (Hb c Hc) as ((_ & Il & Ll) & (_ & Ih & Lh)).
  exists (nth c lo 0), (nth c hi 0).
  assert (A : least (feature g data c) (nth c lo 0)).
  { split.
    - destruct Il as [Em|Il]; [|exact Il]. destruct Hge as (r & Hr & Hv). pose proof (Hle r Hr) as Hu.
      pose proof (Ll _ (or_intror (entry_in g data c Hr))) as B. apply Rltb_false in B. change (nzero NumR) with 0 in *. 
      pose proof (entry_in g data c Hr) as I. assert (X : entry g data r c = nth c lo 0) by (apply Rle_antisym; [rewrite <- Em; exact Hu|exact B]).
      rewrite <- X. exact I.
    - intros x Hx. apply Rltb_false. exact (Ll x (or_intror Hx)). }
  assert (B : greatest (feature g data c) (nth c hi 0)).
  { split.
    - destruct Ih as [Em|Ih]; [|exact Ih]. destruct Hge as (r & Hr & Hv).
      pose proof (Lh _ (or_intror (entry_in g data c Hr))) as X. apply Rltb_false in X. change (nzero NumR) with 0 in *.
      assert (Y : entry g data r c = nth c hi 0) by (apply Rle_antisym; [exact X|rewrite <- Em; exact Hv]).
      rewrite <- Y. apply entry_in. exact Hr.
    - intros x Hx. apply Rltb_false. exact (Lh x (or_intror Hx)). }
  split; [exact A|]. split; [exact B|].
  assert (E : forall r, (r < g_nrow g)%nat -> entry g (scaled g data lo hi) r c = (entry g data r c - nth c lo 0) / (nth c hi 0 - nth c lo 0)).
  { intros r Hr. apply entry_scaled; auto. }
  split; [exact E|]. intros Hlt.
  assert (W : forall m, In m (feature g data c) -> exists r, (r < g_nrow g)%nat /\ entry g data r c = m).
  { intros m Hm. unfold feature in Hm. apply in_map_iff in Hm as (r & <- & Hr). apply in_seq in Hr. exists r. split; [lia|reflexivity]. }
  split; [|split].
  - intros r Hr. rewrite (E r Hr). destruct A as (_ & A). destruct B as (_ & B).
    pose proof (A _ (entry_in g data c Hr)). pose proof (B _ (entry_in g data c Hr)).
    split.
    + apply Rmult_le_pos; [lra|]. left. apply Rinv_0_lt_compat. lra.
    + apply Rmult_le_reg_r with (nth c hi 0 - nth c lo 0); [lra|]. unfold Rdiv. rewrite Rmult_assoc, Rinv_l by lra. lra.
  - destruct (W _ (proj1 A)) as (r & Hr & Er). exists r. split; [exact Hr|]. rewrite (E r Hr), Er. unfold Rdiv. rewrite Rminus_diag_eq by reflexivity. apply Rmult_0_l.
  - destruct (W _ (proj1 B)) as (r & Hr & Er). exists r. split; [exact Hr|]. rewrite (E r Hr), Er. unfold Rdiv. apply Rinv_r. lra.
Qed.

(** The full property is false: a feature whose values are all below DBL_MIN
    (for instance any feature with negative values only) is scaled with
    DBL_MIN as its greatest value, so no row is ever mapped to 1. *)
Theorem C61_refuted : forall (g : kcfg NumR) (data : list R) centers it sb sn dr scheds sk,
  valid_input g data -> @sk_fair NumR g data sb sn ->
  skmeans g centers it data sb sn dr scheds = Ok sk ->
  forall c, (c < g_ncol g)%nat ->
  (forall r, (r < g_nrow g)%nat -> entry g data r c < nmin NumR) ->
  forall r, (r < g_nrow g)%nat -> entry g (sk_data sk) r c < 1.
Proof.
  intros g data centers it sb sn dr scheds sk V F H c Hc Hlt r Hr.
  destruct (@C92_scaled_kmeans NumR NumR_laws (proj2 (Reqb_true _ _) eq_refl) (proj2 (Reqb_true _ _) eq_refl) g data V) as (lo & hi & _ & _ & Hb & Hs).
  specialize (Hs centers it sb sn dr scheds F). rewrite H in Hs.
  destruct (run g centers it (scaled g data lo hi) dr scheds) as [rr|e]; [|discriminate]. injection Hs as Esk. rewrite Esk. cbn [sk_data].
  rewrite entry_scaled by assumption.
  destruct (Hb c Hc) as ((_ & Il & Ll) & (_ & Ih & Lh)). change (nzero NumR) with 0 in *.
  pose proof (Lh _ (or_introl eq_refl)) as X. apply Rltb_false in X.
  assert (Y : nth c hi 0 = nmin NumR).
  { destruct Ih as [Em|Ih]; [symmetry; exact Em|]. exfalso. unfold feature in Ih. apply in_map_iff in Ih as (q & Eq & Hq). apply in_seq in Hq.
    pose proof (Hlt q ltac:(lia)) as Z. unfold entry in Z. change (nzero NumR) with 0 in Eq.
    match type of Eq with ?a = _ => change (a < nmin NumR) in Z end. rewrite Eq in Z. exact (Rlt_irrefl _ (Rlt_le_trans _ _ _ Z X)). }
  rewrite Y. pose proof (Ll _ (or_intror (entry_in g data c Hr))) as L. apply Rltb_false in L. pose proof (Hlt r Hr) as Z.
  revert L Z. generalize (nth c lo 0) (entry g data r c). generalize (nmin NumR). intros M m x L Z. cbn in M.
  apply Rmult_lt_reg_r with (M - m); [lra|]. unfold Rdiv. rewrite Rmult_assoc, Rinv_l by lra. lra.
Qed.
