(** Fuzzy c-means, any arithmetic: C80 (runs succeed, schedule independence),
    C81 (the result), C82 (stopping), C83 (initialisation). *)
From Coq Require Import Permutation.
From Verif Require Import Base Num DistModel ClustersModel MatLemmas
  PartitionModel ParModel KmeansModel ParProofs NearProofs KmeansProofs RunProofs InitProofs Spec DistProofs.
From Verif Require Import ParRule Okab MedoidProofs MedoidRun MatrixModel PropertiesMatrix PropertiesArgmax FcmModel FcmProofs FcmRun.
Set Implicit Arguments.
Unset Strict Implicit.

(** what a caller of the fuzzy c-means run must provide *)
Definition f_valid {N} (f : fcfg N) (centers : option (list (car N))) (it : init_t) (data : list (car N)) (draw : nat -> nat) : Prop :=
  valid_input (f_g f) data /\ 1 <= g_k (f_g f) /\
  (match centers with Some m => length m = g_k (f_g f) * g_ncol (f_g f) | None => True end) /\
  (it = NONE \/ (it = FORGY /\ forall i, i < g_k (f_g f) -> draw i < g_nrow (f_g f))).

(** every turn's schedules let every worker finish, and the row sums visit every
    row of the membership matrix once, in any order *)
Definition f_fair {N} (f : fcfg N) (data : list (car N)) (os : nat -> forder) : Prop :=
  forall ws, build_workers (fcm_cfg (f_g f)) data = Ok ws -> forall i,
    complete (w_ranges ws) (o_e (os i)) /\ complete (w_ranges ws) (o_m (os i)) /\
    Permutation (o_rows (os i)) (seq 0 (g_k (f_g f))).

(** the states after initialisation and after every iteration *)
Definition f_states {N} (r : frun_result N) : list (fst_ N) := fr_init r :: fr_trace r.

(** the centres a run starts from *)
Definition start_centre {N} (f : fcfg N) (centers : option (list (car N))) (it : init_t) (data : list (car N)) (draw : nat -> nat) (j : nat) : list (car N) :=
  match it, centers with
  | FORGY, _ => row data (g_ncol (f_g f)) (draw j)
  | _, Some m => row m (g_ncol (f_g f)) j
  | _, None => repeat (nzero N) (g_ncol (f_g f))
  end.

Section Fcm.
Variable N : Num.
Hypothesis OL : OrdLaws N.
Notation T := (car N).
Notation z := (nzero N).
Variable npow : T -> T -> T.

Lemma row_repeat (x : T) k d j : j < k -> row (repeat x (k * d)) d j = repeat x d.
Proof.
  intros Hj. apply nth_ext with (d := x) (d' := x).
  - unfold row. rewrite slice_length, repeat_length; auto. rewrite repeat_length. nia.
  - intros i Hi. unfold row in Hi. rewrite slice_length in Hi by (rewrite repeat_length; nia).
    unfold row. rewrite nth_slice by exact Hi. rewrite !nth_rep; auto. nia.
Qed.

Lemma f_argmax_ok (m : dmat N) k n : PropertiesMatrix.shaped m -> dm_nrow m = k -> dm_ncol m = n -> 1 <= k ->
  exists A, dm_argmax m 1 = Ok A /\ length A = n /\ Forall (fun a => a < k) A /\
   forall r, r < n -> ((exists j, j < k /\ nltb N (nmin N) (cell m j r) = true) -> largest (fun j => cell m j r) k (nth r A 0)) /\
      ((forall j, j < k -> nltb N (nmin N) (cell m j r) = false) -> nth r A 0 = 0).
Proof.
  intros S E1 E2 Hk. destruct (c48_argmax_partial OL S) as (_ & (A & E & L & H) & _). rewrite E1, E2 in *.
  exists A. splits; auto. apply Forall_forall. intros a Ha. apply In_nth with (d := 0) in Ha as (r & Hr & <-). rewrite L in Hr.
  destruct (H r Hr) as (H1 & H2).
  assert (D : (exists j, j < k /\ nltb N (nmin N) (cell m j r) = true) \/ (forall j, j < k -> nltb N (nmin N) (cell m j r) = false)).
  { clear. induction k as [|k IH]; [right; intros; lia|]. destruct IH as [(j & Hj & E)|IH]; [left; exists j; auto|].
    destruct (nltb N (nmin N) (cell m k r)) eqn:E; [left; exists k; auto|]. right. intros j Hj.
    destruct (Nat.eq_dec j k) as [->|]; auto. apply IH. lia. }
  destruct D as [D|D]; [destruct (H1 D); auto|]. rewrite H2 by exact D. lia.
Qed.

Lemma f_run_ok (f : fcfg N) centers it data draw : f_valid f centers it data draw ->
  let f' := mkFcfg (fcm_cfg (f_g f)) (f_m f) in let g := f_g f in
  exists ws r, build_workers (fcm_cfg g) data = Ok ws /\ wok (g_nrow g) (g_ncol g) data ws /\ ws <> [] /\
   (forall os, f_fair f data os -> f_run npow f centers it data draw os = Ok r) /\
   fgood f' (fr_init r) /\ f_um (fr_init r) = dm_new N (g_k g) (g_nrow g) /\
   (forall j, j < g_k g -> row (dm_mat (f_centers (fr_init r))) (g_ncol g) j = start_centre f centers it data draw j) /\
   fchain npow f' ws data (fr_init r) (fr_trace r) (fr_converged r) /\
   length (fr_trace r) <= g_max_iters g /\ (fr_converged r = false -> length (fr_trace r) = g_max_iters g) /\
   exists A cnt, length A = g_nrow g /\ Forall (fun a => a < g_k g) A /\
     (let s := last (fr_trace r) (fr_init r) in
      fr_out r = mkCluster N (g_nrow g) (g_ncol g)
        ((if 0 <? g_max_iters g then 1 else 0) + length (fr_trace r) - (if fr_converged r then 1 else 0)) (g_k g)
        (map Some A) cnt (dm_mat (f_centers s)) /\
      forall r, r < g_nrow g ->
       ((exists j, j < g_k g /\ nltb N (nmin N) (cell (f_um s) j r) = true) -> largest (fun j => cell (f_um s) j r) (g_k g) (nth r A 0)) /\
       ((forall j, j < g_k g -> nltb N (nmin N) (cell (f_um s) j r) = false) -> nth r A 0 = 0)) /\
     length cnt = g_k g /\ forall c, c < g_k g -> nth c cnt 0%Z = Z.of_nat (count_eq c A).
Proof.
  intros (V & Hk & Hc & Hit) f' g. pose proof V as (V1 & V2 & V3 & V4).
  pose proof (@build_workers_ok N (fcm_cfg g) data V1 V2 V3 V4) as (ws & Ews & W & Lw & _). exists ws.
  assert (Hne : ws <> []).
  { intros ->. cbn [length] in Lw. unfold eff_threads in Lw. cbn [fcm_cfg g_nthreads g_nrow] in Lw. fold g in V1, V2, V3.
    assert (Q : (1 <= Z.min (g_nthreads g) (Z.of_nat (g_nrow g)))%Z) by lia. revert Lw.
    match goal with |- _ = Z.to_nat ?x -> _ => assert (1 <= x)%Z by (unfold w32; try rewrite Z.mod_small; lia) end. lia. }
  assert (V' : valid_input (f_g f') data) by exact V.
  destruct (@f_create_ok N f' Hk centers Hc) as (s0 & E0 & G0 & M0 & U0).
  assert (Hinit : exists s1, f_init f' it data draw s0 = Ok s1 /\ fgood f' s1 /\ f_um s1 = f_um s0 /\
     forall j, j < g_k g -> row (dm_mat (f_centers s1)) (g_ncol g) j = start_centre f centers it data draw j).
  { destruct Hit as [->|(-> & Hdr)]; cbn [f_init].
    - exists s0. splits; auto. intros j Hj. rewrite M0. unfold start_centre. destruct centers; auto. apply row_repeat. exact Hj.
    - destruct (@f_forgy_ok N f' data V' Hk draw s0 (proj1 G0) Hdr) as (C & E & HC & Hrow). rewrite E. eexists. split; [reflexivity|].
      destruct G0 as (_ & G1 & G2 & G3). unfold fgood. cbn [f_um f_centers]. splits; auto. }
  destruct Hinit as (s1 & E1 & G1 & U1 & R1).
  destruct (@f_loop_ok N npow f' ws data V' Hk W Hne (g_max_iters g) (if 0 <? g_max_iters g then 1 else 0) s1 [] G1)
    as (itr & cv & l & El & Hch & L1 & L2 & L3).
  assert (GL : fgood f' (last l s1)).
  { clear - G1 Hch. induction Hch as [s|s s' Ht _|s s' l b Ht _ _ IH].
    - exact G1.
    - cbn [last]. exact (fturned_good Ht).
    - rewrite last_cons'. apply IH. exact (fturned_good Ht). }
  destruct (@f_argmax_ok (f_um (last l s1)) (g_k g) (g_nrow g)) as (A & EA & LA & FA & HA); try apply GL; auto.
  destruct (@f_counts_ok N f' A FA) as (cnt & Ec & Lc & Hcnt).
  exists (mkFRun (mkCluster N (g_nrow g) (g_ncol g) itr (g_k g) (map Some A) cnt (dm_mat (f_centers (last l s1)))) cv s1 l).
  cbn [fr_init fr_trace fr_converged fr_out]. splits; auto.
  - intros os Hos. unfold f_run. fold f'. cbv zeta. rewrite E0. cbn [Base.bind].
    change (f_g f') with (fcm_cfg g). rewrite Ews. cbn [Base.bind]. rewrite E1. cbn [Base.bind].
    cbn [fcm_cfg g_max_iters g_nrow g_ncol g_k]. rewrite El; [|intros i; exact (Hos ws Ews i)]. cbn [Base.bind app].
    rewrite EA. cbn [Base.bind]. change (g_k (f_g f')) with (g_k g) in Ec. rewrite Ec. reflexivity.
  - rewrite U1. exact U0.
  - exists A, cnt. splits; auto. f_equal. destruct cv; lia.
Qed.

Lemma fchain_consec (f : fcfg N) ws data : forall l s b, fchain npow f ws data s l b -> forall j s1 s2,
  nth_error (s :: l) j = Some s1 -> nth_error (s :: l) (S j) = Some s2 ->
  fturned npow f ws data s1 s2 /\
  (nltb N (moved f (f_centers s1) (f_centers s2)) (g_tol (f_g f)) = true <-> S (S j) = length (s :: l) /\ b = true).
Proof.
  induction l as [|x l IH]; intros s b H j s1 s2 E1 E2; cbn [nth_error] in E2; [destruct j; discriminate|].
  destruct j as [|j].
  - cbn in E1, E2. injection E1 as <-. injection E2 as <-. inversion H; subst.
    + split; auto. cbn [length]. split; auto.
    + split; auto. cbn [length]. split; [congruence|]. intros (HL & Hb). assert (l = []) by (destruct l; [reflexivity|discriminate]). subst l b.
      match goal with X : fchain _ _ _ _ _ [] true |- _ => inversion X end.
  - cbn [nth_error] in E1. inversion H; subst.
    + cbn in E2. destruct j; discriminate.
    + destruct (IH x b ltac:(assumption) j s1 s2 E1 E2) as (Q1 & Q2). split; [exact Q1|].
      rewrite Q2. cbn [length]. split; intros (? & ?); split; auto; lia.
Qed.

Lemma f_run_facts (f : fcfg N) centers it data draw os r : f_valid f centers it data draw -> f_fair f data os ->
  f_run npow f centers it data draw os = Ok r ->
  exists ws, wok (g_nrow (f_g f)) (g_ncol (f_g f)) data ws /\ ws <> [] /\
  let f' := mkFcfg (fcm_cfg (f_g f)) (f_m f) in
  (forall s, In s (f_states r) -> fgood f' s) /\
  (forall j s1 s2, nth_error (f_states r) j = Some s1 -> nth_error (f_states r) (S j) = Some s2 ->
     fturned npow f' ws data s1 s2 /\
     (nltb N (moved f' (f_centers s1) (f_centers s2)) (g_tol (f_g f)) = true <-> S (S j) = length (f_states r) /\ fr_converged r = true)).
Proof.
  intros V F E. destruct (@f_run_ok f centers it data draw V) as (ws & r' & _ & W & Hne & HR & Hg & _ & _ & Hch & _).
  rewrite (HR os F) in E. injection E as <-. exists ws. splits; auto. cbv zeta. splits.
  - intros s [<-|Hin]; auto. clear - Hch Hin. induction Hch as [s0|s0 s' Ht _|s0 s' l b Ht _ _ IH].
    + destruct Hin.
    + destruct Hin as [<-|[]]. exact (fturned_good Ht).
    + destruct Hin as [<-|Hin]; auto. exact (fturned_good Ht).
  - intros j s1 s2 E1 E2. exact (@fchain_consec _ ws data _ _ _ Hch j s1 s2 E1 E2).
Qed.
End Fcm.

(** ** C80: a run on valid input succeeds, and its outcome and every intermediate
    state do not depend on how the threads are scheduled, nor on the order in
    which the rows of the membership matrix are summed *)
Theorem C80_schedule_independent : forall N, OrdLaws N -> forall npow (f : fcfg N) centers it data draw,
  f_valid f centers it data draw ->
  exists r, forall os, f_fair f data os -> f_run npow f centers it data draw os = Ok r.
Proof.
  intros N OL npow f centers it data draw V. destruct (@f_run_ok N OL npow f centers it data draw V) as (ws & r & _ & _ & _ & H & _).
  exists r. exact H.
Qed.

(** ** C81: the result.  Every row is assigned to a cluster in which its
    membership weight (in the final matrix) is largest, provided some weight of
    the row is above DBL_MIN; otherwise to cluster 0.  The counts count the
    assignments. *)
Theorem C81_result : forall N, OrdLaws N -> forall npow (f : fcfg N) centers it data draw os r,
  f_valid f centers it data draw -> f_fair f data os -> f_run npow f centers it data draw os = Ok r ->
  let g := f_g f in let s := last (f_states r) (fr_init r) in
  ct_nrow (fr_out r) = g_nrow g /\ ct_ncol (fr_out r) = g_ncol g /\ ct_k (fr_out r) = g_k g /\
  ct_centroids (fr_out r) = dm_mat (f_centers s) /\ length (ct_centroids (fr_out r)) = g_k g * g_ncol g /\
  exists A, ct_asg (fr_out r) = map Some A /\ length A = g_nrow g /\
    (forall row, row < g_nrow g -> nth row A 0 < g_k g /\
      ((exists j, j < g_k g /\ nltb N (nmin N) (cell (f_um s) j row) = true) ->
       (forall j, j < g_k g -> nltb N (cell (f_um s) (nth row A 0) row) (cell (f_um s) j row) = false)) /\
      ((forall j, j < g_k g -> nltb N (nmin N) (cell (f_um s) j row) = false) -> nth row A 0 = 0)) /\
    length (ct_counts (fr_out r)) = g_k g /\
    (forall c, c < g_k g -> nth c (ct_counts (fr_out r)) 0%Z = Z.of_nat (count_eq c A)).
Proof.
  intros N OL npow f centers it data draw os r V F E g s.
  destruct (@f_run_facts N OL npow f centers it data draw os r V F E) as (_ & _ & _ & Hgood & _).
  assert (Hin : In s (f_states r)).
  { unfold s, f_states. rewrite last_cons'. destruct (@exists_last _ (fr_init r :: fr_trace r)) as (l0 & y & El); [discriminate|].
    assert (Ey : last (fr_trace r) (fr_init r) = y) by (rewrite <- (last_cons' (fr_trace r) (fr_init r) (fr_init r)), El; apply last_last).
    rewrite Ey, El. apply in_or_app. right. left. reflexivity. }
  destruct (Hgood s Hin) as ((Kn & Kd & Ks) & _).
  destruct (@f_run_ok N OL npow f centers it data draw V) as (ws & r' & _ & _ & _ & HR & _ & _ & _ & _ & _ & _ & A & cnt & LA & FA & HA & Lc & Hc).
  rewrite (HR os F) in E. injection E as <-. cbv zeta in HA. destruct HA as (Eo & HA). rewrite Eo. cbn [ct_nrow ct_ncol ct_k ct_centroids ct_asg ct_counts].
  assert (Es : s = last (fr_trace r') (fr_init r')) by (unfold s, f_states; apply last_cons').
  rewrite Es in *. splits; auto; [unfold PropertiesMatrix.shaped in Ks; rewrite Ks, Kn, Kd; reflexivity|]. exists A. splits; auto. intros row Hr. destruct (HA row Hr) as (H1 & H2). splits; auto.
  - rewrite Forall_forall in FA. apply FA. apply nth_In. rewrite LA. exact Hr.
  - intros D j Hj. destruct (H1 D) as (_ & H3 & _). apply H3. exact Hj.
Qed.

(** ** C82: stopping.  The run stops with the first iteration that moves the
    centres by less than the tolerance (Frobenius norm), and after max_iters
    iterations otherwise. *)
Definition centre_shift {N} (k d : nat) (C C' : dmat N) : car N :=
  nsqrt N (bigsum N (k * d) (fun i =>
    let x := nsub N (nth i (dm_mat C') (nzero N)) (nth i (dm_mat C) (nzero N)) in nmul N x x)).

Theorem C82_stops : forall N, OrdLaws N -> forall npow (f : fcfg N) centers it data draw os r,
  f_valid f centers it data draw -> f_fair f data os -> f_run npow f centers it data draw os = Ok r ->
  let g := f_g f in
  length (fr_trace r) <= g_max_iters g /\
  (fr_converged r = false -> length (fr_trace r) = g_max_iters g) /\
  ct_iters (fr_out r) = (if g_max_iters g =? 0 then 0 else if fr_converged r then length (fr_trace r) else S (g_max_iters g)) /\
  forall i s s', nth_error (f_states r) i = Some s -> nth_error (f_states r) (S i) = Some s' ->
    (nltb N (centre_shift (g_k g) (g_ncol g) (f_centers s) (f_centers s')) (g_tol g) = true <->
     S i = length (fr_trace r) /\ fr_converged r = true).
Proof.
  intros N OL npow f centers it data draw os r V F E g.
  destruct (@f_run_facts N OL npow f centers it data draw os r V F E) as (ws & _ & _ & _ & Hc).
  destruct (@f_run_ok N OL npow f centers it data draw V) as (ws' & r' & _ & _ & _ & HR & _ & _ & _ & Hch & L1 & L2 & A & cnt & _ & _ & HA & _).
  rewrite (HR os F) in E. injection E as <-. cbv zeta in HA. destruct HA as (Eo & _). fold g in L1, L2, Eo. splits; auto.
  - rewrite Eo. cbn [ct_iters]. destruct (Nat.eqb_spec (g_max_iters g) 0) as [E0|E0].
    + rewrite E0 in *. cbn [Nat.ltb Nat.leb]. lia.
    + destruct (Nat.ltb_spec 0 (g_max_iters g)); [|lia]. destruct (fr_converged r'); [lia|]. rewrite L2 by auto. lia.
  - intros i s s' E1 E2. destruct (Hc i s s' E1 E2) as (_ & H). unfold f_states in H. cbn [length] in H.
    change (moved _ (f_centers s) (f_centers s')) with (centre_shift (g_k g) (g_ncol g) (f_centers s) (f_centers s')) in H.
    fold g in H. rewrite H. split; intros (? & ?); split; auto; lia.
Qed.

(** ** C83: where a run starts.  Forgy initialisation takes the drawn rows; without
    initialisation the supplied centres are used (zeros if there are none); the
    other two initialisations throw. *)
Theorem C83_start : forall N, OrdLaws N -> forall npow (f : fcfg N) centers it data draw os r,
  f_valid f centers it data draw -> f_fair f data os -> f_run npow f centers it data draw os = Ok r ->
  forall j, j < g_k (f_g f) ->
    row (dm_mat (f_centers (fr_init r))) (g_ncol (f_g f)) j = start_centre f centers it data draw j.
Proof.
  intros N OL npow f centers it data draw os r V F E.
  destruct (@f_run_ok N OL npow f centers it data draw V) as (ws' & r' & _ & _ & _ & HR & _ & _ & H & _).
  rewrite (HR os F) in E. injection E as <-. exact H.
Qed.

Theorem C83_unsupported : forall N npow (f : fcfg N) centers data draw os,
  valid_input (f_g f) data -> 1 <= g_k (f_g f) ->
  (match centers with Some m => length m = g_k (f_g f) * g_ncol (f_g f) | None => True end) ->
  f_run npow f centers PLUSPLUS data draw os = Err Throw /\ f_run npow f centers RANDOM data draw os = Err Throw.
Proof.
  intros N npow f centers data draw os V Hk Hc. pose proof V as (V1 & V2 & V3 & V4).
  pose proof (@build_workers_ok N (fcm_cfg (f_g f)) data V1 V2 V3 V4) as (ws & Ews & _).
  destruct (@f_create_ok N (mkFcfg (fcm_cfg (f_g f)) (f_m f)) Hk centers Hc) as (s0 & E0 & _).
  unfold f_run. cbv zeta. rewrite E0. cbn [Base.bind f_g]. rewrite Ews. cbn [Base.bind f_init]. auto.
Qed.
