(** C28, C29: kmeans++ seeding; C20: the run cannot abort on bounded data, so it
    terminates converged. *)
From Coq Require Import Reals Lra Psatz.
From Verif Require Import Base Num Spec DistModel ClustersModel ClustersView PartitionModel ParModel KmeansModel.
From Verif Require Import MatLemmas VecLemmas ClustersProofs DistProofs PropertiesDist PartitionProofs ParProofs NearProofs KmeansProofs UpdateProofs RunProofs.
From Verif Require Import InitProofs SimProofs KmeansR SseProofs PropertiesKmeans PropertiesKmeansR PropertiesRun KmsppR.
Set Implicit Arguments.
Local Open Scope R_scope.

(** the metric is proper on the rows of the data: Euclidean, squared Euclidean
    and taxicab always, cosine if no row is zero *)
Definition proper (g : kcfg NumR) (data : list R) : Prop :=
  g_dt g = COS -> forall r, (r < g_nrow g)%nat -> nonzero (row data (g_ncol g) r).

Lemma proper_self g data r : proper g data -> (r < g_nrow g)%nat ->
  rdist (g_dt g) (@row R data (g_ncol g) r) (row data (g_ncol g) r) = 0.
Proof.
  intros P Hr. destruct (g_dt g) eqn:E; try (apply rdist_self; discriminate).
  specialize (P E r Hr). apply dot_pos_nonzero in P. cbn [rdist]. unfold cosdis. rewrite sqrt_sqrt by lra.
  field. lra.
Qed.

Lemma proper_pos (g : kcfg NumR) (data : list R) r q : proper g data -> length data = (g_nrow g * g_ncol g)%nat -> (r < g_nrow g)%nat -> (q < g_nrow g)%nat ->
  0 <= rdist (g_dt g) (@row R data (g_ncol g) r) (row data (g_ncol g) q).
Proof.
  intros P Hd Hr Hq. destruct (g_dt g) eqn:E; try (apply rdist_nonneg; discriminate).
  pose proof (P E r Hr) as P1. pose proof (P E q Hq) as P2. apply dot_pos_nonzero in P1. apply dot_pos_nonzero in P2.
  apply cosdis_range; auto.
  rewrite (@row_length _ data (g_ncol g) r (g_nrow g)), (@row_length _ data (g_ncol g) q (g_nrow g)); auto.
Qed.

Lemma stok_create N (g : kcfg N) centers it data s ws : valid_input g data -> coordinator_create g centers it = Ok s ->
  build_workers g data = Ok ws -> stok g ws s.
Proof.
  intros (V1 & V2 & V3 & V4) Es Ew. destruct (@build_workers_ok N g data V1 V2 V3 V4) as (ws' & Ew' & _ & Hlen & _).
  rewrite Ew in Ew'. injection Ew' as <-. apply (@create_stok N g centers it s ws Es Hlen).
Qed.

(** ** C28 *)
Theorem C28_kmeanspp : forall (g : kcfg NumR) centers data dr s ws,
  valid_args g data centers PLUSPLUS dr -> (forall i, 0 <= d_real dr i <= 1) -> proper g data ->
  coordinator_create g centers PLUSPLUS = Ok s -> build_workers g data = Ok ws ->
  let X r := @row R data (g_ncol g) r in
  exists s' dv trace chosen,
  (* seeding completes *)
  kmeanspp_init_t g ws data (d_sched dr) (d_int dr 0%nat) (d_real dr) s = Ok (s', dv, trace, chosen) /\
  (* every centre is a data row *)
  length chosen = g_k g /\
  (forall j, (j < g_k g)%nat -> exists q, nth_error chosen j = Some q /\ (q < g_nrow g)%nat /\
     row (c_means (s_cltrs s')) (g_ncol g) j = X q) /\
  (* after round i the tracked distances are those to the closest of the i+1 centres so far (at most DBL_MAX) *)
  length trace = g_k g /\
  (forall i dvi, nth_error trace i = Some dvi -> length dvi = g_nrow g /\
     forall r v, nth_error dvi r = Some v ->
       (forall q, In q (firstn (S i) chosen) -> v <= rdist (g_dt g) (X r) (X q)) /\
       (v = IZR dbl_max_Z \/ exists q, In q (firstn (S i) chosen) /\ v = rdist (g_dt g) (X r) (X q))) /\
  (* the tentative assignment is a closest centre *)
  ((forall r q, (r < g_nrow g)%nat -> (q < g_nrow g)%nat -> rdist (g_dt g) (X r) (X q) < IZR dbl_max_Z) ->
   forall r, (r < g_nrow g)%nat -> exists j, nth_error (s_asg s') r = Some (Some j) /\ (j < g_k g)%nat /\
     forall j', (j' < g_k g)%nat ->
       rdist (g_dt g) (X r) (row (c_means (s_cltrs s')) (g_ncol g) j) <= rdist (g_dt g) (X r) (row (c_means (s_cltrs s')) (g_ncol g) j')).
Proof.
  intros g centers data dr s ws (V & Hk & Hc & D) Hur P Es Ew X.
  destruct (get_workers V) as (ws' & Ew' & W). rewrite Ew in Ew'. injection Ew' as <-.
  pose proof (@stok_create NumR g centers PLUSPLUS data s ws V Es Ew) as (Sh & _).
  destruct (@create_ok NumR g centers PLUSPLUS Hk Hc) as (s0 & Es0 & _ & Hasg & _). rewrite Es in Es0. injection Es0 as <-.
  destruct D as (D & Fp).
  destruct (@kmspp_init_R g data ws V W (fun r Hr => proper_self P Hr)
     (fun r q Hr Hq => @proper_pos g data r q P (proj2 (proj2 (proj2 V))) Hr Hq)
     (d_sched dr) (d_real dr) (d_int dr 0%nat) s (Fp ws Ew) Hur D Hk Sh Hasg)
    as (s' & dv & trace & chosen & E & Sh' & Lc & Lt & _ & Hch & Hrow & Hlast & La & Ld & Hmin & Htr & _).
  exists s', dv, trace, chosen. split; [exact E|]. split; [exact Lc|].
  assert (Hrow' : forall j, (j < g_k g)%nat -> row (c_means (s_cltrs s')) (g_ncol g) j = X (nth j chosen 0%nat)).
  { intros j Hj. specialize (Hrow j Hj). unfold crow in Hrow. destruct Sh' as (_ & Sd & _). rewrite Sd in Hrow. exact Hrow. }
  rewrite Forall_forall in Hch.
  split; [|split; [exact Lt|split]].
  - intros j Hj. exists (nth j chosen 0%nat). split; [apply nth_error_nth'; lia|]. split; [apply Hch; apply nth_In; lia|auto].
  - intros i dvi Hi. destruct (Htr i dvi Hi) as (L & H). split; [exact L|]. intros r v Hv.
    destruct (H r v Hv) as (H1 & _ & _ & H4). split; auto.
  - intros Hb r Hr.
    destruct (nth_error dv r) as [v|] eqn:Ev; [|apply nth_error_None in Ev; change (list (car NumR)) with (list R) in *; lia].
    destruct (nth_error (s_asg s') r) as [a|] eqn:Ea; [|apply nth_error_None in Ea; lia].
    destruct (Hmin r v a Ev Ea) as ((H1 & H2 & H3 & H4) & H5).
    assert (Hne : v <> MAX).
    { intros ->. pose proof (Hch (nth 0 chosen 0%nat) ltac:(apply nth_In; lia)) as Hq.
      specialize (H1 (nth 0 chosen 0%nat) ltac:(apply nth_In; lia)). pose proof (Hb r _ Hr Hq) as Hb'. unfold MAX in *. unfold X in Hb'. lra. }
    destruct H5 as [H5|(j & q & Hj & -> & Hv)]; [contradiction|]. exists j.
    assert (Hjk : (j < g_k g)%nat) by (rewrite <- Lc; apply nth_error_Some; congruence).
    split; [reflexivity|]. split; [exact Hjk|]. intros j' Hj'. rewrite (Hrow' j Hjk), (Hrow' j' Hj').
    rewrite (nth_error_nth _ _ 0%nat Hj). unfold X. rewrite <- Hv. apply H1. apply nth_In. lia.
Qed.
Print Assumptions C28_kmeanspp.

(** ** C29 *)
(** The rule that the code implements, for any tracked distances [dv] with
    positive total: row [r] with positive distance can be picked by some draw
    in [0,1) exactly if the distances of the rows before it sum to less than
    total/(RAND_MAX-1). *)
Definition picked (dv : list R) (u : R) : option nat :=
  fst (kmspp_pick NumR dv 0%nat (rsum dv * u / (IZR RAND_MAX - 1))).

Lemma rsum_firstn_S (dv : list R) r v : nth_error dv r = Some v -> rsum (firstn (S r) dv) = rsum (firstn r dv) + v.
Proof.
  revert r. induction dv as [|x dv IH]; intros [|r] H; simpl in H; try discriminate.
  - injection H as ->. simpl. lra.
  - change (firstn (S (S r)) (x :: dv)) with (x :: firstn (S r) dv). cbn [firstn rsum]. cbn [rsum]. 
    change (x + rsum (firstn (S r) dv) = x + rsum (firstn r dv) + v). rewrite (IH r H). lra.
Qed.

Lemma firstn_mono (dv : list R) i j : Forall (fun x => 0 <= x) dv -> (i <= j)%nat -> rsum (firstn i dv) <= rsum (firstn j dv).
Proof.
  intros H. revert i j. induction H as [|x dv Hx H IH]; intros [|i] [|j] Hij; simpl; try lra; try lia.
  - assert (0 <= rsum (firstn j dv)); [|lra]. apply rsum_nonneg. intros y Hy. rewrite Forall_forall in H. apply H. rewrite <- (firstn_skipn j dv). apply in_or_app. auto.
  - specialize (IH i j ltac:(lia)). lra.
Qed.

Theorem C29_selectable_partial : forall (dv : list R) r v, Forall (fun x => 0 <= x) dv -> nth_error dv r = Some v -> 0 < v ->
  (exists u, 0 <= u < 1 /\ picked dv u = Some r) <-> rsum (firstn r dv) * (IZR RAND_MAX - 1) < rsum dv.
Proof.
  intros dv r v Hnn Hr Hv. pose proof RM1 as HM. set (M := IZR RAND_MAX - 1) in *.
  assert (Hlr : (r < length dv)%nat) by (apply nth_error_Some; congruence).
  assert (Hne : dv <> []) by (destruct dv; [simpl in Hlr; lia|discriminate]).
  pose proof (rsum_firstn_S dv r Hr) as HS.
  assert (Hall : forall i, rsum (firstn i dv) <= rsum dv).
  { intros i. rewrite <- (firstn_all dv) at 2. destruct (Nat.le_gt_cases i (length dv)); [apply firstn_mono; auto|rewrite (firstn_all2 (n:=i)) by lia; rewrite firstn_all; lra]. }
  assert (H0 : 0 <= rsum (firstn r dv)). { change 0 with (rsum (firstn 0 dv)). apply firstn_mono; [auto|lia]. }
  pose proof (Hall (S r)) as HT.
  assert (Hpick : forall u, 0 <= u < 1 -> let t := rsum dv * u / M in t <= rsum dv /\ t * M = rsum dv * u).
  { intros u Hu t. assert (Ht : t * M = rsum dv * u) by (unfold t, Rdiv; rewrite Rmult_assoc, Rinv_l by lra; lra).
    split; [|exact Ht]. apply Rmult_le_reg_r with M; [lra|]. rewrite Ht. nra. }
  split.
  - intros (u & Hu & Hp). unfold picked in Hp. fold M in Hp. destruct (Hpick u Hu) as (Ht & HtM).
    destruct (@pick_R dv 0 _ Hne Ht) as (i & Ei & Hi & H1 & H2). rewrite Ei in Hp. cbn [fst] in Hp. injection Hp as ->.
    rewrite Nat.add_0_l in *. destruct r as [|r].
    + simpl. simpl in HS, HT. lra.
    + specialize (H2 r ltac:(lia)). apply Rle_lt_trans with (rsum dv * u).
      * rewrite <- HtM. apply Rmult_le_compat_r; [lra|]. left. exact H2.
      * rewrite <- (Rmult_1_r (rsum dv)) at 2. apply Rmult_lt_compat_l; lra.
  - intros Hlt. set (T := rsum dv) in *. set (P := rsum (firstn r dv)) in *.
    assert (HTpos : 0 < T) by lra.
    set (u := Rmin ((P + v) * M / T) ((P * M / T + 1) / 2)).
    assert (Hpm : P * M / T < 1). { apply Rmult_lt_reg_r with T; [exact HTpos|]. unfold Rdiv. rewrite Rmult_assoc, Rinv_l by lra. lra. }
    assert (Hpm0 : 0 <= P * M / T). { apply Rmult_le_pos; [nra|]. left. apply Rinv_0_lt_compat. exact HTpos. }
    assert (Hpv : P * M / T < (P + v) * M / T). { unfold Rdiv. apply Rmult_lt_compat_r; [apply Rinv_0_lt_compat; exact HTpos|nra]. }
    assert (Hu : P * M / T < u <= (P + v) * M / T /\ u < 1).
    { unfold u. pose proof (Rmin_l ((P + v) * M / T) ((P * M / T + 1) / 2)). pose proof (Rmin_r ((P + v) * M / T) ((P * M / T + 1) / 2)).
      split; [|lra]. split; [|lra]. apply Rmin_glb_lt; lra. }
    exists u. split; [lra|]. unfold picked. fold M T. destruct (Hpick u ltac:(lra)) as (Ht & HtM).
    destruct (@pick_R dv 0 _ Hne Ht) as (i & Ei & Hi & H1 & H2). rewrite Ei. cbn [fst]. f_equal. rewrite Nat.add_0_l.
    set (t := T * u / M) in *.
    assert (HPt : P < t). { apply Rmult_lt_reg_r with M; [lra|]. rewrite HtM.
      destruct Hu as ((Hu & _) & _). apply (Rmult_lt_compat_l T) in Hu; [|exact HTpos].
      replace (T * (P * M / T)) with (P * M) in Hu by (field; lra). exact Hu. }
    assert (HtP : t <= P + v). { apply Rmult_le_reg_r with M; [lra|]. rewrite HtM.
      destruct Hu as ((_ & Hu) & _). apply (Rmult_le_compat_l T) in Hu; [|lra].
      replace (T * ((P + v) * M / T)) with ((P + v) * M) in Hu by (field; lra). exact Hu. }
    destruct (Nat.lt_trichotomy i r) as [Hir|[Hir|Hir]]; [|exact Hir|].
    + exfalso. assert (rsum (firstn (S i) dv) <= P) by (apply firstn_mono; [auto|lia]). lra.
    + exfalso. specialize (H2 r Hir). lra.
Qed.
Print Assumptions C29_selectable_partial.

(** hence the full property fails: with tracked distances 0, 1, 1 the third row
    can never be drawn although its distance is positive *)
Theorem C29_refuted : exists (dv : list R) r v, Forall (fun x => 0 <= x) dv /\ nth_error dv r = Some v /\ 0 < v /\
  forall u, 0 <= u < 1 -> picked dv u <> Some r.
Proof.
  exists [0; 1; 1], 2%nat, 1. splits; [repeat constructor; lra|reflexivity|lra|].
  intros u Hu Hp.
  assert (H : rsum (firstn 2 [0; 1; 1]) * (IZR RAND_MAX - 1) < rsum [0; 1; 1]).
  { apply (@C29_selectable_partial [0; 1; 1] 2 1); [repeat constructor; lra|reflexivity|lra|eauto]. }
  simpl in H. assert (3 <= IZR RAND_MAX) by (apply IZR_le; vm_compute; discriminate). lra.
Qed.
Print Assumptions C29_refuted.

(** the code picks by this rule in every round of every seeding *)
Theorem C29_rule : forall (g : kcfg NumR) centers data dr s ws s' dv trace chosen,
  valid_args g data centers PLUSPLUS dr -> (forall i, 0 <= d_real dr i <= 1) -> proper g data ->
  coordinator_create g centers PLUSPLUS = Ok s -> build_workers g data = Ok ws ->
  kmeanspp_init_t g ws data (d_sched dr) (d_int dr 0%nat) (d_real dr) s = Ok (s', dv, trace, chosen) ->
  forall i dvi q, nth_error trace i = Some dvi -> nth_error chosen (S i) = Some q -> picked dvi (d_real dr i) = Some q.
Proof.
  intros g centers data dr s ws s' dv trace chosen (V & Hk & Hc & D) Hur P Es Ew Hi i dvi q Hdv Hq.
  destruct (get_workers V) as (ws' & Ew' & W). rewrite Ew in Ew'. injection Ew' as <-.
  pose proof (@stok_create NumR g centers PLUSPLUS data s ws V Es Ew) as (Sh & _).
  destruct (@create_ok NumR g centers PLUSPLUS Hk Hc) as (s0 & Es0 & _ & Hasg & _). rewrite Es in Es0. injection Es0 as <-.
  destruct D as (D & Fp).
  destruct (@kmspp_init_R g data ws V W (fun r Hr => proper_self P Hr)
     (fun r q Hr Hq => @proper_pos g data r q P (proj2 (proj2 (proj2 V))) Hr Hq)
     (d_sched dr) (d_real dr) (d_int dr 0%nat) s (Fp ws Ew) Hur D Hk Sh Hasg)
    as (s2 & dv2 & trace2 & chosen2 & E & _ & _ & _ & _ & Hch & _ & _ & _ & _ & _ & Htr & Hpk).
  pose proof (eq_trans (eq_sym E) Hi) as E2. injection E2 as -> -> -> ->.
  destruct (Hpk i dvi q Hdv Hq) as (H1 & H2). destruct (Htr i dvi Hdv) as (Ld & Hmin).
  unfold picked. set (t := rsum dvi * d_real dr i / (IZR RAND_MAX - 1)) in *.
  assert (Hnn : Forall (fun x => 0 <= x) dvi).
  { apply Forall_forall. intros x Hx. apply In_nth_error in Hx as (r & Hr). destruct (Hmin r x Hr) as (_ & _ & H & _). exact H. }
  assert (Hqn : (q < g_nrow g)%nat). { rewrite Forall_forall in Hch. apply Hch. eapply nth_error_In. exact Hq. }
  assert (Ld' : @length R dvi = g_nrow g) by exact Ld.
  assert (Hne : dvi <> []) by (intros ->; simpl in Ld'; lia).
  destruct (@pick_R dvi 0 t Hne) as (k & Ek & Hkl & H3 & H4).
  { apply Rle_trans with (rsum (firstn (S q) dvi)); [exact H1|]. rewrite <- (firstn_all dvi) at 2. apply firstn_mono; [exact Hnn|]. change (S q <= @length R dvi)%nat. lia. }
  rewrite Ek. cbn [fst]. f_equal. rewrite Nat.add_0_l.
  destruct (Nat.lt_trichotomy k q) as [H|[H|H]]; [|exact H|]; exfalso.
  - specialize (H2 k H). lra.
  - specialize (H4 q H). lra.
Qed.
Print Assumptions C29_rule.

(** ** C20: on bounded data no assertion fails, so the run returns *)
Definition bounded (M : R) (l : list R) : Prop := Forall (fun x => Rabs x <= M) l.

(** an upper bound on the distance of two vectors of dimension [n] with coordinates in [-M,M] *)
Definition reach (dt : dist_t) (M : R) (n : nat) : R :=
  match dt with SQEUCL => 4 * M * M * INR n | _ => 2 * M * INR n end.

Lemma Rabs_sub_le M a b : Rabs a <= M -> Rabs b <= M -> Rabs (a - b) <= 2 * M.
Proof. intros Ha Hb. apply Rabs_le. unfold Rabs in *. destruct (Rcase_abs a); destruct (Rcase_abs b); lra. Qed.

Lemma tdist_bound M : 0 <= M -> forall x y, bounded M x -> bounded M y -> length x = length y -> tdist x y <= 2 * M * INR (length x).
Proof.
  intros HM. induction x as [|a x IH]; intros [|b y] Hx Hy L; simpl in L; try lia; [simpl; unfold tdist; simpl; lra|].
  apply Forall_cons_iff in Hx as (H1 & H2). apply Forall_cons_iff in Hy as (H5 & H6). cbn [length]. rewrite S_INR. unfold tdist in *. cbn [map2 rsum].
  pose proof (@Rabs_sub_le M a b H1 H5). specialize (IH y H2 H6 ltac:(lia)). lra.
Qed.

Lemma sqdist_bound M : 0 <= M -> forall x y, bounded M x -> bounded M y -> length x = length y -> sqdist x y <= 4 * M * M * INR (length x).
Proof.
  intros HM. induction x as [|a x IH]; intros [|b y] Hx Hy L; simpl in L; try lia; [simpl; unfold sqdist; simpl; lra|].
  apply Forall_cons_iff in Hx as (H1 & H2). apply Forall_cons_iff in Hy as (H5 & H6). cbn [length]. rewrite S_INR. unfold sqdist in *. cbn [map2 rsum].
  pose proof (@Rabs_sub_le M a b H1 H5) as Hd. specialize (IH y H2 H6 ltac:(lia)).
  assert ((a - b) * (a - b) <= 4 * M * M); [|lra].
  rewrite <- (Rabs_pos_eq ((a - b) * (a - b))) by (apply Rle_0_sqr). rewrite Rabs_mult. pose proof (Rabs_pos (a - b)). nra.
Qed.

Lemma sq_le_taxi x : forall y, sqdist x y <= tdist x y * tdist x y.
Proof.
  unfold sqdist, tdist. induction x as [|a x IH]; intros [|b y]; simpl; try lra.
  specialize (IH y). set (t := rsum (map2 (fun a b => Rabs (a - b)) x y)) in *.
  assert (0 <= t).
  { apply rsum_nonneg. intros v Hv. clear IH t. revert y Hv. induction x as [|c x IHx]; intros [|e y] Hv; simpl in Hv; try contradiction.
    destruct Hv as [<-|Hv]; [apply Rabs_pos|eauto]. }
  assert (E : (a - b) * (a - b) = Rabs (a - b) * Rabs (a - b)) by (rewrite <- Rabs_mult; symmetry; apply Rabs_pos_eq; apply Rle_0_sqr).
  rewrite E. pose proof (Rabs_pos (a - b)). nra.
Qed.

Lemma tdist_nonneg x y : 0 <= tdist x y.
Proof. apply (@rdist_nonneg TAXI). discriminate. Qed.

Lemma rdist_bound dt M x y : dt <> COS -> 0 <= M -> bounded M x -> bounded M y -> length x = length y -> rdist dt x y <= reach dt M (length x).
Proof.
  intros Hdt HM Hx Hy L. destruct dt; try congruence; cbn [rdist reach].
  - apply Rle_trans with (tdist x y); [|apply tdist_bound; auto]. unfold edist. rewrite <- (sqrt_square (tdist x y)) by apply tdist_nonneg.
    apply sqrt_le_1_alt. apply sq_le_taxi.
  - apply tdist_bound; auto.
  - apply sqdist_bound; auto.
Qed.

Lemma rsum_bound M l : bounded M l -> Rabs (rsum l) <= M * INR (length l).
Proof.
  induction 1 as [|x l Hx Hl IH]; [simpl; rewrite Rabs_R0; lra|].
  cbn [rsum length]. rewrite S_INR. pose proof (Rabs_triang x (rsum l)). lra.
Qed.

Lemma nth_bounded M (l : list R) i : 0 <= M -> bounded M l -> Rabs (nth i l 0) <= M.
Proof.
  intros HM H. destruct (Nat.lt_ge_cases i (length l)) as [Hi|Hi].
  - unfold bounded in H. rewrite Forall_forall in H. apply H. apply nth_In. exact Hi.
  - rewrite nth_overflow by exact Hi. rewrite Rabs_R0. exact HM.
Qed.

Lemma mean_bounded M n l : 0 <= M -> l <> [] -> alldim n l -> Forall (bounded M) l -> bounded M (vmean n l).
Proof.
  intros HM Hne Hd Hb. apply Forall_forall. intros v Hv. unfold vmean in Hv. apply in_map_iff in Hv as (s & <- & Hs).
  apply (In_nth _ _ 0) in Hs as (i & Hi & <-). rewrite nth_vsum by exact Hd.
  assert (Hl : 0 < INR (length l)) by (apply lt_0_INR; destruct l; [congruence|simpl; lia]).
  unfold Rdiv. rewrite Rabs_mult. rewrite (Rabs_pos_eq (/ INR (length l))) by (left; apply Rinv_0_lt_compat; exact Hl).
  apply Rmult_le_reg_r with (INR (length l)); [exact Hl|]. rewrite Rmult_assoc, Rinv_l, Rmult_1_r by lra.
  rewrite <- (map_length (fun r => nth i r 0) l). apply rsum_bound.
  apply Forall_forall. intros x Hx. apply in_map_iff in Hx as (r & <- & Hr). rewrite Forall_forall in Hb. apply nth_bounded; auto.
Qed.

Lemma row_bounded M (l : list R) d r : bounded M l -> bounded M (row l d r).
Proof.
  intros H. unfold bounded in *. rewrite Forall_forall in *. intros x Hx. apply H. unfold row, slice in Hx.
  assert (I1 : In x (skipn (r * d) l)) by (rewrite <- (firstn_skipn d (skipn (r * d) l)); apply in_or_app; auto).
  rewrite <- (firstn_skipn (r * d) l). apply in_or_app. auto.
Qed.

Lemma zero_bounded M n : 0 <= M -> bounded M (vzero n).
Proof. intros HM. apply Forall_forall. intros x Hx. apply repeat_spec in Hx. subst. rewrite Rabs_R0. exact HM. Qed.

Section Total.
Variables (g : kcfg NumR) (data : list R) (M : R) (ws : list (worker NumR)).
Hypothesis V : valid_input g data.
Hypothesis W : @wok NumR (g_nrow g) (g_ncol g) data ws.
Hypothesis Hdt : g_dt g <> COS.
Hypothesis HM : 0 <= M.
Hypothesis Hb : bounded M data.
Hypothesis Hreach : reach (g_dt g) M (g_ncol g) < IZR dbl_max_Z.
Hypothesis Hk : (1 <= g_k g)%nat.

Definition cbounded (c : clusters NumR) : Prop := forall j, (j < g_k g)%nat -> bounded M (@row R (c_means c) (g_ncol g) j).

Lemma rowlen (c : clusters NumR) j : shaped (g_k g) (g_ncol g) c -> (j < g_k g)%nat -> length (@row R (c_means c) (g_ncol g) j) = g_ncol g.
Proof.
  intros (S1 & S2 & (Sm & _)) Hj. apply (@row_length _ (c_means c) (g_ncol g) j (g_k g)); auto. rewrite <- S1, <- S2. exact Sm.
Qed.

Lemma nid_total s r : stok g ws s -> cbounded (s_cltrs s) -> (r < g_nrow g)%nat -> nid g data (s_cltrs s) r <> None.
Proof.
  intros St Hc Hr H. pose proof V as (_ & _ & _ & V4).
  pose proof (proj1 (@nid_none NumR NumR_laws g ws data s r St V4 Hr) H 0%nat _ Hk (@row_dist_eq NumR g ws data s r 0%nat St V4 Hr Hk)) as Hn.
  rewrite (@ldist_R (g_dt g)) in Hn. cbn [nltb nmax NumR] in Hn. apply Rltb_false in Hn.
  pose proof (@rdist_bound (g_dt g) M (@row R data (g_ncol g) r) (@row R (c_means (s_cltrs s)) (g_ncol g) 0) Hdt HM (row_bounded _ _ Hb) (Hc 0%nat Hk)) as Hd.
  assert (L1 : length (@row R data (g_ncol g) r) = g_ncol g) by (apply (@row_length _ data (g_ncol g) r (g_nrow g)); auto).
  destruct St as (Sh & _). rewrite L1 in Hd. rewrite (rowlen Sh Hk) in Hd. specialize (Hd eq_refl).
  assert (E : nth 0 (cents g (s_cltrs s)) [] = row (c_means (s_cltrs s)) (g_ncol g) 0) by (unfold cents; apply nth_rows; exact Hk).
  rewrite E in Hn. exact (Rlt_not_le _ _ Hreach (Rle_trans _ _ _ Hn Hd)).
Qed.

Lemma cbounded_step s' A : length A = g_nrow g -> shaped (g_k g) (g_ncol g) (s_cltrs s') ->
  (forall j, (j < g_k g)%nat -> cel (s_cltrs s') j = ucel g ws data A j) -> cbounded (s_cltrs s').
Proof.
  intros LA Sh Hcel j Hj. specialize (Hcel j Hj). destruct W as (Wt & _). destruct V as (V1 & V2 & V3 & V4).
  rewrite (@ucel_R g data ws A j V4 LA Wt) in Hcel. unfold cel in Hcel. injection Hcel as Hc _ _.
  unfold crow in Hc. destruct Sh as (_ & Sd & _). rewrite Sd in Hc.
  assert (G : bounded M (mean_or_zero g (mems g data A j))).
  { pose proof (@mems_dim g data A j V4 ltac:(lia)) as Hdim. unfold mean_or_zero. destruct (mems g data A j) as [|x l] eqn:E; [apply zero_bounded; exact HM|].
    apply mean_bounded; auto; [discriminate|]. rewrite <- E. apply Forall_forall. intros v Hv.
    rewrite mems_rows in Hv by exact LA. unfold mem_rows in Hv. apply in_map_iff in Hv as (r & <- & _). apply row_bounded. exact Hb. }
  rewrite <- Hc in G. exact G.
Qed.

Lemma main_loop_total scheds : (forall i, complete (w_ranges ws) (scheds i)) ->
  forall n iter s trace, stok g ws s -> cbounded (s_cltrs s) -> exists res, main_loop g ws scheds n iter s trace = Ok res.
Proof.
  intros Hc. induction n as [|n IH]; intros iter s trace St Hcb; cbn [main_loop]; [eauto|].
  set (s1 := if (iter =? 1)%nat then clear_asg s else s).
  assert (St1 : stok g ws s1) by (unfold s1; destruct (iter =? 1)%nat; [apply stok_clear|]; exact St).
  assert (Ec : s_cltrs s1 = s_cltrs s) by (unfold s1; destruct (iter =? 1)%nat; reflexivity).
  pose proof V as (V1 & V2 & V3 & V4).
  pose proof (@iterate_ok NumR g ws data W V2 V4 (scheds iter) s1 (Hc iter) St1) as HI.
  destruct (iterate g ws (scheds iter) s1) as [s'|e].
  - destruct HI as (A & LA & HA & Ea & _ & St' & Hcel & _). cbn [bind].
    destruct (stop_test g (s_changed s')); [eauto|]. apply IH; auto. eapply cbounded_step; eauto. apply St'.
  - exfalso. destruct HI as (_ & r & Hr & Hn). rewrite Ec in Hn. apply (@nid_total s r); auto.
Qed.

End Total.

Theorem C20_returns : forall (g : kcfg NumR) centers it data dr scheds M,
  valid_args g data centers it dr -> fair g data scheds -> (forall i, 0 <= d_real dr i <= 1) ->
  g_dt g <> COS -> 0 <= M -> bounded M data ->
  (it = NONE -> match centers with Some m => bounded M m | None => True end) ->
  reach (g_dt g) M (g_ncol g) < IZR dbl_max_Z ->
  exists rr, run g centers it data dr scheds = Ok rr.
Proof.
  intros g centers it data dr scheds M (V & Hk & Hc & D) F Hur Hdt HM Hb Hm Hreach.
  destruct (@create_ok NumR g centers it Hk Hc) as (s & Es & Hs1 & Hasg & _).
  destruct (get_workers V) as (ws & Ew & W).
  pose proof (@stok_create NumR g centers it data s ws V Es Ew) as St.
  unfold run. rewrite Es, Ew. cbn [bind].
  assert (G : exists s', run_init g it ws data dr s = Ok s' /\ cbounded g M (s_cltrs s')).
  { destruct it; cbn [run_init].
    - destruct (@random_ok NumR g data V (d_int dr) s) as (a & Ea & Sa & (Ha & Hx) & _).
      { rewrite Hs1. unfold clusters_create. rewrite (Nat.mul_comm (g_ncol g)). destruct centers; reflexivity. }
      { rewrite Hasg, repeat_length. reflexivity. } { exact D. }
      exists a. split; [exact Ea|]. intros j Hj. specialize (Ha j Hj).
      set (A := map (d_int dr) (seq 0 (g_nrow g))) in *.
      assert (LA : length A = g_nrow g) by (unfold A; rewrite map_length, seq_length; reflexivity).
      pose proof V as (V1 & V2 & V3 & V4). rewrite (@rcel_R g data A j V4 LA) in Ha.
      unfold cel, crow in Ha. destruct Sa as (_ & Sd & _). rewrite Sd in Ha. injection Ha as Ha _ _.
      assert (G : bounded M (mean_or_zero g (mems g data A j))).
      { pose proof (@mems_dim g data A j V4 ltac:(lia)) as Hdim. unfold mean_or_zero. destruct (mems g data A j) as [|x l] eqn:E; [apply zero_bounded; exact HM|].
        apply mean_bounded; auto; [discriminate|]. rewrite <- E. apply Forall_forall. intros v Hv.
        rewrite mems_rows in Hv by exact LA. unfold mem_rows in Hv. apply in_map_iff in Hv as (r & <- & _). apply row_bounded. exact Hb. }
      rewrite <- Ha in G. exact G.
    - destruct (@forgy_ok NumR g data V (d_int dr) s) as (a & Ea & Sa & Ha & _); [apply St|exact D|].
      exists a. split; [exact Ea|]. intros j Hj. specialize (Ha j Hj). unfold cel, crow in Ha. destruct Sa as (_ & Sd & _). rewrite Sd in Ha.
      injection Ha as Ha _ _. pose proof (@row_bounded M data (g_ncol g) (d_int dr j) Hb) as G. rewrite <- Ha in G. exact G.
    - destruct (@C28_kmeanspp g centers data dr s ws) as (s' & dv & trace & chosen & E & _ & Hrow & _); auto.
      { unfold valid_args. auto. } { intros Hx. contradiction. }
      exists s'. split; [rewrite E; reflexivity|]. intros j Hj. destruct (Hrow j Hj) as (q & _ & _ & Hq).
      pose proof (@row_bounded M data (g_ncol g) q Hb) as G. rewrite <- Hq in G. exact G.
    - exists s. split; [reflexivity|]. intros j Hj. rewrite Hs1. cbn [c_means]. apply row_bounded.
      specialize (Hm eq_refl). unfold initial_means. destruct centers as [m|].
      + unfold bounded in *. rewrite Forall_forall in *. intros x Hx. apply Hm. rewrite <- (firstn_skipn (g_k g * g_ncol g) m). apply in_or_app. auto.
      + apply zero_bounded. exact HM. }
  destruct G as (s' & Ei & Hcb). rewrite Ei. cbn [bind].
  pose proof (@run_init_stok NumR g it ws data dr s s' Ei St) as St'.
  destruct (@main_loop_total g data M ws V W Hdt HM Hb Hreach Hk scheds (F ws Ew) (g_max_iters g) (if (0 <? g_max_iters g)%nat then 1%nat else 0%nat) s' [] St' Hcb) as ([[[i cv] f] tr] & ->).
  cbn [bind]. eauto.
Qed.
Print Assumptions C20_returns.

(** an instance: the hypotheses of the exact-arithmetic theorems are met by the
    data 0, 1, 6, 10, 11 with initial centres 0 and 1 *)
Definition exgR : kcfg NumR := mkCfg NumR 5 1 2 40 2 (-1) EUCL NumaReorg.
Definition exdR : list R := [0; 1; 6; 10; 11].
Definition exdrR : draws NumR := mkDraws NumR (fun i => i) (fun _ => 0) (fun _ => [0; 1; 1; 0; 0; 1; 1; 1; 0]%nat).
Definition exsR (i : nat) : list nat := if Nat.even i then [0; 1; 0; 1; 1]%nat else [1; 1; 1; 0; 0]%nat.

Lemma exR_ranges : okmap (@w_ranges NumR) (build_workers exgR exdR) = Some [(0, 2); (2, 3)]%nat.
Proof.
  unfold exdR. generalize (IZR 0), (IZR 1), (IZR 6), (IZR 10), (IZR 11). intros a b c d e. unfold exgR.
  generalize (IZR (-1)). intros t. lazy. reflexivity.
Qed.

Example C20_example : exists rr, valid_input exgR exdR /\ fair exgR exdR exsR /\
  run exgR (Some [0; 1]) NONE exdR exdrR exsR = Ok rr /\ rr_converged rr = true /\
  s_changed (last (rr_trace rr) (rr_init rr)) = 0%nat.
Proof.
  assert (V : valid_input exgR exdR) by (unfold valid_input; cbn; splits; lia || reflexivity).
  assert (F : fair exgR exdR exsR).
  { intros ws E i. destruct (get_workers V) as (ws' & E' & Wt & _). rewrite E in E'. injection E' as <-.
    assert (H : okmap (@w_ranges NumR) (build_workers exgR exdR) = Some [(0, 2); (2, 3)]%nat) by (apply exR_ranges).
    rewrite E in H. cbn [okmap] in H. injection H as ->.
    intros [|[|[|t]]] s n Ht; try discriminate; injection Ht as <- <-; unfold exsR; destruct (Nat.even i); cbn; lia. }
  assert (H : exists rr, run exgR (Some [0; 1]) NONE exdR exdrR exsR = Ok rr).
  { assert (HB : forall l, Forall (fun x => x = 0 \/ x = 1 \/ x = 6 \/ x = 10 \/ x = 11) l -> bounded 11 l).
    { intros l Hl. eapply Forall_impl; [|exact Hl]. cbv beta. intros x Hx. apply Rabs_le. lra. }
    apply (@C20_returns exgR (Some [0; 1]) NONE exdR exdrR exsR 11); auto.
    - unfold valid_args. cbn. splits; auto; lia.
    - intros i. cbn. lra.
    - discriminate.
    - lra.
    - apply HB. unfold exdR. repeat constructor; lra.
    - intros _. apply HB. repeat constructor; lra.
    - change (2 * 11 * 1 < IZR dbl_max_Z). apply Rlt_trans with 100; [lra|]. apply IZR_lt. vm_compute. reflexivity. }
  destruct H as (rr & H). exists rr. splits; auto.
  - apply (@C20_converges _ _ _ _ _ _ _ V F H); [left; reflexivity|]. cbn. lia.
  - apply (@C20_converges _ _ _ _ _ _ _ V F H); [left; reflexivity| |]; cbn; [lia|lra].
Qed.

Example C28_example : valid_args exgR exdR None PLUSPLUS exdrR /\ (forall i, 0 <= d_real exdrR i <= 1) /\ proper exgR exdR.
Proof.
  assert (V : valid_input exgR exdR) by (unfold valid_input; cbn; splits; lia || reflexivity).
  split; [split; [exact V|split; [cbn; lia|split; [exact I|split; [cbn; lia|]]]]|split].
  - intros ws E i. pose proof exR_ranges as H. rewrite E in H. cbn [okmap] in H. injection H as ->.
    intros [|[|[|t]]] s n Ht; try discriminate; injection Ht as <- <-; cbn; lia.
  - intros i. cbn. lra.
  - intros H. discriminate.
Qed.
