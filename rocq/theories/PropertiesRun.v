(** C18, C66, C67: what a run does not depend on, and that it never leaves its
    arrays.  C26, C27: Forgy and random-partition initialisation. *)
From Coq Require Import Reals Lra.
From Verif Require Import Base Num Spec DistModel ClustersModel ClustersView PartitionModel ParModel KmeansModel.
From Verif Require Import MatLemmas VecLemmas ClustersProofs DistProofs PartitionProofs ParProofs NearProofs KmeansProofs UpdateProofs RunProofs.
From Verif Require Import InitProofs SimProofs KmeansR SseProofs PropertiesKmeans PropertiesKmeansR.
Set Implicit Arguments.

(** the user's arguments: k >= 1, enough centers if centers are given, draws in
    the range of their distribution *)
Definition valid_args {N} (g : kcfg N) (data : list (car N)) centers it dr : Prop :=
  valid_input g data /\ 1 <= g_k g /\ centers_ok g centers it /\ draws_ok g data it dr.

Lemma with_threads_same N (g : kcfg N) : with_threads g (g_nthreads g) (g_kind g) = g.
Proof. destruct g; reflexivity. Qed.

Lemma get_workers N (g : kcfg N) data : valid_input g data ->
  exists ws, build_workers g data = Ok ws /\ wok (g_nrow g) (g_ncol g) data ws.
Proof.
  intros (V1 & V2 & V3 & V4). destruct (@build_workers_ok N g data V1 V2 V3 V4) as (ws & E & W & _). eauto.
Qed.

Lemma run_same_threads N (g : kcfg N) centers it data dr dr' scheds scheds' :
  valid_args g data centers it dr ->
  fair g data scheds -> fair g data scheds' ->
  d_int dr = d_int dr' -> d_real dr = d_real dr' -> (it = PLUSPLUS -> fair g data (d_sched dr')) ->
  match run g centers it data dr scheds, run g centers it data dr' scheds' with
  | Ok a, Ok b => same_result a b
  | Err e, Err e' => e = e' /\ e = Abort
  | _, _ => False
  end.
Proof.
  intros (V & Hk & Hc & D) F F' Ei Er Fp. destruct (get_workers V) as (ws & Ew & W).
  pose proof (@run_sim N g data (g_nthreads g) (g_kind g) ws ws) as H. cbv zeta in H.
  rewrite !with_threads_same in H. apply H; auto.
  intros ->. split; [apply D|auto].
Qed.

(** ** C66 *)
Theorem C66_schedule_independent : forall N (g : kcfg N) centers it data dr dr' scheds scheds' rr,
  valid_args g data centers it dr ->
  fair g data scheds -> fair g data scheds' ->
  (* the same random draws; the schedules of the kmeans++ rounds may differ too *)
  d_int dr = d_int dr' -> d_real dr = d_real dr' -> (it = PLUSPLUS -> fair g data (d_sched dr')) ->
  run g centers it data dr scheds = Ok rr ->
  exists rr', run g centers it data dr' scheds' = Ok rr' /\ rr_out rr' = rr_out rr /\
    rr_converged rr' = rr_converged rr /\ length (rr_trace rr') = length (rr_trace rr).
Proof.
  intros N g centers it data dr dr' scheds scheds' rr A F F' Ei Er Fp H.
  pose proof (@run_same_threads N g centers it data dr dr' scheds scheds' A F F' Ei Er Fp) as Hs. rewrite H in Hs.
  destruct (run g centers it data dr' scheds') as [rr'|]; [|contradiction]. exists rr'.
  destruct Hs as (E1 & E2 & _ & E3). splits; auto. symmetry. eapply Forall2_length_eq; eauto.
Qed.
Print Assumptions C66_schedule_independent.

(** ** C67 *)
Theorem C67_no_out_of_bounds : forall N (g : kcfg N) centers it data dr scheds,
  valid_args g data centers it dr -> fair g data scheds ->
  (exists rr, run g centers it data dr scheds = Ok rr) \/ run g centers it data dr scheds = Err Abort.
Proof.
  intros N g centers it data dr scheds A F.
  pose proof (@run_same_threads N g centers it data dr dr scheds scheds A F F eq_refl eq_refl) as Hs.
  assert (Fp : it = PLUSPLUS -> fair g data (d_sched dr)).
  { intros ->. destruct A as (_ & _ & _ & (_ & D)). exact D. }
  specialize (Hs Fp). destruct (run g centers it data dr scheds) as [rr|e]; [left; eauto|right].
  destruct Hs as (_ & ->). reflexivity.
Qed.
Print Assumptions C67_no_out_of_bounds.

(** ** C26 *)
Theorem C26_forgy : forall N (g : kcfg N) centers data dr scheds rr,
  valid_args g data centers FORGY dr -> run g centers FORGY data dr scheds = Ok rr ->
  forall j, j < g_k g -> exists r, r < g_nrow g /\ r = d_int dr j /\
    row (c_means (s_cltrs (rr_init rr))) (g_ncol g) j = row data (g_ncol g) r.
Proof.
  intros N g centers data dr scheds rr (V & Hk & Hc & D) H j Hj. unfold run in H.
  destruct (@create_ok N g centers FORGY Hk Hc) as (s & Es & Hs1 & _). rewrite Es in H.
  destruct (get_workers V) as (ws & Ew & W). rewrite Ew in H. cbn [bind run_init] in H.
  assert (Sh : shaped (g_k g) (g_ncol g) (s_cltrs s)).
  { destruct V as (V1 & V2 & V3 & V4). destruct (@build_workers_ok N g data V1 V2 V3 V4) as (ws' & E' & _ & L & _).
    destruct (@create_stok N g centers FORGY s ws' Es L) as (St & _). apply St. }
  destruct (@forgy_ok N g data V (d_int dr) s Sh D) as (a & Ea & Sa & Ha & _). rewrite Ea in H. cbn [bind] in H.
  apply bind_ok in H as ([[[i cv] f] t] & _ & H). injection H as <-. cbn [rr_init].
  exists (d_int dr j). split; [apply D; exact Hj|]. split; [reflexivity|].
  specialize (Ha j Hj). unfold cel, crow in Ha. destruct Sa as (_ & Sd & _). rewrite Sd in Ha. injection Ha as Ha _ _. exact Ha.
Qed.
Print Assumptions C26_forgy.

Local Open Scope R_scope.

(** ** C27 *)
Theorem C27_random_partition : forall (g : kcfg NumR) centers data dr scheds rr,
  valid_args g data centers RANDOM dr -> run g centers RANDOM data dr scheds = Ok rr ->
  s_asg (rr_init rr) = map (fun r => Some (d_int dr r)) (seq 0 (g_nrow g)) /\
  forall j, (j < g_k g)%nat ->
  let l := map (fun r => row data (g_ncol g) r) (filter (fun r => Nat.eqb (d_int dr r) j) (seq 0 (g_nrow g))) in
  row (c_means (s_cltrs (rr_init rr))) (g_ncol g) j = match l with [] => vzero (g_ncol g) | _ => vmean (g_ncol g) l end.
Proof.
  intros g centers data dr scheds rr (V & Hk & Hc & D) H. unfold run in H.
  destruct (@create_ok NumR g centers RANDOM Hk Hc) as (s & Es & Hs1 & Hs2 & _). rewrite Es in H.
  destruct (get_workers V) as (ws & Ew & W). rewrite Ew in H. cbn [bind run_init] in H.
  destruct (@random_ok NumR g data V (d_int dr) s) as (a & Ea & Sa & (Ha & Hasg) & _).
  { rewrite Hs1. unfold clusters_create. rewrite (Nat.mul_comm (g_ncol g)). destruct centers; reflexivity. }
  { rewrite Hs2, repeat_length. reflexivity. } { exact D. }
  rewrite Ea in H. cbn [bind] in H.
  apply bind_ok in H as ([[[i cv] f] t] & _ & H). injection H as <-. cbn [rr_init].
  split; [rewrite Hasg, map_map; reflexivity|].
  set (A := map (d_int dr) (seq 0 (g_nrow g))) in *.
  assert (LA : length A = g_nrow g) by (unfold A; rewrite map_length, seq_length; reflexivity).
  intros j Hj. set (l := map (fun r => row data (g_ncol g) r) (filter _ _)). specialize (Ha j Hj). destruct V as (V1 & V2 & V3 & V4).
  rewrite (@rcel_R g data A j V4 LA) in Ha.
  unfold cel, crow in Ha. destruct Sa as (_ & Sd & _). rewrite Sd in Ha. injection Ha as Ha _ _.
  etransitivity; [exact Ha|]. rewrite mems_rows by exact LA.
  assert (El : mem_rows (g_nrow g) (row data (g_ncol g)) A j = l).
  { unfold mem_rows, l. apply (f_equal (map (fun r => @row R data (g_ncol g) r))). apply filter_ext_in. intros r Hr. apply in_seq in Hr. apply (f_equal (fun x => Nat.eqb x j)).
    unfold A. rewrite (nth_indep _ 0%nat (d_int dr 0%nat)) by (rewrite map_length, seq_length; lia).
    rewrite map_nth, seq_nth by lia. reflexivity. }
  unfold mean_or_zero. refine (eq_trans (f_equal (fun q => match q with [] => vzero (g_ncol g) | _ :: _ => vmean (g_ncol g) q end) El) _). reflexivity.
Qed.
Print Assumptions C27_random_partition.

(** ** C18 *)
Lemma fold_left_Rplus l : forall a, fold_left Rplus l a = a + rsum l.
Proof. induction l as [|x l IH]; intros a; simpl; [lra|]. rewrite IH. lra. Qed.

Lemma wsums_total (cells : list (R * option nat)) n (ws : list (worker NumR)) : ntiles 0 n (w_ranges ws) -> length cells = n ->
  fold_left Rplus (wsums ws cells) 0 = rsum (map fst cells).
Proof.
  intros Ht L. rewrite fold_left_Rplus.
  assert (G : rsum (wsums ws cells) = rsum (map fst (concat (map (fun sn => slice cells (fst sn) (snd sn)) (w_ranges ws))))).
  { unfold wsums, w_ranges. clear. induction ws as [|w ws IH]; [reflexivity|]. cbn [map rsum concat fst snd].
    rewrite map_app, rsum_app. rewrite <- IH. simpl nadd. simpl nzero. rewrite fold_left_Rplus. rewrite Rplus_0_l. reflexivity. }
  rewrite G. rewrite (@ntiles_concat _ cells 0 n _ Ht) by lia. rewrite Nat.sub_0_r, <- L, slice_all. lra.
Qed.

Theorem C18_threads_irrelevant : forall (g : kcfg NumR) nthreads kind centers it data dr dr' scheds scheds' rr,
  let g' := with_threads g nthreads kind in     (* another thread count and loading path *)
  valid_args g data centers it dr -> (1 <= nthreads < 2 ^ 32)%Z ->
  fair g data scheds -> fair g' data scheds' ->
  d_int dr = d_int dr' -> d_real dr = d_real dr' -> (it = PLUSPLUS -> fair g' data (d_sched dr')) ->
  run g centers it data dr scheds = Ok rr ->
  exists rr', run g' centers it data dr' scheds' = Ok rr' /\ rr_out rr' = rr_out rr /\
    rr_converged rr' = rr_converged rr /\ length (rr_trace rr') = length (rr_trace rr).
Proof.
  intros g nt kind centers it data dr dr' scheds scheds' rr g' (V & Hk & Hc & D) Hnt F F' Ei Er Fp H.
  assert (V' : valid_input g' data). { destruct V as (V1 & V2 & V3 & V4). unfold valid_input. splits; auto; apply Hnt. }
  destruct (get_workers V) as (ws & Ew & W). destruct (get_workers V') as (ws' & Ew' & W').
  pose proof (@run_sim NumR g data nt kind ws ws' V V' W W') as Hs. cbv zeta in Hs. fold g' in Hs.
  pose proof W as (Wt & _). pose proof W' as (Wt' & _). destruct V as (V1 & V2 & V3 & V4).
  specialize (Hs ltac:(intros cells L; etransitivity; [apply (@wsums_total cells (g_nrow g) ws Wt L)|symmetry; apply (@wsums_total cells (g_nrow g) ws' Wt' L)])
    centers it dr dr' scheds scheds' Ew Ew' F F').
  assert (Hp : it = PLUSPLUS -> fair g data (d_sched dr) /\ fair g' data (d_sched dr')).
  { intros E. split; [subst it; apply D|auto]. }
  specialize (Hs Hp Ei Er D Hc Hk).
  specialize (Hs ltac:(intros A j LA Hj; rewrite (@ucel_R g data ws A j V4 LA Wt), (@ucel_R g data ws' A j V4 LA Wt'); reflexivity)).
  rewrite H in Hs. destruct (run g' centers it data dr' scheds') as [rr'|]; [|contradiction]. exists rr'.
  destruct Hs as (E1 & E2 & _ & E3). splits; auto. symmetry. eapply Forall2_length_eq; eauto.
Qed.
Print Assumptions C18_threads_irrelevant.
