(** Two runs that differ only in schedules (and, where sums do not depend on
    their grouping, in the number of threads and the way data is loaded) go
    through the same states.  Also: a run never fails except by an assertion. *)
From Verif Require Import Base Num Spec DistModel ClustersModel ClustersView PartitionModel ParModel KmeansModel.
From Verif Require Import MatLemmas ClustersProofs DistProofs PartitionProofs ParProofs NearProofs KmeansProofs UpdateProofs RunProofs InitProofs.
Set Implicit Arguments.

Section Sim.
Variable N : Num.
Notation T := (car N).

(** equal up to the workers' private scratch space *)
Definition same (s1 s2 : kst N) : Prop :=
  s_cltrs s1 = s_cltrs s2 /\ s_asg s1 = s_asg s2 /\ s_counts s1 = s_counts s2 /\ s_changed s1 = s_changed s2.

Definition same_result (r1 r2 : run_result N) : Prop :=
  rr_out r1 = rr_out r2 /\ rr_converged r1 = rr_converged r2 /\
  same (rr_init r1) (rr_init r2) /\ Forall2 same (rr_trace r1) (rr_trace r2).

Definition with_threads (g : kcfg N) (nt : Z) (kind : load_kind) : kcfg N :=
  mkCfg N (g_nrow g) (g_ncol g) (g_k g) (g_max_iters g) nt (g_tol g) (g_dt g) kind.

(** the random draws an initialisation may make *)
Definition draws_ok (g : kcfg N) (data : list T) (it : init_t) (dr : draws N) : Prop :=
  match it with
  | RANDOM => forall r, r < g_nrow g -> d_int dr r < g_k g
  | FORGY => forall c, c < g_k g -> d_int dr c < g_nrow g
  | PLUSPLUS => d_int dr 0 < g_nrow g /\ fair g data (d_sched dr)
  | NONE => True
  end.

Lemma main_loop_threads (g : kcfg N) nt kind ws scheds : forall n iter s t,
  main_loop (with_threads g nt kind) ws scheds n iter s t = main_loop g ws scheds n iter s t.
Proof.
  induction n as [|n IH]; intros iter s t; cbn [main_loop]; [reflexivity|].
  change (iterate (with_threads g nt kind) ws (scheds iter)) with (iterate g ws (scheds iter)).
  destruct (iterate g ws (scheds iter) _) as [s'|e]; cbn [bind]; [|reflexivity].
  change (stop_test (with_threads g nt kind) (s_changed s')) with (stop_test g (s_changed s')).
  rewrite IH. reflexivity.
Qed.

Section Two.
Variables (g : kcfg N) (data : list T) (ws1 ws2 : list (worker N)).
Hypothesis W1 : wok (g_nrow g) (g_ncol g) data ws1.
Hypothesis W2 : wok (g_nrow g) (g_ncol g) data ws2.
Hypothesis V2 : (Z.of_nat (g_nrow g) < 2 ^ 32)%Z.
Hypothesis V4 : length data = g_nrow g * g_ncol g.
Hypothesis Hu : forall A j, length A = g_nrow g -> j < g_k g -> ucel g ws1 data A j = ucel g ws2 data A j.

Lemma iterate_sim sched1 sched2 s1 s2 :
  complete (w_ranges ws1) sched1 -> complete (w_ranges ws2) sched2 -> stok g ws1 s1 -> stok g ws2 s2 -> same s1 s2 ->
  match iterate g ws1 sched1 s1, iterate g ws2 sched2 s2 with
  | Ok a, Ok b => same a b /\ stok g ws1 a /\ stok g ws2 b
  | Err e, Err e' => e = e'
  | _, _ => False
  end.
Proof.
  intros C1 C2 S1 S2 (E1 & E2 & E3 & E4).
  pose proof (@iterate_ok N g ws1 data W1 V2 V4 sched1 s1 C1 S1) as H1.
  pose proof (@iterate_ok N g ws2 data W2 V2 V4 sched2 s2 C2 S2) as H2.
  destruct (iterate g ws1 sched1 s1) as [a|e]; destruct (iterate g ws2 sched2 s2) as [b|e'].
  - destruct H1 as (A & LA & HA & Ea & Hn & St & Hc & Hcnt & Hch).
    destruct H2 as (B & LB & HB & Eb & Hn' & St' & Hc' & Hcnt' & Hch').
    assert (A = B).
    { apply (nth_ext _ _ 0 0); [congruence|]. intros r Hr. specialize (Hn r ltac:(lia)). specialize (Hn' r ltac:(lia)).
      rewrite E1 in Hn. congruence. }
    subst B. splits; auto. unfold same. splits; try congruence.
    apply (@clusters_ext N (g_k g) (g_ncol g)); [apply St|apply St'|].
    intros j Hj. rewrite Hc, Hc' by exact Hj. auto.
  - destruct H1 as (A & LA & HA & Ea & Hn & _). destruct H2 as (_ & r & Hr & Hno). rewrite <- E1, Hn in Hno by exact Hr. discriminate.
  - destruct H2 as (A & LA & HA & Ea & Hn & _). destruct H1 as (_ & r & Hr & Hno). rewrite E1, Hn in Hno by exact Hr. discriminate.
  - destruct H1 as (-> & _). destruct H2 as (-> & _). reflexivity.
Qed.

Lemma main_loop_sim scheds1 scheds2 :
  (forall i, complete (w_ranges ws1) (scheds1 i)) -> (forall i, complete (w_ranges ws2) (scheds2 i)) ->
  forall n iter s1 s2 t1 t2, stok g ws1 s1 -> stok g ws2 s2 -> same s1 s2 -> Forall2 same t1 t2 ->
  match main_loop g ws1 scheds1 n iter s1 t1, main_loop g ws2 scheds2 n iter s2 t2 with
  | Ok (i1, c1, f1, tr1), Ok (i2, c2, f2, tr2) => i1 = i2 /\ c1 = c2 /\ same f1 f2 /\ Forall2 same tr1 tr2
  | Err e, Err e' => e = e' /\ e = Abort
  | _, _ => False
  end.
Proof.
  intros C1 C2. induction n as [|n IH]; intros iter s1 s2 t1 t2 S1 S2 Hs Ht; cbn [main_loop].
  - splits; auto.
  - set (a1 := if iter =? 1 then clear_asg s1 else s1). set (a2 := if iter =? 1 then clear_asg s2 else s2).
    assert (Sa1 : stok g ws1 a1) by (unfold a1; destruct (iter =? 1); [apply stok_clear|]; exact S1).
    assert (Sa2 : stok g ws2 a2) by (unfold a2; destruct (iter =? 1); [apply stok_clear|]; exact S2).
    assert (Sa : same a1 a2).
    { unfold a1, a2. destruct Hs as (E1 & E2 & E3 & E4). destruct (iter =? 1); unfold same, clear_asg; cbn; splits; auto. rewrite E2. reflexivity. }
    pose proof (@iterate_sim (scheds1 iter) (scheds2 iter) a1 a2 (C1 _) (C2 _) Sa1 Sa2 Sa) as H.
    pose proof (@iterate_ok N g ws1 data W1 V2 V4 (scheds1 iter) a1 (C1 _) Sa1) as HE.
    destruct (iterate g ws1 (scheds1 iter) a1) as [b1|e]; destruct (iterate g ws2 (scheds2 iter) a2) as [b2|e']; try contradiction; cbn [bind].
    + destruct H as (Hb & Sb1 & Sb2). assert (Ech : s_changed b1 = s_changed b2) by apply Hb. rewrite Ech.
      assert (Ht' : Forall2 same (t1 ++ [b1]) (t2 ++ [b2])) by (apply Forall2_app; auto).
      destruct (stop_test g (s_changed b2)); [splits; auto|]. apply IH; auto.
    + split; [exact H|]. apply HE.
Qed.

End Two.

(* ------------------------------------------------------------------ *)
(** * Initialisations *)

Lemma kmspp_pick_range : forall (dv : list T) row cuml r c, kmspp_pick N dv row cuml = (Some r, c) -> row <= r < row + length dv.
Proof.
  induction dv as [|x dv IH]; intros row cuml r c H; cbn [kmspp_pick] in H; [discriminate|].
  destruct (nleb N (nsub N cuml x) (nzero N)); [injection H as <- _; simpl; lia|].
  apply IH in H. simpl. lia.
Qed.

Lemma set_mean_at_eq k d (c : clusters N) p p' x i : shaped k d c -> i < k -> length x = d ->
  slice (fst p) (snd p) d = x -> slice (fst p') (snd p') d = x ->
  exists c', set_mean_at c p i = Ok c' /\ set_mean_at c p' i = Ok c' /\ shaped k d c'.
Proof.
  intros Sh Hi Lx Hp Hp'.
  destruct (@set_mean_at_ok N k d c p x i Sh Hi Lx Hp) as (c1 & E1 & S1 & H1).
  destruct (@set_mean_at_ok N k d c p' x i Sh Hi Lx Hp') as (c2 & E2 & S2 & H2).
  assert (c1 = c2) by (apply (@clusters_ext N k d); auto; intros j Hj; rewrite H1, H2; auto).
  subst. eauto.
Qed.

Section InitSim.
Variables (g : kcfg N) (data : list T) (nt : Z) (kind : load_kind).
Let g' := with_threads g nt kind.
Variables (ws ws' : list (worker N)).
Hypothesis V : valid_input g data.
Hypothesis V' : valid_input g' data.
Hypothesis W1 : wok (g_nrow g) (g_ncol g) data ws.
Hypothesis W2 : wok (g_nrow g) (g_ncol g) data ws'.
Hypothesis Htot : forall cells : list (T * option nat), length cells = g_nrow g ->
  fold_left (nadd N) (wsums ws cells) (nzero N) = fold_left (nadd N) (wsums ws' cells) (nzero N).

Lemma kmspp_loop_eq sch sch' ur :
  (forall i, complete (w_ranges ws) (sch i)) -> (forall i, complete (w_ranges ws') (sch' i)) ->
  forall n ci (c : clusters N) cells trace chosen, n + ci = g_k g -> ci < g_k g ->
  shaped (g_k g) (g_ncol g) c -> length cells = g_nrow g ->
  kmspp_loop g ws data sch ur n ci (c, cells) trace chosen = kmspp_loop g' ws' data sch' ur n ci (c, cells) trace chosen /\
  match kmspp_loop g ws data sch ur n ci (c, cells) trace chosen with Ok _ => True | Err e => e = Abort end.
Proof.
  intros C1 C2. induction n as [|n IH]; intros ci c cells trace chosen Hn Hci Sh L; [lia|].
  cbn [kmspp_loop]. cbn [fst snd].
  rewrite (@kmspp_round_ok N g data V ws c ci (sch ci) cells W1 Sh Hci L (C1 ci)).
  rewrite (@kmspp_round_ok N g' data V' ws' c ci (sch' ci) cells W2 Sh Hci L (C2 ci)).
  change (kcells g' data ci (crow c ci) cells) with (kcells g data ci (crow c ci) cells).
  change (g_k g') with (g_k g).
  set (K := kcells g data ci (crow c ci) cells).
  assert (LK : length K = g_nrow g) by (apply kcells_length; exact L).
  cbn [bind fst snd]. rewrite (Htot K LK).
  destruct (Nat.leb_spec (g_k g) (S ci)) as [Hk|Hk]; [auto|].
  destruct (kmspp_pick N (map fst K) 0 _) as [[r|] cuml] eqn:Ep.
  - apply kmspp_pick_range in Ep. rewrite map_length in Ep.
    assert (Hr : r < g_nrow g) by lia.
    destruct (@thd_row_ok N g data V r Hr) as (p & -> & Hp).
    destruct (@thd_row_ok N g' data V' r Hr) as (p' & -> & Hp'). cbn [bind].
    destruct (@set_mean_at_eq (g_k g) (g_ncol g) c p p' (row data (g_ncol g) r) (S ci) Sh Hk (@data_row_length N g data V r Hr) Hp Hp') as (c' & -> & -> & Sh').
    cbn [bind]. destruct (amod K r _) as [K'|e] eqn:EK.
    + cbn [bind]. destruct (nleb N cuml (nzero N)); cbn [assert_ bind]; [|auto].
      apply IH; try lia; auto. apply amod_inv in EK as (y & _ & ->). rewrite upd_length. exact LK.
    + destruct (nth_error K r) as [y|] eqn:Ey; [|apply nth_error_None in Ey; lia]. rewrite (amod_ok _ _ _ Ey) in EK. discriminate.
  - cbn [bind]. destruct (nleb N cuml (nzero N)); cbn [assert_ bind]; [|auto]. apply IH; auto; lia.
Qed.

Lemma run_init_sim it dr dr' s s' :
  (forall i, complete (w_ranges ws) (d_sched dr i)) -> (forall i, complete (w_ranges ws') (d_sched dr' i)) ->
  d_int dr = d_int dr' -> d_real dr = d_real dr' -> draws_ok g data it dr ->
  stok g ws s -> stok g ws' s' -> same s s' -> 1 <= g_k g ->
  (it = RANDOM -> s_cltrs s = clusters_create N (g_k g) (g_ncol g)) ->
  match run_init g it ws data dr s, run_init g' it ws' data dr' s' with
  | Ok a, Ok b => same a b
  | Err e, Err e' => e = e' /\ e = Abort
  | _, _ => False
  end.
Proof.
  intros C1 C2 Ei Er D S1 S2 (E1 & E2 & E3 & E4) Hk Hrand. unfold run_init. rewrite <- Ei, <- Er. destruct it; cbn [draws_ok] in D.
  - destruct (@random_ok N g data V (d_int dr) s (Hrand eq_refl)) as (a & -> & Sa & (Ha1 & Ha2) & Ha3 & Ha4 & _); [apply S1|exact D|].
    destruct (@random_ok N g' data V' (d_int dr) s') as (b & -> & Sb & (Hb1 & Hb2) & Hb3 & Hb4 & _);
      [rewrite <- E1; exact (Hrand eq_refl)|apply S2|exact D|].
    unfold same. splits; try congruence.
    + apply (@clusters_ext N (g_k g) (g_ncol g)); auto. intros j Hj. rewrite Ha1, (Hb1 j Hj) by exact Hj. reflexivity.
    + rewrite Ha2, Hb2. reflexivity.
  - destruct S1 as (Sh1 & _). destruct S2 as (Sh2 & _).
    destruct (@forgy_ok N g data V (d_int dr) s Sh1 D) as (a & -> & Sa & Ha1 & Ha2 & Ha3 & Ha4 & _).
    destruct (@forgy_ok N g' data V' (d_int dr) s' Sh2 D) as (b & -> & Sb & Hb1 & Hb2 & Hb3 & Hb4 & _).
    unfold same. splits; try congruence.
    apply (@clusters_ext N (g_k g) (g_ncol g)); auto. intros j Hj. rewrite Ha1, (Hb1 j Hj), E1 by exact Hj. reflexivity.
  - destruct D as (D & _). unfold kmeanspp_init_t. rewrite <- E1, <- E2, <- E3, <- E4.
    destruct (@thd_row_ok N g data V _ D) as (p & -> & Hp).
    destruct (@thd_row_ok N g' data V' _ D) as (p' & -> & Hp'). cbn [bind].
    destruct S1 as (Sh1 & _ & La & _).
    destruct (@set_mean_at_eq (g_k g) (g_ncol g) (s_cltrs s) p p' (row data (g_ncol g) (d_int dr 0)) 0 Sh1 Hk (@data_row_length N g data V _ D) Hp Hp') as (c' & -> & -> & Sh').
    cbn [bind]. change (g_nrow g') with (g_nrow g). rewrite !aset_ok by (rewrite ?repeat_length; lia). cbn [bind].
    change (g_k g') with (g_k g).
    destruct (@kmspp_loop_eq (d_sched dr) (d_sched dr') (d_real dr) C1 C2 (g_k g) 0 c'
       (combine (upd (repeat (nmax N) (g_nrow g)) (d_int dr 0) (nzero N)) (upd (s_asg s) (d_int dr 0) (Some 0))) [] [d_int dr 0]) as (E & Hab); auto.
    { rewrite combine_length, !upd_length, repeat_length. lia. }
    rewrite <- E. destruct (kmspp_loop g ws data (d_sched dr) (d_real dr) (g_k g) 0 _ _ _) as [[[[c2 cells] tr] ch]|e]; cbn [bind]; [|split; auto].
    unfold same. cbn. auto.
  - unfold same. auto.
Qed.

Lemma run_sim centers it dr dr' scheds scheds' :
  build_workers g data = Ok ws -> build_workers g' data = Ok ws' ->
  fair g data scheds -> fair g' data scheds' ->
  (it = PLUSPLUS -> fair g data (d_sched dr) /\ fair g' data (d_sched dr')) ->
  d_int dr = d_int dr' -> d_real dr = d_real dr' -> draws_ok g data it dr ->
  centers_ok g centers it -> 1 <= g_k g ->
  (forall A j, length A = g_nrow g -> j < g_k g -> ucel g ws data A j = ucel g ws' data A j) ->
  match run g centers it data dr scheds, run g' centers it data dr' scheds' with
  | Ok a, Ok b => same_result a b
  | Err e, Err e' => e = e' /\ e = Abort
  | _, _ => False
  end.
Proof.
  intros B1 B2 F1 F2 Fpp Ei Er D Hc Hk Hu. unfold run.
  destruct (@create_ok N g centers it Hk Hc) as (s & Es & Hs1 & Hs2 & Hs3 & Hs4).
  destruct (@create_ok N g' centers it Hk Hc) as (s' & Es' & Hs1' & Hs2' & Hs3' & Hs4').
  rewrite Es, Es', B1, B2. cbn [bind].
  assert (Lw : length ws = Z.to_nat (eff_threads (g_nthreads g) (Z.of_nat (g_nrow g)))).
  { destruct V as (? & ? & ? & ?). destruct (@build_workers_ok N g data) as (w & Ew & _ & Hl & _); auto. congruence. }
  assert (Lw' : length ws' = Z.to_nat (eff_threads (g_nthreads g') (Z.of_nat (g_nrow g')))).
  { destruct V' as (? & ? & ? & ?). destruct (@build_workers_ok N g' data) as (w & Ew & _ & Hl & _); auto. congruence. }
  destruct (@create_stok N g centers it s ws Es Lw) as (St & _).
  destruct (@create_stok N g' centers it s' ws' Es' Lw') as (St' & _).
  assert (Sm : same s s') by (unfold same; rewrite Hs1, Hs2, Hs3, Hs4, Hs1', Hs2', Hs3', Hs4'; splits; reflexivity).
  (* for the other initialisations the kmeans++ schedules are irrelevant *)
  set (triv := fun _ : nat => seq_sched (w_ranges ws)). set (triv' := fun _ : nat => seq_sched (w_ranges ws')).
  set (dr1 := if match it with PLUSPLUS => true | _ => false end then dr else mkDraws N (d_int dr) (d_real dr) triv).
  set (dr2 := if match it with PLUSPLUS => true | _ => false end then dr' else mkDraws N (d_int dr') (d_real dr') triv').
  assert (R1 : run_init g it ws data dr s = run_init g it ws data dr1 s) by (destruct it; reflexivity).
  assert (R2 : run_init g' it ws' data dr' s' = run_init g' it ws' data dr2 s') by (destruct it; reflexivity).
  assert (RI : match run_init g it ws data dr s, run_init g' it ws' data dr' s' with
    | Ok a, Ok b => same a b
    | Err e, Err e' => e = e' /\ e = Abort
    | _, _ => False
    end).
  { rewrite R1, R2. apply run_init_sim; auto.
    - unfold dr1. destruct it; try (intros i; apply seq_sched_complete). exact (proj1 (Fpp eq_refl) ws B1).
    - unfold dr2. destruct it; try (intros i; apply seq_sched_complete). exact (proj2 (Fpp eq_refl) ws' B2).
    - unfold dr1, dr2. destruct it; exact Ei.
    - unfold dr1, dr2. destruct it; exact Er.
    - unfold dr1. destruct it; exact D.
    - intros ->. rewrite Hs1. unfold clusters_create. rewrite (Nat.mul_comm (g_ncol g)). destruct centers; reflexivity. }
  destruct (run_init g it ws data dr s) as [a|e] eqn:E1; destruct (run_init g' it ws' data dr' s') as [b|e'] eqn:E2; try contradiction; cbn [bind]; [|exact RI].
  pose proof (@run_init_stok N g it ws data dr s a E1 St) as Sta.
  pose proof (@run_init_stok N g' it ws' data dr' s' b E2 St') as Stb.
  destruct V as (V1 & V2 & V3 & V4).
  pose proof (@main_loop_sim g data ws ws' W1 W2 V2 V4 Hu scheds scheds' (F1 ws B1) (F2 ws' B2)
    (g_max_iters g) (if 0 <? g_max_iters g then 1 else 0) a b [] [] Sta Stb RI (Forall2_nil _)) as H.
  change (g_max_iters g') with (g_max_iters g).
  unfold g'. rewrite main_loop_threads.
  destruct (main_loop g ws scheds (g_max_iters g) (if 0 <? g_max_iters g then 1 else 0) a []) as [[[[i1 c1] f1] t1]|e];
  destruct (main_loop g ws' scheds' (g_max_iters g) (if 0 <? g_max_iters g then 1 else 0) b []) as [[[[i2 c2] f2] t2]|e']; try contradiction; cbn [bind].
  - destruct H as (-> & -> & (F1' & F2' & F3' & F4') & Ht). unfold same_result; cbn. splits; auto.
    rewrite F1', F2', F3'. reflexivity.
  - exact H.
Qed.

End InitSim.
End Sim.
