(** One turn of the unpruned MPI k-means, in exact arithmetic. *)
From Coq Require Import Reals Lra.
From Verif Require Import Base Num Spec DistModel ClustersModel ClustersView PartitionModel ParModel KmeansModel PruneModel DistRunModel DistLloydModel.
From Verif Require Import MatLemmas VecLemmas ClustersProofs DistProofs PartitionProofs ParProofs NearProofs KmeansProofs UpdateProofs RunProofs InitProofs SimProofs KmeansR SseProofs PropertiesKmeansR PropertiesRun.
From Verif Require Import ParRule DistMatProofs PruneProofs ClusterSums PruneRound PruneUpdate PruneRun PruneRun2 PropertiesPrune DistRunProofs DistRunProofs2 DistRunProofs3 ProcRows DistInitProofs DistRunProofs4 DistRunProofs5 KmsppR SpecKmspp PropertiesKmspp DistKmspp DistInitAll PropertiesDistRun.
Set Implicit Arguments.
Local Open Scope R_scope.

Lemma mapM_spec {A B} (f : A -> res B) (Q : A -> B -> Prop) (E : A -> Prop) : forall l,
  (forall a, In a l -> match f a with Ok b => Q a b | Err e => e = Abort /\ E a end) ->
  match mapM f l with Ok l' => Forall2 Q l l' | Err e => e = Abort /\ exists a, In a l /\ E a end.
Proof.
  induction l as [|a l IH]; intros H; cbn [mapM]; [constructor|].
  pose proof (H a (or_introl eq_refl)) as Ha. destruct (f a) as [b|e]; cbn [Base.bind].
  - specialize (IH (fun x Hx => H x (or_intror Hx))). destruct (mapM f l) as [l'|e]; cbn [Base.bind].
    + constructor; auto.
    + destruct IH as (-> & x & Hx & Ex). split; [reflexivity|]. exists x. split; [right; exact Hx|exact Ex].
  - destruct Ha as (-> & Ea). split; [reflexivity|]. exists a. split; [left; reflexivity|exact Ea].
Qed.

Lemma odiff_cat : forall (os : list (list (option nat))) (As : list (list nat)), map (@length _) os = map (@length _) As ->
  odiff (concat os) (concat As) = list_sum (map2 odiff os As).
Proof.
  induction os as [|o os IH]; intros [|A As] H; try discriminate; [reflexivity|]. cbn [map] in H. injection H as H1 H2.
  cbn [concat map2]. rewrite odiff_app by exact H1. rewrite (IH As H2). reflexivity.
Qed.

(** a vector with the coordinates of the mean is the mean *)
Lemma fin_rs_mean (g : kcfg NumR) (data : list R) (A : list nat) j (c : list R) : length data = (g_nrow g * g_ncol g)%nat -> length A = g_nrow g ->
  length c = g_ncol g ->
  (forall i, (i < g_ncol g)%nat -> nth i c 0 = finF (rs_sum g data (fun x => nth x A 0%nat) (seq 0 (g_nrow g))) (rs_cnt (fun x => nth x A 0%nat) (seq 0 (g_nrow g))) j i) ->
  c = cluster_mean g data (map Some A) j.
Proof.
  intros Hd LA Lc Hc. unfold cluster_mean. set (draw := fun x => nth x A 0%nat) in *.
  assert (Ea : map Some A = asg_of (rcells draw (g_nrow g))).
  { unfold asg_of, rcells. rewrite map_map. cbn [fst snd]. apply nth_error_ext. intros r. rewrite !nth_error_map, nth_error_seq. destruct (Nat.ltb_spec r (g_nrow g)).
    - rewrite (nth_error_nth' A 0%nat) by lia. reflexivity.
    - replace (nth_error A r) with (@None nat) by (symmetry; apply nth_error_None; lia). reflexivity. }
  rewrite Ea. apply finF_members; auto.
  - unfold rcells. rewrite map_length, seq_length. reflexivity.
  - intros i Hi. rewrite (Hc i Hi). apply finF_ext; [apply rs_sumF|apply rs_cntF].
Qed.

Lemma rs_cnt_count (A : list nat) j : rs_cnt (fun x => nth x A 0%nat) (seq 0 (length A)) j = Z.of_nat (count_eq j A).
Proof.
  unfold rs_cnt.
  assert (H : forall (l : list nat) s, (forall i, (i < length l)%nat -> nth (s + i) A 0%nat = nth i l 0%nat) ->
     zsum (map (fun r => if (j =? nth r A 0%nat)%nat then 1 else 0)%Z (seq s (length l))) = Z.of_nat (count_eq j l)).
  { induction l as [|a l IH]; intros s Hs; [reflexivity|]. cbn [length seq map zsum]. rewrite count_eq_cons.
    pose proof (Hs 0%nat ltac:(cbn; lia)) as H0. rewrite Nat.add_0_r in H0. cbn in H0. rewrite H0. rewrite (IH (S s)).
    - rewrite (Nat.eqb_sym j a). destruct (a =? j)%nat; lia.
    - intros i Hi. specialize (Hs (S i) ltac:(cbn; lia)). rewrite Nat.add_succ_r in Hs. exact Hs. }
  apply H. intros i Hi. reflexivity.
Qed.

Lemma Forall_cc {A} (Q : A -> Prop) (ls : list (list A)) : Forall (Forall Q) ls -> Forall Q (concat ls).
Proof. induction 1; cbn [concat]; [constructor|]. apply Forall_app. auto. Qed.

Section U.
Variables (g : kcfg NumR) (P : nat) (data : list (car NumR)).
Let d := g_ncol g.
Let k := g_k g.
Let G := g_nrow g.
Hypothesis HP : (1 <= P <= G)%nat.
Hypothesis Hdata : length data = (G * d)%nat.
Hypothesis HG : (Z.of_nat G < 2 ^ 31)%Z.
Hypothesis Hnt : (1 <= g_nthreads g < 2 ^ 32)%Z.

Definition uranks (qs : list (uproc NumR)) : Prop := map (@up_rank NumR) qs = seq 0 P.
Definition un (q : uproc NumR) : nat := proc_nrow G P (up_rank q).
Definition ubody (q : uproc NumR) : Prop :=
  (up_rank q < P)%nat /\ build_workers (proc_cfg g P (up_rank q)) (proc_data g P data (up_rank q)) = Ok (up_ws q) /\
  stok (proc_cfg g P (up_rank q)) (up_ws q) (up_st q).
Definition uasg (qs : list (uproc NumR)) : list (option nat) := concat (map (fun q => s_asg (up_st q)) qs).
Definition uinv (M : list R) (qs : list (uproc NumR)) : Prop :=
  uranks qs /\ Forall (fun q => ubody q /\ c_means (up_cl q) = M) qs.
Definition ufair (sched : nat -> list nat) (qs : list (uproc NumR)) : Prop :=
  forall q, In q qs -> complete (w_ranges (up_ws q)) (sched (up_rank q)).

(** the nearest centroid of global row [x] *)
Definition gnid (M : list R) (x : nat) : option nat := fst (near NumR (g_dt g) (rows k d M) (row data d x)).

Lemma uranks_nonempty qs : uranks qs -> qs <> [].
Proof. clear - HP. intros H ->. unfold uranks in H. destruct P; [lia|discriminate]. Qed.
Lemma uranks_map qs {A} (f : nat -> A) : uranks qs -> map (fun q : uproc NumR => f (up_rank q)) qs = map f (seq 0 P).
Proof. clear. intros H. unfold uranks in H. rewrite <- H, map_map. reflexivity. Qed.
Lemma urank_at qs rk q : uranks qs -> nth_error qs rk = Some q -> up_rank q = rk.
Proof.
  clear. intros Hr E. assert (E2 : nth_error (map (@up_rank NumR) qs) rk = Some (up_rank q)) by (rewrite nth_error_map, E; reflexivity).
  unfold uranks in Hr. rewrite Hr in E2. assert (Hrk : (rk < length (seq 0 P))%nat) by (apply nth_error_Some; congruence).
  rewrite (nth_error_nth' _ 0%nat Hrk) in E2. rewrite seq_length in Hrk. rewrite seq_nth in E2 by exact Hrk. cbn in E2. congruence.
Qed.

Lemma ulens {A} (f : uproc NumR -> list A) qs : uranks qs -> (forall q, In q qs -> length (f q) = un q) ->
  map (@length A) (map f qs) = map (proc_nrow G P) (seq 0 P).
Proof. clear. intros Hr H. rewrite map_map, <- (uranks_map (proc_nrow G P) Hr). apply map_ext_in. exact H. Qed.

(** local part of a turn *)
Definition local_ok (first : bool) (q q' : uproc NumR) : Prop :=
  exists A, length A = un q /\ Forall (fun a => (a < k)%nat) A /\
    (forall r, (r < un q)%nat -> gnid (c_means (up_cl q)) (proc_off G P (up_rank q) + r) = Some (nth r A 0%nat)) /\
    up_rank q' = up_rank q /\ up_ws q' = up_ws q /\ s_asg (up_st q') = map Some A /\ ubody q' /\
    cis k d (up_cl q') (fun j i => rsum (map (fun r => if (j =? nth r A 0)%nat then nth i (row data d (proc_off G P (up_rank q) + r)) 0 else 0) (seq 0 (un q))))
      (fun j => Z.of_nat (count_eq j A)) (fun _ => false) /\
    s_changed (up_st q') = odiff (if first then map (fun _ => None) (s_asg (up_st q)) else s_asg (up_st q)) A.

Lemma u_local_ok first sched q : ubody q -> complete (w_ranges (up_ws q)) (sched (up_rank q)) ->
  match up_local g P first sched q with
  | Ok q' => local_ok first q q'
  | Err e => e = Abort /\ exists r, (r < un q)%nat /\ gnid (c_means (up_cl q)) (proc_off G P (up_rank q) + r) = None
  end.
Proof.
  intros (B1 & B2 & B3) Hsch. unfold up_local.
  set (gp := proc_cfg g P (up_rank q)) in *. set (pd := proc_data g P data (up_rank q)) in *.
  set (s := if first then clear_asg (up_st q) else up_st q).
  assert (Hs : stok gp (up_ws q) s) by (unfold s; destruct first; [apply stok_clear|]; exact B3).
  assert (Ecl : s_cltrs s = up_cl q) by (unfold s; destruct first; reflexivity).
  destruct (@proc_valid g P data HP Hdata HG Hnt (up_rank q) B1) as (V1 & V2 & V3 & V4). fold gp pd in V1, V2, V3, V4.
  destruct (@build_workers_ok NumR gp pd V1 V2 V3 V4) as (ws' & Ew' & Hwok & _). rewrite B2 in Ew'. injection Ew' as <-.
  destruct Hs as (Hc & Hcnt & La & Ll & Hsh).
  assert (Hnid : forall r, (r < un q)%nat -> nid gp pd (s_cltrs s) r = gnid (c_means (up_cl q)) (proc_off G P (up_rank q) + r)).
  { intros r Hr. unfold nid, gnid, cents. rewrite Ecl. f_equal. f_equal. exact (@proc_row NumR g P data HP Hdata (up_rank q) r B1 Hr). }
  pose proof (@EM_round_ok NumR gp (up_ws q) pd (s_cltrs s) Hwok Hc V4 (sched (up_rank q)) (s_local s) (s_asg s) Hsch La Ll Hsh) as H.
  destruct (EM_round gp (up_ws q) (s_cltrs s) (sched (up_rank q)) (s_local s) (s_asg s)) as [[locs asg']|e]; cbn [Base.bind fst snd].
  2:{ destruct H as (-> & r & Hr & Hn). split; [reflexivity|]. exists r. split; [exact Hr|]. rewrite <- Hnid by exact Hr. exact Hn. }
  destruct H as (A & LA & EA & Hn & Hlen & Hl). change (length A = un q) in LA.
  unfold u_aggregate. cbn [s_local s_cltrs s_asg s_counts]. rewrite (clear_create Hc).
  destruct (@merge_ok NumR gp pd A (s_asg s) (up_ws q) locs (clusters_create NumR k d) 0 Hlen (shaped_create NumR k d)) as (c1 & E1 & Hs1 & Hc1).
  { intros t w l Ew El. exact (Hl t w l Ew El). }
  change (g_k gp) with k. change (g_ncol gp) with d. rewrite E1. cbn [Base.bind fst snd].
  rewrite (@odiff_concat (s_asg s) (w_ranges (up_ws q)) 0 (g_nrow gp) A (proj1 Hwok)) by (try exact (eq_trans LA (eq_sym La)); rewrite La; lia).
  exists A. assert (HAk : Forall (fun a => (a < k)%nat) A).
  { apply Forall_forall. intros a Ha. apply (In_nth _ _ 0%nat) in Ha as (r & Hr & <-). rewrite LA in Hr. apply (Hn r Hr). }
  split; [exact LA|]. split; [exact HAk|]. split; [intros r Hr; rewrite <- (Hnid r Hr); apply (Hn r Hr)|].
  split; [reflexivity|]. split; [reflexivity|]. split; [exact EA|]. split; [|split].
  - split; [exact B1|]. split; [exact B2|]. cbn [up_st up_with up_rank up_ws]. unfold stok. cbn [s_cltrs s_counts s_asg s_local]. split; [exact Hs1|].
    split; [exact Hcnt|]. split; [rewrite EA, map_length; exact LA|]. split; [exact Hlen|].
    apply Forall_forall. intros l Hin. apply In_nth_error in Hin as (t & Et).
    destruct (nth_error (up_ws q) t) as [w|] eqn:Ew; [apply (Hl t w l Ew Et)|]. exfalso. apply nth_error_None in Ew. rewrite <- Hlen in Ew. apply nth_error_None in Ew.
    assert (Hy := eq_trans (eq_sym Et) Ew). inversion Hy.
  - split; [exact Hs1|]. intros j Hj. change (up_cl (up_with q _)) with c1. pose proof (Hc1 j Hj) as E. pose proof (@cel_create NumR k d j Hj) as E0. unfold cel in E0.
    injection E0 as E01 E02 E03. rewrite E01, E02, E03 in E. unfold cel in E. injection E as E11 E12 E13.
    split; [etransitivity; [exact E12|]; exact (@ucnt_total NumR gp (up_ws q) pd Hwok A j LA)|]. split; [exact E13|].
    intros i Hi. etransitivity; [exact (f_equal (fun v : list R => nth i v 0) E11)|].
    pose proof (@usum_R gp pd A j V4 LA (up_ws q) 0%nat (proj1 Hwok) (vzero d) (vzero_length d)) as Eu. cbn [skipn] in Eu.
    match type of Eu with _ = ?rhs => transitivity (nth i rhs 0); [exact (f_equal (fun v : list R => nth i v 0) Eu)|] end.
    change (picks j (xas gp pd 0 A)) with (mems gp pd A j). change (g_ncol gp) with d.
    assert (Hdim : alldim d (mems gp pd A j)) by (exact (@mems_dim gp pd A j V4 (Nat.eq_le_incl _ _ LA))).
    rewrite vadd_zero_l by (apply vsum_length; exact Hdim). rewrite (nth_vsum i Hdim). rewrite (mems_rows gp pd A j LA). unfold mem_rows. rewrite map_map.
    change (g_nrow gp) with (un q). change (g_ncol gp) with d. clear - HP Hdata B1.
    assert (Hg : forall l, (forall r, In r l -> (r < un q)%nat) ->
      rsum (map (fun x => nth i (row pd d x) 0) (filter (fun r => (nth r A 0 =? j)%nat) l)) =
      rsum (map (fun r => if (j =? nth r A 0)%nat then nth i (row data d (proc_off G P (up_rank q) + r)) 0 else 0) l)).
    { induction l as [|r l IH]; intros Hl; [reflexivity|]. cbn [filter map]. rewrite (Nat.eqb_sym j). cbn [rsum].
      rewrite <- IH by (intros x Hx; apply Hl; right; exact Hx). destruct (nth r A 0 =? j)%nat; cbn [map rsum].
      - f_equal. f_equal. exact (@proc_row NumR g P data HP Hdata (up_rank q) r B1 (Hl r (or_introl eq_refl))).
      - symmetry. apply Rplus_0_l. }
    apply Hg. intros r Hr. apply in_seq in Hr. lia.
  - cbn [up_st up_with s_changed]. rewrite Nat.sub_0_r, Nat.add_0_l.
    replace (slice (s_asg s) 0 (g_nrow gp)) with (s_asg s) by (rewrite <- La, slice_all; reflexivity).
    replace (slice A 0 (g_nrow gp)) with A by (change (g_nrow gp) with (un q); rewrite <- LA, slice_all; reflexivity).
    unfold s. destruct first; reflexivity.
Qed.

(* ------------------------------------------------------------------ *)
(** * One turn *)
Definition cA (ls : list (uproc NumR)) : list nat := concat (map (fun q => ids (up_st q)) ls).

Lemma cis_same c c' F M D : cis k d c F M D -> cis k d c' F M D -> c = c'.
Proof.
  clear. intros (S1 & H1) (S2 & H2). apply (@clusters_ext NumR k d c c' S1 S2). intros j Hj.
  destruct (H1 j Hj) as (A1 & A2 & A3), (H2 j Hj) as (B1 & B2 & B3). unfold cel. rewrite A1, A2, B1, B2. f_equal. f_equal.
  apply (@vec_ext d).
  - exact (cis_row (conj S1 H1) Hj).
  - exact (cis_row (conj S2 H2) Hj).
  - intros i Hi. etransitivity; [exact (A3 i Hi)|symmetry; exact (B3 i Hi)].
Qed.

Lemma zsum_count (A : list nat) n : Forall (fun a => (a < n)%nat) A -> zsum (map (fun j => Z.of_nat (count_eq j A)) (seq 0 n)) = Z.of_nat (length A).
Proof.
  clear. induction A as [|a A IH]; intros H.
  - cbn [count_eq length]. induction (seq 0 n) as [|x l IHl]; [reflexivity|]. cbn [map zsum]. rewrite IHl. reflexivity.
  - inversion H as [|? ? Ha HA]; subst. cbn [length]. rewrite Nat2Z.inj_succ, <- (IH HA).
    assert (Hs : forall s m, zsum (map (fun j => Z.of_nat (count_eq j (a :: A))) (seq s m)) =
      ((if (s <=? a)%nat && (a <? s + m)%nat then 1 else 0) + zsum (map (fun j => Z.of_nat (count_eq j A)) (seq s m)))%Z).
    { intros s m. revert s. induction m as [|m IHm]; intros s.
      - cbn [seq map zsum]. destruct (Nat.leb_spec s a), (Nat.ltb_spec a (s + 0)); cbn [andb]; lia.
      - cbn [seq map zsum]. rewrite IHm, count_eq_cons.
        destruct (Nat.eqb_spec a s), (Nat.leb_spec (S s) a), (Nat.leb_spec s a), (Nat.ltb_spec a (S s + m)), (Nat.ltb_spec a (s + S m)); cbn [andb]; lia. }
    rewrite Hs. destruct (Nat.leb_spec 0 a), (Nat.ltb_spec a (0 + n)); cbn [andb]; lia.
Qed.

(** [C] is the shared record after a turn that assigned [A] *)
Definition ucl (A : list nat) (C : clusters NumR) : Prop :=
  shaped k d C /\ forall j, (j < k)%nat -> crow C j = cluster_mean g data (map Some A) j /\ cnum C j = Z.of_nat (count_eq j A) /\ cdone C j = true.

Definition asg_before (first : bool) (qs : list (uproc NumR)) : list (option nat) := if first then repeat None G else uasg qs.

Definition ustep_ok (first : bool) (M : list R) (qs qs' : list (uproc NumR)) (A : list nat) : Prop :=
  length A = G /\ Forall (fun a => (a < k)%nat) A /\ (forall x, (x < G)%nat -> gnid M x = Some (nth x A 0%nat)) /\
  uasg qs' = map Some A /\ (exists C, ucl A C /\ uinv (c_means C) qs' /\ Forall (fun q => up_cl q = C) qs') /\
  Forall2 (fun q q' : uproc NumR => up_rank q' = up_rank q /\ up_ws q' = up_ws q) qs qs'.

Lemma u_step_ok first sched M qs : uinv M qs -> ufair sched qs ->
  match udist_step g P first sched qs with
  | Ok (qs', nch) => exists A, ustep_ok first M qs qs' A /\ nch = odiff (asg_before first qs) A
  | Err e => e = Abort /\ exists x, (x < G)%nat /\ gnid M x = None
  end.
Proof.
  intros (Hr & Hb) Hf. rewrite Forall_forall in Hb. unfold udist_step.
  pose proof (@mapM_spec _ _ (up_local g P first sched) (local_ok first)
    (fun q => exists r, (r < un q)%nat /\ gnid (c_means (up_cl q)) (proc_off G P (up_rank q) + r) = None) qs
    (fun q Hq => @u_local_ok first sched q (proj1 (Hb q Hq)) (Hf q Hq))) as HL.
  destruct (mapM (up_local g P first sched) qs) as [ls|e]; cbn [Base.bind].
  2:{ destruct HL as (-> & q & Hq & r & Hr' & Hn). split; [reflexivity|]. exists (proc_off G P (up_rank q) + r)%nat.
      destruct (Hb q Hq) as (B & EM). rewrite EM in Hn. split; [|exact Hn]. pose proof (proc_bound HP (proj1 B)) as Hpb. unfold un in Hr'. lia. }
  set (A := cA ls).
  assert (Hr1 : uranks ls) by (unfold uranks; rewrite <- Hr; eapply Forall2_map_eq; [exact HL|]; intros a b (A0 & _ & _ & _ & R1 & _); exact R1).
  assert (Hids : forall q q' A0, local_ok first q q' -> s_asg (up_st q') = map Some A0 -> ids (up_st q') = A0) by (intros; apply ids_some; assumption).
  assert (Hll : forall q', In q' ls -> length (ids (up_st q')) = un q').
  { intros q' Hq'. destruct (@Forall2_in_r _ _ _ _ _ _ HL Hq') as (q & Hq & (A0 & L0 & _ & _ & R1 & _ & EA & _)). rewrite (@ids_some _ _ EA), L0. unfold un. rewrite R1. reflexivity. }
  pose proof (ulens (fun q => ids (up_st q)) Hr1 Hll) as Hlens.
  assert (LA : length A = G) by exact (@cc_len G P nat _ HP Hlens).
  assert (Hat : forall q' r, In q' ls -> (r < un q')%nat -> nth (proc_off G P (up_rank q') + r) A 0%nat = nth r (ids (up_st q')) 0%nat).
  { intros q' r Hq' Hr'. apply In_nth_error in Hq' as (rk & E). pose proof (urank_at rk Hr1 E) as Erk. rewrite Erk.
    apply (@cc_nth G P nat _ HP Hlens rk (ids (up_st q')) r 0%nat); [rewrite nth_error_map, E; reflexivity|]. rewrite Hll by (eapply nth_error_In; exact E). exact Hr'. }
  assert (HAk : Forall (fun a => (a < k)%nat) A).
  { unfold A, cA. apply Forall_cc. apply Forall_forall. intros l Hl. apply in_map_iff in Hl as (q' & <- & Hq').
    destruct (@Forall2_in_r _ _ _ _ _ _ HL Hq') as (q & Hq & (A0 & L0 & K0 & _ & R1 & _ & EA & _)). rewrite (@ids_some _ _ EA). exact K0. }
  assert (Hnear : forall x, (x < G)%nat -> gnid M x = Some (nth x A 0%nat)).
  { intros x Hx. destruct (@row_owner G P x HP Hx) as (rk & r & Hrk & Hr' & ->).
    assert (Lls : length ls = P) by (rewrite <- (seq_length P 0), <- Hr1, map_length; reflexivity).
    destruct (nth_error ls rk) as [q'|] eqn:E; [|apply nth_error_None in E; lia].
    pose proof (urank_at rk Hr1 E) as Erk. pose proof (nth_error_In _ _ E) as Hq'.
    destruct (@Forall2_in_r _ _ _ _ _ _ HL Hq') as (q & Hq & (A0 & L0 & K0 & N0 & R1 & _ & EA & _)).
    rewrite <- Erk. rewrite (Hat q' r Hq') by (unfold un; rewrite Erk; exact Hr'). rewrite (@ids_some _ _ EA).
    rewrite <- (proj2 (Hb q Hq)). rewrite R1. apply N0. unfold un. rewrite <- R1, Erk. exact Hr'. }
  set (drw := fun x => nth x A 0%nat).
  assert (Hcis : forall q', In q' ls -> cis k d (up_cl q') (rs_sum g data drw (prows G P (up_rank q'))) (rs_cnt drw (prows G P (up_rank q'))) (fun _ => false)).
  { intros q' Hq'. pose proof (fun r Hr' => Hat q' r Hq' Hr') as Hat'. pose proof (Hll q' Hq') as Ll'.
    destruct (@Forall2_in_r _ _ _ _ _ _ HL Hq') as (q & Hq & (A0 & L0 & K0 & N0 & R1 & _ & EA & _ & Hc & _)).
    rewrite (@ids_some _ _ EA) in Hat', Ll'. assert (Eun : un q = un q') by (unfold un; rewrite R1; reflexivity).
    eapply cis_ext; [exact Hc|..]; [| |auto].
    - intros j i Hj Hi. cbn beta. unfold rs_sum, prows. rewrite map_map. fold d. rewrite <- R1, Eun. change (proc_nrow G P (up_rank q')) with (un q').
      f_equal. apply map_ext_in. intros r Hin. apply in_seq in Hin. unfold drw. rewrite Hat' by lia. reflexivity.
    - intros j Hj. cbn beta. rewrite <- rs_cnt_count. rewrite Ll'. unfold rs_cnt, prows. rewrite map_map. change (proc_nrow G P (up_rank q')) with (un q').
      f_equal. apply map_ext_in. intros r Hin. apply in_seq in Hin. unfold drw. rewrite Hat' by lia. reflexivity. }
  assert (Hv : vecs k d (ureduce_means ls) (ureduce_members ls) (rs_sum g data drw (seq 0 G)) (rs_cnt drw (seq 0 G))).
  { pose proof (@red_cis (uproc NumR) k d (@up_cl NumR) (fun q => rs_sum g data drw (prows G P (up_rank q))) (fun q => rs_cnt drw (prows G P (up_rank q))) ls (uranks_nonempty Hr1)) as Hv.
    destruct Hv as (V1 & V2 & V3 & V4).
    { apply Forall_forall. intros q' Hq'. exists (fun _ => false). apply Hcis. exact Hq'. }
    split; [exact V1|]. split; [exact V2|]. split.
    - intros j i Hj Hi. etransitivity; [exact (V3 j i Hj Hi)|]. rewrite (uranks_map (fun rk => rs_sum g data drw (prows G P rk) j i) Hr1). apply rs_sum_all; auto.
    - intros j Hj. etransitivity; [exact (V4 j Hj)|]. rewrite (uranks_map (fun rk => rs_cnt drw (prows G P rk) j) Hr1). apply rs_cnt_all; auto. }
  pose proof Hv as (V1 & V2 & _).
  assert (Hcnt : forall j, rs_cnt drw (seq 0 G) j = Z.of_nat (count_eq j A)) by (intros j; unfold drw; rewrite <- LA at 1; apply rs_cnt_count).
  set (FF := finF (rs_sum g data drw (seq 0 G)) (rs_cnt drw (seq 0 G))).
  set (Q2 := fun q1 q2 : uproc NumR => up_rank q2 = up_rank q1 /\ up_ws q2 = up_ws q1 /\ ubody q2 /\ s_asg (up_st q2) = s_asg (up_st q1) /\ cis k d (up_cl q2) FF (rs_cnt drw (seq 0 G)) (fun _ => true)).
  destruct (@mapM_total _ _ (up_finish g (ureduce_means ls) (ureduce_members ls)) Q2 ls) as (qs2 & E2 & H2).
  { intros q' Hq'. destruct (Hcis q' Hq') as (Hs & Hc'). unfold up_finish.
    rewrite (@set_means_all k d _ _ Hs V1). cbn [Base.bind]. rewrite (@set_members_all k d _ _ (@shaped_with_means k d _ _ Hs V1) V2). cbn [Base.bind].
    pose proof (vecs_set Hs Hv (fun _ => false)) as Hc2. specialize (Hc2 (fun j Hj => proj1 (proj2 (Hc' j Hj)))).
    rewrite (members_sum_Z g Hc2). fold k.
    replace (zsum (map (rs_cnt drw (seq 0 G)) (seq 0 k))) with (Z.of_nat G) by (rewrite <- LA, <- (zsum_count HAk); f_equal; apply map_ext; intros j; symmetry; rewrite LA; apply Hcnt).
    rewrite (s32_small g) by lia. rewrite Z.eqb_refl. cbn [assert_ Base.bind].
    destruct (cis_fin_all Hc2) as (c3 & -> & Hc3). cbn [Base.bind]. eexists. split; [reflexivity|]. unfold Q2.
    destruct (@Forall2_in_r _ _ _ _ _ _ HL Hq') as (q & Hq & (A0 & L0 & K0 & N0 & R1 & _ & EA & B & _)).
    split; [reflexivity|]. split; [reflexivity|]. split; [|split; [reflexivity|exact Hc3]].
    destruct B as (B1 & B2 & (T1 & T2)). split; [exact B1|]. split; [exact B2|]. split; [exact (proj1 Hc3)|exact T2]. }
  rewrite E2. cbn [Base.bind].
  assert (Hr2 : uranks qs2) by (unfold uranks; rewrite <- Hr1; eapply Forall2_map_eq; [exact H2|]; intros a b Hab; apply Hab).
  assert (Hc2 : forall q2, In q2 qs2 -> cis k d (up_cl q2) FF (rs_cnt drw (seq 0 G)) (fun _ => true)).
  { intros q2 Hq2. destruct (@Forall2_in_r _ _ _ _ _ _ H2 Hq2) as (q1 & _ & Hab). apply Hab. }
  assert (Eas : uasg qs2 = map Some A).
  { unfold uasg, A, cA. rewrite concat_map, map_map. f_equal.
    transitivity (map (fun q : uproc NumR => s_asg (up_st q)) ls); [eapply Forall2_map_eq; [exact H2|]; intros a b Hab; apply Hab|].
    apply map_ext_in. intros q' Hq'. destruct (@Forall2_in_r _ _ _ _ _ _ HL Hq') as (q & Hq & (A0 & L0 & K0 & N0 & R1 & _ & EA & _)).
    rewrite (@ids_some _ _ EA). exact EA. }
  exists A. split.
  - split; [exact LA|]. split; [exact HAk|]. split; [exact Hnear|]. split; [exact Eas|]. split.
    + destruct qs2 as [|q0 qt]; [destruct (uranks_nonempty Hr2 eq_refl)|]. exists (up_cl q0).
      assert (Hall : forall q, In q (q0 :: qt) -> up_cl q = up_cl q0) by (intros q Hq; eapply cis_same; apply Hc2; [exact Hq|left; reflexivity]).
      split; [|split].
      * destruct (Hc2 q0 (or_introl eq_refl)) as (S0 & H0). split; [exact S0|]. intros j Hj. destruct (H0 j Hj) as (C1 & C2 & C3).
        split; [|split; [rewrite C1; apply Hcnt|exact C2]].
        apply (@fin_rs_mean g data A j (crow (up_cl q0) j) Hdata LA (cis_row (conj S0 H0) Hj)). exact C3.
      * split; [exact Hr2|]. apply Forall_forall. intros q Hq. split; [|rewrite (Hall q Hq); reflexivity].
        destruct (@Forall2_in_r _ _ _ _ _ _ H2 Hq) as (q1 & _ & Hab). apply Hab.
      * apply Forall_forall. exact Hall.
    + eapply Forall2_imp; [|exact (Forall2_trans HL H2)]. cbn beta. intros a c (b & (A0 & _ & _ & _ & R1 & W1 & _) & (R2 & W2 & _)). split; congruence.
  - unfold asg_before, A, cA. set (o := fun q : uproc NumR => if first then map (fun _ => None) (s_asg (up_st q)) else s_asg (up_st q)).
    assert (Ho : (if first then repeat None G else uasg qs) = concat (map o qs)).
    { unfold o. destruct first; [|reflexivity].
      assert (Lq : map (@length (option nat)) (map (fun q : uproc NumR => s_asg (up_st q)) qs) = map (proc_nrow G P) (seq 0 P)).
      { apply ulens; [exact Hr|]. intros q Hq. destruct (Hb q Hq) as ((_ & _ & T1 & T2 & T3 & _) & _). exact T3. }
      rewrite <- (@cc_len G P _ _ HP Lq). clear. induction qs as [|q l IH]; [reflexivity|]. cbn [map concat]. rewrite app_length, repeat_app, IH. f_equal.
      generalize (s_asg (up_st q)). intros l0. induction l0 as [|x l0 IH0]; [reflexivity|]. cbn. rewrite IH0. reflexivity. }
    rewrite Ho. rewrite odiff_cat.
    + clear - HL. induction HL as [|q q' l l' H HL IH]; [reflexivity|]. cbn [map map2]. change (list_sum (?a :: ?t)) with (a + list_sum t)%nat. rewrite IH. f_equal.
      destruct H as (A0 & _ & _ & _ & _ & _ & EA & _ & _ & Hc). rewrite (@ids_some _ _ EA). exact Hc.
    + rewrite Hlens. apply ulens; [exact Hr|]. intros q Hq. destruct (Hb q Hq) as ((_ & _ & T1 & T2 & T3 & _) & _). unfold o. destruct first; [rewrite map_length|]; exact T3.
Qed.
End U.
