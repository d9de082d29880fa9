(** X-means goes through the same states whatever the number of threads and the way
    the data is loaded, where sums do not depend on their grouping ([Hw]). *)
From Coq Require Import Permutation.
From Verif Require Import Base Num DistModel DistProofs ClustersModel ClustersView ClustersProofs MatLemmas
  PartitionModel PartitionProofs ParModel KmeansModel ParProofs NearProofs KmeansProofs UpdateProofs RunProofs InitProofs SimProofs Spec ParRule ParSim Okab.
From Verif Require Import ContainersModel PropertiesIds HclustModel HclustProofs HclustUpdate HclustIter HclustSplit HclustRun HclustDone HclustVerify
  XmeansModel XmeansProofs XmeansDecide XmeansRound XmeansRun.
From Verif Require Import ParFree PropertiesHclust HclustThreads.
Set Implicit Arguments.
Unset Strict Implicit.

Lemma loop_rel {A B} (P : nat -> A -> B -> Prop) f f' n (s : A) (s' : B) t : P 0 s s' ->
  (forall i a a' b, i < n -> P i a a' -> f i a = Ok b -> exists b', f' i a' = Ok b' /\ P (S i) b b') ->
  loop n f s = Ok t -> exists t', loop n f' s' = Ok t' /\ P n t t'.
Proof.
  intros H0 Hs. revert t. induction n as [|n IH]; intros t E.
  - injection E as <-. exists s'. split; [reflexivity|exact H0].
  - rewrite loop_S in E. apply bind_ok in E as (a & Ea & Eb). destruct (IH ltac:(intros; eapply Hs; eauto) a Ea) as (a' & Ea' & Pa).
    destruct (Hs n a a' t ltac:(lia) Pa Eb) as (t' & Et & Pt). exists t'. split; [|exact Pt]. rewrite loop_S, Ea'. exact Et.
Qed.

Section Threads.
Variable N : Num.
Notation T := (car N).
Notation clusters := (clusters N).
Variable nlog : T -> T.
Variable two_pi : T.
Variables (g : hcfg N) (nt : Z) (kind : load_kind) (data : list T).
Let g' := h_threads g nt kind.
Let n := g_nrow g.
Let d := g_ncol g.
Hypothesis V : valid_input g data.
Hypothesis V' : valid_input g' data.
Variables (ws ws' : list (worker N)).
Hypothesis W : wok n d data ws.
Hypothesis W' : wok n d data ws'.
Hypothesis Hw : forall A j m, length A = n -> length m = d -> wsum g ws data A j m = wsum g ws' data A j m.
Let F := hclust_floor (g_k g).
Let M := 4 * F - 1.
Let K := 2 * F - 1.
Hypothesis Hk2 : 2 <= g_k g.
Hypothesis Hk30 : (Z.of_nat (g_k g) < 2 ^ 30)%Z.
Hypothesis Hmin : 2 <= h_min g.
Hypothesis Hit : 1 <= g_max_iters g.

Lemma Hu : forall A j, length A = n -> ucel g ws data A j = ucel g ws' data A j.
Proof.
  intros A j LA. rewrite <- !pcel_one. unfold pcel. cbn [fold_left add_round unfin1]. fold d.
  rewrite Hw; [reflexivity|exact LA|apply repeat_length].
Qed.

Lemma add_round_threads j c i A : length A = n -> shaped K d c -> i < K ->
  add_round g ws data j (cel c i) A = add_round g' ws' data j (cel c i) A.
Proof.
  intros LA Sh Hi. assert (Lr : length (crow c i) = d).
  { destruct Sh as (H1 & H2 & H3 & H4 & H5). unfold crow. rewrite H2. apply (@row_length _ _ _ _ K); [congruence|exact Hi]. }
  unfold add_round, cel. destruct (unfin1 N (crow c i, cnum c i, cdone c i)) as ((m, z), b) eqn:Eu.
  change (wsum g' ws' data A j m) with (wsum g ws' data A j m). rewrite Hw; [reflexivity|exact LA|].
  unfold unfin1 in Eu. destruct (cdone c i); [|injection Eu as <- _ _; exact Lr].
  destruct (cnum c i <? 2)%Z; injection Eu as <- _ _; rewrite ?map_length; exact Lr.
Qed.

(** the same state with other per-thread containers *)
Definition with_loc (s : xst N) (l : list clusters) : xst N := mkX (xh s) (x_pd s) (x_cd s) (x_cl s) l.

Lemma xst_same (s s' : xst N) : xh s' = xh s -> x_pd s' = x_pd s -> x_cd s' = x_cd s -> x_cl s' = x_cl s ->
  s' = with_loc s (x_loc s').
Proof. destruct s, s'. unfold with_loc. simpl. congruence. Qed.

Definition locs_ok (l : list clusters) : Prop := length l = length ws' /\ Forall (shaped K d) l.

Lemma half_round_threads e lv s l scheds scheds' : rinv g ws data M (FPx g ws data lv) e (xh s) -> xpre g ws data lv s ->
  locs_ok l -> (forall j, complete (w_ranges ws) (scheds j)) -> (forall j, complete (w_ranges ws') (scheds' j)) ->
  forall s2, (let* s1 := x_mean g ws (scheds 0) s in
     loop (g_max_iters g) (fun i s => x_iter g ws (scheds (S i)) (i =? 0) s) s1) = Ok s2 ->
  exists l2, (let* s1 := x_mean g' ws' (scheds' 0) (with_loc s l) in
     loop (g_max_iters g') (fun i s => x_iter g' ws' (scheds' (S i)) (i =? 0) s) s1) = Ok (with_loc s2 l2) /\ locs_ok l2.
Proof.
  intros R P (Ll & Hl) C C' s2 E. pose proof (e_asg (r_e R)) as La. fold n in La.
  assert (Hmp : mean_pre g K (xh s)).
  { unfold mean_pre. fold n. splits; auto.
    - rewrite (p_eq P). exact La.
    - intros r Hr. rewrite (e_act (r_e R)). apply (e_rows (r_e R) Hr).
    - intros r Hr _. split; [rewrite (p_eq P); reflexivity|]. apply (part_lt R P Hr). }
  destruct (@x_mean_ok N g ws data V W K s (scheds 0) Hmp (p_loc P) (p_locs P) (p_cl P) (C 0))
    as (s1 & E1 & Eh & Epd & Ecd & _ & _ & Hcl & Hcel).
  destruct (@x_mean_ok N g' ws' data V' W' K (with_loc s l) (scheds' 0) Hmp Ll Hl (p_cl P) (C' 0))
    as (s1' & E1' & Eh' & Epd' & Ecd' & Lloc' & Hloc' & Hcl' & Hcel').
  rewrite E1 in E. cbn [Base.bind] in E. rewrite E1'. cbn [Base.bind].
  cbn [with_loc xh x_pd x_cd x_cl] in Eh', Epd', Ecd', Hcel'.
  assert (Ecl : x_cl s1' = x_cl s1).
  { apply (@clusters_ext N K d); auto. intros i Hi. rewrite Hcel, Hcel' by exact Hi. symmetry. apply add_round_threads; auto.
    - rewrite live_asg_length. exact La.
    - apply (p_cl P). }
  destruct (@loop_rel (xst N) (xst N) (fun j a a' => rinv g ws data M (FPx g ws data lv) e (xh a) /\ x_part (xh a) = x_part (xh s) /\
      length (x_pd a) = n /\ length (x_cd a) = n /\ x_cl a = x_cl s1 /\ exists l, a' = with_loc a l /\ locs_ok l)
    (fun i s => x_iter g ws (scheds (S i)) (i =? 0) s) (fun i s => x_iter g' ws' (scheds' (S i)) (i =? 0) s) (g_max_iters g) s1 s1' s2) as (s2' & E2 & Q); auto.
  - rewrite Eh, Epd, Ecd. splits; auto; try apply (p_pd P); try apply (p_cd P). exists (x_loc s1'). split; [|split; auto].
    apply xst_same; congruence.
  - intros j a a' b Hj (R2 & A2 & A8 & A9 & A10 & l2 & -> & Hl2) Eb.
    assert (Hp : (j =? 0) = true -> forall r, r < n -> nth r (x_part (xh a)) 0 < K) by (intros _ r Hr; rewrite A2; apply (part_lt R P Hr)).
    assert (Hcl2 : shaped K d (x_cl a)) by (rewrite A10; exact Hcl).
    pose proof (@x_iter_ok N g ws data V W K M a (scheds (S j)) (j =? 0) (r_e R2) A8 A9 Hcl2 Hp (C (S j))) as HX.
    assert (R2' : einv g' ws' data M (xh a)) by (apply (einv_threads _ _ Hu); apply (r_e R2)).
    pose proof (@x_iter_ok N g' ws' data V' W' K M (with_loc a l2) (scheds' (S j)) (j =? 0) R2' A8 A9 Hcl2 Hp (C' (S j))) as HX'.
    pose proof (@iter_rinv N g ws data V W (FPx g ws data lv) (FPx_s W (lv := lv)) e (xh a) (scheds (S j)) R2 (C (S j))) as HI.
    change (xh (with_loc a l2)) with (xh a) in HX'.
    pose proof (@h_iter_threads N g nt kind data V ws ws' W W' Hu M (xh a) (scheds (S j)) (scheds' (S j)) (r_e R2) (C (S j)) (C' (S j))) as ETh. fold g' in ETh. rewrite <- ETh in HX'.
    destruct (h_iter g ws (scheds (S j)) (xh a)) as [h3|er]; [|congruence].
    destruct HX as (b2 & Eb2 & B1 & B2 & B3 & B4 & B5 & B6 & B7). rewrite Eb in Eb2. injection Eb2 as <-.
    destruct HX' as (b' & Eb' & B1' & B2' & B3' & B4' & B5' & B6' & B7').
    cbn [okab] in HI. destruct HI as (R3 & Rd3 & St3 & D1 & D2 & D3 & _).
    exists b'. split; [exact Eb'|]. rewrite <- B1 in *. splits; auto; try congruence.
    exists l2. split; [|exact Hl2]. cbn [with_loc x_loc x_cl] in *. rewrite <- B3'. apply xst_same; try congruence.
    + apply nth_ext with (d := nzero N) (d' := nzero N); [exact (eq_trans B4' (eq_sym B4))|].
      intros r Hr. assert (Hr' : r < n) by (exact (eq_ind _ (fun x => r < x) Hr _ B4')). rewrite B6, B6' by exact Hr'. reflexivity.
    + apply nth_ext with (d := nzero N) (d' := nzero N); [exact (eq_trans B5' (eq_sym B5))|].
      intros r Hr. assert (Hr' : r < n) by (exact (eq_ind _ (fun x => r < x) Hr _ B5')). rewrite B7, B7' by exact Hr'. reflexivity.
  - destruct Q as (_ & _ & _ & _ & _ & l2 & -> & Hl2). exists l2. split; [exact E2|exact Hl2].
Qed.

Lemma decision_loc ord s l :
  partition_decision nlog two_pi g' ord (with_loc s l) =
  let* s3 := partition_decision nlog two_pi g ord s in Ok (with_loc s3 l).
Proof.
  unfold partition_decision. change (bic_scores nlog two_pi g' (with_loc s l)) with (bic_scores nlog two_pi g s).
  cbn [with_loc xh x_pd x_cd x_cl x_loc].
  destruct (bic_scores nlog two_pi g s) as [scs|]; cbn [Base.bind]; [|reflexivity].
  change (decide g' (x_cl s) (x_asg (xh s))) with (decide g (x_cl s) (x_asg (xh s))).
  destruct (for_each (ord scs) _ (xh s)) as [h|]; cbn [Base.bind]; [|reflexivity].
  destruct (for_each scs _ h) as [h2|]; cbn [Base.bind]; reflexivity.
Qed.

Lemma x_loop_threads scheds scheds' ords : (forall i j, complete (w_ranges ws) (scheds i j)) -> (forall i j, complete (w_ranges ws') (scheds' i j)) ->
  (forall i l, Permutation (ords i l) l) ->
  forall fuel round e s tr l tr',
  rinv g ws data M (FPx g ws data (map (@rr_live N) tr)) e (xh s) -> xpre g ws data (map (@rr_live N) tr) s ->
  1 <= length (hm_keys (x_hcl (xh s))) -> 2 * leaves2 (xh s) <= 3 * F + 3 ->
  ((x_curr (xh s) <= Z.of_nat F)%Z -> (id_max (x_ider (xh s)) + 1 <= Z.of_nat K)%Z) ->
  locs_ok l ->
  forall st, x_loop nlog two_pi g ws data scheds ords fuel round s tr = Ok st ->
  exists st', x_loop nlog two_pi g' ws' data scheds' ords fuel round (with_loc s l) tr' = Ok st' /\ xh (fst st') = xh (fst st).
Proof.
  intros Hsch Hsch' Hord. destruct (floor_facts Hk2 Hk30) as (F2 & Fk & F29 & Fcap). fold F in F2, Fk, F29, Fcap.
  pose proof (floor_cases Hk2) as F8. fold F in F8.
  induction fuel as [|fuel IH]; intros round e s tr l tr' R P HL Hlv Hid Hl st E; [discriminate|]. cbn [x_loop] in *.
  set (lv := map (@rr_live N) tr) in *. set (A := live_asg K (xh s)).
  assert (EA : live_asg (c_nclust (x_cl s)) (xh s) = A) by (rewrite (proj1 (p_cl P)); reflexivity). rewrite EA in E.
  pose proof (@half_round N nlog two_pi g ws data V W Hk2 Hmin Hit e lv s (scheds round) R P (Hsch round)) as HH. fold F in HH. fold M K in HH. fold A in HH.
  pose proof (@half_round_threads e lv s l (scheds round) (scheds' round) R P Hl (Hsch round) (Hsch' round)) as HT.
  destruct (x_mean g ws (scheds round 0) s) as [s1|er] eqn:E1; cbn [Base.bind] in HH, HT, E |- *; [|discriminate].
  destruct (loop (g_max_iters g) (fun i s => x_iter g ws (scheds round (S i)) (i =? 0) s) s1) as [s2|er] eqn:E2; cbn [Base.bind okab] in HH, E |- *; [|discriminate].
  destruct HH as (R2 & Rd2 & St2 & Q).
  destruct (HT s2 eq_refl) as (l2 & ET & Hl2). apply bind_ok in ET as (s1' & ET1 & ET2). rewrite ET1. cbn [Base.bind].
  rewrite ET2. cbn [Base.bind]. rewrite decision_loc. clear E1 E2 ET1 ET2 HT s1 s1'.
  assert (LA : length A = n) by (unfold A; rewrite live_asg_length; apply (e_asg (r_e R))).
  assert (HkK : forall p, In p (hm_keys (x_hcl (xh s2))) -> p < K).
  { intros p Hp. apply (p_lt P). rewrite in_app_iff. left. apply (q_keys Q). exact Hp. }
  assert (R2' : rinv g ws data M (FPx g ws data (lv ++ [A])) e (xh s2)) by (apply (rinv_mono (FP := FPx g ws data lv)); [intros asg i v; apply FPx_mono|exact R2]).
  destruct (@decision_ok N nlog two_pi g ws data M (FPx g ws data (lv ++ [A])) W (FPx_s W (lv := lv ++ [A])) e s2 K (ords round) R2' Rd2 St2 (q_pd Q) (q_cd Q) (q_cl Q) HkK)
    as (h3 & E3 & R3 & Rd3 & St3 & D1 & D2 & D3 & D4 & D5 & D6 & D7).
  { intros p asg' Hp L' Hr'. right. exists lv, A, []. splits; auto.
    - intros r Hr. rewrite Hr' by exact Hr. symmetry. apply (q_live Q Hp Hr).
    - pose proof (q_cel Q (HkK p Hp)) as X. unfold cel in X. rewrite <- X. reflexivity. }
  { apply Hord. }
  rewrite E3 in *. cbn [Base.bind] in *. set (D := rejects nlog two_pi g s2) in *.
  set (rr := mkRR A s2 (with_h s2 h3)) in *.
  assert (Elv : map (@rr_live N) (tr ++ [rr]) = lv ++ [A]) by (rewrite map_app; reflexivity).
  change (xh (with_loc (with_h s2 h3) l2)) with h3.
  change (xh (with_h s2 h3)) with h3 in *. change (at_cluster_cap g') with (at_cluster_cap g).
  rewrite (@cap_eq N g F F2 F29 Fcap) in *.
  assert (D5' : length (x_final h3) = length (x_final (xh s2)) + length D).
  { destruct D5 as (D' & HP & ->). rewrite app_length, map_length, (Permutation_length HP). reflexivity. }
  assert (Hfk : length (x_final h3) + length (hm_keys (x_hcl h3)) = q_of (xh s)) by (unfold q_of; rewrite D5', (q_final Q), <- (q_nkeys Q); lia).
  assert (Hl3 : 1 <= leaves2 h3 /\ 2 * leaves2 h3 <= 3 * F + 3).
  { unfold leaves2, q_of in *. rewrite <- (q_final Q), <- (q_nkeys Q) in *. lia. }
  destruct (Z.ltb_spec (Z.of_nat F) (x_curr h3)) as [Hc|Hc].
  { injection E as <-. eexists. split; [reflexivity|]. reflexivity. }
  apply bind_ok in E as (h4 & E4 & E). pose proof (@init_splits_threads N g nt kind data V V' ws ws' Hu h3 h4 E4) as E4'. fold g' in E4'. rewrite E4'. cbn [Base.bind].
  destruct (hm_keyless (x_hcl h4)) eqn:Ekl.
  { apply bind_ok in E as (u & Eu & E). injection E as <-. rewrite Eu. cbn [Base.bind]. eexists. split; reflexivity. }
  destruct (Nat.eq_dec (length (hm_keys (x_hcl h3))) 0) as [Hz|Hz].
  { apply length_zero_iff_nil in Hz. rewrite (keyless_splits g data Hz) in E4. injection E4 as <-.
    assert (Hkl : hm_keyless (x_hcl (with_part h3 (x_asg h3))) = true) by (sx; apply nil_keyless; exact Hz). congruence. }
  destruct (r_num R3) as (a0 & Ha & Ha2). pose proof (all_length h3) as La.
  assert (Hrw : 1 <= rw h3 <= 3) by (unfold rw; repeat destruct in_dec; lia).
  pose proof (@init_splits_ok N g ws data V F M eq_refl F2 F29 Fcap Hmin (FPx g ws data (lv ++ [A])) (@FPx_u N g ws data (lv ++ [A])) _ h3 R3 Rd3 St3 Hc ltac:(lia)) as HS.
  rewrite E4 in HS. cbn [okp] in HS. destruct HS as (R4 & B1 & B2 & B3 & B4 & B5 & B6 & B7 & B8).
  assert (Hl4 : 1 <= leaves2 h4 /\ 2 * leaves2 h4 <= 3 * F + 3) by (unfold leaves2 in *; lia).
  assert (Hmax : (id_max (x_ider h3) + 1 <= Z.of_nat K)%Z).
  { rewrite D3, (q_ider Q). apply Hid. rewrite <- (q_curr Q), <- D2. exact Hc. }
  pose proof (keyless_keys Ekl) as Hk4.
  change (with_h (with_loc (with_h s2 h3) l2) h4) with (with_loc (with_h (with_h s2 h3) h4) l2).
  apply IH with (e := e + 2 * length D) (tr := tr ++ [rr]); auto.
  - rewrite Elv. exact R4.
  - rewrite Elv. constructor; cbn [with_h xh x_pd x_cd x_cl x_loc].
    + congruence.
    + intros i Hi. apply (Permutation_in _ (Permutation_sym B7)) in Hi. apply (inv_lt (r_ids R3) Hmax). unfold all_ids. rewrite in_app_iff. auto.
    + apply (q_pd Q).
    + apply (q_cd Q).
    + apply (q_cl Q).
    + apply (q_cel Q).
    + apply (q_loc Q).
    + apply (q_locs Q).
  - apply Hl4.
  - cbn [with_h xh]. intros Hc4. destruct (r_num R4) as (a4 & Ha4 & Hb4). pose proof (all_length h4) as La4.
    assert (Hw4 : 1 <= rw h4 <= 3) by (unfold rw; repeat destruct in_dec; lia).
    unfold K in *. lia.
Qed.
End Threads.

Section Whole.
Variable N : Num.
Notation T := (car N).
Variable nlog : T -> T.
Variable two_pi : T.

Lemma x_run_threads (g : hcfg N) nt kind data ws ws' bind centers it dr scheds scheds' ords fuel h tr :
  let g' := h_threads g nt kind in
  h_valid g data it centers dr -> valid_input g' data ->
  build_workers g data = Ok ws -> build_workers g' data = Ok ws' ->
  (forall A j m, length A = g_nrow g -> length m = g_ncol g -> wsum g ws data A j m = wsum g ws' data A j m) ->
  h_fair g data scheds -> h_fair g' data scheds' -> x_orders ords ->
  x_run nlog two_pi g bind centers it data dr scheds ords fuel = Ok (h, tr) ->
  exists tr', x_run nlog two_pi g' bind centers it data dr scheds' ords fuel = Ok (h, tr').
Proof.
  intros g' Hv V' Ew Ew' Hw Hf Hf' Hord E. pose proof Hv as (V & K2 & K30 & Hm & Hi & Hini). pose proof V as (V1 & V2 & V3 & V4).
  assert (Wk : wok (g_nrow g) (g_ncol g) data ws /\ length ws = Z.to_nat (eff_threads (g_nthreads g) (Z.of_nat (g_nrow g)))).
  { destruct (@build_workers_ok N g data V1 V2 V3 V4) as (w & E1 & Hws & Lws & _). rewrite Ew in E1. injection E1 as <-. auto. }
  assert (Wk' : wok (g_nrow g) (g_ncol g) data ws' /\ length ws' = Z.to_nat (eff_threads (g_nthreads g') (Z.of_nat (g_nrow g)))).
  { pose proof V' as (U1 & U2 & U3 & U4). destruct (@build_workers_ok N g' data U1 U2 U3 U4) as (w & E1 & Hws & Lws & _). rewrite Ew' in E1. injection E1 as <-. auto. }
  destruct Wk as (W & Lws). destruct Wk' as (W' & Lws').
  destruct (@create_init_ok N g data V K2 K30 it centers dr Hini) as (s0 & s1 & c & E0 & E1 & Sh & _ & Es).
  destruct (floor_facts K2 K30) as (F2 & _ & F29 & Fc).
  set (F := hclust_floor (g_k g)) in *. set (K := 2 * F - 1).
  pose proof (@start_ok N g ws data K2 K30 (FPx g ws data []) c Sh) as R. cbn zeta in R. fold F in R. rewrite <- Es in R.
  assert (Hkeys : Permutation (hm_keys (x_hcl s1)) [0] /\ x_final s1 = []).
  { rewrite Es. split; [|reflexivity]. cbn [x_hcl].
    assert (Hg : forall p x, hget (hm_put (repeat None (4 * F - 1)) 0 (mkH c 1 2 false)) p = Some x <-> In (p, x) [(0, mkH c 1 2 false)]).
    { intros p x. rewrite hget_put. cbn [In]. destruct (Nat.eqb_spec p 0) as [->|].
      - split; [intros [= <-]; auto|intros [X|[]]; injection X as <-; auto].
      - split; [|intros [X|[]]; congruence]. unfold hget. destruct (nth_error _ p) as [y|] eqn:E2; [|discriminate].
        apply nth_error_In, repeat_spec in E2. subst y. discriminate. }
    exact (proj1 (@keys_perm_list N _ [(0, mkH c 1 2 false)] ltac:(repeat constructor; cbn; tauto) Hg)). }
  destruct Hkeys as (Pk & Hf0). pose proof (Permutation_length Pk) as Hk1. cbn [length] in Hk1.
  pose proof (max_hnodes_half K2 K30) as Hmx. fold F in Hmx. fold K in Hmx. 
  set (C := clusters_create N K (g_ncol g)).
  set (nthr := Z.to_nat (eff_threads (g_nthreads g) (Z.of_nat (g_nrow g)))) in *.
  set (nthr' := Z.to_nat (eff_threads (g_nthreads g') (Z.of_nat (g_nrow g)))) in *.
  set (X0 := mkX s0 (repeat (nzero N) (g_nrow g)) (repeat (nzero N) (g_nrow g)) (clear C) (repeat C nthr)).
  assert (Ex : x_create g centers nthr = Ok X0).
  { unfold x_create. rewrite E0. cbn [Base.bind]. unfold h_k. fold F. rewrite Hmx. cbn [Base.bind]. rewrite Nat2Z.id. reflexivity. }
  assert (Ex' : x_create g' centers nthr' = Ok (with_loc X0 (repeat C nthr'))).
  { change (x_create g' centers nthr') with (x_create g centers nthr'). unfold x_create. rewrite E0. cbn [Base.bind]. unfold h_k. fold F. rewrite Hmx. cbn [Base.bind]. rewrite Nat2Z.id. reflexivity. }
  unfold x_run in E |- *. fold nthr in E. change (Z.to_nat (eff_threads (g_nthreads g') (Z.of_nat (g_nrow g')))) with nthr'.
  rewrite Ex in E. rewrite Ex'. cbn [Base.bind] in E |- *. rewrite Ew in E. rewrite Ew'. cbn [Base.bind] in E |- *.
  change (xh (with_loc X0 (repeat C nthr'))) with s0. change (xh X0) with s0 in E.
  assert (E1' : run_hinit g' it data dr s0 = Ok s1).
  { rewrite <- E1. symmetry. apply (@run_hinit_threads N g nt kind data V V' ws ws' (Hu Hw) it centers dr s0 Hini E0 K2 K30). }
  rewrite E1 in E. rewrite E1'. cbn [Base.bind] in E |- *. clear E1 E1'.
  apply bind_ok in E as (st & Est & E).
  destruct (@x_loop_threads N nlog two_pi g nt kind data V V' ws ws' W W' Hw K2 K30 Hm Hi scheds scheds' ords (Hf ws Ew) (Hf' ws' Ew') Hord
    fuel 0 0 (with_h X0 s1) [] (repeat C nthr') []) with (st := st) as (st' & Est' & Eq); cbn [with_h xh map]; auto.
  - assert (Ecl : clear C = C) by (apply clear_create, shaped_create). constructor; cbn [with_h X0 xh x_pd x_cd x_cl x_loc]; rewrite ?Ecl.
      + rewrite Es. reflexivity.
      + intros i Hin. apply in_app_iff in Hin as [Hin|Hin].
        * apply (Permutation_in _ Pk) in Hin. cbn in Hin. fold F. lia.
        * unfold finkeys in Hin. rewrite Hf0 in Hin. destruct Hin.
      + apply repeat_length.
      + apply repeat_length.
      + apply shaped_create.
      + intros j Hj. apply cel_create. exact Hj.
      + rewrite repeat_length. congruence.
      + apply Forall_forall. intros x Hx. apply repeat_spec in Hx. subst x. apply shaped_create.
  - lia.
  - unfold leaves2. rewrite Hf0, Hk1. cbn [length]. fold F. lia.
  - intros _. rewrite Es. cbn [x_ider id_max]. fold F. lia.
  - split; [rewrite repeat_length; symmetry; exact Lws'|]. apply Forall_forall. intros x Hx. apply repeat_spec in Hx. subst x. apply shaped_create.
  - change (with_h (with_loc X0 (repeat C nthr')) s1) with (with_loc (with_h X0 s1) (repeat C nthr')).
    fold g' in Est'. rewrite Est'. cbn [Base.bind]. rewrite Eq. change (complete_final g') with (complete_final g). change (verify_consistency g') with (verify_consistency g).
    apply bind_ok in E as (h2 & E2 & E). rewrite E2. cbn [Base.bind]. apply bind_ok in E as (u & E3 & E). injection E as <- <-.
    rewrite E3. cbn [Base.bind]. eexists. reflexivity.
Qed.
End Whole.
