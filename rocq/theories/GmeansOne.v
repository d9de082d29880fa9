(** C102: runs in which every child is too small to be split again return after one
    round. *)
From Coq Require Import Permutation.
From Verif Require Import Base Num MatrixModel PropertiesMatrix DistModel DistProofs ClustersModel ClustersView ClustersProofs MatLemmas
  PartitionModel PartitionProofs ParModel KmeansModel ParProofs NearProofs KmeansProofs UpdateProofs RunProofs InitProofs Spec ParRule ParSim.
From Verif Require Import ContainersModel MatrixModel PropertiesIds HclustModel HclustProofs HclustUpdate HclustIter HclustSplit HclustRun Okab HclustDone HclustVerify
  XmeansModel XmeansProofs XmeansDecide XmeansRound XmeansRun PropertiesXmeans GmeansModel GmeansSplit GmeansSteps GmeansDecide GmeansRun PropertiesGmeans GmeansFirst PropertiesGmeansR.
Set Implicit Arguments.
Unset Strict Implicit.

Section Small.
Variable N : Num.
Notation T := (car N).
Notation z := (nzero N).
Variables (g : hcfg N) (data : list T).

(** small children are never split *)
Lemma retire_small h j id (s s' : hst N) b : (nth id (x_counts s) 0 < Z.of_nat (h_min g))%Z -> retire g h j id s = Ok (s', b) ->
  b = true /\ x_hcl s' = x_hcl s /\ x_counts s' = x_counts s.
Proof.
  intros H E. unfold retire in E. apply bind_ok in E as (m & Em & E). rewrite (@aget_nth _ (x_counts s) id 0%Z) in Em by (apply aget_ok in Em; apply nth_error_Some; congruence).
  injection Em as <-. destruct (Z.ltb_spec (nth id (x_counts s) 0%Z) (Z.of_nat (h_min g))) as [_|X]; [|lia]. cbn [orb] in E.
  apply bind_ok in E as (s1 & E1 & E). injection E as <- <-. unfold deactivate in E1. apply bind_ok in E1 as (a & _ & E1). injection E1 as <-. auto.
Qed.

Lemma scan_all act asg zid oid n c : loop n (scan_row act asg zid oid) (mkScan cp_none true true true true false) = Ok c -> sc_cp c = cp_none.
Proof.
  intros E. apply (@loop_inv_ok _ (fun _ c => sc_cp c = cp_none /\ sc_l0 c = true /\ sc_l1 c = true /\ sc_r0 c = true /\ sc_r1 c = true) _ _ _ _ E); [auto|].
  intros i a b _ (H1 & H2 & H3 & H4 & H5) H. unfold scan_row in H. rewrite H2, H3, H4, H5 in H. cbn [andb] in H.
  destruct (sc_done a); injection H as <-; cbn; auto.
Qed.

Lemma init_part_small id (s s' : hst N) cache cache' : (forall i, (nth i (x_counts s) 0 < Z.of_nat (h_min g))%Z) ->
  init_part g data id (s, cache) = Ok (s', cache') -> x_hcl s' = x_hcl s /\ x_counts s' = x_counts s /\ cache' = cache ++ [id].
Proof.
  intros H E. unfold init_part in E. apply bind_ok in E as (h & _ & E). apply bind_ok in E as ((s1 & b1) & E1 & E).
  destruct (@retire_small _ _ _ _ _ _ (H _) E1) as (-> & A1 & A2). apply bind_ok in E as ((s2 & b2) & E2 & E).
  assert (H1 : (nth (h_one h) (x_counts s1) 0 < Z.of_nat (h_min g))%Z) by (rewrite A2; apply H).
  destruct (@retire_small _ _ _ _ _ _ H1 E2) as (-> & B1 & B2).
  apply bind_ok in E as (m & _ & E). apply bind_ok in E as (u & _ & E). apply bind_ok in E as (c & Ec & E).
  apply scan_all in Ec. rewrite Ec in E. cbn [spawn spawn1 cp_none l0 l1 r0 r1 Base.bind] in E. injection E as <- <-. splits; congruence.
Qed.

Lemma init_splits_small (s s' : hst N) : (forall i, (nth i (x_counts s) 0 < Z.of_nat (h_min g))%Z) -> init_splits g data s = Ok s' ->
  hm_keyless (x_hcl s') = true.
Proof.
  intros H E. unfold init_splits in E. apply bind_ok in E as ((s1 & cache) & E1 & E). cbn [fst snd] in E. apply bind_ok in E as (s2 & E2 & E). injection E as <-.
  assert (Q : x_hcl s1 = x_hcl s /\ cache = hm_keys (x_hcl s)).
  { assert (G : forall l a k b k', x_counts a = x_counts s -> for_each l (init_part g data) (a, k) = Ok (b, k') -> x_hcl b = x_hcl a /\ k' = k ++ l).
    { induction l as [|p l IH]; intros a k b k' Ha X; cbn [for_each] in X; [injection X as <- <-; rewrite app_nil_r; auto|].
      apply bind_ok in X as ((a1 & k1) & X1 & X). destruct (@init_part_small p a a1 k k1) as (Y1 & Y2 & ->); [rewrite Ha; exact H|exact X1|].
      destruct (IH a1 _ b k' ltac:(congruence) X) as (Z1 & ->). rewrite <- app_assoc. split; [congruence|reflexivity]. }
    destruct (G _ _ _ _ _ eq_refl E1) as (Y & ->). auto. }
  destruct Q as (Q1 & ->). apply nil_keyless. cbn [with_part x_hcl].
  assert (G : forall l (a b : hst N), (forall p, In p (hm_keys (x_hcl a)) -> In p l) ->
     for_each l (fun id s => let* m := hm_erase (x_hcl s) id in let* s := deactivate (with_hcl s m) id in
       Ok (with_curr (with_ider s (id_reclaim (x_ider s) (Z.of_nat id))) (w64 (x_curr s - 1)))) a = Ok b -> hm_keys (x_hcl b) = []).
  { induction l as [|p l IH]; intros a b Ha X; cbn [for_each] in X.
    - injection X as <-. destruct (hm_keys (x_hcl a)) as [|q t]; auto. destruct (Ha q (or_introl eq_refl)).
    - apply bind_ok in X as (a1 & X1 & X). apply (IH a1 b); [|exact X]. apply bind_ok in X1 as (m & Em & X1). apply bind_ok in X1 as (a2 & X2 & X1). injection X1 as <-.
      unfold deactivate in X2. apply bind_ok in X2 as (ac & _ & X2). injection X2 as <-. cbn. intros q Hq.
      unfold hm_erase in Em. apply aset_inv in Em as (Lp & ->). apply keys_in in Hq as (h & Hh). unfold hget in Hh.
      rewrite nth_error_upd in Hh. destruct (Nat.eqb_spec q p) as [->|Hne]; [destruct (p <? _); discriminate|].
      destruct (Ha q) as [X'|X']; [apply keys_in; exists h; exact Hh|congruence|exact X']. }
  eapply G; [|exact E2]. rewrite Q1. auto.
Qed.

(** one group of rows *)
Lemma assemble_one n (cd : list T) : 1 <= n -> length cd = n -> g_assemble (repeat 0 n) cd = Ok [(0, cd)].
Proof.
  intros Hn L. unfold g_assemble.
  assert (H : okp (loop (length cd) (fun i m => let* p := aget (repeat 0 n) i in let* x := aget cd i in Ok (ad_push m p x)) [])
     (fun m => m = match length cd with 0 => [] | S k => [(0, firstn (S k) cd)] end)).
  { apply (@loop_okp _ (fun i m => m = match i with 0 => [] | S k => [(0, firstn (S k) cd)] end)); [reflexivity|]. intros i m Hi ->.
    rewrite (@aget_nth _ (repeat 0 n) i 0) by (rewrite repeat_length; lia). rewrite (@aget_nth _ cd i z) by exact Hi. cbn [Base.bind okp].
    assert (E0 : nth i (repeat 0 n) 0 = 0) by apply nth_repeat. rewrite E0.
    assert (S1 : firstn (S i) cd = firstn i cd ++ [nth i cd z]).
    { clear - Hi. revert i Hi. induction cd as [|x cd IH]; intros i Hi; [cbn in Hi; lia|]. destruct i as [|i]; [reflexivity|].
      cbn [firstn app nth]. f_equal. apply IH. cbn in Hi. lia. }
    rewrite S1. destruct i as [|i]; [reflexivity|]. cbn [ad_push Nat.eqb]. reflexivity. }
  destruct (loop _ _ _) as [m|]; [|destruct H]. cbn [okp] in H. subst m. rewrite L at 1. destruct n as [|n']; [lia|]. rewrite <- L, firstn_all. reflexivity.
Qed.
End Small.

Section Dec.
Variable N : Num.
Notation T := (car N).
Notation z := (nzero N).
Variables (nlog phi : T -> T) (trunc : T -> Z).
Variables (g : hcfg N) (strictness : Z).

Lemma decision_runs (s : xst N) h v : 1 <= g_nrow g -> (0 <= strictness <= 4)%Z ->
  x_part (xh s) = repeat 0 (g_nrow g) -> length (x_cd s) = g_nrow g -> length (x_asg (xh s)) = g_nrow g ->
  hm_keys (x_hcl (xh s)) = [0] -> hget (x_hcl (xh s)) 0 = Some h -> h_zero h = 1 -> h_one h = 2 ->
  3 <= length (x_act (xh s)) -> 3 <= length (x_counts (xh s)) -> 1 <= c_nclust (x_cl s) ->
  scale trunc (x_cd s) = Ok v ->
  exists s', g_decision nlog phi trunc g strictness s = Ok s' /\ (s' = s \/ hm_keys (x_hcl (xh s')) = []).
Proof.
  intros Hn Hst Hp Lcd La Hk Hh Z0 Z1 Lact Lcn Hcl Hv. unfold g_decision. rewrite Hp.
  assert (Esc : g_scores nlog phi trunc (repeat 0 (g_nrow g)) (x_cd s) = Ok [(0, ad_statistic nlog phi v)]).
  { unfold g_scores. rewrite (assemble_one Hn Lcd). cbn [Base.bind mapM fst snd]. rewrite Hv. reflexivity. }
  rewrite Esc. cbn [Base.bind length]. cbv zeta. rewrite Hk. cbn [Base.bind list_max fold_right Nat.max Nat.add repeat for_each].
  unfold g_decide at 1. cbn [ad_find Nat.eqb Base.bind]. unfold strict_at. destruct (Z.ltb_spec strictness 0) as [X|_]; [lia|].
  set (cv := ad_critical (nofZ N (Z.of_nat 1))).
  assert (Lcv : length cv = 5) by reflexivity.
  rewrite (@aget_nth _ cv (Z.to_nat strictness) z) by (rewrite Lcv; lia). cbn [Base.bind].
  assert (Lp : 0 < length (x_hcl (xh s))) by (destruct (x_hcl (xh s)); [discriminate Hh|cbn; lia]).
  destruct (nleb N (ad_statistic nlog phi v) (nth (Z.to_nat strictness) cv z)) eqn:Er.
  - rewrite (hm_ref_ok Hh). cbn [Base.bind]. rewrite Z0, Z1. unfold deactivate. sx.
    rewrite aset_ok by lia. cbn [Base.bind]. sx. rewrite aset_ok by (rewrite upd_length; lia). cbn [Base.bind]. sx.
    rewrite aset_ok by (rewrite !upd_length; lia). cbn [Base.bind]. sx. rewrite aset_ok by (cbn; lia). cbn [Base.bind]. unfold hm_erase. sx.
    rewrite aset_ok by exact Lp. cbn [Base.bind]. sx. destruct (Nat.leb_spec (c_nclust (x_cl s)) 0) as [X|_]; [lia|]. sx.
    rewrite (@aget_nth _ (x_counts (xh s)) 1 0%Z) by lia. cbn [Base.bind]. rewrite (@aget_nth _ (x_counts (xh s)) 2 0%Z) by lia. cbn [Base.bind].
    rewrite aset_ok by lia. cbn [Base.bind]. rewrite aset_ok by (rewrite upd_length; lia). cbn [Base.bind]. rewrite aset_ok by (rewrite !upd_length; lia).
    cbn [Base.bind]. sx.
    match goal with |- context [loop ?m ?b ?a0] => set (body := b); change a0 with (x_asg (xh s)); change m with (g_nrow g) end.
    assert (Q : okp (loop (g_nrow g) body (x_asg (xh s))) (fun a => length a = g_nrow g)).
    { apply (@loop_okp _ (fun _ a => length a = g_nrow g)); [exact La|]. intros i a Hi L. unfold body. rewrite Hp.
      rewrite (@aget_nth _ (repeat 0 (g_nrow g)) i 0) by (rewrite repeat_length; exact Hi). cbn [Base.bind].
      destruct (_ && _); [|exact L]. rewrite aset_ok by lia. cbn [okp]. rewrite upd_length. exact L. }
    destruct (loop (g_nrow g) body (x_asg (xh s))) as [a|]; [|destruct Q]. cbn [Base.bind]. eexists. split; [reflexivity|]. right. cbn.
    destruct (hm_keys (upd (x_hcl (xh s)) 0 None)) as [|q t] eqn:Eq; auto. exfalso.
    assert (Hq : In q (hm_keys (upd (x_hcl (xh s)) 0 None))) by (rewrite Eq; left; reflexivity). apply keys_in in Hq as (h' & Hh').
    unfold hget in Hh'. rewrite nth_error_upd in Hh'. destruct (Nat.eqb_spec q 0) as [->|Hne]; [destruct (0 <? _); discriminate|].
    assert (Hq : In q (hm_keys (x_hcl (xh s)))) by (apply keys_in; exists h'; exact Hh'). rewrite Hk in Hq. destruct Hq as [<-|[]]. congruence.
  - cbn [Base.bind].
    match goal with |- context [loop ?m ?b ?a0] => set (body := b); change a0 with (x_asg (xh s)); change m with (g_nrow g) end.
    assert (Q : okp (loop (g_nrow g) body (x_asg (xh s))) (fun a => a = x_asg (xh s))).
    { apply (@loop_okp _ (fun _ a => a = x_asg (xh s))); [reflexivity|]. intros i a Hi ->. unfold body. rewrite Hp.
      rewrite (@aget_nth _ (repeat 0 (g_nrow g)) i 0) by (rewrite repeat_length; exact Hi). cbn [Base.bind].
      rewrite nth_repeat. cbn [length nth Nat.ltb Nat.leb andb okp]. reflexivity. }
    destruct (loop (g_nrow g) body (x_asg (xh s))) as [a|]; [|destruct Q]. cbn [okp] in Q. subst a. cbn [Base.bind]. eexists. split; [reflexivity|]. left.
    destruct s as [h0 ? ? ? ?]. destruct h0. reflexivity.
Qed.
End Dec.

Section P.
Variable N : Num.
Notation T := (car N).
Variables (nlog phi : T -> T) (trunc : T -> Z).

(** the state in which the first round decides *)
Definition gmeans_first (g : hcfg N) centers it data dr (scheds : nat -> nat -> list nat) (s3 : xst N) : Prop :=
  exists s0 ws s1 s2, g_start g centers it data dr = Ok (s0, ws) /\ x_mean g ws (scheds 0 0) s0 = Ok s1 /\
    loop (g_max_iters g) (fun j s => x_iter g ws (scheds 0 (j + 2)) (j =? 0) s) s1 = Ok s2 /\ g_split g ws (scheds 0 1) s2 = Ok s3.

(** ** C102, the part that holds: when no cluster can have enough rows to be split, the
    run returns after the decision of its first round, if the projections of that round
    can be normalised *)
Theorem C102_one_round_partial : forall (g : hcfg N) strictness centers it data dr scheds,
  h_valid g data it centers dr -> h_fair g data scheds -> g_nrow g < h_min g -> (0 <= strictness <= 4)%Z ->
  (forall s3, gmeans_first g centers it data dr scheds s3 -> exists v, scale trunc (x_cd s3) = Ok v) ->
  (exists s rr, forall fuel, 1 <= fuel -> g_run nlog phi trunc g strictness true centers it data dr scheds fuel = Ok (s, [rr])) \/
  (unassignable g data /\ forall fuel, 1 <= fuel -> g_run nlog phi trunc g strictness true centers it data dr scheds fuel = Err Abort).
Proof.
  intros g strictness centers it data dr scheds Hv Hf Hbig Hst Hsc. pose proof Hv as (V & K2 & K30 & Hm & Hi & Hini). pose proof V as (V1 & V2 & V3 & V4).
  destruct (@build_workers_ok N g data V1 V2 V3 V4) as (ws & Ew & Hws & Lws & _).
  destruct (@create_init_ok N g data V K2 K30 it centers dr Hini) as (s0 & s1 & c & E0 & E1 & Sh & _ & Es).
  destruct (floor_facts K2 K30) as (F2 & _ & F29 & Fc).
  set (F := hclust_floor (g_k g)) in *. set (K := 2 * F - 1).
  pose proof (@start_ok N g ws data K2 K30 (FPx g ws data []) c Sh) as R. cbn zeta in R. fold F in R. rewrite <- Es in R.
  assert (Hkeys : Permutation (hm_keys (x_hcl s1)) [0] /\ x_final s1 = []).
  { rewrite Es. split; [|reflexivity]. cbn [x_hcl].
    assert (Hg : forall p x, hget (hm_put (repeat None (4 * F - 1)) 0 (mkH c 1 2 false)) p = Some x <-> In (p, x) [(0, mkH c 1 2 false)]).
    { intros p x. rewrite hget_put. cbn [In]. destruct (Nat.eqb_spec p 0) as [->|].
      - split; [intros [= <-]; auto|intros [X|[]]; injection X as <-; auto].
      - split; [|intros [X|[]]; congruence]. unfold hget. destruct (nth_error _ p) as [y|] eqn:E; [|discriminate].
        apply nth_error_In, repeat_spec in E. subst y. discriminate. }
    exact (proj1 (@keys_perm_list N _ [(0, mkH c 1 2 false)] ltac:(repeat constructor; cbn; tauto) Hg)). }
  destruct Hkeys as (Pk & Hf0).
  pose proof (max_hnodes_half K2 K30) as Hmx. fold F in Hmx. fold K in Hmx.
  set (C := clusters_create N K (g_ncol g)).
  set (nthr := Z.to_nat (eff_threads (g_nthreads g) (Z.of_nat (g_nrow g)))) in *.
  set (X0 := mkX s0 (repeat (nzero N) (g_nrow g)) (repeat (nzero N) (g_nrow g)) (clear C) (repeat C nthr)).
  assert (Ex : x_create g centers nthr = Ok X0).
  { unfold x_create. rewrite E0. cbn [Base.bind]. unfold h_k. fold F. rewrite Hmx. cbn [Base.bind]. rewrite Nat2Z.id. reflexivity. }
  assert (Est : g_start g centers it data dr = Ok (with_h X0 s1, ws)).
  { unfold g_start. fold nthr. rewrite Ex. cbn [Base.bind]. rewrite Ew. cbn [Base.bind]. change (xh X0) with s0. rewrite E1. reflexivity. }
  assert (P : xpre g ws data [] (with_h X0 s1)).
  { assert (Ecl : clear C = C) by (apply clear_create, shaped_create). constructor; cbn [with_h X0 xh x_pd x_cd x_cl x_loc]; rewrite ?Ecl.
    + rewrite Es. reflexivity.
    + intros i Hin. apply in_app_iff in Hin as [Hin|Hin].
      * apply (Permutation_in _ Pk) in Hin. cbn in Hin. fold F. lia.
      * unfold finkeys in Hin. rewrite Hf0 in Hin. destruct Hin.
    + apply repeat_length.
    + apply repeat_length.
    + apply shaped_create.
    + intros j Hj. apply cel_create. exact Hj.
    + rewrite repeat_length. congruence.
    + apply Forall_forall. intros x Hx. apply repeat_spec in Hx. subst x. apply shaped_create. }
  pose proof (@half_round N nlog (nzero N) g ws data V Hws K2 Hm Hi 0 [] (with_h X0 s1) (fun j => match j with 0 => scheds 0 0 | S i => scheds 0 (i + 2) end) R P) as H.
  specialize (H (fun j => match j with 0 => Hf ws Ew 0 0 | S i => Hf ws Ew 0 (i + 2) end)). cbv beta iota in H.
  destruct (x_mean g ws (scheds 0 0) (with_h X0 s1)) as [a1|] eqn:A1; cbn [Base.bind] in H.
  2:{ right. destruct H as (-> & U). split; [exact U|]. intros [|fuel] Hfu; [lia|]. unfold g_run. rewrite Est. cbn [Base.bind g_loop]. unfold g_round.
      rewrite A1. reflexivity. }
  destruct (loop (g_max_iters g) (fun i s => x_iter g ws (scheds 0 (i + 2)) (i =? 0) s) a1) as [a2|] eqn:A2; cbn [okab] in H.
  2:{ right. destruct H as (-> & U). split; [exact U|]. intros [|fuel] Hfu; [lia|]. unfold g_run. rewrite Est. cbn [Base.bind g_loop]. unfold g_round.
      rewrite A1. cbn [Base.bind]. rewrite A2. reflexivity. }
  destruct H as (R2 & Rd2 & St2 & Q). destruct (@g_split_runs N g ws data V Hws _ a2 (scheds 0 1) (r_e R2) (q_cd Q) (Hf ws Ew 0 1)) as (a3 & A3).
  assert (Hd3 : gmeans_deciding nlog phi trunc g strictness centers it data dr scheds a3).
  { unfold gmeans_deciding. exists (with_h X0 s1), ws, 0, (with_h X0 s1), a1, a2. splits; auto. constructor. }
  destruct (Hsc a3) as (v & Hv3).
  { exists (with_h X0 s1), ws, a1, a2. splits; auto. }
  destruct (@deciding_ok N nlog phi trunc g strictness centers it data dr scheds a3 Hv Hf Hd3) as (ws' & Hws' & Qm).
  assert (E3 : xh a3 = xh a2 /\ x_cl a3 = x_cl a2).
  { pose proof A3 as X. unfold g_split in X. apply bind_ok in X as (dfs & _ & X). apply bind_ok in X as (la & _ & X). injection X as <-. auto. }
  destruct E3 as (E3 & E3c).
  assert (Ek1 : hm_keys (x_hcl (xh a2)) = [0]).
  { pose proof (q_nkeys Q) as L. cbn [with_h xh] in L. rewrite (Permutation_length Pk) in L. cbn [length] in L.
    destruct (hm_keys (x_hcl (xh a2))) as [|q [|q' t]] eqn:Eq; try discriminate L. f_equal.
    assert (X : In q (hm_keys (x_hcl (xh (with_h X0 s1))))) by (apply (q_keys Q); rewrite Eq; left; reflexivity).
    apply (Permutation_in _ Pk) in X as [X|[]]. congruence. }
  assert (Ep1 : x_part (xh a3) = repeat 0 (g_nrow g)).
  { rewrite E3, (q_part Q). cbn [with_h xh]. rewrite Es. reflexivity. }
  (* the two children *)
  destruct (@g_start_ok N g data centers it dr Hv) as (s0' & ws2 & E0' & _ & _ & P0). assert (X := eq_trans (eq_sym Est) E0'). injection X as <- <-.
  destruct (@g_half_frame N g ws data (scheds 0) (with_h X0 s1) a1 a2 a3 V Hws Hi P0 (Hf ws Ew 0) A1 A2 A3) as (_ & Fh).
  destruct (Fh 0 (mkH c 1 2 false)) as (h' & Hh' & Z1 & Z2).
  { cbn [with_h xh]. rewrite Es. cbn [x_hcl]. unfold hget, hm_put. destruct (4 * F - 1) as [|m] eqn:Em; [lia|]. reflexivity. }
  cbn [h_zero h_one] in Z1, Z2.
  pose proof (r_e R2) as I2. fold F in I2.
  destruct (@decision_runs N nlog phi trunc g strictness a3 h' v) as (a4 & A4 & Hcase); auto.
  { apply (gm_cd Qm). }
  { rewrite E3. apply (e_asg I2). }
  { rewrite E3. exact Ek1. }
  { rewrite E3, (e_act I2). lia. }
  { rewrite E3, (e_counts I2). lia. }
  { rewrite E3c, (proj1 (q_cl Q)). lia. }
  left.
  assert (Hround : exists s' rr, g_round nlog phi trunc g strictness ws data (scheds 0) (with_h X0 s1) = Ok (rr, (s', false)) /\ exists hres, complete_final g (xh s') = Ok hres).
  { unfold g_round. rewrite A1. cbn [Base.bind]. rewrite A2. cbn [Base.bind]. rewrite A3. cbn [Base.bind]. rewrite A4. cbn [Base.bind]. cbv zeta.
    set (M := 4 * hclust_floor (g_k g) - 1).
    pose proof Qm as [G3 Rd3 St3 _ Lcd3 Kcl3 _ _].
    destruct (@g_decision_ok N nlog phi trunc g ws' data Hws' M (@FPt N) ltac:(intros; exact Logic.I) strictness a3 a4 G3 Rd3 St3 Lcd3 Kcl3 ltac:(intros; exact Logic.I) A4)
      as (h4 & X4 & (c4 & R4) & _).
    assert (Hnil : forall h : hst N, hm_keys (x_hcl h) = [] -> exists hres, complete_final g h = Ok hres).
    { intros h0 X. unfold complete_final. rewrite X. eexists. reflexivity. }
    destruct Hcase as [->|Hk4].
    - destruct (at_cluster_cap g (xh a3)) eqn:Ecap.
      { do 2 eexists. split; [reflexivity|]. unfold complete_final. rewrite E3, Ek1. cbn [for_each]. rewrite <- E3, (hm_ref_ok Hh'). cbn [Base.bind]. eexists. reflexivity. }
      rewrite E3.
      assert (Hc2 : (x_curr (xh a2) <= Z.of_nat F)%Z). { rewrite (q_curr Q). cbn [with_h xh]. rewrite Es. cbn [x_curr]. lia. }
      pose proof (@init_splits_ok N g ws data V F M eq_refl F2 F29 Fc Hm (FPx g ws data []) (@FPx_u N g ws data []) _ (xh a2) R2 Rd2 St2 Hc2 ltac:(rewrite Ek1; cbn; lia)) as HS.
      destruct (init_splits g data (xh a2)) as [h5|] eqn:E5; [|destruct HS]. cbn [okp] in HS. destruct HS as (R5 & _). cbn [Base.bind].
      assert (Kl : hm_keyless (x_hcl h5) = true).
      { apply (@init_splits_small N g data (xh a2) h5); [|exact E5]. intros i. destruct (Nat.lt_ge_cases i M) as [X|X].
        - destruct Rd2 as (La2 & _ & Cn & _). rewrite Cn by exact X. assert (Y : count_eq i (x_asg (xh a2)) <= g_nrow g); [|lia].
          rewrite <- La2. clear. unfold count_eq. induction (x_asg (xh a2)) as [|x l IH]; [auto|]. cbn [filter length]. destruct (_ =? _); cbn [length]; lia.
        - rewrite nth_overflow by (rewrite (e_counts I2); exact X). lia. }
      rewrite Kl, (steady R5 Kl). cbn [assert_ Base.bind]. do 2 eexists. split; [reflexivity|]. apply Hnil, keyless_nil. exact Kl.
    - destruct (at_cluster_cap g (xh a4)) eqn:Ecap.
      { do 2 eexists. split; [reflexivity|]. apply Hnil. exact Hk4. }
      rewrite (@keyless_splits N g data (xh a4) Hk4). cbn [Base.bind].
      assert (Kl : hm_keyless (x_hcl (xh a4)) = true) by (apply nil_keyless; exact Hk4).
      assert (Kl4 : hm_keyless (x_hcl (with_curr h4 c4)) = true) by (rewrite X4 in Kl; exact Kl).
      change (x_hcl (with_part (xh a4) (x_asg (xh a4)))) with (x_hcl (xh a4)). rewrite Kl.
      pose proof (steady R4 Kl4) as Ss.
      assert (Ss' : steady_state (with_part (xh a4) (x_asg (xh a4))) = true) by (rewrite X4; exact Ss).
      rewrite Ss'. cbn [assert_ Base.bind]. do 2 eexists. split; [reflexivity|]. apply Hnil. exact Hk4. }
  destruct Hround as (s' & rr & Er & hres & Ek). exists hres, rr. intros [|fuel] Hfu; [lia|].
  unfold g_run. rewrite Est. cbn [Base.bind g_loop]. rewrite Er. cbn [Base.bind fst snd app]. rewrite Ek. reflexivity.
Qed.
End P.
