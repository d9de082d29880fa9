(** G-means: the statistics of the partitions and the decisions of one round. *)
From Coq Require Import Permutation.
From Verif Require Import Base Num DistModel DistProofs ClustersModel ClustersView ClustersProofs MatLemmas
  PartitionModel PartitionProofs ParModel KmeansModel ParProofs NearProofs KmeansProofs UpdateProofs RunProofs InitProofs Spec ParRule ParSim.
From Verif Require Import ContainersModel MatrixModel PropertiesIds HclustModel HclustProofs HclustUpdate HclustIter HclustSplit HclustRun Okab
  XmeansModel XmeansProofs XmeansDecide XmeansRound GmeansModel GmeansSplit GmeansSteps.
Set Implicit Arguments.
Unset Strict Implicit.

Section Scores.
Variable N : Num.
Notation T := (car N).
Notation z := (nzero N).
Variables (nlog phi : T -> T) (trunc : T -> Z).

(** the values of the rows of partition [p], in the order of the rows *)
Definition members_of (part : list nat) (p : nat) : list nat := filter (fun r => nth r part 0 =? p) (seq 0 (length part)).
Definition values_of (part : list nat) (cd : list T) (p : nat) : list T := map (fun r => nth r cd z) (members_of part p).
(** the Anderson-Darling statistic of the scaled values of a partition *)
Definition g_stat (part : list nat) (cd : list T) (p : nat) : res T :=
  let* v := scale trunc (values_of part cd p) in Ok (ad_statistic nlog phi v).
(** the critical value: the divisor is computed from the number of groups of rows *)
Definition g_crit (strictness : Z) (part : list nat) : res T :=
  strict_at (ad_critical (nofZ N (Z.of_nat (length (nodup Nat.eq_dec part))))) strictness.

Lemma push_keys : forall (m : list (nat * list T)) p x,
  map fst (ad_push m p x) = if in_dec Nat.eq_dec p (map fst m) then map fst m else map fst m ++ [p].
Proof.
  induction m as [|(q & v) m IH]; intros p x; [reflexivity|]. cbn [ad_push map fst]. destruct (Nat.eqb_spec q p) as [->|Hne].
  - cbn [map fst]. destruct in_dec as [_|X]; [reflexivity|]. destruct X. left. reflexivity.
  - cbn [map fst]. rewrite IH. destruct (in_dec Nat.eq_dec p (map fst m)) as [X|X], (in_dec Nat.eq_dec p (q :: map fst m)) as [Y|Y]; auto.
    + destruct Y. right. exact X.
    + destruct Y as [Y|Y]; tauto || congruence.
Qed.
Lemma push_find : forall (m : list (nat * list T)) p x q,
  ad_find (ad_push m p x) q = if q =? p then Ok (match ad_find m p with Ok v => v | Err _ => [] end ++ [x]) else ad_find m q.
Proof.
  induction m as [|(q' & v) m IH]; intros p x q; cbn [ad_push ad_find].
  - rewrite Nat.eqb_sym. destruct (p =? q); reflexivity.
  - destruct (Nat.eqb_spec q' p) as [->|Hne]; cbn [ad_find].
    + rewrite (Nat.eqb_sym q p). destruct (p =? q); reflexivity.
    + rewrite IH. destruct (Nat.eqb_spec q' q) as [->|]; destruct (Nat.eqb_spec q p) as [->|]; auto; congruence.
Qed.
Lemma find_in {A} : forall (m : list (nat * A)) p, In p (map fst m) <-> exists v, ad_find m p = Ok v.
Proof.
  induction m as [|(q & v) m IH]; intros p; cbn [map fst In ad_find]; [split; [tauto|intros (v & E); discriminate]|].
  destruct (Nat.eqb_spec q p) as [->|Hne]; [split; eauto|]. rewrite <- IH. tauto.
Qed.

Lemma assemble_ok (part : list nat) (cd : list T) m : length part = length cd -> g_assemble part cd = Ok m ->
  NoDup (map fst m) /\ (forall p, In p (map fst m) <-> In p part) /\ (forall p v, ad_find m p = Ok v -> v = values_of part cd p).
Proof.
  intros L E. unfold g_assemble in E.
  assert (H : NoDup (map fst m) /\ (forall p, In p (map fst m) <-> exists r, r < length cd /\ nth r part 0 = p) /\
     (forall p v, ad_find m p = Ok v -> v = map (fun r => nth r cd z) (filter (fun r => nth r part 0 =? p) (seq 0 (length cd))))).
  { apply (@loop_inv_ok _ (fun i m => NoDup (map fst m) /\ (forall p, In p (map fst m) <-> exists r, r < i /\ nth r part 0 = p) /\
     (forall p v, ad_find m p = Ok v -> v = map (fun r => nth r cd z) (filter (fun r => nth r part 0 =? p) (seq 0 i)))) _ _ _ _ E).
    - splits; [constructor| |discriminate]. intros p. split; [intros []|intros (r & X & _); lia].
    - intros i a b Hi (ND & K & F) H. rewrite (@aget_nth _ part i 0) in H by lia. cbn [bind] in H.
      rewrite (@aget_nth _ cd i z) in H by lia. cbn [bind] in H. injection H as <-. set (p := nth i part 0) in *.
      assert (Knew : forall q, In q (map fst (ad_push a p (nth i cd z))) <-> In q (map fst a) \/ q = p).
      { intros q. rewrite push_keys. destruct in_dec as [X|X]; [|rewrite in_app_iff; cbn [In]; intuition congruence]. split; [auto|]. intros [Y| ->]; auto. }
      splits.
      + rewrite push_keys. destruct in_dec as [X|X]; auto. apply NoDup_app'; auto; [repeat constructor; auto|]. intros x Hx [<-|[]]. tauto.
      + intros q. rewrite Knew, K. split.
        * intros [(r & Hr & Er)| ->]; [exists r|exists i]; split; auto; lia.
        * intros (r & Hr & Er). destruct (Nat.eq_dec r i) as [->|]; [right; auto|left; exists r; split; auto; lia].
      + intros q v. rewrite push_find, seq_S, filter_app, map_app. cbn [Nat.add filter]. fold p. rewrite (Nat.eqb_sym p q).
        destruct (Nat.eqb_spec q p) as [->|Hne]; [|cbn [map]; rewrite app_nil_r; apply F]. intros [= <-]. cbn [map]. f_equal.
        destruct (ad_find a p) as [w|] eqn:Ew; [apply F; exact Ew|].
        assert (Nk : ~ In p (map fst a)) by (intros X; apply find_in in X as (w & X); congruence). rewrite K in Nk.
        assert (G : forall l, (forall r, In r l -> r < i) -> filter (fun r => nth r part 0 =? p) l = []).
        { induction l as [|r l IH]; intros Hl; auto. cbn [filter]. destruct (Nat.eqb_spec (nth r part 0) p) as [X|X].
          - destruct Nk. exists r. split; auto. apply Hl. left. reflexivity.
          - apply IH. intros y Hy. apply Hl. right. exact Hy. }
        rewrite G; [reflexivity|]. intros r Hr. apply in_seq in Hr. lia. }
  destruct H as (ND & K & F). rewrite <- L in *. splits; auto.
  intros p. rewrite K. split.
  - intros (r & Hr & <-). apply nth_In. exact Hr.
  - intros X. apply (In_nth _ _ 0) in X as (r & Hr & Er). eauto.
Qed.

Lemma mapM_fst {A B} (f : A -> res B) : forall (l : list (nat * A)) l', mapM (fun kv => let* v := f (snd kv) in Ok (fst kv, v)) l = Ok l' ->
  map fst l' = map fst l /\ forall p v, ad_find l p = Ok v -> exists w, f v = Ok w /\ ad_find l' p = Ok w.
Proof.
  clear. induction l as [|(q & a) l IH]; intros l' E; cbn [mapM] in E; [injection E as <-; split; [auto|discriminate]|].
  apply bind_ok in E as ((q' & y) & Ey & E). apply bind_ok in E as (t & Et & E). injection E as <-. cbn [fst snd] in Ey.
  apply bind_ok in Ey as (w & Ew & Ey). injection Ey as <- <-. destruct (IH t Et) as (L & H). split; [cbn [map fst]; congruence|].
  intros p v. cbn [ad_find]. destruct (q =? p); [intros [= <-]; eauto|apply H].
Qed.
Lemma find_map {A B} (f : A -> B) : forall (l : list (nat * A)) p, ad_find (map (fun kv => (fst kv, f (snd kv))) l) p =
  match ad_find l p with Ok v => Ok (f v) | Err e => Err e end.
Proof. induction l as [|(q & a) l IH]; intros p; cbn [map ad_find fst snd]; [reflexivity|]. destruct (q =? p); auto. Qed.

(** the statistics of all groups of rows *)
Lemma g_scores_ok (part : list nat) (cd : list T) sc : length part = length cd -> g_scores nlog phi trunc part cd = Ok sc ->
  length sc = length (nodup Nat.eq_dec part) /\
  (forall p, In p part -> exists x, ad_find sc p = Ok x /\ g_stat part cd p = Ok x) /\
  (forall p x, ad_find sc p = Ok x -> g_stat part cd p = Ok x).
Proof.
  intros L E. unfold g_scores in E. apply bind_ok in E as (m & E1 & E). apply bind_ok in E as (m2 & E2 & E). injection E as <-.
  destruct (assemble_ok L E1) as (ND & K & F). destruct (mapM_fst E2) as (M1 & M2).
  assert (S1 : forall p, In p part -> exists x, ad_find (map (fun kv => (fst kv, ad_statistic nlog phi (snd kv))) m2) p = Ok x /\ g_stat part cd p = Ok x).
  { intros p Hp. apply K in Hp. apply find_in in Hp as (v & Hv). destruct (M2 p v Hv) as (w & Hw & Hf).
    rewrite find_map, Hf. eexists. split; [reflexivity|]. unfold g_stat. rewrite <- (F p v Hv), Hw. reflexivity. }
  splits; auto.
  - rewrite map_length. assert (X : length m2 = length (map fst m)) by (rewrite <- M1, map_length; reflexivity). rewrite X.
    apply Permutation_length. apply NoDup_Permutation; auto using NoDup_nodup. intros p. rewrite nodup_In. apply K.
  - intros p x Hx. rewrite find_map in Hx. destruct (ad_find m2 p) as [w|] eqn:Ew; [|discriminate]. injection Hx as <-.
    assert (Hp : In p part). { apply K. rewrite <- M1. apply find_in. eauto. }
    destruct (S1 p Hp) as (y & Hy & Hs). rewrite find_map, Ew in Hy. injection Hy as <-. exact Hs.
Qed.

Variables (g : hcfg N) (ws : list (worker N)) (data : list T).
Let d := g_ncol g.
Let n := g_nrow g.
Hypothesis Hws : wok n d data ws.
Variable M : nat.
Variable FP : list nat -> nat -> list T -> Prop.
Hypothesis FPs : forall A A' i v, length A = n -> length A' = n ->
  (forall r, r < n -> (nth r A 0 =? i) = (nth r A' 0 =? i)) -> FP A i v -> FP A' i v.
Notation ginv := (ginv g ws data M FP).

Lemma rinv_ginv e (s : hst N) c : rinv g ws data M FP e (with_curr s c) -> ginv s.
Proof.
  intros [[A1 A2 A3 A4 A5 A6 A7 A8 A9 A10] B1 B2 B3 B4 B5 _ _]. apply ginv_intro; auto. constructor; auto.
Qed.

(** the assignment after undoing the splits [D] *)
Definition undone (part asg : list nat) (D : list nat) : list nat :=
  map (fun r => if in_dec Nat.eq_dec (nth r part 0) D then nth r part 0 else nth r asg 0) (seq 0 n).
Lemma undone_nth part asg D r : r < n -> nth r (undone part asg D) 0 = if in_dec Nat.eq_dec (nth r part 0) D then nth r part 0 else nth r asg 0.
Proof.
  intros Hr. unfold undone. set (f := fun r => if in_dec Nat.eq_dec (nth r part 0) D then nth r part 0 else nth r asg 0).
  rewrite (nth_indep _ 0 (f 0)) by (rewrite map_length, seq_length; exact Hr). rewrite map_nth, seq_nth by exact Hr. reflexivity.
Qed.
Lemma undone_length part asg D : length (undone part asg D) = n.
Proof. unfold undone. rewrite map_length, seq_length. reflexivity. Qed.

Variable strictness : Z.
(** is the split of [p] undone? *)
Definition g_rejb (part : list nat) (cd : list T) (p : nat) : bool :=
  match g_stat part cd p, g_crit strictness part with Ok x, Ok c => nleb N x c | _, _ => false end.
Definition g_rejects (s : xst N) : list nat := filter (g_rejb (x_part (xh s)) (x_cd s)) (hm_keys (x_hcl (xh s))).

Lemma g_decision_ok (s s' : xst N) : ginv (xh s) -> ready g ws data M (xh s) -> settled g (xh s) ->
  length (x_cd s) = n -> gsh d (x_cl s) ->
  (forall p asg', In p (hm_keys (x_hcl (xh s))) -> length asg' = n ->
     (forall r, r < n -> (nth r asg' 0 =? p) = (nth r (x_part (xh s)) 0 =? p)) -> FP asg' p (crow (x_cl s) p)) ->
  g_decision nlog phi trunc g strictness s = Ok s' ->
  exists h', s' = with_h s h' /\ ginv h' /\ ready g ws data M h' /\ settled g h' /\ x_part h' = x_part (xh s) /\
    x_hcl h' = erased (g_rejects s) (x_hcl (xh s)) /\
    x_final h' = x_final (xh s) ++ map (fun p => (p, crow (x_cl s) p)) (g_rejects s) /\
    x_asg h' = undone (x_part (xh s)) (x_asg (xh s)) (g_rejects s) /\
    (forall p, In p (hm_keys (x_hcl (xh s))) -> exists x c, g_stat (x_part (xh s)) (x_cd s) p = Ok x /\ g_crit strictness (x_part (xh s)) = Ok c).
Proof.
  intros G0 Rd0 St0 Lcd (K & Hcl) HFP E. set (h0 := xh s) in *.
  unfold g_decision in E. fold h0 in E. apply bind_ok in E as (sc & Esc & E). cbv zeta in E.
  pose proof G0 as (c0 & R0). pose proof (e_part (r_e R0)) as Lpart. sxin. fold n in Lpart. pose proof (e_asg (r_e R0)) as La. sxin. fold n in La.
  destruct (g_scores_ok (eq_trans Lpart (eq_sym Lcd)) Esc) as (Lsc & _ & Hsc).
  rewrite Lsc in E. set (cv := ad_critical (nofZ N (Z.of_nat (length (nodup Nat.eq_dec (x_part h0)))))) in *.
  set (keys := hm_keys (x_hcl h0)) in *. apply bind_ok in E as (_ & _ & E). apply bind_ok in E as ((h1 & rev) & E1 & E).
  apply bind_ok in E as (a & Ea & E). injection E as <-.
  set (rj := g_rejb (x_part h0) (x_cd s)) in *.
  set (INV := fun (rem : list nat) (st : hst N * list bool) => exists D,
     D ++ filter rj rem = filter rj keys /\ (forall p, In p rem -> In p keys /\ ~ In p D) /\ NoDup rem /\
     x_asg (fst st) = x_asg h0 /\ x_part (fst st) = x_part h0 /\ x_hcl (fst st) = erased D (x_hcl h0) /\
     x_final (fst st) = x_final h0 ++ map (fun p => (p, crow (x_cl s) p)) D /\
     length (snd st) = list_max keys + 1 /\ (forall p, nth p (snd st) false = true <-> In p D) /\
     (forall p, In p keys -> In p rem \/ exists x c, g_stat (x_part h0) (x_cd s) p = Ok x /\ g_crit strictness (x_part h0) = Ok c) /\
     let v := with_asg (fst st) (undone (x_part h0) (x_asg h0) D) in ginv v /\ ready g ws data M v /\ settled g v).
  assert (L1 : pok (for_each keys (g_decide g strictness (x_cl s) sc cv) (h0, repeat false (list_max keys + 1))) (INV [])).
  { apply for_each_pok.
    - exists []. cbn [app fst snd map]. rewrite app_nil_r, repeat_length.
      assert (Ev : with_asg h0 (undone (x_part h0) (x_asg h0) []) = h0).
      { assert (Q : undone (x_part h0) (x_asg h0) [] = x_asg h0).
        { apply (nth_ext _ _ 0 0); [rewrite undone_length; auto|]. intros r Hr. rewrite undone_length in Hr. rewrite undone_nth by exact Hr. reflexivity. }
        rewrite Q. destruct h0; reflexivity. }
      cbv zeta. rewrite Ev. splits; auto; try apply keys_nodup.
      intros p. split; [|intros []]. intros X. exfalso. 
      destruct (Nat.lt_ge_cases p (list_max keys + 1)) as [Y|Y]; [rewrite nth_repeat in X; discriminate|rewrite nth_overflow in X by (rewrite repeat_length; exact Y); discriminate].
    - intros p rem (st & rv) (D & HD & Hrem & ND & F1 & F2 & F3 & F4 & F5 & F6 & F7 & Gv & Rv & Sv). cbn [fst snd] in *. cbv zeta in *.
      unfold g_decide. destruct (ad_find sc p) as [x|] eqn:Ex; cbn [bind oke]; [|exact Logic.I]. pose proof (Hsc p x Ex) as Hst.
      destruct (strict_at cv strictness) as [c|] eqn:Ec; cbn [bind oke]; [|exact Logic.I].
      assert (Hcr : g_crit strictness (x_part h0) = Ok c) by exact Ec.
      apply NoDup_cons_iff in ND as (Nin & ND'). destruct (Hrem p (or_introl eq_refl)) as (Hk & HnD).
      assert (Erj : rj p = nleb N x c) by (unfold rj, g_rejb; rewrite Hst, Hcr; reflexivity).
      assert (F7' : forall q, In q keys -> In q rem \/ exists x c, g_stat (x_part h0) (x_cd s) q = Ok x /\ g_crit strictness (x_part h0) = Ok c).
      { intros q Hq. destruct (F7 q Hq) as [[<-|X]|X]; [right; eauto|auto|auto]. }
      cbn [filter] in HD. rewrite Erj in HD. destruct (nleb N x c) eqn:Ele.
      2:{ cbn [oke]. exists D. cbn [fst snd]. splits; auto. intros q Hq. apply Hrem. right. exact Hq. }
      (* undo the split *)
      apply keys_in in Hk as (h & Hh). pose proof Hh as Hh0.
      assert (Hm : hget (x_hcl st) p = Some h) by (rewrite F3, (erased_get nlog (nzero N)); destruct in_dec; [tauto|exact Hh]).
      rewrite (hm_ref_ok Hm). cbn [bind].
      destruct Gv as (cc & Rc). set (w := with_curr (with_asg st (undone (x_part h0) (x_asg h0) D)) cc) in *.
      destruct (@ids_parts N g ws data M FP 0 w p h Rc Hm) as (Npl & Npr & Nlr & Fp & Fl & Fr & NDa & Lp & Ll & Lr).
      pose proof (e_act (r_e Rc)) as Lact. pose proof (e_counts (r_e Rc)) as Lcn. pose proof (e_hcl (r_e Rc)) as Lh.
      change (x_act w) with (x_act st) in Lact. change (x_counts w) with (x_counts st) in Lcn. change (x_hcl w) with (x_hcl st) in Lh.
      unfold deactivate. sx. rewrite aset_ok by (rewrite Lact; exact Ll). cbn [bind]. sx.
      rewrite aset_ok by (rewrite upd_length, Lact; exact Lr). cbn [bind]. sx.
      rewrite aset_ok by (rewrite !upd_length, Lact; exact Lp). cbn [bind]. sx.
      assert (Lrev : p < length rv).
      { rewrite F5. assert (X : Forall (fun q => q <= list_max keys) keys) by (apply list_max_le; auto).
        rewrite Forall_forall in X. specialize (X p ltac:(apply keys_in; eauto)). lia. }
      rewrite aset_ok by exact Lrev. cbn [bind]. unfold hm_erase. sx. rewrite aset_ok by (rewrite Lh; exact Lp). cbn [bind]. sx.
      destruct (Nat.leb_spec (c_nclust (x_cl s)) p) as [HpK|HpK]; [cbn [oke]; exact Logic.I|]. sx.
      rewrite (@aget_nth _ (x_counts st) (h_zero h) 0%Z) by lia. cbn [bind]. rewrite (@aget_nth _ (x_counts st) (h_one h) 0%Z) by lia. cbn [bind].
      rewrite aset_ok by lia. cbn [bind]. rewrite aset_ok by (rewrite upd_length; lia). cbn [bind]. rewrite aset_ok by (rewrite !upd_length; lia). cbn [bind oke]. sx.
      (* the virtual rejection *)
      set (sc0 := mkSc p (h_zero h) (h_one h) (nzero N) (nzero N)).
      assert (HpK' : sc_pid sc0 < K) by (cbn [sc0 sc_pid]; destruct Hcl as (<- & _); exact HpK).
      assert (Ew : with_hcl w (x_hcl st) = w) by reflexivity.
      destruct (@reject_ok N g ws data M FP Hws FPs 0 (x_cl s) (x_asg w) sc0 w (x_hcl st) K h)
        as (s2 & X & P1 & P2 & P3 & P4 & P5 & P6 & R2 & Rd2 & St2); auto.
      { apply (e_asg (r_e Rc)). }
      { intros asg' L' Hr'. cbn [sc0 sc_pid] in *. apply HFP; auto; [apply keys_in; eauto|]. rewrite <- F2. exact Hr'. }
      cbv zeta in R2, Rd2, St2. cbn [sc0 sc_pid] in P5, P6, R2, Rd2, St2.
      destruct (@reject_eff N g (x_cl s) (x_asg w) sc0 w K) as (asg2 & X2 & La2 & Hasg2); auto.
      { apply Hcl. }
      { cbn [sc0 sc_pid sc_lid sc_rid In]. change (x_counts w) with (x_counts st). change (x_act w) with (x_act st). intros i [<-|[<-|[<-|[]]]]; lia. }
      rewrite X in X2. injection X2 as X2. cbn [sc0 sc_pid sc_lid sc_rid] in X2.
      change (x_part w) with (x_part st) in X2, P6. change (x_act w) with (x_act st) in X2. change (x_hcl w) with (x_hcl st) in X2.
      change (x_counts w) with (x_counts st) in X2. change (x_ider w) with (x_ider st) in X2. change (x_curr w) with cc in X2. change (x_final w) with (x_final st) in X2.
      assert (Easg : asg2 = undone (x_part h0) (x_asg h0) (D ++ [p])).
      { change (x_asg w) with (undone (x_part h0) (x_asg h0) D) in *. rewrite undone_length in La2.
        apply (nth_ext _ _ 0 0); [rewrite undone_length; exact La2|]. intros r Hr. rewrite La2 in Hr.
        pose proof (P6 r Hr) as Q. rewrite X2 in Q. cbn [x_asg] in Q. rewrite Q, F2, !undone_nth by exact Hr.
        destruct (in_dec Nat.eq_dec (nth r (x_part h0) 0) (D ++ [p])) as [Y|Y]; rewrite in_app_iff in Y; cbn [In] in Y;
        destruct (Nat.eqb_spec (nth r (x_part h0) 0) p) as [Z|Z]; destruct (in_dec Nat.eq_dec (nth r (x_part h0) 0) D) as [W|W]; auto; try tauto; intuition congruence. }
      exists (D ++ [p]). cbn [fst snd]. sx.
      assert (Es : with_asg st (undone (x_part h0) (x_asg h0) (D ++ [p])) = with_asg st (undone (x_part h0) (x_asg h0) (D ++ [p]))) by reflexivity.
      splits; auto.
      + rewrite <- HD, <- app_assoc. reflexivity.
      + intros q Hq. destruct (Hrem q (or_intror Hq)) as (A & B). split; [exact A|]. rewrite in_app_iff. cbn [In].
        intros [Y|[Y|[]]]; [tauto|]. subst q. tauto.
      + rewrite F3, erased_snoc. reflexivity.
      + rewrite fc_set_new by (unfold finkeys in Fp; exact Fp). rewrite F4, map_app, <- app_assoc. cbn [map]. unfold crow.
        destruct Hcl as (_ & Hd & _). rewrite Hd. reflexivity.
      + rewrite upd_length. exact F5.
      + intros q. rewrite nth_upd by exact Lrev. rewrite in_app_iff. cbn [In]. destruct (Nat.eqb_spec q p) as [->|Hne]; [tauto|].
        rewrite F6. split; [auto|]. intros [Y|[Y|[]]]; [exact Y|congruence].
      + eapply rinv_ginv with (c := cc). 
        match goal with |- rinv _ _ _ _ _ _ ?t => replace t with (with_hcl s2 (upd (x_hcl st) p None)); [exact R2|] end.
        rewrite X2, Easg. reflexivity.
      + change (ready g ws data M (with_hcl s2 (upd (x_hcl st) p None))) in Rd2. rewrite X2, Easg in Rd2. exact Rd2.
      + rewrite X2, Easg in St2. exact St2. }
  rewrite E1 in L1. cbn [oke] in L1. destruct L1 as (D & HD & _ & _ & F1 & F2 & F3 & F4 & F5 & F6 & F7 & Gv & Rv & Sv). cbn [fst snd filter] in *. cbv zeta in *.
  rewrite app_nil_r in HD. change (filter rj keys) with (g_rejects s) in HD. subst D.
  assert (EA : a = undone (x_part h0) (x_asg h0) (g_rejects s)).
  { assert (Q : length a = n /\ forall r, r < n -> nth r a 0 = nth r (undone (x_part h0) (x_asg h0) (g_rejects s)) 0).
    { assert (Q0 : length a = n /\ forall r, r < n -> nth r a 0 = if r <? g_nrow g then nth r (undone (x_part h0) (x_asg h0) (g_rejects s)) 0 else nth r (x_asg h0) 0).
      2:{ destruct Q0 as (Lb & Hb). split; [exact Lb|]. intros r Hr. rewrite Hb by exact Hr. destruct (Nat.ltb_spec r (g_nrow g)); [reflexivity|unfold n in Hr; lia]. }
      apply (@loop_inv_ok _ (fun i a => length a = n /\ forall r, r < n -> nth r a 0 = if r <? i then nth r (undone (x_part h0) (x_asg h0) (g_rejects s)) 0 else nth r (x_asg h0) 0) _ _ _ _ Ea).
      - rewrite F1. split; [exact La|]. auto.
      - intros i a1 b Hi (La1 & Ha1) H. fold n in Hi. rewrite F2, (@aget_nth _ (x_part h0) i 0) in H by lia. cbn [bind] in H.
        assert (Ein : (nth i (x_part h0) 0 <? length rev) && nth (nth i (x_part h0) 0) rev false = true <-> In (nth i (x_part h0) 0) (g_rejects s)).
        { rewrite andb_true_iff, F6. split; [tauto|]. intros X. split; [|exact X]. apply F6 in X. apply Nat.ltb_lt.
          destruct (Nat.lt_ge_cases (nth i (x_part h0) 0) (length rev)); auto. rewrite nth_overflow in X by lia. discriminate. }
        destruct ((nth i (x_part h0) 0 <? length rev) && nth (nth i (x_part h0) 0) rev false) eqn:Eb.
        + apply aset_inv in H as (_ & ->). rewrite upd_length. split; [exact La1|]. intros r Hr. rewrite nth_upd by lia.
          destruct (Nat.eqb_spec r i) as [->|Hne].
          * destruct (Nat.ltb_spec i (S i)); [|lia]. rewrite undone_nth by exact Hi. destruct in_dec as [_|X]; [reflexivity|]. destruct X. apply Ein. reflexivity.
          * rewrite Ha1 by exact Hr. destruct (Nat.ltb_spec r i), (Nat.ltb_spec r (S i)); auto; lia.
        + injection H as <-. split; [exact La1|]. intros r Hr. rewrite Ha1 by exact Hr.
          destruct (Nat.eq_dec r i) as [->|Hne].
          * destruct (Nat.ltb_spec i i); [lia|]. destruct (Nat.ltb_spec i (S i)); [|lia]. rewrite undone_nth by exact Hi.
            destruct in_dec as [X|_]; [|reflexivity]. apply Ein in X. discriminate.
          * destruct (Nat.ltb_spec r i), (Nat.ltb_spec r (S i)); auto; lia. }
    destruct Q as (Q1 & Q2). apply (nth_ext _ _ 0 0); [rewrite undone_length; exact Q1|]. intros r Hr. apply Q2. lia. }
  subst a. exists (with_asg h1 (undone (x_part h0) (x_asg h0) (g_rejects s))). sx. splits; auto.
  intros p Hp. destruct (F7 p Hp) as [[]|X]; exact X.
Qed.
End Scores.
