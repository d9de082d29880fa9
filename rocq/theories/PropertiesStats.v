(** C44: the pruning counters. *)
From Coq Require Import Reals Lra.
From Verif Require Import Base Num ContainersModel.
Set Implicit Arguments.
Unset Strict Implicit.
Local Open Scope Z_scope.

(** Specification: what one recorded event contributes to each of the five
    counters, and the sums over a thread, an iteration and a run. *)
Inductive kind := KL1 | K3a | K3b | K3c | K4.
Definition amount (k : kind) (e : pev) : Z :=
  match k, e with
  | KL1, EvL1 v => v
  | K3a, Ev3a | K3b, Ev3b | K3c, Ev3c | K4, Ev4 => 1
  | _, _ => 0
  end.
Definition zsum (l : list Z) : Z := fold_right Z.add 0 l.
Definition thread_sum (k : kind) (evs : list pev) : Z := zsum (map (amount k) evs).
Definition iter_sum (k : kind) (thds : list (list pev)) : Z := zsum (map (thread_sum k) thds).
Definition run_sum (k : kind) (hist : list (list (list pev))) : Z := zsum (map (iter_sum k) hist).
Definition iter_total (t : list (list pev)) : Z :=
  iter_sum KL1 t + iter_sum K3a t + iter_sum K3b t + iter_sum K3c t + iter_sum K4 t.

Definition nonneg (evs : list pev) : Prop :=
  Forall (fun e => match e with EvL1 v => 0 <= v | _ => True end) evs.

Definition cur (k : kind) (s : pstats) : Z :=
  match k with KL1 => ps_l1 s | K3a => ps_3a s | K3b => ps_3b s | K3c => ps_3c s | K4 => ps_4 s end.
Definition tot (k : kind) (s : pstats) : Z :=
  match k with KL1 => ps_tl1 s | K3a => ps_t3a s | K3b => ps_t3b s | K3c => ps_t3c s | K4 => ps_t4 s end.

Definition same_tot (s s' : pstats) : Prop :=
  (forall k, tot k s' = tot k s) /\ ps_iter s' = ps_iter s /\ ps_nrow s' = ps_nrow s /\
  ps_nclust s' = ps_nclust s.

Lemma w64_id x : 0 <= x < 2 ^ 64 -> w64 x = x.
Proof. intros H. apply Z.mod_small. exact H. Qed.

Lemma amount_nonneg k e : nonneg [e] -> 0 <= amount k e.
Proof. intros H. inversion H; subst. destruct k, e; cbn in *; lia. Qed.

Lemma zsum_nonneg l : Forall (fun x => 0 <= x) l -> 0 <= zsum l.
Proof. unfold zsum. induction 1; cbn [fold_right]; lia. Qed.

Lemma thread_nonneg k evs : nonneg evs -> 0 <= thread_sum k evs.
Proof.
  intros H. apply zsum_nonneg. induction H; cbn; constructor; auto.
  apply amount_nonneg. constructor; auto.
Qed.

Lemma iter_nonneg k thds : Forall nonneg thds -> 0 <= iter_sum k thds.
Proof.
  intros H. apply zsum_nonneg. induction H; cbn; constructor; auto. apply thread_nonneg; auto.
Qed.

Lemma event_cur e s : (forall k, 0 <= cur k s) -> nonneg [e] ->
  (forall k, cur k s + amount k e < 2 ^ 64) ->
  (forall k, cur k (ps_event e s) = cur k s + amount k e) /\ same_tot s (ps_event e s).
Proof.
  intros H0 Hn H. unfold same_tot.
  split; [|destruct e; cbn; splits; auto; intros []; reflexivity].
  intros k. pose proof (H k) as Hk. pose proof (H0 k) as H0k. pose proof (@amount_nonneg k _ Hn) as Ha.
  destruct k, e; cbn [ps_event ps_pp_l1 ps_pp_3a ps_pp_3b ps_pp_3c ps_pp_4 cur amount ps_l1 ps_3a ps_3b ps_3c ps_4] in *;
    rewrite ?w64_id by lia; lia.
Qed.

Lemma events_cur : forall evs s, (forall k, 0 <= cur k s) -> nonneg evs ->
  (forall k, cur k s + thread_sum k evs < 2 ^ 64) ->
  (forall k, cur k (ps_events evs s) = cur k s + thread_sum k evs) /\ same_tot s (ps_events evs s).
Proof.
  induction evs as [|e t IH]; intros s H0 Hn H; unfold ps_events in *; cbn [fold_left].
  - split; [intros k; cbn; lia|]. unfold same_tot; auto.
  - inversion Hn as [|? ? Hn1 Hn2]; subst.
    assert (Ne : nonneg [e]) by (constructor; auto).
    destruct (@event_cur e s) as (E1 & T1); auto.
    { intros k. specialize (H k). unfold thread_sum in *. cbn [map zsum fold_right] in H.
      pose proof (@thread_nonneg k _ Hn2). unfold thread_sum, zsum in *. lia. }
    destruct (IH (ps_event e s)) as (E2 & T2); auto.
    + intros k. rewrite E1. pose proof (@amount_nonneg k _ Ne). specialize (H0 k). lia.
    + intros k. rewrite E1. specialize (H k). unfold thread_sum in *. cbn [map zsum fold_right] in H. unfold zsum. lia.
    + split.
      * intros k. rewrite E2, E1. unfold thread_sum. cbn [map zsum fold_right]. unfold zsum. lia.
      * destruct T1 as (A & B & C & D), T2 as (A' & B' & C' & D'). unfold same_tot.
        splits; try congruence; intros k; rewrite A', A; reflexivity.
Qed.

(** the coordinator's aggregation loop *)
Definition agg thds s :=
  fold_left (fun s evs => ps_add s (ps_events evs (ps_create (ps_nrow s) (ps_nclust s)))) thds s.

Lemma agg_cur : forall thds s, (forall k, 0 <= cur k s) -> Forall nonneg thds ->
  (forall k, cur k s + iter_sum k thds < 2 ^ 64) ->
  (forall k, cur k (agg thds s) = cur k s + iter_sum k thds) /\ same_tot s (agg thds s).
Proof.
  induction thds as [|evs t IH]; intros s H0 Hn H; unfold agg in *; cbn [fold_left].
  - split; [intros k; cbn; lia|]. unfold same_tot; auto.
  - inversion Hn as [|? ? Hn1 Hn2]; subst.
    set (p := ps_create (ps_nrow s) (ps_nclust s)).
    assert (B : forall k, cur k s + thread_sum k evs + iter_sum k t < 2 ^ 64).
    { intros k. specialize (H k). unfold iter_sum in *. cbn [map zsum fold_right] in H. unfold zsum. lia. }
    destruct (@events_cur evs p) as (E1 & _); auto.
    { intros []; cbn; lia. }
    { intros k. replace (cur k p) with 0 by (destruct k; reflexivity).
      specialize (B k). specialize (H0 k). pose proof (@iter_nonneg k _ Hn2). lia. }
    assert (E2 : forall k, cur k (ps_add s (ps_events evs p)) = cur k s + thread_sum k evs).
    { intros k. specialize (B k). specialize (H0 k). pose proof (@iter_nonneg k _ Hn2).
      pose proof (@thread_nonneg k _ Hn1). specialize (E1 k).
      replace (cur k p) with 0 in E1 by (destruct k; reflexivity).
      rewrite <- (@w64_id (cur k s + thread_sum k evs)) by lia.
      destruct k; cbn [cur ps_add ps_l1 ps_3a ps_3b ps_3c ps_4] in *; rewrite E1; reflexivity. }
    destruct (IH (ps_add s (ps_events evs p))) as (E3 & T3); auto.
    + intros k. rewrite E2. specialize (H0 k). pose proof (@thread_nonneg k _ Hn1). lia.
    + intros k. rewrite E2. apply B.
    + split.
      * intros k. rewrite E3, E2. unfold iter_sum. cbn [map zsum fold_right]. unfold zsum. lia.
      * destruct T3 as (A' & B' & C' & D'). unfold same_tot.
        splits; try (rewrite ?B', ?C', ?D'; reflexivity); intros k; rewrite A'; destruct k; reflexivity.
Qed.

Definition fresh (s : pstats) : Prop := forall k, cur k s = 0.

(** One iteration of any number of threads recording any events: it aborts iff
    the recorded total exceeds nrow*k, and otherwise adds exactly the recorded
    amounts to the totals, counts the iteration and starts afresh. *)
Theorem c44_iteration : forall thds s, fresh s -> Forall nonneg thds ->
  0 <= ps_nrow s * ps_nclust s < 2 ^ 64 -> iter_total thds < 2 ^ 64 ->
  (iter_total thds > ps_nrow s * ps_nclust s -> ps_iteration thds s = Err Abort) /\
  (iter_total thds <= ps_nrow s * ps_nclust s ->
   exists s', ps_iteration thds s = Ok s' /\ fresh s' /\
     (forall k, tot k s' = w64 (tot k s + iter_sum k thds)) /\
     ps_iter s' = w64 (ps_iter s + 1) /\ ps_nrow s' = ps_nrow s /\ ps_nclust s' = ps_nclust s).
Proof.
  intros thds s F Hn HB HT. unfold ps_iteration. fold (agg thds s).
  pose proof (fun k => @iter_nonneg k _ Hn) as NN. unfold iter_total in *.
  pose proof (NN KL1); pose proof (NN K3a); pose proof (NN K3b); pose proof (NN K3c); pose proof (NN K4).
  destruct (@agg_cur thds s) as (E & TT & IT & RW & CL); auto.
  { intros k. rewrite F. lia. }
  { intros k. rewrite F. destruct k; lia. }
  pose proof (E KL1) as E1; pose proof (E K3a) as E2; pose proof (E K3b) as E3;
  pose proof (E K3c) as E4; pose proof (E K4) as E5. rewrite !F in *. cbn [cur] in *.
  unfold ps_finalize. rewrite E1, E2, E3, E4, E5, RW, CL, IT, !Z.add_0_l.
  rewrite (@w64_id (ps_nrow s * ps_nclust s)) by lia.
  rewrite (@w64_id (_ + _ + _ + _ + _)) by lia.
  destruct (Z.leb_spec (iter_sum KL1 thds + iter_sum K3a thds + iter_sum K3b thds + iter_sum K3c thds + iter_sum K4 thds)
     (ps_nrow s * ps_nclust s)) as [L|L]; cbn [assert_ bind].
  - split; [lia|]. intros _. eexists; split; [reflexivity|]. splits; auto.
    + intros []; reflexivity.
    + intros k. pose proof (TT k). destruct k; cbn [tot ps_tl1 ps_t3a ps_t3b ps_t3c ps_t4] in *; congruence.
  - split; [reflexivity|lia].
Qed.

(** C44, a whole run: if every iteration records at most nrow*k events (and the
    machine word holds the grand total), the run ends normally with the totals
    exactly the sums over all iterations and threads and with the number of
    iterations; if some iteration records more, the run aborts. *)
Theorem c44_run : forall hist nrow nclust,
  Forall (Forall nonneg) hist -> 0 <= nrow * nclust < 2 ^ 64 ->
  Forall (fun t => iter_total t < 2 ^ 64) hist ->
  (Exists (fun t => iter_total t > nrow * nclust) hist ->
     ps_run hist (ps_create nrow nclust) = Err Abort) /\
  (Forall (fun t => iter_total t <= nrow * nclust) hist ->
   (forall k, run_sum k hist < 2 ^ 64) -> Z.of_nat (length hist) < 2 ^ 64 ->
   exists s, ps_run hist (ps_create nrow nclust) = Ok s /\ fresh s /\
     (forall k, tot k s = run_sum k hist) /\ ps_iter s = Z.of_nat (length hist) /\
     ps_nrow s = nrow /\ ps_nclust s = nclust).
Proof.
  intros hist nrow nclust Hn HB HT.
  assert (G : forall hist s, fresh s -> ps_nrow s = nrow -> ps_nclust s = nclust ->
     Forall (Forall nonneg) hist -> Forall (fun t => iter_total t < 2 ^ 64) hist ->
     (forall k, 0 <= tot k s) -> 0 <= ps_iter s ->
     (Exists (fun t => iter_total t > nrow * nclust) hist -> ps_run hist s = Err Abort) /\
     (Forall (fun t => iter_total t <= nrow * nclust) hist ->
      (forall k, tot k s + run_sum k hist < 2 ^ 64) -> ps_iter s + Z.of_nat (length hist) < 2 ^ 64 ->
      exists s', ps_run hist s = Ok s' /\ fresh s' /\
        (forall k, tot k s' = tot k s + run_sum k hist) /\
        ps_iter s' = ps_iter s + Z.of_nat (length hist) /\ ps_nrow s' = nrow /\ ps_nclust s' = nclust)).
  { clear hist Hn HT. induction hist as [|t hist IH]; intros s F Rw Cl Hn HT HP HI.
    - split; [intros H; inversion H|]. intros _ _ _. exists s. unfold ps_run; cbn [for_each length].
      splits; auto; try lia. intros k; cbn; lia.
    - inversion Hn as [|? ? Hn1 Hn2]; subst t hist. inversion HT as [|? ? HT1 HT2]; subst x0 l0.
      destruct (@c44_iteration x s F Hn1) as (IA & IB); [rewrite Rw, Cl; auto|auto|].
      rewrite Rw, Cl in *. unfold ps_run in *. cbn [for_each].
      destruct (Z_gt_le_dec (iter_total x) (nrow * nclust)) as [D|D].
      + rewrite (IA D). cbn [bind]. split; [auto|]. intros H. inversion H; subst. lia.
      + destruct (IB D) as (s1 & E1 & F1 & T1 & I1 & R1 & C1). rewrite E1. cbn [bind].
        assert (P1 : forall k, 0 <= tot k s1).
        { intros k. rewrite T1. apply Z.mod_pos_bound. reflexivity. }
        assert (PI1 : 0 <= ps_iter s1) by (rewrite I1; apply Z.mod_pos_bound; reflexivity).
        destruct (IH s1) as (A & B); auto; try congruence. split.
        * intros H. inversion H; subst; [lia|]. auto.
        * intros HF HS HL. inversion HF; subst.
          assert (RS : forall k, run_sum k (x :: l) = iter_sum k x + run_sum k l) by reflexivity.
          assert (NS : forall k, 0 <= run_sum k l).
          { intros k. apply zsum_nonneg. clear - Hn2. induction Hn2; cbn; constructor; auto.
            apply iter_nonneg; auto. }
          assert (T1' : forall k, tot k s1 = tot k s + iter_sum k x).
          { intros k. rewrite T1. apply w64_id. specialize (HS k). rewrite RS in HS.
            specialize (NS k). specialize (HP k). pose proof (@iter_nonneg k _ Hn1). lia. }
          assert (I1' : ps_iter s1 = ps_iter s + 1).
          { rewrite I1. apply w64_id. cbn [length] in HL. lia. }
          destruct B as (s' & E' & F' & T' & I' & R' & C'); auto.
          { intros k. rewrite T1'. specialize (HS k). rewrite RS in HS. lia. }
          { rewrite I1'. cbn [length] in HL. lia. }
          exists s'. splits; auto.
          -- intros k. rewrite T', T1', RS. lia.
          -- rewrite I', I1'. cbn [length]. lia. }
  destruct (G hist (ps_create nrow nclust)) as (A & B); auto;
    [intros []; reflexivity|intros []; cbn; lia|cbn; lia|].
  split; [exact A|]. intros HF HS HL. destruct B as (s & E & F & T & I & R & C); auto.
  { intros k. replace (tot k (ps_create nrow nclust)) with 0 by (destruct k; reflexivity). apply HS. }
  exists s. splits; auto.
  intros k. rewrite T. replace (tot k (ps_create nrow nclust)) with 0 by (destruct k; reflexivity). lia.
Qed.

(** The percentages reported after such a run (exact arithmetic): each is the
    recorded share of the nrow*k*iterations possible distance computations,
    between 0 and 100, and the last is the sum of the other five. *)
Theorem c44_percentages : forall s : pstats,
  (forall k, 0 <= tot k s) ->
  tot KL1 s + tot K3a s + tot K3b s + tot K3c s + tot K4 s <= ps_nrow s * ps_iter s * ps_nclust s ->
  0 < ps_nrow s * ps_iter s * ps_nclust s < 2 ^ 64 -> 0 <= ps_nrow s * ps_iter s < 2 ^ 64 ->
  exists a b c d e t : R, ps_get_stats NumR s = [a; b; c; d; e; t] /\
    (t = a + b + c + d + e /\ t <= 100 /\
     0 <= a /\ 0 <= b /\ 0 <= c /\ 0 <= d /\ 0 <= e /\
     a * IZR (ps_nrow s * ps_iter s * ps_nclust s) = 100 * IZR (tot KL1 s) /\
     b * IZR (ps_nrow s * ps_iter s * ps_nclust s) = 100 * IZR (tot K3a s) /\
     c * IZR (ps_nrow s * ps_iter s * ps_nclust s) = 100 * IZR (tot K3b s) /\
     d * IZR (ps_nrow s * ps_iter s * ps_nclust s) = 100 * IZR (tot K3c s) /\
     e * IZR (ps_nrow s * ps_iter s * ps_nclust s) = 100 * IZR (tot K4 s))%R.
Proof.
  intros s HP HS HD HD2.
  pose proof (HP KL1) as P1; pose proof (HP K3a) as P2; pose proof (HP K3b) as P3;
  pose proof (HP K3c) as P4; pose proof (HP K4) as P5. cbn [tot] in *.
  set (D := ps_nrow s * ps_iter s * ps_nclust s) in *.
  assert (HDR : (0 < IZR D)%R) by (apply IZR_lt; lia).
  pose (q := fun z => (IZR z / IZR D * 100)%R).
  exists (q (ps_tl1 s)), (q (ps_t3a s)), (q (ps_t3b s)), (q (ps_t3c s)), (q (ps_t4 s)),
    (q (ps_t3b s + ps_t3a s + ps_t3c s + ps_t4 s + ps_tl1 s)).
  split.
  - unfold ps_get_stats. rewrite (@w64_id (ps_nrow s * ps_iter s)) by exact HD2.
    fold D. rewrite (@w64_id (D)) by lia.
    rewrite (@w64_id (_ + _ + _ + _ + _)) by lia. reflexivity.
  - assert (QN : forall z, 0 <= z -> (0 <= q z)%R).
    { intros z Hz. unfold q. apply Rmult_le_pos; [|lra]. unfold Rdiv. apply Rmult_le_pos; [apply IZR_le; lia|]. left. apply Rinv_0_lt_compat. exact HDR. }
    assert (QM : forall z, (q z * IZR D = 100 * IZR z)%R) by (intros z; unfold q; field; lra).
    splits; try (apply QN; assumption); try apply QM.
    + unfold q. rewrite !plus_IZR. field. lra.
    + unfold q. apply Rmult_le_reg_r with (r := IZR D); [exact HDR|].
      replace (IZR (ps_t3b s + ps_t3a s + ps_t3c s + ps_t4 s + ps_tl1 s) / IZR D * 100 * IZR D)%R
        with (IZR (ps_t3b s + ps_t3a s + ps_t3c s + ps_t4 s + ps_tl1 s) * 100)%R by (field; lra).
      rewrite Rmult_comm. apply Rmult_le_compat_l; [lra|]. apply IZR_le. lia.
Qed.

(** Per-thread activation counts: after [complete] the list of totals grows by
    the number of activations recorded in the iteration, whichever threads
    recorded them. *)
Theorem c44_activations : forall thds s,
  (forall t, In t thds -> (t < length (ac_cnt s))%nat) ->
  ac_cnt s = repeat 0 (length (ac_cnt s)) -> Z.of_nat (length thds) < 2 ^ 64 ->
  exists s1, for_each thds (fun t s => ac_active s t) s = Ok s1 /\
    ac_agg (ac_complete s1) = ac_agg s ++ [Z.of_nat (length thds)] /\
    ac_cnt (ac_complete s1) = repeat 0 (length (ac_cnt s)).
Proof.
  intros thds s Hin Hz HL.
  assert (G : forall thds s, (forall t, In t thds -> (t < length (ac_cnt s))%nat) ->
     Forall (fun x => 0 <= x) (ac_cnt s) -> zsum (ac_cnt s) + Z.of_nat (length thds) < 2 ^ 64 ->
     exists s1, for_each thds (fun t s => ac_active s t) s = Ok s1 /\
       ac_agg s1 = ac_agg s /\ length (ac_cnt s1) = length (ac_cnt s) /\
       Forall (fun x => 0 <= x) (ac_cnt s1) /\
       zsum (ac_cnt s1) = zsum (ac_cnt s) + Z.of_nat (length thds)).
  { clear. induction thds as [|t l IH]; intros s Hin Hp HB; cbn [for_each].
    - exists s; splits; auto. cbn [length]; lia.
    - unfold ac_active. rewrite (amod_nth _ _ 0) by (apply Hin; left; auto). cbn [bind].
      assert (Z1 : forall l i, (i < length l)%nat -> Forall (fun x => 0 <= x) l -> zsum l < 2 ^ 64 - 1 ->
         zsum (upd l i (w64 (nth i l 0 + 1))) = zsum l + 1 /\ Forall (fun x => 0 <= x) (upd l i (w64 (nth i l 0 + 1)))).
      { clear. induction l as [|x l IH]; intros [|i] Hi Hp HB; cbn [length] in Hi; try lia;
          inversion Hp; subst; cbn [zsum fold_right] in HB; fold (zsum l) in HB;
          pose proof (zsum_nonneg H2); cbn [upd nth zsum fold_right]; fold (zsum l).
        - rewrite w64_id by lia. split; [lia|]. constructor; auto; lia.
        - destruct (IH i) as (A & B); auto; try lia. unfold zsum in *. split; [lia|]. constructor; auto. }
      destruct (Z1 (ac_cnt s) t) as (A & B); auto.
      { apply Hin; left; auto. } { cbn [length] in HB. lia. }
      set (s0 := mkActc (upd (ac_cnt s) t (w64 (nth t (ac_cnt s) 0 + 1))) (ac_agg s)).
      destruct (IH s0) as (s1 & E & Ag & Le & Po & Su).
      + cbn. intros t' Ht'. rewrite upd_length. apply Hin; right; auto.
      + exact B.
      + unfold s0; cbn [ac_cnt]. rewrite A. cbn [length] in HB. lia.
      + exists s1. splits; auto.
        * rewrite Le. apply upd_length.
        * rewrite Su. unfold s0; cbn [ac_cnt]. rewrite A. cbn [length]. lia. }
  assert (ZR : forall n, zsum (repeat 0 n) = 0) by (induction n as [|n IHn]; [reflexivity|exact IHn]).
  destruct (G thds s) as (s1 & E & Ag & Le & Po & Su); auto.
  { rewrite Hz. apply Forall_forall. intros x Hx. apply repeat_spec in Hx. lia. }
  { rewrite Hz, ZR. lia. }
  exists s1. split; [exact E|]. unfold ac_complete; cbn [ac_agg ac_cnt]. rewrite Ag, Le. split; auto.
  do 2 f_equal. rewrite Hz, ZR in Su.
  assert (FS : forall l a, Forall (fun x => 0 <= x) l -> 0 <= a -> a + zsum l < 2 ^ 64 ->
     fold_left (fun t x => w64 (t + x)) l a = a + zsum l).
  { clear. induction l as [|x l IH]; intros a Hp Ha HB; cbn [fold_left zsum fold_right].
    - lia.
    - cbn [zsum fold_right] in HB. fold (zsum l) in *. inversion Hp; subst.
      pose proof (zsum_nonneg H2). rewrite (@w64_id (a + x)) by lia. rewrite IH; auto; lia. }
  rewrite FS; auto; lia.
Qed.

(** Active-row record: after a full pass that reports [v i] for every row [i], the
    record of the current iteration says a row is active iff it was reported
    active in this iteration and in the previous one. *)
Theorem c44_active_rows : forall n (v : nat -> bool) s prev old cur,
  av_prev s = prev -> av_active s = cur :: old -> length prev = n -> length cur = n ->
  exists s', loop n (fun i s => av_is_active s i (v i)) s = Ok s' /\
    av_prev s' = map v (seq 0 n) /\
    exists cur', av_active s' = cur' :: old /\ length cur' = n /\
      forall i, (i < n)%nat -> nth i cur' false = v i && nth i prev false.
Proof.
  intros n v s prev old cur0 Ep Ea Lp Lc.
  pose (P := fun i s' => length (av_prev s') = n /\
     (forall j, (j < n)%nat -> nth j (av_prev s') false = if (j <? i)%nat then v j else nth j prev false) /\
     exists cur', av_active s' = cur' :: old /\ length cur' = n /\
       forall j, (j < i)%nat -> nth j cur' false = v j && nth j prev false).
  pose proof (@loop_okp _ P n (fun i s => av_is_active s i (v i)) s) as L.
  assert (HL : okp (loop n (fun i s => av_is_active s i (v i)) s) (P n)).
  { apply L.
    - unfold P. rewrite Ep. splits; auto. exists cur0; splits; auto. intros j Hj; lia.
    - intros j s' Hj (A & B & c' & C & D & E). unfold av_is_active.
      rewrite (aget_nth _ false) by lia. cbn [bind]. rewrite C.
      rewrite !aset_ok by lia. cbn [bind okp]. unfold P; cbn [av_prev av_active].
      rewrite upd_length. splits; auto.
      + intros i Hi. rewrite nth_upd by lia.
        destruct (Nat.eqb_spec i j) as [->|].
        * destruct (Nat.ltb_spec j (S j)); [auto|lia].
        * rewrite B by lia. destruct (Nat.ltb_spec i j), (Nat.ltb_spec i (S j)); auto; lia.
      + eexists; split; [reflexivity|]. rewrite upd_length. split; auto.
        intros i Hi. rewrite nth_upd by lia. destruct (Nat.eqb_spec i j) as [->|].
        * rewrite B by lia. rewrite Nat.ltb_irrefl. reflexivity.
        * apply E. lia. }
  apply okp_iff in HL as (s' & E & A & B & c' & C & D & F).
  exists s'. split; [exact E|]. split.
  - apply nth_ext with (d := false) (d' := v O).
    + rewrite map_length, seq_length. exact A.
    + intros i Hi. rewrite A in Hi. rewrite B by exact Hi.
      destruct (Nat.ltb_spec i n); [|lia]. rewrite map_nth, seq_nth by lia. reflexivity.
  - exists c'. splits; auto.
Qed.

(** The whole history of a counter object: iterations in which the threads
    [thds] reported activations; one total per iteration, in order. *)
Theorem c44_activation_history : forall nthread (hist : list (list nat)),
  (forall thds t, In thds hist -> In t thds -> (t < nthread)%nat) ->
  (forall thds, In thds hist -> Z.of_nat (length thds) < 2 ^ 64) ->
  exists s, for_each hist (fun thds s => let* s1 := for_each thds (fun t s => ac_active s t) s in Ok (ac_complete s1)) (ac_create nthread) = Ok s /\
    ac_agg s = map (fun thds => Z.of_nat (length thds)) hist.
Proof.
  intros nthread hist Ht Hl.
  assert (G : forall h s, (forall thds t, In thds h -> In t thds -> (t < nthread)%nat) -> (forall thds, In thds h -> Z.of_nat (length thds) < 2 ^ 64) ->
    ac_cnt s = repeat 0 nthread ->
    exists s', for_each h (fun thds s => let* s1 := for_each thds (fun t s => ac_active s t) s in Ok (ac_complete s1)) s = Ok s' /\
      ac_agg s' = ac_agg s ++ map (fun thds => Z.of_nat (length thds)) h).
  { clear. induction h as [|thds h IH]; intros s Ht Hl Hc; cbn [for_each map].
    - exists s. split; [reflexivity|]. rewrite app_nil_r. reflexivity.
    - assert (Lc : length (ac_cnt s) = nthread) by (rewrite Hc; apply repeat_length).
      destruct (@c44_activations thds s) as (s1 & E1 & A1 & C1).
      { intros t Hin. rewrite Lc. apply (Ht thds); [left; reflexivity|exact Hin]. }
      { rewrite Lc. exact Hc. }
      { apply Hl. left. reflexivity. }
      rewrite E1. cbn [bind]. rewrite Lc in C1.
      destruct (IH (ac_complete s1)) as (s' & E' & A'); [intros; eapply Ht; [right|]; eauto|intros; apply Hl; right; assumption|exact C1|].
      exists s'. split; [exact E'|]. rewrite A', A1, <- app_assoc. reflexivity. }
  destruct (G hist (ac_create nthread) Ht Hl eq_refl) as (s & E & A). exists s. split; [exact E|]. rewrite A. reflexivity.
Qed.

(** The whole history of an active-row record: iteration [i] reports
    [nth i vs] for every row and is closed by [init_iter].  The [i]-th record says
    that a row was active in iterations [i] and [i - 1] (never in iteration 0), and
    a fresh record is open. *)
Theorem c44_active_history : forall n (vs : list (nat -> bool)),
  exists s, for_each vs (fun v s => let* s := loop n (fun i s => av_is_active s i (v i)) s in Ok (av_init_iter s)) (av_create n) = Ok s /\
    length (av_active s) = S (length vs) /\
    forall i r, (i < length vs)%nat -> (r < n)%nat ->
      nth r (nth i (rev (av_active s)) []) false =
      nth i vs (fun _ => false) r && match i with O => false | S i' => nth i' vs (fun _ => false) r end.
Proof.
  intros n vs.
  assert (G : forall vs s prev old, av_nrow s = n -> av_prev s = map prev (seq 0 n) -> av_active s = repeat false n :: old ->
    exists s', for_each vs (fun v s => let* s := loop n (fun i s => av_is_active s i (v i)) s in Ok (av_init_iter s)) s = Ok s' /\
      exists recs, av_active s' = repeat false n :: rev recs ++ old /\ length recs = length vs /\
      forall i r, (i < length vs)%nat -> (r < n)%nat ->
        nth r (nth i recs []) false = nth i vs (fun _ => false) r && match i with O => prev r | S i' => nth i' vs (fun _ => false) r end).
  { clear. induction vs as [|v vs IH]; intros s prev old Hn Hp Ha; cbn [for_each].
    - exists s. split; [reflexivity|]. exists []. cbn [rev app length]. split; [exact Ha|]. split; [reflexivity|]. intros i r Hi. cbn in Hi. lia.
    - assert (N1 : forall m k s, av_nrow s = n -> forall s', for_ m k (fun i s => av_is_active s i (v i)) s = Ok s' -> av_nrow s' = n).
      { clear. induction m as [|m IH]; intros k s Hn s' E; cbn [for_] in E; [injection E as <-; exact Hn|].
        destruct (av_is_active s k (v k)) as [s1|e] eqn:E1; [|discriminate]. cbn [bind] in E. apply (IH (S k) s1); [|exact E].
        unfold av_is_active in E1. apply bind_ok in E1 as (w & _ & E1). destruct (av_active s); [discriminate|].
        apply bind_ok in E1 as (c & _ & E1). apply bind_ok in E1 as (p & _ & E1). injection E1 as <-. exact Hn. }
      destruct (@c44_active_rows n v s (map prev (seq 0 n)) old (repeat false n)) as (s1 & E1 & P1 & cur & A1 & L1 & V1); auto.
      { rewrite map_length. apply seq_length. } { apply repeat_length. }
      pose proof (N1 n 0%nat s Hn s1 E1) as Hn1. rewrite E1. cbn [bind].
      destruct (IH (av_init_iter s1) v (cur :: old)) as (s' & E' & recs & A' & L' & V').
      + exact Hn1.
      + exact P1.
      + unfold av_init_iter. cbn [av_active]. rewrite Hn1, A1. reflexivity.
      + exists s'. split; [exact E'|]. exists (cur :: recs). split; [rewrite A'; cbn [rev]; rewrite <- app_assoc; reflexivity|]. split; [cbn [length]; lia|].
        intros [|i] r Hi Hr.
        * cbn [nth]. rewrite V1 by exact Hr. f_equal. rewrite (nth_indep _ false (prev 0%nat)) by (rewrite map_length, seq_length; exact Hr).
          rewrite map_nth, seq_nth by exact Hr. reflexivity.
        * cbn [nth]. cbn [length] in Hi. rewrite V' by (auto; lia). f_equal. destruct i; reflexivity. }
  destruct (G vs (av_create n) (fun _ => false) []) as (s & E & recs & A & L & V).
  - reflexivity.
  - unfold av_create, av_init_iter. cbn [av_prev]. clear. generalize 0%nat. induction n as [|n IH]; intros k; [reflexivity|]. cbn [repeat seq map]. f_equal. apply IH.
  - reflexivity.
  - exists s. split; [exact E|]. split; [rewrite A, app_nil_r; cbn [length]; rewrite rev_length; lia|].
    intros i r Hi Hr. rewrite A, app_nil_r. cbn [rev]. rewrite rev_involutive, app_nth1 by lia. apply V; assumption.
Qed.

(** Non-vacuity: two iterations of two threads; and an iteration that records
    more than nrow*k. *)
Example c44_ex :
  okmap (fun s => (ps_tl1 s, ps_t3a s, ps_t3b s, ps_t3c s, ps_t4 s, ps_iter s))
    (ps_run [[[EvL1 4; Ev3a]; [Ev3b; Ev3b]]; [[Ev4]; [EvL1 2; Ev3c]]] (ps_create 5 4))
  = Some (6, 1, 2, 1, 1, 2) /\
  ps_run [[[EvL1 4]]; [[EvL1 19]; [Ev3a; Ev4]]] (ps_create 5 4) = Err Abort.
Proof. split; vm_compute; reflexivity. Qed.
