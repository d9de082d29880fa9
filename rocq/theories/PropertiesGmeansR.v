(** C103: G-means in exact arithmetic.  The Anderson-Darling statistic is never
    negative, the critical value is computed from the number of groups instead of the
    number of rows, and with at most three groups it is negative: no split is undone in
    such a round. *)
From Coq Require Import Reals Permutation Lra.
From Verif Require Import Base Num MatrixModel PropertiesMatrix DistModel DistProofs ClustersModel ClustersView ClustersProofs MatLemmas
  PartitionModel PartitionProofs ParModel KmeansModel ParProofs NearProofs KmeansProofs UpdateProofs RunProofs InitProofs Spec ParRule ParSim.
From Verif Require Import ContainersModel MatrixModel PropertiesIds HclustModel HclustProofs HclustUpdate HclustIter HclustSplit HclustRun Okab HclustDone HclustVerify
  XmeansModel XmeansProofs XmeansDecide XmeansRound XmeansRun PropertiesXmeans GmeansModel GmeansSplit GmeansSteps GmeansDecide GmeansRun PropertiesGmeans.
Set Implicit Arguments.
Unset Strict Implicit.
Local Open Scope R_scope.

(* ------------------------------------------------------------------ *)
(** * The statistic is not negative *)

Fixpoint sigma (n : nat) (f : nat -> R) : R := match n with 0%nat => 0 | S m => sigma m f + f m end.
Lemma sigma_ext n f h : (forall i, (i < n)%nat -> f i = h i) -> sigma n f = sigma n h.
Proof. induction n; intros H; cbn; auto. rewrite IHn, (H n) by auto. reflexivity. Qed.
Lemma sigma_le n f h : (forall i, (i < n)%nat -> f i <= h i) -> sigma n f <= sigma n h.
Proof. induction n; intros H; cbn; [lra|]. pose proof (H n ltac:(lia)). specialize (IHn (fun i Hi => H i ltac:(lia))). lra. Qed.
Lemma sigma_add n f h : sigma n (fun i => f i + h i) = sigma n f + sigma n h.
Proof. induction n; cbn; [lra|]. rewrite IHn. lra. Qed.
Lemma sigma_shift n f : sigma (S n) f = f 0%nat + sigma n (fun i => f (S i)).
Proof. induction n; [cbn; lra|]. change (sigma (S (S n)) f) with (sigma (S n) f + f (S n)). rewrite IHn. cbn. lra. Qed.
Lemma sigma_rev n : forall f, sigma n f = sigma n (fun i => f (n - 1 - i)%nat).
Proof.
  induction n; intros f; [reflexivity|]. rewrite (sigma_shift n (fun i => f (S n - 1 - i)%nat)). cbn [sigma].
  rewrite (IHn f). replace (S n - 1 - 0)%nat with n by lia. rewrite Rplus_comm. f_equal.
  apply sigma_ext. intros i Hi. f_equal. lia.
Qed.
Lemma sigma_scal n a f : sigma n (fun i => a * f i) = a * sigma n f.
Proof. induction n; cbn; [lra|]. rewrite IHn. lra. Qed.

Lemma ln_le_sub x : 0 < x -> ln x <= x - 1.
Proof. intros H. destruct (Req_dec x 1) as [->|Hx]; [rewrite ln_1; lra|]. pose proof (exp_ineq1 (ln x)) as E. rewrite exp_ln in E by exact H. destruct (Req_dec (ln x) 0) as [Z|Z]; [|specialize (E Z); lra]. rewrite <- ln_1 in Z. apply ln_inv in Z; lra. Qed.

(** [ln (1+x) >= 2x/(2+x)] *)
Lemma ln_ge_frac x : 0 <= x -> 2 * x / (2 + x) <= ln (1 + x).
Proof.
  intros Hx. set (G := fun y => ln (1 + y) - 2 * y / (2 + y)).
  destruct (Req_dec x 0) as [->|Hn]; [replace (1 + 0) with 1 by lra; rewrite ln_1; lra|].
  assert (HD : forall c, 0 <= c <= x -> derivable_pt_lim G c (/ (1 + c) * (0 + 1) - (2 * 1 * (2 + c) - (0 + 1) * (2 * c)) / Rsqr (2 + c))).
  { intros c Hc. apply (derivable_pt_lim_minus (fun y => ln (1 + y)) (fun y => 2 * y / (2 + y))).
    - apply (derivable_pt_lim_comp (fun y => 1 + y) ln).
      + apply (derivable_pt_lim_plus (fct_cte 1) id); [apply derivable_pt_lim_const|apply derivable_pt_lim_id].
      + apply derivable_pt_lim_ln. lra.
    - apply (derivable_pt_lim_div (fun y => 2 * y) (fun y => 2 + y)).
      + apply (derivable_pt_lim_scal id 2 c 1). apply derivable_pt_lim_id.
      + apply (derivable_pt_lim_plus (fct_cte 2) id); [apply derivable_pt_lim_const|apply derivable_pt_lim_id].
      + lra. }
  destruct (MVT_cor2 G (fun c => / (1 + c) * (0 + 1) - (2 * 1 * (2 + c) - (0 + 1) * (2 * c)) / Rsqr (2 + c)) 0 x ltac:(lra) HD) as (c & E & Hc).
  assert (P : 0 <= / (1 + c) * (0 + 1) - (2 * 1 * (2 + c) - (0 + 1) * (2 * c)) / Rsqr (2 + c)).
  { replace (/ (1 + c) * (0 + 1) - (2 * 1 * (2 + c) - (0 + 1) * (2 * c)) / Rsqr (2 + c)) with (c * c / ((1 + c) * Rsqr (2 + c))) by (unfold Rsqr; field; lra).
    apply Rle_mult_inv_pos; [nra|]. apply Rmult_lt_0_compat; [lra|]. unfold Rsqr. nra. }
  assert (G0 : G 0 = 0) by (unfold G; replace (1 + 0) with 1 by lra; rewrite ln_1; field).
  rewrite G0 in E. assert (0 <= G x) by nra. unfold G in *. lra.
Qed.

(** the sum of [m ln m] over the first odd numbers *)
Lemma odd_log_sum n : (1 <= n)%nat ->
  sigma n (fun i => (2 * INR i + 1) * ln (2 * INR i + 1)) <= INR n * INR n * ln (2 * INR n) - INR n * INR n / 2.
Proof.
  induction n as [|n IH]; [lia|]. intros _. destruct (Nat.eq_dec n 0) as [->|Hn].
  - cbn [sigma INR]. replace (2 * 0 + 1) with 1 by lra. rewrite ln_1. replace (2 * 1) with (1 + 1) by lra.
    pose proof (@ln_ge_frac 1 ltac:(lra)). lra.
  - specialize (IH ltac:(lia)). cbn [sigma]. rewrite S_INR. set (m := 2 * INR n + 1).
    assert (Hx : 1 <= INR n) by (change 1 with (INR 1); apply le_INR; lia).
    replace (2 * (INR n + 1)) with (m + 1) by (unfold m; lra). replace (2 * INR n) with (m - 1) in IH by (unfold m; lra).
    assert (Hm : 3 <= m) by (unfold m; lra).
    replace (INR n) with ((m - 1) / 2) in * by (unfold m; lra).
    set (A := sigma n _) in *. clearbody A m.
    assert (L1 : ln (m + 1) = ln m + ln (1 + / m)).
    { rewrite <- ln_mult; [f_equal; field; lra|lra|]. assert (0 < / m) by (apply Rinv_0_lt_compat; lra). lra. }
    assert (L2 : ln m = ln (m - 1) + ln (1 + / (m - 1))).
    { rewrite <- ln_mult; [f_equal; field; lra|lra|]. assert (0 < / (m - 1)) by (apply Rinv_0_lt_compat; lra). lra. }
    pose proof (@ln_ge_frac (/ m)) as B1. pose proof (@ln_ge_frac (/ (m - 1))) as B2.
    assert (I1 : 0 < / m) by (apply Rinv_0_lt_compat; lra). assert (I2 : 0 < / (m - 1)) by (apply Rinv_0_lt_compat; lra).
    specialize (B1 ltac:(lra)). specialize (B2 ltac:(lra)).
    replace (2 * / m / (2 + / m)) with (2 / (2 * m + 1)) in B1 by (field; lra).
    replace (2 * / (m - 1) / (2 + / (m - 1))) with (2 / (2 * m - 1)) in B2 by (field; lra).
    rewrite L1. assert (E : ln (m - 1) = ln m - ln (1 + / (m - 1))) by lra. rewrite E in IH. clear L1 L2 E.
    set (a := ln (1 + / m)) in *. set (b := ln (1 + / (m - 1))) in *. set (l := ln m) in *. clearbody a b l.
    assert (K : m / 2 <= (m + 1) * (m + 1) / 4 * a + (m - 1) * (m - 1) / 4 * b).
    { apply Rle_trans with ((m + 1) * (m + 1) / 4 * (2 / (2 * m + 1)) + (m - 1) * (m - 1) / 4 * (2 / (2 * m - 1))).
      - replace ((m + 1) * (m + 1) / 4 * (2 / (2 * m + 1)) + (m - 1) * (m - 1) / 4 * (2 / (2 * m - 1))) with (m / 2 + m / (2 * (4 * m * m - 1))).
        + assert (0 <= m / (2 * (4 * m * m - 1))) by (apply Rle_mult_inv_pos; nra). lra.
        + field. split; [|split]; nra.
      - apply Rplus_le_compat; apply Rmult_le_compat_l; try assumption; nra. }
    nra.
Qed.

(** for any values [u i] strictly between 0 and 1 *)
Lemma ad_sum_bound n (u : nat -> R) : (1 <= n)%nat -> (forall i, 0 < u i < 1) ->
  sigma n (fun i => (2 * INR i + 1) * (ln (u i) + ln (1 - u (n - 1 - i)%nat))) <= - (INR n * INR n).
Proof.
  intros Hn Hu.
  assert (Hx : 1 <= INR n) by (change 1 with (INR 1); apply le_INR; lia).
  assert (E : sigma n (fun i => (2 * INR i + 1) * (ln (u i) + ln (1 - u (n - 1 - i)%nat))) =
     sigma n (fun i => (2 * INR i + 1) * ln (u i) + (2 * INR n - (2 * INR i + 1)) * ln (1 - u i))).
  { rewrite (sigma_ext (n := n) (h := fun i => (2 * INR i + 1) * ln (u i) + (2 * INR i + 1) * ln (1 - u (n - 1 - i)%nat))) by (intros; ring).
    rewrite !sigma_add. f_equal. rewrite sigma_rev. apply sigma_ext. intros i Hi. replace (n - 1 - (n - 1 - i))%nat with i by lia.
    f_equal. rewrite minus_INR, minus_INR by lia. cbn [INR]. lra. }
  rewrite E. clear E.
  apply Rle_trans with (sigma n (fun i => ((2 * INR i + 1) * ln (2 * INR i + 1) + (2 * INR (n - 1 - i) + 1) * ln (2 * INR (n - 1 - i) + 1)) + - (2 * INR n * ln (2 * INR n)))).
  - apply sigma_le. intros i Hi. specialize (Hu i). set (p := 2 * INR i + 1). set (q := 2 * INR (n - 1 - i) + 1).
    assert (Hi0 : 0 <= INR i) by apply pos_INR. assert (Hq0 : 0 <= INR (n - 1 - i)) by apply pos_INR.
    assert (Hq : 2 * INR n - p = q) by (unfold p, q; rewrite minus_INR, minus_INR by lia; cbn [INR]; lra).
    rewrite Hq. assert (Hpq : 2 * INR n = p + q) by lra. rewrite Hpq.
    assert (Hp1 : 0 < p) by (unfold p; lra). assert (Hq1 : 0 < q) by (unfold q; lra). clearbody p q.
    pose proof (@ln_le_sub (u i * (p + q) / p)) as B1. pose proof (@ln_le_sub ((1 - u i) * (p + q) / q)) as B2.
    assert (P1 : 0 < u i * (p + q) / p) by (apply Rmult_lt_0_compat; [nra|apply Rinv_0_lt_compat; lra]).
    assert (P2 : 0 < (1 - u i) * (p + q) / q) by (apply Rmult_lt_0_compat; [nra|apply Rinv_0_lt_compat; lra]).
    specialize (B1 P1). specialize (B2 P2).
    unfold Rdiv in B1, B2 at 1. rewrite ln_mult in B1 by (nra || apply Rinv_0_lt_compat; lra). rewrite ln_mult in B1 by lra. rewrite ln_Rinv in B1 by lra.
    rewrite ln_mult in B2 by (nra || apply Rinv_0_lt_compat; lra). rewrite ln_mult in B2 by lra. rewrite ln_Rinv in B2 by lra.
    set (a := ln (u i)) in *. set (b := ln (1 - u i)) in *. set (c := ln (p + q)) in *. set (lp := ln p) in *. set (lq := ln q) in *. clearbody a b c lp lq.
    assert (C1 : p * (a + c - lp) <= u i * (p + q) - p).
    { apply Rle_trans with (p * (u i * (p + q) / p - 1)); [apply Rmult_le_compat_l; lra|]. apply Req_le. field. lra. }
    assert (C2 : q * (b + c - lq) <= (1 - u i) * (p + q) - q).
    { apply Rle_trans with (q * ((1 - u i) * (p + q) / q - 1)); [apply Rmult_le_compat_l; lra|]. apply Req_le. field. lra. }
    nra.
  - rewrite !sigma_add. rewrite <- (sigma_rev n (fun i => (2 * INR i + 1) * ln (2 * INR i + 1))).
    pose proof (odd_log_sum Hn) as H. set (A := sigma n _) in *.
    assert (C : forall a, sigma n (fun _ => a) = INR n * a).
    { intros a. clear. induction n as [|n IH]; [cbn; lra|]. cbn [sigma]. rewrite IH, S_INR. lra. }
    rewrite C. nra.
Qed.

(** the statistic of AndersonDarling.hpp, with the exact logarithm and any
    distribution function with values strictly between 0 and 1 *)
Theorem ad_statistic_nonneg : forall (phi : R -> R) (X : list R), (forall x, 0 < phi x < 1) ->
  0 <= @ad_statistic NumR ln phi X.
Proof.
  intros phi X Hphi. unfold ad_statistic. cbv zeta.
  set (Xs := @nsort NumR X). set (Y := map _ Xs). clearbody Y. set (n := length Xs). clearbody n. clear Xs.
  change (nzero NumR) with 0. change (none NumR) with 1. change (nadd NumR) with Rplus. change (nmul NumR) with Rmult. change (ndiv NumR) with Rdiv. change (nsub NumR) with Rminus. change (nofZ NumR) with IZR.
  set (u := fun i => phi (nth i Y 0)).
  assert (E : forall (f : nat -> R) m a, fold_left (fun A i => A + f i) (seq 0 m) a = a + sigma m f).
  { intros f m a. induction m as [|m IH]; [cbn; lra|]. rewrite seq_S, fold_left_app, IH. cbn [fold_left sigma Nat.add]. lra. }
  rewrite (E (fun i => -1 / IZR (Z.of_nat n) * IZR (2 * (Z.of_nat i + 1) - 1) * (ln (phi (nth i Y 0)) + ln (1 - phi (nth (n - 1 - i) Y 0)))) n).
  destruct (Nat.eq_dec n 0) as [->|Hn]; [cbn; lra|].
  assert (Hx : 1 <= INR n) by (change 1 with (INR 1); apply le_INR; lia).
  rewrite (sigma_ext (n := n) (h := fun i => - / INR n * ((2 * INR i + 1) * (ln (u i) + ln (1 - u (n - 1 - i)%nat))))).
  - rewrite sigma_scal. pose proof (@ad_sum_bound n u ltac:(lia) (fun i => Hphi _)) as H. set (A := sigma n _) in *. clearbody A.
    rewrite opp_IZR, <- INR_IZR_INZ.
    assert (I : 0 < / INR n) by (apply Rinv_0_lt_compat; lra).
    assert (INR n <= / INR n * - A).
    { apply Rle_trans with (/ INR n * (INR n * INR n)); [apply Req_le; field; lra|]. apply Rmult_le_compat_l; lra. }
    lra.
  - intros i Hi. rewrite <- INR_IZR_INZ. replace (IZR (2 * (Z.of_nat i + 1) - 1)) with (2 * INR i + 1).
    + unfold u. field. lra.
    + rewrite minus_IZR, mult_IZR, plus_IZR, <- INR_IZR_INZ. ring.
Qed.

(* ------------------------------------------------------------------ *)
(** * The critical values *)

(** AndersonDarling.hpp's divisor for a sample of [n] *)
Definition ad_divisor (n : R) : R := 1 + 4 / n - 25 / (n * n).
Lemma ad_critical_at n s c : strict_at (@ad_critical NumR n) s = Ok c ->
  exists l, 0 < l /\ c = l / ad_divisor n.
Proof.
  unfold strict_at. destruct (s <? 0)%Z; [discriminate|]. unfold ad_critical, ad_levels. cbv zeta. rewrite map_map.
  change (nadd NumR) with Rplus. change (nmul NumR) with Rmult. change (ndiv NumR) with Rdiv. change (nsub NumR) with Rminus. change (nofZ NumR) with IZR. change (none NumR) with 1.
  intros E. apply aget_ok in E. rewrite nth_error_map in E. destruct (nth_error [576; 656; 787; 918; 1092]%Z (Z.to_nat s)) as [l|] eqn:El; [|discriminate].
  injection E as <-. exists (IZR l / 1000). split; [|reflexivity].
  apply nth_error_In in El. cbn in El. assert (0 < IZR l) by (destruct El as [<- |[<- |[<- |[<- |[<- |[]]]]]]; lra).
  apply Rmult_lt_0_compat; [assumption|]. apply Rinv_0_lt_compat. lra.
Qed.
Lemma divisor_neg n : (1 <= n <= 3)%nat -> ad_divisor (INR n) < 0.
Proof. intros H. unfold ad_divisor. assert (n = 1 \/ n = 2 \/ n = 3)%nat as [-> |[-> | ->]] by lia; cbn [INR]; lra. Qed.
Lemma divisor_pos n : (4 <= n)%nat -> 0 < ad_divisor (INR n).
Proof.
  intros H. unfold ad_divisor. apply le_INR in H. replace (INR 4) with 4 in H by (cbn; lra). set (x := INR n) in *. clearbody x.
  replace (1 + 4 / x - 25 / (x * x)) with ((x * x + 4 * x - 25) * / (x * x)) by (field; nra).
  apply Rmult_lt_0_compat; [nra|]. apply Rinv_0_lt_compat. nra.
Qed.

(* ------------------------------------------------------------------ *)
(** * Decisions *)

(** the number of groups of rows when the decisions are taken *)
Definition groups (s : xst NumR) : nat := length (nodup Nat.eq_dec (x_part (xh s))).
(** a split of [p] into [l] and [r] is kept by a decision *)
Definition kept (n : nat) (s3 s4 : xst NumR) (p l r : nat) : Prop :=
  partition_at s4 p l r /\
  forall i, (i < n)%nat -> nth i (x_asg (xh s3)) 0%nat = l \/ nth i (x_asg (xh s3)) 0%nat = r -> nth i (x_asg (xh s4)) 0%nat = nth i (x_asg (xh s3)) 0%nat.

(** the partitions and the groups do not change before the decisions *)
Lemma g_half_frame (N : Num) (g : hcfg N) (ws : list (worker N)) (data : list (car N)) (scheds : nat -> list nat) s s1 s2 s3 :
  valid_input g data -> wok (g_nrow g) (g_ncol g) data ws -> (1 <= g_max_iters g)%nat ->
  gpre g ws data s -> (forall j, complete (w_ranges ws) (scheds j)) ->
  x_mean g ws (scheds 0%nat) s = Ok s1 ->
  loop (g_max_iters g) (fun i s => x_iter g ws (scheds (i + 2)%nat) (i =? 0)%nat s) s1 = Ok s2 ->
  g_split g ws (scheds 1%nat) s2 = Ok s3 ->
  x_part (xh s3) = x_part (xh s) /\
  (forall p h, hget (x_hcl (xh s)) p = Some h -> exists h', hget (x_hcl (xh s3)) p = Some h' /\ h_zero h' = h_zero h /\ h_one h' = h_one h).
Proof.
  intros V Hws Hit P Hsch E1 E2 E3.
  destruct (@g_mean_ok N g ws data V Hws s s1 (scheds 0%nat) (gp_cl P) (gp_loc P) E1) as (Eh & Epd & Ecd & Hcl & _ & Hloc).
  assert (Q : ginv g ws data (4 * hclust_floor (g_k g) - 1) (@FPt N) (xh s2) /\ length (x_pd s2) = g_nrow g /\ length (x_cd s2) = g_nrow g /\
     x_part (xh s2) = x_part (xh s) /\ (forall p h, hget (x_hcl (xh s)) p = Some h -> exists h', hget (x_hcl (xh s2)) p = Some h' /\ h_zero h' = h_zero h /\ h_one h' = h_one h)).
  { apply (@loop_inv_ok _ (fun j s2 => ginv g ws data (4 * hclust_floor (g_k g) - 1) (@FPt N) (xh s2) /\ length (x_pd s2) = g_nrow g /\ length (x_cd s2) = g_nrow g /\
     x_part (xh s2) = x_part (xh s) /\ (forall p h, hget (x_hcl (xh s)) p = Some h -> exists h', hget (x_hcl (xh s2)) p = Some h' /\ h_zero h' = h_zero h /\ h_one h' = h_one h)) _ _ _ _ E2).
    - rewrite Eh, Epd, Ecd. destruct P. splits; auto. intros p h Hp. exists h. auto.
    - intros j a b Hj ((c & Rc) & Lpd & Lcd & E4 & E5) H.
      pose proof (e_asg (r_e Rc)) as La. change (x_asg (with_curr (xh a) c)) with (x_asg (xh a)) in La.
      destruct (@g_iter_h N g ws data Hws a b (scheds (j + 2)%nat) (j =? 0)%nat La Lpd Lcd (Hsch _) H) as (H1 & H2 & H3 & H4 & H5).
      assert (FPs : forall A A' i v, length A = g_nrow g -> length A' = g_nrow g -> (forall r, (r < g_nrow g)%nat -> (nth r A 0 =? i)%nat = (nth r A' 0 =? i)%nat) -> @FPt N A i v -> @FPt N A' i v) by (intros; exact Logic.I).
      pose proof (@iter_rinv N g ws data V Hws (@FPt N) FPs 0%nat (with_curr (xh a) c) (scheds (j + 2)%nat) Rc (Hsch _)) as HI.
      rewrite h_iter_curr, H1 in HI. cbn [okab] in HI. destruct HI as (R3 & _ & _ & _ & _ & Ep & _ & _ & _ & Hk & _).
      change (x_part (with_curr (xh b) c)) with (x_part (xh b)) in Ep. change (x_part (with_curr (xh a) c)) with (x_part (xh a)) in Ep.
      splits; auto; try congruence. { eexists; exact R3. }
      intros p h Hp. destruct (E5 p h Hp) as (h1 & Hh1 & X1 & X2). specialize (Hk p).
      change (x_hcl (with_curr (xh b) c)) with (x_hcl (xh b)) in Hk. change (x_hcl (with_curr (xh a) c)) with (x_hcl (xh a)) in Hk.
      rewrite Hh1 in Hk. destruct Hk as (h2 & Y0 & Y1 & Y2). exists h2. splits; congruence. }
  destruct Q as (_ & _ & _ & Q1 & Q2).
  unfold g_split in E3. apply bind_ok in E3 as (dfs & _ & E3). apply bind_ok in E3 as (la & _ & E3). injection E3 as <-. cbn [xh]. auto.
Qed.

Lemma g_loop_prefix (N : Num) nlog phi trunc (g : hcfg N) strictness ws data scheds : forall fuel round s tr s' tr',
  g_loop nlog phi trunc g strictness ws data scheds fuel round s tr = Ok (s', tr') -> exists t, tr' = tr ++ t.
Proof.
  induction fuel as [|f IH]; intros round s tr s' tr' E; [discriminate|]. cbn [g_loop] in E. apply bind_ok in E as ((rr & s2 & more) & _ & E).
  destruct more; [|injection E as _ <-; eauto]. destruct (IH _ _ _ _ _ E) as (t & ->). exists ([rr] ++ t). rewrite <- app_assoc. reflexivity.
Qed.

Section P.
Variables (phi : R -> R) (trunc : R -> Z).
Hypothesis Hphi : forall x, 0 < phi x < 1.

Lemma decided_kept (g : hcfg NumR) data strictness s3 s4 p l r : (groups s3 <= 3)%nat -> (1 <= groups s3)%nat ->
  @gmeans_decided NumR ln phi trunc g data strictness s3 s4 -> partition_at s3 p l r -> kept (g_nrow g) s3 s4 p l r.
Proof.
  intros Hg1 Hg0 (Hd & _) (h & Hp & El & Er). destruct (Hd p h l r Hp El Er) as (v & crit & _ & Hc & H).
  change (nofZ NumR (Z.of_nat (groups s3))) with (IZR (Z.of_nat (groups s3))) in Hc.
  fold (groups s3) in Hc. change (nofZ NumR (Z.of_nat (groups s3))) with (IZR (Z.of_nat (groups s3))) in Hc. rewrite <- INR_IZR_INZ in Hc.
  destruct (ad_critical_at Hc) as (lv & Hl & ->). pose proof (@divisor_neg (groups s3) ltac:(lia)) as Hdv.
  assert (Hneg : lv / ad_divisor (INR (groups s3)) < 0).
  { unfold Rdiv. apply Rinv_lt_0_compat in Hdv. nra. }
  pose proof (@ad_statistic_nonneg phi v Hphi) as Hs.
  destruct (nleb NumR (@ad_statistic NumR ln phi v) (lv / ad_divisor (INR (groups s3)))) eqn:El'.
  - exfalso. cbn [nleb NumR] in El'. unfold Rleb in El'. destruct (Rle_dec _ _) as [Z|Z]; [|discriminate].
    apply (Rlt_not_le _ _ Hneg). apply Rle_trans with (2 := Z). exact Hs.
  - destruct H as (H1 & _ & _ & H4). split; [exists h; auto|exact H1].
Qed.

(** ** C103 is false: in a round with at most three groups no split is undone *)
Theorem C103_few_groups_refuted : forall (g : hcfg NumR) strictness centers it data dr scheds s3 s4 p l r,
  h_valid g data it centers dr -> h_fair g data scheds ->
  @gmeans_deciding NumR ln phi trunc g strictness centers it data dr scheds s3 -> @g_decision NumR ln phi trunc g strictness s3 = Ok s4 ->
  (groups s3 <= 3)%nat -> partition_at s3 p l r -> kept (g_nrow g) s3 s4 p l r.
Proof.
  intros g strictness centers it data dr scheds s3 s4 p l r Hv Hf Hd E Hg Hp.
  apply (@decided_kept g data strictness s3 s4 p l r Hg); auto.
  - destruct (@deciding_ok NumR ln phi trunc g strictness centers it data dr scheds s3 Hv Hf Hd) as (ws & Hws & Q). destruct (gm_inv Q) as (c & Rc).
    pose proof (e_part (r_e Rc)) as X. change (x_part (with_curr (xh s3) c)) with (x_part (xh s3)) in X.
    destruct Hv as ((V & _) & _). unfold groups. destruct (x_part (xh s3)) as [|a t] eqn:Ep; [cbn in X; lia|].
    assert (Hin : In a (nodup Nat.eq_dec (a :: t))) by (apply nodup_In; left; reflexivity). destruct (nodup Nat.eq_dec (a :: t)); [destruct Hin|cbn; lia].
  - exact (@C55_gmeans_split_restored NumR ln phi trunc g strictness centers it data dr scheds s3 s4 Hv Hf Hd E).
Qed.

(** ** the first split of every run is kept, whatever the data and the strictness *)
Theorem C103_first_split_refuted : forall (g : hcfg NumR) strictness bind centers it data dr scheds fuel s rr tr,
  h_valid g data it centers dr -> h_fair g data scheds ->
  @g_run NumR ln phi trunc g strictness bind centers it data dr scheds fuel = Ok (s, rr :: tr) ->
  partition_at (rr_mid rr) 0 1 2 /\ kept (g_nrow g) (rr_mid rr) (rr_end rr) 0 1 2.
Proof.
  intros g strictness bind centers it data dr scheds fuel s rr tr Hv Hf E. pose proof E as Erun.
  pose proof Hv as (V & K2 & K30 & Hm & Hi & Hini).
  unfold g_run in E. apply bind_ok in E as ((s0 & ws) & E0 & E). apply bind_ok in E as ((st & tr') & E1 & E). apply bind_ok in E as (h & _ & E).
  apply bind_ok in E as (u & _ & E). injection E as _ E. cbn [snd] in E. subst tr'.
  destruct (g_start_ok Hv) as (s0' & ws' & E0' & Ew & Hws & P0). assert (X := eq_trans (eq_sym E0) E0'). injection X as <- <-.
  destruct (@create_init_ok NumR g data V K2 K30 it centers dr Hini) as (c0 & c1 & c & Ec0 & Ec1 & _ & _ & Es).
  assert (Hh : xh s0 = c1).
  { unfold g_start in E0. apply bind_ok in E0 as (x0 & Ex & E0). apply bind_ok in E0 as (w0 & _ & E0). apply bind_ok in E0 as (h0 & Eh & E0). injection E0 as <- _. cbn [with_h xh].
    unfold x_create in Ex. rewrite Ec0 in Ex. cbn [Base.bind] in Ex. apply bind_ok in Ex as (mn & _ & Ex). injection Ex as <-. cbn [xh] in Eh. congruence. }
  destruct fuel as [|f]; [discriminate|]. cbn [g_loop] in E1. apply bind_ok in E1 as ((rr0 & s2 & more) & Er & E1).
  assert (rr0 = rr).
  { destruct more; [|injection E1 as _ E1; exact E1]. destruct (g_loop_prefix E1) as (t & X). injection X as <- _. reflexivity. }
  subst rr0.
  pose proof (C55_gmeans_run (rr := rr) Hv Hf Erun (or_introl eq_refl)) as Hdec.
  unfold g_round in Er. apply bind_ok in Er as (a1 & A1 & Er). apply bind_ok in Er as (a2 & A2 & Er). apply bind_ok in Er as (a3 & A3 & Er). apply bind_ok in Er as (a4 & A4 & Er).
  assert (Emid : rr_mid rr = a3).
  { destruct (at_cluster_cap g (xh a4)); [injection Er as <- _ _; reflexivity|]. apply bind_ok in Er as (h1 & _ & Er).
    destruct (hm_keyless (x_hcl h1)); [apply bind_ok in Er as (h2 & _ & Er)|]; injection Er as <- _ _; reflexivity. }
  clear Er. destruct (@g_half_frame NumR g ws data (scheds 0%nat) s0 a1 a2 a3 V Hws Hi P0 (Hf ws Ew 0%nat) A1 A2 A3) as (Fp & Fh).
  assert (Hpart : partition_at (rr_mid rr) 0 1 2).
  { rewrite Emid. destruct (Fh 0%nat (mkH c 1 2 false)) as (h' & Hh' & Z1 & Z2).
    - rewrite Hh, Es. cbn [x_hcl]. unfold hget, hm_put. destruct (floor_facts K2 K30) as (F2 & _).
      destruct (4 * hclust_floor (g_k g) - 1)%nat as [|m] eqn:Em; [lia|]. reflexivity.
    - exists h'. splits; auto. apply part_hget. exact Hh'. }
  split; [exact Hpart|].
  assert (Hg : groups (rr_mid rr) = 1%nat).
  { unfold groups. rewrite Emid, Fp, Hh, Es. cbn [x_part]. destruct V as (V1 & _). destruct (g_nrow g) as [|m]; [lia|]. clear. induction m as [|m IH]; [reflexivity|].
    cbn [repeat nodup]. cbn [repeat nodup] in IH. destruct (in_dec Nat.eq_dec 0%nat (0%nat :: repeat 0%nat m)) as [_|Z]; [exact IH|]. exfalso. apply Z. left. reflexivity. }
  apply (@decided_kept g data strictness _ _ 0%nat 1%nat 2%nat) with (4 := Hpart); [rewrite Hg; lia|rewrite Hg; lia|exact Hdec].
Qed.
End P.
