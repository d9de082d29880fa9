(** C125: hierarchical clustering and X-means return the same result whatever the number
    of threads, the thread schedule and the way the data is loaded, in exact arithmetic. *)
From Coq Require Import Reals Permutation Lra.
From Verif Require Import Base Num DistModel DistProofs ClustersModel ClustersView ClustersProofs MatLemmas
  PartitionModel PartitionProofs ParModel KmeansModel ParProofs NearProofs KmeansProofs UpdateProofs RunProofs InitProofs SimProofs Spec ParRule ParSim Okab.
From Verif Require Import VecLemmas KmeansR SseProofs PropertiesKmeansR PropertiesRun.
From Verif Require Import ContainersModel PropertiesIds HclustModel HclustProofs HclustUpdate HclustIter HclustSplit HclustRun HclustDone HclustVerify
  XmeansModel XmeansProofs XmeansDecide XmeansRound XmeansRun PropertiesXmeans PropertiesXmeansR.
From Verif Require Import ParFree PropertiesHclust HclustThreads XmeansThreads.
Set Implicit Arguments.
Unset Strict Implicit.
Local Open Scope R_scope.

Lemma threads_input (g : hcfg NumR) nt kind (data : list R) : valid_input g data -> (1 <= nt < 2 ^ 32)%Z ->
  valid_input (h_threads g nt kind) data.
Proof. intros (V1 & V2 & V3 & V4) Hnt. unfold valid_input. splits; auto; apply Hnt. Qed.

(** ** C125, hierarchical clustering: assignment, sizes, ids and centroids are equal *)
Theorem C125_hclust : forall (g : hcfg NumR) nthreads kind bind centers it (data : list R) dr scheds scheds' fuel s,
  let g' := h_threads g nthreads kind in      (* another thread count and loading path *)
  h_valid g data it centers dr -> (1 <= nthreads < 2 ^ 32)%Z -> h_fair g data scheds -> h_fair g' data scheds' ->
  h_run g bind centers it data dr scheds fuel = Ok s ->
  h_run g' bind centers it data dr scheds' fuel = Ok s.
Proof.
  intros g nt kind bind centers it data dr scheds scheds' fuel s g' Hv Hnt Hf Hf' E.
  pose proof Hv as (V & _). pose proof (@threads_input g nt kind data V Hnt) as V'. pose proof V as (_ & _ & _ & V4).
  destruct (get_workers V) as (ws & Ew & W). destruct (get_workers V') as (ws' & Ew' & W').
  refine (@h_run_threads NumR g nt kind data V V' ws ws' W W' _ bind centers it dr scheds scheds' fuel Hv Ew Ew' (Hf ws Ew) (Hf' ws' Ew') s E).
  intros A j LA. rewrite !ucel_R; auto; [apply W'|apply W].
Qed.
Print Assumptions C125_hclust.

(** ** C125, X-means *)
Theorem C125_xmeans : forall nlog two_pi (g : hcfg NumR) nthreads kind bind centers it (data : list R) dr scheds scheds' ords fuel s tr,
  let g' := h_threads g nthreads kind in
  h_valid g data it centers dr -> (1 <= nthreads < 2 ^ 32)%Z -> h_fair g data scheds -> h_fair g' data scheds' -> x_orders ords ->
  x_run nlog two_pi g bind centers it data dr scheds ords fuel = Ok (s, tr) ->
  exists tr', x_run nlog two_pi g' bind centers it data dr scheds' ords fuel = Ok (s, tr').
Proof.
  intros nlog two_pi g nt kind bind centers it data dr scheds scheds' ords fuel s tr g' Hv Hnt Hf Hf' Ho E.
  pose proof Hv as (V & _). pose proof (@threads_input g nt kind data V Hnt) as V'. pose proof V as (_ & _ & _ & V4).
  destruct (get_workers V) as (ws & Ew & W). destruct (get_workers V') as (ws' & Ew' & W').
  refine (@x_run_threads NumR nlog two_pi g nt kind data ws ws' bind centers it dr scheds scheds' ords fuel s tr Hv V' Ew Ew' _ Hf Hf' Ho E).
  intros A j m LA Lm. rewrite !wsum_R; auto; [apply W'|apply W].
Qed.
Print Assumptions C125_xmeans.

(* ------------------------------------------------------------------ *)
(** * With the cosine distance every run of the BIND build returns *)

Lemma cs_any t : forall x y : list R, 0 <= dot x x + 2 * t * dot x y + t * t * dot y y.
Proof.
  induction x as [|a x IH]; intros [|b y]; unfold dot in *; simpl in *.
  - lra.
  - pose proof (dot_self_pos y) as H. unfold dot in H. pose proof (Rle_0_sqr (t * b)) as H1. unfold Rsqr in H1.
    pose proof (Rle_0_sqr t) as H2. unfold Rsqr in H2. nra.
  - pose proof (dot_self_pos x) as H. unfold dot in H. pose proof (Rle_0_sqr a) as H1. unfold Rsqr in H1. lra.
  - specialize (IH y). pose proof (Rle_0_sqr (a + t * b)) as H. unfold Rsqr in H. nra.
Qed.
Lemma cauchy_any (x y : list R) : dot x y * dot x y <= dot x x * dot y y.
Proof.
  destruct (Req_dec (dot y y) 0) as [Hy|Hy].
  - assert (Hxy : dot x y = 0).
    { assert (G : forall t, 0 <= dot x x + 2 * t * dot x y).
      { intros t. pose proof (cs_any t x y) as H. rewrite Hy in H. lra. }
      destruct (Req_dec (dot x y) 0) as [|Hn]; auto. exfalso.
      specialize (G (- (dot x x + 1) / (2 * dot x y))).
      assert (2 * (- (dot x x + 1) / (2 * dot x y)) * dot x y = - (dot x x + 1)) by (field; exact Hn). lra. }
    rewrite Hxy, Hy. lra.
  - pose proof (dot_self_pos y). pose proof (cs_any (- dot x y / dot y y) x y) as H1.
    assert (E1 : dot x x + 2 * (- dot x y / dot y y) * dot x y + - dot x y / dot y y * (- dot x y / dot y y) * dot y y
                 = dot x x - dot x y * dot x y / dot y y) by (field; exact Hy).
    rewrite E1 in H1.
    assert (E2 : dot x y * dot x y = dot x y * dot x y / dot y y * dot y y) by (field; exact Hy).
    rewrite E2. apply Rmult_le_compat_r; lra.
Qed.
Lemma cosdis_le2 (x y : list R) : cosdis x y <= 2.
Proof.
  unfold cosdis. pose proof (dot_self_pos x) as Px. pose proof (dot_self_pos y) as Py. pose proof (cauchy_any x y) as C.
  set (m := sqrt (dot x x) * sqrt (dot y y)).
  assert (Hmm : m * m = dot x x * dot y y).
  { unfold m. replace (sqrt (dot x x) * sqrt (dot y y) * (sqrt (dot x x) * sqrt (dot y y)))
      with ((sqrt (dot x x) * sqrt (dot x x)) * (sqrt (dot y y) * sqrt (dot y y))) by ring.
    rewrite !sqrt_sqrt; lra. }
  rewrite <- Hmm in C. assert (Hm : 0 <= m) by (apply Rmult_le_pos; apply sqrt_pos).
  destruct (Req_dec m 0) as [Z|Z].
  - assert (D : dot x y = 0) by (rewrite Z in C; nra). rewrite D. unfold Rdiv. lra.
  - assert (Hb : - m <= dot x y) by nra.
    assert (-1 <= dot x y / m).
    { apply Rmult_le_reg_r with m; [lra|]. unfold Rdiv. rewrite Rmult_assoc, Rinv_l by lra. lra. }
    lra.
Qed.

Lemma two_lt_max x : x <= 2 -> nltb NumR x (nmax NumR) = true.
Proof.
  intros H. change (nltb NumR x (nmax NumR)) with (Rltb x (IZR dbl_max_Z)). apply Rltb_true.
  apply Rle_lt_trans with 2; [exact H|]. apply IZR_lt. vm_compute. reflexivity.
Qed.

Lemma cos_assignable (g : hcfg NumR) (data : list R) : g_dt g = COS -> ~ unassignable g data.
Proof.
  intros Hd (r & c0 & c1 & _ & E). rewrite Hd in E. pose proof (near_spec NumR_laws COS [c0; c1] (row data (g_ncol g) r)) as P.
  match type of E with fst ?u = _ => change (near NumR COS [c0; c1] (row data (g_ncol g) r)) with u in P; destruct u as ([c|] & v) end; cbn [fst] in E; [congruence|].
  specialize (P c0 (or_introl eq_refl)). rewrite ldist_R in P. cbn [rdist] in P.
  rewrite two_lt_max in P by apply cosdis_le2. exact (diff_true_false P).
Qed.

(** both runs return, and the same result *)
Theorem C125_hclust_returns : forall (g : hcfg NumR) nthreads kind centers it (data : list R) dr scheds scheds' fuel,
  let g' := h_threads g nthreads kind in
  g_dt g = COS -> h_valid g data it centers dr -> (1 <= nthreads < 2 ^ 32)%Z -> h_fair g data scheds -> h_fair g' data scheds' ->
  (2 * hclust_floor (g_k g) - 2 <= fuel)%nat ->
  exists s, h_run g true centers it data dr scheds fuel = Ok s /\ h_run g' true centers it data dr scheds' fuel = Ok s.
Proof.
  intros g nt kind centers it data dr scheds scheds' fuel g' Hd Hv Hnt Hf Hf' Hfu.
  pose proof (@h_run_ok NumR g data true centers it dr scheds fuel Hv Hf Hfu) as H.
  destruct (h_run g true centers it data dr scheds fuel) as [s|e] eqn:E.
  - exists s. split; [reflexivity|]. exact (@C125_hclust g nt kind true centers it data dr scheds scheds' fuel s Hv Hnt Hf Hf' E).
  - destruct H as (_ & [X|(X & _)]); [|discriminate]. destruct (cos_assignable Hd X).
Qed.
Print Assumptions C125_hclust_returns.

Theorem C125_xmeans_returns : forall nlog two_pi (g : hcfg NumR) nthreads kind centers it (data : list R) dr scheds scheds' ords fuel,
  let g' := h_threads g nthreads kind in
  g_dt g = COS -> h_valid g data it centers dr -> (1 <= nthreads < 2 ^ 32)%Z -> h_fair g data scheds -> h_fair g' data scheds' -> x_orders ords ->
  (2 * hclust_floor (g_k g) - 2 <= fuel)%nat ->
  exists s tr tr', x_run nlog two_pi g true centers it data dr scheds ords fuel = Ok (s, tr) /\
    x_run nlog two_pi g' true centers it data dr scheds' ords fuel = Ok (s, tr').
Proof.
  intros nlog two_pi g nt kind centers it data dr scheds scheds' ords fuel g' Hd Hv Hnt Hf Hf' Ho Hfu.
  pose proof (@x_run_ok NumR nlog two_pi g data true centers it dr scheds ords fuel Hv Hf Ho Hfu) as H.
  destruct (x_run nlog two_pi g true centers it data dr scheds ords fuel) as [[s tr]|e] eqn:E.
  - destruct (@C125_xmeans nlog two_pi g nt kind true centers it data dr scheds scheds' ords fuel s tr Hv Hnt Hf Hf' Ho E) as (tr' & E').
    exists s, tr, tr'. split; [reflexivity|exact E'].
  - destruct H as (_ & [X|(X & _)]); [|discriminate]. destruct (cos_assignable Hd X).
Qed.
Print Assumptions C125_xmeans_returns.

(* ------------------------------------------------------------------ *)
(** * The premises can be met *)

Definition tg (nt : Z) : hcfg NumR := mkHc (mkCfg NumR 6 2 4 10 nt (-1) COS UserBuffer) 2.
Definition tdata : list R := [1; 0; 2; 1; 0; 1; -1; 1; -1; -1; 3; -2].
Definition tall (i j : nat) : list nat := repeat 0%nat 6 ++ repeat 1%nat 6 ++ repeat 2%nat 6.

Lemma tall_fair nt : (1 <= nt <= 3)%Z -> h_fair (tg nt) tdata tall.
Proof.
  intros Hnt ws Ew i j t o m Hr.
  assert (V : valid_input (tg nt) tdata) by (unfold valid_input, tg, tdata; cbn [hg g_nrow g_ncol g_nthreads length]; splits; lia).
  destruct V as (V1 & V2 & V3 & V4). destruct (@build_workers_ok NumR (tg nt) tdata V1 V2 V3 V4) as (ws1 & E1 & W & Lw & _). rewrite Ew in E1. injection E1 as <-.
  assert (Lt : (t < 3)%nat).
  { assert (Q : (t < length (w_ranges ws))%nat) by (apply nth_error_Some; congruence). unfold w_ranges in Q. rewrite map_length, Lw in Q.
    cbn [tg hg g_nthreads g_nrow] in Q. unfold eff_threads, w32 in Q. rewrite Z.mod_small in Q by lia. lia. }
  assert (Lm : (m <= 6)%nat).
  { unfold w_ranges in Hr. rewrite nth_error_map in Hr. destruct (nth_error ws t) as [w|] eqn:E2; [|discriminate].
    injection Hr as <- <-. pose proof (@worker_in' NumR (tg nt) ws tdata W t w E2) as Hin. cbn [tg hg g_nrow] in Hin. lia. }
  unfold tall. assert (G : forall a b k, count_eq a (repeat b k) = if (a =? b)%nat then k else 0%nat).
  { intros a b k. unfold count_eq. induction k as [|k IH]; simpl; [destruct (a =? b)%nat; reflexivity|]. rewrite (Nat.eqb_sym b a). destruct (a =? b)%nat; simpl; rewrite ?IH; reflexivity. }
  rewrite !count_eq_app, !G. destruct t as [|[|[|t]]]; cbn [Nat.eqb]; lia.
Qed.

Example C125_example : g_dt (tg 1) = COS /\ h_valid (tg 1) tdata FORGY None (fun i => (i mod 6)%nat) /\ (1 <= 3 < 2 ^ 32)%Z /\
  h_fair (tg 1) tdata tall /\ h_fair (h_threads (tg 1) 3 UserBuffer) tdata tall /\
  exists s, h_run (tg 1) true None FORGY tdata (fun i => (i mod 6)%nat) tall 20 = Ok s /\
            h_run (tg 3) true None FORGY tdata (fun i => (i mod 6)%nat) tall 20 = Ok s.
Proof.
  assert (Hv : h_valid (tg 1) tdata FORGY None (fun i => (i mod 6)%nat)).
  { unfold h_valid, valid_input, h_init_ok, tg, tdata. cbn [hg h_min g_nrow g_ncol g_nthreads g_k g_max_iters length]. splits; auto; try lia; cbn; lia. }
  assert (F1 : h_fair (tg 1) tdata tall) by (apply tall_fair; lia).
  assert (F3 : h_fair (h_threads (tg 1) 3 UserBuffer) tdata tall) by (apply (@tall_fair 3); lia).
  split; [reflexivity|]. split; [exact Hv|]. split; [lia|]. split; [exact F1|]. split; [exact F3|].
  apply (@C125_hclust_returns (tg 1) 3 UserBuffer None FORGY tdata (fun i => (i mod 6)%nat) tall tall 20 eq_refl Hv ltac:(lia) F1 F3).
  cbn. lia.
Qed.
