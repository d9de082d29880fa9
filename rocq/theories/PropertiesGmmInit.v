(** C126: what a mixture run starts from, and what it reports. *)
From Coq Require Import Reals Lra Floats.SpecFloat.
From Verif Require Import Base Num Spec DistModel ClustersModel PartitionModel ParModel KmeansModel MatrixModel GmmModel.
From Verif Require Import MatLemmas VecLemmas DistProofs PartitionProofs ParProofs NearProofs KmeansProofs RunProofs InitProofs PropertiesMatrix PropertiesInverse PropertiesRun MbProofs PropertiesGmm ExamplesPrune ExamplesGmm.
Set Implicit Arguments.

Lemma copy_to_src {A} (src : ptr A) n dst off r : copy_to src n dst off = Ok r -> n = 0 \/ snd src + n <= length (fst src).
Proof.
  destruct n as [|n]; [auto|]. intros H. right. unfold copy_to in H. rewrite loop_S in H. apply bind_ok in H as (a & _ & H).
  apply bind_ok in H as (x & H & _). unfold pget, aget in H. destruct (nth_error (fst src) (snd src + n)) eqn:E; [|discriminate].
  assert (snd src + n < length (fst src)) by (apply nth_error_Some; rewrite E; discriminate). lia.
Qed.

Section G.
Variables (N : Num) (log2 : car N -> car N) (two_pi : car N).
Notation T := (car N).
Notation z := (nzero N).

(** the parts of the model no iteration changes *)
Definition same_model (s s' : gst N) : Prop := gm_mu s' = gm_mu s /\ gm_sigma s' = gm_sigma s /\ gm_Pk s' = gm_Pk s.
Lemma same_trans s s1 s2 : same_model s s1 -> same_model s1 s2 -> same_model s s2.
Proof. unfold same_model. intuition congruence. Qed.

Lemma loop_same (g : kcfg N) (body : nat -> gst N -> res (gst N)) n s s' :
  (forall i a b, body i a = Ok b -> same_model a b) -> loop n body s = Ok s' -> same_model s s'.
Proof.
  intros Hb H. apply (@loop_inv_ok _ (fun _ a => same_model s a) _ _ _ _ H); [unfold same_model; auto|].
  intros j a b _ Ha E. exact (same_trans Ha (Hb _ _ _ E)).
Qed.

Lemma estep_row_same g w row s s' : estep_row log2 two_pi g w row s = Ok s' -> same_model s s'.
Proof.
  unfold estep_row. intros H. apply bind_ok in H as (s1 & H1 & H2). apply (same_trans (s1 := s1)).
  - refine (@loop_same g _ _ _ _ _ H1). intros i a b E. apply bind_ok in E as (t & _ & E). apply bind_ok in E as (Px & _ & E).
    apply bind_ok in E as (P & _ & E). injection E as <-. unfold same_model. auto.
  - refine (@loop_same g _ _ _ _ _ H2). intros i a b E. apply bind_ok in E as (t & _ & E). apply bind_ok in E as (P & _ & E).
    injection E as <-. unfold same_model. auto.
Qed.
Lemma estep_same g ws order : forall s s', estep log2 two_pi g ws order s = Ok s' -> same_model s s'.
Proof.
  unfold estep. induction order as [|tr order IH]; intros s s' H; cbn [for_each] in H.
  - injection H as <-. unfold same_model. auto.
  - apply bind_ok in H as (s1 & H1 & H2). apply bind_ok in H1 as (w & _ & H1). exact (same_trans (estep_row_same _ _ _ _ H1) (IH _ _ H2)).
Qed.
Lemma linalg_same keep g s s' : shared_linalg keep g s = Ok s' -> same_model s s'.
Proof. unfold shared_linalg. intros H. apply bind_ok in H as ((i & d) & _ & H). injection H as <-. unfold same_model. auto. Qed.
Lemma update_same keep g s s' : g_update keep g s = Ok s' -> same_model s s'.
Proof.
  unfold g_update. intros H. apply bind_ok in H as (u & _ & H). apply bind_ok in H as (s1 & H1 & H). injection H as <-.
  apply linalg_same in H1. unfold same_model in *. exact H1.
Qed.
Lemma loop_g_same keep g ws orders : forall n iter s x, g_loop log2 two_pi keep g ws orders n iter s = Ok x -> same_model s (snd x).
Proof.
  induction n as [|n IH]; intros iter s x H; cbn [g_loop] in H.
  - injection H as <-. unfold same_model. auto.
  - apply bind_ok in H as (s1 & H1 & H). apply bind_ok in H as (s2 & H2 & H). apply estep_same in H1. apply update_same in H2.
    pose proof (same_trans H1 H2) as S2. destruct (_ || _); [injection H as <-; exact S2|]. exact (same_trans S2 (IH _ _ _ H)).
Qed.

(** ** The filled arrays *)

(** the sum of the [m] draws of row [r], left to right *)
Definition rowsum (u : nat -> T) (m r : nat) : T := fold_left (fun s c => nadd N s (u (r * m + c))) (seq 0 m) z.

Lemma prob_fill_ok (u : nat -> T) n m (v : list T) : length v = n * m ->
  exists v', prob_fill N u n m v = Ok v' /\ length v' = n * m /\
    forall r c, r < n -> c < m -> nth (r * m + c) v' z = ndiv N (u (r * m + c)) (rowsum u m r).
Proof.
  intros Lv. unfold prob_fill.
  assert (G : okp (loop n (fun row v =>
    let* (v, sum) := loop m (fun col vs =>
      let x := u (row * m + col) in
      let* v := aset (fst vs) (row * m + col) x in
      Ok (v, nadd N (snd vs) x)) (v, nzero N) in
    loop m (fun col v => amod v (row * m + col) (fun x => ndiv N x sum)) v) v)
    (fun v' => length v' = n * m /\ forall r c, r < n -> c < m -> nth (r * m + c) v' z = ndiv N (u (r * m + c)) (rowsum u m r))).
  { apply (loop_okp (fun j v' => length v' = n * m /\ forall r c, r < j -> c < m -> nth (r * m + c) v' z = ndiv N (u (r * m + c)) (rowsum u m r))).
    - split; [exact Lv|lia].
    - intros j a Hj (La & Ha).
      assert (G1 : okp (loop m (fun col vs => let x := u (j * m + col) in let* v := aset (fst vs) (j * m + col) x in Ok (v, nadd N (snd vs) x)) (a, nzero N))
        (fun vs => length (fst vs) = n * m /\ (forall r c, r < j -> c < m -> nth (r * m + c) (fst vs) z = nth (r * m + c) a z) /\
           (forall c, c < m -> nth (j * m + c) (fst vs) z = u (j * m + c)) /\ snd vs = rowsum u m j)).
      { eapply okp_mono; [apply (loop_okp (fun i (vs : list T * T) => length (fst vs) = n * m /\ (forall r c, r < j -> c < m -> nth (r * m + c) (fst vs) z = nth (r * m + c) a z) /\
           (forall c, c < i -> nth (j * m + c) (fst vs) z = u (j * m + c)) /\ snd vs = fold_left (fun s c => nadd N s (u (j * m + c))) (seq 0 i) z))|].
        - cbn [fst snd]. splits; auto; lia.
        - intros i (b, sm) Hi (Lb & B1 & B2 & B3). cbn [fst snd] in *. rewrite aset_ok by nia. cbn [Base.bind okp fst snd]. rewrite upd_length. splits; auto.
          + intros r c Hr Hc. rewrite nth_upd by nia. destruct (Nat.eqb_spec (r * m + c) (j * m + i)); [nia|apply B1; auto].
          + intros c Hc. rewrite nth_upd by nia. destruct (Nat.eqb_spec (j * m + c) (j * m + i)) as [X|X]; [rewrite X; reflexivity|apply B2; lia].
          + rewrite seq_S, fold_left_app. cbn [fold_left Nat.add]. rewrite B3. reflexivity.
        - intros (b, sm) H. exact H. }
      destruct (loop m _ (a, z)) as [(b, sm)|]; [|destruct G1]. cbn [okp fst snd] in G1. destruct G1 as (Lb & B1 & B2 & ->). cbn [Base.bind].
      eapply okp_mono; [apply (loop_okp (fun i (v : list T) => length v = n * m /\ (forall r c, r < j -> c < m -> nth (r * m + c) v z = nth (r * m + c) a z) /\
           (forall c, c < i -> nth (j * m + c) v z = ndiv N (u (j * m + c)) (rowsum u m j)) /\ (forall c, i <= c < m -> nth (j * m + c) v z = u (j * m + c))))|].
      + splits; auto; [lia|]. intros c Hc. apply B2. lia.
      + intros i v' Hi (Lc & C1 & C2 & C3). rewrite (@amod_nth _ v' _ _ z) by nia. cbn [okp]. rewrite upd_length. splits; auto.
        * intros r c Hr Hc. rewrite nth_upd by nia. destruct (Nat.eqb_spec (r * m + c) (j * m + i)); [nia|apply C1; auto].
        * intros c Hc. rewrite nth_upd by nia. destruct (Nat.eqb_spec (j * m + c) (j * m + i)) as [X|X]; [rewrite X, C3 by lia; replace c with i by nia; reflexivity|apply C2; lia].
        * intros c Hc. rewrite nth_upd by nia. destruct (Nat.eqb_spec (j * m + c) (j * m + i)); [nia|apply C3; lia].
      + intros v' (Lc & C1 & C2 & _). split; [exact Lc|]. intros r c Hr Hc. destruct (Nat.eq_dec r j) as [->|]; [apply C2; exact Hc|]. rewrite C1 by lia. apply Ha; lia. }
  destruct (loop n _ v) as [v'|]; [|destruct G]. exists v'. split; [reflexivity|exact G].
Qed.

Lemma forgy_ok_gmm (g : kcfg N) ws data (d : draws N) s : valid_input g data -> (forall c, c < g_k g -> d_int d c < g_nrow g) ->
  length (gm_mu s) = g_k g * g_ncol g ->
  exists mu, g_forgy g ws data d s = Ok (mkG N mu (gm_sigma s) (gm_inv s) (gm_P s) (gm_Pk s) (gm_dets s) (gm_Px s)) /\
    length mu = g_k g * g_ncol g /\ forall c, c < g_k g -> row mu (g_ncol g) c = row data (g_ncol g) (d_int d c).
Proof.
  intros V D L. unfold g_forgy. set (dd := g_ncol g) in *.
  assert (G : okp (loop (g_k g) (fun c mu => let* p := thd_row g data (d_int d c) in copy_to p dd mu (c * dd)) (gm_mu s))
     (fun mu => length mu = g_k g * dd /\ forall c, c < g_k g -> row mu dd c = row data dd (d_int d c))).
  { apply (loop_okp (fun j mu => length mu = g_k g * dd /\ forall c, c < j -> row mu dd c = row data dd (d_int d c))); [split; [exact L|lia]|].
    intros j a Hj (La & Ha). destruct (@thd_row_ok N g data V (d_int d j) (D j Hj)) as (p & Ep & Hp). rewrite Ep. cbn [Base.bind].
    assert (Lr : length (row data dd (d_int d j)) = dd) by (apply (@data_row_length N g data V), D, Hj).
    fold dd in Hp.
    destruct (Nat.eq_dec dd 0) as [Z0|Z0].
    { rewrite Z0. cbn. split; [rewrite <- Z0; exact La|]. intros c _. unfold row, slice. reflexivity. }
    assert (Hs : snd p + dd <= length (fst p)).
    { rewrite <- Hp in Lr. unfold slice in Lr. rewrite firstn_length, skipn_length in Lr. lia. }
    rewrite copy_to_ok by nia. cbn [okp]. rewrite Hp. fold dd.
    assert (Lf : length (firstn (j * dd) a) = j * dd) by (rewrite firstn_length; nia).
    split.
    - rewrite !app_length, Lf, Lr, skipn_length. nia.
    - intros c Hc. destruct (Nat.eq_dec c j) as [->|Hne].
      + set (x := row data dd (d_int d j)) in *. clearbody x. unfold row, slice. rewrite skipn_app, Lf, Nat.sub_diag, skipn_all2 by lia. cbn [app skipn]. rewrite firstn_app. rewrite Lr, Nat.sub_diag. cbn [firstn].
        rewrite app_nil_r. rewrite firstn_all2 by lia. reflexivity.
      + rewrite <- (Ha c) by lia. generalize (row data dd (d_int d j)). intros x. unfold row, slice. rewrite skipn_app, Lf. replace (c * dd - j * dd) with 0 by nia. cbn [skipn].
        rewrite firstn_app. replace (dd - length (skipn (c * dd) (firstn (j * dd) a))) with 0 by (rewrite skipn_length, Lf; nia). cbn [firstn]. rewrite app_nil_r.
        rewrite skipn_firstn_comm, firstn_firstn. f_equal. nia. }
  destruct (loop (g_k g) _ (gm_mu s)) as [mu|]; [|destruct G]. cbn [okp] in G. exists mu. cbn [Base.bind]. split; [reflexivity|exact G].
Qed.


(** ** What a run starts from *)
Section Start.
Variables (g : kcfg N) (data : list T) (d : draws N).
Hypothesis V : valid_input g data.
Hypothesis D : forall c, c < g_k g -> d_int d c < g_nrow g.
Notation k := (g_k g).
Notation nc := (g_ncol g).

Lemma forgy_start ws s0 : gmm_create g None = Ok s0 ->
  exists mu, g_init g FORGY ws data d s0 = Ok (mkG N mu (gm_sigma s0) (gm_inv s0) (gm_P s0) (gm_Pk s0) (gm_dets s0) (gm_Px s0)) /\
    length mu = k * nc /\ forall c, c < k -> row mu nc c = row data nc (d_int d c).
Proof. intros E. destruct (gmm_create_sizes _ _ E) as ((L & _) & _). exact (@forgy_ok_gmm g ws data d s0 V D L). Qed.

Lemma random_start ws s0 : gmm_create g None = Ok s0 ->
  exists s1, g_init g RANDOM ws data d s0 = Ok s1 /\ length (gm_mu s1) = k * nc /\
    (forall c, c < k -> row (gm_mu s1) nc c = row data nc (d_int d c)) /\
    length (gm_Pk s1) = k /\ (forall c, c < k -> nth c (gm_Pk s1) z = ndiv N (d_real d c) (rowsum (d_real d) k 0)) /\
    length (gm_P s1) = g_nrow g * k /\ (forall r c, r < g_nrow g -> c < k -> nth (r * k + c) (gm_P s1) z = ndiv N (d_real d (r * k + c)) (rowsum (d_real d) k r)) /\
    length (gm_sigma s1) = k /\ (forall m, In m (gm_sigma s1) -> length m = nc * nc /\ forall r c, r < nc -> c < nc ->
      nth (r * nc + c) m z = ndiv N (d_real d (r * nc + c)) (rowsum (d_real d) nc r)).
Proof.
  intros E. destruct (gmm_create_sizes _ _ E) as ((L & _) & Hsg & Lsg & _ & _ & HPk & HP & _).
  destruct (@forgy_ok_gmm g ws data d s0 V D L) as (mu & Ef & Lm & Hm). unfold g_init. rewrite Ef. cbn [Base.bind gm_mu gm_sigma gm_inv gm_P gm_Pk gm_dets gm_Px].
  destruct (@prob_fill_ok (d_real d) 1 k (gm_Pk s0)) as (pk & Epk & Lpk & Hpk); [rewrite HPk, repeat_length; lia|]. rewrite Epk. cbn [Base.bind].
  destruct (@prob_fill_ok (d_real d) (g_nrow g) k (gm_P s0)) as (P & EP & LP & HPv); [rewrite HP, repeat_length; lia|]. rewrite EP. cbn [Base.bind].
  destruct (@prob_fill_ok (d_real d) nc nc (repeat z (nc * nc))) as (sg & Esg & Lsg' & Hsg'); [apply repeat_length|].
  rewrite (@mapM_ok _ _ _ (fun _ => sg)).
  2:{ intros m Hin. rewrite (Hsg m Hin). exact Esg. }
  cbn [Base.bind]. eexists. split; [reflexivity|]. cbn [gm_mu gm_sigma gm_inv gm_P gm_Pk gm_dets gm_Px].
  split; [exact Lm|]. split; [exact Hm|]. split; [lia|]. split.
  { intros c Hc. specialize (Hpk 0 c ltac:(lia) Hc). exact Hpk. }
  split; [exact LP|]. split; [exact HPv|]. split; [rewrite map_length; exact Lsg|].
  intros m Hin. apply in_map_iff in Hin as (x & <- & _). split; [exact Lsg'|exact Hsg'].
Qed.
End Start.

Lemma result_model (g : kcfg N) iters s out : gmm_result g iters s = Ok out ->
  length (gm_mu s) = g_k g * g_ncol g -> (forall m, In m (gm_sigma s) -> length m = g_ncol g * g_ncol g) -> length (gm_Pk s) = g_k g ->
  go_means out = gm_mu s /\ go_cov out = gm_sigma s /\ go_prob out = gm_Pk s /\ go_resp out = firstn (g_nrow g) (gm_P s).
Proof.
  intros H L1 L2 L3.
  assert (LP : g_nrow g <= length (gm_P s)).
  { unfold gmm_result in H. apply bind_ok in H as (a & _ & H). apply bind_ok in H as (b & _ & H). apply bind_ok in H as (c & H & _).
    apply copy_to_src in H. cbn [fst snd] in H. lia. }
  destruct (@C100_fields_partial N log2 two_pi g iters s out H L1 L2 L3 LP) as (A & B & C & E & _). auto.
Qed.

(** a run that returns: the initial state, the loop and the result *)
Lemma soft_run_inv b keep (g : kcfg N) mu it data d orders conv out :
  soft_run log2 two_pi b keep g mu it data d orders = Ok (conv, out) ->
  exists s0 ws s1 x, gmm_create g mu = Ok s0 /\ g_init g (match mu with Some _ => NONE | None => it end) ws data d s0 = Ok s1 /\
    g_loop log2 two_pi keep g ws orders (g_max_iters g) (if 0 <? g_max_iters g then 1 else 0) s1 = Ok x /\
    gmm_result g (fst (fst x)) (snd x) = Ok out.
Proof.
  unfold soft_run. intros H. apply bind_ok in H as (s0 & H0 & H). apply bind_ok in H as (ws & _ & H). apply bind_ok in H as (s1 & H1 & H).
  destruct b; [|discriminate]. cbn [negb] in H. apply bind_ok in H as (((i & c) & s2) & H2 & H). apply bind_ok in H as (o & H3 & H). injection H as <- <-.
  exists s0, ws, s1, (i, c, s2). auto.
Qed.
End G.

(** ** C126 *)
(** With "forgy" or "random", the reported means are exactly the drawn data rows,
    component c getting the row of the c-th draw: no iteration moves them. *)
Theorem C126_means : forall N log2 two_pi b keep (g : kcfg N) it data d orders conv out,
  valid_input g data -> (forall c, c < g_k g -> d_int d c < g_nrow g) -> it = FORGY \/ it = RANDOM ->
  @soft_run N log2 two_pi b keep g None it data d orders = Ok (conv, out) ->
  length (go_means out) = g_k g * g_ncol g /\
  forall c, c < g_k g -> row (go_means out) (g_ncol g) c = row data (g_ncol g) (d_int d c).
Proof.
  intros N log2 two_pi b keep g it data d orders conv out V D Hit H.
  apply soft_run_inv in H as (s0 & ws & s1 & x & H0 & H1 & H2 & H3).
  assert (A : length (gm_mu s1) = g_k g * g_ncol g /\ (forall c, c < g_k g -> row (gm_mu s1) (g_ncol g) c = row data (g_ncol g) (d_int d c)) /\
    (forall m, In m (gm_sigma s1) -> length m = g_ncol g * g_ncol g) /\ length (gm_Pk s1) = g_k g).
  { destruct (@gmm_create_sizes N g _ _ H0) as (Sh & Hsg & _ & _ & _ & HPk & _). destruct Hit as [-> | ->].
    - destruct (@forgy_start N log2 two_pi g data d V D ws s0 H0) as (mu & E & Lm & Hm). pose proof (eq_trans (eq_sym E) H1) as Q. injection Q as <-. cbn [gm_mu gm_sigma gm_Pk].
      splits; auto; [|rewrite HPk; apply repeat_length]. intros m Hin. rewrite (Hsg m Hin). apply repeat_length.
    - destruct (@random_start N log2 two_pi g data d V D ws s0 H0) as (s1' & E & Lm & Hm & Lp & _ & _ & _ & _ & Hs). pose proof (eq_trans (eq_sym E) H1) as Q. injection Q as <-.
      splits; auto. intros m Hin. apply (Hs m Hin). }
  destruct A as (A1 & A2 & A3 & A4). destruct (@loop_g_same N log2 two_pi keep g ws orders _ _ _ _ H2) as (M1 & M2 & M3).
  destruct (@result_model N log2 two_pi g _ _ _ H3) as (R1 & _); try congruence; [rewrite M2; exact A3|].
  rewrite R1, M1. split; [exact A1|exact A2].
Qed.

(** With given means, they are returned unchanged. *)
Theorem C126_given_means : forall N log2 two_pi b keep (g : kcfg N) m it data d orders conv out,
  length m = g_k g * g_ncol g ->
  @soft_run N log2 two_pi b keep g (Some m) it data d orders = Ok (conv, out) -> go_means out = m.
Proof.
  intros N log2 two_pi b keep g m it data d orders conv out L H.
  apply soft_run_inv in H as (s0 & ws & s1 & x & H0 & H1 & H2 & H3). cbn [g_init] in H1. injection H1 as <-.
  destruct (@gmm_create_sizes N g _ _ H0) as ((L1 & _) & Hsg & _ & _ & _ & HPk & _).
  destruct (@loop_g_same N log2 two_pi keep g ws orders _ _ _ _ H2) as (M1 & M2 & M3).
  destruct (@result_model N log2 two_pi g _ _ _ H3) as (R1 & _); [rewrite M1; exact L1|rewrite M2; intros m' Hin; rewrite (Hsg m' Hin); apply repeat_length|rewrite M3, HPk; apply repeat_length|].
  rewrite R1, M1. unfold gmm_create in H0. apply bind_ok in H0 as (m' & Hc & H0). injection H0 as <-. cbn [gm_mu].
  rewrite copy_to_ok in Hc; cbn [fst snd] in *; [|rewrite repeat_length; lia|lia]. injection Hc as <-. cbn [firstn app]. unfold slice. cbn [skipn Nat.add].
  rewrite skipn_all2 by (rewrite repeat_length; lia). rewrite app_nil_r, <- L. apply firstn_all.
Qed.

(** "random": the mixing weights and every row of every covariance matrix are
    the uniform draws divided by their sum; with "forgy" or given means they stay
    zero.  All components get the same covariance matrix. *)
Theorem C126_weights : forall N log2 two_pi b keep (g : kcfg N) data d orders conv out,
  valid_input g data -> (forall c, c < g_k g -> d_int d c < g_nrow g) ->
  @soft_run N log2 two_pi b keep g None RANDOM data d orders = Ok (conv, out) ->
  length (go_prob out) = g_k g /\
  (forall c, c < g_k g -> nth c (go_prob out) (nzero N) = ndiv N (d_real d c) (fold_left (nadd N) (map (d_real d) (seq 0 (g_k g))) (nzero N))) /\
  length (go_cov out) = g_k g /\
  (forall m, In m (go_cov out) -> length m = g_ncol g * g_ncol g /\
     forall r c, r < g_ncol g -> c < g_ncol g ->
       nth (r * g_ncol g + c) m (nzero N) = ndiv N (d_real d (r * g_ncol g + c)) (fold_left (nadd N) (map (d_real d) (seq (r * g_ncol g) (g_ncol g))) (nzero N))) /\
  (g_max_iters g = 0 -> forall i, i < g_nrow g ->
     nth i (go_resp out) (nzero N) = ndiv N (d_real d i) (fold_left (nadd N) (map (d_real d) (seq (i / g_k g * g_k g) (g_k g))) (nzero N))).
Proof.
  intros N log2 two_pi b keep g data d orders conv out V D H.
  apply soft_run_inv in H as (s0 & ws & s1 & x & H0 & H1 & H2 & H3).
  destruct (@random_start N log2 two_pi g data d V D ws s0 H0) as (s1' & E & Lm & Hm & Lp & Hp & LP & HP & Ls & Hs). pose proof (eq_trans (eq_sym E) H1) as Q. injection Q as <-.
  destruct (@loop_g_same N log2 two_pi keep g ws orders _ _ _ _ H2) as (M1 & M2 & M3).
  destruct (@result_model N log2 two_pi g _ _ _ H3) as (_ & R2 & R3 & R4); try congruence; [rewrite M2; intros m Hin; apply (Hs m Hin)|].
  assert (RS : forall m r, rowsum N (d_real d) m r = fold_left (nadd N) (map (d_real d) (seq (r * m) m)) (nzero N)).
  { intros m r. unfold rowsum. replace (seq (r * m) m) with (map (fun c => r * m + c) (seq 0 m)).
    - rewrite map_map. generalize (nzero N). induction (seq 0 m) as [|c l IH]; intros a; [reflexivity|]. cbn [fold_left map]. apply IH.
    - clear. generalize (r * m). intros o. replace (seq o m) with (seq (o + 0) m) by (rewrite Nat.add_0_r; reflexivity). generalize 0. induction m as [|m IH]; intros i; [reflexivity|]. cbn [seq map]. f_equal. rewrite IH, Nat.add_succ_r. reflexivity. }
  rewrite R2, R3, R4, M2, M3. splits; auto.
  - intros c Hc. rewrite (Hp c Hc), RS. reflexivity.
  - intros m Hin. destruct (Hs m Hin) as (Lm' & Hv). split; [exact Lm'|]. intros r c Hr Hc. rewrite (Hv r c Hr Hc), RS. reflexivity.
  - intros Hz i Hi. rewrite Hz in H2. cbn in H2. injection H2 as <-. cbn [snd].
    assert (Hn : nth i (firstn (g_nrow g) (gm_P s1')) (nzero N) = nth i (gm_P s1') (nzero N)).
    { rewrite <- (firstn_skipn (g_nrow g) (gm_P s1')) at 2. destruct (Nat.lt_ge_cases i (length (firstn (g_nrow g) (gm_P s1')))) as [Hl|Hl].
      - rewrite app_nth1 by exact Hl. reflexivity.
      - rewrite firstn_length in Hl. rewrite !nth_overflow; [reflexivity| |].
        + rewrite app_length, firstn_length, skipn_length. lia.
        + rewrite firstn_length. lia. }
    rewrite Hn. destruct (Nat.eq_dec (g_k g) 0) as [K0|K0].
    { exfalso. pose proof H3 as H4. unfold gmm_result in H4. apply bind_ok in H4 as (? & _ & H4). apply bind_ok in H4 as (? & _ & H4). apply bind_ok in H4 as (? & H4 & _).
      apply copy_to_src in H4. cbn [fst snd] in H4. rewrite LP, K0 in H4. lia. }
    assert (Hdm : i = i / g_k g * g_k g + i mod g_k g) by (rewrite Nat.mul_comm; apply Nat.div_mod; exact K0).
    rewrite Hdm at 1. rewrite HP; [rewrite RS, <- Hdm; reflexivity| |apply Nat.mod_upper_bound; exact K0].
    apply Nat.div_lt_upper_bound; [exact K0|]. nia.
Qed.

Theorem C126_zero_weights_refuted : forall N log2 two_pi b keep (g : kcfg N) mu it data d orders conv out,
  valid_input g data -> (forall c, c < g_k g -> d_int d c < g_nrow g) -> it = FORGY \/ (exists m, mu = Some m) ->
  (forall m, mu = Some m -> length m = g_k g * g_ncol g) ->
  @soft_run N log2 two_pi b keep g mu it data d orders = Ok (conv, out) ->
  go_prob out = repeat (nzero N) (g_k g) /\ forall m, In m (go_cov out) -> m = repeat (nzero N) (g_ncol g * g_ncol g).
Proof.
  intros N log2 two_pi b keep g mu it data d orders conv out V D Hit Lmu H.
  apply soft_run_inv in H as (s0 & ws & s1 & x & H0 & H1 & H2 & H3).
  destruct (@gmm_create_sizes N g _ _ H0) as ((L0 & _) & Hsg & _ & _ & _ & HPk & _).
  assert (A : length (gm_mu s1) = g_k g * g_ncol g /\ gm_sigma s1 = gm_sigma s0 /\ gm_Pk s1 = gm_Pk s0).
  { destruct mu as [m|]; [cbn [g_init] in H1; injection H1 as <-; auto|]. destruct Hit as [-> | (m & Hm)]; [|discriminate].
    destruct (@forgy_start N log2 two_pi g data d V D ws s0 H0) as (mu & E & Lm & Hm). pose proof (eq_trans (eq_sym E) H1) as Q. injection Q as <-. auto. }
  destruct A as (A1 & A2 & A3). destruct (@loop_g_same N log2 two_pi keep g ws orders _ _ _ _ H2) as (M1 & M2 & M3).
  destruct (@result_model N log2 two_pi g _ _ _ H3) as (_ & R2 & R3 & _); [congruence|rewrite M2, A2; intros m' Hin; rewrite (Hsg m' Hin); apply repeat_length|rewrite M3, A3, HPk; apply repeat_length|].
  rewrite R2, R3, M2, M3, A2, A3. split; [exact HPk|exact Hsg].
Qed.

(** Over R the mixing weights of a "random" start sum to one, if the draws do not
    sum to zero. *)
Lemma fold_Rplus (l : list R) : forall a, fold_left Rplus l a = (a + rsum l)%R.
Proof. induction l as [|x l IH]; intros a; cbn; [ring|]. rewrite IH. unfold rsum. ring. Qed.
Theorem C126_weights_sum : forall log2 two_pi b keep (g : kcfg NumR) (data : list R) (d : draws NumR) orders conv out,
  valid_input g data -> (forall c, c < g_k g -> d_int d c < g_nrow g) ->
  (rsum (map (d_real d) (seq 0 (g_k g))) <> 0)%R ->
  @soft_run NumR log2 two_pi b keep g None RANDOM data d orders = Ok (conv, out) ->
  rsum (go_prob out) = 1%R.
Proof.
  intros log2 two_pi b keep g data d orders conv out V D Hz H. destruct (@C126_weights NumR log2 two_pi b keep g data d orders conv out V D H) as (Lp & Hp & _).
  change (car NumR) with R in *. cbn [nadd nzero ndiv NumR] in Hp. rewrite fold_Rplus, Rplus_0_l in Hp.
  set (S0 := rsum (map (d_real d) (seq 0 (g_k g)))) in *.
  assert (E : go_prob out = map (fun c => (d_real d c / S0)%R) (seq 0 (g_k g))).
  { apply (nth_ext _ _ 0%R (d_real d 0 / S0)%R); [rewrite map_length, seq_length; exact Lp|]. intros c Hc.
    assert (Hc' : c < g_k g) by (rewrite <- Lp; exact Hc). rewrite (map_nth (fun c => (d_real d c / S0)%R)), seq_nth by exact Hc'. exact (Hp c Hc'). }
  rewrite E. assert (G : forall l, rsum (map (fun c => (d_real d c / S0)%R) l) = (rsum (map (d_real d) l) / S0)%R).
  { assert (Hz' : S0 <> 0%R) by exact Hz. clear Hz E Hp. clearbody S0. induction l as [|c l IH]; [unfold rsum; cbn; field; exact Hz'|]. unfold rsum in *. cbn in *. rewrite IH. field. exact Hz'. }
  rewrite G. fold S0. field. exact Hz.
Qed.

(** dets.clear() leaves nothing to write to: in a build where clear() really
    empties the vector, no run with an iteration returns. *)
Theorem C98_dets_refuted : forall N log2 two_pi b (g : kcfg N) mu it data d orders r,
  1 <= g_k g -> 1 <= g_max_iters g -> @soft_run N log2 two_pi b false g mu it data d orders <> Ok r.
Proof.
  intros N log2 two_pi b g mu it data d orders (conv & out) Hk Hm H.
  apply soft_run_inv in H as (s0 & ws & s1 & x & _ & _ & H2 & _).
  destruct (g_max_iters g) as [|n]; [lia|]. cbn [g_loop] in H2. apply bind_ok in H2 as (s2 & _ & H2). apply bind_ok in H2 as (s3 & H2 & _).
  unfold g_update in H2. apply bind_ok in H2 as (u & _ & H2). apply bind_ok in H2 as (s4 & H2 & _). unfold shared_linalg in H2. apply bind_ok in H2 as ((iv & dt) & H2 & _).
  assert (G : forall n st st', length (snd st) = 0 -> n <> 0 -> loop n (fun cid (st : list (list (car N)) * list (car N)) =>
    let* A := aget (gm_sigma s2) cid in
    let* i0 := aget (fst st) cid in
    let* r := inverse A i0 (g_ncol g) in
    let* invs := match r with Some x => aset (fst st) cid x | None => Ok (fst st) end in
    let* det := determinant (g_ncol g) A (g_ncol g) (g_ncol g) in
    let* dets := aset (snd st) cid det in
    Ok (invs, dets)) st = Ok st' -> False).
  { intros m st st' L Hmz E. destruct m as [|m]; [lia|]. unfold loop in E. cbn [for_] in E. apply bind_ok in E as (st1 & E & _).
    apply bind_ok in E as (A & _ & E). apply bind_ok in E as (i0 & _ & E). apply bind_ok in E as (rr & _ & E). apply bind_ok in E as (iv' & _ & E). apply bind_ok in E as (dd & _ & E).
    apply bind_ok in E as (dt' & E & _). apply aset_inv in E as (E & _). lia. }
  refine (G (g_k g) (gm_inv s2, []) _ eq_refl _ H2). lia.
Qed.
Definition igdr : draws NumF := mkDraws NumF (fun i => 1 - i) (fun i => fofZ (Z.of_nat i + 1)) (fun _ => []).
Definition igshow (r : bool * gmm_t NumF) : list SpecFloat.spec_float * list SpecFloat.spec_float * list (list SpecFloat.spec_float) :=
  (go_means (snd r), go_prob (snd r), go_cov (snd r)).
(** a run that meets the hypotheses of C126_means and C126_weights: two rows 1
    and 4, drawn in the order 4, 1; weights 1/3 and 2/3 *)
Example C126_random_run : okmap igshow (@soft_run NumF elog2 (fofZ 6) true true (gg 1 2) None RANDOM (fl [1; 4]%Z) igdr gord1)
  = Some (fl [4; 1]%Z, [ndiv NumF (fofZ 1) (fofZ 3); ndiv NumF (fofZ 2) (fofZ 3)], [fl [1]%Z; fl [1]%Z]).
Proof. vm_compute. reflexivity. Qed.
Example C126_forgy_run : okmap igshow (@soft_run NumF elog2 (fofZ 6) true true (gg 1 2) None FORGY (fl [1; 4]%Z) igdr gord1)
  = Some (fl [4; 1]%Z, fl [0; 0]%Z, [fl [0]%Z; fl [0]%Z]).
Proof. vm_compute. reflexivity. Qed.
Example C126_hyps : valid_input (gg 1 2) (fl [1; 4]%Z) /\ forall c, c < g_k (gg 1 2) -> d_int igdr c < g_nrow (gg 1 2).
Proof. split; [unfold valid_input; cbn; splits; try lia; reflexivity|]. intros c _. change (1 - c < 2). lia. Qed.
