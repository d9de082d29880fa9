(** kmeans++ seeding in exact arithmetic. *)
From Coq Require Import Reals Lra.
From Verif Require Import Base Num Spec DistModel ClustersModel ClustersView PartitionModel ParModel KmeansModel.
From Verif Require Import MatLemmas VecLemmas ClustersProofs DistProofs PartitionProofs ParProofs NearProofs KmeansProofs UpdateProofs RunProofs.
From Verif Require Import InitProofs SimProofs KmeansR PropertiesKmeans PropertiesRun.
Set Implicit Arguments.
Local Open Scope R_scope.

Lemma pick_R : forall (dv : list R) row cuml, dv <> [] -> cuml <= rsum dv ->
  exists i, kmspp_pick NumR dv row cuml = (Some (row + i)%nat, cuml - rsum (firstn (S i) dv)) /\ (i < length dv)%nat /\
    cuml <= rsum (firstn (S i) dv) /\ forall i', (i' < i)%nat -> rsum (firstn (S i') dv) < cuml.
Proof.
  induction dv as [|x dv IH]; intros row cuml Hne Hle; [congruence|]. cbn [kmspp_pick].
  cbn [nsub nleb nzero NumR]. destruct (Rleb (cuml - x) 0) eqn:E.
  - apply Rleb_true in E. exists 0%nat. rewrite Nat.add_0_r. simpl. splits; try lia; try lra.
    f_equal. lra.
  - apply Rleb_false in E. cbn [rsum] in Hle.
    destruct dv as [|y dv]; [simpl in Hle; lra|].
    destruct (IH (S row) (cuml - x)) as (i & Ei & Hi & H1 & H2); [discriminate|lra|].
    exists (S i). change (firstn (S (S i)) (x :: y :: dv)) with (x :: firstn (S i) (y :: dv)). cbn [rsum].
    splits.
    + etransitivity; [exact Ei|]. f_equal; [f_equal; lia|lra].
    + simpl in *. lia.
    + lra.
    + intros [|i'] Hi'; [simpl; lra|]. change (firstn (S (S i')) (x :: y :: dv)) with (x :: firstn (S i') (y :: dv)). cbn [rsum].
      specialize (H2 i' ltac:(lia)). lra.
Qed.

Lemma rdist_self dt (x : list R) : dt <> COS -> rdist dt x x = 0.
Proof.
  assert (S : sqdist x x = 0). { unfold sqdist. induction x as [|a x IH]; simpl; [lra|]. rewrite IH. lra. }
  assert (T : tdist x x = 0). { clear. unfold tdist. induction x as [|a x IH]; simpl; [lra|]. rewrite IH. replace (a - a) with 0 by lra. rewrite Rabs_R0. lra. }
  destruct dt; intros H; cbn [rdist]; auto; try congruence. unfold edist. rewrite S. apply sqrt_0.
Qed.

Lemma rdist_nonneg dt (x y : list R) : dt <> COS -> 0 <= rdist dt x y.
Proof.
  destruct dt; intros H; cbn [rdist]; try congruence.
  - apply sqrt_pos.
  - unfold tdist. apply rsum_nonneg. intros v Hv. revert y Hv. induction x as [|a x IH]; intros [|b y] Hv; simpl in Hv; try contradiction.
    destruct Hv as [<-|Hv]; [apply Rabs_pos|eauto].
  - apply sqdist_pos.
Qed.

Lemma nth_error_amod {A} (l l' : list A) r f i : amod l r f = Ok l' ->
  nth_error l' i = if (i =? r)%nat then option_map f (nth_error l i) else nth_error l i.
Proof.
  intros H. apply amod_inv in H as (x & Ex & ->). rewrite nth_error_upd.
  assert (r < length l)%nat by (apply nth_error_Some; congruence).
  destruct (Nat.eqb_spec i r); [|reflexivity]. subst. rewrite Ex.
  destruct (Nat.ltb_spec r (length l)); [reflexivity|lia].
Qed.

(** std::numeric_limits<double>::max() *)
Definition MAX : R := IZR dbl_max_Z.

Lemma Some_inj {A} (a b : A) : Some a = Some b -> a = b.
Proof. congruence. Qed.

Section Kpp.
Variables (g : kcfg NumR) (data : list R) (ws : list (worker NumR)).
Let n := g_nrow g.
Let d := g_ncol g.
Hypothesis V : valid_input g data.
Hypothesis W : @wok NumR n d data ws.
Notation X r := (@row R data d r).
Notation dst := (rdist (g_dt g)).
Hypothesis Hself : forall r, (r < n)%nat -> dst (X r) (X r) = 0.
Hypothesis Hpos : forall r q, (r < n)%nat -> (q < n)%nat -> 0 <= dst (X r) (X q).

(** value [v] is the distance of row [r] to the closest of the rows [ch], capped at DBL_MAX *)
Definition mindist (ch : list nat) (r : nat) (v : R) : Prop :=
  (forall q, In q ch -> v <= dst (X r) (X q)) /\ v <= MAX /\ 0 <= v /\
  (v = MAX \/ exists q, In q ch /\ v = dst (X r) (X q)).
(** ... and id [a] is that of a closest one *)
Definition minid (ch : list nat) (r : nat) (v : R) (a : option nat) : Prop :=
  v = MAX \/ exists j q, nth_error ch j = Some q /\ a = Some j /\ v = dst (X r) (X q).

Definition pre (ch : list nat) (q : nat) (r : nat) (e : R * option nat) : Prop :=
  mindist ch r (fst e) /\ minid ch r (fst e) (snd e) \/
  (snd e = Some (length ch) /\ r = q /\ 0 <= fst e <= MAX /\ forall q', In q' ch -> fst e <= dst (X r) (X q')).

Lemma MAX_pos : 0 <= MAX.
Proof. unfold MAX. apply IZR_le. unfold dbl_max_Z. vm_compute. discriminate. Qed.

Lemma pre_step ch q r e : (r < n)%nat -> Forall (fun z => (z < n)%nat) (ch ++ [q]) -> pre ch q r e ->
  let e' := upd_cell g (length ch) (X q) (X r) e in
  mindist (ch ++ [q]) r (fst e') /\ minid (ch ++ [q]) r (fst e') (snd e').
Proof.
  intros Hrn Hch H. cbv zeta. rewrite Forall_forall in Hch.
  assert (Hqn : (q < n)%nat) by (apply Hch; apply in_or_app; right; left; reflexivity).
  assert (E' : upd_cell g (length ch) (X q) (X r) e = if Rltb (dst (X r) (X q)) (fst e) then (dst (X r) (X q), Some (length ch)) else e).
  { unfold upd_cell. rewrite (@ldist_R (g_dt g) (X r) (X q)). reflexivity. }
  rewrite E'. clear E'.
  pose proof (Hpos Hrn Hqn) as Hn. pose proof MAX_pos as HM.
  assert (Hq : nth_error (ch ++ [q]) (length ch) = Some q) by (rewrite nth_error_app2, Nat.sub_diag by lia; reflexivity).
  destruct (Rltb (dst (X r) (X q)) (fst e)) eqn:E.
  - apply Rltb_true in E. cbn [fst snd].
    assert (Hb : fst e <= MAX /\ forall q', In q' ch -> fst e <= dst (X r) (X q')).
    { destruct H as [((H1 & H2 & _) & _)|(_ & _ & H1 & H2)]; split; auto; lra. }
    destruct Hb as (Hb1 & Hb2). split.
    + split; [|split; [lra|split; [lra|right; exists q; split; [apply in_or_app; right; left|]; reflexivity]]].
      intros q' Hq'. apply in_app_or in Hq' as [Hq'|[<-|[]]]; [|lra]. specialize (Hb2 q' Hq'). lra.
    + right. exists (length ch), q. auto.
  - apply Rltb_false in E. change (mindist (ch ++ [q]) r (@fst R (option nat) e) /\ minid (ch ++ [q]) r (@fst R (option nat) e) (@snd R (option nat) e)). destruct H as [((H1 & H2 & H3 & H4) & H5)|(Ha & -> & H1 & H2)].
    + split.
      * split; [|split; [lra|split; [lra|]]].
        -- intros q' Hq'. apply in_app_or in Hq' as [Hq'|[<-|[]]]; auto.
        -- destruct H4 as [H4|(q' & Hi & H4)]; [left; exact H4|right; exists q'; split; [apply in_or_app; auto|exact H4]].
      * destruct H5 as [H5|(j & q' & Hj & Ha & H5)]; [left; exact H5|right; exists j, q']. split; [|auto].
        rewrite nth_error_app1; [exact Hj|]. apply nth_error_Some. congruence.
    + rewrite (Hself Hqn) in E. assert (E0 : fst e = 0) by lra.
      split.
      * split; [|split; [lra|split; [lra|]]].
        -- intros q' Hq'. rewrite E0. apply Hpos; auto.
        -- right. exists q. split; [apply in_or_app; right; left; reflexivity|]. rewrite (Hself Hqn). exact E0.
      * right. exists (length ch), q. rewrite (Hself Hqn). auto.
Qed.

(** what the trace records *)
Definition trace_ok (chosen : list nat) (trace : list (list R)) : Prop :=
  forall i dv, nth_error trace i = Some dv -> length dv = n /\
    forall r v, nth_error dv r = Some v -> mindist (firstn (S i) chosen) r v.

(** the row chosen in round i is the one the draw points at *)
Definition picks_ok (ur : nat -> R) (chosen : list nat) (trace : list (list R)) : Prop :=
  forall i dv q, nth_error trace i = Some dv -> nth_error chosen (S i) = Some q ->
    let target := rsum dv * ur i / (IZR RAND_MAX - 1) in
    target <= rsum (firstn (S q) dv) /\ forall q', (q' < q)%nat -> rsum (firstn (S q') dv) < target.

Lemma RM1 : 1 <= IZR RAND_MAX - 1.
Proof.
  assert (2 <= IZR RAND_MAX) by (apply IZR_le; vm_compute; discriminate). lra.
Qed.

Lemma kmspp_loop_R sch ur :
  (forall i, complete (w_ranges ws) (sch i)) -> (forall i, 0 <= ur i <= 1) ->
  forall m ci (c : clusters NumR) cells trace ch q, (m + ci = g_k g)%nat -> (ci < g_k g)%nat ->
  shaped (g_k g) d c -> length cells = n -> length ch = ci -> length trace = ci ->
  Forall (fun r => (r < n)%nat) (ch ++ [q]) ->
  (forall j, (j <= ci)%nat -> crow c j = X (nth j (ch ++ [q]) 0%nat)) ->
  (forall r e, nth_error cells r = Some e -> pre ch q r e) ->
  trace_ok (ch ++ [q]) trace -> picks_ok ur (ch ++ [q]) trace ->
  exists c' cells' trace' chosen, kmspp_loop g ws data sch ur m ci (c, cells) trace (ch ++ [q]) = Ok ((c', cells'), trace', chosen) /\
    shaped (g_k g) d c' /\ length cells' = n /\ length chosen = g_k g /\ length trace' = g_k g /\
    Forall (fun r => (r < n)%nat) chosen /\
    (forall j, (j < g_k g)%nat -> crow c' j = X (nth j chosen 0%nat)) /\
    (forall r e, nth_error cells' r = Some e -> mindist chosen r (fst e) /\ minid chosen r (fst e) (snd e)) /\
    trace_ok chosen trace' /\ picks_ok ur chosen trace' /\ nth_error trace' (g_k g - 1) = Some (map fst cells').
Proof.
  intros Hsch Hur. induction m as [|m IH]; intros ci c cells trace ch q Hm Hci Sh L Lch Lt Hch Hrows Hpre Htr Hpk; [lia|].
  cbn [kmspp_loop]. cbn [fst snd].
  rewrite (@kmspp_round_ok NumR g data V ws c ci (sch ci) cells W Sh Hci L (Hsch ci)).
  set (K := kcells g data ci (crow c ci) cells).
  assert (LK : length K = n) by (apply (@kcells_length NumR g data ci (crow c ci) cells L)).
  assert (LK2 : @length (R * option nat) K = n) by exact LK.
  assert (LK3 : @length (car NumR * option nat) K = n) by exact LK.
  assert (HK : forall r e, nth_error K r = Some e -> mindist (ch ++ [q]) r (fst e) /\ minid (ch ++ [q]) r (fst e) (snd e)).
  { intros r e He. unfold K in He. rewrite (@nth_error_kcells NumR g data ci (crow c ci) cells r L) in He.
    change (option_map (upd_cell g ci (crow c ci) (X r)) (@nth_error (R * option nat) cells r) = Some e) in He.
    destruct (@nth_error (R * option nat) cells r) as [e0|] eqn:E0; [|discriminate]. apply Some_inj in He. subst e.
    assert (Ec : crow c ci = X q) by (rewrite Hrows by lia; rewrite app_nth2, Lch, Nat.sub_diag by lia; reflexivity).
    rewrite Ec. rewrite <- Lch. apply pre_step; auto. rewrite <- L. apply nth_error_Some. rewrite E0. discriminate. }
  assert (Hdv : forall r v, nth_error (map fst K) r = Some v -> mindist (ch ++ [q]) r v).
  { intros r v Hv. rewrite nth_error_map in Hv. destruct (nth_error K r) as [e|] eqn:Ee; [|discriminate]. injection Hv as <-. apply (HK r e Ee). }
  assert (Lcq : length (ch ++ [q]) = S ci) by (rewrite app_length; simpl; lia).
  assert (Htr' : forall more, trace_ok ((ch ++ [q]) ++ more) (trace ++ [map fst K])).
  { intros more i dv Hi. destruct (Nat.lt_ge_cases i ci) as [Hlt|Hge].
    - rewrite nth_error_app1 in Hi by lia. rewrite firstn_app, Lcq. replace (S i - S ci)%nat with 0%nat by lia. cbn [firstn]. rewrite app_nil_r.
      apply Htr. exact Hi.
    - rewrite nth_error_app2 in Hi by lia. rewrite Lt in Hi. destruct (i - ci)%nat as [|z] eqn:Ez; [|destruct z; discriminate].
      injection Hi as <-. split; [rewrite map_length; exact LK|]. replace (S i) with (length (ch ++ [q])) by lia.
      rewrite firstn_app, Nat.sub_diag, firstn_all. cbn [firstn]. rewrite app_nil_r. exact Hdv. }
  cbn [bind fst snd].
  destruct (Nat.leb_spec (g_k g) (S ci)) as [Hk|Hk].
  - assert (Ek : g_k g = S ci) by lia. exists c, K, (trace ++ [map fst K]), (ch ++ [q]).
    specialize (Htr' []). rewrite app_nil_r in Htr'. splits; auto; try lia.
    + rewrite app_length, Lt. cbn [length]. lia.
    + intros j Hj. apply Hrows. lia.
    + intros i dv q' Hi Hq'. assert (S i < S ci)%nat by (rewrite <- Lcq; apply nth_error_Some; congruence).
      rewrite nth_error_app1 in Hi by lia. apply (Hpk i dv q' Hi Hq').
    + rewrite nth_error_app2 by lia. replace (g_k g - 1 - length trace)%nat with 0%nat by lia. reflexivity.
  - assert (Etot : fold_left (nadd NumR) (wsums ws K) (nzero NumR) = rsum (map fst K)).
    { destruct W as (Wt & _). apply (@wsums_total K n ws Wt LK). }
    rewrite Etot. cbn [nmul ndiv nsub nofZ none NumR].
    set (tgt := rsum (map fst K) * ur ci / (IZR RAND_MAX - 1)).
    pose proof RM1 as HM.
    assert (Hpos' : 0 <= rsum (map fst K)).
    { apply rsum_nonneg. intros x Hx. apply In_nth_error in Hx as (r & Hr). destruct (Hdv r x Hr) as (_ & _ & H & _). exact H. }
    assert (Htg : tgt <= rsum (map fst K)).
    { unfold tgt. specialize (Hur ci). apply Rmult_le_reg_r with (IZR RAND_MAX - 1); [lra|].
      unfold Rdiv. rewrite Rmult_assoc, Rinv_l by lra. nra. }
    assert (Hne : map fst K <> []).
    { destruct V as (V1 & _). intros E. pose proof (map_length fst K) as Q. rewrite E in Q. cbn [length] in Q.
      assert (Hn0 : n = 0%nat) by (rewrite <- LK; symmetry; exact Q). unfold n in Hn0. clear - V1 Hn0. lia. }
    destruct (@pick_R (map fst K) 0 tgt Hne Htg) as (r & Er & Hr & Hr1 & Hr2).
    change (kmspp_pick NumR (map fst K) 0 tgt) with (kmspp_pick NumR (map fst K) 0 tgt) in Er.
    rewrite Er. rewrite Nat.add_0_l. rewrite map_length in Hr.
    assert (Hrn : (r < n)%nat) by lia.
    destruct (@thd_row_ok NumR g data V r Hrn) as (p & -> & Hp). cbn [bind].
    destruct (@set_mean_at_ok NumR (g_k g) d c p (X r) (S ci) Sh Hk (@data_row_length NumR g data V r Hrn) Hp) as (c' & -> & Sh' & Hc').
    cbn [bind].
    destruct (amod K r _) as [K'|e] eqn:EK.
    2:{ destruct (nth_error K r) as [y|] eqn:Ey; [|apply nth_error_None in Ey; lia]. rewrite (amod_ok _ _ _ Ey) in EK. discriminate. }
    cbn [bind]. cbn [nleb nzero NumR].
    assert (Hneg : Rleb (tgt - rsum (firstn (S r) (map fst K))) 0 = true) by (apply Rleb_true; apply Rle_minus; exact Hr1).
    match goal with |- context [assert_ ?b] => replace b with true by (symmetry; exact Hneg) end. cbn [assert_ bind].
    assert (LK' : length K' = n). { apply amod_inv in EK as (y & _ & ->). rewrite upd_length. exact LK. }
    apply (IH (S ci) c' K' (trace ++ [map fst K]) (ch ++ [q]) r); auto; try lia.
    + rewrite app_length. simpl. lia.
    + apply Forall_app. split; [exact Hch|]. constructor; [exact Hrn|constructor].
    + intros j Hj. specialize (Hc' j ltac:(lia)). unfold cel in Hc'. destruct (Nat.eqb_spec j (S ci)) as [Ej|Hne'].
      * injection Hc' as Hc1 _ _. rewrite Hc1, Ej. rewrite app_nth2 by lia. rewrite Lcq, Nat.sub_diag. reflexivity.
      * injection Hc' as Hc1 _ _. rewrite Hc1. rewrite app_nth1 by lia. apply Hrows. lia.
    + intros r' e' He'. pose proof (eq_trans (eq_sym (@nth_error_amod _ _ _ _ _ r' EK)) He') as He2. clear He'. rename He2 into He'. destruct (Nat.eqb_spec r' r) as [->|Hne'].
      * destruct (nth_error K r) as [e|] eqn:Ee; [|discriminate]. apply Some_inj in He'. subst e'. right. cbn [fst snd].
        destruct (HK r e Ee) as ((H1 & H2 & H3 & _) & _). rewrite Lcq. splits; auto.
      * left. apply HK. exact He'.
    + intros i dv q' Hi Hq'. cbv zeta. destruct (Nat.lt_ge_cases (S i) (S ci)) as [Hlt|Hge].
      * rewrite nth_error_app1 in Hi by lia. rewrite nth_error_app1 in Hq' by lia. exact (Hpk i dv q' Hi Hq').
      * assert (i = ci).
        { assert (S i < length ((ch ++ [q]) ++ [r]))%nat by (apply nth_error_Some; congruence). rewrite app_length, Lcq in H. simpl in H. lia. }
        subst i. rewrite nth_error_app2 in Hi by lia. rewrite Lt, Nat.sub_diag in Hi. injection Hi as <-.
        rewrite nth_error_app2 in Hq' by lia. rewrite Lcq, Nat.sub_diag in Hq'. injection Hq' as <-.
        fold tgt. auto.
Qed.

Lemma kmspp_init_gen_R sch ur first s : (forall i, complete (w_ranges ws) (sch i)) -> (forall i, 0 <= ur i <= 1) ->
  (first < n)%nat -> (1 <= g_k g)%nat -> shaped (g_k g) d (s_cltrs s) -> length (s_asg s) = n ->
  exists s' dv trace chosen, kmeanspp_init_t g ws data sch first ur s = Ok (s', dv, trace, chosen) /\
    shaped (g_k g) d (s_cltrs s') /\ length chosen = g_k g /\ length trace = g_k g /\
    nth_error chosen 0 = Some first /\ Forall (fun r => (r < n)%nat) chosen /\
    (forall j, (j < g_k g)%nat -> crow (s_cltrs s') j = X (nth j chosen 0%nat)) /\
    nth_error trace (g_k g - 1) = Some dv /\ length (s_asg s') = n /\ length dv = n /\
    (forall r v a, nth_error dv r = Some v -> nth_error (s_asg s') r = Some a -> mindist chosen r v /\ minid chosen r v a) /\
    trace_ok chosen trace /\ picks_ok ur chosen trace.
Proof.
  intros Hsch Hur Hf Hk Sh Ha. unfold kmeanspp_init_t.
  destruct (@thd_row_ok NumR g data V first Hf) as (p & -> & Hp). cbn [bind].
  destruct (@set_mean_at_ok NumR (g_k g) d (s_cltrs s) p (X first) 0 Sh Hk (@data_row_length NumR g data V first Hf) Hp) as (c' & -> & Sh' & Hc').
  cbn [bind]. rewrite !aset_ok by (rewrite ?repeat_length, ?Ha; exact Hf). cbn [bind].
  set (cells := combine (upd (repeat (nmax NumR) n) first (nzero NumR)) (upd (s_asg s) first (Some 0%nat))).
  destruct (@kmspp_loop_R sch ur Hsch Hur (g_k g) 0 c' cells [] [] first) as (c2 & cells2 & trace & chosen & E & H1 & H2 & H3 & H4 & H5 & H6 & H7 & H8 & H9 & H10); auto; try lia.
  { unfold cells. rewrite combine_length, !upd_length, !repeat_length, Ha. lia. }
  { constructor; [exact Hf|constructor]. }
  { intros j Hj. assert (j = 0)%nat by lia. subst j. specialize (Hc' 0%nat Hk). unfold cel in Hc'. simpl in Hc'. injection Hc' as Hc1 _ _. exact Hc1. }
  { intros r e He. unfold cells in He.
    assert (G : forall (B C : Type) (u : list B) (w : list C) i e, nth_error (combine u w) i = Some e -> nth_error u i = Some (fst e) /\ nth_error w i = Some (snd e)).
    { clear. induction u as [|x u IH]; intros [|y w] [|i] e He; simpl in *; try discriminate; [injection He as <-; auto|]. apply IH. exact He. }
    apply G in He as (He1 & He2). rewrite nth_error_upd in He1. rewrite repeat_length in He1. rewrite nth_error_upd in He2. rewrite Ha in He2.
    pose proof MAX_pos as HM.
    destruct (Nat.eqb_spec r first) as [->|Hne].
    - destruct (Nat.ltb_spec first n); [|lia]. injection He1 as He1. injection He2 as He2. right.
      rewrite <- He1, <- He2. cbn [nzero NumR length]. splits; auto; [lra|]. intros q' [].
    - left. assert (Hr : (r < n)%nat). { rewrite <- (@repeat_length _ (nmax NumR) n). apply nth_error_Some. intros Q. pose proof (eq_trans (eq_sym Q) He1) as Q2. discriminate. }
      pose proof (eq_trans (eq_sym (@nth_error_repeat _ (nmax NumR) n r Hr)) He1) as He3. apply Some_inj in He3. clear He1. rename He3 into He1. rewrite <- He1. unfold mindist, minid. change (nmax NumR) with MAX.
      splits; auto; try lra. intros q' []. }
  { intros i dv Hi. destruct i; discriminate. }
  { intros i dv q' Hi. destruct i; discriminate. }
  cbn [app] in E.
  assert (Hfirst : nth_error chosen 0 = Some first).
  { (* chosen extends the list given *)
    assert (P : forall m ci st tr ch st' tr' ch', kmspp_loop g ws data sch ur m ci st tr ch = Ok (st', tr', ch') -> exists more, ch' = ch ++ more).
    { clear. induction m as [|m IH]; intros ci st tr ch st' tr' ch' H; cbn [kmspp_loop] in H; [discriminate|].
      apply bind_ok in H as (lc & _ & H). destruct (g_k g <=? S ci)%nat; [injection H as _ _ <-; exists []; rewrite app_nil_r; reflexivity|].
      destruct (kmspp_pick NumR (map fst (snd lc)) 0 _) as [pk cu]. apply bind_ok in H as (s' & _ & H). apply bind_ok in H as (u & _ & H).
      apply IH in H as (more & ->). rewrite <- app_assoc. eauto. }
    apply P in E as (more & ->). reflexivity. }
  match goal with |- context [bind ?t _] => replace t with (Ok ((c2, cells2), trace, chosen)) by (symmetry; exact E) end.
  cbn [bind].
  eexists _, _, _, _. split; [reflexivity|]. cbn [s_cltrs s_asg]. rewrite !map_length. splits; auto.
  intros r v a Hv Hx. rewrite nth_error_map in Hv, Hx. destruct (nth_error cells2 r) as [e|] eqn:Ee; [|discriminate].
  injection Hv as <-. injection Hx as <-. apply H7. exact Ee.
Qed.

Lemma kmspp_init_R sch ur first s : (forall i, complete (w_ranges ws) (sch i)) -> (forall i, 0 <= ur i <= 1) ->
  (first < n)%nat -> (1 <= g_k g)%nat -> shaped (g_k g) d (s_cltrs s) -> s_asg s = repeat None n ->
  exists s' dv trace chosen, kmeanspp_init_t g ws data sch first ur s = Ok (s', dv, trace, chosen) /\
    shaped (g_k g) d (s_cltrs s') /\ length chosen = g_k g /\ length trace = g_k g /\
    nth_error chosen 0 = Some first /\ Forall (fun r => (r < n)%nat) chosen /\
    (forall j, (j < g_k g)%nat -> crow (s_cltrs s') j = X (nth j chosen 0%nat)) /\
    nth_error trace (g_k g - 1) = Some dv /\ length (s_asg s') = n /\ length dv = n /\
    (forall r v a, nth_error dv r = Some v -> nth_error (s_asg s') r = Some a -> mindist chosen r v /\ minid chosen r v a) /\
    trace_ok chosen trace /\ picks_ok ur chosen trace.
Proof.
  intros Hsch Hur Hf Hk Sh Ha. apply kmspp_init_gen_R; auto. rewrite Ha. apply repeat_length.
Qed.

End Kpp.
