(** Mini-batch k-means in exact arithmetic: whole runs. *)
From Coq Require Import Reals Lra.
From Verif Require Import Base Num Spec DistModel ClustersModel ClustersView PartitionModel ParModel KmeansModel PruneModel MatrixModel MbModel.
From Verif Require Import MatLemmas VecLemmas ClustersProofs DistProofs PartitionProofs ParProofs NearProofs KmeansProofs UpdateProofs RunProofs ParRule DistMatProofs PruneProofs ClusterSums PruneRound PruneUpdate PruneRun.
From Verif Require Import InitProofs SimProofs PropertiesRun KmsppR PruneRun2 PropertiesMatrix MbProofs.
Set Implicit Arguments.
Local Open Scope R_scope.

(* ------------------------------------------------------------------ *)
(** ** the convergence test *)
Lemma rsum_map2_seq (f : R -> R -> R) : forall (v w : list R), length v = length w ->
  bigsum NumR (length v) (fun i => f (nth i v 0) (nth i w 0)) = rsum (map2 f v w).
Proof.
  intros v. induction v as [|x v IH] using rev_ind; intros w L; [destruct w; [reflexivity|discriminate]|].
  destruct w as [|y w _] using rev_ind; [rewrite app_length in L; cbn in L; lia|].
  rewrite !app_length in L. cbn [length] in L. assert (L' : length v = length w) by lia.
  assert (E2 : forall (a b : list R) s t, length a = length b -> map2 f (a ++ [s]) (b ++ [t]) = map2 f a b ++ [f s t]).
  { induction a as [|p a IHa]; intros [|q b] s t Hl; cbn [app map2 length] in *; try discriminate; [reflexivity|]. f_equal. apply IHa. lia. }
  assert (E3 : forall a b, rsum (a ++ b) = rsum a + rsum b).
  { induction a as [|p a IHa]; intros b; cbn [app rsum]; [lra|]. rewrite IHa. lra. }
  rewrite E2, E3, <- IH by exact L'. cbn [rsum]. rewrite app_length, Nat.add_1_r. cbn [bigsum].
  change (nadd NumR) with Rplus. rewrite Rplus_0_r. f_equal.
  - apply (@bigsum_ext NumR). intros i Hi. rewrite !app_nth1 by lia. reflexivity.
  - rewrite !app_nth2 by lia. rewrite <- L', Nat.sub_diag. reflexivity.
Qed.

Lemma mb_change_R (s : pst NumR) : length (p_prev_means (ps_cltrs s)) = length (c_means (p_cl (ps_cltrs s))) ->
  mb_change s = Ok (edist (c_means (p_cl (ps_cltrs s))) (p_prev_means (ps_cltrs s))).
Proof.
  intros L. unfold mb_change. set (m := c_means (p_cl (ps_cltrs s))) in *. set (p := p_prev_means (ps_cltrs s)) in *.
  destruct (@c47_linalg NumR m p [] (length m) 0 eq_refl ltac:(cbn; lia)) as (_ & H & _). destruct (H L) as (_ & dd & -> & (Ld & Hd)).
  cbn [Base.bind]. rewrite Ld. unfold frobenius_norm.
  assert (E : loop (length m) (fun i s => let* x := pget (dd, 0%nat) i in Ok (nadd NumR s (nmul NumR x x))) (nzero NumR)
    = Ok (bigsum NumR (length m) (fun i => (nth i m 0 - nth i p 0) * (nth i m 0 - nth i p 0)))).
  { transitivity (loop (length m) (fun i s => let* x := (let* y := pget (dd, 0%nat) i in Ok (nmul NumR y y)) in Ok (nadd NumR s x)) (nzero NumR)).
    { apply for_ext. intros j s' _. destruct (pget (dd, 0%nat) j); reflexivity. }
    apply (@sum_loop NumR). intros i Hi. unfold pget. cbn [fst snd Nat.add]. rewrite (aget_nth dd (nzero NumR)) by lia. cbn [Base.bind].
    rewrite (Hd i Hi). reflexivity. }
  rewrite E. cbn [Base.bind]. unfold edist, sqdist. f_equal. apply (f_equal sqrt).
  apply (@rsum_map2_seq (fun a b => (a - b) * (a - b)) m p). symmetry. exact L.
Qed.

(* ------------------------------------------------------------------ *)
(** ** boxes *)
Definition inbox (d : nat) (lo hi : nat -> R) (x : list R) : Prop := forall i, (i < d)%nat -> lo i <= nth i x 0 <= hi i.

Lemma mv_length d e c x : length c = d -> length x = d -> length (mv e c x) = d.
Proof. intros A B. unfold mv. rewrite map2_length. lia. Qed.

Lemma mv_box d lo hi e c x : 0 <= e <= 1 -> length c = d -> length x = d -> inbox d lo hi c -> inbox d lo hi x -> inbox d lo hi (mv e c x).
Proof.
  intros He Lc Lx Hc Hx i Hi. unfold mv. rewrite (@nth_map2 _ _ _ _ c x i 0 0 0) by lia.
  specialize (Hc i Hi). specialize (Hx i Hi). revert Hc Hx. generalize (nth i c 0) (nth i x 0) (lo i) (hi i). intros a b l h A B. nra.
Qed.

Lemma fold_mv_box d lo hi e : 0 <= e <= 1 -> forall l c, length c = d -> inbox d lo hi c ->
  (forall x, In x l -> length x = d /\ inbox d lo hi x) ->
  length (fold_left (mv e) l c) = d /\ inbox d lo hi (fold_left (mv e) l c).
Proof.
  intros He. induction l as [|x l IH]; intros c Lc Hc Hl; cbn [fold_left]; [auto|].
  destruct (Hl x (or_introl eq_refl)) as (Lx & Hx). apply IH.
  - apply mv_length; auto.
  - apply mv_box; auto.
  - intros y Hy. apply Hl. right. exact Hy.
Qed.

Section Run.
Variables (g : kcfg NumR) (ws : list (worker NumR)) (data : list (car NumR)).
Let d := g_ncol g.
Let k := g_k g.
Let n := g_nrow g.
Let X (r : nat) : list R := row data d r.
Hypothesis Hws : wok n d data ws.
Hypothesis Hdata : length data = (n * d)%nat.
Hypothesis Hk1 : (1 <= k)%nat.

Lemma cent_len s j : mbinv g ws s -> (j < k)%nat -> @length R (cent s j) = d.
Proof.
  intros (((A & _) & _) & _) Hj. unfold cent, crow. destruct A as (A1 & A2 & (A3 & _)).
  rewrite A2. apply (@row_length _ _ _ j k); [|exact Hj]. etransitivity; [exact A3|]. rewrite A1, A2. reflexivity.
Qed.

Lemma mscan_near s r : mbinv g ws s -> (r < n)%nat ->
  entry_ok k (g_dt g) (cent s) (X r) (cdist (cellat s r)) (casg (cellat s r)) ->
  exists a, snd (mscan g (cent s) (X r) (cdist (cellat s r)) (casg (cellat s r))) = Some a /\ is_nearest (g_dt g) k (cent s) (X r) a.
Proof.
  intros (((A & _) & _) & _) Hr He.
  assert (Lx : @length R (X r) = d) by (apply (@row_length _ data d r n); auto).
  destruct (@prow_init_R k d (g_dt g) (data, (r * d)%nat) (X r) (p_cl (ps_cltrs s)) (cdist (cellat s r)) (casg (cellat s r)) eq_refl Lx A Hk1 He) as (a & E & Hn).
  assert (E2 := eq_trans (eq_sym (@prow_scan g data Hdata Hk1 (data, (r * d)%nat) (X r) (p_cl (ps_cltrs s)) (cdist (cellat s r)) (casg (cellat s r)) eq_refl Lx A)) E).
  injection E2 as E2. exists a. split; [|exact Hn]. exact (f_equal snd E2).
Qed.

(** all that holds of one iteration, from [a] to [b] *)
Definition mstep (perctg : R) (u : nat -> R) (a b : pst NumR) : Prop :=
  (forall r, (r < n)%nat -> casg (cellat b r) = casg (newcell g data perctg u (cent a) r (cellat a r)) /\ cdist (cellat b r) = nmax NumR) /\
  (forall r, (r < n)%nat -> smp perctg u r = true -> exists c, casg (cellat b r) = Some c /\ (c < k)%nat) /\
  (forall j, (j < k)%nat -> cent b j =
     fold_left (mv (1 / INR (acnt j (asg_of (PruneModel.ps_cells b)))))
       (map X (filter (fun r => id_eqb (casg (cellat b r)) (Some j)) (filter (smp perctg u) (seq 0 n)))) (cent a j)) /\
  p_prev_means (ps_cltrs b) = c_means (p_cl (ps_cltrs a)).

Lemma last_cons {A} : forall (l : list A) (x d' : A), last (x :: l) d' = last l x.
Proof.
  induction l as [|y l IH]; intros x d'; [reflexivity|]. change (last (x :: y :: l) d') with (last (y :: l) d'). rewrite !IH. reflexivity.
Qed.

Lemma means_len s : mbinv g ws s -> @length R (c_means (p_cl (ps_cltrs s))) = (k * d)%nat.
Proof. intros (((A & _) & _) & _). destruct A as (A1 & A2 & (A3 & _)). etransitivity; [exact A3|]. rewrite A1, A2. reflexivity. Qed.

Lemma mb_loop_R (perctg : R) (u : nat -> nat -> R) (scheds : nat -> list nat) (Hsch : forall i, complete (w_ranges ws) (scheds i)) : forall m iter s trace, mbinv g ws s ->
  match mb_loop g ws perctg u scheds m iter s trace with
  | Ok (iter', conv, s', trace') => exists tr, trace' = trace ++ tr /\ s' = last tr s /\ mbinv g ws s' /\
      (if conv then (iter' + 1 = iter + length tr)%nat /\ (1 <= length tr <= m)%nat else iter' = (iter + m)%nat /\ length tr = m) /\
      (forall i a b, nth_error (s :: tr) i = Some a -> nth_error tr i = Some b ->
         mbinv g ws a /\ mbinv g ws b /\ mstep perctg (u (iter + i)%nat) a b /\
         (edist (c_means (p_cl (ps_cltrs b))) (c_means (p_cl (ps_cltrs a))) < g_tol g <-> conv = true /\ S i = length tr))
  | Err e => e = Abort
  end.
Proof.
  induction m as [|m IH]; intros iter s trace Hs; cbn [mb_loop].
  - exists []. rewrite app_nil_r. splits; auto; try lia. intros i a b _ Hb. destruct i; discriminate.
  - pose proof (@mb_iterate_R g ws data Hws Hdata Hk1 perctg (u iter) (scheds iter) s (Hsch iter) Hs) as Hi.
    fold k d n in Hi |- *.
    destruct (mb_iterate g ws perctg (u iter) (scheds iter) s) as [s1|e]; cbn [Base.bind]; [|apply Hi].
    destruct Hi as (Hs1 & HA & HB & HC & HD).
    assert (St : mstep perctg (u iter) s s1) by (unfold mstep; splits; auto; intros; apply HA; auto).
    match goal with |- context [(?a =? ?b)%nat] => replace (a =? b)%nat with true by (symmetry; apply Nat.eqb_eq; symmetry; exact (means_len Hs1)) end.
    cbn [assert_ Base.bind].
    rewrite mb_change_R by (rewrite HD; etransitivity; [exact (means_len Hs)|symmetry; exact (means_len Hs1)]). cbn [Base.bind]. rewrite HD.
    change (nltb NumR) with Rltb.
    destruct (Rltb (edist (c_means (p_cl (ps_cltrs s1))) (c_means (p_cl (ps_cltrs s)))) (g_tol g)) eqn:Et.
    + exists [s1]. splits; auto.
      * cbn; lia.
      * intros i a b Ha Hb. destruct i as [|i]; [|destruct i; discriminate]. cbn in Ha, Hb. injection Ha as <-. injection Hb as <-.
        rewrite Nat.add_0_r. splits; auto. split; [intros _; split; reflexivity|]. intros _. apply Rltb_true. exact Et.
    + specialize (IH (S iter) s1 (trace ++ [s1]) Hs1).
      destruct (mb_loop g ws perctg u scheds m (S iter) s1 (trace ++ [s1])) as [[[[iter' conv] s'] trace']|e]; [|exact IH].
      destruct IH as (tr & -> & El & Hs' & Hit & Hst). exists (s1 :: tr). rewrite <- app_assoc. splits; auto.
      * rewrite El, last_cons. reflexivity.
      * cbn [length]. destruct conv; lia.
      * intros i a b Ha Hb. destruct i as [|i].
        -- cbn in Ha, Hb. injection Ha as <-. injection Hb as <-. rewrite Nat.add_0_r. splits; auto.
           apply Rltb_false in Et. split; [intros H; exfalso; lra|]. intros (-> & H). cbn [length] in H. lia.
        -- cbn [nth_error] in Ha, Hb. destruct (Hst i a b Ha Hb) as (B1 & B2 & B3 & B4). replace (iter + S i)%nat with (S iter + i)%nat by lia.
           splits; auto. rewrite B4. cbn [length]. split; intros (H1 & H2); split; auto; lia.
Qed.

End Run.
