(** X-means: the whole run. *)
From Coq Require Import Permutation.
From Verif Require Import Base Num DistModel DistProofs ClustersModel ClustersView ClustersProofs MatLemmas
  PartitionModel PartitionProofs ParModel KmeansModel ParProofs NearProofs KmeansProofs UpdateProofs RunProofs InitProofs Spec ParRule ParSim Okab.
From Verif Require Import ContainersModel PropertiesIds HclustModel HclustProofs HclustUpdate HclustIter HclustSplit HclustRun HclustDone HclustVerify
  XmeansModel XmeansProofs XmeansDecide XmeansRound.
Set Implicit Arguments.
Unset Strict Implicit.

Lemma max_hnodes_half k : 2 <= k -> (Z.of_nat k < 2 ^ 30)%Z ->
  get_max_hnodes (w32 (Z.of_nat (hclust_floor k / 2) * 2)) = Ok (Z.of_nat (2 * hclust_floor k - 1)).
Proof.
  intros Hk H30. destruct (floor_facts Hk H30) as (F2 & _ & F29 & Fh). set (F := hclust_floor k) in *.
  assert (Hpow : F = 2 ^ Nat.log2 k) by reflexivity. set (L := Nat.log2 k) in *.
  unfold get_max_hnodes, w32. rewrite Z.mod_small by lia. replace (Z.of_nat (F / 2) * 2)%Z with (Z.of_nat F) by lia.
  assert (EF : Z.of_nat F = (2 ^ Z.of_nat L)%Z) by (rewrite Hpow, Nat2Z.inj_pow; reflexivity).
  assert (L29 : L <= 29).
  { destruct (Nat.le_gt_cases L 29); auto. exfalso. assert (2 ^ 30 <= 2 ^ Z.of_nat L)%Z by (apply Z.pow_le_mono_r; lia). lia. }
  assert (E1 : (2 ^ Z.of_nat (S L) = 2 * 2 ^ Z.of_nat L)%Z) by (rewrite Nat2Z.inj_succ, Z.pow_succ_r by lia; lia).
  pose proof (@hnodes_loop (Z.of_nat F) L ltac:(lia) ltac:(lia) ltac:(lia) (S L) 0 40 ltac:(lia) ltac:(lia)) as H.
  change (2 ^ Z.of_nat 0)%Z with 1%Z in H. change (1 - 1)%Z with 0%Z in H. rewrite H. f_equal. lia.
Qed.

Lemma floor_cases k : 2 <= k -> hclust_floor k = 2 \/ hclust_floor k = 4 \/ 8 <= hclust_floor k.
Proof.
  intros Hk. unfold hclust_floor. pose proof (Nat.log2_pos k ltac:(lia)) as Hp.
  destruct (Nat.log2 k) as [|[|[|L]]]; [lia|left; reflexivity|right; left; reflexivity|right; right].
  rewrite !Nat.pow_succ_r'. assert (0 < 2 ^ L) by (apply Nat.neq_0_lt_0, Nat.pow_nonzero; lia). lia.
Qed.

Section Run.
Variable N : Num.
Notation T := (car N).
Notation clusters := (clusters N).
Variable nlog : T -> T.
Variable two_pi : T.
Variables (g : hcfg N) (ws : list (worker N)) (data : list T).
Let d := g_ncol g.
Let n := g_nrow g.
Hypothesis V : valid_input g data.
Hypothesis Hws : wok n d data ws.
Let F := hclust_floor (g_k g).
Let M := 4 * F - 1.
Let K := 2 * F - 1.
Hypothesis Hk2 : 2 <= g_k g.
Hypothesis Hk30 : (Z.of_nat (g_k g) < 2 ^ 30)%Z.
Hypothesis Hmin : 2 <= h_min g.
Hypothesis Hit : 1 <= g_max_iters g.

(** what is known of an output centroid after the rounds [lv] (the partition of each
    row at the start of the rounds): it is the mean of the rows of its cluster, or
    the accumulated mean of an id that was rejected as a partition with these rows *)
Definition FPx (lv : list (list nat)) (asg : list nat) (i : nat) (v : list T) : Prop :=
  v = fst (fst (ucel g ws data asg i)) \/
  exists pre A post, lv = pre ++ A :: post /\ length A = n /\ (forall r, r < n -> (nth r asg 0 =? i) = (nth r A 0 =? i)) /\
    v = fst (fst (pcel g ws data i (pre ++ [A]))).

Lemma FPx_u lv : forall asg i v, length v = d -> v = fst (fst (ucel g ws data asg i)) -> FPx lv asg i v.
Proof. intros asg i v _ H. left. exact H. Qed.
Lemma FPx_s lv : forall A A' i v, length A = n -> length A' = n ->
  (forall r, r < n -> (nth r A 0 =? i) = (nth r A' 0 =? i)) -> FPx lv A i v -> FPx lv A' i v.
Proof.
  clear - Hws. intros A A' i v LA LA' H [->|(pre & B & post & E & LB & HB & ->)].
  - left. rewrite (@ucel_ext N g ws data Hws A A' i LA LA' H). reflexivity.
  - right. exists pre, B, post. splits; auto. intros r Hr. rewrite <- H by exact Hr. apply HB. exact Hr.
Qed.
Lemma FPx_mono lv A asg i v : FPx lv asg i v -> FPx (lv ++ [A]) asg i v.
Proof.
  clear. intros [->|(pre & B & post & -> & LB & HB & ->)]; [left; reflexivity|]. right. exists pre, B, (post ++ [A]). splits; auto.
  rewrite <- app_assoc. reflexivity.
Qed.

Lemma rinv_mono (FP FP' : list nat -> nat -> list T -> Prop) e s : (forall asg i v, FP asg i v -> FP' asg i v) ->
  rinv g ws data M FP e s -> rinv g ws data M FP' e s.
Proof.
  clear. intros H [R1 R2 R3 R4 R5 R6 R7 R8]. constructor; auto. intros i v Hv. destruct (R5 i v Hv). split; auto.
Qed.

(** at the start of a round *)
Record xpre (lv : list (list nat)) (s : xst N) : Prop := {
  p_eq : x_part (xh s) = x_asg (xh s);
  p_lt : forall i, In i (hm_keys (x_hcl (xh s)) ++ finkeys (xh s)) -> i < K;
  p_pd : length (x_pd s) = n;
  p_cd : length (x_cd s) = n;
  p_cl : shaped K d (x_cl s);
  p_cel : forall j, j < K -> cel (x_cl s) j = pcel g ws data j lv;
  p_loc : length (x_loc s) = length ws;
  p_locs : Forall (shaped K d) (x_loc s)
}.

(** the rows of every partition were last assigned by comparing two centroids, [C];
    the stored distances are those to the nearer one *)
Definition cdist_ok (s : xst N) : Prop := forall p h, hget (x_hcl (xh s)) p = Some h ->
  exists C : list (list T), length C = 2 /\ forall r, r < n -> nth r (x_part (xh s)) 0 = p ->
    exists f, near N (g_dt g) C (row data d r) = (Some f, nth r (x_cd s) (nzero N)) /\ nth r (x_asg (xh s)) 0 = ch h f.

(** when the decisions start *)
Record xmid (lv : list (list nat)) (A : list nat) (s0 s : xst N) : Prop := {
  q_part : x_part (xh s) = x_part (xh s0);
  q_keys : forall i, In i (hm_keys (x_hcl (xh s))) <-> In i (hm_keys (x_hcl (xh s0)));
  q_nkeys : length (hm_keys (x_hcl (xh s))) = length (hm_keys (x_hcl (xh s0)));
  q_final : x_final (xh s) = x_final (xh s0);
  q_curr : x_curr (xh s) = x_curr (xh s0);
  q_ider : x_ider (xh s) = x_ider (xh s0);
  q_pd : length (x_pd s) = n;
  q_cd : length (x_cd s) = n;
  q_cl : shaped K d (x_cl s);
  q_cel : forall j, j < K -> cel (x_cl s) j = pcel g ws data j (lv ++ [A]);
  q_loc : length (x_loc s) = length ws;
  q_locs : Forall (shaped K d) (x_loc s);
  q_live : forall p r, In p (hm_keys (x_hcl (xh s))) -> r < n -> (nth r A 0 =? p) = (nth r (x_part (xh s)) 0 =? p);
  q_pdist : forall r, r < n -> nth r (x_pd s) (nzero N) = ldist N (g_dt g) (row data d r) (crow (x_cl s) (nth r (x_part (xh s)) 0));
  q_cdist : cdist_ok s
}.

Lemma part_lt e FP s lv : rinv g ws data M FP e (xh s) -> xpre lv s -> forall r, r < n -> nth r (x_part (xh s)) 0 < K.
Proof.
  intros R P r Hr. apply (p_lt P). rewrite in_app_iff. destruct (hget (x_hcl (xh s)) (nth r (x_part (xh s)) 0)) as [h|] eqn:Eh.
  - left. apply keys_in. eauto.
  - right. rewrite (p_eq P) at 1. apply (r_rows R Hr Eh).
Qed.

Lemma cdist_step e FP s2 s3 j : rinv g ws data M FP e (xh s2) -> x_part (xh s3) = x_part (xh s2) ->
  (forall p, match hget (x_hcl (xh s2)) p with
     | Some h => exists h', hget (x_hcl (xh s3)) p = Some h' /\ h_zero h' = h_zero h /\ h_one h' = h_one h
     | None => hget (x_hcl (xh s3)) p = None end) ->
  (forall r, r < n -> dest g data (xh s2) r = Some (nth r (x_asg (xh s3)) 0)) ->
  (forall r, r < n -> nth r (x_cd s3) (nzero N) = cd_after g data s2 r) ->
  (j = 0 -> x_asg (xh s2) = x_part (xh s2)) -> (1 <= j -> cdist_ok s2) -> cdist_ok s3.
Proof.
  clear - V Hws. intros R2 B3 B7 B8 C6 A13 A14 p h3 Hh3. specialize (B7 p). destruct (hget (x_hcl (xh s2)) p) as [h|] eqn:Eh; [|congruence].
  destruct B7 as (h' & X & Z0 & Z1). rewrite X in Hh3. injection Hh3 as ->.
  assert (Hch : forall f, ch h3 f = ch h f) by (intros [|f]; assumption).
  assert (Hact : forall r, r < n -> nth r (x_part (xh s2)) 0 = p -> nth (nth r (x_asg (xh s2)) 0) (x_act (xh s2)) false = true).
  { intros r Hr Hp. destruct (e_rows (r_e R2) Hr) as (_ & Q). rewrite Hp, Eh in Q. destruct (e_live (r_e R2) Eh) as (_ & Q1 & _ & Q2).
    destruct Q as [(-> & _)|(i & Hi & ->)]; [exact Q1|apply (Q2 i Hi)]. }
  destruct (h_conv h) eqn:Ec.
  - destruct j as [|j].
    + exists [[]; []]. split; [reflexivity|]. intros r Hr Hp. exfalso. rewrite B3 in Hp. specialize (A13 eq_refl).
      destruct (e_rows (r_e R2) Hr) as (_ & Q). rewrite Hp, Eh in Q. destruct Q as [(_ & Q)|(i & Hi & Q)]; [congruence|].
      destruct (e_live (r_e R2) Eh) as (_ & _ & _ & Q2). destruct (Q2 i Hi) as (_ & _ & Q3). rewrite <- Q, A13, Hp in Q3. congruence.
    + destruct (A14 ltac:(lia) p h Eh) as (C & LC & HC). exists C. split; [exact LC|]. intros r Hr Hp. rewrite B3 in Hp.
      destruct (HC r Hr Hp) as (f & HC1 & HC2). exists f. rewrite C6 by exact Hr. unfold cd_after. rewrite (Hact r Hr Hp), Hp, Eh, Ec, Hch.
      split; [exact HC1|]. specialize (B8 r Hr). unfold dest in B8. rewrite (Hact r Hr Hp), Hp, Eh, Ec in B8. injection B8 as <-. exact HC2.
  - exists (rows 2 d (c_means (h_cl h))). split; [unfold rows; rewrite map_length, seq_length; reflexivity|]. intros r Hr Hp. rewrite B3 in Hp.
    specialize (B8 r Hr). unfold dest in B8. rewrite (Hact r Hr Hp), Hp, Eh, Ec in B8. unfold near2 in B8.
    rewrite C6 by exact Hr. unfold cd_after. rewrite (Hact r Hr Hp), Hp, Eh, Ec.
    destruct (near N (g_dt g) (rows 2 d (c_means (h_cl h))) (row data d r)) as [[f|] b] eqn:En.
    + change (g_ncol g) with d in B8 |- *. rewrite En in B8 |- *. exists f. split; [reflexivity|]. rewrite Hch. injection B8 as <-. reflexivity.
    + exfalso. change (g_ncol g) with d in B8. rewrite En in B8. discriminate.
Qed.

Lemma half_round e lv s scheds : rinv g ws data M (FPx lv) e (xh s) -> xpre lv s ->
  (forall j, complete (w_ranges ws) (scheds j)) ->
  okab (let* s1 := x_mean g ws (scheds 0) s in
        loop (g_max_iters g) (fun i s => x_iter g ws (scheds (S i)) (i =? 0) s) s1)
    (fun s2 => rinv g ws data M (FPx lv) e (xh s2) /\ ready g ws data M (xh s2) /\ settled g (xh s2) /\
       xmid lv (live_asg K (xh s)) s s2) (unassignable g data).
Proof.
  intros R P Hsch. pose proof (e_asg (r_e R)) as La. fold n in La.
  assert (Hmp : mean_pre g K (xh s)).
  { unfold mean_pre. fold n. splits; auto.
    - rewrite (p_eq P). exact La.
    - intros r Hr. rewrite (e_act (r_e R)). apply (e_rows (r_e R) Hr).
    - intros r Hr _. split; [rewrite (p_eq P); reflexivity|]. apply (part_lt R P Hr). }
  destruct (@x_mean_ok N g ws data V Hws K s (scheds 0) Hmp (p_loc P) (p_locs P) (p_cl P) (Hsch 0))
    as (s1 & E1 & Eh & Epd & Ecd & Lloc & Hloc & Hcl & Hcel).
  rewrite E1. cbn [bind].
  set (A := live_asg K (xh s)) in *.
  assert (LA : length A = n) by (unfold A; rewrite live_asg_length; exact La).
  assert (Lv : forall p r, In p (hm_keys (x_hcl (xh s))) -> r < n -> (nth r A 0 =? p) = (nth r (x_part (xh s)) 0 =? p)).
  { intros p r Hp Hr. unfold A. rewrite live_asg_nth by lia. rewrite (p_eq P).
    assert (HpK : p < K) by (apply (p_lt P); rewrite in_app_iff; auto).
    destruct (nth (nth r (x_asg (xh s)) 0) (x_act (xh s)) false) eqn:Ea; auto.
    transitivity false; [|symmetry]; apply Nat.eqb_neq; [lia|]. intros X. apply keys_in in Hp as (h & Hh).
    destruct (e_live (r_e R) Hh) as (_ & Q & _). rewrite X in Ea. congruence. }
  eapply okab_mono.
  { apply (@loop_okab _ (fun j s2 => rinv g ws data M (FPx lv) e (xh s2) /\ (1 <= j -> ready g ws data M (xh s2) /\ settled g (xh s2)) /\
      x_part (xh s2) = x_part (xh s) /\ (forall i, In i (hm_keys (x_hcl (xh s2))) <-> In i (hm_keys (x_hcl (xh s)))) /\
      length (hm_keys (x_hcl (xh s2))) = length (hm_keys (x_hcl (xh s))) /\ x_final (xh s2) = x_final (xh s) /\
      x_curr (xh s2) = x_curr (xh s) /\ x_ider (xh s2) = x_ider (xh s) /\ length (x_pd s2) = n /\ length (x_cd s2) = n /\
      x_cl s2 = x_cl s1 /\ x_loc s2 = x_loc s1 /\
      (1 <= j -> forall r, r < n -> nth r (x_pd s2) (nzero N) = ldist N (g_dt g) (row data d r) (crow (x_cl s1) (nth r (x_part (xh s)) 0))) /\
      (j = 0 -> x_asg (xh s2) = x_part (xh s2)) /\ (1 <= j -> cdist_ok s2))).
    - rewrite Eh, Epd, Ecd. splits; auto; try lia; try apply (p_pd P); try apply (p_cd P); try reflexivity. intros _. symmetry. apply (p_eq P).
    - intros j s2 Hj (R2 & _ & A2 & A3 & A4 & A5 & A6 & A7 & A8 & A9 & A10 & A11 & A12 & A13 & A14).
      assert (Hp : (j =? 0) = true -> forall r, r < n -> nth r (x_part (xh s2)) 0 < K) by (intros _ r Hr; rewrite A2; apply (part_lt R P Hr)).
      assert (Hcl2 : shaped K d (x_cl s2)) by (rewrite A10; exact Hcl).
      pose proof (@x_iter_ok N g ws data V Hws K M s2 (scheds (S j)) (j =? 0) (r_e R2) A8 A9 Hcl2 Hp (Hsch (S j))) as HX.
      pose proof (@iter_rinv N g ws data V Hws (FPx lv) (@FPx_s lv) e (xh s2) (scheds (S j)) R2 (Hsch (S j))) as HI.
      destruct (h_iter g ws (scheds (S j)) (xh s2)) as [h3|er]; cbn [okab] in HI.
      2:{ rewrite HX. cbn [okab]. exact HI. }
      destruct HX as (s3 & -> & E3 & C1 & C2 & C3 & C4 & C5 & C6). cbn [okab].
      destruct HI as (R3 & Rd3 & St3 & B1 & B2 & B3 & B4 & B5 & B6 & B7 & B8).
      rewrite <- E3 in *. splits; auto; try congruence; try (intros; lia).
      + intros i. rewrite <- A3, !keys_in. specialize (B7 i). destruct (hget (x_hcl (xh s2)) i) as [h|].
        * destruct B7 as (h' & -> & _). split; eauto.
        * rewrite B7. reflexivity.
      + intros _ r Hr. rewrite C5 by exact Hr. unfold pd_after. destruct j as [|j]; cbn [Nat.eqb].
        * rewrite A10, A2. reflexivity.
        * apply A12; [lia|exact Hr].
      + intros _. exact (@cdist_step e (FPx lv) s2 s3 j R2 B3 B7 B8 C6 A13 A14). }
  intros s2 (R2 & A1 & A2 & A3 & A4 & A5 & A6 & A7 & A8 & A9 & A10 & A11 & A12 & _ & A14). destruct (A1 Hit) as (Rd2 & St2). splits; auto.
  constructor; auto; rewrite ?A10, ?A11; auto.
  - intros j Hj. rewrite Hcel by exact Hj. rewrite pcel_snoc, (p_cel P) by exact Hj. reflexivity.
  - intros p r Hp Hr. rewrite A2. apply Lv; auto. apply A3. exact Hp.
  - intros r Hr. rewrite A2. apply (A12 Hit r Hr).
Qed.

(** what holds of a round; [lv]: the rounds before it *)
Record round_ok (lv : list (list nat)) (rr : rrec N) : Prop := {
  k_live : length (rr_live rr) = n;
  k_mid : exists e s0, rinv g ws data M (FPx lv) e (xh (rr_mid rr)) /\ ready g ws data M (xh (rr_mid rr)) /\
    settled g (xh (rr_mid rr)) /\ xmid lv (rr_live rr) s0 (rr_mid rr);
  k_keys : forall p, In p (hm_keys (x_hcl (xh (rr_mid rr)))) -> p < K;
  k_part : forall r, r < n -> nth r (x_part (xh (rr_mid rr))) 0 < K;
  k_end : exists h', rr_end rr = with_h (rr_mid rr) h' /\ (exists e, rinv g ws data M (FPx (lv ++ [rr_live rr])) e h') /\
    ready g ws data M h' /\ x_part h' = x_part (xh (rr_mid rr)) /\
    (exists D, Permutation D (rejects nlog two_pi g (rr_mid rr)) /\ x_final h' = x_final (xh (rr_mid rr)) ++ map (fun p => (p, crow (x_cl (rr_mid rr)) p)) D) /\
    x_hcl h' = erased (rejects nlog two_pi g (rr_mid rr)) (x_hcl (xh (rr_mid rr))) /\
    (forall r, r < n -> nth r (x_asg h') 0 =
       if in_dec Nat.eq_dec (nth r (x_part (xh (rr_mid rr))) 0) (rejects nlog two_pi g (rr_mid rr))
       then nth r (x_part (xh (rr_mid rr))) 0 else nth r (x_asg (xh (rr_mid rr))) 0)
}.
Definition trace_ok (tr : list (rrec N)) : Prop := forall pre rr post, tr = pre ++ rr :: post -> round_ok (map (@rr_live N) pre) rr.

Lemma trace_snoc tr rr : trace_ok tr -> round_ok (map (@rr_live N) tr) rr -> trace_ok (tr ++ [rr]).
Proof.
  clear. intros H H1 pre rr' post E. destruct post as [|y post] using rev_ind.
  - apply app_inj_tail in E as (-> & ->). exact H1.
  - clear IHpost. rewrite app_comm_cons, app_assoc in E. apply app_inj_tail in E as (E & _). apply (H pre rr' post E).
Qed.

Lemma keyless_splits (h : hst N) : hm_keys (x_hcl h) = [] -> init_splits g data h = Ok (with_part h (x_asg h)).
Proof. intros E. unfold init_splits. rewrite E. cbn [for_each bind fst snd]. reflexivity. Qed.

Lemma keyless_nil (m : list (option (hclu N))) : hm_keyless m = true -> hm_keys m = [].
Proof.
  clear. intros H. rewrite keyless_iff in H. destruct (hm_keys m) as [|p l] eqn:E; auto. exfalso.
  assert (Hp : In p (hm_keys m)) by (rewrite E; left; reflexivity). apply keys_in in Hp as (h & Hh). rewrite H in Hh. discriminate.
Qed.
Lemma nil_keyless (m : list (option (hclu N))) : hm_keys m = [] -> hm_keyless m = true.
Proof.
  clear. intros H. destruct (hm_keyless m) eqn:E; auto. apply keyless_keys in E. rewrite H in E. cbn in E. lia.
Qed.

Lemma steady e FP (h : hst N) : rinv g ws data M FP e h -> hm_keyless (x_hcl h) = true -> steady_state h = true.
Proof.
  clear. intros R Hk. apply keyless_nil in Hk. unfold steady_state. apply forallb_forall. intros b Hb.
  apply In_nth with (d := false) in Hb as (i & Hi & <-). rewrite (e_act (r_e R)) in Hi.
  destruct (nth i (x_act h) false) eqn:E; auto. apply (r_act R Hi) in E. unfold kids in E. rewrite Hk in E. destruct E.
Qed.

(** states without partitions *)
Lemma repart e FP (h : hst N) : rinv g ws data M FP e h -> ready g ws data M h -> hm_keys (x_hcl h) = [] ->
  rinv g ws data M FP e (with_part h (x_asg h)).
Proof.
  intros R _ Hk. assert (Hn : forall i, hget (x_hcl h) i = None) by (apply keyless_iff, nil_keyless; exact Hk).
  destruct R as [RE RI RM RA RF RR RN RP]. constructor; auto.
  - pose proof RE as [G1 G2 G3 G4 G5 G6 G7 G8 G9 G10]. constructor; sx; auto.
    intros r Hr. rewrite Hn. destruct (e_rows RE Hr) as (Q1 & Q2). rewrite Hn in Q2. tauto.
Qed.

Lemma keyless_ready e FP (h : hst N) : rinv g ws data M FP e h -> (forall i, i < M -> nth i (x_counts h) 0%Z = Z.of_nat (count_eq i (x_asg h))) ->
  hm_keyless (x_hcl h) = true -> ready g ws data M h /\ settled g h.
Proof.
  clear. intros R Hc Hk. rewrite keyless_iff in Hk. split.
  - unfold ready. splits; auto; [apply (e_asg (r_e R))|apply (e_counts (r_e R))| |]; intros p hh; rewrite Hk; discriminate.
  - intros r hh _. rewrite Hk. discriminate.
Qed.

Lemma x_loop_ok scheds ords : (forall i j, complete (w_ranges ws) (scheds i j)) -> (forall i l, Permutation (ords i l) l) ->
  forall fuel round e s tr,
  rinv g ws data M (FPx (map (@rr_live N) tr)) e (xh s) -> xpre (map (@rr_live N) tr) s -> trace_ok tr ->
  1 <= length (hm_keys (x_hcl (xh s))) -> 2 * leaves2 (xh s) <= 3 * F + 3 ->
  ((x_curr (xh s) <= Z.of_nat F)%Z -> (id_max (x_ider (xh s)) + 1 <= Z.of_nat K)%Z) ->
  1 <= fuel -> 2 * F - 1 <= fuel + q_of (xh s) ->
  okab (x_loop nlog two_pi g ws data scheds ords fuel round s tr)
    (fun st => trace_ok (snd st) /\ exists e', done_ok g ws data (FPx (map (@rr_live N) (snd st))) e' 1 (xh (fst st))) (unassignable g data).
Proof.
  intros Hsch Hord. destruct (floor_facts Hk2 Hk30) as (F2 & Fk & F29 & Fcap). fold F in F2, Fk, F29, Fcap.
  pose proof (floor_cases Hk2) as F8. fold F in F8.
  induction fuel as [|fuel IH]; intros round e s tr R P TR HL Hlv Hid Hf Hq; [lia|]. cbn [x_loop].
  set (lv := map (@rr_live N) tr) in *. set (A := live_asg K (xh s)).
  assert (EA : live_asg (c_nclust (x_cl s)) (xh s) = A) by (rewrite (proj1 (p_cl P)); reflexivity). rewrite EA.
  pose proof (@half_round e lv s (scheds round) R P (Hsch round)) as HH. fold A in HH.
  destruct (x_mean g ws (scheds round 0) s) as [s1|er] eqn:E1; cbn [bind] in HH |- *; [|exact HH].
  destruct (loop (g_max_iters g) (fun i s => x_iter g ws (scheds round (S i)) (i =? 0) s) s1) as [s2|er] eqn:E2; cbn [bind okab] in HH |- *; [|exact HH].
  destruct HH as (R2 & Rd2 & St2 & Q). clear E1 E2 s1.
  assert (LA : length A = n) by (unfold A; rewrite live_asg_length; apply (e_asg (r_e R))).
  assert (HkK : forall p, In p (hm_keys (x_hcl (xh s2))) -> p < K).
  { intros p Hp. apply (p_lt P). rewrite in_app_iff. left. apply (q_keys Q). exact Hp. }
  assert (R2' : rinv g ws data M (FPx (lv ++ [A])) e (xh s2)) by (apply (rinv_mono (FP := FPx lv)); [intros asg i v; apply FPx_mono|exact R2]).
  destruct (@decision_ok N nlog two_pi g ws data M (FPx (lv ++ [A])) Hws (@FPx_s (lv ++ [A])) e s2 K (ords round) R2' Rd2 St2 (q_pd Q) (q_cd Q) (q_cl Q) HkK)
    as (h3 & E3 & R3 & Rd3 & St3 & D1 & D2 & D3 & D4 & D5 & D6 & D7).
  { intros p asg' Hp L' Hr'. right. exists lv, A, []. splits; auto.
    - intros r Hr. rewrite Hr' by exact Hr. symmetry. apply (q_live Q Hp Hr).
    - pose proof (q_cel Q (HkK p Hp)) as X. unfold cel in X. rewrite <- X. reflexivity. }
  { apply Hord. }
  rewrite E3. cbn [bind]. set (D := rejects nlog two_pi g s2) in *.
  set (rr := mkRR A s2 (with_h s2 h3)).
  assert (TR' : trace_ok (tr ++ [rr])).
  { apply trace_snoc; auto. fold lv. constructor; cbn [rr rr_live rr_mid rr_end].
    - exact LA.
    - exists e, s. splits; auto.
    - exact HkK.
    - intros r Hr. rewrite (q_part Q). apply (part_lt R P Hr).
    - exists h3. splits; auto. eauto. }
  assert (Elv : map (@rr_live N) (tr ++ [rr]) = lv ++ [A]) by (rewrite map_app; reflexivity).
  change (xh (with_h s2 h3)) with h3.
  rewrite (@cap_eq N g F F2 F29 Fcap).
  assert (D5' : length (x_final h3) = length (x_final (xh s2)) + length D).
  { destruct D5 as (D' & HP & ->). rewrite app_length, map_length, (Permutation_length HP). reflexivity. }
  assert (Hfk : length (x_final h3) + length (hm_keys (x_hcl h3)) = q_of (xh s)) by (unfold q_of; rewrite D5', (q_final Q), <- (q_nkeys Q); lia).
  assert (Hl3 : 1 <= leaves2 h3 /\ 2 * leaves2 h3 <= 3 * F + 3).
  { unfold leaves2, q_of in *. rewrite <- (q_final Q), <- (q_nkeys Q) in *. lia. }
  destruct (Z.ltb_spec (Z.of_nat F) (x_curr h3)) as [Hc|Hc].
  { cbn [okab fst snd]. change (xh (with_h s2 h3)) with h3. rewrite Elv. split; [exact TR'|]. exists (e + 2 * length D). unfold done_ok. fold F M. splits; auto; apply Hl3. }
  destruct (Nat.eq_dec (length (hm_keys (x_hcl h3))) 0) as [Hz|Hz].
  { (* every partition was rejected *)
    apply length_zero_iff_nil in Hz. rewrite (keyless_splits Hz). cbn [bind].
    assert (Hkl : hm_keyless (x_hcl (with_part h3 (x_asg h3))) = true) by (sx; apply nil_keyless; exact Hz). rewrite Hkl.
    pose proof (repart R3 Rd3 Hz) as R4. rewrite (steady R4 Hkl). cbn [assert_ bind okab fst snd].
    change (xh (with_h (with_h s2 h3) (with_part h3 (x_asg h3)))) with (with_part h3 (x_asg h3)).
    rewrite Elv. split; [exact TR'|]. exists (e + 2 * length D).
    destruct (@keyless_ready _ _ _ R4 (proj1 (proj2 (proj2 Rd3))) Hkl) as (Rd4 & St4).
    unfold done_ok. fold F M. splits; auto; apply Hl3. }
  destruct (r_num R3) as (a0 & Ha & Ha2). pose proof (all_length h3) as La.
  assert (Hw : 1 <= rw h3 <= 3) by (unfold rw; repeat destruct in_dec; lia).
  apply okab_bind. apply okp_okab.
  eapply okp_mono; [apply (@init_splits_ok N g ws data V F M eq_refl F2 F29 Fcap Hmin (FPx (lv ++ [A])) (@FPx_u (lv ++ [A])) _ h3 R3 Rd3 St3 Hc ltac:(lia))|].
  intros h4 (R4 & B1 & B2 & B3 & B4 & B5 & B6 & B7 & B8).
  assert (Hl4 : 1 <= leaves2 h4 /\ 2 * leaves2 h4 <= 3 * F + 3) by (unfold leaves2 in *; lia).
  destruct (hm_keyless (x_hcl h4)) eqn:Ekl.
  { rewrite (steady R4 Ekl). cbn [assert_ bind okab fst snd]. change (xh (with_h (with_h s2 h3) h4)) with h4. rewrite Elv. split; [exact TR'|].
    exists (e + 2 * length D). destruct (@keyless_ready _ _ _ R4) as (Rd4 & St4); auto.
    { rewrite B1, B3. apply Rd3. }
    unfold done_ok. fold F M. splits; auto; apply Hl4. }
  assert (Hmax : (id_max (x_ider h3) + 1 <= Z.of_nat K)%Z).
  { rewrite D3, (q_ider Q). apply Hid. rewrite <- (q_curr Q), <- D2. exact Hc. }
  pose proof (keyless_keys Ekl) as Hk4.
  apply IH with (e := e + 2 * length D); auto.
  - rewrite Elv. exact R4.
  - rewrite Elv. constructor; cbn [with_h xh x_pd x_cd x_cl x_loc].
    + congruence.
    + intros i Hi. apply (Permutation_in _ (Permutation_sym B7)) in Hi. apply (inv_lt (r_ids R3) Hmax). unfold all_ids. rewrite in_app_iff. auto.
    + apply (q_pd Q).
    + apply (q_cd Q).
    + apply (q_cl Q).
    + apply (q_cel Q).
    + apply (q_loc Q).
    + apply (q_locs Q).
  - apply Hl4.
  - cbn [with_h xh]. intros Hc4. destruct (r_num R4) as (a4 & Ha4 & Hb4). pose proof (all_length h4) as La4.
    assert (Hw4 : 1 <= rw h4 <= 3) by (unfold rw; repeat destruct in_dec; lia).
    unfold K in *. lia.
  - cbn [with_h xh]. unfold q_of in *. lia.
  - cbn [with_h xh]. unfold q_of in *. lia.
Qed.
End Run.

Section Whole.
Variable N : Num.
Notation T := (car N).
Variable nlog : T -> T.
Variable two_pi : T.
Variables (g : hcfg N) (data : list T).

(** the loop over the scores takes every score exactly once *)
Definition x_orders (ords : nat -> list (score N) -> list (score N)) : Prop := forall i l, Permutation (ords i l) l.

Theorem x_run_ok bind centers it dr scheds ords fuel : h_valid g data it centers dr -> h_fair g data scheds -> x_orders ords ->
  2 * hclust_floor (g_k g) - 2 <= fuel ->
  match x_run nlog two_pi g bind centers it data dr scheds ords fuel with
  | Ok (s, tr) => exists ws, build_workers g data = Ok ws /\ wok (g_nrow g) (g_ncol g) data ws /\
      hout g (FPx g ws data (map (@rr_live N) tr)) 1 s /\ trace_ok nlog two_pi g ws data tr /\
      (bind = false -> (Z.of_nat (g_nrow g) < 2 ^ 31)%Z -> no_empty s)
  | Err e => e = Abort /\ (unassignable g data \/
      (bind = false /\ ((2 ^ 31 <= Z.of_nat (g_nrow g))%Z \/
        exists s tr, x_run nlog two_pi g true centers it data dr scheds ords fuel = Ok (s, tr) /\ ~ no_empty s)))
  end.
Proof.
  intros (V & K2 & K30 & Hm & Hi & Hini) Hf Hord Hfuel. pose proof V as (V1 & V2 & V3 & V4).
  destruct (@build_workers_ok N g data V1 V2 V3 V4) as (ws & Ew & Hws & Lws & _).
  destruct (@create_init_ok N g data V K2 K30 it centers dr Hini) as (s0 & s1 & c & E0 & E1 & Sh & _ & Es).
  destruct (floor_facts K2 K30) as (F2 & _ & F29 & Fc).
  set (F := hclust_floor (g_k g)) in *. set (K := 2 * F - 1).
  pose proof (@start_ok N g ws data K2 K30 (FPx g ws data []) c Sh) as R. cbn zeta in R. fold F in R. rewrite <- Es in R.
  assert (Hkeys : Permutation (hm_keys (x_hcl s1)) [0] /\ x_final s1 = []).
  { rewrite Es. split; [|reflexivity]. cbn [x_hcl].
    assert (Hg : forall p x, hget (hm_put (repeat None (4 * F - 1)) 0 (mkH c 1 2 false)) p = Some x <-> In (p, x) [(0, mkH c 1 2 false)]).
    { intros p x. rewrite hget_put. cbn [In]. destruct (Nat.eqb_spec p 0) as [->|].
      - split; [intros [= <-]; auto|intros [X|[]]; injection X as <-; auto].
      - split; [|intros [X|[]]; congruence]. unfold hget. destruct (nth_error _ p) as [y|] eqn:E; [|discriminate].
        apply nth_error_In, repeat_spec in E. subst y. discriminate. }
    exact (proj1 (@keys_perm_list N _ [(0, mkH c 1 2 false)] ltac:(repeat constructor; cbn; tauto) Hg)). }
  destruct Hkeys as (Pk & Hf0). pose proof (Permutation_length Pk) as Hk1. cbn [length] in Hk1.
  pose proof (max_hnodes_half K2 K30) as Hmx. fold F in Hmx. fold K in Hmx. 
  set (C := clusters_create N K (g_ncol g)).
  set (nthr := Z.to_nat (eff_threads (g_nthreads g) (Z.of_nat (g_nrow g)))) in *.
  set (X0 := mkX s0 (repeat (nzero N) (g_nrow g)) (repeat (nzero N) (g_nrow g)) (clear C) (repeat C nthr)).
  assert (Ex : x_create g centers nthr = Ok X0).
  { unfold x_create. rewrite E0. cbn [Base.bind]. unfold h_k. fold F. rewrite Hmx. cbn [Base.bind]. rewrite Nat2Z.id. reflexivity. }
  assert (HL : okab (x_loop nlog two_pi g ws data scheds ords fuel 0 (with_h X0 s1) [])
     (fun st => trace_ok nlog two_pi g ws data (snd st) /\ exists e', done_ok g ws data (FPx g ws data (map (@rr_live N) (snd st))) e' 1 (xh (fst st))) (unassignable g data)).
  { apply (@x_loop_ok N nlog two_pi g ws data V Hws K2 K30 Hm Hi scheds ords (Hf ws Ew) Hord fuel 0 0 (with_h X0 s1) []); cbn [with_h xh map].
    - exact R.
    - assert (Ecl : clear C = C) by (apply clear_create, shaped_create). constructor; cbn [with_h X0 xh x_pd x_cd x_cl x_loc]; rewrite ?Ecl.
      + rewrite Es. reflexivity.
      + intros i Hin. apply in_app_iff in Hin as [Hin|Hin].
        * apply (Permutation_in _ Pk) in Hin. cbn in Hin. fold F. lia.
        * unfold finkeys in Hin. rewrite Hf0 in Hin. destruct Hin.
      + apply repeat_length.
      + apply repeat_length.
      + apply shaped_create.
      + intros j Hj. apply cel_create. exact Hj.
      + rewrite repeat_length. congruence.
      + apply Forall_forall. intros x Hx. apply repeat_spec in Hx. subst x. apply shaped_create.
    - intros pre rr post Q. destruct pre; discriminate.
    - lia.
    - unfold leaves2. rewrite Hf0, Hk1. cbn [length]. fold F. lia.
    - intros _. rewrite Es. cbn [x_ider id_max]. fold F. lia.
    - lia.
    - unfold q_of. rewrite Hf0, Hk1. cbn [length]. fold F. lia. }
  unfold x_run. fold nthr. rewrite Ex. cbn [Base.bind]. rewrite Ew. cbn [Base.bind]. change (xh X0) with s0. rewrite E1. cbn [Base.bind].
  destruct (x_loop nlog two_pi g ws data scheds ords fuel 0 (with_h X0 s1) []) as [[s2 tr]|er]; cbn [okab Base.bind fst snd] in *; [|destruct HL as (-> & U); split; auto].
  destruct HL as (TR & e' & HD).
  pose proof (@complete_final_ok N g ws data K2 (FPx g ws data (map (@rr_live N) tr)) (@FPx_u N g ws data _) e' 1 (xh s2) HD) as HC.
  destruct (complete_final g (xh s2)) as [s3|er]; [|destruct HC]. cbn [okp Base.bind] in *.
  assert (ND : forall s : hst N, no_empty s \/ ~ no_empty s).
  { intros s. unfold no_empty. destruct (@Forall_Exists_dec _ (fun i => 0 < count_eq i (x_asg s)) (fun i => lt_dec 0 _) (map fst (x_final s))) as [Y|Y].
    - left. rewrite Forall_forall in Y. exact Y.
    - right. intros X. apply Exists_exists in Y as (i & Hin & Hc). apply Hc, X, Hin. }
  destruct bind; cbn [Base.bind].
  { exists ws. splits; auto. discriminate. }
  destruct (Z.lt_ge_cases (Z.of_nat (g_nrow g)) (2 ^ 31)) as [Hn|Hn].
  - destruct (@verify_ok N g _ 1 s3 HC Hn) as (A & B). destruct (ND s3) as [Y|Y].
    + rewrite (A Y). cbn [Base.bind]. exists ws. splits; auto.
    + rewrite (B Y). cbn [Base.bind]. split; auto. right. split; auto. right. exists s3, tr. auto.
  - destruct (verify_consistency g s3) as [u|er] eqn:Ev; cbn [Base.bind].
    + exists ws. splits; auto. intros _ X. lia.
    + split; [|right; split; auto].
      revert Ev. unfold verify_consistency, assert_. destruct (_ =? _); cbn [Base.bind]; [destruct (_ =? _)%Z; congruence|congruence].
Qed.
End Whole.
