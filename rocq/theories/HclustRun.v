(** Whole runs of hierarchical clustering. *)
From Coq Require Import Permutation.
From Verif Require Import Base Num DistModel ClustersModel ClustersView ClustersProofs MatLemmas
  PartitionModel ParModel KmeansModel ParProofs NearProofs KmeansProofs UpdateProofs RunProofs InitProofs Spec.
From Verif Require Import ContainersModel PropertiesIds HclustModel HclustProofs HclustUpdate HclustIter HclustSplit Okab.
Set Implicit Arguments.
Unset Strict Implicit.

(* ------------------------------------------------------------------ *)
(** * Numbers of nodes *)
Lemma hnodes_loop v L : (0 <= v)%Z -> (2 ^ Z.of_nat L <= v < 2 ^ Z.of_nat (S L))%Z -> L <= 30 ->
  forall m j fuel, j + m = S L -> m < fuel ->
  max_hnodes_loop fuel v (2 ^ Z.of_nat j) (2 ^ Z.of_nat j - 1) = Ok (2 ^ Z.of_nat (S L) - 1)%Z.
Proof.
  intros Hv HL H30. induction m as [|m IH]; intros j fuel Hj Hf; (destruct fuel as [|fuel]; [lia|]); cbn [max_hnodes_loop].
  - rewrite Nat.add_0_r in Hj. subst j. destruct (Z.leb_spec (2 ^ Z.of_nat (S L)) v); [lia|reflexivity].
  - assert (Hle : (2 ^ Z.of_nat j <= 2 ^ Z.of_nat L)%Z) by (apply Z.pow_le_mono_r; lia).
    assert (Hb : (2 ^ Z.of_nat L <= 2 ^ 30)%Z) by (apply Z.pow_le_mono_r; lia).
    assert (Hp : (0 < 2 ^ Z.of_nat j)%Z) by (apply Z.pow_pos_nonneg; lia).
    destruct (Z.leb_spec (2 ^ Z.of_nat j) v); [|lia].
    assert (E : (2 ^ Z.of_nat j * 2 = 2 ^ Z.of_nat (S j))%Z) by (rewrite Nat2Z.inj_succ, Z.pow_succ_r by lia; lia).
    unfold w32. rewrite (Z.mod_small (_ * 2)), (Z.mod_small (_ - 1 + _)) by lia. rewrite E.
    replace (2 ^ Z.of_nat j - 1 + 2 ^ Z.of_nat j)%Z with (2 ^ Z.of_nat (S j) - 1)%Z by lia.
    apply IH; lia.
Qed.

Lemma max_hnodes k : 2 <= k -> (Z.of_nat k < 2 ^ 30)%Z ->
  get_max_hnodes (w32 (Z.of_nat k * 2)) = Ok (Z.of_nat (4 * hclust_floor k - 1)).
Proof.
  intros Hk H30. unfold get_max_hnodes, hclust_floor. unfold w32. rewrite Z.mod_small by lia.
  pose proof (Nat.log2_spec k ltac:(lia)) as (Hl & Hu). set (L := Nat.log2 k) in *.
  assert (HlZ : (2 ^ Z.of_nat L <= Z.of_nat k)%Z) by (change 2%Z with (Z.of_nat 2); rewrite <- Nat2Z.inj_pow; lia).
  assert (HuZ : (Z.of_nat k < 2 ^ Z.of_nat (S L))%Z) by (change 2%Z with (Z.of_nat 2); rewrite <- Nat2Z.inj_pow; lia).
  assert (L29 : L < 30).
  { destruct (Nat.lt_ge_cases L 30); auto. exfalso.
    assert (2 ^ 30 <= 2 ^ Z.of_nat L)%Z by (apply Z.pow_le_mono_r; lia). lia. }
  pose proof (@hnodes_loop (Z.of_nat k * 2) (S L) ltac:(lia)) as H.
  assert (E1 : (2 ^ Z.of_nat (S L) = 2 * 2 ^ Z.of_nat L)%Z) by (rewrite Nat2Z.inj_succ, Z.pow_succ_r by lia; lia).
  assert (E2 : (2 ^ Z.of_nat (S (S L)) = 2 * 2 ^ Z.of_nat (S L))%Z) by (rewrite (Nat2Z.inj_succ (S L)), Z.pow_succ_r by lia; lia).
  specialize (H ltac:(lia) ltac:(lia) (S (S L)) 0 40 ltac:(lia) ltac:(lia)).
  change (2 ^ Z.of_nat 0)%Z with 1%Z in H. change (1 - 1)%Z with 0%Z in H. rewrite H. f_equal.
  assert (E3 : Z.of_nat (2 ^ L) = (2 ^ Z.of_nat L)%Z) by (rewrite Nat2Z.inj_pow; reflexivity).
  assert (0 < 2 ^ L) by (apply Nat.neq_0_lt_0, Nat.pow_nonzero; lia). lia.
Qed.

Lemma floor_facts k : 2 <= k -> (Z.of_nat k < 2 ^ 30)%Z ->
  2 <= hclust_floor k /\ hclust_floor k <= k /\ (Z.of_nat (hclust_floor k) <= 2 ^ 29)%Z /\ hclust_floor k / 2 * 2 = hclust_floor k.
Proof.
  intros Hk H30. unfold hclust_floor. pose proof (Nat.log2_spec k ltac:(lia)) as (Hl & Hu).
  pose proof (Nat.log2_pos k ltac:(lia)) as Hp. destruct (Nat.log2 k) as [|L] eqn:E; [lia|].
  assert (P : 0 < 2 ^ L) by (apply Nat.neq_0_lt_0, Nat.pow_nonzero; lia).
  rewrite !Nat.pow_succ_r' in *. splits; try lia.
  - assert (L < 29). { destruct (Nat.lt_ge_cases L 29); auto. exfalso.
      assert (2 ^ 29 <= 2 ^ Z.of_nat L)%Z by (apply Z.pow_le_mono_r; lia).
      assert (Z.of_nat (2 ^ L) = (2 ^ Z.of_nat L)%Z) by (rewrite Nat2Z.inj_pow; reflexivity). lia. }
    assert (2 ^ Z.of_nat L <= 2 ^ 28)%Z by (apply Z.pow_le_mono_r; lia).
    assert (Z.of_nat (2 ^ L) = (2 ^ Z.of_nat L)%Z) by (rewrite Nat2Z.inj_pow; reflexivity). lia.
  - replace (2 * 2 ^ L / 2) with (2 ^ L) by (rewrite (Nat.mul_comm 2), Nat.div_mul; lia). lia.
Qed.

(* ------------------------------------------------------------------ *)
Section Run.
Variable N : Num.
Notation T := (car N).
Notation clusters := (clusters N).
Variables (g : hcfg N) (ws : list (worker N)) (data : list T).
Let d := g_ncol g.
Let n := g_nrow g.
Hypothesis V : valid_input g data.
Hypothesis Hws : wok n d data ws.
Let F := hclust_floor (g_k g).
Let M := 4 * F - 1.
Hypothesis Hk2 : 2 <= g_k g.
Hypothesis Hk30 : (Z.of_nat (g_k g) < 2 ^ 30)%Z.
Hypothesis Hmin : 2 <= h_min g.
Hypothesis Hit : 1 <= g_max_iters g.

(** some row has no nearest centroid among some two points: every distance is
    NaN or at least the largest double *)
Definition unassignable : Prop := exists r c0 c1, r < n /\ fst (near N (g_dt g) [c0; c1] (row data d r)) = None.

(** what is known of output centroids, and the excess of the cluster count *)
Variable FP : list nat -> nat -> list T -> Prop.
Hypothesis FPu : forall asg i v, length v = d -> v = fst (fst (ucel g ws data asg i)) -> FP asg i v.
Hypothesis FPs : forall A A' i v, length A = n -> length A' = n ->
  (forall r, r < n -> (nth r A 0 =? i) = (nth r A' 0 =? i)) -> FP A i v -> FP A' i v.
Variable e : nat.
Notation rinv' := (rinv g ws data M FP e).
Notation ready' := (ready g ws data M).

Lemma perm_iter (s s' : hst N) :
  (forall p, match hget (x_hcl s) p with
     | Some h => exists h', hget (x_hcl s') p = Some h' /\ h_zero h' = h_zero h /\ h_one h' = h_one h
     | None => hget (x_hcl s') p = None end) ->
  Permutation (hm_keys (x_hcl s)) (hm_keys (x_hcl s')) /\ Permutation (kids (x_hcl s)) (kids (x_hcl s')).
Proof.
  clear. intros H. assert (P : Permutation (hm_keys (x_hcl s)) (hm_keys (x_hcl s'))).
  { apply NoDup_Permutation; auto using keys_nodup. intros p. rewrite !keys_in. specialize (H p).
    destruct (hget (x_hcl s) p) as [h|]; [destruct H as (h' & E & _); split; eauto|].
    rewrite H. split; intros (x & Hx); discriminate. }
  split; [exact P|]. unfold kids. etransitivity; [apply (Permutation_flat_map (kp (x_hcl s)) P)|].
  assert (E : forall l, flat_map (kp (x_hcl s)) l = flat_map (kp (x_hcl s')) l); [|rewrite E; reflexivity].
  induction l as [|p l IH]; auto. cbn [flat_map]. rewrite IH. f_equal. unfold kp. specialize (H p).
  destruct (hget (x_hcl s) p) as [h|]; [|rewrite H; reflexivity].
  destruct H as (h' & -> & E0 & E1). unfold pair_of. congruence.
Qed.

Lemma rw_iter (s s' : hst N) : Permutation (hm_keys (x_hcl s)) (hm_keys (x_hcl s')) ->
  Permutation (kids (x_hcl s)) (kids (x_hcl s')) -> finkeys s' = finkeys s -> rw s' = rw s.
Proof.
  clear. intros Pk Pd Ef. unfold rw. rewrite Ef.
  destruct (in_dec Nat.eq_dec 0 (hm_keys (x_hcl s'))) as [A|A], (in_dec Nat.eq_dec 0 (hm_keys (x_hcl s))) as [B|B]; auto.
  - destruct B. exact (Permutation_in _ (Permutation_sym Pk) A).
  - destruct A. exact (Permutation_in _ Pk B).
  - destruct (in_dec Nat.eq_dec 0 (kids (x_hcl s') ++ finkeys s)) as [C|C], (in_dec Nat.eq_dec 0 (kids (x_hcl s) ++ finkeys s)) as [D|D]; auto.
    + destruct D. rewrite in_app_iff in *. destruct C; [left; exact (Permutation_in _ (Permutation_sym Pd) H)|auto].
    + destruct C. rewrite in_app_iff in *. destruct D; [left; exact (Permutation_in _ Pd H)|auto].
Qed.

Lemma dest_none s r : einv g ws data M s -> r < n -> dest g data s r = None -> unassignable.
Proof.
  clear Hmin Hit Hk2 Hk30. intros I Hr. unfold dest. destruct (nth (nth r (x_asg s) 0) (x_act s) false) eqn:Ea; [|discriminate].
  destruct (hget (x_hcl s) (nth r (x_part s) 0)) as [h|] eqn:Eh.
  - destruct (h_conv h); [discriminate|]. unfold near2, option_map.
    destruct (fst (near N (g_dt g) (rows 2 (g_ncol g) (c_means (h_cl h))) (row data (g_ncol g) r))) eqn:En; [discriminate|].
    intros _. exists r. unfold rows in En. cbn [seq map] in En. eexists _, _. split; [exact Hr|exact En].
  - intros _. destruct (e_rows I Hr) as (_ & H). rewrite Eh in H. destruct H as (_ & H). congruence.
Qed.

Lemma iter_rinv s sched : rinv' s -> complete (w_ranges ws) sched ->
  okab (h_iter g ws sched s) (fun s' => rinv' s' /\ ready' s' /\ settled g s' /\
    length (hm_keys (x_hcl s')) = length (hm_keys (x_hcl s)) /\ x_final s' = x_final s /\
    x_part s' = x_part s /\ x_curr s' = x_curr s /\ x_ider s' = x_ider s /\ x_act s' = x_act s /\
    (forall p, match hget (x_hcl s) p with
     | Some h => exists h', hget (x_hcl s') p = Some h' /\ h_zero h' = h_zero h /\ h_one h' = h_one h
     | None => hget (x_hcl s') p = None end) /\
    (forall r, r < n -> dest g data s r = Some (nth r (x_asg s') 0))) unassignable.
Proof.
  intros R Hc. assert (Hd : length data = n * d) by apply V.
  pose proof (@h_iter_ok N g ws data Hws Hd M s sched (r_e R) Hc) as H.
  destruct (h_iter g ws sched s) as [s'|er]; cbn [okab].
  2:{ destruct H as (-> & r & Hr & Er). split; auto. apply (dest_none (r_e R) Hr Er). }
  destruct H as (E' & St & Hdst & Ep & Ea & Ei & Ec & Ef & Hh & Hcnt).
  assert (HP : forall p, match hget (x_hcl s) p with
     | Some h => exists h', hget (x_hcl s') p = Some h' /\ h_zero h' = h_zero h /\ h_one h' = h_one h
     | None => hget (x_hcl s') p = None end).
  { intros p. specialize (Hh p). destruct (hget (x_hcl s) p); auto. destruct Hh as (h' & A & B & C & _). eauto. }
  destruct (perm_iter HP) as (Pk & Pd).
  assert (Efk : finkeys s' = finkeys s) by (unfold finkeys; rewrite Ef; reflexivity).
  assert (Pall : Permutation (all_ids s) (all_ids s')).
  { unfold all_ids. rewrite Efk. apply Permutation_app; [exact Pk|]. apply Permutation_app_tail. exact Pd. }
  assert (Hch : forall p h', hget (x_hcl s') p = Some h' -> exists h, hget (x_hcl s) p = Some h /\ (forall j, ch h' j = ch h j) /\
     forall j, j < 2 -> cel (h_cl h') j = ucel g ws data (x_asg s') (ch h j)).
  { intros p h' X. specialize (Hh p). destruct (hget (x_hcl s) p) as [h|]; [|congruence].
    destruct Hh as (h2 & A & B & C & _ & Q). rewrite X in A. injection A as <-. exists h. splits; auto.
    intros j. unfold ch. rewrite B, C. reflexivity. }
  splits.
  - constructor; auto.
    + rewrite Ei. eapply inv_perm_nat; [exact Pall|apply (r_ids R)].
    + rewrite Ei. apply (r_max R).
    + intros i Hi. rewrite Ea, (r_act R Hi), !in_app_iff.
      split; (intros [X|X]; [left|right]); first [exact (Permutation_in _ Pk X)|exact (Permutation_in _ Pd X)|exact (Permutation_in _ (Permutation_sym Pk) X)|exact (Permutation_in _ (Permutation_sym Pd) X)].
    + rewrite Ef. intros i v Hv. destruct (r_fin R Hv) as (L & Hfp). split; [exact L|].
      assert (Hi : In i (finkeys s)) by (apply in_map_iff; exists (i, v); auto).
      apply (FPs (A := x_asg s)); [apply (e_asg (r_e R))|apply (e_asg E')| |exact Hfp].
      pose proof (inv_nodup (r_ids R)) as ND. unfold all_ids in ND.
      intros r Hr. symmetry. apply (@dest_other N g ws data M s (x_asg s') i (r_e R) Hdst); auto.
      * destruct (hget (x_hcl s) i) as [h|] eqn:Eh; auto. exfalso.
        refine (nodup_app_dis ND _ _); [apply keys_in; eauto|]. rewrite in_app_iff. auto.
      * intros p h j Hp _ Hj <-. apply nodup_app_r in ND.
        refine (nodup_app_dis ND _ Hi). apply in_kids. eauto 6.
    + intros r Hr X. rewrite Efk. rewrite Ep in X.
      assert (X' : hget (x_hcl s) (nth r (x_part s) 0) = None).
      { specialize (HP (nth r (x_part s) 0)). destruct (hget (x_hcl s) (nth r (x_part s) 0)); auto. destruct HP as (h' & Y & _). congruence. }
      pose proof (r_rows R Hr X') as Y. specialize (Hdst r Hr). unfold dest in Hdst. rewrite X' in Hdst.
      destruct (nth (nth r (x_asg s) 0) (x_act s) false); [discriminate|]. injection Hdst as <-. exact Y.
    + rewrite Ec, Ef, <- (Permutation_length Pall), <- (Permutation_length Pk), (rw_iter Pk Pd Efk). apply (r_num R).
    + rewrite Ec. apply (r_pos R).
  - unfold ready. splits.
    + apply (e_asg E').
    + apply (e_counts E').
    + exact Hcnt.
    + intros p h X. destruct (e_live E' X) as (_ & _ & Sh & _). exact Sh.
    + intros p h j X Hj. destruct (Hch p h X) as (h0 & _ & Y & Z). rewrite Y. apply Z. exact Hj.
  - exact St.
  - symmetry. apply (Permutation_length Pk).
  - exact Ef.
  - exact Ep.
  - exact Ec.
  - exact Ei.
  - exact Ea.
  - exact HP.
  - exact Hdst.
Qed.

Lemma FF : 2 <= F /\ F <= g_k g /\ (Z.of_nat F <= 2 ^ 29)%Z /\ h_k g * 2 = F.
Proof. clear Hws V Hmin Hit. exact (floor_facts Hk2 Hk30). Qed.

Definition q_of (s : hst N) : nat := length (x_final s) + length (hm_keys (x_hcl s)).
Definition leaves2 (s : hst N) : nat := length (x_final s) + 2 * length (hm_keys (x_hcl s)).

Lemma keyless_keys (m : list (option (hclu N))) : hm_keyless m = false -> 1 <= length (hm_keys m).
Proof.
  clear. intros H. destruct (hm_keys m) as [|p l] eqn:E; [|simpl; lia]. exfalso.
  assert (hm_keyless m = true); [|congruence]. apply keyless_iff. intros i.
  destruct (hget m i) as [h|] eqn:Eh; auto. assert (In i (hm_keys m)) by (apply keys_in; eauto). rewrite E in H0. destruct H0.
Qed.

Definition done_ok (lo : nat) (s : hst N) : Prop := rinv' s /\ ready' s /\ settled g s /\ lo <= leaves2 s /\ 2 * leaves2 s <= 3 * F + 3.

Lemma h_loop_ok scheds : (forall i j, complete (w_ranges ws) (scheds i j)) -> forall fuel round s,
  rinv' s -> 1 <= length (hm_keys (x_hcl s)) -> 2 <= leaves2 s -> 2 * leaves2 s <= 3 * F + 3 ->
  1 <= fuel -> 2 * F - 1 <= fuel + q_of s ->
  okab (h_loop g ws data scheds fuel round s) (done_ok 2) unassignable.
Proof.
  intros Hsch. destruct FF as (F2 & Fk & F29 & Fcap).
  induction fuel as [|fuel IH]; intros round s R HL Hq2 Hq3 Hf Hq; [lia|]. cbn [h_loop].
  apply okab_bind. eapply okab_mono.
  { apply (@loop_okab _ (fun i s' => rinv' s' /\ (1 <= i -> ready' s' /\ settled g s') /\
      length (hm_keys (x_hcl s')) = length (hm_keys (x_hcl s)) /\ x_final s' = x_final s)).
    - splits; auto. lia.
    - intros j s1 Hj (R1 & _ & L1 & E1). eapply okab_mono; [apply (iter_rinv R1 (Hsch round j))|].
      intros s2 (R2 & Rd & St & L2 & E2 & _). splits; auto; congruence. }
  intros s1 (R1 & H1 & L1 & E1). destruct (H1 Hit) as (Rd & St). clear H1.
  rewrite (@cap_eq N g F F2 F29 Fcap).
  destruct (Z.ltb_spec (Z.of_nat F) (x_curr s1)) as [Hc|Hc].
  { cbn [okab]. splits; auto. unfold done_ok. splits; auto. all: unfold leaves2 in *; rewrite L1, E1; lia. }
  destruct (r_num R1) as (a & Ha & Ha2). pose proof (all_length s1) as La. rewrite L1, E1 in La. 
  assert (Hz : 1 <= rw s1 <= 3) by (unfold rw; repeat destruct in_dec; lia). rewrite E1, L1 in Ha2. unfold q_of in *.
  apply okab_bind. apply okp_okab.
  eapply okp_mono; [apply (@init_splits_ok N g ws data V F M eq_refl F2 F29 Fcap Hmin FP FPu e s1 R1 Rd St Hc ltac:(lia))|].
  intros s2 (R2 & Ea & Ep & Ecn & Hq' & Hmono & Hfr & _). rewrite L1, E1 in Hq'. rewrite E1 in Hmono.
  assert (Hl2 : 2 <= leaves2 s2 /\ 2 * leaves2 s2 <= 3 * F + 3) by (unfold leaves2 in *; lia).
  destruct (hm_keyless (x_hcl s2)) eqn:Ekl.
  - cbn [okab]. unfold done_ok. splits; auto.
    + unfold ready. destruct Rd as (A & B & C & _).
      rewrite Ea, Ecn. splits; auto; intros p h; rewrite keyless_iff in Ekl; rewrite Ekl; discriminate.
    + intros r h Hr. rewrite keyless_iff in Ekl. rewrite Ekl. discriminate.
    + apply Hl2.
    + apply Hl2.
  - apply IH; auto; try lia. apply keyless_keys. exact Ekl.
Qed.
End Run.
