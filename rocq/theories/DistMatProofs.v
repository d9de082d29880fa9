(** The centroid distance table. *)
From Coq Require Import Reals Lra.
From Verif Require Import Base Num Spec DistModel ClustersModel ClustersView PartitionModel ParModel KmeansModel PruneModel.
From Verif Require Import MatLemmas VecLemmas ClustersProofs DistProofs.
Set Implicit Arguments.

Section DM.
Variable N : Num.
Notation T := (car N).
Notation dist_matrix := (dist_matrix N).

Definition dm_ok (k : nat) (m : dist_matrix) : Prop :=
  2 <= k /\ dm_rows m = k - 1 /\ length (dm_mat m) = k - 1 /\
  forall r l, nth_error (dm_mat m) r = Some l -> length l = k - 1 - r.

(** the entry of an unordered pair *)
Definition dmv (m : dist_matrix) (i j : nat) : T :=
  let a := Nat.min i j in let b := Nat.max i j in
  nth (b - a - 1) (nth a (dm_mat m) []) (nmax N).

Lemma dmv_sym m i j : dmv m i j = dmv m j i.
Proof. unfold dmv. rewrite Nat.min_comm, Nat.max_comm. reflexivity. Qed.

Lemma dm_create_ok k : 2 <= k -> exists m, dm_create N k = Ok m /\ dm_ok k m.
Proof.
  intros Hk. unfold dm_create. destruct (Nat.ltb_spec 1 k); [|lia]. cbn [assert_ bind].
  eexists; split; [reflexivity|]. unfold dm_ok. cbn [dm_rows dm_mat]. rewrite map_length, seq_length. splits; auto.
  intros r l E. rewrite nth_error_map in E. rewrite nth_error_seq in E.
  destruct (r <? k - 1); [|discriminate]. cbn in E. injection E as <-. apply repeat_length.
Qed.

Lemma dm_create_small k : k <= 1 -> dm_create N k = Err Abort.
Proof. intros H. unfold dm_create. destruct (Nat.ltb_spec 1 k); [lia|reflexivity]. Qed.

Lemma dm_translate_ok k m i j : dm_ok k m -> i < k -> j < k -> i <> j ->
  dm_translate m i j = Ok (Nat.min i j, Nat.max i j - Nat.min i j - 1).
Proof.
  intros (Hk & Hr & Hl & Hll) Hi Hj Hne. unfold dm_translate.
  destruct (Nat.ltb_spec j i).
  - rewrite Hr. destruct (Nat.ltb_spec j (k - 1)); [|lia]. cbn [assert_ bind].
    destruct (Nat.eqb_spec j i); [lia|]. cbn [negb assert_ bind].
    destruct (Nat.ltb_spec (i - j - 1) (k - 1 - j)); [|lia]. cbn [assert_ bind].
    f_equal. f_equal; lia.
  - rewrite Hr. destruct (Nat.ltb_spec i (k - 1)); [|lia]. cbn [assert_ bind].
    destruct (Nat.eqb_spec i j); [lia|]. cbn [negb assert_ bind].
    destruct (Nat.ltb_spec (j - i - 1) (k - 1 - i)); [|lia]. cbn [assert_ bind].
    f_equal. f_equal; lia.
Qed.

Lemma dm_row k m a : dm_ok k m -> a < k - 1 -> exists l, nth_error (dm_mat m) a = Some l /\ length l = k - 1 - a /\ nth a (dm_mat m) [] = l.
Proof.
  intros (Hk & Hr & Hl & Hll) Ha. destruct (nth_error (dm_mat m) a) as [l|] eqn:E; [|apply nth_error_None in E; lia].
  exists l. splits; eauto. apply nth_error_nth. exact E.
Qed.

Lemma dm_get_ok k m i j : dm_ok k m -> i < k -> j < k ->
  dm_get m i j = Ok (if i =? j then nmax N else dmv m i j).
Proof.
  intros H Hi Hj. unfold dm_get. destruct (Nat.eqb_spec i j); [reflexivity|].
  rewrite (dm_translate_ok H) by auto. cbn [bind fst snd].
  destruct (@dm_row k m (Nat.min i j) H ltac:(lia)) as (l & El & Ll & En).
  unfold aget at 1. rewrite El. cbn [bind]. rewrite (@aget_nth _ l _ (nmax N)) by lia.
  unfold dmv. rewrite En. reflexivity.
Qed.

Lemma dm_set_ok k m i j v : dm_ok k m -> i < k -> j < k -> i <> j ->
  exists m', dm_set m i j v = Ok m' /\ dm_ok k m' /\
    forall a b, a < k -> b < k -> a <> b ->
      dmv m' a b = if (Nat.min a b =? Nat.min i j) && (Nat.max a b =? Nat.max i j) then v else dmv m a b.
Proof.
  intros H Hi Hj Hne. unfold dm_set. destruct (Nat.eqb_spec i j); [lia|]. cbn [negb assert_ bind].
  rewrite (dm_translate_ok H) by auto. cbn [bind fst snd].
  set (a0 := Nat.min i j). set (b0 := Nat.max i j).
  destruct (@dm_row k m a0 H ltac:(lia)) as (l & El & Ll & En).
  unfold aget. rewrite El. cbn [bind]. rewrite aset_ok by lia. cbn [bind].
  pose proof H as (Hk & Hr & Hl & Hll). rewrite aset_ok by lia. cbn [bind].
  eexists; split; [reflexivity|]. split.
  - unfold dm_ok. cbn [dm_rows dm_mat]. rewrite upd_length. splits; auto.
    intros r l' E. rewrite nth_error_upd in E. destruct (Nat.eqb_spec r a0) as [->|]; [|eauto].
    destruct (a0 <? length (dm_mat m)); [|discriminate]. cbn in E. injection E as <-. rewrite upd_length. exact Ll.
  - intros a b Ha Hb Hab. unfold dmv. cbn [dm_mat].
    set (a1 := Nat.min a b). set (b1 := Nat.max a b).
    rewrite (nth_upd (dm_mat m)) by lia.
    destruct (Nat.eqb_spec a1 a0) as [E|E]; cbn [andb]; [|reflexivity].
    rewrite nth_upd by lia. rewrite E, En.
    destruct (Nat.eqb_spec (b1 - a0 - 1) (b0 - a0 - 1)); destruct (Nat.eqb_spec b1 b0); try reflexivity; lia.
Qed.

Lemma dm_pw_get_ok k m i j : dm_ok k m -> i < k -> j < k ->
  dm_pw_get m i j = Ok (if i =? j then nzero N else dmv m i j).
Proof.
  intros H Hi Hj. unfold dm_pw_get.
  destruct (Nat.ltb_spec i j).
  - destruct (Nat.eqb_spec i j); [lia|].
    destruct (@dm_row k m i H ltac:(lia)) as (l & El & Ll & En).
    unfold aget at 1. rewrite El. cbn [bind]. rewrite (@aget_nth _ l _ (nmax N)) by lia.
    unfold dmv. rewrite Nat.min_l, Nat.max_r, En by lia. reflexivity.
  - destruct (Nat.ltb_spec j i).
    + destruct (Nat.eqb_spec i j); [lia|].
      destruct (@dm_row k m j H ltac:(lia)) as (l & El & Ll & En).
      unfold aget at 1. rewrite El. cbn [bind]. rewrite (@aget_nth _ l _ (nmax N)) by lia.
      unfold dmv. rewrite Nat.min_r, Nat.max_l, En by lia. reflexivity.
    + destruct (Nat.eqb_spec i j); [reflexivity|lia].
Qed.

End DM.

(* ------------------------------------------------------------------ *)
(** * compute_dist, for any arithmetic *)
Section CD.
Variable N : Num.
Notation T := (car N).
Variables (k d : nat) (p0 : prune_clusters N).
Hypothesis Hk : 2 <= k.
Hypothesis Hsh : shaped k d (p_cl p0).
Hypothesis Hs : length (p_s_val p0) = k.

(** half the distance of two centroids *)
Definition hd (i j : nat) : T := ndiv N (ldist N EUCL (crow (p_cl p0) i) (crow (p_cl p0) j)) (nofZ N 2).

Lemma eucl_hd i j : i < k -> j < k ->
  eucl_dist N (c_means (p_cl p0), i * d) (c_means (p_cl p0), j * d) d = Ok (ldist N EUCL (crow (p_cl p0) i) (crow (p_cl p0) j)).
Proof.
  intros Hi Hj. destruct Hsh as (Hk' & Hd & Hwf).
  change (eucl_dist N ?a ?b ?c) with (dist_comp_raw N a b c EUCL).
  apply dist_comp_raw_ok; cbn [fst snd].
  - unfold crow, row. rewrite Hd. reflexivity.
  - unfold crow, row. rewrite Hd. reflexivity.
  - rewrite <- Hd. apply crow_length; [exact Hwf|lia].
  - rewrite <- Hd. apply crow_length; [exact Hwf|lia].
Qed.

Definition smin (s : T) (v : T) : T := if nltb N v s then v else s.

Lemma smin_set (p : prune_clusters N) i v : i < length (p_s_val p) ->
  exists p1, (if nltb N v (nth i (p_s_val p) (nmax N)) then set_s_val p v i else Ok p) = Ok p1 /\
    p_cl p1 = p_cl p /\ p_prev_means p1 = p_prev_means p /\ p_prev_dist p1 = p_prev_dist p /\
    length (p_s_val p1) = length (p_s_val p) /\
    forall a, nth a (p_s_val p1) (nmax N) = if a =? i then smin (nth a (p_s_val p) (nmax N)) v else nth a (p_s_val p) (nmax N).
Proof.
  intros Hi. unfold smin. destruct (nltb N v (nth i (p_s_val p) (nmax N))) eqn:E.
  - unfold set_s_val. rewrite aset_ok by lia. cbn [bind]. eexists; split; [reflexivity|].
    cbn [p_cl p_prev_means p_prev_dist p_s_val]. rewrite upd_length. splits; auto.
    intros a. rewrite nth_upd by lia. destruct (Nat.eqb_spec a i) as [->|]; [rewrite E|]; reflexivity.
  - exists p. splits; auto. intros a. destruct (Nat.eqb_spec a i) as [->|]; [rewrite E|]; reflexivity.
Qed.

(** running minima: cluster [a]'s value after the pairs listed *)
Definition s_after (a : nat) (pairs : list (nat * nat)) : T :=
  fold_left (fun s ij => if a =? fst ij then smin s (hd (fst ij) (snd ij))
                         else if a =? snd ij then smin s (hd (fst ij) (snd ij)) else s) pairs (nmax N).

Definition cd_inv (pairs : list (nat * nat)) (s : dist_matrix N * prune_clusters N) : Prop :=
  dm_ok k (fst s) /\ p_cl (snd s) = p_cl p0 /\ p_prev_means (snd s) = p_prev_means p0 /\
  p_prev_dist (snd s) = p_prev_dist p0 /\ length (p_s_val (snd s)) = k /\
  (forall a b, In (a, b) pairs -> dmv (fst s) a b = hd a b) /\
  forall a, a < k -> nth a (p_s_val (snd s)) (nmax N) = s_after a pairs.

Lemma cell_ok i j s pairs : i < j -> j < k -> cd_inv pairs s -> ~ In (i, j) pairs ->
  (forall a b, In (a, b) pairs -> a < b /\ b < k) ->
  okp (compute_dist_cell d i j s) (cd_inv (pairs ++ [(i, j)])).
Proof.
  intros Hij Hj (Hm & Hcl & Hpm & Hpd & Ls & Hp & Hv) Hnin Hord. destruct s as [m p]. cbn [fst snd] in *.
  unfold compute_dist_cell. rewrite Hcl, eucl_hd by lia. cbn [bind]. fold (hd i j).
  destruct (@dm_set_ok N k m i j (hd i j) Hm ltac:(lia) ltac:(lia) ltac:(lia)) as (m' & -> & Hm' & Hset). cbn [bind].
  rewrite (@aget_nth _ (p_s_val p) i (nmax N)) by lia. cbn [bind].
  destruct (@smin_set p i (hd i j) ltac:(lia)) as (p1 & -> & A1 & A2 & A3 & A4 & V1). cbn [bind].
  rewrite (@aget_nth _ (p_s_val p1) j (nmax N)) by lia. cbn [bind].
  destruct (@smin_set p1 j (hd i j) ltac:(lia)) as (p2 & -> & B1 & B2 & B3 & B4 & V2). cbn [bind okp].
  unfold cd_inv. cbn [fst snd]. splits; auto; try congruence.
  - intros a b Hin. apply in_app_or in Hin as [Hin|[E|[]]].
    + destruct (Hord a b Hin) as (Hab & Hb). rewrite Hset by lia.
      rewrite !Nat.min_l, !Nat.max_r by lia.
      destruct (Nat.eqb_spec a i) as [->|]; cbn [andb]; [|auto].
      destruct (Nat.eqb_spec b j) as [->|]; [contradiction|auto].
    + injection E as <- <-. rewrite Hset by lia. rewrite !Nat.eqb_refl. reflexivity.
  - intros a Ha. rewrite V2, V1. rewrite Hv by exact Ha.
    unfold s_after. rewrite fold_left_app. cbn [fold_left fst snd].
    destruct (Nat.eqb_spec a i) as [->|]; destruct (Nat.eqb_spec i j); try lia.
    all: try (destruct (Nat.eqb_spec a j)); try reflexivity; lia.
Qed.

(** all ordered pairs, in the order visited *)
Definition pairs_upto (n : nat) : list (nat * nat) :=
  concat (map (fun i => map (pair i) (seq (i + 1) (k - (i + 1)))) (seq 0 n)).

Lemma in_pairs_upto n a b : In (a, b) (pairs_upto n) <-> a < n /\ a < b < k.
Proof.
  clear Hk Hsh Hs. unfold pairs_upto. rewrite in_concat. split.
  - intros (l & Hl & Hin). apply in_map_iff in Hl as (i & <- & Hi). apply in_map_iff in Hin as (j & E & Hj).
    injection E as <- <-. apply in_seq in Hi, Hj. lia.
  - intros (Ha & Hb). exists (map (pair a) (seq (a + 1) (k - (a + 1)))). split.
    + apply in_map_iff. exists a. split; auto. apply in_seq. lia.
    + apply in_map. apply in_seq. lia.
Qed.

Lemma compute_dist_inv m : dm_ok k m ->
  okp (compute_dist d m p0) (cd_inv (pairs_upto k)).
Proof.
  intros Hm. unfold compute_dist. destruct Hsh as (Hk' & Hd & Hwf). rewrite Hk'.
  destruct (Nat.leb_spec k 1); [lia|]. pose proof Hm as (_ & Hr & _). rewrite Hr, Nat.eqb_refl. cbn [assert_ bind].
  apply (@loop_okp _ (fun i s => cd_inv (pairs_upto i) s)).
  - unfold pairs_upto; cbn [seq map concat]. unfold cd_inv, reset_s_val_v. cbn [fst snd p_cl p_prev_means p_prev_dist p_s_val].
    rewrite map_length. splits; auto; [intros a b []|].
    intros a Ha. unfold s_after. cbn [fold_left].
    rewrite map_const_repeat. apply nth_repeat_d. lia.
  - intros i s Hi Hinv.
    assert (E : pairs_upto (S i) = pairs_upto i ++ map (pair i) (seq (i + 1) (k - (i + 1)))).
    { unfold pairs_upto. rewrite seq_S, map_app, concat_app. cbn [map concat plus]. rewrite app_nil_r. reflexivity. }
    rewrite E.
    pose proof (@for_okp _ (fun j s => cd_inv (pairs_upto i ++ map (pair i) (seq (i + 1) (j - (i + 1)))) s)
      (fun j s => compute_dist_cell d i j s) (k - (i + 1)) (i + 1) s) as G.
    cbn beta in G. replace (i + 1 + (k - (i + 1)) - (i + 1)) with (k - (i + 1)) in G by lia. apply G; clear G.
    + rewrite Nat.sub_diag. cbn [seq map]. rewrite app_nil_r. exact Hinv.
    + intros j s' Hj Hs'. replace (S j - (i + 1)) with (S (j - (i + 1))) by lia.
      rewrite seq_S, map_app, app_assoc. cbn [map]. replace (i + 1 + (j - (i + 1))) with j by lia.
      apply cell_ok; auto; try lia.
      * intros Hin. apply in_app_or in Hin as [Hin|Hin].
        -- apply in_pairs_upto in Hin. lia.
        -- apply in_map_iff in Hin as (x & Ex & Hx). injection Ex as ->. apply in_seq in Hx. lia.
      * intros a b Hin. apply in_app_or in Hin as [Hin|Hin].
        -- apply in_pairs_upto in Hin. lia.
        -- apply in_map_iff in Hin as (x & Ex & Hx). injection Ex as <- ->. apply in_seq in Hx. lia.
Qed.

End CD.

(* ------------------------------------------------------------------ *)
(** * compute_dist in exact arithmetic *)
Local Open Scope R_scope.

Section CDR.
Variables (k d : nat) (p0 : prune_clusters NumR).
Hypothesis Hk : (2 <= k)%nat.
Hypothesis Hsh : shaped k d (p_cl p0).
Hypothesis Hs : length (p_s_val p0) = k.

Lemma hd_R i j : hd p0 i j = edist (crow (p_cl p0) i) (crow (p_cl p0) j) / 2.
Proof. unfold hd. rewrite ldist_R. reflexivity. Qed.
Lemma hd_R_sym i j : hd p0 i j = hd p0 j i.
Proof. rewrite !hd_R. rewrite edist_sym. reflexivity. Qed.

Lemma smin_R (s v : R) : smin NumR s v = Rmin s v.
Proof.
  unfold smin. cbn [nltb NumR]. destruct (Rltb v s) eqn:E.
  - apply Rltb_true in E. rewrite Rmin_right; lra.
  - apply Rltb_false in E. rewrite Rmin_left; lra.
Qed.

Definition pair_of (a : nat) (ij : nat * nat) : bool := (a =? fst ij)%nat || (a =? snd ij)%nat.

Lemma s_after_R a : forall pairs,
  (forall ij, In ij pairs -> pair_of a ij = true -> s_after p0 a pairs <= hd p0 (fst ij) (snd ij)) /\
  s_after p0 a pairs <= nmax NumR /\
  (s_after p0 a pairs = nmax NumR \/ exists ij, In ij pairs /\ pair_of a ij = true /\ s_after p0 a pairs = hd p0 (fst ij) (snd ij)).
Proof.
  intros pairs. induction pairs as [|ij pairs IH] using rev_ind.
  - split; [intros ? []|]. split; [|left; reflexivity]. unfold s_after. cbn [fold_left]. apply Rle_refl.
  - assert (E : s_after p0 a (pairs ++ [ij]) = if pair_of a ij then Rmin (s_after p0 a pairs) (hd p0 (fst ij) (snd ij)) else s_after p0 a pairs).
    { unfold s_after, pair_of. rewrite fold_left_app. cbn [fold_left]. rewrite smin_R.
      destruct (a =? fst ij)%nat; cbn [orb]; [reflexivity|]. destruct (a =? snd ij)%nat; reflexivity. }
    rewrite E. destruct IH as (H1 & H2 & H3). clear E.
    set (h := hd p0 (fst ij) (snd ij)) in *. set (s := s_after p0 a pairs) in *.
    destruct (pair_of a ij) eqn:Ep.
    + pose proof (Rmin_l s h) as Ml. pose proof (Rmin_r s h) as Mr.
      split; [|split].
      * intros ij' Hin Hp. apply in_app_or in Hin as [Hin|[<-|[]]].
        -- eapply Rle_trans; [exact Ml|]. apply H1; auto.
        -- exact Mr.
      * eapply Rle_trans; [exact Ml|exact H2].
      * destruct (Rle_dec s h) as [Hle|Hgt].
        -- rewrite Rmin_left by exact Hle. destruct H3 as [H3|(ij' & Hin & Hp & H3)]; [left; exact H3|].
           right. exists ij'. splits; auto. apply in_or_app. auto.
        -- rewrite Rmin_right by (apply Rnot_le_lt in Hgt; apply Rlt_le; exact Hgt). right. exists ij. splits; auto.
           apply in_or_app. right. left. reflexivity.
    + split; [|split]; auto.
      * intros ij' Hin Hp. apply in_app_or in Hin as [Hin|[<-|[]]]; [auto|congruence].
      * destruct H3 as [H3|(ij' & Hin & Hp & H3)]; [left; exact H3|].
        right. exists ij'. splits; auto. apply in_or_app. auto.
Qed.

(** what the pruned scan needs *)
Definition table_ok (m : dist_matrix NumR) (p : prune_clusters NumR) : Prop :=
  dm_ok k m /\ shaped k d (p_cl p) /\ length (p_s_val p) = k /\
  (forall i j, (i < k)%nat -> (j < k)%nat -> i <> j -> dmv m i j = edist (crow (p_cl p) i) (crow (p_cl p) j) / 2) /\
  (forall i j, (i < k)%nat -> (j < k)%nat -> i <> j -> nth i (p_s_val p) (nmax NumR) <= edist (crow (p_cl p) i) (crow (p_cl p) j) / 2).

Lemma compute_dist_R m : dm_ok k m ->
  exists m' p', compute_dist d m p0 = Ok (m', p') /\ table_ok m' p' /\
    p_cl p' = p_cl p0 /\ p_prev_means p' = p_prev_means p0 /\ p_prev_dist p' = p_prev_dist p0 /\
    (forall i, (i < k)%nat -> nth i (p_s_val p') (nmax NumR) = nmax NumR \/
       exists j, (j < k)%nat /\ j <> i /\ nth i (p_s_val p') (nmax NumR) = edist (crow (p_cl p0) i) (crow (p_cl p0) j) / 2) /\
    (forall i, (i < k)%nat -> nth i (p_s_val p') (nmax NumR) <= nmax NumR).
Proof.
  intros Hm. pose proof (@compute_dist_inv NumR k d p0 Hk Hsh Hs m Hm) as H.
  apply okp_iff in H as ([m' p'] & E & Hm' & Hcl & Hpm & Hpd & Ls & Hp & Hv). cbn [fst snd] in *.
  exists m', p'. split; [exact E|].
  split; [|splits; auto].
  - unfold table_ok. rewrite Hcl. splits; auto.
    + intros i j Hi Hj Hne.
      destruct (Nat.lt_ge_cases i j) as [Hlt|Hge].
      * rewrite Hp by (apply (proj2 (@in_pairs_upto k k _ _)); lia). apply hd_R.
      * rewrite dmv_sym, Hp by (apply (proj2 (@in_pairs_upto k k _ _)); lia). rewrite hd_R, edist_sym. reflexivity.
    + intros i j Hi Hj Hne. rewrite Hv by exact Hi.
      destruct (@s_after_R i (pairs_upto k k)) as (H1 & _).
      destruct (Nat.lt_ge_cases i j) as [Hlt|Hge].
      * specialize (H1 (i, j)). cbn [fst snd] in H1. rewrite <- hd_R. apply H1.
        -- apply (proj2 (@in_pairs_upto k k _ _)). lia.
        -- unfold pair_of. cbn [fst]. rewrite Nat.eqb_refl. reflexivity.
      * specialize (H1 (j, i)). cbn [fst snd] in H1. rewrite edist_sym, <- hd_R. apply H1.
        -- apply (proj2 (@in_pairs_upto k k _ _)). lia.
        -- unfold pair_of. cbn [fst snd]. rewrite Nat.eqb_refl, orb_true_r. reflexivity.
  - intros i Hi. rewrite Hv by exact Hi. destruct (@s_after_R i (pairs_upto k k)) as (_ & _ & [H3|([a b] & Hin & Hpo & H3)]); [left; exact H3|].
    right. apply (proj1 (@in_pairs_upto k k _ _)) in Hin. unfold pair_of in Hpo. cbn [fst snd] in *.
    apply orb_true_iff in Hpo as [Ea|Eb].
    + apply Nat.eqb_eq in Ea. subst a. exists b. rewrite H3, hd_R. splits; auto; lia.
    + apply Nat.eqb_eq in Eb. subst b. exists a. rewrite H3, hd_R, edist_sym. splits; auto; lia.
  - intros i Hi. rewrite Hv by exact Hi. apply s_after_R.
Qed.

End CDR.
