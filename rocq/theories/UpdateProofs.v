(** The update step and a whole iteration of unpruned k-means, any arithmetic. *)
From Verif Require Import Base Num Spec DistModel ClustersModel ClustersView PartitionModel ParModel KmeansModel.
From Verif Require Import MatLemmas ClustersProofs DistProofs PartitionProofs ParProofs NearProofs KmeansProofs.
Set Implicit Arguments.

Lemma list_sum_app' l1 l2 : list_sum (l1 ++ l2) = list_sum l1 + list_sum l2.
Proof. unfold list_sum. induction l1; simpl; auto. rewrite IHl1. lia. Qed.

Lemma count_eq_cons j a A : count_eq j (a :: A) = (if a =? j then 1 else 0) + count_eq j A.
Proof. unfold count_eq. cbn [filter]. destruct (a =? j); reflexivity. Qed.

Lemma count_sum k A : Forall (fun a => a < k) A ->
  list_sum (map (fun j => count_eq j A) (seq 0 k)) = length A.
Proof.
  induction 1 as [|a A Ha _ IH].
  - induction (seq 0 k); simpl; auto.
  - cbn [length]. rewrite <- IH. clear IH.
    assert (G : forall l, NoDup l -> list_sum (map (fun j => count_eq j (a :: A)) l)
      = (if existsb (Nat.eqb a) l then 1 else 0) + list_sum (map (fun j => count_eq j A) l)).
    { induction l as [|j l IH]; intros Hnd; simpl; auto. inversion Hnd as [|? ? Hnin Hnd']; subst.
      rewrite count_eq_cons. change (fold_right Nat.add 0 ?x) with (list_sum x). rewrite (IH Hnd').
      destruct (Nat.eqb_spec a j) as [->|Hne]; simpl; [|lia].
      assert (E : existsb (Nat.eqb j) l = false).
      { destruct (existsb (Nat.eqb j) l) eqn:E; auto. apply existsb_exists in E as (x & Hx & Ex).
        apply Nat.eqb_eq in Ex. subst. contradiction. }
      rewrite E. lia. }
    rewrite G by apply seq_NoDup.
    assert (E : existsb (Nat.eqb a) (seq 0 k) = true).
    { apply existsb_exists. exists a. split; [apply in_seq; lia|apply Nat.eqb_refl]. }
    rewrite E. reflexivity.
Qed.

Lemma odiff_le : forall l l', odiff l l' <= length l'.
Proof. induction l as [|o l IH]; intros [|a l']; cbn [odiff length]; try lia. specialize (IH l'). destruct (id_eqb _ _); lia. Qed.

Lemma odiff_zero : forall asg A, length asg = length A -> odiff asg A = 0 <-> asg = map Some A.
Proof.
  induction asg as [|o asg IH]; intros [|a A] H; simpl in *; try lia; [tauto|].
  specialize (IH A ltac:(lia)). destruct o as [b|]; cbn [id_eqb].
  - destruct (Nat.eqb_spec a b) as [->|Hne].
    + simpl. rewrite IH. split; intros E; [congruence|injection E as E; exact E].
    + split; intros E; [lia|injection E as E _; congruence].
  - split; intros E; [lia|discriminate].
Qed.

Section Upd.
Variable N : Num.
Notation T := (car N).
Notation clusters := (clusters N).

Variables (g : kcfg N) (ws : list (worker N)) (data : list T).
Let d := g_ncol g.
Let k := g_k g.

(** sums over the workers, in worker order *)
Definition usum (A : list nat) (j : nat) (ws' : list (worker N)) : list T :=
  fold_left (fun s w => map2 (nadd N) s (csum N d j (xas g data (w_start w) (slice A (w_start w) (w_nrow w)))))
    ws' (repeat (nzero N) d).
Definition ucnt (A : list nat) (j : nat) (ws' : list (worker N)) : Z :=
  fold_left (fun n w => n + ccnt N j (xas g data (w_start w) (slice A (w_start w) (w_nrow w))))%Z ws' 0%Z.

(** the cluster record determined by an assignment *)
Definition ucel (A : list nat) (j : nat) : list T * Z * bool :=
  fin1 N (usum A j ws, Z.of_nat (count_eq j A), false).

Hypothesis Hws : wok (g_nrow g) d data ws.
Hypothesis Hrow32 : (Z.of_nat (g_nrow g) < 2 ^ 32)%Z.

Lemma ucnt_total A j : length A = g_nrow g -> ucnt A j ws = Z.of_nat (count_eq j A).
Proof.
  intros LA. unfold ucnt.
  assert (G : forall (l : list (worker N)) lo hi z, ntiles lo hi (w_ranges l) -> hi <= length A ->
    (fold_left (fun n w => n + ccnt N j (xas g data (w_start w) (slice A (w_start w) (w_nrow w)))) l z
     = z + Z.of_nat (count_eq j (slice A lo (hi - lo))))%Z).
  { induction l as [|w l IH]; intros lo hi z Ht Hl; cbn [w_ranges map ntiles fold_left] in *.
    - subst. rewrite Nat.sub_diag. unfold slice; simpl. unfold count_eq; simpl. lia.
    - destruct Ht as (E & Ht). pose proof (@ntiles_le _ _ _ Ht). rewrite (IH _ _ _ Ht Hl).
      unfold ccnt. rewrite xas_snd, E.
      rewrite (@slice_split _ A lo (hi - lo) (w_nrow w)) by lia. rewrite count_eq_app.
      replace (hi - (lo + w_nrow w)) with (hi - lo - w_nrow w) by lia. lia. }
  rewrite (G ws 0 (g_nrow g) 0%Z (proj1 Hws) ltac:(lia)). rewrite Nat.sub_0_r, <- LA, slice_all. lia.
Qed.

(** merging the workers' containers *)
Lemma merge_ok A asg : forall (ws' : list (worker N)) (locs : list (wstate N)) c ch,
  length locs = length ws' -> shaped k d c ->
  (forall t w l, nth_error ws' t = Some w -> nth_error locs t = Some l ->
     shaped k d (fst l) /\
     (forall j, j < k -> cel (fst l) j = (csum N d j (xas g data (w_start w) (slice A (w_start w) (w_nrow w))),
                                          ccnt N j (xas g data (w_start w) (slice A (w_start w) (w_nrow w))), false)) /\
     snd l = odiff (slice asg (w_start w) (w_nrow w)) (slice A (w_start w) (w_nrow w))) ->
  exists c', for_each locs (fun (l : wstate N) (cc : clusters * nat) =>
      let* c := peq (fst cc) (fst l) in Ok (c, snd cc + snd l)) (c, ch)
    = Ok (c', ch + list_sum (map (fun sn => odiff (slice asg (fst sn) (snd sn)) (slice A (fst sn) (snd sn))) (w_ranges ws'))) /\
    shaped k d c' /\
    forall j, j < k -> cel c' j =
      (fold_left (fun s w => map2 (nadd N) s (csum N d j (xas g data (w_start w) (slice A (w_start w) (w_nrow w))))) ws' (crow c j),
       fold_left (fun n w => n + ccnt N j (xas g data (w_start w) (slice A (w_start w) (w_nrow w))))%Z ws' (cnum c j), cdone c j).
Proof.
  induction ws' as [|w ws' IH]; intros [|l locs] c ch Hl Hc H; simpl in Hl; try lia.
  - exists c. cbn [for_each w_ranges map list_sum fold_right fold_left]. rewrite Nat.add_0_r. splits; auto.
  - cbn [for_each]. destruct (H 0 w l eq_refl eq_refl) as (Hs & Hcel & Hch).
    destruct (@peq_ok N k d c (fst l) Hc Hs) as (c1 & E1 & Hs1 & Hc1).
    cbn [fst snd]. rewrite E1. cbn [bind].
    destruct (IH locs c1 (ch + snd l) ltac:(lia) Hs1) as (c2 & E2 & Hs2 & Hc2).
    { intros t w' l' Ew El. exact (H (S t) w' l' Ew El). }
    exists c2. rewrite E2. splits; auto.
    + cbn [w_ranges map list_sum fold_right fst snd]. rewrite Hch.
      change (fold_right Nat.add 0 ?x) with (list_sum x). f_equal. f_equal. unfold w_ranges. lia.
    + intros j Hj. rewrite Hc2 by exact Hj. cbn [fold_left].
      pose proof (Hc1 j Hj) as E. unfold cel in E. injection E as E1' E2' E3'. rewrite E1', E2', E3'.
      pose proof (Hcel j Hj) as E. unfold cel in E. injection E as E1'' E2'' E3''. rewrite E1'', E2''. reflexivity.
Qed.

Lemma finalize_loop (c : clusters) (counts : list Z) : shaped k d c -> length counts = k ->
  (forall j, j < k -> (0 <= cnum c j)%Z) ->
  exists c' counts' chk, loop k (fun i (st : clusters * list Z * Z) =>
      let '(c, counts, chk) := st in
      let* c := finalize c i in
      let* n := aget (c_members c) i in
      let* counts := aset counts i n in
      Ok (c, counts, w32 (chk + n))) (c, counts, 0%Z) = Ok (c', counts', chk) /\
    shaped k d c' /\ (forall j, j < k -> cel c' j = fin1 N (cel c j)) /\
    length counts' = k /\ (forall j, j < k -> nth j counts' 0%Z = cnum c j) /\
    chk = w32 (fold_right Z.add 0%Z (map (cnum c) (seq 0 k))).
Proof.
  intros Hc Hl Hpos.
  assert (H : okp (loop k (fun i (st : clusters * list Z * Z) =>
      let '(c, counts, chk) := st in
      let* c := finalize c i in
      let* n := aget (c_members c) i in
      let* counts := aset counts i n in
      Ok (c, counts, w32 (chk + n))) (c, counts, 0%Z))
    (fun st => let '(c', counts', chk) := st in
      shaped k d c' /\ (forall j, j < k -> cel c' j = if j <? k then fin1 N (cel c j) else cel c j) /\
      length counts' = k /\ (forall j, j < k -> nth j counts' 0%Z = cnum c j) /\
      chk = w32 (fold_right Z.add 0%Z (map (cnum c) (seq 0 k))))).
  { apply (@loop_okp _ (fun i st => let '(c', counts', chk) := st in
      shaped k d c' /\ (forall j, j < k -> cel c' j = if j <? i then fin1 N (cel c j) else cel c j) /\
      length counts' = k /\ (forall j, j < i -> nth j counts' 0%Z = cnum c j) /\
      chk = w32 (fold_right Z.add 0%Z (map (cnum c) (seq 0 i))))).
    - splits; auto; intros; lia.
    - intros i [[c1 n1] z1] Hi (Hs & Hcel & Hn & Hcnt & Hz).
      destruct (@finalize_ok N k d c1 i Hs Hi) as (c2 & E & Hs2 & Hcel2). rewrite E. cbn [bind].
      assert (Ei : cnum c2 i = cnum c i).
      { pose proof (Hcel2 i Hi) as E1. rewrite Nat.eqb_refl in E1. rewrite (Hcel i Hi) in E1.
        rewrite Nat.ltb_irrefl in E1. unfold cel, fin1 in E1. destruct (cdone c i); [congruence|].
        injection E1 as _ E1 _. exact E1. }
      assert (Lm : length (c_members c2) = k) by (destruct Hs2 as (Hk2 & _ & _ & Hv & _); congruence).
      rewrite (@aget_nth _ (c_members c2) i 0%Z) by lia. cbn [bind].
      rewrite aset_ok by lia. cbn [bind okp].
      change (nth i (c_members c2) 0%Z) with (cnum c2 i). rewrite Ei. splits; auto.
      + intros j Hj. rewrite Hcel2 by exact Hj. rewrite Hcel by exact Hj.
        destruct (Nat.eqb_spec j i) as [->|Hne].
        * rewrite Nat.ltb_irrefl. destruct (Nat.ltb_spec i (S i)); [reflexivity|lia].
        * destruct (Nat.ltb_spec j i); destruct (Nat.ltb_spec j (S i)); auto; lia.
      + rewrite upd_length. exact Hn.
      + intros j Hj. rewrite nth_upd by lia. destruct (Nat.eqb_spec j i) as [->|]; auto. apply Hcnt. lia.
      + rewrite seq_S, map_app, Hz. cbn [map]. unfold w32.
        assert (Ef : forall l z, fold_right Z.add 0%Z (l ++ [z]) = (fold_right Z.add 0%Z l + z)%Z).
        { clear. induction l; intros; simpl; [lia|]. rewrite IHl. lia. }
        rewrite Ef. rewrite Zplus_mod_idemp_l. reflexivity. }
  apply okp_iff in H as ([[c' counts'] chk] & -> & Hs & Hcel & Hn & Hcnt & Hz).
  exists c', counts', chk. splits; auto. intros j Hj. rewrite Hcel by exact Hj.
  destruct (Nat.ltb_spec j k); [reflexivity|lia].
Qed.

(** counts vector of an assignment *)
Definition counts_of (A : list nat) : list Z := map (fun j => Z.of_nat (count_eq j A)) (seq 0 k).

Lemma update_ok (s : kst N) A asg :
  shaped k d (s_cltrs s) -> length (s_counts s) = k -> length A = g_nrow g -> length asg = g_nrow g ->
  Forall (fun a => a < k) A -> length (s_local s) = length ws ->
  (forall t w l, nth_error ws t = Some w -> nth_error (s_local s) t = Some l ->
     shaped k d (fst l) /\
     (forall j, j < k -> cel (fst l) j = (csum N d j (xas g data (w_start w) (slice A (w_start w) (w_nrow w))),
                                          ccnt N j (xas g data (w_start w) (slice A (w_start w) (w_nrow w))), false)) /\
     snd l = odiff (slice asg (w_start w) (w_nrow w)) (slice A (w_start w) (w_nrow w))) ->
  exists s', update_clusters g s = Ok s' /\
    shaped k d (s_cltrs s') /\ (forall j, j < k -> cel (s_cltrs s') j = ucel A j) /\
    s_asg s' = s_asg s /\ s_local s' = s_local s /\ s_counts s' = counts_of A /\ s_changed s' = odiff asg A.
Proof.
  intros Hc Hcnt LA Lasg HA Hll Hl. unfold update_clusters.
  rewrite (clear_create Hc).
  destruct (@merge_ok A asg ws (s_local s) (clusters_create N k d) 0 Hll (shaped_create N k d) Hl)
    as (c1 & E1 & Hs1 & Hc1).
  rewrite E1. cbn [bind fst snd]. rewrite Nat.add_0_l.
  rewrite (@odiff_concat asg (w_ranges ws) 0 (g_nrow g) A (proj1 Hws)) by lia.
  rewrite Nat.sub_0_r.
  replace (slice asg 0 (g_nrow g)) with asg by (rewrite <- Lasg, slice_all; reflexivity).
  replace (slice A 0 (g_nrow g)) with A by (rewrite <- LA, slice_all; reflexivity).
  assert (Hcel1 : forall j, j < k -> cel c1 j = (usum A j ws, Z.of_nat (count_eq j A), false)).
  { intros j Hj. rewrite Hc1 by exact Hj. pose proof (@cel_create N k d j Hj) as E. unfold cel in E.
    injection E as -> -> ->. fold (ucnt A j ws). rewrite ucnt_total by exact LA. reflexivity. }
  destruct (@finalize_loop c1 (s_counts s) Hs1 Hcnt) as (c2 & n2 & chk & E2 & Hs2 & Hc2 & Ln2 & Hn2 & Hchk).
  { intros j Hj. pose proof (Hcel1 j Hj) as E. unfold cel in E. injection E as _ E _. rewrite E. lia. }
  fold k. rewrite E2. cbn [bind].
  assert (Ez : chk = Z.of_nat (g_nrow g)).
  { rewrite Hchk.
    assert (Es : map (cnum c1) (seq 0 k) = map (fun j => Z.of_nat (count_eq j A)) (seq 0 k)).
    { apply map_ext_in. intros j Hj. apply in_seq in Hj. pose proof (Hcel1 j ltac:(lia)) as E.
      unfold cel in E. injection E as _ E _. exact E. }
    rewrite Es.
    assert (Ef : forall l, fold_right Z.add 0%Z (map (fun j => Z.of_nat (count_eq j A)) l)
                 = Z.of_nat (list_sum (map (fun j => count_eq j A) l))).
    { induction l as [|j l IH]; simpl; [reflexivity|]. rewrite IH. unfold list_sum. lia. }
    rewrite Ef, count_sum by exact HA. rewrite LA. apply w32_small. lia. }
  rewrite Ez, Z.eqb_refl. cbn [assert_ bind].
  pose proof (odiff_le asg A) as Hle. rewrite LA in Hle.
  destruct (Nat.leb_spec (odiff asg A) (g_nrow g)); [|lia]. cbn [assert_ bind].
  eexists; split; [reflexivity|]. cbn [s_cltrs s_asg s_local s_counts s_changed]. splits; auto.
  - intros j Hj. rewrite Hc2 by exact Hj. rewrite Hcel1 by exact Hj. reflexivity.
  - unfold counts_of. apply (nth_ext _ _ 0%Z 0%Z).
    + rewrite map_length, seq_length. exact Ln2.
    + intros j Hj. rewrite Ln2 in Hj. rewrite Hn2 by exact Hj.
      rewrite (nth_indep _ 0%Z ((fun j => Z.of_nat (count_eq j A)) 0)) by (rewrite map_length, seq_length; exact Hj).
      rewrite (map_nth (fun j => Z.of_nat (count_eq j A))), seq_nth by exact Hj.
      pose proof (Hcel1 j Hj) as E. unfold cel in E. injection E as _ E _. exact E.
Qed.

(* ------------------------------------------------------------------ *)
(** * A whole iteration *)

Definition stok (s : kst N) : Prop :=
  shaped k d (s_cltrs s) /\ length (s_counts s) = k /\ length (s_asg s) = g_nrow g /\
  length (s_local s) = length ws /\ Forall (fun l => shaped k d (fst l)) (s_local s).

Hypothesis Hdata : length data = g_nrow g * d.

Lemma iterate_ok sched s : complete (w_ranges ws) sched -> stok s ->
  match iterate g ws sched s with
  | Ok s' => exists A, length A = g_nrow g /\ Forall (fun a => a < k) A /\
      s_asg s' = map Some A /\
      (forall r, r < g_nrow g -> nid g data (s_cltrs s) r = Some (nth r A 0)) /\
      stok s' /\ (forall j, j < k -> cel (s_cltrs s') j = ucel A j) /\
      s_counts s' = counts_of A /\ s_changed s' = odiff (s_asg s) A
  | Err e => e = Abort /\ exists r, r < g_nrow g /\ nid g data (s_cltrs s) r = None
  end.
Proof.
  intros Hsch (Hc & Hcnt & La & Ll & Hsh). unfold iterate.
  pose proof (@EM_round_ok N g ws data (s_cltrs s) Hws Hc Hdata sched (s_local s) (s_asg s) Hsch La Ll Hsh) as H.
  destruct (EM_round g ws (s_cltrs s) sched (s_local s) (s_asg s)) as [[locs asg']|e]; cbn [bind fst snd]; [|exact H].
  destruct H as (A & LA & EA & Hnid & Hlen & Hl).
  assert (HA : Forall (fun a => a < k) A).
  { apply Forall_forall. intros a Ha. apply (In_nth _ _ 0) in Ha as (r & Hr & <-). apply Hnid. lia. }
  destruct (@update_ok (mkSt (s_cltrs s) asg' (s_counts s) (s_changed s) locs) A (s_asg s) Hc Hcnt LA La HA Hlen)
    as (s' & E & Hs & Hcel & Ea & El & En & Ech).
  { intros t w l Ew El. exact (Hl t w l Ew El). }
  rewrite E. exists A. cbn [s_asg s_local] in *. splits; auto.
  - congruence.
  - intros r Hr. apply Hnid. exact Hr.
  - unfold stok. splits; auto.
    + rewrite En. unfold counts_of. rewrite map_length, seq_length. reflexivity.
    + rewrite Ea, EA, map_length. exact LA.
    + congruence.
    + rewrite El. apply Forall_forall. intros l Hin. apply In_nth_error in Hin as (t & Et).
      destruct (nth_error ws t) as [w|] eqn:Ew.
      * apply (Hl t w l Ew Et).
      * apply nth_error_None in Ew. rewrite <- Hlen in Ew. apply nth_error_None in Ew. change (nth_error locs t = Some l) in Et. rewrite Ew in Et. discriminate Et.
Qed.

(** the container is a function of the assignment *)
Lemma cel_determines c c' A : shaped k d c -> shaped k d c' ->
  (forall j, j < k -> cel c j = ucel A j) -> (forall j, j < k -> cel c' j = ucel A j) -> c = c'.
Proof.
  intros Hs Hs' H H'. apply (@clusters_ext N k d); auto. intros j Hj. rewrite H, H' by exact Hj. reflexivity.
Qed.


Lemma stok_clear s : stok s -> stok (clear_asg s).
Proof. intros (H1 & H2 & H3 & H4 & H5). unfold stok, clear_asg; cbn. splits; auto. rewrite map_length. exact H3. Qed.

End Upd.
