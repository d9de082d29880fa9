(** C07-C12: the cluster containers.  [crow c j], [cnum c j], [cdone c j] are the
    centroid (or running sum), member count and completeness flag of cluster [j];
    [shaped k d c] says the container holds [k] clusters of dimension [d]. *)
From Verif Require Import Base Num Spec MatLemmas VecLemmas ClustersModel ClustersProofs.
From Coq Require Import Reals Lra Permutation.
Set Implicit Arguments.
Local Open Scope R_scope.

Definition zsum (l : list Z) : Z := fold_right Z.add 0%Z l.
(** sum of all running sums / all counts of a container *)
Definition total_sum (k d : nat) (c : clusters NumR) : list R := vsum d (map (crow c) (seq 0 k)).
Definition total_num (k : nat) (c : clusters NumR) : Z := zsum (map (cnum c) (seq 0 k)).

Lemma map_seq_upd {A} (f g : nat -> A) k i v :
  (i < k)%nat -> (forall j, (j < k)%nat -> g j = if j =? i then v else f j) ->
  map g (seq 0 k) = upd (map f (seq 0 k)) i v.
Proof.
  intros Hi H. apply nth_error_ext. intros j.
  rewrite nth_error_upd, !nth_error_map, !nth_error_seq, map_length, seq_length.
  destruct (Nat.ltb_spec j k) as [Hj|Hj]; simpl.
  - rewrite (H j Hj). destruct (Nat.eqb_spec j i) as [->|]; auto.
    destruct (Nat.ltb_spec i k); [reflexivity|lia].
  - destruct (Nat.eqb_spec j i); [lia|reflexivity].
Qed.

Lemma zsum_upd l i v : (i < length l)%nat -> zsum (upd l i v) = (zsum l - nth i l 0 + v)%Z.
Proof. revert i; induction l as [|a l IH]; intros [|i] H; simpl in *; try lia. rewrite IH by lia. lia. Qed.

Lemma crow_len (k d : nat) (c : clusters NumR) i : shaped k d c -> (i < k)%nat -> length (crow c i : list R) = d.
Proof. intros (Hk & <- & Hw) Hi. apply (@crow_length NumR); [exact Hw|lia]. Qed.

Lemma alldim_crow k d (c : clusters NumR) : shaped k d c -> alldim d (map (crow c) (seq 0 k)).
Proof.
  intros Hs. apply Forall_forall. intros r Hr. apply in_map_iff in Hr as (j & <- & Hj).
  apply in_seq in Hj. apply (crow_len Hs). lia.
Qed.

Lemma total_step k d (c c' : clusters NumR) i v n b :
  shaped k d c -> (i < k)%nat -> length v = d ->
  (forall j, (j < k)%nat -> cel c' j = if j =? i then (v, n, b) else cel c j) ->
  total_sum k d c' = vadd (vsub (total_sum k d c) (crow c i)) v /\
  total_num k c' = (total_num k c - cnum c i + n)%Z.
Proof.
  intros Hs Hi Hv H. unfold total_sum, total_num.
  rewrite (@map_seq_upd _ (crow c) (crow c') k i v Hi).
  2:{ intros j Hj. specialize (H j Hj). unfold cel in H. destruct (j =? i); congruence. }
  rewrite (@map_seq_upd _ (cnum c) (cnum c') k i n Hi).
  2:{ intros j Hj. specialize (H j Hj). unfold cel in H. destruct (j =? i); congruence. }
  split.
  - rewrite vsum_upd; auto; [|apply alldim_crow; auto|rewrite map_length, seq_length; auto].
    f_equal. f_equal. apply nth_error_nth. rewrite nth_error_map, nth_error_seq.
    destruct (Nat.ltb_spec i k); [reflexivity|lia].
  - rewrite zsum_upd by (rewrite map_length, seq_length; auto). do 2 f_equal.
    apply nth_error_nth. rewrite nth_error_map, nth_error_seq.
    destruct (Nat.ltb_spec i k); [reflexivity|lia].
Qed.

(** C07, adding and removing. *)
Theorem C07_add_remove : forall k d (c : clusters NumR) arr x idx,
  shaped k d c -> (idx < k)%nat -> length x = d -> slice (fst arr) (snd arr) d = x ->
  exists c1, add_member c arr idx = Ok c1 /\ shaped k d c1 /\
    crow c1 idx = vadd (crow c idx) x /\ cnum c1 idx = (cnum c idx + 1)%Z /\ cdone c1 idx = cdone c idx /\
    (forall j, (j < k)%nat -> j <> idx -> cel c1 j = cel c j) /\
    remove_member c1 arr idx = Ok c.
Proof.
  intros k d c arr x idx Hs Hi Hx Hsl.
  destruct (add_member_ok arr Hs Hi Hx Hsl) as (c1 & E1 & Hs1 & H1).
  exists c1. pose proof (H1 idx Hi) as Hidx. rewrite Nat.eqb_refl in Hidx. unfold cel in Hidx.
  injection Hidx as Hr Hn Hb. splits; auto.
  - intros j Hj Hne. rewrite H1 by auto. destruct (Nat.eqb_spec j idx); [contradiction|reflexivity].
  - destruct (remove_member_ok arr Hs1 Hi Hx Hsl) as (c2 & E2 & Hs2 & H2). rewrite E2. f_equal.
    apply (clusters_ext Hs2 Hs). intros j Hj. rewrite H2 by auto.
    destruct (Nat.eqb_spec j idx) as [->|Hne].
    + unfold cel. rewrite Hr, Hn, Hb. f_equal. f_equal.
      * apply (@vadd_vsub (crow c idx) x). rewrite (crow_len Hs Hi). exact (eq_sym Hx).
      * lia.
    + rewrite H1 by auto. destruct (Nat.eqb_spec j idx); [contradiction|reflexivity].
Qed.
Print Assumptions C07_add_remove.

(** C07, moving a member: equal to remove then add, and the totals are unchanged. *)
Theorem C07_swap : forall k d (c : clusters NumR) arr x a b,
  shaped k d c -> (a < k)%nat -> (b < k)%nat -> length x = d -> slice (fst arr) (snd arr) d = x ->
  exists c1 c2, remove_member c arr a = Ok c1 /\ add_member c1 arr b = Ok c2 /\
    swap_membership c arr a b = Ok c2 /\ shaped k d c2 /\
    (forall j, (j < k)%nat -> j <> a -> j <> b -> cel c2 j = cel c j) /\
    (a <> b -> crow c2 a = vsub (crow c a) x /\ crow c2 b = vadd (crow c b) x /\
               cnum c2 a = (cnum c a - 1)%Z /\ cnum c2 b = (cnum c b + 1)%Z) /\
    (a = b -> c2 = c) /\
    total_sum k d c2 = total_sum k d c /\ total_num k c2 = total_num k c.
Proof.
  intros k d c arr x a b Hs Ha Hb Hx Hsl.
  destruct (remove_member_ok arr Hs Ha Hx Hsl) as (c1 & E1 & Hs1 & H1).
  destruct (add_member_ok arr Hs1 Hb Hx Hsl) as (c2 & E2 & Hs2 & H2).
  assert (La : length (crow c a) = d) by (apply (crow_len Hs); auto).
  assert (La1 : length (crow c1 a) = d) by (apply (crow_len Hs1); auto).
  assert (Lb1 : length (crow c1 b) = d) by (apply (crow_len Hs1); auto).
  exists c1, c2. splits; auto.
  - unfold swap_membership. rewrite E1. cbn [bind]. exact E2.
  - intros j Hj Hja Hjb. rewrite H2, H1 by auto.
    destruct (Nat.eqb_spec j b); [contradiction|]. destruct (Nat.eqb_spec j a); [contradiction|]. reflexivity.
  - intros Hab. pose proof (H2 a Ha) as Ea. pose proof (H2 b Hb) as Eb. pose proof (H1 a Ha) as Fa.
    pose proof (H1 b Hb) as Fb. rewrite Nat.eqb_refl in Eb, Fa.
    destruct (Nat.eqb_spec a b); [contradiction|]. destruct (Nat.eqb_spec b a); [congruence|].
    unfold cel in *. injection Fa as Fa1 Fa2 _. injection Fb as Fb1 Fb2 _.
    injection Eb as Eb1 Eb2 _. injection Ea as Ea1 Ea2 _.
    rewrite Ea1, Eb1, Ea2, Eb2, Fa1, Fb1, Fa2, Fb2. splits; reflexivity.
  - intros ->. apply (clusters_ext Hs2 Hs). intros j Hj. rewrite H2 by auto.
    pose proof (H1 b Hb) as Fb. rewrite Nat.eqb_refl in Fb. unfold cel in Fb. injection Fb as Fb1 Fb2 Fb3.
    destruct (Nat.eqb_spec j b) as [->|Hne].
    + rewrite Fb1, Fb2, Fb3. unfold cel. f_equal. f_equal; [|lia].
      apply (@vsub_vadd (crow c b) x). exact (eq_trans La (eq_sym Hx)).
    + rewrite H1 by auto. destruct (Nat.eqb_spec j b); [contradiction|reflexivity].
  - assert (L1 : length (map2 (nsub NumR) (crow c a) x) = d) by (rewrite map2_length; lia).
    assert (L2 : length (map2 (nadd NumR) (crow c1 b) x) = d) by (rewrite map2_length; lia).
    destruct (@total_step k d c c1 a _ _ _ Hs Ha L1 H1) as (T1 & _).
    destruct (@total_step k d c1 c2 b _ _ _ Hs1 Hb L2 H2) as (T2 & _).
    rewrite T2, T1. change (map2 (nsub NumR) (crow c a) x) with (vsub (crow c a) x).
    change (map2 (nadd NumR) (crow c1 b) x) with (vadd (crow c1 b) x).
    apply (@swap_total _ _ _ _ d); auto. apply (vsum_length (alldim_crow Hs)).
  - assert (L1 : length (map2 (nsub NumR) (crow c a) x) = d) by (rewrite map2_length; lia).
    assert (L2 : length (map2 (nadd NumR) (crow c1 b) x) = d) by (rewrite map2_length; lia).
    destruct (@total_step k d c c1 a _ _ _ Hs Ha L1 H1) as (_ & T1).
    destruct (@total_step k d c1 c2 b _ _ _ Hs1 Hb L2 H2) as (_ & T2).
    rewrite T2, T1. lia.
Qed.
Print Assumptions C07_swap.

(** a container with two 2-dimensional clusters meets the hypotheses *)
Example C07_example :
  shaped 2 2 (mkClusters NumR 2 2 [2%Z; 1%Z] [false; false] [1; 2; 3; 4]) /\
  slice [9; 5; 6] 1 2 = [5; 6].
Proof. split; [unfold shaped, cwf; simpl; auto|reflexivity]. Qed.

(** C08, any arithmetic: what finalize does, that it happens once, and that other
    clusters are untouched. *)
Theorem C08_finalize : forall (N : Num) k d (c : clusters N) idx,
  shaped k d c -> (idx < k)%nat -> cdone c idx = false ->
  exists c1, finalize c idx = Ok c1 /\ shaped k d c1 /\
    cdone c1 idx = true /\ cnum c1 idx = cnum c idx /\
    crow c1 idx = (if (cnum c idx <? 2)%Z then crow c idx
                   else map (fun s => ndiv N s (nofZ N (cnum c idx))) (crow c idx)) /\
    (forall j, (j < k)%nat -> j <> idx -> cel c1 j = cel c j) /\
    finalize c1 idx = Ok c1.
Proof.
  intros N k d c idx Hs Hi Hd.
  destruct (finalize_ok Hs Hi) as (c1 & E & Hs1 & H1). exists c1.
  pose proof (H1 idx Hi) as Hx. rewrite Nat.eqb_refl in Hx. unfold fin1, cel in Hx. rewrite Hd in Hx.
  injection Hx as Hr Hn Hb. splits; auto.
  - rewrite Hr. destruct (Z.ltb_spec 1 (cnum c idx)); destruct (Z.ltb_spec (cnum c idx) 2); auto; lia.
  - intros j Hj Hne. rewrite H1 by auto. destruct (Nat.eqb_spec j idx); [contradiction|reflexivity].
  - destruct (finalize_ok Hs1 Hi) as (c2 & E2 & Hs2 & H2). rewrite E2. f_equal.
    apply (clusters_ext Hs2 Hs1). intros j Hj. rewrite H2 by auto.
    destruct (Nat.eqb_spec j idx) as [->|]; [|reflexivity]. unfold fin1, cel. rewrite Hb. reflexivity.
Qed.
Print Assumptions C08_finalize.

(** C08, exact arithmetic: unfinalize undoes finalize and vice versa. *)
Theorem C08_round_trip : forall k d (c : clusters NumR) idx,
  shaped k d c -> (idx < k)%nat ->
  (cdone c idx = false ->
     exists c1, finalize c idx = Ok c1 /\ unfinalize c1 idx = Ok c) /\
  (cdone c idx = true ->
     exists c1, unfinalize c idx = Ok c1 /\ finalize c1 idx = Ok c).
Proof.
  intros k d c idx Hs Hi. split; intros Hd.
  - destruct (finalize_ok Hs Hi) as (c1 & E & Hs1 & H1). exists c1. split; auto.
    destruct (unfinalize_ok Hs1 Hi) as (c2 & E2 & Hs2 & H2). rewrite E2. f_equal.
    apply (clusters_ext Hs2 Hs). intros j Hj. rewrite H2, H1 by auto.
    destruct (Nat.eqb_spec j idx) as [->|]; [|reflexivity].
    unfold fin1, unfin1, cel. rewrite Hd. f_equal. f_equal.
    destruct (Z.ltb_spec 1 (cnum c idx)); destruct (Z.ltb_spec (cnum c idx) 2); try lia; auto.
    rewrite map_map. rewrite <- map_id. apply map_ext. intros x. simpl. field.
    apply IZR_neq. lia.
  - destruct (unfinalize_ok Hs Hi) as (c1 & E & Hs1 & H1). exists c1. split; auto.
    destruct (finalize_ok Hs1 Hi) as (c2 & E2 & Hs2 & H2). rewrite E2. f_equal.
    apply (clusters_ext Hs2 Hs). intros j Hj. rewrite H2, H1 by auto.
    destruct (Nat.eqb_spec j idx) as [->|]; [|reflexivity].
    unfold fin1, unfin1, cel. rewrite Hd. f_equal. f_equal.
    destruct (Z.ltb_spec 1 (cnum c idx)); destruct (Z.ltb_spec (cnum c idx) 2); try lia; auto.
    rewrite map_map. rewrite <- map_id. apply map_ext. intros x. simpl. field.
    apply IZR_neq. lia.
Qed.
Print Assumptions C08_round_trip.

Example C08_example :
  shaped 2 1 (mkClusters NumR 1 2 [3%Z; 0%Z] [false; true] [6; 5]).
Proof. unfold shaped, cwf; simpl; auto. Qed.

(** C09 *)
Theorem C09_merge_two : forall (N : Num) k d (a b : clusters N),
  shaped k d a -> shaped k d b ->
  exists c, peq a b = Ok c /\ shaped k d c /\
    forall j, (j < k)%nat -> crow c j = map2 (nadd N) (crow a j) (crow b j) /\
      cnum c j = (cnum a j + cnum b j)%Z /\ cdone c j = cdone a j.
Proof.
  intros N k d a b Ha Hb. destruct (peq_ok Ha Hb) as (c & E & Hs & H). exists c. splits; auto.
  intros j Hj. specialize (H j Hj). unfold cel in H. injection H as -> -> ->. auto.
Qed.
Print Assumptions C09_merge_two.

Theorem C09_size_mismatch : forall (N : Num) (a b : clusters N),
  length (c_means a) <> length (c_means b) -> peq a b = Err Abort.
Proof. intros N a b. exact (@peq_size_mismatch N a b). Qed.
Print Assumptions C09_size_mismatch.

(** [for_each l (fun r c => peq c r) c] merges the containers [l] into [c] one by one *)
Lemma merge_list k d : forall l (c : clusters NumR),
  shaped k d c -> Forall (shaped k d) l ->
  exists c', for_each l (fun r c => peq c r) c = Ok c' /\ shaped k d c' /\
    forall j, (j < k)%nat ->
      crow c' j = vadd (crow c j) (vsum d (map (fun r => crow r j) l)) /\
      cnum c' j = (cnum c j + zsum (map (fun r => cnum r j) l))%Z /\ cdone c' j = cdone c j.
Proof.
  induction l as [|r l IH]; intros c Hs Hl; cbn [for_each].
  - exists c. splits; auto. intros j Hj. cbn [map]. splits; auto.
    + cbn. rewrite vadd_zero_r; auto. apply (crow_len Hs); auto.
    + cbn. lia.
  - inversion Hl as [|? ? Hr Hl']; subst. destruct (peq_ok Hs Hr) as (c1 & E & Hs1 & H1).
    rewrite E. cbn [bind]. destruct (IH c1 Hs1 Hl') as (c2 & E2 & Hs2 & H2). exists c2. splits; auto.
    intros j Hj. specialize (H1 j Hj). unfold cel in H1. injection H1 as R1 N1 B1.
    destruct (H2 j Hj) as (R2 & N2 & B2). splits.
    + rewrite R2, R1. cbn [map]. rewrite vsum_cons, vadd_assoc. reflexivity.
    + rewrite N2, N1. unfold zsum; cbn [map fold_right]; lia.
    + congruence.
Qed.

Theorem C09_merge_order : forall k d (c : clusters NumR) l l',
  shaped k d c -> Forall (shaped k d) l -> Permutation l l' ->
  exists c', for_each l (fun r c => peq c r) c = Ok c' /\
    for_each l' (fun r c => peq c r) c = Ok c' /\ shaped k d c' /\
    forall j, (j < k)%nat ->
      crow c' j = vadd (crow c j) (vsum d (map (fun r => crow r j) l)) /\
      cnum c' j = (cnum c j + zsum (map (fun r => cnum r j) l))%Z.
Proof.
  intros k d c l l' Hs Hl Hp.
  assert (Hl' : Forall (shaped k d) l') by (eapply Permutation_Forall; eauto).
  destruct (merge_list Hs Hl) as (c1 & E1 & Hs1 & H1).
  destruct (merge_list Hs Hl') as (c2 & E2 & Hs2 & H2).
  exists c1. splits; auto.
  - rewrite E2. f_equal. apply (clusters_ext Hs2 Hs1). intros j Hj.
    destruct (H1 j Hj) as (R1 & N1 & B1). destruct (H2 j Hj) as (R2 & N2 & B2).
    unfold cel. rewrite R1, R2, N1, N2, B1, B2. f_equal. f_equal.
    + f_equal. apply vsum_perm. apply Permutation_map. apply Permutation_sym. exact Hp.
    + f_equal. clear - Hp. unfold zsum; induction Hp; cbn [map fold_right] in *; lia.
  - intros j Hj. destruct (H1 j Hj) as (R1 & N1 & B1). auto.
Qed.
Print Assumptions C09_merge_order.

Theorem C09_merge_grouping : forall k d (a b c : clusters NumR),
  shaped k d a -> shaped k d b -> shaped k d c ->
  exists ab bc r, peq a b = Ok ab /\ peq b c = Ok bc /\ peq ab c = Ok r /\ peq a bc = Ok r.
Proof.
  intros k d a b c Ha Hb Hc.
  destruct (peq_ok Ha Hb) as (ab & E1 & S1 & H1). destruct (peq_ok Hb Hc) as (bc & E2 & S2 & H2).
  destruct (peq_ok S1 Hc) as (r & E3 & S3 & H3). destruct (peq_ok Ha S2) as (r' & E4 & S4 & H4).
  exists ab, bc, r. splits; auto. rewrite E4. f_equal. apply (clusters_ext S4 S3).
  intros j Hj. rewrite H3, H4 by auto. specialize (H1 j Hj). specialize (H2 j Hj).
  unfold cel in H1, H2. injection H1 as R1 N1 B1. injection H2 as R2 N2 B2.
  rewrite R1, R2, N1, N2, B1. f_equal. f_equal; [|lia]. apply vadd_assoc.
Qed.
Print Assumptions C09_merge_grouping.

Example C09_example :
  okmap (fun c => (c_means c, c_members c))
    (peq (mkClusters NumF 1 2 [1%Z; 2%Z] [false; false] (map fofZ [3; 4]%Z))
         (mkClusters NumF 1 2 [5%Z; 0%Z] [false; false] (map fofZ [10; 0]%Z)))
  = Some (map fofZ [13; 4]%Z, [6%Z; 2%Z]).
Proof. vm_compute. reflexivity. Qed.

(** C10: the pointer and the vector overloads store the whole row ... *)
Theorem C10_set_mean_partial : forall (N : Num) k d (c : clusters N) x idx,
  shaped k d c -> (idx < k)%nat -> length x = d ->
  (forall arr, slice (fst arr) (snd arr) d = x ->
   exists c1, set_mean_at c arr idx = Ok c1 /\ shaped k d c1 /\ crow c1 idx = x /\
     cnum c1 idx = cnum c idx /\ cdone c1 idx = cdone c idx /\
     forall j, (j < k)%nat -> j <> idx -> cel c1 j = cel c j) /\
  (exists c1, set_mean_vec c x (Some idx) = Ok c1 /\ shaped k d c1 /\ crow c1 idx = x /\
     cnum c1 idx = cnum c idx /\ cdone c1 idx = cdone c idx /\
     forall j, (j < k)%nat -> j <> idx -> cel c1 j = cel c j).
Proof.
  intros N k d c x idx Hs Hi Hx.
  assert (G : forall arr, slice (fst arr) (snd arr) d = x ->
   exists c1, set_mean_at c arr idx = Ok c1 /\ shaped k d c1 /\ crow c1 idx = x /\
     cnum c1 idx = cnum c idx /\ cdone c1 idx = cdone c idx /\
     forall j, (j < k)%nat -> j <> idx -> cel c1 j = cel c j).
  { intros arr Hsl. destruct (set_mean_at_ok arr Hs Hi Hx Hsl) as (c1 & E & S1 & H1).
    exists c1. pose proof (H1 idx Hi) as He. rewrite Nat.eqb_refl in He. unfold cel in He.
    injection He as R1 N1 B1. splits; auto.
    intros j Hj Hne. rewrite H1 by auto. destruct (Nat.eqb_spec j idx); [contradiction|reflexivity]. }
  split; [exact G|]. destruct (G (x, 0)%nat) as (c1 & E & H).
  { simpl. rewrite <- Hx. apply slice_all. }
  exists c1. split; [|exact H]. rewrite <- E. unfold set_mean_vec, set_mean_at.
  pose proof Hs as (_ & Hd & _). rewrite Hx, Hd. reflexivity.
Qed.
Print Assumptions C10_set_mean_partial.

(** ... the iterator overload does not: it writes every value to the first
    component. *)
Theorem C10_set_mean_iter_refuted :
  exists (c : clusters NumF) x c1, shaped 2 2 c /\ length x = 2%nat /\
    set_mean_iter c x 1 = Ok c1 /\ crow c1 1 <> x.
Proof.
  assert (H : okmap (fun c => crow c 1) (set_mean_iter (clusters_create NumF 2 2) (map fofZ [7; 8]%Z) 1)
              = Some (map fofZ [8; 0]%Z)) by (vm_compute; reflexivity).
  apply okmap_ex in H as (c1 & E & H).
  exists (clusters_create NumF 2 2), (map fofZ [7; 8]%Z), c1. splits; auto.
  - apply shaped_create.
  - rewrite H. vm_compute. discriminate.
Qed.
Print Assumptions C10_set_mean_iter_refuted.

(** It is right only for one-dimensional data. *)
Theorem C10_set_mean_iter_1d_partial : forall (N : Num) k (c : clusters N) v idx,
  shaped k 1 c -> (idx < k)%nat ->
  set_mean_iter c [v] idx = set_mean_at c ([v], 0)%nat idx.
Proof.
  intros N k c v idx (Hk & Hd & _) Hi. unfold set_mean_iter, set_mean_at. rewrite Hd.
  cbn [for_each]. unfold copy_to, loop. cbn [for_]. unfold pget, aget. cbn [fst snd nth_error Nat.add bind].
  rewrite Nat.add_0_r. destruct (aset (c_means c) (idx * 1) v); reflexivity.
Qed.
Print Assumptions C10_set_mean_iter_1d_partial.

(** C11 *)
Theorem C11_scale_centroid : forall k d (c : clusters NumR) f arr x idx,
  shaped k d c -> (idx < k)%nat -> length x = d -> slice (fst arr) (snd arr) d = x ->
  exists c1, scale_centroid c f idx arr = Ok c1 /\ shaped k d c1 /\
    (forall i, (i < d)%nat -> nth i (crow c1 idx) 0 = (1 - f) * nth i (crow c idx) 0 + f * nth i x 0) /\
    (0 <= f <= 1 -> forall i, (i < d)%nat ->
       Rmin (nth i (crow c idx) 0) (nth i x 0) <= nth i (crow c1 idx) 0
         <= Rmax (nth i (crow c idx) 0) (nth i x 0)) /\
    cnum c1 idx = cnum c idx /\ cdone c1 idx = cdone c idx /\
    (forall j, (j < k)%nat -> j <> idx -> cel c1 j = cel c j).
Proof.
  intros k d c f arr x idx Hs Hi Hx Hsl.
  destruct (scale_centroid_ok f arr Hs Hi Hx Hsl) as (c1 & E & S1 & H1).
  pose proof (H1 idx Hi) as He. rewrite Nat.eqb_refl in He. unfold cel in He. injection He as R1 N1 B1.
  assert (Hn : forall i, (i < d)%nat -> nth i (crow c1 idx) 0 = (1 - f) * nth i (crow c idx) 0 + f * nth i x 0).
  { intros i Hid. rewrite R1. rewrite (@nth_map2 _ _ _ _ _ _ _ 0 0 0).
    - reflexivity.
    - rewrite (crow_len Hs); auto.
    - change (i < @length R x)%nat. rewrite (Hx : @length R x = d). exact Hid. }
  exists c1. splits; auto.
  - intros Hf i Hid. rewrite (Hn i Hid).
    set (a := nth i (crow c idx) 0). set (b := nth i x 0).
    unfold Rmin, Rmax. destruct (Rle_dec a b); split; nra.
  - intros j Hj Hne. rewrite H1 by auto. destruct (Nat.eqb_spec j idx); [contradiction|reflexivity].
Qed.
Print Assumptions C11_scale_centroid.

Example C11_example :
  okmap (@c_means NumF)
    (scale_centroid (mkClusters NumF 1 1 [1%Z] [true] [fofZ 8]) (fdec 1 (-2)) 0 ([fofZ 4], 0%nat))
  = Some [fofZ 7].
Proof. vm_compute. reflexivity. Qed.

(** C12: growing by adding a member ... *)
Theorem C12_grow_add_partial : forall (N : Num) k d (c : clusters N) arr x idx,
  shaped k d c -> length x = d -> slice (fst arr) (snd arr) d = x ->
  exists c', sparse_add_member c arr idx = Ok c' /\ shaped (Nat.max k (S idx)) d c' /\
    (* all other old clusters are kept *)
    (forall j, (j < k)%nat -> j <> idx -> cel c' j = cel c j) /\
    (* all other new clusters are empty *)
    (forall j, (k <= j < Nat.max k (S idx))%nat -> j <> idx ->
       cel c' j = (repeat (nzero N) d, 0%Z, false)) /\
    (* the member is added to its cluster *)
    ((idx < k)%nat -> crow c' idx = map2 (nadd N) (crow c idx) x /\ cnum c' idx = (cnum c idx + 1)%Z) /\
    ((k <= idx)%nat -> crow c' idx = map2 (nadd N) (repeat (nzero N) d) x /\ cnum c' idx = 1%Z).
Proof.
  intros N k d c arr x idx Hs Hx Hsl.
  destruct (sparse_add_member_ok arr idx Hs Hx Hsl) as (c' & E & S' & H').
  assert (Hidx := H' idx ltac:(lia)). rewrite Nat.eqb_refl in Hidx. unfold grown in Hidx.
  exists c'. splits; auto.
  - intros j Hj Hne. rewrite H' by lia. unfold grown. destruct (Nat.eqb_spec j idx); [contradiction|].
    destruct (Nat.ltb_spec j k); [reflexivity|lia].
  - intros j Hj Hne. rewrite H' by lia. unfold grown. destruct (Nat.eqb_spec j idx); [contradiction|].
    destruct (Nat.ltb_spec j k); [lia|reflexivity].
  - intros Hlt. destruct (Nat.ltb_spec idx k); [|lia]. unfold cel in Hidx.
    injection Hidx as -> -> _. auto.
  - intros Hge. destruct (Nat.ltb_spec idx k); [lia|]. unfold cel in Hidx.
    injection Hidx as -> -> _. auto.
Qed.
Print Assumptions C12_grow_add_partial.

Example C12_example :
  okmap (fun c => (c_nclust c, c_members c))
    (sparse_add_member (clusters_create NumF 1 2) (map fofZ [5; 6]%Z, 0%nat) 3)
  = Some (4%nat, [0; 0; 0; 1]%Z).
Proof. vm_compute. reflexivity. Qed.

(** a count is only changed for a cluster the set has: the cluster after the last
    and beyond is refused (an exception), any other gets exactly the amount added *)
Theorem C12_count_bounds : forall (N : Num) (c : clusters N) val idx, cwf c ->
  (c_nclust c <= idx -> sparse_num_members_peq c val idx = Err Throw)%nat /\
  (idx < c_nclust c -> exists c', sparse_num_members_peq c val idx = Ok c' /\
     cwf c' /\ c_nclust c' = c_nclust c /\ c_ncol c' = c_ncol c /\ c_means c' = c_means c /\
     (forall j, (j < c_nclust c)%nat ->
        cnum c' j = if (j =? idx)%nat then cnum c j + val else cnum c j)%Z)%nat.
Proof.
  intros N c val idx (A1 & A2 & A3). unfold sparse_num_members_peq. split; intros H.
  - destruct (Nat.leb_spec (c_nclust c) idx); [reflexivity|lia].
  - destruct (Nat.leb_spec (c_nclust c) idx); [lia|]. unfold num_members_peq.
    destruct (nth_error (c_members c) idx) as [x|] eqn:E; [|apply nth_error_None in E; lia].
    erewrite amod_ok by exact E. cbn [Base.bind]. eexists. split; [reflexivity|].
    destruct c. cbn in *. unfold cwf, cnum. cbn. rewrite upd_length. splits; auto.
    intros j Hj. rewrite nth_upd by lia.
    destruct (Nat.eqb_spec j idx) as [->|]; [|reflexivity].
    rewrite (nth_error_nth _ _ 0%Z E). reflexivity.
Qed.
Print Assumptions C12_count_bounds.

(** ... but merging makes it too large: merging a container of two 2-dimensional
    clusters into an empty one gives five clusters, not two. *)
Theorem C12_grow_merge_refuted :
  exists (c rhs c' : clusters NumF), shaped 1 2 c /\ shaped 2 2 rhs /\
    sparse_peq c rhs = Ok c' /\ c_nclust c' = 5%nat.
Proof.
  assert (H : okmap (@c_nclust NumF) (sparse_peq (clusters_create NumF 1 2) (clusters_create NumF 2 2))
              = Some 5%nat) by (vm_compute; reflexivity).
  apply okmap_ex in H as (c' & E & H).
  exists (clusters_create NumF 1 2), (clusters_create NumF 2 2), c'.
  splits; auto; apply shaped_create.
Qed.
Print Assumptions C12_grow_merge_refuted.

(* ------------------------------------------------------------------ *)
(** C122: equality of cluster sets.  [same_value] is what == means for two
    coordinates: equal reals; equal, non-NaN doubles with 0 == -0. *)
Definition equal_sets (N : Num) (a b : clusters N) : Prop :=
  c_ncol a = c_ncol b /\ c_nclust a = c_nclust b /\
  (forall j, (j < c_nclust a)%nat -> cnum a j = cnum b j) /\
  (forall j d x y, (j < c_nclust a)%nat -> (d < c_ncol a)%nat ->
     nth_error (crow a j) d = Some x -> nth_error (crow b j) d = Some y -> neqb N x y = true).

Lemma cv_eq_spec {A} (eqb : A -> A -> bool) : forall l r, length l = length r ->
  exists v, v_eq eqb l r = Ok v /\
    (v = true <-> forall i x y, nth_error l i = Some x -> nth_error r i = Some y -> eqb x y = true).
Proof.
  induction l as [|x l IH]; intros [|y r] L; cbn in L; try discriminate.
  - exists true. split; [reflexivity|]. split; [|auto]. intros _ [|i] a b E; discriminate E.
  - cbn [v_eq]. destruct (eqb x y) eqn:E.
    + destruct (IH r ltac:(lia)) as (v & Ev & Hv). exists v. split; [exact Ev|]. split.
      * intros V [|i] a b A1 A2; cbn in A1, A2; [congruence|]. exact (proj1 Hv V i a b A1 A2).
      * intros H. apply Hv. intros i a b A1 A2. exact (H (Datatypes.S i) a b A1 A2).
    + exists false. split; [reflexivity|]. split; [discriminate|].
      intros H. rewrite (H 0%nat x y eq_refl eq_refl) in E. discriminate.
Qed.

Theorem C122_equality : forall (N : Num) (a b : clusters N), cwf a -> cwf b ->
  exists v, clusters_eq a b = Ok v /\ (v = true <-> equal_sets a b).
Proof.
  intros N a b (A1 & A2 & A3) (B1 & B2 & B3). unfold clusters_eq.
  destruct (Nat.eqb_spec (c_ncol a) (c_ncol b)) as [Ec|Ec]; cbn [negb];
    [|exists false; split; [reflexivity|]; split; [discriminate|]; intros (H & _); contradiction].
  destruct (Nat.eqb_spec (c_nclust a) (c_nclust b)) as [En|En]; cbn [negb];
    [|exists false; split; [reflexivity|]; split; [discriminate|]; intros (_ & H & _); contradiction].
  destruct (@cv_eq_spec _ Z.eqb (c_members a) (c_members b) ltac:(congruence)) as (u & Eu & Hu).
  rewrite Eu. cbn [Base.bind].
  assert (Hm : u = true <-> forall j, (j < c_nclust a)%nat -> cnum a j = cnum b j).
  { rewrite Hu. unfold cnum. split.
    - intros H j Hj. apply Z.eqb_eq. apply (H j); apply nth_error_nth'; lia.
    - intros H i x y X Y. apply Z.eqb_eq.
      assert (Hi : (i < c_nclust a)%nat) by (rewrite <- A2; apply nth_error_Some; congruence).
      specialize (H i Hi). rewrite (nth_error_nth _ _ 0%Z X), (nth_error_nth _ _ 0%Z Y) in H. exact H. }
  destruct u; cbn [negb].
  2:{ exists false. split; [reflexivity|]. split; [discriminate|]. intros (_ & _ & H & _).
      apply Hm in H. discriminate. }
  destruct (@cv_eq_spec _ (neqb N) (c_means a) (c_means b) ltac:(congruence)) as (v & Ev & Hv).
  exists v. split; [exact Ev|]. rewrite Hv. unfold equal_sets. split.
  - intros H. splits; auto. { apply Hm; reflexivity. }
    intros j d x y Hj Hd X Y. unfold crow, row in X, Y.
    rewrite nth_error_slice in X, Y. rewrite <- Ec in Y.
    rewrite (proj2 (Nat.ltb_lt _ _) Hd) in X, Y. exact (H _ _ _ X Y).
  - intros (_ & _ & _ & H) i x y X Y.
    assert (Hi : (i < c_nclust a * c_ncol a)%nat) by (rewrite <- A1; apply nth_error_Some; congruence).
    assert (Z0 : (c_ncol a <> 0)%nat) by (intros Q; rewrite Q in Hi; lia).
    assert (D := Nat.div_mod i (c_ncol a) Z0). assert (Mb := Nat.mod_upper_bound i (c_ncol a) Z0).
    apply (H (i / c_ncol a)%nat (i mod c_ncol a)%nat).
    + apply Nat.div_lt_upper_bound; lia.
    + exact Mb.
    + unfold crow, row. rewrite nth_error_slice, (proj2 (Nat.ltb_lt _ _) Mb). rewrite <- X. f_equal. lia.
    + unfold crow, row. rewrite <- Ec. rewrite nth_error_slice, (proj2 (Nat.ltb_lt _ _) Mb). rewrite <- Y. f_equal. lia.
Qed.
Print Assumptions C122_equality.

(** over the reals this is equality of what the containers hold *)
Theorem C122_equality_R : forall (a b : clusters NumR), cwf a -> cwf b ->
  exists v, clusters_eq a b = Ok v /\
    (v = true <-> c_ncol a = c_ncol b /\ c_nclust a = c_nclust b /\
       c_members a = c_members b /\ c_means a = c_means b).
Proof.
  intros a b A B. destruct (C122_equality A B) as (v & E & H). exists v. split; [exact E|].
  rewrite H. destruct A as (A1 & A2 & _), B as (B1 & B2 & _). unfold equal_sets. split.
  - intros (Ec & En & Hm & Hx). splits; auto.
    + apply Base.nth_error_ext. intros i.
      destruct (Nat.lt_ge_cases i (c_nclust a)) as [L|L].
      * rewrite (nth_error_nth' (c_members a) 0%Z) by lia. rewrite (nth_error_nth' (c_members b) 0%Z) by lia.
        f_equal. exact (Hm i L).
      * rewrite !(proj2 (nth_error_None _ _)) by lia. reflexivity.
    + apply Base.nth_error_ext. intros i.
      destruct (Nat.lt_ge_cases i (c_nclust a * c_ncol a)) as [L|L].
      2:{ rewrite !(proj2 (nth_error_None _ _)); [reflexivity|rewrite B1, <- En, <- Ec; exact L|rewrite A1; exact L]. }
      assert (Z0 : (c_ncol a <> 0)%nat) by (intros Q; rewrite Q in L; lia).
      assert (D := Nat.div_mod i (c_ncol a) Z0). assert (Mb := Nat.mod_upper_bound i (c_ncol a) Z0).
      destruct (nth_error (c_means a) i) as [x|] eqn:X; [|apply nth_error_None in X; rewrite A1 in X; lia].
      destruct (nth_error (c_means b) i) as [y|] eqn:Y;
        [|apply nth_error_None in Y; rewrite B1, <- En, <- Ec in Y; lia].
      f_equal. apply Reqb_true. apply (Hx (i / c_ncol a)%nat (i mod c_ncol a)%nat).
      * apply Nat.div_lt_upper_bound; lia.
      * exact Mb.
      * unfold crow, row. rewrite nth_error_slice, (proj2 (Nat.ltb_lt _ _) Mb). rewrite <- X. f_equal. lia.
      * unfold crow, row. rewrite <- Ec. rewrite nth_error_slice, (proj2 (Nat.ltb_lt _ _) Mb). rewrite <- Y. f_equal. lia.
  - intros (Ec & En & Hm & Hx). splits; auto.
    + intros j _. unfold cnum. rewrite Hm. reflexivity.
    + intros j d x y _ _ X Y. unfold crow in X, Y. rewrite <- Ec, <- Hx in Y.
      apply Reqb_true. congruence.
Qed.
Print Assumptions C122_equality_R.

Example C122_example :
  clusters_eq (clusters_create NumF 2 2) (clusters_create NumF 2 2) = Ok true /\
  clusters_eq (clusters_create NumF 2 2) (clusters_create NumF 2 1) = Ok false /\
  okmap (fun c => clusters_eq c (clusters_create NumF 2 2))
    (set_mean_at (clusters_create NumF 2 2) (map fofZ [0; 5]%Z, 0%nat) 1) = Some (Ok false).
Proof. splits; vm_compute; reflexivity. Qed.
