(** C45: compaction of cluster ids; C46: comparison of results. *)
From Verif Require Import Base ContainersModel.
Set Implicit Arguments.
Unset Strict Implicit.

(** Specification: an id is used if its recorded size is positive. *)
Definition used (counts : list Z) (id : nat) : Prop := (0 < nth id counts 0)%Z.

(** [f] renumbers the used ids to 0 .. m-1 preserving their order. *)
Definition renumbers (f : nat -> nat) (counts : list Z) (m : nat) : Prop :=
  (forall i j, used counts i -> used counts j -> i < j -> f i < f j) /\
  (forall i, used counts i -> f i < m) /\
  (forall c, c < m -> exists i, used counts i /\ f i = c).

(** number of used ids below [i] *)
Fixpoint rank (counts : list Z) (i : nat) : nat :=
  match i, counts with
  | S i', c :: t => (if (0 <? c)%Z then 1 else 0) + rank t i'
  | _, _ => 0
  end.
Definition nused (counts : list Z) : nat := rank counts (length counts).

Lemma used_lt counts i : used counts i -> i < length counts.
Proof.
  unfold used. intros H. destruct (Nat.lt_ge_cases i (length counts)); auto.
  rewrite nth_overflow in H by lia. lia.
Qed.

Lemma rank_S : forall counts i, i < length counts ->
  rank counts (S i) = rank counts i + (if (0 <? nth i counts 0)%Z then 1 else 0).
Proof.
  induction counts as [|c t IH]; intros i Hi; cbn [length] in Hi; [lia|].
  destruct i as [|i].
  - cbn [rank nth]. destruct t; cbn [rank]; lia.
  - change (rank (c :: t) (S (S i))) with ((if (0 <? c)%Z then 1 else 0) + rank t (S i)).
    rewrite IH by lia. cbn [rank nth]. lia.
Qed.

Lemma rank_mono counts : forall j i, i <= j -> j <= length counts -> rank counts i <= rank counts j.
Proof.
  induction j as [|j IH]; intros i Hi Hj.
  - replace i with 0 by lia. lia.
  - destruct (Nat.eq_dec i (S j)) as [->|]; [lia|]. rewrite rank_S by lia.
    specialize (IH i ltac:(lia) ltac:(lia)). lia.
Qed.

Lemma rank_renumbers counts : renumbers (rank counts) counts (nused counts).
Proof.
  assert (K : forall i, used counts i -> rank counts (S i) = rank counts i + 1).
  { intros i Hi. rewrite rank_S by (apply used_lt; exact Hi).
    unfold used in Hi. destruct (Z.ltb_spec 0 (nth i counts 0%Z)); lia. }
  unfold renumbers. splits.
  - intros i j Hi Hj Hl. pose proof (K i Hi). apply used_lt in Hj.
    pose proof (@rank_mono counts j (S i)). lia.
  - intros i Hi. pose proof (K i Hi). apply used_lt in Hi. unfold nused.
    pose proof (@rank_mono counts (length counts) (S i)). lia.
  - intros c. unfold nused.
    assert (G : forall n, n <= length counts -> c < rank counts n ->
                 exists i, used counts i /\ rank counts i = c).
    { induction n as [|n IH]; intros Hn Hc.
      - destruct counts; cbn in Hc; lia.
      - rewrite rank_S in Hc by lia. destruct (Z.ltb_spec 0 (nth n counts 0%Z)) as [P|P].
        + destruct (Nat.eq_dec c (rank counts n)) as [->|]; [exists n; auto|]. apply IH; lia.
        + apply IH; lia. }
    intros Hc. apply (G (length counts)); auto.
Qed.

Definition keep (counts : list Z) : list Z := filter (fun c => (0 <? c)%Z) counts.

Lemma firstn_snoc {A} (l : list A) d i : i < length l -> firstn (S i) l = firstn i l ++ [nth i l d].
Proof.
  revert i; induction l as [|x t IH]; intros i Hi; cbn [length] in Hi; [lia|].
  destruct i as [|i]; [reflexivity|]. cbn [firstn app nth]. f_equal.
  change (match t with [] => [] | a :: l => a :: firstn i l end) with (firstn (S i) t).
  apply IH. lia.
Qed.

Lemma keep_len : forall counts i, i <= length counts -> length (keep (firstn i counts)) = rank counts i.
Proof.
  unfold keep. induction counts as [|c t IH]; intros [|i] Hi; cbn [length] in Hi; try reflexivity; try lia.
  cbn [firstn filter rank]. destruct (0 <? c)%Z; cbn [length]; rewrite IH by lia; reflexivity.
Qed.

Lemma keep_nth : forall counts i, used counts i -> nth (rank counts i) (keep counts) 0%Z = nth i counts 0%Z.
Proof.
  unfold keep, used. induction counts as [|c t IH]; intros i Hi; [destruct i; cbn in Hi; lia|].
  destruct i as [|i].
  - cbn [nth] in Hi. cbn [rank filter]. destruct (Z.ltb_spec 0 c); [reflexivity|lia].
  - cbn [nth] in *. cbn [rank filter]. destruct (0 <? c)%Z; cbn [Nat.add nth]; auto.
Qed.

Lemma remap_ok counts : Forall (fun c => (0 <= c)%Z) counts ->
  exists im, remap counts ([], im_empty) = Ok (keep counts, im) /\
    (forall i, used counts i -> im i = Some (rank counts i)).
Proof.
  intros Hc. unfold remap.
  pose (P := fun i (st : list Z * idmap) => fst st = keep (firstn i counts) /\
     (forall j, j < i -> used counts j -> snd st j = Some (rank counts j))).
  assert (H : okp (loop (length counts)
    (fun i st => let* c := aget counts i in
       let* _ := assert_ (0 <=? c)%Z in
       if (0 <? c)%Z
       then Ok (fst st ++ [c], im_set (snd st) i (length (fst st)))
       else Ok st) ([], im_empty)) (P (length counts))).
  { apply loop_okp.
    - split; [reflexivity|]. intros; lia.
    - intros i (cs & im) Hi (A & B). cbn [fst snd] in *.
      rewrite (aget_nth counts 0%Z) by lia. cbn [bind].
      assert (Pc : (0 <= nth i counts 0)%Z) by (rewrite Forall_forall in Hc; apply Hc, nth_In; lia).
      destruct (Z.leb_spec 0 (nth i counts 0%Z)) as [_|]; [|lia]. cbn [assert_ bind].
      assert (FS : keep (firstn (S i) counts) = keep (firstn i counts) ++
                   (if (0 <? nth i counts 0)%Z then [nth i counts 0%Z] else [])).
      { rewrite (@firstn_snoc _ counts 0%Z i) by lia. unfold keep. rewrite filter_app. cbn [filter].
        destruct (0 <? nth i counts 0)%Z; reflexivity. }
      destruct (Z.ltb_spec 0 (nth i counts 0%Z)) as [P1|P1]; cbn [okp]; split; cbn [fst snd].
      + rewrite FS, A. reflexivity.
      + intros j Hj Hu. unfold im_set. destruct (Nat.eqb_spec j i) as [->|].
        * rewrite A, keep_len by lia. reflexivity.
        * apply B; [lia|exact Hu].
      + rewrite FS, A, app_nil_r. reflexivity.
      + intros j Hj Hu. apply B; [|exact Hu]. unfold used in Hu.
        destruct (Nat.eq_dec j i) as [->|]; lia. }
  apply okp_iff in H as ((cs & im) & E & A & B). cbn [fst snd] in *.
  exists im. rewrite E, A, firstn_all. split; auto. intros i Hi. apply B; auto. apply used_lt; exact Hi.
Qed.

(** C45.  Whatever the order in which the centroid map is visited: if the sizes
    are not negative, every row is in a used cluster and the centroid map has
    exactly one centroid of [ncol] values for every used id, compaction
    succeeds and the result is the same clustering under an order-preserving
    dense renumbering, with sizes and centroids at the new ids. *)
Theorem c45_compact_partial : forall (T : Type) (tzero : T) nrow ncol iters asg counts centroids,
  length asg = nrow ->
  Forall (fun c => (0 <= c)%Z) counts ->
  (forall o, In o asg -> used counts o) ->
  NoDup (map fst centroids) ->
  (forall id, In id (map fst centroids) <-> used counts id) ->
  (forall id v, In (id, v) centroids -> length v = ncol) ->
  exists r f m, compact tzero nrow ncol iters asg counts centroids = Ok r /\
    renumbers f counts m /\
    cr_nrow r = nrow /\ cr_ncol r = ncol /\ cr_iters r = iters /\ cr_k r = m /\
    cr_asg r = map f asg /\
    (forall i j, i < nrow -> j < nrow ->
       (nth i (cr_asg r) 0 = nth j (cr_asg r) 0 <-> nth i asg 0 = nth j asg 0)) /\
    length (cr_counts r) = m /\
    (forall id, used counts id -> nth (f id) (cr_counts r) 0%Z = nth id counts 0%Z) /\
    length (cr_centroids r) = m * ncol /\
    (forall id v, In (id, v) centroids -> row (cr_centroids r) ncol (f id) = v).
Proof.
  intros T tzero nrow ncol iters asg counts centroids La Hc Ha Nd Hk Hv.
  destruct (remap_ok Hc) as (im & E & Him).
  pose proof (rank_renumbers counts) as Rn.
  set (m := nused counts) in *.
  (* number of centroids *)
  assert (LC : length centroids = m).
  { rewrite <- (map_length fst). destruct Rn as (R1 & R2 & R3).
    assert (INJ : forall i j, used counts i -> used counts j -> rank counts i = rank counts j -> i = j).
    { intros i j Hi Hj He. destruct (Nat.lt_trichotomy i j) as [H|[H|H]]; auto.
      - specialize (R1 i j Hi Hj H). lia.
      - specialize (R1 j i Hj Hi H). lia. }
    assert (N2 : NoDup (map (rank counts) (map fst centroids))).
    { assert (X : forall l, NoDup l -> (forall i, In i l -> used counts i) -> NoDup (map (rank counts) l)).
      { induction 1 as [|x l Hn ND IH]; intros Hu; cbn; constructor.
        - intros Hin. apply in_map_iff in Hin as (y & Ey & Hy). apply Hn.
          rewrite (INJ x y); auto; [apply Hu; left; auto|apply Hu; right; auto].
        - apply IH. intros i Hi; apply Hu; right; auto. }
      apply X; auto. intros i Hi. apply Hk; auto. }
    assert (LE : length (map (rank counts) (map fst centroids)) <= length (seq 0 m)).
    { apply NoDup_incl_length; auto. intros c Hc'. apply in_map_iff in Hc' as (i & <- & Hi).
      apply in_seq. specialize (R2 i (proj1 (Hk i) Hi)). lia. }
    assert (GE : length (seq 0 m) <= length (map (rank counts) (map fst centroids))).
    { apply NoDup_incl_length; [apply seq_NoDup|]. intros c Hc'. apply in_seq in Hc'.
      destruct (R3 c ltac:(lia)) as (i & Hi & <-). apply in_map. apply Hk; auto. }
    rewrite !map_length, seq_length in *. lia. }
  (* the assignment loop *)
  pose (PA := fun i (st : list nat * idmap) => snd st = im /\ length (fst st) = nrow /\
     forall j, j < i -> nth j (fst st) 0 = rank counts (nth j asg 0)).
  assert (HA : okp (loop (length asg)
      (fun i st => let* o := aget asg i in
         let (v, im') := im_ref (snd st) o in
         let* a' := aset (fst st) i v in Ok (a', im')) (repeat 0 nrow, im)) (PA (length asg))).
  { apply loop_okp.
    - unfold PA; cbn [fst snd]. rewrite repeat_length. splits; auto. intros; lia.
    - intros i (a & im') Hi (A & B & C). cbn [fst snd] in *. subst im'.
      rewrite (aget_nth asg 0) by lia. cbn [bind]. unfold im_ref.
      rewrite (Him (nth i asg 0)) by (apply Ha, nth_In; lia).
      rewrite aset_ok by lia. cbn [bind okp]. unfold PA; cbn [fst snd]. rewrite upd_length. splits; auto.
      intros j Hj. rewrite nth_upd by lia. destruct (Nat.eqb_spec j i) as [->|]; auto.
      apply C. lia. }
  apply okp_iff in HA as ((a & im') & EA & A & B & C). cbn [fst snd] in *. subst im'.
  assert (EA' : a = map (rank counts) asg).
  { apply nth_ext with (d := 0) (d' := rank counts 0).
    - rewrite map_length, La, B. reflexivity.
    - intros i Hi. rewrite map_nth. apply C. lia. }
  (* the centroid loop *)
  pose (PC := fun (rest : list (nat * list T)) (st : list T * idmap) => snd st = im /\ length (fst st) = m * ncol /\
     exists done, centroids = done ++ rest /\
     forall id v, In (id, v) done -> row (fst st) ncol (rank counts id) = v).
  assert (HC : okp (for_each centroids
      (fun kv st => let (v, im') := im_ref (snd st) (fst kv) in
         let* cs' := copy_to (snd kv, 0) (length (snd kv)) (fst st) (v * ncol) in
         Ok (cs', im')) (repeat tzero (length centroids * ncol), im)) (PC [])).
  { apply for_each_okp.
    - unfold PC; cbn [fst snd]. rewrite repeat_length, LC. splits; auto. exists []. split; auto.
      intros id v [].
    - intros (id & v) t (cs & im') (I1 & I2 & dn & I3 & I4). cbn [fst snd] in *. subst im'.
      assert (Hin : In (id, v) centroids) by (rewrite I3; apply in_app_iff; right; left; auto).
      assert (Hu : used counts id) by (apply Hk; apply (in_map fst) in Hin; exact Hin).
      pose proof (Hv id v Hin) as Lv. destruct Rn as (R1 & R2 & R3).
      pose proof (R2 id Hu) as Hr. unfold im_ref. rewrite (Him id Hu).
      rewrite copy_to_ok; cbn [fst snd]; [|rewrite I2, Lv; nia|lia]. cbn [bind okp].
      rewrite slice_all.
      assert (Off : rank counts id * ncol + ncol <= m * ncol) by nia.
      unfold PC; cbn [fst snd]. splits; auto.
      + rewrite !app_length, firstn_length, skipn_length, I2, Lv. lia.
      + exists (dn ++ [(id, v)]). split; [rewrite <- app_assoc; exact I3|].
        intros id2 v2 H2. apply in_app_iff in H2.
        assert (RW : forall r, r < m -> row (firstn (rank counts id * ncol) cs ++ v ++
                      skipn (rank counts id * ncol + length v) cs) ncol r =
                    if r =? rank counts id then v else row cs ncol r).
        { intros r Hrm. apply nth_error_ext. intros x. unfold row. rewrite nth_error_slice.
          destruct (Nat.ltb_spec x ncol) as [Hx|Hx].
          - destruct (Nat.eqb_spec r (rank counts id)) as [->|Hne].
            + rewrite nth_error_app2; rewrite firstn_length_le by (rewrite I2; lia); [|lia].
              rewrite nth_error_app1 by lia. f_equal. lia.
            + rewrite nth_error_slice. destruct (Nat.ltb_spec x ncol) as [_|]; [|lia].
              destruct (Nat.lt_ge_cases r (rank counts id)) as [Hlt|Hge].
              * rewrite nth_error_app1 by (rewrite firstn_length_le by (rewrite I2; lia); nia).
                rewrite nth_error_firstn.
                destruct (Nat.ltb_spec (r * ncol + x) (rank counts id * ncol)); [reflexivity|nia].
              * rewrite nth_error_app2; rewrite firstn_length_le by (rewrite I2; lia); [|nia].
                rewrite nth_error_app2 by (rewrite Lv; nia). rewrite nth_error_skipn. f_equal.
                rewrite Lv. assert (rank counts id * ncol + ncol <= r * ncol) by nia. lia.
          - destruct (Nat.eqb_spec r (rank counts id)).
            + symmetry. apply nth_error_None. lia.
            + rewrite nth_error_slice. destruct (Nat.ltb_spec x ncol) as [|_]; [lia|reflexivity]. }
        assert (Hin2 : In (id2, v2) centroids).
        { rewrite I3. apply in_app_iff. destruct H2 as [H2|[H2|[]]]; auto. right; left; auto. }
        assert (Hu2 : used counts id2) by (apply Hk; apply (in_map fst) in Hin2; exact Hin2).
        rewrite RW by (apply R2; exact Hu2).
        destruct H2 as [H2|[H2|[]]].
        * destruct (Nat.eqb_spec (rank counts id2) (rank counts id)) as [He|]; [|apply I4; auto].
          exfalso. rewrite I3, map_app in Nd. cbn [map fst] in Nd.
          apply NoDup_remove_2 in Nd. apply Nd. apply in_app_iff. left.
          assert (id2 = id) as <-.
          { destruct (Nat.lt_trichotomy id2 id) as [L|[L|L]]; auto.
            - specialize (R1 _ _ Hu2 Hu L). lia.
            - specialize (R1 _ _ Hu Hu2 L). lia. }
          apply (in_map fst) in H2. exact H2.
        * injection H2 as <- <-. rewrite Nat.eqb_refl. reflexivity. }
  apply okp_iff in HC as ((cs & im') & EC & I1 & I2 & dn & I3 & I4). cbn [fst snd] in *. subst im'.
  rewrite app_nil_r in I3. subst dn.
  exists (mkCR nrow ncol iters m a (keep counts) cs), (rank counts), m.
  unfold compact. rewrite E. cbn [bind]. rewrite EA. cbn [bind]. rewrite EC. cbn [bind]. rewrite LC.
  cbn [cr_nrow cr_ncol cr_iters cr_k cr_asg cr_counts cr_centroids]. 
  split; [reflexivity|]. split; [exact Rn|]. splits; auto.
  - intros i j Hi Hj. rewrite !C by lia. split; [|congruence]. intros He.
    destruct Rn as (R1 & _).
    pose proof (Ha (nth i asg 0) ltac:(apply nth_In; lia)) as Hui.
    pose proof (Ha (nth j asg 0) ltac:(apply nth_In; lia)) as Huj.
    destruct (Nat.lt_trichotomy (nth i asg 0) (nth j asg 0)) as [L|[L|L]]; auto.
    + specialize (R1 _ _ Hui Huj L). lia.
    + specialize (R1 _ _ Huj Hui L). lia.
  - rewrite <- (firstn_all counts). rewrite keep_len by lia. reflexivity.
  - intros id Hu. apply keep_nth; exact Hu.
Qed.

(** Non-vacuity: ids 1, 4 and 2 in use, centroids visited in another order. *)
Example c45_ex :
  okmap (fun r => (cr_asg r, cr_counts r, cr_centroids r, cr_k r))
    (compact 0 5 2 7 [4; 1; 4; 2; 1] [0; 2; 1; 0; 2]%Z
       [(4, [40; 41]); (1, [10; 11]); (2, [20; 21])])
  = Some ([2; 0; 2; 1; 0], [2; 1; 2]%Z, [10; 11; 20; 21; 40; 41], 3).
Proof. vm_compute. reflexivity. Qed.

(** Without the restriction on the centroid map the property fails: an empty
    child cluster that still has a centroid (id 1, size 0; the hierarchical
    runs store both children of every remaining split, empty or not,
    libman/hclust_coordinator.cpp:409-420) overwrites the centroid of the first
    used cluster, and k counts it. *)
Theorem c45_empty_cluster_refuted :
  exists r, compact 0 2 1 0 [0; 0] [2; 0]%Z [(0, [5]); (1, [9])] = Ok r /\
    cr_asg r = [0; 0] /\ cr_counts r = [2]%Z /\ row (cr_centroids r) 1 0 = [9] /\ cr_k r = 2.
Proof. eexists; split; [vm_compute; reflexivity|]. vm_compute. auto. Qed.

(** A negative size is caught by the assertion. *)
Theorem c45_negative_size_aborts : forall (T : Type) (tzero : T) nrow ncol iters asg counts centroids,
  Exists (fun c => (c < 0)%Z) counts ->
  compact tzero nrow ncol iters asg counts centroids = Err Abort.
Proof.
  intros T tzero nrow ncol iters asg counts centroids H.
  assert (E : remap counts ([], im_empty) = Err Abort).
  { unfold remap, loop. apply Exists_exists in H as (c & Hin & Hneg).
    apply In_nth with (d := 0%Z) in Hin as (n & Hn & En).
    assert (G : forall k i st, n < i + k -> i <= n -> i + k <= length counts ->
      for_ k i (fun i st => let* c := aget counts i in
       let* _ := assert_ (0 <=? c)%Z in
       if (0 <? c)%Z
       then Ok (fst st ++ [c], im_set (snd st) i (length (fst st)))
       else Ok st) st = Err Abort).
    { induction k as [|k IH]; intros i st H1 H2 H3; [lia|]. cbn [for_].
      rewrite (aget_nth counts 0%Z) by lia. cbn [bind].
      destruct (Z.leb_spec 0 (nth i counts 0%Z)) as [P|P]; [|reflexivity]. cbn [assert_ bind].
      assert (i <> n) by (intros ->; lia).
      destruct (0 <? nth i counts 0)%Z; cbn [bind]; apply IH; lia. }
    apply G; lia. }
  unfold compact. rewrite E. reflexivity.
Qed.

(* ------------------------------------------------------------------ *)
(** * C46 *)

Definition decides {A} (eqb : A -> A -> bool) : Prop := forall x y, eqb x y = true <-> x = y.

Lemma v_eq_prefix {A} (eqb : A -> A -> bool) : decides eqb -> forall l r,
  v_eq eqb l r = Ok true <-> exists rest, r = l ++ rest.
Proof.
  intros D. induction l as [|x l IH]; intros r; cbn [v_eq app].
  - split; eauto.
  - destruct r as [|y r].
    + split; [discriminate|]. intros (rest & E); discriminate.
    + destruct (eqb x y) eqn:Exy.
      * apply D in Exy. subst y. rewrite IH. split; intros (rest & E); exists rest; congruence.
      * split; [discriminate|]. intros (rest & E). injection E as -> _.
        assert (eqb x x = true) by (apply D; auto). congruence.
Qed.

Lemma v_eq_same_len {A} (eqb : A -> A -> bool) : decides eqb -> forall l r, length l = length r ->
  exists b, v_eq eqb l r = Ok b /\ (b = true <-> l = r).
Proof.
  intros D. induction l as [|x l IH]; intros [|y r] H; cbn [length] in H; try discriminate.
  - exists true; split; [reflexivity|tauto].
  - cbn [v_eq]. destruct (eqb x y) eqn:Exy.
    + apply D in Exy. subst y. destruct (IH r ltac:(lia)) as (b & E & Hb). exists b. split; auto.
      rewrite Hb. split; congruence.
    + exists false. split; auto. split; [discriminate|]. intros E. injection E as <- _.
      assert (eqb x x = true) by (apply D; auto). congruence.
Qed.

(** C46 restricted to results of one shape: on equally long vectors the
    comparison never goes out of bounds and is true iff assignments, sizes and
    centroids are all equal.  ([decides] holds for doubles without NaN and with
    one zero; with NaNs a result is not even equal to itself.) *)
Theorem c46_same_shape_partial : forall (T : Type) (eqb : T -> T -> bool) (a b : cresult T),
  decides eqb ->
  length (cr_asg a) = length (cr_asg b) -> length (cr_counts a) = length (cr_counts b) ->
  length (cr_centroids a) = length (cr_centroids b) ->
  exists v, cr_eq eqb a b = Ok v /\
    (v = true <-> cr_asg a = cr_asg b /\ cr_counts a = cr_counts b /\ cr_centroids a = cr_centroids b).
Proof.
  intros T eqb a b D L1 L2 L3. unfold cr_eq.
  destruct (@v_eq_same_len _ Nat.eqb ltac:(intros x y; apply Nat.eqb_eq) _ _ L1) as (x & Ex & Hx).
  destruct (@v_eq_same_len _ Z.eqb ltac:(intros u w; apply Z.eqb_eq) _ _ L2) as (y & Ey & Hy).
  destruct (@v_eq_same_len _ eqb D _ _ L3) as (z & Ez & Hz).
  rewrite Ex; cbn [bind]. destruct x; [rewrite Ey; cbn [bind]; destruct y; [rewrite Ez; exists z|exists false]|exists false];
    (split; [reflexivity|]); split; try discriminate; try tauto.
Qed.

(** What a positive answer says in general: the left vectors are prefixes of
    the right ones, nothing more. *)
Theorem c46_equal_means_prefix : forall (T : Type) (eqb : T -> T -> bool) (a b : cresult T),
  decides eqb ->
  (cr_eq eqb a b = Ok true <->
   (exists r, cr_asg b = cr_asg a ++ r) /\ (exists r, cr_counts b = cr_counts a ++ r) /\
   (exists r, cr_centroids b = cr_centroids a ++ r)).
Proof.
  intros T eqb a b D. unfold cr_eq.
  pose proof (@v_eq_prefix _ Nat.eqb ltac:(intros x y; apply Nat.eqb_eq) (cr_asg a) (cr_asg b)) as P1.
  pose proof (@v_eq_prefix _ Z.eqb ltac:(intros x y; apply Z.eqb_eq) (cr_counts a) (cr_counts b)) as P2.
  pose proof (@v_eq_prefix _ eqb D (cr_centroids a) (cr_centroids b)) as P3.
  rewrite <- P1, <- P2, <- P3. split.
  - intros H. apply bind_ok in H as (x & Ex & H). destruct x; [|discriminate].
    apply bind_ok in H as (y & Ey & H). destruct y; [|discriminate]. auto.
  - intros (-> & -> & H). exact H.
Qed.

(** C46 fails in general: results with different row counts, column counts,
    iteration counts, k and contents compare equal, and with the arguments
    swapped the comparison reads out of bounds. *)
Theorem c46_refuted : exists a b : cresult nat,
  cr_eq Nat.eqb a b = Ok true /\ cr_eq Nat.eqb b a = Err UB /\
  cr_nrow a <> cr_nrow b /\ cr_ncol a <> cr_ncol b /\ cr_iters a <> cr_iters b /\ cr_k a <> cr_k b /\
  cr_asg a <> cr_asg b /\ cr_counts a <> cr_counts b /\ cr_centroids a <> cr_centroids b.
Proof.
  exists (mkCR 2 1 3 1 [0; 0] [2]%Z [7]), (mkCR 3 2 9 2 [0; 0; 1] [2; 1]%Z [7; 8; 9; 10]).
  cbn. splits; discriminate || reflexivity.
Qed.

(** The element-wise comparison of arrays of [len] elements ignores the last
    one. *)
Theorem c46_eq_all_ignores_last : forall (A : Type) (eqb : A -> A -> bool) (l : list A) x y,
  decides eqb -> eq_all eqb (l ++ [x]) (l ++ [y]) (length l + 1) = Ok true.
Proof.
  intros A eqb l x y D. unfold eq_all. rewrite Nat.add_1_r, app_length.
  destruct (Nat.leb_spec (length l) (length l + length [x])); [|cbn in *; lia].
  rewrite firstn_exact by reflexivity. apply v_eq_prefix; eauto.
Qed.

(** Mixture results: the comparison also checks the dimensions, so on results
    whose vectors have the lengths of their dimensions it is true iff all is
    equal. *)
Definition gr_shaped {T} (g : gresult T) : Prop :=
  length (gr_means g) = gr_k g * gr_ncol g /\ length (gr_covs g) = gr_k g /\
  Forall (fun c => length c = gr_ncol g * gr_ncol g) (gr_covs g) /\
  length (gr_resp g) = gr_nrow g /\ length (gr_prob g) = gr_k g.

Theorem c46_gmm_partial : forall (T : Type) (eqb : T -> T -> bool) (a b : gresult T),
  decides eqb -> gr_shaped a -> gr_shaped b ->
  gr_k a = gr_k b -> gr_ncol a = gr_ncol b ->
  exists v, gr_eq eqb a b = Ok v /\ (v = true <-> a = b).
Proof.
  intros T eqb a b D (A1 & A2 & A3 & A4 & A5) (B1 & B2 & B3 & B4 & B5) Hk Hc.
  unfold gr_eq.
  assert (CV : exists v, covs_eq eqb (gr_covs a) (gr_covs b) = Ok v /\ (v = true <-> gr_covs a = gr_covs b)).
  { assert (L : length (gr_covs a) = length (gr_covs b)) by congruence. clear A2 B2.
    revert L A3 B3. rewrite <- Hc. generalize (gr_covs a) (gr_covs b) (gr_ncol a * gr_ncol a). clear - D.
    induction l as [|x l IH]; intros [|y r] n L A B; cbn [length] in L; try discriminate.
    - exists true; split; [reflexivity|tauto].
    - inversion A; inversion B; subst. cbn [covs_eq].
      destruct (@v_eq_same_len _ eqb D x y ltac:(congruence)) as (u & Eu & Hu). rewrite Eu. cbn [bind].
      destruct u.
      + destruct (IH r (length x) ltac:(lia)) as (v & Ev & Hv); auto. exists v. split; auto.
        rewrite Hv. assert (x = y) as -> by (apply Hu; auto). split; congruence.
      + exists false. split; auto. split; [discriminate|]. intros E. injection E as E _. apply Hu in E. discriminate. }
  destruct CV as (v & Ev & Hv). rewrite Ev. cbn [bind].
  destruct v; cbn [negb]; [|exists false; split; auto; split; [discriminate|]; intros ->; apply Hv; reflexivity].
  destruct ((gr_nrow a =? gr_nrow b) && (gr_ncol a =? gr_ncol b) &&
            (gr_iters a =? gr_iters b) && (gr_k a =? gr_k b)) eqn:Ed; cbn [negb].
  2:{ exists false. split; auto. split; [discriminate|]. intros ->. rewrite !Nat.eqb_refl in Ed. discriminate. }
  apply andb_prop in Ed as (Ed & E4). apply andb_prop in Ed as (Ed & E3). apply andb_prop in Ed as (E1 & E2).
  apply Nat.eqb_eq in E1, E2, E3, E4.
  destruct (@v_eq_same_len _ eqb D (gr_means a) (gr_means b) ltac:(congruence)) as (x & Ex & Hx).
  destruct (@v_eq_same_len _ eqb D (gr_resp a) (gr_resp b) ltac:(congruence)) as (y & Ey & Hy).
  destruct (@v_eq_same_len _ eqb D (gr_prob a) (gr_prob b) ltac:(congruence)) as (z & Ez & Hz).
  rewrite Ex. cbn [bind]. destruct x; cbn [negb].
  2:{ exists false. split; auto. split; [discriminate|]. intros ->. apply Hx; reflexivity. }
  rewrite Ey. cbn [bind]. destruct y; cbn [negb].
  2:{ exists false. split; auto. split; [discriminate|]. intros ->. apply Hy; reflexivity. }
  rewrite Ez. exists z. split; auto. rewrite Hz. split; [|intros ->; auto].
  intros H. destruct a, b; cbn in *. f_equal; auto; [apply Hx|apply Hv|apply Hy]; reflexivity.
Qed.

(** Non-vacuity: same shape, equal and unequal. *)
Example c46_ex :
  cr_eq Nat.eqb (mkCR 2 1 3 1 [0; 0] [2]%Z [7]) (mkCR 2 1 3 1 [0; 0] [2]%Z [7]) = Ok true /\
  cr_eq Nat.eqb (mkCR 2 1 3 1 [0; 0] [2]%Z [7]) (mkCR 2 1 3 1 [0; 0] [2]%Z [8]) = Ok false /\
  gr_shaped (mkGR 2 1 4 2 [1; 2] [[3]; [4]] [5; 6] [7; 8]).
Proof. cbn. unfold gr_shaped; cbn. repeat (split; auto). Qed.
