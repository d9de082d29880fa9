(** Proofs about the cluster containers: every operation is described by what it
    does to each cluster (centroid row, member count, completeness flag). *)
From Verif Require Import Base Num Spec MatLemmas DistModel ClustersModel.
From Verif Require Export ClustersView.
From Coq Require Import ZifyBool.
Set Implicit Arguments.

Section Proofs.
Variable N : Num.
Notation T := (car N).
Notation clusters := (clusters N).
Notation cwf := (@cwf N).
Notation crow := (@crow N).
Notation cnum := (@cnum N).
Notation cdone := (@cdone N).
Notation cel := (@cel N).
Notation shaped := (@shaped N).

Lemma crow_length c i : cwf c -> i < c_nclust c -> length (crow c i) = c_ncol c.
Proof. intros (H & _) Hi. eapply row_length; eauto. Qed.

Lemma clusters_ext k d (c c' : clusters) : shaped k d c -> shaped k d c' ->
  (forall i, i < k -> cel c i = cel c' i) -> c = c'.
Proof.
  intros (Hk & Hd & Hm & Hv & Hc) (Hk' & Hd' & Hm' & Hv' & Hc') H.
  destruct c as [d1 k1 v1 b1 m1], c' as [d2 k2 v2 b2 m2].
  unfold cel, crow, cnum, cdone in *; simpl in *; subst k1 k2 d1 d2.
  assert (E1 : v1 = v2).
  { apply (nth_ext v1 v2 0%Z 0%Z); [congruence|]. intros i Hi.
    rewrite Hv in Hi. specialize (H i Hi). congruence. }
  assert (E2 : b1 = b2).
  { apply (nth_ext b1 b2 false false); [congruence|]. intros i Hi.
    rewrite Hc in Hi. specialize (H i Hi). congruence. }
  assert (E3 : m1 = m2).
  { apply (@rows_ext _ m1 m2 _ _ Hm Hm'). intros i Hi. specialize (H i Hi). congruence. }
  subst; reflexivity.
Qed.

Lemma shaped_create k d : shaped k d (clusters_create N k d).
Proof.
  unfold shaped, cwf, clusters_create; simpl. rewrite !repeat_length. repeat split; lia.
Qed.

Lemma row_repeat {A} (x : A) n m k i : i < k -> n = k * m -> row (repeat x n) m i = repeat x m.
Proof.
  intros Hi ->. apply nth_error_ext. intros j. unfold row. rewrite nth_error_slice.
  assert (Hr : forall a b, nth_error (repeat x a) b = if b <? a then Some x else None).
  { induction a as [|a IH]; intros [|b]; simpl; auto. rewrite IH. reflexivity. }
  rewrite !Hr. destruct (Nat.ltb_spec j m); auto.
  destruct (Nat.ltb_spec (i * m + j) (k * m)); [reflexivity|nia].
Qed.

Lemma nth_repeat_d {A} (x d : A) n i : i < n -> nth i (repeat x n) d = x.
Proof. revert i; induction n as [|n IH]; intros [|i] H; simpl; auto; try lia. apply IH; lia. Qed.

Lemma cel_create k d i : i < k -> cel (clusters_create N k d) i = (repeat (nzero N) d, 0%Z, false).
Proof.
  intros Hi. unfold cel, crow, cnum, cdone, clusters_create; simpl.
  rewrite (@row_repeat _ _ _ _ k) by lia.
  rewrite !nth_repeat_d by lia. reflexivity.
Qed.

Lemma map_const_repeat {A B} (y : B) (l : list A) : map (fun _ => y) l = repeat y (length l).
Proof. induction l; simpl; congruence. Qed.

Lemma clear_create k d c : shaped k d c -> clear c = clusters_create N k d.
Proof.
  intros (Hk & Hd & Hm & Hv & Hc). unfold clear, clusters_create.
  rewrite !map_const_repeat, Hm, Hv, Hc, Hk, Hd. f_equal. f_equal. lia.
Qed.

(* ------------------------------------------------------------------ *)
(** * Members *)

Lemma add_member_ok k d c arr x idx :
  shaped k d c -> idx < k -> length x = d -> slice (fst arr) (snd arr) d = x ->
  exists c', add_member c arr idx = Ok c' /\ shaped k d c' /\
    forall j, j < k -> cel c' j = if j =? idx then (map2 (nadd N) (crow c idx) x, (cnum c idx + 1)%Z, cdone c idx)
                                  else cel c j.
Proof.
  intros (Hk & Hd & Hwf) Hi Hx Hs. pose proof Hwf as (Hm & Hv & Hc). subst k d.
  unfold add_member.
  rewrite (@loop_urow2 _ _ (c_means c) x (c_ncol c) idx (c_nclust c) (nadd N)); auto.
  2:{ intros i a y z Hin La Hy Hz. rewrite (proj2 (pget_ok _ _ _) (slice_nth_error _ _ _ _ Hs Hz)).
      cbn [bind]. rewrite (amod_ok _ _ _ Hy). reflexivity. }
  cbn [bind]. rewrite (@amod_nth _ _ _ _ 0%Z) by lia. cbn [bind].
  assert (Hlen : length (map2 (nadd N) (row (c_means c) (c_ncol c) idx) x) = c_ncol c).
  { rewrite map2_length, Hx. rewrite (@row_length _ _ _ _ _ Hm Hi). lia. }
  eexists; split; [reflexivity|]. split.
  - unfold shaped, cwf; simpl. rewrite upd_length. repeat split; auto.
    rewrite (@urow_length _ _ _ (c_nclust c)); auto.
  - intros j Hj. unfold cel, crow, cnum, cdone; simpl.
    rewrite (@row_urow _ _ _ (c_nclust c)) by auto. rewrite nth_upd by lia.
    destruct (Nat.eqb_spec j idx) as [->|]; reflexivity.
Qed.

Lemma remove_member_ok k d c arr x idx :
  shaped k d c -> idx < k -> length x = d -> slice (fst arr) (snd arr) d = x ->
  exists c', remove_member c arr idx = Ok c' /\ shaped k d c' /\
    forall j, j < k -> cel c' j = if j =? idx then (map2 (nsub N) (crow c idx) x, (cnum c idx - 1)%Z, cdone c idx)
                                  else cel c j.
Proof.
  intros (Hk & Hd & Hwf) Hi Hx Hs. pose proof Hwf as (Hm & Hv & Hc). subst k d.
  unfold remove_member.
  rewrite (@loop_urow2 _ _ (c_means c) x (c_ncol c) idx (c_nclust c) (nsub N)); auto.
  2:{ intros i a y z Hin La Hy Hz. rewrite (proj2 (pget_ok _ _ _) (slice_nth_error _ _ _ _ Hs Hz)).
      cbn [bind]. rewrite (amod_ok _ _ _ Hy). reflexivity. }
  cbn [bind]. rewrite (@amod_nth _ _ _ _ 0%Z) by lia. cbn [bind].
  assert (Hlen : length (map2 (nsub N) (row (c_means c) (c_ncol c) idx) x) = c_ncol c).
  { rewrite map2_length, Hx. rewrite (@row_length _ _ _ _ _ Hm Hi). lia. }
  eexists; split; [reflexivity|]. split.
  - unfold shaped, cwf; simpl. rewrite upd_length. repeat split; auto.
    rewrite (@urow_length _ _ _ (c_nclust c)); auto.
  - intros j Hj. unfold cel, crow, cnum, cdone; simpl.
    rewrite (@row_urow _ _ _ (c_nclust c)) by auto. rewrite nth_upd by lia.
    destruct (Nat.eqb_spec j idx) as [->|]; reflexivity.
Qed.

(* ------------------------------------------------------------------ *)
(** * Finalize / unfinalize *)

Definition fin1 (e : list T * Z * bool) : list T * Z * bool :=
  let '(r, n, b) := e in
  if b then e else (if (1 <? n)%Z then map (fun x => ndiv N x (nofZ N n)) r else r, n, true).

Definition unfin1 (e : list T * Z * bool) : list T * Z * bool :=
  let '(r, n, b) := e in
  if b then (if (n <? 2)%Z then r else map (fun x => nmul N x (nofZ N n)) r, n, false) else e.

Lemma finalize_ok k d c idx :
  shaped k d c -> idx < k ->
  exists c', finalize c idx = Ok c' /\ shaped k d c' /\
    forall j, j < k -> cel c' j = if j =? idx then fin1 (cel c j) else cel c j.
Proof.
  intros (Hk & Hd & Hwf) Hi. pose proof Hwf as (Hm & Hv & Hc). subst k d.
  unfold finalize. rewrite (@aget_nth _ _ _ false) by lia. cbn [bind].
  destruct (nth idx (c_complete c) false) eqn:Eb.
  - exists c. split; [reflexivity|]. split; [repeat split; auto|].
    intros j Hj. destruct (Nat.eqb_spec j idx) as [->|]; [|reflexivity].
    unfold fin1, cel. unfold cdone at 2. rewrite Eb. reflexivity.
  - rewrite (@aget_nth _ _ _ 0%Z) by lia. cbn [bind].
    set (n := nth idx (c_members c) 0%Z).
    set (f := fun r : list T => if (1 <? n)%Z then map (fun x => ndiv N x (nofZ N n)) r else r).
    assert (Hlen : length (f (row (c_means c) (c_ncol c) idx)) = c_ncol c).
    { unfold f. destruct (1 <? n)%Z; rewrite ?map_length; eapply row_length; eauto. }
    assert (E : (if (1 <? n)%Z
       then loop (c_ncol c) (fun i m => amod m (idx * c_ncol c + i) (fun x => ndiv N x (nofZ N n))) (c_means c)
       else Ok (c_means c)) = Ok (urow (c_ncol c) idx f (c_means c))).
    { unfold f. destruct (1 <? n)%Z.
      - apply (@loop_urow1 _ _ _ _ (c_nclust c)); auto.
        intros i a x Hin La Hx. rewrite (amod_ok _ _ _ Hx). reflexivity.
      - f_equal. symmetry. apply urow_id. reflexivity. }
    rewrite E. cbn [bind]. rewrite aset_ok by lia. cbn [bind].
    eexists; split; [reflexivity|]. split.
    + unfold shaped, cwf; simpl. rewrite upd_length. repeat split; auto.
      rewrite (@urow_length _ _ _ (c_nclust c)); auto.
    + intros j Hj. unfold cel, crow, cnum, cdone; simpl.
      rewrite (@row_urow _ _ _ (c_nclust c)) by auto. rewrite nth_upd by lia.
      destruct (Nat.eqb_spec j idx) as [->|]; [|reflexivity].
      rewrite Eb. reflexivity.
Qed.

Lemma unfinalize_ok k d c idx :
  shaped k d c -> idx < k ->
  exists c', unfinalize c idx = Ok c' /\ shaped k d c' /\
    forall j, j < k -> cel c' j = if j =? idx then unfin1 (cel c j) else cel c j.
Proof.
  intros (Hk & Hd & Hwf) Hi. pose proof Hwf as (Hm & Hv & Hc). subst k d.
  unfold unfinalize. rewrite (@aget_nth _ _ _ false) by lia. cbn [bind].
  destruct (nth idx (c_complete c) false) eqn:Eb; cbn [negb].
  2:{ exists c. split; [reflexivity|]. split; [repeat split; auto|].
    intros j Hj. destruct (Nat.eqb_spec j idx) as [->|]; [|reflexivity].
    unfold unfin1, cel. unfold cdone at 2. rewrite Eb. reflexivity. }
  rewrite aset_ok by lia. cbn [bind with_complete c_members c_means c_ncol].
  rewrite (@aget_nth _ _ _ 0%Z) by lia. cbn [bind].
  set (n := nth idx (c_members c) 0%Z).
  set (f := fun r : list T => if (n <? 2)%Z then r else map (fun x => nmul N x (nofZ N n)) r).
  assert (Hlen : length (f (row (c_means c) (c_ncol c) idx)) = c_ncol c).
  { unfold f. destruct (n <? 2)%Z; rewrite ?map_length; eapply row_length; eauto. }
  exists (mkClusters N (c_ncol c) (c_nclust c) (c_members c) (upd (c_complete c) idx false)
            (urow (c_ncol c) idx f (c_means c))).
  split; [|split].
  - unfold f. destruct (n <? 2)%Z.
    + rewrite urow_id by reflexivity. reflexivity.
    + rewrite (@loop_urow1 _ _ (c_ncol c) idx (c_nclust c) (fun x => nmul N x (nofZ N n))); auto.
      intros i a x Hin La Hx. rewrite (Nat.mul_comm (c_ncol c) idx). rewrite (amod_ok _ _ _ Hx). reflexivity.
  - unfold shaped, cwf; simpl. rewrite upd_length. repeat split; auto.
    rewrite (@urow_length _ _ _ (c_nclust c)); auto.
  - intros j Hj. unfold cel, crow, cnum, cdone; simpl.
    rewrite (@row_urow _ _ _ (c_nclust c)) by auto. rewrite nth_upd by lia.
    destruct (Nat.eqb_spec j idx) as [->|]; [|reflexivity].
    rewrite Eb. reflexivity.
Qed.

(** a loop applying a one-cluster operation to every cluster *)
Lemma loop_clusters k d (op : clusters -> nat -> res clusters) g c :
  (forall c i, shaped k d c -> i < k -> exists c', op c i = Ok c' /\ shaped k d c' /\
     forall j, j < k -> cel c' j = if j =? i then g (cel c j) else cel c j) ->
  shaped k d c ->
  exists c', loop (c_nclust c) (fun i c' => op c' i) c = Ok c' /\ shaped k d c' /\
    forall j, j < k -> cel c' j = g (cel c j).
Proof.
  intros Hop Hs. pose proof Hs as (Hk & _). rewrite Hk.
  assert (H : okp (loop k (fun i c' => op c' i) c)
     (fun c' => shaped k d c' /\ forall j, j < k -> cel c' j = if j <? k then g (cel c j) else cel c j)).
  { apply (@loop_okp _ (fun n c' => shaped k d c' /\
        forall j, j < k -> cel c' j = if j <? n then g (cel c j) else cel c j)).
    - split; auto.
    - intros i c' Hi (Hs' & H'). destruct (Hop c' i Hs' Hi) as (c'' & E & Hs'' & H'').
      rewrite E. simpl. split; auto. intros j Hj. rewrite H'' by auto. rewrite H' by auto.
      destruct (Nat.eqb_spec j i) as [->|].
      + rewrite Nat.ltb_irrefl. destruct (Nat.ltb_spec i (S i)); [reflexivity|lia].
      + destruct (Nat.ltb_spec j i); destruct (Nat.ltb_spec j (S i)); auto; lia. }
  apply okp_iff in H as (c' & E & Hs' & H'). exists c'. split; [exact E|]. split; [exact Hs'|].
  intros j Hj. rewrite H' by auto. destruct (Nat.ltb_spec j k); [reflexivity|lia].
Qed.

Lemma finalize_all_ok k d c : shaped k d c ->
  exists c', finalize_all c = Ok c' /\ shaped k d c' /\ forall j, j < k -> cel c' j = fin1 (cel c j).
Proof. intros Hs. apply loop_clusters; [|exact Hs]. intros; apply finalize_ok; auto. Qed.

Lemma unfinalize_all_ok k d c : shaped k d c ->
  exists c', unfinalize_all c = Ok c' /\ shaped k d c' /\ forall j, j < k -> cel c' j = unfin1 (cel c j).
Proof. intros Hs. apply loop_clusters; [|exact Hs]. intros; apply unfinalize_ok; auto. Qed.

(* ------------------------------------------------------------------ *)
(** * Merging *)

(** the C loop [for i < n: a\[i\] = h(a\[i\], v\[i\])] *)
Lemma loop_map2 {A B} (l : list A) (v : list B) (h : A -> B -> A) n body :
  length l = n -> n <= length v ->
  (forall i a x y, i < n -> length a = n -> nth_error a i = Some x -> nth_error v i = Some y ->
     body i a = Ok (upd a i (h x y))) ->
  loop n body l = Ok (map2 h l v).
Proof.
  intros Hl Hv Hb. destruct v as [|v0 v'] eqn:Ev.
  - simpl in Hv. assert (n = 0) by lia. subst. destruct l; [reflexivity|discriminate].
  - rewrite <- Ev in *. clear Ev v'.
    rewrite (@loop_mapr _ l 0 n (fun i x => h x (nth i v v0))); [|lia|].
    2:{ intros i a x Hin La Hx. apply Hb; auto; try congruence. apply nth_error_nth'. lia. }
    f_equal. apply nth_error_ext. intros j. rewrite nth_error_mapr by lia. rewrite nth_error_map2.
    simpl. destruct (Nat.ltb_spec j n).
    + destruct (nth_error l j); [|reflexivity]. simpl.
      rewrite (nth_error_nth' v v0) by lia. rewrite Nat.sub_0_r. reflexivity.
    + rewrite (proj2 (nth_error_None l j)) by lia. reflexivity.
Qed.

Lemma row_map2 {A B C} (h : A -> B -> C) (l : list A) (v : list B) ncol i :
  row (map2 h l v) ncol i = map2 h (row l ncol i) (row v ncol i).
Proof.
  apply nth_error_ext. intros j. unfold row. rewrite nth_error_map2, !nth_error_slice, nth_error_map2.
  destruct (j <? ncol); reflexivity.
Qed.

Lemma members_loop (c rhs : clusters) n :
  length (c_members c) = n -> length (c_members rhs) = n ->
  loop n (fun idx c' => let* m := aget (c_members rhs) idx in num_members_peq c' m idx) c
  = Ok (with_members c (map2 Z.add (c_members c) (c_members rhs))).
Proof.
  intros H1 H2.
  assert (G : forall m, loop m (fun idx c' => let* z := aget (c_members rhs) idx in num_members_peq c' z idx) c
     = bind (loop m (fun i v => let* z := aget (c_members rhs) i in amod v i (fun x => x + z)%Z) (c_members c))
            (fun v => Ok (with_members c v))).
  { induction m as [|m IH].
    - cbn. destruct c; reflexivity.
    - rewrite !loop_S, IH.
      destruct (loop m _ (c_members c)) as [v|e]; cbn [bind]; [|reflexivity].
      destruct (aget (c_members rhs) m) as [z|e]; cbn [bind]; [|reflexivity].
      unfold num_members_peq. cbn [with_members c_members].
      destruct (amod v m (fun x => x + z)%Z); reflexivity. }
  rewrite G. rewrite (@loop_map2 _ _ (c_members c) (c_members rhs) Z.add n); auto; [lia|].
  intros i a x y Hi La Hx Hy. rewrite (proj2 (aget_ok _ _ _) Hy). cbn [bind].
  rewrite (amod_ok _ _ _ Hx). reflexivity.
Qed.

Lemma peq_ok k d c rhs : shaped k d c -> shaped k d rhs ->
  exists c', peq c rhs = Ok c' /\ shaped k d c' /\
    forall j, j < k -> cel c' j = (map2 (nadd N) (crow c j) (crow rhs j), (cnum c j + cnum rhs j)%Z, cdone c j).
Proof.
  intros (Hk & Hd & Hm & Hv & Hc) (Hk' & Hd' & Hm' & Hv' & Hc'). unfold peq.
  replace (length (c_means rhs) =? length (c_means c)) with true
    by (symmetry; apply Nat.eqb_eq; congruence).
  cbn [assert_ bind].
  rewrite (@loop_map2 _ _ (c_means c) (c_means rhs) (nadd N)); auto; [|lia|].
  2:{ intros i a x y Hi La Hx Hy. rewrite (proj2 (aget_ok _ _ _) Hy). cbn [bind].
      rewrite (amod_ok _ _ _ Hx). reflexivity. }
  cbn [bind]. rewrite (@members_loop _ rhs (c_nclust c)); [|simpl; lia|lia].
  eexists; split; [reflexivity|]. split.
  - unfold shaped, cwf; simpl. rewrite !map2_length. repeat split; auto; lia.
  - intros j Hj. unfold cel, crow, cnum, cdone; simpl. rewrite row_map2, Hd, Hd'.
    rewrite (@nth_map2 _ _ _ Z.add _ _ _ 0%Z 0%Z 0%Z) by lia. reflexivity.
Qed.

Lemma peq_size_mismatch (c rhs : clusters) :
  length (c_means c) <> length (c_means rhs) -> peq c rhs = Err Abort.
Proof.
  intros H. unfold peq. destruct (Nat.eqb_spec (length (c_means rhs)) (length (c_means c))); [congruence|].
  reflexivity.
Qed.

Lemma means_peq_ok k d c other x : shaped k d c ->
  length x = k * d -> slice (fst other) (snd other) (k * d) = x ->
  exists c', means_peq c other = Ok c' /\ shaped k d c' /\
    forall j, j < k -> cel c' j = (map2 (nadd N) (crow c j) (row x d j), cnum c j, cdone c j).
Proof.
  intros (Hk & Hd & Hm & Hv & Hc) Hx Hs. unfold means_peq.
  rewrite (@loop_map2 _ _ (c_means c) x (nadd N)); auto; [|subst k d; lia|].
  2:{ intros i a y z Hi La Hy Hz. rewrite (proj2 (pget_ok _ _ _) (slice_nth_error _ _ _ _ Hs Hz)). cbn [bind].
      rewrite (amod_ok _ _ _ Hy). reflexivity. }
  cbn [bind]. eexists; split; [reflexivity|]. split.
  - unfold shaped, cwf; simpl. rewrite !map2_length. repeat split; auto. subst k d; lia.
  - intros j Hj. unfold cel, crow, cnum, cdone; simpl. rewrite row_map2, Hd. reflexivity.
Qed.

Lemma num_members_v_peq_ok k d c other x : shaped k d c ->
  length x = k -> slice (fst other) (snd other) k = x ->
  exists c', num_members_v_peq c other = Ok c' /\ shaped k d c' /\
    forall j, j < k -> cel c' j = (crow c j, (cnum c j + nth j x 0)%Z, cdone c j).
Proof.
  intros (Hk & Hd & Hm & Hv & Hc) Hx Hs. unfold num_members_v_peq.
  rewrite (@loop_map2 _ _ (c_members c) x Z.add); auto; [|lia|].
  2:{ intros i a y z Hi La Hy Hz. rewrite (proj2 (pget_ok _ _ _) (slice_nth_error _ _ _ _ Hs Hz)). cbn [bind].
      rewrite (amod_ok _ _ _ Hy). reflexivity. }
  cbn [bind]. eexists; split; [reflexivity|]. split.
  - unfold shaped, cwf; simpl. rewrite !map2_length. repeat split; auto. lia.
  - intros j Hj. unfold cel, crow, cnum, cdone; simpl.
    rewrite (@nth_map2 _ _ _ Z.add _ _ _ 0%Z 0%Z 0%Z) by lia. reflexivity.
Qed.

(* ------------------------------------------------------------------ *)
(** * Setting centroids *)

Lemma set_mean_at_ok k d c arr x idx :
  shaped k d c -> idx < k -> length x = d -> slice (fst arr) (snd arr) d = x ->
  exists c', set_mean_at c arr idx = Ok c' /\ shaped k d c' /\
    forall j, j < k -> cel c' j = if j =? idx then (x, cnum c idx, cdone c idx) else cel c j.
Proof.
  intros (Hk & Hd & Hwf) Hi Hx Hs. pose proof Hwf as (Hm & Hv & Hc). subst k d.
  unfold set_mean_at, copy_to.
  rewrite (@loop_urow2 _ _ (c_means c) x (c_ncol c) idx (c_nclust c) (fun _ y => y)); auto.
  2:{ intros i a y z Hin La Hy Hz. rewrite (proj2 (pget_ok _ _ _) (slice_nth_error _ _ _ _ Hs Hz)).
      cbn [bind]. apply aset_ok. apply nth_error_Some. congruence. }
  assert (E : map2 (fun _ y : T => y) (row (c_means c) (c_ncol c) idx) x = x).
  { pose proof (@row_length _ _ _ _ _ Hm Hi) as L.
    revert Hx L. generalize (c_ncol c) at 1 3. generalize (row (c_means c) (c_ncol c) idx).
    clear. revert x. intros x l. revert x. induction l as [|a l IH]; intros [|b x] n H1 H2; simpl in *; auto; try lia.
    f_equal. destruct n; [lia|]. apply (IH x n); lia. }
  cbn [bind]. eexists; split; [reflexivity|]. split.
  - unfold shaped, cwf; simpl. repeat split; auto.
    rewrite (@urow_length _ _ _ (c_nclust c)); auto. rewrite E. exact Hx.
  - intros j Hj. unfold cel, crow, cnum, cdone; simpl.
    rewrite (@row_urow _ _ _ (c_nclust c)); auto; [|rewrite E; exact Hx].
    destruct (Nat.eqb_spec j idx) as [->|]; [rewrite E|]; reflexivity.
Qed.

Lemma set_mean_all_ok k d c arr x :
  shaped k d c -> snd arr + k * d <= length (fst arr) -> slice (fst arr) (snd arr) (k * d) = x ->
  set_mean_all c arr = Ok (with_means c x).
Proof.
  intros (Hk & Hd & Hm & Hv & Hc) Hb Hs. unfold set_mean_all.
  replace (length (c_means c) =? c_ncol c * c_nclust c) with true by (symmetry; apply Nat.eqb_eq; lia).
  replace (c_ncol c * c_nclust c) with (k * d) by (subst; lia).
  rewrite copy_to_ok by lia. cbn [bind firstn app]. rewrite Hs.
  rewrite skipn_all2 by lia. rewrite app_nil_r. reflexivity.
Qed.

Lemma create_means_ok k d arr x :
  snd arr + k * d <= length (fst arr) -> slice (fst arr) (snd arr) (k * d) = x ->
  clusters_create_means N k d arr = Ok (mkClusters N d k (repeat 0%Z k) (repeat true k) x).
Proof.
  intros Hb Hs. unfold clusters_create_means, set_mean_all. cbn [c_ncol c_nclust c_means length].
  set (m := if 0 =? d * k then [] else resize_to N (d * k) (nzero N) []).
  assert (Hm : length m = k * d).
  { unfold m, resize_to. cbn [length]. destruct (Nat.eqb_spec 0 (d * k)); simpl; [lia|].
    destruct (Nat.leb_spec (d * k) 0); [lia|]. simpl. rewrite repeat_length. lia. }
  replace (d * k) with (k * d) in * by lia.
  rewrite copy_to_ok by lia. cbn [bind firstn app]. rewrite Hs.
  rewrite skipn_all2 by lia. rewrite app_nil_r. reflexivity.
Qed.

Lemma scale_centroid_ok k d c f arr x idx :
  shaped k d c -> idx < k -> length x = d -> slice (fst arr) (snd arr) d = x ->
  exists c', scale_centroid c f idx arr = Ok c' /\ shaped k d c' /\
    forall j, j < k -> cel c' j =
      if j =? idx then (map2 (fun a b => nadd N (nmul N (nsub N (none N) f) a) (nmul N f b)) (crow c idx) x,
                        cnum c idx, cdone c idx) else cel c j.
Proof.
  intros (Hk & Hd & Hwf) Hi Hx Hs. pose proof Hwf as (Hm & Hv & Hc). subst k d.
  unfold scale_centroid. destruct (Nat.ltb_spec idx (c_nclust c)); [|lia]. cbn [assert_ bind].
  rewrite (@loop_urow2 _ _ (c_means c) x (c_ncol c) idx (c_nclust c)
            (fun a b => nadd N (nmul N (nsub N (none N) f) a) (nmul N f b))); auto.
  2:{ intros i a y z Hin La Hy Hz. rewrite (proj2 (aget_ok _ _ _) Hy). cbn [bind].
      rewrite (proj2 (pget_ok _ _ _) (slice_nth_error _ _ _ _ Hs Hz)).
      cbn [bind]. rewrite (Nat.mul_comm (c_ncol c) idx). apply aset_ok. apply nth_error_Some. congruence. }
  assert (Hlen : length (map2 (fun a b => nadd N (nmul N (nsub N (none N) f) a) (nmul N f b))
                   (row (c_means c) (c_ncol c) idx) x) = c_ncol c).
  { rewrite map2_length, Hx. rewrite (@row_length _ _ _ _ _ Hm Hi). lia. }
  cbn [bind]. eexists; split; [reflexivity|]. split.
  - unfold shaped, cwf; simpl. repeat split; auto.
    rewrite (@urow_length _ _ _ (c_nclust c)); auto.
  - intros j Hj. unfold cel, crow, cnum, cdone; simpl.
    rewrite (@row_urow _ _ _ (c_nclust c)) by auto.
    destruct (Nat.eqb_spec j idx) as [->|]; reflexivity.
Qed.

(* ------------------------------------------------------------------ *)
(** * Growing container *)

Lemma nth_app_repeat {A} (l : list A) d n i : nth i (l ++ repeat d n) d = nth i l d.
Proof.
  destruct (Nat.lt_ge_cases i (length l)).
  - rewrite app_nth1 by auto. reflexivity.
  - rewrite app_nth2 by auto. rewrite (nth_overflow l) by auto.
    destruct (Nat.lt_ge_cases (i - length l) n).
    + apply nth_repeat_d; auto.
    + apply nth_overflow. rewrite repeat_length; auto.
Qed.

Lemma row_app_l {A} (l l' : list A) n ncol i :
  length l = n * ncol -> i < n -> row (l ++ l') ncol i = row l ncol i.
Proof.
  intros H Hi. apply nth_error_ext. intros j. unfold row. rewrite !nth_error_slice.
  destruct (Nat.ltb_spec j ncol); auto. apply nth_error_app1. nia.
Qed.

Lemma row_app_r {A} (l l' : list A) n ncol i :
  length l = n * ncol -> n <= i -> row (l ++ l') ncol i = row l' ncol (i - n).
Proof.
  intros H Hi. apply nth_error_ext. intros j. unfold row. rewrite !nth_error_slice.
  destruct (Nat.ltb_spec j ncol); auto. rewrite nth_error_app2 by nia. f_equal. nia.
Qed.

Lemma sparse_resize_ok k d c idx : shaped k d c -> k <= idx ->
  exists c', sparse_resize c idx = Ok c' /\ shaped (S idx) d c' /\
    (forall j, j < k -> cel c' j = cel c j) /\
    (forall j, k <= j <= idx -> cel c' j = (repeat (nzero N) d, 0%Z, false)).
Proof.
  intros (Hk & Hd & Hm & Hv & Hc) Hi. unfold sparse_resize.
  rewrite (proj2 (Nat.eqb_eq (c_nclust c) (length (c_members c)))) by lia.
  rewrite (proj2 (Nat.eqb_eq (length (c_members c)) (length (c_complete c)))) by lia.
  rewrite (proj2 (Nat.eqb_eq (length (c_means c)) (c_nclust c * c_ncol c))) by lia.
  cbn [assert_ bind]. destruct (Nat.ltb_spec (idx + 1) (c_nclust c)); [lia|].
  eexists; split; [reflexivity|]. split; [|split].
  - unfold shaped, cwf; simpl. rewrite !app_length, !repeat_length. splits; try lia. nia.
  - intros j Hj. unfold cel, crow, cnum, cdone; simpl.
    rewrite !nth_app_repeat. rewrite (@row_app_l _ _ _ (c_nclust c)) by lia. reflexivity.
  - intros j Hj. unfold cel, crow, cnum, cdone; simpl.
    rewrite !nth_app_repeat. rewrite !(nth_overflow) by lia.
    rewrite (@row_app_r _ _ _ (c_nclust c)) by lia.
    rewrite (@row_repeat _ _ _ _ (S idx - c_nclust c)); [subst; reflexivity|lia|nia].
Qed.

(** the clusters of a container of [k] clusters seen as an infinite family *)
Definition grown (k d : nat) (c : clusters) (j : nat) : list T * Z * bool :=
  if j <? k then cel c j else (repeat (nzero N) d, 0%Z, false).

Lemma sparse_add_member_ok k d c arr x idx :
  shaped k d c -> length x = d -> slice (fst arr) (snd arr) d = x ->
  exists c', sparse_add_member c arr idx = Ok c' /\ shaped (Nat.max k (S idx)) d c' /\
    forall j, j < Nat.max k (S idx) -> cel c' j =
      if j =? idx then let '(r, n, b) := grown k d c idx in (map2 (nadd N) r x, (n + 1)%Z, b) else grown k d c j.
Proof.
  intros Hs Hx Hsl. unfold sparse_add_member. pose proof Hs as (Hk & _). rewrite Hk.
  destruct (Nat.leb_spec k idx) as [Hge|Hlt].
  - destruct (@sparse_resize_ok k d c idx Hs Hge) as (c1 & E & Hs1 & H1 & H2). rewrite E. cbn [bind].
    destruct (@add_member_ok (S idx) d c1 arr x idx Hs1 ltac:(lia) Hx Hsl) as (c2 & E2 & Hs2 & H3).
    exists c2. split; [exact E2|]. replace (Nat.max k (S idx)) with (S idx) by lia. split; [exact Hs2|].
    intros j Hj. rewrite H3 by lia. destruct (Nat.eqb_spec j idx) as [->|Hne].
    + unfold grown. destruct (Nat.ltb_spec idx k); [lia|].
      specialize (H2 idx ltac:(lia)). unfold cel in H2. injection H2 as -> -> ->. reflexivity.
    + unfold grown. destruct (Nat.ltb_spec j k); [apply H1; auto|apply H2; lia].
  - cbn [bind]. destruct (@add_member_ok k d c arr x idx Hs Hlt Hx Hsl) as (c2 & E2 & Hs2 & H3).
    exists c2. split; [exact E2|]. replace (Nat.max k (S idx)) with k by lia. split; [exact Hs2|].
    intros j Hj. rewrite H3 by lia. unfold grown.
    destruct (Nat.eqb_spec j idx) as [->|Hne].
    + destruct (Nat.ltb_spec idx k); [|lia]. reflexivity.
    + destruct (Nat.ltb_spec j k); [reflexivity|lia].
Qed.

End Proofs.
