(** C43: cluster ids of the hierarchical algorithms are unique among the live
    clusters. *)
From Coq Require Import Permutation.
From Verif Require Import Base ContainersModel.
Set Implicit Arguments.
Unset Strict Implicit.
Local Open Scope Z_scope.

(** Every history of a generator whose clients return an id only while it is
    theirs: the ids in use are the root's 0 (libman/hclust_coordinator.cpp
    starts every row in cluster 0) and those handed out and not yet returned. *)
Inductive history : idgen -> list Z -> Prop :=
| h_start : history idgen_create [0]
| h_split : forall g live l r g',
    history g live ->
    (Z.of_nat (length live) + 2 <= 2 ^ 32) ->     (* two more ids exist at all *)
    id_split g = ((l, r), g') ->
    history g' (l :: r :: live)
| h_reclaim : forall g before id after,
    history g (before ++ id :: after) ->
    history (id_reclaim g id) (before ++ after).

Definition inv (g : idgen) (live : list Z) : Prop :=
  NoDup (id_rec g ++ live) /\
  (forall x, In x (id_rec g ++ live) -> 0 <= x <= id_max g) /\
  Z.of_nat (length (id_rec g ++ live)) = id_max g + 1 /\
  0 <= id_max g < 2 ^ 32.

Lemma one_inv g live x g' : inv g live -> Z.of_nat (length live) + 1 <= 2 ^ 32 ->
  id_one g = (x, g') -> inv g' (x :: live) /\ ~ In x live.
Proof.
  intros (ND & B & L & M) Hl E. unfold id_one in E.
  destruct (id_rec g) as [|y t] eqn:Er.
  - cbn [app] in *. unfold w32 in E.
    rewrite Z.mod_small in E by lia. injection E as <- <-.
    assert (NI : ~ In (id_max g + 1) live) by (intros H; apply B in H; lia).
    split; [|exact NI]. unfold inv; cbn [id_rec id_max app]. splits; try lia.
    + constructor; auto.
    + intros z [<-|Hz]; [lia|]. apply B in Hz. lia.
    + cbn [length]. lia.
  - injection E as <- <-. cbn [app] in *. inversion ND as [|? ? Hn ND']; subst.
    split.
    + unfold inv; cbn [id_rec id_max]. splits; try lia.
      * apply (Permutation_NoDup (l := y :: t ++ live)); [|constructor; auto].
        apply Permutation_middle.
      * intros z Hz. apply B. apply in_app_iff in Hz. cbn [In] in *. rewrite in_app_iff. tauto.
      * rewrite app_length in *. cbn [length] in *. rewrite app_length in L. lia.
    + intros H. apply Hn. apply in_app_iff. auto.
Qed.

Lemma split_inv g live l r g' : inv g live -> Z.of_nat (length live) + 2 <= 2 ^ 32 ->
  id_split g = ((l, r), g') ->
  inv g' (r :: l :: live) /\ ~ In l live /\ ~ In r live /\ l <> r.
Proof.
  intros H Hl E. unfold id_split in E.
  destruct (id_one g) as (l1 & g1) eqn:E1. destruct (id_one g1) as (r1 & g2) eqn:E2.
  injection E as -> -> ->.
  destruct (one_inv H ltac:(lia) E1) as (I1 & N1).
  destruct (one_inv I1 ltac:(cbn [length]; lia) E2) as (I2 & N2). cbn [In] in N2.
  splits; auto; intros X; subst; tauto.
Qed.

Lemma inv_perm g live live' : Permutation live live' -> inv g live -> inv g live'.
Proof.
  intros P (ND & B & L & M).
  assert (P' : Permutation (id_rec g ++ live) (id_rec g ++ live')) by (apply Permutation_app_head; auto).
  unfold inv. splits; try lia.
  - eapply Permutation_NoDup; eauto.
  - intros x Hx. apply B. eapply Permutation_in; [apply Permutation_sym; eauto|exact Hx].
  - rewrite <- (Permutation_length P'). exact L.
Qed.

Lemma history_inv g live : history g live -> inv g live.
Proof.
  induction 1 as [|g live l r g' H IH Hl E|g b id a H IH].
  - unfold inv; cbn. splits; try lia. constructor; auto; constructor.
  - destruct (split_inv IH Hl E) as (I & _). eapply inv_perm; [|exact I]. constructor.
  - destruct IH as (ND & B & L & M). unfold inv; cbn [id_reclaim id_rec id_max].
    assert (P : Permutation (id_rec g ++ b ++ id :: a) ((id :: id_rec g) ++ b ++ a)).
    { cbn [app]. rewrite !app_assoc. apply Permutation_sym, Permutation_middle. }
    splits; try lia.
    + eapply Permutation_NoDup; eauto.
    + intros x Hx. apply B. eapply Permutation_in; [apply Permutation_sym; exact P|exact Hx].
    + rewrite <- (Permutation_length P). exact L.
Qed.

(** C43: in every such history, the two ids of the next split are different from
    each other and from every id in use, and all ids in use are distinct.  The
    only bound is that the ids in use fit in an [unsigned]; the number of
    requests and returns is unlimited. *)
Theorem c43_ids_unique : forall g live l r g',
  history g live -> Z.of_nat (length live) + 2 <= 2 ^ 32 ->
  id_split g = ((l, r), g') ->
  ~ In l live /\ ~ In r live /\ l <> r /\ NoDup live /\
  0 <= l < 2 ^ 32 /\ 0 <= r < 2 ^ 32.
Proof.
  intros g live l r g' H Hl E. pose proof (history_inv H) as I.
  destruct (split_inv I Hl E) as ((ND & B & L & M) & N1 & N2 & N3).
  destruct I as (ND0 & _).
  assert (In l (id_rec g' ++ r :: l :: live)) by (apply in_app_iff; cbn; auto).
  assert (In r (id_rec g' ++ r :: l :: live)) by (apply in_app_iff; cbn; auto).
  splits; auto.
  - clear - ND0. induction (id_rec g) as [|x t IH]; [exact ND0|]. inversion ND0; auto.
  - apply B in H0. lia.
  - apply B in H0. lia.
  - apply B in H1. lia.
  - apply B in H1. lia.
Qed.

(** The ids stay dense: as many ids exist as were ever in use at once, so a
    vector indexed by ids needs no more slots than that. *)
Theorem c43_ids_dense : forall g live, history g live ->
  forall x, In x live -> 0 <= x <= id_max g /\
  Z.of_nat (length (id_rec g) + length live) = id_max g + 1.
Proof.
  intros g live H x Hx. destruct (history_inv H) as (_ & B & L & _).
  rewrite app_length in L. split; [|exact L]. apply B. apply in_app_iff; auto.
Qed.

(** Without the discipline the guarantee is gone: an id returned twice is handed
    out twice by one split. *)
Theorem c43_double_return_breaks :
  exists g, id_split (id_reclaim (id_reclaim g 1) 1) = ((1, 1), g).
Proof. exists (mkIdgen 2 []). reflexivity. Qed.

(** Non-vacuity: split the root, split child 1, return 1's children 4 and 3,
    split child 2 (which gets 3 and 4 again). *)
Example c43_ex : exists g, history g [3; 4; 1; 2; 0] /\ id_max g = 4.
Proof.
  pose proof (@h_split _ _ _ _ _ h_start ltac:(cbn; lia) eq_refl) as H1. cbn in H1.
  pose proof (@h_split _ _ _ _ _ H1 ltac:(cbn; lia) eq_refl) as H2. cbn in H2.
  pose proof (@h_reclaim _ [3] 4 [1; 2; 0] H2) as H3. cbn in H3.
  pose proof (@h_reclaim _ [] 3 [1; 2; 0] H3) as H4. cbn in H4.
  pose proof (@h_split _ _ _ _ _ H4 ltac:(cbn; lia) eq_refl) as H5. cbn in H5.
  eexists; split; [exact H5|reflexivity].
Qed.
