(** A round of workers computes the same thing under every complete schedule. *)
From Verif Require Import Base ParModel ParProofs KmeansProofs ParRule.
Set Implicit Arguments.
Unset Strict Implicit.

Lemma nth_error_ext {A} : forall (l l' : list A), length l = length l' ->
  (forall t a b, nth_error l t = Some a -> nth_error l' t = Some b -> a = b) -> l = l'.
Proof.
  induction l as [|a l IH]; intros [|b l'] HL H; try discriminate; auto. f_equal.
  - apply (H 0); reflexivity.
  - apply IH; [injection HL; auto|]. intros t x y. apply (H (S t)).
Qed.

Lemma slices_cover {C} : forall ranges lo hi (l l' : list C), ntiles lo hi ranges -> length l = hi -> length l' = hi ->
  (forall t s n, nth_error ranges t = Some (s, n) -> slice l s n = slice l' s n) -> skipn lo l = skipn lo l'.
Proof.
  induction ranges as [|(s & n) rs IH]; intros lo hi l l' Ht L1 L2 H; cbn [ntiles] in Ht.
  - subst lo. rewrite !skipn_all2 by lia. reflexivity.
  - destruct Ht as (-> & Ht). pose proof (ntiles_le _ _ _ Ht).
    specialize (IH _ _ l l' Ht L1 L2 (fun t s n => H (S t) s n)). specialize (H 0 _ _ eq_refl). unfold slice in H.
    assert (SS : forall x : list C, skipn n (skipn lo x) = skipn (lo + n) x).
    { clear. induction lo as [|lo IH]; intros x; [reflexivity|]. destruct x as [|y x]; [rewrite !skipn_nil; reflexivity|]. apply IH. }
    rewrite <- (firstn_skipn n (skipn lo l)), <- (firstn_skipn n (skipn lo l')), H, !SS, IH. reflexivity.
Qed.

Section Det.
Variables C L : Type.
Variable step : nat -> nat -> L -> C -> res (L * C).
Variable ranges : list (nat * nat).
Variables (cells0 : list C) (locs0 : list L).
Hypothesis Htile : ntiles 0 (length cells0) ranges.
Hypothesis Hlen : length locs0 = length ranges.

Lemma par_run_det sched1 sched2 x : complete ranges sched1 -> complete ranges sched2 ->
  par_run step ranges sched1 cells0 locs0 = Ok x -> par_run step ranges sched2 cells0 locs0 = Ok x.
Proof.
  intros H1 H2 E. pose proof (@par_run_spec _ _ step ranges cells0 locs0 Htile Hlen sched1 H1) as P1. rewrite E in P1.
  pose proof (@par_run_spec _ _ step ranges cells0 locs0 Htile Hlen sched2 H2) as P2.
  destruct x as (locs & cells). destruct P1 as (L1 & L2 & P1).
  destruct (par_run step ranges sched2 cells0 locs0) as [(locs' & cells')|e].
  - destruct P2 as (L1' & L2' & P2). 
    assert (Q : forall t s n, nth_error ranges t = Some (s, n) -> exists l, nth_error locs t = Some l /\ nth_error locs' t = Some l /\ slice cells s n = slice cells' s n).
    { intros t s n Er. destruct (nth_error locs0 t) as [l0|] eqn:E0.
      2:{ apply nth_error_None in E0. assert (t < length ranges) by (apply nth_error_Some; congruence). lia. }
      destruct (P1 t s n l0 Er E0) as (l & El & Es). destruct (P2 t s n l0 Er E0) as (l' & El' & Es').
      rewrite Es in Es'. injection Es' as <- Hs. eauto. }
    assert (El : locs' = locs).
    { apply nth_error_ext; [congruence|]. intros t a b Ea Eb.
      destruct (nth_error ranges t) as [(s & n)|] eqn:Er.
      - destruct (Q t s n Er) as (l & X1 & X2 & _). congruence.
      - apply nth_error_None in Er. assert (t < length locs') by (apply nth_error_Some; congruence). lia. }
    assert (Ec : cells' = cells).
    { apply (@slices_cover C ranges 0 (length cells0) cells' cells Htile L2' L2).
      intros t s n Er. destruct (Q t s n Er) as (_ & _ & _ & X). symmetry. exact X. }
    subst. reflexivity.
  - exfalso. destruct P2 as (t & s & n & l0 & Er & E0 & Es). destruct (P1 t s n l0 Er E0) as (l & _ & Es'). congruence.
Qed.
End Det.
