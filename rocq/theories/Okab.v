(** Success or an explained assertion failure, and a proof rule for a round of
    workers whose row steps may fail an assertion. *)
From Verif Require Import Base ParModel ParProofs KmeansProofs ParRule.
Set Implicit Arguments.
Unset Strict Implicit.

(** success with [P], or an assertion failure that [E] explains *)
Definition okab {A} (r : res A) (P : A -> Prop) (E : Prop) : Prop :=
  match r with Ok x => P x | Err e => e = Abort /\ E end.
Lemma okab_bind {A B} (r : res A) (f : A -> res B) P E : okab r (fun x => okab (f x) P E) E -> okab (bind r f) P E.
Proof. destruct r; simpl; auto. Qed.
Lemma okab_mono {A} (r : res A) (P Q : A -> Prop) E : okab r P E -> (forall x, P x -> Q x) -> okab r Q E.
Proof. destruct r; simpl; auto. Qed.
Lemma okp_okab {A} (r : res A) P E : okp r P -> okab r P E.
Proof. destruct r; simpl; tauto. Qed.
Lemma loop_okab {St} (P : nat -> St -> Prop) E n body s :
  P 0 s -> (forall j s', j < n -> P j s' -> okab (body j s') (P (S j)) E) -> okab (loop n body s) (P n) E.
Proof.
  intros H0 Hb. unfold loop.
  assert (G : forall n i s, P i s -> (forall j s', i <= j < i + n -> P j s' -> okab (body j s') (P (S j)) E) ->
    okab (for_ n i body s) (P (i + n)) E).
  { clear. induction n as [|n IH]; intros i s HP Hb; cbn [for_].
    - rewrite Nat.add_0_r. exact HP.
    - apply okab_bind. eapply okab_mono; [apply Hb; [lia|exact HP]|].
      intros s' HP'. replace (i + S n) with (S i + n) by lia.
      apply IH; [exact HP'|]. intros j s'' Hj. apply Hb; lia. }
  apply (G n 0 s H0). intros j s' Hj. apply Hb. lia.
Qed.

Lemma for_each_okab {A St} (P : list A -> St -> Prop) E (body : A -> St -> res St) : forall l s,
  P l s -> (forall a t s', P (a :: t) s' -> okab (body a s') (P t) E) -> okab (for_each l body s) (P []) E.
Proof.
  induction l as [|a l IH]; intros s H Hb; cbn [for_each]; [exact H|].
  apply okab_bind. eapply okab_mono; [apply Hb; exact H|]. intros s' H'. apply IH; auto.
Qed.

(** success with [P], or an error that [E] explains *)
Definition oke {A} (r : res A) (P : A -> Prop) (E : err -> Prop) : Prop :=
  match r with Ok x => P x | Err e => E e end.
Lemma oke_bind {A B} (r : res A) (f : A -> res B) P E : oke r (fun x => oke (f x) P E) E -> oke (bind r f) P E.
Proof. destruct r; simpl; auto. Qed.
Lemma oke_mono {A} (r : res A) (P Q : A -> Prop) (E F : err -> Prop) :
  oke r P E -> (forall x, P x -> Q x) -> (forall e, E e -> F e) -> oke r Q F.
Proof. destruct r; simpl; auto. Qed.
Lemma okp_oke {A} (r : res A) P E : okp r P -> oke r P E.
Proof. destruct r; simpl; tauto. Qed.
Lemma loop_oke {St} (P : nat -> St -> Prop) E n body s :
  P 0 s -> (forall j s', j < n -> P j s' -> oke (body j s') (P (S j)) E) -> oke (loop n body s) (P n) E.
Proof.
  intros H0 Hb. unfold loop.
  assert (G : forall n i s, P i s -> (forall j s', i <= j < i + n -> P j s' -> oke (body j s') (P (S j)) E) ->
    oke (for_ n i body s) (P (i + n)) E).
  { clear. induction n as [|n IH]; intros i s HP Hb; cbn [for_].
    - rewrite Nat.add_0_r. exact HP.
    - apply oke_bind. eapply oke_mono; [apply Hb; [lia|exact HP]| |auto].
      intros s' HP'. replace (i + S n) with (S i + n) by lia.
      apply IH; [exact HP'|]. intros j s'' Hj. apply Hb; lia. }
  apply (G n 0 s H0). intros j s' Hj. apply Hb. lia.
Qed.

Section Rule.
Variables C L : Type.
Variable dc : C.
Variable step : nat -> nat -> L -> C -> res (L * C).
Variable ranges : list (nat * nat).
Variables (cells0 : list C) (locs0 : list L).
Hypothesis Htile : ntiles 0 (length cells0) ranges.
Hypothesis Hlen : length locs0 = length ranges.
Variable P : nat -> L -> list (nat * C * C) -> Prop.
Variable E : Prop.
Hypothesis Hinit : forall t l0, nth_error locs0 t = Some l0 -> P t l0 [].
Hypothesis Hstep : forall t s n r l tr, nth_error ranges t = Some (s, n) -> r < n -> s + r < length cells0 ->
  length tr = r -> P t l tr ->
  okab (step t r l (nth (s + r) cells0 dc)) (fun lc => P t (fst lc) (tr ++ [(s + r, nth (s + r) cells0 dc, snd lc)])) E.

Lemma seq_rows_okab t s n l0 : nth_error ranges t = Some (s, n) -> nth_error locs0 t = Some l0 ->
  forall m, m <= n -> okab (seq_rows step t 0 l0 (slice cells0 s m)) (fun lc => length (snd lc) = m /\
    P t (fst lc) (map (fun i => (s + i, nth (s + i) cells0 dc, nth i (snd lc) dc)) (seq 0 m))) E.
Proof.
  intros Er E0. destruct (ntiles_in _ _ _ Htile t Er) as (_ & Hb).
  induction m as [|m IH]; intros Hm.
  - cbn. split; auto.
  - specialize (IH ltac:(lia)).
    destruct (nth_error cells0 (s + m)) as [c|] eqn:Ec; [|apply nth_error_None in Ec; lia].
    rewrite (slice_S_last cells0 s m Ec), seq_rows_app. apply okab_bind.
    eapply okab_mono; [exact IH|]. intros (l & cs) (Lc & HP). cbn [fst snd] in *.
    assert (Ls : length (slice cells0 s m) = m) by (apply slice_length; lia).
    rewrite Ls. cbn [plus seq_rows].
    assert (Ecn : nth (s + m) cells0 dc = c) by (apply nth_error_nth; exact Ec).
    pose proof (@Hstep t s n m l _ Er ltac:(lia) ltac:(lia) ltac:(rewrite map_length, seq_length; reflexivity) HP) as Hs.
    rewrite Ecn in Hs. apply okab_bind. apply okab_bind. eapply okab_mono; [exact Hs|]. intros (l' & c') HP'. cbn [fst snd bind okab] in *.
    rewrite <- Ecn in HP'.
    split.
    + rewrite app_length. simpl. lia.
    + rewrite seq_S, map_app. cbn [map plus].
      replace (nth m (cs ++ [c']) dc) with c' by (rewrite app_nth2 by lia; rewrite Lc, Nat.sub_diag; reflexivity).
      assert (Em : map (fun i => (s + i, nth (s + i) cells0 dc, nth i (cs ++ [c']) dc)) (seq 0 m)
                 = map (fun i => (s + i, nth (s + i) cells0 dc, nth i cs dc)) (seq 0 m)).
      { apply map_ext_in. intros i Hi. apply in_seq in Hi. rewrite app_nth1 by lia. reflexivity. }
      rewrite Em. exact HP'.
Qed.

Lemma par_run_okab sched : complete ranges sched ->
  okab (par_run step ranges sched cells0 locs0) (fun lc => length (fst lc) = length ranges /\ length (snd lc) = length cells0 /\
    forall t s n, nth_error ranges t = Some (s, n) ->
      exists l, nth_error (fst lc) t = Some l /\ P t l (triples dc cells0 (snd lc) s n)) E.
Proof.
  intros Hc. pose proof (@par_run_spec _ _ step ranges cells0 locs0 Htile Hlen sched Hc) as H.
  destruct (par_run step ranges sched cells0 locs0) as [[locs cells]|e]; cbn [okab fst snd].
  - destruct H as (L1 & L2 & H). splits; auto.
    intros t s n Er. destruct (nth_error locs0 t) as [l0|] eqn:E0.
    2:{ apply nth_error_None in E0. assert (t < length ranges) by (apply nth_error_Some; congruence). lia. }
    destruct (H t s n l0 Er E0) as (l & El & Es). exists l. split; [exact El|].
    pose proof (@seq_rows_okab t s n l0 Er E0 n ltac:(lia)) as K. rewrite Es in K. destruct K as (Lc & HP). cbn [fst snd] in *.
    assert (Em : triples dc cells0 cells s n = map (fun i => (s + i, nth (s + i) cells0 dc, nth i (slice cells s n) dc)) (seq 0 n)).
    { unfold triples. rewrite <- (Nat.add_0_r s) at 1.
      assert (G : forall o, map (fun r => (r, nth r cells0 dc, nth r cells dc)) (seq (s + o) n)
               = map (fun i => (s + i, nth (s + i) cells0 dc, nth (s + i) cells dc)) (seq o n)).
      { clear. induction n as [|n IH]; intros o; [reflexivity|]. cbn [seq map]. f_equal.
        rewrite <- Nat.add_succ_r. apply IH. }
      rewrite G. apply map_ext_in. intros i Hi. apply in_seq in Hi. rewrite nth_slice' by lia. reflexivity. }
    rewrite Em. exact HP.
  - destruct H as (t & s & n & l0 & Er & E0 & Es).
    pose proof (@seq_rows_okab t s n l0 Er E0 n ltac:(lia)) as K. rewrite Es in K. exact K.
Qed.
End Rule.
