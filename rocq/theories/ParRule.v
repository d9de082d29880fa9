(** A proof rule for a round of workers: what each worker has done with the rows
    processed so far is described by the list of (row, old entry, new entry). *)
From Verif Require Import Base ParModel ParProofs KmeansProofs.
Set Implicit Arguments.

Section Rule.
Variables C L : Type.
Variable dc : C.

Definition triples (cells cells' : list C) (s n : nat) : list (nat * C * C) :=
  map (fun r => (r, nth r cells dc, nth r cells' dc)) (seq s n).

Lemma triples_length cells cells' s n : length (triples cells cells' s n) = n.
Proof. unfold triples. rewrite map_length, seq_length. reflexivity. Qed.

Lemma triples_S cells cells' s n : triples cells cells' s (S n) =
  triples cells cells' s n ++ [(s + n, nth (s + n) cells dc, nth (s + n) cells' dc)].
Proof. unfold triples. rewrite seq_S, map_app. reflexivity. Qed.

Lemma triples_concat cells cells' : forall rs lo hi, ntiles lo hi rs ->
  concat (map (fun sn => triples cells cells' (fst sn) (snd sn)) rs) = triples cells cells' lo (hi - lo).
Proof.
  induction rs as [|[s n] rs IH]; intros lo hi H; cbn [ntiles map concat fst snd] in *.
  - subst. rewrite Nat.sub_diag. reflexivity.
  - destruct H as (-> & H). pose proof (ntiles_le _ _ _ H). rewrite (IH _ _ H). unfold triples.
    rewrite <- map_app, <- seq_app. f_equal. f_equal. lia.
Qed.

Lemma nth_slice' (l : list C) o n i : i < n -> nth i (slice l o n) dc = nth (o + i) l dc.
Proof. intros H. apply nth_slice. exact H. Qed.

Section Step.
Variable step : nat -> nat -> L -> C -> res (L * C).
Variable ranges : list (nat * nat).
Variables (cells0 : list C) (locs0 : list L).
Hypothesis Htile : ntiles 0 (length cells0) ranges.
Hypothesis Hlen : length locs0 = length ranges.
Variable P : nat -> L -> list (nat * C * C) -> Prop.
Hypothesis Hinit : forall t l0, nth_error locs0 t = Some l0 -> P t l0 [].
Hypothesis Hstep : forall t s n r l tr, nth_error ranges t = Some (s, n) -> r < n -> s + r < length cells0 ->
  length tr = r -> P t l tr ->
  exists l' c', step t r l (nth (s + r) cells0 dc) = Ok (l', c') /\ P t l' (tr ++ [(s + r, nth (s + r) cells0 dc, c')]).

Lemma seq_rows_rule t s n l0 : nth_error ranges t = Some (s, n) -> nth_error locs0 t = Some l0 ->
  forall m, m <= n -> exists l cs, seq_rows step t 0 l0 (slice cells0 s m) = Ok (l, cs) /\ length cs = m /\
    P t l (map (fun i => (s + i, nth (s + i) cells0 dc, nth i cs dc)) (seq 0 m)).
Proof.
  intros Er E0. destruct (ntiles_in _ _ _ Htile t Er) as (_ & Hb).
  induction m as [|m IH]; intros Hm.
  - exists l0, []. cbn. split; auto.
  - destruct (IH ltac:(lia)) as (l & cs & Es & Lc & HP).
    destruct (nth_error cells0 (s + m)) as [c|] eqn:Ec; [|apply nth_error_None in Ec; lia].
    rewrite (slice_S_last cells0 s m Ec), seq_rows_app, Es. cbn [bind fst snd].
    assert (Ls : length (slice cells0 s m) = m) by (apply slice_length; lia).
    rewrite Ls. cbn [plus seq_rows].
    destruct (@Hstep t s n m l _ Er ltac:(lia) ltac:(lia) ltac:(rewrite map_length, seq_length; reflexivity) HP)
      as (l' & c' & Est & HP').
    assert (Ecn : nth (s + m) cells0 dc = c) by (apply nth_error_nth; exact Ec).
    rewrite Ecn in Est. rewrite Est. cbn [bind fst snd].
    exists l', (cs ++ [c']). splits; auto.
    + rewrite app_length. simpl. lia.
    + rewrite seq_S, map_app. cbn [map plus].
      replace (nth m (cs ++ [c']) dc) with c' by (rewrite app_nth2 by lia; rewrite Lc, Nat.sub_diag; reflexivity).
      assert (Em : map (fun i => (s + i, nth (s + i) cells0 dc, nth i (cs ++ [c']) dc)) (seq 0 m)
                 = map (fun i => (s + i, nth (s + i) cells0 dc, nth i cs dc)) (seq 0 m)).
      { apply map_ext_in. intros i Hi. apply in_seq in Hi. rewrite app_nth1 by lia. reflexivity. }
      rewrite Em. exact HP'.
Qed.

Lemma par_run_rule sched : complete ranges sched ->
  exists locs cells, par_run step ranges sched cells0 locs0 = Ok (locs, cells) /\
    length locs = length ranges /\ length cells = length cells0 /\
    forall t s n, nth_error ranges t = Some (s, n) ->
      exists l, nth_error locs t = Some l /\ P t l (triples cells0 cells s n).
Proof.
  intros Hc. pose proof (@par_run_spec _ _ step ranges cells0 locs0 Htile Hlen sched Hc) as H.
  destruct (par_run step ranges sched cells0 locs0) as [[locs cells]|e].
  - destruct H as (L1 & L2 & H). exists locs, cells. splits; auto.
    intros t s n Er. destruct (nth_error locs0 t) as [l0|] eqn:E0.
    2:{ apply nth_error_None in E0. assert (t < length ranges) by (apply nth_error_Some; congruence). lia. }
    destruct (H t s n l0 Er E0) as (l & El & Es). exists l. split; [exact El|].
    destruct (@seq_rows_rule t s n l0 Er E0 n ltac:(lia)) as (l' & cs & Es' & Lc & HP).
    rewrite Es in Es'. injection Es' as <- <-.
    assert (Em : triples cells0 cells s n = map (fun i => (s + i, nth (s + i) cells0 dc, nth i (slice cells s n) dc)) (seq 0 n)).
    { unfold triples. rewrite <- (Nat.add_0_r s) at 1.
      assert (G : forall o, map (fun r => (r, nth r cells0 dc, nth r cells dc)) (seq (s + o) n)
               = map (fun i => (s + i, nth (s + i) cells0 dc, nth (s + i) cells dc)) (seq o n)).
      { clear. induction n as [|n IH]; intros o; [reflexivity|]. cbn [seq map]. f_equal.
        rewrite <- Nat.add_succ_r. apply IH. }
      rewrite G. apply map_ext_in. intros i Hi. apply in_seq in Hi. rewrite nth_slice' by lia. reflexivity. }
    rewrite Em. exact HP.
  - exfalso. destruct H as (t & s & n & l0 & Er & E0 & Es).
    destruct (@seq_rows_rule t s n l0 Er E0 n ltac:(lia)) as (l' & cs & Es' & _). congruence.
Qed.

End Step.

(** a property of every processed row, collected over all workers *)
Lemma rule_rows (cells cells' : list C) ranges (Q : nat * C * C -> Prop) : ntiles 0 (length cells) ranges ->
  (forall t s n, nth_error ranges t = Some (s, n) -> Forall Q (triples cells cells' s n)) ->
  forall r, r < length cells -> Q (r, nth r cells dc, nth r cells' dc).
Proof.
  intros Ht H r Hr.
  assert (F : Forall Q (concat (map (fun sn => triples cells cells' (fst sn) (snd sn)) ranges))).
  { apply Forall_concat. rewrite Forall_map, Forall_forall. intros [s n] Hin.
    apply In_nth_error in Hin as (t & Et). exact (H t s n Et). }
  rewrite (@triples_concat _ _ _ _ _ Ht), Nat.sub_0_r in F. rewrite Forall_forall in F. apply F.
  unfold triples. apply in_map_iff. exists r. split; auto. apply in_seq. lia.
Qed.

End Rule.
