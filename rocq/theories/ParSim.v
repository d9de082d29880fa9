(** A round of workers seen through a function of the shared entries. *)
From Verif Require Import Base Spec ParModel ParProofs.
Set Implicit Arguments.
Unset Strict Implicit.

Section Sim.
Variables C C' L : Type.
Variable f : C' -> C.
Variable step : nat -> nat -> L -> C -> res (L * C).
Variable step' : nat -> nat -> L -> C' -> res (L * C').
Variable ranges : list (nat * nat).

(** when every row step commutes with [f], so does the round *)
Lemma par_run_map sched (cells' : list C') locs :
  (forall t s n r l c', nth_error ranges t = Some (s, n) -> r < n -> s + r < length cells' ->
     step t r l (f c') = match step' t r l c' with Ok (l', c'') => Ok (l', f c'') | Err e => Err e end) ->
  par_run step ranges sched (map f cells') locs =
  match par_run step' ranges sched cells' locs with Ok (ls, cs) => Ok (ls, map f cs) | Err e => Err e end.
Proof.
  intros Hst. unfold par_run.
  set (st0 := map (fun l : L => (0, l)) locs). clearbody st0.
  assert (G : forall sched cells lc, length cells = length cells' ->
    for_each sched (par_step step ranges) (mkP (map f cells) lc) =
    match for_each sched (par_step step' ranges) (mkP cells lc) with
    | Ok st => Ok (mkP (map f (ps_cells st)) (ps_loc st)) | Err e => Err e end).
  { induction sched0 as [|t sched0 IH]; intros cells lc Hl; [reflexivity|]. cbn [for_each].
    assert (E : par_step step ranges t (mkP (map f cells) lc) =
      match par_step step' ranges t (mkP cells lc) with
      | Ok st => Ok (mkP (map f (ps_cells st)) (ps_loc st)) | Err e => Err e end /\
      match par_step step' ranges t (mkP cells lc) with Ok st => length (ps_cells st) = length cells' | _ => True end).
    { unfold par_step. cbn [ps_cells ps_loc]. destruct (nth_error ranges t) as [[s n]|] eqn:Er; [|split; auto].
      destruct (nth_error lc t) as [[r l]|]; [|split; auto]. destruct (Nat.ltb_spec r n); [|split; auto].
      unfold aget. rewrite nth_error_map. destruct (nth_error cells (s + r)) as [c'|] eqn:Ec; cbn [option_map bind]; [|split; auto].
      assert (Hb : s + r < length cells) by (apply nth_error_Some; congruence).
      rewrite (Hst t s n r l c' Er H) by lia.
      destruct (step' t r l c') as [[l' c'']|e]; cbn [bind]; [|split; auto]. cbn [fst snd].
      rewrite !aset_ok by (rewrite ?map_length; exact Hb). cbn [bind ps_cells ps_loc].
      split; [|rewrite upd_length; exact Hl]. f_equal. f_equal.
      apply nth_error_ext. intros i. rewrite nth_error_map, !nth_error_upd, map_length, nth_error_map.
      destruct (i =? s + r); [|reflexivity]. destruct (s + r <? length cells); reflexivity. }
    destruct E as (-> & Hl'). destruct (par_step step' ranges t (mkP cells lc)) as [[cs ls]|e]; cbn [bind]; [|reflexivity].
    cbn [ps_cells ps_loc] in *. apply IH. exact Hl'. }
  rewrite G by reflexivity. destruct (for_each sched (par_step step' ranges) (mkP cells' st0)) as [st|e]; reflexivity.
Qed.
End Sim.

(** every row's new entry comes from a row step on its old entry *)
Section Rows.
Variables C L : Type.
Variable step : nat -> nat -> L -> C -> res (L * C).
Variable ranges : list (nat * nat).

Lemma seq_rows_rows t : forall cells r l l' cells', seq_rows step t r l cells = Ok (l', cells') ->
  length cells' = length cells /\ forall i c, nth_error cells i = Some c -> exists l1 l2 c', step t (r + i) l1 c = Ok (l2, c') /\ nth_error cells' i = Some c'.
Proof.
  induction cells as [|c cells IH]; intros r l l' cells' H; cbn [seq_rows] in H.
  - injection H as <- <-. split; auto. intros [|i] c Hi; discriminate.
  - destruct (step t r l c) as [[l1 c1]|] eqn:E; cbn [bind] in H; [|discriminate]. cbn [fst snd] in H.
    destruct (seq_rows step t (S r) l1 cells) as [[l2 cs]|] eqn:E2; cbn [bind] in H; [|discriminate].
    cbn [fst snd] in H. injection H as <- <-. destruct (IH _ _ _ _ E2) as (Hl & Hr). split; [cbn [length]; lia|].
    intros [|i] x Hi; cbn [nth_error] in *.
    + injection Hi as <-. rewrite Nat.add_0_r. eauto 6.
    + destruct (Hr i x Hi) as (a & b & c' & Es & En). replace (r + S i) with (S r + i) by lia. eauto 6.
Qed.

Lemma par_run_rows sched (cells : list C) locs ls cs : ntiles 0 (length cells) ranges -> length locs = length ranges ->
  complete ranges sched -> par_run step ranges sched cells locs = Ok (ls, cs) ->
  length cs = length cells /\
  forall i c, nth_error cells i = Some c -> exists t s n r l1 l2 c', nth_error ranges t = Some (s, n) /\ r < n /\ i = s + r /\
    step t r l1 c = Ok (l2, c') /\ nth_error cs i = Some c'.
Proof.
  intros Ht Hl Hc E. pose proof (@par_run_spec _ _ step ranges cells locs Ht Hl sched Hc) as H. rewrite E in H.
  destruct H as (L1 & L2 & H). split; [exact L2|]. intros i c Hi.
  assert (Hb : i < length cells) by (apply nth_error_Some; congruence).
  assert (Own : forall rs lo hi, ntiles lo hi rs -> lo <= i < hi -> exists t s n, nth_error rs t = Some (s, n) /\ s <= i < s + n).
  { induction rs as [|[s n] rs IH]; intros lo hi Hn Hlo; cbn [ntiles] in Hn.
    - lia.
    - destruct Hn as (-> & Hn). destruct (Nat.lt_ge_cases i (lo + n)) as [X|X].
      + exists 0, lo, n. split; [reflexivity|lia].
      + destruct (IH (lo + n) hi Hn ltac:(lia)) as (t & s & m & Ht' & Hb'). exists (S t), s, m. auto. }
  destruct (Own ranges 0 (length cells) Ht ltac:(lia)) as (t & s & n & Er & Hb').
  destruct (nth_error locs t) as [l0|] eqn:E0.
  2:{ apply nth_error_None in E0. assert (t < length ranges) by (apply nth_error_Some; congruence). lia. }
  destruct (H t s n l0 Er E0) as (l & _ & Es). destruct (seq_rows_rows Es) as (_ & Hr).
  destruct (ntiles_in _ _ _ Ht t Er) as (_ & Hsn).
  destruct (Hr (i - s) c) as (l1 & l2 & c' & Est & En).
  { rewrite nth_error_slice. destruct (Nat.ltb_spec (i - s) n); [|lia]. replace (s + (i - s)) with i by lia. exact Hi. }
  exists t, s, n, (i - s), l1, l2, c'. splits; auto; try lia.
  rewrite nth_error_slice in En. destruct (Nat.ltb_spec (i - s) n); [|lia]. replace (s + (i - s)) with i in En by lia. exact En.
Qed.
End Rows.
