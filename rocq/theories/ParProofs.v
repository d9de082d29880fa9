(** Interleaved workers: every complete schedule gives the sequential result. *)
From Verif Require Import Base Spec ParModel.
Set Implicit Arguments.

Section Par.
Variables C L : Type.
Variable step : nat -> nat -> L -> C -> res (L * C).

(** worker [t] alone over the row entries [cs], starting at local row [r] *)
Fixpoint seq_rows (t r : nat) (l : L) (cs : list C) : res (L * list C) :=
  match cs with
  | [] => Ok (l, [])
  | c :: cs' =>
    let* lc := step t r l c in
    let* rest := seq_rows t (S r) (fst lc) cs' in
    Ok (fst rest, snd lc :: snd rest)
  end.

Lemma seq_rows_app t : forall cs1 cs2 r l,
  seq_rows t r l (cs1 ++ cs2) =
  let* a := seq_rows t r l cs1 in
  let* b := seq_rows t (r + length cs1) (fst a) cs2 in
  Ok (fst b, snd a ++ snd b).
Proof.
  induction cs1 as [|c cs1 IH]; intros cs2 r l; cbn [seq_rows app length bind].
  - rewrite Nat.add_0_r. cbn [fst snd app]. destruct (seq_rows t r l cs2) as [[? ?]|]; reflexivity.
  - destruct (step t r l c) as [[l1 c1]|e]; cbn [bind fst snd]; [|reflexivity].
    rewrite IH. replace (r + S (length cs1)) with (S r + length cs1) by lia.
    destruct (seq_rows t (S r) l1 cs1) as [[l2 d2]|e]; cbn [bind fst snd]; [|reflexivity].
    destruct (seq_rows t (S r + length cs1) l2 cs2) as [[l3 d3]|e]; cbn [bind fst snd]; reflexivity.
Qed.

Lemma seq_rows_length t : forall cs r l l' cs', seq_rows t r l cs = Ok (l', cs') -> length cs' = length cs.
Proof.
  induction cs as [|c cs IH]; intros r l l' cs' H; cbn [seq_rows] in H.
  - injection H as <- <-. reflexivity.
  - apply bind_ok in H as ([l1 c1] & H1 & H). apply bind_ok in H as ([l2 c2] & H2 & H).
    injection H as <- <-. simpl. f_equal. eapply IH; exact H2.
Qed.

(** ranges that tile [lo, hi) *)
Fixpoint ntiles (lo hi : nat) (l : list (nat * nat)) : Prop :=
  match l with
  | [] => lo = hi
  | (s, n) :: t => s = lo /\ ntiles (lo + n) hi t
  end.

Lemma ntiles_le lo hi l : ntiles lo hi l -> lo <= hi.
Proof. revert lo; induction l as [|[s n] l IH]; intros lo H; simpl in H; [lia|]. destruct H as (_ & H). apply IH in H; lia. Qed.

Lemma ntiles_in lo hi l : ntiles lo hi l -> forall t s n, nth_error l t = Some (s, n) -> lo <= s /\ s + n <= hi.
Proof.
  revert lo; induction l as [|[s0 n0] l IH]; intros lo H [|t] s n E; simpl in *; try discriminate.
  - injection E as <- <-. destruct H as (-> & H). apply ntiles_le in H. lia.
  - destruct H as (-> & H). apply (IH _ H) in E. lia.
Qed.

Lemma ntiles_disj lo hi l : ntiles lo hi l -> forall t t' s n s' n',
  nth_error l t = Some (s, n) -> nth_error l t' = Some (s', n') -> t <> t' -> s + n <= s' \/ s' + n' <= s.
Proof.
  revert lo; induction l as [|[s0 n0] l IH]; intros lo H [|t] [|t'] s n s' n' E E' Hne; simpl in *; try discriminate.
  - lia.
  - injection E as <- <-. destruct H as (-> & H). apply (@ntiles_in _ _ _ H _ _ _) in E'. lia.
  - injection E' as <- <-. destruct H as (-> & H). apply (@ntiles_in _ _ _ H _ _ _) in E. lia.
  - destruct H as (-> & H). apply (IH _ H t t' s n s' n' E E'). lia.
Qed.

Lemma slice_upd_out (l : list C) i v o n : i < o \/ o + n <= i -> slice (upd l i v) o n = slice l o n.
Proof.
  intros H. apply nth_error_ext; intros j. rewrite !nth_error_slice, nth_error_upd.
  destruct (Nat.ltb_spec j n); [|reflexivity].
  destruct (Nat.eqb_spec (o + j) i); [lia|reflexivity].
Qed.

Lemma slice_split {A} (l : list A) o n r : r <= n -> slice l o n = slice l o r ++ slice l (o + r) (n - r).
Proof.
  intros H. revert o; induction r as [|r IH] in n, H |- *; intros o.
  - rewrite Nat.add_0_r, Nat.sub_0_r. reflexivity.
  - destruct n as [|n]; [lia|].
    destruct (nth_error l o) as [x|] eqn:E.
    + rewrite !(slice_S l o _ E). cbn [app]. rewrite (IH n ltac:(lia) (S o)).
      cbn [Nat.sub]. replace (S o + r) with (o + S r) by lia. reflexivity.
    + apply nth_error_None in E. unfold slice. rewrite !skipn_all2 by lia. rewrite !firstn_nil. reflexivity.
Qed.

Variable ranges : list (nat * nat).
Variables (cells0 : list C) (locs0 : list L).
Hypothesis Htile : ntiles 0 (length cells0) ranges.
Hypothesis Hlen : length locs0 = length ranges.

Definition pinv (st : pstate C L) : Prop :=
  length (ps_cells st) = length cells0 /\ length (ps_loc st) = length ranges /\
  forall t s n l0, nth_error ranges t = Some (s, n) -> nth_error locs0 t = Some l0 ->
    exists r l, nth_error (ps_loc st) t = Some (r, l) /\ r <= n /\
      seq_rows t 0 l0 (slice cells0 s r) = Ok (l, slice (ps_cells st) s r) /\
      slice (ps_cells st) (s + r) (n - r) = slice cells0 (s + r) (n - r).

Definition seq_err (e : err) : Prop :=
  exists t s n l0, nth_error ranges t = Some (s, n) /\ nth_error locs0 t = Some l0 /\
    seq_rows t 0 l0 (slice cells0 s n) = Err e.

Definition curs (st : pstate C L) (t : nat) : nat :=
  match nth_error (ps_loc st) t with Some (r, _) => r | None => 0 end.

Lemma pinv_step st t : pinv st ->
  match par_step step ranges t st with
  | Ok st' => pinv st' /\ forall u, curs st' u =
      if u =? t then match nth_error ranges t with Some (s, n) => Nat.min n (S (curs st t)) | None => curs st t end
      else curs st u
  | Err e => seq_err e
  end.
Proof.
  intros (Hc & Hl & H). unfold par_step.
  destruct (nth_error ranges t) as [[s n]|] eqn:Er.
  2:{ splits; auto. { split; auto. } intros u. destruct (Nat.eqb_spec u t); subst; auto. }
  destruct (nth_error locs0 t) as [l0|] eqn:E0.
  2:{ apply nth_error_None in E0. assert (t < length ranges) by (apply nth_error_Some; congruence). lia. }
  destruct (H t s n l0 Er E0) as (r & l & El & Hr & Hs & Hrest). rewrite El.
  pose proof (@ntiles_in _ _ _ Htile _ _ _ Er) as (_ & Hsn).
  destruct (Nat.ltb_spec r n) as [Hlt|Hge].
  2:{ splits; auto. { split; auto. } intros u. destruct (Nat.eqb_spec u t); subst; auto.
      unfold curs. rewrite El. lia. }
  destruct (nth_error cells0 (s + r)) as [c|] eqn:Ec; [|apply nth_error_None in Ec; lia].
  assert (Ec' : nth_error (ps_cells st) (s + r) = Some c).
  { pose proof (f_equal (fun l => nth_error l 0) Hrest) as E. cbv beta in E.
    rewrite !nth_error_slice in E. destruct (Nat.ltb_spec 0 (n - r)); [|lia].
    rewrite Nat.add_0_r in E. congruence. }
  unfold aget. rewrite Ec'. cbn [bind].
  assert (Lr : length (slice cells0 s r) = r) by (apply slice_length; lia).
  destruct (step t r l c) as [[l1 c1]|e] eqn:Est; cbn [bind fst snd].
  2:{ exists t, s, n, l0. splits; auto.
      rewrite (@slice_split _ cells0 s n r) by lia. rewrite seq_rows_app, Hs. cbn [bind fst snd].
      rewrite Lr. destruct (n - r) as [|m] eqn:Em; [lia|].
      rewrite (slice_S cells0 (s + r) m Ec). cbn [seq_rows plus]. rewrite Est. reflexivity. }
  rewrite aset_ok by lia. cbn [bind].
  split.
  2:{ intros u. unfold curs. simpl. rewrite nth_error_upd.
      assert (t < length (ps_loc st)) by (apply nth_error_Some; congruence).
      destruct (Nat.eqb_spec u t) as [->|].
      - destruct (Nat.ltb_spec t (length (ps_loc st))); [|lia]. rewrite El. lia.
      - reflexivity. }
  split; [simpl; rewrite upd_length; exact Hc|]. split; [simpl; rewrite upd_length; exact Hl|].
  intros u s' n' l0' Eu E0'. simpl.
  assert (Ht : t < length (ps_loc st)) by (apply nth_error_Some; congruence).
  destruct (Nat.eq_dec u t) as [->|Hne].
  - rewrite Er in Eu. injection Eu as <- <-. rewrite E0 in E0'. injection E0' as <-.
    exists (S r), l1. splits.
    + rewrite nth_error_upd, Nat.eqb_refl. destruct (Nat.ltb_spec t (length (ps_loc st))); [reflexivity|lia].
    + lia.
    + rewrite (slice_S_last cells0 s r Ec), seq_rows_app, Hs. cbn [bind fst snd]. rewrite Lr.
      cbn [seq_rows plus]. rewrite Est. cbn [bind fst snd]. f_equal. f_equal.
      rewrite (@slice_S_last _ (upd (ps_cells st) (s + r) c1) s r c1).
      * rewrite slice_upd_out by lia. reflexivity.
      * rewrite nth_error_upd, Nat.eqb_refl. destruct (Nat.ltb_spec (s + r) (length (ps_cells st))); [reflexivity|lia].
    + rewrite slice_upd_out by lia.
      apply nth_error_ext; intros j. pose proof (f_equal (fun l => nth_error l (S j)) Hrest) as E.
      cbv beta in E. rewrite !nth_error_slice in *.
      destruct (Nat.ltb_spec (S j) (n - r)); destruct (Nat.ltb_spec j (n - S r)); try lia; auto.
      replace (s + S r + j) with (s + r + S j) by lia. exact E.
  - destruct (H u s' n' l0' Eu E0') as (r' & l' & El' & Hr' & Hs' & Hrest').
    exists r', l'. pose proof (@ntiles_disj _ _ _ Htile _ _ _ _ _ _ Er Eu ltac:(auto)) as D.
    splits; auto.
    + rewrite nth_error_upd. destruct (Nat.eqb_spec u t); [congruence|exact El'].
    + rewrite slice_upd_out by lia. exact Hs'.
    + rewrite slice_upd_out by lia. exact Hrest'.
Qed.

Lemma pinv_run : forall sched st, pinv st ->
  match for_each sched (par_step step ranges) st with
  | Ok st' => pinv st' /\ forall t s n, nth_error ranges t = Some (s, n) ->
                Nat.min n (curs st t + count_eq t sched) <= curs st' t
  | Err e => seq_err e
  end.
Proof.
  induction sched as [|t sched IH]; intros st Hi; cbn [for_each].
  - split; [exact Hi|]. intros t s n Er. simpl. unfold count_eq; simpl. lia.
  - pose proof (pinv_step t Hi) as Hs.
    destruct (par_step step ranges t st) as [st1|e]; cbn [bind]; [|exact Hs].
    destruct Hs as (Hi1 & Hcur). specialize (IH st1 Hi1).
    destruct (for_each sched (par_step step ranges) st1) as [st2|e]; [|exact IH].
    destruct IH as (Hi2 & IH). split; [exact Hi2|].
    intros u s n Eu. specialize (IH u s n Eu). rewrite (Hcur u) in IH.
    unfold count_eq in *. cbn [filter]. rewrite Nat.eqb_sym.
    destruct (Nat.eqb_spec u t) as [->|Hne]; cbn [length].
    + rewrite Eu in IH. lia.
    + exact IH.
Qed.

Lemma pinv_init : pinv (mkP cells0 (map (fun l => (0, l)) locs0)).
Proof.
  unfold pinv; simpl. rewrite map_length. splits; auto.
  intros t s n l0 Er E0. exists 0, l0. rewrite nth_error_map, E0. simpl. splits; auto; try lia.
Qed.

(** Every complete schedule: either every worker succeeds on its own, and the
    result is what the workers compute one by one, or the round fails with the
    error of some worker. *)
Lemma par_run_spec sched : complete ranges sched ->
  match par_run step ranges sched cells0 locs0 with
  | Ok (locs, cells) => length locs = length ranges /\ length cells = length cells0 /\
      forall t s n l0, nth_error ranges t = Some (s, n) -> nth_error locs0 t = Some l0 ->
        exists l, nth_error locs t = Some l /\
          seq_rows t 0 l0 (slice cells0 s n) = Ok (l, slice cells s n)
  | Err e => seq_err e
  end.
Proof.
  intros Hcomp. unfold par_run.
  pose proof (pinv_run sched pinv_init) as H.
  destruct (for_each sched (par_step step ranges) _) as [st|e]; cbn [bind]; [|exact H].
  destruct H as ((Hc & Hl & H) & Hcur). rewrite map_length. splits; auto.
  intros t s n l0 Er E0. destruct (H t s n l0 Er E0) as (r & l & El & Hr & Hs & _).
  specialize (Hcur t s n Er). specialize (Hcomp t s n Er). unfold curs in Hcur at 2. rewrite El in Hcur.
  assert (r = n) by lia. subst r. exists l. rewrite nth_error_map, El. auto.
Qed.

End Par.

Lemma count_eq_app t l1 l2 : count_eq t (l1 ++ l2) = count_eq t l1 + count_eq t l2.
Proof. unfold count_eq. rewrite filter_app, app_length. reflexivity. Qed.
Lemma count_eq_repeat t n : count_eq t (repeat t n) = n.
Proof. unfold count_eq. induction n; simpl; auto. rewrite Nat.eqb_refl. simpl. auto. Qed.

Lemma seq_sched_complete ranges : complete ranges (seq_sched ranges).
Proof.
  unfold complete, seq_sched. intros t s n H.
  assert (G : forall l k, nth_error l t = Some (s, n) ->
    n <= count_eq (k + t) (concat (map (fun tr : nat * (nat * nat) => repeat (fst tr) (snd (snd tr)))
          (combine (seq k (length l)) l)))).
  { clear H. revert t. intros t l. revert t. induction l as [|[s0 n0] l IH]; intros [|t] k H; simpl in *; try discriminate.
    - injection H as -> ->. rewrite count_eq_app, Nat.add_0_r, count_eq_repeat. lia.
    - rewrite count_eq_app. specialize (IH t (S k) H). replace (k + S t) with (S k + t) by lia. lia. }
  exact (G ranges 0 H).
Qed.
