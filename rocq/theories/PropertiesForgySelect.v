(** C54: the unused function that picks a member of a cluster, for every assignment,
    cluster and draw: it never returns a row of another cluster; it finds a member
    exactly when there is one at the drawn row or before the last row. *)
From Verif Require Import Base HclustModel.
Set Implicit Arguments.

Lemma fs_fwd_spec asg cid : forall n cnt, cnt + n <= length asg ->
  exists o, fs_fwd asg cid n cnt = Ok o /\
  match o with
  | Some v => cnt <= v < cnt + n /\ nth v asg 0 = cid /\ forall i, cnt <= i < v -> nth i asg 0 <> cid
  | None => forall i, cnt <= i < cnt + n -> nth i asg 0 <> cid
  end.
Proof.
  induction n as [|n IH]; intros cnt H; cbn [fs_fwd]; [exists None; split; [reflexivity|lia]|].
  rewrite (@aget_nth _ asg cnt 0) by lia. cbn [bind]. destruct (Nat.eqb_spec (nth cnt asg 0) cid) as [E|E].
  - exists (Some cnt). split; [reflexivity|]. split; [lia|]. split; [exact E|lia].
  - destruct (IH (S cnt) ltac:(lia)) as (o & Eo & Ho). exists o. split; [exact Eo|]. destruct o as [v|].
    + destruct Ho as (H1 & H2 & H3). split; [lia|]. split; [exact H2|]. intros i Hi. destruct (Nat.eq_dec i cnt) as [->|]; [exact E|apply H3; lia].
    + intros i Hi. destruct (Nat.eq_dec i cnt) as [->|]; [exact E|apply Ho; lia].
Qed.

Lemma fs_back_spec asg cid : forall cnt, cnt <= length asg ->
  match fs_back asg cid cnt with
  | Ok v => v < cnt /\ nth v asg 0 = cid /\ forall i, v < i < cnt -> nth i asg 0 <> cid
  | Err e => e = UB /\ forall i, i < cnt -> nth i asg 0 <> cid
  end.
Proof.
  induction cnt as [|c IH]; intros H; cbn [fs_back]; [split; [reflexivity|lia]|].
  rewrite (@aget_nth _ asg c 0) by lia. cbn [bind]. destruct (Nat.eqb_spec (nth c asg 0) cid) as [E|E]; [split; [lia|]; split; [exact E|lia]|].
  specialize (IH ltac:(lia)). destruct (fs_back asg cid c) as [v|e].
  - destruct IH as (H1 & H2 & H3). split; [lia|]. split; [exact H2|]. intros i Hi. destruct (Nat.eq_dec i c) as [->|]; [exact E|apply H3; lia].
  - destruct IH as (-> & H1). split; [reflexivity|]. intros i Hi. destruct (Nat.eq_dec i c) as [->|]; [exact E|apply H1; lia].
Qed.

(** [r] is the row drawn.  The row returned is [r] if it is a member, else the first
    member after [r] that is not the last row, else the last member before [r]; with no
    such row the vector is read before its start *)
Theorem C54_forgy_select_member : forall (asg : list nat) nrow cid r, length asg = nrow -> r < nrow ->
  match forgy_select asg nrow cid r with
  | Ok v => v < nrow /\ nth v asg 0 = cid /\
      (v = r \/
       r < v < nrow - 1 /\ (forall i, r <= i < v -> nth i asg 0 <> cid) \/
       v < r /\ (forall i, v < i < nrow - 1 \/ i = r -> nth i asg 0 <> cid))
  | Err e => e = UB /\ forall i, i < nrow - 1 \/ i = r -> nth i asg 0 <> cid
  end.
Proof.
  intros asg nrow cid r L Hr. unfold forgy_select. rewrite (@aget_nth _ asg r 0) by lia. cbn [bind].
  destruct (Nat.eqb_spec (nth r asg 0) cid) as [E|E]; [auto|].
  destruct (fs_fwd_spec asg cid (nrow - 1 - (r + 1)) (r + 1) ltac:(lia)) as ([v|] & -> & H); cbn [bind].
  - destruct H as (H1 & H2 & H3). split; [lia|]. split; [exact H2|]. right. left. split; [lia|]. intros i Hi. destruct (Nat.eq_dec i r) as [->|]; [exact E|apply H3; lia].
  - pose proof (@fs_back_spec asg cid r ltac:(lia)) as B. destruct (fs_back asg cid r) as [v|e].
    + destruct B as (B1 & B2 & B3). split; [lia|]. split; [exact B2|]. right. right. split; [exact B1|]. intros i [Hi| ->]; [|exact E].
      destruct (Nat.lt_trichotomy i r) as [X|[->|X]]; [apply B3; lia|exact E|apply H; lia].
    + destruct B as (-> & B). split; [reflexivity|]. intros i [Hi| ->]; [|exact E].
      destruct (Nat.lt_trichotomy i r) as [X|[->|X]]; [apply B; lia|exact E|apply H; lia].
Qed.
Print Assumptions C54_forgy_select_member.

(** all four outcomes occur *)
Example C54_forgy_select_example :
  forgy_select [7; 5; 7; 5] 4 5 1 = Ok 1 /\ forgy_select [7; 7; 5; 5; 7] 5 5 1 = Ok 2 /\ forgy_select [5; 5; 7; 7] 4 5 2 = Ok 1 /\
  forgy_select [7; 7; 7; 5] 4 5 0 = Err UB.
Proof. repeat split; reflexivity. Qed.
