(** C38-C40, C69, C70: handing out work to the worker threads, in every interleaving. *)
From Verif Require Import Base MatLemmas SyncModel SyncProofs SyncLive.
Set Implicit Arguments.
Unset Strict Implicit.

(* ------------------------------------------------------------------ *)
(** * Specification *)

(** [s] occurs in some execution (any schedule, spurious wake-ups included) *)
Definition reachable (n : nat) (plain : bool) (nt : nat -> nat) (s : sys) : Prop :=
  exists ls, exec n plain nt ls (s_init plain nt) = Some s.
(** every thread has at least one task per round; plain threads have one *)
Definition valid_threads (n : nat) (plain : bool) (nt : nat -> nat) : Prop :=
  forall i, i < n -> 1 <= nt i /\ (plain = true -> nt i = 1).
(** the coordinator is between two rounds: nothing handed out yet, or its last
    wait has returned *)
Definition between_rounds (s : sys) : Prop := s_c s = CIdle.
(** the schedule [ls] does not move the coordinator *)
Definition workers_only (ls : list lab) : Prop := forall b, ~ In (LC b) ls.

(** the list of tasks of worker [i]'s queue [r] times over, each in order *)
Fixpoint each_round_all_tasks (nti r : nat) : list (option nat) :=
  match r with 0 => [] | S r' => each_round_all_tasks nti r' ++ map Some (seq 0 nti) end.

(** no queue worker tests its state (outside the lock) while it is being woken *)
Definition earlyb (s : sys) (l : lab) : bool :=
  match l with
  | LW i => match w_pc (s_w s i), w_lk (s_w s i) with WTop, Coord => true | _, _ => false end
  | _ => false
  end.
Fixpoint no_early (n : nat) (plain : bool) (nt : nat -> nat) (ls : list lab) (s : sys) : bool :=
  match ls with
  | [] => true
  | l :: t => negb (earlyb s l) && match step n plain nt l s with Some s' => no_early n plain nt t s' | None => true end
  end.

Lemma rounds_spec nt i r : rounds nt i r = each_round_all_tasks (nt i) r.
Proof. induction r as [|r IH]; [reflexivity|]. rewrite rounds_S, IH. reflexivity. Qed.

Lemma reach_inv n plain nt s : valid_threads n plain nt -> reachable n plain nt s -> SInv n plain nt plain s.
Proof.
  intros V (ls & E).
  assert (V1 : forall i, i < n -> 1 <= nt i) by (intros i Hi; apply V; exact Hi).
  assert (V2 : plain = true -> forall i, i < n -> nt i = 1) by (intros Hp i Hi; apply V; auto).
  assert (Hok : forall ls s, ok_exec n plain nt plain ls s).
  { induction ls0 as [|l t IH]; intros s0; cbn; [exact I|]. split; [intros A B; congruence|]. destruct (step _ _ _ _ _); auto. }
  eapply inv_exec; eauto. eapply inv_init; eauto.
Qed.
Lemma reach_inv_weak n plain nt s : valid_threads n plain nt -> reachable n plain nt s -> SInv n plain nt false s.
Proof.
  intros V (ls & E).
  assert (V1 : forall i, i < n -> 1 <= nt i) by (intros i Hi; apply V; exact Hi).
  assert (V2 : plain = true -> forall i, i < n -> nt i = 1) by (intros Hp i Hi; apply V; auto).
  assert (Hok : forall ls s, ok_exec n plain nt false ls s).
  { induction ls0 as [|l t IH]; intros s0; cbn; [exact I|]. split; [intros A B; congruence|]. destruct (step _ _ _ _ _); auto. }
  eapply inv_exec; eauto. eapply inv_init; eauto.
Qed.

(* ------------------------------------------------------------------ *)
(** ** C38 *)
Lemma idle_log plain nt ex r L i w pz w' d sg :
  idle plain nt ex r L i w -> wloc (nt i) pz w = Some (w', d, sg) -> w_log w' = w_log w.
Proof.
  intros (_ & _ & _ & _ & Hp) E. unfold wloc in E. destruct (w_pc w); try contradiction; try discriminate E.
  all: repeat match type of E with (if ?b then _ else _) = _ => destruct b end; try discriminate E; injection E as <- <- <-; reflexivity.
Qed.

Lemma quiet n plain nt : valid_threads n plain nt ->
  forall ls s s', SInv n plain nt false s -> between_rounds s -> workers_only ls -> exec n plain nt ls s = Some s' ->
  between_rounds s' /\ SInv n plain nt false s' /\ s_rnd s' = s_rnd s /\ forall i, i < n -> w_log (s_w s' i) = w_log (s_w s i).
Proof.
  intros V.
  assert (V1 : forall i, i < n -> 1 <= nt i) by (intros i Hi; apply V; exact Hi).
  assert (V2 : plain = true -> forall i, i < n -> nt i = 1) by (intros Hp i Hi; apply V; auto).
  induction ls as [|l t IH]; intros s s' HI Hb Hw E; cbn [exec] in E; [injection E as <-; auto|].
  destruct (step n plain nt l s) as [s1|] eqn:Es; [|discriminate].
  assert (HI1 : SInv n plain nt false s1) by (eapply inv_step; eauto; intros _ A; discriminate A).
  assert (H1 : between_rounds s1 /\ s_rnd s1 = s_rnd s /\ forall i, i < n -> w_log (s_w s1 i) = w_log (s_w s i)).
  { unfold between_rounds in *. destruct l as [ag|i| |i]; cbn [step] in Es.
    - exfalso. apply (Hw ag). left. reflexivity.
    - destruct (Nat.ltb_spec i n) as [Hi|]; [|discriminate]. rewrite wstep_loc in Es. destruct (wloc _ _ _) as [[[w' d] sg]|] eqn:El; [|discriminate]. injection Es as <-.
      destruct HI as (_ & _ & f & _ & H). specialize (H i Hi). rewrite Hb in H. cbn [ph] in H. destruct H as (A & _).
      unfold wglob. cbn zeta. assert (G : forall j, j < n -> w_log (set_w (s_w s) i w' j) = w_log (s_w s j)).
      { intros j Hj. unfold set_w. destruct (Nat.eqb_spec j i) as [->|]; [exact (idle_log A El)|reflexivity]. }
      destruct sg; unfold c_signal; cbn [s_c s_rnd s_w]; splits; auto. rewrite Hb. reflexivity.
    - rewrite Hb in Es. discriminate.
    - destruct ((i <? n) && _) eqn:Ec; [|discriminate]. injection Es as <-. unfold with_w. cbn [s_c s_rnd s_w]. splits; auto.
      intros j Hj. unfold set_w. destruct (Nat.eqb_spec j i) as [->|]; reflexivity. }
  destruct H1 as (B1 & R1 & L1). destruct (IH s1 s' HI1 B1) as (B2 & I2 & R2 & L2); auto.
  { intros b Hin. apply (Hw b). right. exact Hin. }
  splits; auto; [congruence|]. intros i Hi. rewrite L2, L1 by exact Hi. reflexivity.
Qed.

(** when the wait has returned, every worker's queue is empty and, however the
    worker threads are scheduled, none processes a task before the next round *)
Theorem C38_wait_means_finished : forall n plain nt s,
  valid_threads n plain nt -> reachable n plain nt s -> between_rounds s ->
  (forall i, i < n -> w_nxt (s_w s i) = nt i) /\
  forall ls s', workers_only ls -> exec n plain nt ls s = Some s' ->
    forall i, i < n -> w_log (s_w s' i) = w_log (s_w s i).
Proof.
  intros n plain nt s V Hr Hb. pose proof (reach_inv_weak V Hr) as HI. split.
  - intros i Hi. destruct HI as (_ & _ & f & _ & H). specialize (H i Hi). rewrite Hb in H. cbn [ph] in H. apply H.
  - intros ls s' Hw E. destruct (quiet V HI Hb Hw E) as (_ & _ & _ & H). exact H.
Qed.
Print Assumptions C38_wait_means_finished.

(* ------------------------------------------------------------------ *)
(** ** C40 *)

(** plain worker threads: after r rounds each has done its work r times, in every
    interleaving *)
Theorem C40_plain_once_per_round : forall n nt s,
  valid_threads n true nt -> reachable n true nt s -> between_rounds s ->
  forall i, i < n -> w_log (s_w s i) = each_round_all_tasks 1 (s_rnd s).
Proof.
  intros n nt s V Hr Hb i Hi. destruct (reach_inv V Hr) as (_ & _ & f & _ & H). specialize (H i Hi). rewrite Hb in H. cbn [ph] in H.
  destruct H as ((_ & Hl & _) & _). rewrite (Hl eq_refl), rounds_spec. f_equal. apply V; auto.
Qed.
Print Assumptions C40_plain_once_per_round.

(** threads with a task queue: the same for every task of the queue, in the
    executions where no worker tests its state while the coordinator is inside its
    wake *)
Theorem C40_queue_once_per_round_partial : forall n nt ls s,
  valid_threads n false nt -> exec n false nt ls (s_init false nt) = Some s ->
  no_early n false nt ls (s_init false nt) = true -> between_rounds s ->
  forall i, i < n -> w_log (s_w s i) = each_round_all_tasks (nt i) (s_rnd s).
Proof.
  intros n nt ls s V E Hne Hb i Hi.
  assert (V1 : forall i, i < n -> 1 <= nt i) by (intros j Hj; apply V; exact Hj).
  assert (Hok : forall ls s, no_early n false nt ls s = true -> ok_exec n false nt true ls s).
  { clear. induction ls as [|l t IH]; intros s H; cbn [ok_exec no_early] in *; [exact I|]. apply andb_true_iff in H as (H1 & H2). split.
    - intros _ _ He. destruct l as [ag|i| |i]; cbn in He; try contradiction. destruct He as (A & B). cbn in H1. rewrite A, B in H1. discriminate.
    - destruct (step _ _ _ _ _); auto. }
  assert (HI : SInv n false nt true s) by (eapply inv_exec; eauto; [discriminate|eapply inv_init; eauto; discriminate]).
  destruct HI as (_ & _ & f & _ & H). specialize (H i Hi). rewrite Hb in H. cbn [ph] in H.
  destruct H as ((_ & Hl & _) & _). rewrite (Hl eq_refl), rounds_spec. reflexivity.
Qed.
Print Assumptions C40_queue_once_per_round_partial.

(** ** C39 *)

(** what is always known of blocked workers *)
Definition L3 (n : nat) (s : sys) : Prop :=
  forall i, i < n -> w_pc (s_w s i) = WBlocked -> w_st (s_w s i) <> WAIT -> waking (s_c s) i.
Lemma L3_step n plain nt s l s' : SInv n plain nt false s -> L3 n s -> step n plain nt l s = Some s' -> L3 n s'.
Proof.
  intros HI H3 E. destruct l as [ag|i| |i]; cbn [step] in E.
  - (* the first two parts of the other invariant are vacuous but for CGo and CBlocked *)
    unfold L3 in *. pose proof HI as (Hc & _). unfold cstep in E. cbn zeta in E. unfold with_c, with_w in E. cbn [s_c s_rnd s_pend s_dead s_bad s_w] in E.
    assert (G : forall w' k c p r b b', (forall j, j <> k -> waking (s_c s) j -> waking c j) ->
       (k < n -> w_pc w' = WBlocked -> w_st w' <> WAIT -> waking c k) -> L3 n (mkSys c r p b b' (set_w (s_w s) k w'))).
    { intros w' k c p r b b' Hoth Hk'. unfold L3. cbn [s_c s_pend s_w].
      intros i Hi. unfold set_w. destruct (Nat.eqb_spec i k) as [->|]; [auto|]. intros A B. apply Hoth; auto. }
    destruct (s_c s) as [|m k|m k|k|k|m k|m k| | | |k|] eqn:Ec; cbn [cidx] in Hc.
    + destruct ag; injection E as <-; cbn [s_c s_w]; intros i Hi A B; destruct (H3 i Hi A B).
    + destruct (is_free _) eqn:Ef; [|discriminate]. injection E as <-. apply G; auto. cbn. intros Hk A B. exact (H3 k Hk A B).
    + injection E as <-. apply G; auto; [intros j Hj []|]. intros _ _ _. destruct (negb plain && negb (is_exit m)); reflexivity.
    + injection E as <-. apply G; auto; cbn; auto.
    + injection E as <-. apply G; auto; cbn; auto.
    + injection E as <-. apply G; auto; cbn; auto.
    + injection E as <-. apply G; auto; [intros j Hj W; cbn in W; congruence|].
      intros _. destruct (at_blocked (w_pc (s_w s k))) eqn:Eb; [cbn; discriminate|]. intros A. rewrite A in Eb. discriminate.
    + injection E as <-. cbn [s_c s_w]. intros i Hi A B. destruct (H3 i Hi A B).
    + injection E as <-. cbn [s_c s_w]. intros i Hi A B. destruct (H3 i Hi A B).
    + discriminate.
    + destruct (k <? n); [destruct (at_gone _); [|discriminate]|]; injection E as <-; cbn [s_c s_w]; intros i Hi A B; destruct (H3 i Hi A B).
    + discriminate.
  - destruct (Nat.ltb_spec i n) as [Hi|]; [|discriminate]. rewrite wstep_loc in E. destruct (wloc _ _ _) as [[[w' d] sg]|] eqn:El; [|discriminate]. injection E as <-.
    unfold L3, wglob. cbn zeta. intros j Hj. destruct sg; unfold c_signal; cbn [s_c s_w]; unfold set_w; destruct (Nat.eqb_spec j i) as [->|].
    + intros A B. exfalso. apply B. exact (wloc_pc El A).
    + intros A B. pose proof (H3 j Hj A B) as W. destruct (s_c s); auto.
    + intros A B. exfalso. apply B. exact (wloc_pc El A).
    + apply H3. exact Hj.
  - destruct (s_c s) eqn:Ec; try discriminate. injection E as <-. unfold L3, with_c. cbn [s_c s_w]. intros i Hi A B. pose proof (H3 i Hi A B) as W. rewrite Ec in W. exact W.
  - destruct ((i <? n) && _) eqn:Ec; [|discriminate]. injection E as <-. unfold L3, with_w. cbn [s_c s_w]. intros j Hj. unfold set_w. destruct (Nat.eqb_spec j i) as [->|]; [cbn; discriminate|apply H3; exact Hj].
Qed.

Lemma reach_L3 n plain nt s : valid_threads n plain nt -> reachable n plain nt s -> L3 n s.
Proof.
  intros V (ls & E).
  assert (V1 : forall i, i < n -> 1 <= nt i) by (intros i Hi; apply V; exact Hi).
  assert (V2 : plain = true -> forall i, i < n -> nt i = 1) by (intros Hp i Hi; apply V; auto).
  assert (G : forall ls s s', SInv n plain nt false s -> L3 n s -> exec n plain nt ls s = Some s' -> L3 n s').
  { induction ls0 as [|l t IH]; intros s0 s' HI H3 E0; cbn [exec] in E0; [injection E0 as <-; exact H3|].
    destruct (step n plain nt l s0) as [s1|] eqn:Es; [|discriminate]. apply (IH s1 s'); auto.
    - eapply inv_step; eauto; intros _ A; discriminate A.
    - eapply L3_step; eauto. }
  apply (G ls (s_init plain nt) s); auto; [eapply inv_init; eauto|]. intros i Hi. cbn. discriminate.
Qed.

(** From every state that any execution reaches and in which the coordinator is not
    already inside cond_wait or about to call it, in every continuation without
    spurious wake-ups in which no worker reports its end between the coordinator's
    test and its cond_wait: no deadlock, and after finitely many steps the wait has
    returned (or the destructor has finished). *)
Theorem C39_wait_returns_partial : forall n plain nt s,
  valid_threads n plain nt -> reachable n plain nt s -> s_c s <> CGo -> s_c s <> CBlocked ->
  inevitable n plain nt (fun s => s_c s = CIdle \/ s_c s = CDone) s.
Proof.
  intros n plain nt s V Hr H1 H2. pose proof (reach_inv_weak V Hr) as HI. pose proof (reach_L3 V Hr) as H3.
  eapply inev; eauto.
  - intros i Hi. apply V. exact Hi.
  - intros Hp i Hi. apply V; auto.
  - unfold LInv. splits; auto; congruence.
Qed.
Print Assumptions C39_wait_returns_partial.

(** without the restriction a wake-up can be lost: one worker, one round.  The state
    is reachable and no thread can take a step *)
Definition lost : list lab :=
  [LC true; LC true; LC true; LC true; LC true;    (* wake4run *)
   LC true;                                        (* pending_threads = 1: about to wait *)
   LW 0; LW 0; LW 0;                               (* the worker runs its task *)
   LW 0; LW 0; LW 0; LW 0; LW 0; LW 0; LW 0;       (* and reports: nobody is waiting yet *)
   LC true;                                        (* cond_wait *)
   LW 0; LW 0; LW 0].
Theorem C39_refuted : exists s,
  reachable 1 true (fun _ => 1) s /\ s_c s = CBlocked /\ s_pend s = 0%Z /\
  forall l, match l with LSpurC | LSpurW _ => True | _ => step 1 true (fun _ => 1) l s = None end.
Proof.
  destruct (exec 1 true (fun _ => 1) lost (s_init true (fun _ => 1))) as [s|] eqn:E; [|vm_compute in E; discriminate].
  exists s. split; [exists lost; exact E|]. vm_compute in E. injection E as <-. splits; try reflexivity.
  intros [[|]|[|i]| |i]; try exact I; reflexivity.
Qed.
Print Assumptions C39_refuted.

(** C40 is false of queue threads without the restriction: one worker with two tasks.
    In the second round the worker processes task 1 twice and task 0 never *)
Definition stale : list lab :=
  (* round 1: the worker runs tasks 0 and 1 and goes back to the top of its loop *)
  repeat (LC true) 7 ++ repeat (LW 0) 16 ++ [LC true] ++
  (* round 2: the state is set, the queue not yet reset; the worker runs its old task *)
  repeat (LC true) 3 ++ repeat (LW 0) 3 ++ repeat (LC true) 4 ++
  (* and then asks for the next one *)
  repeat (LW 0) 13 ++ [LC true].
Theorem C40_queue_refuted : exists s,
  reachable 1 false (fun _ => 2) s /\ between_rounds s /\ s_rnd s = 2 /\
  w_log (s_w s 0) = [Some 0; Some 1; Some 1; Some 1].
Proof.
  destruct (exec 1 false (fun _ => 2) stale (s_init false (fun _ => 2))) as [s|] eqn:E; [|vm_compute in E; discriminate].
  exists s. split; [exists stale; exact E|]. vm_compute in E. injection E as <-. splits; reflexivity.
Qed.
Print Assumptions C40_queue_refuted.

(** ** C69: the destructor and the coordinator's condition variable *)

(** the worker may still signal the coordinator after its work was counted as done:
    the destructor has destroyed the condition variable by then *)
Definition signal_dead : list lab :=
  repeat (LC true) 5 ++ repeat (LW 0) 8 ++ [LC true] ++ (* the wait returns; the worker has not signalled yet *)
  [LC false; LW 0].
Theorem C69_refuted : exists s, reachable 1 true (fun _ => 1) s /\ s_bad s = true.
Proof.
  destruct (exec 1 true (fun _ => 1) signal_dead (s_init true (fun _ => 1))) as [s|] eqn:E; [|vm_compute in E; discriminate].
  exists s. split; [exists signal_dead; exact E|]. vm_compute in E. injection E as <-. reflexivity.
Qed.
Print Assumptions C69_refuted.

(** it is not used any more if, when the destructor starts, every worker has left
    its report (informing: it has counted itself done and may yet signal) *)
Definition nobody_informing (n : nat) (s : sys) : Prop := forall i, i < n -> informing (w_pc (s_w s i)) = false.

Lemma calm n plain nt : valid_threads n plain nt ->
  forall ls s s', SInv n plain nt false s -> exiting (s_c s) = true -> nobody_informing n s -> exec n plain nt ls s = Some s' -> s_bad s' = s_bad s.
Proof.
  intros V.
  assert (V1 : forall i, i < n -> 1 <= nt i) by (intros i Hi; apply V; exact Hi).
  assert (V2 : plain = true -> forall i, i < n -> nt i = 1) by (intros Hp i Hi; apply V; auto).
  induction ls as [|l t IH]; intros s s' HI Hx Hn E; cbn [exec] in E; [injection E as <-; reflexivity|].
  destruct (step n plain nt l s) as [s1|] eqn:Es; [|discriminate].
  assert (HI1 : SInv n plain nt false s1) by (eapply inv_step; eauto; intros _ A; discriminate A).
  assert (H1 : s_bad s1 = s_bad s /\ exiting (s_c s1) = true /\ nobody_informing n s1).
  { destruct l as [ag|i| |i]; cbn [step] in Es.
    - pose proof HI as (Hc & _). unfold cstep in Es. cbn zeta in Es. unfold with_c, with_w in Es. cbn [s_c s_rnd s_pend s_dead s_bad s_w] in Es.
      destruct (s_c s) as [|m k|m k|k|k|m k|m k| | | |k|] eqn:Ec; try discriminate Hx; try (destruct m; try discriminate Hx).
      + destruct (is_free _); [|discriminate]. injection Es as <-. cbn. splits; auto. intros i Hi. cbn [s_w]. unfold set_w. destruct (Nat.eqb_spec i k) as [->|]; [exact (Hn k Hi)|auto].
      + cbn [is_exit negb] in Es. rewrite andb_false_r in Es. injection Es as <-. cbn. splits; auto. intros i Hi. cbn [s_w]. unfold set_w. destruct (Nat.eqb_spec i k) as [->|]; [exact (Hn k Hi)|auto].
      + injection Es as <-. cbn. splits; auto. intros i Hi. cbn [s_w]. unfold set_w. destruct (Nat.eqb_spec i k) as [->|]; [exact (Hn k Hi)|auto].
      + injection Es as <-. cbn [s_bad s_c]. splits; auto; [unfold next_wake; destruct (S k <? n); reflexivity|]. intros i Hi. cbn [s_w]. unfold set_w.
        destruct (Nat.eqb_spec i k) as [->|]; [|auto]. destruct (at_blocked (w_pc (s_w s k))); [reflexivity|exact (Hn k Hi)].
      + destruct (k <? n); [destruct (at_gone _); [|discriminate]|]; injection Es as <-; cbn; splits; auto.
      + discriminate.
    - destruct (Nat.ltb_spec i n) as [Hi|]; [|discriminate]. rewrite wstep_loc in Es. destruct (wloc _ _ _) as [[[w' d] sg]|] eqn:El; [|discriminate]. injection Es as <-.
      assert (Hst : (exists r L, idle plain nt false r L i (s_w s i)) \/ (exists r L, leaving nt false r L i (s_w s i))).
      { destruct HI as (Hc & _ & f & _ & H). specialize (H i Hi).
        destruct (s_c s) as [|m k|m k|k|k|m k|m k| | | |k|] eqn:Ec; try discriminate Hx; try (destruct m; try discriminate Hx); cbn [ph] in H.
        all: try (apply split_cases in H as [(_ & H)|[(_ & H)|(_ & H)]]); eauto. }
      assert (G : sg = false /\ informing (w_pc w') = false).
      { specialize (Hn i Hi). unfold wloc in El. destruct Hst as [(r & L & A)|(r & L & A)].
        - destruct A as (_ & _ & _ & _ & Hp). destruct (w_pc (s_w s i)) eqn:Ep; try contradiction; try discriminate Hn; rewrite ?Hp in El; cbn [is_wait] in El; try discriminate El.
          all: repeat match type of El with (if ?b then _ else _) = _ => destruct b end; try discriminate El; injection El as <- <- <-; auto.
        - destruct A as (_ & Hst & _ & Hp). destruct (w_pc (s_w s i)) eqn:Ep; try contradiction; rewrite ?Hst in El; cbn [is_wait is_exit] in El; try discriminate El.
          all: repeat match type of El with (if ?b then _ else _) = _ => destruct b end; try discriminate El; injection El as <- <- <-; auto. }
      destruct G as (-> & G). unfold wglob. cbn. splits; auto. intros j Hj. cbn [s_w]. unfold set_w. destruct (Nat.eqb_spec j i) as [->|]; auto.
    - destruct (s_c s) eqn:Ec; try discriminate. 
    - destruct ((i <? n) && _) eqn:Ec; [|discriminate]. injection Es as <-. unfold with_w. cbn. splits; auto. intros j Hj. cbn [s_w]. unfold set_w. destruct (Nat.eqb_spec j i) as [->|]; [reflexivity|auto]. }
  destruct H1 as (B1 & X1 & N1). rewrite <- B1. apply (IH s1 s'); auto.
Qed.

Theorem C69_destructor_safe_partial : forall n plain nt s s1,
  valid_threads n plain nt -> reachable n plain nt s -> between_rounds s -> s_bad s = false -> nobody_informing n s ->
  step n plain nt (LC false) s = Some s1 -> (* the destructor starts *)
  forall ls s', exec n plain nt ls s1 = Some s' -> s_bad s' = false.
Proof.
  intros n plain nt s s1 V Hr Hb Hbad Hn E ls s' E'. pose proof (reach_inv_weak V Hr) as HI.
  assert (V1 : forall i, i < n -> 1 <= nt i) by (intros i Hi; apply V; exact Hi).
  assert (V2 : plain = true -> forall i, i < n -> nt i = 1) by (intros Hp i Hi; apply V; auto).
  assert (HI1 : SInv n plain nt false s1) by (eapply inv_step; eauto; intros _ A; discriminate A).
  unfold between_rounds in Hb. cbn [step] in E. unfold cstep in E. rewrite Hb in E. injection E as <-.
  rewrite (calm V HI1 (ls := ls) (s' := s')); auto.
  cbn [s_c]. destruct (0 <? n); reflexivity.
Qed.
Print Assumptions C69_destructor_safe_partial.

(** ** C70: destruction ends with every worker thread gone *)
Theorem C70_destruction_ends : forall n plain nt s,
  valid_threads n plain nt -> reachable n plain nt s -> s_dead s = true ->
  inevitable n plain nt (fun s => s_c s = CDone /\ forall i, i < n -> w_pc (s_w s i) = WGone) s.
Proof.
  intros n plain nt s V Hr Hd.
  assert (V1 : forall i, i < n -> 1 <= nt i) by (intros i Hi; apply V; exact Hi).
  assert (V2 : plain = true -> forall i, i < n -> nt i = 1) by (intros Hp i Hi; apply V; auto).
  pose proof (reach_inv_weak V Hr) as HI.
  (* joined so far *)
  set (J := fun s : sys => match s_c s with CJoin k => forall i, i < k -> i < n -> w_pc (s_w s i) = WGone | CDone => forall i, i < n -> w_pc (s_w s i) = WGone | _ => True end).
  assert (HJ0 : forall s, reachable n plain nt s -> J s).
  { assert (Gj : forall s l s', J s -> step n plain nt l s = Some s' -> J s').
    { intros s0 l s1 Hj E. unfold J in *. destruct l as [ag|i| |i]; cbn [step] in E.
      - unfold cstep in E. cbn zeta in E. unfold with_c, with_w in E. destruct (s_c s0) as [|m k|m k|k|k|m k|m k| | | |k|] eqn:Ec.
        + destruct ag; injection E as <-; cbn [s_c]; destruct (0 <? n); auto. cbn. intros; lia.
        + destruct (is_free _); [|discriminate]. injection E as <-. exact I.
        + injection E as <-. cbn [s_c]. destruct (negb plain && negb (is_exit m)); exact I.
        + injection E as <-. exact I.
        + injection E as <-. exact I.
        + injection E as <-. exact I.
        + injection E as <-. cbn [s_c]. unfold next_wake. destruct (S k <? n); [exact I|]. destruct m; auto. intros; lia.
        + injection E as <-. cbn [s_c]. destruct (s_pend s0 =? 0)%Z; exact I.
        + injection E as <-. exact I.
        + discriminate.
        + destruct (Nat.ltb_spec k n).
          * destruct (at_gone _) eqn:Eg; [|discriminate]. injection E as <-. cbn [s_c s_w]. intros i Hi Hn. destruct (Nat.eq_dec i k) as [->|]; [destruct (w_pc (s_w s0 k)); auto; discriminate|apply Hj; lia].
          * injection E as <-. cbn [s_c s_w]. intros i Hi. apply Hj; lia.
        + discriminate.
      - destruct (Nat.ltb_spec i n) as [Hi|]; [|discriminate]. rewrite wstep_loc in E. destruct (wloc _ _ _) as [[[w' d] sg]|] eqn:El; [|discriminate]. injection E as <-.
        assert (Hg : w_pc (s_w s0 i) <> WGone) by (intros Hg; unfold wloc in El; rewrite Hg in El; discriminate).
        unfold wglob. cbn zeta. destruct sg; unfold c_signal; cbn [s_c s_w]; destruct (s_c s0); auto; intros j Hj1; unfold set_w; destruct (Nat.eqb_spec j i) as [->|]; auto; intros; exfalso; apply Hg; auto.
      - destruct (s_c s0) eqn:Ec; try discriminate. injection E as <-. exact I.
      - destruct ((i <? n) && _) eqn:Eb; [|discriminate]. injection E as <-. unfold with_w. cbn [s_c s_w]. apply andb_true_iff in Eb as (_ & Eb).
        assert (Hg : w_pc (s_w s0 i) <> WGone) by (intros Hg; rewrite Hg in Eb; discriminate).
        destruct (s_c s0); auto; intros j Hj1; unfold set_w; destruct (Nat.eqb_spec j i) as [->|]; auto; intros; exfalso; apply Hg; auto. }
    intros s0 (ls & E). revert E. assert (G0 : J (s_init plain nt)) by exact I. generalize (s_init plain nt) G0. induction ls as [|l t IH]; intros s1 H1 E; cbn [exec] in E; [injection E as <-; exact H1|].
    destruct (step n plain nt l s1) as [s2|] eqn:Es; [|discriminate]. apply (IH s2); auto. eapply Gj; eauto. }
  assert (Hnc : s_c s <> CGo /\ s_c s <> CBlocked).
  { destruct HI as (_ & Hdd & _). rewrite Hd in Hdd. destruct (s_c s); split; try discriminate. }
  pose proof (C39_wait_returns_partial V Hr (proj1 Hnc) (proj2 Hnc)) as Hinev.
  revert Hr Hd. clear HI Hnc. induction Hinev as [s Hp|s Hex Hall IH]; intros Hr Hd.
  - apply inev_now. destruct Hp as [Hp|Hp].
    + exfalso. destruct (reach_inv_weak V Hr) as (_ & Hdd & _). rewrite Hd, Hp in Hdd. discriminate.
    + split; [exact Hp|]. pose proof (HJ0 s Hr) as G. unfold J in G. rewrite Hp in G. exact G.
  - apply inev_later; [exact Hex|]. intros l s' Ha E. apply (IH l s' Ha E).
    + destruct Hr as (ls & El). exists (ls ++ [l]). clear -El E. revert El. generalize (s_init plain nt). induction ls as [|a t IHl]; intros s0 El; cbn [exec app] in *.
      * injection El as ->. rewrite E. reflexivity.
      * destruct (step n plain nt a s0); [|discriminate]. apply IHl. exact El.
    + destruct l as [ag|i| |i]; cbn [step] in E; try contradiction.
      * pose proof (reach_inv_weak V Hr) as (_ & Hdd & _). rewrite Hd in Hdd. unfold cstep in E. cbn zeta in E. destruct (s_c s); try discriminate Hdd; unfold with_c, with_w in E; cbn in E.
        all: repeat match type of E with (if ?b then _ else _) = _ => destruct b end; try discriminate E; injection E as <-; exact Hd.
      * destruct (i <? n); [|discriminate]. rewrite wstep_loc in E. destruct (wloc _ _ _) as [[[w' d] sg]|]; [|discriminate]. injection E as <-. unfold wglob, c_signal. destruct sg; exact Hd.
Qed.
Print Assumptions C70_destruction_ends.

(* ------------------------------------------------------------------ *)
(** * The premises can be met: two workers, two rounds, then destruction *)
Theorem C38_example :
  match exec 2 true (fun _ => 1)
    (repeat (LC true) 9 ++ repeat (LW 0) 7 ++ repeat (LW 1) 10 ++ repeat (LW 0) 2 ++ [LC true; LC true])
    (s_init true (fun _ => 1)) with
  | Some s => s_rnd s = 2 /\ w_log (s_w s 0) = [Some 0] /\ w_log (s_w s 1) = [Some 0] /\ valid_threads 2 true (fun _ => 1)
  | None => False
  end.
Proof. vm_compute. splits; auto. Qed.
Theorem C40_example :
  let ls := repeat (LC true) 7 ++ repeat (LW 0) 16 ++ [LC true] in
  match exec 1 false (fun _ => 2) ls (s_init false (fun _ => 2)) with
  | Some s => no_early 1 false (fun _ => 2) ls (s_init false (fun _ => 2)) = true /\ between_rounds s /\ s_rnd s = 1 /\ w_log (s_w s 0) = [Some 0; Some 1]
  | None => False
  end.
Proof. vm_compute. splits; auto. Qed.

