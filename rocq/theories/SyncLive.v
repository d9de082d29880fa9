(** Progress and termination of the hand-over protocol (SyncModel). *)
From Verif Require Import Base MatLemmas SyncModel SyncProofs.
Set Implicit Arguments.
Unset Strict Implicit.

Section Live.
Variable n : nat.
Variable plain : bool.
Variable nt : nat -> nat.
Hypothesis Hnt : forall i, i < n -> 1 <= nt i.
Hypothesis Hplain : plain = true -> forall i, i < n -> nt i = 1.

(** the invariant for schedules that may test the state early *)
Notation Inv := (SInv n plain nt false).
Notation ph := (ph plain nt false).

(** a worker reports that it is done just before the coordinator starts to wait *)
Definition gap (s : sys) (l : lab) : Prop :=
  match l with LW i => w_pc (s_w s i) = WDec /\ s_c s = CGo | _ => False end.

Definition informing (p : wpc) : bool := match p with WSet | WTest | WSig => true | _ => false end.
(** the coordinator is about to signal worker [i] *)
Definition waking (c : cpc) (i : nat) : Prop :=
  match c with CReset k | CGet k | CUnl _ k | CSig _ k => k = i | _ => False end.

Definition LInv (s : sys) : Prop :=
  (s_c s = CGo -> s_pend s <> 0%Z) /\
  (s_c s = CBlocked -> s_pend s <> 0%Z \/ exists i, i < n /\ informing (w_pc (s_w s i)) = true) /\
  (forall i, i < n -> w_pc (s_w s i) = WBlocked -> w_st (s_w s i) <> WAIT -> waking (s_c s) i).

Lemma live_init : LInv (s_init plain nt).
Proof. unfold LInv, s_init. cbn. splits; try discriminate. Qed.

Lemma wloc_pc nti pz w w' d sg : wloc nti pz w = Some (w', d, sg) -> w_pc w' = WBlocked -> w_st w' = WAIT.
Proof.
  intros E Hb. unfold wloc in E. destruct (w_pc w) eqn:Ep; try discriminate E.
  all: repeat match type of E with (if ?b then _ else _) = _ => destruct b eqn:? end; try discriminate E; injection E as <- <- <-; cbn in *; try discriminate Hb.
  all: repeat match type of Hb with (if ?b then _ else _) = _ => destruct b eqn:? end; try discriminate Hb.
  destruct (w_st w); auto; discriminate.
Qed.

Lemma live_w s i s' : i < n -> LInv s -> ~ gap s (LW i) -> wstep nt i s = Some s' -> LInv s'.
Proof.
  intros Hi (H1 & H2 & H3) Hg E. rewrite wstep_loc in E. destruct (wloc _ _ _) as [[[w' d] sg]|] eqn:El; [|discriminate]. injection E as <-.
  assert (Hd : d <> 0%Z -> w_pc (s_w s i) = WDec /\ w_pc w' = WSet).
  { unfold wloc in El. intros Hd. destruct (w_pc (s_w s i)) eqn:Ep; try discriminate El.
    all: repeat match type of El with (if ?b then _ else _) = _ => destruct b end; try discriminate El; injection El as <- <- <-; try congruence. auto. }
  assert (Hsg : sg = false -> informing (w_pc (s_w s i)) = true -> informing (w_pc w') = true \/ s_pend s <> 0%Z).
  { unfold wloc in El. intros -> Hin. destruct (w_pc (s_w s i)) eqn:Ep; try discriminate Hin; try discriminate El.
    - injection El as <- <-. auto.
    - destruct (Z.eqb_spec (s_pend s) 0); injection El as <- <-; auto. }
  assert (H3' : forall c, (forall j, waking (s_c s) j -> waking c j) -> forall j, j < n -> w_pc (set_w (s_w s) i w' j) = WBlocked -> w_st (set_w (s_w s) i w' j) <> WAIT -> waking c j).
  { intros c Hc j Hj. unfold set_w. destruct (Nat.eqb_spec j i) as [->|]; [|intros; apply Hc; apply H3; auto].
    intros Hb Hw. exfalso. apply Hw. exact (wloc_pc El Hb). }
  unfold wglob. cbn zeta. unfold LInv. destruct sg; unfold c_signal; cbn [s_c s_rnd s_pend s_dead s_bad s_w].
  - splits.
    + destruct (s_c s) eqn:Ec; try discriminate. intros _. destruct (Z.eq_dec d 0) as [->|Hn]; [rewrite Z.sub_0_r; apply H1; reflexivity|].
      exfalso. apply Hg. split; [apply Hd; exact Hn|exact Ec].
    + destruct (s_c s) eqn:Ec; discriminate.
    + apply H3'. intros j. destruct (s_c s); auto.
  - splits.
    + intros Ec. destruct (Z.eq_dec d 0) as [->|Hn]; [rewrite Z.sub_0_r; auto|].
      exfalso. apply Hg. split; [apply Hd; exact Hn|exact Ec].
    + intros Ec. destruct (Z.eq_dec d 0) as [->|Hn].
      * rewrite Z.sub_0_r. destruct (H2 Ec) as [Hp|(j & Hj & Hinf)]; [auto|].
        destruct (Nat.eq_dec j i) as [->|Hji].
        -- destruct (Hsg eq_refl Hinf) as [A|A]; [|auto]. right. exists i. split; [exact Hi|]. unfold set_w. rewrite Nat.eqb_refl. exact A.
        -- right. exists j. split; [exact Hj|]. unfold set_w. destruct (Nat.eqb_spec j i); [lia|exact Hinf].
      * right. exists i. split; [exact Hi|]. unfold set_w. rewrite Nat.eqb_refl. destruct (Hd Hn) as (_ & ->). reflexivity.
    + apply H3'. auto.
Qed.

Lemma live_c s again s' : Inv s -> LInv s -> cstep n plain again s = Some s' -> LInv s'.
Proof.
  intros (Hc & _) (H1 & H2 & H3) E. unfold cstep in E. cbn zeta in E. unfold with_c, with_w in E. cbn [s_c s_rnd s_pend s_dead s_bad s_w] in E.
  assert (G : forall w' k c p r b b', k < n -> c <> CGo -> c <> CBlocked ->
     (forall j, j <> k -> waking (s_c s) j -> waking c j) ->
     (w_pc w' = WBlocked -> w_st w' <> WAIT -> waking c k) -> LInv (mkSys c r p b b' (set_w (s_w s) k w'))).
  { intros w' k c p r b b' Hk Hc1 Hc2 Hoth Hk'. unfold LInv. cbn [s_c s_pend s_w]. splits; try congruence.
    intros i Hi. unfold set_w. destruct (Nat.eqb_spec i k) as [->|]; [auto|]. intros A B. apply Hoth; auto. }
  destruct (s_c s) as [|m k|m k|k|k|m k|m k| | | |k|] eqn:Ec; cbn [cidx] in Hc.
  - destruct again; injection E as <-; unfold LInv; cbn [s_c s_pend s_w]; splits; try (destruct (0 <? n); discriminate).
    all: intros i Hi A B; destruct (H3 i Hi A B).
  - destruct Hc as (Hk & _). destruct (is_free _) eqn:Ef; [|discriminate]. injection E as <-. apply G; auto; try discriminate.
    cbn. intros A B. exfalso. exact (H3 k Hk A B).
  - destruct Hc as (Hk & _). injection E as <-. apply G; auto; try (destruct (negb plain && negb (is_exit m)); discriminate).
    + intros j Hj W. destruct W.
    + intros _ _. destruct (negb plain && negb (is_exit m)); reflexivity.
  - injection E as <-. apply G; auto; try discriminate. cbn. auto.
  - injection E as <-. apply G; auto; try discriminate. cbn. auto.
  - destruct Hc as (Hk & _). injection E as <-. apply G; auto; try discriminate. cbn. auto.
  - destruct Hc as (Hk & _). injection E as <-. apply G; auto; try (unfold next_wake; destruct (S k <? n); [discriminate|destruct m; discriminate]).
    + intros j Hj W. cbn in W. congruence.
    + destruct (at_blocked (w_pc (s_w s k))) eqn:Eb; [cbn; discriminate|]. intros A. rewrite A in Eb. discriminate.
  - injection E as <-. unfold LInv. cbn [s_c s_pend s_w]. destruct (Z.eqb_spec (s_pend s) 0); splits; try discriminate; auto;
      intros i Hi A B; destruct (H3 i Hi A B).
  - injection E as <-. unfold LInv. cbn [s_c s_pend s_w]. splits; try discriminate; auto.
  - discriminate.
  - destruct (k <? n); [destruct (at_gone _); [|discriminate]|]; injection E as <-; unfold LInv; cbn [s_c s_pend s_w]; splits; try discriminate; auto.
  - discriminate.
Qed.

Lemma live_step s l s' : Inv s -> LInv s -> ~ gap s l -> step n plain nt l s = Some s' -> LInv s'.
Proof.
  intros HI HL Hg E. destruct l as [again|i| |i]; cbn [step] in E.
  - exact (live_c HI HL E).
  - destruct (Nat.ltb_spec i n); [|discriminate]. eapply live_w; eauto.
  - destruct HL as (H1 & H2 & H3). destruct (s_c s) eqn:Ec; try discriminate. injection E as <-.
    unfold LInv, with_c. cbn [s_c s_pend s_w]. splits; try discriminate; auto.
  - destruct (Nat.ltb_spec i n); [|discriminate]. cbn [andb] in E. destruct (at_blocked _) eqn:Eb; [|discriminate]. injection E as <-.
    destruct HL as (H1 & H2 & H3). unfold LInv, with_w. cbn [s_c s_pend s_w]. splits; auto.
    + intros Ec. destruct (H2 Ec) as [A|(j & Hj & A)]; [auto|]. right. exists j. split; [exact Hj|]. unfold set_w.
      destruct (Nat.eqb_spec j i) as [->|]; [|exact A]. destruct (w_pc (s_w s i)); discriminate.
    + intros j Hj. unfold set_w. destruct (Nat.eqb_spec j i) as [->|]; [cbn; discriminate|auto].
Qed.

(* ------------------------------------------------------------------ *)
(** * Progress *)

(** the schedules considered: no spurious wake-up, and no worker reports just
    before the coordinator starts to wait *)
Definition allowed (s : sys) (l : lab) : Prop :=
  match l with LC _ => True | LW i => ~ gap s l | _ => False end.

Lemma wloc_free nti pz w : w_pc w <> WBlocked -> w_pc w <> WGone ->
  (holds (w_pc w) = false -> w_pc w <> WTop -> w_lk w = Free) -> exists x, wloc nti pz w = Some x.
Proof.
  intros Hb Hg Hl. unfold wloc. destruct (w_pc w) eqn:Ep; try congruence; eauto.
  all: try (rewrite Hl by (auto; discriminate); cbn [is_free]; eauto).
  - destruct (is_wait (w_st w)); eauto.
  - destruct (w_nxt w <? nti); eauto.
Qed.
Lemma wstep_can i s : i < n -> s_c s <> CGo -> w_pc (s_w s i) <> WBlocked -> w_pc (s_w s i) <> WGone ->
  (holds (w_pc (s_w s i)) = false -> w_pc (s_w s i) <> WTop -> w_lk (s_w s i) = Free) ->
  exists l s', allowed s l /\ step n plain nt l s = Some s'.
Proof.
  intros Hi Hc Hb Hg Hl. destruct (@wloc_free (nt i) (s_pend s =? 0)%Z _ Hb Hg Hl) as ([[w d] sg] & E).
  exists (LW i), (wglob i s w d sg). split.
  - cbn. intros (_ & A). congruence.
  - cbn [step]. destruct (Nat.ltb_spec i n); [|lia]. rewrite wstep_loc, E. reflexivity.
Qed.

Lemma progress s : Inv s -> LInv s -> s_c s <> CDone -> exists l s', allowed s l /\ step n plain nt l s = Some s'.
Proof.
  intros (Hc & Hd & f & Hp & H) (H1 & H2 & H3) Hnd.
  assert (C : forall s', cstep n plain true s = Some s' -> exists l s', allowed s l /\ step n plain nt l s = Some s').
  { intros s' E. exists (LC true), s'. split; [exact I|exact E]. }
  unfold cstep in C. cbn zeta in C.
  destruct (s_c s) as [|m k|m k|k|k|m k|m k| | | |k|] eqn:Ec; cbn [cidx exiting] in *; try (eapply C; reflexivity); try congruence.
  - (* CLock *)
    destruct Hc as (Hk & Hm). destruct (w_lk (s_w s k)) eqn:El; cbn [is_free] in C; [eapply C; reflexivity| |].
    + exfalso. specialize (H k Hk).
      assert (A : exists r, idle plain nt false r Free k (s_w s k)) by (destruct m; cbn [SyncProofs.ph] in H; try contradiction; rewrite split_eq in H; [destruct H as (_ & A & _)|]; eauto).
      destruct A as (r & (A & _)). unfold lkok in A. rewrite El in A. destruct (holds (w_pc (s_w s k))); [destruct A|]; discriminate.
    + specialize (H k Hk).
      assert (A : exists r, idle plain nt false r Free k (s_w s k)) by (destruct m; cbn [SyncProofs.ph] in H; try contradiction; rewrite split_eq in H; [destruct H as (_ & A & _)|]; eauto).
      destruct A as (r & (A & _ & _ & _ & B)). unfold lkok in A. rewrite El in A. destruct (holds (w_pc (s_w s k))) eqn:Eh; [|discriminate].
      apply (@wstep_can k); auto; try (rewrite Ec; discriminate); try (intros E; rewrite E in Eh; discriminate); intros; congruence.
  - (* CBlocked *)
    specialize (Hp eq_refl).
    assert (Hw : (exists i, i < n /\ informing (w_pc (s_w s i)) = true) -> exists l s', allowed s l /\ step n plain nt l s = Some s').
    { intros (i & Hi & Hinf). apply (@wstep_can i); auto; try (rewrite Ec; discriminate); try (intros E; rewrite E in Hinf; discriminate).
      intros E. destruct (w_pc (s_w s i)); discriminate. }
    destruct (H2 eq_refl) as [Hz|Hw']; [|auto]. rewrite Hp in Hz.
    assert (Hex : exists i, i < n /\ f i <> 0%Z).
    { clear -Hz. induction n as [|m IH]; [cbn in Hz; congruence|]. cbn in Hz. destruct (Z.eq_dec (f m) 0) as [E|E]; [|exists m; split; [lia|exact E]].
      destruct IH as (i & Hi & Hf); [lia|]. exists i. split; [lia|exact Hf]. }
    destruct Hex as (i & Hi & Hf). destruct (H i Hi) as (Hr & [(_ & A)|(B & _)]); [congruence|].
    destruct B as (Hl & Hst & _ & Hpc). unfold lkok in Hl.
    apply (@wstep_can i); auto; try (rewrite Ec; discriminate).
    + intros E. apply (H3 i Hi E). rewrite Hst. discriminate.
    + intros E. rewrite E in Hpc. exact Hpc.
    + intros Eh _. rewrite Eh in Hl. exact Hl.
  - (* CJoin *)
    destruct (Nat.ltb_spec k n) as [Hk|Hk]; [|eapply C; reflexivity].
    specialize (H k Hk). destruct H as (Hl & Hst & _ & Hpc). unfold lkok in Hl.
    destruct (at_gone (w_pc (s_w s k))) eqn:Eg; [eapply C; reflexivity|].
    apply (@wstep_can k); auto; try (rewrite Ec; discriminate).
    + intros E. apply (H3 k Hk E). rewrite Hst. discriminate.
    + intros E. rewrite E in Eg. discriminate.
    + intros Eh _. rewrite Eh in Hl. exact Hl.
Qed.

(* ------------------------------------------------------------------ *)
(** * Termination *)

Definition rk (p : wpc) : nat :=
  match p with
  | WDec => 0 | WHas => 1 | WReq => 2 | WRun => 3 | WExitT => 4 | WUnlock1 => 5 | WTop => 5
  | WUnlock2 => 6 | WLoop => 6 | WLock => 7 | WRelock => 7 | WBlocked => 8 | _ => 0
  end.
Definition irk (p : wpc) : nat :=
  match p with
  | WSet => 11 | WTest => 10 | WSig => 9 | WUnlock2 => 5 | WTop => 4 | WLock => 3 | WRelock => 3 | WLoop => 2 | WBlocked => 1 | _ => 0
  end.
Definition future (c : cpc) (i : nat) : bool :=
  match c with
  | CLock _ k | CSet _ k => k <=? i
  | CReset k | CGet k | CUnl _ k | CSig _ k => k <? i
  | _ => false
  end.
Definition midp (c : cpc) (i : nat) : bool := match c with CReset k | CGet k => i =? k | _ => false end.
Definition sigp (c : cpc) (i : nat) : nat := match c with CUnl _ k | CSig _ k => if i =? k then 4 else 0 | _ => 0 end.
Definition ww (c : cpc) (i : nat) (w : worker) : nat :=
  if future c i then irk (w_pc w) + 8 * nt i + 40
  else if midp c i then 16 + 8 * nt i + rk (w_pc w)
  else sigp c i + match w_st w with
       | WAIT => irk (w_pc w)
       | WORK => match w_pc w with WSet => 11 | p => 12 + 8 * (nt i - w_nxt w) + rk p end
       | EXIT => rk (w_pc w)
       end.
Definition cw (c : cpc) : nat :=
  match c with
  | CLock _ k => n + 2 + 6 * (n - k)
  | CSet _ k => n + 1 + 6 * (n - k)
  | CReset k => n + 6 * (n - k)
  | CGet k => n + 6 * (n - k) - 1
  | CUnl _ k => n + 6 * (n - k) - 2
  | CSig _ k => n + 6 * (n - k) - 3
  | CTest => 2 | CGo => 1 | CBlocked => 0
  | CJoin k => S (n - k)
  | CIdle | CDone => 0
  end.
Definition measure (s : sys) : Z := (Z.of_nat (cw (s_c s)) + sumf n (fun i => Z.of_nat (ww (s_c s) i (s_w s i))))%Z.
Lemma measure_nonneg s : (0 <= measure s)%Z.
Proof. unfold measure. pose proof (@sumf_nonneg n (fun i => Z.of_nat (ww (s_c s) i (s_w s i)))) as H. assert (forall i, i < n -> (0 <= Z.of_nat (ww (s_c s) i (s_w s i)))%Z) by lia. specialize (H H0). lia. Qed.

(** which predicate of SyncProofs a worker can satisfy *)
Lemma ww_loc c r i w fi pz w' d sg : i < n -> cidx n c -> c <> CIdle -> ph c r i w fi -> wloc (nt i) pz w = Some (w', d, sg) ->
  ww c i w' + (if sg then 4 else 1) <= ww c i w.
Proof.
  intros Hi Hc Hci H E.
  assert (I : forall r L, idle plain nt false r L i w -> irk (w_pc w') + (if sg then 4 else 1) <= irk (w_pc w) /\ w_st w' = WAIT /\ w_pc w' <> WSet).
  { intros r0 L (Hl & _ & _ & _ & Hp). unfold wloc in E. destruct (w_pc w) eqn:Ep; try contradiction; rewrite ?Hp in E; cbn [is_wait] in E; try discriminate E.
    all: repeat match type of E with (if ?b then _ else _) = _ => destruct b end; try discriminate E; injection E as <- <- <-; cbn; rewrite ?Hp; splits; auto; try lia; try discriminate.
    all: destruct pz; cbn; try lia; discriminate. }
  assert (B : forall r L, busy plain nt false r L i w ->
     match w_st w' with WAIT => irk (w_pc w') | WORK => match w_pc w' with WSet => 11 | p => 12 + 8 * (nt i - w_nxt w') + rk p end | EXIT => rk (w_pc w') end + (if sg then 4 else 1)
     <= 12 + 8 * (nt i - w_nxt w) + rk (w_pc w) /\ w_pc w <> WSet).
  { intros r0 L (Hl & Hst & _ & Hp). unfold wloc in E. destruct (w_pc w) eqn:Ep; try contradiction; rewrite ?Hst in E; cbn [is_wait is_exit] in E; try discriminate E.
    all: try (destruct (is_free (w_lk w)); [|discriminate E]).
    all: try (destruct (Nat.ltb_spec (w_nxt w) (nt i))).
    all: injection E as <- <- <-; cbn [w_pc_ w_lk_ w_st_ w_pc w_st w_nxt rk irk]; rewrite ?Hst; cbn [rk irk]; splits; try discriminate; lia. }
  assert (M : forall r, mid plain nt false r i w -> rk (w_pc w') + (if sg then 4 else 1) <= rk (w_pc w)).
  { intros r0 (Hl & Hst & _ & _ & Hp). unfold wloc in E. destruct (w_pc w) eqn:Ep; try contradiction; rewrite ?Hst, ?Hl in E; cbn [is_wait is_exit is_free] in E; try discriminate E.
    all: injection E as <- <- <-; cbn; lia. }
  assert (V : forall r L, leaving nt false r L i w -> rk (w_pc w') + (if sg then 4 else 1) <= rk (w_pc w) /\ w_st w' = EXIT /\ w_st w = EXIT).
  { intros r0 L (Hl & Hst & _ & Hp). unfold wloc in E. destruct (w_pc w) eqn:Ep; try contradiction; rewrite ?Hst in E; cbn [is_wait is_exit] in E; try discriminate E.
    all: try (destruct (is_free (w_lk w)); [|discriminate E]).
    all: injection E as <- <- <-; cbn; splits; auto; lia. }
  (* the three shapes of the weight *)
  assert (F1 : forall r L, idle plain nt false r L i w -> irk (w_pc w') + 8 * nt i + 40 + (if sg then 4 else 1) <= irk (w_pc w) + 8 * nt i + 40) by (intros r0 L A; destruct (I _ _ A) as (A1 & _); lia).
  assert (F2 : forall x r fi, after plain nt false r i w fi ->
     x + match w_st w' with WAIT => irk (w_pc w') | WORK => match w_pc w' with WSet => 11 | p => 12 + 8 * (nt i - w_nxt w') + rk p end | EXIT => rk (w_pc w') end + (if sg then 4 else 1)
     <= x + match w_st w with WAIT => irk (w_pc w) | WORK => match w_pc w with WSet => 11 | p => 12 + 8 * (nt i - w_nxt w) + rk p end | EXIT => rk (w_pc w) end).
  { intros x r0 fi0 [(A & _)|(A & _)].
    - destruct (I _ _ A) as (A1 & A2 & A3). rewrite A2. destruct A as (_ & _ & _ & _ & Hp). destruct (w_pc w); try contradiction; rewrite Hp; cbn in *; lia.
    - destruct (B _ _ A) as (A1 & A2). destruct A as (_ & Hst & _). rewrite Hst. destruct (w_pc w); try congruence; lia. }
  assert (F2b : forall x r L, busy plain nt false r L i w ->
     x + match w_st w' with WAIT => irk (w_pc w') | WORK => match w_pc w' with WSet => 11 | p => 12 + 8 * (nt i - w_nxt w') + rk p end | EXIT => rk (w_pc w') end + (if sg then 4 else 1)
     <= x + match w_st w with WAIT => irk (w_pc w) | WORK => match w_pc w with WSet => 11 | p => 12 + 8 * (nt i - w_nxt w) + rk p end | EXIT => rk (w_pc w) end).
  { intros x r0 L A. destruct (B _ _ A) as (A1 & A2). destruct A as (_ & Hst & _). rewrite Hst. destruct (w_pc w); try congruence; lia. }
  assert (F3 : forall x r L, leaving nt false r L i w ->
     x + match w_st w' with WAIT => irk (w_pc w') | WORK => match w_pc w' with WSet => 11 | p => 12 + 8 * (nt i - w_nxt w') + rk p end | EXIT => rk (w_pc w') end + (if sg then 4 else 1)
     <= x + match w_st w with WAIT => irk (w_pc w) | WORK => match w_pc w with WSet => 11 | p => 12 + 8 * (nt i - w_nxt w) + rk p end | EXIT => rk (w_pc w) end).
  { intros x r0 L A. destruct (V _ _ A) as (A1 & A2 & A3). rewrite A2, A3. lia. }
  unfold ww. destruct c as [|m k|m k|k|k|m k|m k| | | |k|]; try (destruct m; [cbn in Hc; tauto| |]); cbn [SyncProofs.ph future midp sigp] in *; try congruence.
  all: try (apply split_cases in H as [(L & H)|[(L & H)|(L & H)]]).
  all: repeat match goal with |- context [?k <=? ?i] => destruct (Nat.leb_spec k i); try lia | |- context [?k <? ?i] => destruct (Nat.ltb_spec k i); try lia | |- context [?k =? ?i] => destruct (Nat.eqb_spec k i); try lia end.
  all: try (eapply F2; apply H).
  all: try (eapply F3; apply H).
  all: try (eapply F1; apply H).
  all: try (eapply F2b; apply H).
  all: destruct H as (_ & H & _); pose proof (M _ H); lia.
Qed.

Lemma measure_set c r p d b f i w :
  i < n -> measure (mkSys c r p d b (set_w f i w)) = (measure (mkSys c r p d b f) - Z.of_nat (ww c i (f i)) + Z.of_nat (ww c i w))%Z.
Proof.
  intros Hi. unfold measure. cbn [s_c s_w].
  assert (E : sumf n (fun j => Z.of_nat (ww c j (set_w f i w j))) = sumf n (fset (fun j => Z.of_nat (ww c j (f j))) i (Z.of_nat (ww c i w)))).
  { apply sumf_ext. intros j Hj. unfold set_w, fset. destruct (Nat.eqb_spec j i) as [->|]; reflexivity. }
  rewrite E, sumf_set by exact Hi. lia.
Qed.

Lemma measure_w s i s' : i < n -> Inv s -> s_c s <> CIdle -> wstep nt i s = Some s' -> (measure s' < measure s)%Z.
Proof.
  intros Hi (Hc & _ & f & _ & H) Hni E. rewrite wstep_loc in E. destruct (wloc _ _ _) as [[[w' d] sg]|] eqn:El; [|discriminate]. injection E as <-.
  pose proof (ww_loc Hi Hc Hni (H i Hi) El) as Hw.
  assert (Hm : measure (mkSys (s_c s) (s_rnd s) (s_pend s - d) (s_dead s) (s_bad s) (set_w (s_w s) i w')) = (measure s - Z.of_nat (ww (s_c s) i (s_w s i)) + Z.of_nat (ww (s_c s) i w'))%Z).
  { rewrite measure_set by exact Hi. reflexivity. }
  unfold wglob. cbn zeta. destruct sg; [|rewrite Hm; lia].
  assert (G : (measure (c_signal (mkSys (s_c s) (s_rnd s) (s_pend s - d) (s_dead s) (s_bad s) (set_w (s_w s) i w'))) <= measure (mkSys (s_c s) (s_rnd s) (s_pend s - d) (s_dead s) (s_bad s) (set_w (s_w s) i w')) + 2)%Z).
  { unfold measure, c_signal. cbn [s_c s_w]. destruct (s_c s) eqn:Ec; cbn [cw]; try lia.
    rewrite (@sumf_ext n (fun i0 => Z.of_nat (ww CTest i0 (set_w (s_w s) i w' i0))) (fun i0 => Z.of_nat (ww CBlocked i0 (set_w (s_w s) i w' i0)))); [lia|]. intros; reflexivity. }
  rewrite Hm in G. lia.
Qed.

(** the coordinator's steps: all workers but [k] keep their weight *)
Lemma measure_k s c' k w' : k < n ->
  (forall i, i < n -> i <> k -> ww c' i (s_w s i) <= ww (s_c s) i (s_w s i)) ->
  cw c' + ww c' k w' < cw (s_c s) + ww (s_c s) k (s_w s k) ->
  forall r p d b, (measure (mkSys c' r p d b (set_w (s_w s) k w')) < measure s)%Z.
Proof.
  intros Hk Hoth Hlt r p d b. unfold measure. cbn [s_c s_w].
  assert (E : (sumf n (fun j => Z.of_nat (ww c' j (set_w (s_w s) k w' j))) <= sumf n (fset (fun j => Z.of_nat (ww (s_c s) j (s_w s j))) k (Z.of_nat (ww c' k w'))))%Z).
  { apply sumf_le. intros j Hj. unfold set_w, fset. destruct (Nat.eqb_spec j k) as [->|Hn]; [lia|]. specialize (Hoth j Hj Hn). lia. }
  rewrite sumf_set in E by exact Hk. lia.
Qed.

Ltac decide_idx := repeat match goal with
  | |- context [?k <=? ?i] => destruct (Nat.leb_spec k i); try lia
  | |- context [?k <? ?i] => destruct (Nat.ltb_spec k i); try lia
  | |- context [?k =? ?i] => destruct (Nat.eqb_spec k i); try lia end.

Lemma irk_le p : irk p <= 11. Proof. destruct p; cbn; lia. Qed.
Lemma rk_le p : rk p <= 8. Proof. destruct p; cbn; lia. Qed.

Lemma measure_c s again s' : Inv s -> s_c s <> CIdle -> cstep n plain again s = Some s' -> s_c s' <> CIdle -> (measure s' < measure s)%Z.
Proof.
  intros (Hc & Hd & f & Hp & H) Hni E Hni'. unfold cstep in E. cbn zeta in E. unfold with_c, with_w in E. cbn [s_c s_rnd s_pend s_dead s_bad s_w] in E.
  destruct (s_c s) as [|m k|m k|k|k|m k|m k| | | |k|] eqn:Ec; cbn [cidx] in Hc; try congruence.
  - destruct Hc as (Hk & _). destruct (is_free _) eqn:Ef; [|discriminate]. injection E as <-. apply measure_k; rewrite ?Ec; auto.
    unfold ww. cbn [future cw w_lk_ w_pc]. rewrite Nat.leb_refl. lia.
  - destruct Hc as (Hk & Hm). injection E as <-. set (c' := if negb plain && negb (is_exit m) then CReset k else CUnl m k).
    apply measure_k; rewrite ?Ec; auto.
    + intros i Hi Hik. unfold c'. destruct (negb plain && negb (is_exit m)); unfold ww; cbn [future midp sigp]; decide_idx.
    + pose proof (rk_le (w_pc (s_w s k))). pose proof (irk_le (w_pc (s_w s k))). specialize (H k Hk).
      unfold c'. destruct (negb plain && negb (is_exit m)); unfold ww; cbn [future midp sigp cw w_st_ w_pc w_st w_nxt]; rewrite Nat.leb_refl, Nat.ltb_irrefl, Nat.eqb_refl; [lia|].
      destruct m; [congruence| |lia]. assert (8 * (nt k - w_nxt (s_w s k)) <= 8 * nt k) by lia. destruct (w_pc (s_w s k)); lia.
  - injection E as <-. apply measure_k; rewrite ?Ec; auto. unfold ww. cbn [future midp cw w_pc]. rewrite Nat.ltb_irrefl, Nat.eqb_refl. lia.
  - injection E as <-. apply measure_k; rewrite ?Ec; auto.
    + intros i Hi Hik. unfold ww. cbn [future midp sigp]. decide_idx.
    + specialize (H k Hc). cbn [SyncProofs.ph] in H. rewrite split_eq in H. destruct H as (_ & (_ & Hst & _ & _ & Hpc) & Hz & _).
      unfold ww. cbn [future midp sigp cw w_pc w_st w_nxt]. rewrite Nat.ltb_irrefl, Nat.eqb_refl, Hst, Hz. destruct (w_pc (s_w s k)); try contradiction; cbn [rk]; lia.
  - destruct Hc as (Hk & Hm). injection E as <-. apply measure_k; rewrite ?Ec; auto.
    unfold ww. cbn [future midp sigp cw w_lk_ w_pc w_st w_nxt]. lia.
  - destruct Hc as (Hk & Hm). injection E as <-.
    assert (Hnx : forall i w, i < n -> i <> k -> ww (next_wake n m k) i w <= ww (CSig m k) i w).
    { intros i w Hi Hik. unfold next_wake. destruct (Nat.ltb_spec (S k) n); [|destruct m]; unfold ww; cbn [future midp sigp]; decide_idx; lia. }
    apply measure_k; rewrite ?Ec; auto.
    assert (Hcw : cw (next_wake n m k) < cw (CSig m k)) by (unfold next_wake; destruct (Nat.ltb_spec (S k) n); [|destruct m]; cbn [cw]; lia).
    assert (Hnf : future (next_wake n m k) k = false /\ midp (next_wake n m k) k = false /\ sigp (next_wake n m k) k = 0).
    { unfold next_wake. destruct (Nat.ltb_spec (S k) n); [|destruct m]; cbn [future midp sigp]; splits; auto; destruct (Nat.leb_spec (S k) k); try lia; reflexivity. }
    destruct Hnf as (N1 & N2 & N3). unfold ww at 1. rewrite N1, N2, N3. unfold ww. cbn [future midp sigp]. rewrite Nat.ltb_irrefl, Nat.eqb_refl.
    destruct (at_blocked (w_pc (s_w s k))) eqn:Eb; [|lia]. destruct (w_pc (s_w s k)); try discriminate. cbn [w_pc_ w_pc w_st w_nxt rk irk].
    destruct (w_st (s_w s k)); lia.
  - injection E as <-. cbn [s_c] in *. destruct (Z.eqb_spec (s_pend s) 0); [congruence|]. unfold measure. cbn [s_c s_w cw]. rewrite Ec. cbn [cw].
    rewrite (@sumf_ext n (fun i => Z.of_nat (ww CGo i (s_w s i))) (fun i => Z.of_nat (ww CTest i (s_w s i)))); [lia|]. intros; reflexivity.
  - injection E as <-. unfold measure. cbn [s_c s_w cw]. rewrite Ec. cbn [cw].
    rewrite (@sumf_ext n (fun i => Z.of_nat (ww CBlocked i (s_w s i))) (fun i => Z.of_nat (ww CGo i (s_w s i)))); [lia|]. intros; reflexivity.
  - destruct (Nat.ltb_spec k n).
    + destruct (at_gone _); [|discriminate]. injection E as <-. unfold measure. cbn [s_c s_w cw]. rewrite Ec. cbn [cw].
      rewrite (@sumf_ext n (fun i => Z.of_nat (ww (CJoin (S k)) i (s_w s i))) (fun i => Z.of_nat (ww (CJoin k) i (s_w s i)))); [lia|]. intros; reflexivity.
    + injection E as <-. unfold measure. cbn [s_c s_w cw]. rewrite Ec. cbn [cw].
      rewrite (@sumf_ext n (fun i => Z.of_nat (ww CDone i (s_w s i))) (fun i => Z.of_nat (ww (CJoin k) i (s_w s i)))); [lia|]. intros; reflexivity.
Qed.

(* ------------------------------------------------------------------ *)
(** * Inevitability *)
Lemma step_both s l s' : Inv s -> LInv s -> ~ gap s l -> step n plain nt l s = Some s' -> Inv s' /\ LInv s'.
Proof.
  intros HI HL Hg E. split; [|exact (live_step HI HL Hg E)]. eapply inv_step; eauto; intros _ A; discriminate A.
Qed.

Definition at_rest (s : sys) : Prop := s_c s = CIdle \/ s_c s = CDone.

End Live.

(** in every allowed continuation of [s], [P] comes true: it holds now, or some
    step is possible and after every possible step it is inevitable *)
Inductive inevitable (n : nat) (plain : bool) (nt : nat -> nat) (P : sys -> Prop) : sys -> Prop :=
| inev_now s : P s -> inevitable n plain nt P s
| inev_later s :
    (exists l s', allowed s l /\ step n plain nt l s = Some s') ->
    (forall l s', allowed s l -> step n plain nt l s = Some s' -> inevitable n plain nt P s') ->
    inevitable n plain nt P s.

Section Live2.
Variable n : nat.
Variable plain : bool.
Variable nt : nat -> nat.
Hypothesis Hnt : forall i, i < n -> 1 <= nt i.
Hypothesis Hplain : plain = true -> forall i, i < n -> nt i = 1.

Lemma inev s : SInv n plain nt false s -> LInv n s -> inevitable n plain nt at_rest s.
Proof.
  remember (Z.to_nat (measure n nt s)) as m eqn:Em. revert s Em.
  induction m as [m IH] using lt_wf_ind. intros s Em HI HL.
  assert (Hdec : at_rest s \/ ~ at_rest s) by (unfold at_rest; destruct (s_c s); auto; right; intros [|]; discriminate).
  destruct Hdec as [Hr|Hr]; [apply inev_now; exact Hr|].
  assert (Hni : s_c s <> CIdle /\ s_c s <> CDone) by (unfold at_rest in Hr; tauto). destruct Hni as (Hni & Hnd).
  apply inev_later.
  - eapply progress; eauto.
  - intros l s' Ha E.
    assert (Hg : ~ gap s l) by (destruct l; cbn in *; auto).
    destruct (@step_both n plain nt Hnt Hplain s l s' HI HL Hg E) as (HI' & HL').
    destruct (s_c s') eqn:Ec'; try (apply inev_now; left; exact Ec').
    all: assert (Hd' : (measure n nt s' < measure n nt s)%Z)
      by (destruct l as [ag|jj| |jj]; cbn [allowed step] in Ha, E; try contradiction;
          [eapply measure_c; eauto; rewrite Ec'; discriminate|destruct (Nat.ltb_spec jj n); [eapply measure_w; eauto|discriminate]]).
    all: eapply IH; [|reflexivity|exact HI'|exact HL']; assert (0 <= measure n nt s')%Z by (eapply measure_nonneg; eauto); lia.
Qed.
End Live2.
