(** Invariants of the hand-over protocol (SyncModel). *)
From Verif Require Import Base MatLemmas SyncModel.
Set Implicit Arguments.
Unset Strict Implicit.

(* ------------------------------------------------------------------ *)
(** * Sums over the workers *)
Fixpoint sumf (n : nat) (f : nat -> Z) : Z := match n with 0 => 0%Z | S m => (f m + sumf m f)%Z end.
Definition fset (f : nat -> Z) (i : nat) (v : Z) : nat -> Z := fun j => if j =? i then v else f j.
Lemma sumf_ext n f g : (forall i, i < n -> f i = g i) -> sumf n f = sumf n g.
Proof. induction n as [|n IH]; intros H; [reflexivity|]. cbn. rewrite (H n), IH; auto. Qed.
Lemma sumf_set n f i v : i < n -> sumf n (fset f i v) = (sumf n f - f i + v)%Z.
Proof.
  induction n as [|n IH]; intros H; [lia|]. cbn. destruct (Nat.eqb_spec i n) as [->|Hn].
  - assert (E : fset f n v n = v) by (unfold fset; rewrite Nat.eqb_refl; reflexivity). rewrite E.
    rewrite (@sumf_ext n (fset f n v) f); [lia|]. intros j Hj. unfold fset. destruct (Nat.eqb_spec j n); [lia|reflexivity].
  - rewrite IH by lia. assert (E : fset f i v n = f n) by (unfold fset; destruct (Nat.eqb_spec n i); [lia|reflexivity]). rewrite E. lia.
Qed.
Lemma sumf_const n v : sumf n (fun _ => v) = (Z.of_nat n * v)%Z.
Proof. induction n as [|n IH]; [reflexivity|]. cbn [sumf]. rewrite IH. lia. Qed.
Lemma sumf_nonneg n f : (forall i, i < n -> (0 <= f i)%Z) -> (0 <= sumf n f)%Z.
Proof. induction n as [|n IH]; intros H; cbn; [lia|]. pose proof (H n). assert (0 <= sumf n f)%Z by (apply IH; auto). lia. Qed.
Lemma sumf_zero n f : (forall i, i < n -> (0 <= f i)%Z) -> sumf n f = 0%Z -> forall i, i < n -> f i = 0%Z.
Proof.
  induction n as [|n IH]; intros H E i Hi; [lia|]. cbn in E. pose proof (H n ltac:(lia)). assert (0 <= sumf n f)%Z by (apply sumf_nonneg; auto).
  destruct (Nat.eq_dec i n) as [->|Hn]; [lia|]. apply IH; auto; lia.
Qed.
Lemma sumf_le n f g : (forall i, i < n -> (f i <= g i)%Z) -> (sumf n f <= sumf n g)%Z.
Proof. induction n as [|n IH]; intros H; cbn; [lia|]. pose proof (H n ltac:(lia)). assert (sumf n f <= sumf n g)%Z by (apply IH; auto). lia. Qed.

(* ------------------------------------------------------------------ *)
(** * A worker's step, seen locally: new worker, decrements, signals *)
Definition wloc (nti : nat) (pz : bool) (w : worker) : option (worker * Z * bool) :=
  let go p := Some (w_pc_ w p, 0%Z, false) in
  match w_pc w with
  | WTop => go (if is_wait (w_st w) then WLock else WExitT)
  | WLock | WRelock => if is_free (w_lk w) then Some (w_lk_ (w_pc_ w WLoop) Self, 0%Z, false) else None
  | WLoop => if is_wait (w_st w) then Some (w_lk_ (w_pc_ w WBlocked) Free, 0%Z, false) else go WUnlock1
  | WBlocked => None
  | WUnlock1 => Some (w_lk_ (w_pc_ w WExitT) Free, 0%Z, false)
  | WExitT => go (if is_exit (w_st w) then WGone else WRun)
  | WRun => Some (mkW WReq (w_lk w) (w_st w) (w_nxt w) (w_cur w) (w_log w ++ [w_cur w]), 0%Z, false)
  | WReq => if is_free (w_lk w) then Some (w_lk_ (w_pc_ w WHas) Self, 0%Z, false) else None
  | WHas =>
    if w_nxt w <? nti
    then Some (mkW WUnlock2 (w_lk w) (w_st w) (S (w_nxt w)) (Some (w_nxt w)) (w_log w), 0%Z, false)
    else go WDec
  | WDec => Some (w_pc_ w WSet, 1%Z, false)
  | WSet => Some (w_st_ (w_pc_ w WTest) WAIT, 0%Z, false)
  | WTest => go (if pz then WSig else WUnlock2)
  | WSig => Some (w_pc_ w WUnlock2, 0%Z, true)
  | WUnlock2 => Some (w_lk_ (w_pc_ w WTop) Free, 0%Z, false)
  | WGone => None
  end.

(** the whole system after a worker's local step *)
Definition wglob (i : nat) (s : sys) (w : worker) (d : Z) (sg : bool) : sys :=
  let s' := mkSys (s_c s) (s_rnd s) (s_pend s - d) (s_dead s) (s_bad s) (set_w (s_w s) i w) in
  if sg then c_signal s' else s'.

Lemma sys_eta s : s = mkSys (s_c s) (s_rnd s) (s_pend s) (s_dead s) (s_bad s) (s_w s).
Proof. destruct s; reflexivity. Qed.

Lemma wstep_loc nt i s : wstep nt i s =
  match wloc (nt i) (s_pend s =? 0)%Z (s_w s i) with
  | Some (w, d, sg) => Some (wglob i s w d sg)
  | None => None
  end.
Proof.
  unfold wstep, wloc, wglob, with_w, c_signal. cbn zeta.
  destruct (w_pc (s_w s i)); cbn [s_c s_rnd s_pend s_dead s_bad s_w]; rewrite ?Z.sub_0_r; try reflexivity.
  all: destruct (is_free (w_lk (s_w s i))); cbn [s_c s_rnd s_pend s_dead s_bad s_w]; rewrite ?Z.sub_0_r; try reflexivity.
  all: try (destruct (is_wait (w_st (s_w s i))); cbn; rewrite ?Z.sub_0_r; reflexivity).
  all: try (destruct (w_nxt (s_w s i) <? nt i); cbn; rewrite ?Z.sub_0_r; reflexivity).
Qed.

(** splitting on the position of [j] relative to [k] *)
Lemma split_lt j k (a b c : Prop) : j < k -> (if j <? k then a else if j =? k then b else c) = a.
Proof. intros H. destruct (Nat.ltb_spec j k); [reflexivity|lia]. Qed.
Lemma split_eq k (a b c : Prop) : (if k <? k then a else if k =? k then b else c) = b.
Proof. rewrite Nat.ltb_irrefl, Nat.eqb_refl. reflexivity. Qed.
Lemma split_gt j k (a b c : Prop) : k < j -> (if j <? k then a else if j =? k then b else c) = c.
Proof. intros H. destruct (Nat.ltb_spec j k); [lia|]. destruct (Nat.eqb_spec j k); [lia|reflexivity]. Qed.

Lemma split_cases j k (a b c : Prop) : (if j <? k then a else if j =? k then b else c) ->
  (j < k /\ a) \/ (j = k /\ b) \/ (k < j /\ c).
Proof. destruct (Nat.ltb_spec j k); [auto|]. destruct (Nat.eqb_spec j k); [auto|]. right. right. split; [lia|assumption]. Qed.

(* ------------------------------------------------------------------ *)
(** * The invariant *)
Section Inv.
Variable n : nat.
Variable plain : bool.
Variable nt : nat -> nat.
Hypothesis Hnt : forall i, i < n -> 1 <= nt i.
Hypothesis Hplain : plain = true -> forall i, i < n -> nt i = 1.
(** [ex]: the schedule never lets a queue worker test its state while it is being woken *)
Variable ex : bool.

Definition tasks_of (i p : nat) : list (option nat) := map Some (seq 0 p).
Definition rounds (i r : nat) : list (option nat) := concat (repeat (map Some (seq 0 (nt i))) r).
Lemma rounds_S i r : rounds i (S r) = rounds i r ++ tasks_of i (nt i).
Proof.
  unfold rounds, tasks_of. rewrite <- (Nat.add_1_r r). rewrite repeat_app, concat_app. cbn. rewrite app_nil_r. reflexivity.
Qed.
Lemma tasks_S i p : tasks_of i (S p) = tasks_of i p ++ [Some p].
Proof. unfold tasks_of. rewrite seq_S, map_app. reflexivity. Qed.

Definition holds (p : wpc) : bool :=
  match p with WLoop | WUnlock1 | WHas | WDec | WSet | WTest | WSig | WUnlock2 => true | _ => false end.
Definition lkok (L : holder) (w : worker) : Prop :=
  if holds (w_pc w) then w_lk w = Self /\ L = Free else w_lk w = L.

Definition idle (r : nat) (L : holder) (i : nat) (w : worker) : Prop :=
  lkok L w /\ (ex = true -> w_log w = rounds i r) /\ w_nxt w = nt i /\ (plain = true -> w_cur w = Some 0) /\
  match w_pc w with
  | WTop | WLock | WLoop | WBlocked | WRelock | WTest | WSig | WUnlock2 => w_st w = WAIT
  | WSet => w_st w = WORK
  | _ => False
  end.

Definition busy (r : nat) (L : holder) (i : nat) (w : worker) : Prop :=
  lkok L w /\ w_st w = WORK /\ (plain = true -> w_cur w = Some 0) /\
  match w_pc w with
  | WTop | WLock | WLoop | WBlocked | WRelock | WUnlock1 | WExitT | WRun | WUnlock2 =>
    exists p, w_nxt w = S p /\ p < nt i /\ (ex = true -> w_cur w = Some p /\ w_log w = rounds i r ++ tasks_of i p)
  | WReq | WHas => 1 <= w_nxt w <= nt i /\ (ex = true -> w_log w = rounds i r ++ tasks_of i (w_nxt w))
  | WDec => w_nxt w = nt i /\ (ex = true -> w_log w = rounds i (S r))
  | _ => False
  end.

Definition mid (r : nat) (i : nat) (w : worker) : Prop :=
  w_lk w = Coord /\ w_st w = WORK /\ plain = false /\ (ex = true -> w_log w = rounds i r) /\
  match w_pc w with
  | WTop | WLock | WBlocked | WRelock => True
  | WExitT | WRun | WReq => ex = false
  | _ => False
  end.

Definition leaving (r : nat) (L : holder) (i : nat) (w : worker) : Prop :=
  lkok L w /\ w_st w = EXIT /\ (ex = true -> w_log w = rounds i r) /\
  match w_pc w with
  | WTop | WLock | WLoop | WBlocked | WRelock | WUnlock1 | WExitT | WGone => True
  | _ => False
  end.

Definition after (r : nat) (i : nat) (w : worker) (fi : Z) : Prop :=
  (idle (S r) Free i w /\ fi = 0%Z) \/ (busy r Free i w /\ fi = 1%Z).

(** what is known of worker [i] when the coordinator is at [c]; [r] is the number
    of rounds handed out *)
Definition ph (c : cpc) (r : nat) (i : nat) (w : worker) (fi : Z) : Prop :=
  let rb := pred r in
  let aft := 1 <= r /\ after rb i w fi in
  let bef := 1 <= r /\ idle rb Free i w /\ fi = 1%Z in
  let split k (at_k a b : Prop) := if i <? k then a else if i =? k then at_k else b in
  match c with
  | CIdle => idle r Free i w /\ fi = 0%Z
  | CLock WORK k => split k bef aft bef
  | CSet WORK k => split k (1 <= r /\ idle rb Coord i w /\ fi = 1%Z) aft bef
  | CReset k => split k (1 <= r /\ mid rb i w /\ fi = 1%Z) aft bef
  | CGet k => split k (1 <= r /\ mid rb i w /\ w_nxt w = 0 /\ fi = 1%Z) aft bef
  | CUnl WORK k => split k (1 <= r /\ busy rb Coord i w /\ fi = 1%Z) aft bef
  | CSig WORK k => split k aft aft bef
  | CTest | CGo | CBlocked => aft
  | CLock EXIT k => split k (idle r Free i w) (leaving r Free i w) (idle r Free i w)
  | CSet EXIT k => split k (idle r Coord i w) (leaving r Free i w) (idle r Free i w)
  | CUnl EXIT k => split k (leaving r Coord i w) (leaving r Free i w) (idle r Free i w)
  | CSig EXIT k => split k (leaving r Free i w) (leaving r Free i w) (idle r Free i w)
  | CJoin _ | CDone => leaving r Free i w
  | _ => False
  end.

Definition exiting (c : cpc) : bool :=
  match c with
  | CLock EXIT _ | CSet EXIT _ | CUnl EXIT _ | CSig EXIT _ | CJoin _ | CDone => true
  | _ => false
  end.
Definition cidx (c : cpc) : Prop :=
  match c with
  | CLock m k | CSet m k | CUnl m k | CSig m k => k < n /\ m <> WAIT
  | CReset k | CGet k => k < n
  | _ => True
  end.

Definition SInv (s : sys) : Prop :=
  cidx (s_c s) /\ s_dead s = exiting (s_c s) /\
  exists f, (exiting (s_c s) = false -> s_pend s = sumf n f) /\
    forall i, i < n -> ph (s_c s) (s_rnd s) i (s_w s i) (f i).

(** ** Local steps preserve each worker predicate *)


Lemma idle_loc r L i w pz w' d sg : i < n -> idle r L i w -> wloc (nt i) pz w = Some (w', d, sg) ->
  idle r L i w' /\ d = 0%Z.
Proof.
  intros Hi (Hl & Hlog & Hx & Hc & Hp) E. unfold wloc in E. unfold idle, lkok in *.
  destruct (w_pc w) eqn:Ep; try contradiction; cbn [holds] in Hl; rewrite ?Hp in E; cbn [is_wait is_free] in E.
  all: try discriminate E.
  - injection E as <- <- <-. cbn; splits; try tauto; auto.
  - rewrite Hl in E. destruct L; try discriminate E. injection E as <- <- <-. cbn; splits; try tauto; auto.
  - injection E as <- <- <-. cbn. destruct Hl as (_ & ->); splits; try tauto; auto.
  - rewrite Hl in E. destruct L; try discriminate E. injection E as <- <- <-. cbn; splits; try tauto; auto.
  - injection E as <- <- <-. cbn; splits; try tauto; auto.
  - injection E as <- <- <-. destruct pz; cbn; splits; try tauto; auto.
  - injection E as <- <- <-. cbn; splits; try tauto; auto.
  - injection E as <- <- <-. cbn. destruct Hl as (_ & ->); splits; try tauto; auto.
Qed.

Lemma rounds_tasks i r p : p = nt i -> rounds i r ++ tasks_of i p = rounds i (S r).
Proof. intros ->. symmetry. apply rounds_S. Qed.

Lemma busy_loc r L i w pz w' d sg : i < n -> busy r L i w -> wloc (nt i) pz w = Some (w', d, sg) ->
  (busy r L i w' /\ d = 0%Z /\ sg = false) \/ (idle (S r) L i w' /\ d = 1%Z /\ sg = false).
Proof.
  intros Hi (Hl & Hst & Hc & Hp) E. unfold wloc in E. unfold busy, idle, lkok in *.
  destruct (w_pc w) eqn:Ep; try contradiction; cbn [holds] in Hl; rewrite ?Hst in E; cbn [is_wait is_exit is_free] in E.
  all: try discriminate E.
  - injection E as <- <- <-. left. cbn; splits; try tauto; auto.
  - rewrite Hl in E. destruct L; try discriminate E. injection E as <- <- <-. left. cbn; splits; try tauto; auto.
  - injection E as <- <- <-. left. cbn; splits; try tauto; auto.
  - rewrite Hl in E. destruct L; try discriminate E. injection E as <- <- <-. left. cbn; splits; try tauto; auto.
  - injection E as <- <- <-. left. cbn. destruct Hl as (_ & ->); splits; try tauto; auto.
  - injection E as <- <- <-. left. cbn; splits; try tauto; auto.
  - injection E as <- <- <-. left. cbn. destruct Hp as (p & Hn & Hlt & Hx). rewrite Hn. splits; auto; try lia.
    intros He. destruct (Hx He) as (-> & ->). rewrite <- app_assoc. f_equal. symmetry. apply tasks_S.
  - rewrite Hl in E. destruct L; try discriminate E. injection E as <- <- <-. left. cbn; splits; try tauto; auto.
  - destruct Hp as (Hn & Hx). destruct (Nat.ltb_spec (w_nxt w) (nt i)) as [Hlt|Hge].
    + injection E as <- <- <-. left. cbn. splits; try tauto; auto.
      * intros Epl. pose proof (Hplain Epl Hi). lia.
      * exists (w_nxt w). splits; try tauto; auto.
    + injection E as <- <- <-. left. cbn. splits; try tauto; auto. lia. intros He. rewrite (Hx He). apply rounds_tasks. lia.
  - injection E as <- <- <-. right. cbn. destruct Hp as (Hn & Hx); splits; try tauto; auto.
  - injection E as <- <- <-. left. cbn. destruct Hl as (_ & ->); splits; try tauto; auto.
Qed.

Lemma mid_loc r i w pz w' d sg : mid r i w -> (ex = true -> w_pc w = WTop -> False) -> wloc (nt i) pz w = Some (w', d, sg) ->
  mid r i w' /\ w_nxt w' = w_nxt w /\ d = 0%Z /\ sg = false.
Proof.
  intros (Hl & Hst & Hpl & Hlog & Hp) Hne E. unfold wloc in E. unfold mid in *.
  destruct (w_pc w) eqn:Ep; try contradiction; rewrite ?Hst, ?Hl in E; cbn [is_wait is_exit is_free] in E.
  all: try discriminate E.
  - injection E as <- <- <-. cbn. splits; try tauto; auto. destruct ex; [exfalso; auto|reflexivity].
  - injection E as <- <- <-. cbn. splits; try tauto; auto.
  - injection E as <- <- <-. cbn. splits; try tauto; auto. intros He. congruence.
Qed.

Lemma leaving_loc r L i w pz w' d sg : leaving r L i w -> wloc (nt i) pz w = Some (w', d, sg) ->
  leaving r L i w' /\ d = 0%Z /\ sg = false.
Proof.
  intros (Hl & Hst & Hlog & Hp) E. unfold wloc in E. unfold leaving, lkok in *.
  destruct (w_pc w) eqn:Ep; try contradiction; cbn [holds] in Hl; rewrite ?Hst in E; cbn [is_wait is_exit is_free] in E.
  all: try discriminate E.
  - injection E as <- <- <-. cbn; splits; try tauto; auto.
  - rewrite Hl in E. destruct L; try discriminate E. injection E as <- <- <-. cbn; splits; try tauto; auto.
  - injection E as <- <- <-. cbn; splits; try tauto; auto.
  - rewrite Hl in E. destruct L; try discriminate E. injection E as <- <- <-. cbn; splits; try tauto; auto.
  - injection E as <- <- <-. cbn. destruct Hl as (_ & ->); splits; try tauto; auto.
  - injection E as <- <- <-. cbn; splits; try tauto; auto.
Qed.

(** a queue worker tests its state (outside the lock) while it is being woken *)
Definition early (s : sys) (l : lab) : Prop :=
  match l with LW i => w_pc (s_w s i) = WTop /\ w_lk (s_w s i) = Coord | _ => False end.
Definition ok_lab (s : sys) (l : lab) : Prop := plain = false -> ex = true -> ~ early s l.

Lemma ph_loc c r i w fi pz w' d sg : i < n -> ph c r i w fi -> cidx c ->
  (plain = false -> ex = true -> ~ (w_pc w = WTop /\ w_lk w = Coord)) ->
  wloc (nt i) pz w = Some (w', d, sg) ->
  ph c r i w' (fi - d)%Z /\ (exiting c = true -> d = 0%Z).
Proof.
  intros Hi H Hci He E.
  assert (Id : forall r L fi, idle r L i w /\ fi = 0%Z -> idle r L i w' /\ (fi - d)%Z = 0%Z) by (intros r0 L fi0 (A & ->); destruct (idle_loc Hi A E) as (B & ->); auto).
  assert (Id1 : forall r L fi, idle r L i w /\ fi = 1%Z -> idle r L i w' /\ (fi - d)%Z = 1%Z) by (intros r0 L fi0 (A & ->); destruct (idle_loc Hi A E) as (B & ->); auto).
  assert (Id2 : forall r L, idle r L i w -> idle r L i w' /\ d = 0%Z) by (intros r0 L A; destruct (idle_loc Hi A E) as (B & ->); auto).
  assert (Lv : forall r L, leaving r L i w -> leaving r L i w' /\ d = 0%Z) by (intros r0 L A; destruct (leaving_loc A E) as (B & -> & _); auto).
  assert (Af : forall r, after r i w fi -> after r i w' (fi - d)).
  { intros r0 [A|(A & ->)]; [left; auto|]. destruct (busy_loc Hi A E) as [(B & -> & _)|(B & -> & _)]; [right|left]; auto. }
  assert (Mi : forall r, mid r i w -> mid r i w' /\ w_nxt w' = w_nxt w /\ d = 0%Z).
  { intros r0 A. destruct (mid_loc (pz := pz) (w' := w') (d := d) (sg := sg) A) as (B & C & D & _); auto.
    intros Hx Hp. pose proof A as (B & _ & C & _). exact (He C Hx (conj Hp B)). }
  assert (Bu : forall r, busy r Coord i w -> busy r Coord i w' /\ d = 0%Z).
  { intros r0 A. destruct (busy_loc Hi A E) as [(B & -> & _)|(B & -> & _)]; auto.
    exfalso. (* the decrement needs the lock *)
    destruct A as (Hl & _ & _ & Hp). unfold wloc in E. unfold lkok in Hl. destruct (w_pc w); cbn [holds] in Hl; try contradiction; try (destruct Hl; discriminate); try discriminate E.
    all: repeat match type of E with (if ?b then _ else _) = _ => destruct b end; try discriminate E; injection E as _ E _; discriminate E. }
  destruct c as [|m k|m k|k|k|m k|m k| | | |k|]; try (destruct m; [cbn in Hci; tauto| |]); cbn [ph exiting cidx] in *.
  all: try (split; [|discriminate]).
  all: try (apply Id; exact H).
  all: try (destruct H as (Hr & H); split; [exact Hr|]; apply Af; exact H).
  all: try (destruct (Lv _ _ H); auto).
  all: try (destruct (i <? k); [first [destruct H as (Hr & H); split; [exact Hr|apply Af; exact H]|destruct (Lv _ _ H) as (? & ?); auto]|]).
  all: try (destruct (i =? k); [|first [destruct H as (Hr & H); split; [exact Hr|apply Id1; exact H]|destruct (Id2 _ _ H) as (? & ?); auto]]).
  - destruct H as (Hr & H). split; [exact Hr|apply Id1; exact H].
  - destruct (Id2 _ _ H); auto.
  - destruct H as (Hr & H). split; [exact Hr|apply Id1; exact H].
  - destruct (Id2 _ _ H); auto.
  - destruct H as (Hr & H & ->). destruct (Mi _ H) as (A & B & ->). auto.
  - destruct H as (Hr & H & Hz & ->). destruct (Mi _ H) as (A & B & ->). rewrite B, Hz. auto.
  - destruct H as (Hr & H & ->). destruct (Bu _ H) as (A & ->). auto.
  - destruct (Lv _ _ H); auto.
  - destruct H as (Hr & H). split; [exact Hr|apply Af; exact H].
  - destruct (Lv _ _ H); auto.
Qed.

Lemma sig_ph c r i w fi : (match c with CBlocked => True | _ => False end) -> ph c r i w fi -> ph CTest r i w fi.
Proof. destruct c; try contradiction. cbn; splits; try tauto; auto. Qed.

Lemma inv_w s i s' : i < n -> SInv s -> (plain = false -> ex = true -> ~ early s (LW i)) -> wstep nt i s = Some s' -> SInv s'.
Proof.
  intros Hi (Hc & Hd & f & Hp & H) He E. rewrite wstep_loc in E. destruct (wloc _ _ _) as [[[w' d] sg]|] eqn:El; [|discriminate]. injection E as <-.
  destruct (ph_loc Hi (H i Hi) Hc He El) as (Hph & Hdz).
  assert (Hs : forall s'', s'' = mkSys (s_c s) (s_rnd s) (s_pend s - d) (s_dead s) (s_bad s) (set_w (s_w s) i w') -> SInv s'').
  { intros s'' ->. unfold SInv. cbn [s_c s_rnd s_pend s_dead s_w]. splits; try tauto; auto. exists (fset f i (f i - d)%Z). split.
    - intros Hx. rewrite sumf_set by exact Hi. rewrite (Hp Hx). lia.
    - intros j Hj. unfold set_w, fset. destruct (Nat.eqb_spec j i) as [->|]; auto. }
  unfold wglob. cbn zeta. destruct sg; [|apply Hs; reflexivity].
  specialize (Hs _ eq_refl). unfold c_signal. cbn [s_c s_rnd s_pend s_dead s_bad s_w].
  destruct (s_c s) eqn:Ec; try (unfold SInv in *; cbn [s_c s_rnd s_pend s_dead s_bad s_w] in *; exact Hs).
Qed.

Lemma idle_free_coord r i w : idle r Free i w -> w_lk w = Free -> idle r Coord i (w_lk_ w Coord).
Proof.
  intros (Hl & Hlog & Hx & Hc & Hp) E. unfold idle, lkok in *. cbn [w_lk_ w_pc w_lk w_log w_nxt w_cur w_st].
  destruct (w_pc w) eqn:Ep; try contradiction; cbn [holds] in *; try (destruct Hl as (Hl & _); rewrite Hl in E; discriminate); auto.
Qed.
Lemma coord_free (P : holder -> nat -> worker -> Prop) r i w :
  idle r Coord i w -> idle r Free i (w_lk_ w Free).
Proof.
  intros (Hl & Hlog & Hx & Hc & Hp). unfold idle, lkok in *. cbn [w_lk_ w_pc w_lk w_log w_nxt w_cur w_st].
  destruct (w_pc w) eqn:Ep; try contradiction; cbn [holds] in *; try (destruct Hl; discriminate); auto.
Qed.
Lemma busy_coord_free r i w : busy r Coord i w -> busy r Free i (w_lk_ w Free).
Proof.
  intros (Hl & Hs & Hc & Hp). unfold busy, lkok in *. cbn [w_lk_ w_pc w_lk w_log w_nxt w_cur w_st].
  destruct (w_pc w) eqn:Ep; try contradiction; cbn [holds] in *; try (destruct Hl; discriminate); auto.
Qed.
Lemma leaving_coord_free r i w : leaving r Coord i w -> leaving r Free i (w_lk_ w Free).
Proof.
  intros (Hl & Hs & Hc & Hp). unfold leaving, lkok in *. cbn [w_lk_ w_pc w_lk w_log w_nxt w_cur w_st].
  destruct (w_pc w) eqn:Ep; try contradiction; cbn [holds] in *; try (destruct Hl; discriminate); auto.
Qed.
Lemma idle_wake_plain r i w : i < n -> plain = true -> idle r Coord i w -> busy r Coord i (w_st_ w WORK).
Proof.
  intros Hi Epl (Hl & Hlog & Hx & Hc & Hp). unfold busy, lkok in *. cbn [w_st_ w_pc w_lk w_log w_nxt w_cur w_st].
  assert (G : exists p, w_nxt w = S p /\ p < nt i /\ (ex = true -> w_cur w = Some p /\ w_log w = rounds i r ++ tasks_of i p)).
  { exists 0. rewrite Hx. pose proof (Hplain Epl Hi) as E1. splits; try lia. intros He. split; [auto|]. rewrite (Hlog He). cbn. rewrite app_nil_r. reflexivity. }
  destruct (w_pc w) eqn:Ep; try contradiction; cbn [holds] in *; try (destruct Hl; discriminate); auto.
Qed.
Lemma idle_wake_queue r i w : plain = false -> idle r Coord i w -> mid r i (w_st_ w WORK).
Proof.
  intros Epl (Hl & Hlog & Hx & Hc & Hp). unfold mid, lkok in *. cbn [w_st_ w_pc w_lk w_log w_nxt w_cur w_st].
  destruct (w_pc w) eqn:Ep; try contradiction; cbn [holds] in *; try (destruct Hl; discriminate); auto.
Qed.
Lemma idle_exit r i w : idle r Coord i w -> leaving r Coord i (w_st_ w EXIT).
Proof.
  intros (Hl & Hlog & Hx & Hc & Hp). unfold leaving, lkok in *. cbn [w_st_ w_pc w_lk w_log w_nxt w_cur w_st].
  destruct (w_pc w) eqn:Ep; try contradiction; cbn [holds] in *; try (destruct Hl; discriminate); auto.
Qed.
Lemma mid_get r i w : i < n -> mid r i w -> w_nxt w = 0 ->
  busy r Coord i (mkW (w_pc w) (w_lk w) (w_st w) (S (w_nxt w)) (Some (w_nxt w)) (w_log w)).
Proof.
  intros Hi (Hl & Hs & Hpl & Hlog & Hp) Hz. unfold busy, lkok. cbn [w_pc w_lk w_log w_nxt w_cur w_st]. rewrite Hz. pose proof (Hnt Hi) as Hn1.
  assert (G : exists p, 1 = S p /\ p < nt i /\ (ex = true -> Some 0 = Some p /\ w_log w = rounds i r ++ tasks_of i p)).
  { exists 0. splits; try lia. intros He. rewrite (Hlog He). cbn. rewrite app_nil_r. auto. }
  assert (G2 : ex = false -> 1 <= 1 <= nt i /\ (ex = true -> w_log w = rounds i r ++ tasks_of i 1)) by (intros ->; split; [lia|discriminate]).
  destruct (w_pc w) eqn:Ep; try contradiction; cbn [holds] in *; splits; try tauto; auto.
Qed.
Lemma sig_after r i w fi : after r i w fi -> after r i (if at_blocked (w_pc w) then w_pc_ w WRelock else w) fi.
Proof.
  destruct (at_blocked (w_pc w)) eqn:E; [|auto]. destruct (w_pc w) eqn:Ep; try discriminate.
  intros [(A & ->)|(A & ->)]; [left|right]; split; auto; [unfold idle, lkok in *|unfold busy, lkok in *]; rewrite Ep in A; cbn in *; exact A.
Qed.
Lemma sig_leaving r i w : leaving r Free i w -> leaving r Free i (if at_blocked (w_pc w) then w_pc_ w WRelock else w).
Proof.
  destruct (at_blocked (w_pc w)) eqn:E; [|auto]. destruct (w_pc w) eqn:Ep; try discriminate.
  intros A. unfold leaving, lkok in *. rewrite Ep in A. cbn in *. exact A.
Qed.

(** change only worker [k] and the coordinator's position *)
Lemma inv_k s c' k w' d r' : k < n ->
  cidx (s_c s) -> cidx c' -> s_dead s = exiting (s_c s) -> exiting c' = exiting (s_c s) -> r' = s_rnd s -> d = s_dead s ->
  forall f, (exiting (s_c s) = false -> s_pend s = sumf n f) ->
  (forall i, i < n -> i <> k -> ph c' r' i (s_w s i) (f i)) -> ph c' r' k w' (f k) ->
  forall b, SInv (mkSys c' r' (s_pend s) d b (set_w (s_w s) k w')).
Proof.
  intros Hk Hc Hc' Hd He -> -> f Hp H Hw b. unfold SInv. cbn [s_c s_rnd s_pend s_dead s_w]. splits; auto; [congruence|].
  exists f. split; [rewrite He; exact Hp|]. intros i Hi. unfold set_w. destruct (Nat.eqb_spec i k) as [->|]; auto.
Qed.

Lemma inv_c s again s' : SInv s -> cstep n plain again s = Some s' -> SInv s'.
Proof.
  intros (Hc & Hd & f & Hp & H) E. unfold cstep in E. cbn zeta in E. unfold with_c, with_w in E. cbn [s_c s_rnd s_pend s_dead s_bad s_w] in E.
  destruct (s_c s) as [|m k|m k|k|k|m k|m k| | | |k|] eqn:Ec.
  - (* CIdle *)
    cbn [exiting] in *. destruct again; injection E as <-; unfold SInv; cbn [s_c s_rnd s_pend s_dead s_w].
    + assert (Ex : exiting (if 0 <? n then CLock WORK 0 else CTest) = false) by (destruct (0 <? n); reflexivity).
      rewrite Ex. splits; [destruct (Nat.ltb_spec 0 n); cbn; auto; split; [lia|discriminate]|exact Hd|].
      exists (fun _ => 1%Z). split; [intros _; rewrite sumf_const; lia|].
      intros i Hi. destruct (Nat.ltb_spec 0 n); [|lia]. cbn [ph]. pose proof (H i Hi) as (A & _).
      destruct i as [|i]; cbn; splits; auto; lia.
    + assert (Ex : exiting (if 0 <? n then CLock EXIT 0 else CJoin 0) = true) by (destruct (0 <? n); reflexivity).
      rewrite Ex. splits; [destruct (Nat.ltb_spec 0 n); cbn; auto; split; [lia|discriminate]|reflexivity|].
      exists f. split; [discriminate|]. intros i Hi. destruct (Nat.ltb_spec 0 n); [|lia]. cbn [ph]. pose proof (H i Hi) as (A & _).
      destruct i as [|i]; cbn; auto.
  - (* CLock *)
    destruct Hc as (Hk & Hm). destruct (is_free (w_lk (s_w s k))) eqn:Ef; [|discriminate]. injection E as <-.
    assert (Elk : w_lk (s_w s k) = Free) by (destruct (w_lk (s_w s k)); auto; discriminate).
    apply inv_k with (f := f); rewrite ?Ec; auto; try (cbn; auto; fail); try (destruct m; cbn; auto; fail).
    + intros i Hi Hik. specialize (H i Hi). destruct m; cbn [ph] in *; try contradiction; apply split_cases in H as [(L & H)|[(L & H)|(L & H)]]; try congruence;
        rewrite ?(split_lt _ _ _ L), ?(split_gt _ _ _ L); auto.
    + specialize (H k Hk). destruct m; cbn [ph] in *; try contradiction; rewrite split_eq in *.
      * destruct H as (Hr & A & B). splits; auto. apply idle_free_coord; auto.
      * apply idle_free_coord; auto.
  - (* CSet *)
    destruct Hc as (Hk & Hm). injection E as <-.
    destruct m; [congruence| |].
    + cbn [is_exit negb]. rewrite andb_true_r. assert (D : plain = true \/ plain = false) by (clear; destruct plain; auto). destruct D as [Epl|Epl]; rewrite Epl; cbn [negb].
      * apply inv_k with (f := f); rewrite ?Ec; auto; try (cbn; auto; fail).
        -- intros i Hi Hik. specialize (H i Hi). cbn [ph] in *; apply split_cases in H as [(L & H)|[(L & H)|(L & H)]]; try congruence; rewrite ?(split_lt _ _ _ L), ?(split_gt _ _ _ L); auto.
        -- specialize (H k Hk). cbn [ph] in *. rewrite split_eq in *. destruct H as (Hr & A & B). splits; auto. apply idle_wake_plain; auto.
      * apply inv_k with (f := f); rewrite ?Ec; auto; try (cbn; auto; fail).
        -- intros i Hi Hik. specialize (H i Hi). cbn [ph] in *; apply split_cases in H as [(L & H)|[(L & H)|(L & H)]]; try congruence; rewrite ?(split_lt _ _ _ L), ?(split_gt _ _ _ L); auto.
        -- specialize (H k Hk). cbn [ph] in *. rewrite split_eq in *. destruct H as (Hr & A & B). splits; auto. apply idle_wake_queue; auto.
    + cbn [is_exit negb]. rewrite andb_false_r.
      apply inv_k with (f := f); rewrite ?Ec; auto; try (cbn; auto; fail).
      * intros i Hi Hik. specialize (H i Hi). cbn [ph] in *; apply split_cases in H as [(L & H)|[(L & H)|(L & H)]]; try congruence; rewrite ?(split_lt _ _ _ L), ?(split_gt _ _ _ L); auto.
      * specialize (H k Hk). cbn [ph] in *. rewrite split_eq in *. apply idle_exit; auto.
  - (* CReset *)
    injection E as <-. cbn in Hc. apply inv_k with (f := f); rewrite ?Ec; auto; try (cbn; auto; fail).
    + intros i Hi Hik. specialize (H i Hi). cbn [ph] in *; apply split_cases in H as [(L & H)|[(L & H)|(L & H)]]; try congruence; rewrite ?(split_lt _ _ _ L), ?(split_gt _ _ _ L); auto.
    + specialize (H k Hc). cbn [ph] in *. rewrite split_eq in *. destruct H as (Hr & A & B). splits; auto.
  - (* CGet *)
    injection E as <-. cbn in Hc. apply inv_k with (f := f); rewrite ?Ec; auto; try (cbn; auto; fail).
    + split; [exact Hc|discriminate].
    + intros i Hi Hik. specialize (H i Hi). cbn [ph] in *; apply split_cases in H as [(L & H)|[(L & H)|(L & H)]]; try congruence; rewrite ?(split_lt _ _ _ L), ?(split_gt _ _ _ L); auto.
    + specialize (H k Hc). cbn [ph] in *. rewrite split_eq in *. destruct H as (Hr & A & Hz & B). splits; auto. apply mid_get; auto.
  - (* CUnl *)
    destruct Hc as (Hk & Hm). injection E as <-.
    apply inv_k with (f := f); rewrite ?Ec; auto; try (cbn; auto; fail); try (destruct m; cbn; auto; fail).
    + intros i Hi Hik. specialize (H i Hi). destruct m; cbn [ph] in *; try contradiction; apply split_cases in H as [(L & H)|[(L & H)|(L & H)]]; try congruence;
        rewrite ?(split_lt _ _ _ L), ?(split_gt _ _ _ L); auto.
    + specialize (H k Hk). destruct m; cbn [ph] in *; try contradiction; rewrite split_eq in *.
      * destruct H as (Hr & A & B). split; [exact Hr|]. right. split; [apply busy_coord_free; exact A|exact B].
      * apply leaving_coord_free; auto.
  - (* CSig *)
    destruct Hc as (Hk & Hm). injection E as <-.
    assert (Hci : cidx (next_wake n m k) /\ exiting (next_wake n m k) = exiting (CSig m k)).
    { unfold next_wake. destruct (Nat.ltb_spec (S k) n); destruct m; cbn; auto. }
    destruct Hci as (Hci & Hex').
    apply inv_k with (f := f); rewrite ?Ec; auto; try (cbn; auto; fail).
    + intros i Hi Hik. specialize (H i Hi). unfold next_wake. destruct (Nat.ltb_spec (S k) n) as [Hlt|Hge].
      * destruct m; cbn [ph] in *; try contradiction; apply split_cases in H as [(L & H)|[(L & H)|(L & H)]]; try congruence.
        all: try (rewrite split_lt by lia; exact H).
        all: destruct (Nat.eq_dec i (S k)) as [->|]; [rewrite split_eq; exact H|rewrite split_gt by lia; exact H].
      * destruct m; cbn [ph] in *; try contradiction; apply split_cases in H as [(L & H)|[(L & H)|(L & H)]]; try congruence; try lia; auto.
    + specialize (H k Hk). unfold next_wake. destruct (Nat.ltb_spec (S k) n) as [Hlt|Hge]; destruct m; cbn [ph] in *; try contradiction; rewrite split_eq in H.
      * rewrite split_lt by lia. destruct H as (Hr & H). split; [exact Hr|apply sig_after; exact H].
      * rewrite split_lt by lia. apply sig_leaving; exact H.
      * destruct H as (Hr & H). split; [exact Hr|apply sig_after; exact H].
      * apply sig_leaving; exact H.
  - (* CTest *)
    injection E as <-. cbn [exiting] in *. specialize (Hp eq_refl).
    assert (Hf : forall i, i < n -> (0 <= f i)%Z) by (intros i Hi; destruct (H i Hi) as (_ & [(_ & ->)|(_ & ->)]); lia).
    destruct (Z.eqb_spec (s_pend s) 0) as [Hz|Hnz]; unfold SInv; cbn [s_c s_rnd s_pend s_dead s_w cidx exiting]; splits; auto; exists f; split; auto.
    intros i Hi. rewrite Hp in Hz. pose proof (sumf_zero Hf Hz Hi) as Hz'. cbn [ph]. split; [|exact Hz'].
    destruct (H i Hi) as (Hr & [(A & _)|(_ & A)]); [|lia]. replace (s_rnd s) with (S (pred (s_rnd s))) by lia. exact A.
  - injection E as <-. unfold SInv; cbn [s_c s_rnd s_pend s_dead s_w cidx exiting]; splits; auto. exists f; split; auto.
  - discriminate.
  - destruct (k <? n).
    + destruct (at_gone _); [|discriminate]. injection E as <-. unfold SInv; cbn [s_c s_rnd s_pend s_dead s_w cidx exiting]; splits; auto. exists f; split; auto.
    + injection E as <-. unfold SInv; cbn [s_c s_rnd s_pend s_dead s_w cidx exiting]; splits; auto. exists f; split; auto.
  - discriminate.
Qed.

Lemma relock_ph c r i w fi : w_pc w = WBlocked -> ph c r i w fi -> ph c r i (w_pc_ w WRelock) fi.
Proof.
  intros Ep H.
  assert (I : forall r L, idle r L i w -> idle r L i (w_pc_ w WRelock)) by (intros r0 L A; unfold idle, lkok in *; rewrite Ep in A; exact A).
  assert (B : forall r L, busy r L i w -> busy r L i (w_pc_ w WRelock)) by (intros r0 L A; unfold busy, lkok in *; rewrite Ep in A; exact A).
  assert (M : forall r, mid r i w -> mid r i (w_pc_ w WRelock)) by (intros r0 A; unfold mid in *; rewrite Ep in A; exact A).
  assert (V : forall r L, leaving r L i w -> leaving r L i (w_pc_ w WRelock)) by (intros r0 L A; unfold leaving, lkok in *; rewrite Ep in A; exact A).
  assert (F : forall r, after r i w fi -> after r i (w_pc_ w WRelock) fi) by (intros r0 [(A & ?)|(A & ?)]; [left|right]; auto).
  destruct c as [|m k|m k|k|k|m k|m k| | | |k|]; try destruct m; cbn [ph] in *; try contradiction; auto.
  all: try (destruct (i <? k); [|destruct (i =? k)]).
  all: intuition auto.
Qed.

Lemma inv_step s l s' : SInv s -> ok_lab s l -> step n plain nt l s = Some s' -> SInv s'.
Proof.
  intros HI Hok E. destruct l as [again|i| |i]; cbn [step] in E.
  - exact (inv_c HI E).
  - destruct (Nat.ltb_spec i n); [|discriminate]. eapply inv_w; eauto.
  - destruct HI as (Hc & Hd & f & Hp & H). destruct (s_c s) eqn:Ec; try discriminate. injection E as <-.
    unfold SInv, with_c; cbn [s_c s_rnd s_pend s_dead s_w cidx exiting]; splits; auto. exists f; split; auto.
  - destruct (Nat.ltb_spec i n); [|discriminate]. cbn [andb] in E. destruct (at_blocked _) eqn:Eb; [|discriminate]. injection E as <-.
    destruct HI as (Hc & Hd & f & Hp & H0). unfold SInv, with_w; cbn [s_c s_rnd s_pend s_dead s_w]. splits; auto. exists f; split; auto.
    intros j Hj. unfold set_w. destruct (Nat.eqb_spec j i) as [->|]; auto. apply relock_ph; auto. destruct (w_pc (s_w s i)); auto; discriminate.
Qed.

Lemma inv_init : SInv (s_init plain nt).
Proof.
  unfold SInv, s_init. cbn [s_c s_rnd s_pend s_dead s_w cidx exiting]. splits; auto. exists (fun _ => 0%Z). split.
  - intros _. rewrite sumf_const. lia.
  - intros i Hi. cbn [ph]. split; auto. unfold idle, lkok, w_init. cbn. splits; auto. intros Epl. destruct plain; [reflexivity|discriminate].
Qed.

(** executions all of whose steps are allowed *)
Fixpoint ok_exec (ls : list lab) (s : sys) : Prop :=
  match ls with
  | [] => True
  | l :: t => ok_lab s l /\ match step n plain nt l s with Some s' => ok_exec t s' | None => True end
  end.
Lemma inv_exec ls : forall s s', SInv s -> ok_exec ls s -> exec n plain nt ls s = Some s' -> SInv s'.
Proof.
  induction ls as [|l t IH]; intros s s' HI Hok E; cbn [exec] in E; [injection E as <-; exact HI|].
  destruct Hok as (Hl & Ht). destruct (step n plain nt l s) as [s1|] eqn:Es; [|discriminate].
  apply (IH s1 s'); auto. exact (inv_step HI Hl Es).
Qed.
End Inv.
