(** The outcome of a parallel round does not depend on the interleaving, for any
    row step, whatever the sizes of the arrays: if it completes under one complete
    schedule it completes under every other with the same result.
    Proof: two steps of different workers commute, a finished worker's step does
    nothing. *)
From Coq Require Import Lia List Permutation.
From Verif Require Import Base Spec PartitionModel ParModel ParProofs.
Set Implicit Arguments.

(** [y] completes whenever [x] does, with the same result *)
Definition rle {A} (x y : res A) : Prop := forall a, x = Ok a -> y = Ok a.

Lemma rle_refl {A} (x : res A) : rle x x.
Proof. intros a H. exact H. Qed.
Lemma rle_trans {A} (x y z : res A) : rle x y -> rle y z -> rle x z.
Proof. intros H1 H2 a H. apply H2, H1, H. Qed.
Lemma rle_bind {A B} (x y : res A) (f g : A -> res B) : rle x y -> (forall a, rle (f a) (g a)) -> rle (Base.bind x f) (Base.bind y g).
Proof. intros H1 H2 b H. apply bind_ok in H as (a & E & H). rewrite (H1 a E). cbn [Base.bind]. exact (H2 a b H). Qed.
Lemma rle_bind_ok {A B} (x y : res A) (f g : A -> res B) : rle x y -> (forall a, x = Ok a -> rle (f a) (g a)) -> rle (Base.bind x f) (Base.bind y g).
Proof. intros H1 H2 b H. apply bind_ok in H as (a & E & H). rewrite (H1 a E). cbn [Base.bind]. exact (H2 a E b H). Qed.
Lemma rle_for_each {A S} (f g : A -> S -> res S) : (forall a s, rle (f a s) (g a s)) -> forall l s, rle (for_each l f s) (for_each l g s).
Proof. intros H l. induction l as [|x l IH]; intros s; cbn [for_each]; [apply rle_refl|]. apply rle_bind; [apply H|exact IH]. Qed.
Lemma rle_for {S} (f g : nat -> S -> res S) : (forall i s, rle (f i s) (g i s)) -> forall n i s, rle (for_ n i f s) (for_ n i g s).
Proof. intros H n. induction n as [|n IH]; intros i s; cbn [for_]; [apply rle_refl|]. apply rle_bind; [apply H|intros a; apply IH]. Qed.
Lemma rle_loop {S} (f g : nat -> S -> res S) n s : (forall i s, rle (f i s) (g i s)) -> rle (loop n f s) (loop n g s).
Proof. intros H. unfold loop. apply rle_for. exact H. Qed.
Lemma rle_mapM {A B} (f g : A -> res B) : (forall a, rle (f a) (g a)) -> forall l, rle (mapM f l) (mapM g l).
Proof. intros H l. induction l as [|x l IH]; cbn [mapM]; [apply rle_refl|]. apply rle_bind; [apply H|]. intros y. apply rle_bind; [exact IH|]. intros ys. apply rle_refl. Qed.

Lemma for_each_app {A S} (f : A -> S -> res S) l1 l2 s : for_each (l1 ++ l2) f s = Base.bind (for_each l1 f s) (for_each l2 f).
Proof. revert s. induction l1 as [|x l IH]; intros s; [reflexivity|]. cbn [app for_each]. destruct (f x s); [apply IH|reflexivity]. Qed.

Section Free.
Variables C L : Type.
Variable step : nat -> nat -> L -> C -> res (L * C).
Variable ranges : list (nat * nat).
Variable lo hi : nat.
Hypothesis Htile : ntiles lo hi ranges.
Notation pstate := (pstate C L).

Lemma swap_step t t' (st st1 st2 : pstate) : t <> t' -> par_step step ranges t st = Ok st1 -> par_step step ranges t' st1 = Ok st2 ->
  exists st1', par_step step ranges t' st = Ok st1' /\ par_step step ranges t st1' = Ok st2.
Proof.
  intros Hne H1 H2. unfold par_step in H1.
  destruct (nth_error ranges t) as [(s & n)|] eqn:Er.
  2:{ injection H1 as <-. exists st2. split; [exact H2|]. unfold par_step. rewrite Er. reflexivity. }
  destruct (nth_error (ps_loc st) t) as [(r & l)|] eqn:El.
  2:{ injection H1 as <-. exists st2. split; [exact H2|]. unfold par_step in *. rewrite Er.
      assert (E : nth_error (ps_loc st2) t = None); [|rewrite E; reflexivity]. clear - H2 El Hne.
      destruct (nth_error ranges t') as [(s' & n')|]; [|injection H2 as <-; exact El]. destruct (nth_error (ps_loc st) t') as [(r' & l')|]; [|injection H2 as <-; exact El].
      destruct (r' <? n'); [|injection H2 as <-; exact El]. apply bind_ok in H2 as (c & _ & H2). apply bind_ok in H2 as (lc & _ & H2). apply bind_ok in H2 as (cl & _ & H2). injection H2 as <-.
      cbn [ps_loc]. rewrite nth_error_upd. destruct (Nat.eqb_spec t t'); [congruence|exact El]. }
  destruct (Nat.ltb_spec r n) as [Hr|Hr].
  2:{ injection H1 as <-. exists st2. split; [exact H2|]. unfold par_step in *. rewrite Er.
      assert (E : nth_error (ps_loc st2) t = Some (r, l)); [|rewrite E; destruct (Nat.ltb_spec r n); [lia|reflexivity]]. clear - H2 El Hne.
      destruct (nth_error ranges t') as [(s' & n')|]; [|injection H2 as <-; exact El]. destruct (nth_error (ps_loc st) t') as [(r' & l')|]; [|injection H2 as <-; exact El].
      destruct (r' <? n'); [|injection H2 as <-; exact El]. apply bind_ok in H2 as (c & _ & H2). apply bind_ok in H2 as (lc & _ & H2). apply bind_ok in H2 as (cl & _ & H2). injection H2 as <-.
      cbn [ps_loc]. rewrite nth_error_upd. destruct (Nat.eqb_spec t t'); [congruence|exact El]. }
  apply bind_ok in H1 as (c & Ec & H1). apply bind_ok in H1 as (lc & Es & H1). apply bind_ok in H1 as (cl & Ea & H1). injection H1 as <-.
  apply aset_inv in Ea as (Hlt & ->).
  unfold par_step in H2. cbn [ps_cells ps_loc] in H2. rewrite nth_error_upd in H2. destruct (Nat.eqb_spec t' t) as [|_]; [congruence|].
  assert (Hback : forall st1', ps_cells st1' = ps_cells st -> ps_loc st1' = ps_loc st -> par_step step ranges t st1' =
    Ok (mkP (upd (ps_cells st) (s + r) (snd lc)) (upd (ps_loc st) t (S r, fst lc)))).
  { intros st1' E1 E2. unfold par_step. rewrite Er, E1, E2, El. destruct (Nat.ltb_spec r n); [|lia]. rewrite Ec. cbn [Base.bind]. rewrite Es. cbn [Base.bind]. rewrite aset_ok by exact Hlt. reflexivity. }
  destruct (nth_error ranges t') as [(s' & n')|] eqn:Er'.
  2:{ injection H2 as <-. exists st. split; [unfold par_step; rewrite Er'; reflexivity|]. apply Hback; reflexivity. }
  destruct (nth_error (ps_loc st) t') as [(r' & l')|] eqn:El'.
  2:{ injection H2 as <-. exists st. split; [unfold par_step; rewrite Er', El'; reflexivity|]. apply Hback; reflexivity. }
  destruct (Nat.ltb_spec r' n') as [Hr'|Hr'].
  2:{ injection H2 as <-. exists st. split; [unfold par_step; rewrite Er', El'; destruct (Nat.ltb_spec r' n'); [lia|reflexivity]|]. apply Hback; reflexivity. }
  apply bind_ok in H2 as (c' & Ec' & H2). apply bind_ok in H2 as (lc' & Es' & H2). apply bind_ok in H2 as (cl' & Ea' & H2). injection H2 as <-.
  apply aset_inv in Ea' as (Hlt' & ->). rewrite upd_length in Hlt'.
  assert (Hd : s + r <> s' + r') by (pose proof (@ntiles_disj _ _ _ Htile t t' s n s' n' Er Er' Hne) as Hd; lia).
  apply aget_ok in Ec'. rewrite nth_error_upd in Ec'. destruct (Nat.eqb_spec (s' + r') (s + r)) as [|_]; [congruence|].
  eexists. split.
  - unfold par_step. rewrite Er', El'. destruct (Nat.ltb_spec r' n'); [|lia]. apply aget_ok in Ec'. rewrite Ec'. cbn [Base.bind]. rewrite Es'. cbn [Base.bind].
    rewrite aset_ok by exact Hlt'. cbn [Base.bind]. reflexivity.
  - unfold par_step. rewrite Er. cbn [ps_cells ps_loc]. rewrite nth_error_upd. destruct (Nat.eqb_spec t t') as [|_]; [congruence|]. rewrite El.
    destruct (Nat.ltb_spec r n); [|lia]. apply aget_ok in Ec. unfold aget. rewrite nth_error_upd. destruct (Nat.eqb_spec (s + r) (s' + r')) as [|_]; [congruence|]. rewrite Ec. cbn [Base.bind].
    rewrite Es. cbn [Base.bind]. rewrite aset_ok by (rewrite upd_length; exact Hlt). cbn [Base.bind]. f_equal. f_equal; apply upd_comm; auto.
Qed.

Lemma perm_run l l' : Permutation l l' -> forall st st', for_each l (par_step step ranges) st = Ok st' -> for_each l' (par_step step ranges) st = Ok st'.
Proof.
  induction 1 as [|x l l' _ IH|x y l|l l' l'' _ IH1 _ IH2]; intros st st' H; auto.
  - cbn [for_each] in *. apply bind_ok in H as (s1 & E & H). rewrite E. cbn [Base.bind]. apply IH. exact H.
  - cbn [for_each] in *. apply bind_ok in H as (s1 & E & H). apply bind_ok in H as (s2 & E2 & H).
    destruct (Nat.eq_dec y x) as [->|Hne]; [rewrite E; cbn [Base.bind]; rewrite E2; exact H|].
    destruct (@swap_step y x st s1 s2 Hne E E2) as (s1' & E3 & E4). rewrite E3. cbn [Base.bind]. rewrite E4. exact H.
Qed.

Lemma cursor_run t s n : nth_error ranges t = Some (s, n) -> forall l st st' r x, for_each l (par_step step ranges) st = Ok st' ->
  nth_error (ps_loc st) t = Some (r, x) -> exists r' x', nth_error (ps_loc st') t = Some (r', x') /\ Nat.min n (r + count_eq t l) <= r'.
Proof.
  intros Er l. induction l as [|u l IH]; intros st st' r x H El; cbn [for_each] in H.
  - injection H as <-. exists r, x. split; [exact El|]. unfold count_eq. cbn. lia.
  - apply bind_ok in H as (s1 & E & H).
    assert (G : exists r1 x1, nth_error (ps_loc s1) t = Some (r1, x1) /\ (if t =? u then Nat.min n (S r) <= r1 else r <= r1)).
    { unfold par_step in E. destruct (Nat.eqb_spec t u) as [<-|Hne].
      - rewrite Er, El in E. destruct (Nat.ltb_spec r n) as [Hr|Hr]; [|injection E as <-; exists r, x; split; [exact El|lia]].
        apply bind_ok in E as (c & _ & E). apply bind_ok in E as (lc & _ & E). apply bind_ok in E as (cl & _ & E). injection E as <-.
        cbn [ps_loc]. exists (S r), (fst lc). split; [|lia]. rewrite nth_error_upd, Nat.eqb_refl.
        assert (t < length (ps_loc st)) by (apply nth_error_Some; congruence). destruct (Nat.ltb_spec t (length (ps_loc st))); [reflexivity|lia].
      - exists r, x. split; [|lia]. destruct (nth_error ranges u) as [(s' & n')|]; [|injection E as <-; exact El]. destruct (nth_error (ps_loc st) u) as [(r' & l')|]; [|injection E as <-; exact El].
        destruct (r' <? n'); [|injection E as <-; exact El]. apply bind_ok in E as (c & _ & E). apply bind_ok in E as (lc & _ & E). apply bind_ok in E as (cl & _ & E). injection E as <-.
        cbn [ps_loc]. rewrite nth_error_upd. destruct (Nat.eqb_spec t u); [congruence|exact El]. }
    destruct G as (r1 & x1 & E1 & Hr1). destruct (IH s1 st' r1 x1 H E1) as (r' & x' & E' & Hr'). exists r', x'. split; [exact E'|].
    assert (Hc : count_eq t (u :: l) = (if t =? u then 1 else 0) + count_eq t l).
    { unfold count_eq. cbn [filter]. rewrite (Nat.eqb_sym u t). destruct (t =? u); reflexivity. }
    rewrite Hc. destruct (t =? u); lia.
Qed.

Lemma none_run t : forall l st st', for_each l (par_step step ranges) st = Ok st' -> nth_error (ps_loc st) t = None -> nth_error (ps_loc st') t = None.
Proof.
  induction l as [|u l IH]; intros st st' H El; cbn [for_each] in H; [injection H as <-; exact El|]. apply bind_ok in H as (s1 & E & H).
  apply (IH s1 st' H). unfold par_step in E. destruct (nth_error ranges u) as [(s' & n')|]; [|injection E as <-; exact El]. destruct (nth_error (ps_loc st) u) as [(r' & l')|] eqn:Eu; [|injection E as <-; exact El].
  destruct (r' <? n'); [|injection E as <-; exact El]. apply bind_ok in E as (c & _ & E). apply bind_ok in E as (lc & _ & E). apply bind_ok in E as (cl & _ & E). injection E as <-.
  cbn [ps_loc]. rewrite nth_error_upd. destruct (Nat.eqb_spec t u); [congruence|exact El].
Qed.

(** after a complete schedule more steps change nothing *)
Lemma done_run sched cells locs st : complete ranges sched ->
  for_each sched (par_step step ranges) (mkP cells (map (fun l => (0, l)) locs)) = Ok st ->
  forall l, for_each l (par_step step ranges) st = Ok st.
Proof.
  intros Hc H l. induction l as [|t l IH]; cbn [for_each]; [reflexivity|].
  assert (E : par_step step ranges t st = Ok st); [|rewrite E; exact IH]. unfold par_step.
  destruct (nth_error ranges t) as [(s & n)|] eqn:Er; [|reflexivity]. destruct (nth_error (ps_loc st) t) as [(r & x)|] eqn:El; [|reflexivity].
  destruct (nth_error locs t) as [l0|] eqn:E0.
  - destruct (@cursor_run t s n Er sched _ st 0 l0 H) as (r' & x' & E' & Hr); [cbn [ps_loc]; rewrite nth_error_map, E0; reflexivity|].
    rewrite El in E'. injection E' as <- _. specialize (Hc t s n Er). destruct (Nat.ltb_spec r n); [lia|reflexivity].
  - rewrite (@none_run t sched _ st H) in El; [discriminate|]. cbn [ps_loc]. rewrite nth_error_map, E0. reflexivity.
Qed.

Theorem par_run_free sched1 sched2 cells locs : complete ranges sched1 -> complete ranges sched2 ->
  rle (par_run step ranges sched1 cells locs) (par_run step ranges sched2 cells locs).
Proof.
  intros H1 H2 x E. unfold par_run in *. apply bind_ok in E as (st & E & Hx).
  assert (A : for_each (sched1 ++ sched2) (par_step step ranges) (mkP cells (map (fun l => (0, l)) locs)) = Ok st).
  { rewrite for_each_app, E. cbn [Base.bind]. apply (@done_run _ _ _ _ H1 E). }
  apply (perm_run (Permutation_app_comm sched1 sched2)) in A. rewrite for_each_app in A. apply bind_ok in A as (st2 & E2 & A).
  rewrite E2. cbn [Base.bind]. rewrite (@done_run _ _ _ _ H2 E2) in A. injection A as ->. exact Hx.
Qed.
End Free.
Print Assumptions par_run_free.
