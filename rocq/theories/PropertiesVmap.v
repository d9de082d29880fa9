(** C42: the integer-keyed map stored as a vector, and its iterator. *)
From Coq Require Import Sorted.
From Verif Require Import Base ContainersModel.
Set Implicit Arguments.
Unset Strict Implicit.

Section V.
Variable T : Type.
Variable teq : T -> T -> bool.
Variable tdef : T.

(** Specification.  Key [i] is present with value [x] iff slot [i] holds [x]
    and [x] is not the empty marker. *)
Definition present (m : vmap T) (i : nat) (x : T) : Prop :=
  nth_error (vm_data m) i = Some x /\ teq (vm_empty m) x = false.

(** [l] lists exactly the present keys with their values, in increasing order
    of keys, each key once. *)
Definition enumerates (l : list (nat * T)) (m : vmap T) : Prop :=
  StronglySorted (fun a b => fst a < fst b) l /\
  forall i x, In (i, x) l <-> present m i x.

(** the entries with keys [o .. o+n-1] *)
Fixpoint entries (m : vmap T) (n o : nat) : list (nat * T) :=
  match n with
  | 0 => []
  | S n' => match nth_error (vm_data m) o with
            | Some x => if teq (vm_empty m) x then entries m n' (S o)
                        else (o, x) :: entries m n' (S o)
            | None => entries m n' (S o)
            end
  end.

Lemma entries_in m : forall n o i x,
  In (i, x) (entries m n o) <-> o <= i < o + n /\ present m i x.
Proof.
  induction n as [|n IH]; intros o i x; cbn [entries].
  - split; [intros []|]. lia.
  - assert (C : o <= i < o + S n <-> i = o \/ S o <= i < S o + n) by lia.
    rewrite C. unfold present in *.
    destruct (nth_error (vm_data m) o) as [y|] eqn:E.
    + destruct (teq (vm_empty m) y) eqn:Ey.
      * rewrite IH. split; [tauto|]. intros ([->|H] & H1 & H2); [|tauto]. congruence.
      * cbn [In]. rewrite IH. split.
        -- intros [H|H]; [|tauto]. injection H as -> ->. auto.
        -- intros ([->|H] & H1 & H2); [|tauto]. left. congruence.
    + rewrite IH. split; [tauto|]. intros ([->|H] & H1 & H2); [|tauto]. congruence.
Qed.

Lemma entries_sorted m : forall n o, StronglySorted (fun a b => fst a < fst b) (entries m n o).
Proof.
  induction n as [|n IH]; intros o; cbn [entries]; [constructor|].
  destruct (nth_error (vm_data m) o) as [y|]; [|apply IH].
  destruct (teq (vm_empty m) y); [apply IH|]. constructor; [apply IH|].
  apply Forall_forall. intros (i & x) H. apply entries_in in H. cbn. lia.
Qed.

Lemma entries_all m : enumerates (entries m (vm_size m) 0) m.
Proof.
  split; [apply entries_sorted|]. intros i x. rewrite entries_in. split; [tauto|].
  intros H. split; [|exact H]. destruct H as (H & _).
  assert (i < vm_size m) by (apply nth_error_Some; congruence). lia.
Qed.

Lemma vm_cget_ok (m : vmap T) o x : nth_error (vm_data m) o = Some x -> vm_cget m o = Ok x.
Proof.
  intros H. unfold vm_cget. assert (o < length (vm_data m)) by (apply nth_error_Some; congruence).
  destruct (Nat.leb_spec (length (vm_data m)) o); [lia|]. apply aget_ok. exact H.
Qed.

(** seeking from [o] with [n] slots left stops at the first entry *)
Lemma seek_ok (m : vmap T) : forall n o, o + n = vm_size m ->
  exists o', vm_seek teq n m o = Ok o' /\ o <= o' <= vm_size m /\
    entries m n o = entries m (vm_size m - o') o' /\
    (o' < vm_size m -> exists x, nth_error (vm_data m) o' = Some x /\ teq (vm_empty m) x = false).
Proof.
  induction n as [|n IH]; intros o H; cbn [vm_seek].
  - exists o. split; [reflexivity|]. split; [lia|]. split; [|intros; lia]. replace (vm_size m - o) with 0 by lia. reflexivity.
  - assert (Ho : o < vm_size m) by lia. unfold vm_size in Ho.
    destruct (nth_error (vm_data m) o) as [x|] eqn:E; [|apply nth_error_None in E; lia].
    rewrite (vm_cget_ok E). cbn [bind].
    destruct (teq (vm_empty m) x) eqn:Ex; cbn [negb].
    + destruct (IH (S o)) as (o' & E1 & B & EE & P); [lia|].
      exists o'. splits; auto; try lia. cbn [entries]. rewrite E, Ex. exact EE.
    + exists o. splits; auto; try lia.
      * replace (vm_size m - o) with (S n) by lia. reflexivity.
      * intros _. eauto.
Qed.

Lemma walk_ok (m : vmap T) : forall f o, o <= vm_size m -> vm_size m - o < f ->
  it_walk teq f m o = Ok (entries m (vm_size m - o) o).
Proof.
  induction f as [|f IH]; intros o Ho Hf; [lia|]. cbn [it_walk]. unfold it_has_next.
  destruct (Nat.eqb_spec o (vm_size m)) as [E|E]; cbn [orb].
  { cbn [bind]. rewrite E, Nat.sub_diag. reflexivity. }
  destruct (Nat.eqb_spec (vm_size m) 0) as [E0|E0]; [lia|].
  destruct (@seek_ok m (vm_size m - o) o) as (o' & E1 & B & EE & P); [lia|].
  rewrite E1. cbn [bind]. destruct (Nat.ltb_spec o' (vm_size m)) as [Hl|Hl].
  - destruct (P Hl) as (x & Hx & Ex). unfold it_next. rewrite (vm_cget_ok Hx). cbn [bind].
    rewrite IH by lia. cbn [bind]. rewrite EE.
    replace (vm_size m - o') with (S (vm_size m - (o' + 1))) by lia. cbn [entries].
    rewrite Hx, Ex. repeat f_equal; lia.
  - rewrite EE. replace (vm_size m - o') with 0 by lia. reflexivity.
Qed.

(** C42, iteration: for every map, the loop over the iterator ends normally and
    yields exactly the present keys and their values, each once, in increasing
    order. *)
Theorem c42_iterate : forall m, exists l, vm_iterate teq m = Ok l /\ enumerates l m.
Proof.
  intros m. unfold vm_iterate, it_begin.
  destruct (@seek_ok m (vm_size m) 0) as (o' & E1 & B & EE & P); [lia|].
  rewrite E1. cbn [bind]. rewrite walk_ok by lia.
  eexists; split; [reflexivity|]. rewrite <- EE. apply entries_all.
Qed.

(** setting the capacity empties the map and gives it that many slots, all readable *)
Theorem c42_set_capacity : forall m cap, teq (vm_empty m) (vm_empty m) = true ->
  let m' := vm_set_capacity m cap in
  vm_size m' = cap /\ vm_iterate teq m' = Ok [] /\ (forall i x, ~ present m' i x) /\
  forall i, i < cap -> vm_cget m' i = Ok (vm_empty m).
Proof.
  intros m cap Hr m'.
  assert (P : forall i x, ~ present m' i x).
  { intros i x (H1 & H2). unfold m', vm_set_capacity in H1, H2. cbn [vm_data vm_empty] in H1, H2. apply nth_error_In, repeat_spec in H1. subst x. congruence. }
  split; [apply repeat_length|]. split.
  { destruct (c42_iterate m') as (l & E & _ & H). rewrite E. f_equal. destruct l as [|(i, x) l]; [reflexivity|]. exfalso. apply (P i x). apply H. left. reflexivity. }
  split; [exact P|]. intros i Hi. unfold vm_cget, m', vm_set_capacity. cbn [vm_data]. rewrite repeat_length. destruct (Nat.leb_spec cap i); [lia|].
  unfold aget. rewrite nth_error_repeat by exact Hi. reflexivity.
Qed.

Lemma enumerates_fun m l l' : enumerates l m -> enumerates l' m -> l = l'.
Proof.
  intros (S1 & I1) (S2 & I2).
  assert (E : forall p, In p l <-> In p l') by (intros (i & x); rewrite I1, I2; tauto).
  clear I1 I2. revert l' S2 E. induction l as [|p t IH]; intros l' S2 E.
  - destruct l' as [|q t']; auto. exfalso. apply (proj2 (E q)). left; auto.
  - destruct l' as [|q t']; [exfalso; apply (proj1 (E p)); left; auto|].
    inversion S1 as [|? ? S1' F1]; subst. inversion S2 as [|? ? S2' F2]; subst.
    rewrite Forall_forall in F1, F2.
    assert (p = q).
    { destruct (proj1 (E p) (or_introl eq_refl)) as [->|Hp]; auto.
      destruct (proj2 (E q) (or_introl eq_refl)) as [->|Hq]; auto.
      apply F2 in Hp. apply F1 in Hq. lia. }
    subst q. f_equal. apply IH; auto. intros r. split; intros Hr.
    + destruct (proj1 (E r) (or_intror Hr)) as [->|]; auto. apply F1 in Hr. lia.
    + destruct (proj2 (E r) (or_intror Hr)) as [->|]; auto. apply F2 in Hr. lia.
Qed.

(** [get_keys] appends the same keys, [keycount] is their number and [keyless]
    says whether there are none. *)
Theorem c42_keys : forall m ids l, enumerates l m ->
  vm_get_keys teq m ids = Ok (ids ++ map fst l) /\
  vm_keycount teq m = Ok (length l) /\
  (vm_keyless teq m = true <-> l = []).
Proof.
  intros m ids l Hl. rewrite (enumerates_fun Hl (entries_all m)). splits.
  - unfold vm_get_keys, loop.
    assert (G : forall n o ids, o + n = vm_size m ->
      for_ n o (fun i ids => let* x := aget (vm_data m) i in
         Ok (if negb (teq (vm_empty m) x) then ids ++ [i] else ids)) ids
      = Ok (ids ++ map fst (entries m n o))).
    { induction n as [|n IH]; intros o ids' H; cbn [for_ entries map].
      - rewrite app_nil_r. reflexivity.
      - assert (Ho : o < vm_size m) by lia. unfold vm_size in Ho.
        destruct (aget_lt _ Ho) as (x & E & E'). rewrite E. cbn [bind]. rewrite E'.
        destruct (teq (vm_empty m) x); cbn [negb]; rewrite IH by lia; auto.
        cbn [map fst]. rewrite <- app_assoc. reflexivity. }
    apply G. lia.
  - unfold vm_keycount, loop.
    assert (G : forall n o c, o + n = vm_size m ->
      for_ n o (fun i c => let* x := aget (vm_data m) i in
         Ok (if negb (teq (vm_empty m) x) then c + 1 else c)) c
      = Ok (c + length (entries m n o))).
    { induction n as [|n IH]; intros o c H; cbn [for_ entries length].
      - rewrite Nat.add_0_r. reflexivity.
      - assert (Ho : o < vm_size m) by lia. unfold vm_size in Ho.
        destruct (aget_lt _ Ho) as (x & E & E'). rewrite E. cbn [bind]. rewrite E'.
        destruct (teq (vm_empty m) x); cbn [negb]; rewrite IH by lia; auto.
        cbn [length]. f_equal. lia. }
    rewrite G by lia. reflexivity.
  - unfold vm_keyless. rewrite forallb_forall. destruct (entries_all m) as (_ & I). split.
    + intros H. destruct (entries m (vm_size m) 0) as [|(i & x) t]; auto. exfalso.
      destruct (proj1 (I i x) (or_introl eq_refl)) as (Hn & Hx).
      apply nth_error_In in Hn. apply H in Hn. congruence.
    + intros H x Hx. apply In_nth_error in Hx as (i & Hi).
      destruct (teq (vm_empty m) x) eqn:E; auto. exfalso.
      assert (P : present m i x) by (split; auto). apply I in P. rewrite H in P. exact P.
Qed.

(** Membership, on a map with at least one slot: in bounds for every key, and
    true iff the key is present. *)
Theorem c42_has_key_partial : forall m i, 1 <= vm_size m ->
  (Z.of_nat (vm_size m) < 2 ^ 64)%Z -> 
  exists b, vm_has_key teq m i = Ok b /\ (b = true <-> exists x, present m i x).
Proof.
  intros m i H1 H2. unfold vm_has_key, w64. rewrite Z.mod_small by lia.
  destruct (Z.ltb_spec (Z.of_nat (vm_size m) - 1) (Z.of_nat i)) as [H|H].
  - exists false. split; auto. split; [discriminate|]. intros (x & Hx & _).
    assert (i < vm_size m) by (apply nth_error_Some; congruence). lia.
  - assert (Hi : i < length (vm_data m)) by (unfold vm_size in *; lia).
    destruct (aget_lt _ Hi) as (x & E & E'). rewrite E. cbn [bind].
    eexists; split; [reflexivity|]. unfold present. split.
    + intros Hb. exists x. split; auto. destruct (teq _ x); auto; discriminate.
    + intros (y & Hy & Hz). rewrite E' in Hy. injection Hy as ->. rewrite Hz. reflexivity.
Qed.

(** On a map without slots every membership query reads out of bounds. *)
Theorem c42_has_key_refuted : forall (e : T) i, (Z.of_nat i < 2 ^ 64)%Z ->
  vm_has_key teq (mkVmap [] e) i = Err UB.
Proof.
  intros e i Hi. unfold vm_has_key. cbn [vm_size vm_data length].
  replace (w64 (Z.of_nat 0 - 1)) with (2 ^ 64 - 1)%Z by reflexivity.
  destruct (Z.ltb_spec (2 ^ 64 - 1) (Z.of_nat i)); [lia|]. destruct i; reflexivity.
Qed.

(** The other direction of the history: what a sequence of writes does to the
    set of present keys. *)
Definition vspec := nat -> option T.
Definition vspec_do (e : T) (o : vop T) (f : vspec) : vspec :=
  match o with
  | VPut i v => fun j => if j =? i then (if teq e v then None else Some v) else f j
  | VTouch _ => f
  | VErase i => fun j => if j =? i then None else f j
  | VClear => fun _ => None
  end.
Definition vlookup (m : vmap T) (i : nat) : option T :=
  match nth_error (vm_data m) i with
  | Some x => if teq (vm_empty m) x then None else Some x
  | None => None
  end.

Lemma vlookup_present m i x : vlookup m i = Some x <-> present m i x.
Proof.
  unfold vlookup, present. destruct (nth_error (vm_data m) i) as [y|].
  - destruct (teq (vm_empty m) y) eqn:E; split; try intros (H & H'); try congruence.
    intros H; injection H as ->; auto.
  - split; [discriminate|]. intros (H & _); discriminate.
Qed.

(** an erase must be inside the vector; nothing else is restricted *)
Fixpoint erases_in_bounds (l : list (vop T)) (sz : nat) : Prop :=
  match l with
  | [] => True
  | VPut i _ :: t | VTouch i :: t => erases_in_bounds t (Nat.max sz (S i))
  | VErase i :: t => i < sz /\ erases_in_bounds t sz
  | VClear :: t => erases_in_bounds t sz
  end.

Lemma nth_repeat_e {A} (x : A) n i : nth_error (repeat x n) i = if i <? n then Some x else None.
Proof.
  revert i; induction n as [|n IH]; intros [|i]; cbn [repeat nth_error]; auto.
  rewrite IH. destruct (Nat.ltb_spec i n), (Nat.ltb_spec (S i) (S n)); auto; lia.
Qed.

Lemma vm_grow_spec (m : vmap T) i : teq (vm_empty m) tdef = true ->
  vm_size (vm_grow tdef m i) = Nat.max (vm_size m) (S i) /\
  vm_empty (vm_grow tdef m i) = vm_empty m /\
  forall j, vlookup (vm_grow tdef m i) j = vlookup m j.
Proof.
  intros He. unfold vm_grow. destruct (Nat.leb_spec (length (vm_data m)) i) as [H|H].
  - splits; auto.
    + unfold vm_size; cbn [vm_data]. rewrite app_length, repeat_length. lia.
    + intros j. unfold vlookup; cbn [vm_data vm_empty].
      destruct (Nat.lt_ge_cases j (length (vm_data m))) as [Hj|Hj].
      * rewrite nth_error_app1 by exact Hj. reflexivity.
      * rewrite nth_error_app2 by exact Hj. rewrite nth_repeat_e.
        rewrite (proj2 (nth_error_None (vm_data m) j) Hj).
        destruct (_ <? _); [rewrite He|]; reflexivity.
  - unfold vm_size. splits; auto. lia.
Qed.

Lemma vlookup_upd d e i v j : i < length d ->
  vlookup (mkVmap (upd d i v) e) j =
  if j =? i then (if teq e v then None else Some v) else vlookup (mkVmap d e) j.
Proof.
  intros H. unfold vlookup; cbn [vm_data vm_empty]. rewrite nth_error_upd.
  destruct (Nat.eqb_spec j i); auto. apply Nat.ltb_lt in H. rewrite H. reflexivity.
Qed.

(** C42, writes: when the value-initialised [T()] is the empty marker (the
    null pointers and zero counters knor stores), writing a key changes that
    key only, reading through [\[\]] and growing create no key, erasing removes
    one key, clearing removes all; nothing goes out of bounds. *)
Theorem c42_history_partial : forall ops m f,
  teq (vm_empty m) (vm_empty m) = true -> teq (vm_empty m) tdef = true ->
  (forall i, vlookup m i = f i) -> erases_in_bounds ops (vm_size m) ->
  exists m', vm_run tdef ops m = Ok m' /\ vm_empty m' = vm_empty m /\
    forall i x, present m' i x <->
      fold_left (fun f o => vspec_do (vm_empty m) o f) ops f i = Some x.
Proof.
  induction ops as [|o t IH]; intros m f Hr Hd Hf Hb; unfold vm_run in *; cbn [for_each fold_left].
  - exists m; splits; auto. intros i x. rewrite <- Hf. symmetry. apply vlookup_present.
  - assert (ST : exists m1, vm_do tdef o m = Ok m1 /\ vm_empty m1 = vm_empty m /\
        (forall i, vlookup m1 i = vspec_do (vm_empty m) o f i) /\
        erases_in_bounds t (vm_size m1)).
    { destruct o as [i v|i|i|]; cbn [vm_do vspec_do erases_in_bounds] in *.
      - destruct (vm_grow_spec i Hd) as (G1 & G2 & G3). unfold vm_put.
        set (m1 := vm_grow tdef m i) in *.
        rewrite aset_ok by (unfold vm_size in *; lia). cbn [bind].
        eexists; split; [reflexivity|]. splits; auto.
        + intros j. rewrite vlookup_upd by (unfold vm_size in *; lia). rewrite G2.
          destruct (j =? i); auto. rewrite <- Hf, <- G3. unfold vlookup; cbn [vm_data vm_empty].
          rewrite G2. reflexivity.
        + unfold vm_size in *; cbn [vm_data]. rewrite upd_length, G1. exact Hb.
      - destruct (vm_grow_spec i Hd) as (G1 & G2 & G3). unfold vm_ref.
        set (m1 := vm_grow tdef m i) in *.
        destruct (@aget_lt _ (vm_data m1) i) as (x & E & _); [unfold vm_size in *; lia|].
        rewrite E. cbn [bind]. eexists; split; [reflexivity|]. splits; auto.
        + intros j. rewrite G3. apply Hf.
        + rewrite G1. exact Hb.
      - destruct Hb as (Hi & Hb). unfold vm_erase. rewrite aset_ok by (unfold vm_size in *; lia).
        cbn [bind]. eexists; split; [reflexivity|]. splits; auto.
        + intros j. rewrite vlookup_upd by (unfold vm_size in *; lia). rewrite Hr.
          destruct (j =? i); auto. rewrite <- Hf. destruct m; reflexivity.
        + unfold vm_size in *; cbn [vm_data]. rewrite upd_length. exact Hb.
      - eexists; split; [reflexivity|]. unfold vm_clear. splits; auto.
        + intros j. unfold vlookup; cbn [vm_data vm_empty]. rewrite nth_repeat_e.
          destruct (_ <? _); [rewrite Hr|]; reflexivity.
        + unfold vm_size in *; cbn [vm_data]. rewrite repeat_length. exact Hb. }
    destruct ST as (m1 & E1 & Em & Hf1 & Hb1).
    destruct (IH m1 (vspec_do (vm_empty m) o f)) as (m' & E & Em' & P); rewrite ?Em; auto.
    exists m'. rewrite E1. cbn [bind]. splits; auto; [congruence|]. rewrite Em in P. exact P.
Qed.
End V.

(** With an empty marker different from [T()], writing one key creates others:
    an [unsigned] map with marker 7 and no slots, after writing key 2, has keys
    0, 1 and 2. *)
Theorem c42_write_refuted :
  exists m', vm_put 0 (vm_create 0 7) 2 5 = Ok m' /\
    (forall i x, ~ present Nat.eqb (vm_create 0 7) i x) /\
    present Nat.eqb m' 0 0 /\ present Nat.eqb m' 1 0 /\ present Nat.eqb m' 2 5.
Proof.
  eexists; split; [vm_compute; reflexivity|]. split; [|vm_compute; auto].
  intros [|i] x (H & _); discriminate.
Qed.

(** Non-vacuity: knor's own use, an [unsigned] map with marker 0. *)
Example c42_ex :
  okmap (fun l => l) (let* m := vm_run 0 [VPut 3 4; VPut 1 7; VPut 5 2; VErase 1; VTouch 8; VPut 0 9]
                                  (vm_create 2 0) in vm_iterate Nat.eqb m)
  = Some [(0, 9); (3, 4); (5, 2)].
Proof. vm_compute. reflexivity. Qed.
