(** C47: the dense matrix computes the textbook results; C48: argmax. *)
From Coq Require Import Reals Lra Permutation.
From Verif Require Import Base Num MatrixModel.
Set Implicit Arguments.
Unset Strict Implicit.

(** Specification: a well-formed matrix, its cell (r, c), and the sum
    f 0 + f 1 + ... + f (n-1), added up from the left starting at 0. *)
Definition shaped {N} (m : dmat N) : Prop := length (dm_mat m) = dm_nrow m * dm_ncol m.
Definition cell {N} (m : dmat N) (r c : nat) : car N := nth (r * dm_ncol m + c) (dm_mat m) (nzero N).
Fixpoint bigsum (N : Num) (n : nat) (f : nat -> car N) : car N :=
  match n with 0 => nzero N | S k => nadd N (bigsum k f) (f k) end.
Arguments bigsum N n f : clear implicits.

(** [m] is an [nr] x [nc] matrix with entries [f] *)
Definition is_matrix {N} (m : dmat N) (nr nc : nat) (f : nat -> nat -> car N) : Prop :=
  dm_nrow m = nr /\ dm_ncol m = nc /\ shaped m /\
  forall r c, r < nr -> c < nc -> cell m r c = f r c.
(** [l] is a vector of [n] entries [f] *)
Definition is_vector {N} (l : list (car N)) (n : nat) (f : nat -> car N) : Prop :=
  length l = n /\ forall i, i < n -> nth i l (nzero N) = f i.

Lemma bigsum_ext N n f g : (forall i, i < n -> f i = g i) -> bigsum N n f = bigsum N n g.
Proof.
  induction n as [|n IH]; intros H; cbn [bigsum]; [reflexivity|].
  rewrite IH by (intros; apply H; lia). rewrite H by lia. reflexivity.
Qed.

Lemma idx_inj nc r c r' c' : c < nc -> c' < nc -> r * nc + c = r' * nc + c' -> r = r' /\ c = c'.
Proof. intros H1 H2 H. assert (r = r') by nia. subst. split; [auto|lia]. Qed.

Lemma idx_lt nr nc r c : r < nr -> c < nc -> r * nc + c < nr * nc.
Proof. nia. Qed.

Section G.
Variable N : Num.
Notation T := (car N).
Notation z := (nzero N).

Lemma nth_mapr off n (g : nat -> T -> T) l i d : off + n <= length l -> i < length l ->
  nth i (mapr off n g l) d = if (off <=? i) && (i <? off + n) then g (i - off) (nth i l d) else nth i l d.
Proof.
  intros H Hi. pose proof (nth_error_mapr off n g l i H) as E.
  pose proof (nth_error_nth' l d Hi) as E2. rewrite E2 in E. cbn [option_map] in E.
  destruct ((off <=? i) && (i <? off + n)); apply nth_error_nth with (d := d) in E; exact E.
Qed.

(** pointwise modification of all cells, row by row *)
Lemma loop2_map nr nc (g : nat -> nat -> T -> T) (body : nat -> nat -> list T -> res (list T)) a :
  length a = nr * nc ->
  (forall r c l x, r < nr -> c < nc -> length l = nr * nc -> nth_error l (r * nc + c) = Some x ->
     body r c l = Ok (upd l (r * nc + c) (g r c x))) ->
  exists a', loop nr (fun r a => loop nc (fun c a => body r c a) a) a = Ok a' /\ length a' = nr * nc /\
    forall r c, r < nr -> c < nc -> nth (r * nc + c) a' z = g r c (nth (r * nc + c) a z).
Proof.
  intros La Hb.
  pose (P := fun i l => length l = nr * nc /\
     forall r c, r < nr -> c < nc -> nth (r * nc + c) l z =
       if r <? i then g r c (nth (r * nc + c) a z) else nth (r * nc + c) a z).
  assert (H : okp (loop nr (fun r a => loop nc (fun c a => body r c a) a) a) (P nr)).
  { apply loop_okp.
    - split; [exact La|]. intros r c _ _. reflexivity.
    - intros r l Hr (A & B).
      assert (E : loop nc (fun c a => body r c a) l = Ok (mapr (r * nc) nc (g r) l)).
      { apply loop_mapr; [rewrite A; nia|]. intros c l' x Hc Hl' Hx.
        apply Hb; auto; try lia. }
      rewrite E. cbn [okp]. assert (L2 : r * nc + nc <= length l) by (rewrite A; nia).
      split; [rewrite mapr_length; auto|].
      intros r' c Hr' Hc. rewrite nth_mapr by (auto; rewrite A; apply idx_lt; auto).
      rewrite B by auto.
      destruct (Nat.leb_spec (r * nc) (r' * nc + c)), (Nat.ltb_spec (r' * nc + c) (r * nc + nc)); cbn [andb].
      + assert (r' = r) by nia. subst r'. rewrite Nat.ltb_irrefl.
        destruct (Nat.ltb_spec r (S r)); [|lia]. f_equal. lia.
      + destruct (Nat.ltb_spec r' r), (Nat.ltb_spec r' (S r)); auto; try lia. nia.
      + destruct (Nat.ltb_spec r' r), (Nat.ltb_spec r' (S r)); auto; try lia. nia.
      + nia. }
  apply okp_iff in H as (a' & E & A & B). exists a'. splits; auto.
  intros r c Hr Hc. rewrite B by auto. destruct (Nat.ltb_spec r nr); [reflexivity|lia].
Qed.

(** pointwise modification of a flat array *)
Lemma loop1_map n (g : nat -> T -> T) (body : nat -> list T -> res (list T)) a :
  length a = n ->
  (forall i l x, i < n -> length l = n -> nth_error l i = Some x -> body i l = Ok (upd l i (g i x))) ->
  exists a', loop n body a = Ok a' /\ length a' = n /\
    forall i, i < n -> nth i a' z = g i (nth i a z).
Proof.
  intros La Hb. exists (mapr 0 n g a).
  assert (L : 0 + n <= length a) by lia. splits.
  - apply loop_mapr; [exact L|]. intros i l x Hi Hl Hx. cbn [Nat.add] in *. apply Hb; auto; lia.
  - rewrite mapr_length; auto.
  - intros i Hi. rewrite nth_mapr by (auto; lia). cbn [Nat.leb andb Nat.add].
    destruct (Nat.ltb_spec i n); [|lia]. rewrite Nat.sub_0_r. reflexivity.
Qed.

Lemma nth_repeat_z n i : nth i (repeat z n) z = z.
Proof. revert i; induction n; intros [|i]; cbn; auto. Qed.

Lemma aget_cell (m : dmat N) r c : shaped m -> r < dm_nrow m -> c < dm_ncol m ->
  aget (dm_mat m) (r * dm_ncol m + c) = Ok (cell m r c).
Proof. intros S Hr Hc. apply aget_nth. rewrite S. apply idx_lt; auto. Qed.

(** Element access: [get] reads the cell, [set] and [+= at] change it alone. *)
Theorem c47_get_set : forall (m : dmat N) r c v,
  shaped m -> r < dm_nrow m -> c < dm_ncol m ->
  dm_get m r c = Ok (cell m r c) /\
  (exists m', dm_set m r c v = Ok m' /\
     is_matrix m' (dm_nrow m) (dm_ncol m) (fun r' c' => if (r' =? r) && (c' =? c) then v else cell m r' c')) /\
  (exists m', dm_peq m r c v = Ok m' /\
     is_matrix m' (dm_nrow m) (dm_ncol m)
       (fun r' c' => if (r' =? r) && (c' =? c) then nadd N (cell m r c) v else cell m r' c')).
Proof.
  intros m r c v S Hr Hc. pose proof (@idx_lt _ _ _ _ Hr Hc) as Hi. rewrite <- S in Hi.
  assert (U : forall w, is_matrix (mkDm (upd (dm_mat m) (r * dm_ncol m + c) w) (dm_nrow m) (dm_ncol m))
      (dm_nrow m) (dm_ncol m) (fun r' c' => if (r' =? r) && (c' =? c) then w else cell m r' c')).
  { intros w. unfold is_matrix, shaped, cell; cbn [dm_mat dm_nrow dm_ncol]. rewrite upd_length. splits; auto.
    intros r' c' Hr' Hc'. rewrite nth_upd by exact Hi.
    destruct (Nat.eqb_spec (r' * dm_ncol m + c') (r * dm_ncol m + c)) as [E|E].
    - apply idx_inj in E as (-> & ->); auto. rewrite !Nat.eqb_refl. reflexivity.
    - destruct (Nat.eqb_spec r' r) as [->|]; [|reflexivity].
      destruct (Nat.eqb_spec c' c) as [->|]; [congruence|reflexivity]. }
  splits.
  - apply aget_cell; auto.
  - unfold dm_set. rewrite aset_ok by exact Hi. eexists; split; [reflexivity|]. apply U.
  - unfold dm_peq. rewrite (amod_nth _ _ z) by exact Hi. eexists; split; [reflexivity|]. apply U.
Qed.

(** Whole-matrix and whole-row assignment from a buffer. *)
Theorem c47_set_buffers : forall (m : dmat N) (d : list T),
  shaped m ->
  (length d = dm_nrow m * dm_ncol m ->
   exists m', dm_set_all m (d, 0) = Ok m' /\ dm_mat m' = d /\ dm_nrow m' = dm_nrow m /\ dm_ncol m' = dm_ncol m) /\
  (forall rid, length d = dm_ncol m -> rid < dm_nrow m ->
   exists m', dm_set_row m (d, 0) rid = Ok m' /\
     is_matrix m' (dm_nrow m) (dm_ncol m) (fun r c => if r =? rid then nth c d z else cell m r c)).
Proof.
  intros m d S. split.
  - intros L. unfold dm_set_all. rewrite copy_to_ok; cbn [fst snd]; [|rewrite S; lia|lia].
    eexists; split; [reflexivity|]. cbn [dm_mat dm_nrow dm_ncol]. splits; auto.
    rewrite <- L, slice_all. cbn [firstn app Nat.add]. rewrite skipn_all2 by (rewrite S; lia).
    apply app_nil_r.
  - intros rid L Hr. unfold dm_set_row.
    rewrite (@copy_to_mapr _ (d, 0) (dm_ncol m) (dm_mat m) (rid * dm_ncol m) z); cbn [fst snd];
      [|rewrite S; nia|lia].
    assert (B : rid * dm_ncol m + dm_ncol m <= length (dm_mat m)) by (rewrite S; nia).
    eexists; split; [reflexivity|]. unfold is_matrix, shaped, cell; cbn [dm_mat dm_nrow dm_ncol].
    splits; auto; [rewrite mapr_length; auto|]. intros r c Hr' Hc.
    rewrite nth_mapr by (auto; rewrite S; apply idx_lt; auto).
    destruct (Nat.leb_spec (rid * dm_ncol m) (r * dm_ncol m + c)),
      (Nat.ltb_spec (r * dm_ncol m + c) (rid * dm_ncol m + dm_ncol m)); cbn [andb];
      destruct (Nat.eqb_spec r rid) as [->|]; try reflexivity; try nia.
    f_equal. lia.
Qed.

(** column accumulation: after the double loop, slot [c] is the sum of column [c] *)
Lemma col_acc (f : nat -> nat -> T) nr nc (val : nat -> nat -> res T) :
  (forall r c, r < nr -> c < nc -> val r c = Ok (f r c)) ->
  exists s, loop nr (fun row s => loop nc (fun col s =>
      let* x := val row col in amod s col (fun a => nadd N a x)) s) (repeat z nc) = Ok s /\
    is_vector s nc (fun c => bigsum N nr (fun r => f r c)).
Proof.
  intros Hv.
  pose (P := fun i s => length s = nc /\
     forall c, c < nc -> nth c s z = bigsum N i (fun r => f r c)).
  assert (H : okp (loop nr (fun row s => loop nc (fun col s =>
      let* x := val row col in amod s col (fun a => nadd N a x)) s) (repeat z nc)) (P nr)).
  { apply loop_okp.
    - split; [apply repeat_length|]. intros c Hc. cbn [bigsum]. apply nth_repeat_z.
    - intros r s Hr (A & B).
      destruct (@loop1_map nc (fun c a => nadd N a (f r c)) (fun col s =>
        let* x := val r col in amod s col (fun a => nadd N a x)) s A) as (s' & E & A' & B').
      { intros c l x Hc Hl Hx. rewrite Hv by lia. cbn [bind]. rewrite (@amod_ok _ _ _ _ _ Hx); reflexivity. }
      rewrite E. cbn [okp]. split; [exact A'|]. intros c Hc. cbn [bigsum]. rewrite B', B by auto. reflexivity. }
  apply okp_iff in H as (s & E & A & B). exists s. split; [exact E|]. split; auto.
Qed.

(** row accumulation in any order of the rows *)
Lemma row_acc (f : nat -> nat -> T) nr nc (val : nat -> nat -> res T) rows :
  (forall r c, r < nr -> c < nc -> val r c = Ok (f r c)) ->
  Permutation rows (seq 0 nr) ->
  exists s, for_each rows (fun row s => loop nc (fun col s =>
      let* x := val row col in amod s row (fun a => nadd N a x)) s) (repeat z nr) = Ok s /\
    is_vector s nr (fun r => bigsum N nc (fun c => f r c)).
Proof.
  intros Hv HP.
  assert (IN : forall r, In r rows -> r < nr).
  { intros r Hr. eapply Permutation_in in Hr; [|exact HP]. apply in_seq in Hr. lia. }
  assert (ND : NoDup rows) by (eapply Permutation_NoDup; [apply Permutation_sym; exact HP|apply seq_NoDup]).
  pose (P := fun todo s => length s = nr /\ incl todo rows /\ NoDup todo /\
     (forall r, In r todo -> nth r s z = z) /\
     forall r, r < nr -> ~ In r todo -> nth r s z = bigsum N nc (fun c => f r c)).
  assert (H : okp (for_each rows (fun row s => loop nc (fun col s =>
      let* x := val row col in amod s row (fun a => nadd N a x)) s) (repeat z nr)) (P [])).
  { apply for_each_okp.
    - unfold P. splits; auto.
      + apply repeat_length.
      + apply incl_refl.
      + intros r _. apply nth_repeat_z.
      + intros r Hr Hn. exfalso. apply Hn. eapply Permutation_in; [apply Permutation_sym; exact HP|].
        apply in_seq. lia.
    - intros r todo s (A & I & D & B & C).
      assert (Hr : r < nr) by (apply IN, I; left; auto).
      pose (Q := fun i l => length l = nr /\ nth r l z = bigsum N i (fun c => f r c) /\
                 forall r', r' <> r -> nth r' l z = nth r' s z).
      assert (HQ : okp (loop nc (fun col s => let* x := val r col in amod s r (fun a => nadd N a x)) s) (Q nc)).
      { apply loop_okp.
        - unfold Q. splits; auto. cbn [bigsum]. apply B; left; auto.
        - intros c l Hc (QA & QB & QC). rewrite Hv by lia. cbn [bind].
          rewrite (amod_nth _ _ z) by lia. cbn [okp]. unfold Q. rewrite upd_length. splits; auto.
          + rewrite nth_upd by lia. rewrite Nat.eqb_refl, QB. reflexivity.
          + intros r' Hne. rewrite nth_upd by lia. destruct (Nat.eqb_spec r' r); [congruence|auto]. }
      apply okp_iff in HQ as (l & E & QA & QB & QC). rewrite E. cbn [okp].
      inversion D as [|? ? Hn D']; subst. unfold P. splits; auto.
      + intros x Hx. apply I; right; auto.
      + intros r' Hr'. rewrite QC by (intros ->; contradiction). apply B; right; auto.
      + intros r' Hr' Hn'. destruct (Nat.eq_dec r' r) as [->|Hne]; [exact QB|].
        rewrite QC by exact Hne. apply C; auto. intros [->|]; contradiction. }
  apply okp_iff in H as (s & E & A & _ & _ & _ & C). exists s. split; [exact E|]. split; auto.
Qed.

Lemma loop_for_each {St} n (body : nat -> St -> res St) : forall i s,
  for_ n i body s = for_each (seq i n) body s.
Proof.
  induction n as [|n IH]; intros i s; cbn [for_ seq for_each]; [reflexivity|].
  destruct (body i s); cbn [bind]; auto.
Qed.

(** Means over columns (dim 1) and over rows (dim 0). *)
Theorem c47_mean : forall (m : dmat N) mean0, shaped m ->
  (exists v, dm_mean m mean0 1 = Ok v /\ is_vector v (dm_ncol m)
     (fun c => ndiv N (bigsum N (dm_nrow m) (fun r => cell m r c)) (nofZ N (Z.of_nat (dm_nrow m))))) /\
  (exists v, dm_mean m mean0 0 = Ok v /\ is_vector v (dm_nrow m)
     (fun r => ndiv N (bigsum N (dm_ncol m) (fun c => cell m r c)) (nofZ N (Z.of_nat (dm_ncol m))))).
Proof.
  intros m mean0 S. unfold dm_mean. cbn [Nat.eqb]. split.
  - destruct (@col_acc (cell m) (dm_nrow m) (dm_ncol m)
      (fun row col => aget (dm_mat m) (row * dm_ncol m + col))) as (s & E & A & B).
    { intros. apply aget_cell; auto. }
    rewrite E. cbn [bind]. rewrite A.
    destruct (@loop1_map (dm_ncol m) (fun _ a => ndiv N a (nofZ N (Z.of_nat (dm_nrow m))))
      (fun i s => amod s i (fun a => ndiv N a (nofZ N (Z.of_nat (dm_nrow m))))) s A) as (v & E2 & A2 & B2).
    { intros i1 l1 x1 _ _ Hx1. rewrite (@amod_ok _ _ _ _ _ Hx1); reflexivity. }
    exists v. split; [exact E2|]. split; auto. intros i Hi. rewrite B2, B by auto. reflexivity.
  - unfold loop at 1. rewrite loop_for_each.
    destruct (@row_acc (cell m) (dm_nrow m) (dm_ncol m)
      (fun row col => aget (dm_mat m) (row * dm_ncol m + col)) (seq 0 (dm_nrow m))) as (s & E & A & B).
    { intros. apply aget_cell; auto. } { apply Permutation_refl. }
    rewrite E. cbn [bind]. rewrite A.
    destruct (@loop1_map (dm_nrow m) (fun _ a => ndiv N a (nofZ N (Z.of_nat (dm_ncol m))))
      (fun i s => amod s i (fun a => ndiv N a (nofZ N (Z.of_nat (dm_ncol m))))) s A) as (v & E2 & A2 & B2).
    { intros i1 l1 x1 _ _ Hx1. rewrite (@amod_ok _ _ _ _ _ Hx1); reflexivity. }
    exists v. split; [exact E2|]. split; auto. intros i Hi. rewrite B2, B by auto. reflexivity.
Qed.

(** Matrix product, for every order in which the parallel loop takes the rows. *)
Theorem c47_product : forall (a b : dmat N) rows,
  shaped a -> shaped b -> dm_ncol a = dm_nrow b -> Permutation rows (seq 0 (dm_nrow a)) ->
  exists m, dm_mul a b rows = Ok m /\
    is_matrix m (dm_nrow a) (dm_ncol b)
      (fun r c => bigsum N (dm_ncol a) (fun k => nmul N (cell a r k) (cell b k c))).
Proof.
  intros a b rows Sa Sb Hd HP.
  set (nr := dm_nrow a) in *. set (nc := dm_ncol b) in *.
  assert (IN : forall r, In r rows -> r < nr).
  { intros r Hr. eapply Permutation_in in Hr; [|exact HP]. apply in_seq in Hr. lia. }
  assert (ND : NoDup rows) by (eapply Permutation_NoDup; [apply Permutation_sym; exact HP|apply seq_NoDup]).
  pose (P := fun todo l => length l = nr * nc /\ incl todo rows /\ NoDup todo /\
     (forall r c, r < nr -> c < nc -> In r todo -> nth (r * nc + c) l z = z) /\
     forall r c, r < nr -> c < nc -> ~ In r todo ->
       nth (r * nc + c) l z = bigsum N (dm_ncol a) (fun k => nmul N (cell a r k) (cell b k c))).
  assert (H : okp (for_each rows (dm_mul_row a b) (dm_mat (dm_new N nr nc))) (P [])).
  { apply for_each_okp.
    - unfold P; cbn [dm_new dm_mat]. splits; auto.
      + apply repeat_length.
      + apply incl_refl.
      + intros. apply nth_repeat_z.
      + intros r c Hr Hc Hn. exfalso. apply Hn. eapply Permutation_in; [apply Permutation_sym; exact HP|].
        apply in_seq. lia.
    - intros r todo l0 (A & I & D & B & C).
      assert (Hr : r < nr) by (apply IN, I; left; auto).
      pose (Q := fun i l => length l = nr * nc /\
         (forall c, c < nc -> nth (r * nc + c) l z = bigsum N i (fun k => nmul N (cell a r k) (cell b k c))) /\
         forall r' c, r' < nr -> c < nc -> r' <> r -> nth (r' * nc + c) l z = nth (r' * nc + c) l0 z).
      assert (HQ : okp (dm_mul_row a b r l0) (Q (dm_nrow b))).
      { unfold dm_mul_row. apply loop_okp.
        - unfold Q. splits; auto. intros c Hc. cbn [bigsum]. apply B; auto. left; auto.
        - intros k l Hk (QA & QB & QC).
          assert (Lb : r * nc + nc <= length l) by (rewrite QA; nia).
          assert (E : loop (dm_ncol b) (fun rcol rp =>
              let* x := aget (dm_mat a) (r * dm_ncol a + k) in
              let* y := dm_get b k rcol in
              amod rp (r * dm_ncol b + rcol) (fun s => nadd N s (nmul N x y))) l
            = Ok (mapr (r * nc) nc (fun c s => nadd N s (nmul N (cell a r k) (cell b k c))) l)).
          { apply loop_mapr; [exact Lb|]. intros c l' x Hc Hl' Hx.
            rewrite aget_cell by (auto; lia). cbn [bind]. unfold dm_get.
            rewrite aget_cell by (auto; lia). cbn [bind]. rewrite (@amod_ok _ _ _ _ _ Hx); reflexivity. }
          rewrite E. cbn [okp]. unfold Q. rewrite mapr_length by exact Lb. splits; auto.
          + intros c Hc. rewrite nth_mapr by (auto; rewrite QA; apply idx_lt; auto).
            destruct (Nat.leb_spec (r * nc) (r * nc + c)); [|lia].
            destruct (Nat.ltb_spec (r * nc + c) (r * nc + nc)); [|lia]. cbn [andb bigsum].
            rewrite QB by auto. replace (r * nc + c - r * nc) with c by lia. reflexivity.
          + intros r' c Hr' Hc Hne. rewrite nth_mapr by (auto; rewrite QA; apply idx_lt; auto).
            destruct (Nat.leb_spec (r * nc) (r' * nc + c)), (Nat.ltb_spec (r' * nc + c) (r * nc + nc)); cbn [andb];
              try (apply QC; auto). exfalso. apply Hne. nia. }
      apply okp_iff in HQ as (l & E & QA & QB & QC). rewrite E. cbn [okp].
      inversion D as [|? ? Hn D']; subst. unfold P. splits; auto.
      + intros x Hx. apply I; right; auto.
      + intros r' c Hr' Hc Hin. rewrite QC by (auto; intros ->; contradiction). apply B; auto. right; auto.
      + intros r' c Hr' Hc Hn'. destruct (Nat.eq_dec r' r) as [->|Hne].
        * rewrite QB by auto. rewrite Hd. reflexivity.
        * rewrite QC by auto. apply C; auto. intros [->|]; contradiction. }
  apply okp_iff in H as (l & E & A & _ & _ & _ & C).
  unfold dm_mul. fold nr nc. rewrite E. cbn [bind]. eexists; split; [reflexivity|].
  unfold is_matrix, shaped, cell; cbn [dm_mat dm_nrow dm_ncol]. splits; auto.
  intros r c Hr Hc. apply C; auto.
Qed.

(** Sum, difference and [+=] of two matrices of one shape; another shape aborts. *)
Theorem c47_plus_minus : forall (a b : dmat N), shaped a -> shaped b ->
  (dm_nrow a = dm_nrow b -> dm_ncol a = dm_ncol b ->
    (exists m, dm_plus a b = Ok m /\
       is_matrix m (dm_nrow a) (dm_ncol a) (fun r c => nadd N (cell a r c) (cell b r c))) /\
    (exists m, dm_minus a b = Ok m /\
       is_matrix m (dm_nrow a) (dm_ncol a) (fun r c => nsub N (cell a r c) (cell b r c))) /\
    (exists m, dm_plus_eq a b = Ok m /\
       is_matrix m (dm_nrow a) (dm_ncol a) (fun r c => nadd N (cell a r c) (cell b r c)))) /\
  (dm_nrow a <> dm_nrow b \/ dm_ncol a <> dm_ncol b ->
     dm_plus a b = Err Abort /\ dm_minus a b = Err Abort /\ dm_plus_eq a b = Err Abort).
Proof.
  intros a b Sa Sb. split.
  - intros H1 H2.
    assert (AS : (dm_nrow a =? dm_nrow b) && (dm_ncol a =? dm_ncol b) = true)
      by (rewrite H1, H2, !Nat.eqb_refl; reflexivity).
    assert (Z : forall op, exists m, dm_zip op a b = Ok m /\
       is_matrix m (dm_nrow a) (dm_ncol a) (fun r c => op (cell a r c) (cell b r c))).
    { intros op. unfold dm_zip. rewrite AS. cbn [assert_ bind].
      destruct (@loop1_map (dm_nrow a * dm_ncol a)
         (fun i _ => op (nth i (dm_mat a) z) (nth i (dm_mat b) z))
         (fun i r => let* p := aget (dm_mat a) i in let* q := aget (dm_mat b) i in aset r i (op p q))
         (dm_mat (dm_new N (dm_nrow a) (dm_ncol a)))) as (l & E & A & B).
      { apply repeat_length. }
      { intros i l x Hi Hl Hx. rewrite (aget_nth (dm_mat a) z) by (rewrite Sa; exact Hi).
        cbn [bind]. rewrite (aget_nth (dm_mat b) z) by (rewrite Sb, <- H1, <- H2; exact Hi).
        cbn [bind]. apply aset_ok. lia. }
      rewrite E. cbn [bind]. eexists; split; [reflexivity|].
      unfold is_matrix, shaped, cell; cbn [dm_mat dm_nrow dm_ncol]. splits; auto.
      intros r c Hr Hc. rewrite B by (apply idx_lt; auto). rewrite H2. reflexivity. }
    splits; [apply Z|apply Z|]. unfold dm_plus_eq. rewrite AS. cbn [assert_ bind].
    destruct (@loop1_map (dm_nrow a * dm_ncol a)
       (fun i x => nadd N x (nth i (dm_mat b) z))
       (fun i r => let* q := aget (dm_mat b) i in amod r i (fun p => nadd N p q)) (dm_mat a)) as (l & E & A & B).
    { exact Sa. }
    { intros i l x Hi Hl Hx. rewrite (aget_nth (dm_mat b) z) by (rewrite Sb, <- H1, <- H2; exact Hi).
      cbn [bind]. rewrite (@amod_ok _ _ _ _ _ Hx); reflexivity. }
    rewrite E. cbn [bind]. eexists; split; [reflexivity|].
    unfold is_matrix, shaped, cell; cbn [dm_mat dm_nrow dm_ncol]. splits; auto.
    intros r c Hr Hc. rewrite B by (apply idx_lt; auto). rewrite H2. reflexivity.
  - intros H.
    assert (AS : (dm_nrow a =? dm_nrow b) && (dm_ncol a =? dm_ncol b) = false).
    { destruct (Nat.eqb_spec (dm_nrow a) (dm_nrow b)), (Nat.eqb_spec (dm_ncol a) (dm_ncol b)); auto. tauto. }
    unfold dm_plus, dm_minus, dm_zip, dm_plus_eq. rewrite AS. cbn. auto.
Qed.

Lemma sum_loop n (f : nat -> T) (val : nat -> res T) :
  (forall i, i < n -> val i = Ok (f i)) ->
  loop n (fun i s => let* x := val i in Ok (nadd N s x)) z = Ok (bigsum N n f).
Proof.
  intros H. induction n as [|n IH]; [reflexivity|]. rewrite loop_S.
  rewrite IH by (intros; apply H; lia). cbn [bind bigsum]. rewrite H by lia. reflexivity.
Qed.

(** Row sums (axis 1, any row order), sum of all elements, Frobenius norm. *)
Theorem c47_sums : forall (m : dmat N) rows, shaped m -> Permutation rows (seq 0 (dm_nrow m)) ->
  (exists v, dm_sum_axis m 1 rows = Ok v /\ is_vector v (dm_nrow m)
     (fun r => bigsum N (dm_ncol m) (fun c => cell m r c))) /\
  dm_sum m = Ok (bigsum N (dm_nrow m * dm_ncol m) (fun i => nth i (dm_mat m) z)) /\
  dm_frobenius m = Ok (nsqrt N (bigsum N (dm_nrow m * dm_ncol m)
     (fun i => nmul N (nth i (dm_mat m) z) (nth i (dm_mat m) z)))).
Proof.
  intros m rows S HP. splits.
  - unfold dm_sum_axis. cbn [Nat.eqb]. apply row_acc; auto. intros. apply aget_cell; auto.
  - unfold dm_sum. apply sum_loop with (val := aget (dm_mat m)). intros i Hi. apply aget_nth. rewrite S; exact Hi.
  - unfold dm_frobenius.
    assert (E : loop (dm_nrow m * dm_ncol m) (fun i s =>
              let* x := aget (dm_mat m) i in Ok (nadd N s (nmul N x x))) z
       = loop (dm_nrow m * dm_ncol m) (fun i s =>
              let* x := (let* y := aget (dm_mat m) i in Ok (nmul N y y)) in Ok (nadd N s x)) z).
    { apply for_ext. intros j s _. destruct (aget (dm_mat m) j); reflexivity. }
    rewrite E.
    rewrite (@sum_loop (dm_nrow m * dm_ncol m) (fun i => nmul N (nth i (dm_mat m) z) (nth i (dm_mat m) z))).
    + reflexivity.
    + intros i Hi. rewrite (aget_nth (dm_mat m) z) by (rewrite S; exact Hi). reflexivity.
Qed.

(** Column sums (axis 0) of a matrix with at least one row: the first row plus
    the others.  (In exact arithmetic: c47_column_sums_exact.) *)
Lemma sum0 : forall (m : dmat N) rows, shaped m -> 1 <= dm_nrow m ->
  exists v, dm_sum_axis m 0 rows = Ok v /\ length v = dm_ncol m /\
    forall c, c < dm_ncol m -> nth c v z =
      fold_left (fun s r => nadd N s (cell m r c)) (seq 1 (dm_nrow m - 1)) (cell m 0 c).
Proof.
  intros m rows S Hn. unfold dm_sum_axis. cbn [Nat.eqb].
  rewrite (@copy_to_mapr _ (dm_mat m, 0) (dm_ncol m) (repeat z (dm_ncol m)) 0 z); cbn [fst snd];
    [|rewrite repeat_length; lia|rewrite S; nia]. cbn [bind].
  set (r0 := mapr 0 (dm_ncol m) _ _).
  assert (R0 : length r0 = dm_ncol m /\ forall c, c < dm_ncol m -> nth c r0 z = cell m 0 c).
  { unfold r0. rewrite mapr_length by (rewrite repeat_length; lia). rewrite repeat_length. split; auto.
    intros c Hc. rewrite nth_mapr by (rewrite repeat_length; lia). cbn [Nat.leb andb Nat.add].
    destruct (Nat.ltb_spec c (dm_ncol m)); [|lia]. unfold cell. f_equal. lia. }
  clearbody r0. destruct R0 as (L0 & C0).
  assert (G : forall k i s, 1 <= i -> i + k <= dm_nrow m -> length s = dm_ncol m ->
    exists v, for_ k i (fun row s => loop (dm_ncol m) (fun col s =>
       let* x := aget (dm_mat m) (row * dm_ncol m + col) in
       amod s col (fun a => nadd N a x)) s) s = Ok v /\ length v = dm_ncol m /\
     forall c, c < dm_ncol m -> nth c v z = fold_left (fun s r => nadd N s (cell m r c)) (seq i k) (nth c s z)).
  { induction k as [|k IH]; intros i s H1 H2 Ls; cbn [for_ seq fold_left].
    - exists s; auto.
    - destruct (@loop1_map (dm_ncol m) (fun c a => nadd N a (cell m i c)) (fun col s =>
        let* x := aget (dm_mat m) (i * dm_ncol m + col) in amod s col (fun a => nadd N a x)) s Ls) as (s' & E & A' & B').
      { intros c l x Hc Hl Hx. rewrite aget_cell by (auto; lia). cbn [bind]. rewrite (@amod_ok _ _ _ _ _ Hx); reflexivity. }
      rewrite E. cbn [bind]. destruct (IH (Datatypes.S i) s') as (v & Ev & Lv & Cv); auto; try lia.
      exists v. splits; auto. intros c Hc. rewrite Cv by auto. rewrite B' by auto. reflexivity. }
  destruct (G (dm_nrow m - 1) 1 r0) as (v & E & L & C); auto; try lia.
  exists v. splits; auto. intros c Hc. rewrite C, C0 by auto. reflexivity.
Qed.

(** Divisions: by a scalar; by a vector along rows or columns, with a function
    ([x] or [pow(x, e)]) applied to the quotient; wrong sizes throw. *)
Theorem c47_divisions : forall (m : dmat N) (v : list T) (x : T) (post : T -> T), shaped m ->
  (exists m', dm_div_scalar m x = Ok m' /\
     is_matrix m' (dm_nrow m) (dm_ncol m) (fun r c => ndiv N (cell m r c) x)) /\
  (length v = dm_ncol m -> exists m', dm_div_eq m v 0 post = Ok m' /\
     is_matrix m' (dm_nrow m) (dm_ncol m) (fun r c => post (ndiv N (cell m r c) (nth c v z)))) /\
  (length v = dm_nrow m -> exists m', dm_div_eq m v 1 post = Ok m' /\
     is_matrix m' (dm_nrow m) (dm_ncol m) (fun r c => post (ndiv N (cell m r c) (nth r v z)))) /\
  (dm_nrow m <> dm_ncol m -> length v = dm_nrow m -> exists m', dm_div_vec m v = Ok m' /\
     is_matrix m' (dm_nrow m) (dm_ncol m) (fun r c => ndiv N (cell m r c) (nth r v z))) /\
  (dm_nrow m <> dm_ncol m -> length v = dm_ncol m -> exists m', dm_div_vec m v = Ok m' /\
     is_matrix m' (dm_nrow m) (dm_ncol m) (fun r c => ndiv N (cell m r c) (nth c v z))) /\
  (dm_nrow m = dm_ncol m -> dm_div_vec m v = Err Throw).
Proof.
  intros m v x post S.
  assert (DR : forall post, length v = dm_nrow m -> exists m', dm_div_by_row m v post = Ok m' /\
     is_matrix m' (dm_nrow m) (dm_ncol m) (fun r c => post (ndiv N (cell m r c) (nth r v z)))).
  { intros p L. unfold dm_div_by_row.
    destruct (@loop2_map (dm_nrow m) (dm_ncol m) (fun r c a => p (ndiv N a (nth r v z)))
      (fun row col a => let* y := aget v row in
              amod a (row * dm_ncol m + col) (fun b => p (ndiv N b y))) (dm_mat m) S) as (a & E & A & B).
    { intros r c l y Hr Hc Hl Hy. rewrite (aget_nth v z) by lia. cbn [bind].
      rewrite (@amod_ok _ _ _ _ _ Hy). reflexivity. }
    rewrite E. eexists; split; [reflexivity|]. unfold is_matrix, shaped, cell; cbn [dm_mat dm_nrow dm_ncol].
    splits; auto. }
  assert (DC : forall post, length v = dm_ncol m -> exists m', dm_div_by_col m v post = Ok m' /\
     is_matrix m' (dm_nrow m) (dm_ncol m) (fun r c => post (ndiv N (cell m r c) (nth c v z)))).
  { intros p L. unfold dm_div_by_col.
    destruct (@loop2_map (dm_nrow m) (dm_ncol m) (fun r c a => p (ndiv N a (nth c v z)))
      (fun row col a => let* y := aget v col in
              amod a (row * dm_ncol m + col) (fun b => p (ndiv N b y))) (dm_mat m) S) as (a & E & A & B).
    { intros r c l y Hr Hc Hl Hy. rewrite (aget_nth v z) by lia. cbn [bind].
      rewrite (@amod_ok _ _ _ _ _ Hy). reflexivity. }
    rewrite E. eexists; split; [reflexivity|]. unfold is_matrix, shaped, cell; cbn [dm_mat dm_nrow dm_ncol].
    splits; auto. }
  splits.
  - unfold dm_div_scalar.
    destruct (@loop1_map (dm_nrow m * dm_ncol m) (fun _ a => ndiv N a x)
      (fun i r => amod r i (fun p => ndiv N p x)) (dm_mat m) S) as (a & E & A & B).
    { intros i1 l1 x1 _ _ Hx1. rewrite (@amod_ok _ _ _ _ _ Hx1); reflexivity. }
    rewrite E. eexists; split; [reflexivity|]. unfold is_matrix, shaped, cell; cbn [dm_mat dm_nrow dm_ncol].
    splits; auto. intros r c Hr Hc. apply B. apply idx_lt; auto.
  - intros L. unfold dm_div_eq. cbn [Nat.eqb andb]. rewrite L, Nat.eqb_refl. exact (DC post L).
  - intros L. unfold dm_div_eq. cbn [Nat.eqb andb]. rewrite L, Nat.eqb_refl. exact (DR post L).
  - intros Hn L. unfold dm_div_vec. destruct (Nat.eqb_spec (dm_nrow m) (dm_ncol m)); [congruence|].
    rewrite L, Nat.eqb_refl. exact (DR (fun x => x) L).
  - intros Hn L. unfold dm_div_vec. destruct (Nat.eqb_spec (dm_nrow m) (dm_ncol m)); [congruence|].
    rewrite L. destruct (Nat.eqb_spec (dm_ncol m) (dm_nrow m)); [congruence|]. rewrite Nat.eqb_refl.
    exact (DC (fun x => x) L).
  - intros He. unfold dm_div_vec. rewrite He, Nat.eqb_refl. reflexivity.
Qed.

(** Subtracting a vector: only for square matrices (others abort), and then
    element [r] is subtracted from row [r]. *)
Theorem c47_minus_vector : forall (m : dmat N) v, shaped m ->
  (dm_nrow m <> dm_ncol m -> dm_minus_vec m v = Err Abort) /\
  (dm_nrow m = dm_ncol m -> length v = dm_nrow m ->
   exists m', dm_minus_vec m v = Ok m' /\
     is_matrix m' (dm_nrow m) (dm_ncol m) (fun r c => nsub N (cell m r c) (nth r v z))) /\
  (dm_nrow m = dm_ncol m -> length v <> dm_nrow m -> dm_minus_vec m v = Err Throw).
Proof.
  intros m v S.
  assert (CP : dm_copy m = Ok m).
  { unfold dm_copy. rewrite copy_to_ok; cbn [fst snd dm_new dm_mat]; [|rewrite repeat_length; lia|rewrite S; lia].
    cbn [bind]. rewrite <- S, slice_all. cbn [firstn app Nat.add].
    rewrite skipn_all2 by (rewrite repeat_length, S; lia). rewrite app_nil_r. destruct m; reflexivity. }
  unfold dm_minus_vec. splits.
  - intros H. destruct (Nat.eqb_spec (dm_nrow m) (dm_ncol m)); [congruence|reflexivity].
  - intros H L. rewrite H, Nat.eqb_refl. cbn [assert_ bind]. rewrite CP. cbn [bind].
    rewrite L, H, Nat.eqb_refl.
    destruct (@loop2_map (dm_ncol m) (dm_ncol m) (fun r c a => nsub N a (nth r v z))
      (fun row col a => let* y := aget v row in
              amod a (row * dm_ncol m + col) (fun b => nsub N b y)) (dm_mat m)) as (a & E & A & B).
    { rewrite S, H. reflexivity. }
    { intros r c l y Hr Hc Hl Hy. rewrite (aget_nth v z) by lia. cbn [bind].
      rewrite (@amod_ok _ _ _ _ _ Hy). reflexivity. }
    rewrite E. eexists; split; [reflexivity|]. unfold is_matrix, shaped, cell; cbn [dm_mat dm_nrow dm_ncol].
    splits; auto.
  - intros H L. rewrite H, Nat.eqb_refl. cbn [assert_ bind]. rewrite CP. cbn [bind].
    rewrite H in L. destruct (Nat.eqb_spec (length v) (dm_ncol m)); [congruence|reflexivity].
Qed.

(** Equality test, when [==] decides equality of the elements. *)
Theorem c47_equality : forall (a b : dmat N), shaped a -> shaped b ->
  (forall x y : T, neqb N x y = true <-> x = y) ->
  exists v, dm_eq a b = Ok v /\ (v = true <-> a = b).
Proof.
  intros a b Sa Sb D. unfold dm_eq.
  destruct (Nat.eqb_spec (dm_nrow a) (dm_nrow b)) as [H1|H1]; cbn [negb orb];
    [|exists false; split; auto; split; [discriminate|congruence]].
  destruct (Nat.eqb_spec (dm_ncol a) (dm_ncol b)) as [H2|H2]; cbn [negb];
    [|exists false; split; auto; split; [discriminate|congruence]].
  assert (G : forall k i, i + k = length (dm_mat a) -> i + k = length (dm_mat b) ->
     exists v, dm_eq_from k i (dm_mat a) (dm_mat b) = Ok v /\
       (v = true <-> forall j, i <= j < i + k -> nth j (dm_mat a) z = nth j (dm_mat b) z)).
  { induction k as [|k IH]; intros i La Lb; cbn [dm_eq_from].
    - exists true. split; auto. split; auto. intros _ j Hj; lia.
    - rewrite (aget_nth (dm_mat a) z) by lia. cbn [bind].
      rewrite (aget_nth (dm_mat b) z) by lia. cbn [bind].
      destruct (neqb N (nth i (dm_mat a) z) (nth i (dm_mat b) z)) eqn:E; cbn [negb].
      + apply D in E. destruct (IH (S i)) as (v & Ev & Hv); try lia. exists v. split; auto. rewrite Hv.
        split; intros H j Hj.
        * destruct (Nat.eq_dec j i) as [->|]; [exact E|]. apply H; lia.
        * apply H; lia.
      + exists false. split; auto. split; [discriminate|]. intros H.
        specialize (H i ltac:(lia)). apply D in H. congruence. }
  destruct (G (dm_ncol a * dm_nrow a) 0) as (v & E & Hv).
  { rewrite Sa. lia. } { rewrite Sb, <- H1, <- H2. lia. }
  exists v. split; [exact E|]. rewrite Hv. split; [|intros ->; auto].
  intros H. destruct a as [la ra ca], b as [lb rb cb]; unfold shaped in *; cbn [dm_mat dm_nrow dm_ncol] in *.
  subst rb cb. f_equal. apply nth_ext with (d := z) (d' := z); [congruence|].
  intros j Hj. apply H. lia.
Qed.

(** Copying from another matrix makes an equal one, whatever was there before. *)
(** resizing sets the dimensions and keeps the stored values in row-major order,
    padding with zeros: with the number of columns unchanged every old cell that
    is still inside keeps its value and every new one is zero *)
Theorem c47_resize : forall (m : dmat N) nrow ncol, shaped m ->
  let m' := dm_resize m nrow ncol in
  dm_nrow m' = nrow /\ dm_ncol m' = ncol /\ shaped m' /\
  (forall i, i < nrow * ncol -> i < dm_nrow m * dm_ncol m ->
     nth_error (dm_mat m') i = nth_error (dm_mat m) i) /\
  (forall i, i < nrow * ncol -> dm_nrow m * dm_ncol m <= i ->
     nth_error (dm_mat m') i = Some (nzero N)) /\
  (ncol = dm_ncol m -> forall i j, i < nrow -> i < dm_nrow m -> j < ncol ->
     dm_get m' i j = dm_get m i j).
Proof.
  intros m nrow ncol S. cbv zeta. unfold shaped in *. cbn [dm_resize dm_nrow dm_ncol dm_mat].
  assert (A : forall i, i < nrow * ncol -> i < dm_nrow m * dm_ncol m ->
     nth_error (firstn (nrow * ncol) (dm_mat m) ++ repeat (nzero N) (nrow * ncol - length (dm_mat m))) i
     = nth_error (dm_mat m) i).
  { intros i H1 H2. rewrite nth_error_app1 by (rewrite firstn_length; lia).
    rewrite nth_error_firstn. destruct (Nat.ltb_spec i (nrow * ncol)); [reflexivity|lia]. }
  split; [reflexivity|]. split; [reflexivity|].
  split; [rewrite app_length, firstn_length, repeat_length; lia|].
  split; [exact A|]. split.
  - intros i H1 H2. rewrite nth_error_app2 by (rewrite firstn_length; lia).
    apply nth_error_repeat. rewrite firstn_length. lia.
  - intros -> i j Hi Hm Hj. unfold dm_get, aget. cbn [dm_resize dm_mat dm_ncol].
    rewrite A by nia. reflexivity.
Qed.
Print Assumptions c47_resize.

Example c47_resize_example :
  let m := @dm_resize NumF (@mkDm NumF (map fofZ [1; 2; 3]%Z) 3 1) 2 2 in
  dm_mat m = (map fofZ [1; 2; 3; 0]%Z : list SpecFloat.spec_float) /\ dm_nrow m = 2 /\ dm_ncol m = 2.
Proof. cbv zeta. split; [vm_compute; reflexivity|split; reflexivity]. Qed.

Theorem c47_copy_from : forall (m o : dmat N), shaped o -> dm_copy_from m o = Ok o.
Proof.
  intros m o S. unfold dm_copy_from.
  assert (L : length (dm_mat (dm_resize m (dm_nrow o) (dm_ncol o))) = dm_nrow o * dm_ncol o).
  { cbn [dm_resize dm_mat]. rewrite app_length, firstn_length, repeat_length. lia. }
  rewrite copy_to_ok; cbn [fst snd]; [|lia|rewrite S; lia]. cbn [bind].
  rewrite <- S, slice_all. cbn [firstn app Nat.add].
  rewrite skipn_all2 by (rewrite L, S; lia). rewrite app_nil_r. cbn [dm_resize dm_nrow dm_ncol]. destruct o; reflexivity.
Qed.

(** Vector-matrix product, dot product and difference (linalg). *)
Theorem c47_linalg : forall (v w mat : list T) nrow ncol,
  length v = nrow -> length mat = nrow * ncol ->
  (exists s, dot_vm (v, 0) (mat, 0) nrow ncol = Ok s /\ is_vector s ncol
     (fun c => bigsum N nrow (fun r => nmul N (nth r v z) (nth (r * ncol + c) mat z)))) /\
  (length w = nrow ->
   dot_vec v w = Ok (bigsum N nrow (fun i => nmul N (nth i v z) (nth i w z))) /\
   exists d, vdiff (v, 0) (w, 0) nrow [] = Ok d /\ is_vector d nrow (fun i => nsub N (nth i v z) (nth i w z))) /\
  (length w <> nrow -> dot_vec v w = Err Abort).
Proof.
  intros v w mat nrow ncol Lv Lm. splits.
  - unfold dot_vm.
    assert (E : loop nrow (fun row s => loop ncol (fun col s =>
        let* x := pget (v, 0) row in
        let* y := pget (mat, 0) (row * ncol + col) in
        amod s col (fun a => nadd N a (nmul N x y))) s) (repeat z ncol)
      = loop nrow (fun row s => loop ncol (fun col s =>
        let* x := (let* x := pget (v, 0) row in
        let* y := pget (mat, 0) (row * ncol + col) in Ok (nmul N x y)) in
        amod s col (fun a => nadd N a x)) s) (repeat z ncol)).
    { apply for_ext. intros j s _. apply for_ext. intros c s' _.
      destruct (pget (v, 0) j); cbn [bind]; [|reflexivity]. destruct (pget (mat, 0) _); reflexivity. }
    rewrite E. apply col_acc. intros r c Hr Hc.
    unfold pget; cbn [fst snd Nat.add]. rewrite (aget_nth v z) by lia. cbn [bind].
    rewrite (aget_nth mat z) by (rewrite Lm; apply idx_lt; auto). reflexivity.
  - intros Lw. split.
    + unfold dot_vec. rewrite Lv, Lw, Nat.eqb_refl. cbn [assert_ bind]. unfold dot_vv.
      assert (E : loop nrow (fun i s => let* x := pget (v, 0) i in let* y := pget (w, 0) i in
                      Ok (nadd N s (nmul N x y))) z
        = loop nrow (fun i s => let* x := (let* x := pget (v, 0) i in let* y := pget (w, 0) i in
                      Ok (nmul N x y)) in Ok (nadd N s x)) z).
      { apply for_ext. intros j s _. destruct (pget (v, 0) j); cbn [bind]; [|reflexivity].
        destruct (pget (w, 0) j); reflexivity. }
      rewrite E. apply sum_loop with (val := fun i => let* x := pget (v, 0) i in let* y := pget (w, 0) i in
                      Ok (nmul N x y)).
      intros i Hi. unfold pget; cbn [fst snd Nat.add]. rewrite (aget_nth v z) by lia. cbn [bind].
      rewrite (aget_nth w z) by lia. reflexivity.
    + unfold vdiff. cbn [length Nat.eqb].
      destruct (@loop1_map nrow (fun i _ => nsub N (nth i v z) (nth i w z))
        (fun i o => let* x := pget (v, 0) i in let* y := pget (w, 0) i in
                        aset o i (nsub N x y)) (repeat z nrow)) as (d & E & A & B).
      { apply repeat_length. }
      { intros i l x Hi Hl Hx. unfold pget; cbn [fst snd Nat.add]. rewrite (aget_nth v z) by lia. cbn [bind].
        rewrite (aget_nth w z) by lia. cbn [bind]. apply aset_ok. lia. }
      exists d. split; [exact E|]. split; auto.
  - intros Hn. unfold dot_vec. destruct (Nat.eqb_spec (length v) (length w)); [congruence|reflexivity].
Qed.

(** Zeroing, a function ([pow(x, e)]) applied to every element, and the norm of a
    vector (linalg). *)
Theorem c47_zero_power_norm : forall (m : dmat N) (pw : T -> T) (v : list T), shaped m ->
  is_matrix (dm_zero m) (dm_nrow m) (dm_ncol m) (fun _ _ => z) /\
  (exists m', dm_pow_eq m pw = Ok m' /\ is_matrix m' (dm_nrow m) (dm_ncol m) (fun r c => pw (cell m r c))) /\
  frobenius_norm (v, 0) (length v) = Ok (nsqrt N (bigsum N (length v) (fun i => nmul N (nth i v z) (nth i v z)))).
Proof.
  intros m pw v S. split; [|split].
  - unfold is_matrix, shaped, cell, dm_zero. cbn [dm_mat dm_nrow dm_ncol]. rewrite repeat_length. splits; auto. intros r c _ _. apply nth_repeat.
  - unfold dm_pow_eq.
    destruct (@loop1_map (dm_nrow m * dm_ncol m) (fun _ a => pw a) (fun i r => amod r i pw) (dm_mat m) S) as (a & E & A & B).
    { intros i1 l1 x1 _ _ Hx1. rewrite (@amod_ok _ _ _ _ _ Hx1); reflexivity. }
    rewrite E. eexists; split; [reflexivity|]. unfold is_matrix, shaped, cell; cbn [dm_mat dm_nrow dm_ncol].
    splits; auto. intros r c Hr Hc. apply B. apply idx_lt; auto.
  - unfold frobenius_norm.
    assert (E : loop (length v) (fun i s => let* x := pget (v, 0) i in Ok (nadd N s (nmul N x x))) z
       = loop (length v) (fun i s => let* x := (let* y := pget (v, 0) i in Ok (nmul N y y)) in Ok (nadd N s x)) z).
    { apply for_ext. intros j s _. destruct (pget (v, 0) j); reflexivity. }
    rewrite E. rewrite (@sum_loop (length v) (fun i => nmul N (nth i v z) (nth i v z))); [reflexivity|].
    intros i Hi. unfold pget. cbn [fst snd Nat.add]. rewrite (aget_nth v z) by exact Hi. reflexivity.
Qed.
End G.
