(** Row-major matrices seen as lists of rows. *)
From Verif Require Import Base Spec.
Set Implicit Arguments.

Lemma map2_length {A B C} (f : A -> B -> C) l m :
  length (map2 f l m) = Nat.min (length l) (length m).
Proof. revert m; induction l as [|x l IH]; intros [|y m]; simpl; auto. Qed.

Lemma nth_error_map2 {A B C} (f : A -> B -> C) l m i :
  nth_error (map2 f l m) i =
  match nth_error l i, nth_error m i with Some a, Some b => Some (f a b) | _, _ => None end.
Proof.
  revert m i; induction l as [|x l IH]; intros [|y m] [|i]; simpl; auto.
  destruct (nth_error l i); reflexivity.
Qed.

Lemma nth_map2 {A B C} (f : A -> B -> C) l m i da db dc :
  i < length l -> i < length m -> nth i (map2 f l m) dc = f (nth i l da) (nth i m db).
Proof.
  revert m i; induction l as [|x l IH]; intros [|y m] [|i] H1 H2; simpl in *; auto; try lia.
  apply IH; lia.
Qed.

Lemma map2_ext {A B C} (f g : A -> B -> C) l m :
  (forall a b, f a b = g a b) -> map2 f l m = map2 g l m.
Proof. intros H. revert m; induction l as [|x l IH]; intros [|y m]; simpl; auto. rewrite H, IH; reflexivity. Qed.

Lemma map2_map_l {A A' B C} (f : A' -> B -> C) (g : A -> A') l m :
  map2 f (map g l) m = map2 (fun a b => f (g a) b) l m.
Proof. revert m; induction l as [|x l IH]; intros [|y m]; simpl; auto. rewrite IH; reflexivity. Qed.

Lemma map2_map_r {A B B' C} (f : A -> B' -> C) (g : B -> B') l m :
  map2 f l (map g m) = map2 (fun a b => f a (g b)) l m.
Proof. revert m; induction l as [|x l IH]; intros [|y m]; simpl; auto. rewrite IH; reflexivity. Qed.

(** all rows of a matrix *)
Definition rows {A} (n ncol : nat) (l : list A) : list (list A) := map (row l ncol) (seq 0 n).

Lemma rows_length {A} n ncol (l : list A) : length (rows n ncol l) = n.
Proof. unfold rows. rewrite map_length, seq_length. reflexivity. Qed.

Lemma nth_error_rows {A} n ncol (l : list A) i :
  nth_error (rows n ncol l) i = if i <? n then Some (row l ncol i) else None.
Proof.
  unfold rows. rewrite nth_error_map, nth_error_seq. destruct (i <? n); reflexivity.
Qed.

Lemma nth_rows {A} n ncol (l : list A) i d : i < n -> nth i (rows n ncol l) d = row l ncol i.
Proof.
  intros H. apply nth_error_nth. rewrite nth_error_rows.
  destruct (Nat.ltb_spec i n); [reflexivity|lia].
Qed.

Lemma rows_inj {A} n ncol (l l' : list A) :
  length l = n * ncol -> length l' = n * ncol -> rows n ncol l = rows n ncol l' -> l = l'.
Proof.
  intros H H' E. apply (@rows_ext _ l l' n ncol H H'). intros c Hc.
  rewrite <- (nth_rows ncol l [] Hc), <- (nth_rows ncol l' [] Hc), E. reflexivity.
Qed.

Lemma Forall_rows {A} n ncol (l : list A) :
  length l = n * ncol -> Forall (fun r => length r = ncol) (rows n ncol l).
Proof.
  intros H. apply Forall_forall. intros r Hr. apply In_nth_error in Hr as (i & Hi).
  rewrite nth_error_rows in Hi. destruct (Nat.ltb_spec i n) as [Hn|]; [|discriminate].
  injection Hi as <-. eapply row_length; eauto.
Qed.

Lemma concat_length_const {A} ncol (ll : list (list A)) :
  Forall (fun r => length r = ncol) ll -> length (concat ll) = length ll * ncol.
Proof.
  induction 1 as [|r ll Hr _ IH]; simpl; auto. rewrite app_length, IH, Hr. reflexivity.
Qed.

Lemma row_concat {A} ncol (ll : list (list A)) :
  Forall (fun r => length r = ncol) ll -> forall i d, i < length ll -> row (concat ll) ncol i = nth i ll d.
Proof.
  induction 1 as [|r ll Hr Hll IH]; intros i d Hi; simpl in *; [lia|].
  unfold row, slice. destruct i as [|i]; simpl.
  - apply firstn_exact; exact Hr.
  - rewrite skipn_app. rewrite skipn_all2 by lia. simpl.
    replace (ncol + i * ncol - length r) with (i * ncol) by lia. apply IH. lia.
Qed.

Lemma rows_concat {A} ncol (ll : list (list A)) :
  Forall (fun r => length r = ncol) ll -> rows (length ll) ncol (concat ll) = ll.
Proof.
  intros H. apply nth_error_ext. intros i. rewrite nth_error_rows.
  destruct (Nat.ltb_spec i (length ll)) as [Hi|Hi].
  - rewrite (@row_concat _ ncol ll H i [] Hi). symmetry. apply nth_error_nth'. exact Hi.
  - symmetry. apply nth_error_None. exact Hi.
Qed.

Lemma concat_rows {A} n ncol (l : list A) : length l = n * ncol -> concat (rows n ncol l) = l.
Proof.
  intros H. apply (@rows_inj _ n ncol); auto.
  - rewrite (@concat_length_const _ ncol) by (apply Forall_rows; exact H). rewrite rows_length. reflexivity.
  - pose proof (@rows_concat _ ncol (rows n ncol l) (Forall_rows _ _ _ H)) as E.
    rewrite rows_length in E. exact E.
Qed.

(** replace row [idx] by a function of it *)
Definition urow {A} (ncol idx : nat) (f : list A -> list A) (l : list A) : list A :=
  firstn (idx * ncol) l ++ f (row l ncol idx) ++ skipn (idx * ncol + ncol) l.

Lemma urow_length {A} ncol idx n (f : list A -> list A) l :
  length l = n * ncol -> idx < n -> length (f (row l ncol idx)) = ncol ->
  length (urow ncol idx f l) = length l.
Proof.
  intros H Hi Hf. unfold urow. rewrite !app_length, firstn_length, skipn_length, Hf. nia.
Qed.

Lemma row_urow {A} ncol idx n (f : list A -> list A) l i :
  length l = n * ncol -> idx < n -> length (f (row l ncol idx)) = ncol ->
  row (urow ncol idx f l) ncol i = if i =? idx then f (row l ncol idx) else row l ncol i.
Proof.
  intros H Hi Hf. apply nth_error_ext. intros j.
  unfold row at 1. rewrite nth_error_slice. unfold urow.
  assert (L1 : length (firstn (idx * ncol) l) = idx * ncol) by (rewrite firstn_length; nia).
  destruct (Nat.ltb_spec j ncol) as [Hj|Hj].
  2:{ symmetry. apply nth_error_None. destruct (Nat.eqb_spec i idx); [lia|].
      unfold row, slice. rewrite firstn_length. lia. }
  destruct (Nat.eqb_spec i idx) as [->|Hne].
  - rewrite nth_error_app2 by lia. rewrite nth_error_app1 by lia. f_equal. lia.
  - unfold row. rewrite nth_error_slice. destruct (Nat.ltb_spec j ncol); [|lia].
    destruct (Nat.lt_ge_cases i idx) as [Hlt|Hge].
    + rewrite nth_error_app1 by nia. rewrite nth_error_firstn.
      destruct (Nat.ltb_spec (i * ncol + j) (idx * ncol)); [reflexivity|nia].
    + assert (idx < i) by lia. unfold row in Hf.
      assert (idx * ncol + ncol <= i * ncol) by nia.
      rewrite nth_error_app2 by lia. rewrite nth_error_app2 by (rewrite Hf, L1; lia).
      rewrite nth_error_skipn. f_equal. rewrite Hf, L1. lia.
Qed.

Lemma rows_urow {A} ncol idx n (f : list A -> list A) l :
  length l = n * ncol -> idx < n -> length (f (row l ncol idx)) = ncol ->
  rows n ncol (urow ncol idx f l) = upd (rows n ncol l) idx (f (row l ncol idx)).
Proof.
  intros H Hi Hf. apply nth_error_ext. intros i.
  rewrite nth_error_upd, !nth_error_rows, rows_length.
  rewrite (@row_urow _ ncol idx n f l i H Hi Hf).
  destruct (Nat.eqb_spec i idx) as [->|]; [|reflexivity]. reflexivity.
Qed.

Lemma urow_ext {A} ncol idx (f g : list A -> list A) l :
  f (row l ncol idx) = g (row l ncol idx) -> urow ncol idx f l = urow ncol idx g l.
Proof. intros H. unfold urow. rewrite H. reflexivity. Qed.

Lemma urow_id {A} ncol idx (f : list A -> list A) l :
  f (row l ncol idx) = row l ncol idx -> urow ncol idx f l = l.
Proof.
  intros H. unfold urow. rewrite H. unfold row, slice.
  rewrite <- (firstn_skipn (idx * ncol) l) at 4. f_equal.
  rewrite <- (firstn_skipn ncol (skipn (idx * ncol) l)) at 2. f_equal.
  apply nth_error_ext. intros j. rewrite !nth_error_skipn. f_equal. lia.
Qed.

(** the C loops over one row *)

Lemma combine_seq_map {A B} (g : nat -> A -> B) (s : list A) k :
  map (fun p => g (fst p) (snd p)) (combine (seq k (length s)) s) =
  map2 g (seq k (length s)) s.
Proof. revert k; induction s as [|x s IH]; intros k; simpl; auto. rewrite IH. reflexivity. Qed.

Lemma map2_seq_const {A B} (h : A -> B) (s : list A) k :
  map2 (fun _ => h) (seq k (length s)) s = map h s.
Proof. revert k; induction s as [|x s IH]; intros k; simpl; auto. rewrite IH. reflexivity. Qed.

Lemma loop_urow1 {A} (l : list A) ncol idx n (h : A -> A) body :
  length l = n * ncol -> idx < n ->
  (forall i a x, i < ncol -> length a = length l -> nth_error a (idx * ncol + i) = Some x ->
     body i a = Ok (upd a (idx * ncol + i) (h x))) ->
  loop ncol body l = Ok (urow ncol idx (map h) l).
Proof.
  intros H Hi Hb. rewrite (@loop_mapr _ l (idx * ncol) ncol (fun _ => h)); [|nia|exact Hb].
  f_equal. unfold mapr, urow. do 2 f_equal. fold (row l ncol idx).
  pose proof (@row_length _ l ncol idx n H Hi) as E.
  replace (seq 0 ncol) with (seq 0 (length (row l ncol idx))) by (rewrite E; reflexivity).
  rewrite (combine_seq_map (fun _ => h)). apply map2_seq_const.
Qed.

Lemma loop_urow2 {A B} (l : list A) (v : list B) ncol idx n (h : A -> B -> A) body :
  length l = n * ncol -> idx < n -> length v = ncol ->
  (forall i a x y, i < ncol -> length a = length l -> nth_error a (idx * ncol + i) = Some x ->
     nth_error v i = Some y -> body i a = Ok (upd a (idx * ncol + i) (h x y))) ->
  loop ncol body l = Ok (urow ncol idx (fun r => map2 h r v) l).
Proof.
  intros H Hi Hv Hb. destruct v as [|v0 v'] eqn:Ev.
  - simpl in Hv. subst ncol. cbn. f_equal. symmetry. apply urow_id. reflexivity.
  - rewrite <- Ev in *. clear Ev v'.
    rewrite (@loop_mapr _ l (idx * ncol) ncol (fun i x => h x (nth i v v0))); [|nia|].
    2:{ intros i a x Hin La Hx. apply Hb; auto. apply nth_error_nth'. lia. }
    f_equal. unfold mapr, urow. do 2 f_equal. fold (row l ncol idx).
    pose proof (@row_length _ l ncol idx n H Hi) as E.
    apply nth_error_ext. intros j.
    rewrite nth_error_map, nth_error_combine, nth_error_map2, nth_error_seq.
    destruct (Nat.ltb_spec j ncol) as [Hj|Hj].
    + destruct (nth_error (row l ncol idx) j); [|reflexivity]. simpl.
      rewrite (nth_error_nth' v v0) by lia. reflexivity.
    + rewrite (proj2 (nth_error_None (row l ncol idx) j)) by lia. reflexivity.
Qed.

Lemma slice_nth_error {A} (l : list A) o n v i y :
  slice l o n = v -> nth_error v i = Some y -> nth_error l (o + i) = Some y.
Proof.
  intros <- H. rewrite nth_error_slice in H. destruct (i <? n); [exact H|discriminate].
Qed.
