(** The text written by cluster_t::write, and reading it back. *)
From Coq Require Import String Ascii DecimalString Decimal DecimalNat DecimalZ List Lia.
From Verif Require Import Base Num Spec ContainersModel WriteModel SpecYaml.
Set Implicit Arguments.
Local Open Scope list_scope.

(** characters with a meaning in the file *)
Definition sep (c : ascii) : Prop := c = ","%char \/ c = "["%char \/ c = "]"%char \/ c = nl.
(** a printed number: not empty, none of those characters *)
Definition plain (w : text) : Prop := w <> [] /\ forall c, In c w -> ~ sep c.

Lemma after_app p : forall l, after p (p ++ l) = Some l.
Proof. induction p as [|x p IH]; intros l; cbn; auto. rewrite Ascii.eqb_refl. apply IH. Qed.

Lemma split_nonnil c l : split c l <> [].
Proof. induction l as [|x l IH]; cbn; [discriminate|]. destruct (split c l); [discriminate|]. destruct (Ascii.eqb x c); discriminate. Qed.
Lemma split_none c l : ~ In c l -> split c l = [l].
Proof.
  induction l as [|x l IH]; intros H; cbn; auto. rewrite IH by (intros Q; apply H; right; exact Q).
  destruct (Ascii.eqb_spec x c) as [->|_]; [exfalso; apply H; left|]; reflexivity.
Qed.
Lemma split_app c l t : ~ In c l -> split c (l ++ c :: t) = l :: split c t.
Proof.
  induction l as [|x l IH]; intros H; cbn.
  - rewrite Ascii.eqb_refl. destruct (split c t) eqn:E; [exfalso; exact (split_nonnil _ _ E)|reflexivity].
  - rewrite IH by (intros Q; apply H; right; exact Q). destruct (Ascii.eqb_spec x c) as [->|_]; [exfalso; apply H; left; reflexivity|]. reflexivity.
Qed.

(** ** numbers *)
Definition numeric (c : ascii) : Prop := c = "-"%char \/ In c (lit "0123456789").
Lemma uint_chars d : Forall numeric (list_ascii_of_string (NilEmpty.string_of_uint d)).
Proof. induction d; cbn; constructor; auto; right; cbn; auto 12. Qed.
Lemma uint_chars0 d : Forall numeric (lit (NilZero.string_of_uint d)).
Proof. destruct d; try apply uint_chars. cbn. constructor; [right; cbn; auto|constructor]. Qed.
Lemma int_chars0 d : Forall numeric (lit (NilZero.string_of_int d)).
Proof. destruct d; [apply uint_chars0|]. cbn. constructor; [left; reflexivity|]. apply uint_chars0. Qed.
Lemma numeric_sep c : numeric c -> ~ sep c.
Proof. unfold sep, nl. intros [-> |H] Q; [|cbn in H; decompose [or] H; subst; try tauto]; decompose [or] Q; discriminate. Qed.

Lemma to_uint_nonnil n : Nat.to_uint n <> Nil.
Proof. intros H. pose proof (Unsigned.of_to n) as Q. rewrite H in Q. cbn in Q. subst n. discriminate. Qed.
Lemma to_int_nonnil z : Z.to_int z <> Pos Nil /\ Z.to_int z <> Neg Nil.
Proof. split; intros H; pose proof (DecimalZ.of_to z) as Q; rewrite H in Q; cbn in Q; subst z; discriminate. Qed.

Lemma read_nat n : natural (show_nat n) = Some n.
Proof. unfold natural, show_nat, lit. rewrite string_of_list_ascii_of_string, NilZero.usu by apply to_uint_nonnil. cbn. rewrite Unsigned.of_to. reflexivity. Qed.
Lemma read_Z z : integer (show_Z z) = Some z.
Proof.
  unfold integer, show_Z, lit. destruct (to_int_nonnil z). rewrite string_of_list_ascii_of_string, NilZero.isi by assumption. cbn. rewrite DecimalZ.of_to. reflexivity.
Qed.
Lemma numeric_plain w : w <> [] -> Forall numeric w -> plain w.
Proof. intros H F. split; auto. intros c Hc. apply numeric_sep. rewrite Forall_forall in F. auto. Qed.
Lemma nat_plain n : plain (show_nat n).
Proof.
  apply numeric_plain; [|apply uint_chars0]. intros H. pose proof (read_nat n) as Q. rewrite H in Q. discriminate.
Qed.
Lemma Z_plain n : plain (show_Z n).
Proof.
  apply numeric_plain; [|apply int_chars0]. intros H. pose proof (read_Z n) as Q. rewrite H in Q. discriminate.
Qed.

(** ** sequences *)
Fixpoint commas (l : list text) : text :=
  match l with [] => [] | [x] => x | x :: t => x ++ lit "," ++ commas t end.

Lemma commas_snoc l x : commas (l ++ [x]) = match l with [] => x | _ => commas l ++ lit "," ++ x end.
Proof.
  induction l as [|y l IH]; auto. destruct l as [|z l]; [reflexivity|].
  change (commas ((y :: z :: l) ++ [x])) with (y ++ lit "," ++ commas ((z :: l) ++ [x])). rewrite IH.
  change (commas (y :: z :: l)) with (y ++ lit "," ++ commas (z :: l)). rewrite <- !app_assoc. reflexivity.
Qed.

Lemma w_seq_ok {A} (show : A -> text) arr off n o : off + n <= length arr ->
  w_seq show arr off n o = Ok (o ++ commas (map show (slice arr off n))).
Proof.
  intros H. unfold w_seq.
  assert (G : forall m, m <= n -> loop m (fun i o => let* x := aget arr (off + i) in Ok (if i =? 0 then o ++ show x else o ++ lit "," ++ show x)) o
     = Ok (o ++ commas (map show (slice arr off m)))); [|apply G; auto].
  induction m as [|m IH]; intros Hm; [cbn; rewrite app_nil_r; reflexivity|].
  rewrite loop_S, IH by lia. cbn [Base.bind].
  destruct (nth_error arr (off + m)) as [x|] eqn:E; [|apply nth_error_None in E; lia].
  unfold aget. rewrite E. cbn [Base.bind]. f_equal.
  rewrite (slice_S_last arr off m E), map_app. cbn [map]. rewrite commas_snoc.
  destruct (slice arr off m) as [|y l] eqn:Es.
  - assert (m = 0) by (apply (f_equal (@length A)) in Es; rewrite slice_length in Es by lia; exact Es). subst m. cbn [Nat.eqb map commas]. rewrite app_nil_r. reflexivity.
  - assert (m <> 0) by (intros ->; discriminate Es). destruct (Nat.eqb_spec m 0); [lia|]. cbn [map]. rewrite <- !app_assoc. reflexivity.
Qed.

Definition bracket (t : text) : text := lit "[" ++ t ++ lit "]".

Section W.
Variable T : Type.
Variable showd : T -> text.

(** the printed rows of a row-major matrix *)
Definition shown_rows (cent : list T) (k ncol : nat) : list (list text) := map (fun i => map showd (row cent ncol i)) (seq 0 k).

(** the arrays hold what the loops read *)
Definition complete_result (r : cresult T) : Prop :=
  cr_k r <= length (cr_counts r) /\ cr_nrow r <= length (cr_asg r) /\ cr_k r * cr_ncol r <= length (cr_centroids r).

Definition lines (r : cresult T) : list text :=
  [lit "k: " ++ show_nat (cr_k r); lit "niter: " ++ show_nat (cr_iters r); lit "nsamples: " ++ show_nat (cr_nrow r); lit "dim: " ++ show_nat (cr_ncol r);
   lit "size: " ++ bracket (commas (map show_Z (slice (cr_counts r) 0 (cr_k r))));
   lit "cluster: " ++ bracket (commas (map show_nat (slice (cr_asg r) 0 (cr_nrow r))));
   lit "centroids: " ++ bracket (commas (map (fun ws => bracket (commas ws)) (shown_rows (cr_centroids r) (cr_k r) (cr_ncol r))))].
Definition file_of (ls : list text) : text := concat (map (fun l => l ++ [nl]) ls).

Lemma w_rows_ok cent k ncol o : k * ncol <= length cent ->
  loop k (fun rw o => let o := if rw =? 0 then o ++ lit "[" else o ++ lit ",[" in
      let* o := w_seq showd cent (rw * ncol) ncol o in Ok (o ++ lit "]")) o
  = Ok (o ++ commas (map (fun ws => bracket (commas ws)) (shown_rows cent k ncol))).
Proof.
  induction k as [|k IH]; intros H; [cbn; rewrite app_nil_r; reflexivity|].
  rewrite loop_S, IH by nia. cbn [Base.bind]. cbv zeta. rewrite w_seq_ok by nia. cbn [Base.bind]. f_equal.
  unfold shown_rows. rewrite seq_S, !map_app. cbn [map]. rewrite commas_snoc, Nat.add_0_l. unfold bracket at 3 4. unfold row at 2 3.
  destruct k as [|k]; [cbn [seq map commas Nat.eqb]; rewrite app_nil_r, <- !app_assoc; reflexivity|].
  cbn [Nat.eqb]. cbn [seq map]. rewrite <- !app_assoc. reflexivity.
Qed.

Lemma write_ok r : complete_result r -> write showd r = Ok (file_of (lines r)).
Proof.
  intros (H1 & H2 & H3). unfold write. cbv zeta. rewrite w_seq_ok by lia. cbn [Base.bind]. rewrite w_seq_ok by lia. cbn [Base.bind].
  rewrite w_rows_ok by exact H3. cbn [Base.bind]. f_equal. unfold file_of, lines. cbn [map concat]. unfold bracket at 2 3 4.
  rewrite <- !app_assoc. cbn [app]. rewrite <- ?app_assoc. cbn [app lit list_ascii_of_string]. rewrite ?app_nil_r. reflexivity.
Qed.

(** too short an array is read past its end *)
Lemma loop_err_at {S} (body : nat -> S -> res S) (Q : nat -> S -> Prop) m n s e : m < n -> Q 0 s ->
  (forall i s, i < m -> Q i s -> exists s', body i s = Ok s' /\ Q (1 + i) s') -> (forall s, Q m s -> body m s = Err e) -> loop n body s = Err e.
Proof.
  intros Hm H0 Hs He. assert (G : forall j, j <= m -> exists s', loop j body s = Ok s' /\ Q j s').
  { induction j as [|j IH]; intros Hj; [exists s; split; auto|]. destruct IH as (s' & E & Hq); [lia|]. rewrite loop_S, E. cbn [Base.bind]. apply Hs; auto; lia. }
  destruct (G m) as (s' & E & Hq); auto.
  assert (G' : forall j, loop (1 + m + j) body s = Err e).
  { induction j as [|j IH]; [rewrite Nat.add_0_r; change (1 + m) with (Datatypes.S m); rewrite loop_S, E; cbn [Base.bind]; apply He, Hq|].
    replace (1 + m + Datatypes.S j) with (Datatypes.S (1 + m + j)) by lia. rewrite loop_S, IH. reflexivity. }
  replace n with (1 + m + (n - 1 - m)) by lia. apply G'.
Qed.
Lemma w_seq_err {A} (show : A -> text) arr n o : length arr < n -> w_seq show arr 0 n o = Err UB.
Proof.
  intros H. unfold w_seq. apply (@loop_err_at _ _ (fun _ _ => True) (length arr)); auto.
  - intros i s Hi _. cbn [Nat.add]. destruct (nth_error arr i) eqn:E; [|apply nth_error_None in E; lia]. unfold aget. rewrite E. cbn [Base.bind]. eauto.
  - intros s _. cbn [Nat.add]. rewrite aget_err by lia. reflexivity.
Qed.
Lemma write_short_sizes r : length (cr_counts r) < cr_k r -> write showd r = Err UB.
Proof. intros H. unfold write. cbv zeta. rewrite w_seq_err by exact H. reflexivity. Qed.

(** ** reading back *)
Lemma split_lines ls : Forall (fun l => ~ In nl l) ls -> split nl (file_of ls) = ls ++ [[]].
Proof.
  induction 1 as [|l ls H F IH]; [reflexivity|]. unfold file_of in *. cbn [map concat]. rewrite <- app_assoc. cbn [app]. rewrite split_app by exact H. rewrite IH. reflexivity.
Qed.

Lemma commas_in c l : In c (commas l) -> c = ","%char \/ exists w, In w l /\ In c w.
Proof.
  induction l as [|x l IH]; [intros []|]. destruct l as [|y l].
  - intros H. right. exists x. split; [left; reflexivity|exact H].
  - change (commas (x :: y :: l)) with (x ++ lit "," ++ commas (y :: l)). rewrite !in_app_iff. intros [H|[H|H]].
    + right. exists x. split; [left; reflexivity|exact H].
    + left. destruct H as [H|[]]; auto.
    + destruct (IH H) as [Q|(w & Hw & Hc)]; auto. right. exists w. split; [right; exact Hw|exact Hc].
Qed.

Lemma split_commas l : l <> [] -> Forall (fun w => ~ In ","%char w) l -> split "," (commas l) = l.
Proof.
  induction l as [|x l IH]; intros H F; [congruence|]. inversion F as [|? ? Fx Fl]; subst. destruct l as [|y l]; [apply split_none, Fx|].
  change (commas (x :: y :: l)) with (x ++ ","%char :: commas (y :: l)). rewrite split_app by exact Fx. rewrite IH by (auto; discriminate). reflexivity.
Qed.
Lemma all_some_map {A B} (f : A -> text) (g : text -> option B) (h : A -> B) l : (forall a, In a l -> g (f a) = Some (h a)) ->
  all_some (map g (map f l)) = Some (map h l).
Proof. induction l as [|a l IH]; intros H; cbn; auto. rewrite H by (left; reflexivity). rewrite IH by (intros b Hb; apply H; right; exact Hb). reflexivity. Qed.

Lemma items_ok {A B} (f : A -> text) (g : text -> option B) (h : A -> B) l :
  (forall a, In a l -> plain (f a)) -> (forall a, In a l -> g (f a) = Some (h a)) -> items g (commas (map f l)) = Some (map h l).
Proof.
  intros Hp Hg. destruct l as [|a l]; [reflexivity|]. unfold items.
  assert (E : commas (map f (a :: l)) <> []).
  { destruct (Hp a (or_introl eq_refl)) as (Q & _). cbn [map]. destruct (map f l) as [|y t]; [exact Q|].
    change (commas (f a :: y :: t)) with (f a ++ lit "," ++ commas (y :: t)). destruct (f a); [congruence|discriminate]. }
  destruct (commas (map f (a :: l))) as [|x t] eqn:Ex; [congruence|]. rewrite <- Ex.
  rewrite split_commas; [apply all_some_map, Hg|discriminate|].
  apply Forall_forall. intros w Hw Hc. apply in_map_iff in Hw as (b & <- & Hb). destruct (Hp b Hb) as (_ & Q). apply (Q _ Hc). left. reflexivity.
Qed.

Lemma plain_commas c l : sep c -> c <> ","%char -> Forall plain l -> ~ In c (commas l).
Proof.
  intros S Hc F H. destruct (commas_in _ _ H) as [Q|(w & Hw & Hin)]; [contradiction|].
  rewrite Forall_forall in F. destruct (F w Hw) as (_ & P). exact (P c Hin S).
Qed.

Lemma bracketed_ok {B} (f : text -> option B) t : ~ In "]"%char t -> bracketed f (bracket t) = f t.
Proof. intros H. unfold bracketed, bracket. cbn [lit list_ascii_of_string app]. rewrite Ascii.eqb_refl. rewrite split_app by exact H. reflexivity. Qed.

(** "[" "[..]" "," "[..]" "]" *)
Lemma rows_ok ws : Forall (Forall plain) ws -> forall first,
  rows (split "]" ((if first : bool then [] else match ws with [] => [] | _ => lit "," end) ++ commas (map (fun w => bracket (commas w)) ws) ++ lit "]")) first = Some ws.
Proof.
  induction 1 as [|w ws Fw Fs IH]; intros first.
  - destruct first; reflexivity.
  - assert (N : ~ In "]"%char (commas w)) by (apply plain_commas; [right; right; left; reflexivity|discriminate|exact Fw]).
    assert (It : items word (commas w) = Some w).
    { pose proof (@items_ok text text (fun x => x) word (fun x => x) w) as Q. rewrite !map_id in Q. apply Q; [|reflexivity]. intros a Ha. rewrite Forall_forall in Fw. auto. }
    assert (E : (if first : bool then [] else lit ",") ++ commas (map (fun w => bracket (commas w)) (w :: ws)) ++ lit "]"
       = ((if first then lit "[" else lit ",[") ++ commas w) ++ "]"%char :: (match ws with [] => [] | _ => lit "," end) ++ commas (map (fun w => bracket (commas w)) ws) ++ lit "]").
    { cbn [map]. destruct ws as [|w' ws].
      - destruct first; cbn [map commas app]; unfold bracket; rewrite <- ?app_assoc; reflexivity.
      - change (commas (bracket (commas w) :: map (fun w => bracket (commas w)) (w' :: ws))) with (bracket (commas w) ++ lit "," ++ commas (map (fun w => bracket (commas w)) (w' :: ws))).
        unfold bracket at 1. destruct first; rewrite <- ?app_assoc; cbn [app lit list_ascii_of_string]; rewrite <- ?app_assoc; reflexivity. }
    replace (if first : bool then [] else match w :: ws with [] => [] | _ => lit "," end) with (if first : bool then [] else lit ",") by (destruct first; reflexivity).
    rewrite E, split_app by (intros Q; apply in_app_or in Q as [Q|Q]; [destruct first; cbn in Q; intuition discriminate|exact (N Q)]).
    specialize (IH false). cbn [rows].
    destruct (split "]" (match ws with [] => [] | _ => lit "," end ++ commas (map (fun w => bracket (commas w)) ws) ++ lit "]")) as [|p ps] eqn:Es; [exfalso; exact (split_nonnil _ _ Es)|].
    assert (A : after (if first then ["["%char] else [","%char; "["%char]) ((if first then lit "[" else lit ",[") ++ commas w) = Some (commas w)) by (destruct first; apply after_app).
    rewrite A, It, IH. destruct first; cbn [app lit list_ascii_of_string]; destruct p; destruct ps as [|[|? ?] [|? ?]]; reflexivity.
Qed.

Lemma matrix_ok ws : Forall (Forall plain) ws -> matrix (bracket (commas (map (fun w => bracket (commas w)) ws))) = Some ws.
Proof. intros F. unfold matrix, bracket at 1. cbn [lit list_ascii_of_string app]. rewrite Ascii.eqb_refl. exact (rows_ok F true). Qed.

Hypothesis Hd : forall x, plain (showd x).

Lemma shown_plain cent k ncol : Forall (Forall plain) (shown_rows cent k ncol).
Proof. apply Forall_forall. intros l H. apply in_map_iff in H as (i & <- & _). apply Forall_forall. intros w Hw. apply in_map_iff in Hw as (x & <- & _). apply Hd. Qed.

Lemma notin_bracket c t : c <> "["%char -> c <> "]"%char -> ~ In c t -> ~ In c (bracket t).
Proof. intros A B C H. unfold bracket in H. rewrite !in_app_iff in H. cbn in H. decompose [or] H; congruence. Qed.

Lemma no_nl_word w : plain w -> ~ In nl w.
Proof. intros (_ & P) H. apply (P _ H). right; right; right. reflexivity. Qed.
Lemma no_nl_commas l : Forall (fun w => ~ In nl w) l -> ~ In nl (commas l).
Proof. intros F H. destruct (commas_in _ _ H) as [Q|(w & Hw & Hc)]; [discriminate|]. rewrite Forall_forall in F. exact (F w Hw Hc). Qed.

Lemma no_nl_app s w : forallb (fun c => negb (Ascii.eqb c nl)) (lit s) = true -> ~ In nl w -> ~ In nl (lit s ++ w).
Proof.
  intros A B H. rewrite in_app_iff in H. destruct H as [H|H]; auto. rewrite forallb_forall in A. specialize (A _ H). rewrite Ascii.eqb_refl in A. discriminate.
Qed.

Lemma lines_nl r : Forall (fun l => ~ In nl l) (lines r).
Proof.
  unfold lines. repeat apply Forall_cons; try apply Forall_nil; apply no_nl_app; try reflexivity; try (apply no_nl_word, nat_plain);
    (apply notin_bracket; [discriminate|discriminate|]); apply no_nl_commas; apply Forall_forall; intros w Hw; apply in_map_iff in Hw as (x & <- & Hx).
  - apply no_nl_word, Z_plain.
  - apply no_nl_word, nat_plain.
  - apply notin_bracket; [discriminate|discriminate|]. apply no_nl_commas. apply Forall_forall. intros w Hw. pose proof (shown_plain (cr_centroids r) (cr_k r) (cr_ncol r)) as F.
    rewrite Forall_forall in F. specialize (F _ Hx). rewrite Forall_forall in F. apply no_nl_word, F, Hw.
Qed.

Definition contents (r : cresult T) : file :=
  mkFile (cr_k r) (cr_iters r) (cr_nrow r) (cr_ncol r) (firstn (cr_k r) (cr_counts r)) (firstn (cr_nrow r) (cr_asg r))
    (shown_rows (cr_centroids r) (cr_k r) (cr_ncol r)).

Lemma field_ok {B} key (f : text -> option B) t : field key f (list_ascii_of_string key ++ [":"%char; " "%char] ++ t) = f t.
Proof. unfold field. rewrite app_assoc, after_app. reflexivity. Qed.

Lemma read_back r : read_result (file_of (lines r)) = Some (contents r).
Proof.
  unfold read_result. change (ascii_of_nat 10) with nl. rewrite split_lines by apply lines_nl. unfold lines. cbn [app].
  change (lit "k: " ++ show_nat (cr_k r)) with (list_ascii_of_string "k" ++ [":"%char; " "%char] ++ show_nat (cr_k r)).
  change (lit "niter: " ++ show_nat (cr_iters r)) with (list_ascii_of_string "niter" ++ [":"%char; " "%char] ++ show_nat (cr_iters r)).
  change (lit "nsamples: " ++ show_nat (cr_nrow r)) with (list_ascii_of_string "nsamples" ++ [":"%char; " "%char] ++ show_nat (cr_nrow r)).
  change (lit "dim: " ++ show_nat (cr_ncol r)) with (list_ascii_of_string "dim" ++ [":"%char; " "%char] ++ show_nat (cr_ncol r)).
  change (lit "size: " ++ ?t) with (list_ascii_of_string "size" ++ [":"%char; " "%char] ++ t).
  change (lit "cluster: " ++ ?t) with (list_ascii_of_string "cluster" ++ [":"%char; " "%char] ++ t).
  change (lit "centroids: " ++ ?t) with (list_ascii_of_string "centroids" ++ [":"%char; " "%char] ++ t).
  rewrite !field_ok, !read_nat.
  assert (N : forall A (f : A -> text) l, (forall a, plain (f a)) -> ~ In "]"%char (commas (map f l))).
  { intros A f l H. apply plain_commas; [right; right; left; reflexivity|discriminate|]. apply Forall_forall. intros w Hw. apply in_map_iff in Hw as (x & <- & _). apply H. }
  rewrite !bracketed_ok by (apply N; intros a; apply Z_plain || apply nat_plain).
  rewrite (@items_ok Z Z show_Z integer (fun z => z)) by (intros; apply Z_plain || apply read_Z).
  rewrite (@items_ok nat nat show_nat natural (fun z => z)) by (intros; apply nat_plain || apply read_nat).
  rewrite matrix_ok by apply shown_plain. rewrite !map_id. reflexivity.
Qed.

(** ** a truncated file *)
Lemma nl_count ls : Forall (fun l => ~ In nl l) ls -> length (split nl (file_of ls)) = 1 + length ls.
Proof. intros F. rewrite split_lines by exact F. rewrite app_length. cbn. lia. Qed.
Lemma split_length_app c a b : length (split c (a ++ b)) = length (split c a) + length (split c b) - 1.
Proof.
  induction a as [|x a IH]; [cbn; lia|]. cbn [app split].
  destruct (split c (a ++ b)) as [|p ps] eqn:E; [exfalso; exact (split_nonnil _ _ E)|]. destruct (split c a) as [|q qs] eqn:E'; [exfalso; exact (split_nonnil _ _ E')|].
  destruct (split c b) as [|w ws] eqn:E''; [exfalso; exact (split_nonnil _ _ E'')|].
  destruct (Ascii.eqb x c); cbn [length] in *; lia.
Qed.
End W.
