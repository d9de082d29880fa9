(** C116, C117: the result file. *)
From Coq Require Import String Ascii List Lia Floats.SpecFloat.
From Verif Require Import Base Num Spec DistModel ContainersModel ClustersModel ClustersView PartitionModel ParModel KmeansModel KmeansProofs RunProofs PropertiesKmeans WriteModel SpecYaml WriteProofs.
From Verif Require Import HclustModel HclustVerify ExamplesHclust.
Set Implicit Arguments.
Local Open Scope list_scope.

(** what the arrays of a result hold *)
Definition shaped_result {T} (r : cresult T) : Prop :=
  length (cr_counts r) = cr_k r /\ length (cr_asg r) = cr_nrow r /\ length (cr_centroids r) = cr_k r * cr_ncol r.

(** C116: the file of a result reads back as its sizes, its assignment and its
    printed centroids, for every printing of numbers that uses none of the
    characters of the syntax *)
Theorem C116_file_partial : forall T (showd : T -> text) (r : cresult T),
  (forall x, plain (showd x)) -> shaped_result r ->
  exists t, write showd r = Ok t /\
    read_result t = Some (mkFile (cr_k r) (cr_iters r) (cr_nrow r) (cr_ncol r) (cr_counts r) (cr_asg r)
      (map (fun i => map showd (row (cr_centroids r) (cr_ncol r) i)) (seq 0 (cr_k r)))).
Proof.
  intros T showd r Hd (H1 & H2 & H3). exists (file_of (lines showd r)). split; [apply write_ok; unfold complete_result; lia|].
  rewrite (@read_back _ showd Hd r). unfold contents. rewrite <- H1 at 2. rewrite <- H2 at 2. rewrite !firstn_all. reflexivity.
Qed.

(** so two results with the same file agree on everything but the digits the
    printing drops *)
Theorem C116_same_file : forall T (showd : T -> text) (r r' : cresult T) t,
  (forall x, plain (showd x)) -> shaped_result r -> shaped_result r' -> write showd r = Ok t -> write showd r' = Ok t ->
  cr_k r = cr_k r' /\ cr_iters r = cr_iters r' /\ cr_nrow r = cr_nrow r' /\ cr_ncol r = cr_ncol r' /\
  cr_counts r = cr_counts r' /\ cr_asg r = cr_asg r' /\
  ((forall x y, showd x = showd y -> x = y) -> cr_centroids r = cr_centroids r').
Proof.
  intros T showd r r' t Hd S S' E E'. destruct (@C116_file_partial T showd r Hd S) as (u & Eu & R). destruct (@C116_file_partial T showd r' Hd S') as (u' & Eu' & R').
  assert (Q := eq_trans (eq_sym E) Eu). injection Q as <-. assert (Q' := eq_trans (eq_sym E') Eu'). injection Q' as <-.
  assert (Q := eq_trans (eq_sym R) R'). injection Q as Q1 Q2 Q3 Q4 Q5 Q6 Q7. repeat (split; [assumption|]).
  intros Inj. destruct S as (_ & _ & L), S' as (_ & _ & L'). rewrite <- Q1, <- Q4 in L', Q7.
  assert (Rw : forall i, i < cr_k r -> row (cr_centroids r) (cr_ncol r) i = row (cr_centroids r') (cr_ncol r) i).
  { intros i Hi. assert (N : nth_error (map (fun i => map showd (row (cr_centroids r) (cr_ncol r) i)) (seq 0 (cr_k r))) i = nth_error (map (fun i => map showd (row (cr_centroids r') (cr_ncol r) i)) (seq 0 (cr_k r))) i) by (rewrite Q7; reflexivity).
    rewrite !nth_error_map, nth_error_seq in N. destruct (Nat.ltb_spec i (cr_k r)); [|lia]. cbn [option_map Nat.add] in N. injection N as N.
    revert N. generalize (row (cr_centroids r) (cr_ncol r) i) (row (cr_centroids r') (cr_ncol r) i). induction l as [|x l IH]; intros [|y l'] N; try discriminate; auto.
    cbn in N. injection N as Nx Nl. f_equal; [apply Inj, Nx|apply IH, Nl]. }
  apply Base.nth_error_ext. intros p. destruct (Nat.ltb_spec p (cr_k r * cr_ncol r)) as [Hp|Hp].
  - assert (cr_ncol r <> 0) by (intros Z0; rewrite Z0 in Hp; lia).
    pose proof (Nat.div_mod p (cr_ncol r) H) as D. pose proof (Nat.mod_upper_bound p (cr_ncol r) H) as M.
    assert (Hi : p / cr_ncol r < cr_k r) by (apply Nat.div_lt_upper_bound; lia).
    specialize (Rw _ Hi). assert (N : nth_error (row (cr_centroids r) (cr_ncol r) (p / cr_ncol r)) (p mod cr_ncol r) = nth_error (row (cr_centroids r') (cr_ncol r) (p / cr_ncol r)) (p mod cr_ncol r)) by (rewrite Rw; reflexivity).
    unfold row in N. rewrite !nth_error_slice in N. destruct (Nat.ltb_spec (p mod cr_ncol r) (cr_ncol r)); [|lia].
    replace (p / cr_ncol r * cr_ncol r + p mod cr_ncol r) with p in N by lia. exact N.
  - rewrite !(proj2 (nth_error_None _ _)) by lia. reflexivity.
Qed.

(** a result whose size array is shorter than its number of clusters is read past its end *)
Theorem C116_short_sizes : forall T (showd : T -> text) (r : cresult T), length (cr_counts r) < cr_k r -> write showd r = Err UB.
Proof. intros T showd r H. apply write_short_sizes, H. Qed.

(* ------------------------------------------------------------------ *)
(** * the results of k-means *)
Theorem C116_kmeans : forall N (g : kcfg N) centers it data dr scheds rr inv (showd : car N -> text),
  valid_input g data -> fair g data scheds -> run g centers it data dr scheds = Ok rr -> 1 <= g_max_iters g -> (forall x, plain (showd x)) ->
  exists t f, write showd (as_result inv (rr_out rr)) = Ok t /\ read_result t = Some f /\
    f_k f = g_k g /\ f_nsamples f = g_nrow g /\ f_dim f = g_ncol g /\ f_niter f = ct_iters (rr_out rr) /\
    map Some (f_cluster f) = ct_asg (rr_out rr) /\ f_size f = ct_counts (rr_out rr) /\
    f_centroids f = map (fun i => map showd (row (ct_centroids (rr_out rr)) (g_ncol g) i)) (seq 0 (g_k g)).
Proof.
  intros N g centers it data dr scheds rr inv showd V F H Hm Hd.
  destruct (@C14_no_invalid_id N g centers it data dr scheds rr V F H) as (_ & G). destruct (G Hm) as (La & Fa).
  destruct (@C15_returned_sizes N g centers it data dr scheds rr V F H Hm) as (Lc & _).
  destruct (@run_inv _ _ _ _ _ _ _ _ V F H) as (ws & _ & _ & _ & St & _ & Hout & _). cbv zeta in Hout.
  assert (Hk : ct_k (rr_out rr) = g_k g) by (rewrite Hout; reflexivity).
  assert (Hr : ct_nrow (rr_out rr) = g_nrow g) by (rewrite Hout; reflexivity).
  assert (Hc : ct_ncol (rr_out rr) = g_ncol g) by (rewrite Hout; reflexivity).
  assert (Lm : length (ct_centroids (rr_out rr)) = g_k g * g_ncol g).
  { rewrite Hout. cbn [ct_centroids]. assert (I : In (last (rr_trace rr) (rr_init rr)) (rr_init rr :: rr_trace rr)).
    { clear. generalize (rr_init rr) as d. generalize (rr_trace rr) as l. induction l as [|x [|y l] IH]; intros d; [left; reflexivity|right; left; reflexivity|]. change (last (x :: y :: l) d) with (last (y :: l) d). destruct (IH d) as [Q|Q]; [left; exact Q|right; right; exact Q]. }
    specialize (St _ I). destruct St as ((K1 & K2 & W1 & W2 & W3) & _). rewrite K1, K2 in *. lia. }
  destruct (@C116_file_partial (car N) showd (as_result inv (rr_out rr)) Hd) as (t & E & R).
  { unfold shaped_result, as_result. cbn [cr_counts cr_k cr_asg cr_nrow cr_centroids cr_ncol]. rewrite map_length, Hk, Hr, Hc. auto. }
  exists t, (mkFile (g_k g) (ct_iters (rr_out rr)) (g_nrow g) (g_ncol g) (ct_counts (rr_out rr)) (map (fun a => match a with Some c => c | None => inv end) (ct_asg (rr_out rr)))
     (map (fun i => map showd (row (ct_centroids (rr_out rr)) (g_ncol g) i)) (seq 0 (g_k g)))).
  split; [exact E|]. split; [rewrite R; unfold as_result; cbn [cr_k cr_iters cr_nrow cr_ncol cr_counts cr_asg cr_centroids]; rewrite Hk, Hr, Hc; reflexivity|].
  cbn [f_k f_nsamples f_dim f_niter f_cluster f_size f_centroids]. repeat (split; [try reflexivity|]); try reflexivity.
  clear - Fa. revert Fa. generalize (ct_asg (rr_out rr)). induction l as [|a l IH]; intros F; [reflexivity|]. inversion F as [|? ? (c & -> & _) Fl]; subst. cbn. f_equal. apply IH, Fl.
Qed.

(* ------------------------------------------------------------------ *)
(** * C117: a truncated file *)
Lemma split_in c l : In c l -> 2 <= length (split c l).
Proof.
  intros H. apply in_split in H as (a & b & ->). rewrite split_length_app. cbn [split]. destruct (split c b) as [|p ps] eqn:E; [exfalso; exact (split_nonnil _ _ E)|].
  rewrite Ascii.eqb_refl. destruct (split c a) eqn:E'; [exfalso; exact (split_nonnil _ _ E')|]. cbn [length]. lia.
Qed.

(** what a crash while writing leaves behind, a proper prefix of the file, is not
    a result file: reading it fails *)
Theorem C117_truncated : forall T (showd : T -> text) (r : cresult T) t p u,
  (forall x, plain (showd x)) -> write showd r = Ok t -> shaped_result r -> t = p ++ u -> u <> [] -> read_result p = None.
Proof.
  intros T showd r t p u Hd E (H1 & H2 & H3) Ep Hu. rewrite write_ok in E by (unfold complete_result; lia). injection E as <-.
  pose proof (nl_count (@lines_nl T showd Hd r)) as L. rewrite Ep, split_length_app in L. cbn [lines length] in L.
  assert (Hn : In nl u).
  { destruct (exists_last Hu) as (u' & c & ->). rewrite app_assoc in Ep. unfold file_of, lines in Ep. cbn [map concat] in Ep. rewrite !app_assoc, app_nil_r in Ep.
    apply app_inj_tail in Ep as (_ & <-). apply in_or_app. right. left. reflexivity. }
  apply split_in in Hn. unfold read_result. change (ascii_of_nat 10) with nl.
  assert (Lp : length (split nl p) <= 7) by lia. clear - Lp.
  destruct (split nl p) as [|a1 [|a2 [|a3 [|a4 [|a5 [|a6 [|a7 [|a8 l]]]]]]]]; try reflexivity. cbn [length] in Lp. lia.
Qed.

(* ------------------------------------------------------------------ *)
(** * C116: what is false *)

Lemma pigeonhole {A B} (deq : forall x y : B, {x = y} + {x <> y}) (f : A -> B) : forall l c,
  NoDup l -> (forall a, In a l -> In (f a) c) -> length c < length l -> exists a b, In a l /\ In b l /\ a <> b /\ f a = f b.
Proof.
  induction l as [|a l IH]; intros c N Hin Hl; [cbn in Hl; lia|]. inversion N as [|? ? Na Nl]; subst.
  destruct (in_dec deq (f a) (map f l)) as [H|H].
  - apply in_map_iff in H as (b & Eb & Hb). exists a, b. split; [left; reflexivity|]. split; [right; exact Hb|]. split; [intros ->; exact (Na Hb)|auto].
  - destruct (IH (remove deq (f a) c)) as (x & y & Hx & Hy & Q & Q'); auto.
    + intros b Hb. apply in_in_remove; [intros Eb; apply H; rewrite <- Eb; apply in_map, Hb|apply Hin; right; exact Hb].
    + pose proof (remove_length_lt deq c (f a) (Hin a (or_introl eq_refl))). cbn in Hl. lia.
    + exists x, y. repeat (split; [try (right; assumption); assumption|]). assumption.
Qed.

(** the words of at most [n] characters over an alphabet *)
Fixpoint words (al : list ascii) (n : nat) : list text :=
  match n with 0 => [[]] | S n => [] :: flat_map (fun w => map (fun c => c :: w) al) (words al n) end.
Lemma words_in al : forall n w, length w <= n -> (forall c, In c w -> In c al) -> In w (words al n).
Proof.
  induction n as [|n IH]; intros [|c w] L H; cbn [words]; [left; reflexivity|cbn in L; lia|left; reflexivity|right].
  apply in_flat_map. exists w. split; [apply IH; [cbn in L; lia|intros d Hd; apply H; right; exact Hd]|]. apply (in_map (fun c => c :: w)), H. left. reflexivity.
Qed.
Fixpoint zwords (a : Z) (n : nat) : Z := match n with 0 => 1%Z | S n => (1 + a * zwords a n)%Z end.
Lemma words_length al n : Z.of_nat (length (words al n)) = zwords (Z.of_nat (length al)) n.
Proof.
  induction n as [|n IH]; [reflexivity|]. cbn [words zwords length]. rewrite <- IH.
  assert (G : forall l : list text, length (flat_map (fun w => map (fun c => c :: w) al) l) = length al * length l).
  { induction l as [|x l Hl]; [cbn; lia|]. cbn [flat_map length]. rewrite app_length, map_length, Hl. lia. }
  rewrite G. lia.
Qed.

Lemma digits_bounds m : (2 ^ (Zpos (digits2_pos m) - 1) <= Zpos m < 2 ^ Zpos (digits2_pos m))%Z.
Proof.
  assert (P : forall p, (2 ^ Zpos (Pos.succ p) = 2 * 2 ^ Zpos p)%Z) by (intros p; rewrite Pos2Z.inj_succ, Z.pow_succ_r by lia; reflexivity).
  assert (Q : forall p, (Zpos (Pos.succ p) - 1 = Z.succ (Zpos p - 1))%Z) by (intros p; lia).
  induction m as [m IH|m IH|]; cbn [digits2_pos]; [| |cbn; lia].
  - rewrite P, Q, Z.pow_succ_r by lia. lia.
  - rewrite P, Q, Z.pow_succ_r by lia. lia.
Qed.
Lemma digits_53 m : (2 ^ 52 <= Zpos m < 2 ^ 53)%Z -> Zpos (digits2_pos m) = 53%Z.
Proof.
  intros (A & B). pose proof (digits_bounds m) as (C & D).
  assert (Zpos (digits2_pos m) - 1 < 53)%Z by (apply (Z.pow_lt_mono_r_iff 2); lia).
  assert (52 < Zpos (digits2_pos m))%Z by (apply (Z.pow_lt_mono_r_iff 2); lia). lia.
Qed.

(** a printing of at most 13 characters, as the default one of streams (six
    significant digits), cannot tell all doubles apart *)
Theorem C116_digits_refuted : forall showd : F64 -> text,
  (forall s m e, length (showd (S754_finite s m e)) <= 13 /\ forall c, In c (showd (S754_finite s m e)) -> In c (lit "0123456789+-.e")) ->
  exists x y : F64, valid_binary 53 1024 x = true /\ valid_binary 53 1024 y = true /\ x <> y /\ showd x = showd y /\
    forall t, write showd (mkCR 1 1 1 1 [0] [1%Z] [x]) = Ok t -> write showd (mkCR 1 1 1 1 [0] [1%Z] [y]) = Ok t.
Proof.
  intros showd Hs. set (dbl := fun i : nat => S754_finite false (Z.to_pos (2 ^ 52 + Z.of_nat i)) 0).
  assert (D : forall i j, dbl i = dbl j -> i = j).
  { assert (G : forall b i j, (0 < b)%Z -> S754_finite false (Z.to_pos (b + Z.of_nat i)) 0 = S754_finite false (Z.to_pos (b + Z.of_nat j)) 0 -> i = j).
    { clear. intros b i j Hb Q. injection Q as Q. apply Z2Pos.inj in Q; lia. }
    intros i j. apply G. reflexivity. }
  assert (E : exists M, Z.of_nat M = (2 ^ 52)%Z) by (exists (Z.to_nat (2 ^ 52)); apply Z2Nat.id; lia). destruct E as (M & HM).
  destruct (@pigeonhole nat text (list_eq_dec ascii_dec) (fun i => showd (dbl i)) (seq 0 M) (words (lit "0123456789+-.e") 13)) as (i & j & Hi & Hj & Hne & He).
  - apply seq_NoDup.
  - intros i _. destruct (Hs false (Z.to_pos (2 ^ 52 + Z.of_nat i)) 0%Z) as (A & B). apply words_in; assumption.
  - rewrite seq_length. apply Nat2Z.inj_lt. rewrite words_length, HM. reflexivity.
  - apply in_seq in Hi, Hj. exists (dbl i), (dbl j).
    assert (V : forall i, i < M -> valid_binary 53 1024 (dbl i) = true).
    { intros n Hn. unfold dbl. cbn [valid_binary]. unfold bounded, canonical_mantissa.
      rewrite digits_53 by (rewrite Z2Pos.id by lia; lia). reflexivity. }
    split; [apply V; lia|]. split; [apply V; lia|]. split.
    { intros Q. exact (Hne (D _ _ Q)). }
    split; [exact He|]. intros t. unfold write. cbv zeta. cbn [cr_k cr_counts cr_asg cr_centroids cr_ncol cr_nrow cr_iters].
    cbn [loop for_ w_seq aget nth_error Base.bind Nat.eqb Nat.add Nat.mul]. unfold w_seq. cbn [loop for_ aget nth_error Base.bind Nat.eqb Nat.add Nat.mul].
    unfold loop. cbn [for_ aget nth_error Base.bind Nat.eqb Nat.add Nat.mul]. rewrite He. auto.
Qed.

(** a hierarchical run of the BIND build returns three clusters, two of them
    without rows: its size array has one entry, and writing reads past its end *)
Theorem C116_hierarchical_refuted : forall showd : F64 -> text,
  h_valid (hc 4 2 2 20) d4s FORGY None dr01 /\ h_fair (hc 4 2 2 20) d4s (hsch 4) /\
  exists s r, h_run (hc 4 2 2 20) true None FORGY d4s dr01 (hsch 4) 10 = Ok s /\
    h_result (hc 4 2 2 20) (fun l => l) s = Ok r /\ cr_k r = 3 /\ cr_counts r = [4%Z] /\ write showd r = Err UB.
Proof.
  intros showd. destruct C72_refuted as (V & F & _). split; [exact V|]. split; [exact F|]. clear V F.
  assert (H : okmap (fun r : cresult F64 => (cr_k r, cr_counts r))
     (let* s := h_run (hc 4 2 2 20) true None FORGY d4s dr01 (hsch 4) 10 in h_result (hc 4 2 2 20) (fun l => l) s) = Some (3, [4%Z])) by (vm_compute; reflexivity).
  apply okmap_ex in H as (r & E & H). injection H as H1 H2. apply bind_ok in E as (s & Es & Er). exists s, r.
  split; [exact Es|]. split; [exact Er|]. split; [exact H1|]. split; [exact H2|]. apply C116_short_sizes. rewrite H1, H2. cbn. lia.
Qed.

(** C116, C117 are met by a small result *)
Theorem C116_premises_met : let showd := fun n : nat => show_nat n in
  let r := mkCR 3 2 4 2 [0; 1; 0] [2; 1]%Z [10; 20; 30; 40] in
  (forall x, plain (showd x)) /\ shaped_result r /\
  okmap string_of_list_ascii (write showd r) = Some
"k: 2
niter: 4
nsamples: 3
dim: 2
size: [2,1]
cluster: [0,1,0]
centroids: [[10,20],[30,40]]
"%string.
Proof. cbv zeta. split; [apply nat_plain|]. split; [unfold shaped_result; cbn; auto|]. vm_compute. reflexivity. Qed.
