(** C49: the matrix inverse; C50: spherical projection; C71: scaling. *)
From Coq Require Import Reals Lra.
From Verif Require Import Base Num Spec MatrixModel PropertiesMatrix PropertiesArgmax ProcRows.
Set Implicit Arguments.
Unset Strict Implicit.

(* ------------------------------------------------------------------ *)
(** * Specification: minors and the determinant (Laplace expansion) *)

(** index [i] of a list from which position [p] was removed *)
Definition skip (p i : nat) : nat := if i <? p then i else S i.
Definition minor {A} (M : nat -> nat -> A) (p q : nat) : nat -> nat -> A :=
  fun i j => M (skip p i) (skip q j).
Fixpoint det (n : nat) (M : nat -> nat -> R) : R :=
  match n with
  | 0 => 0%R
  | 1 => M 0 0
  | S k => rsum (map (fun c => ((-1) ^ c * M 0%nat c * det k (minor M 0 c))%R) (seq 0 n))
  end.
(** the matrix stored row-major in [l] with row stride [st] *)
Definition ent (l : list R) (st : nat) : nat -> nat -> R := fun i j => nth (i * st + j) l 0%R.
Definition delta (i j : nat) : R := if i =? j then 1%R else 0%R.
(** [B] is a two-sided inverse of [A] (both n x n, stored row-major) *)
Definition is_inverse (n : nat) (A B : list R) : Prop :=
  forall i j, i < n -> j < n ->
    rsum (map (fun c => (ent A n i c * ent B n c j)%R) (seq 0 n)) = delta i j /\
    rsum (map (fun c => (ent B n i c * ent A n c j)%R) (seq 0 n)) = delta i j.
Definition invertible (n : nat) (A : list R) : Prop :=
  exists B, length B = n * n /\ is_inverse n A B.
Definition diagonal (n : nat) (A : list R) : Prop :=
  forall i j, i < n -> j < n -> i <> j -> ent A n i j = 0%R.

(* ------------------------------------------------------------------ *)
Lemma rsum_ext (l : list nat) f g : (forall c, In c l -> f c = g c) -> rsum (map f l) = rsum (map g l).
Proof. intros H. f_equal. apply map_ext_in. exact H. Qed.

Lemma det_ext : forall n M M', (forall i j, i < n -> j < n -> M i j = M' i j) -> det n M = det n M'.
Proof.
  induction n as [|n IH]; intros M M' H; [reflexivity|].
  destruct n as [|n]; [apply H; lia|].
  change (rsum (map (fun c => ((-1) ^ c * M 0%nat c * det (S n) (minor M 0 c))%R) (seq 0 (S (S n)))) =
          rsum (map (fun c => ((-1) ^ c * M' 0%nat c * det (S n) (minor M' 0 c))%R) (seq 0 (S (S n))))).
  apply rsum_ext. intros c Hc. apply in_seq in Hc. rewrite (H 0 c) by lia.
  rewrite (IH (minor M 0 c) (minor M' 0 c)); [reflexivity|].
  intros i j Hi Hj. unfold minor. apply H; unfold skip.
  - destruct (Nat.ltb_spec i 0); lia.
  - destruct (Nat.ltb_spec j c); lia.
Qed.

Lemma det_SS n M : det (S (S n)) M =
  rsum (map (fun c => ((-1) ^ c * M 0%nat c * det (S n) (minor M 0 c))%R) (seq 0 (S (S n)))).
Proof. reflexivity. Qed.

(* ------------------------------------------------------------------ *)
(** * What the code computes *)
Section C.
Variable N : Num.
Notation T := (car N).
Notation z := (nzero N).

Lemma cofactor_ok (A temp : list T) p q n st :
  2 <= n -> n <= st -> p < n -> q < n -> length A = st * st -> length temp = st * st ->
  exists t, get_cofactor A temp p q n st = Ok t /\ length t = st * st /\
    forall i j, i < n - 1 -> j < n - 1 -> nth (i * st + j) t z = nth (skip p i * st + skip q j) A z.
Proof.
  intros Hn Hst Hp Hq LA LT. unfold get_cofactor.
  (* how many kept indices lie below x *)
  pose (cnt := fun p x => if p <? x then x - 1 else x).
  pose (good := fun (t : list T) i j => nth (i * st + j) t z = nth (skip p i * st + skip q j) A z).
  pose (P := fun r (s : list T * nat * nat) => let '(t, i, j) := s in
    length t = st * st /\ i = cnt p r /\ j = 0 /\
    forall i' j', i' < cnt p r -> j' < n - 1 -> good t i' j').
  match goal with |- context [loop n ?b ?s] => assert (H : okp (loop n b s) (P n)) end.
  { apply loop_okp.
    - unfold P. splits; auto. intros i' j' Hi'. unfold cnt in Hi'. cbn in Hi'. lia.
    - intros r ((t0, i0), j0) Hr (L0 & Ei & Ej & G). subst j0.
      pose (Q := fun c (s : list T * nat * nat) => let '(t, i, j) := s in
        length t = st * st /\
        (if r =? p then i = cnt p r /\ j = 0
         else if cnt q c =? n - 1 then i = S (cnt p r) /\ j = 0 else i = cnt p r /\ j = cnt q c) /\
        (forall i' j', i' < cnt p r -> j' < n - 1 -> good t i' j') /\
        (r <> p -> forall j', j' < cnt q c -> good t (cnt p r) j')).
      match goal with |- okp (loop n ?b ?s) _ => assert (HQ : okp (loop n b s) (Q n)) end.
      { apply loop_okp.
        - unfold Q. splits; auto.
          + destruct (r =? p); [auto|]. assert (C0 : cnt q 0 = 0) by reflexivity. rewrite C0.
            destruct (Nat.eqb_spec 0 (n - 1)); [lia|auto].
          + intros _ j' Hj'. unfold cnt in Hj'. cbn in Hj'. lia.
        - intros c ((t, i), j) Hc (L & D & G1 & G2).
          assert (Erp0 : forall b, b = (r =? p) -> r = p /\ b = true \/ r <> p /\ b = false).
          { intros b ->. destruct (Nat.eqb_spec r p); auto. }
          destruct (Erp0 _ eq_refl) as [(Erp & Eb)|(Nrp & Eb)]; rewrite Eb in D |- *; cbn [negb andb].
          { cbn [okp]. unfold Q. rewrite Eb. destruct D. splits; auto; congruence. }
          destruct (Nat.eqb_spec c q) as [Ecq|Ncq]; cbn [negb].
          { cbn [okp]. unfold Q. rewrite Eb.
            assert (E : cnt q (S c) = cnt q c).
            { unfold cnt. destruct (Nat.ltb_spec q (S c)), (Nat.ltb_spec q c); lia. }
            rewrite E. splits; auto. }
          assert (C1 : cnt q c < n - 1).
          { unfold cnt. destruct (Nat.ltb_spec q c); lia. }
          assert (C2 : cnt q (S c) = S (cnt q c)).
          { unfold cnt. destruct (Nat.ltb_spec q c), (Nat.ltb_spec q (S c)); lia. }
          assert (C3 : cnt p r < n - 1).
          { unfold cnt. destruct (Nat.ltb_spec p r); lia. }
          destruct (Nat.eqb_spec (cnt q c) (n - 1)); [lia|]. destruct D as (-> & ->).
          assert (B1 : r * st + c < st * st) by nia.
          assert (B2 : cnt p r * st + cnt q c < st * st) by nia.
          rewrite (aget_nth A z) by lia. cbn [bind]. rewrite aset_ok by lia. cbn [bind].
          assert (K1 : skip p (cnt p r) = r).
          { unfold skip, cnt. destruct (Nat.ltb_spec p r).
            - destruct (Nat.ltb_spec (r - 1) p); lia.
            - destruct (Nat.ltb_spec r p); lia. }
          assert (K2 : skip q (cnt q c) = c).
          { unfold skip, cnt. destruct (Nat.ltb_spec q c).
            - destruct (Nat.ltb_spec (c - 1) q); lia.
            - destruct (Nat.ltb_spec c q); lia. }
          assert (W : forall i' j', j' < n - 1 ->
             nth (i' * st + j') (upd t (cnt p r * st + cnt q c) (nth (r * st + c) A z)) z =
             if (i' =? cnt p r) && (j' =? cnt q c) then nth (r * st + c) A z else nth (i' * st + j') t z).
          { intros i' j' Hj'. rewrite nth_upd by lia.
            destruct (Nat.eqb_spec (i' * st + j') (cnt p r * st + cnt q c)) as [E|E].
            - apply idx_inj in E as (-> & ->); [|lia|lia]. rewrite !Nat.eqb_refl. reflexivity.
            - destruct (Nat.eqb_spec i' (cnt p r)) as [E2|]; cbn [andb]; auto.
              destruct (Nat.eqb_spec j' (cnt q c)) as [E3|]; auto. subst. congruence. }
          assert (G1' : forall i' j', i' < cnt p r -> j' < n - 1 ->
             good (upd t (cnt p r * st + cnt q c) (nth (r * st + c) A z)) i' j').
          { intros i' j' Hi' Hj'. unfold good. rewrite W by exact Hj'.
            destruct (Nat.eqb_spec i' (cnt p r)); [lia|]. cbn [andb]. apply G1; auto. }
          assert (G2' : forall j', j' < S (cnt q c) ->
             good (upd t (cnt p r * st + cnt q c) (nth (r * st + c) A z)) (cnt p r) j').
          { intros j' Hj'. unfold good. rewrite W by lia. rewrite Nat.eqb_refl. cbn [andb].
            destruct (Nat.eqb_spec j' (cnt q c)) as [E3|].
            - subst j'. rewrite K1, K2. reflexivity.
            - apply (G2 Nrp). lia. }
          destruct (Nat.eqb_spec (cnt q c + 1) (n - 1)) as [E|E]; cbn [okp]; unfold Q;
            rewrite C2, upd_length, Eb; splits; auto;
            (destruct (Nat.eqb_spec (S (cnt q c)) (n - 1)); lia). }
      eapply okp_mono; [exact HQ|]. intros ((t, i), j) (L & D & G1 & G2). unfold P.
      assert (CN : cnt q n = n - 1) by (unfold cnt; destruct (Nat.ltb_spec q n); lia).
      rewrite CN, Nat.eqb_refl in *.
      destruct (Nat.eqb_spec r p) as [E|E].
      + assert (CR : cnt p (S r) = cnt p r) by (unfold cnt; destruct (Nat.ltb_spec p r), (Nat.ltb_spec p (S r)); lia).
        rewrite CR. splits; auto; tauto.
      + assert (CR : cnt p (S r) = S (cnt p r)) by (unfold cnt; destruct (Nat.ltb_spec p r), (Nat.ltb_spec p (S r)); lia).
        rewrite CR. splits; auto; try tauto. intros i' j' Hi' Hj'.
        destruct (Nat.eq_dec i' (cnt p r)) as [->|]; [apply G2; auto|apply G1; auto; lia]. }
  apply okp_iff in H as (((t, i), j) & E & L & _ & _ & G). rewrite E. cbn [bind].
  exists t. splits; auto. intros i' j' Hi Hj. apply G; auto. unfold cnt. destruct (Nat.ltb_spec p n); lia.
Qed.
End C.

Lemma req (x y : R) : x = y -> @eq (car NumR) x y.
Proof. auto. Qed.

(** the code's determinant is the determinant of the leading block *)
Lemma determinant_ok : forall n fuel (A : list (car NumR)) st, n <= fuel -> 1 <= n -> n <= st -> length A = st * st ->
  @determinant NumR fuel A n st = Ok (det n (ent A st)).
Proof.
  induction n as [|n IH]; intros fuel A st Hf H1 Hst L; [lia|].
  destruct fuel as [|f]; [lia|]. cbn [determinant].
  destruct (Nat.eqb_spec (S n) 1) as [E|E].
  { assert (n = 0) by lia. subst n. apply (aget_nth A (nzero NumR)). nia. }
  destruct n as [|n]; [lia|].
  rewrite det_SS.
  pose (term := fun c => ((-1) ^ c * ent A st 0%nat c * det (S n) (minor (ent A st) 0 c))%R).
  pose (P := fun c (s : car NumR * car NumR * list (car NumR)) => let '(d, sg, t) := s in
     d = rsum (map term (seq 0 c)) /\ sg = ((-1) ^ c)%R /\ length t = st * st).
  match goal with |- context [loop (S (S n)) ?b ?s] => assert (H : okp (loop (S (S n)) b s) (P (S (S n)))) end.
  { apply loop_okp.
    - unfold P. splits; try reflexivity. apply repeat_length.
    - intros c ((d, sg), t) Hc (Ed & Es & Lt).
      destruct (@cofactor_ok NumR A t 0 c (S (S n)) st ltac:(lia) Hst ltac:(lia) Hc L Lt)
        as (t' & E1 & L' & G). rewrite E1. cbn [bind].
      rewrite (aget_nth A (nzero NumR)) by nia. cbn [bind].
      replace (S (S n) - 1) with (S n) by lia.
      rewrite (IH f t' st) by (auto; lia). cbn [bind okp]. unfold P. splits.
      + rewrite seq_S, map_app, rsum_app. cbn [map rsum Nat.add].
        change (nadd NumR) with Rplus. change (nmul NumR) with Rmult. subst d sg.
        rewrite (det_ext (M := ent t' st) (M' := minor (ent A st) 0 c)).
        * unfold term. change (ent A st 0 c) with (nth c A 0%R). change (nzero NumR) with 0%R. apply req; ring.
        * intros i j Hi Hj. unfold ent, minor. exact (G i j ltac:(lia) ltac:(lia)).
      + subst sg. change (nsub NumR) with Rminus. change (nzero NumR) with 0%R. apply req; cbn [pow]; ring.
      + exact L'. }
  apply okp_iff in H as (((d, sg), t) & E1 & Ed & _ & _). rewrite E1. cbn [bind]. rewrite Ed. reflexivity.
Qed.

(** the unsigned cofactor (n = 1: the empty determinant 1) *)
Definition cof (n : nat) (A : list R) (i j : nat) : R :=
  if n =? 1 then 1%R else det (n - 1) (minor (ent A n) i j).

Lemma adjoint_ok n (A adj : list (car NumR)) : 1 <= n -> length A = n * n -> length adj = n * n ->
  exists r, @adjoint NumR A adj n = Ok r /\ length r = n * n /\
    forall i j, i < n -> j < n -> ent r n j i = cof n A i j.
Proof.
  intros Hn LA LJ. unfold adjoint, cof. destruct (Nat.eqb_spec n 1) as [E|E].
  { subst n. rewrite aset_ok by lia. eexists. split; [reflexivity|]. rewrite upd_length. split; [exact LJ|].
    intros i j Hi Hj. assert (i = 0) by lia. assert (j = 0) by lia. subst. unfold ent.
    cbn [Nat.mul Nat.add]. rewrite (@nth_upd R) by (change (0 < @length (car NumR) adj); rewrite LJ; lia). reflexivity. }
  pose (P := fun i (s : list (car NumR) * list (car NumR)) => length (fst s) = n * n /\ length (snd s) = n * n /\
     forall i' j', i' < i -> j' < n -> ent (fst s) n j' i' = det (n - 1) (minor (ent A n) i' j')).
  match goal with |- context [loop n ?b ?s] => assert (H : okp (loop n b s) (P n)) end.
  { apply loop_okp.
    - unfold P; cbn [fst snd]. rewrite repeat_length. splits; auto. intros; lia.
    - intros i s0 Hi (L1 & L2 & G).
      pose (Q := fun j (s : list (car NumR) * list (car NumR)) => length (fst s) = n * n /\ length (snd s) = n * n /\
        (forall i' j', i' < i -> j' < n -> ent (fst s) n j' i' = det (n - 1) (minor (ent A n) i' j')) /\
        (forall j', j' < j -> ent (fst s) n j' i = det (n - 1) (minor (ent A n) i j'))).
      match goal with |- okp (loop n ?b ?s) _ => assert (HQ : okp (loop n b s) (Q n)) end.
      { apply loop_okp.
        - unfold Q. splits; auto. intros; lia.
        - intros j (a, t) Hj (M1 & M2 & G1 & G2). cbn [fst snd] in *.
          destruct (@cofactor_ok NumR A t i j n n ltac:(lia) ltac:(lia) Hi Hj LA M2) as (t' & E1 & L' & C).
          rewrite E1. cbn [bind]. rewrite (@determinant_ok (n - 1) n t' n) by (auto; lia). cbn [bind].
          assert (B : j * n + i < n * n) by (apply idx_lt; auto).
          rewrite aset_ok by (rewrite M1; exact B). cbn [bind okp]. unfold Q; cbn [fst snd].
          rewrite upd_length.
          assert (V : nmul NumR (none NumR) (det (n - 1) (ent t' n)) = det (n - 1) (minor (ent A n) i j)).
          { change (nmul NumR) with Rmult. change (none NumR) with 1%R. apply req. rewrite Rmult_1_l.
            apply det_ext. intros x y Hx Hy. unfold ent, minor. exact (C x y Hx Hy). }
          rewrite V.
          assert (W : forall x y, x < n -> y < n ->
             ent (upd a (j * n + i) (det (n - 1) (minor (ent A n) i j))) n x y =
             if (x =? j) && (y =? i) then det (n - 1) (minor (ent A n) i j) else ent a n x y).
          { intros x y Hx Hy. unfold ent at 1. rewrite (@nth_upd R) by (change (j * n + i < @length (car NumR) a); rewrite M1; exact B).
            destruct (Nat.eqb_spec (x * n + y) (j * n + i)) as [E2|E2].
            - apply idx_inj in E2 as (-> & ->); [|lia|lia]. rewrite !Nat.eqb_refl. reflexivity.
            - destruct (Nat.eqb_spec x j) as [E3|]; cbn [andb]; auto.
              destruct (Nat.eqb_spec y i) as [E4|]; auto. subst. congruence. }
          splits; auto.
          + intros i' j' Hi' Hj'. rewrite W by lia. destruct (Nat.eqb_spec i' i); [lia|].
            rewrite andb_false_r. apply G1; auto.
          + intros j' Hj'. rewrite W by lia. rewrite Nat.eqb_refl, andb_true_r.
            destruct (Nat.eqb_spec j' j) as [->|]; [reflexivity|]. apply G2. lia. }
      eapply okp_mono; [exact HQ|]. intros s (M1 & M2 & G1 & G2). unfold P. splits; auto.
      intros i' j' Hi' Hj'. destruct (Nat.eq_dec i' i) as [->|]; [apply G2; auto|apply G1; auto; lia]. }
  apply okp_iff in H as ((r & t) & E1 & L1 & L2 & G). cbn [fst snd] in *. rewrite E1. cbn [bind].
  exists r. splits; auto.
Qed.

(** C49, what the code returns for every matrix: "singular" exactly when the
    determinant is 0, and otherwise the transposed *unsigned* minors divided by
    the determinant (the adjugate without its signs). *)
Theorem c49_computes : forall n (A inv : list R), 1 <= n -> length A = n * n -> length inv = n * n ->
  (det n (ent A n) = 0%R -> @inverse NumR A inv n = Ok None) /\
  (det n (ent A n) <> 0%R -> exists B, @inverse NumR A inv n = Ok (Some B) /\ length B = n * n /\
     forall i j, i < n -> j < n -> ent B n j i = (cof n A i j / det n (ent A n))%R).
Proof.
  intros n A inv Hn LA LI. unfold inverse.
  rewrite (@determinant_ok n n A n) by (auto; lia). cbn [bind].
  change (neqb NumR) with Reqb. change (nzero NumR) with 0%R. split; intros D.
  - destruct (Reqb (det n (ent A n)) 0) eqn:E; [reflexivity|]. apply Reqb_true in D. congruence.
  - destruct (Reqb (det n (ent A n)) 0) eqn:E; [apply Reqb_true in E; congruence|].
    destruct (@adjoint_ok n A (repeat 0%R (n * n)) Hn LA (repeat_length _ _)) as (adj & E1 & L1 & G).
    match type of E1 with ?lhs = _ => match goal with |- context [@adjoint NumR ?a ?b ?c] =>
      change (@adjoint NumR a b c) with lhs end end.
    rewrite E1. cbn [bind].
    destruct (@loop2_map NumR n n (fun r c _ => (nth (r * n + c) adj 0 / det n (ent A n))%R)
       (fun i j r => let* x := aget adj (i * n + j) in aset r (i * n + j) (ndiv NumR x (det n (ent A n)))) inv LI)
       as (B & E2 & L2 & C).
    { intros r c l x Hr Hc Ll Hx.
      rewrite (aget_nth adj (nzero NumR)) by (rewrite L1; apply idx_lt; auto). cbn [bind].
      rewrite aset_ok by (rewrite Ll; apply idx_lt; auto). reflexivity. }
    rewrite E2. cbn [bind]. exists B. splits; auto. intros i j Hi Hj. unfold ent at 1.
    etransitivity; [exact (C j i Hj Hi)|]. apply (f_equal (fun x => (x / det n (ent A n))%R)). apply G; auto.
Qed.

(* ------------------------------------------------------------------ *)
(** * Diagonal matrices *)
Lemma rsum_zero (l : list nat) f : (forall c, In c l -> f c = 0%R) -> rsum (map f l) = 0%R.
Proof.
  induction l as [|x l IH]; intros H; cbn [map rsum]; [reflexivity|].
  rewrite H by (left; reflexivity). rewrite IH by (intros; apply H; right; auto). lra.
Qed.

Lemma rsum_single (l : list nat) f c : NoDup l -> In c l -> (forall x, In x l -> x <> c -> f x = 0%R) ->
  rsum (map f l) = f c.
Proof.
  induction l as [|x l IH]; intros ND Hin H; [destruct Hin|]. cbn [map rsum]. inversion ND; subst.
  destruct Hin as [->|Hin].
  - rewrite rsum_zero; [lra|]. intros y Hy. apply H; [right; auto|]. intros ->. auto.
  - rewrite (H x) by (first [left; reflexivity | intros ->; auto]).
    rewrite IH; auto; [lra|]. intros y Hy. apply H. right; auto.
Qed.

Lemma det_zero_row : forall n M r, r < n -> (forall c, c < n -> M r c = 0%R) -> det n M = 0%R.
Proof.
  induction n as [|n IH]; intros M r Hr H; [lia|].
  destruct n as [|n]; [cbn; assert (r = 0) by lia; subst; apply H; lia|].
  rewrite det_SS. apply rsum_zero. intros c Hc. apply in_seq in Hc.
  destruct r as [|r].
  - rewrite H by lia. ring.
  - rewrite (IH (minor M 0 c) r); [ring|lia|]. intros j Hj. unfold minor, skip.
    destruct (Nat.ltb_spec r 0); [lia|]. apply H. destruct (Nat.ltb_spec j c); lia.
Qed.

Fixpoint rprod (l : list R) : R := match l with [] => 1%R | x :: l => (x * rprod l)%R end.
Lemma rprod_app l m : rprod (l ++ m) = (rprod l * rprod m)%R.
Proof. induction l as [|x l IH]; cbn [app rprod]; [ring|]. rewrite IH. ring. Qed.

Lemma skip_inj p i j : skip p i = skip p j -> i = j.
Proof. unfold skip. destruct (Nat.ltb_spec i p), (Nat.ltb_spec j p); lia. Qed.

Lemma det_diag : forall n M, 1 <= n -> (forall i j, i < n -> j < n -> i <> j -> M i j = 0%R) ->
  det n M = rprod (map (fun i => M i i) (seq 0 n)).
Proof.
  induction n as [|n IH]; intros M Hn D; [lia|].
  destruct n as [|n]; [cbn; ring|].
  rewrite det_SS. rewrite (rsum_single (c := 0)).
  - rewrite (IH (minor M 0 0)).
    + change (seq 0 (S (S n))) with (0 :: seq 1 (S n)). rewrite map_cons. cbn [rprod pow]. rewrite Rmult_1_l. f_equal.
      rewrite <- (seq_shift (S n) 0), map_map. reflexivity.
    + lia.
    + intros i j Hi Hj Hne. unfold minor. apply D; unfold skip; cbn; lia.
  - apply seq_NoDup.
  - apply in_seq; lia.
  - intros c Hc Hne. apply in_seq in Hc. rewrite D by lia. ring.
Qed.

Lemma rprod_skip f n i : i < n ->
  rprod (map f (seq 0 n)) = (f i * rprod (map (fun k => f (skip i k)) (seq 0 (n - 1))))%R.
Proof.
  intros Hi. replace n with (i + (1 + (n - 1 - i))) at 1 by lia.
  replace (n - 1) with (i + (n - 1 - i)) at 2 by lia.
  rewrite !seq_app, !map_app, !rprod_app. cbn [seq map rprod Nat.add].
  assert (E1 : map (fun k => f (skip i k)) (seq 0 i) = map f (seq 0 i)).
  { apply map_ext_in. intros k Hk. apply in_seq in Hk. unfold skip. destruct (Nat.ltb_spec k i); [reflexivity|lia]. }
  assert (E2 : map (fun k => f (skip i k)) (seq i (n - 1 - i)) = map f (seq (i + 1) (n - 1 - i))).
  { replace (i + 1) with (S i) by lia. rewrite <- (seq_shift (n - 1 - i) i), map_map. apply map_ext_in.
    intros k Hk. apply in_seq in Hk. unfold skip. destruct (Nat.ltb_spec k i); [lia|reflexivity]. }
  rewrite E1, E2. ring.
Qed.

(** C49, partial: for every invertible diagonal matrix of any size (in
    particular every non-zero 1 x 1 matrix) the result is the inverse. *)
Theorem c49_inverse_partial : forall n (A inv : list R), 1 <= n -> length A = n * n -> length inv = n * n ->
  diagonal n A -> invertible n A ->
  exists B, @inverse NumR A inv n = Ok (Some B) /\ length B = n * n /\ is_inverse n A B.
Proof.
  intros n A inv Hn LA LI D (B0 & LB0 & I0).
  assert (NZ : forall i, i < n -> ent A n i i <> 0%R).
  { intros i Hi Z. destruct (I0 i i Hi Hi) as (E & _).
    rewrite (rsum_single (c := i)) in E.
    - unfold delta in E. rewrite Nat.eqb_refl, Z in E. lra.
    - apply seq_NoDup.
    - apply in_seq; lia.
    - intros x Hx Hne. apply in_seq in Hx. rewrite D by lia. ring. }
  assert (ED : det n (ent A n) = rprod (map (fun i => ent A n i i) (seq 0 n))) by (apply det_diag; auto).
  assert (NP : forall l, (forall i, In i l -> i < n) -> rprod (map (fun i => ent A n i i) l) <> 0%R).
  { induction l as [|x l IH]; intros H; cbn [map rprod]; [lra|].
    apply Rmult_integral_contrapositive. split; [apply NZ; apply H; left; auto|apply IH; intros; apply H; right; auto]. }
  assert (DN : det n (ent A n) <> 0%R) by (rewrite ED; apply NP; intros i Hi; apply in_seq in Hi; lia).
  destruct (c49_computes Hn LA LI) as (_ & K). destruct (K DN) as (B & E & LB & C).
  exists B. splits; auto.
  assert (V : forall i j, i < n -> j < n -> ent B n i j = if i =? j then (/ ent A n i i)%R else 0%R).
  { intros i j Hi Hj. rewrite (C j i) by auto. unfold cof.
    destruct (Nat.eqb_spec n 1) as [E1|E1].
    - assert (i = 0) by lia. assert (j = 0) by lia. subst. cbn [Nat.eqb]. unfold Rdiv. rewrite Rmult_1_l.
      cbn [det]. reflexivity.
    - destruct (Nat.eqb_spec i j) as [->|Hne].
      + assert (MD : det (n - 1) (minor (ent A n) j j) = rprod (map (fun k => ent A n (skip j k) (skip j k)) (seq 0 (n - 1)))).
        { apply det_diag; [lia|]. intros a b Ha Hb Hab. unfold minor. apply D.
          - unfold skip; destruct (Nat.ltb_spec a j); lia.
          - unfold skip; destruct (Nat.ltb_spec b j); lia.
          - intros X. apply skip_inj in X. auto. }
        rewrite MD. rewrite ED in DN |- *. rewrite (@rprod_skip (fun i => ent A n i i) n j Hj) in DN |- *.
        assert (rprod (map (fun k => ent A n (skip j k) (skip j k)) (seq 0 (n - 1))) <> 0%R).
        { intros X. apply DN. rewrite X. ring. }
        field. split; first [apply NZ; assumption | assumption].
      + rewrite (@det_zero_row (n - 1) _ (if i <? j then i else i - 1)).
        * unfold Rdiv. ring.
        * destruct (Nat.ltb_spec i j); lia.
        * intros c Hc. unfold minor. apply D; unfold skip.
          -- destruct (Nat.ltb_spec i j).
             ++ destruct (Nat.ltb_spec i j); lia.
             ++ destruct (Nat.ltb_spec (i - 1) j); lia.
          -- destruct (Nat.ltb_spec c i); lia.
          -- destruct (Nat.ltb_spec i j).
             ++ destruct (Nat.ltb_spec i j), (Nat.ltb_spec c i); lia.
             ++ destruct (Nat.ltb_spec (i - 1) j), (Nat.ltb_spec c i); lia. }
  intros i j Hi Hj. split.
  - rewrite (rsum_single (c := i)).
    + rewrite V by auto. unfold delta. destruct (Nat.eqb_spec i j); [field; apply NZ; auto|ring].
    + apply seq_NoDup.
    + apply in_seq; lia.
    + intros x Hx Hne. apply in_seq in Hx. rewrite D by lia. ring.
  - rewrite (rsum_single (c := j)).
    + rewrite V by auto. unfold delta. destruct (Nat.eqb_spec i j) as [->|]; [field; apply NZ; auto|ring].
    + apply seq_NoDup.
    + apply in_seq; lia.
    + intros x Hx Hne. apply in_seq in Hx. rewrite D by lia. ring.
Qed.

(** C49, exactly how far it holds in dimension 2: for an invertible matrix
    (a b; c d) the result (d b; c a) / (ad - bc) is the inverse only if b = c = 0. *)
Theorem c49_two_by_two : forall a b c d inv, length inv = 4 -> (a * d - b * c <> 0)%R ->
  exists B, @inverse NumR [a; b; c; d] inv 2 = Ok (Some B) /\
    (is_inverse 2 [a; b; c; d] B <-> b = 0%R /\ c = 0%R).
Proof.
  intros a b c d inv LI HD.
  destruct (@c49_computes 2 [a; b; c; d] inv ltac:(lia) eq_refl LI) as (_ & K).
  assert (ED : det 2 (ent [a; b; c; d] 2) = (a * d - b * c)%R).
  { rewrite det_SS. cbn [seq map rsum det minor skip ent Nat.ltb Nat.leb Nat.mul Nat.add nth pow]. ring. }
  rewrite ED in K. destruct (K HD) as (B & E & LB & C). exists B. split; [exact E|].
  assert (V00 : ent B 2 0 0 = (d / (a * d - b * c))%R) by (rewrite (C 0 0) by lia; reflexivity).
  assert (V01 : ent B 2 0 1 = (b / (a * d - b * c))%R) by (rewrite (C 1 0) by lia; reflexivity).
  assert (V10 : ent B 2 1 0 = (c / (a * d - b * c))%R) by (rewrite (C 0 1) by lia; reflexivity).
  assert (V11 : ent B 2 1 1 = (a / (a * d - b * c))%R) by (rewrite (C 1 1) by lia; reflexivity).
  assert (A00 : ent [a; b; c; d] 2 0 0 = a) by reflexivity.
  assert (A01 : ent [a; b; c; d] 2 0 1 = b) by reflexivity.
  assert (A10 : ent [a; b; c; d] 2 1 0 = c) by reflexivity.
  assert (A11 : ent [a; b; c; d] 2 1 1 = d) by reflexivity.
  set (A := ent [a; b; c; d] 2) in *. set (Bf := ent B 2) in *.
  split.
  - intros H.
    destruct (H 0 0 ltac:(lia) ltac:(lia)) as (P00 & _).
    destruct (H 0 1 ltac:(lia) ltac:(lia)) as (P01 & _).
    destruct (H 1 0 ltac:(lia) ltac:(lia)) as (P10 & _).
    unfold delta in *. fold A Bf in P00, P01, P10. cbn [seq map rsum Nat.eqb] in P00, P01, P10.
    rewrite ?A00, ?A01, ?A10, ?A11, ?V00, ?V01, ?V10, ?V11 in *.
    assert (X0 : (a * d + b * c = a * d - b * c)%R).
    { apply (Rmult_eq_reg_r (/ (a * d - b * c))); [|apply Rinv_neq_0_compat; auto].
      rewrite Rinv_r by auto. rewrite <- P00. unfold Rdiv. ring. }
    assert (X1 : (2 * (a * b) = 0)%R).
    { apply (Rmult_eq_reg_r (/ (a * d - b * c))); [|apply Rinv_neq_0_compat; auto].
      rewrite Rmult_0_l, <- P01. unfold Rdiv. ring. }
    assert (X2 : (2 * (c * d) = 0)%R).
    { apply (Rmult_eq_reg_r (/ (a * d - b * c))); [|apply Rinv_neq_0_compat; auto].
      rewrite Rmult_0_l, <- P10. unfold Rdiv. ring. }
    assert (BC : (b * c = 0)%R) by lra.
    assert (AD : (a * d <> 0)%R) by (intros X; apply HD; lra).
    assert (a <> 0 /\ d <> 0)%R as (Ha & Hd) by (split; intros ->; apply AD; ring).
    split.
    + assert (Y : (a * b = 0)%R) by lra. apply Rmult_integral in Y. tauto.
    + assert (Y : (c * d = 0)%R) by lra. apply Rmult_integral in Y. tauto.
  - intros (-> & ->).
    assert (AD : (a * d <> 0)%R) by (intros X; apply HD; lra).
    assert (a <> 0 /\ d <> 0)%R as (Ha & Hd) by (split; intros ->; apply AD; ring).
    intros i j Hi Hj. unfold delta. fold A Bf.
    destruct i as [|[|i]]; [| |lia]; (destruct j as [|[|j]]; [| |lia]); cbn [seq map rsum Nat.eqb];
      rewrite ?A00, ?A01, ?A10, ?A11, ?V00, ?V01, ?V10, ?V11; split; field; lra.
Qed.

(** C49 is false: (2 1; 1 1) is invertible with inverse (1 -1; -1 2), the code
    returns (1 1; 1 2). *)
Theorem c49_refuted : exists A : list R, length A = 4 /\ invertible 2 A /\
  exists B, @inverse NumR A [0; 0; 0; 0]%R 2 = Ok (Some B) /\ ~ is_inverse 2 A B.
Proof.
  exists [2; 1; 1; 1]%R. splits; [reflexivity| |].
  - exists [1; -1; -1; 2]%R. split; [reflexivity|]. intros i j Hi Hj. unfold delta, ent.
    destruct i as [|[|i]]; [| |lia]; (destruct j as [|[|j]]; [| |lia]);
      cbn [seq map rsum Nat.eqb Nat.mul Nat.add nth]; split; ring.
  - destruct (@c49_two_by_two 2 1 1 1 [0; 0; 0; 0]%R eq_refl ltac:(lra)) as (B & E & H).
    exists B. split; [exact E|]. rewrite H. lra.
Qed.

(** Non-vacuity of [c49_inverse_partial]. *)
Example c49_ex : diagonal 2 [2; 0; 0; 4]%R /\ invertible 2 [2; 0; 0; 4]%R.
Proof.
  split.
  - intros i j Hi Hj Hne. unfold ent. destruct i as [|[|i]]; [| |lia]; (destruct j as [|[|j]]; [| |lia]);
      cbn [Nat.mul Nat.add nth]; try lia; reflexivity.
  - exists [/ 2; 0; 0; / 4]%R. split; [reflexivity|]. intros i j Hi Hj. unfold delta, ent.
    destruct i as [|[|i]]; [| |lia]; (destruct j as [|[|j]]; [| |lia]);
      cbn [seq map rsum Nat.eqb Nat.mul Nat.add nth]; split; field.
Qed.
