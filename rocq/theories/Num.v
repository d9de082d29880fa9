(** The type [double] as a record of operations, with two instances: exact real
    arithmetic and IEEE binary64.  The C++ code under /repo uses [double]
    everywhere (e.g. libkcommon/clusters.hpp:33, libkcommon/util.hpp:76-166). *)
From Coq Require Import ZArith Bool Lia Reals Lra List.
From Coq Require Import Floats.SpecFloat.
Set Implicit Arguments.

Record Num := mkNum {
  car : Type;
  nzero : car;
  none : car;
  nadd : car -> car -> car;
  nsub : car -> car -> car;
  nmul : car -> car -> car;
  ndiv : car -> car -> car;
  nsqrt : car -> car;                 (* std::sqrt *)
  nabs : car -> car;                  (* std::abs *)
  nltb : car -> car -> bool;          (* < ; false on NaN *)
  nleb : car -> car -> bool;          (* <= ; false on NaN *)
  neqb : car -> car -> bool;          (* == ; false on NaN *)
  nofZ : Z -> car;                    (* conversion from an integer type *)
  nmax : car;                         (* std::numeric_limits<double>::max() *)
  nmin : car                          (* std::numeric_limits<double>::min(): smallest positive normal *)
}.

Declare Scope num_scope.
Delimit Scope num_scope with num.

(** What the proofs use about [<] where no arithmetic law is needed:
    it is a strict order, and among values that are not NaN ([x == x])
    it is negatively transitive. *)
Record OrdLaws (N : Num) : Prop := mkOrdLaws {
  lt_irrefl : forall x, nltb N x x = false;
  lt_trans : forall x y z, nltb N x y = true -> nltb N y z = true -> nltb N x z = true;
  lt_ntrans : forall x y z, neqb N y y = true ->
     nltb N x y = false -> nltb N y z = false -> nltb N x z = false;
  le_not_lt : forall x y, nleb N x y = true -> nltb N y x = false;
  lt_le : forall x y, nltb N x y = true -> nleb N x y = true;
  not_lt_le : forall x y, neqb N x x = true -> neqb N y y = true ->
     nltb N x y = false -> nleb N y x = true;
  lt_num : forall x y, nltb N x y = true -> neqb N x x = true /\ neqb N y y = true
}.

(* ------------------------------------------------------------------ *)
(** * Exact real arithmetic *)

(** largest finite double: (2^53 - 1) * 2^971; smallest normal 2^-1022 *)
Definition dbl_max_Z : Z := ((2 ^ 53 - 1) * 2 ^ 971)%Z.

Definition Rltb (x y : R) : bool := if Rlt_dec x y then true else false.
Definition Rleb (x y : R) : bool := if Rle_dec x y then true else false.
Definition Reqb (x y : R) : bool := if Req_EM_T x y then true else false.

Definition NumR : Num :=
  mkNum 0%R 1%R Rplus Rminus Rmult Rdiv R_sqrt.sqrt Rabs Rltb Rleb Reqb IZR
        (IZR dbl_max_Z) (/ IZR (2 ^ 1022))%R.

Lemma Rltb_true x y : Rltb x y = true <-> (x < y)%R.
Proof. unfold Rltb; destruct (Rlt_dec x y); split; intros; congruence || lra. Qed.
Lemma Rltb_false x y : Rltb x y = false <-> (y <= x)%R.
Proof. unfold Rltb; destruct (Rlt_dec x y); split; intros; congruence || lra. Qed.
Lemma Rleb_true x y : Rleb x y = true <-> (x <= y)%R.
Proof. unfold Rleb; destruct (Rle_dec x y); split; intros; congruence || lra. Qed.
Lemma Rleb_false x y : Rleb x y = false <-> (y < x)%R.
Proof. unfold Rleb; destruct (Rle_dec x y); split; intros; congruence || lra. Qed.
Lemma Reqb_true x y : Reqb x y = true <-> x = y.
Proof. unfold Reqb; destruct (Req_EM_T x y); split; intros; congruence || lra. Qed.

Lemma NumR_laws : OrdLaws NumR.
Proof.
  constructor; simpl; intros;
  repeat match goal with
  | H : Rltb _ _ = true |- _ => apply Rltb_true in H
  | H : Rltb _ _ = false |- _ => apply Rltb_false in H
  | H : Rleb _ _ = true |- _ => apply Rleb_true in H
  end; try (split; apply Reqb_true; reflexivity);
  try (apply Rltb_true || apply Rltb_false || apply Rleb_true); lra.
Qed.

(* ------------------------------------------------------------------ *)
(** * IEEE binary64 *)

Definition F64 := spec_float.
Definition fofZ (z : Z) : F64 := binary_normalize 53 1024 z 0 false.
(** m * 2^e rounded to binary64 (used to write literals) *)
Definition fdec (m e : Z) : F64 := binary_normalize 53 1024 m e false.

Definition NumF : Num :=
  mkNum (S754_zero false) (fofZ 1)
        (SFadd 53 1024) (SFsub 53 1024) (SFmul 53 1024) (SFdiv 53 1024)
        (SFsqrt 53 1024) SFabs SFltb SFleb SFeqb fofZ
        (S754_finite false 9007199254740991 971) (S754_finite false 4503599627370496 (-1074)).

Definition fkey (x : spec_float) : option (Z * Z * Z) :=
  match x with
  | S754_nan => None
  | S754_infinity true => Some (-2, 0, 0)%Z
  | S754_infinity false => Some (2, 0, 0)%Z
  | S754_zero _ => Some (0, 0, 0)%Z
  | S754_finite true m e => Some (-1, -e, Zneg m)%Z
  | S754_finite false m e => Some (1, e, Zpos m)%Z
  end.

Definition klt (a b : Z * Z * Z) : Prop :=
  let '(a1, a2, a3) := a in let '(b1, b2, b3) := b in
  (a1 < b1 \/ (a1 = b1 /\ (a2 < b2 \/ (a2 = b2 /\ a3 < b3))))%Z.

Definition kcmp (a b : Z * Z * Z) : comparison :=
  let '(a1, a2, a3) := a in let '(b1, b2, b3) := b in
  match Z.compare a1 b1 with
  | Eq => match Z.compare a2 b2 with Eq => Z.compare a3 b3 | c => c end
  | c => c
  end.

Lemma kcmp_lt a b : kcmp a b = Lt <-> klt a b.
Proof.
  destruct a as [[a1 a2] a3], b as [[b1 b2] b3]; simpl.
  destruct (Z.compare_spec a1 b1); destruct (Z.compare_spec a2 b2);
    destruct (Z.compare_spec a3 b3); split; intros; try congruence; try lia; auto.
Qed.

Lemma kcmp_eq a b : kcmp a b = Eq <-> a = b.
Proof.
  destruct a as [[a1 a2] a3], b as [[b1 b2] b3]; simpl.
  destruct (Z.compare_spec a1 b1); destruct (Z.compare_spec a2 b2);
    destruct (Z.compare_spec a3 b3); split; intros H'; try congruence;
    injection H'; intros; lia.
Qed.

Lemma SFcompare_key x y :
  SFcompare x y = match fkey x, fkey y with Some a, Some b => Some (kcmp a b) | _, _ => None end.
Proof.
  destruct x as [s|s| |s m e], y as [s'|s'| |s' m' e'];
    try destruct s; try destruct s'; cbn [fkey kcmp SFcompare Z.compare Pos.compare Pos.compare_cont CompOpp]; try reflexivity.
  assert (E : Z.compare (- e) (- e') = CompOpp (Z.compare e e')).
  { destruct (Z.compare_spec (- e) (- e')); destruct (Z.compare_spec e e'); try reflexivity; lia. }
  rewrite E. f_equal. destruct (e ?= e')%Z; reflexivity.
Qed.

Lemma SFltb_key x y : SFltb x y = true <->
  exists a b, fkey x = Some a /\ fkey y = Some b /\ klt a b.
Proof.
  unfold SFltb. rewrite SFcompare_key.
  destruct (fkey x) as [a|]; destruct (fkey y) as [b|]; split;
    try (intros; discriminate); try (intros (a' & b' & H1 & H2 & H3); congruence).
  - intros H. exists a, b. repeat split; auto. apply kcmp_lt. destruct (kcmp a b); congruence.
  - intros (a' & b' & H1 & H2 & H3). injection H1 as <-. injection H2 as <-.
    apply kcmp_lt in H3. rewrite H3. reflexivity.
Qed.

Lemma SFleb_key x y : SFleb x y = true <->
  exists a b, fkey x = Some a /\ fkey y = Some b /\ (klt a b \/ a = b).
Proof.
  unfold SFleb. rewrite SFcompare_key.
  destruct (fkey x) as [a|]; destruct (fkey y) as [b|]; split;
    try (intros; discriminate); try (intros (a' & b' & H1 & H2 & H3); congruence).
  - intros H. exists a, b. repeat split; auto. rewrite <- kcmp_lt, <- kcmp_eq.
    destruct (kcmp a b); auto; congruence.
  - intros (a' & b' & H1 & H2 & H3). injection H1 as <-. injection H2 as <-.
    rewrite <- kcmp_lt, <- kcmp_eq in H3. destruct H3 as [-> | ->]; reflexivity.
Qed.

Lemma SFeqb_num x : SFeqb x x = true <-> exists a, fkey x = Some a.
Proof.
  unfold SFeqb. rewrite SFcompare_key. destruct (fkey x) as [a|]; split; intros H.
  - eauto.
  - assert (E : kcmp a a = Eq) by (apply kcmp_eq; reflexivity). rewrite E. reflexivity.
  - discriminate.
  - destruct H; congruence.
Qed.

Lemma klt_irrefl a : ~ klt a a.
Proof. destruct a as [[? ?] ?]; simpl; lia. Qed.
Lemma klt_trans a b c : klt a b -> klt b c -> klt a c.
Proof. destruct a as [[? ?] ?], b as [[? ?] ?], c as [[? ?] ?]; simpl; lia. Qed.
Lemma klt_total a b : klt a b \/ a = b \/ klt b a.
Proof.
  destruct a as [[a1 a2] a3], b as [[b1 b2] b3]; simpl.
  destruct (Z.lt_total a1 b1) as [?|[->|?]]; [lia| |lia].
  destruct (Z.lt_total a2 b2) as [?|[->|?]]; [lia| |lia].
  destruct (Z.lt_total a3 b3) as [?|[->|?]]; [lia|auto|lia].
Qed.

Lemma SFltb_false_key x y a b : fkey x = Some a -> fkey y = Some b ->
  SFltb x y = false -> ~ klt a b.
Proof.
  intros Ha Hb H Hk.
  assert (SFltb x y = true) by (apply SFltb_key; eauto). congruence.
Qed.

Lemma NumF_laws : OrdLaws NumF.
Proof.
  constructor; simpl; intros.
  - destruct (SFltb x x) eqn:E; auto. apply SFltb_key in E as (a & b & Ha & Hb & H).
    rewrite Ha in Hb; injection Hb as <-. exfalso; eapply klt_irrefl; eauto.
  - apply SFltb_key in H as (a & b & Ha & Hb & H). apply SFltb_key in H0 as (b' & c & Hb' & Hc & H0).
    rewrite Hb in Hb'; injection Hb' as <-. apply SFltb_key. exists a, c. repeat split; auto.
    eapply klt_trans; eauto.
  - destruct (SFltb x z) eqn:E; auto. exfalso.
    apply SFltb_key in E as (a & c & Ha & Hc & E). apply SFeqb_num in H as (b & Hb).
    pose proof (SFltb_false_key _ _ Ha Hb H0) as N1. pose proof (SFltb_false_key _ _ Hb Hc H1) as N2.
    destruct (klt_total a b) as [?|[->|?]]; [tauto|tauto|].
    apply N2. eapply klt_trans; eauto.
  - destruct (SFltb y x) eqn:E; auto. exfalso.
    apply SFltb_key in E as (b & a & Hb & Ha & E). apply SFleb_key in H as (a' & b' & Ha' & Hb' & H).
    rewrite Ha in Ha'; injection Ha' as <-. rewrite Hb in Hb'; injection Hb' as <-.
    destruct H as [H| ->]; [eapply klt_irrefl, klt_trans; eauto|eapply klt_irrefl; eauto].
  - apply SFltb_key in H as (a & b & Ha & Hb & H). apply SFleb_key. eauto 6.
  - apply SFeqb_num in H as (a & Ha). apply SFeqb_num in H0 as (b & Hb).
    pose proof (SFltb_false_key _ _ Ha Hb H1) as N1. apply SFleb_key.
    exists b, a. repeat split; auto. destruct (klt_total a b) as [?|[->|?]]; tauto.
  - apply SFltb_key in H as (a & b & Ha & Hb & H). split; apply SFeqb_num; eauto.
Qed.
