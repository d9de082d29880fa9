(** C50: spherical projection; C71: standardising a vector. *)
From Coq Require Import Reals Lra Lia R_Ifp.
From Verif Require Import Base Num Spec MatrixModel PropertiesMatrix PropertiesArgmax ProcRows PropertiesInverse.
Set Implicit Arguments.
Unset Strict Implicit.

(* ------------------------------------------------------------------ *)
(** * C50 *)

(** squared Euclidean norm of row [r] of a row-major matrix *)
Definition row_norm2 (d : list R) (ncol r : nat) : R :=
  rsum (map (fun c => (ent d ncol r c * ent d ncol r c)%R) (seq 0 ncol)).
(** every non-zero row of [d'] is the unit vector in the direction of that row of [d] *)
Definition projected (d d' : list R) (nrow ncol : nat) : Prop :=
  length d' = length d /\
  forall r, r < nrow -> row_norm2 d ncol r <> 0%R ->
    row_norm2 d' ncol r = 1%R /\
    exists s, (0 < s)%R /\ forall c, c < ncol -> ent d' ncol r c = (s * ent d ncol r c)%R.

(** Whatever the input, there is no access out of bounds and every row except
    the first is returned as it was. *)
Theorem c50_rows_kept : forall (d : list R) nrow ncol, length d = nrow * ncol -> 1 <= ncol ->
  exists d', @spherical_projection NumR d nrow ncol = Ok d' /\ length d' = length d /\
    forall r c, 1 <= r < nrow -> c < ncol -> ent d' ncol r c = ent d ncol r c.
Proof.
  intros d nrow ncol L Hc. unfold spherical_projection.
  pose (P := fun (_ : nat) (x : list (car NumR)) => length x = length d /\
     forall i, ncol <= i -> nth i x 0%R = nth i d 0%R).
  match goal with |- context [loop nrow ?b ?s] => assert (H : okp (loop nrow b s) (P nrow)) end.
  { apply loop_okp.
    - unfold P. auto.
    - intros r x Hr (Lx & K).
      assert (B : r < length x).
      { rewrite Lx, L. nia. }
      assert (S : exists s, loop ncol (fun (_ : nat) (s : car NumR) => let* v := aget x r in
                    Ok (nadd NumR s (nmul NumR v v))) (nzero NumR) = Ok s).
      { match goal with |- exists s, ?l = Ok s => assert (HS : okp l (fun _ => True)) end.
        { apply (@loop_okp _ (fun _ _ => True)); [exact I|]. intros i s Hi _.
          rewrite (aget_nth x (nzero NumR) B). exact I. }
        apply okp_iff in HS as (s & E & _). exists s; exact E. }
      destruct S as (s & Es). rewrite Es. cbn [bind].
      assert (B2 : 0 + ncol <= length x).
      { rewrite Lx, L. nia. }
      rewrite (@loop_mapr _ x 0 ncol (fun _ v => ndiv NumR v (nsqrt NumR s))); [|exact B2|].
      + cbn [okp]. unfold P. split.
        * change (@length (car NumR) (mapr 0 ncol (fun _ v => ndiv NumR v (nsqrt NumR s)) x) = length d).
          rewrite mapr_length by exact B2. exact Lx.
        * intros i Hi. rewrite <- K by exact Hi.
          assert (NE : nth_error (mapr 0 ncol (fun _ v => ndiv NumR v (nsqrt NumR s)) x) i = nth_error x i).
          { rewrite nth_error_mapr by exact B2. cbn [Nat.leb Nat.add andb].
            destruct (Nat.ltb_spec i ncol); [lia|]. reflexivity. }
          transitivity (nth_default 0%R (mapr 0 ncol (fun _ v => ndiv NumR v (nsqrt NumR s)) x) i);
            [symmetry; apply nth_default_eq|].
          transitivity (nth_default 0%R x i); [|apply nth_default_eq].
          unfold nth_default.
          exact (f_equal (fun o => match o with Some v => v | None => 0%R end) NE).
      + intros i l v Hi Ll Hv. rewrite (@amod_ok _ _ _ _ _ Hv). reflexivity. }
  apply okp_iff in H as (d' & E & Ld & K). exists d'. splits; auto.
  intros r c Hr Hcc. unfold ent. apply K. nia.
Qed.

(** one row: every entry is divided by sqrt(ncol * d[0]^2) *)
Lemma project_one_row (d : list (car NumR)) ncol : length d = ncol -> 1 <= ncol ->
  exists d', @spherical_projection NumR d 1 ncol = Ok d' /\ length d' = ncol /\
    forall c, c < ncol -> ent d' ncol 0 c = (ent d ncol 0 c / sqrt (INR ncol * (nth 0 d 0 * nth 0 d 0)))%R.
Proof.
  intros L Hc. unfold spherical_projection.
  unfold loop at 1. cbn [for_].
  assert (E1 : loop ncol (fun (_ : nat) (s : car NumR) => let* v := aget d 0 in
                    Ok (nadd NumR s (nmul NumR v v))) (nzero NumR) = Ok (INR ncol * (nth 0 d 0 * nth 0 d 0))%R).
  { assert (E : forall n, loop n (fun (_ : nat) (s : car NumR) => let* v := aget d 0 in
                    Ok (nadd NumR s (nmul NumR v v))) (nzero NumR) = Ok (INR n * (nth 0 d 0 * nth 0 d 0))%R).
    { induction n as [|n IH].
      - unfold loop; cbn [for_ INR]. f_equal. apply req. change (nzero NumR) with 0%R. ring.
      - rewrite loop_S, IH. cbn [bind]. rewrite (aget_nth d (nzero NumR)) by lia. cbn [bind]. f_equal.
        change (nadd NumR) with Rplus. change (nmul NumR) with Rmult. change (nzero NumR) with 0%R.
        apply req. rewrite S_INR. ring. }
    apply E. }
  rewrite E1. cbn [bind].
  destruct (@loop1_map NumR ncol (fun _ x => (x / sqrt (INR ncol * (nth 0 d 0 * nth 0 d 0)))%R)
     (fun col d0 => amod d0 col (fun x => ndiv NumR x (nsqrt NumR (INR ncol * (nth 0 d 0 * nth 0 d 0))%R))) d L)
     as (d' & E & Ld & C).
  { intros i l x Hi Ll Hx. rewrite (@amod_ok _ _ _ _ _ Hx). reflexivity. }
  rewrite E. cbn [bind]. exists d'. split; [reflexivity|]. split; [exact Ld|].
  intros c Hcc. unfold ent. cbn [Nat.mul Nat.add]. exact (C c Hcc).
Qed.

(** C50, partial: a single row whose coordinates all have the same absolute
    value (in particular any single number) is projected correctly. *)
Theorem c50_projection_partial : forall (d : list R) ncol, length d = ncol -> 1 <= ncol ->
  (forall c, c < ncol -> Rabs (nth c d 0%R) = Rabs (nth 0 d 0%R)) ->
  exists d', @spherical_projection NumR d 1 ncol = Ok d' /\ projected d d' 1 ncol.
Proof.
  intros d ncol L Hc Eq. destruct (@project_one_row d ncol L Hc) as (d' & E & Ld & C).
  exists d'. split; [exact E|]. unfold projected. split; [exact (eq_trans Ld (eq_sym L))|].
  intros r Hr NZ. assert (r = 0) by lia. subst r.
  set (q := (INR ncol * (nth 0 d 0 * nth 0 d 0))%R) in *.
  change (forall c, c < ncol -> ent d' ncol 0 c = (ent d ncol 0 c / sqrt q)%R) in C.
  assert (SQ : forall c, c < ncol -> (ent d ncol 0 c * ent d ncol 0 c = nth 0 d 0 * nth 0 d 0)%R).
  { intros c Hcc. unfold ent. cbn [Nat.mul Nat.add].
    change (Rsqr (nth c d 0%R) = Rsqr (nth 0 d 0%R)). rewrite (Rsqr_abs (nth c d 0%R)), (Rsqr_abs (nth 0 d 0%R)), Eq by exact Hcc. reflexivity. }
  assert (NQ : row_norm2 d ncol 0 = q).
  { unfold row_norm2. rewrite (@rsum_ext _ _ (fun _ => (nth 0 d 0 * nth 0 d 0)%R)).
    - unfold q. clear. generalize 0 at 3. induction ncol as [|n IH]; intros s.
      + cbn. ring.
      + change (seq s (S n)) with (s :: seq (S s) n). rewrite map_cons. cbn [rsum].
        rewrite IH, S_INR. ring.
    - intros c Hcc. apply in_seq in Hcc. apply SQ. lia. }
  rewrite NQ in NZ.
  assert (N0 : (0 < INR ncol)%R) by (apply lt_0_INR; lia).
  assert (Q0 : (0 < q)%R).
  { unfold q. apply Rmult_lt_0_compat; [exact N0|].
    assert (X : (nth 0 d 0 <> 0)%R) by (intros X; apply NZ; unfold q; rewrite X; ring).
    pose proof (Rlt_0_sqr _ X) as Y. exact Y. }
  assert (S0 : (0 < sqrt q)%R) by (apply sqrt_lt_R0; exact Q0).
  split.
  - unfold row_norm2. rewrite (@rsum_ext _ _ (fun c => (/ q * (ent d ncol 0 c * ent d ncol 0 c))%R)).
    + assert (SC : forall (l : list nat) f, rsum (map (fun c => (/ q * f c)%R) l) = (/ q * rsum (map f l))%R).
      { clear. induction l as [|x l IH]; intros f; cbn [map rsum]; [ring|]. rewrite IH. ring. }
      rewrite (SC _ (fun c => (ent d ncol 0 c * ent d ncol 0 c)%R)).
      change (rsum (map (fun c => (ent d ncol 0 c * ent d ncol 0 c)%R) (seq 0 ncol))) with (row_norm2 d ncol 0).
      rewrite NQ. field. lra.
    + intros c Hcc. apply in_seq in Hcc. rewrite C by lia.
      assert (SQQ : (/ q = / sqrt q * / sqrt q)%R).
      { rewrite <- (sqrt_sqrt q) at 1 by lra. field. lra. }
      rewrite SQQ. unfold Rdiv. ring.
  - exists (/ sqrt q)%R. split; [apply Rinv_0_lt_compat; exact S0|].
    intros c Hcc. rewrite C by exact Hcc. unfold Rdiv. ring.
Qed.

(** C50 is false already for one row: (3, 4) becomes (3, 4)/sqrt 18, and for two
    rows the second one is not normalised at all. *)
Theorem c50_refuted : exists d d' : list R, length d = 2 /\
  @spherical_projection NumR d 1 2 = Ok d' /\ ~ projected d d' 1 2.
Proof.
  exists [3; 4]%R. destruct (@project_one_row [3; 4]%R 2 eq_refl ltac:(lia)) as (d' & E & Ld & C).
  exists d'. splits; auto. intros (_ & P). destruct (P 0 ltac:(lia)) as (K & _).
  - unfold row_norm2, ent. cbn [seq map rsum Nat.mul Nat.add nth]. lra.
  - unfold row_norm2 in K. cbn [seq map rsum] in K. rewrite (C 0), (C 1) in K by lia.
    unfold ent in K. cbn [Nat.mul Nat.add nth INR] in K.
    replace ((1 + 1) * (3 * 3))%R with 18%R in K by ring.
    assert (S : (sqrt 18 * sqrt 18 = 18)%R) by (apply sqrt_sqrt; lra).
    assert (S0 : (0 < sqrt 18)%R) by (apply sqrt_lt_R0; lra).
    assert (X : (3 / sqrt 18 * (3 / sqrt 18) + (4 / sqrt 18 * (4 / sqrt 18) + 0) = 25 / (sqrt 18 * sqrt 18))%R)
      by (field; lra).
    rewrite X, S in K. lra.
Qed.

Theorem c50_second_row_refuted : exists d d' : list R, length d = 4 /\
  @spherical_projection NumR d 2 2 = Ok d' /\ ~ projected d d' 2 2.
Proof.
  exists [1; 1; 2; 2]%R. destruct (@c50_rows_kept [1; 1; 2; 2]%R 2 2 eq_refl ltac:(lia)) as (d' & E & Ld & K).
  exists d'. splits; auto. intros (_ & P). destruct (P 1 ltac:(lia)) as (Q & _).
  - unfold row_norm2, ent. cbn [seq map rsum Nat.mul Nat.add nth]. lra.
  - unfold row_norm2 in Q. cbn [seq map rsum] in Q. rewrite !(K 1) in Q by lia.
    unfold ent in Q. cbn [Nat.mul Nat.add nth] in Q. lra.
Qed.

(** Non-vacuity of [c50_projection_partial]. *)
Example c50_ex : forall c, c < 3 -> Rabs (nth c [2; -2; 2]%R 0%R) = Rabs (nth 0 [2; -2; 2]%R 0%R).
Proof.
  intros c Hc. destruct c as [|[|[|c]]]; [| | |lia]; cbn [nth]; try reflexivity. apply Rabs_Ropp.
Qed.

(* ------------------------------------------------------------------ *)
(** * C71: scale *)

(** conversion double -> int: round towards 0 *)
Definition truncates (trunc : R -> Z) : Prop := forall x,
  ((0 <= x)%R -> (IZR (trunc x) <= x < IZR (trunc x) + 1)%R) /\
  ((x <= 0)%R -> (IZR (trunc x) - 1 < x <= IZR (trunc x))%R).
Definition mean_of (v : list R) : R := (rsum v / INR (length v))%R.
Definition variance_of (v : list R) : R :=
  (rsum (map (fun x => (x - mean_of v) * (x - mean_of v))%R v) / INR (length v))%R.
(** every partial sum is a 32-bit integer *)
Definition integer_prefixes (v : list R) : Prop :=
  forall m, m <= length v -> exists k : Z, (- 2 ^ 31 <= k < 2 ^ 31)%Z /\ rsum (firstn m v) = IZR k.

Lemma trunc_exists : exists trunc, truncates trunc.
Proof.
  exists (fun x => if Rle_dec 0 x then Int_part x else (- Int_part (- x))%Z). intros x.
  destruct (base_Int_part x) as (A & B). destruct (base_Int_part (- x)) as (C & D).
  split; intros H; destruct (Rle_dec 0 x) as [K|K]; try lra.
  - assert (x = 0)%R by lra. subst x.
    assert (E : Int_part 0 = 0%Z).
    { assert (0 <= Int_part 0)%Z by (apply Z.lt_succ_r; apply lt_IZR; rewrite succ_IZR; lra).
      assert (Int_part 0 <= 0)%Z by (apply le_IZR; lra). lia. }
    rewrite E. lra.
  - rewrite opp_IZR. lra.
Qed.

Lemma trunc_int trunc k : truncates trunc -> trunc (IZR k) = k.
Proof.
  intros H. destruct (H (IZR k)) as (A & B).
  destruct (Rle_dec 0 (IZR k)) as [K|K].
  - destruct (A K) as (A1 & A2). apply le_IZR in A1. rewrite <- plus_IZR in A2. apply lt_IZR in A2. lia.
  - destruct (B ltac:(lra)) as (A1 & A2). apply le_IZR in A2. rewrite <- minus_IZR in A1. apply lt_IZR in A1. lia.
Qed.

(** what the code does once the integer sum is known *)
Lemma scale_from trunc (v : list (car NumR)) s : 1 <= length v ->
  @accumulate_int NumR trunc v = Ok s ->
  let m := (IZR s / INR (length v))%R in
  let ss := rsum (map (fun x => (x - m) * (x - m))%R v) in
  (ss = 0%R -> @scale NumR trunc v = Err Abort) /\
  (ss <> 0%R -> exists v', @scale NumR trunc v = Ok v' /\ length v' = length v /\
    forall i, i < length v -> nth i v' 0%R = ((nth i v 0 - m) / sqrt (ss / INR (length v)))%R).
Proof.
  intros L E m ss. unfold scale. rewrite E. cbn [bind].
  assert (EM : ndiv NumR (nofZ NumR s) (nofZ NumR (Z.of_nat (length v))) = m).
  { change (@eq R (IZR s / IZR (Z.of_nat (@length (car NumR) v))) m)%R. rewrite <- INR_IZR_INZ. reflexivity. }
  rewrite EM.
  match goal with |- context [loop (length v) ?b (nzero NumR)] => set (bd := b) end.
  assert (E2 : forall n, n <= length v ->
     loop n bd (nzero NumR) = Ok (rsum (map (fun x => (x - m) * (x - m))%R (firstn n v)))).
  { induction n as [|n IH]; intros Hn; [reflexivity|]. rewrite loop_S, IH by lia. cbn [bind]. unfold bd.
    rewrite (aget_nth v (nzero NumR)) by lia. cbn [bind]. cbv zeta. f_equal.
    assert (F : firstn (S n) v = firstn n v ++ [nth n v (nzero NumR)]).
    { clear -Hn. revert n Hn. induction v as [|x v IH]; intros n Hn; cbn [length] in Hn; [lia|].
      destruct n as [|n]; [reflexivity|]. cbn [nth]. rewrite !firstn_cons. rewrite (IH n) by lia. reflexivity. }
    rewrite F. rewrite (@map_app R R), rsum_app. cbn [map rsum].
    change (nadd NumR) with Rplus. change (nmul NumR) with Rmult. change (nsub NumR) with Rminus. change (nzero NumR) with 0%R. apply req. ring. }
  rewrite (E2 (length v)) by lia. rewrite firstn_all. cbn [bind]. fold ss.
  assert (EL : nofZ NumR (Z.of_nat (length v)) = INR (length v)) by (symmetry; apply INR_IZR_INZ).
  rewrite EL. change (ndiv NumR) with Rdiv. change (nsub NumR) with Rminus.
  assert (LP : (0 < INR (length v))%R) by (apply lt_0_INR; lia).
  assert (SS : (0 <= ss)%R).
  { unfold ss. generalize m. clear. intros m. induction v as [|x v IH]; cbn [map rsum]; [lra|].
    pose proof (Rle_0_sqr (x - m)) as Y. unfold Rsqr in Y. apply Rplus_le_le_0_compat; [exact Y|exact IH]. }
  change (nsqrt NumR) with R_sqrt.sqrt. change (neqb NumR) with Reqb. change (nzero NumR) with 0%R. split; intros H.
  - rewrite H. replace (0 / INR (length v))%R with 0%R by (unfold Rdiv; ring). rewrite sqrt_0.
    assert (Z : Reqb 0 0 = true) by (apply Reqb_true; reflexivity). rewrite Z. reflexivity.
  - assert (P : (0 < ss / INR (length v))%R).
    { apply Rmult_lt_0_compat; [lra|]. apply Rinv_0_lt_compat; exact LP. }
    assert (Q : (0 < sqrt (ss / INR (length v)))%R) by (apply sqrt_lt_R0; exact P).
    destruct (Reqb (sqrt (ss / INR (length v))) 0) eqn:Z; [apply Reqb_true in Z; lra|].
    cbn [negb assert_ bind].
    destruct (@loop1_map NumR (length v) (fun _ x => ((x - m) / sqrt (ss / INR (length v)))%R)
       (fun i v0 => amod v0 i (fun x => ((x - m) / sqrt (ss / INR (length v)))%R)) v eq_refl) as (v' & E3 & L3 & C).
    { intros i l x Hi Ll Hx. rewrite (@amod_ok _ _ _ _ _ Hx). reflexivity. }
    exists v'. splits; auto.
Qed.

Lemma rsum_nth_seq (v : list R) : rsum v = rsum (map (fun i => nth i v 0%R) (seq 0 (length v))).
Proof.
  f_equal. apply nth_ext with (d := 0%R) (d' := nth 0 v 0%R).
  - rewrite map_length, seq_length. reflexivity.
  - intros n Hn. rewrite (map_nth (fun i => nth i v 0%R)), seq_nth by exact Hn. reflexivity.
Qed.

(** C71, partial: when every partial sum is an integer that fits in an [int],
    a non-constant vector is standardised to mean 0 and variance 1, each entry
    being mapped by the same increasing affine map. *)
Theorem c71_scale_partial : forall trunc (v : list R), truncates trunc -> 1 <= length v ->
  integer_prefixes v -> variance_of v <> 0%R ->
  exists v', @scale NumR trunc v = Ok v' /\ length v' = length v /\
    mean_of v' = 0%R /\ variance_of v' = 1%R /\
    forall i, i < length v -> nth i v' 0%R = ((nth i v 0 - mean_of v) / sqrt (variance_of v))%R.
Proof.
  intros trunc v T L I V.
  assert (A : exists s, @accumulate_int NumR trunc v = Ok s /\ IZR s = rsum v).
  { unfold accumulate_int.
    pose (P := fun (rest : list (car NumR)) (acc : Z) => exists m, m <= length v /\ v = firstn m v ++ rest /\
       IZR acc = rsum (firstn m v)).
    match goal with |- context [for_each v ?b ?s] => assert (H : okp (for_each v b s) (P [])) end.
    { apply for_each_okp.
      - exists 0. splits; [lia|reflexivity|reflexivity].
      - intros x rest acc (m & Hm & Ev & Ea).
        assert (LM : length (firstn m v) = m) by (apply firstn_length_le; exact Hm).
        assert (Hm1 : S m <= length v).
        { apply (f_equal (@length R)) in Ev. rewrite app_length in Ev. cbn [length] in Ev. lia. }
        assert (F : firstn (S m) v = firstn m v ++ [x]).
        { rewrite Ev at 1. rewrite firstn_app, LM. replace (S m - m) with 1 by lia.
          rewrite firstn_all2 by lia. reflexivity. }
        destruct (I (S m) Hm1) as (k & Hk & Ek).
        change (nadd NumR (nofZ NumR acc) x) with (IZR acc + x)%R.
        assert (X : (IZR acc + x)%R = IZR k).
        { rewrite <- Ek, F, rsum_app, Ea. cbn [rsum]. change (@eq R (rsum (firstn m v) + x) (rsum (firstn m v) + (x + 0)))%R. ring. }
        rewrite X, (trunc_int k T).
        assert (IO : int_ok k = true).
        { unfold int_ok. apply andb_true_intro. split; [apply Z.leb_le|apply Z.ltb_lt]; lia. }
        rewrite IO. cbn [okp]. exists (S m). splits; [exact Hm1| |].
        + rewrite F, <- app_assoc. exact Ev.
        + symmetry. exact Ek. }
    apply okp_iff in H as (s & E & m & Hm & Ev & Es). exists s. split; [exact E|].
    rewrite app_nil_r in Ev. rewrite Es. rewrite <- Ev. reflexivity. }
  destruct A as (s & E & Es).
  destruct (@scale_from trunc v s L E) as (_ & K). cbv zeta in K.
  change (@length (car NumR) v) with (@length R v) in K.
  assert (M : (IZR s / INR (length v))%R = mean_of v) by (unfold mean_of; rewrite Es; reflexivity).
  rewrite M in K.
  assert (LP : (0 < INR (length v))%R) by (apply lt_0_INR; lia).
  assert (SS : rsum (map (fun x : R => ((x - mean_of v) * (x - mean_of v))%R) v) <> 0%R).
  { intros Z. apply V. unfold variance_of. rewrite Z. unfold Rdiv. ring. }
  destruct (K SS) as (v' & E' & L' & C). fold (variance_of v) in C.
  change (@length (car NumR) v' = @length R v) in L'.
  exists v'. split; [exact E'|]. split; [exact L'|].
  assert (VP : (0 < variance_of v)%R).
  { assert (0 <= rsum (map (fun x : R => ((x - mean_of v) * (x - mean_of v))%R) v))%R.
    { generalize (mean_of v). clear. intros m. induction v as [|x v IH]; cbn [map rsum]; [lra|].
      pose proof (Rle_0_sqr (x - m)) as Y. unfold Rsqr in Y. lra. }
    apply Rmult_lt_0_compat; [lra|]. apply Rinv_0_lt_compat; exact LP. }
  set (sd := sqrt (variance_of v)) in *.
  assert (S0 : (0 < sd)%R) by (apply sqrt_lt_R0; exact VP).
  assert (S2 : (sd * sd = variance_of v)%R) by (apply sqrt_sqrt; lra).
  assert (NL : v' = map (fun x => ((x - mean_of v) / sd)%R) v).
  { apply nth_ext with (d := 0%R) (d' := ((0 - mean_of v) / sd)%R).
    - rewrite map_length. exact L'.
    - intros n Hn. change (n < @length (car NumR) v') in Hn. rewrite (map_nth (fun x => ((x - mean_of v) / sd)%R)).
      apply C. change (n < @length R v). rewrite <- L'. exact Hn. }
  assert (SM : forall l m, rsum (map (fun x => ((x - m) / sd)%R) l) = ((rsum l - INR (length l) * m) / sd)%R).
  { induction l as [|x l IH]; intros m.
    - cbn [map rsum length INR]. field. lra.
    - cbn [map rsum]. rewrite IH. cbn [length]. rewrite S_INR. field. lra. }
  assert (M0 : mean_of v' = 0%R).
  { unfold mean_of at 1. rewrite NL, SM, map_length. unfold mean_of. field. lra. }
  splits.
  - exact M0.
  - unfold variance_of at 1. rewrite M0, NL, map_map, map_length.
    assert (SV : forall l m, rsum (map (fun x => ((x - m) / sd - 0) * ((x - m) / sd - 0))%R l) =
       (rsum (map (fun x => (x - m) * (x - m))%R l) / (sd * sd))%R).
    { induction l as [|x l IH]; intros m; cbn [map rsum]; [|rewrite IH]; field; lra. }
    rewrite SV, S2. unfold variance_of. field. split; first [exact SS | lra].
  - exact C.
Qed.

(** C71 is false in general: (1/2, 3/2) has mean 1, but the integer accumulator
    gives 0 + 1/2 -> 0, 0 + 3/2 -> 1, and the result has mean sqrt 2 / 2. *)
Theorem c71_refuted : forall trunc, truncates trunc ->
  exists v v' : list R, variance_of v <> 0%R /\ @scale NumR trunc v = Ok v' /\ mean_of v' <> 0%R.
Proof.
  intros trunc T. exists [/ 2; 3 / 2]%R.
  assert (T1 : trunc (/ 2)%R = 0%Z).
  { destruct (T (/ 2)%R) as (A & _). destruct (A ltac:(lra)) as (A1 & A2).
    assert (X : (IZR (trunc (/ 2)) < IZR 1)%R) by lra. apply lt_IZR in X.
    assert (Y : (IZR (-1) < IZR (trunc (/ 2)))%R) by lra. apply lt_IZR in Y. lia. }
  assert (T2 : trunc (3 / 2)%R = 1%Z).
  { destruct (T (3 / 2)%R) as (A & _). destruct (A ltac:(lra)) as (A1 & A2).
    assert (X : (IZR (trunc (3 / 2)) < IZR 2)%R) by lra. apply lt_IZR in X.
    assert (Y : (IZR 0 < IZR (trunc (3 / 2)))%R) by lra. apply lt_IZR in Y. lia. }
  assert (A : @accumulate_int NumR trunc [/ 2; 3 / 2]%R = Ok 1%Z).
  { unfold accumulate_int. cbn [for_each].
    change (nadd NumR (nofZ NumR 0) (/ 2)%R) with (0 + / 2)%R. rewrite Rplus_0_l, T1. cbn [int_ok bind Z.leb Z.ltb Z.compare andb].
    change (int_ok 0) with true. cbn [bind].
    change (nadd NumR (nofZ NumR 0) (3 / 2)%R) with (0 + 3 / 2)%R. rewrite Rplus_0_l, T2.
    change (int_ok 1) with true. reflexivity. }
  destruct (@scale_from trunc [/ 2; 3 / 2]%R 1 ltac:(cbn; lia) A) as (_ & K). cbv zeta in K.
  cbn [length INR map rsum] in K.
  assert (SS : (((/ 2 - 1 / (1 + 1)) * (/ 2 - 1 / (1 + 1)) + ((3 / 2 - 1 / (1 + 1)) * (3 / 2 - 1 / (1 + 1)) + 0)) = 1)%R) by lra.
  rewrite SS in K. destruct (K ltac:(lra)) as (v' & E & L & C). exists v'. splits.
  - unfold variance_of, mean_of. cbn [map rsum length INR]. lra.
  - exact E.
  - destruct v' as [|x [|y [|w v']]]; cbn [length] in L; try lia.
    pose proof (C 0 ltac:(lia)) as C0. pose proof (C 1 ltac:(lia)) as C1. cbn [nth] in C0, C1.
    unfold mean_of. cbn [rsum length INR]. rewrite C0, C1.
    assert (S0 : (0 < sqrt (1 / (1 + 1)))%R) by (apply sqrt_lt_R0; lra).
    set (sq := sqrt (1 / (1 + 1))) in *.
    assert (I0 : (0 < / sq)%R) by (apply Rinv_0_lt_compat; exact S0).
    unfold Rdiv. replace (/ 2 - 1 * / (1 + 1))%R with 0%R by lra.
    replace (3 * / 2 - 1 * / (1 + 1))%R with 1%R by lra. lra.
Qed.

(** Non-vacuity of [c71_scale_partial]. *)
Example c71_ex : integer_prefixes [1; 2; 6]%R /\ variance_of [1; 2; 6]%R <> 0%R.
Proof.
  split.
  - intros m Hm. cbn [length] in Hm. destruct m as [|[|[|[|m]]]]; [exists 0%Z|exists 1%Z|exists 3%Z|exists 9%Z|lia];
      (split; [lia|]); cbn [firstn rsum]; lra.
  - unfold variance_of, mean_of. cbn [map rsum length INR]. lra.
Qed.
