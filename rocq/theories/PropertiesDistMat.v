(** C128: the pairwise distance matrix (dist_matrix). *)
From Coq Require Import Reals Lra.
From Verif Require Import Base Num Spec DistModel ClustersModel ClustersView PartitionModel ParModel KmeansModel PruneModel.
From Verif Require Import MatLemmas VecLemmas ClustersProofs DistProofs DistMatProofs.
Set Implicit Arguments.

Section P.
Variable N : Num.
Notation T := (car N).
Variables (k ncol : nat) (data : list T) (dt : dist_t).
Hypothesis Hk : 2 <= k.
Hypothesis L : length data = k * ncol.
Hypothesis Hdt : dt <> SQEUCL.
Notation X i := (row data ncol i).

Lemma pair_dist i j : i < k -> j < k -> dist_comp_raw N (data, i * ncol) (data, j * ncol) ncol dt = Ok (ldist N dt (X i) (X j)).
Proof.
  intros Hi Hj. apply dist_comp_raw_ok; cbn [fst snd]; try reflexivity; unfold row; apply slice_length; nia.
Qed.

(** the rows done: all pairs whose smaller index is below [n] *)
Definition pw_inv (n : nat) (m0 m : dist_matrix N) : Prop := dm_ok k m /\
  forall a b, a < b -> b < k -> dmv m a b = if a <? n then ldist N dt (X a) (X b) else dmv m0 a b.

Lemma for_okp {A} (P : nat -> A -> Prop) n : forall st (f : nat -> A -> res A) s, P st s ->
  (forall j a, st <= j < st + n -> P j a -> okp (f j a) (P (S j))) -> okp (for_ n st f s) (P (st + n)).
Proof.
  induction n as [|n IH]; intros st f s H0 Hs; cbn [for_]; [rewrite Nat.add_0_r; exact H0|].
  pose proof (Hs st s ltac:(lia) H0) as H1. destruct (f st s) as [s1|]; [|destruct H1]. cbn [Base.bind okp] in *.
  replace (st + S n) with (S st + n) by lia. apply IH; [exact H1|]. intros j a Hj. apply Hs. lia.
Qed.

Lemma pairwise_ok m0 : dm_ok k m0 -> okp (compute_pairwise_dist data ncol dt m0) (pw_inv k m0).
Proof.
  intros H0. unfold compute_pairwise_dist. pose proof H0 as (_ & Hr & _). rewrite Hr.
  eapply okp_mono; [apply (loop_okp (fun i m => pw_inv i m0 m))|].
  - split; [exact H0|]. intros a b _ _. reflexivity.
  - intros i m Hi (Hm & Hv). pose proof Hm as (_ & Hrm & _). rewrite Hrm. replace (k - 1 + 1 - (i + 1)) with (k - (i + 1)) by lia.
    eapply okp_mono; [apply (for_okp (fun j m' => dm_ok k m' /\ forall a b, a < b -> b < k ->
       dmv m' a b = if (a <? i) || ((a =? i) && (b <? j)) then ldist N dt (X a) (X b) else dmv m0 a b))|].
    + split; [exact Hm|]. intros a b Hab Hb. rewrite (Hv a b Hab Hb). destruct (Nat.ltb_spec a i); cbn [orb]; [reflexivity|].
      destruct (Nat.eqb_spec a i); cbn [andb]; [|reflexivity]. destruct (Nat.ltb_spec b (i + 1)); [lia|reflexivity].
    + intros j m' Hj (Hm' & Hv').
      assert (Es : okp (let* d := dist_comp_raw N (data, i * ncol) (data, j * ncol) ncol dt in dm_set m' i j d) (fun m2 => dm_ok k m2 /\ forall a b, a < b -> b < k ->
        dmv m2 a b = if (a <? i) || ((a =? i) && (b <? S j)) then ldist N dt (X a) (X b) else dmv m0 a b)).
      { rewrite pair_dist by lia. cbn [Base.bind]. destruct (@dm_set_ok N k m' i j (ldist N dt (X i) (X j)) Hm') as (m2 & E & Hm2 & Hv2); try lia.
        rewrite E. cbn [okp]. split; [exact Hm2|]. intros a b Hab Hb. rewrite Hv2 by lia. rewrite !Nat.min_l, !Nat.max_r by lia. rewrite (Hv' a b Hab Hb).
        destruct (Nat.eqb_spec a i) as [->|Ha]; destruct (Nat.eqb_spec b j) as [->|Hb2]; cbn [andb].
        - destruct (Nat.ltb_spec i i); [lia|]. destruct (Nat.ltb_spec j (S j)); [reflexivity|lia].
        - destruct (Nat.ltb_spec b j); destruct (Nat.ltb_spec b (S j)); try lia; reflexivity.
        - reflexivity.
        - reflexivity. }
      destruct dt; [exact Es|exact Es|exact Es|congruence].
    + intros m' (Hm' & Hv'). split; [exact Hm'|]. intros a b Hab Hb. rewrite (Hv' a b Hab Hb).
      destruct (Nat.ltb_spec a i); destruct (Nat.ltb_spec a (S i)); destruct (Nat.eqb_spec a i); cbn [orb andb]; try lia; try reflexivity.
      destruct (Nat.ltb_spec b (i + 1 + (k - (i + 1)))); [reflexivity|lia].
  - intros m (Hm & Hv). split; [exact Hm|]. intros a b Hab Hb. rewrite (Hv a b Hab Hb).
    destruct (Nat.ltb_spec a (k - 1)); destruct (Nat.ltb_spec a k); try lia; reflexivity.
Qed.
End P.

Lemma rdist_sym dt x y : rdist dt x y = rdist dt y x.
Proof. destruct dt; cbn [rdist]; [apply edist_sym|apply cosdis_sym|apply tdist_sym|apply sqdist_sym]. Qed.

Local Open Scope R_scope.
(** The matrix of k >= 2 rows: every pair of different rows has its distance, in
    both orders; the two readers differ on the diagonal. *)
Theorem C128_pairwise : forall k ncol (data : list R) dt m, (2 <= k)%nat -> length data = (k * ncol)%nat -> dt <> SQEUCL ->
  dm_create NumR k = Ok m ->
  exists m', @compute_pairwise_dist NumR data ncol dt m = Ok m' /\
    (forall i j, (i < k)%nat -> (j < k)%nat -> i <> j ->
       dm_pw_get m' i j = Ok (rdist dt (row data ncol i) (row data ncol j)) /\
       dm_get m' i j = Ok (rdist dt (row data ncol i) (row data ncol j))) /\
    (forall i, (i < k)%nat -> dm_pw_get m' i i = Ok 0 /\ dm_get m' i i = Ok (nmax NumR)).
Proof.
  intros k ncol data dt m Hk L Hdt E. destruct (@dm_create_ok NumR k Hk) as (m1 & E1 & H1). assert (Q := eq_trans (eq_sym E) E1). injection Q as <-.
  pose proof (@pairwise_ok NumR k ncol data dt Hk L Hdt m H1) as G. destruct (@compute_pairwise_dist NumR data ncol dt m) as [m'|]; [|destruct G].
  exists m'. split; [reflexivity|]. destruct G as (Hm & Hv). change (car NumR) with R in *.
  assert (V : forall i j, (i < k)%nat -> (j < k)%nat -> i <> j -> dmv m' i j = rdist dt (row data ncol i) (row data ncol j)).
  { intros i j Hi Hj Hne. destruct (Nat.lt_ge_cases i j) as [Hl|Hl].
    - pose proof (Hv i j Hl Hj) as E2. destruct (Nat.ltb_spec i k); [|lia]. etransitivity; [exact E2|]. apply ldist_R.
    - pose proof (Hv j i ltac:(lia) Hi) as E2. destruct (Nat.ltb_spec j k); [|lia]. rewrite dmv_sym, rdist_sym. etransitivity; [exact E2|]. apply ldist_R. }
  split.
  - intros i j Hi Hj Hne. rewrite (@dm_pw_get_ok NumR k m' i j Hm Hi Hj), (@dm_get_ok NumR k m' i j Hm Hi Hj). apply Nat.eqb_neq in Hne as Hb. rewrite Hb, (V i j Hi Hj Hne). auto.
  - intros i Hi. rewrite (@dm_pw_get_ok NumR k m' i i Hm Hi Hi), (@dm_get_ok NumR k m' i i Hm Hi Hi), Nat.eqb_refl. auto.
Qed.

(** squared Euclidean distances are refused *)
Theorem C128_unsupported : forall N k ncol (data : list (car N)) m, (2 <= k)%nat -> dm_create N k = Ok m ->
  compute_pairwise_dist data ncol SQEUCL m = Err Throw.
Proof.
  intros N k ncol data m Hk E. destruct (@dm_create_ok N k Hk) as (m1 & E1 & H1). assert (Q := eq_trans (eq_sym E) E1). injection Q as <-.
  pose proof H1 as (_ & Hr & _). unfold compute_pairwise_dist. rewrite Hr. destruct k as [|[|k]]; try lia. cbn [Nat.sub]. unfold loop. cbn [for_]. rewrite Hr.
  replace (S (S k) - 1 + 1 - (0 + 1))%nat with (S k) by lia. cbn [for_ Base.bind]. reflexivity.
Qed.

(** matrices of fewer than two rows are refused *)
Theorem C128_too_small : forall N k, (k <= 1)%nat -> dm_create N k = Err Abort.
Proof. intros N k H. apply dm_create_small. exact H. Qed.

(** a value written is read back, in either order of the indices, and no other pair changes *)
Theorem C128_set_get : forall N k (m : dist_matrix N) i j v, dm_ok k m -> (i < k)%nat -> (j < k)%nat -> i <> j ->
  exists m', dm_set m i j v = Ok m' /\ dm_ok k m' /\
    dm_get m' i j = Ok v /\ dm_get m' j i = Ok v /\ dm_pw_get m' i j = Ok v /\ dm_pw_get m' j i = Ok v /\
    forall a b, (a < k)%nat -> (b < k)%nat -> ~ (a = i /\ b = j) -> ~ (a = j /\ b = i) -> dm_get m' a b = dm_get m a b /\ dm_pw_get m' a b = dm_pw_get m a b.
Proof.
  intros N k m i j v H Hi Hj Hne. destruct (@dm_set_ok N k m i j v H Hi Hj Hne) as (m' & E & Hm & Hv). exists m'. split; [exact E|]. split; [exact Hm|].
  assert (E1 : dmv m' i j = v) by (rewrite Hv by auto; rewrite !Nat.eqb_refl; reflexivity).
  assert (E2 : dmv m' j i = v) by (rewrite dmv_sym; exact E1).
  apply Nat.eqb_neq in Hne as Hb. assert (Hb' : (j =? i)%nat = false) by (rewrite Nat.eqb_sym; exact Hb).
  rewrite (@dm_get_ok N k m' i j), (@dm_get_ok N k m' j i), (@dm_pw_get_ok N k m' i j), (@dm_pw_get_ok N k m' j i), Hb, Hb', E1, E2 by auto.
  split; [reflexivity|]. split; [reflexivity|]. split; [reflexivity|]. split; [reflexivity|].
  intros a b Ha Hb2 H1 H2. rewrite !(@dm_get_ok N k _ a b), !(@dm_pw_get_ok N k _ a b) by auto. destruct (Nat.eqb_spec a b); [auto|].
  assert (Ev : dmv m' a b = dmv m a b).
  { rewrite Hv by auto. destruct (Nat.eqb_spec (Nat.min a b) (Nat.min i j)); destruct (Nat.eqb_spec (Nat.max a b) (Nat.max i j)); cbn [andb]; try reflexivity; lia. }
  rewrite Ev. auto.
Qed.

(** get_min_dist returns the smallest entry of the row: one of them, and none is
    smaller; it aborts when all of them are the largest value of the type *)
Theorem C128_min : forall N, OrdLaws N -> neqb N (nmax N) (nmax N) = true -> forall k (m : dist_matrix N) i,
  dm_ok k m -> (i < k)%nat ->
  match dm_get_min_dist m i with
  | Ok v => (exists j, (j < k)%nat /\ j <> i /\ dm_get m i j = Ok v) /\
            forall j w, (j < k)%nat -> j <> i -> dm_get m i j = Ok w -> nltb N w v = false
  | Err e => e = Abort /\ forall j w, (j < k)%nat -> j <> i -> dm_get m i j = Ok w -> nltb N w (nmax N) = false
  end.
Proof.
  intros N OL HM k m i H Hi. unfold dm_get_min_dist. pose proof H as (Hk & Hr & _). rewrite Hr. replace (k - 1 + 1)%nat with k by lia.
  set (f := fun col best => if negb (col =? i)%nat then let* v := dm_get m i col in Ok (if nltb N v best then v else best) else Ok best).
  assert (G : okp (loop k f (nmax N)) (fun v => (v = nmax N \/ exists j, (j < k)%nat /\ j <> i /\ dm_get m i j = Ok v /\ nltb N v (nmax N) = true) /\
     forall j w, (j < k)%nat -> j <> i -> dm_get m i j = Ok w -> nltb N w v = false)).
  { apply (loop_okp (fun n v => (v = nmax N \/ exists j, (j < k)%nat /\ j <> i /\ dm_get m i j = Ok v /\ nltb N v (nmax N) = true) /\
     forall j w, (j < n)%nat -> j <> i -> dm_get m i j = Ok w -> nltb N w v = false)).
    - split; [left; reflexivity|]. intros j w Hj. lia.
    - intros n v Hn (H1 & H2). unfold f. destruct (Nat.eqb_spec n i) as [->|Hne]; cbn [negb okp].
      + split; [exact H1|]. intros j w Hj Hji E. apply (H2 j w); auto. lia.
      + pose proof (@dm_get_ok N k m i n H Hi Hn) as E. assert (Hb : (i =? n)%nat = false) by (apply Nat.eqb_neq; auto). rewrite Hb in E. rewrite E. cbn [Base.bind okp].
        destruct (nltb N (dmv m i n) v) eqn:El.
        * split.
          { right. exists n. splits; auto. destruct H1 as [->|(j & _ & _ & _ & Hv)]; [exact El|]. exact (lt_trans OL _ _ _ El Hv). }
          { intros j w Hj Hji Ew. destruct (Nat.eq_dec j n) as [->|]; [rewrite E in Ew; injection Ew as <-; apply (lt_irrefl OL)|].
            specialize (H2 j w ltac:(lia) Hji Ew). destruct (nltb N w (dmv m i n)) eqn:Eq; [|reflexivity]. pose proof (lt_trans OL _ _ _ Eq El). congruence. }
        * split; [exact H1|]. intros j w Hj Hji Ew. destruct (Nat.eq_dec j n) as [->|]; [rewrite E in Ew; injection Ew as <-; exact El|]. apply (H2 j w); auto. lia. }
  destruct (loop k f (nmax N)) as [v|]; [|destruct G]. cbn [okp] in G. destruct G as (H1 & H2). cbn [Base.bind].
  destruct (nltb N v (nmax N)) eqn:Ev; cbn [assert_ Base.bind].
  - split; [|exact H2]. destruct H1 as [->|(j & Hj & Hji & E & _)]; [rewrite (lt_irrefl OL) in Ev; discriminate|]. exists j. auto.
  - split; [reflexivity|]. destruct H1 as [->|(j & _ & _ & _ & Hv)]; [exact H2|congruence].
Qed.

(** three rows that meet the hypotheses: 0, 3 and 7 on a line *)
Example C128_example : exists m m', dm_create NumR 3 = Ok m /\ @compute_pairwise_dist NumR [0; 3; 7] 1 TAXI m = Ok m' /\
  dm_pw_get m' 0 1 = Ok 3 /\ dm_pw_get m' 2 1 = Ok 4 /\ dm_get m' 2 0 = Ok 7 /\ dm_ok 3 m'.
Proof.
  destruct (@dm_create_ok NumR 3 ltac:(lia)) as (m & E & H). pose proof (@pairwise_ok NumR 3 1 [0; 3; 7] TAXI ltac:(lia) eq_refl ltac:(discriminate) m H) as G.
  destruct (@C128_pairwise 3 1 [0; 3; 7] TAXI m ltac:(lia) eq_refl ltac:(discriminate) E) as (m' & E' & Hv & _).
  exists m, m'. split; [exact E|]. split; [exact E'|]. change (list R) with (list (car NumR)) in *.
  assert (T : forall a b : R, rdist TAXI [a] [b] = Rabs (a - b)) by (intros a b; cbn; lra).
  destruct (Hv 0%nat 1%nat) as (A & _); try lia. destruct (Hv 2%nat 1%nat) as (B & _); try lia. destruct (Hv 2%nat 0%nat) as (_ & C); try lia.
  cbn [row slice firstn skipn Nat.mul Nat.add] in A, B, C.
  split; [etransitivity; [exact A|]; f_equal; etransitivity; [apply T|]; unfold Rabs; destruct (Rcase_abs _); lra|].
  split; [etransitivity; [exact B|]; f_equal; etransitivity; [apply T|]; unfold Rabs; destruct (Rcase_abs _); lra|].
  split; [etransitivity; [exact C|]; f_equal; etransitivity; [apply T|]; unfold Rabs; destruct (Rcase_abs _); lra|].
  match type of G with okp ?u _ => change u with (compute_pairwise_dist (N := NumR) [0; 3; 7] 1 TAXI m) in G end.
  match type of E' with ?u = _ => change (okp u (@pw_inv NumR 3 1 [0; 3; 7] TAXI 3 m)) in G end. rewrite E' in G. apply G.
Qed.
