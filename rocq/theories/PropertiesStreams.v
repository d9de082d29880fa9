(** C51: the parallel random streams reproduce the serial stream. *)
From Verif Require Import Base IoModel PartitionModel.
Set Implicit Arguments.
Unset Strict Implicit.

(** Specification: the serial stream is what repeated calls on one freshly
    seeded generator return; [serial g i] is its i-th number (from 0). *)
Section S.
Variables (G T : Type) (draw : G -> T * G).
Fixpoint serial (g : G) (i : nat) : T :=
  match i with 0 => fst (draw g) | S k => serial (snd (draw g)) k end.

Lemma discard_plus a b g : discard draw (a + b) g = discard draw b (discard draw a g).
Proof. revert g; induction a as [|a IH]; intros g; cbn [discard Nat.add]; auto. Qed.

Lemma serial_discard n g i : serial (discard draw n g) i = serial g (n + i).
Proof. revert g; induction n as [|n IH]; intros g; cbn [discard Nat.add serial]; auto. Qed.

Lemma take_length next n g : length (@take G T next n g) = n.
Proof. revert g; induction n as [|n IH]; intros g; cbn [take]; [reflexivity|]. destruct (next g). cbn [length]. auto. Qed.

(** Rank [r] of [p] draws, as its i-th number, the serial number r + i * p. *)
Theorem c51_strided : forall g p r n i d, 1 <= p -> i < n ->
  nth i (take (mpig_next draw p) n (mpig_new draw g r)) d = serial g (r + i * p).
Proof.
  intros g p r n i d Hp. unfold mpig_new. revert g r i. induction n as [|n IH]; intros g r i Hi; [lia|].
  cbn [take]. unfold mpig_next at 1.
  pose proof (serial_discard r g 0) as H0.
  destruct (draw (discard draw r g)) as (x & g') eqn:E.
  destruct i as [|i]; cbn [nth].
  - rewrite Nat.mul_0_l. rewrite <- H0. cbn [serial]. rewrite E. reflexivity.
  - assert (D : discard draw (p - 1) g' = discard draw (r + p) g).
    { rewrite discard_plus. replace p with (1 + (p - 1)) at 2 by lia. rewrite discard_plus. cbn [discard].
      rewrite E. reflexivity. }
    rewrite D. rewrite IH by lia. f_equal. lia.
Qed.

(** Every position of the serial stream is drawn by exactly one rank: the
    strided streams interleave to the serial one. *)
Theorem c51_interleave : forall g p n m d, 1 <= p -> m < n * p ->
  m mod p < p /\ m / p < n /\
  nth (m / p) (take (mpig_next draw p) n (mpig_new draw g (m mod p))) d = serial g m /\
  (forall r i, r < p -> r + i * p = m -> r = m mod p /\ i = m / p).
Proof.
  intros g p n m d Hp Hm.
  assert (A : m mod p < p) by (apply Nat.mod_upper_bound; lia).
  assert (B : m / p < n) by (apply Nat.div_lt_upper_bound; lia).
  splits; auto.
  - rewrite c51_strided by auto. f_equal. pose proof (Nat.div_mod m p ltac:(lia)). lia.
  - intros r i Hr E. pose proof (Nat.div_mod m p ltac:(lia)) as D.
    destruct (Nat.div_mod_unique p i (m / p) r (m mod p)) as (E1 & E2); auto. lia.
Qed.

(** A generator that skipped [s] numbers continues the serial stream at s. *)
Theorem c51_skip : forall g s n,
  take (r123_next draw) n (r123_new draw g s) = map (serial g) (seq s n).
Proof.
  intros g s n. unfold r123_new, r123_next. revert s.
  induction n as [|n IH]; intros s; [reflexivity|].
  cbn [take seq map]. pose proof (serial_discard s g 0) as H0. rewrite Nat.add_0_r in H0. cbn [serial] in H0.
  rewrite <- H0. destruct (draw (discard draw s g)) as (x & g') eqn:E. cbn [fst]. f_equal.
  assert (D : g' = discard draw (S s) g).
  { replace (S s) with (s + 1) by lia. rewrite discard_plus. cbn [discard]. rewrite E. reflexivity. }
  rewrite D. apply IH.
Qed.

(** The processes of an MPI run (process r skips (g_nrow / nprocs) * r numbers
    and draws one per row of its own) together draw exactly the first g_nrow
    numbers of the serial stream, in the order of the global rows. *)
Theorem c51_processes : forall g g_nrow nprocs, 1 <= nprocs ->
  concat (map (fun r => take (r123_next draw)
      (if r =? nprocs - 1 then g_nrow / nprocs + g_nrow mod nprocs else g_nrow / nprocs)
      (r123_new draw g (g_nrow / nprocs * r))) (seq 0 nprocs))
  = map (serial g) (seq 0 g_nrow).
Proof.
  intros g gn np Hp.
  rewrite (map_ext _ (fun r => map (serial g) (seq (gn / np * r)
      (if r =? np - 1 then gn / np + gn mod np else gn / np)))) by (intros; apply c51_skip).
  rewrite <- (@map_map _ _ _ (fun r => seq (gn / np * r) (if r =? np - 1 then gn / np + gn mod np else gn / np)) (map (serial g))).
  rewrite <- concat_map. f_equal.
  set (q := gn / np).
  assert (K : forall m, m <= np - 1 ->
     concat (map (fun r => seq (q * r) (if r =? np - 1 then q + gn mod np else q)) (seq 0 m)) = seq 0 (q * m)).
  { induction m as [|m IH]; intros Hm; [rewrite Nat.mul_0_r; reflexivity|].
    rewrite seq_S, map_app, concat_app, IH by lia. cbn [map concat Nat.add]. rewrite app_nil_r.
    destruct (Nat.eqb_spec m (np - 1)); [lia|]. replace (q * S m) with (q * m + q) by lia.
    rewrite seq_app. reflexivity. }
  assert (NS : seq 0 np = seq 0 (np - 1) ++ [np - 1]).
  { replace np with (S (np - 1)) at 1 by lia. rewrite seq_S. reflexivity. }
  rewrite NS, map_app, concat_app, K by lia.
  cbn [map concat Nat.add]. rewrite app_nil_r, Nat.eqb_refl.
  etransitivity; [symmetry; exact (seq_app (q * (np - 1)) (q + gn mod np) 0)|]. f_equal.
  unfold q. pose proof (Nat.div_mod gn np ltac:(lia)). nia.
Qed.
End S.

(** Non-vacuity: the engine of libstdc++'s [default_random_engine]
    (x := 16807 x mod 2^31 - 1) with a distribution on 0..k-1 by remainder. *)
Definition lcg (k : nat) (g : Z) : nat * Z :=
  let g' := (16807 * g mod 2147483647)%Z in (Z.to_nat (g' mod Z.of_nat k), g').
Example c51_ex :
  concat (map (fun r => take (r123_next (lcg 5)) (if r =? 2 then 4 else 3) (r123_new (lcg 5) 1234%Z (3 * r))) (seq 0 3))
  = map (serial (lcg 5) 1234%Z) (seq 0 10) /\
  nth 2 (take (mpig_next (lcg 5) 3) 4 (mpig_new (lcg 5) 1234%Z 1)) 0 = serial (lcg 5) 1234%Z 7.
Proof. split; vm_compute; reflexivity. Qed.
