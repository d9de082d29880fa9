(** Distances: from pointers to vectors, and their laws over the reals. *)
From Coq Require Import Reals Lra Psatz.
From Verif Require Import Base Num Spec MatLemmas VecLemmas DistModel.
Set Implicit Arguments.

Fixpoint fold2 {A B S} (f : S -> A -> B -> S) (s : S) (x : list A) (y : list B) : S :=
  match x, y with a :: x', b :: y' => fold2 f (f s a b) x' y' | _, _ => s end.

Lemma loop_fold2 {A B St} (f : St -> A -> B -> St) (p : ptr A) (q : ptr B) n x y s :
  slice (fst p) (snd p) n = x -> slice (fst q) (snd q) n = y -> length x = n -> length y = n ->
  loop n (fun i s => let* a := pget p i in let* b := pget q i in Ok (f s a b)) s = Ok (fold2 f s x y).
Proof.
  intros Hx Hy Lx Ly.
  assert (G : forall m i s0, i + m = n ->
     for_ m i (fun i s => let* a := pget p i in let* b := pget q i in Ok (f s a b)) s0
     = Ok (fold2 f s0 (skipn i x) (skipn i y))).
  { induction m as [|m IH]; intros i s0 E.
    - cbn [for_]. rewrite !skipn_all2 by lia. reflexivity.
    - cbn [for_].
      destruct (nth_error x i) as [a|] eqn:Ea; [|apply nth_error_None in Ea; lia].
      destruct (nth_error y i) as [b|] eqn:Eb; [|apply nth_error_None in Eb; lia].
      rewrite (proj2 (pget_ok p i a) (slice_nth_error _ _ _ _ Hx Ea)).
      rewrite (proj2 (pget_ok q i b) (slice_nth_error _ _ _ _ Hy Eb)). cbn [bind].
      rewrite IH by lia.
      assert (Sx : forall (C : Type) (l : list C) k c, nth_error l k = Some c -> skipn k l = c :: skipn (S k) l).
      { clear. intros C l. induction l as [|h t IHl]; intros [|k] c H; simpl in *; try discriminate; [congruence|].
        apply IHl; exact H. }
      rewrite (Sx _ x i a Ea), (Sx _ y i b Eb). reflexivity. }
  unfold loop. rewrite G by lia. reflexivity.
Qed.

(** The distances on vectors, for any arithmetic (same order of operations). *)
Section LDist.
Variable N : Num.
Notation T := (car N).

Definition lsq (x y : list T) : T :=
  fold2 (fun s a b => nadd N s (nmul N (nsub N a b) (nsub N a b))) (nzero N) x y.
Definition ltaxi (x y : list T) : T :=
  fold2 (fun s a b => nadd N s (nabs N (nsub N a b))) (nzero N) x y.
Definition ldot (x y : list T) : T := fold2 (fun s a b => nadd N s (nmul N a b)) (nzero N) x y.
Definition lcos (x y : list T) : T :=
  nsub N (none N) (ndiv N (ldot x y) (nmul N (nsqrt N (ldot x x)) (nsqrt N (ldot y y)))).

Definition ldist (dt : dist_t) (x y : list T) : T :=
  match dt with
  | EUCL => nsqrt N (lsq x y)
  | COS => lcos x y
  | TAXI => ltaxi x y
  | SQEUCL => lsq x y
  end.

Lemma fold2_triple (x y : list T) : forall a b c, length x = length y ->
  fold2 (fun (s : T * T * T) u v => let '(n, l, r) := s in
     (nadd N n (nmul N u v), nadd N l (nmul N u u), nadd N r (nmul N v v))) (a, b, c) x y
  = (fold2 (fun s u v => nadd N s (nmul N u v)) a x y,
     fold2 (fun s u v => nadd N s (nmul N u v)) b x x,
     fold2 (fun s u v => nadd N s (nmul N u v)) c y y).
Proof.
  revert y; induction x as [|u x IH]; intros [|v y] a b c H; simpl in *; try lia; auto.
Qed.

Lemma dist_comp_raw_ok dt (p q : ptr T) n x y :
  slice (fst p) (snd p) n = x -> slice (fst q) (snd q) n = y -> length x = n -> length y = n ->
  dist_comp_raw N p q n dt = Ok (ldist dt x y).
Proof.
  intros Hx Hy Lx Ly. destruct dt; cbn [dist_comp_raw ldist].
  - unfold eucl_dist.
    rewrite (loop_fold2 (fun s a b => nadd N s (nmul N (nsub N a b) (nsub N a b))) p q (nzero N) Hx Hy Lx Ly).
    reflexivity.
  - unfold cos_dist.
    set (g := fun (s : T * T * T) u v => let '(n, l, r) := s in
     (nadd N n (nmul N u v), nadd N l (nmul N u u), nadd N r (nmul N v v))).
    match goal with |- context [loop n ?bd ?s0] =>
      replace (loop n bd s0) with (loop n (fun i s => let* a := pget p i in let* b := pget q i in Ok (g s a b)) s0)
        by (apply for_ext; intros j [[? ?] ?] _; reflexivity) end.
    rewrite (loop_fold2 g p q _ Hx Hy Lx Ly). cbn [bind]. unfold g.
    rewrite fold2_triple by congruence. reflexivity.
  - unfold taxi_dist.
    rewrite (loop_fold2 (fun s a b => nadd N s (nabs N (nsub N a b))) p q (nzero N) Hx Hy Lx Ly). reflexivity.
  - unfold sqeucl_dist.
    rewrite (loop_fold2 (fun s a b => nadd N s (nmul N (nsub N a b) (nsub N a b))) p q (nzero N) Hx Hy Lx Ly).
    reflexivity.
Qed.
End LDist.

(* ------------------------------------------------------------------ *)
(** * The reals *)
Local Open Scope R_scope.

Lemma fold2_sum (g : R -> R -> R) : forall x y s,
  fold2 (fun s a b => s + g a b) s x y = s + rsum (map2 g x y).
Proof.
  induction x as [|a x IH]; intros [|b y] s; simpl; try lra. rewrite IH. lra.
Qed.

Lemma lsq_R x y : lsq NumR x y = sqdist x y.
Proof. unfold lsq, sqdist. simpl. rewrite (fold2_sum (fun a b => (a - b) * (a - b))). lra. Qed.
Lemma ltaxi_R x y : ltaxi NumR x y = tdist x y.
Proof. unfold ltaxi, tdist. simpl. rewrite (fold2_sum (fun a b => Rabs (a - b))). lra. Qed.
Lemma ldot_R x y : ldot NumR x y = dot x y.
Proof. unfold ldot, dot. simpl. rewrite (fold2_sum Rmult). lra. Qed.

Definition rdist (dt : dist_t) (x y : list R) : R :=
  match dt with EUCL => edist x y | COS => cosdis x y | TAXI => tdist x y | SQEUCL => sqdist x y end.

Lemma ldist_R dt x y : ldist NumR dt x y = rdist dt x y.
Proof.
  destruct dt; cbn [ldist rdist].
  - rewrite lsq_R. reflexivity.
  - unfold lcos, cosdis. rewrite !ldot_R. reflexivity.
  - apply ltaxi_R.
  - apply lsq_R.
Qed.

Lemma sqdist_cons a x b y : sqdist (a :: x) (b :: y) = (a - b) * (a - b) + sqdist x y.
Proof. reflexivity. Qed.
Lemma sqdist_pos x y : 0 <= sqdist x y.
Proof.
  unfold sqdist. revert y; induction x as [|a x IH]; intros [|b y]; simpl; try lra.
  specialize (IH y). pose proof (Rle_0_sqr (a - b)) as H. unfold Rsqr in H. lra.
Qed.
Lemma sqdist_sym x y : sqdist x y = sqdist y x.
Proof.
  unfold sqdist. revert y; induction x as [|a x IH]; intros [|b y]; simpl; try lra.
  rewrite IH. lra.
Qed.
Lemma sqdist_refl x : sqdist x x = 0.
Proof. unfold sqdist. induction x as [|a x IH]; simpl; lra. Qed.
Lemma sqdist_zero x y : length x = length y -> sqdist x y = 0 -> x = y.
Proof.
  revert y; induction x as [|a x IH]; intros [|b y] H E; simpl in H; try lia; auto.
  rewrite sqdist_cons in E. pose proof (sqdist_pos x y).
  assert (Hab : a = b) by nra. subst b. f_equal. apply IH; [lia|nra].
Qed.

Lemma edist_pos x y : 0 <= edist x y.
Proof. apply sqrt_pos. Qed.
Lemma edist_sym x y : edist x y = edist y x.
Proof. unfold edist. rewrite sqdist_sym. reflexivity. Qed.
Lemma edist_refl x : edist x x = 0.
Proof. unfold edist. rewrite sqdist_refl. apply sqrt_0. Qed.
Lemma edist_zero x y : length x = length y -> edist x y = 0 -> x = y.
Proof.
  intros H E. apply sqdist_zero; auto. apply sqrt_eq_0; auto. apply sqdist_pos.
Qed.
Lemma edist_sq x y : edist x y * edist x y = sqdist x y.
Proof. unfold edist. apply sqrt_sqrt. apply sqdist_pos. Qed.

(** Cauchy-Schwarz *)
Lemma dot_self_pos x : 0 <= dot x x.
Proof.
  unfold dot. induction x as [|a x IH]; simpl; [lra|].
  pose proof (Rle_0_sqr a) as H. unfold Rsqr in H. lra.
Qed.

Lemma cs_aux t x y : 0 <= dot x x + 2 * t * dot x y + t * t * dot y y \/ length x <> length y.
Proof.
  destruct (Nat.eq_dec (length x) (length y)) as [E|E]; [left|right; exact E].
  revert y E; induction x as [|a x IH]; intros [|b y] E; simpl in E; try lia; unfold dot in *; simpl.
  - lra.
  - specialize (IH y ltac:(lia)). pose proof (Rle_0_sqr (a + t * b)) as H. unfold Rsqr in H. nra.
Qed.

Lemma cauchy_schwarz x y : length x = length y -> dot x y * dot x y <= dot x x * dot y y.
Proof.
  intros E. destruct (Req_dec (dot y y) 0) as [Hy|Hy].
  - (* t -> large *)
    assert (Hxy : dot x y = 0).
    { assert (G : forall t, 0 <= dot x x + 2 * t * dot x y).
      { intros t. destruct (cs_aux t x y) as [H|H]; [|contradiction]. rewrite Hy in H. lra. }
      destruct (Req_dec (dot x y) 0) as [|Hn]; auto. exfalso.
      specialize (G (- (dot x x + 1) / (2 * dot x y))).
      assert (2 * (- (dot x x + 1) / (2 * dot x y)) * dot x y = - (dot x x + 1)) by (field; exact Hn). lra. }
    rewrite Hxy, Hy. lra.
  - pose proof (dot_self_pos y). destruct (cs_aux (- dot x y / dot y y) x y) as [H1|H1]; [|contradiction].
    assert (E1 : dot x x + 2 * (- dot x y / dot y y) * dot x y + - dot x y / dot y y * (- dot x y / dot y y) * dot y y
                 = dot x x - dot x y * dot x y / dot y y) by (field; exact Hy).
    rewrite E1 in H1.
    assert (E2 : dot x y * dot x y = dot x y * dot x y / dot y y * dot y y) by (field; exact Hy).
    rewrite E2. apply Rmult_le_compat_r; lra.
Qed.

(** the squared distance through a third point *)
Lemma sqdist_split x y z : length x = length y -> length y = length z ->
  sqdist x z = sqdist x y + 2 * dot (vsub x y) (vsub y z) + sqdist y z.
Proof.
  revert y z; induction x as [|a x IH]; intros [|b y] [|c z] H1 H2; simpl in *; try lia.
  - unfold sqdist, dot; simpl; lra.
  - rewrite !sqdist_cons. rewrite (IH y z) by lia. unfold vsub, dot; simpl. lra.
Qed.
Lemma dot_vsub x y : dot (vsub x y) (vsub x y) = sqdist x y.
Proof.
  revert y; induction x as [|a x IH]; intros [|b y]; unfold sqdist, dot, vsub in *; simpl; try lra.
  rewrite IH. lra.
Qed.

Lemma edist_triangle x y z : length x = length y -> length y = length z ->
  edist x z <= edist x y + edist y z.
Proof.
  intros H1 H2. unfold edist.
  pose proof (sqdist_pos x y) as P1. pose proof (sqdist_pos y z) as P2. pose proof (sqdist_pos x z) as P3.
  pose proof (sqrt_pos (sqdist x y)) as Q1. pose proof (sqrt_pos (sqdist y z)) as Q2.
  pose proof (sqrt_sqrt _ P1) as S1. pose proof (sqrt_sqrt _ P2) as S2.
  apply Rsqr_incr_0_var; [|lra]. unfold Rsqr. rewrite (sqrt_sqrt _ P3).
  rewrite (sqdist_split x y z H1 H2).
  assert (CS : dot (vsub x y) (vsub y z) <= sqrt (sqdist x y) * sqrt (sqdist y z)).
  { assert (L : length (vsub x y) = length (vsub y z)) by (unfold vsub; rewrite !map2_length; lia).
    pose proof (cauchy_schwarz (vsub x y) (vsub y z) L) as C. rewrite !dot_vsub in C.
    apply Rsqr_incr_0_var; [|apply Rmult_le_pos; lra]. unfold Rsqr.
    replace (sqrt (sqdist x y) * sqrt (sqdist y z) * (sqrt (sqdist x y) * sqrt (sqdist y z)))
      with ((sqrt (sqdist x y) * sqrt (sqdist x y)) * (sqrt (sqdist y z) * sqrt (sqdist y z))) by ring.
    rewrite S1, S2. exact C. }
  nra.
Qed.

Lemma tdist_pos x y : 0 <= tdist x y.
Proof.
  unfold tdist. revert y; induction x as [|a x IH]; intros [|b y]; simpl; try lra.
  specialize (IH y). pose proof (Rabs_pos (a - b)). lra.
Qed.
Lemma tdist_sym x y : tdist x y = tdist y x.
Proof.
  unfold tdist. revert y; induction x as [|a x IH]; intros [|b y]; simpl; try lra.
  rewrite IH, Rabs_minus_sym. lra.
Qed.
Lemma tdist_refl x : tdist x x = 0.
Proof.
  unfold tdist. induction x as [|a x IH]; simpl; [lra|]. rewrite IH.
  replace (a - a) with 0 by lra. rewrite Rabs_R0. lra.
Qed.
Lemma tdist_zero x y : length x = length y -> tdist x y = 0 -> x = y.
Proof.
  revert y; induction x as [|a x IH]; intros [|b y] H E; simpl in H; try lia; auto.
  unfold tdist in E; simpl in E. pose proof (tdist_pos x y) as P. unfold tdist in P.
  pose proof (Rabs_pos (a - b)) as Q.
  assert (Hab : a = b).
  { assert (Z : Rabs (a - b) = 0) by lra. destruct (Req_dec (a - b) 0); [lra|].
    apply Rabs_no_R0 in H0. contradiction. }
  subst b. f_equal. apply IH; [lia|]. unfold tdist. lra.
Qed.
Lemma tdist_triangle x y z : length x = length y -> length y = length z ->
  tdist x z <= tdist x y + tdist y z.
Proof.
  revert y z; induction x as [|a x IH]; intros [|b y] [|c z] H1 H2; simpl in *; try lia.
  - unfold tdist; simpl; lra.
  - unfold tdist in *; simpl. specialize (IH y z ltac:(lia) ltac:(lia)).
    pose proof (Rabs_triang (a - b) (b - c)) as T. replace (a - b + (b - c)) with (a - c) in T by lra. lra.
Qed.

Lemma dot_pos_nonzero x : (exists a, In a x /\ a <> 0) -> 0 < dot x x.
Proof.
  induction x as [|b x IH]; intros (a & Ha & Hn); [destruct Ha|]. unfold dot; simpl.
  pose proof (dot_self_pos x) as P. unfold dot in P.
  destruct Ha as [->|Ha].
  - assert (0 < a * a) by nra. lra.
  - specialize (IH (ex_intro _ a (conj Ha Hn))). unfold dot in IH.
    pose proof (Rle_0_sqr b) as H. unfold Rsqr in H. lra.
Qed.

Lemma cosdis_range x y : length x = length y -> 0 < dot x x -> 0 < dot y y -> 0 <= cosdis x y <= 2.
Proof.
  intros H Px Py. unfold cosdis.
  pose proof (sqrt_lt_R0 _ Px) as Sx. pose proof (sqrt_lt_R0 _ Py) as Sy.
  set (m := sqrt (dot x x) * sqrt (dot y y)). assert (Hm : 0 < m) by (apply Rmult_lt_0_compat; auto).
  pose proof (cauchy_schwarz x y H) as C.
  assert (Hmm : m * m = dot x x * dot y y).
  { unfold m. replace (sqrt (dot x x) * sqrt (dot y y) * (sqrt (dot x x) * sqrt (dot y y)))
      with ((sqrt (dot x x) * sqrt (dot x x)) * (sqrt (dot y y) * sqrt (dot y y))) by ring.
    rewrite !sqrt_sqrt; lra. }
  rewrite <- Hmm in C.
  assert (Hb : - m <= dot x y <= m) by (split; nra).
  assert (-1 <= dot x y / m <= 1).
  { split.
    - apply Rmult_le_reg_r with m; auto. unfold Rdiv. rewrite Rmult_assoc, Rinv_l by lra. lra.
    - apply Rmult_le_reg_r with m; auto. unfold Rdiv. rewrite Rmult_assoc, Rinv_l by lra. lra. }
  lra.
Qed.

Lemma dot_vscale_l a x y : dot (vscale a x) y = a * dot x y.
Proof.
  unfold dot, vscale. revert y; induction x as [|b x IH]; intros [|c y]; simpl; try lra.
  rewrite IH. lra.
Qed.
Lemma dot_comm x y : dot x y = dot y x.
Proof.
  unfold dot. revert y; induction x as [|b x IH]; intros [|c y]; simpl; try lra.
  rewrite IH. lra.
Qed.
Lemma cosdis_sym x y : cosdis x y = cosdis y x.
Proof. unfold cosdis. rewrite (dot_comm x y), (Rmult_comm (sqrt (dot x x))). reflexivity. Qed.

Lemma cosdis_scale a x y : 0 < a -> 0 < dot x x -> 0 < dot y y -> cosdis (vscale a x) y = cosdis x y.
Proof.
  intros Ha Px Py. unfold cosdis. rewrite !dot_vscale_l. rewrite (dot_comm x (vscale a x)), dot_vscale_l.
  replace (a * (a * dot x x)) with ((a * a) * dot x x) by ring.
  rewrite sqrt_mult by nra. rewrite sqrt_square by lra.
  pose proof (sqrt_lt_R0 _ Px) as Sx. pose proof (sqrt_lt_R0 _ Py) as Sy.
  f_equal. field. repeat split; lra.
Qed.
Close Scope R_scope.
