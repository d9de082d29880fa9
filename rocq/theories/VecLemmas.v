(** Lemmas about real vectors represented as lists. *)
From Verif Require Import Base Spec MatLemmas.
From Coq Require Import Reals Lra Permutation.
Set Implicit Arguments.
Local Open Scope R_scope.

Lemma vadd_length x y : length (vadd x y) = Nat.min (length x) (length y).
Proof. apply map2_length. Qed.
Lemma vzero_length n : length (vzero n) = n.
Proof. apply repeat_length. Qed.

Lemma nth_vadd x y i : length x = length y -> nth i (vadd x y) 0 = nth i x 0 + nth i y 0.
Proof.
  revert y i; induction x as [|a x IH]; intros [|b y] [|i] H; simpl in *; try lra; try lia.
  apply IH; lia.
Qed.
Lemma nth_vsub x y i : length x = length y -> nth i (vsub x y) 0 = nth i x 0 - nth i y 0.
Proof.
  revert y i; induction x as [|a x IH]; intros [|b y] [|i] H; simpl in *; try lra; try lia.
  apply IH; lia.
Qed.
Lemma nth_vzero n i : nth i (vzero n) 0 = 0.
Proof. unfold vzero. revert i; induction n as [|n IH]; intros [|i]; simpl; auto. Qed.

Lemma vadd_comm x y : vadd x y = vadd y x.
Proof.
  revert y; induction x as [|a x IH]; intros [|b y]; simpl; auto. unfold vadd in *.
  simpl. rewrite IH. f_equal. lra.
Qed.
Lemma vadd_assoc x y z : vadd x (vadd y z) = vadd (vadd x y) z.
Proof.
  revert y z; induction x as [|a x IH]; intros [|b y] [|c z]; simpl; auto. unfold vadd in *.
  simpl. rewrite IH. f_equal. lra.
Qed.
Lemma vadd_zero_r x n : length x = n -> vadd x (vzero n) = x.
Proof.
  intros <-. induction x as [|a x IH]; simpl; auto. unfold vadd, vzero in *. simpl.
  rewrite IH. f_equal. lra.
Qed.
Lemma vadd_zero_l x n : length x = n -> vadd (vzero n) x = x.
Proof. intros H. rewrite vadd_comm. apply vadd_zero_r; exact H. Qed.
Lemma vadd_vsub x y : length x = length y -> vsub (vadd x y) y = x.
Proof.
  revert y; induction x as [|a x IH]; intros [|b y] H; simpl in *; auto; try lia.
  unfold vsub, vadd in *. simpl. rewrite IH by lia. f_equal. lra.
Qed.
Lemma vsub_vadd x y : length x = length y -> vadd (vsub x y) y = x.
Proof.
  revert y; induction x as [|a x IH]; intros [|b y] H; simpl in *; auto; try lia.
  unfold vsub, vadd in *. simpl. rewrite IH by lia. f_equal. lra.
Qed.
Lemma vsub_is_vadd x y : length x = length y -> vsub x y = vadd x (map Ropp y).
Proof.
  revert y; induction x as [|a x IH]; intros [|b y] H; simpl in *; auto; try lia.
  unfold vsub, vadd in *. simpl. rewrite IH by lia. f_equal.
Qed.

Definition alldim (n : nat) (l : list (list R)) : Prop := Forall (fun r => length r = n) l.

Lemma vsum_length n l : alldim n l -> length (vsum n l) = n.
Proof.
  induction 1 as [|r l Hr _ IH]; simpl; [apply vzero_length|].
  rewrite vadd_length. change (fold_right vadd (vzero n) l) with (vsum n l). lia.
Qed.

Lemma vsum_app n l m : alldim n l -> alldim n m -> vsum n (l ++ m) = vadd (vsum n l) (vsum n m).
Proof.
  intros Hl Hm. induction Hl as [|r l Hr Hl IH]; simpl.
  - rewrite vadd_zero_l; [reflexivity|]. apply vsum_length; auto.
  - unfold vsum in *. rewrite IH. apply vadd_assoc.
Qed.

Lemma vsum_perm n l m : Permutation l m -> vsum n l = vsum n m.
Proof.
  induction 1; simpl; auto; try congruence.
  unfold vsum; simpl. rewrite !vadd_assoc. f_equal. apply vadd_comm.
Qed.

Lemma vsum_cons n r l : vsum n (r :: l) = vadd r (vsum n l).
Proof. reflexivity. Qed.

Lemma nth_vsum n l i : alldim n l -> nth i (vsum n l) 0 = rsum (map (fun r => nth i r 0) l).
Proof.
  induction 1 as [|r l Hr Hl IH]; simpl.
  - apply nth_vzero.
  - change (fold_right vadd (vzero n) l) with (vsum n l).
    rewrite nth_vadd by (rewrite vsum_length; auto). rewrite IH. reflexivity.
Qed.

Lemma rsum_app l m : rsum (l ++ m) = rsum l + rsum m.
Proof. induction l; simpl; lra. Qed.
Lemma rsum_map_plus {A} (f g : A -> R) l : rsum (map (fun a => f a + g a) l) = rsum (map f l) + rsum (map g l).
Proof. induction l; simpl; lra. Qed.
Lemma rsum_map_minus {A} (f g : A -> R) l : rsum (map (fun a => f a - g a) l) = rsum (map f l) - rsum (map g l).
Proof. induction l; simpl; lra. Qed.
Lemma rsum_map_scale {A} c (f : A -> R) l : rsum (map (fun a => c * f a) l) = c * rsum (map f l).
Proof. induction l; simpl; lra. Qed.
Lemma rsum_map_const {A} c (l : list A) : rsum (map (fun _ => c) l) = INR (length l) * c.
Proof. induction l; simpl length; [simpl; lra|]. cbn [map rsum]. rewrite IHl, S_INR. lra. Qed.
Lemma rsum_le {A} (f g : A -> R) l : (forall a, In a l -> f a <= g a) -> rsum (map f l) <= rsum (map g l).
Proof.
  induction l as [|a l IH]; intros H; simpl; [lra|].
  pose proof (H a (or_introl eq_refl)). pose proof (IH (fun b Hb => H b (or_intror Hb))). lra.
Qed.
Lemma rsum_lt {A} (f g : A -> R) l : (forall a, In a l -> f a <= g a) ->
  (exists a, In a l /\ f a < g a) -> rsum (map f l) < rsum (map g l).
Proof.
  induction l as [|a l IH]; intros H (b & Hb & Hlt); simpl; [destruct Hb|].
  pose proof (H a (or_introl eq_refl)).
  destruct Hb as [->|Hb].
  - pose proof (@rsum_le _ f g l (fun b Hb => H b (or_intror Hb))). lra.
  - pose proof (IH (fun b Hb => H b (or_intror Hb)) (ex_intro _ b (conj Hb Hlt))). lra.
Qed.
Lemma rsum_nonneg l : (forall x, In x l -> 0 <= x) -> 0 <= rsum l.
Proof.
  induction l as [|a l IH]; intros H; simpl; [lra|].
  pose proof (H a (or_introl eq_refl)). pose proof (IH (fun b Hb => H b (or_intror Hb))). lra.
Qed.
Lemma rsum_perm l m : Permutation l m -> rsum l = rsum m.
Proof. induction 1; simpl; lra. Qed.
Lemma rsum_ext {A} (f g : A -> R) l : (forall a, In a l -> f a = g a) -> rsum (map f l) = rsum (map g l).
Proof.
  induction l as [|a l IH]; intros H; simpl; [lra|].
  rewrite (H a (or_introl eq_refl)), (IH (fun b Hb => H b (or_intror Hb))). lra.
Qed.

Lemma vec_ext n x y : length x = n -> length y = n -> (forall i, (i < n)%nat -> nth i x 0 = nth i y 0) -> x = y.
Proof. intros H1 H2 H. apply (nth_ext x y 0 0); [congruence|]. intros i Hi. apply H. lia. Qed.

(** replacing one vector of a sum *)
Lemma vsum_upd n l i v : alldim n l -> length v = n -> (i < length l)%nat ->
  vsum n (upd l i v) = vadd (vsub (vsum n l) (nth i l [])) v.
Proof.
  intros Hl Hv. revert i. induction Hl as [|r l Hr Hl IH]; intros [|i] Hi; simpl in Hi; try lia.
  - cbn [upd nth]. rewrite !vsum_cons. rewrite (vadd_comm r), vadd_vsub by (rewrite vsum_length; auto).
    apply vadd_comm.
  - cbn [upd nth]. rewrite !vsum_cons, IH by lia.
    assert (Hn : length (nth i l []) = n).
    { apply (proj1 (Forall_forall _ _) Hl). apply nth_In. lia. }
    pose proof (vsum_length Hl) as Hs.
    rewrite !vsub_is_vadd; rewrite ?vadd_length; try lia.
    rewrite !vadd_assoc. reflexivity.
Qed.

Lemma swap_total S ra rb x d :
  length S = d -> length ra = d -> length rb = d -> length x = d ->
  vadd (vsub (vadd (vsub S ra) (vsub ra x)) rb) (vadd rb x) = S.
Proof.
  revert S ra rb x. induction d as [|d IH]; intros [|s S] [|a ra] [|b rb] [|c x] H1 H2 H3 H4;
    simpl in *; try lia; auto.
  unfold vadd, vsub in *. simpl. rewrite IH by lia. f_equal. lra.
Qed.
