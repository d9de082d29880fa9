(** The nearest-centroid search. *)
From Verif Require Import Base Num Spec DistModel ClustersModel KmeansModel MatLemmas DistProofs.
Set Implicit Arguments.

Section Near.
Variable N : Num.
Notation T := (car N).

Fixpoint near_from (dt : dist_t) (x : list T) (i : nat) (best : option nat * T) (cs : list (list T))
  : option nat * T :=
  match cs with
  | [] => best
  | c :: cs' =>
    let d := ldist N dt x c in
    near_from dt x (S i) (if nltb N d (snd best) then (Some i, d) else best) cs'
  end.
Definition near dt (cs : list (list T)) (x : list T) : option nat * T :=
  near_from dt x 0 (None, nmax N) cs.

Lemma find_nearest_for dt (x : ptr T) xv means ncol k : 
  slice (fst x) (snd x) ncol = xv -> length xv = ncol -> length means = k * ncol ->
  forall n i best, i + n = k ->
  for_ n i (fun clust_idx (s : option nat * T) =>
    let* dist := dist_comp_raw N x (means, clust_idx * ncol) ncol dt in
    if nltb N dist (snd s) then Ok (Some clust_idx, dist) else Ok s) best
  = Ok (near_from dt xv i best (map (row means ncol) (seq i n))).
Proof.
  intros Hx Lx Lm. induction n as [|n IH]; intros i best Hi; cbn [for_ seq map near_from]; [reflexivity|].
  assert (Lr : length (row means ncol i) = ncol) by (apply (@row_length _ means ncol i k); lia).
  rewrite (@dist_comp_raw_ok N dt x (means, i * ncol) ncol xv (row means ncol i) Hx eq_refl Lx Lr).
  cbn [bind].
  destruct (nltb N (ldist N dt xv (row means ncol i)) (snd best)); cbn [bind]; apply IH; lia.
Qed.

Lemma find_nearest_ok dt (x : ptr T) xv means ncol k :
  slice (fst x) (snd x) ncol = xv -> length xv = ncol -> length means = k * ncol ->
  find_nearest N x means ncol k dt = Ok (near dt (rows k ncol means) xv).
Proof.
  intros Hx Lx Lm. unfold find_nearest, loop.
  rewrite (@find_nearest_for dt x xv means ncol k Hx Lx Lm k 0) by lia. reflexivity.
Qed.

(** what the search returns *)
Definition nearest_idx dt (cs : list (list T)) (x : list T) (c : nat) : Prop :=
  c < length cs /\
  (forall j y z, nth_error cs j = Some y -> nth_error cs c = Some z ->
     nltb N (ldist N dt x y) (ldist N dt x z) = false /\
     (j < c -> neqb N (ldist N dt x y) (ldist N dt x y) = true ->
       nltb N (ldist N dt x z) (ldist N dt x y) = true)).

Hypothesis O : OrdLaws N.

Lemma near_from_inv dt x : forall cs i best pre,
  length pre = i ->
  (forall b, snd best = b ->
    (forall y, In y pre -> nltb N (ldist N dt x y) b = false) /\
    nltb N (nmax N) b = false /\
    match fst best with
    | None => b = nmax N
    | Some c => nltb N b (nmax N) = true /\ c < i /\ exists y, nth_error pre c = Some y /\ ldist N dt x y = b /\
        (forall j y', j < c -> nth_error pre j = Some y' -> neqb N (ldist N dt x y') (ldist N dt x y') = true ->
           nltb N b (ldist N dt x y') = true)
    end) ->
  let r := near_from dt x i best cs in
  let full := pre ++ cs in
  (forall y, In y full -> nltb N (ldist N dt x y) (snd r) = false) /\
  nltb N (nmax N) (snd r) = false /\
  match fst r with
  | None => snd r = nmax N
  | Some c => nltb N (snd r) (nmax N) = true /\ c < length full /\ exists y, nth_error full c = Some y /\ ldist N dt x y = snd r /\
      (forall j y', j < c -> nth_error full j = Some y' -> neqb N (ldist N dt x y') (ldist N dt x y') = true ->
           nltb N (snd r) (ldist N dt x y') = true)
  end.
Proof.
  induction cs as [|c cs IH]; intros i best pre Hp H; cbn [near_from].
  - rewrite app_nil_r. destruct (H _ eq_refl) as (H1 & H2 & H3). cbv zeta. splits; auto.
    destruct (fst best); [|auto]. rewrite Hp. tauto.
  - specialize (H _ eq_refl). destruct H as (H1 & H2 & H3).
    cbv zeta. replace (pre ++ c :: cs) with ((pre ++ [c]) ++ cs) by (rewrite <- app_assoc; reflexivity).
    apply IH; [rewrite app_length; simpl; lia|]. clear IH.
    intros b <-. set (d := ldist N dt x c) in *.
    destruct (nltb N d (snd best)) eqn:E; cbn [fst snd].
    + splits.
      * intros y Hy. apply in_app_or in Hy as [Hy|[<-|[]]]; [|apply (lt_irrefl O)].
        destruct (nltb N (ldist N dt x y) d) eqn:E2; auto.
        rewrite <- (H1 y Hy). symmetry. eapply (lt_trans O); eauto.
      * destruct (nltb N (nmax N) d) eqn:E2; auto. rewrite <- H2. symmetry. eapply (lt_trans O); eauto.
      * destruct (fst best) as [c0|].
        -- destruct H3 as (H3 & _). eapply (lt_trans O); eauto.
        -- rewrite <- H3. exact E.
      * lia.
      * exists c. splits.
        -- rewrite nth_error_app2 by lia. rewrite Hp, Nat.sub_diag. reflexivity.
        -- reflexivity.
        -- intros j y' Hj Hy' Hn. rewrite nth_error_app1 in Hy' by lia.
           destruct (nltb N d (ldist N dt x y')) eqn:E2; auto.
           rewrite <- E. symmetry. apply (lt_ntrans O) with (y := ldist N dt x y'); auto.
           apply H1. eapply nth_error_In; eauto.
    + splits.
      * intros y Hy. apply in_app_or in Hy as [Hy|[<-|[]]]; auto.
      * exact H2.
      * destruct (fst best) as [c0|]; auto. destruct H3 as (H3 & H4 & y & Hy & Hd & Ht).
        splits; auto; try lia. exists y. splits; auto.
        -- rewrite nth_error_app1 by lia. exact Hy.
        -- intros j y' Hj Hy' Hn. rewrite nth_error_app1 in Hy' by lia. eauto.
Qed.

Lemma near_spec dt cs x :
  match near dt cs x with
  | (Some c, d) => nearest_idx dt cs x c /\ nltb N d (nmax N) = true /\ (exists y, nth_error cs c = Some y /\ ldist N dt x y = d)
  | (None, d) => forall y, In y cs -> nltb N (ldist N dt x y) (nmax N) = false
  end.
Proof.
  pose proof (@near_from_inv dt x cs 0 (None, nmax N) [] eq_refl) as H. cbn [app snd fst] in H.
  destruct H as (H1 & H2 & H3).
  { intros b <-. splits; auto; [intros y []|apply (lt_irrefl O)]. }
  unfold near. destruct (near_from dt x 0 (None, nmax N) cs) as [[c|] d]; cbn [fst snd] in *.
  - destruct H3 as (H3 & H4 & y & Hy & Hd & Ht). splits; eauto.
    split; [exact H4|]. intros j y0 z Hj Hz. rewrite Hy in Hz. injection Hz as <-. rewrite Hd. split.
    + apply H1. eapply nth_error_In; eauto.
    + intros Hlt Hn. eauto.
  - subst d. exact H1.
Qed.

Lemma nearest_idx_unique dt cs x c c' :
  (forall y, In y cs -> neqb N (ldist N dt x y) (ldist N dt x y) = true) ->
  nearest_idx dt cs x c -> nearest_idx dt cs x c' -> c = c'.
Proof.
  intros Hn (L & H) (L' & H').
  destruct (nth_error cs c) as [y|] eqn:Ey; [|apply nth_error_None in Ey; lia].
  destruct (nth_error cs c') as [y'|] eqn:Ey'; [|apply nth_error_None in Ey'; lia].
  destruct (H c' y' y Ey' eq_refl) as (A & B). destruct (H' c y y' Ey eq_refl) as (A' & B').
  pose proof (Hn y (nth_error_In _ _ Ey)). pose proof (Hn y' (nth_error_In _ _ Ey')).
  destruct (Nat.lt_trichotomy c c') as [Hlt|[He|Hgt]]; auto.
  - rewrite B' in A; auto; congruence.
  - rewrite B in A'; auto; congruence.
Qed.

End Near.
