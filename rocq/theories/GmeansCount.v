(** C55 for G-means: every undone split gives two cluster places back. *)
From Coq Require Import Permutation.
From Verif Require Import Base Num DistModel ClustersModel PartitionModel ParModel KmeansModel ContainersModel MatrixModel HclustModel XmeansModel GmeansModel.
From Verif Require Import MatLemmas KmeansProofs.
Set Implicit Arguments.

Lemma keys_erase {A} (m : list (option A)) p x : nth_error m p = Some (Some x) -> forall i,
  length (hm_keys_from i m) = 1 + length (hm_keys_from i (upd m p None)).
Proof.
  revert p. induction m as [|o m IH]; intros [|p] H i; cbn in *; try discriminate.
  - injection H as ->. reflexivity.
  - specialize (IH p H (S i)). destruct o; cbn [length]; lia.
Qed.

Section P.
Variable N : Num.
Variables (nlog phi : car N -> car N) (trunc : car N -> Z).

Lemma decide_count (g : hcfg N) strictness cl scores cv p s rev s' rev' :
  g_decide g strictness cl scores cv p (s, rev) = Ok (s', rev') ->
  w64 (x_curr s') = w64 (x_curr s - 2 * Z.of_nat (length (hm_keys (x_hcl s)) - length (hm_keys (x_hcl s')))) /\
  (length (hm_keys (x_hcl s')) <= length (hm_keys (x_hcl s)))%nat.
Proof.
  unfold g_decide. intros H. apply bind_ok in H as (sc & _ & H). apply bind_ok in H as (c & _ & H). destruct (nleb N sc c).
  2:{ injection H as <- <-. rewrite Nat.sub_diag. cbn. split; [f_equal; lia|lia]. }
  apply bind_ok in H as (h & Hh & H). cbv zeta in H.
  apply bind_ok in H as (s1 & E1 & H). apply bind_ok in H as (s2 & E2 & H). apply bind_ok in H as (s3 & E3 & H). apply bind_ok in H as (rv & _ & H). apply bind_ok in H as (m & Em & H).
  assert (D : forall (a b : hst N) i, deactivate a i = Ok b -> x_curr b = x_curr a /\ x_hcl b = x_hcl a).
  { intros a b i E. unfold deactivate in E. apply bind_ok in E as (v & _ & E). injection E as <-. auto. }
  destruct (D _ _ _ E1) as (C1 & M1). destruct (D _ _ _ E2) as (C2 & M2). destruct (D _ _ _ E3) as (C3 & M3).
  destruct (c_nclust cl <=? p); [discriminate|].
  apply bind_ok in H as (nl & _ & H). apply bind_ok in H as (nr & _ & H). apply bind_ok in H as (c1 & _ & H). apply bind_ok in H as (c2 & _ & H). apply bind_ok in H as (c3 & _ & H).
  injection H as <- <-. cbn [with_counts with_final with_curr with_ider with_hcl x_curr x_hcl].
  unfold hm_erase in Em. apply aset_inv in Em as (Hl & ->).
  unfold hm_ref in Hh. destruct (nth_error (x_hcl s) p) as [[y|]|] eqn:En; try discriminate.
  rewrite C3, C2, C1, M3, M2, M1. unfold hm_keys. pose proof (keys_erase _ _ En 0) as K. rewrite K. split; [|lia].
  replace (1 + _ - _) with 1 by lia. unfold w64. rewrite Z.mod_mod by lia. reflexivity.
Qed.

(** A decision lowers the number of clusters by two for every split it undoes: the
    splits that are in the table before it and not after it. *)
Theorem C55_gmeans_count : forall (g : hcfg N) strictness s3 s4, g_decision nlog phi trunc g strictness s3 = Ok s4 ->
  let before := length (hm_keys (x_hcl (xh s3))) in let after := length (hm_keys (x_hcl (xh s4))) in
  after <= before /\ (x_curr (xh s4) mod 2 ^ 64 = (x_curr (xh s3) - 2 * Z.of_nat (before - after)) mod 2 ^ 64)%Z.
Proof.
  intros g strictness s3 s4 H. cbv zeta. unfold g_decision in H. apply bind_ok in H as (sc & _ & H). cbv zeta in H. apply bind_ok in H as (u & _ & H).
  apply bind_ok in H as ((h1 & rv) & E & H). apply bind_ok in H as (a & _ & H). injection H as <-. cbn [with_h xh with_asg x_curr x_hcl].
  set (cv := ad_critical _) in E. clearbody cv.
  assert (G : forall l rv0 h0, for_each l (g_decide g strictness (x_cl s3) sc cv) (h0, rv0) = Ok (h1, rv) ->
    (length (hm_keys (x_hcl h1)) <= length (hm_keys (x_hcl h0)))%nat /\
    w64 (x_curr h1) = w64 (x_curr h0 - 2 * Z.of_nat (length (hm_keys (x_hcl h0)) - length (hm_keys (x_hcl h1))))).
  { induction l as [|p l IH]; intros rv0 h0 E0; cbn [for_each] in E0.
    - injection E0 as -> ->. rewrite Nat.sub_diag. split; [lia|]. cbn. f_equal. lia.
    - apply bind_ok in E0 as ((h2 & rv2) & E1 & E2). apply decide_count in E1 as (A & B). apply IH in E2 as (C & D). split; [lia|].
      rewrite D. unfold w64 in *. rewrite Zminus_mod, A, <- Zminus_mod. f_equal. lia. }
  exact (G _ _ _ E).
Qed.
End P.
