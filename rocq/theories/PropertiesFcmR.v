(** Fuzzy c-means in exact arithmetic: C59, C60, C84 (memberships), C85 (the
    objective never increases). *)
From Coq Require Import Reals Lra Permutation.
From Verif Require Import Base Num DistModel ClustersModel MatLemmas
  PartitionModel ParModel KmeansModel ParProofs NearProofs KmeansProofs RunProofs InitProofs Spec DistProofs VecLemmas.
From Verif Require Import ParRule Okab MedoidProofs MedoidRun MatrixModel PropertiesMatrix PropertiesArgmax FcmModel FcmProofs FcmRun PropertiesFcm.
Set Implicit Arguments.
Unset Strict Implicit.
Local Open Scope R_scope.

(** [std::pow] of a positive base; the fuzzy c-means code applies it to nothing else *)
Definition rpow (x e : R) : R := if Rle_dec x 0 then 0 else Rpower x e.

(** distance of row [r] to centre [j] under the configured metric *)
Definition fz_dist (f : fcfg NumR) (data : list R) (C : dmat NumR) (j r : nat) : R :=
  rdist (g_dt (f_g f)) (row data (g_ncol (f_g f)) r) (row (dm_mat C) (g_ncol (f_g f)) j).
(** raw weight for a distance: dist^(-1/(m-1)), and 2.2E-16 for distance 0 *)
Definition fz_weight (m : Z) (x : R) : R := if Rlt_dec 0 x then Rpower x (- (1 / (IZR m - 1))) else 22 / 100000000000000000.
(** membership of row [r] in cluster [j]: its share of the row's weights *)
Definition fz_mu (f : fcfg NumR) (data : list R) (C : dmat NumR) (j r : nat) : R :=
  fz_weight (f_m f) (fz_dist f data C j r) /
  rsum (map (fun i => fz_weight (f_m f) (fz_dist f data C i r)) (seq 0 (g_k (f_g f)))).

(** a successful run in exact arithmetic *)
Definition f_ran (f : fcfg NumR) centers it data draw os r : Prop :=
  f_valid f centers it data draw /\ f_fair f data os /\ @f_run NumR rpow f centers it data draw os = Ok r /\ (2 <= f_m f < 2 ^ 32)%Z.

Lemma fz_weight_pos m x : 0 < fz_weight m x.
Proof. unfold fz_weight. destruct (Rlt_dec 0 x); [apply exp_pos|]. lra. Qed.

Lemma rsum_pos {A} (h : A -> R) l : l <> [] -> (forall a, In a l -> 0 < h a) -> 0 < rsum (map h l).
Proof.
  destruct l as [|a l]; [congruence|]. intros _ H. cbn [map rsum]. 
  assert (0 <= rsum (map h l)).
  { apply rsum_nonneg. intros x Hx. apply in_map_iff in Hx as (b & <- & Hb). left. apply H. right; exact Hb. }
  specialize (H a (or_introl eq_refl)). lra.
Qed.

Section FR.
Variables (f : fcfg NumR) (data : list R).
Let f' := mkFcfg (fcm_cfg (f_g f)) (f_m f).
Let g := f_g f.
Let n := g_nrow g. Let d := g_ncol g. Let k := g_k g. Let m := f_m f.
Hypothesis Hm : (2 <= m < 2 ^ 32)%Z.
Hypothesis Hk : (1 <= k)%nat.

Lemma uraw_R C j r : @uraw NumR rpow f' data C j r = fz_weight m (fz_dist f data C j r).
Proof.
  unfold uraw. change (nltb NumR (nzero NumR)) with (Rltb 0).
  assert (Ed : fdist f' data C j r = fz_dist f data C j r) by exact (ldist_R _ _ _).
  rewrite Ed. unfold fz_weight. destruct (Rlt_dec 0 (fz_dist f data C j r)) as [H|H].
  - rewrite (proj2 (Rltb_true _ _) H). cbn [ndiv none nofZ NumR fuzz_exp].
    unfold rpow. destruct (Rle_dec (1 / fz_dist f data C j r) 0) as [H2|H2].
    { exfalso. apply Rle_not_lt in H2. apply H2. apply Rdiv_lt_0_compat; lra. }
    unfold fuzz_exp. cbn [ndiv none nofZ NumR f_m f']. fold m. unfold w32. rewrite Z.mod_small by lia. rewrite minus_IZR.
    unfold Rdiv at 1. rewrite Rmult_1_l. unfold Rpower. rewrite ln_Rinv by exact H. f_equal. lra.
  - rewrite (proj2 (Rltb_false _ _)) by lra. unfold fuzz_eps. reflexivity.
Qed.

Lemma fold_rsum {A} (h : A -> R) : forall l a, fold_left (fun s x => s + h x) l a = a + rsum (map h l).
Proof. induction l as [|x l IH]; intros a; cbn [fold_left map rsum]; [lra|]. rewrite IH. lra. Qed.

Lemma usum_R C r : @usum NumR rpow f' data C r = rsum (map (fun i => fz_weight m (fz_dist f data C i r)) (seq 0 k)).
Proof.
  unfold usum. transitivity (fold_left (fun s j => s + fz_weight m (fz_dist f data C j r)) (seq 1 (k - 1)) (fz_weight m (fz_dist f data C 0 r))).
  - rewrite <- uraw_R. change (g_k (f_g f')) with k. generalize (@uraw NumR rpow f' data C 0 r) as a. generalize (seq 1 (k - 1)) as l.
    induction l as [|x l IH]; intros a; [reflexivity|]. cbn [fold_left]. rewrite <- (uraw_R C x r). apply IH.
  - rewrite fold_rsum. replace (seq 0 k) with (0%nat :: seq 1 (k - 1)); [reflexivity|].
    replace k with (S (k - 1)) at 2 by lia. reflexivity.
Qed.

Lemma usum_pos C r : 0 < rsum (map (fun i => fz_weight m (fz_dist f data C i r)) (seq 0 k)).
Proof. apply rsum_pos; [destruct k; [lia|discriminate]|]. intros; apply fz_weight_pos. Qed.

Lemma mu_pos C j r : 0 < fz_mu f data C j r.
Proof. unfold fz_mu. apply Rdiv_lt_0_compat; [apply fz_weight_pos|apply usum_pos]. Qed.

Lemma mu_sum C r : rsum (map (fun j => fz_mu f data C j r) (seq 0 k)) = 1.
Proof.
  pose proof (usum_pos C r) as Hp. set (Sm := rsum _) in Hp.
  transitivity (rsum (map (fun j => / Sm * fz_weight m (fz_dist f data C j r)) (seq 0 k))).
  - apply rsum_ext. intros j _. unfold fz_mu, Sm, Rdiv. fold m g k. ring.
  - rewrite rsum_map_scale. fold Sm. field. lra.
Qed.

Lemma uw_R C j r : @uw NumR rpow f' data C j r = fz_mu f data C j r ^ Z.to_nat m.
Proof.
  unfold uw. change (ndiv NumR) with Rdiv. rewrite uraw_R, usum_R. change (nofZ NumR (f_m f')) with (IZR m).
  pose proof (mu_pos C j r) as Hp. unfold fz_mu in *. unfold rpow.
  destruct (Rle_dec _ 0) as [Hn|_]; [exfalso; exact (Rlt_not_le _ _ Hp Hn)|]. etransitivity; [|exact (Rpower_pow _ _ Hp)]. f_equal. rewrite INR_IZR_INZ, Z2Nat.id by lia. reflexivity.
Qed.

Lemma wpart_R W sn j c : @wpart NumR f' data W sn j c =
  rsum (map (fun r => W j r * nth (r * d + c) data 0) (seq (fst sn) (snd sn))).
Proof.
  unfold wpart. destruct sn as (s0 & l0). cbn [fst snd]. etransitivity; [exact (bigsum_rsum l0 _)|].
  assert (G : forall o, rsum (map (fun i => W j (s0 + i)%nat * nth ((s0 + i) * d + c) data 0) (seq o l0)) =
     rsum (map (fun r => W j r * nth (r * d + c) data 0) (seq (s0 + o) l0))).
  { clear. induction l0 as [|l0 IH]; intros o; [reflexivity|]. cbn [seq map rsum]. rewrite <- Nat.add_succ_r, IH. reflexivity. }
  specialize (G 0%nat). rewrite Nat.add_0_r in G. exact G.
Qed.

Lemma wtotal_R W : forall rng lo hi j c, ntiles lo hi rng ->
  @wtotal NumR f' data W rng j c = rsum (map (fun r => W j r * nth (r * d + c) data 0) (seq lo (hi - lo))).
Proof.
  intros rng lo hi j c Ht.
  assert (G : forall rng lo, ntiles lo hi rng -> rsum (map (fun sn => @wpart NumR f' data W sn j c) rng) =
     rsum (map (fun r => W j r * nth (r * d + c) data 0) (seq lo (hi - lo)))).
  { clear. induction rng as [|(s0 & l0) rng IH]; intros lo Ht; cbn [ntiles] in Ht.
    - subst. rewrite Nat.sub_diag. reflexivity.
    - destruct Ht as (-> & Ht). pose proof (ntiles_le _ _ _ Ht). cbn [map rsum]. rewrite (IH _ Ht), wpart_R. cbn [fst snd].
      replace (hi - lo)%nat with (l0 + (hi - (lo + l0)))%nat by lia. rewrite seq_app, map_app, rsum_app. reflexivity. }
  rewrite <- (G rng lo Ht). unfold wtotal. destruct rng as [|a rest]; [reflexivity|]. cbn [map rsum].
  exact (fold_rsum (fun sn => @wpart NumR f' data W sn j c) rest _).
Qed.

Lemma fmean_R ws W j c : ntiles 0 n (w_ranges ws) ->
  @fmean NumR f' ws data W j c = rsum (map (fun r => W j r * nth (r * d + c) data 0) (seq 0 n)) / rsum (map (W j) (seq 0 n)).
Proof.
  intros Ht. unfold fmean. change (ndiv NumR) with Rdiv. rewrite (wtotal_R _ _ _ Ht). rewrite Nat.sub_0_r.
  f_equal. exact (bigsum_rsum _ _).
Qed.
End FR.

Lemma f_ran_step f centers it data draw os r i s s' : f_ran f centers it data draw os r ->
  nth_error (f_states r) i = Some s -> nth_error (f_states r) (S i) = Some s' ->
  is_matrix (f_um s') (g_k (f_g f)) (g_nrow (f_g f)) (fun j x => fz_mu f data (f_centers s) j x ^ Z.to_nat (f_m f)) /\
  is_matrix (f_centers s') (g_k (f_g f)) (g_ncol (f_g f)) (fun j c =>
    rsum (map (fun x => cell (f_um s') j x * nth (x * g_ncol (f_g f) + c) data 0) (seq 0 (g_nrow (f_g f)))) /
    rsum (map (fun x => cell (f_um s') j x) (seq 0 (g_nrow (f_g f))))).
Proof.
  intros (V & F & E & Hm) E1 E2. pose proof V as (_ & Hk & _).
  destruct (@f_run_facts NumR NumR_laws rpow f centers it data draw os r V F E) as (ws & W & Hne & _ & Hc).
  destruct (Hc i s s' E1 E2) as ((Hum & HC & _) & _).
  assert (Hum2 : is_matrix (f_um s') (g_k (f_g f)) (g_nrow (f_g f)) (fun j x => fz_mu f data (f_centers s) j x ^ Z.to_nat (f_m f))).
  { eapply is_matrix_ext; [exact Hum|]. intros j x _ _. apply uw_R; auto. }
  split; [exact Hum2|]. eapply is_matrix_ext; [exact HC|]. intros j c Hj Hcc.
  etransitivity; [exact (@fmean_R f data ws _ j c (proj1 W))|].
  destruct Hum as (_ & _ & _ & D). f_equal.
  - apply rsum_ext. intros x Hx. apply in_seq in Hx. f_equal. symmetry. apply D; auto. cbn. lia.
  - apply rsum_ext. intros x Hx. apply in_seq in Hx. symmetry. apply D; auto. cbn. lia.
Qed.

(** ** C84: memberships.  After every iteration the weight of row [x] in cluster
    [j] is the m-th power of its membership; the memberships of a row are positive
    and sum to one. *)
Theorem C84_memberships : forall f centers it data draw os r i s s',
  f_ran f centers it data draw os r ->
  nth_error (f_states r) i = Some s -> nth_error (f_states r) (S i) = Some s' ->
  forall x, (x < g_nrow (f_g f))%nat ->
  rsum (map (fun j => fz_mu f data (f_centers s) j x) (seq 0 (g_k (f_g f)))) = 1 /\
  forall j, (j < g_k (f_g f))%nat ->
    0 < fz_mu f data (f_centers s) j x /\ cell (f_um s') j x = fz_mu f data (f_centers s) j x ^ Z.to_nat (f_m f).
Proof.
  intros f centers it data draw os r i s s' HR E1 E2 x Hx. destruct (f_ran_step HR E1 E2) as ((_ & _ & _ & D) & _).
  destruct HR as ((_ & Hk & _) & _ & _ & Hm). split; [apply mu_sum; auto|]. intros j Hj. split; [apply mu_pos; auto|]. apply D; auto.
Qed.

(** ** C60: every centre is the weighted mean of all rows, however many threads *)
Theorem C60_weighted_means : forall f centers it data draw os r i s s',
  f_ran f centers it data draw os r ->
  nth_error (f_states r) i = Some s -> nth_error (f_states r) (S i) = Some s' ->
  forall j, (j < g_k (f_g f))%nat ->
  0 < rsum (map (fun x => cell (f_um s') j x) (seq 0 (g_nrow (f_g f)))) /\
  forall c, (c < g_ncol (f_g f))%nat ->
  cell (f_centers s') j c =
    rsum (map (fun x => cell (f_um s') j x * nth (x * g_ncol (f_g f) + c) data 0) (seq 0 (g_nrow (f_g f)))) /
    rsum (map (fun x => cell (f_um s') j x) (seq 0 (g_nrow (f_g f)))).
Proof.
  intros f centers it data draw os r i s s' HR E1 E2 j Hj.
  destruct (f_ran_step HR E1 E2) as (_ & (_ & _ & _ & D)). split; [|intros c Hc; apply D; auto].
  apply rsum_pos.
  - destruct HR as ((V & _) & _). destruct V as (V1 & _). destruct (g_nrow (f_g f)); [lia|discriminate].
  - intros x Hx. apply in_seq in Hx. destruct (C84_memberships HR E1 E2 (x := x) ltac:(lia)) as (_ & H). destruct (H j Hj) as (H1 & ->).
    apply pow_lt. exact H1.
Qed.

(** ** C59.  For a row that coincides with no centre the closer of two centres gets
    the larger membership. *)
Lemma fz_weight_anti m x y : (2 <= m)%Z -> 0 < x -> x < y -> fz_weight m y < fz_weight m x.
Proof.
  intros Hm Hx Hxy. unfold fz_weight. destruct (Rlt_dec 0 x); [|lra]. destruct (Rlt_dec 0 y); [|lra].
  unfold Rpower. apply exp_increasing. apply IZR_le in Hm.
  assert (ln x < ln y) by (apply ln_increasing; lra).
  assert (0 < 1 / (IZR m - 1)) by (apply Rdiv_lt_0_compat; lra). nra.
Qed.

Lemma Rpow_lt a b p : 0 <= a -> a < b -> (1 <= p)%nat -> a ^ p < b ^ p.
Proof.
  intros H1 H2 H3. destruct p as [|p]; [lia|]. clear H3. induction p as [|p IH]; [lra|].
  change (a * a ^ S p < b * b ^ S p). assert (0 <= a ^ S p) by (apply pow_le; lra). nra.
Qed.

Lemma mu_lt f data C i j x : (1 <= g_k (f_g f))%nat ->
  fz_weight (f_m f) (fz_dist f data C j x) < fz_weight (f_m f) (fz_dist f data C i x) ->
  fz_mu f data C j x < fz_mu f data C i x.
Proof.
  intros Hk H. unfold fz_mu. apply Rmult_lt_compat_r; auto. apply Rinv_0_lt_compat. apply usum_pos; auto.
Qed.

Theorem C59_closer_larger_partial : forall f centers it data draw os r n s s',
  f_ran f centers it data draw os r ->
  nth_error (f_states r) n = Some s -> nth_error (f_states r) (S n) = Some s' ->
  forall x i j, (x < g_nrow (f_g f))%nat -> (i < g_k (f_g f))%nat -> (j < g_k (f_g f))%nat ->
  0 < fz_dist f data (f_centers s) i x -> fz_dist f data (f_centers s) i x < fz_dist f data (f_centers s) j x ->
  cell (f_um s') j x < cell (f_um s') i x.
Proof.
  intros f centers it data draw os r n s s' HR E1 E2 x i j Hx Hi Hj D1 D2.
  destruct (C84_memberships HR E1 E2 Hx) as (_ & H). destruct (H i Hi) as (Pi & ->). destruct (H j Hj) as (Pj & ->).
  destruct HR as ((_ & Hk & _) & _ & _ & Hm).
  apply Rpow_lt; [lra|apply mu_lt; auto; apply fz_weight_anti; auto; lia|lia].
Qed.

(** the general failure: a row at a centre has, in every run, a smaller weight
    there than in any centre at a positive distance below (10^17/22)^(m-1) *)
Theorem C59_at_centre_smaller : forall f centers it data draw os r n s s',
  f_ran f centers it data draw os r ->
  nth_error (f_states r) n = Some s -> nth_error (f_states r) (S n) = Some s' ->
  forall x i j, (x < g_nrow (f_g f))%nat -> (i < g_k (f_g f))%nat -> (j < g_k (f_g f))%nat ->
  fz_dist f data (f_centers s) j x = 0 ->
  0 < fz_dist f data (f_centers s) i x < Rpower (100000000000000000 / 22) (IZR (f_m f) - 1) ->
  cell (f_um s') j x < cell (f_um s') i x.
Proof.
  intros f centers it data draw os r n s s' HR E1 E2 x i j Hx Hi Hj D1 (D2 & D3).
  destruct (C84_memberships HR E1 E2 Hx) as (_ & H). destruct (H i Hi) as (Pi & ->). destruct (H j Hj) as (Pj & ->).
  destruct HR as ((_ & Hk & _) & _ & _ & Hm).
  apply Rpow_lt; [lra| |lia]. apply mu_lt; auto. rewrite D1. unfold fz_weight.
  destruct (Rlt_dec 0 0); [lra|]. destruct (Rlt_dec 0 _) as [_|]; [|lra].
  assert (Hm1 : 0 < IZR (f_m f) - 1) by (destruct Hm as (Hm & _); apply IZR_le in Hm; lra).
  set (dd := fz_dist f data (f_centers s) i x) in *. clearbody dd.
  assert (L : ln dd < (IZR (f_m f) - 1) * ln (100000000000000000 / 22)).
  { apply ln_increasing in D3; auto. unfold Rpower in D3. rewrite ln_exp in D3. exact D3. }
  replace (22 / 100000000000000000) with (exp (- ln (100000000000000000 / 22))).
  2:{ rewrite <- ln_Rinv by lra. rewrite exp_ln by (apply Rinv_0_lt_compat; lra). field. }
  unfold Rpower. apply exp_increasing. apply Ropp_lt_cancel. rewrite Ropp_involutive.
  replace (- (- (1 / (IZR (f_m f) - 1)) * ln dd)) with (ln dd / (IZR (f_m f) - 1)) by (field; lra).
  apply Rmult_lt_reg_r with (IZR (f_m f) - 1); auto. unfold Rdiv at 1. rewrite Rmult_assoc, Rinv_l by lra. lra.
Qed.

(* ------------------------------------------------------------------ *)
(** ** C85: with squared distances the weighted sum of squared distances never
    increases from one iteration to the next (no row at a centre) *)
Definition fz_obj (f : fcfg NumR) (data : list R) (W C : dmat NumR) : R :=
  rsum (map (fun x => rsum (map (fun j =>
    cell W j x * sqdist (row data (g_ncol (f_g f)) x) (row (dm_mat C) (g_ncol (f_g f)) j))
    (seq 0 (g_k (f_g f))))) (seq 0 (g_nrow (f_g f)))).

Lemma tangent u v q : 0 <= u -> 0 <= v -> u ^ S q + INR (S q) * u ^ q * (v - u) <= v ^ S q.
Proof.
  intros Hu Hv. induction q as [|q IH]; [cbn; lra|].
  rewrite S_INR. change (v ^ S (S q)) with (v * v ^ S q). change (u ^ S (S q)) with (u * u ^ S q).
  apply Rle_trans with (v * (u ^ S q + INR (S q) * u ^ q * (v - u))); [|apply Rmult_le_compat_l; auto].
  assert (0 <= INR (S q) * u ^ q * ((v - u) * (v - u))).
  { apply Rmult_le_pos; [apply Rmult_le_pos; [apply pos_INR|apply pow_le; auto]|]. apply Rle_0_sqr. }
  cbn [pow] in *. nra.
Qed.

(** the memberships are optimal for their centres *)
Lemma e_step_optimal f data C x (v : nat -> R) : (1 <= g_k (f_g f))%nat -> (2 <= f_m f < 2 ^ 32)%Z ->
  (forall j, (j < g_k (f_g f))%nat -> 0 < fz_dist f data C j x) ->
  (forall j, 0 <= v j) -> rsum (map v (seq 0 (g_k (f_g f)))) = 1 ->
  rsum (map (fun j => fz_mu f data C j x ^ Z.to_nat (f_m f) * fz_dist f data C j x) (seq 0 (g_k (f_g f)))) <=
  rsum (map (fun j => v j ^ Z.to_nat (f_m f) * fz_dist f data C j x) (seq 0 (g_k (f_g f)))).
Proof.
  intros Hk Hm HD Hv Hs. destruct (Z.to_nat (f_m f)) as [|q] eqn:Eq; [lia|].
  assert (Hq : IZR (f_m f) - 1 = INR q) by (rewrite INR_IZR_INZ; replace (f_m f) with (Z.of_nat q + 1)%Z by lia; rewrite plus_IZR; lra).
  assert (Hq0 : 0 < INR q) by (apply lt_0_INR; lia).
  pose proof (@usum_pos f data Hk C x) as Hp. set (Sm := rsum (map (fun i => fz_weight (f_m f) (fz_dist f data C i x)) (seq 0 (g_k (f_g f))))) in *.
  assert (HL : forall j, (j < g_k (f_g f))%nat -> fz_mu f data C j x ^ q * fz_dist f data C j x = (/ Sm) ^ q).
  { intros j Hj. specialize (HD j Hj). unfold fz_mu. fold Sm. unfold fz_weight. destruct (Rlt_dec 0 (fz_dist f data C j x)); [|lra].
    rewrite Hq. unfold Rdiv at 1. rewrite Rpow_mult_distr.
    rewrite <- (Rpower_pow q (Rpower _ _)) by apply exp_pos. rewrite Rpower_mult.
    replace (- (1 / INR q) * INR q) with (- (1)) by (field; lra). rewrite Rpower_Ropp, Rpower_1 by exact HD. rewrite pow_inv; field; try split; try lra; apply pow_nonzero; lra. }
  apply Rle_trans with (rsum (map (fun j => fz_mu f data C j x ^ S q * fz_dist f data C j x +
      INR (S q) * (/ Sm) ^ q * (v j - fz_mu f data C j x)) (seq 0 (g_k (f_g f))))).
  - rewrite rsum_map_plus, rsum_map_scale, rsum_map_minus, Hs, (@mu_sum f data Hk C x). lra.
  - apply rsum_le. intros j Hj. apply in_seq in Hj. specialize (HL j ltac:(lia)). specialize (HD j ltac:(lia)).
    pose proof (@mu_pos f data Hk C j x) as Pj. pose proof (@tangent (fz_mu f data C j x) (v j) q ltac:(lra) (Hv j)) as T.
    rewrite <- HL.
    apply Rle_trans with ((fz_mu f data C j x ^ S q + INR (S q) * fz_mu f data C j x ^ q * (v j - fz_mu f data C j x)) * fz_dist f data C j x).
    + right. ring.
    + apply Rmult_le_compat_r; [lra|exact T].
Qed.

Lemma rsum_swap {A B} (h : A -> B -> R) : forall (l : list A) (l' : list B),
  rsum (map (fun a => rsum (map (fun b => h a b) l')) l) = rsum (map (fun b => rsum (map (fun a => h a b) l)) l').
Proof.
  induction l as [|a l IH]; intros l'; cbn [map rsum].
  - induction l' as [|b l' IH]; cbn [map rsum]; lra.
  - rewrite IH. rewrite <- rsum_map_plus. reflexivity.
Qed.

Lemma sqdist_sum : forall d x y, length x = d -> length y = d ->
  sqdist x y = rsum (map (fun c => (nth c x 0 - nth c y 0) * (nth c x 0 - nth c y 0)) (seq 0 d)).
Proof.
  induction d as [|d IH]; intros [|a x] [|b y] Lx Ly; cbn [length] in *; try discriminate; [reflexivity|].
  rewrite sqdist_cons, (IH x y) by lia. cbn [seq map rsum nth]. f_equal. rewrite <- seq_shift, map_map. reflexivity.
Qed.

(** the weighted mean minimises the weighted sum of squares *)
Lemma weighted_mean_min {A} (w h : A -> R) l c : 0 < rsum (map w l) ->
  let m := rsum (map (fun a => w a * h a) l) / rsum (map w l) in
  rsum (map (fun a => w a * ((h a - m) * (h a - m))) l) <= rsum (map (fun a => w a * ((h a - c) * (h a - c))) l).
Proof.
  intros Hw m.
  assert (E : rsum (map (fun a => w a * ((h a - c) * (h a - c))) l) =
     rsum (map (fun a => w a * ((h a - m) * (h a - m))) l) + (m - c) * (m - c) * rsum (map w l)).
  { transitivity (rsum (map (fun a => w a * ((h a - m) * (h a - m)) + ((m - c) * (m - c) * w a + 2 * (m - c) * (w a * h a - m * w a))) l)).
    - apply rsum_ext. intros a _. ring.
    - rewrite !rsum_map_plus, !rsum_map_scale, rsum_map_minus, rsum_map_scale.
      replace (rsum (map (fun a => w a * h a) l)) with (m * rsum (map w l)) by (unfold m; field; lra). ring. }
  rewrite E. pose proof (Rle_0_sqr (m - c)) as Q. unfold Rsqr in Q. nra.
Qed.

Theorem C85_objective_decreases : forall f centers it data draw os r n s0 s1 s2,
  f_ran f centers it data draw os r -> g_dt (f_g f) = SQEUCL ->
  nth_error (f_states r) n = Some s0 -> nth_error (f_states r) (S n) = Some s1 -> nth_error (f_states r) (S (S n)) = Some s2 ->
  (forall x j, (x < g_nrow (f_g f))%nat -> (j < g_k (f_g f))%nat ->
     row data (g_ncol (f_g f)) x <> row (dm_mat (f_centers s1)) (g_ncol (f_g f)) j) ->
  fz_obj f data (f_um s2) (f_centers s2) <= fz_obj f data (f_um s1) (f_centers s1).
Proof.
  intros f centers it data draw os r n s0 s1 s2 HR Hdt E0 E1 E2 Hnc.
  pose proof HR as (V & _ & _ & Hm). pose proof V as (V0 & Hk & _).
  destruct (f_ran_step HR E0 E1) as (U1 & M1). destruct (f_ran_step HR E1 E2) as (U2 & M2).
  set (d := g_ncol (f_g f)) in *. set (k := g_k (f_g f)) in *. set (nr := g_nrow (f_g f)) in *.
  assert (Ld : forall x, (x < nr)%nat -> length (row data d x) = d) by (intros x Hx; exact (@data_row_length NumR (f_g f) data V0 x Hx)).
  assert (Lc : forall (C : dmat NumR) h j, is_matrix C k d h -> (j < k)%nat -> length (row (dm_mat C) d j) = d).
  { intros C h j HC Hj. rewrite (is_matrix_row HC Hj), map_length, seq_length. reflexivity. }
  assert (Hdist : forall C j x, fz_dist f data C j x = sqdist (row data d x) (row (dm_mat C) d j)).
  { intros C j x. unfold fz_dist. rewrite Hdt. reflexivity. }
  apply Rle_trans with (fz_obj f data (f_um s2) (f_centers s1)).
  - (* M step *)
    unfold fz_obj. fold d k nr. rewrite !(rsum_swap _ (seq 0 nr) (seq 0 k)). apply rsum_le. intros j Hj. apply in_seq in Hj.
    destruct (@C60_weighted_means f centers it data draw os r (S n) s1 s2 HR E1 E2 j ltac:(unfold k in *; lia)) as (Hpos & Hmean).
    fold d nr in Hpos, Hmean.
    assert (Q : forall (C : dmat NumR) h, is_matrix C k d h ->
      rsum (map (fun x => cell (f_um s2) j x * sqdist (row data d x) (row (dm_mat C) d j)) (seq 0 nr)) =
      rsum (map (fun c => rsum (map (fun x => cell (f_um s2) j x * ((nth (x * d + c) data 0 - cell C j c) * (nth (x * d + c) data 0 - cell C j c))) (seq 0 nr))) (seq 0 d))).
    { intros C h HC. rewrite <- (rsum_swap _ (seq 0 nr) (seq 0 d)). apply rsum_ext. intros x Hx. apply in_seq in Hx.
      rewrite (@sqdist_sum d) by first [apply Ld; lia | exact (Lc C h j HC ltac:(lia))]. rewrite <- rsum_map_scale. apply rsum_ext. intros c Hc. apply in_seq in Hc.
      assert (Q1 : nth c (row data d x) 0 = nth (x * d + c) data 0) by (unfold row; apply nth_slice; lia).
      assert (Q2 : nth c (row (dm_mat C) d j) 0 = cell C j c).
      { unfold cell. destruct HC as (_ & -> & _). unfold row. apply nth_slice. lia. }
      apply (f_equal2 Rmult); [reflexivity|]. apply (f_equal2 Rmult); apply (f_equal2 Rminus); first [exact Q1|exact Q2]. }
    eapply Rle_trans; [right; exact (Q _ _ M2)|]. eapply Rle_trans; [|right; symmetry; exact (Q _ _ M1)]. apply rsum_le. intros c Hc. apply in_seq in Hc.
    pose proof (Hmean c ltac:(lia)) as Hmc. rewrite Hmc.
    exact (@weighted_mean_min nat (fun x => cell (f_um s2) j x) (fun x => nth (x * d + c) data 0) (seq 0 nr) (cell (f_centers s1) j c) Hpos).
  - (* E step *)
    unfold fz_obj. fold d k nr. apply rsum_le. intros x Hx. apply in_seq in Hx.
    destruct U1 as (_ & _ & _ & D1). destruct U2 as (_ & _ & _ & D2).
    apply Rle_trans with (rsum (map (fun j => fz_mu f data (f_centers s1) j x ^ Z.to_nat (f_m f) * fz_dist f data (f_centers s1) j x) (seq 0 k))).
    { right. apply rsum_ext. intros j Hj. apply in_seq in Hj. rewrite Hdist. f_equal. apply D2; lia. }
    eapply Rle_trans; [apply (@e_step_optimal f data (f_centers s1) x (fun j => fz_mu f data (f_centers s0) j x) Hk Hm)|].
    + intros j Hj. rewrite Hdist. destruct (sqdist_pos (row data d x) (row (dm_mat (f_centers s1)) d j)) as [Hp|Hz]; auto.
      exfalso. apply (Hnc x j ltac:(lia) Hj). symmetry in Hz. clear - Hz Ld Lc M1 Hx Hj.
      assert (G : forall a b, length a = length b -> sqdist a b = 0 -> a = b).
      { clear. induction a as [|u a IH]; intros [|v b] HL HZ; cbn in HL; try discriminate; auto.
        rewrite sqdist_cons in HZ. pose proof (sqdist_pos a b). pose proof (Rle_0_sqr (u - v)) as Q. unfold Rsqr in Q.
        assert ((u - v) * (u - v) = 0) by lra. assert (u = v) by nra. f_equal; auto. apply IH; [lia|lra]. }
      apply G; auto. transitivity d; [apply Ld; lia|]. symmetry. exact (Lc _ _ j M1 Hj).
    + intros j. left. apply mu_pos; auto.
    + apply mu_sum; auto.
    + right. apply rsum_ext. intros j Hj. apply in_seq in Hj. rewrite Hdist. f_equal. symmetry. apply D1; lia.
Qed.
