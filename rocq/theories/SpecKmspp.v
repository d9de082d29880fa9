(** Specification of kmeans++ seeding as a function of the data and the draws
    (no threads, no processes), and its relation to the recorded runs. *)
From Coq Require Import Reals Lra.
From Verif Require Import Base Num Spec DistModel ClustersModel ClustersView PartitionModel ParModel KmeansModel.
From Verif Require Import MatLemmas VecLemmas DistProofs PartitionProofs KmsppR.
Set Implicit Arguments.
Local Open Scope R_scope.

(** the distance of row [r] to the closest of the rows [ch], at most DBL_MAX *)
Definition kpp_dist (g : kcfg NumR) (data : list R) (ch : list nat) (r : nat) : R :=
  fold_right Rmin (IZR dbl_max_Z) (map (fun q => rdist (g_dt g) (row data (g_ncol g) r) (row data (g_ncol g) q)) ch).

(** the first position where the running sum of [dv] reaches [target] *)
Fixpoint first_reach (dv : list R) (acc target : R) : nat :=
  match dv with
  | [] => 0%nat
  | x :: dv' => if Rle_dec target (acc + x) then 0%nat else S (first_reach dv' (acc + x) target)
  end.

(** the next centre: the draw [u] in [0,1) points at a row, with the program's
    divisor RAND_MAX - 1 *)
Definition kpp_next (g : kcfg NumR) (data : list R) (ch : list nat) (u : R) : nat :=
  let dv := map (kpp_dist g data ch) (seq 0 (g_nrow g)) in
  first_reach dv 0 (rsum dv * u / (IZR RAND_MAX - 1)).

(** the rows chosen as the first [m] centres *)
Fixpoint kpp_seeds (g : kcfg NumR) (data : list R) (first : nat) (u : nat -> R) (m : nat) : list nat :=
  match m with
  | 0%nat => []
  | 1%nat => [first]
  | S m' => let ch := kpp_seeds g data first u m' in ch ++ [kpp_next g data ch (u (length ch - 1)%nat)]
  end.

(* ------------------------------------------------------------------ *)
Lemma seeds_S g data first u m : kpp_seeds g data first u (S (S m)) =
  kpp_seeds g data first u (S m) ++ [kpp_next g data (kpp_seeds g data first u (S m)) (u (length (kpp_seeds g data first u (S m)) - 1)%nat)].
Proof. reflexivity. Qed.

Lemma seeds_length g data first u m : length (kpp_seeds g data first u m) = m.
Proof. induction m as [|[|m] IH]; try reflexivity. rewrite seeds_S, app_length, IH. cbn. lia. Qed.

Lemma kpp_dist_min (g : kcfg NumR) (data : list R) ch r :
  (forall q, In q ch -> kpp_dist g data ch r <= rdist (g_dt g) (row data (g_ncol g) r) (row data (g_ncol g) q)) /\
  kpp_dist g data ch r <= IZR dbl_max_Z /\
  (kpp_dist g data ch r = IZR dbl_max_Z \/ exists q, In q ch /\ kpp_dist g data ch r = rdist (g_dt g) (row data (g_ncol g) r) (row data (g_ncol g) q)).
Proof.
  unfold kpp_dist. generalize (IZR dbl_max_Z) as M. intros M. induction ch as [|c ch IH]; cbn [map fold_right].
  - splits; auto; [intros q []|lra].
  - destruct IH as (H1 & H2 & H3). set (v := fold_right Rmin M _) in *. set (x := rdist _ _ (row data (g_ncol g) c)).
    pose proof (Rmin_l x v) as Hl. pose proof (Rmin_r x v) as Hr'. splits.
    + intros q [<-|Hq]; [exact Hl|]. specialize (H1 q Hq). lra.
    + lra.
    + assert (D : Rmin x v = x \/ Rmin x v = v) by (unfold Rmin; destruct (Rle_dec x v); auto). destruct D as [->| ->].
      * right. exists c. split; [left; reflexivity|reflexivity].
      * destruct H3 as [->|(q & Hq & ->)]; [left; reflexivity|right; exists q; split; [right; exact Hq|reflexivity]].
Qed.

Lemma mindist_kpp g data ch r v : mindist g data ch r v -> v = kpp_dist g data ch r.
Proof.
  intros (H1 & H2 & _ & H3). destruct (kpp_dist_min g data ch r) as (K1 & K2 & K3). change (IZR dbl_max_Z) with MAX in K2, K3. apply Rle_antisym.
  - destruct K3 as [->|(q & Hq & ->)]; auto.
  - destruct H3 as [->|(q & Hq & ->)]; auto.
Qed.

Lemma first_reach_spec : forall (dv : list R) acc target q, (q < length dv)%nat ->
  target <= acc + rsum (firstn (S q) dv) -> (forall q', (q' < q)%nat -> acc + rsum (firstn (S q') dv) < target) ->
  first_reach dv acc target = q.
Proof.
  induction dv as [|x dv IH]; intros acc target q Hq H1 H2; [cbn in Hq; lia|]. cbn [first_reach].
  destruct (Rle_dec target (acc + x)) as [Hle|Hgt].
  - destruct q as [|q]; [reflexivity|]. specialize (H2 0%nat ltac:(lia)). cbn [firstn rsum] in H2. lra.
  - destruct q as [|q]; [cbn [firstn rsum] in H1; lra|]. f_equal. apply IH.
    + cbn in Hq. lia.
    + change (firstn (S (S q)) (x :: dv)) with (x :: firstn (S q) dv) in H1. cbn [rsum] in H1. lra.
    + intros q' Hq'. specialize (H2 (S q') ltac:(lia)). change (firstn (S (S q')) (x :: dv)) with (x :: firstn (S q') dv) in H2. cbn [rsum] in H2. lra.
Qed.

Lemma firstn_S_nth {A} (l : list A) m x : nth_error l m = Some x -> firstn (S m) l = firstn m l ++ [x].
Proof. revert l. induction m as [|m IH]; intros [|y l] H; try discriminate; [injection H as ->; reflexivity|]. cbn [nth_error] in H. change (firstn (S (S m)) (y :: l)) with (y :: firstn (S m) l). rewrite (IH l H). reflexivity. Qed.

(** a recorded seeding is the specified one *)
Lemma recorded_seeds (g : kcfg NumR) (data : list R) ur chosen trace first k :
  trace_ok g data chosen trace -> picks_ok ur chosen trace -> nth_error chosen 0 = Some first ->
  Forall (fun r => (r < g_nrow g)%nat) chosen ->
  length chosen = k -> length trace = k -> chosen = kpp_seeds g data first ur k.
Proof.
  intros Ht Hp Hf Hch Lc Lt.
  assert (H : forall m, (S m <= k)%nat -> firstn (S m) chosen = kpp_seeds g data first ur (S m)).
  { induction m as [|m IH]; intros Hm.
    - destruct chosen as [|c chosen]; [discriminate|]. cbn in Hf. injection Hf as ->. reflexivity.
    - destruct (nth_error chosen (S m)) as [q|] eqn:Eq; [|apply nth_error_None in Eq; lia].
      destruct (nth_error trace m) as [dv|] eqn:Ed; [|apply nth_error_None in Ed; lia].
      rewrite (firstn_S_nth _ _ Eq), (IH ltac:(lia)), seeds_S. f_equal. f_equal.
      destruct (Ht m dv Ed) as (Ld & Hd). destruct (Hp m dv q Ed Eq) as (P1 & P2).
      assert (Edv : dv = map (kpp_dist g data (kpp_seeds g data first ur (S m))) (seq 0 (g_nrow g))).
      { apply nth_error_ext. intros r. rewrite nth_error_map, nth_error_seq. destruct (Nat.ltb_spec r (g_nrow g)) as [Hr|Hr].
        - destruct (nth_error dv r) as [v|] eqn:Ev; [|apply nth_error_None in Ev; lia]. cbn [option_map Nat.add]. f_equal. rewrite <- (IH ltac:(lia)). apply mindist_kpp. apply Hd. exact Ev.
        - apply nth_error_None. lia. }
      unfold kpp_next. cbv zeta. rewrite seeds_length, <- Edv. replace (S m - 1)%nat with m by lia. symmetry. apply first_reach_spec.
      + rewrite Ld. rewrite Forall_forall in Hch. apply Hch. eapply nth_error_In; exact Eq.
      + rewrite Rplus_0_l. exact P1.
      + intros q' Hq'. rewrite Rplus_0_l. apply P2. exact Hq'. }
  destruct k as [|k]; [destruct chosen; [reflexivity|discriminate]|]. rewrite <- (H k ltac:(lia)), <- Lc, firstn_all. reflexivity.
Qed.
