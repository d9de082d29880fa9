(** Concrete X-means runs (IEEE double arithmetic, [flog] for std::log): the hypotheses
    of C55, C56, C86-C90 are met; C56, C87 and C89 are false of the program without
    their premises. *)
From Coq Require Import Permutation Floats.SpecFloat.
From Verif Require Import Base Num DistModel ClustersModel ClustersView MatLemmas PartitionModel ParModel KmeansModel ParProofs RunProofs Spec.
From Verif Require Import ContainersModel HclustModel HclustProofs HclustUpdate HclustIter HclustSplit HclustRun HclustDone HclustVerify XmeansModel XmeansRound XmeansRun PropertiesXmeans PropertiesHclust ExamplesHclust.
Set Implicit Arguments.

(** the natural logarithm to about six digits: the exponent times ln 2, and the series
    2 (y + y^3/3 + ...), y = (m - 1) / (m + 1), for the mantissa m in [1, 2) *)
Definition flog (x : F64) : F64 :=
  match x with
  | S754_finite false mt e =>
      let ex := Z.log2 (Zpos mt) in
      let m := SFdiv 53 1024 (fofZ (Zpos mt)) (fofZ (2 ^ ex)) in
      let y := SFdiv 53 1024 (SFsub 53 1024 m (fofZ 1)) (SFadd 53 1024 m (fofZ 1)) in
      let y2 := SFmul 53 1024 y y in
      let q := fold_left (fun acc c => SFadd 53 1024 (SFmul 53 1024 acc y2) (SFdiv 53 1024 (fofZ 2) (fofZ c))) [9; 7; 5; 3; 1]%Z (fofZ 0) in
      SFadd 53 1024 (SFmul 53 1024 (fofZ (e + ex)) (S754_finite false 6243314768165359 (-53))) (SFmul 53 1024 q y)
  | S754_zero _ => S754_infinity true
  | S754_infinity false => x
  | _ => S754_nan
  end.
Definition f2pi : F64 := S754_finite false 7074237752028440 (-50).
Definition ford (_ : nat) (l : list (score NumF)) : list (score NumF) := l.
Lemma ford_ok : x_orders ford.
Proof. intros i l. apply Permutation_refl. Qed.
Definition frun (g : hcfg NumF) bind data dr (n fuel : nat) := @x_run NumF flog f2pi g bind None FORGY data dr (hsch n) ford fuel.

Definition xerr (r : res (hst NumF * list (rrec NumF))) : option err := match r with Ok _ => None | Err e => Some e end.
Lemma xerr_ex r e : xerr r = Some e -> r = Err e.
Proof. destruct r; cbn; congruence. Qed.

Definition parts (s : xst NumF) : list (nat * option (nat * nat)) :=
  map (fun p => (p, match nth_error (x_hcl (xh s)) p with Some (Some h) => Some (h_zero h, h_one h) | _ => None end)) (hm_keys (x_hcl (xh s))).
Lemma parts_at (s : xst NumF) p l r : In (p, Some (l, r)) (parts s) -> partition_at s p l r.
Proof.
  unfold parts. intros H. apply in_map_iff in H as (q & E & _). unfold partition_at.
  destruct (nth_error (x_hcl (xh s)) q) as [[h|]|] eqn:Eh; try (injection E; discriminate). injection E as <- <- <-. exists h. auto.
Qed.

Definition oround (i : nat) (q : hst NumF * list (rrec NumF)) :=
  match nth_error (snd q) i with
  | Some rr => Some (x_asg (xh (rr_mid rr)), parts (rr_mid rr), x_asg (xh (rr_end rr)), parts (rr_end rr))
  | None => None end.

(** eight rows, four clusters asked for; in the second round the split of the rows
    0, 1, 10, 11 is kept, the split of 1000, 1002, 1004, 1006 is rejected *)
Definition dxr : list F64 := hf [0; 1; 10; 11; 1000; 1002; 1004; 1006]%Z.
Theorem xmeans_nonvacuous :
  let g := hc 8 4 2 20 in
  h_valid g dxr FORGY None (fun i => i * 4) /\ h_fair g dxr (hsch 8) /\ x_orders ford /\
  exists s pre rr post, frun g false dxr (fun i => i * 4) 8 6 = Ok (s, pre ++ rr :: post) /\
    partition_at (rr_mid rr) 1 3 4 /\ partition_at (rr_mid rr) 2 5 6 /\
    x_asg (xh (rr_mid rr)) = [3; 3; 4; 4; 5; 5; 6; 6] /\ x_asg (xh (rr_end rr)) = [3; 3; 4; 4; 2; 2; 2; 2] /\
    x_asg s = [3; 3; 4; 4; 2; 2; 2; 2] /\ map fst (x_final s) = [2; 3; 4].
Proof.
  cbv zeta. assert (W : okmap (@w_ranges NumF) (build_workers (hc 8 4 2 20) dxr) = Some [(0, 8)]) by (vm_compute; reflexivity).
  assert (H : okmap (fun q : hst NumF * list (rrec NumF) => (oround 1 q, x_asg (fst q), map fst (x_final (fst q)))) (frun (hc 8 4 2 20) false dxr (fun i => i * 4) 8 6)
     = Some (Some ([3; 3; 4; 4; 5; 5; 6; 6], [(1, Some (3, 4)); (2, Some (5, 6))], [3; 3; 4; 4; 2; 2; 2; 2], [(1, Some (3, 4))]),
             [3; 3; 4; 4; 2; 2; 2; 2], [2; 3; 4])) by (vm_compute; reflexivity).
  apply okmap_ex in W as (ws & Ew & Rw). apply okmap_ex in H as ((s & tr) & E & H).
  splits; [|exact (@hc_fair 8 4 2 20 dxr ws Ew Rw)|exact ford_ok|].
  { apply hc_valid; try lia; reflexivity. }
  clear Ew Rw. cbn [fst snd] in H. unfold oround in H. cbn [snd] in H.
  destruct (nth_error tr 1) as [rr|] eqn:Er; [|discriminate]. apply nth_error_split in Er as (pre & post & -> & _).
  injection H as H1 H2 H3 H4 H5 H6. exists s, pre, rr, post. splits; auto.
  - apply parts_at. rewrite H2. left. reflexivity.
  - apply parts_at. rewrite H2. right. left. reflexivity.
Qed.

(** C56 is false: sixteen rows, sixteen clusters asked for.  In the fourth round the
    partition with id 0 consists of the rows 0 and 1, which hold 0 and 1, but the mean
    stored for it is above 493: its id was the root's *)
Definition dx16 : list F64 := hf [0; 1; 10; 11; 100; 101; 110; 111; 1000; 1001; 1010; 1011; 1100; 1101; 1110; 1111]%Z.
Theorem C56_refuted :
  let g := hc 16 16 2 20 in
  h_valid g dx16 FORGY None (fun i => i * 8) /\ h_fair g dx16 (hsch 16) /\ x_orders ford /\
  exists s pre rr post, frun g false dx16 (fun i => i * 8) 16 30 = Ok (s, pre ++ rr :: post) /\
    partition_at (rr_mid rr) 0 2 1 /\
    x_asg (xh (rr_mid rr)) = [2; 1; 14; 15; 16; 17; 18; 19; 10; 10; 11; 11; 12; 12; 13; 13] /\
    row dx16 1 0 = [fofZ 0] /\ row dx16 1 1 = [fofZ 1] /\
    nltb NumF (fofZ 493) (nth 0 (row (c_means (x_cl (rr_mid rr))) 1 0) (nzero NumF)) = true.
Proof.
  cbv zeta. assert (W : okmap (@w_ranges NumF) (build_workers (hc 16 16 2 20) dx16) = Some [(0, 16)]) by (vm_compute; reflexivity).
  assert (H : okmap (fun q : hst NumF * list (rrec NumF) => match nth_error (snd q) 3 with
       | Some rr => Some (parts (rr_mid rr), x_asg (xh (rr_mid rr)), nltb NumF (fofZ 493) (nth 0 (row (c_means (x_cl (rr_mid rr))) 1 0) (nzero NumF)))
       | None => None end) (frun (hc 16 16 2 20) false dx16 (fun i => i * 8) 16 30)
     = Some (Some ([(0, Some (2, 1)); (7, Some (14, 15)); (8, Some (16, 17)); (9, Some (18, 19))],
                   [2; 1; 14; 15; 16; 17; 18; 19; 10; 10; 11; 11; 12; 12; 13; 13], true))) by (vm_compute; reflexivity).
  apply okmap_ex in W as (ws & Ew & Rw). apply okmap_ex in H as ((s & tr) & E & H).
  splits; [|exact (@hc_fair 16 16 2 20 dx16 ws Ew Rw)|exact ford_ok|].
  { apply hc_valid; try lia; reflexivity. }
  clear Ew Rw. cbn [fst snd] in H.
  destruct (nth_error tr 3) as [rr|] eqn:Er; [|discriminate]. apply nth_error_split in Er as (pre & post & -> & _).
  injection H as H1 H2 H3. exists s, pre, rr, post. splits; auto.
  apply parts_at. rewrite H1. left. reflexivity.
Qed.

(** C89 is false: the output cluster 0 has the rows holding 0, 2, 4 and 6; the centroid
    returned for it is negative *)
Definition dx30 : list F64 := hf [0; -100; -20; 2; 4; 6; -21; -101; -102; -103; -104; -105; -106; -107; -108; -109; -110; -111;
  100; 101; 102; 103; 104; 105; 106; 107; 108; 109; 110; 111]%Z.
Theorem C89_refuted :
  let g := hc 30 16 3 20 in
  h_valid g dx30 FORGY None (fun i => i * 18) /\ h_fair g dx30 (hsch 30) /\ x_orders ford /\
  exists s tr v, frun g false dx30 (fun i => i * 18) 30 30 = Ok (s, tr) /\ In (0, v) (x_final s) /\
    filter (fun i => nth i (x_asg s) 0 =? 0) (seq 0 30) = [0; 3; 4; 5] /\
    map (row dx30 1) [0; 3; 4; 5] = [[fofZ 0]; [fofZ 2]; [fofZ 4]; [fofZ 6]] /\
    nltb NumF (nth 0 v (nzero NumF)) (fofZ 0) = true.
Proof.
  cbv zeta. assert (W : okmap (@w_ranges NumF) (build_workers (hc 30 16 3 20) dx30) = Some [(0, 30)]) by (vm_compute; reflexivity).
  assert (H : okmap (fun q : hst NumF * list (rrec NumF) => (filter (fun i => nth i (x_asg (fst q)) 0 =? 0) (seq 0 30),
       map (fun iv : nat * list F64 => nltb NumF (nth 0 (snd iv) (nzero NumF)) (fofZ 0)) (filter (fun iv : nat * list F64 => fst iv =? 0) (x_final (fst q)))))
       (frun (hc 30 16 3 20) false dx30 (fun i => i * 18) 30 30)
     = Some ([0; 3; 4; 5], [true])) by (vm_compute; reflexivity).
  apply okmap_ex in W as (ws & Ew & Rw). apply okmap_ex in H as ((s & tr) & E & H).
  splits; [|exact (@hc_fair 30 16 3 20 dx30 ws Ew Rw)|exact ford_ok|].
  { apply hc_valid; try lia; reflexivity. }
  clear Ew Rw. cbn [fst snd] in H. apply pair_equal_spec in H as (H1 & H2).
  destruct (filter (fun iv : nat * list F64 => fst iv =? 0) (x_final s)) as [|[i v] t] eqn:Ef; [discriminate|].
  assert (Hi : In (i, v) ((i, v) :: t)) by (left; reflexivity). rewrite <- Ef in Hi. apply filter_In in Hi as (Hi & Hz).
  cbn [fst] in Hz. apply Nat.eqb_eq in Hz. subst i. cbn [map snd] in H2. apply (f_equal (hd false)) in H2. cbn [hd] in H2. exists s, tr, v.
  split; [exact E|]. split; [exact Hi|]. split; [exact H1|]. split; [vm_compute; reflexivity|exact H2].
Qed.

(** C87 is false without its premise: four equal rows; the consistency check aborts *)
Theorem C87_refuted :
  let g := hc 4 2 2 20 in
  h_valid g d4s FORGY None dr01 /\ h_fair g d4s (hsch 4) /\ x_orders ford /\
  frun g false d4s dr01 4 10 = Err Abort /\
  exists s tr, frun g true d4s dr01 4 10 = Ok (s, tr) /\ x_asg s = [3; 3; 3; 3] /\ map fst (x_final s) = [2; 3; 4].
Proof.
  cbv zeta. assert (W : okmap (@w_ranges NumF) (build_workers (hc 4 2 2 20) d4s) = Some [(0, 4)]) by (vm_compute; reflexivity).
  assert (A : xerr (frun (hc 4 2 2 20) false d4s dr01 4 10) = Some Abort) by (vm_compute; reflexivity).
  assert (H : okmap (fun q : hst NumF * list (rrec NumF) => (x_asg (fst q), map fst (x_final (fst q)))) (frun (hc 4 2 2 20) true d4s dr01 4 10)
     = Some ([3; 3; 3; 3], [2; 3; 4])) by (vm_compute; reflexivity).
  apply okmap_ex in W as (ws & Ew & Rw). apply okmap_ex in H as ((s & tr) & E & H). cbn [fst snd] in H. injection H as H1 H2.
  splits; [|exact (@hc_fair 4 2 2 20 d4s ws Ew Rw)|exact ford_ok| |exists s, tr; auto].
  - apply hc_valid; unfold dr01; try lia. reflexivity.
  - exact (@xerr_ex _ _ A).
Qed.
