(** Concrete G-means runs (IEEE double arithmetic; [flog], [fphi] and [ftrunc] for
    std::log, AndersonDarling::phi and the conversion to int): the hypotheses of C55 and
    C101 are met, C102 is false. *)
From Coq Require Import Permutation Floats.SpecFloat.
From Verif Require Import Base Num DistModel ClustersModel ClustersView MatLemmas PartitionModel ParModel KmeansModel ParProofs RunProofs Spec.
From Verif Require Import ContainersModel HclustModel HclustProofs HclustUpdate HclustIter HclustSplit HclustRun HclustDone HclustVerify XmeansModel XmeansRound XmeansRun PropertiesXmeans PropertiesHclust ExamplesHclust ExamplesXmeans GmeansModel PropertiesGmeans.
Set Implicit Arguments.
(** exp to about six digits *)
Definition fexp (x : F64) : F64 :=
  let y := SFdiv 53 1024 x (fofZ 1024) in
  let b := SFadd 53 1024 (fofZ 1) (SFadd 53 1024 y (SFdiv 53 1024 (SFmul 53 1024 y y) (fofZ 2))) in
  Nat.iter 10 (fun a => SFmul 53 1024 a a) b.
(** the normal distribution function to about three digits: the logistic function of
    1.5976 x + 0.07056 x^3 *)
Definition fphi (x : F64) : F64 :=
  let u := SFmul 53 1024 (SFdiv 53 1024 (fofZ (-15976)) (fofZ 10000))
      (SFmul 53 1024 x (SFadd 53 1024 (fofZ 1) (SFmul 53 1024 (SFdiv 53 1024 (fofZ 4417) (fofZ 100000)) (SFmul 53 1024 x x)))) in
  SFdiv 53 1024 (fofZ 1) (SFadd 53 1024 (fofZ 1) (fexp u)).
(** conversion to an integer; outside the range of [int] where it is undefined *)
Definition ftrunc (x : F64) : Z :=
  match x with
  | S754_finite s m e =>
    let a := match e with Z0 => Zpos m | Zpos _ => (Zpos m * 2 ^ e)%Z | Zneg _ => (Zpos m / 2 ^ (- e))%Z end in
    if s then (- a)%Z else a
  | S754_zero _ => 0%Z
  | _ => (2 ^ 31)%Z
  end.
Definition grun (g : hcfg NumF) st bind data dr (n fuel : nat) := @g_run NumF flog fphi ftrunc g st bind None FORGY data dr (hsch n) fuel.
Definition otr (q : hst NumF * list (rrec NumF)) := (map (fun i => oround i q) (seq 0 (length (snd q))), x_asg (fst q), map fst (x_final (fst q))).

(** 36 rows, eight clusters asked for.  In the third round the split of the twelve rows
    near 0 and 20 is kept, the splits of the three other groups are undone. *)
Definition dg36 : list F64 := hf [0; 20; 0; 1; 1; 0; 1; 20; 21; 21; 20; 21; 200; 202; 204; 206; 210; 213; 215; 217;
  2000; 2001; 2002; 2003; 2004; 2005; 2006; 2007; 2200; 2201; 2202; 2203; 2204; 2205; 2206; 2207]%Z.
Theorem gmeans_nonvacuous :
  let g := hc 36 8 7 10 in
  h_valid g dg36 FORGY None (fun i => i * 20) /\ h_fair g dg36 (hsch 36) /\
  exists s pre rr post, grun g 0 false dg36 (fun i => i * 20) 36 10 = Ok (s, pre ++ rr :: post) /\
    partition_at (rr_mid rr) 3 0 7 /\ partition_at (rr_mid rr) 4 8 9 /\ partition_at (rr_end rr) 3 0 7 /\ hm_keys (x_hcl (xh (rr_end rr))) = [3] /\
    x_asg (xh (rr_mid rr)) = [0; 7; 0; 0; 0; 0; 0; 7; 7; 7; 7; 7; 8; 8; 8; 8; 9; 9; 9; 9; 10; 10; 10; 10; 11; 11; 11; 11; 12; 12; 12; 12; 13; 13; 13; 13] /\
    x_asg (xh (rr_end rr)) = [0; 7; 0; 0; 0; 0; 0; 7; 7; 7; 7; 7; 4; 4; 4; 4; 4; 4; 4; 4; 5; 5; 5; 5; 5; 5; 5; 5; 6; 6; 6; 6; 6; 6; 6; 6] /\
    x_asg s = x_asg (xh (rr_end rr)) /\ map fst (x_final s) = [4; 5; 6; 0; 7].
Proof.
  cbv zeta. assert (W : okmap (@w_ranges NumF) (build_workers (hc 36 8 7 10) dg36) = Some [(0, 36)]) by (vm_compute; reflexivity).
  assert (H : okmap (fun q : hst NumF * list (rrec NumF) => (match oround 2 q with Some (a, b, c, e) => (a, b, c, e) | None => ([], [], [], []) end,
       match nth_error (snd q) 2 with Some rr => hm_keys (x_hcl (xh (rr_end rr))) | None => [] end, length (snd q), x_asg (fst q), map fst (x_final (fst q))))
       (grun (hc 36 8 7 10) 0 false dg36 (fun i => i * 20) 36 10)
     = Some (([0; 7; 0; 0; 0; 0; 0; 7; 7; 7; 7; 7; 8; 8; 8; 8; 9; 9; 9; 9; 10; 10; 10; 10; 11; 11; 11; 11; 12; 12; 12; 12; 13; 13; 13; 13],
              [(3, Some (0, 7)); (4, Some (8, 9)); (5, Some (10, 11)); (6, Some (12, 13))],
              [0; 7; 0; 0; 0; 0; 0; 7; 7; 7; 7; 7; 4; 4; 4; 4; 4; 4; 4; 4; 5; 5; 5; 5; 5; 5; 5; 5; 6; 6; 6; 6; 6; 6; 6; 6], [(3, Some (0, 7))]), [3], 3,
              [0; 7; 0; 0; 0; 0; 0; 7; 7; 7; 7; 7; 4; 4; 4; 4; 4; 4; 4; 4; 5; 5; 5; 5; 5; 5; 5; 5; 6; 6; 6; 6; 6; 6; 6; 6], [4; 5; 6; 0; 7])) by (vm_compute; reflexivity).
  apply okmap_ex in W as (ws & Ew & Rw). apply okmap_ex in H as ((s & tr) & E & H).
  splits; [|exact (@hc_fair 36 8 7 10 dg36 ws Ew Rw)|].
  { apply hc_valid; try lia; reflexivity. }
  clear Ew Rw. cbn [fst snd] in H. apply pair_equal_spec in H as (H & H1). apply pair_equal_spec in H as (H & H2). apply pair_equal_spec in H as (H & H3). apply pair_equal_spec in H as (H & H4).
  unfold oround in H. cbn [snd] in H. destruct (nth_error tr 2) as [rr|] eqn:Er; [|apply nth_error_None in Er; clear - Er H3; lia].
  apply nth_error_split in Er as (pre & post & -> & _). apply pair_equal_spec in H as (H & H5). apply pair_equal_spec in H as (H & H6). apply pair_equal_spec in H as (H & H7).
  exists s, pre, rr, post. split; [exact E|]. clear E. splits; auto.
  - apply parts_at. rewrite H7. left. reflexivity.
  - apply parts_at. rewrite H7. right. left. reflexivity.
  - apply parts_at. rewrite H5. left. reflexivity.
  - rewrite H6. exact H2.
Qed.

(** C102 is false.  Four equal rows: the process is aborted (the projections of the rows
    have no spread); three equal rows among others: a NaN is converted to int; a
    strictness outside 0..4, which nothing rejects, reads past the table *)
Definition dg24 : list F64 := hf [0; 20; 0; 1; 1; 0; 1; 20; 21; 21; 20; 21; 200; 202; 210; 211; 2000; 2001; 2010; 2011; 2200; 2201; 2210; 2211]%Z.
Theorem C102_refuted :
  (h_valid (hc 4 2 2 20) d4s FORGY None dr01 /\ h_fair (hc 4 2 2 20) d4s (hsch 4) /\
     forall bind, grun (hc 4 2 2 20) 0 bind d4s dr01 4 10 = Err Abort) /\
  (h_valid (hc 24 8 2 10) dg24 FORGY None (fun i => i * 16) /\ h_fair (hc 24 8 2 10) dg24 (hsch 24) /\
     forall bind, grun (hc 24 8 2 10) 0 bind dg24 (fun i => i * 16) 24 10 = Err UB) /\
  (h_valid (hc 36 8 7 10) dg36 FORGY None (fun i => i * 20) /\ h_fair (hc 36 8 7 10) dg36 (hsch 36) /\
     forall bind, grun (hc 36 8 7 10) 5 bind dg36 (fun i => i * 20) 36 10 = Err UB /\ grun (hc 36 8 7 10) (-1) bind dg36 (fun i => i * 20) 36 10 = Err UB).
Proof.
  assert (A : forall b, xerr (grun (hc 4 2 2 20) 0 b d4s dr01 4 10) = Some Abort) by (intros [|]; vm_compute; reflexivity).
  assert (B : forall b, xerr (grun (hc 24 8 2 10) 0 b dg24 (fun i => i * 16) 24 10) = Some UB) by (intros [|]; vm_compute; reflexivity).
  assert (C : forall b, xerr (grun (hc 36 8 7 10) 5 b dg36 (fun i => i * 20) 36 10) = Some UB) by (intros [|]; vm_compute; reflexivity).
  assert (D : forall b, xerr (grun (hc 36 8 7 10) (-1) b dg36 (fun i => i * 20) 36 10) = Some UB) by (intros [|]; vm_compute; reflexivity).
  assert (W1 : okmap (@w_ranges NumF) (build_workers (hc 4 2 2 20) d4s) = Some [(0, 4)]) by (vm_compute; reflexivity).
  assert (W2 : okmap (@w_ranges NumF) (build_workers (hc 24 8 2 10) dg24) = Some [(0, 24)]) by (vm_compute; reflexivity).
  assert (W3 : okmap (@w_ranges NumF) (build_workers (hc 36 8 7 10) dg36) = Some [(0, 36)]) by (vm_compute; reflexivity).
  apply okmap_ex in W1 as (w1 & E1 & R1). apply okmap_ex in W2 as (w2 & E2 & R2). apply okmap_ex in W3 as (w3 & E3 & R3).
  split; [|split]; (split; [|split]).
  - apply hc_valid; unfold dr01; try lia; reflexivity.
  - exact (@hc_fair 4 2 2 20 d4s w1 E1 R1).
  - intros b. exact (@xerr_ex _ _ (A b)).
  - apply hc_valid; try lia; reflexivity.
  - exact (@hc_fair 24 8 2 10 dg24 w2 E2 R2).
  - intros b. exact (@xerr_ex _ _ (B b)).
  - apply hc_valid; try lia; reflexivity.
  - exact (@hc_fair 36 8 7 10 dg36 w3 E3 R3).
  - intros b. split; [exact (@xerr_ex _ _ (C b))|exact (@xerr_ex _ _ (D b))].
Qed.
