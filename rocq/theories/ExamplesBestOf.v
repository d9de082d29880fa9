(** Concrete multi-start runs: the hypotheses of C64 are met. *)
From Coq Require Import Reals Lra Floats.SpecFloat.
From Verif Require Import Base Num Spec DistModel ClustersModel ClustersView PartitionModel ParModel KmeansModel PruneModel BestOfModel.
From Verif Require Import MatLemmas VecLemmas ClustersProofs DistProofs PartitionProofs ParProofs NearProofs KmeansProofs UpdateProofs RunProofs PruneProofs PruneRun2.
From Verif Require Import InitProofs SimProofs KmeansR PropertiesKmeansR PropertiesRun KmsppR PropertiesKmspp PropertiesPrune ExamplesPrune PropertiesBestOf.
Set Implicit Arguments.

(** IEEE arithmetic: rows 0, 1, 10 and four starts: energies 9, 9, 1, 1: the third
    start is returned, the fourth has the same energy; by the standard (the vector
    is cleared) the second start is undefined behaviour *)
Definition bog : kcfg NumF := pp_cfg NumF 3 1 2 1 EUCL UserBuffer.
Definition bodr (i : nat) : draws NumF := mkDraws NumF (fun _ => nth i [1; 0; 2; 2] 0) (fun _ => nth i [fofZ 0; fofZ 1; fofZ 0; fofZ 0] (fofZ 0)) (fun _ => repeat 0 3).
Definition boshow (r : pp_result NumF) := (pp_best r, map (fun e => (ct_asg (snd e), ct_counts (snd e))) (pp_starts r), ct_asg (pp_out r), ct_counts (pp_out r)).

Example bestof_run :
  okmap boshow (kmeansPP true bog 4 (fl [0; 1; 10]%Z) bodr)
  = Some (3,
          [([Some 1; Some 0; Some 0], [2; 1]%Z);
           ([Some 0; Some 1; Some 1], [1; 2]%Z);
           ([Some 1; Some 1; Some 0], [1; 2]%Z);
           ([Some 1; Some 1; Some 0], [1; 2]%Z)], [Some 1; Some 1; Some 0], [1; 2]%Z).
Proof. vm_compute. reflexivity. Qed.
Example bestof_one : okmap boshow (kmeansPP false bog 1 (fl [0; 1; 10]%Z) bodr)
  = Some (1, [([Some 1; Some 0; Some 0], [2; 1]%Z)], [Some 1; Some 0; Some 0], [2; 1]%Z).
Proof. vm_compute. reflexivity. Qed.
Example bestof_ub : okmap boshow (kmeansPP false bog 2 (fl [0; 1; 10]%Z) bodr) = None.
Proof. vm_compute. reflexivity. Qed.

(** exact arithmetic: hypotheses of C64 met: rows a < b, two starts *)
Section ExR.
Local Open Scope R_scope.
Variables (a b : R).
Hypothesis Ha : 0 < a.
Hypothesis Hab : a < b.
Hypothesis Hb : b < 1000.

Definition bor : kcfg NumR := pp_cfg NumR 2 1 2 1 EUCL UserBuffer.
Definition bordr (i : nat) : draws NumR := mkDraws NumR (fun _ => i) (fun _ => 1 / 2) (fun _ => [0; 0]%nat).

Example C64_hyps : pp_args bor 2 [a; b] bordr.
Proof.
  unfold pp_args. split; [reflexivity|]. split; [cbn; lia|]. split; [unfold valid_input; cbn; splits; try lia; reflexivity|].
  split; [intros H; discriminate|]. split.
  - intros i Hi. split.
    + split; [exact Hi|]. intros ws E j. destruct (@build_workers_ok NumR bor [a; b]) as (ws' & E' & (Ht & _) & Lw & _); try (cbn; lia); try reflexivity.
      assert (Q := eq_trans (eq_sym E) E'). injection Q as <-. change (length ws = 1%nat) in Lw. destruct ws as [|w [|w2 ws]]; try discriminate.
      cbn [w_ranges map ntiles g_nrow bor pp_cfg] in Ht. intros [|[|t]] s n H; try discriminate. cbn in H. injection H as <- <-. cbn. cbn in Ht. lia.
    + intros t. cbn [bordr d_real]. lra.
  - cbn [bor pp_cfg g_nrow g_dt g_ncol].
    assert (Hm : 1000 < IZR dbl_max_Z) by (apply IZR_lt; vm_compute; reflexivity). revert Hm. generalize (IZR dbl_max_Z). intros M Hm r q Hr Hq.
    assert (E : forall x y : R, 0 < x < 1000 -> 0 < y < 1000 -> rdist EUCL [x] [y] < M).
    { intros x y Hx Hy. cbn [rdist]. rewrite ed1. unfold Rabs. destruct (Rcase_abs (x - y)); lra. }
    destruct r as [|[|r]]; [| |lia]; destruct q as [|[|q]]; try lia; apply E; lra.
Qed.
End ExR.
