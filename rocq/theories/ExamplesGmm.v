(** Concrete mixture runs: the hypotheses of C65, C98, C99, C100 are met. *)
From Coq Require Import Reals Lra Floats.SpecFloat.
From Verif Require Import Base Num Spec DistModel ClustersModel PartitionModel ParModel KmeansModel MatrixModel GmmModel.
From Verif Require Import MatLemmas PartitionProofs ParProofs KmeansProofs RunProofs PropertiesRun PropertiesGmm ExamplesPrune.
Set Implicit Arguments.

(** std::log2 at the values the examples need *)
Definition elog2 (x : F64) : F64 := match x with S754_zero _ => S754_infinity true | _ => fofZ 2 end.
Definition gg (nt : Z) nrow : kcfg NumF := mkCfg NumF nrow 1 2 10 nt (fofZ (-1)) EUCL UserBuffer.
Definition gord1 (_ : nat) : list (nat * nat) := [(0, 0); (0, 1)].
Definition gord2 (_ : nat) : list (nat * nat) := [(0, 0); (1, 0); (1, 1); (0, 1)].
Definition gdr : draws NumF := mkDraws NumF (fun _ => 0) (fun _ => fofZ 1) (fun _ => []).
Definition gshow (r : bool * gmm_t NumF) := (fst r, go_iters (snd r), go_resp (snd r)).

(** one worker, two rows, two components *)
Example gmm_run_nan : okmap gshow (@soft_run NumF elog2 (fofZ 6) true true (gg 1 2) (Some (fl [0; 5]%Z)) NONE (fl [1; 4]%Z) gdr gord1)
  = Some (true, 1, [S754_nan; S754_nan]).
Proof. vm_compute. reflexivity. Qed.
(** two workers with two rows each: rows 2 and 3 of the matrix keep their zeros *)
Example gmm_two_workers : okmap (@gm_P NumF) (let* s := gmm_create (gg 2 4) (Some (fl [0; 5]%Z)) in let* ws := build_workers (gg 2 4) (fl [1; 4; 5; 6]%Z) in
    @estep NumF elog2 (fofZ 6) (gg 2 4) ws (gord2 1) s)
  = Some ([S754_nan; S754_nan; S754_nan; S754_nan] ++ repeat (S754_zero false) 4).
Proof. vm_compute. reflexivity. Qed.
(** one worker, four rows: out of bounds *)
Example gmm_oob : okmap gshow (@soft_run NumF elog2 (fofZ 6) true true (gg 1 4) (Some (fl [0; 5]%Z)) NONE (fl [1; 4; 5; 6]%Z) gdr (fun _ => [(0, 0); (0, 1); (0, 2); (0, 3)])) = None.
Proof. vm_compute. reflexivity. Qed.

Lemma gg_workers : exists ws, build_workers (gg 1 2) (fl [1; 4]%Z) = Ok ws /\ length ws = 1.
Proof.
  destruct (@build_workers_ok NumF (gg 1 2) (fl [1; 4]%Z)) as (ws & E & _ & L & _); try (cbn; lia); try reflexivity.
  exists ws. split; [exact E|]. rewrite L. reflexivity.
Qed.
(** hypotheses of C65_result_nan_refuted met *)
Example C65_hyps : exists ws conv out, elog2 (S754_zero false) = S754_infinity true /\ valid_input (gg 1 2) (fl [1; 4]%Z) /\
  build_workers (gg 1 2) (fl [1; 4]%Z) = Ok ws /\ length ws = 1 /\
  (forall t row, In (t, row) (gord1 1) <-> t = 0 /\ row < g_nrow (gg 1 2)) /\
  @soft_run NumF elog2 (fofZ 6) true true (gg 1 2) (Some (fl [0; 5]%Z)) NONE (fl [1; 4]%Z) gdr gord1 = Ok (conv, out).
Proof.
  destruct gg_workers as (ws & Ew & L). pose proof gmm_run_nan as H. apply okmap_ex in H as ((conv & out) & E & _).
  exists ws, conv, out. split; [reflexivity|]. split; [unfold valid_input; cbn; splits; try lia; reflexivity|]. split; [exact Ew|]. split; [exact L|]. split; [|exact E].
  clear. intros t row. cbn. split; [intros [Q|[Q|[]]]; injection Q as <- <-; lia|]. intros (-> & H). destruct row as [|[|row]]; [left|right; left|lia]; reflexivity.
Qed.

(** hypotheses of C98_completes_partial met: the same run over R *)
Section ExR.
Local Open Scope R_scope.
Definition ggR : kcfg NumR := mkCfg NumR 2 1 2 10 1 (-1) EUCL UserBuffer.
Example C98_hyps : exists ws, valid_input ggR [1; 4] /\ build_workers ggR [1; 4] = Ok ws /\
  (forall t row, In (t, row) (gord1 1) -> (row < g_k ggR)%nat /\ exists w, nth_error ws t = Some w /\ (row < w_nrow w)%nat).
Proof.
  destruct (@build_workers_ok NumR ggR [1; 4]) as (ws & E & (Ht & _) & Lw & _); try (cbn; lia); try reflexivity.
  exists ws. split; [unfold valid_input; cbn; splits; try lia; reflexivity|]. split; [exact E|].
  change (length ws = 1%nat) in Lw. destruct ws as [|w [|w2 ws]]; try discriminate. cbn [w_ranges map ntiles g_nrow ggR] in Ht.
  intros t row [Q|[Q|[]]]; injection Q as <- <-; (split; [cbn; lia|]; exists w; split; [reflexivity|lia]).
Qed.
End ExR.
