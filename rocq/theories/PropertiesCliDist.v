(** C121: the knord program (MPI), from its files to its result file. *)
From Coq Require Import Reals Lra Lia ZArith List String Permutation.
From Verif Require Import Base Num Spec DistModel ClustersModel PartitionModel ParModel KmeansModel PruneModel DistRunModel DistLloydModel.
From Verif Require Import VecLemmas MatLemmas DistProofs ParProofs KmeansProofs RunProofs InitProofs SimProofs PropertiesKmeans PropertiesKmeansR PropertiesRun PropertiesKmspp PruneRound PruneUpdate PropertiesPrune.
From Verif Require Import DistRunProofs DistRunProofs2 DistRunProofs3 ProcRows DistInitProofs DistRunProofs4 DistRunProofs5 PropertiesDistRun DistLloyd DistLloydInit PropertiesDistLloyd.
From Verif Require Import ContainersModel IoModel WriteModel SpecYaml WriteProofs PropertiesWrite CliModel CliProofs PropertiesCli.
Set Implicit Arguments.
Local Open Scope list_scope.

(** as [good_call], for the initialisation the parsed options end with *)
Definition good_dist_call {B} (dec : list B -> R) (a : kargs NumR) (f : kfiles B) (dt : dist_t) (it : init_t)
  (data : list R) (centers : option (list R)) : Prop :=
  let n := Z.to_nat (ka_nrow a) in let d := Z.to_nat (ka_ncol a) in
  (1 <= ka_nrow a)%Z /\ (1 <= ka_ncol a)%Z /\ (8 * ka_nrow a * ka_ncol a < 2 ^ 64)%Z /\ 1 <= ka_k a /\
  ka_dist a = dist_name dt /\ ka_init a = init_name it /\
  (exists bytes, kf_data f = Some bytes /\ Z.of_nat (length bytes) = (8 * ka_nrow a * ka_ncol a)%Z /\ data = values dec (n * d) bytes) /\
  match kf_centers f with
  | Some c => exists bytes, c = Some bytes /\ 8 * (ka_k a * d) <= length bytes /\ centers = Some (values dec (ka_k a * d) bytes)
  | None => it <> NONE /\ centers = None
  end.

(** the text describes a partition of the rows of the data file *)
Definition good_text (a : kargs NumR) (data : list R) (showd : R -> text) (r : res text) : Prop :=
  let n := Z.to_nat (ka_nrow a) in let d := Z.to_nat (ka_ncol a) in
  exists t f, r = Ok t /\ read_result t = Some f /\ describes n d (ka_k a) (row data d) showd f.

Section Engines.
Local Open Scope R_scope.

Lemma last_in A (x : A) l d : (1 <= length l)%nat -> exists i, nth_error l i = Some (last l d) /\ exists y, nth_error (x :: l) i = Some y.
Proof.
  intros H. destruct (@exists_last _ l) as (l' & z & ->); [intros Z0; rewrite Z0 in H; cbn in H; lia|].
  exists (length l'). split; [rewrite last_last, nth_error_app2, Nat.sub_diag by lia; reflexivity|].
  destruct (nth_error (x :: l' ++ [z]) (length l')) as [y|] eqn:E; [eauto|]. apply nth_error_None in E. cbn [length] in E. rewrite app_length in E. cbn in E. lia.
Qed.

Lemma udist_grows (g : kcfg NumR) P scheds : forall n iters qs tr i c f tr',
  udist_loop g P scheds n iters qs tr = Ok (i, c, f, tr') -> (length tr <= length tr')%nat /\ ((1 <= n)%nat -> (1 <= length tr')%nat).
Proof.
  induction n as [|n IH]; intros iters qs tr i c f tr' E; cbn [udist_loop] in E.
  - injection E as <- <- <- <-. split; [lia|lia].
  - apply bind_ok in E as ([qs1 nc] & _ & E). destruct (stop_test g nc).
    + injection E as <- <- <- <-. rewrite app_length. cbn [length]. lia.
    + destruct (IH _ _ _ _ _ _ _ E) as (H & _). rewrite app_length in H. cbn [length] in H. lia.
Qed.

Lemma dist_grows (g : kcfg NumR) scheds : forall n iters qs tr i c f tr',
  dist_loop g scheds n iters qs tr = Ok (i, c, f, tr') -> (length tr <= length tr')%nat /\ ((1 <= n)%nat -> (1 <= length tr')%nat).
Proof.
  induction n as [|n IH]; intros iters qs tr i c f tr' E; cbn [dist_loop] in E.
  - injection E as <- <- <- <-. split; [lia|lia].
  - apply bind_ok in E as ([qs1 nc] & _ & E). destruct (stop_test g nc).
    + injection E as <- <- <- <-. rewrite app_length. cbn [length]. lia.
    + destruct (IH _ _ _ _ _ _ _ E) as (H & _). rewrite app_length in H. cbn [length] in H. lia.
Qed.

Lemma udist_clustering (g : kcfg NumR) P data centers it draw ur ksched scheds rr :
  udist_args g P data centers it draw ur ksched scheds -> (1 <= g_max_iters g)%nat ->
  udist_run g P centers it data draw ur ksched scheds = Ok rr -> clustering (g_nrow g) (g_ncol g) (g_k g) data (ud_out rr).
Proof.
  intros A Hm E. destruct (@C105_result g P data centers it draw ur ksched scheds rr A E) as (R1 & R2 & (q0 & Eq & R3 & R4) & _). cbv zeta in *.
  assert (Dim : (ct_nrow (ud_out rr) = g_nrow g /\ ct_ncol (ud_out rr) = g_ncol g /\ ct_k (ud_out rr) = g_k g) /\ (1 <= length (ud_trace rr))%nat).
  { clear - E Hm. revert E. unfold udist_run. intros H. apply bind_ok in H as (qs & _ & H). apply bind_ok in H as (qs0 & _ & H). apply bind_ok in H as ([[[i c] f] tr] & El & H).
    apply bind_ok in H as (asg & _ & H). apply bind_ok in H as (q & _ & H). injection H as <-. split; [auto|]. cbn [ud_trace]. exact (proj2 (udist_grows _ _ _ _ _ _ _ El) Hm). }
  destruct Dim as ((D1 & D2 & D3) & Hl).
  destruct (@last_in _ (ud_init rr) (ud_trace rr) (ud_init rr) Hl) as (i & Ei & y & Ey). set (f := last (ud_trace rr) (ud_init rr)) in *.
  destruct (@C105_nearest g P data centers it draw ur ksched scheds rr A E i y f (conj Ey Ei)) as (La & Ha).
  assert (Hq : In q0 f) by (clear - Eq; clearbody f; destruct f; [discriminate|injection Eq as <-; left; reflexivity]).
  unfold clustering. split; [exact D1|]. split; [exact D2|]. split; [exact D3|]. rewrite R1. split; [exact La|]. split.
  - intros r Hr. destruct (Ha r Hr) as (a & H1 & H2 & _). eauto.
  - intros j Hj. cbv zeta. destruct (@C105_means g P data centers it draw ur ksched scheds rr A E f q0 j (nth_error_In _ _ Ei) Hq Hj) as (M1 & M2). rewrite R3, R4.
    split; [exact M2|]. etransitivity; [exact M1|]. unfold cluster_mean. destruct (members _ _ _ _ _); reflexivity.
Qed.

Lemma dist_clustering (g : kcfg NumR) P data centers it draw ur ksched scheds rr :
  dist_args g P data centers it draw ur ksched scheds -> start_finite g data centers it draw ur -> (1 <= g_max_iters g)%nat ->
  dist_prune_run g P centers it data draw ur ksched scheds = Ok rr -> clustering (g_nrow g) (g_ncol g) (g_k g) data (dr_out rr).
Proof.
  intros A Hf Hm E. destruct (@C35_dist_result g P data centers it draw ur ksched scheds rr A Hf E) as (R1 & R2 & (q0 & Eq & R3 & R4) & _). cbv zeta in *.
  assert (Dim : (ct_nrow (dr_out rr) = g_nrow g /\ ct_ncol (dr_out rr) = g_ncol g /\ ct_k (dr_out rr) = g_k g) /\ (1 <= length (dr_trace rr))%nat).
  { clear - E Hm. revert E. unfold dist_prune_run. intros H. apply bind_ok in H as (qs & _ & H). apply bind_ok in H as (qs0 & _ & H). apply bind_ok in H as ([[[i c] f] tr] & El & H).
    apply bind_ok in H as (asg & _ & H). apply bind_ok in H as (q & _ & H). injection H as <-. split; [auto|]. cbn [dr_trace]. exact (proj2 (dist_grows _ _ _ _ _ _ El) Hm). }
  destruct Dim as ((D1 & D2 & D3) & Hl).
  destruct (@last_in _ (dr_init rr) (dr_trace rr) (dr_init rr) Hl) as (i & Ei & y & Ey). set (f := last (dr_trace rr) (dr_init rr)) in *.
  assert (Hq : In q0 f) by (clear - Eq; clearbody f; destruct f; [discriminate|injection Eq as <-; left; reflexivity]).
  destruct (drun_fact A Hf E) as (Hst & Ht & _). pose proof A as [HP HG Hd Hnt Hk Hc Hdr Hfr].
  destruct (@turns_nth g P data _ _ _ i y f Ht Ey Ei) as (f0 & ((Hr & Hi0) & _) & _).
  assert (Hb : Forall (dbody g P data) f) by (eapply Forall_impl; [|exact Hi0]; cbn beta; intros x Hx; apply Hx).
  assert (Lg : length (concat (gcells f)) = g_nrow g) by (apply (@cc_len (g_nrow g) P); [exact HP|]; apply (@gcells_len g P data); auto).
  assert (La : length (gassign f) = g_nrow g) by (rewrite gassign_cells; unfold asg_of; rewrite map_length; exact Lg).
  unfold clustering. split; [exact D1|]. split; [exact D2|]. split; [exact D3|]. rewrite R1. split; [exact La|]. split.
  - intros r Hlt.
    assert (Hin : In (nth r (gassign f) None) (gassign f)) by (apply nth_In; rewrite La; exact Hlt).
    revert Hin. generalize (nth r (gassign f) None). intros o Hin. unfold gassign in Hin. apply in_concat in Hin as (l & Hl' & Hin).
    apply in_map_iff in Hl' as (q & <- & Hqf). rewrite Forall_forall in Hi0. destruct (Hi0 q Hqf) as (_ & As & _).
    unfold asg_of in Hin. apply in_map_iff in Hin as (c & <- & Hc'). destruct As as (Lc & As). apply In_nth_error in Hc' as (x & Ex).
    assert (Hx : (x < g_nrow (gq g P q))%nat) by (rewrite <- Lc; apply nth_error_Some; intros Z0; assert (Q := eq_trans (eq_sym Ex) Z0); discriminate Q). destruct (As x Hx) as (v & Ev & Hv). rewrite (nth_error_nth _ _ _ Ex) in Ev. exists v. split; [exact Ev|exact Hv].
  - intros j Hj. cbv zeta. destruct (@C35_dist_means g P data centers it draw ur ksched scheds rr A Hf E f q0 j (nth_error_In _ _ Ei) Hq Hj) as (M1 & M2). rewrite R3, R4.
    split; [exact M2|]. etransitivity; [exact M1|]. unfold cluster_mean. destruct (members _ _ _ _ _); reflexivity.
Qed.
End Engines.

Section Front.
Variables (B : Type) (enc : R -> list B) (dec : list B -> R).
Hypothesis enc_len : forall x, length (enc x) = 8.

Lemma dfront a f w dt it data centers inv (showd : R -> text) P : good_dist_call dec a f dt it data centers ->
  @length R data = Z.to_nat (ka_nrow a) * Z.to_nat (ka_ncol a) /\
  @knord NumR B enc dec inv showd P a f w =
    let* o := if ka_noprune a then
        let* rr := @udist_run NumR (k_cfg a dt) P centers it data (kdw_draw w) (kdw_real w) (kdw_ksched w) (kdw_scheds w) in Ok (ud_out rr)
      else
        let* rr := @dist_prune_run NumR (k_cfg a dt) P centers it data (kdw_draw w) (kdw_real w) (kdw_ksched w) (kdw_scheds w) in Ok (dr_out rr) in
    @write R showd (@as_result NumR inv o).
Proof.
  intros (H1 & H2 & H3 & Hk & Hd & Hi & (bytes & Ef & El & Ed) & Hc).
  split; [rewrite Ed; unfold values; rewrite map_length; apply seq_length|].
  unfold knord.
  assert (Ck : kd_check false a f = Ok bytes).
  { unfold kd_check. rewrite Ef. cbn [filesize].
    assert (Sz : (Z.of_nat (length bytes) =? w64 (8 * ka_nrow a * ka_ncol a))%Z = true).
    { apply Z.eqb_eq. rewrite El. unfold w64. symmetry. apply Z.mod_small. nia. }
    rewrite Sz. destruct (kf_centers f) as [c|].
    - destruct Hc as (b & -> & _). cbn [is_some checked orb Base.bind andb negb]. rewrite Bool.andb_false_r. reflexivity.
    - destruct Hc as (Hn & _). cbn [Base.bind is_some negb]. rewrite Bool.andb_true_r.
      assert (Q : (ka_init a =? "none")%string = false) by (rewrite Hi; destruct it; try reflexivity; congruence).
      rewrite Q. reflexivity. }
  rewrite Ck. cbn [Base.bind].
  match goal with |- context [@k_centers NumR B enc dec false a f ?w0] => set (w' := w0) end.
  assert (Cc : @k_centers NumR B enc dec false a f w' = Ok centers).
  { unfold k_centers. destruct (kf_centers f) as [c|]; [|destruct Hc as (_ & ->); reflexivity]. destruct Hc as (b & -> & Lb & ->).
    destruct (@read_ptr B R enc dec enc_len false (fresh w' (ka_k a * Z.to_nat (ka_ncol a))) (ka_k a) (Z.to_nat (ka_ncol a)) b) as (fl & E); [apply fresh_length|nia|exact Lb|].
    change (car NumR) with R. rewrite E. cbn [Base.bind fst]. rewrite objects_at. reflexivity. }
  rewrite Cc, Hi, init_name_type, Hd, dist_name_type. cbn [Base.bind]. cbv zeta. change (car NumR) with R. rewrite objects_at. fold (@values B R dec (Z.to_nat (ka_nrow a) * Z.to_nat (ka_ncol a)) bytes). rewrite <- Ed. reflexivity.
Qed.

Lemma dfinish a data o inv (showd : R -> text) : (forall x, plain (showd x)) ->
  @length R data = Z.to_nat (ka_nrow a) * Z.to_nat (ka_ncol a) ->
  clustering (Z.to_nat (ka_nrow a)) (Z.to_nat (ka_ncol a)) (ka_k a) data o ->
  good_text a data showd (@write R showd (@as_result NumR inv o)).
Proof.
  intros Hd Ld C. destruct (@clustering_text _ _ _ data o inv showd Hd Ld C) as (t & f & Ew & Er & D). exists t, f. auto.
Qed.
End Front.

(** -P (no pruning), any metric, any number of processes: a partition with its
    sizes and means, or the assertion that no distance exceeds the largest double
    fails *)
Theorem C121_knord : forall B (enc : R -> list B) (dec : list B -> R), (forall x, length (enc x) = 8) ->
  forall inv (showd : R -> text), (forall x, plain (showd x)) ->
  forall P (a : kargs NumR) f (w : kdworld NumR) dt it data centers,
  good_dist_call dec a f dt it data centers -> ka_noprune a = true -> 1 <= ka_iters a ->
  udist_args (k_cfg a dt) P data centers it (kdw_draw w) (kdw_real w) (kdw_ksched w) (kdw_scheds w) ->
  let r := knord (N := NumR) enc dec inv showd P a f w in
  good_text a data showd r \/ r = Err Abort.
Proof.
  intros B enc dec enc_len inv showd Hs P a f w dt it data centers G Hp Hi A r.
  destruct (@dfront B enc dec enc_len a f w dt it data centers inv showd P G) as (Ld & E). unfold r. rewrite E, Hp.
  destruct (@C105_no_ub (k_cfg a dt) P data centers it (kdw_draw w) (kdw_real w) (kdw_ksched w) (kdw_scheds w) A) as [(rr & Er)|Er]; change (car NumR) with R in Er |- *; rewrite Er; cbn [Base.bind]; [|right; reflexivity].
  left. apply dfinish; auto. exact (@udist_clustering (k_cfg a dt) P data centers it _ _ _ _ rr A Hi Er).
Qed.
Print Assumptions C121_knord.

(** with pruning *)
Theorem C121_knord_pruned : forall B (enc : R -> list B) (dec : list B -> R), (forall x, length (enc x) = 8) ->
  forall inv (showd : R -> text), (forall x, plain (showd x)) ->
  forall P (a : kargs NumR) f (w : kdworld NumR) dt it data centers,
  good_dist_call dec a f dt it data centers -> ka_noprune a = false -> 1 <= ka_iters a ->
  dist_args (k_cfg a dt) P data centers it (kdw_draw w) (kdw_real w) (kdw_ksched w) (kdw_scheds w) ->
  start_finite (k_cfg a dt) data centers it (kdw_draw w) (kdw_real w) ->
  good_text a data showd (knord (N := NumR) enc dec inv showd P a f w).
Proof.
  intros B enc dec enc_len inv showd Hs P a f w dt it data centers G Hp Hi A Hf.
  destruct (@dfront B enc dec enc_len a f w dt it data centers inv showd P G) as (Ld & E). rewrite E, Hp.
  destruct (@C35_run_succeeds (k_cfg a dt) P data centers it (kdw_draw w) (kdw_real w) (kdw_ksched w) (kdw_scheds w) A Hf) as (rr & Er); change (car NumR) with R in Er |- *; rewrite Er; cbn [Base.bind].
  apply dfinish; auto. exact (@dist_clustering (k_cfg a dt) P data centers it _ _ _ _ rr A Hf Hi Er).
Qed.
Print Assumptions C121_knord_pruned.

(* ------------------------------------------------------------------ *)
(** ** A call that meets the premises: the files of [C118_premises_met], two
    processes (with two and three rows) of two threads *)
Local Open Scope R_scope.
Definition exdsched (_ _ : nat) : list nat := [0; 1; 1; 0; 0; 1]%nat.
Definition exdworld : kdworld NumR := mkDWorld NumR (fun j => j) (fun _ => 1 / 2) exdsched exdsched (fun _ => 7).

Lemma exd_call np om : good_dist_call exdec (exargs np om) exfiles EUCL NONE [0; 1; 6; 10; 11] (Some [0; 1]).
Proof.
  unfold good_dist_call. cbv zeta. cbn [exargs ka_nrow ka_ncol ka_k ka_dist ka_init]. split; [lia|]. split; [lia|]. split; [lia|]. split; [lia|]. split; [reflexivity|]. split; [reflexivity|]. split.
  - eexists. split; [reflexivity|]. split; reflexivity.
  - eexists. split; [reflexivity|]. split; [cbn; lia|reflexivity].
Qed.

Lemma exd_ranges np om rank : (rank < 2)%nat -> 
  okmap (@w_ranges NumR) (build_workers (proc_cfg (k_cfg (exargs np om) EUCL) 2 rank) (proc_data (k_cfg (exargs np om) EUCL) 2 [0; 1; 6; 10; 11] rank)) =
  Some (if (rank =? 0)%nat then [(0, 1); (1, 1)] else [(0, 1); (1, 2)])%nat.
Proof.
  unfold k_cfg, exargs. cbn [ka_nrow ka_ncol ka_k ka_iters ka_threads ka_tol]. generalize (IZR 0), (IZR 1), (IZR 6), (IZR 10), (IZR 11). intros a b c d e.
  generalize (IZR (-1)). intros t. destruct rank as [|[|rank]]; [| |lia]; intros _; lazy; reflexivity.
Qed.

Lemma exd_complete np om : forall (i rank : nat) ws, (rank < 2)%nat ->
  build_workers (proc_cfg (k_cfg (exargs np om) EUCL) 2 rank) (proc_data (k_cfg (exargs np om) EUCL) 2 [0; 1; 6; 10; 11] rank) = Ok ws -> complete (w_ranges ws) (exdsched i rank).
Proof.
  intros i rank ws Hr E. pose proof (@exd_ranges np om rank Hr) as H. rewrite E in H. cbn [okmap] in H. injection H as ->.
  destruct rank as [|[|rank]]; [| |lia]; intros [|[|[|t]]] s n Ht; try discriminate; injection Ht as <- <-; cbn; lia.
Qed.

Lemma exd_args np om : dist_args (k_cfg (exargs np om) EUCL) 2 [0; 1; 6; 10; 11] (Some [0; 1]) NONE (kdw_draw exdworld) (kdw_real exdworld) (kdw_ksched exdworld) (kdw_scheds exdworld).
Proof.
  constructor.
  - cbn. lia.
  - cbn. lia.
  - reflexivity.
  - cbn. lia.
  - cbn. lia.
  - cbn. lia.
  - exact I.
  - intros i rank ws. apply exd_complete.
Qed.

Theorem C121_premises_met : forall (showd : R -> text) inv, (forall x, plain (showd x)) ->
  (good_text (exargs true false) [0; 1; 6; 10; 11] showd (knord (N := NumR) exenc exdec inv showd 2 (exargs true false) exfiles exdworld) \/
   knord (N := NumR) exenc exdec inv showd 2 (exargs true false) exfiles exdworld = Err Abort) /\
  good_text (exargs false false) [0; 1; 6; 10; 11] showd (knord (N := NumR) exenc exdec inv showd 2 (exargs false false) exfiles exdworld).
Proof.
  intros showd inv Hs. assert (L : forall x, length (exenc x) = 8%nat) by reflexivity. split.
  - apply (@C121_knord R exenc exdec L inv showd Hs 2 _ exfiles exdworld EUCL NONE _ (Some [0; 1]) (exd_call true false)); [reflexivity|cbn; lia|].
    destruct (exd_args true false). constructor; auto. cbn. lia.
  - apply (@C121_knord_pruned R exenc exdec L inv showd Hs 2 _ exfiles exdworld EUCL NONE _ (Some [0; 1]) (exd_call false false)); [reflexivity|cbn; lia|apply exd_args|].
    exact (@ex_finite false false).
Qed.

(* ------------------------------------------------------------------ *)
(** ** Calls whose files do not fit *)
Section Refuse.
Variables (N : Num) (B : Type) (enc : car N -> list B) (dec : list B -> car N).
Hypothesis enc_len : forall x, length (enc x) = 8%nat.
Notation knord := (@knord N B enc dec).

Lemma kd_size inv showd P a f w : (forall bytes, kf_data f = Some bytes -> Z.of_nat (length bytes) <> w64 (8 * ka_nrow a * ka_ncol a)) ->
  knord inv showd P a f w = Err Throw \/ knord inv showd P a f w = Err Abort.
Proof.
  intros H. unfold CliModel.knord, kd_check.
  assert (Q : (filesize (kf_data f) =? w64 (8 * ka_nrow a * ka_ncol a))%Z = false).
  { apply Z.eqb_neq. destruct (kf_data f) as [b|] eqn:E; [exact (H b eq_refl)|]. cbn [filesize]. unfold w64. intros Q.
    assert (M : ((2 ^ 64 - 1) mod 8 = (8 * ka_nrow a * ka_ncol a) mod 2 ^ 64 mod 8)%Z) by (rewrite Q; reflexivity).
    replace (2 ^ 64)%Z with (8 * 2 ^ 61)%Z in M at 2 by reflexivity.
    rewrite Z.rem_mul_r in M by lia. rewrite Z.mul_comm with (n := 8%Z) (m := (_ mod 2 ^ 61)%Z) in M. rewrite Z.mod_add, Z.mod_mod in M by lia.
    replace (8 * ka_nrow a * ka_ncol a)%Z with (ka_nrow a * ka_ncol a * 8)%Z in M by ring. rewrite Z.mod_mul in M by lia. discriminate M. }
  rewrite Q. destruct (kf_centers f) as [[c|]|]; cbn [is_some checked orb Base.bind]; [| right; reflexivity |];
  destruct (negb _); cbn [checked orb Base.bind]; auto.
Qed.

(** no data file, or one of another size (as long as the expected size fits in 64 bits) *)
Theorem C121_wrong_files : forall inv showd P a f w,
  kf_data f = None \/ (exists bytes, kf_data f = Some bytes /\ (0 <= 8 * ka_nrow a * ka_ncol a < 2 ^ 64)%Z /\ Z.of_nat (length bytes) <> (8 * ka_nrow a * ka_ncol a)%Z) ->
  knord inv showd P a f w = Err Throw \/ knord inv showd P a f w = Err Abort.
Proof.
  intros inv showd P a f w H. apply kd_size. intros bytes E. destruct H as [H|(b & H & Hr & Hl)]; rewrite E in H; [discriminate|]. injection H as <-.
  unfold w64. rewrite Z.mod_small by exact Hr. exact Hl.
Qed.

(** a centroid file that is not there, or too short; "none" without one *)
Theorem C121_wrong_centers : forall inv showd P a f w,
  kf_centers f = Some None \/ (exists c, kf_centers f = Some (Some c) /\ (length c < 8 * (ka_k a * Z.to_nat (ka_ncol a)))%nat) \/
  (ka_init a = "none"%string /\ kf_centers f = None) ->
  knord inv showd P a f w = Err Throw \/ knord inv showd P a f w = Err Abort.
Proof.
  intros inv showd P a f w H. destruct (kf_data f) as [bytes|] eqn:E; [|apply C121_wrong_files; auto]. unfold CliModel.knord, kd_check. rewrite E. destruct H as [H|[(c & H & Hl)|(Hi & H)]]; rewrite H; [right; reflexivity| |rewrite Hi; right; reflexivity].
  cbn [is_some checked orb Base.bind negb andb]. rewrite Bool.andb_false_r. cbn [negb checked orb Base.bind]. destruct (_ =? _)%Z; cbn [Base.bind]; [|left; reflexivity].
  right. unfold k_centers. rewrite H.
  rewrite (@read_short B (car N) enc dec enc_len); [reflexivity| |exact Hl]. unfold fresh. rewrite map_length. apply seq_length.
Qed.
End Refuse.
