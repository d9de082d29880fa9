(** Lemmas for PropertiesCli: what each clustering engine returns, reading the
    files, and the text written. *)
From Coq Require Import Reals Lra Lia List String Permutation.
From Verif Require Import Base Num Spec DistModel ClustersModel ClustersView PartitionModel ParModel KmeansModel PruneModel OmpModel.
From Verif Require Import VecLemmas MatLemmas ParProofs KmeansProofs RunProofs InitProofs SimProofs PropertiesKmeans PropertiesKmeansR PropertiesRun PropertiesKmspp PruneRound PruneUpdate PruneRun PropertiesPrune PropertiesDistRun PropertiesPruneSame.
From Verif Require Import OmpProofs PropertiesOmp OmpPrune PropertiesOmpPrune.
From Verif Require Import ContainersModel IoModel WriteModel SpecYaml WriteProofs PropertiesWrite CliModel.
Set Implicit Arguments.
Local Open Scope list_scope.

(* ------------------------------------------------------------------ *)
(** * Reading *)
Section Read.
Variables (B T : Type) (enc : T -> list B) (dec : list B -> T).
Hypothesis enc_len : forall x, length (enc x) = 8.

Lemma skipn_plus {A} : forall a b (l : list A), skipn b (skipn a l) = skipn (a + b) l.
Proof. induction a as [|a IH]; intros b [|x l]; [reflexivity|reflexivity|destruct b; reflexivity|apply IH]. Qed.
Lemma objects_at : forall m (bs : list B), objects_of 8 dec m bs = map (fun i => dec (slice bs (8 * i) 8)) (seq 0 m).
Proof.
  induction m as [|m IH]; intros bs; [reflexivity|]. cbn [objects_of seq map]. f_equal. rewrite IH, <- seq_shift, map_map. apply map_ext.
  intros i. f_equal. unfold slice. rewrite skipn_plus. f_equal. f_equal. lia.
Qed.

Lemma objects_firstn : forall m (bs r : list B), length bs = 8 * m -> objects_of 8 dec m (bs ++ r) = objects_of 8 dec m bs.
Proof.
  induction m as [|m IH]; intros bs r L; [reflexivity|]. cbn [objects_of]. rewrite firstn_app, skipn_app. replace (8 - length bs) with 0 by lia.
  change (skipn 0 r) with r. rewrite firstn_O, app_nil_r, IH; [reflexivity|rewrite skipn_length; lia].
Qed.

Lemma objects_prefix : forall m (bs : list B), 8 * m <= length bs -> objects_of 8 dec m (firstn (8 * m) bs) = objects_of 8 dec m bs.
Proof. intros m bs L. rewrite <- (firstn_skipn (8 * m) bs) at 2. rewrite objects_firstn; [reflexivity|rewrite firstn_length; lia]. Qed.

Lemma bytes_length (l : list T) : length (bytes_of enc l) = 8 * length l.
Proof. unfold bytes_of. induction l as [|x l IH]; [reflexivity|]. cbn [map concat]. rewrite app_length, IH, enc_len. cbn [length]. lia. Qed.

Lemma read_ptr nd buf n d (bs : list B) : length buf = n * d -> 1 <= n * d -> 8 * (n * d) <= length bs ->
  exists f, bin_read_ptr 8 enc dec nd buf n d (IoModel.mkFile bs 0) = Ok (objects_of 8 dec (n * d) bs, f).
Proof.
  intros Lb H1 Hl. unfold bin_read_ptr, fread1. rewrite bytes_length, Lb. replace (8 * d * n) with (8 * (n * d)) by lia.
  destruct (Nat.ltb_spec (8 * (n * d)) (8 * (n * d))); [lia|]. cbn [IoModel.pos IoModel.content skipn].
  assert (Lg : length (firstn (8 * (n * d)) bs) = 8 * (n * d)) by (rewrite firstn_length; lia). rewrite Lg, Nat.eqb_refl.
  rewrite (skipn_all2 (n := 8 * (n * d)) (bytes_of enc buf)) by (rewrite bytes_length; lia). rewrite app_nil_r.
  replace (1 <=? 8 * (n * d)) with true by (symmetry; apply Nat.leb_le; lia). cbn [andb Base.bind]. unfold checked. rewrite Bool.orb_true_r. cbn [Base.bind].
  rewrite objects_prefix by exact Hl. eexists. reflexivity.
Qed.

Lemma read_short buf n d (bs : list B) : length buf = n * d -> length bs < 8 * (n * d) -> bin_read_ptr 8 enc dec false buf n d (IoModel.mkFile bs 0) = Err Abort.
Proof.
  intros Lb Hl. unfold bin_read_ptr, fread1. rewrite bytes_length, Lb. replace (8 * d * n) with (8 * (n * d)) by lia.
  destruct (Nat.ltb_spec (8 * (n * d)) (8 * (n * d))); [lia|]. cbn [IoModel.pos IoModel.content skipn].
  rewrite firstn_all2 by lia. destruct (Nat.eqb_spec (length bs) (8 * (n * d))); [lia|]. rewrite Bool.andb_false_r. reflexivity.
Qed.
End Read.

(* ------------------------------------------------------------------ *)
(** * Clusterings *)
Local Open Scope R_scope.

(** [o] is a partition of the rows with its sizes and means *)
Definition clustering (n d k : nat) (data : list R) (o : cluster_t NumR) : Prop :=
  ct_nrow o = n /\ ct_ncol o = d /\ ct_k o = k /\ length (ct_asg o) = n /\
  (forall r, (r < n)%nat -> exists a, nth r (ct_asg o) None = Some a /\ (a < k)%nat) /\
  forall j, (j < k)%nat -> let l := members n d data (ct_asg o) j in
    nth_error (ct_counts o) j = Some (Z.of_nat (length l)) /\
    row (ct_centroids o) d j = match l with [] => vzero d | _ => vmean d l end.

Lemma rows_in_members n d data asg j : length asg = n -> rows_in j asg = length (members n d data asg j).
Proof.
  intros <-. unfold rows_in, members. rewrite map_length.
  assert (G : forall (l pre : list (option nat)), length (filter (fun a => match a with Some c => Nat.eqb c j | None => false end) l) =
    length (filter (fun r => match nth r (pre ++ l) None with Some c => Nat.eqb c j | None => false end) (seq (length pre) (length l)))).
  { induction l as [|a l IH]; intros pre; [reflexivity|]. cbn [filter length seq].
    assert (E : nth (length pre) (pre ++ a :: l) None = a) by (rewrite app_nth2, Nat.sub_diag by lia; reflexivity). rewrite E.
    specialize (IH (pre ++ [a])). rewrite app_length in IH. cbn [length] in IH. rewrite Nat.add_1_r, <- app_assoc in IH. cbn [app] in IH.
    destruct (match a with Some c => Nat.eqb c j | None => false end); cbn [length]; rewrite IH; reflexivity. }
  exact (G asg []).
Qed.

Lemma run_clustering (g : kcfg NumR) centers it data dr scheds rr :
  valid_input g data -> fair g data scheds -> run g centers it data dr scheds = Ok rr -> (1 <= g_max_iters g)%nat ->
  clustering (g_nrow g) (g_ncol g) (g_k g) data (rr_out rr).
Proof.
  intros V F H Hm.
  destruct (@C14_no_invalid_id NumR g centers it data dr scheds rr V F H) as (_ & G). destruct (G Hm) as (La & Fa).
  destruct (@C15_returned_sizes NumR g centers it data dr scheds rr V F H Hm) as (Lc & Hc & _).
  destruct (@run_inv _ _ _ _ _ _ _ _ V F H) as (ws & _ & _ & _ & St & _ & Hout & _). cbv zeta in Hout.
  destruct (@C22_iteration_count_partial NumR g centers it data dr scheds rr V F H) as (T1 & T2).
  assert (Hlen : (1 <= length (rr_trace rr))%nat).
  { destruct (rr_converged rr) eqn:Ec.
    - destruct (T1 (or_introl eq_refl)) as (I1 & _). destruct (@C23_stops NumR g centers it data dr scheds rr V F H) as (_ & _ & S3 & _). cbv zeta in *.
      destruct (Nat.ltb_spec (length (rr_trace rr)) (g_max_iters g)) as [Hlt|Hge]; [|lia]. destruct (S3 Hlt) as (i & s & s' & _ & E & _). lia.
    - destruct (T2 eq_refl Hm) as (I1 & _). lia. }
  assert (Hs : exists i s s', iteration rr i s s' /\ last (rr_trace rr) (rr_init rr) = s').
  { destruct (@exists_last _ (rr_trace rr)) as (l & s' & El); [intros Z0; rewrite Z0 in Hlen; cbn in Hlen; lia|].
    exists (length l). unfold iteration. rewrite El.
    destruct (nth_error (rr_init rr :: l ++ [s']) (length l)) as [s|] eqn:Es.
    2:{ apply nth_error_None in Es. cbn [length] in Es. rewrite app_length in Es. cbn in Es. lia. }
    exists s, s'. split; [split; [reflexivity|]|apply last_last]. rewrite nth_error_app2, Nat.sub_diag by lia. reflexivity. }
  destruct Hs as (i & s & s' & Hit & El). rewrite El in Hout.
  unfold clustering. split; [rewrite Hout; reflexivity|]. split; [rewrite Hout; reflexivity|]. split; [rewrite Hout; reflexivity|]. split; [exact La|]. split.
  - intros r Hr. rewrite Forall_forall in Fa. assert (Hin : In (nth r (ct_asg (rr_out rr)) None) (ct_asg (rr_out rr))) by (apply nth_In; lia).
    destruct (Fa _ Hin) as (c & Ec & Hcl). exists c. auto.
  - intros j Hj. cbv zeta. split.
    + etransitivity; [apply (nth_error_nth' _ 0%Z); rewrite Lc; exact Hj|]. f_equal. rewrite Hc by exact Hj. f_equal. apply rows_in_members. exact La.
    + pose proof (@C16_centroids_are_means g centers it data dr scheds rr V F H i s s' Hit j Hj) as M. cbv zeta in M. rewrite Hout. cbn [ct_centroids ct_asg].
      exact M.
Qed.

Lemma prune_clustering (g : kcfg NumR) centers it data dr scheds rr :
  prune_args g data centers it dr scheds -> start_finite g data centers it (d_int dr) (d_real dr) -> (1 <= g_max_iters g)%nat ->
  prune_run g centers it data dr scheds = Ok rr -> clustering (g_nrow g) (g_ncol g) (g_k g) data (pr_out rr).
Proof.
  intros A Hfin Hm E. pose proof (prune_start A E) as Hst.
  assert (Hfi : finite_init g data (pr_init rr)) by (intros r j Hr Hj; rewrite (Hst j Hj); apply Hfin; assumption).
  destruct (@C36_result g centers it data dr scheds rr A E Hfi Hm) as (f & Ef & _ & Ea & Ec & Em).
  assert (Hin : In f (pr_trace rr)) by (eapply nth_error_In; exact Ef).
  destruct (@prun_ok_facts g centers it data dr scheds rr (proj1 A) (proj1 (proj2 A)) (proj1 (proj2 (proj2 A))) (proj2 (proj2 (proj2 A))) E Hfi) as (ws & s0 & Hws & Hpre & Hi0 & Hfacts).
  destruct Hfacts as [Hz|(s1 & more & Et & _ & _ & _ & _ & Hall & _ & Eo)]; [rewrite Hz in Hin; destruct Hin|].
  rewrite Et in Hin. rewrite Forall_forall in Hall. pose proof (Hall f Hin) as (_ & _ & _ & _ & (La & Ha) & _). rewrite <- Et in Hin.
  unfold clustering. split; [rewrite Eo; reflexivity|]. split; [rewrite Eo; reflexivity|]. split; [rewrite Eo; reflexivity|]. rewrite Ea, Ec, Em.
  split; [unfold asg_of; rewrite map_length; exact La|]. split.
  - intros r Hr. destruct (Ha r Hr) as (a & Eq & Hlt). exists a. split; [|exact Hlt]. rewrite <- Eq. unfold asg_of, casg.
    exact (map_nth (fun c : car NumR * option nat * bool => snd (fst c)) (ps_cells f) dcell r).
  - intros j Hj. destruct (@C36_incremental_means g centers it data dr scheds rr A E Hfi f Hin j Hj) as (M1 & M2). split; [exact M2|exact M1].
Qed.

(** the OpenMP entry points *)
Lemma omp_out_dims N (g : kcfg N) da ia centers data chunks red d scheds rr : compute_kmeans g da ia centers data chunks red d scheds = Ok rr ->
  ct_nrow (rr_out rr) = g_nrow g /\ ct_ncol (rr_out rr) = g_ncol g /\ ct_k (rr_out rr) = g_k g.
Proof.
  unfold compute_kmeans. destruct (k_rejected _ _); [discriminate|]. intros H. apply bind_ok in H as (o & _ & H).
  destruct (match da with DEucl => _ | _ => _ end) as [dt|]; [|discriminate]. apply bind_ok in H as (s & _ & H).
  apply bind_ok in H as ([[[i c] f] tr] & E & H). injection H as <-. auto.
Qed.
Lemma omin_out_dims N (g : kcfg N) da ia centers data chunks red d scheds rr : compute_min_kmeans g da ia centers data chunks red d scheds = Ok rr ->
  ct_nrow (pr_out rr) = g_nrow g /\ ct_ncol (pr_out rr) = g_ncol g /\ ct_k (pr_out rr) = g_k g.
Proof.
  unfold compute_min_kmeans. destruct (k_rejected _ _); [discriminate|]. intros H. apply bind_ok in H as (o & _ & H). apply bind_ok in H as (dm & _ & H).
  destruct (match da with DEucl => _ | _ => _ end) as [dt|]; [|discriminate]. apply bind_ok in H as (s & _ & H). apply bind_ok in H as (mp & _ & H).
  apply bind_ok in H as (s1 & _ & H). apply bind_ok in H as ([[[i c] f] tr] & E & H). injection H as <-. auto.
Qed.

Lemma omp_clustering (g0 : kcfg NumR) da dt ia it centers data chunks red d scheds :
  OmpProofs.dist_of da = Some dt -> init_of ia = Some it -> (2 <= g_max_iters g0)%nat ->
  let g := with_dt g0 dt in omp_call g it centers data chunks red d scheds ->
  match compute_kmeans g0 da ia centers data chunks red d scheds with
  | Ok rr => clustering (g_nrow g) (g_ncol g) (g_k g) data (rr_out rr)
  | Err e => e = Abort
  end.
Proof.
  intros Hda Hia Hm g C. set (g1 := with_iters g (g_max_iters g0 - 1)).
  pose proof (oc_valid C) as V. assert (V' : valid_input g1 data) by exact V.
  destruct (get_workers V') as (ws & Ew & W).
  set (sch := fun _ : nat => seq_sched (w_ranges ws)).
  assert (F : fair g1 data sch).
  { intros ws' E i. assert (Q := eq_trans (eq_sym Ew) E). injection Q as <-. apply seq_sched_complete. }
  set (d1 := mkDraws NumR (d_int d) (d_real d) sch).
  assert (A : omp_args g1 it centers data chunks d1 d sch scheds).
  { unfold omp_args. split; [exact V'|]. split; [exact (oc_k C)|]. split; [exact (oc_kmax C)|]. split; [exact (oc_chunks C)|]. split; [exact F|].
    split; [exact (oc_sched C)|]. split; [reflexivity|]. split; [reflexivity|]. pose proof (oc_draws C) as D. split; [|split].
    - unfold draws_ok. destruct it; [exact D|exact D| |exact I]. destruct D as (D & _). split; [exact D|exact F].
    - intros ->. apply D.
    - unfold centers_ok. destruct it; auto. }
  pose proof (@C93_openmp_is_library g0 da dt ia it centers data chunks red d1 d sch scheds Hda Hia A (oc_red C)) as H. cbv zeta in H.
  change (with_iters (with_dt g0 dt) (g_max_iters g0 - 1)) with g1 in H.
  match type of H with match ?u with _ => _ end => destruct u as [a|e] eqn:Ea end; destruct (compute_kmeans g0 da ia centers data chunks red d scheds) as [b|e'] eqn:Eb; try contradiction.
  - destruct H as (H1 & H2 & H3 & _). destruct (@omp_out_dims NumR _ _ _ _ _ _ _ _ _ _ Eb) as (O1 & O2 & O3).
    pose proof (@run_clustering g1 (Some centers) it data d1 sch a V' F Ea) as K. destruct K as (_ & _ & _ & K4 & K5 & K6); [cbn; lia|].
    rewrite H1 in K4, K5, K6. rewrite H2, H3 in K6. unfold clustering. split; [exact O1|]. split; [exact O2|]. split; [exact O3|]. split; [exact K4|]. split; [exact K5|exact K6].
  - apply H.
Qed.

Lemma omin_clustering (g0 : kcfg NumR) da dt ia it centers data chunks red d scheds :
  OmpProofs.dist_of da = Some dt -> init_of ia = Some it -> (1 <= g_max_iters g0)%nat ->
  let g := with_dt g0 dt in omp_call g it centers data chunks red d scheds -> start_finite g data (Some centers) it (d_int d) (d_real d) ->
  exists rr, compute_min_kmeans g0 da ia centers data chunks red d scheds = Ok rr /\ clustering (g_nrow g) (g_ncol g) (g_k g) data (pr_out rr).
Proof.
  intros Hda Hia Hm g C Hf. destruct (@C110_pruned_openmp g0 da dt ia it centers data chunks red d scheds Hda Hia Hm C Hf) as (pr & E & H).
  cbv zeta in H. destruct H as (H1 & H2 & H3 & _). exists pr. split; [exact E|]. destruct (@omin_out_dims NumR _ _ _ _ _ _ _ _ _ _ E) as (O1 & O2 & O3). unfold clustering. auto 10.
Qed.

(* ------------------------------------------------------------------ *)
(** * The text *)
(** file [f] describes a partition of [n] rows of dimension [d] into [k]
    clusters, with its sizes and (printed) means; [X r] is row [r] *)
Definition describes (n d k : nat) (X : nat -> list R) (showd : R -> text) (f : file) : Prop :=
  let inside j := filter (fun r => Nat.eqb (nth r (f_cluster f) 0%nat) j) (seq 0 n) in
  f_k f = k /\ f_nsamples f = n /\ f_dim f = d /\
  length (f_cluster f) = n /\ (forall r, (r < n)%nat -> (nth r (f_cluster f) 0 < k)%nat) /\
  f_size f = map (fun j => Z.of_nat (length (inside j))) (seq 0 k) /\
  f_centroids f = map (fun j => map showd (match map X (inside j) with [] => vzero d | l => vmean d l end)) (seq 0 k).

Lemma clustering_text n d k data (o : cluster_t NumR) inv (showd : R -> text) : (forall x, plain (showd x)) -> @length R data = (n * d)%nat -> clustering n d k data o ->
  exists t f, @write R showd (@as_result NumR inv o) = Ok t /\ read_result t = Some f /\ describes n d k (row data d) showd f.
Proof.
  intros Hd Ld (E1 & E2 & E3 & La & Ha & Hj). set (r := @as_result NumR inv o).
  assert (Lc : (k <= length (ct_counts o))%nat).
  { destruct k as [|k]; [lia|]. destruct (Hj k ltac:(lia)) as (Q & _). assert (k < length (ct_counts o))%nat by (apply nth_error_Some; cbv zeta in Q; congruence). lia. }
  assert (Lm : (k * d <= @length R (ct_centroids o))%nat).
  { destruct k as [|k]; [lia|]. destruct d as [|d']; [lia|]. destruct (Hj k ltac:(lia)) as (_ & Q). cbv zeta in Q.
    assert (L : @length R (row (ct_centroids o) (Datatypes.S d') k) = Datatypes.S d').
    { etransitivity; [exact (f_equal (@length R) Q)|].
      assert (Hdim : alldim (Datatypes.S d') (members n (Datatypes.S d') data (ct_asg o) k)).
      { unfold alldim, members. apply Forall_forall. intros x Hx. apply in_map_iff in Hx as (y & <- & Hr). apply filter_In in Hr as (Hr & _). apply in_seq in Hr.
        apply (@row_length _ data (Datatypes.S d') y n); [exact Ld|lia]. }
      pose proof (vsum_length Hdim) as Ls. destruct (members _ _ _ _ _); [apply vzero_length|]. unfold vmean. rewrite map_length. exact Ls. }
    unfold row, slice in L. rewrite firstn_length, skipn_length in L. change (@length (car NumR) (ct_centroids o)) with (@length R (ct_centroids o)) in L. nia. }
  assert (Cr : complete_result r).
  { unfold complete_result, r, as_result. cbn [cr_k cr_counts cr_nrow cr_asg cr_ncol cr_centroids]. rewrite map_length, E1, E2, E3. repeat split; try lia. exact Lm. }
  exists (file_of (lines showd r)), (contents showd r). split; [apply write_ok; exact Cr|]. split; [apply read_back; exact Hd|].
  unfold contents, describes, r, as_result. cbn [f_k f_nsamples f_dim f_cluster f_size f_centroids cr_k cr_nrow cr_ncol cr_counts cr_asg cr_centroids]. rewrite E1, E2, E3.
  set (cl := map (fun a => match a with Some c => c | None => inv end) (ct_asg o)).
  assert (Lcl : length cl = n) by (unfold cl; rewrite map_length; exact La).
  assert (Ecl : firstn n cl = cl) by (rewrite <- Lcl; apply firstn_all). rewrite Ecl.
  assert (Nth : forall x, (x < n)%nat -> nth x (ct_asg o) None = Some (nth x cl 0%nat)).
  { intros x Hx. destruct (Ha x Hx) as (a & Q & _). rewrite Q. f_equal. unfold cl. rewrite (nth_indep _ 0%nat (match @None nat with Some c => c | None => inv end)) by (rewrite map_length, La; exact Hx).
    symmetry. etransitivity; [exact (map_nth (fun a : option nat => match a with Some c => c | None => inv end) (ct_asg o) None x)|]. rewrite Q. reflexivity. }
  assert (Mem : forall j, members n d data (ct_asg o) j = map (row data d) (filter (fun x => Nat.eqb (nth x cl 0%nat) j) (seq 0 n))).
  { intros j. unfold members. f_equal. apply filter_ext_in. intros x Hx. apply in_seq in Hx. rewrite Nth by lia. reflexivity. }
  split; [reflexivity|]. split; [reflexivity|]. split; [reflexivity|]. split; [exact Lcl|]. split; [|split].
  - intros x Hx. destruct (Ha x Hx) as (a & Q & Hlt). rewrite Nth in Q by exact Hx. injection Q as ->. exact Hlt.
  - apply Base.nth_error_ext. intros j. destruct (Nat.ltb_spec j k) as [Hl|Hl].
    + destruct (Hj j Hl) as (Q & _). cbv zeta in Q. rewrite Mem, map_length in Q.
      rewrite nth_error_firstn, nth_error_map, nth_error_seq. destruct (Nat.ltb_spec j k); [|lia]. cbn [option_map Nat.add]. exact Q.
    + rewrite nth_error_firstn, nth_error_map, nth_error_seq. destruct (Nat.ltb_spec j k); [lia|]. reflexivity.
  - unfold shown_rows. apply map_ext_in. intros j Hin. apply in_seq in Hin. f_equal. destruct (Hj j ltac:(lia)) as (_ & Q). cbv zeta in Q. rewrite Mem in Q.
    etransitivity; [exact Q|]. destruct (map (row data d) _) as [|x0 l0]; reflexivity.
Qed.
