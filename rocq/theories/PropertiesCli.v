(** C118, C119: the knori program, from its files to its result file. *)
From Coq Require Import Reals Lra Lia ZArith List String Permutation.
From Verif Require Import Base Num Spec DistModel ClustersModel PartitionModel ParModel KmeansModel PruneModel OmpModel.
From Verif Require Import VecLemmas MatLemmas DistProofs ParProofs KmeansProofs RunProofs InitProofs SimProofs PropertiesKmeans PropertiesKmeansR PropertiesRun PropertiesKmspp PropertiesPrune PropertiesDistRun PropertiesPruneSame.
From Verif Require Import OmpProofs PropertiesOmp OmpPrune PropertiesOmpPrune.
From Verif Require Import ContainersModel IoModel WriteModel SpecYaml WriteProofs PropertiesWrite CliModel CliProofs.
Set Implicit Arguments.
Local Open Scope list_scope.

(** the names on the command line *)
Definition init_name (it : init_t) : string :=
  match it with RANDOM => "random" | FORGY => "forgy" | PLUSPLUS => "kmeanspp" | NONE => "none" end%string.
Definition dist_name (dt : dist_t) : string :=
  match dt with EUCL => "eucl" | COS => "cos" | TAXI => "taxi" | SQEUCL => "sqeucl" end%string.

(** the first [m] values of a file: value [i] is in bytes [8 i] to [8 i + 7] *)
Definition values {B T} (dec : list B -> T) (m : nat) (bytes : list B) : list T :=
  map (fun i => dec (slice bytes (8 * i) 8)) (seq 0 m).

(** The command names a metric, the data file holds exactly nsamples x dim
    numbers, and either a centroid file with at least k x dim numbers is given, or
    one of the other initialisations is named. *)
Definition good_call {B} (dec : list B -> R) (a : kargs NumR) (f : kfiles B) (dt : dist_t) (it : init_t)
  (data : list R) (centers : option (list R)) : Prop :=
  let n := Z.to_nat (ka_nrow a) in let d := Z.to_nat (ka_ncol a) in
  (1 <= ka_nrow a)%Z /\ (1 <= ka_ncol a)%Z /\ (8 * ka_nrow a * ka_ncol a < 2 ^ 64)%Z /\ 1 <= ka_k a /\
  ka_dist a = dist_name dt /\
  (exists bytes, kf_data f = Some bytes /\ Z.of_nat (length bytes) = (8 * ka_nrow a * ka_ncol a)%Z /\ data = values dec (n * d) bytes) /\
  match kf_centers f with
  | Some c => it = NONE /\ exists bytes, c = Some bytes /\ 8 * (ka_k a * d) <= length bytes /\ centers = Some (values dec (ka_k a * d) bytes)
  | None => it <> NONE /\ ka_init a = init_name it /\ centers = None
  end.

(** the program ends normally; if an output was asked for, its text describes a
    partition of the rows of the data file into k clusters with the right sizes
    and means *)
Definition good_output (a : kargs NumR) (data : list R) (showd : R -> text) (r : res (option text)) : Prop :=
  let n := Z.to_nat (ka_nrow a) in let d := Z.to_nat (ka_ncol a) in
  exists o, r = Ok o /\
    if ka_out a then exists t f, o = Some t /\ read_result t = Some f /\ describes n d (ka_k a) (row data d) showd f else o = None.

Section Front.
Variables (B : Type) (enc : R -> list B) (dec : list B -> R).
Hypothesis enc_len : forall x, length (enc x) = 8.

Lemma init_name_type it : get_init_type (init_name it) = Ok it.
Proof. destruct it; reflexivity. Qed.
Lemma dist_name_type dt : get_dist_type (dist_name dt) = Ok dt.
Proof. destruct dt; reflexivity. Qed.
Lemma init_name_arg it : init_of (init_arg_of (init_name it)) = Some it.
Proof. destruct it; reflexivity. Qed.
Lemma dist_name_arg dt : dt = EUCL \/ dt = COS -> OmpProofs.dist_of (dist_arg_of (dist_name dt)) = Some dt.
Proof. intros [-> | ->]; reflexivity. Qed.

Lemma fresh_length (w : kworld NumR) n : @length R (fresh w n) = n.
Proof. unfold fresh. rewrite map_length. apply seq_length. Qed.

Lemma front a f w dt it data centers inv (showd : R -> text) : good_call dec a f dt it data centers ->
  exists bytes, data = objects_of 8 dec (Z.to_nat (ka_nrow a) * Z.to_nat (ka_ncol a)) bytes /\
    8 * (Z.to_nat (ka_nrow a) * Z.to_nat (ka_ncol a)) <= length bytes /\ 1 <= Z.to_nat (ka_nrow a) * Z.to_nat (ka_ncol a) /\
    @length R data = Z.to_nat (ka_nrow a) * Z.to_nat (ka_ncol a) /\
    (it = NONE -> match centers with Some c => @length R c = ka_k a * Z.to_nat (ka_ncol a) | None => False end) /\
    @knori NumR B enc dec inv showd a f w =
      let* o := @k_cluster NumR B enc dec a (init_name it) bytes centers w in
      if ka_out a then let* t := @write R showd (@as_result NumR inv o) in Ok (Some t) else Ok None.
Proof.
  intros (H1 & H2 & H3 & Hk & Hd & (bytes & Ef & El & Ed) & Hc). exists bytes.
  assert (Pos : 1 <= Z.to_nat (ka_nrow a) * Z.to_nat (ka_ncol a)) by nia.
  split; [rewrite objects_at; exact Ed|]. split; [nia|]. split; [exact Pos|]. split; [rewrite Ed; unfold values; rewrite map_length; apply seq_length|].
  split.
  { intros ->. destruct (kf_centers f) as [c|]; [|destruct Hc as (N0 & _); congruence]. destruct Hc as (_ & b & _ & _ & ->). unfold values. rewrite map_length. apply seq_length. }
  unfold knori.
  assert (Ck : k_check false a f = Ok (init_name it, bytes)).
  { unfold k_check. rewrite Ef. cbn [is_some checked orb Base.bind filesize].
    assert (Sz : (Z.of_nat (length bytes) =? w64 (8 * ka_nrow a * ka_ncol a))%Z = true).
    { apply Z.eqb_eq. rewrite El. unfold w64. symmetry. apply Z.mod_small. nia. }
    destruct (kf_centers f) as [c|].
    - destruct Hc as (-> & b & -> & _). cbn [is_some checked orb Base.bind andb negb]. rewrite Bool.andb_false_r. cbn [negb checked orb Base.bind]. rewrite Sz. reflexivity.
    - destruct Hc as (Hn & Ei & _). cbn [Base.bind is_some negb]. rewrite Bool.andb_true_r.
      assert (Q : (ka_init a =? "none")%string = false) by (rewrite Ei; destruct it; try reflexivity; congruence).
      rewrite Q. cbn [negb checked orb Base.bind]. rewrite Sz, Ei. reflexivity. }
  rewrite Ck. cbn [Base.bind fst snd].
  assert (Cc : @k_centers NumR B enc dec false a f w = Ok centers).
  { unfold k_centers. destruct (kf_centers f) as [c|]; [|destruct Hc as (_ & _ & ->); reflexivity]. destruct Hc as (_ & b & -> & Lb & ->).
    destruct (@read_ptr B R enc dec enc_len false (fresh w (ka_k a * Z.to_nat (ka_ncol a))) (ka_k a) (Z.to_nat (ka_ncol a)) b) as (fl & E); [apply fresh_length|nia|exact Lb|].
    change (car NumR) with R. rewrite E. cbn [Base.bind fst]. rewrite objects_at. reflexivity. }
  rewrite Cc. reflexivity.
Qed.

Lemma finish a data o inv (showd : R -> text) : (forall x, plain (showd x)) ->
  @length R data = Z.to_nat (ka_nrow a) * Z.to_nat (ka_ncol a) ->
  clustering (Z.to_nat (ka_nrow a)) (Z.to_nat (ka_ncol a)) (ka_k a) data o ->
  good_output a data showd (if ka_out a then let* t := @write R showd (@as_result NumR inv o) in Ok (Some t) else Ok None).
Proof.
  intros Hd Ld C. unfold good_output. destruct (ka_out a); [|eauto].
  destruct (@clustering_text _ _ _ data o inv showd Hd Ld C) as (t & f & Ew & Er & D). rewrite Ew. cbn [Base.bind]. exists (Some t). split; [reflexivity|]. eauto 6.
Qed.
End Front.

(** Threads, -P (no pruning): any metric; a partition with its sizes and means, or
    the assertion that no distance exceeds the largest double fails. *)
Theorem C118_threads : forall B (enc : R -> list B) (dec : list B -> R), (forall x, length (enc x) = 8) ->
  forall inv (showd : R -> text), (forall x, plain (showd x)) ->
  forall (a : kargs NumR) f (w : kworld NumR) dt it data centers,
  good_call dec a f dt it data centers -> ka_omp a = false -> ka_noprune a = true -> 1 <= ka_iters a ->
  valid_args (k_cfg a dt) data centers it (kw_draws w) -> fair (k_cfg a dt) data (kw_scheds w) ->
  let r := knori (N := NumR) enc dec inv showd a f w in
  good_output a data showd r \/ r = Err Abort.
Proof.
  intros B enc dec enc_len inv showd Hs a f w dt it data centers G Ho Hp Hi A F r.
  destruct (@front B enc dec enc_len a f w dt it data centers inv showd G) as (bytes & Ed & _ & _ & Ld & _ & E). unfold r. rewrite E. unfold k_cluster.
  rewrite Ho, Hp, init_name_type. assert (Ek : ka_dist a = dist_name dt) by apply G. rewrite Ek, dist_name_type. cbn [Base.bind]. cbv zeta.
  change (car NumR) with R. rewrite <- Ed.
  destruct (@C67_no_out_of_bounds NumR (k_cfg a dt) centers it data (kw_draws w) (kw_scheds w) A F) as [(rr & Er)|Er]; change (car NumR) with R in Er; rewrite Er; cbn [Base.bind]; [|right; reflexivity].
  left. apply finish; auto. exact (@run_clustering (k_cfg a dt) centers it data (kw_draws w) (kw_scheds w) rr (proj1 A) F Er Hi).
Qed.
Print Assumptions C118_threads.

(** and never the latter when the data are not huge *)
Theorem C118_threads_returns : forall B (enc : R -> list B) (dec : list B -> R), (forall x, length (enc x) = 8) ->
  forall inv (showd : R -> text), (forall x, plain (showd x)) ->
  forall (a : kargs NumR) f (w : kworld NumR) dt it data centers M,
  good_call dec a f dt it data centers -> ka_omp a = false -> ka_noprune a = true -> 1 <= ka_iters a ->
  valid_args (k_cfg a dt) data centers it (kw_draws w) -> fair (k_cfg a dt) data (kw_scheds w) ->
  dt <> COS -> (forall i, 0 <= d_real (kw_draws w) i <= 1)%R ->
  (0 <= M)%R -> bounded M data -> match centers with Some c => bounded M c | None => True end ->
  (reach dt M (Z.to_nat (ka_ncol a)) < IZR dbl_max_Z)%R ->
  good_output a data showd (knori (N := NumR) enc dec inv showd a f w).
Proof.
  intros B enc dec enc_len inv showd Hs a f w dt it data centers M G Ho Hp Hi A F Hdt Hr HM Hb Hc Hreach.
  destruct (@front B enc dec enc_len a f w dt it data centers inv showd G) as (bytes & Ed & _ & _ & Ld & _ & E). rewrite E. unfold k_cluster.
  rewrite Ho, Hp, init_name_type. assert (Ek : ka_dist a = dist_name dt) by apply G. rewrite Ek, dist_name_type. cbn [Base.bind]. cbv zeta.
  change (car NumR) with R. rewrite <- Ed.
  destruct (@C20_returns (k_cfg a dt) centers it data (kw_draws w) (kw_scheds w) M A F Hr Hdt HM Hb) as (rr & Er); [intros _; exact Hc|exact Hreach|].
  change (car NumR) with R in Er; rewrite Er; cbn [Base.bind].
  apply finish; auto. exact (@run_clustering (k_cfg a dt) centers it data (kw_draws w) (kw_scheds w) rr (proj1 A) F Er Hi).
Qed.

(** Threads, with pruning *)
Theorem C118_threads_pruned : forall B (enc : R -> list B) (dec : list B -> R), (forall x, length (enc x) = 8) ->
  forall inv (showd : R -> text), (forall x, plain (showd x)) ->
  forall (a : kargs NumR) f (w : kworld NumR) dt it data centers,
  good_call dec a f dt it data centers -> ka_omp a = false -> ka_noprune a = false -> 1 <= ka_iters a ->
  prune_args (k_cfg a dt) data centers it (kw_draws w) (kw_scheds w) ->
  start_finite (k_cfg a dt) data centers it (d_int (kw_draws w)) (d_real (kw_draws w)) ->
  good_output a data showd (knori (N := NumR) enc dec inv showd a f w).
Proof.
  intros B enc dec enc_len inv showd Hs a f w dt it data centers G Ho Hp Hi A Hf.
  destruct (@front B enc dec enc_len a f w dt it data centers inv showd G) as (bytes & Ed & _ & _ & Ld & _ & E). rewrite E. unfold k_cluster.
  rewrite Ho, Hp, init_name_type. assert (Ek : ka_dist a = dist_name dt) by apply G. rewrite Ek, dist_name_type. cbn [Base.bind]. cbv zeta.
  change (car NumR) with R. rewrite <- Ed.
  destruct (@C37_prune_accepts_k_partial (k_cfg a dt) centers it data (kw_draws w) (kw_scheds w) A Hi) as (rr & Er).
  { intros ws s s0 Ew Es E0 r j Hr Hj. rewrite (prune_init_start A Ew Es E0 Hj). apply Hf; assumption. }
  change (car NumR) with R in Er. rewrite Er. cbn [Base.bind]. apply finish; auto.
  exact (@prune_clustering (k_cfg a dt) centers it data (kw_draws w) (kw_scheds w) rr A Hf Hi Er).
Qed.
Print Assumptions C118_threads_pruned.

(** -O, -P *)
Theorem C118_openmp : forall B (enc : R -> list B) (dec : list B -> R), (forall x, length (enc x) = 8) ->
  forall inv (showd : R -> text), (forall x, plain (showd x)) ->
  forall (a : kargs NumR) f (w : kworld NumR) dt it data centers c,
  good_call dec a f dt it data centers -> ka_omp a = true -> ka_noprune a = true -> 2 <= ka_iters a -> dt = EUCL \/ dt = COS ->
  (it = NONE -> centers = Some c) ->
  omp_call (k_cfg a dt) it c data (kw_chunks w) (kw_red w) (kw_draws w) (kw_scheds w) ->
  let r := knori (N := NumR) enc dec inv showd a f w in
  good_output a data showd r \/ r = Err Abort.
Proof.
  intros B enc dec enc_len inv showd Hs a f w dt it data centers c G Ho Hp Hi Hdt Hc A r.
  destruct (@front B enc dec enc_len a f w dt it data centers inv showd G) as (bytes & Ed & Lb & Pos & Ld & _ & E). unfold r. rewrite E. unfold k_cluster.
  rewrite Ho, Hp. assert (Ek : ka_dist a = dist_name dt) by apply G. rewrite Ek. cbv zeta.
  destruct (@read_ptr B R enc dec enc_len false (fresh w (Z.to_nat (ka_nrow a) * Z.to_nat (ka_ncol a))) (Z.to_nat (ka_nrow a)) (Z.to_nat (ka_ncol a)) bytes) as (fl & Er); [apply fresh_length|exact Pos|exact Lb|].
  change (car NumR) with R. rewrite Er. cbn [Base.bind fst]. rewrite <- Ed.
  set (c' := match centers with Some c => c | None => fresh w (ka_k a * Z.to_nat (ka_ncol a)) end).
  assert (A' : omp_call (with_dt (k_cfg a EUCL) dt) it c' data (kw_chunks w) (kw_red w) (kw_draws w) (kw_scheds w)).
  { destruct A; constructor; try assumption. destruct it; try assumption. unfold c'. rewrite Hc by reflexivity. assumption. }
  pose proof (@omp_clustering (k_cfg a EUCL) _ dt _ it c' data (kw_chunks w) (kw_red w) (kw_draws w) (kw_scheds w) (dist_name_arg Hdt) (init_name_arg it) Hi A') as K.
  destruct (compute_kmeans _ _ _ _ _ _ _ _ _) as [rr|e]; cbn [Base.bind]; [|right; rewrite K; reflexivity].
  left. apply finish; auto.
Qed.

(** -O, with pruning *)
Theorem C118_openmp_pruned : forall B (enc : R -> list B) (dec : list B -> R), (forall x, length (enc x) = 8) ->
  forall inv (showd : R -> text), (forall x, plain (showd x)) ->
  forall (a : kargs NumR) f (w : kworld NumR) dt it data centers c,
  good_call dec a f dt it data centers -> ka_omp a = true -> ka_noprune a = false -> 1 <= ka_iters a -> dt = EUCL \/ dt = COS ->
  (it = NONE -> centers = Some c) ->
  omp_call (k_cfg a dt) it c data (kw_chunks w) (kw_red w) (kw_draws w) (kw_scheds w) ->
  start_finite (k_cfg a dt) data (Some c) it (d_int (kw_draws w)) (d_real (kw_draws w)) ->
  good_output a data showd (knori (N := NumR) enc dec inv showd a f w).
Proof.
  intros B enc dec enc_len inv showd Hs a f w dt it data centers c G Ho Hp Hi Hdt Hc A Hf.
  destruct (@front B enc dec enc_len a f w dt it data centers inv showd G) as (bytes & Ed & Lb & Pos & Ld & _ & E). rewrite E. unfold k_cluster.
  rewrite Ho, Hp. assert (Ek : ka_dist a = dist_name dt) by apply G. rewrite Ek. cbv zeta.
  destruct (@read_ptr B R enc dec enc_len false (fresh w (Z.to_nat (ka_nrow a) * Z.to_nat (ka_ncol a))) (Z.to_nat (ka_nrow a)) (Z.to_nat (ka_ncol a)) bytes) as (fl & Er); [apply fresh_length|exact Pos|exact Lb|].
  change (car NumR) with R. rewrite Er. cbn [Base.bind fst]. rewrite <- Ed.
  set (c' := match centers with Some c => c | None => fresh w (ka_k a * Z.to_nat (ka_ncol a)) end).
  assert (A' : omp_call (with_dt (k_cfg a EUCL) dt) it c' data (kw_chunks w) (kw_red w) (kw_draws w) (kw_scheds w)).
  { destruct A; constructor; try assumption. destruct it; try assumption. unfold c'. rewrite Hc by reflexivity. assumption. }
  assert (F' : start_finite (with_dt (k_cfg a EUCL) dt) data (Some c') it (d_int (kw_draws w)) (d_real (kw_draws w))).
  { intros x j Hx Hj. specialize (Hf x j Hx Hj). destruct it; try exact Hf. unfold c'. rewrite Hc by reflexivity. exact Hf. }
  destruct (@omin_clustering (k_cfg a EUCL) _ dt _ it c' data (kw_chunks w) (kw_red w) (kw_draws w) (kw_scheds w) (dist_name_arg Hdt) (init_name_arg it) Hi A' F') as (rr & Err & K).
  change (car NumR) with R in Err. rewrite Err. cbn [Base.bind]. apply finish; auto.
Qed.
Print Assumptions C118_openmp_pruned.

(* ------------------------------------------------------------------ *)
(** * C119: calls whose files do not fit *)
Section Refuse.
Variables (N : Num) (B : Type) (enc : car N -> list B) (dec : list B -> car N).
Hypothesis enc_len : forall x, length (enc x) = 8.
Notation knori := (@knori N B enc dec).

(** no data file: refused, even without assertions (8 divides the expected size,
    and the "size" of a missing file is 2^64 - 1) *)
Theorem C119_no_data_file : forall nd a (f : kfiles B), kf_data f = None ->
  k_check (N := N) nd a f = Err Abort \/ k_check (N := N) nd a f = Err Throw.
Proof.
  intros nd a f E. unfold k_check. rewrite E. cbn [is_some filesize]. unfold checked. rewrite Bool.orb_false_r.
  destruct nd; cbn [Base.bind orb]; [|left; reflexivity]. right.
  assert (Q : (2 ^ 64 - 1 =? w64 (8 * ka_nrow a * ka_ncol a))%Z = false).
  { apply Z.eqb_neq. unfold w64. intros Q. assert (M : ((2 ^ 64 - 1) mod 8 = (8 * ka_nrow a * ka_ncol a) mod 2 ^ 64 mod 8)%Z) by (rewrite Q; reflexivity).
    replace (2 ^ 64)%Z with (8 * 2 ^ 61)%Z in M at 2 by reflexivity.
    rewrite Z.rem_mul_r in M by lia. rewrite Z.mul_comm with (n := 8%Z) (m := (_ mod 2 ^ 61)%Z) in M. rewrite Z.mod_add, Z.mod_mod in M by lia.
    replace (8 * ka_nrow a * ka_ncol a)%Z with (ka_nrow a * ka_ncol a * 8)%Z in M by ring. rewrite Z.mod_mul in M by lia. discriminate M. }
  rewrite Q. destruct (kf_centers f) as [c|]; cbn [Base.bind]; reflexivity.
Qed.

(** a data file of another size: refused, provided the expected size fits in 64 bits *)
Theorem C119_wrong_size_partial : forall inv showd a f w bytes, kf_data f = Some bytes ->
  (0 <= 8 * ka_nrow a * ka_ncol a < 2 ^ 64)%Z -> Z.of_nat (length bytes) <> (8 * ka_nrow a * ka_ncol a)%Z ->
  knori inv showd a f w = Err Throw \/ knori inv showd a f w = Err Abort.
Proof.
  intros inv showd a f w bytes E Hr Hl. unfold CliModel.knori, k_check. rewrite E. cbn [is_some filesize checked orb Base.bind].
  assert (Q : (Z.of_nat (length bytes) =? w64 (8 * ka_nrow a * ka_ncol a))%Z = false).
  { apply Z.eqb_neq. unfold w64. rewrite Z.mod_small by exact Hr. exact Hl. }
  rewrite Q. destruct (kf_centers f) as [[c|]|]; cbn [is_some checked orb Base.bind]; [| right; reflexivity |];
  destruct (negb _); cbn [checked orb Base.bind]; auto.
Qed.

(** ... and this is where the claim fails: 2^61 rows of one value need 2^64 bytes,
    so an empty file is accepted *)
Theorem C119_wrong_size_refuted : forall nd k threads iters tol dist noprune omp out,
  k_check (N := N) (B := B) nd (mkArgs N (2 ^ 61) 1 k threads iters tol "random" dist noprune omp out) (mkFiles (Some []) None) = Ok ("random"%string, []).
Proof. intros nd. destruct nd; reflexivity. Qed.

(** a centroid file that is not there, or too short *)
Theorem C119_no_centers_file : forall inv showd a f w bytes, kf_data f = Some bytes -> kf_centers f = Some None ->
  knori inv showd a f w = Err Abort.
Proof. intros inv showd a f w bytes E Ec. unfold CliModel.knori, k_check. rewrite E, Ec. reflexivity. Qed.

Theorem C119_short_centers : forall inv showd a f w bytes c, kf_data f = Some bytes -> kf_centers f = Some (Some c) ->
  length c < 8 * (ka_k a * Z.to_nat (ka_ncol a)) ->
  knori inv showd a f w = Err Abort \/ knori inv showd a f w = Err Throw.
Proof.
  intros inv showd a f w bytes c E Ec Hl. unfold CliModel.knori, k_check, k_centers. rewrite E, Ec. cbn [is_some checked orb Base.bind negb andb filesize].
  rewrite Bool.andb_false_r. cbn [negb checked orb Base.bind]. destruct (_ =? _)%Z; cbn [Base.bind]; [|right; reflexivity]. left.
  rewrite (@read_short B (car N) enc dec enc_len); [reflexivity| |exact Hl]. unfold fresh. rewrite map_length. apply seq_length.
Qed.

(** a longer centroid file is not refused: the rest of it is ignored *)
Theorem C119_long_centers_refuted : forall inv showd a w bytes c more,
  1 <= ka_k a * Z.to_nat (ka_ncol a) -> length c = 8 * (ka_k a * Z.to_nat (ka_ncol a)) ->
  knori inv showd a (mkFiles (Some bytes) (Some (Some (c ++ more)))) w = knori inv showd a (mkFiles (Some bytes) (Some (Some c))) w.
Proof.
  intros inv showd a w bytes c more Hp Lc. unfold CliModel.knori, k_check, k_centers. cbn [kf_data kf_centers is_some checked orb Base.bind negb andb filesize].
  destruct (negb _); cbn [checked orb Base.bind]; [|reflexivity]. destruct (_ =? _)%Z; cbn [Base.bind]; [|reflexivity].
  assert (Lf : length (fresh w (ka_k a * Z.to_nat (ka_ncol a))) = ka_k a * Z.to_nat (ka_ncol a)) by (unfold fresh; rewrite map_length; apply seq_length).
  destruct (@read_ptr B (car N) enc dec enc_len false _ (ka_k a) (Z.to_nat (ka_ncol a)) (c ++ more) Lf Hp) as (x & Ex); [rewrite app_length; lia|].
  destruct (@read_ptr B (car N) enc dec enc_len false _ (ka_k a) (Z.to_nat (ka_ncol a)) c Lf Hp) as (y & Ey); [lia|].
  rewrite Ex, Ey. cbn [Base.bind fst]. rewrite objects_firstn by exact Lc. reflexivity.
Qed.

(** "none" without a centroid file *)
Theorem C119_none_needs_centers : forall inv showd a f w, ka_init a = "none"%string -> kf_centers f = None -> knori inv showd a f w = Err Abort.
Proof.
  intros inv showd a f w Ei Ec. unfold CliModel.knori, k_check. rewrite Ec, Ei. destruct (is_some (kf_data f)); reflexivity.
Qed.

(** an unknown initialisation or metric: never a result *)
Theorem C119_unknown_names : forall inv showd a f w o,
  (kf_centers f = None /\ forall it, ka_init a <> init_name it) \/ (forall dt, ka_dist a <> dist_name dt) ->
  knori inv showd a f w <> Ok o.
Proof.
  intros inv showd a f w o H E. unfold CliModel.knori in E. apply bind_ok in E as ((init & b) & Ec & E). apply bind_ok in E as (c & _ & E). apply bind_ok in E as (r & Er & _).
  cbn [fst snd] in Er.
  assert (Hi : (forall it, init <> init_name it) \/ (forall dt, ka_dist a <> dist_name dt)).
  { destruct H as [(Hc & Hi)|Hd]; [left|right; exact Hd]. unfold k_check in Ec. rewrite Hc in Ec. apply bind_ok in Ec as (u & _ & Ec). cbn [Base.bind] in Ec.
    apply bind_ok in Ec as (v & _ & Ec). destruct (_ =? _)%Z; [|discriminate]. destruct (kf_data f); [|discriminate]. injection Ec as <- _. exact Hi. }
  clear - Hi Er. unfold k_cluster in Er.
  assert (Gi : (forall it, init <> init_name it) -> get_init_type init = Err Throw /\ init_arg_of init = IOther).
  { intros G. unfold get_init_type, init_arg_of.
    destruct (String.eqb_spec init "random"); [destruct (G RANDOM); assumption|]. destruct (String.eqb_spec init "forgy"); [destruct (G FORGY); assumption|].
    destruct (String.eqb_spec init "kmeanspp"); [destruct (G PLUSPLUS); assumption|]. destruct (String.eqb_spec init "none"); [destruct (G NONE); assumption|]. auto. }
  assert (Gd : (forall dt, ka_dist a <> dist_name dt) -> get_dist_type (ka_dist a) = Err Throw /\ dist_arg_of (ka_dist a) = DOther).
  { intros G. unfold get_dist_type, dist_arg_of.
    destruct (String.eqb_spec (ka_dist a) "eucl"); [destruct (G EUCL); assumption|]. destruct (String.eqb_spec (ka_dist a) "cos"); [destruct (G COS); assumption|].
    destruct (String.eqb_spec (ka_dist a) "taxi"); [destruct (G TAXI); assumption|]. destruct (String.eqb_spec (ka_dist a) "sqeucl"); [destruct (G SQEUCL); assumption|]. auto. }
  destruct (ka_omp a).
  - apply bind_ok in Er as ((p & fl) & _ & Er). cbn [fst] in Er. destruct (ka_noprune a); apply bind_ok in Er as (rr & Er & _).
    + unfold compute_kmeans in Er. destruct (k_rejected _ _); [discriminate|]. apply bind_ok in Er as (s & _ & Er).
      destruct Hi as [Hi|Hi]; [apply Gi in Hi as (_ & Hi)|apply Gd in Hi as (_ & Hi)]; rewrite Hi in Er; [|discriminate].
      destruct (match dist_arg_of _ with DEucl => _ | _ => _ end); discriminate.
    + unfold compute_min_kmeans in Er. destruct (k_rejected _ _); [discriminate|]. apply bind_ok in Er as (s & _ & Er). apply bind_ok in Er as (dm & _ & Er).
      destruct Hi as [Hi|Hi]; [apply Gi in Hi as (_ & Hi)|apply Gd in Hi as (_ & Hi)]; rewrite Hi in Er; [|discriminate].
      destruct (match dist_arg_of _ with DEucl => _ | _ => _ end); discriminate.
  - apply bind_ok in Er as (it & Ei & Er). apply bind_ok in Er as (dt & Ed & _).
    destruct Hi as [Hi|Hi]; [apply Gi in Hi as (Hi & _)|apply Gd in Hi as (Hi & _)]; congruence.
Qed.
End Refuse.

(* ------------------------------------------------------------------ *)
(** ** A call that meets the premises: five rows 0 1 6 10 11, initial centroids 0
    and 1; a "byte" here is a number, repeated eight times *)
Local Open Scope R_scope.
Definition exenc (x : R) : list R := repeat x 8.
Definition exdec (l : list R) : R := hd 0 l.
Definition exargs (noprune omp : bool) : kargs NumR := mkArgs NumR 5 1 2 2 40 (-1) "none" "eucl" noprune omp true.
Definition exfiles : kfiles R := mkFiles (Some (concat (map exenc [0; 1; 6; 10; 11]))) (Some (Some (concat (map exenc [0; 1])))).
Definition exworld : kworld NumR := mkWorld exdrR exsR [(0, 2); (2, 3)]%nat (fun l => fold_left Rplus l 0) (fun _ => 7).
Lemma excall (noprune omp : bool) : good_call exdec (exargs noprune omp) exfiles EUCL NONE [0; 1; 6; 10; 11] (Some [0; 1]).
Proof.
  unfold good_call. cbv zeta. cbn [exargs ka_nrow ka_ncol ka_k ka_dist]. split; [lia|]. split; [lia|]. split; [lia|]. split; [lia|]. split; [reflexivity|]. split.
  - eexists. split; [reflexivity|]. split; reflexivity.
  - split; [reflexivity|]. eexists. split; [reflexivity|]. split; [cbn; lia|reflexivity].
Qed.
Lemma ex_ranges np om : okmap (@w_ranges NumR) (build_workers (k_cfg (exargs np om) EUCL) [0; 1; 6; 10; 11]) = Some [(0, 2); (2, 3)]%nat.
Proof.
  unfold k_cfg, exargs. cbn [ka_nrow ka_ncol ka_k ka_iters ka_threads ka_tol]. generalize (IZR 0), (IZR 1), (IZR 6), (IZR 10), (IZR 11). intros a b c d e.
  generalize (IZR (-1)). intros t. lazy. reflexivity.
Qed.
Lemma ex_valid np om : valid_input (k_cfg (exargs np om) EUCL) [0; 1; 6; 10; 11].
Proof. unfold valid_input. cbn. repeat split; lia || reflexivity. Qed.
Lemma ex_fair np om : fair (k_cfg (exargs np om) EUCL) [0; 1; 6; 10; 11] exsR.
Proof.
  intros ws E i. pose proof (ex_ranges np om) as H. rewrite E in H. cbn [okmap] in H. injection H as ->.
  intros [|[|[|t]]] s n Ht; try discriminate; injection Ht as <- <-; unfold exsR; destruct (Nat.even i); cbn; lia.
Qed.
Lemma ex_args np om : valid_args (k_cfg (exargs np om) EUCL) [0; 1; 6; 10; 11] (Some [0; 1]) NONE exdrR.
Proof. split; [apply ex_valid|]. split; [cbn; lia|]. split; [cbn; lia|exact I]. Qed.
Lemma ex_finite np om : start_finite (k_cfg (exargs np om) EUCL) [0; 1; 6; 10; 11] (Some [0; 1]) NONE (d_int exdrR) (d_real exdrR).
Proof.
  intros r j Hr Hj. cbn [k_cfg exargs g_nrow g_k g_ncol g_dt ka_nrow ka_k ka_ncol] in *. change (Z.to_nat 5) with 5%nat in Hr. change (Z.to_nat 1) with 1%nat.
  assert (Hb : forall x y, 0 <= x <= 11 -> 0 <= y <= 11 -> rdist EUCL [x] [y] < IZR dbl_max_Z).
  { intros x y Hx Hy. apply Rle_lt_trans with 11; [|apply Rlt_trans with 100; [lra|apply IZR_lt; vm_compute; reflexivity]].
    unfold rdist, edist, sqdist. cbn [vsub map2 dot rsum map fold_right].
    apply Rle_trans with (sqrt (11 * 11)); [apply sqrt_le_1_alt; unfold dot, map2, rsum; cbn; nra|rewrite sqrt_square by lra; lra]. }
  destruct j as [|[|j]]; [| |lia]; destruct r as [|[|[|[|[|r]]]]]; try lia; apply Hb; lra.
Qed.

Theorem C118_premises_met : forall (showd : R -> text) inv, (forall x, plain (showd x)) ->
  good_output (exargs true false) [0; 1; 6; 10; 11] showd (knori (N := NumR) exenc exdec inv showd (exargs true false) exfiles exworld) /\
  good_output (exargs false false) [0; 1; 6; 10; 11] showd (knori (N := NumR) exenc exdec inv showd (exargs false false) exfiles exworld) /\
  good_output (exargs false true) [0; 1; 6; 10; 11] showd (knori (N := NumR) exenc exdec inv showd (exargs false true) exfiles exworld).
Proof.
  intros showd inv Hs. assert (L : forall x, length (exenc x) = 8%nat) by reflexivity. split; [|split].
  - apply (@C118_threads_returns R exenc exdec L inv showd Hs _ exfiles exworld EUCL NONE _ (Some [0; 1]) 11 (excall true false)); try reflexivity.
    + cbn; lia.
    + apply ex_args.
    + apply ex_fair.
    + discriminate.
    + intros i. cbn. lra.
    + lra.
    + unfold bounded. repeat (apply Forall_cons; [apply Rabs_le; lra|]). apply Forall_nil.
    + unfold bounded. repeat (apply Forall_cons; [apply Rabs_le; lra|]). apply Forall_nil.
    + change (2 * 11 * 1 < IZR dbl_max_Z). apply Rlt_trans with 100; [lra|]. apply IZR_lt. vm_compute. reflexivity.
  - apply (@C118_threads_pruned R exenc exdec L inv showd Hs _ exfiles exworld EUCL NONE _ (Some [0; 1]) (excall false false)); try reflexivity.
    + cbn; lia.
    + split; [cbn; lia|]. split; [apply ex_args|]. split; [intros H; discriminate|apply ex_fair].
    + apply ex_finite.
  - apply (@C118_openmp_pruned R exenc exdec L inv showd Hs _ exfiles exworld EUCL NONE _ (Some [0; 1]) [0; 1] (excall false true)); try reflexivity.
    + cbn; lia.
    + left; reflexivity.
    + constructor; try (cbn; lia).
      * apply ex_valid.
      * intros i [|[|[|t]]] s n Ht; try discriminate; injection Ht as <- <-; unfold exworld, exsR; cbn [kw_scheds]; destruct (Nat.even i); cbn; lia.
      * intros l. exists l. split; [apply Permutation_refl|reflexivity].
    + apply ex_finite.
Qed.

Theorem C119_premises_met :
  knori (N := NumR) exenc exdec 0 (fun _ => []) (exargs true false) (mkFiles (Some (concat (map exenc [0; 1; 6; 10]))) (Some (Some (concat (map exenc [0; 1]))))) exworld = Err Throw /\
  knori (N := NumR) exenc exdec 0 (fun _ => []) (exargs true false) (mkFiles (Some (concat (map exenc [0; 1; 6; 10; 11]))) (Some (Some (concat (map exenc [0]))))) exworld = Err Abort.
Proof. split; reflexivity. Qed.
