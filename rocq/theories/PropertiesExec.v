(** C123, C124: the other command line programs, from their files to their result
    file. *)
From Coq Require Import Reals Lra Lia ZArith List String Permutation.
From Verif Require Import Base Num Spec DistModel ClustersModel PartitionModel ParModel KmeansModel PruneModel OmpModel.
From Verif Require Import VecLemmas MatLemmas DistProofs ParProofs NearProofs KmeansProofs RunProofs InitProofs SimProofs SseProofs PropertiesKmeans PropertiesKmeansR PropertiesRun PropertiesKmspp PropertiesPrune.
From Verif Require Import ContainersModel IoModel WriteModel SpecYaml WriteProofs PropertiesWrite CliModel CliProofs PropertiesCli.
From Verif Require Import HclustModel HclustVerify PropertiesHresult XmeansModel XmeansRun GmeansModel SkmeansModel PropertiesSkmeans FcmModel PropertiesFcm MbModel PropertiesMb.
From Verif Require Import SkmeansProofs BestOfModel PropertiesBestOf PropertiesDistRun PropertiesPruneSame MedoidModel PropertiesMedoid PropertiesMedoidR GmmModel PropertiesGmm ExecModel.
Set Implicit Arguments.
Local Open Scope list_scope.

(** The command names a metric, the data file holds exactly nsamples x dim
    numbers, and either a file with at least [rows] x dim centroid numbers is
    given, or one of the other initialisations is used.  [data] and [centers] are
    the numbers in the files. *)
Definition exec_call {N B} (dec : list B -> car N) (rows : nat) (a : kargs N) (f : kfiles B) (dt : dist_t) (it : init_t)
  (data : list (car N)) (centers : option (list (car N))) : Prop :=
  let n := Z.to_nat (ka_nrow a) in let d := Z.to_nat (ka_ncol a) in
  (1 <= ka_nrow a)%Z /\ (1 <= ka_ncol a)%Z /\ (8 * ka_nrow a * ka_ncol a < 2 ^ 64)%Z /\ 1 <= rows /\
  ka_dist a = dist_name dt /\
  (exists bytes, kf_data f = Some bytes /\ Z.of_nat (length bytes) = (8 * ka_nrow a * ka_ncol a)%Z /\ data = values dec (n * d) bytes) /\
  match kf_centers f with
  | Some c => it = NONE /\ exists bytes, c = Some bytes /\ 8 * (rows * d) <= length bytes /\ centers = Some (values dec (rows * d) bytes)
  | None => it <> NONE /\ ka_init a = init_name it /\ centers = None
  end.

(** the program ends normally, and if an output was asked for, its text reads back
    as a file satisfying [P] *)
Definition ends_with {N} (a : kargs N) (P : file -> Prop) (r : res (option text)) : Prop :=
  exists o, r = Ok o /\ if ka_out a then exists t f, o = Some t /\ read_result t = Some f /\ P f else o = None.

(** a partition of [n] rows of dimension [d] into the clusters of the file, none of
    them empty, with its sizes and one centroid of [d] numbers for each *)
Definition partition_file (n d : nat) (f : file) : Prop :=
  f_nsamples f = n /\ f_dim f = d /\ length (f_cluster f) = n /\
  (forall r, r < n -> nth r (f_cluster f) 0 < f_k f) /\
  f_size f = map (fun j => Z.of_nat (count_eq j (f_cluster f))) (seq 0 (f_k f)) /\
  (forall j, j < f_k f -> 1 <= count_eq j (f_cluster f)) /\
  length (f_centroids f) = f_k f /\ Forall (fun c => length c = d) (f_centroids f).

(** [k] clusters with the printed centroids [C j]; every row is in the cluster of a
    nearest centroid; the sizes are right *)
Definition nearest_file (n d k : nat) (D : list R -> list R -> R) (X : nat -> list R) (C : nat -> list R) (showd : R -> text) (f : file) : Prop :=
  f_k f = k /\ f_nsamples f = n /\ f_dim f = d /\ length (f_cluster f) = n /\
  (forall r, r < n -> nth r (f_cluster f) 0 < k /\ forall j, j < k -> (D (X r) (C (nth r (f_cluster f) 0%nat)) <= D (X r) (C j))%R) /\
  f_size f = map (fun j => Z.of_nat (count_eq j (f_cluster f))) (seq 0 k) /\
  f_centroids f = map (fun j => map showd (C j)) (seq 0 k).

Section Generic.
Variable N : Num.
Notation T := (car N).
Variables (B : Type) (enc : T -> list B) (dec : list B -> T).
Hypothesis enc_len : forall x, length (enc x) = 8.
Variable showd : T -> text.
Hypothesis Hs : forall x, plain (showd x).

Lemma exec_check (a : kargs N) (f : kfiles B) rows dt it data centers : exec_call dec rows a f dt it data centers ->
  exists bytes, kf_data f = Some bytes /\ length bytes = 8 * (Z.to_nat (ka_nrow a) * Z.to_nat (ka_ncol a)) /\
    1 <= Z.to_nat (ka_nrow a) * Z.to_nat (ka_ncol a) /\
    data = objects_of 8 dec (Z.to_nat (ka_nrow a) * Z.to_nat (ka_ncol a)) bytes /\
    length data = Z.to_nat (ka_nrow a) * Z.to_nat (ka_ncol a) /\
    (filesize (kf_data f) =? w64 (8 * ka_nrow a * ka_ncol a))%Z = true /\
    k_check false a f = Ok (init_name it, bytes).
Proof.
  intros (H1 & H2 & H3 & Hk & Hd & (bytes & Ef & El & Ed) & Hc). exists bytes.
  assert (Pos : 1 <= Z.to_nat (ka_nrow a) * Z.to_nat (ka_ncol a)) by nia.
  assert (Sz : (filesize (kf_data f) =? w64 (8 * ka_nrow a * ka_ncol a))%Z = true).
  { apply Z.eqb_eq. rewrite Ef. cbn [filesize]. rewrite El. unfold w64. symmetry. apply Z.mod_small. nia. }
  split; [exact Ef|]. split; [nia|]. split; [exact Pos|]. split; [rewrite objects_at; exact Ed|].
  split; [rewrite Ed; unfold values; rewrite map_length; apply seq_length|]. split; [exact Sz|].
  unfold k_check. rewrite Sz. rewrite Ef. cbn [is_some checked orb Base.bind].
  destruct (kf_centers f) as [c|].
  - destruct Hc as (-> & b & -> & _). cbn [is_some checked orb Base.bind andb negb]. rewrite Bool.andb_false_r. reflexivity.
  - destruct Hc as (Hn & Ei & _). cbn [Base.bind is_some negb]. rewrite Bool.andb_true_r.
    assert (Q : (ka_init a =? "none")%string = false) by (rewrite Ei; destruct it; try reflexivity; congruence).
    rewrite Q. cbn [negb checked orb Base.bind]. rewrite Ei. reflexivity.
Qed.

(** ** C123: the programs compute what the library computes on the numbers in the
    files, and write exactly that *)
Theorem C123_same_as_library : forall rows eng (a : kargs N) (f : kfiles B) junk dt it data centers,
  exec_call dec rows a f dt it data centers ->
  prog enc dec showd rows eng a f junk =
    (let* r := eng (k_cfg a dt) centers it data in
     if ka_out a then let* t := write showd r in Ok (Some t) else Ok None).
Proof.
  intros rows eng a f junk dt it data centers G.
  destruct (exec_check G) as (bytes & _ & _ & _ & Ed & _ & _ & Ck). unfold prog. rewrite Ck. cbn [Base.bind fst snd].
  assert (Cc : k_centers enc dec false (with_k a rows) f (mem_world N junk) = Ok centers).
  { destruct G as (H1 & H2 & H3 & Hk & _ & _ & Hc). unfold k_centers, with_k. cbn [ka_k ka_ncol].
    destruct (kf_centers f) as [c|]; [|destruct Hc as (_ & _ & ->); reflexivity]. destruct Hc as (_ & b & -> & Lb & ->).
    destruct (@read_ptr B T enc dec enc_len false (fresh (mem_world N junk) (rows * Z.to_nat (ka_ncol a))) rows (Z.to_nat (ka_ncol a)) b) as (fl & E);
      [unfold fresh; rewrite map_length; apply seq_length|nia|exact Lb|].
    rewrite E. cbn [Base.bind fst]. rewrite objects_at. reflexivity. }
  rewrite Cc. cbn [Base.bind]. rewrite init_name_type. assert (Ek : ka_dist a = dist_name dt) by apply G. rewrite Ek, dist_name_type. cbn [Base.bind].
  cbv zeta. rewrite <- Ed. reflexivity.
Qed.

Lemma save_ends (a : kargs N) (r : cresult T) (P : file -> Prop) : shaped_result r ->
  P (SpecYaml.mkFile (cr_k r) (cr_iters r) (cr_nrow r) (cr_ncol r) (cr_counts r) (cr_asg r)
      (map (fun i => map showd (row (cr_centroids r) (cr_ncol r) i)) (seq 0 (cr_k r)))) ->
  ends_with a P (if ka_out a then let* t := write showd r in Ok (Some t) else Ok None).
Proof.
  intros Sh HP. unfold ends_with. destruct (ka_out a); [|eauto].
  destruct (@C116_file_partial T showd r Hs Sh) as (t & Ew & Er). rewrite Ew. cbn [Base.bind]. eexists. split; [reflexivity|].
  exists t. eexists. split; [reflexivity|]. split; [exact Er|exact HP].
Qed.

Lemma count_list k (cnt : list Z) A : length cnt = k -> (forall j, j < k -> nth j cnt 0%Z = Z.of_nat (count_eq j A)) ->
  cnt = map (fun j => Z.of_nat (count_eq j A)) (seq 0 k).
Proof.
  intros L H. apply (nth_ext _ _ 0%Z 0%Z); [rewrite map_length, seq_length; exact L|].
  intros j Hj. rewrite L in Hj. rewrite H by exact Hj. symmetry.
  rewrite (nth_indep _ 0%Z (Z.of_nat (count_eq 0 A))) by (rewrite map_length, seq_length; exact Hj).
  rewrite (map_nth (fun x => Z.of_nat (count_eq x A))), seq_nth by exact Hj. reflexivity.
Qed.

Lemma good_partition n d (r : cresult T) : good_clusters n d r ->
  shaped_result r /\
  partition_file n d (SpecYaml.mkFile (cr_k r) (cr_iters r) (cr_nrow r) (cr_ncol r) (cr_counts r) (cr_asg r)
      (map (fun i => map showd (row (cr_centroids r) (cr_ncol r) i)) (seq 0 (cr_k r)))).
Proof.
  intros (G1 & G2 & G3 & G4 & G5 & G6 & G7). split; [unfold shaped_result; rewrite G1, G2; auto|].
  unfold partition_file. cbn [f_nsamples f_dim f_cluster f_k f_size f_centroids].
  split; [exact G1|]. split; [exact G2|]. split; [exact G3|]. split; [exact G4|].
  split; [apply count_list; [exact G5|apply G7]|]. split; [intros j Hj; apply G7; exact Hj|].
  split; [rewrite map_length; apply seq_length|]. apply Forall_forall. intros c Hc. apply in_map_iff in Hc as (i & <- & Hi). apply in_seq in Hi.
  rewrite map_length, G2. unfold row. apply slice_length. rewrite G6. nia.
Qed.

(** ** The hierarchical programs: hmeans, xmeans, gmeans *)
Theorem C123_hmeans : forall minsz ord dr scheds fuel (a : kargs N) (f : kfiles B) junk dt it data centers,
  exec_call dec 2 a f dt it data centers ->
  let g := mkHc (k_cfg a dt) minsz in
  h_valid g data it centers dr -> h_fair g data scheds -> 2 * hclust_floor (ka_k a) - 2 <= fuel -> (forall l, Permutation l (ord l)) ->
  let r := hmeans enc dec showd minsz ord dr scheds fuel a f junk in
  r = Err Abort \/
  ends_with a (fun o => partition_file (Z.to_nat (ka_nrow a)) (Z.to_nat (ka_ncol a)) o /\ 2 <= f_k o /\ 2 * f_k o <= 3 * hclust_floor (ka_k a) + 3) r.
Proof.
  intros minsz ord dr scheds fuel a f junk dt it data centers G g Hv Hf Hfu Ho r. unfold r, hmeans. rewrite (@C123_same_as_library 2 _ a f junk dt it data centers G). clear r. fold g.
  pose proof (@h_run_ok N g data false centers it dr scheds fuel Hv Hf Hfu) as H.
  destruct (h_run g false centers it data dr scheds fuel) as [s|e] eqn:E; cbn [Base.bind]; [|left; destruct H as (-> & _); reflexivity].
  destruct (@C120_hierarchical N g centers it data dr scheds fuel s ord Hv Hf Hfu Ho E) as (cr & Er & Gd & K1 & K2 & _). rewrite Er. cbn [Base.bind]. right.
  destruct (good_partition Gd) as (Sh & Pf). apply save_ends; [exact Sh|]. cbn [f_k]. auto.
Qed.

Theorem C123_xmeans : forall nlog two_pi minsz ord dr scheds ords fuel (a : kargs N) (f : kfiles B) junk dt it data centers,
  exec_call dec 2 a f dt it data centers ->
  let g := mkHc (k_cfg a dt) minsz in
  h_valid g data it centers dr -> h_fair g data scheds -> x_orders ords -> 2 * hclust_floor (ka_k a) - 2 <= fuel -> (forall l, Permutation l (ord l)) ->
  let r := xmeans enc dec showd nlog two_pi minsz ord dr scheds ords fuel a f junk in
  r = Err Abort \/
  ends_with a (fun o => partition_file (Z.to_nat (ka_nrow a)) (Z.to_nat (ka_ncol a)) o /\ 1 <= f_k o /\ 2 * f_k o <= 3 * hclust_floor (ka_k a) + 3) r.
Proof.
  intros nlog two_pi minsz ord dr scheds ords fuel a f junk dt it data centers G g Hv Hf Hor Hfu Ho r. unfold r, xmeans. rewrite (@C123_same_as_library 2 _ a f junk dt it data centers G). clear r. fold g.
  pose proof (@x_run_ok N nlog two_pi g data false centers it dr scheds ords fuel Hv Hf Hor Hfu) as H.
  destruct (x_run nlog two_pi g false centers it data dr scheds ords fuel) as [(s & tr)|e] eqn:E; cbn [Base.bind fst]; [|left; destruct H as (-> & _); reflexivity].
  destruct (@C120_xmeans N nlog two_pi g centers it data dr scheds ords fuel s tr ord Hv Hf Hor Hfu Ho E) as (cr & Er & Gd & K1 & K2 & _). rewrite Er. cbn [Base.bind]. right.
  destruct (good_partition Gd) as (Sh & Pf). apply save_ends; [exact Sh|]. cbn [f_k]. auto.
Qed.

(** gmeans: the number of turns is not bounded by k (C103), so the statement is
    about the runs that come to an end *)
Theorem C123_gmeans : forall nlog phi trunc strictness minsz ord dr scheds fuel (a : kargs N) (f : kfiles B) junk dt it data centers,
  exec_call dec 2 a f dt it data centers ->
  let g := mkHc (k_cfg a dt) minsz in
  h_valid g data it centers dr -> h_fair g data scheds -> (forall l, Permutation l (ord l)) ->
  let r := gmeans enc dec showd nlog phi trunc strictness minsz ord dr scheds fuel a f junk in
  (forall o, r = Ok o -> ends_with a (partition_file (Z.to_nat (ka_nrow a)) (Z.to_nat (ka_ncol a))) r) /\
  (forall e, r = Err e -> g_run nlog phi trunc g strictness false centers it data dr scheds fuel = Err e).
Proof.
  intros nlog phi trunc strictness minsz ord dr scheds fuel a f junk dt it data centers G g Hv Hf Ho r.
  assert (Er : r = let* st := g_run nlog phi trunc g strictness false centers it data dr scheds fuel in
    let* x := h_result g ord (fst st) in if ka_out a then let* t := write showd x in Ok (Some t) else Ok None).
  { unfold r, gmeans. rewrite (@C123_same_as_library 2 _ a f junk dt it data centers G). fold g. destruct (g_run _ _ _ _ _ _ _ _ _ _ _ _) as [st|e]; reflexivity. }
  rewrite Er. clear Er r.
  destruct (g_run nlog phi trunc g strictness false centers it data dr scheds fuel) as [(s & tr)|e] eqn:E; cbn [Base.bind fst]; [|split; [discriminate|intros e0 Q; injection Q as <-; reflexivity]].
  destruct (@C120_gmeans N nlog phi trunc g strictness centers it data dr scheds fuel s tr ord Hv Hf Ho E) as (cr & Ec & Gd & _). rewrite Ec. cbn [Base.bind].
  destruct (good_partition Gd) as (Sh & Pf). pose proof (@save_ends a cr _ Sh Pf) as Q. split; [intros o _; exact Q|].
  intros e Ee. rewrite Ee in Q. destruct Q as (o & Q & _). discriminate Q.
Qed.

(** ** Lists of assignments, and writing a library result *)
Lemma asg_list (Q : nat -> nat -> Prop) n (asg : list (option nat)) : length asg = n ->
  (forall r, r < n -> exists a, nth r asg None = Some a /\ Q r a) ->
  exists A, asg = map Some A /\ length A = n /\ forall r, r < n -> Q r (nth r A 0).
Proof.
  intros L H. exists (map (fun a => match a with Some c => c | None => 0 end) asg).
  assert (Hn : forall r, r < n -> Q r (nth r (map (fun a => match a with Some c => c | None => 0 end) asg) 0) /\
    nth r asg None = Some (nth r (map (fun a => match a with Some c => c | None => 0 end) asg) 0)).
  { intros r Hr. destruct (H r Hr) as (a & Ea & Qa).
    assert (E : nth r (map (fun a => match a with Some c => c | None => 0 end) asg) 0 = a).
    { change 0 with ((fun a : option nat => match a with Some c => c | None => 0 end) None). rewrite map_nth, Ea. reflexivity. }
    rewrite E. auto. }
  split; [|split; [rewrite map_length; exact L|intros r Hr; apply Hn; exact Hr]].
  apply nth_ext with (d := None) (d' := None); [rewrite !map_length; reflexivity|]. intros r Hr. rewrite L in Hr. destruct (Hn r Hr) as (_ & E). rewrite E. symmetry.
  rewrite (nth_indep _ None (Some 0)) by (rewrite !map_length; lia). apply (map_nth Some).
Qed.

Lemma ct_ends (a : kargs N) inv (o : cluster_t N) n d k A (P : file -> Prop) :
  ct_nrow o = n -> ct_ncol o = d -> ct_k o = k -> ct_asg o = map Some A -> length A = n ->
  length (ct_counts o) = k -> (forall j, j < k -> nth j (ct_counts o) 0%Z = Z.of_nat (count_eq j A)) -> k * d <= length (ct_centroids o) ->
  P (SpecYaml.mkFile k (ct_iters o) n d (map (fun j => Z.of_nat (count_eq j A)) (seq 0 k)) A (map (fun i => map showd (row (ct_centroids o) d i)) (seq 0 k))) ->
  ends_with a P (save showd a (as_result inv o)).
Proof.
  intros E1 E2 E3 Ea La Lc Hc Lm HP. unfold save, ends_with. destruct (ka_out a); [|eauto].
  set (r := as_result inv o).
  assert (EA : map (fun a => match a with Some c => c | None => inv end) (ct_asg o) = A) by (rewrite Ea, map_map; apply map_id).
  assert (Cr : complete_result r) by (unfold complete_result, r, as_result; cbn [cr_k cr_counts cr_nrow cr_asg cr_ncol cr_centroids]; rewrite EA, E1, E2, E3; repeat split; lia).
  rewrite (write_ok showd Cr). cbn [Base.bind]. eexists. split; [reflexivity|]. eexists. exists (contents showd r). split; [reflexivity|].
  split; [apply read_back; exact Hs|]. unfold contents, r, as_result. cbn [cr_k cr_counts cr_nrow cr_asg cr_ncol cr_centroids cr_iters].
  rewrite EA, E1, E2, E3. rewrite <- La at 2. rewrite firstn_all, (count_list _ _ Lc Hc), firstn_all2; [exact HP|].
  rewrite map_length, seq_length. lia.
Qed.

Lemma ends_imp (a : kargs N) (P Q : file -> Prop) r : (forall f, P f -> Q f) -> ends_with a P r -> ends_with a Q r.
Proof. intros H (o & E & K). exists o. split; [exact E|]. destruct (ka_out a); [|exact K]. destruct K as (t & f & K1 & K2 & K3). eauto 6. Qed.

(** ** fcm: the written clustering is the one of largest membership weight in the
    library's last state *)
Theorem C123_fcm : OrdLaws N -> forall inv npow fuzz draw os (a : kargs N) (f : kfiles B) junk dt it data centers,
  exec_call dec (ka_k a) a f dt it data centers ->
  let g := k_cfg a dt in
  f_valid (mkFcfg g fuzz) centers it data draw -> f_fair (mkFcfg g fuzz) data os ->
  exists r, f_run npow (mkFcfg g fuzz) centers it data draw os = Ok r /\
    let s := last (f_states r) (fr_init r) in
    ends_with a (fun o =>
      f_k o = ka_k a /\ f_nsamples o = Z.to_nat (ka_nrow a) /\ f_dim o = Z.to_nat (ka_ncol a) /\
      length (f_cluster o) = Z.to_nat (ka_nrow a) /\
      (forall x, x < Z.to_nat (ka_nrow a) -> nth x (f_cluster o) 0 < ka_k a /\
        ((exists j, j < ka_k a /\ nltb N (nmin N) (PropertiesMatrix.cell (f_um s) j x) = true) ->
         forall j, j < ka_k a -> nltb N (PropertiesMatrix.cell (f_um s) (nth x (f_cluster o) 0) x) (PropertiesMatrix.cell (f_um s) j x) = false)) /\
      f_size o = map (fun j => Z.of_nat (count_eq j (f_cluster o))) (seq 0 (ka_k a)) /\
      f_centroids o = map (fun j => map showd (row (MatrixModel.dm_mat (f_centers s)) (Z.to_nat (ka_ncol a)) j)) (seq 0 (ka_k a)))
      (fcm_prog enc dec inv showd npow fuzz draw os a f junk).
Proof.
  intros OL inv npow fuzz draw os a f junk dt it data centers G g V F.
  destruct (@C80_schedule_independent N OL npow (mkFcfg g fuzz) centers it data draw V) as (r & Hr). specialize (Hr os F). exists r. split; [exact Hr|]. cbv zeta.
  unfold fcm_prog. rewrite (@C123_same_as_library _ _ a f junk dt it data centers G). fold g. rewrite Hr. cbn [Base.bind].
  destruct (@C81_result N OL npow (mkFcfg g fuzz) centers it data draw os r V F Hr) as (E1 & E2 & E3 & E4 & E5 & A & EA & LA & HA & Lc & Hc). cbv zeta in *.
  apply (@ct_ends a inv (fr_out r) _ _ _ A _ E1 E2 E3 EA LA Lc Hc); [rewrite E5; apply Nat.le_refl|].
  cbn [f_k f_nsamples f_dim f_cluster f_size f_centroids]. rewrite E4. split; [reflexivity|]. split; [reflexivity|]. split; [reflexivity|]. split; [exact LA|]. split; [|split; reflexivity].
  intros x Hx. destruct (HA x Hx) as (H1 & H2 & _). split; [exact H1|exact H2].
Qed.
End Generic.
Print Assumptions C123_same_as_library.
Print Assumptions C123_hmeans.
Print Assumptions C123_xmeans.
Print Assumptions C123_gmeans.
Print Assumptions C123_fcm.

(** * Over the reals *)
Section Reals.
Variables (B : Type) (enc : R -> list B) (dec : list B -> R).
Hypothesis enc_len : forall x, length (enc x) = 8.
Variable showd : R -> text.
Hypothesis Hs : forall x, plain (showd x).

(** hmeans writes the means of its clusters *)
Theorem C123_hmeans_means : forall minsz ord dr scheds fuel (a : kargs NumR) (f : kfiles B) junk dt it (data : list R) centers,
  @exec_call NumR B dec 2 a f dt it data centers ->
  let g := mkHc (k_cfg a dt) minsz in
  h_valid g data it centers dr -> h_fair g data scheds -> 2 * hclust_floor (ka_k a) - 2 <= fuel -> (forall l, Permutation l (ord l)) ->
  let r := @hmeans NumR B enc dec showd minsz ord dr scheds fuel a f junk in
  r = Err Abort \/
  ends_with a (fun o => describes (Z.to_nat (ka_nrow a)) (Z.to_nat (ka_ncol a)) (f_k o) (row data (Z.to_nat (ka_ncol a))) showd o) r.
Proof.
  intros minsz ord dr scheds fuel a f junk dt it data centers G g Hv Hf Hfu Ho r. unfold r, hmeans. rewrite (@C123_same_as_library NumR B enc dec enc_len showd Hs 2 _ a f junk dt it data centers G). clear r. fold g.
  pose proof (@h_run_ok NumR g data false centers it dr scheds fuel Hv Hf Hfu) as H.
  destruct (h_run g false centers it data dr scheds fuel) as [s|e] eqn:E; cbn [Base.bind]; [|left; destruct H as (-> & _); reflexivity].
  destruct (@C120_hierarchical_means g centers it data dr scheds fuel s ord Hv Hf Hfu Ho E) as (cr & Er & Gd & Hm). rewrite Er. cbn [Base.bind]. right.
  destruct (@good_partition NumR showd _ _ cr Gd) as (Sh & (P1 & P2 & P3 & P4 & P5 & P6 & P7)). apply (@save_ends NumR showd Hs a cr _ Sh).
  pose proof Gd as (G1 & G2 & _). cbn [f_k f_nsamples f_dim f_cluster f_size f_centroids] in *.
  unfold describes. cbn [f_k f_nsamples f_dim f_cluster f_size f_centroids]. split; [reflexivity|]. split; [exact P1|]. split; [exact P2|]. split; [exact P3|]. split; [exact P4|].
  assert (Ec : forall j, length (filter (fun r => nth r (cr_asg cr) 0 =? j) (seq 0 (g_nrow g))) = count_eq j (cr_asg cr)).
  { intros j. rewrite count_eq_rows. unfold g in *. cbn [k_cfg g_nrow] in *. rewrite P3. reflexivity. }
  split.
  - etransitivity; [exact P5|]. apply map_ext. intros j. rewrite <- Ec. reflexivity.
  - apply map_ext_in. intros j Hj. apply in_seq in Hj. specialize (P6 j ltac:(lia)). rewrite <- Ec in P6. rewrite G2. f_equal.
    refine (eq_trans (Hm j ltac:(lia)) _). unfold g in *. cbn [k_cfg g_nrow g_ncol] in *.
    destruct (filter _ _) as [|x l]; [cbn in P6; lia|reflexivity].
Qed.

(** skmeans clusters the data rescaled feature by feature *)
Theorem C123_skmeans : forall inv sb sn dr scheds (a : kargs NumR) (f : kfiles B) junk dt it (data : list R) centers,
  @exec_call NumR B dec (ka_k a) a f dt it data centers ->
  let g := k_cfg a dt in let d := Z.to_nat (ka_ncol a) in
  sk_fair g data sb sn -> 1 <= ka_iters a ->
  (forall X : list R, length X = length data -> valid_args g X centers it dr /\ fair g X scheds) ->
  exists lo hi : list R, length lo = d /\ length hi = d /\
  (forall c, c < d -> lowest NumR (nmax NumR) (nth c lo 0%R) (@feature NumR g data c) /\ highest NumR (nmin NumR) (nth c hi 0%R) (@feature NumR g data c)) /\
  let r := @skmeans_prog NumR B enc dec inv showd sb sn dr scheds a f junk in
  r = Err Abort \/
  ends_with a (describes (Z.to_nat (ka_nrow a)) d (ka_k a)
    (fun x => map (fun c => ((nth c (row data d x) 0 - nth c lo 0) / (nth c hi 0 - nth c lo 0))%R) (seq 0 d)) showd) r.
Proof.
  intros inv sb sn dr scheds a f junk dt it data centers G g d Sf Hi HX.
  destruct (@exec_check NumR B dec a f (ka_k a) dt it data centers G) as (bytes & _ & _ & _ & _ & Ld & _).
  destruct (HX data eq_refl) as ((V & _) & _).
  destruct (@C92_scaled_kmeans NumR NumR_laws (proj2 (Reqb_true _ _) eq_refl) (proj2 (Reqb_true _ _) eq_refl) g data V) as (lo & hi & Ll & Lh & Hb & Hsk).
  exists lo, hi. split; [exact Ll|]. split; [exact Lh|]. split; [exact Hb|].
  unfold skmeans_prog. rewrite (@C123_same_as_library NumR B enc dec enc_len showd Hs _ _ a f junk dt it data centers G). fold g.
  rewrite (Hsk centers it sb sn dr scheds Sf).
  assert (LX : @length R (@scaled NumR g data lo hi) = length data) by (etransitivity; [apply (@scaled_length NumR)|symmetry; exact Ld]).
  destruct (HX _ LX) as (A & F).
  destruct (@C67_no_out_of_bounds NumR g centers it (scaled g data lo hi) dr scheds A F) as [(rr & Er)|Er]; rewrite Er; cbn [Base.bind sk_run]; [|left; reflexivity].
  right. pose proof (@run_clustering g centers it (scaled g data lo hi) dr scheds rr (proj1 A) F Er Hi) as C.
  unfold ends_with. destruct (ka_out a); [|eauto].
  destruct (@clustering_text _ _ _ (scaled g data lo hi) (rr_out rr) inv showd Hs (eq_trans LX Ld) C) as (t & o & Ew & Ero & D).
  match goal with |- context [Base.bind ?u _] => replace u with (Ok t : res text) by (symmetry; exact Ew) end.
  cbn [Base.bind]. eexists. split; [reflexivity|]. exists t, o. split; [reflexivity|]. split; [exact Ero|].
  destruct D as (D1 & D2 & D3 & D4 & D5 & D6 & D7). unfold describes. split; [exact D1|]. split; [exact D2|]. split; [exact D3|]. split; [exact D4|]. split; [exact D5|]. split; [exact D6|].
  etransitivity; [exact D7|]. apply map_ext. intros j. apply (f_equal (map showd)).
  match goal with |- match map ?h ?l with _ => _ end = match map ?h' _ with _ => _ end => assert (Em : map h l = map h' l) end.
  { apply map_ext_in. intros x Hx. apply filter_In in Hx as (Hx & _). apply in_seq in Hx. unfold scaled.
    rewrite (@row_concat R (g_ncol g) _) with (d := @nil R).
    - rewrite MedoidProofs.nth_mapseq by (unfold g; cbn [k_cfg g_nrow]; lia). reflexivity.
    - apply Forall_forall. intros y Hy. apply in_map_iff in Hy as (q & <- & _). rewrite map_length, seq_length. reflexivity.
    - rewrite map_length, seq_length. unfold g. cbn [k_cfg g_nrow]. lia. }
  rewrite Em. reflexivity.
Qed.

(** mb_knori: if the data and the initial centroids lie in a box none of whose
    distances overflow, the program ends normally; the written centroids lie in the
    box and every row is in the cluster of a nearest one *)
Theorem C123_mb_knori : forall inv mb_size dr (u : nat -> nat -> R) scheds (a : kargs NumR) (f : kfiles B) junk dt it (data : list R) centers lo hi,
  @exec_call NumR B dec (ka_k a) a f dt it data centers ->
  let g := k_cfg a dt in let n := Z.to_nat (ka_nrow a) in let d := Z.to_nat (ka_ncol a) in
  mb_args g data centers it dr scheds ->
  (forall r, r < n -> within d lo hi (row data d r)) ->
  (forall j, j < ka_k a -> within d lo hi (start_centroid g data centers it (d_int dr) (d_real dr) j)) ->
  (forall r c, r < n -> length c = d -> within d lo hi c -> (rdist dt (row data d r) c < IZR dbl_max_Z)%R) ->
  ends_with a (fun o => exists C, (forall j, j < ka_k a -> length (C j) = d /\ within d lo hi (C j)) /\
      nearest_file n d (ka_k a) (rdist dt) (row data d) C showd o)
    (@mb_prog NumR B enc dec inv showd mb_size dr u scheds a f junk).
Proof.
  intros inv mb_size dr u scheds a f junk dt it data centers lo hi G g n d A Hx Hst Hfin.
  unfold mb_prog. rewrite (@C123_same_as_library NumR B enc dec enc_len showd Hs _ _ a f junk dt it data centers G). fold g.
  destruct (@C94_completes g mb_size centers it data dr u scheds lo hi A Hx Hfin) as (ws & s & s0 & Ew & Es & E0 & Hc).
  destruct Hc as (rr & Er & Ei); [intros j Hj; rewrite (prune_init_start A Ew Es E0 Hj); apply Hst; exact Hj|].
  match goal with |- context [mb_run ?x1 ?x2 ?x3 ?x4 ?x5 ?x6 ?x7 ?x8] => replace (mb_run x1 x2 x3 x4 x5 x6 x7 x8) with (Ok rr : res (mb_result NumR)) by (symmetry; exact Er) end.
  cbn [Base.bind].
  destruct (@C94_centroids_in_box g mb_size centers it data dr u scheds rr lo hi A Er Hx) as (_ & Hbox).
  { intros j Hj. rewrite Ei, (prune_init_start A Ew Es E0 Hj). apply Hst. exact Hj. }
  destruct (@mb_run_R g mb_size centers it data dr u scheds A) as (ws' & s' & s0' & Ew' & _ & _ & _ & _ & _ & HR).
  destruct (HR rr Er) as (_ & _ & _ & If & O1 & O2 & O3 & Hct & _).
  assert (Lct : @length R (ct_centroids (mb_out rr)) = ka_k a * d).
  { rewrite Hct. destruct If as ((((S1 & S2 & S3) & _) & _) & _). destruct S3 as (S3 & _). rewrite S1, S2 in S3. exact S3. }
  assert (Lrow : forall j, j < ka_k a -> @length R (row (ct_centroids (mb_out rr)) d j) = d).
  { intros j Hj. apply (@row_length R (ct_centroids (mb_out rr)) d j (ka_k a)); [exact Lct|exact Hj]. }
  destruct (@C95_final_assignment g mb_size centers it data dr u scheds rr A Er) as (_ & Lc & Hcnt & Hnear). cbv zeta in *.
  destruct Hnear as (La & _ & Hnear); [intros r j Hr Hj; apply Hfin; [exact Hr|apply Lrow; exact Hj|apply Hbox; exact Hj]|].
  destruct (@asg_list (fun r c => c < ka_k a /\ forall j, j < ka_k a -> (rdist dt (row data d r) (row (ct_centroids (mb_out rr)) d c) <= rdist dt (row data d r) (row (ct_centroids (mb_out rr)) d j))%R)
    (g_nrow g) (ct_asg (mb_out rr)) La) as (L & EL & LL & HL).
  { intros r Hr. destruct (Hnear r Hr) as (c & E1 & E2 & E3). exists c. auto. }
  apply (@ct_ends NumR showd Hs a inv (mb_out rr) n d (ka_k a) L _ O1 O2 O3 EL LL Lc).
  - intros j Hj. rewrite (Hcnt j Hj La). f_equal. rewrite count_eq_rows, LL. f_equal. apply filter_ext_in. intros r Hr. apply in_seq in Hr.
    rewrite EL, (nth_indep _ None (Some 0)) by (rewrite map_length; lia). rewrite (map_nth Some). reflexivity.
  - rewrite <- Lct. apply Nat.le_refl.
  - exists (row (ct_centroids (mb_out rr)) d). split; [intros j Hj; split; [apply Lrow; exact Hj|apply Hbox; exact Hj]|].
    unfold nearest_file. cbn [f_k f_nsamples f_dim f_cluster f_size f_centroids]. repeat (split; [reflexivity || exact LL || exact HL|]). reflexivity.
Qed.

(** kmeanspp: the chosen centres are rows of the data; every row is in the cluster
    of a nearest one *)
Theorem C123_kmeanspp : forall inv nstarts drs (a : kargs NumR) (f : kfiles B) dt (data : list R) bytes,
  let n := Z.to_nat (ka_nrow a) in let d := Z.to_nat (ka_ncol a) in
  (1 <= ka_nrow a)%Z -> (1 <= ka_ncol a)%Z -> (8 * ka_nrow a * ka_ncol a < 2 ^ 64)%Z -> ka_dist a = dist_name dt ->
  kf_data f = Some bytes -> Z.of_nat (length bytes) = (8 * ka_nrow a * ka_ncol a)%Z -> data = values dec (n * d) bytes ->
  1 <= nstarts -> pp_args (pp_cfg NumR n d (ka_k a) (ka_threads a) dt DataFile) nstarts data drs ->
  ends_with a (fun o => exists chosen, length chosen = ka_k a /\ Forall (fun r => r < n) chosen /\
      nearest_file n d (ka_k a) (rdist dt) (row data d) (fun j => row data d (nth j chosen 0)) showd o)
    (@kmeanspp_prog NumR B dec inv showd true nstarts drs a f).
Proof.
  intros inv nstarts drs a f dt data bytes n d H1 H2 H3 Hd Ef El Ed Hn A.
  assert (Sz : (filesize (kf_data f) =? w64 (8 * ka_nrow a * ka_ncol a))%Z = true).
  { apply Z.eqb_eq. rewrite Ef. cbn [filesize]. rewrite El. unfold w64. symmetry. apply Z.mod_small. nia. }
  unfold kmeanspp_prog. rewrite Sz, Ef. cbn [is_some checked orb Base.bind]. rewrite Hd, dist_name_type. cbn [Base.bind]. cbv zeta. fold n d.
  assert (Eo : objects_of 8 dec (n * d) bytes = data) by (rewrite objects_at; symmetry; exact Ed).
  set (g := pp_cfg NumR n d (ka_k a) (ka_threads a) dt DataFile) in *.
  destruct (@C64_best_start_partial g nstarts data drs Hn A) as (r & Er & _ & Hok & _ & Hbest & _).
  match goal with |- context [kmeansPP ?x1 ?x2 ?x3 ?x4 ?x5] => replace (kmeansPP x1 x2 x3 x4 x5) with (Ok r : res (pp_result NumR)) by (symmetry; change (car NumR) with R; rewrite Eo; exact Er) end.
  cbn [Base.bind].
  destruct (Hok _ _ _ Hbest) as ((chosen & Lch & _ & Hch) & (near & Hnear & La & Lc & Hcnt & _) & O1 & O2 & O3 & _). cbn [g pp_cfg g_nrow g_ncol g_k g_dt] in *.
  assert (Ld : @length R data = n * d) by (rewrite Ed; unfold values; rewrite map_length; apply seq_length).
  assert (Hk : 2 <= ka_k a) by apply A.
  set (L := map near (seq 0 n)).
  assert (LL : length L = n) by (unfold L; rewrite map_length; apply seq_length).
  assert (NL : forall r0, r0 < n -> nth r0 L 0 = near r0) by (intros r0 Hr; unfold L; apply MedoidProofs.nth_mapseq; exact Hr).
  assert (EL : ct_asg (pp_out r) = map Some L).
  { apply (Base.nth_error_ext). intros i. destruct (Nat.lt_ge_cases i n) as [Hi|Hi].
    - rewrite (proj1 (Hnear i Hi)), nth_error_map, (nth_error_nth' L 0) by lia. rewrite NL by exact Hi. reflexivity.
    - rewrite (proj2 (nth_error_None _ _)) by lia. symmetry. apply nth_error_None. rewrite map_length. lia. }
  assert (Lm : ka_k a * d <= @length R (ct_centroids (pp_out r))).
  { destruct (Hch (ka_k a - 1) ltac:(lia)) as (Hr & Er1).
    assert (Lr : @length R (row (ct_centroids (pp_out r)) d (ka_k a - 1)) = d).
    { etransitivity; [exact (f_equal (@length R) Er1)|]. apply (@row_length R data d _ n); [exact Ld|exact Hr]. }
    unfold row, slice in Lr. rewrite firstn_length, skipn_length in Lr. change (@length (car NumR) (ct_centroids (pp_out r))) with (@length R (ct_centroids (pp_out r))) in Lr. nia. }
  apply (@ct_ends NumR showd Hs a inv (pp_out r) n d (ka_k a) L _ O1 O2 O3 EL LL Lc).
  - intros j Hj. rewrite (Hcnt j Hj). f_equal. rewrite count_eq_rows, LL. f_equal. apply filter_ext_in. intros x Hx. apply in_seq in Hx. rewrite NL by lia. reflexivity.
  - exact Lm.
  - exists chosen. split; [exact Lch|]. split.
    { apply Forall_forall. intros x Hx. apply (In_nth _ _ 0) in Hx as (j & Hj & <-). apply Hch. lia. }
    unfold nearest_file. cbn [f_k f_nsamples f_dim f_cluster f_size f_centroids]. split; [reflexivity|]. split; [reflexivity|]. split; [reflexivity|]. split; [exact LL|]. split; [|split; [reflexivity|]].
    + intros x Hx. rewrite NL by exact Hx. destruct (Hnear x Hx) as (_ & N1 & N2). split; [exact N1|]. intros j Hj.
      rewrite <- (proj2 (Hch j Hj)), <- (proj2 (Hch _ N1)). apply N2. exact Hj.
    + apply map_ext_in. intros j Hj. apply in_seq in Hj. apply (f_equal (map showd)). apply Hch. lia.
Qed.

Lemma read_vec (buf : list R) n d (bs : list B) : length buf = n * d -> 1 <= n * d -> 8 * (n * d) <= length bs ->
  exists fl, bin_read_vec 8 enc dec false buf n d (IoModel.mkFile bs 0) = Ok (objects_of 8 dec (n * d) bs, fl).
Proof.
  intros L H1 H2. destruct (@read_ptr B R enc dec enc_len false buf n d bs L H1 H2) as (fl & E). exists fl. revert E. unfold bin_read_ptr, bin_read_vec.
  destruct (fread1 _ _ _ _ _ _) as [((ok & v) & f0)|e]; [|discriminate]. cbn [Base.bind]. destruct ok; cbn [checked orb Base.bind]; [auto|discriminate].
Qed.

(** medoids, from random rows ("forgy", the only initialisation the library
    accepts) and if no distance is huge: the medoids are rows of the data; every row
    is in the cluster of a nearest one, in the Euclidean metric whatever was asked
    for *)
Theorem C123_medoids_partial : forall inv draw smp sm se (a : kargs NumR) (f : kfiles B) dt (data : list R),
  @exec_call NumR B dec 1 a f dt FORGY data None ->
  let n := Z.to_nat (ka_nrow a) in let d := Z.to_nat (ka_ncol a) in
  let g := mkCfg NumR n d (ka_k a) (ka_iters a) (ka_threads a) (ka_tol a) dt UserBuffer in
  m_valid g data draw -> fair g data sm -> fair g data se ->
  (forall i j, i < n -> j < n -> (INR n * edist (row data d i) (row data d j) < nmax NumR)%R) ->
  ends_with a (fun o => exists chosen, length chosen = ka_k a /\ Forall (fun r => r < n) chosen /\
      nearest_file n d (ka_k a) edist (row data d) (fun j => row data d (nth j chosen 0)) showd o)
    (@medoids_prog NumR B enc dec inv showd draw smp sm se a f).
Proof.
  intros inv draw smp sm se a f dt data G n d g V Fm Fe Hsm.
  destruct (@exec_check NumR B dec a f 1 dt FORGY data None G) as (bytes & _ & Lb & Pos & Ed & Ld & _ & Ck).
  assert (Ek : ka_dist a = dist_name dt) by apply G.
  unfold medoids_prog. rewrite Ck. cbn [Base.bind fst snd]. rewrite init_name_type, Ek, dist_name_type. cbn [Base.bind]. cbv zeta. fold n d.
  destruct (@read_vec (repeat 0%R (n * d)) n d bytes (repeat_length _ _) Pos ltac:(rewrite Lb; apply Nat.le_refl)) as (fl & Er).
  match goal with |- context [Base.bind ?u _] => replace u with (Ok (objects_of 8 dec (n * d) bytes, fl) : res (list R * IoModel.file B)) by (symmetry; exact Er) end. cbn [Base.bind fst].
  replace (objects_of 8 dec (n * d) bytes) with data by exact Ed. fold g.
  destruct (@C57_run_succeeds g None data draw smp sm se V Fm Fe Hsm) as (r & Em).
  match goal with |- context [Base.bind ?u _] => replace u with (Ok r : res (mrun_result NumR)) by (symmetry; exact Em) end. cbn [Base.bind].
  destruct (@C77_result_consistent NumR NumR_laws (proj2 (Reqb_true _ _) eq_refl) g None data draw smp sm se r V Fm Fe Em) as (O1 & O2 & O3 & Lct & Hmed & La & Hnear & Lc & Hcnt). cbv zeta in *.
  clear Em Er. set (o := mr_out r) in *. clearbody o. clear r.
  assert (Hch : exists chosen, length chosen = ka_k a /\ forall j, j < ka_k a -> nth j chosen 0 < n /\ row (ct_centroids o) d j = row data d (nth j chosen 0)).
  { change (forall c, c < ka_k a -> exists id, id < n /\ row (ct_centroids o) d c = row data d id) in Hmed. clear - Hmed. induction (ka_k a) as [|k IH].
    - exists []. split; [reflexivity|intros j Hj; lia].
    - destruct IH as (l & Ll & Hl); [intros c Hc; apply Hmed; lia|]. destruct (Hmed k ltac:(lia)) as (id & Hid & Eid). exists (l ++ [id]). split; [rewrite app_length, Ll; cbn; lia|].
      intros j Hj. destruct (Nat.eq_dec j k) as [-> |Hne]; [rewrite app_nth2, Ll, Nat.sub_diag by lia; split; assumption|rewrite app_nth1 by lia; apply Hl; lia]. }
  destruct Hch as (chosen & Lch & Hch).
  destruct (@asg_list (fun i c => nearest_idx NumR EUCL (MatLemmas.rows (ka_k a) d (ct_centroids o)) (row data d i) c) n (ct_asg o) La Hnear) as (L & EL & LL & HL).
  assert (Lrows : length (MatLemmas.rows (ka_k a) d (ct_centroids o)) = ka_k a) by (unfold MatLemmas.rows; rewrite map_length; apply seq_length).
  assert (Nrow : forall j, j < ka_k a -> nth_error (MatLemmas.rows (ka_k a) d (ct_centroids o)) j = Some (row data d (nth j chosen 0))).
  { intros j Hj. unfold MatLemmas.rows. rewrite nth_error_map, (nth_error_nth' _ 0) by (rewrite seq_length; exact Hj). rewrite seq_nth by exact Hj. cbn [option_map Nat.add]. apply f_equal. exact (proj2 (Hch j Hj)). }
  apply (@ct_ends NumR showd Hs a inv o n d (ka_k a) L _ O1 O2 O3 EL LL Lc).
  - intros j Hj. rewrite (Hcnt j Hj). apply f_equal. rewrite count_eq_rows, LL. apply (f_equal (@length nat)). apply filter_ext_in. intros x Hx. apply in_seq in Hx.
    rewrite EL, (nth_indep _ None (Some 0)) by (rewrite map_length; unfold g in Hx; cbn [g_nrow] in Hx; lia). rewrite (map_nth Some). reflexivity.
  - rewrite Lct. apply Nat.le_refl.
  - exists chosen. split; [exact Lch|]. split.
    { apply Forall_forall. intros x Hx. apply (In_nth _ _ 0) in Hx as (j & Hj & <-). apply Hch. lia. }
    unfold nearest_file. cbn [f_k f_nsamples f_dim f_cluster f_size f_centroids]. split; [reflexivity|]. split; [reflexivity|]. split; [reflexivity|]. split; [exact LL|]. split; [|split; [reflexivity|]].
    + intros x Hx. specialize (HL x Hx). destruct HL as (Hlt & Hle). rewrite Lrows in Hlt. split; [exact Hlt|]. intros j Hj.
      destruct (Hle j _ _ (Nrow j Hj) (Nrow _ Hlt)) as (Hf & _). apply Rltb_false in Hf.
      eapply Rle_trans; [right; symmetry; exact (ldist_R EUCL _ _)|]. eapply Rle_trans; [exact Hf|]. right. exact (ldist_R EUCL _ _).
    + apply map_ext_in. intros j Hj. apply in_seq in Hj. apply (f_equal (map showd)). apply Hch. lia.
Qed.
End Reals.
Print Assumptions C123_hmeans_means.
Print Assumptions C123_skmeans.
Print Assumptions C123_mb_knori.
Print Assumptions C123_kmeanspp.
Print Assumptions C123_medoids_partial.

(** * C124: bad files and bad options *)
(** the program stops with an error and writes nothing *)
Definition refused (r : res (option text)) : Prop := r = Err Abort \/ r = Err Throw.

(** no data file; a data file of another size than nsamples x dim numbers; a
    centroid file that is not there; "none" without a centroid file *)
Definition bad_files {N B} (a : kargs N) (f : kfiles B) : Prop :=
  kf_data f = None \/
  (exists bytes, kf_data f = Some bytes /\ (0 <= 8 * ka_nrow a * ka_ncol a < 2 ^ 64)%Z /\ Z.of_nat (length bytes) <> (8 * ka_nrow a * ka_ncol a)%Z) \/
  kf_centers f = Some None \/
  (kf_centers f = None /\ ka_init a = "none"%string).

Definition unknown_names {N B} (a : kargs N) (f : kfiles B) : Prop :=
  (kf_centers f = None /\ forall it, ka_init a <> init_name it) \/ (forall dt, ka_dist a <> dist_name dt).

Section Refuse.
Variable N : Num.
Notation T := (car N).
Variables (B : Type) (enc : T -> list B) (dec : list B -> T).
Hypothesis enc_len : forall x, length (enc x) = 8.
Variable showd : T -> text.

Lemma bad_check (a : kargs N) (f : kfiles B) : bad_files a f -> k_check false a f = Err Abort \/ k_check false a f = Err Throw.
Proof.
  intros H. unfold k_check. destruct (kf_data f) as [bytes|] eqn:Ed; [|left; reflexivity]. cbn [is_some checked orb Base.bind filesize].
  destruct H as [H|[(b & E & Hr & Hl)|[H|(H & Hi)]]].
  - congruence.
  - rewrite Ed in E. injection E as <-. assert (Q : (Z.of_nat (length bytes) =? w64 (8 * ka_nrow a * ka_ncol a))%Z = false) by (apply Z.eqb_neq; unfold w64; rewrite Z.mod_small by exact Hr; exact Hl).
    rewrite Q. destruct (kf_centers f) as [[c|]|]; cbn [is_some checked orb Base.bind]; [|left; reflexivity|]; destruct (negb _); cbn [checked orb Base.bind]; auto.
  - rewrite H. left. reflexivity.
  - rewrite H, Hi. left. reflexivity.
Qed.

Theorem C124_bad_files : forall (a : kargs N) (f : kfiles B), bad_files a f ->
  (forall rows eng junk, refused (prog enc dec showd rows eng a f junk)) /\
  (forall inv draw smp sm se, refused (medoids_prog enc dec inv showd draw smp sm se a f)) /\
  (forall log2 two_pi bl keep dr orders junk, refused (gmm_prog enc dec log2 two_pi bl keep dr orders a f junk)).
Proof.
  intros a f H. unfold refused, prog, medoids_prog, gmm_prog.
  destruct (bad_check H) as [E|E]; rewrite E; cbn [Base.bind]; auto.
Qed.

(** the centroid file is too short.  The programs that split from two centres read
    two centroids, the others k.  (medoids does not read the file: see below.) *)
Theorem C124_short_centers : forall (a : kargs N) (f : kfiles B) c, kf_centers f = Some (Some c) ->
  (forall rows eng junk, length c < 8 * (rows * Z.to_nat (ka_ncol a)) -> refused (prog enc dec showd rows eng a f junk)) /\
  (forall log2 two_pi bl keep dr orders junk, length c < 8 * (ka_k a * Z.to_nat (ka_ncol a)) -> refused (gmm_prog enc dec log2 two_pi bl keep dr orders a f junk)).
Proof.
  intros a f c Ec.
  assert (Ck : (exists ib, k_check false a f = Ok ib) \/ k_check false a f = Err Abort \/ k_check false a f = Err Throw).
  { unfold k_check. rewrite Ec. cbn [is_some checked orb Base.bind negb andb]. destruct (kf_data f) as [b|]; [|right; left; reflexivity]. cbn [is_some checked orb Base.bind filesize].
    rewrite Bool.andb_false_r. cbn [negb checked orb Base.bind]. destruct (_ =? _)%Z; [left; eauto|auto]. }
  assert (Rd : forall rows junk, length c < 8 * (rows * Z.to_nat (ka_ncol a)) -> k_centers enc dec false (with_k a rows) f (mem_world N junk) = Err Abort).
  { intros rows junk Hl. unfold k_centers. rewrite Ec. cbn [with_k ka_k ka_ncol].
    rewrite (@read_short B T enc dec enc_len); [reflexivity| |exact Hl]. unfold fresh. rewrite map_length. apply seq_length. }
  unfold refused. split.
  - intros rows eng junk Hl. unfold prog. destruct Ck as [(ib & E)|[E|E]]; rewrite E; cbn [Base.bind]; auto. rewrite Rd by exact Hl. auto.
  - intros log2 two_pi bl keep dr orders junk Hl. unfold gmm_prog. destruct Ck as [(ib & E)|[E|E]]; rewrite E; cbn [Base.bind]; auto.
    assert (Q := Rd (ka_k a) junk Hl). assert (Ew : with_k a (ka_k a) = a) by (clear; destruct a; reflexivity). rewrite Ew in Q. rewrite Q. auto.
Qed.

Lemma unknown_init s : (forall it, s <> init_name it) -> get_init_type s = Err Throw.
Proof.
  intros G. unfold get_init_type.
  destruct (String.eqb_spec s "random"); [destruct (G RANDOM); assumption|]. destruct (String.eqb_spec s "forgy"); [destruct (G FORGY); assumption|].
  destruct (String.eqb_spec s "kmeanspp"); [destruct (G PLUSPLUS); assumption|]. destruct (String.eqb_spec s "none"); [destruct (G NONE); assumption|]. reflexivity.
Qed.
Lemma unknown_dist s : (forall dt, s <> dist_name dt) -> get_dist_type s = Err Throw.
Proof.
  intros G. unfold get_dist_type.
  destruct (String.eqb_spec s "eucl"); [destruct (G EUCL); assumption|]. destruct (String.eqb_spec s "cos"); [destruct (G COS); assumption|].
  destruct (String.eqb_spec s "taxi"); [destruct (G TAXI); assumption|]. destruct (String.eqb_spec s "sqeucl"); [destruct (G SQEUCL); assumption|]. reflexivity.
Qed.

Theorem C124_unknown_names : forall (a : kargs N) (f : kfiles B), unknown_names a f ->
  (forall rows eng junk o, prog enc dec showd rows eng a f junk <> Ok o) /\
  (forall inv draw smp sm se o, medoids_prog enc dec inv showd draw smp sm se a f <> Ok o) /\
  (forall log2 two_pi bl keep dr orders junk o, gmm_prog enc dec log2 two_pi bl keep dr orders a f junk <> Ok o).
Proof.
  intros a f H.
  assert (K : forall (X Y : Type) ib (k : init_t -> dist_t -> res Y) (o : Y), k_check false a f = Ok ib ->
    (let* it := get_init_type (fst ib) in let* dt := get_dist_type (ka_dist a) in k it dt) <> Ok o).
  { intros X Y ib k o E Q. destruct H as [(Hc & Hi)|Hd].
    - unfold k_check in E. rewrite Hc in E. apply bind_ok in E as (u & _ & E). cbn [Base.bind] in E. apply bind_ok in E as (v & _ & E).
      destruct (_ =? _)%Z; [|discriminate]. destruct (kf_data f); [|discriminate]. injection E as <-. cbn [fst] in Q. rewrite (unknown_init Hi) in Q. discriminate Q.
    - apply bind_ok in Q as (it & _ & Q). rewrite (unknown_dist Hd) in Q. discriminate Q. }
  split; [|split].
  - intros rows eng junk o E. unfold prog in E. apply bind_ok in E as (ib & Ei & E). apply bind_ok in E as (c & _ & E). exact (K unit _ ib _ o Ei E).
  - intros inv draw smp sm se o E. unfold medoids_prog in E. apply bind_ok in E as (ib & Ei & E). exact (K unit _ ib _ o Ei E).
  - intros log2 two_pi bl keep dr orders junk o E. unfold gmm_prog in E. apply bind_ok in E as (ib & Ei & E). apply bind_ok in E as (c & _ & E). exact (K unit _ ib _ o Ei E).
Qed.

(** kmeanspp has no centroid file and no initialisation *)
Theorem C124_kmeanspp : forall (a : kargs N) (f : kfiles B) inv keep nstarts drs,
  (kf_data f = None \/
   (exists bytes, kf_data f = Some bytes /\ (0 <= 8 * ka_nrow a * ka_ncol a < 2 ^ 64)%Z /\ Z.of_nat (length bytes) <> (8 * ka_nrow a * ka_ncol a)%Z) \/
   (forall dt, ka_dist a <> dist_name dt)) ->
  refused (kmeanspp_prog dec inv showd keep nstarts drs a f).
Proof.
  intros a f inv keep nstarts drs H. unfold refused, kmeanspp_prog. destruct (kf_data f) as [bytes|] eqn:Ed; [|left; reflexivity]. cbn [is_some checked orb Base.bind filesize].
  destruct H as [H|[(b & E & Hr & Hl)|Hd]].
  - discriminate H.
  - injection E as <-. assert (Q : (Z.of_nat (length bytes) =? w64 (8 * ka_nrow a * ka_ncol a))%Z = false) by (apply Z.eqb_neq; unfold w64; rewrite Z.mod_small by exact Hr; exact Hl).
    rewrite Q. auto.
  - rewrite (unknown_dist Hd). destruct (_ =? _)%Z; auto.
Qed.

(** ** Where the programs refuse good calls *)
(** medoids: a run with a centroid file never yields a result *)
Theorem C123_medoids_refuted : forall inv draw smp sm se (a : kargs N) (f : kfiles B) o,
  kf_centers f <> None -> medoids_prog enc dec inv showd draw smp sm se a f <> Ok o.
Proof.
  intros inv draw smp sm se a f o Hc E. unfold medoids_prog in E. apply bind_ok in E as (ib & Ei & E).
  assert (Q : fst ib = "none"%string).
  { unfold k_check in Ei. destruct (kf_centers f) as [c|]; [|congruence]. apply bind_ok in Ei as (u & _ & Ei). apply bind_ok in Ei as (v & Ev & Ei).
    apply bind_ok in Ev as (w & _ & Ev). injection Ev as <-. apply bind_ok in Ei as (x & _ & Ei). destruct (_ =? _)%Z; [|discriminate]. destruct (kf_data f); [|discriminate]. injection Ei as <-. reflexivity. }
  rewrite Q in E. cbn [get_init_type String.eqb Ascii.eqb Bool.eqb Base.bind] in E. apply bind_ok in E as (dt & _ & E). apply bind_ok in E as (v & _ & E). apply bind_ok in E as (r & Er & _).
  unfold m_run in Er. apply bind_ok in Er as (s & _ & Er). apply bind_ok in Er as (u & _ & Er). apply bind_ok in Er as (ws & _ & Er). apply bind_ok in Er as (s1 & Es & _). discriminate Es.
Qed.

(** gmm: no file is ever written; without the NUMA library the program never ends
    normally *)
Theorem C123_gmm_refuted : forall log2 two_pi bl keep dr orders (a : kargs N) (f : kfiles B) junk o,
  gmm_prog enc dec log2 two_pi bl keep dr orders a f junk = Ok o -> o = None /\ bl = true.
Proof.
  intros log2 two_pi bl keep dr orders a f junk o E. unfold gmm_prog in E. apply bind_ok in E as (ib & _ & E). apply bind_ok in E as (c & _ & E). apply bind_ok in E as (it & _ & E).
  apply bind_ok in E as (dt & _ & E). apply bind_ok in E as (r & Er & E). injection E as <-. split; [reflexivity|].
  destruct bl; [reflexivity|]. exfalso. exact (@C98_exit_refuted N log2 two_pi keep _ _ _ _ _ _ _ Er).
Qed.
End Refuse.
Print Assumptions C124_bad_files.
Print Assumptions C124_short_centers.
Print Assumptions C124_unknown_names.
