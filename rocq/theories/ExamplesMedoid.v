(** C76, C79 and concrete k-medoids runs (IEEE double arithmetic). *)
From Coq Require Import Reals Floats.SpecFloat.
From Verif Require Import Base Num DistModel ClustersModel ClustersView ClustersProofs MatLemmas
  PartitionModel ParModel KmeansModel ParProofs NearProofs KmeansProofs UpdateProofs RunProofs InitProofs Spec DistProofs.
From Verif Require Import MedoidModel MedoidProofs MedoidStep MedoidRun PropertiesMedoid PropertiesMedoidR.
Set Implicit Arguments.

(** the same request with another metric *)
Definition ask {N} (g : kcfg N) (dt : dist_t) : kcfg N :=
  mkCfg N (g_nrow g) (g_ncol g) (g_k g) (g_max_iters g) (g_nthreads g) (g_tol g) dt (g_kind g).

(** ** C76: the metric asked for has no influence at all *)
Theorem C76_metric_ignored : forall N (g : kcfg N) dt dt' centers it data draw smp sm se,
  m_run (ask g dt) centers it data draw smp sm se = m_run (ask g dt') centers it data draw smp sm se.
Proof.
  intros N g dt dt' centers it data draw smp sm se.
  assert (L : forall ws m i s tr, m_loop (ask g dt) ws data smp sm se m i s tr = m_loop (ask g dt') ws data smp sm se m i s tr).
  { intros ws. induction m as [|m IH]; intros i s tr; cbn [m_loop]; [reflexivity|].
    change (m_turn (ask g dt) ws data (smp i) (sm i) (se i) s) with (m_turn (ask g dt') ws data (smp i) (sm i) (se i) s).
    destruct (m_turn (ask g dt') ws data (smp i) (sm i) (se i) s) as [(s' & b)|e]; cbn [bind fst snd]; [|reflexivity].
    destruct b; [reflexivity|]. apply IH. }
  unfold m_run. change (m_create (ask g dt) centers it) with (m_create (ask g dt') centers it).
  destruct (m_create (ask g dt') centers it) as [s0|e]; cbn [bind]; [|reflexivity].
  change (g_kind (ask g dt)) with (g_kind (ask g dt')).
  destruct (match g_kind (ask g dt') with NumaReorg => Err Throw | _ => Ok tt end) as [u|e]; cbn [bind]; [|reflexivity].
  change (build_workers (ask g dt) data) with (build_workers (ask g dt') data).
  destruct (build_workers (ask g dt') data) as [ws|e]; cbn [bind]; [|reflexivity].
  change (m_init (ask g dt) ws it data draw (se 0) s0) with (m_init (ask g dt') ws it data draw (se 0) s0).
  destruct (m_init (ask g dt') ws it data draw (se 0) s0) as [s1|e]; cbn [bind]; [|reflexivity].
  rewrite L. reflexivity.
Qed.

(** what does hold: with the Euclidean metric every row goes to its nearest medoid
    in the metric asked for *)
Theorem C76_euclidean_partial : forall N, OrdLaws N -> neqb N (nmax N) (nmax N) = true ->
  forall (g : kcfg N) centers data draw smp sm se r,
  m_valid g data draw -> fair g data sm -> fair g data se -> g_dt g = EUCL ->
  m_run g centers FORGY data draw smp sm se = Ok r ->
  forall i, i < g_nrow g -> exists a, nth i (ct_asg (mr_out r)) None = Some a /\
     nearest_idx N (g_dt g) (rows (g_k g) (g_ncol g) (ct_centroids (mr_out r))) (row data (g_ncol g) i) a.
Proof.
  intros N OL HM g centers data draw smp sm se r V Fm Fe Ed E. rewrite Ed.
  destruct (@C77_result_consistent N OL HM g centers data draw smp sm se r V Fm Fe E) as (_ & _ & _ & _ & _ & _ & H & _). exact H.
Qed.

(** ** C79: only Forgy initialisation is accepted, anything else is an exception,
    supplied medoids included *)
Theorem C79_only_forgy : forall N (g : kcfg N) centers it data draw smp sm se,
  valid_input g data -> 1 <= g_k g -> it <> FORGY ->
  (forall m, centers = Some m -> length m = g_k g * g_ncol g) ->
  m_run g centers it data draw smp sm se = Err Throw.
Proof.
  intros N g centers it data draw smp sm se (V1 & V2 & V3 & V4) Hk Hit Hm. unfold m_run, m_create, assert_.
  destruct (Nat.leb_spec 1 (g_k g)); [|lia]. cbn [bind].
  assert (C : exists c, match centers, it with Some m, NONE => set_mean_all (clusters_create N (g_k g) (g_ncol g)) (m, 0) | _, _ => Ok (clusters_create N (g_k g) (g_ncol g)) end = Ok c).
  { destruct centers as [m|]; [|eexists; reflexivity]. destruct it; try (eexists; reflexivity).
    eexists. apply (@set_mean_all_ok N (g_k g) (g_ncol g) _ (m, 0) m (shaped_create N (g_k g) (g_ncol g))); [|].
    all: cbn [fst snd]; rewrite <- (Hm m eq_refl); unfold slice; cbn [skipn]; try apply firstn_all; try lia. }
  destruct C as (c & ->). cbn [bind].
  destruct (@build_workers_ok N g data V1 V2 V3 V4) as (ws & Ews & _). rewrite Ews. cbn [bind].
  destruct (g_kind g); [| |reflexivity]; cbn [bind]; unfold m_init; destruct it; try reflexivity; contradiction.
Qed.

Theorem C79_no_reorganised_data : forall N (g : kcfg N) centers data draw smp sm se,
  1 <= g_k g -> g_kind g = NumaReorg -> m_run g centers FORGY data draw smp sm se = Err Throw.
Proof.
  intros N g centers data draw smp sm se Hk Hkind. unfold m_run, m_create, assert_.
  destruct (Nat.leb_spec 1 (g_k g)); [|lia]. cbn [bind]. destruct centers; cbn [bind]; rewrite Hkind; reflexivity.
Qed.

(* ------------------------------------------------------------------ *)
(** * Concrete runs *)
Definition md (l : list Z) : list F64 := map fofZ l.
Definition mc (n d k iters : nat) (dt : dist_t) : kcfg NumF := mkCfg NumF n d k iters 2 (fofZ (-1)) dt UserBuffer.
Definition all_rows (_ _ : nat) : bool := true.
Definition msch (l : list nat) (_ : nat) : list nat := l.
Definition mobs (r : mrun_result NumF) :=
  (ct_asg (mr_out r), ct_counts (mr_out r), ct_centroids (mr_out r), mr_converged r, length (mr_trace r),
   map (fun s => c_members (m_cl s)) (m_states r)).

Lemma mc_fair n d k iters dt data ws a b l : build_workers (mc n d k iters dt) data = Ok ws -> w_ranges ws = [(0, a); (a, b)] ->
  count_eq 0 l = a -> count_eq 1 l = b -> fair (mc n d k iters dt) data (msch l).
Proof.
  intros E R H0 H1 ws' E' i. rewrite E in E'. injection E' as <-. rewrite R. intros [|[|[|t]]] s x H; try discriminate;
  injection H as <- <-; unfold msch; lia.
Qed.

Lemma mc_valid n d k iters dt data dr : 1 <= n -> (Z.of_nat n < 2 ^ 32)%Z -> length data = n * d -> 1 <= k ->
  (forall i, i < k -> dr i < n) -> m_valid (mc n d k iters dt) data dr.
Proof.
  intros. unfold m_valid, valid_input, mc. cbn [g_nrow g_ncol g_k g_max_iters g_nthreads g_kind]. splits; auto; try lia. discriminate.
Qed.

Definition d6 := md [0; 1; 2; 10; 11; 12]%Z.
Definition dr2 (i : nat) : nat := i.

(** the premises of C57, C58, C77 and C78 hold of this run: six rows, two workers in
    an interleaved schedule, starting from the medoids 0 and 1.  The medoids move
    in both iterations; the second reassigns no row and the run stops *)
Theorem medoid_nonvacuous :
  let g := mc 6 1 2 20 EUCL in let sch := msch [0; 1; 1; 0; 0; 1] in
  m_valid g d6 dr2 /\ fair g d6 sch /\
  exists r, m_run g None FORGY d6 dr2 all_rows sch sch = Ok r /\
    ct_asg (mr_out r) = map Some [0; 0; 0; 1; 1; 1] /\ ct_counts (mr_out r) = [3; 3]%Z /\
    ct_centroids (mr_out r) = md [1; 11]%Z /\ mr_converged r = true /\ length (mr_trace r) = 2 /\
    map (fun s => c_members (m_cl s)) (m_states r) = [[0; 1]; [0; 3]; [1; 4]]%Z.
Proof.
  cbv zeta. assert (W : okmap (@w_ranges NumF) (build_workers (mc 6 1 2 20 EUCL) d6) = Some [(0, 3); (3, 3)]) by (vm_compute; reflexivity).
  assert (H : okmap mobs (m_run (mc 6 1 2 20 EUCL) None FORGY d6 dr2 all_rows (msch [0; 1; 1; 0; 0; 1]) (msch [0; 1; 1; 0; 0; 1]))
     = Some (map Some [0; 0; 0; 1; 1; 1], [3; 3]%Z, md [1; 11]%Z, true, 2, [[0; 1]; [0; 3]; [1; 4]]%Z)) by (vm_compute; reflexivity).
  apply okmap_ex in W as (ws & Ew & Rw). apply okmap_ex in H as (r & E & H). unfold mobs in H. injection H as H1 H2 H3 H4 H5 H6 H7.
  splits; [|exact (@mc_fair 6 1 2 20 EUCL d6 ws 3 3 [0; 1; 1; 0; 0; 1] Ew Rw eq_refl eq_refl)|exists r; unfold m_states; cbn [map]; rewrite H6, H7; auto 10].
  clear. apply mc_valid; [lia|lia|reflexivity|lia|]. intros [|[|i]] Hi; try lia; unfold dr2; cbn; lia.
Qed.

(** started from rows 1 and 4 the first iteration changes no medoid: the premise of C58 *)
Definition dr14 (i : nat) : nat := if i =? 0 then 1 else 4.
Theorem C58_nonvacuous :
  let g := mc 6 1 2 20 EUCL in let sch := msch [0; 1; 1; 0; 0; 1] in
  m_valid g d6 dr14 /\ fair g d6 sch /\
  exists r, m_run g None FORGY d6 dr14 all_rows sch sch = Ok r /\ mr_converged r = true /\
    map (fun s => c_means (m_cl s)) (m_states r) = [md [1; 11]%Z; md [1; 11]%Z].
Proof.
  cbv zeta. assert (W : okmap (@w_ranges NumF) (build_workers (mc 6 1 2 20 EUCL) d6) = Some [(0, 3); (3, 3)]) by (vm_compute; reflexivity).
  assert (H : okmap (fun r => (mr_converged r, map (fun s => c_means (m_cl s)) (m_states r))) (m_run (mc 6 1 2 20 EUCL) None FORGY d6 dr14 all_rows (msch [0; 1; 1; 0; 0; 1]) (msch [0; 1; 1; 0; 0; 1]))
     = Some (true, [md [1; 11]%Z; md [1; 11]%Z])) by (vm_compute; reflexivity).
  apply okmap_ex in W as (ws & Ew & Rw). apply okmap_ex in H as (r & E & H). injection H as H1 H2 H3.
  splits; [|exact (@mc_fair 6 1 2 20 EUCL d6 ws 3 3 [0; 1; 1; 0; 0; 1] Ew Rw eq_refl eq_refl)|exists r; unfold m_states; cbn [map]; rewrite H2; splits; [exact E|exact H1|]; exact (f_equal (cons _) H3)].
  clear. apply mc_valid; [lia|lia|reflexivity|lia|]. intros [|[|i]] Hi; try lia; unfold dr14; cbn; lia.
Qed.

(** C76 is false: asked for the taxi metric, row 2 = (3,3) is put with (0,0), at taxi
    distance 6, although the other medoid (8,3) is at taxi distance 5 *)
Definition d23 := md [0; 0; 8; 3; 3; 3; 3; 3]%Z.
Theorem C76_refuted :
  let g := mc 4 2 2 0 TAXI in let sch := msch [0; 1; 1; 0] in
  m_valid g d23 dr2 /\ fair g d23 sch /\
  exists r, m_run g None FORGY d23 dr2 all_rows sch sch = Ok r /\
    nth 2 (ct_asg (mr_out r)) None = Some 0 /\
    ldist NumF TAXI (row d23 2 2) (row (ct_centroids (mr_out r)) 2 0) = fofZ 6 /\
    ldist NumF TAXI (row d23 2 2) (row (ct_centroids (mr_out r)) 2 1) = fofZ 5.
Proof.
  cbv zeta. assert (W : okmap (@w_ranges NumF) (build_workers (mc 4 2 2 0 TAXI) d23) = Some [(0, 2); (2, 2)]) by (vm_compute; reflexivity).
  assert (H : okmap (fun r => (nth 2 (ct_asg (mr_out r)) None, ldist NumF TAXI (row d23 2 2) (row (ct_centroids (mr_out r)) 2 0), ldist NumF TAXI (row d23 2 2) (row (ct_centroids (mr_out r)) 2 1)))
      (m_run (mc 4 2 2 0 TAXI) None FORGY d23 dr2 all_rows (msch [0; 1; 1; 0]) (msch [0; 1; 1; 0]))
     = Some (Some 0, fofZ 6, fofZ 5)) by (vm_compute; reflexivity).
  apply okmap_ex in W as (ws & Ew & Rw). apply okmap_ex in H as (r & E & H). injection H as H1 H2 H3.
  splits; [|exact (@mc_fair 4 2 2 0 TAXI d23 ws 2 2 [0; 1; 1; 0] Ew Rw eq_refl eq_refl)|exists r; auto 10].
  clear. apply mc_valid; [lia|lia|reflexivity|lia|]. intros [|[|i]] Hi; try lia; unfold dr2; cbn; lia.
Qed.
