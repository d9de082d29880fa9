(** Mini-batch k-means does not depend on the number of threads, the loading path
    or the schedules (exact arithmetic, equal draws). *)
From Coq Require Import Reals Lra.
From Verif Require Import Base Num DistModel ClustersModel ClustersView PartitionModel ParModel KmeansModel PruneModel MatrixModel MbModel Spec KmeansR KmsppR PropertiesKmeansR InitProofs SimProofs PropertiesRun.
From Verif Require Import MatLemmas VecLemmas ClustersProofs DistProofs PartitionProofs ParProofs NearProofs KmeansProofs UpdateProofs RunProofs ParRule Okab DistMatProofs PruneProofs ClusterSums PruneRound PruneUpdate PruneRun PruneRun2.
From Verif Require Import MbProofs PropertiesPrune PropertiesMb SpecKmspp PropertiesDistSame PropertiesPruneSame.
Set Implicit Arguments.
Unset Strict Implicit.
Local Open Scope R_scope.

(** ** The full pass *)
Section Final.
Variables (g : kcfg NumR) (ws : list (worker NumR)) (data : list R).
Let d := g_ncol g. Let k := g_k g. Let n := g_nrow g.
Hypothesis Hws : @wok NumR n d data ws.
Hypothesis Hdata : length data = (n * d)%nat.
Hypothesis Hk1 : (1 <= k)%nat.

(** the new cell of a row *)
Definition fcell (C : nat -> list R) (r : nat) (c : pcell NumR) : pcell NumR :=
  (fst (mscan g C (row data d r) (cdist c) (casg c)), snd (mscan g C (row data d r) (cdist c) (casg c)), snd c).

Lemma full_round (p : prune_clusters NumR) dm sched locals (cells : list (pcell NumR)) :
  shaped k d (p_cl p) -> complete (w_ranges ws) sched -> length cells = n -> length locals = length ws ->
  Forall (fun l => shaped k d (fst l)) locals -> Forall (idok k) (asg_of cells) ->
  okab (pEM_round g ws p dm true sched locals cells)
    (fun lc => length (snd lc) = n /\ forall r, (r < n)%nat ->
       nth r (snd lc) dcell = fcell (crow (p_cl p)) r (nth r cells dcell) /\ casg (fcell (crow (p_cl p)) r (nth r cells dcell)) <> None)
    (exists r, (r < n)%nat /\ casg (fcell (crow (p_cl p)) r (nth r cells dcell)) = None).
Proof.
  intros Hp Hc Lc Ll Hsh Hid. unfold pEM_round.
  set (Q := fun t : nat * pcell NumR * pcell NumR => snd t = fcell (crow (p_cl p)) (fst (fst t)) (snd (fst t)) /\ casg (snd t) <> None).
  assert (Ht : ntiles 0 (length cells) (w_ranges ws)) by (rewrite Lc; apply Hws).
  assert (L0 : length (map (fun l : wstate NumR => (clear (fst l), 0%nat)) locals) = length (w_ranges ws)) by (unfold w_ranges; rewrite !map_length; exact Ll).
  eapply okab_mono.
  { apply (@par_run_okab _ _ dcell (pEM_row g ws p dm true) (w_ranges ws) cells _ Ht L0 (fun t l tr => shaped k d (fst l) /\ Forall Q tr) _).
    - intros t l0 E. apply nth_error_In in E. apply in_map_iff in E as (l & <- & Hin). split; [|constructor]. cbn [fst].
      rewrite Forall_forall in Hsh. rewrite (@clear_create NumR k d (fst l) (Hsh l Hin)). apply shaped_create.
    - intros t s m r l tr Er Hr Hb Htr (Hl & HQ).
      destruct (@mb_range_worker ws t s m Er) as (w & Ew & <- & <-).
      unfold pEM_row. destruct (nth (w_start w + r) cells dcell) as [[dv old] rc] eqn:Ecell.
      unfold aget. rewrite Ew. cbn [Base.bind].
      assert (Hrow : slice (fst (wrow w d r)) (snd (wrow w d r)) d = row data d (w_start w + r)).
      { apply Hws; [eapply nth_error_In; eauto|exact Hr]. }
      assert (Lx : length (row data d (w_start w + r)) = d) by (apply (@mb_X_len g data Hdata); fold n; lia).
      pose proof (@prow_scan g data Hdata Hk1 (wrow w d r) _ (p_cl p) dv old Hrow Lx Hp) as E1. pose proof Hp as (Hk' & _). unfold k in Hk'.
      unfold d in E1. rewrite Hk'.
      remember (mscan g (crow (p_cl p)) (row data d (w_start w + r)) dv old) as M eqn:EM.
      assert (E1' : prow_init NumR (wrow w (g_ncol g) r) (c_means (p_cl p)) (g_ncol g) (g_k g) (g_dt g) dv old = Ok M) by (rewrite EM; exact E1).
      rewrite E1'. cbn [Base.bind fst snd]. clear E1 E1'.
      assert (Ef : fcell (crow (p_cl p)) (w_start w + r) (dv, old, rc) = (fst M, snd M, rc)) by (rewrite EM; reflexivity).
      assert (Hio : idok k (snd M)).
      { rewrite EM. apply (@mscan_id g data Hdata Hk1). rewrite Forall_forall in Hid. apply Hid. unfold asg_of. apply in_map_iff. exists (dv, old, rc). split; [reflexivity|]. rewrite <- Ecell. apply nth_In. exact Hb. }
      clear EM. destruct M as [dv' [a|]]; cbn [fst snd] in *.
      2:{ cbn [okab]. split; [reflexivity|]. exists (w_start w + r)%nat. split; [rewrite <- Lc; exact Hb|]. rewrite Ecell, Ef. reflexivity. }
      cbn [idok] in Hio. unfold k in Hio. pose proof Hio as Hio'. apply Nat.ltb_lt in Hio'. rewrite Hio'. cbn [assert_ Base.bind].
      destruct (@add_member_ok NumR k d (fst l) (wrow w d r) _ a Hl Hio Lx Hrow) as (lc & E2 & Sl & _). unfold d in E2. rewrite E2. cbn [Base.bind okab fst snd].
      split; [exact Sl|]. apply Forall_app. split; [exact HQ|]. constructor; [|constructor]. unfold Q. cbn [fst snd]. rewrite Ef. split; [reflexivity|]. unfold casg. cbn [fst snd]. discriminate.
    - exact Hc. }
  intros [locs cells'] (Lo & Lc' & H). cbn [fst snd] in *. split; [congruence|]. intros r Hr.
  pose proof (@rule_rows _ dcell cells cells' (w_ranges ws) Q Ht) as HR.
  assert (HQ : Q (r, nth r cells dcell, nth r cells' dcell)).
  { apply HR; [|lia]. intros t s m Er. destruct (H t s m Er) as (l & _ & _ & HQ). exact HQ. }
  destruct HQ as (HQ1 & HQ2). cbn [fst snd] in *. split; [exact HQ1|]. rewrite <- HQ1. exact HQ2.
Qed.
End Final.

Lemma asg_nth (cells : list (pcell NumR)) r : nth r (asg_of cells) None = casg (nth r cells dcell).
Proof. unfold asg_of. exact (map_nth (fun c : cellR => snd (fst c)) cells dcell r). Qed.
Lemma asg_len (cells : list (pcell NumR)) : length (asg_of cells) = length cells.
Proof. apply map_length. Qed.

(** ** Two runs side by side *)
Section Pair.
Variables (g : kcfg NumR) (nt : Z) (kind : load_kind) (data : list R) (ws ws' : list (worker NumR)).
Let g' := with_threads g nt kind.
Let d := g_ncol g. Let k := g_k g. Let n := g_nrow g.
Hypothesis Hws : @wok NumR n d data ws.
Hypothesis Hws' : @wok NumR n d data ws'.
Hypothesis Hdata : length data = (n * d)%nat.
Hypothesis Hk1 : (1 <= k)%nat.

(** the same centroids, assignments and stored distances *)
Definition mbsame (a b : pst NumR) : Prop :=
  (forall j, (j < k)%nat -> cent a j = cent b j) /\
  (forall r, (r < n)%nat -> casg (cellat a r) = casg (cellat b r) /\ cdist (cellat a r) = cdist (cellat b r)).

Lemma mscan_ext C C' x dv a : (forall j, (j < k)%nat -> C j = C' j) -> mscan g C x dv a = mscan g C' x dv a.
Proof.
  intros H. unfold mscan. fold k. assert (G : forall l s, (forall j, In j l -> (j < k)%nat) ->
    fold_left (fun s j => if Rltb (rdist (g_dt g) x (C j)) (fst s) then (rdist (g_dt g) x (C j), Some j) else s) l s =
    fold_left (fun s j => if Rltb (rdist (g_dt g) x (C' j)) (fst s) then (rdist (g_dt g) x (C' j), Some j) else s) l s).
  { induction l as [|j l IH]; intros s Hl; cbn [fold_left]; [reflexivity|]. rewrite <- (H j (Hl j (or_introl eq_refl))). apply IH. intros; apply Hl; right; auto. }
  apply G. intros j Hj. apply in_seq in Hj. lia.
Qed.

Lemma asg_list (a b : pst NumR) : length (PruneModel.ps_cells a) = n -> length (PruneModel.ps_cells b) = n -> mbsame a b ->
  asg_of (PruneModel.ps_cells a) = asg_of (PruneModel.ps_cells b).
Proof.
  intros La Lb (_ & H). apply nth_ext with (d := None) (d' := None); [rewrite !asg_len; etransitivity; [exact La|symmetry; exact Lb]|]. intros r Hr. rewrite asg_len in Hr. replace (length (PruneModel.ps_cells _)) with n in Hr by (symmetry; exact La).
  rewrite !asg_nth.
  apply (H r Hr).
Qed.

Lemma means_list (a b : pst NumR) : ppre g ws a -> ppre g' ws' b -> mbsame a b -> c_means (p_cl (ps_cltrs a)) = c_means (p_cl (ps_cltrs b)).
Proof.
  intros (((A1 & A2 & (A3 & _)) & _) & _) (((B1 & B2 & (B3 & _)) & _) & _) (H & _). cbn [g' with_threads g_k g_ncol] in B1, B2. fold k in A1, B1. fold d in A2, B2.
  apply (@flat_ext k d).
  - etransitivity; [exact A3|]. rewrite A1, A2. reflexivity.
  - etransitivity; [exact B3|]. rewrite B1, B2. reflexivity.
  - intros j Hj. specialize (H j Hj). unfold cent, crow in H. rewrite A2, B2 in H. exact H.
Qed.

Lemma iter_threads q u s1 s2 a b a' : mbinv g ws a -> mbinv g' ws' b -> mbsame a b -> complete (w_ranges ws) s1 -> complete (w_ranges ws') s2 ->
  mb_iterate g ws q u s1 a = Ok a' ->
  exists b', mb_iterate g' ws' q u s2 b = Ok b' /\ mbinv g ws a' /\ mbinv g' ws' b' /\ mbsame a' b' /\
    p_prev_means (ps_cltrs a') = p_prev_means (ps_cltrs b').
Proof.
  intros Ia Ib S C1 C2 E. pose proof S as (SC & SA).
  pose proof (@mb_iterate_R g ws data Hws Hdata Hk1 q u s1 a C1 Ia) as P. rewrite E in P. destruct P as (Ia' & Pc & Ps & Pm & Pp).
  pose proof (@mb_iterate_R g' ws' data Hws' Hdata Hk1 q u s2 b C2 Ib) as P.
  assert (EC : forall r, (r < n)%nat -> casg (newcell g data q u (cent a) r (cellat a r)) = casg (newcell g data q u (cent b) r (cellat b r))).
  { intros r Hr. destruct (SA r Hr) as (E1 & E2). unfold newcell. destruct (smp q u r); [|exact E1].
    change (snd (mscan g (cent a) (row data (g_ncol g) r) (cdist (cellat a r)) (casg (cellat a r))) = snd (mscan g (cent b) (row data (g_ncol g) r) (cdist (cellat b r)) (casg (cellat b r)))).
    rewrite E1, E2, (@mscan_ext (cent a) (cent b)) by exact SC. reflexivity. }
  destruct (mb_iterate g' ws' q u s2 b) as [b'|e].
  2:{ exfalso. destruct P as (_ & r & Hr & Hs & Hn). destruct (Ps r Hr Hs) as (c & Ec & _). destruct (Pc r Hr) as (Q1 & _).
      rewrite Q1, (EC r Hr) in Ec. unfold newcell in Ec. rewrite Hs in Ec. unfold casg at 1 in Ec. cbn [fst snd] in Ec.
      assert (Q := eq_trans (eq_sym Hn) Ec). discriminate Q. }
  destruct P as (Ib' & Rc & Rs & Rm & Rp). exists b'. split; [reflexivity|]. split; [exact Ia'|]. split; [exact Ib'|].
  assert (SA' : forall r, (r < n)%nat -> casg (cellat a' r) = casg (cellat b' r) /\ cdist (cellat a' r) = cdist (cellat b' r)).
  { intros r Hr. destruct (Pc r Hr) as (-> & ->). destruct (Rc r Hr) as (-> & ->). split; [apply EC; exact Hr|reflexivity]. }
  assert (La : length (PruneModel.ps_cells a') = n) by apply Ia'. assert (Lb : length (PruneModel.ps_cells b') = n) by apply Ib'.
  assert (EA : asg_of (PruneModel.ps_cells a') = asg_of (PruneModel.ps_cells b')).
  { apply nth_ext with (d := None) (d' := None); [rewrite !asg_len; etransitivity; [exact La|symmetry; exact Lb]|]. intros r Hr. rewrite asg_len in Hr. replace (length (PruneModel.ps_cells _)) with n in Hr by (symmetry; exact La).
    rewrite !asg_nth.
    apply (SA' r Hr). }
  split; [split; [|exact SA']|].
  - intros j Hj. rewrite (Pm j Hj), (Rm j Hj), <- EA, <- (SC j Hj). apply f_equal2; [|reflexivity]. apply f_equal.
    apply filter_ext_in. intros r Hr. apply filter_In in Hr as (Hr & _). apply in_seq in Hr. assert (Hrn : (r < n)%nat) by exact (proj2 Hr). destruct (SA' r Hrn) as (-> & _). reflexivity.
  - rewrite Pp, Rp. apply means_list; [apply Ia|apply Ib|exact S].
Qed.

Lemma loop_threads q u s1 s2 : (forall i, complete (w_ranges ws) (s1 i)) -> (forall i, complete (w_ranges ws') (s2 i)) ->
  forall m i a b ta tb it cv a' ta', mbinv g ws a -> mbinv g' ws' b -> mbsame a b ->
  mb_loop g ws q u s1 m i a ta = Ok (it, cv, a', ta') ->
  exists b' tb', mb_loop g' ws' q u s2 m i b tb = Ok (it, cv, b', tb') /\ mbinv g ws a' /\ mbinv g' ws' b' /\ mbsame a' b'.
Proof.
  intros C1 C2. induction m as [|m IH]; intros i a b ta tb it cv a' ta' Ia Ib S E; cbn [mb_loop] in *.
  - injection E as <- <- <- <-. exists b, tb. auto.
  - apply bind_ok in E as (a1 & E1 & E). destruct (@iter_threads q (u i) (s1 i) (s2 i) a b a1 Ia Ib S (C1 i) (C2 i) E1) as (b1 & F1 & Ia1 & Ib1 & S1 & Ep).
    rewrite F1. cbn [Base.bind]. assert (Em := means_list (proj1 Ia1) (proj1 Ib1) S1).
    apply bind_ok in E as ([] & E2 & E). change (g_k g') with (g_k g). change (g_ncol g') with (g_ncol g). rewrite <- Em, E2. cbn [Base.bind].
    apply bind_ok in E as (f & E3 & E). assert (Ef : mb_change b1 = Ok f).
    { rewrite <- E3. unfold mb_change. rewrite Em, Ep. reflexivity. }
    rewrite Ef. cbn [Base.bind]. change (g_tol g') with (g_tol g). destruct (nltb NumR f (g_tol g)).
    + injection E as <- <- <- <-. exists b1, (tb ++ [b1]). auto.
    + apply (IH (Datatypes.S i) a1 b1 (ta ++ [a1]) (tb ++ [b1]) it cv a' ta' Ia1 Ib1 S1 E).
Qed.

Lemma final_threads sa sb a b locs cells : mbinv g ws a -> mbinv g' ws' b -> mbsame a b -> complete (w_ranges ws) sa -> complete (w_ranges ws') sb ->
  pEM_round g ws (ps_cltrs a) (ps_dm a) true sa (ps_local a) (PruneModel.ps_cells a) = Ok (locs, cells) ->
  exists locs' cells', pEM_round g' ws' (ps_cltrs b) (ps_dm b) true sb (ps_local b) (PruneModel.ps_cells b) = Ok (locs', cells') /\ asg_of cells' = asg_of cells.
Proof.
  intros Ia Ib (SC & SA) C1 C2 E. pose proof Ia as (((P1 & P2) & _ & _ & Lc & Ll1 & Ll2) & Ha). pose proof Ib as (((Q1 & Q2) & _ & _ & Lc' & Ll1' & Ll2') & Hb).
  pose proof (@full_round g ws data Hws Hdata Hk1 (ps_cltrs a) (ps_dm a) sa (ps_local a) (PruneModel.ps_cells a) P1 C1 Lc Ll1 Ll2 Ha) as F. rewrite E in F. cbn [okab fst snd] in F.
  pose proof (@full_round g' ws' data Hws' Hdata Hk1 (ps_cltrs b) (ps_dm b) sb (ps_local b) (PruneModel.ps_cells b) Q1 C2 Lc' Ll1' Ll2' Hb) as F'.
  assert (EC : forall r, (r < n)%nat -> casg (fcell g data (crow (p_cl (ps_cltrs a))) r (cellat a r)) = casg (fcell g' data (crow (p_cl (ps_cltrs b))) r (cellat b r))).
  { intros r Hr. destruct (SA r Hr) as (E1 & E2). 
    change (snd (mscan g (cent a) (row data (g_ncol g) r) (cdist (cellat a r)) (casg (cellat a r))) = snd (mscan g (cent b) (row data (g_ncol g) r) (cdist (cellat b r)) (casg (cellat b r)))).
    rewrite E1, E2, (@mscan_ext (cent a) (cent b)) by exact SC. reflexivity. }
  destruct F as (Lx & F). destruct (pEM_round g' ws' _ _ _ _ _ _) as [[locs' cells']|e]; cbn [okab fst snd] in F'.
  - destruct F' as (Lx' & F'). exists locs', cells'. split; [reflexivity|]. apply nth_ext with (d := None) (d' := None); [rewrite !asg_len; etransitivity; [exact Lx'|symmetry; exact Lx]|].
    intros r Hr. rewrite asg_len in Hr. assert (Hr' : (r < n)%nat) by exact (eq_ind _ (fun m => (r < m)%nat) Hr _ Lx').
    rewrite !asg_nth.
    destruct (F r Hr') as (G1 & _). destruct (F' r Hr') as (G1' & _). rewrite G1, G1'. symmetry. apply EC. exact Hr'.
  - exfalso. destruct F' as (_ & r & Hr & Hn). destruct (F r Hr) as (_ & Hs). apply Hs. exact (eq_trans (EC r Hr) Hn).
Qed.
End Pair.

(** ** The start *)
Section Start.
Variables (g : kcfg NumR) (nt : Z) (kind : load_kind) (data : list R) (ws ws' : list (worker NumR)).
Let g' := with_threads g nt kind.
Hypothesis V : @valid_input NumR g data.
Hypothesis V' : @valid_input NumR g' data.
Hypothesis W : @wok NumR (g_nrow g) (g_ncol g) data ws.
Hypothesis W' : @wok NumR (g_nrow g) (g_ncol g) data ws'.

Definition cells_same (a b : pst NumR) : Prop := map fst (PruneModel.ps_cells a) = map fst (PruneModel.ps_cells b).

Lemma cells_same_at a b : cells_same a b -> length (PruneModel.ps_cells a) = g_nrow g -> length (PruneModel.ps_cells b) = g_nrow g -> forall r, (r < g_nrow g)%nat ->
  casg (cellat a r) = casg (cellat b r) /\ cdist (cellat a r) = cdist (cellat b r).
Proof.
  intros H La Lb r Hr. assert (E : fst (cellat a r) = fst (cellat b r)).
  { etransitivity; [symmetry; exact (map_nth (@fst (R * option nat) bool) (PruneModel.ps_cells a) dcell r)|]. etransitivity; [|exact (map_nth (@fst (R * option nat) bool) (PruneModel.ps_cells b) dcell r)].
    exact (f_equal (fun l => nth r l (fst (dcell : pcell NumR))) H). }
  unfold casg, cdist. rewrite E. auto.
Qed.

(** the created states differ in the workers' clusters only *)
Lemma create_threads centers it s : prune_create_coord g centers it = Ok s -> exists l, prune_create_coord g' centers it =
  Ok (mkPst (ps_cltrs s) (ps_dm s) (PruneModel.ps_cells s) (PruneModel.ps_counts s) (ps_changed s) l).
Proof.
  unfold prune_create_coord. intros E. cbn [g' with_threads g_k g_ncol g_nrow g_nthreads] in *. apply bind_ok in E as ([] & -> & E). cbn [Base.bind].
  apply bind_ok in E as (c & -> & E). cbn [Base.bind]. apply bind_ok in E as (dm & -> & E). cbn [Base.bind]. injection E as <-. eexists. reflexivity.
Qed.

Lemma combine_fst_fst {A B C} : forall (l : list (A * B)) (m : list C), length l = length m -> map fst (combine l m) = l.
Proof. induction l as [|x l IH]; intros [|y m] H; cbn in *; try lia; auto. f_equal. apply IH. lia. Qed.

(** the initialiser's stored distances and assignments *)
Lemma init_threads centers it dr dr' s s' a b : (2 <= g_k g)%nat -> centers_ok g centers it -> draws_ok g data it dr ->
  (it = PLUSPLUS -> (forall i, complete (w_ranges ws) (d_sched dr i)) /\ (forall i, complete (w_ranges ws') (d_sched dr' i))) ->
  d_int dr' = d_int dr -> d_real dr' = d_real dr ->
  prune_create_coord g centers it = Ok s -> prune_create_coord g' centers it = Ok s' ->
  prune_run_init g it ws data dr s = Ok a -> prune_run_init g' it ws' data dr' s' = Ok b -> cells_same a b /\ ps_counts a = ps_counts b.
Proof.
  intros Hk2 Hco D HS Ei Er Es Es' Ea Eb.
  destruct (@create_pre g data Hk2 centers it Hco) as (s0 & ks & F1 & F2 & A1 & A2 & A3 & A4 & A5 & A6 & A7 & A8 & _).
  assert (Q := eq_trans (eq_sym Es) F1). injection Q as <-.
  destruct (create_threads Es) as (l & F3). assert (Q := eq_trans (eq_sym Es') F3). injection Q as ->. clear F3 Es'.
  unfold prune_run_init in Ea, Eb. cbn [ps_cltrs PruneModel.ps_cells PruneModel.ps_counts ps_changed ps_local ps_dm] in Eb.
  rewrite A1, A2, A3, A4 in Ea, Eb. 
  assert (Ll : length (map snd (PruneModel.ps_cells s)) = g_nrow g) by (rewrite map_length; exact A7).
  assert (Ld : length (dist_of (PruneModel.ps_cells s)) = g_nrow g) by (unfold dist_of; rewrite map_length; exact A7).
  assert (Fin : forall x y : kst NumR, s_asg x = s_asg y -> s_counts x = s_counts y -> forall cx cy, cells_same
     (mkPst cx (ps_dm s) (combine (combine (dist_of (PruneModel.ps_cells s)) (s_asg x)) (map snd (PruneModel.ps_cells s))) (s_counts x) (s_changed x) (s_local x))
     (mkPst cy (ps_dm s) (combine (combine (dist_of (PruneModel.ps_cells s)) (s_asg y)) (map snd (PruneModel.ps_cells s))) (s_counts y) (s_changed y) (s_local y)) /\ s_counts x = s_counts y).
  { intros x y E Ec cx cy. split; [|exact Ec]. unfold cells_same. cbn [PruneModel.ps_cells]. rewrite E. reflexivity. }
  destruct it; cbn [run_init draws_ok] in *.
  - apply bind_ok in Ea as (x & Ea & E). injection E as <-. apply bind_ok in Eb as (y & Eb & E). injection E as <-. rewrite Ei in Eb.
    destruct (@create_ok NumR g centers RANDOM ltac:(lia) Hco) as (ks' & G & K1 & K2 & K3 & K4). assert (Q := eq_trans (eq_sym F2) G). injection Q as <-.
    assert (Ecl : s_cltrs ks = clusters_create NumR (g_k g) (g_ncol g)) by (rewrite K1; unfold clusters_create; rewrite (Nat.mul_comm (g_ncol g)); destruct centers; reflexivity).
    pose proof (@random_ok NumR g data V (d_int dr) (mkSt (s_cltrs ks) (s_asg ks) (s_counts ks) (s_changed ks) (ps_local s)) Ecl) as R1.
    pose proof (@random_ok NumR g' data V' (d_int dr) (mkSt (s_cltrs ks) (s_asg ks) (s_counts ks) (s_changed ks) l) Ecl) as R2.
    cbn [s_asg] in R1, R2. specialize (R1 ltac:(rewrite A8; apply repeat_length) D). specialize (R2 ltac:(rewrite A8; apply repeat_length) D).
    destruct R1 as (x' & E1 & _ & (_ & R1) & Rc1 & _). destruct R2 as (y' & E2 & _ & (_ & R2) & Rc2 & _).
    assert (Q := eq_trans (eq_sym Ea) E1). injection Q as ->. assert (Q := eq_trans (eq_sym Eb) E2). injection Q as ->.
    apply Fin; [etransitivity; [exact R1|symmetry; exact R2]|etransitivity; [exact Rc1|symmetry; exact Rc2]].
  - apply bind_ok in Ea as (x & Ea & E). injection E as <-. apply bind_ok in Eb as (y & Eb & E). injection E as <-.
    unfold forgy_init in Ea, Eb. apply bind_ok in Ea as (c & _ & E). injection E as <-. apply bind_ok in Eb as (c' & _ & E). injection E as <-. apply Fin; reflexivity.
  - apply bind_ok in Ea as ([[[x dx] u1] u2] & Ea & E). injection E as <-. apply bind_ok in Eb as ([[[y dy] u3] u4] & Eb & E). injection E as <-.
    destruct D as (D & _). destruct (HS eq_refl) as (S1 & S2). unfold kmeanspp_init_t in Ea, Eb. rewrite Ei, Er in Eb. cbn [s_cltrs s_asg] in Ea, Eb.
    destruct (@thd_row_ok NumR g data V _ D) as (p & Ep & Hp). destruct (@thd_row_ok NumR g' data V' _ D) as (p' & Ep' & Hp'). rewrite Ep in Ea. rewrite Ep' in Eb. cbn [Base.bind] in Ea, Eb.
    assert (Sh : shaped (g_k g) (g_ncol g) (s_cltrs ks)).
    { destruct V as (X1 & X2 & X3 & X4). destruct (@build_workers_ok NumR g data X1 X2 X3 X4) as (w & Ew & Wt & Hl & _).
      destruct (@create_stok NumR g centers PLUSPLUS ks w F2 Hl) as ((Sh & _) & _). exact Sh. }
    destruct (@set_mean_at_eq NumR (g_k g) (g_ncol g) (s_cltrs ks) p p' (row data (g_ncol g) (d_int dr 0)) 0 Sh ltac:(lia) (@data_row_length NumR g data V _ D) Hp Hp') as (c' & G1 & G2 & Sh').
    rewrite G1 in Ea. rewrite G2 in Eb. cbn [Base.bind] in Ea, Eb. change (g_nrow g') with (g_nrow g) in Eb. change (g_k g') with (g_k g) in Eb.
    rewrite !aset_ok in Ea by (rewrite ?A8, ?repeat_length; exact D). rewrite !aset_ok in Eb by (rewrite ?A8, ?repeat_length; exact D). cbn [Base.bind] in Ea, Eb.
    destruct (@kmspp_loop_eq NumR g data nt kind ws ws' V V' W W') with (sch := d_sched dr) (sch' := d_sched dr') (ur := d_real dr) (n := g_k g) (ci := 0%nat) (c := c')
      (cells := combine (upd (repeat (nmax NumR) (g_nrow g)) (d_int dr 0%nat) (nzero NumR)) (upd (s_asg ks) (d_int dr 0%nat) (Some 0%nat))) (trace := @nil (list R)) (chosen := [d_int dr 0%nat]) as (E & _); auto; try lia.
    { intros cl L. destruct W as (Wt & _). destruct W' as (Wt' & _). etransitivity; [apply (@wsums_total cl (g_nrow g) ws Wt L)|symmetry; apply (@wsums_total cl (g_nrow g) ws' Wt' L)]. }
    { rewrite combine_length, !upd_length, repeat_length. rewrite A8, repeat_length. lia. }
    apply bind_ok in Ea as ([[[c2 cells] tr] ch] & Q1 & Ea). apply bind_ok in Eb as ([[[c2' cells'] tr'] ch'] & Q2 & Eb).
    assert (Q := eq_trans (eq_sym Q1) (eq_trans E Q2)). injection Q as <- <- <- <-. injection Ea as <- <- <- <-. injection Eb as <- <- <- <-.
    split; reflexivity.
  - injection Ea as <-. injection Eb as <-. split; reflexivity.
Qed.
End Start.

(** ** The theorem *)
Lemma perctg_full (g : kcfg NumR) mb_size : (0 < eff_threads (g_nthreads g) (Z.of_nat (g_nrow g)))%Z ->
  (eff_threads (g_nthreads g) (Z.of_nat (g_nrow g)) <= mb_size)%Z -> mb_perctg g mb_size = IZR mb_size / IZR (Z.of_nat (g_nrow g)).
Proof.
  intros H0 H. unfold mb_perctg. cbn [nltb ndiv nofZ none NumR]. set (e := eff_threads _ _) in *.
  assert (E : Rltb (IZR mb_size / IZR e) 1 = false).
  { apply Rltb_false. assert (0 < IZR e) by (apply IZR_lt; exact H0). apply IZR_le in H. apply Rmult_le_reg_r with (IZR e); [assumption|]. unfold Rdiv. rewrite Rmult_assoc, Rinv_l by lra. lra. }
  rewrite E. reflexivity.
Qed.

Lemma eff_pos (g : kcfg NumR) data : @valid_input NumR g data -> (0 < eff_threads (g_nthreads g) (Z.of_nat (g_nrow g)))%Z.
Proof. intros (V1 & V2 & V3 & _). unfold eff_threads, w32. rewrite Z.mod_small by lia. lia. Qed.

Theorem C131_minibatch : forall (g : kcfg NumR) nt kind mb_size centers it (data : list R) (dr dr' : draws NumR) (u : nat -> nat -> R) scheds scheds' rr,
  let g' := with_threads g nt kind in
  mb_args g data centers it dr scheds -> mb_args g' data centers it dr' scheds' ->
  d_int dr' = d_int dr -> d_real dr' = d_real dr ->
  (eff_threads (g_nthreads g) (Z.of_nat (g_nrow g)) <= mb_size)%Z -> (eff_threads nt (Z.of_nat (g_nrow g)) <= mb_size)%Z ->
  mb_run g mb_size centers it data dr u scheds = Ok rr ->
  exists rr', mb_run g' mb_size centers it data dr' u scheds' = Ok rr' /\ mb_out rr' = mb_out rr /\ mb_converged rr' = mb_converged rr.
Proof.
  intros g nt kind mb_size centers it data dr dr' u scheds scheds' rr g' A A' Ei Er Hb Hb' E.
  destruct (@mb_run_R g mb_size centers it data dr u scheds A) as (ws & s & s0 & Ew & W & Es & E0 & I0 & _ & _).
  destruct (@mb_run_R g' mb_size centers it data dr' u scheds' A') as (ws' & s' & s0' & Ew' & W' & Es' & E0' & I0' & _ & _).
  change (g_nrow g') with (g_nrow g) in W'. change (g_ncol g') with (g_ncol g) in W'.
  pose proof A as (Hk2 & (V & Hk & Hco & D) & _ & F). pose proof A' as (_ & (V' & _ & _ & D') & _ & F').
  assert (Hdata : length data = (g_nrow g * g_ncol g)%nat) by apply V.
  assert (Ecell : cells_same s0 s0' /\ ps_counts s0 = ps_counts s0').
  { apply (@init_threads g nt kind data ws ws' V V' W W' centers it dr dr' s s' s0 s0' Hk2 Hco D); auto.
    intros ->. split; [exact (proj2 D ws Ew)|exact (proj2 D' ws' Ew')]. }
  destruct Ecell as (Ecell & _).
  assert (Sm : mbsame g s0 s0').
  { split.
    - intros j Hj. rewrite <- (@pcentroid_cent g s0 j) by apply I0. rewrite <- (@pcentroid_cent g' s0' j) by apply I0'.
      rewrite (@prune_init_start g data centers it dr scheds ws s s0 A Ew Es E0 j Hj).
      change (g_ncol g) with (g_ncol g'). rewrite (@prune_init_start g' data centers it dr' scheds' ws' s' s0' A' Ew' Es' E0' j Hj).
      rewrite Ei, Er. apply start_same. repeat split.
    - apply (@cells_same_at g s0 s0' Ecell); [apply I0|apply I0']. }
  assert (Ep : mb_perctg g' mb_size = mb_perctg g mb_size).
  { rewrite (@perctg_full g' mb_size); [|apply (@eff_pos g' data V')|exact Hb']. rewrite (@perctg_full g mb_size); [|apply (@eff_pos g data V)|exact Hb]. reflexivity. }
  unfold mb_run in E |- *. unfold mb_run.
  assert (X1 := Es). assert (X1' := Es').
  apply bind_ok in E as (t1 & Y1 & E). assert (Q := eq_trans (eq_sym Y1) Es). injection Q as ->.
  apply bind_ok in E as (t2 & Y2 & E). assert (Q := eq_trans (eq_sym Y2) Ew). injection Q as ->.
  apply bind_ok in E as (t3 & Y3 & E). assert (Q := eq_trans (eq_sym Y3) E0). injection Q as ->. clear Y1 Y2 Y3 X1 X1'.
  apply bind_ok in E as ([[[iter conv] a] tr] & EL & E). apply bind_ok in E as ([locs cells] & EF & E). apply bind_ok in E as (counts & EC & E). injection E as <-.
  destruct (@loop_threads g nt kind data ws ws' W W' Hdata Hk (mb_perctg g mb_size) u scheds scheds' (F ws Ew) (F' ws' Ew') (g_max_iters g) 0 s0 s0' [] [] iter conv a tr I0 I0' Sm EL)
    as (b & tb & EL' & Ia & Ib & Sab).
  destruct (@final_threads g nt kind data ws ws' W W' Hdata Hk (scheds (g_max_iters g)) (scheds' (g_max_iters g)) a b locs cells Ia Ib Sab (F ws Ew _) (F' ws' Ew' _) EF) as (locs' & cells' & EF' & Ea).
  assert (Em := @means_list g nt kind ws ws' a b (proj1 Ia) (proj1 Ib) Sab).
  exists (mkMb (mkCluster NumR (g_nrow g) (g_ncol g) iter (g_k g) (asg_of cells) counts (c_means (p_cl (ps_cltrs a)))) conv s0' tb).
  split; [|split; reflexivity].
  rewrite Es'. cbn [Base.bind]. rewrite Ew'. cbn [Base.bind]. rewrite E0'. cbn [Base.bind]. rewrite Ep. change (g_max_iters g') with (g_max_iters g).
  unfold g'. rewrite EL'. cbn [Base.bind]. rewrite EF'. cbn [Base.bind snd].
  assert (Et : tally cells' (repeat 0%Z (g_k g)) = Ok counts) by (rewrite <- EC; unfold tally; rewrite Ea; reflexivity).
  change (g_k (with_threads g nt kind)) with (g_k g). rewrite Et. cbn [Base.bind]. rewrite Ea, Em. reflexivity.
Qed.
Print Assumptions C131_minibatch.

(** below the number of threads, the sampled fraction is one row's, so the result
    may depend on the number of threads *)
Theorem C131_fraction : forall (g : kcfg NumR) (data : list R) mb_size, valid_input g data ->
  mb_perctg g mb_size =
    (if (eff_threads (g_nthreads g) (Z.of_nat (g_nrow g)) <=? mb_size)%Z then IZR mb_size else 1) / IZR (Z.of_nat (g_nrow g)).
Proof.
  intros g data mb_size V. pose proof (eff_pos V) as H0. destruct (Z.leb_spec (eff_threads (g_nthreads g) (Z.of_nat (g_nrow g))) mb_size) as [H|H].
  - apply perctg_full; assumption.
  - unfold mb_perctg. cbn [nltb ndiv nofZ none NumR]. set (e := eff_threads _ _) in *.
    assert (E : Rltb (IZR mb_size / IZR e) 1 = true).
    { apply Rltb_true. assert (P : 0 < IZR e) by (apply IZR_lt; exact H0). apply IZR_lt in H. apply Rmult_lt_reg_r with (IZR e); [exact P|]. unfold Rdiv. rewrite Rmult_assoc, Rinv_l by lra. lra. }
    rewrite E. reflexivity.
Qed.
