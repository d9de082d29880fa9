(** G-means: a run returns for every number of threads when it does for one and the
    partition ids stay within the containers it starts with. *)
From Coq Require Import Reals Permutation Lra.
From Verif Require Import Base Num MatrixModel PropertiesMatrix DistModel DistProofs ClustersModel ClustersView ClustersProofs MatLemmas
  PartitionModel PartitionProofs ParModel KmeansModel ParProofs NearProofs KmeansProofs UpdateProofs RunProofs InitProofs SimProofs Spec ParRule ParSim Okab.
From Verif Require Import VecLemmas KmeansR SseProofs PropertiesKmeansR PropertiesRun.
From Verif Require Import ContainersModel PropertiesIds HclustModel HclustProofs HclustUpdate HclustIter HclustSplit HclustRun HclustDone HclustVerify
  XmeansModel XmeansProofs XmeansDecide XmeansRound XmeansRun PropertiesXmeans PropertiesXmeansR GmeansModel GmeansSplit GmeansSteps GmeansDecide GmeansRun.
From Verif Require Import ParFree PropertiesHclust HclustThreads XmeansThreads GmeansThreads.
Set Implicit Arguments.
Unset Strict Implicit.

(** a cell of a container, zero past its end *)
Definition gcel {N : Num} (d : nat) (c : clusters N) (j : nat) : list (car N) * Z * bool := grown (c_nclust c) d c j.
Lemma loop_grow {St} (P : nat -> St -> Prop) f : forall m s, P 0 s -> (forall i a, i < m -> P i a -> exists b, f i a = Ok b /\ P (S i) b) ->
  exists t, loop m f s = Ok t /\ P m t.
Proof.
  induction m as [|m IH]; intros s H0 Hs; [exists s; split; [reflexivity|exact H0]|].
  rewrite loop_S. destruct (IH s H0) as (a & Ea & Pa). { intros i a Hi. apply Hs. lia. }
  rewrite Ea. destruct (Hs m a ltac:(lia) Pa) as (b & Eb & Pb). exists b. split; [exact Eb|exact Pb].
Qed.

Section Ex.
Variable N : Num.
Notation T := (car N).
Notation clusters := (clusters N).

Lemma peq_ex d (c l : clusters) : 0 < d -> gsh d c -> gsh d l -> exists c', sparse_peq c l = Ok c' /\ gsh d c' /\ c_nclust c <= c_nclust c'.
Proof.
  intros Hd0 (K & Hc) (Kl & Hl).
  assert (X : exists K1 c1, (if length (c_means c) <? length (c_means l) then sparse_resize c (length (c_means l)) else Ok c) = Ok c1 /\
     shaped K1 d c1 /\ K <= K1 /\ Kl <= K1).
  { pose proof Hc as (A & B & D & _). pose proof Hl as (A' & B' & D' & _). rewrite A, B in D. rewrite A', B' in D'.
    destruct (Nat.ltb_spec (length (c_means c)) (length (c_means l))) as [H|H].
    - assert (Hlen : K <= length (c_means l)) by (rewrite D, D' in *; clear - H Hd0; nia).
      destruct (@sparse_resize_ok N K d c _ Hc Hlen) as (c2 & E2 & Hs & _). exists (S (length (c_means l))), c2. splits; auto; try lia. rewrite D'. clear - Hd0; nia.
    - exists K, c. splits; auto. rewrite D, D' in H. clear - H Hd0; nia. }
  destruct X as (K1 & c1 & E1 & Hs & HK & HKl).
  assert (Q : exists c', sparse_peq c l = Ok c' /\ c_nclust c <= c_nclust c').
  { unfold sparse_peq. rewrite E1. cbn [Base.bind]. pose proof Hs as (B1 & B2 & B3 & B4 & B5). pose proof Hl as (A1 & A2 & A3 & A4 & A5).
    rewrite B1, B2 in B3. rewrite A1, A2 in A3.
    destruct (@loop_grow _ (fun _ m => length m = K1 * d) (fun i m => let* x := aget (c_means l) i in amod m i (fun y => nadd N y x)) (length (c_means l)) (c_means c1))
      as (m & Em & Lm); auto.
    { intros i a Hi La. rewrite (@aget_nth _ _ _ (nzero N)) by exact Hi. cbn [Base.bind]. unfold amod.
      assert (Hb : i < length a) by (clear -La Hi A3 HKl; nia).
      rewrite (@aget_nth _ _ _ (nzero N)) by exact Hb. cbn [Base.bind]. rewrite aset_ok by exact Hb. eexists. split; [reflexivity|]. rewrite upd_length. exact La. }
    rewrite Em. cbn [Base.bind].
    destruct (@loop_grow _ (fun _ (c : clusters) => c_nclust c = K1 /\ length (c_members c) = K1) (fun idx c' =>
        let* n := aget (c_members l) idx in sparse_num_members_peq c' n idx) (c_nclust l) (with_means c1 m)) as (c2 & E2 & L2 & _).
    - cbn [with_means c_nclust c_members]. split; [exact B1|congruence].
    - intros i a Hi (La1 & La2). rewrite (@aget_nth _ _ _ 0%Z) by congruence. cbn [Base.bind]. unfold sparse_num_members_peq.
      destruct (Nat.leb_spec (c_nclust a) i) as [|H]; [lia|]. unfold num_members_peq, amod.
      assert (Hb : i < length (c_members a)) by lia.
      rewrite (@aget_nth _ _ _ 0%Z) by exact Hb. cbn [Base.bind]. rewrite aset_ok by exact Hb. eexists. split; [reflexivity|].
      cbn [with_members c_nclust c_members]. rewrite upd_length. auto.
    - exists c2. split; [exact E2|]. rewrite L2, (proj1 Hc). exact HK. }
  destruct Q as (c' & E & Hle). exists c'. splits; auto. apply (gsh_peq (ex_intro _ K Hc) (ex_intro _ Kl Hl) E).
Qed.

Lemma combine_ex d (locs : list clusters) (c : clusters) : 0 < d -> gsh d c -> Forall (gsh d) locs ->
  exists c', combine_means c locs = Ok c' /\ c_nclust c <= c_nclust c'.
Proof.
  intros Hd0 (K & Hc) Hl. unfold combine_means. destruct (unfinalize_all_ok Hc) as (c1 & E1 & Hs1 & _). rewrite E1. cbn [Base.bind].
  assert (G : forall (locs : list clusters) (c : clusters), gsh d c -> Forall (gsh d) locs -> exists c2, for_each locs (fun l c => sparse_peq c l) c = Ok c2 /\ gsh d c2 /\ c_nclust c <= c_nclust c2).
  { clear -Hd0. induction locs as [|l locs IH]; intros c Hc Hl; cbn [for_each]; [exists c; auto|].
    inversion Hl as [|? ? Hl1 Hl2]; subst. destruct (peq_ex Hd0 Hc Hl1) as (c1 & E1 & H1 & L1). rewrite E1. cbn [Base.bind].
    destruct (IH c1 H1 Hl2) as (c2 & E2 & H2 & L2). exists c2. splits; auto. lia. }
  destruct (G locs c1 (ex_intro _ K Hs1) Hl) as (c2 & E2 & (K2 & H2) & L2). rewrite E2. cbn [Base.bind].
  destruct (finalize_all_ok H2) as (c3 & E3 & Hs3 & _). exists c3. split; [exact E3|]. rewrite (proj1 Hs3), <- (proj1 H2), (proj1 Hc), <- (proj1 Hs1). exact L2.
Qed.

Section One.
Variables (g : hcfg N) (ws : list (worker N)) (data : list T).
Let d := g_ncol g.
Let n := g_nrow g.
Hypothesis V : valid_input g data.
Hypothesis Hws : wok n d data ws.
Hypothesis Hd0 : 0 < d.

Lemma mean_ex K (s : xst N) sched : gmean_pre g K (xh s) -> length (x_loc s) = length ws -> Forall (gsh d) (x_loc s) -> gsh d (x_cl s) ->
  complete (w_ranges ws) sched -> exists s', x_mean g ws sched s = Ok s' /\ c_nclust (x_cl s) <= c_nclust (x_cl s').
Proof.
  intros Hp Ll Hsh Hcl Hc. destruct (@MEAN_grow N g ws data V Hws K s sched Hp Ll Hsh Hc) as (locs & E0 & Hl & Hh).
  unfold x_mean. rewrite E0. cbn [Base.bind fst snd].
  assert (HF : Forall (gsh d) locs).
  { apply Forall_forall. intros l Hin. apply In_nth_error in Hin as (t & Et). destruct (nth_error ws t) as [w|] eqn:Ew.
    - apply (Hh t w l Ew Et).
    - apply nth_error_None in Ew. assert (t < length locs) by (apply nth_error_Some; congruence). lia. }
  destruct (combine_ex Hd0 Hcl HF) as (c & Ec & Lc). rewrite Ec. cbn [Base.bind]. eexists. split; [reflexivity|exact Lc].
Qed.
End One.
End Ex.

Section Real.
Notation N := NumR.
Notation T := (car NumR).
Notation clusters := (clusters NumR).
Local Open Scope nat_scope.

Section Two.
Variables (nlog phi : T -> T) (trunc : T -> Z).
Variables (g : hcfg NumR) (nt : Z) (kind : load_kind) (data : list T).
Let g' := h_threads g nt kind.
Variable strictness : Z.
Let d := g_ncol g.
Let n := g_nrow g.
Hypothesis V : valid_input g data.
Hypothesis V' : valid_input g' data.
Variables (ws ws' : list (worker NumR)).
Hypothesis W : wok n d data ws.
Hypothesis W' : wok n d data ws'.
Let F := hclust_floor (g_k g).
Let M := 4 * F - 1.
Hypothesis Hk2 : 2 <= g_k g.
Hypothesis Hk30 : (Z.of_nat (g_k g) < 2 ^ 30)%Z.
Hypothesis Hmin : 2 <= h_min g.
Hypothesis Hit : 1 <= g_max_iters g.
Variable K : nat.

Notation HuR := (@HuR g data V ws ws' W W').
Notation grel := (grel g nt kind data ws ws').

(** related states, with room for the ids below [K] in the second *)
Record xrel (s s' : xst NumR) : Prop := {
  xr_g : grel s s';
  xr_cd : x_cd s' = x_cd s;
  xr_0 : K <= c_nclust (x_cl s);
  xr_K : K <= c_nclust (x_cl s')
}.

Lemma iters_ex (s s' s2 : xst NumR) scheds scheds' : xrel s s' -> (forall r, r < n -> nth r (x_part (xh s)) 0 < K) ->
  (forall j, complete (w_ranges ws) (scheds j)) -> (forall j, complete (w_ranges ws') (scheds' j)) ->
  loop (g_max_iters g) (fun i s => x_iter g ws (scheds (i + 2)) (i =? 0) s) s = Ok s2 ->
  exists s2', loop (g_max_iters g') (fun i s => x_iter g' ws' (scheds' (i + 2)) (i =? 0) s) s' = Ok s2' /\ x_cd s2' = x_cd s2 /\ x_part (xh s2) = x_part (xh s).
Proof.
  intros [[Gh Gc Gl Gl' P P'] Ecd HK0 HK] HpK C C' E.
  destruct (gp_cl P') as (K' & HK'). assert (KK : K <= K') by (rewrite <- (proj1 HK'); exact HK).
  destruct (@loop_rel (xst NumR) (xst NumR) (fun i a b => (exists c, rinv g ws data M (@FPt NumR) 0 (with_curr (xh a) c)) /\
      (length (x_pd a) = n /\ length (x_cd a) = n /\ length (x_pd b) = n /\ length (x_cd b) = n) /\
      xh b = xh a /\ x_cd b = x_cd a /\ x_cl b = x_cl s' /\ x_part (xh a) = x_part (xh s) /\ x_cl a = x_cl s)
    (fun i s => x_iter g ws (scheds (i + 2)) (i =? 0) s) (fun i s => x_iter g' ws' (scheds' (i + 2)) (i =? 0) s) (g_max_iters g) s s' s2) as (s2' & E2 & Q); auto.
  - splits; auto; try apply (gp_inv P); try apply (gp_pd P); try apply (gp_cd P); try apply (gp_pd P'); try apply (gp_cd P').
  - intros i a b a1 Hi ((c & R) & (L1 & L2 & L3 & L4) & Eh & Ed & Ec & Ep & Ec0) Ea.
    pose proof (e_asg (r_e R)) as La. change (x_asg (with_curr (xh a) c)) with (x_asg (xh a)) in La.
    destruct (@g_iter_h NumR g ws data W a a1 (scheds (i + 2)) (i =? 0) La L1 L2 (C _) Ea) as (H1 & H2 & H3 & H4 & H5).
    assert (FPs : forall A A' i v, length A = n -> length A' = n -> (forall r, r < n -> (nth r A 0 =? i) = (nth r A' 0 =? i)) -> @FPt NumR A i v -> @FPt NumR A' i v) by (intros; exact Logic.I).
    pose proof (@iter_rinv NumR g ws data V W (@FPt NumR) FPs 0 (with_curr (xh a) c) (scheds (i + 2)) R (C _)) as HI.
    assert (Ie : einv g ws data M (xh a)) by (destruct (r_e R); constructor; auto).
    pose proof (@h_iter_threads NumR g nt kind data V ws ws' W W' HuR M (xh a) (scheds (i + 2)) (scheds' (i + 2)) Ie (C _) (C' _)) as ET.
    fold g' in ET. rewrite h_iter_curr, H1 in HI. cbn [okab] in HI. destruct HI as (R3 & _ & _ & _ & _ & D3 & _).
    assert (Ie' : einv g' ws' data M (xh b)) by (rewrite Eh; apply (einv_threads _ _ HuR); exact Ie).
    assert (Hcl : shaped K' d (x_cl b)) by (rewrite Ec; exact HK').
    assert (Hpart : (i =? 0) = true -> forall r, r < n -> nth r (x_part (xh b)) 0 < K').
    { intros _ r Hr. rewrite Eh, Ep. apply Nat.lt_le_trans with K; auto. }
    pose proof (@x_iter_ok NumR g' ws' data V' W' K' M b (scheds' (i + 2)) (i =? 0) Ie' L3 L4 Hcl Hpart (C' _)) as HX.
    rewrite Eh, <- ET, H1 in HX. destruct HX as (b1 & Eb & B1 & B2 & B3 & B4 & B5 & B6 & B7).
    destruct (gp_cl P) as (Ka & HKa). assert (Ca : shaped Ka d (x_cl a)) by (rewrite Ec0; exact HKa).
    assert (Hparta : (i =? 0) = true -> forall r, r < n -> nth r (x_part (xh a)) 0 < Ka).
    { intros _ r Hr. rewrite Ep. apply Nat.lt_le_trans with K; auto. rewrite <- (proj1 HKa). exact HK0. }
    pose proof (@x_iter_ok NumR g ws data V W Ka M a (scheds (i + 2)) (i =? 0) Ie L1 L2 Ca Hparta (C _)) as HX.
    rewrite H1 in HX. destruct HX as (a2 & Ea2 & _ & _ & _ & _ & A5 & _ & A7). assert (X := eq_trans (eq_sym Ea2) Ea). injection X as ->.
    exists b1. split; [exact Eb|]. splits; auto; try congruence.
    + exists c. exact R3.
    + apply nth_ext with (d := nzero N) (d' := nzero N); [exact (eq_trans B5 (eq_sym A5))|].
      intros r Hr. assert (Hr' : r < n) by (exact (eq_ind _ (fun x => r < x) Hr _ B5)). rewrite A7, B7 by exact Hr'.
      unfold cd_after. rewrite Eh, Ed. reflexivity.
    + change (x_part (xh a1)) with (x_part (with_curr (xh a1) c)). rewrite D3. exact Ep.
  - exists s2'. tauto.
Qed.

Lemma mean_ex2 (s s' s1 : xst NumR) sched sched' : 0 < d -> xrel s s' -> complete (w_ranges ws) sched -> complete (w_ranges ws') sched' ->
  x_mean g ws sched s = Ok s1 -> exists s1', x_mean g' ws' sched' s' = Ok s1' /\ xrel s1 s1'.
Proof.
  intros Hd0 [G Ecd HK0 HK] C C' E. pose proof G as [Gh Gc Gl Gl' P P'].
  set (Km := Datatypes.S (list_max (x_part (xh s)))).
  assert (Hm : gmean_pre g Km (xh s)) by (apply (@ginv_mean g data ws); [apply (gp_inv P)|unfold Km; lia]).
  assert (Hm' : gmean_pre g' Km (xh s')) by (rewrite Gh; exact Hm).
  destruct (@mean_ex NumR g ws data V W Hd0 Km s sched Hm Gl (gp_loc P) (gp_cl P) C) as (x & Ex & Lx).
  assert (X := eq_trans (eq_sym Ex) E). injection X as ->.
  destruct (@mean_ex NumR g' ws' data V' W' Hd0 Km s' sched' Hm' Gl' (gp_loc P') (gp_cl P') C') as (s1' & Ex' & Lx').
  exists s1'. split; [exact Ex'|].
  destruct (@g_mean_ok NumR g ws data V W s s1 sched (gp_cl P) (gp_loc P) E) as (_ & _ & A3 & _).
  destruct (@g_mean_ok NumR g' ws' data V' W' s' s1' sched' (gp_cl P') (gp_loc P') Ex') as (_ & _ & B3 & _).
  constructor.
  - eapply mean_both with (3 := W) (4 := W'); eauto.
  - congruence.
  - lia.
  - lia.
Qed.

Lemma split_ex (s s' s3 : xst NumR) sched sched' : xh s' = xh s -> x_cd s' = x_cd s -> length (x_cd s) = n ->
  complete (w_ranges ws) sched -> complete (w_ranges ws') sched' ->
  g_split g ws sched s = Ok s3 -> exists s3', g_split g' ws' sched' s' = Ok s3' /\ xh s3' = xh s3 /\ x_cd s3' = x_cd s3 /\ x_cl s3' = x_cl s' /\ x_cl s3 = x_cl s.
Proof.
  intros Eh Ed Lc C C' E. unfold g_split in E |- *. rewrite Eh, Ed. change (g_diffs g' (x_hcl (xh s))) with (g_diffs g (x_hcl (xh s))).
  apply bind_ok in E as (dfs & E1 & E). rewrite E1. cbn [Base.bind]. apply bind_ok in E as ((ls & cs) & E2 & E). injection E as <-. cbn [snd xh x_cd x_cl].
  assert (Ht : ntiles 0 (length (x_cd s)) (w_ranges ws)) by (rewrite Lc; apply W).
  assert (L0 : length (map (fun _ => tt) ws) = length (w_ranges ws)) by (unfold w_ranges; rewrite !map_length; reflexivity).
  destruct (@par_run_rows _ _ _ (w_ranges ws) sched (x_cd s) _ ls cs Ht L0 C E2) as (Lcs & Hrows).
  assert (Ht' : ntiles 0 (length (x_cd s)) (w_ranges ws')) by (rewrite Lc; apply W').
  assert (L0' : length (map (fun _ => tt) ws') = length (w_ranges ws')) by (unfold w_ranges; rewrite !map_length; reflexivity).
  destruct (@par_run_rule _ _ (nzero NumR) (SPLIT_row g' ws' (x_part (xh s)) (x_act (xh s)) (x_asg (xh s)) dfs) (w_ranges ws') (x_cd s) _ Ht' L0'
    (fun t l tr => forall x, In x tr -> snd x = nth (fst (fst x)) cs (nzero NumR))) with (sched := sched') as (locs & cells & E3 & H1 & H2 & H3).
  - intros t l0 _ x [].
  - intros t o m r l tr Er Hr Hor _ Htr.
    unfold w_ranges in Er. rewrite nth_error_map in Er. destruct (nth_error ws' t) as [w|] eqn:Ew; [|discriminate]. injection Er as <- <-.
    set (R := w_start w + r) in *.
    destruct (Hrows R (nth R (x_cd s) (nzero NumR))) as (t1 & o1 & m1 & r1 & l1 & l2 & c1 & A1 & A2 & A3 & A4 & A5); [apply nth_error_nth'; exact Hor|].
    unfold w_ranges in A1. rewrite nth_error_map in A1. destruct (nth_error ws t1) as [w1|] eqn:Ew1; [|discriminate]. injection A1 as <- <-.
    assert (Q : SPLIT_row g' ws' (x_part (xh s)) (x_act (xh s)) (x_asg (xh s)) dfs t r l (nth R (x_cd s) (nzero NumR)) =
                SPLIT_row g ws (x_part (xh s)) (x_act (xh s)) (x_asg (xh s)) dfs t1 r1 l1 (nth R (x_cd s) (nzero NumR))).
    { unfold SPLIT_row. rewrite (proj2 (aget_ok ws' t w) Ew), (proj2 (aget_ok ws t1 w1) Ew1). cbn [Base.bind]. rewrite <- A3. fold R.
      destruct (aget (x_asg (xh s)) R) as [a|]; cbn [Base.bind]; [|reflexivity].
      destruct (aget (x_act (xh s)) a) as [ac|]; cbn [Base.bind]; [|reflexivity]. destruct l, l1. destruct (negb ac); [reflexivity|].
      destruct (aget (x_part (xh s)) R) as [p|]; cbn [Base.bind]; [|reflexivity].
      destruct (hm_ref dfs p) as [v|]; cbn [Base.bind]; [|reflexivity].
      assert (D1 : slice (fst (wrow w d r)) (snd (wrow w d r)) d = row data d R) by (apply (proj2 W'); [apply nth_error_In in Ew; exact Ew|exact Hr]).
      assert (D2 : slice (fst (wrow w1 d r1)) (snd (wrow w1 d r1)) d = row data d R) by (rewrite A3; apply (proj2 W); [apply nth_error_In in Ew1; exact Ew1|exact A2]).
      assert (Lr : length (row data d R) = d) by (apply (@data_row_length NumR g data V R); change (R < n); rewrite <- Lc; exact Hor).
      assert (X : forall col, col < d -> pget (wrow w d r) col = pget (wrow w1 d r1) col).
      { intros col Hcol. assert (Y : forall p : list T * nat, slice (fst p) (snd p) d = row data d R -> pget p col = Ok (nth col (row data d R) (nzero NumR))).
        { intros (v0, o0) D. cbn [fst snd] in D. unfold pget. cbn [fst snd].
          assert (Hb : o0 + col < length v0) by (rewrite <- D in Lr; unfold slice in Lr; rewrite firstn_length, skipn_length in Lr; lia).
          rewrite (@aget_nth _ _ _ (nzero NumR)) by exact Hb. f_equal. rewrite <- D. rewrite nth_slice by exact Hcol. reflexivity. }
        rewrite (Y _ D1), (Y _ D2). reflexivity. }
      change (g_ncol g') with d. fold d.
      assert (Lp : forall m, m <= d -> forall i, loop m (fun col s => let* x := pget (wrow w d r) col in let* y := aget v col in Ok (nadd NumR s (nmul NumR x y))) i =
         loop m (fun col s => let* x := pget (wrow w1 d r1) col in let* y := aget v col in Ok (nadd NumR s (nmul NumR x y))) i).
      { induction m as [|m IH]; intros Hmd i; [reflexivity|]. rewrite !loop_S, IH by lia.
        destruct (loop m _ i) as [sm|]; cbn [Base.bind]; [|reflexivity]. rewrite (X m) by lia. reflexivity. }
      rewrite Lp by lia. reflexivity. }
    destruct l2. exists tt, c1. split; [rewrite Q; exact A4|]. intros x Hx. apply in_app_iff in Hx as [Hx|[<-|[]]]; [auto|]. cbn [fst snd].
    symmetry. apply nth_error_nth. exact A5.
  - exact C'.
  - unfold d in *. rewrite E3. cbn [Base.bind snd]. eexists. split; [reflexivity|]. cbn [xh x_cd x_cl]. splits; auto.
    apply nth_ext with (d := nzero NumR) (d' := nzero NumR); [exact (eq_trans H2 (eq_sym Lcs))|]. intros i Hi.
    assert (Hi' : i < n) by (exact (eq_ind _ (fun x => i < x) Hi _ (eq_trans H2 Lc))).
    destruct (@owner NumR g' ws' data W' (proj2 (proj2 (proj2 V'))) i Hi') as (t & w & r & Ew & Hr & ->).
    destruct (H3 t (w_start w) (w_nrow w)) as (l & _ & Hun).
    { unfold w_ranges. rewrite nth_error_map, Ew. reflexivity. }
    apply (Hun (w_start w + r, nth (w_start w + r) (x_cd s) (nzero NumR), nth (w_start w + r) cells (nzero NumR))).
    unfold triples. apply in_map_iff. exists (w_start w + r). split; [reflexivity|]. apply in_seq. lia.
Qed.

Lemma for_each_rel {X A B} (P : A -> B -> Prop) (f : X -> A -> res A) (f' : X -> B -> res B) : forall l s s' t, P s s' ->
  (forall x a b a1, In x l -> P a b -> f x a = Ok a1 -> exists b1, f' x b = Ok b1 /\ P a1 b1) ->
  for_each l f s = Ok t -> exists t', for_each l f' s' = Ok t' /\ P t t'.
Proof.
  induction l as [|x l IH]; intros s s' t H0 Hs E; cbn [for_each] in *.
  - injection E as <-. exists s'. auto.
  - apply bind_ok in E as (a & Ea & E). destruct (Hs x s s' a (or_introl eq_refl) H0 Ea) as (b & Eb & Pb). rewrite Eb. cbn [Base.bind].
    apply (IH a b t Pb); [|exact E]. intros y a0 b0 a1 Hy. apply Hs. right. exact Hy.
Qed.

(** the decisions are the same: only the size of the partition means could differ *)
Lemma decision_ex (s s' s4 : xst NumR) : gmid g ws data s -> gsh d (x_cl s') -> xh s' = xh s -> x_cd s' = x_cd s -> crel d (x_cl s) (x_cl s') ->
  (forall p, In p (hm_keys (x_hcl (xh s))) -> p < c_nclust (x_cl s')) ->
  g_decision nlog phi trunc g strictness s = Ok s4 -> exists s4', g_decision nlog phi trunc g' strictness s' = Ok s4' /\ xh s4' = xh s4 /\ x_cd s4' = x_cd s4 /\
    x_cl s4' = x_cl s' /\ x_cl s4 = x_cl s.
Proof.
  intros Q Hs' Eh Ed Gc HK E. unfold g_decision in E |- *. rewrite Eh, Ed.
  apply bind_ok in E as (sc & Es & E). rewrite Es. cbn [Base.bind]. apply bind_ok in E as (u & Eu & E). rewrite Eu. cbn [Base.bind].
  apply bind_ok in E as ((h & rev) & Ek & E).
  destruct (@for_each_rel nat (hst NumR * list bool) (hst NumR * list bool) (fun a b => b = a) (g_decide g strictness (x_cl s) sc (ad_critical (nofZ NumR (Z.of_nat (length sc)))))
    (g_decide g' strictness (x_cl s') sc (ad_critical (nofZ NumR (Z.of_nat (length sc)))))
    (hm_keys (x_hcl (xh s))) (xh s, repeat false (list_max (hm_keys (x_hcl (xh s))) + 1)) (xh s, repeat false (list_max (hm_keys (x_hcl (xh s))) + 1)) (h, rev) eq_refl) as (t' & Et & ->).
  - intros pid (a1, a2) b (c1, c2) Hp -> Ha. exists (c1, c2). split; [|reflexivity]. unfold g_decide in Ha |- *.
    apply bind_ok in Ha as (x & Hx & Ha). rewrite Hx. cbn [Base.bind]. apply bind_ok in Ha as (cr & Hc & Ha). rewrite Hc. cbn [Base.bind].
    destruct (nleb NumR x cr); [|exact Ha].
    apply bind_ok in Ha as (hh & Hh & Ha). rewrite Hh. cbn [Base.bind].
    apply bind_ok in Ha as (t1 & Ht1 & Ha). rewrite Ht1. cbn [Base.bind].
    apply bind_ok in Ha as (t2 & Ht2 & Ha). rewrite Ht2. cbn [Base.bind].
    apply bind_ok in Ha as (t3 & Ht3 & Ha). rewrite Ht3. cbn [Base.bind].
    apply bind_ok in Ha as (t4 & Ht4 & Ha). rewrite Ht4. cbn [Base.bind].
    apply bind_ok in Ha as (t5 & Ht5 & Ha). rewrite Ht5. cbn [Base.bind].
    destruct (Nat.leb_spec (c_nclust (x_cl s)) pid) as [|Hn1]; [discriminate|]. pose proof (HK pid Hp) as Hn2.
    destruct (Nat.leb_spec (c_nclust (x_cl s')) pid) as [|_]; [lia|].
    assert (Esl : slice (c_means (x_cl s')) (pid * g_ncol g') (g_ncol g') = slice (c_means (x_cl s)) (pid * g_ncol g) (g_ncol g)).
    { change (g_ncol g') with d. fold d. assert (G1 : slice (c_means (x_cl s)) (pid * d) d = fst (fst (gcel d (x_cl s) pid))) by (eapply gcel_slice; eauto; apply (gm_cl Q)).
      assert (G2 : slice (c_means (x_cl s')) (pid * d) d = fst (fst (gcel d (x_cl s') pid))) by (eapply gcel_slice; eauto).
      rewrite G1, G2. symmetry. apply Gc. }
    rewrite Esl. exact Ha.
  - exact Ek.
  - rewrite Et. cbn [Base.bind]. apply bind_ok in E as (a & Ea & E). change (g_nrow g') with (g_nrow g). rewrite Ea. cbn [Base.bind]. injection E as <-.
    eexists. split; [reflexivity|]. cbn [with_h xh x_cd x_cl]. rewrite Ed. splits; auto.
Qed.

(** no partition of a round is numbered [K] or above *)
Definition ids_below (rr : rrec NumR) : Prop :=
  (forall p, In p (x_part (xh (rr_mid rr))) -> p < K) /\ (forall p, In p (hm_keys (x_hcl (xh (rr_mid rr)))) -> p < K).

Lemma round_ex (s s' s1 : xst NumR) rr more scheds scheds' : 0 < d -> xrel s s' -> ids_below rr ->
  (forall j, complete (w_ranges ws) (scheds j)) -> (forall j, complete (w_ranges ws') (scheds' j)) ->
  g_round nlog phi trunc g strictness ws data scheds s = Ok (rr, (s1, more)) ->
  exists rr' s1', g_round nlog phi trunc g' strictness ws' data scheds' s' = Ok (rr', (s1', more)) /\ xrel s1 s1'.
Proof.
  intros Hd0 X (Hpt & Hks) C C' E0. pose proof (xr_g X) as G. pose proof E0 as E. unfold g_round in E.
  apply bind_ok in E as (a1 & E1 & E). apply bind_ok in E as (a2 & E2 & E). apply bind_ok in E as (a3 & E3 & E). apply bind_ok in E as (a4 & E4 & E).
  assert (Hm : rr_mid rr = a3).
  { destruct (at_cluster_cap g (xh a4)); [injection E as <- _ _; reflexivity|]. apply bind_ok in E as (h & _ & E).
    destruct (hm_keyless (x_hcl h)); [apply bind_ok in E as (? & _ & E)|]; injection E as <- _ _; reflexivity. }
  rewrite Hm in Hpt, Hks.
  pose proof (@g_half NumR g ws data V W Hit scheds s a1 a2 a3 (gr_p G) C E1 E2 E3) as Q.
  destruct (mean_ex2 Hd0 X (C 0) (C' 0) E1) as (b1 & B1 & X1).
  assert (I2 : x_part (xh a3) = x_part (xh a2)).
  { unfold g_split in E3. apply bind_ok in E3 as (? & _ & E3). apply bind_ok in E3 as (? & _ & E3). injection E3 as <-. reflexivity. }
  pose proof (xr_g X1) as G1.
  assert (Lp2 : length (x_part (xh a2)) = n).
  { destruct (gm_inv Q) as (c & R). pose proof (e_part (r_e R)) as Lp. change (x_part (with_curr (xh a3) c)) with (x_part (xh a3)) in Lp. rewrite <- I2. exact Lp. }
  assert (PL : length (x_cd a2) = n /\ x_part (xh a2) = x_part (xh a1)).
  { assert (QQ : (exists c, rinv g ws data M (@FPt NumR) 0 (with_curr (xh a2) c)) /\ (length (x_pd a2) = n /\ length (x_cd a2) = n) /\ x_part (xh a2) = x_part (xh a1)).
    { refine (@loop_inv_ok _ (fun j b => (exists c, rinv g ws data M (@FPt NumR) 0 (with_curr (xh b) c)) /\ (length (x_pd b) = n /\ length (x_cd b) = n) /\ x_part (xh b) = x_part (xh a1)) _ _ _ _ E2 _ _).
      - pose proof (gr_p G1) as P1. splits; auto; try apply (gp_inv P1); try apply (gp_pd P1); try apply (gp_cd P1).
      - intros i a b Hi ((c & R) & (L1 & L2) & Ep) Ea.
        pose proof (e_asg (r_e R)) as La. change (x_asg (with_curr (xh a) c)) with (x_asg (xh a)) in La.
        destruct (@g_iter_h NumR g ws data W a b (scheds (i + 2)) (i =? 0) La L1 L2 (C _) Ea) as (H1 & H2 & H3 & H4 & H5).
        assert (FPs : forall A A' i v, length A = n -> length A' = n -> (forall r, r < n -> (nth r A 0 =? i) = (nth r A' 0 =? i)) -> @FPt NumR A i v -> @FPt NumR A' i v) by (intros; exact Logic.I).
        pose proof (@iter_rinv NumR g ws data V W (@FPt NumR) FPs 0 (with_curr (xh a) c) (scheds (i + 2)) R (C _)) as HI.
        rewrite h_iter_curr, H1 in HI. cbn [okab] in HI. destruct HI as (R3 & _ & _ & _ & _ & D3 & _). splits; auto.
        + exists c. exact R3.
        + change (x_part (xh b)) with (x_part (with_curr (xh b) c)). rewrite D3. exact Ep. }
    tauto. }
  destruct PL as (Lc2 & PP).
  assert (HpK : forall r, r < n -> nth r (x_part (xh a1)) 0 < K).
  { intros r Hr. rewrite <- PP, <- I2. apply Hpt. apply nth_In. rewrite I2, Lp2. exact Hr. }
  destruct (iters_ex X1 HpK C C' E2) as (b2 & B2 & Ecd2 & _).
  destruct (@iters_both g nt kind data V ws ws' W W' a1 b1 a2 b2 scheds scheds' G1 C C' E2 B2) as (H1 & H2 & H3 & H4 & H5).
  destruct (split_ex H1 Ecd2 Lc2 (C 1) (C' 1) E3) as (b3 & B3 & Eh3 & Ed3 & Ec3 & Ec3').
  assert (Gc3 : crel d (x_cl a3) (x_cl b3)) by (rewrite Ec3, Ec3', H2, H3; apply (gr_cl G1)).
  assert (HK3 : K <= c_nclust (x_cl b3)) by (rewrite Ec3, H3; apply (xr_K X1)).
  assert (Hs3 : gsh d (x_cl b3)) by (rewrite Ec3, H3; apply (gp_cl (gr_p' G1))).
  assert (HKk : forall p, In p (hm_keys (x_hcl (xh a3))) -> p < c_nclust (x_cl b3)) by (intros p Hp; apply Nat.lt_le_trans with K; auto).
  destruct (decision_ex Q Hs3 Eh3 Ed3 Gc3 HKk E4) as (b4 & B4 & Eh4 & Ed4 & Ec4 & Ec4').
  assert (U : exists rr' b5, g_round nlog phi trunc g' strictness ws' data scheds' s' = Ok (rr', (b5, more)) /\ x_cl b5 = x_cl b4 /\ x_cd b5 = x_cd b4 /\ x_cl s1 = x_cl a4 /\ x_cd s1 = x_cd a4).
  { unfold g_round. rewrite B1. cbn [Base.bind]. rewrite B2. cbn [Base.bind]. rewrite B3. cbn [Base.bind]. rewrite B4. cbn [Base.bind].
    rewrite Eh4. change (at_cluster_cap g') with (at_cluster_cap g). destruct (at_cluster_cap g (xh a4)).
    - injection E as _ <- <-. eexists _, _. split; [reflexivity|]. splits; auto.
    - apply bind_ok in E as (h & Ei & E). pose proof (@init_splits_threads NumR g nt kind data V V' ws ws' HuR (xh a4) h Ei) as ET. fold g' in ET. rewrite ET. cbn [Base.bind].
      destruct (hm_keyless (x_hcl h)).
      + apply bind_ok in E as (u & Eu & E). rewrite Eu. cbn [Base.bind]. injection E as _ <- <-. eexists _, _. split; [reflexivity|]. splits; auto.
      + injection E as _ <- <-. eexists _, _. split; [reflexivity|]. splits; auto. }
  destruct U as (rr' & b5 & B5 & Y1 & Y2 & Y3 & Y4). exists rr', b5. split; [exact B5|].
  assert (G5 : grel s1 b5).
  { refine (proj2 (@round_both nlog phi trunc g nt kind data strictness V V' ws ws' W W' Hk2 Hk30 Hmin Hit s s' s1 b5 rr rr' more more scheds scheds' G C C' E0 B5)). }
  constructor; auto.
  - congruence.
  - rewrite Y3, Ec4', Ec3', H2. apply (xr_0 X1).
  - rewrite Y1, Ec4. exact HK3.
Qed.

Lemma loop_tr scheds : forall fuel round s tr t tr', g_loop nlog phi trunc g strictness ws data scheds fuel round s tr = Ok (t, tr') ->
  exists more, tr' = tr ++ more.
Proof.
  induction fuel as [|fuel IH]; intros round s tr t tr' E; cbn [g_loop] in E; [discriminate|].
  apply bind_ok in E as ((rr & (s1 & more)) & E1 & E). destruct more.
  - destruct (IH _ _ _ _ _ E) as (m & ->). exists (rr :: m). rewrite <- app_assoc. reflexivity.
  - injection E as _ <-. exists [rr]. reflexivity.
Qed.

Lemma gloop_ex scheds scheds' : 0 < d -> (forall i j, complete (w_ranges ws) (scheds i j)) -> (forall i j, complete (w_ranges ws') (scheds' i j)) ->
  forall fuel round s s' tr tr0 t tr', xrel s s' ->
  g_loop nlog phi trunc g strictness ws data scheds fuel round s tr = Ok (t, tr') -> Forall ids_below tr' ->
  exists t', g_loop nlog phi trunc g' strictness ws' data scheds' fuel round s' tr0 = Ok t' /\ xh (fst t') = xh t.
Proof.
  intros Hd0 C C'. induction fuel as [|fuel IH]; intros round s s' tr tr0 t tr' X E HB; cbn [g_loop] in E |- *; [discriminate|].
  apply bind_ok in E as ((rr & (s1 & more)) & E1 & E).
  assert (Hrr : ids_below rr).
  { rewrite Forall_forall in HB. apply HB. destruct more.
    - destruct (loop_tr E) as (m & ->). rewrite !in_app_iff. left. right. left. reflexivity.
    - injection E as _ <-. rewrite in_app_iff. right. left. reflexivity. }
  destruct (round_ex Hd0 X Hrr (C round) (C' round) E1) as (rr' & s1' & E1' & X1). rewrite E1'. cbn [Base.bind]. destruct more.
  - exact (IH _ s1 s1' _ _ t tr' X1 E HB).
  - injection E as <- _. eexists. split; [reflexivity|]. cbn [fst]. apply (gr_h (xr_g X1)).
Qed.
End Two.
End Real.
