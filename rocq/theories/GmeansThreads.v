(** G-means goes through the same states whatever the number of threads, the schedule and
    the way the data is loaded, in exact arithmetic, as long as the runs return. *)
From Coq Require Import Reals Permutation Lra.
From Verif Require Import Base Num MatrixModel PropertiesMatrix DistModel DistProofs ClustersModel ClustersView ClustersProofs MatLemmas
  PartitionModel PartitionProofs ParModel KmeansModel ParProofs NearProofs KmeansProofs UpdateProofs RunProofs InitProofs SimProofs Spec ParRule ParSim Okab.
From Verif Require Import VecLemmas KmeansR SseProofs PropertiesKmeansR PropertiesRun.
From Verif Require Import ContainersModel PropertiesIds HclustModel HclustProofs HclustUpdate HclustIter HclustSplit HclustRun HclustDone HclustVerify
  XmeansModel XmeansProofs XmeansDecide XmeansRound XmeansRun PropertiesXmeans PropertiesXmeansR GmeansModel GmeansSplit GmeansSteps GmeansDecide GmeansRun.
From Verif Require Import ParFree PropertiesHclust HclustThreads XmeansThreads.
Set Implicit Arguments.
Unset Strict Implicit.

(** a cell of a container, zero past its end *)
Definition gcel {N : Num} (d : nat) (c : clusters N) (j : nat) : list (car N) * Z * bool := grown (c_nclust c) d c j.

Section Mean.
Variable N : Num.
Notation T := (car N).
Notation clusters := (clusters N).
Variables (g : hcfg N) (ws : list (worker N)) (data : list T).
Let d := g_ncol g.
Let n := g_nrow g.
Hypothesis V : valid_input g data.
Hypothesis Hws : wok n d data ws.

(** the partition of every row the means are taken over, [K] for the others *)
Definition mlive (K : nat) (h : hst N) : list nat :=
  map (fun r => if nth (nth r (x_asg h) 0) (x_act h) false then nth r (x_part h) 0 else K) (seq 0 (length (x_asg h))).
Lemma mlive_length K h : length (mlive K h) = length (x_asg h).
Proof. unfold mlive. rewrite map_length. apply seq_length. Qed.
Lemma mlive_nth K h r : r < length (x_asg h) -> nth r (mlive K h) 0 =
  if nth (nth r (x_asg h) 0) (x_act h) false then nth r (x_part h) 0 else K.
Proof.
  intros Hr. unfold mlive. set (f := fun r => if nth (nth r (x_asg h) 0) (x_act h) false then nth r (x_part h) 0 else K).
  rewrite (nth_indep _ 0 (f 0)) by (rewrite map_length, seq_length; exact Hr). rewrite (map_nth f (seq 0 (length (x_asg h))) 0 r), seq_nth by exact Hr. reflexivity.
Qed.

Definition gmean_pre (K : nat) (h : hst N) : Prop :=
  length (x_asg h) = n /\ length (x_part h) = n /\ (forall r, r < n -> nth r (x_asg h) 0 < length (x_act h)) /\
  (forall r, r < n -> nth r (x_part h) 0 < K).

Definition gholds (K : nat) (A : list nat) (w : worker N) (l : clusters) : Prop :=
  gsh d l /\ forall j, j < K -> gcel d l j =
    (csum N d j (xas g data (w_start w) (slice A (w_start w) (w_nrow w))),
     ccnt N j (xas g data (w_start w) (slice A (w_start w) (w_nrow w))), false).

Lemma MEAN_grow K (s : xst N) sched : gmean_pre K (xh s) -> length (x_loc s) = length ws ->
  Forall (gsh d) (x_loc s) -> complete (w_ranges ws) sched ->
  exists locs, MEAN_round g ws sched s = Ok (locs, x_asg (xh s)) /\ length locs = length ws /\
    forall t w l, nth_error ws t = Some w -> nth_error locs t = Some l -> gholds K (mlive K (xh s)) w l.
Proof.
  intros (La & Lp & Hact & Hlive) Ll Hsh Hc. set (h := xh s) in *. set (A := mlive K h).
  assert (LA : length A = n) by (unfold A; rewrite mlive_length; exact La).
  assert (Ht : ntiles 0 (length (x_asg h)) (w_ranges ws)) by (rewrite La; apply Hws).
  assert (L0 : length (map (fun c : clusters => clear c) (x_loc s)) = length (w_ranges ws)) by (unfold w_ranges; rewrite !map_length; exact Ll).
  destruct (@par_run_rule _ _ 0 (MEAN_row g ws (x_part h) (x_act h)) (w_ranges ws) (x_asg h) _ Ht L0
    (fun t l tr => (forall x, In x tr -> snd x = snd (fst x)) /\ gsh d l /\ forall w, nth_error ws t = Some w -> forall j, j < K -> gcel d l j =
      (csum N d j (xas g data (w_start w) (slice A (w_start w) (length tr))),
       ccnt N j (xas g data (w_start w) (slice A (w_start w) (length tr))), false))) with (sched := sched)
    as (locs & cells & E & H1 & H2 & H3).
  - intros t l0 E. apply nth_error_In in E. apply in_map_iff in E as (l & <- & Hin). rewrite Forall_forall in Hsh.
    destruct (Hsh l Hin) as (K0 & Hl). rewrite (clear_create Hl). splits.
    + intros x [].
    + exists K0. apply shaped_create.
    + intros w Hw j Hj. cbn [length]. unfold gcel, grown. cbn [clusters_create c_nclust].
      destruct (Nat.ltb_spec j K0) as [H|H]; [rewrite cel_create by exact H; reflexivity|reflexivity].
  - intros t o m r l tr Er Hr Hor Ltr (Hun & (K0 & Hs) & Hcel).
    unfold w_ranges in Er. rewrite nth_error_map in Er. destruct (nth_error ws t) as [w|] eqn:Ew; [|discriminate].
    injection Er as <- <-. specialize (Hcel w eq_refl). rewrite La in Hor.
    set (R := w_start w + r) in *. set (a := nth R (x_asg h) 0).
    unfold MEAN_row. rewrite (proj2 (aget_ok ws t w) Ew). cbn [Base.bind].
    rewrite (aget_nth (x_act h) (i := a) false) by (apply Hact; exact Hor). cbn [Base.bind].
    assert (Es : slice A (w_start w) (length (tr ++ [(R, a, a)])) = slice A (w_start w) (length tr) ++ [nth R A 0]).
    { rewrite app_length. cbn [length]. rewrite Nat.add_1_r, Ltr. apply slice_S_last. apply nth_error_nth'. unfold R in *. lia. }
    assert (Ls : length (slice A (w_start w) (length tr)) = r) by (rewrite slice_length; unfold R in *; lia).
    assert (EA : nth R A 0 = if nth a (x_act h) false then nth R (x_part h) 0 else K) by (apply mlive_nth; lia).
    assert (Hun' : forall x, In x (tr ++ [(R, a, a)]) -> snd x = snd (fst x)).
    { intros x Hx. apply in_app_iff in Hx as [Hx|[<-|[]]]; auto. }
    destruct (nth a (x_act h) false) eqn:Ea; cbn [negb].
    + pose proof (Hlive R Hor) as HpK. change (w_start w + r) with R; rewrite (aget_nth (x_part h) (i := R) 0) by lia. cbn [Base.bind].
      set (p := nth R (x_part h) 0) in *.
      assert (Hdr : slice (fst (wrow w d r)) (snd (wrow w d r)) d = row data d R) by (apply (proj2 Hws); [apply nth_error_In in Ew; exact Ew|exact Hr]).
      assert (Lrow : length (row data d R) = d) by (apply (@data_row_length N g data V R Hor)).
      destruct (@sparse_add_member_ok N K0 d l (wrow w (g_ncol g) r) (row data d R) p Hs Lrow Hdr) as (l' & E & Hs' & Hc').
      rewrite E. cbn [Base.bind]. exists l', a. split; [reflexivity|]. splits; auto.
      * eexists; exact Hs'.
      * intros w' Hw' j Hj. injection Hw' as <-. rewrite Es, EA, xas_snoc, csum_snoc, ccnt_snoc, Ls. fold d R.
        pose proof (Hcel j Hj) as Q. unfold gcel in Q |- *. rewrite (proj1 Hs) in Q. rewrite (proj1 Hs'). unfold grown at 1.
        destruct (Nat.ltb_spec j (Nat.max K0 (Datatypes.S p))) as [Hb|Hb].
        -- rewrite Hc' by exact Hb. destruct (Nat.eqb_spec j p) as [->|Hne].
           ++ rewrite Q, Nat.eqb_refl. reflexivity.
           ++ rewrite Q. destruct (Nat.eqb_spec p j); [congruence|]. rewrite Z.add_0_r. reflexivity.
        -- destruct (Nat.eqb_spec p j); [lia|]. rewrite Z.add_0_r, <- Q. unfold grown. destruct (Nat.ltb_spec j K0); [lia|reflexivity].
    + exists l, a. split; [reflexivity|]. splits; auto. { exists K0; exact Hs. }
      intros w' Hw' j Hj. injection Hw' as <-. rewrite Es, EA, xas_snoc, csum_snoc, ccnt_snoc, Ls.
      destruct (Nat.eqb_spec K j); [lia|]. rewrite Z.add_0_r. apply Hcel. exact Hj.
  - exact Hc.
  - exists locs.
    assert (Ec : cells = x_asg h).
    { apply nth_ext with (d := 0) (d' := 0); [exact H2|]. intros i Hi. rewrite H2, La in Hi.
      destruct (@owner N g ws data Hws (proj2 (proj2 (proj2 V))) i Hi) as (t & w & r & Ew & Hr & ->).
      destruct (H3 t (w_start w) (w_nrow w)) as (l & _ & Hun & _).
      { unfold w_ranges. rewrite nth_error_map, Ew. reflexivity. }
      apply (Hun (w_start w + r, nth (w_start w + r) (x_asg h) 0, nth (w_start w + r) cells 0)).
      unfold triples. apply in_map_iff. exists (w_start w + r). split; [reflexivity|]. apply in_seq. lia. }
    subst cells. split; [exact E|]. split; [rewrite H1; unfold w_ranges; apply map_length|].
    intros t w l Ew El. destruct (H3 t (w_start w) (w_nrow w)) as (l' & El' & _ & Hs & Hcel).
    { unfold w_ranges. rewrite nth_error_map, Ew. reflexivity. }
    rewrite El in El'. injection El' as <-. rewrite triples_length in Hcel. split; [exact Hs|]. apply Hcel. exact Ew.
Qed.
End Mean.
Section LoopAdd.
Variable N : Num.
Notation T := (car N).
Notation clusters := (clusters N).
Lemma loop_add (rhs : list T) : forall n m m', loop n (fun i m => let* x := aget rhs i in amod m i (fun y => nadd N y x)) m = Ok m' ->
  length m' = length m /\ n <= length m /\ n <= length rhs /\
  forall i, i < length m -> nth i m' (nzero N) = if i <? n then nadd N (nth i m (nzero N)) (nth i rhs (nzero N)) else nth i m (nzero N).
Proof.
  induction n as [|n IH]; intros m m' E.
  - injection E as <-. splits; auto; lia.
  - rewrite loop_S in E. apply bind_ok in E as (m1 & E1 & E). apply bind_ok in E as (x & Ex & E).
    destruct (IH _ _ E1) as (L1 & A & B & H). apply amod_inv in E as (y & Ey & ->). rewrite upd_length.
    rewrite aget_ok in Ex. assert (Hn : n < length rhs) by (apply nth_error_Some; congruence).
    assert (Hm : n < length m) by (rewrite <- L1; apply nth_error_Some; congruence).
    splits; auto; try lia. intros i Hi. rewrite nth_upd by lia.
    apply (@nth_error_nth _ _ _ _ (nzero N)) in Ey. apply (@nth_error_nth _ _ _ _ (nzero N)) in Ex.
    destruct (Nat.eqb_spec i n) as [->|Hne].
    + rewrite <- Ey, <- Ex, H by lia. destruct (Nat.ltb_spec n n); [lia|]. destruct (Nat.ltb_spec n (Datatypes.S n)); [reflexivity|lia].
    + rewrite H by exact Hi. destruct (Nat.ltb_spec i n), (Nat.ltb_spec i (Datatypes.S n)); auto; lia.
Qed.
Lemma loop_nums (rhs : clusters) : forall n (c c' : clusters), loop n (fun idx c' =>
      let* k := aget (c_members rhs) idx in sparse_num_members_peq c' k idx) c = Ok c' ->
  c_ncol c' = c_ncol c /\ c_nclust c' = c_nclust c /\ c_means c' = c_means c /\ c_complete c' = c_complete c /\
  length (c_members c') = length (c_members c) /\ n <= c_nclust c /\
  forall i, i < length (c_members c) -> nth i (c_members c') 0%Z = if i <? n then (nth i (c_members c) 0 + nth i (c_members rhs) 0)%Z else nth i (c_members c) 0%Z.
Proof.
  induction n as [|n IH]; intros c c' E.
  - injection E as <-. splits; auto. lia.
  - rewrite loop_S in E. apply bind_ok in E as (c1 & E1 & E). apply bind_ok in E as (x & Ex & E).
    destruct (IH _ _ E1) as (A1 & A2 & A3 & A4 & A5 & A6 & H). unfold sparse_num_members_peq in E.
    destruct (Nat.leb_spec (c_nclust c1) n) as [|Hn]; [discriminate|]. unfold num_members_peq in E. apply bind_ok in E as (v & Ev & E). injection E as <-.
    apply amod_inv in Ev as (y & Ey & ->). cbn [with_members c_ncol c_nclust c_means c_complete c_members]. rewrite upd_length.
    splits; auto; try lia. intros i Hi.
    rewrite aget_ok in Ex. assert (Hm : n < length (c_members c1)) by (apply nth_error_Some; congruence).
    apply (@nth_error_nth _ _ _ _ 0%Z) in Ey. apply (@nth_error_nth _ _ _ _ 0%Z) in Ex. rewrite nth_upd by lia.
    destruct (Nat.eqb_spec i n) as [->|Hne].
    + rewrite <- Ey, <- Ex, H by lia. destruct (Nat.ltb_spec n n); [lia|]. destruct (Nat.ltb_spec n (Datatypes.S n)); [reflexivity|lia].
    + rewrite H by exact Hi. destruct (Nat.ltb_spec i n), (Nat.ltb_spec i (Datatypes.S n)); auto; lia.
Qed.
End LoopAdd.

Section Real.
Notation N := NumR.
Notation T := (car NumR).
Notation clusters := (clusters NumR).
Local Open Scope nat_scope.

Definition gmean_of {d} (c : clusters) j := fst (fst (gcel d c j)).
Definition gadd (e f : list T * Z * bool) : list T * Z * bool :=
  (map2 (nadd NumR) (fst (fst e)) (fst (fst f)), (snd (fst e) + snd (fst f))%Z, snd e).

Lemma gcel_len d c j : gsh d c -> length (fst (fst (@gcel NumR d c j))) = d.
Proof.
  intros (K & H1 & H2 & H3 & H4 & H5). unfold gcel, grown. rewrite H1. destruct (Nat.ltb_spec j K) as [H|H]; [|apply repeat_length].
  unfold cel, crow. cbn [fst]. rewrite H2. apply (@row_length _ _ _ _ K); [congruence|exact H].
Qed.

Lemma peq_grow d (c l c' : clusters) : gsh d c -> gsh d l -> sparse_peq c l = Ok c' ->
  gsh d c' /\ forall j, gcel d c' j = gadd (gcel d c j) (gcel d l j).
Proof.
  intros Hc Hl E. split; [exact (gsh_peq Hc Hl E)|]. pose proof (gsh_peq Hc Hl E) as (K' & Hs').
  destruct Hc as (K & Hc), Hl as (Kl & Hl). unfold sparse_peq in E. apply bind_ok in E as (c1 & E1 & E).
  assert (Q : exists K1, shaped K1 d c1 /\ forall j, gcel d c1 j = gcel d c j).
  { destruct (Nat.ltb_spec (length (c_means c)) (length (c_means l))) as [H|H].
    2:{ injection E1 as <-. exists K. split; [exact Hc|]. reflexivity. }
    assert (Hlen : K <= length (c_means l)).
    { destruct Hc as (A & B & D & _), Hl as (A' & B' & D' & _). rewrite D, A, B in H. rewrite D', A', B' in H |- *. clear - H. destruct d; nia. }
    destruct (@sparse_resize_ok N K d c _ Hc Hlen) as (c2 & E2 & Hs & H1 & H2). rewrite E2 in E1. injection E1 as <-. eexists; split; [exact Hs|].
    intros j. unfold gcel. rewrite (proj1 Hs), (proj1 Hc). unfold grown.
    destruct (Nat.ltb_spec j (Datatypes.S (length (c_means l)))), (Nat.ltb_spec j K); auto; try lia. apply H2. lia. }
  destruct Q as (K1 & Hs1 & Hg). apply bind_ok in E as (m & Em & E).
  pose proof (loop_add Em) as (Lm & Am & _ & Hm). pose proof (loop_nums E) as (B1 & B2 & B3 & B4 & B5 & B6 & Hn).
  cbn [with_means c_ncol c_nclust c_means c_complete c_members] in B1, B2, B3, B4, B5, B6, Hn. clear Em E E1.
  intros j. rewrite <- Hg. clear Hg Hc. 
  assert (KK : K' = K1).
  { pose proof (proj1 Hs') as X. pose proof (proj1 Hs1) as Y. congruence. }
  rewrite KK in Hs'. clear KK. pose proof Hs' as (U1 & U2 & U3 & U4 & U5). pose proof Hs1 as (P1 & P2 & P3 & P4 & P5). pose proof Hl as (Q1 & Q2 & Q3 & Q4 & Q5).
  rewrite P1, P2 in P3. rewrite Q1, Q2 in Q3. rewrite U1, U2 in U3. rewrite Q1, P1 in B6.
  assert (Hrow : forall (c : clusters) k t, c_ncol c = d -> t < d -> nth t (crow c k) (nzero N) = nth (k * d + t) (c_means c) (nzero N)).
  { intros c0 k t E0 Ht. unfold crow, row. rewrite E0. apply nth_slice. exact Ht. }
  assert (Hlen : forall (c : clusters) k, c_ncol c = d -> length (c_means c) = K1 * d -> k < K1 -> length (crow c k) = d).
  { intros c0 k E0 L0 Hk. unfold crow. rewrite E0. apply (@row_length _ _ _ _ K1); [exact L0|exact Hk]. }
  assert (X0 : length (fst (fst (gcel d l j))) = d) by (apply gcel_len; exists Kl; exact Hl).
  unfold gcel in *. rewrite Q1 in X0. rewrite U1, P1, Q1. unfold grown at 1 2. unfold gadd.
  destruct (Nat.ltb_spec j K1) as [Hj|Hj].
  - unfold cel at 1 2 3 4. unfold cnum, cdone. cbn [fst snd]. rewrite B4. f_equal. f_equal.
    + apply nth_ext with (d := nzero N) (d' := nzero N).
      { rewrite map2_length, X0, (Hlen c1) by auto. rewrite (Hlen c') by auto. symmetry. apply Nat.min_id. }
      intros t Ht. assert (Ht' : t < d) by (rewrite (Hlen c') in Ht by auto; exact Ht).
      rewrite (@nth_map2 _ _ _ (nadd N) _ _ t (nzero N) (nzero N) (nzero N)); [|rewrite (Hlen c1) by auto; exact Ht'|rewrite X0; exact Ht'].
      rewrite (Hrow c'), (Hrow c1) by auto. rewrite B3, Hm by (rewrite P3; nia). rewrite Q3.
      unfold grown. destruct (Nat.ltb_spec j Kl) as [Hk|Hk].
      * destruct (Nat.ltb_spec (j * d + t) (Kl * d)); [|nia]. cbn [cel fst]. unfold cel. cbn [fst]. rewrite (Hrow l) by auto. reflexivity.
      * destruct (Nat.ltb_spec (j * d + t) (Kl * d)); [nia|]. cbn [fst]. rewrite nth_repeat. symmetry. apply Rplus_0_r.
    + rewrite Hn by lia. rewrite Q1. unfold grown. destruct (Nat.ltb_spec j Kl); cbn [fst snd cel]; [reflexivity|]. cbn. lia.
  - unfold grown. destruct (Nat.ltb_spec j Kl); [lia|]. cbn [fst snd]. f_equal. f_equal.
    apply nth_ext with (d := nzero N) (d' := nzero N); [rewrite map2_length, repeat_length; lia|].
    intros t Ht. rewrite repeat_length in Ht. rewrite (@nth_map2 _ _ _ (nadd N) _ _ t (nzero N) (nzero N) (nzero N)) by (rewrite repeat_length; exact Ht).
    rewrite nth_repeat. symmetry. apply Rplus_0_r.
Qed.

Lemma unfin_grow d (c c' : clusters) : gsh d c -> unfinalize_all c = Ok c' -> gsh d c' /\ forall j, gcel d c' j = unfin1 NumR (gcel d c j).
Proof.
  intros (K & Hc) E. destruct (unfinalize_all_ok Hc) as (c1 & E1 & Hs & H). pose proof (eq_trans (eq_sym E1) E) as Q. injection Q as <-.
  split; [exists K; exact Hs|]. intros j. unfold gcel. rewrite (proj1 Hc), (proj1 Hs). unfold grown. destruct (Nat.ltb_spec j K); [apply H; assumption|reflexivity].
Qed.

Lemma fin_grow d (c c' : clusters) : gsh d c -> finalize_all c = Ok c' -> gsh d c' /\
  forall j, gcel d c' j = if j <? c_nclust c then fin1 NumR (gcel d c j) else gcel d c j.
Proof.
  intros (K & Hc) E. destruct (finalize_all_ok Hc) as (c1 & E1 & Hs & H). pose proof (eq_trans (eq_sym E1) E) as Q. injection Q as <-.
  split; [exists K; exact Hs|]. intros j. unfold gcel. rewrite (proj1 Hc), (proj1 Hs). unfold grown. destruct (Nat.ltb_spec j K); [apply H; assumption|reflexivity].
Qed.

Section One.
Variables (g : hcfg NumR) (ws : list (worker NumR)) (data : list T).
Let d := g_ncol g.
Let n := g_nrow g.
Hypothesis V : valid_input g data.
Hypothesis Hws : wok n d data ws.

Lemma merge_grow K A j : j < K -> forall (ws' : list (worker NumR)) (locs : list clusters) c c', length locs = length ws' -> gsh d c ->
  (forall t w l, nth_error ws' t = Some w -> nth_error locs t = Some l -> gholds g data K A w l) ->
  for_each locs (fun l c => sparse_peq c l) c = Ok c' -> gsh d c' /\
    gcel d c' j =
      (fold_left (fun s (w : worker NumR) => map2 (nadd NumR) s (csum NumR d j (xas g data (w_start w) (slice A (w_start w) (w_nrow w))))) ws' (fst (fst (gcel d c j))),
       fold_left (fun n (w : worker NumR) => n + ccnt NumR j (xas g data (w_start w) (slice A (w_start w) (w_nrow w))))%Z ws' (snd (fst (gcel d c j))), snd (gcel d c j)).
Proof.
  intros Hj. induction ws' as [|w ws' IH]; intros [|l locs] c c' Hl Hc H E; simpl in Hl; try lia.
  - injection E as <-. split; [exact Hc|]. cbn [fold_left]. destruct (gcel d c j) as ((? & ?) & ?). reflexivity.
  - cbn [for_each] in E. apply bind_ok in E as (c1 & E1 & E). destruct (H 0 w l eq_refl eq_refl) as (Hs & Hcel).
    destruct (peq_grow Hc Hs E1) as (Hs1 & Hc1).
    destruct (IH locs c1 c' ltac:(lia) Hs1) as (Hs2 & Hc2); auto.
    { intros t w' l' Ew El. exact (H (Datatypes.S t) w' l' Ew El). }
    split; [exact Hs2|]. rewrite Hc2. cbn [fold_left]. rewrite (Hc1 j). unfold gadd. cbn [fst snd].
    pose proof (Hcel j Hj) as E3. fold d in E3. rewrite E3. reflexivity.
Qed.

(** what MEAN makes of a cell: nothing of the workers is left *)
Definition mcell (A : list nat) (j : nat) (e : list T * Z * bool) : list T * Z * bool :=
  (vadd (fst (fst e)) (vsum d (mems g data A j)), (snd (fst e) + Z.of_nat (count_eq j A))%Z, false).

Lemma mean_grow K (s s' : xst NumR) sched : gmean_pre g K (xh s) -> length (x_loc s) = length ws -> Forall (gsh d) (x_loc s) ->
  gsh d (x_cl s) -> complete (w_ranges ws) sched -> x_mean g ws sched s = Ok s' ->
  forall j, j < K -> let e := mcell (mlive K (xh s)) j (unfin1 NumR (gcel d (x_cl s) j)) in
    fst (fst (gcel d (x_cl s') j)) = fst (fst (fin1 NumR e)) /\ unfin1 NumR (gcel d (x_cl s') j) = unfin1 NumR (fin1 NumR e).
Proof.
  intros Hp Ll Hsh Hcl Hc E j Hj. cbv zeta. destruct (@MEAN_grow NumR g ws data V Hws K s sched Hp Ll Hsh Hc) as (locs & E0 & Hl & Hh).
  unfold x_mean in E. rewrite E0 in E. cbn [Base.bind fst snd] in E. apply bind_ok in E as (c3 & E & Q). injection Q as <-. cbn [x_cl].
  unfold combine_means in E. apply bind_ok in E as (c1 & E1 & E). apply bind_ok in E as (c2 & E2 & E3).
  destruct (unfin_grow Hcl E1) as (Hs1 & Hc1).
  destruct (@merge_grow K (mlive K (xh s)) j Hj ws locs c1 c2 Hl Hs1 Hh E2) as (Hs2 & Hc2).
  destruct (fin_grow Hs2 E3) as (Hs3 & Hc3). rewrite Hc3.
  pose proof (proj1 Hp) as La. assert (LA : length (mlive K (xh s)) = n) by (rewrite mlive_length; exact La).
  assert (Ed : snd (unfin1 NumR (gcel d (x_cl s) j)) = false) by (unfold unfin1; destruct (gcel d (x_cl s) j) as ((? & ?) & []); reflexivity).
  assert (Ee : gcel d c2 j = mcell (mlive K (xh s)) j (unfin1 NumR (gcel d (x_cl s) j))).
  { rewrite Hc2, Hc1, Ed. unfold mcell. f_equal. f_equal.
    - refine (@wsum_R g ws data _ _ (mlive K (xh s)) j _ LA _); [apply V|apply Hws|].
      pose proof (@gcel_len d c1 j Hs1) as X. rewrite Hc1 in X. exact X.
    - apply (@ucnt_from NumR g ws data Hws (mlive K (xh s)) j _ LA). }
  rewrite <- Ee. destruct (Nat.ltb_spec j (c_nclust c2)) as [Hlt|Hge]; [split; reflexivity|].
  unfold gcel, grown. destruct (Nat.ltb_spec j (c_nclust c2)); [lia|]. cbn. split; reflexivity.
Qed.
End One.

(** containers that cannot be told apart *)
Definition crel (d : nat) (c c' : clusters) : Prop :=
  forall j, fst (fst (gcel d c j)) = fst (fst (gcel d c' j)) /\ unfin1 NumR (gcel d c j) = unfin1 NumR (gcel d c' j).

Lemma loop_both {A B} (P : nat -> A -> B -> Prop) f f' : forall m (s : A) (s' : B) t t', P 0 s s' ->
  (forall i a b a1 b1, i < m -> P i a b -> f i a = Ok a1 -> f' i b = Ok b1 -> P (Datatypes.S i) a1 b1) ->
  loop m f s = Ok t -> loop m f' s' = Ok t' -> P m t t'.
Proof.
  induction m as [|m IH]; intros s s' t t' H0 Hs E E'.
  - injection E as <-. injection E' as <-. exact H0.
  - rewrite loop_S in E. rewrite loop_S in E'. apply bind_ok in E as (a & Ea & E). apply bind_ok in E' as (b & Eb & E').
    refine (Hs m a b t t' ltac:(lia) _ E E'). refine (IH s s' a b H0 _ Ea Eb). intros; eapply Hs; eauto.
Qed.
Lemma for_each_both {X A B} (P : A -> B -> Prop) (f : X -> A -> res A) f' : forall l (s : A) (s' : B) t t', P s s' ->
  (forall x a b a1 b1, In x l -> P a b -> f x a = Ok a1 -> f' x b = Ok b1 -> P a1 b1) ->
  for_each l f s = Ok t -> for_each l f' s' = Ok t' -> P t t'.
Proof.
  induction l as [|x l IH]; intros s s' t t' H0 Hs E E'; cbn [for_each] in E, E'.
  - injection E as <-. injection E' as <-. exact H0.
  - apply bind_ok in E as (a & Ea & E). apply bind_ok in E' as (b & Eb & E').
    refine (IH a b t t' _ _ E E'); [eapply Hs; eauto; left; reflexivity|]. intros; eapply Hs; eauto; right; assumption.
Qed.

Section Two.
Variables (nlog phi : T -> T) (trunc : T -> Z).
Variables (g : hcfg NumR) (nt : Z) (kind : load_kind) (data : list T).
Let g' := h_threads g nt kind.
Variable strictness : Z.
Let d := g_ncol g.
Let n := g_nrow g.
Hypothesis V : valid_input g data.
Hypothesis V' : valid_input g' data.
Variables (ws ws' : list (worker NumR)).
Hypothesis W : wok n d data ws.
Hypothesis W' : wok n d data ws'.
Let F := hclust_floor (g_k g).
Let M := 4 * F - 1.
Hypothesis Hk2 : 2 <= g_k g.
Hypothesis Hk30 : (Z.of_nat (g_k g) < 2 ^ 30)%Z.
Hypothesis Hmin : 2 <= h_min g.
Hypothesis Hit : 1 <= g_max_iters g.

Lemma HuR : forall A j, length A = n -> ucel g ws data A j = ucel g ws' data A j.
Proof. intros A j LA. rewrite !ucel_R; auto; first [apply W'|apply W|apply V]. Qed.

Record grel (s s' : xst NumR) : Prop := {
  gr_h : xh s' = xh s;
  gr_cl : crel d (x_cl s) (x_cl s');
  gr_l : length (x_loc s) = length ws;
  gr_l' : length (x_loc s') = length ws';
  gr_p : gpre g ws data s;
  gr_p' : gpre g' ws' data s'
}.

Lemma ginv_mean h K : ginv g ws data M (@FPt NumR) h -> list_max (x_part h) < K -> gmean_pre g K h.
Proof.
  intros (c & R) HK. pose proof (r_e R) as E. pose proof (e_asg E) as A. pose proof (e_part E) as B. pose proof (e_act E) as C.
  unfold gmean_pre. splits; auto.
  - intros r Hr. pose proof (e_rows E Hr) as D. change (x_act (with_curr h c)) with (x_act h) in C. rewrite C. apply D.
  - intros r Hr. apply Nat.le_lt_trans with (list_max (x_part h)); [|exact HK].
    assert (Q : Forall (fun k => k <= list_max (x_part h)) (x_part h)) by (apply list_max_le; apply Nat.le_refl).
    rewrite Forall_forall in Q. apply Q. apply nth_In. change (x_part (with_curr h c)) with (x_part h) in B. rewrite B. exact Hr.
Qed.

Lemma mean_both (s s' s1 s1' : xst NumR) sched sched' : grel s s' -> complete (w_ranges ws) sched -> complete (w_ranges ws') sched' ->
  x_mean g ws sched s = Ok s1 -> x_mean g' ws' sched' s' = Ok s1' -> grel s1 s1'.
Proof.
  intros [Gh Gc Gl Gl' P P'] C C' E E'.
  destruct (@g_mean_ok NumR g ws data V W s s1 sched (gp_cl P) (gp_loc P) E) as (A1 & A2 & A3 & A4 & A5 & A6).
  destruct (@g_mean_ok NumR g' ws' data V' W' s' s1' sched' (gp_cl P') (gp_loc P') E') as (B1 & B2 & B3 & B4 & B5 & B6).
  constructor; try congruence.
  - intros j. set (K := Datatypes.S (Nat.max j (list_max (x_part (xh s))))).
    assert (Hm : gmean_pre g K (xh s)) by (apply ginv_mean; [apply (gp_inv P)|unfold K; lia]).
    assert (Hm' : gmean_pre g' K (xh s')) by (rewrite Gh; exact Hm).
    destruct (@mean_grow g ws data V W K s s1 sched Hm Gl (gp_loc P) (gp_cl P) C E j ltac:(unfold K; lia)) as (X1 & X2).
    destruct (@mean_grow g' ws' data V' W' K s' s1' sched' Hm' Gl' (gp_loc P') (gp_cl P') C' E' j ltac:(unfold K; lia)) as (Y1 & Y2).
    fold d in X1, X2. change (g_ncol g') with d in Y1, Y2. change (mcell g' data) with (mcell g data) in Y1, Y2.
    destruct (Gc j) as (_ & Gc2). rewrite Gh, <- Gc2 in Y1, Y2. rewrite X1, X2, Y1, Y2. split; reflexivity.
  - destruct P. constructor; rewrite ?A1, ?A2, ?A3; auto.
  - destruct P'. constructor; rewrite ?B1, ?B2, ?B3; auto.
Qed.

Lemma iters_both (s s' s2 s2' : xst NumR) scheds scheds' : grel s s' -> (forall j, complete (w_ranges ws) (scheds j)) -> (forall j, complete (w_ranges ws') (scheds' j)) ->
  loop (g_max_iters g) (fun i s => x_iter g ws (scheds (i + 2)) (i =? 0) s) s = Ok s2 ->
  loop (g_max_iters g') (fun i s => x_iter g' ws' (scheds' (i + 2)) (i =? 0) s) s' = Ok s2' ->
  xh s2' = xh s2 /\ x_cl s2 = x_cl s /\ x_cl s2' = x_cl s' /\ x_loc s2 = x_loc s /\ x_loc s2' = x_loc s'.
Proof.
  intros [Gh Gc Gl Gl' P P'] C C' E E'.
  assert (Q : (exists c, rinv g ws data M (@FPt NumR) 0 (with_curr (xh s2) c)) /\ (length (x_pd s2) = n /\ length (x_cd s2) = n /\ length (x_pd s2') = n /\ length (x_cd s2') = n) /\
    xh s2' = xh s2 /\ x_cl s2 = x_cl s /\ x_cl s2' = x_cl s' /\ x_loc s2 = x_loc s /\ x_loc s2' = x_loc s').
  { refine (@loop_both _ _ (fun i a b => (exists c, rinv g ws data M (@FPt NumR) 0 (with_curr (xh a) c)) /\ (length (x_pd a) = n /\ length (x_cd a) = n /\ length (x_pd b) = n /\ length (x_cd b) = n) /\
      xh b = xh a /\ x_cl a = x_cl s /\ x_cl b = x_cl s' /\ x_loc a = x_loc s /\ x_loc b = x_loc s') _ _ _ _ _ _ _ _ _ E E').
    - splits; auto; try apply (gp_inv P); try apply (gp_pd P); try apply (gp_cd P); try apply (gp_pd P'); try apply (gp_cd P').
    - intros i a b a1 b1 Hi ((c & R) & (L1 & L2 & L3 & L4) & Eh & E3 & E4 & E5 & E6) Ea Eb.
      pose proof (e_asg (r_e R)) as La. change (x_asg (with_curr (xh a) c)) with (x_asg (xh a)) in La.
      assert (Lb : length (x_asg (xh b)) = n) by (rewrite Eh; exact La).
      destruct (@g_iter_h NumR g ws data W a a1 (scheds (i + 2)) (i =? 0) La L1 L2 (C _) Ea) as (H1 & H2 & H3 & H4 & H5).
      destruct (@g_iter_h NumR g' ws' data W' b b1 (scheds' (i + 2)) (i =? 0) Lb L3 L4 (C' _) Eb) as (I1 & I2 & I3 & I4 & I5).
      assert (FPs : forall A A' i v, length A = n -> length A' = n -> (forall r, r < n -> (nth r A 0 =? i) = (nth r A' 0 =? i)) -> @FPt NumR A i v -> @FPt NumR A' i v) by (intros; exact Logic.I).
      pose proof (@iter_rinv NumR g ws data V W (@FPt NumR) FPs 0 (with_curr (xh a) c) (scheds (i + 2)) R (C _)) as HI.
      assert (Ie : einv g ws data M (xh a)) by (destruct (r_e R); constructor; auto).
      pose proof (@h_iter_threads NumR g nt kind data V ws ws' W W' HuR M (xh a) (scheds (i + 2)) (scheds' (i + 2)) Ie (C _) (C' _)) as ET.
      fold g' in ET. rewrite h_iter_curr, H1 in HI. rewrite Eh in I1. assert (Exh : xh b1 = xh a1) by congruence.
      cbn [okab] in HI. destruct HI as (R3 & _). splits; auto; try congruence. eexists; exact R3. }
  tauto.
Qed.

Lemma gcel_slice (c : clusters) p : gsh d c -> p < c_nclust c -> slice (c_means c) (p * d) d = fst (fst (gcel d c p)).
Proof.
  intros (K & H1 & H2 & _) Hp. unfold gcel, grown. destruct (Nat.ltb_spec p (c_nclust c)); [|lia]. unfold cel, crow, row. cbn [fst]. rewrite H2. reflexivity.
Qed.

Lemma decision_both (s s' s4 s4' : xst NumR) : gmid g ws data s -> gmid g' ws' data s' -> xh s' = xh s -> crel d (x_cl s) (x_cl s') ->
  g_decision nlog phi trunc g strictness s = Ok s4 -> g_decision nlog phi trunc g' strictness s' = Ok s4' -> xh s4' = xh s4.
Proof.
  intros Q Q' Eh Gc E E'. unfold g_decision in E, E'. rewrite Eh in E'.
  apply bind_ok in E as (sc & Es & E). apply bind_ok in E' as (sc' & Es' & E').
  destruct (gm_inv Q) as (c & R). pose proof (e_part (r_e R)) as Lp. change (x_part (with_curr (xh s) c)) with (x_part (xh s)) in Lp.
  assert (L1 : length (x_part (xh s)) = length (x_cd s)) by (rewrite Lp, (gm_cd Q); reflexivity).
  assert (L2 : length (x_part (xh s)) = length (x_cd s')) by (rewrite Lp, (gm_cd Q'); reflexivity).
  destruct (g_scores_ok L1 Es) as (A1 & _ & A3). destruct (g_scores_ok L2 Es') as (B1 & _ & B3).
  rewrite A1 in E. rewrite B1 in E'. apply bind_ok in E as (u & Eu & E). apply bind_ok in E' as (u' & _ & E').
  apply bind_ok in E as ((h & rev) & Ek & E). apply bind_ok in E' as ((h' & rev') & Ek' & E').
  assert (X : (h', rev') = (h, rev)).
  { refine (@for_each_both _ _ _ (fun a b => b = a) _ _ _ _ _ _ _ eq_refl _ Ek Ek').
    intros pid (a1, a2) b (b1, b2) (c1, c2) Hp -> Ha Hb. unfold g_decide in Ha, Hb.
    apply bind_ok in Ha as (x & Hx & Ha). apply bind_ok in Hb as (y & Hy & Hb).
    assert (Exy : y = x).
    { apply A3 in Hx. apply B3 in Hy. unfold g_stat in Hx, Hy.
      assert (Ev : values_of (x_part (xh s)) (x_cd s') pid = values_of (x_part (xh s)) (x_cd s) pid).
      { unfold values_of. apply map_ext_in. intros r Hr. unfold members_of in Hr. apply filter_In in Hr as (Hr & Hp2).
        apply in_seq in Hr. apply Nat.eqb_eq in Hp2. apply keys_in in Hp as (hh & Hh).
        assert (Hrn : r < n) by lia.
        assert (Hh' : hget (x_hcl (xh s')) pid = Some hh) by (rewrite Eh; exact Hh).
        assert (Hp' : nth r (x_part (xh s')) 0 = pid) by (rewrite Eh; exact Hp2).
        rewrite (gm_proj Q Hh Hrn Hp2). exact (gm_proj Q' Hh' Hrn Hp'). }
      rewrite Ev in Hy. congruence. }
    subst y. apply bind_ok in Ha as (cr & Hc & Ha). rewrite Hc in Hb. cbn [Base.bind] in Hb.
    destruct (nleb NumR x cr); [|congruence].
    apply bind_ok in Ha as (hh & Hh & Ha). rewrite Hh in Hb. cbn [Base.bind] in Hb.
    apply bind_ok in Ha as (t1 & Ht1 & Ha). rewrite Ht1 in Hb. cbn [Base.bind] in Hb.
    apply bind_ok in Ha as (t2 & Ht2 & Ha). rewrite Ht2 in Hb. cbn [Base.bind] in Hb.
    apply bind_ok in Ha as (t3 & Ht3 & Ha). rewrite Ht3 in Hb. cbn [Base.bind] in Hb.
    apply bind_ok in Ha as (t4 & Ht4 & Ha). rewrite Ht4 in Hb. cbn [Base.bind] in Hb.
    apply bind_ok in Ha as (t5 & Ht5 & Ha). rewrite Ht5 in Hb. cbn [Base.bind] in Hb.
    destruct (Nat.leb_spec (c_nclust (x_cl s)) pid) as [|Hn1]; [discriminate|].
    destruct (Nat.leb_spec (c_nclust (x_cl s')) pid) as [|Hn2]; [discriminate|].
    assert (Esl : slice (c_means (x_cl s')) (pid * g_ncol g') (g_ncol g') = slice (c_means (x_cl s)) (pid * g_ncol g) (g_ncol g)).
    { change (g_ncol g') with d. fold d. rewrite (gcel_slice (gm_cl Q) Hn1). rewrite (gcel_slice (c := x_cl s') (gm_cl Q') Hn2). symmetry. apply Gc. }
    rewrite Esl in Hb. congruence. }
  injection X as -> ->. apply bind_ok in E as (a & Ea & E). apply bind_ok in E' as (a' & Ea' & E').
  change (g_nrow g') with (g_nrow g) in Ea'. rewrite Ea in Ea'. injection Ea' as <-. injection E as <-. injection E' as <-. reflexivity.
Qed.

Lemma round_both (s s' s1 s1' : xst NumR) rr rr' more more' scheds scheds' : grel s s' ->
  (forall j, complete (w_ranges ws) (scheds j)) -> (forall j, complete (w_ranges ws') (scheds' j)) ->
  g_round nlog phi trunc g strictness ws data scheds s = Ok (rr, (s1, more)) ->
  g_round nlog phi trunc g' strictness ws' data scheds' s' = Ok (rr', (s1', more')) ->
  more' = more /\ grel s1 s1'.
Proof.
  intros G C C' E E'.
  destruct (@g_round_ok NumR nlog phi trunc g ws data strictness V W Hk2 Hk30 Hmin Hit scheds s rr s1 more (gr_p G) C E) as (_ & _ & P1 & _).
  destruct (@g_round_ok NumR nlog phi trunc g' ws' data strictness V' W' Hk2 Hk30 Hmin Hit scheds' s' rr' s1' more' (gr_p' G) C' E') as (_ & _ & P1' & _).
  unfold g_round in E, E'.
  apply bind_ok in E as (a1 & E1 & E). apply bind_ok in E' as (b1 & E1' & E').
  apply bind_ok in E as (a2 & E2 & E). apply bind_ok in E' as (b2 & E2' & E').
  apply bind_ok in E as (a3 & E3 & E). apply bind_ok in E' as (b3 & E3' & E').
  apply bind_ok in E as (a4 & E4 & E). apply bind_ok in E' as (b4 & E4' & E').
  pose proof (@g_half NumR g ws data V W Hit scheds s a1 a2 a3 (gr_p G) C E1 E2 E3) as Q.
  pose proof (@g_half NumR g' ws' data V' W' Hit scheds' s' b1 b2 b3 (gr_p' G) C' E1' E2' E3') as Q'.
  pose proof (mean_both G (C 0) (C' 0) E1 E1') as G1.
  destruct (iters_both G1 C C' E2 E2') as (I1 & I2 & I3 & I4 & I5).
  unfold g_split in E3, E3'. apply bind_ok in E3 as (df & _ & E3). apply bind_ok in E3 as (la & _ & E3). injection E3 as <-.
  apply bind_ok in E3' as (df' & _ & E3'). apply bind_ok in E3' as (la' & _ & E3'). injection E3' as <-.
  pose proof (gr_cl G1) as Gc. rewrite <- I2, <- I3 in Gc.
  pose proof (decision_both Q Q' I1 Gc E4 E4') as Eh.
  assert (K1 : x_cl a4 = x_cl a2 /\ x_loc a4 = x_loc a2).
  { clear -E4. unfold g_decision in E4. apply bind_ok in E4 as (? & _ & E4). apply bind_ok in E4 as (? & _ & E4). apply bind_ok in E4 as ((? & ?) & _ & E4).
    apply bind_ok in E4 as (? & _ & E4). injection E4 as <-. split; reflexivity. }
  assert (K2 : x_cl b4 = x_cl b2 /\ x_loc b4 = x_loc b2).
  { clear -E4'. unfold g_decision in E4'. apply bind_ok in E4' as (? & _ & E4'). apply bind_ok in E4' as (? & _ & E4'). apply bind_ok in E4' as ((? & ?) & _ & E4').
    apply bind_ok in E4' as (? & _ & E4'). injection E4' as <-. split; reflexivity. }
  destruct K1 as (K1 & K1l), K2 as (K2 & K2l).
  assert (G4 : forall h h', h' = h -> gpre g ws data (with_h a4 h) -> gpre g' ws' data (with_h b4 h') -> grel (with_h a4 h) (with_h b4 h')).
  { intros h h' -> X X'. constructor; auto; cbn [with_h x_cl x_loc].
    - rewrite K1, K2. exact Gc.
    - rewrite K1l, I4. apply (gr_l G1).
    - rewrite K2l, I5. apply (gr_l' G1). }
  assert (U : forall s : xst NumR, with_h s (xh s) = s) by (intros []; reflexivity).
  rewrite Eh in E'. change (at_cluster_cap g') with (at_cluster_cap g) in E'.
  destruct (at_cluster_cap g (xh a4)).
  { injection E as _ <- <-. injection E' as _ <- <-. split; [reflexivity|]. specialize (G4 (xh a4) (xh b4) Eh). rewrite !U in G4. apply G4; assumption. }
  apply bind_ok in E as (h & Ei & E). apply bind_ok in E' as (h' & Ei' & E').
  pose proof (@init_splits_threads NumR g nt kind data V V' ws ws' HuR (xh a4) h Ei) as ET. fold g' in ET. rewrite ET in Ei'. injection Ei' as <-.
  destruct (hm_keyless (x_hcl h)).
  - apply bind_ok in E as (? & _ & E). apply bind_ok in E' as (? & _ & E'). injection E as _ <- <-. injection E' as _ <- <-. split; [reflexivity|]. apply G4; auto.
  - injection E as _ <- <-. injection E' as _ <- <-. split; [reflexivity|]. apply G4; auto.
Qed.

Lemma gloop_both scheds scheds' : (forall i j, complete (w_ranges ws) (scheds i j)) -> (forall i j, complete (w_ranges ws') (scheds' i j)) ->
  forall fuel fuel' round s s' tr tr' t t', grel s s' ->
  g_loop nlog phi trunc g strictness ws data scheds fuel round s tr = Ok t ->
  g_loop nlog phi trunc g' strictness ws' data scheds' fuel' round s' tr' = Ok t' -> xh (fst t') = xh (fst t).
Proof.
  intros C C'. induction fuel as [|fuel IH]; intros [|fuel'] round s s' tr tr' t t' G E E'; cbn [g_loop] in E, E'; try discriminate.
  apply bind_ok in E as ((rr & (s1 & more)) & E1 & E). apply bind_ok in E' as ((rr' & (s1' & more')) & E1' & E').
  destruct (round_both G (C round) (C' round) E1 E1') as (-> & G1). destruct more.
  - exact (IH fuel' (Datatypes.S round) s1 s1' _ _ t t' G1 E E').
  - injection E as <-. injection E' as <-. cbn [fst]. apply (gr_h G1).
Qed.
End Two.
End Real.
