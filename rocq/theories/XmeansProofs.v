(** X-means: the means of whole partitions, one iteration. *)
From Coq Require Import Permutation.
From Verif Require Import Base Num DistModel DistProofs ClustersModel ClustersView ClustersProofs MatLemmas
  PartitionModel ParModel KmeansModel ParProofs NearProofs KmeansProofs UpdateProofs RunProofs InitProofs Spec ParRule ParSim.
From Verif Require Import ContainersModel PropertiesIds HclustModel HclustProofs HclustUpdate HclustIter HclustSplit XmeansModel.
Set Implicit Arguments.
Unset Strict Implicit.

Section XP.
Variable N : Num.
Notation T := (car N).
Notation clusters := (clusters N).

(** between containers of one shape, sparse_clusters::peq is clusters::peq *)
Lemma sparse_peq_same k d (c rhs : clusters) : shaped k d c -> shaped k d rhs -> sparse_peq c rhs = peq c rhs.
Proof.
  intros (Hk & Hd & Hm & Hv & Hc) (Hk' & Hd' & Hm' & Hv' & Hc').
  unfold sparse_peq, peq.
  assert (El : length (c_means rhs) = length (c_means c)) by congruence. rewrite El, Nat.ltb_irrefl, Nat.eqb_refl.
  cbn [bind assert_]. destruct (loop (length (c_means c)) _ (c_means c)) as [m|]; cbn [bind]; [|reflexivity].
  assert (G : forall j, j <= k -> loop j (fun idx c' => let* n := aget (c_members rhs) idx in sparse_num_members_peq c' n idx) (with_means c m)
     = loop j (fun idx c' => let* n := aget (c_members rhs) idx in num_members_peq c' n idx) (with_means c m) /\
     okp (loop j (fun idx c' => let* n := aget (c_members rhs) idx in num_members_peq c' n idx) (with_means c m))
       (fun c' => c_nclust c' = k /\ length (c_members c') = k)).
  { induction j as [|j IH]; intros Hj.
    - split; [reflexivity|]. cbn. split; [exact Hk|congruence].
    - rewrite !loop_S. destruct (IH ltac:(lia)) as (E & H). rewrite E. apply okp_iff in H as (c' & Ec & Hn & Hl). rewrite Ec.
      cbn [bind]. unfold aget. destruct (nth_error (c_members rhs) j) as [z|] eqn:Ez; cbn [bind].
      2:{ apply nth_error_None in Ez. lia. }
      unfold sparse_num_members_peq. destruct (Nat.leb_spec (c_nclust c') j); [lia|]. split; [reflexivity|].
      unfold num_members_peq. rewrite (@amod_nth _ (c_members c') j _ 0%Z) by lia. cbn [bind okp with_members c_nclust c_members].
      rewrite upd_length. auto. }
  destruct (G k (le_n _)) as (E & _). rewrite Hk, Hk'. exact E.
Qed.

Variables (g : hcfg N) (ws : list (worker N)) (data : list T).
Let d := g_ncol g.
Let n := g_nrow g.
Hypothesis V : valid_input g data.
Hypothesis Hws : wok n d data ws.
Variable K : nat.

(** sum over the workers of the rows of cluster [j] under [A], added to [m] *)
Definition wsum (A : list nat) (j : nat) (m : list T) : list T :=
  fold_left (fun s (w : worker N) => map2 (nadd N) s (csum N d j (xas g data (w_start w) (slice A (w_start w) (w_nrow w))))) ws m.
(** one more round added to a cell *)
Definition add_round (j : nat) (cell : list T * Z * bool) (A : list nat) : list T * Z * bool :=
  let '(m, c, _) := unfin1 N cell in fin1 N (wsum A j m, (c + Z.of_nat (count_eq j A))%Z, false).
(** cell [j] of the partition means after the rounds [tr] *)
Definition pcel (j : nat) (tr : list (list nat)) : list T * Z * bool :=
  fold_left (add_round j) tr (repeat (nzero N) d, 0%Z, false).

(** first use of an id: exactly the mean of the rows *)
Lemma pcel_one j A : pcel j [A] = ucel g ws data A j.
Proof. unfold pcel. cbn [fold_left add_round unfin1]. reflexivity. Qed.

Lemma pcel_snoc j tr A : pcel j (tr ++ [A]) = add_round j (pcel j tr) A.
Proof. unfold pcel. rewrite fold_left_app. reflexivity. Qed.

Lemma live_asg_length z (h : hst N) : length (live_asg z h) = length (x_asg h).
Proof. apply map_length. Qed.
Lemma live_asg_nth z (h : hst N) r : r < length (x_asg h) -> nth r (live_asg z h) 0 =
  if nth (nth r (x_asg h) 0) (x_act h) false then nth r (x_asg h) 0 else z.
Proof.
  intros Hr. unfold live_asg. rewrite (nth_indep _ 0 (if nth 0 (x_act h) false then 0 else z)) by (rewrite map_length; exact Hr).
  exact (map_nth (fun a => if nth a (x_act h) false then a else z) (x_asg h) 0 r).
Qed.

(** what MEAN needs of the state *)
Definition mean_pre (h : hst N) : Prop :=
  length (x_asg h) = n /\ length (x_part h) = n /\
  (forall r, r < n -> nth r (x_asg h) 0 < length (x_act h)) /\
  (forall r, r < n -> nth (nth r (x_asg h) 0) (x_act h) false = true ->
     nth r (x_part h) 0 = nth r (x_asg h) 0 /\ nth r (x_part h) 0 < K).

Definition holds (A : list nat) (w : worker N) (l : clusters) : Prop :=
  shaped K d l /\ forall j, j < K -> cel l j =
    (csum N d j (xas g data (w_start w) (slice A (w_start w) (w_nrow w))),
     ccnt N j (xas g data (w_start w) (slice A (w_start w) (w_nrow w))), false).

Lemma MEAN_round_ok (s : xst N) sched : mean_pre (xh s) -> length (x_loc s) = length ws ->
  Forall (shaped K d) (x_loc s) -> complete (w_ranges ws) sched ->
  exists locs, MEAN_round g ws sched s = Ok (locs, x_asg (xh s)) /\ length locs = length ws /\
    forall t w l, nth_error ws t = Some w -> nth_error locs t = Some l -> holds (live_asg K (xh s)) w l.
Proof.
  intros (La & Lp & Hact & Hlive) Ll Hsh Hc. set (h := xh s) in *. set (A := live_asg K h).
  assert (LA : length A = n) by (unfold A; rewrite live_asg_length; exact La).
  assert (Ht : ntiles 0 (length (x_asg h)) (w_ranges ws)) by (rewrite La; apply Hws).
  assert (L0 : length (map (fun c : clusters => clear c) (x_loc s)) = length (w_ranges ws)) by (unfold w_ranges; rewrite !map_length; exact Ll).
  destruct (@par_run_rule _ _ 0 (MEAN_row g ws (x_part h) (x_act h)) (w_ranges ws) (x_asg h) _ Ht L0
    (fun t l tr => (forall x, In x tr -> snd x = snd (fst x)) /\ shaped K d l /\ forall w, nth_error ws t = Some w -> forall j, j < K -> cel l j =
      (csum N d j (xas g data (w_start w) (slice A (w_start w) (length tr))),
       ccnt N j (xas g data (w_start w) (slice A (w_start w) (length tr))), false))) with (sched := sched)
    as (locs & cells & E & H1 & H2 & H3).
  - intros t l0 E. apply nth_error_In in E. apply in_map_iff in E as (l & <- & Hin). rewrite Forall_forall in Hsh.
    rewrite (clear_create (Hsh l Hin)). splits.
    + intros x [].
    + apply shaped_create.
    + intros w Hw j Hj. cbn [length]. rewrite cel_create by exact Hj. reflexivity.
  - intros t o m r l tr Er Hr Hor Ltr (Hun & Hs & Hcel).
    unfold w_ranges in Er. rewrite nth_error_map in Er. destruct (nth_error ws t) as [w|] eqn:Ew; [|discriminate].
    injection Er as <- <-. specialize (Hcel w eq_refl). rewrite La in Hor.
    set (R := w_start w + r) in *. set (a := nth R (x_asg h) 0).
    unfold MEAN_row. rewrite (proj2 (aget_ok ws t w) Ew). cbn [bind].
    rewrite (aget_nth (x_act h) (i := a) false) by (apply Hact; exact Hor). cbn [bind].
    assert (Es : slice A (w_start w) (length (tr ++ [(R, a, a)])) = slice A (w_start w) (length tr) ++ [nth R A 0]).
    { rewrite app_length. cbn [length]. rewrite Nat.add_1_r, Ltr. apply slice_S_last. apply nth_error_nth'. unfold R in *. lia. }
    assert (Ls : length (slice A (w_start w) (length tr)) = r) by (rewrite slice_length; unfold R in *; lia).
    assert (EA : nth R A 0 = if nth a (x_act h) false then a else K) by (apply live_asg_nth; lia).
    assert (Hun' : forall x, In x (tr ++ [(R, a, a)]) -> snd x = snd (fst x)).
    { intros x Hx. apply in_app_iff in Hx as [Hx|[<-|[]]]; auto. }
    destruct (nth a (x_act h) false) eqn:Ea; cbn [negb].
    + destruct (Hlive R Hor Ea) as (Ep & HpK). change (w_start w + r) with R; rewrite (aget_nth (x_part h) (i := R) 0) by lia. cbn [bind].
      rewrite Ep in *. fold a in HpK |- *.
      assert (Hdr : slice (fst (wrow w d r)) (snd (wrow w d r)) d = row data d R) by (apply (proj2 Hws); [apply nth_error_In in Ew; exact Ew|exact Hr]).
      assert (Lrow : length (row data d R) = d) by (apply (@data_row_length N g data V R Hor)).
      destruct (@sparse_add_member_ok N K d l (wrow w (g_ncol g) r) (row data d R) a Hs Lrow Hdr) as (l' & E & Hs' & Hc').
      rewrite E. cbn [bind]. exists l', a. split; [reflexivity|]. splits; auto.
      * replace (Nat.max K (Datatypes.S a)) with K in Hs' by lia. exact Hs'.
      * intros w' Hw' j Hj. injection Hw' as <-. rewrite Es, EA, xas_snoc, csum_snoc, ccnt_snoc, Ls. fold d R.
        rewrite Hc' by lia. unfold grown. pose proof (Hcel j Hj) as Q.
        destruct (Nat.eqb_spec j a) as [->|Hne].
        -- destruct (Nat.ltb_spec a K); [|lia]. rewrite Q, Nat.eqb_refl. reflexivity.
        -- destruct (Nat.ltb_spec j K); [|lia]. rewrite Q. destruct (Nat.eqb_spec a j); [congruence|]. rewrite Z.add_0_r. reflexivity.
    + exists l, a. split; [reflexivity|]. splits; auto.
      intros w' Hw' j Hj. injection Hw' as <-. rewrite Es, EA, xas_snoc, csum_snoc, ccnt_snoc, Ls.
      destruct (Nat.eqb_spec K j); [lia|]. rewrite Z.add_0_r. apply Hcel. exact Hj.
  - exact Hc.
  - exists locs.
    assert (Ec : cells = x_asg h).
    { apply nth_ext with (d := 0) (d' := 0); [exact H2|]. intros i Hi. rewrite H2, La in Hi.
      destruct (@owner N g ws data Hws (proj2 (proj2 (proj2 V))) i Hi) as (t & w & r & Ew & Hr & ->).
      destruct (H3 t (w_start w) (w_nrow w)) as (l & _ & Hun & _).
      { unfold w_ranges. rewrite nth_error_map, Ew. reflexivity. }
      apply (Hun (w_start w + r, nth (w_start w + r) (x_asg h) 0, nth (w_start w + r) cells 0)).
      unfold triples. apply in_map_iff. exists (w_start w + r). split; [reflexivity|]. apply in_seq. lia. }
    subst cells. split; [exact E|]. split; [rewrite H1; unfold w_ranges; apply map_length|].
    intros t w l Ew El. destruct (H3 t (w_start w) (w_nrow w)) as (l' & El' & _ & Hs & Hcel).
    { unfold w_ranges. rewrite nth_error_map, Ew. reflexivity. }
    rewrite El in El'. injection El' as <-. rewrite triples_length in Hcel. split; [exact Hs|]. apply Hcel. exact Ew.
Qed.

Lemma merge_means A : forall (ws' : list (worker N)) (locs : list clusters) c, length locs = length ws' -> shaped K d c ->
  (forall t w l, nth_error ws' t = Some w -> nth_error locs t = Some l -> holds A w l) ->
  exists c', for_each locs (fun l c => sparse_peq c l) c = Ok c' /\ shaped K d c' /\
    forall j, j < K -> cel c' j =
      (fold_left (fun s (w : worker N) => map2 (nadd N) s (csum N d j (xas g data (w_start w) (slice A (w_start w) (w_nrow w))))) ws' (crow c j),
       fold_left (fun n (w : worker N) => n + ccnt N j (xas g data (w_start w) (slice A (w_start w) (w_nrow w))))%Z ws' (cnum c j), cdone c j).
Proof.
  induction ws' as [|w ws' IH]; intros [|l locs] c Hl Hc H; simpl in Hl; try lia.
  - exists c. splits; auto.
  - cbn [for_each]. destruct (H 0 w l eq_refl eq_refl) as (Hs & Hcel).
    rewrite (sparse_peq_same Hc Hs). destruct (@peq_ok N K d c l Hc Hs) as (c1 & E1 & Hs1 & Hc1). rewrite E1. cbn [bind].
    destruct (IH locs c1 ltac:(lia) Hs1) as (c2 & E2 & Hs2 & Hc2).
    { intros t w' l' Ew El. exact (H (S t) w' l' Ew El). }
    exists c2. splits; auto. intros j Hj. rewrite Hc2 by exact Hj. cbn [fold_left].
    pose proof (Hc1 j Hj) as E. unfold cel in E. injection E as E1' E2' E3'. rewrite E1', E2', E3'.
    pose proof (Hcel j Hj) as E. unfold cel in E. injection E as E1'' E2'' E3''. rewrite E1'', E2''. reflexivity.
Qed.

Lemma ucnt_from A j c : length A = n ->
  fold_left (fun n (w : worker N) => n + ccnt N j (xas g data (w_start w) (slice A (w_start w) (w_nrow w))))%Z ws c = (c + Z.of_nat (count_eq j A))%Z.
Proof.
  intros LA. rewrite <- (@ucnt_total N g ws data Hws A j LA). unfold ucnt.
  assert (G : forall ws' a b, fold_left (fun n (w : worker N) => n + ccnt N j (xas g data (w_start w) (slice A (w_start w) (w_nrow w))))%Z ws' (a + b)%Z
     = (a + fold_left (fun n (w : worker N) => n + ccnt N j (xas g data (w_start w) (slice A (w_start w) (w_nrow w))))%Z ws' b)%Z).
  { induction ws' as [|w ws' IH]; intros a b; cbn [fold_left]; [reflexivity|]. rewrite <- Z.add_assoc. apply IH. }
  rewrite <- G. rewrite Z.add_0_r. reflexivity.
Qed.

(** MEAN and combine_partition_means *)
Lemma x_mean_ok (s : xst N) sched : mean_pre (xh s) -> length (x_loc s) = length ws -> Forall (shaped K d) (x_loc s) ->
  shaped K d (x_cl s) -> complete (w_ranges ws) sched ->
  exists s', x_mean g ws sched s = Ok s' /\ xh s' = xh s /\ x_pd s' = x_pd s /\ x_cd s' = x_cd s /\
    length (x_loc s') = length ws /\ Forall (shaped K d) (x_loc s') /\ shaped K d (x_cl s') /\
    forall j, j < K -> cel (x_cl s') j = add_round j (cel (x_cl s) j) (live_asg K (xh s)).
Proof.
  intros Hp Ll Hsh Hcl Hc. destruct (MEAN_round_ok Hp Ll Hsh Hc) as (locs & E & Hl & Hh).
  unfold x_mean. rewrite E. cbn [bind fst snd]. unfold combine_means.
  destruct (unfinalize_all_ok Hcl) as (c1 & E1 & Hs1 & Hc1). rewrite E1. cbn [bind].
  destruct (@merge_means (live_asg K (xh s)) ws locs c1 Hl Hs1 Hh) as (c2 & E2 & Hs2 & Hc2). rewrite E2. cbn [bind].
  destruct (finalize_all_ok Hs2) as (c3 & E3 & Hs3 & Hc3). rewrite E3. cbn [bind].
  eexists. split; [reflexivity|]. cbn [xh x_pd x_cd x_loc x_cl]. splits; auto.
  - destruct (xh s); reflexivity.
  - apply Forall_forall. intros l Hin. apply In_nth_error in Hin as (t & Ht).
    destruct (nth_error ws t) as [w|] eqn:Ew; [apply (Hh t w l Ew Ht)|].
    apply nth_error_None in Ew. assert (t < length locs) by (apply nth_error_Some; congruence). lia.
  - intros j Hj. rewrite Hc3, Hc2 by exact Hj. unfold add_round. rewrite <- Hc1 by exact Hj. unfold cel at 1.
    rewrite ucnt_from by (rewrite live_asg_length; apply Hp).
    assert (Ed : cdone c1 j = false).
    { pose proof (Hc1 j Hj) as Q. unfold cel in Q. unfold unfin1 in Q. destruct (cdone (x_cl s) j) eqn:Ed; congruence. }
    rewrite Ed. reflexivity.
Qed.

(* ------------------------------------------------------------------ *)
(** * One iteration *)

Lemma map_fst_combine {A B} : forall (l : list A) (l' : list B), length l = length l' -> map fst (combine l l') = l.
Proof. clear. induction l as [|x l IH]; intros [|y l'] H; simpl in *; try lia; auto. rewrite IH by lia. reflexivity. Qed.

Lemma nth_error_combine {A B} : forall (l : list A) (l' : list B) i x y, nth_error l i = Some x -> nth_error l' i = Some y ->
  nth_error (combine l l') i = Some (x, y).
Proof. clear. induction l as [|a l IH]; intros [|b l'] [|i] x y; cbn; try discriminate; [intros [= ->] [= ->]; reflexivity|apply IH]. Qed.

(** the distances one iteration leaves *)
Definition pd_after (s : xst N) (pdist : bool) (r : nat) : T :=
  if pdist then ldist N (g_dt g) (row data d r) (crow (x_cl s) (nth r (x_part (xh s)) 0)) else nth r (x_pd s) (nzero N).
Definition cd_after (s : xst N) (r : nat) : T :=
  if nth (nth r (x_asg (xh s)) 0) (x_act (xh s)) false then
    match hget (x_hcl (xh s)) (nth r (x_part (xh s)) 0) with
    | Some h => if h_conv h then nth r (x_cd s) (nzero N)
                else snd (near N (g_dt g) (rows 2 d (c_means (h_cl h))) (row data d r))
    | None => nth r (x_cd s) (nzero N)
    end
  else nth r (x_cd s) (nzero N).

Lemma x_iter_ok M (s : xst N) sched pdist : einv g ws data M (xh s) -> length (x_pd s) = n -> length (x_cd s) = n ->
  shaped K d (x_cl s) -> (pdist = true -> forall r, r < n -> nth r (x_part (xh s)) 0 < K) -> complete (w_ranges ws) sched ->
  match h_iter g ws sched (xh s) with
  | Ok h => exists s', x_iter g ws sched pdist s = Ok s' /\ xh s' = h /\ x_cl s' = x_cl s /\ x_loc s' = x_loc s /\
      length (x_pd s') = n /\ length (x_cd s') = n /\
      (forall r, r < n -> nth r (x_pd s') (nzero N) = pd_after s pdist r) /\
      (forall r, r < n -> nth r (x_cd s') (nzero N) = cd_after s r)
  | Err e => x_iter g ws sched pdist s = Err e
  end.
Proof.
  intros I Lpd Lcd Hcl Hpart Hc. set (h := xh s) in *. pose proof (e_asg I) as La. fold n in La.
  set (cells := combine (x_asg h) (combine (x_pd s) (x_cd s))).
  assert (Lc2 : length (combine (x_pd s) (x_cd s)) = n) by (rewrite combine_length, Lpd, Lcd; lia).
  assert (Lcells : length cells = n) by (unfold cells; rewrite combine_length, La, Lc2; lia).
  set (step' := XH_EM_row g ws (x_part h) (x_act h) (x_hcl h) (x_cl s) pdist).
  assert (Pd : forall t w r, nth_error ws t = Some w -> r < w_nrow w -> pdist = true ->
     dist_comp_raw N (wrow w (g_ncol g) r) (c_means (x_cl s), nth (w_start w + r) (x_part h) 0 * g_ncol g) (g_ncol g) (g_dt g)
     = Ok (ldist N (g_dt g) (row data d (w_start w + r)) (crow (x_cl s) (nth (w_start w + r) (x_part h) 0)))).
  { intros t w r Ew Hr Hpd. pose proof (@worker_in' N g ws data Hws t w Ew) as Hin.
    destruct Hcl as (Hk & Hd & Hm & _).
    apply dist_comp_raw_ok; cbn [fst snd].
    - apply (proj2 Hws); [apply nth_error_In in Ew; exact Ew|exact Hr].
    - unfold crow, row. fold d in Hd. rewrite Hd. reflexivity.
    - apply (@data_row_length N g data V). fold n in Hin |- *. lia.
    - unfold crow. rewrite Hd. apply (@row_length _ _ _ _ K); [congruence|]. apply Hpart; auto. fold n in Hin. lia. }
  assert (Sim : H_EM_round g ws sched h = match XH_EM_round g ws sched pdist s with Ok (ls, cs) => Ok (ls, map fst cs) | Err e => Err e end).
  { unfold H_EM_round, XH_EM_round. fold h. fold cells. fold step'.
    replace (x_asg h) with (map fst cells) by (apply map_fst_combine; lia).
    apply par_run_map. intros t o m r l c' Er Hr Hb.
    unfold w_ranges in Er. rewrite nth_error_map in Er. destruct (nth_error ws t) as [w|] eqn:Ew; [|discriminate].
    injection Er as <- <-. destruct c' as (a & pd & cd). cbn [fst]. unfold step', H_EM_row, XH_EM_row.
    rewrite (proj2 (aget_ok ws t w) Ew). cbn [bind].
    rewrite (aget_nth (x_part h) (i := w_start w + r) 0) by (rewrite (e_part I); fold n; lia). cbn [bind].
    assert (Ep : exists pd', (if pdist then dist_comp_raw N (wrow w (g_ncol g) r) (c_means (x_cl s), nth (w_start w + r) (x_part h) 0 * g_ncol g) (g_ncol g) (g_dt g) else Ok pd) = Ok pd').
    { destruct pdist eqn:Epd; [|eauto]. rewrite (Pd t w r Ew Hr eq_refl). eauto. }
    destruct Ep as (pd' & ->). cbn [bind].
    destruct (aget (x_act h) a) as [b|]; cbn [bind]; [|reflexivity]. destruct (negb b); [reflexivity|].
    destruct (hm_ref (x_hcl h) (nth (w_start w + r) (x_part h) 0)) as [hh|]; cbn [bind]; [|reflexivity].
    destruct (h_conv hh); [reflexivity|].
    destruct (find_nearest N (wrow w (g_ncol g) r) (c_means (h_cl hh)) (g_ncol g) 2 (g_dt g)) as [[[fl|] best]|]; cbn [bind fst snd]; try reflexivity.
    destruct (hm_ref (fst l) (nth (w_start w + r) (x_part h) 0)) as [lc|]; cbn [bind]; [|reflexivity].
    destruct (add_member lc (wrow w (g_ncol g) r) fl); reflexivity. }
  unfold h_iter. rewrite Sim. unfold x_iter. 
  destruct (XH_EM_round g ws sched pdist s) as [[ls cs]|er] eqn:Er; cbn [bind fst snd]; [|reflexivity].
  fold h. destruct (h_update g ls (with_asg h (map fst cs))) as [h'|er2]; cbn [bind]; [|reflexivity].
  eexists. split; [reflexivity|]. cbn [xh x_cl x_loc x_pd x_cd].
  unfold XH_EM_round in Er. fold h cells step' in Er.
  assert (L0 : length (map (fun _ => h_local0 g (x_hcl h)) ws) = length (w_ranges ws)) by (unfold w_ranges; rewrite !map_length; reflexivity).
  assert (Ht : ntiles 0 (length cells) (w_ranges ws)) by (rewrite Lcells; apply Hws).
  destruct (@par_run_rows _ _ step' (w_ranges ws) sched cells _ ls cs Ht L0 Hc Er) as (Lcs & Hrows).
  assert (Hr : forall r, r < n -> exists c, nth_error cs r = Some c /\ fst (snd c) = pd_after s pdist r /\ snd (snd c) = cd_after s r).
  { intros r Hr. set (pd := nth r (x_pd s) (nzero N)). set (cd := nth r (x_cd s) (nzero N)).
    assert (Ec : nth_error cells r = Some (nth r (x_asg h) 0, (pd, cd))).
    { apply nth_error_combine; [apply nth_error_nth'; lia|]. apply nth_error_combine; apply nth_error_nth'; lia. }
    destruct (Hrows r _ Ec) as (t & o & m & i & l1 & l2 & c' & Eo & Hi & -> & Es & En).
    exists c'. split; [exact En|].
    unfold w_ranges in Eo. rewrite nth_error_map in Eo. destruct (nth_error ws t) as [w|] eqn:Ew; [|discriminate].
    injection Eo as <- <-. unfold step', XH_EM_row in Es. rewrite (proj2 (aget_ok ws t w) Ew) in Es. cbn [bind] in Es.
    rewrite (aget_nth (x_part h) (i := w_start w + i) 0) in Es by (rewrite (e_part I); fold n; lia). cbn [bind] in Es.
    unfold pd_after, cd_after. fold h pd cd. set (R := w_start w + i) in *.
    destruct (e_rows I Hr) as (Ha & _).
    assert (Ep : (if pdist then dist_comp_raw N (wrow w (g_ncol g) i) (c_means (x_cl s), nth R (x_part h) 0 * g_ncol g) (g_ncol g) (g_dt g) else Ok pd)
      = Ok (if pdist then ldist N (g_dt g) (row data d R) (crow (x_cl s) (nth R (x_part h) 0)) else pd)).
    { destruct pdist eqn:Epd; [|reflexivity]. apply (Pd t w i Ew Hi eq_refl). }
    rewrite Ep in Es. cbn [bind] in Es.
    rewrite (aget_nth (x_act h) (i := nth R (x_asg h) 0) false) in Es by (rewrite (e_act I); exact Ha). cbn [bind] in Es.
    destruct (nth (nth R (x_asg h) 0) (x_act h) false); cbn [negb] in Es; [|injection Es as <- <-; auto].
    destruct (hget (x_hcl h) (nth R (x_part h) 0)) as [hh|] eqn:Eh.
    2:{ unfold hm_ref in Es. unfold hget in Eh. destruct (nth_error (x_hcl h) (nth R (x_part h) 0)) as [[?|]|]; discriminate. }
    rewrite (hm_ref_ok Eh) in Es. cbn [bind] in Es. destruct (h_conv hh); [injection Es as <- <-; auto|].
    destruct (e_live I Eh) as (_ & _ & (Hk2 & Hd2 & Hm2 & _) & _).
    rewrite (@find_nearest_ok N (g_dt g) _ (row data d R) (c_means (h_cl hh)) (g_ncol g) 2) in Es.
    2:{ apply (proj2 Hws); [apply nth_error_In in Ew; exact Ew|exact Hi]. }
    2:{ apply (@data_row_length N g data V R Hr). }
    2:{ rewrite Hm2. congruence. }
    cbn [bind] in Es. fold d in Es. destruct (near N (g_dt g) (rows 2 d (c_means (h_cl hh))) (row data d R)) as [[fl|] best]; cbn [fst snd] in *; [|discriminate].
    destruct (hm_ref (fst l1) (nth R (x_part h) 0)) as [lc|]; cbn [bind] in Es; [|discriminate].
    destruct (add_member lc (wrow w d i) fl); cbn [bind] in Es; [|discriminate]. injection Es as <- <-. auto. }
  splits; auto.
  - rewrite map_length, Lcs. exact Lcells.
  - rewrite map_length, Lcs. exact Lcells.
  - intros r Hr'. destruct (Hr r Hr') as (c & Ec & E1 & _). rewrite <- E1. apply nth_error_nth. rewrite nth_error_map, Ec. reflexivity.
  - intros r Hr'. destruct (Hr r Hr') as (c & Ec & _ & E1). rewrite <- E1. apply nth_error_nth. rewrite nth_error_map, Ec. reflexivity.
Qed.
End XP.
