(** G-means: what the parallel steps of a round leave, when they return. *)
From Coq Require Import Permutation.
From Verif Require Import Base Num MatrixModel PropertiesMatrix DistModel DistProofs ClustersModel ClustersView ClustersProofs MatLemmas
  PartitionModel PartitionProofs ParModel KmeansModel ParProofs NearProofs KmeansProofs UpdateProofs RunProofs InitProofs Spec ParRule ParSim.
From Verif Require Import ContainersModel MatrixModel PropertiesIds HclustModel HclustProofs HclustUpdate HclustIter HclustSplit HclustRun Okab
  XmeansModel XmeansProofs XmeansDecide GmeansModel GmeansSplit.
Set Implicit Arguments.
Unset Strict Implicit.

(* ------------------------------------------------------------------ *)
(** * Rounds of workers *)
Section Par.
Variables C L : Type.
Variable step : nat -> nat -> L -> C -> res (L * C).
Variable ranges : list (nat * nat).

(** one-directional form of [par_run_map] *)
Lemma par_run_le {C'} (f : C' -> C) (step' : nat -> nat -> L -> C' -> res (L * C')) sched (cells' : list C') locs ls cs :
  (forall t r l c' l' c'', step' t r l c' = Ok (l', c'') -> step t r l (f c') = Ok (l', f c'')) ->
  par_run step' ranges sched cells' locs = Ok (ls, cs) -> par_run step ranges sched (map f cells') locs = Ok (ls, map f cs).
Proof.
  intros Hst. unfold par_run. set (st0 := map (fun l : L => (0, l)) locs). clearbody st0.
  assert (G : forall sched cells lc st, for_each sched (par_step step' ranges) (mkP cells lc) = Ok st ->
    for_each sched (par_step step ranges) (mkP (map f cells) lc) = Ok (mkP (map f (ps_cells st)) (ps_loc st))).
  { induction sched0 as [|t sched0 IH]; intros cells lc st; cbn [for_each]; [intros [= <-]; reflexivity|].
    intros H. apply bind_ok in H as ([cells1 lc1] & E & H).
    assert (E' : par_step step ranges t (mkP (map f cells) lc) = Ok (mkP (map f cells1) lc1)).
    { revert E. unfold par_step. cbn [ps_cells ps_loc]. destruct (nth_error ranges t) as [[s n]|]; [|intros [= <- <-]; reflexivity].
      destruct (nth_error lc t) as [[r l]|]; [|intros [= <- <-]; reflexivity]. destruct (r <? n); [|intros [= <- <-]; reflexivity].
      unfold aget. rewrite nth_error_map. destruct (nth_error cells (s + r)) as [c'|] eqn:Ec; cbn [option_map bind]; [|discriminate].
      assert (Hb : s + r < length cells) by (apply nth_error_Some; congruence).
      destruct (step' t r l c') as [[l' c'']|e] eqn:Es; cbn [bind]; [|discriminate]. rewrite (Hst _ _ _ _ _ _ Es). cbn [bind fst snd].
      rewrite !aset_ok by (rewrite ?map_length; exact Hb). cbn [bind]. intros [= <- <-]. f_equal. f_equal.
      apply nth_error_ext. intros i. rewrite nth_error_map, !nth_error_upd, map_length, nth_error_map.
      destruct (i =? s + r); [|reflexivity]. destruct (s + r <? length cells); reflexivity. }
    rewrite E'. cbn [bind]. apply IH. exact H. }
  intros H. apply bind_ok in H as (st & E & H). injection H as <- <-. rewrite (G _ _ _ _ E). reflexivity.
Qed.

(** cells that no row step changes; a property of the workers' states *)
Lemma par_run_keep (P : L -> Prop) sched (cells : list C) locs ls cs :
  (forall t s n r l c l' c', nth_error ranges t = Some (s, n) -> r < n -> P l -> step t r l c = Ok (l', c') -> c' = c /\ P l') ->
  Forall P locs -> par_run step ranges sched cells locs = Ok (ls, cs) -> cs = cells /\ length ls = length locs /\ Forall P ls.
Proof.
  intros Hst Hl. unfold par_run.
  assert (G : forall sched lc st, Forall (fun x => P (snd x)) lc -> for_each sched (par_step step ranges) (mkP cells lc) = Ok st ->
    ps_cells st = cells /\ length (ps_loc st) = length lc /\ Forall (fun x => P (snd x)) (ps_loc st)).
  { induction sched0 as [|t sched0 IH]; intros lc st Hlc; cbn [for_each]; [intros [= <-]; auto|].
    intros H. apply bind_ok in H as ([cells1 lc1] & E & H).
    assert (E' : cells1 = cells /\ length lc1 = length lc /\ Forall (fun x => P (snd x)) lc1).
    { revert E. unfold par_step. cbn [ps_cells ps_loc]. destruct (nth_error ranges t) as [[s n]|] eqn:Er; [|intros [= <- <-]; auto].
      destruct (nth_error lc t) as [[r l]|] eqn:El; [|intros [= <- <-]; auto]. destruct (Nat.ltb_spec r n); [|intros [= <- <-]; auto].
      unfold aget. destruct (nth_error cells (s + r)) as [c|] eqn:Ec; cbn [bind]; [|discriminate].
      assert (Hb : s + r < length cells) by (apply nth_error_Some; congruence).
      destruct (step t r l c) as [[l' c']|e] eqn:Es; cbn [bind]; [|discriminate]. cbn [fst snd].
      assert (Pl : P l) by (rewrite Forall_forall in Hlc; apply nth_error_In in El; exact (Hlc _ El)).
      destruct (Hst _ _ _ _ _ _ _ _ Er H0 Pl Es) as (-> & Pl').
      rewrite !aset_ok by exact Hb. cbn [bind]. intros [= <- <-]. rewrite upd_length. splits; auto.
      - apply nth_error_ext. intros i. rewrite nth_error_upd. destruct (Nat.eqb_spec i (s + r)) as [->|]; auto.
        destruct (Nat.ltb_spec (s + r) (length cells)); [congruence|lia].
      - apply Forall_forall. intros x Hx. apply In_nth_error in Hx as (i & Hi). rewrite nth_error_upd in Hi.
        destruct (i =? t); [destruct (t <? length lc); [|discriminate]; injection Hi as <-; exact Pl'|].
        rewrite Forall_forall in Hlc. apply nth_error_In in Hi. exact (Hlc _ Hi). }
    destruct E' as (-> & L1 & H1). destruct (IH _ _ H1 H) as (A & B & D). splits; auto; congruence. }
  intros H. apply bind_ok in H as (st & E & H). injection H as <- <-.
  assert (F0 : Forall (fun x : nat * L => P (snd x)) (map (fun l => (0, l)) locs)).
  { apply Forall_forall. intros x Hx. apply in_map_iff in Hx as (l & <- & Hx). rewrite Forall_forall in Hl. exact (Hl _ Hx). }
  destruct (G _ _ _ F0 E) as (A & B & D).
  rewrite map_length in B |- *. splits; auto. apply Forall_forall. intros x Hx. apply in_map_iff in Hx as (y & <- & Hy).
    rewrite Forall_forall in D. exact (D _ Hy).
Qed.
End Par.

Section GS.
Variable N : Num.
Notation T := (car N).
Notation clusters := (clusters N).

(* ------------------------------------------------------------------ *)
(** * Containers of any number of clusters *)
Definition gsh (d : nat) (c : clusters) : Prop := exists K, shaped K d c.

Lemma gsh_peq d (c l c' : clusters) : gsh d c -> gsh d l -> sparse_peq c l = Ok c' -> gsh d c'.
Proof.
  intros (K & Hc) (K2 & Hl) E. unfold sparse_peq in E. apply bind_ok in E as (c1 & E1 & E).
  assert (Hc1 : gsh d c1).
  { destruct (Nat.ltb_spec (length (c_means c)) (length (c_means l))) as [H|H]; [|injection E1 as <-; exists K; exact Hc].
    assert (Hlen : K <= length (c_means l)).
    { destruct Hc as (A & B & D & _), Hl as (A' & B' & D' & _). rewrite D, A, B in H. rewrite D', A', B' in H |- *. clear - H. destruct d; nia. }
    destruct (@sparse_resize_ok N K d c _ Hc Hlen) as (c2 & E2 & Hs & _). rewrite E2 in E1. injection E1 as <-. eexists; exact Hs. }
  destruct Hc1 as (K1 & Hs). apply bind_ok in E as (m & Em & E).
  assert (Lm : length m = length (c_means c1)).
  { apply (@loop_inv_ok _ (fun _ m => length m = length (c_means c1)) _ _ _ _ Em); auto.
    intros j a b _ La H. apply bind_ok in H as (x & _ & H). apply amod_inv in H as (y & _ & ->). rewrite upd_length. exact La. }
  exists K1. apply (@loop_inv_ok _ (fun _ c => shaped K1 d c) _ _ _ _ E).
  - destruct Hs as (A & B & D & F & G). unfold shaped, cwf in *. cbn. splits; auto. congruence.
  - intros j a b _ (A & B & D & F & G) H. apply bind_ok in H as (x & _ & H). unfold sparse_num_members_peq in H.
    destruct (c_nclust a <=? j); [discriminate|]. unfold num_members_peq in H. apply bind_ok in H as (v & Hv & H). injection H as <-.
    apply amod_inv in Hv as (y & _ & ->). unfold shaped, cwf. cbn. rewrite upd_length. splits; auto.
Qed.

Lemma gsh_combine d : forall (locs : list clusters) (c c' : clusters), gsh d c -> Forall (gsh d) locs -> combine_means c locs = Ok c' -> gsh d c'.
Proof.
  intros locs c c' (K & Hc) Hl E. unfold combine_means in E.
  destruct (unfinalize_all_ok Hc) as (c1 & E1 & Hs1 & _). rewrite E1 in E. cbn [bind] in E.
  apply bind_ok in E as (c2 & E2 & E).
  assert (H2 : gsh d c2).
  { assert (G : forall locs c, gsh d c -> Forall (gsh d) locs -> forall c2, for_each locs (fun l c => sparse_peq c l) c = Ok c2 -> gsh d c2).
    { clear. induction locs as [|l locs IH]; intros c Hc Hl c2; cbn [for_each]; [intros [= <-]; exact Hc|].
      intros E. apply bind_ok in E as (c1 & E1 & E). inversion Hl as [|? ? Hl1 Hl2]; subst. exact (IH c1 (gsh_peq Hc Hl1 E1) Hl2 c2 E). }
    apply (G locs c1); auto. exists K. exact Hs1. }
  destruct H2 as (K2 & H2). destruct (finalize_all_ok H2) as (c3 & E3 & Hs3 & _). rewrite E3 in E. injection E as <-. exists K2. exact Hs3.
Qed.

Variables (g : hcfg N) (ws : list (worker N)) (data : list T).
Let d := g_ncol g.
Let n := g_nrow g.
Hypothesis V : valid_input g data.
Hypothesis Hws : wok n d data ws.

(** MEAN changes only the partition means *)
Lemma g_mean_ok (s s' : xst N) sched : gsh d (x_cl s) -> Forall (gsh d) (x_loc s) -> x_mean g ws sched s = Ok s' ->
  xh s' = xh s /\ x_pd s' = x_pd s /\ x_cd s' = x_cd s /\ gsh d (x_cl s') /\ length (x_loc s') = length (x_loc s) /\ Forall (gsh d) (x_loc s').
Proof.
  intros Hcl Hloc E. unfold x_mean in E. apply bind_ok in E as ([ls cs] & E1 & E). cbn [fst snd] in E.
  apply bind_ok in E as (c & E2 & E). injection E as <-. cbn [xh x_pd x_cd x_cl x_loc].
  assert (H0 : Forall (gsh d) (map (fun c : clusters => clear c) (x_loc s))).
  { apply Forall_forall. intros l Hl. apply in_map_iff in Hl as (c0 & <- & Hl). rewrite Forall_forall in Hloc. destruct (Hloc _ Hl) as (K & HK).
    exists K. rewrite (clear_create HK). apply shaped_create. }
  assert (Hst : forall t o m r l c0 l' c', nth_error (w_ranges ws) t = Some (o, m) -> r < m -> gsh d l ->
    MEAN_row g ws (x_part (xh s)) (x_act (xh s)) t r l c0 = Ok (l', c') -> c' = c0 /\ gsh d l').
  { intros t o m r l c0 l' c' Er Hr (K & Hl) Es. unfold w_ranges in Er. rewrite nth_error_map in Er.
    destruct (nth_error ws t) as [w|] eqn:Ew; [|discriminate]. injection Er as <- <-.
    unfold MEAN_row in Es. rewrite (proj2 (aget_ok ws t w) Ew) in Es. cbn [bind] in Es.
    apply bind_ok in Es as (a & _ & Es). destruct (negb a); [injection Es as <- <-; split; [auto|exists K; exact Hl]|].
    apply bind_ok in Es as (p & _ & Es). apply bind_ok in Es as (l1 & El & Es). injection Es as <- <-. split; [auto|].
    assert (Hdr : slice (fst (wrow w d r)) (snd (wrow w d r)) d = row data d (w_start w + r)) by (apply (proj2 Hws); [apply nth_error_In in Ew; exact Ew|exact Hr]).
    assert (Hin : r < w_nrow w -> w_start w + r < n).
    { intros Hr'. pose proof (@worker_in' N g ws data Hws t w Ew) as Q. change (g_nrow g) with n in Q. lia. }
    destruct (@sparse_add_member_ok N K d l (wrow w (g_ncol g) r) (row data d (w_start w + r)) p Hl (@data_row_length N g data V _ (Hin Hr)) Hdr) as (l2 & E3 & Hs & _).
    rewrite E3 in El. injection El as <-. eexists; exact Hs. }
  destruct (@par_run_keep _ _ _ _ _ _ _ _ _ _ Hst H0 E1) as (-> & Ll & Hls).
  rewrite map_length in Ll. splits; auto.
  - destruct (xh s); reflexivity.
  - eapply gsh_combine; eauto.
Qed.

(* ------------------------------------------------------------------ *)
(** * One iteration *)
Lemma h_iter_curr sched (s : hst N) c : h_iter g ws sched (with_curr s c) =
  match h_iter g ws sched s with Ok s' => Ok (with_curr s' c) | Err e => Err e end.
Proof.
  unfold h_iter. change (H_EM_round g ws sched (with_curr s c)) with (H_EM_round g ws sched s).
  destruct (H_EM_round g ws sched s) as [la|]; cbn [bind]; [|reflexivity]. unfold h_update. sx.
  destruct (h_clear_all (x_act s) (x_hcl s)); cbn [bind]; [|reflexivity].
  destruct (h_merge (fst la) a); cbn [bind]; [|reflexivity].
  destruct (h_settle g (snd a0) (fst a0) (x_counts s)); cbn [bind]; reflexivity.
Qed.

(** an iteration of G-means is an iteration of hierarchical clustering *)
Lemma g_iter_h (s s' : xst N) sched pdist : length (x_asg (xh s)) = n -> length (x_pd s) = n -> length (x_cd s) = n ->
  complete (w_ranges ws) sched -> x_iter g ws sched pdist s = Ok s' ->
  h_iter g ws sched (xh s) = Ok (xh s') /\ x_cl s' = x_cl s /\ x_loc s' = x_loc s /\ length (x_pd s') = n /\ length (x_cd s') = n.
Proof.
  intros La Lpd Lcd Hc E. unfold x_iter in E. apply bind_ok in E as ([ls cs] & E1 & E). cbn [fst snd] in E.
  apply bind_ok in E as (h' & E2 & E). injection E as <-. cbn [xh x_cl x_loc x_pd x_cd].
  unfold XH_EM_round in E1. set (cells := combine (x_asg (xh s)) (combine (x_pd s) (x_cd s))) in *.
  assert (Lc2 : length (combine (x_pd s) (x_cd s)) = n) by (rewrite combine_length, Lpd, Lcd; lia).
  assert (Lcells : length cells = n) by (unfold cells; rewrite combine_length, La, Lc2; lia).
  assert (Lcs : length cs = n).
  { assert (Ht : ntiles 0 (length cells) (w_ranges ws)) by (rewrite Lcells; apply Hws).
    assert (L0 : length (map (fun _ => h_local0 g (x_hcl (xh s))) ws) = length (w_ranges ws)) by (unfold w_ranges; rewrite !map_length; reflexivity).
    destruct (@par_run_rows _ _ _ (w_ranges ws) sched cells _ ls cs Ht L0 Hc E1) as (Lcs & _). congruence. }
  splits; auto; try (rewrite map_length; exact Lcs).
  unfold h_iter.
  assert (E3 : H_EM_round g ws sched (xh s) = Ok (ls, map fst cs)).
  { unfold H_EM_round. replace (x_asg (xh s)) with (map fst cells) by (apply map_fst_combine; lia).
    eapply par_run_le; [|exact E1]. intros t r l (a & pd & cd) l' (a' & pd' & cd') Es. cbn [fst]. unfold XH_EM_row in Es. unfold H_EM_row.
    apply bind_ok in Es as (w & Ew & Es). rewrite Ew. cbn [bind]. apply bind_ok in Es as (p & Ep & Es). rewrite Ep. cbn [bind].
    apply bind_ok in Es as (pd1 & _ & Es). apply bind_ok in Es as (b & Eb & Es). rewrite Eb. cbn [bind].
    destruct (negb b); [congruence|]. apply bind_ok in Es as (h & Eh & Es). rewrite Eh. cbn [bind].
    destruct (h_conv h); [congruence|]. apply bind_ok in Es as (best & Ebest & Es). rewrite Ebest. cbn [bind].
    destruct (fst best); [|discriminate]. apply bind_ok in Es as (lc & El & Es). rewrite El. cbn [bind].
    apply bind_ok in Es as (lc' & El' & Es). rewrite El'. cbn [bind]. clear - Es.
    injection Es as E0 E1 E2 E3. rewrite E0, E1. reflexivity. }
  rewrite E3. cbn [bind fst snd]. exact E2.
Qed.

(* ------------------------------------------------------------------ *)
(** * Projections *)

(** the direction between the two child means of a partition, and the coordinate of a
    row along it *)
Notation z := (nzero N).
Definition gdir (c : clusters) (j : nat) : T := nsub N (nth j (crow c 0) z) (nth j (crow c 1) z).
Definition gproj (x : list T) (c : clusters) : T :=
  ndiv N (bigsum N d (fun j => nmul N (nth j x z) (gdir c j))) (bigsum N d (fun j => nmul N (gdir c j) (gdir c j))).

Lemma loop_bigsum m (body : nat -> T -> res T) (f : nat -> T) : (forall j a, j < m -> body j a = Ok (nadd N a (f j))) ->
  loop m body z = Ok (bigsum N m f).
Proof.
  clear. induction m as [|m IH]; intros H; [reflexivity|]. rewrite loop_S, IH by (intros j a Hj; apply H; lia).
  cbn [bind bigsum]. apply H. lia.
Qed.

Lemma g_diff_ok (c : clusters) v : shaped 2 d c -> g_diff g c = Ok v ->
  length v = d + 1 /\ (forall j, j < d -> nth j v z = gdir c j) /\ nth d v z = bigsum N d (fun j => nmul N (gdir c j) (gdir c j)).
Proof.
  clear V Hws. intros (Ek & Ed & Em & _) E. unfold g_diff in E. fold d in E. apply bind_ok in E as (v1 & E1 & E). apply bind_ok in E as (dd & E2 & E).
  assert (H1 : length v1 = d + 1 /\ (forall j, 0 < d -> j < d -> nth j v1 z = gdir c j)).
  { apply (@loop_inv_ok _ (fun i v => length v = d + 1 /\ (forall j, 0 < i -> j < d -> nth j v z = gdir c j)) _ _ _ _ E1).
    - split; [apply repeat_length|lia].
    - intros i a b Hi (La & Ha) H. unfold vdiff in H. destruct (Nat.eqb_spec (length a) 0) as [X|X]; [lia|].
      assert (Q : length b = d + 1 /\ (forall j, j < d -> nth j b z = gdir c j)).
      { apply (@loop_inv_ok _ (fun i v => length v = d + 1 /\ (forall j, j < i -> nth j v z = gdir c j)) _ _ _ _ H).
        - split; [exact La|lia].
        - intros i' a' b' Hi' (La' & Ha') H'. apply bind_ok in H' as (x & Hx & H'). apply bind_ok in H' as (y & Hy & H').
          apply aset_inv in H' as (_ & ->). rewrite upd_length. split; [exact La'|]. intros j Hj. rewrite nth_upd by lia.
          destruct (Nat.eqb_spec j i') as [->|]; [|apply Ha'; lia].
          unfold pget in Hx, Hy. cbn [fst snd] in Hx, Hy. rewrite (@aget_nth _ _ _ z) in Hx by (rewrite Em, Ek, Ed; nia).
          rewrite (@aget_nth _ _ _ z) in Hy by (rewrite Em, Ek, Ed; nia). injection Hx as <-. injection Hy as <-.
          unfold gdir, crow, row. rewrite Ed, !nth_slice by exact Hi'. f_equal; f_equal; lia. }
      destruct Q as (Q1 & Q2). split; [exact Q1|]. intros j _ Hj. apply Q2. exact Hj. }
  destruct H1 as (L1 & H1). assert (H1' : forall j, j < d -> nth j v1 z = gdir c j) by (intros j Hj; apply H1; lia). clear H1.
  unfold dot_vv in E2. rewrite (@loop_bigsum d _ (fun j => nmul N (gdir c j) (gdir c j))) in E2.
  2:{ intros j a Hj. unfold pget. cbn [fst snd Nat.add]. rewrite (@aget_nth _ v1 j z) by lia. cbn [bind]. rewrite H1' by exact Hj. reflexivity. }
  injection E2 as <-. apply aset_inv in E as (_ & ->). rewrite upd_length. splits; auto.
  - intros j Hj. rewrite nth_upd by lia. destruct (Nat.eqb_spec j d); [lia|]. apply H1'. exact Hj.
  - rewrite nth_upd by lia. rewrite Nat.eqb_refl. reflexivity.
Qed.

Lemma mapM_get {A B} (f : A -> res B) : forall l l', mapM f l = Ok l' -> length l' = length l /\
  forall i x, nth_error l i = Some x -> exists y, nth_error l' i = Some y /\ f x = Ok y.
Proof.
  clear. induction l as [|a l IH]; intros l' E; cbn [mapM] in E; [injection E as <-; split; auto; intros [|]; discriminate|].
  apply bind_ok in E as (y & Ey & E). apply bind_ok in E as (t & Et & E). injection E as <-. destruct (IH t Et) as (L & H).
  split; [cbn [length]; lia|]. intros [|i] x Hx; cbn [nth_error] in *; [injection Hx as <-; eauto|]. apply H. exact Hx.
Qed.

(** H_SPLIT: the projections of the rows of live partitions *)
Lemma g_split_ok (s s' : xst N) sched : length (x_cd s) = n ->
  (forall p h, hget (x_hcl (xh s)) p = Some h -> shaped 2 d (h_cl h)) ->
  complete (w_ranges ws) sched -> g_split g ws sched s = Ok s' ->
  xh s' = xh s /\ x_cl s' = x_cl s /\ x_loc s' = x_loc s /\ x_pd s' = x_pd s /\ length (x_cd s') = n /\
  (forall r, r < n -> nth (nth r (x_asg (xh s)) 0) (x_act (xh s)) false = true ->
     exists h, hget (x_hcl (xh s)) (nth r (x_part (xh s)) 0) = Some h /\ nth r (x_cd s') z = gproj (row data d r) (h_cl h)) /\
  (forall r, r < n -> nth (nth r (x_asg (xh s)) 0) (x_act (xh s)) false = false -> nth r (x_cd s') z = nth r (x_cd s) z).
Proof.
  intros Lcd Hsh Hc E. unfold g_split in E. apply bind_ok in E as (dfs & E1 & E). apply bind_ok in E as ([ls cs] & E2 & E).
  injection E as <-. cbn [xh x_cl x_loc x_pd x_cd snd].
  assert (Ht : ntiles 0 (length (x_cd s)) (w_ranges ws)) by (rewrite Lcd; apply Hws).
  assert (L0 : length (map (fun _ => tt) ws) = length (w_ranges ws)) by (unfold w_ranges; rewrite !map_length; reflexivity).
  destruct (@par_run_rows _ _ _ (w_ranges ws) sched (x_cd s) _ ls cs Ht L0 Hc E2) as (Lcs & Hrows).
  assert (Hrow : forall r, r < n -> exists t w r' , nth_error ws t = Some w /\ r' < w_nrow w /\ r = w_start w + r' /\
     SPLIT_row g ws (x_part (xh s)) (x_act (xh s)) (x_asg (xh s)) dfs t r' tt (nth r (x_cd s) z) = Ok (tt, nth r cs z)).
  { intros r Hr. destruct (Hrows r (nth r (x_cd s) z)) as (t & o & m & r' & [] & [] & c' & A & B & C & D & F); [apply nth_error_nth'; lia|].
    unfold w_ranges in A. rewrite nth_error_map in A. destruct (nth_error ws t) as [w|] eqn:Ew; [|discriminate]. injection A as <- <-.
    exists t, w, r'. splits; auto. rewrite D. f_equal. f_equal. symmetry. apply nth_error_nth. exact F. }
  splits; auto; try congruence.
  - intros r Hr Ha. destruct (Hrow r Hr) as (t & w & r' & Ew & Hr' & -> & Es). unfold SPLIT_row in Es.
    rewrite (proj2 (aget_ok ws t w) Ew) in Es. cbn [bind] in Es. apply bind_ok in Es as (a & Ea & Es). apply bind_ok in Es as (ac & Eac & Es).
    rewrite aget_ok in Ea. rewrite aget_ok in Eac. apply (@nth_error_nth _ _ _ _ 0) in Ea. apply (@nth_error_nth _ _ _ _ false) in Eac. rewrite Ea, Eac in Ha. subst ac. cbn [negb] in Es.
    apply bind_ok in Es as (p & Ep & Es). apply bind_ok in Es as (v & Ev & Es). apply bind_ok in Es as (dp & Edp & Es). apply bind_ok in Es as (dv & Edv & Es).
    rewrite aget_ok in Ep. apply (@nth_error_nth _ _ _ _ 0) in Ep. rewrite Ep.
    unfold hm_ref in Ev. unfold g_diffs in E1. destruct (mapM_get E1) as (Lm & Hm).
    destruct (nth_error dfs p) as [[v'|]|] eqn:En; try discriminate. injection Ev as ->.
    destruct (nth_error (x_hcl (xh s)) p) as [o|] eqn:Eo.
    2:{ apply nth_error_None in Eo. assert (p < length dfs) by (apply nth_error_Some; congruence). lia. }
    destruct (Hm _ _ Eo) as (y & Ey & Ef). rewrite En in Ey. injection Ey as <-. destruct o as [h|]; [|discriminate].
    apply bind_ok in Ef as (v2 & Ef & Eq). injection Eq as ->.
    assert (Hh : hget (x_hcl (xh s)) p = Some h) by (unfold hget; rewrite Eo; reflexivity).
    exists h. split; [exact Hh|]. destruct (g_diff_ok (Hsh p h Hh) Ef) as (Lv & Hv & Hd).
    assert (Hdr : slice (fst (wrow w d r')) (snd (wrow w d r')) d = row data d (w_start w + r')) by (apply (proj2 Hws); [apply nth_error_In in Ew; exact Ew|exact Hr']).
    pose proof (@data_row_length N g data V _ Hr) as Ldr. fold d in Ldr. rewrite <- Hdr in Ldr.
    rewrite (@loop_bigsum (g_ncol g) _ (fun j => nmul N (nth j (row data d (w_start w + r')) z) (gdir (h_cl h) j))) in Edp.
    2:{ fold d. intros j a0 Hj. unfold pget.
        assert (Q : snd (wrow w d r') + j < length (fst (wrow w d r'))) by (unfold slice in Ldr; rewrite firstn_length, skipn_length in Ldr; lia).
        rewrite (@aget_nth _ _ _ z) by exact Q. cbn [bind]. rewrite (@aget_nth _ v j z) by lia. cbn [bind]. rewrite (Hv j Hj).
        rewrite <- Hdr, nth_slice by exact Hj. reflexivity. }
    fold d in Edp, Edv. injection Edp as <-. rewrite (@aget_nth _ v d z) in Edv by lia. injection Edv as <-. rewrite Hd in Es. injection Es as <-. reflexivity.
  - intros r Hr Ha. destruct (Hrow r Hr) as (t & w & r' & Ew & Hr' & -> & Es). unfold SPLIT_row in Es.
    rewrite (proj2 (aget_ok ws t w) Ew) in Es. cbn [bind] in Es. apply bind_ok in Es as (a & Ea & Es). apply bind_ok in Es as (ac & Eac & Es).
    rewrite aget_ok in Ea. rewrite aget_ok in Eac. apply (@nth_error_nth _ _ _ _ 0) in Ea. apply (@nth_error_nth _ _ _ _ false) in Eac. rewrite Ea, Eac in Ha. subst ac. cbn [negb] in Es.
    injection Es as Es. symmetry. exact Es.
Qed.
End GS.
