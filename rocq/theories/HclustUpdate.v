(** Proofs about the serial update of hierarchical clustering, and one whole
    iteration. *)
From Verif Require Import Base Num DistModel ClustersModel ClustersView ClustersProofs MatLemmas
  PartitionModel ParModel KmeansModel ParProofs NearProofs KmeansProofs UpdateProofs Spec.
From Verif Require Import ContainersModel HclustModel HclustProofs.
Set Implicit Arguments.
Unset Strict Implicit.

Lemma count_eq_ext c : forall A A', length A = length A' ->
  (forall i, i < length A -> (nth i A 0 =? c) = (nth i A' 0 =? c)) -> count_eq c A = count_eq c A'.
Proof.
  induction A as [|a A IH]; intros [|a' A'] L H; simpl in L; try lia; auto.
  rewrite !count_eq_cons. pose proof (H 0 ltac:(simpl; lia)) as E. cbn [nth] in E. rewrite E.
  f_equal. apply IH; [lia|]. intros i Hi. apply (H (S i)). simpl. lia.
Qed.

Lemma count_eq_zero c A : (forall i, i < length A -> nth i A 0 <> c) -> count_eq c A = 0.
Proof.
  induction A as [|a A IH]; intros H; auto. rewrite count_eq_cons.
  pose proof (H 0 ltac:(simpl; lia)) as E. cbn [nth] in E. destruct (Nat.eqb_spec a c); [congruence|].
  apply IH. intros i Hi. apply (H (S i)). simpl; lia.
Qed.

Section Upd.
Variable N : Num.
Notation T := (car N).
Notation clusters := (clusters N).
Variables (g : hcfg N) (ws : list (worker N)) (data : list T).
Let d := g_ncol g.
Let n := g_nrow g.
Hypothesis Hws : wok n d data ws.
Hypothesis Hdata : length data = n * d.

Lemma csum_ext c o : forall B B', length B = length B' ->
  (forall i, i < length B -> (nth i B 0 =? c) = (nth i B' 0 =? c)) ->
  csum N d c (xas g data o B) = csum N d c (xas g data o B').
Proof.
  clear Hws Hdata. induction B as [|b B IH] using rev_ind; intros B' L H.
  - destruct B'; [reflexivity|simpl in L; lia].
  - destruct (@exists_last _ B') as (B1 & b1 & ->). { destruct B'; [rewrite app_length in L; simpl in L; lia|discriminate]. }
    rewrite !app_length in *. cbn [length] in *.
    rewrite !xas_snoc, !csum_snoc. rewrite (IH B1) by
      (first [lia|intros i Hi; specialize (H i ltac:(lia)); rewrite !app_nth1 in H by lia; exact H]).
    replace (length B1) with (length B) by lia.
    specialize (H (length B) ltac:(lia)). rewrite !app_nth2 in H by lia.
    replace (length B - length B1) with 0 in H by lia. rewrite Nat.sub_diag in H. cbn [nth] in H. rewrite H. reflexivity.
Qed.

Lemma nth_slice' A o k i : o + k <= length A -> i < k -> nth i (slice A o k) 0 = nth (o + i) A 0.
Proof.
  clear Hws Hdata. intros L Hi. apply nth_error_nth. rewrite nth_error_slice. destruct (Nat.ltb_spec i k); [|lia].
  apply nth_error_nth'. lia.
Qed.

Lemma ucel_ext A A' c : length A = n -> length A' = n ->
  (forall r, r < n -> (nth r A 0 =? c) = (nth r A' 0 =? c)) -> ucel g ws data A c = ucel g ws data A' c.
Proof.
  clear Hdata. intros L L' H. unfold ucel. rewrite (@count_eq_ext c A A') by (first [congruence|rewrite L; exact H]).
  f_equal. f_equal. f_equal. unfold usum.
  assert (G : forall l acc, (forall w, In w l -> In w ws) ->
    fold_left (fun s w => map2 (nadd N) s (csum N d c (xas g data (w_start w) (slice A (w_start w) (w_nrow w))))) l acc
    = fold_left (fun s w => map2 (nadd N) s (csum N d c (xas g data (w_start w) (slice A' (w_start w) (w_nrow w))))) l acc).
  { induction l as [|w l IH]; intros acc Hl; [reflexivity|]. cbn [fold_left].
    destruct (In_nth_error ws w (Hl w (or_introl eq_refl))) as (t & Et).
    pose proof (worker_in' Hws Et) as Hb. fold n in Hb.
    rewrite (@csum_ext c (w_start w) (slice A (w_start w) (w_nrow w)) (slice A' (w_start w) (w_nrow w))).
    - apply IH. intros w' Hw'. apply Hl. right; auto.
    - rewrite !slice_length; lia.
    - rewrite slice_length by lia. intros i Hi. rewrite !nth_slice' by lia. apply H. lia. }
  apply G. auto.
Qed.

(* ------------------------------------------------------------------ *)
(** * Loops over the keys *)

Lemma for_keys (F : nat -> hclu N -> res (hclu N)) body : forall l m,
  NoDup l ->
  (forall p m', In p l -> body p m' = hcl_mod m' p (F p)) ->
  (forall p, In p l -> exists h h', hget m p = Some h /\ F p h = Ok h') ->
  exists m', for_each l body m = Ok m' /\ length m' = length m /\
    forall i, (In i l -> exists h h', hget m i = Some h /\ F i h = Ok h' /\ hget m' i = Some h') /\
              (~ In i l -> hget m' i = hget m i).
Proof.
  clear Hws Hdata. induction l as [|p l IH]; intros m ND HB HF.
  - exists m. cbn [for_each]. splits; auto. intros i. split; [intros []|auto].
  - cbn [for_each]. rewrite HB by (left; auto). unfold hcl_mod.
    destruct (HF p (or_introl eq_refl)) as (h & h' & Hg & Hf).
    rewrite (hm_ref_ok Hg). cbn [bind]. rewrite Hf. cbn [bind].
    inversion ND as [|? ? Hni ND']; subst.
    destruct (IH (hm_put m p h') ND') as (m' & E & L & H).
    { intros; apply HB; right; auto. }
    { intros q Hq. rewrite hget_put. destruct (Nat.eqb_spec q p); [congruence|]. apply HF. right; auto. }
    exists m'. split; [exact E|]. split.
    + rewrite L. apply hm_put_length. eapply hget_lt; eauto.
    + intros i. destruct (H i) as (H1 & H2). rewrite hget_put in H1, H2. split.
      * intros [->|Hi].
        -- exists h, h'. splits; auto. rewrite H2 by exact Hni. rewrite Nat.eqb_refl. reflexivity.
        -- destruct (H1 Hi) as (h1 & h1' & X). destruct (Nat.eqb_spec i p); [congruence|]. eauto.
      * intros Hi. destruct (Nat.eqb_spec i p) as [Ei|]; [exfalso; apply Hi; left; auto|].
        apply H2. intros X; apply Hi; right; auto.
Qed.

Definition clr (h : hclu N) : hclu N := if h_conv h then h else h_with_cl h (clear (h_cl h)).

Lemma clear_all_ok M s : einv g ws data M s ->
  exists m, h_clear_all (x_act s) (x_hcl s) = Ok m /\ length m = M /\
    forall i, hget m i = option_map clr (hget (x_hcl s) i).
Proof.
  clear Hws Hdata. intros I. unfold h_clear_all.
  destruct (@for_keys (fun p h => Ok (clr h))
     (fun p m => let* a := aget (x_act s) p in let* _ := assert_ a in
        hcl_mod m p (fun h => Ok (if h_conv h then h else h_with_cl h (clear (h_cl h)))))
     (hm_keys (x_hcl s)) (x_hcl s) (keys_nodup _)) as (m & E & L & H).
  - intros p m' Hp. apply keys_in in Hp as (h & Hh). destruct (e_live I Hh) as (Hp & Ha & _).
    rewrite (aget_nth (x_act s) false) by (rewrite (e_act I); exact Hp). cbn [bind]. rewrite Ha. reflexivity.
  - intros p Hp. apply keys_in in Hp as (h & Hh). eauto.
  - exists m. split; [exact E|]. split; [rewrite L; apply (e_hcl I)|]. intros i. destruct (H i) as (H1 & H2).
    destruct (hget (x_hcl s) i) as [h|] eqn:Eh.
    + destruct H1 as (h1 & h1' & X & Y & Z); [apply keys_in; eauto|]. injection X as <-. injection Y as <-. exact Z.
    + apply H2. rewrite keys_in. intros (x & Hx). congruence.
Qed.

(** what the global containers hold after merging the workers [wd] *)
Definition mholds (s : hst N) (A : list nat) (wd : list (worker N)) (m : list (option (hclu N))) : Prop :=
  forall p, match hget (x_hcl s) p with
  | Some h => exists h1, hget m p = Some h1 /\ h_zero h1 = h_zero h /\ h_one h1 = h_one h /\ h_conv h1 = h_conv h /\
      (if h_conv h then h1 = h else shaped 2 d (h_cl h1) /\
         forall j, j < 2 -> cel (h_cl h1) j = (usum g data A (ch h j) wd, ucnt g data A (ch h j) wd, false))
  | None => hget m p = None
  end.

Lemma fold_nc : forall k o nch (v : list nat) p,
  nth p (fold_left (fun nch i => nc_add nch i (nth i v 0)) (seq o k) nch) 0
  = nth p nch 0 + (if (o <=? p) && (p <? o + k) then nth p v 0 else 0).
Proof.
  clear Hws Hdata. induction k as [|k IH]; intros o nch v p; cbn [seq fold_left].
  - destruct (Nat.leb_spec o p), (Nat.ltb_spec p (o + 0)); cbn [andb]; lia.
  - rewrite IH, nc_add_nth. destruct (Nat.eqb_spec p o), (Nat.leb_spec o p), (Nat.leb_spec (S o) p), (Nat.ltb_spec p (S o + k)), (Nat.ltb_spec p (o + S k));
      cbn [andb]; subst; lia.
Qed.

Definition wchanged (p : nat) (s : hst N) (A : list nat) (wd : list (worker N)) : nat :=
  list_sum (map (fun w => pchanged p s A (w_start w) (w_nrow w)) wd).

Lemma merge_ok M s A : einv g ws data M s -> forall wr locs wd m nch,
  length locs = length wr -> length m = M -> mholds s A wd m ->
  (forall p, nth p nch 0 = wchanged p s A wd) ->
  (forall t w l, nth_error wr t = Some w -> nth_error locs t = Some l ->
     length (fst l) = M /\ lholds g data s (w_start w) (slice A (w_start w) (w_nrow w)) (fst l) /\
     forall p, nth p (snd l) 0 = pchanged p s A (w_start w) (w_nrow w)) ->
  exists m' nch', for_each locs (fun (l : hlocal N) st =>
    let nch := fold_left (fun nch i => nc_add nch i (nth i (snd l) 0)) (seq 0 (length (snd l))) (snd st) in
    let* m := for_each (hm_keys (fst l)) (fun p m =>
      let* lc := hm_ref (fst l) p in
      hcl_mod m p (fun h => let* c := peq (h_cl h) lc in Ok (h_with_cl h c))) (fst st) in
    Ok (m, nch)) (m, nch) = Ok (m', nch') /\ length m' = M /\ mholds s A (wd ++ wr) m' /\
    (forall p, nth p nch' 0 = wchanged p s A (wd ++ wr)).
Proof.
  clear Hws Hdata. intros I. induction wr as [|w wr IH]; intros [|l locs] wd m nch L Lm Hm Hn Hl; simpl in L; try lia.
  - exists m, nch. rewrite app_nil_r. cbn [for_each]. auto.
  - cbn [for_each fst snd]. destruct (Hl 0 w l eq_refl eq_refl) as (Ll & Hh & Hp).
    set (B := fun p m => let* lc := hm_ref (fst l) p in
      hcl_mod m p (fun h => let* c := peq (h_cl h) lc in Ok (h_with_cl h c))).
    assert (Key : forall p, In p (hm_keys (fst l)) -> exists h lc, hget (x_hcl s) p = Some h /\ h_conv h = false /\
       hget (fst l) p = Some lc /\ shaped 2 d lc /\
       forall j, j < 2 -> cel lc j = (csum N d (ch h j) (xas g data (w_start w) (slice A (w_start w) (w_nrow w))),
           ccnt N (ch h j) (xas g data (w_start w) (slice A (w_start w) (w_nrow w))), false)).
    { intros p Hk. apply keys_in in Hk as (lc & Hlc). specialize (Hh p).
      destruct (hget (x_hcl s) p) as [h|]; [|congruence]. destruct (h_conv h) eqn:Ec; [congruence|].
      destruct Hh as (c & Hc & Hs & Hcel). exists h, c. splits; auto. }
    destruct (@for_keys (fun p h => match hget (fst l) p with Some lc => let* c := peq (h_cl h) lc in Ok (h_with_cl h c) | None => Err UB end)
       B (hm_keys (fst l)) m (keys_nodup _)) as (m1 & E1 & L1 & H1).
    { intros p m' Hk. destruct (Key p Hk) as (h & lc & _ & _ & Hlc & _). unfold B. rewrite (hm_ref_ok Hlc), Hlc. reflexivity. }
    { intros p Hk. destruct (Key p Hk) as (h & lc & Hh' & Hc & Hlc & Hs & Hcel). specialize (Hm p). rewrite Hh', Hc in Hm.
      destruct Hm as (h1 & Hg & _ & _ & _ & Hs1 & _). exists h1.
      destruct (@peq_ok N 2 d (h_cl h1) lc Hs1 Hs) as (c' & E & _).
      rewrite Hlc, E. cbn [bind]. eauto. }
    rewrite E1. cbn [bind].
    destruct (IH locs (wd ++ [w]) m1 (fold_left (fun nch i => nc_add nch i (nth i (snd l) 0)) (seq 0 (length (snd l))) nch)) as (m' & nch' & E & L' & Hm' & Hn').
    + lia.
    + lia.
    + intros p. destruct (H1 p) as (H1a & H1b). specialize (Hm p). pose proof (Hh p) as Hhp.
      destruct (hget (x_hcl s) p) as [h|] eqn:Eh.
      * destruct Hm as (h1 & Hg & Z0 & Z1 & Zc & Hrest). destruct (h_conv h) eqn:Ec.
        -- exists h1. splits; auto. rewrite H1b; [exact Hg|]. rewrite keys_in. intros (x & Hx). congruence.
        -- destruct Hhp as (lc & Hlc & Hs & Hcel). destruct Hrest as (Hs1 & Hc1).
           destruct H1a as (hh & hh' & X & Y & Z); [apply keys_in; eauto|].
           rewrite Hg in X. injection X as <-. rewrite Hlc in Y.
           destruct (@peq_ok N 2 d (h_cl h1) lc Hs1 Hs) as (c' & E & Hs' & Hc').
           rewrite E in Y. cbn [bind] in Y. injection Y as <-.
           exists (h_with_cl h1 c'). cbn [h_with_cl h_zero h_one h_conv h_cl]. splits; auto.
           intros j Hj. rewrite Hc' by exact Hj.
           pose proof (Hc1 j Hj) as Q. unfold cel in Q. injection Q as -> -> ->.
           pose proof (Hcel j Hj) as Q. unfold cel in Q. injection Q as -> -> _.
           unfold usum, ucnt. rewrite !fold_left_app. reflexivity.
      * rewrite H1b; [exact Hm|]. rewrite keys_in. intros (x & Hx). congruence.
    + intros p. rewrite fold_nc, Hn. unfold wchanged. rewrite map_app, list_sum_app'. cbn [map list_sum fold_right].
      rewrite <- Hp. cbn [plus Nat.leb andb].
      destruct (Nat.ltb_spec p (length (snd l))); [lia|]. rewrite (nth_overflow (snd l)) by lia. lia.
    + intros t w' l' Ew El. exact (Hl (S t) w' l' Ew El).
    + exists m', nch'. split; [exact E|]. rewrite <- app_assoc in Hm', Hn'. auto.
Qed.

Lemma wchanged_total p s A : wchanged p s A ws = pchanged p s A 0 n.
Proof.
  clear Hdata. unfold wchanged. assert (G : forall (l : list (worker N)) lo hi, ntiles lo hi (w_ranges l) ->
    list_sum (map (fun w => pchanged p s A (w_start w) (w_nrow w)) l) = pchanged p s A lo (hi - lo)).
  { induction l as [|w l IH]; intros lo hi H; cbn [w_ranges map ntiles list_sum fold_right] in *.
    - subst. rewrite Nat.sub_diag. reflexivity.
    - destruct H as (E & H). pose proof (@ntiles_le _ _ _ H) as HH.
      change (fold_right Nat.add 0 ?x) with (list_sum x). rewrite (IH _ _ H), E. unfold pchanged.
      replace (hi - lo) with (w_nrow w + (hi - (lo + w_nrow w))) by lia.
      rewrite seq_app, filter_app, app_length. reflexivity. }
  rewrite (G ws 0 n (proj1 Hws)), Nat.sub_0_r. reflexivity.
Qed.

(** convergence test of the update *)
Definition h_stop (nch : nat) (n0 n1 : Z) : bool :=
  (nch =? 0) || nleb N (ndiv N (nofZ N (Z.of_nat nch)) (nofZ N (n0 + n1)%Z)) (g_tol g).

Lemma settle_ok M nch : forall l (m : list (option (hclu N))) counts,
  NoDup l -> length counts = M -> length m = M ->
  (forall p, In p l -> exists h, hget m p = Some h /\ p < M /\ shaped 2 d (h_cl h) /\
     forall j, j < 2 -> ch h j < M) ->
  (forall p h p' h' j j', In p l -> In p' l -> hget m p = Some h -> hget m p' = Some h' ->
     j < 2 -> j' < 2 -> ch h j = ch h' j' -> p = p' /\ j = j') ->
  (forall p p' h' j', In p l -> In p' l -> hget m p' = Some h' -> j' < 2 -> ch h' j' <> p) ->
  exists m' counts',
    for_each l (fun p st =>
    let* h := hm_ref (fst st) p in
    let* n0 := aget (c_members (h_cl h)) 0 in
    let* n1 := aget (c_members (h_cl h)) 1 in
    let* counts := aset (snd st) p 0%Z in
    let* counts := aset counts (h_zero h) n0 in
    let* counts := aset counts (h_one h) n1 in
    if h_conv h then Ok (fst st, counts) else
    let* c := finalize (h_cl h) 0 in
    let* c := finalize c 1 in
    let n := nth p nch 0 in
    let conv := (n =? 0) ||
      nleb N (ndiv N (nofZ N (Z.of_nat n)) (nofZ N (n0 + n1)%Z)) (g_tol g) in
    Ok (hm_put (fst st) p (mkH c (h_zero h) (h_one h) conv), counts)) (m, counts) = Ok (m', counts') /\
    length m' = M /\ length counts' = M /\
    (forall i, ~ In i l -> hget m' i = hget m i) /\
    (forall p, In p l -> exists h h', hget m p = Some h /\ hget m' p = Some h' /\
       h_zero h' = h_zero h /\ h_one h' = h_one h /\ shaped 2 d (h_cl h') /\
       h_conv h' = (h_conv h || h_stop (nth p nch 0) (cnum (h_cl h) 0) (cnum (h_cl h) 1)) /\
       (forall j, j < 2 -> cel (h_cl h') j = if h_conv h then cel (h_cl h) j else fin1 N (cel (h_cl h) j)) /\
       nth p counts' 0%Z = 0%Z /\ (forall j, j < 2 -> nth (ch h j) counts' 0%Z = cnum (h_cl h) j)) /\
    (forall i, ~ In i l -> (forall p h j, In p l -> hget m p = Some h -> j < 2 -> ch h j <> i) ->
       nth i counts' 0%Z = nth i counts 0%Z).
Proof.
  clear Hws Hdata. induction l as [|p l IH]; intros m counts ND Lc Lm Hv Hi Hd.
  - exists m, counts. cbn [for_each]. splits; auto. intros p [].
  - inversion ND as [|? ? Hni ND']; subst.
    destruct (Hv p (or_introl eq_refl)) as (h & Hg & Hp & Hs & Hc).
    pose proof (Hc 0 ltac:(lia)) as Hc0. pose proof (Hc 1 ltac:(lia)) as Hc1. cbn [ch Nat.eqb] in Hc0, Hc1.
    cbn [for_each fst snd]. rewrite (hm_ref_ok Hg). cbn [bind].
    pose proof Hs as (Hk2 & Hd2 & Hwf & Hmem & Hcomp).
    rewrite (aget_nth (c_members (h_cl h)) (i := 0) 0%Z) by lia. cbn [bind].
    rewrite (aget_nth (c_members (h_cl h)) (i := 1) 0%Z) by lia. cbn [bind].
    fold (cnum (h_cl h) 0) (cnum (h_cl h) 1).
    set (n0 := cnum (h_cl h) 0). set (n1 := cnum (h_cl h) 1).
    rewrite aset_ok by lia. cbn [bind]. rewrite aset_ok by (rewrite upd_length; lia). cbn [bind].
    rewrite aset_ok by (rewrite !upd_length; lia). cbn [bind].
    set (cs := upd (upd (upd counts p 0%Z) (h_zero h) n0) (h_one h) n1).
    assert (Lcs : length cs = length counts) by (unfold cs; rewrite !upd_length; reflexivity).
    assert (Hne01 : h_zero h <> h_one h).
    { intros E. destruct (Hi p h p h 0 1 (or_introl eq_refl) (or_introl eq_refl) Hg Hg ltac:(lia) ltac:(lia) E) as (_ & X). lia. }
    assert (Hp0 : h_zero h <> p) by (apply (Hd p p h 0 (or_introl eq_refl) (or_introl eq_refl) Hg ltac:(lia))).
    assert (Hp1 : h_one h <> p) by (apply (Hd p p h 1 (or_introl eq_refl) (or_introl eq_refl) Hg ltac:(lia))).
    assert (Hcs : forall i, nth i cs 0%Z = if i =? h_one h then n1 else if i =? h_zero h then n0 else if i =? p then 0%Z else nth i counts 0%Z).
    { intros i. unfold cs. rewrite nth_upd by (rewrite !upd_length; lia). destruct (i =? h_one h); auto.
      rewrite nth_upd by (rewrite !upd_length; lia). destruct (i =? h_zero h); auto. rewrite nth_upd by lia. reflexivity. }
    assert (Hch : forall j, j < 2 -> nth (ch h j) cs 0%Z = cnum (h_cl h) j).
    { intros j Hj. rewrite Hcs. destruct j as [|[|]]; cbn [ch Nat.eqb]; [| |lia].
      - destruct (Nat.eqb_spec (h_zero h) (h_one h)); [congruence|]. rewrite Nat.eqb_refl. reflexivity.
      - rewrite Nat.eqb_refl. reflexivity. }
    assert (Hpc : nth p cs 0%Z = 0%Z).
    { rewrite Hcs. destruct (Nat.eqb_spec p (h_one h)); [congruence|]. destruct (Nat.eqb_spec p (h_zero h)); [congruence|].
      rewrite Nat.eqb_refl. reflexivity. }
    (* the container after this turn *)
    assert (K : exists h', (if h_conv h then Ok (m, cs) else
        let* c := finalize (h_cl h) 0 in let* c := finalize c 1 in
        Ok (hm_put m p (mkH c (h_zero h) (h_one h) ((nth p nch 0 =? 0) ||
          nleb N (ndiv N (nofZ N (Z.of_nat (nth p nch 0))) (nofZ N (n0 + n1)%Z)) (g_tol g))), cs))
        = Ok (if h_conv h then m else hm_put m p h', cs) /\ (h_conv h = true -> h' = h) /\
        h_zero h' = h_zero h /\ h_one h' = h_one h /\ shaped 2 d (h_cl h') /\
        h_conv h' = (h_conv h || h_stop (nth p nch 0) n0 n1) /\
        (forall j, j < 2 -> cel (h_cl h') j = if h_conv h then cel (h_cl h) j else fin1 N (cel (h_cl h) j))).
    { destruct (h_conv h) eqn:Ec.
      - exists h. splits; auto.
      - destruct (@finalize_ok N 2 d (h_cl h) 0 Hs ltac:(lia)) as (c1 & E1 & S1 & C1).
        destruct (@finalize_ok N 2 d c1 1 S1 ltac:(lia)) as (c2 & E2 & S2 & C2).
        rewrite E1. cbn [bind]. rewrite E2. cbn [bind]. eexists. split; [reflexivity|].
        cbn [h_zero h_one h_conv h_cl orb]. splits; auto; try discriminate.
        intros j Hj. rewrite C2, C1 by exact Hj. destruct j as [|[|]]; cbn [Nat.eqb]; auto; lia. }
    destruct K as (h' & EK & Hsame & Z0 & Z1 & Hsh & Hcv & Hcel). cbv zeta. rewrite EK. cbn [bind].
    set (m1 := if h_conv h then m else hm_put m p h').
    assert (Hm1 : forall i, hget m1 i = if i =? p then Some h' else hget m i).
    { intros i. unfold m1. destruct (h_conv h).
      - destruct (Nat.eqb_spec i p) as [->|]; auto. rewrite Hg, Hsame by auto. reflexivity.
      - apply hget_put. }
    assert (Lm1 : length m1 = length m).
    { unfold m1. destruct (h_conv h); auto. apply hm_put_length. eapply hget_lt; eauto. }
    assert (Hrest : forall q, In q l -> hget m1 q = hget m q).
    { intros q Hq. rewrite Hm1. destruct (Nat.eqb_spec q p); [congruence|reflexivity]. }
    destruct (IH m1 cs ND' ltac:(congruence) ltac:(congruence)) as (m' & counts' & E & L1 & L2 & Hout & Hin & Hcnt).
    + intros q Hq. rewrite Hrest by exact Hq. apply Hv. right; auto.
    + intros q hq q' hq' j j' Hq Hq'. rewrite !Hrest by assumption. apply Hi; right; auto.
    + intros q q' hq' j' Hq Hq'. rewrite Hrest by assumption. apply Hd; right; auto.
    + exists m', counts'. split; [exact E|]. splits; auto.
      * intros i Hi'. rewrite Hout by (intros X; apply Hi'; right; auto). rewrite Hm1.
        destruct (Nat.eqb_spec i p) as [->|]; [exfalso; apply Hi'; left; auto|reflexivity].
      * intros q [<-|Hq].
        -- exists h, h'. rewrite Hout by exact Hni. rewrite Hm1, Nat.eqb_refl. splits; auto.
           ++ rewrite Hcnt; auto. intros q hq j Hq Hgq Hj. rewrite Hrest in Hgq by exact Hq.
              apply (Hd p q hq j (or_introl eq_refl) (or_intror Hq) Hgq Hj).
           ++ intros j Hj. rewrite Hcnt; auto.
              ** intros Hx. apply (Hd (ch h j) p h j (or_intror Hx) (or_introl eq_refl) Hg Hj). reflexivity.
              ** intros q hq j' Hq Hgq Hj' Ex. rewrite Hrest in Hgq by exact Hq.
                 destruct (Hi q hq p h j' j (or_intror Hq) (or_introl eq_refl) Hgq Hg Hj' Hj Ex) as (-> & _). contradiction.
        -- destruct (Hin q Hq) as (hq & hq' & X). rewrite Hrest in X by exact Hq. eauto.
      * intros i Hi1 Hi2. rewrite Hcnt.
        -- rewrite Hcs. pose proof (Hi2 p h 0 (or_introl eq_refl) Hg ltac:(lia)) as X0.
           pose proof (Hi2 p h 1 (or_introl eq_refl) Hg ltac:(lia)) as X1. cbn [ch Nat.eqb] in X0, X1.
           destruct (Nat.eqb_spec i (h_one h)); [congruence|]. destruct (Nat.eqb_spec i (h_zero h)); [congruence|].
           destruct (Nat.eqb_spec i p) as [->|]; [exfalso; apply Hi1; left; auto|reflexivity].
        -- intros X; apply Hi1; right; auto.
        -- intros q hq j Hq Hgq Hj. rewrite Hrest in Hgq by exact Hq. apply (Hi2 q hq j); auto. right; auto.
Qed.
End Upd.
