(** One whole iteration of hierarchical clustering. *)
From Verif Require Import Base Num DistModel ClustersModel ClustersView ClustersProofs MatLemmas
  PartitionModel ParModel KmeansModel ParProofs NearProofs KmeansProofs UpdateProofs Spec.
From Verif Require Import ContainersModel HclustModel HclustProofs HclustUpdate.
Set Implicit Arguments.
Unset Strict Implicit.

Section Iter.
Variable N : Num.
Notation T := (car N).
Notation clusters := (clusters N).
Variables (g : hcfg N) (ws : list (worker N)) (data : list T).
Let d := g_ncol g.
Let n := g_nrow g.
Hypothesis Hws : wok n d data ws.
Hypothesis Hdata : length data = n * d.

(** every row of a partition being split has one of its two child ids *)
Definition settled (s : hst N) : Prop := forall r h, r < n ->
  hget (x_hcl s) (nth r (x_part s) 0) = Some h -> exists j, j < 2 /\ nth r (x_asg s) 0 = ch h j.

(** ids that are neither partitions nor children of unconverged partitions keep
    their rows *)
Lemma dest_other M s A i : einv g ws data M s -> (forall r, r < n -> dest g data s r = Some (nth r A 0)) ->
  hget (x_hcl s) i = None ->
  (forall p h j, hget (x_hcl s) p = Some h -> h_conv h = false -> j < 2 -> ch h j <> i) ->
  forall r, r < n -> (nth r A 0 =? i) = (nth r (x_asg s) 0 =? i).
Proof.
  intros I HA Hnl Hnc r Hr. specialize (HA r Hr). unfold dest in HA.
  destruct (nth (nth r (x_asg s) 0) (x_act s) false) eqn:Ea; [|congruence].
  destruct (hget (x_hcl s) (nth r (x_part s) 0)) as [h|] eqn:Eh; [|discriminate].
  destruct (h_conv h) eqn:Ec; [congruence|].
  destruct (near2 g data h r) as [f|] eqn:En; [|discriminate]. cbn [option_map] in HA. injection HA as HA.
  apply near2_lt in En. rewrite <- HA.
  destruct (Nat.eqb_spec (ch h f) i) as [E|_]; [exfalso; apply (Hnc _ _ _ Eh Ec En E)|].
  destruct (e_rows I Hr) as (_ & Hrow). rewrite Eh in Hrow.
  destruct (Nat.eqb_spec (nth r (x_asg s) 0) i) as [E|]; auto. exfalso.
  destruct Hrow as [(X & _)|(j & Hj & X)].
  - rewrite X in E. rewrite E in Eh. congruence.
  - rewrite X in E. apply (Hnc _ _ _ Eh Ec Hj E).
Qed.

Lemma dest_live M s A : einv g ws data M s -> (forall r, r < n -> dest g data s r = Some (nth r A 0)) ->
  forall r h, r < n -> hget (x_hcl s) (nth r (x_part s) 0) = Some h -> exists j, j < 2 /\ nth r A 0 = ch h j.
Proof.
  intros I HA r h Hr Eh. specialize (HA r Hr). unfold dest in HA.
  destruct (e_rows I Hr) as (_ & Hrow). rewrite Eh in Hrow, HA.
  destruct (nth (nth r (x_asg s) 0) (x_act s) false) eqn:Ea.
  - destruct (h_conv h) eqn:Ec.
    + injection HA as HA. rewrite <- HA. destruct Hrow as [(_ & X)|X]; [congruence|exact X].
    + destruct (near2 g data h r) as [f|] eqn:En; [|discriminate]. cbn [option_map] in HA. injection HA as HA.
      apply near2_lt in En. exists f. auto.
  - exfalso. destruct (e_live I Eh) as (_ & Hap & _ & Hk). destruct Hrow as [(X & _)|(j & Hj & X)].
    + rewrite X in Ea. congruence.
    + destruct (Hk j Hj) as (_ & Y & _). rewrite X in Ea. congruence.
Qed.

Lemma dest_leaf M s A : einv g ws data M s -> (forall r, r < n -> dest g data s r = Some (nth r A 0)) ->
  forall r, r < n -> hget (x_hcl s) (nth r (x_part s) 0) = None -> nth r A 0 = nth r (x_asg s) 0.
Proof.
  intros I HA r Hr Eh. specialize (HA r Hr). unfold dest in HA. rewrite Eh in HA.
  destruct (nth (nth r (x_asg s) 0) (x_act s) false); congruence.
Qed.

Lemma h_iter_ok M s sched : einv g ws data M s -> complete (w_ranges ws) sched ->
  match h_iter g ws sched s with
  | Ok s' => einv g ws data M s' /\ settled s' /\
      (forall r, r < n -> dest g data s r = Some (nth r (x_asg s') 0)) /\
      x_part s' = x_part s /\ x_act s' = x_act s /\ x_ider s' = x_ider s /\ x_curr s' = x_curr s /\
      x_final s' = x_final s /\
      (forall p, match hget (x_hcl s) p with
         | Some h => exists h', hget (x_hcl s') p = Some h' /\ h_zero h' = h_zero h /\ h_one h' = h_one h /\
             h_conv h' = (h_conv h || h_stop g (pchanged p s (x_asg s') 0 n)
                (Z.of_nat (count_eq (h_zero h) (x_asg s'))) (Z.of_nat (count_eq (h_one h) (x_asg s')))) /\
             forall j, j < 2 -> cel (h_cl h') j = ucel g ws data (x_asg s') (ch h j)
         | None => hget (x_hcl s') p = None
         end) /\
      (forall i, i < M -> nth i (x_counts s') 0%Z = Z.of_nat (count_eq i (x_asg s')))
  | Err e => e = Abort /\ exists r, r < n /\ dest g data s r = None
  end.
Proof.
  intros I Hc. unfold h_iter. pose proof (H_EM_round_ok Hws Hdata I Hc) as H.
  destruct (H_EM_round g ws sched s) as [[locs A]|e]; [|exact H]. cbn [bind fst snd].
  destruct H as (LA & HA & Ll & Hl).
  assert (HA' : forall r, r < n -> dest g data s r = Some (nth r A 0)) by (intros r Hr; apply HA; exact Hr).
  unfold h_update. cbn [x_act x_hcl x_counts with_asg].
  destruct (clear_all_ok I) as (m0 & E0 & L0 & H0). rewrite E0. cbn [bind].
  destruct (@merge_ok N g ws data M s A I ws locs [] m0 [] Ll L0) as (m1 & nch & E1 & L1 & H1 & Hn1).
  { intros p. rewrite H0. destruct (hget (x_hcl s) p) as [h|] eqn:Eh; cbn [option_map]; [|reflexivity].
    exists (clr h). unfold clr. destruct (h_conv h) eqn:Ec; cbn [h_with_cl h_zero h_one h_conv h_cl]; splits; auto.
    - destruct (e_live I Eh) as (_ & _ & Hs & _). fold d. rewrite (@clear_create N 2 d _ Hs). apply shaped_create.
    - intros j Hj. destruct (e_live I Eh) as (_ & _ & Hs & _). fold d in Hs. rewrite (@clear_create N 2 d _ Hs).
      rewrite cel_create by exact Hj. reflexivity. }
  { intros p. destruct p; reflexivity. }
  { intros t w l Ew El. apply (Hl t w l Ew El). }
  cbn [app] in H1, Hn1. assert (E1' : h_merge locs m0 = Ok (m1, nch)) by exact E1. rewrite E1'. cbn [bind fst snd].
  (* the keys of the merged map are those of the old one *)
  assert (K1 : forall p, In p (hm_keys m1) <-> exists h, hget (x_hcl s) p = Some h).
  { intros p. rewrite keys_in. specialize (H1 p). destruct (hget (x_hcl s) p) as [h|].
    - destruct H1 as (h1 & X & _). split; eauto.
    - split; intros (x & Hx); congruence. }
  assert (Keq : forall p h1, hget m1 p = Some h1 -> exists h, hget (x_hcl s) p = Some h /\ h_zero h1 = h_zero h /\ h_one h1 = h_one h /\
      h_conv h1 = h_conv h /\ (forall j, ch h1 j = ch h j) /\ shaped 2 d (h_cl h1) /\
      (forall j, j < 2 -> (if h_conv h then cel (h_cl h1) j else fin1 N (cel (h_cl h1) j)) = ucel g ws data A (ch h j)) /\
      (forall j, j < 2 -> cnum (h_cl h1) j = Z.of_nat (count_eq (ch h j) A))).
  { intros p h1 Hg. specialize (H1 p). destruct (hget (x_hcl s) p) as [h|] eqn:Eh; [|congruence].
    destruct H1 as (h1' & X & Z0 & Z1 & Zc & Hrest). rewrite Hg in X. injection X as <-. exists h. splits; auto.
    - intros j. unfold ch. rewrite Z0, Z1. reflexivity.
    - destruct (h_conv h); [subst h1; apply (e_live I Eh)|apply Hrest].
    - intros j Hj. destruct (h_conv h) eqn:Ec.
      + subst h1. rewrite (e_conv I Eh Ec Hj). apply ucel_ext; auto; [apply (e_asg I)|].
        intros r Hr. symmetry. apply (dest_other I HA'); auto.
        * destruct (e_live I Eh) as (_ & _ & _ & Hk). apply (Hk j Hj).
        * intros p' h' j' Eh' Ec' Hj' Ex. destruct (e_inj I Eh' Eh Hj' Hj Ex) as (-> & _). congruence.
      + destruct Hrest as (_ & Hcel). rewrite Hcel by exact Hj. unfold ucel.
        rewrite (@ucnt_total N g ws data Hws) by exact LA. reflexivity.
    - intros j Hj. destruct (h_conv h) eqn:Ec.
      + subst h1. pose proof (e_conv I Eh Ec Hj) as Q. unfold ucel, fin1, cel in Q. injection Q as _ Q _. rewrite Q.
        f_equal. apply count_eq_ext; [rewrite LA; apply (e_asg I)|]. rewrite (e_asg I).
        intros r Hr. symmetry. apply (dest_other I HA'); auto.
        * destruct (e_live I Eh) as (_ & _ & _ & Hk). apply (Hk j Hj).
        * intros p' h' j' Eh' Ec' Hj' Ex. destruct (e_inj I Eh' Eh Hj' Hj Ex) as (-> & _). congruence.
      + destruct Hrest as (_ & Hcel). pose proof (Hcel j Hj) as Q. unfold cel in Q. injection Q as _ Q _. rewrite Q.
        apply (@ucnt_total N g ws data Hws). exact LA. }
  destruct (@settle_ok N g M nch (hm_keys m1) m1 (x_counts s) (keys_nodup _) (e_counts I) L1)
    as (m2 & cs & E2 & L2 & Lcs & Hout & Hin & Hcnt).
  { intros p Hp. apply keys_in in Hp as (h1 & Hh1). exists h1. destruct (Keq p h1 Hh1) as (h & Eh & _ & _ & _ & Hch & Hs & _).
    destruct (e_live I Eh) as (Hp & _ & _ & Hk). splits; auto. intros j Hj. rewrite Hch. apply (Hk j Hj). }
  { intros p h1 p' h1' j j' _ _ Hg Hg' Hj Hj'. destruct (Keq p h1 Hg) as (h & Eh & _ & _ & _ & Hch & _).
    destruct (Keq p' h1' Hg') as (h' & Eh' & _ & _ & _ & Hch' & _). rewrite Hch, Hch'. apply (e_inj I Eh Eh' Hj Hj'). }
  { intros p p' h1' j' Hp Hp' Hg' Hj' Ex. destruct (Keq p' h1' Hg') as (h' & Eh' & _ & _ & _ & Hch' & _).
    rewrite Hch' in Ex. destruct (e_live I Eh') as (_ & _ & _ & Hk). destruct (Hk j' Hj') as (_ & _ & X).
    apply K1 in Hp as (h & Eh). rewrite Ex in X. congruence. }
  assert (E2' : h_settle g nch m1 (x_counts s) = Ok (m2, cs)) by exact E2. rewrite E2'. cbn [bind fst snd with_counts with_hcl with_asg x_asg x_part x_act x_hcl x_counts x_ider x_curr x_final].
  set (s' := mkHs A (x_part s) (x_act s) m2 cs (x_ider s) (x_curr s) (x_final s)).
  change (with_counts (with_hcl (with_asg s A) m2) cs) with s'.
  (* the new map *)
  assert (New : forall p, match hget (x_hcl s) p with
         | Some h => exists h', hget m2 p = Some h' /\ h_zero h' = h_zero h /\ h_one h' = h_one h /\
             (forall j, ch h' j = ch h j) /\ shaped 2 d (h_cl h') /\
             h_conv h' = (h_conv h || h_stop g (pchanged p s A 0 n)
                (Z.of_nat (count_eq (h_zero h) A)) (Z.of_nat (count_eq (h_one h) A))) /\
             (forall j, j < 2 -> cel (h_cl h') j = ucel g ws data A (ch h j)) /\
             nth p cs 0%Z = 0%Z /\ (forall j, j < 2 -> nth (ch h j) cs 0%Z = Z.of_nat (count_eq (ch h j) A))
         | None => hget m2 p = None
         end).
  { intros p. destruct (hget (x_hcl s) p) as [h|] eqn:Eh.
    - assert (Hp : In p (hm_keys m1)) by (apply K1; eauto).
      destruct (Hin p Hp) as (h1 & h2 & G1 & G2 & Z0 & Z1 & Hs2 & Hcv & Hcel & Hz & Hkid).
      destruct (Keq p h1 G1) as (h0 & Eh0 & Y0 & Y1 & Yc & Hch & _ & Hu & Hn). rewrite Eh in Eh0. injection Eh0 as <-.
      exists h2. splits; auto; try congruence.
      + intros j. unfold ch. rewrite Z0, Z1, Y0, Y1. reflexivity.
      + rewrite Hcv, Yc, Hn1, (wchanged_total Hws). rewrite !Hn by lia. reflexivity.
      + intros j Hj. rewrite Hcel, Yc by exact Hj. apply Hu. exact Hj.
      + intros j Hj. rewrite <- Hch, Hkid by exact Hj. rewrite Hch. apply Hn. exact Hj.
    - rewrite Hout by (rewrite K1; intros (x & Hx); congruence). specialize (H1 p). rewrite Eh in H1. exact H1. }
  assert (Back : forall p h', hget m2 p = Some h' -> exists h, hget (x_hcl s) p = Some h).
  { intros p h' Hg. specialize (New p). destruct (hget (x_hcl s) p); [eauto|congruence]. }
  assert (LiveZero : forall i h, hget (x_hcl s) i = Some h -> count_eq i A = 0).
  { intros i h Eh. apply count_eq_zero. rewrite LA. intros r Hr Ex.
    destruct (hget (x_hcl s) (nth r (x_part s) 0)) as [h'|] eqn:Eh'.
    - destruct (dest_live I HA' Hr Eh') as (j & Hj & Ey). destruct (e_live I Eh') as (_ & _ & _ & Hk).
      destruct (Hk j Hj) as (_ & _ & X). congruence.
    - destruct (e_rows I Hr) as (_ & Hrow). rewrite Eh' in Hrow. rewrite (dest_leaf I HA' Hr Eh') in Ex.
      destruct Hrow as (Ey & _). rewrite <- Ey, Ex in Eh'. congruence. }
  assert (Counts : forall i, i < M -> nth i cs 0%Z = Z.of_nat (count_eq i A)).
  { intros i Hi. specialize (New i). destruct (hget (x_hcl s) i) as [h|] eqn:Eh.
    - destruct New as (h' & _ & _ & _ & _ & _ & _ & _ & Hz & _). rewrite Hz, (LiveZero _ _ Eh). reflexivity.
    - (* a child of some partition? *)
      destruct (Exists_dec (fun p => exists h j, hget (x_hcl s) p = Some h /\ j < 2 /\ ch h j = i) (hm_keys (x_hcl s))) as [Y|Y].
      { intros p. destruct (hget (x_hcl s) p) as [h|]; [|right; intros (h & j & X & _); discriminate].
        destruct (Nat.eq_dec (h_zero h) i); [left; exists h, 0; auto|].
        destruct (Nat.eq_dec (h_one h) i); [left; exists h, 1; auto|].
        right. intros (h' & j & X & Hj & Ex). injection X as <-. destruct j as [|[|]]; cbn [ch Nat.eqb] in Ex; [congruence|congruence|lia]. }
      + apply Exists_exists in Y as (p & _ & h & j & Ep & Hj & <-).
        assert (Np := Hin p (proj2 (K1 p) (ex_intro _ h Ep))).
        destruct Np as (h1 & h2 & G1 & _ & _ & _ & _ & _ & _ & _ & Hkid).
        destruct (Keq p h1 G1) as (h0 & Eh0 & _ & _ & _ & Hch & _ & _ & Hn). rewrite Ep in Eh0. injection Eh0 as <-.
        rewrite <- Hch, Hkid by exact Hj. rewrite Hch. apply Hn. exact Hj.
      + assert (Nk : forall p h j, hget (x_hcl s) p = Some h -> j < 2 -> ch h j <> i).
        { intros p h j Ep Hj Ex. apply Y. apply Exists_exists. exists p. split; [apply keys_in; eauto|]. exists h, j. auto. }
        rewrite Hcnt.
        * rewrite (e_cnt I Hi Eh). f_equal. symmetry. apply count_eq_ext; [rewrite LA; symmetry; apply (e_asg I)|].
          rewrite LA. apply (dest_other I HA' Eh). intros p h j Ep _ Hj. apply (Nk p h j Ep Hj).
        * rewrite K1. intros (x & Hx). congruence.
        * intros p h1 j Hp Hg Hj. destruct (Keq p h1 Hg) as (h & Ep & _ & _ & _ & Hch & _). rewrite Hch. apply (Nk p h j Ep Hj). }
  assert (Settled : settled s').
  { intros r h Hr Eh. cbn [s' x_hcl x_part x_asg] in *. destruct (Back _ _ Eh) as (h0 & Eh0).
    destruct (dest_live I HA' Hr Eh0) as (j & Hj & Ex). exists j. split; [exact Hj|]. rewrite Ex.
    pose proof (New (nth r (x_part s) 0)) as Nw. rewrite Eh0 in Nw. destruct Nw as (h' & G & _ & _ & Hch & _).
    rewrite Eh in G. injection G as <-. symmetry. apply Hch. }
  split; [|splits; auto].
  - constructor; cbn [s' x_asg x_part x_act x_hcl x_counts]; auto.
    + apply (e_part I).
    + apply (e_act I).
    + intros p h' Hg. destruct (Back _ _ Hg) as (h & Eh). pose proof (New p) as Nw. rewrite Eh in Nw.
      destruct Nw as (h2 & G & _ & _ & Hch & Hs & _). rewrite Hg in G. injection G as <-.
      destruct (e_live I Eh) as (Hp & Ha & _ & Hk). splits; auto. intros j Hj. rewrite Hch.
      destruct (Hk j Hj) as (X & Y & Z). splits; auto. pose proof (New (ch h j)) as Nw. rewrite Z in Nw. exact Nw.
    + intros p h1 p' h1' j j' Hg Hg' Hj Hj'. destruct (Back _ _ Hg) as (h & Eh). destruct (Back _ _ Hg') as (h' & Eh').
      pose proof (New p) as Nw. rewrite Eh in Nw. destruct Nw as (h2 & G & _ & _ & Hch & _). rewrite Hg in G. injection G as <-.
      pose proof (New p') as Nw. rewrite Eh' in Nw. destruct Nw as (h2' & G & _ & _ & Hch' & _). rewrite Hg' in G. injection G as <-.
      rewrite Hch, Hch'. apply (e_inj I Eh Eh' Hj Hj').
    + intros r Hr. split; [apply HA; exact Hr|].
      destruct (hget m2 (nth r (x_part s) 0)) as [h'|] eqn:Eh'.
      * right. apply (Settled r h' Hr Eh').
      * assert (Eh : hget (x_hcl s) (nth r (x_part s) 0) = None).
        { pose proof (New (nth r (x_part s) 0)) as Nw. destruct (hget (x_hcl s) (nth r (x_part s) 0)); auto.
          destruct Nw as (h2 & G & _). congruence. }
        destruct (e_rows I Hr) as (_ & Hrow). rewrite Eh in Hrow. rewrite (dest_leaf I HA' Hr Eh). exact Hrow.
    + intros p h' Hg _ j Hj. destruct (Back _ _ Hg) as (h & Eh). pose proof (New p) as Nw. rewrite Eh in Nw.
      destruct Nw as (h2 & G & _ & _ & Hch & _ & _ & Hu & _). rewrite Hg in G. injection G as <-. rewrite Hch. apply Hu. exact Hj.
  - intros p. specialize (New p). cbn [s' x_hcl x_asg]. destruct (hget (x_hcl s) p) as [h|]; [|exact New].
    destruct New as (h' & G & Z0 & Z1 & _ & _ & Hcv & Hu & _). exists h'. splits; auto.
Qed.
End Iter.
