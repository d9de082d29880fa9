(** X-means: what deciding on the splits does. *)
From Coq Require Import Permutation.
From Verif Require Import Base Num DistModel DistProofs ClustersModel ClustersView ClustersProofs MatLemmas
  PartitionModel ParModel KmeansModel ParProofs NearProofs KmeansProofs UpdateProofs RunProofs InitProofs Spec ParRule ParSim.
From Verif Require Import ContainersModel PropertiesIds HclustModel HclustProofs HclustUpdate HclustIter HclustSplit HclustRun
  XmeansModel XmeansProofs.
Set Implicit Arguments.
Unset Strict Implicit.

Lemma in_memb asg id i : In i (memb asg id) <-> i < length asg /\ nth i asg 0 = id.
Proof. unfold memb. rewrite filter_In, in_seq, Nat.eqb_eq. cbn. lia. Qed.

Lemma relabel_ok p : forall idx (a : list nat), (forall i, In i idx -> i < length a) ->
  exists a', for_each idx (fun i a => aset a i p) a = Ok a' /\ length a' = length a /\
    forall r, nth r a' 0 = if in_dec Nat.eq_dec r idx then p else nth r a 0.
Proof.
  induction idx as [|i idx IH]; intros a H.
  - exists a. splits; auto.
  - cbn [for_each]. rewrite aset_ok by (apply H; left; reflexivity). cbn [bind].
    destruct (IH (upd a i p)) as (a' & E & L & Hn).
    { intros j Hj. rewrite upd_length. apply H. right. exact Hj. }
    exists a'. rewrite upd_length in L. splits; auto. intros r. rewrite Hn, nth_upd by (apply H; left; reflexivity).
    destruct (in_dec Nat.eq_dec r idx) as [X|X], (in_dec Nat.eq_dec r (i :: idx)) as [Y|Y]; auto.
    + destruct Y. right. exact X.
    + destruct (Nat.eqb_spec r i); auto. destruct Y as [Y|Y]; [congruence|tauto].
    + destruct (Nat.eqb_spec r i); auto. destruct Y. left. auto.
Qed.

Section Decide.
Variable N : Num.
Notation T := (car N).
Notation clusters := (clusters N).
Variables (g : hcfg N) (ws : list (worker N)) (data : list T).
Let d := g_ncol g.
Let n := g_nrow g.

(** the effect of one rejection *)
Lemma reject_eff (cl : clusters) asg0 (sc : score N) (s : hst N) K :
  c_nclust cl = K -> sc_pid sc < K ->
  (forall i, In i [sc_pid sc; sc_lid sc; sc_rid sc] -> i < length (x_counts s) /\ i < length (x_act s)) ->
  length asg0 = length (x_asg s) -> sc_lid sc <> sc_rid sc ->
  sc_pid sc <> sc_lid sc -> sc_pid sc <> sc_rid sc ->
  exists asg', reject g cl asg0 sc s = Ok (mkHs asg' (x_part s)
      (upd (upd (upd (x_act s) (sc_lid sc) false) (sc_rid sc) false) (sc_pid sc) false) (x_hcl s)
      (upd (upd (upd (x_counts s) (sc_pid sc) (nth (sc_lid sc) (x_counts s) 0 + nth (sc_rid sc) (x_counts s) 0)%Z) (sc_rid sc) 0%Z) (sc_lid sc) 0%Z)
      (id_reclaim (id_reclaim (x_ider s) (Z.of_nat (sc_lid sc))) (Z.of_nat (sc_rid sc))) (x_curr s)
      (fc_set (x_final s) (sc_pid sc) (slice (c_means cl) (sc_pid sc * d) d))) /\ length asg' = length (x_asg s) /\
    forall r, r < length (x_asg s) -> nth r asg' 0 = if (nth r asg0 0 =? sc_lid sc) || (nth r asg0 0 =? sc_rid sc) then sc_pid sc else nth r (x_asg s) 0.
Proof.
  intros HK HpK Hlt La Hlr Hpl Hpr. unfold reject.
  set (p := sc_pid sc) in *. set (l := sc_lid sc) in *. set (r' := sc_rid sc) in *.
  destruct (@relabel_ok p (memb asg0 l) (x_asg s)) as (a1 & E1 & L1 & H1).
  { intros i Hi. apply in_memb in Hi. lia. }
  rewrite E1. cbn [bind].
  destruct (@relabel_ok p (memb asg0 r') a1) as (a2 & E2 & L2 & H2).
  { intros i Hi. apply in_memb in Hi. lia. }
  rewrite E2. cbn [bind]. exists a2.
  assert (Hp := Hlt p ltac:(cbn; auto)). assert (Hl := Hlt l ltac:(cbn; auto)). assert (Hr := Hlt r' ltac:(cbn; auto)).
  sx. rewrite (@aget_nth _ (x_counts s) l 0%Z) by lia. cbn [bind].
  rewrite (@aget_nth _ (x_counts s) r' 0%Z) by lia. cbn [bind].
  rewrite aset_ok by lia. cbn [bind]. rewrite aset_ok by (rewrite upd_length; lia). cbn [bind].
  rewrite aset_ok by (rewrite !upd_length; lia). cbn [bind]. unfold deactivate. sx.
  rewrite aset_ok by lia. cbn [bind]. sx. rewrite aset_ok by (rewrite !upd_length; lia). cbn [bind]. sx.
  rewrite aset_ok by (rewrite !upd_length; lia). cbn [bind]. sx.
  rewrite HK. destruct (Nat.leb_spec K p); [lia|]. splits; auto.
  - congruence.
  - intros r Hr'. rewrite H2, H1.
    destruct (in_dec Nat.eq_dec r (memb asg0 r')) as [X|X]; [apply in_memb in X as (_ & ->); rewrite Nat.eqb_refl, orb_true_r; reflexivity|].
    destruct (in_dec Nat.eq_dec r (memb asg0 l)) as [Y|Y]; [apply in_memb in Y as (_ & ->); rewrite Nat.eqb_refl; reflexivity|].
    rewrite in_memb in X, Y. destruct (Nat.eqb_spec (nth r asg0 0) l); [lia|]. destruct (Nat.eqb_spec (nth r asg0 0) r'); [lia|]. reflexivity.
Qed.

Lemma keys_erase (m : list (option (hclu N))) p h : hget m p = Some h ->
  Permutation (hm_keys m) (p :: hm_keys (upd m p None)) /\
  Permutation (kids m) (h_zero h :: h_one h :: kids (upd m p None)).
Proof.
  intros Hp. set (m' := upd m p None).
  assert (Hg : forall q, hget m' q = if q =? p then None else hget m q) by (intros q; apply hget_none_upd).
  assert (P : Permutation (hm_keys m) (p :: hm_keys m')).
  { apply NoDup_Permutation.
    - apply keys_nodup.
    - constructor; [|apply keys_nodup]. rewrite keys_in, Hg, Nat.eqb_refl. intros (x & X). discriminate.
    - intros q. cbn [In]. rewrite !keys_in, Hg. destruct (Nat.eqb_spec q p) as [->|Hne]; [split; eauto|].
      split; [auto|]. intros [X|X]; [congruence|exact X]. }
  split; [exact P|]. unfold kids. rewrite (Permutation_flat_map (kp m) P). cbn [flat_map]. unfold kp at 1. rewrite Hp.
  cbn [pair_of app]. do 2 apply perm_skip.
  assert (E : forall l, (forall q, In q l -> q <> p) -> flat_map (kp m) l = flat_map (kp m') l).
  { induction l as [|q l IH]; intros H; auto. cbn [flat_map]. f_equal.
    - unfold kp. rewrite Hg. destruct (Nat.eqb_spec q p); [exfalso; apply (H q); [left|]; auto|reflexivity].
    - apply IH. intros x Hx. apply H. right. exact Hx. }
  rewrite E; [reflexivity|]. intros q Hq ->. apply keys_in in Hq as (x & X). rewrite Hg, Nat.eqb_refl in X. discriminate.
Qed.

(** one rejection, on a state [s] whose partitions are [m] (the program erases the
    rejected partitions only after all decisions) *)
Variables (M : nat) (FP : list nat -> nat -> list T -> Prop).
Hypothesis Hws : wok n d data ws.
Hypothesis FPs : forall A A' i v, length A = n -> length A' = n ->
  (forall r, r < n -> (nth r A 0 =? i) = (nth r A' 0 =? i)) -> FP A i v -> FP A' i v.

Lemma ids_parts e (s : hst N) p h : rinv g ws data M FP e s -> hget (x_hcl s) p = Some h ->
  p <> h_zero h /\ p <> h_one h /\ h_zero h <> h_one h /\ ~ In p (finkeys s) /\ ~ In (h_zero h) (finkeys s) /\ ~ In (h_one h) (finkeys s) /\
  NoDup (all_ids s) /\ p < M /\ h_zero h < M /\ h_one h < M.
Proof.
  clear. intros R Hp. pose proof (inv_nodup (r_ids R)) as ND. destruct (keys_erase Hp) as (Pk & Pd).
  assert (P : Permutation (all_ids s) (p :: h_zero h :: h_one h :: hm_keys (upd (x_hcl s) p None) ++ kids (upd (x_hcl s) p None) ++ finkeys s)).
  { unfold all_ids. rewrite Pk, Pd. permc. }
  pose proof (Permutation_NoDup P ND) as ND'. inversion ND' as [|? ? N1 ND1]; subst. inversion ND1 as [|? ? N2 ND2]; subst. inversion ND2 as [|? ? N3 ND3]; subst.
  cbn [In] in N1, N2. rewrite !in_app_iff in *.
  assert (L : forall i, In i [p; h_zero h; h_one h] -> i < M).
  { intros i Hi. apply (inv_lt (r_ids R) (r_max R)). apply (Permutation_in _ (Permutation_sym P)). cbn [In] in *. tauto. }
  splits; auto; try (intros X; subst; tauto); try tauto; try (apply L; cbn; auto); intuition congruence.
Qed.

Lemma reject_ok e (cl : clusters) asg0 (sc : score N) (s : hst N) m K h :
  let v := with_hcl s m in
  rinv g ws data M FP e v -> ready g ws data M v -> settled g v ->
  hget m (sc_pid sc) = Some h -> sc_lid sc = h_zero h -> sc_rid sc = h_one h ->
  shaped K d cl -> sc_pid sc < K -> length asg0 = n ->
  (forall j r, j < 2 -> r < n -> (nth r (x_asg s) 0 =? ch h j) = (nth r asg0 0 =? ch h j)) ->
  (forall asg', length asg' = n -> (forall r, r < n -> (nth r asg' 0 =? sc_pid sc) = (nth r (x_part s) 0 =? sc_pid sc)) ->
     FP asg' (sc_pid sc) (crow cl (sc_pid sc))) ->
  exists s', reject g cl asg0 sc s = Ok s' /\ x_hcl s' = x_hcl s /\ x_part s' = x_part s /\ x_curr s' = x_curr s /\
    id_max (x_ider s') = id_max (x_ider s) /\ x_final s' = x_final s ++ [(sc_pid sc, crow cl (sc_pid sc))] /\
    (forall r, r < n -> nth r (x_asg s') 0 = if nth r (x_part s) 0 =? sc_pid sc then sc_pid sc else nth r (x_asg s) 0) /\
    let v' := with_hcl s' (upd m (sc_pid sc) None) in
    rinv g ws data M FP (e + 2) v' /\ ready g ws data M v' /\ settled g v'.
Proof.
  intros v R Rd St Hp El Er Hcl HpK L0 Hrows HFP.
  set (p := sc_pid sc) in *. destruct (@ids_parts e v p h R Hp) as (Npl & Npr & Nlr & Fp & Fl & Fr & ND & Lp & Ll & Lr).
  pose proof (e_asg (r_e R)) as La. change (x_asg v) with (x_asg s) in La. fold n in La.
  pose proof (e_counts (r_e R)) as Lc. change (x_counts v) with (x_counts s) in Lc.
  pose proof (e_act (r_e R)) as Lact. change (x_act v) with (x_act s) in Lact.
  pose proof (e_part (r_e R)) as Lpart. change (x_part v) with (x_part s) in Lpart. fold n in Lpart.
  pose proof (e_hcl (r_e R)) as Lm. change (x_hcl v) with m in Lm.
  destruct Rd as (_ & _ & Cnt & Sh & Cel). change (x_hcl v) with m in *.
  destruct (@reject_eff cl asg0 sc s K (proj1 Hcl) HpK) as (asg' & E & La' & Hasg).
  { intros i Hi. rewrite Lc, Lact. rewrite El, Er in Hi. fold p in Hi. cbn [In] in Hi. destruct Hi as [<-|[<-|[<-|[]]]]; auto. }
  { lia. } { congruence. } { rewrite El. exact Npl. } { rewrite Er. exact Npr. }
  rewrite El, Er in *. fold p in E, Hasg.
  eexists. split; [exact E|]. sx. split; [reflexivity|]. split; [reflexivity|]. split; [reflexivity|]. split; [reflexivity|].
  rewrite fc_set_new by exact Fp.
  assert (Ev : slice (c_means cl) (p * d) d = crow cl p).
  { unfold crow. destruct Hcl as (_ & Hd & _). fold p. rewrite Hd. reflexivity. }
  rewrite Ev.
  set (m' := upd m p None). destruct (keys_erase Hp) as (Pk & Pd). fold m' in Pk, Pd.
  assert (Hg : forall q, hget m' q = if q =? p then None else hget m q) by (intros q; apply hget_none_upd).
  (* rows *)
  assert (Hin : forall r, r < n -> (nth r (x_asg s) 0 = h_zero h \/ nth r (x_asg s) 0 = h_one h) <-> nth r (x_part s) 0 = p).
  { intros r Hr. split.
    - intros X. assert (Y : exists j, j < 2 /\ nth r (x_asg s) 0 = ch h j) by (destruct X; [exists 0|exists 1]; split; auto).
      destruct Y as (j & Hj & Y). destruct (e_rows (r_e R) Hr) as (_ & Q). change (x_hcl v) with m in Q. change (x_part v) with (x_part s) in Q. change (x_asg v) with (x_asg s) in Q.
      destruct (hget m (nth r (x_part s) 0)) as [h'|] eqn:Eh.
      + destruct (St r h' Hr Eh) as (j' & Hj' & Y'). change (x_asg v) with (x_asg s) in Y'. rewrite Y in Y'.
        destruct (@e_inj _ _ _ _ _ _ (r_e R) p h (nth r (x_part s) 0) h' j j' Hp Eh Hj Hj' Y'). auto.
      + exfalso. pose proof (r_rows R Hr Eh) as Z. change (x_asg v) with (x_asg s) in Z. rewrite Y in Z. destruct j as [|[|]]; [tauto|tauto|lia].
    - intros X. assert (Y : hget m (nth r (x_part s) 0) = Some h) by (rewrite X; exact Hp).
      destruct (St r h Hr Y) as (j & Hj & Z). change (x_asg v) with (x_asg s) in Z. rewrite Z. destruct j as [|[|]]; auto. }
  assert (Hrow : forall r, r < n -> nth r asg' 0 = if nth r (x_part s) 0 =? p then p else nth r (x_asg s) 0).
  { intros r Hr. rewrite Hasg by lia. pose proof (Hrows 0 r ltac:(lia) Hr) as Q0. pose proof (Hrows 1 r ltac:(lia) Hr) as Q1.
    change (ch h 0) with (h_zero h) in Q0. change (ch h 1) with (h_one h) in Q1. rewrite <- Q0, <- Q1. specialize (Hin r Hr).
    destruct (Nat.eqb_spec (nth r (x_part s) 0) p) as [X|X], (Nat.eqb_spec (nth r (x_asg s) 0) (h_zero h)) as [Y|Y],
      (Nat.eqb_spec (nth r (x_asg s) 0) (h_one h)) as [Z|Z]; cbn [orb]; auto; tauto. }
  split; [reflexivity|]. split; [exact Hrow|].
  set (s' := mkHs asg' _ _ _ _ _ _ _).
  (* which ids keep their rows *)
  assert (Hkeep : forall i, i <> p -> i <> h_zero h -> i <> h_one h -> forall r, r < n -> (nth r asg' 0 =? i) = (nth r (x_asg s) 0 =? i)).
  { intros i I1 I2 I3 r Hr. rewrite Hrow by exact Hr. destruct (Nat.eqb_spec (nth r (x_part s) 0) p) as [X|X]; auto.
    apply Hin in X; auto. destruct (Nat.eqb_spec p i); [congruence|]. destruct X as [-> | ->]; symmetry; apply Nat.eqb_neq; auto. }
  assert (Hnop : forall r, r < n -> nth r (x_asg s) 0 <> p).
  { intros r Hr X. destruct (hget m (nth r (x_part s) 0)) as [h'|] eqn:Eh.
    - destruct (St r h' Hr Eh) as (j & Hj & Y). change (x_asg v) with (x_asg s) in Y. destruct (e_live (r_e R) Eh) as (_ & _ & _ & Q).
      destruct (Q j Hj) as (_ & _ & Z). change (x_hcl v) with m in Z. congruence.
    - pose proof (r_rows R Hr Eh) as Z. change (x_asg v) with (x_asg s) in Z. rewrite X in Z. tauto. }
  assert (Hcp : forall r, r < n -> (nth r asg' 0 =? p) = (nth r (x_part s) 0 =? p)).
  { intros r Hr. rewrite Hrow by exact Hr. destruct (Nat.eqb_spec (nth r (x_part s) 0) p) as [X|X]; [apply Nat.eqb_refl|].
    apply Nat.eqb_neq. apply Hnop. exact Hr. }
  assert (Cnt' : forall i, i < M -> nth i (x_counts s') 0%Z = Z.of_nat (count_eq i asg')).
  { intros i Hi. cbn [s' x_counts]. rewrite !nth_upd by (rewrite ?upd_length; lia).
    pose proof (Cnt i Hi) as Ci. pose proof (Cnt _ Ll) as Cl. pose proof (Cnt _ Lr) as Cr.
    change (x_counts v) with (x_counts s) in *. change (x_asg v) with (x_asg s) in *.
    destruct (Nat.eqb_spec i (h_zero h)) as [->|I1].
    - rewrite count_eq_zero; [reflexivity|]. rewrite La', La. intros r Hr. rewrite Hrow by exact Hr. specialize (Hin r Hr).
      destruct (Nat.eqb_spec (nth r (x_part s) 0) p); [congruence|]. tauto.
    - destruct (Nat.eqb_spec i (h_one h)) as [->|I2].
      + rewrite count_eq_zero; [reflexivity|]. rewrite La', La. intros r Hr. rewrite Hrow by exact Hr. specialize (Hin r Hr).
        destruct (Nat.eqb_spec (nth r (x_part s) 0) p); [congruence|]. tauto.
      + destruct (Nat.eqb_spec i p) as [->|I3].
        * rewrite Cl, Cr, <- Nat2Z.inj_add. f_equal.
          assert (G : forall (A A' : list nat), length A = length A' ->
             (forall r, r < length A -> (nth r A 0 = h_zero h \/ nth r A 0 = h_one h) <-> nth r A' 0 = p) ->
             count_eq (h_zero h) A + count_eq (h_one h) A = count_eq p A').
          { clear - Nlr. induction A as [|a A IH]; intros [|a' A'] HL H; cbn [length] in HL; try lia; [reflexivity|].
            rewrite !count_eq_cons. specialize (IH A' ltac:(lia)). pose proof (H 0 ltac:(cbn; lia)) as H0. cbn [nth] in H0.
            assert (H' : forall r, r < length A -> (nth r A 0 = h_zero h \/ nth r A 0 = h_one h) <-> nth r A' 0 = p) by (intros r Hr; apply (H (S r)); cbn; lia).
            specialize (IH H'). destruct (Nat.eqb_spec a (h_zero h)), (Nat.eqb_spec a (h_one h)), (Nat.eqb_spec a' p); lia || tauto. }
          apply G; [lia|]. rewrite La. intros r Hr. rewrite Hin by exact Hr. specialize (Hcp r Hr).
          destruct (Nat.eqb_spec (nth r asg' 0) p), (Nat.eqb_spec (nth r (x_part s) 0) p); try discriminate; tauto.
        * rewrite Ci. f_equal. symmetry. apply count_eq_ext; [lia|]. intros r Hr. apply Hkeep; auto. lia. }
  assert (Hch : forall q hq j, hget m q = Some hq -> q <> p -> j < 2 -> q <> h_zero h /\ q <> h_one h /\ ch hq j <> p /\ ch hq j <> h_zero h /\ ch hq j <> h_one h).
  { intros q hq j Hq Hne Hj. destruct (e_live (r_e R) Hq) as (_ & _ & _ & Q). destruct (Q j Hj) as (_ & _ & Z).
    destruct (e_live (r_e R) Hp) as (_ & _ & _ & Q'). destruct (Q' 0 ltac:(lia)) as (_ & _ & Z0). destruct (Q' 1 ltac:(lia)) as (_ & _ & Z1).
    change (x_hcl v) with m in *. change (ch h 0) with (h_zero h) in Z0. change (ch h 1) with (h_one h) in Z1. splits; try (intros X; rewrite X in *; congruence).
    - intros X. destruct (@e_inj _ _ _ _ _ _ (r_e R) q hq p h j 0 Hq Hp Hj ltac:(lia) X). congruence.
    - intros X. destruct (@e_inj _ _ _ _ _ _ (r_e R) q hq p h j 1 Hq Hp Hj ltac:(lia) X). congruence. }
  assert (Hact' : forall i, nth i (x_act s') false = if (i =? p) || (i =? h_zero h) || (i =? h_one h) then false else nth i (x_act s) false).
  { intros i. cbn [s' x_act]. rewrite !nth_upd by (rewrite ?upd_length; lia).
    destruct (Nat.eqb_spec i p), (Nat.eqb_spec i (h_zero h)), (Nat.eqb_spec i (h_one h)); reflexivity. }
  assert (Hucel : forall q hq j, hget m q = Some hq -> q <> p -> j < 2 -> ucel g ws data (x_asg s) (ch hq j) = ucel g ws data asg' (ch hq j)).
  { intros q hq j Hq Hne Hj. destruct (Hch q hq j Hq Hne Hj) as (_ & _ & A & B & C). symmetry.
    apply (@ucel_ext N g ws data Hws asg' (x_asg s) (ch hq j)); [fold n; lia|exact La|]. intros r Hr. apply Hkeep; auto. }
  cbn zeta. splits.
  - constructor; sx; cbn [s' x_asg x_part x_counts x_final x_curr x_ider].
    + constructor; sx; cbn [s' x_asg x_part x_counts x_final x_curr x_ider].
      * fold n. lia.
      * exact Lpart.
      * cbn [s' x_act]. rewrite !upd_length. exact Lact.
      * unfold m'. rewrite upd_length. exact Lm.
      * rewrite !upd_length. exact Lc.
      * intros q hq Hq. rewrite Hg in Hq. destruct (Nat.eqb_spec q p) as [|Hne]; [discriminate|].
        destruct (e_live (r_e R) Hq) as (Q1 & Q2 & Q3 & Q4). change (x_act v) with (x_act s) in *. change (x_hcl v) with m in *.
        pose proof (Hch q hq 0 Hq Hne ltac:(lia)) as (C1 & C2 & _).
        splits; auto.
        -- rewrite Hact'. destruct (Nat.eqb_spec q p), (Nat.eqb_spec q (h_zero h)), (Nat.eqb_spec q (h_one h)); try tauto; exact Q2.
        -- intros j Hj. destruct (Q4 j Hj) as (W1 & W2 & W3). pose proof (Hch q hq j Hq Hne Hj) as (_ & _ & D1 & D2 & D3). splits; auto.
           ++ rewrite Hact'. destruct (Nat.eqb_spec (ch hq j) p), (Nat.eqb_spec (ch hq j) (h_zero h)), (Nat.eqb_spec (ch hq j) (h_one h)); try tauto; exact W2.
           ++ rewrite Hg. destruct (ch hq j =? p); auto.
      * intros q hq q' hq' j j' Hq Hq'. rewrite Hg in Hq, Hq'. destruct (q =? p); [discriminate|]. destruct (q' =? p); [discriminate|].
        apply (@e_inj _ _ _ _ _ _ (r_e R) q hq q' hq' j j' Hq Hq').
      * intros r Hr. fold n in Hr. destruct (e_rows (r_e R) Hr) as (Q1 & Q2). change (x_asg v) with (x_asg s) in *. change (x_part v) with (x_part s) in *.
        change (x_hcl v) with m in *. change (x_act v) with (x_act s) in *.
        rewrite (Hrow r Hr). rewrite Hg. destruct (Nat.eqb_spec (nth r (x_part s) 0) p) as [X|X].
        -- split; [exact Lp|]. split; [auto|]. rewrite Hact', Nat.eqb_refl. reflexivity.
        -- split; [exact Q1|]. destruct (hget m (nth r (x_part s) 0)) as [hq|] eqn:Eq; [exact Q2|]. destruct Q2 as (Q2 & Q3). split; [exact Q2|].
           rewrite Hact'. destruct (_ || _ || _); auto.
      * intros q hq Hq Hcv j Hj. rewrite Hg in Hq. destruct (Nat.eqb_spec q p) as [|Hne]; [discriminate|].
        rewrite <- (Hucel q hq j Hq Hne Hj). apply (Cel q hq j Hq Hj).
      * intros i Hi _. apply Cnt'. exact Hi.
    + unfold all_ids. sx. replace (finkeys (with_hcl s' m')) with (finkeys s ++ [p]) by (unfold finkeys; cbn [with_hcl s' x_final]; rewrite map_app; reflexivity).
      assert (P1 : Permutation (all_ids v) ([] ++ h_zero h :: (h_one h :: hm_keys m' ++ kids m' ++ finkeys s ++ [p]))).
      { unfold all_ids. change (x_hcl v) with m. change (finkeys v) with (finkeys s). rewrite Pk, Pd. permc. }
      pose proof (inv_perm_nat P1 (r_ids R)) as I1. pose proof (@reclaim_inv _ [] _ _ I1) as I2. cbn [app] in I2.
      pose proof (@reclaim_inv _ [] _ _ I2) as I3. cbn [app] in I3. exact I3.
    + apply (r_max R).
    + intros i Hi. rewrite Hact'. pose proof (r_act R Hi) as Q. change (x_act v) with (x_act s) in Q. change (x_hcl v) with m in Q.
      assert (P2 : Permutation (hm_keys m ++ kids m) (p :: h_zero h :: h_one h :: hm_keys m' ++ kids m')) by (rewrite Pk, Pd; permc).
      assert (ND2 : NoDup (hm_keys m ++ kids m)).
      { unfold all_ids in ND. rewrite app_assoc in ND. exact (nodup_app_l ND). }
      pose proof (Permutation_NoDup P2 ND2) as ND'. inversion ND' as [|? ? N1 ND1]; subst. inversion ND1 as [|? ? N2 ND3]; subst. inversion ND3 as [|? ? N3 ND4]; subst.
      cbn [In] in N1, N2.
      assert (Q' : In i (hm_keys m ++ kids m) <-> In i (p :: h_zero h :: h_one h :: hm_keys m' ++ kids m')) by (split; apply Permutation_in; [|apply Permutation_sym]; exact P2).
      rewrite Q' in Q. cbn [In] in Q.
      destruct (Nat.eqb_spec i p) as [->|X1]; [cbn [orb]; split; [discriminate|tauto]|].
      destruct (Nat.eqb_spec i (h_zero h)) as [->|X2]; [cbn [orb]; split; [discriminate|tauto]|].
      destruct (Nat.eqb_spec i (h_one h)) as [->|X3]; [cbn [orb]; split; [discriminate|tauto]|]. cbn [orb]. rewrite Q.
      split; [intros [X|[X|[X|X]]]; [congruence..|exact X]|auto].
    + intros i x Hx. apply in_app_iff in Hx as [Hx|[Hx|[]]].
      * destruct (r_fin R Hx) as (L & Hfp). split; [exact L|].
        assert (Hif : In i (finkeys s)) by (apply in_map_iff; exists (i, x); auto).
        apply (FPs (A := x_asg s)); auto; [lia|]. intros r Hr. symmetry. apply Hkeep; auto; intros ->; tauto.
      * injection Hx as <- <-. split.
        -- unfold crow. destruct Hcl as (Hk & Hd & Hm & _). rewrite Hd. apply (@row_length _ _ _ _ K); [congruence|exact HpK].
        -- apply HFP; [lia|exact Hcp].
    + intros r Hr. fold n in Hr. rewrite Hg. unfold finkeys. sx. cbn [s' x_final]. rewrite map_app, in_app_iff, (Hrow r Hr). cbn [map fst In].
      destruct (Nat.eqb_spec (nth r (x_part s) 0) p) as [X|X]; [auto|]. intros Y. left. apply (r_rows R Hr Y).
    + destruct (r_num R) as (a & A1 & A2). exists a.
      change (x_curr v) with (x_curr s) in A1. pose proof (all_length v) as Q. change (x_hcl v) with m in Q, A2. change (x_final v) with (x_final s) in Q, A2.
      pose proof (all_length (with_hcl s' m')) as Q'. sxin. cbn [s' x_final] in Q' |- *.
      pose proof (Permutation_length Pk) as Lk. cbn [length] in Lk. rewrite app_length in *. cbn [length] in *.
      assert (W : rw v <= 3 /\ 1 <= rw (with_hcl s' m')) by (unfold rw; repeat destruct in_dec; lia). lia.
    + apply (r_pos R).
  - unfold ready. sx. splits; auto.
    + cbn [s' x_asg]. fold n. lia.
    + cbn [s' x_counts]. rewrite !upd_length. exact Lc.
    + intros q hq Hq. rewrite Hg in Hq. destruct (q =? p); [discriminate|]. apply (Sh q hq Hq).
    + intros q hq j Hq Hj. rewrite Hg in Hq. destruct (Nat.eqb_spec q p) as [|Hne]; [discriminate|]. cbn [s' x_asg].
      rewrite <- (Hucel q hq j Hq Hne Hj). apply (Cel q hq j Hq Hj).
  - intros r hq Hr Hq. sxin. fold n in Hr. cbn [s' x_part x_asg] in *. rewrite Hg in Hq.
    rewrite (Hrow r Hr). destruct (Nat.eqb_spec (nth r (x_part s) 0) p) as [X|X]; [discriminate|]. apply (St r hq Hr Hq).
Qed.
End Decide.
