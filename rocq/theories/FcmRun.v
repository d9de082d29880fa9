(** Whole runs of fuzzy c-means, any arithmetic. *)
From Coq Require Import Permutation.
From Verif Require Import Base Num DistModel ClustersModel MatLemmas
  PartitionModel ParModel KmeansModel ParProofs NearProofs KmeansProofs RunProofs InitProofs Spec DistProofs.
From Verif Require Import ParRule Okab MedoidProofs MedoidRun MatrixModel PropertiesMatrix PropertiesArgmax FcmModel FcmProofs.
Set Implicit Arguments.
Unset Strict Implicit.

Lemma is_matrix_unique N (m m' : dmat N) nr nc f : is_matrix m nr nc f -> is_matrix m' nr nc f -> m = m'.
Proof.
  intros (A & B & S & D) (A' & B' & S' & D'). destruct m as [l a b], m' as [l' a' b']. unfold shaped, cell in *; cbn [dm_mat dm_nrow dm_ncol] in *.
  subst a b a' b'. f_equal. apply nth_ext with (d := nzero N) (d' := nzero N); [congruence|].
  intros i Hi. rewrite S in Hi. destruct (Nat.eq_dec nc 0) as [->|Hnc]; [lia|].
  pose proof (Nat.div_mod i nc Hnc) as E. pose proof (Nat.mod_upper_bound i nc Hnc) as Hb.
  assert (Hd : i / nc < nr) by (apply Nat.div_lt_upper_bound; lia).
  replace i with (i / nc * nc + i mod nc) by lia. rewrite D, D' by auto. reflexivity.
Qed.

Lemma is_matrix_self N (m : dmat N) : shaped m -> is_matrix m (dm_nrow m) (dm_ncol m) (cell m).
Proof. intros S. unfold is_matrix. auto. Qed.

Section FR.
Variable N : Num.
Notation T := (car N).
Notation z := (nzero N).
Variable npow : T -> T -> T.
Variables (f : fcfg N) (ws : list (worker N)) (data : list T).
Let g := f_g f.
Let n := g_nrow g. Let d := g_ncol g. Let k := g_k g.
Hypothesis V : valid_input g data.
Hypothesis Hk : 1 <= k.
Hypothesis Hws : wok (g_nrow g) (g_ncol g) data ws.
Hypothesis Hne : ws <> [].

Definition fgood (s : fst_ N) : Prop := kxd f (f_centers s) /\ dm_nrow (f_um s) = k /\ dm_ncol (f_um s) = n /\ PropertiesMatrix.shaped (f_um s).

(** the orders of a turn let every worker finish and sum every row *)
Definition ford (o : forder) : Prop :=
  complete (w_ranges ws) (o_e o) /\ complete (w_ranges ws) (o_m o) /\ Permutation (o_rows o) (seq 0 k).

(** how far the centres moved (Frobenius norm) *)
Definition moved (C C' : dmat N) : T :=
  nsqrt N (bigsum N (k * d) (fun i => nmul N (nsub N (nth i (dm_mat C') z) (nth i (dm_mat C) z)) (nsub N (nth i (dm_mat C') z) (nth i (dm_mat C) z)))).

Definition fturned (s s' : fst_ N) : Prop :=
  is_matrix (f_um s') k n (uw npow f data (f_centers s)) /\
  is_matrix (f_centers s') k d (fmean f ws data (uw npow f data (f_centers s))) /\
  f_prev s' = f_centers s.

Lemma fturned_good s s' : fturned s s' -> fgood s'.
Proof. intros ((A & B & C & _) & (A' & B' & C' & _) & _). unfold fgood, kxd. auto 10. Qed.

Lemma fturned_unique s s1 s2 : fturned s s1 -> fturned s s2 -> s1 = s2.
Proof.
  intros (A & B & C) (A' & B' & C'). destruct s1 as [c1 p1 u1], s2 as [c2 p2 u2]; cbn [f_um f_centers f_prev] in *.
  rewrite (is_matrix_unique A A'), (is_matrix_unique B B'). congruence.
Qed.

Lemma f_turn_ok o s : fgood s -> ford o ->
  exists s', f_turn npow f ws o s = Ok (s', nltb N (moved (f_centers s) (f_centers s')) (g_tol g)) /\ fturned s s'.
Proof.
  intros (HC & U1 & U2 & _) (O1 & O2 & O3). unfold f_turn.
  destruct (@e_round_ok N npow f ws data V Hws (o_e o) s HC U1 U2 O1) as (um & -> & Hum). cbn [Base.bind].
  destruct (@update_contribution_ok N npow f data Hk (f_centers s) (mkFst (f_centers s) (f_prev s) um) Hum) as (um2 & -> & Hum2).
  cbn [Base.bind f_centers f_prev f_um]. rewrite c47_copy_from by apply HC. cbn [Base.bind].
  destruct (@m_round_ok N npow f ws data V Hws Hne (o_m o) (o_rows o) (mkFst (f_centers s) (f_centers s) um2) _ HC Hum2 O2 O3) as (C & -> & HCm).
  cbn [Base.bind f_centers f_prev f_um].
  destruct HC as (C1 & C2 & C3). pose proof HCm as (M1 & M2 & M3 & MD).
  destruct (@c47_plus_minus N C (f_centers s) M3 C3) as (H & _). fold g in C1, C2, M1, M2.
  destruct H as (_ & (df & Ed & Hd) & _); [fold g; congruence|congruence|]. rewrite Ed. cbn [Base.bind].
  destruct Hd as (D1 & D2 & D3 & DD).
  destruct (@c47_sums N df (seq 0 (dm_nrow df)) D3 (Permutation_refl _)) as (_ & _ & Ef). rewrite Ef. cbn [Base.bind].
  exists (mkFst C (f_centers s) um2). split; [|split; [exact Hum2|split; [exact HCm|reflexivity]]]. cbn [f_centers]. do 3 f_equal. unfold moved. f_equal.
  fold g in D1, D2. rewrite D1, D2, M1, M2. apply bigsum_ext. intros i Hi. fold k d in Hi.
  assert (Ei : nth i (dm_mat df) z = nsub N (nth i (dm_mat C) z) (nth i (dm_mat (f_centers s)) z)).
  { destruct (Nat.eq_dec d 0) as [E0|Hnc]; [lia|].
    pose proof (Nat.div_mod i d Hnc) as E. pose proof (Nat.mod_upper_bound i d Hnc) as Hb.
    assert (Hdv : i / d < k) by (apply Nat.div_lt_upper_bound; lia).
    unfold cell in DD. rewrite D2, M2, C2 in DD. fold g d in DD.
    replace i with (i / d * d + i mod d) by lia. apply DD.
    - rewrite M1. exact Hdv.
    - exact Hb. }
  rewrite Ei. reflexivity.
Qed.

(** a run: the states between turns, in order; [true]: the last one met the
    stopping test *)
Inductive fchain : fst_ N -> list (fst_ N) -> bool -> Prop :=
| fc_end : forall s, fchain s [] false
| fc_stop : forall s s', fturned s s' -> nltb N (moved (f_centers s) (f_centers s')) (g_tol g) = true -> fchain s [s'] true
| fc_step : forall s s' l b, fturned s s' -> nltb N (moved (f_centers s) (f_centers s')) (g_tol g) = false ->
    fchain s' l b -> fchain s (s' :: l) b.

Lemma f_loop_ok : forall m i s tr, fgood s ->
  exists it cv l, (forall os, (forall i, ford (os i)) -> f_loop npow f ws os m i s tr = Ok (it, cv, last l s, tr ++ l)) /\
    fchain s l cv /\ length l <= m /\ (cv = false -> length l = m) /\ it + (if cv then 1 else 0) = i + length l.
Proof.
  induction m as [|m IH]; intros i s tr Hg; cbn [f_loop].
  - exists i, false, []. rewrite app_nil_r. splits; auto. constructor.
  - assert (Ho : exists s', fturned s s' /\ forall os, (forall i, ford (os i)) ->
        f_turn npow f ws (os i) s = Ok (s', nltb N (moved (f_centers s) (f_centers s')) (g_tol g))).
    { destruct (@f_turn_ok (mkForder (seq_sched (w_ranges ws)) (seq_sched (w_ranges ws)) (seq 0 k)) s Hg) as (s' & E & Ht).
      { unfold ford; cbn [o_e o_m o_rows]. splits; auto using seq_sched_complete. }
      exists s'. split; auto. intros os Hos. destruct (@f_turn_ok (os i) s Hg (Hos i)) as (s2 & E2 & Ht2).
      rewrite (fturned_unique Ht Ht2). exact E2. }
    destruct Ho as (s' & Ht & Ho).
    destruct (nltb N (moved (f_centers s) (f_centers s')) (g_tol g)) eqn:Eb.
    + exists i, true, [s']. cbn [length last]. splits; auto; try lia; try discriminate; [|constructor; auto].
      intros os Hos. rewrite Ho by exact Hos. reflexivity.
    + destruct (IH (S i) s' (tr ++ [s']) (fturned_good Ht)) as (it & cv & l & E1 & E2 & E3 & E4 & E5).
      exists it, cv, (s' :: l). cbn [length]. splits; auto; try lia.
      * intros os Hos. rewrite Ho by exact Hos. cbn [Base.bind fst snd]. rewrite E1 by exact Hos.
        rewrite last_cons', <- app_assoc. reflexivity.
      * constructor; auto.
Qed.

Lemma f_forgy_ok draw s : kxd f (f_centers s) -> (forall i, i < k -> draw i < n) ->
  exists C, f_forgy f data draw s = Ok (mkFst C (f_prev s) (f_um s)) /\ kxd f C /\
    forall j, j < k -> row (dm_mat C) d j = row data d (draw j).
Proof.
  intros HC Hdr. unfold f_forgy. fold g.
  match goal with |- context [loop ?a ?b ?s] => assert (H : okp (loop a b s) (fun C => kxd f C /\
     forall j, j < k -> forall c, c < d -> cell C j c = nth c (row data d (draw j)) z)) end.
  { eapply okp_mono.
    { apply (@loop_okp _ (fun i C => kxd f C /\ forall j, j < i -> j < k -> forall c, c < d -> cell C j c = nth c (row data d (draw j)) z)).
      - split; auto. intros; lia.
      - intros i C Hi ((C1 & C2 & C3) & H). fold k in Hi.
        destruct (@thd_row_ok N g data V (draw i) (Hdr i Hi)) as (p & -> & Hp). cbn [Base.bind].
        pose proof (@data_row_length N g data V _ (Hdr i Hi)) as Lr. fold d in Lr.
        assert (Es : dm_set_row C p i = dm_set_row C (row data d (draw i), 0) i).
        { unfold dm_set_row. fold g d in C2. rewrite C2. f_equal.
          assert (Lp : snd p + d <= length (fst p) \/ d = 0).
          { fold d in Hp. rewrite <- Hp in Lr. unfold slice in Lr. rewrite firstn_length, skipn_length in Lr. lia. }
          assert (Hlen : i * d + d <= length (dm_mat C)) by (red in C3; fold g k in C1; rewrite C3, C1, C2; nia).
          destruct Lp as [Lp|Ld].
          - rewrite !copy_to_ok; cbn [fst snd]; try lia. fold d in Hp. rewrite Hp.
            pose proof (@slice_all _ (row data d (draw i))) as Q. rewrite Lr in Q. rewrite Q. reflexivity.
          - rewrite Ld. unfold copy_to. cbn. reflexivity. }
        rewrite Es. destruct (@c47_set_buffers N C (row data d (draw i)) C3) as (_ & HS).
        destruct (HS i) as (C' & -> & M1 & M2 & M3 & MD).
        { rewrite Lr. symmetry. exact C2. } { rewrite C1. exact Hi. }
        cbn [okp]. fold g k in C1. fold g d in C2. rewrite C1, C2 in *. split; [unfold kxd; auto|].
        intros j Hj Hjk c Hc. rewrite MD by auto. destruct (Nat.eqb_spec j i) as [->|]; [reflexivity|]. apply H; auto. lia. }
    intros C (H1 & H2). split; [exact H1|]. intros j Hj. apply H2; auto. }
  apply okp_iff in H as (C & E & HC' & Hcell). rewrite E. cbn [Base.bind]. exists C. splits; auto.
  intros j Hj. pose proof HC' as (C1 & C2 & C3).
  assert (E2 : row (dm_mat C) d j = map (cell C j) (seq 0 d)).
  { rewrite <- (@is_matrix_row N C k d (cell C) j); auto. pose proof (is_matrix_self C3) as M. rewrite C1, C2 in M. exact M. }
  rewrite E2. apply nth_ext with (d := z) (d' := z); rewrite map_length, seq_length.
  - symmetry. apply (@data_row_length N g data V _ (Hdr j Hj)).
  - intros c Hc. rewrite nth_mapseq by exact Hc. apply Hcell; auto.
Qed.

Lemma f_create_ok centers : (match centers with Some m => length m = k * d | None => True end) ->
  exists s, f_create f centers = Ok s /\ fgood s /\
    dm_mat (f_centers s) = (match centers with Some m => m | None => repeat z (k * d) end) /\
    f_um s = dm_new N k n.
Proof.
  intros Hc. unfold f_create, assert_. fold g k n d. destruct (Nat.leb_spec 1 k); [|lia]. cbn [Base.bind].
  assert (S0 : forall a b, PropertiesMatrix.shaped (dm_new N a b)).
  { intros a b. unfold PropertiesMatrix.shaped, dm_new; cbn. apply repeat_length. }
  destruct centers as [m|].
  - destruct (@c47_set_buffers N (dm_new N k d) m (S0 _ _)) as (H1 & _).
    destruct H1 as (C & -> & E1 & E2 & E3); [exact Hc|]. cbn [Base.bind]. eexists. split; [reflexivity|].
    cbn [f_centers f_um]. splits; auto. unfold fgood, kxd, PropertiesMatrix.shaped. cbn [f_centers f_um]. rewrite E1, E2, E3.
    cbn [dm_new dm_nrow dm_ncol dm_mat]. splits; auto. apply repeat_length.
  - cbn [Base.bind]. eexists. split; [reflexivity|]. unfold fgood, kxd. cbn [f_centers f_um dm_new dm_mat dm_nrow dm_ncol]. splits; auto; apply S0.
Qed.

(** counting the assignments *)
Lemma f_counts_ok asg : Forall (fun a => a < k) asg ->
  exists cnt, for_each asg (fun i cnt => amod cnt i (fun x => x + 1)%Z) (repeat 0%Z k) = Ok cnt /\
    length cnt = k /\ forall c, c < k -> nth c cnt 0%Z = Z.of_nat (count_eq c asg).
Proof.
  clear. intros HF.
  assert (G : forall asg cnt, Forall (fun a => a < k) asg -> length cnt = k ->
     exists cnt', for_each asg (fun i cnt => amod cnt i (fun x => x + 1)%Z) cnt = Ok cnt' /\
       length cnt' = k /\ forall c, c < k -> nth c cnt' 0%Z = (nth c cnt 0%Z + Z.of_nat (count_eq c asg))%Z).
  { clear. induction asg as [|a asg IH]; intros cnt HF L; cbn [for_each].
    - exists cnt. splits; auto. intros c Hc. unfold count_eq. cbn. lia.
    - inversion HF; subst. rewrite (@amod_nth _ cnt a _ 0%Z) by lia. cbn [Base.bind].
      destruct (IH (upd cnt a (nth a cnt 0%Z + 1)%Z) H2) as (c' & E & L' & Hc'); [rewrite upd_length; auto|].
      exists c'. splits; auto. intros c Hc. rewrite Hc' by exact Hc. rewrite nth_upd by lia. unfold count_eq; cbn [filter].
      rewrite Nat.eqb_sym. destruct (Nat.eqb_spec a c) as [->|]; cbn [length]; lia. }
  destruct (G asg (repeat 0%Z k) HF (repeat_length _ _)) as (cnt & E & L & H). exists cnt. splits; auto.
  intros c Hc. rewrite H by exact Hc. replace (nth c (repeat 0%Z k) 0%Z) with 0%Z; [lia|].
  clear. symmetry. revert c; induction k as [|k' IH]; intros [|c]; cbn; auto.
Qed.
End FR.
