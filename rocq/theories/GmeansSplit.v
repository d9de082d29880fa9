(** Splitting the partitions without any bound on the cluster count: what init_splits
    leaves when it returns (G-means subtracts two from the count for every undone split,
    so the bounds of HclustSplit do not hold there). *)
From Coq Require Import Permutation.
From Verif Require Import Base Num DistModel ClustersModel ClustersView ClustersProofs MatLemmas
  PartitionModel ParModel KmeansModel ParProofs NearProofs KmeansProofs UpdateProofs RunProofs InitProofs Spec.
From Verif Require Import ContainersModel PropertiesIds HclustModel HclustProofs HclustUpdate HclustIter HclustSplit Okab.
Set Implicit Arguments.
Unset Strict Implicit.

(** [P] of the result, if there is one *)
Notation pok r P := (oke r P (fun _ => True)).
Lemma pok_bind {A B} (r : res A) (f : A -> res B) P : pok r (fun x => pok (f x) P) -> pok (Base.bind r f) P.
Proof. apply oke_bind. Qed.
Lemma pok_mono {A} (r : res A) (P Q : A -> Prop) : pok r P -> (forall x, P x -> Q x) -> pok r Q.
Proof. intros H HQ. eapply oke_mono; eauto. Qed.
Lemma pok_okp {A} (r : res A) (P : A -> Prop) : okp r P -> pok r P.
Proof. apply okp_oke. Qed.
Lemma for_each_pok {A St} (P : list A -> St -> Prop) (body : A -> St -> res St) : forall l s,
  P l s -> (forall a t s', P (a :: t) s' -> pok (body a s') (P t)) -> pok (for_each l body s) (P []).
Proof.
  induction l as [|a l IH]; intros s H Hb; cbn [for_each]; [exact H|].
  apply pok_bind. eapply pok_mono; [apply Hb; exact H|]. intros s' H'. apply IH; auto.
Qed.
Lemma loop_pok {St} (P : nat -> St -> Prop) n body s :
  P 0 s -> (forall j s', j < n -> P j s' -> pok (body j s') (P (S j))) -> pok (loop n body s) (P n).
Proof. apply loop_oke. Qed.

Lemma aset_err {A} (l : list A) i v : length l <= i -> aset l i v = Err UB.
Proof. intros H. unfold aset. destruct (Nat.ltb_spec i (length l)); [lia|reflexivity]. Qed.

(** one new id, which may be as large as the bound *)
Lemma id_one_any ider l M : inv ider (map Z.of_nat l) -> (id_max ider + 1 <= Z.of_nat M)%Z -> (Z.of_nat M <= 2 ^ 31)%Z ->
  exists i ider', id_one ider = (Z.of_nat i, ider') /\ inv ider' (map Z.of_nat (i :: l)) /\ ~ In i l /\
    (i < M -> (id_max ider' + 1 <= Z.of_nat M)%Z).
Proof.
  intros I HM H31. pose proof (inv_length I HM) as Ll. destruct (id_one ider) as (x & ider') eqn:E.
  destruct (one_inv I ltac:(rewrite map_length; lia) E) as (I' & Hn).
  assert (Hx : (0 <= x)%Z). { destruct I' as (_ & B & _). apply (B x). apply in_app_iff. cbn [In]. auto. }
  exists (Z.to_nat x), ider'. cbn [map]. rewrite Z2Nat.id by exact Hx. splits; auto.
  - intros Hi. apply Hn. rewrite <- (Z2Nat.id x Hx). apply in_map. exact Hi.
  - intros Hxm. unfold id_one in E. destruct (id_rec ider) as [|y t] eqn:Er.
    + destruct I as (_ & _ & L & _). rewrite Er in L. cbn [app] in L. rewrite map_length in L.
      injection E as E <-. cbn [id_max]. unfold w32 in *. rewrite Z.mod_small in * by lia. lia.
    + injection E as _ <-. exact HM.
Qed.

Section Split.
Variable N : Num.
Notation T := (car N).
Notation clusters := (clusters N).
Variables (g : hcfg N) (ws : list (worker N)) (data : list T).
Let d := g_ncol g.
Let n := g_nrow g.
Hypothesis V : valid_input g data.
Hypothesis Hws : wok n d data ws.
Variable M : nat.
Hypothesis H31 : (Z.of_nat M <= 2 ^ 31)%Z.
Hypothesis Hmin : 2 <= h_min g.
Variable FP : list nat -> nat -> list T -> Prop.
Hypothesis FPu : forall asg i v, length v = d -> v = fst (fst (ucel g ws data asg i)) -> FP asg i v.

(** as [iv] of HclustSplit, without the numbers *)
Record gv (s0 : hst N) (ids pend : list nat) (nw : list (nat * hclu N)) (s : hst N) : Prop := {
  v_asg : x_asg s = x_asg s0;
  v_part : x_part s = x_part s0;
  v_counts : x_counts s = x_counts s0;
  v_lact : length (x_act s) = M;
  v_lhcl : length (x_hcl s) = M;
  v_old : forall p, In p ids -> hget (x_hcl s) p = hget (x_hcl s0) p;
  v_new : forall p h, In (p, h) nw -> hget (x_hcl s) p = Some h /\ fresh g data (x_asg s0) p h;
  v_keys : forall p h, hget (x_hcl s) p = Some h -> In p ids \/ In (p, h) nw;
  v_ids : inv (x_ider s) (map Z.of_nat (occ ids pend nw s));
  v_max : (id_max (x_ider s) + 1 <= Z.of_nat M)%Z;
  v_act : forall i, i < M -> nth i (x_act s) false = true <-> In i (ids ++ pend ++ map fst nw ++ nkids nw);
  v_fin : fin_ok g FP (x_asg s0) (x_final s);
  v_rows : forall r, r < n -> In (nth r (x_asg s0) 0) (pend ++ map fst nw ++ finkeys s)
}.

Lemma gv_perm s0 ids pend pend' nw s : Permutation pend pend' -> gv s0 ids pend nw s -> gv s0 ids pend' nw s.
Proof.
  clear Hws V. intros P [H1 H2 H3 H4 H5 H6 H7 H8 H9 H10 H11 H12 H13]. constructor; auto.
  - eapply inv_perm_nat; [apply occ_perm; exact P|exact H9].
  - intros i Hi. rewrite H11 by exact Hi. rewrite !in_app_iff.
    assert (In i pend <-> In i pend') by (split; apply Permutation_in; auto using Permutation_sym). tauto.
  - intros r Hr. specialize (H13 r Hr). rewrite !in_app_iff in *.
    destruct H13 as [X|X]; [left; eapply Permutation_in; eauto|right; exact X].
Qed.

Lemma g_retire_ok s0 ids pend nw s p h j :
  ready g ws data M s0 -> hget (x_hcl s0) p = Some h -> j < 2 -> gv s0 ids (ch h j :: pend) nw s ->
  okp (retire g h j (ch h j) s) (fun r =>
    ((snd r = true /\ x_act (fst r) = upd (x_act s) (ch h j) false /\ gv s0 ids pend nw (fst r)) \/
     (snd r = false /\ fst r = s /\ h_min g <= count_eq (ch h j) (x_asg s0)))).
Proof.
  intros (La & Lc & Cnt & Sh & Cel) Hp Hj I.
  assert (Hlt : ch h j < M).
  { apply (inv_lt (v_ids I) (v_max I)). unfold occ. rewrite !in_app_iff. cbn [In]. auto. }
  unfold retire. rewrite (v_counts I), (@aget_nth _ _ _ 0%Z) by lia. cbn [bind]. rewrite Cnt by exact Hlt.
  destruct (Z.ltb_spec (Z.of_nat (count_eq (ch h j) (x_asg s0))) (Z.of_nat (h_min g))) as [H1|H1];
    [|destruct (at_cluster_cap g s)]; cbn [orb].
  3:{ cbn [okp fst snd]. right. splits; auto; lia. }
  all: clear H1; unfold deactivate; rewrite aset_ok by (rewrite (v_lact I); exact Hlt); cbn [bind okp fst snd with_final with_act x_curr].
  all: left; split; [reflexivity|]; split; [reflexivity|].
  all: pose proof (inv_nodup (v_ids I)) as ND.
  all: assert (Nf : ~ In (ch h j) (finkeys s)) by
    (intros X; apply (@NoDup_remove_2 _ ids (pend ++ map fst nw ++ nkids nw ++ finkeys s) (ch h j)); [exact ND|]; rewrite !in_app_iff; auto).
  all: assert (No : ~ In (ch h j) (ids ++ pend ++ map fst nw ++ nkids nw)) by
    (intros X; apply (@NoDup_remove_2 _ ids (pend ++ map fst nw ++ nkids nw ++ finkeys s) (ch h j)); [exact ND|]; rewrite !in_app_iff in *; tauto).
  all: sx; rewrite fc_set_new by exact Nf.
  all: match goal with |- gv _ _ _ _ ?s' => set (s1 := s') end.
  all: assert (P : Permutation (occ ids (ch h j :: pend) nw s) (occ ids pend nw s1)) by
   (unfold occ, finkeys, s1; cbn [x_final with_final with_act app]; rewrite map_app; cbn [map fst app];
    apply Permutation_app_head; rewrite !app_assoc; apply Permutation_cons_append).
  all: destruct I as [I1 I2 I3 I4 I5 I6 I7 I8 I9 I10 I11 I12 I13].
  all: constructor; unfold s1; sx; auto.
  all: try (rewrite upd_length; exact I4).
  all: try (eapply inv_perm_nat; [exact P|exact I9]).
  all: try (intros i Hi; rewrite nth_upd by (rewrite I4; exact Hlt); destruct (Nat.eqb_spec i (ch h j)) as [Ei|Ei];
      [subst i; split; [discriminate|intros X; tauto]|
       rewrite I11 by exact Hi; rewrite !in_app_iff; cbn [In]; intuition congruence]).
  all: try (intros i v Hv; apply in_app_iff in Hv as [Hv|[Hv|[]]]; [apply I12; exact Hv|]; injection Hv as <- <-;
      pose proof (Cel p h j Hp Hj) as Q; unfold cel in Q; pose proof (f_equal (fun x => fst (fst x)) Q) as Q'; cbn [fst] in Q';
      unfold crow in Q'; destruct (Sh p h Hp) as (En & Ec & Hwf); destruct Hwf as (W & _);
      assert (Ls : length (slice (c_means (h_cl h)) (j * g_ncol g) (g_ncol g)) = d) by (apply slice_length; rewrite W, En, Ec; nia);
      split; [exact Ls|]; apply FPu; [exact Ls|]; rewrite <- Q'; rewrite Ec; reflexivity).
  all: try (intros r Hr; specialize (I13 r Hr); unfold finkeys in *; sx; rewrite map_app, !in_app_iff in *; cbn [map fst In] in *; tauto).
Qed.

Lemma g_spawn1_ok s0 ids pend nw s id x y :
  length (x_asg s0) = n -> gv s0 ids (id :: pend) nw s ->
  x < y -> y < n -> nth x (x_asg s0) 0 = id -> nth y (x_asg s0) 0 = id ->
  pok (spawn1 g data id (Some x) (Some y) s) (fun s' => exists h, gv s0 ids pend ((id, h) :: nw) s').
Proof.
  intros La I Hxy Hyn Ex Ey.
  set (O := occ ids (id :: pend) nw s) in *.
  destruct (@id_one_any (x_ider s) O M (v_ids I) (v_max I) H31) as (l & g1 & E1 & I1 & N1 & M1).
  assert (HO : In id O) by (unfold O, occ; rewrite !in_app_iff; cbn [In]; auto).
  pose proof (inv_nodup (v_ids I)) as ND. fold O in ND.
  assert (Hid : id < M) by (apply (inv_lt (v_ids I) (v_max I)); exact HO).
  assert (NoId : ~ In id (ids ++ pend ++ map fst nw ++ nkids nw ++ finkeys s)).
  { apply (@NoDup_remove_2 _ ids (pend ++ map fst nw ++ nkids nw ++ finkeys s) id). exact ND. }
  assert (Hnone : hget (x_hcl s) id = None).
  { destruct (hget (x_hcl s) id) as [h|] eqn:E; auto. exfalso. apply NoId. rewrite !in_app_iff.
    destruct (v_keys I E) as [X|X]; [auto|]. right. right. left. apply in_map_iff. exists (id, h). auto. }
  unfold spawn1, split_ids, id_split. rewrite E1. cbn [fst snd].
  destruct (id_one g1) as (rz & g2) eqn:E2. cbn [fst snd]. rewrite !Nat2Z.id.
  destruct (@thd_row_ok N g data V x ltac:(unfold n in *; lia)) as (p & -> & Hp). cbn [bind].
  destruct (@thd_row_ok N g data V y ltac:(unfold n in *; lia)) as (q & Eq & Hq).
  destruct (@set_mean_at_ok N 2 d (h_cl (h_create N (g_ncol g) l (Z.to_nat rz))) p (row data d x) 0 (shaped_create N 2 d) ltac:(lia)
    (@data_row_length N g data V x ltac:(unfold n in *; lia)) Hp) as (c & E3 & Sh & Hc). rewrite E3. cbn [bind]. rewrite Eq. cbn [bind].
  destruct (@set_mean_at_ok N 2 d c q (row data d y) 1 Sh ltac:(lia)
    (@data_row_length N g data V y ltac:(unfold n in *; lia)) Hq) as (c' & E4 & Sh' & Hc'). rewrite E4. cbn [bind].
  unfold activate. sx. rewrite ?hm_put_length.
  destruct (Nat.lt_ge_cases l M) as [L1|L1]; [|rewrite aset_err by (rewrite (v_lact I); exact L1); cbn [bind oke]; exact Logic.I].
  rewrite aset_ok by (rewrite (v_lact I); exact L1). cbn [bind]. sx.
  destruct (@id_one_any g1 (l :: O) M I1 (M1 L1) H31) as (r & g2' & E2' & I2 & N2 & M2).
  rewrite E2 in E2'. injection E2' as -> <-. rewrite !Nat2Z.id.
  destruct (Nat.lt_ge_cases r M) as [L2|L2]; [|rewrite aset_err by (rewrite upd_length, (v_lact I); exact L2); cbn [bind oke]; exact Logic.I].
  rewrite aset_ok by (rewrite upd_length, (v_lact I); exact L2). cbn [bind oke].
  rewrite !Nat2Z.id in *.
  set (h := h_with_cl (h_create N (g_ncol g) l r) c').
  match goal with |- exists h, gv _ _ _ _ ?st => set (s' := st) end.
  exists h.
  assert (Hfk : finkeys s' = finkeys s) by reflexivity.
  assert (P : Permutation (r :: l :: O) (occ ids pend ((id, h) :: nw) s')).
  { unfold O, occ. rewrite Hfk. unfold nkids. cbn [flat_map map fst snd pair_of h h_with_cl h_zero h_one h_create app].
    change (h_zero h) with l. change (h_one h) with r.
    permc. }
  assert (Hlr : l <> r) by (intros ->; apply N2; left; reflexivity).
  assert (Hl0 : ~ In l O) by exact N1.
  assert (Hr0 : ~ In r O) by (intros X; apply N2; right; exact X).
  destruct I as [I1' I2' I3 I4 I5 I6 I7 I8 I9 I10 I11 I12 I13].
  constructor; unfold s'; sx; auto.
  + rewrite !upd_length. exact I4.
  + rewrite hm_put_length by (rewrite I5; exact Hid). exact I5.
  + intros z Hz. rewrite hget_put. destruct (Nat.eqb_spec z id) as [->|]; [|apply I6; exact Hz].
    exfalso. apply NoId. rewrite !in_app_iff. auto.
  + intros z h1 [Hz|Hz].
    * injection Hz as <- <-. rewrite hget_put, Nat.eqb_refl. split; [reflexivity|].
      unfold fresh. splits; auto. exists x, y. splits; auto.
      -- assert (Q := Hc' 0 ltac:(lia)). rewrite (Hc 0 ltac:(lia)) in Q. cbn [Nat.eqb] in Q. unfold cel in Q. injection Q as Q _ _. exact Q.
      -- assert (Q := Hc' 1 ltac:(lia)). cbn [Nat.eqb] in Q. unfold cel in Q. injection Q as Q _ _. exact Q.
    * destruct (I7 z h1 Hz) as (X & Y). split; [|exact Y]. rewrite hget_put.
      destruct (Nat.eqb_spec z id) as [->|]; [congruence|exact X].
  + intros z h1. rewrite hget_put. destruct (Nat.eqb_spec z id) as [->|].
    * intros [= <-]. right. left. reflexivity.
    * intros Hz. destruct (I8 z h1 Hz); [left|right; right]; auto.
  + eapply inv_perm_nat; [exact P|exact I2].
  + intros i Hi. rewrite !nth_upd by (rewrite ?upd_length; lia).
    destruct (Nat.eqb_spec i r) as [->|Nr].
    { split; auto. intros _. unfold nkids. cbn [flat_map snd pair_of h h_with_cl h_create h_zero h_one app]. rewrite !in_app_iff. cbn [In]. auto 8. }
    destruct (Nat.eqb_spec i l) as [->|Nl].
    { split; auto. intros _. unfold nkids. cbn [flat_map snd pair_of h h_with_cl h_create h_zero h_one app]. rewrite !in_app_iff. cbn [In]. auto 8. }
    rewrite I11 by exact Hi. unfold nkids. cbn [flat_map snd pair_of h h_with_cl h_create h_zero h_one app map fst].
    repeat (rewrite ?in_app_iff; cbn [In]). split; intros X; intuition congruence.
  + intros z Hz. specialize (I13 z Hz). match goal with |- context [finkeys ?x] => change (finkeys x) with (finkeys s) end. cbn [map fst]. repeat (rewrite ?in_app_iff in *; cbn [In] in * ). tauto.
Qed.

Lemma g_init_part_ok s0 ids rest nw s cache p h :
  ready g ws data M s0 -> hget (x_hcl s0) p = Some h -> In p ids -> count_eq p (x_asg s0) = 0 ->
  gv s0 ids (h_zero h :: h_one h :: rest) nw s ->
  pok (init_part g data p (s, cache)) (fun r => snd r = cache ++ [p] /\ exists nw', gv s0 ids rest nw' (fst r)).
Proof.
  intros R Hp Hin Hc0 I. pose proof R as (La & Lc & Cnt & _).
  assert (Hch0 : ch h 0 = h_zero h) by reflexivity. assert (Hch1 : ch h 1 = h_one h) by reflexivity.
  pose proof (inv_nodup (v_ids I)) as ND.
  assert (Hne : h_zero h <> h_one h).
  { intros E. apply NoDup_remove_2 in ND. apply ND. rewrite in_app_iff. right. left. symmetry. exact E. }
  assert (Lz : h_zero h < M) by (apply (inv_lt (v_ids I) (v_max I)); unfold occ; rewrite !in_app_iff; cbn [In]; auto).
  assert (Lo : h_one h < M) by (apply (inv_lt (v_ids I) (v_max I)); unfold occ; rewrite !in_app_iff; cbn [In]; auto).
  assert (Lp : p < M) by (apply (inv_lt (v_ids I) (v_max I)); unfold occ; rewrite !in_app_iff; cbn [In]; auto).
  assert (Az : nth (h_zero h) (x_act s) false = true) by (apply (v_act I Lz); rewrite !in_app_iff; cbn [In]; auto).
  assert (Ao : nth (h_one h) (x_act s) false = true) by (apply (v_act I Lo); rewrite !in_app_iff; cbn [In]; auto).
  unfold init_part.
  rewrite (@hm_ref_ok _ (x_hcl s) p h) by (rewrite (v_old I Hin); exact Hp). cbn [bind].
  apply pok_bind, pok_okp. eapply okp_mono; [apply (@g_retire_ok s0 ids (h_one h :: rest) nw s p h 0 R Hp ltac:(lia) I)|].
  intros (s1 & lb) H1. cbn [fst snd] in *. rewrite Hch0 in H1.
  assert (H2 : okp (retire g h 1 (h_one h) s1) (fun r =>
    exists pend, gv s0 ids pend nw (fst r) /\
      Permutation pend ((if lb then [] else [h_zero h]) ++ (if snd r then [] else [h_one h]) ++ rest) /\
      nth (h_zero h) (x_act (fst r)) false = negb lb /\ nth (h_one h) (x_act (fst r)) false = negb (snd r) /\
      (lb = false -> 2 <= count_eq (h_zero h) (x_asg s0)) /\
      (snd r = false -> 2 <= count_eq (h_one h) (x_asg s0)))).
  { destruct H1 as [(-> & Ea & I1)|(-> & -> & Hm)].
    - eapply okp_mono; [apply (@g_retire_ok s0 ids rest nw s1 p h 1 R Hp ltac:(lia) I1)|].
      intros (s2 & rb) H2. cbn [fst snd] in *. rewrite Hch1 in H2.
      destruct H2 as [(-> & Ea2 & I2)|(-> & -> & Hm2)].
      + exists rest. cbn [negb app]. splits; auto; try discriminate.
        * rewrite Ea2, Ea. rewrite !nth_upd by (rewrite ?upd_length, (v_lact I); lia).
          rewrite Nat.eqb_refl. destruct (h_zero h =? h_one h); reflexivity.
        * rewrite Ea2. rewrite nth_upd by (rewrite (v_lact I1); lia). rewrite Nat.eqb_refl. reflexivity.
      + exists (h_one h :: rest). cbn [negb app]. splits; auto; try discriminate.
        * rewrite Ea, nth_upd by (rewrite (v_lact I); lia). rewrite Nat.eqb_refl. reflexivity.
        * rewrite Ea, nth_upd by (rewrite (v_lact I); lia).
          destruct (Nat.eqb_spec (h_one h) (h_zero h)); [congruence|exact Ao].
        * intros _. lia.
    - assert (Pm : Permutation (h_zero h :: h_one h :: rest) (h_one h :: h_zero h :: rest)) by constructor.
      pose proof (gv_perm Pm I) as I1.
      eapply okp_mono; [apply (@g_retire_ok s0 ids (h_zero h :: rest) nw s p h 1 R Hp ltac:(lia) I1)|].
      intros (s2 & rb) H2. cbn [fst snd] in *. rewrite Hch1 in H2.
      destruct H2 as [(-> & Ea2 & I2)|(-> & -> & Hm2)].
      + exists (h_zero h :: rest). cbn [negb app]. splits; auto; try discriminate.
        * rewrite Ea2, nth_upd by (rewrite (v_lact I); lia).
          destruct (Nat.eqb_spec (h_zero h) (h_one h)); [congruence|exact Az].
        * rewrite Ea2, nth_upd by (rewrite (v_lact I); lia). rewrite Nat.eqb_refl. reflexivity.
        * intros _. lia.
      + exists (h_zero h :: h_one h :: rest). cbn [negb app]. splits; auto; try lia; try discriminate. }
  cbn [oke]. apply pok_bind, pok_okp. eapply okp_mono; [exact H2|]. clear H2 H1.
  intros (s2 & rb) (pend & I2 & Pp & Az2 & Ao2 & Hz & Ho). cbn [fst snd] in *.
  rewrite (v_counts I2), (@aget_nth _ _ _ 0%Z) by lia. cbn [bind]. rewrite Cnt, Hc0 by exact Lp. cbn [Z.of_nat Z.eqb assert_ bind].
  assert (Ln : g_nrow g = length (x_asg s2)) by (rewrite (v_asg I2), La; reflexivity). rewrite Ln.
  apply pok_bind, pok_okp. eapply okp_mono; [apply (@scan_ok (x_act s2) (x_asg s2) (h_zero h) (h_one h) lb rb); auto; rewrite (v_lact I2); assumption|].
  intros c (Sl & Sr & _). rewrite (v_asg I2) in Sl, Sr.
  destruct (side_end Sl) as (Sl1 & Sl2). destruct (side_end Sr) as (Sr1 & Sr2). rewrite La in Sl2, Sr2.
  unfold spawn. rewrite bind_assoc.
  assert (Right : forall st nw' q, gv s0 ids q nw' st ->
    Permutation q ((if rb then [] else [h_one h]) ++ rest) ->
    pok (let* s := spawn1 g data (h_one h) (r0 (sc_cp c)) (r1 (sc_cp c)) st in Ok (s, cache ++ [p])) (fun r => snd r = cache ++ [p] /\ exists nw', gv s0 ids rest nw' (fst r))).
  { intros st nw' q X Pq. destruct rb.
    - destruct (Sr1 eq_refl) as (-> & ->). cbn [spawn1 bind app] in *. cbn [oke fst snd]. split; auto.
      exists nw'. exact (gv_perm Pq X).
    - pose proof (Ho eq_refl) as Hm. destruct (Sr2 eq_refl Hm) as (x & y & -> & -> & Hxy & Hy & Ex & Ey).
      cbn [app] in Pq. pose proof (gv_perm Pq X) as X'.
      apply pok_bind. eapply pok_mono; [apply (@g_spawn1_ok s0 ids rest nw' st (h_one h) x y La X' Hxy Hy Ex Ey)|].
      intros s3 (h3 & I3). cbn [oke fst snd]. eauto. }
  destruct lb.
  - destruct (Sl1 eq_refl) as (-> & ->). cbn [spawn1 bind]. cbn [app] in Pp.
    exact (Right s2 nw pend I2 Pp).
  - pose proof (Hz eq_refl) as Hm. destruct (Sl2 eq_refl Hm) as (x & y & -> & -> & Hxy & Hy & Ex & Ey).
    cbn [app] in Pp. pose proof (gv_perm Pp I2) as X'.
    apply pok_bind. eapply pok_mono; [eapply (@g_spawn1_ok s0 ids _ nw s2 (h_zero h) x y La X' Hxy Hy Ex Ey)|].
    intros s3 (h3 & I3). exact (Right s3 ((h_zero h, h3) :: nw) _ I3 (Permutation_refl _)).
Qed.

(** removing the old partitions *)
Lemma g_remove_ok s0 nw : forall rem s, gv s0 rem [] nw s ->
  okp (for_each rem (fun id s =>
    let* m := hm_erase (x_hcl s) id in
    let* s := deactivate (with_hcl s m) id in
    Ok (with_curr (with_ider s (id_reclaim (x_ider s) (Z.of_nat id))) (w64 (x_curr s - 1)))) s)
  (fun s' => gv s0 [] [] nw s').
Proof.
  intros rem s I. apply (@for_each_okp _ _ (fun rem s' => gv s0 rem [] nw s')); [auto|].
  clear rem s I. intros id t s I.
  pose proof (inv_nodup (v_ids I)) as ND. unfold occ in ND. cbn [app] in ND.
  assert (Nid : ~ In id (t ++ map fst nw ++ nkids nw ++ finkeys s)) by (inversion ND; auto).
  assert (Hid : id < M) by (apply (inv_lt (v_ids I) (v_max I)); unfold occ; cbn [app In]; auto).
  unfold hm_erase. rewrite aset_ok by (rewrite (v_lhcl I); exact Hid). cbn [bind].
  unfold deactivate. sx. rewrite aset_ok by (rewrite (v_lact I); exact Hid). cbn [bind okp]. sx.
  destruct I as [I1 I2 I3 I4 I5 I6 I7 I8 I9 I10 I11 I12 I13].
  constructor; sx; auto.
  - rewrite upd_length. exact I4.
  - rewrite upd_length. exact I5.
  - intros p Hp. rewrite hget_none_upd. destruct (Nat.eqb_spec p id) as [->|]; [|apply I6; right; exact Hp].
    destruct Nid. apply in_app_iff. auto.
  - intros p h Hp. destruct (I7 p h Hp) as (X & Y). split; [|exact Y]. rewrite hget_none_upd.
    destruct (Nat.eqb_spec p id) as [->|]; [|exact X]. destruct Nid. rewrite !in_app_iff. right; left.
    apply in_map_iff. exists (id, h). auto.
  - intros p h. rewrite hget_none_upd. destruct (Nat.eqb_spec p id) as [->|]; [discriminate|]. intros Hh.
    destruct (I8 p h Hh) as [[X|X]|X]; [congruence|auto|auto].
  - apply (@reclaim_inv _ [] id). exact I9.
  - intros i Hi. rewrite nth_upd by (rewrite I4; exact Hid). destruct (Nat.eqb_spec i id) as [->|].
    + split; [discriminate|]. intros X. destruct Nid. rewrite !in_app_iff in *. cbn [In] in X. tauto.
    + rewrite I11 by exact Hi. cbn [app In]. intuition congruence.
Qed.

(** the invariant of HclustSplit, whatever the cluster count *)
Definition ginv (s : hst N) : Prop := exists c, rinv g ws data M FP 0 (with_curr s c).

Lemma ginv_intro (s : hst N) : einv g ws data M s -> inv (x_ider s) (map Z.of_nat (all_ids s)) ->
  (id_max (x_ider s) + 1 <= Z.of_nat M)%Z ->
  (forall i, i < M -> nth i (x_act s) false = true <-> In i (hm_keys (x_hcl s) ++ kids (x_hcl s))) ->
  fin_ok g FP (x_asg s) (x_final s) ->
  (forall r, r < n -> hget (x_hcl s) (nth r (x_part s) 0) = None -> In (nth r (x_asg s) 0) (finkeys s)) -> ginv s.
Proof.
  clear. intros [A1 A2 A3 A4 A5 A6 A7 A8 A9 A10] B C D E F. exists (Z.of_nat (length (all_ids s))). constructor; sx; auto.
  - constructor; auto.
  - exists 0. split; [|lia]. rewrite Nat.add_0_r. cbn [Z.of_nat]. rewrite Z.add_0_r. reflexivity.
  - lia.
Qed.

Lemma g_init_splits_ok s0 : ginv s0 -> ready g ws data M s0 -> settled g s0 ->
  pok (init_splits g data s0) (fun s' => ginv s' /\ x_asg s' = x_asg s0 /\ x_part s' = x_asg s0 /\ x_counts s' = x_counts s0 /\
    (forall p h, hget (x_hcl s') p = Some h -> fresh g data (x_asg s0) p h)).
Proof.
  intros (c0 & R) Rd St.
  set (ids := hm_keys (x_hcl s0)) in *.
  unfold init_splits. fold ids.
  assert (Lz : forall p h, hget (x_hcl s0) p = Some h -> count_eq p (x_asg s0) = 0).
  { intros p h Hh. apply count_eq_zero. change (x_asg s0) with (x_asg (with_curr s0 c0)). rewrite (e_asg (r_e R)). intros r Hr E.
    destruct (hget (x_hcl s0) (nth r (x_part s0) 0)) as [h'|] eqn:Eh.
    - destruct (St r h' Hr Eh) as (j & Hj & Ej). destruct (e_live (r_e R) (p := nth r (x_part s0) 0) Eh) as (_ & _ & _ & Hk).
      destruct (Hk j Hj) as (_ & _ & X). sxin. congruence.
    - destruct (e_rows (r_e R) Hr) as (_ & Hrow). sxin. rewrite Eh in Hrow. destruct Hrow as (Ea & _). congruence. }
  assert (Start : gv s0 ids (kids (x_hcl s0)) [] s0).
  { destruct R as [RE RI RM RA RF RR _ _]. sxin. constructor; auto.
    - apply (e_act RE).
    - apply (e_hcl RE).
    - intros p h [].
    - intros p h Hh. left. apply keys_in. eauto.
    - intros i Hi. rewrite RA by exact Hi. cbn [map nkids flat_map]. rewrite !app_nil_r. reflexivity.
    - intros r Hr. rewrite in_app_iff. cbn [map app].
      destruct (hget (x_hcl s0) (nth r (x_part s0) 0)) as [h|] eqn:E.
      + left. destruct (St r h Hr E) as (j & Hj & ->). apply in_kids. exists (nth r (x_part s0) 0), h, j. auto.
      + right. apply RR; auto. }
  apply pok_bind. eapply pok_mono.
  { apply (@for_each_pok _ _ (fun rem st => snd st ++ rem = ids /\ exists nw,
      gv s0 ids (flat_map (kp (x_hcl s0)) rem) nw (fst st))).
    - cbn [fst snd app]. split; auto. exists []. exact Start.
    - intros p t (s & cache) (Ec & nw & I). cbn [fst snd] in *.
      assert (Hp : In p ids) by (rewrite <- Ec; apply in_app_iff; cbn [In]; auto).
      pose proof Hp as Hp'. apply keys_in in Hp' as (h & Hh). 
      assert (Ek : flat_map (kp (x_hcl s0)) (p :: t) = h_zero h :: h_one h :: flat_map (kp (x_hcl s0)) t).
      { cbn [flat_map]. unfold kp at 1. rewrite Hh. reflexivity. }
      rewrite Ek in I.
      eapply pok_mono; [apply (@g_init_part_ok s0 ids _ nw s cache p h Rd Hh Hp (Lz p h Hh) I)|].
      intros (s' & cache') (E' & nw' & I'). cbn [fst snd] in *. subst cache'. rewrite <- app_assoc. cbn [app].
      split; [exact Ec|]. exists nw'. auto. }
  intros (s1 & cache) (Ec & nw & I1). cbn [fst snd flat_map] in *. rewrite app_nil_r in Ec. subst cache.
  apply pok_bind, pok_okp. eapply okp_mono; [apply (@g_remove_ok s0 nw ids s1 I1)|].
  intros s2 I2. cbn [oke]. sx.
  pose proof I2 as I2'. destruct I2' as [J1 J2 J3 J4 J5 J6 J7 J8 J9 J10 J11 J12 J13].
  unfold occ in J9. cbn [app] in J9, J11, J13.
  pose proof (inv_nodup J9) as ND.
  assert (NDn : NoDup (map fst nw)) by (apply (nodup_app_l ND)).
  assert (Hg : forall p h, hget (x_hcl s2) p = Some h <-> In (p, h) nw).
  { intros p h. split; [intros X; destruct (J8 p h X) as [[]|Y]; exact Y|]. intros X. apply J7. exact X. }
  destruct (keys_perm_list NDn Hg) as (Pk & Pd).
  assert (NDk : NoDup (nkids nw)) by (apply nodup_app_r in ND; apply (nodup_app_l ND)).
  set (s' := with_part s2 (x_asg s2)).
  assert (Pall : Permutation (map fst nw ++ nkids nw ++ finkeys s2) (all_ids s')).
  { unfold all_ids. change (finkeys s') with (finkeys s2). change (x_hcl s') with (x_hcl s2).
    apply Permutation_app; [symmetry; exact Pk|]. apply Permutation_app_tail. symmetry. exact Pd. }
  assert (Hfresh : forall p h, hget (x_hcl s2) p = Some h -> fresh g data (x_asg s0) p h) by (intros p h X; apply Hg in X; apply (J7 p h X)).
  assert (Hlt : forall i, In i (map fst nw ++ nkids nw ++ finkeys s2) -> i < M) by (apply (inv_lt J9 J10)).
  assert (InK : forall p h, hget (x_hcl s2) p = Some h -> In p (map fst nw)) by (intros p h X; apply Hg in X; apply in_map_iff; exists (p, h); auto).
  assert (InD : forall p h j, hget (x_hcl s2) p = Some h -> j < 2 -> In (ch h j) (nkids nw)).
  { intros p h j X Hj. apply Hg in X. unfold nkids. apply in_flat_map. exists (p, h). split; auto. cbn [snd]. destruct j as [|[|]]; cbn; auto; lia. }
  assert (Hnone : forall i, In i (nkids nw ++ finkeys s2) -> hget (x_hcl s2) i = None).
  { intros i Hi. destruct (hget (x_hcl s2) i) as [h|] eqn:E; auto. exfalso. apply (nodup_app_dis ND (InK _ _ E)). exact Hi. }
  splits; auto.
  apply ginv_intro; change (x_asg s') with (x_asg s2); change (x_part s') with (x_asg s2); change (x_act s') with (x_act s2);
    change (x_hcl s') with (x_hcl s2); change (x_counts s') with (x_counts s2); change (x_final s') with (x_final s2);
    change (x_curr s') with (x_curr s2); change (x_ider s') with (x_ider s2); change (finkeys s') with (finkeys s2); auto.
  + destruct Rd as (La & Lc & Cnt & _).
    constructor; change (x_asg s') with (x_asg s2); change (x_part s') with (x_asg s2); change (x_act s') with (x_act s2);
    change (x_hcl s') with (x_hcl s2); change (x_counts s') with (x_counts s2); auto.
    * rewrite J1; exact La.
    * rewrite J1; exact La.
    * rewrite J3; exact Lc.
    * intros p h Hh. destruct (Hfresh p h Hh) as (Hcv & Hsh & _). pose proof (InK p h Hh) as X.
      assert (Lp : p < M) by (apply Hlt; rewrite in_app_iff; auto). splits; auto.
      -- apply J11; auto. rewrite in_app_iff. auto.
      -- intros j Hj. pose proof (InD p h j Hh Hj) as Y.
         assert (Lc' : ch h j < M) by (apply Hlt; rewrite !in_app_iff; auto). splits; auto.
         ++ apply J11; auto. rewrite in_app_iff. auto.
         ++ apply Hnone. rewrite in_app_iff. auto.
    * intros p h p' h' j j' Hh Hh' Hj Hj' E. apply Hg in Hh. apply Hg in Hh'. apply (nkids_inj NDk Hh Hh' Hj Hj' E).
    * intros r Hr. specialize (J13 r Hr). rewrite J1. 
      assert (Lr : nth r (x_asg s0) 0 < M) by (apply Hlt; rewrite !in_app_iff in *; tauto). split; [exact Lr|].
      rewrite in_app_iff in J13. destruct (hget (x_hcl s2) (nth r (x_asg s0) 0)) as [h|] eqn:E.
      -- left. split; auto. apply (Hfresh _ _ E).
      -- split; auto. destruct (nth (nth r (x_asg s0) 0) (x_act s2) false) eqn:Ea; auto. exfalso.
         apply J11 in Ea; auto. rewrite in_app_iff in Ea.
         assert (Nk : ~ In (nth r (x_asg s0) 0) (map fst nw)).
         { intros X. apply in_map_iff in X as ((p & h) & Ep & X). cbn [fst] in Ep. subst p. apply Hg in X. congruence. }
         destruct J13 as [X|X]; [tauto|]. destruct Ea as [Y|Y]; [tauto|].
         apply nodup_app_r in ND. apply (nodup_app_dis ND Y X).
    * intros p h Hh Hc. destruct (Hfresh p h Hh) as (Hcv & _). congruence.
    * intros i Hi _. rewrite J3, J1. apply Cnt. exact Hi.
  + eapply inv_perm_nat; [exact Pall|exact J9].
  + intros i Hi. rewrite J11 by exact Hi. rewrite !in_app_iff.
    split; (intros [X|X]; [left|right]); first [exact (Permutation_in _ Pk X)|exact (Permutation_in _ Pd X)|exact (Permutation_in _ (Permutation_sym Pk) X)|exact (Permutation_in _ (Permutation_sym Pd) X)].
  + rewrite J1. exact J12.
  + intros r Hr E. specialize (J13 r Hr). rewrite J1 in *. rewrite in_app_iff in J13. destruct J13 as [X|X]; [|exact X].
    apply in_map_iff in X as ((p & h) & Ep & X). cbn [fst] in Ep. subst p. apply Hg in X. congruence.
Qed.
End Split.
