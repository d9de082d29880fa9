(** Splitting the partitions of hierarchical clustering: init_splits. *)
From Coq Require Import Permutation.
From Verif Require Import Base Num DistModel ClustersModel ClustersView ClustersProofs MatLemmas
  PartitionModel ParModel KmeansModel ParProofs NearProofs KmeansProofs UpdateProofs RunProofs InitProofs Spec.
From Verif Require Import ContainersModel PropertiesIds HclustModel HclustProofs HclustUpdate HclustIter.
Set Implicit Arguments.
Unset Strict Implicit.

(* ------------------------------------------------------------------ *)
(** * The scan for the first two rows of each child *)

Lemma count_eq_app c A B : count_eq c (A ++ B) = count_eq c A + count_eq c B.
Proof. unfold count_eq. rewrite filter_app, app_length. reflexivity. Qed.

Lemma count_firstn_S c A i : i < length A ->
  count_eq c (firstn (S i) A) = count_eq c (firstn i A) + (if nth i A 0 =? c then 1 else 0).
Proof.
  intros H. assert (E : firstn (S i) A = firstn i A ++ [nth i A 0]).
  { revert A H. induction i as [|i IH]; intros [|a A] H; simpl in H; try lia; auto.
    cbn [firstn nth app]. f_equal. apply IH. lia. }
  rewrite E, count_eq_app. f_equal. unfold count_eq. cbn [filter]. destruct (nth i A 0 =? c); reflexivity.
Qed.

(** one side of the scan after [i] rows: [b] says the child was retired *)
Definition side (asg : list nat) (id i : nat) (b f0 f1 : bool) (c0 c1 : option nat) : Prop :=
  (b = true /\ f0 = true /\ f1 = true /\ c0 = None /\ c1 = None) \/
  (b = false /\ f0 = false /\ f1 = false /\ c0 = None /\ c1 = None /\ count_eq id (firstn i asg) = 0) \/
  (b = false /\ f0 = true /\ f1 = false /\ c1 = None /\ count_eq id (firstn i asg) = 1 /\
     exists a, c0 = Some a /\ a < i /\ nth a asg 0 = id) \/
  (b = false /\ f0 = true /\ f1 = true /\
     exists a a', c0 = Some a /\ c1 = Some a' /\ a < a' /\ a' < i /\ nth a asg 0 = id /\ nth a' asg 0 = id).

Lemma side_step asg id i b f0 f1 c0 c1 : i < length asg -> nth i asg 0 <> id ->
  side asg id i b f0 f1 c0 c1 -> side asg id (S i) b f0 f1 c0 c1.
Proof.
  intros Hi Hn H. unfold side in *. rewrite count_firstn_S by exact Hi.
  destruct (Nat.eqb_spec (nth i asg 0) id) as [E|_]; [contradiction|]. rewrite Nat.add_0_r.
  destruct H as [H|[H|[H|H]]]; [left; exact H|right; left; exact H|right; right; left|right; right; right].
  - destruct H as (A & B & C & D & E & a & F & G & K). splits; auto. exists a. splits; auto.
  - destruct H as (A & B & C & a & a' & F & G & K & K' & X). splits; auto. exists a, a'. splits; auto; try lia; apply X.
Qed.

Lemma side_both asg id i b c0 c1 : side asg id i b true true c0 c1 -> side asg id (S i) b true true c0 c1.
Proof.
  unfold side. intros [H|[H|[H|H]]]; try (destruct H as (? & ? & ? & _); discriminate); [left; exact H|].
  right; right; right. destruct H as (A & B & C & a & a' & F & G & K & K' & X). splits; auto.
  exists a, a'. splits; auto; try lia; apply X.
Qed.

Definition scan_inv (asg : list nat) (zid oid : nat) (lb rb : bool) (i : nat) (c : scan) : Prop :=
  side asg zid i lb (sc_l0 c) (sc_l1 c) (l0 (sc_cp c)) (l1 (sc_cp c)) /\
  side asg oid i rb (sc_r0 c) (sc_r1 c) (r0 (sc_cp c)) (r1 (sc_cp c)) /\
  (sc_done c = true -> sc_l0 c && sc_l1 c && sc_r0 c && sc_r1 c = true).

Lemma scan_ok act asg zid oid lb rb :
  zid <> oid -> zid < length act -> oid < length act ->
  nth zid act false = negb lb -> nth oid act false = negb rb ->
  okp (loop (length asg) (scan_row act asg zid oid) (mkScan cp_none lb lb rb rb false))
      (scan_inv asg zid oid lb rb (length asg)).
Proof.
  intros Hne Lz Lo Az Ao. apply (@loop_okp _ (scan_inv asg zid oid lb rb)).
  - unfold scan_inv; cbn [sc_cp sc_l0 sc_l1 sc_r0 sc_r1 sc_done cp_none l0 l1 r0 r1]. splits.
    + destruct lb; [left; auto|right; left; splits; auto].
    + destruct rb; [left; auto|right; left; splits; auto].
    + discriminate.
  - intros i c Hi (Hl & Hr & Hd). unfold scan_row.
    destruct (sc_done c) eqn:Ed.
    { cbn [okp]. specialize (Hd eq_refl). apply andb_prop in Hd as (Hd & D3). apply andb_prop in Hd as (Hd & D2).
      apply andb_prop in Hd as (D0 & D1). unfold scan_inv. rewrite D0, D1, D2, D3 in *. splits; auto using side_both. }
    destruct (sc_l0 c && sc_l1 c && sc_r0 c && sc_r1 c) eqn:Ea.
    { cbn [okp]. unfold scan_inv; cbn [sc_cp sc_l0 sc_l1 sc_r0 sc_r1 sc_done]. pose proof Ea as Ea'.
      apply andb_prop in Ea as (Hd' & D3). apply andb_prop in Hd' as (Hd' & D2).
      apply andb_prop in Hd' as (D0 & D1). rewrite D0, D1, D2, D3 in *. splits; auto using side_both. }
    rewrite (@aget_nth _ asg i 0 Hi). cbn [bind].
    destruct (Nat.eqb_spec (nth i asg 0) zid) as [Ez|Nz].
    + assert (No : nth i asg 0 <> oid) by congruence. pose proof (side_step Hi No Hr) as Hr'.
      destruct Hl as [Hl|[Hl|[Hl|Hl]]].
      * destruct Hl as (A & B & C & D & E). rewrite B, C. cbn [negb okp]. unfold scan_inv. rewrite B, C, D, E, Ed.
        splits; auto; [left; auto|discriminate].
      * destruct Hl as (A & B & C & D & E & F). rewrite B. cbn [negb okp]. unfold scan_inv; cbn [sc_cp sc_l0 sc_l1 sc_r0 sc_r1 sc_done l0 l1 r0 r1].
        splits; auto; [|discriminate]. right; right; left. splits; auto.
        -- rewrite count_firstn_S, F by exact Hi. apply Nat.eqb_eq in Ez. rewrite Ez. reflexivity.
        -- exists i. auto.
      * destruct Hl as (A & B & C & D & E & a & F & G & K). rewrite B, C. cbn [negb].
        rewrite (@aget_nth _ act oid false Lo). cbn [bind okp]. unfold scan_inv; cbn [sc_cp sc_l0 sc_l1 sc_r0 sc_r1 sc_done l0 l1 r0 r1].
        splits; auto.
        -- right; right; right. splits; auto. exists a, i. splits; auto.
        -- rewrite Ao, negb_involutive. intros ->. destruct Hr as [Hr|[Hr|[Hr|Hr]]]; destruct Hr as (X & Y & Z & _); try discriminate.
           try rewrite B; rewrite Y, Z; reflexivity.
      * destruct Hl as (A & B & C & a & a' & F & G & K & K' & X & X'). rewrite B, C. cbn [negb okp]. unfold scan_inv. rewrite B, C, Ed.
        splits; auto; [|discriminate]. right; right; right. splits; auto. exists a, a'. splits; auto.
    + pose proof (side_step Hi Nz Hl) as Hl'.
      destruct (Nat.eqb_spec (nth i asg 0) oid) as [Eo|No].
      2:{ cbn [okp]. unfold scan_inv. rewrite Ed. splits; auto; [apply side_step; auto|discriminate]. }
      destruct Hr as [Hr|[Hr|[Hr|Hr]]].
      * destruct Hr as (A & B & C & D & E). rewrite B, C. cbn [negb okp]. unfold scan_inv. rewrite B, C, D, E, Ed.
        splits; auto; [left; auto|discriminate].
      * destruct Hr as (A & B & C & D & E & F). rewrite B. cbn [negb okp]. unfold scan_inv; cbn [sc_cp sc_l0 sc_l1 sc_r0 sc_r1 sc_done l0 l1 r0 r1].
        splits; auto; [|discriminate]. right; right; left. splits; auto.
        -- rewrite count_firstn_S, F by exact Hi. apply Nat.eqb_eq in Eo. rewrite Eo. reflexivity.
        -- exists i. auto.
      * destruct Hr as (A & B & C & D & E & a & F & G & K). rewrite B, C. cbn [negb].
        rewrite (@aget_nth _ act zid false Lz). cbn [bind okp]. unfold scan_inv; cbn [sc_cp sc_l0 sc_l1 sc_r0 sc_r1 sc_done l0 l1 r0 r1].
        splits; auto.
        -- right; right; right. splits; auto. exists a, i. splits; auto.
        -- rewrite Az, negb_involutive. intros ->. destruct Hl as [Hl|[Hl|[Hl|Hl]]]; destruct Hl as (X & Y & Z & _); try discriminate.
           try rewrite B; rewrite Y, Z; reflexivity.
      * destruct Hr as (A & B & C & a & a' & F & G & K & K' & X & X'). rewrite B, C. cbn [negb okp]. unfold scan_inv. rewrite B, C, Ed.
        splits; auto; [|discriminate]. right; right; right. splits; auto. exists a, a'. splits; auto.
Qed.

(** what the scan delivers for one child *)
Lemma side_end asg id b f0 f1 c0 c1 : side asg id (length asg) b f0 f1 c0 c1 ->
  (b = true -> c0 = None /\ c1 = None) /\
  (b = false -> 2 <= count_eq id asg -> exists a a', c0 = Some a /\ c1 = Some a' /\ a < a' /\ a' < length asg /\ nth a asg 0 = id /\ nth a' asg 0 = id).
Proof.
  unfold side. rewrite firstn_all. intros [H|[H|[H|H]]].
  - destruct H as (-> & _ & _ & -> & ->). split; auto; discriminate.
  - destruct H as (-> & _ & _ & _ & _ & H). split; [discriminate|]. lia.
  - destruct H as (-> & _ & _ & _ & H & _). split; [discriminate|]. lia.
  - destruct H as (-> & _ & _ & H). split; [discriminate|]. auto.
Qed.

(* ------------------------------------------------------------------ *)
(** * The ids in use *)

Lemma bind_assoc {A B C} (r : res A) (f : A -> res B) (h : B -> res C) :
  (let* y := (let* x := r in f x) in h y) = let* x := r in let* y := f x in h y.
Proof. destruct r; reflexivity. Qed.

Lemma inv_nodup ider l : inv ider (map Z.of_nat l) -> NoDup l.
Proof.
  intros (H & _). assert (G : NoDup (map Z.of_nat l)).
  { revert H. generalize (id_rec ider). induction l0 as [|x t IH]; auto. cbn [app]. intros H. inversion H; auto. }
  revert G. clear. induction l as [|x l IH]; cbn [map]; intros H; constructor; inversion H; subst; auto.
  intros Hx. apply H2. apply in_map_iff. eauto.
Qed.

Lemma inv_lt ider l M : inv ider (map Z.of_nat l) -> (id_max ider + 1 <= Z.of_nat M)%Z -> forall i, In i l -> i < M.
Proof.
  intros (_ & B & _) H i Hi. assert (In (Z.of_nat i) (id_rec ider ++ map Z.of_nat l)) by (apply in_app_iff; right; apply in_map; exact Hi).
  apply B in H0. lia.
Qed.

Lemma inv_perm_nat ider l l' : Permutation l l' -> inv ider (map Z.of_nat l) -> inv ider (map Z.of_nat l').
Proof. intros P. apply inv_perm. apply Permutation_map. exact P. Qed.

Lemma inv_length ider l M : inv ider (map Z.of_nat l) -> (id_max ider + 1 <= Z.of_nat M)%Z -> length l <= M.
Proof. intros (_ & _ & L & _) H. rewrite app_length, map_length in L. lia. Qed.

(** one new id *)
Lemma id_one_nat ider l M : inv ider (map Z.of_nat l) -> (id_max ider + 1 <= Z.of_nat M)%Z ->
  length l + 1 <= M -> (Z.of_nat M <= 2 ^ 32)%Z ->
  exists i ider', id_one ider = (Z.of_nat i, ider') /\ inv ider' (map Z.of_nat (i :: l)) /\
    (id_max ider' + 1 <= Z.of_nat M)%Z /\ ~ In i l /\ i < M /\
    (id_max ider' + 1 <= Z.max (id_max ider + 1) (Z.of_nat (length l + 1)))%Z.
Proof.
  intros I HM Hl H32. destruct (id_one ider) as (x & ider') eqn:E.
  destruct (one_inv I ltac:(rewrite map_length; lia) E) as (I' & Hn).
  assert (Hx : (0 <= x)%Z). { destruct I' as (_ & B & _). apply (B x). apply in_app_iff. cbn [In]. auto. }
  exists (Z.to_nat x), ider'. cbn [map]. rewrite Z2Nat.id by exact Hx.
  assert (HM' : (id_max ider' + 1 <= Z.of_nat M)%Z).
  { unfold id_one in E. destruct (id_rec ider) as [|y t] eqn:Er.
    - destruct I as (_ & _ & L & _). rewrite Er in L. cbn [app] in L. rewrite map_length in L.
      injection E as _ <-. cbn [id_max]. unfold w32. rewrite Z.mod_small by lia. lia.
    - injection E as _ <-. exact HM. }
  splits; auto.
  - intros Hi. apply Hn. rewrite <- (Z2Nat.id x Hx). apply in_map. exact Hi.
  - destruct I' as (_ & B & _). assert (Q : In x (id_rec ider' ++ x :: map Z.of_nat l)) by (apply in_app_iff; cbn [In]; auto).
    apply B in Q. lia.
  - unfold id_one in E. destruct (id_rec ider) as [|y t] eqn:Er.
    + destruct I as (_ & _ & L & _). rewrite Er in L. cbn [app] in L. rewrite map_length in L.
      injection E as _ <-. cbn [id_max]. unfold w32. rewrite Z.mod_small by lia. lia.
    + injection E as _ <-. cbn [id_max]. lia.
Qed.

Lemma reclaim_inv ider b i l : inv ider (map Z.of_nat (b ++ i :: l)) -> inv (id_reclaim ider (Z.of_nat i)) (map Z.of_nat (b ++ l)).
Proof.
  intros (ND & B & L & Mx). unfold inv. cbn [id_reclaim id_rec id_max].
  rewrite map_app in *. cbn [map] in *.
  assert (P : Permutation (id_rec ider ++ map Z.of_nat b ++ Z.of_nat i :: map Z.of_nat l) ((Z.of_nat i :: id_rec ider) ++ map Z.of_nat b ++ map Z.of_nat l)).
  { cbn [app]. rewrite !app_assoc. apply Permutation_sym, Permutation_middle. }
  splits; try lia.
  - eapply Permutation_NoDup; eauto.
  - intros x Hx. apply B. eapply Permutation_in; [apply Permutation_sym; exact P|exact Hx].
  - rewrite <- (Permutation_length P). exact L.
Qed.

(** is the root's id in use? *)
Definition zin (l : list nat) : nat := if in_dec Nat.eq_dec 0 l then 1 else 0.
Lemma zin_perm l l' : Permutation l l' -> zin l = zin l'.
Proof.
  intros P. unfold zin. destruct (in_dec Nat.eq_dec 0 l) as [H|H], (in_dec Nat.eq_dec 0 l') as [H'|H']; auto.
  - destruct H'. eapply Permutation_in; eauto.
  - destruct H. eapply Permutation_in; [apply Permutation_sym|]; eauto.
Qed.
Lemma zin_le l : zin l <= 1. Proof. unfold zin. destruct in_dec; lia. Qed.
Lemma zin_cons i l : ~ In i l -> zin (i :: l) = zin l + (if 0 <? i then 0 else 1).
Proof.
  intros H. unfold zin. destruct (in_dec Nat.eq_dec 0 (i :: l)) as [A|A], (in_dec Nat.eq_dec 0 l) as [B|B]; cbn [In] in *;
  destruct (Nat.ltb_spec 0 i); try lia; try tauto.
  - assert (i = 0) by lia. subst. tauto.
  - destruct A as [A|A]; [lia|tauto].
Qed.

Ltac permc :=
  apply (proj2 (Permutation_count_occ Nat.eq_dec _ _)); intros ?; repeat (rewrite ?count_occ_app; cbn [count_occ app]);
  repeat match goal with |- context [Nat.eq_dec ?a ?b] => destruct (Nat.eq_dec a b) end; lia.
Ltac sx := cbn [with_asg with_part with_act with_hcl with_counts with_ider with_curr with_final x_final x_act x_asg x_part x_hcl x_counts x_ider x_curr].
Ltac sxin := cbn [with_asg with_part with_act with_hcl with_counts with_ider with_curr with_final x_final x_act x_asg x_part x_hcl x_counts x_ider x_curr] in *.

(* ------------------------------------------------------------------ *)
Section Split.
Variable N : Num.
Notation T := (car N).
Notation clusters := (clusters N).
Variables (g : hcfg N) (ws : list (worker N)) (data : list T).
Let d := g_ncol g.
Let n := g_nrow g.
Hypothesis V : valid_input g data.
Hypothesis Hws : wok n d data ws.

Variables (F M : nat).
Hypothesis HM : M = 4 * F - 1.
Hypothesis HF : 2 <= F.
Hypothesis HF32 : (Z.of_nat F <= 2 ^ 29)%Z.
Hypothesis Hcap : h_k g * 2 = F.
Hypothesis Hmin : 2 <= h_min g.

Definition pair_of (h : hclu N) : list nat := [h_zero h; h_one h].
Definition nkids (l : list (nat * hclu N)) : list nat := flat_map (fun e => pair_of (snd e)) l.
Definition finkeys (s : hst N) : list nat := map fst (x_final s).

(** what is known of an output centroid: for hierarchical clustering, that it is the
    centroid of the rows assigned to it *)
Variable FP : list nat -> nat -> list T -> Prop.
Hypothesis FPu : forall asg i v, length v = d -> v = fst (fst (ucel g ws data asg i)) -> FP asg i v.
Definition fin_ok (asg : list nat) (final : list (nat * list T)) : Prop :=
  forall i v, In (i, v) final -> length v = d /\ FP asg i v.

(** by how much the cluster count exceeds the number of clusters *)
Variable e : nat.

Definition kp (m : list (option (hclu N))) (p : nat) : list nat := match hget m p with Some h => pair_of h | None => [] end.
Definition kids (m : list (option (hclu N))) : list nat := flat_map (kp m) (hm_keys m).
Definition all_ids (s : hst N) : list nat := hm_keys (x_hcl s) ++ kids (x_hcl s) ++ finkeys s.
(** where the root's id is: in use as a partition, as another cluster, or free *)
Definition rw (s : hst N) : nat :=
  if in_dec Nat.eq_dec 0 (hm_keys (x_hcl s)) then 2
  else if in_dec Nat.eq_dec 0 (kids (x_hcl s) ++ finkeys s) then 3 else 1.

(** a freshly spawned partition: its two means are two different rows of its own *)
Definition fresh (asg : list nat) (p : nat) (h : hclu N) : Prop :=
  h_conv h = false /\ shaped 2 d (h_cl h) /\
  exists a b, a < b /\ b < n /\ nth a asg 0 = p /\ nth b asg 0 = p /\
    crow (h_cl h) 0 = row data d a /\ crow (h_cl h) 1 = row data d b.

(** [ids]: partitions being replaced; [pend]: children not yet decided; [nw]: new
    partitions; [a]: how often the root's id was activated *)
Definition occ (ids pend : list nat) (nw : list (nat * hclu N)) (s : hst N) : list nat :=
  ids ++ pend ++ map fst nw ++ nkids nw ++ finkeys s.

Record iv (s0 : hst N) (K : nat) (ids pend : list nat) (nw : list (nat * hclu N)) (a : nat) (s : hst N) : Prop := {
  i_asg : x_asg s = x_asg s0;
  i_part : x_part s = x_part s0;
  i_counts : x_counts s = x_counts s0;
  i_lact : length (x_act s) = M;
  i_lhcl : length (x_hcl s) = M;
  i_old : forall p, In p ids -> hget (x_hcl s) p = hget (x_hcl s0) p;
  i_new : forall p h, In (p, h) nw -> hget (x_hcl s) p = Some h /\ fresh (x_asg s0) p h;
  i_keys : forall p h, hget (x_hcl s) p = Some h -> In p ids \/ In (p, h) nw;
  i_ids : inv (x_ider s) (map Z.of_nat (occ ids pend nw s));
  i_max : (id_max (x_ider s) + 1 <= Z.of_nat M)%Z;
  i_act : forall i, i < M -> nth i (x_act s) false = true <-> In i (ids ++ pend ++ map fst nw ++ nkids nw);
  i_fin : fin_ok (x_asg s0) (x_final s);
  i_rows : forall r, r < n -> In (nth r (x_asg s0) 0) (pend ++ map fst nw ++ finkeys s);
  i_cnt : length (x_final s) + length nw + length pend = K;
  i_curr : (x_curr s + Z.of_nat a = Z.of_nat (length (occ ids pend nw s) + e))%Z;
  i_pos : (0 <= x_curr s)%Z;
  i_mono : length (x_final s0) <= length (x_final s);
  i_cub : (x_curr s <= Z.of_nat F + 4)%Z;
  i_perm : Permutation (kids (x_hcl s0) ++ finkeys s0) (pend ++ map fst nw ++ finkeys s);
  i_max2 : (id_max (x_ider s) + 1 <= Z.max (id_max (x_ider s0) + 1) (Z.of_nat (length (occ (hm_keys (x_hcl s0)) pend nw s))))%Z
}.

Lemma M32 : (Z.of_nat M <= 2 ^ 31)%Z.
Proof. clear Hws V. rewrite HM. lia. Qed.

Lemma occ_perm ids pend pend' nw s : Permutation pend pend' -> Permutation (occ ids pend nw s) (occ ids pend' nw s).
Proof. intros P. unfold occ. apply Permutation_app_head, Permutation_app_tail. exact P. Qed.

Lemma iv_perm s0 K ids pend pend' nw a s : Permutation pend pend' -> iv s0 K ids pend nw a s -> iv s0 K ids pend' nw a s.
Proof.
  clear Hws V. intros P [H1 H2 H3 H4 H5 H6 H7 H8 H9 H10 H11 H12 H13 H14 H15 H16 H17 H18 H19 H20]. constructor; auto.
  - eapply inv_perm_nat; [apply occ_perm; exact P|exact H9].
  - intros i Hi. rewrite H11 by exact Hi. rewrite !in_app_iff.
    assert (In i pend <-> In i pend') by (split; apply Permutation_in; auto using Permutation_sym). tauto.
  - intros r Hr. specialize (H13 r Hr). rewrite !in_app_iff in *.
    destruct H13 as [X|X]; [left; eapply Permutation_in; eauto|right; exact X].
  - rewrite <- (Permutation_length P). exact H14.
  - rewrite H15. f_equal. f_equal. apply Permutation_length, occ_perm. exact P.
  - rewrite H19. apply Permutation_app_tail. exact P.
  - rewrite <- (Permutation_length (occ_perm (hm_keys (x_hcl s0)) nw s P)). exact H20.
Qed.

Lemma cap_eq s : at_cluster_cap g s = (Z.of_nat F <? x_curr s)%Z.
Proof.
  clear - HF HF32 Hcap. unfold at_cluster_cap. f_equal. unfold w32. rewrite Z.mod_small; [lia|].
  split; [lia|]. apply Z.le_lt_trans with (Z.of_nat F); lia.
Qed.

Lemma fc_set_new (m : list (nat * list T)) key v : ~ In key (map fst m) -> fc_set m key v = m ++ [(key, v)].
Proof.
  clear. induction m as [|(k' & v') m IH]; cbn [fc_set map In app]; auto. intros H.
  destruct (Nat.eqb_spec k' key); [subst; tauto|]. f_equal. apply IH. tauto.
Qed.

(** children of the old partitions, as an iteration leaves them *)
Definition ready (s0 : hst N) : Prop :=
  length (x_asg s0) = n /\ length (x_counts s0) = M /\
  (forall i, i < M -> nth i (x_counts s0) 0%Z = Z.of_nat (count_eq i (x_asg s0))) /\
  (forall p h, hget (x_hcl s0) p = Some h -> shaped 2 d (h_cl h)) /\
  (forall p h j, hget (x_hcl s0) p = Some h -> j < 2 -> cel (h_cl h) j = ucel g ws data (x_asg s0) (ch h j)).

Lemma retire_ok s0 K ids pend nw a s p h j :
  ready s0 -> hget (x_hcl s0) p = Some h -> j < 2 -> iv s0 K ids (ch h j :: pend) nw a s ->
  okp (retire g h j (ch h j) s) (fun r =>
    x_curr (fst r) = x_curr s /\
    ((snd r = true /\ x_act (fst r) = upd (x_act s) (ch h j) false /\ iv s0 K ids pend nw a (fst r) /\ Permutation (occ ids (ch h j :: pend) nw s) (occ ids pend nw (fst r))) \/
     (snd r = false /\ fst r = s /\ h_min g <= count_eq (ch h j) (x_asg s0) /\ (x_curr s <= Z.of_nat F)%Z))).
Proof.
  intros (La & Lc & Cnt & Sh & Cel) Hp Hj I.
  assert (Hlt : ch h j < M).
  { apply (inv_lt (i_ids I) (i_max I)). unfold occ. rewrite !in_app_iff. cbn [In]. auto. }
  unfold retire. rewrite (i_counts I), (@aget_nth _ _ _ 0%Z) by lia. cbn [bind]. rewrite Cnt by exact Hlt.
  rewrite cap_eq.
  destruct (Z.ltb_spec (Z.of_nat (count_eq (ch h j) (x_asg s0))) (Z.of_nat (h_min g))) as [H1|H1];
    [|destruct (Z.ltb_spec (Z.of_nat F) (x_curr s)) as [H2|H2]]; cbn [orb].
  3:{ cbn [okp fst snd]. split; auto. right. splits; auto; lia. }
  all: clear H1; unfold deactivate; rewrite aset_ok by (rewrite (i_lact I); exact Hlt); cbn [bind okp fst snd with_final with_act x_curr].
  all: split; [reflexivity|]; left; split; [reflexivity|]; split; [reflexivity|].
  all: pose proof (inv_nodup (i_ids I)) as ND.
  all: assert (Nf : ~ In (ch h j) (finkeys s)) by
    (intros X; apply (@NoDup_remove_2 _ ids (pend ++ map fst nw ++ nkids nw ++ finkeys s) (ch h j)); [exact ND|]; rewrite !in_app_iff; auto).
  all: assert (No : ~ In (ch h j) (ids ++ pend ++ map fst nw ++ nkids nw)) by
    (intros X; apply (@NoDup_remove_2 _ ids (pend ++ map fst nw ++ nkids nw ++ finkeys s) (ch h j)); [exact ND|]; rewrite !in_app_iff in *; tauto).
  all: sx; rewrite fc_set_new by exact Nf.
  all: match goal with |- iv _ _ _ _ _ _ ?s' /\ _ => set (s1 := s') end.
  all: assert (P : Permutation (occ ids (ch h j :: pend) nw s) (occ ids pend nw s1)) by
   (unfold occ, finkeys, s1; cbn [x_final with_final with_act app]; rewrite map_app; cbn [map fst app];
    apply Permutation_app_head; rewrite !app_assoc; apply Permutation_cons_append).
  all: split; [|exact P].
  all: destruct I as [I1 I2 I3 I4 I5 I6 I7 I8 I9 I10 I11 I12 I13 I14 I15 I16 I17 I18 I19 I20].
  all: constructor; unfold s1; sx; auto.
  all: try (rewrite upd_length; exact I4).
  all: try (eapply inv_perm_nat; [exact P|exact I9]).
  all: try (intros i Hi; rewrite nth_upd by (rewrite I4; exact Hlt); destruct (Nat.eqb_spec i (ch h j)) as [Ei|Ei];
      [subst i; split; [discriminate|intros X; tauto]|
       rewrite I11 by exact Hi; rewrite !in_app_iff; cbn [In]; intuition congruence]).
  all: try (intros i v Hv; apply in_app_iff in Hv as [Hv|[Hv|[]]]; [apply I12; exact Hv|]; injection Hv as <- <-;
      pose proof (Cel p h j Hp Hj) as Q; unfold cel in Q; pose proof (f_equal (fun x => fst (fst x)) Q) as Q'; cbn [fst] in Q';
      unfold crow in Q'; destruct (Sh p h Hp) as (En & Ec & Hwf); destruct Hwf as (W & _);
      assert (Ls : length (slice (c_means (h_cl h)) (j * g_ncol g) (g_ncol g)) = d) by (apply slice_length; rewrite W, En, Ec; nia);
      split; [exact Ls|]; apply FPu; [exact Ls|]; rewrite <- Q'; rewrite Ec; reflexivity).
  all: try (intros r Hr; specialize (I13 r Hr); unfold finkeys in *; sx; rewrite map_app, !in_app_iff in *; cbn [map fst In] in *; tauto).
  all: try (cbn [length] in I14; rewrite app_length; cbn [length]; lia).
  all: try (rewrite I15; f_equal; f_equal; apply Permutation_length; exact P).
  all: try (rewrite I19; unfold finkeys; sx; rewrite map_app; cbn [map fst app]; rewrite !app_assoc; apply Permutation_cons_append).
  all: try (match goal with |- (_ <= Z.max _ (Z.of_nat (length ?o)))%Z =>
      assert (El : length o = length (occ (hm_keys (x_hcl s0)) (ch h j :: pend) nw s)) by
        (unfold occ, finkeys; sx; rewrite map_app, !app_length; cbn [map fst length]; lia); rewrite El; exact I20 end).
  all: try (rewrite app_length; lia).
Qed.

Lemma activate_ok (s : hst N) i : length (x_act s) = M -> i < M -> (0 <= x_curr s)%Z -> (x_curr s + 1 <= Z.of_nat M)%Z ->
  activate s i = Ok (with_curr (with_act s (upd (x_act s) i true)) (x_curr s + (if (0 <? i)%nat then 1 else 0))%Z).
Proof.
  clear V Hws. intros L Hi H0 H1. pose proof M32 as H32. unfold activate. rewrite aset_ok by lia. cbn [bind].
  f_equal. f_equal. destruct (0 <? i); [|lia]. unfold w64. apply Z.mod_small. lia.
Qed.

Lemma spawn1_ok s0 K ids pend nw a s id x y :
  length (x_asg s0) = n -> iv s0 K ids (id :: pend) nw a s ->
  x < y -> y < n -> nth x (x_asg s0) 0 = id -> nth y (x_asg s0) 0 = id ->
  length (occ ids (id :: pend) nw s) + 2 <= M -> (x_curr s <= Z.of_nat F + 2)%Z -> ids = hm_keys (x_hcl s0) ->
  okp (spawn1 g data id (Some x) (Some y) s) (fun s' => exists h a',
    iv s0 K ids pend ((id, h) :: nw) a' s' /\
    a' + zin (occ ids (id :: pend) nw s) = a + zin (occ ids pend ((id, h) :: nw) s') /\
    (x_curr s' <= x_curr s + 2)%Z).
Proof.
  intros La I Hxy Hyn Ex Ey Hlen Hcb Eids. pose proof M32 as H32.
  set (O := occ ids (id :: pend) nw s) in *.
  destruct (@id_one_nat (x_ider s) O M (i_ids I) (i_max I) ltac:(lia) ltac:(lia)) as (l & g1 & E1 & I1 & M1 & N1 & L1 & X1).
  destruct (@id_one_nat g1 (l :: O) M I1 M1 ltac:(cbn [length]; lia) ltac:(lia)) as (r & g2 & E2 & I2 & M2 & N2 & L2 & X2).
  assert (HO : In id O) by (unfold O, occ; rewrite !in_app_iff; cbn [In]; auto).
  pose proof (inv_nodup (i_ids I)) as ND. fold O in ND.
  assert (Hid : id < M) by (apply (inv_lt (i_ids I) (i_max I)); exact HO).
  assert (NoId : ~ In id (ids ++ pend ++ map fst nw ++ nkids nw ++ finkeys s)).
  { apply (@NoDup_remove_2 _ ids (pend ++ map fst nw ++ nkids nw ++ finkeys s) id). exact ND. }
  assert (Hnone : hget (x_hcl s) id = None).
  { destruct (hget (x_hcl s) id) as [h|] eqn:E; auto. exfalso. apply NoId. rewrite !in_app_iff.
    destruct (i_keys I E) as [X|X]; [auto|]. right. right. left. apply in_map_iff. exists (id, h). auto. }
  unfold spawn1, split_ids, id_split. rewrite E1, E2. cbn [fst snd]. rewrite !Nat2Z.id.
  destruct (@thd_row_ok N g data V x ltac:(unfold n in *; lia)) as (p & -> & Hp). cbn [bind].
  destruct (@thd_row_ok N g data V y ltac:(unfold n in *; lia)) as (q & Eq & Hq).
  destruct (@set_mean_at_ok N 2 d (h_cl (h_create N (g_ncol g) l r)) p (row data d x) 0 (shaped_create N 2 d) ltac:(lia)
    (@data_row_length N g data V x ltac:(unfold n in *; lia)) Hp) as (c & E3 & Sh & Hc). rewrite E3. cbn [bind]. rewrite Eq. cbn [bind].
  destruct (@set_mean_at_ok N 2 d c q (row data d y) 1 Sh ltac:(lia)
    (@data_row_length N g data V y ltac:(unfold n in *; lia)) Hq) as (c' & E4 & Sh' & Hc'). rewrite E4. cbn [bind].
  set (h := h_with_cl (h_create N (g_ncol g) l r) c').
  pose proof (i_curr I) as Hcur. fold O in Hcur. pose proof (i_pos I) as Hpos.
  rewrite activate_ok; sx; try lia; [|apply (i_lact I)]. cbn [bind].
  rewrite activate_ok; sx; try lia; [|rewrite upd_length; apply (i_lact I)|destruct (0 <? l); lia|destruct (0 <? l); lia]. cbn [okp].
  match goal with |- exists h a', iv _ _ _ _ _ _ ?st /\ _ => set (s' := st) end.
  exists h, (a + (if 0 <? l then 0 else 1) + (if 0 <? r then 0 else 1)).
  assert (Hfk : finkeys s' = finkeys s) by reflexivity.
  assert (P : Permutation (r :: l :: O) (occ ids pend ((id, h) :: nw) s')).
  { unfold O, occ. rewrite Hfk. unfold nkids. cbn [flat_map map fst snd pair_of h h_with_cl h_zero h_one h_create app].
    change (h_zero h) with l. change (h_one h) with r.
    permc. }
  assert (Hlr : l <> r) by (intros ->; apply N2; left; reflexivity).
  assert (Hl0 : ~ In l O) by exact N1.
  assert (Hr0 : ~ In r O) by (intros X; apply N2; right; exact X).
  splits.
  - destruct I as [I1' I2' I3 I4 I5 I6 I7 I8 I9 I10 I11 I12 I13 I14 I15 I16 I17 I18 I19 I20].
    constructor; unfold s'; sx; auto.
    + rewrite !upd_length. exact I4.
    + rewrite hm_put_length by (rewrite I5; exact Hid). exact I5.
    + intros z Hz. rewrite hget_put. destruct (Nat.eqb_spec z id) as [->|]; [|apply I6; exact Hz].
      exfalso. apply NoId. rewrite !in_app_iff. auto.
    + intros z h1 [Hz|Hz].
      * injection Hz as <- <-. rewrite hget_put, Nat.eqb_refl. split; [reflexivity|].
        unfold fresh. splits; auto. exists x, y. splits; auto.
        -- assert (Q := Hc' 0 ltac:(lia)). rewrite (Hc 0 ltac:(lia)) in Q. cbn [Nat.eqb] in Q. unfold cel in Q. injection Q as Q _ _. exact Q.
        -- assert (Q := Hc' 1 ltac:(lia)). cbn [Nat.eqb] in Q. unfold cel in Q. injection Q as Q _ _. exact Q.
      * destruct (I7 z h1 Hz) as (X & Y). split; [|exact Y]. rewrite hget_put.
        destruct (Nat.eqb_spec z id) as [->|]; [congruence|exact X].
    + intros z h1. rewrite hget_put. destruct (Nat.eqb_spec z id) as [->|].
      * intros [= <-]. right. left. reflexivity.
      * intros Hz. destruct (I8 z h1 Hz); [left|right; right]; auto.
    + eapply inv_perm_nat; [exact P|exact I2].
    + intros i Hi. rewrite !nth_upd by (rewrite ?upd_length; lia).
      destruct (Nat.eqb_spec i r) as [->|Nr].
      { split; auto. intros _. unfold nkids. cbn [flat_map snd pair_of h h_with_cl h_create h_zero h_one app]. rewrite !in_app_iff. cbn [In]. auto 8. }
      destruct (Nat.eqb_spec i l) as [->|Nl].
      { split; auto. intros _. unfold nkids. cbn [flat_map snd pair_of h h_with_cl h_create h_zero h_one app]. rewrite !in_app_iff. cbn [In]. auto 8. }
      rewrite I11 by exact Hi. unfold nkids. cbn [flat_map snd pair_of h h_with_cl h_create h_zero h_one app map fst].
      repeat (rewrite ?in_app_iff; cbn [In]). split; intros X; intuition congruence.
    + intros z Hz. specialize (I13 z Hz). match goal with |- context [finkeys ?x] => change (finkeys x) with (finkeys s) end. cbn [map fst]. repeat (rewrite ?in_app_iff in *; cbn [In] in * ). tauto.
    + cbn [length] in *. lia.
    + match goal with |- context [length ?x] => change (length x) with (length (occ ids pend ((id, h) :: nw) s')) end.
      rewrite <- (Permutation_length P). cbn [length]. fold O in I15. destruct (0 <? l), (0 <? r); lia.
    + destruct (0 <? l), (0 <? r); lia.
    + destruct (0 <? l), (0 <? r); lia.
    + rewrite I19. match goal with |- context [finkeys ?x] => change (finkeys x) with (finkeys s) end. cbn [map fst].
      rewrite !app_assoc. apply Permutation_app_tail. exact (Permutation_middle pend (map fst nw) id).
    + match goal with |- (_ <= Z.max _ (Z.of_nat (length ?o)))%Z => change (length o) with (length (occ (hm_keys (x_hcl s0)) pend ((id, h) :: nw) s')) end.
      rewrite <- Eids in I20 |- *. rewrite <- (Permutation_length P). fold O in I20. cbn [length] in *. lia.
  - rewrite <- (zin_perm P). rewrite (zin_cons N2), (zin_cons N1). lia.
  - unfold s'; sx. destruct (0 <? l), (0 <? r); lia.
Qed.

Lemma init_part_ok s0 K ids rest nw a s cache p h a0 z0 :
  ready s0 -> hget (x_hcl s0) p = Some h -> In p ids -> count_eq p (x_asg s0) = 0 ->
  iv s0 K ids (h_zero h :: h_one h :: rest) nw a s ->
  a + z0 = a0 + zin (occ ids (h_zero h :: h_one h :: rest) nw s) -> a0 + 1 <= F - 1 + z0 -> ids = hm_keys (x_hcl s0) ->
  okp (init_part g data p (s, cache)) (fun r => snd r = cache ++ [p] /\ exists nw' a',
    iv s0 K ids rest nw' a' (fst r) /\ a' + z0 = a0 + zin (occ ids rest nw' (fst r))).
Proof.
  intros R Hp Hin Hc0 I Ha Hb Eids. pose proof R as (La & Lc & Cnt & _).
  assert (Hch0 : ch h 0 = h_zero h) by reflexivity. assert (Hch1 : ch h 1 = h_one h) by reflexivity.
  pose proof (inv_nodup (i_ids I)) as ND.
  assert (Hne : h_zero h <> h_one h).
  { intros E. apply NoDup_remove_2 in ND. apply ND. rewrite in_app_iff. right. left. symmetry. exact E. }
  assert (Lz : h_zero h < M) by (apply (inv_lt (i_ids I) (i_max I)); unfold occ; rewrite !in_app_iff; cbn [In]; auto).
  assert (Lo : h_one h < M) by (apply (inv_lt (i_ids I) (i_max I)); unfold occ; rewrite !in_app_iff; cbn [In]; auto).
  assert (Lp : p < M) by (apply (inv_lt (i_ids I) (i_max I)); unfold occ; rewrite !in_app_iff; cbn [In]; auto).
  assert (Az : nth (h_zero h) (x_act s) false = true) by (apply (i_act I Lz); rewrite !in_app_iff; cbn [In]; auto).
  assert (Ao : nth (h_one h) (x_act s) false = true) by (apply (i_act I Lo); rewrite !in_app_iff; cbn [In]; auto).
  unfold init_part.
  rewrite (@hm_ref_ok _ (x_hcl s) p h) by (rewrite (i_old I Hin); exact Hp). cbn [bind].
  apply okp_bind. eapply okp_mono; [apply (@retire_ok s0 K ids (h_one h :: rest) nw a s p h 0 R Hp ltac:(lia) I)|].
  intros (s1 & lb) (Ec1 & H1). cbn [fst snd] in *. rewrite Hch0 in H1.
  (* after both retirements *)
  assert (H2 : okp (retire g h 1 (h_one h) s1) (fun r => x_curr (fst r) = x_curr s /\
    exists pend, iv s0 K ids pend nw a (fst r) /\ a + z0 = a0 + zin (occ ids pend nw (fst r)) /\
      Permutation pend ((if lb then [] else [h_zero h]) ++ (if snd r then [] else [h_one h]) ++ rest) /\
      nth (h_zero h) (x_act (fst r)) false = negb lb /\ nth (h_one h) (x_act (fst r)) false = negb (snd r) /\
      (lb = false -> 2 <= count_eq (h_zero h) (x_asg s0) /\ (x_curr s <= Z.of_nat F)%Z) /\
      (snd r = false -> 2 <= count_eq (h_one h) (x_asg s0) /\ (x_curr s <= Z.of_nat F)%Z))).
  { destruct H1 as [(-> & Ea & I1 & P1)|(-> & -> & Hm & Hcur)].
    - eapply okp_mono; [apply (@retire_ok s0 K ids rest nw a s1 p h 1 R Hp ltac:(lia) I1)|].
      intros (s2 & rb) (Ec2 & H2). cbn [fst snd] in *. rewrite Hch1 in H2. split; [congruence|].
      destruct H2 as [(-> & Ea2 & I2 & P2)|(-> & -> & Hm2 & Hcur2)].
      + exists rest. cbn [negb app]. splits; auto; try discriminate.
        * rewrite <- (zin_perm P2), <- (zin_perm P1). exact Ha.
        * rewrite Ea2, Ea. rewrite !nth_upd by (rewrite ?upd_length, (i_lact I); lia).
          rewrite Nat.eqb_refl. destruct (h_zero h =? h_one h); reflexivity.
        * rewrite Ea2. rewrite nth_upd by (rewrite (i_lact I1); lia). rewrite Nat.eqb_refl. reflexivity.
      + exists (h_one h :: rest). cbn [negb app]. splits; auto; try discriminate.
        * rewrite <- (zin_perm P1). exact Ha.
        * rewrite Ea, nth_upd by (rewrite (i_lact I); lia). rewrite Nat.eqb_refl. reflexivity.
        * rewrite Ea, nth_upd by (rewrite (i_lact I); lia).
          destruct (Nat.eqb_spec (h_one h) (h_zero h)); [congruence|exact Ao].
        * intros _. split; lia.
    - assert (Pm : Permutation (h_zero h :: h_one h :: rest) (h_one h :: h_zero h :: rest)) by constructor.
      pose proof (iv_perm Pm I) as I1.
      eapply okp_mono; [apply (@retire_ok s0 K ids (h_zero h :: rest) nw a s p h 1 R Hp ltac:(lia) I1)|].
      intros (s2 & rb) (Ec2 & H2). cbn [fst snd] in *. rewrite Hch1 in H2. split; [congruence|].
      destruct H2 as [(-> & Ea2 & I2 & P2)|(-> & -> & Hm2 & Hcur2)].
      + exists (h_zero h :: rest). cbn [negb app]. splits; auto; try discriminate.
        * rewrite <- (zin_perm P2). rewrite <- (zin_perm (occ_perm ids nw s Pm)). exact Ha.
        * rewrite Ea2, nth_upd by (rewrite (i_lact I); lia).
          destruct (Nat.eqb_spec (h_zero h) (h_one h)); [congruence|exact Az].
        * rewrite Ea2, nth_upd by (rewrite (i_lact I); lia). rewrite Nat.eqb_refl. reflexivity.
        * intros _. split; lia.
      + exists (h_zero h :: h_one h :: rest). cbn [negb app]. splits; auto; try lia; try discriminate. }
  apply okp_bind. eapply okp_mono; [exact H2|]. clear H2 H1.
  intros (s2 & rb) (Ec2 & pend & I2 & Ha2 & Pp & Az2 & Ao2 & Hz & Ho). cbn [fst snd] in *.
  rewrite (i_counts I2), (@aget_nth _ _ _ 0%Z) by lia. cbn [bind]. rewrite Cnt, Hc0 by exact Lp. cbn [Z.of_nat Z.eqb assert_ bind].
  assert (Ln : g_nrow g = length (x_asg s2)) by (rewrite (i_asg I2), La; reflexivity). rewrite Ln.
  apply okp_bind. eapply okp_mono; [apply (@scan_ok (x_act s2) (x_asg s2) (h_zero h) (h_one h) lb rb); auto; rewrite (i_lact I2); assumption|].
  intros c (Sl & Sr & _). rewrite (i_asg I2) in Sl, Sr.
  destruct (side_end Sl) as (Sl1 & Sl2). destruct (side_end Sr) as (Sr1 & Sr2). rewrite La in Sl2, Sr2.
  unfold spawn. rewrite bind_assoc.
  assert (Fin : forall st nw' a', iv s0 K ids rest nw' a' st -> a' + z0 = a0 + zin (occ ids rest nw' st) ->
    okp (Ok (st, cache ++ [p])) (fun r => snd r = cache ++ [p] /\ exists nw' a',
      iv s0 K ids rest nw' a' (fst r) /\ a' + z0 = a0 + zin (occ ids rest nw' (fst r)))).
  { intros st nw' a' X Y. cbn [okp fst snd]. split; auto. exists nw', a'. auto. }
  assert (Right : forall st nw' a' q, iv s0 K ids q nw' a' st -> a' + z0 = a0 + zin (occ ids q nw' st) ->
    Permutation q ((if rb then [] else [h_one h]) ++ rest) -> (rb = false -> x_curr st <= Z.of_nat F + 2)%Z ->
    okp (let* s := spawn1 g data (h_one h) (r0 (sc_cp c)) (r1 (sc_cp c)) st in Ok (s, cache ++ [p])) (fun r => snd r = cache ++ [p] /\ exists nw' a',
      iv s0 K ids rest nw' a' (fst r) /\ a' + z0 = a0 + zin (occ ids rest nw' (fst r)))).
  { intros st nw' a' q X Y Pq Hcur. destruct rb.
    - destruct (Sr1 eq_refl) as (-> & ->). cbn [spawn1 bind app] in *.
      apply (Fin _ nw' a'); [apply (iv_perm Pq X)|]. rewrite <- (zin_perm (occ_perm ids nw' st Pq)). exact Y.
    - destruct (Ho eq_refl) as (Hm & _). destruct (Sr2 eq_refl Hm) as (x & y & -> & -> & Hxy & Hy & Ex & Ey).
      cbn [app] in Pq. pose proof (iv_perm Pq X) as X'. rewrite (zin_perm (occ_perm ids nw' st Pq)) in Y.
      pose proof (zin_le (occ ids (h_one h :: rest) nw' st)) as Zle. pose proof (i_curr X') as Hcu. specialize (Hcur eq_refl).
      apply okp_bind. eapply okp_mono; [apply (@spawn1_ok s0 K ids rest nw' a' st (h_one h) x y La X' Hxy Hy Ex Ey)|].
      + lia.
      + lia.
      + exact Eids.
      + intros s3 (h3 & a3 & I3 & Z3 & _). apply (Fin _ ((h_one h, h3) :: nw') a3); [exact I3|]. lia. }
  destruct lb.
  - destruct (Sl1 eq_refl) as (-> & ->). cbn [spawn1 bind]. cbn [app] in Pp.
    apply (Right s2 nw a pend I2 Ha2 Pp). intros Erb. destruct (Ho Erb). lia.
  - destruct (Hz eq_refl) as (Hm & Hcur). destruct (Sl2 eq_refl Hm) as (x & y & -> & -> & Hxy & Hy & Ex & Ey).
    cbn [app] in Pp. pose proof (iv_perm Pp I2) as X'. rewrite (zin_perm (occ_perm ids nw s2 Pp)) in Ha2.
    pose proof (zin_le (occ ids (h_zero h :: (if rb then [] else [h_one h]) ++ rest) nw s2)) as Zle. pose proof (i_curr X') as Hcu.
    apply okp_bind. eapply okp_mono; [eapply (@spawn1_ok s0 K ids _ nw a s2 (h_zero h) x y La X' Hxy Hy Ex Ey)|].
    + lia.
    + lia.
    + exact Eids.
    + intros s3 (h3 & a3 & I3 & Z3 & C3). apply (Right s3 ((h_zero h, h3) :: nw) a3 _ I3); [lia|reflexivity|]. intros _. lia.
Qed.

(* ------------------------------------------------------------------ *)
(** * All partitions *)

(** invariant between iterations *)
Record rinv (s : hst N) : Prop := {
  r_e : einv g ws data M s;
  r_ids : inv (x_ider s) (map Z.of_nat (all_ids s));
  r_max : (id_max (x_ider s) + 1 <= Z.of_nat M)%Z;
  r_act : forall i, i < M -> nth i (x_act s) false = true <-> In i (hm_keys (x_hcl s) ++ kids (x_hcl s));
  r_fin : fin_ok (x_asg s) (x_final s);
  r_rows : forall r, r < n -> hget (x_hcl s) (nth r (x_part s) 0) = None -> In (nth r (x_asg s) 0) (finkeys s);
  r_num : exists a, (x_curr s + Z.of_nat a = Z.of_nat (length (all_ids s) + e))%Z /\
    3 * a <= length (x_final s) + length (hm_keys (x_hcl s)) + rw s + e;
  r_pos : (0 <= x_curr s)%Z
}.

Lemma kids_length m : length (kids m) = 2 * length (hm_keys m).
Proof.
  clear. unfold kids. assert (G : forall l, (forall p, In p l -> In p (hm_keys m)) -> length (flat_map (kp m) l) = 2 * length l).
  { induction l as [|p l IH]; intros H; auto. cbn [flat_map length]. rewrite app_length, IH by (intros q Hq; apply H; right; exact Hq).
    assert (Hp := H p (or_introl eq_refl)). apply keys_in in Hp as (h & Hh). unfold kp. rewrite Hh. cbn [pair_of length]. lia. }
  apply G. auto.
Qed.

Lemma all_length s : length (all_ids s) = 3 * length (hm_keys (x_hcl s)) + length (x_final s).
Proof. clear. unfold all_ids, finkeys. rewrite !app_length, kids_length, map_length. lia. Qed.

Lemma in_kids m i : In i (kids m) <-> exists p h j, hget m p = Some h /\ j < 2 /\ ch h j = i.
Proof.
  clear. unfold kids. rewrite in_flat_map. split.
  - intros (p & Hp & Hi). unfold kp in Hi. destruct (hget m p) as [h|] eqn:E; [|destruct Hi].
    destruct Hi as [Hi|[Hi|[]]]; [exists p, h, 0|exists p, h, 1]; splits; auto.
  - intros (p & h & j & Hh & Hj & Hi). exists p. split; [apply keys_in; eauto|]. unfold kp. rewrite Hh.
    destruct j as [|[|]]; [left|right; left|lia]; exact Hi.
Qed.

Lemma nodup_flat {A B} (f : A -> list B) : forall l x y v, NoDup (flat_map f l) -> In x l -> In y l -> In v (f x) -> In v (f y) -> x = y.
Proof.
  clear. induction l as [|z l IH]; intros x y v ND Hx Hy Vx Vy; [destruct Hx|]. cbn [flat_map] in ND.
  assert (ND1 : NoDup (flat_map f l)) by (revert ND; generalize (f z); induction l0; auto; cbn [app]; intros H; inversion H; auto).
  assert (Dis : forall w, In w (f z) -> ~ In w (flat_map f l)).
  { revert ND. generalize (f z). induction l0 as [|b l0 IH0]; intros ND w [].
    - subst. cbn [app] in ND. inversion ND; subst. intros X. apply H1. apply in_app_iff. auto.
    - cbn [app] in ND. inversion ND; subst. apply IH0; auto. }
  destruct Hx as [<-|Hx], Hy as [<-|Hy]; auto.
  - exfalso. apply (Dis v Vx). apply in_flat_map. eauto.
  - exfalso. apply (Dis v Vy). apply in_flat_map. eauto.
  - eapply IH; eauto.
Qed.

Lemma nodup_app_r {A} (l l' : list A) : NoDup (l ++ l') -> NoDup l'.
Proof. clear. induction l as [|x l IH]; auto. cbn [app]. intros H. inversion H; auto. Qed.
Lemma nodup_app_l {A} (l l' : list A) : NoDup (l ++ l') -> NoDup l.
Proof. clear. induction l as [|x l IH]; cbn [app]; intros H; constructor; inversion H; subst; auto. rewrite in_app_iff in *. tauto. Qed.
Lemma nodup_app_dis {A} (l l' : list A) x : NoDup (l ++ l') -> In x l -> ~ In x l'.
Proof.
  clear. induction l as [|y l IH]; intros H []; cbn [app] in H; inversion H; subst; auto.
  rewrite in_app_iff in *. tauto.
Qed.

Lemma rinv_start s0 : rinv s0 -> ready s0 -> settled g s0 -> forall a0,
  (x_curr s0 + Z.of_nat a0 = Z.of_nat (length (all_ids s0) + e))%Z -> (x_curr s0 <= Z.of_nat F)%Z ->
  iv s0 (length (x_final s0) + 2 * length (hm_keys (x_hcl s0))) (hm_keys (x_hcl s0)) (kids (x_hcl s0)) [] a0 s0.
Proof.
  intros R _ St a0 Ha Hcu. destruct R as [RE RI RM RA RF RR _ RP]. constructor; auto.
  - apply (e_act RE).
  - apply (e_hcl RE).
  - intros p h [].
  - intros p h Hh. left. apply keys_in. eauto.
  - intros i Hi. rewrite RA by exact Hi. cbn [map nkids flat_map]. rewrite !app_nil_r. reflexivity.
  - intros r Hr. rewrite in_app_iff. cbn [map app].
    destruct (hget (x_hcl s0) (nth r (x_part s0) 0)) as [h|] eqn:E.
    + left. destruct (St r h Hr E) as (j & Hj & ->). apply in_kids. exists (nth r (x_part s0) 0), h, j. auto.
    + right. apply RR; auto.
  - cbn [length]. rewrite kids_length. lia.
  - lia.
  - lia.
Qed.

(** removing the old partitions *)
Lemma remove_ok s0 K nw a : a <= K + e -> forall rem s, iv s0 K rem [] nw a s ->
  okp (for_each rem (fun id s =>
    let* m := hm_erase (x_hcl s) id in
    let* s := deactivate (with_hcl s m) id in
    Ok (with_curr (with_ider s (id_reclaim (x_ider s) (Z.of_nat id))) (w64 (x_curr s - 1)))) s)
  (fun s' => iv s0 K [] [] nw a s' /\ x_final s' = x_final s).
Proof.
  intros HaK rem s I. apply (@for_each_okp _ _ (fun rem s' => iv s0 K rem [] nw a s' /\ x_final s' = x_final s)); [auto|].
  generalize (x_final s). clear rem s I. intros fin id t s (I & Ef). pose proof M32 as H32.
  pose proof (inv_nodup (i_ids I)) as ND. unfold occ in ND. cbn [app] in ND.
  assert (Nid : ~ In id (t ++ map fst nw ++ nkids nw ++ finkeys s)) by (inversion ND; auto).
  assert (Hid : id < M) by (apply (inv_lt (i_ids I) (i_max I)); unfold occ; cbn [app In]; auto).
  unfold hm_erase. rewrite aset_ok by (rewrite (i_lhcl I); exact Hid). cbn [bind].
  unfold deactivate. sx. rewrite aset_ok by (rewrite (i_lact I); exact Hid). cbn [bind okp]. sx.
  destruct I as [I1 I2 I3 I4 I5 I6 I7 I8 I9 I10 I11 I12 I13 I14 I15 I16 I17 I18 I19 I20].
  assert (Lo : length (occ (id :: t) [] nw s) = S (length (occ t [] nw s))) by reflexivity.
  assert (HK : K <= length (occ t [] nw s)).
  { rewrite <- I14. unfold occ, finkeys. rewrite !app_length, !map_length. cbn [length]. lia. }
  assert (Hm : length (occ (id :: t) [] nw s) <= M) by (apply (inv_length I9 I10)).
  split; [|sx; exact Ef].
  assert (Ew : w64 (x_curr s - 1) = (x_curr s - 1)%Z) by (unfold w64; apply Z.mod_small; lia).
  constructor; sx; auto.
  - rewrite upd_length. exact I4.
  - rewrite upd_length. exact I5.
  - intros p Hp. rewrite hget_none_upd. destruct (Nat.eqb_spec p id) as [->|]; [|apply I6; right; exact Hp].
    destruct Nid. apply in_app_iff. auto.
  - intros p h Hp. destruct (I7 p h Hp) as (X & Y). split; [|exact Y]. rewrite hget_none_upd.
    destruct (Nat.eqb_spec p id) as [->|]; [|exact X]. destruct Nid. rewrite !in_app_iff. right; left.
    apply in_map_iff. exists (id, h). auto.
  - intros p h. rewrite hget_none_upd. destruct (Nat.eqb_spec p id) as [->|]; [discriminate|]. intros Hh.
    destruct (I8 p h Hh) as [[X|X]|X]; [congruence|auto|auto].
  - apply (@reclaim_inv _ [] id). exact I9.
  - intros i Hi. rewrite nth_upd by (rewrite I4; exact Hid). destruct (Nat.eqb_spec i id) as [->|].
    + split; [discriminate|]. intros X. destruct Nid. rewrite !in_app_iff in *. cbn [In] in X. tauto.
    + rewrite I11 by exact Hi. cbn [app In]. intuition congruence.
  - rewrite Ew. change (length (occ t [] nw _)) with (length (occ t [] nw s)). lia.
  - rewrite Ew. lia.
  - rewrite Ew. lia.
Qed.

Lemma keys_perm_list (m : list (option (hclu N))) (nw : list (nat * hclu N)) : NoDup (map fst nw) ->
  (forall p h, hget m p = Some h <-> In (p, h) nw) ->
  Permutation (hm_keys m) (map fst nw) /\ Permutation (kids m) (nkids nw).
Proof.
  clear. intros ND H. assert (P : Permutation (hm_keys m) (map fst nw)).
  { apply NoDup_Permutation; auto using keys_nodup. intros p. rewrite keys_in, in_map_iff. split.
    - intros (h & Hh). apply H in Hh. exists (p, h). auto.
    - intros ((p', h) & <- & Hin). exists h. apply H. exact Hin. }
  split; [exact P|]. unfold kids. rewrite (Permutation_flat_map (kp m) P).
  assert (E : flat_map (kp m) (map fst nw) = nkids nw); [|rewrite E; reflexivity].
  assert (H' : forall e, In e nw -> kp m (fst e) = pair_of (snd e)).
  { intros (p & h) He. apply H in He. unfold kp. cbn [fst snd]. rewrite He. reflexivity. }
  clear H ND P. unfold nkids. induction nw as [|e nw IH]; auto. cbn [map flat_map].
  rewrite H' by (left; reflexivity). f_equal. apply IH. intros x Hx. apply H'. right. exact Hx.
Qed.

Lemma nkids_inj nw p h p' h' j j' : NoDup (nkids nw) -> In (p, h) nw -> In (p', h') nw -> j < 2 -> j' < 2 ->
  ch h j = ch h' j' -> p = p' /\ j = j'.
Proof.
  clear. intros ND H H' Hj Hj' E.
  assert (Hin : forall x i, i < 2 -> In (ch x i) (pair_of x)) by (intros x i Hi; destruct i as [|[|]]; cbn; auto; lia).
  assert (Q : (p, h) = (p', h')).
  { eapply (@nodup_flat _ _ (fun e => pair_of (snd e)) nw _ _ (ch h j) ND H H'); cbn [snd]; [apply Hin; auto|rewrite E; apply Hin; auto]. }
  injection Q as -> ->. split; auto.
  assert (h_zero h' <> h_one h').
  { intros X. apply in_split in H as (u & v & ->). unfold nkids in ND. rewrite flat_map_app in ND. apply nodup_app_r in ND.
    cbn [flat_map snd pair_of app] in ND. inversion ND; subst. rewrite X in *. cbn [In] in *. tauto. }
  destruct j as [|[|]], j' as [|[|]]; cbn in E; auto; try lia; congruence.
Qed.

Lemma init_splits_ok s0 : rinv s0 -> ready s0 -> settled g s0 -> (x_curr s0 <= Z.of_nat F)%Z ->
  1 <= length (hm_keys (x_hcl s0)) ->
  okp (init_splits g data s0) (fun s' => rinv s' /\ x_asg s' = x_asg s0 /\ x_part s' = x_asg s0 /\ x_counts s' = x_counts s0 /\
    length (x_final s') + length (hm_keys (x_hcl s')) = length (x_final s0) + 2 * length (hm_keys (x_hcl s0)) /\
    length (x_final s0) <= length (x_final s') /\
    (forall p h, hget (x_hcl s') p = Some h -> fresh (x_asg s0) p h) /\
    Permutation (kids (x_hcl s0) ++ finkeys s0) (hm_keys (x_hcl s') ++ finkeys s') /\
    (id_max (x_ider s') + 1 <= Z.max (id_max (x_ider s0) + 1) (Z.of_nat (length (all_ids s') + length (hm_keys (x_hcl s0)))))%Z).
Proof.
  intros R Rd St Hcap' HL. destruct (r_num R) as (a0 & Ha0 & Hb0).
  pose proof (all_length s0) as Lall.
  set (ids := hm_keys (x_hcl s0)) in *. set (K := length (x_final s0) + 2 * length ids).
  set (z0 := zin (all_ids s0)) in *. pose proof (zin_le (all_ids s0)) as Hz0. fold z0 in Hz0.
  assert (Hw : rw s0 = 1 /\ z0 = 0 \/ rw s0 = 2 /\ z0 = 1 \/ rw s0 = 3 /\ z0 = 1).
  { unfold rw, z0, zin, all_ids. destruct (in_dec Nat.eq_dec 0 (hm_keys (x_hcl s0))) as [X|X].
    - destruct (in_dec Nat.eq_dec 0 (hm_keys (x_hcl s0) ++ kids (x_hcl s0) ++ finkeys s0)) as [_|Y]; [auto|]. destruct Y. apply in_app_iff; auto.
    - destruct (in_dec Nat.eq_dec 0 (kids (x_hcl s0) ++ finkeys s0)) as [Y|Y];
      destruct (in_dec Nat.eq_dec 0 (hm_keys (x_hcl s0) ++ kids (x_hcl s0) ++ finkeys s0)) as [W|W]; auto.
      + destruct W. apply in_app_iff; auto.
      + exfalso. rewrite in_app_iff in W. tauto. }
  unfold init_splits. fold ids.
  assert (Lz : forall p h, hget (x_hcl s0) p = Some h -> count_eq p (x_asg s0) = 0).
  { intros p h Hh. apply count_eq_zero. rewrite (e_asg (r_e R)). intros r Hr E.
    destruct (hget (x_hcl s0) (nth r (x_part s0) 0)) as [h'|] eqn:Eh.
    - destruct (St r h' Hr Eh) as (j & Hj & Ej). destruct (e_live (r_e R) Eh) as (_ & _ & _ & Hk).
      destruct (Hk j Hj) as (_ & _ & X). congruence.
    - destruct (e_rows (r_e R) Hr) as (_ & Hrow). rewrite Eh in Hrow. destruct Hrow as (Ea & _). congruence. }
  apply okp_bind. eapply okp_mono.
  { apply (@for_each_okp _ _ (fun rem st => snd st ++ rem = ids /\ exists nw a,
      iv s0 K ids (flat_map (kp (x_hcl s0)) rem) nw a (fst st) /\ a + z0 = a0 + zin (occ ids (flat_map (kp (x_hcl s0)) rem) nw (fst st)))).
    - cbn [fst snd app]. split; auto. exists [], a0. split; [apply rinv_start; auto|]. reflexivity.
    - intros p t (s & cache) (Ec & nw & a & I & Ha). cbn [fst snd] in *.
      assert (Hp : In p ids) by (rewrite <- Ec; apply in_app_iff; cbn [In]; auto).
      pose proof Hp as Hp'. apply keys_in in Hp' as (h & Hh). 
      assert (Ek : flat_map (kp (x_hcl s0)) (p :: t) = h_zero h :: h_one h :: flat_map (kp (x_hcl s0)) t).
      { cbn [flat_map]. unfold kp at 1. rewrite Hh. reflexivity. }
      rewrite Ek in I, Ha.
      eapply okp_mono; [apply (@init_part_ok s0 K ids _ nw a s cache p h a0 z0 Rd Hh Hp (Lz p h Hh) I Ha)|].
      + lia.
      + reflexivity.
      + intros (s' & cache') (E' & nw' & a' & I' & Ha'). cbn [fst snd] in *. subst cache'. rewrite <- app_assoc. cbn [app].
        split; [exact Ec|]. exists nw', a'. auto. }
  intros (s1 & cache) (Ec & nw & a & I1 & Ha1). cbn [fst snd flat_map] in *. rewrite app_nil_r in Ec. subst cache.
  pose proof (zin_le (occ ids [] nw s1)) as Hz1.
  apply okp_bind. eapply okp_mono; [apply (@remove_ok s0 K nw a ltac:(unfold K; lia) ids s1 I1)|].
  intros s2 (I2 & Ef). cbn [okp]. sx.
  pose proof I2 as I2'. destruct I2' as [J1 J2 J3 J4 J5 J6 J7 J8 J9 J10 J11 J12 J13 J14 J15 J16 J17 J18 J19 J20].
  unfold occ in J9, J15. cbn [app] in J9, J11, J13, J15.
  pose proof (inv_nodup J9) as ND.
  assert (NDn : NoDup (map fst nw)) by (apply (nodup_app_l ND)).
  assert (Hg : forall p h, hget (x_hcl s2) p = Some h <-> In (p, h) nw).
  { intros p h. split; [intros X; destruct (J8 p h X) as [[]|Y]; exact Y|]. intros X. apply J7. exact X. }
  destruct (keys_perm_list NDn Hg) as (Pk & Pd).
  assert (NDk : NoDup (nkids nw)) by (apply nodup_app_r in ND; apply (nodup_app_l ND)).
  set (s' := with_part s2 (x_asg s2)).
  assert (Pall : Permutation (map fst nw ++ nkids nw ++ finkeys s2) (all_ids s')).
  { unfold all_ids. change (finkeys s') with (finkeys s2). change (x_hcl s') with (x_hcl s2).
    apply Permutation_app; [symmetry; exact Pk|]. apply Permutation_app_tail. symmetry. exact Pd. }
  assert (Hfresh : forall p h, hget (x_hcl s2) p = Some h -> fresh (x_asg s0) p h) by (intros p h X; apply Hg in X; apply (J7 p h X)).
  assert (Lk : length (hm_keys (x_hcl s2)) = length nw) by (rewrite (Permutation_length Pk), map_length; reflexivity).
  assert (Hlt : forall i, In i (map fst nw ++ nkids nw ++ finkeys s2) -> i < M) by (apply (inv_lt J9 J10)).
  assert (InK : forall p h, hget (x_hcl s2) p = Some h -> In p (map fst nw)) by (intros p h X; apply Hg in X; apply in_map_iff; exists (p, h); auto).
  assert (InD : forall p h j, hget (x_hcl s2) p = Some h -> j < 2 -> In (ch h j) (nkids nw)).
  { intros p h j X Hj. apply Hg in X. unfold nkids. apply in_flat_map. exists (p, h). split; auto. cbn [snd]. destruct j as [|[|]]; cbn; auto; lia. }
  assert (Hnone : forall i, In i (nkids nw ++ finkeys s2) -> hget (x_hcl s2) i = None).
  { intros i Hi. destruct (hget (x_hcl s2) i) as [h|] eqn:E; auto. exfalso. apply (nodup_app_dis ND (InK _ _ E)). exact Hi. }
  splits; auto.
  - constructor; change (x_asg s') with (x_asg s2); change (x_part s') with (x_asg s2); change (x_act s') with (x_act s2);
    change (x_hcl s') with (x_hcl s2); change (x_counts s') with (x_counts s2); change (x_final s') with (x_final s2);
    change (x_curr s') with (x_curr s2); change (x_ider s') with (x_ider s2); change (finkeys s') with (finkeys s2); auto.
    + destruct Rd as (La & Lc & Cnt & _).
      constructor; change (x_asg s') with (x_asg s2); change (x_part s') with (x_asg s2); change (x_act s') with (x_act s2);
      change (x_hcl s') with (x_hcl s2); change (x_counts s') with (x_counts s2); auto.
      * rewrite J1; exact La.
      * rewrite J1; exact La.
      * rewrite J3; exact Lc.
      * intros p h Hh. destruct (Hfresh p h Hh) as (Hcv & Hsh & _). pose proof (InK p h Hh) as X.
        assert (Lp : p < M) by (apply Hlt; rewrite in_app_iff; auto). splits; auto.
        -- apply J11; auto. rewrite in_app_iff. auto.
        -- intros j Hj. pose proof (InD p h j Hh Hj) as Y.
           assert (Lc' : ch h j < M) by (apply Hlt; rewrite !in_app_iff; auto). splits; auto.
           ++ apply J11; auto. rewrite in_app_iff. auto.
           ++ apply Hnone. rewrite in_app_iff. auto.
      * intros p h p' h' j j' Hh Hh' Hj Hj' E. apply Hg in Hh. apply Hg in Hh'. apply (nkids_inj NDk Hh Hh' Hj Hj' E).
      * intros r Hr. specialize (J13 r Hr). rewrite J1. 
        assert (Lr : nth r (x_asg s0) 0 < M) by (apply Hlt; rewrite !in_app_iff in *; tauto). split; [exact Lr|].
        rewrite in_app_iff in J13. destruct (hget (x_hcl s2) (nth r (x_asg s0) 0)) as [h|] eqn:E.
        -- left. split; auto. apply (Hfresh _ _ E).
        -- split; auto. destruct (nth (nth r (x_asg s0) 0) (x_act s2) false) eqn:Ea; auto. exfalso.
           apply J11 in Ea; auto. rewrite in_app_iff in Ea.
           assert (Nk : ~ In (nth r (x_asg s0) 0) (map fst nw)).
           { intros X. apply in_map_iff in X as ((p & h) & Ep & X). cbn [fst] in Ep. subst p. apply Hg in X. congruence. }
           destruct J13 as [X|X]; [tauto|]. destruct Ea as [Y|Y]; [tauto|].
           apply nodup_app_r in ND. apply (nodup_app_dis ND Y X).
      * intros p h Hh Hc. destruct (Hfresh p h Hh) as (Hcv & _). congruence.
      * intros i Hi _. rewrite J3, J1. apply Cnt. exact Hi.
    + eapply inv_perm_nat; [exact Pall|exact J9].
    + intros i Hi. rewrite J11 by exact Hi. rewrite !in_app_iff.
      split; (intros [X|X]; [left|right]); first [exact (Permutation_in _ Pk X)|exact (Permutation_in _ Pd X)|exact (Permutation_in _ (Permutation_sym Pk) X)|exact (Permutation_in _ (Permutation_sym Pd) X)].
    + rewrite J1. exact J12.
    + intros r Hr E. specialize (J13 r Hr). rewrite J1 in *. rewrite in_app_iff in J13. destruct J13 as [X|X]; [|exact X].
      apply in_map_iff in X as ((p & h) & Ep & X). cbn [fst] in Ep. subst p. apply Hg in X. congruence.
    + exists a. rewrite <- (Permutation_length Pall). split; [exact J15|]. rewrite Lk.
      (* the root's id *)
      assert (Q1 : z0 = 1 -> rw s0 = 3 -> 2 <= rw s').
      { intros _ X. unfold rw in X |- *. destruct (in_dec Nat.eq_dec 0 (hm_keys (x_hcl s0))); [lia|].
        destruct (in_dec Nat.eq_dec 0 (kids (x_hcl s0) ++ finkeys s0)) as [Y|Y]; [|lia].
        apply (Permutation_in _ J19) in Y. cbn [app] in Y. apply in_app_iff in Y.
        change (x_hcl s') with (x_hcl s2). change (finkeys s') with (finkeys s2).
        destruct (in_dec Nat.eq_dec 0 (hm_keys (x_hcl s2))) as [_|Z]; [lia|].
        destruct (in_dec Nat.eq_dec 0 (kids (x_hcl s2) ++ finkeys s2)) as [_|Z']; [lia|]. exfalso.
        destruct Y as [Y|Y]; [apply Z; exact (Permutation_in _ (Permutation_sym Pk) Y)|apply Z'; rewrite in_app_iff; auto]. }
      assert (Q2 : z0 = 0 -> zin (occ ids [] nw s1) = 1 -> rw s' = 3).
      { intros X Y. unfold zin in Y. destruct (in_dec Nat.eq_dec 0 (occ ids [] nw s1)) as [Z|]; [|lia].
        assert (N0 : ~ In 0 (all_ids s0)) by (unfold z0, zin in X; destruct (in_dec Nat.eq_dec 0 (all_ids s0)); [lia|auto]).
        unfold all_ids in N0. fold ids in N0. rewrite in_app_iff in N0.
        unfold occ in Z. rewrite !in_app_iff in Z. cbn [In] in Z.
        assert (Nn : ~ In 0 (map fst nw ++ finkeys s1)).
        { intros W. apply N0. right. apply (Permutation_in _ (Permutation_sym J19)). cbn [app]. unfold finkeys. rewrite Ef. exact W. }
        rewrite in_app_iff in Nn.
        assert (Zk : In 0 (nkids nw)) by tauto.
        unfold rw. change (x_hcl s') with (x_hcl s2). change (finkeys s') with (finkeys s2).
        destruct (in_dec Nat.eq_dec 0 (hm_keys (x_hcl s2))) as [W|_]; [apply (Permutation_in _ Pk) in W; tauto|].
        destruct (in_dec Nat.eq_dec 0 (kids (x_hcl s2) ++ finkeys s2)) as [_|W]; [auto|]. destruct W. rewrite in_app_iff. left.
        exact (Permutation_in _ (Permutation_sym Pd) Zk). }
      assert (Q3 : 1 <= rw s') by (unfold rw; repeat destruct in_dec; lia).
      cbn [length] in J14. unfold K in J14. lia.
  - cbn [length] in J14. rewrite Lk. change (x_final s') with (x_final s2). unfold K in J14. lia.
  - rewrite J19. cbn [app]. apply Permutation_app_tail. symmetry. exact Pk.
  - rewrite <- (Permutation_length Pall). unfold occ in J20. rewrite app_length in J20. cbn [app] in J20. fold ids in J20.
    change (x_ider s') with (x_ider s2). lia.
Qed.
End Split.
