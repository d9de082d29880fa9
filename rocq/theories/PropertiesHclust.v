(** C53, C54, C72, C73, C74, C75: hierarchical clustering. *)
From Coq Require Import Reals Permutation Floats.SpecFloat.
From Verif Require Import Base Num DistModel ClustersModel ClustersView ClustersProofs MatLemmas
  PartitionModel ParModel KmeansModel ParProofs NearProofs KmeansProofs UpdateProofs RunProofs InitProofs Spec.
From Verif Require Import VecLemmas KmeansR SseProofs PropertiesKmeansR.
From Verif Require Import ContainersModel PropertiesIds HclustModel HclustProofs HclustUpdate HclustIter HclustSplit Okab HclustRun HclustDone HclustVerify.
Set Implicit Arguments.
Unset Strict Implicit.

Section Hier.
Variable N : Num.
Notation T := (car N).

(** the states a run goes through: [true] after at least one iteration since the
    last split *)
Inductive h_state (g : hcfg N) (ws : list (worker N)) (centers : option (list T)) (it : init_t) (data : list T) (dr : nat -> nat)
  : hst N -> bool -> Prop :=
| hs_start : forall s0 s, h_coordinator_create g centers = Ok s0 -> run_hinit g it data dr s0 = Ok s ->
    h_state g ws centers it data dr s false
| hs_iter : forall s b sched s', h_state g ws centers it data dr s b -> complete (w_ranges ws) sched ->
    h_iter g ws sched s = Ok s' -> h_state g ws centers it data dr s' true
| hs_split : forall s s', h_state g ws centers it data dr s true -> at_cluster_cap g s = false ->
    init_splits g data s = Ok s' -> hm_keyless (x_hcl s') = false -> h_state g ws centers it data dr s' false.

Definition Mids (g : hcfg N) : nat := 4 * hclust_floor (g_k g) - 1.

Lemma h_state_inv g ws centers it data dr s b : h_valid g data it centers dr -> wok (g_nrow g) (g_ncol g) data ws ->
  h_state g ws centers it data dr s b ->
  rinv g ws data (Mids g) (ucelFP g ws data) 0 s /\ 1 <= length (hm_keys (x_hcl s)) /\ (b = true -> ready g ws data (Mids g) s /\ settled g s).
Proof.
  intros (V & K2 & K30 & Hm & Hi & Hini) Hws. destruct (floor_facts K2 K30) as (F2 & _ & F29 & Fc).
  induction 1 as [s0 s E0 E1|s b sched s' _ IH Hc E|s s' _ IH Ecap E Hk].
  - destruct (@create_init_ok N g data V K2 K30 it centers dr Hini) as (s0' & s1 & c & E0' & E1' & Sh & _ & Es).
    rewrite E0 in E0'. injection E0' as <-. rewrite E1 in E1'. injection E1' as <-.
    pose proof (@start_ok N g ws data K2 K30 (ucelFP g ws data) c Sh) as R. cbn zeta in R. rewrite <- Es in R. splits; auto; try discriminate.
    rewrite Es. apply keyless_keys. destruct (hm_keyless _) eqn:X; auto. rewrite keyless_iff in X. specialize (X 0).
    cbn [x_hcl] in X. rewrite hget_put in X. discriminate.
  - destruct IH as (R & L & _). pose proof (@iter_rinv N g ws data V Hws (ucelFP g ws data) (@ucelFPs N g ws data Hws) 0 s sched R Hc) as H. rewrite E in H. cbn [okab] in H.
    destruct H as (R' & Rd & St & Lk & _). splits; auto. lia.
  - destruct IH as (R & L & H). destruct (H eq_refl) as (Rd & St).
    rewrite (@cap_eq N g _ F2 F29 Fc) in Ecap. apply Z.ltb_ge in Ecap.
    pose proof (@init_splits_ok N g ws data V _ (Mids g) eq_refl F2 F29 Fc Hm (ucelFP g ws data) (fun _ _ _ _ X => X) 0 s R Rd St Ecap L) as H'. rewrite E in H'. cbn [okp] in H'.
    destruct H' as (R' & _). splits; auto; try discriminate. apply keyless_keys. exact Hk.
Qed.

(** ** C53: one iteration, from any state of a run.  [hget (x_hcl s) p] is the
    partition [p] being split, if it is one. *)
Theorem C53_iteration : OrdLaws N ->
  forall (g : hcfg N) ws centers it data dr s b sched s',
  h_valid g data it centers dr -> build_workers g data = Ok ws ->
  h_state g ws centers it data dr s b -> complete (w_ranges ws) sched ->
  h_iter g ws sched s = Ok s' ->
  x_part s' = x_part s /\
  (forall r, r < g_nrow g ->
    match hget (x_hcl s) (nth r (x_part s) 0) with
    | Some h =>
      if h_conv h then nth r (x_asg s') 0 = nth r (x_asg s) 0 /\ (nth r (x_asg s') 0 = h_zero h \/ nth r (x_asg s') 0 = h_one h)
      else exists j, nth r (x_asg s') 0 = (if j =? 0 then h_zero h else h_one h) /\
           nearest_idx N (g_dt g) [crow (h_cl h) 0; crow (h_cl h) 1] (row data (g_ncol g) r) j
    | None => nth r (x_asg s') 0 = nth r (x_asg s) 0
    end) /\
  (forall p h, hget (x_hcl s) p = Some h ->
    nth (h_zero h) (x_counts s') 0%Z = Z.of_nat (count_eq (h_zero h) (x_asg s')) /\
    nth (h_one h) (x_counts s') 0%Z = Z.of_nat (count_eq (h_one h) (x_asg s')) /\
    count_eq p (x_asg s') = 0) /\
  (forall i, i < length (x_counts s') -> nth i (x_counts s') 0%Z = Z.of_nat (count_eq i (x_asg s'))).
Proof.
  intros OL g ws centers it data dr s b sched s' Hv Ew Hs Hc E. pose proof Hv as (V & _). pose proof V as (V1 & V2 & V3 & V4).
  destruct (@build_workers_ok N g data V1 V2 V3 V4) as (ws' & Ew' & Hws & _). rewrite Ew in Ew'. injection Ew' as <-.
  destruct (h_state_inv Hv Hws Hs) as (R & _).
  pose proof (@h_iter_ok N g ws data Hws V4 (Mids g) s sched (r_e R) Hc) as H. rewrite E in H.
  destruct H as (E' & St & Hd & Ep & _ & _ & _ & _ & Hh & Hcnt).
  splits; auto.
  - intros r Hr. pose proof (Hd r Hr) as Hr'. unfold dest in Hr'.
    destruct (hget (x_hcl s) (nth r (x_part s) 0)) as [h|] eqn:Eh.
    + destruct (e_rows (r_e R) Hr) as (_ & Hrow). rewrite Eh in Hrow. destruct (e_live (r_e R) Eh) as (_ & Ha & Sh & Hk).
      assert (Hact : nth (nth r (x_asg s) 0) (x_act s) false = true).
      { destruct Hrow as [(-> & _)|(j & Hj & ->)]; auto. apply (Hk j Hj). }
      rewrite Hact in Hr'. destruct (h_conv h) eqn:Ecv.
      * injection Hr' as X. split; [symmetry; exact X|]. rewrite <- X. destruct Hrow as [(_ & Y)|(j & Hj & Y)]; [congruence|].
        rewrite Y. destruct j as [|[|]]; cbn; auto; lia.
      * unfold option_map in Hr'. destruct (near2 g data h r) as [j|] eqn:En; [|discriminate]. injection Hr' as X.
        exists j. split; [symmetry; exact X|]. unfold near2 in En.
        pose proof (@near_spec N OL (g_dt g) (rows 2 (g_ncol g) (c_means (h_cl h))) (row data (g_ncol g) r)) as Q.
        destruct (near N (g_dt g) (rows 2 (g_ncol g) (c_means (h_cl h))) (row data (g_ncol g) r)) as (o & v). cbn [fst] in En. subst o.
        destruct Q as (Q & _). destruct Sh as (_ & Ec & _). unfold crow. rewrite Ec. exact Q.
    + destruct (e_rows (r_e R) Hr) as (_ & Hrow). rewrite Eh in Hrow. destruct Hrow as (_ & Hf). rewrite Hf in Hr'. congruence.
  - intros p h Hp. destruct (e_live (r_e R) Hp) as (Lp & _ & _ & Hk). splits.
    + apply Hcnt. apply (Hk 0). lia.
    + apply Hcnt. apply (Hk 1). lia.
    + apply count_eq_zero. rewrite (e_asg E'). intros r Hr X. specialize (Hh p). rewrite Hp in Hh. destruct Hh as (hp & Hhp & _).
      destruct (hget (x_hcl s') (nth r (x_part s') 0)) as [h'|] eqn:Eh'.
      * destruct (St r h' Hr Eh') as (j & Hj & Y). destruct (e_live E' Eh') as (_ & _ & _ & Hk').
        destruct (Hk' j Hj) as (_ & _ & Z). congruence.
      * destruct (e_rows E' Hr) as (_ & Hrow). rewrite Eh' in Hrow. destruct Hrow as (Y & _). congruence.
  - intros i Hi. apply Hcnt. rewrite <- (e_counts E'). exact Hi.
Qed.

(** an iteration stops the program only when some row is at no usable distance of
    either centroid *)
Theorem C53_iteration_total : forall (g : hcfg N) ws centers it data dr s b sched,
  h_valid g data it centers dr -> build_workers g data = Ok ws ->
  h_state g ws centers it data dr s b -> complete (w_ranges ws) sched ->
  (exists s', h_iter g ws sched s = Ok s') \/ (h_iter g ws sched s = Err Abort /\ unassignable g data).
Proof.
  intros g ws centers it data dr s b sched Hv Ew Hs Hc. pose proof Hv as (V & _). pose proof V as (V1 & V2 & V3 & V4).
  destruct (@build_workers_ok N g data V1 V2 V3 V4) as (ws' & Ew' & Hws & _). rewrite Ew in Ew'. injection Ew' as <-.
  destruct (h_state_inv Hv Hws Hs) as (R & _).
  pose proof (@iter_rinv N g ws data V Hws (ucelFP g ws data) (@ucelFPs N g ws data Hws) 0 s sched R Hc) as H. destruct (h_iter g ws sched s) as [s'|e]; [left; eauto|right].
  destruct H as (-> & U). auto.
Qed.

(* ------------------------------------------------------------------ *)
(** ** C54 *)

(** partition [p] was created with two different rows of its own as its means *)
Definition seeded (g : hcfg N) (data : list T) (asg : list nat) (p : nat) (h : hclu N) : Prop :=
  exists a b, a < b /\ b < g_nrow g /\ nth_error asg a = Some p /\ nth_error asg b = Some p /\
    crow (h_cl h) 0 = row data (g_ncol g) a /\ crow (h_cl h) 1 = row data (g_ncol g) b.

Definition cp_good (asg : list nat) (zid oid i : nat) (cp : c_part) (f0 f1 : bool) : Prop :=
  (forall a, l0 cp = Some a -> a < i /\ nth_error asg a = Some zid) /\
  (forall a b, l0 cp = Some a -> l1 cp = Some b -> a < b /\ b < i /\ nth_error asg b = Some zid) /\
  (forall a, r0 cp = Some a -> a < i /\ nth_error asg a = Some oid) /\
  (forall a b, r0 cp = Some a -> r1 cp = Some b -> a < b /\ b < i /\ nth_error asg b = Some oid) /\
  (f0 = false -> l1 cp = None) /\ (f1 = false -> r1 cp = None).

Lemma scan_good act asg zid oid n lb rb :
  rp (loop n (scan_row act asg zid oid) (mkScan cp_none lb lb rb rb false))
     (fun c => cp_good asg zid oid n (sc_cp c) (sc_l0 c) (sc_r0 c)).
Proof.
  apply (@loop_rp _ (fun i c => cp_good asg zid oid i (sc_cp c) (sc_l0 c) (sc_r0 c))).
  - unfold cp_good, cp_none; cbn. splits; intros; discriminate || auto.
  - intros i c Hi (H1 & H2 & H3 & H4 & H5 & H6). unfold scan_row.
    assert (K : cp_good asg zid oid (S i) (sc_cp c) (sc_l0 c) (sc_r0 c)).
    { unfold cp_good; splits; auto.
      - intros a X. destruct (H1 a X). split; auto.
      - intros a b X Y. destruct (H2 a b X Y) as (A & B & C). splits; auto.
      - intros a X. destruct (H3 a X). split; auto.
      - intros a b X Y. destruct (H4 a b X Y) as (A & B & C). splits; auto. }
    destruct K as (K1 & K2 & K3 & K4 & K5 & K6).
    destruct (sc_done c); [cbn [rp]; unfold cp_good; splits; auto|].
    destruct (sc_l0 c && sc_l1 c && sc_r0 c && sc_r1 c); [cbn [rp sc_cp sc_l0 sc_r0]; unfold cp_good; splits; auto|].
    apply rp_bind, rp_iff. intros a Ea. assert (Ea' : nth_error asg i = Some a) by (unfold aget in Ea; destruct (nth_error asg i); congruence).
    destruct (Nat.eqb_spec a zid) as [->|].
    + destruct (negb (sc_l0 c)) eqn:E0; [|destruct (negb (sc_l1 c)) eqn:E1].
      * apply negb_true_iff in E0. cbn [rp sc_cp sc_l0 sc_r0]. unfold cp_good; cbn [l0 l1 r0 r1]. splits; auto; try discriminate.
        -- intros x [= <-]. auto.
        -- intros x b [= <-] X. rewrite (H5 E0) in X. discriminate.
      * apply negb_false_iff in E0. apply rp_bind, rp_iff. intros bb _. cbn [rp sc_cp sc_l0 sc_r0]. unfold cp_good; cbn [l0 l1 r0 r1]. splits; auto.
        -- intros x b X [= <-]. destruct (H1 x X). splits; auto.
        -- rewrite E0. discriminate.
      * cbn [rp]. unfold cp_good; splits; auto.
    + destruct (Nat.eqb_spec a oid) as [->|]; [|cbn [rp]; unfold cp_good; splits; auto].
      destruct (negb (sc_r0 c)) eqn:E0; [|destruct (negb (sc_r1 c)) eqn:E1].
      * apply negb_true_iff in E0. cbn [rp sc_cp sc_l0 sc_r0]. unfold cp_good; cbn [l0 l1 r0 r1]. splits; auto; try discriminate.
        -- intros x [= <-]. auto.
        -- intros x b [= <-] X. rewrite (H6 E0) in X. discriminate.
      * apply negb_false_iff in E0. apply rp_bind, rp_iff. intros bb _. cbn [rp sc_cp sc_l0 sc_r0]. unfold cp_good; cbn [l0 l1 r0 r1]. splits; auto.
        -- intros x b X [= <-]. destruct (H3 x X). splits; auto.
        -- rewrite E0. discriminate.
      * cbn [rp]. unfold cp_good; splits; auto.
Qed.

Definition from_rows (g : hcfg N) data (asg : list nat) (s0 s : hst N) : Prop :=
  x_asg s = asg /\ forall p h, hget (x_hcl s) p = Some h -> hget (x_hcl s0) p = Some h \/ seeded g data asg p h.

Lemma activate_fields (s : hst N) i s' : activate s i = Ok s' -> x_asg s' = x_asg s /\ x_hcl s' = x_hcl s.
Proof. unfold activate. destruct (aset (x_act s) i true); cbn [bind]; intros E; [|discriminate]. injection E as <-. auto. Qed.

Lemma spawn1_rows (g : hcfg N) data asg s0 id a b s : valid_input g data -> length asg <= g_nrow g -> from_rows g data asg s0 s ->
  (forall x, a = Some x -> x < g_nrow g /\ nth_error asg x = Some id) ->
  (forall x y, a = Some x -> b = Some y -> x < y /\ y < g_nrow g /\ nth_error asg y = Some id) ->
  rp (spawn1 g data id a b s) (from_rows g data asg s0).
Proof.
  intros V La (E & H) Ha Hb. unfold spawn1. destruct a as [x|]; [|split; auto]. destruct b as [y|]; [|split; auto].
  destruct (Ha x eq_refl) as (Lx & Ex). destruct (Hb x y eq_refl eq_refl) as (Hxy & Ly & Ey).
  unfold split_ids. destruct (id_split (x_ider s)) as ((l & r) & ider). cbn [fst snd].
  destruct (@thd_row_ok N g data V x Lx) as (p & -> & Hp). cbn [bind].
  destruct (@thd_row_ok N g data V y Ly) as (q & Eq & Hq).
  destruct (@set_mean_at_ok N 2 (g_ncol g) (h_cl (h_create N (g_ncol g) (Z.to_nat l) (Z.to_nat r))) p (row data (g_ncol g) x) 0 (shaped_create N 2 (g_ncol g)) ltac:(lia)
    (@data_row_length N g data V x Lx) Hp) as (c & E3 & Sh & Hc). rewrite E3. cbn [bind]. rewrite Eq. cbn [bind].
  destruct (@set_mean_at_ok N 2 (g_ncol g) c q (row data (g_ncol g) y) 1 Sh ltac:(lia)
    (@data_row_length N g data V y Ly) Hq) as (c' & E4 & Sh' & Hc'). rewrite E4. cbn [bind].
  apply rp_bind, rp_iff. intros s1 E1. apply activate_fields in E1 as (A1 & B1).
  apply rp_iff. intros s2 E2. apply activate_fields in E2 as (A2 & B2).
  split; [rewrite A2, A1; exact E|]. rewrite B2, B1. cbn [with_hcl x_hcl]. intros z h. rewrite hget_put.
  destruct (Nat.eqb_spec z id) as [->|].
  - intros [= <-]. right. exists x, y. splits; auto.
    + pose proof (Hc' 0 ltac:(lia)) as Q. rewrite (Hc 0 ltac:(lia)) in Q. cbn [Nat.eqb] in Q. unfold cel in Q. injection Q as Q _ _. exact Q.
    + pose proof (Hc' 1 ltac:(lia)) as Q. cbn [Nat.eqb] in Q. unfold cel in Q. injection Q as Q _ _. exact Q.
  - intros Hz. apply H. exact Hz.
Qed.

Lemma retire_fields (g : hcfg N) h j id s r : retire g h j id s = Ok r -> x_asg (fst r) = x_asg s /\ x_hcl (fst r) = x_hcl s.
Proof.
  unfold retire. destruct (aget (x_counts s) id); cbn [bind]; [|discriminate]. destruct (_ || _); [|intros [= <-]; auto].
  unfold deactivate. destruct (aset (x_act s) id false); cbn [bind]; [|discriminate]. intros [= <-]. auto.
Qed.

(** C54: whatever the state, every partition that a split round creates starts from
    two different rows assigned to it *)
Theorem C54_seeds : forall (g : hcfg N) data s s',
  valid_input g data -> length (x_asg s) = g_nrow g -> init_splits g data s = Ok s' ->
  forall p h, hget (x_hcl s') p = Some h -> hget (x_hcl s) p = Some h \/ seeded g data (x_asg s) p h.
Proof.
  intros g data s s' V La E. set (asg := x_asg s) in *.
  assert (H : rp (init_splits g data s) (from_rows g data asg s)).
  { unfold init_splits. apply rp_bind. eapply rp_mono.
    { apply (@for_each_rp _ _ (fun _ st => from_rows g data asg s (fst st))).
      - split; auto.
      - intros p t (s1 & cache) (A1 & H1). cbn [fst] in *. unfold init_part.
        apply rp_bind, rp_iff. intros h Hh. apply rp_bind, rp_iff. intros (s2 & lb) R1. apply retire_fields in R1 as (A2 & B2).
        apply rp_bind, rp_iff. intros (s3 & rb) R2. apply retire_fields in R2 as (A3 & B3). cbn [fst] in *.
        apply rp_bind, rp_iff. intros m Hm. apply rp_bind, rp_iff. intros u Hu.
        apply rp_bind. rewrite A3, A2, A1.
        eapply rp_mono; [apply scan_good|]. intros c (G1 & G2 & G3 & G4 & _).
        assert (F3 : from_rows g data asg s s3) by (split; [congruence|]; rewrite B3, B2; exact H1).
        unfold spawn. apply rp_bind. apply rp_bind. eapply rp_mono.
        { apply (@spawn1_rows g data asg s (h_zero h)); auto. lia. }
        intros s4 F4. eapply rp_mono; [apply (@spawn1_rows g data asg s (h_one h)); auto; lia|].
        intros s5 F5. exact F5. }
    intros (s1 & cache) F1. cbn [fst snd] in *. apply rp_bind. eapply rp_mono.
    { apply (@for_each_rp _ _ (fun _ s1 => from_rows g data asg s s1)); [exact F1|].
      intros id t s2 (A & H). apply rp_bind, rp_iff. intros m Hm. apply rp_bind, rp_iff. intros s3 H3. cbn [rp].
      unfold deactivate in H3. destruct (aset _ id false); cbn [bind] in H3; [|discriminate]. injection H3 as <-.
      split; [exact A|]. sx. unfold hm_erase, aset in Hm. destruct (id <? length (x_hcl s2)); [|discriminate]. injection Hm as <-.
      intros p h. rewrite hget_none_upd. destruct (p =? id); [discriminate|]. apply H. }
    intros s2 (A & H). cbn [rp]. split; [exact A|exact H]. }
  rewrite E in H. exact (proj2 H).
Qed.

(** the first partition's two means under FORGY are two drawn rows (all rows start
    in that partition); under NONE they are the caller's two centroids *)
Theorem C54_first_seeds : forall (g : hcfg N) centers it data dr s0 s,
  h_valid g data it centers dr -> h_coordinator_create g centers = Ok s0 -> run_hinit g it data dr s0 = Ok s ->
  exists h, hget (x_hcl s) 0 = Some h /\ x_asg s = repeat 0 (g_nrow g) /\
    forall j, j < 2 -> crow (h_cl h) j = h_seed g data it centers dr j.
Proof.
  intros g centers it data dr s0 s (V & K2 & K30 & Hm & Hi & Hini) E0 E1.
  destruct (@create_init_ok N g data V K2 K30 it centers dr Hini) as (s0' & s1 & c & E0' & E1' & Sh & Hr & Es).
  rewrite E0 in E0'. injection E0' as <-. rewrite E1 in E1'. injection E1' as <-.
  exists (mkH c 1 2 false). rewrite Es. cbn [x_hcl x_asg]. rewrite hget_put. splits; auto.
Qed.

(** the unused member-picking function, by contrast, reads before the start of the
    assignment vector although row 2 is a member, and misses a member in the last row *)
Theorem C54_forgy_select_refuted :
  forgy_select [5; 5; 7] 3 7 0 = Err UB /\ forgy_select [5; 7; 5; 5] 4 7 3 = Ok 1.
Proof. split; reflexivity. Qed.

(* ------------------------------------------------------------------ *)
(** ** C73 *)

(** no undefined behaviour, no exception, at most [2 * hclust_floor k - 2] rounds of
    [max_iters] iterations; the run either completes or fails an assertion *)
Theorem C73_safe_and_terminates : forall (g : hcfg N) bind centers it data dr scheds fuel,
  h_valid g data it centers dr -> h_fair g data scheds -> 2 * hclust_floor (g_k g) - 2 <= fuel ->
  (exists s, h_run g bind centers it data dr scheds fuel = Ok s) \/
  h_run g bind centers it data dr scheds fuel = Err Abort.
Proof.
  intros g bind centers it data dr scheds fuel Hv Hf Hfu.
  pose proof (@h_run_ok N g data bind centers it dr scheds fuel Hv Hf Hfu) as H.
  destruct (h_run g bind centers it data dr scheds fuel); [left; eauto|right]. destruct H as (-> & _). reflexivity.
Qed.

(** ** C72: the run aborts only for a row without usable distance, or because the
    consistency check meets an empty output cluster (or more than 2^31 - 1 rows) *)
Theorem C72_consistency_partial : forall (g : hcfg N) centers it data dr scheds fuel,
  h_valid g data it centers dr -> h_fair g data scheds -> 2 * hclust_floor (g_k g) - 2 <= fuel ->
  (Z.of_nat (g_nrow g) < 2 ^ 31)%Z ->
  (h_run g true centers it data dr scheds fuel = Err Abort /\ h_run g false centers it data dr scheds fuel = Err Abort /\
     unassignable g data) \/
  exists s, h_run g true centers it data dr scheds fuel = Ok s /\
    ((forall i, In i (map fst (x_final s)) -> 0 < count_eq i (x_asg s)) ->
       h_run g false centers it data dr scheds fuel = Ok s) /\
    ((exists i, In i (map fst (x_final s)) /\ count_eq i (x_asg s) = 0) ->
       h_run g false centers it data dr scheds fuel = Err Abort).
Proof.
  intros g centers it data dr scheds fuel Hv Hf Hfu Hn.
  pose proof (@h_run_ok N g data true centers it dr scheds fuel Hv Hf Hfu) as H.
  destruct (h_run g true centers it data dr scheds fuel) as [s|e] eqn:E.
  2:{ left. destruct H as (-> & [X|(X & _)]); [|discriminate]. split; [reflexivity|]. split; [|exact X].
    revert E. unfold h_run. destruct (h_coordinator_create g centers) as [s0|]; cbn [Base.bind]; [|congruence].
    destruct (build_workers g data) as [ws'|]; cbn [Base.bind]; [|congruence].
    destruct (run_hinit g it data dr s0) as [s1|]; cbn [Base.bind]; [|congruence].
    destruct (h_loop g ws' data scheds fuel 0 s1) as [s2|]; cbn [Base.bind]; [|congruence].
    destruct (complete_final g s2) as [s3|]; cbn [Base.bind]; congruence. }
  right. destruct H as (ws & Ew & Hws & HO & _). destruct (@verify_ok N g (ucelFP g ws data) 2 s HO Hn) as (A & B).
  exists s. split; [reflexivity|].
  assert (Q : h_run g false centers it data dr scheds fuel = let* _ := verify_consistency g s in Ok s).
  { revert E. unfold h_run. destruct (h_coordinator_create g centers) as [s0|]; cbn [Base.bind]; [|discriminate].
    destruct (build_workers g data) as [ws'|]; cbn [Base.bind]; [|discriminate].
    destruct (run_hinit g it data dr s0) as [s1|]; cbn [Base.bind]; [|discriminate].
    destruct (h_loop g ws' data scheds fuel 0 s1) as [s2|]; cbn [Base.bind]; [|discriminate].
    destruct (complete_final g s2) as [s3|]; cbn [Base.bind]; [|discriminate]. intros [= ->]. reflexivity. }
  rewrite Q. split.
  - intros X. rewrite (A X). reflexivity.
  - intros (i & Hi & Hc). rewrite (B (fun X => Nat.lt_irrefl 0 (eq_ind _ (fun z => 0 < z) (X i Hi) _ Hc))). reflexivity.
Qed.

(** ** C74: at most [(3 * hclust_floor k + 3) / 2] clusters, never more than twice the rounded k *)
Theorem C74_cluster_bound_partial : forall (g : hcfg N) bind centers it data dr scheds fuel s,
  h_valid g data it centers dr -> h_fair g data scheds -> 2 * hclust_floor (g_k g) - 2 <= fuel ->
  h_run g bind centers it data dr scheds fuel = Ok s ->
  2 <= length (x_final s) /\ 2 * length (x_final s) <= 3 * hclust_floor (g_k g) + 3 /\
  length (x_final s) <= 2 * hclust_floor (g_k g) /\ hclust_floor (g_k g) <= g_k g.
Proof.
  intros g bind centers it data dr scheds fuel s Hv Hf Hfu E. pose proof Hv as (_ & K2 & K30 & _).
  pose proof (@h_run_ok N g data bind centers it dr scheds fuel Hv Hf Hfu) as H. rewrite E in H.
  destruct H as (ws & _ & _ & HO & _). destruct (floor_facts K2 K30) as (F2 & Fk & _). destruct (o_num HO). splits; auto; lia.
Qed.

(** ** C75, any arithmetic: ids, sizes *)
Theorem C75_ids_and_sizes : forall (g : hcfg N) bind centers it data dr scheds fuel s,
  h_valid g data it centers dr -> h_fair g data scheds -> 2 * hclust_floor (g_k g) - 2 <= fuel ->
  h_run g bind centers it data dr scheds fuel = Ok s ->
  length (x_asg s) = g_nrow g /\ NoDup (map fst (x_final s)) /\
  (forall r, r < g_nrow g -> exists v, In (nth r (x_asg s) 0, v) (x_final s)) /\
  (forall i v, In (i, v) (x_final s) -> length v = g_ncol g /\ nth_error (x_counts s) i = Some (Z.of_nat (count_eq i (x_asg s)))).
Proof.
  intros g bind centers it data dr scheds fuel s Hv Hf Hfu E.
  pose proof (@h_run_ok N g data bind centers it dr scheds fuel Hv Hf Hfu) as H. rewrite E in H.
  destruct H as (ws & _ & _ & HO & _). splits.
  - apply (o_asg HO).
  - apply (o_keys HO).
  - intros r Hr. pose proof (o_rows HO Hr) as X. apply in_map_iff in X as ((i & v) & <- & X). exists v. exact X.
  - intros i v Hiv. split; [apply (o_cent HO Hiv)|].
    assert (Hi : i < 4 * hclust_floor (g_k g) - 1) by (apply (o_lt HO); apply in_map_iff; exists (i, v); auto).
    rewrite (nth_error_nth' (x_counts s) 0%Z) by (rewrite (o_lc HO); exact Hi). f_equal. apply (o_counts HO Hi).
Qed.
End Hier.

(** ** C75, real arithmetic: centroids *)
Theorem C75_centroids : forall (g : hcfg NumR) bind centers it data dr scheds fuel s,
  h_valid g data it centers dr -> h_fair g data scheds -> 2 * hclust_floor (g_k g) - 2 <= fuel ->
  h_run g bind centers it data dr scheds fuel = Ok s ->
  forall i v, In (i, v) (x_final s) ->
  let members := mem_rows (g_nrow g) (row data (g_ncol g)) (x_asg s) i in
  v = match members with [] => vzero (g_ncol g) | _ => vmean (g_ncol g) members end.
Proof.
  intros g bind centers it data dr scheds fuel s Hv Hf Hfu E i v Hiv.
  pose proof (@h_run_ok NumR g data bind centers it dr scheds fuel Hv Hf Hfu) as H. rewrite E in H.
  destruct H as (ws & _ & Hws & HO & _). destruct Hv as ((V1 & V2 & V3 & V4) & _).
  destruct (o_cent HO Hiv) as (_ & HP). unfold ucelFP in HP. rewrite HP. destruct Hws as (Ht & _).
  rewrite (@ucel_R g data ws (x_asg s) i V4 (o_asg HO) Ht). cbn [fst snd].
  exact (f_equal (mean_or_zero g) (@mems_rows g data (x_asg s) i (o_asg HO))).
Qed.
