(** A round of pruned k-means workers, merging, and the centroid update, in
    exact arithmetic. *)
From Coq Require Import Reals Lra.
From Verif Require Import Base Num Spec DistModel ClustersModel ClustersView PartitionModel ParModel KmeansModel PruneModel.
From Verif Require Import MatLemmas VecLemmas ClustersProofs DistProofs PartitionProofs ParProofs NearProofs KmeansProofs UpdateProofs RunProofs ParRule DistMatProofs PruneProofs ClusterSums.
Set Implicit Arguments.
Local Open Scope R_scope.

Notation cellR := (pcell NumR).
Notation tripleR := (nat * cellR * cellR)%type.
Definition dcell : cellR := (0, None, false).
Definition casg (c : cellR) : option nat := snd (fst c).
Definition cdist (c : cellR) : R := fst (fst c).

Definition ind (a : option nat) (j : nat) : Z := if id_eqb a (Some j) then 1%Z else 0%Z.
Definition wnew (j : nat) (t : tripleR) : Z := ind (casg (snd t)) j.
Definition wold (j : nat) (t : tripleR) : Z := ind (casg (snd (fst t))) j.
Definition wdel (j : nat) (t : tripleR) : Z := (wnew j t - wold j t)%Z.
Definition one (t : tripleR) : nat := 1.
Definition chg (t : tripleR) : nat := if id_eqb (casg (snd (fst t))) (casg (snd t)) then 0%nat else 1%nat.

Section Acc.
Variables (k d : nat) (X : nat -> list R).
Definition accum (w : nat -> tripleR -> Z) (tr : list tripleR) (j i : nat) : R :=
  rsum (map (fun t => IZR (w j t) * nth i (X (fst (fst t))) 0) tr).
Definition accumZ (w : nat -> tripleR -> Z) (tr : list tripleR) (j : nat) : Z := zsum (map (w j) tr).

(** a worker's local state describes the processed rows *)
Definition holds (w : nat -> tripleR -> Z) (f : tripleR -> nat) (l : wstate NumR) (tr : list tripleR) : Prop :=
  cis k d (fst l) (accum w tr) (accumZ w tr) (fun _ => false) /\ snd l = list_sum (map f tr).

Lemma list_sum_snoc l a : list_sum (l ++ [a]) = (list_sum l + a)%nat.
Proof. rewrite list_sum_app'. simpl. lia. Qed.

Lemma holds_nil w f l : fst l = clusters_create NumR k d -> snd l = 0%nat -> holds w f l [].
Proof.
  intros H1 H2. split; [|exact H2]. rewrite H1. eapply cis_ext; [apply cis_create|..]; reflexivity.
Qed.

Lemma holds_snoc w f l tr c' n t :
  holds w f l tr -> cis k d c' (fun j i => accum w tr j i + IZR (w j t) * nth i (X (fst (fst t))) 0) (fun j => accumZ w tr j + w j t)%Z (fun _ => false) ->
  n = (snd l + f t)%nat -> holds w f (c', n) (tr ++ [t]).
Proof.
  intros (_ & H2) Hc ->. split.
  - cbn [fst]. eapply cis_ext; [exact Hc|..]; auto.
    + intros j i Hj Hi. unfold accum. rewrite map_app, rsum_app. cbn [map rsum]. lra.
    + intros j Hj. unfold accumZ. rewrite map_app, zsum_app. cbn [map zsum]. lia.
  - cbn [snd]. rewrite map_app. cbn [map]. rewrite list_sum_snoc, H2. reflexivity.
Qed.

(** merging the workers' containers into [c] *)
Lemma merge_holds w f : forall (locs : list (wstate NumR)) (trs : list (list tripleR)) c ch F M D,
  length locs = length trs -> cis k d c F M D ->
  (forall t l tr, nth_error locs t = Some l -> nth_error trs t = Some tr -> holds w f l tr) ->
  exists c', for_each locs (fun (l : wstate NumR) (cc : clusters NumR * nat) =>
      let* c := peq (fst cc) (fst l) in Ok (c, (snd cc + snd l)%nat)) (c, ch)
    = Ok (c', (ch + list_sum (map f (concat trs)))%nat) /\
    cis k d c' (fun j i => F j i + accum w (concat trs) j i) (fun j => M j + accumZ w (concat trs) j)%Z D.
Proof.
  induction locs as [|l locs IH]; intros [|tr trs] c ch F M D Hl Hc H; simpl in Hl; try lia.
  - exists c. cbn [for_each concat map list_sum fold_right]. rewrite Nat.add_0_r. split; [reflexivity|].
    eapply cis_ext; [exact Hc|..]; auto.
    + intros j i _ _. unfold accum. cbn [map rsum]. lra.
    + intros j _. unfold accumZ. cbn [map zsum]. lia.
  - cbn [for_each]. destruct (H 0%nat l tr eq_refl eq_refl) as (H1 & H2).
    destruct (cis_peq Hc H1) as (c1 & E1 & Hc1). cbn [fst snd].
    rewrite E1. cbn [bind].
    destruct (IH trs c1 (ch + snd l)%nat _ _ _ ltac:(lia) Hc1) as (c2 & E2 & Hc2).
    { intros t l' tr' Ew El. exact (H (S t) l' tr' Ew El). }
    exists c2. split.
    + rewrite E2. f_equal. f_equal. cbn [concat]. rewrite map_app, list_sum_app'. lia.
    + eapply cis_ext; [exact Hc2|..]; auto.
      * intros j i _ _. cbn [concat]. unfold accum. rewrite map_app, rsum_app. lra.
      * intros j _. cbn [concat]. unfold accumZ. rewrite map_app, zsum_app. lia.
Qed.

(** the per-cluster sums and counts of an assignment *)
Definition sumF (n : nat) (cells : list cellR) (j i : nat) : R :=
  rsum (map (fun r => IZR (ind (casg (nth r cells dcell)) j) * nth i (X r) 0) (seq 0 n)).
Definition cntF (n : nat) (cells : list cellR) (j : nat) : Z :=
  zsum (map (fun r => ind (casg (nth r cells dcell)) j) (seq 0 n)).
Definition meanF (n : nat) (cells : list cellR) (j i : nat) : R :=
  if (1 <? cntF n cells j)%Z then sumF n cells j i / IZR (cntF n cells j) else sumF n cells j i.

Lemma accum_new n cells cells' j i : accum wnew (triples dcell cells cells' 0 n) j i = sumF n cells' j i.
Proof. unfold accum, sumF, triples. rewrite map_map. reflexivity. Qed.
Lemma accumZ_new n cells cells' j : accumZ wnew (triples dcell cells cells' 0 n) j = cntF n cells' j.
Proof. unfold accumZ, cntF, triples. rewrite map_map. reflexivity. Qed.

Lemma accum_del n cells cells' j i : accum wdel (triples dcell cells cells' 0 n) j i = sumF n cells' j i - sumF n cells j i.
Proof.
  unfold accum, sumF, triples. rewrite map_map. rewrite <- rsum_map_minus. apply rsum_ext. intros r _.
  unfold wdel, wnew, wold. cbn [fst snd]. rewrite minus_IZR. lra.
Qed.
Lemma accumZ_del n cells cells' j : accumZ wdel (triples dcell cells cells' 0 n) j = (cntF n cells' j - cntF n cells j)%Z.
Proof.
  clear k d X.
  unfold accumZ, cntF, triples. rewrite map_map. generalize (seq 0 n) as l. induction l as [|r l IH]; [reflexivity|].
  cbn [map zsum]. rewrite IH. unfold wdel, wnew, wold. cbn [fst snd]. lia.
Qed.

Lemma cntF_nonneg n cells j : (0 <= cntF n cells j)%Z.
Proof.
  clear k d X.
  unfold cntF. generalize (seq 0 n). induction l as [|r l IH]; cbn [map zsum]; [lia|].
  unfold ind at 1. destruct (id_eqb _ _); lia.
Qed.

(** all counts together: every row has an id below k *)
Lemma cntF_total n cells : (forall r, (r < n)%nat -> exists a, casg (nth r cells dcell) = Some a /\ (a < k)%nat) ->
  fold_right Z.add 0%Z (map (cntF n cells) (seq 0 k)) = Z.of_nat n.
Proof.
  intros H. induction n as [|n IH].
  - unfold cntF. cbn [seq map zsum]. generalize (seq 0 k). induction l; cbn [map fold_right]; lia.
  - assert (E : forall l, fold_right Z.add 0%Z (map (cntF (S n) cells) l) =
       (fold_right Z.add 0 (map (cntF n cells) l) + fold_right Z.add 0 (map (fun j => ind (casg (nth n cells dcell)) j) l))%Z).
    { induction l as [|j l IHl]; [reflexivity|]. cbn [map fold_right]. rewrite IHl.
      unfold cntF at 1. rewrite seq_S, map_app, zsum_app. cbn [map zsum plus]. fold (cntF n cells j). lia. }
    rewrite E, IH by (intros; apply H; lia).
    destruct (H n ltac:(lia)) as (a & Ea & Ha). rewrite Ea.
    assert (G : forall m s, fold_right Z.add 0%Z (map (fun j => ind (Some a) j) (seq s m)) = if ((s <=? a) && (a <? s + m))%nat then 1%Z else 0%Z).
    { induction m as [|m IHm]; intros s; cbn [seq map fold_right].
      - destruct (Nat.leb_spec s a), (Nat.ltb_spec a (s + 0)); cbn; lia.
      - rewrite IHm. unfold ind. cbn [id_eqb].
        destruct (Nat.eqb_spec a s), (Nat.leb_spec (S s) a), (Nat.leb_spec s a), (Nat.ltb_spec a (S s + m)), (Nat.ltb_spec a (s + S m)); cbn; lia. }
    rewrite G. destruct (Nat.leb_spec 0 a), (Nat.ltb_spec a (0 + k)); cbn [andb]; lia.
Qed.

End Acc.

(* ------------------------------------------------------------------ *)
(** * Rounds *)
Section Round.
Variables (g : kcfg NumR) (ws : list (worker NumR)) (data : list (car NumR)).
Let d := g_ncol g.
Let k := g_k g.
Let n := g_nrow g.
Let X (r : nat) : list R := row data d r.
Hypothesis Hws : wok n d data ws.
Hypothesis Hdata : length data = (n * d)%nat.

Lemma X_len r : (r < n)%nat -> @length R (X r) = d.
Proof. intros Hr. apply (@row_length _ data d r n); auto. Qed.

Lemma round_start (locals : list (wstate NumR)) : length locals = length ws ->
  Forall (fun l => shaped k d (fst l)) locals ->
  let locs0 := map (fun l : wstate NumR => (clear (fst l), 0%nat)) locals in
  length locs0 = length (w_ranges ws) /\
  forall t l0, nth_error locs0 t = Some l0 -> fst l0 = clusters_create NumR k d /\ snd l0 = 0%nat.
Proof.
  intros Ll Hsh locs0. split; [unfold locs0, w_ranges; rewrite !map_length; exact Ll|].
  intros t l0 E. apply nth_error_In in E. unfold locs0 in E. apply in_map_iff in E as (l & <- & Hin).
  cbn [fst snd]. split; auto. apply (@clear_create NumR). rewrite Forall_forall in Hsh. apply Hsh. exact Hin.
Qed.

Lemma range_worker t s m : nth_error (w_ranges ws) t = Some (s, m) ->
  exists w, nth_error ws t = Some w /\ w_start w = s /\ w_nrow w = m.
Proof.
  unfold w_ranges. rewrite nth_error_map. destruct (nth_error ws t) as [w|]; [|discriminate].
  intros E. injection E as <- <-. eauto.
Qed.

Definition near_cell (dt : dist_t) (C : nat -> list R) (t : tripleR) : Prop :=
  exists a, casg (snd t) = Some a /\ is_nearest dt k C (X (fst (fst t))) a.

(** the first, unpruned pass *)
Lemma init_round (p : prune_clusters NumR) dm sched locals cells :
  shaped k d (p_cl p) -> (1 <= k)%nat -> complete (w_ranges ws) sched -> length cells = n -> length locals = length ws ->
  Forall (fun l => shaped k d (fst l)) locals ->
  (forall r, (r < n)%nat -> entry_ok k (g_dt g) (crow (p_cl p)) (X r) (cdist (nth r cells dcell)) (casg (nth r cells dcell))) ->
  exists locs cells', pEM_round g ws p dm true sched locals cells = Ok (locs, cells') /\
    length locs = length ws /\ length cells' = n /\
    (forall r, (r < n)%nat -> exists a, casg (nth r cells' dcell) = Some a /\
       is_nearest (g_dt g) k (crow (p_cl p)) (X r) a /\
       cdist (nth r cells' dcell) = rdist (g_dt g) (X r) (crow (p_cl p) a)) /\
    (forall t s m l, nth_error (w_ranges ws) t = Some (s, m) -> nth_error locs t = Some l ->
       holds k d X wnew one l (triples dcell cells cells' s m)).
Proof.
  intros Hp Hk Hc Lc Ll Hsh He. destruct (round_start Ll Hsh) as (L0 & H0).
  set (Q := fun t : tripleR => exists a, casg (snd t) = Some a /\
       is_nearest (g_dt g) k (crow (p_cl p)) (X (fst (fst t))) a /\
       cdist (snd t) = rdist (g_dt g) (X (fst (fst t))) (crow (p_cl p) a)).
  assert (Ht : ntiles 0 (length cells) (w_ranges ws)) by (rewrite Lc; apply Hws).
  destruct (@par_run_rule _ _ dcell (pEM_row g ws p dm true) (w_ranges ws) cells _ Ht L0
     (fun t l tr => holds k d X wnew one l tr /\ Forall Q tr)) with (sched := sched) as (locs & cells' & E & Lo & Lc' & H).
  - intros t l0 E. destruct (H0 t l0 E) as (A & B). split; [apply holds_nil; auto|constructor].
  - intros t s m r l tr Er Hr Hb Htr (Hl & HQ).
    destruct (range_worker t Er) as (w & Ew & <- & <-).
    unfold pEM_row. destruct (nth (w_start w + r) cells dcell) as [[dv old] rc] eqn:Ecell.
    unfold aget. rewrite Ew. cbn [bind].
    assert (Hrow : slice (fst (wrow w d r)) (snd (wrow w d r)) d = X (w_start w + r)).
    { apply Hws; [eapply nth_error_In; eauto|exact Hr]. }
    assert (Lx : @length R (X (w_start w + r)) = d) by (apply X_len; lia).
    specialize (He (w_start w + r)%nat ltac:(lia)). rewrite Ecell in He. unfold cdist, casg in He. cbn [fst snd] in He.
    destruct (@prow_init_R k d (g_dt g) (wrow w d r) (X (w_start w + r)) (p_cl p) dv old Hrow Lx Hp Hk He) as (a & E1 & Hn).
    pose proof Hp as (Hk' & _). unfold k, d in E1. rewrite Hk'. unfold k. rewrite E1. cbn [bind fst snd].
    destruct Hn as (Ha & Hn). pose proof Ha as Ha'. apply Nat.ltb_lt in Ha'. unfold k in Ha'. rewrite Ha'. cbn [assert_ bind].
    destruct Hl as (Hl1 & Hl2).
    destruct (cis_add (wrow w d r) Hl1 Ha Lx Hrow) as (lc & E2 & Hlc). unfold d in E2. rewrite E2. cbn [bind].
    eexists _, _. split; [reflexivity|]. split.
    + eapply holds_snoc; [split; [exact Hl1|exact Hl2]| |unfold one; lia].
      eapply cis_ext; [exact Hlc|..]; auto.
      * intros j i Hj Hi. unfold wnew, casg. cbn [fst snd]. unfold ind. cbn [id_eqb]. rewrite Nat.eqb_sym.
        match goal with |- ?a + (if _ then ?u else _) = ?b + _ * ?v => change v with u; generalize u as z; change b with a; generalize a as y end.
        intros y z. destruct (a =? j)%nat; lra.
      * intros j Hj. unfold wnew, casg. cbn [fst snd]. unfold ind. cbn [id_eqb]. rewrite Nat.eqb_sym. destruct (a =? j)%nat; lia.
    + apply Forall_app. split; auto. constructor; [|constructor]. exists a. unfold casg, cdist. cbn [fst snd].
      splits; auto. split; auto.
  - exact Hc.
  - exists locs, cells'. splits.
    + exact E.
    + rewrite Lo. unfold w_ranges. rewrite map_length. reflexivity.
    + congruence.
    + intros r Hr. pose proof (@rule_rows _ dcell cells cells' (w_ranges ws) Q Ht) as HR.
      apply HR; [|lia]. intros t s m Er. destruct (H t s m Er) as (l & _ & _ & HQ). exact HQ.
    + intros t s m l Er El. destruct (H t s m Er) as (l' & El' & Hh & _).
      rewrite El in El'. injection El' as <-. exact Hh.
Qed.

(** a pruned pass, whatever [Qr] each row's scan guarantees *)
Lemma pruned_round_gen (Qr : nat -> R -> nat -> Prop) (p : prune_clusters NumR) dm sched locals cells :
  shaped k d (p_cl p) -> complete (w_ranges ws) sched ->
  length cells = n -> length locals = length ws ->
  Forall (fun l => shaped k d (fst l)) locals ->
  (forall r (x : ptr R), (r < n)%nat -> slice (fst x) (snd x) d = X r -> exists o, casg (nth r cells dcell) = Some o /\ (o < k)%nat /\
     exists dv' a rc', @prow_pruned NumR x p dm d (g_dt g) (cdist (nth r cells dcell)) (Some o) = Ok (dv', a, rc') /\ (a < k)%nat /\ Qr r dv' a) ->
  exists locs cells', pEM_round g ws p dm false sched locals cells = Ok (locs, cells') /\
    length locs = length ws /\ length cells' = n /\
    (forall r, (r < n)%nat -> exists a, casg (nth r cells' dcell) = Some a /\ (a < k)%nat /\ Qr r (cdist (nth r cells' dcell)) a) /\
    (forall t s m l, nth_error (w_ranges ws) t = Some (s, m) -> nth_error locs t = Some l ->
       holds k d X wdel chg l (triples dcell cells cells' s m)).
Proof.
  intros Hp Hc Lc Ll Hsh He. destruct (round_start Ll Hsh) as (L0 & H0).
  set (Q := fun t : tripleR => exists a, casg (snd t) = Some a /\ (a < k)%nat /\ Qr (fst (fst t)) (cdist (snd t)) a).
  assert (Ht : ntiles 0 (length cells) (w_ranges ws)) by (rewrite Lc; apply Hws).
  destruct (@par_run_rule _ _ dcell (pEM_row g ws p dm false) (w_ranges ws) cells _ Ht L0
     (fun t l tr => holds k d X wdel chg l tr /\ Forall Q tr)) with (sched := sched) as (locs & cells' & E & Lo & Lc' & H).
  - intros t l0 E. destruct (H0 t l0 E) as (A & B). split; [apply holds_nil; auto|constructor].
  - intros t s m r l tr Er Hr Hb Htr (Hl & HQ).
    destruct (range_worker t Er) as (w & Ew & <- & <-).
    unfold pEM_row. destruct (nth (w_start w + r) cells dcell) as [[dv old] rc] eqn:Ecell.
    unfold aget. rewrite Ew. cbn [bind].
    assert (Hrow : slice (fst (wrow w d r)) (snd (wrow w d r)) d = X (w_start w + r)).
    { apply Hws; [eapply nth_error_In; eauto|exact Hr]. }
    assert (Lx : @length R (X (w_start w + r)) = d) by (apply X_len; lia).
    specialize (He (w_start w + r)%nat (wrow w d r) ltac:(lia) Hrow). rewrite Ecell in He. unfold cdist, casg in He. cbn [fst snd] in He.
    destruct He as (o & -> & Ho & dv' & a & rc' & E1 & Ha & Hq).
    unfold d in E1. rewrite E1. cbn [bind].
    pose proof Hp as (Hk' & _). rewrite Hk'.
    pose proof Ha as Ha'. apply Nat.ltb_lt in Ha'. rewrite Ha'. cbn [assert_ bind id_eqb].
    destruct Hl as (Hl1 & Hl2).
    destruct (Nat.eqb_spec o a) as [->|Hne].
    + eexists _, _. split; [reflexivity|]. split.
      * assert (G : l = (fst l, snd l)) by (destruct l; reflexivity). rewrite G.
        eapply holds_snoc; [split; [exact Hl1|exact Hl2]| |unfold chg, casg; cbn [fst snd id_eqb]; rewrite Nat.eqb_refl; lia].
        eapply cis_ext; [exact Hl1|..]; auto.
        -- intros j i Hj Hi. unfold wdel, wnew, wold, casg. cbn [fst snd]. rewrite Z.sub_diag. lra.
        -- intros j Hj. unfold wdel, wnew, wold, casg. cbn [fst snd]. lia.
      * apply Forall_app. split; auto. constructor; [|constructor]. exists a. unfold casg, cdist. cbn [fst snd].
        splits; auto.
    + destruct (cis_swap (wrow w d r) Hl1 Ho Ha Lx Hrow) as (lc & E2 & Hlc). unfold d in E2. rewrite E2. cbn [bind].
      eexists _, _. split; [reflexivity|]. split.
      * eapply holds_snoc; [split; [exact Hl1|exact Hl2]| |unfold chg, casg; cbn [fst snd id_eqb]; apply Nat.eqb_neq in Hne; rewrite Hne; lia].
        eapply cis_ext; [exact Hlc|..]; auto.
        -- intros j i Hj Hi. unfold wdel, wnew, wold, casg. cbn [fst snd]. unfold ind. cbn [id_eqb]. rewrite (Nat.eqb_sym a j), (Nat.eqb_sym o j).
           match goal with |- ?b - (if _ then ?u else _) + _ = ?b' + _ * ?v => change v with u; change b' with b; generalize u as z; generalize b as y end.
           intros y z. destruct (j =? a)%nat, (j =? o)%nat; cbn [Z.sub Z.add Z.opp Z.pos_sub]; lra.
        -- intros j Hj. unfold wdel, wnew, wold, casg. cbn [fst snd]. unfold ind. cbn [id_eqb]. rewrite (Nat.eqb_sym a j), (Nat.eqb_sym o j).
           destruct (j =? a)%nat, (j =? o)%nat; lia.
      * apply Forall_app. split; auto. constructor; [|constructor]. exists a. unfold casg, cdist. cbn [fst snd]. splits; auto.
  - exact Hc.
  - exists locs, cells'. splits.
    + exact E.
    + rewrite Lo. unfold w_ranges. rewrite map_length. reflexivity.
    + congruence.
    + intros r Hr. pose proof (@rule_rows _ dcell cells cells' (w_ranges ws) Q Ht) as HR.
      apply HR; [|lia]. intros t s m Er. destruct (H t s m Er) as (l & _ & _ & HQ). exact HQ.
    + intros t s m l Er El. destruct (H t s m Er) as (l' & El' & Hh & _).
      rewrite El in El'. injection El' as <-. exact Hh.
Qed.

(** a pruned pass with sound bounds: nearest assignment *)
Lemma pruned_round (p : prune_clusters NumR) dm sched locals cells :
  g_dt g = EUCL -> table_ok k d dm p -> length (p_prev_dist p) = k -> complete (w_ranges ws) sched ->
  length cells = n -> length locals = length ws ->
  Forall (fun l => shaped k d (fst l)) locals ->
  (forall r, (r < n)%nat -> exists a, casg (nth r cells dcell) = Some a /\ (a < k)%nat /\
     edist (X r) (crow (p_cl p) a) <= cdist (nth r cells dcell) + nth a (p_prev_dist p) 0) ->
  exists locs cells', pEM_round g ws p dm false sched locals cells = Ok (locs, cells') /\
    length locs = length ws /\ length cells' = n /\
    (forall r, (r < n)%nat -> exists a, casg (nth r cells' dcell) = Some a /\ (a < k)%nat /\
       (is_nearest EUCL k (crow (p_cl p)) (X r) a /\ edist (X r) (crow (p_cl p) a) <= cdist (nth r cells' dcell))) /\
    (forall t s m l, nth_error (w_ranges ws) t = Some (s, m) -> nth_error locs t = Some l ->
       holds k d X wdel chg l (triples dcell cells cells' s m)).
Proof.
  intros Hdt Htab Lpd Hc Lc Ll Hsh He.
  apply (@pruned_round_gen (fun r dv a => is_nearest EUCL k (crow (p_cl p)) (X r) a /\ edist (X r) (crow (p_cl p) a) <= dv)); auto.
  - apply Htab.
  - intros r x Hr Hx. destruct (He r Hr) as (o & Eo & Ho & Hle). exists o. splits; auto.
    destruct (@prow_pruned_R k d x (X r) p dm (cdist (nth r cells dcell)) o Hx (@X_len r Hr) Htab Lpd Ho Hle) as (dv' & a & rc' & E & Hn & Hle').
    exists dv', a, rc'. rewrite Hdt. splits; auto. apply Hn.
Qed.

(** a pruned pass with any metric and any bounds: valid ids *)
Lemma prow_pruned_any dt (x : ptr R) xv (p : prune_clusters NumR) dm dv a :
  slice (fst x) (snd x) d = xv -> @length R xv = d -> dm_ok k dm -> shaped k d (p_cl p) -> @length R (p_prev_dist p) = k -> @length R (p_s_val p) = k -> (a < k)%nat ->
  exists dv' a' rc', @prow_pruned NumR x p dm d dt dv (Some a) = Ok (dv', a', rc') /\ (a' < k)%nat.
Proof.
  intros Hx Lx Hm Hc Lpd Ls Ha. unfold prow_pruned.
  rewrite (@aget_nth _ (p_prev_dist p) a 0) by (change (a < @length R (p_prev_dist p))%nat; lia). cbn [bind].
  rewrite (@aget_nth _ (p_s_val p) a (nmax NumR)) by (change (a < @length R (p_s_val p))%nat; lia). cbn [bind].
  destruct (nleb NumR _ _); [eauto|].
  match goal with |- exists _ _ _, ?l = _ /\ _ => assert (H : okp l (fun s => (snd (fst s) < k)%nat)) end.
  { pose proof Hc as (Hk' & _). rewrite Hk'. apply (@loop_okp _ (fun i s => (snd (fst s) < k)%nat)); [exact Ha|].
    intros i [[dv1 a1] rc1] Hi H1. cbn [fst snd] in H1. unfold prow_turn.
    rewrite (@dm_get_ok NumR k dm a1 i Hm H1 Hi). cbn [bind]. destruct (nleb NumR _ _); [exact H1|].
    assert (E : exists dv2, (if rc1 then @Ok (car NumR) dv1 else dist_comp_raw NumR x (c_means (p_cl p), (a1 * d)%nat) d dt) = Ok dv2).
    { destruct rc1; [eauto|]. rewrite (@dist_row k d dt x xv (p_cl p) a1 Hx Lx Hc H1). eauto. }
    destruct E as (dv2 & E). rewrite E. cbn [bind]. destruct (nleb NumR _ _); [exact H1|].
    rewrite (@dist_row k d dt x xv (p_cl p) i Hx Lx Hc Hi). cbn [bind]. destruct (nltb NumR _ _); [exact Hi|exact H1]. }
  apply okp_iff in H as ([[dv' a'] rc'] & E & H). exists dv', a', rc'. split; [exact E|exact H].
Qed.

Lemma pruned_round_any (p : prune_clusters NumR) dm sched locals cells :
  dm_ok k dm -> shaped k d (p_cl p) -> @length R (p_prev_dist p) = k -> @length R (p_s_val p) = k -> complete (w_ranges ws) sched ->
  length cells = n -> length locals = length ws ->
  Forall (fun l => shaped k d (fst l)) locals ->
  (forall r, (r < n)%nat -> exists a, casg (nth r cells dcell) = Some a /\ (a < k)%nat) ->
  exists locs cells', pEM_round g ws p dm false sched locals cells = Ok (locs, cells') /\
    length locs = length ws /\ length cells' = n /\
    (forall r, (r < n)%nat -> exists a, casg (nth r cells' dcell) = Some a /\ (a < k)%nat) /\
    (forall t s m l, nth_error (w_ranges ws) t = Some (s, m) -> nth_error locs t = Some l ->
       holds k d X wdel chg l (triples dcell cells cells' s m)).
Proof.
  intros Hm Hp Lpd Ls Hc Lc Ll Hsh He.
  destruct (@pruned_round_gen (fun r dv a => True) p dm sched locals cells) as (locs & cells' & E & A & B & C & D); auto.
  - intros r x Hr Hx. destruct (He r Hr) as (o & Eo & Ho). exists o. splits; auto.
    destruct (@prow_pruned_any (g_dt g) x (X r) p dm (cdist (nth r cells dcell)) o Hx (@X_len r Hr) Hm Hp Lpd Ls Ho) as (dv' & a & rc' & E & Ha).
    exists dv', a, rc'. auto.
  - exists locs, cells'. splits; auto. intros r Hr. destruct (C r Hr) as (a & E1 & E2 & _). eauto.
Qed.

End Round.
