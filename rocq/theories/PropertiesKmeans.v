(** C13-C15, C17, C21-C23, C66: unpruned k-means, in whatever arithmetic the
    program is run with (IEEE doubles included).

    All statements are about [run], i.e. the whole program: constructor, data
    loading, initialisation and the iterations, for every thread count, every
    random draw and every schedule that lets the workers finish ([fair]).
    [run] returns the value of the C++ [run()] plus a ghost record of the state
    after the initialisation and after every iteration. *)
From Verif Require Import Base Num Spec DistModel ClustersModel ClustersView PartitionModel ParModel KmeansModel.
From Verif Require Import MatLemmas ClustersProofs DistProofs PartitionProofs ParProofs NearProofs KmeansProofs UpdateProofs RunProofs.
Set Implicit Arguments.

(** iteration [i] (counted from 0) of the run went from [s] to [s'] *)
Definition iteration {N} (rr : run_result N) (i : nat) (s s' : kst N) : Prop :=
  nth_error (rr_init rr :: rr_trace rr) i = Some s /\ nth_error (rr_trace rr) i = Some s'.

(** what the code returns for the distance of row [r] of the data to centroid [j] *)
Definition row_dist {N} (g : kcfg N) (data : list (car N)) (s : kst N) (r j : nat) (v : car N) : Prop :=
  dist_comp_raw N (data, r * g_ncol g) (c_means (s_cltrs s), j * g_ncol g) (g_ncol g) (g_dt g) = Ok v.

(** number of rows assigned to cluster [j] *)
Definition rows_in (j : nat) (asg : list (option nat)) : nat :=
  length (filter (fun a => match a with Some c => Nat.eqb c j | None => false end) asg).

(** number of positions where two assignment vectors differ *)
Definition differing (nrow : nat) (a b : list (option nat)) : nat :=
  length (filter (fun r => negb (id_eqb (nth r a None) (nth r b None))) (seq 0 nrow)).

Section Any.
Variable N : Num.
Notation T := (car N).

Lemma row_dist_eq (g : kcfg N) (ws : list (worker N)) data s r j : stok g ws s ->
  length data = g_nrow g * g_ncol g -> r < g_nrow g -> j < g_k g ->
  row_dist g data s r j (ldist N (g_dt g) (row data (g_ncol g) r) (nth j (cents g (s_cltrs s)) [])).
Proof.
  intros St Hd Hr Hj. destruct St as ((Hk & Hc & Hm & _) & _). unfold row_dist.
  unfold cents. rewrite nth_rows by exact Hj.
  apply dist_comp_raw_ok; try reflexivity.
  - apply (@row_length _ data (g_ncol g) r (g_nrow g)); auto.
  - rewrite Hc in Hm. apply (@row_length _ _ (g_ncol g) j (g_k g)); [congruence|exact Hj].
Qed.

Lemma row_dist_fun (g : kcfg N) data s r j v v' : row_dist g data s r j v -> row_dist g data s r j v' -> v = v'.
Proof. unfold row_dist. congruence. Qed.

Lemma nth_error_cents (g : kcfg N) c j : j < g_k g -> nth_error (cents g c) j = Some (nth j (cents g c) []).
Proof. intros H. apply nth_error_nth'. unfold cents. rewrite rows_length. exact H. Qed.

(** a centroid [c] nearest to row [r] at state [s], lowest index on ties *)
Definition nearest_lowest (g : kcfg N) (data : list T) (s : kst N) (r c : nat) : Prop :=
  c < g_k g /\ exists dc, row_dist g data s r c dc /\
    forall j, j < g_k g -> exists dj, row_dist g data s r j dj /\
      nltb N dj dc = false /\ (j < c -> neqb N dj dj = true -> nltb N dc dj = true).

Lemma nid_nearest (O : OrdLaws N) (g : kcfg N) ws data s r c : stok g ws s ->
  length data = g_nrow g * g_ncol g -> r < g_nrow g ->
  nid g data (s_cltrs s) r = Some c -> nearest_lowest g data s r c.
Proof.
  intros St Hd Hr H. unfold nid in H.
  pose proof (near_spec O (g_dt g) (cents g (s_cltrs s)) (row data (g_ncol g) r)) as Hn.
  destruct (near N (g_dt g) (cents g (s_cltrs s)) (row data (g_ncol g) r)) as [[c'|] dd]; [|discriminate].
  simpl in H. injection H as ->. destruct Hn as ((Hlt & Hn) & _ & _).
  assert (Hlt' : c < g_k g) by (unfold cents in Hlt; rewrite rows_length in Hlt; exact Hlt).
  split; [exact Hlt'|]. eexists. split; [eapply row_dist_eq; eauto|].
  intros j Hj. eexists. split; [eapply row_dist_eq; eauto|].
  exact (Hn j _ _ (@nth_error_cents g (s_cltrs s) j Hj) (@nth_error_cents g (s_cltrs s) c Hlt')).
Qed.

Lemma nid_none (O : OrdLaws N) (g : kcfg N) ws data s r : stok g ws s ->
  length data = g_nrow g * g_ncol g -> r < g_nrow g ->
  nid g data (s_cltrs s) r = None <->
  (forall j v, j < g_k g -> row_dist g data s r j v -> nltb N v (nmax N) = false).
Proof.
  intros St Hd Hr. unfold nid.
  pose proof (near_spec O (g_dt g) (cents g (s_cltrs s)) (row data (g_ncol g) r)) as Hn.
  destruct (near N (g_dt g) (cents g (s_cltrs s)) (row data (g_ncol g) r)) as [[c'|] dd]; simpl; split; try discriminate.
  - intros H. destruct Hn as ((Hlt & _) & Hd1 & y & Ey & Hy). exfalso.
    assert (Hlt' : c' < g_k g) by (unfold cents in Hlt; rewrite rows_length in Hlt; exact Hlt).
    rewrite (@nth_error_cents g _ c' Hlt') in Ey. injection Ey as <-.
    pose proof (H c' _ Hlt' (@row_dist_eq g ws data s r c' St Hd Hr Hlt')) as E. congruence.
  - intros _ j v Hj Hv. rewrite (row_dist_fun Hv (@row_dist_eq g ws data s r j St Hd Hr Hj)).
    apply Hn. eapply nth_error_In. apply nth_error_cents. exact Hj.
  - intros _. reflexivity.
Qed.

Lemma nid_cases (O : OrdLaws N) (g : kcfg N) (data : list T) c r a : nid g data c r = Some a ->
  a < g_k g /\ forall j, j < g_k g ->
    let dj i := ldist N (g_dt g) (row data (g_ncol g) r) (row (c_means c) (g_ncol g) i) in
    nltb N (dj j) (dj a) = false /\ (j < a -> neqb N (dj j) (dj j) = true -> nltb N (dj a) (dj j) = true).
Proof.
  intros H. unfold nid in H.
  pose proof (near_spec O (g_dt g) (cents g c) (row data (g_ncol g) r)) as Hn.
  destruct (near N (g_dt g) (cents g c) (row data (g_ncol g) r)) as [[a'|] dd]; [|discriminate].
  simpl in H. injection H as ->. destruct Hn as ((Hlt & Hn) & _).
  assert (Ha : a < g_k g) by (unfold cents in Hlt; rewrite rows_length in Hlt; exact Hlt).
  split; [exact Ha|]. intros j Hj.
  assert (Ej : forall i, i < g_k g -> nth_error (cents g c) i = Some (row (c_means c) (g_ncol g) i)).
  { intros i Hi. unfold cents. rewrite nth_error_rows. apply Nat.ltb_lt in Hi. rewrite Hi. reflexivity. }
  exact (Hn j _ _ (Ej j Hj) (Ej a Ha)).
Qed.

(** ** C13 *)
Theorem C13_nearest : OrdLaws N ->
  forall (g : kcfg N) centers it data dr scheds rr,
  valid_input g data -> fair g data scheds -> run g centers it data dr scheds = Ok rr ->
  forall i s s', iteration rr i s s' -> forall r, r < g_nrow g ->
  exists c, nth_error (s_asg s') r = Some (Some c) /\ nearest_lowest g data s r c.
Proof.
  intros O g centers it data dr scheds rr V F H i s s' (E & E') r Hr.
  destruct (@run_inv _ _ _ _ _ _ _ _ V F H) as (ws & _ & _ & _ & St & Hit & _).
  destruct (Hit i s s' E E') as (A & LA & HA & Ea & Hnid & _).
  exists (nth r A 0). split.
  - rewrite Ea, nth_error_map, (nth_error_nth' A 0) by lia. reflexivity.
  - assert (Hs : stok g ws s) by (apply St; eapply nth_error_In; eauto).
    apply (nid_nearest O) with (ws := ws); auto; [apply V|].
    rewrite <- Hnid by exact Hr. unfold before. destruct (i =? 0); reflexivity.
Qed.

(** ** C14 *)
Definition no_usable_distance (g : kcfg N) (data : list T) (s : kst N) (r : nat) : Prop :=
  forall j v, j < g_k g -> row_dist g data s r j v -> nltb N v (nmax N) = false.

(** in every state a run goes through, the next iteration aborts exactly if some row has no usable
    distance, and otherwise completes *)
Theorem C14_iteration_aborts : OrdLaws N ->
  forall (g : kcfg N) centers it data dr scheds rr ws sched,
  valid_input g data -> fair g data scheds -> run g centers it data dr scheds = Ok rr ->
  build_workers g data = Ok ws -> complete (w_ranges ws) sched ->
  forall s, In s (rr_init rr :: rr_trace rr) ->
  (iterate g ws sched s = Err Abort <-> exists r, r < g_nrow g /\ no_usable_distance g data s r) /\
  ((forall r, r < g_nrow g -> ~ no_usable_distance g data s r) -> exists s', iterate g ws sched s = Ok s').
Proof.
  intros O g centers it data dr scheds rr ws sched V F H Hws Hsch s Hs.
  destruct (@run_inv _ _ _ _ _ _ _ _ V F H) as (ws' & Ew & Wok & _ & St & _).
  rewrite Hws in Ew. injection Ew as <-. destruct V as (V1 & V2 & V3 & V4).
  pose proof (St s Hs) as Hst.
  pose proof (@iterate_ok N g ws data Wok V2 V4 sched s Hsch Hst) as HI.
  destruct (iterate g ws sched s) as [s'|e].
  - destruct HI as (A & LA & _ & _ & Hnid & _). split; [|eauto]. split; [discriminate|].
    intros (r & Hr & Hno). exfalso.
    specialize (Hnid r Hr). assert (E : nid g data (s_cltrs s) r = None) by (apply (@nid_none O g ws data s r Hst V4 Hr); exact Hno).
    congruence.
  - destruct HI as (-> & r & Hr & Hno). pose proof (proj1 (@nid_none O g ws data s r Hst V4 Hr) Hno) as Hno2.
    split; [split; [eauto|reflexivity]|]. intros Hall. exfalso. eapply Hall; eauto.
Qed.

(** a run that completes never leaves an invalid id behind *)
Theorem C14_no_invalid_id : 
  forall (g : kcfg N) centers it data dr scheds rr,
  valid_input g data -> fair g data scheds -> run g centers it data dr scheds = Ok rr ->
  (forall i s s', iteration rr i s s' ->
     length (s_asg s') = g_nrow g /\ Forall (fun a => exists c, a = Some c /\ c < g_k g) (s_asg s')) /\
  (1 <= g_max_iters g ->
     length (ct_asg (rr_out rr)) = g_nrow g /\ Forall (fun a => exists c, a = Some c /\ c < g_k g) (ct_asg (rr_out rr))).
Proof.
  intros g centers it data dr scheds rr V F H.
  destruct (@run_inv _ _ _ _ _ _ _ _ V F H) as (ws & _ & _ & _ & St & Hit & Hout & Hle & Hc1 & Hc2).
  assert (G : forall i s s', iteration rr i s s' ->
     length (s_asg s') = g_nrow g /\ Forall (fun a => exists c, a = Some c /\ c < g_k g) (s_asg s')).
  { intros i s s' (E & E'). destruct (Hit i s s' E E') as (A & LA & HA & Ea & _). rewrite Ea, map_length. split; [exact LA|].
    apply Forall_forall. intros a Ha. apply in_map_iff in Ha as (c & <- & Hc). rewrite Forall_forall in HA. eauto. }
  split; [exact G|]. intros Hm. rewrite Hout. cbn [ct_asg].
  assert (Hne : rr_trace rr <> []).
  { destruct (rr_converged rr).
    - destruct (Hc1 eq_refl) as (pre & f & -> & _). intros E. apply app_eq_nil in E as (_ & E). discriminate.
    - destruct (Hc2 eq_refl) as (E & _). destruct (rr_trace rr); [simpl in E; lia|discriminate]. }
  destruct (exists_last Hne) as (pre & f & E). rewrite E, last_last.
  destruct (nth_error (rr_init rr :: rr_trace rr) (length pre)) as [s|] eqn:Es.
  - apply (G (length pre) s). split; [exact Es|]. rewrite E, nth_error_app2, Nat.sub_diag by lia. reflexivity.
  - apply nth_error_None in Es. simpl in Es. rewrite E, app_length in Es. simpl in Es. lia.
Qed.

(** ** C15 *)
Lemma rows_in_map j A : rows_in j (map Some A) = count_eq j A.
Proof. unfold rows_in, count_eq. induction A as [|a A IH]; [reflexivity|]. cbn [map filter]. destruct (a =? j); simpl; auto. Qed.

Theorem C15_sizes :
  forall (g : kcfg N) centers it data dr scheds rr,
  valid_input g data -> fair g data scheds -> run g centers it data dr scheds = Ok rr ->
  forall i s s', iteration rr i s s' ->
  length (s_counts s') = g_k g /\
  (forall c, c < g_k g -> nth c (s_counts s') 0%Z = Z.of_nat (rows_in c (s_asg s'))) /\
  (forall c, c < g_k g -> nth c (c_members (s_cltrs s')) 0%Z = Z.of_nat (rows_in c (s_asg s'))) /\
  fold_right Z.add 0%Z (s_counts s') = Z.of_nat (g_nrow g).
Proof.
  intros g centers it data dr scheds rr V F H i s s' (E & E').
  destruct (@run_inv _ _ _ _ _ _ _ _ V F H) as (ws & _ & _ & _ & St & Hit & _).
  destruct (Hit i s s' E E') as (A & LA & HA & Ea & _ & Hcel & Hcnt & _).
  rewrite Hcnt, Ea. unfold counts_of. splits.
  - rewrite map_length, seq_length. reflexivity.
  - intros c Hc. rewrite rows_in_map.
    assert (G : nth_error (map (fun j => Z.of_nat (count_eq j A)) (seq 0 (g_k g))) c = Some (Z.of_nat (count_eq c A))).
    { rewrite nth_error_map, nth_error_seq. apply Nat.ltb_lt in Hc. rewrite Hc. reflexivity. }
    apply nth_error_nth. exact G.
  - intros c Hc. rewrite rows_in_map. specialize (Hcel c Hc). unfold cel, ucel, fin1 in Hcel.
    change (nth c (c_members (s_cltrs s')) 0%Z) with (cnum (s_cltrs s') c).
    cbv beta iota zeta in Hcel. destruct (1 <? Z.of_nat (count_eq c A))%Z; injection Hcel as _ Hc2 _; exact Hc2.
  - rewrite <- LA. pose proof (count_sum HA) as Hs.
    rewrite <- Hs. clear. induction (seq 0 (g_k g)) as [|x l IH]; [reflexivity|]. cbn [map fold_right list_sum]. 
    unfold list_sum in *. cbn [fold_right]. rewrite IH. lia.
Qed.

(** the returned sizes are the sizes of the returned assignment *)
Lemma last_iteration (rr : run_result N) : rr_trace rr <> [] ->
  exists i s, iteration rr i s (last (rr_trace rr) (rr_init rr)) /\ S i = length (rr_trace rr).
Proof.
  intros Hne. destruct (exists_last Hne) as (pre & f & E).
  destruct (nth_error (rr_init rr :: rr_trace rr) (length pre)) as [s|] eqn:Es.
  - exists (length pre), s. rewrite E, last_last. rewrite <- E. split; [split; [exact Es|]|rewrite E, app_length; simpl; lia].
    rewrite E, nth_error_app2, Nat.sub_diag by lia. reflexivity.
  - apply nth_error_None in Es. simpl in Es. rewrite E, app_length in Es. simpl in Es. lia.
Qed.

Lemma trace_nonempty (g : kcfg N) centers it data dr scheds rr :
  valid_input g data -> fair g data scheds -> run g centers it data dr scheds = Ok rr ->
  1 <= g_max_iters g -> rr_trace rr <> [].
Proof.
  intros V F H Hm. destruct (@run_inv _ _ _ _ _ _ _ _ V F H) as (ws & _ & _ & _ & _ & _ & _ & _ & Hc1 & Hc2).
  destruct (rr_converged rr).
  - destruct (Hc1 eq_refl) as (pre & f & -> & _). intros E. apply app_eq_nil in E as (_ & E). discriminate.
  - destruct (Hc2 eq_refl) as (E & _). destruct (rr_trace rr); [simpl in E; lia|discriminate].
Qed.

Theorem C15_returned_sizes :
  forall (g : kcfg N) centers it data dr scheds rr,
  valid_input g data -> fair g data scheds -> run g centers it data dr scheds = Ok rr ->
  1 <= g_max_iters g ->
  length (ct_counts (rr_out rr)) = g_k g /\
  (forall c, c < g_k g -> nth c (ct_counts (rr_out rr)) 0%Z = Z.of_nat (rows_in c (ct_asg (rr_out rr)))) /\
  fold_right Z.add 0%Z (ct_counts (rr_out rr)) = Z.of_nat (g_nrow g).
Proof.
  intros g centers it data dr scheds rr V F H Hm.
  destruct (@run_inv _ _ _ _ _ _ _ _ V F H) as (ws & _ & _ & _ & _ & _ & Hout & _). rewrite Hout. cbn [ct_counts ct_asg].
  destruct (last_iteration rr (@trace_nonempty _ _ _ _ _ _ _ V F H Hm)) as (i & s & Hi & _).
  destruct (@C15_sizes _ _ _ _ _ _ _ V F H _ _ _ Hi) as (H1 & H2 & _ & H3). auto.
Qed.

(** ** C17 *)
Lemma odiff_differing : forall asg A, length asg = length A ->
  odiff asg A = differing (length A) asg (map Some A).
Proof.
  intros asg A HL. unfold differing.
  assert (G : forall asg A off, length asg = length A ->
    odiff asg A = length (filter (fun r => negb (id_eqb (nth (r - off) asg None) (nth (r - off) (map Some A) None))) (seq off (length A)))).
  { clear. induction asg as [|o asg IH]; intros [|a A] off H; simpl in H; try lia; [reflexivity|].
    cbn [odiff length seq filter]. rewrite Nat.sub_diag. cbn [nth map].
    rewrite (IH A (S off)) by lia.
    assert (E : filter (fun r => negb (id_eqb (nth (r - S off) asg None) (nth (r - S off) (map Some A) None))) (seq (S off) (length A))
      = filter (fun r => negb (id_eqb (nth (r - off) (o :: asg) None) (nth (r - off) (Some a :: map Some A) None))) (seq (S off) (length A))).
    { apply filter_ext_in. intros r Hr. apply in_seq in Hr. replace (r - off) with (S (r - S off)) by lia. reflexivity. }
    rewrite E. cbv beta. cbn [nth]. unfold odiff; fold odiff. assert (Esym : id_eqb (Some a) o = id_eqb o (Some a)) by (destruct o as [x|]; simpl; [apply Nat.eqb_sym|reflexivity]).
    rewrite ?Esym. destruct (id_eqb o (Some a)); cbn [negb length]; lia. }
  rewrite (G asg A 0 HL). f_equal. apply filter_ext. intros r. rewrite Nat.sub_0_r. reflexivity.
Qed.

Theorem C17_changes_counted :
  forall (g : kcfg N) centers it data dr scheds rr,
  valid_input g data -> fair g data scheds -> run g centers it data dr scheds = Ok rr ->
  forall i s s', iteration rr i s s' ->
  s_changed s' = (if Nat.eqb i 0 then g_nrow g      (* the first iteration starts from no assignment *)
                  else differing (g_nrow g) (s_asg s) (s_asg s')).
Proof.
  intros g centers it data dr scheds rr V F H i s s' (E & E').
  destruct (@run_inv _ _ _ _ _ _ _ _ V F H) as (ws & _ & _ & _ & St & Hit & _).
  destruct (Hit i s s' E E') as (A & LA & HA & Ea & _ & _ & _ & Hch).
  assert (Hs : stok g ws s) by (apply St; eapply nth_error_In; eauto). destruct Hs as (_ & _ & La & _).
  rewrite Hch. unfold before. destruct (Nat.eqb_spec i 0) as [->|Hi].
  - cbn [clear_asg s_asg]. rewrite <- LA.
    assert (Hl : length (map (fun _ : option nat => @None nat) (s_asg s)) = length A) by (rewrite map_length; congruence).
    clear - Hl. revert Hl. generalize (s_asg s). induction A as [|a A IH]; intros [|o l] Hl; simpl in *; try lia; auto.
  - rewrite Ea, odiff_differing by congruence. rewrite LA. reflexivity.
Qed.

(** ** C21 *)
Theorem C21_fixed_point : OrdLaws N ->
  forall (g : kcfg N) centers it data dr scheds rr,
  valid_input g data -> fair g data scheds -> run g centers it data dr scheds = Ok rr ->
  forall i s s', iteration rr i s s' -> s_changed s' = 0 ->
  (* the last assignment step used the centroids it leaves behind *)
  s_cltrs s' = s_cltrs s /\ s_asg s' = s_asg s /\
  (* every row is assigned to its nearest centroid of the final state *)
  (forall r, r < g_nrow g -> exists c, nth_error (s_asg s') r = Some (Some c) /\ nearest_lowest g data s' r c) /\
  (* another iteration, under any schedule, changes nothing *)
  (forall ws sched, build_workers g data = Ok ws -> complete (w_ranges ws) sched ->
     exists s'', iterate g ws sched s' = Ok s'' /\ s_cltrs s'' = s_cltrs s' /\
       s_asg s'' = s_asg s' /\ s_counts s'' = s_counts s' /\ s_changed s'' = 0) /\
  (* it is the last iteration and the result of the run *)
  S i = length (rr_trace rr) /\ rr_converged rr = true /\
  ct_asg (rr_out rr) = s_asg s' /\ ct_centroids (rr_out rr) = c_means (s_cltrs s').
Proof.
  intros O g centers it data dr scheds rr V F H i s s' Hi Hz.
  destruct (@run_inv _ _ _ _ _ _ _ _ V F H) as (ws & Ew & Wok & _ & St & Hit & Hout & Hle & Hc1 & Hc2).
  pose proof Hi as (E & E').
  destruct i as [|i].
  { exfalso. pose proof (@C17_changes_counted _ _ _ _ _ _ _ V F H _ _ _ Hi) as Hc. simpl in Hc. destruct V as (V1 & _). lia. }
  destruct (Hit _ s s' E E') as (A & LA & HA & Ea & Hnid & Hcel & Hcnt & Hch).
  unfold before in *. simpl in Hnid, Hch.
  assert (Hs : stok g ws s) by (apply St; eapply nth_error_In; eauto).
  assert (Hs' : stok g ws s') by (apply St; right; eapply nth_error_In; eauto).
  assert (Easg : s_asg s = map Some A).
  { apply odiff_zero; [|congruence]. destruct Hs as (_ & _ & La & _). congruence. }
  (* state s was produced by iteration i from assignment B = A *)
  simpl in E. assert (Ep : exists s0, nth_error (rr_init rr :: rr_trace rr) i = Some s0).
  { destruct (nth_error (rr_init rr :: rr_trace rr) i) eqn:Ee; eauto. apply nth_error_None in Ee. simpl in Ee.
    assert (i < length (rr_trace rr)) by (apply nth_error_Some; congruence). lia. }
  destruct Ep as (s0 & E0).
  destruct (Hit i s0 s E0 E) as (B & LB & HB & Eb & _ & HcelB & HcntB & _).
  assert (B = A).
  { rewrite Eb in Easg. clear - Easg. revert A Easg. induction B; intros [|a' A] E; simpl in E; try discriminate; auto.
    injection E as -> E. f_equal. auto. }
  subst B.
  assert (Ec : s_cltrs s' = s_cltrs s).
  { destruct Hs as (Sh & _). destruct Hs' as (Sh' & _). eapply (@cel_determines N g ws data _ _ A); eauto. }
  assert (V' := V). destruct V' as (V1 & V2 & V3 & V4).
  split; [exact Ec|]. split; [congruence|]. split; [|split].
  - intros r Hr. exists (nth r A 0). split.
    + rewrite Ea, nth_error_map, (nth_error_nth' A 0) by lia. reflexivity.
    + apply (nid_nearest O) with (ws := ws); auto. rewrite Ec. auto.
  - intros ws' sched Ew' Hsch. rewrite Ew in Ew'. injection Ew' as <-.
    pose proof (@iterate_ok N g ws data Wok V2 V4 sched s' Hsch Hs') as HI.
    destruct (iterate g ws sched s') as [s''|e].
    + destruct HI as (A' & LA' & HA' & Ea' & Hnid' & St'' & Hcel' & Hcnt' & Hch'). exists s''.
      assert (A' = A).
      { apply (nth_ext _ _ 0 0); [congruence|]. intros r Hr. rewrite Ec in Hnid'.
        specialize (Hnid' r ltac:(lia)). rewrite (Hnid r) in Hnid' by lia. congruence. }
      subst A'. splits; auto.
      * destruct Hs' as (Sh' & _). destruct St'' as (Sh'' & _). eapply (@cel_determines N g ws data _ _ A); eauto.
      * congruence.
      * congruence.
      * rewrite Hch', Ea. apply odiff_zero; [rewrite map_length; reflexivity|reflexivity].
    + destruct HI as (_ & r & Hr & Hno). rewrite Ec, Hnid in Hno by exact Hr. discriminate.
  - assert (Hstop : stop_test g (s_changed s') = true) by (unfold stop_test; rewrite Hz; reflexivity).
    destruct (rr_converged rr) eqn:Ecv.
    + destruct (Hc1 eq_refl) as (pre & f & Et & _ & Hf & _).
      assert (Hlen : length (rr_trace rr) = S (length pre)) by (rewrite Et, app_length; simpl; lia).
      assert (El : S (S i) = length (rr_trace rr)).
      { assert (S i < length (rr_trace rr)) by (apply nth_error_Some; congruence).
        destruct (Nat.eq_dec (S (S i)) (length (rr_trace rr))); auto. exfalso.
        rewrite Et in E'. rewrite nth_error_app1 in E' by lia. apply nth_error_In in E'. rewrite Forall_forall in Hf.
        rewrite (Hf _ E') in Hstop. discriminate. }
      assert (Elast : last (rr_trace rr) (rr_init rr) = s').
      { rewrite Et in E'. rewrite Et, last_last.
        rewrite nth_error_app2 in E' by lia. replace (S i - length pre) with 0 in E' by lia. simpl in E'. congruence. }
      rewrite Hout. cbn [ct_asg ct_centroids]. rewrite Elast. auto.
    + destruct (Hc2 eq_refl) as (_ & Hf & _). rewrite Forall_forall in Hf.
      rewrite (Hf s') in Hstop by (eapply nth_error_In; eauto). discriminate.
Qed.

(** ** C22 *)
Theorem C22_iteration_count_partial :
  forall (g : kcfg N) centers it data dr scheds rr,
  valid_input g data -> fair g data scheds -> run g centers it data dr scheds = Ok rr ->
  (rr_converged rr = true \/ g_max_iters g = 0 ->
     ct_iters (rr_out rr) = length (rr_trace rr) /\ ct_iters (rr_out rr) <= g_max_iters g) /\
  (* what is reported when the iteration limit is hit *)
  (rr_converged rr = false -> 1 <= g_max_iters g ->
     length (rr_trace rr) = g_max_iters g /\ ct_iters (rr_out rr) = S (g_max_iters g)).
Proof.
  intros g centers it data dr scheds rr V F H.
  destruct (@run_inv _ _ _ _ _ _ _ _ V F H) as (ws & _ & _ & _ & _ & _ & _ & Hle & Hc1 & Hc2). split.
  - intros [Hc|Hz].
    + destruct (Hc1 Hc) as (pre & f & _ & _ & _ & E). lia.
    + destruct (rr_converged rr).
      * destruct (Hc1 eq_refl) as (pre & f & _ & _ & _ & E). lia.
      * destruct (Hc2 eq_refl) as (_ & _ & E). rewrite Hz in *. simpl in E. lia.
  - intros Hc Hm. destruct (Hc2 Hc) as (E & _ & Ei). split; auto.
    destruct (Nat.ltb_spec 0 (g_max_iters g)); lia.
Qed.

(** ** C23 *)
Theorem C23_stops :
  forall (g : kcfg N) centers it data dr scheds rr,
  valid_input g data -> fair g data scheds -> run g centers it data dr scheds = Ok rr ->
  let within_tol s := s_changed s = 0 \/
    nleb N (ndiv N (nofZ N (Z.of_nat (s_changed s))) (nofZ N (Z.of_nat (g_nrow g)))) (g_tol g) = true in
  length (rr_trace rr) <= g_max_iters g /\
  (* no iteration but the last is within tolerance *)
  (forall i s s', iteration rr i s s' -> S i < length (rr_trace rr) -> ~ within_tol s') /\
  (* fewer than the limit only if the last one is *)
  (length (rr_trace rr) < g_max_iters g -> exists i s s', iteration rr i s s' /\ S i = length (rr_trace rr) /\ within_tol s') /\
  (* the result is the state after the last iteration, or the initialisation if there was none *)
  (let f := last (rr_trace rr) (rr_init rr) in
   ct_asg (rr_out rr) = s_asg f /\ ct_counts (rr_out rr) = s_counts f /\ ct_centroids (rr_out rr) = c_means (s_cltrs f)) /\
  (g_max_iters g = 0 -> rr_trace rr = []).
Proof.
  intros g centers it data dr scheds rr V F H within_tol.
  destruct (@run_inv _ _ _ _ _ _ _ _ V F H) as (ws & _ & _ & _ & _ & _ & Hout & Hle & Hc1 & Hc2).
  assert (Hst : forall s, stop_test g (s_changed s) = true <-> within_tol s).
  { intros s. unfold stop_test, within_tol. rewrite orb_true_iff, Nat.eqb_eq. tauto. }
  split; [exact Hle|]. split; [|split; [|split]].
  - intros i s s' (_ & E') Hi Hw. apply Hst in Hw.
    assert (Hf : stop_test g (s_changed s') = false); [|congruence].
    destruct (rr_converged rr).
    + destruct (Hc1 eq_refl) as (pre & f & Et & _ & Hf & _). rewrite Et in E', Hi. rewrite app_length in Hi. simpl in Hi.
      rewrite nth_error_app1 in E' by lia. rewrite Forall_forall in Hf. apply Hf. eapply nth_error_In; eauto.
    + destruct (Hc2 eq_refl) as (_ & Hf & _). rewrite Forall_forall in Hf. apply Hf. eapply nth_error_In; eauto.
  - intros Hlt. destruct (rr_converged rr).
    + destruct (Hc1 eq_refl) as (pre & f & Et & Hs & _).
      destruct (last_iteration rr) as (i & s & Hi & El); [intros E; rewrite E in Et; destruct pre; discriminate|].
      exists i, s, (last (rr_trace rr) (rr_init rr)). splits; auto. apply Hst. rewrite Et, last_last. exact Hs.
    + destruct (Hc2 eq_refl) as (E & _). lia.
  - rewrite Hout. auto.
  - intros Hz. destruct (rr_trace rr); [reflexivity|simpl in Hle; lia].
Qed.

End Any.
