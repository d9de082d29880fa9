(** Proofs about fuzzy c-means, any arithmetic. *)
From Coq Require Import Permutation.
From Verif Require Import Base Num DistModel ClustersModel MatLemmas
  PartitionModel ParModel KmeansModel ParProofs NearProofs KmeansProofs RunProofs InitProofs Spec DistProofs.
From Verif Require Import ParRule Okab MedoidProofs MatrixModel PropertiesMatrix FcmModel.
Set Implicit Arguments.
Unset Strict Implicit.

Lemma is_matrix_ext N (m : dmat N) nr nc f h : is_matrix m nr nc f ->
  (forall r c, r < nr -> c < nc -> f r c = h r c) -> is_matrix m nr nc h.
Proof. intros (A & B & C & D) H. unfold is_matrix. splits; auto. intros r c Hr Hc. rewrite <- H; auto. Qed.

Lemma is_matrix_row N (m : dmat N) nr nc f j : is_matrix m nr nc f -> j < nr ->
  row (dm_mat m) nc j = map (f j) (seq 0 nc).
Proof.
  intros (A & B & C & D) Hj. unfold shaped in C. rewrite A, B in C.
  apply nth_ext with (d := nzero N) (d' := nzero N).
  - rewrite map_length, seq_length. unfold row. rewrite slice_length; auto. rewrite C. nia.
  - intros i Hi. unfold row in Hi. rewrite slice_length in Hi by (rewrite C; nia).
    rewrite nth_mapseq by exact Hi. unfold row. rewrite nth_slice by exact Hi.
    specialize (D j i Hj Hi). unfold cell in D. rewrite B in D. exact D.
Qed.

Lemma dm_of_cols_matrix N k (cols : list (list (car N))) :
  is_matrix (dm_of_cols N k cols) k (length cols) (fun r c => nth r (nth c cols []) (nzero N)).
Proof.
  assert (F : Forall (fun r => length r = length cols) (map (fun r => map (fun col => nth r col (nzero N)) cols) (seq 0 k))).
  { apply Forall_map. apply Forall_forall. intros r _. apply map_length. }
  unfold is_matrix, shaped, cell, dm_of_cols; cbn [dm_mat dm_nrow dm_ncol]. splits; auto.
  - rewrite (concat_length_const F), map_length, seq_length. reflexivity.
  - intros r c Hr Hc. pose proof (@row_concat _ _ _ F r [] ltac:(rewrite map_length, seq_length; exact Hr)) as E.
    rewrite <- (@nth_slice _ _ _ (length cols) c (nzero N) Hc). unfold row in E. rewrite E.
    rewrite nth_mapseq by exact Hr. rewrite (nth_indep _ _ (nth r [] (nzero N))) by (rewrite map_length; exact Hc).
    rewrite (map_nth (fun col => nth r col (nzero N)) cols []). reflexivity.
Qed.

Section FP.
Variable N : Num.
Notation T := (car N).
Notation z := (nzero N).
Variable npow : T -> T -> T.
Variables (f : fcfg N) (ws : list (worker N)) (data : list T).
Let g := f_g f.
Let n := g_nrow g. Let d := g_ncol g. Let k := g_k g.
Hypothesis V : valid_input g data.
Hypothesis Hk : 1 <= k.
Hypothesis Hws : wok (g_nrow g) (g_ncol g) data ws.
Hypothesis Hne : ws <> [].

(** distance of row [r] to centre [j]; its raw weight; the sum of a row's raw
    weights; the membership raised to the fuzziness *)
Definition fdist (C : dmat N) (j r : nat) : T := ldist N (g_dt g) (row data d r) (row (dm_mat C) d j).
Definition uraw (C : dmat N) (j r : nat) : T :=
  if nltb N z (fdist C j r) then npow (ndiv N (none N) (fdist C j r)) (fuzz_exp N (f_m f)) else fuzz_eps N.
Definition usum (C : dmat N) (r : nat) : T :=
  fold_left (fun s j => nadd N s (uraw C j r)) (seq 1 (k - 1)) (uraw C 0 r).
Definition uw (C : dmat N) (j r : nat) : T := npow (ndiv N (uraw C j r) (usum C r)) (nofZ N (f_m f)).

Definition kxd (C : dmat N) : Prop := dm_nrow C = k /\ dm_ncol C = d /\ PropertiesMatrix.shaped C.

Lemma f_row_len r : r < n -> length (row data d r) = d.
Proof. clear - V. apply (@data_row_length N g data V). Qed.

Lemma kxd_row C j : kxd C -> j < k -> length (row (dm_mat C) d j) = d.
Proof. clear. intros (A & B & H) Hj. unfold row. rewrite slice_length; auto. red in H. rewrite H, A, B. nia. Qed.

Lemma estep_row_ok C t w r col : kxd C -> nth_error ws t = Some w -> r < w_nrow w -> length col = k ->
  exists col', estep_row npow f ws C t r tt col = Ok (tt, col') /\ length col' = k /\
    forall j, j < k -> nth j col' z = uraw C j (w_start w + r).
Proof.
  clear Hk Hne. intros HC Ew Hr Lc. unfold estep_row. fold g. unfold aget at 1. rewrite Ew. cbn [Base.bind].
  pose proof (proj2 Hws w r (nth_error_In _ _ Ew) Hr) as Hrow.
  assert (Hin : w_start w + w_nrow w <= n).
  { destruct Hws as (Ht & _). apply (@ntiles_in _ _ _ Ht t). unfold w_ranges. rewrite nth_error_map, Ew. reflexivity. }
  match goal with |- context [loop ?a ?b ?s] => assert (H : okp (loop a b s) (fun c' => length c' = k /\
     forall j, j < k -> nth j c' z = uraw C j (w_start w + r))) end.
  { eapply okp_mono.
    { apply (@loop_okp _ (fun i c' => length c' = k /\ forall j, j < i -> nth j c' z = uraw C j (w_start w + r))).
      - split; auto. intros; lia.
      - intros j c' Hj (L & H). fold k in Hj.
        rewrite (@dist_comp_raw_ok N (g_dt g) _ (dm_mat C, j * g_ncol g) (g_ncol g) (row data d (w_start w + r)) (row (dm_mat C) d j));
          [|exact Hrow|reflexivity|apply f_row_len; lia|apply kxd_row; auto].
        cbn [Base.bind]. rewrite aset_ok by lia. cbn [okp]. rewrite upd_length. split; auto.
        intros i Hi. rewrite nth_upd by lia. destruct (Nat.eqb_spec i j) as [->|]; [reflexivity|]. apply H; lia. }
    intros c' H. exact H. }
  apply okp_iff in H as (c' & E & L & H). rewrite E. cbn [Base.bind]. exists c'. auto.
Qed.

Lemma dm_cols_length (m : dmat N) : length (dm_cols m) = dm_ncol m.
Proof. clear. unfold dm_cols. rewrite map_length, seq_length. reflexivity. Qed.
Lemma dm_cols_col (m : dmat N) c : c < dm_ncol m -> length (nth c (dm_cols m) []) = dm_nrow m.
Proof. clear. intros H. unfold dm_cols. rewrite nth_mapseq by exact H. rewrite map_length, seq_length. reflexivity. Qed.

Lemma e_round_ok sched s : kxd (f_centers s) -> dm_nrow (f_um s) = k -> dm_ncol (f_um s) = n -> complete (w_ranges ws) sched ->
  exists um, e_round npow f ws sched s = Ok (mkFst (f_centers s) (f_prev s) um) /\
    is_matrix um k n (uraw (f_centers s)).
Proof.
  clear Hne Hk. intros HC U1 U2 Hs. unfold e_round. fold g. fold k.
  destruct (@par_run_rule _ _ [] (estep_row npow f ws (f_centers s)) (w_ranges ws) (dm_cols (f_um s)) (map (fun _ => tt) ws)
    ltac:(rewrite dm_cols_length, U2; exact (proj1 Hws)) ltac:(unfold w_ranges; rewrite !map_length; reflexivity)
    (fun _ _ tr => forall x, In x tr -> length (snd x) = k /\ forall j, j < k -> nth j (snd x) z = uraw (f_centers s) j (fst (fst x))))
    with (sched := sched) as (locs & cells & E & L1 & L2 & H); auto.
  - intros t l0 _ x [].
  - intros t s0 m r l tr Er Hr Hb Lt HP. destruct (ranges_nth Er) as (w & Ew & -> & ->).
    rewrite dm_cols_length, U2 in Hb. destruct l.
    destruct (@estep_row_ok (f_centers s) t w r (nth (w_start w + r) (dm_cols (f_um s)) []) HC Ew Hr) as (c' & E & Lc & Hc).
    { rewrite dm_cols_col by lia. exact U1. }
    exists tt, c'. split; [exact E|]. intros x Hx. apply in_app_or in Hx as [Hx|[<-|[]]]; auto.
  - rewrite E. cbn [Base.bind snd]. eexists. split; [reflexivity|].
    rewrite dm_cols_length, U2 in L2. rewrite <- L2. eapply is_matrix_ext; [apply dm_of_cols_matrix|].
    intros j r Hj Hr. cbn beta. rewrite L2 in Hr.
    destruct (ntiles_cover (proj1 Hws) (r := r)) as (t & s0 & m & Et & H1 & H2); [fold g; fold n; lia|].
    destruct (H t s0 m Et) as (l & _ & HP). apply (HP (r, nth r (dm_cols (f_um s)) [], nth r cells [])); auto.
    unfold triples. apply in_map_iff. exists r. split; auto. apply in_seq. lia.
Qed.

Lemma update_contribution_ok C s : is_matrix (f_um s) k n (uraw C) ->
  exists um, update_contribution npow f s = Ok (mkFst (f_centers s) (f_prev s) um) /\ is_matrix um k n (uw C).
Proof.
  clear Hws Hne V. intros (A & B & Sh & D). unfold update_contribution. fold g.
  destruct (@sum0 N (f_um s) [] Sh ltac:(lia)) as (v & E & L & Hv). rewrite E. cbn [Base.bind].
  destruct (@c47_divisions N (f_um s) v z (fun x => npow x (nofZ N (f_m f))) Sh) as (_ & H & _).
  destruct (H L) as (m' & Em & Mm). rewrite Em. cbn [Base.bind]. eexists. split; [reflexivity|].
  rewrite A, B in Mm. eapply is_matrix_ext; [exact Mm|]. intros j r Hj Hr. cbn beta. unfold uw. rewrite D by auto.
  rewrite Hv by lia. do 2 f_equal. rewrite A. unfold usum. rewrite (D 0 r) by lia.
  assert (G : forall l a, (forall j, In j l -> j < k) -> fold_left (fun s0 r0 => nadd N s0 (cell (f_um s) r0 r)) l a =
     fold_left (fun s0 j0 => nadd N s0 (uraw C j0 r)) l a).
  { clear - D Hr. induction l as [|j l IH]; intros a Hl; cbn [fold_left]; auto.
    rewrite (D j r) by (auto; apply Hl; left; auto). apply IH. intros; apply Hl; right; auto. }
  apply G. intros i Hi. apply in_seq in Hi. lia.
Qed.

(* ------------------------------------------------------------------ *)
(** ** M step *)
Definition xval (r c : nat) : T := nth (r * d + c) data z.
(** one worker's contribution to a centre *)
Definition wpart (W : nat -> nat -> T) (sn : nat * nat) (j c : nat) : T :=
  bigsum N (snd sn) (fun i => nmul N (W j (fst sn + i)) (xval (fst sn + i) c)).
(** all workers' contributions, added in worker order *)
Definition wtotal (W : nat -> nat -> T) (rng : list (nat * nat)) (j c : nat) : T :=
  match rng with
  | [] => z
  | a :: rest => fold_left (fun s sn => nadd N s (wpart W sn j c)) rest (wpart W a j c)
  end.
(** the new centres *)
Definition fmean (W : nat -> nat -> T) (j c : nat) : T :=
  ndiv N (wtotal W (w_ranges ws) j c) (bigsum N n (fun r => W j r)).

Lemma mstep_row_ok um W t w r ip F : is_matrix um k n W -> nth_error ws t = Some w -> r < w_nrow w ->
  is_matrix ip k d F ->
  exists ip', mstep_row f ws um t r ip tt = Ok (ip', tt) /\
    is_matrix ip' k d (fun j c => nadd N (F j c) (nmul N (W j (w_start w + r)) (xval (w_start w + r) c))).
Proof.
  clear Hk Hne. intros Hum Ew Hr Hip. unfold mstep_row. fold g. unfold aget at 1. rewrite Ew. cbn [Base.bind].
  pose proof (proj2 Hws w r (nth_error_In _ _ Ew) Hr) as Hrow.
  assert (Hin : w_start w + w_nrow w <= n).
  { destruct Hws as (Ht & _). apply (@ntiles_in _ _ _ Ht t). unfold w_ranges. rewrite nth_error_map, Ew. reflexivity. }
  set (G := fun j c => nadd N (F j c) (nmul N (W j (w_start w + r)) (xval (w_start w + r) c))).
  assert (Hx : forall c, c < d -> pget (wrow w (g_ncol g) r) c = Ok (xval (w_start w + r) c)).
  { intros c Hc. unfold pget.
    assert (Lr : length (row data d (w_start w + r)) = d) by (apply f_row_len; lia).
    pose proof Lr as Lr2. change (g_ncol g) with d in Hrow |- *. rewrite <- Hrow in Lr2. unfold slice in Lr2. rewrite firstn_length, skipn_length in Lr2.
    rewrite (@aget_nth _ _ _ z) by lia. f_equal. unfold xval.
    rewrite <- (@nth_slice _ (fst (wrow w d r)) (snd (wrow w d r)) d c z Hc).
    transitivity (nth c (row data d (w_start w + r)) z); [f_equal; exact Hrow|]. unfold row. apply nth_slice. exact Hc. }
  match goal with |- context [loop ?a ?b ?s] => assert (H : okp (loop a b s) (fun m => is_matrix m k d G)) end.
  { eapply okp_mono.
    { apply (@loop_okp _ (fun i m => is_matrix m k d (fun j c => if j <? i then G j c else F j c))).
      - exact Hip.
      - intros i m Hi Hm. fold k in Hi.
        eapply okp_mono.
        { apply (@loop_okp _ (fun i2 m => is_matrix m k d (fun j c => if (j <? i) || ((j =? i) && (c <? i2)) then G j c else F j c))).
          - eapply is_matrix_ext; [exact Hm|]. intros j c _ _. cbn beta.
            replace (c <? 0) with false by reflexivity. rewrite andb_false_r, orb_false_r. reflexivity.
          - intros i2 m2 Hi2 Hm2. fold d in Hi2.
            destruct Hum as (U1 & U2 & US & UD).
            destruct (@c47_get_set N um i (w_start w + r) z US ltac:(lia) ltac:(lia)) as (Eg & _). rewrite Eg. cbn [Base.bind].
            rewrite Hx by exact Hi2. cbn [Base.bind]. rewrite UD by lia.
            pose proof Hm2 as (M1 & M2 & MS & MD).
            destruct (@c47_get_set N m2 i i2 (nmul N (W i (w_start w + r)) (xval (w_start w + r) i2)) MS ltac:(lia) ltac:(lia)) as (_ & _ & m3 & E3 & H3).
            rewrite E3. cbn [okp]. rewrite M1, M2 in H3. eapply is_matrix_ext; [exact H3|].
            intros j c Hj Hc. cbn beta. rewrite !MD by lia. rewrite Nat.ltb_irrefl, Nat.eqb_refl, Nat.ltb_irrefl. cbn [orb andb].
            destruct (Nat.eqb_spec j i) as [->|]; cbn [andb].
            + rewrite Nat.ltb_irrefl. cbn [orb]. destruct (Nat.eqb_spec c i2) as [->|].
              * replace (i2 <? S i2) with true by (symmetry; apply Nat.ltb_lt; lia). reflexivity.
              * destruct (Nat.ltb_spec c i2), (Nat.ltb_spec c (S i2)); auto; lia.
            + reflexivity. }
        intros m2 Hm2. eapply is_matrix_ext; [exact Hm2|]. intros j c Hj Hc. cbn beta.
        destruct (Nat.ltb_spec j i), (Nat.ltb_spec j (S i)), (Nat.eqb_spec j i), (Nat.ltb_spec c (g_ncol g));
          cbn [orb andb]; auto; unfold d in *; lia. }
    intros m Hm. eapply is_matrix_ext; [exact Hm|]. intros j c Hj Hc. cbn beta.
    destruct (Nat.ltb_spec j (g_k g)); auto. unfold k in *; lia. }
  apply okp_iff in H as (m & E & Hm). rewrite E. cbn [Base.bind]. exists m. auto.
Qed.

Lemma dm_zero_new : is_matrix (dm_zero (dm_new N k d)) k d (fun _ _ => z).
Proof.
  clear. unfold is_matrix, PropertiesMatrix.shaped, cell, dm_zero, dm_new; cbn [dm_mat dm_nrow dm_ncol]. rewrite !repeat_length.
  splits; auto. intros r c Hr Hc. apply nth_repeat_z.
Qed.

Lemma plus_eq_fold W (rest : list (nat * nat)) : forall ips c acc,
  Forall2 (fun sn ip => is_matrix ip k d (wpart W sn)) rest ips -> is_matrix c k d acc ->
  exists c', for_each ips (fun ip c => dm_plus_eq c ip) c = Ok c' /\
    is_matrix c' k d (fun j x => fold_left (fun s sn => nadd N s (wpart W sn j x)) rest (acc j x)).
Proof.
  clear. induction rest as [|sn rest IH]; intros ips c acc HF Hc; inversion HF; subst; cbn [for_each fold_left].
  - exists c. auto.
  - destruct Hc as (A & B & S & D). destruct H1 as (A' & B' & S' & D').
    destruct (@c47_plus_minus N c y S S') as (H & _). destruct H as (_ & _ & c' & E & Hc'); try congruence.
    rewrite E. cbn [Base.bind]. apply IH; auto. rewrite A, B in Hc'. eapply is_matrix_ext; [exact Hc'|].
    intros r x Hr Hx. cbn beta. rewrite D, D' by auto. reflexivity.
Qed.

Lemma m_round_ok sched rows s W : kxd (f_centers s) -> is_matrix (f_um s) k n W -> complete (w_ranges ws) sched ->
  Permutation rows (seq 0 k) ->
  exists C, m_round f ws sched rows s = Ok (mkFst C (f_prev s) (f_um s)) /\ is_matrix C k d (fmean W).
Proof.
  clear Hk. intros HC Hum Hs Hp. unfold m_round. fold g. fold n.
  destruct (@par_run_rule _ _ tt (mstep_row f ws (f_um s)) (w_ranges ws) (repeat tt n) (map (fun _ => dm_zero (dm_new N k d)) ws)
    ltac:(rewrite repeat_length; exact (proj1 Hws)) ltac:(unfold w_ranges; rewrite !map_length; reflexivity)
    (fun t l tr => forall s0 m, nth_error (w_ranges ws) t = Some (s0, m) -> is_matrix l k d (wpart W (s0, length tr))))
    with (sched := sched) as (locs & cells & E & L1 & L2 & H); auto.
  - intros t l0 E s0 m Et. rewrite nth_error_map in E. destruct (nth_error ws t); [|discriminate]. injection E as <-.
    exact dm_zero_new.
  - intros t s0 m r l tr Er Hr Hb Lt HP. destruct (ranges_nth Er) as (w & Ew & -> & ->).
    destruct (@mstep_row_ok (f_um s) W t w r l _ Hum Ew Hr (HP _ _ Er)) as (ip' & E & Hip).
    exists ip', tt. destruct (nth (w_start w + r) (repeat tt n) tt). split; [exact E|].
    intros s0 m Er2. rewrite Er in Er2. injection Er2 as <- <-. rewrite app_length, Lt. cbn [length].
    replace (r + 1) with (S r) by lia. eapply is_matrix_ext; [exact Hip|]. intros j c Hj Hc. unfold wpart; cbn [fst snd bigsum].
    rewrite Lt. reflexivity.
  - fold k d. rewrite E. cbn [Base.bind fst].
    assert (F : Forall2 (fun sn ip => is_matrix ip k d (wpart W sn)) (w_ranges ws) locs).
    { apply Forall2_of_nth; [congruence|]. intros t (s0 & m) ip Et Ei. destruct (H t s0 m Et) as (l & El & HP).
      rewrite Ei in El. injection El as <-. specialize (HP _ _ Et). rewrite triples_length in HP. exact HP. }
    unfold f_update_centers.
    match goal with |- context [Base.bind (if ?b then ?x else ?y) _] => assert (HS : exists c, (if b then x else y) = Ok c /\
       is_matrix c k d (wtotal W (w_ranges ws))) end.
    { assert (Hr0 : w_ranges ws <> []) by (clear - Hne; destruct ws; [congruence|discriminate]).
      clear - F Hr0. unfold wtotal. destruct F as [|a ip rest ips Ha F].
      - congruence.
      - destruct F as [|b ip2 rest ips Hb F]; cbn [length Nat.eqb].
        + cbn [aget nth_error Base.bind]. exists ip. rewrite c47_copy_from by apply Ha. split; auto.
        + cbn [aget nth_error Base.bind skipn].
          destruct Ha as (A & B & S & D). destruct Hb as (A' & B' & S' & D').
          destruct (@c47_plus_minus N ip ip2 S S') as (H & _). destruct H as ((c' & E & Hc') & _); try congruence.
          rewrite E. cbn [Base.bind]. rewrite c47_copy_from by apply Hc'. cbn [Base.bind fold_left].
          destruct (@plus_eq_fold W rest ips c' (fun j x => nadd N (wpart W a j x) (wpart W b j x)) F) as (c2 & E2 & H2).
          * rewrite A, B in Hc'. eapply is_matrix_ext; [exact Hc'|]. intros r x Hr Hx. cbn beta. rewrite D, D' by auto. reflexivity.
          * exists c2. auto. }
    destruct HS as (c & -> & Hc). cbn [Base.bind].
    destruct Hum as (U1 & U2 & US & UD).
    destruct (@c47_sums N (f_um s) rows US ltac:(rewrite U1; exact Hp)) as ((v & Ev & Lv & Hv) & _). rewrite Ev. cbn [Base.bind].
    destruct Hc as (A & B & S & D). destruct (@c47_divisions N c v z (fun x => x) S) as (_ & _ & Hd & _).
    destruct (Hd ltac:(congruence)) as (m' & Em & Mm). rewrite Em. cbn [Base.bind]. eexists. split; [reflexivity|].
    rewrite A, B in Mm. eapply is_matrix_ext; [exact Mm|]. intros j x Hj Hx. cbn beta. unfold fmean. rewrite D by auto.
    rewrite Hv by lia. f_equal. rewrite U2. apply bigsum_ext. intros r Hr. apply UD; auto.
Qed.
End FP.
