(** One iteration of unpruned k-means, for any arithmetic. *)
From Verif Require Import Base Num Spec DistModel ClustersModel ClustersView PartitionModel ParModel KmeansModel.
From Verif Require Import MatLemmas ClustersProofs DistProofs PartitionProofs ParProofs NearProofs.
Set Implicit Arguments.

(** tiles over Z gives tiles over nat *)
Lemma tiles_ntiles lo hi l : (0 <= lo)%Z -> tiles lo hi l ->
  ntiles (Z.to_nat lo) (Z.to_nat hi) (map (fun sn => (Z.to_nat (fst sn), Z.to_nat (snd sn))) l).
Proof.
  revert lo; induction l as [|[s n] l IH]; intros lo H0 H; simpl in *.
  - subst; reflexivity.
  - destruct H as (-> & Hn & H). split; [reflexivity|]. rewrite <- Z2Nat.inj_add by lia. apply IH; [lia|exact H].
Qed.

Lemma mapM_inv {A B} (f : A -> res B) : forall l l', mapM f l = Ok l' -> Forall2 (fun a b => f a = Ok b) l l'.
Proof.
  induction l as [|a l IH]; intros l' H; cbn [mapM] in H.
  - injection H as <-. constructor.
  - apply bind_ok in H as (b & Hb & H). apply bind_ok in H as (bs & Hbs & H). injection H as <-.
    constructor; auto.
Qed.

Lemma mapM_total {A B} (f : A -> res B) (P : A -> B -> Prop) : forall l,
  (forall a, In a l -> exists b, f a = Ok b /\ P a b) -> exists l', mapM f l = Ok l' /\ Forall2 P l l'.
Proof.
  induction l as [|a l IH]; intros H; cbn [mapM].
  - exists []. auto.
  - destruct (H a (or_introl eq_refl)) as (b & Hb & Pb).
    destruct (IH (fun x Hx => H x (or_intror Hx))) as (bs & Hbs & Pbs).
    rewrite Hb. cbn [bind]. rewrite Hbs. cbn [bind]. eauto.
Qed.

Lemma Forall2_nth_error {A B} (P : A -> B -> Prop) l l' : Forall2 P l l' ->
  forall i b, nth_error l' i = Some b -> exists a, nth_error l i = Some a /\ P a b.
Proof.
  induction 1 as [|a b l l' H _ IH]; intros [|i] b' E; simpl in *; try discriminate; eauto.
  injection E as <-. eauto.
Qed.
Lemma Forall2_length_eq {A B} (P : A -> B -> Prop) l l' : Forall2 P l l' -> length l = length l'.
Proof. induction 1; simpl; congruence. Qed.

Section Workers.
Variable N : Num.
Notation T := (car N).

(** workers that cover the rows and see the right data *)
Definition wok (nrow ncol : nat) (data : list T) (ws : list (worker N)) : Prop :=
  ntiles 0 nrow (w_ranges ws) /\
  forall w r, In w ws -> r < w_nrow w ->
    slice (fst (wrow w ncol r)) (snd (wrow w ncol r)) ncol = row data ncol (w_start w + r).

Lemma tiles_bounds lo hi l : tiles lo hi l -> (lo <= hi)%Z /\
  forall s n, In (s, n) l -> (lo <= s /\ 0 < n /\ s + n <= hi)%Z.
Proof.
  revert lo; induction l as [|[s n] l IH]; intros lo H; simpl in *.
  - subst; split; [lia|tauto].
  - destruct H as (-> & Hn & H). apply IH in H as (H1 & H2). split; [lia|].
    intros s' n' [E|E]; [injection E as <- <-; lia|]. apply H2 in E. lia.
Qed.

Lemma build_workers_ok (g : kcfg N) (data : list T) :
  1 <= g_nrow g -> (Z.of_nat (g_nrow g) < 2 ^ 32)%Z -> (1 <= g_nthreads g < 2 ^ 32)%Z ->
  length data = g_nrow g * g_ncol g ->
  exists ws, build_workers g data = Ok ws /\ wok (g_nrow g) (g_ncol g) data ws /\
    length ws = Z.to_nat (eff_threads (g_nthreads g) (Z.of_nat (g_nrow g))) /\
    (forall w, In w ws -> 1 <= w_nrow w).
Proof.
  intros H1 H2 H3 Hl. unfold build_workers.
  destruct (@thread_ranges_tile (Z.of_nat (g_nrow g)) (g_nthreads g) H3 ltac:(lia)) as (rngs & Hr & Hlen & Ht).
  rewrite Hr. cbn [bind].
  pose proof (tiles_bounds _ _ _ Ht) as (_ & Hb).
  destruct (@mapM_total _ _ (fun sn : Z * Z =>
    let* p := load_local N (g_kind g) data (fst sn) (snd sn) (Z.of_nat (g_ncol g)) in
    Ok (mkWorker N (Z.to_nat (fst sn)) (Z.to_nat (snd sn)) p))
    (fun sn w => w_start w = Z.to_nat (fst sn) /\ w_nrow w = Z.to_nat (snd sn) /\
       forall r, r < w_nrow w -> slice (fst (wrow w (g_ncol g) r)) (snd (wrow w (g_ncol g) r)) (g_ncol g)
                                 = row data (g_ncol g) (w_start w + r)) rngs)
    as (ws & Hws & F).
  { intros [s n] Hin. apply Hb in Hin. cbn [fst snd].
    destruct (load_local N (g_kind g) data s n (Z.of_nat (g_ncol g))) as [p|e] eqn:E.
    - cbn [bind]. eexists; split; [reflexivity|]. cbn [w_start w_nrow]. splits; auto.
      intros r Hrn.
      destruct (@load_local_ok N (g_kind g) data s n (Z.of_nat (g_ncol g)) (Z.of_nat (g_nrow g)) (Z.of_nat r))
        as (p' & E' & Hp'); try lia.
      rewrite E in E'. injection E' as <-. unfold wrow; cbn [w_data fst snd].
      rewrite Nat2Z.id in Hp'. replace (Z.to_nat (Z.of_nat r * Z.of_nat (g_ncol g))) with (r * g_ncol g) in Hp' by lia.
      rewrite Hp'. f_equal. lia.
    - destruct (@load_local_ok N (g_kind g) data s n (Z.of_nat (g_ncol g)) (Z.of_nat (g_nrow g)) 0)
        as (p' & E' & Hp'); try lia. congruence. }
  rewrite Hws. exists ws. split; [reflexivity|].
  assert (Er : w_ranges ws = map (fun sn => (Z.to_nat (fst sn), Z.to_nat (snd sn))) rngs).
  { unfold w_ranges. clear -F. induction F as [|a b l l' (E1 & E2 & _) _ IH]; simpl; [reflexivity|].
    rewrite E1, E2, IH. reflexivity. }
  split; [split|split].
  - rewrite Er. pose proof (@tiles_ntiles 0 (Z.of_nat (g_nrow g)) rngs ltac:(lia) Ht) as Hn.
    rewrite Nat2Z.id in Hn. exact Hn.
  - intros w r Hw Hrn. apply In_nth_error in Hw as (i & Hi).
    apply (Forall2_nth_error F) in Hi as (a & _ & _ & _ & Hrow). apply Hrow. exact Hrn.
  - rewrite <- (Forall2_length_eq F). rewrite eff_threads_ok by lia. lia.
  - intros w Hw. apply In_nth_error in Hw as (i & Hi).
    apply (Forall2_nth_error F) in Hi as ([s n] & Ha & _ & E2 & _). apply nth_error_In, Hb in Ha.
    rewrite E2. cbn [snd]. lia.
Qed.

End Workers.

(* ------------------------------------------------------------------ *)
(** * The assignment round *)

Fixpoint odiff (l : list (option nat)) (l' : list nat) : nat :=
  match l, l' with
  | o :: t, a :: t' => (if id_eqb (Some a) o then 0 else 1) + odiff t t'
  | _, _ => 0
  end.
Lemma odiff_app l1 l1' l2 l2' : length l1 = length l1' ->
  odiff (l1 ++ l2) (l1' ++ l2') = odiff l1 l1' + odiff l2 l2'.
Proof.
  revert l1'; induction l1 as [|o l1 IH]; intros [|a l1'] H; simpl in *; try lia.
  rewrite IH by lia. lia.
Qed.

(** concatenating per-worker pieces *)
Lemma ntiles_concat {A} (l : list A) lo hi rs : ntiles lo hi rs -> hi <= length l ->
  concat (map (fun sn => slice l (fst sn) (snd sn)) rs) = slice l lo (hi - lo).
Proof.
  revert lo; induction rs as [|[s n] rs IH]; intros lo H Hl; cbn [ntiles map concat] in *.
  - subst. rewrite Nat.sub_diag. reflexivity.
  - destruct H as (-> & H). pose proof (@ntiles_le _ _ _ H). rewrite (IH _ H Hl). cbn [fst snd].
    rewrite (@slice_split _ l lo (hi - lo) n) by lia. do 2 f_equal; lia.
Qed.

Lemma odiff_concat asg : forall rs lo hi (A : list nat), ntiles lo hi rs -> hi <= length asg -> length A = length asg ->
  list_sum (map (fun sn => odiff (slice asg (fst sn) (snd sn)) (slice A (fst sn) (snd sn))) rs)
  = odiff (slice asg lo (hi - lo)) (slice A lo (hi - lo)).
Proof.
  induction rs as [|[s n] rs IH]; intros lo hi A H Hl HA; cbn [ntiles map list_sum fold_right] in *.
  - subst. rewrite Nat.sub_diag. reflexivity.
  - destruct H as (-> & H). pose proof (@ntiles_le _ _ _ H) as Hle.
    change (fold_right Nat.add 0 ?x) with (list_sum x). rewrite (IH _ _ _ H Hl HA). cbn [fst snd].
    rewrite (@slice_split _ asg lo (hi - lo) n), (@slice_split _ A lo (hi - lo) n) by lia.
    rewrite odiff_app by (rewrite !slice_length; lia).
    replace (hi - (lo + n)) with (hi - lo - n) by lia. reflexivity.
Qed.

Section EM.
Variable N : Num.
Notation T := (car N).
Notation clusters := (clusters N).

(** running sum and count of the rows assigned to cluster [j] *)
Definition csum (d j : nat) (xas : list (list T * nat)) : list T :=
  fold_left (fun s xa => if snd xa =? j then map2 (nadd N) s (fst xa) else s) xas (repeat (nzero N) d).
Definition ccnt (j : nat) (xas : list (list T * nat)) : Z := Z.of_nat (count_eq j (map snd xas)).

Lemma csum_snoc d j xas x a : csum d j (xas ++ [(x, a)]) =
  if a =? j then map2 (nadd N) (csum d j xas) x else csum d j xas.
Proof. unfold csum. rewrite fold_left_app. reflexivity. Qed.
Lemma ccnt_snoc j xas x a : ccnt j (xas ++ [(x, a)]) = (ccnt j xas + if Nat.eqb a j then 1 else 0)%Z.
Proof.
  unfold ccnt. rewrite map_app, count_eq_app. cbn [map snd]. unfold count_eq at 2. cbn [filter].
  destruct (a =? j); cbn [length]; lia.
Qed.

Variables (g : kcfg N) (ws : list (worker N)) (data : list T) (gcl : clusters).
Let d := g_ncol g.
Let k := g_k g.
Hypothesis Hws : wok (g_nrow g) d data ws.
Hypothesis Hgcl : shaped k d gcl.
Hypothesis Hdata : length data = g_nrow g * d.

Definition cents : list (list T) := rows k d (c_means gcl).
Definition nid (r : nat) : option nat := fst (near N (g_dt g) cents (row data d r)).

Lemma worker_in t w : nth_error ws t = Some w -> w_start w + w_nrow w <= g_nrow g.
Proof.
  intros H. destruct Hws as (Ht & _).
  apply (@ntiles_in _ _ _ Ht t). unfold w_ranges. rewrite nth_error_map, H. reflexivity.
Qed.

Lemma EM_row_ok t w r l a : nth_error ws t = Some w -> r < w_nrow w -> shaped k d (fst l) ->
  match nid (w_start w + r) with
  | Some c => c < k /\ exists lc, EM_row g ws gcl t r l a = Ok ((lc, if id_eqb (Some c) a then snd l else S (snd l)), Some c) /\
       shaped k d lc /\
       forall j, j < k -> cel lc j = if j =? c then (map2 (nadd N) (crow (fst l) c) (row data d (w_start w + r)), (cnum (fst l) c + 1)%Z, cdone (fst l) c)
                                  else cel (fst l) j
  | None => EM_row g ws gcl t r l a = Err Abort
  end.
Proof.
  intros Hw Hr Hl. unfold EM_row. unfold aget. rewrite Hw. cbn [bind].
  destruct Hgcl as (Hk & Hd & Hm & _).
  pose proof (proj2 Hws w r (nth_error_In _ _ Hw) Hr) as Hrow.
  pose proof (worker_in _ Hw) as Hin.
  assert (Lrow : length (row data d (w_start w + r)) = d) by (apply (@row_length _ data d _ (g_nrow g)); lia).
  assert (Ck : c_nclust gcl = k) by exact Hk. 
  fold d. rewrite (@find_nearest_ok N (g_dt g) _ (row data d (w_start w + r)) (c_means gcl) d (c_nclust gcl))
    by (auto; congruence).
  rewrite Ck. cbn [bind]. fold cents. unfold nid.
  assert (Hn : forall c dd, near N (g_dt g) cents (row data d (w_start w + r)) = (Some c, dd) -> c < k).
  { intros c dd. unfold near. assert (Hlen : length cents = k) by apply rows_length.
    assert (G : forall cs i best, (match fst best with Some c => c < i | None => True end) ->
       match fst (near_from N (g_dt g) (row data d (w_start w + r)) i best cs) with Some c => c < i + length cs | None => True end).
    { induction cs as [|x cs IH]; intros i best Hb; cbn [near_from length].
      - rewrite Nat.add_0_r. exact Hb.
      - replace (i + S (length cs)) with (S i + length cs) by lia. apply IH.
        destruct (nltb N _ _); cbn [fst]; [lia|]. destruct (fst best); auto. }
    intros E. specialize (G cents 0 (None, nmax N) I). rewrite E in G. cbn [fst] in G. lia. }
  destruct (near N (g_dt g) cents (row data d (w_start w + r))) as [[c|] dd] eqn:E; cbn [fst]; [|reflexivity].
  specialize (Hn c dd eq_refl). split; [exact Hn|].
  destruct (@add_member_ok N k d (fst l) (wrow w d r) (row data d (w_start w + r)) c Hl Hn Lrow Hrow)
    as (lc & Ha & Hs & Hc).
  rewrite Ha. cbn [bind]. exists lc. auto.
Qed.

(** rows of a range paired with given ids *)
Definition xas (s : nat) (A : list nat) : list (list T * nat) :=
  combine (map (row data d) (seq s (length A))) A.

Lemma xas_snoc s A a : xas s (A ++ [a]) = xas s A ++ [(row data d (s + length A), a)].
Proof. clear Hws Hgcl Hdata.
  unfold xas. rewrite app_length. cbn [length]. rewrite Nat.add_1_r, seq_S, map_app.
  assert (G : forall (X : list (list T)) (B : list nat), length X = length B -> forall x b,
     combine (X ++ [x]) (B ++ [b]) = combine X B ++ [(x, b)]).
  { induction X as [|x0 X IH]; intros [|b0 B] H x b; simpl in *; try lia; auto. rewrite IH by lia. reflexivity. }
  apply G. rewrite map_length, seq_length. reflexivity.
Qed.
Lemma xas_snd s A : map snd (xas s A) = A.
Proof. clear Hws Hgcl Hdata.
  unfold xas. assert (G : forall (X : list (list T)) (B : list nat), length X = length B -> map snd (combine X B) = B).
  { induction X as [|x0 X IH]; intros [|b0 B] H; simpl in *; try lia; auto. rewrite IH by lia. reflexivity. }
  apply G. rewrite map_length, seq_length. reflexivity.
Qed.

Lemma seq_rows_EM t w l0 asg : nth_error ws t = Some w -> fst l0 = clusters_create N k d -> snd l0 = 0 ->
  forall n, n <= w_nrow w -> w_start w + n <= length asg ->
  match seq_rows (EM_row g ws gcl) t 0 l0 (slice asg (w_start w) n) with
  | Ok (l, cells) => exists A, length A = n /\ cells = map Some A /\
      (forall i, i < n -> nid (w_start w + i) = Some (nth i A 0) /\ nth i A 0 < k) /\
      shaped k d (fst l) /\
      (forall j, j < k -> cel (fst l) j = (csum d j (xas (w_start w) A), ccnt j (xas (w_start w) A), false)) /\
      snd l = odiff (slice asg (w_start w) n) A
  | Err e => e = Abort /\ exists i, i < n /\ nid (w_start w + i) = None
  end.
Proof.
  intros Hw Hf Hs. induction n as [|n IH]; intros Hn Hl.
  - unfold slice; cbn [firstn seq_rows]. exists []. cbn. rewrite Hf. splits; auto; try (intros; lia).
    + apply shaped_create.
    + intros j Hj. rewrite cel_create by exact Hj. reflexivity.
  - destruct (nth_error asg (w_start w + n)) as [a|] eqn:Ea; [|apply nth_error_None in Ea; lia].
    rewrite (slice_S_last asg (w_start w) n Ea), seq_rows_app.
    specialize (IH ltac:(lia) ltac:(lia)).
    destruct (seq_rows (EM_row g ws gcl) t 0 l0 (slice asg (w_start w) n)) as [[l cells]|e]; cbn [bind].
    2:{ destruct IH as (-> & i & Hi & E). split; auto. exists i. split; [lia|exact E]. }
    destruct IH as (A & LA & -> & HA & Hsh & Hcel & Hch). cbn [fst snd].
    assert (Ls : length (slice asg (w_start w) n) = n) by (apply slice_length; lia).
    rewrite Ls. cbn [seq_rows plus].
    pose proof (@EM_row_ok t w n l a Hw ltac:(lia) Hsh) as HE.
    destruct (nid (w_start w + n)) as [c|] eqn:En.
    2:{ rewrite HE. cbn [bind]. split; auto. exists n. split; [lia|exact En]. }
    destruct HE as (Hck & lc & HE & Hsh' & Hcel'). rewrite HE. cbn [bind fst snd].
    exists (A ++ [c]). rewrite app_length, map_app. cbn [length map]. splits; auto; try lia.
    + intros i Hi. destruct (Nat.eq_dec i n) as [->|].
      * rewrite app_nth2 by lia. rewrite LA, Nat.sub_diag. cbn [nth]. auto.
      * rewrite app_nth1 by lia. apply HA. lia.
    + intros j Hj. rewrite Hcel' by exact Hj. rewrite xas_snoc, csum_snoc, ccnt_snoc, LA.
      rewrite Nat.eqb_sym. destruct (Nat.eqb_spec c j) as [->|].
      * pose proof (Hcel j Hj) as E. unfold cel in E. injection E as -> -> ->. reflexivity.
      * rewrite Hcel by exact Hj. rewrite Z.add_0_r. reflexivity.
    + rewrite odiff_app by congruence. cbn [odiff]. rewrite Hch. destruct (id_eqb (Some c) a); lia.
Qed.

(** result of a round *)
Lemma EM_round_ok sched (locals : list (wstate N)) asg :
  complete (w_ranges ws) sched -> length asg = g_nrow g -> length locals = length ws ->
  Forall (fun l => shaped k d (fst l)) locals ->
  match EM_round g ws gcl sched locals asg with
  | Ok (locs, asg') => exists A, length A = g_nrow g /\ asg' = map Some A /\
      (forall r, r < g_nrow g -> nid r = Some (nth r A 0) /\ nth r A 0 < k) /\
      length locs = length ws /\
      (forall t w l, nth_error ws t = Some w -> nth_error locs t = Some l ->
         shaped k d (fst l) /\
         let A' := slice A (w_start w) (w_nrow w) in
         (forall j, j < k -> cel (fst l) j = (csum d j (xas (w_start w) A'), ccnt j (xas (w_start w) A'), false)) /\
         snd l = odiff (slice asg (w_start w) (w_nrow w)) A')
  | Err e => e = Abort /\ exists r, r < g_nrow g /\ nid r = None
  end.
Proof.
  intros Hc La Ll Hsh. unfold EM_round.
  set (locs0 := map (fun l => (clear (fst l), 0)) locals).
  assert (Ht : ntiles 0 (length asg) (w_ranges ws)) by (rewrite La; apply Hws).
  assert (L0 : length locs0 = length (w_ranges ws)) by (unfold locs0, w_ranges; rewrite !map_length; exact Ll).
  assert (H0 : forall t l0, nth_error locs0 t = Some l0 -> fst l0 = clusters_create N k d /\ snd l0 = 0).
  { intros t l0 E. apply nth_error_In in E. unfold locs0 in E. apply in_map_iff in E as (l & <- & Hin).
    cbn [fst snd]. split; auto. apply clear_create. rewrite Forall_forall in Hsh. apply Hsh. exact Hin. }
  pose proof (@par_run_spec _ _ (EM_row g ws gcl) (w_ranges ws) asg locs0 Ht L0 sched Hc) as H.
  destruct (par_run (EM_row g ws gcl) (w_ranges ws) sched asg locs0) as [[locs asg']|e].
  2:{ destruct H as (t & s & n & l0 & Er & E0 & Es).
      unfold w_ranges in Er. rewrite nth_error_map in Er. destruct (nth_error ws t) as [w|] eqn:Ew; [|discriminate].
      injection Er as <- <-. destruct (H0 _ _ E0) as (Hf & Hs).
      pose proof (worker_in _ Ew).
      pose proof (@seq_rows_EM t w l0 asg Ew Hf Hs (w_nrow w) ltac:(lia) ltac:(lia)) as HH.
      rewrite Es in HH. destruct HH as (-> & i & Hi & E). split; auto. exists (w_start w + i). split; [lia|exact E]. }
  destruct H as (Hll & Hla & H).
  assert (G : forall t w, nth_error ws t = Some w -> exists l A', nth_error locs t = Some l /\
     length A' = w_nrow w /\ slice asg' (w_start w) (w_nrow w) = map Some A' /\
      (forall i, i < w_nrow w -> nid (w_start w + i) = Some (nth i A' 0) /\ nth i A' 0 < k) /\
      shaped k d (fst l) /\
      (forall j, j < k -> cel (fst l) j = (csum d j (xas (w_start w) A'), ccnt j (xas (w_start w) A'), false)) /\
      snd l = odiff (slice asg (w_start w) (w_nrow w)) A').
  { intros t w Ew. assert (Er : nth_error (w_ranges ws) t = Some (w_start w, w_nrow w))
      by (unfold w_ranges; rewrite nth_error_map, Ew; reflexivity).
    destruct (nth_error locs0 t) as [l0|] eqn:E0.
    2:{ apply nth_error_None in E0. assert (t < length ws) by (apply nth_error_Some; congruence).
        unfold w_ranges in L0. rewrite map_length in L0. lia. }
    destruct (H t _ _ _ Er E0) as (l & El & Es). destruct (H0 _ _ E0) as (Hf & Hs).
    pose proof (worker_in _ Ew).
    pose proof (@seq_rows_EM t w l0 asg Ew Hf Hs (w_nrow w) ltac:(lia) ltac:(lia)) as HH.
    rewrite Es in HH. destruct HH as (A' & HH). exists l, A'. split; [exact El|]. exact HH. }
  assert (Ex : exists A, asg' = map Some A).
  { assert (P : forall n, n <= length ws -> exists A, concat (map (fun w => slice asg' (w_start w) (w_nrow w)) (firstn n ws)) = map Some A).
    { induction n as [|n IH]; intros Hn; [exists []; reflexivity|].
      destruct (IH ltac:(lia)) as (A & HA).
      destruct (nth_error ws n) as [w|] eqn:Ew; [|apply nth_error_None in Ew; lia].
      assert (Hs : firstn (S n) ws = firstn n ws ++ [w]) by (apply (@slice_S_last _ ws 0 n w); exact Ew).
      rewrite Hs, map_app, concat_app, HA. destruct (G n w Ew) as (_ & A' & _ & _ & E & _).
      cbn [map concat]. rewrite app_nil_r, E, <- map_app. eauto. }
    destruct (P (length ws) ltac:(lia)) as (A & HA). exists A. rewrite firstn_all in HA. rewrite <- HA.
    pose proof (@ntiles_concat _ asg' 0 (g_nrow g) (w_ranges ws) (proj1 Hws) ltac:(lia)) as E.
    unfold w_ranges in E. rewrite map_map in E. cbn [fst snd] in E. rewrite E.
    rewrite Nat.sub_0_r. rewrite <- La, <- Hla. symmetry. apply slice_all. }
  destruct Ex as (A & EA). exists A.
  assert (LA : length A = g_nrow g) by (rewrite <- (map_length (@Some nat)), <- EA; lia).
  assert (Hslice : forall t w A', nth_error ws t = Some w -> length A' = w_nrow w ->
     slice asg' (w_start w) (w_nrow w) = map Some A' -> slice A (w_start w) (w_nrow w) = A').
  { intros t w A' Ew LA' E. rewrite EA in E. unfold slice in *. rewrite skipn_map, firstn_map in E.
    clear -E. revert A' E. generalize (firstn (w_nrow w) (skipn (w_start w) A)).
    induction l as [|x l IH]; intros [|y A'] E; simpl in E; try discriminate; auto.
    injection E as -> E. f_equal; auto. }
  splits; auto.
  - intros r Hr.
    assert (Own : exists t w i, nth_error ws t = Some w /\ i < w_nrow w /\ r = w_start w + i).
    { clear -Hws Hr. destruct Hws as (Ht & _). revert Ht Hr. generalize (g_nrow g) as hi. 
      assert (Q : forall (l : list (worker N)) lo hi, ntiles lo hi (w_ranges l) -> lo <= r < hi -> exists t (w : worker N) i, nth_error l t = Some w /\ i < w_nrow w /\ r = w_start w + i).
      { induction l as [|w l IH]; intros lo hi Ht Hr; cbn [w_ranges map ntiles] in Ht; [lia|].
        destruct Ht as (Es & Ht). destruct (Nat.lt_ge_cases r (lo + w_nrow w)) as [Hlt|Hge].
        - exists 0, w, (r - w_start w). simpl. splits; auto; lia.
        - destruct (IH _ _ Ht ltac:(lia)) as (t & w' & i & E & Hi & E'). exists (S t), w', i. auto. }
      intros hi Ht Hr. apply (Q ws 0 hi Ht). lia. }
    destruct Own as (t & w & i & Ew & Hi & ->). destruct (G t w Ew) as (l & A' & _ & LA' & Esl & Hn & _).
    destruct (Hn i Hi) as (Hn1 & Hn2). pose proof (Hslice t w A' Ew LA' Esl) as E.
    assert (Ei : nth i A' 0 = nth (w_start w + i) A 0) by (rewrite <- E; apply nth_slice; exact Hi).
    rewrite <- Ei. auto.
  - rewrite Hll. unfold w_ranges. apply map_length.
  - intros t w l Ew El. destruct (G t w Ew) as (l' & A' & El' & LA' & Esl & Hn & Hs & Hcel & Hch).
    rewrite El in El'. injection El' as <-. rewrite (Hslice t w A' Ew LA' Esl). split; [exact Hs|]. split; auto.
Qed.

End EM.
