(** Proofs about feature scaling. *)
From Verif Require Import Base Num Spec DistModel ClustersModel MatLemmas PartitionModel ParModel ParProofs
  KmeansModel KmeansProofs RunProofs ParSim SkmeansModel.
Set Implicit Arguments.

Section Sk.
Variable N : Num.
Hypothesis O : OrdLaws N.
Notation T := (car N).

(** [m] is a lower bound of the values in [l] and is one of them or [i] *)
Definition lowest (i m : T) (l : list T) : Prop :=
  neqb N m m = true /\ In m (i :: l) /\ forall x, In x (i :: l) -> nltb N x m = false.
Definition highest (i m : T) (l : list T) : Prop :=
  neqb N m m = true /\ In m (i :: l) /\ forall x, In x (i :: l) -> nltb N m x = false.

Lemma lowest_add i m l x : lowest i m l -> lowest i (if nltb N x m then x else m) (l ++ [x]).
Proof.
  intros (Hn & Hi & Hl). destruct (nltb N x m) eqn:E.
  - destruct (lt_num O _ _ E) as (Hx & _). split; [auto|split].
    + right. apply in_or_app. right. left. reflexivity.
    + intros y [<-|Hy].
      * destruct (nltb N i x) eqn:F; [|reflexivity]. pose proof (Hl i (or_introl eq_refl)) as B.
        rewrite (lt_trans O _ _ _ F E) in B. discriminate.
      * apply in_app_or in Hy as [Hy|[<-|[]]]; [|apply (lt_irrefl O)].
        destruct (nltb N y x) eqn:F; [|reflexivity]. pose proof (Hl y (or_intror Hy)) as B.
        rewrite (lt_trans O _ _ _ F E) in B. discriminate.
  - split; [auto|split].
    + destruct Hi as [<-|Hi]; [left; reflexivity|right; apply in_or_app; auto].
    + intros y [<-|Hy]; [apply Hl; left; reflexivity|]. apply in_app_or in Hy as [Hy|[<-|[]]]; [|exact E].
      apply Hl; right; exact Hy.
Qed.

Lemma highest_add i m l x : highest i m l -> highest i (if nltb N m x then x else m) (l ++ [x]).
Proof.
  intros (Hn & Hi & Hl). destruct (nltb N m x) eqn:E.
  - destruct (lt_num O _ _ E) as (_ & Hx). split; [auto|split].
    + right. apply in_or_app. right. left. reflexivity.
    + intros y [<-|Hy].
      * destruct (nltb N x i) eqn:F; [|reflexivity]. pose proof (Hl i (or_introl eq_refl)) as B.
        rewrite (lt_trans O _ _ _ E F) in B. discriminate.
      * apply in_app_or in Hy as [Hy|[<-|[]]]; [|apply (lt_irrefl O)].
        destruct (nltb N x y) eqn:F; [|reflexivity]. pose proof (Hl y (or_intror Hy)) as B.
        rewrite (lt_trans O _ _ _ E F) in B. discriminate.
  - split; [auto|split].
    + destruct Hi as [<-|Hi]; [left; reflexivity|right; apply in_or_app; auto].
    + intros y [<-|Hy]; [apply Hl; left; reflexivity|]. apply in_app_or in Hy as [Hy|[<-|[]]]; [|exact E].
      apply Hl; right; exact Hy.
Qed.

Lemma lowest_merge i m l m' l' : lowest i m l -> lowest i m' l' -> lowest i (if nltb N m' m then m' else m) (l ++ l').
Proof.
  intros (Hn & Hi & Hl) (Hn' & Hi' & Hl'). destruct (nltb N m' m) eqn:E.
  - split; [auto|split].
    + destruct Hi' as [<-|Hi']; [left; reflexivity|right; apply in_or_app; auto].
    + intros y [<-|Hy]; [apply Hl'; left; reflexivity|]. apply in_app_or in Hy as [Hy|Hy]; [|apply Hl'; right; exact Hy].
      destruct (nltb N y m') eqn:F; [|reflexivity]. pose proof (Hl y (or_intror Hy)) as B.
      rewrite (lt_trans O _ _ _ F E) in B. discriminate.
  - split; [auto|split].
    + destruct Hi as [<-|Hi]; [left; reflexivity|right; apply in_or_app; auto].
    + intros y [<-|Hy]; [apply Hl; left; reflexivity|]. apply in_app_or in Hy as [Hy|Hy]; [apply Hl; right; exact Hy|].
      apply (lt_ntrans O y m' m Hn'); [apply Hl'; right; exact Hy|exact E].
Qed.

Lemma highest_merge i m l m' l' : highest i m l -> highest i m' l' -> highest i (if nltb N m m' then m' else m) (l ++ l').
Proof.
  intros (Hn & Hi & Hl) (Hn' & Hi' & Hl'). destruct (nltb N m m') eqn:E.
  - split; [auto|split].
    + destruct Hi' as [<-|Hi']; [left; reflexivity|right; apply in_or_app; auto].
    + intros y [<-|Hy]; [apply Hl'; left; reflexivity|]. apply in_app_or in Hy as [Hy|Hy]; [|apply Hl'; right; exact Hy].
      destruct (nltb N m' y) eqn:F; [|reflexivity]. pose proof (Hl y (or_intror Hy)) as B.
      rewrite (lt_trans O _ _ _ E F) in B. discriminate.
  - split; [auto|split].
    + destruct Hi as [<-|Hi]; [left; reflexivity|right; apply in_or_app; auto].
    + intros y [<-|Hy]; [apply Hl; left; reflexivity|]. apply in_app_or in Hy as [Hy|Hy]; [apply Hl; right; exact Hy|].
      apply (lt_ntrans O m m' y Hn'); [exact E|apply Hl'; right; exact Hy].
Qed.

Definition bshape (d : nat) (b : fbounds N) : Prop := length (fst b) = d /\ length (snd b) = d.

Lemma bounds_upd_ok d col lo hi (b : fbounds N) : bshape d b -> col < d ->
  okp (bounds_upd col lo hi b) (fun b' => bshape d b' /\
    (forall c, c <> col -> nth c (fst b') (nzero N) = nth c (fst b) (nzero N) /\ nth c (snd b') (nzero N) = nth c (snd b) (nzero N)) /\
    nth col (fst b') (nzero N) = (if nltb N lo (nth col (fst b) (nzero N)) then lo else nth col (fst b) (nzero N)) /\
    nth col (snd b') (nzero N) = (if nltb N (nth col (snd b) (nzero N)) hi then hi else nth col (snd b) (nzero N))).
Proof.
  intros (L1 & L2) Hc. unfold bounds_upd.
  rewrite (@aget_nth _ (fst b) col (nzero N)) by lia. cbn [Base.bind].
  rewrite (@aget_nth _ (snd b) col (nzero N)) by lia.
  set (m := nth col (fst b) (nzero N)). set (M := nth col (snd b) (nzero N)).
  assert (A1 : (if nltb N lo m then aset (fst b) col lo else Ok (fst b)) = Ok (if nltb N lo m then upd (fst b) col lo else fst b)).
  { destruct (nltb N lo m); [apply aset_ok; lia|reflexivity]. }
  assert (A2 : (if nltb N M hi then aset (snd b) col hi else Ok (snd b)) = Ok (if nltb N M hi then upd (snd b) col hi else snd b)).
  { destruct (nltb N M hi); [apply aset_ok; lia|reflexivity]. }
  rewrite A1. cbn [Base.bind]. rewrite A2. cbn [Base.bind okp fst snd]. clear A1 A2. unfold bshape. cbn [fst snd].
  destruct (nltb N lo m); destruct (nltb N M hi); rewrite ?upd_length; splits; auto; intros;
    rewrite ?nth_upd by lia; rewrite ?Nat.eqb_refl; try reflexivity;
    repeat (match goal with |- context [?a =? ?b] => destruct (Nat.eqb_spec a b); [congruence|] end); auto.
Qed.

(** bounds after the values [vals c] of every column [c < d] *)
Definition bmeans (d : nat) (vals : nat -> list T) (b : fbounds N) : Prop :=
  bshape d b /\ forall c, c < d -> lowest (nmax N) (nth c (fst b) (nzero N)) (vals c) /\
                                    highest (nmin N) (nth c (snd b) (nzero N)) (vals c).

Hypothesis Hmax : neqb N (nmax N) (nmax N) = true.
Hypothesis Hmin : neqb N (nmin N) (nmin N) = true.

Lemma bounds0_ok d : bmeans d (fun _ => []) (bounds0 N d).
Proof.
  unfold bmeans, bshape, bounds0, lowest, highest. cbn [fst snd]. rewrite !repeat_length. split; [auto|].
  intros c Hc. rewrite !(nth_indep _ (nzero N) (nmax N)) by (rewrite repeat_length; exact Hc).
  rewrite (nth_indep (repeat (nmin N) d) (nmax N) (nmin N)) by (rewrite repeat_length; exact Hc).
  rewrite !nth_repeat. splits; auto; try (left; reflexivity).
  - intros x [<-|[]]. apply (lt_irrefl O).
  - intros x [<-|[]]. apply (lt_irrefl O).
Qed.

Lemma pget_slice {A} (p : ptr A) d (x : list A) c dd : slice (fst p) (snd p) d = x -> length x = d -> c < d ->
  pget p c = Ok (nth c x dd).
Proof.
  intros E L Hc. unfold pget, aget. assert (nth_error x c = nth_error (fst p) (snd p + c)) as F.
  { rewrite <- E. rewrite nth_error_slice. destruct (Nat.ltb_spec c d); [reflexivity|lia]. }
  rewrite <- F. rewrite (nth_error_nth' x dd) by lia. reflexivity.
Qed.

Section Data.
Variable g : kcfg N.
Notation d := (g_ncol g).
Variable data : list T.
Variable ws : list (worker N).
Hypothesis Hws : wok (g_nrow g) d data ws.
Hypothesis Hdata : length data = g_nrow g * d.

(** value of feature [c] in row [r] *)
Definition val (r c : nat) : T := nth c (row data d r) (nzero N).

Lemma row_len r : r < g_nrow g -> length (row data d r) = d.
Proof. intros H. exact (row_length data d Hdata H). Qed.

Lemma w_at t w r : nth_error ws t = Some w -> r < w_nrow w -> w_start w + r < g_nrow g /\
  forall c, c < d -> pget (wrow w d r) c = Ok (val (w_start w + r) c).
Proof.
  intros E Hr. destruct Hws as (Ht & Hd).
  assert (Er : nth_error (w_ranges ws) t = Some (w_start w, w_nrow w)) by (unfold w_ranges; rewrite nth_error_map, E; reflexivity).
  destruct (ntiles_in _ _ _ Ht t Er) as (_ & Hb). split; [lia|]. intros c Hc.
  apply pget_slice with (d := d); auto; [|apply row_len; lia]. apply Hd; auto. eapply nth_error_In; eauto.
Qed.

Lemma bounds_row_ok t w r b vals : nth_error ws t = Some w -> r < w_nrow w -> bmeans d vals b ->
  exists b', bounds_row g ws t r b tt = Ok (b', tt) /\ bmeans d (fun c => vals c ++ [val (w_start w + r) c]) b'.
Proof.
  intros E Hr Hb. unfold bounds_row. unfold aget at 1. rewrite E. cbn [Base.bind].
  destruct (@w_at t w r E Hr) as (_ & Hp).
  pose proof (@loop_okp _ (fun j b' => bshape d b' /\ forall c, c < d ->
     lowest (nmax N) (nth c (fst b') (nzero N)) (if c <? j then vals c ++ [val (w_start w + r) c] else vals c) /\
     highest (nmin N) (nth c (snd b') (nzero N)) (if c <? j then vals c ++ [val (w_start w + r) c] else vals c)) d
    (fun col b => let* x := pget (wrow w d r) col in bounds_upd col x x b) b) as L.
  apply okp_iff in L.
  - destruct L as (b' & Eb & Hs & Hc). rewrite Eb. cbn [Base.bind]. exists b'. split; [reflexivity|]. split; [exact Hs|].
    intros c Hcd. specialize (Hc c Hcd). destruct (Nat.ltb_spec c d); [exact Hc|lia].
  - destruct Hb as (Hs & Hc). split; [exact Hs|]. intros c Hcd. cbn. apply Hc; exact Hcd.
  - intros j b' Hj (Hs & Hc). rewrite (Hp j Hj). cbn [Base.bind].
    eapply okp_mono; [apply bounds_upd_ok; eauto|]. intros b'' (Hs' & Ho & El & Eh). split; [exact Hs'|].
    intros c Hcd. destruct (Nat.eq_dec c j) as [->|Hne].
    + rewrite El, Eh. destruct (Nat.ltb_spec j (S j)); [|lia]. specialize (Hc j Hcd). destruct (Nat.ltb_spec j j); [lia|].
      destruct Hc as (Hl & Hh). split; [apply lowest_add|apply highest_add]; auto.
    + destruct (Ho c Hne) as (-> & ->). specialize (Hc c Hcd).
      destruct (Nat.ltb_spec c (S j)), (Nat.ltb_spec c j); try lia; exact Hc.
Qed.

Lemma bounds_seq t w : nth_error ws t = Some w -> forall n r b vals, r + n <= w_nrow w -> bmeans d vals b ->
  exists b', seq_rows (bounds_row g ws) t r b (repeat tt n) = Ok (b', repeat tt n) /\
    bmeans d (fun c => vals c ++ map (fun q => val q c) (seq (w_start w + r) n)) b'.
Proof.
  intros E. induction n as [|n IH]; intros r b vals Hr Hb; cbn [repeat seq_rows seq map].
  - exists b. split; [reflexivity|]. destruct Hb as (Hs & Hc). split; [exact Hs|]. intros c Hcd. rewrite app_nil_r. apply Hc; exact Hcd.
  - destruct (@bounds_row_ok t w r b vals E ltac:(lia) Hb) as (b1 & E1 & H1). rewrite E1. cbn [Base.bind fst snd].
    destruct (IH (S r) b1 _ ltac:(lia) H1) as (b2 & E2 & H2). rewrite E2. cbn [Base.bind fst snd].
    exists b2. split; [reflexivity|]. destruct H2 as (Hs & Hc). split; [exact Hs|]. intros c Hcd. specialize (Hc c Hcd).
    cbv beta in Hc. rewrite <- app_assoc in Hc. cbn [app] in Hc. replace (w_start w + S r) with (S (w_start w + r)) in Hc by lia. exact Hc.
Qed.

Lemma slice_repeat {A} (x : A) n o m : o + m <= n -> slice (repeat x n) o m = repeat x m.
Proof.
  intros H. apply nth_error_ext. intros i. rewrite nth_error_slice.
  destruct (Nat.ltb_spec i m).
  - rewrite !nth_error_repeat by lia. reflexivity.
  - symmetry. apply nth_error_None. rewrite repeat_length. lia.
Qed.

Lemma bounds_round sb : complete (w_ranges ws) sb ->
  exists bs cs, par_run (bounds_row g ws) (w_ranges ws) sb (repeat tt (g_nrow g)) (map (fun _ => bounds0 N d) ws) = Ok (bs, cs) /\
    length bs = length ws /\
    forall t w, nth_error ws t = Some w -> exists b, nth_error bs t = Some b /\
      bmeans d (fun c => map (fun q => val q c) (seq (w_start w) (w_nrow w))) b.
Proof.
  intros Hc. destruct Hws as (Ht & _).
  pose proof (@par_run_spec _ _ (bounds_row g ws) (w_ranges ws) (repeat tt (g_nrow g)) (map (fun _ => bounds0 N d) ws)) as P.
  rewrite repeat_length in P. specialize (P Ht). unfold w_ranges in P at 1. rewrite !map_length in P. specialize (P eq_refl sb Hc).
  assert (Sq : forall t w, nth_error ws t = Some w -> exists b, 
     seq_rows (bounds_row g ws) t 0 (bounds0 N d) (slice (repeat tt (g_nrow g)) (w_start w) (w_nrow w)) = Ok (b, repeat tt (w_nrow w)) /\
     bmeans d (fun c => map (fun q => val q c) (seq (w_start w) (w_nrow w))) b).
  { intros t w E.
    assert (Er : nth_error (w_ranges ws) t = Some (w_start w, w_nrow w)) by (unfold w_ranges; rewrite nth_error_map, E; reflexivity).
    destruct (ntiles_in _ _ _ Ht t Er) as (_ & Hb). rewrite slice_repeat by lia.
    destruct (@bounds_seq t w E (w_nrow w) 0 (bounds0 N d) (fun _ => []) ltac:(lia) (bounds0_ok d)) as (b & Eb & Hb').
    rewrite Nat.add_0_r in Hb'. exists b. split; [exact Eb|exact Hb']. }
  destruct (par_run _ _ _ _ _) as [[bs cs]|e].
  - destruct P as (L1 & L2 & P). exists bs, cs. split; [reflexivity|]. split; [rewrite L1; unfold w_ranges; apply map_length|].
    intros t w E. destruct (Sq t w E) as (b & Es & Hb).
    destruct (P t (w_start w) (w_nrow w) (bounds0 N d)) as (l & El & Es').
    + unfold w_ranges; rewrite nth_error_map, E; reflexivity.
    + rewrite nth_error_map, E; reflexivity.
    + rewrite Es in Es'. injection Es' as <- _. exists b. auto.
  - destruct P as (t & s & n & l0 & Er & El & Es). unfold w_ranges in Er. rewrite nth_error_map in Er.
    destruct (nth_error ws t) as [w|] eqn:E; [|discriminate]. cbn in Er. injection Er as <- <-.
    rewrite nth_error_map, E in El. cbn in El. injection El as <-. destruct (Sq t w E) as (b & Es' & _). rewrite Es' in Es. discriminate.
Qed.

Lemma reduction_ok : forall (wl : list (worker N)) bs b0 vals0,
  length bs = length wl ->
  (forall t w, nth_error wl t = Some w -> exists b, nth_error bs t = Some b /\
      bmeans d (fun c => map (fun q => val q c) (seq (w_start w) (w_nrow w))) b) ->
  bmeans d vals0 b0 ->
  exists b, for_each bs (fun (b : fbounds N) acc =>
    loop (g_ncol g) (fun col acc =>
      let* lo := aget (fst b) col in
      let* hi := aget (snd b) col in
      bounds_upd col lo hi acc) acc) b0 = Ok b /\
    bmeans d (fun c => vals0 c ++ flat_map (fun w => map (fun q => val q c) (seq (w_start w) (w_nrow w))) wl) b.
Proof.
  induction wl as [|w wl IH]; intros bs b0 vals0 L H H0.
  - destruct bs; [|discriminate]. cbn [for_each flat_map]. exists b0. split; [reflexivity|].
    destruct H0 as (Hs & Hc). split; [exact Hs|]. intros c Hcd. rewrite app_nil_r. apply Hc; exact Hcd.
  - destruct bs as [|b bs]; [discriminate|]. cbn [for_each].
    destruct (H 0 w eq_refl) as (b' & Eb & Hb). cbn in Eb. injection Eb as <-.
    pose proof (@loop_okp _ (fun j acc => bshape d acc /\ forall c, c < d ->
       lowest (nmax N) (nth c (fst acc) (nzero N)) (if c <? j then vals0 c ++ map (fun q => val q c) (seq (w_start w) (w_nrow w)) else vals0 c) /\
       highest (nmin N) (nth c (snd acc) (nzero N)) (if c <? j then vals0 c ++ map (fun q => val q c) (seq (w_start w) (w_nrow w)) else vals0 c)) d
      (fun col acc => let* lo := aget (fst b) col in let* hi := aget (snd b) col in bounds_upd col lo hi acc) b0) as Lp.
    apply okp_iff in Lp.
    + destruct Lp as (b1 & E1 & Hs1 & Hc1). rewrite E1. cbn [Base.bind].
      destruct (IH bs b1 (fun c => vals0 c ++ map (fun q => val q c) (seq (w_start w) (w_nrow w)))) as (b2 & E2 & Hb2).
      * cbn in L; lia.
      * intros t w' Ew. exact (H (S t) w' Ew).
      * split; [exact Hs1|]. intros c Hcd. specialize (Hc1 c Hcd). destruct (Nat.ltb_spec c d); [exact Hc1|lia].
      * exists b2. split; [exact E2|]. destruct Hb2 as (Hs2 & Hc2). split; [exact Hs2|]. intros c Hcd. specialize (Hc2 c Hcd).
        cbv beta in Hc2. rewrite <- app_assoc in Hc2. exact Hc2.
    + destruct H0 as (Hs & Hc). split; [exact Hs|]. intros c Hcd. cbn. apply Hc; exact Hcd.
    + intros j acc Hj (Hs & Hc). destruct Hb as ((Lb1 & Lb2) & Hb).
      rewrite (@aget_nth _ (fst b) j (nzero N)) by lia. rewrite (@aget_nth _ (snd b) j (nzero N)) by lia. cbn [Base.bind].
      eapply okp_mono; [apply bounds_upd_ok; eauto|]. intros b'' (Hs' & Ho & El & Eh). split; [exact Hs'|].
      intros c Hcd. destruct (Nat.eq_dec c j) as [->|Hne].
      * rewrite El, Eh. destruct (Nat.ltb_spec j (S j)); [|lia]. specialize (Hc j Hcd). destruct (Nat.ltb_spec j j); [lia|].
        destruct (Hb j Hcd) as (Hl1 & Hh1).
        destruct Hc as (Hl & Hh). split; [apply lowest_merge|apply highest_merge]; auto.
      * destruct (Ho c Hne) as (-> & ->). specialize (Hc c Hcd).
        destruct (Nat.ltb_spec c (S j)), (Nat.ltb_spec c j); try lia; exact Hc.
Qed.

(** the rows of the workers, in order, are all the rows *)
Lemma worker_rows_all {A} (f : nat -> A) : forall (wl : list (worker N)) lo hi, ntiles lo hi (w_ranges wl) ->
  flat_map (fun w => map f (seq (w_start w) (w_nrow w))) wl = map f (seq lo (hi - lo)).
Proof.
  clear.
  induction wl as [|w wl IH]; intros lo hi H; cbn [w_ranges map ntiles flat_map] in *.
  - subst. rewrite Nat.sub_diag. reflexivity.
  - destruct H as (-> & H). pose proof (ntiles_le _ _ _ H). rewrite (IH _ _ H), <- map_app. f_equal.
    replace (hi - lo) with (w_nrow w + (hi - (lo + w_nrow w))) by lia. rewrite seq_app. reflexivity.
Qed.

Lemma normalize_row_ok (b : fbounds N) t w r cell : nth_error ws t = Some w -> r < w_nrow w -> bshape d b -> length cell = d ->
  normalize_row g ws b t r tt cell = Ok (tt, map (fun c => ndiv N (nsub N (val (w_start w + r) c) (nth c (fst b) (nzero N)))
      (nsub N (nth c (snd b) (nzero N)) (nth c (fst b) (nzero N)))) (seq 0 d)).
Proof.
  intros E Hr (L1 & L2) Lc. unfold normalize_row. unfold aget at 1. rewrite E. cbn [Base.bind].
  destruct (@w_at t w r E Hr) as (_ & Hp). set (f := fun c => ndiv N (nsub N (val (w_start w + r) c) (nth c (fst b) (nzero N)))
      (nsub N (nth c (snd b) (nzero N)) (nth c (fst b) (nzero N)))).
  pose proof (@loop_okp _ (fun j cl => length cl = d /\ forall c, c < j -> nth_error cl c = Some (f c)) d
    (fun col cell => let* x := pget (wrow w d r) col in let* m := aget (fst b) col in let* M := aget (snd b) col in
     aset cell col (ndiv N (nsub N x m) (nsub N M m))) cell) as L.
  apply okp_iff in L.
  - destruct L as (cl & Ec & Ln & Hc). rewrite Ec. cbn [Base.bind]. do 2 f_equal.
    apply nth_error_ext. intros i. rewrite nth_error_map, nth_error_seq. destruct (Nat.ltb_spec i d).
    + rewrite Hc by lia. reflexivity.
    + cbn. apply nth_error_None. lia.
  - split; [exact Lc|]. intros c Hc; lia.
  - intros j cl Hj (Ln & Hc). rewrite (Hp j Hj). cbn [Base.bind].
    rewrite (@aget_nth _ (fst b) j (nzero N)) by lia. rewrite (@aget_nth _ (snd b) j (nzero N)) by lia. cbn [Base.bind].
    rewrite aset_ok by lia. cbn [okp]. split; [rewrite upd_length; exact Ln|]. intros c Hcj. rewrite nth_error_upd.
    destruct (Nat.eqb_spec c j) as [->|Hne].
    + destruct (Nat.ltb_spec j (length cl)); [reflexivity|lia].
    + apply Hc; lia.
Qed.

Lemma normalize_seq (b : fbounds N) t w : nth_error ws t = Some w -> bshape d b -> forall cells r,
  r + length cells <= w_nrow w -> (forall x, In x cells -> length x = d) ->
  exists cs, seq_rows (normalize_row g ws b) t r tt cells = Ok (tt, cs).
Proof.
  intros E Hb. induction cells as [|c cells IH]; intros r Hr Hx; cbn [seq_rows].
  - eexists; reflexivity.
  - cbn [length] in Hr. rewrite (@normalize_row_ok b t w r _ E) by (auto; try lia; apply Hx; left; reflexivity).
    cbn [Base.bind fst snd]. destruct (IH (S r)) as (cs & Ec); [lia|intros; apply Hx; right; auto|]. rewrite Ec. cbn [Base.bind fst snd]. eexists; reflexivity.
Qed.

Lemma normalize_round sn (b : fbounds N) : complete (w_ranges ws) sn -> bshape d b ->
  exists ls cs, par_run (normalize_row g ws b) (w_ranges ws) sn (map (row data d) (seq 0 (g_nrow g))) (map (fun _ => tt) ws) = Ok (ls, cs) /\
    cs = map (fun r => map (fun c => ndiv N (nsub N (val r c) (nth c (fst b) (nzero N)))
      (nsub N (nth c (snd b) (nzero N)) (nth c (fst b) (nzero N)))) (seq 0 d)) (seq 0 (g_nrow g)).
Proof.
  intros Hc Hb. destruct Hws as (Ht & _). set (cells := map (row data d) (seq 0 (g_nrow g))).
  assert (Lc : length cells = g_nrow g) by (unfold cells; rewrite map_length, seq_length; reflexivity).
  assert (Ht' : ntiles 0 (length cells) (w_ranges ws)) by (rewrite Lc; exact Ht).
  assert (Ll : length (map (fun _ : worker N => tt) ws) = length (w_ranges ws)) by (unfold w_ranges; rewrite !map_length; reflexivity).
  assert (Hrow : forall x, In x cells -> length x = d).
  { intros x Hx. unfold cells in Hx. apply in_map_iff in Hx as (r & <- & Hr). apply in_seq in Hr. apply row_len; lia. }
  pose proof (@par_run_spec _ _ (normalize_row g ws b) (w_ranges ws) cells (map (fun _ => tt) ws) Ht' Ll sn Hc) as P.
  destruct (par_run (normalize_row g ws b) (w_ranges ws) sn cells (map (fun _ => tt) ws)) as [[ls cs]|e] eqn:Er.
  - exists ls, cs. split; [reflexivity|]. destruct (par_run_rows Ht' Ll Hc Er) as (L & Hrows).
    apply nth_error_ext. intros i. rewrite nth_error_map, nth_error_seq. destruct (Nat.ltb_spec i (g_nrow g)).
    + destruct (Hrows i (row data d i)) as (t & s & n & r & l1 & l2 & c' & En & Hr & -> & Es & Ec).
      { unfold cells. rewrite nth_error_map, nth_error_seq. destruct (Nat.ltb_spec i (g_nrow g)); [reflexivity|lia]. }
      rewrite Ec. cbn [option_map]. unfold w_ranges in En. rewrite nth_error_map in En.
      destruct (nth_error ws t) as [w|] eqn:Ew; [|discriminate]. cbn in En. injection En as <- <-.
      destruct l1. rewrite (@normalize_row_ok b t w r _ Ew) in Es by (auto; apply row_len; lia).
      injection Es as _ <-. reflexivity.
    + cbn [option_map]. apply nth_error_None. lia.
  - exfalso. destruct P as (t & s & n & l0 & En & El & Es). unfold w_ranges in En. rewrite nth_error_map in En.
    destruct (nth_error ws t) as [w|] eqn:Ew; [|discriminate]. cbn in En. injection En as <- <-. destruct l0.
    assert (Er' : nth_error (w_ranges ws) t = Some (w_start w, w_nrow w)) by (unfold w_ranges; rewrite nth_error_map, Ew; reflexivity).
    destruct (ntiles_in _ _ _ Ht t Er') as (_ & Hbd).
    destruct (@normalize_seq b t w Ew Hb (slice cells (w_start w) (w_nrow w)) 0) as (cs & Ec).
    + rewrite slice_length; lia.
    + intros x Hx. apply Hrow. unfold slice in Hx. 
      rewrite <- (firstn_skipn (w_start w) cells). apply in_or_app. right. rewrite <- (firstn_skipn (w_nrow w) (skipn (w_start w) cells)). apply in_or_app. left. exact Hx.
    + rewrite Ec in Es. discriminate.
Qed.
End Data.

Lemma fair_wok (g : kcfg N) (data : list T) : valid_input g data ->
  exists ws, build_workers g data = Ok ws /\ wok (g_nrow g) (g_ncol g) data ws.
Proof.
  intros (V1 & V2 & V3 & V4). destruct (@build_workers_ok N g data) as (ws & E & W & _); auto. exists ws; auto.
Qed.

Lemma preprocess_ok (g : kcfg N) (data : list T) sb sn ws : valid_input g data -> build_workers g data = Ok ws ->
  complete (w_ranges ws) sb -> complete (w_ranges ws) sn ->
  exists b, bmeans (g_ncol g) (fun c => map (fun q => val g data q c) (seq 0 (g_nrow g))) b /\
    preprocess_data g data sb sn = Ok (b, concat (map (fun r => map (fun c => ndiv N (nsub N (val g data r c) (nth c (fst b) (nzero N)))
      (nsub N (nth c (snd b) (nzero N)) (nth c (fst b) (nzero N)))) (seq 0 (g_ncol g))) (seq 0 (g_nrow g)))).
Proof.
  intros V Ew Hsb Hsn. destruct (fair_wok V) as (ws' & Ew' & W). rewrite Ew in Ew'. injection Ew' as <-.
  destruct V as (_ & _ & _ & V4).
  destruct (@bounds_round g data ws W V4 sb Hsb) as (bs & cs & E1 & L1 & H1).
  destruct (@reduction_ok g data V4 ws bs (bounds0 N (g_ncol g)) (fun _ => []) L1 H1 (bounds0_ok _)) as (b & Eb & Hb).
  destruct W as (Ht & Hd). exists b. split.
  - destruct Hb as (Hs & Hc). split; [exact Hs|]. intros c Hcd. specialize (Hc c Hcd). cbn [app] in Hc.
    rewrite (@worker_rows_all _ (fun q => val g data q c) ws _ _ Ht) in Hc. rewrite Nat.sub_0_r in Hc. exact Hc.
  - destruct Hb as (Hs & _).
    destruct (@normalize_round g data ws (conj Ht Hd) V4 sn b Hsn Hs) as (ls & cs' & En & ->).
    unfold preprocess_data. rewrite Ew. cbn [Base.bind]. rewrite E1. cbn [Base.bind fst].
    unfold bounds_reduction. rewrite Eb. cbn [Base.bind]. rewrite En. reflexivity.
Qed.

End Sk.
