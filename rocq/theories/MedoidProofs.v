(** Proofs about k-medoids, any arithmetic. *)
From Verif Require Import Base Num DistModel ClustersModel ClustersView ClustersProofs MatLemmas
  PartitionModel ParModel KmeansModel ParProofs NearProofs KmeansProofs UpdateProofs RunProofs InitProofs Spec DistProofs.
From Verif Require Import ParRule Okab MedoidModel.
Set Implicit Arguments.
Unset Strict Implicit.

Lemma near_bound (N : Num) dt cs x c v : near N dt cs x = (Some c, v) -> c < length cs.
Proof.
  unfold near.
  assert (G : forall cs i best, (match fst best with Some c => c < i | None => True end) ->
     match fst (near_from N dt x i best cs) with Some c => c < i + length cs | None => True end).
  { induction cs0 as [|y cs0 IH]; intros i best Hb; cbn [near_from length].
    - rewrite Nat.add_0_r. exact Hb.
    - replace (i + S (length cs0)) with (S i + length cs0) by lia. apply IH.
      destruct (nltb N _ _); cbn [fst]; [lia|]. destruct (fst best); auto. }
  intros E. specialize (G cs 0 (None, nmax N) I). rewrite E in G. cbn [fst] in G. lia.
Qed.

Lemma nth_mapseq {A} (f : nat -> A) n r dd : r < n -> nth r (map f (seq 0 n)) dd = f r.
Proof. intros H. rewrite (nth_indep _ dd (f 0)) by (rewrite map_length, seq_length; exact H). rewrite map_nth, seq_nth by exact H. reflexivity. Qed.

Lemma ntiles_cover : forall rs lo hi, ntiles lo hi rs -> forall r, lo <= r < hi ->
  exists t s m, nth_error rs t = Some (s, m) /\ s <= r /\ r < s + m.
Proof.
  induction rs as [|[s m] rs IH]; intros lo hi H r Hr; cbn [ntiles] in H; [lia|].
  destruct H as (-> & H). destruct (le_lt_dec (lo + m) r) as [Hle|Hlt].
  - destruct (IH _ _ H r ltac:(lia)) as (t & s' & m' & E & H1 & H2). exists (S t), s', m'. auto.
  - exists 0, lo, m. cbn. splits; auto; lia.
Qed.

Lemma Forall2_of_nth {A B} (R : A -> B -> Prop) : forall l l', length l = length l' ->
  (forall t a b, nth_error l t = Some a -> nth_error l' t = Some b -> R a b) -> Forall2 R l l'.
Proof.
  induction l as [|a l IH]; intros [|b l'] HL H; try discriminate; constructor.
  - apply (H 0); reflexivity.
  - apply IH; [injection HL; auto|]. intros t x y. apply (H (S t)).
Qed.

Section MP.
Variable N : Num.
Notation T := (car N).
Notation clusters := (clusters N).
Variables (g : kcfg N) (ws : list (worker N)) (data : list T).
Let n := g_nrow g. Let d := g_ncol g. Let k := g_k g.
Hypothesis V : valid_input g data.
Hypothesis Hws : wok (g_nrow g) (g_ncol g) data ws.

(** the nearest medoid of row [r] *)
Definition mnear (c : clusters) (r : nat) : option nat * T := near N medoid_metric (rows k d (c_means c)) (row data d r).

Definition minv (s : mst N) : Prop :=
  shaped k d (m_cl s) /\ length (m_asg s) = n /\ length (m_counts s) = k /\ length (m_energy s) = k /\ length (m_memb s) = k /\
  (forall j, j < k -> exists i, i < n /\ cnum (m_cl s) j = Z.of_nat i /\ crow (m_cl s) j = row data d i).

(* ------------------------------------------------------------------ *)
(** ** EM *)
Definition chg (tr : list (nat * option nat * option nat)) : nat :=
  length (filter (fun x => negb (id_eqb (snd x) (snd (fst x)))) tr).
Definition cntc (c : nat) (tr : list (nat * option nat * option nat)) : nat :=
  length (filter (fun x => id_eqb (snd x) (Some c)) tr).
Definition enc (cl : clusters) (c : nat) (tr : list (nat * option nat * option nat)) : T :=
  fold_left (fun e x => if id_eqb (snd x) (Some c) then nadd N e (snd (mnear cl (fst (fst x)))) else e) tr (nzero N).

Definition mrow_ok (cl : clusters) (x : nat * option nat * option nat) : Prop :=
  exists a, snd x = Some a /\ a < k /\ fst (mnear cl (fst (fst x))) = Some a.

Definition PEM (cl : clusters) (l : mlocal N) (tr : list (nat * option nat * option nat)) : Prop :=
  length (fst (fst l)) = k /\ length (snd (fst l)) = k /\ snd l = chg tr /\ Forall (mrow_ok cl) tr /\
  (forall c, c < k -> nth c (fst (fst l)) 0%Z = Z.of_nat (cntc c tr)) /\
  (forall c, c < k -> nth c (snd (fst l)) (nzero N) = enc cl c tr).

Lemma row_len r : r < n -> length (row data d r) = d.
Proof. apply (@data_row_length N g data V). Qed.

Lemma mEM_row_ok cl t w r l tr : shaped k d cl -> nth_error ws t = Some w -> r < w_nrow w -> PEM cl l tr ->
  forall a, okab (mEM_row g ws cl t r l a) (fun lc => PEM cl (fst lc) (tr ++ [(w_start w + r, a, snd lc)]))
    (exists r, r < n /\ fst (mnear cl r) = None).
Proof.
  intros Sh Ew Hr (L1 & L2 & Hc & HF & Hn & He) a. unfold mEM_row. unfold aget at 1. rewrite Ew. cbn [bind].
  pose proof (proj2 Hws w r (nth_error_In _ _ Ew) Hr) as Hrow.
  assert (Hin : w_start w + w_nrow w <= n).
  { destruct Hws as (Ht & _). apply (@ntiles_in _ _ _ Ht t). unfold w_ranges. rewrite nth_error_map, Ew. reflexivity. }
  pose proof Sh as (Ck & Cd & Cm & _).
  rewrite (@find_nearest_ok N medoid_metric _ (row data d (w_start w + r)) (c_means cl) (g_ncol g) (c_nclust cl)) by
    (auto; first [apply row_len; lia | rewrite Cm; f_equal; auto]).
  rewrite Ck. cbn [bind]. change (near N medoid_metric (rows k (g_ncol g) (c_means cl)) (row data d (w_start w + r))) with (mnear cl (w_start w + r)).
  destruct (mnear cl (w_start w + r)) as ([c|] & v) eqn:En; cbn [fst snd].
  2:{ cbn [okab]. split; auto. exists (w_start w + r). rewrite En. split; [lia|reflexivity]. }
  assert (Hck : c < k) by (apply near_bound in En; rewrite rows_length in En; exact En).
  destruct l as ((cnt & en) & ch). cbn [fst snd] in *. unfold amod.
  rewrite (@aget_nth _ en c (nzero N)) by lia. cbn [bind]. rewrite aset_ok by lia. cbn [bind].
  rewrite (@aget_nth _ cnt c 0%Z) by lia. cbn [bind]. rewrite aset_ok by lia. cbn [bind okab fst snd].
  unfold PEM; cbn [fst snd]. splits.
  - rewrite upd_length. exact L1.
  - rewrite upd_length. exact L2.
  - unfold chg. rewrite filter_app, app_length. cbn [filter fst snd]. fold (chg tr). destruct (id_eqb (Some c) a); cbn [negb length]; lia.
  - apply Forall_app. split; auto. constructor; [|constructor]. exists c. cbn [fst snd]. rewrite En. auto.
  - intros c' Hc'. unfold cntc. rewrite filter_app, app_length. cbn [filter snd id_eqb]. rewrite nth_upd by lia. rewrite Nat.eqb_sym.
    specialize (Hn c' Hc'). unfold cntc in Hn. destruct (Nat.eqb_spec c c') as [E|]; cbn [length]; [subst c'|]; rewrite Hn; lia.
  - intros c' Hc'. unfold enc. rewrite fold_left_app. cbn [fold_left fst snd id_eqb]. fold (enc cl c' tr).
    rewrite nth_upd by lia. rewrite Nat.eqb_sym.
    destruct (Nat.eqb_spec c c') as [E|]; [subst c'; rewrite En; rewrite He by auto; reflexivity|]. apply He. exact Hc'.
Qed.

Lemma ranges_nth t s m : nth_error (w_ranges ws) t = Some (s, m) -> exists w, nth_error ws t = Some w /\ s = w_start w /\ m = w_nrow w.
Proof.
  clear V Hws. unfold w_ranges. rewrite nth_error_map. destruct (nth_error ws t) as [w|]; [|discriminate]. intros [= <- <-]. eauto.
Qed.

(** membership lists *)
Definition memb_of (A : list nat) : list (list nat) := map (fun c => filter (fun r => nth r A 0 =? c) (seq 0 n)) (seq 0 k).

Lemma populate_ok A : length A = n -> populate g (map Some A) (repeat [] k) = Ok (memb_of A).
Proof.
  intros LA. unfold populate.
  pose (M := fun j => map (fun c => if c <? j then filter (fun r => nth r A 0 =? c) (seq 0 n) else []) (seq 0 k)).
  assert (H : okp (loop (g_k g) (fun cid memb =>
    loop (g_nrow g) (fun rid memb =>
      let* a := aget (map Some A) rid in
      if id_eqb a (Some cid) then amod memb cid (fun l => l ++ [rid]) else Ok memb) memb) (repeat [] k))
    (fun m => m = M k)).
  { apply (@loop_okp _ (fun j m => m = M j)).
    - unfold M. rewrite (map_ext_in _ (fun _ => @nil nat)); [rewrite map_const_repeat, seq_length; reflexivity|].
      intros c _. reflexivity.
    - intros j m Hj ->.
      pose (Q := fun i => map (fun c => if c <? j then filter (fun r => nth r A 0 =? c) (seq 0 n) else
                   if c =? j then filter (fun r => nth r A 0 =? c) (seq 0 i) else []) (seq 0 k)).
      eapply okp_mono.
      { apply (@loop_okp _ (fun i m => m = Q i)).
        - unfold M, Q. apply map_ext_in. intros c _. destruct (c <? j); auto. destruct (c =? j); reflexivity.
        - intros i m Hi ->. rewrite (@aget_nth _ (map Some A) i (Some 0)) by (rewrite map_length; fold n in Hi; lia).
          cbn [bind]. rewrite map_nth. cbn [id_eqb].
          assert (LQ : length (Q i) = k) by (unfold Q; rewrite map_length, seq_length; reflexivity).
          assert (NQ : forall i c, c < k -> nth c (Q i) [] = if c <? j then filter (fun r => nth r A 0 =? c) (seq 0 n) else
                   if c =? j then filter (fun r => nth r A 0 =? c) (seq 0 i) else []).
          { intros i' c Hc. unfold Q. rewrite (@nth_mapseq _ _ k c) by exact Hc. reflexivity. }
          assert (FS : forall c, filter (fun r => nth r A 0 =? c) (seq 0 (S i)) =
             filter (fun r => nth r A 0 =? c) (seq 0 i) ++ (if nth i A 0 =? c then [i] else [])).
          { intros c. rewrite seq_S, filter_app. cbn [filter plus]. destruct (nth i A 0 =? c); reflexivity. }
          destruct (Nat.eqb_spec (nth i A 0) j) as [E|E].
          + rewrite (@amod_nth _ (Q i) j _ []) by (fold k in Hj; lia). cbn [okp].
            apply nth_ext with (d := []) (d' := []).
            { rewrite upd_length, LQ. unfold Q. rewrite map_length, seq_length. reflexivity. }
            intros c Hc. rewrite upd_length, LQ in Hc. rewrite nth_upd by (fold k in Hj; lia). rewrite !NQ by (fold k in Hj; lia).
            destruct (Nat.eqb_spec c j) as [->|]; auto. rewrite Nat.ltb_irrefl, FS, E, Nat.eqb_refl. reflexivity.
          + cbn [okp]. apply map_ext_in. intros c _. destruct (c <? j); auto. destruct (Nat.eqb_spec c j) as [->|]; auto.
            rewrite FS. apply Nat.eqb_neq in E. rewrite E, app_nil_r. reflexivity. }
      intros m ->. unfold Q, M. apply map_ext_in. intros c _.
      destruct (Nat.ltb_spec c j), (Nat.eqb_spec c j), (Nat.ltb_spec c (S j)); try lia; auto. }
  destruct (loop (g_k g) _ (repeat [] k)) as [m|e]; [|destruct H]. cbn [okp] in H. subst m. f_equal.
  unfold M, memb_of. apply map_ext_in. intros c Hc. apply in_seq in Hc. destruct (Nat.ltb_spec c k); [reflexivity|lia].
Qed.

(** one worker's share added to the totals *)
Lemma globals_inner lcnt len (counts : list Z) (energy : list T) :
  length lcnt = k -> length len = k -> length counts = k -> length energy = k ->
  okp (loop (g_k g) (fun c (ce : list Z * list T) =>
        let* m := aget lcnt c in
        let* counts := amod (fst ce) c (fun x => x + m)%Z in
        let* e := aget len c in
        let* energy := amod (snd ce) c (fun x => nadd N x e) in
        Ok (counts, energy)) (counts, energy))
   (fun ce => length (fst ce) = k /\ length (snd ce) = k /\
     (forall c, c < k -> nth c (fst ce) 0%Z = (nth c counts 0 + nth c lcnt 0)%Z) /\
     (forall c, c < k -> nth c (snd ce) (nzero N) = nadd N (nth c energy (nzero N)) (nth c len (nzero N)))).
Proof.
  intros L1 L2 L3 L4. clear V Hws. eapply okp_mono.
  { apply (@loop_okp _ (fun j ce => length (fst ce) = k /\ length (snd ce) = k /\
      (forall c, c < k -> nth c (fst ce) 0%Z = if c <? j then (nth c counts 0 + nth c lcnt 0)%Z else nth c counts 0%Z) /\
      (forall c, c < k -> nth c (snd ce) (nzero N) = if c <? j then nadd N (nth c energy (nzero N)) (nth c len (nzero N)) else nth c energy (nzero N)))).
    - cbn [fst snd]. splits; auto.
    - intros j (cs & es) Hj (A1 & A2 & A3 & A4). cbn [fst snd] in *. fold k in Hj.
      rewrite (@aget_nth _ lcnt j 0%Z) by lia. cbn [bind]. rewrite (@amod_nth _ cs j _ 0%Z) by lia. cbn [bind].
      rewrite (@aget_nth _ len j (nzero N)) by lia. cbn [bind]. rewrite (@amod_nth _ es j _ (nzero N)) by lia. cbn [bind okp fst snd].
      rewrite !upd_length. splits; auto.
      + intros c Hc. rewrite nth_upd by lia. rewrite !A3 by lia. destruct (Nat.eqb_spec c j) as [->|].
        * rewrite Nat.ltb_irrefl. destruct (Nat.ltb_spec j (S j)); [reflexivity|lia].
        * destruct (Nat.ltb_spec c j), (Nat.ltb_spec c (S j)); auto; lia.
      + intros c Hc. rewrite nth_upd by lia. rewrite !A4 by lia. destruct (Nat.eqb_spec c j) as [->|].
        * rewrite Nat.ltb_irrefl. destruct (Nat.ltb_spec j (S j)); [reflexivity|lia].
        * destruct (Nat.ltb_spec c j), (Nat.ltb_spec c (S j)); auto; lia. }
  intros (cs & es) (A1 & A2 & A3 & A4). cbn [fst snd] in *. splits; auto.
  - intros c Hc. rewrite A3 by auto. fold k. destruct (Nat.ltb_spec c k); [reflexivity|lia].
  - intros c Hc. rewrite A4 by auto. fold k. destruct (Nat.ltb_spec c k); [reflexivity|lia].
Qed.

(** energy of cluster [c] summed by one worker over its rows [s .. s+m) *)
Definition enw (cl : clusters) (A : list nat) (c s m : nat) : T :=
  fold_left (fun e r => if nth r A 0 =? c then nadd N e (snd (mnear cl r)) else e) (seq s m) (nzero N).
(** the workers' shares added up in worker order *)
Definition energy_of (cl : clusters) (A : list nat) (c : nat) : T :=
  fold_left (fun e sm => nadd N e (enw cl A c (fst sm) (snd sm))) (w_ranges ws) (nzero N).

Definition assigned (cl : clusters) (A : list nat) : Prop :=
  length A = n /\ forall r, r < n -> nth r A 0 < k /\ fst (mnear cl r) = Some (nth r A 0).

Lemma map_Some_of (l : list (option nat)) : Forall (fun x => exists a, x = Some a) l -> exists A, l = map Some A.
Proof.
  clear V Hws. induction 1 as [|x l (a & ->) _ (A & ->)]; [exists []; reflexivity|]. exists (a :: A). reflexivity.
Qed.

Lemma sched_ranges_len : length (w_ranges ws) = length ws.
Proof. clear V Hws. unfold w_ranges. apply map_length. Qed.

Definition trA (asg0 : list (option nat)) (A : list nat) s m := triples (@None nat) asg0 (map Some A) s m.

Lemma globals_outer cl asg0 A : length A = n ->
  forall rs locs, Forall2 (fun sm l => PEM cl l (trA asg0 A (fst sm) (snd sm))) rs locs ->
  (forall sm, In sm rs -> fst sm + snd sm <= n) ->
  forall counts energy ch, length counts = k -> length energy = k ->
  okp (for_each locs (fun (l : mlocal N) (st : list Z * list T * nat) =>
      let '(counts, energy, ch) := st in
      let '(lcnt, len, lch) := l in
      let* ce := loop (g_k g) (fun c (ce : list Z * list T) =>
        let* n := aget lcnt c in
        let* counts := amod (fst ce) c (fun x => x + n)%Z in
        let* e := aget len c in
        let* energy := amod (snd ce) c (fun x => nadd N x e) in
        Ok (counts, energy)) (counts, energy) in
      Ok (ce, ch + lch)) (counts, energy, ch))
   (fun st => length (fst (fst st)) = k /\ length (snd (fst st)) = k /\
     (forall c, c < k -> nth c (fst (fst st)) 0%Z =
        (nth c counts 0 + Z.of_nat (cntc c (concat (map (fun sm => trA asg0 A (fst sm) (snd sm)) rs))))%Z) /\
     (forall c, c < k -> nth c (snd (fst st)) (nzero N) =
        fold_left (fun e sm => nadd N e (enw cl A c (fst sm) (snd sm))) rs (nth c energy (nzero N))) /\
     snd st = ch + chg (concat (map (fun sm => trA asg0 A (fst sm) (snd sm)) rs))).
Proof.
  intros LA. clear V Hws. induction 1 as [|sm l rs locs HP HF IH]; intros Hrs counts energy ch L1 L2; cbn [for_each].
  - cbn [okp fst snd map concat fold_left]. splits; auto. intros c Hc. cbn. lia.
  - destruct l as ((lcnt & len) & lch). destruct HP as (P1 & P2 & P3 & P4 & P5 & P6). cbn [fst snd] in P1, P2, P3, P5, P6.
    apply okp_bind. apply okp_bind. eapply okp_mono; [apply (@globals_inner lcnt len counts energy); auto|].
    intros (counts' & energy') (G1 & G2 & G3 & G4). cbn [fst snd okp] in *.
    eapply okp_mono; [apply IH; auto; intros; apply Hrs; right; auto|].
    intros ((c2 & e2) & ch2) (K1 & K2 & K3 & K4 & K5). cbn [fst snd] in *. splits; auto.
    + intros c Hc. rewrite K3, G3, P5 by auto. cbn [map concat]. unfold cntc. rewrite filter_app, app_length. lia.
    + intros c Hc. rewrite K4, G4 by auto. cbn [fold_left]. f_equal. f_equal. rewrite P6 by auto.
      unfold enc, enw, trA, triples. specialize (Hrs sm (or_introl eq_refl)). revert Hrs. generalize (nzero N). generalize (fst sm) as s. generalize (snd sm) as m. clear - LA. induction m as [|m IHm]; intros s z Hs; [reflexivity|].
      cbn [seq map fold_left fst snd]. rewrite (nth_indep _ None (Some 0)) by (rewrite map_length; lia).
      rewrite map_nth. cbn [id_eqb]. apply (IHm (S s)). lia.
    + rewrite K5, P3. cbn [map concat]. unfold chg. rewrite filter_app, app_length. lia.
Qed.

Definition EMpost (s s' : mst N) : Prop :=
  m_cl s' = m_cl s /\ m_flag s' = m_flag s /\ minv s' /\
  exists A, assigned (m_cl s) A /\ m_asg s' = map Some A /\ m_memb s' = memb_of A /\
    (forall c, c < k -> nth c (m_counts s') 0%Z = Z.of_nat (count_eq c A)) /\
    (forall c, c < k -> nth c (m_energy s') (nzero N) = energy_of (m_cl s) A c) /\
    m_changed s' = chg (trA (m_asg s) A 0 n).

Definition unreachable_row (cl : clusters) : Prop := exists r, r < n /\ fst (mnear cl r) = None.

Lemma chg_le tr : chg tr <= length tr.
Proof. unfold chg. induction tr as [|x tr IH]; cbn; [lia|]. destruct (negb _); cbn; lia. Qed.

Lemma cntc_trA asg0 A c : length A = n -> cntc c (trA asg0 A 0 n) = count_eq c A.
Proof.
  clear V Hws. intros <-. unfold cntc, trA, triples, count_eq.
  induction A as [|a A IH] using rev_ind; [reflexivity|].
  rewrite app_length. cbn [length]. rewrite Nat.add_1_r, seq_S, map_app, !filter_app, !app_length. cbn [plus map filter].
  rewrite map_app. cbn [map]. rewrite app_nth2 by (rewrite map_length; lia). rewrite map_length, Nat.sub_diag. cbn [nth snd id_eqb].
  rewrite <- IH. f_equal.
  - replace (map (fun r => (r, nth r asg0 None, nth r (map Some A ++ [Some a]) None)) (seq 0 (length A)))
      with (map (fun r => (r, nth r asg0 None, nth r (map Some A) None)) (seq 0 (length A))); [reflexivity|].
    apply map_ext_in. intros r Hr. apply in_seq in Hr. rewrite app_nth1 by (rewrite map_length; lia). reflexivity.
  - destruct (a =? c); reflexivity.
Qed.

Lemma mEM_round_ok sched s : minv s -> m_memb s = repeat [] k -> complete (w_ranges ws) sched ->
  okab (mEM_round g ws sched s) (EMpost s) (unreachable_row (m_cl s)).
Proof.
  intros (Sh & La & Lc & Le & Lm & Hd) Hmemb Hcs. unfold mEM_round. apply okab_bind.
  pose proof (proj1 Hws) as Ht.
  eapply okab_mono.
  { apply (@par_run_okab _ _ (@None nat) (mEM_row g ws (m_cl s)) (w_ranges ws) (m_asg s) (map (fun _ => m_local0 N (g_k g)) ws))
      with (P := fun t l tr => PEM (m_cl s) l tr); auto.
    - fold n in La. rewrite La. exact Ht.
    - rewrite map_length, sched_ranges_len. reflexivity.
    - intros t l0 El. rewrite nth_error_map in El. destruct (nth_error ws t); [|discriminate]. injection El as <-.
      unfold PEM, m_local0. cbn [fst snd]. rewrite !repeat_length. splits; auto.
      + intros c Hc. rewrite nth_repeat. reflexivity.
      + intros c Hc. rewrite nth_repeat. reflexivity.
    - intros t s0 m r l tr Er Hr Hsr Htr HP.
      destruct (ranges_nth Er) as (w & Ew & -> & ->).
      apply (@mEM_row_ok (m_cl s) t w r l tr Sh Ew Hr HP). }
  intros (locs & asg') (Ll & Las & HL). cbn [fst snd] in *.
  assert (Hn : length asg' = n) by congruence.
  (* every row has been given a cluster *)
  assert (HR : forall r, r < n -> exists a, nth r asg' None = Some a /\ a < k /\ fst (mnear (m_cl s) r) = Some a).
  { intros r Hr. destruct (@ntiles_cover _ _ _ Ht r ltac:(fold n; lia)) as (t & s0 & m & Er & H1 & H2).
    destruct (HL t s0 m Er) as (l & _ & (_ & _ & _ & HF & _)).
    rewrite Forall_forall in HF. specialize (HF (r, nth r (m_asg s) None, nth r asg' None)).
    destruct HF as (a & Ea & Ha & Hna).
    { unfold triples. apply in_map_iff. exists r. split; auto. apply in_seq. lia. }
    cbn [fst snd] in *. eauto. }
  destruct (@map_Some_of asg') as (A & EA).
  { apply Forall_forall. intros x Hx. apply (In_nth _ _ None) in Hx. destruct Hx as (r & Hr & <-).
    destruct (HR r ltac:(lia)) as (a & E & _). eauto. }
  assert (LA : length A = n) by (rewrite EA, map_length in Hn; exact Hn).
  assert (HA : assigned (m_cl s) A).
  { split; auto. intros r Hr. destruct (HR r Hr) as (a & E & H1 & H2).
    rewrite EA, (nth_indep _ None (Some 0)) in E by (rewrite map_length; lia). rewrite map_nth in E. injection E as ->. auto. }
  subst asg'. apply okp_okab. unfold compute_globals. cbn [m_asg m_memb m_counts m_energy m_cl m_flag].
  rewrite Hmemb, populate_ok by exact LA. cbn [bind].
  assert (HF2 : Forall2 (fun sm l => PEM (m_cl s) l (trA (m_asg s) A (fst sm) (snd sm))) (w_ranges ws) locs).
  { apply Forall2_of_nth; [congruence|]. intros t (s0 & m) l E1 E2.
    destruct (HL t s0 m E1) as (l' & E2' & HP). rewrite E2 in E2'. injection E2' as <-. exact HP. }
  assert (HB : forall sm, In sm (w_ranges ws) -> fst sm + snd sm <= n).
  { intros (s0 & m) Hin. apply In_nth_error in Hin. destruct Hin as (t & Et). apply (@ntiles_in _ _ _ Ht t) in Et. cbn. lia. }
  apply okp_bind. eapply okp_mono.
  { apply (@globals_outer (m_cl s) (m_asg s) A LA (w_ranges ws) locs HF2 HB); rewrite map_length; auto. }
  intros ((counts & energy) & ch) (K1 & K2 & K3 & K4 & K5). cbn [fst snd] in *.
  assert (Hcat : concat (map (fun sm => trA (m_asg s) A (fst sm) (snd sm)) (w_ranges ws)) = trA (m_asg s) A 0 n).
  { unfold trA. rewrite (@triples_concat _ None (m_asg s) (map Some A) (w_ranges ws) 0 n Ht), Nat.sub_0_r. reflexivity. }
  rewrite Hcat in K3, K5. cbn [plus] in K5.
  assert (Hch : ch <= g_nrow g).
  { rewrite K5. etransitivity; [apply chg_le|]. unfold trA. rewrite triples_length. reflexivity. }
  unfold assert_. apply Nat.leb_le in Hch. rewrite Hch. cbn [bind okp].
  unfold EMpost, minv. cbn [m_cl m_asg m_counts m_energy m_changed m_memb m_flag]. splits; auto.
  - unfold memb_of. rewrite map_length, seq_length. reflexivity.
  - exists A. splits; auto.
    + intros c Hc. rewrite K3 by auto.
      rewrite cntc_trA by auto. rewrite map_const_repeat, nth_repeat. lia.
    + intros c Hc. rewrite K4 by auto. unfold energy_of. f_equal. rewrite map_const_repeat, nth_repeat. reflexivity.
Qed.
End MP.
