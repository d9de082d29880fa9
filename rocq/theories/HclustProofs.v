(** Proofs about the parallel step of hierarchical clustering. *)
From Verif Require Import Base Num DistModel ClustersModel ClustersView ClustersProofs MatLemmas
  PartitionModel ParModel KmeansModel ParProofs NearProofs KmeansProofs UpdateProofs Spec.
From Verif Require Import ContainersModel HclustModel.
Set Implicit Arguments.
Unset Strict Implicit.

(* ------------------------------------------------------------------ *)
(** * Maps *)
Section Hm.
Variable A : Type.
Implicit Types m : list (option A).

Definition hget m i : option A := match nth_error m i with Some (Some x) => Some x | _ => None end.

Lemma hm_ref_ok m i x : hget m i = Some x -> hm_ref m i = Ok x.
Proof. unfold hget, hm_ref. destruct (nth_error m i) as [[y|]|]; congruence. Qed.

Lemma hget_lt m i x : hget m i = Some x -> i < length m.
Proof. unfold hget. destruct (nth_error m i) eqn:E; [|discriminate]. intros _. apply nth_error_Some. congruence. Qed.

Lemma hget_put m i v j : hget (hm_put m i v) j = if j =? i then Some v else hget m j.
Proof.
  unfold hget, hm_put. destruct (Nat.ltb_spec i (length m)) as [H|H].
  - rewrite nth_error_upd. destruct (j =? i); auto. apply Nat.ltb_lt in H. rewrite H. reflexivity.
  - destruct (Nat.eqb_spec j i) as [E|E].
    + subst j. rewrite nth_error_app2 by lia. rewrite nth_error_app2; rewrite repeat_length; [|lia].
      rewrite Nat.sub_diag. reflexivity.
    + destruct (Nat.lt_ge_cases j (length m)) as [Hj|Hj].
      * rewrite nth_error_app1 by lia. reflexivity.
      * rewrite nth_error_app2 by lia.
        replace (nth_error m j) with (@None (option A)) by (symmetry; apply nth_error_None; lia).
        destruct (Nat.lt_ge_cases (j - length m) (i - length m)) as [H1|H1].
        -- rewrite nth_error_app1 by (rewrite repeat_length; lia).
           rewrite (nth_error_nth' _ None) by (rewrite repeat_length; lia).
           rewrite nth_repeat. reflexivity.
        -- rewrite nth_error_app2 by (rewrite repeat_length; lia). rewrite repeat_length.
           destruct (j - length m - (i - length m)) as [|[|]] eqn:E2; [lia|reflexivity|reflexivity].
Qed.

Lemma hm_put_length m i v : i < length m -> length (hm_put m i v) = length m.
Proof. intros H. unfold hm_put. apply Nat.ltb_lt in H. rewrite H. apply upd_length. Qed.

Lemma hget_none_upd m i j : hget (upd m i None) j = if j =? i then None else hget m j.
Proof.
  unfold hget. rewrite nth_error_upd. destruct (j =? i); auto. destruct (i <? length m); reflexivity.
Qed.

Lemma keys_from_in : forall m o i, In i (hm_keys_from o m) <-> o <= i /\ exists x, hget m (i - o) = Some x.
Proof.
  induction m as [|[y|] m IH]; intros o i; cbn [hm_keys_from].
  - split; [intros []|]. intros (_ & x & H). unfold hget in H. destruct (i - o); discriminate.
  - cbn [In]. rewrite IH. destruct (Nat.eq_dec o i) as [->|Hne].
    + rewrite Nat.sub_diag. split; [|tauto]. intros _. split; auto. exists y. reflexivity.
    + replace (hget (Some y :: m) (i - o)) with (if o <? i then hget m (i - S o) else hget (Some y :: m) (i - o)).
      2:{ destruct (Nat.ltb_spec o i); auto. replace (i - o) with (S (i - S o)) by lia. reflexivity. }
      destruct (Nat.ltb_spec o i).
      * split; intros H0; [destruct H0 as [|(H1 & H2)]; [lia|]; split; [lia|auto]|right; split; [lia|tauto]].
      * split; [lia|]. intros (H1 & _). lia.
  - rewrite IH. destruct (Nat.eq_dec o i) as [->|Hne].
    + rewrite Nat.sub_diag. split; [lia|]. intros (_ & x & H). discriminate.
    + replace (hget (None :: m) (i - o)) with (if o <? i then hget m (i - S o) else hget (None :: m) (i - o)).
      2:{ destruct (Nat.ltb_spec o i); auto. replace (i - o) with (S (i - S o)) by lia. reflexivity. }
      destruct (Nat.ltb_spec o i).
      * split; intros (H1 & H2); split; auto; lia.
      * split; [lia|]. intros (H1 & _). lia.
Qed.

Lemma keys_in m i : In i (hm_keys m) <-> exists x, hget m i = Some x.
Proof. unfold hm_keys. rewrite keys_from_in, Nat.sub_0_r. intuition lia. Qed.

Lemma keys_nodup m : NoDup (hm_keys m).
Proof.
  unfold hm_keys. generalize 0. induction m as [|[y|] m IH]; intros o; cbn [hm_keys_from]; auto; constructor; auto.
  rewrite keys_from_in. lia.
Qed.

Lemma keyless_iff m : hm_keyless m = true <-> forall i, hget m i = None.
Proof.
  unfold hm_keyless. rewrite forallb_forall. split.
  - intros H i. unfold hget. destruct (nth_error m i) as [y|] eqn:E; auto.
    apply nth_error_In in E. apply H in E. destruct y; [discriminate|auto].
  - intros H x Hx. apply In_nth_error in Hx as (i & E). specialize (H i). unfold hget in H.
    rewrite E in H. destruct x; [discriminate|reflexivity].
Qed.
End Hm.

Lemma nc_add_nth m i v j : nth j (nc_add m i v) 0 = nth j m 0 + (if j =? i then v else 0).
Proof.
  unfold nc_add. destruct (Nat.ltb_spec i (length m)) as [H|H].
  - rewrite nth_upd by exact H. destruct (Nat.eqb_spec j i) as [->|]; lia.
  - destruct (Nat.lt_ge_cases j (length m)) as [Hj|Hj].
    + rewrite app_nth1 by lia. destruct (Nat.eqb_spec j i); lia.
    + rewrite app_nth2 by lia. rewrite (nth_overflow m) by lia.
      destruct (Nat.lt_ge_cases (j - length m) (i - length m)) as [H1|H1].
      * rewrite app_nth1 by (rewrite repeat_length; lia). rewrite nth_repeat.
        destruct (Nat.eqb_spec j i); lia.
      * rewrite app_nth2 by (rewrite repeat_length; lia). rewrite repeat_length.
        destruct (Nat.eqb_spec j i) as [->|].
        -- rewrite Nat.sub_diag. cbn. lia.
        -- destruct (j - length m - (i - length m)) as [|[|]] eqn:E; cbn; lia.
Qed.

(* ------------------------------------------------------------------ *)
(** * The step *)
Section Step.
Variable N : Num.
Notation T := (car N).
Notation clusters := (clusters N).
Variables (g : hcfg N) (ws : list (worker N)) (data : list T).
Let d := g_ncol g.
Let n := g_nrow g.
Hypothesis Hws : wok n d data ws.
Hypothesis Hdata : length data = n * d.

(** id of child 0 or 1 *)
Definition ch (h : hclu N) (j : nat) : nat := if j =? 0 then h_zero h else h_one h.

(** state invariant, as seen by an iteration; [M] ids are available *)
Record einv (M : nat) (s : hst N) : Prop := {
  e_asg : length (x_asg s) = n;
  e_part : length (x_part s) = n;
  e_act : length (x_act s) = M;
  e_hcl : length (x_hcl s) = M;
  e_counts : length (x_counts s) = M;
  e_live : forall p h, hget (x_hcl s) p = Some h ->
    p < M /\ nth p (x_act s) false = true /\ shaped 2 d (h_cl h) /\
    forall j, j < 2 -> ch h j < M /\ nth (ch h j) (x_act s) false = true /\
      hget (x_hcl s) (ch h j) = None;
  e_inj : forall p h p' h' j j', hget (x_hcl s) p = Some h -> hget (x_hcl s) p' = Some h' ->
    j < 2 -> j' < 2 -> ch h j = ch h' j' -> p = p' /\ j = j';
  e_rows : forall r, r < n -> nth r (x_asg s) 0 < M /\
    match hget (x_hcl s) (nth r (x_part s) 0) with
    | Some h => (nth r (x_asg s) 0 = nth r (x_part s) 0 /\ h_conv h = false) \/
                exists j, j < 2 /\ nth r (x_asg s) 0 = ch h j
    | None => nth r (x_asg s) 0 = nth r (x_part s) 0 /\ nth (nth r (x_asg s) 0) (x_act s) false = false
    end;
  e_conv : forall p h, hget (x_hcl s) p = Some h -> h_conv h = true ->
    forall j, j < 2 -> cel (h_cl h) j = ucel g ws data (x_asg s) (ch h j);
  e_cnt : forall i, i < M -> hget (x_hcl s) i = None -> nth i (x_counts s) 0%Z = Z.of_nat (count_eq i (x_asg s))
}.

(** the nearer of the two means *)
Definition near2 (h : hclu N) (r : nat) : option nat :=
  fst (near N (g_dt g) (rows 2 d (c_means (h_cl h))) (row data d r)).

(** where row [r] goes ([None]: the assertion fires) *)
Definition dest (s : hst N) (r : nat) : option nat :=
  let a := nth r (x_asg s) 0 in
  if nth a (x_act s) false then
    match hget (x_hcl s) (nth r (x_part s) 0) with
    | Some h => if h_conv h then Some a
                else option_map (ch h) (near2 h r)
    | None => None
    end
  else Some a.

Lemma near2_lt h r f : near2 h r = Some f -> f < 2.
Proof.
  clear Hws Hdata. intros E. unfold near2, near in E.
  assert (G : forall cs i best, (match fst best with Some c => c < i | None => True end) ->
     match fst (near_from N (g_dt g) (row data d r) i best cs) with Some c => c < i + length cs | None => True end).
  { induction cs as [|x cs IH]; intros i best Hb; cbn [near_from length].
    - rewrite Nat.add_0_r. exact Hb.
    - replace (i + S (length cs)) with (S i + length cs) by lia. apply IH.
      destruct (nltb N _ _); cbn [fst]; [lia|]. destruct (fst best); auto. }
  specialize (G (rows 2 d (c_means (h_cl h))) 0 (None, nmax N) I). rewrite E, rows_length in G. lia.
Qed.

Lemma worker_in' t w : nth_error ws t = Some w -> w_start w + w_nrow w <= n.
Proof.
  intros H. destruct Hws as (Ht & _).
  apply (@ntiles_in _ _ _ Ht t). unfold w_ranges. rewrite nth_error_map, H. reflexivity.
Qed.

(** what the worker-local containers hold after rows [o .. o+length A-1] got the
    ids [A] *)
Definition lholds (s : hst N) (o : nat) (A : list nat) (m : list (option clusters)) : Prop :=
  forall p, match hget (x_hcl s) p with
  | Some h => if h_conv h then hget m p = None
      else exists c, hget m p = Some c /\ shaped 2 d c /\
        forall j, j < 2 -> cel c j = (csum N d (ch h j) (xas g data o A), ccnt N (ch h j) (xas g data o A), false)
  | None => hget m p = None
  end.

(** rows of partition [p] among [o .. o+k-1] whose id changes *)
Definition pdiff (p : nat) (part asg A : list nat) (o k : nat) : nat :=
  length (filter (fun i => (nth (o + i) part 0 =? p) && negb (nth i A 0 =? nth (o + i) asg 0)) (seq 0 k)).

Lemma pdiff_S p part asg A a o k : length A = k ->
  pdiff p part asg (A ++ [a]) o (S k) = pdiff p part asg A o k +
    (if (nth (o + k) part 0 =? p) && negb (a =? nth (o + k) asg 0) then 1 else 0).
Proof.
  intros L. unfold pdiff. rewrite seq_S, filter_app, app_length. cbn [plus filter].
  rewrite app_nth2 by lia. rewrite L, Nat.sub_diag. cbn [nth]. f_equal.
  - f_equal. apply filter_ext_in. intros i Hi. apply in_seq in Hi. rewrite app_nth1 by lia. reflexivity.
  - destruct (_ && _); reflexivity.
Qed.

Lemma H_EM_row_ok M s t w r l o A : einv M s -> nth_error ws t = Some w -> r < w_nrow w -> o = w_start w ->
  length A = r -> length (fst l) = M -> lholds s o A (fst l) ->
  let R := o + r in
  match dest s R with
  | Some a' => a' < M /\ exists m', H_EM_row g ws (x_part s) (x_act s) (x_hcl s) t r l (nth R (x_asg s) 0)
        = Ok ((m', if a' =? nth R (x_asg s) 0 then snd l else nc_add (snd l) (nth R (x_part s) 0) 1), a') /\
      length m' = M /\ lholds s o (A ++ [a']) m'
  | None => H_EM_row g ws (x_part s) (x_act s) (x_hcl s) t r l (nth R (x_asg s) 0) = Err Abort
  end.
Proof.
  intros I Hw Hr -> LA Lm Hl R.
  pose proof (worker_in' Hw) as Hin. assert (HR : R < n) by (unfold R; lia).
  destruct (e_rows I HR) as (Ha & Hrow).
  unfold H_EM_row. rewrite (proj2 (aget_ok ws t w) Hw). cbn [bind].
  rewrite (aget_nth (x_part s) (i := w_start w + r) 0) by (rewrite (e_part I); exact HR). cbn [bind].
  rewrite (aget_nth (x_act s) (i := nth R (x_asg s) 0) false) by (rewrite (e_act I); exact Ha). cbn [bind].
  fold R. unfold dest. set (a := nth R (x_asg s) 0) in *. set (p := nth R (x_part s) 0) in *.
  (* keeping the containers when the row keeps an id no unconverged child has *)
  assert (Keep : (forall p' h' j', hget (x_hcl s) p' = Some h' -> h_conv h' = false -> j' < 2 -> ch h' j' <> a) ->
     lholds s (w_start w) (A ++ [a]) (fst l)).
  { intros Hne p'. specialize (Hl p'). destruct (hget (x_hcl s) p') as [h'|] eqn:E'; [|exact Hl].
    destruct (h_conv h') eqn:Ec; [exact Hl|]. destruct Hl as (c & Hc & Hsh & Hcel). exists c. splits; auto.
    intros j Hj. rewrite Hcel by exact Hj. rewrite xas_snoc, csum_snoc, ccnt_snoc.
    pose proof (Hne p' h' j E' Ec Hj) as Hx.
    destruct (Nat.eqb_spec a (ch h' j)); [congruence|]. rewrite Z.add_0_r. reflexivity. }
  destruct (nth a (x_act s) false) eqn:Eact; cbn [negb].
  2:{ split; [exact Ha|]. exists (fst l). rewrite Nat.eqb_refl. splits; auto.
      - destruct l; reflexivity.
      - apply Keep. intros p' h' j' E' Ec Hj Hx. destruct (e_live I E') as (_ & _ & _ & Hk).
        destruct (Hk j' Hj) as (_ & Hk' & _). rewrite Hx in Hk'. congruence. }
  destruct (hget (x_hcl s) p) as [h|] eqn:Eh.
  2:{ destruct Hrow as (_ & Hrow). congruence. }
  rewrite (hm_ref_ok Eh). cbn [bind].
  destruct (h_conv h) eqn:Ec.
  { split; [exact Ha|]. exists (fst l). rewrite Nat.eqb_refl. splits; auto.
    - destruct l; reflexivity.
    - apply Keep. intros p' h' j' E' Ec' Hj Hx. destruct Hrow as [(_ & Hrow)|(j & Hj0 & Hrow)]; [congruence|].
      rewrite Hrow in Hx. destruct (e_inj I E' Eh Hj Hj0 Hx) as (-> & _). congruence. }
  destruct (e_live I Eh) as (Hp & _ & Hsh & Hk).
  pose proof Hsh as (Hk2 & Hd2 & Hm2 & _).
  pose proof (proj2 Hws w r (nth_error_In _ _ Hw) Hr) as Hdrow.
  assert (Lrow : length (row data d R) = d) by (apply (@row_length _ data d _ n); auto).
  fold d. rewrite (@find_nearest_ok N (g_dt g) _ (row data d R) (c_means (h_cl h)) d 2)
    by (auto; rewrite Hm2; congruence).
  cbn [bind]. unfold option_map. fold (near2 h R). unfold near2 in *.
  destruct (fst (near N (g_dt g) (rows 2 d (c_means (h_cl h))) (row data d R))) as [f|] eqn:En; [|reflexivity].
  assert (Hf : f < 2) by (apply (@near2_lt h R f); exact En).
  destruct (Hk f Hf) as (Hcf & _). split; [exact Hcf|].
  pose proof (Hl p) as Hlp. rewrite Eh, Ec in Hlp. destruct Hlp as (c & Hc & Hcsh & Hcel).
  rewrite (hm_ref_ok Hc). cbn [bind].
  destruct (@add_member_ok N 2 d c (wrow w d r) (row data d R) f Hcsh Hf Lrow Hdrow) as (lc & Hadd & Hs' & Hc').
  rewrite Hadd. cbn [bind]. fold (ch h f). exists (hm_put (fst l) p lc). splits; auto.
  - apply hget_lt in Hc. rewrite hm_put_length; auto.
  - intros p'. rewrite hget_put. pose proof (Hl p') as Hlp'. destruct (Nat.eqb_spec p' p) as [->|Hpp].
    + rewrite Eh, Ec. exists lc. splits; auto. intros j Hj. rewrite Hc' by exact Hj.
      rewrite xas_snoc, csum_snoc, ccnt_snoc, LA. fold R.
      destruct (Nat.eqb_spec j f) as [->|Hjf].
      * rewrite Nat.eqb_refl. pose proof (Hcel f Hf) as E. unfold cel in E. injection E as -> -> ->. reflexivity.
      * destruct (Nat.eqb_spec (ch h f) (ch h j)) as [Ex|].
        -- destruct (e_inj I Eh Eh Hf Hj Ex) as (_ & Ey). congruence.
        -- rewrite Hcel by exact Hj. rewrite Z.add_0_r. reflexivity.
    + destruct (hget (x_hcl s) p') as [h'|] eqn:Eh'; [|exact Hlp'].
      destruct (h_conv h') eqn:Ec'; [exact Hlp'|]. destruct Hlp' as (c' & Hg' & Hsh' & Hcel'). exists c'. splits; auto.
      intros j Hj. rewrite Hcel' by exact Hj. rewrite xas_snoc, csum_snoc, ccnt_snoc.
      destruct (Nat.eqb_spec (ch h f) (ch h' j)) as [Ex|].
      * destruct (e_inj I Eh Eh' Hf Hj Ex) as (Ey & _). congruence.
      * rewrite Z.add_0_r. reflexivity.
Qed.

Lemma lholds0 M s o : einv M s -> lholds s o [] (fst (h_local0 g (x_hcl s))).
Proof.
  intros I p. unfold h_local0; cbn [fst].
  unfold hget. rewrite nth_error_map. destruct (nth_error (x_hcl s) p) as [[h|]|]; cbn [option_map]; auto.
  destruct (h_conv h); auto. exists (clusters_create N 2 d). 
  split; [|split; [apply shaped_create|]].
  - f_equal. apply (@clear_create N 2 d _ (@shaped_create N 2 d)).
  - intros j Hj. rewrite cel_create by exact Hj. reflexivity.
Qed.

Lemma seq_rows_H M s t w l0 : einv M s -> nth_error ws t = Some w -> l0 = h_local0 g (x_hcl s) ->
  forall k, k <= w_nrow w ->
  match seq_rows (H_EM_row g ws (x_part s) (x_act s) (x_hcl s)) t 0 l0 (slice (x_asg s) (w_start w) k) with
  | Ok (l, A) => length A = k /\
      (forall i, i < k -> dest s (w_start w + i) = Some (nth i A 0) /\ nth i A 0 < M) /\
      length (fst l) = M /\ lholds s (w_start w) A (fst l) /\
      forall p, nth p (snd l) 0 = pdiff p (x_part s) (x_asg s) A (w_start w) k
  | Err e => e = Abort /\ exists i, i < k /\ dest s (w_start w + i) = None
  end.
Proof.
  intros I Hw ->. pose proof (worker_in' Hw) as Hin.
  induction k as [|k IH]; intros Hk.
  - unfold slice; cbn [firstn seq_rows]. splits; auto.
    + intros; lia.
    + unfold h_local0; cbn [fst]. rewrite map_length. apply (e_hcl I).
    + eapply lholds0; eauto.
    + intros p. unfold pdiff; cbn. destruct p; reflexivity.
  - assert (Ea : nth_error (x_asg s) (w_start w + k) = Some (nth (w_start w + k) (x_asg s) 0))
      by (apply nth_error_nth'; rewrite (e_asg I); lia).
    rewrite (slice_S_last _ (w_start w) k Ea), seq_rows_app.
    specialize (IH ltac:(lia)).
    destruct (seq_rows _ t 0 _ (slice (x_asg s) (w_start w) k)) as [[l A]|e]; cbn [bind].
    2:{ destruct IH as (-> & i & Hi & E). split; auto. exists i. split; [lia|exact E]. }
    destruct IH as (LA & HA & Lm & Hl & Hp). cbn [fst snd].
    assert (Ls : length (slice (x_asg s) (w_start w) k) = k) by (apply slice_length; rewrite (e_asg I); lia).
    rewrite Ls. cbn [seq_rows plus].
    pose proof (@H_EM_row_ok M s t w k l (w_start w) A I Hw ltac:(lia) eq_refl LA Lm Hl) as HE. cbv zeta in HE.
    destruct (dest s (w_start w + k)) as [a'|] eqn:Ed.
    2:{ rewrite HE. cbn [bind]. split; auto. exists k. split; [lia|exact Ed]. }
    destruct HE as (Hb & m' & HE & Lm' & Hl'). rewrite HE. cbn [bind fst snd].
    rewrite app_length. cbn [length]. splits; auto; try lia.
    + intros i Hi. destruct (Nat.eq_dec i k) as [->|].
      * rewrite app_nth2 by lia. rewrite LA, Nat.sub_diag. cbn [nth]. auto.
      * rewrite app_nth1 by lia. apply HA. lia.
    + intros p. rewrite pdiff_S by exact LA. rewrite <- Hp.
      destruct (Nat.eqb_spec a' (nth (w_start w + k) (x_asg s) 0)); cbn [negb].
      * rewrite andb_false_r. lia.
      * rewrite andb_true_r, nc_add_nth, (Nat.eqb_sym p). reflexivity.
Qed.

(** rows of partition [p] whose id differs in [A] *)
Definition pchanged (p : nat) (s : hst N) (A : list nat) (o k : nat) : nat :=
  length (filter (fun r => (nth r (x_part s) 0 =? p) && negb (nth r A 0 =? nth r (x_asg s) 0)) (seq o k)).

Lemma pdiff_pchanged p s A o k : o + k <= length A ->
  pdiff p (x_part s) (x_asg s) (slice A o k) o k = pchanged p s A o k.
Proof.
  intros L. unfold pdiff, pchanged.
  assert (G : forall m a b, a + m <= k -> b = o + a ->
    length (filter (fun i => (nth (o + i) (x_part s) 0 =? p) && negb (nth i (slice A o k) 0 =? nth (o + i) (x_asg s) 0)) (seq a m))
    = length (filter (fun r => (nth r (x_part s) 0 =? p) && negb (nth r A 0 =? nth r (x_asg s) 0)) (seq b m))).
  { induction m as [|m IH]; intros a b Hk ->; [reflexivity|]. cbn [seq filter].
    assert (E : nth a (slice A o k) 0 = nth (o + a) A 0).
    { apply nth_error_nth. rewrite nth_error_slice. destruct (Nat.ltb_spec a k); [|lia]. apply nth_error_nth'. lia. }
    rewrite E. pose proof (IH (S a) (S (o + a)) ltac:(lia) ltac:(lia)) as E2.
    destruct (_ && _); cbn [length]; rewrite E2; reflexivity. }
  apply G; lia.
Qed.

Lemma owner r : r < n -> exists t w i, nth_error ws t = Some w /\ i < w_nrow w /\ r = w_start w + i.
Proof.
  intros Hr. destruct Hws as (Ht & _). revert Ht Hr. generalize n as hi.
  assert (Q : forall (l : list (worker N)) lo hi, ntiles lo hi (w_ranges l) -> lo <= r < hi -> exists t (w : worker N) i, nth_error l t = Some w /\ i < w_nrow w /\ r = w_start w + i).
  { induction l as [|w l IH]; intros lo hi Ht Hr; cbn [w_ranges map ntiles] in Ht; [lia|].
    destruct Ht as (Es & Ht). destruct (Nat.lt_ge_cases r (lo + w_nrow w)) as [Hlt|Hge].
    - exists 0, w, (r - w_start w). simpl. splits; auto; lia.
    - destruct (IH _ _ Ht ltac:(lia)) as (t & w' & i & E & Hi & Hi'). exists (S t), w', i. auto. }
  intros hi Ht Hr. apply (Q ws 0 hi Ht). lia.
Qed.

Lemma H_EM_round_ok M s sched : einv M s -> complete (w_ranges ws) sched ->
  match H_EM_round g ws sched s with
  | Ok (locs, A) => length A = n /\
      (forall r, r < n -> dest s r = Some (nth r A 0) /\ nth r A 0 < M) /\
      length locs = length ws /\
      (forall t w l, nth_error ws t = Some w -> nth_error locs t = Some l ->
         let A' := slice A (w_start w) (w_nrow w) in
         length (fst l) = M /\ lholds s (w_start w) A' (fst l) /\
         forall p, nth p (snd l) 0 = pchanged p s A (w_start w) (w_nrow w))
  | Err e => e = Abort /\ exists r, r < n /\ dest s r = None
  end.
Proof.
  intros I Hc. unfold H_EM_round.
  set (locs0 := map (fun _ => h_local0 g (x_hcl s)) ws).
  set (st := H_EM_row g ws (x_part s) (x_act s) (x_hcl s)).
  assert (Ht : ntiles 0 (length (x_asg s)) (w_ranges ws)) by (rewrite (e_asg I); apply Hws).
  assert (L0 : length locs0 = length (w_ranges ws)) by (unfold locs0, w_ranges; rewrite !map_length; reflexivity).
  assert (H0 : forall t l0, nth_error locs0 t = Some l0 -> l0 = h_local0 g (x_hcl s)).
  { intros t l0 E. apply nth_error_In in E. unfold locs0 in E. apply in_map_iff in E as (l & <- & Hin). reflexivity. }
  pose proof (@par_run_spec _ _ st (w_ranges ws) (x_asg s) locs0 Ht L0 sched Hc) as H.
  destruct (par_run st (w_ranges ws) sched (x_asg s) locs0) as [[locs A]|e].
  2:{ destruct H as (t & o & m & l0 & Er & E0 & Es).
      unfold w_ranges in Er. rewrite nth_error_map in Er. destruct (nth_error ws t) as [w|] eqn:Ew; [|discriminate].
      injection Er as <- <-. pose proof (worker_in' Ew).
      pose proof (@seq_rows_H M s t w l0 I Ew (H0 _ _ E0) (w_nrow w) ltac:(lia)) as HH.
      fold st in HH. rewrite Es in HH. destruct HH as (-> & i & Hi & E). split; auto. exists (w_start w + i). split; [lia|exact E]. }
  destruct H as (Hll & Hla & H).
  assert (LA : length A = n) by (rewrite Hla; apply (e_asg I)).
  assert (G : forall t w, nth_error ws t = Some w -> exists l, nth_error locs t = Some l /\
      let A' := slice A (w_start w) (w_nrow w) in
      (forall i, i < w_nrow w -> dest s (w_start w + i) = Some (nth i A' 0) /\ nth i A' 0 < M) /\
      length (fst l) = M /\ lholds s (w_start w) A' (fst l) /\
      forall p, nth p (snd l) 0 = pchanged p s A (w_start w) (w_nrow w)).
  { intros t w Ew. assert (Er : nth_error (w_ranges ws) t = Some (w_start w, w_nrow w))
      by (unfold w_ranges; rewrite nth_error_map, Ew; reflexivity).
    destruct (nth_error locs0 t) as [l0|] eqn:E0.
    2:{ apply nth_error_None in E0. assert (t < length ws) by (apply nth_error_Some; congruence).
        unfold w_ranges in L0. rewrite map_length in L0. lia. }
    destruct (H t _ _ _ Er E0) as (l & El & Es).
    pose proof (worker_in' Ew).
    pose proof (@seq_rows_H M s t w l0 I Ew (H0 _ _ E0) (w_nrow w) ltac:(lia)) as HH.
    fold st in HH. rewrite Es in HH. destruct HH as (LA' & HA & Lm & Hl & Hp). exists l. split; [exact El|].
    cbv zeta. splits; auto. intros p. rewrite Hp. apply pdiff_pchanged. lia. }
  splits; auto.
  - intros r Hr. destruct (owner Hr) as (t & w & i & Ew & Hi & ->).
    destruct (G t w Ew) as (l & _ & HA & _). cbv zeta in HA. destruct (HA i Hi) as (E1 & E2).
    pose proof (worker_in' Ew).
    assert (E : nth i (slice A (w_start w) (w_nrow w)) 0 = nth (w_start w + i) A 0).
    { apply nth_error_nth. rewrite nth_error_slice. destruct (Nat.ltb_spec i (w_nrow w)); [|lia]. apply nth_error_nth'. lia. }
    rewrite E in E1, E2. auto.
  - rewrite Hll. unfold w_ranges. apply map_length.
  - intros t w l Ew El. destruct (G t w Ew) as (l' & El' & HA & HB). rewrite El in El'. injection El' as <-.
    cbv zeta in *. tauto.
Qed.
End Step.
