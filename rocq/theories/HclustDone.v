(** Start and end of a run of hierarchical clustering. *)
From Coq Require Import Permutation.
From Verif Require Import Base Num DistModel ClustersModel ClustersView ClustersProofs MatLemmas
  PartitionModel ParModel KmeansModel ParProofs NearProofs KmeansProofs UpdateProofs RunProofs InitProofs Spec.
From Verif Require Import ContainersModel PropertiesIds HclustModel HclustProofs HclustUpdate HclustIter HclustSplit Okab HclustRun.
Set Implicit Arguments.
Unset Strict Implicit.

Section Done.
Variable N : Num.
Notation T := (car N).
Notation clusters := (clusters N).
Variables (g : hcfg N) (ws : list (worker N)) (data : list T).
Let d := g_ncol g.
Let n := g_nrow g.
Hypothesis V : valid_input g data.
Hypothesis Hws : wok n d data ws.
Let F := hclust_floor (g_k g).
Let M := 4 * F - 1.
Hypothesis Hk2 : 2 <= g_k g.
Hypothesis Hk30 : (Z.of_nat (g_k g) < 2 ^ 30)%Z.
(** what is known of output centroids, and the excess of the cluster count *)
Variable FP : list nat -> nat -> list T -> Prop.
Hypothesis FPu : forall asg i v, length v = d -> v = fst (fst (ucel g ws data asg i)) -> FP asg i v.
Variable e : nat.

(** what a finished run holds *)
Record hout (lo : nat) (s : hst N) : Prop := {
  o_asg : length (x_asg s) = n;
  o_keys : NoDup (map fst (x_final s));
  o_rows : forall r, r < n -> In (nth r (x_asg s) 0) (map fst (x_final s));
  o_cent : forall i v, In (i, v) (x_final s) -> length v = d /\ FP (x_asg s) i v;
  o_lc : length (x_counts s) = M;
  o_lt : forall i, In i (map fst (x_final s)) -> i < M;
  o_counts : forall i, i < M -> nth i (x_counts s) 0%Z = Z.of_nat (count_eq i (x_asg s));
  o_num : lo <= length (x_final s) /\ 2 * length (x_final s) <= 3 * F + 3
}.

(** whatever the number of clusters *)
Lemma complete_final_gen s : rinv g ws data M FP e s -> ready g ws data M s -> settled g s ->
  okp (complete_final g s) (fun s' => x_asg s' = x_asg s /\ x_counts s' = x_counts s /\
    Permutation (kids (x_hcl s) ++ finkeys s) (finkeys s') /\ fin_ok g FP (x_asg s) (x_final s')).
Proof.
  clear - FPu. intros R Rd St. pose proof Rd as (La & Lc & Cnt & Sh & Cel).
  pose proof (inv_nodup (r_ids R)) as ND. unfold all_ids in ND. apply nodup_app_r in ND.
  unfold complete_final.
  eapply okp_mono.
  { apply (@for_each_okp _ _ (fun rem s' => x_asg s' = x_asg s /\ x_counts s' = x_counts s /\ x_hcl s' = x_hcl s /\
      Permutation (kids (x_hcl s) ++ finkeys s) (flat_map (kp (x_hcl s)) rem ++ finkeys s') /\
      fin_ok g FP (x_asg s) (x_final s') /\ (forall p, In p rem -> In p (hm_keys (x_hcl s))))).
    - splits; auto. apply (r_fin R).
    - intros p t s1 (E1 & E2 & E3 & P & Fo & Hin). rewrite E3.
      assert (Hp := Hin p (or_introl eq_refl)). apply keys_in in Hp as (h & Hh).
      rewrite (hm_ref_ok Hh). cbn [bind okp]. sx.
      assert (Ek : flat_map (kp (x_hcl s)) (p :: t) = h_zero h :: h_one h :: flat_map (kp (x_hcl s)) t).
      { cbn [flat_map]. unfold kp at 1. rewrite Hh. reflexivity. }
      rewrite Ek in P. pose proof (Permutation_NoDup P ND) as ND1. cbn [app] in ND1.
      inversion ND1 as [|? ? N1 ND2]; subst. inversion ND2 as [|? ? N2 ND3]; subst. cbn [In] in N1. rewrite !in_app_iff in N1, N2.
      unfold finkeys in *.
      rewrite (@fc_set_new N (x_final s1) (h_zero h)) by tauto.
      rewrite fc_set_new by (rewrite map_app, in_app_iff; cbn [map fst In]; intuition congruence).
      splits; auto.
      + rewrite P. unfold finkeys; sx. rewrite !map_app. cbn [map fst]. permc.
      + assert (Hc : forall j, j < 2 -> length (slice (c_means (h_cl h)) (j * g_ncol g) (g_ncol g)) = d /\
            FP (x_asg s) (ch h j) (slice (c_means (h_cl h)) (j * g_ncol g) (g_ncol g))).
        { intros j Hj. pose proof (Cel p h j Hh Hj) as Q. unfold cel in Q. pose proof (f_equal (fun x => fst (fst x)) Q) as Q'. cbn [fst] in Q'.
          destruct (Sh p h Hh) as (En & Ec & Hwf). destruct Hwf as (W & _). 
          assert (Ls : length (slice (c_means (h_cl h)) (j * g_ncol g) (g_ncol g)) = d) by (apply slice_length; rewrite W, En, Ec; nia).
          split; [exact Ls|]. apply FPu; [exact Ls|]. rewrite <- Q'. unfold crow. rewrite Ec. reflexivity. }
        intros i v Hv. rewrite !in_app_iff in Hv. cbn [In] in Hv.
        destruct Hv as [[Hv|[Hv|[]]]|[Hv|[]]]; [apply Fo; exact Hv| |]; injection Hv as <- <-.
        * apply (Hc 0). lia.
        * apply (Hc 1). lia.
      + intros q Hq. apply Hin. right. exact Hq. }
  intros s' (E1 & E2 & _ & P & Fo & _). cbn [flat_map app] in P. auto.
Qed.

Lemma complete_final_ok lo s : done_ok g ws data FP e lo s -> okp (complete_final g s) (hout lo).
Proof.
  intros (R & Rd & St & Hn). eapply okp_mono; [apply (complete_final_gen R Rd St)|]. intros s' (E1 & E2 & P & Fo). pose proof Rd as (La & Lc & Cnt & _).
  pose proof (inv_nodup (r_ids R)) as ND. unfold all_ids in ND. apply nodup_app_r in ND.
  assert (Hlt : forall i, In i (map fst (x_final s')) -> i < M).
  { intros i Hi. apply (inv_lt (r_ids R) (r_max R)). unfold all_ids. rewrite in_app_iff. right.
    apply (Permutation_in _ (Permutation_sym P)). exact Hi. }
  constructor; rewrite ?E1, ?E2; auto.
  - apply (Permutation_NoDup P ND).
  - intros r Hr. apply (Permutation_in _ P). rewrite in_app_iff.
    destruct (hget (x_hcl s) (nth r (x_part s) 0)) as [h|] eqn:Eh.
    + left. destruct (St r h Hr Eh) as (j & Hj & ->). apply in_kids. eauto 6.
    + right. apply (r_rows R Hr Eh).
  - apply Permutation_length in P. rewrite app_length, kids_length in P. unfold finkeys in P. rewrite !map_length in P.
    unfold leaves2 in Hn. fold F in Hn. lia.
Qed.

(** the start *)
Lemma start_ok c : shaped 2 d c ->
  let s := mkHs (repeat 0 n) (repeat 0 n) (upd (upd (upd (repeat false M) 0 true) 1 true) 2 true)
    (hm_put (repeat None M) 0 (mkH c 1 2 false)) (repeat 0%Z M) (mkIdgen 2 []) 2%Z [] in
  rinv g ws data M FP 0 s.
Proof.
  clear - Hk2 Hk30.
  intros Sh s. destruct (floor_facts Hk2 Hk30) as (F2 & _ & F29 & _). fold F in F2, F29.
  set (h := mkH c 1 2 false) in *.
  assert (HM : 7 <= M) by (unfold M; lia).
  assert (Hn0 : forall i, hget (repeat (@None (hclu N)) M) i = None).
  { intros i. unfold hget. destruct (nth_error (repeat None M) i) as [y|] eqn:E; auto.
    apply nth_error_In, repeat_spec in E. subst. reflexivity. }
  assert (Hg : forall p x, hget (x_hcl s) p = Some x <-> In (p, x) [(0, h)]).
  { intros p x. cbn [s x_hcl]. rewrite hget_put, Hn0. cbn [In]. destruct (Nat.eqb_spec p 0) as [->|].
    - split; [intros [= <-]; auto|intros [X|[]]; injection X as <-; auto].
    - split; [discriminate|intros [X|[]]; congruence]. }
  destruct (@keys_perm_list N (x_hcl s) [(0, h)] ltac:(repeat constructor; cbn; tauto) Hg) as (Pk & Pd).
  cbn [map fst] in Pk. unfold nkids in Pd. cbn [flat_map snd pair_of h h_zero h_one app] in Pd.
  assert (Pall : Permutation [0; 1; 2] (all_ids s)).
  { unfold all_ids. cbn [finkeys s x_final map]. rewrite Pk, Pd. reflexivity. }
  assert (Hact : forall i, nth i (x_act s) false = true <-> In i [0; 1; 2]).
  { intros i. cbn [s x_act]. rewrite !nth_upd by (rewrite ?upd_length, repeat_length; lia). rewrite nth_repeat.
    cbn [In]. destruct (Nat.eqb_spec i 2); [|destruct (Nat.eqb_spec i 1); [|destruct (Nat.eqb_spec i 0)]];
      split; intros; try discriminate; try reflexivity; try lia. }
  assert (H0 : hget (x_hcl s) 0 = Some h) by (apply Hg; left; reflexivity).
  assert (Hrow : forall r, nth r (repeat 0 n) 0 = 0) by (intros r; apply nth_repeat).
  constructor.
  - constructor; cbn [s x_asg x_part x_act x_counts].
    + apply repeat_length.
    + apply repeat_length.
    + rewrite !upd_length. apply repeat_length.
    + cbn [s x_hcl]. rewrite hm_put_length; rewrite repeat_length; lia.
    + apply repeat_length.
    + intros p x Hp. apply Hg in Hp. destruct Hp as [Hp|[]]. injection Hp as <- <-. splits; auto; try lia.
      * apply Hact. cbn; auto.
      * intros j Hj. assert (Hc : ch h j = 1 \/ ch h j = 2) by (destruct j as [|[|]]; cbn; auto; lia). splits.
        -- lia.
        -- apply Hact. cbn [In]. lia.
        -- destruct (hget (x_hcl s) (ch h j)) as [y|] eqn:E; auto. apply Hg in E. destruct E as [E|[]]. injection E as E _. lia.
    + intros p x p' x' j j' Hp Hp' Hj Hj'. apply Hg in Hp. apply Hg in Hp'. destruct Hp as [Hp|[]], Hp' as [Hp'|[]].
      injection Hp as <- <-. injection Hp' as <- <-. intros E. split; auto. destruct j as [|[|]], j' as [|[|]]; cbn in E; lia.
    + intros r Hr. rewrite Hrow. split; [lia|]. change (hm_put (repeat None M) 0 h) with (x_hcl s). rewrite H0. left. auto.
    + intros p x Hp Hc. apply Hg in Hp. destruct Hp as [Hp|[]]. injection Hp as <- <-. discriminate.
    + intros i Hi Hx. rewrite nth_repeat. rewrite count_eq_zero; [reflexivity|]. rewrite repeat_length. intros r Hr E.
      rewrite Hrow in E. subst i. rewrite H0 in Hx. discriminate.
  - cbn [s x_ider]. eapply inv_perm_nat; [exact Pall|]. unfold inv; cbn. splits; try lia.
    repeat constructor; cbn; lia.
  - cbn [s x_ider id_max]. lia.
  - intros i Hi. rewrite Hact. rewrite in_app_iff. cbn [In]. split.
    + intros [<-|[<-|[<-|[]]]]; [left; apply (Permutation_in _ (Permutation_sym Pk)); cbn; auto|right; apply (Permutation_in _ (Permutation_sym Pd)); cbn; auto..].
    + intros [X|X]; [apply (Permutation_in _ Pk) in X|apply (Permutation_in _ Pd) in X]; cbn [In] in X; tauto.
  - intros i v [].
  - intros r Hr. cbn [s x_part x_asg]. rewrite Hrow. change (hm_put (repeat None M) 0 h) with (x_hcl s). rewrite H0. discriminate.
  - exists 1. rewrite <- (Permutation_length Pall), (Permutation_length Pk). cbn [s x_curr x_final length].
    split; [reflexivity|]. unfold rw. destruct (in_dec Nat.eq_dec 0 (hm_keys (x_hcl s))) as [_|X]; [lia|]. destruct X. apply keys_in. eauto.
  - cbn [s x_curr]. lia.
Qed.

(** requirements on the starting points *)
Definition h_init_ok (it : init_t) (centers : option (list T)) (dr : nat -> nat) : Prop :=
  match centers with Some m => 2 * d <= length m | None => True end /\
  match it with
  | FORGY => dr 0 < n /\ dr 1 < n
  | NONE => True
  | _ => False
  end.

Definition h_seed (it : init_t) (centers : option (list T)) (dr : nat -> nat) (j : nat) : list T :=
  match it, centers with
  | FORGY, _ => row data d (dr j)
  | _, Some m => row m d j
  | _, None => repeat (nzero N) d
  end.

Lemma create_init_ok it centers dr : h_init_ok it centers dr ->
  exists s0 s c, h_coordinator_create g centers = Ok s0 /\ run_hinit g it data dr s0 = Ok s /\
    shaped 2 d c /\ (forall j, j < 2 -> crow c j = h_seed it centers dr j) /\
    s = mkHs (repeat 0 n) (repeat 0 n) (upd (upd (upd (repeat false M) 0 true) 1 true) 2 true)
      (hm_put (repeat None M) 0 (mkH c 1 2 false)) (repeat 0%Z M) (mkIdgen 2 []) 2%Z [].
Proof.
  clear - V Hk2 Hk30. intros (Hc & Hi). destruct (floor_facts Hk2 Hk30) as (F2 & _ & F29 & Fc). fold F in F2, F29, Fc.
  assert (HM : 7 <= M) by (unfold M; lia). pose proof (max_hnodes Hk2 Hk30) as Hmx. fold F in Hmx. fold M in Hmx.
  assert (Hk1 : 1 <= h_k g) by (unfold h_k; fold F; destruct (F / 2); lia).
  unfold h_coordinator_create.
  destruct (Nat.leb_spec 1 (h_k g)) as [_|X]; [|lia]. cbn [assert_ bind]. rewrite Hmx. cbn [bind]. rewrite Nat2Z.id.
  unfold activate at 1. sx. rewrite aset_ok by (rewrite repeat_length; lia). cbn [bind]. 
  assert (Hcl : exists h, (match centers with
            | Some m => let* c := clusters_create_means N 2 (g_ncol g) (m, 0) in Ok (mkH c 0 0 false)
            | None => Ok (h_create N (g_ncol g) 0 0)
            end) = Ok h /\ h_conv h = false /\ shaped 2 d (h_cl h) /\
            forall j, j < 2 -> crow (h_cl h) j = match centers with Some m => row m d j | None => repeat (nzero N) d end).
  { destruct centers as [m|].
    - rewrite (@create_means_ok N 2 (g_ncol g) (m, 0) (firstn (2 * d) m)); [|cbn [fst snd]; fold d; lia|reflexivity].
      cbn [bind]. eexists. split; [reflexivity|]. cbn [h_conv h_cl]. splits; auto.
      + unfold shaped, cwf. cbn [c_nclust c_ncol c_means c_members c_complete]. rewrite firstn_length, !repeat_length. fold d. splits; auto; lia.
      + intros j Hj. unfold crow, row, slice. cbn [c_means c_ncol]. fold d.
        rewrite skipn_firstn_comm, firstn_firstn. f_equal. nia.
    - eexists. split; [reflexivity|]. cbn [h_create h_conv h_cl]. splits; auto.
      + apply shaped_create.
      + intros j Hj. pose proof (@cel_create N 2 d j Hj) as Q. unfold cel in Q. injection Q as Q _ _. exact Q. }
  destruct Hcl as (h & -> & Hcv & Sh & Hrows). cbn [bind]. eexists.
  assert (G : hget (hm_put (repeat None M) 0 h) 0 = Some h) by (rewrite hget_put; reflexivity).
  assert (PP : forall v, hm_put (hm_put (repeat None M) 0 h) 0 v = hm_put (repeat (@None (hclu N)) M) 0 v).
  { intros v. unfold hm_put at 1 3. rewrite hm_put_length by (rewrite repeat_length; lia). rewrite repeat_length.
    destruct (Nat.ltb_spec 0 M); [|lia]. unfold hm_put. rewrite repeat_length. destruct (Nat.ltb_spec 0 M); [|lia].
    destruct M; [lia|]. reflexivity. }
  destruct it; try (destruct Hi; fail).
  - (* FORGY *)
    destruct Hi as (D0 & D1).
    destruct (@thd_row_ok N g data V (dr 0) D0) as (p0 & T0 & P0). destruct (@thd_row_ok N g data V (dr 1) D1) as (p1 & T1 & P1).
    destruct (@set_mean_at_ok N 2 d (h_cl h) p0 (row data d (dr 0)) 0 Sh ltac:(lia) (@data_row_length N g data V (dr 0) D0) P0) as (c0 & S0 & Sh0 & C0).
    destruct (@set_mean_at_ok N 2 d c0 p1 (row data d (dr 1)) 1 Sh0 ltac:(lia) (@data_row_length N g data V (dr 1) D1) P1) as (c1 & S1 & Sh1 & C1).
    eexists _, c1. split; [reflexivity|]. split.
    { unfold run_hinit, h_forgy_init, split_ids. sx. cbn [idgen_create id_split id_one id_rec id_max fst snd]. sx.
      rewrite (hm_ref_ok G). cbn [bind]. rewrite T0. cbn [bind]. rewrite S0. cbn [bind].
      unfold activate at 1. sx. rewrite aset_ok by (rewrite upd_length, repeat_length; change (Z.to_nat (w32 (0 + 1))) with 1; lia). cbn [bind].
      rewrite T1. cbn [bind]. rewrite S1. cbn [bind].
      unfold activate at 1. sx. rewrite aset_ok by (rewrite !upd_length, repeat_length; change (Z.to_nat (w32 (w32 (0 + 1) + 1))) with 2; lia). cbn [bind].
      reflexivity. }
    splits; auto.
    + intros j Hj. cbn [h_seed]. pose proof (C1 j Hj) as Q. pose proof (C0 j Hj) as Q0. rewrite Q0 in Q. unfold cel in Q.
      destruct j as [|[|]]; [..|lia]; cbn [Nat.eqb] in Q; injection Q as Q _ _; exact Q.
    + rewrite PP, Hcv. reflexivity.
  - (* NONE *)
    eexists _, (h_cl h). split; [reflexivity|]. split.
    { unfold run_hinit, h_none_init, split_ids. sx. cbn [idgen_create id_split id_one id_rec id_max fst snd]. sx.
      rewrite (hm_ref_ok G). cbn [bind].
      unfold activate at 1. sx. rewrite aset_ok by (rewrite upd_length, repeat_length; change (Z.to_nat (w32 (0 + 1))) with 1; lia). cbn [bind].
      unfold activate at 1. sx. rewrite aset_ok by (rewrite !upd_length, repeat_length; change (Z.to_nat (w32 (w32 (0 + 1) + 1))) with 2; lia). cbn [bind].
      reflexivity. }
    splits; auto. rewrite PP, Hcv. reflexivity.
Qed.
End Done.
