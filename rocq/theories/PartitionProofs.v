(** Proofs about row distribution. *)
From Verif Require Import Base Num Spec PartitionModel.
From Coq Require Import ZifyBool.
Set Implicit Arguments.
Local Open Scope Z_scope.
Ltac Zify.zify_post_hook ::= Z.div_mod_to_equations.

Lemma w32_small z : 0 <= z < 2 ^ 32 -> w32 z = z.
Proof. intros H. unfold w32. apply Z.mod_small. exact H. Qed.
Lemma w64_small z : 0 <= z < 2 ^ 64 -> w64 z = z.
Proof. intros H. unfold w64. apply Z.mod_small. exact H. Qed.

Lemma eff_threads_ok nthreads nrow :
  1 <= nthreads < 2 ^ 32 -> 1 <= nrow -> eff_threads nthreads nrow = Z.min nthreads nrow.
Proof. intros. unfold eff_threads. apply w32_small. lia. Qed.

(** closed form of the range of a thread *)
Definition rng (nrow nt t : Z) : Z * Z :=
  (t * (nrow / nt), if t =? nt - 1 then nrow / nt + nrow mod nt else nrow / nt).

Lemma rid_len_ok nrow nt t :
  1 <= nt <= nrow -> nrow < 2 ^ 32 -> 0 <= t < nt ->
  get_rid_len_tup nrow nt t = Ok (rng nrow nt t).
Proof.
  intros Hnt Hn Ht. unfold get_rid_len_tup, rng.
  destruct (Z.eqb_spec nt 0); [lia|].
  assert (Hq : 0 <= nrow / nt <= nrow) by (split; [apply Z.div_pos; lia|apply Z.div_le_upper_bound; nia]).
  assert (Hm : 0 <= nrow mod nt < nt) by (apply Z.mod_pos_bound; lia).
  assert (Hd : nrow = nt * (nrow / nt) + nrow mod nt) by (apply Z.div_mod; lia).
  set (q := nrow / nt) in *. set (m := nrow mod nt) in *. clearbody q m.
  rewrite (@w32_small q) by lia.
  rewrite (@w32_small (t * q)) by nia.
  destruct (Z.eqb_spec t (nt - 1)); [|reflexivity].
  rewrite w32_small by nia. reflexivity.
Qed.

Lemma mapM_ok {A B} (f : A -> res B) g l :
  (forall x, In x l -> f x = Ok (g x)) -> mapM f l = Ok (map g l).
Proof.
  induction l as [|x t IH]; intros H; cbn [mapM map]; [reflexivity|].
  rewrite (H x) by (left; reflexivity). cbn [bind].
  rewrite IH by (intros; apply H; right; auto). reflexivity.
Qed.

Lemma zseq_in n x : In x (zseq n) <-> 0 <= x < Z.of_nat n.
Proof.
  unfold zseq. rewrite in_map_iff. split.
  - intros (y & <- & Hy). apply in_seq in Hy. lia.
  - intros H. exists (Z.to_nat x). split; [lia|]. apply in_seq. lia.
Qed.

Lemma thread_ranges_ok nrow nthreads :
  1 <= nthreads < 2 ^ 32 -> 1 <= nrow < 2 ^ 32 ->
  let nt := Z.min nthreads nrow in
  thread_ranges nrow nthreads = Ok (map (rng nrow nt) (zseq (Z.to_nat nt))).
Proof.
  intros Ht Hn nt. unfold thread_ranges. rewrite eff_threads_ok by lia.
  fold nt. destruct (Z.eqb_spec nt 0); [lia|].
  apply mapM_ok. intros x Hx. apply zseq_in in Hx. apply rid_len_ok; lia.
Qed.

Lemma tiles_from nrow nt : 1 <= nt <= nrow ->
  forall n t, (Z.of_nat n + t = nt) -> 0 <= t -> (1 <= n)%nat ->
  tiles (t * (nrow / nt)) nrow (map (fun i => rng nrow nt (t + Z.of_nat i)) (seq 0 n)).
Proof.
  intros Hnt.
  assert (Hq : 1 <= nrow / nt) by (apply Z.div_le_lower_bound; lia).
  assert (Hm : 0 <= nrow mod nt < nt) by (apply Z.mod_pos_bound; lia).
  assert (Hd : nrow = nt * (nrow / nt) + nrow mod nt) by (apply Z.div_mod; lia).
  induction n as [|n IH]; intros t E Ht H1; [lia|].
  cbn [seq map]. unfold rng at 1. cbn [tiles].
  replace (t + Z.of_nat 0) with t by lia.
  split; [reflexivity|].
  destruct (Z.eqb_spec t (nt - 1)) as [Hl|Hl].
  - split; [lia|]. assert (n = 0)%nat by lia. subst n. cbn [seq map tiles].
    set (q := nrow / nt) in *. set (m := nrow mod nt) in *. clearbody q m. nia.
  - split; [lia|]. rewrite <- seq_shift, map_map.
    replace (t * (nrow / nt) + nrow / nt) with ((t + 1) * (nrow / nt)) by lia.
    specialize (IH (t + 1)).
    rewrite (map_ext (fun x => rng nrow nt (t + Z.of_nat (S x))) (fun i => rng nrow nt (t + 1 + Z.of_nat i)))
      by (intros a; f_equal; lia).
    apply IH; lia.
Qed.

Lemma tiles_cover lo hi l : tiles lo hi l -> covers_once lo hi l /\ lo <= hi.
Proof.
  revert lo; induction l as [|[s n] t IH]; intros lo H.
  - cbn in H. subst. split; [|lia]. split.
    + intros r Hr; lia.
    + intros [|i] sn r Hi; discriminate.
  - cbn in H. destruct H as (-> & Hn & Ht). apply IH in Ht as ((H1 & H2) & Hle).
    split; [|lia]. split.
    + intros r Hr. destruct (Z.lt_ge_cases r (lo + n)) as [Hlt|Hge].
      * exists 0%nat. split; [exists (lo, n); split; [reflexivity|unfold in_range; simpl; lia]|].
        intros [|i'] sn' Hi' Hin; [reflexivity|]. simpl in Hi'.
        specialize (H2 _ _ _ Hi' Hin). lia.
      * destruct (H1 r) as (i & (sn & Hi & Hin) & Hu); [lia|].
        exists (S i). split; [exists sn; auto|].
        intros [|i'] sn' Hi' Hin'.
        -- simpl in Hi'. injection Hi' as <-. unfold in_range in Hin'; simpl in Hin'. lia.
        -- simpl in Hi'. f_equal. eapply Hu; eauto.
    + intros [|i] sn r Hi Hin; simpl in Hi.
      * injection Hi as <-. unfold in_range in Hin; simpl in Hin. lia.
      * specialize (H2 _ _ _ Hi Hin). lia.
Qed.

(** main fact about the thread partition *)
Lemma thread_ranges_tile nrow nthreads :
  1 <= nthreads < 2 ^ 32 -> 1 <= nrow < 2 ^ 32 ->
  exists rngs, thread_ranges nrow nthreads = Ok rngs /\
    Z.of_nat (length rngs) = Z.min nthreads nrow /\ tiles 0 nrow rngs.
Proof.
  intros Ht Hn. eexists. split; [apply thread_ranges_ok; assumption|].
  unfold zseq. rewrite !map_length, seq_length. split; [lia|].
  rewrite map_map.
  pose proof (@tiles_from nrow (Z.min nthreads nrow)) as H.
  specialize (H ltac:(lia) (Z.to_nat (Z.min nthreads nrow)) 0 ltac:(lia) ltac:(lia) ltac:(lia)).
  rewrite Z.mul_0_l in H. exact H.
Qed.

Lemma max_row_idx_ok nrow nthreads :
  1 <= nthreads < 2 ^ 32 -> 1 <= nrow < 2 ^ 32 ->
  let nt := Z.min nthreads nrow in
  max_row_idx nrow nthreads =
    Ok (map (fun t => fst (rng nrow nt t) + snd (rng nrow nt t)) (zseq (Z.to_nat nt))).
Proof.
  intros Ht Hn nt. unfold max_row_idx. rewrite eff_threads_ok by lia.
  fold nt. destruct (Z.eqb_spec nt 0); [lia|].
  apply mapM_ok. intros x Hx. apply zseq_in in Hx. unfold thd_max_row.
  destruct (Z.eqb_spec nt 0); [lia|].
  rewrite rid_len_ok by lia. cbn [bind]. f_equal. unfold rng; cbn [fst snd].
  assert (Hq : 0 <= nrow / nt <= nrow) by (split; [apply Z.div_pos; lia|apply Z.div_le_upper_bound; nia]).
  assert (Hm : 0 <= nrow mod nt < nt) by (apply Z.mod_pos_bound; lia).
  assert (Hd : nrow = nt * (nrow / nt) + nrow mod nt) by (apply Z.div_mod; lia).
  assert (Hx' : 0 <= x < nt) by lia. clear Hx.
  assert (Hntn : nt <= nrow) by lia. assert (Hnt1 : 1 <= nt) by lia. clearbody nt.
  set (q := nrow / nt) in *. set (m := nrow mod nt) in *. clearbody q m.
  rewrite (@w32_small q) by lia. rewrite (@w32_small (x * q)) by nia.
  apply w32_small. destruct (Z.eqb_spec x (nt - 1)); nia.
Qed.

Lemma upper_bound_spec (f : Z -> Z) v : forall n t k,
  (k < n)%nat ->
  (forall i, (i < k)%nat -> f (t + Z.of_nat i) <= v) -> v < f (t + Z.of_nat k) ->
  upper_bound (map (fun i => f (t + Z.of_nat i)) (seq 0 n)) v = Z.of_nat k.
Proof.
  induction n as [|n IH]; intros t k Hk Hlo Hhi; [lia|].
  cbn [seq map upper_bound]. replace (t + Z.of_nat 0) with t by lia.
  destruct k as [|k].
  - replace (t + Z.of_nat 0) with t in Hhi by lia.
    destruct (Z.ltb_spec v (f t)); [reflexivity|lia].
  - pose proof (Hlo 0%nat ltac:(lia)) as H0. replace (t + Z.of_nat 0) with t in H0 by lia.
    destruct (Z.ltb_spec v (f t)); [lia|].
    rewrite <- seq_shift, map_map.
    rewrite (map_ext (fun x => f (t + Z.of_nat (S x))) (fun i => f (t + 1 + Z.of_nat i)))
      by (intros a; f_equal; lia).
    rewrite (IH (t + 1) k); [lia|lia| |].
    + intros i Hi. specialize (Hlo (S i) ltac:(lia)).
      replace (t + 1 + Z.of_nat i) with (t + Z.of_nat (S i)) by lia. exact Hlo.
    + replace (t + 1 + Z.of_nat k) with (t + Z.of_nat (S k)) by lia. exact Hhi.
Qed.

(** the thread owning a row *)
Definition owner (nrow nt r : Z) : Z := Z.min (r / (nrow / nt)) (nt - 1).

Lemma owner_spec nrow nt r :
  1 <= nt <= nrow -> 0 <= r < nrow ->
  let t := owner nrow nt r in
  0 <= t < nt /\ fst (rng nrow nt t) <= r < fst (rng nrow nt t) + snd (rng nrow nt t).
Proof.
  intros Hnt Hr t.
  assert (Hq : 1 <= nrow / nt) by (apply Z.div_le_lower_bound; lia).
  assert (Hm : 0 <= nrow mod nt < nt) by (apply Z.mod_pos_bound; lia).
  assert (Hd : nrow = nt * (nrow / nt) + nrow mod nt) by (apply Z.div_mod; lia).
  unfold rng; cbn [fst snd]. subst t. unfold owner.
  set (q := nrow / nt) in *. set (m := nrow mod nt) in *. clearbody q m.
  assert (Hrd : r = q * (r / q) + r mod q) by (apply Z.div_mod; lia).
  assert (Hrm : 0 <= r mod q < q) by (apply Z.mod_pos_bound; lia).
  assert (Hrp : 0 <= r / q) by (apply Z.div_pos; lia).
  set (u := r / q) in *. set (w := r mod q) in *. clearbody u w.
  destruct (Z.eqb_spec (Z.min u (nt - 1)) (nt - 1)); split; try lia; try nia.
Qed.

Section Data.
Variable N : Num.
Notation T := (car N).

Lemma load_local_ok kind (data : list T) s n ncol nrow r :
  Z.of_nat (length data) = nrow * ncol -> 0 <= s -> 0 <= n -> s + n <= nrow -> 0 <= ncol ->
  0 <= r < n ->
  exists p, load_local N kind data s n ncol = Ok p /\
    slice (fst p) (snd p + Z.to_nat (r * ncol)) (Z.to_nat ncol)
    = row data (Z.to_nat ncol) (Z.to_nat (s + r)).
Proof.
  intros Hl Hs Hn Hsn Hc Hr. unfold row.
  assert (E1 : (Z.to_nat (s * ncol) + Z.to_nat (r * ncol) = Z.to_nat (s + r) * Z.to_nat ncol)%nat).
  { rewrite <- Z2Nat.inj_add by nia. rewrite <- Z2Nat.inj_mul by nia. f_equal. lia. }
  assert (Hfit : (Z.to_nat (s * ncol) + Z.to_nat (n * ncol) <= length data)%nat) by nia.
  assert (Hin : (Z.to_nat (r * ncol) + Z.to_nat ncol <= Z.to_nat (n * ncol))%nat) by nia.
  destruct kind; cbn [load_local].
  - eexists; split; [reflexivity|]. cbn [fst snd set_local_data_ptr]. rewrite E1. reflexivity.
  - unfold numa_alloc_mem.
    rewrite slice_length by exact Hfit. rewrite Nat.eqb_refl. cbn [assert_ bind].
    eexists; split; [reflexivity|]. cbn [fst snd Nat.add].
    rewrite slice_slice by exact Hin. rewrite E1. reflexivity.
  - unfold numa_reorg. rewrite copy_to_ok; cbn [fst snd].
    + cbn [bind]. eexists; split; [reflexivity|]. cbn [fst snd Nat.add firstn].
      rewrite skipn_all2 by (rewrite repeat_length; lia). rewrite app_nil_r. simpl.
      rewrite slice_slice by exact Hin. rewrite E1. reflexivity.
    + rewrite repeat_length. lia.
    + exact Hfit.
Qed.

Lemma get_thd_data_ok kind (data : list T) nrow ncol nthreads r :
  1 <= nthreads < 2 ^ 32 -> 1 <= nrow < 2 ^ 32 -> 0 <= ncol ->
  Z.of_nat (length data) = nrow * ncol -> 0 <= r < nrow ->
  exists p, get_thd_data N kind data nrow ncol nthreads r = Ok p /\
    slice (fst p) (snd p) (Z.to_nat ncol) = row data (Z.to_nat ncol) (Z.to_nat r).
Proof.
  intros Ht Hn Hc Hl Hr. unfold get_thd_data.
  rewrite max_row_idx_ok, thread_ranges_ok, eff_threads_ok by lia. cbn [bind].
  set (nt := Z.min nthreads nrow).
  assert (Hnt : 1 <= nt <= nrow) by lia.
  pose proof (@owner_spec nrow nt r Hnt Hr) as (Ho & Hor).
  set (t := owner nrow nt r) in *.
  assert (Hq : 1 <= nrow / nt) by (apply Z.div_le_lower_bound; lia).
  assert (Hq2 : nrow / nt <= nrow) by (apply Z.div_le_upper_bound; nia).
  assert (Hub : upper_bound (map (fun t0 => fst (rng nrow nt t0) + snd (rng nrow nt t0))
                   (zseq (Z.to_nat nt))) r = t).
  { unfold zseq. rewrite map_map.
    rewrite (map_ext _ (fun i => (fun t0 => fst (rng nrow nt t0) + snd (rng nrow nt t0)) (0 + Z.of_nat i)))
      by (intros; rewrite Z.add_0_l; reflexivity).
    rewrite (@upper_bound_spec (fun t0 => fst (rng nrow nt t0) + snd (rng nrow nt t0)) r
               (Z.to_nat nt) 0 (Z.to_nat t)).
    - lia.
    - lia.
    - intros i Hi. rewrite Z.add_0_l. unfold rng in *; cbn [fst snd] in *.
      destruct (Z.eqb_spec (Z.of_nat i) (nt - 1)); [lia|]. nia.
    - rewrite Z.add_0_l, Z2Nat.id by lia. lia. }
  rewrite Hub.
  assert (Hget : aget (map (rng nrow nt) (zseq (Z.to_nat nt))) (Z.to_nat t) = Ok (rng nrow nt t)).
  { apply aget_ok. rewrite nth_error_map. unfold zseq. rewrite nth_error_map, nth_error_seq.
    destruct (Nat.ltb_spec (Z.to_nat t) (Z.to_nat nt)); [|lia]. cbn [option_map].
    f_equal. f_equal. lia. }
  rewrite Hget. cbn [bind].
  assert (Hend : fst (rng nrow nt t) + snd (rng nrow nt t) <= nrow).
  { assert (Hd : nrow = nt * (nrow / nt) + nrow mod nt) by (apply Z.div_mod; lia).
    assert (Hm : 0 <= nrow mod nt < nt) by (apply Z.mod_pos_bound; lia).
    unfold rng; cbn [fst snd]. destruct (Z.eqb_spec t (nt - 1)); nia. }
  assert (Hfst : fst (rng nrow nt t) = t * (nrow / nt)) by reflexivity.
  rewrite (@w32_small (nrow / nt)) by lia.
  rewrite (@w32_small (t * (nrow / nt))) by nia.
  rewrite (@w32_small (r - t * (nrow / nt))) by nia.
  destruct (@load_local_ok kind data (fst (rng nrow nt t)) (snd (rng nrow nt t)) ncol nrow
              (r - t * (nrow / nt))) as (p & Hp & Hs); try lia; try nia.
  rewrite Hp. cbn [bind]. eexists; split; [reflexivity|]. cbn [fst snd].
  rewrite Hs, Hfst. f_equal. f_equal. lia.
Qed.
End Data.

(* ------------------------------------------------------------------ *)
(** * Task queues *)

Definition task_rng (t : task) : Z * Z := (t_start t, t_nrow t).

Lemma drain_tiles : forall fuel q,
  0 <= q_start q -> q_start q + q_nrow q <= 2 ^ 32 - 8192 -> 0 <= q_ncol q ->
  q_has q = true -> 0 <= q_curr q < q_nrow q ->
  (Z.to_nat (q_nrow q - q_curr q) < fuel)%nat ->
  exists ts q', drain fuel q = Ok (ts, q') /\
    tiles (q_start q + q_curr q) (q_start q + q_nrow q) (map task_rng ts) /\
    Forall (fun t => 1 <= t_nrow t <= 8193) ts /\
    q_has q' = false /\
    (q_nrow q * q_ncol q < 2 ^ 32 -> Forall (fun t => t_data t = (t_start t - q_start q) * q_ncol q) ts).
Proof.
  induction fuel as [|fuel IH]; intros q Hs0 Hs Hnc Hh Hc Hf; [lia|].
  cbn [drain]. rewrite Hh. unfold get_task. rewrite Hh. cbn [negb].
  destruct (Z.ltb_spec (q_curr q) (q_nrow q)); [|lia]. cbn [assert_ bind].
  unfold MIN_TASK_ROWS.
  rewrite (@w32_small (q_curr q + 8192)) by lia.
  rewrite (@w32_small (q_nrow q - 1)) by lia.
  rewrite (@w32_small (q_start q + q_curr q)) by lia.
  destruct (Z.ltb_spec (q_curr q + 8192) (q_nrow q - 1)) as [Hlt|Hge].
  - cbn [bind fst snd t_nrow].
    destruct (Z.leb_spec 8192 (q_nrow q)); [|lia]. cbn [assert_ bind Z.eqb negb].
    match goal with |- context [drain fuel ?x] => specialize (IH x) end.
    cbn [q_start q_nrow q_ncol q_curr q_has] in IH.
    destruct IH as (ts & q' & Hd & Hti & Hfo & Hh' & Hda); try lia; try reflexivity.
    rewrite Hd. cbn [bind fst snd]. do 2 eexists. split; [reflexivity|].
    cbn [map tiles]. unfold task_rng at 1; cbn [t_start t_nrow].
    repeat split; try lia.
    + replace (q_start q + q_curr q + 8192) with (q_start q + (q_curr q + 8192)) by lia. exact Hti.
    + constructor; [cbn; lia|exact Hfo].
    + exact Hh'.
    + intros Hw. constructor; [cbn [t_data t_start]; rewrite w32_small by nia; nia|auto].
  - rewrite (@w32_small (q_nrow q - q_curr q)) by lia.
    destruct (Z.ltb_spec 0 (q_nrow q - q_curr q)); [|lia]. cbn [assert_ bind fst snd t_nrow].
    destruct (Z.leb_spec (q_nrow q - q_curr q) (q_nrow q)); [|lia].
    destruct (Z.eqb_spec (q_nrow q - q_curr q) 0); [lia|]. cbn [assert_ bind negb].
    destruct fuel as [|fuel]; [lia|]. cbn [drain q_has]. cbn [bind fst snd].
    do 2 eexists. split; [reflexivity|]. cbn [map tiles]. unfold task_rng; cbn [t_start t_nrow].
    repeat split; try lia.
    + constructor; [cbn; lia|constructor].
    + intros Hw. constructor; [cbn [t_data t_start]; rewrite w32_small by nia; nia|constructor].
Qed.

(* ------------------------------------------------------------------ *)
(** * MPI processes *)

Definition dist_rng (g p r : Z) : Z * Z := (r * (g / p), dist_nrow g p r).

Lemma is_local_spec g p r x :
  1 <= p <= g -> g < 2 ^ 63 -> 0 <= r < p -> 0 <= x < g ->
  is_local g p r x = true <-> in_range x (dist_rng g p r).
Proof.
  intros Hp Hg Hr Hx. unfold is_local, dist_rng, in_range, dist_nrow; cbn [fst snd].
  assert (Hq : 1 <= g / p) by (apply Z.div_le_lower_bound; lia).
  assert (Hm : 0 <= g mod p < p) by (apply Z.mod_pos_bound; lia).
  assert (Hd : g = p * (g / p) + g mod p) by (apply Z.div_mod; lia).
  set (q := g / p) in *. set (m := g mod p) in *. clearbody q m.
  rewrite (@w64_small (r * q)) by nia.
  destruct (Z.lt_ge_cases x (r * q)) as [Hlt|Hge].
  - assert (E : w64 (x - r * q) = x - r * q + 2 ^ 64).
    { unfold w64. symmetry. apply (Z.mod_unique _ _ (-1)); [left; nia|lia]. }
    rewrite E. split; [|lia]. intros H. exfalso.
    destruct (Z.eqb_spec r (p - 1)); revert H;
      match goal with |- context [?a <=? ?b] => destruct (Z.leb_spec a b) end; try discriminate; nia.
  - rewrite w64_small by nia.
    destruct (Z.eqb_spec r (p - 1));
      match goal with |- context [?a <=? ?b] => destruct (Z.leb_spec a b) end; split; intros; try discriminate; try lia; auto.
Qed.

Lemma dist_tiles g p : 1 <= p <= g ->
  tiles 0 g (map (dist_rng g p) (zseq (Z.to_nat p))).
Proof.
  intros Hp. unfold zseq. rewrite map_map.
  pose proof (@tiles_from g p Hp (Z.to_nat p) 0 ltac:(lia) ltac:(lia) ltac:(lia)) as H.
  rewrite Z.mul_0_l in H.
  rewrite (map_ext _ (fun i => rng g p (0 + Z.of_nat i))); [exact H|].
  intros a. rewrite Z.add_0_l. reflexivity.
Qed.

Lemma local_global g p r x :
  1 <= p <= g -> g < 2 ^ 63 -> 0 <= r < p -> 0 <= x < g -> is_local g p r x = true ->
  exists l, local_rid g p r x = Ok l /\ 0 <= l < dist_nrow g p r /\ global_rid g p r l = x.
Proof.
  intros Hp Hg Hr Hx Hl. apply is_local_spec in Hl; auto.
  unfold dist_rng, in_range in Hl; cbn [fst snd] in Hl.
  assert (Hq : 1 <= g / p) by (apply Z.div_le_lower_bound; lia).
  assert (Hd : g = p * (g / p) + g mod p) by (apply Z.div_mod; lia).
  assert (Hm : 0 <= g mod p < p) by (apply Z.mod_pos_bound; lia).
  exists (x - r * (g / p)). unfold local_rid, global_rid.
  rewrite (@w64_small (r * (g / p))) by nia. rewrite w64_small by nia.
  destruct (Z.ltb_spec (dist_nrow g p r) (x - r * (g / p))); [lia|].
  split; [reflexivity|]. split; [lia|]. rewrite w64_small by nia. lia.
Qed.

Ltac Zify.zify_post_hook ::= idtac.
Section GatherProofs.
Variable A : Type.

Lemma concat_prefix_length (locals : list (list A)) (f : Z -> Z) n :
  (forall i l, nth_error locals i = Some l -> Z.of_nat (length l) = f (Z.of_nat i)) ->
  (n <= length locals)%nat -> (forall i, (i < n)%nat -> f (Z.of_nat i) = f 0) ->
  Z.of_nat (length (concat (firstn n locals))) = Z.of_nat n * f 0.
Proof.
  intros Hf. induction n as [|n IH]; intros Hn Hc; [reflexivity|].
  destruct (nth_error locals n) as [l|] eqn:E; [|apply nth_error_None in E; lia].
  assert (Hs : firstn (S n) locals = firstn n locals ++ [l]).
  { apply (@slice_S_last _ locals 0 n l). exact E. }
  rewrite Hs, concat_app, app_length. cbn [concat]. rewrite app_nil_r.
  rewrite Nat2Z.inj_add, IH by (auto; lia). rewrite (Hf _ _ E), (Hc n) by lia. lia.
Qed.

Lemma gather_ok g p init (locals : list (list A)) :
  1 <= p <= g -> p < 2 ^ 31 -> g < 2 ^ 32 ->
  Z.of_nat (length locals) = p ->
  (forall i l, nth_error locals i = Some l -> Z.of_nat (length l) = dist_nrow g p (Z.of_nat i)) ->
  gather_root g p init locals = Ok (concat locals).
Proof.
  intros Hp Hp31 Hg Hlen Hloc.
  assert (Hq : 1 <= g / p) by (apply Z.div_le_lower_bound; lia).
  assert (Hd : g = p * (g / p) + g mod p) by (apply Z.div_mod; lia).
  assert (Hm : 0 <= g mod p < p) by (apply Z.mod_pos_bound; lia).
  assert (Hqm : g / p + g mod p <= g) by nia.
  assert (Hpre : forall n, Z.of_nat n < p ->
     Z.of_nat (length (concat (firstn n locals))) = Z.of_nat n * (g / p)).
  { intros n Hn. destruct n as [|n']; [reflexivity|].
    rewrite (@concat_prefix_length locals (dist_nrow g p)); auto; try lia.
    - unfold dist_nrow. destruct (Z.eqb_spec 0 (p - 1)); [lia|reflexivity].
    - intros i Hi. unfold dist_nrow.
      destruct (Z.eqb_spec 0 (p - 1)); destruct (Z.eqb_spec (Z.of_nat i) (p - 1)); lia. }
  assert (Htot : Z.of_nat (length (concat locals)) = g).
  { destruct (nth_error locals (Z.to_nat p - 1)) as [l|] eqn:E; [|apply nth_error_None in E; lia].
    assert (Hs : locals = firstn (Z.to_nat p - 1) locals ++ [l]).
    { rewrite <- (firstn_all locals) at 1. replace (length locals) with (S (Z.to_nat p - 1)) by lia.
      apply (@slice_S_last _ locals 0 (Z.to_nat p - 1) l). exact E. }
    rewrite Hs, concat_app, app_length, Nat2Z.inj_add, Hpre by lia. cbn [concat]. rewrite app_nil_r.
    rewrite (Hloc _ _ E). unfold dist_nrow. destruct (Z.eqb_spec (Z.of_nat (Z.to_nat p - 1)) (p - 1)); lia. }
  unfold gather_root. destruct locals as [|l0 rest] eqn:El; [simpl in Hlen; lia|].
  rewrite <- El in *.
  assert (H0 : Z.of_nat (length l0) = dist_nrow g p 0).
  { apply (Hloc 0%nat). rewrite El. reflexivity. }
  rewrite copy_to_ok; cbn [fst snd].
  2:{ rewrite repeat_length. unfold dist_nrow in *. destruct (Z.eqb_spec 0 (p - 1)); lia. }
  2:{ lia. }
  cbn [bind firstn app].
  (* invariant: first n processes' assignments are in place *)
  set (P := fun (n : nat) (a : list A) => length a = Z.to_nat g /\
              slice a 0 (length (concat (firstn n locals))) = concat (firstn n locals)).
  assert (Hok : okp (for_ (Z.to_nat p - 1) 1 (fun pid asg =>
      let* l := aget locals pid in
      let count := recv_count g p (dist_nrow g p 0) (Z.of_nat pid) in
      if (Z.to_nat count <? length l)%nat then Err Throw
      else copy_to (l, 0%nat) (length l) asg (Z.to_nat (Z.of_nat pid * (g / p))))
      (slice l0 0 (Z.to_nat (dist_nrow g p 0)) ++ skipn (0 + Z.to_nat (dist_nrow g p 0)) (repeat init (Z.to_nat g))))
      (P (1 + (Z.to_nat p - 1))%nat)).
  { apply for_okp with (P := P).
    - unfold P. split.
      + rewrite app_length, skipn_length, repeat_length, slice_length by lia.
        unfold dist_nrow in *. destruct (Z.eqb_spec 0 (p - 1)); lia.
      + rewrite El. cbn [firstn concat]. rewrite app_nil_r.
        replace (Z.to_nat (dist_nrow g p 0)) with (length l0) by lia.
        rewrite slice_all. unfold slice. cbn [skipn].
        rewrite firstn_app, firstn_all, Nat.sub_diag. cbn [firstn]. apply app_nil_r.
    - intros j a Hj (La & Ha).
      destruct (nth_error locals j) as [l|] eqn:Ej; [|apply nth_error_None in Ej; lia].
      rewrite (proj2 (aget_ok _ _ _) Ej). cbn [bind].
      pose proof (Hloc _ _ Ej) as Hlj.
      assert (Hcount : recv_count g p (dist_nrow g p 0) (Z.of_nat j) = Z.of_nat (length l)).
      { rewrite Hlj. unfold recv_count, dist_nrow.
        destruct (Z.eqb_spec 0 (p - 1)); [lia|].
        destruct (Z.eqb_spec (Z.of_nat j) (p - 1)); rewrite w32_small; lia || nia. }
      rewrite Hcount, Nat2Z.id, Nat.ltb_irrefl.
      assert (Hoff : Z.to_nat (Z.of_nat j * (g / p)) = length (concat (firstn j locals))).
      { pose proof (Hpre j ltac:(lia)). lia. }
      rewrite Hoff. set (pre := concat (firstn j locals)) in *.
      assert (Hs : firstn (S j) locals = firstn j locals ++ [l])
        by (apply (@slice_S_last _ locals 0 j l); exact Ej).
      assert (Hfit : (length pre + length l <= length a)%nat).
      { rewrite La. pose proof (Hpre j ltac:(lia)). fold pre in H.
        unfold dist_nrow in Hlj. destruct (Z.eqb_spec (Z.of_nat j) (p - 1)); nia. }
      rewrite copy_to_ok; cbn [fst snd]; [|lia|lia]. rewrite slice_all.
      cbn [okp]. unfold P. split.
      + rewrite !app_length, firstn_length, skipn_length. lia.
      + rewrite Hs, concat_app, app_length. cbn [concat]. rewrite app_nil_r. fold pre.
        unfold slice in Ha. cbn [skipn] in Ha. rewrite Ha. unfold slice. cbn [skipn].
        rewrite app_assoc. rewrite <- app_length.
        rewrite firstn_app, firstn_all, Nat.sub_diag. cbn [firstn]. apply app_nil_r. }
  apply okp_iff in Hok as (a & Hr & La & Ha).
  unfold slice in Hr at 1. cbn [skipn] in Hr. unfold slice. cbn [skipn].
  rewrite Hr. f_equal.
  replace (1 + (Z.to_nat p - 1))%nat with (length locals) in Ha by lia.
  rewrite firstn_all in Ha. rewrite <- Ha. unfold slice. cbn [skipn].
  rewrite firstn_all2; [reflexivity|lia].
Qed.
End GatherProofs.

(** Near the top of the 32-bit range the queue's cursor wraps and the worker
    never runs out of tasks. *)
Ltac Zify.zify_post_hook ::= Z.div_mod_to_equations.
Lemma drain_diverges : forall fuel q,
  q_start q = 0 -> 2 ^ 32 - 8190 <= q_nrow q < 2 ^ 32 -> q_has q = true ->
  0 <= q_curr q < 2 ^ 32 -> q_curr q mod 8192 = 0 ->
  drain fuel q = Err Fuel.
Proof.
  induction fuel as [|fuel IH]; intros q Hs Hn Hh Hc Hm; [reflexivity|].
  cbn [drain]. rewrite Hh. unfold get_task. rewrite Hh. cbn [negb].
  destruct (Z.ltb_spec (q_curr q) (q_nrow q)); [|lia]. cbn [assert_ bind]. unfold MIN_TASK_ROWS.
  rewrite (@w32_small (q_nrow q - 1)) by lia.
  assert (Hw : 0 <= w32 (q_curr q + 8192) < q_nrow q - 1 /\ w32 (q_curr q + 8192) mod 8192 = 0).
  { unfold w32. assert (H2 : q_curr q = 2 ^ 32 - 8192 \/ q_curr q + 8192 <= 2 ^ 32 - 8192) by lia.
    destruct H2 as [E|E]; [rewrite E; split; reflexivity || (change ((2 ^ 32 - 8192 + 8192) mod 2 ^ 32) with 0; lia)|].
    rewrite Z.mod_small by lia. lia. }
  destruct (Z.ltb_spec (w32 (q_curr q + 8192)) (q_nrow q - 1)); [|lia].
  cbn [bind fst snd t_nrow]. destruct (Z.leb_spec 8192 (q_nrow q)); [|lia].
  cbn [assert_ bind Z.eqb negb]. rewrite IH; cbn [q_start q_nrow q_ncol q_curr q_has]; try lia; reflexivity.
Qed.
