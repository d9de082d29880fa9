(** The consistency check at the end of a hierarchical run, and the run itself. *)
From Coq Require Import Permutation.
From Verif Require Import Base Num DistModel ClustersModel ClustersView ClustersProofs MatLemmas
  PartitionModel ParModel KmeansModel ParProofs NearProofs KmeansProofs UpdateProofs RunProofs InitProofs Spec.
From Verif Require Import ContainersModel PropertiesIds HclustModel HclustProofs HclustUpdate HclustIter HclustSplit Okab HclustRun HclustDone.
Set Implicit Arguments.
Unset Strict Implicit.

Lemma i32_small z : (0 <= z < 2 ^ 31)%Z -> i32 z = z.
Proof. intros H. unfold i32, w32. rewrite Z.mod_small; lia. Qed.

Lemma fold_i32 : forall (l : list nat) a, (0 <= a)%Z -> (a + Z.of_nat (list_sum l) < 2 ^ 31)%Z ->
  fold_left (fun a c => i32 (a + c)) (map Z.of_nat l) a = (a + Z.of_nat (list_sum l))%Z.
Proof.
  induction l as [|x l IH]; intros a Ha Hb; unfold list_sum in *; cbn [map fold_left fold_right] in *; [lia|].
  rewrite i32_small by lia. rewrite IH; lia.
Qed.

Lemma filter_map_length {A B} (f : A -> B) (p : B -> bool) l : length (filter p (map f l)) = length (filter (fun x => p (f x)) l).
Proof. induction l as [|x l IH]; auto. cbn [map filter]. destruct (p (f x)); cbn [length]; rewrite IH; reflexivity. Qed.

Section Verify.
Variable N : Num.
Notation T := (car N).
Variables (g : hcfg N) (ws : list (worker N)) (data : list T).
Let d := g_ncol g.
Let n := g_nrow g.

(** an output centroid is the mean the code computes from the cluster's rows *)
Definition ucelFP (asg : list nat) (i : nat) (v : list T) : Prop := v = fst (fst (ucel g ws data asg i)).
Lemma ucelFPs : wok n d data ws -> forall A A' i v, length A = n -> length A' = n ->
  (forall r, r < n -> (nth r A 0 =? i) = (nth r A' 0 =? i)) -> ucelFP A i v -> ucelFP A' i v.
Proof. intros Hws A A' i v LA LA' H ->. unfold ucelFP. rewrite (@ucel_ext N g ws data Hws A A' i LA LA' H). reflexivity. Qed.

Definition no_empty (s : hst N) : Prop := forall i, In i (map fst (x_final s)) -> 0 < count_eq i (x_asg s).

Lemma count_pos i A : 0 < count_eq i A <-> In i A.
Proof.
  clear. induction A as [|a A IH]; [cbn; lia|]. rewrite count_eq_cons. cbn [In].
  destruct (Nat.eqb_spec a i) as [->|]; [split; [auto|lia]|]. rewrite <- IH. split; intros; [right; lia|destruct H; [congruence|lia]].
Qed.

Lemma verify_ok FP lo s : hout g FP lo s -> (Z.of_nat n < 2 ^ 31)%Z ->
  (no_empty s -> verify_consistency g s = Ok tt) /\ (~ no_empty s -> verify_consistency g s = Err Abort).
Proof.
  intros O Hn. set (M := 4 * hclust_floor (g_k g) - 1) in *.
  assert (Ec : x_counts s = map Z.of_nat (map (fun i => count_eq i (x_asg s)) (seq 0 M))).
  { apply (nth_ext _ _ 0%Z 0%Z).
    - rewrite !map_length, seq_length. apply (o_lc O).
    - intros i Hi. rewrite (o_lc O) in Hi. fold M in Hi. rewrite (o_counts O) by exact Hi.
      rewrite map_map. rewrite (nth_indep _ 0%Z (Z.of_nat (count_eq 0 (x_asg s)))); [|rewrite map_length, seq_length; exact Hi].
      rewrite (map_nth (fun x => Z.of_nat (count_eq x (x_asg s)))), seq_nth by exact Hi. reflexivity. }
  assert (Hall : Forall (fun a => a < M) (x_asg s)).
  { apply Forall_forall. intros a Ha. apply In_nth with (d := 0) in Ha as (r & Hr & <-). apply (o_lt O). apply (o_rows O).
    rewrite (o_asg O) in Hr. exact Hr. }
  pose proof (count_sum Hall) as Hsum. rewrite (o_asg O) in Hsum.
  set (P := filter (fun i => 0 <? count_eq i (x_asg s)) (seq 0 M)).
  assert (NP : NoDup P) by (apply NoDup_filter, seq_NoDup).
  assert (InP : forall i, In i P <-> In i (x_asg s)).
  { intros i. unfold P. rewrite filter_In, in_seq. rewrite Nat.ltb_lt, count_pos. split; [tauto|]. intros H. split; auto.
    rewrite Forall_forall in Hall. specialize (Hall i H). lia. }
  assert (Sub : incl P (map fst (x_final s))).
  { intros i Hi. apply InP in Hi. apply In_nth with (d := 0) in Hi as (r & Hr & <-). apply (o_rows O). rewrite (o_asg O) in Hr. exact Hr. }
  assert (Lcnt : length (filter (fun c => 0 <? c)%Z (x_counts s)) = length P).
  { rewrite Ec, map_map, filter_map_length. unfold P. f_equal. apply filter_ext. intros i.
    destruct (Z.ltb_spec 0 (Z.of_nat (count_eq i (x_asg s)))), (Nat.ltb_spec 0 (count_eq i (x_asg s))); auto; lia. }
  assert (Ssum : fold_left (fun a c => i32 (a + c)) (x_counts s) 0%Z = Z.of_nat n).
  { rewrite Ec, fold_i32; [rewrite Hsum; reflexivity|lia|rewrite Hsum; lia]. }
  assert (Iff : length (x_final s) = length P <-> no_empty s).
  { rewrite <- (map_length fst). split.
    - intros E i Hi. apply count_pos, InP. assert (Q : incl (map fst (x_final s)) P) by (apply (NoDup_length_incl NP); [lia|exact Sub]). exact (Q i Hi).
    - intros H. apply Nat.le_antisymm; apply NoDup_incl_length; auto; [apply (o_keys O)|].
      intros i Hi. apply InP, count_pos, H, Hi. }
  unfold verify_consistency. rewrite Lcnt, Ssum. split.
  - intros H. apply Iff in H. rewrite H, Nat.eqb_refl. cbn [assert_ bind].
    unfold w64. rewrite Z.mod_small by lia. fold n. rewrite Z.eqb_refl. reflexivity.
  - intros H. destruct (Nat.eqb_spec (length (x_final s)) (length P)) as [E|E]; [tauto|]. reflexivity.
Qed.
End Verify.

Section WholeRun.
Variable N : Num.
Notation T := (car N).
Variables (g : hcfg N) (data : list T).

(** every iteration of every round lets every worker process all its rows *)
Definition h_fair (scheds : nat -> nat -> list nat) : Prop :=
  forall ws, build_workers g data = Ok ws -> forall i j, complete (w_ranges ws) (scheds i j).

Definition h_valid (it : init_t) (centers : option (list T)) (dr : nat -> nat) : Prop :=
  valid_input g data /\ 2 <= g_k g /\ (Z.of_nat (g_k g) < 2 ^ 30)%Z /\ 2 <= h_min g /\ 1 <= g_max_iters g /\
  h_init_ok g it centers dr.

Theorem h_run_ok bind centers it dr scheds fuel : h_valid it centers dr -> h_fair scheds ->
  2 * hclust_floor (g_k g) - 2 <= fuel ->
  match h_run g bind centers it data dr scheds fuel with
  | Ok s => exists ws, build_workers g data = Ok ws /\ wok (g_nrow g) (g_ncol g) data ws /\ hout g (ucelFP g ws data) 2 s /\
      (bind = false -> (Z.of_nat (g_nrow g) < 2 ^ 31)%Z -> no_empty s)
  | Err e => e = Abort /\ (unassignable g data \/
      (bind = false /\ ((2 ^ 31 <= Z.of_nat (g_nrow g))%Z \/
        exists s, h_run g true centers it data dr scheds fuel = Ok s /\ ~ no_empty s)))
  end.
Proof.
  intros (V & K2 & K30 & Hm & Hi & Hini) Hf Hfuel. pose proof V as (V1 & V2 & V3 & V4).
  destruct (@build_workers_ok N g data V1 V2 V3 V4) as (ws & Ew & Hws & _).
  destruct (@create_init_ok N g data V K2 K30 it centers dr Hini) as (s0 & s1 & c & E0 & E1 & Sh & _ & Es).
  destruct (floor_facts K2 K30) as (F2 & _ & F29 & Fc).
  pose proof (@start_ok N g ws data K2 K30 (ucelFP g ws data) c Sh) as R. cbn zeta in R. rewrite <- Es in R.
  assert (Hkeys : length (hm_keys (x_hcl s1)) = 1 /\ x_final s1 = []).
  { pose proof (all_length s1) as La. destruct (r_num R) as (a & Ha & _).
    rewrite Es. split; [|reflexivity]. cbn [x_hcl].
    assert (Hg : forall p x, hget (hm_put (repeat None (4 * hclust_floor (g_k g) - 1)) 0 (mkH c 1 2 false)) p = Some x <-> In (p, x) [(0, mkH c 1 2 false)]).
    { intros p x. rewrite hget_put. cbn [In]. destruct (Nat.eqb_spec p 0) as [->|].
      - split; [intros [= <-]; auto|intros [X|[]]; injection X as <-; auto].
      - split; [|intros [X|[]]; congruence]. unfold hget. destruct (nth_error _ p) as [y|] eqn:E; [|discriminate].
        apply nth_error_In, repeat_spec in E. subst y. discriminate. }
    destruct (@keys_perm_list N _ [(0, mkH c 1 2 false)] ltac:(repeat constructor; cbn; tauto) Hg) as (Pk & _).
    rewrite (Permutation_length Pk). reflexivity. }
  destruct Hkeys as (Hk1 & Hf0).
  assert (HL : okab (h_loop g ws data scheds fuel 0 s1) (done_ok g ws data (ucelFP g ws data) 0 2) (unassignable g data)).
  { apply (@h_loop_ok N g ws data V Hws K2 K30 Hm Hi (ucelFP g ws data) (fun _ _ _ _ X => X) (@ucelFPs N g ws data Hws) 0 scheds (Hf ws Ew) fuel 0 s1 R).
    - lia.
    - unfold leaves2. rewrite Hf0, Hk1. cbn [length]. lia.
    - unfold leaves2. rewrite Hf0, Hk1. cbn [length]. lia.
    - lia.
    - unfold q_of. rewrite Hf0, Hk1. cbn [length]. lia. }
  unfold h_run. rewrite E0. cbn [Base.bind]. rewrite Ew. cbn [Base.bind]. rewrite E1. cbn [Base.bind].
  destruct (h_loop g ws data scheds fuel 0 s1) as [s2|e]; cbn [okab Base.bind] in *; [|destruct HL as (-> & U); split; auto].
  pose proof (@complete_final_ok N g ws data K2 (ucelFP g ws data) (fun _ _ _ _ X => X) 0 2 s2 HL) as HC. destruct (complete_final g s2) as [s3|e]; [|destruct HC]. cbn [okp Base.bind] in *.
  assert (ND : forall s : hst N, no_empty s \/ ~ no_empty s).
  { intros s. unfold no_empty. destruct (@Forall_Exists_dec _ (fun i => 0 < count_eq i (x_asg s)) (fun i => lt_dec 0 _) (map fst (x_final s))) as [Y|Y].
    - left. rewrite Forall_forall in Y. exact Y.
    - right. intros X. apply Exists_exists in Y as (i & Hin & Hc). apply Hc, X, Hin. }
  destruct bind; cbn [Base.bind].
  { exists ws. splits; auto. discriminate. }
  destruct (Z.lt_ge_cases (Z.of_nat (g_nrow g)) (2 ^ 31)) as [Hn|Hn].
  - destruct (@verify_ok N g (ucelFP g ws data) 2 s3 HC Hn) as (A & B). destruct (ND s3) as [Y|Y].
    + rewrite (A Y). cbn [Base.bind]. exists ws. splits; auto.
    + rewrite (B Y). cbn [Base.bind]. split; auto. right. split; auto. right. exists s3. auto.
  - destruct (verify_consistency g s3) as [u|e] eqn:Ev; cbn [Base.bind].
    + exists ws. splits; auto. intros _ X. lia.
    + split; [|right; split; auto].
      revert Ev. unfold verify_consistency, assert_. destruct (_ =? _); cbn [Base.bind]; [destruct (_ =? _)%Z; congruence|congruence].
Qed.
End WholeRun.
