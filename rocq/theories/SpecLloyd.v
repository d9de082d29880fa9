(** Lloyd's algorithm as a property of the sequence of assignments a run makes,
    independent of how and by how many threads or processes it is computed. *)
From Coq Require Import Reals Lra Lia List.
From Verif Require Import Base Num Spec DistModel ClustersModel ClustersView PartitionModel ParModel KmeansModel PruneModel.
From Verif Require Import DistProofs PropertiesKmeans PropertiesKmeansR PropertiesDistRun PropertiesDistKmspp PropertiesDistSame.
Set Implicit Arguments.
Local Open Scope R_scope.

Section Spec.
Variables (g : kcfg NumR) (data : list R).

(** centroid [a] of [C] is a nearest one of row [x] *)
Definition near_to (C : nat -> list R) (x a : nat) : Prop :=
  (a < g_k g)%nat /\
  forall j, (j < g_k g)%nat -> rdist (g_dt g) (row data (g_ncol g) x) (C a) <= rdist (g_dt g) (row data (g_ncol g) x) (C j).

(** the centroids turn [i] starts from: the first ones, then the means of the last assignment *)
Definition cents_before (M0 : nat -> list R) (tr : list (list (option nat))) (i : nat) : nat -> list R :=
  match i with O => M0 | S i' => cluster_mean g data (nth i' tr []) end.

(** [tr]: the assignments after every turn; [conv]: the run stopped because few rows moved *)
Record lloyd (M0 : nat -> list R) (tr : list (list (option nat))) (conv : bool) : Prop := {
  ll_assign : forall i A, nth_error tr i = Some A -> length A = g_nrow g /\
     forall x, (x < g_nrow g)%nat -> exists a, nth x A None = Some a /\ near_to (cents_before M0 tr i) x a;
  ll_max : (length tr <= g_max_iters g)%nat;
  ll_stop : forall i A, nth_error tr i = Some A ->
     stop_test g (if (i =? 0)%nat then g_nrow g else moved (nth (i - 1) tr []) A) = (conv && (S i =? length tr)%nat)%bool;
  ll_full : conv = false -> length tr = g_max_iters g;
  ll_turn : conv = true -> tr <> []
}.

(** no row is equally near to two centroids when it is assigned *)
Definition no_ties (M0 : nat -> list R) (tr : list (list (option nat))) : Prop :=
  forall i A x a j, nth_error tr i = Some A -> (x < g_nrow g)%nat -> nth x A None = Some a -> (j < g_k g)%nat -> j <> a ->
    rdist (g_dt g) (row data (g_ncol g) x) (cents_before M0 tr i a) < rdist (g_dt g) (row data (g_ncol g) x) (cents_before M0 tr i j).

Lemma cents_before_ext M0 M0' tr tr' i : (forall j, (j < g_k g)%nat -> M0 j = M0' j) ->
  (forall i', (i' < i)%nat -> nth_error tr i' = nth_error tr' i') ->
  forall j, (j < g_k g)%nat -> cents_before M0 tr i j = cents_before M0' tr' i j.
Proof.
  intros H0 H j Hj. destruct i as [|i]; [exact (H0 j Hj)|]. cbn [cents_before].
  rewrite <- !(nth_default_eq _ _ []). unfold nth_default. rewrite (H i) by lia. reflexivity.
Qed.

(** without ties there is only one such run *)
Lemma lloyd_prefix M0 M0' tr tr' conv conv' : lloyd M0 tr conv -> lloyd M0' tr' conv' -> (forall j, (j < g_k g)%nat -> M0 j = M0' j) ->
  no_ties M0 tr -> forall i, (i < length tr)%nat -> (i < length tr')%nat -> nth_error tr i = nth_error tr' i.
Proof.
  intros L L' H0 Hn i. induction i as [i IH] using (well_founded_induction lt_wf). intros Hi Hi'.
  destruct (nth_error tr i) as [A|] eqn:E; [|apply nth_error_None in E; lia].
  destruct (nth_error tr' i) as [A'|] eqn:E'; [|apply nth_error_None in E'; lia]. f_equal.
  destruct (ll_assign L _ E) as (LA & HA). destruct (ll_assign L' _ E') as (LA' & HA').
  assert (Hc : forall j, (j < g_k g)%nat -> cents_before M0 tr i j = cents_before M0' tr' i j).
  { apply cents_before_ext; [exact H0|]. intros i' Hlt. apply IH; lia. }
  apply nth_ext with (d := None) (d' := None); [lia|]. intros x Hx. rewrite LA in Hx.
  destruct (HA x Hx) as (a & Ea & Ha & Hna). destruct (HA' x Hx) as (a' & Ea' & Ha' & Hna'). rewrite Ea, Ea'.
  destruct (Nat.eq_dec a' a) as [-> |Hne]; [reflexivity|]. exfalso.
  pose proof (@Hn i A x a a' E Hx Ea Ha' Hne) as Hlt. specialize (Hna' a Ha). rewrite <- !Hc in Hna' by assumption. lra.
Qed.

Lemma lloyd_shorter M0 M0' tr tr' conv conv' : lloyd M0 tr conv -> lloyd M0' tr' conv' ->
  (forall i, (i < length tr)%nat -> (i < length tr')%nat -> nth_error tr i = nth_error tr' i) ->
  (length tr < length tr')%nat -> False.
Proof.
  intros L L' Hp Hlt. destruct conv; [|pose proof (ll_full L eq_refl); pose proof (ll_max L'); lia].
  assert (Hne : (0 < length tr)%nat) by (pose proof (ll_turn L eq_refl); destruct tr; [congruence|cbn; lia]).
  set (i := (length tr - 1)%nat). assert (Hi : (i < length tr)%nat) by (unfold i; lia).
  destruct (nth_error tr i) as [A|] eqn:E; [|apply nth_error_None in E; lia].
  assert (E' : nth_error tr' i = Some A) by (rewrite <- Hp by lia; exact E).
  pose proof (ll_stop L _ E) as S1. pose proof (ll_stop L' _ E') as S2.
  replace (S i =? length tr)%nat with true in S1 by (symmetry; apply Nat.eqb_eq; unfold i; lia).
  replace (S i =? length tr')%nat with false in S2 by (symmetry; apply Nat.eqb_neq; unfold i; lia).
  rewrite Bool.andb_false_r in S2. cbn [andb] in S1.
  destruct (Nat.eqb_spec i 0) as [Hz|Hz]; [congruence|].
  assert (En : nth (i - 1) tr [] = nth (i - 1) tr' []).
  { rewrite <- !(nth_default_eq _ _ []). unfold nth_default. rewrite (Hp (i - 1)%nat) by lia. reflexivity. }
  rewrite En in S1. congruence.
Qed.

Theorem lloyd_unique M0 M0' tr tr' conv conv' : lloyd M0 tr conv -> lloyd M0' tr' conv' -> (forall j, (j < g_k g)%nat -> M0 j = M0' j) ->
  no_ties M0 tr -> tr = tr' /\ conv = conv'.
Proof.
  intros L L' H0 Hn. pose proof (lloyd_prefix L L' H0 Hn) as Hp.
  assert (El : length tr = length tr').
  { destruct (Nat.lt_trichotomy (length tr) (length tr')) as [Hlt|[He|Hlt]]; [exfalso; exact (lloyd_shorter L L' Hp Hlt)|exact He|].
    exfalso. apply (lloyd_shorter L' L); [|exact Hlt]. intros i H1 H2. symmetry. apply Hp; assumption. }
  assert (Et : tr = tr').
  { apply Base.nth_error_ext. intros i. destruct (Nat.lt_ge_cases i (length tr)) as [Hi|Hi]; [apply Hp; lia|]. rewrite (proj2 (nth_error_None tr i)) by lia. symmetry. apply nth_error_None. lia. }
  split; [exact Et|]. subst tr'. destruct (Nat.eq_dec (length tr) 0) as [Hz|Hz].
  - destruct tr; [|discriminate]. destruct conv; [exfalso; exact (ll_turn L eq_refl eq_refl)|]. destruct conv'; [exfalso; exact (ll_turn L' eq_refl eq_refl)|reflexivity].
  - set (i := (length tr - 1)%nat). destruct (nth_error tr i) as [A|] eqn:E; [|apply nth_error_None in E; unfold i in E; lia].
    pose proof (ll_stop L _ E) as S1. pose proof (ll_stop L' _ E) as S2. rewrite S1 in S2.
    replace (S i =? length tr)%nat with true in S2 by (symmetry; apply Nat.eqb_eq; unfold i; lia). rewrite !Bool.andb_true_r in S2. exact S2.
Qed.
End Spec.

(** the runs of a task do not depend on the number of threads *)
Lemma lloyd_task g g' data M0 tr conv : same_task g g' -> lloyd g data M0 tr conv -> lloyd g' data M0 tr conv.
Proof.
  intros T L. pose proof T as ((E1 & E2 & E3 & E4) & E5 & E6). constructor.
  - intros i A E. destruct (ll_assign L _ E) as (LA & HA). rewrite <- E1. split; [exact LA|]. intros x Hx. destruct (HA x Hx) as (a & Ea & Hn). exists a. split; [exact Ea|].
    unfold near_to, cents_before, cluster_mean in *. rewrite <- E1, <- E2, <- E3, <- E4. exact Hn.
  - rewrite <- E5. exact (ll_max L).
  - intros i A E. rewrite <- (ll_stop L _ E). unfold stop_test. rewrite <- E1, <- E6. reflexivity.
  - rewrite <- E5. exact (ll_full L).
  - exact (ll_turn L).
Qed.
Lemma no_ties_task g g' data M0 tr : same_task g g' -> no_ties g data M0 tr -> no_ties g' data M0 tr.
Proof.
  intros T L. pose proof T as ((E1 & E2 & E3 & E4) & _). unfold no_ties, cents_before, cluster_mean in *. rewrite <- E1, <- E2, <- E3, <- E4. exact L.
Qed.
Lemma same_task_sym g g' : same_task g g' -> same_task g' g.
Proof. unfold same_task, same_problem. intros ((E1 & E2 & E3 & E4) & E5 & E6). splits; congruence. Qed.
