(** C24-C25: the dissimilarities and the option names. *)
From Coq Require Import Reals Lra String.
From Verif Require Import Base Num Spec MatLemmas VecLemmas DistModel DistProofs.
Local Open Scope R_scope.

(** C24: what the code computes on the [n] numbers two pointers point to. *)
Theorem C24_values : forall n (p q : ptr R) x y,
  slice (fst p) (snd p) n = x -> slice (fst q) (snd q) n = y -> length x = n -> length y = n ->
  dist_comp_raw NumR p q n EUCL = Ok (sqrt (rsum (map2 (fun a b => (a - b) * (a - b)) x y))) /\
  dist_comp_raw NumR p q n SQEUCL = Ok (rsum (map2 (fun a b => (a - b) * (a - b)) x y)) /\
  dist_comp_raw NumR p q n TAXI = Ok (rsum (map2 (fun a b => Rabs (a - b)) x y)) /\
  dist_comp_raw NumR p q n COS =
    Ok (1 - rsum (map2 Rmult x y) / (sqrt (rsum (map2 Rmult x x)) * sqrt (rsum (map2 Rmult y y)))).
Proof.
  intros n p q x y Hx Hy Lx Ly.
  pose proof (fun dt => @dist_comp_raw_ok NumR dt p q n x y Hx Hy Lx Ly) as H.
  splits; rewrite H, ldist_R; reflexivity.
Qed.
Print Assumptions C24_values.

(** C24: the laws, stated on what the code returns for pointers to vectors of length n. *)
Theorem C24_metric_laws : forall n dt, dt = EUCL \/ dt = TAXI ->
  forall x y z : list R, length x = n -> length y = n -> length z = n ->
  exists xy yx yz xz,
    dist_comp_raw NumR (x, 0%nat) (y, 0%nat) n dt = Ok xy /\
    dist_comp_raw NumR (y, 0%nat) (x, 0%nat) n dt = Ok yx /\
    dist_comp_raw NumR (y, 0%nat) (z, 0%nat) n dt = Ok yz /\
    dist_comp_raw NumR (x, 0%nat) (z, 0%nat) n dt = Ok xz /\
    0 <= xy /\ (xy = 0 <-> x = y) /\ xy = yx /\ xz <= xy + yz.
Proof.
  intros n dt Hdt x y z Hx Hy Hz.
  assert (S : forall l : list R, length l = n -> slice (fst (l, 0%nat)) (snd (l, 0%nat)) n = l).
  { intros l <-. apply slice_all. }
  pose proof (fun u v Hu Hv => @dist_comp_raw_ok NumR dt (u, 0%nat) (v, 0%nat) n u v (S u Hu) (S v Hv) Hu Hv) as H.
  exists (rdist dt x y), (rdist dt y x), (rdist dt y z), (rdist dt x z).
  splits; try (rewrite H by assumption; rewrite ldist_R; reflexivity);
    destruct Hdt as [-> | ->]; cbn [rdist].
  - apply edist_pos.
  - apply tdist_pos.
  - split; [apply edist_zero; congruence|intros ->; apply edist_refl].
  - split; [apply tdist_zero; congruence|intros ->; apply tdist_refl].
  - apply edist_sym.
  - apply tdist_sym.
  - apply edist_triangle; congruence.
  - apply tdist_triangle; congruence.
Qed.
Print Assumptions C24_metric_laws.

Theorem C24_squared : forall n (x y : list R), length x = n -> length y = n ->
  exists e, dist_comp_raw NumR (x, 0%nat) (y, 0%nat) n EUCL = Ok e /\
    dist_comp_raw NumR (x, 0%nat) (y, 0%nat) n SQEUCL = Ok (e * e).
Proof.
  intros n x y Hx Hy.
  assert (S : forall l : list R, length l = n -> slice (fst (l, 0%nat)) (snd (l, 0%nat)) n = l).
  { intros l <-. apply slice_all. }
  exists (edist x y).
  rewrite (@dist_comp_raw_ok NumR EUCL (x, 0%nat) (y, 0%nat) n x y (S x Hx) (S y Hy) Hx Hy).
  rewrite (@dist_comp_raw_ok NumR SQEUCL (x, 0%nat) (y, 0%nat) n x y (S x Hx) (S y Hy) Hx Hy).
  rewrite !ldist_R. cbn [rdist]. rewrite edist_sq. auto.
Qed.
Print Assumptions C24_squared.

(** a vector that is not the zero vector *)
Definition nonzero (x : list R) : Prop := exists a, In a x /\ a <> 0.

Theorem C24_cosine : forall n (x y : list R) s, length x = n -> length y = n ->
  nonzero x -> nonzero y -> 0 < s ->
  exists v, dist_comp_raw NumR (x, 0%nat) (y, 0%nat) n COS = Ok v /\ 0 <= v <= 2 /\
    dist_comp_raw NumR (y, 0%nat) (x, 0%nat) n COS = Ok v /\
    dist_comp_raw NumR (map (Rmult s) x, 0%nat) (y, 0%nat) n COS = Ok v.
Proof.
  intros n x y s Hx Hy Nx Ny Hs.
  apply dot_pos_nonzero in Nx. apply dot_pos_nonzero in Ny.
  assert (S : forall l : list R, length l = n -> slice (fst (l, 0%nat)) (snd (l, 0%nat)) n = l).
  { intros l <-. apply slice_all. }
  pose proof (fun u v Hu Hv => @dist_comp_raw_ok NumR COS (u, 0%nat) (v, 0%nat) n u v (S u Hu) (S v Hv) Hu Hv) as H.
  assert (Hsx : length (map (Rmult s) x) = n) by (rewrite map_length; exact Hx).
  exists (cosdis x y). rewrite !H by assumption. rewrite !ldist_R. cbn [rdist].
  splits; auto; try (apply cosdis_range; auto; congruence).
  - rewrite cosdis_sym. reflexivity.
  - f_equal. apply cosdis_scale; assumption.
Qed.
Print Assumptions C24_cosine.

Example C24_example : nonzero [3; 4] /\ nonzero [0; -1] /\ length [3; 4] = length [0; -1].
Proof. splits; [exists 3|exists (-1)|reflexivity]; (split; [simpl; auto|lra]). Qed.

(** C25 *)
Theorem C25_dist_names : forall s : string,
  (get_dist_type s = Ok EUCL <-> s = "eucl"%string) /\
  (get_dist_type s = Ok COS <-> s = "cos"%string) /\
  (get_dist_type s = Ok TAXI <-> s = "taxi"%string) /\
  (get_dist_type s = Ok SQEUCL <-> s = "sqeucl"%string) /\
  (get_dist_type s = Err Throw <->
     ~ In s ["eucl"; "cos"; "taxi"; "sqeucl"]%string).
Proof.
  intros s. unfold get_dist_type. cbn [In].
  destruct (String.eqb_spec s "eucl"); [subst; splits; split; intros; try discriminate; try tauto|].
  destruct (String.eqb_spec s "cos"); [subst; splits; split; intros; try discriminate; try tauto|].
  destruct (String.eqb_spec s "taxi"); [subst; splits; split; intros; try discriminate; try tauto|].
  destruct (String.eqb_spec s "sqeucl"); [subst; splits; split; intros; try discriminate; try tauto|].
  splits; split; intros; try discriminate; try contradiction; auto.
  intros [E|[E|[E|[E|E]]]]; try (symmetry in E); contradiction.
Qed.
Print Assumptions C25_dist_names.

Theorem C25_init_names : forall s : string,
  (get_init_type s = Ok RANDOM <-> s = "random"%string) /\
  (get_init_type s = Ok FORGY <-> s = "forgy"%string) /\
  (get_init_type s = Ok PLUSPLUS <-> s = "kmeanspp"%string) /\
  (get_init_type s = Ok NONE <-> s = "none"%string) /\
  (get_init_type s = Err Throw <->
     ~ In s ["random"; "forgy"; "kmeanspp"; "none"]%string).
Proof.
  intros s. unfold get_init_type. cbn [In].
  destruct (String.eqb_spec s "random"); [subst; splits; split; intros; try discriminate; try tauto|].
  destruct (String.eqb_spec s "forgy"); [subst; splits; split; intros; try discriminate; try tauto|].
  destruct (String.eqb_spec s "kmeanspp"); [subst; splits; split; intros; try discriminate; try tauto|].
  destruct (String.eqb_spec s "none"); [subst; splits; split; intros; try discriminate; try tauto|].
  splits; split; intros; try discriminate; try contradiction; auto.
  intros [E|[E|[E|[E|E]]]]; try (symmetry in E); contradiction.
Qed.
Print Assumptions C25_init_names.

Example C25_example : get_dist_type "taxi" = Ok TAXI /\ get_dist_type "Taxi" = Err Throw.
Proof. split; reflexivity. Qed.
